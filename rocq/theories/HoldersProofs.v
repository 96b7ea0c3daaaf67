(** Proofs that the tagged unions are boxes. *)
From Coq Require Import List Bool Arith Lia.
From Verif Require Import Prelude Holders HoldersSpec.
Import ListNotations.
Open Scope nat_scope.

(** * Lists of slots *)

Lemma put_length : forall {A} (l : list A) a x, length (put l a x) = length l.
Proof. induction l as [| y l IH]; intros [| a] x; cbn; congruence. Qed.

Lemma slot_put_same : forall {A} (l : list (option A)) a x, a < length l -> slot (put l a x) a = x.
Proof.
  unfold slot. induction l as [| y l IH]; intros [| a] x H; cbn in *; try lia; [reflexivity |].
  apply IH; lia.
Qed.

Lemma slot_put_other : forall {A} (l : list (option A)) a b x, b <> a -> slot (put l a x) b = slot l b.
Proof.
  unfold slot. induction l as [| y l IH]; intros [| a] [| b] x H; cbn in *; try lia; auto.
Qed.

Lemma put_put : forall {A} (l : list A) a x y, put (put l a x) a y = put l a y.
Proof. induction l as [| z l IH]; intros [| a] x y; cbn; congruence. Qed.

Lemma put_comm : forall {A} (l : list A) a b x y, a <> b -> put (put l a x) b y = put (put l b y) a x.
Proof.
  induction l as [| z l IH]; intros [| a] [| b] x y H; cbn; try congruence.
  f_equal. apply IH. congruence.
Qed.

Lemma put_map : forall {A B} (f : A -> B) l a x, put (map f l) a (f x) = map f (put l a x).
Proof. induction l as [| z l IH]; intros [| a] x; cbn; congruence. Qed.

Lemma nth_error_put_same : forall {A} (l : list A) a x, a < length l -> nth_error (put l a x) a = Some x.
Proof.
  induction l as [| y l IH]; intros [| a] x H; cbn in *; try lia; [reflexivity |]. apply IH; lia.
Qed.

Lemma nth_error_put_other : forall {A} (l : list A) a b x, b <> a -> nth_error (put l a x) b = nth_error l b.
Proof. induction l as [| y l IH]; intros [| a] [| b] x H; cbn; auto; try congruence. Qed.

Lemma nth_error_less : forall {A} (l : list A) a x, nth_error l a = Some x -> a < length l.
Proof. intros. apply nth_error_Some. congruence. Qed.

Lemma put_same : forall {A} (l : list A) a x, nth_error l a = Some x -> put l a x = l.
Proof.
  induction l as [| y l IH]; intros [| a] x H; cbn in *; try congruence. f_equal. auto.
Qed.

(** * Counting objects *)

Definition weight {C} (object : C -> bool) (b : option C) : nat :=
  match b with Some c => if object c then 1 else 0 | None => 0 end.

Lemma objects_put : forall {C} (object : C -> bool) s a x y,
  nth_error s a = Some x ->
  objects object (put s a y) + weight object x = objects object s + weight object y.
Proof.
  induction s as [| z s IH]; intros [| a] x y H; cbn in *; try congruence.
  - injection H as ->. destruct x, y; cbn; repeat match goal with |- context [if ?b then _ else _] => destruct b end;
      lia.
  - specialize (IH a x y H). destruct z; lia.
Qed.

(** * Scopes *)

Definition may {X Q} (askable : Q -> bool) (makes : X -> bool) (used : list bool) (o : op X Q) : bool :=
  match o with
  | New a x => free_at used a && makes x
  | Copy a b | Move a b => free_at used a && exists_at used b
  | Assign a b | Assign_move a b => exists_at used a && exists_at used b
  | Delete a => exists_at used a
  | Look a q => exists_at used a && askable q
  end.

Definition then_used {X Q} (used : list bool) (o : op X Q) : list bool :=
  match o with
  | New a _ | Copy a _ | Move a _ => put used a true
  | Delete a => put used a false
  | Assign _ _ | Assign_move _ _ | Look _ _ => used
  end.

Lemma scoped_cons : forall {X Q} askable makes used (o : op X Q) rest,
  scoped askable makes used (o :: rest) =
  may askable makes used o && scoped askable makes (then_used used o) rest.
Proof. intros. destruct o; cbn; try reflexivity; rewrite ?andb_assoc; reflexivity. Qed.

Lemma in_use_put : forall {C} (s : boxes C) a x,
  in_use (put s a x) = put (in_use s) a (match x with Some _ => true | None => false end).
Proof.
  intros. unfold in_use. symmetry.
  exact (put_map (fun b : option C => match b with Some _ => true | None => false end) s a x).
Qed.

Lemma in_use_at : forall {C} (s : boxes C) a x,
  nth_error s a = Some x -> nth_error (in_use s) a = Some (match x with Some _ => true | None => false end).
Proof.
  intros C s a x H. unfold in_use.
  exact (map_nth_error (fun b : option C => match b with Some _ => true | None => false end) _ _ H).
Qed.

Lemma exists_box : forall {C} (s : boxes C) a,
  exists_at (in_use s) a = true -> exists c, nth_error s a = Some (Some c).
Proof.
  intros C s a. unfold exists_at. revert a.
  induction s as [| [c |] s IH]; intros [| a] H; cbn in *; try congruence; eauto.
Qed.

Lemma free_box : forall {C} (s : boxes C) a, free_at (in_use s) a = true -> nth_error s a = Some None.
Proof.
  intros C s a. unfold free_at. revert a.
  induction s as [| [c |] s IH]; intros [| a] H; cbn in *; try congruence; auto.
Qed.

Lemma does_uses : forall {C X Q A} content leaves tells (s : boxes C) (o : op X Q) s' (l : list A),
  does content leaves tells s o s' l -> in_use s' = then_used (in_use s) o.
Proof.
  intros C X Q A content leaves tells s o s' l H.
  destruct H; cbn; rewrite ?in_use_put; try reflexivity.
  - (* Move *)
    apply put_same. rewrite nth_error_put_other.
    + apply (in_use_at _ _ _ H0).
    + intros ->. congruence.
  - apply put_same. apply (in_use_at _ _ _ H).
  - rewrite (put_same (in_use s) a true).
    + apply put_same. apply (in_use_at _ _ _ H0).
    + apply (in_use_at _ _ _ H).
Qed.

(** * One step is enough *)

Section Simulation.
  Context {O F C X Q A : Type}.
  Context (content : X -> C -> Prop) (leaves : C -> C -> Prop) (tells : C -> Q -> A -> Prop).
  Context (askable : Q -> bool) (makes : X -> bool).
  Context (rep : C -> cell O F) (object : C -> bool) (valid : C -> Prop).
  Context (step : memory O F -> op X Q -> outcome unit (memory O F * list A)).

  (** The memory represents the boxes: the living member and the tag are those of the content, and as many objects
      are alive as there should be. *)
  Definition represents (m : memory O F) (s : boxes C) : Prop :=
    slots m = map (option_map rep) s /\ born m = died m + objects object s /\
    (forall a c, nth_error s a = Some (Some c) -> valid c).

  Definition simulates (m : memory O F) (s : boxes C) (o : op X Q) : Prop :=
    exists m' s' l, step m o = Ok (m', l) /\ does content leaves tells s o s' l /\ represents m' s'.

  Lemma simulates_all : forall (allowed : op X Q -> bool),
    (forall m s o, represents m s -> allowed o = true -> may askable makes (in_use s) o = true ->
                   simulates m s o) ->
    forall ops m s, represents m s -> forallb allowed ops = true ->
      scoped askable makes (in_use s) ops = true ->
      exists m' s' l, run_all step m ops = Ok (m', l) /\
                      does_all content leaves tells s ops s' l /\ represents m' s'.
  Proof.
    intros allowed H ops. induction ops as [| o rest IH]; intros m s R Al Sc.
    - exists m, s, []. repeat split; try apply R. constructor.
    - cbn in Al. apply andb_prop in Al as [Al1 Al2].
      rewrite scoped_cons in Sc. apply andb_prop in Sc as [Sc1 Sc2].
      destruct (H m s o R Al1 Sc1) as (m1 & s1 & l1 & E1 & D1 & R1).
      rewrite <- (does_uses _ _ _ _ _ _ _ D1) in Sc2.
      destruct (IH m1 s1 R1 Al2 Sc2) as (m2 & s2 & l2 & E2 & D2 & R2).
      exists m2, s2, (l1 ++ l2). repeat split; try apply R2.
      + cbn. rewrite E1. cbn. rewrite E2. reflexivity.
      + econstructor; eassumption.
  Qed.

  Lemma rep_slot : forall m s a b,
    represents m s -> nth_error s a = Some b -> slot (slots m) a = option_map rep b.
  Proof.
    intros m s a b (Hs & _ & _) H. rewrite Hs. unfold slot.
    apply nth_error_nth. apply (map_nth_error (option_map rep) _ _ H).
  Qed.

  Lemma rep_length : forall m s a b, represents m s -> nth_error s a = Some b -> a < length (slots m).
  Proof. intros m s a b (Hs & _ & _) H. rewrite Hs, map_length. eapply nth_error_less; eauto. Qed.

  Lemma rep_put1 : forall m s a x y n d,
    represents m s -> nth_error s a = Some x ->
    n + died m + weight object x = born m + d + weight object y ->
    (forall c, y = Some c -> valid c) ->
    represents (Memory (put (slots m) a (option_map rep y)) n d) (put s a y).
  Proof.
    intros m s a x y n d (Hs & Hn & Hv) H Hc Hy. split; [| split]; cbn.
    - rewrite Hs. apply put_map.
    - pose proof (objects_put object s a x y H). lia.
    - intros b c Hb. destruct (Nat.eq_dec b a) as [-> | Hne].
      + rewrite nth_error_put_same in Hb by (eapply nth_error_less; eauto).
        apply Hy. congruence.
      + rewrite nth_error_put_other in Hb by assumption. eauto.
  Qed.

  Lemma rep_put2 : forall m s a b x y x' y' n d,
    represents m s -> a <> b -> nth_error s a = Some x -> nth_error s b = Some y ->
    n + died m + weight object x + weight object y = born m + d + weight object x' + weight object y' ->
    (forall c, x' = Some c -> valid c) -> (forall c, y' = Some c -> valid c) ->
    represents (Memory (put (put (slots m) a (option_map rep x')) b (option_map rep y')) n d)
               (put (put s a x') b y').
  Proof.
    intros m s a b x y x' y' n d R Hne Ha Hb Hc Hx Hy.
    pose proof (objects_put object s a x x' Ha).
    assert (R1 : represents (Memory (put (slots m) a (option_map rep x'))
                                    (died m + objects object (put s a x')) (died m)) (put s a x')).
    { apply (rep_put1 m s a x x'); auto. destruct R as (_ & Hn & _). lia. }
    apply (rep_put1 _ (put s a x') b y y') with (n := n) (d := d) in R1; cbn in *; auto.
    - rewrite nth_error_put_other by auto. exact Hb.
    - destruct R as (_ & Hn & _). lia.
  Qed.
End Simulation.
Arguments represents {O F C} rep object valid m s.

(** Computing with memories. *)
Ltac facts R :=
  repeat match goal with
  | H : nth_error ?s ?a = Some ?b |- _ =>
      lazymatch goal with
      | H' : slot (slots _) a = _ |- _ => fail
      | _ => let H1 := fresh "At" in let H2 := fresh "Le" in
             pose proof (rep_slot _ _ _ _ _ _ _ R H) as H1;
             pose proof (rep_length _ _ _ _ _ _ _ R H) as H2; cbn in H1
      end
  end.

Ltac slot_step :=
  match goal with
  | |- context [slot (put ?l ?a ?x) ?a] => rewrite (slot_put_same l a x) by (rewrite ?put_length; assumption)
  | |- context [slot (put ?l ?a ?x) ?b] => rewrite (slot_put_other l a b x) by congruence
  | H : slot ?l ?a = _ |- context [slot ?l ?a] => rewrite H
  | H : ?a < length _ |- context [?a <? length _] =>
      rewrite (proj2 (Nat.ltb_lt a _)) by (rewrite ?put_length; assumption)
  end; cbn [bind tag alive slots born died option_map m_value m_error only_error andb negb fst snd].

Ltac slots_go := repeat slot_step.

Ltac one := match goal with H : exists_at (in_use ?s) ?a = true |- _ => apply exists_box in H as [? H]
                       | H : free_at (in_use ?s) ?a = true |- _ => apply free_box in H
            end.
Ltac boxes := cbn [may] in *; repeat match goal with H : _ && _ = true |- _ => apply andb_prop in H as [? ?] end;
  repeat one.

(** * [Result<T, Error>] *)

Section Results.
  Context {T E : Type} (moved_value : T -> T) (moved_error : E -> E).

  Definition result_rep (c : T + E) : cell (T + E) bool :=
    Cell (Some c) (match c with inl _ => true | inr _ => false end).

  Definition always {C} (_ : C) : bool := true.
  Definition anything {C} (_ : C) : Prop := True.

  Notation rep := (represents result_rep always anything).

  Ltac unfolds := unfold result_step, silent, result_from, result_copy, result_move, result_assign, result_delete,
    result_look, overwrite, destroy, read, construct, retag, begin, finish, tag_of, result_rep in *;
    cbn [bind tag alive slots born died option_map m_value m_error only_error andb negb fst snd] in *.

  Ltac close := slots_go; rewrite ?put_put; reflexivity.

  Lemma result_simulates : forall m s o,
    rep m s -> no_move_assignment [o] = true -> may always always (in_use s) o = true ->
    simulates eq result_leaves result_tells result_rep always anything
              (result_step moved_value moved_error) m s o.
  Proof.
    intros m s o R Hn Hm. destruct o as [a c | a b | a b | a b | a b | a | a q]; boxes; facts R.
    - (* New *)
      exists (Memory (put (slots m) a (Some (result_rep c))) (S (born m)) (died m)), (put s a (Some c)), [].
      split; [| split].
      + unfolds. destruct c; close.
      + econstructor; eauto.
      + apply (rep_put1 _ _ _ m s a None (Some c)); cbn; auto; try lia. intros; exact I.
    - (* Copy *)
      rename x into c.
      exists (Memory (put (slots m) a (Some (result_rep c))) (S (born m)) (died m)), (put s a (Some c)), [].
      split; [| split].
      + assert (b <> a) by congruence. unfolds. destruct c; close.
      + econstructor; eauto.
      + apply (rep_put1 _ _ _ m s a None (Some c)); cbn; auto; try lia. intros; exact I.
    - (* Move *)
      rename x into c.
      set (c' := match c with inl v => inl (moved_value v) | inr e => inr (moved_error e) end : T + E).
      exists (Memory (put (put (slots m) a (Some (result_rep c))) b (Some (result_rep c'))) (S (born m)) (died m)),
        (put (put s a (Some c)) b (Some c')), [].
      assert (b <> a) by congruence.
      split; [| split].
      + unfolds. destruct c; subst c'; close.
      + econstructor; eauto. destruct c; exact I.
      + apply (rep_put2 _ _ _ m s a b None (Some c) (Some c) (Some c')); cbn; auto; try lia; intros; exact I.
    - (* Assign *)
      rename x0 into old. rename x into c.
      destruct (Nat.eq_dec a b) as [<- | Hne].
      + exists m, s, []. split; [| split]; [| | exact R].
        * unfolds. slots_go. rewrite Nat.eqb_refl. reflexivity.
        * replace s with (put s a (Some c)) at 2 by (apply put_same; assumption). econstructor; eauto.
      + set (k := match old, c with inl _, inl _ => 0 | inr _, inr _ => 0 | _, _ => 1 end).
        exists (Memory (put (slots m) a (Some (result_rep c))) (k + born m) (k + died m)), (put s a (Some c)), [].
        split; [| split].
        * pose proof (proj2 (Nat.eqb_neq a b) Hne) as Eq. unfolds.
          destruct c, old; subst k; slots_go; rewrite Eq;
            cbn [bind tag alive slots born died option_map m_value m_error only_error andb negb fst snd]; slots_go; rewrite ?put_put; reflexivity.
        * econstructor; eauto.
        * apply (rep_put1 _ _ _ m s a (Some old) (Some c)); cbn; auto; try lia. intros; exact I.
    - (* Assign_move *) discriminate Hn.
    - (* Delete *)
      rename x into c.
      exists (Memory (put (slots m) a None) (born m) (S (died m))), (put s a None), []. split; [| split].
      + unfolds. destruct c; close.
      + econstructor; eauto.
      + apply (rep_put1 _ _ _ m s a (Some c) None); cbn; auto; try lia. intros; exact I.
    - (* Look *)
      rename x into c.
      eexists m, s, [match q, c with
                     | Has_value, inl _ => Flag true
                     | Has_value, inr _ => Flag false
                     | Value, inl v => Object (inl v)
                     | Value, inr _ => Thrown
                     | Error_of, inl _ => Thrown
                     | Error_of, inr e => Object (inr e)
                     end]. split; [| split]; [| | exact R].
      + unfolds. destruct c, q; close.
      + econstructor; eauto. reflexivity.
  Qed.

  (** The body of the move assignment alone. *)
  Lemma result_assign_move_works : forall m s a b old c,
    rep m s -> nth_error s a = Some (Some old) -> nth_error s b = Some (Some c) ->
    exists m' c', result_assign_move_body moved_value moved_error m a b = Ok m' /\ result_leaves c c' /\
                  rep m' (put (put s a (Some c)) b (Some c')).
  Proof.
    intros m s a b old c R Ha Hb. facts R.
    set (c' := match c with inl v => inl (moved_value v) | inr e => inr (moved_error e) end : T + E).
    assert (L : result_leaves c c') by (destruct c; exact I).
    destruct (Nat.eq_dec a b) as [<- | Hne].
    - replace old with c in * by congruence.
      exists (Memory (put (slots m) a (Some (result_rep c'))) (born m) (died m)), c'.
      split; [| split]; [| exact L |].
      + unfold result_assign_move_body. unfolds. destruct c; subst c'; slots_go; rewrite ?put_put; reflexivity.
      + rewrite put_put. apply (rep_put1 _ _ _ m s a (Some c) (Some c')); cbn; auto; try lia. intros; exact I.
    - set (k := match old, c with inl _, inl _ => 0 | inr _, inr _ => 0 | _, _ => 1 end).
      exists (Memory (put (put (slots m) a (Some (result_rep c))) b (Some (result_rep c'))) (k + born m) (k + died m)), c'.
      split; [| split]; [| exact L |].
      + unfold result_assign_move_body. unfolds.
        assert (b <> a) by congruence.
        destruct c, old; subst k c'; slots_go;
          rewrite ?(put_comm _ b a) by assumption; rewrite ?put_put; try reflexivity.
      + apply (rep_put2 _ _ _ m s a b (Some old) (Some c) (Some c) (Some c')); cbn; auto; try lia; intros; exact I.
  Qed.

  Lemma result_assign_move_never : forall m a b,
    exists s, s = result_assign_move moved_value moved_error m a b /\ forall m', s <> Ok m'.
  Proof.
    intros. eexists. split; [reflexivity |]. intros m'. unfold result_assign_move.
    destruct (result_assign_move_body _ _ m a b); cbn; congruence.
  Qed.
End Results.

(** * [Result<void, Error>] *)

Section Statuses.
  Context {E : Type} (moved_error : E -> E).

  Definition status_rep (c : option E) : cell E bool :=
    Cell c (match c with None => true | Some _ => false end).

  Definition failed (c : option E) : bool := match c with Some _ => true | None => false end.

  Notation rep := (represents status_rep failed anything).

  Ltac unfolds := unfold status_step, silent, status_from, status_copy, status_move, status_assign, status_delete,
    status_look, overwrite, destroy, read, construct, retag, begin, finish, tag_of, status_rep in *;
    cbn [bind tag alive slots born died option_map m_value m_error only_error andb negb fst snd] in *.
  Ltac close := slots_go; rewrite ?put_put; reflexivity.

  Lemma status_assign_works : forall m s a b old c,
    rep m s -> nth_error s a = Some (Some old) -> nth_error s b = Some (Some c) ->
    exists m', status_assign m a b = Ok m' /\ rep m' (put s a (Some c)).
  Proof.
    intros m s a b old c R Ha Hb. facts R.
    destruct (Nat.eq_dec a b) as [<- | Hne].
    - exists m. split.
      + unfolds. slots_go. rewrite Nat.eqb_refl. reflexivity.
      + rewrite put_same by assumption. exact R.
    - exists (Memory (put (slots m) a (Some (status_rep c)))
               (match old, c with None, Some _ => 1 | _, _ => 0 end + born m)
               (match old, c with Some _, None => 1 | _, _ => 0 end + died m)).
      split.
      + pose proof (proj2 (Nat.eqb_neq a b) Hne) as Eq. unfolds.
        destruct c, old; slots_go; rewrite Eq;
            cbn [bind tag alive slots born died option_map m_value m_error only_error andb negb fst snd]; slots_go; rewrite ?put_put; try reflexivity.
        cbn. destruct m as [l n d]; cbn in *. f_equal. f_equal. symmetry.
        destruct R as (Hs & _ & _). cbn in Hs. subst l.
        change (Some (Cell None true)) with (option_map status_rep (Some None)).
        rewrite put_map, put_same; auto.
      + apply (rep_put1 _ _ _ m s a (Some old) (Some c)); auto; [destruct old, c; cbn; lia | intros; exact I].
  Qed.

  Lemma status_simulates : forall m s o,
    rep m s -> always o = true -> may always always (in_use s) o = true ->
    simulates eq status_leaves status_tells status_rep failed anything
              (status_step moved_error) m s o.
  Proof.
    intros m s o R _ Hm. destruct o as [a c | a b | a b | a b | a b | a | a q]; boxes; facts R.
    - (* New *)
      exists (Memory (put (slots m) a (Some (status_rep c))) (weight failed (Some c) + born m) (died m)),
        (put s a (Some c)), [].
      split; [| split].
      + unfolds. destruct c; close.
      + econstructor; eauto.
      + apply (rep_put1 _ _ _ m s a None (Some c)); cbn; auto; try lia. intros; exact I.
    - (* Copy *)
      rename x into c.
      exists (Memory (put (slots m) a (Some (status_rep c))) (weight failed (Some c) + born m) (died m)),
        (put s a (Some c)), [].
      split; [| split].
      + assert (b <> a) by congruence. unfolds. destruct c; close.
      + econstructor; eauto.
      + apply (rep_put1 _ _ _ m s a None (Some c)); cbn; auto; try lia. intros; exact I.
    - (* Move *)
      rename x into c.
      assert (b <> a) by congruence.
      exists (Memory (put (put (slots m) a (Some (status_rep c))) b (Some (status_rep (option_map moved_error c))))
                (weight failed (Some c) + born m) (died m)),
        (put (put s a (Some c)) b (Some (option_map moved_error c))), [].
      split; [| split].
      + unfolds. destruct c; slots_go; rewrite ?put_put; try reflexivity.
        cbn. destruct m as [l n d]; cbn in *. f_equal. f_equal. f_equal.
        destruct R as (Hs & _ & _). cbn in Hs. subst l.
        rewrite put_comm by auto. f_equal.
        change (Some (Cell None true)) with (option_map status_rep (Some None)).
        rewrite put_map, put_same; auto.
      + econstructor; eauto. destruct c; exact I.
      + apply (rep_put2 _ _ _ m s a b None (Some c) (Some c) (Some (option_map moved_error c)));
          auto; try (intros; exact I). destruct c; cbn; lia.
    - (* Assign *)
      destruct (status_assign_works m s a b _ _ R H H0) as (m' & E1 & R').
      exists m', (put s a (Some x)), []. split; [| split]; [| | exact R'].
      + cbn. rewrite E1. reflexivity.
      + econstructor; eauto.
    - (* Assign_move *)
      destruct (status_assign_works m s a b _ _ R H H0) as (m' & E1 & R').
      exists m', (put (put s a (Some x)) b (Some x)), []. split; [| split].
      + cbn. rewrite E1. reflexivity.
      + econstructor; eauto. destruct x; exact I.
      + rewrite put_same; [exact R' |].
        destruct (Nat.eq_dec b a) as [-> | Hne].
        * apply nth_error_put_same. eapply nth_error_less; eauto.
        * rewrite nth_error_put_other; auto.
    - (* Delete *)
      rename x into c.
      exists (Memory (put (slots m) a None) (born m) (weight failed (Some c) + died m)), (put s a None), [].
      split; [| split].
      + unfolds. destruct c; close.
      + econstructor; eauto.
      + apply (rep_put1 _ _ _ m s a (Some c) None); cbn; auto; try lia. intros; exact I.
    - (* Look *)
      rename x into c.
      eexists m, s, [match q, c with
                     | Has_value, None => Flag true
                     | Has_value, Some _ => Flag false
                     | Value, None => Flag true
                     | Value, Some _ => Thrown
                     | Error_of, None => Thrown
                     | Error_of, Some e => Object e
                     end]. split; [| split]; [| | exact R].
      + unfolds. destruct c, q; close.
      + econstructor; eauto. reflexivity.
  Qed.
End Statuses.

(** * Packs of types *)

Section Packs_facts.
  Context {A : Type} (eqb : A -> A -> bool).

  Lemma at_index_nth : forall i (ts : list A), at_index i ts = nth_error ts i.
  Proof. intros i ts. revert i. induction ts as [| t ts IH]; intros [| i]; cbn; auto. Qed.

  Lemma first_index_from_place : forall x ts i k,
    first_index_from eqb i x ts = Some k ->
    exists j, k = i + j /\ (exists u, nth_error ts j = Some u /\ eqb x u = true) /\
              forall h u, h < j -> nth_error ts h = Some u -> eqb x u = false.
  Proof.
    induction ts as [| t ts IH]; intros i k H; cbn in H; [discriminate |].
    destruct (eqb x t) eqn:E.
    - injection H as <-. exists 0. split; [lia |]. split; [exists t; auto |]. intros; lia.
    - destruct (IH _ _ H) as (j & -> & (u & Hu & Eu) & Hl). exists (S j). split; [lia |].
      split; [exists u; auto |]. intros [| h] w Hh Hw; cbn in Hw; [congruence |].
      apply (Hl h w); [lia | assumption].
  Qed.

  Lemma first_index_from_none : forall x ts i, first_index_from eqb i x ts = None -> existsb (eqb x) ts = false.
  Proof.
    induction ts as [| t ts IH]; intros i H; cbn in *; auto.
    destruct (eqb x t); [discriminate |]. eauto.
  Qed.

  Lemma first_index_some : forall x ts,
    existsb (eqb x) ts = true -> exists i, first_index_of eqb x ts = Some i /\ first_place eqb ts x i.
  Proof.
    intros x ts H. unfold first_index_of. destruct (first_index_from eqb 0 x ts) as [k |] eqn:E.
    - destruct (first_index_from_place _ _ _ _ E) as (j & -> & Hu & Hl). exists j. split; [reflexivity |].
      split; assumption.
    - apply first_index_from_none in E. congruence.
  Qed.

  Lemma first_place_unique : forall x ts i j, first_place eqb ts x i -> first_place eqb ts x j -> i = j.
  Proof.
    intros x ts i j ((u & Hu & Eu) & Hl) ((w & Hw & Ew) & Hl').
    destruct (Nat.lt_trichotomy i j) as [L | [L | L]]; auto.
    - specialize (Hl' i u L Hu). congruence.
    - specialize (Hl j w L Hw). congruence.
  Qed.

  Lemma last_index_from_place : forall x ts i r k,
    last_index_from eqb i r x ts = k ->
    (k = r /\ existsb (eqb x) ts = false) \/
    (exists j u, k = Some (i + j) /\ nth_error ts j = Some u /\ eqb x u = true /\
                 forall h w, j < h -> nth_error ts h = Some w -> eqb x w = false).
  Proof.
    induction ts as [| t ts IH]; intros i r k H; cbn in *.
    - left. split; congruence.
    - destruct (IH _ _ _ H) as [[Hk Hn] | (j & u & Hk & Hu & Eu & Hl)].
      + destruct (eqb x t) eqn:E.
        * right. exists 0, t. rewrite Nat.add_0_r. repeat split; auto.
          intros [| h] w Hh Hw; [lia |]. cbn in Hw.
          destruct (eqb x w) eqn:Ew; [| reflexivity]. exfalso.
          assert (existsb (eqb x) ts = true); [| congruence].
          apply existsb_exists. exists w. split; [eapply nth_error_In; eauto | assumption].
        * left. split; auto.
      + right. exists (S j), u. replace (i + S j) with (S i + j) by lia. repeat split; auto.
        intros [| h] w Hh Hw; [lia |]. apply (Hl h w); [lia | assumption].
  Qed.

  Lemma first_satisfying_place : forall p ts i k,
    first_satisfying_from p i ts = k ->
    (k = None /\ forallb (fun t : A => negb (p t)) ts = true) \/
    (exists j u, k = Some (i + j) /\ nth_error ts j = Some u /\ p u = true /\
                 forall h w, h < j -> nth_error ts h = Some w -> p w = false).
  Proof.
    induction ts as [| t ts IH]; intros i k H; cbn in *.
    - left. auto.
    - destruct (p t) eqn:E.
      + right. exists 0, t. rewrite Nat.add_0_r. repeat split; auto. intros; lia.
      + destruct (IH _ _ H) as [[Hk Hn] | (j & u & Hk & Hu & Eu & Hl)].
        * left. auto.
        * right. exists (S j), u. replace (i + S j) with (S i + j) by lia. repeat split; auto.
          intros [| h] w Hh Hw; cbn in Hw; [congruence |]. apply (Hl h w); [lia | assumption].
  Qed.

  Lemma contains_existsb : forall x ts, contains eqb x ts = existsb (eqb x) ts.
  Proof. induction ts as [| t ts IH]; cbn; congruence. Qed.
End Packs_facts.

(** * [Variant<Ts...>] *)

Section Variants_facts.
  Context {ty val : Type} (same : ty -> ty -> bool) (moved : val -> val) (nothrow_copy : ty -> bool).
  Context (ts : list ty).
  Hypothesis same_eq : forall t u, same t u = true <-> t = u.
  Hypothesis size : 2 <= length ts <= 25.

  Definition variant_rep (c : nat * val) : cell (ty * val) nat :=
    Cell (match nth_error ts (fst c) with Some t => Some (t, snd c) | None => None end) (fst c).

  Definition variant_valid (c : nat * val) : Prop := fst c < length ts.

  Notation rep := (represents variant_rep always variant_valid).

  Lemma same_refl : forall t, same t t = true.
  Proof. intros. apply same_eq. reflexivity. Qed.

  Lemma visit_ok : forall (m : variants (ty := ty) (val := val)) a i t v,
    slot (slots m) a = Some (Cell (Some (t, v)) i) -> nth_error ts i = Some t ->
    visit same ts m a = Ok (t, v).
  Proof.
    intros m a i t v H Ht. unfold visit, get_index, tag_of. rewrite H. cbn [bind tag].
    pose proof (nth_error_less _ _ _ Ht) as L.
    assert (C : i < cases (length ts)).
    { unfold cases. destruct (Nat.eqb_spec (length ts) 2); [lia |].
      destruct (Nat.leb_spec (length ts) 4); [lia |].
      destruct (Nat.leb_spec (length ts) 8); lia. }
    rewrite (proj2 (Nat.ltb_lt _ _) C), (proj2 (Nat.ltb_lt _ _) L). cbn [andb].
    rewrite at_index_nth, Ht. unfold read. rewrite H. cbn [bind tag alive].
    unfold assert_then, as_type. cbn [fst snd]. rewrite same_refl, Nat.eqb_refl. reflexivity.
  Qed.

  Lemma rep_variant : forall m s a c,
    rep m s -> nth_error s a = Some (Some c) ->
    exists t, nth_error ts (fst c) = Some t /\
              slot (slots m) a = Some (Cell (Some (t, snd c)) (fst c)) /\
              variant_rep c = Cell (Some (t, snd c)) (fst c).
  Proof.
    intros m s a c R H. pose proof (proj2 (proj2 R)) as Hv.
    pose proof (Hv a c H) as Lt. unfold variant_valid in Lt.
    destruct (nth_error ts (fst c)) as [t |] eqn:Et.
    - exists t. assert (Ev : variant_rep c = Cell (Some (t, snd c)) (fst c)) by (unfold variant_rep; rewrite Et; auto).
      split; [reflexivity |]. split; [| exact Ev].
      rewrite (rep_slot _ _ _ m s a (Some c) R H). cbn. rewrite Ev. reflexivity.
    - apply nth_error_None in Et. lia.
  Qed.

  Ltac unfolds := unfold variant_step, silent, variant_from, variant_copy, variant_move, variant_assign,
    variant_assign_move, variant_delete, variant_destroy, variant_look,
    overwrite, destroy, read, construct, retag, begin, finish, tag_of in *;
    cbn [bind tag alive slots born died option_map fst snd] in *.

  Ltac vis := match goal with
    | |- context [visit same ts ?m ?a] =>
        erewrite (visit_ok m a) by
          (cbn [slots]; slots_go; first [reflexivity | eassumption])
    end; cbn [bind tag alive slots born died option_map fst snd].

  Ltac vgo := repeat (first [slot_step | vis | progress (unfold as_type; cbn [fst snd]; rewrite ?same_refl)];
    cbn [bind tag alive slots born died option_map fst snd]).

  Lemma variant_simulates : forall m s o,
    rep m s -> always o = true -> may (variant_askable same ts) (variant_makes same ts) (in_use s) o = true ->
    simulates (variant_content same ts) variant_leaves (variant_tells same ts) variant_rep always variant_valid
              (variant_step same moved nothrow_copy ts) m s o.
  Proof.
    intros m s o R _ Hm. destruct o as [a x | a b | a b | a b | a b | a | a q]; boxes.
    - (* New *)
      destruct x as [t v]. destruct (first_index_some _ _ _ H0) as (i & Ei & Fi). cbn [fst] in *.
      pose proof Fi as ((u & Hu & Eu) & _). apply same_eq in Eu as <-.
      pose proof (rep_length _ _ _ _ _ _ _ R H) as Le.
      pose proof (rep_slot _ _ _ _ _ _ _ R H) as At. cbn in At.
      exists (Memory (put (slots m) a (Some (Cell (Some (t, v)) i))) (S (born m)) (died m)), (put s a (Some (i, v))), [].
      split; [| split].
      + unfolds. rewrite Ei. vgo. rewrite ?put_put. reflexivity.
      + econstructor; eauto. split; auto.
      + assert (Ev : variant_rep (i, v) = Cell (Some (t, v)) i) by (unfold variant_rep; cbn; rewrite Hu; auto).
        rewrite <- Ev.
        apply (rep_put1 _ _ _ m s a None (Some (i, v))); cbn; auto; try lia.
        intros c [= <-]. eapply nth_error_less; eauto.
    - (* Copy *)
      rename x into c. destruct (rep_variant _ _ _ _ R H0) as (t & Ht & At & Ev).
      pose proof (rep_length _ _ _ _ _ _ _ R H) as Le.
      pose proof (rep_slot _ _ _ _ _ _ _ R H) as At0. cbn in At0.
      assert (b <> a) by congruence.
      exists (Memory (put (slots m) a (Some (variant_rep c))) (S (born m)) (died m)), (put s a (Some c)), [].
      split; [| split].
      + unfolds. vgo. rewrite ?put_put, ?Ev. reflexivity.
      + econstructor; eauto.
      + apply (rep_put1 _ _ _ m s a None (Some c)); cbn; auto; try lia.
        intros ? [= <-]. destruct R as (_ & _ & V). eauto.
    - (* Move *)
      rename x into c. destruct (rep_variant _ _ _ _ R H0) as (t & Ht & At & Ev).
      pose proof (rep_length _ _ _ _ _ _ _ R H) as Le.
      pose proof (rep_length _ _ _ _ _ _ _ R H0) as Le0.
      pose proof (rep_slot _ _ _ _ _ _ _ R H) as At0. cbn in At0.
      assert (b <> a) by congruence.
      assert (Ev' : variant_rep (fst c, moved (snd c)) = Cell (Some (t, moved (snd c))) (fst c))
        by (unfold variant_rep; cbn; rewrite Ht; auto).
      exists (Memory (put (put (slots m) a (Some (variant_rep c))) b (Some (variant_rep (fst c, moved (snd c)))))
                     (S (born m)) (died m)),
        (put (put s a (Some c)) b (Some (fst c, moved (snd c)))), [].
      split; [| split].
      + unfolds. vgo. rewrite ?put_put, ?Ev, ?Ev'. reflexivity.
      + econstructor; eauto. reflexivity.
      + apply (rep_put2 _ _ _ m s a b None (Some c) (Some c) (Some (fst c, moved (snd c)))); cbn; auto; try lia;
          intros ? [= <-]; [| unfold variant_valid; cbn [fst]]; destruct R as (_ & _ & V);
          apply (V _ _ H0).
    - (* Assign *)
      rename x0 into old. rename x into c.
      destruct (rep_variant _ _ _ _ R H0) as (t & Ht & At & Ev).
      destruct (rep_variant _ _ _ _ R H) as (u & Hu & Au & Eu).
      pose proof (rep_length _ _ _ _ _ _ _ R H) as Le.
      pose proof (proj2 (proj2 R)) as V.
      pose proof (V _ _ H0) as Vc.
      assert (Hv : forall c0, Some c = Some c0 -> variant_valid c0) by (intros ? [= <-]; exact Vc).
      destruct (Nat.eqb_spec (fst old) (fst c)) as [Ei | Ei].
      + exists (Memory (put (slots m) a (Some (variant_rep c))) (born m) (died m)), (put s a (Some c)), [].
        split; [| split].
        * assert (u = t) by congruence. subst u. unfolds. vgo.
          rewrite (proj2 (Nat.eqb_eq _ _) Ei). vgo. rewrite ?Ev, ?Ei. reflexivity.
        * econstructor; eauto.
        * apply (rep_put1 _ _ _ m s a (Some old) (Some c)); cbn; auto; lia.
      + assert (a <> b) by congruence. assert (b <> a) by congruence.
        set (k := if nothrow_copy t then 1 else 2).
        exists (Memory (put (slots m) a (Some (variant_rep c))) (k + born m) (k + died m)), (put s a (Some c)), [].
        split; [| split].
        * unfolds. vgo. rewrite (proj2 (Nat.eqb_neq _ _) Ei). vgo.
          unfold temporary. destruct (nothrow_copy t); subst k;
            cbn [bind tag alive slots born died option_map fst snd]; vgo; rewrite ?put_put, ?Ev; reflexivity.
        * econstructor; eauto.
        * apply (rep_put1 _ _ _ m s a (Some old) (Some c)); cbn; auto; lia.
    - (* Assign_move *)
      rename x0 into old. rename x into c.
      destruct (rep_variant _ _ _ _ R H0) as (t & Ht & At & Ev).
      destruct (rep_variant _ _ _ _ R H) as (u & Hu & Au & Eu).
      pose proof (rep_length _ _ _ _ _ _ _ R H) as Le.
      pose proof (rep_length _ _ _ _ _ _ _ R H0) as Le0.
      assert (Ev' : variant_rep (fst c, moved (snd c)) = Cell (Some (t, moved (snd c))) (fst c))
        by (unfold variant_rep; cbn; rewrite Ht; auto).
      pose proof (proj2 (proj2 R)) as V.
      pose proof (V _ _ H0) as Vc.
      set (c' := (fst c, moved (snd c))).
      assert (Hv : forall c0, Some c = Some c0 -> variant_valid c0) by (intros ? [= <-]; exact Vc).
      assert (Hv' : forall c0, Some c' = Some c0 -> variant_valid c0) by (intros ? [= <-]; exact Vc).
      destruct (Nat.eq_dec a b) as [-> | Hne].
      { assert (old = c) by congruence. subst old. assert (u = t) by congruence. subst u.
        exists (Memory (put (slots m) b (Some (variant_rep c'))) (born m) (died m)),
          (put (put s b (Some c)) b (Some c')), [].
        split; [| split].
        - unfolds. vgo. rewrite Nat.eqb_refl. vgo. subst c'. rewrite ?put_put, ?Ev'. reflexivity.
        - econstructor; eauto. reflexivity.
        - rewrite put_put. apply (rep_put1 _ _ _ m s b (Some c) (Some c')); cbn; auto; lia. }
      assert (b <> a) by congruence.
      destruct (Nat.eqb_spec (fst old) (fst c)) as [Ei | Ei].
      + exists (Memory (put (put (slots m) a (Some (variant_rep c))) b (Some (variant_rep c'))) (born m) (died m)),
          (put (put s a (Some c)) b (Some c')), [].
        split; [| split].
        * assert (u = t) by congruence. subst u. unfolds. vgo.
          rewrite (proj2 (Nat.eqb_eq _ _) Ei). vgo. subst c'. rewrite ?Ev, ?Ev', ?Ei. reflexivity.
        * econstructor; eauto. reflexivity.
        * apply (rep_put2 _ _ _ m s a b (Some old) (Some c) (Some c) (Some c')); cbn; auto; lia.
      + exists (Memory (put (put (slots m) a (Some (variant_rep c))) b (Some (variant_rep c')))
                       (S (born m)) (S (died m))),
          (put (put s a (Some c)) b (Some c')), [].
        split; [| split].
        * unfolds. vgo. rewrite (proj2 (Nat.eqb_neq _ _) Ei). vgo. subst c'.
          rewrite (put_comm _ b a) by assumption. rewrite ?put_put, ?Ev, ?Ev'. reflexivity.
        * econstructor; eauto. reflexivity.
        * apply (rep_put2 _ _ _ m s a b (Some old) (Some c) (Some c) (Some c')); cbn; auto; lia.
    - (* Delete *)
      rename x into c. destruct (rep_variant _ _ _ _ R Hm) as (t & Ht & At & Ev).
      pose proof (rep_length _ _ _ _ _ _ _ R Hm) as Le.
      exists (Memory (put (slots m) a None) (born m) (S (died m))), (put s a None), []. split; [| split].
      + unfolds. vgo. rewrite ?put_put. reflexivity.
      + econstructor; eauto.
      + apply (rep_put1 _ _ _ m s a (Some c) None); cbn; auto; try lia. intros; discriminate.
    - (* Look *)
      rename x into c. destruct (rep_variant _ _ _ _ R H) as (t & Ht & At & Ev).
      assert (Answer : exists r, variant_look same ts q m a = Ok r /\ variant_tells same ts c q r).
      { destruct c as [i v]. cbn [fst snd] in *. unfold variant_look, tag_of. rewrite At. cbn [bind tag].
        destruct q as [j | u | j | u | j | u]; cbn in H0.
        - eexists. split; [reflexivity |]. constructor.
        - destruct (first_index_some _ _ _ H0) as (k & Ek & Fk). rewrite Ek.
          destruct (Nat.eqb_spec i k) as [-> | N]; eexists; (split; [reflexivity |]); econstructor; eauto.
        - apply Nat.ltb_lt in H0. rewrite at_index_nth.
          destruct (nth_error ts j) as [w |] eqn:Ej; [| apply nth_error_None in Ej; lia].
          destruct (Nat.eqb_spec i j) as [-> | N].
          + assert (w = t) by congruence. subst w. unfold read, as_type. rewrite At. cbn. rewrite same_refl.
            eexists; (split; [reflexivity |]). constructor. assumption.
          + eexists; (split; [reflexivity |]). constructor. assumption.
        - destruct (first_index_some _ _ _ H0) as (k & Ek & Fk). rewrite Ek.
          destruct (Nat.eqb_spec i k) as [-> | N].
          + assert (u = t). { destruct Fk as ((w & Hw & Ew) & _). apply same_eq in Ew. congruence. } subst u.
            unfold read, as_type. rewrite At. cbn. rewrite same_refl.
            eexists; (split; [reflexivity |]). constructor. assumption.
          + eexists; (split; [reflexivity |]). econstructor; eauto.
        - apply Nat.ltb_lt in H0. rewrite at_index_nth.
          destruct (nth_error ts j) as [w |] eqn:Ej; [| apply nth_error_None in Ej; lia].
          destruct (Nat.eqb_spec j i) as [-> | N].
          + assert (w = t) by congruence. subst w. unfold read, as_type. rewrite At. cbn. rewrite same_refl.
            eexists; (split; [reflexivity |]). constructor. assumption.
          + eexists; (split; [reflexivity |]). constructor. congruence.
        - destruct (first_index_some _ _ _ H0) as (k & Ek & Fk). rewrite Ek.
          destruct (Nat.eqb_spec k i) as [-> | N].
          + assert (u = t). { destruct Fk as ((w & Hw & Ew) & _). apply same_eq in Ew. congruence. } subst u.
            unfold read, as_type. rewrite At. cbn. rewrite same_refl.
            eexists; (split; [reflexivity |]). constructor. assumption.
          + eexists; (split; [reflexivity |]). econstructor; eauto. }
      destruct Answer as (r & Er & Tr). exists m, s, [r]. split; [| split]; [| | exact R].
      + cbn. rewrite Er. reflexivity.
      + econstructor; eauto.
  Qed.

  Lemma variant_equal_ok : forall equal m s a b c d,
    rep m s -> nth_error s a = Some (Some c) -> nth_error s b = Some (Some d) ->
    variant_equal same ts equal m a b =
    Ok (match nth_error ts (fst c) with
        | Some t => (fst c =? fst d) && equal (t, snd c) (t, snd d)
        | None => false
        end).
  Proof.
    intros equal m s a b c d R Ha Hb.
    destruct (rep_variant _ _ _ _ R Ha) as (t & Ht & At & Ev).
    destruct (rep_variant _ _ _ _ R Hb) as (u & Hu & Au & Eu).
    unfold variant_equal. unfolds. vgo. rewrite Ht.
    destruct (Nat.eqb_spec (fst c) (fst d)) as [Ei | Ei]; [| reflexivity].
    assert (u = t) by congruence. subst u. vgo. reflexivity.
  Qed.
End Variants_facts.
