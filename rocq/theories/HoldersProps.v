(** Final theorems about the tagged unions [Result] and [Variant]: property C71. *)
From Coq Require Import ZArith List Bool Arith Lia.
From Verif Require Import Prelude Holders HoldersSpec HoldersProofs.
Import ListNotations.
Open Scope nat_scope.

(** ** C71: a tagged union is a box with one content *)

(** The memory at the start of a program with [n] variables, none of which exists yet. *)
Definition nothing_yet {O F} (n : nat) : memory O F := Memory (repeat None n) 0 0.

Lemma nothing_yet_represents : forall {O F C} (rep : C -> cell O F) object valid n,
  represents rep object valid (nothing_yet n) (repeat None n).
Proof.
  intros. split; [| split]; cbn.
  - induction n; cbn; congruence.
  - induction n; cbn; auto.
  - intros a c H. exfalso. apply nth_error_In in H. apply repeat_spec in H. discriminate.
Qed.

Lemma nothing_in_use : forall {C} n, in_use (repeat (@None C) n) = repeat false n.
Proof. intros C n. induction n as [| n IH]; [reflexivity |]. unfold in_use in *. cbn. f_equal. exact IH. Qed.

(** [Result<T, Error>]: every program which does not assign from an rvalue is defined, sees what boxes would show,
    and keeps exactly the objects of the boxes alive: none is lost and none is destroyed twice. *)
Theorem C71_result : forall (T E : Type) (moved_value : T -> T) (moved_error : E -> E) n ops,
  no_move_assignment ops = true ->
  scoped (fun _ => true) (fun _ => true) (repeat false n) ops = true ->
  exists m s answers,
    run_all (result_step moved_value moved_error) (nothing_yet n) ops = Ok (m, answers) /\
    does_all eq result_leaves result_tells (repeat None n) ops s answers /\
    born m = died m + objects (fun _ => true) s.
Proof.
  intros T E mv me n ops Hn Hs.
  destruct (simulates_all eq result_leaves result_tells always always result_rep always anything
              (result_step mv me) (fun o => match o with Assign_move _ _ => false | _ => true end))
    with (ops := ops) (m := @nothing_yet (T + E) bool n) (s := repeat (@None (T + E)) n)
    as (m & s & l & R & D & (_ & B & _)).
  - intros m s o R Ho Hm. apply (result_simulates mv me m s o R); auto.
    unfold no_move_assignment, forallb. destruct o; cbn; auto.
  - apply nothing_yet_represents.
  - exact Hn.
  - rewrite nothing_in_use. exact Hs.
  - exists m, s, l. repeat split; assumption.
Qed.

(** Assigning from an rvalue is undefined whenever a program gets there: the function has no return statement. *)
Theorem C71_result_move_assignment : forall (T E : Type) (moved_value : T -> T) (moved_error : E -> E) n ops a b,
  no_move_assignment ops = true ->
  scoped (fun _ => true) (fun _ => true) (repeat false n) (ops ++ [Assign_move a b]) = true ->
  run_all (result_step moved_value moved_error) (nothing_yet n) (ops ++ [Assign_move a b]) = UB.
Proof.
  intros T E mv me n ops a b Hn Hs.
  rewrite <- (@nothing_in_use (T + E)) in Hs.
  pose proof (nothing_yet_represents (@result_rep T E) always anything n) as R.
  revert Hs R. generalize (@nothing_yet (T + E) bool n). generalize (repeat (@None (T + E)) n).
  induction ops as [| o ops IH]; intros s m Hs R.
  - cbn in Hs. rewrite andb_true_r in Hs. apply andb_prop in Hs as [Ha Hb].
    apply exists_box in Ha as [old Ha]. apply exists_box in Hb as [c Hb].
    destruct (result_assign_move_works mv me m s a b old c R Ha Hb) as (m' & c' & Eb & L & R').
    cbn. unfold result_assign_move. rewrite Eb. reflexivity.
  - cbn in Hn. apply andb_prop in Hn as [H1 H2].
    cbn [app] in Hs. rewrite scoped_cons in Hs. apply andb_prop in Hs as [S1 S2].
    destruct (result_simulates mv me m s o R) as (m1 & s1 & l1 & E1 & D1 & R1).
    + cbn. rewrite H1. reflexivity.
    + exact S1.
    + rewrite <- (does_uses _ _ _ _ _ _ _ D1) in S2.
      cbn. rewrite E1. cbn. rewrite (IH H2 s1 m1 S2 R1). reflexivity.
Qed.

(** What the body of this function does up to its end is right: only the return statement is missing. *)
Theorem C71_result_move_body : forall (T E : Type) (moved_value : T -> T) (moved_error : E -> E) m s a b old c,
  represents result_rep (fun _ => true) (fun _ => True) m s ->
  nth_error s a = Some (Some old) -> nth_error s b = Some (Some c) ->
  exists m' s', result_assign_move_body moved_value moved_error m a b = Ok m' /\
    does eq result_leaves result_tells s (Assign_move a b) s' [] /\
    represents result_rep (fun _ => true) (fun _ => True) m' s'.
Proof.
  intros T E mv me m s a b old c R Ha Hb.
  destruct (result_assign_move_works mv me m s a b old c R Ha Hb) as (m' & c' & Eb & L & R').
  exists m', (put (put s a (Some c)) b (Some c')). split; [exact Eb |]. split; [| exact R'].
  econstructor; eauto.
Qed.

(** So the claim without the restriction is false: two results and one assignment are enough. *)
Theorem C71_result_any_refuted : exists (ops : list (op (nat + bool) result_question)) n,
  scoped (fun _ => true) (fun _ => true) (repeat false n) ops = true /\
  run_all (result_step (fun v => v) (fun e => e)) (nothing_yet n) ops = UB.
Proof. exists [New 0 (inl 1); New 1 (inl 2); Assign_move 0 1], 2. split; reflexivity. Qed.

(** [Result<void, Error>]: the same for every program. *)
Theorem C71_status : forall (E : Type) (moved_error : E -> E) n ops,
  scoped (fun _ => true) (fun _ => true) (repeat false n) ops = true ->
  exists m s answers,
    run_all (status_step moved_error) (nothing_yet n) ops = Ok (m, answers) /\
    does_all eq status_leaves status_tells (repeat None n) ops s answers /\
    born m = died m + objects (fun c => match c with Some _ => true | None => false end) s.
Proof.
  intros E me n ops Hs.
  destruct (simulates_all eq status_leaves status_tells always always status_rep failed anything
              (status_step me) always)
    with (ops := ops) (m := @nothing_yet E bool n) (s := repeat (@None (option E)) n)
    as (m & s & l & R & D & (_ & B & _)).
  - intros m s o R Ho Hm. apply (status_simulates me m s o R); auto.
  - apply nothing_yet_represents.
  - clear. induction ops; auto.
  - rewrite nothing_in_use. exact Hs.
  - exists m, s, l. repeat split; assumption.
Qed.

(** [Variant<Ts...>] with 2 to 25 alternatives, also with a type that occurs twice: the same for every program, and two
    variants are equal if they have the same alternative and equal values. *)
Theorem C71_variant : forall (ty val : Type) (same : ty -> ty -> bool) (moved : val -> val)
    (nothrow_copy : ty -> bool) (ts : list ty),
  (forall t u, same t u = true <-> t = u) -> 2 <= length ts <= 25 ->
  forall n ops,
  scoped (variant_askable same ts) (variant_makes same ts) (repeat false n) ops = true ->
  exists m s answers,
    run_all (variant_step same moved nothrow_copy ts) (nothing_yet n) ops = Ok (m, answers) /\
    does_all (variant_content same ts) variant_leaves (variant_tells same ts) (repeat None n) ops s answers /\
    born m = died m + objects (fun _ => true) s /\
    forall equal a b i j x y, nth_error s a = Some (Some (i, x)) -> nth_error s b = Some (Some (j, y)) ->
      exists t, nth_error ts i = Some t /\
                variant_equal same ts equal m a b = Ok ((i =? j) && equal (t, x) (t, y)).
Proof.
  intros ty val same moved nothrow_copy ts Eq Size n ops Hs.
  destruct (simulates_all (variant_content same ts) variant_leaves (variant_tells same ts)
              (variant_askable same ts) (variant_makes same ts) (variant_rep ts) always (variant_valid ts)
              (variant_step same moved nothrow_copy ts) always)
    with (ops := ops) (m := @nothing_yet (ty * val) nat n) (s := repeat (@None (nat * val)) n)
    as (m & s & l & R & D & Rep).
  - intros m s o R Ho Hm. apply (variant_simulates same moved nothrow_copy ts Eq Size m s o R); auto.
  - apply nothing_yet_represents.
  - clear. induction ops; auto.
  - rewrite nothing_in_use. exact Hs.
  - exists m, s, l. repeat split; try assumption; [apply Rep |].
    intros equal a b i j x y Ha Hb.
    destruct (rep_variant ts Size m s a (i, x) Rep Ha) as (t & Ht & _ & _).
    exists t. split; [exact Ht |].
    rewrite (variant_equal_ok same ts Eq Size equal m s a b (i, x) (j, y) Rep Ha Hb). cbn [fst snd] in *.
    rewrite Ht. reflexivity.
Qed.

(** When all variables are gone, every object that was made has been destroyed, each once. *)
Theorem C71_nothing_lost : forall (C : Type) (object : C -> bool) (s : boxes C) born died,
  born = died + objects object s -> (forall a, exists_at (in_use s) a = false) -> born = died.
Proof.
  intros C object s born died H Hg.
  assert (Z : objects object s = 0); [| lia].
  clear H. induction s as [| b s IH]; [reflexivity |].
  pose proof (Hg 0) as H0. unfold exists_at in H0. cbn in H0. destruct b; [discriminate |].
  cbn. apply IH. intros a. apply (Hg (S a)).
Qed.

(** The positions in packs of types. *)
Theorem C71_packs : forall (A : Type) (same : A -> A -> bool) (x : A) (ts : list A),
  (forall i, first_index_of same x ts = Some i <-> first_place same ts x i) /\
  (forall i, last_index_of same x ts = Some i <->
     (exists u, nth_error ts i = Some u /\ same x u = true) /\
     forall j u, i < j -> nth_error ts j = Some u -> same x u = false) /\
  (contains same x ts = true <-> exists i, first_index_of same x ts = Some i).
Proof.
  intros A same x ts.
  assert (First : forall i, first_index_of same x ts = Some i <-> first_place same ts x i).
  { intros i. split.
    - intros H. destruct (first_index_from_place _ _ _ _ _ H) as (j & -> & Hu & Hl). split; assumption.
    - intros H. destruct (first_index_some same x ts) as (k & Ek & Fk).
      + destruct H as ((u & Hu & Eu) & _). apply existsb_exists. exists u. split; auto.
        eapply nth_error_In; eauto.
      + rewrite Ek. f_equal. eapply first_place_unique; eauto. }
  split; [exact First |]. split.
  - intros i. split.
    + intros H. destruct (last_index_from_place _ _ _ _ _ _ H) as [[Hk _] | (j & u & Hk & Hu & Eu & Hl)].
      * discriminate.
      * injection Hk as ->. split; [exists u; auto | assumption].
    + intros ((u & Hu & Eu) & Hl).
      destruct (last_index_from_place same x ts 0 None _ eq_refl) as [[_ Hn] | (j & w & Hk & Hw & Ew & Hl')].
      * exfalso. assert (existsb (same x) ts = true); [| congruence].
        apply existsb_exists. exists u. split; auto. eapply nth_error_In; eauto.
      * unfold last_index_of. rewrite Hk. f_equal. cbn.
        destruct (Nat.lt_trichotomy i j) as [L | [L | L]]; auto.
        -- specialize (Hl j w L Hw). congruence.
        -- specialize (Hl' i u L Hu). congruence.
  - rewrite contains_existsb. split.
    + intros H. destruct (first_index_some same x ts H) as (i & Ei & _). eauto.
    + intros (i & Hi). apply First in Hi. destruct Hi as ((u & Hu & Eu) & _).
      apply existsb_exists. exists u. split; auto. eapply nth_error_In; eauto.
Qed.

(** A program with three results: copies, moves, changes of the alternative and deletions; moving leaves 0. *)
Example C71_example_result :
  run_all (result_step (fun _ : nat => 0) (fun e : bool => e)) (nothing_yet 3)
    [New 0 (inl 7); New 1 (inr true); Copy 2 0; Assign 2 1; Look 2 Error_of; Assign 1 0; Look 1 Value;
     Look 1 Error_of; Delete 2; Move 2 1; Look 1 Value; Look 2 Value; Delete 0; Delete 1; Delete 2]
  = Ok (Memory [None; None; None] 6 6,
        [Object (inr true); Object (inl 7); Thrown; Object (inl 0); Object (inl 7)]).
Proof. vm_compute. reflexivity. Qed.

(** A program with two variants of the types 10, 20 and 10: the third alternative is never chosen. *)
Example C71_example_variant :
  run_all (variant_step Nat.eqb (fun _ : nat => 0) (fun t => t =? 10) [10; 20; 10]) (nothing_yet 2)
    [New 0 (10, 5); New 1 (20, 6); Look 0 (Holds 10); Look 1 (Get 1); Assign 0 1; Look 0 (Get_if_type 20);
     Look 0 (Get 2); Delete 1; New 1 (10, 8); Assign_move 0 1; Look 0 (Get_type 10); Look 1 (Get 0);
     Delete 0; Delete 1]
  = Ok (Memory [None; None] 6 6,
        [Flag true; Object (20, 6); Object (20, 6); Thrown; Object (10, 8); Object (10, 0)]).
Proof. vm_compute. reflexivity. Qed.

Example C71_example_packs :
  first_index_of Nat.eqb 3 [1; 3; 2; 3] = Some 1 /\ last_index_of Nat.eqb 3 [1; 3; 2; 3] = Some 3 /\
  first_index_of Nat.eqb 4 [1; 3; 2; 3] = None.
Proof. repeat split. Qed.

(** * Assumptions of the theorems above *)
Print Assumptions C71_result.
Print Assumptions C71_result_move_assignment.
Print Assumptions C71_result_move_body.
Print Assumptions C71_result_any_refuted.
Print Assumptions C71_status.
Print Assumptions C71_variant.
Print Assumptions C71_nothing_lost.
Print Assumptions C71_packs.
