(** The grammar of C expressions is unambiguous: a text is read in at most one way. *)
From Coq Require Import ZArith Ascii String List Bool Lia.
From Verif Require Import Prelude Text Types Literals DecimalSpec CGrammar.
Import ListNotations.
Open Scope string_scope.
Open Scope list_scope.
Open Scope nat_scope.

Lemma str_injective : forall p q, str p = str q -> p = q.
Proof.
  intros p q H. apply (f_equal string_of_list_ascii) in H. unfold str in H.
  rewrite !string_of_list_ascii_of_string in H. exact H.
Qed.
Lemma punct_injective : forall p q, punct p = punct q -> p = q.
Proof. intros p q H. apply str_injective. injection H as H. exact H. Qed.

Ltac in_list H := cbn [In operators_at unary_operators increments] in H;
  repeat (match type of H with _ \/ _ => destruct H as [H|H] | False => destruct H | _ = _ => idtac end).

(** ** First tokens *)

Definition first_token (w : c_token) : Prop :=
  match w with
  | Word x => c_name x \/ x = str "true" \/ x = str "false"
  | Number _ => True
  | Punct x => exists q, x = str q /\ In q (["("] ++ unary_operators ++ increments)
  end.

Definition starts_well (ts : list c_token) : Prop := exists w r, ts = w :: r /\ first_token w.

Lemma starts_app : forall ts us, starts_well ts -> starts_well (ts ++ us).
Proof. intros ts us (w & r & -> & F). exists w, (r ++ us). auto. Qed.

Lemma derives_starts : forall k ts t, derives k ts t -> starts_well ts.
Proof.
  induction 1; try (apply starts_app; assumption); try assumption.
  - exists (punct "("), (ys ++ punct ")" :: ts). split; [reflexivity|]. exists "(". split; [reflexivity | cbn; auto].
  - exists (punct op), ts. split; [reflexivity|]. exists op. split; [reflexivity|]. apply in_or_app. right.
    apply in_or_app. left. assumption.
  - exists (punct op), ts. split; [reflexivity|]. exists op. split; [reflexivity|]. apply in_or_app. right.
    apply in_or_app. right. assumption.
  - exists (punct "("), (ts ++ [punct ")"]). split; [reflexivity|]. exists "(". split; [reflexivity | cbn; auto].
  - exists (Word x), []. split; [reflexivity|]. left. assumption.
  - exists (Number x), []. split; [reflexivity | exact Logic.I].
  - exists (word "true"), []. split; [reflexivity|]. right. left. reflexivity.
  - exists (word "false"), []. split; [reflexivity|]. right. right. reflexivity.
Qed.

Lemma derives_nonempty : forall k ts t, derives k ts t -> 0 < length ts.
Proof. intros k ts t H. destruct (derives_starts _ _ _ H) as (w & r & -> & _). cbn. lia. Qed.

Lemma not_first : forall q r, ~ In q (["("] ++ unary_operators ++ increments) -> ~ starts_well (punct q :: r).
Proof.
  intros q r N (w & r' & E & F). injection E as <- <-. destruct F as (p & E & P).
  apply str_injective in E. subst p. exact (N P).
Qed.

(** ** What may follow *)

Definition continues (k : nat) (q : string) : Prop :=
  (k <= 14 /\ In q ["("; "++"; "--"]) \/ (exists j, k <= j /\ In q (operators_at j)) \/ (k <= 1 /\ q = "?").
Definition ends (k : nat) (r : list c_token) : Prop :=
  match r with [] => True | w :: _ => forall q, continues k q -> w <> punct q end.

Lemma continues_up : forall k q, continues (S k) q -> continues k q.
Proof.
  intros k q [(L & H) | [(j & L & H) | (L & H)]]; [left; split; [lia | exact H] | right; left; exists j; split; [lia | exact H] |].
  right. right. split; [lia | exact H].
Qed.
Lemma ends_up : forall k r, ends k r -> ends (S k) r.
Proof. intros k [|w r] H; [exact H|]. intros q Q. exact (H q (continues_up _ _ Q)). Qed.
Lemma ends_le : forall k j r, k <= j -> ends k r -> ends j r.
Proof. intros k j r L H. induction L; [exact H | apply ends_up; assumption]. Qed.

Lemma ends_prefix : forall k r, k <= 14 -> ends k r -> ends 12 r.
Proof.
  intros k [|w r] L H; [exact Logic.I|]. intros q [(M & Q) | [(j & M & Q) | (M & _)]]; try lia.
  - apply H. left. auto.
  - exfalso. do 12 (destruct j as [|j]; [lia|]). destruct Q.
Qed.

Definition level_of (q : string) : option nat :=
  find (fun k => existsb (String.eqb q) (operators_at k)) (seq 0 12).

Lemma operators_bound : forall k q, In q (operators_at k) -> k < 12.
Proof. intros k q H. do 12 (destruct k as [|k]; [lia|]). destruct H. Qed.
Lemma level_of_spec : forall k q, In q (operators_at k) -> level_of q = Some k.
Proof.
  intros k q H. do 12 (destruct k as [|k]; [in_list H; subst q; reflexivity|]). destruct H.
Qed.
Lemma operators_unique : forall j k q, In q (operators_at j) -> In q (operators_at k) -> j = k.
Proof. intros j k q J K. apply level_of_spec in J. apply level_of_spec in K. congruence. Qed.

Lemma ends_operator : forall j k q r, In q (operators_at j) -> j < k -> ends k (punct q :: r).
Proof.
  intros j k q r Q L p [(_ & P) | [(i & I1 & P) | (_ & P)]] E; apply punct_injective in E; subst p.
  - pose proof (level_of_spec _ _ Q) as V. in_list P; subst q; discriminate V.
  - pose proof (operators_unique _ _ _ Q P). lia.
  - subst q. pose proof (level_of_spec _ _ Q) as V. discriminate V.
Qed.
Lemma ends_other : forall k q r, ~ In q ["("; "++"; "--"] -> level_of q = None -> q <> "?" -> ends k (punct q :: r).
Proof.
  intros k q r A B C p [(_ & P) | [(i & _ & P) | (_ & P)]] E; apply punct_injective in E; subst p; [tauto | | congruence].
  apply level_of_spec in P. congruence.
Qed.
Lemma ends_question : forall k r, 1 < k -> ends k (punct "?" :: r).
Proof.
  intros k r L p [(_ & P) | [(i & _ & P) | (M & P)]] E; apply punct_injective in E; subst p.
  - in_list P; discriminate.
  - apply level_of_spec in P. discriminate P.
  - lia.
Qed.
Lemma ends_close : forall k r, ends k (punct ")" :: r).
Proof. intros k r. apply ends_other; [cbn; intuition discriminate | reflexivity | discriminate]. Qed.
Lemma ends_colon : forall k r, ends k (punct ":" :: r).
Proof. intros k r. apply ends_other; [cbn; intuition discriminate | reflexivity | discriminate]. Qed.
Lemma ends_comma : forall k r, 1 <= k -> ends k (punct "," :: r).
Proof. intros k r L. apply (ends_operator 0); [cbn; auto | lia]. Qed.

Lemma not_ends_operator : forall k q r, In q (operators_at k) -> ~ ends k (punct q :: r).
Proof. intros k q r Q E. apply (E q); [right; left; exists k; auto | reflexivity]. Qed.
Lemma not_ends_always : forall k q r, k <= 14 -> In q ["("; "++"; "--"] -> ~ ends k (punct q :: r).
Proof. intros k q r K Q E. apply (E q); [left; auto | reflexivity]. Qed.
Lemma ends_primary : forall r, ends 15 r.
Proof.
  intros [|w r]; [exact Logic.I|]. intros q [(L & _) | [(j & L & H) | (L & _)]]; try lia.
  apply operators_bound in H. lia.
Qed.

(** ** The levels *)

(** What follows the first operand of a sequence of operators of one level. *)
Inductive steps (k : nat) : c_tree -> list c_token -> c_tree -> Prop :=
| s_nil : forall a, steps k a [] a
| s_cons : forall a op us b rest t, In op (operators_at k) -> derives (S k) us b ->
    steps k (C_Binary (str op) a b) rest t -> steps k a (punct op :: us ++ rest) t.

Lemma steps_snoc : forall k a rest t, steps k a rest t -> forall op us b, In op (operators_at k) -> derives (S k) us b ->
  steps k a (rest ++ punct op :: us) (C_Binary (str op) t b).
Proof.
  induction 1 as [a | a op us b rest t O1 D S0 IH]; intros op' us' b' O' D'; cbn.
  - rewrite <- (app_nil_r us'). eapply s_cons; [exact O' | exact D' | constructor].
  - rewrite <- app_assoc. eapply s_cons; [exact O1 | exact D | apply IH; assumption].
Qed.

Lemma level_binary : forall k ts t, derives k ts t -> k <> 1 -> k < 12 ->
  exists hs a rest, ts = hs ++ rest /\ derives (S k) hs a /\ steps k a rest t.
Proof.
  intros k ts t H. induction H; intros N L; try lia.
  - exists ts, t, []. split; [symmetry; apply app_nil_r|]. split; [assumption | constructor].
  - destruct (IHderives1 N L) as (hs & h & rest & -> & D & S0).
    exists hs, h, (rest ++ punct op :: us). split; [symmetry; apply app_assoc|]. split; [exact D|].
    apply steps_snoc; assumption.
Qed.

(** The same after the first part of a [postfix-expression]. *)
Inductive suffixes : c_tree -> list c_token -> c_tree -> Prop :=
| x_nil : forall a, suffixes a [] a
| x_call : forall a us args rest t, derives_arguments us args -> suffixes (C_Call a args) rest t ->
    suffixes a (punct "(" :: us ++ punct ")" :: rest) t
| x_increment : forall a op rest t, In op increments -> suffixes (C_Postfix (str op) a) rest t ->
    suffixes a (punct op :: rest) t.

Lemma suffixes_call : forall a rest t, suffixes a rest t -> forall us args, derives_arguments us args ->
  suffixes a (rest ++ punct "(" :: us ++ [punct ")"]) (C_Call t args).
Proof.
  induction 1; intros us' args' D; cbn.
  - apply (x_call _ _ args' []); [exact D | constructor].
  - rewrite <- app_assoc. cbn. eapply x_call; [eassumption | apply IHsuffixes; assumption].
  - apply x_increment; [assumption | apply IHsuffixes; assumption].
Qed.
Lemma suffixes_increment : forall a rest t, suffixes a rest t -> forall op, In op increments ->
  suffixes a (rest ++ [punct op]) (C_Postfix (str op) t).
Proof.
  induction 1; intros op' D; cbn.
  - apply x_increment; [exact D | constructor].
  - rewrite <- app_assoc. cbn. eapply x_call; [eassumption | apply IHsuffixes; assumption].
  - apply x_increment; [assumption | apply IHsuffixes; assumption].
Qed.

Lemma level_postfix : forall k ts t, derives k ts t -> k = 14 ->
  exists hs a rest, ts = hs ++ rest /\ derives 15 hs a /\ suffixes a rest t.
Proof.
  intros k ts t H. induction H; intros K; try discriminate K.
  - subst k. exists ts, t, []. split; [symmetry; apply app_nil_r|]. split; [assumption | constructor].
  - subst k. match goal with O : In _ _ |- _ => destruct O end.
  - destruct (IHderives eq_refl) as (hs & h & rest & -> & D & S0).
    exists hs, h, (rest ++ punct "(" :: us ++ [punct ")"]). split; [symmetry; apply app_assoc|]. split; [exact D|].
    apply suffixes_call; assumption.
  - destruct (IHderives eq_refl) as (hs & h & rest & -> & D & S0).
    exists hs, h, (rest ++ [punct op]). split; [symmetry; apply app_assoc|]. split; [exact D|].
    apply suffixes_increment; assumption.
Qed.

Lemma level_conditional : forall ts t, derives 1 ts t ->
  derives 2 ts t \/
  exists cs c us a vs b, ts = cs ++ punct "?" :: us ++ punct ":" :: vs /\ t = C_Conditional c a b /\
    derives 2 cs c /\ derives 0 us a /\ derives 1 vs b.
Proof.
  intros ts t H. inversion H; subst.
  - left. assumption.
  - match goal with O : In _ _ |- _ => destruct O end.
  - right. repeat eexists; eassumption.
Qed.
Lemma level_cast : forall ts t, derives 12 ts t ->
  derives 13 ts t \/
  exists ys y us a, ts = punct "(" :: ys ++ punct ")" :: us /\ t = C_Cast y a /\ names_type ys y /\ derives 12 us a.
Proof.
  intros ts t H. inversion H; subst.
  - left. assumption.
  - match goal with O : In _ _ |- _ => destruct O end.
  - right. repeat eexists; eassumption.
Qed.
Lemma level_unary : forall ts t, derives 13 ts t ->
  derives 14 ts t \/
  exists op us a, ts = punct op :: us /\ t = C_Unary (str op) a /\
    (In op unary_operators /\ derives 12 us a \/ In op increments /\ derives 13 us a).
Proof.
  intros ts t H. inversion H; subst.
  - left. assumption.
  - match goal with O : In _ _ |- _ => destruct O end.
  - right. do 3 eexists. split; [reflexivity|]. split; [reflexivity|]. left. split; assumption.
  - right. do 3 eexists. split; [reflexivity|]. split; [reflexivity|]. right. split; assumption.
Qed.
Lemma level_primary : forall ts t, derives 15 ts t ->
  (exists w, ts = [w] /\ (forall q, w <> punct q)) \/
  (exists us, ts = punct "(" :: us ++ [punct ")"] /\ derives 0 us t).
Proof.
  intros ts t H. inversion H; subst; try lia.
  - match goal with O : In _ _ |- _ => destruct O end.
  - right. eexists. split; [reflexivity | assumption].
  - left. eexists. split; [reflexivity|]. discriminate.
  - left. eexists. split; [reflexivity|]. discriminate.
  - left. eexists. split; [reflexivity|]. discriminate.
  - left. eexists. split; [reflexivity|]. discriminate.
Qed.

Lemma single_primary : forall w t u, derives 15 [w] t -> derives 15 [w] u -> (forall q, w <> punct q) -> t = u.
Proof.
  intros w t u T U N. inversion T; subst; inversion U; subst; try lia; try reflexivity; try (exfalso; eapply N; reflexivity);
    try (match goal with O : In _ (operators_at 15) |- _ => destruct O end).
  - match goal with A : c_name _ |- _ => exfalso; apply (A "true"); [cbn; tauto | reflexivity] end.
  - match goal with A : c_name _ |- _ => exfalso; apply (A "false"); [cbn; tauto | reflexivity] end.
  - match goal with A : denotes _ _, B : denotes _ _ |- _ => destruct A as (A & _); destruct B as (B & _) end.
    congruence.
  - match goal with A : c_name _ |- _ => exfalso; apply (A "true"); [cbn; tauto | reflexivity] end.
  - match goal with A : c_name _ |- _ => exfalso; apply (A "false"); [cbn; tauto | reflexivity] end.
Qed.

(** A parenthesis is followed by an expression unless it is that of a cast. *)
Lemma parenthesis_first : forall ts t, derives 14 ts t -> forall w r, ts = punct "(" :: w :: r -> first_token w.
Proof.
  intros ts t H w r E. destruct (level_postfix _ _ _ H eq_refl) as (hs & a & rest & -> & D & _).
  destruct (level_primary _ _ D) as [(v & -> & V) | (us & -> & D0)].
  - cbn in E. injection E as -> _. exfalso. exact (V "(" eq_refl).
  - destruct (derives_starts _ _ _ D0) as (v & r' & -> & F). cbn in E. injection E as -> _. exact F.
Qed.

Lemma type_first : forall ys y, names_type ys y -> exists x r, ys = Word x :: r /\ ~ first_token (Word x).
Proof.
  intros ys y H. inversion H; subst; eexists; eexists; (split; [reflexivity|]); intros [F | [F | F]];
    try discriminate F;
    match type of F with c_name (str ?q) => apply (F q); [cbn; tauto | reflexivity] end.
Qed.

Lemma type_unique : forall ys y us vs z ws, names_type ys y -> names_type vs z ->
  ys ++ punct ")" :: us = vs ++ punct ")" :: ws -> ys = vs /\ y = z /\ us = ws.
Proof.
  intros ys y us vs z ws Y Z E.
  inversion Y; subst; inversion Z; subst; cbn [app] in E; try discriminate E; try (injection E as E; subst; auto).
  match goal with A : denotes _ _, B : denotes _ _ |- _ => destruct A as (A & _); destruct B as (B & _) end.
  assert (n = n0) by congruence. subst. auto.
Qed.

(** ** Unambiguity *)

Definition size (k : nat) (ts : list c_token) : nat := 16 * length ts + (15 - k).

Definition det (n : nat) : Prop :=
  forall k ts t r us u s, k <= 15 -> size k ts < n -> derives k ts t -> derives k us u -> ts ++ r = us ++ s ->
  ends k r -> ends k s -> ts = us /\ t = u.

Lemma det_steps : forall n k, k < 12 -> det n -> forall a ts t, steps k a ts t -> 16 * length ts <= n -> forall us u r s,
  steps k a us u -> ts ++ r = us ++ s -> ends k r -> ends k s -> ts = us /\ t = u.
Proof.
  intros n k K IH a ts t H. induction H as [a | a op vs b rest t O1 D S0 IHs]; intros L us u r s U E R R'.
  - destruct U as [|a' op' vs' b' rest' u O' D' S']; [auto|]. exfalso. cbn in E. subst r.
    exact (not_ends_operator _ _ _ O' R).
  - inversion U as [|a' op' vs' b' rest' u' O' D' S' E1 E2 E3]; subst.
    + exfalso. cbn in E. rewrite <- E in R'. exact (not_ends_operator _ _ _ O1 R').
    + cbn [app] in E. injection E as E0 E. apply str_injective in E0. subst op'.
      cbn [length] in L. rewrite app_length in L. rewrite <- !app_assoc in E.
      assert (NX : forall rest2 t2 r2 a2, steps k a2 rest2 t2 -> ends k r2 -> ends (S k) (rest2 ++ r2)).
      { intros rest2 t2 r2 a2 S2 R2. destruct S2 as [|a2 p2 u2 b2 v2 t2 O2 _ _]; [apply ends_up; exact R2|].
        cbn [app]. refine (ends_operator k (S k) _ _ O2 _). lia. }
      destruct (IH (S k) vs b (rest ++ r) vs' b' (rest' ++ s)) as [<- <-]; eauto.
      * unfold size. lia.
      * apply app_inv_head in E. destruct (IHs ltac:(lia) rest' u r s S' E R R') as [<- <-]. auto.
Qed.

Lemma arguments_starts : forall us args, derives_arguments us args ->
  (us = [] /\ args = []) \/ (starts_well us /\ args <> []).
Proof.
  intros us args H. destruct H.
  - left. auto.
  - right. split; [eapply derives_starts; eassumption | discriminate].
  - right. split; [apply starts_app; eapply derives_starts; eassumption | discriminate].
Qed.

Lemma close_not_first : forall r, ~ starts_well (punct ")" :: r).
Proof. intros r. apply not_first. cbn. intuition discriminate. Qed.

Lemma det_arguments : forall n, det n -> forall ts args, derives_arguments ts args -> 16 * length ts + 14 < n ->
  forall us brgs r s, derives_arguments us brgs -> ts ++ punct ")" :: r = us ++ punct ")" :: s -> ts = us /\ args = brgs.
Proof.
  intros n IH ts args H. induction H as [|ts a D|ts us a args D N H IHa]; intros L ws brgs r s W E.
  - destruct (arguments_starts _ _ W) as [(-> & ->) | (F & _)]; [auto|]. exfalso.
    apply (starts_app _ (punct ")" :: s)) in F. rewrite <- E in F. exact (close_not_first _ F).
  - inversion W as [|ws' b D' | ws' us' b brgs' D' N' H']; subst.
    + exfalso. pose proof (derives_starts _ _ _ D) as F. apply (starts_app _ (punct ")" :: r)) in F. rewrite E in F.
      exact (close_not_first _ F).
    + destruct (IH 1 ts a (punct ")" :: r) ws b (punct ")" :: s)) as [<- <-]; auto using ends_close; unfold size; lia.
    + rewrite <- app_assoc in E. cbn [app] in E.
      destruct (IH 1 ts a (punct ")" :: r) ws' b (punct "," :: us' ++ punct ")" :: s)) as [<- <-];
        auto using ends_close, ends_comma; try (unfold size; lia).
      apply app_inv_head in E. discriminate E.
  - rewrite app_length in L. cbn [length] in L. rewrite <- app_assoc in E. cbn [app] in E.
    inversion W as [|ws' b D' | ws' us' b brgs' D' N' H']; subst.
    + exfalso. pose proof (derives_starts _ _ _ D) as F. apply (starts_app _ (punct "," :: us ++ punct ")" :: r)) in F.
      rewrite E in F. exact (close_not_first _ F).
    + destruct (IH 1 ts a (punct "," :: us ++ punct ")" :: r) ws b (punct ")" :: s)) as [<- <-];
        auto using ends_close, ends_comma; try (unfold size; lia).
      apply app_inv_head in E. discriminate E.
    + rewrite <- app_assoc in E. cbn [app] in E.
      destruct (IH 1 ts a (punct "," :: us ++ punct ")" :: r) ws' b (punct "," :: us' ++ punct ")" :: s)) as [<- <-];
        auto using ends_comma; try (unfold size; lia).
      apply app_inv_head in E. injection E as E. destruct (IHa ltac:(lia) _ _ _ _ H' E) as [<- <-]. auto.
Qed.

Lemma det_suffixes : forall n, det n -> forall a ts t, suffixes a ts t -> 16 * length ts < n + 1 -> forall us u r s,
  suffixes a us u -> ts ++ r = us ++ s -> ends 14 r -> ends 14 s -> ts = us /\ t = u.
Proof.
  intros n IH a ts t H. induction H as [a | a vs args rest t D S0 IHs | a op rest t O1 S0 IHs];
    intros L us u r s U E R R'.
  - inversion U as [| a' vs' args' rest' u' D' S' | a' op' rest' u' O' S']; subst; [auto | exfalso | exfalso];
      cbn [app] in E; subst r.
    + exact (not_ends_always 14 "(" _ (le_n 14) ltac:(cbn; tauto) R).
    + refine (not_ends_always 14 op' _ (le_n 14) _ R). in_list O'; subst; cbn; tauto.
  - inversion U as [| a' vs' args' rest' u' D' S' | a' op' rest' u' O' S']; subst; cbn [app] in E.
    + exfalso. rewrite <- E in R'. exact (not_ends_always 14 "(" _ (le_n 14) ltac:(cbn; tauto) R').
    + injection E as E. rewrite <- !app_assoc in E. cbn [app] in E. cbn [length] in L. rewrite app_length in L. cbn [length] in L.
      destruct (det_arguments n IH _ _ D ltac:(lia) _ _ _ _ D' E) as [<- <-]. apply app_inv_head in E. injection E as E.
      destruct (IHs ltac:(lia) _ _ _ _ S' E R R') as [<- <-]. auto.
    + exfalso. injection E as E0 _. in_list O'; subst op'; discriminate E0.
  - inversion U as [| a' vs' args' rest' u' D' S' | a' op' rest' u' O' S']; subst; cbn [app] in E.
    + exfalso. rewrite <- E in R'. refine (not_ends_always 14 op _ (le_n 14) _ R'). in_list O1; subst; cbn; tauto.
    + exfalso. injection E as E0 _. in_list O1; subst op; discriminate E0.
    + injection E as E0 E. apply str_injective in E0. subst op'. cbn [length] in L.
      destruct (IHs ltac:(lia) _ _ _ _ S' E R R') as [<- <-]. auto.
Qed.

Lemma det_all : forall n, det n.
Proof.
  induction n as [|n IH]; intros k ts t r us u s K L T U E R R'; [lia|].
  assert (IH' : forall k' ts' t' r' us' u' s', k' <= 15 -> 16 * length ts' + (15 - k') < size k ts ->
    derives k' ts' t' -> derives k' us' u' -> ts' ++ r' = us' ++ s' -> ends k' r' -> ends k' s' -> ts' = us' /\ t' = u').
  { intros k' ts' t' r' us' u' s' K' L'. apply IH; [exact K' | unfold size in *; lia]. }
  unfold size in *.
  destruct (Nat.eq_dec k 1) as [-> | N1].
  { (* conditional *)
    destruct (level_conditional _ _ T) as [T2 | (cs & c & vs & a & ws & b & -> & -> & Tc & Ta & Tb)];
    destruct (level_conditional _ _ U) as [U2 | (cs' & c' & vs' & a' & ws' & b' & -> & -> & Uc & Ua & Ub)].
    - apply (IH' 2 ts t r us u s); auto using ends_up; lia.
    - exfalso. rewrite <- app_assoc in E. cbn [app] in E.
      destruct (IH' 2 ts t r cs' c' (punct "?" :: (vs' ++ punct ":" :: ws') ++ s)) as [<- <-];
        auto using ends_up, ends_question; try lia.
      apply app_inv_head in E. subst r. refine (R "?" _ eq_refl). right. right. auto.
    - exfalso. rewrite app_length in L, IH'. rewrite <- app_assoc in E. cbn [app] in E.
      destruct (IH' 2 cs c (punct "?" :: (vs ++ punct ":" :: ws) ++ r) us u s) as [<- <-];
        auto using ends_up, ends_question; try lia.
      apply app_inv_head in E. subst s. refine (R' "?" _ eq_refl). right. right. auto.
    - rewrite !app_length in *. cbn [length] in *. rewrite !app_length in *. cbn [length] in *.
      rewrite <- !app_assoc in E. cbn [app] in E. rewrite <- !app_assoc in E. cbn [app] in E.
      destruct (IH' 2 cs c (punct "?" :: vs ++ punct ":" :: ws ++ r) cs' c' (punct "?" :: vs' ++ punct ":" :: ws' ++ s)) as [<- <-];
        auto using ends_question; try lia.
      apply app_inv_head in E. injection E as E.
      destruct (IH' 0 vs a (punct ":" :: ws ++ r) vs' a' (punct ":" :: ws' ++ s)) as [<- <-]; auto using ends_colon; try lia.
      apply app_inv_head in E. injection E as E.
      destruct (IH' 1 ws b r ws' b' s) as [<- <-]; auto; lia. }
  destruct (Nat.lt_ge_cases k 12) as [K12 | K12].
  { destruct (level_binary _ _ _ T N1 K12) as (hs & a & rest & -> & D & S0).
    destruct (level_binary _ _ _ U N1 K12) as (hs' & a' & rest' & -> & D' & S').
    rewrite app_length in *. rewrite <- !app_assoc in E.
    assert (NX : forall rest2 t2 r2 a2, steps k a2 rest2 t2 -> ends k r2 -> ends (S k) (rest2 ++ r2)).
    { intros rest2 t2 r2 a2 S2 R2. destruct S2 as [|a2 p2 u2 b2 v2 t2 O2 _ _]; [apply ends_up; exact R2|].
      cbn [app]. refine (ends_operator k (S k) _ _ O2 _). lia. }
    destruct (IH' (S k) hs a (rest ++ r) hs' a' (rest' ++ s)) as [<- <-]; eauto; try lia.
    apply app_inv_head in E. pose proof (derives_nonempty _ _ _ D).
    destruct (det_steps n k K12 IH _ _ _ S0 ltac:(lia) _ _ _ _ S' E R R') as [<- <-]. auto. }
  destruct (Nat.eq_dec k 12) as [-> | N12].
  { destruct (level_cast _ _ T) as [T2 | (ys & y & vs & a & -> & -> & Ty & Ta)];
    destruct (level_cast _ _ U) as [U2 | (ys' & y' & vs' & a' & -> & -> & Uy & Ua)].
    - apply (IH' 13 ts t r us u s); auto using ends_up; lia.
    - exfalso. destruct (type_first _ _ Uy) as (x & q & -> & F). destruct (level_unary _ _ T2) as [T3 | (op & vs & a & -> & _ & O1)].
      + apply F. pose proof (derives_nonempty _ _ _ T3) as NE. destruct ts as [|w0 [|w1 ts]]; cbn [length] in NE; try lia.
        * destruct (level_postfix _ _ _ T3 eq_refl) as (hs & b & rest & E1 & D & _). cbn in E. injection E as -> _.
          destruct (level_primary _ _ D) as [(v & -> & V) | (ws & -> & D0)].
          -- cbn in E1. injection E1 as E1 _. exfalso. apply (V "("). symmetry. exact E1.
          -- exfalso. apply derives_nonempty in D0. destruct ws as [|? [|? ?]]; cbn in D0, E1; try lia; discriminate E1.
        * cbn in E. injection E as -> -> _. eapply parenthesis_first; [exact T3 | reflexivity].
      + cbn [app] in E. injection E as E _. destruct O1 as [(O1 & _) | (O1 & _)]; in_list O1; subst op; discriminate E.
    - exfalso. destruct (type_first _ _ Ty) as (x & q & -> & F). destruct (level_unary _ _ U2) as [T3 | (op & vs' & a' & -> & _ & O1)].
      + apply F. pose proof (derives_nonempty _ _ _ T3) as NE. destruct us as [|w0 [|w1 us]]; cbn [length] in NE; try lia.
        * destruct (level_postfix _ _ _ T3 eq_refl) as (hs & b & rest & E1 & D & _). cbn in E. injection E as <- _.
          destruct (level_primary _ _ D) as [(v & -> & V) | (ws & -> & D0)].
          -- cbn in E1. injection E1 as E1 _. exfalso. apply (V "("). symmetry. exact E1.
          -- exfalso. apply derives_nonempty in D0. destruct ws as [|? [|? ?]]; cbn in D0, E1; try lia; discriminate E1.
        * cbn in E. injection E as <- <- _. eapply parenthesis_first; [exact T3 | reflexivity].
      + cbn [app] in E. injection E as E _. destruct O1 as [(O1 & _) | (O1 & _)]; in_list O1; subst op; discriminate E.
    - cbn [app length] in *. injection E as E. rewrite app_length in *. cbn [length] in *. rewrite <- !app_assoc in E. cbn [app] in E.
      destruct (type_unique _ _ _ _ _ _ Ty Uy E) as (<- & <- & E1).
      destruct (IH' 12 vs a r vs' a' s) as [<- <-]; auto; lia. }
  destruct (Nat.eq_dec k 13) as [-> | N13].
  { assert (NP : forall ts2 t2 op2 r2, derives 14 ts2 t2 -> In op2 unary_operators \/ In op2 increments ->
      forall r3, ts2 ++ r3 = punct op2 :: r2 -> False).
    { intros ts2 t2 op2 r2 D O2 r3 E3. destruct (level_postfix _ _ _ D eq_refl) as (hs & b & rest & -> & D' & _).
      destruct (level_primary _ _ D') as [(v & -> & V) | (ws & -> & D0)]; cbn in E3.
      - injection E3 as E3 _. exact (V _ E3).
      - injection E3 as E3 _. destruct O2 as [O2 | O2]; in_list O2; subst op2; discriminate E3. }
    destruct (level_unary _ _ T) as [T2 | (op & vs & a & -> & -> & Ta)];
    destruct (level_unary _ _ U) as [U2 | (op' & vs' & a' & -> & -> & Ua)].
    - apply (IH' 14 ts t r us u s); auto using ends_up; lia.
    - exfalso. cbn in E. refine (NP _ _ op' _ T2 _ _ E). destruct Ua as [(O1 & _) | (O1 & _)]; auto.
    - exfalso. cbn in E. refine (NP _ _ op _ U2 _ _ (eq_sym E)). destruct Ta as [(O1 & _) | (O1 & _)]; auto.
    - cbn [app length] in *. injection E as E0 E. apply str_injective in E0. subst op'.
      destruct Ta as [(O1 & Ta) | (O1 & Ta)]; destruct Ua as [(O' & Ua) | (O' & Ua)].
      + destruct (IH' 12 vs a r vs' a' s) as [<- <-]; auto; try lia; apply (ends_prefix 13); auto; lia.
      + exfalso. in_list O1; subst op; in_list O'; discriminate.
      + exfalso. in_list O1; subst op; in_list O'; discriminate.
      + destruct (IH' 13 vs a r vs' a' s) as [<- <-]; auto; lia. }
  destruct (Nat.eq_dec k 14) as [-> | N14].
  { destruct (level_postfix _ _ _ T eq_refl) as (hs & a & rest & -> & D & S0).
    destruct (level_postfix _ _ _ U eq_refl) as (hs' & a' & rest' & -> & D' & S').
    rewrite app_length in *. rewrite <- !app_assoc in E.
    destruct (IH' 15 hs a (rest ++ r) hs' a' (rest' ++ s)) as [<- <-]; auto using ends_primary; try lia.
    apply app_inv_head in E. pose proof (derives_nonempty _ _ _ D).
    destruct (det_suffixes n IH _ _ _ S0 ltac:(lia) _ _ _ _ S' E R R') as [<- <-]. auto. }
  assert (k = 15) by lia. subst k.
  destruct (level_primary _ _ T) as [(w & -> & W) | (vs & -> & D)];
  destruct (level_primary _ _ U) as [(w' & -> & W') | (vs' & -> & D')]; cbn [app] in E.
  - injection E as -> _. split; [reflexivity|]. eapply single_primary; eassumption.
  - injection E as -> _. exfalso. exact (W "(" eq_refl).
  - injection E as <- _. exfalso. exact (W' "(" eq_refl).
  - injection E as E. rewrite <- !app_assoc in E. cbn [app length] in *. rewrite app_length in *. cbn [length] in *.
    destruct (IH' 0 vs t (punct ")" :: r) vs' u (punct ")" :: s)) as [<- <-]; auto using ends_close; try lia.
Qed.

Lemma derives_unique : forall k ts t u, k <= 15 -> derives k ts t -> derives k ts u -> t = u.
Proof.
  intros k ts t u K T U.
  exact (proj2 (det_all (S (size k ts)) k ts t [] ts u [] K (Nat.lt_succ_diag_r _) T U eq_refl Logic.I Logic.I)).
Qed.

(** ** Tokens *)

Lemma pp_first : forall x, is_pp_number x ->
  exists c r, x = c :: r /\ (c_digit c \/ c = "."%char /\ exists d r', r = d :: r' /\ c_digit d).
Proof.
  induction 1 as [c C | c C | x c H IH C | x c H IH C | x e s H IH E1 E2].
  - exists c, []. auto.
  - exists "."%char, [c]. split; [reflexivity|]. right. split; [reflexivity|]. eauto.
  - destruct IH as (a & r & -> & [A | (A & d & r' & -> & D)]); do 2 eexists; (split; [reflexivity|]); [left; exact A|].
    right. split; [exact A|]. do 2 eexists. split; [reflexivity | exact D].
  - destruct IH as (a & r & -> & [A | (A & d & r' & -> & D)]); do 2 eexists; (split; [reflexivity|]); [left; exact A|].
    right. split; [exact A|]. do 2 eexists. split; [reflexivity | exact D].
  - destruct IH as (a & r & -> & [A | (A & d & r' & -> & D)]); do 2 eexists; (split; [reflexivity|]); [left; exact A|].
    right. split; [exact A|]. do 2 eexists. split; [reflexivity | exact D].
Qed.

Definition punctuator_characters : list ascii :=
  ["["; "]"; "("; ")"; "{"; "}"; "."; "-"; ">"; "+"; "&"; "*"; "~"; "!"; "/"; "%"; "<"; "="; "^"; "|"; "?"; ":"; ";"; ","; "#"]%char.

Lemma punct_first : forall q, In q punctuators -> exists c r, str q = c :: r /\ In c punctuator_characters /\
  (c = "."%char -> match r with d :: _ => ~ c_digit d | [] => True end).
Proof.
  intros q H. unfold punctuators in H. cbn [In] in H. unfold c_digit.
  repeat (destruct H as [<- | H]; [do 2 eexists; split; [reflexivity|]; split;
    [unfold punctuator_characters; cbn [In]; tauto | intros E; try discriminate E; vm_compute; try exact Logic.I;
      intros (A & B); try (apply A; reflexivity); try (apply B; reflexivity)]|]).
  destruct H.
Qed.

Lemma c_classes : forall c, c_digit c -> c_nondigit c \/ In c punctuator_characters -> False.
Proof.
  intros c D [N | N].
  - unfold c_digit, c_nondigit in *. lia.
  - unfold c_digit in D. unfold punctuator_characters in N. cbn [In] in N.
    repeat (destruct N as [<- | N]; [vm_compute in D; destruct D as [A B]; first [apply A; reflexivity | apply B; reflexivity]|]).
    exact N.
Qed.
Lemma nondigit_punct : forall c, c_nondigit c -> In c punctuator_characters -> False.
Proof.
  intros c D N. unfold c_nondigit in D. unfold punctuator_characters in N. cbn [In] in N.
  repeat (destruct N as [<- | N]; [vm_compute in D; destruct D as [[A B]|[[A B]|A]];
    first [apply A; reflexivity | apply B; reflexivity | discriminate A]|]).
  exact N.
Qed.
Lemma dot_nondigit : ~ c_nondigit ".".
Proof. intros H. eapply nondigit_punct; [exact H|]. unfold punctuator_characters. cbn [In]. tauto. Qed.

Lemma token_unique : forall x k l, is_c_token x k -> is_c_token x l -> k = l.
Proof.
  intros x k l K L. destruct K as [x (c & r & -> & C & _) | x X | q Q].
  - inversion L as [? W | ? X | q Q E1 E2]; subst; [reflexivity | exfalso | exfalso].
    + destruct (pp_first _ X) as (a & s & E & [A | (A & _)]); injection E as <- <-.
      * eapply c_classes; eauto.
      * subst c. exact (dot_nondigit C).
    + destruct (punct_first _ Q) as (a & s & E & A & _). rewrite E1 in E. injection E as <- <-.
      eapply nondigit_punct; eauto.
  - destruct (pp_first _ X) as (c & r & -> & C). inversion L as [? W | ? X' | q Q E1 E2]; subst; [exfalso | reflexivity | exfalso].
    + destruct W as (a & s & E & A & _). injection E as <- <-. destruct C as [C | (-> & _)].
      * eapply c_classes; eauto.
      * exact (dot_nondigit A).
    + destruct (punct_first _ Q) as (a & s & E & A & B). rewrite E1 in E. injection E as <- <-.
      destruct C as [C | (-> & d & r' & -> & D)]; [eapply c_classes; eauto|]. exact (B eq_refl D).
  - destruct (punct_first _ Q) as (c & r & E & A & B). inversion L as [? W E1 | ? X' E1 | q' Q' E1 E2]; subst.
    + exfalso. destruct W as (a & s & E' & A' & _). rewrite E in E'. injection E' as <- <-. eapply nondigit_punct; eauto.
    + exfalso. destruct (pp_first _ X') as (a & s & E' & C). rewrite E in E'. injection E' as <- <-.
      destruct C as [C | (-> & d & r' & -> & D)]; [eapply c_classes; eauto|]. exact (B eq_refl D).
    + congruence.
Qed.

Lemma token_nonempty : forall x k, is_c_token x k -> exists c r, x = c :: r /\ ~ c_white c.
Proof.
  intros x k H. destruct H as [x (c & r & -> & C & _) | x X | q Q].
  - exists c, r. split; [reflexivity|]. intros W. unfold c_white in W. cbn in W. unfold c_nondigit in C.
    destruct W as [<- | [<- | [<- | []]]]; vm_compute in C; intuition (congruence || eauto).
  - destruct (pp_first _ X) as (c & r & -> & C). exists c, r. split; [reflexivity|]. intros W.
    unfold c_white in W. cbn in W. unfold c_digit in C.
    destruct W as [<- | [<- | [<- | []]]]; destruct C as [C | (C & _)]; try discriminate C; vm_compute in C; intuition congruence.
  - destruct (punct_first _ Q) as (c & r & -> & C & _). exists c, r. split; [reflexivity|]. intros W.
    unfold c_white in W. unfold punctuator_characters in C. cbn in W, C.
    destruct W as [<- | [<- | [<- | []]]]; intuition discriminate.
Qed.

Lemma white_split : forall w s v u, Forall c_white w -> Forall c_white v ->
  (forall c r, s = c :: r -> ~ c_white c) -> (forall c r, u = c :: r -> ~ c_white c) -> w ++ s = v ++ u -> s = u.
Proof.
  induction w as [|a w IH]; intros s [|b v] u W V S0 U E; cbn in E.
  - exact E.
  - exfalso. inversion V; subst. exact (S0 _ _ eq_refl ltac:(assumption)).
  - exfalso. inversion W; subst. exact (U _ _ eq_refl ltac:(assumption)).
  - injection E as -> E. inversion W; subst. inversion V; subst. eapply IH; eauto.
Qed.

Lemma reads_unique : forall s ks, reads s ks -> forall ls, reads s ls -> ks = ls.
Proof.
  induction 1 as [w W | w t k s ks W T L C R IH]; intros ls H.
  - inversion H as [w' W' | w' t' k' s' ls' W' T' L' C' R']; subst; [reflexivity|]. exfalso.
    destruct (token_nonempty _ _ T') as (c & r & -> & N). apply N.
    rewrite Forall_forall in W. apply W. apply in_or_app. right. cbn. auto.
  - inversion H as [w' W' E1 E2| w' t' k' s' ls' W' T' L' C' R' E1 E2]; subst.
    + exfalso. destruct (token_nonempty _ _ T) as (c & r & -> & N). apply N.
      rewrite Forall_forall in W'. apply W'. apply in_or_app. right. cbn. auto.
    + assert (E : t' ++ s' = t ++ s).
      { destruct (token_nonempty _ _ T) as (c & r & -> & N). destruct (token_nonempty _ _ T') as (c' & r' & -> & N').
        eapply white_split; [exact W' | exact W | | | exact E1]; intros a b E; injection E as <- _; assumption. }
      pose proof (L _ _ _ E T') as LE1. pose proof (L' _ _ _ (eq_sym E) T) as LE2.
      assert (LE : length t' = length t) by lia.
      assert (t' = t /\ s' = s) as [-> ->].
      { clear - E LE. revert t LE E. induction t' as [|a t' IH]; intros [|b t] LE E; cbn in LE; try discriminate LE; [auto|].
        cbn in E. injection E as -> E. injection LE as LE. destruct (IH t LE E) as [-> ->]. auto. }
      f_equal; [eapply token_unique; eassumption | apply IH; exact R'].
Qed.

(** One reading is the only one. *)
Lemma means_intro : forall s ks t, reads s ks -> derives 0 ks t -> means s t.
Proof.
  intros s ks t R D. split; [eauto|]. intros ls u R' D'. rewrite (reads_unique _ _ R' _ R) in D'.
  eapply derives_unique; [|exact D'|exact D]. lia.
Qed.
Lemma means_unique : forall s t u, means s t -> means s u -> t = u.
Proof. intros s t u ((ks & R & D) & _) (_ & H). exact (H ks t R D). Qed.
