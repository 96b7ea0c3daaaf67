(** Raw blocks of BMD documents end at the matching brace. *)
From Coq Require Import ZArith Ascii String List Bool Lia.
From Verif Require Import Prelude Text Literals LiteralsProofs HtmlWriter HtmlWriterProofs Directives
  DirectivesSpec BmdParse BmdParseSpec BmdParseFacts.
Import ListNotations.
Open Scope string_scope.
Open Scope list_scope.
Open Scope Z_scope.
Local Arguments Z.pow : simpl never.
Local Arguments char_eqb : simpl never.

Lemma is_escapeable_iff : forall c, is_escapeable c = true <-> escapable c.
Proof.
  intros c. unfold is_escapeable, escapable. rewrite !orb_true_iff. unfold char_eqb.
  rewrite !Ascii.eqb_eq. unfold ch_backslash. tauto.
Qed.

(** The contents of [k] blocks one after the other, all but the last with their closing braces. *)
Inductive raws : nat -> text -> Prop :=
| raws_one c : raw_content c -> raws 0 c
| raws_more k a c : raw_content a -> raws k c -> raws (S k) (a ++ "}"%char :: c).

Lemma raws_extend : forall k c x,
  raws k c -> (forall a, raw_content a -> next a = next c -> raw_content (x ++ a)) -> raws k (x ++ c).
Proof.
  intros k c x H Hx. destruct H as [c H|k a c H1 H2].
  - constructor. apply Hx; auto.
  - rewrite app_assoc. constructor; [|exact H2]. apply Hx; [exact H1|]. destruct a; reflexivity.
Qed.

(** ** Comments inside of blocks *)

Lemma raw_line_sound : forall s level p st,
  raw_loop cm_line level p s = Ok st ->
  exists a r, s = a ++ ch_newline :: r /\ ~ In ch_newline a /\
    raw_loop cm_none level (move (a ++ [ch_newline]) p) r = Ok st.
Proof.
  induction s as [|c s IH]; intros level p st H; cbn [raw_loop] in H; [discriminate H|].
  destruct (char_eqb c ch_newline) eqn:C.
  - apply Ascii.eqb_eq in C. subst c. exists [], s. auto.
  - apply IH in H. destruct H as [a [r [-> [H1 H2]]]]. exists (c :: a), r.
    split; [reflexivity|]. split; [|exact H2].
    intros [Hc|Hin]; [rewrite Hc in C; unfold char_eqb in C; rewrite Ascii.eqb_refl in C; discriminate|auto].
Qed.

Lemma raw_line_complete : forall a level p r,
  ~ In ch_newline a ->
  raw_loop cm_line level p (a ++ ch_newline :: r) = raw_loop cm_none level (move (a ++ [ch_newline]) p) r.
Proof.
  induction a as [|c a IH]; intros level p r H.
  - cbn [raw_loop app]. unfold char_eqb. rewrite Ascii.eqb_refl. reflexivity.
  - cbn [raw_loop app]. destruct (char_eqb c ch_newline) eqn:C.
    + apply Ascii.eqb_eq in C. destruct H. left. exact C.
    + rewrite IH; [reflexivity|]. intros Hin. apply H. right. exact Hin.
Qed.

Lemma occurs_cons : forall p x t, occurs p t -> occurs p (x :: t).
Proof. intros p x t [u [v ->]]. exists (x :: u), v. reflexivity. Qed.

Lemma not_occurs_nil : ~ occurs (str "*/") (str "*").
Proof.
  intros [u [v E]]. destruct u as [|x u]; [discriminate E|]. destruct u; discriminate E.
Qed.

Lemma raw_block_sound : forall n s, (length s <= n)%nat -> forall level p st,
  raw_loop cm_block level p s = Ok st ->
  exists a r, s = a ++ str "*/" ++ r /\ ~ occurs (str "*/") (a ++ str "*") /\
    raw_loop cm_none level (move (a ++ str "*/") p) r = Ok st.
Proof.
  induction n as [|n IH]; intros s L level p st H.
  { destruct s; [|cbn in L; lia]. discriminate H. }
  destruct s as [|c r]; cbn [raw_loop] in H; [discriminate H|].
  destruct r as [|d r']; [discriminate H|].
  destruct (char_eqb c "*" && char_eqb d "/") eqn:C.
  - apply andb_true_iff in C. destruct C as [C D]. apply Ascii.eqb_eq in C. apply Ascii.eqb_eq in D.
    subst c d. exists [], r'. split; [reflexivity|]. split; [exact not_occurs_nil|exact H].
  - apply IH in H; [|cbn in L |- *; lia]. destruct H as [a [q [E [H1 H2]]]].
    exists (c :: a), q. rewrite E. split; [reflexivity|]. split; [|exact H2].
    intros [u [v Eu]]. destruct u as [|x u].
    + assert (E0 : exists e2, c = "*"%char /\ a ++ str "*" = "/"%char :: e2).
      { cbn in Eu. injection Eu as E1 E2. exists v. auto. }
      destruct E0 as [e2 [-> E2]].
      assert (d = "/"%char).
      { destruct a as [|y a]; [discriminate E2|]. cbn in E2, E. injection E2 as -> _.
        injection E as -> _. reflexivity. }
      subst d. unfold char_eqb in C. rewrite !Ascii.eqb_refl in C. discriminate C.
    + injection Eu as -> Eu. apply H1. exists u, v. exact Eu.
Qed.

Lemma raw_block_complete : forall a level p r,
  ~ occurs (str "*/") (a ++ str "*") ->
  raw_loop cm_block level p (a ++ str "*/" ++ r) = raw_loop cm_none level (move (a ++ str "*/") p) r.
Proof.
  induction a as [|c a IH]; intros level p r H.
  - reflexivity.
  - assert (H' : ~ occurs (str "*/") (a ++ str "*")).
    { intros O. apply H. apply (occurs_cons _ c) in O. exact O. }
    specialize (IH level (advance c p) r H').
    transitivity (raw_loop cm_block level (advance c p) (a ++ str "*/" ++ r)); [|exact IH].
    destruct (a ++ str "*/" ++ r) as [|d q] eqn:E; [destruct a; discriminate E|].
    cbn [app]. rewrite E. cbn [raw_loop].
    destruct (char_eqb c "*" && char_eqb d "/") eqn:C; [|reflexivity].
    apply andb_true_iff in C. destruct C as [C D]. apply Ascii.eqb_eq in C. apply Ascii.eqb_eq in D.
    subst c d. destruct H. destruct a as [|y a]; [discriminate E|].
    cbn in E. injection E as -> E. exists [], (a ++ str "*"). reflexivity.
Qed.

(** ** Blocks *)

Lemma char_neq : forall a b, char_eqb a b = false -> a <> b.
Proof. intros a b H E. subst b. unfold char_eqb in H. rewrite Ascii.eqb_refl in H. discriminate. Qed.

Lemma char_eq : forall a b, char_eqb a b = true -> a = b.
Proof. intros a b H. apply Ascii.eqb_eq. exact H. Qed.

Lemma raw_sound : forall n s, (length s <= n)%nat -> forall level p st,
  raw_loop cm_none level p s = Ok st ->
  exists c, raws level c /\ s = c ++ "}"%char :: ps_rest st /\ ps_pos st = move (c ++ ["}"%char]) p.
Proof.
  induction n as [|n IH]; intros s L level p st H.
  { destruct s; [|cbn in L; lia]. discriminate H. }
  assert (step : forall x r level' p',
    s = x ++ r -> x <> [] -> p' = move x p ->
    raw_loop cm_none level' p' r = Ok st ->
    exists c, raws level' c /\ s = (x ++ c) ++ "}"%char :: ps_rest st /\
      r = c ++ "}"%char :: ps_rest st /\
      ps_pos st = move ((x ++ c) ++ ["}"%char]) p).
  { intros x r level' p' E Ex Ep H'. apply IH in H'.
    - destruct H' as [c [H1 [H2 H3]]]. exists c. split; [exact H1|]. rewrite E, H2.
      split; [rewrite app_assoc; reflexivity|]. split; [reflexivity|].
      rewrite H3, Ep, <- move_app, app_assoc. reflexivity.
    - rewrite E, app_length in L. destruct x; [destruct (Ex eq_refl)|]. cbn in L. lia. }
  destruct s as [|c r]; cbn [raw_loop] in H; [discriminate H|].
  destruct (char_eqb c "}") eqn:C1.
  { apply char_eq in C1. subst c. destruct level as [|level'].
    - injection H as <-. exists []. split; [constructor; constructor|]. split; reflexivity.
    - destruct (step ["}"%char] r level' (advance "}" p) eq_refl ltac:(discriminate) eq_refl H)
        as [c [H1 [H2 [_ H3]]]].
      exists (["}"%char] ++ c). split; [|split; assumption].
      apply (raws_more level' [] c); [constructor|exact H1]. }
  destruct (char_eqb c "{") eqn:C2.
  { apply char_eq in C2. subst c.
    destruct (step ["{"%char] r (S level) (advance "{" p) eq_refl ltac:(discriminate) eq_refl H)
      as [c [H1 [H2 [_ H3]]]].
    exists (["{"%char] ++ c). split; [|split; assumption].
    inversion H1 as [|k a c' Ha Hc E1 E2]; subst.
    change (["{"%char] ++ a ++ "}"%char :: c') with (("{"%char :: a) ++ ["}"%char] ++ c').
    rewrite app_assoc. apply raws_extend; [exact Hc|]. intros b Hb _.
    rewrite <- app_assoc. apply (rc_nested a b); assumption. }
  assert (plain : raw_loop cm_none level (advance c p) r = Ok st ->
    (forall d, hd_error r = Some d -> ~ (c = "\"%char /\ escapable d)) ->
    (forall d, hd_error r = Some d -> ~ (c = "/"%char /\ (d = "/"%char \/ d = "*"%char))) ->
    exists c0, raws level c0 /\ c :: r = c0 ++ "}"%char :: ps_rest st
               /\ ps_pos st = move (c0 ++ ["}"%char]) p).
  { intros H' N1 N2.
    destruct (step [c] r level (advance c p) eq_refl ltac:(discriminate) eq_refl H') as [q [H1 [H2 [Er H3]]]].
    exists ([c] ++ q). split; [|split; assumption].
    assert (Hn : hd_error r = Some (next q)) by (rewrite Er; destruct q; reflexivity).
    apply raws_extend; [exact H1|]. intros a Ha En. cbn [app].
    apply rc_char; [apply char_neq; exact C2|apply char_neq; exact C1| | |exact Ha]; rewrite En; auto. }
  destruct r as [|d r'].
  { apply plain; [exact H|discriminate|discriminate]. }
  destruct (char_eqb c ch_backslash && is_escapeable d) eqn:C3.
  { apply andb_true_iff in C3. destruct C3 as [C3 C4]. apply char_eq in C3. subst c.
    apply is_escapeable_iff in C4.
    destruct (step [ch_backslash; d] r' level (advance d (advance ch_backslash p)) eq_refl
                ltac:(discriminate) eq_refl H) as [q [H1 [H2 [_ H3]]]].
    exists ([ch_backslash; d] ++ q). split; [|split; assumption].
    apply raws_extend; [exact H1|]. intros a Ha _. apply rc_escape; assumption. }
  destruct (char_eqb c "/" && char_eqb d "/") eqn:C4.
  { apply andb_true_iff in C4. destruct C4 as [C4 C5]. apply char_eq in C4. apply char_eq in C5. subst c d.
    apply raw_line_sound in H. destruct H as [a [q [-> [Ha H]]]].
    destruct (step (str "//" ++ a ++ [ch_newline]) q level
                (move (a ++ [ch_newline]) (advance "/" (advance "/" p)))
                ltac:(cbn; rewrite <- app_assoc; reflexivity) ltac:(discriminate) eq_refl H)
      as [e [H1 [H2 [_ H3]]]].
    exists ((str "//" ++ a ++ [ch_newline]) ++ e). split; [|split; assumption].
    apply raws_extend; [exact H1|]. intros b Hb _. rewrite <- !app_assoc. apply rc_line; assumption. }
  destruct (char_eqb c "/" && char_eqb d "*") eqn:C5.
  { apply andb_true_iff in C5. destruct C5 as [C5 C6]. apply char_eq in C5. apply char_eq in C6. subst c d.
    apply (raw_block_sound _ _ (le_n _)) in H. destruct H as [a [q [-> [Ha H]]]].
    destruct (step (str "/*" ++ a ++ str "*/") q level
                (move (a ++ str "*/") (advance "*" (advance "/" p)))
                ltac:(cbn; rewrite <- app_assoc; reflexivity) ltac:(discriminate) eq_refl H)
      as [e [H1 [H2 [_ H3]]]].
    exists ((str "/*" ++ a ++ str "*/") ++ e). split; [|split; assumption].
    apply raws_extend; [exact H1|]. intros b Hb _. rewrite <- !app_assoc. apply rc_block; assumption. }
  apply plain; [exact H| |]; intros x Hx [Ec Ex]; cbn in Hx; injection Hx as <-; subst c.
  - apply is_escapeable_iff in Ex. rewrite Ex in C3. discriminate C3.
  - destruct Ex as [->| ->]; discriminate.
Qed.

Lemma raw_complete : forall c, raw_content c -> forall level p r,
  raw_loop cm_none level p (c ++ "}"%char :: r) = raw_loop cm_none level (move c p) ("}"%char :: r).
Proof.
  induction 1 as [|x c N1 N2 N3 N4 Hc IH|x c Hx Hc IH|a c Ha IHa Hc IHc|a c Ha Hc IH|a c Ha Hc IH];
    intros level p r.
  - reflexivity.
  - transitivity (raw_loop cm_none level (advance x p) (c ++ "}"%char :: r)); [|apply IH].
    assert (Hn : hd_error (c ++ "}"%char :: r) = Some (next c)) by (destruct c; reflexivity).
    cbn [app raw_loop].
    destruct (char_eqb x "}") eqn:C1; [apply char_eq in C1; contradiction|].
    destruct (char_eqb x "{") eqn:C2; [apply char_eq in C2; contradiction|].
    destruct (c ++ "}"%char :: r) as [|d q]; [reflexivity|]. injection Hn as ->.
    destruct (char_eqb x ch_backslash && is_escapeable (next c)) eqn:C3.
    { apply andb_true_iff in C3. destruct C3 as [C3 C4]. apply char_eq in C3.
      apply is_escapeable_iff in C4. destruct N3. auto. }
    destruct (char_eqb x "/" && char_eqb (next c) "/") eqn:C4.
    { apply andb_true_iff in C4. destruct C4 as [C4 C5]. apply char_eq in C4. apply char_eq in C5.
      destruct N4. auto. }
    destruct (char_eqb x "/" && char_eqb (next c) "*") eqn:C5.
    { apply andb_true_iff in C5. destruct C5 as [C5 C6]. apply char_eq in C5. apply char_eq in C6.
      destruct N4. auto. }
    reflexivity.
  - transitivity (raw_loop cm_none level (advance x (advance "\"%char p)) (c ++ "}"%char :: r)); [|apply IH].
    apply is_escapeable_iff in Hx. cbn [app raw_loop].
    change (char_eqb "\" "}") with false. change (char_eqb "\" "{") with false.
    change (char_eqb "\" ch_backslash) with true. rewrite Hx. reflexivity.
  - transitivity (raw_loop cm_none (S level) (advance "{" p) (a ++ "}"%char :: c ++ "}"%char :: r)).
    { cbn [app]. rewrite <- app_assoc. reflexivity. }
    rewrite IHa. cbn [raw_loop]. change (char_eqb "}" "}") with true. cbv iota.
    rewrite IHc. f_equal.
    change (move ("{"%char :: a ++ "}"%char :: c) p) with (move (a ++ ["}"%char] ++ c) (advance "{" p)).
    rewrite !move_app. reflexivity.
  - transitivity (raw_loop cm_line level (advance "/" (advance "/" p)) (a ++ ch_newline :: c ++ "}"%char :: r)).
    { cbn [app str list_ascii_of_string]. rewrite <- app_assoc. reflexivity. }
    rewrite raw_line_complete by exact Ha. rewrite IH. f_equal.
    change (move (str "//" ++ a ++ ch_newline :: c) p) with
      (move (a ++ [ch_newline] ++ c) (advance "/" (advance "/" p))).
    rewrite !move_app. reflexivity.
  - transitivity (raw_loop cm_block level (advance "*" (advance "/" p)) (a ++ str "*/" ++ c ++ "}"%char :: r)).
    { cbn [app str list_ascii_of_string]. rewrite <- !app_assoc. reflexivity. }
    rewrite raw_block_complete by exact Ha. rewrite IH. f_equal.
    change (move (str "/*" ++ a ++ str "*/" ++ c) p) with
      (move (a ++ str "*/" ++ c) (advance "*" (advance "/" p))).
    rewrite !move_app. reflexivity.
Qed.

(** The loop finds the closing brace exactly when there is one. *)
Lemma raw_loop_iff : forall p s st,
  raw_loop cm_none 0 p s = Ok st <->
  exists c, raw_content c /\ s = c ++ "}"%char :: ps_rest st /\ ps_pos st = move (c ++ ["}"%char]) p.
Proof.
  intros p s st. split.
  - intros H. apply (raw_sound _ _ (le_n _)) in H. destruct H as [c [H1 H2]]. exists c.
    inversion H1; subst. auto.
  - intros [c [H1 [-> H2]]]. rewrite raw_complete by exact H1.
    cbn [raw_loop]. change (char_eqb "}" "}") with true. cbv iota.
    rewrite move_app in H2. destruct st as [q r]. cbn in H2 |- *. subst q. reflexivity.
Qed.

Lemma raw_loop_defined : forall n s, (length s <= n)%nat -> forall m level p, defined (raw_loop m level p s).
Proof.
  induction n as [|n IH]; intros s L m level p.
  { destruct s; [|cbn in L; lia]. destruct m; exact I. }
  destruct s as [|c r]; [destruct m; exact I|]. cbn [length] in L.
  destruct m; cbn [raw_loop].
  - destruct (char_eqb c "}"); [destruct level; [exact I|apply IH; lia]|].
    destruct (char_eqb c "{"); [apply IH; lia|].
    destruct r as [|d r']; [apply IH; lia|]. cbn [length] in L.
    destruct (char_eqb c ch_backslash && is_escapeable d); [apply IH; lia|].
    destruct (char_eqb c "/" && char_eqb d "/"); [apply IH; lia|].
    destruct (char_eqb c "/" && char_eqb d "*"); apply IH; cbn; lia.
  - destruct (char_eqb c ch_newline); apply IH; lia.
  - destruct r as [|d r']; [apply IH; lia|]. cbn [length] in L.
    destruct (char_eqb c "*" && char_eqb d "/"); apply IH; cbn; lia.
Qed.

(** There is at most one closing brace. *)
Lemma raw_content_unique : forall c d r q,
  raw_content c -> raw_content d -> c ++ "}"%char :: r = d ++ "}"%char :: q -> c = d /\ r = q.
Proof.
  intros c d r q Hc Hd E.
  set (p := Position 0 0 0).
  assert (H1 : raw_loop cm_none 0 p (c ++ "}"%char :: r) = Ok (PState (move (c ++ ["}"%char]) p) r)).
  { apply raw_loop_iff. exists c. auto. }
  assert (H2 : raw_loop cm_none 0 p (d ++ "}"%char :: q) = Ok (PState (move (d ++ ["}"%char]) p) q)).
  { apply raw_loop_iff. exists d. auto. }
  rewrite E, H2 in H1. injection H1 as _ ->. split; [|reflexivity].
  apply (f_equal (@rev ascii)) in E. rewrite !rev_app_distr in E. cbn in E.
  rewrite <- !app_assoc in E. apply app_inv_head in E. cbn in E. injection E as E.
  rewrite <- (rev_involutive c), <- (rev_involutive d), E. reflexivity.
Qed.

Lemma match_raw_block_impl_iff : forall st p c st',
  match_raw_block_impl st = Ok (p, c, st') <->
  ps_rest st = str "{" ++ c ++ str "}" ++ ps_rest st' /\ raw_content c /\ c <> [] /\
  p = advance "{" (ps_pos st) /\ ps_pos st' = move (str "{" ++ c ++ str "}") (ps_pos st).
Proof.
  intros st p c st'. unfold match_raw_block_impl, expect.
  destruct st as [p0 s]. cbn [ps_rest ps_pos]. split.
  - intros H. destruct s as [|x r]; [discriminate H|].
    destruct (char_eqb x "{") eqn:C; [|discriminate H]. apply char_eq in C. subst x. cbn [bind ps_pos ps_rest] in H.
    destruct (raw_loop cm_none 0 (advance "{" p0) r) as [st2| | |] eqn:E; try discriminate H. cbn [bind] in H.
    apply raw_loop_iff in E. destruct E as [c0 [E1 [E2 E3]]].
    assert (Ec : firstn (Z.to_nat (po_begin (ps_pos st2) - po_begin (advance "{" p0) - 1)) r = c0).
    { rewrite E3, move_begin, E2, app_length. cbn [length].
      replace (Z.to_nat _) with (length c0) by lia.
      rewrite firstn_app, Nat.sub_diag, firstn_all, firstn_O, app_nil_r. reflexivity. }
    rewrite Ec in H. destruct c0 as [|y c0]; [discriminate H|]. cbn [assert_then] in H.
    injection H as <- <- <-. rewrite E2, E3. split; [reflexivity|]. split; [exact E1|].
    split; [discriminate|]. split; reflexivity.
  - intros [E [Hc [Ne [-> Hp]]]]. rewrite E. cbn [str list_ascii_of_string app].
    change (char_eqb "{" "{") with true. cbv iota. cbn [bind ps_pos ps_rest].
    assert (R : raw_loop cm_none 0 (advance "{" p0) (c ++ "}"%char :: ps_rest st') = Ok st').
    { apply raw_loop_iff. exists c. auto. }
    rewrite R. cbn [bind].
    rewrite Hp. change (move (str "{" ++ c ++ str "}") p0) with (move (c ++ str "}") (advance "{" p0)).
    rewrite move_begin, app_length. cbn [length str list_ascii_of_string].
    replace (Z.to_nat _) with (length c) by lia.
    rewrite firstn_app, Nat.sub_diag, firstn_all, firstn_O, app_nil_r.
    destruct c; [destruct (Ne eq_refl)|]. reflexivity.
Qed.

(** A block cannot end within the beginning of a comment. *)
Lemma raw_content_ends : forall c pre o,
  raw_content c -> opener o -> c = pre ++ o -> exists pre', pre = pre' ++ ["*"%char].
Proof.
  intros c pre o H. revert pre o.
  induction H as [|x c N1 N2 N3 N4 Hc IH|x c Hx Hc IH|a c Ha IHa Hc IHc|a c Ha Hc IH|a c Ha Hc IH];
    intros pre o Ho E.
  - destruct Ho as [->| ->]; destruct pre; discriminate E.
  - destruct pre as [|y pre].
    + destruct Ho as [->| ->]; cbn in E; injection E as -> ->; destruct N4; cbn; auto.
    + injection E as _ E. destruct (IH pre o Ho E) as [pre' ->]. exists (y :: pre'). reflexivity.
  - destruct pre as [|y [|z pre]].
    + destruct Ho as [->| ->]; discriminate E.
    + destruct Ho as [->| ->]; cbn in E; injection E as E1 E2 E3; subst x;
        destruct Hx as [Hx|[Hx|Hx]]; discriminate Hx.
    + injection E as _ _ E. destruct (IH pre o Ho E) as [pre' ->]. exists (y :: z :: pre'). reflexivity.
  - assert (G : forall a' c' pre, a' ++ "}"%char :: c' = pre ++ o ->
             (exists q, c' = q ++ o /\ pre = a' ++ "}"%char :: q)).
    { intros a' c'. induction a' as [|y a' IHa']; intros pre0 E0.
      - destruct pre0 as [|z pre0]; [destruct Ho as [->| ->]; discriminate E0|].
        injection E0 as <- E0. exists pre0. auto.
      - destruct pre0 as [|z pre0].
        + exfalso. destruct Ho as [->| ->]; cbn in E0; injection E0 as _ E0;
            destruct a' as [|? [|? ?]]; discriminate E0.
        + injection E0 as -> E0. destruct (IHa' _ E0) as [q [-> ->]]. exists q. auto. }
    destruct pre as [|y pre]; [destruct Ho as [->| ->]; discriminate E|]. injection E as <- E.
    destruct (G _ _ _ E) as [q [Eq ->]]. destruct (IHc q o Ho Eq) as [pre' ->].
    exists ("{"%char :: a ++ "}"%char :: pre'). cbn. rewrite <- app_assoc. reflexivity.
  - assert (G : forall a' c' pre, a' ++ ch_newline :: c' = pre ++ o ->
             (exists q, c' = q ++ o /\ pre = a' ++ ch_newline :: q)).
    { intros a' c'. induction a' as [|y a' IHa']; intros pre0 E0.
      - destruct pre0 as [|z pre0]; [destruct Ho as [->| ->]; discriminate E0|].
        injection E0 as <- E0. exists pre0. auto.
      - destruct pre0 as [|z pre0].
        + exfalso. destruct Ho as [->| ->]; cbn in E0; injection E0 as _ E0;
            destruct a' as [|? [|? ?]]; discriminate E0.
        + injection E0 as -> E0. destruct (IHa' _ E0) as [q [-> ->]]. exists q. auto. }
    destruct (G (str "//" ++ a) c pre ltac:(rewrite <- app_assoc; exact E)) as [q [Eq ->]].
    destruct (IH q o Ho Eq) as [pre' ->].
    exists ((str "//" ++ a) ++ ch_newline :: pre'). rewrite <- !app_assoc. reflexivity.
  - assert (G : forall a' pre, a' ++ str "*/" ++ c = pre ++ o ->
             (exists q, c = q ++ o /\ pre = a' ++ str "*/" ++ q) \/ pre = a' ++ ["*"%char]).
    { intros a'. induction a' as [|y a' IHa']; intros pre0 E0.
      - destruct pre0 as [|z [|w pre0]]; [destruct Ho as [->| ->]; discriminate E0| |].
        + right. cbn in E0. injection E0 as <- _. reflexivity.
        + left. cbn in E0. injection E0 as <- <- E0. exists pre0. auto.
      - destruct pre0 as [|z pre0].
        + exfalso. destruct Ho as [->| ->]; cbn in E0; injection E0 as _ E0;
            destruct a' as [|? [|? ?]]; cbn in E0; discriminate E0.
        + injection E0 as -> E0. destruct (IHa' _ E0) as [[q [-> ->]]| ->].
          * left. exists q. auto.
          * right. reflexivity. }
    destruct (G (str "/*" ++ a) pre ltac:(rewrite <- app_assoc; exact E)) as [[q [Eq ->]]| ->].
    + destruct (IH q o Ho Eq) as [pre' ->].
      exists ((str "/*" ++ a) ++ str "*/" ++ pre'). rewrite <- !app_assoc. reflexivity.
    + exists (str "/*" ++ a). reflexivity.
Qed.
