(** Proofs about highlighted code strings. *)
From Coq Require Import Ascii List Bool Arith Lia.
From Verif Require Import Prelude Text CodeString CodeStringSpec.
Import ListNotations.

Lemma act_attempt body c s :
  act (A_attempt body c) s =
  let '(s', ok) := acts body s in (if ok && c then s' else resize (get_length s) s', ok).
Proof. reflexivity. Qed.

Lemma act_parens body s :
  act (A_parens body) s =
  let '(s', ok) := acts body (append_char_span "("%char sp_bracket s) in
  (append_char_span ")"%char sp_bracket s', ok).
Proof. reflexivity. Qed.

Section Induction.
  Variable P : action -> Prop.
  Variable Q : list action -> Prop.
  Hypothesis Ht : forall t, P (A_text t).
  Hypothesis Hc : forall c, P (A_char c).
  Hypothesis Hf : forall n c, P (A_fill n c).
  Hypothesis Hs : forall t k, P (A_span t k).
  Hypothesis Hcs : forall c k, P (A_char_span c k).
  Hypothesis Ha : forall l c, Q l -> P (A_attempt l c).
  Hypothesis Hp : forall l, Q l -> P (A_parens l).
  Hypothesis Hn : Q [].
  Hypothesis Hcons : forall a l, P a -> Q l -> Q (a :: l).

  Fixpoint action_induction (a : action) : P a :=
    let go := fix go (l : list action) : Q l :=
      match l with [] => Hn | x :: r => Hcons x r (action_induction x) (go r) end in
    match a with
    | A_text t => Ht t
    | A_char c => Hc c
    | A_fill n c => Hf n c
    | A_span t k => Hs t k
    | A_char_span c k => Hcs c k
    | A_attempt l c => Ha l c (go l)
    | A_parens l => Hp l (go l)
    end.

  Lemma actions_induction l : Q l.
  Proof. induction l; auto using action_induction. Qed.
End Induction.

Lemma extends_refl s : extends s s.
Proof. split; exists []; rewrite app_nil_r; reflexivity. Qed.

Lemma extends_trans a b c : extends a b -> extends b c -> extends a c.
Proof.
  intros [[t H] [l K]] [[t' H'] [l' K']]; split.
  - exists (t ++ t'). rewrite H', H. symmetry. apply app_assoc.
  - exists (l ++ l'). rewrite K', K. symmetry. apply app_assoc.
Qed.

Lemma extends_make a t l : extends a (Code (cs_text a ++ t) (cs_spans a ++ l)).
Proof. split; [exists t | exists l]; reflexivity. Qed.

Lemma extends_text a t : extends a (Code (cs_text a ++ t) (cs_spans a)).
Proof. split; [exists t | exists []]; [reflexivity | symmetry; apply app_nil_r]. Qed.

Lemma vector_resize_prefix {A} (z : A) l m : vector_resize z (length l) (l ++ m) = l.
Proof.
  unfold vector_resize. rewrite app_length, firstn_app, firstn_all, Nat.sub_diag. simpl.
  replace (length l - (length l + length m)) with 0 by lia. simpl. rewrite !app_nil_r. reflexivity.
Qed.

(** Cutting a string back to what it was. *)
Lemma resize_extends a b : extends a b -> resize (get_length a) b = a.
Proof.
  intros [[t H] [l K]]. unfold resize, get_length. simpl. rewrite H, K, !vector_resize_prefix.
  destruct a. reflexivity.
Qed.

Lemma acts_extend_both :
  (forall a s, extends s (fst (act a s))) /\ (forall l s, extends s (fst (acts l s))).
Proof.
  assert (Hn : forall s, extends s (fst (acts [] s))) by (intros; apply extends_refl).
  assert (Hc : forall a l, (forall s, extends s (fst (act a s))) ->
    (forall s, extends s (fst (acts l s))) -> forall s, extends s (fst (acts (a :: l) s))).
  { intros a l Ha Hl s. specialize (Ha s). simpl. destruct (act a s) as [s' ok] eqn:E. destruct ok.
    - eapply extends_trans; [exact Ha | apply Hl].
    - exact Ha. }
  assert (Ha : forall l c, (forall s, extends s (fst (acts l s))) ->
    forall s, extends s (fst (act (A_attempt l c) s))).
  { intros l c H s. rewrite act_attempt. specialize (H s). destruct (acts l s) as [s' ok]. simpl in *.
    destruct (ok && c); [exact H |]. rewrite resize_extends by exact H. apply extends_refl. }
  assert (Hp : forall l, (forall s, extends s (fst (acts l s))) ->
    forall s, extends s (fst (act (A_parens l) s))).
  { intros l H s. rewrite act_parens. specialize (H (append_char_span "("%char sp_bracket s)).
    destruct (acts l _) as [s' ok]. simpl in *.
    eapply extends_trans; [apply extends_make |]. eapply extends_trans; [exact H | apply extends_make]. }
  assert (Hs : forall t k s, extends s (fst (act (A_span t k) s))).
  { intros t k s. destruct t; simpl; [apply extends_refl | apply extends_make]. }
  split; [apply (action_induction (fun a => forall s, extends s (fst (act a s))) (fun l => forall s, extends s (fst (acts l s))))
         | apply (actions_induction (fun a => forall s, extends s (fst (act a s))) (fun l => forall s, extends s (fst (acts l s))))];
    intros; auto; simpl; first [apply extends_text | apply extends_make].
Qed.

Lemma act_extends a s : extends s (fst (act a s)).
Proof. apply acts_extend_both. Qed.
Lemma acts_extends l s : extends s (fst (acts l s)).
Proof. apply acts_extend_both. Qed.

Lemma attempt_restores body s : fst (act (A_attempt body false) s) = s.
Proof.
  rewrite act_attempt. pose proof (acts_extends body s) as H. destruct (acts body s) as [s' ok].
  rewrite andb_false_r. simpl in *. apply resize_extends. exact H.
Qed.

Lemma attempt_thrown body c s :
  snd (act (A_attempt body c) s) = false -> fst (act (A_attempt body c) s) = s.
Proof.
  rewrite act_attempt. pose proof (acts_extends body s) as H. destruct (acts body s) as [s' ok].
  simpl. intros ->. simpl in *. apply resize_extends. exact H.
Qed.

Lemma attempt_committed body s :
  snd (acts body s) = true -> act (A_attempt body true) s = acts body s.
Proof. rewrite act_attempt. destruct (acts body s) as [s' ok]. simpl. intros ->. reflexivity. Qed.

(** * Spans *)

Lemma well_spanned_empty : well_spanned empty_code.
Proof.
  split; [| split].
  - intros x [].
  - intros i j x y H. destruct i; discriminate H.
  - intros x [].
Qed.

Lemma well_spanned_text s t : well_spanned s -> well_spanned (Code (cs_text s ++ t) (cs_spans s)).
Proof.
  intros (A & B & C). split; [exact A | split; [exact B |]]. intros x H. simpl in *. apply C in H.
  rewrite app_length. lia.
Qed.

Lemma well_spanned_span s t k :
  t <> [] -> well_spanned s ->
  well_spanned (Code (cs_text s ++ t) (cs_spans s ++ [Span (length (cs_text s)) (length t) k])).
Proof.
  intros N (A & B & C).
  assert (L : 0 < length t) by (destruct t; [congruence | simpl; lia]).
  split; [| split]; simpl.
  - intros x H. apply in_app_iff in H. destruct H as [H | [<- | []]]; [auto | exact L].
  - intros i j x y H K O.
    assert (J : j < length (cs_spans s) \/ j = length (cs_spans s)).
    { assert (j < length (cs_spans s ++ [Span (length (cs_text s)) (length t) k])) as J
        by (apply nth_error_Some; congruence).
      rewrite app_length in J. simpl in J. lia. }
    destruct J as [J | ->].
    + rewrite nth_error_app1 in H by lia. rewrite nth_error_app1 in K by lia. eauto.
    + rewrite nth_error_app1 in H by lia.
      rewrite nth_error_app2, Nat.sub_diag in K by lia. injection K as <-. simpl.
      apply C. eapply nth_error_In; eauto.
  - intros x H. rewrite app_length. apply in_app_iff in H. destruct H as [H | [<- | []]].
    + apply C in H. lia.
    + unfold s_end. simpl. lia.
Qed.

Lemma acts_well_spanned_both :
  (forall a s, well_spanned s -> well_spanned (fst (act a s))) /\
  (forall l s, well_spanned s -> well_spanned (fst (acts l s))).
Proof.
  assert (Hn : forall s, well_spanned s -> well_spanned (fst (acts [] s))) by (intros s H; exact H).
  assert (Hc : forall a l, (forall s, well_spanned s -> well_spanned (fst (act a s))) ->
    (forall s, well_spanned s -> well_spanned (fst (acts l s))) ->
    forall s, well_spanned s -> well_spanned (fst (acts (a :: l) s))).
  { intros a l Ha Hl s W. specialize (Ha s W). simpl. destruct (act a s) as [s' ok] eqn:E.
    destruct ok; [apply Hl; exact Ha | exact Ha]. }
  assert (Ha : forall l c, (forall s, well_spanned s -> well_spanned (fst (acts l s))) ->
    forall s, well_spanned s -> well_spanned (fst (act (A_attempt l c) s))).
  { intros l c H s W. rewrite act_attempt. specialize (H s W). pose proof (acts_extends l s) as X.
    destruct (acts l s) as [s' ok]. simpl in *.
    destruct (ok && c); [exact H |]. rewrite resize_extends by exact X. exact W. }
  assert (Hp : forall l, (forall s, well_spanned s -> well_spanned (fst (acts l s))) ->
    forall s, well_spanned s -> well_spanned (fst (act (A_parens l) s))).
  { intros l H s W. rewrite act_parens.
    specialize (H (append_char_span "("%char sp_bracket s)
      (well_spanned_span s ["("%char] sp_bracket ltac:(discriminate) W)).
    destruct (acts l _) as [s' ok]. simpl in *.
    apply (well_spanned_span s' [")"%char]); [discriminate | exact H]. }
  assert (Hs : forall t k s, well_spanned s -> well_spanned (fst (act (A_span t k) s))).
  { intros t k s W. destruct t; simpl; [exact W |]. apply well_spanned_span; [discriminate | exact W]. }
  split; [apply (action_induction (fun a => forall s, well_spanned s -> well_spanned (fst (act a s))) (fun l => forall s, well_spanned s -> well_spanned (fst (acts l s))))
         | apply (actions_induction (fun a => forall s, well_spanned s -> well_spanned (fst (act a s))) (fun l => forall s, well_spanned s -> well_spanned (fst (acts l s))))];
    intros; auto; simpl; try (apply well_spanned_text; assumption);
    match goal with |- well_spanned (append_char_span ?c ?k ?s) =>
      apply (well_spanned_span s [c] k); [discriminate | assumption] end.
Qed.

Lemma acts_well_spanned l s : well_spanned s -> well_spanned (fst (acts l s)).
Proof. apply acts_well_spanned_both. Qed.

Lemma slice_join i j t : i <= j -> j <= length t -> slice i j t ++ skipn j t = skipn i t.
Proof.
  intros A B. unfold slice.
  assert (E : skipn j t = skipn (j - i) (skipn i t)).
  { clear B. revert i j A. induction t as [| c t IH]; intros i j A.
    - rewrite !skipn_nil. reflexivity.
    - destruct i as [| i]; [rewrite Nat.sub_0_r; reflexivity |].
      destruct j as [| j]; [lia |]. simpl. apply IH. lia. }
  rewrite E. apply firstn_skipn.
Qed.

Lemma pieces_join spans : forall i t,
  i <= length t ->
  (forall x, In x spans -> i <= s_begin x) ->
  (forall a b x y, nth_error spans a = Some x -> nth_error spans b = Some y -> a < b ->
     s_end x <= s_begin y) ->
  (forall x, In x spans -> s_end x <= length t) ->
  concat (pieces i spans t) = skipn i t.
Proof.
  induction spans as [| x r IH]; intros i t A B C D; simpl.
  - rewrite app_nil_r. unfold slice. rewrite <- skipn_length. apply firstn_all.
  - pose proof (D x (or_introl eq_refl)) as Dx. unfold s_end in Dx.
    rewrite IH.
    + rewrite slice_join by (unfold s_end; lia).
      apply slice_join; [apply B; left; reflexivity | lia].
    + exact Dx.
    + intros y Hy. apply In_nth_error in Hy. destruct Hy as [n Hn].
      apply (C 0 (S n) x y); [reflexivity | exact Hn | lia].
    + intros a b u v Hu Hv L. apply (C (S a) (S b) u v Hu Hv). lia.
    + intros y Hy. apply D. right. exact Hy.
Qed.

Lemma well_spanned_pieces s : well_spanned s -> concat (pieces 0 (cs_spans s) (cs_text s)) = cs_text s.
Proof.
  intros (A & B & C). rewrite pieces_join; [reflexivity | lia | intros; lia | exact B | exact C].
Qed.
