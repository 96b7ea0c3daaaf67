(** The linear map stack refines a stack of finite maps. *)
From Coq Require Import ZArith List Bool Lia.
From Verif Require Import Prelude Types LinMap LinMapSpec.
Import ListNotations.

Lemma key_eqb_eq : forall a b, key_eqb a b = true <-> a = b.
Proof.
  intros [p|] [q|]; cbn; try (split; congruence).
  rewrite Pos.eqb_eq. split; congruence.
Qed.

(** The newest map of a linear stack: variables above the newest sentinel. *)
Fixpoint current (m : linmap) : env :=
  match m with
  | [] => empty_env
  | e :: rest =>
      match e_key e with
      | None => empty_env
      | Some p => update (current rest) p (e_value e)
      end
  end.

(** What lies below each sentinel. *)
Fixpoint saved (m : linmap) : list (cvalue * env) :=
  match m with
  | [] => []
  | e :: rest =>
      match e_key e with
      | None => (e_value e, current rest) :: saved rest
      | Some _ => saved rest
      end
  end.

Definition frames_eq (a b : list (cvalue * env)) : Prop :=
  Forall2 (fun x y => fst x = fst y /\ forall p, snd x p = snd y p) a b.

Definition represents (m : linmap) (s : mapstack) : Prop :=
  (forall p, current m p = ms_current s p) /\ frames_eq (saved m) (ms_saved s).

Lemma find_from_spec : forall p m,
  match find_from (Some p) m with
  | Some i => exists v, lm_value m i = Some v /\ current m p = Some v
  | None => current m p = None
  end.
Proof.
  intros p m; induction m as [|[k v] rest IH]; cbn [find_from e_key]; [reflexivity|].
  destruct k as [q|]; cbn [key_eqb sentinel_key current e_key e_value].
  - unfold update. destruct (Pos.eqb p q) eqn:E.
    + exists v. split; reflexivity.
    + destruct (find_from (Some p) rest) as [i|] eqn:F.
      * destruct IH as [w [H1 H2]]. exists w. split; [exact H1|exact H2].
      * exact IH.
  - reflexivity.
Qed.

Lemma lm_set_current : forall p v m i, find_from (Some p) m = Some i ->
  (forall q, current (lm_set m i v) q = update (current m) p v q)
  /\ saved (lm_set m i v) = saved m.
Proof.
  intros p v m; induction m as [|[k w] rest IH]; intros i; cbn [find_from e_key]; [discriminate|].
  destruct k as [r|]; cbn [key_eqb sentinel_key]; [|discriminate].
  destruct (Pos.eqb p r) eqn:E.
  - intros H; injection H as <-. apply Pos.eqb_eq in E; subst r.
    cbn [lm_set current e_key e_value saved]. split; [|reflexivity].
    intros q. unfold update. destruct (Pos.eqb q p); reflexivity.
  - destruct (find_from (Some p) rest) as [j|] eqn:F; [|discriminate].
    intros H; injection H as <-. destruct (IH j eq_refl) as [H1 H2].
    cbn [lm_set current e_key e_value saved]. split; [|exact H2].
    intros q. unfold update at 1. rewrite H1. unfold update.
    destruct (Pos.eqb q r) eqn:E1, (Pos.eqb q p) eqn:E2; try reflexivity.
    apply Pos.eqb_eq in E1. apply Pos.eqb_eq in E2. subst. rewrite Pos.eqb_refl in E. discriminate.
Qed.

Lemma assign_current : forall E p v m, exists m', @lm_assign E (Some p) v m = Ok m'
  /\ (forall q, current m' q = update (current m) p v q) /\ saved m' = saved m.
Proof.
  intros E p v m. unfold lm_assign, lm_find. cbn [key_eqb sentinel_key negb assert_then bind].
  destruct (find_from (Some p) m) as [i|] eqn:F.
  - eexists. split; [reflexivity|]. apply lm_set_current; exact F.
  - eexists. split; [reflexivity|]. split; reflexivity.
Qed.

Lemma pop_frame_spec : forall m,
  match lm_pop_frame m with
  | Some (v, m') => saved m = (v, current m') :: saved m'
  | None => saved m = []
  end.
Proof.
  induction m as [|[k w] rest IH]; cbn [lm_pop_frame e_key e_value saved]; [reflexivity|].
  destruct k as [r|]; cbn [key_eqb sentinel_key]; [exact IH|reflexivity].
Qed.

Lemma step_refines : forall m s o, represents m s ->
  snd (impl_step m o) = snd (spec_step s o)
  /\ represents (fst (impl_step m o)) (fst (spec_step s o)).
Proof.
  intros m s o [Hc Hs]; destruct o as [p|p v|p v|v| |]; cbn [impl_step spec_step].
  - unfold lm_find; cbn [key_eqb sentinel_key negb assert_then].
    pose proof (find_from_spec p m) as H. destruct (find_from (Some p) m) as [i|].
    + destruct H as [w [H1 H2]]. cbn [fst snd]. rewrite H1, <- Hc, H2. repeat split; assumption.
    + cbn [fst snd]. rewrite <- Hc, H. repeat split; assumption.
  - unfold lm_emplace, lm_find; cbn [key_eqb sentinel_key negb assert_then].
    pose proof (find_from_spec p m) as H. destruct (find_from (Some p) m) as [i|].
    + destruct H as [w [H1 H2]]. rewrite <- Hc, H2, H1. repeat split; assumption.
    + rewrite <- Hc, H. cbn [fst snd]. split; [reflexivity|]. split; [|exact Hs].
      intros q. cbn [current e_key e_value ms_current]. unfold update. rewrite Hc. reflexivity.
  - destruct (assign_current unit p v m) as [m' [H1 [H2 H3]]]. rewrite H1.
    cbn [fst snd]. split; [reflexivity|]. split.
    + intros q. rewrite H2. cbn [ms_current]. unfold update. rewrite Hc. reflexivity.
    + rewrite H3. exact Hs.
  - cbn [fst snd]. split; [reflexivity|]. unfold lm_push_frame. split.
    + intros q. reflexivity.
    + cbn [saved e_key e_value ms_saved sentinel_key]. constructor; [split; [reflexivity|exact Hc]|exact Hs].
  - pose proof (pop_frame_spec m) as H. destruct (lm_pop_frame m) as [[v m']|].
    + rewrite H in Hs. inversion Hs as [|[a b] [c d] la lb H1 H2 E1 E2]; subst.
      cbn [fst snd] in H1 |- *. destruct H1 as [-> H1]. split; [reflexivity|]. split; assumption.
    + rewrite H in Hs. inversion Hs as [E0 E1|]. cbn [fst snd]. split; [reflexivity|].
      split; [exact Hc|]. rewrite H, <- E1. constructor.
  - cbn [fst snd]. split; [reflexivity|]. split; [reflexivity|constructor].
Qed.

Lemma refines_from : forall history m s, represents m s ->
  observe impl_step m history = observe spec_step s history.
Proof.
  induction history as [|o rest IH]; intros m s H; cbn [observe]; [reflexivity|].
  destruct (step_refines m s o H) as [H1 H2].
  destruct (impl_step m o) as [m' b], (spec_step s o) as [s' b']. cbn [fst snd] in *.
  subst b'. f_equal. apply IH; exact H2.
Qed.

Lemma refines : forall history,
  observe impl_step lm_clear history = observe spec_step spec_init history.
Proof. intros. apply refines_from. split; [reflexivity|constructor]. Qed.
