(** One cycle of the virtual machine against the documented effects. *)
From Coq Require Import ZArith List Bool Lia.
From Verif Require Import Prelude Types Ops OpsSpec OpsProofs OpsFacts LinMap LinMapSpec LinMapProofs VM VMSpec.
Import ListNotations.
Open Scope Z_scope.
Local Arguments Z.pow : simpl never.

Lemma fetch_range : forall prog c i, fetch prog c = Some i -> 0 <= c < instruction_count prog.
Proof.
  intros prog c i. unfold fetch.
  destruct (Z.leb_spec 0 c), (Z.ltb_spec c (instruction_count prog)); try discriminate. lia.
Qed.

Lemma fetch_nth : forall prog c, 0 <= c -> fetch prog c = nth_error prog (Z.to_nat c).
Proof.
  intros prog c H. unfold fetch. destruct (Z.leb_spec 0 c); [|lia]. cbn [andb].
  destruct (Z.ltb_spec c (instruction_count prog)) as [|L]; [reflexivity|].
  symmetry. apply nth_error_None. unfold instruction_count in L. lia.
Qed.

Lemma fetch_some : forall prog c, 0 <= c < instruction_count prog -> exists i, fetch prog c = Some i.
Proof.
  intros prog c H. rewrite fetch_nth by lia.
  destruct (nth_error prog (Z.to_nat c)) as [i|] eqn:E; [eauto|].
  apply nth_error_None in E. unfold instruction_count in H. lia.
Qed.

Lemma to_size_small : forall z, 0 <= z < 2 ^ 64 -> to_size z = z.
Proof. intros. unfold to_size, two64. apply Z.mod_small. assumption. Qed.

Lemma to_signed_size_small : forall z, 0 <= z < 2 ^ 63 -> to_signed_size z = z.
Proof.
  intros. unfold to_signed_size, two64.
  rewrite Z.mod_small by lia. destruct (Z.ltb_spec z (2 ^ 63)); lia.
Qed.

Lemma signed_size_result_ok : forall E z, - 2 ^ 63 <= z < 2 ^ 63 -> @signed_size_result E z = Ok z.
Proof.
  intros. unfold signed_size_result.
  destruct (Z.leb_spec (- 2 ^ 63) z), (Z.ltb_spec z (2 ^ 63)); try lia. reflexivity.
Qed.

Lemma jump_target_ok : forall E m o, 0 <= vm_counter m < 2 ^ 62 -> - 2 ^ 62 < o < 2 ^ 62 ->
  @jump_target E m o = Ok (vm_counter m + 1 + o).
Proof.
  intros. unfold jump_target. rewrite to_signed_size_small by lia.
  rewrite signed_size_result_ok by lia. cbn [bind].
  rewrite signed_size_result_ok by lia. f_equal. lia.
Qed.

Lemma frames_eq_refl : forall l, frames_eq l l.
Proof. induction l; constructor; auto. Qed.

Lemma frames_ok_find : forall f p i, frames_ok f -> find_from (Some p) f = Some i ->
  exists v, lm_value f i = Some v /\ current f p = Some v /\ wf_value v.
Proof.
  intros f p i Hf H. pose proof (find_from_spec p f) as S. rewrite H in S.
  destruct S as [v [H1 H2]]. exists v. split; [exact H1|]. split; [exact H2|].
  unfold lm_value in H1; destruct (nth_error f i) as [e|] eqn:E; [|discriminate].
  injection H1 as <-; apply nth_error_In in E; unfold frames_ok in Hf.
  rewrite Forall_forall in Hf; destruct (Hf e E) as [Ha _]; assumption.
Qed.

Lemma frames_ok_set : forall f i v, frames_ok f -> wf_value v ->
  (forall e, nth_error f i = Some e -> e_key e <> None) -> frames_ok (lm_set f i v).
Proof.
  induction f as [|e f IH]; intros i v Hf Hv Hk; [constructor|].
  inversion Hf as [|x l H1 H2]; subst. destruct i; cbn [lm_set].
  - constructor; [|exact H2]. cbn [e_value e_key]. split; [exact Hv|].
    intros C. exfalso. exact (Hk e eq_refl C).
  - constructor; [exact H1|]. apply IH; try assumption.
Qed.

Lemma find_from_key : forall f p i e, find_from (Some p) f = Some i -> nth_error f i = Some e ->
  e_key e <> None.
Proof.
  induction f as [|x f IH]; intros p i e; cbn [find_from]; [discriminate|].
  destruct (e_key x) as [q|] eqn:K; cbn [key_eqb sentinel_key]; [|discriminate].
  destruct (Pos.eqb p q).
  - intros H; injection H as <-. cbn [nth_error]. intros H; injection H as <-. congruence.
  - destruct (find_from (Some p) f) eqn:F; [|discriminate].
    intros H; injection H as <-. cbn [nth_error]. eauto.
Qed.

Lemma assign_ok : forall f p v f', @lm_assign exec_error (Some p) v f = Ok f' ->
  frames_ok f -> wf_value v -> frames_ok f'.
Proof.
  intros f p v f'. unfold lm_assign, lm_find. cbn [key_eqb sentinel_key negb assert_then bind].
  destruct (find_from (Some p) f) as [i|] eqn:F; intros H Hf Hv; injection H as <-.
  - apply frames_ok_set; try assumption. intros e He. eapply find_from_key; eassumption.
  - constructor; [|exact Hf]. cbn [e_value e_key]. split; [exact Hv|discriminate].
Qed.

Lemma pop_frame_ok : forall f v f', lm_pop_frame f = Some (v, f') -> frames_ok f ->
  frames_ok f' /\ wf_value v /\ 0 <= cv_int v < 2 ^ 64.
Proof.
  induction f as [|[k w] f IH]; intros v f'; cbn [lm_pop_frame e_key e_value]; [discriminate|].
  intros H Hf. inversion Hf as [|x l H1 H2]; subst.
  destruct k as [q|]; cbn [key_eqb sentinel_key] in H; [apply IH; assumption|].
  injection H as <- <-. cbn [e_value e_key] in H1. destruct H1 as [Hw Hr].
  split; [exact H2|]. split; [exact Hw|]. apply Hr. reflexivity.
Qed.

(** The possible outcomes of executing one instruction. *)
Definition outcome_ok (m : vm) (i : instr) : Prop :=
  let n := instruction_count (vm_instructions m) in
  (exists m', execute m i = Ok m' /\ vm_instructions m' = vm_instructions m /\ machine_ok m'
     /\ (vm_comparison m' <> vm_comparison m -> exists op, i = IBinary_Operate op)
     /\ ((exists b, effect n i (abs m) b /\ same b (abs m')) \/ jumps_below n i (abs m)))
  \/ (exists e, execute m i = Err e /\ faults n i (abs m) (ee_code e)
        /\ vm_instructions (ee_machine e) = vm_instructions m
        /\ vm_counter (ee_machine e) = vm_counter m)
  \/ (crashes n i (abs m) /\ ~ defined (execute m i)).

Lemma same_refl : forall a, same a a.
Proof. intros [s f cs pc]. unfold same; cbn. repeat split; auto using frames_eq_refl. Qed.

Ltac machine_done :=
  unfold machine_ok, advance, set_stack, set_counter, set_frames;
  cbn [vm_instructions vm_frames vm_stack vm_counter vm_comparison];
  repeat split; try assumption; try lia.

Lemma execute_outcomes : forall m i, machine_ok m ->
  fetch (vm_instructions m) (vm_counter m) = Some i -> outcome_ok m i.
Proof.
  intros m i Hm Hi. pose proof (fetch_range _ _ _ Hi) as Hr.
  destruct Hm as (Hn & Hprog & Hc & Hst & Hfr).
  assert (Hins : instr_ok i).
  { rewrite Forall_forall in Hprog. apply Hprog. unfold fetch in Hi.
    destruct (_ && _); [|discriminate]. eapply nth_error_In; eassumption. }
  assert (Hadv : to_size (vm_counter m + 1) = vm_counter m + 1) by (apply to_size_small; lia).
  unfold outcome_ok. set (n := instruction_count (vm_instructions m)) in *.
  destruct m as [prog fr st c cf]. unfold abs.
  cbn [vm_instructions vm_frames vm_stack vm_counter vm_comparison] in *.
  destruct i as [src|tgt|v| |o|o b| | | |t|op|op|a|fn]; cbn [execute vm_frames vm_stack vm_instructions].
  - destruct src as [p|].
    + unfold lm_find; cbn [key_eqb sentinel_key negb assert_then bind].
      pose proof (find_from_spec p fr) as S. destruct (find_from (Some p) fr) as [i|] eqn:F.
      * destruct (frames_ok_find _ _ _ Hfr F) as (v & H1 & H2 & H3). rewrite H1.
        left. eexists. split; [reflexivity|]. machine_done.
        { constructor; assumption. } { congruence. }
        left. eexists. split; [apply eff_load; exact H2|]. rewrite Hadv. apply same_refl.
      * right; left. eexists. split; [reflexivity|]. cbn. repeat split. apply flt_load. exact S.
    + right; right. split; [apply crash_null; left; reflexivity|]. cbn. tauto.
  - destruct st as [|v st].
    + right; left. eexists. split; [reflexivity|]. cbn. repeat split. apply flt_empty. exact I.
    + inversion Hst; subst. destruct tgt as [p|].
      * destruct (assign_current exec_error p v fr) as (f' & H4 & H5 & H6). rewrite H4. cbn [bind].
        left. eexists. split; [reflexivity|]. machine_done.
        { eapply assign_ok; eassumption. } { congruence. }
        left. eexists. split; [apply eff_store|]. unfold same; cbn. rewrite Hadv.
        repeat split; auto. { rewrite H6. apply frames_eq_refl. }
      * right; right. split; [apply crash_null; right; split; [reflexivity|discriminate]|]. cbn. tauto.
  - left. eexists. split; [reflexivity|]. machine_done.
    { constructor; assumption. } { congruence. }
    left. eexists. split; [apply eff_push|]. rewrite Hadv. apply same_refl.
  - destruct st as [|v st].
    + right; left. eexists. split; [reflexivity|]. cbn. repeat split. apply flt_empty. exact I.
    + inversion Hst; subst. left. eexists. split; [reflexivity|]. machine_done.
      { congruence. }
      left. eexists. split; [apply eff_pop|]. rewrite Hadv. apply same_refl.
  - cbn [instr_ok] in Hins. rewrite jump_target_ok by (cbn [vm_counter]; lia). cbn [bind vm_counter].
    change (instruction_count prog) with n. destruct (Z.leb_spec n (c + 1 + o)).
    + right; left. eexists. split; [reflexivity|]. cbn. repeat split. apply flt_jump. assumption.
    + left. eexists. split; [reflexivity|]. machine_done.
      { apply Z.mod_pos_bound. reflexivity. } { apply Z.mod_pos_bound. reflexivity. } { congruence. }
      destruct (Z_lt_le_dec (c + 1 + o) 0).
      * right. apply below_jump. assumption.
      * left. eexists. split; [apply eff_jump; lia|].
        rewrite (to_size_small (c + 1 + o)) by lia. apply same_refl.
  - destruct st as [|v st].
    + right; left. eexists. split; [reflexivity|]. cbn. repeat split. apply flt_empty. exact I.
    + inversion Hst as [|x l Hv Hst']; subst. destruct v as [vt vz]. cbn [cv_type cv_int].
      destruct (ctype_eqb vt TBool) eqn:Et; cbn [negb].
      * assert (vt = TBool) by (destruct vt; discriminate || reflexivity). subst vt.
        cbn [instr_ok] in Hins. rewrite jump_target_ok by (cbn [vm_counter]; lia). cbn [bind vm_counter].
        change (instruction_count prog) with n. destruct (Z.leb_spec n (c + 1 + o)).
        { right; left. eexists. split; [reflexivity|]. cbn. repeat split. apply flt_jump_if. assumption. }
        rewrite Hadv, to_signed_size_small by lia.
        assert (exists d : bool, vz = if d then 1 else 0) as [d ->].
        { destruct Hv as [_ Hv]. cbn in Hv. destruct Hv; [exists false|exists true]; assumption. }
        replace (negb ((if d then 1 else 0) =? 0)) with d by (destruct d; reflexivity).
        rewrite signed_size_result_ok by (destruct (Bool.eqb b d); lia). cbn [bind].
        left. eexists. split; [reflexivity|]. machine_done.
        { apply Z.mod_pos_bound. reflexivity. } { apply Z.mod_pos_bound. reflexivity. } { congruence. }
        destruct (Z_lt_le_dec (c + 1 + o) 0).
        { right. apply below_jump_if. assumption. }
        left. eexists. split; [apply eff_jump_if; lia|].
        rewrite to_size_small by (destruct (Bool.eqb b d); lia).
        unfold same; cbn. repeat split; auto using frames_eq_refl.
        destruct (Bool.eqb b d); lia.
      * right; left. eexists. split; [reflexivity|]. cbn. repeat split. apply flt_not_bool.
        cbn [cv_type]. intros ->. discriminate.
  - right; left. eexists. split; [reflexivity|]. cbn. repeat split. apply flt_symbolic. auto.
  - right; left. eexists. split; [reflexivity|]. cbn. repeat split. apply flt_symbolic. auto.
  - pose proof (pop_frame_spec fr) as S. destruct (lm_pop_frame fr) as [[r f']|] eqn:F.
    + destruct (pop_frame_ok _ _ _ F Hfr) as (H1 & H2 & H3).
      left. eexists. split; [reflexivity|]. machine_done.
      { apply Z.mod_pos_bound. reflexivity. } { apply Z.mod_pos_bound. reflexivity. } { congruence. }
      left. eexists. rewrite S. split; [apply eff_return; exact H3|].
      rewrite to_size_small by exact H3. apply same_refl.
    + right; left. eexists. split; [reflexivity|]. cbn. repeat split. rewrite S. apply flt_return.
  - destruct st as [|v st].
    + right; left. eexists. split; [reflexivity|]. cbn. repeat split. apply flt_empty. exact I.
    + inversion Hst as [|x l Hv Hst']; subst. destruct (evaluate_conversion v t) as [w|e| |] eqn:Ev; cbn [evaluated].
      * left. eexists. split; [reflexivity|]. machine_done.
        { constructor; [|assumption]. eapply convert_wf; [exact Hv|exact Hins|exact Ev]. } { congruence. }
        left. eexists. split; [apply eff_convert; exact Ev|]. rewrite Hadv. apply same_refl.
      * right; left. eexists. split; [reflexivity|]. cbn. repeat split. apply flt_convert. exact Ev.
      * right; right. split; [apply crash_convert; rewrite Ev; cbn; tauto|cbn; tauto].
      * right; right. split; [apply crash_convert; rewrite Ev; cbn; tauto|cbn; tauto].
  - destruct st as [|v st].
    + right; left. eexists. split; [reflexivity|]. cbn. repeat split. apply flt_empty. exact I.
    + inversion Hst as [|x l Hv Hst']; subst. destruct (evaluate_unary_operator op v) as [w|e| |] eqn:Ev; cbn [evaluated].
      * left. eexists. split; [reflexivity|]. machine_done.
        { constructor; [|assumption]. eapply eval_unary_wf; eassumption. } { congruence. }
        left. eexists. split; [apply eff_unary; exact Ev|]. rewrite Hadv. apply same_refl.
      * right; left. eexists. split; [reflexivity|]. cbn. repeat split. apply flt_unary. exact Ev.
      * right; right. split; [apply crash_unary; rewrite Ev; cbn; tauto|cbn; tauto].
      * right; right. split; [apply crash_unary; rewrite Ev; cbn; tauto|cbn; tauto].
  - destruct st as [|y [|x st]].
    + right; left. eexists. split; [reflexivity|]. cbn. repeat split. apply flt_empty. exact I.
    + right; left. eexists. split; [reflexivity|]. cbn. repeat split. apply flt_one.
    + inversion Hst as [|x0 l Hv Hst']; subst. inversion Hst' as [|x1 l1 Hv1 Hst'']; subst.
      destruct (evaluate_binary_operator x op y) as [w|e| |] eqn:Ev; cbn [evaluated].
      * assert (Hw : Forall wf_value (w :: st)).
        { constructor; [|assumption]. eapply eval_binary_wf; [exact Hv1|exact Hv|exact Ev]. }
        left. eexists. split; [reflexivity|].
        destruct (next_is_assert _); unfold set_comparison; machine_done.
        all: try (intros _; eexists; reflexivity).
        all: left; eexists; (split; [apply eff_binary; exact Ev|]); rewrite Hadv; apply same_refl.
      * right; left. eexists. split; [reflexivity|]. cbn. repeat split. apply flt_binary. exact Ev.
      * right; right. split; [apply crash_binary; rewrite Ev; cbn; tauto|cbn; tauto].
      * right; right. split; [apply crash_binary; rewrite Ev; cbn; tauto|cbn; tauto].
  - cbn [instr_ok] in Hins. change (instruction_count prog) with n. destruct (Z.ltb_spec n a).
    + right; left. eexists. split; [reflexivity|]. cbn. repeat split. apply flt_call. assumption.
    + left. eexists. split; [reflexivity|]. machine_done.
      { constructor; [|assumption]. cbn [e_value e_key]. rewrite Hadv. split.
        { split; cbn; [exact I|lia]. } { intros _. cbn. lia. } }
      { congruence. }
      left. eexists. split; [apply eff_call; lia|]. rewrite Hadv. apply same_refl.
  - destruct fn. cbn [builtin_parameter_count]. destruct st as [|v st].
    + right; left. eexists. split; [reflexivity|]. cbn. repeat split. apply flt_empty. exact I.
    + inversion Hst as [|x l Hv Hst']; subst. cbn [length Nat.ltb Nat.leb firstn skipn rev app].
      destruct v as [vt vz]. destruct vt; cbn;
        try (right; left; eexists; (split; [reflexivity|]); cbn; repeat split;
             apply flt_assert_type; discriminate).
      destruct (Z.eqb_spec vz 1); cbn.
      * subst. left. eexists. split; [reflexivity|]. machine_done.
        { constructor; [split; cbn; auto|assumption]. } { congruence. }
        left. eexists. split; [apply eff_assert|]. rewrite Hadv. apply same_refl.
      * right; left. eexists. split; [reflexivity|]. cbn. repeat split.
        apply flt_assert; [reflexivity|assumption].
Qed.

Lemma frames_eq_sym : forall a b, frames_eq a b -> frames_eq b a.
Proof.
  unfold frames_eq. intros a b H. induction H as [|x y l l' [Hx Hp] _ IH]; constructor; [|exact IH].
  split; [congruence|]. intros p. rewrite Hp. reflexivity.
Qed.

Lemma frames_eq_trans : forall a b c, frames_eq a b -> frames_eq b c -> frames_eq a c.
Proof.
  unfold frames_eq. intros a b c H. revert c.
  induction H as [|x y l l' [Hx Hp] _ IH]; intros c Hc; inversion Hc as [|y' z l2 l3 [Hy Hq] Hr E1 E2]; subst.
  - constructor.
  - constructor; [|apply IH; exact Hr]. split; [congruence|]. intros p. rewrite Hp. apply Hq.
Qed.

Lemma same_sym : forall a b, same a b -> same b a.
Proof.
  intros a b (A1 & A2 & A3 & A4). split; [congruence|]. split; [|split; [|congruence]].
  - intros p. rewrite A2. reflexivity.
  - apply frames_eq_sym. exact A3.
Qed.

Lemma same_trans : forall a b c, same a b -> same b c -> same a c.
Proof.
  intros a b c (A1 & A2 & A3 & A4) (B1 & B2 & B3 & B4). split; [congruence|]. split; [|split; [|congruence]].
  - intros p. rewrite A2. apply B2.
  - eapply frames_eq_trans; eassumption.
Qed.

Lemma effect_deterministic : forall n i a b b', effect n i a b -> effect n i a b' -> b = b'.
Proof.
  intros n i a b b' H1 H2.
  destruct H1; inversion H2; subst; try congruence; try reflexivity.
  match goal with E : (if ?x then 1 else 0) = (if ?y then 1 else 0) |- _ =>
    destruct x, y; try discriminate; reflexivity end.
Qed.

Ltac absurd_evaluation :=
  match goal with
  | H : ~ defined ?x, E : ?x = _ |- _ => rewrite E in H; cbn in H; tauto
  end.

Lemma effect_not_fault : forall n i a b c, effect n i a b -> ~ faults n i a c.
Proof.
  intros n i a b c H1 H2.
  destruct H1; inversion H2; subst; try congruence; try lia; try contradiction.
  all: try (match goal with H : _ \/ _ |- _ => destruct H; discriminate end).
  all: cbn in *; congruence.
Qed.

Lemma effect_not_crash : forall n i a b, effect n i a b -> ~ crashes n i a.
Proof.
  intros n i a b H1 H2.
  destruct H1; inversion H2; subst; try absurd_evaluation.
  all: match goal with H : _ \/ _ |- _ => destruct H as [H|[H _]]; discriminate end.
Qed.

Lemma fault_not_crash : forall n i a c, faults n i a c -> ~ crashes n i a.
Proof.
  intros n i a c H1 H2.
  destruct H1; inversion H2; subst; try absurd_evaluation; try contradiction.
  all: repeat match goal with
       | H : _ \/ _ |- _ => destruct H as [H|H]
       | H : _ /\ _ |- _ => destruct H
       end; subst; try discriminate; cbn in *; try contradiction; try congruence.
Qed.

Lemma below_excludes : forall n i a, jumps_below n i a ->
  (forall b, ~ effect n i a b) /\ ~ crashes n i a /\ (0 <= n -> forall c, ~ faults n i a c).
Proof.
  intros n i a H. repeat split.
  - intros b E. destruct H; inversion E; subst; cbn in *; lia.
  - intros C. destruct H; inversion C; subst;
      match goal with H : _ \/ _ |- _ => destruct H as [H|[H _]]; discriminate end.
  - intros Hn c F. destruct H; inversion F; subst; cbn in *; try lia; try discriminate; try congruence.
    all: repeat match goal with H : _ \/ _ |- _ => destruct H as [H|H]; discriminate end.
Qed.

Lemma fault_unique : forall n i a c c', faults n i a c -> faults n i a c' -> c = c'.
Proof.
  intros n i a c c' H1 H2.
  destruct H1; inversion H2; subst; try congruence; try contradiction; cbn in *; try congruence; try contradiction.
  all: repeat match goal with H : _ \/ _ |- _ => destruct H as [H|H] end; subst; try discriminate;
       try contradiction; try reflexivity.
Qed.

Lemma fault_not_loop : forall n i a c, faults n i a c -> c <> x_infinite_loop.
Proof. intros n i a c H. destruct H; discriminate. Qed.

Lemma instruction_count_nonneg : forall p, 0 <= instruction_count p.
Proof. intros. unfold instruction_count. lia. Qed.

Lemma cycle_ok_iff : forall m i, machine_ok m ->
  fetch (vm_instructions m) (vm_counter m) = Some i ->
  ~ jumps_below (instruction_count (vm_instructions m)) i (abs m) ->
  forall b, (exists m', cycle m = Ok m' /\ same b (abs m'))
            <-> (exists b', effect (instruction_count (vm_instructions m)) i (abs m) b'
                            /\ same b b' /\ a_pc b' <> vm_counter m).
Proof.
  intros m i Hm Hi Hb b. set (n := instruction_count (vm_instructions m)) in *.
  pose proof (execute_outcomes m i Hm Hi) as H. unfold outcome_ok in H. fold n in H.
  unfold cycle. rewrite Hi.
  assert (T : forall x y z, same x y -> same z y -> same x z).
  { intros x y z A B. eapply same_trans; [exact A|]. apply same_sym. exact B. }
  destruct H as [(m' & H1 & H2 & H3 & _ & [(b' & H4 & H5)|H4])|[(e & H1 & H2 & H3)|(H1 & H2)]].
  - rewrite H1. cbn [bind].
    assert (Hpc : a_pc b' = vm_counter m') by (destruct H5 as (_ & _ & _ & H5); exact H5).
    split.
    + intros (m'' & E & S). exists b'. split; [exact H4|].
      destruct (Z.eqb_spec (vm_counter m) (vm_counter m')); [discriminate|]. injection E as <-.
      split; [eapply T; eassumption|lia].
    + intros (b'' & E & S & N). pose proof (effect_deterministic _ _ _ _ _ H4 E). subst b''.
      exists m'. destruct (Z.eqb_spec (vm_counter m) (vm_counter m')); [lia|]. split; [reflexivity|].
      pose proof (same_sym _ _ H5) as H6.
      eapply T; eassumption.
  - contradiction.
  - rewrite H1. cbn [bind]. split; [intros (m' & E & _); discriminate|].
    intros (b' & E & _ & _). exfalso. eapply effect_not_fault; eassumption.
  - split.
    + intros (m' & E & _). exfalso. apply H2.
      destruct (execute m i); cbn [bind] in E; try discriminate. exact I.
    + intros (b' & E & _ & _). exfalso. eapply effect_not_crash; eassumption.
Qed.

Lemma cycle_error_iff : forall m i, machine_ok m ->
  fetch (vm_instructions m) (vm_counter m) = Some i ->
  ~ jumps_below (instruction_count (vm_instructions m)) i (abs m) ->
  forall x, (exists e, cycle m = Err e /\ ee_code e = x)
            <-> faults (instruction_count (vm_instructions m)) i (abs m) x
                \/ (x = x_infinite_loop
                    /\ exists b, effect (instruction_count (vm_instructions m)) i (abs m) b
                                 /\ a_pc b = vm_counter m).
Proof.
  intros m i Hm Hi Hb x. set (n := instruction_count (vm_instructions m)) in *.
  pose proof (execute_outcomes m i Hm Hi) as H. unfold outcome_ok in H. fold n in H.
  unfold cycle. rewrite Hi.
  destruct H as [(m' & H1 & H2 & H3 & _ & [(b' & H4 & H5)|H4])|[(e & H1 & H2 & H3)|(H1 & H2)]].
  - rewrite H1. cbn [bind].
    assert (Hpc : a_pc b' = vm_counter m') by (destruct H5 as (_ & _ & _ & H5); exact H5).
    split.
    + intros (e & E & S). destruct (Z.eqb_spec (vm_counter m) (vm_counter m')); [|discriminate].
      injection E as <-. cbn in S. right. split; [congruence|]. exists b'. split; [exact H4|lia].
    + intros [F|(-> & b & E & N)].
      * exfalso. eapply effect_not_fault; eassumption.
      * pose proof (effect_deterministic _ _ _ _ _ H4 E). subst b.
        destruct (Z.eqb_spec (vm_counter m) (vm_counter m')); [|lia]. eexists. split; reflexivity.
  - contradiction.
  - rewrite H1. cbn [bind]. split.
    + intros (e' & E & S). injection E as <-. left. rewrite <- S. exact H2.
    + intros [F|(-> & b & E & N)].
      * exists e. split; [reflexivity|]. eapply fault_unique; eassumption.
      * exfalso. eapply effect_not_fault; eassumption.
  - split.
    + intros (e & E & _). exfalso. apply H2.
      destruct (execute m i) as [v| | |]; cbn [bind] in E; try discriminate; exact I.
    + intros [F|(-> & b & E & N)]; exfalso.
      * eapply fault_not_crash; eassumption.
      * eapply effect_not_crash; eassumption.
Qed.

Lemma cycle_crash_iff : forall m, machine_ok m ->
  (~ defined (cycle m)
   <-> fetch (vm_instructions m) (vm_counter m) = None
       \/ exists i, fetch (vm_instructions m) (vm_counter m) = Some i
                    /\ crashes (instruction_count (vm_instructions m)) i (abs m)).
Proof.
  intros m Hm. destruct (fetch (vm_instructions m) (vm_counter m)) as [i|] eqn:Hi.
  2: { unfold cycle. rewrite Hi. cbn. split; auto. }
  pose proof (execute_outcomes m i Hm Hi) as H. unfold outcome_ok in H.
  pose proof (instruction_count_nonneg (vm_instructions m)) as Hn.
  set (n := instruction_count (vm_instructions m)) in *.
  unfold cycle. rewrite Hi. split.
  - intros D. right. exists i. split; [reflexivity|].
    destruct H as [(m' & H1 & _)|[(e & H1 & _)|(H1 & _)]]; [| |exact H1]; exfalso; apply D;
      rewrite H1; cbn [bind]; [destruct (_ =? _)|]; exact I.
  - intros [D|(j & E & C)]; [discriminate|]. injection E as <-.
    destruct H as [(m' & H1 & _ & _ & _ & [(b & H4 & _)|H4])|[(e & H1 & H2 & _)|(_ & H2)]].
    + exfalso. eapply effect_not_crash; eassumption.
    + exfalso. destruct (below_excludes _ _ _ H4) as (_ & X & _). contradiction.
    + exfalso. eapply fault_not_crash; eassumption.
    + destruct (execute m i) as [v|e| |]; cbn in *; tauto.
Qed.

Lemma cycle_preserves : forall m m', machine_ok m -> cycle m = Ok m' ->
  machine_ok m' /\ vm_instructions m' = vm_instructions m /\ vm_counter m' <> vm_counter m.
Proof.
  intros m m' Hm H. unfold cycle in H.
  destruct (fetch (vm_instructions m) (vm_counter m)) as [i|] eqn:Hi; [|discriminate].
  pose proof (execute_outcomes m i Hm Hi) as O. unfold outcome_ok in O.
  destruct O as [(x & H1 & H2 & H3 & _)|[(e & H1 & _)|(H1 & H2)]].
  - rewrite H1 in H. cbn [bind] in H. destruct (Z.eqb_spec (vm_counter m) (vm_counter x)); [discriminate|].
    injection H as <-. repeat split; try assumption; try apply H3; congruence.
  - rewrite H1 in H. discriminate.
  - destruct (execute m i); cbn in *; try discriminate. tauto.
Qed.

Lemma cycle_error_text : forall m e, machine_ok m -> cycle m = Err e ->
  vm_instructions (ee_machine e) = vm_instructions m /\ vm_counter (ee_machine e) = vm_counter m.
Proof.
  intros m e Hm H. unfold cycle in H.
  destruct (fetch (vm_instructions m) (vm_counter m)) as [i|] eqn:Hi; [|discriminate].
  pose proof (execute_outcomes m i Hm Hi) as O. unfold outcome_ok in O.
  destruct O as [(x & H1 & H2 & H3 & _)|[(e' & H1 & _ & H3)|(H1 & H2)]].
  - rewrite H1 in H. cbn [bind] in H. destruct (Z.eqb_spec (vm_counter m) (vm_counter x)); [|discriminate].
    injection H as <-. cbn. split; [assumption|lia].
  - rewrite H1 in H. cbn [bind] in H. injection H as <-. exact H3.
  - destruct (execute m i); cbn in *; try discriminate; tauto.
Qed.

(** ** infinite_loop *)

(** Continuing regardless of the check at src/bms/vm/vm.cpp:216-218. *)
Definition unchecked_cycle (m : vm) : outcome exec_error vm :=
  match fetch (vm_instructions m) (vm_counter m) with
  | None => Abort
  | Some i => execute m i
  end.

Fixpoint unchecked_run (n : nat) (m : vm) : outcome exec_error vm :=
  match n with
  | O => Ok m
  | S k => let* m' := unchecked_cycle m in unchecked_run k m'
  end.

(** The machine never stops when it continues. *)
Definition never_stops (m : vm) : Prop := forall n, exists m', unchecked_run n m = Ok m'.

Lemma never_stops_by : forall P : vm -> Prop,
  (forall m, P m -> exists m', unchecked_cycle m = Ok m' /\ P m') -> forall m, P m -> never_stops m.
Proof.
  intros P H m Hm n. revert m Hm. induction n as [|n IH]; intros m Hm; [exists m; reflexivity|].
  destruct (H m Hm) as (m' & E & Hm'). cbn [unchecked_run]. rewrite E. cbn [bind]. apply IH, Hm'.
Qed.

Lemma lm_find_no_error : forall E k f (e : E), lm_find k f <> Err e.
Proof. intros. unfold lm_find. destruct (negb _); discriminate. Qed.

Lemma lm_assign_no_error : forall E k v f (e : E), lm_assign k v f <> Err e.
Proof.
  intros. unfold lm_assign, lm_find. destruct (negb _); cbn [assert_then bind]; [|discriminate].
  destruct (find_from k f); discriminate.
Qed.

Lemma signed_size_no_error : forall E z (e : E), signed_size_result z <> Err e.
Proof. intros. unfold signed_size_result. destruct (_ && _); discriminate. Qed.

Lemma jump_target_no_error : forall E m o (e : E), jump_target m o <> Err e.
Proof.
  intros. unfold jump_target, signed_size_result.
  destruct (_ && _); cbn [bind]; [|discriminate]. destruct (_ && _); discriminate.
Qed.

Lemma evaluated_not_loop : forall m r k e, evaluated m r k = Err e ->
  (forall v e', k v <> Err e') -> ee_code e <> x_infinite_loop.
Proof.
  intros m r k e H Hk. destruct r; cbn [evaluated] in H; try discriminate.
  - exfalso. eapply Hk; exact H.
  - injection H as <-. discriminate.
Qed.

Lemma execute_not_loop : forall m i e, execute m i = Err e -> ee_code e <> x_infinite_loop.
Proof.
  intros m i e H. destruct i; cbn [execute] in H; try discriminate;
    try (injection H as <-; discriminate).
  - destruct (lm_find _ _) as [[n|]|x| |] eqn:F; cbn [bind] in H; try discriminate.
    + destruct (lm_value _ _); discriminate.
    + injection H as <-. discriminate.
    + exfalso. eapply lm_find_no_error; exact F.
  - destruct (vm_stack m); [injection H as <-; discriminate|].
    destruct (lm_assign _ _ _) eqn:F; cbn [bind] in H; try discriminate.
    exfalso. eapply lm_assign_no_error; exact F.
  - destruct (vm_stack m); [injection H as <-|]; discriminate.
  - destruct (jump_target _ _) eqn:F; cbn [bind] in H; try discriminate.
    + destruct (_ <=? _); [injection H as <-|]; discriminate.
    + exfalso. eapply jump_target_no_error; exact F.
  - destruct (vm_stack m); [injection H as <-; discriminate|].
    destruct (negb _); [injection H as <-; discriminate|].
    destruct (jump_target _ _) eqn:F; cbn [bind] in H; try discriminate.
    + destruct (_ <=? _); [injection H as <-; discriminate|].
      destruct (signed_size_result _) eqn:G; cbn [bind] in H; try discriminate.
      exfalso. eapply signed_size_no_error; exact G.
    + exfalso. eapply jump_target_no_error; exact F.
  - destruct (lm_pop_frame _) as [[v f]|]; [|injection H as <-]; discriminate.
  - destruct (vm_stack m); [injection H as <-; discriminate|].
    eapply evaluated_not_loop; [exact H|]. discriminate.
  - destruct (vm_stack m); [injection H as <-; discriminate|].
    eapply evaluated_not_loop; [exact H|]. discriminate.
  - destruct (vm_stack m) as [|a [|b l]]; [injection H as <-; discriminate|injection H as <-; discriminate|].
    eapply evaluated_not_loop; [exact H|]. discriminate.
  - destruct (_ <? _); [injection H as <-|]; discriminate.
  - destruct (Nat.ltb _ _); [injection H as <-; discriminate|].
    destruct (evaluate_builtin_function _ _); try discriminate. injection H as <-. discriminate.
Qed.

Lemma infinite_loop_cases : forall m e, cycle m = Err e -> ee_code e = x_infinite_loop ->
  exists i, fetch (vm_instructions m) (vm_counter m) = Some i
    /\ execute m i = Ok (ee_machine e) /\ vm_counter (ee_machine e) = vm_counter m.
Proof.
  intros m e H X. unfold cycle in H.
  destruct (fetch (vm_instructions m) (vm_counter m)) as [i|]; [|discriminate].
  exists i. split; [reflexivity|].
  destruct (execute m i) as [m'|e'| |] eqn:E; cbn [bind] in H; try discriminate.
  - destruct (Z.eqb_spec (vm_counter m) (vm_counter m')); [|discriminate]. injection H as <-.
    cbn. split; [reflexivity|lia].
  - injection H as <-. exfalso. eapply execute_not_loop; eassumption.
Qed.

Lemma infinite_loop_jump : forall m e, cycle m = Err e -> ee_code e = x_infinite_loop ->
  (exists i, fetch (vm_instructions m) (vm_counter m) = Some i
             /\ ((exists o, i = IRelative_Jump o) \/ (exists a, i = ICall a))) ->
  never_stops (ee_machine e).
Proof.
  intros m e H X (i & Hi & Hk). destruct (infinite_loop_cases m e H X) as (j & Hj & Hx & Hc).
  rewrite Hi in Hj. injection Hj as <-.
  destruct Hk as [(o & ->)|(a & ->)].
  - apply (never_stops_by (fun x => x = m)).
    + intros x ->. exists (ee_machine e). unfold unchecked_cycle. rewrite Hi, Hx. split; [reflexivity|].
      cbn [execute] in Hx. destruct (jump_target m o) as [t| | |]; cbn [bind] in Hx; try discriminate.
      destruct (_ <=? _); [discriminate|]. injection Hx as Hx. rewrite <- Hx in Hc |- *. cbn [set_counter vm_counter] in Hc |- *.
      unfold set_counter. rewrite Hc. destruct m; reflexivity.
    + cbn [execute] in Hx. destruct (jump_target m o) as [t| | |]; cbn [bind] in Hx; try discriminate.
      destruct (_ <=? _); [discriminate|]. injection Hx as Hx. rewrite <- Hx in Hc |- *. cbn [set_counter vm_counter] in Hc |- *.
      unfold set_counter. rewrite Hc. destruct m; reflexivity.
  - cbn [execute] in Hx. destruct (instruction_count (vm_instructions m) <? a) eqn:L; [discriminate|].
    injection Hx as Hx. rewrite <- Hx in Hc. cbn [set_counter vm_counter] in Hc. subst a.
    apply (never_stops_by (fun x => vm_instructions x = vm_instructions m /\ vm_counter x = vm_counter m)).
    + intros x (E1 & E2). eexists. unfold unchecked_cycle. rewrite E1, E2, Hi. cbn [execute].
      rewrite E1, L. split; [reflexivity|]. cbn. split; [exact E1|reflexivity].
    + rewrite <- Hx. cbn. split; reflexivity.
Qed.
