(** Facts used in the proofs about analysis: the monad, results of operations, runs of the virtual machine
    on well-formed values, and how recorded facts survive changes of the state. *)
From Coq Require Import ZArith List Bool Lia.
From Verif Require Import Prelude Types Ops OpsSpec OpsProofs OpsFacts AbsOps AbsOpsSpec AbsOpsProofs Text Tables Literals
  LinMap LinMapSpec VM VMSpec Ast AstFacts Codegen SourceSem CodegenSpec Annotated AnnotatedProofs Analyze Programs.
Import ListNotations.
Open Scope Z_scope.
Local Arguments Z.pow : simpl never.

(** ** The monad *)

Lemma mbind_ok : forall A B (x : M A) (f : A -> M B) st b st',
  mbind x f st = Some (Ok (b, st')) ->
  exists a st1, x st = Some (Ok (a, st1)) /\ f a st1 = Some (Ok (b, st')).
Proof.
  intros A B x f st b st' H. unfold mbind in H. destruct (x st) as [[[a st1]|e| |]|]; try discriminate. eauto.
Qed.

Lemma mret_ok : forall A (a b : A) st st', mret a st = Some (Ok (b, st')) -> b = a /\ st' = st.
Proof. intros A a b st st' H. unfold mret in H. injection H as <- <-. auto. Qed.

Lemma massert_ok : forall b st u st', massert b st = Some (Ok (u, st')) -> b = true /\ st' = st.
Proof. intros [] st u st' H; [apply mret_ok in H; tauto|discriminate]. Qed.

Lemma lift_ok : forall E A (f : E -> analysis_error) (x : outcome E A) st a st',
  lift f x st = Some (Ok (a, st')) -> x = Ok a /\ st' = st.
Proof.
  intros E A f [v|e| |] st a st' H; try discriminate. apply mret_ok in H. destruct H as [-> ->]. auto.
Qed.

Lemma mvalue_ok : forall A (x : option A) st a st', mvalue x st = Some (Ok (a, st')) -> x = Some a /\ st' = st.
Proof. intros A [v|] st a st' H; [|discriminate]. apply mret_ok in H. destruct H as [-> ->]. auto. Qed.

Lemma deref_ok : forall x st a st', deref x st = Some (Ok (a, st')) -> x = Some a /\ st' = st.
Proof. intros [v|] st a st' H; [|discriminate]. apply mret_ok in H. destruct H as [-> ->]. auto. Qed.

Lemma mtype_ok : forall t st c st', mtype t st = Some (Ok (c, st')) ->
  @concrete_type_value unit t = Ok c /\ st' = st.
Proof.
  intros t st c st' H. unfold mtype in H. destruct (concrete_type_value t); try discriminate.
  apply mret_ok in H. destruct H as [-> ->]. auto.
Qed.

Lemma or_unknown_ok : forall r t st v st', or_unknown r t st = Some (Ok (v, st')) ->
  recorded_result r t v /\ st' = st.
Proof.
  intros [v0|e| |] t st v st' H; try discriminate; apply mret_ok in H; destruct H as [-> ->]; split; auto.
  - left. reflexivity.
  - right. split; [eauto|reflexivity].
Qed.

Lemma mget_ok : forall st x st', mget st = Some (Ok (x, st')) -> x = st /\ st' = st.
Proof. intros st x st' H. unfold mget in H. injection H as <- <-. auto. Qed.

Lemma get_function_ok : forall n st f st', get_function n st = Some (Ok (f, st')) ->
  st_functions st n = Some f /\ st' = st.
Proof.
  intros n st f st' H. unfold get_function in H. destruct (st_functions st n); [|discriminate].
  apply mret_ok in H. destruct H as [-> ->]. auto.
Qed.

Lemma set_vm_ok : forall m st u st', set_vm m st = Some (Ok (u, st')) ->
  st' = State (st_functions st) (st_values st) m (st_stack st).
Proof. intros m st u st' H. unfold set_vm in H. injection H as <- <-. reflexivity. Qed.

(** Take apart a hypothesis about a computation that succeeds. *)
Ltac minv H :=
  match type of H with
  | mbind _ _ _ = Some (Ok _) =>
      let a := fresh "a" in let s := fresh "s" in let E := fresh "E" in
      apply mbind_ok in H; destruct H as (a & s & E & H); cbn beta iota in H
  | mret _ _ = Some (Ok _) => apply mret_ok in H; destruct H as [? ?]
  | massert _ _ = Some (Ok _) => apply massert_ok in H; destruct H as [? ?]
  | lift _ _ _ = Some (Ok _) => apply lift_ok in H; destruct H as [? ?]
  | mvalue _ _ = Some (Ok _) => apply mvalue_ok in H; destruct H as [? ?]
  | deref _ _ = Some (Ok _) => apply deref_ok in H; destruct H as [? ?]
  | mtype _ _ = Some (Ok _) => apply mtype_ok in H; destruct H as [? ?]
  | or_unknown _ _ _ = Some (Ok _) => apply or_unknown_ok in H; destruct H as [? ?]
  | mget _ = Some (Ok _) => apply mget_ok in H; destruct H as [? ?]
  | get_function _ _ = Some (Ok _) => apply get_function_ok in H; destruct H as [? ?]
  | set_vm _ _ = Some (Ok _) => apply set_vm_ok in H
  | mfail _ _ = Some (Ok _) => discriminate H
  | mabort _ = Some (Ok _) => discriminate H
  | mub _ = Some (Ok _) => discriminate H
  end.

(** ** Results of operations are well-formed *)

Lemma wf_recorded : forall a, wf_avalue a -> exists c, as_recorded a (ret c).
Proof. intros a H. destruct (may_be_inhabited a H) as [c Hc]. exists c. apply may_be_recorded. exact Hc. Qed.

Lemma recorded_wf : forall a r, wf_type (av_type a) -> as_recorded a r -> wf_avalue a.
Proof.
  intros a r Ht [H1 H2]. split; [exact Ht|]. intros z Hz. rewrite (H2 z Hz) in H1. cbn in H1. apply H1.
Qed.

Lemma unknown_wf : forall t, wf_type t -> wf_avalue (AV t None).
Proof. intros t H. split; [exact H|]. discriminate. Qed.

Lemma conversion_wf : forall v t r, wf_avalue v -> wf_type t -> is_convertible_to (av_type v) t = true ->
  recorded_result (value_evaluate_conversion v t) t r -> av_type r = t /\ wf_avalue r.
Proof.
  intros v t r Hv Ht Hc Hr. destruct (wf_recorded v Hv) as [c Rc].
  destruct (convert_recorded _ _ _ _ Rc Ht Hc Hr) as [E R]. split; [exact E|]. eapply recorded_wf; [|exact R].
  rewrite E. exact Ht.
Qed.

Lemma binary_wf : forall l op r t v, wf_avalue l -> wf_avalue r ->
  check_binary_operator (av_type l) op (av_type r) = Ok t ->
  recorded_result (value_evaluate_binary_operator l op r) t v -> av_type v = t /\ wf_avalue v.
Proof.
  intros l op r t v Hl Hr Hc Hv. destruct (wf_recorded l Hl) as [x Rx]. destruct (wf_recorded r Hr) as [y Ry].
  destruct (binary_recorded _ _ _ _ _ _ _ Rx Ry Hc Hv) as [E R]. split; [exact E|]. eapply recorded_wf; [|exact R].
  rewrite E. eapply check_binary_wf; [apply Hl|apply Hr|exact Hc].
Qed.

Lemma unary_wf : forall op a t v, wf_avalue a -> check_unary_operator op (av_type a) = Ok t ->
  recorded_result (value_evaluate_unary_operator op a) t v -> av_type v = t /\ wf_avalue v.
Proof.
  intros op a t v Ha Hc Hv. destruct (wf_recorded a Ha) as [x Rx].
  destruct (unary_recorded _ _ _ _ _ Rx Hc Hv) as [E R]. split; [exact E|]. eapply recorded_wf; [|exact R].
  rewrite E, (check_unary_same _ _ _ Hc). apply Ha.
Qed.

Lemma check_if_wf : forall l c r t, wf_type l -> wf_type r -> check_if_expression l c r = Ok t -> wf_type t.
Proof.
  intros l c r t Hl Hr H. unfold check_if_expression in H. destruct (negb _); [discriminate|].
  eapply common_type_wf; [| |exact H]; assumption.
Qed.

Lemma if_wf : forall l c r t v, wf_avalue l -> wf_avalue c -> wf_avalue r ->
  check_if_expression (av_type l) (av_type c) (av_type r) = Ok t ->
  recorded_result (value_evaluate_if_expression l c r) t v -> av_type v = t /\ wf_avalue v.
Proof.
  intros l c r t v Hl Hc Hr Hk Hv. destruct (wf_recorded l Hl) as [x Rx]. destruct (wf_recorded c Hc) as [y Ry].
  destruct (wf_recorded r Hr) as [z Rz].
  assert (Ht : wf_type t) by (eapply check_if_wf; [apply Hl|apply Hr|exact Hk]).
  destruct (if_recorded _ _ _ _ _ _ _ _ Rx Ry Rz Ht Hk Hv) as [E R]. split; [exact E|].
  eapply recorded_wf; [|exact R]. rewrite E. exact Ht.
Qed.

Lemma builtin_wf : forall b args v, value_evaluate_builtin_function b args = Ok v -> wf_avalue v.
Proof.
  intros [] args v H. rewrite value_builtin_assert_spec in H.
  destruct args as [|[[] [z|]] [|]]; try discriminate;
    [destruct (z =? 1); [|discriminate]|]; injection H as <-; split; cbn; auto; try discriminate.
  intros z0 [= <-]. reflexivity.
Qed.

Lemma as_known_wf : forall a c, wf_avalue a -> @concrete_value analysis_error a = Ok c -> wf_value c.
Proof.
  intros [t [z|]] c [Ht Hz] H; [|discriminate]. injection H as <-. split; [exact Ht|apply Hz; reflexivity].
Qed.

(** ** The virtual machine *)

Definition instr_values (i : instr) : Prop :=
  match i with IPush v => wf_value v | IConvert t => wf_type t | _ => True end.
Definition machine_values (m : vm) : Prop :=
  Forall instr_values (vm_instructions m) /\ Forall wf_value (vm_stack m)
  /\ Forall (fun e => wf_value (e_value e)) (vm_frames m).

Lemma lm_set_values : forall f i v, Forall (fun e => wf_value (e_value e)) f -> wf_value v ->
  Forall (fun e => wf_value (e_value e)) (lm_set f i v).
Proof.
  induction f as [|e f IH]; intros i v H Hv; [constructor|]. inversion H; subst.
  destruct i; cbn [lm_set]; constructor; auto.
Qed.

Lemma lm_pop_values : forall f v g, Forall (fun e => wf_value (e_value e)) f -> lm_pop_frame f = Some (v, g) ->
  Forall (fun e => wf_value (e_value e)) g.
Proof.
  induction f as [|e f IH]; intros v g H Hp; [discriminate|]. inversion H; subst. cbn [lm_pop_frame] in Hp.
  destruct (key_eqb _ _); [|eauto]. injection Hp as <- <-. assumption.
Qed.

Definition values_after (m : vm) (r : outcome exec_error vm) : Prop :=
  match r with
  | Ok m' => machine_values m' /\ vm_instructions m' = vm_instructions m
  | Err x => machine_values (ee_machine x) /\ vm_instructions (ee_machine x) = vm_instructions m
  | _ => True
  end.

Lemma size_wf : forall z, wf_value (CV TInt (to_size z)).
Proof.
  intros z. split; [exact I|]. cbn [cv_type cv_int in_type_range]. unfold to_size, two64.
  pose proof (Z.mod_pos_bound z (2 ^ 64)). assert (2 ^ 64 < 2 ^ 127) by reflexivity. lia.
Qed.

Lemma execute_values : forall m i, machine_values m -> instr_values i -> values_after m (execute m i).
Proof.
  intros [prog f s pc cmp] i (Hp & Hs & Hf) Hi. cbn in Hp, Hs, Hf.
  assert (G : forall s' f' pc' cmp', Forall wf_value s' -> Forall (fun e => wf_value (e_value e)) f' ->
    machine_values (VM prog f' s' pc' cmp') /\ vm_instructions (VM prog f' s' pc' cmp') = prog).
  { intros. split; [|reflexivity]. repeat split; assumption. }
  destruct i; cbn [execute vm_stack vm_frames].
  - unfold lm_find. destruct (assert_then _ _) as [[n|]|e| |] eqn:E; cbn [bind]; try exact I.
    + unfold lm_value. destruct (nth_error f n) as [e|] eqn:En; [|exact I]. apply G; [|exact Hf].
      constructor; [|exact Hs]. rewrite Forall_forall in Hf. apply Hf. eapply nth_error_In. exact En.
    + apply G; assumption.
    + unfold assert_then in E. destruct (negb _); discriminate.
  - destruct s as [|v s]; [apply G; assumption|]. inversion Hs; subst. unfold lm_assign, lm_find.
    destruct (assert_then _ _) as [[n|]|e| |] eqn:E; cbn [bind]; try exact I.
    + apply G; [assumption|]. apply lm_set_values; assumption.
    + apply G; [assumption|]. constructor; assumption.
    + unfold assert_then in E. destruct (negb _); discriminate.
  - apply G; [|exact Hf]. constructor; assumption.
  - destruct s as [|v s]; [apply G; assumption|]. inversion Hs; subst. apply G; assumption.
  - unfold jump_target, signed_size_result. destruct (_ && _)%bool; cbn [bind]; [|exact I].
    destruct (_ && _)%bool; cbn [bind]; [|exact I]. destruct (_ <=? _); apply G; assumption.
  - destruct s as [|v s]; [apply G; assumption|]. inversion Hs; subst.
    destruct (negb _); [apply G; assumption|].
    unfold jump_target, signed_size_result. destruct (_ && _)%bool; cbn [bind]; [|exact I].
    destruct (_ && _)%bool; cbn [bind]; [|exact I]. destruct (_ <=? _); [apply G; assumption|].
    destruct (_ && _)%bool; cbn [bind]; [|exact I]. apply G; assumption.
  - apply G; assumption.
  - apply G; assumption.
  - destruct (lm_pop_frame f) as [[v g]|] eqn:E; [|apply G; assumption]. apply G; [exact Hs|].
    eapply lm_pop_values; eassumption.
  - destruct s as [|v s]; [apply G; assumption|]. inversion Hs; subst. unfold evaluated.
    destruct (evaluate_conversion v type) as [w|e| |] eqn:E; try exact I; apply G; try assumption.
    constructor; [|assumption]. eapply convert_wf; eassumption.
  - destruct s as [|v s]; [apply G; assumption|]. inversion Hs; subst. unfold evaluated.
    destruct (evaluate_unary_operator op v) as [w|e| |] eqn:E; try exact I; apply G; try assumption.
    constructor; [|assumption]. eapply eval_unary_wf; eassumption.
  - destruct s as [|v [|w s]]; [apply G; assumption|apply G; assumption|]. inversion Hs as [|? ? Hv Hs1]; subst.
    inversion Hs1 as [|? ? Hw Hs2]; subst. unfold evaluated.
    destruct (evaluate_binary_operator w op v) as [x|e| |] eqn:E; try exact I; [|apply G; assumption].
    destruct (next_is_assert _); apply G; try assumption;
      (constructor; [|assumption]; eapply eval_binary_wf; [exact Hw|exact Hv|exact E]).
  - destruct (_ <? _); apply G; try assumption. constructor; [|assumption]. apply size_wf.
  - destruct (Nat.ltb _ _); [apply G; assumption|].
    destruct (evaluate_builtin_function _ _) as [v|e| |] eqn:E; try exact I; [|apply G; assumption].
    apply G; [|assumption]. constructor.
    + eapply eval_builtin_wf. exact E.
    + rewrite Forall_forall in *. intros x Hx. apply Hs.
      rewrite <- (firstn_skipn (builtin_parameter_count function) s). apply in_or_app. right. exact Hx.
Qed.

Lemma cycle_values : forall m, machine_values m -> values_after m (cycle m).
Proof.
  intros m H. unfold cycle. destruct (fetch _ _) as [i|] eqn:E; [|exact I].
  assert (Hi : instr_values i).
  { unfold fetch in E. destruct (_ && _)%bool; [|discriminate]. apply nth_error_In in E.
    destruct H as [H _]. rewrite Forall_forall in H. apply H. exact E. }
  pose proof (execute_values m i H Hi) as K. destruct (execute m i) as [m'|x| |]; cbn [bind]; try exact K.
  destruct (_ =? _); exact K.
Qed.

Lemma run_values : forall k m r, machine_values m -> run k m = Some r -> values_after m r.
Proof.
  induction k as [|k IH]; intros m r H Hr; [discriminate|]. cbn [run] in Hr.
  pose proof (cycle_values m H) as K. destruct (cycle m) as [m'|x| |]; try (injection Hr as <-; exact K).
  destruct K as [K E]. specialize (IH m' r K Hr). destruct r; cbn in *; rewrite ?E in IH; exact IH.
Qed.
