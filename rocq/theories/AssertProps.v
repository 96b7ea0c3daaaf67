(** C69: the comparison that is shown for a failed assertion. *)
From Coq Require Import ZArith Ascii String List Bool Lia.
From Verif Require Import Prelude Types Ops OpsProofs Text Literals Tables AbsOps LinMap LinMapSpec LinMapProofs
  VM VMSpec VMProofs Ast AstFacts Codegen SourceSem CodegenSpec CodegenProofs CodegenRun.
From Verif Require Tokenizer Diagnostics ErrorPrint Analyze FrontEnd.
Import ListNotations.
Open Scope string_scope.
Open Scope list_scope.
Open Scope Z_scope.
Local Arguments Z.pow : simpl never.
Local Arguments Z.add : simpl never.

(** ** C69: A failed assertion is explained by the comparison that failed *)

(** Full statement: if an assertion fails and a comparison is reported with it, then this is the comparison of
    the assertion, with the values that were compared, and it does not hold.  It is false: the machine keeps
    the comparison of an earlier assertion, also one that held, see [C69_stale_refuted].  Proved: it is so for
    assertions of comparisons. *)

(** The comparison of two numbers does not hold. *)
Definition fails (op : expr_kind) (a b : Z) : Prop :=
  match op with
  | equals => a <> b
  | not_equals => a = b
  | less_than => ~ a < b
  | greater_than => ~ a > b
  | less_or_equal => ~ a <= b
  | greater_or_equal => ~ a >= b
  | _ => False
  end.

Definition compares (op : expr_kind) : Prop :=
  op = equals \/ op = not_equals \/ op = less_than \/ op = greater_than \/ op = less_or_equal \/ op = greater_or_equal.

Lemma uint_small : forall w z, 0 < w < 128 -> 0 <= z < 2 ^ w -> to_big_uint z = z.
Proof.
  intros w z Hw Hz. unfold to_big_uint. apply Z.mod_small. split; [lia|].
  apply Z.lt_le_trans with (2 ^ w); [lia|]. apply Z.pow_le_mono_r; lia.
Qed.

Lemma compared : forall (b : bool), @Ok eval_error cvalue (bool_value b) = Ok cv_False -> b = false.
Proof. intros [] H; [discriminate|reflexivity]. Qed.

Ltac fails_tac :=
  cbn [fails];
  repeat match goal with
  | H : (_ =? _) = false |- _ => apply Z.eqb_neq in H
  | H : (_ <? _) = false |- _ => apply Z.ltb_ge in H
  | H : (_ <=? _) = false |- _ => apply Z.leb_gt in H
  | H : negb _ = false |- _ => apply negb_false_iff in H; apply Z.eqb_eq in H
  end; lia.

(** Operands of one type. *)
Lemma equal_types_fail : forall t a b op, wf_value (CV t a) -> wf_value (CV t b) -> compares op ->
  evaluate_binary_operator (CV t a) op (CV t b) = Ok cv_False -> fails op a b.
Proof.
  intros t a b op [Wt Wa] [_ Wb] C H. unfold evaluate_binary_operator in H.
  rewrite convert_equal_same in H by reflexivity. cbn [cv_type cv_int bind] in *.
  destruct (check_binary_operator t op t) as [x| | |]; try discriminate H. cbn [or_type_error bind] in H.
  rewrite ctype_eqb_refl in H. cbn [assert_then] in H. unfold compare_uint in H. cbn [cv_int] in H.
  destruct t as [| | |w]; cbn [wf_type in_type_range] in *.
  - destruct C as [->|[->|[->|[->|[->| ->]]]]]; discriminate H.
  - destruct C as [->|[->|[->|[->|[->| ->]]]]]; discriminate H.
  - destruct C as [->|[->|[->|[->|[->| ->]]]]]; apply compared in H; fails_tac.
  - rewrite (uint_small w a Wt Wa), (uint_small w b Wt Wb) in H.
    destruct C as [->|[->|[->|[->|[->| ->]]]]]; apply compared in H; fails_tac.
Qed.

Lemma evaluates_converted : forall l r l' r' op v, convert_to_equal_type l r = Ok (l', r') ->
  cv_type l' = cv_type r' -> evaluate_binary_operator l op r = Ok v ->
  (forall c, check_binary_operator (cv_type l) op (cv_type r) = Ok c -> exists c', check_binary_operator (cv_type l') op (cv_type r') = Ok c') ->
  evaluate_binary_operator l' op r' = Ok v.
Proof.
  intros l r l' r' op v C T H K. unfold evaluate_binary_operator in H.
  destruct (check_binary_operator (cv_type l) op (cv_type r)) as [x| | |] eqn:X; try discriminate H.
  destruct (K x eq_refl) as (c' & K'). unfold evaluate_binary_operator. rewrite K'.
  cbn [or_type_error bind] in *. rewrite C in H. rewrite (convert_equal_same l' r' T). exact H.
Qed.

Theorem C69_false_comparison : forall x y op, wf_value x -> wf_value y -> compares op ->
  evaluate_binary_operator x op y = Ok cv_False -> fails op (cv_int x) (cv_int y).
Proof.
  intros [t a] [u b] op Wx Wy C H. cbn [cv_int].
  assert (K : exists t', convert_to_equal_type (CV t a) (CV u b) = Ok (CV t' a, CV t' b)
                         /\ wf_value (CV t' a) /\ wf_value (CV t' b)
                         /\ (forall c, check_binary_operator t op u = Ok c -> exists c', check_binary_operator t' op t' = Ok c')).
  { destruct (ctype_eqb t u) eqn:E.
    { apply ctype_eqb_eq in E. subst u. exists t. split; [apply convert_equal_same; reflexivity|]. split; [exact Wx|].
      split; [exact Wy|]. intros c X. eauto. }
    assert (X : exists v, convert_to_equal_type (CV t a) (CV u b) = Ok v).
    { unfold evaluate_binary_operator in H. destruct (check_binary_operator _ _ _); try discriminate H.
      cbn [or_type_error bind] in H. destruct (convert_to_equal_type _ _) as [v| | |]; try discriminate H. eauto. }
    destruct X as (v & X).
    destruct t as [| | |w], u as [| | |w']; try discriminate E; try discriminate X.
    - destruct Wx as [Tx Rx]. destruct Wy as [Ty Ry]. cbn [cv_type cv_int wf_type in_type_range] in *.
      rewrite convert_equal_int_uint in X |- * by assumption.
      destruct ((0 <=? a) && (a <? 2 ^ w')) eqn:B; [|discriminate X]. apply andb_prop in B.
      destruct B as [B1 B2]. apply Z.leb_le in B1. apply Z.ltb_lt in B2.
      exists (TUint w'). split; [reflexivity|]. split; [split; cbn; lia|]. split; [split; cbn; lia|].
      intros c Hc. rewrite check_binary_uint_same. revert Hc. unfold check_binary_operator. cbn [ctype_eqb orb get_common_type bind].
      destruct (is_binary op); [|discriminate]. destruct (is_binary_logical op); [discriminate|]. cbn [negb]. eauto.
    - destruct Wx as [Tx Rx]. destruct Wy as [Ty Ry]. cbn [cv_type cv_int wf_type in_type_range] in *.
      rewrite convert_equal_uint_int in X |- * by assumption.
      destruct ((0 <=? b) && (b <? 2 ^ w)) eqn:B; [|discriminate X]. apply andb_prop in B.
      destruct B as [B1 B2]. apply Z.leb_le in B1. apply Z.ltb_lt in B2.
      exists (TUint w). split; [reflexivity|]. split; [split; cbn; lia|]. split; [split; cbn; lia|].
      intros c Hc. rewrite check_binary_uint_same. revert Hc. unfold check_binary_operator. cbn [ctype_eqb orb get_common_type bind].
      destruct (is_binary op); [|discriminate]. destruct (is_binary_logical op); [discriminate|]. cbn [negb]. eauto.
    - exfalso. unfold convert_to_equal_type, get_common_type in X. cbn [cv_type] in X. rewrite E in X. discriminate X. }
  destruct K as (t' & Ct & W1 & W2 & K).
  apply (equal_types_fail t' a b op W1 W2 C). eapply evaluates_converted; try eassumption. reflexivity.
Qed.

(** The machine: an assertion that fails right after an operation reports that operation, whatever was
    recorded before. *)
Theorem C69_cycle : forall m m' e op,
  machine_ok m ->
  fetch (vm_instructions m) (vm_counter m) = Some (IBinary_Operate op) -> compares op ->
  cycle m = Ok m' ->
  fetch (vm_instructions m') (vm_counter m') = Some (IBuiltin_Call builtin_assert) ->
  cycle m' = Err e -> ee_code e = x_evaluation assertion_fail ->
  exists x y s, vm_stack m = y :: x :: s /\ ee_comparison e = Some (CmpFailure x y op)
                /\ fails op (cv_int x) (cv_int y).
Proof.
  intros m m' e op Hm Hf C H Hf' He Hc.
  destruct (cycle_preserves _ _ Hm H) as (Hm' & Hi & _).
  assert (Hs : Forall wf_value (vm_stack m)) by apply Hm.
  unfold cycle in H. rewrite Hf in H. cbn [execute] in H.
  destruct (vm_stack m) as [|y [|x s]] eqn:Es; try discriminate H.
  unfold evaluated in H. destruct (evaluate_binary_operator x op y) as [v| | |] eqn:Ev; try discriminate H.
  cbn [bind] in H. match type of H with (if ?b then _ else _) = _ => destruct b; [discriminate H|] end.
  injection H as <-. exists x, y, s. split; [reflexivity|].
  assert (Hn : next_is_assert m = true).
  { unfold next_is_assert. unfold advance in Hf'. destruct (next_is_assert m);
      cbn [set_comparison set_stack set_counter vm_counter vm_instructions] in Hf'; rewrite Hf';
      (destruct (Z.ltb_spec (to_size (vm_counter m + 1)) (instruction_count (vm_instructions m))) as [L|L]; [reflexivity|]);
      apply fetch_range in Hf'; unfold instruction_count in *; lia. }
  unfold cycle in He. rewrite Hf' in He. rewrite Hn in He. unfold advance in He.
  cbn [execute builtin_parameter_count vm_stack set_counter set_stack set_comparison length Nat.ltb Nat.leb firstn rev app skipn vm_comparison] in He.
  unfold evaluate_builtin_function in He. cbn [map check_builtin_function builtin_parameter_count length Nat.eqb negb] in He.
  destruct (ctype_eqb (cv_type v) TBool) eqn:T.
  - cbn [negb or_type_error bind] in He. destruct (cv_int v =? 1) eqn:V; cbn [negb] in He.
    + cbn [bind] in He. match type of He with (if ?b then _ else _) = _ => destruct b; [|discriminate He] end.
      injection He as <-. discriminate Hc.
    + cbn [bind] in He. injection He as <-. cbn [ee_comparison]. split; [reflexivity|].
      inversion Hs as [|? ? Wy Hs']. subst. inversion Hs' as [|? ? Wx _]. subst.
      apply C69_false_comparison; try assumption. rewrite Ev. f_equal.
      assert (Wv : wf_value v).
      { assert (Hs'' := proj1 (proj2 (proj2 (proj2 Hm')))). cbn [advance set_counter set_stack vm_stack] in Hs''.
        inversion Hs''. assumption. }
      destruct v as [tv zv]. destruct Wv as [_ Wv]. cbn [cv_type cv_int] in *. apply ctype_eqb_eq in T. subst tv.
      cbn in Wv. apply Z.eqb_neq in V. destruct Wv as [->| ->]; [reflexivity|congruence].
  - cbn [negb or_type_error bind] in He. injection He as <-. discriminate Hc.
Qed.

(** Programs: the code of [assert(l op r)], run in any state of the machine, reports the values of [l] and [r].
    Missing: assertions of other conditions, see [C69_stale_refuted]; as in C24, recorded constants and types
    are trusted. *)
Theorem C69_assert_partial : forall table constants units m info name st v b op l r code fuel x y,
  machine_ok m -> closed (vm_instructions m) -> linked (vm_instructions m) table units ->
  callees_known table units (vm_counter m) info ->
  plain l = true -> plain r = true -> compares op ->
  is_known v = false -> is_known b = false -> av_type b = TBool ->
  gen_expr info (ECall (Some v) name (Some (LBuiltin builtin_assert)) st [EBinary (Some b) op l r]) = Ok code ->
  located (vm_instructions m) (vm_counter m) code ->
  let value e := eval false table constants (call false table constants fuel) (current (vm_frames m)) e in
  value l = Some (Ok x) -> value r = Some (Ok y) -> evaluate_binary_operator x op y = Ok cv_False ->
  exists k e, run k m = Some (Err e) /\ ee_code e = x_evaluation assertion_fail
              /\ ee_comparison e = Some (CmpFailure x y op) /\ fails op (cv_int x) (cv_int y).
Proof.
  intros table constants units m info name st v b op l r code fuel x y Hm Hcl Hl Hk Pl Pr C Kv Kb Tb Hg Hloc value Vl Vr Ev.
  destruct (callees_calls table constants units m Hm Hcl Hl info fuel _ Hk) as [H1 H2].
  assert (Hsz : instruction_count (vm_instructions m) < 2 ^ 62) by apply Hm.
  rewrite (gen_call_unfold info _ _ _ _ _ v eq_refl Kv) in Hg. cbn [gen_args] in Hg.
  apply bind_ok in Hg. destruct Hg as (acode & Ha & Hg). apply bind_ok in Hg. destruct Hg as (inv & Hi & Hg).
  injection Hg as <-. cbn [gen_invoke bind] in Hi. injection Hi as <-.
  apply bind_ok in Ha. destruct Ha as (ecode & Hb & Ha). cbn [expr_cv value_of bind get_parameter_type] in Ha.
  assert (ecode = acode).
  { cbn in Ha. rewrite Tb in Ha. cbn in Ha. rewrite app_nil_r in Ha. congruence. }
  subst acode. clear Ha. cbn [gen_expr push_known] in Hb. 
  assert (Hb' : (let* cl := gen_expr info l in let* cr := gen_expr info r in Ok (cl ++ cr ++ [IBinary_Operate op])) = Ok ecode).
  { destruct b as [tb [zb|]]; [discriminate Kb|]. cbn in Hb.
    destruct C as [->|[->|[->|[->|[->| ->]]]]]; exact Hb. }
  clear Hb. apply bind_ok in Hb'. destruct Hb' as (cl & Gl & Hb). apply bind_ok in Hb. destruct Hb as (cr & Gr & Hb).
  injection Hb as <-.
  apply located_code_at in Hloc. rewrite <- !app_assoc in Hloc.
  apply code_at_app in Hloc. destruct Hloc as [L1 Hloc]. apply code_at_app in Hloc. destruct Hloc as [L2 Hloc].
  cbn [app code_at resolve] in Hloc. destruct Hloc as (L3 & L4 & _).
  pose proof (size_nonneg cl) as S0. pose proof (size_nonneg cr) as S1.
  pose proof (expr_sim (vm_instructions m) table constants Hcl info (vm_counter m) fuel (call false table constants fuel) H1 H2 l Pl cl Gl
    (vm_counter m) (vm_stack m) (current (vm_frames m)) (saved (vm_frames m)) None None L1 ltac:(lia)) as Al.
  fold (value l) in Al. rewrite Vl in Al. destruct Al as (k1 & b1 & St1 & ->).
  pose proof (expr_sim (vm_instructions m) table constants Hcl info (vm_counter m) fuel (call false table constants fuel) H1 H2 r Pr cr Gr
    (vm_counter m + size cl) (x :: vm_stack m) (current (vm_frames m)) (saved (vm_frames m)) None None L2 ltac:(lia)) as Ar.
  fold (value r) in Ar. rewrite Vr in Ar. destruct Ar as (k2 & b2 & St2 & ->).
  destruct (steps_cycles _ _ _ _ (steps_trans _ _ _ _ _ _ St1 St2) m Hm (machine_of_abs m) eq_refl) as (m1 & Cy & Sm).
  destruct (cycles_ok _ _ _ Cy Hm) as [Hm1 Hp1]. destruct Sm as (Es & _ & _ & Ep). cbn [a_stack a_pc abs] in Es, Ep.
  rewrite Ep in L3, L4. rewrite <- Hp1 in L3, L4.
  pose proof (fetch_range _ _ _ L4) as R4. rewrite Hp1 in R4.
  assert (Hn : to_size (vm_counter m1 + 1) = vm_counter m1 + 1).
  { unfold to_size. apply Z.mod_small. assert (2 ^ 62 < 2 ^ 64) by reflexivity. unfold two64. lia. }
  assert (Hc1 : exists m2, cycle m1 = Ok m2 /\ vm_stack m2 = cv_False :: vm_stack m
                           /\ vm_counter m2 = vm_counter m1 + 1 /\ vm_instructions m2 = vm_instructions m1).
  { unfold cycle. rewrite L3. cbn [execute]. rewrite <- Es, Ev. cbn [evaluated bind].
    assert (Hd : forall m0, vm_counter m0 = vm_counter m1 -> vm_instructions m0 = vm_instructions m1 -> exists m2,
      (if vm_counter m1 =? vm_counter (advance (set_stack m0 (cv_False :: vm_stack m)))
       then fail (advance (set_stack m0 (cv_False :: vm_stack m))) x_infinite_loop
       else Ok (advance (set_stack m0 (cv_False :: vm_stack m)))) = Ok m2
      /\ vm_stack m2 = cv_False :: vm_stack m /\ vm_counter m2 = vm_counter m1 + 1 /\ vm_instructions m2 = vm_instructions m1).
    { intros m0 E0 I0. unfold advance. cbn [set_stack set_counter vm_counter vm_stack vm_instructions]. rewrite E0, Hn.
      destruct (Z.eqb_spec (vm_counter m1) (vm_counter m1 + 1)); [lia|]. eexists. split; [reflexivity|]. auto. }
    apply Hd; destruct (next_is_assert m1); reflexivity. }
  destruct Hc1 as (m2 & Hc1 & Es2 & Ec2 & Hi2).
  assert (L4' : fetch (vm_instructions m2) (vm_counter m2) = Some (IBuiltin_Call builtin_assert)) by (rewrite Hi2, Ec2; exact L4).
  assert (Hc2 : exists e, cycle m2 = Err e /\ ee_code e = x_evaluation assertion_fail).
  { unfold cycle. rewrite L4'. cbn [execute builtin_parameter_count]. rewrite Es2.
    cbn [length Nat.ltb Nat.leb firstn rev app]. eexists. split; [reflexivity|reflexivity]. }
  destruct Hc2 as (e & Hc2 & Code).
  destruct (C69_cycle m1 m2 e op Hm1 L3 C Hc1 L4' Hc2 Code) as (x' & y' & s & Es' & Cf & F).
  rewrite <- Es in Es'. injection Es' as <- <- <-.
  exists ((k1 + k2) + 2)%nat, e. rewrite (cycles_run _ _ _ Cy). cbn [run]. rewrite Hc1, Hc2. auto.
Qed.

(** A call of a function of an analysed program, as the analysis makes it (src/bms/analyze.cpp:923-955). *)
Definition machine_for (m : vm) (address : Z) (args : list cvalue) : outcome exec_error vm :=
  let* m' := vm_jump_to (vm_reset m) address in Ok (set_stack m' (rev args ++ vm_stack m')).

Definition x_program (last : string) : text :=
  str ("function f(x: Int) -> Int { assert(x == 1); return x; } " ++
       "function g(b: Bool) -> Int { assert(b); return 0; } const c = f(1); " ++ last)%string.

(** The machine that an accepted program leaves behind. *)
Definition machine_of (r : option (outcome FrontEnd.front_error FrontEnd.compiled)) : option vm :=
  match r with Some (Ok c) => Some (Analyze.st_vm (FrontEnd.c_state c)) | _ => None end.

(** [assert(b)] fails, in a function without any comparison: it is reported with the comparison [1 == 1] of
    another function, which holds. *)
Theorem C69_stale_refuted : exists m0 m e f,
  machine_of (FrontEnd.compile 1000 20 (x_program "const d = g(true);")) = Some m0 /\
  firstn 4 (skipn 8 (vm_instructions m0)) =
    [IStore (Some 4%positive); ILoad (Some 4%positive); IBuiltin_Call builtin_assert; IPop] /\
  machine_for m0 8 [cv_False] = Ok m /\
  run 1000 m = Some (Err e) /\ ee_code e = x_evaluation assertion_fail /\
  ee_comparison e = Some f /\ f = CmpFailure (CV TInt 1) (CV TInt 1) equals /\
  evaluate_binary_operator (cf_left f) (cf_op f) (cf_right f) = Ok cv_True /\
  FrontEnd.compile 1000 20 (x_program "const d = g(false);")
    = Some (Err (FrontEnd.fe_analysis (Analyze.a_execution (x_evaluation assertion_fail)))).
Proof.
  eexists _, _, _, _. split; [vm_compute; reflexivity|]. split; [vm_compute; reflexivity|].
  split; [vm_compute; reflexivity|]. split; [vm_compute; reflexivity|]. split; [reflexivity|].
  split; [reflexivity|]. split; [reflexivity|]. split; [reflexivity|]. vm_compute. reflexivity.
Qed.

(** What is printed for it. *)
Theorem C69_stale_printed_refuted : exists e out n,
  @ErrorPrint.site_error unit
    (ErrorPrint.st_execution (x_evaluation assertion_fail) (Some (CmpFailure (CV TInt 1) (CV TInt 1) equals))
       (ErrorPrint.Place (Tokenizer.Pos 0 134 134) (str "g")) (ErrorPrint.node ErrorPrint.dc_function_call_expression
         (ErrorPrint.Place (Tokenizer.Pos 0 85 85) (str "assert")))) = Ok e /\
  @ErrorPrint.print_analysis_error unit (str "x.bms") (x_program "const d = g(false);") e false = Ok out /\
  firstn 30 (skipn n out) = str "Comparison evaluated to 1 == 1".
Proof.
  eexists _, _, 418%nat. split; [reflexivity|]. split; [vm_compute; reflexivity|].
  vm_compute. reflexivity.
Qed.

(** [f(2)] fails with the comparison [2 == 1]. *)
Example C69_example : exists m0 m e,
  machine_of (FrontEnd.compile 1000 20 (x_program "")) = Some m0 /\ machine_for m0 0 [CV TInt 2] = Ok m /\
  run 1000 m = Some (Err e) /\ ee_code e = x_evaluation assertion_fail /\
  ee_comparison e = Some (CmpFailure (CV TInt 2) (CV TInt 1) equals).
Proof.
  eexists _, _, _. split; [vm_compute; reflexivity|]. split; [vm_compute; reflexivity|].
  split; [vm_compute; reflexivity|]. split; reflexivity.
Qed.

(** * Assumptions of the theorems above *)
Print Assumptions C69_false_comparison.
Print Assumptions C69_cycle.
Print Assumptions C69_assert_partial.
Print Assumptions C69_stale_refuted.
Print Assumptions C69_stale_printed_refuted.
