(** Generated code does what the evaluator of [SourceSem] with [faithful = false] computes. *)
From Coq Require Import ZArith List Bool Lia.
From Verif Require Import Prelude Types Ops Text Tables AbsOps LinMap LinMapSpec VM VMSpec VMProofs
  Ast AstFacts Codegen SourceSem CodegenSpec.
Import ListNotations.
Open Scope Z_scope.
Local Arguments Z.pow : simpl never.
Local Arguments Z.add : simpl never.
Local Arguments Z.sub : simpl never.

Lemma bind_ok : forall E A B (x : outcome E A) (f : A -> outcome E B) y,
  bind x f = Ok y -> exists a, x = Ok a /\ f a = Ok y.
Proof. intros E A B [a|e| |] f y; cbn; try discriminate. eauto. Qed.

Ltac binds :=
  repeat match goal with
  | H : bind _ _ = Ok _ |- _ =>
      let a := fresh "a" in let H1 := fresh "B" in
      apply bind_ok in H; destruct H as (a & H1 & H)
  end.

Lemma value_of_ok : forall E A (x : option A) a, @value_of E A x = Ok a -> x = Some a.
Proof. intros E A [x|] a; cbn; congruence. Qed.

Lemma type_of_node_ok : forall E t c, @concrete_type_value E t = Ok c -> type_of_node t = ret c.
Proof.
  intros E [tcv k w cw] c. unfold type_of_node, concrete_type_value, concrete_type.
  destruct k, cw as [z|]; cbn [bind value_of]; try discriminate.
  1, 2, 3: intros H; injection H as <-; reflexivity.
  unfold concrete_type_Uint, concrete_type_ctor, assert_then.
  repeat match goal with |- context [if ?b then _ else _] => destruct b; cbn [bind]; try discriminate end.
  cbn [value_of]. intros H; injection H as <-; reflexivity.
Qed.

Lemma size_app : forall a b, size (a ++ b) = size a + size b.
Proof. intros. unfold size, instruction_count. rewrite app_length. lia. Qed.
Lemma size_cons : forall i b, size (i :: b) = 1 + size b.
Proof. intros. unfold size, instruction_count. cbn [length]. lia. Qed.
Lemma size_nil : size [] = 0.
Proof. reflexivity. Qed.
Lemma size_nonneg : forall a, 0 <= size a.
Proof. intros. unfold size, instruction_count. lia. Qed.

Section Program.

Variable prog : list instr.
Variable table : positive -> option func.
Variable constants : positive -> option cvalue.
Hypothesis Hclosed : closed prog.
Hypothesis Hsize : instruction_count prog < 2 ^ 62.

Notation n_prog := (instruction_count prog).

Lemma steps_trans : forall k l a b c, steps prog k a b -> steps prog l b c -> steps prog (k + l) a c.
Proof.
  intros k l a b c H. revert c. induction H as [a|k a b b' Hs _ IH]; intros c Hc; cbn [Nat.add].
  - exact Hc.
  - eapply steps_more; [exact Hs|]. apply IH. exact Hc.
Qed.

(** The instructions [code] start at [pc]; [break] and [continue] have become jumps to [bt] and [ct]. *)
Definition resolve (bt ct : option Z) (pc : Z) (i : instr) : instr :=
  match i with
  | IBreak => match bt with Some t => IRelative_Jump (t - pc - 1) | None => IBreak end
  | IContinue => match ct with Some t => IRelative_Jump (t - pc - 1) | None => IContinue end
  | _ => i
  end.
Fixpoint code_at (pc : Z) (code : list instr) (bt ct : option Z) : Prop :=
  match code with
  | [] => True
  | i :: rest => fetch prog pc = Some (resolve bt ct pc i) /\ code_at (pc + 1) rest bt ct
  end.

Lemma code_at_app : forall a b pc bt ct,
  code_at pc (a ++ b) bt ct <-> code_at pc a bt ct /\ code_at (pc + size a) b bt ct.
Proof.
  induction a as [|i a IH]; intros b pc bt ct; cbn [app code_at].
  - rewrite size_nil, Z.add_0_r. tauto.
  - rewrite size_cons, IH. replace (pc + 1 + size a) with (pc + (1 + size a)) by lia. tauto.
Qed.

Lemma code_at_range : forall code pc bt ct, code_at pc code bt ct -> code <> [] -> 0 <= pc < n_prog.
Proof.
  intros [|i code] pc bt ct H Hn; [congruence|]. destruct H as [H _].
  exact (fetch_range _ _ _ H).
Qed.

Lemma fetch_app : forall before i rest,
  fetch (before ++ i :: rest) (instruction_count before) = Some i.
Proof.
  intros. rewrite fetch_nth by (unfold instruction_count; lia).
  unfold instruction_count. rewrite Nat2Z.id. rewrite nth_error_app2 by lia.
  rewrite Nat.sub_diag. reflexivity.
Qed.

Lemma located_code_at : forall code pc, located prog pc code -> code_at pc code None None.
Proof.
  induction code as [|i code IH]; intros pc H; cbn [code_at]; [exact I|].
  destruct H as (before & after & E & Hp). split.
  - subst pc. rewrite E. cbn [app]. rewrite fetch_app. destruct i; reflexivity.
  - apply IH. exists (before ++ [i]), after. split.
    + rewrite E. rewrite <- app_assoc. reflexivity.
    + subst pc. unfold instruction_count. rewrite app_length. cbn [length]. lia.
Qed.

(** The machine reaches what the evaluator computes. *)
Definition leads {R} (fuel : nat) (a : machine) (r : res R) (good : R -> machine -> Prop) : Prop :=
  match r with
  | None => exists k b, steps prog k a b /\ (fuel <= k)%nat
  | Some (Ok x) => exists k b, steps prog k a b /\ good x b
  | Some (Err e) =>
      match reported e with
      | None => True
      | Some c => exists k b, steps prog k a b /\ stops prog b c
      end
  | Some _ => exists k b, steps prog k a b /\ dies prog b
  end.

Lemma leads_bind : forall R S fuel a (x : res R) (f : R -> res S) G1 G2,
  leads fuel a x G1 -> (forall v b, G1 v b -> leads fuel b (f v) G2) -> leads fuel a (rbind x f) G2.
Proof.
  intros R S fuel a x f G1 G2 H1 H2. destruct x as [[v|e| |]|]; cbn [rbind leads] in *; try exact H1.
  destruct H1 as (k & b & Hk & Hg). specialize (H2 v b Hg).
  destruct (f v) as [[w|e| |]|]; cbn [leads] in *.
  - destruct H2 as (l & c & Hl & Hc). exists (k + l)%nat, c. split; [eapply steps_trans; eassumption|exact Hc].
  - destruct (reported e); [|exact I].
    destruct H2 as (l & c & Hl & Hc). exists (k + l)%nat, c. split; [eapply steps_trans; eassumption|exact Hc].
  - destruct H2 as (l & c & Hl & Hc). exists (k + l)%nat, c. split; [eapply steps_trans; eassumption|exact Hc].
  - destruct H2 as (l & c & Hl & Hc). exists (k + l)%nat, c. split; [eapply steps_trans; eassumption|exact Hc].
  - destruct H2 as (l & c & Hl & Hc). exists (k + l)%nat, c. split; [eapply steps_trans; eassumption|lia].
Qed.

Lemma leads_step_S : forall R fuel a b (r : res R) G,
  astep prog a b -> leads fuel b r G -> leads (S fuel) a r G.
Proof.
  intros R fuel a b r G Hs H. destruct r as [[w|e| |]|]; cbn [leads] in *.
  - destruct H as (l & c & Hl & Hc). exists (S l), c. split; [eapply steps_more; eassumption|exact Hc].
  - destruct (reported e); [|exact I].
    destruct H as (l & c & Hl & Hc). exists (S l), c. split; [eapply steps_more; eassumption|exact Hc].
  - destruct H as (l & c & Hl & Hc). exists (S l), c. split; [eapply steps_more; eassumption|exact Hc].
  - destruct H as (l & c & Hl & Hc). exists (S l), c. split; [eapply steps_more; eassumption|exact Hc].
  - destruct H as (l & c & Hl & Hc). exists (S l), c. split; [eapply steps_more; eassumption|lia].
Qed.

Lemma leads_less : forall R fuel fuel' a (r : res R) G, (fuel' <= fuel)%nat ->
  leads fuel a r G -> leads fuel' a r G.
Proof.
  intros R fuel fuel' a r G Hf H. destruct r as [[w|e| |]|]; cbn [leads] in *; try exact H.
  destruct H as (k & b & Hk & Hl). exists k, b. split; [exact Hk|lia].
Qed.

Lemma leads_step : forall R fuel a b (r : res R) G,
  astep prog a b -> leads fuel b r G -> leads fuel a r G.
Proof. intros. eapply leads_less; [|eapply leads_step_S; eassumption]. lia. Qed.

Lemma leads_ret : forall R fuel a (x : R) (G : R -> machine -> Prop), G x a -> leads fuel a (ret x) G.
Proof. intros. cbn. exists 0%nat, a. split; [constructor|assumption]. Qed.

Lemma leads_weaken : forall R fuel a (r : res R) (G G' : R -> machine -> Prop),
  (forall x b, G x b -> G' x b) -> leads fuel a r G -> leads fuel a r G'.
Proof.
  intros R fuel a r G G' HG H. destruct r as [[w|e| |]|]; cbn [leads] in *; try exact H.
  destruct H as (k & b & Hk & Hl). exists k, b. split; [exact Hk|auto].
Qed.

Lemma leads_then : forall R fuel a (r : res R) (G G' : R -> machine -> Prop),
  (forall x b, G x b -> exists c, astep prog b c /\ G' x c) -> leads fuel a r G -> leads fuel a r G'.
Proof.
  intros R fuel a r G G' HG H. destruct r as [[w|e| |]|]; cbn [leads] in *; try exact H.
  destruct H as (k & b & Hk & Hl). destruct (HG _ _ Hl) as (c & Hs & Hc).
  exists (k + 1)%nat, c. split; [|exact Hc]. eapply steps_trans; [exact Hk|].
  eapply steps_more; [exact Hs|constructor].
Qed.

Lemma leads_stuck : forall R fuel a (G : R -> machine -> Prop), leads fuel a (throw s_stuck) G.
Proof. intros. exact I. Qed.

(** An instruction that computes one value from the top of the stack. *)
Lemma leads_operate : forall fuel i (r : outcome eval_error cvalue) s0 f cs pc (G : cvalue -> machine -> Prop),
  fetch prog pc = Some i ->
  (forall v, r = Ok v -> exists b, effect n_prog i (Machine s0 f cs pc) b /\ a_pc b <> pc /\ G v b) ->
  (forall e, r = Err e -> faults n_prog i (Machine s0 f cs pc) (x_evaluation e)) ->
  (~ defined r -> crashes n_prog i (Machine s0 f cs pc)) ->
  leads fuel (Machine s0 f cs pc) (operate r) G.
Proof.
  intros fuel i r s0 f cs pc G Hi Hok Herr Hcrash. destruct r as [v|e| |]; cbn [operate].
  - destruct (Hok v eq_refl) as (b & He & Hp & Hg). eapply leads_step; [|apply leads_ret; exact Hg].
    exists i. repeat split; assumption.
  - cbn. exists 0%nat, (Machine s0 f cs pc). split; [constructor|]. exists i. split; [exact Hi|].
    apply Herr. reflexivity.
  - cbn. exists 0%nat, (Machine s0 f cs pc). split; [constructor|]. exists i. split; [exact Hi|].
    apply Hcrash. intros [].
  - cbn. exists 0%nat, (Machine s0 f cs pc). split; [constructor|]. exists i. split; [exact Hi|].
    apply Hcrash. intros [].
Qed.

Lemma leads_convert : forall fuel t v s f cs pc (G : cvalue -> machine -> Prop),
  fetch prog pc = Some (IConvert t) ->
  (forall w, G w (Machine (w :: s) f cs (pc + 1))) ->
  leads fuel (Machine (v :: s) f cs pc) (operate (convert_to v t lossless_numeric)) G.
Proof.
  intros fuel t v s f cs pc G Hi HG. eapply leads_operate; [exact Hi| | |].
  - intros w Hw. eexists. split; [apply eff_convert; exact Hw|]. split; [cbn; lia|apply HG].
  - intros e He. apply flt_convert. exact He.
  - intros Hd. apply crash_convert. exact Hd.
Qed.

Lemma leads_unary : forall fuel op v s f cs pc (G : cvalue -> machine -> Prop),
  fetch prog pc = Some (IUnary_Operate op) ->
  (forall w, G w (Machine (w :: s) f cs (pc + 1))) ->
  leads fuel (Machine (v :: s) f cs pc) (operate (evaluate_unary_operator op v)) G.
Proof.
  intros fuel op v s f cs pc G Hi HG. eapply leads_operate; [exact Hi| | |].
  - intros w Hw. eexists. split; [apply eff_unary; exact Hw|]. split; [cbn; lia|apply HG].
  - intros e He. apply flt_unary. exact He.
  - intros Hd. apply crash_unary. exact Hd.
Qed.

Lemma leads_binary : forall fuel op x y s f cs pc (G : cvalue -> machine -> Prop),
  fetch prog pc = Some (IBinary_Operate op) ->
  (forall w, G w (Machine (w :: s) f cs (pc + 1))) ->
  leads fuel (Machine (y :: x :: s) f cs pc) (operate (evaluate_binary_operator x op y)) G.
Proof.
  intros fuel op x y s f cs pc G Hi HG. eapply leads_operate; [exact Hi| | |].
  - intros w Hw. eexists. split; [apply eff_binary; exact Hw|]. split; [cbn; lia|apply HG].
  - intros e He. apply flt_binary. exact He.
  - intros Hd. apply crash_binary. exact Hd.
Qed.

Lemma leads_assert : forall fuel v s f cs pc (G : cvalue -> machine -> Prop),
  fetch prog pc = Some (IBuiltin_Call builtin_assert) ->
  (forall w, G w (Machine (w :: s) f cs (pc + 1))) ->
  leads fuel (Machine (v :: s) f cs pc) (operate (evaluate_builtin_function builtin_assert [v])) G.
Proof.
  intros fuel v s f cs pc G Hi HG. destruct v as [t z].
  assert (E : evaluate_builtin_function builtin_assert [CV t z]
              = if ctype_eqb t TBool then if z =? 1 then Ok cv_Void else Err assertion_fail
                else Err type_error).
  { unfold evaluate_builtin_function, check_builtin_function. cbn.
    destruct (ctype_eqb t TBool); cbn; [|reflexivity]. destruct (z =? 1); reflexivity. }
  rewrite E. clear E. eapply leads_operate; [exact Hi| | |].
  - intros w Hw. destruct (ctype_eqb t TBool) eqn:Et; [|discriminate].
    destruct (Z.eqb_spec z 1) as [->|]; [|discriminate]. injection Hw as <-.
    destruct t; try discriminate. eexists. split; [apply eff_assert|]. split; [cbn; lia|apply HG].
  - intros e He. destruct (ctype_eqb t TBool) eqn:Et.
    + destruct (Z.eqb_spec z 1) as [->|]; [discriminate|]. injection He as <-.
      apply flt_assert; [|assumption]. destruct t; try discriminate; reflexivity.
    + injection He as <-. apply flt_assert_type. intros C. cbn in C. subst t. discriminate.
  - intros Hd. destruct (ctype_eqb t TBool); [destruct (z =? 1)|]; exfalso; apply Hd; exact I.
Qed.

(** A conditional jump decides what [truth] decides. *)
Lemma leads_truth : forall fuel o e v s f cs pc (G : bool -> machine -> Prop),
  fetch prog pc = Some (IRelative_Jump_If o e) -> o <> -1 ->
  (forall b : bool, G b (Machine s f cs (if Bool.eqb e b then pc + 1 + o else pc + 1))) ->
  leads fuel (Machine (v :: s) f cs pc) (truth v) G.
Proof.
  intros fuel o e [t z] s f cs pc G Hi Ho HG. unfold truth. cbn [cv_type cv_int].
  assert (Hr : 0 <= pc + 1 + o < n_prog) by (apply Hclosed; right; eauto).
  destruct (ctype_eqb t TBool) eqn:Et.
  - assert (t = TBool) by (destruct t; try discriminate; reflexivity). subst t.
    assert (Step : forall b : bool, z = (if b then 1 else 0) ->
              leads fuel (Machine (CV TBool z :: s) f cs pc) (ret b) G).
    { intros b ->. eapply leads_step; [|apply leads_ret; apply HG].
      exists (IRelative_Jump_If o e). split; [exact Hi|]. split; [apply eff_jump_if; exact Hr|].
      cbn [a_pc]. destruct (Bool.eqb e b); lia. }
    destruct (Z.eqb_spec z 0); [apply (Step false); assumption|].
    destruct (Z.eqb_spec z 1); [apply (Step true); assumption|]. exact I.
  - cbn. exists 0%nat, (Machine (CV t z :: s) f cs pc). split; [constructor|].
    exists (IRelative_Jump_If o e). split; [exact Hi|]. apply flt_not_bool. cbn. intros ->. discriminate.
Qed.

Lemma step_jump : forall o s f cs pc, fetch prog pc = Some (IRelative_Jump o) -> o <> -1 ->
  astep prog (Machine s f cs pc) (Machine s f cs (pc + 1 + o)).
Proof.
  intros o s f cs pc Hi Ho. exists (IRelative_Jump o). split; [exact Hi|]. split; [|cbn; lia].
  apply eff_jump. apply Hclosed. left. exact Hi.
Qed.

Lemma step_push : forall v s f cs pc, fetch prog pc = Some (IPush v) ->
  astep prog (Machine s f cs pc) (Machine (v :: s) f cs (pc + 1)).
Proof.
  intros v s f cs pc Hi. exists (IPush v). split; [exact Hi|]. split; [apply eff_push|cbn; lia].
Qed.

Lemma step_pop : forall v s f cs pc, fetch prog pc = Some IPop ->
  astep prog (Machine (v :: s) f cs pc) (Machine s f cs (pc + 1)).
Proof.
  intros v s f cs pc Hi. exists IPop. split; [exact Hi|]. split; [apply eff_pop|cbn; lia].
Qed.

Lemma step_store : forall p v s f cs pc, fetch prog pc = Some (IStore (Some p)) ->
  astep prog (Machine (v :: s) f cs pc) (Machine s (update f p v) cs (pc + 1)).
Proof.
  intros p v s f cs pc Hi. exists (IStore (Some p)). split; [exact Hi|]. split; [apply eff_store|cbn; lia].
Qed.

Lemma leads_load : forall fuel p s f cs pc (G : cvalue -> machine -> Prop),
  fetch prog pc = Some (ILoad (Some p)) ->
  (forall w, G w (Machine (w :: s) f cs (pc + 1))) ->
  leads fuel (Machine s f cs pc)
    (match f p with Some v => ret v | None => throw s_uninitialized end) G.
Proof.
  intros fuel p s f cs pc G Hi HG. destruct (f p) as [v|] eqn:E.
  - eapply leads_step; [|apply leads_ret; apply HG]. exists (ILoad (Some p)).
    split; [exact Hi|]. split; [apply eff_load; exact E|cbn; lia].
  - cbn. exists 0%nat, (Machine s f cs pc). split; [constructor|].
    exists (ILoad (Some p)). split; [exact Hi|]. apply flt_load. exact E.
Qed.

(** * Expressions *)

Section Body.

(** The function being executed: its start, and what the code generator knew. *)
Variable info : functions.
Variable lo : Z.
Variable fuel : nat.
Variable callf : positive -> list cvalue -> res cvalue.

Hypothesis Hinfo : forall n' i a, info n' = Some i -> fi_analyzed i = true -> fi_address i = Some a ->
  exists f', table n' = Some f'
             /\ fi_parameters i = map (fun p => type_cv (p_type p)) (f_params f').

Hypothesis Hcall : forall n i a args pc s f cs,
  info n = Some i -> fi_analyzed i = true -> fi_address i = Some a ->
  fetch prog pc = Some (ICall a) -> lo <= pc ->
  leads fuel (Machine (rev args ++ s) f cs pc) (callf n args)
    (fun v b => b = Machine (v :: s) f cs (pc + 1)).

Notation evalf := (eval false table constants callf).

Lemma push_known_cases : forall cv (k : outcome codegen_error (list instr)) code (sem : res cvalue),
  push_known cv k = Ok code ->
  (exists v, code = [IPush v] /\ recorded false cv sem = ret v)
  \/ (k = Ok code /\ recorded false cv sem = sem).
Proof.
  intros [[t [z|]]|] k code sem; cbn; try discriminate; intros H.
  - left. exists (CV t z). injection H as <-. auto.
  - right. auto.
Qed.

(** What [gen_invoke] checks. *)
Definition callee_analyzed (lk : option lookup) : Prop :=
  forall n i, lk = Some (LNode DFunction n) -> info n = Some i ->
  fi_analyzed i = true /\ exists a, fi_address i = Some a.

Lemma gen_invoke_analyzed : forall lk st code, gen_invoke info lk st = Ok code -> callee_analyzed lk.
Proof.
  intros lk st code H n i -> Hi. unfold gen_invoke in H. rewrite Hi in H.
  destruct (fi_analyzed i); [|discriminate]. destruct (fi_address i) as [a|]; [|discriminate]. eauto.
Qed.

Lemma parameter_types_agree : forall l i t, callee_analyzed (Some l) -> @get_parameter_type codegen_error info l i = Ok t ->
  parameter_type table l i = ret t.
Proof.
  intros l i t Ha. destruct l as [k n|p|b]; cbn; try discriminate.
  - destruct k; try discriminate. destruct (info n) as [fi|] eqn:E; [|discriminate].
    destruct (Ha _ _ eq_refl E) as (Han & a & Had). destruct (Hinfo _ _ _ E Han Had) as (f' & Ht & Hp). rewrite Ht, Hp, nth_error_map.
    destruct (nth_error (f_params f') i) as [p|]; cbn; [|discriminate].
    destruct (type_cv (p_type p)) as [v|]; cbn; [|discriminate]. intros H; injection H as <-. reflexivity.
  - destruct b. intros H. apply value_of_ok in H. destruct i; cbn in *; [congruence|].
    destruct i; discriminate.
Qed.

Definition expr_ok (e : expr) : Prop :=
  plain e = true -> forall code, gen_expr info e = Ok code ->
  forall pc s f cs bt ct, code_at pc code bt ct -> lo <= pc ->
  leads fuel (Machine s f cs pc) (evalf f e) (fun v b => b = Machine (v :: s) f cs (pc + size code)).

(** [pass] is what the conditional conversion does. *)
Lemma leads_pass : forall v s f cs pc bt ct (from : avalue) t,
  code_at pc (if ctype_eqb (av_type from) t then [] else [IConvert t]) bt ct ->
  leads fuel (Machine (v :: s) f cs pc) (pass false v (recorded_type (Some from)) (ret t))
    (fun w b => b = Machine (w :: s) f cs (pc + size (if ctype_eqb (av_type from) t then [] else [IConvert t]))).
Proof.
  intros v s f cs pc bt ct from t H. unfold pass. cbn [rbind ret recorded_type].
  destruct (ctype_eqb (av_type from) t).
  - apply leads_ret. rewrite size_nil, Z.add_0_r. reflexivity.
  - destruct H as [H _]. apply leads_convert; [exact H|]. intros w. reflexivity.
Qed.

(** The part of a call before the call instruction. *)
Fixpoint gen_args (lk : option lookup) (i : nat) (l : list expr) : outcome codegen_error (list instr) :=
  match l with
  | [] => Ok []
  | a :: rest =>
      let* arg_code := gen_expr info a in
      let* argument := value_of (expr_cv a) in
      let* callee := value_of lk in
      let* parameter_type := get_parameter_type info callee i in
      let* rest_code := gen_args lk (S i) rest in
      Ok (arg_code
          ++ (if ctype_eqb (av_type argument) parameter_type then [] else [IConvert parameter_type])
          ++ rest_code)
  end.

Lemma gen_call_unfold : forall cv name lk st args v, cv = Some v -> is_known v = false ->
  gen_expr info (ECall cv name lk st args)
  = let* code := gen_args lk O args in
    let* invoke := gen_invoke info lk st in
    Ok (code ++ invoke).
Proof.
  intros cv name lk st args v -> Hk. cbn [gen_expr]. rewrite Hk.
  assert (E : forall args i,
    (fix gen_args (i : nat) (l : list expr) : outcome codegen_error (list instr) :=
       match l with
       | [] => Ok []
       | a :: rest =>
           let* arg_code := gen_expr info a in
           let* argument := value_of (expr_cv a) in
           let* callee := value_of lk in
           let* parameter_type := get_parameter_type info callee i in
           let* rest_code := gen_args (S i) rest in
           Ok (arg_code
               ++ (if ctype_eqb (av_type argument) parameter_type then [] else [IConvert parameter_type])
               ++ rest_code)
       end) i args = gen_args lk i args).
  { clear. intros l. induction l as [|a l IH]; intros i; [reflexivity|]. cbn [gen_args].
    rewrite <- IH. reflexivity. }
  rewrite E. reflexivity.
Qed.

Lemma eval_call_unfold : forall faithful call f cv name lk st args,
  eval faithful table constants call f (ECall cv name lk st args)
  = recorded faithful cv
      (do values <- eval_args faithful table constants call f lk O args;
       match lk with Some l => invoke call l values | None => throw s_stuck end).
Proof. reflexivity. Qed.

Lemma args_sim : forall lk args, callee_analyzed lk -> Forall expr_ok args -> forallb plain args = true ->
  forall i code, gen_args lk i args = Ok code ->
  forall pc s f cs bt ct, code_at pc code bt ct -> lo <= pc ->
  leads fuel (Machine s f cs pc) (eval_args false table constants callf f lk i args)
    (fun vs b => b = Machine (rev vs ++ s) f cs (pc + size code)).
Proof.
  intros lk args Hca HF. induction HF as [|a rest Ha _ IH]; intros Hp i code Hg pc s f cs bt ct Hc Hlo.
  - cbn in Hg. injection Hg as <-. apply leads_ret. cbn [rev app]. rewrite size_nil, Z.add_0_r. reflexivity.
  - cbn [forallb] in Hp. apply andb_prop in Hp. destruct Hp as [Hp1 Hp2].
    cbn [gen_args] in Hg. binds. injection Hg as <-.
    apply value_of_ok in B0, B1. cbn [eval_args].
    apply code_at_app in Hc. destruct Hc as [Hc1 Hc].
    apply code_at_app in Hc. destruct Hc as [Hc2 Hc3].
    pose proof (size_nonneg a0) as S0.
    set (conv := if ctype_eqb (av_type a1) a3 then [] else [IConvert a3]) in *.
    pose proof (size_nonneg conv) as S1.
    eapply leads_bind; [eapply Ha; eassumption|]. intros v b ->.
    eapply leads_bind.
    { rewrite B0, B1. rewrite B1 in Hca. rewrite (parameter_types_agree _ _ _ Hca B2).
      eapply leads_pass. exact Hc2. }
    intros w b ->. eapply leads_bind.
    { eapply IH; [exact Hp2|exact B3| |]; [exact Hc3|]. fold conv. lia. }
    intros ws b ->. apply leads_ret. cbn [rev]. rewrite <- app_assoc. cbn [app].
    f_equal. fold conv. rewrite !size_app. lia.
Qed.

Lemma invoke_sim : forall l code pc s f cs bt ct args,
  gen_invoke info (Some l) false = Ok code ->
  code_at pc code bt ct -> lo <= pc ->
  leads fuel (Machine (rev args ++ s) f cs pc) (invoke callf l args)
    (fun v b => b = Machine (v :: s) f cs (pc + size code)).
Proof.
  intros l code pc s f cs bt ct args Hg Hc Hlo. unfold gen_invoke in Hg. binds.
  rewrite app_nil_r in Hg. injection Hg as <-.
  destruct l as [k n|p|b]; cbn [invoke]; try (apply leads_stuck); try discriminate.
  - destruct k; try apply leads_stuck.
    destruct (info n) as [i|] eqn:Ei; [|discriminate].
    destruct (fi_analyzed i) eqn:Ea; [|discriminate].
    destruct (fi_address i) as [ad|] eqn:Ead; [|discriminate].
    injection B as <-. destruct Hc as [Hc _].
    eapply leads_weaken; [|eapply Hcall; eassumption]. intros v b ->. reflexivity.
  - destruct b. injection B as <-. destruct Hc as [Hc _].
    destruct args as [|v [|w args]]; try apply leads_stuck. cbn [rev app].
    apply leads_assert; [exact Hc|]. intros w. reflexivity.
Qed.

Lemma gen_invoke_statement : forall lk code, gen_invoke info lk true = Ok code ->
  exists c, gen_invoke info lk false = Ok c /\ code = c ++ [IPop].
Proof.
  intros lk code H. unfold gen_invoke in *. binds. rewrite B. cbn [bind].
  eexists. split; [reflexivity|]. rewrite app_nil_r. congruence.
Qed.

Lemma expr_sim : forall e, expr_ok e.
Proof.
  induction e as [cv e t IH|cv l c r IHl IHc IHr|cv op l r IHl IHr|cv op e IH|cv name lk st args IH
                 |cv name lk g|cv lit t] using expr_induction;
    intros Hp code Hg pc s f cs bt ct Hc Hlo; cbn [plain] in Hp.
  - (* conversion *)
    cbn [gen_expr] in Hg. cbn [eval].
    match goal with |- leads _ _ (recorded _ _ ?sem) _ =>
      destruct (push_known_cases _ _ _ sem Hg) as [(v & -> & ->)|[Hg' ->]] end; clear Hg.
    { destruct Hc as [Hc _]. eapply leads_step; [apply step_push; exact Hc|]. apply leads_ret. reflexivity. }
    binds. injection Hg' as <-. apply code_at_app in Hc. destruct Hc as [Hc1 Hc2].
    eapply leads_bind; [eapply IH; eassumption|]. intros v b ->.
    assert (T : type_of_node t = ret a0).
    { eapply type_of_node_ok. eassumption. }
    rewrite T. cbn [rbind ret]. destruct Hc2 as [Hc2 _].
    apply leads_convert; [exact Hc2|]. intros w. rewrite size_app, size_cons, size_nil. f_equal. lia.
  - (* if *)
    apply andb_prop in Hp. destruct Hp as [Hp Hpr]. apply andb_prop in Hp. destruct Hp as [Hpl Hpc].
    cbn [gen_expr] in Hg. cbn [eval].
    match goal with |- leads _ _ (recorded _ _ ?sem) _ =>
      destruct (push_known_cases _ _ _ sem Hg) as [(v & -> & ->)|[Hg' ->]] end; clear Hg.
    { destruct Hc as [Hc _]. eapply leads_step; [apply step_push; exact Hc|]. apply leads_ret. reflexivity. }
    binds. injection Hg' as <-.
    change ([IRelative_Jump_If (size a0 + 1) false] ++ a0 ++ [IRelative_Jump (size a1)] ++ a1)
      with (IRelative_Jump_If (size a0 + 1) false :: (a0 ++ IRelative_Jump (size a1) :: a1)) in *.
    apply code_at_app in Hc. destruct Hc as [Hc1 Hc]. cbn [code_at] in Hc. destruct Hc as [Hc2 Hc].
    apply code_at_app in Hc. destruct Hc as [Hc3 Hc]. cbn [code_at resolve] in Hc, Hc2.
    destruct Hc as [Hc4 Hc5].
    pose proof (size_nonneg a) as S0. pose proof (size_nonneg a0) as S1. pose proof (size_nonneg a1) as S2.
    eapply leads_bind; [eapply IHc; eassumption|]. intros v b ->.
    eapply leads_bind.
    { apply leads_truth with (G := fun (b : bool) m => m = Machine s f cs
         (if b then pc + size a + 1 else pc + size a + 1 + size a0 + 1)) (1 := Hc2).
      - lia.
      - intros [|]; cbn [Bool.eqb]; f_equal; lia. }
    intros [|] b ->; unfold adapt.
    + eapply leads_bind; [eapply IHl; try eassumption; lia|]. intros w b ->.
      eapply leads_step; [apply step_jump; [exact Hc4|lia]|]. apply leads_ret.
      rewrite size_app, size_cons, size_app, size_cons. f_equal. lia.
    + eapply leads_bind; [eapply IHr; try eassumption; lia|].
      intros w b ->. apply leads_ret.
      rewrite size_app, size_cons, size_app, size_cons. f_equal. lia.
  - (* binary *)
    apply andb_prop in Hp. destruct Hp as [Hpl Hpr].
    cbn [gen_expr] in Hg. cbn [eval].
    match goal with |- leads _ _ (recorded _ _ ?sem) _ =>
      destruct (push_known_cases _ _ _ sem Hg) as [(v & -> & ->)|[Hg' ->]] end; clear Hg.
    { destruct Hc as [Hc _]. eapply leads_step; [apply step_push; exact Hc|]. apply leads_ret. reflexivity. }
    apply bind_ok in Hg'. destruct Hg' as (cl & Bl & Hg').
    assert (Plain : forall cr, gen_expr info r = Ok cr -> code = cl ++ cr ++ [IBinary_Operate op] ->
      leads fuel (Machine s f cs pc)
        (do l <- evalf f l; do r <- evalf f r; operate (evaluate_binary_operator l op r))
        (fun v b => b = Machine (v :: s) f cs (pc + size code))).
    { intros cr Br ->. apply code_at_app in Hc. destruct Hc as [Hc1 Hc].
      apply code_at_app in Hc. destruct Hc as [Hc2 [Hc3 _]].
      pose proof (size_nonneg cl) as S0. pose proof (size_nonneg cr) as S1.
      eapply leads_bind; [eapply IHl; eassumption|]. intros v b ->.
      eapply leads_bind; [eapply IHr; try eassumption; lia|]. intros w b ->.
      apply leads_binary; [exact Hc3|]. intros x. rewrite !size_app, size_cons, size_nil. f_equal. lia. }
    assert (Logical : forall (cb : bool) cr, gen_expr info r = Ok cr ->
      code = cl ++ [IRelative_Jump_If (size cr + 1) cb] ++ cr
                 ++ [IRelative_Jump 1; IPush (CV TBool (if cb then 1 else 0))] ->
      leads fuel (Machine s f cs pc)
        (do l <- evalf f l; do b <- truth l;
         if Bool.eqb cb b then ret (CV TBool (if cb then 1 else 0)) else evalf f r)
        (fun v b => b = Machine (v :: s) f cs (pc + size code))).
    { intros cb cr Br ->.
      change ([IRelative_Jump_If (size cr + 1) cb] ++ cr
              ++ [IRelative_Jump 1; IPush (CV TBool (if cb then 1 else 0))])
        with (IRelative_Jump_If (size cr + 1) cb :: (cr
              ++ [IRelative_Jump 1; IPush (CV TBool (if cb then 1 else 0))])) in *.
      apply code_at_app in Hc. destruct Hc as [Hc1 Hc]. cbn [code_at resolve] in Hc. destruct Hc as [Hc2 Hc].
      apply code_at_app in Hc. destruct Hc as [Hc3 Hc]. cbn [code_at resolve] in Hc.
      destruct Hc as (Hc4 & Hc5 & _).
      pose proof (size_nonneg cl) as S0. pose proof (size_nonneg cr) as S1.
      eapply leads_bind; [eapply IHl; eassumption|]. intros v b ->.
      eapply leads_bind.
      { apply leads_truth with (G := fun (b : bool) m => m = Machine s f cs
           (if Bool.eqb cb b then pc + size cl + 1 + size cr + 1 else pc + size cl + 1)) (1 := Hc2).
        - lia.
        - intros b. f_equal. destruct (Bool.eqb cb b); lia. }
      intros b m ->. destruct (Bool.eqb cb b).
      - eapply leads_step; [apply step_push; exact Hc5|]. apply leads_ret.
        rewrite !size_app, size_cons, !size_app, !size_cons, size_nil. f_equal. lia.
      - eapply leads_then; [|eapply IHr; try eassumption; lia].
        intros w b' ->. eexists. split; [apply step_jump; [exact Hc4|lia]|].
        rewrite !size_app, size_cons, !size_app, !size_cons, size_nil. f_equal. lia. }
    destruct op; try (binds; injection Hg' as <-; eapply Plain; [eassumption|reflexivity]).
    + (* && *)
      binds. injection Hg' as <-.
      specialize (Logical false _ B eq_refl).
      match type of Logical with leads _ _ ?x _ => match goal with |- leads _ _ ?y _ =>
        replace y with x; [exact Logical|] end end.
      destruct (evalf f l) as [[v|e| |]|]; try reflexivity. cbn [rbind].
      destruct (truth v) as [[[|]|e| |]|]; reflexivity.
    + (* || *)
      binds. injection Hg' as <-.
      specialize (Logical true _ B eq_refl).
      match type of Logical with leads _ _ ?x _ => match goal with |- leads _ _ ?y _ =>
        replace y with x; [exact Logical|] end end.
      destruct (evalf f l) as [[v|e| |]|]; try reflexivity. cbn [rbind].
      destruct (truth v) as [[[|]|e| |]|]; reflexivity.
  - (* prefix *)
    cbn [gen_expr] in Hg. cbn [eval].
    match goal with |- leads _ _ (recorded _ _ ?sem) _ =>
      destruct (push_known_cases _ _ _ sem Hg) as [(v & -> & ->)|[Hg' ->]] end; clear Hg.
    { destruct Hc as [Hc _]. eapply leads_step; [apply step_push; exact Hc|]. apply leads_ret. reflexivity. }
    binds. injection Hg' as <-. apply code_at_app in Hc. destruct Hc as [Hc1 [Hc2 _]].
    eapply leads_bind; [eapply IH; eassumption|]. intros v b ->.
    apply leads_unary; [exact Hc2|]. intros w. rewrite size_app, size_cons, size_nil. f_equal. lia.
  - (* call *)
    apply andb_prop in Hp. destruct Hp as [Hst Hpa]. destruct st; [discriminate|]. clear Hst.
    rewrite eval_call_unfold.
    destruct cv as [v|]; [|discriminate]. destruct (is_known v) eqn:Ek.
    { cbn [gen_expr] in Hg. rewrite Ek in Hg. destruct v as [t [z|]]; [|discriminate].
      cbn in Hg. injection Hg as <-. cbn [recorded]. destruct Hc as [Hc _].
      eapply leads_step; [apply step_push; exact Hc|]. apply leads_ret. reflexivity. }
    rewrite (gen_call_unfold _ _ _ _ _ v eq_refl Ek) in Hg.
    destruct v as [t [z|]]; [discriminate|]. cbn [recorded].
    binds. injection Hg as <-. apply code_at_app in Hc. destruct Hc as [Hc1 Hc2].
    pose proof (size_nonneg a) as S0.
    eapply leads_bind; [eapply args_sim; try eassumption; eapply gen_invoke_analyzed; eassumption|]. intros vs b ->.
    destruct lk as [l|]; [|discriminate].
    eapply leads_weaken; [|eapply invoke_sim; [exact B0|exact Hc2|lia]].
    intros w b ->. rewrite size_app. f_equal. lia.
  - (* identifier *)
    cbn [gen_expr] in Hg. cbn [eval].
    match goal with |- leads _ _ (recorded _ _ ?sem) _ =>
      destruct (push_known_cases _ _ _ sem Hg) as [(v & -> & ->)|[Hg' ->]] end; clear Hg.
    { destruct Hc as [Hc _]. eapply leads_step; [apply step_push; exact Hc|]. apply leads_ret. reflexivity. }
    binds. injection Hg' as <-. destruct Hc as [Hc _]. apply value_of_ok in B. subst lk.
    destruct a as [k n|p|b]; cbn in B0; try discriminate; injection B0 as <-.
    + destruct k; try apply leads_stuck; apply leads_load; try exact Hc; intros w; reflexivity.
    + apply leads_load; try exact Hc; intros w; reflexivity.
  - (* literal *)
    cbn [gen_expr] in Hg. cbn [eval].
    match goal with |- leads _ _ (recorded _ _ ?sem) _ =>
      destruct (push_known_cases _ _ _ sem Hg) as [(v & -> & ->)|[Hg' ->]] end; clear Hg.
    { destruct Hc as [Hc _]. eapply leads_step; [apply step_push; exact Hc|]. apply leads_ret. reflexivity. }
    discriminate.
Qed.

(** * Statements *)

Variable return_type : ctype.

Notation execf := (exec false table constants callf return_type fuel).

(** Where the machine is after a statement. *)
Definition after (s : list cvalue) (cs : list (cvalue * env)) (pc len : Z) (bt ct : option Z)
  (r : ctl * env) (b : machine) : Prop :=
  match r with
  | (Normal, f) => b = Machine s f cs (pc + len)
  | (Breaks, f) =>
      match bt with
      | Some t => b = Machine s f cs t
      | None => fetch prog (a_pc b) = Some IBreak
      end
  | (Continues, f) =>
      match ct with
      | Some t => b = Machine s f cs t
      | None => fetch prog (a_pc b) = Some IContinue
      end
  | (Returns v, f) =>
      exists pc', b = Machine (v :: s) f cs pc' /\ fetch prog pc' = Some IReturn /\ pc <= pc' < pc + len
  end.

Definition stmt_ok (st : stmt) : Prop :=
  shaped st = true -> forall code, gen_stmt info return_type st = Ok code ->
  forall pc s f cs bt ct, code_at pc code bt ct -> lo <= pc ->
  (forall t, bt = Some t -> pc + size code <= t) -> (forall t, ct = Some t -> t < pc) ->
  leads fuel (Machine s f cs pc) (execf f st) (after s cs pc (size code) bt ct).

Lemma resolve_size : forall code before, size (resolve_jumps before code) = size code.
Proof.
  induction code as [|i code IH]; intros before; [reflexivity|].
  cbn [resolve_jumps]. rewrite !size_cons, IH. reflexivity.
Qed.

Lemma code_at_resolve : forall code before pc bt ct,
  code_at pc (resolve_jumps before code) bt ct ->
  code_at pc code (Some (pc + size code + 1)) (Some (pc - before)).
Proof.
  induction code as [|i code IH]; intros before pc bt ct H; [exact I|].
  cbn [resolve_jumps code_at] in *. destruct H as [H1 H2]. split.
  - rewrite H1. f_equal. rewrite size_cons. destruct i; cbn [resolve]; try reflexivity.
    + f_equal. lia.
    + f_equal. lia.
  - specialize (IH _ _ _ _ H2). rewrite size_cons.
    replace (pc + (1 + size code) + 1) with (pc + 1 + size code + 1) by lia.
    replace (pc - before) with (pc + 1 - (before + 1)) by lia. exact IH.
Qed.

Lemma rbind_assoc : forall A B C (x : res A) (f : A -> res B) (g : B -> res C),
  rbind (rbind x f) g = rbind x (fun a => rbind (f a) g).
Proof. intros A B C [[a|e| |]|] f g; reflexivity. Qed.

Lemma leads_truth_S : forall R fuel o e v s f cs pc (k : bool -> res R) G,
  fetch prog pc = Some (IRelative_Jump_If o e) -> o <> -1 ->
  (forall b : bool, leads fuel (Machine s f cs (if Bool.eqb e b then pc + 1 + o else pc + 1)) (k b) G) ->
  leads (S fuel) (Machine (v :: s) f cs pc) (do b <- truth v; k b) G.
Proof.
  intros R fl o e v s f cs pc k G Hi Ho Hk.
  pose proof (leads_truth 1 o e v s f cs pc
    (fun b m => m = Machine s f cs (if Bool.eqb e b then pc + 1 + o else pc + 1)) Hi Ho
    (fun b => eq_refl)) as H.
  destruct (truth v) as [[b|er| |]|] eqn:E; cbn [rbind]; try exact H.
  - assert (Hs : astep prog (Machine (v :: s) f cs pc)
               (Machine s f cs (if Bool.eqb e b then pc + 1 + o else pc + 1))).
    { unfold truth in E. destruct v as [t z]. cbn [cv_type cv_int] in E.
      assert (Hr : 0 <= pc + 1 + o < n_prog) by (apply Hclosed; right; eauto).
      destruct (ctype_eqb t TBool) eqn:Et; [|discriminate].
      assert (t = TBool) by (destruct t; try discriminate; reflexivity). subst t.
      assert (Hz : z = if b then 1 else 0).
      { destruct (Z.eqb_spec z 0); [injection E as <-; assumption|].
        destruct (Z.eqb_spec z 1); [injection E as <-; assumption|discriminate]. }
      subst z. exists (IRelative_Jump_If o e). split; [exact Hi|].
      split; [apply eff_jump_if; exact Hr|]. cbn [a_pc]. destruct (Bool.eqb e b); lia. }
    eapply leads_step_S; [exact Hs|apply Hk].
  - exfalso. unfold truth in E. destruct (ctype_eqb _ _); [|discriminate].
    destruct (_ =? 0); [discriminate|]. destruct (_ =? 1); discriminate.
Qed.

Fixpoint gen_children (l : list stmt) : outcome codegen_error (list instr) :=
  match l with
  | [] => Ok []
  | s1 :: rest =>
      let* code := gen_stmt info return_type s1 in
      let* rest_code := gen_children rest in
      Ok (code ++ rest_code)
  end.

Lemma gen_block_unfold : forall cv l, gen_stmt info return_type (SBlock cv l) = gen_children l.
Proof.
  intros cv l. cbn [gen_stmt]. induction l as [|s l IH]; [reflexivity|].
  cbn [gen_children]. rewrite <- IH. reflexivity.
Qed.

Lemma exec_block_unfold : forall fa ca rt fl f cv l,
  exec fa table constants ca rt fl f (SBlock cv l) = exec_children fa table constants ca rt fl l f.
Proof. reflexivity. Qed.

Lemma children_sim : forall l, Forall stmt_ok l -> forallb shaped l = true ->
  forall code, gen_children l = Ok code ->
  forall pc s f cs bt ct, code_at pc code bt ct -> lo <= pc ->
  (forall t, bt = Some t -> pc + size code <= t) -> (forall t, ct = Some t -> t < pc) ->
  leads fuel (Machine s f cs pc) (exec_children false table constants callf return_type fuel l f)
    (after s cs pc (size code) bt ct).
Proof.
  intros l HF. induction HF as [|st rest Hs _ IH]; intros Hp code Hg pc s f cs bt ct Hc Hlo Hb Hk.
  - cbn in Hg. injection Hg as <-. apply leads_ret. cbn. rewrite Z.add_0_r. reflexivity.
  - cbn [forallb] in Hp. apply andb_prop in Hp. destruct Hp as [Hp1 Hp2].
    cbn [gen_children] in Hg. binds. injection Hg as <-.
    apply code_at_app in Hc. destruct Hc as [Hc1 Hc2]. rewrite size_app in *.
    pose proof (size_nonneg a) as S0. pose proof (size_nonneg a0) as S1.
    cbn [exec_children]. eapply leads_bind.
    { eapply Hs; try eassumption. intros t Ht. specialize (Hb t Ht). lia. }
    intros [c f'] b Hab. destruct c as [| | |v].
    + cbn [after] in Hab. subst b.
      eapply leads_weaken; [|eapply IH; try eassumption; try lia].
      * intros [c f1] b. destruct c; cbn [after]; try tauto.
        { intros ->. f_equal. lia. }
        { intros (pc' & E & F & L). exists pc'. repeat split; try assumption; lia. }
      * intros t Ht. specialize (Hb t Ht). lia.
      * intros t Ht. specialize (Hk t Ht). lia.
    + apply leads_ret. exact Hab.
    + apply leads_ret. exact Hab.
    + apply leads_ret. cbn [after] in *. destruct Hab as (pc' & E & F & L).
      exists pc'. repeat split; try assumption; lia.
Qed.

Lemma loop_sim : forall condition block cc cb,
  plain condition = true -> gen_expr info condition = Ok cc ->
  shaped block = true -> gen_stmt info return_type block = Ok cb -> stmt_ok block ->
  forall pc s cs bt ct,
  code_at pc (cc ++ [IRelative_Jump_If (size cb + 1) false] ++ resolve_jumps (size cc + 1) cb
              ++ [IRelative_Jump (- (size cc + 1 + size cb + 1))]) bt ct ->
  lo <= pc ->
  forall n f, (n <= fuel)%nat ->
  leads n (Machine s f cs pc)
    (loop (fun vars => do c <- evalf vars condition; truth c) (fun vars => execf vars block) n f)
    (after s cs pc (size cc + 1 + size cb + 1) bt ct).
Proof.
  intros condition block cc cb Hpc Gc Hsb Gb Hblock pc s cs bt ct Hc Hlo.
  apply code_at_app in Hc. destruct Hc as [Hc1 Hc]. cbn [app code_at] in Hc. destruct Hc as [Hc2 Hc].
  apply code_at_app in Hc. destruct Hc as [Hc3 Hc]. cbn [code_at resolve] in Hc, Hc2.
  destruct Hc as [Hc4 _]. rewrite resolve_size in Hc4.
  apply code_at_resolve in Hc3.
  pose proof (size_nonneg cc) as S0. pose proof (size_nonneg cb) as S1.
  induction n as [|n IH]; intros f Hn.
  - cbn [loop leads]. eexists 0%nat, _. split; [constructor|lia].
  - cbn [loop]. rewrite rbind_assoc. eapply leads_bind.
    { eapply leads_less; [exact Hn|]. eapply expr_sim; eassumption. }
    intros v b ->. eapply leads_truth_S; [exact Hc2|lia|]. intros [|]; cbn [Bool.eqb].
    + eapply leads_bind.
      { eapply leads_less with (fuel := fuel); [lia|].
        eapply (Hblock Hsb _ Gb) with (bt := Some (pc + size cc + 1 + size cb + 1))
          (ct := Some (pc + size cc + 1 - (size cc + 1))); [exact Hc3|lia| |].
        - intros t Ht. injection Ht as <-. lia.
        - intros t Ht. injection Ht as <-. lia. }
      intros [c f'] b Hab. destruct c as [| | |w]; cbn [after] in Hab.
      * subst b. eapply leads_step; [apply step_jump; [exact Hc4|lia]|].
        replace (pc + size cc + 1 + size cb + 1 + - (size cc + 1 + size cb + 1)) with pc by lia.
        apply IH. lia.
      * subst b. apply leads_ret. cbn [after]. f_equal. lia.
      * subst b. replace (pc + size cc + 1 - (size cc + 1)) with pc by lia. apply IH. lia.
      * apply leads_ret. cbn [after]. destruct Hab as (pc' & E & F & L).
        exists pc'. repeat split; try assumption; lia.
    + apply leads_ret. cbn [after]. f_equal. lia.
Qed.

Lemma recorded_return_cases : forall (v : avalue) (k : res cvalue),
  (exists c, @concrete_value codegen_error v = Ok c /\ is_known v = true /\ recorded false (Some v) k = ret c)
  \/ (is_known v = false /\ recorded false (Some v) k = k).
Proof.
  intros [t [z|]] k; cbn.
  - left. eauto.
  - right. auto.
Qed.

Lemma stmt_sim : forall st, stmt_ok st.
Proof.
  induction st as [cv name self t e|cv name self t e|cv e|cv c b IHb|cv c b e IHb IHe|cv c b IHb
                  |cv t e|cv name lk e|cv l IHl|e] using stmt_induction;
    intros Hp code Hg pc s f cs bt ct Hc Hlo Hb Hk; cbn [shaped] in Hp.
  - cbn in Hg. binds. injection Hg as <-. apply leads_ret. cbn. rewrite Z.add_0_r. reflexivity.
  - cbn in Hg. binds. cbn [exec]. destruct e as [e|].
    + binds. injection Hg as <-. apply code_at_app in Hc. destruct Hc as [Hc1 [Hc2 _]].
      eapply leads_bind; [eapply expr_sim; eassumption|]. intros v b ->. cbn [adapt rbind ret].
      eapply leads_step; [apply step_store; exact Hc2|]. apply leads_ret. cbn [after].
      rewrite size_app, size_cons, size_nil. f_equal. lia.
    + injection Hg as <-. apply leads_ret. cbn. rewrite Z.add_0_r. reflexivity.
  - cbn in Hg. binds. injection Hg as <-. apply leads_ret. cbn. rewrite Z.add_0_r. reflexivity.
  - (* if without else *)
    apply andb_prop in Hp. destruct Hp as [Hp _]. apply andb_prop in Hp. destruct Hp as [Hpc Hpb].
    cbn [gen_stmt] in Hg. binds. injection Hg as <-. cbn [exec].
    apply code_at_app in Hc. destruct Hc as [Hc1 Hc]. cbn [app code_at resolve] in Hc. destruct Hc as [Hc2 Hc3].
    pose proof (size_nonneg a) as S0. pose proof (size_nonneg a0) as S1.
    rewrite size_app in *. cbn [app] in *. rewrite size_cons in *.
    eapply leads_bind; [eapply expr_sim; eassumption|]. intros v m ->.
    eapply leads_bind.
    { apply leads_truth with (G := fun (b : bool) m => m = Machine s f cs
         (if b then pc + size a + 1 else pc + size a + 1 + size a0)) (1 := Hc2).
      - lia.
      - intros [|]; cbn [Bool.eqb]; f_equal; lia. }
    intros [|] m ->.
    + eapply leads_weaken; [|eapply IHb; try eassumption; try lia].
      * intros [c1 f1] b1. destruct c1; cbn [after]; try tauto.
        { intros ->. f_equal. lia. }
        { intros (pc' & E & F & L). exists pc'. repeat split; try assumption; lia. }
      * intros t Ht. specialize (Hb t Ht). lia.
      * intros t Ht. specialize (Hk t Ht). lia.
    + apply leads_ret. cbn [after]. f_equal. lia.
  - (* if with else *)
    apply andb_prop in Hp. destruct Hp as [Hp Hpe]. apply andb_prop in Hp. destruct Hp as [Hpc Hpb].
    cbn [gen_stmt] in Hg. binds. injection Hg as <-. cbn [exec].
    apply code_at_app in Hc. destruct Hc as [Hc1 Hc]. cbn [app code_at resolve] in Hc. destruct Hc as [Hc2 Hc].
    apply code_at_app in Hc. destruct Hc as [Hc3 Hc]. cbn [app code_at resolve] in Hc. destruct Hc as [Hc4 Hc5].
    pose proof (size_nonneg a) as S0. pose proof (size_nonneg a0) as S1. pose proof (size_nonneg a1) as S2.
    rewrite size_app in *. cbn [app] in *. rewrite size_cons, size_app, size_cons in *.
    eapply leads_bind; [eapply expr_sim; eassumption|]. intros v m ->.
    eapply leads_bind.
    { apply leads_truth with (G := fun (b : bool) m => m = Machine s f cs
         (if b then pc + size a + 1 else pc + size a + 1 + size a0 + 1)) (1 := Hc2).
      - lia.
      - intros [|]; cbn [Bool.eqb]; f_equal; lia. }
    assert (Hbb : forall t, bt = Some t -> pc + (size a + (1 + (size a0 + (1 + size a1)))) <= t) by exact Hb.
    intros [|] m ->.
    + pose proof (IHb Hpb _ B0 (pc + size a + 1) s f cs bt ct Hc3 ltac:(lia)
        ltac:(intros t Ht; specialize (Hbb t Ht); lia) ltac:(intros t Ht; specialize (Hk t Ht); lia)) as H.
      destruct (execf f b) as [[[c1 f1]|e1| |]|]; cbn [leads] in *; try exact H.
      destruct H as (k & m & Hs & Hm). destruct c1 as [| | |w].
      * cbn [after] in Hm. subst m. exists (k + 1)%nat. eexists. split.
        { eapply steps_trans; [exact Hs|]. eapply steps_more; [|constructor].
          apply step_jump; [exact Hc4|lia]. }
        cbn [after]. f_equal. lia.
      * exists k, m. split; [exact Hs|exact Hm].
      * exists k, m. split; [exact Hs|exact Hm].
      * exists k, m. split; [exact Hs|]. cbn [after] in *. destruct Hm as (pc' & E & F & L).
        exists pc'. repeat split; try assumption; lia.
    + eapply leads_weaken; [|eapply IHe; try eassumption; try lia].
      * intros [c1 f1] b1. destruct c1; cbn [after]; try tauto.
        { intros ->. f_equal. lia. }
        { intros (pc' & E & F & L). exists pc'. repeat split; try assumption; lia. }
      * intros t Ht. specialize (Hbb t Ht). lia.
      * intros t Ht. specialize (Hk t Ht). lia.
  - (* while *)
    apply andb_prop in Hp. destruct Hp as [Hpc Hpb].
    cbn [gen_stmt] in Hg. binds. injection Hg as <-. cbn [exec].
    match goal with |- leads _ _ _ (after _ _ _ ?n _ _) =>
      replace n with (size a + 1 + size a0 + 1)
        by (rewrite size_app; cbn [app]; rewrite size_cons, size_app, size_cons, resolve_size, size_nil; lia) end.
    eapply loop_sim; try eassumption. lia.
  - (* control *)
    cbn [gen_stmt] in Hg. apply bind_ok in Hg. destruct Hg as (v & Hv & Hg). apply value_of_ok in Hv. subst cv.
    destruct t; cbn [exec].
    + injection Hg as <-. destruct Hc as [Hc _]. destruct bt as [t|].
      * eapply leads_step; [apply step_jump with (o := t - pc - 1); [exact Hc|]|].
        { specialize (Hb t eq_refl). rewrite size_cons, size_nil in Hb. lia. }
        apply leads_ret. cbn [after]. f_equal. lia.
      * apply leads_ret. exact Hc.
    + injection Hg as <-. destruct Hc as [Hc _]. destruct ct as [t|].
      * eapply leads_step; [apply step_jump with (o := t - pc - 1); [exact Hc|]|].
        { specialize (Hk t eq_refl). lia. }
        apply leads_ret. cbn [after]. f_equal. lia.
      * apply leads_ret. exact Hc.
    + unfold assert_then in Hg. destruct (ctype_eqb (av_type v) return_type); [|discriminate].
      match goal with |- leads _ _ (rbind (recorded _ _ ?k) _) _ =>
        destruct (recorded_return_cases v k) as [(c & Hcv & Hkn & ->)|[Hkn ->]] end; rewrite Hkn in Hg.
      * rewrite Hcv in Hg. cbn [bind] in Hg. injection Hg as <-. destruct Hc as (Hc1 & Hc2 & _).
        cbn [rbind ret]. eapply leads_step; [apply step_push; exact Hc1|]. apply leads_ret.
        exists (pc + 1). rewrite !size_cons, size_nil. repeat split; try assumption; lia.
      * binds. injection Hg as <-. apply value_of_ok in B. subst e. apply value_of_ok in B1.
        apply code_at_app in Hc. destruct Hc as [Hc1 Hc]. apply code_at_app in Hc. destruct Hc as [Hc2 [Hc3 _]].
        rewrite rbind_assoc.
        pose proof (size_nonneg a0) as S0.
        pose proof (size_nonneg (if ctype_eqb (av_type a1) return_type then [] else [IConvert return_type])) as S1.
        eapply leads_bind; [eapply expr_sim; eassumption|]. intros w m ->.
        eapply leads_bind; [rewrite B1; eapply leads_pass; exact Hc2|]. intros x m ->.
        apply leads_ret. eexists. split; [reflexivity|]. split; [exact Hc3|].
        rewrite !size_app, size_cons, size_nil. lia.
  - (* assignment *)
    cbn [gen_stmt] in Hg. binds. injection Hg as <-. apply value_of_ok in B1. subst lk.
    apply code_at_app in Hc. destruct Hc as [Hc1 [Hc2 _]]. cbn [exec].
    eapply leads_bind; [eapply expr_sim; eassumption|]. intros v b ->. cbn [adapt rbind ret].
    destruct a1 as [k n|q|bf]; try apply leads_stuck. destruct k; try apply leads_stuck.
    cbn in B2. injection B2 as <-.
    eapply leads_step; [apply step_store; exact Hc2|]. apply leads_ret. cbn [after].
    rewrite size_app, size_cons, size_nil. f_equal. lia.
  - (* block *)
    rewrite gen_block_unfold in Hg. rewrite exec_block_unfold. eapply children_sim; eassumption.
  - (* call statement *)
    destruct e as [| | | |cv name lk st args| |]; try discriminate.
    apply andb_prop in Hp. destruct Hp as [Hst Hpa]. destruct st; [|discriminate]. clear Hst.
    cbn [exec gen_stmt] in *. rewrite eval_call_unfold.
    destruct cv as [v|]; [|discriminate]. destruct (is_known v) eqn:Ek.
    { cbn [gen_expr] in Hg. rewrite Ek in Hg. injection Hg as <-. destruct v as [t [z|]]; [|discriminate].
      cbn [recorded rbind ret]. apply leads_ret. cbn [after]. rewrite size_nil, Z.add_0_r. reflexivity. }
    rewrite (gen_call_unfold _ _ _ _ _ v eq_refl Ek) in Hg.
    destruct v as [t [z|]]; [discriminate|]. cbn [recorded].
    binds. injection Hg as <-. apply gen_invoke_statement in B0. destruct B0 as (ci & B0 & ->).
    apply code_at_app in Hc. destruct Hc as [Hc1 Hc]. apply code_at_app in Hc. destruct Hc as [Hc2 [Hc3 _]].
    pose proof (size_nonneg a) as S0. pose proof (size_nonneg ci) as S1.
    rewrite rbind_assoc.
    eapply leads_bind; [eapply args_sim; try eassumption|].
    { eapply gen_invoke_analyzed; eassumption. }
    { rewrite Forall_forall. intros x _. apply expr_sim. }
    intros vs b ->. destruct lk as [l|]; [|apply leads_stuck].
    eapply leads_bind; [eapply invoke_sim; [exact B0|exact Hc2|lia]|]. intros w b ->.
    eapply leads_step; [apply step_pop; exact Hc3|]. apply leads_ret. cbn [after].
    rewrite !size_app, size_cons, size_nil. f_equal. lia.
Qed.
End Body.

(** * Functions *)

Variable units : positive -> option code_unit.
Hypothesis Hlinked : linked prog table units.

Lemma leads_steps : forall R k fuel a b (r : res R) G,
  steps prog k a b -> leads fuel b r G -> leads fuel a r G.
Proof.
  intros R k fuel a b r G H. induction H as [|k a b c Hs _ IH]; intros Hl; [exact Hl|].
  eapply leads_step; [exact Hs|]. apply IH. exact Hl.
Qed.

Lemma bind_parameters_sim : forall params args f, bind_parameters params args = Some f ->
  forall pc s cs bt ct,
  code_at pc (map (fun p => IStore (Some (p_self p))) (rev params)) bt ct ->
  steps prog (length params) (Machine (rev args ++ s) empty_env cs pc)
    (Machine s f cs (pc + size (map (fun p => IStore (Some (p_self p))) (rev params)))).
Proof.
  induction params as [|p params IH]; intros args f H pc s cs bt ct Hc.
  - destruct args; [|discriminate]. cbn in H. injection H as <-. cbn [rev map app length].
    rewrite size_nil, Z.add_0_r. constructor.
  - destruct args as [|a args]; [discriminate|]. cbn [bind_parameters] in H.
    destruct (bind_parameters params args) as [f'|] eqn:E; [|discriminate]. injection H as <-.
    cbn [rev] in *. rewrite map_app in *. apply code_at_app in Hc. destruct Hc as [Hc1 [Hc2 _]].
    rewrite <- app_assoc. cbn [app length].
    replace (S (length params)) with (length params + 1)%nat by lia.
    eapply steps_trans; [eapply IH; eassumption|].
    eapply steps_more; [apply step_store; exact Hc2|]. cbn [map].
    rewrite size_app, size_cons, size_nil.
    match goal with |- steps _ _ (Machine _ _ _ ?x) (Machine _ _ _ ?y) => replace y with x by lia end.
    constructor.
Qed.

Lemma has_return_true : forall E l, @has_return E l = Ok true ->
  exists cv e, In (SControl cv ctl_return e) l.
Proof.
  induction l as [|st l IH]; cbn [has_return]; [discriminate|].
  destruct st; try (intros H; destruct (IH H) as (cv' & e' & Hi); exists cv', e'; right; exact Hi).
  destruct type; try discriminate. intros _. exists cv, e. left. reflexivity.
Qed.

Lemma return_not_normal : forall fa ca rt fl l cv e, In (SControl cv ctl_return e) l ->
  forall f f', exec_children fa table constants ca rt fl l f <> Some (Ok (Normal, f')).
Proof.
  induction l as [|st l IH]; intros cv e Hi f f' H; [destruct Hi|].
  cbn [exec_children] in H. destruct Hi as [->|Hi].
  - cbn [exec] in H.
    match type of H with rbind (rbind ?x _) _ = _ => destruct x as [[v|?| |]|] end; discriminate.
  - destruct (exec fa table constants ca rt fl f st) as [[[c f1]|?| |]|]; cbn [rbind] in H; try discriminate.
    destruct c; try discriminate. exact (IH _ _ Hi _ _ H).
Qed.

(** What is known about the code of one function. *)
Lemma enter_sim : forall fuel n u args s cs, units n = Some u ->
  (forall n' u' args' pc s' f' cs', units n' = Some u' -> fetch prog pc = Some (ICall (u_start u')) ->
     u_start u' + size (u_code u') <= pc ->
     leads fuel (Machine (rev args' ++ s') f' cs' pc) (call false table constants fuel n' args')
       (fun v b => b = Machine (v :: s') f' cs' (pc + 1))) ->
  leads fuel (Machine (rev args ++ s) empty_env cs (u_start u))
    (call false table constants (S fuel) n args)
    (fun v b => exists f' pc', b = Machine (v :: s) f' cs pc' /\ fetch prog pc' = Some IReturn
                               /\ u_start u <= pc' < u_start u + size (u_code u)).
Proof.
  intros fuel n u args s cs Hu Hcalls.
  destruct (Hlinked n u Hu) as (f & Ht & Hsh & Hg & Hne & Hloc & Hi).
  cbn [call]. rewrite Ht.
  destruct (bind_parameters (f_params f) args) as [vars|] eqn:Eb; [|apply leads_stuck].
  unfold gen_function in Hg. binds. rename a into rv, a0 into rt.
  rewrite (type_of_node_ok _ _ _ B0). cbn [rbind ret].
  apply located_code_at in Hloc.
  destruct (f_body f) as [| | | | | | |bcv children|] eqn:Ebody; try discriminate.
  apply bind_ok in Hg. destruct Hg as (body & Bb & Hg).
  set (stores := map (fun p => IStore (Some (p_self p))) (rev (f_params f))) in *.
  assert (Hcode : exists tail, u_code u = stores ++ body ++ tail
    /\ match node_type (f_return f) with
       | tt_Void => (tail = [] /\ @has_return codegen_error (rev children) = Ok true)
                    \/ tail = [IPush cv_Void; IReturn]
       | _ => tail = []
       end).
  { destruct (node_type (f_return f)).
    - binds. destruct a; injection Hg as Hg.
      + exists []. split; [symmetry; exact Hg|left; auto].
      + exists [IPush cv_Void; IReturn]. split; [symmetry; exact Hg|right; reflexivity].
    - injection Hg as Hg. exists []. rewrite app_nil_r. auto.
    - injection Hg as Hg. exists []. rewrite app_nil_r. auto.
    - injection Hg as Hg. exists []. rewrite app_nil_r. auto. }
  destruct Hcode as (tail & Hcode & Htail). clear Hg. rewrite Hcode in Hloc.
  apply code_at_app in Hloc. destruct Hloc as [Hst Hloc].
  apply code_at_app in Hloc. destruct Hloc as [Hbd Htl].
  pose proof (size_nonneg stores) as S0. pose proof (size_nonneg body) as S1. pose proof (size_nonneg tail) as S2.
  eapply leads_steps; [eapply bind_parameters_sim; eassumption|].
  fold stores.
  assert (Hsim : leads fuel (Machine s vars cs (u_start u + size stores))
    (exec false table constants (call false table constants fuel) rt fuel vars (SBlock bcv children))
    (after s cs (u_start u + size stores) (size body) None None)).
  { eapply stmt_sim with (info := u_info u) (lo := u_start u) (st := SBlock bcv children).
    - intros n' i a Hn' Han Had. destruct (Hi n' i a Hn' Han Had) as [Hp _]. exact Hp.
    - intros n' i a args' pc s' f' cs' Hn' Han Had Hf Hlo.
      destruct (Hi n' i a Hn' Han Had) as [_ (u' & Hu' & Hst' & Hle)].
      subst a. eapply Hcalls; try eassumption. unfold size. lia.
    - rewrite <- Ebody. rewrite Ebody. exact Hsh.
    - exact Bb.
    - exact Hbd.
    - lia.
    - discriminate.
    - discriminate. }
  assert (Hsz : size (u_code u) = size stores + size body + size tail) by (rewrite Hcode, !size_app; lia).
  destruct (exec false table constants (call false table constants fuel) rt fuel vars (SBlock bcv children))
    as [[[c vars']|e| |]|] eqn:Ex; cbn [rbind]; try exact Hsim.
  destruct Hsim as (k & b & Hk & Hb). destruct c as [| | |v]; cbn [after] in Hb.
  - subst b. destruct (node_type (f_return f)); try exact I.
    destruct Htail as [[-> Hr]| ->].
    + exfalso. apply has_return_true in Hr. destruct Hr as (cv & e & Hin).
      rewrite <- in_rev in Hin. rewrite exec_block_unfold in Ex.
      eapply return_not_normal; eassumption.
    + cbn [code_at resolve] in Htl. destruct Htl as (Ht1 & Ht2 & _).
      eapply leads_steps; [exact Hk|]. eapply leads_step; [apply step_push; exact Ht1|].
      apply leads_ret. eexists _, _. split; [reflexivity|]. split; [exact Ht2|].
      rewrite Hsz, !size_cons, size_nil. lia.
  - cbn. exists k, b. split; [exact Hk|]. exists IBreak. split; [exact Hb|]. apply flt_symbolic. auto.
  - cbn. exists k, b. split; [exact Hk|]. exists IContinue. split; [exact Hb|]. apply flt_symbolic. auto.
  - eapply leads_steps; [exact Hk|]. apply leads_ret. destruct Hb as (pc' & -> & Hf & Hr).
    eexists _, _. split; [reflexivity|]. split; [exact Hf|]. lia.
Qed.

Lemma call_sim : forall fuel n u args pc s f cs, units n = Some u ->
  fetch prog pc = Some (ICall (u_start u)) -> u_start u + size (u_code u) <= pc ->
  leads fuel (Machine (rev args ++ s) f cs pc) (call false table constants fuel n args)
    (fun v b => b = Machine (v :: s) f cs (pc + 1)).
Proof.
  induction fuel as [|fuel IH]; intros n u args pc s f cs Hu Hf Hle.
  - cbn. exists 0%nat, (Machine (rev args ++ s) f cs pc). split; [constructor|lia].
  - destruct (Hlinked n u Hu) as (fn & Ht & Hsh & Hg & Hne & Hloc & Hi).
    pose proof (fetch_range _ _ _ Hf) as Hr.
    assert (Hs : 0 <= u_start u < u_start u + size (u_code u)).
    { destruct Hloc as (before & rest & E & ->). unfold size, instruction_count.
      destruct (u_code u); [congruence|]. cbn [length]. lia. }
    eapply leads_step_S.
    { exists (ICall (u_start u)). split; [exact Hf|]. split; [apply eff_call; lia|]. cbn [a_pc]. lia. }
    eapply leads_then; [|eapply enter_sim; [exact Hu|]].
    + cbn beta. intros v b (f' & pc' & -> & Hf' & Hr').
      eexists. split; [|reflexivity]. exists IReturn. cbn [a_pc]. split; [exact Hf'|]. split.
      * apply (eff_return n_prog (CV TInt (pc + 1)) f cs (v :: s) f' pc'). cbn [cv_int]. lia.
      * cbn [cv_int]. lia.
    + intros. eapply IH; eassumption.
Qed.

(** Starting a function with no caller, the way a constant call is evaluated. *)
Lemma entry_sim : forall fuel n u args, units n = Some u ->
  leads fuel (Machine (rev args) empty_env [] (u_start u)) (call false table constants (S fuel) n args)
    (fun v b => a_stack b = [v] /\ stops prog b x_pop_call).
Proof.
  intros fuel n u args Hu. rewrite <- (app_nil_r (rev args)).
  eapply leads_weaken; [|eapply enter_sim; [exact Hu|]].
  - cbn beta. intros v b (f' & pc' & -> & Hf & _). split; [reflexivity|].
    exists IReturn. split; [exact Hf|]. apply flt_return.
  - intros. eapply call_sim; eassumption.
Qed.
End Program.
