(** Facts about accepted programs. *)
From Coq Require Import ZArith List Bool Lia.
From Verif Require Import Prelude Types Ops OpsSpec AbsOps AbsOpsSpec Text Tables Literals LinMap LinMapSpec LinMapProofs VM VMSpec VMProofs
  Ast AstFacts Codegen SourceSem CodegenSpec CodegenProofs CodegenRun CodegenJumps CodegenProps
  Analyze Annotated AnnotatedProofs Programs AnalyzeFacts AnalyzeCode AnalyzeProofs AcceptedSpec.
Import ListNotations.
Open Scope Z_scope.
Local Arguments Z.pow : simpl never.

Lemma parts_noted : forall values table e, noted values table e -> forall e1, In e1 (parts e) -> noted values table e1.
Proof.
  intros values table.
  induction e as [cv e t IH|cv l c r IHl IHc IHr|cv op l r IHl IHr|cv op e IH|cv name lk st args IH
                 |cv name lk g|cv lit t] using expr_induction; intros Hn e1 He1; cbn [parts] in He1;
    (destruct He1 as [<-|He1]; [exact Hn|]).
  - apply IH; [apply Hn|exact He1].
  - destruct Hn as (Hl & Hc & Hr & _). apply in_app_or in He1 as [He1|He1]; [auto|].
    apply in_app_or in He1 as [He1|He1]; auto.
  - destruct Hn as (Hl & Hr & _). apply in_app_or in He1 as [He1|He1]; auto.
  - apply IH; [apply Hn|exact He1].
  - destruct Hn as [Ha _]. apply in_flat_map in He1 as (a & Hin & He1).
    rewrite Forall_forall in IH. apply (IH a Hin); [|exact He1].
    clear -Ha Hin. induction args as [|x args IHa]; [destruct Hin|]. destruct Ha as [H1 H2]. destruct Hin as [->|Hin]; auto.
  - destruct He1.
  - destruct He1.
Qed.

Lemma stmts_noted : forall values table rt s, noted_stmt values table rt s ->
  forall s1, In s1 (stmts_in s) -> noted_stmt values table rt s1.
Proof.
  intros values table rt.
  induction s as [cv name self t e|cv name self t e|cv e|cv co b IHb|cv co b e IHb IHe|cv co b IHb
                 |cv t e|cv name lk e|cv l IH|e] using stmt_induction; intros Hn s1 Hs; cbn [stmts_in] in Hs;
    (destruct Hs as [<-|Hs]; [exact Hn|]); try destruct Hs.
  - rewrite app_nil_r in Hs. apply IHb; [apply Hn|exact Hs].
  - destruct Hn as (_ & _ & Hb & He). apply in_app_or in Hs as [Hs|Hs]; auto.
  - apply IHb; [apply Hn|exact Hs].
  - apply in_flat_map in Hs as (a & Hin & Hs). rewrite Forall_forall in IH. apply (IH a Hin); [|exact Hs].
    clear -Hn Hin. cbn [noted_stmt] in Hn. induction l as [|x l IHl]; [destruct Hin|]. destruct Hn as [H1 H2].
    destruct Hin as [->|Hin]; auto.
Qed.

Lemma run_exprs_noted : forall values table rt s, noted_stmt values table rt s ->
  forall e, In e (run_exprs s) -> noted values table e.
Proof.
  intros values table rt s Hn e He. apply in_flat_map in He as (s1 & Hs & He).
  apply in_flat_map in He as (e0 & H0 & He). apply (parts_noted values table e0); [|exact He].
  pose proof (stmts_noted _ _ _ _ Hn s1 Hs) as N. destruct s1; cbn [own_expr] in H0; try contradiction.
  - destruct init as [e1|]; [|contradiction]. destruct H0 as [<-|[]]. destruct N as (? & _ & _ & _ & _ & N & _). exact N.
  - destruct H0 as [<-|[]]. apply N.
  - destruct H0 as [<-|[]]. apply N.
  - destruct type; try contradiction. destruct e1 as [e1|]; [|contradiction]. destruct H0 as [<-|[]]. apply N.
  - destruct H0 as [<-|[]]. apply N.
  - destruct H0 as [<-|[]]. exact N.
Qed.

(** ** A missing [return] *)

Lemma return_last : forall fa table constants ca rt fuel l cv c e vars vars',
  exec fa table constants ca rt fuel vars (SBlock cv (l ++ [SControl c ctl_return e])) <> Some (Ok (Normal, vars')).
Proof.
  intros fa table constants ca rt fuel l cv c e vars vars'. rewrite exec_block_unfold. revert vars.
  induction l as [|s l IH]; intros vars H; cbn [app exec_children] in H.
  - cbn [exec] in H. destruct (recorded _ _ _) as [[v|x| |]|]; cbn [rbind ret] in H; discriminate.
  - destruct (exec fa table constants ca rt fuel vars s) as [[[[] w]|x| |]|]; cbn [rbind ret] in H; try discriminate.
    exact (IH _ H).
Qed.

Lemma call_has_value : forall fa table constants,
  (forall n f, table n = Some f -> ends_with_return f) ->
  forall fuel n args, only (fun e => e <> s_no_value) (call fa table constants fuel n args).
Proof.
  intros fa table constants Hl. induction fuel as [|fuel IH]; intros n args; [intros e H; discriminate|].
  cbn [call]. destruct (table n) as [f|] eqn:Et; [|apply only_stuck; discriminate].
  destruct (bind_parameters _ _); [|apply only_stuck; discriminate].
  apply only_bind; [apply only_type_of_node; discriminate|]. intros rt _.
  apply only_bind; [apply only_exec; try discriminate; exact IH|].
  intros [c vars] Hx. destruct c; try apply only_ret; try (intros er H; injection H as <-; discriminate).
  destruct (Hl n f Et) as (cv & l & Hb & [(l' & c & e0 & ->)|[Hv _]]).
  - rewrite Hb in Hx. elim (return_last _ _ _ _ _ _ _ _ _ _ _ _ Hx).
  - rewrite Hv. apply only_ret.
Qed.

(** ** Accepted programs *)

Section Accepted.
Variable st : state.
Hypothesis Hst : accepted_program st.

Lemma meaning_typed : forall fuel n f t args, analysed_function st n f t -> typed_args f args ->
  match meaning st fuel n args with
  | Some (Ok v) => wf_value v /\ cv_type v = t
  | Some (Err e) => excusable e
  | _ => True
  end.
Proof.
  intros fuel n f t args [Hf Hd] Ha.
  pose proof (call_typed (st_values st) (st_functions st) (ap_noted _ Hst) fuel n f args t Hf Ha Hd) as T.
  pose proof (call_has_value true (st_functions st) (constants_of (st_values st)) (ap_ends _ Hst) fuel n args) as V.
  pose proof (call_no_break true (st_functions st) (constants_of (st_values st)) (ap_loops _ Hst) fuel n args) as B.
  unfold meaning. destruct (call true _ _ fuel n args) as [[v|e| |]|]; try exact I; [exact T|].
  destruct T as (T1 & T2 & T3). specialize (V e eq_refl). specialize (B e eq_refl). cbn in V, B. unfold excusable.
  destruct e; try congruence; eauto. right. eexists. split; [reflexivity|]. congruence.
Qed.

Lemma expression_recorded : forall fuel n f e vars, st_functions st n = Some f -> In e (run_exprs (f_body f)) ->
  typed_vars (st_values st) vars ->
  exists a, expr_cv e = Some a /\ wf_type (av_type a)
    /\ as_recorded a (eval true (st_functions st) (constants_of (st_values st)) (meaning st fuel) vars e).
Proof.
  intros fuel n f e vars Hf He Hv. destruct (ap_noted _ Hst n f Hf) as [(t & Hd & Hb) _].
  apply eval_recorded; [apply call_typed, (ap_noted _ Hst)| |exact Hv]. eapply run_exprs_noted; eassumption.
Qed.

Lemma statement_typed : forall fuel n f t s vars, analysed_function st n f t -> In s (stmts_in (f_body f)) ->
  typed_vars (st_values st) vars ->
  match exec true (st_functions st) (constants_of (st_values st)) (meaning st fuel) t fuel vars s with
  | Some (Ok (_, vars')) => typed_vars (st_values st) vars'
  | _ => True
  end.
Proof.
  intros fuel n f t s vars [Hf Hd] Hs Hv. destruct (ap_noted _ Hst n f Hf) as [(t' & Hd' & Hb) _].
  pose proof (denotes_unique _ _ _ Hd Hd') as <-.
  pose proof (exec_typed (st_values st) (st_functions st) (meaning st fuel)
    (call_typed (st_values st) (st_functions st) (ap_noted _ Hst) fuel) t (proj2 (proj2 Hd)) fuel s vars
    (stmts_noted _ _ _ _ Hb s Hs) Hv) as G.
  destruct (exec _ _ _ _ t fuel vars s) as [[[c w]|er| |]|]; try exact I. apply G.
Qed.

(** The machine. *)

Lemma typed_args_wf : forall f args, typed_args f args -> Forall wf_value args.
Proof. intros f args H. induction H as [|p v ps vs (t & _ & Hw & _) _ IH]; constructor; assumption. Qed.

Lemma run_started : forall n f args m, st_functions st n = Some f -> about_to_run st f args m ->
  exists units u, started (st_functions st) units m n u args.
Proof.
  intros n f args m Hf (Hsize & Hprog & Ha & Hs & Hfr & Hargs).
  destruct (ap_code _ Hst) as [units L]. destruct (lo_units _ _ _ L n f _ Hf Ha) as (u & Hu & Hstart).
  pose proof (assembled_closed _ (lo_assembled _ _ _ L)) as Hcl.
  exists units, u. unfold started. rewrite Hprog. split.
  - split; [rewrite Hprog; exact Hsize|]. rewrite Hprog. split; [|split; [|split]].
    + apply Forall_forall. intros i Hi.
      assert (exists pc, fetch (vm_instructions (st_vm st)) pc = Some i /\ 0 <= pc < instruction_count (vm_instructions (st_vm st))) as (pc & Hpc & Hr).
      { apply In_nth_error in Hi as [k Hk]. exists (Z.of_nat k).
        assert (k < length (vm_instructions (st_vm st)))%nat by (apply nth_error_Some; congruence).
        unfold instruction_count. split; [|lia]. rewrite fetch_nth by lia. rewrite Nat2Z.id. exact Hk. }
      pose proof (lo_values _ _ _ L) as V. rewrite Forall_forall in V. specialize (V i Hi).
      destruct i; try exact I; try exact V.
      * pose proof (Hcl pc offset (or_introl Hpc)). cbn. lia.
      * pose proof (Hcl pc offset (or_intror (ex_intro _ expected Hpc))). cbn. lia.
      * pose proof (lo_calls _ _ _ L address Hi). cbn. lia.
    + rewrite <- Hstart. destruct (lo_linked _ _ _ L n u Hu) as (_ & _ & _ & _ & _ & Hloc & _).
      destruct (located_range _ _ _ Hloc) as [R1 R2]. pose proof (Zle_0_nat (length (u_code u))). unfold instruction_count in *. lia.
    + rewrite Hs. apply Forall_rev. eapply typed_args_wf. exact Hargs.
    + rewrite Hfr. constructor.
  - split; [exact Hcl|]. split; [exact (lo_linked _ _ _ L)|]. auto.
Qed.

Hypothesis Hdirect : direct_program st.

Lemma meaning_direct : forall fuel n f args, st_functions st n = Some f -> typed_args f args ->
  meaning st fuel n args = call false (st_functions st) (constants_of (st_values st)) fuel n args.
Proof.
  intros fuel n f args Hf Ha. unfold meaning. eapply call_direct; [|exact Hf|exact Ha].
  intros m g Hg. split; [exact (ap_noted _ Hst m g Hg)|exact (Hdirect m g Hg)].
Qed.

Lemma machine_value : forall fuel n f args m v, st_functions st n = Some f -> about_to_run st f args m ->
  meaning st (S fuel) n args = Some (Ok v) ->
  exists k x, run k m = Some (Err x) /\ ee_code x = x_pop_call /\ vm_stack (ee_machine x) = [v].
Proof.
  intros fuel n f args m v Hf Hm H. destruct (run_started n f args m Hf Hm) as (units & u & S).
  rewrite (meaning_direct _ _ f) in H; [|exact Hf|apply Hm]. eapply C26_run_value_partial; eassumption.
Qed.

Lemma machine_error : forall fuel n f args m e c, st_functions st n = Some f -> about_to_run st f args m ->
  meaning st (S fuel) n args = Some (Err e) -> reported e = Some c ->
  exists k x, run k m = Some (Err x) /\ ee_code x = c.
Proof.
  intros fuel n f args m e c Hf Hm H Hr. destruct (run_started n f args m Hf Hm) as (units & u & S).
  rewrite (meaning_direct _ _ f) in H; [|exact Hf|apply Hm]. eapply C26_run_error_partial; eassumption.
Qed.

Lemma machine_unfinished : forall n f args m, st_functions st n = Some f -> about_to_run st f args m ->
  (forall fuel, meaning st (S fuel) n args = None) -> forall k, run k m = None.
Proof.
  intros n f args m Hf Hm H. destruct (run_started n f args m Hf Hm) as (units & u & S).
  eapply C25_diverges_partial; [exact S|]. intros fuel. rewrite <- (meaning_direct _ _ f); [apply H|exact Hf|apply Hm].
Qed.

Lemma machine_stops : forall n f t args m k r, analysed_function st n f t -> about_to_run st f args m -> run k m = Some r ->
  match r with
  | Err x =>
      (ee_code x = x_pop_call /\ exists v, vm_stack (ee_machine x) = [v] /\ wf_value v /\ cv_type v = t
         /\ meaning st (S k) n args = Some (Ok v))
      \/ (exists e, reported e = Some (ee_code x) /\ excusable e /\ meaning st (S k) n args = Some (Err e))
  | Ok _ => False
  | Abort | UB => exists r', meaning st (S k) n args = Some r' /\ ~ defined r'
  end.
Proof.
  intros n f t args m k r [Hf Hd] Hm Hr. destruct (run_started n f args m Hf Hm) as (units & u & S1 & S2 & S3 & S4 & S5 & S6 & S7).
  destruct (entry_stops _ (constants_of (st_values st)) units m S1 S2 S3 n u args S4 S5 S6 S7 k r Hr) as (res & Hc & H).
  pose proof (meaning_direct (S k) n f args Hf (proj2 (proj2 (proj2 (proj2 (proj2 Hm)))))) as E. rewrite Hc in E.
  pose proof (meaning_typed (S k) n f t args (conj Hf Hd) (proj2 (proj2 (proj2 (proj2 (proj2 Hm)))))) as T. rewrite E in *.
  destruct res as [v|e| |].
  - destruct H as (x & -> & Hx & Hv). left. split; [exact Hx|]. exists v. destruct T. auto.
  - assert (exists c, reported e = Some c) as [c Hrep].
    { destruct T as [->|(x & -> & _)]; eexists; reflexivity. }
    destruct (H c Hrep) as (x & -> & Hx). right. exists e. split; [congruence|]. auto.
  - destruct r; cbn in H; try tauto; eauto.
  - destruct r; cbn in H; try tauto; eauto.
Qed.

End Accepted.

(** Code of an expression with a recorded value. *)
Lemma eval_uses_record : forall table constants ca vars e t z, expr_cv e = Some (AV t (Some z)) ->
  eval false table constants ca vars e = ret (CV t z).
Proof. intros table constants ca vars e t z H. destruct e; cbn [expr_cv] in H; subst; reflexivity. Qed.

Lemma passes_accepted : forall consts table items st, passes consts table items st -> accepted_program st.
Proof. intros consts table items st (Hr & rf & fuel & items' & H). eapply program_ok in H; [|exact Hr]. apply H. Qed.
