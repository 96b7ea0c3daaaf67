(** The code generated for analysed functions: its constants are well-formed, and it extends a program that is
    laid out as [CodegenSpec] says. *)
From Coq Require Import ZArith List Bool Lia.
From Verif Require Import Prelude Types Ops OpsSpec OpsProofs OpsFacts AbsOps AbsOpsSpec AbsOpsProofs Text Tables Literals
  LinMap LinMapSpec VM VMSpec Ast AstFacts Codegen SourceSem CodegenSpec CodegenProofs CodegenJumps
  Annotated AnnotatedProofs Analyze Programs AnalyzeFacts.
Import ListNotations.
Open Scope Z_scope.
Local Arguments Z.pow : simpl never.

Lemma noted_wf : forall values table e v, noted values table e -> expr_cv e = Some v -> wf_avalue v.
Proof.
  intros values table e v Hn Hv.
  destruct (eval_recorded values table (fun _ _ => None)) with (e := e) (vars := empty_env) as (a & Ea & Ha & R).
  - intros n f args t _ _ _. exact I.
  - exact Hn.
  - intros p w Hp. discriminate.
  - rewrite Hv in Ea. injection Ea as <-. eapply recorded_wf; eassumption.
Qed.

Section Code.
Variable values : positive -> option avalue.
Variable table : positive -> option func.
Notation info := (info_of table).

(** Constants are well-formed, and calls lead to functions that have code. *)
Definition good_instr (i : instr) : Prop :=
  instr_values i
  /\ match i with ICall a => exists n f, table n = Some f /\ f_address f = Some a | _ => True end.

Lemma good_app : forall a b, Forall good_instr a -> Forall good_instr b -> Forall good_instr (a ++ b).
Proof. intros. apply Forall_app. auto. Qed.

Ltac good :=
  repeat first [assumption | apply good_app | apply Forall_nil
    | apply Forall_cons; [split; [first [assumption | exact I | (split; [exact I|cbn; auto]; fail) | idtac]
                                 |first [exact I|idtac]]|]].

Lemma pushed : forall e cv k code, noted values table e -> expr_cv e = cv ->
  push_known (E := codegen_error) cv k = Ok code -> Forall good_instr code \/ k = Ok code.
Proof.
  intros e cv k code Hn <- H. destruct (expr_cv e) as [[t [z|]]|] eqn:E; cbn in H; try discriminate; [left|auto].
  injection H as <-. pose proof (noted_wf _ _ _ _ Hn E) as [Ht Hz]. good. split; [exact Ht|]. apply Hz. reflexivity.
Qed.

Lemma type_value_denotes : forall E n t c, denotes n t -> @concrete_type_value E n = Ok c -> c = t.
Proof.
  intros E n t c (_ & H & _) Hc. unfold type_of_node in H.
  assert (Hu : @concrete_type_value unit n = Ok c).
  { revert Hc. clear. destruct n as [cv k w cw]. unfold concrete_type_value, concrete_type.
    destruct k, cw; cbn [bind value_of]; try discriminate; try (intros H; injection H as <-; reflexivity).
    unfold concrete_type_Uint, concrete_type_ctor, assert_then.
    repeat (match goal with |- context [if ?b then _ else _] => destruct b end; cbn [bind value_of]; try discriminate);
      intros H; injection H as <-; reflexivity. }
  rewrite Hu in H. cbn in H. injection H as <-. reflexivity.
Qed.

Lemma expr_code_good : forall e code, noted values table e -> gen_expr info e = Ok code -> Forall good_instr code.
Proof.
  induction e as [cv e t IH|cv l c r IHl IHc IHr|cv op l r IHl IHr|cv op e IH|cv name lk st args IH
                 |cv name lk g|cv lit t] using expr_induction; intros code Hn Hg.
  - cbn [gen_expr] in Hg. apply (pushed _ _ _ _ Hn) in Hg; [|reflexivity]. destruct Hg as [Hg|Hg]; [exact Hg|].
    destruct Hn as (Hn & v & t0 & r & _ & Hd & _). binds. injection Hg as <-.
    specialize (IH _ Hn B). rewrite (type_value_denotes _ _ _ _ Hd B0). good. apply Hd.
  - cbn [gen_expr] in Hg. apply (pushed _ _ _ _ Hn) in Hg; [|reflexivity]. destruct Hg as [Hg|Hg]; [exact Hg|].
    destruct Hn as (Hl & Hc & Hr & _). binds. injection Hg as <-.
    specialize (IHc _ Hc B). specialize (IHl _ Hl B0). specialize (IHr _ Hr B1). good.
  - cbn [gen_expr] in Hg. apply (pushed _ _ _ _ Hn) in Hg; [|reflexivity]. destruct Hg as [Hg|Hg]; [exact Hg|].
    destruct Hn as (Hl & Hr & _). apply bind_ok in Hg. destruct Hg as (cl & Bl & Hg). specialize (IHl _ Hl Bl).
    destruct op; binds; specialize (IHr _ Hr B); injection Hg as <-; good; (split; [exact I|cbn; auto]).
  - cbn [gen_expr] in Hg. apply (pushed _ _ _ _ Hn) in Hg; [|reflexivity]. destruct Hg as [Hg|Hg]; [exact Hg|].
    destruct Hn as (Hn & _). binds. injection Hg as <-. specialize (IH _ Hn B). good.
  - destruct cv as [v|]; [|discriminate]. destruct (is_known v) eqn:Ek.
    { cbn [gen_expr] in Hg. rewrite Ek in Hg. destruct st.
      - injection Hg as <-. constructor.
      - destruct (pushed _ _ Abort code Hn eq_refl) as [G|G]; [|exact G|discriminate].
        cbn [push_known expr_cv]. rewrite Ek. exact Hg. }
    rewrite (gen_call_unfold _ _ _ _ _ _ v eq_refl Ek) in Hg. binds. injection Hg as <-.
    destruct Hn as [Hargs Hlk]. apply all_noted_Forall in Hargs.
    apply good_app.
    + destruct lk as [[[] n|p|[]]|]; try contradiction.
      * destruct Hlk as (f & t & Hf & Hfit & _).
        assert (G : forall args i code, Forall (fun e => forall code, noted values table e ->
                   gen_expr info e = Ok code -> Forall good_instr code) args ->
                 Forall (noted values table) args -> Forall2 argument_fits (map expr_cv args) (skipn i (f_params f)) ->
                 gen_args info (Some (LNode DFunction n)) i args = Ok code -> Forall good_instr code).
        { clear - Hf. induction args as [|e args IHa]; intros i code HF Hn Hfit Hg.
          - injection Hg as <-. constructor.
          - inversion HF; subst. inversion Hn; subst. cbn [gen_args] in Hg. cbn [map] in Hfit.
            inversion Hfit as [|? p ? rest (w & t & Ew & Hd & Hc) Hrest Ex Ep]; subst. symmetry in Ep.
            rewrite Ew in Hg. cbn [value_of bind] in Hg. binds. injection Hg as <-.
            assert (a0 = t) as ->.
            { cbn [get_parameter_type] in B0. unfold info_of in B0. rewrite Hf in B0. cbn [fi_parameters] in B0.
              rewrite nth_error_map in B0.
              assert (Hp : nth_error (f_params f) i = Some p).
              { assert (L : (i < length (f_params f))%nat).
                { destruct (Nat.lt_ge_cases i (length (f_params f))); [assumption|].
                  rewrite skipn_all2 in Ep by lia. discriminate. }
                rewrite <- (firstn_skipn i (f_params f)), Ep.
                rewrite nth_error_app2; rewrite firstn_length_le by lia; [|lia].
                rewrite Nat.sub_diag. reflexivity. }
              rewrite Hp in B0. cbn [option_map] in B0. destruct Hd as (Hcv & _). rewrite Hcv in B0. injection B0 as <-. reflexivity. }
            apply good_app; [eauto|]. apply good_app.
            + destruct (ctype_eqb _ _); good. apply Hd.
            + eapply IHa; try eassumption. rewrite skipn_tl, Ep. exact Hrest. }
        eapply (G args O); eassumption.
      * destruct Hlk as (e & v0 & r & -> & _). inversion IH; subst. inversion Hargs; subst.
        cbn [gen_args] in B. binds. injection B as <-. injection B5 as <-. injection B3 as <-. injection B4 as <-.
        apply good_app; [eauto|]. rewrite app_nil_r. destruct (ctype_eqb _ _); good.
    + unfold gen_invoke in B0. binds. injection B0 as <-. apply good_app; [|destruct st; good].
      destruct lk as [[[] n|p|f]|]; try discriminate; try (injection B1 as <-; good; fail).
      unfold info_of in B1. destruct (table n) as [f|] eqn:Ef; [|discriminate]. cbn [fi_analyzed fi_address] in B1.
      destruct (f_cv f); [|discriminate]. destruct (f_address f) eqn:Ea; [|discriminate]. injection B1 as <-.
      good. eauto.
  - cbn [gen_expr] in Hg. apply (pushed _ _ _ _ Hn) in Hg; [|reflexivity]. destruct Hg as [Hg|Hg]; [exact Hg|].
    binds. injection Hg as <-. good.
  - cbn [gen_expr] in Hg. apply (pushed _ _ _ _ Hn) in Hg; [|reflexivity]. destruct Hg as [Hg|Hg]; [exact Hg|].
    discriminate.
Qed.

Lemma resolve_good : forall code before, Forall good_instr code -> Forall good_instr (resolve_jumps before code).
Proof.
  induction code as [|i code IH]; intros before H; [constructor|]. inversion H; subst. cbn [resolve_jumps].
  constructor; [|apply IH; assumption]. destruct i; try assumption; split; exact I.
Qed.

Lemma stmt_code_good : forall rt, wf_type rt -> forall s code, noted_stmt values table rt s ->
  gen_stmt info rt s = Ok code -> Forall good_instr code.
Proof.
  intros rt Hrt.
  induction s as [cv name self t e|cv name self t e|cv e|cv co b IHb|cv co b e IHb IHe|cv co b IHb
                 |cv t e|cv name lk e|cv l IH|e] using stmt_induction; intros code Hn Hg; cbn [gen_stmt] in Hg.
  - binds. injection Hg as <-. constructor.
  - binds. destruct Hn as (ty & _ & _ & _ & _ & He). destruct e as [e|]; [|injection Hg as <-; constructor].
    binds. injection Hg as <-. destruct He as [He _]. pose proof (expr_code_good _ _ He B0). good.
  - binds. injection Hg as <-. constructor.
  - binds. destruct Hn as (Hc & _ & Hb & _). injection Hg as <-. pose proof (expr_code_good _ _ Hc B).
    pose proof (IHb _ Hb B0). good.
  - binds. destruct Hn as (Hc & _ & Hb & He). injection Hg as <-. pose proof (expr_code_good _ _ Hc B).
    pose proof (IHb _ Hb B0). pose proof (IHe _ He B1). good.
  - binds. destruct Hn as (Hc & _ & Hb). injection Hg as <-. pose proof (expr_code_good _ _ Hc B).
    pose proof (resolve_good _ (size a + 1) (IHb _ Hb B0)). good.
  - binds. destruct t; [injection Hg as <-; good|injection Hg as <-; good|].
    unfold assert_then in Hg. destruct (ctype_eqb (av_type a) rt) eqn:Ert; [|discriminate].
    apply value_of_ok in B. subst cv.
    destruct e as [e|].
    + destruct Hn as (He & v & r & Ev & Hc & Hr & E). injection E as ->. destruct (is_known r) eqn:Ek.
      * binds. injection Hg as <-. good.
        destruct (conversion_wf v rt r (noted_wf _ _ _ _ He Ev) Hrt Hc Hr) as [_ [Ht Hz]].
        destruct r as [tr [z|]]; [|discriminate]. injection B as <-. split; [exact Ht|]. apply Hz. reflexivity.
      * binds. injection Hg as <-. injection B as <-. pose proof (expr_code_good _ _ He B0).
        apply good_app; [assumption|]. apply good_app; [|good].
        destruct (ctype_eqb (av_type a1) rt); good.
    + destruct Hn as [-> E]. injection E as ->. cbn in Hg. injection Hg as <-. good.
  - binds. destruct Hn as [He _]. injection Hg as <-. pose proof (expr_code_good _ _ He B0). good.
  - change (gen_stmt info rt (SBlock cv l) = Ok code) in Hg. rewrite gen_block_unfold in Hg.
    revert code Hg. induction l as [|s l IHl]; intros code Hg; cbn [gen_children] in Hg.
    + injection Hg as <-. constructor.
    + inversion IH; subst. destruct Hn as [Hs Hl]. binds. injection Hg as <-. apply good_app; [eauto|].
      apply IHl; assumption.
  - eapply expr_code_good; eassumption.
Qed.

Lemma function_code_good : forall f code, noted_function values table f ->
  gen_function info f = Ok code -> Forall good_instr code.
Proof.
  intros f code [(t & Hd & Hb) _] Hg. unfold gen_function in Hg. binds.
  rewrite (type_value_denotes _ _ _ _ Hd B0) in Hg.
  destruct (f_body f) as [| | | | | | |bcv children|] eqn:Ebody; try discriminate.
  apply bind_ok in Hg. destruct Hg as (body & Bb & Hg).
  pose proof (stmt_code_good t (proj2 (proj2 Hd)) _ _ Hb Bb) as Gb.
  assert (Gs : forall l, Forall good_instr (map (fun p => IStore (Some (p_self p))) l)).
  { induction l; constructor; [split; exact I|assumption]. }
  specialize (Gs (rev (f_params f))).
  destruct (node_type (f_return f)); binds;
    try (injection Hg as <-; good; fail).
  destruct a1; injection Hg as <-; good.
Qed.

End Code.

(** ** Layout *)

(** How analysis changes a function. *)
Definition fstep (f f' : func) : Prop :=
  (f_level f <> unanalyzed -> f_params f' = f_params f /\ f_return f' = f_return f)
  /\ level_index (f_level f) <= level_index (f_level f')
  /\ length (f_params f') = length (f_params f)
  /\ (f_cv f <> None -> f_cv f' = f_cv f)
  /\ (f_address f <> None -> f' = f).

Lemma fstep_refl : forall f, fstep f f.
Proof. intros f. unfold fstep. repeat split; auto; lia. Qed.

Lemma level_positive : forall l, l <> unanalyzed <-> 0 < level_index l.
Proof. intros []; cbn; split; intros H; try lia; try congruence; discriminate. Qed.

Lemma fstep_trans : forall f g h, fstep f g -> fstep g h -> fstep f h.
Proof.
  intros f g h (A1 & A2 & A3 & A4 & A5) (B1 & B2 & B3 & B4 & B5). unfold fstep. repeat split.
  - apply level_positive in H. assert (f_level g <> unanalyzed) by (apply level_positive; lia).
    rewrite (proj1 (B1 H0)). apply A1. apply level_positive. exact H.
  - apply level_positive in H. assert (f_level g <> unanalyzed) by (apply level_positive; lia).
    rewrite (proj2 (B1 H0)). apply A1. apply level_positive. exact H.
  - lia.
  - congruence.
  - intros H. rewrite B4; rewrite A4 by exact H; auto.
  - intros H. pose proof (A5 H) as ->. auto.
Qed.

Record laid_out (prog : list instr) (table : positive -> option func) (units : positive -> option code_unit)
  : Prop := {
  lo_values : Forall instr_values prog;
  lo_calls : forall a, In (ICall a) prog -> 0 <= a < instruction_count prog;
  lo_assembled : assembled prog;
  lo_linked : linked prog table units;
  lo_addressed : forall n u, units n = Some u -> exists f, table n = Some f /\ f_address f = Some (u_start u);
  lo_units : forall n f a, table n = Some f -> f_address f = Some a -> exists u, units n = Some u /\ u_start u = a;
  lo_known : forall n u n' i, units n = Some u -> u_info u n' = Some i -> fi_analyzed i = true ->
    fi_address i <> None -> exists f, table n' = Some f /\ f_level f <> unanalyzed }.

Lemma callees_known_step : forall T T' units lo info, callees_known T units lo info ->
  (forall n' i, info n' = Some i -> fi_analyzed i = true -> fi_address i <> None ->
     exists f, T n' = Some f /\ f_level f <> unanalyzed) ->
  (forall n f, T n = Some f -> exists f', T' n = Some f' /\ fstep f f') ->
  callees_known T' units lo info.
Proof.
  intros T T' units lo info H Hk Hs n' i ad Hi Ha Had. destruct (H n' i ad Hi Ha Had) as [(f & Hf & Hp) Hadr]. split; [|exact Hadr].
  destruct (Hk n' i Hi Ha ltac:(congruence)) as (f0 & Hf0 & Hl). rewrite Hf in Hf0. injection Hf0 as <-.
  destruct (Hs n' f Hf) as (f' & Hf' & S1 & _). exists f'. split; [exact Hf'|]. rewrite (proj1 (S1 Hl)). exact Hp.
Qed.

Lemma laid_out_step : forall prog T T' units, laid_out prog T units ->
  (forall n f, T n = Some f -> exists f', T' n = Some f' /\ fstep f f') ->
  (forall n f', T' n = Some f' -> f_address f' <> None -> exists f, T n = Some f /\ f_address f <> None) ->
  laid_out prog T' units.
Proof.
  intros prog T T' units [L1 L2 L3 L4 L5 L6 L7] Hs Hb.
  assert (Hu : forall n u, units n = Some u -> exists f, T n = Some f /\ T' n = Some f /\ f_address f = Some (u_start u)).
  { intros n u Hn. destruct (L5 n u Hn) as (f & Hf & Ha). exists f. split; [exact Hf|]. split; [|exact Ha].
    destruct (Hs n f Hf) as (f' & Hf' & _ & _ & _ & _ & S5). rewrite S5 in Hf' by congruence. exact Hf'. }
  split; try assumption.
  - intros n u Hn. destruct (L4 n u Hn) as (f & Hf & H1 & H2 & H3 & H4 & H5). exists f.
    destruct (Hu n u Hn) as (f0 & Hf0 & Hf0' & _). rewrite Hf in Hf0. injection Hf0 as <-.
    repeat (split; [assumption|]). eapply callees_known_step; [exact H5|exact (fun n' i => L7 n u n' i Hn)|exact Hs].
  - intros n u Hn. destruct (Hu n u Hn) as (f & _ & Hf & Ha). eauto.
  - intros n f' a Hf' Ha. destruct (Hb n f' Hf') as (f & Hf & Ha'); [congruence|].
    destruct (Hs n f Hf) as (f1 & Hf1 & _ & _ & _ & _ & S5). rewrite S5 in Hf1 by exact Ha'.
    rewrite Hf' in Hf1. injection Hf1 as ->. eauto.
  - intros n u n' i Hn Hi Ha Had. destruct (L7 n u n' i Hn Hi Ha Had) as (f & Hf & Hl).
    destruct (Hs n' f Hf) as (f' & Hf' & _ & S2 & _). exists f'. split; [exact Hf'|].
    apply level_positive. apply level_positive in Hl. lia.
Qed.

Lemma located_extend : forall prog code pc c, located prog pc c -> located (prog ++ code) pc c.
Proof.
  intros prog code pc c (b & a & -> & ->). exists b, (a ++ code). split; [|reflexivity].
  rewrite <- !app_assoc. reflexivity.
Qed.

Lemma located_range : forall prog pc c, located prog pc c -> 0 <= pc /\ pc + instruction_count c <= instruction_count prog.
Proof.
  intros prog pc c (b & a & -> & ->). unfold instruction_count. rewrite !app_length. lia.
Qed.

Lemma code_not_empty : forall info f code, gen_function info f = Ok code -> ends_with_return f -> code <> [].
Proof.
  intros info f code Hg (cv & l & El & H).
  destruct (gen_function_parts _ _ _ Hg) as (bcv & children & rt & body & tail & Eb & Bb & -> & Ht).
  rewrite Eb in El. injection El as <- <-. destruct H as [(l' & c & e & ->)|[Hv Hn]].
  - apply gen_children_app in Bb. destruct Bb as (ca & cb & Ba & Bb & ->).
    cbn [gen_children] in Bb. binds. cbn in B0. injection B0 as <-. rewrite app_nil_r in Bb. injection Bb as <-.
    assert (Hr : exists pre, a = pre ++ [IReturn]).
    { cbn [gen_stmt] in B. binds. unfold assert_then in B. destruct (ctype_eqb _ _); [|discriminate].
      destruct (is_known a0); binds; injection B as <-; [exists [IPush a1]; reflexivity|].
      eexists. rewrite app_assoc. reflexivity. }
    destruct Hr as (pre & ->). intros C. repeat (apply app_eq_nil in C; destruct C as [? C]; try discriminate).
    repeat match goal with H : _ ++ _ = [] |- _ => apply app_eq_nil in H; destruct H end. discriminate.
  - rewrite Hv in Ht. destruct Ht as [[-> Hr]|[-> _]].
    + exfalso. rewrite (has_return_none codegen_error (rev children)) in Hr; [discriminate|].
      intros s Hi. apply Hn. apply in_rev. exact Hi.
    + intros C. apply app_eq_nil in C. destruct C as [_ C]. apply app_eq_nil in C. destruct C. discriminate.
Qed.

(** The code of one more function. *)
Definition with_unit (units : positive -> option code_unit) (n : positive) (u : code_unit) :=
  fun m => if Pos.eqb m n then Some u else units m.

Lemma laid_out_extend : forall values prog T T' units n f f' code, laid_out prog T units ->
  T n = Some f -> f_address f = None -> noted_function values T f -> shaped (f_body f) = true -> ends_with_return f ->
  gen_function (info_of T) f = Ok code ->
  (forall m g, T m = Some g -> f_cv g <> None -> f_level g <> unanalyzed) ->
  f_params f' = f_params f -> f_return f' = f_return f -> f_body f' = f_body f ->
  f_address f' = Some (instruction_count prog) -> level_index (f_level f) <= level_index (f_level f') ->
  (forall m, T' m = if Pos.eqb m n then Some f' else T m) ->
  laid_out (prog ++ code) T' (with_unit units n (CodeUnit (info_of T) (instruction_count prog) code)).
Proof.
  intros values prog T T' units n f f' code [L1 L2 L3 L4 L5 L6 L7] Hf Hna Hnoted Hsh He Hg Hcv Hp Hr Hb Ha Hl HT.
  pose proof (function_code_good _ _ _ _ Hnoted Hg) as G. rewrite Forall_forall in G.
  assert (Hu : units n = None).
  { destruct (units n) as [u|] eqn:E; [|reflexivity]. destruct (L5 n u E) as (f0 & Hf0 & Ha0). congruence. }
  assert (Hcount : instruction_count (prog ++ code) = instruction_count prog + instruction_count code).
  { unfold instruction_count. rewrite app_length. lia. }
  assert (Hnn : 0 <= instruction_count code) by (unfold instruction_count; lia).
  assert (Hrange : forall m u, units m = Some u -> 0 <= u_start u /\ u_start u + instruction_count (u_code u) <= instruction_count prog).
  { intros m u Hm. destruct (L4 m u Hm) as (_ & _ & _ & _ & _ & Hloc & _). eapply located_range. exact Hloc. }
  assert (Hpos : forall m u, units m = Some u -> 0 < instruction_count (u_code u)).
  { intros m u Hm. destruct (L4 m u Hm) as (_ & _ & _ & _ & Hne & _). unfold instruction_count.
    destruct (u_code u); [congruence|]. cbn [length]. lia. }
  assert (Hstep : forall m g, T m = Some g -> m <> n -> T' m = Some g).
  { intros m g Hm Hne. rewrite HT. destruct (Pos.eqb_spec m n); [contradiction|exact Hm]. }
  assert (HTn : T' n = Some f') by (rewrite HT, Pos.eqb_refl; reflexivity).
  (* what is known about callees stays true *)
  assert (K : forall us lo info, callees_known T us lo info ->
     (forall m u, us m = Some u -> with_unit units n (CodeUnit (info_of T) (instruction_count prog) code) m = Some u) ->
     callees_known T' (with_unit units n (CodeUnit (info_of T) (instruction_count prog) code)) lo info).
  { intros us lo info H Hus n' i ad Hi Han Had. destruct (H n' i ad Hi Han Had) as [(g & Hg' & Hpar) (u' & Hu' & E)]. split.
    - destruct (Pos.eq_dec n' n) as [->|Hne].
      + exists f'. split; [exact HTn|]. rewrite Hp. rewrite Hf in Hg'. injection Hg' as <-. exact Hpar.
      + exists g. split; [apply Hstep; assumption|exact Hpar].
    - exists u'. split; [apply Hus; exact Hu'|exact E]. }
  assert (Hold : forall m u, units m = Some u -> with_unit units n (CodeUnit (info_of T) (instruction_count prog) code) m = Some u).
  { intros m u Hm. unfold with_unit. destruct (Pos.eqb_spec m n) as [->|]; [congruence|exact Hm]. }
  split.
  - apply Forall_app. split; [exact L1|]. apply Forall_forall. intros i Hi. apply G. exact Hi.
  - intros a Hi. rewrite Hcount. apply in_app_or in Hi. destruct Hi as [Hi|Hi]; [specialize (L2 a Hi); lia|].
    destruct (G _ Hi) as [_ (m & g & Hm & Hma)]. destruct (L6 m g a Hm Hma) as (u & Hmu & <-).
    specialize (Hrange m u Hmu). specialize (Hpos m u Hmu). lia.
  - destruct L3 as (parts & -> & Hparts). exists (parts ++ [code]). split.
    + rewrite concat_app. cbn [concat]. rewrite app_nil_r. reflexivity.
    + intros c Hc. apply in_app_or in Hc. destruct Hc as [Hc|[<-|[]]]; [auto|]. eauto.
  - intros m u Hm. unfold with_unit in Hm. destruct (Pos.eqb_spec m n) as [->|Hne].
    + injection Hm as <-. exists f'. cbn [u_info u_start u_code]. split; [exact HTn|]. rewrite Hb. split; [exact Hsh|].
      split; [unfold gen_function in *; rewrite Hp, Hr, Hb; exact Hg|].
      split; [eapply code_not_empty; eassumption|]. split.
      * exists prog, []. rewrite app_nil_r. split; reflexivity.
      * apply (K units); [|exact Hold]. intros n' i a Hi Han Hga. unfold info_of in Hi.
        destruct (T n') as [g|] eqn:Eg; [|discriminate]. injection Hi as <-. cbn [fi_parameters fi_address] in *. split.
        -- exists g. auto.
        -- destruct (L6 n' g a Eg Hga) as (u' & Hu' & <-). exists u'. split; [exact Hu'|].
           split; [reflexivity|]. apply (Hrange n' u' Hu').
    + destruct (L4 m u Hm) as (g & Hm' & H1 & H2 & H3 & H4 & H5). exists g.
      split; [apply Hstep; assumption|]. split; [exact H1|]. split; [exact H2|]. split; [exact H3|].
      split; [apply located_extend; exact H4|]. apply (K units); [exact H5|exact Hold].
  - intros m u Hm. unfold with_unit in Hm. destruct (Pos.eqb_spec m n) as [->|Hne].
    + injection Hm as <-. exists f'. auto.
    + destruct (L5 m u Hm) as (g & Hg' & Hga). exists g. split; [apply Hstep; assumption|exact Hga].
  - intros m g a Hm Hga. rewrite HT in Hm. unfold with_unit. destruct (Pos.eqb_spec m n) as [->|Hne].
    + injection Hm as <-. eexists. split; [reflexivity|]. cbn. congruence.
    + eauto.
  - intros m u n' i Hm Hi Han Had.
    assert (Hk : exists g, T n' = Some g /\ f_level g <> unanalyzed).
    { unfold with_unit in Hm. destruct (Pos.eqb_spec m n) as [->|Hne]; [|eauto]. injection Hm as <-. cbn [u_info] in Hi.
      unfold info_of in Hi. destruct (T n') as [g|] eqn:Eg; [|discriminate]. injection Hi as <-. cbn [fi_analyzed] in Han.
      exists g. split; [reflexivity|]. apply (Hcv n' g Eg). destruct (f_cv g); [discriminate|discriminate]. }
    destruct Hk as (g & Hg' & Hgl). destruct (Pos.eq_dec n' n) as [->|Hne].
    + exists f'. split; [exact HTn|]. rewrite Hf in Hg'. injection Hg' as <-. apply level_positive.
      apply level_positive in Hgl. lia.
    + exists g. split; [apply Hstep; assumption|exact Hgl].
Qed.
