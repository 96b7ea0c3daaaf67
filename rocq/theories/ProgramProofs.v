(** Analysis of functions and whole programs: what it records is what the source means. *)
From Coq Require Import ZArith List Bool Lia.
From Verif Require Import Prelude Types Ops OpsSpec OpsProofs AbsOps AbsOpsSpec AbsOpsProofs Text Tables Literals LinMap LinMapSpec
  VM Ast AstFacts Codegen CodegenSpec SourceSem Annotated AnnotatedProofs Analyze Programs AnalyzeFacts AnalyzeCode AnalyzeProofs
  AcceptedSpec AcceptedProofs CodegenProofs ProgramSem ProgramMono ProgramLink ProgramExprs ProgramCalls ProgramStmts.
Import ListNotations.
Open Scope Z_scope.
Local Arguments Z.pow : simpl never.

Section Functions.
Variable consts : positive -> bool.
Variable ids : positive -> list positive.
Hypothesis ids_disjoint : forall n m p, In p (ids n) -> In p (ids m) -> n = m.
Variable table : positive -> option func.
Variable decls : positive -> option declaration.
Variable names : list positive.
Hypothesis Hnames : forall n, table n <> None -> In n names.
Hypothesis Hdecls : forall n f, table n = Some f ->
  (forall p, In p (f_params f) -> decls (p_self p) = Some (Decl_Parameter (p_type p))) /\ declared decls (f_body f).
Variable fin : state.
Hypothesis Hdirect : direct_program fin.
Hypothesis Hsize : instruction_count (vm_instructions (st_vm fin)) < 2 ^ 62.

Notation evt := (evt table decls).
Notation Inv := (Inv consts ids).
Notation step := (step ids).
Notation J := (J table decls).
Notation toward := (toward fin).
Notation W := (W consts ids table decls fin).

(** What is recorded about variables and constants. *)
Definition VJ (st : state) : Prop :=
  (forall p v, st_values st p = Some v -> evt (fun K => static_type K p = ret (av_type v)))
  /\ (forall p v c, st_values st p = Some v -> shown v = ret c -> evt (fun K => static_value K p = ret c)).

Lemma J_VJ : forall st, J st -> VJ st.
Proof. intros st [A B _]. split; assumption. Qed.

Lemma J_change : forall st st' n f0 f f', J st -> table n = Some f0 -> st_functions st n = Some f ->
  f_level f <> for_constant_evaluation ->
  (forall p, st_functions st' p = if Pos.eqb p n then Some f' else st_functions st p) ->
  (forall p v, st_values st p = Some v -> st_values st' p = Some v) -> VJ st' ->
  linked_function table decls st' n f0 f' -> J st'.
Proof.
  intros st st' n f0 f f' HJ Hf0 Hf Hl HT Hv [V1 V2] HL. split; [exact V1|exact V2|].
  intros m g Hm. rewrite HT in Hm. destruct (Pos.eqb_spec m n) as [->|Hne].
  - injection Hm as <-. exists f0. auto.
  - destruct (j_function _ _ _ HJ m g Hm) as (g0 & Hg0 & P & L). exists g0. split; [exact Hg0|]. split; [exact P|].
    destruct (f_level g); try exact L. destruct L as (L1 & L2 & L3). split; [exact L1|]. split; [exact L2|].
    eapply noted_function_mono; [exact Hv| |exact L3]. intros k h t Hk _. exists h. split; [|auto].
    apply restrict_some in Hk as [Hk E]. apply restrict_some. split; [|exact E]. rewrite HT.
    destruct (Pos.eqb_spec k n) as [->|]; [congruence|exact Hk].
Qed.

Section Callee.
Variable callee : positive -> level -> M unit.
Variable run_fuel : nat.
Hypothesis Hcallee : callee_ok consts ids callee.
Hypothesis Hfound : forall n lv st u st', W st -> lv <> unanalyzed -> (lv = shallow \/ ~ In n (st_stack st)) ->
  callee n lv st = Some (Ok (u, st')) -> toward st' -> J st'.

(** Types without calls. *)
Lemma type_free_found : forall t st t' st', fresh_type consts t = true -> call_free_type t = true ->
  values_ok consts (st_values st) -> VJ st ->
  an_type callee run_fuel t st = Some (Ok (t', st')) ->
  st' = st /\ exists c, denotes t' c /\ evt (fun K => type_meant K t = ret c).
Proof.
  intros t st t' st' Hf Hc HI HV H.
  destruct (type_call_free _ _ _ _ _ _ _ Hf Hc HI H) as (-> & _). split; [reflexivity|].
  set (I := fun st => values_ok consts (st_values st) /\ VJ st).
  assert (G : (forall e, good_expr consts callee run_fuel I (fun a b => b = a) False st_functions (fun _ => True) e)
    /\ (forall t, good_type consts callee run_fuel I (fun a b => b = a) False t)).
  { apply fresh_good; auto.
    - intros s [A _]. exact A.
    - congruence.
    - intros a b e _ ->. auto.
    - intros []. }
  destruct (exprs_found table decls consts callee run_fuel I (fun a b => b = a) False st_functions (fun _ => True) G)
    with (T := fun _ : state => True) as [_ F]; auto.
  - congruence.
  - intros [].
  - intros s p v [_ [A _]] _. apply A.
  - intros s p v c [_ [_ A]] _. apply A.
  - intros [].
  - exact (F t Hf (or_introl Hc) st t' st (conj HI HV) H Logic.I).
Qed.

Lemma params_found : forall l st l' st',
  (forall p, In p l -> fresh_type consts (p_type p) = true /\ call_free_type (p_type p) = true /\ consts (p_self p) = false) ->
  (forall p, In p l -> decls (p_self p) = Some (Decl_Parameter (p_type p))) ->
  values_ok consts (st_values st) -> VJ st ->
  an_parameters callee run_fuel l st = Some (Ok (l', st')) ->
  VJ st' /\ exists ts, Forall2 denotes (map p_type l') ts /\ evt (fun K => types_meant K (map p_type l) = ret ts).
Proof.
  induction l as [|p l IH]; intros st l' st' Hl Hd HI HV H.
  - cbn [an_parameters] in H. minv H. subst. split; [exact HV|]. exists []. split; [constructor|]. apply evt_true. reflexivity.
  - cbn [an_parameters] in H. minv H. destruct (Hl p (or_introl eq_refl)) as (F1 & F2 & F3).
    destruct (type_free_found _ _ _ _ F1 F2 HI HV E) as (-> & c & D & HM). minv H. minv H. minv H. subst.
    rewrite (proj1 D) in E0. unfold set_value in E0. injection E0 as _ <-.
    match type of E1 with _ ?s = _ => set (st1 := s) in * end.
    assert (V1 : values_ok consts (st_values st1)).
    { intros q v. cbn. destruct (Pos.eqb_spec q (p_self p)) as [->|]; [|apply HI]. intros [= <-].
      split; [apply unknown_wf; apply D|reflexivity]. }
    assert (V2 : VJ st1).
    { split.
      - intros q v. cbn. destruct (Pos.eqb_spec q (p_self p)) as [->|]; [|apply HV]. intros [= <-]. cbn [av_type].
        apply evt_type. apply (evt_map _ _ _ _ HM). intros K A. unfold declared_type.
        rewrite (Hd p (or_introl eq_refl)). exact A.
      - intros q v x. cbn. destruct (Pos.eqb_spec q (p_self p)) as [->|]; [|apply HV]. intros [= <-] C. discriminate. }
    destruct (IH _ _ _ (fun q Hq => Hl q (or_intror Hq)) (fun q Hq => Hd q (or_intror Hq)) V1 V2 E1) as (V3 & ts & A1 & A2).
    split; [exact V3|]. exists (c :: ts). split; [cbn [map p_type]; constructor; assumption|].
    apply (evt_map2 _ _ _ _ _ HM A2). intros K A B. cbn [map types_meant]. rewrite A. cbn [rbind ret]. rewrite B. reflexivity.
Qed.

Lemma VJ_same : forall st st', (forall p, st_values st' p = st_values st p) -> VJ st -> VJ st'.
Proof. intros st st' E [A B]. split; [intros p v|intros p v c]; rewrite E; eauto. Qed.

Lemma enter_found : forall n f st params s1 rn s f0 u s2, W st -> st_functions st n = Some f ->
  ~ In n (st_stack st) -> f_level f <> for_constant_evaluation ->
  an_parameters callee run_fuel (f_params f) st = Some (Ok (params, s1)) ->
  an_type callee run_fuel (f_return f) s1 = Some (Ok (rn, s)) ->
  st_functions (entered n params rn s) n = Some f0 ->
  (if level_leb shallow (f_level f0) then mret tt else set_function n (with_level shallow)) (entered n params rn s)
    = Some (Ok (u, s2)) ->
  W s2 /\ forall f1, st_functions s2 n = Some f1 ->
    (f_level f = unanalyzed /\ f_level f1 = shallow /\ f_body f1 = f_body f) \/ f1 = f.
Proof.
  intros n f st params s1 rn s f0 u s2 HW Hf Hns Hl Epar Eret Hf0 H.
  destruct (enter_ok _ _ ids_disjoint _ _ n f st params s1 rn s f0 u s2 (proj1 HW) Hf Hns Hl Epar Eret Hf0 H)
    as (f1' & I2 & M2 & K2 & Hf1 & _).
  pose proof (toward_moved consts ids fin _ _ _ _ (proj1 HW) M2) as Htow.
  destruct HW as [HI HJ].
  pose proof (inv_static _ _ _ HI n f Hf) as Hsta. pose proof (inv_status _ _ _ HI n f Hf) as Hst.
  pose proof (sta_distinct _ _ _ Hsta) as Hnd. rewrite <- (sta_ids _ _ _ Hsta) in Hnd. unfold declared_in in Hnd.
  destruct (distinct_app _ _ Hnd) as (D1 & D2 & D3).
  unfold status in Hst. destruct (f_level f) eqn:El; [| | |congruence].
  - (* first analysis *)
    destruct Hst as ((R1 & R2) & HP & Hfb & Hcv & Hna & _ & Hnone).
    destruct (params_fresh_ok _ _ _ _ _ _ _ HP D1 (inv_values _ _ _ HI) Epar) as (P1 & P2 & P3 & P4 & P5 & P6 & P7).
    destruct (type_call_free _ _ _ _ _ _ _ R1 R2 P4 Eret) as (-> & Nt & c & Hd).
    cbn [entered st_functions] in Hf0. rewrite Pos.eqb_refl, P1, Hf in Hf0. cbn [option_map] in Hf0. injection Hf0 as <-.
    change (f_level (with_signature params rn f)) with (f_level f) in H. rewrite El in H. change (level_leb shallow unanalyzed) with false in H.
    cbv iota in H. unfold set_function in H. injection H as _ <-. set (f1 := with_level shallow (with_signature params rn f)). set (s2 := State _ _ _ _) in *.
    assert (HT : forall p, st_functions s2 p = if Pos.eqb p n then Some f1 else st_functions st p).
    { intros p. cbn. rewrite P1. destruct (Pos.eqb_spec p n) as [->|]; [|reflexivity]. rewrite Hf. reflexivity. }
    assert (Hv : forall p v, st_values st p = Some v -> st_values s2 p = Some v).
    { apply (mv_values _ _ _ _ _ M2). }
    split.
    2:{ intros g. rewrite HT, Pos.eqb_refl. intros [= <-]. left. auto. }
    split; [exact I2|]. intros HT2. specialize (HJ (Htow HT2)).
    destruct (j_function _ _ _ HJ n f Hf) as (f0 & Hf0 & _ & L). rewrite El in L. subst f0.
    destruct (params_found _ _ _ _ HP (proj1 (Hdecls n f Hf0)) (inv_values _ _ _ HI) (J_VJ _ HJ) Epar) as (V1 & ts & A1 & A2).
    destruct (type_free_found _ _ _ _ R1 R2 P4 V1 Eret) as (_ & c' & Hd' & A3).
    apply (J_change st s2 n f f f1 HJ Hf0 Hf); [congruence|exact HT|exact Hv| |].
    + eapply VJ_same; [|exact V1]. reflexivity.
    + split; [cbn; exact P6|]. cbn [f1 with_level f_level]. split; [|reflexivity].
      assert (G : evt (fun K => static_signature K n = ret (ts, c'))).
      { apply evt_signature. apply (evt_map2 _ _ _ _ _ A2 A3). intros K B C. unfold signature. rewrite Hf0, B. cbn [rbind ret].
        rewrite C. reflexivity. }
      apply (evt_map _ _ _ _ G). intros K B. exists ts, c'. split; [exact B|]. cbn. auto.
  - destruct Hst as (((c & Hd) & HP) & Hfb & Hna & Hcv & Hfr).
    destruct (params_again_ok _ _ _ _ _ _ HP Epar) as (-> & P1 & P2 & P3 & P4).
    destruct (denotes_again _ _ _ _ _ _ _ Hd Eret) as [-> ->].
    cbn [entered st_functions] in Hf0. rewrite Pos.eqb_refl, P1, Hf in Hf0. cbn [option_map] in Hf0. injection Hf0 as <-.
    change (f_level (with_signature (f_params f) (f_return f) f)) with (f_level f) in H. rewrite El in H.
    change (level_leb shallow shallow) with true in H. cbv iota in H. minv H. subst.
    assert (Ef : with_signature (f_params f) (f_return f) f = f) by (destruct f; reflexivity).
    set (s2 := entered _ _ _ _) in *.
    assert (HT : forall p, st_functions s2 p = if Pos.eqb p n then Some f else st_functions st p).
    { intros p. cbn. rewrite P1. destruct (Pos.eqb_spec p n) as [->|]; [|reflexivity]. rewrite Hf. cbn [option_map]. congruence. }
    split; [|intros g; rewrite HT, Pos.eqb_refl; intros [= <-]; auto].
    split; [exact I2|]. intros HT2. specialize (HJ (Htow HT2)).
    destruct (j_function _ _ _ HJ n f Hf) as (f0 & Hf0 & L).
    apply (J_change st s2 n f0 f f HJ Hf0 Hf); [congruence|exact HT|apply (mv_values _ _ _ _ _ M2)| |].
    + eapply VJ_same; [|apply J_VJ; exact HJ]. exact P4.
    + unfold linked_function in *. rewrite El in *. exact L.
  - destruct Hst as ((Hcv & ((c & Hd & Hbody) & HP) & Hmk & Hlp) & Hna).
    destruct (params_again_ok _ _ _ _ _ _ HP Epar) as (-> & P1 & P2 & P3 & P4).
    destruct (denotes_again _ _ _ _ _ _ _ Hd Eret) as [-> ->].
    cbn [entered st_functions] in Hf0. rewrite Pos.eqb_refl, P1, Hf in Hf0. cbn [option_map] in Hf0. injection Hf0 as <-.
    change (f_level (with_signature (f_params f) (f_return f) f)) with (f_level f) in H. rewrite El in H.
    change (level_leb shallow full) with true in H. cbv iota in H. minv H. subst.
    assert (Ef : with_signature (f_params f) (f_return f) f = f) by (destruct f; reflexivity).
    set (s2 := entered _ _ _ _) in *.
    assert (HT : forall p, st_functions s2 p = if Pos.eqb p n then Some f else st_functions st p).
    { intros p. cbn. rewrite P1. destruct (Pos.eqb_spec p n) as [->|]; [|reflexivity]. rewrite Hf. cbn [option_map]. congruence. }
    split; [|intros g; rewrite HT, Pos.eqb_refl; intros [= <-]; auto].
    split; [exact I2|]. intros HT2. specialize (HJ (Htow HT2)).
    destruct (j_function _ _ _ HJ n f Hf) as (f0 & Hf0 & L).
    apply (J_change st s2 n f0 f f HJ Hf0 Hf); [congruence|exact HT|apply (mv_values _ _ _ _ _ M2)| |].
    + eapply VJ_same; [|apply J_VJ; exact HJ]. exact P4.
    + unfold linked_function in *. rewrite El in *. exact L.
Qed.

(** The body, from the source or from an earlier analysis. *)
Lemma body_found : forall n f1 S st lv body st', W st -> st_stack st = n :: S ->
  st_functions st n = Some f1 -> f_level f1 = shallow \/ (f_level f1 = full /\ lv = for_constant_evaluation) ->
  (f_level f1 = shallow -> free_for ids st (declares (f_body f1))) -> moved ids S [] st st' ->
  an_stmt callee run_fuel (Some (f_return f1)) lv false (f_body f1) st = Some (Ok (body, st')) ->
  toward st' -> J st'
  /\ (exists f0, table n = Some f0 /\ map p_self (f_params f1) = map p_self (f_params f0)
        /\ evt (fun K => signed K n f1) /\ evt (fun K => annot_stmt K (f_body f0) body))
  /\ (lv = for_constant_evaluation -> noted_exprs (st_values st') (restrict st') body).
Proof.
  intros n f1 S st lv body st' HW Hstack Hf1 Hl Hfree HM H HT'.
  destruct HW as [HI HJ]. pose proof (inv_static _ _ _ HI n f1 Hf1) as Hsta. pose proof (inv_status _ _ _ HI n f1 Hf1) as Hst. unfold status in Hst.
  pose proof (toward_moved consts ids fin _ _ _ _ HI HM HT') as HT.
  destruct (j_function _ _ _ (HJ HT) n f1 Hf1) as (f0 & Hf0 & P & L).
  destruct Hl as [Hl|[Hl ->]]; rewrite Hl in Hst, L.
  - destruct Hst as (((c & Hd) & HP) & Hfb & Hna & Hcv & _). destruct L as [L1 L2].
    assert (Hrn : forall m, Some (f_return f1) = Some m -> denotes m c) by (intros m [= <-]; exact Hd).
    pose proof (proj2 (Hdecls n f0 Hf0)) as Hdec. rewrite <- L2 in Hdec.
    destruct (stmt_fresh_found _ _ _ _ _ Hnames _ Hdirect Hsize _ _ Hcallee Hfound (Some (f_return f1)) c lv Hrn
      _ _ _ _ _ Hfb (sta_shaped _ _ _ Hsta) (Hfree Hl) (conj HI HJ) Hdec H) as [B1 B2 B3].
    split; [apply B1; exact HT'|]. split; [|exact B3]. exists f0. rewrite <- L2. auto.
  - destruct Hst as ((Hcv & ((c & Hd & Hbody) & HP) & Hmk & Hlp) & Hna).
    assert (Hrn : forall m, Some (f_return f1) = Some m -> denotes m c) by (intros m [= <-]; exact Hd).
    destruct (stmt_again_ok _ _ _ _ Hcallee (Some (f_return f1)) c _ Hrn _ _ _ _ _ Hbody Hmk HI H) as (_ & _ & ->).
    destruct (stmt_again_found _ _ _ _ _ _ _ Hcallee Hfound (Some (f_return f1)) c Hrn _ _ _ _ _ Hbody Hmk (conj HI HJ) H) as (W' & N).
    split; [apply W'; exact HT'|]. split; [|auto]. exists f0. destruct L. auto.
Qed.

Lemma function_body_found : forall n lv st u st', W st -> lv <> unanalyzed -> (lv = shallow \/ ~ In n (st_stack st)) ->
  an_function_body callee run_fuel n lv st = Some (Ok (u, st')) -> toward st' -> J st'.
Proof.
  intros n lv st u st' HW Hlv Hor H HTow.
  destruct (function_body_ok _ _ ids_disjoint _ _ Hcallee n lv st u st' (proj1 HW) Hlv Hor H) as (I' & _).
  pose proof HW as [HI HJ]. unfold an_function_body in H. minv H. minv E. subst. rename a into f. rename H0 into Hf.
  minv H. minv E. subst. clear H0.
  destruct (level_leb lv (f_level f)) eqn:Ell.
  { minv H. subst. auto. }
  pose proof (inv_static _ _ _ HI n f Hf) as Hsta. pose proof (inv_status _ _ _ HI n f Hf) as Hst.
  rewrite (sta_generic _ _ _ Hsta) in H. rewrite (sta_requires _ _ _ Hsta) in H.
  assert (Hns : ~ In n (st_stack st)).
  { destruct Hor as [->|Hns]; [|exact Hns]. unfold status in Hst. unfold level_leb in Ell. destruct (f_level f); try discriminate.
    apply Hst. }
  assert (Hnc : f_level f <> for_constant_evaluation).
  { intros C. rewrite C in Ell. unfold level_leb in Ell. destruct lv; discriminate. }
  minv H. rename a0 into params. rename s into s1. rename E into Epar. minv H. rename a0 into rn. rename E into Eret.
  minv H. unfold set_function in E. injection E as _ <-. minv H. unfold push_function in E. injection E as _ <-.
  minv H. minv E. subst. cbn [st_functions st_values st_vm st_stack] in H.
  change (State _ _ _ _) with (entered n params rn s) in H.
  minv H. apply get_function_ok in E as [Hf0 ->]. rename a2 into f0.
  minv H. rename s0 into s2.
  destruct (enter_ok _ _ ids_disjoint _ _ n f st params s1 rn s f0 a2 s2 HI Hf Hns Hnc Epar Eret Hf0 E)
    as (f1 & I2 & M2 & K2 & Hf1 & Ha1 & Hrn & Hl1 & Hli & Hfree).
  destruct (enter_found n f st params s1 rn s f0 a2 s2 HW Hf Hns Hnc Epar Eret Hf0 E) as (W2 & _).
  clear Epar Eret Hf0 E f0 s1 s. set (S := st_stack st) in *.
  destruct (level_leb full lv) eqn:Efull.
  2:{ (* just the signature *)
    assert (lv = shallow) as ->.
    { unfold level_leb in Efull. destruct lv; try discriminate; congruence. }
    minv H. minv E. subst. change (level_leb for_constant_evaluation shallow) with false in H. cbv iota in H.
    minv H. minv E. subst. minv H. unfold set_function in E. injection E as _ <-. unfold pop_function in H. injection H as _ <-.
    cbn [st_functions st_values st_vm st_stack] in *. rewrite K2 in *. cbn [tl] in *. set (f' := with_result (type_cv rn) shallow f1) in *. set (st' := State _ _ _ _) in *.
    assert (Hl1' : f_level f1 = shallow).
    { destruct Hl1 as [E|E]; [exact E|]. rewrite E in Hli. unfold level_leb in Ell. apply Z.leb_gt in Ell. cbn in Hli, Ell. lia. }
    assert (HT : forall p, st_functions st' p = if Pos.eqb p n then Some f' else st_functions s2 p).
    { intros p. cbn. destruct (Pos.eqb_spec p n) as [->|]; [|reflexivity]. rewrite Hf1. reflexivity. }
    assert (HT2 : toward s2).
    { apply (toward_back fin s2 st'); [|cbn; lia|exact HTow]. intros m g Hm. apply restrict_some in Hm as [Hm El].
      apply restrict_some. split; [|exact El]. rewrite HT. destruct (Pos.eqb_spec m n) as [->|]; [congruence|exact Hm]. }
    pose proof (proj2 W2 HT2) as J2. destruct (j_function _ _ _ J2 n f1 Hf1) as (g0 & Hg0 & P & L). rewrite Hl1' in L.
    apply (J_change s2 st' n g0 f1 f' J2 Hg0 Hf1); [congruence|exact HT|auto| |].
    - eapply VJ_same; [|apply J_VJ; exact J2]. reflexivity.
    - split; [exact P|]. cbn [f' with_result f_level]. exact L. }
  (* the body *)
  minv H. rename s into s3. minv E. apply get_function_ok in E0 as [E1 ->]. rewrite Hf1 in E1. injection E1 as <-.
  minv E. rename a4 into body. rename s into s4. rename E0 into Ebody.
  assert (Hlv1 : f_level f1 = shallow \/ (f_level f1 = full /\ lv = for_constant_evaluation)).
  { destruct Hl1 as [El|El]; [auto|]. right. split; [exact El|]. rewrite El in Hli. unfold level_leb in Ell. apply Z.leb_gt in Ell.
    pose proof (proj1 (level_positive lv) Hlv). cbn in Hli. destruct lv; cbn in *; try lia. reflexivity. }
  destruct (body_ok_step _ _ _ _ Hcallee n f1 S s2 lv body s4 I2 K2 Hns Hf1 Hl1 Hfree Ebody)
    as (I4 & M4 & K4 & Hf4 & Hnoted & Hpar & Hmk & Hlp & Hsh & Hde & Hck & Hbl).
  pose proof (body_found n f1 S s2 lv body s4 W2 K2 Hf1 Hlv1 Hfree M4 Ebody) as HB.
  unfold set_function in E. injection E as _ <-.
  assert (Hcore : forall st' f', (forall p, st_functions st' p = if Pos.eqb p n then Some f' else st_functions s4 p) ->
    st_values st' = st_values s4 ->
    (length (vm_instructions (st_vm s4)) <= length (vm_instructions (st_vm st')))%nat -> toward st' ->
    f_params f' = f_params f1 -> f_return f' = f_return f1 -> f_body f' = body -> level_leb full lv = true -> f_level f' = lv -> J st').
  { intros st2 f' HT Hv Hlen Htow Ep Er Eb Elf El.
    assert (HK : keeps s4 st2).
    { intros m g Hm. apply restrict_some in Hm as [Hm Eg]. apply restrict_some. split; [|exact Eg]. rewrite HT.
      destruct (Pos.eqb_spec m n) as [->|]; [|exact Hm]. destruct Hl1; congruence. }
    pose proof (toward_back fin s4 st2 HK Hlen Htow) as HT4. destruct (HB HT4) as (J4 & (g0 & Hg0 & P & HS & HA) & HN).
    apply (J_change s4 st2 n g0 f1 f' J4 Hg0 Hf4); [destruct Hl1; congruence|exact HT|rewrite Hv; auto| |].
    - eapply VJ_same; [|apply J_VJ; exact J4]. intros p. rewrite Hv. reflexivity.
    - split; [rewrite Ep; exact P|].
      assert (HS' : evt (fun K => signed K n f')).
      { apply (evt_map _ _ _ _ HS). intros K (ts & c & A & B & C). exists ts, c. rewrite Ep, Er. auto. }
      rewrite El. destruct lv; try discriminate; rewrite Eb; auto. split; [exact HS'|]. split; [exact HA|].
      split.
      + destruct Hnoted as (t & Hd & Hb). exists t. rewrite Er, Eb, Hv. split; [exact Hd|].
        eapply noted_stmt_mono; [| |eapply noted_stmt_exprs; [exact Hb|apply HN; reflexivity]]; [auto|].
        apply restrict_signature. exact HK.
      + rewrite Ep, Hv. exact Hpar. }
  destruct (level_leb for_constant_evaluation lv) eqn:Econ.
  - assert (lv = for_constant_evaluation) as -> by (unfold level_leb in Econ; destruct lv; try discriminate; reflexivity).
    minv H. minv E. apply get_function_ok in E0 as [E1 ->]. cbn [st_functions] in E1. rewrite Pos.eqb_refl, Hf4 in E1. cbn [option_map] in E1.
    injection E1 as <-. minv E. minv E0. subst. minv E. minv E0. subst. cbn [st_functions st_vm] in *. unfold add_instructions in E.
    minv E. apply set_vm_ok in E0. subst. cbn [st_functions st_values st_vm st_stack] in *. unfold set_function in E. injection E as _ <-.
    minv H. unfold set_function in E. injection E as _ <-. unfold pop_function in H. injection H as _ <-.
    cbn [st_functions st_values st_vm st_stack] in *.
    eapply (Hcore _ (with_result (type_cv rn) for_constant_evaluation (with_address (instruction_count (vm_instructions (st_vm s4))) (with_body body f1)))); [|reflexivity| |exact HTow| | | | |]; [| |reflexivity..].
    + intros p. cbn. destruct (Pos.eqb_spec p n) as [->|]; [|reflexivity]. rewrite Hf4. reflexivity.
    + cbn [st_vm vm_instructions]. rewrite app_length. lia.
  - assert (lv = full) as ->.
    { unfold level_leb in Econ, Efull. destruct lv; try discriminate; reflexivity. }
    minv H. minv E. subst. minv H. unfold set_function in E. injection E as _ <-. unfold pop_function in H. injection H as _ <-.
    cbn [st_functions st_values st_vm st_stack] in *.
    eapply (Hcore _ (with_result (type_cv rn) full (with_body body f1))); [|reflexivity| |exact HTow| | | | |]; [| |reflexivity..].
    + intros p. cbn. destruct (Pos.eqb_spec p n) as [->|]; [|reflexivity]. rewrite Hf4. reflexivity.
    + cbn [st_vm]. lia.
Qed.

End Callee.

Lemma function_found : forall rf fuel n lv st u st', W st -> lv <> unanalyzed -> (lv = shallow \/ ~ In n (st_stack st)) ->
  an_function rf fuel n lv st = Some (Ok (u, st')) -> toward st' -> J st'.
Proof.
  intros rf. induction fuel as [|fuel IH]; [intros n lv st u st' _ _ _ H; discriminate|].
  apply function_body_found; [|exact IH]. apply function_ok. exact ids_disjoint.
Qed.

(** Items in order; what is recorded at the end is what the items mean. *)
Lemma items_found : forall rf fuel l st l' st', W st -> st_stack st = [] ->
  (forall s, In (Item_Statement s) l -> is_global s = true /\ fresh_stmt consts s = true /\ declared decls s) ->
  NoDup (global_declared l) ->
  (forall p, In p (global_declared l) -> st_values st p = None /\ forall n, ~ In p (ids n)) ->
  an_items rf fuel l st = Some (Ok (l', st')) ->
  W st' /\ (toward st' -> Forall2 (fun i i' => match i, i' with
    | Item_Function n, Item_Function n' => n' = n
    | Item_Statement s, Item_Statement s' => evt (fun K => annot_stmt K s s')
    | _, _ => False end) l l').
Proof.
  intros rf fuel. induction l as [|[n|s] l IH]; intros st l' st' HW Hst Hg Hnd Hfr H.
  - cbn [an_items] in H. minv H. subst. split; [exact HW|]. constructor.
  - cbn [an_items] in H. minv H. minv H. minv H. subst.
    destruct (function_ok _ _ ids_disjoint rf fuel n full st a s (proj1 HW)) as (I1 & S1 & f1 & Hf1 & Hl1); [discriminate| |exact E|].
    { right. rewrite Hst. intros []. }
    assert (W1 : W s).
    { split; [exact I1|]. apply (function_found rf fuel n full st a s HW); [discriminate| |exact E]. right. rewrite Hst. intros []. }
    destruct (items_ok _ _ ids_disjoint rf fuel l s a0 s0 I1) as (I2 & S2 & _); auto.
    + rewrite (s_stack _ _ _ _ S1). exact Hst.
    + intros s2 Hs2. destruct (Hg s2 (or_intror Hs2)) as (A & B & _). auto.
    + intros p Hp. destruct (Hfr p Hp) as [Hv Hi]. split; [|exact Hi].
      destruct (s_frame _ _ _ _ S1 p Hv) as [C|[[]|(m & Hm & _)]]; [exact C|]. elim (Hi m Hm).
    + destruct (IH s a0 s0 W1) as (W2 & F2); auto.
      * rewrite (s_stack _ _ _ _ S1). exact Hst.
      * intros s2 Hs2. apply Hg. right. exact Hs2.
      * intros p Hp. destruct (Hfr p Hp) as [Hv Hi]. split; [|exact Hi].
        destruct (s_frame _ _ _ _ S1 p Hv) as [C|[[]|(m & Hm & _)]]; [exact C|]. elim (Hi m Hm).
  - cbn [an_items] in H. minv H. minv H. minv H. subst.
    destruct (Hg s (or_introl eq_refl)) as (G1 & G2 & G3). cbn [global_declared flat_map] in Hnd, Hfr.
    fold (global_declared l) in Hnd, Hfr. destruct (distinct_app _ _ Hnd) as (D1 & D2 & D3).
    assert (Hrn : forall m : type_node, None = Some m -> denotes m TVoid) by discriminate.
    assert (Hfree : free_for ids st (declares s)).
    { split; [exact D1|]. intros p Hp. destruct (Hfr p) as [Hv Hi]; [apply in_or_app; auto|]. split; [exact Hv|].
      intros n Hn. elim (Hi n Hn). }
    assert (Hsh : shaped s = true) by (destruct s; try discriminate; reflexivity).
    destruct (stmt_fresh_ok _ _ _ rf (function_ok _ _ ids_disjoint rf fuel) None TVoid full Hrn s false st a s0 G2 Hsh Hfree (proj1 HW) E) as [B1 B2 _ _ _ _ _ _ _ _].
    destruct (stmt_fresh_found _ _ _ _ _ Hnames _ Hdirect Hsize (an_function rf fuel) rf
      (function_ok _ _ ids_disjoint rf fuel) (function_found rf fuel) None TVoid full Hrn s false st a s0 G2 Hsh Hfree HW G3 E) as [W1 A1 _].
    assert (Hfr' : forall p, In p (global_declared l) -> st_values s0 p = None /\ forall n, ~ In p (ids n)).
    { intros p Hp. destruct (Hfr p) as [Hv Hi]; [apply in_or_app; auto|]. split; [|exact Hi].
      destruct (s_frame _ _ _ _ B2 p Hv) as [C|[C|(m & Hm & _)]]; [exact C|elim (D3 p C Hp)|elim (Hi m Hm)]. }
    assert (Hst0 : st_stack s0 = []) by (rewrite (s_stack _ _ _ _ B2); exact Hst).
    destruct (items_ok _ _ ids_disjoint rf fuel l s0 a0 s1 B1 Hst0) as (I2 & S2 & _); auto.
    { intros s2 Hs2. destruct (Hg s2 (or_intror Hs2)) as (A & B & _). auto. }
    destruct (IH s0 a0 s1 W1) as (W2 & F2); auto.
    { intros s2 Hs2. apply Hg. right. exact Hs2. }
    split; [exact W2|]. intros HT. constructor; [|auto]. apply A1. eapply toward_step; eassumption.
Qed.

End Functions.

(** ** Declarations *)

Lemma declares_here : forall s, declares s = map fst (flat_map declared_here (stmts_in s)).
Proof.
  induction s as [cv name self t e|cv name self t e|cv e|cv co b IHb|cv co b e IHb IHe|cv co b IHb
                 |cv t e|cv name lk e|cv l IH|e] using stmt_induction; cbn [declares stmts_in flat_map declared_here app map fst];
    rewrite ?app_nil_r; auto.
  - rewrite flat_map_app, map_app, IHb, IHe. reflexivity.
  - induction IH as [|s l H _ IH]; [reflexivity|]. cbn [flat_map]. rewrite flat_map_app, map_app, H, IH. reflexivity.
Qed.

Lemma distinct_keys : forall (l : list (positive * declaration)) p d d', NoDup (map fst l) ->
  In (p, d) l -> In (p, d') l -> d = d'.
Proof.
  induction l as [|[q x] l IH]; intros p d d' H Hd Hd'; [destruct Hd|]. cbn [map fst] in H. inversion H as [|? ? Hn Hr]; subst.
  destruct Hd as [[= -> ->]|Hd], Hd' as [[= <-]|Hd'].
  - reflexivity.
  - elim Hn. apply in_map_iff. exists (p, d'). auto.
  - elim Hn. apply in_map_iff. subst. eexists. split; [|exact Hd]. reflexivity.
  - eauto.
Qed.

Lemma find_key : forall (l : list (positive * declaration)) p d, In (p, d) l -> (forall d', In (p, d') l -> d' = d) ->
  option_map snd (find (fun x => Pos.eqb p (fst x)) l) = Some d.
Proof.
  intros l p d Hd H. destruct (find _ l) as [[q x]|] eqn:E.
  - apply find_some in E as [Hi E]. cbn [fst] in E. apply Pos.eqb_eq in E as <-. cbn. f_equal. auto.
  - apply (find_none _ _ E) in Hd. cbn [fst] in Hd. rewrite Pos.eqb_refl in Hd. discriminate.
Qed.

Section Declarations.
Variable consts : positive -> bool.
Variable table : positive -> option func.
Variable items : list item.
Hypothesis Hready : program_ready consts table items.

Lemma function_keys : forall n f, table n = Some f -> map fst (item_declarations table (Item_Function n)) = declared_in f.
Proof.
  intros n f Hf. cbn [item_declarations]. rewrite Hf, map_app, map_map, <- declares_here. reflexivity.
Qed.

Lemma global_keys : map fst (flat_map (fun i => match i with Item_Statement s => item_declarations table i | _ => [] end) items)
  = global_declared items.
Proof.
  unfold global_declared. clear. induction items as [|[n|s] l IH]; [reflexivity|exact IH|]. cbn [flat_map].
  rewrite map_app, IH. f_equal. cbn [item_declarations]. symmetry. apply declares_here.
Qed.

Lemma declaration_found : forall i p d, In i items -> In (p, d) (item_declarations table i) ->
  declaration_of table items p = Some d.
Proof.
  intros i p d Hi Hd. destruct Hready as (R1 & R2 & R3 & R4 & R5). unfold declaration_of. apply find_key.
  { apply in_flat_map. eauto. }
  intros d' Hd'. apply in_flat_map in Hd' as (i' & Hi' & Hd').
  assert (KF : forall n x, In (p, x) (item_declarations table (Item_Function n)) -> exists f, table n = Some f /\ In p (declared_in f)).
  { intros n x Hx. destruct (table n) as [f|] eqn:Hf; [|cbn [item_declarations] in Hx; rewrite Hf in Hx; destruct Hx].
    exists f. split; [reflexivity|]. rewrite <- (function_keys n f Hf). apply in_map_iff. exists (p, x). auto. }
  assert (KS : forall s x, In (Item_Statement s) items -> In (p, x) (item_declarations table (Item_Statement s)) ->
    In (p, x) (flat_map (fun i => match i with Item_Statement s => item_declarations table i | _ => [] end) items)).
  { intros s x Hs Hx. apply in_flat_map. exists (Item_Statement s). auto. }
  assert (KG : forall s x, In (Item_Statement s) items -> In (p, x) (item_declarations table (Item_Statement s)) -> In p (global_declared items)).
  { intros s x Hs Hx. rewrite <- global_keys. apply in_map_iff. exists (p, x). eauto. }
  destruct i as [n|s], i' as [n'|s'].
  - destruct (KF n d Hd) as (f & Hf & Pf). destruct (KF n' d' Hd') as (f' & Hf' & Pf').
    pose proof (R2 n n' f f' p Hf Hf' Pf Pf') as <-. eapply distinct_keys; [|exact Hd'|exact Hd].
    rewrite (function_keys n f Hf). apply (R1 n f Hf).
  - destruct (KF n d Hd) as (f & Hf & Pf). elim (R5 n f p Hf Pf). eauto.
  - destruct (KF n' d' Hd') as (f & Hf & Pf). elim (R5 n' f p Hf Pf). eauto.
  - eapply distinct_keys; [|eapply KS; [exact Hi'|exact Hd']|eapply KS; [exact Hi|exact Hd]]. rewrite global_keys. exact R4.
Qed.
End Declarations.

(** ** Programs *)

Definition function_names (items : list item) : list positive :=
  flat_map (fun i => match i with Item_Function n => [n] | Item_Statement _ => [] end) items.

Lemma statement_paired : forall table decls l l' s, Forall2 (fun i i' => match i, i' with
    | Item_Function n, Item_Function n' => n' = n
    | Item_Statement s, Item_Statement s' => evt table decls (fun K => annot_stmt K s s')
    | _, _ => False end) l l' -> In (Item_Statement s) l -> exists s', evt table decls (fun K => annot_stmt K s s').
Proof.
  intros table decls l l' s HF Hs. induction HF as [|i i' l l' Hi _ IH]; [destruct Hs|].
  destruct Hs as [->|Hs]; [|auto]. destruct i'; [destruct Hi|]. eauto.
Qed.

Section Program.
Variable consts : positive -> bool.
Variable table : positive -> option func.
Variable items : list item.
Variable st : state.
Hypothesis Hpass : passes consts table items st.
Hypothesis Hdirect : direct_program st.
Hypothesis Hsize : instruction_count (vm_instructions (st_vm st)) < 2 ^ 62.

Let decls := declaration_of table items.

Lemma names_listed : forall n, table n <> None -> In n (function_names items).
Proof.
  intros n Hn. destruct Hpass as [(R1 & _) _]. destruct (table n) as [f|] eqn:Hf; [|congruence].
  apply in_flat_map. exists (Item_Function n). split; [apply (R1 n f Hf)|left; reflexivity].
Qed.

Lemma program_linked : J table decls st
  /\ (forall n f, st_functions st n = Some f -> noted_function (st_values st) (st_functions st) f)
  /\ (forall n f, st_functions st n = Some f -> level_leb full (f_level f) = true)
  /\ (forall n, st_functions st n = None <-> table n = None)
  /\ (forall s, In (Item_Statement s) items -> exists s', evt table decls (fun K => annot_stmt K s s')).
Proof.
  destruct Hpass as [HR (rf & fuel & items' & H)].
  destruct (program_ok consts rf fuel table items items' st HR H) as ([_ A2 _ _ _] & A3 & _).
  destruct HR as (R1 & R2 & R3 & R4 & R5).
  set (ids := fun n => match table n with Some f => declared_in f | None => [] end).
  assert (Hdis : forall n m p, In p (ids n) -> In p (ids m) -> n = m).
  { intros n m p. unfold ids. destruct (table n) eqn:E1; [|intros []]. destruct (table m) eqn:E2; [|intros _ []]. eauto. }
  set (st0 := State table (fun _ => None) vm_new []).
  assert (HI : Inv consts ids st0).
  { split.
    - intros p v C. discriminate.
    - intros n f Hf. cbn in Hf. destruct (R1 n f Hf) as ((Q1 & Q2 & Q3 & Q4 & Q5 & Q6 & Q7 & Q8 & Q9 & Q10 & Q11 & Q12) & _).
      split; auto; unfold ids; rewrite Hf; auto.
    - intros n f Hf. cbn in Hf. destruct (R1 n f Hf) as ((Q1 & Q2 & Q3 & Q4 & Q5 & Q6 & Q7 & Q8 & Q9 & Q10 & Q11 & Q12) & _).
      unfold status. rewrite Q5. repeat (split; [auto|]). reflexivity.
    - exists (fun _ => None). cbn. apply empty_laid_out. intros n f Hf. apply (R1 n f Hf). }
  assert (HW : W consts ids table decls st st0).
  { split; [exact HI|]. intros _. split; [discriminate|discriminate|]. intros n f Hf. cbn in Hf. exists f. split; [exact Hf|].
    split; [reflexivity|]. destruct (R1 n f Hf) as ((Q1 & Q2 & Q3 & Q4 & Q5 & _) & _). rewrite Q5. reflexivity. }
  assert (Hdec : forall s, (exists i, In i items /\ incl (flat_map declared_here (stmts_in s)) (item_declarations table i)) -> declared decls s).
  { intros s (i & Hi & Hinc) p d Hd. eapply declaration_found; [exact (proj1 Hpass)|exact Hi|auto]. }
  assert (Hdecls : forall n f, table n = Some f ->
    (forall p, In p (f_params f) -> decls (p_self p) = Some (Decl_Parameter (p_type p))) /\ declared decls (f_body f)).
  { intros n f Hf. split.
    - intros p Hp. eapply declaration_found; [exact (proj1 Hpass)|apply (R1 n f Hf)|]. cbn [item_declarations]. rewrite Hf.
      apply in_or_app. left. apply in_map_iff. exists p. auto.
    - apply Hdec. exists (Item_Function n). split; [apply (R1 n f Hf)|]. cbn [item_declarations]. rewrite Hf. apply incl_appr, incl_refl. }
  assert (Hg : forall p, In p (global_declared items) -> st_values st0 p = None /\ forall n, ~ In p (ids n)).
  { intros p Hp. split; [reflexivity|]. intros n. unfold ids. destruct (table n) as [f|] eqn:E; [|intros []].
    intros C. exact (R5 n f p E C Hp). }
  destruct (items_ok consts ids Hdis rf fuel items st0 items' st HI eq_refl R3 R4 Hg H) as (_ & _ & L1).
  destruct (items_found consts ids Hdis table decls _ names_listed Hdecls st Hdirect Hsize rf fuel items st0 items' st HW eq_refl) as (W1 & F1); auto.
  { intros s Hs. destruct (R3 s Hs) as [G1 G2]. split; [exact G1|]. split; [exact G2|]. apply Hdec. exists (Item_Statement s).
    split; [exact Hs|]. apply incl_refl. }
  assert (HT : toward st st) by (split; [lia|]; intros n f Hf; apply restrict_some in Hf; apply Hf).
  split; [apply W1; exact HT|]. split; [exact A2|]. split; [|split; [exact A3|]].
  - intros n f Hf. assert (table n <> None) as Ht by (intros C; apply A3 in C; congruence).
    destruct (table n) as [f0|] eqn:E; [|congruence]. destruct (L1 n (proj2 (R1 n f0 E))) as (f' & Hf' & Hl). congruence.
  - intros s Hs. eapply statement_paired; [exact (F1 HT)|exact Hs].
Qed.

Lemma functions_linked : evt table decls (fun K => forall n f, st_functions st n = Some f -> signed K n f
  /\ exists f0, table n = Some f0 /\ map p_self (f_params f) = map p_self (f_params f0) /\ annot_stmt K (f_body f0) (f_body f)
      /\ noted_function (st_values st) (st_functions st) f /\ direct_stmt (f_body f)).
Proof.
  destruct program_linked as (HJ & A2 & A3 & A4 & _).
  set (P := fun n K => forall f, st_functions st n = Some f -> signed K n f
    /\ exists f0, table n = Some f0 /\ map p_self (f_params f) = map p_self (f_params f0) /\ annot_stmt K (f_body f0) (f_body f)
      /\ noted_function (st_values st) (st_functions st) f /\ direct_stmt (f_body f)).
  assert (G : evt table decls (fun K => forall n, In n (function_names items) -> P n K)).
  { apply evt_all. intros n _. unfold P. destruct (st_functions st n) as [f|] eqn:Hf; [|apply evt_true; discriminate].
    destruct (j_function _ _ _ HJ n f Hf) as (f0 & Hf0 & Hp & L). pose proof (A3 n f Hf) as Hl.
    assert (L' : evt table decls (fun K => signed K n f) /\ evt table decls (fun K => annot_stmt K (f_body f0) (f_body f))).
    { destruct (f_level f); try discriminate; [exact L|]. destruct L as (B1 & B2 & _). auto. }
    destruct L' as [B1 B2]. apply (evt_map2 _ _ _ _ _ B1 B2). intros K C1 C2 g [= <-]. split; [exact C1|]. exists f0.
    split; [exact Hf0|]. split; [exact Hp|]. split; [exact C2|]. split; [exact (A2 n f Hf)|exact (Hdirect n f Hf)]. }
  apply (evt_map _ _ _ _ G). intros K B n f Hf. apply (B n); [|exact Hf]. apply names_listed. intros C. apply A4 in C. congruence.
Qed.

Lemma program_meaning : exists enough, forall effort, (enough <= effort)%nat -> forall fuel n args,
  program_call table items effort fuel n args = meaning st fuel n args.
Proof.
  destruct functions_linked as (k & H). exists k. intros effort Hk fuel n args. specialize (H effort Hk).
  unfold program_call, meaning. fold decls. destruct (st_functions st n) as [f|] eqn:Hf.
  - apply (call_link _ (st_values st) (st_functions st)) with (f := f); [intros m g Hg; apply (H m g Hg)|intros m g Hg; apply (H m g Hg)|exact Hf].
  - destruct program_linked as (_ & _ & _ & A4 & _). pose proof (proj1 (A4 n) Hf) as Hn. destruct fuel; [reflexivity|].
    cbn [run_call call]. rewrite Hn, Hf. reflexivity.
Qed.

Lemma program_constant : forall p v, constants_of (st_values st) p = Some v ->
  exists enough, forall effort, (enough <= effort)%nat -> static_value (statics_of table decls effort) p = ret v.
Proof.
  intros p v H. destruct program_linked as (HJ & _). unfold constants_of in H.
  destruct (st_values st p) as [[t [z|]]|] eqn:E; try discriminate. injection H as <-.
  exact (j_value _ _ _ HJ p _ _ E eq_refl).
Qed.

Lemma program_type : forall p v, st_values st p = Some v ->
  exists enough, forall effort, (enough <= effort)%nat -> static_type (statics_of table decls effort) p = ret (av_type v).
Proof. intros p v H. destruct program_linked as (HJ & _). exact (j_type _ _ _ HJ p v H). Qed.

Lemma annot_asserted : forall K s s' cv e, annot_stmt K s s' -> In (SStatic_Assert cv e) (stmts_in s) -> ev_static K e = ret cv_True.
Proof.
  intros K. induction s as [cv name self t e|cv name self t e|cv e|cv co b IHb|cv co b e IHb IHe|cv co b IHb
                 |cv t e|cv name lk e|cv l IH|e] using stmt_induction; intros s' cv1 e1 HA Hin; destruct s'; cbn [annot_stmt] in HA; try contradiction;
    cbn [stmts_in] in Hin; destruct Hin as [Hin|Hin]; try discriminate; try (destruct Hin; fail).
  - injection Hin as -> ->. exact HA.
  - rewrite app_nil_r in Hin. destruct HA as (_ & HA & _). eauto.
  - destruct HA as (_ & HA & HE). apply in_app_or in Hin as [Hin|Hin]; [eauto|].
    destruct else_node; [eauto|contradiction].
  - destruct HA as (_ & HA). eauto.
  - apply in_flat_map in Hin as (s1 & Hs1 & Hin). revert children HA. induction IH as [|s2 l H2 _ IH]; intros [|a rest] HA; try contradiction.
    destruct HA as [HA HR]. destruct Hs1 as [->|Hs1]; eauto.
Qed.

Lemma program_asserted : forall e, asserted table items e ->
  exists enough, forall effort, (enough <= effort)%nat -> ev_static (statics_of table decls effort) e = ret cv_True.
Proof.
  intros e (cv & [H|(n & f & Hf & H)]); change (evt table decls (fun K => ev_static K e = ret cv_True)).
  - destruct program_linked as (_ & _ & _ & _ & L). destruct (L _ H) as (s' & G). apply (evt_map _ _ _ _ G).
    intros K A. eapply annot_asserted; [exact A|left; reflexivity].
  - destruct program_linked as (_ & _ & _ & A4 & _). apply (evt_map _ _ _ _ functions_linked). intros K A.
    destruct (st_functions st n) as [g|] eqn:Hg; [|apply A4 in Hg; congruence].
    destruct (A n g Hg) as (_ & f0 & Hf0 & _ & B & _). rewrite Hf in Hf0. injection Hf0 as <-. eapply annot_asserted; eassumption.
Qed.
End Program.
