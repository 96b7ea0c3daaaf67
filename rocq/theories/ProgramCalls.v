(** What analysis knows about the functions of a program, compared with the source; calls in constant
    expressions. *)
From Coq Require Import ZArith List Bool Lia.
From Verif Require Import Prelude Types Ops OpsSpec OpsProofs AbsOps AbsOpsSpec AbsOpsProofs Text Tables Literals LinMap LinMapSpec
  VM Ast AstFacts Codegen CodegenSpec SourceSem Annotated AnnotatedProofs Analyze Programs AnalyzeFacts AnalyzeCode AnalyzeProofs
  AcceptedSpec AcceptedProofs CodegenProofs ProgramSem ProgramMono ProgramLink ProgramExprs.
Import ListNotations.
Open Scope Z_scope.
Local Arguments Z.pow : simpl never.

(** The functions that can be run in constant expressions. *)
Definition restrict (st : state) (n : positive) : option func :=
  match st_functions st n with
  | Some f => match f_level f with for_constant_evaluation => Some f | _ => None end
  | None => None
  end.

Lemma restrict_some : forall st n f, restrict st n = Some f <->
  st_functions st n = Some f /\ f_level f = for_constant_evaluation.
Proof.
  intros st n f. unfold restrict. destruct (st_functions st n) as [g|]; [|split; [discriminate|intros [C _]; discriminate]].
  destruct (f_level g) eqn:E; (split; [try discriminate|intros [[= <-] C]; try congruence]).
  intros [= <-]. auto.
Qed.

Lemma laid_out_restrict : forall prog T T' units, laid_out prog T units ->
  (forall n f, T' n = Some f -> T n = Some f) ->
  (forall n f, T n = Some f -> f_address f <> None -> T' n = Some f) ->
  laid_out prog T' units.
Proof.
  intros prog T T' units [L1 L2 L3 L4 L5 L6 L7] H1 H2.
  assert (Hu : forall n u, units n = Some u -> exists f, T n = Some f /\ T' n = Some f /\ f_address f = Some (u_start u)).
  { intros n u Hn. destruct (L5 n u Hn) as (f & Hf & Ha). exists f. split; [exact Hf|]. split; [|exact Ha].
    apply H2; [exact Hf|congruence]. }
  assert (Hc : forall lo info, callees_known T units lo info -> callees_known T' units lo info).
  { intros lo info H n' i a Hi Ha Had. destruct (H n' i a Hi Ha Had) as [(f & Hf & Hp) (u' & Hu' & Hr)].
    split; [|eauto]. destruct (Hu n' u' Hu') as (g & Hg & Hg' & _). exists g. split; [exact Hg'|]. congruence. }
  split; try assumption.
  - intros n u Hn. destruct (L4 n u Hn) as (f & Hf & A1 & A2 & A3 & A4 & A5). destruct (Hu n u Hn) as (g & Hg & Hg' & _).
    rewrite Hf in Hg. injection Hg as <-. exists f. repeat (split; [assumption|]). auto.
  - intros n u Hn. destruct (Hu n u Hn) as (f & _ & Hf & Ha). eauto.
  - intros n f a Hf Ha. eauto.
  - intros n u n' i Hn Hi Ha Had. destruct (L7 n u n' i Hn Hi Ha Had) as (f & Hf & Hl). exists f. split; [|exact Hl].
    destruct (L4 n u Hn) as (_ & _ & _ & _ & _ & _ & Hk). destruct (fi_address i) as [ad|] eqn:E; [|congruence].
    destruct (Hk n' i ad Hi Ha E) as [_ (u' & Hu' & _)]. destruct (Hu n' u' Hu') as (g & Hg & Hg' & _). congruence.
Qed.

Section Calls.
Variable consts : positive -> bool.
Variable ids : positive -> list positive.
Variable table : positive -> option func.
Variable decls : positive -> option declaration.
Variable names : list positive.
Hypothesis Hnames : forall n, table n <> None -> In n names.
(** What analysis of the whole program leads to. *)
Variable fin : state.
Hypothesis Hdirect : direct_program fin.
Hypothesis Hsize : instruction_count (vm_instructions (st_vm fin)) < 2 ^ 62.

Notation evt := (evt table decls).
Notation Inv := (Inv consts ids).
Notation step := (step ids).

(** A function in the course of analysis, and its source. *)
Definition linked_function (st : state) (n : positive) (f0 f : func) : Prop :=
  map p_self (f_params f) = map p_self (f_params f0)
  /\ match f_level f with
     | unanalyzed => f = f0
     | shallow => evt (fun K => signed K n f) /\ f_body f = f_body f0
     | full => evt (fun K => signed K n f) /\ evt (fun K => annot_stmt K (f_body f0) (f_body f))
     | for_constant_evaluation =>
         evt (fun K => signed K n f) /\ evt (fun K => annot_stmt K (f_body f0) (f_body f))
         /\ noted_function (st_values st) (restrict st) f
     end.

Record J (st : state) : Prop := {
  j_type : forall p v, st_values st p = Some v -> evt (fun K => static_type K p = ret (av_type v));
  j_value : forall p v c, st_values st p = Some v -> shown v = ret c -> evt (fun K => static_value K p = ret c);
  j_function : forall n f, st_functions st n = Some f -> exists f0, table n = Some f0 /\ linked_function st n f0 f }.

(** Analysis in state [st] leads to [fin]. *)
Definition toward (st : state) : Prop :=
  instruction_count (vm_instructions (st_vm st)) <= instruction_count (vm_instructions (st_vm fin))
  /\ forall n f, restrict st n = Some f -> st_functions fin n = Some f.

Definition keeps (a b : state) : Prop := forall n f, restrict a n = Some f -> restrict b n = Some f.

Lemma inv_address : forall st n f, Inv st -> restrict st n = Some f -> f_address f <> None.
Proof.
  intros st n f HI H. apply restrict_some in H as [H E]. pose proof (inv_status _ _ _ HI n f H) as S. unfold status in S.
  rewrite E in S. destruct S as (_ & (a & ->) & _). discriminate.
Qed.

Lemma inv_restrict : forall st n f, Inv st -> st_functions st n = Some f -> f_address f <> None -> restrict st n = Some f.
Proof.
  intros st n f HI H Ha. apply restrict_some. split; [exact H|]. pose proof (inv_status _ _ _ HI n f H) as S. unfold status in S.
  destruct (f_level f); [..|reflexivity].
  - destruct S as (_ & _ & _ & _ & C & _). contradiction.
  - destruct S as (_ & _ & C & _). contradiction.
  - destruct S as (_ & C). contradiction.
Qed.

Lemma moved_keeps : forall S D a b, Inv a -> moved ids S D a b -> keeps a b.
Proof.
  intros S D a b HI HM n f H. pose proof (inv_address _ _ _ HI H) as Ha. apply restrict_some in H as [H E].
  destruct (mv_functions _ _ _ _ _ HM n f H) as (f' & Hf' & (_ & _ & _ & _ & U) & _). rewrite (U Ha) in Hf'.
  apply restrict_some. auto.
Qed.

Lemma step_keeps : forall D a b, Inv a -> step D a b -> keeps a b.
Proof. intros D a b HI HS. eapply moved_keeps; [exact HI|apply step_moved; exact HS]. Qed.

Lemma keeps_trans : forall a b c, keeps a b -> keeps b c -> keeps a c.
Proof. intros a b c H1 H2 n f H. auto. Qed.

Lemma toward_back : forall a b, keeps a b ->
  (length (vm_instructions (st_vm a)) <= length (vm_instructions (st_vm b)))%nat -> toward b -> toward a.
Proof.
  intros a b HK HL [H1 H2]. split; [|auto]. unfold instruction_count in *. lia.
Qed.

Lemma toward_step : forall D a b, Inv a -> step D a b -> toward b -> toward a.
Proof. intros D a b HI HS. apply toward_back; [eapply step_keeps; eassumption|apply (s_code _ _ _ _ HS)]. Qed.

Lemma toward_moved : forall S D a b, Inv a -> moved ids S D a b -> toward b -> toward a.
Proof. intros S D a b HI HM. apply toward_back; [eapply moved_keeps; eassumption|apply (mv_code _ _ _ _ _ HM)]. Qed.

Lemma restrict_signature : forall a b, keeps a b ->
  forall n f t, restrict a n = Some f -> denotes (f_return f) t ->
  exists f', restrict b n = Some f' /\ f_params f' = f_params f /\ f_return f' = f_return f.
Proof. intros a b HK n f t Hf _. exists f. auto. Qed.

Lemma restrict_noted : forall D a b e, Inv a -> step D a b ->
  noted (st_values a) (restrict a) e -> noted (st_values b) (restrict b) e.
Proof.
  intros D a b e HI HS. apply noted_mono; [apply (s_values _ _ _ _ HS)|]. apply restrict_signature. eapply step_keeps; eassumption.
Qed.

(** The machine alone changes. *)
Lemma J_vm : forall st m stack, J st -> J (State (st_functions st) (st_values st) m stack).
Proof. intros st m stack [H1 H2 H3]. split; cbn [st_values]; auto. Qed.

Lemma toward_vm : forall st m stack, vm_instructions m = vm_instructions (st_vm st) ->
  toward (State (st_functions st) (st_values st) m stack) -> toward st.
Proof. intros st m stack E [H1 H2]. split; [cbn [st_vm] in H1; rewrite E in H1; exact H1|exact H2]. Qed.

(** ** Calls in constant expressions *)

Lemma passed_arguments : forall params args ts st u st', Forall2 denotes (map p_type params) ts -> Forall wf_avalue args ->
  length params = length args ->
  pass_arguments constant params args st = Some (Ok (u, st')) ->
  exists vs ws m, args = map known vs /\ passed vs ts ws
    /\ Forall2 (fun p w => exists t, denotes (p_type p) t /\ wf_value w /\ cv_type w = t) params ws
    /\ st' = State (st_functions st) (st_values st) m (st_stack st)
    /\ vm_instructions m = vm_instructions (st_vm st) /\ vm_counter m = vm_counter (st_vm st)
    /\ vm_frames m = vm_frames (st_vm st) /\ vm_stack m = rev ws ++ vm_stack (st_vm st).
Proof.
  induction params as [|p params IH]; intros args ts st u st' HD HW HL H; destruct args as [|a args]; try discriminate.
  - cbn [map] in HD. inversion HD; subst. cbn [pass_arguments] in H. minv H. subst.
    exists [], [], (st_vm st). cbn. repeat (split; [solve [auto]|]). split; [destruct st; reflexivity|auto].
  - cbn [map] in HD. inversion HD as [|? t ? ts' D1 D2]; subst. inversion HW as [|? ? W1 W2]; subst.
    cbn [pass_arguments is_constant] in H. minv H. minv E. subst. pose proof (mtype_denotes _ _ _ D1 H0) as ->.
    destruct (is_convertible_to (av_type a) t) eqn:Ec; cbn [negb] in H; [|discriminate]. minv H.
    destruct (value_evaluate_conversion a t) as [r|e| |] eqn:Ev; try discriminate.
    minv E. minv E0. subst. minv E. minv E0. subst. minv E. subst.
    destruct (convert_recorded a (shown a) t r (shown_recorded a W1) (proj2 (proj2 D1)) Ec) as [Tr Rr]; [left; exact Ev|].
    match goal with HC : concrete_value r = Ok ?c |- _ => rename HC into Hc; rename c into w end.
    assert (Hs : shown r = ret w).
    { unfold concrete_value in Hc. unfold shown. destruct (av_val r); [|discriminate]. injection Hc as <-. reflexivity. }
    pose proof (as_shown _ _ _ Rr Hs) as Hb. apply rbind_ok in Hb as (v & Hv & Hb).
    destruct (IH _ _ _ _ _ D2 W2 ltac:(cbn [length] in HL; congruence) H) as (vs & ws & m & -> & P & F & -> & K1 & K2 & K3 & K4).
    exists (v :: vs), (w :: ws), m. cbn [st_functions st_values st_vm st_stack vm_push set_stack vm_instructions vm_counter vm_frames vm_stack] in *.
    split; [cbn [map]; rewrite (shown_known _ _ Hv); reflexivity|]. split; [split; [exact Hb|exact P]|]. split.
    { constructor; [|exact F]. exists t. split; [exact D1|].
      destruct (conversion_wf a t r W1 (proj2 (proj2 D1)) Ec) as [_ Wr]; [left; exact Ev|].
      split; [eapply as_known_wf; [exact Wr|exact Hc]|]. rewrite <- Tr. apply shown_known in Hs. subst r. reflexivity. }
    split; [reflexivity|]. split; [exact K1|]. split; [exact K2|]. split; [exact K3|]. rewrite K4. cbn [rev]. rewrite <- app_assoc. reflexivity.
Qed.

Lemma evaluated_call : forall rf st v st', evaluate_call rf st = Some (Ok (v, st')) ->
  exists x r m, run rf (st_vm st) = Some (Err x) /\ ee_code x = x_pop_call /\ vm_stack (ee_machine x) = [r] /\ v = known r
    /\ st' = State (st_functions st) (st_values st) m (st_stack st) /\ vm_instructions m = vm_instructions (ee_machine x).
Proof.
  intros rf st v st' H. unfold evaluate_call in H. destruct (run rf (st_vm st)) as [[m|x| |]|] eqn:Er; try discriminate.
  destruct (ee_code x) eqn:Ex; try discriminate. minv H. minv E. subst. minv H. minv E. subst. minv H. destruct a1 as [c m].
  minv E. subst. minv H. minv E. subst. minv H. subst. unfold vm_pop in *.
  destruct (vm_stack (ee_machine x)) as [|w [|w' rest]] eqn:Es; [discriminate| |].
  2:{ exfalso. clear - H0. apply Z.eqb_eq in H0. cbn [length] in H0. lia. }
  match goal with HP : Ok _ = Ok _ |- _ => injection HP as <- <- end.
  exists x, w. eexists. repeat (split; [reflexivity || assumption|]). reflexivity.
Qed.

(** The functions that can be run are a program of their own. *)
Definition runnable (s : state) : state := State (restrict s) (st_values s) (st_vm s) [].

Lemma runnable_accepted : forall s, Inv s -> J s -> accepted_program (runnable s).
Proof.
  intros s HI HJ. split; cbn [runnable st_functions st_values st_vm].
  - intros p v H. apply (inv_values _ _ _ HI p v H).
  - intros n f H. apply restrict_some in H as [H E]. destruct (j_function _ HJ n f H) as (f0 & _ & _ & L). rewrite E in L. apply L.
  - intros n f H. apply restrict_some in H as [H E]. pose proof (inv_status _ _ _ HI n f H) as S. unfold status in S. rewrite E in S.
    apply S.
  - intros n f H. apply restrict_some in H as [H E]. apply (inv_static _ _ _ HI n f H).
  - destruct (inv_code _ _ _ HI) as [units L]. exists units. eapply laid_out_restrict; [exact L| |].
    + intros n f H. apply restrict_some in H. apply H.
    + intros n f H Ha. apply inv_restrict; assumption.
Qed.

Lemma evt_functions : forall s (P : positive -> func -> statics -> Prop), J s ->
  (forall n f, restrict s n = Some f -> evt (P n f)) -> evt (fun K => forall n f, restrict s n = Some f -> P n f K).
Proof.
  intros s P HJ H.
  assert (G : evt (fun K => forall n, In n names -> forall f, restrict s n = Some f -> P n f K)).
  { apply evt_all. intros n _. destruct (restrict s n) as [f|] eqn:E.
    - apply (evt_map _ _ _ _ (H n f E)). intros K A g [= <-]. exact A.
    - apply evt_true. discriminate. }
  apply (evt_map _ _ _ _ G). intros K A n f Hf. apply A; [|exact Hf]. apply Hnames. apply restrict_some in Hf as [Hf _].
  destruct (j_function _ HJ n f Hf) as (f0 & E & _). congruence.
Qed.

Lemma constant_call : forall s n f t args m k x r, Inv s -> J s -> toward s -> restrict s n = Some f ->
  denotes (f_return f) t -> typed_args f args ->
  vm_instructions m = vm_instructions (st_vm s) -> f_address f = Some (vm_counter m) -> vm_stack m = rev args ->
  vm_frames m = lm_clear -> run k m = Some (Err x) -> ee_code x = x_pop_call -> vm_stack (ee_machine x) = [r] ->
  wf_value r /\ cv_type r = t /\ evt (fun K => static_call K n args = ret r).
Proof.
  intros s n f t args m k x r HI HJ HT Hf Hd Ha Hm Hc Hs Hfr Hrun Hx Hr.
  assert (Hdr : direct_program (runnable s)).
  { intros n' f' H. apply (Hdirect n'). apply (proj2 HT). exact H. }
  pose proof (runnable_accepted s HI HJ) as Hacc.
  assert (Hrn : about_to_run (runnable s) f args m).
  { split; [|auto 10]. cbn [runnable st_vm]. destruct HT as [HT _]. eapply Z.le_lt_trans; [exact HT|exact Hsize]. }
  pose proof (machine_stops (runnable s) Hacc Hdr n f t args m k _ (conj Hf Hd) Hrn Hrun) as [(_ & v & Hv & Wv & Tv & M)|(e & E1 & E2 & _)].
  2:{ rewrite Hx in E1. destruct E2 as [->|(y & -> & _)]; discriminate. }
  rewrite Hr in Hv. injection Hv as <-. split; [exact Wv|]. split; [exact Tv|].
  apply (evt_call _ _ (S k)).
  assert (G1 : evt (fun K => forall n f, restrict s n = Some f -> signed K n f)).
  { apply evt_functions; [exact HJ|]. intros n' f' H. apply restrict_some in H as [H E].
    destruct (j_function _ HJ n' f' H) as (f0 & _ & _ & L). rewrite E in L. apply L. }
  assert (G2 : evt (fun K => forall n f, restrict s n = Some f -> exists f0, table n = Some f0
      /\ map p_self (f_params f) = map p_self (f_params f0) /\ annot_stmt K (f_body f0) (f_body f)
      /\ noted_function (st_values s) (restrict s) f /\ direct_stmt (f_body f))).
  { apply (evt_functions s (fun n f K => exists f0, table n = Some f0
      /\ map p_self (f_params f) = map p_self (f_params f0) /\ annot_stmt K (f_body f0) (f_body f)
      /\ noted_function (st_values s) (restrict s) f /\ direct_stmt (f_body f)) HJ).
    intros n' f' H. pose proof (Hdr n' f' H) as D. apply restrict_some in H as [H E].
    destruct (j_function _ HJ n' f' H) as (f0 & Hf0 & P & L). rewrite E in L. destruct L as (_ & L2 & L3).
    apply (evt_map _ _ _ _ L2). intros K A. exists f0. auto. }
  apply (evt_map2 _ _ _ _ _ G1 G2). intros K A B.
  rewrite (call_link K (st_values s) (restrict s) A table B (S k) n f args Hf). exact M.
Qed.

(** ** Calls *)

Section Callee.
Variable callee : positive -> level -> M unit.
Variable run_fuel : nat.
Hypothesis Hcallee : callee_ok consts ids callee.

Definition W (st : state) : Prop := Inv st /\ (toward st -> J st).

Hypothesis Hfound : forall n lv st u st', W st -> lv <> unanalyzed -> (lv = shallow \/ ~ In n (st_stack st)) ->
  callee n lv st = Some (Ok (u, st')) -> toward st' -> J st'.

(** A call, taken apart. *)
Lemma call_parts : forall lv cx n args st v st', W st -> Forall wf_avalue args ->
  an_call callee run_fuel lv cx (Some (LNode DFunction n)) args st = Some (Ok (v, st')) ->
  exists s f t m, Inv s /\ step [] st s /\ (toward s -> J s) /\ st_functions s n = Some f
    /\ f_level f <> unanalyzed /\ (cx = constant \/ lv = for_constant_evaluation -> restrict s n = Some f)
    /\ denotes (f_return f) t
    /\ Forall2 (fun a p => exists t, denotes (p_type p) t /\ is_convertible_to (av_type a) t = true) args (f_params f)
    /\ st' = State (st_functions s) (st_values s) m (st_stack s) /\ vm_instructions m = vm_instructions (st_vm s)
    /\ (cx = normal -> v = AV t None)
    /\ (cx = constant -> forall ts, Forall2 denotes (map p_type (f_params f)) ts ->
          exists vs ws m0 x r, args = map known vs /\ passed vs ts ws /\ typed_args f ws
            /\ vm_instructions m0 = vm_instructions (st_vm s) /\ f_address f = Some (vm_counter m0)
            /\ vm_stack m0 = rev ws /\ vm_frames m0 = lm_clear
            /\ run run_fuel m0 = Some (Err x) /\ ee_code x = x_pop_call /\ vm_stack (ee_machine x) = [r] /\ v = known r).
Proof.
  intros lv cx n args st v st' [HI HJ] Hw H. unfold an_call in H. minv H. minv E. subst.
  try match goal with HS : Some _ = Some _ |- _ => injection HS as <- end.
  minv H. minv E. subst.
  match goal with HF : st_functions st n = Some ?g |- _ => rename g into f0; rename HF into Hf0 end.
  destruct (Nat.eqb_spec (length (f_params f0)) (length args)) as [Hlen|]; cbn [negb] in H; [|discriminate].
  destruct (f_generic f0); [discriminate|]. minv H. minv E. subst.
  set (inner := match cx, lv with constant, _ | _, for_constant_evaluation => for_constant_evaluation | _, _ => shallow end) in *.
  assert (Hin : inner = for_constant_evaluation \/ (inner = shallow /\ cx = normal /\ lv <> for_constant_evaluation)).
  { unfold inner. destruct cx, lv; auto; right; repeat split; discriminate. }
  destruct ((match inner with for_constant_evaluation => true | _ => false end) && existsb (Pos.eqb n) (st_stack st))%bool eqn:Erec;
    [discriminate|].
  assert (Hns : inner = shallow \/ ~ In n (st_stack st)).
  { destruct Hin as [->|[-> _]]; [right|auto]. cbn [andb] in Erec. intros C.
    assert (existsb (Pos.eqb n) (st_stack st) = true).
    { apply existsb_exists. exists n. split; [exact C|apply Pos.eqb_refl]. }
    congruence. }
  assert (Hun : inner <> unanalyzed) by (destruct Hin as [->|[-> _]]; discriminate).
  minv H. match goal with HC : callee n inner st = Some (Ok (?u, s)) |- _ => rename HC into Ecal; rename u into u0 end.
  destruct (Hcallee n inner st u0 s HI Hun Hns Ecal) as (I1 & S1 & _ & _).
  pose proof (Hfound n inner st u0 s (conj HI HJ) Hun Hns Ecal) as J1.
  minv H. minv E. subst. minv H. minv E. subst.
  match goal with HF : st_functions s n = Some ?g |- _ => rename g into f; rename HF into Hf end.
  match goal with HL : level_leb inner (f_level f) = true |- _ => rename HL into Hlvl end.
  destruct (s_functions _ _ _ _ S1 n f0 Hf0) as (f' & Hf' & (_ & _ & L1 & _) & _). rewrite Hf in Hf'. injection Hf' as <-.
  assert (Hlv : level_leb shallow (f_level f) = true).
  { revert Hlvl. destruct Hin as [->|[-> _]]; [|auto]. unfold level_leb. cbn [level_index]. intros K. lia. }
  pose proof (inv_status _ _ _ I1 n f Hf) as Hst. destruct (status_analyzed _ _ _ _ _ Hst Hlv) as [[[t Hd] Hpar] Hcv].
  destruct (f_cv f) as [rv|] eqn:Ecv; [|discriminate].
  assert (rv = AV t None) as ->.
  { destruct Hcv as [C|C]; [discriminate|]. rewrite (proj1 Hd) in C. congruence. }
  assert (Hres : cx = constant \/ lv = for_constant_evaluation -> restrict s n = Some f).
  { intros Hor. apply restrict_some. split; [exact Hf|]. destruct Hin as [E|(_ & -> & C)].
    - rewrite E in Hlvl. unfold level_leb in Hlvl. destruct (f_level f); try discriminate; reflexivity.
    - destruct Hor as [E|E]; [discriminate|contradiction]. }
  assert (Hl' : f_level f <> unanalyzed).
  { intros C. rewrite C in Hlv. discriminate. }
  assert (Hpt : forall q, In q (f_params f) -> exists t, denotes (p_type q) t).
  { intros q Hq. destruct (Hpar q Hq) as (u & Hu & _). eauto. }
  minv H.
  assert (K : exists m, s0 = State (st_functions s) (st_values s) m (st_stack s)
            /\ vm_instructions m = vm_instructions (st_vm s)
            /\ (cx = constant -> f_address f = Some (vm_counter m) /\ vm_stack m = [] /\ vm_frames m = lm_clear /\ machine_values m)).
  { destruct cx; cbn [is_constant] in E.
    - minv E. subst. exists (st_vm s). destruct s; split; [reflexivity|]. split; [reflexivity|discriminate].
    - minv E. minv E0. subst. minv E. minv E0. subst. minv E. minv E0. subst. minv E. subst.
      match goal with HA : f_address f = Some ?a |- _ => rename HA into Hadr; rename a into ad end.
      match goal with HV : vm_jump_to _ _ = Ok _ |- _ => unfold vm_jump_to, assert_then in HV; destruct (_ <? _); [|discriminate]; injection HV as <- end.
      eexists. split; [reflexivity|]. split; [reflexivity|]. intros _. repeat (split; [solve [auto]|]).
      destruct (inv_code _ _ _ I1) as [units L]. split; [exact (lo_values _ _ _ L)|]. split; constructor. }
  destruct K as (m & -> & K1 & K2).
  minv H.
  match goal with HP : pass_arguments _ _ _ _ = _ |- _ => rename HP into Epass end.
  destruct (pass_ok _ _ _ _ _ _ Hpt Hw Epass) as [(m' & -> & K3 & K3') HF].
  specialize (HF ltac:(congruence)). cbn [st_functions st_values st_vm st_stack] in *.
  destruct cx; cbn [is_constant] in H.
  - minv H. subst. exists s, f, t, m'. repeat (split; [assumption|]). split; [reflexivity|]. split; [congruence|].
    split; [reflexivity|discriminate].
  - destruct (K2 eq_refl) as (K4 & K5 & K6 & K7). 
    pose proof (evaluate_ok run_fuel (State _ _ m' _) _ _ (K3' K7) H) as [_ (m'' & E2 & K8)].
    apply evaluated_call in H as (x & r & m2 & Hrun & Hx & Hr & -> & -> & Hm2).
    subst. cbn [st_functions st_values st_vm st_stack] in *.
    assert (Hmi : vm_instructions m2 = vm_instructions (st_vm s)).
    { injection E2 as ->. cbn in K8. congruence. }
    exists s, f, t, m2. repeat (split; [assumption|]). split; [reflexivity|]. split; [exact Hmi|].
    split; [discriminate|]. intros _ ts Hts.
    destruct (passed_arguments _ _ _ _ _ _ Hts Hw ltac:(congruence) Epass) as (vs & ws & m3 & P1 & P2 & P3 & P4 & P5 & P6 & P7 & P8).
    cbn [st_functions st_values st_vm st_stack] in *. injection P4 as ->.
    exists vs, ws, m3, x, r. split; [exact P1|]. split; [exact P2|]. split; [exact P3|]. split; [congruence|].
    split; [congruence|]. split; [rewrite P8, K5; apply app_nil_r|]. split; [congruence|]. auto.
Qed.

Definition R (a b : state) : Prop := step [] a b /\ keeps a b.

Lemma R_refl : forall st, R st st.
Proof. intros st. split; [apply step_refl|]. intros n f H. exact H. Qed.

Lemma R_trans : forall a b c, R a b -> R b c -> R a c.
Proof. intros a b c [S1 K1] [S2 K2]. split; [eapply step_trans; eassumption|eapply keeps_trans; eassumption]. Qed.

Lemma toward_R : forall a b, R a b -> toward b -> toward a.
Proof. intros a b [HS HK]. apply toward_back; [exact HK|apply (s_code _ _ _ _ HS)]. Qed.

Lemma same_vm : forall s m, vm_instructions m = vm_instructions (st_vm s) ->
  toward (State (st_functions s) (st_values s) m (st_stack s)) -> toward s.
Proof. intros s m E [H1 H2]. split; [cbn [st_vm] in H1; rewrite E in H1; exact H1|exact H2]. Qed.

Lemma call_cases : forall lv cx lk args st v st', an_call callee run_fuel lv cx lk args st = Some (Ok (v, st')) ->
  (exists n, lk = Some (LNode DFunction n))
  \/ exists b, lk = Some (LBuiltin b) /\ value_evaluate_builtin_function b args = Ok v /\ st' = st.
Proof.
  intros lv cx lk args st v st' H. unfold an_call in H. minv H. minv E. subst.
  destruct a as [[] n|p|b]; try discriminate; [left; eauto|right].
  minv H. minv E. subst. minv H. subst. eauto.
Qed.

Lemma call_W : forall lv cx lk args st v st', W st -> Forall wf_avalue args ->
  an_call callee run_fuel lv cx lk args st = Some (Ok (v, st')) -> W st' /\ R st st'.
Proof.
  intros lv cx lk args st v st' HW Hw H.
  destruct (call_ok _ _ _ _ Hcallee _ _ _ _ _ _ _ (proj1 HW) Hw H) as (I' & S' & _).
  split; [|split; [exact S'|eapply step_keeps; [apply HW|exact S']]]. split; [exact I'|].
  destruct (call_cases _ _ _ _ _ _ _ H) as [[n ->]|(b & -> & Hb & ->)].
  - destruct (call_parts _ _ _ _ _ _ _ HW Hw H) as (s & f & t & m & _ & _ & J1 & _ & _ & _ & _ & _ & -> & K & _).
    intros HT. apply J_vm. apply J1. eapply same_vm; eassumption.
  - apply HW.
Qed.

Lemma call_noted_restrict : forall lv lk args st v st', W st -> Forall wf_avalue args -> lv = for_constant_evaluation ->
  an_call callee run_fuel lv normal lk args st = Some (Ok (v, st')) -> call_noted (restrict st') lk args v.
Proof.
  intros lv lk args st v st' HW Hw El H.
  destruct (call_cases _ _ _ _ _ _ _ H) as [[n ->]|(b & -> & Hb & ->)].
  - destruct (call_parts _ _ _ _ _ _ _ HW Hw H) as (s & f & t & m & _ & _ & _ & _ & _ & Hr & Hd & HF & -> & K & Hv & _).
    rewrite (Hv eq_refl). cbn [call_noted]. exists f, t. split; [exact (Hr (or_intror El))|]. auto.
  - exact Hb.
Qed.

Lemma call_is_found : forall lv cx lk args st v st', W st -> Forall wf_avalue args ->
  an_call callee run_fuel lv cx lk args st = Some (Ok (v, st')) -> toward st' -> call_found table decls cx lk args v.
Proof.
  intros lv cx lk args st v st' HW Hw H HT.
  destruct (call_cases _ _ _ _ _ _ _ H) as [[n ->]|(b & -> & Hb & ->)].
  - destruct (call_parts _ _ _ _ _ _ _ HW Hw H) as (s & f & t & m & I1 & S1 & J1 & Hf & Hl & Hr & Hd & HF & -> & K & Hn & Hc).
    assert (HT' : toward s) by (eapply same_vm; eassumption). specialize (J1 HT').
    assert (Hs : evt (fun K => signed K n f)).
    { destruct (j_function _ J1 n f Hf) as (f0 & _ & _ & L). destruct (f_level f); [congruence| | |]; apply L. }
    destruct Hs as [k Hs].
    destruct (Hs k ltac:(lia)) as (ts & t' & E1 & E2 & E3).
    assert (Ht : t' = t).
    { destruct E3 as [A _], Hd as [B _]. rewrite A in B. congruence. }
    subst t'.
    assert (G : evt (fun K => static_signature K n = ret (ts, t))).
    { exists k. intros k' Hk'. destruct (Hs k' Hk') as (ts' & t' & E1' & E2' & E3').
      assert (t' = t) as ->. { destruct E3' as [A _], Hd as [B _]. rewrite A in B. congruence. }
      assert (ts' = ts) as ->; [|exact E1'].
      clear - E2 E2'. revert ts' E2'. induction E2 as [|x y l l' D _ IH]; intros ts' H; inversion H; subst; [reflexivity|].
      f_equal; [|auto]. match goal with X : denotes x ?u |- _ => destruct X as [A _]; destruct D as [B _]; congruence end. }
    cbn [call_found]. exists ts. destruct cx.
    + rewrite (Hn eq_refl). cbn [av_type]. split; [exact G|discriminate].
    + destruct (Hc eq_refl ts E2) as (vs & ws & m0 & x & r & A1 & A2 & A3 & A4 & A5 & A6 & A7 & A8 & A9 & A10 & ->).
      destruct (constant_call s n f t ws m0 run_fuel x r I1 J1 HT' (Hr (or_introl eq_refl)) Hd A3 A4 A5 A6 A7 A8 A9 A10) as (B1 & B2 & B3).
      cbn [av_type known]. split; [rewrite B2; exact G|]. intros _. exists vs, ws. split; [exact A1|]. split; [exact A2|].
      intros c Ec. apply shown_known in Ec. destruct r, c. cbn in Ec. injection Ec as <- <-. exact B3.
  - exact Hb.
Qed.

End Callee.
End Calls.
