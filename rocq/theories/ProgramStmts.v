(** Analysis of expressions and statements: what it records is what the source means. *)
From Coq Require Import ZArith List Bool Lia.
From Verif Require Import Prelude Types Ops OpsSpec OpsProofs AbsOps AbsOpsSpec AbsOpsProofs Text Tables Literals LinMap LinMapSpec
  VM Ast AstFacts Codegen CodegenSpec SourceSem Annotated AnnotatedProofs Analyze Programs AnalyzeFacts AnalyzeCode AnalyzeProofs
  AcceptedSpec AcceptedProofs CodegenProofs ProgramSem ProgramMono ProgramLink ProgramExprs ProgramCalls.
Import ListNotations.
Open Scope Z_scope.
Local Arguments Z.pow : simpl never.

(** The expressions of a statement that have a meaning when it is run. *)
Fixpoint noted_exprs (values : positive -> option avalue) (table : positive -> option func) (s : stmt) : Prop :=
  match s with
  | SLet _ _ _ _ (Some e) | SControl _ ctl_return (Some e) | SAssign _ _ _ e | SExpr e => noted values table e
  | SIf _ c b e =>
      noted values table c /\ noted_exprs values table b
      /\ match e with Some s1 => noted_exprs values table s1 | None => True end
  | SWhile _ c b => noted values table c /\ noted_exprs values table b
  | SBlock _ l =>
      (fix all (l : list stmt) : Prop :=
         match l with [] => True | s1 :: l' => noted_exprs values table s1 /\ all l' end) l
  | _ => True
  end.

Definition all_noted_exprs (values : positive -> option avalue) (table : positive -> option func) : list stmt -> Prop :=
  fix all (l : list stmt) : Prop :=
    match l with [] => True | s1 :: l' => noted_exprs values table s1 /\ all l' end.

Lemma noted_exprs_map : forall values table values' table',
  (forall e, noted values table e -> noted values' table' e) ->
  forall s, noted_exprs values table s -> noted_exprs values' table' s.
Proof.
  intros values table values' table' H.
  induction s as [cv name self t e|cv name self t e|cv e|cv co b IHb|cv co b e IHb IHe|cv co b IHb
                 |cv t e|cv name lk e|cv l IH|e] using stmt_induction; intros Hn; cbn [noted_exprs] in *; auto.
  - destruct e; auto.
  - destruct Hn as (H1 & H2 & _). auto.
  - destruct Hn as (H1 & H2 & H3). auto.
  - destruct Hn as (H1 & H2). auto.
  - destruct t; auto. destruct e; auto.
  - induction l as [|s l IHl]; [auto|]. inversion IH; subst. destruct Hn as [N3 N4]. split; [auto|apply IHl; assumption].
Qed.

Lemma noted_stmt_exprs : forall values table table' rt s,
  noted_stmt values table rt s -> noted_exprs values table' s -> noted_stmt values table' rt s.
Proof.
  intros values table table' rt.
  induction s as [cv name self t e|cv name self t e|cv e|cv co b IHb|cv co b e IHb IHe|cv co b IHb
                 |cv t e|cv name lk e|cv l IH|e] using stmt_induction; intros Hn Hx; cbn [noted_stmt noted_exprs] in *; auto.
  - destruct Hn as (ty & A & B & C & D & E). exists ty. repeat (split; [assumption|]). destruct e; [|exact Logic.I].
    split; [exact Hx|apply E].
  - destruct Hn as (H1 & H2 & H3 & H4), Hx as (X1 & X2 & X3). auto.
  - destruct Hn as (H1 & H2 & H3 & H4), Hx as (X1 & X2 & X3). auto 10.
  - destruct Hn as (H1 & H2 & H3), Hx as (X1 & X2). auto.
  - destruct t; auto. destruct e; auto. split; [exact Hx|apply Hn].
  - split; [exact Hx|apply Hn].
  - induction l as [|s l IHl]; [auto|]. inversion IH; subst. destruct Hn as [N3 N4], Hx as [X3 X4]. split; [auto|apply IHl; assumption].
Qed.

Section Stmts.
Variable consts : positive -> bool.
Variable ids : positive -> list positive.
Hypothesis ids_disjoint : forall n m p, In p (ids n) -> In p (ids m) -> n = m.
Variable table : positive -> option func.
Variable decls : positive -> option declaration.
Variable names : list positive.
Hypothesis Hnames : forall n, table n <> None -> In n names.
Variable fin : state.
Hypothesis Hdirect : direct_program fin.
Hypothesis Hsize : instruction_count (vm_instructions (st_vm fin)) < 2 ^ 62.

Notation evt := (evt table decls).
Notation Inv := (Inv consts ids).
Notation step := (step ids).
Notation J := (J table decls).
Notation toward := (toward fin).
Notation W := (W consts ids table decls fin).
Notation R := (R ids).

Variable callee : positive -> level -> M unit.
Variable run_fuel : nat.
Hypothesis Hcallee : callee_ok consts ids callee.
Hypothesis Hfound : forall n lv st u st', W st -> lv <> unanalyzed -> (lv = shallow \/ ~ In n (st_stack st)) ->
  callee n lv st = Some (Ok (u, st')) -> toward st' -> J st'.

Lemma R_noted : forall st st' e, W st -> R st st' ->
  noted (st_values st) (restrict st) e -> noted (st_values st') (restrict st') e.
Proof. intros st st' e [HI _] [HS _]. eapply restrict_noted; eassumption. Qed.

Lemma W_call : True -> forall lv cx lk args st v st', W st -> Forall wf_avalue args ->
  an_call callee run_fuel lv cx lk args st = Some (Ok (v, st')) ->
  W st' /\ R st st' /\ wf_avalue v /\ (cx = normal -> for_constant_evaluation = lv -> call_noted (restrict st') lk args v).
Proof.
  intros _ lv cx lk args st v st' HW Hw H.
  destruct (call_W _ _ _ _ _ _ _ Hcallee Hfound _ _ _ _ _ _ _ HW Hw H) as [W' R'].
  split; [exact W'|]. split; [exact R'|]. split.
  - apply (call_ok _ _ _ _ Hcallee _ _ _ _ _ _ _ (proj1 HW) Hw H).
  - intros -> <-. exact (call_noted_restrict _ _ _ _ _ _ _ Hcallee Hfound _ _ _ _ _ _ HW Hw eq_refl H).
Qed.

Definition W_good := fresh_good consts callee run_fuel W R True restrict (eq for_constant_evaluation)
  (fun st (H : W st) => inv_values _ _ _ (proj1 H)) (R_refl ids) (R_trans ids) R_noted W_call.


Lemma W_found : (forall e, finds table decls consts callee run_fuel W True toward e)
  /\ (forall t, finds_type table decls consts callee run_fuel W True toward t).
Proof.
  apply (exprs_found table decls consts callee run_fuel W R True restrict (eq for_constant_evaluation) W_good (R_refl ids) (R_trans ids)).
  - intros _ lv cx lk args st v st' HW Hw H. destruct (W_call Logic.I _ _ _ _ _ _ _ HW Hw H) as (A & B & _). auto.
  - intros a b. apply toward_R.
  - intros st p v [_ HJ] HT. apply (j_type _ _ _ (HJ HT)).
  - intros st p v c [_ HJ] HT. apply (j_value _ _ _ (HJ HT)).
  - intros _. eapply call_is_found; eassumption.
Qed.

Lemma expr_W : forall e lv cx st e' st' v, fresh consts e = true -> W st ->
  an_expr callee run_fuel lv cx e st = Some (Ok (e', st')) -> expr_cv e' = Some v ->
  W st' /\ step [] st st' /\ wf_avalue v
  /\ (cx = normal -> lv = for_constant_evaluation -> noted (st_values st') (restrict st') e')
  /\ (toward st' -> found table decls cx e e' v).
Proof.
  intros e lv cx st e' st' v Hf HW H Hv.
  destruct (proj1 W_good e Hf (or_intror Logic.I) _ _ _ _ _ HW H) as (A & [B _] & C). destruct (C v Hv) as [D E].
  repeat (split; [auto|]). intros HT. exact (proj1 W_found e Hf (or_intror Logic.I) _ _ _ _ _ HW H HT v Hv).
Qed.

Lemma type_W : forall t st t' st', fresh_type consts t = true -> W st ->
  an_type callee run_fuel t st = Some (Ok (t', st')) ->
  W st' /\ step [] st st' /\ exists c, denotes t' c /\ (toward st' -> evt (fun K => type_meant K t = ret c)).
Proof.
  intros t st t' st' Hf HW H.
  destruct (proj2 W_good t Hf (or_intror Logic.I) _ _ _ HW H) as (A & [B _] & _ & c & D).
  repeat (split; [auto|]). exists c. split; [exact D|]. intros HT.
  destruct (proj2 W_found t Hf (or_intror Logic.I) _ _ _ HW H HT) as (c' & D' & E).
  rewrite (denotes_unique _ _ _ D D'). exact E.
Qed.

Lemma converted : forall a t r, wf_avalue a -> wf_type t -> is_convertible_to (av_type a) t = true ->
  value_evaluate_conversion a t = Ok r ->
  av_type r = t /\ forall w, shown r = ret w -> exists v, shown a = ret v /\ convert v t = ret w.
Proof.
  intros a t r Wa Wt Ec Ev.
  destruct (convert_recorded a (shown a) t r (shown_recorded a Wa) Wt Ec) as [Tr Rr]; [left; exact Ev|].
  split; [exact Tr|]. intros w Hw. pose proof (as_shown _ _ _ Rr Hw) as Hb. apply rbind_ok in Hb as (v & Hv & Hb). eauto.
Qed.

(** *** Changes of the state *)

Lemma J_set_value : forall st self v, J st -> st_values st self = None \/ st_values st self = Some v ->
  evt (fun K => static_type K self = ret (av_type v)) ->
  (forall c, shown v = ret c -> evt (fun K => static_value K self = ret c)) ->
  J (State (st_functions st) (fun p => if Pos.eqb p self then Some v else st_values st p) (st_vm st) (st_stack st)).
Proof.
  intros st self v [J1 J2 J3] Ho Ht Hv. split; cbn [st_values st_functions].
  - intros p w. destruct (Pos.eqb_spec p self) as [->|]; [|apply J1]. intros [= <-]. exact Ht.
  - intros p w c. destruct (Pos.eqb_spec p self) as [->|]; [|apply J2]. intros [= <-]. apply Hv.
  - intros n f Hf. destruct (J3 n f Hf) as (f0 & Hf0 & P & L). exists f0. split; [exact Hf0|]. split; [exact P|].
    destruct (f_level f); try exact L. destruct L as (L1 & L2 & L3). split; [exact L1|]. split; [exact L2|].
    eapply noted_function_mono; [| |exact L3].
    + intros p w Hp. cbn [st_values]. destruct (Pos.eqb_spec p self) as [->|]; [|exact Hp]. destruct Ho; congruence.
    + intros m g t Hm _. exists g. auto.
Qed.

Lemma W_set_value : forall st self v u st', set_value self (Some v) st = Some (Ok (u, st')) -> W st -> Inv st' ->
  st_values st self = None \/ st_values st self = Some v ->
  (toward st -> evt (fun K => static_type K self = ret (av_type v))
     /\ forall c, shown v = ret c -> evt (fun K => static_value K self = ret c)) ->
  W st'.
Proof.
  intros st self v u st' H [HI HJ] HI' Ho Hd. split; [exact HI'|]. unfold set_value in H. injection H as _ <-.
  intros HT. assert (HT' : toward st) by exact HT. destruct (Hd HT') as [A B]. apply J_set_value; auto.
Qed.

(** *** Statements *)

Definition declared (s : stmt) : Prop :=
  forall p d, In (p, d) (flat_map declared_here (stmts_in s)) -> decls p = Some d.

Record stmt_found (lv : level) (s s' : stmt) (st' : state) : Prop := {
  sf_W : W st';
  sf_annot : toward st' -> evt (fun K => annot_stmt K s s');
  sf_noted : lv = for_constant_evaluation -> noted_exprs (st_values st') (restrict st') s' }.

Lemma exprs_step : forall D a b s, Inv a -> step D a b ->
  noted_exprs (st_values a) (restrict a) s -> noted_exprs (st_values b) (restrict b) s.
Proof. intros D a b s HI HS. apply noted_exprs_map. intros e. eapply restrict_noted; eassumption. Qed.

Lemma unknown_not_shown : forall t c, shown (AV t None) = ret c -> False.
Proof. intros t c H. discriminate. Qed.

Lemma const_annot : forall self a, (forall x, shown a = ret x -> evt (fun K => static_value K self = ret x)) ->
  evt (fun K => self = self /\ forall v, Some a = Some (known v) -> static_value K self = ret v).
Proof.
  intros self a H. destruct (shown a) as [[x| | |]|] eqn:Ex.
  1: apply (evt_map _ _ _ _ (H x eq_refl)); intros K A; split; [reflexivity|]; intros v [= ->].
  1: rewrite (known_shown v) in Ex; injection Ex as <-; exact A.
  all: apply evt_true; intros K; split; [reflexivity|]; intros v [= ->]; rewrite (known_shown v) in Ex; discriminate.
Qed.

Lemma stmt_fresh_found : forall rn rt lv, (forall n, rn = Some n -> denotes n rt) ->
  forall s in_loop st s' st', fresh_stmt consts s = true -> shaped s = true -> free_for ids st (declares s) -> W st -> declared s ->
  an_stmt callee run_fuel rn lv in_loop s st = Some (Ok (s', st')) -> stmt_found lv s s' st'.
Proof.
  intros rn rt lv Hrn.
  induction s as [cv name self t e|cv name self t e|cv e|cv co b IHb|cv co b e IHb IHe|cv co b IHb
                 |cv t e|cv name lk e|cv l IH|e] using stmt_induction; intros in_loop st s' st' Hf Hsh Hfree HW Hdec H.
  all: pose proof (stmt_fresh_ok _ _ _ _ Hcallee rn rt lv Hrn _ _ _ _ _ Hf Hsh Hfree (proj1 HW) H) as HA.
  - (* const *)
    cbn [fresh_stmt] in Hf. apply andb_true_iff in Hf as [Hf Ht]. apply andb_true_iff in Hf as [Hf He].
    apply andb_true_iff in Hf as [Hcv Hc]. destruct cv; [discriminate|].
    pose proof (Hdec self (Decl_Const t e) (or_introl eq_refl)) as Hd0.
    destruct Hfree as [_ Hfree]. destruct (Hfree self (or_introl eq_refl)) as [Hnone Hids].
    cbn [an_stmt] in H. destruct t as [t|].
    + minv H. destruct (type_W _ _ _ _ Ht HW E) as (W1 & S1 & c & Hd & HM). minv H. minv H. minv E1. subst.
      minv H. minv E1. subst. destruct (expr_W _ _ _ _ _ _ _ He W1 E0 H1) as (W2 & S2 & Wv & _ & HF).
      rewrite (proj1 Hd) in H0. injection H0 as <-. cbn [av_type] in H.
      destruct (is_convertible_to (av_type a2) c) eqn:Ec; cbn [negb] in H; [|discriminate]. minv H. minv E1. subst.
      minv H. minv H. subst. destruct (converted _ _ _ Wv (proj2 (proj2 Hd)) Ec H0) as [Tr Vr].
      assert (S12 : step [] st s0) by (eapply step_trans; eassumption).
      destruct (free_step _ _ _ [self] S12) as [_ F]; [split; [repeat constructor; intros []|]; intros p [<-|[]]; auto|].
      destruct (F self (or_introl eq_refl)) as [Fn _].
      assert (Hdv : toward s0 -> evt (fun K => static_type K self = ret (av_type a1))
        /\ forall x, shown a1 = ret x -> evt (fun K => static_value K self = ret x)).
      { intros HT. pose proof (HM (toward_step _ _ _ _ _ _ (proj1 W1) S2 HT)) as HM'. specialize (HF HT). split.
        - rewrite Tr. apply evt_type. apply (evt_map _ _ _ _ HM'). intros K A. unfold declared_type. rewrite Hd0. exact A.
        - intros x Hx. destruct (Vr x Hx) as (v & Hv & Hcv'). apply evt_value.
          apply (evt_map2 _ _ _ _ _ HM' (fd_value _ _ _ _ _ _ HF eq_refl v Hv)). intros K A B.
          unfold constant_value. rewrite Hd0, B. cbn [rbind ret]. rewrite A. cbn [rbind ret]. exact Hcv'. }
      pose proof (W_set_value _ _ _ _ _ E1 W2 (an_inv _ _ _ _ _ _ _ _ HA) (or_introl Fn) Hdv) as W3.
      split; [exact W3| |discriminate || (intros _; exact Logic.I)].
      intros HT. cbn [annot_stmt].
      assert (HT' : toward s0) by (unfold set_value in E1; injection E1 as _ <-; exact HT).
      apply const_annot. exact (proj2 (Hdv HT')).
    + minv H. minv H. minv E0. subst. destruct (expr_W _ _ _ _ _ _ _ He HW E H0) as (W2 & S2 & Wv & _ & HF).
      minv H. minv H. minv E1. subst. minv H. subst.
      destruct (free_step _ _ _ [self] S2) as [_ F]; [split; [repeat constructor; intros []|]; intros p [<-|[]]; auto|].
      destruct (F self (or_introl eq_refl)) as [Fn _].
      assert (Hdv : toward s -> evt (fun K => static_type K self = ret (av_type a0))
        /\ forall x, shown a0 = ret x -> evt (fun K => static_value K self = ret x)).
      { intros HT. specialize (HF HT). split.
        - apply evt_type. apply (evt_map _ _ _ _ (fd_type _ _ _ _ _ _ HF)). intros K A. unfold declared_type. rewrite Hd0. exact A.
        - intros x Hx. apply evt_value.
          apply (evt_map _ _ _ _ (fd_value _ _ _ _ _ _ HF eq_refl x Hx)). intros K B.
          unfold constant_value. rewrite Hd0. exact B. }
      pose proof (W_set_value _ _ _ _ _ E0 W2 (an_inv _ _ _ _ _ _ _ _ HA) (or_introl Fn) Hdv) as W3.
      split; [exact W3| |intros _; exact Logic.I].
      intros HT. cbn [annot_stmt].
      assert (HT' : toward s) by (unfold set_value in E0; injection E0 as _ <-; exact HT).
      apply const_annot. exact (proj2 (Hdv HT')).
  - (* let *)
    cbn [fresh_stmt] in Hf. apply andb_true_iff in Hf as [Hf He]. apply andb_true_iff in Hf as [Hf Ht].
    apply andb_true_iff in Hf as [Hcv Hc].
    pose proof (Hdec self (Decl_Let t e) (or_introl eq_refl)) as Hd0.
    destruct Hfree as [_ Hfree]. destruct (Hfree self (or_introl eq_refl)) as [Hnone Hids].
    cbn [shaped] in Hsh. cbn [an_stmt] in H. destruct t as [t|].
    + minv H. destruct (type_W _ _ _ _ Ht HW E) as (W1 & S1 & c & Hd & HM). destruct e as [e|].
      * minv H. minv H. minv E1. subst. minv H. minv E1. subst.
        destruct (expr_W _ _ _ _ _ _ _ He W1 E0 H1) as (W2 & S2 & Wv & N & HF).
        rewrite (proj1 Hd) in H0. injection H0 as <-. cbn [av_type] in H.
        destruct (is_convertible_to (av_type a2) c) eqn:Ec; cbn [negb] in H; [|discriminate]. minv H. minv E1. subst.
        pose proof (mtype_denotes _ _ _ Hd H0) as ->. minv H. minv H. subst.
        assert (S12 : step [] st s0) by (eapply step_trans; eassumption).
        destruct (free_step _ _ _ [self] S12) as [_ F]; [split; [repeat constructor; intros []|]; intros p [<-|[]]; auto|].
        destruct (F self (or_introl eq_refl)) as [Fn Fi].
        destruct (inv_set_value _ _ _ _ _ _ _ E1 (proj1 W2) (unknown_wf _ (proj2 (proj2 Hd)))) as (I3 & S3 & _ & V3); [reflexivity|auto|].
        assert (Hdv : toward s0 -> evt (fun K => static_type K self = ret c)).
        { intros HT. pose proof (HM (toward_step _ _ _ _ _ _ (proj1 W1) S2 HT)) as HM'.
          apply evt_type. apply (evt_map _ _ _ _ HM'). intros K A. unfold declared_type. rewrite Hd0. exact A. }
        assert (W3 : W s1).
        { eapply W_set_value; [exact E1|exact W2|exact I3|auto|]. intros HT. split; [apply Hdv; exact HT|].
          intros x Hx. elim (unknown_not_shown _ _ Hx). }
        split; [exact W3| |].
        -- intros HT. assert (HT' : toward s0) by (eapply toward_step; [exact (proj1 W2)|exact S3|exact HT]).
           cbn [annot_stmt]. apply (evt_map2 _ _ _ _ _ (Hdv HT') (fd_annot _ _ _ _ _ _ (HF HT') eq_refl)). intros K A B.
           split; [reflexivity|]. split; [exact B|]. eexists. split; [reflexivity|]. exact A.
        -- intros El. cbn [noted_exprs]. eapply restrict_noted; [exact (proj1 W2)|exact S3|auto].
      * minv H. minv E0. subst. pose proof (mtype_denotes _ _ _ Hd H0) as ->. minv H. minv H. subst.
        destruct (free_step _ _ _ [self] S1) as [_ F]; [split; [repeat constructor; intros []|]; intros p [<-|[]]; auto|].
        destruct (F self (or_introl eq_refl)) as [Fn Fi].
        destruct (inv_set_value _ _ _ _ _ _ _ E0 (proj1 W1) (unknown_wf _ (proj2 (proj2 Hd)))) as (I3 & S3 & _ & V3); [reflexivity|auto|].
        split; [| |intros _; exact Logic.I].
        -- eapply W_set_value; [exact E0|exact W1|exact I3|auto|]. intros HT. split; [|intros x Hx; elim (unknown_not_shown _ _ Hx)].
           apply evt_type. apply (evt_map _ _ _ _ (HM HT)). intros K A. unfold declared_type. rewrite Hd0. exact A.
        -- intros _. apply evt_true. intros K. cbn [annot_stmt]. auto.
    + minv H. minv E. subst. minv H. minv H. minv E0. subst.
      destruct (expr_W _ _ _ _ _ _ _ He HW E H0) as (W2 & S2 & Wv & N & HF). minv H. minv H. subst.
      destruct (free_step _ _ _ [self] S2) as [_ F]; [split; [repeat constructor; intros []|]; intros p [<-|[]]; auto|].
      destruct (F self (or_introl eq_refl)) as [Fn Fi].
      destruct (inv_set_value _ _ _ _ _ _ _ E0 (proj1 W2) (unknown_wf _ (proj1 Wv))) as (I3 & S3 & _ & V3); [reflexivity|auto|].
      assert (Hdv : toward s -> evt (fun K => static_type K self = ret (av_type a1))).
      { intros HT. apply evt_type. apply (evt_map _ _ _ _ (fd_type _ _ _ _ _ _ (HF HT))). intros K A.
        unfold declared_type. rewrite Hd0. exact A. }
      split.
      * eapply W_set_value; [exact E0|exact W2|exact I3|auto|]. intros HT. split; [exact (Hdv HT)|].
        intros x Hx; elim (unknown_not_shown _ _ Hx).
      * intros HT. assert (HT' : toward s) by (eapply toward_step; [exact (proj1 W2)|exact S3|exact HT]).
        cbn [annot_stmt]. apply (evt_map2 _ _ _ _ _ (Hdv HT') (fd_annot _ _ _ _ _ _ (HF HT') eq_refl)). intros K A B.
        split; [reflexivity|]. split; [exact B|]. eexists. split; [reflexivity|]. exact A.
      * intros El. cbn [noted_exprs]. eapply restrict_noted; [exact (proj1 W2)|exact S3|auto].
  - (* static assert *)
    cbn [fresh_stmt] in Hf. apply andb_true_iff in Hf as [Hcv He]. destruct cv; [discriminate|].
    cbn [an_stmt] in H. minv H. minv H. minv E0. subst. destruct (expr_W _ _ _ _ _ _ _ He HW E H0) as (W2 & S2 & Wv & _ & HF).
    minv H. minv E0. subst. destruct (ctype_eqb (av_type a0) TBool) eqn:Eb; cbn [negb] in H; [|discriminate].
    minv H. minv E0. subst. destruct a2; cbn [negb] in H; [|discriminate]. minv H. subst.
    split; [exact W2| |intros _; exact Logic.I]. intros HT. cbn [annot_stmt].
    apply (fd_value _ _ _ _ _ _ (HF HT) eq_refl).
    match goal with HB : as_bool a0 = Ok true |- _ => apply as_bool_ok in HB as (z & -> & Ez) end.
    destruct Wv as [_ Wz]. specialize (Wz z eq_refl). cbn in Wz.
    destruct (Z.eqb_spec z 0) as [->|Nz]; [discriminate|]. assert (z = 1) as -> by (clear - Wz Nz; lia). reflexivity.
  - (* if without else *)
    cbn [fresh_stmt] in Hf. apply andb_true_iff in Hf as [Hf _]. apply andb_true_iff in Hf as [Hf Hb].
    apply andb_true_iff in Hf as [Hcv Hc]. cbn [shaped] in Hsh. apply andb_true_iff in Hsh as [Hsh _].
    apply andb_true_iff in Hsh as [Hsc Hsb]. cbn [declares] in Hfree. rewrite app_nil_r in Hfree.
    assert (Hdb : declared b).
    { intros p d Hp. apply Hdec. cbn [stmts_in flat_map]. rewrite app_nil_r. exact Hp. }
    cbn [an_stmt] in H. minv H. minv H. minv E0. subst.
    destruct (expr_W _ _ _ _ _ _ _ Hc HW E H0) as (W1 & S1 & Wv & N & HF).
    destruct (ctype_eqb (av_type a0) TBool) eqn:Eb; cbn [negb] in H; [|discriminate].
    minv H. pose proof (free_step _ _ _ _ S1 Hfree) as Hfree1.
    pose proof (stmt_fresh_ok _ _ _ _ Hcallee rn rt lv Hrn _ _ _ _ _ Hb Hsb Hfree1 (proj1 W1) E0) as HB.
    destruct (IHb _ _ _ _ Hb Hsb Hfree1 W1 Hdb E0) as [B1 B2 B3].
    minv H. minv E1. subst. minv H. subst. split; [exact B1| |].
    + intros HT. pose proof (toward_step _ _ _ _ _ _ (proj1 W1) (an_step _ _ _ _ _ _ _ _ HB) HT) as HT'.
      apply (evt_map2 _ _ _ _ _ (fd_annot _ _ _ _ _ _ (HF HT') eq_refl) (B2 HT)). intros K A B. cbn [annot_stmt]. auto.
    + intros El. cbn [noted_exprs]. split; [|auto].
      eapply restrict_noted; [exact (proj1 W1)|exact (an_step _ _ _ _ _ _ _ _ HB)|auto].
  - (* if with else *)
    cbn [fresh_stmt] in Hf. apply andb_true_iff in Hf as [Hf Hfe]. apply andb_true_iff in Hf as [Hf Hb].
    apply andb_true_iff in Hf as [Hcv Hc]. cbn [shaped] in Hsh. apply andb_true_iff in Hsh as [Hsh Hse].
    apply andb_true_iff in Hsh as [Hsc Hsb]. cbn [declares] in Hfree.
    assert (Hdb : declared b).
    { intros p d Hp. apply Hdec. cbn [stmts_in flat_map declared_here app]. rewrite flat_map_app. apply in_or_app. auto. }
    assert (Hde : declared e).
    { intros p d Hp. apply Hdec. cbn [stmts_in flat_map declared_here app]. rewrite flat_map_app. apply in_or_app. auto. }
    cbn [an_stmt] in H. minv H. minv H. minv E0. subst.
    destruct (expr_W _ _ _ _ _ _ _ Hc HW E H0) as (W1 & S1 & Wv & N & HF).
    destruct (ctype_eqb (av_type a0) TBool) eqn:Eb; cbn [negb] in H; [|discriminate].
    minv H. destruct (free_app _ _ _ _ (free_step _ _ _ _ S1 Hfree)) as [Fb Fe].
    pose proof (stmt_fresh_ok _ _ _ _ Hcallee rn rt lv Hrn _ _ _ _ _ Hb Hsb Fb (proj1 W1) E0) as HB.
    destruct (IHb _ _ _ _ Hb Hsb Fb W1 Hdb E0) as [B1 B2 B3]. pose proof (an_step _ _ _ _ _ _ _ _ HB) as SB.
    minv H. minv E1. minv E1. subst. minv H. subst.
    pose proof (stmt_fresh_ok _ _ _ _ Hcallee rn rt lv Hrn _ _ _ _ _ Hfe Hse (Fe _ SB) (proj1 B1) E2) as HC.
    destruct (IHe _ _ _ _ Hfe Hse (Fe _ SB) B1 Hde E2) as [C1 C2 C3]. pose proof (an_step _ _ _ _ _ _ _ _ HC) as SC.
    split; [exact C1| |].
    + intros HT. pose proof (toward_step _ _ _ _ _ _ (proj1 B1) SC HT) as HT1.
      pose proof (toward_step _ _ _ _ _ _ (proj1 W1) SB HT1) as HT2.
      apply (evt_map3 _ _ _ _ _ _ (fd_annot _ _ _ _ _ _ (HF HT2) eq_refl) (B2 HT1) (C2 HT)). intros K A B C. cbn [annot_stmt]. auto.
    + intros El. cbn [noted_exprs]. split; [|split; [|auto]].
      * eapply restrict_noted; [exact (proj1 B1)|exact SC|]. eapply restrict_noted; [exact (proj1 W1)|exact SB|auto].
      * eapply exprs_step; [exact (proj1 B1)|exact SC|auto].
  - (* while *)
    cbn [fresh_stmt] in Hf. apply andb_true_iff in Hf as [Hf Hb].
    apply andb_true_iff in Hf as [Hcv Hc]. cbn [shaped] in Hsh.
    apply andb_true_iff in Hsh as [Hsc Hsb]. cbn [declares] in Hfree.
    assert (Hdb : declared b).
    { intros p d Hp. apply Hdec. cbn [stmts_in flat_map]. exact Hp. }
    cbn [an_stmt] in H. minv H. minv H. minv E0. subst.
    destruct (expr_W _ _ _ _ _ _ _ Hc HW E H0) as (W1 & S1 & Wv & N & HF).
    destruct (ctype_eqb (av_type a0) TBool) eqn:Eb; cbn [negb] in H; [|discriminate].
    minv H. pose proof (free_step _ _ _ _ S1 Hfree) as Hfree1.
    pose proof (stmt_fresh_ok _ _ _ _ Hcallee rn rt lv Hrn _ _ _ _ _ Hb Hsb Hfree1 (proj1 W1) E0) as HB.
    destruct (IHb _ _ _ _ Hb Hsb Hfree1 W1 Hdb E0) as [B1 B2 B3].
    minv H. subst. split; [exact B1| |].
    + intros HT. pose proof (toward_step _ _ _ _ _ _ (proj1 W1) (an_step _ _ _ _ _ _ _ _ HB) HT) as HT'.
      apply (evt_map2 _ _ _ _ _ (fd_annot _ _ _ _ _ _ (HF HT') eq_refl) (B2 HT)). intros K A B. cbn [annot_stmt]. auto.
    + intros El. cbn [noted_exprs]. split; [|auto].
      eapply restrict_noted; [exact (proj1 W1)|exact (an_step _ _ _ _ _ _ _ _ HB)|auto].
  - (* control *)
    cbn [fresh_stmt] in Hf. apply andb_true_iff in Hf as [Hcv He].
    cbn [an_stmt] in H. minv H. minv E. subst. pose proof (Hrn _ eq_refl) as Hd. destruct t.
    1,2: destruct in_loop; cbn [negb] in H; [|discriminate]; minv H; subst;
      (split; [exact HW|intros _; apply evt_true; intros K; cbn [annot_stmt]; auto|intros _; exact Logic.I]).
    minv H. minv E. subst. pose proof (mtype_denotes _ _ _ Hd H0) as ->. destruct e as [e|].
    + minv H. minv H. minv E0. subst. destruct (expr_W _ _ _ _ _ _ _ He HW E H1) as (W1 & S1 & Wv & N & HF).
      destruct (is_convertible_to (av_type a1) rt) eqn:Ec; cbn [negb] in H; [|discriminate]. minv H. minv E0. subst.
      minv H. subst. split; [exact W1| |].
      * intros HT. apply (evt_map _ _ _ _ (fd_annot _ _ _ _ _ _ (HF HT) eq_refl)). intros K A. cbn [annot_stmt]. auto.
      * intros El. cbn [noted_exprs]. auto.
    + destruct (ctype_eqb rt TVoid) eqn:Ev; cbn [negb] in H; [|discriminate]. minv H. subst.
      split; [exact HW|intros _; apply evt_true; intros K; cbn [annot_stmt]; auto|intros _; exact Logic.I].
  - (* assign *)
    cbn [fresh_stmt] in Hf. apply andb_true_iff in Hf as [Hf Hlk]. apply andb_true_iff in Hf as [Hcv He].
    cbn [an_stmt] in H. minv H. minv E. subst. destruct a as [[] n|p|bi]; try discriminate.
    minv H. minv H. minv E0. subst. destruct (expr_W _ _ _ _ _ _ _ He HW E H0) as (W1 & S1 & Wv & N & HF).
    minv H. minv E0. subst. minv H. minv E0. subst. destruct (inv_values _ _ _ (proj1 W1) _ _ H1) as [Wd Wc].
    destruct a1 as [td vd]. assert (vd = None) as -> by (apply Wc; apply negb_true_iff; exact Hlk).
    cbn [av_type] in H. destruct (is_convertible_to (av_type a0) td) eqn:Ec; cbn [negb] in H; [|discriminate].
    minv H. minv E0. subst. minv H. subst. split; [exact W1| |].
    + intros HT. cbn [annot_stmt].
      apply (evt_map2 _ _ _ _ _ (fd_annot _ _ _ _ _ _ (HF HT) eq_refl) (j_type _ _ _ (proj2 W1 HT) _ _ H1)). intros K A B.
      split; [reflexivity|]. split; [exact A|]. eexists. split; [reflexivity|].
      match goal with HC : recorded_result _ td ?r |- _ =>
        destruct (convert_recorded a0 (shown a0) td r (shown_recorded a0 Wv) (proj1 Wd) Ec HC) as [Tr _] end.
      rewrite Tr. exact B.
    + intros El. cbn [noted_exprs]. auto.
  - (* block *)
    rewrite an_block_unfold in H. minv H. minv H. subst.
    cbn [fresh_stmt] in Hf. apply andb_true_iff in Hf as [_ Hf]. cbn [shaped] in Hsh. cbn [declares] in Hfree.
    assert (K : forall l st l' st', Forall (fun s => forall in_loop st s' st', fresh_stmt consts s = true -> shaped s = true ->
        free_for ids st (declares s) -> W st -> declared s ->
        an_stmt callee run_fuel rn lv in_loop s st = Some (Ok (s', st')) -> stmt_found lv s s' st') l ->
      forallb (fresh_stmt consts) l = true -> forallb shaped l = true -> free_for ids st (flat_map declares l) -> W st ->
      (forall s, In s l -> declared s) ->
      an_children callee run_fuel rn lv in_loop l st = Some (Ok (l', st')) ->
      W st' /\ step (flat_map declares l) st st' /\ (toward st' -> evt (fun K => all_annot_stmt K l l'))
      /\ (lv = for_constant_evaluation -> all_noted_exprs (st_values st') (restrict st') l')).
    { clear - Hrn Hcallee Hnames Hdirect Hsize Hfound.
      induction l as [|s l IHl]; intros st l' st' HF Hf Hsh Hfree HW Hdec H.
      - cbn [an_children] in H. minv H. subst. split; [exact HW|]. split; [apply step_refl|].
        split; [intros _; apply evt_true; intros K; exact Logic.I|intros _; exact Logic.I].
      - cbn [an_children] in H. minv H. minv H. minv H. subst. inversion HF as [|? ? H1 H2]; subst.
        cbn [forallb] in Hf, Hsh. apply andb_true_iff in Hf as [Hf1 Hf2]. apply andb_true_iff in Hsh as [Hs1 Hs2].
        cbn [flat_map] in *. destruct (free_app _ _ _ _ Hfree) as [F1 F2].
        pose proof (stmt_fresh_ok _ _ _ _ Hcallee rn rt lv Hrn _ _ _ _ _ Hf1 Hs1 F1 (proj1 HW) E) as HB.
        pose proof (an_step _ _ _ _ _ _ _ _ HB) as SB.
        destruct (H1 _ _ _ _ Hf1 Hs1 F1 HW (Hdec s (or_introl eq_refl)) E) as [B1 B2 B3].
        destruct (IHl _ _ _ H2 Hf2 Hs2 (F2 _ SB) B1 (fun x Hx => Hdec x (or_intror Hx)) E0) as (C1 & C2 & C3 & C4).
        split; [exact C1|]. split; [|split].
        + eapply step_trans; (eapply step_weaken; [|eassumption]); [apply incl_appl, incl_refl|apply incl_appr, incl_refl].
        + intros HT. pose proof (toward_step _ _ _ _ _ _ (proj1 B1) C2 HT) as HT'.
          apply (evt_map2 _ _ _ _ _ (B2 HT') (C3 HT)). intros K A B. split; [exact A|exact B].
        + intros El. split; [eapply exprs_step; [exact (proj1 B1)|exact C2|auto]|exact (C4 El)]. }
    assert (Hdl : forall s, In s l -> declared s).
    { intros x Hs p d Hp. apply Hdec. cbn [stmts_in flat_map declared_here app]. clear - Hs Hp. induction l as [|y l IHl]; [destruct Hs|].
      cbn [flat_map]. rewrite flat_map_app. apply in_or_app. destruct Hs as [->|Hs]; auto. }
    destruct (K _ _ _ _ IH Hf Hsh Hfree HW Hdl E) as (C1 & C2 & C3 & C4).
    split; auto.
  - (* expression *)
    cbn [fresh_stmt] in Hf. cbn [an_stmt] in H. minv H. minv H. subst.
    cbn [shaped] in Hsh. destruct e as [| | | |cv name lk is args| |]; try discriminate.
    assert (exists cv' lk' args', a = ECall (Some cv') name lk' is args') as (cv' & lk' & args' & ->).
    { pose proof E as E'. rewrite an_call_unfold in E'. minv E'. minv E'. destruct a1. minv E'. minv E'. subst. eauto. }
    destruct (expr_W _ _ _ _ _ _ cv' Hf HW E eq_refl) as (W1 & S1 & Wv & N & HF). split; [exact W1| |].
    + intros HT. apply (fd_annot _ _ _ _ _ _ (HF HT) eq_refl).
    + intros El. exact (N eq_refl El).
Qed.

(** *** Analysis for constant evaluation of what has been analysed before *)

Lemma again_call : True -> forall lv cx lk args st v st', W st -> Forall wf_avalue args ->
  an_call callee run_fuel lv cx lk args st = Some (Ok (v, st')) ->
  W st' /\ step [] st st' /\ wf_avalue v /\ (cx = normal -> True -> call_noted (st_functions st') lk args v).
Proof.
  intros _ lv cx lk args st v st' HW Hw H. destruct (W_call Logic.I _ _ _ _ _ _ _ HW Hw H) as (A & [B _] & C & _).
  repeat (split; [assumption|]). apply (call_ok _ _ _ _ Hcallee _ _ _ _ _ _ _ (proj1 HW) Hw H).
Qed.

Lemma expr_again_W : forall e lv st e' st', noted (st_values st) (st_functions st) e -> W st ->
  an_expr callee run_fuel lv normal e st = Some (Ok (e', st')) -> W st' /\ step [] st st' /\ e' = e.
Proof.
  exact (noted_again callee run_fuel W (step []) True st_functions (fun _ => True) (step_refl ids []) (step_trans ids [])
    (fun st st' e (H : W st) => step_noted _ _ [] st st' e (proj1 H)) again_call Logic.I (fun _ => Logic.I)).
Qed.

Lemma expr_again_noted : forall e st e' st', noted (st_values st) (st_functions st) e -> W st ->
  an_expr callee run_fuel for_constant_evaluation normal e st = Some (Ok (e', st')) ->
  noted (st_values st') (restrict st') e.
Proof.
  induction e as [cv e t IH|cv l c r IHl IHc IHr|cv op l r IHl IHr|cv op e IH|cv name lk is args IH
                 |cv name lk g|cv lit t] using expr_induction; intros st e' st' Hn HW H.
  - destruct Hn as (Hn & v & t0 & r & Ev & Hd & Hc & Hr & ->). cbn [an_expr] in H. minv H.
    pose proof (IH _ _ _ Hn HW E) as N.
    destruct (expr_again_W _ _ _ _ _ Hn HW E) as (W1 & R1 & ->). minv H. apply (denotes_again _ _ _ _ _ _ _ Hd) in E0.
    destruct E0 as [-> ->]. minv H. minv E0. subst. minv H. minv E0. subst.
    rewrite Ev in H0. injection H0 as <-. pose proof (mtype_denotes _ _ _ Hd H1) as ->.
    rewrite Hc in H. cbn [negb] in H. minv H. minv E0. subst. minv H. subst.
    cbn [noted]. split; [exact N|]. eauto 10.
  - destruct Hn as (Hl & Hc & Hr & lv1 & cv1 & rv & t & v & El & Ec & Er & Ht & Hv & ->). cbn [an_expr] in H. minv H.
    pose proof (IHc _ _ _ Hc HW E) as N1.
    destruct (expr_again_W _ _ _ _ _ Hc HW E) as (W1 & R1 & ->). rewrite Ec in H.
    destruct (ctype_eqb (av_type cv1) TBool); cbn [negb] in H; [|discriminate]. cbn [is_constant andb negb orb] in H.
    minv H. minv E0. subst. minv H.
    pose proof (step_noted _ _ _ _ _ _ (proj1 HW) R1 Hl) as Hl1.
    pose proof (IHl _ _ _ Hl1 W1 E0) as N2.
    destruct (expr_again_W _ _ _ _ _ Hl1 W1 E0) as (W2 & R2 & ->). minv H.
    pose proof (step_noted _ _ _ _ _ _ (proj1 W1) R2 (step_noted _ _ _ _ _ _ (proj1 HW) R1 Hr)) as Hr1.
    pose proof (IHr _ _ _ Hr1 W2 E1) as N3.
    destruct (expr_again_W _ _ _ _ _ Hr1 W2 E1) as (W3 & R3 & ->).
    rewrite El, Er in H. minv H. minv E2. subst. minv H. minv E2. subst. minv H. minv E2. subst. minv H. subst.
    cbn [noted]. split; [eapply restrict_noted; [exact (proj1 W2)|exact R3|exact N2]|].
    split; [eapply restrict_noted; [exact (proj1 W2)|exact R3|]; eapply restrict_noted; [exact (proj1 W1)|exact R2|exact N1]|].
    split; [exact N3|]. exists lv1, cv1, rv, t, v. auto 10.
  - destruct Hn as (Hl & Hr & lv1 & rv & t & v & El & Er & Ht & Hv & ->). cbn [an_expr] in H. minv H.
    pose proof (IHl _ _ _ Hl HW E) as N1.
    destruct (expr_again_W _ _ _ _ _ Hl HW E) as (W1 & R1 & ->). rewrite El in H. minv H. minv E0. subst.
    minv H. assert (a0 = normal /\ s0 = s) as [-> ->].
    { destruct op; cbn [is_constant] in E0; minv E0; auto. }
    minv H. pose proof (step_noted _ _ _ _ _ _ (proj1 HW) R1 Hr) as Hr1.
    pose proof (IHr _ _ _ Hr1 W1 E1) as N2.
    destruct (expr_again_W _ _ _ _ _ Hr1 W1 E1) as (W2 & R2 & ->). rewrite Er in H. minv H. minv E2. subst.
    minv H. minv E2. subst. rewrite Ht in H2. injection H2 as <-.
    assert (Hs : st' = s0).
    { destruct (value_evaluate_binary_operator lv1 op rv) as [x|x| |] eqn:Ev; minv H; minv E2; subst; minv H; subst; reflexivity. }
    subst st'. cbn [noted]. split; [eapply restrict_noted; [exact (proj1 W1)|exact R2|exact N1]|].
    split; [exact N2|]. exists lv1, rv, t, v. auto 10.
  - destruct Hn as (Hn & x & t & v & Ex & Ht & Hv & ->). cbn [an_expr] in H. minv H.
    pose proof (IH _ _ _ Hn HW E) as N.
    destruct (expr_again_W _ _ _ _ _ Hn HW E) as (W1 & R1 & ->). minv H. minv E0. subst. rewrite Ex in H0. injection H0 as <-.
    minv H. minv E0. subst. rewrite Ht in H0. injection H0 as <-.
    assert (Hs : st' = s).
    { destruct (value_evaluate_unary_operator op x) as [y|y| |] eqn:Ev; minv H; minv E0; subst; minv H; subst; reflexivity. }
    subst st'. cbn [noted]. split; [exact N|]. exists x, t, v. auto 10.
  - rewrite an_call_unfold in H. minv H. minv E. subst. minv H. destruct a0 as [args' vs]. minv H. minv H. subst.
    pose proof Hn as [Hargs Hlk]. apply (all_noted_Forall (st_values st) (st_functions st)) in Hargs.
    assert (G : forall args, Forall (fun e => forall st e' st', noted (st_values st) (st_functions st) e -> W st ->
                an_expr callee run_fuel for_constant_evaluation normal e st = Some (Ok (e', st')) ->
                noted (st_values st') (restrict st') e) args ->
              forall st args' vs st', Forall (noted (st_values st) (st_functions st)) args -> W st ->
              an_args callee run_fuel for_constant_evaluation normal args st = Some (Ok ((args', vs), st')) ->
              W st' /\ step [] st st' /\ args' = args /\ map expr_cv args = map Some vs /\ Forall wf_avalue vs
              /\ Forall (noted (st_values st') (restrict st')) args).
    { clear - Hcallee Hfound Hnames Hdirect Hsize. induction args as [|e args IHa]; intros HF st args' vs st' Hn HW H.
      - cbn [an_args] in H. minv H. injection H as -> ->. subst. repeat (split; [auto using step_refl|]). constructor.
      - inversion HF as [|? ? He HF']; subst. inversion Hn as [|? ? Hne Hn']; subst. cbn [an_args] in H. minv H.
        pose proof (He _ _ _ Hne HW E) as N.
        destruct (expr_again_W _ _ _ _ _ Hne HW E) as (W1 & R1 & ->). minv H. minv E0. subst. minv H. destruct a0 as [rest' vs'].
        minv H. injection H as -> ->. subst.
        destruct (IHa HF' _ _ _ _ (Forall_impl _ (fun x Hx => step_noted _ _ _ _ _ _ (proj1 HW) R1 Hx) Hn') W1 E0) as (W2 & R2 & -> & M & V & N2).
        split; [exact W2|]. split; [eapply step_trans; eassumption|]. split; [reflexivity|]. split; [cbn [map]; congruence|].
        split; [constructor; [|exact V]; eapply noted_wf; eassumption|]. constructor; [|exact N2].
        eapply restrict_noted; [exact (proj1 W1)|exact R2|exact N]. }
    destruct (G args IH _ _ _ _ Hargs HW E) as (W1 & R1 & -> & M1 & V1 & N1).
    destruct (W_call Logic.I _ _ _ _ _ _ _ W1 V1 E0) as (W2 & [R2 _] & _ & N2). specialize (N2 eq_refl eq_refl).
    assert (R12 : step [] st s0) by (eapply step_trans; eassumption).
    pose proof (step_noted _ _ _ _ _ _ (proj1 HW) R12 Hn) as [_ Hlk'].
    cbn [noted]. split.
    { apply (all_noted_Forall (st_values s0) (restrict s0)). eapply Forall_impl; [|exact N1]. intros x. apply restrict_noted with (1 := proj1 W1) (2 := R2). }
    destruct a as [[] n|p|[]]; try contradiction.
    + destruct Hlk' as (f & t & Hf & HA & Hd & ->). destruct N2 as (f' & t' & Hf' & _ & Hd' & _).
      exists f', t'. pose proof Hf' as Hf2. apply restrict_some in Hf2 as [Hf2 _]. rewrite Hf in Hf2. injection Hf2 as <-.
      split; [exact Hf'|]. split; [exact HA|]. split; [exact Hd'|]. rewrite (denotes_unique _ _ _ Hd Hd'). reflexivity.
    + exact Hlk'.
  - destruct (noted_cv _ _ _ Hn) as [v Hv]. cbn [expr_cv] in Hv. subst cv. cbn [an_expr] in H. minv H. subst. exact Hn.
  - destruct (noted_cv _ _ _ Hn) as [v Hv]. cbn [expr_cv] in Hv. subst cv. cbn [an_expr] in H. minv H. minv E. minv H. subst. exact Hn.
Qed.

Lemma stmt_again_found : forall rn rt, (forall n, rn = Some n -> denotes n rt) ->
  forall s in_loop st s' st', noted_stmt (st_values st) (st_functions st) rt s -> marked s -> W st ->
  an_stmt callee run_fuel rn for_constant_evaluation in_loop s st = Some (Ok (s', st')) ->
  W st' /\ noted_exprs (st_values st') (restrict st') s.
Proof.
  intros rn rt Hrn.
  assert (SA : forall s in_loop st s' st', noted_stmt (st_values st) (st_functions st) rt s -> marked s -> W st ->
    an_stmt callee run_fuel rn for_constant_evaluation in_loop s st = Some (Ok (s', st')) -> Inv st' /\ step [] st st' /\ s' = s).
  { intros s in_loop st s' st' Hn Hm HW. eapply stmt_again_ok; [exact Hcallee|exact Hrn|exact Hn|exact Hm|exact (proj1 HW)]. }
  assert (SV : forall st self v u st', set_value self (Some v) st = Some (Ok (u, st')) -> W st -> st_values st self = Some v ->
    Inv st' -> W st').
  { intros st self v u st' H HW Hv HI. eapply W_set_value; [exact H|exact HW|exact HI|auto|].
    intros HT. destruct (proj2 HW HT) as [A B _]. split; [exact (A _ _ Hv)|]. intros c Hc. exact (B _ _ _ Hv Hc). }
  induction s as [cv name self t e|cv name self t e|cv e|cv co b IHb|cv co b e IHb IHe|cv co b IHb
                 |cv t e|cv name lk e|cv l IH|e] using stmt_induction; intros in_loop st s' st' Hn Hm HW H.
  all: pose proof (SA _ _ _ _ _ Hn Hm HW H) as (HI' & _ & _).
  - destruct Hn as [v ->]. cbn [an_stmt] in H. minv H. subst. cbn [noted_exprs]. auto.
  - destruct Hn as (ty & Hw & Hv & -> & Ht & He). cbn [an_stmt] in H. destruct t as [t|].
    + minv H. destruct (denotes_again _ _ _ _ _ _ _ Ht E) as [-> ->]. destruct e as [e|].
      * destruct He as (He & v & Ev & Ec). minv H. pose proof (expr_again_noted _ _ _ _ He HW E0) as N.
        destruct (expr_again_W _ _ _ _ _ He HW E0) as (W1 & S1 & ->).
        minv H. minv E1. subst. rewrite (proj1 Ht) in H0. injection H0 as <-. minv H. minv E1. subst.
        rewrite Ev in H0. injection H0 as <-. cbn [av_type] in H. rewrite Ec in H. cbn [negb] in H. minv H. minv E1. subst.
        pose proof (mtype_denotes _ _ _ Ht H0) as ->. minv H. minv H. subst.
        pose proof (s_values _ _ _ _ S1 _ _ Hv) as Hv'.
        pose proof (SV _ _ _ _ _ E1 W1 Hv' HI') as W2. split; [exact W2|].
        destruct (inv_set_value _ _ _ _ _ _ _ E1 (proj1 W1) (unknown_wf _ Hw)) as (_ & _ & S2 & _); [reflexivity|auto|].
        cbn [noted_exprs]. eapply restrict_noted; [exact (proj1 W1)|exact (S2 Hv')|exact N].
      * minv H. minv E0. subst. pose proof (mtype_denotes _ _ _ Ht H0) as ->. minv H. minv H. subst.
        pose proof (SV _ _ _ _ _ E0 HW Hv HI') as W2. split; [exact W2|exact Logic.I].
    + destruct Ht as (e0 & v & -> & Ev & <-). destruct He as (He & v' & Ev' & Ec). minv H. minv E. subst.
      injection H0 as <-. minv H. pose proof (expr_again_noted _ _ _ _ He HW E) as N.
      destruct (expr_again_W _ _ _ _ _ He HW E) as (W1 & S1 & ->). minv H. minv E0. subst.
      rewrite Ev in H0. injection H0 as <-. minv H. minv H. subst. pose proof (s_values _ _ _ _ S1 _ _ Hv) as Hv'.
      pose proof (SV _ _ _ _ _ E0 W1 Hv' HI') as W2. split; [exact W2|].
      destruct (inv_set_value _ _ _ _ _ _ _ E0 (proj1 W1) (unknown_wf _ Hw)) as (_ & _ & S2 & _); [reflexivity|auto|].
      cbn [noted_exprs]. eapply restrict_noted; [exact (proj1 W1)|exact (S2 Hv')|exact N].
  - destruct Hn as [v ->]. cbn [an_stmt] in H. minv H. minv E. subst. minv H. subst. cbn [noted_exprs]. auto.
  - destruct Hn as (Hc & (c & Ec & Et) & Hb & _). destruct Hm as (-> & Hm & _). cbn [an_stmt] in H. minv H.
    pose proof (expr_again_noted _ _ _ _ Hc HW E) as N.
    destruct (expr_again_W _ _ _ _ _ Hc HW E) as (W1 & S1 & ->). minv H. minv E0. subst. rewrite Ec in H0. injection H0 as <-.
    rewrite Et in H. cbn [ctype_eqb negb] in H. minv H.
    pose proof (step_noted_stmt _ _ _ _ _ _ _ (proj1 HW) S1 Hb) as Hb1.
    destruct (SA _ _ _ _ _ Hb1 Hm W1 E0) as (_ & S2 & _). destruct (IHb _ _ _ _ Hb1 Hm W1 E0) as (W2 & N2).
    minv H. minv E1. subst. minv H. subst. split; [exact W2|]. cbn [noted_exprs].
    split; [eapply restrict_noted; [exact (proj1 W1)|exact S2|exact N]|auto].
  - destruct Hn as (Hc & (c & Ec & Et) & Hb & He). destruct Hm as (-> & Hm & Hme). cbn [an_stmt] in H. minv H.
    pose proof (expr_again_noted _ _ _ _ Hc HW E) as N.
    destruct (expr_again_W _ _ _ _ _ Hc HW E) as (W1 & S1 & ->). minv H. minv E0. subst. rewrite Ec in H0. injection H0 as <-.
    rewrite Et in H. cbn [ctype_eqb negb] in H. minv H.
    pose proof (step_noted_stmt _ _ _ _ _ _ _ (proj1 HW) S1 Hb) as Hb1.
    destruct (SA _ _ _ _ _ Hb1 Hm W1 E0) as (_ & S2 & _). destruct (IHb _ _ _ _ Hb1 Hm W1 E0) as (W2 & N2).
    assert (S12 : step [] st s0) by (eapply step_trans; eassumption).
    minv H. minv E1. pose proof (step_noted_stmt _ _ _ _ _ _ _ (proj1 HW) S12 He) as He1.
    destruct (SA _ _ _ _ _ He1 Hme W2 E2) as (_ & S3 & _). destruct (IHe _ _ _ _ He1 Hme W2 E2) as (W3 & N3).
    minv E1. subst. minv H. subst. split; [exact W3|]. cbn [noted_exprs].
    split; [eapply restrict_noted; [exact (proj1 W2)|exact S3|]; eapply restrict_noted; [exact (proj1 W1)|exact S2|exact N]|].
    split; [eapply exprs_step; [exact (proj1 W2)|exact S3|exact N2]|exact N3].
  - destruct Hn as (Hc & (c & Ec & Et) & Hb). destruct Hm as (-> & Hm). cbn [an_stmt] in H. minv H.
    pose proof (expr_again_noted _ _ _ _ Hc HW E) as N.
    destruct (expr_again_W _ _ _ _ _ Hc HW E) as (W1 & S1 & ->). minv H. minv E0. subst. rewrite Ec in H0. injection H0 as <-.
    rewrite Et in H. cbn [ctype_eqb negb] in H. minv H.
    pose proof (step_noted_stmt _ _ _ _ _ _ _ (proj1 HW) S1 Hb) as Hb1.
    destruct (SA _ _ _ _ _ Hb1 Hm W1 E0) as (_ & S2 & _). destruct (IHb _ _ _ _ Hb1 Hm W1 E0) as (W2 & N2).
    minv H. subst. split; [exact W2|]. cbn [noted_exprs].
    split; [eapply restrict_noted; [exact (proj1 W1)|exact S2|exact N]|exact N2].
  - cbn [an_stmt] in H. minv H. minv E. subst. pose proof (Hrn _ eq_refl) as Hd. destruct t.
    1,2: cbn [marked] in Hm; destruct in_loop; cbn [negb] in H; [|discriminate]; minv H; subst; split; [exact HW|exact Logic.I].
    minv H. minv E. subst. pose proof (mtype_denotes _ _ _ Hd H0) as ->. destruct e as [e|].
    + destruct Hn as (He & v & r & Ev & Ec & Er & ->). minv H. pose proof (expr_again_noted _ _ _ _ He HW E) as N.
      destruct (expr_again_W _ _ _ _ _ He HW E) as (W1 & S1 & ->).
      minv H. minv E0. subst. rewrite Ev in H1. injection H1 as <-. rewrite Ec in H. cbn [negb] in H. minv H. minv E0. subst.
      minv H. subst. split; [exact W1|exact N].
    + destruct Hn as [-> ->]. cbn [ctype_eqb negb] in H. minv H. subst. split; [exact HW|exact Logic.I].
  - destruct Hn as (He & n & t & v & r & -> & Hw & Hv & Ev & Ec & Er & ->). cbn [an_stmt] in H. minv H. minv E. subst.
    injection H0 as <-. minv H. pose proof (expr_again_noted _ _ _ _ He HW E) as N.
    destruct (expr_again_W _ _ _ _ _ He HW E) as (W1 & S1 & ->). minv H. minv E0. subst.
    rewrite Ev in H0. injection H0 as <-. minv H. minv E0. subst. minv H. minv E0. subst.
    rewrite (s_values _ _ _ _ S1 _ _ Hv) in H0. injection H0 as <-. cbn [av_type] in H. rewrite Ec in H. cbn [negb] in H.
    minv H. minv E0. subst. minv H. subst. split; [exact W1|exact N].
  - rewrite an_block_unfold in H. destruct Hm as [-> Hm]. minv H. minv H. subst.
    assert (K : forall l st l' st', Forall (fun s => forall in_loop st s' st',
        noted_stmt (st_values st) (st_functions st) rt s -> marked s -> W st ->
        an_stmt callee run_fuel rn for_constant_evaluation in_loop s st = Some (Ok (s', st')) ->
        W st' /\ noted_exprs (st_values st') (restrict st') s) l ->
      all_noted_stmt (st_values st) (st_functions st) rt l ->
      (fix all (l : list stmt) : Prop := match l with [] => True | s1 :: l' => marked s1 /\ all l' end) l ->
      W st -> an_children callee run_fuel rn for_constant_evaluation in_loop l st = Some (Ok (l', st')) ->
      W st' /\ step [] st st' /\ all_noted_exprs (st_values st') (restrict st') l).
    { clear - SA. induction l as [|s l IHl]; intros st l' st' HF Hn Hm HW H.
      - cbn [an_children] in H. minv H. subst. split; [exact HW|]. split; [apply step_refl|exact Logic.I].
      - cbn [an_children] in H. minv H. minv H. minv H. subst. inversion HF as [|? ? H1 H2]; subst.
        destruct Hn as [N1 N2]. destruct Hm as [M1 M2]. destruct (SA _ _ _ _ _ N1 M1 HW E) as (_ & S1 & _).
        destruct (H1 _ _ _ _ N1 M1 HW E) as (W1 & X1).
        assert (N2' : all_noted_stmt (st_values s0) (st_functions s0) rt l).
        { clear -N2 HW S1. induction l as [|s l IHl]; [exact Logic.I|]. destruct N2 as [N1 N2].
          split; [eapply step_noted_stmt; [exact (proj1 HW)|eassumption..]|auto]. }
        destruct (IHl _ _ _ H2 N2' M2 W1 E0) as (W2 & S2 & X2). split; [exact W2|].
        split; [eapply step_trans; eassumption|]. split; [eapply exprs_step; [exact (proj1 W1)|exact S2|exact X1]|exact X2]. }
    destruct (K _ _ _ _ IH Hn Hm HW E) as (W1 & S1 & X). split; [exact W1|exact X].
  - cbn [an_stmt] in H. minv H. minv H. subst. pose proof (expr_again_noted _ _ _ _ Hn HW E) as N.
    destruct (expr_again_W _ _ _ _ _ Hn HW E) as (W1 & S1 & ->). split; [exact W1|exact N].
Qed.

End Stmts.
