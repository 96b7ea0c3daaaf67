(** What analysis finds out about expressions that were not analysed before, compared with the meaning of the
    source program. *)
From Coq Require Import ZArith List Bool Lia.
From Verif Require Import Prelude Types Ops OpsSpec OpsProofs AbsOps AbsOpsSpec AbsOpsProofs Text Tables Literals LinMap LinMapSpec VM Ast AstFacts
  Codegen SourceSem Annotated AnnotatedProofs Analyze Programs AnalyzeFacts AnalyzeProofs AcceptedSpec CodegenProofs
  ProgramSem ProgramMono ProgramLink.
Import ListNotations.
Open Scope Z_scope.
Local Arguments Z.pow : simpl never.

(** ** With enough effort *)

Section Eventually.
Variable table : positive -> option func.
Variable decls : positive -> option declaration.

(** A statement is true whenever enough effort is spent. *)
Definition evt (P : statics -> Prop) : Prop :=
  exists k, forall k', (k <= k')%nat -> P (statics_of table decls k').

Lemma evt_true : forall P : statics -> Prop, (forall K, P K) -> evt P.
Proof. intros P H. exists O. auto. Qed.

Lemma evt_map : forall (P Q : statics -> Prop), evt P -> (forall K, P K -> Q K) -> evt Q.
Proof. intros P Q (k & H) HQ. exists k. auto. Qed.

Lemma evt_and : forall P Q : statics -> Prop, evt P -> evt Q -> evt (fun K => P K /\ Q K).
Proof.
  intros P Q (k & H) (l & H'). exists (Nat.max k l). intros m Hm. split; [apply H|apply H']; lia.
Qed.

Lemma evt_map2 : forall (P Q R : statics -> Prop), evt P -> evt Q -> (forall K, P K -> Q K -> R K) -> evt R.
Proof. intros P Q R HP HQ H. apply (evt_map _ _ (evt_and _ _ HP HQ)). intros K [A B]. auto. Qed.

Lemma evt_map3 : forall (P Q R S : statics -> Prop), evt P -> evt Q -> evt R ->
  (forall K, P K -> Q K -> R K -> S K) -> evt S.
Proof. intros P Q R S HP HQ HR H. apply (evt_map2 _ _ _ HP (evt_and _ _ HQ HR)). intros K A [B C]. auto. Qed.

Lemma evt_all : forall (names : list positive) (P : positive -> statics -> Prop),
  (forall n, In n names -> evt (P n)) -> evt (fun K => forall n, In n names -> P n K).
Proof.
  induction names as [|n names IH]; intros P H.
  - apply evt_true. intros K n [].
  - apply (evt_map2 _ _ _ (H n (or_introl eq_refl)) (IH P (fun m Hm => H m (or_intror Hm)))).
    intros K A B m [<-|Hm]; auto.
Qed.

Lemma evt_type : forall p t, evt (fun K => declared_type decls K p = ret t) -> evt (fun K => static_type K p = ret t).
Proof. intros p t (k & H). exists (S k). intros [|k'] Hk; [lia|]. cbn [statics_of static_type]. apply H. lia. Qed.

Lemma evt_value : forall p v, evt (fun K => constant_value decls K p = ret v) -> evt (fun K => static_value K p = ret v).
Proof. intros p v (k & H). exists (S k). intros [|k'] Hk; [lia|]. cbn [statics_of static_value]. apply H. lia. Qed.

Lemma evt_signature : forall n s, evt (fun K => signature table K n = ret s) -> evt (fun K => static_signature K n = ret s).
Proof. intros n s (k & H). exists (S k). intros [|k'] Hk; [lia|]. cbn [statics_of static_signature]. apply H. lia. Qed.

Lemma evt_call : forall fuel n args r, evt (fun K => run_call table K fuel n args = Some r) ->
  evt (fun K => static_call K n args = Some r).
Proof.
  intros fuel n args r (k & H). exists (S (Nat.max k fuel)). intros [|k'] Hk; [lia|]. cbn [statics_of static_call].
  eapply le_some; [|apply (H k'); lia]. apply run_call_mono; [apply statics_le_refl|lia].
Qed.

(** ** Operations *)

(** The value that is recorded, if there is one. *)
Definition shown (a : avalue) : res cvalue :=
  match av_val a with Some z => ret (CV (av_type a) z) | None => None end.

Lemma shown_recorded : forall a, wf_avalue a -> as_recorded a (shown a).
Proof.
  intros [t [z|]] [H1 H2]; cbn [shown av_val av_type] in *.
  - split; [split; [split; [exact H1|apply H2; reflexivity]|reflexivity]|]. intros y [= <-]. reflexivity.
  - split; [exact Logic.I|discriminate].
Qed.

Lemma shown_known : forall a c, shown a = ret c -> a = known c.
Proof. intros [t [z|]] c H; [|discriminate]. injection H as <-. reflexivity. Qed.

Lemma known_shown : forall c, shown (known c) = ret c.
Proof. intros [t z]. reflexivity. Qed.

Lemma as_shown : forall a r c, as_recorded a r -> shown a = ret c -> r = ret c.
Proof. intros a r c [_ H] E. apply shown_known in E. subst a. rewrite (H (cv_int c) eq_refl). destruct c; reflexivity. Qed.

Lemma rbind_ok : forall A B (x : res A) (k : A -> res B) b, rbind x k = ret b -> exists a, x = ret a /\ k a = ret b.
Proof. intros A B [[a| | |]|] k b H; try discriminate. exists a. auto. Qed.

Lemma type_meant_unfold : forall K cv width cw, type_meant K (Type_Node cv tt_Uint (Some width) cw)
  = do v <- ev K (static_call K) empty_env width;
    match v with
    | CV TInt z => if (1 <=? z) && (z <=? 127) then ret (TUint z) else throw s_stuck
    | _ => throw s_stuck
    end.
Proof. reflexivity. Qed.

Lemma as_bool_ok : forall E a b, @as_bool E a = Ok b -> exists z, a = AV TBool (Some z) /\ b = negb (z =? 0).
Proof.
  intros E [t [z|]] b H; [|discriminate]. unfold as_bool, assert_then in H. cbn [av_val av_type] in H.
  destruct (ctype_eqb t TBool) eqn:Et; [|discriminate]. apply ctype_eqb_eq in Et. subst t. injection H as <-. eauto.
Qed.

Lemma common_get : forall a b c, get_common_type a b = Ok c -> common a b = ret c.
Proof.
  intros a b c H. unfold get_common_type in H. destruct (ctype_eqb a b) eqn:E.
  - apply ctype_eqb_eq in E. subst b. injection H as <-. destruct a; cbn; try reflexivity. rewrite Z.eqb_refl. reflexivity.
  - destruct a, b; try discriminate; injection H as <-; reflexivity.
Qed.

Lemma common_binary : forall a op b t, check_binary_operator a op b = Ok t ->
  exists c, common a b = ret c /\ t = (if yields_bool op then TBool else c).
Proof.
  intros a op b t H. unfold check_binary_operator in H. destruct (is_binary op) eqn:Eb; cbn [negb] in H; [|discriminate].
  destruct (_ || _)%bool; [discriminate|].
  destruct (get_common_type a b) as [c|e| |] eqn:Ec; cbn [bind] in H; try discriminate.
  exists c. split; [apply common_get; exact Ec|].
  destruct op; try discriminate Eb; destruct c; cbn in H |- *; congruence.
Qed.

Lemma common_if : forall l c r t, check_if_expression l c r = Ok t -> common l r = ret t.
Proof. intros l c r t H. unfold check_if_expression in H. destruct (negb _); [discriminate|]. apply common_get. exact H. Qed.

(** Passing values to parameters. *)
Fixpoint passed (vs : list cvalue) (ts : list ctype) (ws : list cvalue) : Prop :=
  match vs, ts, ws with
  | [], [], [] => True
  | v :: vs', t :: ts', w :: ws' => convert v t = ret w /\ passed vs' ts' ws'
  | _, _, _ => False
  end.

(** What the analysis of a call finds out, compared with the source. *)
Definition call_found (cx : context) (lk : option lookup) (args : list avalue) (v : avalue) : Prop :=
  match lk with
  | Some (LNode DFunction n) =>
      exists ts, evt (fun K => static_signature K n = ret (ts, av_type v))
        /\ (cx = constant -> exists vs ws, args = map known vs /\ passed vs ts ws
              /\ forall c, shown v = ret c -> evt (fun K => static_call K n ws = ret c))
  | Some (LBuiltin b) => value_evaluate_builtin_function b args = Ok v
  | _ => False
  end.

(** ** Expressions *)

Section Exprs.
Variable consts : positive -> bool.
Variable callee : positive -> level -> M unit.
Variable run_fuel : nat.
Variable I : state -> Prop.
Variable R : state -> state -> Prop.
Variable calls : Prop.
Variable tab : state -> positive -> option func.
Variable Lv : level -> Prop.
Hypothesis good : (forall e, good_expr consts callee run_fuel I R calls tab Lv e)
  /\ (forall t, good_type consts callee run_fuel I R calls t).
Hypothesis R_refl : forall st, R st st.
Hypothesis R_trans : forall a b c, R a b -> R b c -> R a c.
Hypothesis R_call : calls -> forall lv cx lk args st v st', I st -> Forall wf_avalue args ->
  an_call callee run_fuel lv cx lk args st = Some (Ok (v, st')) -> I st' /\ R st st'.
Variable T : state -> Prop.
Hypothesis T_back : forall a b, R a b -> T b -> T a.
Hypothesis F_type : forall st p v, I st -> T st -> st_values st p = Some v ->
  evt (fun K => static_type K p = ret (av_type v)).
Hypothesis F_value : forall st p v c, I st -> T st -> st_values st p = Some v -> shown v = ret c ->
  evt (fun K => static_value K p = ret c).
Hypothesis F_call : calls -> forall lv cx lk args st v st', I st -> Forall wf_avalue args ->
  an_call callee run_fuel lv cx lk args st = Some (Ok (v, st')) -> T st' -> call_found cx lk args v.

Record found (cx : context) (e e' : expr) (v : avalue) : Prop := {
  fd_type : evt (fun K => type_of K e = ret (av_type v));
  fd_value : cx = constant -> forall c, shown v = ret c -> evt (fun K => ev_static K e = ret c);
  fd_annot : cx = normal -> evt (fun K => annot K e e') }.

Definition finds (e : expr) : Prop :=
  fresh consts e = true -> call_free e = true \/ calls ->
  forall lv cx st e' st', I st -> an_expr callee run_fuel lv cx e st = Some (Ok (e', st')) -> T st' ->
  forall v, expr_cv e' = Some v -> found cx e e' v.

Definition finds_type (t : type_node) : Prop :=
  fresh_type consts t = true -> call_free_type t = true \/ calls ->
  forall st t' st', I st -> an_type callee run_fuel t st = Some (Ok (t', st')) -> T st' ->
  exists c, denotes t' c /\ evt (fun K => type_meant K t = ret c).

Ltac split_fresh H :=
  repeat match type of H with
  | (_ && _)%bool = true => let H' := fresh "F" in apply andb_true_iff in H; destruct H as [H H']
  end.

Lemma good_e : forall e lv cx st e' st', fresh consts e = true -> call_free e = true \/ calls -> I st ->
  an_expr callee run_fuel lv cx e st = Some (Ok (e', st')) ->
  I st' /\ R st st' /\ forall v, expr_cv e' = Some v -> wf_avalue v.
Proof.
  intros e lv cx st e' st' Hf Hc HI H. destruct (proj1 good e Hf Hc lv cx st e' st' HI H) as (A & B & C).
  split; [exact A|]. split; [exact B|]. intros v Hv. apply (C v Hv).
Qed.

Lemma args_good : forall lv cx args st args' vs st', forallb (fresh consts) args = true -> calls -> I st ->
  an_args callee run_fuel lv cx args st = Some (Ok ((args', vs), st')) -> I st' /\ R st st' /\ Forall wf_avalue vs.
Proof.
  intros lv cx. induction args as [|e args IH]; intros st args' vs st' Hf Hc HI H.
  - cbn [an_args] in H. minv H. injection H as -> ->. subst. auto.
  - cbn [an_args] in H. minv H. minv H. minv E0. subst. minv H. destruct a1 as [rest' vs'].
    minv H. injection H as -> ->. subst. cbn [forallb] in Hf. apply andb_true_iff in Hf as [F1 F2].
    destruct (good_e _ _ _ _ _ _ F1 (or_intror Hc) HI E) as (I1 & R1 & W1).
    destruct (IH _ _ _ _ F2 Hc I1 E0) as (A & B & C). split; [exact A|]. split; [eauto|]. constructor; auto.
Qed.

Lemma args_found : forall args, Forall finds args -> forallb (fresh consts) args = true -> calls ->
  forall lv cx st args' vs st', I st -> an_args callee run_fuel lv cx args st = Some (Ok ((args', vs), st')) -> T st' ->
  (cx = normal -> evt (fun K => all_annot K args args'))
  /\ (cx = constant -> Forall2 (fun e v => forall c, shown v = ret c -> evt (fun K => ev_static K e = ret c)) args vs).
Proof.
  induction args as [|e args IH]; intros HF Hf Hc lv cx st args' vs st' HI H HT.
  - cbn [an_args] in H. minv H. injection H as -> ->.
    split; [intros _; apply evt_true; intros K; exact Logic.I|constructor].
  - inversion HF as [|? ? He Hargs]; subst. cbn [forallb] in Hf. apply andb_true_iff in Hf as [F1 F2].
    cbn [an_args] in H. minv H. minv H. minv E0. subst. minv H. destruct a1 as [rest' vs'].
    minv H. injection H as -> ->. subst.
    destruct (good_e _ _ _ _ _ _ F1 (or_intror Hc) HI E) as (I1 & R1 & W1).
    destruct (args_good _ _ _ _ _ _ _ F2 Hc I1 E0) as (I2 & R2 & _).
    destruct (IH Hargs F2 Hc _ _ _ _ _ _ I1 E0 HT) as (N2 & C2).
    destruct (He F1 (or_intror Hc) _ _ _ _ _ HI E (T_back _ _ R2 HT) _ H0) as [G1 G2 G3].
    split.
    + intros ->. apply (evt_map2 _ _ _ (G3 eq_refl) (N2 eq_refl)). intros K A B. split; assumption.
    + intros ->. constructor; auto.
Qed.

Lemma args_passed : forall args vs ts ws,
  Forall2 (fun e v => forall c, shown v = ret c -> evt (fun K => ev_static K e = ret c)) args (map known vs) ->
  passed vs ts ws -> evt (fun K => ev_args K (static_call K) empty_env ts args = ret ws).
Proof.
  induction args as [|e args IH]; intros vs ts ws HF HP.
  - inversion HF as [E|]; subst. destruct vs; [|discriminate]. destruct ts, ws; try contradiction.
    apply evt_true. reflexivity.
  - destruct vs as [|v vs]; [inversion HF|]. cbn [map] in HF. inversion HF as [|? ? ? ? He Hr]; subst.
    destruct ts as [|t ts], ws as [|w ws]; try contradiction. destruct HP as [H1 H2].
    apply (evt_map2 _ _ _ (He _ (known_shown v)) (IH _ _ _ Hr H2)). intros K A B. unfold ev_static in A.
    cbn [ev_args]. rewrite A. cbn [rbind ret]. rewrite H1. cbn [rbind ret]. rewrite B. reflexivity.
Qed.

Lemma exprs_found : (forall e, finds e) /\ (forall t, finds_type t).
Proof.
  apply both_induction; unfold finds, finds_type.
  - (* conversion *)
    intros cv e t IHe IHt Hf Hc lv cx st e' st' HI H HT v Hv. cbn [fresh] in Hf. split_fresh Hf.
    assert (C1 : call_free e = true \/ calls).
    { destruct Hc as [Hc|Hc]; [left; cbn [call_free] in Hc; apply andb_true_iff in Hc; apply Hc|right; exact Hc]. }
    assert (C2 : call_free_type t = true \/ calls).
    { destruct Hc as [Hc|Hc]; [left; cbn [call_free] in Hc; apply andb_true_iff in Hc; apply Hc|right; exact Hc]. }
    cbn [an_expr] in H. minv H. minv H. minv H. minv E1. subst. minv H. minv E1. subst.
    destruct (good_e _ _ _ _ _ _ F0 C1 HI E) as (I1 & R1 & W1).
    destruct (proj2 good t F C2 _ _ _ I1 E0) as (I2 & R2 & _ & _).
    destruct (is_convertible_to (av_type a1) a2) eqn:Ec; cbn [negb] in H; [|discriminate].
    minv H. minv E1. subst. minv H. subst.
    destruct (IHe F0 C1 _ _ _ _ _ HI E (T_back _ _ R2 HT) _ H0) as [G1 G2 G3].
    destruct (IHt F C2 _ _ _ I1 E0 HT) as (c & D & G4). pose proof (mtype_denotes _ _ _ D H1) as ->.
    cbn [expr_cv] in Hv. injection Hv as <-.
    destruct (convert_recorded _ _ _ _ (shown_recorded _ (W1 _ H0)) (proj2 (proj2 D)) Ec H2) as [Tr Rr].
    split.
    + rewrite Tr. exact G4.
    + intros -> w Hw. pose proof (as_shown _ _ _ Rr Hw) as Hb. apply rbind_ok in Hb as (x & Hx & Hb).
      apply (evt_map2 _ _ _ (G2 eq_refl x Hx) G4). intros K A B. unfold ev_static in *. rewrite ev_conversion_unfold, A. cbn [rbind ret].
      rewrite B. exact Hb.
    + intros ->. apply (evt_map2 _ _ _ (G3 eq_refl) G4). intros K A B. split; [exact A|]. exists c. auto.
  - (* if *)
    intros cv l c r IHl IHc IHr Hf Hcf lv cx st e' st' HI H HT v Hv. cbn [fresh] in Hf. split_fresh Hf.
    assert (CC : (call_free l = true \/ calls) /\ (call_free c = true \/ calls) /\ (call_free r = true \/ calls)).
    { destruct Hcf as [Hcf|Hcf]; [|auto]. cbn [call_free] in Hcf. split_fresh Hcf. auto. }
    destruct CC as (Cl & Cc & Cr).
    cbn [an_expr] in H. minv H. destruct (good_e _ _ _ _ _ _ F0 Cc HI E) as (I1 & R1 & W1).
    destruct (expr_cv a) as [cc|] eqn:Ecc; [|discriminate].
    destruct (ctype_eqb (av_type cc) TBool) eqn:Eb; cbn [negb] in H; [|discriminate].
    minv H. assert (s0 = s /\ (cx = constant -> exists z, cc = AV TBool (Some z) /\ a0 = negb (z =? 0))) as [-> Hcc].
    { destruct (is_constant cx) eqn:Ek; [|minv E0; split; [congruence|intros ->; discriminate]]. minv E0. minv E1. minv E0.
      split; [congruence|]. intros _. eapply as_bool_ok. eassumption. }
    clear E0. minv H. minv H.
    destruct (good_e _ _ _ _ _ _ F1 Cl I1 E0) as (I2 & R2 & W2).
    destruct (good_e _ _ _ _ _ _ F Cr I2 E1) as (I3 & R3 & W3).
    destruct (expr_cv a1) as [lv1|] eqn:El; [|discriminate]. destruct (expr_cv a2) as [rv|] eqn:Er; [|discriminate].
    minv H. minv E2. subst. minv H. minv E2. subst. minv H. minv E2. subst. minv H. subst.
    assert (HT2 : T s0) by eauto. assert (HT1 : T s) by eauto.
    destruct (IHc F0 Cc _ _ _ _ _ HI E HT1 _ Ecc) as [Gc1 Gc2 Gc3].
    destruct (IHl F1 Cl _ _ _ _ _ I1 E0 HT2 _ El) as [Gl1 Gl2 Gl3].
    destruct (IHr F Cr _ _ _ _ _ I2 E1 HT _ Er) as [Gr1 Gr2 Gr3].
    cbn [expr_cv] in Hv. injection Hv as <-.
    specialize (W1 _ eq_refl). specialize (W2 _ eq_refl). specialize (W3 _ eq_refl).
    assert (Wt : wf_type a3) by (eapply check_if_wf; [apply W2|apply W3|exact H0]).
    destruct (if_recorded _ _ _ _ _ _ _ _ (shown_recorded _ W2) (shown_recorded _ W1) (shown_recorded _ W3) Wt H0 H2) as [Tr Rr].
    pose proof (common_if _ _ _ _ H0) as Hco.
    split.
    + rewrite Tr. apply (evt_map2 _ _ _ Gl1 Gr1). intros K A B. cbn [type_of]. rewrite A, B. exact Hco.
    + intros -> w Hw. pose proof (as_shown _ _ _ Rr Hw) as Hb. apply rbind_ok in Hb as (x & Hx & Hb).
      apply rbind_ok in Hb as (b & Hb1 & Hb). apply rbind_ok in Hb as (y & Hy & Hb).
      destruct (Hcc eq_refl) as (z & -> & ->). cbn [is_constant andb negb] in *.
      assert (Hbz : b = negb (z =? 0)).
      { apply shown_known in Hx. unfold known in Hx. injection Hx as Ht ->.
        destruct (truth_bool x) as [Hx _]; [split|auto|].
        - rewrite <- Ht. exact Logic.I.
        - pose proof (proj2 W1 _ eq_refl) as Wz. cbn [av_type] in Wz. rewrite <- Ht. exact Wz.
        - rewrite Hx in Hb1. injection Hb1 as <-. pose proof (proj2 W1 _ eq_refl) as Wz. cbn in Wz.
          destruct Wz as [->| ->]; reflexivity. }
      assert (Gy : evt (fun K => (if b then ev_static K l else ev_static K r) = ret y)).
      { subst b. destruct (negb (z =? 0)); cbn [andb negb] in *.
        - exact (Gl2 eq_refl y Hy).
        - exact (Gr2 eq_refl y Hy). }
      apply (evt_map3 _ _ _ _ (Gc2 eq_refl x Hx) Gy (evt_and _ _ Gl1 Gr1)). intros K A B (C & D).
      unfold ev_static in *. rewrite ev_if_unfold, A. cbn [rbind ret]. rewrite Hb1. cbn [rbind ret]. rewrite B. cbn [rbind ret].
      rewrite C, D. cbn [rbind ret]. rewrite Hco. exact Hb.
    + intros ->. cbn [is_constant andb] in *.
      apply (evt_map3 _ _ _ _ (Gl3 eq_refl) (Gc3 eq_refl) (evt_and _ _ (Gr3 eq_refl) (evt_and _ _ Gl1 Gr1))).
      intros K A B (C & D & G). cbn [annot]. repeat (split; [assumption|]). exists (av_type lv1), (av_type rv), a5.
      rewrite Tr. auto.
  - (* binary *)
    intros cv op l r IHl IHr Hf Hcf lv cx st e' st' HI H HT v Hv. cbn [fresh] in Hf. split_fresh Hf.
    assert (CC : (call_free l = true \/ calls) /\ (call_free r = true \/ calls)).
    { destruct Hcf as [Hcf|Hcf]; [|auto]. cbn [call_free] in Hcf. split_fresh Hcf. auto. }
    destruct CC as (Cl & Cr).
    cbn [an_expr] in H. minv H. destruct (good_e _ _ _ _ _ _ F0 Cl HI E) as (I1 & R1 & W1).
    minv H. minv E0. subst. minv H.
    assert (s0 = s /\ (cx = normal -> a1 = normal)
      /\ (cx = constant -> a1 = constant
            \/ exists z, expr_cv a = Some (AV TBool (Some z))
                 /\ ((op = logical_and /\ (z =? 0) = true) \/ (op = logical_or /\ (z =? 0) = false)))) as (-> & Hcx & Hcx').
    { destruct op; try (minv E0; subst; auto; fail);
        (destruct (is_constant cx) eqn:Ek;
         [|minv E0; subst; split; [reflexivity|]; split; [auto|intros ->; discriminate]]; minv E0; minv E1; subst;
         destruct (ctype_eqb _ TBool) eqn:Et; cbn [negb] in E0; [|discriminate];
         minv E0; minv E1; subst; minv E0; subst; split; [reflexivity|split; [intros ->; discriminate|intros Hk]];
         match goal with HB : as_bool _ = Ok _ |- _ => apply as_bool_ok in HB; destruct HB as (z & -> & ->) end;
         destruct (z =? 0) eqn:Ez; cbn [negb Bool.eqb];
         [solve [left; congruence | right; exists z; auto]|solve [left; congruence | right; exists z; auto]]). }
    clear E0. minv H. destruct (good_e _ _ _ _ _ _ F Cr I1 E0) as (I2 & R2 & W2).
    minv H. minv E1. subst.
    destruct (expr_cv a) as [v1|] eqn:El; [|discriminate]. destruct (expr_cv a2) as [v2|] eqn:Er; [|discriminate].
    minv H. minv E1. subst.
    assert (H' : exists v, recorded_result (value_evaluate_binary_operator v1 op v2) a4 v
                 /\ e' = EBinary (Some v) op a a2 /\ st' = s0).
    { destruct (value_evaluate_binary_operator v1 op v2) as [x|x| |] eqn:Ev; destruct a1;
        try discriminate; minv H; minv H; minv E1; subst; eauto. }
    destruct H' as (v' & Hr & -> & ->). cbn [expr_cv] in Hv. injection Hv as <-.
    assert (HT1 : T s) by eauto.
    destruct (IHl F0 Cl _ _ _ _ _ HI E HT1 _ El) as [Gl1 Gl2 Gl3].
    destruct (IHr F Cr _ _ _ _ _ I1 E0 HT _ Er) as [Gr1 Gr2 Gr3].
    specialize (W1 _ eq_refl). specialize (W2 _ eq_refl).
    destruct (common_binary _ _ _ _ H2) as (cm & Hco & Ht4).
    split.
    + destruct (binary_wf _ _ _ _ _ W1 W2 H2 Hr) as [Tr _].
      rewrite Tr, Ht4. apply (evt_map2 _ _ _ Gl1 Gr1). intros K A B. cbn [type_of]. rewrite A, B. cbn [rbind ret].
      rewrite Hco. reflexivity.
    + intros -> w Hw.
      destruct (match op with logical_and | logical_or => true | _ => false end) eqn:Elog.
      * assert (Hop : op = logical_and \/ op = logical_or) by (destruct op; try discriminate; auto).
        destruct (logical_recorded _ _ _ _ _ _ _ Hop (shown_recorded _ W1) (shown_recorded _ W2) H2 Hr) as [_ Rr].
        pose proof (as_shown _ _ _ Rr Hw) as Hb. apply rbind_ok in Hb as (x & Hx & Hb). apply rbind_ok in Hb as (b & Hb1 & Hb).
        destruct (Hcx' eq_refl) as [->|(z & Ez & Hz)].
        -- destruct Hop as [-> | ->]; destruct b.
           ++ apply (evt_map2 _ _ _ (Gl2 eq_refl x Hx) (Gr2 eq_refl w Hb)). intros K A B. unfold ev_static in *. cbn [ev].
              rewrite A. cbn [rbind ret]. rewrite Hb1. exact B.
           ++ apply (evt_map _ _ (Gl2 eq_refl x Hx)). intros K A. unfold ev_static in *. cbn [ev].
              rewrite A. cbn [rbind ret]. rewrite Hb1. exact Hb.
           ++ apply (evt_map _ _ (Gl2 eq_refl x Hx)). intros K A. unfold ev_static in *. cbn [ev].
              rewrite A. cbn [rbind ret]. rewrite Hb1. exact Hb.
           ++ apply (evt_map2 _ _ _ (Gl2 eq_refl x Hx) (Gr2 eq_refl w Hb)). intros K A B. unfold ev_static in *. cbn [ev].
              rewrite A. cbn [rbind ret]. rewrite Hb1. exact B.
        -- injection Ez as ->. injection Hx as <-. cbn [av_type] in *.
           destruct (truth_bool (CV TBool z)) as [Ht _]; [|reflexivity|].
           { split; [exact Logic.I|]. apply (proj2 W1 _ eq_refl). }
           rewrite Ht in Hb1. injection Hb1 as <-. cbn [cv_int] in *. pose proof (proj2 W1 _ eq_refl) as Wz. cbn in Wz.
           destruct Hz as [[-> Hz]|[-> Hz]].
           ++ apply Z.eqb_eq in Hz. subst z. cbn in Hb.
              apply (evt_map _ _ (Gl2 eq_refl (CV TBool 0) eq_refl)). intros K A. unfold ev_static in *. cbn [ev].
              rewrite A. exact Hb.
           ++ apply Z.eqb_neq in Hz. destruct Wz as [->| ->]; [contradiction|]. cbn in Hb.
              apply (evt_map _ _ (Gl2 eq_refl (CV TBool 1) eq_refl)). intros K A. unfold ev_static in *. cbn [ev].
              rewrite A. exact Hb.
      * destruct (binary_recorded _ _ _ _ _ _ _ (shown_recorded _ W1) (shown_recorded _ W2) H2 Hr) as [_ Rr].
        pose proof (as_shown _ _ _ Rr Hw) as Hb. apply rbind_ok in Hb as (x & Hx & Hb). apply rbind_ok in Hb as (y & Hy & Hb).
        assert (a1 = constant) as ->.
        { destruct (Hcx' eq_refl) as [->|(z & _ & [[-> _]|[-> _]])]; [reflexivity|discriminate|discriminate]. }
        apply (evt_map2 _ _ _ (Gl2 eq_refl x Hx) (Gr2 eq_refl y Hy)). intros K A B. unfold ev_static in *. cbn [ev].
        rewrite A. cbn [rbind ret]. destruct op; try discriminate Elog; rewrite B; exact Hb.
    + intros ->. pose proof (Hcx eq_refl) as ->. apply (evt_map2 _ _ _ (Gl3 eq_refl) (Gr3 eq_refl)).
      intros K A B. split; [reflexivity|]. auto.
  - (* prefix *)
    intros cv op e IHe Hf Hcf lv cx st e' st' HI H HT v Hv. cbn [fresh] in Hf. split_fresh Hf.
    cbn [an_expr] in H. minv H. destruct (good_e _ _ _ _ _ _ F Hcf HI E) as (I1 & R1 & W1).
    minv H. minv E0. subst. minv H. minv E0. subst.
    assert (H' : exists v, recorded_result (value_evaluate_unary_operator op a0) a1 v
                 /\ e' = EPrefix (Some v) op a /\ st' = s).
    { destruct (value_evaluate_unary_operator op a0) as [x|x| |] eqn:Ev; destruct cx;
        try discriminate; minv H; minv H; minv E0; subst; eauto. }
    destruct H' as (v' & Hr & -> & ->). cbn [expr_cv] in Hv. injection Hv as <-.
    destruct (IHe F Hcf _ _ _ _ _ HI E HT _ H0) as [G1 G2 G3].
    destruct (unary_recorded _ _ _ _ _ (shown_recorded _ (W1 _ H0)) H1 Hr) as [Tr Rr].
    split.
    + rewrite Tr, (check_unary_same _ _ _ H1). exact G1.
    + intros -> w Hw. pose proof (as_shown _ _ _ Rr Hw) as Hb. apply rbind_ok in Hb as (x & Hx & Hb).
      apply (evt_map _ _ (G2 eq_refl x Hx)). intros K A. unfold ev_static in *. cbn [ev]. rewrite A. exact Hb.
    + intros ->. apply (evt_map _ _ (G3 eq_refl)). intros K A. split; [reflexivity|exact A].
  - (* call *)
    intros cv name lk is args IH Hf Hcf lv cx st e' st' HI H HT v Hv. cbn [fresh] in Hf. split_fresh Hf.
    destruct Hcf as [Hcf|Hcf]; [discriminate|].
    rewrite an_call_unfold in H. minv H. minv E. subst. minv H.
    destruct a0 as [args' vs]. minv H. minv H. subst. cbn [expr_cv] in Hv. injection Hv as <-.
    destruct (args_good _ _ _ _ _ _ _ F Hcf HI E) as (I1 & R1 & W1).
    destruct (R_call Hcf _ _ _ _ _ _ _ I1 W1 E0) as (I2 & R2).
    destruct (args_found _ IH F Hcf _ _ _ _ _ _ HI E (T_back _ _ R2 HT)) as (N1 & C1).
    pose proof (F_call Hcf _ _ _ _ _ _ _ I1 W1 E0 HT) as Hcall. cbn [call_found] in Hcall.
    destruct a as [[] n|p|[]]; try contradiction.
    + destruct Hcall as (ts & S1 & S2). split.
      * apply (evt_map _ _ S1). intros K A. cbn [type_of]. rewrite A. reflexivity.
      * intros -> w Hw. destruct (S2 eq_refl) as (xs & ws & -> & P & G).
        apply (evt_map3 _ _ _ _ S1 (args_passed _ _ _ _ (C1 eq_refl) P) (G _ Hw)). intros K A B C.
        unfold ev_static. rewrite ev_call_unfold. cbn [parameter_types invoked]. rewrite A. cbn [rbind ret fst].
        rewrite B. exact C.
      * intros ->. apply (evt_map _ _ (N1 eq_refl)). intros K A. split; [reflexivity|exact A].
    + pose proof Hcall as Hcall'. rewrite value_builtin_assert_spec in Hcall'.
      destruct vs as [|x [|y vs]]; [discriminate| |destruct x as [[] [z|]]; discriminate].
      destruct (assert_recorded x (shown x) a0) as [Tx Rx]; [apply shown_recorded; inversion W1; assumption|exact Hcall|].
      assert (Ta : av_type a0 = TVoid).
      { destruct x as [[] [z|]]; try discriminate; [destruct (z =? 1); [|discriminate]|]; injection Hcall' as <-; reflexivity. }
      split.
      * rewrite Ta. apply evt_true. reflexivity.
      * intros -> w Hw. pose proof (as_shown _ _ _ Rx Hw) as Hb. apply rbind_ok in Hb as (c & Hc & Hb).
        apply rbind_ok in Hb as (d & Hd & Hb).
        assert (P : passed [c] [TBool] [d]) by (split; [exact Hd|exact Logic.I]).
        assert (Hx : [x] = map known [c]) by (cbn [map]; rewrite (shown_known _ _ Hc); reflexivity).
        rewrite Hx in C1. apply (evt_map _ _ (args_passed _ _ _ _ (C1 eq_refl) P)). intros K A.
        unfold ev_static. rewrite ev_call_unfold. cbn [parameter_types invoked rbind ret]. unfold ret in A. rewrite A. exact Hb.
      * intros ->. apply (evt_map _ _ (N1 eq_refl)). intros K A. split; [reflexivity|exact A].
  - (* identifier *)
    intros cv name lk g Hf _ lv cx st e' st' HI H HT v Hv. cbn [fresh] in Hf. apply andb_true_iff in Hf. destruct Hf as [Hf F].
    apply absent_none in Hf. subst cv. cbn [an_expr] in H. minv H. minv H. subst.
    unfold an_id in E. minv E. minv E0. subst. minv E. minv E0. subst. cbn [expr_cv] in Hv.
    destruct a0 as [[] n|p|b]; try discriminate.
    + (* let *)
      destruct (is_constant cx) eqn:Ek; [discriminate|]. destruct (st_values st n) as [w|] eqn:Ev; [|discriminate].
      minv E. subst. injection Hv as ->. split.
      * apply (evt_map _ _ (F_type _ _ _ HI HT Ev)). auto.
      * intros ->. discriminate.
      * intros _. apply evt_true. intros K. split; [reflexivity|exact Logic.I].
    + (* const *)
      destruct (st_values st n) as [w|] eqn:Ev; [|discriminate]. minv E. subst. injection Hv as ->. split.
      * apply (evt_map _ _ (F_type _ _ _ HI HT Ev)). auto.
      * intros _ c Hc. apply (evt_map _ _ (F_value _ _ _ _ HI HT Ev Hc)). auto.
      * intros _. destruct (shown v) as [[c| | |]|] eqn:Ec.
        -- apply (evt_map _ _ (F_value _ _ _ _ HI HT Ev Ec)). intros K A. split; [reflexivity|]. intros x [= ->].
           rewrite known_shown in Ec. injection Ec as ->. exact A.
        -- destruct v as [t [z|]]; discriminate.
        -- destruct v as [t [z|]]; discriminate.
        -- destruct v as [t [z|]]; discriminate.
        -- apply evt_true. intros K. split; [reflexivity|]. intros x [= ->]. rewrite known_shown in Ec. discriminate.
    + (* parameter *)
      destruct (is_constant cx) eqn:Ek; [discriminate|]. minv E. subst. split.
      * apply (evt_map _ _ (F_type _ _ _ HI HT Hv)). auto.
      * intros ->. discriminate.
      * intros _. apply evt_true. intros K. split; [reflexivity|exact Logic.I].
  - (* literal *)
    intros cv lit t Hf _ lv cx st e' st' HI H HT v Hv. cbn [fresh] in Hf. apply absent_none in Hf. subst cv.
    cbn [an_expr] in H. minv H. minv H. subst. apply literal_good in E. destruct E as (-> & c & Hl & Hw & ->).
    cbn [expr_cv] in Hv. injection Hv as <-. split.
    + apply evt_true. intros K. unfold literal_value in Hl. cbn [type_of known av_type].
      destruct t; try discriminate; try (injection Hl as <-; reflexivity);
        destruct (parse_integer_literal lit); try discriminate; injection Hl as <-; reflexivity.
    + intros _ x Hx. rewrite known_shown in Hx. injection Hx as <-. apply evt_true. intros K. exact Hl.
    + intros _. apply evt_true. intros K. split; reflexivity.
  - (* type without width *)
    intros cv k cw Hf _ st t' st' HI H HT. cbn [fresh_type] in Hf. split_fresh Hf. apply absent_none in Hf. subst cv.
    apply absent_none in F0. subst cw.
    cbn [an_type] in H. minv H. minv E. subst. minv H. subst. exists a. split; [apply type_denotes; exact H0|].
    apply evt_true. intros K. destruct k; cbn in H0; try discriminate; injection H0 as <-; reflexivity.
  - (* width *)
    intros cv k e cw IHe Hf Hcf st t' st' HI H HT. cbn [fresh_type] in Hf. split_fresh Hf. apply absent_none in Hf. subst cv.
    cbn [an_type] in H. minv H. minv H. minv E0. subst. destruct (good_e _ _ _ _ _ _ F Hcf HI E) as (I1 & R1 & _).
    destruct (is_integer _); cbn [negb] in H; [|discriminate]. minv H. minv E0. subst.
    destruct (_ || _)%bool eqn:Er; [discriminate|]. minv H. minv E0. subst. minv H. subst.
    exists a2. split; [apply type_denotes; assumption|].
    destruct (IHe F Hcf _ _ _ _ _ HI E HT _ H0) as [_ G2 _].
    unfold as_int in H1. destruct a0 as [t0 [z|]]; [|discriminate]. cbn [av_type av_val] in H1.
    unfold assert_then in H1. destruct (ctype_eqb t0 TInt) eqn:Et; [|discriminate]. injection H1 as ->.
    apply ctype_eqb_eq in Et. subst t0. apply orb_false_iff in Er as [Er1 Er2]. unfold uint_max_width in *.
    apply (evt_map _ _ (G2 eq_refl (CV TInt a1) eq_refl)). intros K A. unfold ev_static in A.
    destruct k; cbn in H2; try discriminate.
    rewrite type_meant_unfold, A. cbn [rbind ret].
    unfold concrete_type_value, concrete_type in H2. cbn [bind value_of] in H2.
    unfold concrete_type_Uint, concrete_type_ctor, assert_then in H2.
    destruct (a1 <=? uint_max_width); cbn [bind] in H2; [|discriminate].
    destruct (1 <? _); cbn [bind] in H2; [|discriminate].
    destruct ((0 <? a1) && (a1 <? _))%bool eqn:Eb; cbn [bind value_of] in H2; [|discriminate]. injection H2 as <-.
    replace ((1 <=? a1) && (a1 <=? 127))%bool with true; [reflexivity|]. symmetry. apply andb_true_iff.
    clear - Er1 Eb. unfold uint_max_width in Eb. lia.
Qed.
End Exprs.
End Eventually.
