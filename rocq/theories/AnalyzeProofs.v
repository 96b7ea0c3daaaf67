(** Proofs about analysis: in an accepted program all that is recorded fits together, and its code is laid out
    as [CodegenSpec] says. *)
From Coq Require Import ZArith List Bool Lia.
From Verif Require Import Prelude Types Ops OpsSpec OpsProofs OpsFacts AbsOps AbsOpsSpec AbsOpsProofs Text Tables Literals
  LinMap LinMapSpec VM VMSpec Ast AstFacts Codegen SourceSem CodegenSpec CodegenProofs CodegenJumps
  Annotated AnnotatedProofs Analyze Programs AnalyzeFacts AnalyzeCode.
Import ListNotations.
Open Scope Z_scope.
Local Arguments Z.pow : simpl never.

(** ** What is recorded stays recorded *)

Section Mono.
Variables values values' : positive -> option avalue.
Variables table table' : positive -> option func.
Hypothesis Hv : forall p v, values p = Some v -> values' p = Some v.
Hypothesis Ht : forall n f t, table n = Some f -> denotes (f_return f) t ->
  exists f', table' n = Some f' /\ f_params f' = f_params f /\ f_return f' = f_return f.

Lemma noted_mono : forall e, noted values table e -> noted values' table' e.
Proof.
  induction e as [cv e t IH|cv l c r IHl IHc IHr|cv op l r IHl IHr|cv op e IH|cv name lk st args IH
                 |cv name lk g|cv lit t] using expr_induction; intros Hn.
  - destruct Hn as [H1 H2]. split; auto.
  - destruct Hn as (H1 & H2 & H3 & H4). repeat (split; [auto|]). exact H4.
  - destruct Hn as (H1 & H2 & H4). repeat (split; [auto|]). exact H4.
  - destruct Hn as (H1 & H4). repeat (split; [auto|]). exact H4.
  - destruct Hn as [Ha Hl]. split.
    + apply (all_noted_Forall values' table'). apply (all_noted_Forall values table) in Ha.
      rewrite Forall_forall in *. auto.
    + destruct lk as [[[] n|p|[]]|]; try contradiction; [|exact Hl].
      destruct Hl as (f & t & Hf & Hfit & Hd & E). destruct (Ht n f t Hf Hd) as (f' & Hf' & Hp & Hr).
      exists f', t. rewrite Hp, Hr. auto.
  - destruct lk as [[[] n|p|[]]|]; try contradiction; destruct Hn as (t & H1 & H2 & H3); exists t; auto.
  - exact Hn.
Qed.

Lemma noted_stmt_mono : forall rt s, noted_stmt values table rt s -> noted_stmt values' table' rt s.
Proof.
  intros rt.
  induction s as [cv name self t e|cv name self t e|cv e|cv co b IHb|cv co b e IHb IHe|cv co b IHb
                 |cv t e|cv name lk e|cv l IH|e] using stmt_induction; intros Hn.
  - exact Hn.
  - destruct Hn as (ty & H1 & H2 & H3 & H4 & H5). exists ty. repeat (split; [auto|]).
    destruct e as [e|]; [|exact I]. destruct H5 as [H5 H6]. split; [apply noted_mono; exact H5|exact H6].
  - exact Hn.
  - destruct Hn as (H1 & H2 & H3 & H4). repeat (split; [auto using noted_mono|]). exact I.
  - destruct Hn as (H1 & H2 & H3 & H4). repeat (split; [auto using noted_mono|]). auto.
  - destruct Hn as (H1 & H2 & H3). repeat (split; [auto using noted_mono|]). auto.
  - destruct t; try exact I. destruct e as [e|]; [|exact Hn]. destruct Hn as [H1 H2]. split; [apply noted_mono; exact H1|exact H2].
  - destruct Hn as (H1 & n & t & v & r & H2 & H3 & H4 & H5). split; [apply noted_mono; exact H1|].
    exists n, t, v, r. auto.
  - revert Hn. cbn [noted_stmt]. induction l as [|s l IHl]; [auto|]. inversion IH; subst. intros [H3 H4]. split; [auto|].
    apply IHl; assumption.
  - apply noted_mono. exact Hn.
Qed.

Lemma noted_function_mono : forall f, noted_function values table f -> noted_function values' table' f.
Proof.
  intros f [(t & Hd & Hb) Hp]. split.
  - exists t. split; [exact Hd|]. apply noted_stmt_mono. exact Hb.
  - intros p Hi. destruct (Hp p Hi) as (u & Hu & Hvv). exists u. auto.
Qed.
End Mono.

Lemma recorded_unique : forall o t r r', recorded_result o t r -> recorded_result o t r' -> r = r'.
Proof. intros o t r r' [H|[[e H] ->]] [H'|[[e' H'] ->]]; congruence. Qed.

Lemma convertible_refl : forall t, is_convertible_to t t = true.
Proof. intros t. unfold is_convertible_to. rewrite ctype_eqb_refl. reflexivity. Qed.

Lemma mtype_denotes : forall n t c, denotes n t -> @concrete_type_value unit n = Ok c -> c = t.
Proof. intros n t c. apply type_value_denotes. Qed.

Lemma literal_wf : forall lit z, parse_integer_literal lit = Some z -> wf_value (CV TInt z).
Proof.
  intros lit z H. split; [exact I|]. cbn [cv_type cv_int in_type_range]. unfold parse_integer_literal in H.
  destruct lit as [|c l]; [discriminate|].
  assert (G : forall x, - 2 ^ 127 <= to_big_int x < 2 ^ 127).
  { intros x. unfold to_big_int. rewrite two128_val, two127_val. pose proof (Z.mod_pos_bound x (2 ^ 128)).
    assert (2 ^ 128 = 2 * 2 ^ 127) by reflexivity. destruct (_ <? _) eqn:E; lia. }
  destruct (starts_with _ _); destruct (parse_uinteger_literal _); try discriminate; injection H as <-; apply G.
Qed.

(** ** Expressions that were not analysed before *)

Definition values_ok (consts : positive -> bool) (values : positive -> option avalue) : Prop :=
  forall p v, values p = Some v -> wf_avalue v /\ (consts p = false -> av_val v = None).

(** What the analysis of a call finds out. *)
Definition call_noted (table : positive -> option func) (lk : option lookup) (args : list avalue) (v : avalue)
  : Prop :=
  match lk with
  | Some (LBuiltin b) => value_evaluate_builtin_function b args = Ok v
  | Some (LNode DFunction n) =>
      exists f t, table n = Some f
        /\ Forall2 (fun a p => exists t, denotes (p_type p) t /\ is_convertible_to (av_type a) t = true)
             args (f_params f)
        /\ denotes (f_return f) t /\ v = AV t None
  | _ => False
  end.

(** The arguments of a call. *)
Definition an_args (callee : positive -> level -> M unit) (run_fuel : nat) (lv : level) (cx : context)
  : list expr -> M (list expr * list avalue) :=
  fix an_args (l : list expr) : M (list expr * list avalue) :=
    match l with
    | [] => mret ([], [])
    | a :: rest =>
        let! a' := an_expr callee run_fuel lv cx a in
        let! v := mvalue (expr_cv a') in
        let! (rest', vs) := an_args rest in
        mret (a' :: rest', v :: vs)
    end.

Lemma an_call_unfold : forall callee rf lv cx cv name lk st args,
  an_expr callee rf lv cx (ECall cv name lk st args)
  = let! _ := mvalue lk in
    let! (args', values) := an_args callee rf lv cx args in
    let! v := an_call callee rf lv cx lk values in
    mret (ECall (Some v) name lk st args').
Proof.
  reflexivity.
Qed.

Section Fresh_Expr.
Variable consts : positive -> bool.
Variable callee : positive -> level -> M unit.
Variable run_fuel : nat.
(** An invariant of the analysis, how it changes the state, and whether there may be calls. *)
Variable I : state -> Prop.
Variable R : state -> state -> Prop.
Variable calls : Prop.
(** The functions that expressions may refer to, when they are analysed at the levels [Lv]. *)
Variable tab : state -> positive -> option func.
Variable Lv : level -> Prop.
Hypothesis I_values : forall st, I st -> values_ok consts (st_values st).
Hypothesis R_refl : forall st, R st st.
Hypothesis R_trans : forall a b c, R a b -> R b c -> R a c.
Hypothesis R_noted : forall st st' e, I st -> R st st' ->
  noted (st_values st) (tab st) e -> noted (st_values st') (tab st') e.
Hypothesis R_call : calls -> forall lv cx lk args st v st', I st -> Forall wf_avalue args ->
  an_call callee run_fuel lv cx lk args st = Some (Ok (v, st')) ->
  I st' /\ R st st' /\ wf_avalue v /\ (cx = normal -> Lv lv -> call_noted (tab st') lk args v).

Definition good_expr (e : expr) : Prop :=
  fresh consts e = true -> call_free e = true \/ calls ->
  forall lv cx st e' st', I st -> an_expr callee run_fuel lv cx e st = Some (Ok (e', st')) ->
  I st' /\ R st st'
  /\ forall v, expr_cv e' = Some v -> wf_avalue v /\ (cx = normal -> Lv lv -> noted (st_values st') (tab st') e').

Definition good_type (t : type_node) : Prop :=
  fresh_type consts t = true -> call_free_type t = true \/ calls ->
  forall st t' st', I st -> an_type callee run_fuel t st = Some (Ok (t', st')) ->
  I st' /\ R st st' /\ node_type t' = node_type t /\ exists c, denotes t' c.

Lemma absent_none : forall A (x : option A), absent x = true -> x = None.
Proof. intros A [a|] H; [discriminate|reflexivity]. Qed.

Ltac split_fresh H :=
  repeat match type of H with
  | (_ && _)%bool = true => let H' := fresh "F" in apply andb_true_iff in H; destruct H as [H H']
  end.

Lemma type_wf : forall k w cw cv c, @concrete_type_value unit (Type_Node cv k w cw) = Ok c -> wf_type c.
Proof.
  intros k w cw cv c H. unfold concrete_type_value, concrete_type in H.
  destruct k, cw; cbn [bind value_of] in H; try discriminate; try (injection H as <-; exact Logic.I).
  unfold concrete_type_Uint, concrete_type_ctor, assert_then in H.
  destruct (_ <=? _); cbn [bind] in H; [|discriminate]. destruct (1 <? _); cbn [bind] in H; [|discriminate].
  destruct (_ && _)%bool eqn:E; cbn [bind value_of] in H; [|discriminate]. injection H as <-.
  unfold wf_type, uint_max_width in *. lia.
Qed.

Lemma type_denotes : forall k w cw c, @concrete_type_value unit (Type_Node None k w cw) = Ok c ->
  denotes (Type_Node (Some (unknown_of_type c)) k w cw) c.
Proof.
  intros k w cw c H. split; [reflexivity|]. split; [|eapply type_wf; exact H].
  unfold type_of_node. change (concrete_type_value (Type_Node (Some (unknown_of_type c)) k w cw))
    with (@concrete_type_value unit (Type_Node None k w cw)). rewrite H. reflexivity.
Qed.

Lemma literal_good : forall lit t st v st', an_literal lit t st = Some (Ok (v, st')) ->
  st' = st /\ exists c, literal_value lit t = ret c /\ wf_value c /\ v = known c.
Proof.
  intros lit t st v st' H. unfold an_literal in H.
  destruct t; try discriminate;
    try (destruct (parse_integer_literal lit) as [z|] eqn:E; [|discriminate]; minv H; subst; split; [reflexivity|];
         exists (CV TInt z); unfold literal_value; rewrite E; split; [reflexivity|]; split;
         [eapply literal_wf; exact E|reflexivity]).
  - minv H. subst. split; [reflexivity|]. exists cv_True. split; [reflexivity|].
    split; [split; [exact Logic.I|cbn; auto]|reflexivity].
  - minv H. subst. split; [reflexivity|]. exists cv_False. split; [reflexivity|].
    split; [split; [exact Logic.I|cbn; auto]|reflexivity].
Qed.

Lemma args_good : forall args, Forall good_expr args ->
  forallb (fresh consts) args = true -> calls ->
  forall lv cx st args' vs st', I st -> an_args callee run_fuel lv cx args st = Some (Ok ((args', vs), st')) ->
  I st' /\ R st st' /\ Forall wf_avalue vs /\ map expr_cv args' = map Some vs
  /\ (cx = normal -> Lv lv -> Forall (noted (st_values st') (tab st')) args').
Proof.
  induction args as [|e args IH]; intros HF Hfr Hc lv cx st args' vs st' HI H.
  - cbn [an_args] in H. minv H. injection H as -> ->. subst. repeat split; auto.
  - inversion HF as [|? ? He Hargs]; subst. cbn [forallb] in Hfr. apply andb_true_iff in Hfr. destruct Hfr as [F1 F2].
    cbn [an_args] in H. minv H. minv H. minv E0. subst. minv H. destruct a1 as [rest' vs'].
    minv H. injection H as -> ->. subst.
    destruct (He F1 (or_intror Hc) _ _ _ _ _ HI E) as (I1 & R1 & G1). specialize (G1 _ H0). destruct G1 as [W1 N1].
    destruct (IH Hargs F2 Hc _ _ _ _ _ _ I1 E0) as (I2 & R2 & W2 & M2 & N2).
    split; [exact I2|]. split; [eapply R_trans; eassumption|]. split; [constructor; assumption|].
    split; [cbn [map]; congruence|]. intros ->. constructor; [|auto]. eapply R_noted; eauto.
Qed.

Lemma fresh_good : (forall e, good_expr e) /\ (forall t, good_type t).
Proof.
  apply both_induction; unfold good_expr, good_type.
  - (* conversion *)
    intros cv e t IHe IHt Hf Hc lv cx st e' st' HI H. cbn [fresh] in Hf. split_fresh Hf.
    assert (C1 : call_free e = true \/ calls).
    { destruct Hc as [Hc|Hc]; [left; cbn [call_free] in Hc; apply andb_true_iff in Hc; apply Hc|right; exact Hc]. }
    assert (C2 : call_free_type t = true \/ calls).
    { destruct Hc as [Hc|Hc]; [left; cbn [call_free] in Hc; apply andb_true_iff in Hc; apply Hc|right; exact Hc]. }
    cbn [an_expr] in H. minv H. minv H. minv H. minv E1. subst. minv H. minv E1. subst.
    destruct (IHe F0 C1 _ _ _ _ _ HI E) as (I1 & R1 & G1). destruct (G1 _ H0) as [W1 N1].
    destruct (IHt F C2 _ _ _ I1 E0) as (I2 & R2 & _ & c & D).
    pose proof (mtype_denotes _ _ _ D H1) as ->.
    destruct (is_convertible_to (av_type a1) c) eqn:Ec; cbn [negb] in H; [|discriminate].
    minv H. minv E1. subst. minv H. subst.
    split; [exact I2|]. split; [eapply R_trans; eassumption|]. cbn [expr_cv]. intros v [= <-].
    destruct (conversion_wf _ _ _ W1 (proj2 (proj2 D)) Ec H2) as [_ Wr]. split; [exact Wr|]. intros ->.
    split; [eapply R_noted; eauto|]. exists a1, c, a2. auto.
  - (* if *)
    intros cv l c r IHl IHc IHr Hf Hcf lv cx st e' st' HI H. cbn [fresh] in Hf. split_fresh Hf.
    assert (CC : (call_free l = true \/ calls) /\ (call_free c = true \/ calls) /\ (call_free r = true \/ calls)).
    { destruct Hcf as [Hcf|Hcf]; [|auto]. cbn [call_free] in Hcf. split_fresh Hcf. auto. }
    destruct CC as (Cl & Cc & Cr).
    cbn [an_expr] in H. minv H. destruct (IHc F0 Cc _ _ _ _ _ HI E) as (I1 & R1 & G1).
    destruct (expr_cv a) as [cc|] eqn:Ecc; [|discriminate]. destruct (G1 _ eq_refl) as [W1 N1].
    destruct (ctype_eqb (av_type cc) TBool) eqn:Eb; cbn [negb] in H; [|discriminate].
    minv H. assert (s0 = s).
    { destruct (is_constant cx); [|minv E0; congruence]. minv E0. minv E1. minv E0. congruence. }
    subst s0. minv H. minv H.
    destruct (IHl F1 Cl _ _ _ _ _ I1 E1) as (I2 & R2 & G2).
    destruct (IHr F Cr _ _ _ _ _ I2 E2) as (I3 & R3 & G3).
    destruct (expr_cv a1) as [lv1|] eqn:El; [|discriminate]. destruct (expr_cv a2) as [rv|] eqn:Er; [|discriminate].
    destruct (G2 _ eq_refl) as [W2 N2]. destruct (G3 _ eq_refl) as [W3 N3].
    minv H. minv E3. subst. minv H. minv E3. subst. minv H. minv E3. subst. minv H. subst.
    split; [exact I3|]. split; [eauto|]. cbn [expr_cv]. intros v [= <-].
    destruct (if_wf _ _ _ _ _ W2 W1 W3 H0 H2) as [_ Wr]. split; [exact Wr|]. intros ->.
    cbn [is_constant andb] in N2, N3.
    split; [eapply R_noted; [exact I2|exact R3|auto]|]. split; [eapply R_noted; [exact I1|eauto|auto]|].
    split; [auto|]. eexists _, _, _, _, _. repeat (split; [eassumption|]). reflexivity.
  - (* binary *)
    intros cv op l r IHl IHr Hf Hcf lv cx st e' st' HI H. cbn [fresh] in Hf. split_fresh Hf.
    assert (CC : (call_free l = true \/ calls) /\ (call_free r = true \/ calls)).
    { destruct Hcf as [Hcf|Hcf]; [|auto]. cbn [call_free] in Hcf. split_fresh Hcf. auto. }
    destruct CC as (Cl & Cr).
    cbn [an_expr] in H. minv H. destruct (IHl F0 Cl _ _ _ _ _ HI E) as (I1 & R1 & G1).
    minv H. minv E0. subst. minv H.
    assert (s0 = s /\ (cx = normal -> a1 = normal)) as [-> Hcx].
    { destruct op; try (minv E0; subst; auto);
        (destruct (is_constant cx) eqn:Ek;
         [|minv E0; subst; auto]; minv E0; minv E1; subst; destruct (ctype_eqb _ _); cbn [negb] in E0; [|discriminate];
         minv E0; minv E1; subst; minv E0; subst; split; [reflexivity|intros ->; discriminate]). }
    minv H. destruct (IHr F Cr _ _ _ _ _ I1 E1) as (I2 & R2 & G2).
    minv H. minv E2. subst.
    destruct (expr_cv a) as [v1|] eqn:El; [|discriminate]. destruct (expr_cv a2) as [v2|] eqn:Er; [|discriminate].
    destruct (G1 _ eq_refl) as [W1 N1]. destruct (G2 _ eq_refl) as [W2 N2].
    minv H. minv E2. subst.
    assert (H' : exists v, recorded_result (value_evaluate_binary_operator v1 op v2) a4 v
                 /\ e' = EBinary (Some v) op a a2 /\ st' = s0).
    { destruct (value_evaluate_binary_operator v1 op v2) as [x|x| |] eqn:Ev; destruct a1;
        try discriminate; minv H; minv H; minv E2; subst; eauto. }
    destruct H' as (v & Hr & -> & ->).
    split; [exact I2|]. split; [eauto|]. cbn [expr_cv]. intros w [= <-].
    destruct (binary_wf _ _ _ _ _ W1 W2 H2 Hr) as [_ Wr]. split; [exact Wr|]. intros ->.
    split; [eapply R_noted; [exact I1|exact R2|auto]|]. split; [auto|].
    eexists _, _, _, _. repeat (split; [eassumption|]). reflexivity.
  - (* prefix *)
    intros cv op e IHe Hf Hcf lv cx st e' st' HI H. cbn [fresh] in Hf. split_fresh Hf.
    cbn [an_expr] in H. minv H. destruct (IHe F Hcf _ _ _ _ _ HI E) as (I1 & R1 & G1).
    minv H. minv E0. subst. destruct (G1 _ H0) as [W1 N1]. minv H. minv E0. subst.
    assert (H' : exists v, recorded_result (value_evaluate_unary_operator op a0) a1 v
                 /\ e' = EPrefix (Some v) op a /\ st' = s).
    { destruct (value_evaluate_unary_operator op a0) as [x|x| |] eqn:Ev; destruct cx;
        try discriminate; minv H; minv H; minv E0; subst; eauto. }
    destruct H' as (v & Hr & -> & ->).
    split; [exact I1|]. split; [eauto|]. cbn [expr_cv]. intros w [= <-].
    destruct (unary_wf _ _ _ _ W1 H1 Hr) as [_ Wr]. split; [exact Wr|]. intros ->.
    split; [auto|]. eexists _, _, _. repeat (split; [eassumption|]). reflexivity.
  - (* call *)
    intros cv name lk is args IH Hf Hcf lv cx st e' st' HI H. cbn [fresh] in Hf. split_fresh Hf.
    destruct Hcf as [Hcf|Hcf]; [discriminate|]. rewrite an_call_unfold in H. minv H. minv E. subst. minv H.
    destruct a0 as [args' vs]. minv H. minv H. subst.
    destruct (args_good args IH F Hcf _ _ _ _ _ _ HI E) as (I1 & R1 & W1 & M1 & N1).
    destruct (R_call Hcf _ _ _ _ _ _ _ I1 W1 E0) as (I2 & R2 & W2 & N2).
    split; [exact I2|]. split; [eauto|]. cbn [expr_cv]. intros w [= <-]. split; [exact W2|]. intros -> HL.
    specialize (N1 eq_refl HL). specialize (N2 eq_refl HL). split.
    + refine (proj2 (all_noted_Forall _ _ _) _). rewrite Forall_forall in *. intros x Hx.
      eapply R_noted; [exact I1|exact R2|auto].
    + destruct a as [[] n|p|[]]; cbn [call_noted] in N2; try contradiction.
      * destruct N2 as (f & t & Hfn & Hfit & Hd & ->). exists f, t. split; [exact Hfn|]. split; [|auto].
        rewrite M1. clear - Hfit. induction Hfit as [|x p l l' (t & Hd & Hc)]; constructor; [|assumption].
        exists x, t. auto.
      * rewrite value_builtin_assert_spec in N2.
        destruct vs as [|x [|y vs]]; [discriminate| |destruct x as [[] [z|]]; discriminate].
        destruct args' as [|b [|b' args']]; try discriminate. injection M1 as M1.
        exists b, x, a0. rewrite value_builtin_assert_spec. auto.
  - (* identifier *)
    intros cv name lk g Hf _ lv cx st e' st' HI H. cbn [fresh] in Hf. apply andb_true_iff in Hf. destruct Hf as [Hf F].
    apply absent_none in Hf. subst cv. cbn [an_expr] in H. minv H. minv H. subst.
    unfold an_id in E. minv E. minv E0. subst. minv E. minv E0. subst.
    assert (G : forall n v, st_values st n = Some v -> wf_avalue v /\ (consts n = false -> av_val v = None)) by
      (intros n v; apply I_values; exact HI).
    destruct a0 as [[] n|p|b]; try discriminate.
    + (* let *)
      destruct (is_constant cx) eqn:Ek; [discriminate|]. destruct (st_values st n) as [v|] eqn:Ev; [|discriminate].
      minv E. subst. split; [exact HI|]. split; [apply R_refl|]. cbn [expr_cv]. intros w [= <-].
      destruct (G n v Ev) as [W1 W2]. split; [exact W1|]. intros _. apply negb_true_iff in F. specialize (W2 F).
      destruct v as [t [z|]]; [discriminate|]. exists t. split; [apply W1|]. auto.
    + (* const *)
      destruct (st_values st n) as [v|] eqn:Ev; [|discriminate]. minv E. subst. split; [exact HI|].
      split; [apply R_refl|]. cbn [expr_cv]. intros w [= <-]. destruct (G n v Ev) as [W1 W2]. split; [exact W1|].
      intros _. exists v. auto.
    + (* parameter *)
      destruct (is_constant cx) eqn:Ek; [discriminate|]. minv E. subst. split; [exact HI|]. split; [apply R_refl|].
      cbn [expr_cv]. intros w Hw. destruct (G p w Hw) as [W1 W2]. split; [exact W1|]. intros _.
      apply negb_true_iff in F. specialize (W2 F). destruct w as [t [z|]]; [discriminate|].
      exists t. split; [apply W1|]. auto.
  - (* literal *)
    intros cv lit t Hf _ lv cx st e' st' HI H. cbn [fresh] in Hf. apply absent_none in Hf. subst cv.
    cbn [an_expr] in H. minv H. minv H. subst. apply literal_good in E. destruct E as (-> & c & Hl & Hw & ->).
    split; [exact HI|]. split; [apply R_refl|]. cbn [expr_cv]. intros w [= <-]. split.
    + split; [apply Hw|]. intros z Hz. cbn in Hz. injection Hz as <-. apply Hw.
    + intros _. exists c. auto.
  - (* type without width *)
    intros cv k cw Hf _ st t' st' HI H. cbn [fresh_type] in Hf. split_fresh Hf. apply absent_none in Hf. subst cv.
    cbn [an_type] in H. minv H. minv E. subst. minv H. subst. split; [exact HI|]. split; [apply R_refl|].
    split; [reflexivity|]. exists a. apply type_denotes. exact H0.
  - (* width *)
    intros cv k e cw IHe Hf Hcf st t' st' HI H. cbn [fresh_type] in Hf. split_fresh Hf. apply absent_none in Hf. subst cv.
    cbn [an_type] in H. minv H. minv H. minv E0. subst. destruct (IHe F Hcf _ _ _ _ _ HI E) as (I1 & R1 & _).
    destruct (is_integer _); cbn [negb] in H; [|discriminate]. minv H. minv E0. subst.
    destruct (_ || _)%bool; [discriminate|]. minv H. minv E0. subst. minv H. subst.
    split; [exact I1|]. split; [exact R1|]. split; [reflexivity|]. eexists. apply type_denotes. eassumption.
Qed.

(** ** Expressions that were analysed before *)

Lemma noted_cv : forall values table e, noted values table e -> exists v, expr_cv e = Some v.
Proof.
  intros values table [cv e t|cv l c r|cv op l r|cv op e|cv name lk st args|cv name lk g|cv lit t] H; cbn [expr_cv].
  - destruct H as (_ & v & t0 & r & _ & _ & _ & _ & ->). eauto.
  - destruct H as (_ & _ & _ & a & b & d & t & v & _ & _ & _ & _ & _ & ->). eauto.
  - destruct H as (_ & _ & a & b & t & v & _ & _ & _ & _ & ->). eauto.
  - destruct H as (_ & a & t & v & _ & _ & _ & ->). eauto.
  - destruct H as [_ H]. destruct lk as [[[] n|p|[]]|]; try contradiction.
    + destruct H as (f & t & _ & _ & _ & ->). eauto.
    + destruct H as (a & v & r & _ & _ & _ & ->). eauto.
  - destruct lk as [[[] n|p|b]|]; try contradiction; destruct H as (t & _ & _ & ->); eauto.
  - destruct H as (v & _ & _ & ->). eauto.
Qed.

Lemma denotes_again : forall n t st t' st', denotes n t -> an_type callee run_fuel n st = Some (Ok (t', st')) ->
  t' = n /\ st' = st.
Proof.
  intros [cv k w cw] t st t' st' (H & _) E. cbn [type_cv] in H. subst cv. cbn [an_type] in E. destruct w; minv E; auto.
Qed.

Hypothesis all_calls : calls.
Hypothesis all_levels : forall lv, Lv lv.

Lemma noted_again : forall e lv st e' st', noted (st_values st) (tab st) e -> I st ->
  an_expr callee run_fuel lv normal e st = Some (Ok (e', st')) -> I st' /\ R st st' /\ e' = e.
Proof.
  induction e as [cv e t IH|cv l c r IHl IHc IHr|cv op l r IHl IHr|cv op e IH|cv name lk is args IH
                 |cv name lk g|cv lit t] using expr_induction; intros lv st e' st' Hn HI H.
  - destruct Hn as (Hn & v & t0 & r & Ev & Hd & Hc & Hr & ->). cbn [an_expr] in H. minv H.
    destruct (IH _ _ _ _ Hn HI E) as (I1 & R1 & ->). minv H. apply (denotes_again _ _ _ _ _ Hd) in E0.
    destruct E0 as [-> ->]. minv H. minv E0. subst. minv H. minv E0. subst.
    rewrite Ev in H0. injection H0 as <-. pose proof (mtype_denotes _ _ _ Hd H1) as ->.
    rewrite Hc in H. cbn [negb] in H. minv H. minv E0. subst. minv H. subst.
    rewrite (recorded_unique _ _ _ _ H0 Hr). auto.
  - destruct Hn as (Hl & Hc & Hr & lv1 & cv1 & rv & t & v & El & Ec & Er & Ht & Hv & ->). cbn [an_expr] in H. minv H.
    destruct (IHc _ _ _ _ Hc HI E) as (I1 & R1 & ->). rewrite Ec in H.
    destruct (ctype_eqb (av_type cv1) TBool); cbn [negb] in H; [|discriminate]. cbn [is_constant andb negb orb] in H.
    minv H. minv E0. subst. minv H.
    destruct (IHl _ _ _ _ (R_noted _ _ _ HI R1 Hl) I1 E0) as (I2 & R2 & ->). minv H.
    destruct (IHr _ _ _ _ (R_noted _ _ _ I1 R2 (R_noted _ _ _ HI R1 Hr)) I2 E1) as (I3 & R3 & ->).
    rewrite El, Er in H. minv H. minv E2. subst. minv H. minv E2. subst. minv H. minv E2. subst. minv H. subst.
    rewrite Ht in H0. injection H0 as <-. rewrite (recorded_unique _ _ _ _ H2 Hv). eauto.
  - destruct Hn as (Hl & Hr & lv1 & rv & t & v & El & Er & Ht & Hv & ->). cbn [an_expr] in H. minv H.
    destruct (IHl _ _ _ _ Hl HI E) as (I1 & R1 & ->). rewrite El in H. minv H. minv E0. subst.
    minv H. assert (a0 = normal /\ s0 = s) as [-> ->].
    { destruct op; cbn [is_constant] in E0; minv E0; auto. }
    minv H. destruct (IHr _ _ _ _ (R_noted _ _ _ HI R1 Hr) I1 E1) as (I2 & R2 & ->). rewrite Er in H. minv H. minv E2. subst.
    minv H. minv E2. subst. rewrite Ht in H2. injection H2 as <-.
    destruct (value_evaluate_binary_operator lv1 op rv) as [x|x| |] eqn:Ev; minv H; minv E2; subst; minv H; subst;
      rewrite (recorded_unique _ _ _ _ H2 Hv); eauto.
  - destruct Hn as (Hn & x & t & v & Ex & Ht & Hv & ->). cbn [an_expr] in H. minv H.
    destruct (IH _ _ _ _ Hn HI E) as (I1 & R1 & ->). minv H. minv E0. subst. rewrite Ex in H0. injection H0 as <-.
    minv H. minv E0. subst. rewrite Ht in H0. injection H0 as <-.
    destruct (value_evaluate_unary_operator op x) as [y|y| |] eqn:Ev; minv H; minv E0; subst; minv H; subst;
      rewrite (recorded_unique _ _ _ _ H0 Hv); eauto.
  - rewrite an_call_unfold in H. minv H. minv E. subst. minv H. destruct a0 as [args' vs]. minv H. minv H. subst.
    pose proof Hn as [Hargs Hlk]. apply (all_noted_Forall (st_values st) (tab st)) in Hargs.
    assert (G : forall args, Forall (fun e => forall lv st e' st', noted (st_values st) (tab st) e -> I st ->
                an_expr callee run_fuel lv normal e st = Some (Ok (e', st')) -> I st' /\ R st st' /\ e' = e) args ->
              forall st args' vs st', Forall (noted (st_values st) (tab st)) args -> I st ->
              an_args callee run_fuel lv normal args st = Some (Ok ((args', vs), st')) ->
              I st' /\ R st st' /\ args' = args /\ map expr_cv args = map Some vs /\ Forall wf_avalue vs).
    { clear - R_noted R_trans R_refl. induction args as [|e args IHa]; intros HF st args' vs st' Hn HI H.
      - cbn [an_args] in H. minv H. injection H as -> ->. subst. repeat split; auto.
      - inversion HF as [|? ? He HF']; subst. inversion Hn as [|? ? Hne Hn']; subst. cbn [an_args] in H. minv H.
        destruct (He _ _ _ _ Hne HI E) as (I1 & R1 & ->). minv H. minv E0. subst. minv H. destruct a0 as [rest' vs'].
        minv H. injection H as -> ->. subst.
        destruct (IHa HF' _ _ _ _ (Forall_impl _ (fun x Hx => R_noted _ _ _ HI R1 Hx) Hn') I1 E0) as (I2 & R2 & -> & M & W).
        split; [exact I2|]. split; [eauto|]. split; [reflexivity|]. split; [cbn [map]; congruence|].
        constructor; [|exact W]. eapply noted_wf; eassumption. }
    destruct (G args IH _ _ _ _ Hargs HI E) as (I1 & R1 & -> & M1 & W1).
    destruct (R_call all_calls _ _ _ _ _ _ _ I1 W1 E0) as (I2 & R2 & _ & N2).
    split; [exact I2|]. split; [eauto|]. specialize (N2 eq_refl (all_levels _)).
    pose proof (R_noted _ _ _ HI (R_trans _ _ _ R1 R2) Hn) as [_ Hlk'].
    destruct a as [[] n|p|[]]; try contradiction.
    + destruct Hlk' as (f & t & Hf & _ & Hd & ->). destruct N2 as (f' & t' & Hf' & _ & Hd' & ->).
      rewrite Hf in Hf'. injection Hf' as <-. rewrite (denotes_unique _ _ _ Hd Hd'). reflexivity.
    + destruct Hlk' as (b & v & r & -> & Eb & Hr & ->). cbn [map] in M1. destruct vs as [|x [|y vs]]; try discriminate.
      injection M1 as M1. rewrite Eb in M1. injection M1 as ->. cbn [call_noted] in N2. congruence.
  - destruct (noted_cv _ _ _ Hn) as [v Hv]. cbn [expr_cv] in Hv. subst cv. cbn [an_expr] in H. minv H. subst. auto.
  - destruct (noted_cv _ _ _ Hn) as [v Hv]. cbn [expr_cv] in Hv. subst cv. cbn [an_expr] in H. minv H. minv E. minv H. subst. auto.
Qed.

End Fresh_Expr.

(** ** The shape of expressions *)

Definition top_call (e : expr) : bool :=
  match e with ECall _ _ _ st args => st && forallb plain args | _ => false end.

Lemma expr_shape : forall callee rf e lv cx st e' st', an_expr callee rf lv cx e st = Some (Ok (e', st')) ->
  plain e' = plain e /\ top_call e' = top_call e.
Proof.
  intros callee rf.
  induction e as [cv e t IH|cv l c r IHl IHc IHr|cv op l r IHl IHr|cv op e IH|cv name lk is args IH
                 |cv name lk g|cv lit t] using expr_induction; intros lv cx st e' st' H.
  - cbn [an_expr] in H. minv H. destruct (IH _ _ _ _ _ E) as [P1 _]. minv H. minv H. minv H.
    destruct (negb _); [discriminate|]. minv H. minv H. subst. auto.
  - cbn [an_expr] in H. minv H. destruct (IHc _ _ _ _ _ E) as [P1 _]. destruct (expr_cv a) as [v|]; [|discriminate].
    destruct (negb _); [discriminate|]. minv H. minv H. minv H.
    destruct (IHl _ _ _ _ _ E1) as [P2 _]. destruct (IHr _ _ _ _ _ E2) as [P3 _].
    destruct (expr_cv a1), (expr_cv a2); try discriminate. minv H. minv H. minv H. minv H. subst. cbn [plain top_call].
    rewrite P1, P2, P3. auto.
  - cbn [an_expr] in H. minv H. destruct (IHl _ _ _ _ _ E) as [P1 _]. minv H. minv H. minv H.
    destruct (IHr _ _ _ _ _ E2) as [P2 _]. minv H. destruct (expr_cv a), (expr_cv a2); try discriminate. minv H.
    destruct (value_evaluate_binary_operator _ _ _), a1; try discriminate; minv H; minv H; subst;
      cbn [plain top_call]; rewrite P1, P2; auto.
  - cbn [an_expr] in H. minv H. destruct (IH _ _ _ _ _ E) as [P1 _]. minv H. minv H.
    destruct (value_evaluate_unary_operator _ _), cx; try discriminate; minv H; minv H; subst;
      cbn [plain top_call]; auto.
  - rewrite an_call_unfold in H. minv H. minv H. destruct a0 as [args' vs]. minv H. minv H. subst. cbn [plain top_call].
    assert (G : forallb plain args' = forallb plain args).
    { clear - IH E0. revert s args' vs s0 E0. induction args as [|e args IHa]; intros s args' vs s0 H.
      - cbn [an_args] in H. minv H. injection H as -> ->. reflexivity.
      - inversion IH as [|? ? He HF]; subst. cbn [an_args] in H. minv H. destruct (He _ _ _ _ _ E) as [P1 _]. minv H. minv H.
        destruct a1. minv H. injection H as -> ->. cbn [forallb]. rewrite P1. f_equal. eapply IHa; eassumption. }
    rewrite G. auto.
  - cbn [an_expr] in H. destruct cv; [minv H; subst; auto|]. minv H. minv H. subst. auto.
  - cbn [an_expr] in H. destruct cv; [minv H; minv H; subst; auto|]. minv H. minv H. subst. auto.
Qed.

(** ** The invariant *)

(** Statements whose own members are filled in. *)
Fixpoint marked (s : stmt) : Prop :=
  match s with
  | SIf cv _ b e => cv = Some av_Void /\ marked b /\ match e with Some s1 => marked s1 | None => True end
  | SWhile cv _ b => cv = Some av_Void /\ marked b
  | SBlock cv l =>
      cv = Some av_Void
      /\ (fix all (l : list stmt) : Prop := match l with [] => True | s1 :: l' => marked s1 /\ all l' end) l
  | SControl cv k _ => match k with ctl_return => True | _ => cv = Some av_Void end
  | _ => True
  end.

Definition sig_ok (values : positive -> option avalue) (f : func) : Prop :=
  (exists t, denotes (f_return f) t)
  /\ forall p, In p (f_params f) -> exists t, denotes (p_type p) t /\ values (p_self p) = Some (AV t None).

Section Invariant.
Variable consts : positive -> bool.
(** The variables and constants of every function. *)
Variable ids : positive -> list positive.
Hypothesis ids_disjoint : forall n m p, In p (ids n) -> In p (ids m) -> n = m.

Record static (n : positive) (f : func) : Prop := {
  sta_requires : f_requires f = None;
  sta_generic : f_generic f = false;
  sta_shaped : shaped (f_body f) = true;
  sta_ends : ends_with_return f;
  sta_ids : declared_in f = ids n;
  sta_distinct : NoDup (ids n) }.

Definition body_ok (values : positive -> option avalue) (table : positive -> option func) (f : func) : Prop :=
  f_cv f = type_cv (f_return f)
  /\ noted_function values table f /\ marked (f_body f) /\ loops_ok false (f_body f) = true.

Definition status (st : state) (n : positive) (f : func) : Prop :=
  match f_level f with
  | unanalyzed =>
      (fresh_type consts (f_return f) = true /\ call_free_type (f_return f) = true)
      /\ (forall p, In p (f_params f) ->
            fresh_type consts (p_type p) = true /\ call_free_type (p_type p) = true /\ consts (p_self p) = false)
      /\ fresh_stmt consts (f_body f) = true /\ f_cv f = None /\ f_address f = None
      /\ ~ In n (st_stack st) /\ (forall p, In p (ids n) -> st_values st p = None)
  | shallow =>
      sig_ok (st_values st) f /\ fresh_stmt consts (f_body f) = true /\ f_address f = None
      /\ ((f_cv f = None /\ In n (st_stack st)) \/ f_cv f = type_cv (f_return f))
      /\ (~ In n (st_stack st) -> forall p, In p (declares (f_body f)) -> st_values st p = None)
  | full => body_ok (st_values st) (st_functions st) f /\ f_address f = None
  | for_constant_evaluation =>
      body_ok (st_values st) (st_functions st) f /\ (exists a, f_address f = Some a) /\ ~ In n (st_stack st)
  end.

Record Inv (st : state) : Prop := {
  inv_values : values_ok consts (st_values st);
  inv_static : forall n f, st_functions st n = Some f -> static n f;
  inv_status : forall n f, st_functions st n = Some f -> status st n f;
  inv_code : exists units, laid_out (vm_instructions (st_vm st)) (st_functions st) units }.

(** How analysis changes the state, when it is responsible for the variables and constants [D]. *)
Record step (D : list positive) (st st' : state) : Prop := {
  s_stack : st_stack st' = st_stack st;
  s_values : forall p v, st_values st p = Some v -> st_values st' p = Some v;
  s_frame : forall p, st_values st p = None ->
    st_values st' p = None \/ In p D \/ exists n, In p (ids n) /\ ~ In n (st_stack st);
  s_functions : forall n f, st_functions st n = Some f -> exists f', st_functions st' n = Some f' /\ fstep f f'
    /\ (In n (st_stack st) -> f' = f);
  s_none : forall n, st_functions st n = None -> st_functions st' n = None;
  s_code : (length (vm_instructions (st_vm st)) <= length (vm_instructions (st_vm st')))%nat }.

Lemma step_refl : forall D st, step D st st.
Proof.
  intros D st. split; auto. intros n f H. exists f. split; [exact H|]. split; [apply fstep_refl|auto].
Qed.

Lemma step_trans : forall D a b c, step D a b -> step D b c -> step D a c.
Proof.
  intros D a b c [A1 A2 A3 A4 A5 A6] [B1 B2 B3 B4 B5 B6]. split.
  - congruence.
  - auto.
  - intros p Hp. destruct (st_values b p) as [v|] eqn:E.
    + destruct (A3 p Hp) as [H|H]; [congruence|auto].
    + destruct (B3 p E) as [H|[H|H]]; auto. rewrite A1 in H. auto.
  - intros n f H. destruct (A4 n f H) as (f' & H' & S1 & U1). destruct (B4 n f' H') as (f'' & H'' & S2 & U2).
    exists f''. split; [exact H''|]. split; [eapply fstep_trans; eassumption|]. intros Hi. rewrite U2, U1; auto.
    rewrite A1. exact Hi.
  - auto.
  - eapply Nat.le_trans; eassumption.
Qed.

Lemma step_weaken : forall D D' a b, incl D D' -> step D a b -> step D' a b.
Proof.
  intros D D' a b Hi [A1 A2 A3 A4 A5 A6]. split; auto. intros p Hp. destruct (A3 p Hp) as [H|[H|H]]; auto.
Qed.

Lemma status_level : forall st n f t, status st n f -> denotes (f_return f) t -> f_level f <> unanalyzed.
Proof.
  intros st n f t Hs (Hd & _) E. unfold status in Hs. rewrite E in Hs. destruct Hs as ((Hf & _) & _).
  destruct (f_return f) as [cv k w cw]. cbn [type_cv] in Hd. subst cv. discriminate.
Qed.

Lemma step_signature : forall D st st', Inv st -> step D st st' ->
  forall n f t, st_functions st n = Some f -> denotes (f_return f) t ->
  exists f', st_functions st' n = Some f' /\ f_params f' = f_params f /\ f_return f' = f_return f.
Proof.
  intros D st st' HI HS n f t Hf Hd. destruct (s_functions _ _ _ HS n f Hf) as (f' & Hf' & (S1 & _) & _).
  pose proof (status_level _ _ _ _ (inv_status _ HI n f Hf) Hd) as Hl. destruct (S1 Hl). eauto.
Qed.

Lemma step_noted : forall D st st' e, Inv st -> step D st st' ->
  noted (st_values st) (st_functions st) e -> noted (st_values st') (st_functions st') e.
Proof.
  intros D st st' e HI HS. apply noted_mono; [apply (s_values _ _ _ HS)|]. eapply step_signature; eassumption.
Qed.

Lemma step_noted_stmt : forall D st st' rt s, Inv st -> step D st st' ->
  noted_stmt (st_values st) (st_functions st) rt s -> noted_stmt (st_values st') (st_functions st') rt s.
Proof.
  intros D st st' rt s HI HS. apply noted_stmt_mono; [apply (s_values _ _ _ HS)|]. eapply step_signature; eassumption.
Qed.

(** The status of a function that does not change itself. *)
Lemma status_keep : forall st st' n f, static n f -> status st n f ->
  (forall p v, st_values st p = Some v -> st_values st' p = Some v) ->
  (forall m g t, st_functions st m = Some g -> denotes (f_return g) t ->
     exists g', st_functions st' m = Some g' /\ f_params g' = f_params g /\ f_return g' = f_return g) ->
  (In n (st_stack st') <-> In n (st_stack st)) ->
  (~ In n (st_stack st) -> forall p, In p (ids n) -> st_values st p = None -> st_values st' p = None) ->
  status st' n f.
Proof.
  intros st st' n f Hsta Hs Hv Ht Hst Hfr.
  assert (B : body_ok (st_values st) (st_functions st) f -> body_ok (st_values st') (st_functions st') f).
  { intros (B1 & B2 & B3). split; [exact B1|]. split; [|exact B3]. eapply noted_function_mono; eassumption. }
  unfold status in *. destruct (f_level f).
  - destruct Hs as (H1 & H2 & H3 & H4 & H5 & H6 & H7). rewrite Hst. repeat (split; [assumption|]). auto.
  - destruct Hs as (H1 & H3 & H4 & H5 & H6). rewrite Hst. split.
    { destruct H1 as [H1 H1']. split; [exact H1|]. intros p Hp. destruct (H1' p Hp) as (t & Hd & Hpv). eauto. }
    repeat (split; [assumption|]). intros Hn p Hp. apply (Hfr Hn); [|auto].
    rewrite <- (sta_ids _ _ Hsta). unfold declared_in. apply in_or_app. right. exact Hp.
  - destruct Hs as [H1 H2]. auto.
  - destruct Hs as (H1 & H2 & H3). rewrite Hst. auto.
Qed.

(** *** Simple changes of the state *)

Lemma inv_set_vm : forall st m, Inv st -> vm_instructions m = vm_instructions (st_vm st) ->
  Inv (State (st_functions st) (st_values st) m (st_stack st))
  /\ step [] st (State (st_functions st) (st_values st) m (st_stack st)).
Proof.
  intros st m [V1 V2 V3 V4] Hm. split.
  - split; cbn [st_functions st_values st_vm st_stack]; auto. rewrite Hm. exact V4.
  - split; cbn [st_functions st_values st_vm st_stack]; auto; [|rewrite Hm; constructor].
    intros n f H. exists f. split; [exact H|]. split; [apply fstep_refl|auto].
Qed.

Lemma inv_set_value : forall st self v st' u, set_value self (Some v) st = Some (Ok (u, st')) -> Inv st ->
  wf_avalue v -> (consts self = false -> av_val v = None) ->
  st_values st self = Some v
  \/ (st_values st self = None /\ forall n, In self (ids n) -> In n (st_stack st)) ->
  Inv st' /\ step [self] st st' /\ (st_values st self = Some v -> step [] st st')
  /\ st_values st' self = Some v.
Proof.
  intros st self v st' u H HI Hw Hc Hor. unfold set_value in H. injection H as <- <-. set (st' := State _ _ _ _).
  assert (Hv : forall p w, st_values st p = Some w -> st_values st' p = Some w).
  { intros p w Hp. cbn. destruct (Pos.eqb_spec p self) as [->|]; [|exact Hp]. destruct Hor as [E|[E _]]; congruence. }
  assert (Hf : forall n f, st_functions st n = Some f ->
            exists f', st_functions st' n = Some f' /\ fstep f f' /\ (In n (st_stack st) -> f' = f)).
  { intros n f Hn. exists f. split; [exact Hn|]. split; [apply fstep_refl|auto]. }
  assert (Hself : st_values st' self = Some v) by (cbn; rewrite Pos.eqb_refl; reflexivity).
  split; [|split; [|split; [|exact Hself]]].
  - destruct HI as [V1 V2 V3 V4]. split; auto.
    + intros p w Hp. cbn in Hp. destruct (Pos.eqb_spec p self) as [->|]; [|auto]. injection Hp as <-. auto.
    + intros n f Hn. apply status_keep with (st := st); auto.
      * intros m g t Hm _. eauto.
      * tauto.
      * intros Hns p Hp Hpv. cbn. destruct (Pos.eqb_spec p self) as [->|]; [|exact Hpv].
        destruct Hor as [E|[_ E]]; [congruence|]. elim Hns. auto.
  - split; auto. intros p Hp. cbn. destruct (Pos.eqb_spec p self) as [->|]; [|auto]. right. left. left. reflexivity.
  - intros E. split; auto. intros p Hp. cbn. destruct (Pos.eqb_spec p self) as [->|]; [congruence|auto].
Qed.

(** *** Calls *)

Definition callee_ok (callee : positive -> level -> M unit) : Prop :=
  forall n lv st u st', Inv st -> lv <> unanalyzed -> (lv = shallow \/ ~ In n (st_stack st)) ->
  callee n lv st = Some (Ok (u, st')) ->
  Inv st' /\ step [] st st' /\ exists f, st_functions st' n = Some f /\ level_leb lv (f_level f) = true.

Lemma status_analyzed : forall st n f, status st n f -> level_leb shallow (f_level f) = true ->
  sig_ok (st_values st) f /\ (f_cv f = None \/ f_cv f = type_cv (f_return f)).
Proof.
  intros st n f H Hl. unfold status in H. destruct (f_level f); [discriminate| | |].
  - destruct H as (H1 & _ & _ & H2 & _). split; [exact H1|]. destruct H2 as [[H2 _]|H2]; auto.
  - destruct H as [(H1 & [(t & Hd & _) H2] & _) _]. split; [|auto]. split; eauto.
  - destruct H as [(H1 & [(t & Hd & _) H2] & _) _]. split; [|auto]. split; eauto.
Qed.

Lemma pass_ok : forall cx params args st u st',
  (forall p, In p params -> exists t, denotes (p_type p) t) -> Forall wf_avalue args ->
  pass_arguments cx params args st = Some (Ok (u, st')) ->
  (exists m, st' = State (st_functions st) (st_values st) m (st_stack st)
     /\ vm_instructions m = vm_instructions (st_vm st)
     /\ (machine_values (st_vm st) -> machine_values m))
  /\ (length params = length args ->
      Forall2 (fun a p => exists t, denotes (p_type p) t /\ is_convertible_to (av_type a) t = true) args params).
Proof.
  induction params as [|p params IH]; intros args st u st' Hp Hw H.
  - cbn [pass_arguments] in H. destruct args; minv H; subst; (split; [exists (st_vm st); destruct st; auto|]);
      [constructor|discriminate].
  - destruct args as [|a args].
    { cbn [pass_arguments] in H. minv H. subst. split; [exists (st_vm st); destruct st; auto|discriminate]. }
    cbn [pass_arguments] in H. inversion Hw as [|? ? Ha Hargs]; subst.
    destruct (Hp p (or_introl eq_refl)) as [t Hd]. minv H. minv E. subst.
    pose proof (mtype_denotes _ _ _ Hd H0) as ->.
    destruct (is_convertible_to (av_type a) t) eqn:Ec; cbn [negb] in H; [|discriminate]. minv H.
    assert (K : exists m, s = State (st_functions st) (st_values st) m (st_stack st)
              /\ vm_instructions m = vm_instructions (st_vm st) /\ (machine_values (st_vm st) -> machine_values m)).
    { destruct (value_evaluate_conversion a t) as [r|e| |] eqn:Ev; try discriminate.
      - destruct (is_constant cx).
        + minv E. minv E0. subst. minv E. minv E0. subst. minv E. subst. eexists. split; [reflexivity|].
          split; [reflexivity|]. intros (M1 & M2 & M3). split; [exact M1|]. split; [|exact M3].
          constructor; [|exact M2]. eapply as_known_wf; [|eassumption].
          eapply conversion_wf; [exact Ha|apply Hd|exact Ec|]. left. exact Ev.
        + minv E. subst. exists (st_vm st). destruct st; auto.
      - destruct (is_constant cx); [discriminate|]. minv E. subst. exists (st_vm st). destruct st; auto. }
    destruct K as (m & -> & K1 & K2).
    destruct (IH _ _ _ _ (fun q Hq => Hp q (or_intror Hq)) Hargs H) as [(m' & -> & K3 & K4) F]. split.
    + exists m'. cbn in *. split; [reflexivity|]. split; [congruence|auto].
    + intros L. constructor; [eauto|]. apply F. cbn [length] in L. congruence.
Qed.

Lemma evaluate_ok : forall rf st v st', machine_values (st_vm st) ->
  evaluate_call rf st = Some (Ok (v, st')) ->
  wf_avalue v /\ exists m, st' = State (st_functions st) (st_values st) m (st_stack st)
    /\ vm_instructions m = vm_instructions (st_vm st).
Proof.
  intros rf st v st' Hm H. unfold evaluate_call in H. destruct (run rf (st_vm st)) as [r|] eqn:Er; [|discriminate].
  pose proof (run_values _ _ _ Hm Er) as K. destruct r as [m|x| |]; try discriminate. destruct K as [(K1 & K2 & K3) K4].
  destruct (ee_code x) eqn:Ex; try discriminate. minv H. minv E. subst. minv H. minv E. subst. minv H. destruct a1 as [c m].
  minv E. subst. minv H. minv E. subst. minv H. subst. unfold vm_pop in H1.
  destruct (vm_stack (ee_machine x)) as [|w rest] eqn:Es; [discriminate|]. injection H1 as <- <-.
  inversion K2 as [|? ? Hw ?]; subst. split.
  - destruct Hw as [W1 W2]. split; [exact W1|]. intros z [= <-]. exact W2.
  - eexists. split; [reflexivity|]. exact K4.
Qed.

Section Call.
Variable callee : positive -> level -> M unit.
Variable run_fuel : nat.
Hypothesis Hcallee : callee_ok callee.

Lemma call_ok : forall lv cx lk args st v st', Inv st -> Forall wf_avalue args ->
  an_call callee run_fuel lv cx lk args st = Some (Ok (v, st')) ->
  Inv st' /\ step [] st st' /\ wf_avalue v /\ (cx = normal -> True -> call_noted (st_functions st') lk args v).
Proof.
  intros lv cx lk args st v st' HI Hw H. unfold an_call in H. minv H. minv E. subst.
  destruct a as [[] n|p|b]; try discriminate.
  2:{ minv H. minv E. subst. minv H. subst. split; [exact HI|]. split; [apply step_refl|].
      split; [eapply builtin_wf; eassumption|]. intros _ _. exact H. }
  minv H. minv E. subst. destruct (Nat.eqb_spec (length (f_params a)) (length args)) as [Hlen|]; cbn [negb] in H; [|discriminate].
  destruct (f_generic a); [discriminate|]. minv H. minv E. subst. set (inner := match cx, lv with constant, _ | _, for_constant_evaluation => for_constant_evaluation | _, _ => shallow end) in *.
  assert (Hin : inner = for_constant_evaluation \/ (inner = shallow /\ cx = normal)).
  { unfold inner. destruct cx, lv; auto. }
  destruct ((match inner with for_constant_evaluation => true | _ => false end) && existsb (Pos.eqb n) (st_stack st))%bool eqn:Erec;
    [discriminate|].
  assert (Hns : inner = shallow \/ ~ In n (st_stack st)).
  { destruct Hin as [->|[-> _]]; [right|auto]. cbn [andb] in Erec. intros C.
    assert (existsb (Pos.eqb n) (st_stack st) = true).
    { apply existsb_exists. exists n. split; [exact C|apply Pos.eqb_refl]. }
    congruence. }
  minv H. destruct (Hcallee n inner st a0 s HI) as (I1 & S1 & _ & _); [destruct Hin as [->|[-> _]]; discriminate|exact Hns|exact E|].
  minv H. minv E0. subst. minv H. minv E0. subst. 
  destruct (s_functions _ _ _ S1 n a H0) as (f' & Hf' & (_ & _ & L1 & _) & _). rewrite H1 in Hf'. injection Hf' as <-.
  assert (Hlv : level_leb shallow (f_level a1) = true).
  { revert H2. destruct Hin as [->|[-> _]]; [|auto]. unfold level_leb. cbn [level_index]. intros K. lia. }
  pose proof (inv_status _ I1 n a1 H1) as Hst. destruct (status_analyzed _ _ _ Hst Hlv) as [[[t Hd] Hpar] Hcv].
  destruct (f_cv a1) as [rv|] eqn:Ecv; [|discriminate].
  assert (rv = AV t None) as ->.
  { destruct Hcv as [C|C]; [discriminate|]. rewrite (proj1 Hd) in C. congruence. }
  minv H.
  assert (K : exists m, s0 = State (st_functions s) (st_values s) m (st_stack s)
            /\ vm_instructions m = vm_instructions (st_vm s) /\ (cx = constant -> machine_values m)).
  { destruct cx; cbn [is_constant] in E0.
    - minv E0. subst. exists (st_vm s). destruct s; split; [reflexivity|]. split; [reflexivity|discriminate].
    - minv E0. minv E1. subst. minv E0. minv E1. subst. minv E0. minv E1. subst. minv E0. subst.
      unfold vm_jump_to, assert_then in H4. destruct (_ <? _); [|discriminate]. injection H4 as <-.
      eexists. split; [reflexivity|]. split; [reflexivity|]. intros _.
      destruct (inv_code _ I1) as [units L]. split; [exact (lo_values _ _ _ L)|]. split; constructor. }
  destruct K as (m & -> & K1 & K2). destruct (inv_set_vm s m I1 K1) as [I2 S2].
  minv H.
  destruct (pass_ok _ _ _ _ _ _ (fun q Hq => match Hpar q Hq with ex_intro _ u Hu => ex_intro _ u (proj1 Hu) end) Hw E1)
    as [(m' & -> & K3 & K4) HF]. cbn [st_functions st_values st_vm st_stack] in *.
  assert (K5 : vm_instructions m' = vm_instructions (st_vm s)) by congruence.
  destruct (inv_set_vm s m' I1 K5) as [I3 S3].
  destruct cx; cbn [is_constant] in H.
  - minv H. subst. split; [exact I3|]. split; [eapply step_trans; eassumption|]. split; [apply unknown_wf; apply Hd|].
    intros _ _. cbn [call_noted st_functions]. exists a1, t. split; [exact H1|]. split; [apply HF; congruence|]. auto.
  - apply evaluate_ok in H; [|cbn; auto]. destruct H as [Wv (m'' & -> & K6)]. cbn [st_functions st_values st_vm st_stack] in *.
    assert (K7 : vm_instructions m'' = vm_instructions (st_vm s)) by congruence.
    destruct (inv_set_vm s m'' I1 K7) as [I4 S4]. split; [exact I4|]. split; [eapply step_trans; eassumption|].
    split; [exact Wv|discriminate].
Qed.

(** Expressions and types. *)
Lemma expr_fresh_ok : forall e lv cx st e' st', fresh consts e = true -> Inv st ->
  an_expr callee run_fuel lv cx e st = Some (Ok (e', st')) ->
  Inv st' /\ step [] st st'
  /\ forall v, expr_cv e' = Some v -> wf_avalue v /\ (cx = normal -> noted (st_values st') (st_functions st') e').
Proof.
  intros e lv cx st e' st' Hf HI H.
  destruct (fresh_good consts callee run_fuel Inv (step []) True st_functions (fun _ => True) inv_values (step_refl []) (step_trans [])
    (step_noted []) (fun _ => call_ok)) as [G _].
  destruct (G e Hf (or_intror Logic.I) lv cx st e' st' HI H) as (G1 & G2 & G3).
  split; [exact G1|]. split; [exact G2|]. intros v Hv. destruct (G3 v Hv). auto.
Qed.

Lemma type_fresh_ok : forall t st t' st', fresh_type consts t = true -> Inv st ->
  an_type callee run_fuel t st = Some (Ok (t', st')) ->
  Inv st' /\ step [] st st' /\ node_type t' = node_type t /\ exists c, denotes t' c.
Proof.
  intros t st t' st' Hf HI H.
  destruct (fresh_good consts callee run_fuel Inv (step []) True st_functions (fun _ => True) inv_values (step_refl []) (step_trans [])
    (step_noted []) (fun _ => call_ok)) as [_ G].
  exact (G t Hf (or_intror Logic.I) st t' st' HI H).
Qed.

Lemma expr_again_ok : forall e lv st e' st', noted (st_values st) (st_functions st) e -> Inv st ->
  an_expr callee run_fuel lv normal e st = Some (Ok (e', st')) -> Inv st' /\ step [] st st' /\ e' = e.
Proof.
  exact (noted_again callee run_fuel Inv (step []) True st_functions (fun _ => True) (step_refl []) (step_trans [])
    (step_noted []) (fun _ => call_ok) Logic.I (fun _ => Logic.I)).
Qed.

(** Without calls, the state stays the same and little is needed of it. *)
Lemma type_call_free : forall t st t' st', fresh_type consts t = true -> call_free_type t = true ->
  values_ok consts (st_values st) ->
  an_type callee run_fuel t st = Some (Ok (t', st')) ->
  st' = st /\ node_type t' = node_type t /\ exists c, denotes t' c.
Proof.
  intros t st t' st' Hf Hc HI H.
  destruct (fresh_good consts callee run_fuel (fun st => values_ok consts (st_values st)) (fun a b => b = a) False
    st_functions (fun _ => True)) as [_ G]; auto.
  - congruence.
  - intros a b e _ ->. auto.
  - intros [].
  - destruct (G t Hf (or_introl Hc) st t' st' HI H) as (_ & E & N & D). auto.
Qed.

(** *** Statements *)

(** The variables and constants [D] are declared now. *)
Definition free_for (st : state) (D : list positive) : Prop :=
  NoDup D /\ forall p, In p D -> st_values st p = None /\ forall n, In p (ids n) -> In n (st_stack st).

Lemma free_step : forall st st' D, step [] st st' -> free_for st D -> free_for st' D.
Proof.
  intros st st' D HS [H1 H2]. split; [exact H1|]. intros p Hp. destruct (H2 p Hp) as [H3 H4].
  rewrite (s_stack _ _ _ HS). split; [|exact H4].
  destruct (s_frame _ _ _ HS p H3) as [E|[[]|(n & Hn & Hs)]]; [exact E|]. elim Hs. auto.
Qed.

Lemma distinct_app : forall (A B : list positive), NoDup (A ++ B) -> NoDup A /\ NoDup B /\ forall p, In p A -> ~ In p B.
Proof.
  induction A as [|a A IH]; intros B H; cbn in *; [repeat split; auto; constructor|]. inversion H as [|? ? H1 H2]; subst.
  destruct (IH B H2) as (IA & IB & ID). split; [|split; [exact IB|]].
  - constructor; [|exact IA]. intros C. apply H1. apply in_or_app. auto.
  - intros p [->|Hp]; [|auto]. intros C. apply H1. apply in_or_app. auto.
Qed.

Lemma free_app : forall st A B, free_for st (A ++ B) ->
  free_for st A /\ forall st', step A st st' -> free_for st' B.
Proof.
  intros st A B [H1 H2]. destruct (distinct_app _ _ H1) as (HA & HB & HD).
  split.
  - split; [exact HA|]. intros p Hp. apply H2. apply in_or_app. auto.
  - intros st' HS. split; [exact HB|]. intros p Hp. destruct (H2 p) as [H3 H4]; [apply in_or_app; auto|].
    rewrite (s_stack _ _ _ HS). split; [|exact H4].
    destruct (s_frame _ _ _ HS p H3) as [E|[E|(n & Hn & Hs)]]; [exact E| |elim Hs; auto].
    elim (HD p E Hp).
Qed.

(** What a statement is, as far as [ends_with_return] asks. *)
Definition control_kind (s : stmt) : option control_type := match s with SControl _ k _ => Some k | _ => None end.
Definition child_kinds (s : stmt) : list (option control_type) :=
  match s with SBlock _ l => map control_kind l | _ => [] end.

Definition is_block (s : stmt) : bool := match s with SBlock _ _ => true | _ => false end.

Record analysed (rt : ctype) (in_loop : bool) (s : stmt) (st : state) (s' : stmt) (st' : state) : Prop := {
  an_inv : Inv st';
  an_step : step (declares s) st st';
  an_noted : noted_stmt (st_values st') (st_functions st') rt s';
  an_shaped : shaped s' = true;
  an_declares : declares s' = declares s;
  an_loops : loops_ok in_loop s' = true;
  an_marked : marked s';
  an_kind : control_kind s' = control_kind s;
  an_children_kinds : child_kinds s' = child_kinds s;
  an_block : is_block s' = is_block s }.

Definition an_children (rn : option type_node) (lv : level) (in_loop : bool) : list stmt -> M (list stmt) :=
  fix an_children (l : list stmt) : M (list stmt) :=
    match l with
    | [] => mret []
    | s1 :: rest =>
        let! s1' := an_stmt callee run_fuel rn lv in_loop s1 in
        let! rest' := an_children rest in
        mret (s1' :: rest')
    end.

Lemma an_block_unfold : forall rn lv in_loop cv l,
  an_stmt callee run_fuel rn lv in_loop (SBlock cv l)
  = (let! children' := an_children rn lv in_loop l in mret (SBlock (Some av_Void) children')).
Proof. reflexivity. Qed.

Lemma expr_known : forall e lv cx st e' st' v, fresh consts e = true -> Inv st ->
  an_expr callee run_fuel lv cx e st = Some (Ok (e', st')) -> expr_cv e' = Some v ->
  Inv st' /\ step [] st st' /\ wf_avalue v /\ (cx = normal -> noted (st_values st') (st_functions st') e').
Proof.
  intros e lv cx st e' st' v Hf HI H Hv. destruct (expr_fresh_ok e lv cx st e' st' Hf HI H) as (A & B & C).
  destruct (C v Hv). auto.
Qed.

Ltac step_up := eapply step_weaken; [|eassumption]; intros ? [].

Lemma stmt_fresh_ok : forall rn rt lv, (forall n, rn = Some n -> denotes n rt) ->
  forall s in_loop st s' st', fresh_stmt consts s = true -> shaped s = true -> free_for st (declares s) -> Inv st ->
  an_stmt callee run_fuel rn lv in_loop s st = Some (Ok (s', st')) -> analysed rt in_loop s st s' st'.
Proof.
  intros rn rt lv Hrn.
  induction s as [cv name self t e|cv name self t e|cv e|cv co b IHb|cv co b e IHb IHe|cv co b IHb
                 |cv t e|cv name lk e|cv l IH|e] using stmt_induction; intros in_loop st s' st' Hf Hsh Hfree HI H.
  - (* const *)
    cbn [fresh_stmt] in Hf. apply andb_true_iff in Hf as [Hf Ht]. apply andb_true_iff in Hf as [Hf He].
    apply andb_true_iff in Hf as [Hcv Hc]. destruct cv; [discriminate|].
    destruct Hfree as [_ Hfree]. destruct (Hfree self (or_introl eq_refl)) as [Hnone Hids].
    cbn [an_stmt] in H. destruct t as [t|].
    + minv H. destruct (type_fresh_ok _ _ _ _ Ht HI E) as (I1 & S1 & _ & c & Hd). minv H. minv H. minv E1. subst.
      minv H. minv E1. subst. destruct (expr_known _ _ _ _ _ _ _ He I1 E0 H1) as (I2 & S2 & W & _).
      rewrite (proj1 Hd) in H0. injection H0 as <-. cbn [av_type] in H.
      destruct (is_convertible_to (av_type a2) c) eqn:Ec; cbn [negb] in H; [|discriminate]. minv H. minv E1. subst.
      minv H. minv H. subst.
      assert (W' : wf_avalue a1) by (eapply conversion_wf; [exact W|apply Hd|exact Ec|]; left; exact H0).
      assert (S12 : step [] st s0) by (eapply step_trans; eassumption).
      destruct (free_step _ _ [self] S12) as [_ F]; [split; [repeat constructor; intros []|]; intros p [<-|[]]; auto|].
      destruct (F self (or_introl eq_refl)) as [Fn Fi].
      destruct (inv_set_value _ _ _ _ _ E1 I2 W') as (I3 & S3 & _); [congruence|auto|].
      split; auto; try (cbn; eauto; fail).
      eapply step_trans; [step_up|exact S3].
    + minv H. minv H. minv E0. subst. destruct (expr_known _ _ _ _ _ _ _ He HI E H0) as (I2 & S2 & W & _).
      minv H. minv H. minv E1. subst. minv H. subst.
      destruct (free_step _ _ [self] S2) as [_ F]; [split; [repeat constructor; intros []|]; intros p [<-|[]]; auto|].
      destruct (F self (or_introl eq_refl)) as [Fn Fi].
      destruct (inv_set_value _ _ _ _ _ E0 I2 W) as (I3 & S3 & _); [congruence|auto|].
      split; auto; try (cbn; eauto; fail).
      eapply step_trans; [step_up|exact S3].
  - (* let *)
    cbn [fresh_stmt] in Hf. apply andb_true_iff in Hf as [Hf He]. apply andb_true_iff in Hf as [Hf Ht].
    apply andb_true_iff in Hf as [Hcv Hc].
    destruct Hfree as [_ Hfree]. destruct (Hfree self (or_introl eq_refl)) as [Hnone Hids].
    cbn [shaped] in Hsh. cbn [an_stmt] in H. destruct t as [t|].
    + minv H. destruct (type_fresh_ok _ _ _ _ Ht HI E) as (I1 & S1 & _ & c & Hd). destruct e as [e|].
      * minv H. minv H. minv E1. subst. minv H. minv E1. subst.
        destruct (expr_known _ _ _ _ _ _ _ He I1 E0 H1) as (I2 & S2 & W & N).
        rewrite (proj1 Hd) in H0. injection H0 as <-. cbn [av_type] in H.
        destruct (is_convertible_to (av_type a2) c) eqn:Ec; cbn [negb] in H; [|discriminate]. minv H. minv E1. subst.
        pose proof (mtype_denotes _ _ _ Hd H0) as ->. minv H. minv H. subst.
        assert (S12 : step [] st s0) by (eapply step_trans; eassumption).
        destruct (free_step _ _ [self] S12) as [_ F]; [split; [repeat constructor; intros []|]; intros p [<-|[]]; auto|].
        destruct (F self (or_introl eq_refl)) as [Fn Fi].
        destruct (inv_set_value _ _ _ _ _ E1 I2 (unknown_wf _ (proj2 (proj2 Hd)))) as (I3 & S3 & _ & V3); [reflexivity|auto|].
        destruct (expr_shape _ _ _ _ _ _ _ _ E0) as [P _].
        split; auto; try (cbn; eauto; fail).
        -- eapply step_trans; [step_up|exact S3].
        -- cbn [noted_stmt]. exists c. split; [apply Hd|]. split; [exact V3|]. split; [reflexivity|]. split; [exact Hd|].
           split; [|eauto]. eapply step_noted; [exact I2|exact S3|auto].
      * minv H. minv E0. subst. pose proof (mtype_denotes _ _ _ Hd H0) as ->. minv H. minv H. subst.
        destruct (free_step _ _ [self] S1) as [_ F]; [split; [repeat constructor; intros []|]; intros p [<-|[]]; auto|].
        destruct (F self (or_introl eq_refl)) as [Fn Fi].
        destruct (inv_set_value _ _ _ _ _ E0 I1 (unknown_wf _ (proj2 (proj2 Hd)))) as (I3 & S3 & _ & V3); [reflexivity|auto|].
        split; auto; try (cbn; eauto; fail).
        -- eapply step_trans; [step_up|exact S3].
        -- cbn [noted_stmt]. exists c. split; [apply Hd|]. split; [exact V3|]. split; [reflexivity|]. split; [exact Hd|exact Logic.I].
    + minv H. minv E. subst. minv H. minv H. minv E0. subst.
      destruct (expr_known _ _ _ _ _ _ _ He HI E H0) as (I2 & S2 & W & N). minv H. minv H. subst.
      destruct (free_step _ _ [self] S2) as [_ F]; [split; [repeat constructor; intros []|]; intros p [<-|[]]; auto|].
      destruct (F self (or_introl eq_refl)) as [Fn Fi].
      destruct (inv_set_value _ _ _ _ _ E0 I2 (unknown_wf _ (proj1 W))) as (I3 & S3 & _ & V3); [reflexivity|auto|].
      destruct (expr_shape _ _ _ _ _ _ _ _ E) as [P _].
      split; auto; try (cbn; eauto; fail).
      -- eapply step_trans; [step_up|exact S3].
      -- cbn [noted_stmt]. exists (av_type a1). split; [apply W|]. split; [exact V3|]. split; [reflexivity|].
         split; [eauto 6|]. split; [eapply step_noted; [exact I2|exact S3|auto]|]. exists a1. split; [exact H0|apply convertible_refl].
  - (* static assert *)
    cbn [fresh_stmt] in Hf. apply andb_true_iff in Hf as [Hcv He]. destruct cv; [discriminate|].
    cbn [an_stmt] in H. minv H. minv H. minv E0. subst. destruct (expr_known _ _ _ _ _ _ _ He HI E H0) as (I2 & S2 & W & _).
    minv H. minv E0. subst. destruct (ctype_eqb (av_type a0) TBool); cbn [negb] in H; [|discriminate].
    minv H. minv E0. subst. destruct a2; cbn [negb] in H; [|discriminate]. minv H. subst.
    split; auto; cbn; eauto.
  - (* if without else *)
    cbn [fresh_stmt] in Hf. apply andb_true_iff in Hf as [Hf _]. apply andb_true_iff in Hf as [Hf Hb].
    apply andb_true_iff in Hf as [Hcv Hc]. cbn [shaped] in Hsh. apply andb_true_iff in Hsh as [Hsh _].
    apply andb_true_iff in Hsh as [Hsc Hsb]. cbn [declares] in Hfree. rewrite app_nil_r in Hfree.
    cbn [an_stmt] in H. minv H. minv H. minv E0. subst.
    destruct (expr_known _ _ _ _ _ _ _ Hc HI E H0) as (I1 & S1 & W & N). destruct (expr_shape _ _ _ _ _ _ _ _ E) as [P _].
    destruct (ctype_eqb (av_type a0) TBool) eqn:Eb; cbn [negb] in H; [|discriminate].
    minv H. destruct (IHb _ _ _ _ Hb Hsb (free_step _ _ _ S1 Hfree) I1 E0) as [B1 B2 B3 B4 B5 B6 B7 B8 B9 B10].
    minv H. minv E1. subst. minv H. subst. split; auto.
    + cbn [declares]. rewrite app_nil_r. eapply step_trans; [step_up|exact B2].
    + cbn [noted_stmt]. split; [eapply step_noted; [exact I1|exact B2|auto]|]. split; [|auto].
      exists a0. split; [exact H0|]. apply ctype_eqb_eq. exact Eb.
    + cbn [shaped]. rewrite P, Hsc, B4. reflexivity.
    + cbn [declares]. rewrite B5. reflexivity.
    + cbn [loops_ok]. rewrite B6. reflexivity.
    + cbn [marked]. auto.
  - (* if with else *)
    cbn [fresh_stmt] in Hf. apply andb_true_iff in Hf as [Hf Hfe]. apply andb_true_iff in Hf as [Hf Hb].
    apply andb_true_iff in Hf as [Hcv Hc]. cbn [shaped] in Hsh. apply andb_true_iff in Hsh as [Hsh Hse].
    apply andb_true_iff in Hsh as [Hsc Hsb]. cbn [declares] in Hfree.
    cbn [an_stmt] in H. minv H. minv H. minv E0. subst.
    destruct (expr_known _ _ _ _ _ _ _ Hc HI E H0) as (I1 & S1 & W & N). destruct (expr_shape _ _ _ _ _ _ _ _ E) as [P _].
    destruct (ctype_eqb (av_type a0) TBool) eqn:Eb; cbn [negb] in H; [|discriminate].
    minv H. destruct (free_app _ _ _ (free_step _ _ _ S1 Hfree)) as [Fb Fe].
    destruct (IHb _ _ _ _ Hb Hsb Fb I1 E0) as [B1 B2 B3 B4 B5 B6 B7 B8 B9 B10].
    minv H. minv E1. minv E1. subst. minv H. subst.
    destruct (IHe _ _ _ _ Hfe Hse (Fe _ B2) B1 E2) as [C1 C2 C3 C4 C5 C6 C7 C8 C9 C10].
    assert (B2' : step (declares b ++ declares e) s s0) by (eapply step_weaken; [|exact B2]; apply incl_appl, incl_refl).
    assert (C2' : step (declares b ++ declares e) s0 s2) by (eapply step_weaken; [|exact C2]; apply incl_appr, incl_refl).
    split; auto.
    + cbn [declares]. eapply step_trans; [step_up|]. eapply step_trans; eassumption.
    + cbn [noted_stmt]. split; [eapply step_noted; [exact B1|exact C2|]; eapply step_noted; [exact I1|exact B2|auto]|]. split.
      * exists a0. split; [exact H0|]. apply ctype_eqb_eq. exact Eb.
      * split; [eapply step_noted_stmt; [exact B1|exact C2|auto]|auto].
    + cbn [shaped]. rewrite P, Hsc, B4, C4. reflexivity.
    + cbn [declares]. rewrite B5, C5. reflexivity.
    + cbn [loops_ok]. rewrite B6, C6. reflexivity.
    + cbn [marked]. auto.
  - (* while *)
    cbn [fresh_stmt] in Hf. apply andb_true_iff in Hf as [Hf Hb].
    apply andb_true_iff in Hf as [Hcv Hc]. cbn [shaped] in Hsh.
    apply andb_true_iff in Hsh as [Hsc Hsb]. cbn [declares] in Hfree.
    cbn [an_stmt] in H. minv H. minv H. minv E0. subst.
    destruct (expr_known _ _ _ _ _ _ _ Hc HI E H0) as (I1 & S1 & W & N). destruct (expr_shape _ _ _ _ _ _ _ _ E) as [P _].
    destruct (ctype_eqb (av_type a0) TBool) eqn:Eb; cbn [negb] in H; [|discriminate].
    minv H. destruct (IHb _ _ _ _ Hb Hsb (free_step _ _ _ S1 Hfree) I1 E0) as [B1 B2 B3 B4 B5 B6 B7 B8 B9 B10].
    minv H. subst. split; auto.
    + cbn [declares]. eapply step_trans; [step_up|exact B2].
    + cbn [noted_stmt]. split; [eapply step_noted; [exact I1|exact B2|auto]|]. split; [|auto].
      exists a0. split; [exact H0|]. apply ctype_eqb_eq. exact Eb.
    + cbn [shaped]. rewrite P, Hsc, B4. reflexivity.
    + cbn [marked]. auto.
  - (* control *)
    cbn [fresh_stmt] in Hf. apply andb_true_iff in Hf as [Hcv He].
    cbn [an_stmt] in H. minv H. minv E. subst. pose proof (Hrn _ eq_refl) as Hd. destruct t.
    1,2: destruct in_loop; cbn [negb] in H; [|discriminate]; minv H; subst; split; cbn; auto using step_refl.
    minv H. minv E. subst. pose proof (mtype_denotes _ _ _ Hd H0) as ->. destruct e as [e|].
    + minv H. minv H. minv E0. subst. destruct (expr_known _ _ _ _ _ _ _ He HI E H1) as (I1 & S1 & W & N).
      destruct (expr_shape _ _ _ _ _ _ _ _ E) as [P _].
      destruct (is_convertible_to (av_type a1) rt) eqn:Ec; cbn [negb] in H; [|discriminate]. minv H. minv E0. subst.
      minv H. subst. split; auto; try (cbn; auto; fail).
      * cbn [noted_stmt]. split; [auto|]. eauto 8.
      * cbn [shaped] in *. congruence.
    + destruct (ctype_eqb rt TVoid) eqn:Ev; cbn [negb] in H; [|discriminate]. minv H. subst.
      split; cbn; auto using step_refl. split; [|reflexivity]. apply ctype_eqb_eq. exact Ev.
  - (* assign *)
    cbn [fresh_stmt] in Hf. apply andb_true_iff in Hf as [Hf Hlk]. apply andb_true_iff in Hf as [Hcv He].
    cbn [an_stmt] in H. minv H. minv E. subst. destruct a as [[] n|p|bi]; try discriminate.
    minv H. minv H. minv E0. subst. destruct (expr_known _ _ _ _ _ _ _ He HI E H0) as (I1 & S1 & W & N).
    destruct (expr_shape _ _ _ _ _ _ _ _ E) as [P _].
    minv H. minv E0. subst. minv H. minv E0. subst. destruct (inv_values _ I1 _ _ H1) as [Wd Wc].
    destruct a1 as [td vd]. assert (vd = None) as -> by (apply Wc; apply negb_true_iff; exact Hlk).
    cbn [av_type] in H. destruct (is_convertible_to (av_type a0) td) eqn:Ec; cbn [negb] in H; [|discriminate].
    minv H. minv E0. subst. minv H. subst. split; auto; try (cbn; auto; fail).
    * cbn [noted_stmt]. split; [auto|]. exists n, td, a0, a1. split; [reflexivity|]. split; [apply Wd|]. auto.
    * cbn [shaped] in *. congruence.
  - (* block *)
    rewrite an_block_unfold in H. minv H. minv H. subst.
    cbn [fresh_stmt] in Hf. apply andb_true_iff in Hf as [_ Hf]. cbn [shaped] in Hsh. cbn [declares] in Hfree.
    assert (K : forall l st l' st', Forall (fun s => forall in_loop st s' st', fresh_stmt consts s = true -> shaped s = true ->
        free_for st (declares s) -> Inv st ->
        an_stmt callee run_fuel rn lv in_loop s st = Some (Ok (s', st')) -> analysed rt in_loop s st s' st') l ->
      forallb (fresh_stmt consts) l = true -> forallb shaped l = true -> free_for st (flat_map declares l) -> Inv st ->
      an_children rn lv in_loop l st = Some (Ok (l', st')) ->
      Inv st' /\ step (flat_map declares l) st st' /\ all_noted_stmt (st_values st') (st_functions st') rt l'
      /\ forallb shaped l' = true /\ flat_map declares l' = flat_map declares l
      /\ forallb (loops_ok in_loop) l' = true
      /\ (fix all (l : list stmt) : Prop := match l with [] => True | s1 :: l' => marked s1 /\ all l' end) l'
      /\ map control_kind l' = map control_kind l).
    { clear. induction l as [|s l IHl]; intros st l' st' HF Hf Hsh Hfree HI H.
      - cbn [an_children] in H. minv H. subst. cbn. auto 12 using step_refl.
      - cbn [an_children] in H. minv H. minv H. minv H. subst. inversion HF as [|? ? H1 H2]; subst.
        cbn [forallb] in Hf, Hsh. apply andb_true_iff in Hf as [Hf1 Hf2]. apply andb_true_iff in Hsh as [Hs1 Hs2].
        cbn [flat_map] in *. destruct (free_app _ _ _ Hfree) as [F1 F2].
        destruct (H1 _ _ _ _ Hf1 Hs1 F1 HI E) as [B1 B2 B3 B4 B5 B6 B7 B8 B9 B10].
        destruct (IHl _ _ _ H2 Hf2 Hs2 (F2 _ B2) B1 E0) as (C1 & C2 & C3 & C4 & C5 & C6 & C7 & C8).
        split; [exact C1|]. split.
        + eapply step_trans; (eapply step_weaken; [|eassumption]); [apply incl_appl, incl_refl|apply incl_appr, incl_refl].
        + split; [|split; [cbn [forallb]; rewrite B4; exact C4|]].
          * split; [eapply step_noted_stmt; [exact B1|exact C2|exact B3]|exact C3].
          * split; [cbn [flat_map]; rewrite B5, C5; reflexivity|]. split; [cbn [forallb]; rewrite B6; exact C6|].
            split; [auto|]. cbn [map]. rewrite B8, C8. reflexivity. }
    destruct (K _ _ _ _ IH Hf Hsh Hfree HI E) as (C1 & C2 & C3 & C4 & C5 & C6 & C7 & C8).
    split; auto. cbn [marked]. auto.
  - (* expression *)
    cbn [fresh_stmt] in Hf. cbn [an_stmt] in H. minv H. minv H. subst.
    destruct (expr_fresh_ok _ _ _ _ _ _ Hf HI E) as (I1 & S1 & N). destruct (expr_shape _ _ _ _ _ _ _ _ E) as [P P'].
    cbn [shaped] in Hsh. destruct e as [| | | |cv name lk is args| |]; try discriminate.
    assert (exists cv' lk' args', a = ECall (Some cv') name lk' is args') as (cv' & lk' & args' & ->).
    { rewrite an_call_unfold in E. minv E. minv E. destruct a1. minv E. minv E. subst. eauto. }
    destruct (N cv' eq_refl) as [W N']. split; auto; try (cbn; auto; fail).
    + exact (N' eq_refl).
    + cbn [shaped]. cbn [top_call] in P'. congruence.
Qed.

(** A statement that is analysed again stays the same. *)
Lemma stmt_again_ok : forall rn rt lv, (forall n, rn = Some n -> denotes n rt) ->
  forall s in_loop st s' st', noted_stmt (st_values st) (st_functions st) rt s -> marked s -> Inv st ->
  an_stmt callee run_fuel rn lv in_loop s st = Some (Ok (s', st')) -> Inv st' /\ step [] st st' /\ s' = s.
Proof.
  intros rn rt lv Hrn.
  induction s as [cv name self t e|cv name self t e|cv e|cv co b IHb|cv co b e IHb IHe|cv co b IHb
                 |cv t e|cv name lk e|cv l IH|e] using stmt_induction; intros in_loop st s' st' Hn Hm HI H.
  - destruct Hn as [v ->]. cbn [an_stmt] in H. minv H. subst. auto using step_refl.
  - destruct Hn as (ty & Hw & Hv & -> & Ht & He). cbn [an_stmt] in H. destruct t as [t|].
    + minv H. destruct (denotes_again _ _ _ _ _ _ _ Ht E) as [-> ->]. destruct e as [e|].
      * destruct He as (He & v & Ev & Ec). minv H. destruct (expr_again_ok _ _ _ _ _ He HI E0) as (I1 & S1 & ->).
        minv H. minv E1. subst. rewrite (proj1 Ht) in H0. injection H0 as <-. minv H. minv E1. subst.
        rewrite Ev in H0. injection H0 as <-. cbn [av_type] in H. rewrite Ec in H. cbn [negb] in H. minv H. minv E1. subst.
        pose proof (mtype_denotes _ _ _ Ht H0) as ->. minv H. minv H. subst.
        pose proof (s_values _ _ _ S1 _ _ Hv) as Hv'.
        destruct (inv_set_value _ _ _ _ _ E1 I1 (unknown_wf _ Hw)) as (I2 & _ & S2 & _); [reflexivity|auto|].
        split; [exact I2|]. split; [eapply step_trans; [exact S1|auto]|reflexivity].
      * minv H. minv E0. subst. pose proof (mtype_denotes _ _ _ Ht H0) as ->. minv H. minv H. subst.
        destruct (inv_set_value _ _ _ _ _ E0 HI (unknown_wf _ Hw)) as (I2 & _ & S2 & _); [reflexivity|auto|].
        auto.
    + destruct Ht as (e0 & v & -> & Ev & <-). destruct He as (He & v' & Ev' & Ec). minv H. minv E. subst.
      injection H0 as <-. minv H. destruct (expr_again_ok _ _ _ _ _ He HI E) as (I1 & S1 & ->). minv H. minv E0. subst.
      rewrite Ev in H0. injection H0 as <-. minv H. minv H. subst. pose proof (s_values _ _ _ S1 _ _ Hv) as Hv'.
      destruct (inv_set_value _ _ _ _ _ E0 I1 (unknown_wf _ Hw)) as (I2 & _ & S2 & _); [reflexivity|auto|].
      split; [exact I2|]. split; [eapply step_trans; [exact S1|auto]|reflexivity].
  - destruct Hn as [v ->]. cbn [an_stmt] in H. minv H. minv E. subst. minv H. subst. auto using step_refl.
  - destruct Hn as (Hc & (c & Ec & Et) & Hb & _). destruct Hm as (-> & Hm & _). cbn [an_stmt] in H. minv H.
    destruct (expr_again_ok _ _ _ _ _ Hc HI E) as (I1 & S1 & ->). minv H. minv E0. subst. rewrite Ec in H0. injection H0 as <-.
    rewrite Et in H. cbn [ctype_eqb negb] in H. minv H.
    destruct (IHb _ _ _ _ (step_noted_stmt _ _ _ _ _ HI S1 Hb) Hm I1 E0) as (I2 & S2 & ->).
    minv H. minv E1. subst. minv H. subst. split; [exact I2|]. split; [eapply step_trans; eassumption|reflexivity].
  - destruct Hn as (Hc & (c & Ec & Et) & Hb & He). destruct Hm as (-> & Hm & Hme). cbn [an_stmt] in H. minv H.
    destruct (expr_again_ok _ _ _ _ _ Hc HI E) as (I1 & S1 & ->). minv H. minv E0. subst. rewrite Ec in H0. injection H0 as <-.
    rewrite Et in H. cbn [ctype_eqb negb] in H. minv H.
    destruct (IHb _ _ _ _ (step_noted_stmt _ _ _ _ _ HI S1 Hb) Hm I1 E0) as (I2 & S2 & ->).
    assert (S12 : step [] st s0) by (eapply step_trans; eassumption).
    minv H. minv E1. destruct (IHe _ _ _ _ (step_noted_stmt _ _ _ _ _ HI S12 He) Hme I2 E2) as (I3 & S3 & ->).
    minv E1. subst. minv H. subst. split; [exact I3|]. split; [eapply step_trans; eassumption|reflexivity].
  - destruct Hn as (Hc & (c & Ec & Et) & Hb). destruct Hm as (-> & Hm). cbn [an_stmt] in H. minv H.
    destruct (expr_again_ok _ _ _ _ _ Hc HI E) as (I1 & S1 & ->). minv H. minv E0. subst. rewrite Ec in H0. injection H0 as <-.
    rewrite Et in H. cbn [ctype_eqb negb] in H. minv H.
    destruct (IHb _ _ _ _ (step_noted_stmt _ _ _ _ _ HI S1 Hb) Hm I1 E0) as (I2 & S2 & ->).
    minv H. subst. split; [exact I2|]. split; [eapply step_trans; eassumption|reflexivity].
  - cbn [an_stmt] in H. minv H. minv E. subst. pose proof (Hrn _ eq_refl) as Hd. destruct t.
    1,2: cbn [marked] in Hm; destruct in_loop; cbn [negb] in H; [|discriminate]; minv H; subst; auto using step_refl.
    minv H. minv E. subst. pose proof (mtype_denotes _ _ _ Hd H0) as ->. destruct e as [e|].
    + destruct Hn as (He & v & r & Ev & Ec & Er & ->). minv H. destruct (expr_again_ok _ _ _ _ _ He HI E) as (I1 & S1 & ->).
      minv H. minv E0. subst. rewrite Ev in H1. injection H1 as <-. rewrite Ec in H. cbn [negb] in H. minv H. minv E0. subst.
      minv H. subst. rewrite (recorded_unique _ _ _ _ H1 Er). auto.
    + destruct Hn as [-> ->]. cbn [ctype_eqb negb] in H. minv H. subst. auto using step_refl.
  - destruct Hn as (He & n & t & v & r & -> & Hw & Hv & Ev & Ec & Er & ->). cbn [an_stmt] in H. minv H. minv E. subst.
    injection H0 as <-. minv H. destruct (expr_again_ok _ _ _ _ _ He HI E) as (I1 & S1 & ->). minv H. minv E0. subst.
    rewrite Ev in H0. injection H0 as <-. minv H. minv E0. subst. minv H. minv E0. subst.
    rewrite (s_values _ _ _ S1 _ _ Hv) in H0. injection H0 as <-. cbn [av_type] in H. rewrite Ec in H. cbn [negb] in H.
    minv H. minv E0. subst. minv H. subst. rewrite (recorded_unique _ _ _ _ H0 Er). auto.
  - rewrite an_block_unfold in H. destruct Hm as [-> Hm]. minv H. minv H. subst.
    assert (K : forall l st l' st', Forall (fun s => forall in_loop st s' st',
        noted_stmt (st_values st) (st_functions st) rt s -> marked s -> Inv st ->
        an_stmt callee run_fuel rn lv in_loop s st = Some (Ok (s', st')) -> Inv st' /\ step [] st st' /\ s' = s) l ->
      all_noted_stmt (st_values st) (st_functions st) rt l ->
      (fix all (l : list stmt) : Prop := match l with [] => True | s1 :: l' => marked s1 /\ all l' end) l ->
      Inv st -> an_children rn lv in_loop l st = Some (Ok (l', st')) -> Inv st' /\ step [] st st' /\ l' = l).
    { clear. induction l as [|s l IHl]; intros st l' st' HF Hn Hm HI H.
      - cbn [an_children] in H. minv H. subst. auto using step_refl.
      - cbn [an_children] in H. minv H. minv H. minv H. subst. inversion HF as [|? ? H1 H2]; subst.
        destruct Hn as [N1 N2]. destruct Hm as [M1 M2]. destruct (H1 _ _ _ _ N1 M1 HI E) as (I1 & S1 & ->).
        assert (N2' : all_noted_stmt (st_values s0) (st_functions s0) rt l).
        { clear -N2 HI S1. induction l as [|s l IHl]; [exact Logic.I|]. destruct N2 as [N1 N2].
          split; [eapply step_noted_stmt; eassumption|auto]. }
        destruct (IHl _ _ _ H2 N2' M2 I1 E0) as (I2 & S2 & ->). split; [exact I2|].
        split; [eapply step_trans; eassumption|reflexivity]. }
    destruct (K _ _ _ _ IH Hn Hm HI E) as (I1 & S1 & ->). auto.
  - cbn [an_stmt] in H. minv H. minv H. subst. destruct (expr_again_ok _ _ _ _ _ Hn HI E) as (I1 & S1 & ->). auto.
Qed.

(** *** Parameters *)

Lemma params_fresh_ok : forall l st l' st',
  (forall p, In p l -> fresh_type consts (p_type p) = true /\ call_free_type (p_type p) = true /\ consts (p_self p) = false) ->
  NoDup (map p_self l) -> values_ok consts (st_values st) ->
  an_parameters callee run_fuel l st = Some (Ok (l', st')) ->
  st_functions st' = st_functions st /\ st_vm st' = st_vm st /\ st_stack st' = st_stack st
  /\ values_ok consts (st_values st')
  /\ (forall p, ~ In p (map p_self l) -> st_values st' p = st_values st p)
  /\ map p_self l' = map p_self l
  /\ forall p, In p l' -> exists t, denotes (p_type p) t /\ st_values st' (p_self p) = Some (AV t None).
Proof.
  induction l as [|p l IH]; intros st l' st' Hl Hd HI H.
  - cbn [an_parameters] in H. minv H. subst. repeat (split; [solve [auto]|]). intros q [].
  - cbn [an_parameters] in H. minv H. destruct (Hl p (or_introl eq_refl)) as (F1 & F2 & F3).
    destruct (type_call_free _ _ _ _ F1 F2 HI E) as (-> & _ & c & D). minv H. minv H. minv H. subst.
    inversion Hd as [|? ? D1 D2]; subst. rewrite (proj1 D) in E0. unfold set_value in E0. injection E0 as _ <-.
    match type of E1 with _ ?s = _ => set (st1 := s) in * end.
    assert (V1 : values_ok consts (st_values st1)).
    { intros q v. cbn. destruct (Pos.eqb_spec q (p_self p)) as [->|]; [|apply HI]. intros [= <-].
      split; [apply unknown_wf; apply D|reflexivity]. }
    destruct (IH _ _ _ (fun q Hq => Hl q (or_intror Hq)) D2 V1 E1) as (A1 & A2 & A3 & A4 & A5 & A6 & A7).
    repeat (split; [assumption|]). split; [|split].
    + intros q Hq. rewrite A5 by (intros C; apply Hq; right; exact C). cbn.
      destruct (Pos.eqb_spec q (p_self p)) as [->|]; [|reflexivity]. elim Hq. left. reflexivity.
    + cbn [map p_self]. rewrite A6. reflexivity.
    + intros q [<-|Hq]; [|auto]. exists c. cbn [p_type p_self]. split; [exact D|]. rewrite A5 by exact D1. cbn.
      rewrite Pos.eqb_refl. reflexivity.
Qed.

Lemma params_again_ok : forall l st l' st',
  (forall p, In p l -> exists t, denotes (p_type p) t /\ st_values st (p_self p) = Some (AV t None)) ->
  an_parameters callee run_fuel l st = Some (Ok (l', st')) ->
  l' = l /\ st_functions st' = st_functions st /\ st_vm st' = st_vm st /\ st_stack st' = st_stack st
  /\ forall p, st_values st' p = st_values st p.
Proof.
  induction l as [|p l IH]; intros st l' st' Hl H.
  - cbn [an_parameters] in H. minv H. subst. auto.
  - cbn [an_parameters] in H. minv H. destruct (Hl p (or_introl eq_refl)) as (t & D & V).
    destruct (denotes_again _ _ _ _ _ _ _ D E) as [-> ->]. minv H. minv H. minv H. subst.
    rewrite (proj1 D) in E0. unfold set_value in E0. injection E0 as _ <-.
    match type of E1 with _ ?s = _ => set (st1 := s) in * end.
    assert (V1 : forall q, st_values st1 q = st_values st q).
    { intros q. cbn. destruct (Pos.eqb_spec q (p_self p)) as [->|]; congruence. }
    destruct (IH st1 _ _ (fun q Hq => match Hl q (or_intror Hq) with ex_intro _ u (conj Hu Hw) =>
        ex_intro _ u (conj Hu (eq_trans (V1 _) Hw)) end) E1) as (-> & A1 & A2 & A3 & A4).
    split; [destruct p; reflexivity|]. repeat (split; [assumption|]). intros q. rewrite A4. apply V1.
Qed.

(** *** Functions *)

(** Like [step], for the functions [S] on the stack. *)
Record moved (S D : list positive) (st st' : state) : Prop := {
  mv_values : forall p v, st_values st p = Some v -> st_values st' p = Some v;
  mv_frame : forall p, st_values st p = None ->
    st_values st' p = None \/ In p D \/ exists n, In p (ids n) /\ ~ In n S;
  mv_functions : forall n f, st_functions st n = Some f -> exists f', st_functions st' n = Some f' /\ fstep f f'
    /\ (In n S -> f' = f);
  mv_none : forall n, st_functions st n = None -> st_functions st' n = None;
  mv_code : (length (vm_instructions (st_vm st)) <= length (vm_instructions (st_vm st')))%nat }.

Lemma moved_trans : forall S D a b c, moved S D a b -> moved S D b c -> moved S D a c.
Proof.
  intros S D a b c [A2 A3 A4 A5 A6] [B2 B3 B4 B5 B6]. split; auto; [| |eapply Nat.le_trans; eassumption].
  - intros p Hp. destruct (st_values b p) as [v|] eqn:E; [destruct (A3 p Hp) as [H|H]; [congruence|auto]|auto].
  - intros n f H. destruct (A4 n f H) as (f' & H' & S1 & U1). destruct (B4 n f' H') as (f'' & H'' & S2 & U2).
    exists f''. split; [exact H''|]. split; [eapply fstep_trans; eassumption|]. intros Hi. rewrite U2, U1; auto.
Qed.

Lemma step_moved : forall D st st', step D st st' -> moved (st_stack st) D st st'.
Proof. intros D st st' [A1 A2 A3 A4 A5 A6]. split; auto. Qed.

Lemma moved_step : forall D st st', moved (st_stack st) D st st' -> st_stack st' = st_stack st -> step D st st'.
Proof. intros D st st' [A2 A3 A4 A5 A6] A1. split; auto. Qed.

Lemma moved_inside : forall n S D st st', ~ In n S -> incl D (ids n) -> moved (n :: S) D st st' -> moved S [] st st'.
Proof.
  intros n S D st st' Hn Hi [A2 A3 A4 A5 A6]. split; auto.
  - intros p Hp. destruct (A3 p Hp) as [H|[H|(m & Hm & Hs)]]; auto.
    + right. right. exists n. auto.
    + right. right. exists m. split; [exact Hm|]. intros C. apply Hs. right. exact C.
  - intros m f H. destruct (A4 m f H) as (f' & Hf & F & U). exists f'. split; [exact Hf|]. split; [exact F|].
    intros C. apply U. right. exact C.
Qed.

(** One function changes, and it enters or leaves the stack. *)
Lemma change_function : forall st st' n f f' S,
  Inv st -> st_functions st n = Some f ->
  (forall p, st_functions st' p = if Pos.eqb p n then Some f' else st_functions st p) ->
  (forall p v, st_values st p = Some v -> st_values st' p = Some v) ->
  (forall p, st_values st p = None -> ~ In p (ids n) -> st_values st' p = None) ->
  values_ok consts (st_values st') ->
  fstep f f' -> static n f' -> ~ In n S ->
  (forall m, m <> n -> (In m (st_stack st') <-> In m (st_stack st))) ->
  ((forall m g t, st_functions st m = Some g -> denotes (f_return g) t ->
     exists g', st_functions st' m = Some g' /\ f_params g' = f_params g /\ f_return g' = f_return g) ->
   status st' n f') ->
  (exists units, laid_out (vm_instructions (st_vm st')) (st_functions st') units) ->
  (length (vm_instructions (st_vm st)) <= length (vm_instructions (st_vm st')))%nat ->
  Inv st' /\ moved S [] st st'.
Proof.
  intros st st' n f f' S HI Hf HT Hv Hv' Hok Hs Hsta HnS Hstack Hst Hcode Hgrow.
  assert (Hsig : forall m g t, st_functions st m = Some g -> denotes (f_return g) t ->
     exists g', st_functions st' m = Some g' /\ f_params g' = f_params g /\ f_return g' = f_return g).
  { intros m g t Hm Hd. rewrite HT. destruct (Pos.eqb_spec m n) as [->|].
    - rewrite Hf in Hm. injection Hm as <-. exists f'. split; [reflexivity|]. apply (proj1 Hs).
      eapply status_level; [exact (inv_status _ HI n f Hf)|exact Hd].
    - exists g. auto. }
  split.
  - split; [exact Hok| | |exact Hcode].
    + intros m g. rewrite HT. destruct (Pos.eqb_spec m n) as [->|]; [intros [= <-]; exact Hsta|apply (inv_static _ HI)].
    + intros m g. rewrite HT. destruct (Pos.eqb_spec m n) as [->|Hne]; [intros [= <-]; exact (Hst Hsig)|].
      intros Hm. apply status_keep with (st := st); auto.
      * exact (inv_static _ HI m g Hm).
      * exact (inv_status _ HI m g Hm).
      * intros _ p Hp Hpv. apply Hv'; [exact Hpv|]. intros C. apply Hne. eapply ids_disjoint; eassumption.
  - split; [exact Hv| | | |exact Hgrow].
    + intros p Hp. destruct (in_dec Pos.eq_dec p (ids n)) as [Hi|Hi]; [right; right; eauto|left; auto].
    + intros m g Hm. rewrite HT. destruct (Pos.eqb_spec m n) as [->|].
      * rewrite Hf in Hm. injection Hm as <-. exists f'. split; [reflexivity|]. split; [exact Hs|contradiction].
      * exists g. split; [exact Hm|]. split; [apply fstep_refl|reflexivity].
    + intros m Hm. rewrite HT. destruct (Pos.eqb_spec m n) as [->|]; congruence.
Qed.

Lemma ends_same : forall f f', ends_with_return f -> is_block (f_body f') = is_block (f_body f) ->
  child_kinds (f_body f') = child_kinds (f_body f) -> node_type (f_return f') = node_type (f_return f) ->
  ends_with_return f'.
Proof.
  intros f f' (cv & l & E & H) Hb Hk Hr. rewrite E in Hb, Hk. destruct (f_body f') as [| | | | | | |cv' l'|] eqn:E'; try discriminate.
  cbn [child_kinds] in Hk. exists cv', l'. split; [exact E'|]. destruct H as [(l0 & c & e & ->)|[Hv H]].
  - left. rewrite map_app in Hk. cbn [map control_kind] in Hk.
    destruct (exists_last (l := l')) as (l1 & s1 & ->).
    { intros ->. destruct l0; discriminate. }
    rewrite map_app in Hk. cbn [map] in Hk. apply app_inj_tail in Hk as [_ Hk].
    destruct s1; try discriminate. cbn [control_kind] in Hk. injection Hk as ->. eauto.
  - right. split; [congruence|]. intros s Hs.
    assert (In (control_kind s) (map control_kind l)) as C by (rewrite <- Hk; apply in_map; exact Hs).
    apply in_map_iff in C as (s0 & Es & Hs0). specialize (H s0 Hs0). destruct s, s0; try contradiction; try exact Logic.I; discriminate.
Qed.

(** The signature is analysed and the function enters the stack. *)
Definition entered (n : positive) (params : list parameter) (rn : type_node) (s : state) : state :=
  State (fun p => if Pos.eqb p n then option_map (with_signature params rn) (st_functions s p) else st_functions s p)
    (st_values s) (st_vm s) (n :: st_stack s).

Lemma enter_ok : forall n f st params s1 rn s f0 u s2, Inv st -> st_functions st n = Some f ->
  ~ In n (st_stack st) -> f_level f <> for_constant_evaluation ->
  an_parameters callee run_fuel (f_params f) st = Some (Ok (params, s1)) ->
  an_type callee run_fuel (f_return f) s1 = Some (Ok (rn, s)) ->
  st_functions (entered n params rn s) n = Some f0 ->
  (if level_leb shallow (f_level f0) then mret tt else set_function n (with_level shallow)) (entered n params rn s)
    = Some (Ok (u, s2)) ->
  exists f1, Inv s2 /\ moved (st_stack st) [] st s2 /\ st_stack s2 = n :: st_stack st
    /\ st_functions s2 n = Some f1 /\ f_address f1 = None /\ type_cv rn = type_cv (f_return f1)
    /\ (f_level f1 = shallow \/ f_level f1 = full)
    /\ level_index (f_level f1) = Z.max 1 (level_index (f_level f))
    /\ (f_level f1 = shallow -> free_for s2 (declares (f_body f1))).
Proof.
  intros n f st params s1 rn s f0 u s2 HI Hf Hns Hl Epar Eret Hf0 H.
  pose proof (inv_static _ HI n f Hf) as Hsta. pose proof (inv_status _ HI n f Hf) as Hst.
  pose proof (sta_distinct _ _ Hsta) as Hnd. rewrite <- (sta_ids _ _ Hsta) in Hnd. unfold declared_in in Hnd.
  destruct (distinct_app _ _ Hnd) as (D1 & D2 & D3).
  unfold status in Hst. destruct (f_level f) eqn:El; [| | |congruence].
  - (* first analysis *)
    destruct Hst as ((R1 & R2) & HP & Hfb & Hcv & Hna & _ & Hnone).
    destruct (params_fresh_ok _ _ _ _ HP D1 (inv_values _ HI) Epar) as (P1 & P2 & P3 & P4 & P5 & P6 & P7).
    destruct (type_call_free _ _ _ _ R1 R2 P4 Eret) as (-> & Nt & c & Hd).
    cbn [entered st_functions] in Hf0. rewrite Pos.eqb_refl, P1, Hf in Hf0. cbn [option_map] in Hf0. injection Hf0 as <-.
    change (f_level (with_signature params rn f)) with (f_level f) in H. rewrite El in H. change (level_leb shallow unanalyzed) with false in H.
    cbv iota in H. unfold set_function in H. injection H as _ <-. set (f1 := with_level shallow (with_signature params rn f)). set (s2 := State _ _ _ _).
    assert (HT : forall p, st_functions s2 p = if Pos.eqb p n then Some f1 else st_functions st p).
    { intros p. cbn. rewrite P1. destruct (Pos.eqb_spec p n) as [->|]; [|reflexivity]. rewrite Hf. reflexivity. }
    assert (Hlen : length params = length (f_params f)).
    { apply (f_equal (@length _)) in P6. rewrite !map_length in P6. exact P6. }
    assert (HF : fstep f f1).
    { unfold fstep. rewrite El, Hcv, Hna. cbn. split; [congruence|]. split; [lia|]. split; [exact Hlen|]. split; congruence. }
    assert (Hfree : forall p, In p (ids n) -> In n (st_stack s2)).
    { intros _ _. left. reflexivity. }
    assert (Hv : forall p v, st_values st p = Some v -> st_values s2 p = Some v).
    { intros p v Hp. cbn. rewrite P5; [exact Hp|]. intros C. rewrite (Hnone p) in Hp; [discriminate|].
      rewrite <- (sta_ids _ _ Hsta). apply in_or_app. auto. }
    assert (Hfr : forall p, In p (declares (f_body f)) -> st_values s2 p = None).
    { intros p Hp. cbn. rewrite P5; [apply Hnone; rewrite <- (sta_ids _ _ Hsta); apply in_or_app; auto|].
      intros C. exact (D3 p C Hp). }
    exists f1.
    destruct (change_function st s2 n f f1 (st_stack st) HI Hf HT Hv) as [I2 M2]; auto.
    + intros p Hp Hi. cbn. rewrite P5; [exact Hp|]. intros C. apply Hi. rewrite <- (sta_ids _ _ Hsta). apply in_or_app. auto.
    + destruct Hsta as [A1 A2 A3 A4 A5 A6]. split; auto.
      * eapply ends_same; [exact A4| | |]; try reflexivity. exact Nt.
      * cbn. unfold declared_in in *. cbn. rewrite P6. exact A5.
    + intros m Hm. cbn. rewrite P3. split; [intros [C|C]; [congruence|exact C]|auto].
    + intros Hsig. cbn. split; [split; [exists c; exact Hd|exact P7]|]. split; [exact Hfb|]. split; [exact Hna|].
      split; [left; split; [exact Hcv|left; reflexivity]|]. intros C. elim C. left. reflexivity.
    + destruct (inv_code _ HI) as [units L]. exists units. cbn [st_vm s2 entered]. rewrite P2. eapply laid_out_step; [exact L| |].
      * intros m g Hm. rewrite HT. destruct (Pos.eqb_spec m n) as [->|]; [|exists g; split; [exact Hm|apply fstep_refl]].
        rewrite Hf in Hm. injection Hm as <-. eauto.
      * intros m g. rewrite HT. destruct (Pos.eqb_spec m n) as [->|]; [|eauto]. intros [= <-] C. elim C. exact Hna.
    + cbn [st_vm s2 entered]. rewrite P2. constructor.
    + split; [exact I2|]. split; [exact M2|]. split; [cbn; rewrite P3; reflexivity|].
      split; [rewrite HT, Pos.eqb_refl; reflexivity|]. split; [exact Hna|]. split; [reflexivity|]. split; [auto|].
      split; [reflexivity|]. intros _. split; [exact D2|]. intros p Hp. split; [apply Hfr; exact Hp|]. intros m Hm.
      left. symmetry. eapply ids_disjoint; [exact Hm|]. rewrite <- (sta_ids _ _ Hsta). apply in_or_app. auto.
  - destruct Hst as (((c & Hd) & HP) & Hfb & Hna & Hcv & Hfr). specialize (Hfr Hns).
    destruct (params_again_ok _ _ _ _ HP Epar) as (-> & P1 & P2 & P3 & P4).
    destruct (denotes_again _ _ _ _ _ _ _ Hd Eret) as [-> ->].
    cbn [entered st_functions] in Hf0. rewrite Pos.eqb_refl, P1, Hf in Hf0. cbn [option_map] in Hf0. injection Hf0 as <-.
    change (f_level (with_signature (f_params f) (f_return f) f)) with (f_level f) in H. rewrite El in H.
    change (level_leb shallow shallow) with true in H. cbv iota in H. minv H. subst.
    assert (Ef : with_signature (f_params f) (f_return f) f = f) by (destruct f; reflexivity).
    set (s2 := entered _ _ _ _).
    assert (HT : forall p, st_functions s2 p = if Pos.eqb p n then Some f else st_functions st p).
    { intros p. cbn. rewrite P1. destruct (Pos.eqb_spec p n) as [->|]; [|reflexivity]. rewrite Hf. cbn [option_map]. congruence. }
    assert (Hf2 : st_functions s2 n = Some f) by (rewrite HT, Pos.eqb_refl; reflexivity).
    exists f.
    destruct (change_function st s2 n f f (st_stack st) HI Hf HT) as [I2 M2]; auto.
    + intros p v Hp. cbn. rewrite P4. exact Hp.
    + intros p Hp _. cbn. rewrite P4. exact Hp.
    + intros p v. cbn. rewrite P4. apply (inv_values _ HI).
    + apply fstep_refl.
    + intros m Hm. cbn. rewrite P3. split; [intros [C|C]; [congruence|exact C]|auto].
    + intros Hsig. unfold status. rewrite El. split; [split; [exists c; exact Hd|]|].
      * intros p Hp. cbn. rewrite P4. auto.
      * split; [exact Hfb|]. split; [exact Hna|]. split.
        -- right. destruct Hcv as [[_ C]|C]; [contradiction|exact C].
        -- intros C. elim C. left. reflexivity.
    + destruct (inv_code _ HI) as [units L]. exists units. cbn [st_vm s2 entered]. rewrite P2. eapply laid_out_step; [exact L| |].
      * intros m g Hm. rewrite HT. destruct (Pos.eqb_spec m n) as [->|]; [|exists g; split; [exact Hm|apply fstep_refl]].
        rewrite Hf in Hm. injection Hm as <-. exists f. split; [reflexivity|apply fstep_refl].
      * intros m g. rewrite HT. destruct (Pos.eqb_spec m n) as [->|]; [|eauto]. intros [= <-] C. elim C. exact Hna.
    + cbn [st_vm s2 entered]. rewrite P2. constructor.
    + split; [exact I2|]. split; [exact M2|]. split; [cbn; rewrite P3; reflexivity|]. split; [exact Hf2|].
      split; [exact Hna|]. split; [reflexivity|]. split; [auto|]. rewrite El.
      split; [reflexivity|]. intros _. split; [exact D2|]. intros p Hp. split; [cbn; rewrite P4; auto|]. intros m Hm.
      left. symmetry. eapply ids_disjoint; [exact Hm|]. rewrite <- (sta_ids _ _ Hsta). apply in_or_app. auto.
  - destruct Hst as ((Hcv & ((c & Hd & Hbody) & HP) & Hmk & Hlp) & Hna).
    destruct (params_again_ok _ _ _ _ HP Epar) as (-> & P1 & P2 & P3 & P4).
    destruct (denotes_again _ _ _ _ _ _ _ Hd Eret) as [-> ->].
    cbn [entered st_functions] in Hf0. rewrite Pos.eqb_refl, P1, Hf in Hf0. cbn [option_map] in Hf0. injection Hf0 as <-.
    change (f_level (with_signature (f_params f) (f_return f) f)) with (f_level f) in H. rewrite El in H.
    change (level_leb shallow full) with true in H. cbv iota in H. minv H. subst.
    assert (Ef : with_signature (f_params f) (f_return f) f = f) by (destruct f; reflexivity).
    set (s2 := entered _ _ _ _).
    assert (HT : forall p, st_functions s2 p = if Pos.eqb p n then Some f else st_functions st p).
    { intros p. cbn. rewrite P1. destruct (Pos.eqb_spec p n) as [->|]; [|reflexivity]. rewrite Hf. cbn [option_map]. congruence. }
    assert (Hf2 : st_functions s2 n = Some f) by (rewrite HT, Pos.eqb_refl; reflexivity).
    exists f.
    destruct (change_function st s2 n f f (st_stack st) HI Hf HT) as [I2 M2]; auto.
    + intros p v Hp. cbn. rewrite P4. exact Hp.
    + intros p Hp _. cbn. rewrite P4. exact Hp.
    + intros p v. cbn. rewrite P4. apply (inv_values _ HI).
    + apply fstep_refl.
    + intros m Hm. cbn. rewrite P3. split; [intros [C|C]; [congruence|exact C]|auto].
    + intros Hsig. unfold status. rewrite El. split; [|exact Hna]. split; [exact Hcv|].
      split; [|auto]. eapply noted_function_mono; [|exact Hsig|split; [exists c; split; [exact Hd|exact Hbody]|exact HP]].
      intros p v Hp. cbn. rewrite P4. exact Hp.
    + destruct (inv_code _ HI) as [units L]. exists units. cbn [st_vm s2 entered]. rewrite P2. eapply laid_out_step; [exact L| |].
      * intros m g Hm. rewrite HT. destruct (Pos.eqb_spec m n) as [->|]; [|exists g; split; [exact Hm|apply fstep_refl]].
        rewrite Hf in Hm. injection Hm as <-. exists f. split; [reflexivity|apply fstep_refl].
      * intros m g. rewrite HT. destruct (Pos.eqb_spec m n) as [->|]; [|eauto]. intros [= <-] C. elim C. exact Hna.
    + cbn [st_vm s2 entered]. rewrite P2. constructor.
    + split; [exact I2|]. split; [exact M2|]. split; [cbn; rewrite P3; reflexivity|]. split; [exact Hf2|].
      split; [exact Hna|]. split; [reflexivity|]. split; [auto|]. rewrite El. split; [reflexivity|discriminate].
Qed.

(** The body is analysed. *)
Lemma body_ok_step : forall n f1 S st lv body st', Inv st -> st_stack st = n :: S -> ~ In n S ->
  st_functions st n = Some f1 -> f_level f1 = shallow \/ f_level f1 = full ->
  (f_level f1 = shallow -> free_for st (declares (f_body f1))) ->
  an_stmt callee run_fuel (Some (f_return f1)) lv false (f_body f1) st = Some (Ok (body, st')) ->
  Inv st' /\ moved S [] st st' /\ st_stack st' = n :: S /\ st_functions st' n = Some f1
  /\ (exists t, denotes (f_return f1) t /\ noted_stmt (st_values st') (st_functions st') t body)
  /\ (forall p, In p (f_params f1) -> exists t, denotes (p_type p) t /\ st_values st' (p_self p) = Some (AV t None))
  /\ marked body /\ loops_ok false body = true /\ shaped body = true
  /\ declares body = declares (f_body f1) /\ child_kinds body = child_kinds (f_body f1)
  /\ is_block body = is_block (f_body f1).
Proof.
  intros n f1 S st lv body st' HI Hstack HnS Hf1 Hl Hfree H.
  pose proof (inv_static _ HI n f1 Hf1) as Hsta. pose proof (inv_status _ HI n f1 Hf1) as Hst. unfold status in Hst.
  assert (K : forall D, step D st st' -> incl D (ids n) -> moved S [] st st' /\ st_stack st' = n :: S /\ st_functions st' n = Some f1).
  { intros D HS Hi. split; [|split].
    - apply moved_inside with (n := n) (D := D); auto. rewrite <- Hstack. apply step_moved. exact HS.
    - rewrite (s_stack _ _ _ HS). exact Hstack.
    - destruct (s_functions _ _ _ HS n f1 Hf1) as (f' & Hf' & _ & U). rewrite U in Hf'; [exact Hf'|]. rewrite Hstack. left. reflexivity. }
  assert (Hinc : incl (declares (f_body f1)) (ids n)).
  { intros p Hp. rewrite <- (sta_ids _ _ Hsta). apply in_or_app. auto. }
  destruct Hl as [Hl|Hl]; rewrite Hl in Hst.
  - destruct Hst as (((c & Hd) & HP) & Hfb & Hna & Hcv & _).
    destruct (stmt_fresh_ok (Some (f_return f1)) c lv (fun m (E : Some (f_return f1) = Some m) => match E in _ = o return match o with Some m => denotes m c | None => True end with eq_refl => Hd end)
      _ _ _ _ _ Hfb (sta_shaped _ _ Hsta) (Hfree Hl) HI H) as [B1 B2 B3 B4 B5 B6 B7 B8 B9 B10].
    destruct (K _ B2 Hinc) as (K1 & K2 & K3). split; [exact B1|]. split; [exact K1|]. split; [exact K2|]. split; [exact K3|].
    split; [eauto|]. split; [|auto 10]. intros p Hp. destruct (HP p Hp) as (t & Ht & Hv). exists t. split; [exact Ht|].
    apply (s_values _ _ _ B2). exact Hv.
  - destruct Hst as ((Hcv & ((c & Hd & Hbody) & HP) & Hmk & Hlp) & Hna).
    destruct (stmt_again_ok (Some (f_return f1)) c lv (fun m (E : Some (f_return f1) = Some m) => match E in _ = o return match o with Some m => denotes m c | None => True end with eq_refl => Hd end)
      _ _ _ _ _ Hbody Hmk HI H) as (B1 & B2 & ->).
    destruct (K _ B2 (fun p (C : In p []) => match C with end)) as (K1 & K2 & K3).
    split; [exact B1|]. split; [exact K1|]. split; [exact K2|]. split; [exact K3|]. split.
    { exists c. split; [exact Hd|]. eapply step_noted_stmt; [exact HI|exact B2|exact Hbody]. }
    split.
    { intros p Hp. destruct (HP p Hp) as (t & Ht & Hv). exists t. split; [exact Ht|]. apply (s_values _ _ _ B2). exact Hv. }
    repeat (split; [auto|]); auto. apply (sta_shaped _ _ Hsta).
Qed.

Lemma status_cv : forall st n f, status st n f -> f_cv f <> None -> f_level f <> unanalyzed.
Proof. intros st n f H Hc E. unfold status in H. rewrite E in H. destruct H as (_ & _ & _ & C & _). contradiction. Qed.

Lemma function_body_ok : callee_ok (an_function_body callee run_fuel).
Proof.
  intros n lv st u st' HI Hlv Hor H. unfold an_function_body in H. minv H. minv E. subst. rename a into f. rename H0 into Hf.
  minv H. minv E. subst. clear H0.
  destruct (level_leb lv (f_level f)) eqn:Ell.
  { minv H. subst. split; [exact HI|]. split; [apply step_refl|]. eauto. }
  pose proof (inv_static _ HI n f Hf) as Hsta. pose proof (inv_status _ HI n f Hf) as Hst.
  rewrite (sta_generic _ _ Hsta) in H. rewrite (sta_requires _ _ Hsta) in H.
  assert (Hns : ~ In n (st_stack st)).
  { destruct Hor as [->|Hns]; [|exact Hns]. unfold status in Hst. unfold level_leb in Ell. destruct (f_level f); try discriminate.
    apply Hst. }
  assert (Hnc : f_level f <> for_constant_evaluation).
  { intros C. rewrite C in Ell. unfold level_leb in Ell. destruct lv; discriminate. }
  minv H. rename a0 into params. rename s into s1. rename E into Epar. minv H. rename a0 into rn. rename E into Eret.
  minv H. unfold set_function in E. injection E as _ <-. minv H. unfold push_function in E. injection E as _ <-.
  minv H. minv E. subst. cbn [st_functions st_values st_vm st_stack] in H.
  change (State _ _ _ _) with (entered n params rn s) in H.
  minv H. apply get_function_ok in E as [Hf0 ->]. rename a2 into f0.
  minv H. rename s0 into s2.
  destruct (enter_ok n f st params s1 rn s f0 a2 s2 HI Hf Hns Hnc Epar Eret Hf0 E)
    as (f1 & I2 & M2 & K2 & Hf1 & Ha1 & Hrn & Hl1 & Hli & Hfree).
  clear Epar Eret Hf0 E f0 s1 s. set (S := st_stack st) in *.
  (* the value recorded for the function *)
  pose proof (inv_status _ I2 n f1 Hf1) as Hst1.
  assert (Hcv1 : f_cv f1 <> None -> type_cv rn = f_cv f1).
  { intros C. rewrite Hrn. unfold status in Hst1. destruct Hl1 as [Hl1|Hl1]; rewrite Hl1 in Hst1.
    - destruct Hst1 as (_ & _ & _ & [[E _]|E] & _); congruence.
    - destruct Hst1 as ((E & _) & _). congruence. }
  assert (Hlt : level_index (f_level f1) <= level_index lv).
  { rewrite Hli. unfold level_leb in Ell. apply Z.leb_gt in Ell. pose proof (proj1 (level_positive lv) Hlv). lia. }
  destruct (level_leb full lv) eqn:Efull.
  2:{ (* just the signature *)
    assert (lv = shallow) as ->.
    { unfold level_leb in Efull. destruct lv; try discriminate; congruence. }
    minv H. minv E. subst. change (level_leb for_constant_evaluation shallow) with false in H. cbv iota in H.
    minv H. minv E. subst. minv H. unfold set_function in E. injection E as _ <-. unfold pop_function in H. injection H as _ <-.
    cbn [st_functions st_values st_vm st_stack]. rewrite K2. cbn [tl]. set (f' := with_result (type_cv rn) shallow f1). set (st' := State _ _ _ _).
    assert (Hl1' : f_level f1 = shallow) by (destruct Hl1 as [E|E]; [exact E|rewrite E in Hlt; cbn in Hlt; lia]).
    assert (HT : forall p, st_functions st' p = if Pos.eqb p n then Some f' else st_functions s2 p).
    { intros p. cbn. destruct (Pos.eqb_spec p n) as [->|]; [|reflexivity]. rewrite Hf1. reflexivity. }
    assert (HF : fstep f1 f').
    { unfold fstep. cbn. rewrite Hl1', Ha1. cbn. split; [auto|]. split; [lia|]. split; [reflexivity|]. split; [auto|congruence]. }
    unfold status in Hst1. rewrite Hl1' in Hst1. destruct Hst1 as (G1 & G2 & G3 & _ & _).
    destruct (change_function s2 st' n f1 f' S I2 Hf1 HT) as [I3 M3]; auto.
    - apply (inv_values _ I2).
    - destruct (inv_static _ I2 n f1 Hf1) as [A1 A2 A3 A4 A5 A6]. split; auto.
    - intros m Hm. rewrite K2. cbn. split; [auto|intros [C|C]; [congruence|exact C]].
    - intros _. unfold status. cbn [f_level f' with_result]. split; [exact G1|]. split; [exact G2|]. split; [exact G3|].
      split; [right; exact Hrn|]. intros _ p Hp. destruct (Hfree Hl1') as [_ F]. apply F. exact Hp.
    - destruct (inv_code _ I2) as [units L]. exists units. cbn [st_vm st']. eapply laid_out_step; [exact L| |].
      + intros m g Hm. rewrite HT. destruct (Pos.eqb_spec m n) as [->|]; [|exists g; split; [exact Hm|apply fstep_refl]].
        rewrite Hf1 in Hm. injection Hm as <-. eauto.
      + intros m g. rewrite HT. destruct (Pos.eqb_spec m n) as [->|]; [|eauto]. intros [= <-] C. elim C. exact Ha1.
    - split; [exact I3|]. split.
      + apply moved_step; [|reflexivity]. eapply moved_trans; eassumption.
      + exists f'. split; [|reflexivity]. specialize (HT n). rewrite Pos.eqb_refl in HT. exact HT. }
  (* the body *)
  minv H. rename s into s3. minv E. apply get_function_ok in E0 as [E1 ->]. rewrite Hf1 in E1. injection E1 as <-.
  minv E. rename a4 into body. rename s into s4. rename E0 into Ebody.
  destruct (body_ok_step n f1 S s2 lv body s4 I2 K2 Hns Hf1 Hl1 Hfree Ebody)
    as (I4 & M4 & K4 & Hf4 & Hnoted & Hpar & Hmk & Hlp & Hsh & Hde & Hck & Hbl).
  unfold set_function in E. injection E as _ <-.
  pose proof (inv_static _ I2 n f1 Hf1) as Hsta1.
  set (f2 := with_body body f1). set (T2 := fun p => if Pos.eqb p n then option_map (with_body body) (st_functions s4 p) else st_functions s4 p) in *.
  assert (HT2 : forall p, T2 p = if Pos.eqb p n then Some f2 else st_functions s4 p).
  { intros p. unfold T2. destruct (Pos.eqb_spec p n) as [->|]; [|reflexivity]. rewrite Hf4. reflexivity. }
  assert (HF2 : fstep f1 f2).
  { unfold fstep. cbn. rewrite Ha1. split; [auto|]. split; [lia|]. split; [reflexivity|]. split; [auto|congruence]. }
  assert (Hends : ends_with_return f2) by (eapply ends_same; [apply (sta_ends _ _ Hsta1)|exact Hbl|exact Hck|reflexivity]).
  assert (Hnf : forall T f', (forall m g t, st_functions s4 m = Some g -> denotes (f_return g) t ->
      exists g', T m = Some g' /\ f_params g' = f_params g /\ f_return g' = f_return g) ->
      f_return f' = f_return f1 -> f_params f' = f_params f1 -> f_body f' = body -> noted_function (st_values s4) T f').
  { intros T f' Hsig Er Ep Eb. split.
    - destruct Hnoted as (t & Hd & Hb). exists t. rewrite Er, Eb. split; [exact Hd|]. eapply noted_stmt_mono; [|exact Hsig|exact Hb]. auto.
    - rewrite Ep. exact Hpar. }
  assert (Hsig2 : forall m g t, st_functions s4 m = Some g -> denotes (f_return g) t ->
      exists g', T2 m = Some g' /\ f_params g' = f_params g /\ f_return g' = f_return g).
  { intros m g t Hm _. rewrite HT2. destruct (Pos.eqb_spec m n) as [->|]; [|eauto]. rewrite Hf4 in Hm. injection Hm as <-.
    exists f2. auto. }
  assert (Hlaid2 : exists units, laid_out (vm_instructions (st_vm s4)) T2 units).
  { destruct (inv_code _ I4) as [units L]. exists units. eapply laid_out_step; [exact L| |].
    - intros m g Hm. rewrite HT2. destruct (Pos.eqb_spec m n) as [->|]; [|exists g; split; [exact Hm|apply fstep_refl]].
      rewrite Hf4 in Hm. injection Hm as <-. eauto.
    - intros m g. rewrite HT2. destruct (Pos.eqb_spec m n) as [->|]; [|eauto]. intros [= <-] C. elim C. exact Ha1. }
  assert (Hstatic : forall f', f_requires f' = f_requires f1 -> f_generic f' = f_generic f1 -> f_body f' = body ->
      f_params f' = f_params f1 -> f_return f' = f_return f1 -> static n f').
  { intros f' E1 E2 E3 E4 E5. destruct Hsta1 as [A1 A2 A3 A4 A5 A6]. split; try congruence.
    - eapply ends_same; [exact A4| | |]; congruence.
    - unfold declared_in in *. rewrite E3, E4, Hde. exact A5. }
  destruct (level_leb for_constant_evaluation lv) eqn:Econ.
  - (* with code *)
    assert (lv = for_constant_evaluation) as -> by (unfold level_leb in Econ; destruct lv; try discriminate; reflexivity).
    minv H. minv E. apply get_function_ok in E0 as [E1 ->]. cbn [st_functions] in E1. rewrite HT2, Pos.eqb_refl in E1.
    injection E1 as <-. minv E. minv E0. subst. minv E. minv E0. subst. cbn [st_functions st_vm] in *. unfold add_instructions in E.
    minv E. apply set_vm_ok in E0. subst. cbn [st_functions st_values st_vm st_stack] in *. unfold set_function in E. injection E as _ <-.
    minv H. unfold set_function in E. injection E as _ <-. unfold pop_function in H. injection H as _ <-.
    cbn [st_functions st_values st_vm st_stack]. rewrite K4. cbn [tl].
    set (f' := with_result (type_cv rn) for_constant_evaluation (with_address (instruction_count (vm_instructions (st_vm s4))) f2)).
    set (st' := State _ _ _ _).
    assert (HT' : forall p, st_functions st' p = if Pos.eqb p n then Some f' else T2 p).
    { intros p. cbn. destruct (Pos.eqb_spec p n) as [->|]; [|reflexivity]. rewrite HT2, Pos.eqb_refl. reflexivity. }
    assert (HT : forall p, st_functions st' p = if Pos.eqb p n then Some f' else st_functions s4 p).
    { intros p. rewrite HT'. rewrite HT2. destruct (Pos.eqb p n); reflexivity. }
    assert (HF : fstep f1 f').
    { unfold fstep. cbn. rewrite Ha1. split; [auto|]. split; [exact Hlt|]. split; [reflexivity|]. split; [auto|congruence]. }
    destruct (change_function s4 st' n f1 f' S I4 Hf4 HT) as [I5 M5]; auto.
    + apply (inv_values _ I4).
    + intros m Hm. rewrite K4. cbn. split; [auto|intros [C|C]; [congruence|exact C]].
    + intros Hsig. unfold status. cbn [f_level f' with_result]. split; [|split; [eexists; reflexivity|exact Hns]].
      split; [exact Hrn|]. split; [|auto]. apply Hnf; auto.
    + destruct Hlaid2 as [units L]. cbn [st_vm st' vm_instructions]. eexists.
      eapply laid_out_extend with (values := st_values s4) (f := f2) (f' := f') (n := n); [exact L| | | | | | | | | | | | |]; try reflexivity.
      * rewrite HT2, Pos.eqb_refl. reflexivity.
      * exact Ha1.
      * apply Hnf; auto.
      * exact Hsh.
      * exact Hends.
      * assumption.
      * intros m g. rewrite HT2. destruct (Pos.eqb_spec m n) as [->|].
        -- intros [= <-] _. cbn. destruct Hl1 as [-> | ->]; discriminate.
        -- intros Hm. apply (status_cv s4 m). apply (inv_status _ I4). exact Hm.
      * exact Hlt.
      * exact HT'.
    + cbn [st_vm st' vm_instructions]. rewrite app_length. lia.
    + split; [exact I5|]. split.
      * apply moved_step; [|reflexivity]. eapply moved_trans; [exact M2|]. eapply moved_trans; eassumption.
      * exists f'. split; [|reflexivity]. specialize (HT n). rewrite Pos.eqb_refl in HT. exact HT.
  - assert (lv = full) as ->.
    { unfold level_leb in Econ, Efull. destruct lv; try discriminate; reflexivity. }
    minv H. minv E. subst. minv H. unfold set_function in E. injection E as _ <-. unfold pop_function in H. injection H as _ <-.
    cbn [st_functions st_values st_vm st_stack]. rewrite K4. cbn [tl].
    set (f' := with_result (type_cv rn) full f2). set (st' := State _ _ _ _).
    assert (HT' : forall p, st_functions st' p = if Pos.eqb p n then Some f' else T2 p).
    { intros p. cbn. destruct (Pos.eqb_spec p n) as [->|]; [|reflexivity]. rewrite HT2, Pos.eqb_refl. reflexivity. }
    assert (HT : forall p, st_functions st' p = if Pos.eqb p n then Some f' else st_functions s4 p).
    { intros p. rewrite HT'. rewrite HT2. destruct (Pos.eqb p n); reflexivity. }
    assert (HF : fstep f1 f').
    { unfold fstep. cbn. rewrite Ha1. split; [auto|]. split; [exact Hlt|]. split; [reflexivity|]. split; [auto|congruence]. }
    destruct (change_function s4 st' n f1 f' S I4 Hf4 HT) as [I5 M5]; auto.
    + apply (inv_values _ I4).
    + intros m Hm. rewrite K4. cbn. split; [auto|intros [C|C]; [congruence|exact C]].
    + intros Hsig. unfold status. cbn [f_level f' with_result]. split; [|exact Ha1].
      split; [exact Hrn|]. split; [|auto]. apply Hnf; auto.
    + destruct (inv_code _ I4) as [units L]. exists units. cbn [st_vm st']. eapply laid_out_step; [exact L| |].
      * intros m g Hm. rewrite HT. destruct (Pos.eqb_spec m n) as [->|]; [|exists g; split; [exact Hm|apply fstep_refl]].
        rewrite Hf4 in Hm. injection Hm as <-. eauto.
      * intros m g. rewrite HT. destruct (Pos.eqb_spec m n) as [->|]; [|eauto]. intros [= <-] C. elim C. exact Ha1.
    + split; [exact I5|]. split.
      * apply moved_step; [|reflexivity]. eapply moved_trans; [exact M2|]. eapply moved_trans; eassumption.
      * exists f'. split; [|reflexivity]. specialize (HT n). rewrite Pos.eqb_refl in HT. exact HT.
Qed.

End Call.

(** *** Programs *)

Lemma function_ok : forall rf fuel, callee_ok (an_function rf fuel).
Proof.
  intros rf. induction fuel as [|fuel IH]; [intros n lv st u st' _ _ _ H; discriminate|].
  apply function_body_ok. exact IH.
Qed.

Lemma items_ok : forall rf fuel l st l' st', Inv st -> st_stack st = [] ->
  (forall s, In (Item_Statement s) l -> is_global s = true /\ fresh_stmt consts s = true) ->
  NoDup (global_declared l) ->
  (forall p, In p (global_declared l) -> st_values st p = None /\ forall n, ~ In p (ids n)) ->
  an_items rf fuel l st = Some (Ok (l', st')) ->
  Inv st' /\ step (global_declared l) st st'
  /\ forall n, In (Item_Function n) l -> exists f, st_functions st' n = Some f /\ level_leb full (f_level f) = true.
Proof.
  intros rf fuel. induction l as [|[n|s] l IH]; intros st l' st' HI Hst Hg Hnd Hfr H.
  - cbn [an_items] in H. minv H. subst. split; [exact HI|]. split; [apply step_refl|intros n []].
  - cbn [an_items] in H. minv H. minv H. minv H. subst.
    destruct (function_ok rf fuel n full st a s HI) as (I1 & S1 & f1 & Hf1 & Hl1); [discriminate| |exact E|].
    { right. rewrite Hst. intros []. }
    destruct (IH s a0 s0) as (I2 & S2 & L2); auto.
    + rewrite (s_stack _ _ _ S1). exact Hst.
    + intros s2 Hs2. apply Hg. right. exact Hs2.
    + intros p Hp. destruct (Hfr p Hp) as [Hv Hi]. split; [|exact Hi].
      destruct (s_frame _ _ _ S1 p Hv) as [C|[[]|(m & Hm & _)]]; [exact C|]. elim (Hi m Hm).
    + split; [exact I2|]. split; [eapply step_trans; [eapply step_weaken; [|exact S1]; intros ? []|exact S2]|].
      intros m [[= <-]|Hm]; [|auto]. destruct (s_functions _ _ _ S2 n f1 Hf1) as (f2 & Hf2 & (_ & L & _) & _).
      exists f2. split; [exact Hf2|]. unfold level_leb in *. lia.
  - cbn [an_items] in H. minv H. minv H. minv H. subst.
    destruct (Hg s (or_introl eq_refl)) as [G1 G2]. cbn [global_declared flat_map] in Hnd, Hfr.
    fold (global_declared l) in Hnd, Hfr. destruct (distinct_app _ _ Hnd) as (D1 & D2 & D3).
    destruct (stmt_fresh_ok (an_function rf fuel) rf (function_ok rf fuel) None TVoid full (fun n (C : None = Some n) => match C in _ = o return match o with Some m => denotes m TVoid | None => True end with eq_refl => Logic.I end)
      s false st a s0 G2) as [B1 B2 _ _ _ _ _ _ _ _]; auto.
    + destruct s; try discriminate; reflexivity.
    + split; [exact D1|]. intros p Hp. destruct (Hfr p) as [Hv Hi]; [apply in_or_app; auto|]. split; [exact Hv|].
      intros n Hn. elim (Hi n Hn).
    + destruct (IH s0 a0 s1) as (I2 & S2 & L2); auto.
      * rewrite (s_stack _ _ _ B2). exact Hst.
      * intros s2 Hs2. apply Hg. right. exact Hs2.
      * intros p Hp. destruct (Hfr p) as [Hv Hi]; [apply in_or_app; auto|]. split; [|exact Hi].
        destruct (s_frame _ _ _ B2 p Hv) as [C|[C|(m & Hm & _)]]; [exact C|elim (D3 p C Hp)|elim (Hi m Hm)].
      * split; [exact I2|]. split.
        -- eapply step_trans; (eapply step_weaken; [|eassumption]); [apply incl_appl, incl_refl|apply incl_appr, incl_refl].
        -- intros m [C|Hm]; [discriminate|auto].
Qed.

End Invariant.

(** What analysis of a whole program establishes. *)
Record accepted_program (st : state) : Prop := {
  ap_values : forall p v, st_values st p = Some v -> wf_avalue v;
  ap_noted : forall n f, st_functions st n = Some f -> noted_function (st_values st) (st_functions st) f;
  ap_loops : forall n f, st_functions st n = Some f -> loops_ok false (f_body f) = true;
  ap_ends : forall n f, st_functions st n = Some f -> ends_with_return f;
  ap_code : exists units, laid_out (vm_instructions (st_vm st)) (st_functions st) units }.

Lemma empty_laid_out : forall table, (forall n f, table n = Some f -> f_address f = None) ->
  laid_out [] table (fun _ => None).
Proof.
  intros table H. split.
  - constructor.
  - intros a [].
  - exists []. split; [reflexivity|intros code []].
  - intros n u C. discriminate.
  - intros n u C. discriminate.
  - intros n f a Hf Ha. rewrite (H n f Hf) in Ha. discriminate.
  - intros n u n' i C. discriminate.
Qed.

Lemma program_ok : forall consts rf fuel table items items' st, program_ready consts table items ->
  analyze_program rf fuel table items = Some (Ok (items', st)) ->
  accepted_program st
  /\ (forall n, st_functions st n = None <-> table n = None)
  /\ (forall n f, table n = Some f -> exists f', st_functions st n = Some f' /\ length (f_params f') = length (f_params f)).
Proof.
  intros consts rf fuel table items items' st (R1 & R2 & R3 & R4 & R5) H.
  set (ids := fun n => match table n with Some f => declared_in f | None => [] end).
  assert (Hdis : forall n m p, In p (ids n) -> In p (ids m) -> n = m).
  { intros n m p. unfold ids. destruct (table n) eqn:E1; [|intros []]. destruct (table m) eqn:E2; [|intros _ []]. eauto. }
  set (st0 := State table (fun _ => None) vm_new []).
  assert (HI : Inv consts ids st0).
  { split.
    - intros p v C. discriminate.
    - intros n f Hf. cbn in Hf. destruct (R1 n f Hf) as ((Q1 & Q2 & Q3 & Q4 & Q5 & Q6 & Q7 & Q8 & Q9 & Q10 & Q11 & Q12) & _).
      split; auto; unfold ids; rewrite Hf; auto.
    - intros n f Hf. cbn in Hf. destruct (R1 n f Hf) as ((Q1 & Q2 & Q3 & Q4 & Q5 & Q6 & Q7 & Q8 & Q9 & Q10 & Q11 & Q12) & _).
      unfold status. rewrite Q5. repeat (split; [auto|]). reflexivity.
    - exists (fun _ => None). cbn. apply empty_laid_out. intros n f Hf. apply (R1 n f Hf). }
  destruct (items_ok consts ids Hdis rf fuel items st0 items' st HI eq_refl R3 R4) as (I1 & S1 & L1); [|exact H|].
  { intros p Hp. split; [reflexivity|]. intros n. unfold ids. destruct (table n) as [f|] eqn:E; [|intros []].
    intros C. exact (R5 n f p E C Hp). }
  assert (Hnone : forall n, st_functions st n = None <-> table n = None).
  { intros n. split; [|apply (s_none _ _ _ _ S1)]. intros C. destruct (table n) as [f|] eqn:E; [|reflexivity].
    destruct (s_functions _ _ _ _ S1 n f E) as (f' & Hf' & _). congruence. }
  assert (Hfull : forall n f, st_functions st n = Some f -> body_ok (st_values st) (st_functions st) f).
  { intros n f Hf. assert (table n <> None) as Ht by (intros C; apply Hnone in C; congruence).
    destruct (table n) as [f0|] eqn:E; [|congruence]. destruct (L1 n (proj2 (R1 n f0 E))) as (f' & Hf' & Hl).
    rewrite Hf in Hf'. injection Hf' as <-. pose proof (inv_status _ _ _ I1 n f Hf) as Hs. unfold status in Hs.
    destruct (f_level f); try discriminate; apply Hs. }
  split; [|split; [exact Hnone|]].
  - split.
    + intros p v Hp. apply (inv_values _ _ _ I1 p v Hp).
    + intros n f Hf. apply (Hfull n f Hf).
    + intros n f Hf. apply (Hfull n f Hf).
    + intros n f Hf. apply (inv_static _ _ _ I1 n f Hf).
    + apply (inv_code _ _ _ I1).
  - intros n f Hf. destruct (s_functions _ _ _ _ S1 n f Hf) as (f' & Hf' & (_ & _ & L & _) & _). eauto.
Qed.
