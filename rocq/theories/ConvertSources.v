(** Converted programs are programs as name lookup and analysis take them. *)
From Coq Require Import ZArith Ascii String List Bool Lia Permutation.
From Verif Require Import Prelude Text Types Ops Tables AbsOps Annotations Ast Parse GrammarSpec Codegen SourceSem CodegenSpec Programs
  NameLookup NameLookupSpec NameLookupProofs Sources SourcesProofs PrintSpec Convert ConvertSpec ConvertFacts ConvertParse.
Import ListNotations.
Open Scope list_scope.

(** ** Kinds of declarations *)

(** The declared identities, and which of them are constants. *)
Fixpoint kinds (s : stmt) : list (positive * bool) :=
  match s with
  | SConst _ _ self _ _ => [(self, true)]
  | SLet _ _ self _ _ => [(self, false)]
  | SIf _ _ b e => kinds b ++ match e with Some s1 => kinds s1 | None => [] end
  | SWhile _ _ b => kinds b
  | SBlock _ l => flat_map kinds l
  | _ => []
  end.
Definition kinds_function (f : func) : list (positive * bool) :=
  (f_self f, false) :: map (fun p => (p_self p, false)) (f_params f) ++ kinds (f_body f).
Definition kinds_declaration (d : declaration) : list (positive * bool) :=
  match d with Decl_Function f => kinds_function f | Decl_Statement s => kinds s end.
Definition kinds_program (l : list declaration) : list (positive * bool) := flat_map kinds_declaration l.
(** Identities of constants. *)
Definition constants_in (l : list declaration) (n : positive) : bool :=
  existsb (fun '(m, b) => b && Pos.eqb m n) (kinds_program l).

Lemma map_flat_map {A B C} (f : B -> C) (g : A -> list B) l : map f (flat_map g l) = flat_map (fun a => map f (g a)) l.
Proof. induction l as [|a l IH]; [reflexivity|]. cbn. rewrite map_app, IH. reflexivity. Qed.
Lemma kinds_declares s : map fst (kinds s) = declares s.
Proof.
  induction s using AstFacts.stmt_induction; try reflexivity; cbn [kinds declares].
  - rewrite !app_nil_r. assumption.
  - rewrite map_app. congruence.
  - assumption.
  - rewrite map_flat_map. induction H as [|s l Hs _ IH]; [reflexivity|]. cbn. congruence.
Qed.
Lemma kinds_identities l : map fst (kinds_program l) = identities l.
Proof.
  unfold kinds_program, identities. rewrite map_flat_map. apply flat_map_ext. intros [f|s]; cbn [kinds_declaration].
  - unfold kinds_function, declared_in. cbn. rewrite map_app, map_map, kinds_declares. reflexivity.
  - apply kinds_declares.
Qed.

Lemma constant_true l n : In (n, true) (kinds_program l) -> constants_in l n = true.
Proof. intros H. apply existsb_exists. exists (n, true). split; [exact H|]. cbn. apply Pos.eqb_refl. Qed.
Lemma constant_false l n : NoDup (identities l) -> In (n, false) (kinds_program l) -> constants_in l n = false.
Proof.
  rewrite <- kinds_identities. unfold constants_in. intros D H. destruct (existsb _ _) eqn:E; [|reflexivity].
  apply existsb_exists in E as ([m b] & I & E). apply andb_prop in E as [-> E]. apply Pos.eqb_eq in E as ->.
  exfalso. induction (kinds_program l) as [|[x c] k IH]; [destruct H|]. cbn in D. inversion D as [|? ? N D']; subst.
  destruct H as [H|H], I as [I|I].
  - congruence.
  - injection H as -> ->. apply N. apply (in_map fst) in I. exact I.
  - injection I as -> ->. apply N. apply (in_map fst) in H. exact H.
  - exact (IH D' H I).
Qed.

(** ** Nothing is recorded *)

Section Consts.
Variable consts : positive -> bool.

Lemma fresh_type_of t t' : P_type (fun p => forall e, stands_for p e -> fresh consts (strip e) = true) t ->
  stands_for_type t t' -> fresh_type consts (strip_type t') = true.
Proof. intros H G. inversion G; subst; cbn in *; [reflexivity|]. apply H. assumption. Qed.
Lemma stands_fresh p : forall e, stands_for p e -> fresh consts (strip e) = true.
Proof.
  induction p using pexpr_induction; intros e' G; inversion G; subst; cbn [strip fresh absent andb].
  - erewrite IHp by eassumption. cbn. eapply fresh_type_of; eassumption.
  - erewrite IHp1, IHp2, IHp3 by eassumption. reflexivity.
  - erewrite IHp1, IHp2 by eassumption. reflexivity.
  - erewrite IHp by eassumption. reflexivity.
  - clear G. match goal with F : Forall2 _ _ _ |- _ => induction F as [|a b l l' R _ IH]; [reflexivity|] end.
    inversion_clear H as [|? ? Ha Hl]. cbn [map forallb]. rewrite (Ha _ R). cbn. apply IH. exact Hl.
  - reflexivity.
  - reflexivity.
Qed.
Lemma stands_fresh_type t t' : stands_for_type t t' -> fresh_type consts (strip_type t') = true.
Proof. apply fresh_type_of. destruct t as [k [w|]]; cbn; [|exact Logic.I]. apply stands_fresh. Qed.

Lemma stands_fresh_stmt : forall p s, stands_for_stmt p s ->
  (forall n b, In (n, b) (kinds s) -> consts n = b) -> fresh_stmt consts (strip_stmt s) = true.
Proof.
  assert (T : forall q t, both stands_for_type q t ->
            match option_map strip_type t with Some t => fresh_type consts t | None => true end = true).
  { intros q t H. inversion H; subst; cbn; [reflexivity|]. eapply stands_fresh_type. eassumption. }
  assert (O : forall q e, both stands_for q e ->
            match option_map strip e with Some t => fresh consts t | None => true end = true).
  { intros q t H. inversion H; subst; cbn; [reflexivity|]. eapply stands_fresh. eassumption. }
  assert (L : forall ps, Forall (fun p => forall s, stands_for_stmt p s ->
            (forall n b, In (n, b) (kinds s) -> consts n = b) -> fresh_stmt consts (strip_stmt s) = true) ps ->
            forall ss, Forall2 stands_for_stmt ps ss -> (forall n b, In (n, b) (flat_map kinds ss) -> consts n = b) ->
            forallb (fresh_stmt consts) (map strip_stmt ss) = true).
  { induction 1 as [|p ps Hp _ IH]; intros ss F K; inversion F; subst; [reflexivity|]. cbn [map forallb].
    rewrite (Hp _ ltac:(eassumption)); [apply IH; [assumption|]|]; intros n b I; apply K; cbn; apply in_or_app; auto. }
  induction p using pstmt_induction; intros s' G K; inversion G; subst; cbn [strip_stmt fresh_stmt absent andb].
  - rewrite (K n true) by (left; reflexivity). cbn [andb]. erewrite stands_fresh by eassumption. erewrite T by eassumption.
    reflexivity.
  - rewrite (K n false) by (left; reflexivity). cbn [andb negb]. erewrite T by eassumption. erewrite O by eassumption.
    reflexivity.
  - eapply stands_fresh. eassumption.
  - erewrite stands_fresh by eassumption. cbn [andb].
    match goal with B : both _ None _ |- _ => inversion B; subst end. cbn [fresh_stmt absent andb kinds] in *.
    rewrite app_nil_r in K. erewrite L by eassumption. reflexivity.
  - erewrite stands_fresh by eassumption. cbn [andb].
    match goal with B : both _ (Some _) _ |- _ => inversion B; subst end. cbn [fresh_stmt absent andb kinds] in *.
    erewrite L; [|eassumption|eassumption|intros n9 b9 I; apply K; apply in_or_app; left; exact I].
    cbn [andb]. apply IHp; [assumption|]. intros n9 b9 I. apply K. apply in_or_app. right. exact I.
  - erewrite stands_fresh by eassumption. cbn [andb kinds] in *. erewrite L by eassumption. reflexivity.
  - reflexivity.
  - reflexivity.
  - eapply O. eassumption.
  - erewrite stands_fresh by eassumption. reflexivity.
  - cbn [kinds] in *. erewrite L by eassumption. reflexivity.
  - eapply stands_fresh. eassumption.
Qed.
End Consts.

(** ** Calls *)

Lemma stands_plain p : forall e, stands_for p e -> every used_result p = true -> CodegenSpec.plain e = true.
Proof.
  induction p using pexpr_induction; intros e' G U; rewrite every_intro in U; inversion G; subst; cbn [CodegenSpec.plain];
    apply andb_prop in U as [U0 U].
  - apply andb_prop in U as [U _]. eapply IHp; eassumption.
  - apply andb_prop in U as [U U3]. apply andb_prop in U as [U1 U2].
    erewrite IHp1, IHp2, IHp3 by eassumption. reflexivity.
  - apply andb_prop in U as [U1 U2]. erewrite IHp1, IHp2 by eassumption. reflexivity.
  - eapply IHp; eassumption.
  - cbn in U0. rewrite U0. cbn [andb]. clear G.
    match goal with F : Forall2 _ _ _ |- _ => induction F as [|a b l l' R _ IH]; [reflexivity|] end.
    inversion_clear H as [|? ? Ha Hl]. cbn [forallb] in *. apply andb_prop in U as [U1 U2]. rewrite (Ha _ R U1). cbn. auto.
  - reflexivity.
  - reflexivity.
Qed.

Lemma stands_shaped : forall p s, stands_for_stmt p s -> call_statements p = true -> shaped s = true.
Proof.
  assert (L : forall ps, Forall (fun p => forall s, stands_for_stmt p s -> call_statements p = true -> shaped s = true) ps ->
            forall ss, Forall2 stands_for_stmt ps ss -> forallb call_statements ps = true -> forallb shaped ss = true).
  { induction 1 as [|p ps Hp _ IH]; intros ss F K; inversion F; subst; [reflexivity|]. cbn [forallb] in *.
    apply andb_prop in K as [K1 K2]. erewrite Hp by eassumption. cbn. auto. }
  induction p using pstmt_induction; intros s' G K; inversion G; subst; cbn [shaped]; try reflexivity.
  - cbn [call_statements stmt_expressions] in K. rewrite forallb_app in K. apply andb_prop in K as [_ K].
    match goal with B : both stands_for _ _ |- _ => inversion B; subst end; [reflexivity|]. cbn in K. rewrite andb_true_r in K.
    eapply stands_plain; eassumption.
  - cbn [call_statements] in K. rewrite andb_true_r in K. apply andb_prop in K as [K1 K2].
    erewrite stands_plain by eassumption. erewrite L by eassumption.
    match goal with B : both _ None _ |- _ => inversion B; subst end. reflexivity.
  - cbn [call_statements] in K. apply andb_prop in K as [K K3]. apply andb_prop in K as [K1 K2].
    erewrite stands_plain by eassumption. erewrite L by eassumption.
    match goal with B : both _ (Some _) _ |- _ => inversion B; subst end. cbn [andb]. eapply IHp; eassumption.
  - cbn [call_statements] in K. apply andb_prop in K as [K1 K2]. erewrite stands_plain by eassumption. erewrite L by eassumption.
    reflexivity.
  - cbn [call_statements stmt_expressions] in K.
    match goal with B : both stands_for _ _ |- _ => inversion B; subst end; [reflexivity|]. cbn in K. rewrite andb_true_r in K.
    eapply stands_plain; eassumption.
  - cbn [call_statements stmt_expressions forallb] in K. rewrite andb_true_r in K. eapply stands_plain; eassumption.
  - cbn [call_statements] in K. eapply L; eassumption.
  - cbn [call_statements] in K. destruct e; try discriminate K.
    match goal with B : stands_for _ _ |- _ => inversion B; subst end. apply andb_prop in K as [K1 K2]. rewrite K1. cbn [andb].
    match goal with F : Forall2 stands_for _ _ |- _ => clear - K2 F; induction F as [|a b l l' R _ IH]; [reflexivity|] end. cbn [forallb] in *. apply andb_prop in K2 as [U1 U2].
    rewrite (stands_plain _ _ R U1). cbn. auto.
Qed.

(** Types that need no calls. *)
Definition no_call (p : pexpr) : bool := negb (is_call p).
Lemma stands_call_free p : forall e, stands_for p e -> every no_call p = true -> call_free e = true.
Proof.
  induction p using pexpr_induction; intros e' G U; rewrite every_intro in U; inversion G; subst; cbn [call_free];
    apply andb_prop in U as [U0 U].
  - apply andb_prop in U as [U1 U2]. erewrite IHp by eassumption. cbn [andb].
    match goal with T : stands_for_type _ _ |- _ => inversion T; subst end; cbn in *; [reflexivity|].
    rewrite andb_true_r in U2. auto.
  - apply andb_prop in U as [U U3]. apply andb_prop in U as [U1 U2].
    erewrite IHp1, IHp2, IHp3 by eassumption. reflexivity.
  - apply andb_prop in U as [U1 U2]. erewrite IHp1, IHp2 by eassumption. reflexivity.
  - eapply IHp; eassumption.
  - discriminate.
  - reflexivity.
  - reflexivity.
Qed.
Lemma stands_call_free_type t t' : stands_for_type t t' -> forallb (every no_call) (type_expressions t) = true ->
  call_free_type t' = true.
Proof.
  intros H U. inversion H; subst; [reflexivity|]. cbn in *. rewrite andb_true_r in U. eapply stands_call_free; eassumption.
Qed.

(** ** Programs *)

Lemma forall2_in_r {A B} (R : A -> B -> Prop) l l' b : Forall2 R l l' -> In b l' -> exists a, In a l /\ R a b.
Proof.
  induction 1 as [|x y l l' H _ IH]; [intros []|]. intros [<-|I]; [exists x; cbn; auto|].
  destruct (IH I) as (a & I1 & I2). exists a. cbn. auto.
Qed.
Lemma in_functions l f : In f (functions_of l) <-> In (Decl_Function f) l.
Proof.
  unfold functions_of. rewrite in_flat_map. split.
  - intros ([g|s] & I & H); cbn in H; [destruct H as [->|[]]; exact I|destruct H].
  - intros H. exists (Decl_Function f). cbn. auto.
Qed.
Lemma in_statements l s : In s (statements_of l) <-> In (Decl_Statement s) l.
Proof.
  unfold statements_of. rewrite in_flat_map. split.
  - intros ([g|s1] & I & H); cbn in H; [destruct H|destruct H as [->|[]]; exact I].
  - intros H. exists (Decl_Statement s). cbn. auto.
Qed.

Lemma identities_parts l : Permutation (identities l)
  (map f_self (functions_of l) ++ flat_map declared_in (functions_of l) ++ flat_map declares (statements_of l)).
Proof.
  induction l as [|[f|s] l IH]; [constructor| |].
  - change (identities (Decl_Function f :: l)) with (f_self f :: declared_in f ++ identities l).
    change (functions_of (Decl_Function f :: l)) with (f :: functions_of l).
    change (statements_of (Decl_Function f :: l)) with (statements_of l). cbn [map flat_map app]. constructor.
    rewrite IH. rewrite <- app_assoc. apply Permutation_app_swap_app.
  - change (identities (Decl_Statement s :: l)) with (declares s ++ identities l).
    change (functions_of (Decl_Statement s :: l)) with (functions_of l).
    change (statements_of (Decl_Statement s :: l)) with (s :: statements_of l). cbn [flat_map].
    rewrite IH. rewrite Permutation_app_swap_app. apply Permutation_app_head. apply Permutation_app_swap_app.
Qed.

Lemma returns_ends p f : stands_for_function p f -> returns_at_end p = true -> ends_with_return f.
Proof.
  intros H R. inversion H as [x n an qs ts q t r e ps ss H1 H2 H3 H4]; subst. unfold returns_at_end in R. cbn [pf_body pf_return_type] in R.
  exists None, ss. split; [reflexivity|].
  assert (V : (match q with
      | PType tt_Void _ => forallb (fun s => match s with PReturn _ | PBreak | PContinue => false | _ => true end) ps
      | _ => false
      end) = true -> node_type t = tt_Void /\ forall s, In s ss -> match s with SControl _ _ _ => False | _ => True end).
  { intros F. destruct q as [k w]. destruct k; try discriminate F. split; [inversion H2; reflexivity|].
    intros s I. destruct (forall2_in_r _ _ _ _ H4 I) as (p & I2 & S). rewrite forallb_forall in F. apply F in I2.
    inversion S; subst; auto; discriminate. }
  destruct (rev ps) as [|p rest] eqn:E; [right; apply V; exact R|].
  destruct p; try (right; apply V; exact R). left.
  apply (f_equal (@rev pstmt)) in E. rewrite rev_involutive in E. cbn in E. subst ps.
  apply Forall2_app_inv_l in H4 as (l1 & l2 & _ & L2 & ->). inversion L2 as [|? ? ? ? S N]; subst. inversion N; subst.
  inversion S; subst. eauto.
Qed.

Lemma converted_source p l : Forall fine_declaration p -> simple_program p = true ->
  Forall2 stands_for_declaration p l -> NoDup (identities l) -> source_program (constants_in l) l.
Proof.
  intros Fine Simple Stands D.
  pose proof (Permutation_NoDup (identities_parts l) D) as D2.
  destruct (nodup_app _ _ _ D2) as (D3 & D4 & _). rewrite Forall_forall in Fine.
  unfold simple_program in Simple. rewrite forallb_forall in Simple.
  assert (K : forall d n b, In d l -> In (n, b) (kinds_declaration d) -> constants_in l n = b).
  { intros d n b I J. assert (M : In (n, b) (kinds_program l)) by (apply in_flat_map; eauto).
    destruct b; [apply constant_true; exact M|apply constant_false; assumption]. }
  split; [|split; [exact D3|split; [exact D4|]]].
  - intros f If. pose proof (proj1 (nodup_app _ _ _ D4)) as D5.
    assert (Df : NoDup (declared_in f)).
    { apply in_split in If as (a & b & E). rewrite E, flat_map_app in D5. cbn in D5. apply nodup_app in D5 as (_ & D5 & _).
      apply nodup_app in D5. apply D5. }
    apply in_functions in If. destruct (forall2_in_r _ _ _ _ Stands If) as (d & Id & S).
    inversion S as [p0 f0 S0|]; subst. specialize (Simple _ Id). cbn beta iota in Simple. unfold simple_function in Simple.
    apply andb_prop in Simple as [Simple Ret]. apply andb_prop in Simple as [Req Sig].
    pose proof (Fine _ Id) as (_ & Calls). cbn beta iota in Calls.
    pose proof (returns_ends _ _ S0 Ret) as Ends.
    assert (Kf : forall n b, In (n, b) (kinds_function f) -> constants_in l n = b) by (intros n b; apply (K _ _ _ If)).
    inversion S0 as [x n an qs ts q t r e ps ss H1 H2 H3 H4]; subst. cbn [signature_expressions pf_parameters pf_return_type] in Sig.
    rewrite forallb_app in Sig. apply andb_prop in Sig as [Sig1 Sig2]. cbn [pf_requires] in Req. destruct r; [discriminate|].
    inversion H3; subst. unfold source_function. cbn [f_cv f_requires f_generic f_address f_level f_params f_return f_body].
    do 5 (split; [reflexivity|]). split; [|split; [|split; [|split; [|split; [|split]]]]].
    + intros pr Ip. destruct (forall2_in_r _ _ _ _ H1 Ip) as (pq & Iq & Sq). inversion Sq as [y q2 t2 n2 T]; subst. cbn [p_type p_self].
      split; [eapply stands_fresh_type; exact T|]. split.
      * eapply stands_call_free_type; [exact T|]. rewrite forallb_flat, forallb_forall in Sig1. apply (Sig1 _ Iq).
      * apply Kf. right. cbn [f_params f_body]. apply in_or_app. left. apply in_map_iff. exists (Param y n2 t2). auto.
    + eapply stands_fresh_type. exact H2.
    + eapply stands_call_free_type; [exact H2|exact Sig2].
    + eapply (stands_fresh_stmt _ (PBlock ps)); [constructor; exact H4|].
      intros m b I. apply Kf. right. apply in_or_app. right. exact I.
    + eapply (stands_shaped (PBlock ps)); [constructor; exact H4|exact Calls].
    + exact Ends.
    + exact Df.
  - intros s Is. apply in_statements in Is. destruct (forall2_in_r _ _ _ _ Stands Is) as (d & Id & S).
    inversion S as [|p0 s0 S0]; subst. eapply stands_fresh_stmt; [exact S0|]. intros n b. apply (K _ _ _ Is).
Qed.

(** ** Generic functions *)

Lemma names_global p l : Forall2 stands_for_declaration p l ->
  forall x, In x (global_names p) -> In x (names (globals l)).
Proof.
  intros H x I. unfold names, globals. rewrite map_app. apply in_or_app. left. revert I.
  induction H as [|a b p l S _ IH]; [intros []|]. unfold global_names. cbn [flat_map]. rewrite map_app, !in_app_iff.
  intros [I|I]; [left|right; apply IH; exact I].
  inversion S as [q f F|q s F]; subst; inversion F; subst; cbn in *; intuition.
Qed.

Lemma params_not_generic ps ts (known : list text) :
  Forall2 stands_for_parameter ps ts ->
  (forall q k x, In q ps -> pp_type q = PType k (Some (PId x)) -> In x known) ->
  forall G, (forall x, In x known -> In x (names G)) ->
  forall ts' g G', resolved_params G ts ts' g G' -> g = false.
Proof.
  intros H K. induction H as [|q t ps ts S _ IH]; intros G I ts' g G' R; [inversion R; reflexivity|].
  inversion R as [|? x n t1 t' l l' g1 G2 N1 R1 R2|? x n cv k cv' y lk g0 w l l' g1 G2 N1 N2 R2]; subst.
  - eapply IH; [intros q0 k0 x0 I0; apply K; right; exact I0| |exact R2].
    intros z Iz. right. apply I. exact Iz.
  - exfalso. inversion S as [? q0 ? ? Q]; subst. inversion Q as [|? p0 e0 P0]; subst. inversion P0; subst.
    apply N2. right. apply I. eapply K; [left; reflexivity|]. reflexivity.
Qed.

Lemma converted_not_generic p l l' : Forall2 stands_for_declaration p l -> no_generics p -> name_lookup l = Ok l' ->
  forall f, In f (functions_of l') -> f_generic f = false.
Proof.
  intros H N L f If. apply name_lookup_iff in L as [_ L]. apply in_functions in If.
  destruct (forall2_in_r _ _ _ _ L If) as (d & Id & R). inversion R as [f0 f1 (ps & g & ret & req & body & G1 & G2 & R1 & _ & _ & _ & E)| |]; subst.
  destruct (forall2_in_r _ _ _ _ H Id) as (x & Ix & S). inversion S as [p0 f1 S0|]; subst.
  inversion S0; subst. cbn [f_generic orb f_params] in *.
  eapply params_not_generic; [eassumption| | |exact R1].
  - intros q9 k9 x9 I9 E9. eapply N; [exact Ix|exact I9|exact E9].
  - apply names_global. exact H.
Qed.
