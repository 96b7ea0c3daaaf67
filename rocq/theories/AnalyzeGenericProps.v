(** Theorems about calls of bit-generic functions (C70). *)
From Coq Require Import ZArith Ascii String List Bool Lia.
From Verif Require Import Prelude Types Ops Text Tables Tokenizer AbsOps Annotations Ast AstFacts Parse GrammarSpec VM Codegen Analyze NameLookup
  NameLookupSpec NameLookupProofs NameLookupProps Programs Sources SourcesProofs Convert ConvertSpec ConvertFacts ConvertSources
  FrontEndProps Instantiate InstantiateSpec InstantiateProofs InstantiateProps
  AnalyzeGeneric AnalyzeGenericSpec AnalyzeGenericProofs AnalyzeGenericCalls.
Import ListNotations.
Open Scope string_scope.
Open Scope list_scope.
Open Scope Z_scope.

(** * Programs before the analysis *)

Lemma new_stripped :
  (forall e, new_types (strip e) = new_types e /\ expr_cv (strip e) = expr_cv e) /\
  (forall t, new_type (strip_type t) = new_type t).
Proof.
  apply both_induction.
  - intros cv e t [IHe _] IHt. split; [|reflexivity]. change (new_types (strip e) && new_type (strip_type t) = new_types e && new_type t).
    rewrite IHe, IHt. reflexivity.
  - intros cv l c r [IHl _] [IHc _] [IHr _]. split; [|reflexivity].
    change (new_types (strip l) && new_types (strip c) && new_types (strip r) = new_types l && new_types c && new_types r).
    rewrite IHl, IHc, IHr. reflexivity.
  - intros cv op l r [IHl _] [IHr _]. split; [|reflexivity].
    change (new_types (strip l) && new_types (strip r) = new_types l && new_types r).
    rewrite IHl, IHr. reflexivity.
  - intros cv op e [IHe _]. split; [exact IHe|reflexivity].
  - intros cv name lk st args IH. split; [|reflexivity].
    change (forallb new_types (map strip args) = forallb new_types args).
    induction IH as [|a args [Ha _] _ IHl]; [reflexivity|]. cbn [map forallb]. rewrite Ha, IHl. reflexivity.
  - intros. split; reflexivity.
  - intros. split; reflexivity.
  - intros. reflexivity.
  - intros cv k e cw [IHe _].
    change (match cv with None => true | Some _ => false end && new_types (strip e) = match cv with None => true | Some _ => false end && new_types e).
    rewrite IHe. reflexivity.
Qed.

Lemma resolved_new : forall G e e', resolved G e e' -> new_types e' = new_types e /\ expr_cv e' = expr_cv e.
Proof.
  intros G e e' [S _]. destruct (proj1 new_stripped e) as [A1 A2], (proj1 new_stripped e') as [B1 B2].
  rewrite <- A1, <- A2, <- B1, <- B2, S. auto.
Qed.
Lemma resolved_type_new : forall G t t', resolved_type G t t' -> new_type t' = new_type t.
Proof. intros G t t' [S _]. rewrite <- (proj2 new_stripped t), <- (proj2 new_stripped t'), S. reflexivity. Qed.

Lemma resolved_stmt_new : forall G s s' G', resolved_stmt G s s' G' -> new_stmt s' = new_stmt s.
Proof.
  assert (O : forall G t t', resolved_opt (resolved_type G) t t' ->
    match t' with Some t => new_type t | None => true end = match t with Some t => new_type t | None => true end).
  { intros G [t|] [t'|] H; try contradiction; [exact (resolved_type_new _ _ _ H)|reflexivity]. }
  assert (P : forall G e e', resolved_opt (resolved G) e e' ->
    match e' with Some e => new_types e | None => true end = match e with Some e => new_types e | None => true end).
  { intros G [t|] [t'|] H; try contradiction; [exact (proj1 (resolved_new _ _ _ H))|reflexivity]. }
  apply (resolved_stmt_mut (fun G s s' G' => new_stmt s' = new_stmt s)
    (fun G l l' => forallb new_stmt l' = forallb new_stmt l)); intros; cbn [new_stmt forallb];
    repeat match goal with
    | H : resolved _ _ _ |- _ => apply resolved_new in H as [? _]
    | H : resolved_opt (resolved_type _) _ _ |- _ => apply O in H
    end; try congruence.
  - apply P in H1. destruct e, e'; congruence.
  - destruct e as [e|], e' as [e'|]; try contradiction; [|reflexivity]. apply resolved_new in H as [-> _]. reflexivity.
Qed.

Lemma stands_new :
  (forall e p, stands_for p e -> new_types e = true /\ expr_cv e = None) /\
  (forall t q, stands_for_type q t -> new_type t = true).
Proof.
  apply both_induction.
  - intros cv e t IHe IHt p H. inversion H; subst. split; [|reflexivity].
    change (new_types e && new_type t = true). apply andb_true_iff. split; [eapply IHe|eapply IHt]; eassumption.
  - intros cv l c r IHl IHc IHr p H. inversion H; subst. split; [|reflexivity].
    change (new_types l && new_types c && new_types r = true). rewrite !andb_true_iff.
    split; [split|]; [eapply IHl|eapply IHc|eapply IHr]; eassumption.
  - intros cv op l r IHl IHr p H. inversion H; subst. split; [|reflexivity].
    change (new_types l && new_types r = true). rewrite !andb_true_iff. split; [eapply IHl|eapply IHr]; eassumption.
  - intros cv op e IHe p H. inversion H; subst. split; [|reflexivity]. eapply IHe; eassumption.
  - intros cv name lk st args IH p H. inversion H as [| | | |x ps es an b F| |]; subst. split; [|reflexivity].
    change (forallb new_types args = true). clear H. revert ps F.
    induction IH as [|a args Ha _ IHl]; intros ps F; [reflexivity|]. inversion F; subst. cbn [forallb]. apply andb_true_iff.
    split; [eapply Ha; eassumption|eapply IHl; eassumption].
  - intros cv name lk g p H. inversion H; subst. split; reflexivity.
  - intros cv x k p H. inversion H; subst. split; reflexivity.
  - intros cv k cw q H. inversion H; subst. reflexivity.
  - intros cv k e cw IHe q H. inversion H; subst. change (new_types e = true). eapply IHe; eassumption.
Qed.

Lemma stands_stmt_new : forall s p, stands_for_stmt p s -> new_stmt s = true.
Proof.
  destruct stands_new as [He0 Ht]. assert (He : forall e p, stands_for p e -> new_types e = true) by (intros e p H; exact (proj1 (He0 e p H))).
  clear He0.
  assert (Ot : forall q t, both stands_for_type q t -> match t with Some t => new_type t | None => true end = true)
    by (intros q t H; inversion H; subst; [reflexivity|eapply Ht; eassumption]).
  assert (Oe : forall q t, both stands_for q t -> match t with Some t => new_types t | None => true end = true)
    by (intros q t H; inversion H; subst; [reflexivity|eapply He; eassumption]).
  induction s as [cv name self t e|cv name self t e|cv e|cv c b IHb|cv c b e IHb IHe|cv c b IHb
                 |cv t e|cv name lk e|cv l IH|e] using stmt_induction; intros p H; cbn [new_stmt].
  - inversion H; subst. rewrite !andb_true_iff. split; [split; [reflexivity|]|]; [eapply Ot|eapply He]; eassumption.
  - inversion H; subst. rewrite !andb_true_iff. split; [eapply Ot|eapply Oe]; eassumption.
  - inversion H; subst. eapply He; eassumption.
  - inversion H; subst. rewrite !andb_true_iff. split; [split; [eapply He; eassumption|]|reflexivity].
    apply (IHb (PBlock ps)). constructor. assumption.
  - inversion H; subst. rewrite !andb_true_iff. split; [split; [eapply He; eassumption|]|].
    + apply (IHb (PBlock ps)). constructor. assumption.
    + match goal with X : both _ _ (Some _) |- _ => inversion X; subst end. eapply IHe; eassumption.
  - inversion H; subst. rewrite !andb_true_iff. split; [eapply He; eassumption|]. apply (IHb (PBlock ps)). constructor. assumption.
  - inversion H; subst; try reflexivity. eapply Oe; eassumption.
  - inversion H; subst. eapply He; eassumption.
  - inversion H as [| | | | | | | | |ps ss F|]; subst. clear H. revert ps F. induction IH as [|s l Hs _ IHl]; intros ps F; [reflexivity|].
    inversion F; subst. cbn [forallb]. apply andb_true_iff. split; [eapply Hs; eassumption|eapply IHl; eassumption].
  - inversion H; subst. eapply He; eassumption.
Qed.

Lemma stands_function_new : forall p f, stands_for_function p f -> new_function f = true.
Proof.
  intros p f H. inversion H as [x n an qs ts q t r e ps ss F T R S]; subst. unfold new_function.
  cbn [f_params f_return f_requires f_body f_level level_index]. rewrite !andb_true_iff. repeat split.
  - clear -F. induction F as [|q t qs ts X _ IH]; [reflexivity|]. cbn [forallb]. apply andb_true_iff. split; [|exact IH].
    inversion X; subst. eapply (proj2 stands_new). eassumption.
  - eapply (proj2 stands_new). eassumption.
  - inversion R as [|a b X]; subst; [reflexivity|]. destruct (proj1 stands_new _ _ X) as [A B]. cbn. rewrite A, B. reflexivity.
  - apply (stands_stmt_new _ (PBlock ps)). constructor. exact S.
Qed.

Lemma resolved_params_new : forall G l l' g G', resolved_params G l l' g G' ->
  forallb (fun p => new_type (p_type p)) l' = forallb (fun p => new_type (p_type p)) l.
Proof.
  induction 1 as [G|G x n t t' l l' g G' N T _ IH|G x n cv k cv' y lk g0 w l l' g G' N1 N2 _ IH]; cbn [forallb p_type].
  - reflexivity.
  - rewrite IH, (resolved_type_new _ _ _ T). reflexivity.
  - rewrite IH. reflexivity.
Qed.

(** The source satisfies what the theorems below need. *)
Lemma source_ready : forall E ts p l l' next, parse ts = Some (Ok p) -> @convert_program E p = Ok l ->
  name_lookup l = Ok l' -> (forall x, In x (identities l') -> (x < next)%positive) ->
  table_ready (table_of l') next /\ (forall s, In (Decl_Statement s) l' -> new_stmt s = true).
Proof.
  intros E ts p l l' next P C L B. pose proof (C56_structure E p l C) as S.
  pose proof L as L0. apply C31_scoping_partial in L0 as [_ R]. split.
  - intros n f Tn. unfold table_of in Tn. apply find_some in Tn as [F Q]. apply Pos.eqb_eq in Q. subst n.
    pose proof (C64_source E ts p l l' f P C L F) as (D & U & _).
    split; [reflexivity|]. apply SourcesProofs.in_functions in F. split; [|split; [|auto]].
    + apply B. unfold identities. apply in_flat_map. exists (Decl_Function f). split; [exact F|left; reflexivity].
    + destruct (SourcesProofs.forall2_in_r _ _ _ _ _ _ R F) as (d & Hd & RD). inversion RD as [f0 ? RF| |]; subst.
      destruct (SourcesProofs.forall2_in_r _ _ _ _ _ _ S Hd) as (x & Hx & SF). inversion SF as [pf ? SP|]; subst.
      apply stands_function_new in SP. destruct RF as (params & g & ret & req & body & G1 & G2 & RP & RT & RR & RB & ->).
      unfold new_function in *. cbn [f_params f_return f_requires f_body f_level].
      rewrite (resolved_params_new _ _ _ _ _ RP), (resolved_type_new _ _ _ RT), (resolved_stmt_new _ _ _ _ RB).
      replace (new_requires req) with (new_requires (f_requires f0)); [exact SP|].
      destruct (f_requires f0), req; try contradiction; [|reflexivity]. cbn. apply resolved_new in RR as [-> ->]. reflexivity.
  - intros s F. destruct (SourcesProofs.forall2_in_r _ _ _ _ _ _ R F) as (d & Hd & RD).
    destruct (SourcesProofs.forall2_in_r _ _ _ _ _ _ S Hd) as (x & Hx & SF).
    assert (X : exists s0, d = Decl_Statement s0 /\ new_stmt s = new_stmt s0).
    { inversion RD as [| cv x0 n t t' e e' RT RE|cv e e' RE]; subst; eexists; (split; [reflexivity|]); cbn [new_stmt];
        apply resolved_new in RE as [-> _]; try reflexivity.
      destruct t, t'; try contradiction; [|reflexivity]. rewrite (resolved_type_new _ _ _ RT). reflexivity. }
    destruct X as (s0 & -> & ->). inversion SF; subst. eapply stands_stmt_new. eassumption.
Qed.

Lemma functions_new : forall l l' g f, scoped_program l l' -> NoDup (identities l) -> In f (functions_of l') ->
  g = table_of l' -> g (f_self f) = Some f.
Proof.
  intros l l' g f [_ R] D F ->.
  assert (Q : map f_self (functions_of l') = map f_self (functions_of l)).
  { clear F D. revert R. generalize (globals l). intros G R. induction R as [|d d' m m' X _ IH]; [reflexivity|].
    inversion X as [f0 f0' RF| |]; subst; try exact IH.
    change (f_self f0' :: map f_self (functions_of m') = f_self f0 :: map f_self (functions_of m)). f_equal; [|exact IH].
    destruct RF as (params & g & ret & req & body & G1 & G2 & _ & _ & _ & _ & ->). reflexivity. }
  assert (N : NoDup (map f_self (functions_of l'))).
  { rewrite Q. clear -D. unfold identities in D. induction l as [|[f|s] l IH]; cbn [flat_map] in D; [constructor| |].
    - change (NoDup (f_self f :: map f_self (functions_of l))). apply SourcesProofs.nodup_app in D as (D1 & D2 & D3). constructor; [|auto]. intros X. apply in_map_iff in X as (f' & X1 & X2).
      apply (D3 (f_self f)); [left; reflexivity|]. apply SourcesProofs.in_functions in X2. apply in_flat_map. exists (Decl_Function f').
      split; [exact X2|]. rewrite <- X1. left. reflexivity.
    - apply SourcesProofs.nodup_app in D as (D1 & D2 & D3). auto. }
  unfold table_of. clear -F N. induction (functions_of l') as [|h t IH]; [destruct F|]. cbn [map find] in *.
  inversion N as [|? ? N1 N2]; subst. destruct F as [->|F]; [rewrite Pos.eqb_refl; reflexivity|].
  destruct (Pos.eqb_spec (f_self f) (f_self h)) as [E|_]; [|auto]. exfalso. apply N1. rewrite <- E. apply in_map. exact F.
Qed.

(** * C70: Calls of bit-generic functions *)

(** The functions of programs that are accepted, and what becomes of the calls in them, in their constants and in
    their static assertions.  The program has been parsed, converted and resolved; identities from [next] on are not
    in use. *)
Section Accepted.
Variables (E : Type) (ts : list lexeme) (p : list pdecl) (l l' : list declaration) (next : positive).
Hypothesis Parsed : parse ts = Some (Ok p).
Hypothesis Converted : @convert_program E p = Ok l.
Hypothesis Resolved : name_lookup l = Ok l'.
Hypothesis Unused : forall x, In x (identities l') -> (x < next)%positive.
Variables (run_fuel fuel : nat) (items : list item) (g : gstate).
Hypothesis Accepted : analyze_generic run_fuel fuel (table_of l') next (items_of l') = Some (Ok (items, g)).

(** Each call of a bit-generic function in a constant or static assertion becomes the call of one of its instances,
    which has the widths of the arguments; all other calls lead where they led. *)
Theorem C70_constants :
  Forall2 (fun d i => match d, i with
                      | Decl_Function f, Item_Function n => n = f_self f
                      | Decl_Statement s, Item_Statement s' =>
                          Forall2 (served (table_of l') (g_instances g)) (calls_stmt s) (calls_stmt s')
                      | _, _ => False
                      end) l' items.
Proof.
  destruct (source_ready E ts p l l' next Parsed Converted Resolved Unused) as [Rd Ne].
  destruct (analysed_program _ _ Rd _ _ _ _ _ Accepted) as [_ H]. clear -H Ne. revert items H Ne. generalize (table_of l') as T. intros T items H Ne. revert items H.
  induction l' as [|d r IH]; intros items H; cbn [items_of map] in H; inversion H as [|x y a b X Y]; subst; constructor.
  - destruct d as [f|s], y as [n|s']; cbn [item_done] in X; try contradiction.
    + destruct X as [<- _]. reflexivity.
    + apply X. apply Ne. left. reflexivity.
  - apply IH; [|exact Y]. intros s I. apply Ne. right. exact I.
Qed.

(** Bit-generic functions stay as they are.  In all other functions, each call leads where it led or from a
    bit-generic function to one of its instances, and none leads to a bit-generic function. *)
Theorem C70_functions : forall f, In f (functions_of l') ->
  exists h, st_functions (g_st g) (f_self f) = Some h /\
    if f_generic f then h = f
    else f_generic h = false /\ calls_led (table_of l') (g_instances g) (calls_function f) (calls_function h) /\
         settled (table_of l') (calls_function h).
Proof.
  intros f F. destruct (source_ready E ts p l l' next Parsed Converted Resolved Unused) as [Rd Ne].
  destruct (analysed_program _ _ Rd _ _ _ _ _ Accepted) as [I H].
  pose proof (functions_new l l' _ f (proj1 (C31_scoping_partial _ _) Resolved) (C56_identities E p l Converted) F eq_refl) as Tf.
  destruct (iv_there _ _ _ I _ _ (or_introl Tf)) as (h & Eh). exists h. split; [exact Eh|].
  destruct (iv_origin _ _ _ I _ _ Eh) as (o & O & Gr & _).
  assert (o = f) by (eapply (iv_unique _ _ _ I); [exact O|left; exact Tf]). subst o. destruct Gr.
  destruct (f_generic f) eqn:Ge; [auto|]. split; [congruence|]. split.
  - unfold calls_function. repeat apply Forall2_app; assumption.
  - assert (A : all_settled (table_of l') g (f_self f)).
    { apply SourcesProofs.in_functions in F. clear -F H Tf Ge. revert items H.
      assert (Tf' : table_of l' (f_self f) = Some f) by exact Tf. clear Tf. revert F.
      generalize (table_of l') Tf'. intros T Tf. clear Tf'. induction l' as [|d r IH]; intros F items H; [destruct F|].
      cbn [items_of map] in H. inversion H as [|x y a b X Y]; subst. destruct F as [->|F]; [|eapply IH; eassumption].
      destruct y; [|contradiction]. destruct X as [_ X]. apply (X f); assumption. }
    destruct A as ((h1 & E1 & A1 & A2) & (h2 & E2 & A3) & (h3 & E3 & A4)).
    rewrite Eh in E1, E2, E3. injection E1 as <-. injection E2 as <-. injection E3 as <-.
    unfold settled, calls_function in *. repeat (apply Forall_app; split); assumption.
Qed.

(** The instances of a bit-generic function are instances of it with different widths; each is a function of the
    program, whose calls lead where they led in the instance or to instances of the functions that were called.
    Functions that are not bit-generic have no instances. *)
Theorem C70_instances : forall f, In f (functions_of l') ->
  if f_generic f then
    instances_of f (g_next g) (g_instances g (f_self f)) /\
    forall i, In i (g_instances g (f_self f)) ->
      table_of l' (f_self (i_function i)) = None /\
      exists h, st_functions (g_st g) (f_self (i_function i)) = Some h /\
        calls_led (table_of l') (g_instances g) (calls_function (i_function i)) (calls_function h)
  else g_instances g (f_self f) = [].
Proof.
  intros f F. destruct (source_ready E ts p l l' next Parsed Converted Resolved Unused) as [Rd Ne].
  destruct (analysed_program _ _ Rd _ _ _ _ _ Accepted) as [I H].
  pose proof (functions_new l l' _ f (proj1 (C31_scoping_partial _ _) Resolved) (C56_identities E p l Converted) F eq_refl) as Tf.
  destruct (f_generic f) eqn:Ge.
  - split; [exact (iv_list _ _ _ I _ _ Tf Ge)|]. intros i J. split; [exact (fresh_instance _ _ Rd _ _ _ I J)|].
    assert (O : origin (table_of l') g (f_self (i_function i)) (i_function i)) by (right; exists (f_self f), i; auto).
    destruct (iv_there _ _ _ I _ _ O) as (h & Eh). exists h. split; [exact Eh|].
    destruct (iv_origin _ _ _ I _ _ Eh) as (o & O' & Gr & _).
    assert (o = i_function i) by (eapply (iv_unique _ _ _ I); eassumption). subst o. destruct Gr.
    unfold calls_function. repeat apply Forall2_app; assumption.
  - destruct (g_instances g (f_self f)) as [|i r] eqn:X; [reflexivity|]. exfalso.
    destruct (iv_inst _ _ _ I (f_self f) i) as (f' & A & B); [rewrite X; left; reflexivity|]. rewrite Tf in A. injection A as <-. congruence.
Qed.
End Accepted.

(** Programs in which no bit-generic function is called are analysed as in [Analyze.v], to which the theorems
    about constants, types and code belong; there, such calls have the answer [outside_model]. *)
Theorem C70_conservative : forall run_fuel fuel table next items,
  analyze_program run_fuel fuel table items = Some (Err outside_model) \/
  match analyze_program run_fuel fuel table items, analyze_generic run_fuel fuel table next items with
  | None, None => True
  | Some (Ok (l, st)), Some (Ok (l', g)) => l' = l /\ g_st g = st /\ forall n, g_instances g n = []
  | Some (Err e), Some (Err e') => e' = ge_analysis e
  | Some Abort, Some Abort => True
  | Some UB, Some UB => True
  | _, _ => False
  end.
Proof.
  intros rf fuel table next items.
  destruct (agrees_items rf fuel items (GState (State table (fun _ => None) vm_new []) (fun _ => []) (fun _ => None) next)) as [H|H];
    [intros n; reflexivity|left; exact H|right].
  unfold analyze_program, analyze_generic. rewrite H. cbn [g_st].
  destruct (an_items rf fuel items (State table (fun _ => None) vm_new [])) as [[[l st]|e| |]|]; cbn [raise]; auto.
Qed.

(** * Examples and counterexamples *)

(** The answer of the analysis: the constants and what each function is called with. *)
Definition answer (source : string) : option (outcome generic_error (list item * list (list (list Z)))) :=
  match looked_up source with
  | Some l =>
      match analyze_generic 1000 20 (table_of l) 50 (items_of l) with
      | Some (Ok (items, g)) => Some (Ok (items, map (fun f => map i_widths (g_instances g (f_self f))) (functions_of l)))
      | Some (Err e) => Some (Err e)
      | Some Abort => Some Abort
      | Some UB => Some UB
      | None => None
      end
  | None => None
  end.

(** Constants from a bit-generic function with two widths, one of them twice. *)
Definition doubled : string :=
  "function f(x: Uint(N)) -> Uint(N) { return x + (N as Uint(N)); } const c = f(3 as Uint(8)); const d = f(3 as Uint(4)); static_assert(f(1 as Uint(8)) == (9 as Uint(8))); ".
Example C70_doubled :
  match answer doubled with
  | Some (Ok ([Item_Function f; Item_Statement (SConst (Some c) _ _ _ (ECall _ _ (Some (LNode DFunction n1)) _ _));
               Item_Statement (SConst (Some d) _ _ _ (ECall _ _ (Some (LNode DFunction n2)) _ _)); Item_Statement (SStatic_Assert _ _)], w)) =>
      c = AV (TUint 8) (Some 11) /\ d = AV (TUint 4) (Some 7) /\ n1 <> f /\ n2 <> f /\ n1 <> n2 /\ w = [[[8]; [4]]]
  | _ => False
  end.
Proof. vm_compute. repeat split; discriminate. Qed.

(** Arguments must have types [Uint]. *)
Example C70_integer : answer "const d = f(3); function f(x: Uint(N)) -> Uint(N) { return x; } " = Some (Err ge_width_deduction_from_non_uint).
Proof. vm_compute. reflexivity. Qed.

(** Full statement: the body of each instance that is called has been checked.  It is false: the function [f] returns
    a boolean, its result is [Uint(8)], and the program is accepted if [f] is declared before [g], but
    not if [g] comes first. *)
Definition unchecked_f : string := "function f(x: Uint(N)) -> Uint(N) { return true; } ".
Definition unchecked_g : string := "function g(y: Uint(8)) -> Uint(8) { return f(y); } ".
Theorem C70_checked_refuted : exists f g, 
  match answer (f ++ g) with Some (Ok (_, [w; []])) => w = [[8]] | _ => False end /\
  answer (g ++ f) = Some (Err (ge_analysis a_incompatible_types)).
Proof. exists unchecked_f, unchecked_g. split; vm_compute; reflexivity. Qed.
(** The instance that [g] calls has been analysed as far as its parameters and result only. *)
Example C70_unchecked :
  match looked_up (unchecked_f ++ unchecked_g) with
  | Some l =>
      match analyze_generic 1000 20 (table_of l) 50 (items_of l) with
      | Some (Ok (_, g)) => option_map f_level (st_functions (g_st g) 50) = Some shallow
      | _ => False
      end
  | None => False
  end.
Proof. vm_compute. reflexivity. Qed.

(** * Assumptions of the theorems above *)
Print Assumptions C70_constants.
Print Assumptions C70_functions.
Print Assumptions C70_instances.
Print Assumptions C70_conservative.
Print Assumptions C70_checked_refuted.
