(** Final theorems about name lookup: property C31. *)
From Coq Require Import ZArith Ascii String List Bool Lia.
From Verif Require Import Prelude Types Ops Text Tables AbsOps VM Ast Codegen SourceSem CodegenSpec Analyze Programs
  NameLookup NameLookupSpec NameLookupProofs Sources SourcesProofs AcceptedSpec.
Import ListNotations.
Open Scope string_scope.
Open Scope list_scope.
Open Scope Z_scope.

(** C31: lookup yields a program if and only if it is the given one, scoped lexically and without shadowing:
    every use leads to the one visible declaration of its name.
    Missing: declarations are visible in their own initialisers already ([C31_own_initialiser_refuted]), and
    some programs abort instead of being rejected ([C31_abort_refuted]). *)
Theorem C31_scoping_partial : forall l l', name_lookup l = Ok l' <-> scoped_program l l'.
Proof. exact name_lookup_iff. Qed.

(** There is only one way to resolve the names of a program. *)
Theorem C31_unique : forall l l1 l2, scoped_program l l1 -> scoped_program l l2 -> l1 = l2.
Proof. intros l l1 l2 H1 H2. apply name_lookup_iff in H1, H2. congruence. Qed.

(** The names of the declarations that are visible at the same time are distinct. *)
Theorem C31_no_shadowing : forall G s s' G', resolved_stmt G s s' G' -> NoDup (names G) ->
  NoDup (names G') /\ forall x d, In (x, d) G -> In (x, d) G'.
Proof.
  intros G s s' G' H. induction H; intros N; try (split; [exact N|auto]).
  - split; [constructor; assumption|]. intros. right. assumption.
  - split; [constructor; assumption|]. intros. right. assumption.
  - apply IHresolved_stmt. exact N.
  - destruct (IHresolved_stmt1 N) as [N1 H3]. destruct (IHresolved_stmt2 N1) as [N2 H4]. split; [exact N2|auto].
  - apply IHresolved_stmt. exact N.
Qed.

(** A program is only rejected if it cannot be scoped. *)
Theorem C31_rejected : forall l e, name_lookup l = Err e -> forall l', ~ scoped_program l l'.
Proof. intros l e H l' S. apply name_lookup_iff in S. congruence. Qed.

(** Lookup ends with a program or an error, unless there is a call in the width of a parameter type. *)
Theorem C31_defined_partial : forall l,
  Forall (fun d => is_global_declaration d = true /\ plain_widths d = true) l -> defined (name_lookup l).
Proof. exact name_lookup_defined. Qed.

(** Programs as the parser leaves them are, after lookup, ready for analysis as the theorems in [AcceptedProps]
    require it.
    Missing: generic functions, [requires] clauses, calls in widths of parameter types, functions that do not
    end in [return]. *)
Theorem C31_ready_partial : forall consts l l' st, source_program consts l -> name_lookup l = Ok l' ->
  (forall f, In f (functions_of l') -> f_generic f = false) ->
  (exists rf fuel items, analyze_program rf fuel (table_of l') (items_of l') = Some (Ok (items, st))) ->
  passes consts (table_of l') (items_of l') st.
Proof.
  intros consts l l' st Hs Hl Hg Ha. split; [|exact Ha]. eapply lookup_ready; [exact Hs|apply name_lookup_iff; exact Hl|exact Hg].
Qed.

(** ** Examples *)

Definition s_id (x : string) : expr := EId None (str x) None None.
Definition s_lit (x : string) : expr := ELiteral None (str x) tk_decimal_literal.
Definition s_call (x : string) (args : list expr) : expr := ECall None (str x) None false args.
Definition s_Int : type_node := Type_Node None tt_Int None None.
Definition s_Uint (e : expr) : type_node := Type_Node None tt_Uint (Some e) None.
Definition s_let (x : string) (n : positive) (e : expr) : stmt := SLet None (str x) n (Some s_Int) (Some e).
Definition s_ret (e : expr) : stmt := SControl None ctl_return (Some e).
Definition s_fun (x : string) (n : positive) (params : list parameter) (body : list stmt) : func :=
  Func (str x) n None params s_Int None (SBlock None body) false None unanalyzed.
Definition s_const (x : string) (n : positive) (e : expr) : declaration :=
  Decl_Statement (SConst None (str x) n None e).

(** The uses of names in a function body, in order. *)
Fixpoint uses_stmt (s : stmt) : list (text * option lookup) :=
  match s with
  | SConst _ _ _ _ e | SStatic_Assert _ e | SExpr e => uses e
  | SLet _ _ _ _ e | SControl _ _ e => match e with Some e1 => uses e1 | None => [] end
  | SIf _ c b e => uses c ++ uses_stmt b ++ match e with Some s1 => uses_stmt s1 | None => [] end
  | SWhile _ c b => uses c ++ uses_stmt b
  | SAssign _ x lk e => (x, lk) :: uses e
  | SBlock _ l => flat_map uses_stmt l
  end.
Definition body_uses (o : outcome lookup_error (list declaration)) : list (list (text * option lookup)) :=
  match o with
  | Ok l => map (fun f => uses_stmt (f_body f)) (functions_of l)
  | _ => []
  end.

(** [fn f(x: Int) -> Int { let y: Int = c; { let z: Int = y; } { let z: Int = g(x); y = z; } return y; }
    const c = 1; fn g(x: Int) -> Int { return x; }] *)
Definition q_scopes : list declaration :=
  [Decl_Function (s_fun "f" 1 [Param (str "x") 2 s_Int]
     [s_let "y" 3 (s_id "c"); SBlock None [s_let "z" 4 (s_id "y")];
      SBlock None [s_let "z" 5 (s_call "g" [s_id "x"]); SAssign None (str "y") None (s_id "z")];
      s_ret (s_id "y")]);
   s_const "c" 6 (s_lit "1");
   Decl_Function (s_fun "g" 7 [Param (str "x") 8 s_Int] [s_ret (s_id "x")])].
Example C31_example_scopes : body_uses (name_lookup q_scopes) =
  [[(str "c", Some (LNode DConst 6)); (str "y", Some (LNode DLet 3)); (str "g", Some (LNode DFunction 7));
    (str "x", Some (LParameter 2)); (str "y", Some (LNode DLet 3)); (str "z", Some (LNode DLet 5));
    (str "y", Some (LNode DLet 3))];
   [(str "x", Some (LParameter 8))]].
Proof. vm_compute. reflexivity. Qed.

(** It is as the parser leaves it, and so ready for analysis after lookup. *)
Example C31_example_source : source_program (Pos.eqb 6) q_scopes.
Proof.
  assert (N : forall l : list positive, nodup Pos.eq_dec l = l -> NoDup l) by (intros l <-; apply NoDup_nodup).
  split; [|split; [|split]].
  - intros f [<-|[<-|[]]].
    + repeat (split; [first [reflexivity|intros p [<-|[]]; repeat split; reflexivity]|]). split; [|apply N; reflexivity].
      do 2 eexists. split; [reflexivity|]. left. eexists [_; _; _], _, _. reflexivity.
    + repeat (split; [first [reflexivity|intros p [<-|[]]; repeat split; reflexivity]|]). split; [|apply N; reflexivity].
      do 2 eexists. split; [reflexivity|]. left. eexists [], _, _. reflexivity.
  - apply N. reflexivity.
  - apply N. reflexivity.
  - intros s [<-|[]]. reflexivity.
Qed.

(** Redeclaration of a visible name, and the use of an unknown one, are errors. *)
Example C31_example_rejected :
  name_lookup [Decl_Function (s_fun "f" 1 [Param (str "x") 2 s_Int] [SBlock None [s_let "x" 3 (s_lit "1")]])]
  = Err (Lookup_Error failed_to_define_variable (Some (LParameter 2)))
  /\ name_lookup [Decl_Function (s_fun "f" 1 [] [SBlock None [s_let "x" 3 (s_lit "1")]; s_ret (s_id "x")])]
     = Err (Lookup_Error reference_to_undefined_variable None).
Proof. vm_compute. auto. Qed.

(** [fn f(x: Uint(N), y: Uint(N)) -> Int { return N; }]: the first [N] is a declaration. *)
Example C31_example_generic :
  match name_lookup [Decl_Function (s_fun "f" 1 [Param (str "x") 2 (s_Uint (s_id "N")); Param (str "y") 3 (s_Uint (s_id "N"))]
                       [s_ret (s_id "N")])] with
  | Ok [Decl_Function f] => (f_generic f, map (fun p => uses_type (p_type p)) (f_params f), uses_stmt (f_body f))
  | _ => (false, [], [])
  end = (true, [[(str "N", None)]; [(str "N", Some (LNode DWidth 2))]], [(str "N", Some (LNode DWidth 2))]).
Proof. vm_compute. reflexivity. Qed.

(** [fn f() -> Int { let x: Int = x; return x; }]: the use in the initialiser leads to the variable that is
    being declared, not to an earlier declaration.  (Analysis rejects it.) *)
Theorem C31_own_initialiser_refuted : exists l l' f, name_lookup l = Ok l' /\ functions_of l' = [f]
  /\ f_body f = SBlock None [SLet None (str "x") 2 (Some s_Int) (Some (EId None (str "x") (Some (LNode DLet 2)) None));
                             s_ret (EId None (str "x") (Some (LNode DLet 2)) None)].
Proof.
  exists [Decl_Function (s_fun "f" 1 [] [s_let "x" 2 (s_id "x"); s_ret (s_id "x")])].
  eexists. eexists. split; [vm_compute; reflexivity|]. split; reflexivity.
Qed.

(** [fn f(x: Uint(g())) -> Int { return 1; }] without a function [g]: an assertion fails. *)
Theorem C31_abort_refuted : exists l, Forall (fun d => is_global_declaration d = true) l /\ name_lookup l = Abort.
Proof.
  exists [Decl_Function (s_fun "f" 1 [Param (str "x") 2 (s_Uint (s_call "g" []))] [s_ret (s_lit "1")])].
  split; [repeat constructor|vm_compute; reflexivity].
Qed.

(** * Assumptions of the theorems above *)
Print Assumptions C31_scoping_partial.
Print Assumptions C31_unique.
Print Assumptions C31_no_shadowing.
Print Assumptions C31_rejected.
Print Assumptions C31_defined_partial.
Print Assumptions C31_ready_partial.
Print Assumptions C31_own_initialiser_refuted.
Print Assumptions C31_abort_refuted.
