(** What it means that a syntax tree is the tree of a parsed program, and programs of the shape that the
    parser builds.  This does not model code of the repository. *)
From Coq Require Import ZArith Ascii String List Bool.
From Verif Require Import Prelude Text Types Ops Tables AbsOps Annotations Ast Parse GrammarSpec NameLookup Programs PrintSpec.
Import ListNotations.
Open Scope string_scope.
Open Scope list_scope.
Open Scope Z_scope.

(** ** The same tree *)

(** [stands_for p e]: [e] has the structure of [p], and nothing is recorded in it: no types, no values and no
    results of name lookup. *)
Inductive stands_for : pexpr -> expr -> Prop :=
| sn_conversion : forall p e q t, stands_for p e -> stands_for_type q t ->
    stands_for (PConversion p q) (EConversion None e t)
| sn_if : forall p1 e1 p2 e2 p3 e3, stands_for p1 e1 -> stands_for p2 e2 -> stands_for p3 e3 ->
    stands_for (PIf p1 p2 p3) (EIf None e1 e2 e3)
| sn_binary : forall op k p1 e1 p2 e2, binary_token k = Some op -> stands_for p1 e1 -> stands_for p2 e2 ->
    stands_for (PBinary op p1 p2) (EBinary None k e1 e2)
| sn_prefix : forall op k p e, unary_token k = Some op -> stands_for p e ->
    stands_for (PPrefix op p) (EPrefix None k e)
| sn_call : forall x ps es annotations b, Forall2 stands_for ps es ->
    stands_for (PCall x ps annotations b) (ECall None x None b es)
| sn_id : forall x, stands_for (PId x) (EId None x None None)
| sn_literal : forall x k, stands_for (PLiteral x k) (ELiteral None x k)
with stands_for_type : ptype -> type_node -> Prop :=
| sn_simple : forall k, stands_for_type (PType k None) (Type_Node None k None None)
| sn_width : forall k p e, stands_for p e -> stands_for_type (PType k (Some p)) (Type_Node None k (Some e) None).

Inductive both {A B} (R : A -> B -> Prop) : option A -> option B -> Prop :=
| both_none : both R None None
| both_some : forall a b, R a b -> both R (Some a) (Some b).

Inductive stands_for_stmt : pstmt -> stmt -> Prop :=
| sn_const : forall x annotations q t p e n, both stands_for_type q t -> stands_for p e ->
    stands_for_stmt (PConst x annotations q p) (SConst None x n t e)
| sn_let : forall x annotations q t p e n, both stands_for_type q t -> both stands_for p e ->
    stands_for_stmt (PLet x annotations q p) (SLet None x n t e)
| sn_assert : forall p e, stands_for p e -> stands_for_stmt (PStatic_Assert p) (SStatic_Assert None e)
| sn_if_statement : forall annotations p e ps ss q s, stands_for p e -> Forall2 stands_for_stmt ps ss ->
    both stands_for_stmt q s ->
    stands_for_stmt (PIf_Statement annotations p ps q) (SIf None e (SBlock None ss) s)
| sn_while : forall annotations p e ps ss, stands_for p e -> Forall2 stands_for_stmt ps ss ->
    stands_for_stmt (PWhile annotations p ps) (SWhile None e (SBlock None ss))
| sn_break : stands_for_stmt PBreak (SControl None ctl_break None)
| sn_continue : stands_for_stmt PContinue (SControl None ctl_continue None)
| sn_return : forall p e, both stands_for p e -> stands_for_stmt (PReturn p) (SControl None ctl_return e)
| sn_assign : forall x annotations p e, stands_for p e ->
    stands_for_stmt (PAssignment x annotations p) (SAssign None x None e)
| sn_block : forall ps ss, Forall2 stands_for_stmt ps ss -> stands_for_stmt (PBlock ps) (SBlock None ss)
| sn_expression : forall p e, stands_for p e -> stands_for_stmt (PExpr p) (SExpr e).

Inductive stands_for_parameter : pparameter -> parameter -> Prop :=
| sn_parameter : forall x q t n, stands_for_type q t -> stands_for_parameter (PParam x q) (Param x n t).

(** Functions: not analysed, without address, and nothing says that they are generic. *)
Inductive stands_for_function : pfunction -> func -> Prop :=
| sn_function : forall x n annotations qs ts q t p e ps ss,
    Forall2 stands_for_parameter qs ts -> stands_for_type q t -> both stands_for p e ->
    Forall2 stands_for_stmt ps ss ->
    stands_for_function (PFunc x annotations qs q p ps) (Func x n None ts t e (SBlock None ss) false None unanalyzed).

Inductive stands_for_declaration : pdecl -> declaration -> Prop :=
| sn_decl_function : forall p f, stands_for_function p f -> stands_for_declaration (PD_Function p) (Decl_Function f)
| sn_decl_statement : forall p s, stands_for_stmt p s -> stands_for_declaration (PD_Statement p) (Decl_Statement s).

(** The identities of everything that is declared, in the order of the text. *)
Definition identities (l : list declaration) : list positive :=
  flat_map (fun d => match d with
                     | Decl_Function f => f_self f :: declared_in f
                     | Decl_Statement s => declares s
                     end) l.

(** ** Programs *)

(** The operator [>=]. *)
Definition greater_or_equal_used (p : pexpr) : bool :=
  match p with PBinary tk_greater_or_equal _ _ => true | _ => false end.
(** No expression of the program uses it. *)
Definition without_greater_or_equal (l : list pdecl) : bool :=
  forallb (every (fun p => negb (greater_or_equal_used p))) (program_expressions l).

(** What the parser builds: operators in their places, *)
Definition proper_operator (p : pexpr) : bool :=
  match p with
  | PBinary op _ _ => existsb (token_type_eqb op) binary_operators
  | PPrefix op _ => existsb (token_type_eqb op) unary_operators
  | _ => true
  end.
(** and calls that discard their results only as statements. *)
Definition used_result (p : pexpr) : bool := match p with PCall _ _ _ b => negb b | _ => true end.
Fixpoint call_statements (s : pstmt) : bool :=
  match s with
  | PIf_Statement _ c b e =>
      every used_result c && forallb call_statements b && match e with Some s1 => call_statements s1 | None => true end
  | PWhile _ c b => every used_result c && forallb call_statements b
  | PBlock b => forallb call_statements b
  | PExpr (PCall _ args _ b) => b && forallb (every used_result) args
  | PExpr _ => false
  | _ => forallb (every used_result) (stmt_expressions s)
  end.

(** ** Simple programs *)

Definition is_call (p : pexpr) : bool := match p with PCall _ _ _ _ => true | _ => false end.
(** The last statement of the body is [return]; or the function returns nothing, and there is no [return],
    [break] or [continue] outside of nested statements. *)
Definition returns_at_end (f : pfunction) : bool :=
  match rev (pf_body f) with
  | PReturn _ :: _ => true
  | _ =>
      match pf_return_type f with
      | PType tt_Void _ => forallb (fun s => match s with PReturn _ | PBreak | PContinue => false | _ => true end) (pf_body f)
      | _ => false
      end
  end.
(** A function without [requires] clause, whose parameter and return types need no calls, and that ends in
    [return]. *)
Definition simple_function (f : pfunction) : bool :=
  match pf_requires f with None => true | Some _ => false end
  && forallb (every (fun p => negb (is_call p))) (signature_expressions (PD_Function f))
  && returns_at_end f.
(** All functions are simple. *)
Definition simple_program (l : list pdecl) : bool :=
  forallb (fun x => match x with PD_Function f => simple_function f | PD_Statement _ => true end) l.
(** The names of functions and constants. *)
Definition global_names (l : list pdecl) : list text :=
  flat_map (fun x => match x with
                     | PD_Function f => [pf_name f]
                     | PD_Statement (PConst x _ _ _) => [x]
                     | PD_Statement _ => []
                     end) l.
(** No parameter is bit-generic: if the width of its type is just a name then it is the name of a function or
    constant. *)
Definition no_generics (l : list pdecl) : Prop :=
  forall f q k x, In (PD_Function f) l -> In q (pf_parameters f) -> pp_type q = PType k (Some (PId x)) ->
  In x (global_names l).
(** No width of a parameter type contains a call. *)
Definition plain_parameters (l : list pdecl) : bool :=
  forallb (fun x => match x with
                    | PD_Function f =>
                        forallb (every (fun p => negb (is_call p))) (flat_map (fun q => type_expressions (pp_type q)) (pf_parameters f))
                    | PD_Statement _ => true
                    end) l.
