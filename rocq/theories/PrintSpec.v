(** Which tree of the parser has the same structure as a tree of the program, and which trees are printed in
    a way that the parser understands. *)
From Coq Require Import ZArith Ascii String List Bool.
From Verif Require Import Prelude Text Literals LiteralsSpec Types Ops Tables Tokenizer TokenizerSpec Annotations Ast
  NameLookup Parse GrammarSpec.
Import ListNotations.
Open Scope string_scope.
Open Scope list_scope.
Open Scope Z_scope.

(** The operators of BMS. *)
Definition binary_token (k : expr_kind) : option token_type :=
  match k with
  | binary_plus => Some tk_plus | binary_minus => Some tk_minus | multiplication => Some tk_multiplication
  | division => Some tk_division | remainder => Some tk_remainder
  | equals => Some tk_equals | not_equals => Some tk_not_equals | less_than => Some tk_less_than
  | greater_than => Some tk_greater_than | less_or_equal => Some tk_less_or_equal
  | greater_or_equal => Some tk_greater_or_equal
  | shift_left => Some tk_shift_left | shift_right => Some tk_shift_right | bitwise_and => Some tk_bitwise_and
  | bitwise_or => Some tk_bitwise_or | bitwise_xor => Some tk_bitwise_xor
  | logical_and => Some tk_logical_and | logical_or => Some tk_logical_or
  | _ => None
  end.
Definition unary_token (k : expr_kind) : option token_type :=
  match k with
  | unary_plus => Some tk_plus | unary_minus => Some tk_minus | logical_not => Some tk_logical_not
  | bitwise_not => Some tk_bitwise_not
  | _ => None
  end.

(** What may be the name of something: a word that does not start with a digit and is not a keyword. *)
Definition is_name (x : text) : Prop :=
  (exists c r, x = c :: r /\ ~ (48 <= code c <= 57)) /\ Forall is_identifier_char x /\
  forall k q, keyword_spelling k = Some q -> x <> str q.

(** ** The same structure *)

(** [shows e p]: the expression [e] is one that a program can contain, and [p] is how the parser represents
    it: values and the results of name lookup are gone. *)
Inductive shows : expr -> pexpr -> Prop :=
| sh_conversion : forall cv e p t q, shows e p -> shows_type t q -> shows (EConversion cv e t) (PConversion p q)
| sh_if : forall cv l pl c pc r pr,
    shows l pl -> shows c pc -> shows r pr -> shows (EIf cv l c r) (PIf pl pc pr)
| sh_binary : forall cv op k l pl r pr,
    binary_token op = Some k -> shows l pl -> shows r pr -> shows (EBinary cv op l r) (PBinary k pl pr)
| sh_prefix : forall cv op k e p, unary_token op = Some k -> shows e p -> shows (EPrefix cv op e) (PPrefix k p)
| sh_call : forall cv x lk args ps,
    is_name x -> Forall2 shows args ps -> shows (ECall cv x lk false args) (PCall x ps [] false)
| sh_id : forall cv x lk g, is_name x -> shows (EId cv x lk g) (PId x)
| sh_number : forall cv t x ds, is_literal_text t x ds ->
    shows (ELiteral cv x (token_type_of t)) (PLiteral x (token_type_of t))
| sh_true : forall cv, shows (ELiteral cv (str "true") tk_keyword_true) (PLiteral (str "true") tk_keyword_true)
| sh_false : forall cv, shows (ELiteral cv (str "false") tk_keyword_false) (PLiteral (str "false") tk_keyword_false)
with shows_type : type_node -> ptype -> Prop :=
| sh_simple : forall cv k cw, k <> tt_Uint -> shows_type (Type_Node cv k None cw) (PType k None)
| sh_uint : forall cv w p cw, shows w p -> shows_type (Type_Node cv tt_Uint (Some w) cw) (PType tt_Uint (Some p)).

(** ** Conditions *)

(** [f] at every subexpression, the widths of types included. *)
Fixpoint every (f : pexpr -> bool) (p : pexpr) : bool :=
  f p &&
  match p with
  | PConversion e t => every f e && match t with PType _ (Some w) => every f w | PType _ None => true end
  | PIf a c b => every f a && every f c && every f b
  | PBinary _ a b => every f a && every f b
  | PPrefix _ e => every f e
  | PCall _ args _ _ => forallb (every f) args
  | PId _ | PLiteral _ _ => true
  end.

Definition comparison (p : pexpr) : bool :=
  match p with
  | PBinary k _ _ => existsb (token_type_eqb k) comparison_operators
  | _ => false
  end.
(** The operator [!]. *)
Definition negation (p : pexpr) : bool :=
  match p with PPrefix tk_logical_not _ => true | _ => false end.
(** The conversion of a binary expression. *)
Definition converts_operation (p : pexpr) : bool :=
  match p with PConversion (PBinary _ _ _) _ => true | _ => false end.

(** Without comparisons. *)
Definition plain (p : pexpr) : bool := every (fun q => negb (comparison q)) p.
(** A comparison of expressions without comparisons. *)
Definition outer_comparison (p : pexpr) : bool :=
  match p with
  | PBinary k a b => comparison p && plain a && plain b
  | _ => false
  end.
(** An expression without comparisons, or a comparison of such. *)
Definition simple (p : pexpr) : bool := plain p || outer_comparison p.
(** An if-expression whose parts are simple; if the last part is a comparison then the condition is one. *)
Definition outer_if (p : pexpr) : bool :=
  match p with
  | PIf a c b => simple a && simple c && simple b && implb (outer_comparison b) (outer_comparison c)
  | _ => false
  end.
(** The expressions that the parser is shown to recognise, given whether all operands are parenthesised. *)
Definition recognized (parenthesized : bool) (p : pexpr) : bool :=
  plain p || outer_comparison p || (negb parenthesized && outer_if p).

(** ** Statements and declarations *)

(** The type in a declaration. *)
Inductive shows_option : option type_node -> option ptype -> Prop :=
| so_none : shows_option None None
| so_some : forall t q, shows_type t q -> shows_option (Some t) (Some q).

(** Statements that the generator prints completely: without calls as statements, and without [else]
    blocks. *)
Inductive shows_stmt : stmt -> pstmt -> Prop :=
| ss_const : forall cv x self t q e p, is_name x -> shows_option t q -> shows e p ->
    shows_stmt (SConst cv x self t e) (PConst x [] q p)
| ss_let : forall cv x self t q e p, is_name x -> shows_option t q -> shows e p ->
    shows_stmt (SLet cv x self t (Some e)) (PLet x [] q (Some p))
| ss_let_uninitialized : forall cv x self t q, is_name x -> shows_type t q ->
    shows_stmt (SLet cv x self (Some t) None) (PLet x [] (Some q) None)
| ss_assert : forall cv e p, shows e p -> shows_stmt (SStatic_Assert cv e) (PStatic_Assert p)
| ss_if : forall cv c p cv' l ps, shows c p -> Forall2 shows_stmt l ps ->
    shows_stmt (SIf cv c (SBlock cv' l) None) (PIf_Statement [] p ps None)
| ss_else_if : forall cv c p cv' l ps cv2 c2 b2 e2 q, shows c p -> Forall2 shows_stmt l ps ->
    shows_stmt (SIf cv2 c2 b2 e2) q ->
    shows_stmt (SIf cv c (SBlock cv' l) (Some (SIf cv2 c2 b2 e2))) (PIf_Statement [] p ps (Some q))
| ss_while : forall cv c p cv' l ps, shows c p -> Forall2 shows_stmt l ps ->
    shows_stmt (SWhile cv c (SBlock cv' l)) (PWhile [] p ps)
| ss_break : forall cv, shows_stmt (SControl cv ctl_break None) PBreak
| ss_continue : forall cv, shows_stmt (SControl cv ctl_continue None) PContinue
| ss_return : forall cv, shows_stmt (SControl cv ctl_return None) (PReturn None)
| ss_return_value : forall cv e p, shows e p -> shows_stmt (SControl cv ctl_return (Some e)) (PReturn (Some p))
| ss_assign : forall cv x lk e p, is_name x -> shows e p -> shows_stmt (SAssign cv x lk e) (PAssignment x [] p)
| ss_block : forall cv l ps, Forall2 shows_stmt l ps -> shows_stmt (SBlock cv l) (PBlock ps).

Inductive shows_parameter : parameter -> pparameter -> Prop :=
| sp_intro : forall x self t q, is_name x -> shows_type t q -> shows_parameter (Param x self t) (PParam x q).

(** Functions without a [requires] clause. *)
Inductive shows_function : func -> pfunction -> Prop :=
| sf_intro : forall f ps q cv l body,
    is_name (f_name f) -> Forall2 shows_parameter (f_params f) ps -> shows_type (f_return f) q ->
    f_requires f = None -> f_body f = SBlock cv l -> Forall2 shows_stmt l body ->
    shows_function f (PFunc (f_name f) [] ps q None body).

Inductive shows_declaration : declaration -> pdecl -> Prop :=
| sd_const : forall cv x self t e q, shows_stmt (SConst cv x self t e) q ->
    shows_declaration (Decl_Statement (SConst cv x self t e)) (PD_Statement q)
| sd_assert : forall cv e q, shows_stmt (SStatic_Assert cv e) q ->
    shows_declaration (Decl_Statement (SStatic_Assert cv e)) (PD_Statement q)
| sd_function : forall f q, shows_function f q -> shows_declaration (Decl_Function f) (PD_Function q).

(** All expressions, the widths of types included. *)
Definition type_expressions (t : ptype) : list pexpr :=
  match t with PType _ (Some w) => [w] | PType _ None => [] end.
Definition option_expressions (t : option ptype) : list pexpr :=
  match t with Some t => type_expressions t | None => [] end.
Fixpoint stmt_expressions (s : pstmt) : list pexpr :=
  match s with
  | PConst _ _ t e => option_expressions t ++ [e]
  | PLet _ _ t e => option_expressions t ++ match e with Some e => [e] | None => [] end
  | PStatic_Assert e => [e]
  | PIf_Statement _ c b e =>
      c :: flat_map stmt_expressions b ++ match e with Some e => stmt_expressions e | None => [] end
  | PWhile _ c b => c :: flat_map stmt_expressions b
  | PBreak | PContinue => []
  | PReturn e => match e with Some e => [e] | None => [] end
  | PAssignment _ _ e => [e]
  | PBlock b => flat_map stmt_expressions b
  | PExpr e => [e]
  end.
Definition function_expressions (f : pfunction) : list pexpr :=
  flat_map (fun q => type_expressions (pp_type q)) (pf_parameters f) ++ type_expressions (pf_return_type f) ++
  match pf_requires f with Some e => [e] | None => [] end ++ flat_map stmt_expressions (pf_body f).
Definition declaration_expressions (x : pdecl) : list pexpr :=
  match x with PD_Function f => function_expressions f | PD_Statement s => stmt_expressions s end.
Definition program_expressions (l : list pdecl) : list pexpr := flat_map declaration_expressions l.

(** The expressions in the signatures of functions. *)
Definition signature_expressions (x : pdecl) : list pexpr :=
  match x with
  | PD_Function f => flat_map (fun q => type_expressions (pp_type q)) (pf_parameters f) ++ type_expressions (pf_return_type f)
  | PD_Statement _ => []
  end.

(** Nothing that is printed in a way that the tokenizer or the grammar do not understand. *)
Definition printable (parenthesized : bool) (p : pexpr) : bool :=
  every (fun q => negb (negation q)) p && (every (fun q => negb (converts_operation q)) p || parenthesized).
