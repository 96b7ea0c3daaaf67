(** The generator of BMS code.  Models src/bmd/codegen/codegen_bms.cpp; [append_value] and [append_type] there are
    not used.  [generate_code] for a node that is passed by address is the function for its alternative. *)
From Coq Require Import ZArith Ascii String List Bool.
From Verif Require Import Prelude Types Ops Text Tables AbsOps Ast NameLookup CodeString GenBase.
Import ListNotations.
Open Scope string_scope.
Open Scope list_scope.
Open Scope gen_scope.

(** [std::is_lteq] (used at src/bmd/codegen/codegen_bms.cpp:107). *)
Definition is_lteq (c : partial_ordering) : bool :=
  match c with po_less | po_equivalent => true | po_greater | po_unordered => false end.

(** [needs_parentheses] (src/bmd/codegen/codegen_bms.cpp:102-107). *)
Definition needs_parentheses (outer inner : expr_kind) : bool := negb (is_lteq (compare_precedence outer inner)).

Section Options.
Variable o : code_options.

(** [write_keyword] (src/bmd/codegen/codegen_bms.cpp:87-90, generator_base.hpp:186-189). *)
Definition keyword (t : token_type) : gen := put_span (token_type_code_name t) sp_keyword.
(** [write_infix_operator] (src/bmd/codegen/codegen_bms.cpp:92-95). *)
Definition infix (t : token_type) (k : span_type) : gen := write_infix (token_type_code_name t) k.

(** The visitors for expressions (src/bmd/codegen/codegen_bms.cpp:410-504), [Type] (174-194) and
    [generate_subexpression] with this [needs_parentheses]. *)
Fixpoint bms_expr (e : expr) : gen :=
  match e with
  | EConversion _ x t =>
      attempt
        (subexpression o needs_parentheses conversion x (bms_expr x) ;;
         infix tk_keyword_as sp_keyword ;;
         bms_type t)
  | EIf _ l c r =>
      attempt
        (subexpression o needs_parentheses if_expression l (bms_expr l) ;;
         infix tk_keyword_if sp_keyword ;;
         subexpression o needs_parentheses if_expression c (bms_expr c) ;;
         infix tk_keyword_else sp_keyword ;;
         subexpression o needs_parentheses if_expression r (bms_expr r))
  | EBinary _ op l r =>
      attempt
        (subexpression o needs_parentheses op l (bms_expr l) ;;
         infix (expression_type_token op) sp_operation ;;
         subexpression o needs_parentheses op r (bms_expr r))
  | EPrefix _ op x =>
      put_span (token_type_code_name (expression_type_token op)) sp_operation ;;
      subexpression o needs_parentheses op x (bms_expr x)
  | ECall _ name _ is_statement args =>
      attempt
        ((if is_statement then write_indent o else done) ;;
         put_span name sp_identifier ;;
         parens (separated true (map bms_expr args)))
  | EId _ name _ _ => put_span name sp_identifier
  | ELiteral _ lit _ => put_span lit sp_number
  end
with bms_type (t : type_node) : gen :=
  match t with
  | Type_Node _ tt_Uint width _ =>
      attempt
        (put_span (type_type_name tt_Uint) sp_keyword ;;
         parens (match width with Some w => bms_expr w | None => aborts end))
  | Type_Node _ k _ _ => put_span (type_type_name k) sp_keyword
  end.

(** A type annotation (src/bmd/codegen/codegen_bms.cpp:205-211, 231-237). *)
Definition bms_annotation (t : option type_node) : gen :=
  match t with
  | Some t => put_char_span ":" sp_punctuation ;; put_char " " ;; bms_type t
  | None => done
  end.

(** The visitors for statements (src/bmd/codegen/codegen_bms.cpp:196-408). Where the code expects a block,
    anything else is an access to the wrong alternative, which throws. *)
Fixpoint bms_stmt (s : stmt) : gen :=
  match s with
  | SConst _ name _ type init =>
      attempt
        (write_indent o ;; keyword tk_keyword_const ;; put_char " " ;; put_span name sp_identifier ;;
         bms_annotation type ;; infix tk_assign sp_operation ;; bms_expr init ;; write_semicolon)
  | SLet _ name _ type init =>
      attempt
        (write_indent o ;; keyword tk_keyword_let ;; put_char " " ;; put_span name sp_identifier ;;
         bms_annotation type ;;
         (match init with
          | Some e => infix tk_assign sp_operation ;; bms_expr e
          | None => done
          end) ;;
         write_semicolon)
  | SStatic_Assert _ e =>
      attempt
        (write_indent o ;; keyword tk_keyword_static_assert ;; parens (bms_expr e) ;; write_semicolon)
  | SIf _ c b e =>
      attempt
        (write_indent o ;; keyword tk_keyword_if ;; put_char " " ;; bms_expr c ;;
         separate_after_if o ;;
         (match b with SBlock _ _ => bms_stmt b | _ => aborts end) ;;
         (match e with
          | None => done
          | Some x =>
              match x with
              | SIf _ _ _ _ => write_indent o ;; keyword tk_keyword_else ;; put_char " " ;; bms_stmt x
              | SBlock _ _ => bms_stmt x
              | _ => aborts
              end
          end))
  | SWhile _ c b =>
      attempt
        (write_indent o ;; keyword tk_keyword_while ;; put_char " " ;; bms_expr c ;;
         separate_after_if o ;;
         (match b with SBlock _ _ => bms_stmt b | _ => aborts end))
  | SControl _ t e =>
      attempt
        (write_indent o ;; keyword (control_token t) ;;
         (match e with
          | Some x => put_char " " ;; bms_expr x
          | None => done
          end) ;;
         write_semicolon)
  | SAssign _ name _ e =>
      attempt
        (write_indent o ;; put_span name sp_identifier ;; infix tk_assign sp_operation ;; bms_expr e ;;
         write_semicolon)
  | SBlock _ l =>
      attempt
        (put_span (str "{") sp_bracket ;; end_line ;;
         indented (lines (map bms_stmt l)) ;;
         write_indent o ;; put_span (str "}") sp_bracket)
  | SExpr e => bms_expr e
  end.

(** One parameter (src/bmd/codegen/codegen_bms.cpp:148-158). *)
Definition bms_parameter (p : parameter) : gen :=
  put_span (p_name p) sp_identifier ;; put_char_span ":" sp_punctuation ;; put_char " " ;; bms_type (p_type p).

(** Functions (src/bmd/codegen/codegen_bms.cpp:141-172). *)
Definition bms_function (f : func) : gen :=
  attempt
    (write_indent o ;; keyword tk_keyword_function ;; put_char " " ;; put_span (f_name f) sp_identifier ;;
     parens (separated true (map bms_parameter (f_params f))) ;;
     infix tk_right_arrow sp_punctuation ;; bms_type (f_return f) ;;
     separate_after_function o ;;
     (match f_body f with SBlock _ _ => bms_stmt (f_body f) | _ => aborts end)).

(** [generate_code] for a child of the program (src/bmd/codegen/codegen_bms.cpp:506-509). *)
Definition bms_declaration (d : declaration) : gen :=
  match d with
  | Decl_Function f => bms_function f
  | Decl_Statement s => bms_stmt s
  end.

(** The loop of the visitor for [Program] (src/bmd/codegen/codegen_bms.cpp:119-134). The inner attempt covers
    the empty line too; it is undone when the declaration is empty, and when there is an error. *)
Fixpoint bms_declarations (first : bool) (l : list declaration) : gen :=
  match l with
  | [] => done
  | d :: rest => fun s =>
      match attempt ((if first then done else end_line ;; end_line) ;; bms_declaration d) s with
      | (s1, Ok _) => bms_declarations false rest s1
      | (s1, Err ge_empty) => bms_declarations first rest s1
      | r => r
      end
  end.

(** The visitor for [Program] (src/bmd/codegen/codegen_bms.cpp:114-139). *)
Definition bms_program (l : list declaration) : gen := attempt (bms_declarations true l ;; end_line).
End Options.

(** [generate_bms_code] (src/bmd/codegen/codegen_bms.cpp:513-518): the new output and the result. *)
Definition generate_bms_code (o : code_options) (l : list declaration) (out : code_string)
  : code_string * outcome generator_error unit :=
  let '(s, r) := bms_program o l (GS out 0 true) in (g_out s, r).
