(** The generator of C and C++ code.  Models src/bmd/codegen/codegen_c_cpp.cpp. *)
From Coq Require Import ZArith Ascii String List Bool.
From Verif Require Import Prelude Types Ops Text Tables AbsOps Ast NameLookup CodeString Decimal GenBase.
Import ListNotations.
Open Scope string_scope.
Open Scope list_scope.
Open Scope gen_scope.

(** [C_Cpp_Precedence_Group] (src/bmd/codegen/codegen_c_cpp.cpp:27-42). *)
Inductive c_group : Type :=
| cg_conditional | cg_logical_or | cg_logical_and | cg_bitwise_or | cg_bitwise_xor | cg_bitwise_and
| cg_equality | cg_relational | cg_shift | cg_additive | cg_multiplicative | cg_prefix | cg_postfix
| cg_primary.

(** Underlying value of a group (src/bmd/codegen/codegen_c_cpp.cpp:27-42). *)
Definition cg_index (g : c_group) : Z :=
  match g with
  | cg_conditional => 0 | cg_logical_or => 1 | cg_logical_and => 2 | cg_bitwise_or => 3
  | cg_bitwise_xor => 4 | cg_bitwise_and => 5 | cg_equality => 6 | cg_relational => 7 | cg_shift => 8
  | cg_additive => 9 | cg_multiplicative => 10 | cg_prefix => 11 | cg_postfix => 12 | cg_primary => 13
  end%Z.

(** [compare_minimally] (src/bmd/codegen/codegen_c_cpp.cpp:44-47). *)
Definition compare_minimally (x y : c_group) : partial_ordering :=
  match Z.compare (cg_index x) (cg_index y) with
  | Lt => po_less | Eq => po_equivalent | Gt => po_greater
  end.

(** [is_binary] (src/bmd/codegen/codegen_c_cpp.cpp:49-53). *)
Definition cg_is_binary (g : c_group) : bool :=
  ((cg_index cg_logical_or <=? cg_index g) && (cg_index g <=? cg_index cg_multiplicative))%Z.
(** [is_binary_bitwise] (src/bmd/codegen/codegen_c_cpp.cpp:55-61). *)
Definition cg_is_binary_bitwise (g : c_group) : bool :=
  ((cg_index g =? cg_index cg_shift)
   || (cg_index cg_bitwise_or <=? cg_index g) && (cg_index g <=? cg_index cg_bitwise_and))%Z.
(** [is_binary_logical] (src/bmd/codegen/codegen_c_cpp.cpp:63-67). *)
Definition cg_is_binary_logical (g : c_group) : bool :=
  match g with cg_logical_and | cg_logical_or => true | _ => false end.

(** [compare_readably] (src/bmd/codegen/codegen_c_cpp.cpp:69-81). *)
Definition compare_readably (x y : c_group) : partial_ordering :=
  if (cg_index x =? cg_index y)%Z then po_equivalent
  else if cg_is_binary_logical x && cg_is_binary_logical y then po_unordered
  else if (cg_is_binary_bitwise x && cg_is_binary y) || (cg_is_binary x && cg_is_binary_bitwise y)
  then po_unordered
  else compare_minimally x y.

(** [precedence_group_of] (src/bmd/codegen/codegen_c_cpp.cpp:83-116). *)
Definition c_group_of (k : expr_kind) : c_group :=
  match k with
  | if_expression => cg_conditional
  | logical_or => cg_logical_or
  | logical_and => cg_logical_and
  | bitwise_or => cg_bitwise_or
  | bitwise_xor => cg_bitwise_xor
  | bitwise_and => cg_bitwise_and
  | equals | not_equals => cg_equality
  | less_than | greater_than | less_or_equal | greater_or_equal => cg_relational
  | shift_left | shift_right => cg_shift
  | binary_plus | binary_minus => cg_additive
  | multiplication | division | remainder => cg_multiplicative
  | conversion | unary_plus | unary_minus | logical_not | bitwise_not => cg_prefix
  | function_call => cg_postfix
  | literal | id_expr => cg_primary
  end.

(** [needs_parentheses] (src/bmd/codegen/codegen_c_cpp.cpp:283-289). *)
Definition c_needs_parentheses (outer inner : expr_kind) : bool :=
  match compare_readably (c_group_of outer) (c_group_of inner) with
  | po_less | po_equivalent => false
  | po_greater | po_unordered => true
  end.

(** [C_Cpp_Dialect] (src/bmd/codegen/codegen_c_cpp.cpp:118-125). *)
Inductive c_dialect : Type := c99 | c23 | cpp20.
(** [is_cpp] (src/bmd/codegen/codegen_c_cpp.cpp:133-136). *)
Definition is_cpp (d : c_dialect) : bool := match d with cpp20 => true | _ => false end.

(** [C_Cpp_Type_Type] and [C_Cpp_Type] (src/bmd/codegen/codegen_c_cpp.cpp:138-143); the width is only used for
    [bituint]. [bitint] is never made. *)
Inductive c_type : Type := ct_void | ct_int | ct_bool | ct_uint8 | ct_uint16 | ct_uint32 | ct_uint64
| ct_bituint (width : Z).

(** [append_value] (src/bmd/codegen/codegen_c_cpp.cpp:145-165). *)
Definition append_value (v : cvalue) : gen :=
  match cv_type v with
  | TVoid => put_char_span "(" sp_bracket ;; put_span (str "void") sp_keyword ;;
             put_char_span ")" sp_bracket ;; put_char_span "0" sp_number
  | TBool => put_span (if (cv_int v =? 0)%Z then str "false" else str "true") sp_boolean_literal
  | TInt => put_span (to_string_int (cv_int v)) sp_number
  | TUint _ => put_span (to_string_uint (to_big_uint (cv_int v))) sp_number
  end.

(** [prepend_std] (src/bmd/codegen/codegen_c_cpp.cpp:169-174). *)
Definition prepend_std (d : c_dialect) : gen :=
  if is_cpp d then put_span (str "std") sp_type_name ;; put_span (str "::") sp_operation else done.

(** [append_type] (src/bmd/codegen/codegen_c_cpp.cpp:167-218); widths are positive. *)
Definition append_type (t : c_type) (d : c_dialect) : gen :=
  match t with
  | ct_void => put_span (str "void") sp_keyword
  | ct_int => put_span (str "int") sp_keyword
  | ct_bool => put_span (match d with c99 => str "_Bool" | _ => str "bool" end) sp_keyword
  | ct_uint8 => prepend_std d ;; put_span (str "uint8_t") sp_type_name
  | ct_uint16 => prepend_std d ;; put_span (str "uint16_t") sp_type_name
  | ct_uint32 => prepend_std d ;; put_span (str "uint32_t") sp_type_name
  | ct_uint64 => prepend_std d ;; put_span (str "uint64_t") sp_type_name
  | ct_bituint w =>
      put_span (str "unsigned") sp_keyword ;; put_char " " ;; put_span (str "_BitInt") sp_keyword ;;
      put_char_span "(" sp_bracket ;; put_text (std_to_string w) ;; put_char_span ")" sp_bracket
  end.

Section Generator.
Variable o : code_options.
Variable d : c_dialect.
(** The constant value of the [Const] node at an address (src/bmd/codegen/codegen_c_cpp.cpp:659-664). *)
Variable const_value : positive -> option avalue.

(** [to_c_type] (src/bmd/codegen/codegen_c_cpp.cpp:220-251). *)
Definition to_c_type (t : ctype) : outcome generator_error c_type :=
  let bitint_allowed := negb (is_cpp d) && c_23 o in
  match t with
  | TVoid => Ok ct_void
  | TInt => Ok ct_int
  | TBool => Ok ct_bool
  | TUint w =>
      if bitint_allowed && c_prefer_bitint o then Ok (ct_bituint w)
      else if (w =? 8)%Z then Ok ct_uint8
      else if (w =? 16)%Z then Ok ct_uint16
      else if (w =? 32)%Z then Ok ct_uint32
      else if (w =? 64)%Z then Ok ct_uint64
      else if bitint_allowed then Ok (ct_bituint w)
      else Err ge_unsupported_integer_width
  end.

(** Continuing with a value that may fail to exist (e.g. src/bmd/codegen/codegen_c_cpp.cpp:275-278). *)
Definition with_value {A} (x : outcome generator_error A) (k : A -> gen) : gen :=
  match x with
  | Ok a => k a
  | Err e => fails e
  | Abort => aborts
  | UB => undefined
  end.

(** [generate_type] (src/bmd/codegen/codegen_c_cpp.cpp:272-281). *)
Definition generate_type (t : ctype) : gen := with_value (to_c_type t) (fun c => append_type c d).

(** The visitor for [Type] (src/bmd/codegen/codegen_c_cpp.cpp:366-369). *)
Definition c_type_node (t : type_node) : gen := with_value (concrete_type_value t) generate_type.

(** [append_value(m_out, x.const_value()->concrete_value())] (src/bmd/codegen/codegen_c_cpp.cpp:390, 664, 677);
    [->] on an empty optional is undefined. *)
Definition append_const_value (cv : option avalue) : gen :=
  match cv with
  | Some v => with_value (concrete_value v) append_value
  | None => undefined
  end.

(** The visitors for expressions (src/bmd/codegen/codegen_c_cpp.cpp:553-680). [nested]: the parent is an
    expression (579). *)
Fixpoint c_expr (nested : bool) (e : expr) : gen :=
  match e with
  | EConversion _ x t =>
      attempt
        (parens (c_type_node t) ;;
         subexpression o c_needs_parentheses conversion x (c_expr true x))
  | EIf _ l c r =>
      attempt
        ((if nested then put_char_span "(" sp_bracket else done) ;;
         subexpression o c_needs_parentheses if_expression c (c_expr true c) ;;
         write_infix (str "?") sp_operation ;;
         subexpression o c_needs_parentheses if_expression l (c_expr true l) ;;
         write_infix (str ":") sp_operation ;;
         subexpression o c_needs_parentheses if_expression r (c_expr true r) ;;
         (if nested then done else put_char_span ")" sp_bracket))
  | EBinary _ op l r =>
      attempt
        (subexpression o c_needs_parentheses op l (c_expr true l) ;;
         write_infix (token_type_code_name (expression_type_token op)) sp_operation ;;
         subexpression o c_needs_parentheses op r (c_expr true r))
  | EPrefix _ op x =>
      put_span (token_type_code_name (expression_type_token op)) sp_operation ;;
      subexpression o c_needs_parentheses op x (c_expr true x)
  | ECall _ name _ is_statement args =>
      attempt
        ((if is_statement then write_indent o else done) ;;
         put_span name sp_identifier ;;
         parens (separated true (map (c_expr true) args)))
  | EId _ name lk _ =>
      match lk with
      | Some (LNode DConst n) => if c_23 o then done else append_const_value (const_value n)
      | _ => put_span name sp_identifier
      end
  | ELiteral cv _ _ => append_const_value cv
  end.

(** [x.const_value()->get_type()] (src/bmd/codegen/codegen_c_cpp.cpp:382, 402). *)
Definition generate_type_of (cv : option avalue) : gen :=
  match cv with
  | Some v => generate_type (av_type v)
  | None => undefined
  end.

(** The visitors for statements (src/bmd/codegen/codegen_c_cpp.cpp:371-551). Where the code expects a block,
    anything else is an access to the wrong alternative, which throws. *)
Fixpoint c_stmt (s : stmt) : gen :=
  match s with
  | SConst cv name _ _ _ =>
      if c_23 o then
        attempt
          (write_indent o ;; put_span (str "constexpr") sp_keyword ;; put_char " " ;;
           generate_type_of cv ;; put_char " " ;; put_span name sp_identifier ;;
           write_infix (str "=") sp_operation ;; append_const_value cv ;; write_semicolon)
      else fails ge_empty
  | SLet cv name _ _ init =>
      write_indent o ;; generate_type_of cv ;; put_char " " ;; put_span name sp_identifier ;;
      (match init with
       | Some e => write_infix (str "=") sp_operation ;; c_expr false e
       | None => done
       end) ;;
      write_semicolon
  | SStatic_Assert _ _ => fails ge_empty
  | SIf _ c b e =>
      attempt
        (write_indent o ;; put_span (str "if") sp_keyword ;; put_char " " ;; parens (c_expr false c) ;;
         separate_after_if o ;;
         (match b with SBlock _ _ => c_stmt b | _ => aborts end) ;;
         (match e with
          | None => done
          | Some x =>
              match x with
              | SIf _ _ _ _ => write_indent o ;; put_span (str "else") sp_keyword ;; put_char " " ;; c_stmt x
              | SBlock _ _ => c_stmt x
              | _ => aborts
              end
          end))
  | SWhile _ c b =>
      attempt
        (write_indent o ;; put_span (str "while") sp_keyword ;; put_char " " ;; parens (c_expr false c) ;;
         separate_after_if o ;;
         (match b with SBlock _ _ => c_stmt b | _ => aborts end))
  | SControl _ t e =>
      attempt
        (write_indent o ;; put_span (token_type_code_name (control_token t)) sp_keyword ;;
         (match e with
          | Some x => put_char " " ;; c_expr false x
          | None => done
          end) ;;
         write_semicolon)
  | SAssign _ name _ e =>
      attempt
        (write_indent o ;; put_span name sp_identifier ;; write_infix (str "=") sp_operation ;;
         c_expr false e ;; write_semicolon)
  | SBlock _ l =>
      attempt
        (put_span (str "{") sp_bracket ;; end_line ;;
         indented (lines (map c_stmt l)) ;;
         write_indent o ;; put_span (str "}") sp_bracket)
  | SExpr e => c_expr false e
  end.

(** One parameter (src/bmd/codegen/codegen_c_cpp.cpp:339-351). *)
Definition c_parameter (p : parameter) : gen :=
  put_span (p_name p) sp_identifier ;; put_char_span ":" sp_punctuation ;; put_char " " ;;
  c_type_node (p_type p).

(** Functions (src/bmd/codegen/codegen_c_cpp.cpp:320-364). *)
Definition c_function (f : func) : gen :=
  if f_generic f then fails ge_empty
  else attempt
    (write_indent o ;; c_type_node (f_return f) ;; put_char " " ;; put_span (f_name f) sp_identifier ;;
     parens
       (separated true (map c_parameter (f_params f)) ;;
        (match f_params f with [] => put_span (str "void") sp_keyword | _ => done end)) ;;
     separate_after_function o ;;
     (match f_body f with SBlock _ _ => c_stmt (f_body f) | _ => aborts end)).

(** [generate_code] for a child of the program (src/bmd/codegen/codegen_c_cpp.cpp:682-685). *)
Definition c_declaration (x : declaration) : gen :=
  match x with
  | Decl_Function f => c_function f
  | Decl_Statement s => c_stmt s
  end.

(** The loop of the visitor for [Program] (src/bmd/codegen/codegen_c_cpp.cpp:302-314). *)
Fixpoint c_declarations (first : bool) (l : list declaration) : gen :=
  match l with
  | [] => done
  | x :: rest => fun s =>
      match c_declaration x s with
      | (s1, Ok _) => ((if first then done else end_line) ;; end_line ;; c_declarations false rest) s1
      | (s1, Err ge_empty) => c_declarations first rest s1
      | r => r
      end
  end.

(** The visitor for [Program] (src/bmd/codegen/codegen_c_cpp.cpp:298-318). *)
Definition c_program (l : list declaration) : gen := attempt (c_declarations true l).
End Generator.

(** The [Const] nodes below a statement with their constant values
    (reached through the lookup at src/bmd/codegen/codegen_c_cpp.cpp:659-660). *)
Fixpoint stmt_consts (s : stmt) : list (positive * option avalue) :=
  match s with
  | SConst cv _ self _ _ => [(self, cv)]
  | SIf _ _ b e => stmt_consts b ++ (match e with Some x => stmt_consts x | None => [] end)
  | SWhile _ _ b => stmt_consts b
  | SBlock _ l => flat_map stmt_consts l
  | _ => []
  end.
(** src/bmd/codegen/codegen_c_cpp.cpp:659-660, for the whole program. *)
Definition program_consts (l : list declaration) : list (positive * option avalue) :=
  flat_map (fun x => match x with Decl_Function f => stmt_consts (f_body f) | Decl_Statement s => stmt_consts s end) l.
(** The constant value of the node at an address (src/bmd/codegen/codegen_c_cpp.cpp:664). *)
Fixpoint find_const (l : list (positive * option avalue)) (n : positive) : option avalue :=
  match l with
  | [] => None
  | (m, cv) :: rest => if Pos.eqb m n then cv else find_const rest n
  end.

(** [generate_c_code] and [generate_cpp_code] (src/bmd/codegen/codegen_c_cpp.cpp:687-712). *)
Definition generate_c_cpp_code (cpp : bool) (o : code_options) (l : list declaration) (out : code_string)
  : code_string * outcome generator_error unit :=
  let d := if cpp then cpp20 else if c_23 o then c23 else c99 in
  let '(s, r) := c_program o d (find_const (program_consts l)) l (GS out 0 true) in (g_out s, r).
