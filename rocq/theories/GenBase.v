(** What all code generators share.  Models src/bmd/codegen/generator_base.hpp, generator_error.hpp and the
    options of codegen.hpp. *)
From Coq Require Import ZArith Ascii String List Bool.
From Verif Require Import Prelude Types Ops Text Tables AbsOps Ast CodeString.
Import ListNotations.
Open Scope string_scope.
Open Scope list_scope.

(** [Generator_Error_Code] (src/bmd/codegen/generator_error.hpp:8-22). The node of a [Generator_Error] (24-27)
    is not part of the model. *)
Inductive generator_error : Type := ge_empty | ge_unsupported_integer_width | ge_error.

(** [Code_Options] (src/bmd/codegen/codegen.hpp:27-49). [brace_style] only provides the defaults of the two
    flags after it. *)
Record code_options : Type := Options {
  indent_char : ascii;
  indent_size : nat;
  break_after_function : bool;
  break_after_if : bool;
  always_parenthesize : bool;
  c_23 : bool;
  c_prefer_bitint : bool
}.

(** The default member initialisers (src/bmd/codegen/codegen.hpp:27-49). *)
Definition default_options : code_options := Options " " 4 false false false false false.

(** [m_out], [m_depth] and [m_start_of_line] (src/bmd/codegen/generator_base.hpp:87-91). The depth is an
    unbounded natural: it counts open blocks. *)
Record gen_state : Type := GS { g_out : code_string; g_depth : nat; g_start : bool }.

(** A member function that writes and returns [Result<void, Generator_Error>]
    (e.g. src/bmd/codegen/generator_base.hpp:116).  An outcome other than [Ok] comes with the state that the
    destructors of the scopes that are left have made. *)
Definition gen : Type := gen_state -> gen_state * outcome generator_error unit.

(** [return {};] (src/bmd/codegen/generator_base.hpp:134). *)
Definition done : gen := fun s => (s, Ok tt).
(** [return Generator_Error { ... };] (e.g. src/bmd/codegen/codegen_c_cpp.cpp:323). *)
Definition fails (e : generator_error) : gen := fun s => (s, Err e).
(** A failed assertion (e.g. src/bmd/codegen/codegen_bms.cpp:330). *)
Definition aborts : gen := fun s => (s, Abort).
(** Undefined behaviour (e.g. an empty optional at src/bmd/codegen/codegen_c_cpp.cpp:382). *)
Definition undefined : gen := fun s => (s, UB).

(** [if (auto r = m; !r) return r; k] (e.g. src/bmd/codegen/generator_base.hpp:126-128). *)
Definition seq (m k : gen) : gen := fun s =>
  match m s with
  | (s1, Ok _) => k s1
  | (s1, r) => (s1, r)
  end.
Declare Scope gen_scope.
Notation "m ;; k" := (seq m k) (at level 61, right associativity) : gen_scope.
Open Scope gen_scope.

(** What happens to the output only. *)
Definition put (f : code_string -> code_string) : gen := fun s =>
  (GS (f (g_out s)) (g_depth s) (g_start s), Ok tt).

(** [m_out.append(char)] (e.g. src/bmd/codegen/generator_base.hpp:143). *)
Definition put_char (c : ascii) : gen := put (append_char c).
(** [m_out.append(std::string_view)] (e.g. src/bmd/codegen/codegen_c_cpp.cpp:213). *)
Definition put_text (t : text) : gen := put (append_text t).
(** [m_out.append(char, Code_Span_Type)] (e.g. src/bmd/codegen/generator_base.hpp:124). *)
Definition put_char_span (c : ascii) (k : span_type) : gen := put (append_char_span c k).
(** [m_out.append(std::string_view, Code_Span_Type)] (e.g. src/bmd/codegen/generator_base.hpp:183). *)
Definition put_span (t : text) (k : span_type) : gen := fun s =>
  match append_span (E := generator_error) t k (g_out s) with
  | Ok out => (GS out (g_depth s) (g_start s), Ok tt)
  | _ => (s, Abort)
  end.

(** A function body with a [Scoped_Attempt] whose [commit] comes right before the last [return {}]
    (src/bmd/codegen/generator_base.hpp:58-83, 119, 133). *)
Definition attempt (m : gen) : gen := fun s =>
  match m s with
  | (s1, Ok u) => (s1, Ok u)
  | (s1, r) => (GS (resize (get_length (g_out s)) (g_out s1)) (g_depth s1) (g_start s1), r)
  end.

(** A block with a [Scoped_Parenthesization] (src/bmd/codegen/generator_base.hpp:14-36, 231-234). *)
Definition parens (m : gen) : gen := fun s =>
  let '(s1, r) := m (GS (append_char_span "(" sp_bracket (g_out s)) (g_depth s) (g_start s)) in
  (GS (append_char_span ")" sp_bracket (g_out s1)) (g_depth s1) (g_start s1), r).

(** A block with a [Scoped_Indentation] (src/bmd/codegen/generator_base.hpp:38-56, 221-224). *)
Definition indented (m : gen) : gen := fun s =>
  let '(s1, r) := m (GS (g_out s) (S (g_depth s)) (g_start s)) in
  (GS (g_out s1) (Nat.pred (g_depth s1)) (g_start s1), r).

(** [get_expression_type] (src/bms/ast.hpp:1229-1241, 794, 833, 886, 934, 978, 1037, 1064). *)
Definition expression_type (e : expr) : expr_kind :=
  match e with
  | EConversion _ _ _ => conversion
  | EIf _ _ _ _ => if_expression
  | EBinary _ op _ _ => op
  | EPrefix _ op _ => op
  | ECall _ _ _ _ _ => function_call
  | EId _ _ _ _ => id_expr
  | ELiteral _ _ _ => literal
  end.

(** [type_type_name] (src/bms/concrete_type.hpp:24-34). *)
Definition type_type_name (t : type_type) : text :=
  match t with
  | tt_Void => str "Void" | tt_Bool => str "Bool" | tt_Int => str "Int" | tt_Uint => str "Uint"
  end.

(** [control_statement_type_token] (src/bms/ast.hpp:657-666). *)
Definition control_token (t : control_type) : token_type :=
  match t with
  | ctl_return => tk_keyword_return | ctl_break => tk_keyword_break | ctl_continue => tk_keyword_continue
  end.

Section Options.
Variable o : code_options.

(** [generate_subexpression] (src/bmd/codegen/generator_base.hpp:116-135); [needs] is [needs_parentheses] and [m]
    is [generate_code(inner)]. *)
Definition subexpression (needs : expr_kind -> expr_kind -> bool) (outer : expr_kind) (inner : expr) (m : gen)
  : gen :=
  attempt
    (let parenthesize := always_parenthesize o || needs outer (expression_type inner) in
     (if parenthesize then put_char_span "(" sp_bracket else done) ;;
     m ;;
     (if parenthesize then put_char_span ")" sp_bracket else done)).

(** [end_line] (src/bmd/codegen/generator_base.hpp:215-219). *)
Definition end_line : gen := fun s => (GS (append_char ch_newline (g_out s)) (g_depth s) true, Ok tt).
(** [separate_after_function] (src/bmd/codegen/generator_base.hpp:137-145). *)
Definition separate_after_function : gen := if break_after_function o then end_line else put_char " ".
(** [separate_after_if] (src/bmd/codegen/generator_base.hpp:147-155). *)
Definition separate_after_if : gen := if break_after_if o then end_line else put_char " ".
(** [write_indent] (src/bmd/codegen/generator_base.hpp:173-179). *)
Definition write_indent : gen := fun s =>
  if g_start s then
    (GS (append_fill (g_depth s * indent_size o) (indent_char o) (g_out s)) (g_depth s) false, Ok tt)
  else (s, Ok tt).
(** [write_infix_operator] and [write_infix_keyword] (src/bmd/codegen/generator_base.hpp:191-203). *)
Definition write_infix (op : text) (k : span_type) : gen :=
  put_char " " ;; put_span op k ;; put_char " ".
(** [write_semicolon] (src/bmd/codegen/generator_base.hpp:205-208). *)
Definition write_semicolon : gen := put_char_span ";" sp_punctuation.
(** [write_separating_comma] (src/bmd/codegen/generator_base.hpp:210-213). *)
Definition write_separating_comma : gen := put_char_span "," sp_punctuation ;; put_char " ".

(** The loops over arguments and parameters with a flag [first]
    (e.g. src/bmd/codegen/codegen_bms.cpp:476-487). *)
Fixpoint separated (first : bool) (l : list gen) : gen :=
  match l with
  | [] => done
  | m :: rest => (if first then done else write_separating_comma) ;; m ;; separated false rest
  end.

(** The loop over the statements of a block (e.g. src/bmd/codegen/codegen_bms.cpp:395-402): [empty] means that
    there is nothing to be generated. *)
Fixpoint lines (l : list gen) : gen :=
  match l with
  | [] => done
  | m :: rest => fun s =>
      match m s with
      | (s1, Ok _) => (end_line ;; lines rest) s1
      | (s1, Err ge_empty) => lines rest s1
      | r => r
      end
  end.
End Options.
