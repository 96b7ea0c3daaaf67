(** Which C expression has the structure of an expression of BMS. *)
From Coq Require Import ZArith Ascii String List Bool.
From Verif Require Import Prelude Text Types Ops Literals LiteralsSpec Tables Tokenizer TokenizerSpec AbsOps Ast DecimalSpec
  GenBase CGrammar PrintSpec.
Import ListNotations.
Open Scope string_scope.
Open Scope list_scope.

(** The operators of C that stand for those of BMS. *)
Definition c_binary (k : expr_kind) : option string :=
  match k with
  | binary_plus => Some "+" | binary_minus => Some "-" | multiplication => Some "*"
  | division => Some "/" | remainder => Some "%"
  | equals => Some "==" | not_equals => Some "!=" | less_than => Some "<" | greater_than => Some ">"
  | less_or_equal => Some "<=" | greater_or_equal => Some ">="
  | shift_left => Some "<<" | shift_right => Some ">>" | bitwise_and => Some "&" | bitwise_or => Some "|"
  | bitwise_xor => Some "^" | logical_and => Some "&&" | logical_or => Some "||"
  | _ => None
  end.
Definition c_unary (k : expr_kind) : option string :=
  match k with
  | unary_plus => Some "+" | unary_minus => Some "-" | logical_not => Some "!" | bitwise_not => Some "~"
  | _ => None
  end.

(** Values that are known, and whose digits come out right (see C54). *)
Inductive shows_value : avalue -> c_tree -> Prop :=
| sv_void : forall z, shows_value (AV TVoid (Some z)) (C_Cast TVoid (C_Number 0))
| sv_bool : forall z, shows_value (AV TBool (Some z)) (C_Bool (negb (z =? 0)%Z))
| sv_int : forall z, (0 <= z < 2 ^ 127)%Z -> full_parts z -> shows_value (AV TInt (Some z)) (C_Number z)
| sv_negative : forall z, (- 2 ^ 127 <= z < 0)%Z -> full_parts (- z) ->
    shows_value (AV TInt (Some z)) (C_Unary (str "-") (C_Number (- z)))
| sv_uint : forall w z, (0 <= z < 2 ^ 128)%Z -> full_parts z -> shows_value (AV (TUint w) (Some z)) (C_Number z).

Definition names_const (lk : option lookup) : bool :=
  match lk with Some (LNode DConst _) => true | _ => false end.

Section Shows.
(** The values of the constants. *)
Variable const_value : positive -> option avalue.

(** [c_shows e t]: [t] is the C expression with the operators and operands of [e] that are grouped like those
    of [e]. Constants are replaced by their values. *)
Inductive c_shows : expr -> c_tree -> Prop :=
| cs_conversion : forall cv e a t y, concrete_type_value (E := generator_error) t = Ok y -> c_shows e a ->
    c_shows (EConversion cv e t) (C_Cast y a)
| cs_if : forall cv l a c p r b, c_shows l a -> c_shows c p -> c_shows r b ->
    c_shows (EIf cv l c r) (C_Conditional p a b)
| cs_binary : forall cv k op l a r b, c_binary k = Some op -> c_shows l a -> c_shows r b ->
    c_shows (EBinary cv k l r) (C_Binary (str op) a b)
| cs_prefix : forall cv k op e a, c_unary k = Some op -> c_shows e a ->
    c_shows (EPrefix cv k e) (C_Unary (str op) a)
| cs_call : forall cv x lk args ts, is_name x -> c_name x -> Forall2 c_shows args ts ->
    c_shows (ECall cv x lk false args) (C_Call (C_Name x) ts)
| cs_name : forall cv x lk g, is_name x -> c_name x -> names_const lk = false -> c_shows (EId cv x lk g) (C_Name x)
| cs_const : forall cv x n g v t, const_value n = Some v -> shows_value v t ->
    c_shows (EId cv x (Some (LNode DConst n)) g) t
| cs_literal : forall v lit k t, shows_value v t -> c_shows (ELiteral (Some v) lit k) t.
End Shows.

(** Whether an expression uses the name of a constant. *)
Fixpoint mentions_const (e : expr) : bool :=
  match e with
  | EConversion _ x _ => mentions_const x
  | EIf _ l c r => mentions_const l || mentions_const c || mentions_const r
  | EBinary _ _ l r => mentions_const l || mentions_const r
  | EPrefix _ _ x => mentions_const x
  | ECall _ _ _ _ args => existsb mentions_const args
  | EId _ _ lk _ => names_const lk
  | ELiteral _ _ _ => false
  end.

(** ** Conditions on trees *)

Fixpoint every_node (f : c_tree -> bool) (t : c_tree) : bool :=
  f t &&
  match t with
  | C_Name _ | C_Number _ | C_Bool _ => true
  | C_Unary _ a | C_Postfix _ a | C_Cast _ a => every_node f a
  | C_Binary _ a b => every_node f a && every_node f b
  | C_Conditional c a b => every_node f c && every_node f a && every_node f b
  | C_Call g args => every_node f g && forallb (every_node f) args
  end.

Definition is_conditional (t : c_tree) : bool := match t with C_Conditional _ _ _ => true | _ => false end.
Definition no_conditional : c_tree -> bool := every_node (fun t => negb (is_conditional t)).

(** Two signs in a row that C takes for one token. *)
Definition adjacent_signs (t : c_tree) : bool :=
  match t with
  | C_Unary p (C_Unary q _) => (text_eqb p (str "+") && text_eqb q (str "+")) || (text_eqb p (str "-") && text_eqb q (str "-"))
  | _ => false
  end.
Definition signs_apart : c_tree -> bool := every_node (fun t => negb (adjacent_signs t)).

(** A right operand with an operator of the same level. *)
Definition same_level (p q : text) : bool :=
  existsb (fun k => existsb (fun s => text_eqb p (str s)) (operators_at k) &&
                    existsb (fun s => text_eqb q (str s)) (operators_at k)) (List.seq 0 12).
Definition groups_right (t : c_tree) : bool :=
  match t with
  | C_Binary p _ (C_Binary q _ _) => same_level p q
  | _ => false
  end.
Definition leans_left : c_tree -> bool := every_node (fun t => negb (groups_right t)).

(** The types of casts that can be written: which integer widths there are. *)
Definition has_width (bits : bool) (y : ctype) : bool :=
  match y with
  | TUint w => ((w =? 8) || (w =? 16) || (w =? 32) || (w =? 64) || bits && (0 <? w) && (w <? 2 ^ 64))%Z
  | _ => true
  end.
Definition widths_exist (bits : bool) : c_tree -> bool :=
  every_node (fun t => match t with C_Cast y _ => has_width bits y | _ => true end).

(** ** Conditional expressions *)

Fixpoint conditionals (t : c_tree) : nat :=
  match t with
  | C_Name _ | C_Number _ | C_Bool _ => 0
  | C_Unary _ a | C_Postfix _ a | C_Cast _ a => conditionals a
  | C_Binary _ a b => conditionals a + conditionals b
  | C_Conditional c a b => 1 + (conditionals c + conditionals a + conditionals b)
  | C_Call f args => conditionals f + list_sum (map conditionals args)
  end.

(** A conditional expression with exactly one other, which is its last operand. *)
Definition else_if (t : c_tree) : bool :=
  match t with
  | C_Conditional c a (C_Conditional c' a' b') =>
      no_conditional c && no_conditional a && no_conditional c' && no_conditional a' && no_conditional b'
  | _ => false
  end.

(** How many more opening than closing parentheses there are. *)
Fixpoint excess (s : text) : Z :=
  match s with
  | [] => 0
  | c :: r => (if Ascii.eqb c "(" then 1 else if Ascii.eqb c ")" then -1 else 0) + excess r
  end%Z.
