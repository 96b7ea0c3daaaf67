(** What a listing of a program tells: which instructions it is about. *)
From Coq Require Import ZArith Ascii String List Bool.
From Verif Require Import Prelude Text Types Ops LinMap VM DecimalSpec.
Import ListNotations.
Open Scope string_scope.
Open Scope list_scope.
Open Scope Z_scope.

(** The text has no end of line. *)
Definition one_line (t : text) : Prop := ~ In "010"%char t.

(** Pointers are printed as one word, and different ones differently. *)
Definition pointers_shown (p : key -> text) : Prop :=
  (forall a b, p a = p b -> a = b) /\ (forall a, ~ In " "%char (p a)) /\ (forall a, one_line (p a)).

(** The operators that there are with one operand, and with two. *)
Definition unary_kind (k : expr_kind) : Prop :=
  In k [unary_plus; unary_minus; logical_not; bitwise_not].
Definition binary_kind (k : expr_kind) : Prop :=
  In k [logical_and; logical_or; equals; not_equals; less_than; greater_than; less_or_equal; greater_or_equal;
        binary_plus; binary_minus; multiplication; division; remainder; shift_left; shift_right;
        bitwise_and; bitwise_or; bitwise_xor].

(** Values that the code can hold: numbers of the widths that their C++ types have, and of those pushed
    only such as are printed rightly (C54). *)
Definition value_shown (v : cvalue) : Prop :=
  match cv_type v with
  | TVoid | TBool => True
  | TInt => - 2 ^ 127 <= cv_int v < 2 ^ 127 /\ full_parts (Z.abs (cv_int v))
  | TUint _ => 0 <= cv_int v < 2 ^ 127 /\ full_parts (cv_int v)
  end.
Definition instr_shown (i : instr) : Prop :=
  match i with
  | IPush v => value_shown v
  | IRelative_Jump o | IRelative_Jump_If o _ => - 2 ^ 63 <= o < 2 ^ 63
  | IConvert (TUint w) => 0 <= w < 2 ^ 64
  | IUnary_Operate k => unary_kind k
  | IBinary_Operate k => binary_kind k
  | ICall a => 0 <= a < 2 ^ 64
  | _ => True
  end.
Definition shown (i : text * instr) : Prop := one_line (fst i) /\ instr_shown (snd i).

(** What can be read from a printed value: its kind, where numbers of all types are alike, and the number
    or truth value. *)
Definition same_value (v w : cvalue) : Prop :=
  match cv_type v, cv_type w with
  | TVoid, TVoid => True
  | TBool, TBool => cv_int v = 0 <-> cv_int w = 0
  | (TInt | TUint _), (TInt | TUint _) => cv_int v = cv_int w
  | _, _ => False
  end.

(** What can be read from a printed instruction: all of it but the types of pushed numbers, and the names of
    variables that are loaded or stored. *)
Definition same_instr (a b : text * instr) : Prop :=
  match snd a, snd b with
  | IPush v, IPush w => same_value v w
  | ILoad _, _ | IStore _, _ => a = b
  | x, y => x = y
  end.
