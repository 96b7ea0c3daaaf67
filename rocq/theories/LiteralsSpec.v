(** Specification of literals and comments: positional notation, and the shapes of comments and
    string literals as decompositions of the text. *)
From Coq Require Import ZArith Ascii String List Bool.
From Verif Require Import Text Literals.
Import ListNotations.
Open Scope string_scope.
Open Scope list_scope.
Open Scope Z_scope.

(** Value of a single digit, lower or upper case. *)
Definition digit (c : ascii) : option Z :=
  let n := code c in
  if (48 <=? n) && (n <=? 57) then Some (n - 48)
  else if (97 <=? n) && (n <=? 102) then Some (n - 87)
  else if (65 <=? n) && (n <=? 70) then Some (n - 55)
  else None.

(** A digit of a base. *)
Definition is_digit_of (base : Z) (c : ascii) : Prop := exists d, digit c = Some d /\ d < base.

Definition is_upper_case (c : ascii) : Prop := 65 <= code c <= 90.

(** [denotes base s v]: the string of base-[base] digits [s] has positional value [v]. *)
Inductive denotes (base : Z) : text -> Z -> Prop :=
| denotes_nil : denotes base [] 0
| denotes_cons : forall c d s v,
    digit c = Some d -> d < base -> denotes base s v ->
    denotes base (c :: s) (d * base ^ Z.of_nat (length s) + v).

Definition base_of (t : literal_type) : Z :=
  match t with binary_lit => 2 | octal_lit => 8 | decimal_lit => 10 | hexadecimal_lit => 16 end.

(** The literals of the language: prefix, digits and kind. *)
Inductive is_literal_text : literal_type -> text -> text -> Prop :=
| lit_binary : forall ds, ds <> [] -> Forall (is_digit_of 2) ds ->
    is_literal_text binary_lit (str "0b" ++ ds) ds
| lit_hex : forall ds, ds <> [] -> Forall (is_digit_of 16) ds ->
    is_literal_text hexadecimal_lit (str "0x" ++ ds) ds
| lit_octal : forall ds, ds <> [] -> Forall (is_digit_of 8) ds ->
    is_literal_text octal_lit ("0"%char :: ds) ("0"%char :: ds)
| lit_zero : is_literal_text decimal_lit ["0"%char] ["0"%char]
| lit_decimal : forall c ds, c <> "0"%char -> is_digit_of 10 c -> Forall (is_digit_of 10) ds ->
    is_literal_text decimal_lit (c :: ds) (c :: ds).

(** The contents of a string literal: plain characters, and a backslash followed by any character. *)
Inductive string_body : text -> Prop :=
| body_nil : string_body []
| body_plain : forall c s, c <> ch_quote -> c <> ch_backslash -> string_body s -> string_body (c :: s)
| body_escape : forall c s, string_body s -> string_body (ch_backslash :: c :: s).

(** [s] contains [p] at offset [i]. *)
Definition occurs_at (p s : text) (i : nat) : Prop :=
  exists a b, s = (a ++ p ++ b) /\ length a = i.
