(** Three-valued logic.  Models src/common/tribool.hpp. *)
From Coq Require Import ZArith Bool.
From Verif Require Import Prelude.
Open Scope Z_scope.

(** [Tribool] is its [underlying] member (src/common/tribool.hpp:9-11); the [signed char] conversion
    at line 14 is the identity on the values the constructor's assumption admits. *)
Definition tribool : Type := Z.

(** Tribool::fawse, Tribool::twue, Tribool::maybe (src/common/tribool.hpp:74-76). *)
Definition tb_false : tribool := 0.
(** src/common/tribool.hpp:75. *)
Definition tb_true : tribool := -1.
(** src/common/tribool.hpp:76. *)
Definition tb_maybe : tribool := 1.

(** Outcome without error codes. *)
Definition tb_outcome : Type := outcome unit tribool.

(** The assumption [x >= -1 && x <= 1]; violating it is undefined behaviour
    (src/common/tribool.hpp:16, 35, 42-43, ...). *)
Definition tb_assume (x : Z) (k : tb_outcome) : tb_outcome :=
  if (-1 <=? x) && (x <=? 1) then k else UB.

(** Private constructor from int (src/common/tribool.hpp:13-17). *)
Definition tb_of_int (x : Z) : tb_outcome := tb_assume x (Ok x).

(** Constructor from bool (src/common/tribool.hpp:24-27). *)
Definition tb_of_bool (b : bool) : tribool := - (if b then 1 else 0).

(** [operator!] (src/common/tribool.hpp:33-37). *)
Definition tb_not (x : tribool) : tb_outcome :=
  tb_assume x (if x =? tb_maybe then Ok tb_maybe else tb_of_int (Z.lnot x)).

(** [operator&&] (src/common/tribool.hpp:39-45). *)
Definition tb_and (x y : tribool) : tb_outcome :=
  tb_assume x (tb_assume y (tb_of_int (Z.land x y))).

(** [operator||] (src/common/tribool.hpp:47-53). *)
Definition tb_or (x y : tribool) : tb_outcome :=
  tb_assume x (tb_assume y (tb_of_int (Z.lor x y))).

(** [equals] (src/common/tribool.hpp:55-62). *)
Definition tb_equals (x y : tribool) : tb_outcome :=
  tb_assume x (tb_assume y
    (if (x =? tb_maybe) || (y =? tb_maybe) then Ok tb_maybe else tb_of_int (Z.lnot (Z.lxor x y)))).

(** [not_equals] (src/common/tribool.hpp:64-71). *)
Definition tb_not_equals (x y : tribool) : tb_outcome :=
  tb_assume x (tb_assume y
    (if (x =? tb_maybe) || (y =? tb_maybe) then Ok tb_maybe else tb_of_int (Z.lxor x y))).
