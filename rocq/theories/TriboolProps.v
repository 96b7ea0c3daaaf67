(** C11: Tribool is Kleene's strong three-valued logic. *)
From Coq Require Import ZArith Bool.
From Verif Require Import Prelude Tribool.
Open Scope Z_scope.

(** The three values. *)
Definition is_tribool (x : tribool) : Prop := x = tb_false \/ x = tb_true \/ x = tb_maybe.

(** The Booleans a three-valued value may stand for. *)
Definition stands_for (x : tribool) (b : bool) : Prop :=
  x = tb_maybe \/ x = (if b then tb_true else tb_false).

(** [r] is the tightest result of [f] on all Booleans [x] and [y] may stand for. *)
Definition tightest2 (f : bool -> bool -> bool) (x y r : tribool) : Prop :=
  forall b, stands_for r b <-> exists bx by_, stands_for x bx /\ stands_for y by_ /\ f bx by_ = b.
Definition tightest1 (f : bool -> bool) (x r : tribool) : Prop :=
  forall b, stands_for r b <-> exists bx, stands_for x bx /\ f bx = b.

Ltac tb_cases :=
  repeat match goal with
  | H : is_tribool ?x |- _ => destruct H as [-> | [-> | ->]]
  end.

Ltac tb_tight :=
  intros; tb_cases; (eexists; split; [reflexivity|]; split; [unfold is_tribool; vm_compute; auto|]);
  intros b; destruct b; unfold stands_for, tb_true, tb_false, tb_maybe; split;
  try (intros _; first
    [ exists true, true; vm_compute; intuition congruence
    | exists true, false; vm_compute; intuition congruence
    | exists false, true; vm_compute; intuition congruence
    | exists false, false; vm_compute; intuition congruence ]; fail);
  try (intros [H|H]; discriminate H);
  try (intros (bx & by_ & Hx & Hy & Hf); destruct bx, by_; cbn in *; intuition congruence);
  auto.

Lemma tb_and_tight : forall x y, is_tribool x -> is_tribool y ->
  exists r, tb_and x y = Ok r /\ is_tribool r /\ tightest2 andb x y r.
Proof. tb_tight. Qed.

Lemma tb_or_tight : forall x y, is_tribool x -> is_tribool y ->
  exists r, tb_or x y = Ok r /\ is_tribool r /\ tightest2 orb x y r.
Proof. tb_tight. Qed.

Lemma tb_equals_tight : forall x y, is_tribool x -> is_tribool y ->
  exists r, tb_equals x y = Ok r /\ is_tribool r /\ tightest2 Bool.eqb x y r.
Proof. tb_tight. Qed.

Lemma tb_not_equals_tight : forall x y, is_tribool x -> is_tribool y ->
  exists r, tb_not_equals x y = Ok r /\ is_tribool r /\ tightest2 xorb x y r.
Proof. tb_tight. Qed.

Lemma tb_not_tight : forall x, is_tribool x ->
  exists r, tb_not x = Ok r /\ is_tribool r /\ tightest1 negb x r.
Proof.
  intros; tb_cases; (eexists; split; [reflexivity|]; split; [unfold is_tribool; vm_compute; auto|]);
  intros b; destruct b; unfold stands_for, tb_true, tb_false, tb_maybe; split;
  try (intros _; first [ exists true; vm_compute; intuition congruence
                       | exists false; vm_compute; intuition congruence ]; fail);
  try (intros [H|H]; discriminate H);
  try (intros (bx & Hx & Hf); destruct bx; cbn in *; intuition congruence); auto.
Qed.

(** The connectives are defined on all three values and give the tightest result. *)
Theorem C11_and_tightest : forall x y, is_tribool x -> is_tribool y ->
  exists r, tb_and x y = Ok r /\ is_tribool r /\ tightest2 andb x y r.
Proof. exact tb_and_tight. Qed.

Theorem C11_or_tightest : forall x y, is_tribool x -> is_tribool y ->
  exists r, tb_or x y = Ok r /\ is_tribool r /\ tightest2 orb x y r.
Proof. exact tb_or_tight. Qed.

Theorem C11_not_tightest : forall x, is_tribool x ->
  exists r, tb_not x = Ok r /\ is_tribool r /\ tightest1 negb x r.
Proof. exact tb_not_tight. Qed.

Theorem C11_equals_tightest : forall x y, is_tribool x -> is_tribool y ->
  exists r, tb_equals x y = Ok r /\ is_tribool r /\ tightest2 Bool.eqb x y r.
Proof. exact tb_equals_tight. Qed.

Theorem C11_not_equals_tightest : forall x y, is_tribool x -> is_tribool y ->
  exists r, tb_not_equals x y = Ok r /\ is_tribool r /\ tightest2 xorb x y r.
Proof. exact tb_not_equals_tight. Qed.

(** The Booleans embed, so on known values the connectives are the Boolean ones. *)
Theorem C11_bool_embedding : forall a b,
  is_tribool (tb_of_bool a) /\ (stands_for (tb_of_bool a) b <-> a = b) /\
  tb_and (tb_of_bool a) (tb_of_bool b) = Ok (tb_of_bool (a && b)) /\
  tb_or (tb_of_bool a) (tb_of_bool b) = Ok (tb_of_bool (a || b)) /\
  tb_not (tb_of_bool a) = Ok (tb_of_bool (negb a)).
Proof.
  intros [] []; (split; [unfold is_tribool; vm_compute; auto|]); split;
    unfold stands_for; vm_compute; intuition (congruence || discriminate).
Qed.

(** Algebraic laws. *)
Theorem C11_algebra : forall x y z, is_tribool x -> is_tribool y -> is_tribool z ->
  tb_and x y = tb_and y x /\ tb_or x y = tb_or y x /\
  (let* a := tb_and x y in tb_and a z) = (let* b := tb_and y z in tb_and x b) /\
  (let* a := tb_or x y in tb_or a z) = (let* b := tb_or y z in tb_or x b) /\
  (let* a := tb_and x y in tb_not a) =
    (let* a := tb_not x in let* b := tb_not y in tb_or a b) /\
  (let* a := tb_or x y in tb_not a) =
    (let* a := tb_not x in let* b := tb_not y in tb_and a b) /\
  (let* a := tb_or x y in tb_and x a) = Ok x /\
  (let* a := tb_and x y in tb_or x a) = Ok x /\
  (let* a := tb_not x in tb_not a) = Ok x.
Proof. intros; tb_cases; vm_compute; repeat split. Qed.

Example C11_example :
  tb_and tb_maybe tb_false = Ok tb_false /\ tb_or tb_maybe tb_true = Ok tb_true /\
  tb_and tb_maybe tb_true = Ok tb_maybe /\ tb_not tb_maybe = Ok tb_maybe.
Proof. vm_compute. auto. Qed.

(** * Assumptions of the theorems above *)
Print Assumptions C11_and_tightest.
Print Assumptions C11_or_tightest.
Print Assumptions C11_not_tightest.
Print Assumptions C11_equals_tightest.
Print Assumptions C11_not_equals_tightest.
Print Assumptions C11_bool_embedding.
Print Assumptions C11_algebra.
