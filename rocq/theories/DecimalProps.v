(** C54: decimal output of integers. *)
From Coq Require Import ZArith Ascii String List Bool Lia.
From Verif Require Import Prelude Text Decimal DecimalSpec DecimalProofs.
Import ListNotations.
Open Scope string_scope.
Open Scope list_scope.
Open Scope Z_scope.

(** Full statement: for all [x] with [0 <= x < two128], [denotes (to_string_uint x) x].  It is false: the
    lower 19 digits are not padded with zeros.  The numbers that are printed correctly are exactly those
    whose lower parts start with a digit other than zero, among them everything below 2^64. *)
Theorem C54_unsigned_partial : forall x, 0 <= x < two128 ->
  (denotes (to_string_uint x) x <-> full_parts x).
Proof. exact to_string_denotes. Qed.

Corollary C54_small_unsigned_partial : forall x, 0 <= x < 2 ^ 64 -> denotes (to_string_uint x) x.
Proof.
  intros x X. apply C54_unsigned_partial; [unfold two128; cbn in X; lia | left; lia].
Qed.

(** Full statement: for all [x] with [- two127 <= x < two127], [denotes_signed (to_string_int x) x]. *)
Theorem C54_signed_partial : forall x, - two127 <= x < two127 ->
  (denotes_signed (to_string_int x) x <-> full_parts (Z.abs x)).
Proof.
  intros x X. unfold to_string_int, to_big_uint. unfold two127, two128 in *.
  assert (NM : forall t y, ~ denotes ("-"%char :: t) y).
  { intros t y (D & _). cbn in D. discriminate. }
  destruct (0 <=? x) eqn:S0.
  - apply Z.leb_le in S0. rewrite Z.mod_small by lia. rewrite Z.abs_eq by lia.
    rewrite <- (C54_unsigned_partial x) by (unfold two128; lia). split.
    + intros [D|(t' & _ & _ & L)]; [exact D | lia].
    + intros D. left. exact D.
  - apply Z.leb_gt in S0. rewrite Z.mod_small by lia. rewrite Z.abs_neq by lia.
    rewrite <- (C54_unsigned_partial (- x)) by (unfold two128; lia). split.
    + intros [D|(t' & E & D & _)]; [destruct (NM _ _ D)|]. injection E as <-. exact D.
    + intros D. right. exists (to_string_uint (- x)). split; [reflexivity|]. split; [exact D | lia].
Qed.

Corollary C54_small_signed_partial : forall x, - 2 ^ 64 < x < 2 ^ 64 -> denotes_signed (to_string_int x) x.
Proof.
  intros x X. apply C54_signed_partial; [unfold two127; cbn in X; lia | left; lia].
Qed.

(** The full statement fails: 10^20 is printed as 100. *)
Theorem C54_padding_refuted : exists x, 0 <= x < two128 /\ to_string_uint x = str "100" /\
  denotes (to_string_uint x) 100 /\ x <> 100.
Proof.
  exists 100000000000000000000. unfold two128. split; [lia|]. split; [vm_compute; reflexivity|].
  split; [|lia]. replace (to_string_uint 100000000000000000000) with (str "100") by (vm_compute; reflexivity).
  split; [reflexivity|]. split; [discriminate|]. intros c r E R. injection E as <- <-. discriminate.
Qed.

(** Different numbers print alike. *)
Theorem C54_injective_refuted : exists x y, 0 <= x < two128 /\ 0 <= y < two128 /\ x <> y /\
  to_string_uint x = to_string_uint y.
Proof.
  exists 100000000000000000000, 100. unfold two128. split; [lia|]. split; [lia|]. split; [lia|].
  vm_compute. reflexivity.
Qed.

Example C54_largest : to_string_uint (two128 - 1) = str "340282366920938463463374607431768211455".
Proof. vm_compute. reflexivity. Qed.
Example C54_smallest : to_string_int (- two127) = str "-170141183460469231731687303715884105728".
Proof. vm_compute. reflexivity. Qed.
Example C54_zero : denotes (to_string_uint 0) 0.
Proof. apply C54_small_unsigned_partial. lia. Qed.

(** * Assumptions of the theorems above *)
Print Assumptions C54_unsigned_partial.
Print Assumptions C54_signed_partial.
Print Assumptions C54_padding_refuted.
Print Assumptions C54_injective_refuted.
