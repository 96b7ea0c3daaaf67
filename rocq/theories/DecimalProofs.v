(** Proofs about decimal output. *)
From Coq Require Import ZArith Ascii String List Bool Lia.
From Verif Require Import Prelude Text Decimal DecimalSpec.
Import ListNotations.
Open Scope string_scope.
Open Scope list_scope.
Open Scope Z_scope.

Lemma digit_value_digit : forall d, 0 <= d <= 9 -> digit_value (digit d) = Some d.
Proof.
  intros d H. assert (D : d = 0 \/ d = 1 \/ d = 2 \/ d = 3 \/ d = 4 \/ d = 5 \/ d = 6 \/ d = 7 \/ d = 8 \/ d = 9)
    by lia. repeat (destruct D as [->|D]; [reflexivity|]). subst d. reflexivity.
Qed.

Lemma decimal_app : forall a b acc,
  decimal_from acc (a ++ b) =
  match decimal_from acc a with Some v => decimal_from v b | None => None end.
Proof.
  induction a as [|c a IH]; intros b acc; [reflexivity|]. cbn. destruct (digit_value c); [apply IH | reflexivity].
Qed.

Lemma pow_S : forall n, 10 ^ Z.of_nat (S n) = 10 * 10 ^ Z.of_nat n.
Proof. intros n. rewrite Nat2Z.inj_succ, Z.pow_succ_r by lia. reflexivity. Qed.

Lemma digits_facts : forall fuel x, 0 <= x < 10 ^ Z.of_nat fuel -> (0 < fuel)%nat ->
  (forall acc, decimal_from acc (digits fuel x) =
     Some (acc * 10 ^ Z.of_nat (length (digits fuel x)) + x)) /\
  x < 10 ^ Z.of_nat (length (digits fuel x)) /\
  (exists n, length (digits fuel x) = S n /\ (n = 0%nat \/ 10 ^ Z.of_nat n <= x)) /\
  (exists c r, digits fuel x = c :: r /\ (x <> 0 -> digit_value c <> Some 0)).
Proof.
  induction fuel as [|fuel IH]; intros x X F; [lia|]. rewrite pow_S in X. cbn [digits].
  destruct (x <? 10) eqn:L.
  - apply Z.ltb_lt in L. split; [|split; [|split]].
    + intros acc. cbn [decimal_from length]. rewrite digit_value_digit by lia.
      rewrite pow_S. cbn [Z.of_nat]. change (10 ^ 0) with 1. f_equal. lia.
    + cbn [length]. rewrite pow_S. cbn [Z.of_nat]. change (10 ^ 0) with 1. lia.
    + exists 0%nat. split; [reflexivity | left; reflexivity].
    + exists (digit x), []. split; [reflexivity|]. intros N. rewrite digit_value_digit by lia. congruence.
  - apply Z.ltb_ge in L.
    assert (Q : 0 <= x / 10 < 10 ^ Z.of_nat fuel).
    { split; [apply Z.div_pos; lia | apply Z.div_lt_upper_bound; lia]. }
    assert (M : 0 <= x mod 10 < 10) by (apply Z.mod_pos_bound; lia).
    assert (E : x = 10 * (x / 10) + x mod 10) by (apply Z.div_mod; lia).
    assert (F' : (0 < fuel)%nat). { destruct fuel; [|lia]. cbn in X. lia. }
    assert (P1 : 1 <= x / 10) by lia.
    destruct (IH (x / 10) Q F') as (V & B & (n & N & NB) & (c & r & C & CN)).
    rewrite app_length. cbn [length]. rewrite Nat.add_1_r, pow_S.
    split; [|split; [|split]].
    + intros acc. rewrite decimal_app, V. cbn [decimal_from].
      rewrite digit_value_digit by lia. f_equal. lia.
    + lia.
    + exists (S n). split; [rewrite N; reflexivity|]. right. rewrite pow_S.
      destruct NB as [->|NB]; [cbn; lia | lia].
    + exists c, (r ++ [digit (x mod 10)]). rewrite C. split; [reflexivity|]. intros _. apply CN. lia.
Qed.

(** [std::to_string] is right. *)
Lemma std_denotes : forall x, 0 <= x < 10 ^ 20 -> denotes (std_to_string x) x.
Proof.
  intros x X. destruct (digits_facts 20 x) as (V & B & (n & N & NB) & (c & r & C & CN)); [exact X | lia |].
  unfold std_to_string. split; [rewrite V; f_equal; lia|]. rewrite C. split; [discriminate|].
  intros c' r' E R. injection E as <- <-. destruct (Z.eq_dec x 0) as [->|X0]; [|apply CN; exact X0].
  vm_compute in C. injection C as _ <-. congruence.
Qed.

(** The number of digits that stand for the lower part is 19 iff that part has 19 digits. *)
Lemma low_part : forall y, 0 <= y < exp10_19 -> exists w, 0 < w <= exp10_19 /\
  (forall acc, decimal_from acc (std_to_string y) = Some (acc * w + y)) /\
  (w = exp10_19 <-> 10 ^ 18 <= y).
Proof.
  intros y Y. unfold exp10_19 in *. assert (Y' : 0 <= y < 10 ^ Z.of_nat 20) by (change (10 ^ Z.of_nat 20) with 100000000000000000000; lia).
  destruct (digits_facts 20 y Y') as (V & B & (n & N & NB) & _); [lia|]. clear Y'.
  unfold std_to_string. remember (digits 20 y) as ds eqn:Eds. clear Eds.
  exists (10 ^ Z.of_nat (length ds)). rewrite N in *. rewrite pow_S in *.
  assert (P : 0 < 10 ^ Z.of_nat n) by (apply Z.pow_pos_nonneg; lia).
  assert (L18 : Z.of_nat n <= 18).
  { destruct NB as [->|NB]; [lia|]. destruct (Z_le_gt_dec (Z.of_nat n) 18); [assumption|].
    assert (10 ^ 19 <= 10 ^ Z.of_nat n) by (apply Z.pow_le_mono_r; lia). change (10 ^ 19) with 10000000000000000000 in H. lia. }
  assert (U : 10 ^ Z.of_nat n <= 10 ^ 18) by (apply Z.pow_le_mono_r; lia).
  change (10 ^ 18) with 1000000000000000000 in *.
  split; [lia|]. split; [exact V|]. split.
  - intros E. assert (E' : 10 ^ Z.of_nat n = 10 ^ 18) by (change (10 ^ 18) with 1000000000000000000; lia).
    apply Z.pow_inj_r in E'; [|lia|lia|lia]. destruct NB as [->|NB]; [lia|]. rewrite E' in NB. exact NB.
  - intros E. destruct (Z.eq_dec (Z.of_nat n) 18) as [->|H]; [reflexivity|].
    assert (10 ^ Z.of_nat n <= 10 ^ 17) by (apply Z.pow_le_mono_r; lia). change (10 ^ 17) with 100000000000000000 in H0. lia.
Qed.

Lemma to_string_value : forall fuel x, 0 <= x < 2 ^ 64 * exp10_19 ^ Z.of_nat fuel ->
  exists v, decimal_from 0 (to_string_fuel fuel x) = Some v /\ v <= x /\ 0 <= v /\
    (fuel = 0%nat -> v = x) /\
    (forall f, fuel = S f -> v = x <-> (x < 2 ^ 64 \/ (10 ^ 18 <= x mod exp10_19 /\
       decimal_from 0 (to_string_fuel f (x / exp10_19)) = Some (x / exp10_19)))) /\
    (exists c r, to_string_fuel fuel x = c :: r /\ (x <> 0 -> digit_value c <> Some 0)).
Proof.
  assert (S0 : forall x, 0 <= x <= 2 ^ 64 - 1 -> decimal_from 0 (std_to_string x) = Some x /\
    (exists c r, std_to_string x = c :: r /\ (x <> 0 -> digit_value c <> Some 0))).
  { intros x X. assert (X' : 0 <= x < 10 ^ Z.of_nat 20) by (change (10 ^ Z.of_nat 20) with 100000000000000000000; lia).
    destruct (digits_facts 20 x X') as (V & _ & _ & C); [lia|].
    split; [unfold std_to_string; rewrite V; f_equal; lia | exact C]. }
  induction fuel as [|fuel IH]; intros x X; cbn [to_string_fuel]; destruct (x <=? 2 ^ 64 - 1) eqn:L.
  - apply Z.leb_le in L. destruct (S0 x) as [V C]; [lia|]. exists x. repeat (split; [first [exact V | lia | discriminate]|]). exact C.
  - apply Z.leb_gt in L. change (exp10_19 ^ Z.of_nat 0) with 1 in X. lia.
  - apply Z.leb_le in L. destruct (S0 x) as [V C]; [lia|]. exists x. repeat (split; [first [exact V | lia | discriminate]|]).
    exact C.
  - apply Z.leb_gt in L. rewrite Nat2Z.inj_succ, Z.pow_succ_r in X by lia.
    assert (Q : 0 <= x / exp10_19 < 2 ^ 64 * exp10_19 ^ Z.of_nat fuel).
    { unfold exp10_19 in *. split; [apply Z.div_pos; lia | apply Z.div_lt_upper_bound; lia]. }
    destruct (IH _ Q) as (v & V & VL & V0 & _ & _ & (c & r & C & CN)).
    assert (M : 0 <= x mod exp10_19 < exp10_19) by (apply Z.mod_pos_bound; reflexivity).
    destruct (low_part _ M) as (w & W & WV & W19).
    assert (E : x = exp10_19 * (x / exp10_19) + x mod exp10_19) by (apply Z.div_mod; discriminate).
    assert (H1 : 1 <= x / exp10_19).
    { apply Z.div_le_lower_bound; [reflexivity|]. unfold exp10_19. change (2 ^ 64) with 18446744073709551616 in L. lia. }
    exists (v * w + x mod exp10_19). rewrite decimal_app, V, WV.
    split; [reflexivity|]. split; [nia|]. split; [nia|]. split; [discriminate|]. split.
    + intros f Ef. injection Ef as <-. rewrite V. split.
      * intros EQ. right.
        destruct (Z.eq_dec w exp10_19) as [Ew|Nw].
        -- split; [apply W19; exact Ew|]. f_equal. rewrite Ew in EQ. unfold exp10_19 in *. nia.
        -- exfalso. assert (w < exp10_19) by lia. unfold exp10_19 in *. nia.
      * intros [EQ|[EQ EV]]; [lia|]. apply W19 in EQ. injection EV as EV. rewrite EQ, EV. lia.
    + exists c, (r ++ std_to_string (x mod exp10_19)). rewrite C. split; [reflexivity|].
      intros _. apply CN. lia.
Qed.

Lemma to_string_denotes : forall x, 0 <= x < two128 -> denotes (to_string_uint x) x <-> full_parts x.
Proof.
  intros x X. unfold to_string_uint.
  assert (Q : 0 <= x < 2 ^ 64 * exp10_19 ^ Z.of_nat 2) by (change (exp10_19 ^ Z.of_nat 2) with 100000000000000000000000000000000000000; unfold two128 in X; lia).
  destruct (to_string_value 2 x Q) as (v & V & _ & _ & _ & VX & (c & r & C & CN)).
  specialize (VX 1%nat eq_refl).
  assert (Q1 : 0 <= x / exp10_19 < 2 ^ 64 * exp10_19 ^ Z.of_nat 1).
  { split; [apply Z.div_pos; [lia|reflexivity] | apply Z.div_lt_upper_bound; [reflexivity|]].
    change (exp10_19 ^ Z.of_nat 2) with (10000000000000000000 * 10000000000000000000) in Q.
    change (exp10_19 ^ Z.of_nat 1) with 10000000000000000000. unfold exp10_19. lia. }
  destruct (to_string_value 1 _ Q1) as (v1 & V1 & _ & _ & _ & VX1 & _).
  specialize (VX1 0%nat eq_refl).
  assert (Q2 : 0 <= x / exp10_19 / exp10_19 < 2 ^ 64 * exp10_19 ^ Z.of_nat 0).
  { split; [apply Z.div_pos; [lia|reflexivity] | apply Z.div_lt_upper_bound; [reflexivity|]].
    change (exp10_19 ^ Z.of_nat 1) with 10000000000000000000 in Q1.
    change (exp10_19 ^ Z.of_nat 0) with 1. unfold exp10_19 in *. lia. }
  destruct (to_string_value 0 _ Q2) as (v2 & V2 & _ & _ & E2 & _).
  rewrite V2, (E2 eq_refl) in VX1. rewrite V1 in VX.
  assert (D : denotes (to_string_fuel 2 x) x <-> v = x).
  { split.
    - intros (D & _). congruence.
    - intros ->. split; [exact V|]. rewrite C. split; [discriminate|]. intros c' r' EQ R.
      injection EQ as <- <-. destruct (Z.eq_dec x 0) as [->|X0]; [|apply CN; exact X0].
      vm_compute in C. injection C as _ <-. congruence. }
  rewrite D, VX. unfold full_parts. change (10 ^ 19) with exp10_19.
  assert (EV : Some v1 = Some (x / exp10_19) <-> v1 = x / exp10_19) by (split; congruence).
  rewrite EV, VX1. tauto.
Qed.
