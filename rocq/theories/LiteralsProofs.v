(** Lemmas about literals and comments. *)
From Coq Require Import ZArith Ascii String List Bool Lia ZifyBool.
From Verif Require Import Prelude OpsProofs Text Literals LiteralsSpec.
Import ListNotations.
Open Scope string_scope.
Open Scope list_scope.
Open Scope Z_scope.
Local Arguments Z.pow : simpl never.

(** * Characters *)

Lemma char_eqb_eq : forall a b, char_eqb a b = true <-> a = b.
Proof. intros a b. unfold char_eqb. apply Ascii.eqb_eq. Qed.

Lemma char_eqb_neq : forall a b, char_eqb a b = false <-> a <> b.
Proof. intros a b. unfold char_eqb. apply Ascii.eqb_neq. Qed.

Lemma char_eqb_refl : forall a, char_eqb a a = true.
Proof. intros a. apply char_eqb_eq. reflexivity. Qed.

Lemma text_eqb_eq : forall a b, text_eqb a b = true <-> a = b.
Proof.
  induction a as [|x a IH]; intros [|y b]; cbn; split; intros H; try discriminate; auto.
  - apply andb_true_iff in H. destruct H as [H1 H2]. apply char_eqb_eq in H1. apply IH in H2. congruence.
  - injection H as -> ->. rewrite char_eqb_refl. cbn. apply IH. reflexivity.
Qed.

Lemma starts_with_iff : forall p s, starts_with s p = true <-> exists r, s = (p ++ r).
Proof.
  induction p as [|x p IH]; intros s; cbn.
  - split; [intros _; exists s; reflexivity|auto].
  - destruct s as [|y s]; [split; [discriminate|intros [r H]; discriminate]|].
    cbn. rewrite andb_true_iff, char_eqb_eq, IH. split.
    + intros [-> [r ->]]. exists r. reflexivity.
    + intros [r H]. injection H as -> ->. split; [reflexivity|exists r; reflexivity].
Qed.

Lemma starts_with_false : forall p s, starts_with s p = false <-> forall r, s <> (p ++ r).
Proof.
  intros p s. pose proof (starts_with_iff p s) as H. destruct (starts_with s p); split.
  - discriminate.
  - intros Hn. exfalso. destruct (proj1 H eq_refl) as [r Hr]. exact (Hn r Hr).
  - intros _ r Hr. assert (false = true) by (apply H; exists r; assumption). discriminate.
  - auto.
Qed.

Lemma prefix_length_spec : forall f s,
  Forall (fun c => f c = true) (firstn (prefix_length f s) s)
  /\ (prefix_length f s <= length s)%nat
  /\ (forall c, nth_error s (prefix_length f s) = Some c -> f c = false).
Proof.
  intros f. induction s as [|c s (IH1 & IH2 & IH3)]; cbn.
  - split; [constructor|]. split; [lia|]. discriminate.
  - destruct (f c) eqn:E; cbn.
    + split; [constructor; assumption|]. split; [lia|]. exact IH3.
    + split; [constructor|]. split; [lia|]. intros c' [= <-]. exact E.
Qed.

Lemma find_char_some : forall c s i, find_char c s = Some i ->
  exists a b, s = (a ++ c :: b) /\ length a = i /\ ~ In c a.
Proof.
  induction s as [|x s IH]; intros i H; cbn in H; [discriminate|].
  destruct (char_eqb c x) eqn:E.
  - injection H as <-. apply char_eqb_eq in E. subst x. exists [], s. auto.
  - destruct (find_char c s) as [j|]; [|discriminate]. injection H as <-.
    destruct (IH j eq_refl) as (a & b & -> & <- & Hn). exists (x :: a), b.
    split; [reflexivity|]. split; [reflexivity|].
    intros [Hx|Hin]; [apply char_eqb_neq in E; congruence|contradiction].
Qed.

Lemma find_char_none : forall c s, find_char c s = None -> ~ In c s.
Proof.
  induction s as [|x s IH]; intros H; cbn in H; [auto|].
  destruct (char_eqb c x) eqn:E; [discriminate H|].
  destruct (find_char c s) as [j|]; [discriminate H|].
  intros [Hx|Hin]; [apply char_eqb_neq in E; congruence|apply IH; auto].
Qed.

Lemma find_text_nil : forall p, find_text p [] = if starts_with [] p then Some 0%nat else None.
Proof. reflexivity. Qed.
Lemma find_text_cons : forall p x s, find_text p (x :: s) =
  if starts_with (x :: s) p then Some 0%nat else option_map S (find_text p s).
Proof. reflexivity. Qed.

Lemma find_text_some : forall p s i, find_text p s = Some i ->
  occurs_at p s i /\ forall j, occurs_at p s j -> (i <= j)%nat.
Proof.
  intros p. induction s as [|x s IH]; intros i H.
  - rewrite find_text_nil in H. destruct (starts_with [] p) eqn:E; [|discriminate]. injection H as <-.
    apply starts_with_iff in E. destruct E as [r Hr]. split; [|intros; lia].
    exists [], r. auto.
  - rewrite find_text_cons in H. destruct (starts_with (x :: s) p) eqn:E.
    + injection H as <-. apply starts_with_iff in E. destruct E as [r Hr]. split; [|intros; lia].
      exists [], r. auto.
    + destruct (find_text p s) as [j|] eqn:Ef; [|discriminate]. injection H as <-.
      destruct (IH j eq_refl) as [(a & b & -> & <-) Hmin]. split.
      * exists (x :: a), b. auto.
      * intros k (a' & b' & Heq & Hl). destruct a' as [|y a'].
        -- exfalso. apply starts_with_false with (r := b') in E. apply E. exact Heq.
        -- cbn in Heq. injection Heq as -> Heq. cbn in Hl. subst k.
           assert (length a <= length a')%nat; [|lia].
           apply Hmin. exists a', b'. auto.
Qed.

Lemma find_text_none : forall p s, find_text p s = None -> forall j, ~ occurs_at p s j.
Proof.
  intros p. induction s as [|x s IH]; intros H j (a & b & Heq & Hl).
  - rewrite find_text_nil in H. destruct (starts_with [] p) eqn:E; [discriminate|].
    destruct a; [|discriminate]. apply starts_with_false with (r := b) in E. apply E. exact Heq.
  - rewrite find_text_cons in H. destruct (starts_with (x :: s) p) eqn:E; [discriminate|].
    destruct (find_text p s) as [k|] eqn:Ef; [discriminate|].
    destruct a as [|y a].
    + apply starts_with_false with (r := b) in E. apply E. exact Heq.
    + injection Heq as -> Heq. apply (IH eq_refl (length a)). exists a, b. auto.
Qed.

(** * Digit characters *)

Ltac all_chars c := destruct c as [[] [] [] [] [] [] [] []].

Lemma digit_bound : forall c d, digit c = Some d -> 0 <= d < 16.
Proof.
  intros c d. unfold digit.
  destruct ((48 <=? code c) && (code c <=? 57)) eqn:E1; [intros [= <-]; lia|].
  destruct ((97 <=? code c) && (code c <=? 102)) eqn:E2; [intros [= <-]; lia|].
  destruct ((65 <=? code c) && (code c <=? 70)) eqn:E3; [intros [= <-]; lia|discriminate].
Qed.

Definition digit_in (base : Z) (c : ascii) : bool :=
  match digit c with Some d => d <? base | None => false end.

Lemma digit_in_iff : forall base c, digit_in base c = true <-> is_digit_of base c.
Proof.
  intros base c. unfold digit_in, is_digit_of. destruct (digit c) as [d|]; split.
  - intros H. exists d. split; [reflexivity|lia].
  - intros (d' & [= <-] & H). lia.
  - discriminate.
  - intros (d' & H & _). discriminate.
Qed.

Lemma in_set_digits_2 : forall c, in_set c "01" = digit_in 2 c.
Proof. intros c. all_chars c; reflexivity. Qed.
Lemma in_set_digits_8 : forall c, in_set c "01234567" = digit_in 8 c.
Proof. intros c. all_chars c; reflexivity. Qed.
Lemma in_set_digits_10 : forall c, in_set c "0123456789" = digit_in 10 c.
Proof. intros c. all_chars c; reflexivity. Qed.
Lemma in_set_digits_16 : forall c, in_set c "0123456789abcdefABCDEF" = digit_in 16 c.
Proof. intros c. all_chars c; reflexivity. Qed.

Lemma is_decimal_digit_10 : forall c, is_decimal_digit c = digit_in 10 c.
Proof. intros c. all_chars c; reflexivity. Qed.

Lemma prefix_length_ext : forall f g s, (forall c, f c = g c) -> prefix_length f s = prefix_length g s.
Proof. intros f g s H. induction s as [|c s IH]; cbn; [reflexivity|]. rewrite H, IH. reflexivity. Qed.

Lemma match_digits_eq : forall s base, base = 2%nat \/ base = 8%nat \/ base = 10%nat \/ base = 16%nat ->
  match_digits s base = prefix_length (digit_in (Z.of_nat base)) s.
Proof.
  intros s base H. unfold match_digits. apply prefix_length_ext. intros c.
  destruct H as [-> | [-> | [-> | ->]]].
  - apply in_set_digits_2.
  - apply in_set_digits_8.
  - apply in_set_digits_10.
  - apply in_set_digits_16.
Qed.

Lemma match_digits_spec : forall s base, base = 2%nat \/ base = 8%nat \/ base = 10%nat \/ base = 16%nat ->
  let n := match_digits s base in
  Forall (is_digit_of (Z.of_nat base)) (firstn n s) /\ (n <= length s)%nat
  /\ forall c, nth_error s n = Some c -> ~ is_digit_of (Z.of_nat base) c.
Proof.
  intros s base H. cbv zeta. rewrite match_digits_eq by assumption.
  destruct (prefix_length_spec (digit_in (Z.of_nat base)) s) as (H1 & H2 & H3).
  split; [|split; [assumption|]].
  - eapply Forall_impl; [|exact H1]. intros c Hc. apply digit_in_iff. exact Hc.
  - intros c Hc Hd. apply H3 in Hc. apply digit_in_iff in Hd. congruence.
Qed.

(** * Positional value *)

(** Value computed left to right, as the code does. *)
Lemma denotes_unique : forall base s v1 v2, denotes base s v1 -> denotes base s v2 -> v1 = v2.
Proof.
  intros base s v1 v2 H. revert v2. induction H; intros v2 H2; inversion H2; subst.
  - reflexivity.
  - assert (d0 = d) by congruence. assert (v0 = v) by (symmetry; auto). congruence.
Qed.

Lemma denotes_bounds : forall base s v, 0 < base -> denotes base s v ->
  0 <= v < base ^ Z.of_nat (length s).
Proof.
  intros base s v Hb H. induction H.
  - cbn. lia.
  - cbn [length]. rewrite Nat2Z.inj_succ, Z.pow_succ_r by lia.
    pose proof (digit_bound _ _ H). nia.
Qed.

Lemma denotes_exists : forall base s, Forall (is_digit_of base) s -> exists v, denotes base s v.
Proof.
  intros base s H. induction H as [|c s (d & Hd & Hlt) _ [v Hv]].
  - exists 0. constructor.
  - eexists. econstructor; eassumption.
Qed.

(** What the small-base loop accumulates. *)
Definition small_digit_ok (c : ascii) : Prop := exists d, digit c = Some d /\ d < 10.

Lemma digit_decimal_code : forall c d, digit c = Some d -> d < 10 ->
  48 <= code c <= 57 /\ d = code c - 48.
Proof.
  intros c d. unfold digit.
  destruct ((48 <=? code c) && (code c <=? 57)) eqn:E1; [intros [= <-]; lia|].
  destruct ((97 <=? code c) && (code c <=? 102)) eqn:E2; [intros [= <-]; lia|].
  destruct ((65 <=? code c) && (code c <=? 70)) eqn:E3; [intros [= <-]; lia|discriminate].
Qed.

Lemma code_0 : code "0" = 48. Proof. reflexivity. Qed.
Lemma code_9 : code "9" = 57. Proof. reflexivity. Qed.
Lemma code_a : code "a" = 97. Proof. reflexivity. Qed.
Lemma code_f : code "f" = 102. Proof. reflexivity. Qed.

Lemma to_big_uint_add : forall a b, to_big_uint (to_big_uint a + b) = to_big_uint (a + b).
Proof. intros. unfold to_big_uint. apply Zplus_mod_idemp_l. Qed.
Lemma to_big_uint_mul : forall a b, to_big_uint (to_big_uint a * b) = to_big_uint (a * b).
Proof. intros. unfold to_big_uint. apply Zmult_mod_idemp_l. Qed.

(** One step of either loop: multiply, then add a digit. *)
Lemma parse_small_mod : forall s base v r0 res, 2 <= base <= 10 -> denotes base s v ->
  parse_digits_small s base (to_big_uint r0) = Some res ->
  res = to_big_uint (r0 * base ^ Z.of_nat (length s) + v).
Proof.
  induction s as [|c s IH]; intros base v r0 res Hb Hv H; inversion Hv; subst; cbn [parse_digits_small] in H.
  - injection H as <-. cbn. f_equal. lia.
  - rewrite code_0, code_9 in H.
    destruct (digit_decimal_code c d ltac:(assumption) ltac:(lia)) as [Hc ->].
    destruct ((code c <? 48) || (57 <? code c)) eqn:E; [lia|].
    unfold safe_mul, safe_add in H.
    destruct (negb (to_big_uint r0 <=? to_big_uint (to_big_uint r0 * base))); [discriminate|].
    destruct (negb _); [discriminate|].
    rewrite to_big_uint_mul in H.
    rewrite (to_big_uint_small (code c - 48)) in H by (pose proof two128_double; lia).
    rewrite to_big_uint_add in H.
    apply IH with (v := v0) in H; [|assumption|assumption].
    rewrite H. f_equal. cbn [length]. rewrite Nat2Z.inj_succ, Z.pow_succ_r by lia. nia.
Qed.

Lemma parse_small_fits : forall s base v r0, 2 <= base <= 10 -> denotes base s v -> 0 <= r0 ->
  r0 * base ^ Z.of_nat (length s) + v < 2 ^ 128 ->
  parse_digits_small s base r0 = Some (r0 * base ^ Z.of_nat (length s) + v).
Proof.
  induction s as [|c s IH]; intros base v r0 Hb Hv Hr Hlt; inversion Hv; subst; cbn [parse_digits_small].
  - cbn. f_equal. lia.
  - rewrite code_0, code_9.
    destruct (digit_decimal_code c d ltac:(assumption) ltac:(lia)) as [Hc ->].
    destruct ((code c <? 48) || (57 <? code c)) eqn:E; [lia|].
    cbn [length] in Hlt. rewrite Nat2Z.inj_succ, Z.pow_succ_r in Hlt by lia.
    set (P := base ^ Z.of_nat (length s)) in *.
    assert (HP : 1 <= P) by (assert (0 < P) by (apply Z.pow_pos_nonneg; lia); lia).
    pose proof (denotes_bounds base s v0 ltac:(lia) ltac:(assumption)) as Hv0. fold P in Hv0.
    assert (Hle : r0 * base + (code c - 48) < 2 ^ 128) by nia.
    unfold safe_mul, safe_add.
    rewrite (to_big_uint_small (r0 * base)) by nia.
    rewrite (to_big_uint_small (code c - 48)) by (pose proof two128_double; lia).
    replace (r0 <=? r0 * base) with true by nia. cbn [negb].
    rewrite to_big_uint_small by nia.
    replace (r0 * base <=? r0 * base + (code c - 48)) with true by lia. cbn [negb].
    rewrite (IH base v0) by (try assumption; try fold P; nia).
    f_equal. cbn [length]. rewrite Nat2Z.inj_succ, Z.pow_succ_r by lia. fold P. nia.
Qed.

Lemma digit_hex_code : forall c d, digit c = Some d -> ~ is_upper_case c ->
  (48 <= code c <= 57 /\ d = code c - 48) \/ (97 <= code c <= 102 /\ d = code c - 87).
Proof.
  intros c d. unfold digit, is_upper_case.
  destruct ((48 <=? code c) && (code c <=? 57)) eqn:E1; [intros [= <-]; lia|].
  destruct ((97 <=? code c) && (code c <=? 102)) eqn:E2; [intros [= <-]; lia|].
  destruct ((65 <=? code c) && (code c <=? 70)) eqn:E3; [intros [= <-]; lia|discriminate].
Qed.

Lemma parse_hex_mod : forall s v r0 res, denotes 16 s v ->
  parse_digits_hex s (to_big_uint r0) = Some res ->
  res = to_big_uint (r0 * 16 ^ Z.of_nat (length s) + v).
Proof.
  induction s as [|c s IH]; intros v r0 res Hv H; inversion Hv; subst; cbn [parse_digits_hex] in H.
  - injection H as <-. cbn. f_equal. lia.
  - rewrite code_0, code_9, code_a, code_f in H.
    unfold safe_mul, safe_add in H.
    destruct (negb (to_big_uint r0 <=? to_big_uint (to_big_uint r0 * 16))); [discriminate|].
    assert (Hd : d = (if (48 <=? code c) && (code c <=? 57) then code c - 48 else
                      if (97 <=? code c) && (code c <=? 102) then code c - 87 else d)
                 /\ 0 <= d < 16).
    { split; [|eapply digit_bound; eassumption].
      unfold digit in *. destruct ((48 <=? code c) && (code c <=? 57)); [congruence|].
      destruct ((97 <=? code c) && (code c <=? 102)); [congruence|]. reflexivity. }
    destruct Hd as [Hd Hd16]. pose proof two128_double.
    destruct ((48 <=? code c) && (code c <=? 57)).
    + rewrite to_big_uint_mul in H.
      rewrite (to_big_uint_small (code c - 48)) in H by lia.
      rewrite to_big_uint_add in H. destruct (negb _); [discriminate|].
      apply IH with (v := v0) in H; [|assumption].
      rewrite H. f_equal. cbn [length]. rewrite Nat2Z.inj_succ, Z.pow_succ_r by lia. nia.
    + destruct ((97 <=? code c) && (code c <=? 102)); [|discriminate].
      rewrite to_big_uint_mul in H.
      replace (10 + code c - 97) with d in H by lia.
      rewrite (to_big_uint_small d) in H by lia.
      rewrite to_big_uint_add in H. destruct (negb _); [discriminate|].
      apply IH with (v := v0) in H; [|assumption].
      rewrite H. f_equal. cbn [length]. rewrite Nat2Z.inj_succ, Z.pow_succ_r by lia. nia.
Qed.

Lemma parse_hex_fits : forall s v r0, denotes 16 s v -> Forall (fun c => ~ is_upper_case c) s ->
  0 <= r0 -> r0 * 16 ^ Z.of_nat (length s) + v < 2 ^ 128 ->
  parse_digits_hex s r0 = Some (r0 * 16 ^ Z.of_nat (length s) + v).
Proof.
  induction s as [|c s IH]; intros v r0 Hv Hu Hr Hlt; inversion Hv; subst; cbn [parse_digits_hex].
  - cbn. f_equal. lia.
  - inversion Hu as [|? ? Huc Hus]; subst.
    rewrite code_0, code_9, code_a, code_f.
    cbn [length] in Hlt. rewrite Nat2Z.inj_succ, Z.pow_succ_r in Hlt by lia.
    set (P := 16 ^ Z.of_nat (length s)) in *.
    assert (HP : 1 <= P) by (assert (0 < P) by (apply Z.pow_pos_nonneg; lia); lia).
    pose proof (denotes_bounds 16 s v0 ltac:(lia) ltac:(assumption)) as Hv0. fold P in Hv0.
    pose proof (digit_bound c d ltac:(assumption)) as Hd.
    assert (Hle : r0 * 16 + d < 2 ^ 128) by nia.
    pose proof two128_double as H128.
    unfold safe_mul, safe_add.
    rewrite (to_big_uint_small (r0 * 16)) by nia.
    replace (r0 <=? r0 * 16) with true by nia. cbn [negb].
    assert (Hgoal : parse_digits_hex s (r0 * 16 + d) =
              Some (r0 * 16 ^ Z.of_nat (length (c :: s)) + (d * P + v0))).
    { rewrite (IH v0) by (try assumption; try fold P; nia).
      f_equal. cbn [length]. rewrite Nat2Z.inj_succ, Z.pow_succ_r by lia. fold P. nia. }
    destruct (digit_hex_code c d ltac:(assumption) Huc) as [[Hc Hdc]|[Hc Hdc]].
    + replace ((48 <=? code c) && (code c <=? 57)) with true by lia.
      rewrite <- Hdc. rewrite (to_big_uint_small d) by lia. rewrite to_big_uint_small by lia.
      replace (r0 * 16 <=? r0 * 16 + d) with true by lia. cbn [negb]. exact Hgoal.
    + replace ((48 <=? code c) && (code c <=? 57)) with false by lia.
      replace ((97 <=? code c) && (code c <=? 102)) with true by lia.
      replace (10 + code c - 97) with d by lia.
      rewrite (to_big_uint_small d) by lia. rewrite to_big_uint_small by lia.
      replace (r0 * 16 <=? r0 * 16 + d) with true by lia. cbn [negb]. exact Hgoal.
Qed.

Definition supported_base (base : Z) : Prop := base = 2 \/ base = 8 \/ base = 10 \/ base = 16.

Lemma parse_digits_modulo : forall base s v r, supported_base base -> denotes base s v ->
  parse_uinteger_digits s base = Some r -> r = v mod 2 ^ 128.
Proof.
  intros base s v r Hb Hv H. unfold parse_uinteger_digits in H.
  destruct s as [|c s]; [discriminate|].
  destruct (base <=? 10) eqn:E.
  - change 0 with (to_big_uint 0) in H at 1.
    apply parse_small_mod with (v := v) in H; [|unfold supported_base in Hb; lia|assumption].
    exact H.
  - assert (base = 16) by (unfold supported_base in Hb; lia). subst base.
    change 0 with (to_big_uint 0) in H. apply parse_hex_mod with (v := v) in H; [|assumption]. exact H.
Qed.

Lemma parse_digits_fits : forall base s v, supported_base base -> denotes base s v -> s <> [] ->
  Forall (fun c => ~ is_upper_case c) s -> v < 2 ^ 128 ->
  parse_uinteger_digits s base = Some v.
Proof.
  intros base s v Hb Hv Hne Hu Hlt. unfold parse_uinteger_digits.
  destruct s as [|c s]; [congruence|].
  destruct (base <=? 10) eqn:E.
  - rewrite (parse_small_fits (c :: s) base v 0); [reflexivity| |assumption|lia|lia].
    unfold supported_base in Hb; lia.
  - assert (base = 16) by (unfold supported_base in Hb; lia). subst base.
    rewrite (parse_hex_fits (c :: s) v 0); try assumption; try lia. reflexivity.
Qed.

(** In base 2 the overflow check is exact. *)
Lemma parse_binary_exact_loop : forall s v r0 res, denotes 2 s v -> 0 <= r0 < 2 ^ 128 ->
  parse_digits_small s 2 r0 = Some res -> r0 * 2 ^ Z.of_nat (length s) + v < 2 ^ 128.
Proof.
  induction s as [|c s IH]; intros v r0 res Hv Hr H; inversion Hv; subst.
  - cbn. change (2 ^ 0) with 1. lia.
  - cbn [parse_digits_small] in H. rewrite code_0, code_9 in H.
    destruct (digit_decimal_code c d ltac:(assumption) ltac:(lia)) as [Hc ->].
    destruct ((code c <? 48) || (57 <? code c)) eqn:E; [lia|].
    unfold safe_mul, safe_add in H.
    pose proof two128_double as H128.
    rewrite (to_big_uint_small (code c - 48)) in H by lia.
    assert (Hsmall : r0 * 2 < 2 ^ 128).
    { destruct (Z_lt_le_dec (r0 * 2) (2 ^ 128)) as [|Hge]; [assumption|].
      exfalso. destruct (r0 <=? to_big_uint (r0 * 2)) eqn:E2; [|discriminate].
      unfold to_big_uint in E2. rewrite two128_val in E2.
      assert (r0 * 2 mod 2 ^ 128 = r0 * 2 - 2 ^ 128)
        by (symmetry; apply Zmod_unique with (q := 1); lia). lia. }
    rewrite (to_big_uint_small (r0 * 2)) in H by lia.
    destruct (negb (r0 <=? r0 * 2)); [discriminate|].
    assert (Hadd : r0 * 2 + (code c - 48) < 2 ^ 128) by lia.
    rewrite to_big_uint_small in H by lia.
    destruct (negb _); [discriminate|].
    apply IH with (v := v0) in H; [|assumption|lia].
    cbn [length]. rewrite Nat2Z.inj_succ, Z.pow_succ_r by lia. nia.
Qed.

Lemma parse_binary_exact : forall s v, s <> [] -> denotes 2 s v ->
  parse_uinteger_digits s 2 = if v <? 2 ^ 128 then Some v else None.
Proof.
  intros s v Hne Hv. destruct (v <? 2 ^ 128) eqn:E.
  - apply parse_digits_fits; try assumption; [unfold supported_base; auto| |lia].
    clear Hne E. induction Hv; constructor; [|assumption].
    destruct (digit_decimal_code c d ltac:(assumption) ltac:(lia)). unfold is_upper_case. lia.
  - destruct (parse_uinteger_digits s 2) as [r|] eqn:Ep; [|reflexivity].
    exfalso. unfold parse_uinteger_digits in Ep. destruct s as [|c s]; [congruence|].
    cbn [Z.leb Z.compare Pos.compare Pos.compare_cont] in Ep.
    apply parse_binary_exact_loop with (v := v) in Ep; [|assumption|pose proof two128_pos; lia].
    lia.
Qed.

(** The overflow check is exact for values below 2^128 * base / (base - 1). *)
Lemma mul_overflow_seen : forall r0 base, 2 <= base -> 0 <= r0 < 2 ^ 128 ->
  (base - 1) * r0 < 2 ^ 128 -> (r0 <=? to_big_uint (r0 * base)) = true -> r0 * base < 2 ^ 128.
Proof.
  intros r0 base Hb Hr Hq E. destruct (Z_lt_le_dec (r0 * base) (2 ^ 128)) as [|Hge]; [assumption|].
  exfalso. unfold to_big_uint in E. rewrite two128_val in E.
  assert (r0 * base mod 2 ^ 128 = r0 * base - 2 ^ 128)
    by (symmetry; apply Zmod_unique with (q := 1); nia). nia.
Qed.

Lemma add_overflow_seen : forall x d, 0 <= x < 2 ^ 128 -> 0 <= d < 2 ^ 128 ->
  (x <=? to_big_uint (x + d)) = true -> x + d < 2 ^ 128.
Proof.
  intros x d Hx Hd E. destruct (Z_lt_le_dec (x + d) (2 ^ 128)) as [|Hge]; [assumption|].
  exfalso. unfold to_big_uint in E. rewrite two128_val in E.
  assert ((x + d) mod 2 ^ 128 = x + d - 2 ^ 128)
    by (symmetry; apply Zmod_unique with (q := 1); lia). lia.
Qed.

Lemma parse_small_near : forall s base v r0 res, 2 <= base <= 10 -> denotes base s v -> 0 <= r0 < 2 ^ 128 ->
  (base - 1) * (r0 * base ^ Z.of_nat (length s) + v) < 2 ^ 128 * base ->
  parse_digits_small s base r0 = Some res -> r0 * base ^ Z.of_nat (length s) + v < 2 ^ 128.
Proof.
  induction s as [|c s IH]; intros base v r0 res Hb Hv Hr Hn H; inversion Hv; subst.
  - cbn [length]. change (Z.of_nat 0) with 0. rewrite Z.pow_0_r. lia.
  - cbn [parse_digits_small] in H. rewrite code_0, code_9 in H.
    destruct (digit_decimal_code c d ltac:(assumption) ltac:(lia)) as [Hc ->].
    destruct ((code c <? 48) || (57 <? code c)) eqn:E; [lia|].
    unfold safe_mul, safe_add in H. pose proof two128_double as H128.
    rewrite (to_big_uint_small (code c - 48)) in H by lia.
    cbn [length] in *. rewrite Nat2Z.inj_succ, Z.pow_succ_r in * by lia.
    pose proof (denotes_bounds base s v0 ltac:(lia) ltac:(assumption)) as Hv0.
    set (P := base ^ Z.of_nat (length s)) in *.
    assert (HP : 1 <= P) by (assert (0 < P) by (apply Z.pow_pos_nonneg; lia); lia).
    destruct (r0 <=? to_big_uint (r0 * base)) eqn:E1; [|discriminate]. cbn [negb] in H.
    assert (Hm : r0 * base < 2 ^ 128).
    { apply mul_overflow_seen; try assumption; [lia|].
      assert (r0 * base <= r0 * (base * P) + ((code c - 48) * P + v0)) by nia.
      assert ((base - 1) * (r0 * base) < 2 ^ 128 * base) by nia. nia. }
    rewrite (to_big_uint_small (r0 * base)) in H by nia.
    destruct (r0 * base <=? to_big_uint (r0 * base + (code c - 48))) eqn:E2; [|discriminate]. cbn [negb] in H.
    apply add_overflow_seen in E2; [|nia|lia].
    rewrite to_big_uint_small in H by nia.
    apply IH with (v := v0) in H; try assumption; fold P in H |- *; try nia.
Qed.

Lemma parse_hex_near : forall s v r0 res, denotes 16 s v -> 0 <= r0 < 2 ^ 128 ->
  15 * (r0 * 16 ^ Z.of_nat (length s) + v) < 2 ^ 128 * 16 ->
  parse_digits_hex s r0 = Some res -> r0 * 16 ^ Z.of_nat (length s) + v < 2 ^ 128.
Proof.
  induction s as [|c s IH]; intros v r0 res Hv Hr Hn H; inversion Hv; subst.
  - cbn [length]. change (Z.of_nat 0) with 0. rewrite Z.pow_0_r. lia.
  - cbn [parse_digits_hex] in H. rewrite code_0, code_9, code_a, code_f in H.
    pose proof (digit_bound c d ltac:(assumption)) as Hd.
    unfold safe_mul, safe_add in H. pose proof two128_double as H128.
    cbn [length] in *. rewrite Nat2Z.inj_succ, Z.pow_succ_r in * by lia.
    pose proof (denotes_bounds 16 s v0 ltac:(lia) ltac:(assumption)) as Hv0.
    set (P := 16 ^ Z.of_nat (length s)) in *.
    assert (HP : 1 <= P) by (assert (0 < P) by (apply Z.pow_pos_nonneg; lia); lia).
    destruct (r0 <=? to_big_uint (r0 * 16)) eqn:E1; [|discriminate]. cbn [negb] in H.
    assert (Hm : r0 * 16 < 2 ^ 128).
    { apply mul_overflow_seen; try assumption; [lia|].
      assert (r0 * 16 <= r0 * (16 * P) + (d * P + v0)) by nia. lia. }
    rewrite (to_big_uint_small (r0 * 16)) in H by nia.
    assert (Next : forall k, k = d -> (let r := to_big_uint (r0 * 16 + to_big_uint k) in
                     if negb (r0 * 16 <=? r) then None else parse_digits_hex s r) = Some res ->
                   r0 * (16 * P) + (d * P + v0) < 2 ^ 128).
    { intros k -> Hk. cbv zeta in Hk. rewrite (to_big_uint_small d) in Hk by lia.
      destruct (r0 * 16 <=? to_big_uint (r0 * 16 + d)) eqn:E2; [|discriminate]. cbn [negb] in Hk.
      apply add_overflow_seen in E2; [|lia|lia].
      rewrite to_big_uint_small in Hk by lia.
      apply IH with (v := v0) in Hk; try assumption; fold P in Hk |- *; try nia. }
    match goal with Hdig : digit c = Some d |- _ => unfold digit in Hdig end.
    destruct ((48 <=? code c) && (code c <=? 57)).
    + apply (Next (code c - 48)); [congruence|exact H].
    + destruct ((97 <=? code c) && (code c <=? 102)); [|discriminate].
      apply (Next (10 + code c - 97)); [|exact H].
      match goal with Hdig : Some _ = Some d |- _ => injection Hdig; lia end.
Qed.

Lemma parse_near_overflow : forall base s v, supported_base base -> denotes base s v -> s <> [] ->
  2 ^ 128 <= v -> (base - 1) * v < base * 2 ^ 128 -> parse_uinteger_digits s base = None.
Proof.
  intros base s v Hb Hv Hne Hge Hlt. destruct (parse_uinteger_digits s base) as [r|] eqn:E; [|reflexivity].
  exfalso. unfold parse_uinteger_digits in E. destruct s as [|c s]; [congruence|].
  destruct (base <=? 10) eqn:E10.
  - apply parse_small_near with (v := v) in E; try assumption;
      [lia|unfold supported_base in Hb; lia|pose proof two128_pos; lia|lia].
  - assert (base = 16) by (unfold supported_base in Hb; lia). subst base.
    apply parse_hex_near with (v := v) in E; try assumption; pose proof two128_pos; lia.
Qed.

Lemma denotes_32_zeros : denotes 10 "400000000000000000000000000000000000000"
  400000000000000000000000000000000000000.
Proof.
  change 400000000000000000000000000000000000000 with
    (4 * 10 ^ Z.of_nat (length (str "00000000000000000000000000000000000000")) + 0).
  change (str "400000000000000000000000000000000000000") with
    ("4"%char :: str "00000000000000000000000000000000000000").
  constructor; [reflexivity|lia|].
  assert (Hz : forall n, denotes 10 (repeat "0"%char n) 0).
  { induction n as [|n IHn]; cbn [repeat]; [constructor|].
    exact (denotes_cons 10 "0"%char 0 _ _ eq_refl ltac:(lia) IHn). }
  exact (Hz 38%nat).
Qed.

(** * Whole literals *)

Lemma to_big_int_range : forall v, 0 <= v < 2 ^ 127 -> to_big_int v = v.
Proof. apply to_big_int_small. Qed.

Lemma digit_char_0b : digit "b" = Some 11. Proof. reflexivity. Qed.

Lemma literal_parse : forall t p ds v, is_literal_text t p ds ->
  denotes (base_of t) ds v -> Forall (fun c => ~ is_upper_case c) ds -> v < 2 ^ 128 ->
  parse_uinteger_literal p = Some v.
Proof.
  intros t p ds v Hl Hv Hu Hlt. inversion Hl; subst; cbn [base_of] in Hv.
  - change (parse_uinteger_literal (str "0b" ++ ds)) with (parse_uinteger_digits ds 2).
    apply parse_digits_fits; try assumption. unfold supported_base; auto.
  - change (parse_uinteger_literal (str "0x" ++ ds)) with (parse_uinteger_digits ds 16).
    apply parse_digits_fits; try assumption. unfold supported_base; auto.
  - assert (Hp : parse_uinteger_literal ("0"%char :: ds0) = parse_uinteger_digits ("0"%char :: ds0) 8).
    { unfold parse_uinteger_literal. destruct ds0 as [|c ds0]; [reflexivity|].
      inversion H0 as [|? ? Hc _]; subst. apply digit_in_iff in Hc.
      replace (starts_with ("0"%char :: c :: ds0) (str "0b")) with false
        by (revert Hc; clear; all_chars c; intros H; try discriminate H; reflexivity).
      replace (starts_with ("0"%char :: c :: ds0) (str "0x")) with false
        by (revert Hc; clear; all_chars c; intros H; try discriminate H; reflexivity).
      reflexivity. }
    rewrite Hp. apply parse_digits_fits; try assumption; [unfold supported_base; auto|discriminate].
  - inversion Hv as [|? ? ? ? Hd Hlt10 Hn]; subst. inversion Hn; subst. injection Hd as <-.
    reflexivity.
  - assert (Hp : parse_uinteger_literal (c :: ds0) = parse_uinteger_digits (c :: ds0) 10).
    { unfold parse_uinteger_literal. cbn [starts_with str list_ascii_of_string].
      assert (char_eqb "0" c = false) as -> by (apply char_eqb_neq; congruence). reflexivity. }
    rewrite Hp. apply parse_digits_fits; try assumption; [unfold supported_base; auto|discriminate].
Qed.

Lemma digit_not_minus : forall base c, is_digit_of base c -> c <> "-"%char.
Proof. intros base c (d & Hd & _) ->. discriminate. Qed.

Lemma starts_with_minus : forall c s, starts_with (c :: s) "-" = char_eqb "-" c.
Proof. intros c s. cbn. apply andb_true_r. Qed.

Lemma literal_text_no_minus : forall t p ds, is_literal_text t p ds -> starts_with p "-" = false.
Proof.
  intros t p ds H. inversion H; subst; try reflexivity.
  rewrite starts_with_minus. apply char_eqb_neq. intros <-.
  match goal with H : is_digit_of 10 _ |- _ => apply (digit_not_minus 10 _ H eq_refl) end.
Qed.

Lemma literal_int_value : forall t p ds v, is_literal_text t p ds ->
  denotes (base_of t) ds v -> Forall (fun c => ~ is_upper_case c) ds -> v < 2 ^ 127 ->
  parse_integer_literal p = Some v.
Proof.
  intros t p ds v Hl Hv Hu Hlt.
  pose proof two128_double as H128.
  pose proof (literal_text_no_minus _ _ _ Hl) as Hm.
  assert (Hp : parse_uinteger_literal p = Some v) by (eapply literal_parse; try eassumption; lia).
  unfold parse_integer_literal. destruct p as [|c p]; [inversion Hl|].
  rewrite Hm, Hp. f_equal. apply to_big_int_small.
  assert (0 < base_of t) by (destruct t; reflexivity).
  pose proof (denotes_bounds _ _ _ ltac:(eassumption) Hv). lia.
Qed.

Lemma literal_negative_value : forall t p ds v, is_literal_text t p ds ->
  denotes (base_of t) ds v -> Forall (fun c => ~ is_upper_case c) ds -> v <= 2 ^ 127 ->
  parse_integer_literal ("-"%char :: p) = Some (- v).
Proof.
  intros t p ds v Hl Hv Hu Hlt.
  pose proof two128_double as H128.
  assert (Hp : parse_uinteger_literal p = Some v) by (eapply literal_parse; try eassumption; lia).
  assert (Hb : 0 <= v).
  { assert (0 < base_of t) by (destruct t; reflexivity).
    pose proof (denotes_bounds _ _ _ ltac:(eassumption) Hv). lia. }
  unfold parse_integer_literal. rewrite starts_with_minus, char_eqb_refl.
  cbn [skipn]. rewrite Hp. f_equal.
  unfold to_big_int, to_big_uint. rewrite two128_val, two127_val.
  rewrite Z.mod_mod by lia.
  destruct (Z.eq_dec v 0) as [->|Hnz]; [reflexivity|].
  assert ((- v) mod 2 ^ 128 = 2 ^ 128 - v) as -> by (symmetry; apply Zmod_unique with (q := -1); lia).
  destruct (2 ^ 128 - v <? 2 ^ 127) eqn:E; lia.
Qed.

(** * The recogniser *)

Lemma firstn_all_digits : forall base s, base = 2%nat \/ base = 8%nat \/ base = 10%nat \/ base = 16%nat ->
  Forall (is_digit_of (Z.of_nat base)) (firstn (match_digits s base) s).
Proof. intros. apply match_digits_spec. assumption. Qed.

Lemma match_digits_first : forall c s base,
  base = 2%nat \/ base = 8%nat \/ base = 10%nat \/ base = 16%nat ->
  is_digit_of (Z.of_nat base) c -> match_digits (c :: s) base = S (match_digits s base).
Proof.
  intros c s base Hb Hc. rewrite !match_digits_eq by assumption. cbn.
  apply digit_in_iff in Hc. rewrite Hc. reflexivity.
Qed.

Definition follows_no_digit (s : text) (n : nat) (base : Z) : Prop :=
  forall c, nth_error s n = Some c -> ~ is_digit_of base c.

Lemma match_integer_literal_ok : forall s len t,
  match_integer_literal s = LM lm_ok len t ->
  exists p ds rest, s = (p ++ rest) /\ length p = len /\ is_literal_text t p ds
    /\ (match rest with
        | [] => True
        | c :: _ => ~ is_digit_of (if Nat.eqb len 1 then if starts_with s "0" then 8 else 10
                                   else base_of t) c
        end).
Proof.
  intros s len t H. unfold match_integer_literal in H. destruct s as [|c s]; [discriminate|].
  destruct (is_decimal_digit c) eqn:Ed; cbn [negb] in H; [|discriminate].
  assert (Hrest : forall n u base,
     (forall x, nth_error u n = Some x -> ~ is_digit_of base x) ->
     match skipn n u with [] => True | x :: _ => ~ is_digit_of base x end).
  { intros n u. revert n. induction u as [|y u IHu]; intros [|n] base Hx; cbn.
    - exact I.
    - exact I.
    - apply Hx. reflexivity.
    - apply IHu. exact Hx. }
  destruct (starts_with (c :: s) "0b") eqn:Eb.
  { apply starts_with_iff in Eb. destruct Eb as [r Hr]. injection Hr as -> ->.
    cbn [skipn] in H.
    destruct (Nat.eqb (match_digits r 2) 0) eqn:E0; [discriminate|].
    injection H as <- <-.
    destruct (match_digits_spec r 2 ltac:(auto)) as (H1 & H2 & H3).
    exists (str "0b" ++ firstn (match_digits r 2) r), (firstn (match_digits r 2) r),
      (skipn (match_digits r 2) r).
    split; [|split; [|split]].
    - cbn. rewrite firstn_skipn. reflexivity.
    - cbn. rewrite firstn_length. lia.
    - constructor; [|exact H1]. intros Hn. apply (f_equal (@length ascii)) in Hn.
      rewrite firstn_length in Hn. change (@length ascii []) with 0%nat in Hn. lia.
    - apply Nat.eqb_neq in E0. destruct (Nat.eqb (match_digits r 2 + 2) 1) eqn:E1; [lia|].
      apply Hrest. exact H3. }
  destruct (starts_with (c :: s) "0x") eqn:Ex.
  { apply starts_with_iff in Ex. destruct Ex as [r Hr]. injection Hr as -> ->.
    cbn [skipn] in H.
    destruct (Nat.eqb (match_digits r 16) 0) eqn:E0; [discriminate|].
    injection H as <- <-.
    destruct (match_digits_spec r 16 ltac:(auto)) as (H1 & H2 & H3).
    exists (str "0x" ++ firstn (match_digits r 16) r), (firstn (match_digits r 16) r),
      (skipn (match_digits r 16) r).
    split; [|split; [|split]].
    - cbn. rewrite firstn_skipn. reflexivity.
    - cbn. rewrite firstn_length. lia.
    - constructor; [|exact H1]. intros Hn. apply (f_equal (@length ascii)) in Hn.
      rewrite firstn_length in Hn. change (@length ascii []) with 0%nat in Hn. lia.
    - apply Nat.eqb_neq in E0. destruct (Nat.eqb (match_digits r 16 + 2) 1) eqn:E1; [lia|].
      apply Hrest. exact H3. }
  destruct (char_eqb c "0") eqn:Ec.
  { apply char_eqb_eq in Ec. subst c.
    assert (H0 : is_digit_of (Z.of_nat 8) "0"%char) by (exists 0; split; [reflexivity|lia]).
    rewrite match_digits_first in H by auto.
    destruct (match_digits_spec s 8 ltac:(auto)) as (H1 & H2 & H3).
    exists ("0"%char :: firstn (match_digits s 8) s), ("0"%char :: firstn (match_digits s 8) s),
      (skipn (match_digits s 8) s).
    injection H as <- <-.
    split; [|split; [|split]].
    - cbn. rewrite firstn_skipn. reflexivity.
    - cbn. rewrite firstn_length. lia.
    - destruct (match_digits s 8) as [|n] eqn:En; cbn [Nat.eqb].
      + cbn. constructor.
      + constructor; [|exact H1]. intros Hn. apply (f_equal (@length ascii)) in Hn.
        rewrite firstn_length in Hn. change (@length ascii []) with 0%nat in Hn. lia.
    - cbn [Nat.eqb]. destruct (match_digits s 8) as [|n] eqn:En.
      + cbn [Nat.eqb starts_with str list_ascii_of_string]. rewrite char_eqb_refl. cbn [andb].
        apply Hrest. exact H3.
      + cbn [Nat.eqb]. apply Hrest. exact H3. }
  { rewrite is_decimal_digit_10 in Ed. apply digit_in_iff in Ed.
    rewrite match_digits_first in H by auto.
    destruct (match_digits_spec s 10 ltac:(auto)) as (H1 & H2 & H3).
    exists (c :: firstn (match_digits s 10) s), (c :: firstn (match_digits s 10) s),
      (skipn (match_digits s 10) s).
    injection H as <- <-.
    split; [|split; [|split]].
    - cbn. rewrite firstn_skipn. reflexivity.
    - cbn. rewrite firstn_length. lia.
    - constructor; [apply char_eqb_neq; assumption|assumption|exact H1].
    - cbn [starts_with str list_ascii_of_string].
      assert (char_eqb "0" c = false) as -> by (apply char_eqb_neq in Ec; apply char_eqb_neq; congruence).
      cbn [andb base_of]. destruct (Nat.eqb _ 1); apply Hrest; exact H3. }
Qed.

Lemma match_integer_literal_no_digits : forall s,
  lm_status (match_integer_literal s) = lm_no_digits <->
  match s with [] => True | c :: _ => ~ is_digit_of 10 c end.
Proof.
  intros [|c s]; cbn [match_integer_literal]; [split; auto|].
  rewrite is_decimal_digit_10, <- digit_in_iff.
  destruct (digit_in 10 c); cbn [negb].
  - split; [|congruence]. intros H. exfalso. revert H.
    destruct (starts_with (c :: s) "0b"); [destruct (Nat.eqb _ 0); discriminate|].
    destruct (starts_with (c :: s) "0x"); [destruct (Nat.eqb _ 0); discriminate|].
    destruct (char_eqb c "0"); discriminate.
  - split; [intros _; discriminate|reflexivity].
Qed.

Lemma match_digits_zero : forall s base, base = 2%nat \/ base = 8%nat \/ base = 10%nat \/ base = 16%nat ->
  (match_digits s base = 0%nat <->
   match s with [] => True | c :: _ => ~ is_digit_of (Z.of_nat base) c end).
Proof.
  intros s base Hb. rewrite match_digits_eq by assumption. destruct s as [|c s]; cbn; [tauto|].
  rewrite <- digit_in_iff. destruct (digit_in (Z.of_nat base) c); split; try congruence; auto.
Qed.

Lemma match_integer_literal_prefix_only : forall s,
  lm_status (match_integer_literal s) = lm_no_digits_following_prefix <->
  (exists r, s = (str "0b" ++ r) /\ match r with [] => True | c :: _ => ~ is_digit_of 2 c end)
  \/ (exists r, s = (str "0x" ++ r) /\ match r with [] => True | c :: _ => ~ is_digit_of 16 c end).
Proof.
  intros s. split.
  - destruct s as [|c s]; cbn [match_integer_literal]; [discriminate|].
    destruct (negb (is_decimal_digit c)); [discriminate|].
    destruct (starts_with (c :: s) "0b") eqn:Eb.
    { apply starts_with_iff in Eb. destruct Eb as [r Hr]. injection Hr as -> ->. cbn [skipn].
      destruct (Nat.eqb (match_digits r 2) 0) eqn:E0; [|discriminate]. intros _.
      left. exists r. split; [reflexivity|]. apply Nat.eqb_eq in E0.
      apply match_digits_zero in E0; auto. }
    destruct (starts_with (c :: s) "0x") eqn:Ex.
    { apply starts_with_iff in Ex. destruct Ex as [r Hr]. injection Hr as -> ->. cbn [skipn].
      destruct (Nat.eqb (match_digits r 16) 0) eqn:E0; [|discriminate]. intros _.
      right. exists r. split; [reflexivity|]. apply Nat.eqb_eq in E0.
      apply match_digits_zero in E0; auto. }
    destruct (char_eqb c "0"); discriminate.
  - intros [[r [-> Hr]]|[r [-> Hr]]].
    + change (lm_status (if Nat.eqb (match_digits r 2) 0
                         then LM lm_no_digits_following_prefix 2 binary_lit
                         else LM lm_ok (match_digits r 2 + 2) binary_lit)
              = lm_no_digits_following_prefix).
      apply (match_digits_zero r 2) in Hr; [|auto]. rewrite Hr. reflexivity.
    + change (lm_status (if Nat.eqb (match_digits r 16) 0
                         then LM lm_no_digits_following_prefix 2 hexadecimal_lit
                         else LM lm_ok (match_digits r 16 + 2) hexadecimal_lit)
              = lm_no_digits_following_prefix).
      apply (match_digits_zero r 16) in Hr; [|auto]. rewrite Hr. reflexivity.
Qed.

(** * Comments *)

Lemma line_comment_spec : forall s,
  match match_line_comment s with
  | None => forall r, s <> (str "//" ++ r)
  | Some (TM len true) =>
      exists p r, s = (p ++ ch_newline :: r) /\ length p = len
                  /\ starts_with p "//" = true /\ ~ In ch_newline p
  | Some (TM len false) => starts_with s "//" = true /\ len = length s /\ ~ In ch_newline s
  end.
Proof.
  intros s. unfold match_line_comment.
  destruct (starts_with s "//") eqn:E; cbn [negb].
  - apply starts_with_iff in E. destruct E as [r ->]. cbn [str list_ascii_of_string app skipn].
    destruct (find_char ch_newline r) as [i|] eqn:Ef.
    + apply find_char_some in Ef. destruct Ef as (a & b & -> & <- & Hn).
      exists ("/"%char :: "/"%char :: a), b. split; [reflexivity|]. split; [reflexivity|].
      split; [reflexivity|]. intros [H|[H|H]]; try discriminate. contradiction.
    + apply find_char_none in Ef. split; [reflexivity|]. split; [reflexivity|].
      intros [H|[H|H]]; try discriminate. contradiction.
  - apply starts_with_false. exact E.
Qed.

Lemma block_comment_spec : forall s,
  match match_block_comment s with
  | None => forall r, s <> (str "/*" ++ r)
  | Some (TM len true) =>
      exists body r, s = (str "/*" ++ body ++ str "*/" ++ r) /\ len = (length body + 4)%nat
        /\ forall j, occurs_at "*/" (body ++ str "*/" ++ r) j -> (length body <= j)%nat
  | Some (TM len false) =>
      exists r, s = (str "/*" ++ r) /\ len = length s /\ forall j, ~ occurs_at "*/" r j
  end.
Proof.
  intros s. unfold match_block_comment.
  destruct (starts_with s "/*") eqn:E; cbn [negb].
  - apply starts_with_iff in E. destruct E as [r ->]. cbn [str list_ascii_of_string app skipn].
    destruct (find_text ["*"%char; "/"%char] r) as [i|] eqn:Ef.
    + apply find_text_some in Ef. destruct Ef as [(a & b & -> & <-) Hmin].
      exists a, b. split; [reflexivity|]. split; [lia|]. exact Hmin.
    + exists r. split; [reflexivity|]. split; [reflexivity|]. apply find_text_none. exact Ef.
  - apply starts_with_false. exact E.
Qed.

Lemma closing_quote_some : forall s i,
  (find_closing_quote false s = Some i ->
     exists body r, s = (body ++ ch_quote :: r) /\ length body = i /\ string_body body)
  /\ (find_closing_quote true s = Some i ->
     exists c body r, s = (c :: body ++ ch_quote :: r) /\ S (length body) = i /\ string_body body).
Proof.
  induction s as [|c s IH]; intros i; [split; discriminate|]. split; cbn [find_closing_quote].
  - destruct (char_eqb c ch_backslash) eqn:Eb.
    + apply char_eqb_eq in Eb. subst c.
      destruct (find_closing_quote true s) as [j|] eqn:Ef; [|discriminate]. intros [= <-].
      destruct (proj2 (IH j) eq_refl) as (c & body & r & -> & <- & Hb).
      exists (ch_backslash :: c :: body), r. split; [reflexivity|]. split; [reflexivity|].
      apply body_escape. exact Hb.
    + destruct (char_eqb c ch_quote) eqn:Eq.
      * intros [= <-]. apply char_eqb_eq in Eq. subst c. exists [], s.
        split; [reflexivity|]. split; [reflexivity|constructor].
      * destruct (find_closing_quote false s) as [j|] eqn:Ef; [|discriminate]. intros [= <-].
        destruct (proj1 (IH j) eq_refl) as (body & r & -> & <- & Hb).
        exists (c :: body), r. split; [reflexivity|]. split; [reflexivity|].
        constructor; [apply char_eqb_neq; assumption|apply char_eqb_neq; assumption|exact Hb].
  - destruct (find_closing_quote false s) as [j|] eqn:Ef; [|discriminate]. intros [= <-].
    destruct (proj1 (IH j) eq_refl) as (body & r & -> & <- & Hb).
    exists c, body, r. split; [reflexivity|]. split; [reflexivity|exact Hb].
Qed.

Lemma closing_quote_complete : forall body, string_body body -> forall r,
  find_closing_quote false (body ++ ch_quote :: r) = Some (length body).
Proof.
  intros body H. induction H; intros r.
  - reflexivity.
  - cbn [app find_closing_quote]. apply char_eqb_neq in H, H0. rewrite H0, H.
    rewrite IHstring_body. reflexivity.
  - cbn [app find_closing_quote]. rewrite char_eqb_refl. rewrite IHstring_body. reflexivity.
Qed.

Lemma string_literal_spec : forall s,
  match match_string_literal s with
  | None => forall r, s <> ch_quote :: r
  | Some (TM len true) =>
      exists body r, s = (ch_quote :: body ++ ch_quote :: r) /\ string_body body
                     /\ len = (length body + 2)%nat
  | Some (TM len false) =>
      len = length s /\ (exists r, s = ch_quote :: r)
      /\ forall body r, string_body body -> s <> (ch_quote :: body ++ ch_quote :: r)
  end.
Proof.
  intros [|c s]; cbn [match_string_literal]; [discriminate|].
  destruct (char_eqb c ch_quote) eqn:E; cbn [negb].
  - apply char_eqb_eq in E. subst c.
    destruct (find_closing_quote false s) as [i|] eqn:Ef.
    + destruct (proj1 (closing_quote_some s i) Ef) as (body & r & -> & <- & Hb).
      exists body, r. split; [reflexivity|]. split; [exact Hb|lia].
    + split; [reflexivity|]. split; [exists s; reflexivity|].
      intros body r Hb Heq. injection Heq as ->. rewrite closing_quote_complete in Ef by assumption.
      discriminate.
  - intros r Heq. injection Heq as -> _. rewrite char_eqb_refl in E. discriminate.
Qed.

(** The decomposition of a terminated string literal is unique. *)
Lemma string_body_unique : forall b1 b2 r1 r2, string_body b1 -> string_body b2 ->
  (b1 ++ ch_quote :: r1) = (b2 ++ ch_quote :: r2) -> b1 = b2 /\ r1 = r2.
Proof.
  intros b1 b2 r1 r2 H1 H2 Heq.
  assert (Hl : length b1 = length b2).
  { pose proof (closing_quote_complete b1 H1 r1) as E1. rewrite Heq in E1.
    rewrite closing_quote_complete in E1 by assumption. congruence. }
  assert (Hb : b1 = b2).
  { apply (f_equal (firstn (length b1))) in Heq.
    rewrite firstn_app, Nat.sub_diag, firstn_all in Heq. cbn in Heq.
    rewrite Hl in Heq. rewrite firstn_app, Nat.sub_diag, firstn_all in Heq. cbn in Heq.
    rewrite !app_nil_r in Heq. exact Heq. }
  subst b2. split; [reflexivity|]. apply app_inv_head in Heq. congruence.
Qed.

Lemma literal_text_digits : forall t p ds, is_literal_text t p ds ->
  Forall (is_digit_of (base_of t)) ds /\ exists pre, p = pre ++ ds.
Proof.
  intros t p ds H. inversion H; subst; cbn [base_of].
  - split; [assumption|eexists; reflexivity].
  - split; [assumption|eexists; reflexivity].
  - split; [|exists []; reflexivity]. constructor; [|assumption]. exists 0. split; [reflexivity|lia].
  - split; [|exists []; reflexivity]. repeat constructor. exists 0. split; [reflexivity|lia].
  - split; [|exists []; reflexivity]. constructor; assumption.
Qed.

Lemma recognised_has_value : forall s len t,
  match_integer_literal s = LM lm_ok len t ->
  Forall (fun c => ~ is_upper_case c) (firstn len s) ->
  exists ds v, is_literal_text t (firstn len s) ds /\ denotes (base_of t) ds v
    /\ (v < 2 ^ 128 -> parse_uinteger_literal (firstn len s) = Some v).
Proof.
  intros s len t H Hu. apply match_integer_literal_ok in H.
  destruct H as (p & ds & rest & -> & Hl & Ht & _).
  assert (Hf : firstn len (p ++ rest) = p).
  { subst len. rewrite firstn_app, Nat.sub_diag, firstn_all. cbn. apply app_nil_r. }
  rewrite Hf in *. destruct (literal_text_digits _ _ _ Ht) as [Hd [pre Hp]].
  destruct (denotes_exists _ _ Hd) as [v Hv].
  exists ds, v. split; [exact Ht|]. split; [exact Hv|]. intros Hlt.
  eapply literal_parse; try eassumption.
  rewrite Hp in Hu. apply Forall_app in Hu. apply Hu.
Qed.
