(** Lemmas about annotation arguments. *)
From Coq Require Import ZArith Ascii String List Bool Lia ZifyBool.
From Verif Require Import Prelude OpsProofs Text Literals LiteralsSpec LiteralsProofs Tables
  Annotations AnnotationsSpec.
Import ListNotations.
Open Scope string_scope.
Open Scope list_scope.
Open Scope Z_scope.
Local Arguments Z.pow : simpl never.
Local Arguments char_eqb : simpl never.

(** * Small values of literals are exact *)

Lemma small_grows : forall s base r0 res, parse_digits_small s base r0 = Some res -> r0 <= res.
Proof.
  induction s as [|c s IH]; intros base r0 res H; cbn [parse_digits_small] in H.
  - injection H as <-. lia.
  - destruct ((code c <? code "0") || (code "9" <? code c)); [discriminate|].
    unfold safe_mul, safe_add in H.
    destruct (r0 <=? to_big_uint (r0 * base)) eqn:E1; [|discriminate]. cbn [negb] in H.
    destruct (to_big_uint (r0 * base) <=? _) eqn:E2 in H; [|discriminate]. cbn [negb] in H.
    apply IH in H. lia.
Qed.

Lemma hex_grows : forall s r0 res, parse_digits_hex s r0 = Some res -> r0 <= res.
Proof.
  induction s as [|c s IH]; intros r0 res H; cbn [parse_digits_hex] in H.
  - injection H as <-. lia.
  - unfold safe_mul, safe_add in H.
    destruct (r0 <=? to_big_uint (r0 * 16)) eqn:E1; [|discriminate]. cbn [negb] in H.
    destruct ((code "0" <=? code c) && (code c <=? code "9"));
      [|destruct ((code "a" <=? code c) && (code c <=? code "f")); [|discriminate]];
      (destruct (to_big_uint (r0 * 16) <=? _) eqn:E2 in H; [|discriminate]); cbn [negb] in H;
      apply IH in H; lia.
Qed.

Lemma parse_small_small : forall s base v r0 res, 2 <= base <= 10 -> denotes base s v -> 0 <= r0 ->
  parse_digits_small s base r0 = Some res -> res <= 1000 ->
  res = r0 * base ^ Z.of_nat (length s) + v.
Proof.
  induction s as [|c s IH]; intros base v r0 res Hb Hv H0 H Hr; inversion Hv; subst;
    cbn [parse_digits_small] in H.
  - injection H as <-. cbn. lia.
  - rewrite code_0, code_9 in H.
    destruct (digit_decimal_code c d ltac:(assumption) ltac:(lia)) as [Hc ->].
    destruct ((code c <? 48) || (57 <? code c)) eqn:E; [lia|].
    unfold safe_mul, safe_add in H.
    destruct (r0 <=? to_big_uint (r0 * base)) eqn:E1; [|discriminate]. cbn [negb] in H.
    destruct (to_big_uint (r0 * base) <=? _) eqn:E2 in H; [|discriminate]. cbn [negb] in H.
    pose proof (small_grows _ _ _ _ H) as Hg.
    pose proof two128_double as H128.
    assert (0 <= r0 * base <= 10000) by (split; nia).
    assert (1000000 < 2 ^ 127) by reflexivity.
    rewrite (to_big_uint_small (r0 * base)) in * by lia.
    rewrite (to_big_uint_small (code c - 48)) in * by lia.
    rewrite (to_big_uint_small (r0 * base + _)) in * by lia.
    apply IH with (v := v0) in H; [|assumption|assumption|lia|assumption].
    rewrite H. cbn [length]. rewrite Nat2Z.inj_succ, Z.pow_succ_r by lia. nia.
Qed.

Lemma parse_hex_small : forall s v r0 res, denotes 16 s v -> 0 <= r0 ->
  parse_digits_hex s r0 = Some res -> res <= 1000 ->
  res = r0 * 16 ^ Z.of_nat (length s) + v.
Proof.
  induction s as [|c s IH]; intros v r0 res Hv H0 H Hr; inversion Hv; subst; cbn [parse_digits_hex] in H.
  - injection H as <-. cbn. lia.
  - rewrite code_0, code_9, code_a, code_f in H.
    unfold safe_mul, safe_add in H.
    destruct (r0 <=? to_big_uint (r0 * 16)) eqn:E1; [|discriminate]. cbn [negb] in H.
    assert (1000000 < 2 ^ 127) by reflexivity.
    assert (Hd : d = (if (48 <=? code c) && (code c <=? 57) then code c - 48 else
                      if (97 <=? code c) && (code c <=? 102) then code c - 87 else d)
                 /\ 0 <= d < 16).
    { split; [|eapply digit_bound; eassumption].
      unfold digit in *. destruct ((48 <=? code c) && (code c <=? 57)); [congruence|].
      destruct ((97 <=? code c) && (code c <=? 102)); [congruence|]. reflexivity. }
    destruct Hd as [Hd Hd16]. pose proof two128_double.
    assert (Step : forall x, x = d ->
      (if negb (to_big_uint (r0 * 16) <=? to_big_uint (to_big_uint (r0 * 16) + to_big_uint x)) then None
       else parse_digits_hex s (to_big_uint (to_big_uint (r0 * 16) + to_big_uint x))) = Some res ->
      res = r0 * 16 ^ Z.of_nat (length (c :: s)) + (d * 16 ^ Z.of_nat (length s) + v0)).
    { intros x -> Hx.
      destruct (to_big_uint (r0 * 16) <=? _) eqn:E2 in Hx; [|discriminate]. cbn [negb] in Hx.
      pose proof (hex_grows _ _ _ Hx) as Hg.
      assert (0 <= r0 * 16 <= 16000) by (split; nia).
      rewrite (to_big_uint_small (r0 * 16)) in * by lia.
      rewrite (to_big_uint_small d) in * by lia.
      rewrite (to_big_uint_small (r0 * 16 + _)) in * by lia.
      apply IH with (v := v0) in Hx; [|assumption|lia|assumption].
      rewrite Hx. cbn [length]. rewrite Nat2Z.inj_succ, Z.pow_succ_r by lia. nia. }
    destruct ((48 <=? code c) && (code c <=? 57)).
    + apply (Step (code c - 48)); [lia|exact H].
    + destruct ((97 <=? code c) && (code c <=? 102)); [|discriminate].
      apply (Step (10 + code c - 97)); [lia|exact H].
Qed.

Lemma digits_small : forall base s v r, supported_base base -> denotes base s v ->
  parse_uinteger_digits s base = Some r -> r <= 1000 -> r = v.
Proof.
  intros base s v r Hb Hv H Hr. unfold parse_uinteger_digits in H.
  destruct s as [|c s]; [discriminate|].
  destruct (base <=? 10) eqn:E.
  - apply parse_small_small with (v := v) in H; [lia|unfold supported_base in Hb; lia|assumption|lia|assumption].
  - assert (base = 16) by (unfold supported_base in Hb; lia). subst base.
    apply parse_hex_small with (v := v) in H; [lia|assumption|lia|assumption].
Qed.

(** Which digits of a literal are evaluated, in which base. *)
Lemma literal_digits : forall l p ds, is_literal_text l p ds ->
  exists b, supported_base b /\ parse_uinteger_literal p = parse_uinteger_digits ds b
    /\ (forall v, denotes (base_of l) ds v <-> denotes b ds v).
Proof.
  intros l p ds Hl. inversion Hl; subst.
  - exists 2. split; [unfold supported_base; auto|]. split; reflexivity.
  - exists 16. split; [unfold supported_base; auto|]. split; reflexivity.
  - exists 8. split; [unfold supported_base; auto|]. split; [|reflexivity].
    unfold parse_uinteger_literal. destruct ds0 as [|c ds0]; [reflexivity|].
    inversion H0 as [|? ? Hc _]; subst. apply digit_in_iff in Hc.
    replace (starts_with ("0"%char :: c :: ds0) (str "0b")) with false
      by (revert Hc; clear; all_chars c; intros H; try discriminate H; reflexivity).
    replace (starts_with ("0"%char :: c :: ds0) (str "0x")) with false
      by (revert Hc; clear; all_chars c; intros H; try discriminate H; reflexivity).
    reflexivity.
  - exists 8. split; [unfold supported_base; auto|]. split; [reflexivity|].
    assert (D : forall b, b = 8 \/ b = 10 -> forall v, denotes b ["0"%char] v <-> v = 0).
    { intros b Hb v. split.
      - intros Hv. inversion Hv as [|? d ? ? Hd Hlt Hn]; subst. inversion Hn; subst.
        injection Hd as <-. reflexivity.
      - intros ->. change 0 with (0 * b ^ Z.of_nat (length (@nil ascii)) + 0) at 1.
        constructor; [reflexivity|lia|constructor]. }
    intros v. cbn [base_of]. rewrite (D 10), (D 8) by auto. reflexivity.
  - exists 10. split; [unfold supported_base; auto|]. split; [|reflexivity].
    unfold parse_uinteger_literal. cbn [starts_with str list_ascii_of_string].
    assert (char_eqb "0" c = false) as -> by (apply char_eqb_neq; congruence). reflexivity.
Qed.

Lemma literal_value_exists : forall l p ds, is_literal_text l p ds -> exists z, denotes (base_of l) ds z.
Proof.
  intros l p ds H. apply denotes_exists. inversion H; subst; try assumption.
  - constructor; [exists 0; split; [reflexivity|cbn; lia]|]. assumption.
  - constructor; [exists 0; split; [reflexivity|cbn; lia]|constructor].
  - constructor; assumption.
Qed.

Lemma parse_int_uint : forall l p ds z, is_literal_text l p ds -> parse_integer_literal p = Some z ->
  exists r, parse_uinteger_literal p = Some r /\ z = to_big_int r.
Proof.
  intros l p ds z Hl H. pose proof (literal_text_no_minus _ _ _ Hl) as Hm.
  unfold parse_integer_literal in H. destruct p as [|c p]; [discriminate|].
  rewrite Hm in H. destruct (parse_uinteger_literal (c :: p)) as [r|]; [|discriminate].
  injection H as <-. exists r. split; reflexivity.
Qed.

Lemma parse_int_none : forall l p ds, is_literal_text l p ds -> parse_integer_literal p = None ->
  parse_uinteger_literal p = None.
Proof.
  intros l p ds Hl H. pose proof (literal_text_no_minus _ _ _ Hl) as Hm.
  unfold parse_integer_literal in H. destruct p as [|c p]; [reflexivity|].
  rewrite Hm in H. destruct (parse_uinteger_literal (c :: p)) as [r|]; [discriminate|reflexivity].
Qed.

Lemma to_big_uint_bounds : forall z, 0 <= to_big_uint z < 2 ^ 128.
Proof. intros z. unfold to_big_uint. rewrite two128_val. apply Z.mod_pos_bound. reflexivity. Qed.

Lemma to_big_int_eq : forall r, 0 <= r < 2 ^ 128 -> 0 <= to_big_int r -> to_big_int r = r.
Proof.
  intros r Hr H. unfold to_big_int in *. rewrite two128_val, two127_val in *.
  rewrite Z.mod_small in * by lia. destruct (r <? 2 ^ 127) eqn:E; [reflexivity|].
  pose proof two128_double. lia.
Qed.

(** A literal that evaluates to a small number denotes it. *)
Lemma small_literal_exact : forall l p ds z, is_literal_text l p ds ->
  parse_integer_literal p = Some z -> 0 <= z <= 1000 -> denotes (base_of l) ds z.
Proof.
  intros l p ds z Hl H Hz. destruct (parse_int_uint _ _ _ _ Hl H) as (r & Hr & ->).
  destruct (literal_value_exists _ _ _ Hl) as [v Hv].
  destruct (literal_digits _ _ _ Hl) as (b & Hb & Hp & Hd). rewrite Hp in Hr.
  assert (Hr' : r = v mod 2 ^ 128)
    by (apply (parse_digits_modulo b ds); [assumption|apply Hd; assumption|assumption]).
  assert (0 <= r < 2 ^ 128) by (subst r; apply Z.mod_pos_bound; reflexivity).
  rewrite to_big_int_eq in * by lia.
  assert (r = v) by (apply (digits_small b ds); [assumption|apply Hd; assumption|assumption|lia]).
  congruence.
Qed.

(** A literal of small value evaluates to that or not at all. *)
Lemma small_literal_value : forall l p ds z v, is_literal_text l p ds -> denotes (base_of l) ds z ->
  0 <= z <= 1000 -> parse_integer_literal p = Some v -> v = z.
Proof.
  intros l p ds z v Hl Hz Hb H. destruct (parse_int_uint _ _ _ _ Hl H) as (r & Hr & ->).
  destruct (literal_digits _ _ _ Hl) as (b & Hb' & Hp & Hd). rewrite Hp in Hr.
  assert (Hr' : r = z mod 2 ^ 128)
    by (apply (parse_digits_modulo b ds); [assumption|apply Hd; assumption|assumption]).
  assert (1000 < 2 ^ 127) by reflexivity. pose proof two128_double.
  rewrite Z.mod_small in Hr' by lia. subst r. apply to_big_int_small. lia.
Qed.

(** * One argument *)

Definition kind_of (v : validator) : kind :=
  match v with
  | va_non_empty_string => non_empty_text
  | va_c_version => c_standard
  | va_unroll_limit | va_instantiation_width => up_to_128
  end.

Definition entry (p : parameter) : text * bool * kind :=
  (pa_name p, negb (pa_optional p), kind_of (pa_validator p)).

Lemma signature_eq : forall t, signature t = map entry (parameters_of t).
Proof. intros []; reflexivity. Qed.

(** The part of the loop that looks at the value of an argument. *)
Definition check_value (v : validator) (a : annotation_argument) : outcome annotation_error argument_value :=
  let* argument_type := parameter_type_of (aa_value_type a) in
  if negb (parameter_type_eqb (validator_type v) argument_type) then Err ae_argument_wrong_type
  else
    let* parsed := parse_argument a in
    let* accepted := run_validator v parsed in
    if negb accepted then Err ae_argument_wrong_value else Ok parsed.

Lemma loop_step : forall ps covered a args, arguments_loop ps covered (a :: args) =
  let* '(p, covered') := match_parameter ps covered a in
  let* v := check_value (pa_validator p) a in
  let* '(rest, covered'') := arguments_loop ps covered' args in Ok (v :: rest, covered'').
Proof.
  intros ps covered a args. cbn [arguments_loop].
  destruct (match_parameter ps covered a) as [[p c']| | |]; cbn [bind]; try reflexivity.
  unfold check_value. destruct (parameter_type_of (aa_value_type a)) as [ty| | |]; cbn [bind]; try reflexivity.
  destruct (negb _); [reflexivity|].
  destruct (parse_argument a) as [v| | |]; cbn [bind]; try reflexivity.
  destruct (run_validator (pa_validator p) v) as [b| | |]; cbn [bind]; try reflexivity.
  destruct (negb b); reflexivity.
Qed.

Lemma validate_int_admits : forall v z, validator_type v = pt_integer ->
  validate_int v z = true <-> admits (kind_of v) (av_int z).
Proof.
  intros v z Hv. destruct v; try discriminate Hv; cbn [validate_int kind_of]; split; intros H.
  - constructor. cbn. lia.
  - inversion H as [|? Hy|]; subst. cbn in Hy. lia.
  - constructor. lia.
  - inversion H; subst. lia.
  - constructor. lia.
  - inversion H; subst. lia.
Qed.

Lemma admits_small : forall k z, admits k (av_int z) -> 0 <= z <= 1000.
Proof. intros k z H. inversion H as [|? Hy|]; subst; [cbn in Hy|]; lia. Qed.

Lemma body_no_quote : forall s, string_body s -> starts_with s (str """") = false.
Proof.
  intros s H. inversion H; subst; [reflexivity| |reflexivity].
  cbn. rewrite (proj2 (char_eqb_neq _ _)); [reflexivity|]. intros E. apply H0. symmetry. exact E.
Qed.

Lemma literal_token_int : forall l, tk_is_integer_literal (literal_token l) = true.
Proof. intros []; reflexivity. Qed.
Lemma parameter_type_int : forall l, @parameter_type_of annotation_error (literal_token l) = Ok pt_integer.
Proof. intros []; reflexivity. Qed.
Lemma sort_int : forall l, sort_of_token (literal_token l) = Some pt_integer.
Proof. intros []; reflexivity. Qed.
Lemma parse_argument_int : forall k p l, parse_argument (AA k p (literal_token l)) =
  match parse_integer_literal p with
  | Some z => Ok (av_int z) | None => Err ae_invalid_integer_literal
  end.
Proof. intros k p []; reflexivity. Qed.
Lemma literal_token_inj : forall l m, literal_token l = literal_token m -> l = m.
Proof. intros [] [] H; try reflexivity; discriminate H. Qed.

Lemma literal_type_unique : forall l p ds ds', is_literal_text l p ds -> is_literal_text l p ds' -> ds = ds'.
Proof. intros l p ds ds' H H'. inversion H; subst; inversion H'; subst; try reflexivity; try congruence. Qed.

Lemma written_int_inv : forall k p l z, written (AA k p (literal_token l)) (av_int z) ->
  exists ds, is_literal_text l p ds /\ denotes (base_of l) ds z.
Proof.
  intros k p l z H. inversion H; subst; try (destruct l; discriminate).
  match goal with E : literal_token _ = literal_token _ |- _ => apply literal_token_inj in E; subst end.
  eexists. split; eassumption.
Qed.

Lemma written_int_only : forall k p l v, written (AA k p (literal_token l)) v -> exists z, v = av_int z.
Proof. intros k p l v H. inversion H; subst; try (destruct l; discriminate). eexists. reflexivity. Qed.

(** What [check_value] says of an argument from the parser. *)
Lemma check_value_spec : forall w a, well_formed a ->
  match check_value w a with
  | Ok v => written a v /\ admits (kind_of w) v
  | Err ae_argument_wrong_type => sort_of_token (aa_value_type a) <> Some (sort_of_kind (kind_of w))
  | Err ae_argument_wrong_value =>
      sort_of_token (aa_value_type a) = Some (sort_of_kind (kind_of w))
      /\ forall v, written a v -> ~ admits (kind_of w) v
  | Err ae_invalid_integer_literal =>
      tk_is_integer_literal (aa_value_type a) = true
      /\ forall z, written a (av_int z) -> ~ lower_case a \/ 2 ^ 128 <= z
  | _ => False
  end.
Proof.
  intros w a Ha. inversion Ha as [k s|k s|k s Hs|k l p ds Hl]; subst; unfold check_value; cbn [aa_value_type].
  - destruct w; cbn; discriminate.
  - destruct w; cbn; discriminate.
  - cbn [parameter_type_of bind]. destruct w; cbn [validator_type parameter_type_eqb negb];
      try (cbn; discriminate).
    unfold parse_argument. cbn [aa_value_type aa_value tk_is_literal assert_then].
    rewrite (body_no_quote s Hs). cbn [assert_then negb bind].
    destruct s as [|c s]; cbn.
    + split; [reflexivity|]. intros v Hv Hk. inversion Hv; subst; [|destruct l; discriminate].
      inversion Hk; subst. congruence.
    + split; constructor. discriminate.
  - rewrite parameter_type_int. cbn [bind].
    destruct (parameter_type_eqb (validator_type w) pt_integer) eqn:Ew; cbn [negb].
    2: { rewrite sort_int. destruct w; cbn in *; try discriminate. }
    assert (Hw : validator_type w = pt_integer) by (destruct w; [discriminate Ew|reflexivity..]).
    assert (Hk : sort_of_kind (kind_of w) = pt_integer) by (destruct w; [discriminate Ew|reflexivity..]).
    rewrite parse_argument_int. destruct (parse_integer_literal p) as [z|] eqn:Ez; cbn [bind].
    + replace (@run_validator annotation_error w (av_int z)) with (@Ok annotation_error bool (validate_int w z))
        by (destruct w; [discriminate Ew|reflexivity..]).
      cbn [bind]. destruct (validate_int w z) eqn:Ev; cbn [negb].
      * apply validate_int_admits in Ev; [|exact Hw]. split; [|exact Ev].
        econstructor; [exact Hl|]. apply (small_literal_exact l p); try assumption.
        apply (admits_small _ _ Ev).
      * rewrite sort_int, Hk. split; [reflexivity|]. intros v Hv Hadm.
        destruct (written_int_only _ _ _ _ Hv) as [z' ->].
        destruct (written_int_inv _ _ _ _ Hv) as (ds' & Hl' & Hd').
        assert (z = z') by (eapply (small_literal_value l p ds'); try eassumption; apply (admits_small _ _ Hadm)).
        subst z'. apply validate_int_admits in Hadm; [congruence|exact Hw].
    + split; [apply literal_token_int|]. intros z Hv.
      destruct (written_int_inv _ _ _ _ Hv) as (ds' & Hl' & Hd').
      destruct (Z_lt_le_dec z (2 ^ 128)) as [Hlt|]; [left|right; assumption].
      intros Hlow. specialize (Hlow (literal_token_int l)). cbn [aa_value] in Hlow.
      apply parse_int_none with (l := l) (ds := ds) in Ez; [|assumption].
      assert (Hds : Forall (fun c => ~ is_upper_case c) ds').
      { inversion Hl'; subst; try assumption; apply Forall_app in Hlow; apply Hlow. }
      pose proof (literal_parse l p ds' z Hl' Hd' Hds Hlt). congruence.
Qed.

Lemma written_det : forall a v v', written a v -> written a v' -> v = v'.
Proof.
  intros a v v' H H'. inversion H; subst; inversion H'; subst; try reflexivity;
    try (destruct l; discriminate).
  match goal with E : literal_token _ = literal_token _ |- _ => apply literal_token_inj in E; subst end.
  assert (ds = ds0) by (eapply literal_type_unique; eassumption). subst ds0.
  f_equal. eapply denotes_unique; eassumption.
Qed.

Lemma check_value_complete : forall w a v, well_formed a -> lower_case a ->
  written a v -> admits (kind_of w) v -> check_value w a = Ok v.
Proof.
  intros w a v Ha Hl Hv Hk. pose proof (check_value_spec w a Ha) as S.
  destruct (check_value w a) as [u|e| |]; try contradiction.
  - destruct S as [S _]. f_equal. eapply written_det; eassumption.
  - exfalso. destruct e; try contradiction.
    + destruct S as [S S']. destruct v as [b|z|s].
      * inversion Hv; subst; discriminate S.
      * specialize (S' z Hv). pose proof (admits_small _ _ Hk).
        assert (1000 < 2 ^ 127) by reflexivity. pose proof two128_double.
        destruct S' as [S'|S']; [exact (S' Hl)|lia].
      * inversion Hv; subst; discriminate S.
    + apply S. inversion Hv; subst; inversion Hk; subst; cbn [aa_value_type]; rewrite ?sort_int;
        destruct w; try discriminate; reflexivity.
    + destruct S as [_ S]. exact (S v Hv Hk).
Qed.

(** * Matching parameters *)

Definition set_bit (i : nat) (l : list bool) : list bool := firstn i l ++ true :: skipn (S i) l.

Lemma positional_spec : forall ps covered, length covered = length ps ->
  match match_positional ps covered with
  | Ok (p, cs) => exists i, nth_error ps i = Some p /\ nth_error covered i = Some false
      /\ (forall j, (j < i)%nat -> nth_error covered j = Some true) /\ cs = set_bit i covered
  | Err e => e = ae_too_many_arguments /\ forall i b, nth_error covered i = Some b -> b = true
  | _ => False
  end.
Proof.
  induction ps as [|p ps IH]; intros [|b covered] H; try discriminate H.
  - cbn. split; [reflexivity|]. intros [|i] b Hb; discriminate Hb.
  - cbn [match_positional]. destruct b; cbn [negb].
    + specialize (IH covered ltac:(injection H; auto)).
      destruct (match_positional ps covered) as [[q cs]|e| |]; cbn [bind]; try contradiction.
      * destruct IH as (i & Hi & Hc & Hj & ->). exists (S i). repeat split; try assumption.
        intros [|j] Hlt; [reflexivity|]. apply Hj. lia.
      * destruct IH as [-> IH]. split; [reflexivity|]. intros [|i] b Hb; [injection Hb; auto|].
        apply (IH i b Hb).
    + exists 0%nat. repeat split. intros j Hj. lia.
Qed.

Lemma named_spec : forall key ps covered, length covered = length ps ->
  match match_named key ps covered with
  | Ok (p, cs) => exists i, nth_error ps i = Some p /\ pa_name p = key
      /\ nth_error covered i = Some false /\ cs = set_bit i covered
  | Err ae_argument_duplicate => exists i p, nth_error ps i = Some p /\ pa_name p = key
      /\ nth_error covered i = Some true
  | Err ae_unknown_parameter => forall i p, nth_error ps i = Some p -> pa_name p <> key
  | _ => False
  end.
Proof.
  intros key. induction ps as [|p ps IH]; intros [|b covered] H; try discriminate H.
  - cbn. intros [|i] p Hp; discriminate Hp.
  - cbn [match_named]. destruct (text_eqb (pa_name p) key) eqn:E; cbn [negb].
    + apply text_eqb_eq in E. destruct b.
      * exists 0%nat, p. repeat split. exact E.
      * exists 0%nat. repeat split. exact E.
    + assert (N : pa_name p <> key) by (intros N; apply text_eqb_eq in N; congruence).
      specialize (IH covered ltac:(injection H; auto)).
      destruct (match_named key ps covered) as [[q cs]|e| |]; cbn [bind]; try contradiction.
      * destruct IH as (i & Hi & Hn & Hc & ->). exists (S i). repeat split; assumption.
      * destruct e; try contradiction.
        -- intros [|i] q Hq; [injection Hq as <-; exact N|exact (IH i q Hq)].
        -- destruct IH as (i & q & Hi). exists (S i), q. exact Hi.
Qed.

(** The bits of [parameters_covered] and the parameters given so far. *)
Definition agree (n : nat) (covered : list bool) (given : list nat) : Prop :=
  length covered = n /\ forall i b, nth_error covered i = Some b -> (b = true <-> In i given).

Lemma agree_start : forall n, agree n (repeat false n) [].
Proof.
  intros n. split; [apply repeat_length|]. intros i b H. apply nth_error_In, repeat_spec in H. subst b.
  split; [discriminate|intros []].
Qed.

Lemma set_bit_length : forall i l, (i < length l)%nat -> length (set_bit i l) = length l.
Proof.
  intros i l H. unfold set_bit. rewrite app_length, firstn_length. cbn [length]. rewrite skipn_length. lia.
Qed.

Lemma set_bit_nth : forall l i j, (i < length l)%nat ->
  nth_error (set_bit i l) j = if Nat.eqb i j then Some true else nth_error l j.
Proof.
  induction l as [|x l IH]; intros i j H; [cbn in H; lia|].
  destruct i as [|i]; destruct j as [|j]; try reflexivity.
  change (set_bit (S i) (x :: l)) with (x :: set_bit i l). cbn [nth_error Nat.eqb].
  apply IH. cbn in H. lia.
Qed.

Lemma agree_set : forall n covered given i, agree n covered given -> (i < n)%nat ->
  agree n (set_bit i covered) (given ++ [i]).
Proof.
  intros n covered given i [L A] H. split; [rewrite set_bit_length; lia|].
  intros j b Hb. rewrite set_bit_nth in Hb by lia. rewrite in_app_iff. cbn [In].
  destruct (Nat.eqb i j) eqn:E.
  - apply Nat.eqb_eq in E. subst j. injection Hb as <-. tauto.
  - apply Nat.eqb_neq in E. rewrite (A j b Hb). intuition.
Qed.

Lemma agree_false : forall n covered given i, agree n covered given ->
  nth_error covered i = Some false -> ~ In i given.
Proof. intros n covered given i [_ A] H HI. apply (A i false H) in HI. discriminate. Qed.

Lemma agree_true : forall n covered given i, agree n covered given ->
  nth_error covered i = Some true -> In i given.
Proof. intros n covered given i [_ A] H. apply (A i true H). reflexivity. Qed.

Lemma agree_not_in : forall n covered given i, agree n covered given -> (i < n)%nat -> ~ In i given ->
  nth_error covered i = Some false.
Proof.
  intros n covered given i [L A] H N. destruct (nth_error covered i) as [[]|] eqn:E.
  - destruct N. apply (A i true E). reflexivity.
  - reflexivity.
  - apply nth_error_None in E. lia.
Qed.

Lemma agree_in : forall n covered given i, agree n covered given -> (i < n)%nat -> In i given ->
  nth_error covered i = Some true.
Proof.
  intros n covered given i [L A] H N. destruct (nth_error covered i) as [[]|] eqn:E.
  - reflexivity.
  - apply (A i false E) in N. discriminate.
  - apply nth_error_None in E. lia.
Qed.

Lemma signature_nth : forall t i p, nth_error (parameters_of t) i = Some p ->
  nth_error (signature t) i = Some (entry p).
Proof. intros t i p H. rewrite signature_eq. apply map_nth_error. exact H. Qed.

Lemma signature_length : forall t, length (signature t) = length (parameters_of t).
Proof. intros t. rewrite signature_eq. apply map_length. Qed.

Lemma name_at_nth : forall t i n, name_at t i = Some n ->
  exists p, nth_error (parameters_of t) i = Some p /\ pa_name p = n.
Proof.
  intros t i n H. unfold name_at in H. rewrite signature_eq, nth_error_map in H.
  destruct (nth_error (parameters_of t) i) as [p|]; [|discriminate].
  exists p. split; [reflexivity|]. injection H as <-. reflexivity.
Qed.

Lemma name_at_of : forall t i p, nth_error (parameters_of t) i = Some p -> name_at t i = Some (pa_name p).
Proof. intros t i p H. unfold name_at. rewrite (signature_nth t i p H). reflexivity. Qed.
Lemma kind_at_of : forall t i p, nth_error (parameters_of t) i = Some p ->
  kind_at t i = Some (kind_of (pa_validator p)).
Proof. intros t i p H. unfold kind_at. rewrite (signature_nth t i p H). reflexivity. Qed.

Lemma match_parameter_spec : forall t covered given a, agree (length (parameters_of t)) covered given ->
  match match_parameter (parameters_of t) covered a with
  | Ok (p, cs) => exists i, nth_error (parameters_of t) i = Some p /\ for_parameter t given a i
      /\ agree (length (parameters_of t)) cs (given ++ [i])
  | Err ((ae_too_many_arguments | ae_unknown_parameter | ae_argument_duplicate) as e) => fault t given a e
  | _ => False
  end.
Proof.
  intros t covered given a A. unfold match_parameter. destruct (aa_key a) as [|c key] eqn:Ek.
  - pose proof (positional_spec (parameters_of t) covered (proj1 A)) as S.
    destruct (match_positional _ covered) as [[p cs]|e| |]; try contradiction.
    + destruct S as (i & Hp & Hc & Hj & ->). exists i. split; [exact Hp|].
      assert (Hi : (i < length (parameters_of t))%nat) by (apply nth_error_Some; congruence).
      split; [|apply agree_set; assumption].
      apply by_position; [exact Ek|rewrite signature_length; exact Hi| |].
      * eapply agree_false; eassumption.
      * intros j Hlt. eapply agree_true; [exact A|]. apply Hj. exact Hlt.
    + destruct S as [-> S]. constructor; [exact Ek|]. intros i Hi. rewrite signature_length in Hi.
      destruct (nth_error covered i) as [b|] eqn:E.
      * apply (proj2 A i b E). apply (S i b E).
      * apply nth_error_None in E. destruct A as [A _]. lia.
  - assert (K : aa_key a <> []) by congruence.
    pose proof (named_spec (c :: key) (parameters_of t) covered (proj1 A)) as S.
    destruct (match_named _ _ covered) as [[p cs]|e| |]; try contradiction.
    + destruct S as (i & Hp & Hn & Hc & ->). exists i. split; [exact Hp|].
      assert (Hi : (i < length (parameters_of t))%nat) by (apply nth_error_Some; congruence).
      split; [|apply agree_set; assumption].
      apply by_name; [exact K| |eapply agree_false; eassumption].
      rewrite (name_at_of t i p Hp). congruence.
    + destruct e; try contradiction.
      * apply fault_unknown; [exact K|]. intros i Hn. destruct (name_at_nth _ _ _ Hn) as (p & Hp & Hpn).
        apply (S i p Hp). congruence.
      * destruct S as (i & p & Hp & Hn & Hc). apply fault_duplicate with (i := i); [exact K| |].
        -- rewrite (name_at_of t i p Hp). congruence.
        -- eapply agree_true; eassumption.
Qed.

(** The parameter that an argument is for is unique. *)
Lemma for_parameter_unique : forall t given a i j,
  for_parameter t given a i -> for_parameter t given a j -> i = j.
Proof.
  intros t given a i j Hi Hj.
  inversion Hi as [? ? K1 L1 N1 B1|? ? K1 M1 N1]; subst;
    inversion Hj as [? ? K2 L2 N2 B2|? ? K2 M2 N2]; subst; try congruence.
  - destruct (Nat.lt_trichotomy i j) as [H|[H|H]]; [|exact H|].
    + destruct (N1 (B2 i H)).
    + destruct (N2 (B1 j H)).
  - unfold name_at in *.
    destruct t; repeat (destruct i as [|i]; cbn in M1; try discriminate M1);
      repeat (destruct j as [|j]; cbn in M2; try discriminate M2); congruence.
Qed.

Lemma bound_unique : forall t given args s1, bound t given args s1 ->
  forall s2, bound t given args s2 -> s1 = s2.
Proof.
  induction 1 as [given|given a args i slots F B IH]; intros s2 H; inversion H; subst; [reflexivity|].
  assert (i = i0) by (eapply for_parameter_unique; eassumption). subst i0. f_equal. apply IH. assumption.
Qed.

(** * The loop *)

Inductive loop_fails (t : annotation_type) (given : list nat) (args : list annotation_argument)
  : annotation_error -> Prop :=
| loop_fails_at : forall pre a post slots vs e,
    args = pre ++ a :: post -> bound t given pre slots -> all_suit t pre slots vs ->
    fault t (given ++ slots) a e -> loop_fails t given args e.

Lemma loop_spec : forall t args covered given, agree (length (parameters_of t)) covered given ->
  Forall well_formed args ->
  match arguments_loop (parameters_of t) covered args with
  | Ok (vs, cs) => exists slots, bound t given args slots /\ all_suit t args slots vs
      /\ agree (length (parameters_of t)) cs (given ++ slots)
  | Err e => loop_fails t given args e
  | _ => False
  end.
Proof.
  intros t. induction args as [|a args IH]; intros covered given A W.
  - cbn [arguments_loop]. exists []. rewrite app_nil_r. split; [constructor|]. split; [constructor|exact A].
  - inversion W as [|? ? Wa W']; subst. rewrite loop_step.
    pose proof (match_parameter_spec t covered given a A) as S.
    destruct (match_parameter (parameters_of t) covered a) as [[p cs]|e| |]; cbn [bind]; try contradiction.
    2: { apply loop_fails_at with (pre := []) (a := a) (post := args) (slots := []) (vs := []);
           [reflexivity|constructor|constructor|]. rewrite app_nil_r.
         destruct e; try contradiction; exact S. }
    destruct S as (i & Hp & F & A').
    pose proof (kind_at_of t i p Hp) as Hk.
    pose proof (check_value_spec (pa_validator p) a Wa) as V.
    destruct (check_value (pa_validator p) a) as [v|e| |]; cbn [bind]; try contradiction.
    2: { apply loop_fails_at with (pre := []) (a := a) (post := args) (slots := []) (vs := []);
           [reflexivity|constructor|constructor|]. rewrite app_nil_r.
         destruct e; try contradiction.
         - apply fault_literal with (i := i); [exact F|apply V|apply V].
         - eapply fault_type; eassumption.
         - eapply fault_value; [exact F|exact Hk|apply V|apply V]. }
    destruct V as [Hw Hadm].
    assert (Hs : suits t a i v) by (split; [exact Hw|]; eexists; split; [exact Hk|exact Hadm]).
    specialize (IH cs (given ++ [i]) A' W').
    destruct (arguments_loop (parameters_of t) cs args) as [[vs cs']|e| |]; cbn [bind]; try contradiction.
    + destruct IH as (slots & B & Hall & Ag). exists (i :: slots). split; [constructor; assumption|].
      split; [constructor; assumption|]. rewrite <- app_assoc in Ag. exact Ag.
    + inversion IH as [pre b post slots vs e' Ea Bp Sp Fp]; subst.
      apply loop_fails_at with (pre := a :: pre) (a := b) (post := post) (slots := i :: slots) (vs := v :: vs).
      * reflexivity.
      * constructor; assumption.
      * constructor; assumption.
      * rewrite <- app_assoc in Fp. exact Fp.
Qed.

Lemma for_parameter_match : forall t covered given a i, agree (length (parameters_of t)) covered given ->
  for_parameter t given a i ->
  exists p cs, match_parameter (parameters_of t) covered a = Ok (p, cs)
    /\ nth_error (parameters_of t) i = Some p /\ agree (length (parameters_of t)) cs (given ++ [i]).
Proof.
  intros t covered given a i A F. pose proof (match_parameter_spec t covered given a A) as S.
  destruct (match_parameter (parameters_of t) covered a) as [[p cs]|e| |]; try contradiction.
  - destruct S as (j & Hp & Fj & A'). assert (i = j) by (eapply for_parameter_unique; eassumption).
    subst j. exists p, cs. split; [reflexivity|]. split; assumption.
  - exfalso.
    assert (S' : fault t given a e /\ (e = ae_too_many_arguments \/ e = ae_unknown_parameter
                                       \/ e = ae_argument_duplicate))
      by (destruct e; try contradiction; split; auto).
    destruct S' as [S' D].
    inversion F as [? ? K L N B|? ? K M N]; subst; inversion S'; subst; try (destruct D as [D|[D|D]]; discriminate D);
      try congruence.
    + apply N. auto.
    + assert (i = i0) by (eapply for_parameter_unique with (given := []);
        apply by_name; try eassumption; intros []). subst i0. contradiction.
Qed.

Lemma loop_complete : forall t args covered given slots vs, agree (length (parameters_of t)) covered given ->
  Forall well_formed args -> Forall lower_case args -> bound t given args slots -> all_suit t args slots vs ->
  exists cs, arguments_loop (parameters_of t) covered args = Ok (vs, cs)
    /\ agree (length (parameters_of t)) cs (given ++ slots).
Proof.
  intros t. induction args as [|a args IH]; intros covered given slots vs A W L B Sv.
  - inversion B; subst. inversion Sv; subst. exists covered. rewrite app_nil_r. split; [reflexivity|exact A].
  - inversion B as [|? ? ? i slots' F B']; subst. inversion Sv as [|? ? v ? ? vs' Hs Sv']; subst.
    inversion W; subst. inversion L; subst.
    destruct (for_parameter_match t covered given a i A F) as (p & cs & E & Hp & A').
    rewrite loop_step, E. cbn [bind].
    destruct Hs as (Hw & k & Hk & Hadm). rewrite (kind_at_of t i p Hp) in Hk. injection Hk as <-.
    rewrite (check_value_complete _ _ v) by assumption. cbn [bind].
    destruct (IH cs (given ++ [i]) slots' vs' A' ltac:(assumption) ltac:(assumption) B' Sv') as (cs' & -> & Ag).
    exists cs'. split; [reflexivity|]. rewrite <- app_assoc in Ag. exact Ag.
Qed.

Lemma missing_spec : forall ps covered, length covered = length ps ->
  match check_for_missing ps covered with
  | Ok _ => forall i p, nth_error ps i = Some p -> pa_optional p = false -> nth_error covered i = Some true
  | Err e => e = ae_missing_argument
      /\ exists i p, nth_error ps i = Some p /\ pa_optional p = false /\ nth_error covered i = Some false
  | _ => False
  end.
Proof.
  induction ps as [|p ps IH]; intros [|b covered] H; try discriminate H.
  - cbn. intros [|i] p Hp; discriminate Hp.
  - cbn [check_for_missing]. specialize (IH covered ltac:(injection H; auto)).
    destruct (pa_optional p) eqn:Eo; cbn [negb andb].
    + destruct (check_for_missing ps covered) as [u|e| |]; try contradiction.
      * intros [|i] q Hq Ho; [cbn in Hq; congruence|exact (IH i q Hq Ho)].
      * destruct IH as (-> & i & q & Hq). split; [reflexivity|]. exists (S i), q. exact Hq.
    + destruct b; cbn [negb].
      * destruct (check_for_missing ps covered) as [u|e| |]; try contradiction.
        -- intros [|i] q Hq Ho; [reflexivity|exact (IH i q Hq Ho)].
        -- destruct IH as (-> & i & q & Hq). split; [reflexivity|]. exists (S i), q. exact Hq.
      * split; [reflexivity|]. exists 0%nat, p. repeat split. exact Eo.
Qed.

Lemma required_nth : forall t i, required_at t i ->
  exists p, nth_error (parameters_of t) i = Some p /\ pa_optional p = false.
Proof.
  intros t i (n & k & H). rewrite signature_eq, nth_error_map in H.
  destruct (nth_error (parameters_of t) i) as [p|]; [|discriminate]. exists p. split; [reflexivity|].
  unfold entry in H. cbn in H. destruct (pa_optional p); [discriminate|reflexivity].
Qed.

Lemma required_of : forall t i p, nth_error (parameters_of t) i = Some p -> pa_optional p = false ->
  required_at t i.
Proof.
  intros t i p Hp Ho. exists (pa_name p), (kind_of (pa_validator p)). rewrite (signature_nth t i p Hp).
  unfold entry. rewrite Ho. reflexivity.
Qed.

Lemma process_eq : forall t args, ~ (t = an_instantiate /\ args = []) ->
  process_arguments t args =
  let* '(result, covered) := arguments_loop (parameters_of t) (repeat false (length (parameters_of t))) args in
  let* _ := check_for_missing (parameters_of t) covered in Ok result.
Proof. intros t args H. destruct t; try reflexivity. destruct args; [|reflexivity]. destruct H; auto. Qed.

Lemma process_spec : forall t args, Forall well_formed args ->
  match process_arguments t args with
  | Ok vs => exists slots, bound t [] args slots /\ all_suit t args slots vs
      /\ forall i, required_at t i -> In i slots
  | Err e => rejected t args e
  | _ => False
  end.
Proof.
  intros t args W.
  assert (D : (t = an_instantiate /\ args = []) \/ ~ (t = an_instantiate /\ args = []))
    by (destruct t; try (right; intros [H _]; discriminate H); destruct args;
        [left; auto|right; intros [_ H]; discriminate H]).
  destruct D as [[-> ->]|D].
  - cbn. apply rejected_missing with (slots := []) (vs := []) (i := 0%nat); try constructor.
    + exists (str "n"), up_to_128. reflexivity.
    + intros [].
  - rewrite (process_eq t args D).
    pose proof (loop_spec t args _ [] (agree_start _) W) as S.
    destruct (arguments_loop _ _ args) as [[vs cs]|e| |]; cbn [bind]; try contradiction.
    + destruct S as (slots & B & Sv & A). cbn [app] in A.
      pose proof (missing_spec (parameters_of t) cs (proj1 A)) as M.
      destruct (check_for_missing (parameters_of t) cs) as [u|e| |]; cbn [bind]; try contradiction.
      * exists slots. repeat split; try assumption. intros i Hr.
        destruct (required_nth t i Hr) as (p & Hp & Ho). eapply agree_true; [exact A|].
        eapply M; eassumption.
      * destruct M as (-> & i & p & Hp & Ho & Hc). eapply rejected_missing; try eassumption.
        -- eapply required_of; eassumption.
        -- eapply agree_false; eassumption.
    + inversion S; subst. eapply rejected_argument; try reflexivity; eassumption.
Qed.

Lemma process_complete : forall t args slots vs, Forall well_formed args -> Forall lower_case args ->
  bound t [] args slots -> all_suit t args slots vs -> (forall i, required_at t i -> In i slots) ->
  process_arguments t args = Ok vs.
Proof.
  intros t args slots vs W L B Sv R.
  assert (D : ~ (t = an_instantiate /\ args = [])).
  { intros [-> ->]. inversion B; subst. destruct (R 0%nat). exists (str "n"), up_to_128. reflexivity. }
  rewrite (process_eq t args D).
  destruct (loop_complete t args _ [] slots vs (agree_start _) W L B Sv) as (cs & -> & A). cbn [bind].
  pose proof (missing_spec (parameters_of t) cs (proj1 A)) as M.
  destruct (check_for_missing (parameters_of t) cs) as [u|e| |]; cbn [bind]; try contradiction.
  - reflexivity.
  - destruct M as (-> & i & p & Hp & Ho & Hc). exfalso.
    apply (agree_false _ _ _ i A Hc). apply R. eapply required_of; eassumption.
Qed.

(** * Names *)

Lemma type_by_name_spec : forall n t, annotation_type_by_name n = Some t <-> annotation_type_name t = n.
Proof.
  intros n t. unfold annotation_type_by_name. split.
  - intros H. apply find_some in H. apply text_eqb_eq. apply H.
  - intros <-. destruct t; reflexivity.
Qed.

Lemma applicable_spec : forall t c, annotation_type_applicable_to t c = true <-> belongs_on t c.
Proof.
  intros t c. destruct t, c; cbn; split; intros H; try reflexivity; try discriminate H; auto;
    try (destruct H; discriminate).
Qed.
