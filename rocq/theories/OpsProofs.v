(** Lemmas about [Types.v] and [Ops.v]. *)
From Coq Require Import ZArith List Bool Lia ZifyBool.
From Verif Require Import Prelude Types Ops OpsSpec.
Import ListNotations.
Open Scope Z_scope.
Local Arguments Z.pow : simpl never.

Lemma two128_val : two128 = 2 ^ 128. Proof. reflexivity. Qed.
Lemma two127_val : two127 = 2 ^ 127. Proof. reflexivity. Qed.
Lemma two128_pos : 0 < 2 ^ 128. Proof. reflexivity. Qed.
Lemma two128_double : 2 ^ 128 = 2 * 2 ^ 127. Proof. reflexivity. Qed.

Lemma pow2_pos : forall w, 0 <= w -> 0 < 2 ^ w.
Proof. intros w Hw. apply Z.pow_pos_nonneg; lia. Qed.

Lemma pow2_le_127 : forall w, 0 <= w < 128 -> 2 ^ w <= 2 ^ 127.
Proof. intros w Hw. apply Z.pow_le_mono_r; lia. Qed.

Lemma to_big_uint_small : forall z, 0 <= z < 2 ^ 128 -> to_big_uint z = z.
Proof. intros z Hz. unfold to_big_uint. rewrite two128_val. apply Z.mod_small. exact Hz. Qed.

Lemma to_big_uint_range : forall z, 0 <= to_big_uint z < 2 ^ 128.
Proof. intros z. unfold to_big_uint. rewrite two128_val. apply Z.mod_pos_bound. apply two128_pos. Qed.

Lemma to_big_int_small : forall z, 0 <= z < 2 ^ 127 -> to_big_int z = z.
Proof.
  intros z Hz. unfold to_big_int. rewrite two128_val, two127_val.
  pose proof two128_double as Hd.
  rewrite Z.mod_small by lia.
  destruct (z <? 2 ^ 127) eqn:E; lia.
Qed.

Lemma mask_val : forall w, 0 <= w < 128 ->
  to_big_uint (to_big_uint (Z.shiftl 1 w) - 1) = Z.ones w.
Proof.
  intros w Hw.
  pose proof (pow2_pos w ltac:(lia)) as H0.
  pose proof (pow2_le_127 w Hw) as H1.
  pose proof two128_double as Hd.
  rewrite Z.shiftl_1_l.
  rewrite (to_big_uint_small (2 ^ w)) by lia.
  rewrite to_big_uint_small by lia.
  rewrite Z.ones_equiv. lia.
Qed.

Lemma get_mask_uint : forall w, 0 < w < 128 -> get_mask (TUint w) = Z.ones w.
Proof.
  intros w Hw. unfold get_mask.
  destruct (w =? 128) eqn:E; [lia|]. apply mask_val. lia.
Qed.

Lemma land_mask : forall x w, 0 <= w -> Z.land x (Z.ones w) = x mod 2 ^ w.
Proof. intros x w Hw. apply Z.land_ones. exact Hw. Qed.

Lemma mod_range : forall x w, 0 <= w -> 0 <= x mod 2 ^ w < 2 ^ w.
Proof. intros x w Hw. apply Z.mod_pos_bound. apply pow2_pos. exact Hw. Qed.

Lemma mod128_mod : forall x w, 0 <= w <= 128 -> (x mod 2 ^ 128) mod 2 ^ w = x mod 2 ^ w.
Proof.
  intros x w Hw.
  replace (2 ^ 128) with (2 ^ w * 2 ^ (128 - w)).
  - rewrite Z.rem_mul_r.
    + rewrite Z.mul_comm, Z.mod_add by (pose proof (pow2_pos w); lia).
      apply Z.mod_mod. pose proof (pow2_pos w); lia.
    + pose proof (pow2_pos w); lia.
    + apply pow2_pos. lia.
  - rewrite <- Z.pow_add_r by lia. f_equal. lia.
Qed.

Lemma to_big_int_mask : forall x w, 0 <= w < 128 ->
  to_big_int (Z.land x (Z.ones w)) = x mod 2 ^ w.
Proof.
  intros x w Hw. rewrite land_mask by lia.
  apply to_big_int_small.
  pose proof (mod_range x w ltac:(lia)). pose proof (pow2_le_127 w Hw). lia.
Qed.

Lemma ctype_eqb_refl : forall t, ctype_eqb t t = true.
Proof. destruct t; simpl; auto. apply Z.eqb_refl. Qed.

Lemma ctype_eqb_eq : forall a b, ctype_eqb a b = true <-> a = b.
Proof.
  intros a b; split.
  - destruct a, b; simpl; intros H; try discriminate; auto.
    apply Z.eqb_eq in H. congruence.
  - intros ->. apply ctype_eqb_refl.
Qed.

Lemma ctype_eqb_neq : forall a b, ctype_eqb a b = false <-> a <> b.
Proof.
  intros a b. rewrite <- ctype_eqb_eq. destruct (ctype_eqb a b); split; congruence.
Qed.

(** * Conversion *)

Lemma convert_to_same : forall v c, convert_to v (cv_type v) c = Ok v.
Proof. intros v c. unfold convert_to. rewrite ctype_eqb_refl. reflexivity. Qed.

Lemma convert_to_same' : forall v t c, cv_type v = t -> convert_to v t c = Ok v.
Proof. intros v t c <-. apply convert_to_same. Qed.

Lemma convert_int_uint : forall z w c, 0 < w < 128 -> - 2 ^ 127 <= z < 2 ^ 127 ->
  convert_to (CV TInt z) (TUint w) c =
  match c with
  | lossless_numeric =>
      if (0 <=? z) && (z <? 2 ^ w) then Ok (CV (TUint w) z) else Err int_to_uint_range_error
  | truncating_numeric => Ok (CV (TUint w) (z mod 2 ^ w))
  end.
Proof.
  intros z w c Hw Hz.
  unfold convert_to; cbn [ctype_eqb cv_type cv_int is_convertible_to is_uint negb orb].
  rewrite get_mask_uint by lia.
  assert (Hland : Z.land (to_big_uint z) (Z.ones w) = z mod 2 ^ w).
  { rewrite land_mask by lia. unfold to_big_uint. rewrite two128_val. apply mod128_mod. lia. }
  rewrite Hland.
  pose proof (mod_range z w ltac:(lia)) as Hr.
  pose proof (pow2_le_127 w ltac:(lia)) as Hp.
  pose proof two128_double as Hd.
  rewrite to_big_int_small by lia.
  destruct c; [|reflexivity].
  destruct ((0 <=? z) && (z <? 2 ^ w)) eqn:E.
  - rewrite to_big_uint_small by lia.
    rewrite Z.mod_small by lia. rewrite Z.eqb_refl. reflexivity.
  - destruct (z mod 2 ^ w =? to_big_uint z) eqn:E2; [|reflexivity].
    exfalso. apply Z.eqb_eq in E2.
    destruct (Z_lt_le_dec z 0) as [Hneg|Hpos].
    + unfold to_big_uint in E2. rewrite two128_val in E2.
      assert (z mod 2 ^ 128 = z + 2 ^ 128).
      { symmetry. apply Zmod_unique with (q := -1); lia. }
      lia.
    + rewrite to_big_uint_small in E2 by lia. lia.
Qed.

(** * Wrapping results *)

Lemma transform_uint_val : forall w x f, 0 < w < 128 -> 0 <= x < 2 ^ w ->
  transform_uint (CV (TUint w) x) f = Ok (CV (TUint w) (to_big_uint (f x) mod 2 ^ w)).
Proof.
  intros w x f Hw Hx. unfold transform_uint. cbn [assert_then is_uint cv_type cv_int type_width].
  destruct (w <? 128) eqn:E; [|lia].
  cbn zeta.
  pose proof (pow2_le_127 w ltac:(lia)). pose proof two128_double.
  rewrite mask_val by lia. rewrite (to_big_uint_small x) by lia.
  rewrite to_big_int_mask by lia. reflexivity.
Qed.

Lemma transform_uint2_val : forall w x y f r, 0 < w < 128 -> 0 <= x < 2 ^ w -> 0 <= y < 2 ^ w ->
  f x y = Ok r ->
  transform_uint2 (CV (TUint w) x) (CV (TUint w) y) f = Ok (CV (TUint w) (r mod 2 ^ w)).
Proof.
  intros w x y f r Hw Hx Hy Hf. unfold transform_uint2.
  pose proof (pow2_le_127 w ltac:(lia)) as Hp. pose proof two128_double.
  cbn [cv_type cv_int type_width].
  rewrite (to_big_uint_small x), (to_big_uint_small y) by lia.
  rewrite Hf. cbn [bind].
  destruct (w =? 128) eqn:E; [lia|]. cbn [negb].
  destruct (w <? 128) eqn:E2; [|lia]. cbn zeta.
  rewrite mask_val by lia. rewrite to_big_int_mask by lia. reflexivity.
Qed.

Lemma transform_uint2_ub : forall w x y f, 0 < w < 128 -> 0 <= x < 2 ^ w -> 0 <= y < 2 ^ w ->
  f x y = UB ->
  transform_uint2 (CV (TUint w) x) (CV (TUint w) y) f = UB.
Proof.
  intros w x y f Hw Hx Hy Hf. unfold transform_uint2.
  pose proof (pow2_le_127 w ltac:(lia)) as Hp. pose proof two128_double.
  cbn [cv_type cv_int type_width].
  rewrite (to_big_uint_small x), (to_big_uint_small y) by lia.
  rewrite Hf. reflexivity.
Qed.

Lemma mod_mod128 : forall z w, 0 < w < 128 -> to_big_uint z mod 2 ^ w = z mod 2 ^ w.
Proof. intros. unfold to_big_uint. rewrite two128_val. apply mod128_mod. lia. Qed.

(** * Evaluation on operands of one Uint type, in closed form *)

Definition uint_binary_result (w : Z) (op : expr_kind) (x y : Z) : outcome eval_error cvalue :=
  let wrap z := Ok (CV (TUint w) (z mod 2 ^ w)) in
  match op with
  | binary_plus => wrap (x + y)
  | binary_minus => wrap (x - y)
  | multiplication => wrap (x * y)
  | division => if y =? 0 then Err division_by_zero else Ok (CV (TUint w) (x / y))
  | remainder => if y =? 0 then Err division_by_zero else Ok (CV (TUint w) (x mod y))
  | bitwise_and => wrap (Z.land x y)
  | bitwise_or => wrap (Z.lor x y)
  | bitwise_xor => wrap (Z.lxor x y)
  | shift_left => if y <? 128 then wrap (x * 2 ^ y) else UB
  | shift_right => if y <? 128 then Ok (CV (TUint w) (x / 2 ^ y)) else UB
  | equals => Ok (bool_value (x =? y))
  | not_equals => Ok (bool_value (negb (x =? y)))
  | less_than => Ok (bool_value (x <? y))
  | greater_than => Ok (bool_value (y <? x))
  | less_or_equal => Ok (bool_value (x <=? y))
  | greater_or_equal => Ok (bool_value (y <=? x))
  | conversion => Abort
  | _ => Err type_error
  end.

Lemma check_binary_uint_same : forall w op,
  check_binary_operator (TUint w) op (TUint w) =
  if negb (is_binary op) then Err invalid_operator
  else if is_binary_logical op then Err uint_logical
  else Ok (if is_binary_comparison op then TBool else TUint w).
Proof.
  intros w op. unfold check_binary_operator, get_common_type.
  destruct (is_binary op); [|reflexivity].
  cbn [negb ctype_eqb orb]. rewrite Z.eqb_refl. reflexivity.
Qed.

Lemma convert_equal_same : forall l r, cv_type l = cv_type r ->
  convert_to_equal_type l r = Ok (l, r).
Proof.
  intros l r H. unfold convert_to_equal_type, get_common_type.
  rewrite H, ctype_eqb_refl. cbn [or_type_error bind].
  rewrite (convert_to_same' l) by exact H. cbn [bind].
  rewrite convert_to_same. reflexivity.
Qed.

Lemma div_range : forall x y w, 0 <= x < 2 ^ w -> 0 < y -> 0 <= x / y < 2 ^ w.
Proof.
  intros x y w Hx Hy. split.
  - apply Z.div_pos; lia.
  - apply Z.le_lt_trans with x; [|lia]. apply Z.div_le_upper_bound; nia.
Qed.

Lemma in_big_int_true : forall z, - 2 ^ 127 <= z < 2 ^ 127 -> in_big_int z = true.
Proof. intros z Hz. unfold in_big_int. rewrite two127_val. lia. Qed.

Lemma signed_result_ok : forall E z, - 2 ^ 127 <= z < 2 ^ 127 -> @signed_result E z = Ok z.
Proof. intros. unfold signed_result. rewrite in_big_int_true by assumption. reflexivity. Qed.

Lemma eval_uint_binary : forall w op x y, 0 < w < 128 -> 0 <= x < 2 ^ w -> 0 <= y < 2 ^ w ->
  evaluate_binary_operator (CV (TUint w) x) op (CV (TUint w) y) = uint_binary_result w op x y.
Proof.
  intros w op x y Hw Hx Hy.
  pose proof (pow2_le_127 w ltac:(lia)) as Hp. pose proof two128_double as Hd.
  assert (Hux : to_big_uint x = x) by (apply to_big_uint_small; lia).
  assert (Huy : to_big_uint y = y) by (apply to_big_uint_small; lia).
  assert (Hquot : y <> 0 -> Z.quot x y = x / y) by (intros; apply Z.quot_div_nonneg; lia).
  assert (Hrem : y <> 0 -> Z.rem x y = x mod y) by (intros; apply Z.rem_mod_nonneg; lia).
  unfold evaluate_binary_operator. cbn [cv_type].
  rewrite check_binary_uint_same.
  destruct op; cbn [is_binary expr_kind_index negb is_binary_logical or_type_error bind uint_binary_result];
    try reflexivity;
    rewrite convert_equal_same by reflexivity; cbn [bind cv_type cv_int ctype_eqb];
    rewrite Z.eqb_refl; cbn [assert_then];
    unfold compare_uint; cbn [cv_int]; rewrite ?Hux, ?Huy; try reflexivity;
    try (destruct (y =? 0) eqn:Ey; [reflexivity|];
         rewrite ?Hquot, ?Hrem by lia;
         pose proof (div_range x y w Hx ltac:(lia)) as Hdr;
         rewrite signed_result_ok by lia; cbn [bind]; reflexivity);
    try (erewrite transform_uint2_val by (try reflexivity; assumption);
         rewrite ?mod_mod128 by lia; reflexivity).
  - (* shift_left *)
    unfold shift_defined. destruct (y <? 128) eqn:Ey.
    + erewrite transform_uint2_val; try eassumption; [|rewrite Ey; reflexivity].
      rewrite mod_mod128 by lia. rewrite Z.shiftl_mul_pow2 by lia. reflexivity.
    + apply transform_uint2_ub; try assumption. rewrite Ey. reflexivity.
  - (* shift_right *)
    unfold shift_defined. destruct (y <? 128) eqn:Ey.
    + erewrite transform_uint2_val; try eassumption; [|rewrite Ey; reflexivity].
      rewrite Z.shiftr_div_pow2 by lia.
      rewrite Z.mod_small; [reflexivity|].
      apply div_range; [assumption|apply pow2_pos; lia].
    + apply transform_uint2_ub; try assumption. rewrite Ey. reflexivity.
Qed.

(** * Evaluation on Int operands, in closed form *)

Definition int_binary_result (op : expr_kind) (x y : Z) : outcome eval_error cvalue :=
  let exact z := if (- 2 ^ 127 <=? z) && (z <? 2 ^ 127) then Ok (CV TInt z) else UB in
  match op with
  | binary_plus => exact (x + y)
  | binary_minus => exact (x - y)
  | multiplication => exact (x * y)
  | division => if y =? 0 then Err division_by_zero else exact (Z.quot x y)
  | remainder =>
      if y =? 0 then Err division_by_zero
      else if (x =? - 2 ^ 127) && (y =? -1) then UB
      else Ok (CV TInt (Z.rem x y))
  | equals => Ok (bool_value (x =? y))
  | not_equals => Ok (bool_value (negb (x =? y)))
  | less_than => Ok (bool_value (x <? y))
  | greater_than => Ok (bool_value (y <? x))
  | less_or_equal => Ok (bool_value (x <=? y))
  | greater_or_equal => Ok (bool_value (y <=? x))
  | conversion => Abort
  | _ => Err type_error
  end.

Lemma quot_range : forall x y, - 2 ^ 127 <= x < 2 ^ 127 -> y <> 0 ->
  ~ (x = - 2 ^ 127 /\ y = -1) -> - 2 ^ 127 <= Z.quot x y < 2 ^ 127.
Proof.
  intros x y Hx Hy Hn.
  destruct (Z.eq_dec y (-1)) as [->|Hy1].
  - assert (Z.quot x (-1) = - x).
    { change (-1) with (- (1)). rewrite Z.quot_opp_r by lia. rewrite Z.quot_1_r. reflexivity. }
    lia.
  - destruct (Z.eq_dec y 1) as [->|Hy2].
    + rewrite Z.quot_1_r. lia.
    + assert (Habs : Z.abs (Z.quot x y) <= Z.abs x / 2).
      { rewrite <- Z.quot_abs by assumption.
        rewrite Z.quot_div_nonneg by lia.
        apply Z.div_le_compat_l; lia. }
      assert (Z.abs x / 2 <= 2 ^ 126).
      { apply Z.div_le_upper_bound; [lia|]. change (2 * 2 ^ 126) with (2 ^ 127). lia. }
      assert (2 ^ 127 = 2 * 2 ^ 126) by reflexivity.
      assert (0 < 2 ^ 126) by reflexivity.
      lia.
Qed.

Lemma eval_int_binary : forall op x y,
  - 2 ^ 127 <= x < 2 ^ 127 -> - 2 ^ 127 <= y < 2 ^ 127 ->
  evaluate_binary_operator (CV TInt x) op (CV TInt y) = int_binary_result op x y.
Proof.
  intros op x y Hx Hy.
  unfold evaluate_binary_operator.
  destruct op; try reflexivity;
    unfold int_binary_result; cbn [cv_type cv_int]; cbn [check_binary_operator is_binary expr_kind_index
      negb ctype_eqb orb get_common_type bind is_binary_bitwise is_binary_logical is_binary_comparison
      is_equality_comparison is_relational_comparison or_type_error];
    unfold check_binary_operator; cbn; rewrite ?Bool.orb_false_r;
    unfold signed_result, in_big_int; rewrite ?two127_val;
    try (destruct ((- 2 ^ 127 <=? _) && (_ <? 2 ^ 127)); reflexivity);
    try reflexivity.
  - destruct (y =? 0) eqn:Ey; [reflexivity|].
    destruct ((x =? - 2 ^ 127) && (y =? -1)) eqn:E.
    + assert (x = - 2 ^ 127) as -> by lia. assert (y = -1) as -> by lia.
      reflexivity.
    + pose proof (quot_range x y Hx ltac:(lia) ltac:(lia)) as Hq.
      replace ((- 2 ^ 127 <=? Z.quot x y) && (Z.quot x y <? 2 ^ 127)) with true by lia.
      reflexivity.
Qed.

(** * Mixed operands *)

Lemma convert_equal_int_uint : forall x w y, 0 < w < 128 -> - 2 ^ 127 <= x < 2 ^ 127 ->
  convert_to_equal_type (CV TInt x) (CV (TUint w) y) =
  if (0 <=? x) && (x <? 2 ^ w) then Ok (CV (TUint w) x, CV (TUint w) y)
  else Err int_to_uint_range_error.
Proof.
  intros x w y Hw Hx. unfold convert_to_equal_type. cbn [cv_type get_common_type ctype_eqb or_type_error bind].
  rewrite convert_int_uint by assumption.
  destruct ((0 <=? x) && (x <? 2 ^ w)); [|reflexivity].
  cbn [bind]. rewrite convert_to_same' by reflexivity. reflexivity.
Qed.

Lemma convert_equal_uint_int : forall x w y, 0 < w < 128 -> - 2 ^ 127 <= y < 2 ^ 127 ->
  convert_to_equal_type (CV (TUint w) x) (CV TInt y) =
  if (0 <=? y) && (y <? 2 ^ w) then Ok (CV (TUint w) x, CV (TUint w) y)
  else Err int_to_uint_range_error.
Proof.
  intros x w y Hw Hx. unfold convert_to_equal_type. cbn [cv_type get_common_type ctype_eqb or_type_error bind].
  rewrite convert_to_same' by reflexivity. cbn [bind].
  rewrite convert_int_uint by assumption.
  destruct ((0 <=? y) && (y <? 2 ^ w)); reflexivity.
Qed.

Definition uint_op_ok (op : expr_kind) : bool := is_binary op && negb (is_binary_logical op).

Lemma eval_int_uint : forall x w y op, 0 < w < 128 -> - 2 ^ 127 <= x < 2 ^ 127 ->
  evaluate_binary_operator (CV TInt x) op (CV (TUint w) y) =
  if uint_op_ok op then
    if (0 <=? x) && (x <? 2 ^ w) then
      evaluate_binary_operator (CV (TUint w) x) op (CV (TUint w) y)
    else Err int_to_uint_range_error
  else Err type_error.
Proof.
  intros x w y op Hw Hx. unfold evaluate_binary_operator. cbn [cv_type].
  rewrite convert_equal_int_uint by assumption.
  rewrite (convert_equal_same (CV (TUint w) x)) by reflexivity.
  rewrite check_binary_uint_same.
  replace (check_binary_operator TInt op (TUint w)) with
    (check_binary_operator (TUint w) op (TUint w)).
  2:{ rewrite check_binary_uint_same. destruct op; reflexivity. }
  rewrite check_binary_uint_same.
  destruct op; cbn; try reflexivity;
    destruct ((0 <=? x) && (x <? 2 ^ w)); try reflexivity;
    cbn; rewrite Z.eqb_refl; reflexivity.
Qed.

Lemma eval_uint_int : forall x w y op, 0 < w < 128 -> - 2 ^ 127 <= y < 2 ^ 127 ->
  evaluate_binary_operator (CV (TUint w) x) op (CV TInt y) =
  if uint_op_ok op then
    if (0 <=? y) && (y <? 2 ^ w) then
      evaluate_binary_operator (CV (TUint w) x) op (CV (TUint w) y)
    else Err int_to_uint_range_error
  else Err type_error.
Proof.
  intros x w y op Hw Hx. unfold evaluate_binary_operator. cbn [cv_type].
  rewrite convert_equal_uint_int by assumption.
  rewrite (convert_equal_same (CV (TUint w) x)) by reflexivity.
  rewrite check_binary_uint_same.
  replace (check_binary_operator (TUint w) op TInt) with
    (check_binary_operator (TUint w) op (TUint w)).
  2:{ rewrite check_binary_uint_same. destruct op; reflexivity. }
  rewrite check_binary_uint_same.
  destruct op; cbn; try reflexivity;
    destruct ((0 <=? y) && (y <? 2 ^ w)); try reflexivity;
    cbn; rewrite Z.eqb_refl; reflexivity.
Qed.

Lemma eval_uint_uint_diff : forall v x w y op, v <> w ->
  evaluate_binary_operator (CV (TUint v) x) op (CV (TUint w) y) = Err type_error.
Proof.
  intros v x w y op H. unfold evaluate_binary_operator, check_binary_operator, get_common_type.
  cbn [cv_type ctype_eqb orb]. apply Z.eqb_neq in H. rewrite H.
  destruct (is_binary op); reflexivity.
Qed.

Definition bool_binary_result (op : expr_kind) (x y : Z) : outcome eval_error cvalue :=
  match op with
  | logical_and => Ok (bool_value (negb (x =? 0) && negb (y =? 0)))
  | logical_or => Ok (bool_value (negb (x =? 0) || negb (y =? 0)))
  | conversion | equals | not_equals => Abort
  | _ => Err type_error
  end.

Lemma eval_bool_binary : forall op x y,
  evaluate_binary_operator (CV TBool x) op (CV TBool y) = bool_binary_result op x y.
Proof. intros op x y. destruct op; reflexivity. Qed.

Lemma eval_incompatible : forall l op r,
  match cv_type l, cv_type r with
  | TVoid, _ | _, TVoid => True
  | TBool, TBool => False
  | TBool, _ | _, TBool => True
  | _, _ => False
  end -> evaluate_binary_operator l op r = Err type_error.
Proof.
  intros [tl x] op [tr y] H. cbn [cv_type] in H.
  destruct tl, tr; try contradiction; destruct op; reflexivity.
Qed.

Lemma int_of_range : forall w y, 0 < w < 128 -> 0 <= y < 2 ^ w -> - 2 ^ 127 <= y < 2 ^ 127.
Proof. intros w y Hw Hy. pose proof (pow2_le_127 w ltac:(lia)). lia. Qed.
