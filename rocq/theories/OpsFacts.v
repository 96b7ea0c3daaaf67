(** Lemmas behind the final theorems about operators. *)
From Coq Require Import ZArith List Bool Lia ZifyBool.
From Verif Require Import Prelude Types Ops OpsSpec OpsProofs.
Import ListNotations.
Open Scope Z_scope.
Local Arguments Z.pow : simpl never.

(** * Facts used by the final theorems *)

Lemma valid_width_lt : forall w, valid_width w -> 0 < w < 128.
Proof. unfold valid_width. lia. Qed.

Lemma uint_ring_modulo : forall w op f x y,
  valid_width w -> uint_range w x -> uint_range w y -> ring_op op = Some f ->
  exists r, evaluate_binary_operator (CV (TUint w) x) op (CV (TUint w) y) = Ok (CV (TUint w) r)
            /\ uint_range w r /\ exists k, r = f x y + k * 2 ^ w.
Proof.
  intros w op f x y Hw Hx Hy Hf. apply valid_width_lt in Hw.
  rewrite eval_uint_binary by assumption.
  assert (H : forall z, exists k, z mod 2 ^ w = z + k * 2 ^ w).
  { intros z. exists (- (z / 2 ^ w)). rewrite Z.mod_eq by (pose proof (pow2_pos w); lia). lia. }
  destruct op; try discriminate; injection Hf as <-; cbn [uint_binary_result];
    eexists; (split; [reflexivity|]); (split; [apply mod_range; lia | apply H]).
Qed.

Lemma bit_op_range : forall w x y, 0 < w -> 0 <= x < 2 ^ w -> 0 <= y < 2 ^ w ->
  0 <= Z.land x y < 2 ^ w /\ 0 <= Z.lor x y < 2 ^ w /\ 0 <= Z.lxor x y < 2 ^ w.
Proof.
  intros w x y Hw Hx Hy.
  assert (Hb : forall z, 0 <= z -> (forall i, w <= i -> Z.testbit z i = false) -> 0 <= z < 2 ^ w).
  { intros z Hz Hi. split; [assumption|].
    destruct (Z.eq_dec z 0) as [->|Hnz]; [apply pow2_pos; lia|].
    apply Z.log2_lt_pow2; [lia|].
    destruct (Z_lt_le_dec (Z.log2 z) w) as [|Hge]; [assumption|].
    exfalso. specialize (Hi _ Hge). rewrite Z.bit_log2 in Hi by lia. discriminate. }
  assert (Hhigh : forall z, 0 <= z < 2 ^ w -> forall i, w <= i -> Z.testbit z i = false).
  { intros z Hz i Hi. apply Z.testbit_false; [lia|].
    rewrite Z.div_small; [reflexivity|]. split; [lia|].
    apply Z.lt_le_trans with (2 ^ w); [lia|]. apply Z.pow_le_mono_r; lia. }
  repeat split; try (apply Hb; [|intros i Hi]);
    rewrite ?Z.land_spec, ?Z.lor_spec, ?Z.lxor_spec, ?(Hhigh x), ?(Hhigh y) by assumption;
    try reflexivity;
    try (apply Z.land_nonneg; lia); try (apply Z.lor_nonneg; lia); try (apply Z.lxor_nonneg; lia).
Qed.

Lemma uint_bitwise_bits : forall w op f x y,
  valid_width w -> uint_range w x -> uint_range w y -> bit_op op = Some f ->
  exists r, evaluate_binary_operator (CV (TUint w) x) op (CV (TUint w) y) = Ok (CV (TUint w) r)
            /\ uint_range w r
            /\ forall i, Z.testbit r i = f (Z.testbit x i) (Z.testbit y i).
Proof.
  intros w op f x y Hw Hx Hy Hf. apply valid_width_lt in Hw.
  destruct (bit_op_range w x y ltac:(lia) Hx Hy) as (H1 & H2 & H3).
  rewrite eval_uint_binary by assumption.
  destruct op; try discriminate; injection Hf as <-; cbn [uint_binary_result];
    eexists; (split; [rewrite Z.mod_small by assumption; reflexivity|]);
    (split; [assumption|]); intros i.
  - apply Z.land_spec.
  - apply Z.lor_spec.
  - apply Z.lxor_spec.
Qed.

Lemma eval_uint_unary : forall w op x, 0 < w < 128 -> 0 <= x < 2 ^ w ->
  evaluate_unary_operator op (CV (TUint w) x) =
  match op with
  | unary_plus => Ok (CV (TUint w) x)
  | unary_minus => Ok (CV (TUint w) ((- x) mod 2 ^ w))
  | bitwise_not => Ok (CV (TUint w) (2 ^ w - 1 - x))
  | _ => Err type_error
  end.
Proof.
  intros w op x Hw Hx. unfold evaluate_unary_operator. cbn [cv_type cv_int].
  assert (Hi : forall z, to_big_uint (to_big_uint z) mod 2 ^ w = z mod 2 ^ w).
  { intros z. rewrite !mod_mod128 by assumption. reflexivity. }
  destruct op; cbn [check_unary_operator is_prefix_unary negb expr_kind_eqb expr_kind_index
    or_type_error bind Z.eqb Pos.eqb]; try reflexivity;
    rewrite transform_uint_val by assumption; rewrite Hi; [reflexivity|].
  unfold Z.lnot. replace (Z.pred (- x)) with ((2 ^ w - 1 - x) + (-1) * 2 ^ w) by lia.
  rewrite Z.mod_add by (pose proof (pow2_pos w); lia).
  rewrite Z.mod_small by lia. reflexivity.
Qed.

Lemma uint_unary_minus : forall w x, valid_width w -> uint_range w x ->
  exists r, evaluate_unary_operator unary_minus (CV (TUint w) x) = Ok (CV (TUint w) r)
            /\ uint_range w r /\ (x = 0 -> r = 0) /\ (x <> 0 -> r + x = 2 ^ w).
Proof.
  intros w x Hw Hx. apply valid_width_lt in Hw. unfold uint_range in *.
  rewrite eval_uint_unary by assumption.
  eexists; split; [reflexivity|]. split; [apply mod_range; lia|]. split.
  - intros ->. apply Z.mod_0_l. pose proof (pow2_pos w); lia.
  - intros Hnz. replace (- x) with ((2 ^ w - x) + (-1) * 2 ^ w) by lia.
    rewrite Z.mod_add by (pose proof (pow2_pos w); lia). rewrite Z.mod_small by lia. lia.
Qed.

Lemma uint_bitwise_not : forall w x, valid_width w -> uint_range w x ->
  exists r, evaluate_unary_operator bitwise_not (CV (TUint w) x) = Ok (CV (TUint w) r)
            /\ uint_range w r
            /\ forall i, 0 <= i < w -> Z.testbit r i = negb (Z.testbit x i).
Proof.
  intros w x Hw Hx. apply valid_width_lt in Hw. unfold uint_range in *.
  rewrite eval_uint_unary by assumption.
  eexists; split; [reflexivity|]. split; [lia|].
  intros i Hi.
  replace (2 ^ w - 1 - x) with (Z.lnot x mod 2 ^ w).
  - rewrite Z.mod_pow2_bits_low by lia. apply Z.lnot_spec. lia.
  - unfold Z.lnot. replace (Z.pred (- x)) with ((2 ^ w - 1 - x) + (-1) * 2 ^ w) by lia.
    rewrite Z.mod_add by (pose proof (pow2_pos w); lia). apply Z.mod_small. lia.
Qed.

Lemma uint_division : forall w x y, valid_width w -> uint_range w x -> uint_range w y -> y <> 0 ->
  exists q r,
    evaluate_binary_operator (CV (TUint w) x) division (CV (TUint w) y) = Ok (CV (TUint w) q)
    /\ evaluate_binary_operator (CV (TUint w) x) remainder (CV (TUint w) y) = Ok (CV (TUint w) r)
    /\ uint_range w q /\ x = q * y + r /\ 0 <= r < y.
Proof.
  intros w x y Hw Hx Hy Hnz. apply valid_width_lt in Hw. unfold uint_range in *.
  rewrite !eval_uint_binary by assumption. cbn [uint_binary_result].
  destruct (y =? 0) eqn:E; [lia|].
  do 2 eexists. split; [reflexivity|]. split; [reflexivity|].
  split; [apply div_range; lia|].
  pose proof (Z.div_mod x y Hnz). pose proof (Z.mod_pos_bound x y). lia.
Qed.

Lemma int_division : forall x y, int_range x -> int_range y -> y <> 0 ->
  ~ (x = - 2 ^ 127 /\ y = -1) ->
  exists q r,
    evaluate_binary_operator (CV TInt x) division (CV TInt y) = Ok (CV TInt q)
    /\ evaluate_binary_operator (CV TInt x) remainder (CV TInt y) = Ok (CV TInt r)
    /\ int_range q /\ x = q * y + r /\ Z.abs r < Z.abs y /\ (r = 0 \/ Z.sgn r = Z.sgn x).
Proof.
  intros x y Hx Hy Hnz Hn. unfold int_range in *.
  rewrite !eval_int_binary by assumption. cbn [int_binary_result].
  pose proof (quot_range x y Hx Hnz Hn) as Hq.
  destruct (y =? 0) eqn:E; [lia|].
  destruct ((- 2 ^ 127 <=? Z.quot x y) && (Z.quot x y <? 2 ^ 127)) eqn:E1; [|lia].
  destruct ((x =? - 2 ^ 127) && (y =? -1)) eqn:E2; [lia|].
  do 2 eexists. split; [reflexivity|]. split; [reflexivity|].
  split; [assumption|].
  pose proof (Z.quot_rem x y Hnz) as H1. pose proof (Z.rem_bound_abs x y Hnz) as H2.
  split; [lia|]. split; [assumption|].
  destruct (Z.eq_dec (Z.rem x y) 0); [left; assumption|right].
  apply Z.rem_sign_nz; assumption.
Qed.

Lemma division_zero : forall l r op, wf_value l -> wf_value r ->
  op = division \/ op = remainder ->
  is_integer (cv_type l) = true -> is_integer (cv_type r) = true -> cv_int r = 0 ->
  forall v, evaluate_binary_operator l op r <> Ok v.
Proof.
  intros [tl x] [tr y] op [Htl Hl] [Htr Hr] Hop Hil Hir Hz v Heval. revert Heval. cbn [cv_type cv_int] in *. subst y.
  destruct tl as [| | |wl]; try discriminate; destruct tr as [| | |wr]; try discriminate;
    cbn [wf_type in_type_range] in *.
  - rewrite eval_int_binary by lia. destruct Hop as [-> | ->]; cbn; discriminate.
  - rewrite eval_int_uint by assumption.
    destruct Hop as [-> | ->];
    [change (uint_op_ok division) with true|change (uint_op_ok remainder) with true]; cbn match;
    (destruct ((0 <=? x) && (x <? 2 ^ wr)) eqn:E; [|discriminate]);
    rewrite eval_uint_binary by lia; cbn; discriminate.
  - rewrite eval_uint_int by lia.
    destruct Hop as [-> | ->];
    [change (uint_op_ok division) with true|change (uint_op_ok remainder) with true]; cbn match;
    (destruct ((0 <=? 0) && (0 <? 2 ^ wl)) eqn:E; [|discriminate]);
    rewrite eval_uint_binary by lia; cbn; discriminate.
  - destruct (Z.eq_dec wl wr) as [->|Hne].
    + rewrite eval_uint_binary by lia. destruct Hop as [-> | ->]; cbn; discriminate.
    + rewrite eval_uint_uint_diff by assumption. discriminate.
Qed.

Lemma division_zero_same : forall t x op, wf_value (CV t x) -> is_integer t = true ->
  op = division \/ op = remainder ->
  evaluate_binary_operator (CV t x) op (CV t 0) = Err division_by_zero.
Proof.
  intros t x op [Ht Hx] Hi Hop. cbn [cv_type cv_int] in *.
  destruct t as [| | |w]; try discriminate; cbn [wf_type in_type_range] in *.
  - rewrite eval_int_binary by lia. destruct Hop as [-> | ->]; reflexivity.
  - rewrite eval_uint_binary by lia. destruct Hop as [-> | ->]; reflexivity.
Qed.

Lemma shift_left_value : forall w x y, valid_width w -> uint_range w x -> uint_range w y ->
  y < 128 ->
  exists r, evaluate_binary_operator (CV (TUint w) x) shift_left (CV (TUint w) y) = Ok (CV (TUint w) r)
    /\ uint_range w r
    /\ forall i, 0 <= i < w -> Z.testbit r i = if i <? y then false else Z.testbit x (i - y).
Proof.
  intros w x y Hw Hx Hy Hlt. apply valid_width_lt in Hw. unfold uint_range in *.
  rewrite eval_uint_binary by assumption. cbn [uint_binary_result].
  destruct (y <? 128) eqn:E; [|lia].
  eexists; split; [reflexivity|]. split; [apply mod_range; lia|].
  intros i Hi. rewrite Z.mod_pow2_bits_low by lia.
  destruct (i <? y) eqn:Ei.
  - apply Z.mul_pow2_bits_low. lia.
  - apply Z.mul_pow2_bits. lia.
Qed.

Lemma shift_right_value : forall w x y, valid_width w -> uint_range w x -> uint_range w y ->
  y < 128 ->
  exists r, evaluate_binary_operator (CV (TUint w) x) shift_right (CV (TUint w) y) = Ok (CV (TUint w) r)
    /\ uint_range w r
    /\ forall i, 0 <= i -> Z.testbit r i = Z.testbit x (i + y).
Proof.
  intros w x y Hw Hx Hy Hlt. apply valid_width_lt in Hw. unfold uint_range in *.
  rewrite eval_uint_binary by assumption. cbn [uint_binary_result].
  destruct (y <? 128) eqn:E; [|lia].
  eexists; split; [reflexivity|].
  split; [apply div_range; [lia|apply pow2_pos; lia]|].
  intros i Hi. apply Z.div_pow2_bits; lia.
Qed.

(** Case split over two well-formed values. *)
Ltac split_values l r Hl Hr :=
  destruct l as [tl x]; destruct r as [tr y]; destruct Hl as [Htl Hx]; destruct Hr as [Htr Hy];
  cbn [cv_type cv_int] in *;
  destruct tl as [| | |wl]; destruct tr as [| | |wr]; cbn [wf_type in_type_range] in *.

Lemma bool_value_wf : forall b, wf_value (bool_value b).
Proof. intros []; split; cbn; auto. Qed.

Lemma uint_binary_result_wf : forall w op x y v, 0 < w < 128 -> 0 <= x < 2 ^ w -> 0 <= y < 2 ^ w ->
  uint_binary_result w op x y = Ok v -> wf_value v.
Proof.
  intros w op x y v Hw Hx Hy H.
  assert (Hm : forall z, wf_value (CV (TUint w) (z mod 2 ^ w))).
  { intros z. split; cbn; [lia|apply mod_range; lia]. }
  destruct op; cbn [uint_binary_result] in H; try discriminate;
    try (injection H as <-; apply bool_value_wf);
    try (injection H as <-; apply Hm).
  - destruct (y =? 0) eqn:E; [discriminate|]. injection H as <-.
    split; cbn; [lia|apply div_range; lia].
  - destruct (y =? 0) eqn:E; [discriminate|]. injection H as <-.
    split; cbn; [lia|]. pose proof (Z.mod_pos_bound x y). lia.
  - destruct (y <? 128); [|discriminate]. injection H as <-. apply Hm.
  - destruct (y <? 128) eqn:E; [|discriminate]. injection H as <-.
    split; cbn; [lia|]. apply div_range; [lia|apply pow2_pos; lia].
Qed.

Lemma int_binary_result_wf : forall op x y v, int_range x -> int_range y ->
  int_binary_result op x y = Ok v -> wf_value v.
Proof.
  intros op x y v Hx Hy H. unfold int_range in *.
  assert (He : forall z, (if (- 2 ^ 127 <=? z) && (z <? 2 ^ 127) then Ok (CV TInt z) else UB)
                         = (Ok v : outcome eval_error cvalue) -> wf_value v).
  { intros z Hz. destruct ((- 2 ^ 127 <=? z) && (z <? 2 ^ 127)) eqn:E; [|discriminate].
    injection Hz as <-. split; cbn; [exact I|lia]. }
  destruct op; cbn [int_binary_result] in H; try discriminate;
    try (injection H as <-; apply bool_value_wf);
    try (apply He in H; assumption).
  - destruct (y =? 0); [discriminate|]. apply He in H. assumption.
  - destruct (y =? 0) eqn:Ey; [discriminate|].
    destruct ((x =? - 2 ^ 127) && (y =? -1)); [discriminate|].
    injection H as <-. split; cbn; [exact I|].
    pose proof (Z.rem_bound_abs x y ltac:(lia)). lia.
Qed.

Lemma eval_binary_wf : forall l op r v, wf_value l -> wf_value r ->
  evaluate_binary_operator l op r = Ok v -> wf_value v.
Proof.
  intros l op r v Hl Hr H.
  split_values l r Hl Hr;
    try (rewrite eval_incompatible in H by exact I; discriminate).
  - rewrite eval_bool_binary in H. destruct op; cbn in H; try discriminate;
      injection H as <-; apply bool_value_wf.
  - rewrite eval_int_binary in H by lia. eapply int_binary_result_wf; [| |eassumption]; assumption.
  - rewrite eval_int_uint in H by lia. destruct (uint_op_ok op); [|discriminate].
    destruct ((0 <=? x) && (x <? 2 ^ wr)) eqn:E; [|discriminate].
    rewrite eval_uint_binary in H by lia. eapply uint_binary_result_wf; [| | |eassumption]; lia.
  - rewrite eval_uint_int in H by lia. destruct (uint_op_ok op); [|discriminate].
    destruct ((0 <=? y) && (y <? 2 ^ wl)) eqn:E; [|discriminate].
    rewrite eval_uint_binary in H by lia. eapply uint_binary_result_wf; [| | |eassumption]; lia.
  - destruct (Z.eq_dec wl wr) as [->|Hne].
    + rewrite eval_uint_binary in H by lia. eapply uint_binary_result_wf; [| | |eassumption]; lia.
    + rewrite eval_uint_uint_diff in H by assumption. discriminate.
Qed.

Lemma eval_unary_wf : forall op v r, wf_value v -> evaluate_unary_operator op v = Ok r -> wf_value r.
Proof.
  intros op [t x] r [Ht Hx] H. cbn [cv_type cv_int] in *.
  destruct t as [| | |w]; cbn [wf_type in_type_range] in *.
  - destruct op; discriminate.
  - destruct op; try discriminate. cbn in H. injection H as <-.
    destruct Hx as [-> | ->]; split; cbn; auto.
  - destruct op; try discriminate; cbn in H.
    + injection H as <-. split; cbn; auto.
    + unfold signed_result, in_big_int in H. rewrite two127_val in H.
      destruct ((- 2 ^ 127 <=? - x) && (- x <? 2 ^ 127)) eqn:E; [|discriminate].
      cbn in H. injection H as <-. split; cbn; [exact I|lia].
  - rewrite eval_uint_unary in H by assumption.
    destruct op; try discriminate; injection H as <-; split; cbn; try lia.
    apply mod_range; lia.
Qed.

Lemma convert_uint_uint_diff : forall a b x c, (a =? b) = false ->
  convert_to (CV (TUint a) x) (TUint b) c = Err type_error.
Proof.
  intros a b x c E. unfold convert_to, is_convertible_to. cbn [cv_type ctype_eqb orb].
  rewrite E. reflexivity.
Qed.

Lemma convert_wf : forall v t c r, wf_value v -> wf_type t -> convert_to v t c = Ok r ->
  wf_value r /\ cv_type r = t.
Proof.
  intros [s x] t c r [Hs Hx] Ht H. cbn [cv_type cv_int] in *.
  destruct (ctype_eqb s t) eqn:E.
  - apply ctype_eqb_eq in E. subst s. rewrite convert_to_same' in H by reflexivity.
    injection H as <-. split; [split; assumption|reflexivity].
  - destruct s, t; cbn in E; try discriminate;
      try (unfold convert_to in H; cbn in H; discriminate H);
      try (rewrite convert_uint_uint_diff in H by assumption; discriminate H).
    cbn in Hs, Hx, Ht.
    rewrite convert_int_uint in H by assumption.
    destruct c.
    + destruct ((0 <=? x) && (x <? 2 ^ width)) eqn:E2; [|discriminate].
      injection H as <-. split; [|reflexivity]. split; cbn; lia.
    + injection H as <-. split; [|reflexivity]. split; cbn; [lia|apply mod_range; lia].
Qed.

Lemma common_type_wf : forall a b t, wf_type a -> wf_type b -> get_common_type a b = Ok t -> wf_type t.
Proof.
  intros a b t Ha Hb H. unfold get_common_type in H.
  destruct (ctype_eqb a b); [congruence|].
  destruct a, b; try discriminate; congruence.
Qed.

Lemma eval_if_wf : forall l c r v, wf_value l -> wf_value c -> wf_value r ->
  evaluate_if_expression l c r = Ok v -> wf_value v.
Proof.
  intros l c r v Hl Hc Hr H. unfold evaluate_if_expression, check_if_expression in H.
  destruct (ctype_eqb (cv_type c) TBool); [|discriminate]. cbn [negb] in H.
  destruct (get_common_type (cv_type l) (cv_type r)) as [t|e| |] eqn:E; try discriminate.
  cbn [or_type_error bind] in H.
  assert (Ht : wf_type t) by (eapply common_type_wf; [apply Hl|apply Hr|eassumption]).
  destruct (negb (cv_int c =? 0)); eapply convert_wf in H; try eassumption; tauto.
Qed.

Lemma eval_builtin_wf : forall f args v, evaluate_builtin_function f args = Ok v -> wf_value v.
Proof.
  intros [] args v H. unfold evaluate_builtin_function in H.
  destruct args as [|a [|b l]]; try discriminate.
  cbn in H. destruct (ctype_eqb (cv_type a) TBool); [|discriminate]. cbn in H.
  destruct (negb (cv_int a =? 1)); [discriminate|]. injection H as <-. split; cbn; auto.
Qed.

(** * Where evaluation is undefined *)

Lemma uint_binary_result_abort : forall w op x y,
  uint_binary_result w op x y = Abort <-> op = conversion.
Proof.
  intros w op x y; split.
  - destruct op; cbn [uint_binary_result]; try discriminate; auto;
      try (destruct (y =? 0); discriminate); try (destruct (y <? 128); discriminate).
  - intros ->. reflexivity.
Qed.

Lemma uint_binary_result_ub : forall w op x y,
  uint_binary_result w op x y = UB <-> ((op = shift_left \/ op = shift_right) /\ 128 <= y).
Proof.
  intros w op x y; split.
  - destruct op; cbn [uint_binary_result]; try discriminate;
      try (destruct (y =? 0); discriminate);
      destruct (y <? 128) eqn:E; try discriminate; intros _; split; auto; lia.
  - intros [[-> | ->] H]; cbn; destruct (y <? 128) eqn:E; auto; lia.
Qed.

Lemma int_binary_result_abort : forall op x y, int_binary_result op x y = Abort <-> op = conversion.
Proof.
  intros op x y; split.
  - destruct op; cbn [int_binary_result]; try discriminate; auto;
      try (destruct (y =? 0); try discriminate);
      try (destruct ((- 2 ^ 127 <=? _) && (_ <? 2 ^ 127)); discriminate);
      destruct ((x =? - 2 ^ 127) && (y =? -1)); discriminate.
  - intros ->. reflexivity.
Qed.

Lemma int_binary_result_ub : forall op x y, int_range x -> int_range y ->
  (int_binary_result op x y = UB <-> evaluation_undefined (CV TInt x) op (CV TInt y)).
Proof.
  intros op x y Hx Hy. unfold evaluation_undefined. cbn [cv_type cv_int].
  unfold int_range in *.
  assert (He : forall z, (if (- 2 ^ 127 <=? z) && (z <? 2 ^ 127) then Ok (CV TInt z) else UB)
                         = (UB : outcome eval_error cvalue) <-> ~ (- 2 ^ 127 <= z < 2 ^ 127)).
  { intros z. destruct ((- 2 ^ 127 <=? z) && (z <? 2 ^ 127)) eqn:E; split; intros; try discriminate;
      try reflexivity; lia. }
  destruct op; cbn [int_binary_result];
    try (split; [discriminate|intros H; exfalso; intuition discriminate]).
  - rewrite He. split; [intros; left; auto|intuition discriminate].
  - rewrite He. split; [intros; right; left; auto|intuition discriminate].
  - rewrite He. split; [intros; right; right; left; auto|intuition discriminate].
  - destruct (y =? 0) eqn:Ey.
    + split; [discriminate|]. intros H; exfalso. intuition (try discriminate; lia).
    + rewrite He. split.
      * intros H. right; right; right. split; [auto|].
        destruct (Z.eq_dec x (- 2 ^ 127)), (Z.eq_dec y (-1)); auto;
          exfalso; apply H; apply quot_range; lia.
      * intros [[? ?]|[[? ?]|[[? ?]|[_ [-> ->]]]]]; try discriminate.
        intros H. vm_compute in H. destruct H as [_ H]. discriminate.
  - destruct (y =? 0) eqn:Ey.
    + split; [discriminate|]. intros H; exfalso. intuition (try discriminate; lia).
    + destruct ((x =? - 2 ^ 127) && (y =? -1)) eqn:E.
      * split; auto. intros _. right; right; right. split; auto. lia.
      * split; [discriminate|]. intros H; exfalso. intuition (try discriminate; lia).
Qed.

Lemma eval_binary_abort_iff : forall l op r, wf_value l -> wf_value r ->
  (evaluate_binary_operator l op r = Abort <-> evaluation_aborts l op r).
Proof.
  intros l op r Hl Hr. unfold evaluation_aborts, uint_range.
  split_values l r Hl Hr;
    try (rewrite eval_incompatible by exact I; split; [discriminate|contradiction]).
  - rewrite eval_bool_binary. destruct op; cbn; split; intros; try discriminate; auto;
      intuition discriminate.
  - rewrite eval_int_binary by lia. apply int_binary_result_abort.
  - rewrite eval_int_uint by lia.
    destruct (uint_op_ok op) eqn:Eo.
    + destruct ((0 <=? x) && (x <? 2 ^ wr)) eqn:E.
      * rewrite eval_uint_binary by lia. rewrite uint_binary_result_abort. intuition lia.
      * split; [discriminate|]. intros; exfalso; lia.
    + split; [discriminate|]. intros [-> _]. discriminate.
  - rewrite eval_uint_int by lia.
    destruct (uint_op_ok op) eqn:Eo.
    + destruct ((0 <=? y) && (y <? 2 ^ wl)) eqn:E.
      * rewrite eval_uint_binary by lia. rewrite uint_binary_result_abort. intuition lia.
      * split; [discriminate|]. intros; exfalso; lia.
    + split; [discriminate|]. intros [-> _]. discriminate.
  - destruct (Z.eq_dec wl wr) as [->|Hne].
    + rewrite eval_uint_binary by lia. rewrite uint_binary_result_abort. tauto.
    + rewrite eval_uint_uint_diff by assumption. split; [discriminate|]. tauto.
Qed.

Lemma eval_binary_ub_iff : forall l op r, wf_value l -> wf_value r ->
  (evaluate_binary_operator l op r = UB <-> evaluation_undefined l op r).
Proof.
  intros l op r Hl Hr.
  split_values l r Hl Hr;
    try (rewrite eval_incompatible by exact I; split; [discriminate|contradiction]).
  - rewrite eval_bool_binary. destruct op; cbn; split; intros; try discriminate; contradiction.
  - rewrite eval_int_binary by lia. apply int_binary_result_ub; assumption.
  - cbn. unfold uint_range. rewrite eval_int_uint by lia.
    destruct (uint_op_ok op) eqn:Eo.
    + destruct ((0 <=? x) && (x <? 2 ^ wr)) eqn:E.
      * rewrite eval_uint_binary by lia. rewrite uint_binary_result_ub. intuition lia.
      * split; [discriminate|]. intros; exfalso; lia.
    + split; [discriminate|]. intros [[-> | ->] _]; discriminate.
  - cbn. unfold uint_range. rewrite eval_uint_int by lia.
    destruct (uint_op_ok op) eqn:Eo.
    + destruct ((0 <=? y) && (y <? 2 ^ wl)) eqn:E.
      * rewrite eval_uint_binary by lia. rewrite uint_binary_result_ub. intuition lia.
      * split; [discriminate|]. intros; exfalso; lia.
    + split; [discriminate|]. intros [[-> | ->] _]; discriminate.
  - cbn. destruct (Z.eq_dec wl wr) as [->|Hne].
    + rewrite eval_uint_binary by lia. rewrite uint_binary_result_ub. tauto.
    + rewrite eval_uint_uint_diff by assumption. split; [discriminate|]. tauto.
Qed.

Lemma eval_unary_undefined_iff : forall op v, wf_value v ->
  (~ defined (evaluate_unary_operator op v)
   <-> (cv_type v = TInt /\ op = unary_minus /\ cv_int v = - 2 ^ 127)).
Proof.
  intros op [t x] [Ht Hx]. cbn [cv_type cv_int] in *.
  destruct t as [| | |w]; cbn [wf_type in_type_range] in *.
  - split; [destruct op; cbn; tauto|intuition discriminate].
  - split; [destruct op; cbn; tauto|intuition discriminate].
  - destruct op; cbn; try (split; [tauto|intuition discriminate]).
    unfold signed_result, in_big_int. rewrite two127_val.
    destruct ((- 2 ^ 127 <=? - x) && (- x <? 2 ^ 127)) eqn:E; cbn.
    + split; [tauto|]. intros (_ & _ & ->). discriminate.
    + split; [|tauto]. intros _. repeat split; lia.
  - rewrite eval_uint_unary by assumption.
    split; [destruct op; cbn; tauto|intuition discriminate].
Qed.

(** * Agreement of type check and evaluation *)

Lemma uint_binary_result_type : forall w op x y v,
  uint_binary_result w op x y = Ok v ->
  check_binary_operator (TUint w) op (TUint w) = Ok (cv_type v).
Proof.
  intros w op x y v H. rewrite check_binary_uint_same.
  destruct op; cbn [uint_binary_result] in H; try discriminate;
    try (injection H as <-; reflexivity);
    try (destruct (y =? 0); [discriminate|]; injection H as <-; reflexivity);
    destruct (y <? 128); try discriminate; injection H as <-; reflexivity.
Qed.

Lemma uint_binary_result_type_error : forall w op x y,
  uint_binary_result w op x y = Err type_error <->
  (exists e, check_binary_operator (TUint w) op (TUint w) = Err e).
Proof.
  intros w op x y. rewrite check_binary_uint_same.
  destruct op; cbn [uint_binary_result]; try (split; intros [? ?]; discriminate);
    try (split; [discriminate|intros [? ?]; discriminate]);
    try (split; [intros _; eexists; reflexivity|reflexivity]);
    try (destruct (y =? 0); (split; [discriminate|intros [? ?]; discriminate]));
    destruct (y <? 128); (split; [discriminate|intros [? ?]; discriminate]).
Qed.

Lemma check_mixed : forall w op,
  check_binary_operator TInt op (TUint w) = check_binary_operator (TUint w) op (TUint w)
  /\ check_binary_operator (TUint w) op TInt = check_binary_operator (TUint w) op (TUint w).
Proof. intros w op. rewrite check_binary_uint_same. split; destruct op; reflexivity. Qed.

Lemma uint_op_ok_check : forall w op,
  uint_op_ok op = true <-> exists t, check_binary_operator (TUint w) op (TUint w) = Ok t.
Proof.
  intros w op. rewrite check_binary_uint_same.
  split; [destruct op; intros H; try discriminate; eexists; reflexivity|].
  intros [t H]. destruct op; cbn in H; try discriminate; reflexivity.
Qed.

Lemma check_never_undefined : forall a op b, defined (check_binary_operator a op b).
Proof.
  intros a op b. unfold check_binary_operator, get_common_type.
  destruct (is_binary op); cbn [negb]; [|exact I].
  destruct (ctype_eqb a TVoid || ctype_eqb b TVoid); [exact I|].
  destruct (ctype_eqb a b); destruct a, b; destruct op; cbn; exact I.
Qed.

Lemma eval_binary_type : forall l op r v, wf_value l -> wf_value r ->
  evaluate_binary_operator l op r = Ok v ->
  check_binary_operator (cv_type l) op (cv_type r) = Ok (cv_type v).
Proof.
  intros l op r v Hl Hr H.
  split_values l r Hl Hr;
    try (rewrite eval_incompatible in H by exact I; discriminate).
  - rewrite eval_bool_binary in H. destruct op; cbn in H; try discriminate;
      injection H as <-; reflexivity.
  - rewrite eval_int_binary in H by lia.
    assert (He : forall z, (if (- 2 ^ 127 <=? z) && (z <? 2 ^ 127) then Ok (CV TInt z) else UB)
                         = (Ok v : outcome eval_error cvalue) -> cv_type v = TInt).
    { intros z Hz. destruct ((- 2 ^ 127 <=? z) && (z <? 2 ^ 127)); [|discriminate].
      injection Hz as <-. reflexivity. }
    destruct op; cbn [int_binary_result] in H; try discriminate;
      try (injection H as <-; reflexivity);
      try (apply He in H; rewrite H; reflexivity).
    + destruct (y =? 0); [discriminate|]. apply He in H; rewrite H; reflexivity.
    + destruct (y =? 0); [discriminate|].
      destruct ((x =? - 2 ^ 127) && (y =? -1)); [discriminate|]. injection H as <-; reflexivity.
  - rewrite eval_int_uint in H by lia. destruct (uint_op_ok op); [|discriminate].
    destruct ((0 <=? x) && (x <? 2 ^ wr)) eqn:E; [|discriminate].
    rewrite eval_uint_binary in H by lia. rewrite (proj1 (check_mixed wr op)).
    eapply uint_binary_result_type. eassumption.
  - rewrite eval_uint_int in H by lia. destruct (uint_op_ok op); [|discriminate].
    destruct ((0 <=? y) && (y <? 2 ^ wl)) eqn:E; [|discriminate].
    rewrite eval_uint_binary in H by lia. rewrite (proj2 (check_mixed wl op)).
    eapply uint_binary_result_type. eassumption.
  - destruct (Z.eq_dec wl wr) as [->|Hne].
    + rewrite eval_uint_binary in H by lia. eapply uint_binary_result_type. eassumption.
    + rewrite eval_uint_uint_diff in H by assumption. discriminate.
Qed.

Lemma eval_binary_type_error_iff : forall l op r, wf_value l -> wf_value r ->
  (evaluate_binary_operator l op r = Err type_error <->
   exists e, check_binary_operator (cv_type l) op (cv_type r) = Err e).
Proof.
  intros l op r Hl Hr. split.
  - intros H.
    pose proof (check_never_undefined (cv_type l) op (cv_type r)) as Hd.
    destruct (check_binary_operator (cv_type l) op (cv_type r)) as [t|e| |] eqn:Ec;
      try contradiction; [|eexists; reflexivity].
    exfalso.
    split_values l r Hl Hr; try (destruct op; discriminate Ec).
    + rewrite eval_bool_binary in H. destruct op; try discriminate H; discriminate Ec.
    + rewrite eval_int_binary in H by lia.
      destruct op; cbn [int_binary_result] in H; try discriminate H; try discriminate Ec;
      repeat match type of H with context [if ?b then _ else _] => destruct b end; discriminate.
    + rewrite eval_int_uint in H by lia. rewrite (proj1 (check_mixed wr op)) in Ec.
      rewrite (proj2 (uint_op_ok_check wr op)) in H by (eexists; eassumption).
      destruct ((0 <=? x) && (x <? 2 ^ wr)) eqn:E; [|discriminate].
      rewrite eval_uint_binary in H by lia. apply uint_binary_result_type_error in H.
      destruct H as [e He]. congruence.
    + rewrite eval_uint_int in H by lia. rewrite (proj2 (check_mixed wl op)) in Ec.
      rewrite (proj2 (uint_op_ok_check wl op)) in H by (eexists; eassumption).
      destruct ((0 <=? y) && (y <? 2 ^ wl)) eqn:E; [|discriminate].
      rewrite eval_uint_binary in H by lia. apply uint_binary_result_type_error in H.
      destruct H as [e He]. congruence.
    + destruct (Z.eq_dec wl wr) as [->|Hne].
      * rewrite eval_uint_binary in H by lia. apply uint_binary_result_type_error in H.
        destruct H as [e He]. congruence.
      * unfold check_binary_operator, get_common_type in Ec. cbn [ctype_eqb orb] in Ec.
        apply Z.eqb_neq in Hne. rewrite Hne in Ec. destruct (is_binary op); discriminate Ec.
  - intros [e He]. unfold evaluate_binary_operator. rewrite He. reflexivity.
Qed.

Lemma eval_unary_type : forall op v r, wf_value v -> evaluate_unary_operator op v = Ok r ->
  check_unary_operator op (cv_type v) = Ok (cv_type r).
Proof.
  intros op [t x] r [Ht Hx] H. cbn [cv_type cv_int] in *.
  destruct t as [| | |w]; cbn [wf_type in_type_range] in *.
  - destruct op; discriminate.
  - destruct op; try discriminate. cbn in H. injection H as <-. reflexivity.
  - destruct op; try discriminate; cbn in H.
    + injection H as <-. reflexivity.
    + destruct (signed_result (- x)); try discriminate. injection H as <-. reflexivity.
  - rewrite eval_uint_unary in H by assumption.
    destruct op; try discriminate; injection H as <-; reflexivity.
Qed.

Lemma eval_unary_type_error_iff : forall op v, wf_value v ->
  (evaluate_unary_operator op v = Err type_error <->
   exists e, check_unary_operator op (cv_type v) = Err e).
Proof.
  intros op [t x] [Ht Hx]. split.
  - intros H. cbn [cv_type cv_int] in *.
    destruct t as [| | |w]; cbn [wf_type in_type_range] in *.
    + destruct op; eexists; reflexivity.
    + destruct op; try discriminate H; eexists; reflexivity.
    + destruct op; try discriminate H; try (eexists; reflexivity). cbn in H.
      unfold signed_result in H. destruct (in_big_int (- x)); discriminate.
    + rewrite eval_uint_unary in H by assumption.
      destruct op; try discriminate H; eexists; reflexivity.
  - intros [e He]. unfold evaluate_unary_operator. rewrite He. reflexivity.
Qed.

(** * Conversion *)

Lemma convert_success_iff : forall v t, wf_value v -> wf_type t ->
  (forall r, convert_to v t lossless_numeric = Ok r <->
     ((cv_type v = t \/ (cv_type v = TInt /\ exists w, t = TUint w))
      /\ in_type_range t (cv_int v) /\ r = CV t (cv_int v))).
Proof.
  intros [s x] t [Hs Hx] Ht r. cbn [cv_type cv_int] in *.
  destruct (ctype_eqb s t) eqn:E.
  - apply ctype_eqb_eq in E. subst s. rewrite convert_to_same' by reflexivity.
    split; [intros [= <-]; auto|intros (_ & _ & ->); reflexivity].
  - assert (Hne : s <> t) by (apply ctype_eqb_neq; assumption).
    destruct s as [| | |w1], t as [| | |w2]; cbn in E; try discriminate;
      try (split; [try rewrite convert_uint_uint_diff by assumption; discriminate
                  |intros [[Heq|[Heq [w Hw]]] _]; congruence]).
    cbn in Hs, Hx, Ht.
    rewrite convert_int_uint by assumption.
    destruct ((0 <=? x) && (x <? 2 ^ w2)) eqn:E2.
    + split; [intros [= <-]|intros (_ & _ & ->); reflexivity].
      split; [right; split; [reflexivity|eexists; reflexivity]|]. split; [cbn; lia|reflexivity].
    + split; [discriminate|]. cbn. intros (_ & Hr & _). exfalso; lia.
Qed.

Lemma convert_error_kind : forall v t, wf_value v -> wf_type t ->
  match convert_to v t lossless_numeric with
  | Ok _ => is_convertible_to (cv_type v) t = true
  | Err type_error => is_convertible_to (cv_type v) t = false
  | Err int_to_uint_range_error =>
      is_convertible_to (cv_type v) t = true /\ ~ in_type_range t (cv_int v)
  | _ => False
  end.
Proof.
  intros [s x] t [Hs Hx] Ht. cbn [cv_type cv_int] in *.
  destruct (ctype_eqb s t) eqn:E.
  - apply ctype_eqb_eq in E. subst s. rewrite convert_to_same' by reflexivity.
    unfold is_convertible_to. rewrite ctype_eqb_refl. reflexivity.
  - destruct s as [| | |w1], t as [| | |w2]; cbn in E; try discriminate;
      try reflexivity;
      try (rewrite convert_uint_uint_diff by assumption; unfold is_convertible_to;
           cbn [ctype_eqb]; rewrite E; reflexivity).
    cbn in Hs, Hx, Ht. rewrite convert_int_uint by assumption.
    destruct ((0 <=? x) && (x <? 2 ^ w2)) eqn:E2; cbn; [reflexivity|]. split; [reflexivity|lia].
Qed.

Lemma convert_transitive : forall v t u v1, wf_value v -> wf_type t -> wf_type u ->
  convert_to v t lossless_numeric = Ok v1 ->
  is_convertible_to t u = true ->
  convert_to v1 u lossless_numeric = convert_to v u lossless_numeric.
Proof.
  intros v t u v1 Hv Ht Hu H Hc.
  apply convert_success_iff in H; [|assumption|assumption].
  destruct H as (Hk & Hr & ->).
  unfold is_convertible_to in Hc. apply orb_true_iff in Hc. destruct Hc as [Hc|Hc].
  - apply ctype_eqb_eq in Hc. subst u. rewrite convert_to_same' by reflexivity.
    symmetry. apply convert_success_iff; auto.
  - destruct u as [| | |wu]; try discriminate. destruct t as [| | |wt]; try discriminate.
    destruct Hk as [Hk|[Hk [w Hw]]]; [|discriminate].
    destruct v as [s x]. cbn in Hk. subst s. reflexivity.
Qed.

Lemma convert_truncating : forall x w, valid_width w -> int_range x ->
  exists r, convert_to (CV TInt x) (TUint w) truncating_numeric = Ok (CV (TUint w) r)
            /\ uint_range w r /\ exists k, r = x + k * 2 ^ w.
Proof.
  intros x w Hw Hx. apply valid_width_lt in Hw. rewrite convert_int_uint by assumption.
  eexists; split; [reflexivity|]. split; [apply mod_range; lia|].
  exists (- (x / 2 ^ w)). rewrite Z.mod_eq by (pose proof (pow2_pos w); lia). lia.
Qed.

(** [can_represent] is exact for Bool and Uint types and always true for Int. *)
Lemma can_represent_uint : forall w z, valid_width w -> int_range z ->
  can_represent (TUint w) z = true <-> uint_range w z.
Proof.
  intros w z Hw Hz. apply valid_width_lt in Hw. unfold can_represent, uint_range, int_range in *.
  cbn [ctype_eqb negb andb]. rewrite get_mask_uint by assumption.
  assert (Hmask : two128 - 1 - Z.ones w = Z.ldiff (Z.ones 128) (Z.ones w)).
  { change (two128 - 1) with (Z.ones 128). apply Z.sub_nocarry_ldiff.
    apply Z.bits_inj'. intros i Hi. rewrite Z.ldiff_spec, Z.bits_0.
    destruct (Z_lt_le_dec i 128).
    - rewrite (Z.ones_spec_low 128) by lia. apply andb_false_r.
    - rewrite Z.ones_spec_high by lia. reflexivity. }
  rewrite Hmask. rewrite Z.eqb_eq.
  pose proof (to_big_uint_range z) as Hr.
  assert (Heq : Z.land (to_big_uint z) (Z.ldiff (Z.ones 128) (Z.ones w))
                = Z.ldiff (to_big_uint z) (Z.ones w)).
  { apply Z.bits_inj'. intros i Hi. rewrite Z.land_spec, !Z.ldiff_spec.
    destruct (Z_lt_le_dec i 128).
    - rewrite (Z.ones_spec_low 128) by lia. reflexivity.
    - rewrite (Z.ones_spec_high 128) by lia. cbn.
      destruct (Z.testbit (to_big_uint z) i) eqn:E; [|reflexivity].
      exfalso. apply Z.testbit_true in E; [|lia].
      rewrite Z.div_small in E; [discriminate|].
      split; [lia|]. apply Z.lt_le_trans with (2 ^ 128); [lia|]. apply Z.pow_le_mono_r; lia. }
  rewrite Heq. rewrite Z.ldiff_ones_r by lia.
  rewrite Z.shiftr_div_pow2, Z.shiftl_mul_pow2 by lia.
  pose proof (pow2_pos w ltac:(lia)) as Hp. pose proof (pow2_le_127 w ltac:(lia)) as Hp2.
  pose proof two128_double as Hd.
  split.
  - intros H. assert (Hq : to_big_uint z / 2 ^ w = 0) by nia.
    apply Z.div_small_iff in Hq; [|lia].
    destruct (Z_lt_le_dec z 0).
    + exfalso. unfold to_big_uint in Hq. rewrite two128_val in Hq.
      assert (z mod 2 ^ 128 = z + 2 ^ 128) by (symmetry; apply Zmod_unique with (q := -1); lia).
      lia.
    + rewrite to_big_uint_small in Hq by lia. lia.
  - intros H. rewrite to_big_uint_small by lia. rewrite Z.div_small by lia. reflexivity.
Qed.

(** * Comparisons *)

Lemma compare_correct : forall t op R x y, is_integer t = true ->
  wf_value (CV t x) -> wf_value (CV t y) -> order_relation op = Some R ->
  exists b, evaluate_binary_operator (CV t x) op (CV t y) = Ok (CV TBool b)
            /\ (b = 1 <-> R x y) /\ (b = 0 <-> ~ R x y).
Proof.
  intros t op R x y Hi [Ht Hx] [_ Hy] HR. cbn [cv_type cv_int] in *.
  assert (Hb : forall (b : bool) (P : Prop), (b = true <-> P) ->
            exists z, Ok (bool_value b) = (Ok (CV TBool z) : outcome eval_error cvalue)
                      /\ (z = 1 <-> P) /\ (z = 0 <-> ~ P)).
  { intros b P HP. destruct b.
    - exists 1. split; [reflexivity|]. split; split; intros; try lia; try tauto.
    - exists 0. assert (~ P) by (intros HH; apply HP in HH; discriminate).
      split; [reflexivity|]. split; split; intros; try lia; try tauto. }
  destruct t as [| | |w]; try discriminate; cbn [wf_type in_type_range] in *.
  - rewrite eval_int_binary by lia.
    destruct op; try discriminate; injection HR as <-; cbn [int_binary_result]; apply Hb; lia.
  - rewrite eval_uint_binary by lia.
    destruct op; try discriminate; injection HR as <-; cbn [uint_binary_result]; apply Hb; lia.
Qed.

Lemma compare_mixed : forall w x y op, valid_width w -> int_range x -> uint_range w y ->
  is_binary_comparison op = true ->
  evaluate_binary_operator (CV TInt x) op (CV (TUint w) y) =
    (let* c := evaluate_conversion (CV TInt x) (TUint w) in
     evaluate_binary_operator c op (CV (TUint w) y))
  /\ evaluate_binary_operator (CV (TUint w) y) op (CV TInt x) =
    (let* c := evaluate_conversion (CV TInt x) (TUint w) in
     evaluate_binary_operator (CV (TUint w) y) op c).
Proof.
  intros w x y op Hw Hx Hy Hop. apply valid_width_lt in Hw.
  unfold evaluate_conversion. rewrite convert_int_uint by assumption.
  rewrite eval_int_uint by assumption. rewrite eval_uint_int by assumption.
  assert (uint_op_ok op = true) as -> by (destruct op; try discriminate; reflexivity).
  destruct ((0 <=? x) && (x <? 2 ^ w)); split; reflexivity.
Qed.

(** * Builtin assert *)

Lemma builtin_assert_spec : forall args,
  evaluate_builtin_function builtin_assert args =
  match args with
  | [CV TBool z] => if z =? 1 then Ok cv_Void else Err assertion_fail
  | _ => Err type_error
  end.
Proof.
  intros [|[t z] [|b l]]; try reflexivity; destruct t; try reflexivity.
  unfold evaluate_builtin_function. cbn. destruct (z =? 1); reflexivity.
Qed.

(** * If-expressions *)

Lemma eval_if_spec : forall l c r t, wf_value l -> wf_value c -> wf_value r ->
  check_if_expression (cv_type l) (cv_type c) (cv_type r) = Ok t ->
  evaluate_if_expression l c r = convert_to (if cv_int c =? 1 then l else r) t lossless_numeric.
Proof.
  intros l [ct cz] r t Hl [Hct Hcz] Hr H. unfold evaluate_if_expression. cbn [cv_type cv_int] in *.
  rewrite H. cbn [or_type_error bind].
  unfold check_if_expression in H. destruct (ctype_eqb ct TBool) eqn:E; [|discriminate].
  apply ctype_eqb_eq in E. subst ct. cbn in Hcz. destruct Hcz as [-> | ->]; reflexivity.
Qed.

Lemma never_shift_too_much : forall l op r, wf_value l -> wf_value r ->
  evaluate_binary_operator l op r <> Err shift_too_much.
Proof.
  intros l op r Hl Hr.
  assert (Hu : forall w op x y, uint_binary_result w op x y <> Err shift_too_much).
  { intros w o x y. destruct o; cbn; try discriminate;
      try (destruct (y =? 0); discriminate); destruct (y <? 128); discriminate. }
  split_values l r Hl Hr;
    try (rewrite eval_incompatible by exact I; discriminate).
  - rewrite eval_bool_binary. destruct op; discriminate.
  - rewrite eval_int_binary by lia. destruct op; cbn [int_binary_result]; try discriminate;
      repeat match goal with |- context [if ?b then _ else _] => destruct b end; discriminate.
  - rewrite eval_int_uint by lia. destruct (uint_op_ok op); [|discriminate].
    destruct ((0 <=? x) && (x <? 2 ^ wr)) eqn:E; [|discriminate].
    rewrite eval_uint_binary by lia. apply Hu.
  - rewrite eval_uint_int by lia. destruct (uint_op_ok op); [|discriminate].
    destruct ((0 <=? y) && (y <? 2 ^ wl)) eqn:E; [|discriminate].
    rewrite eval_uint_binary by lia. apply Hu.
  - destruct (Z.eq_dec wl wr) as [->|Hne].
    + rewrite eval_uint_binary by lia. apply Hu.
    + rewrite eval_uint_uint_diff by assumption. discriminate.
Qed.

Lemma eval_binary_defined : forall l op r, wf_value l -> wf_value r ->
  ~ evaluation_aborts l op r -> ~ evaluation_undefined l op r ->
  (exists v, evaluate_binary_operator l op r = Ok v)
  \/ (exists e, evaluate_binary_operator l op r = Err e).
Proof.
  intros l op r Hl Hr Ha Hu.
  destruct (evaluate_binary_operator l op r) as [v|e| |] eqn:E.
  - left. eauto.
  - right. eauto.
  - exfalso. apply Ha. apply eval_binary_abort_iff; assumption.
  - exfalso. apply Hu. apply eval_binary_ub_iff; assumption.
Qed.

Lemma binary_check_err : forall l op r e,
  check_binary_operator (cv_type l) op (cv_type r) = Err e ->
  evaluate_binary_operator l op r = Err type_error.
Proof. intros l op r e H. unfold evaluate_binary_operator. rewrite H. reflexivity. Qed.

Lemma binary_check_ok : forall l op r t, wf_value l -> wf_value r ->
  check_binary_operator (cv_type l) op (cv_type r) = Ok t ->
  evaluate_binary_operator l op r <> Err type_error
  /\ forall v, evaluate_binary_operator l op r = Ok v -> cv_type v = t.
Proof.
  intros l op r t Hl Hr H. split.
  - intros He. apply eval_binary_type_error_iff in He; try assumption.
    destruct He as [e He]. congruence.
  - intros v Hv. apply eval_binary_type in Hv; try assumption. congruence.
Qed.

Lemma unary_check_err : forall op v e,
  check_unary_operator op (cv_type v) = Err e ->
  evaluate_unary_operator op v = Err type_error.
Proof. intros op v e H. unfold evaluate_unary_operator. rewrite H. reflexivity. Qed.

Lemma unary_check_ok : forall op v t, wf_value v ->
  check_unary_operator op (cv_type v) = Ok t ->
  evaluate_unary_operator op v <> Err type_error
  /\ forall r, evaluate_unary_operator op v = Ok r -> cv_type r = t.
Proof.
  intros op v t Hv H. split.
  - intros He. apply eval_unary_type_error_iff in He; [|assumption]. destruct He. congruence.
  - intros r Hr. apply eval_unary_type in Hr; [|assumption]. congruence.
Qed.

Lemma common_type_convertible : forall a b t, get_common_type a b = Ok t ->
  is_convertible_to a t = true /\ is_convertible_to b t = true.
Proof.
  intros a b t H. unfold get_common_type in H.
  destruct (ctype_eqb a b) eqn:E.
  - apply ctype_eqb_eq in E. subst b. injection H as <-.
    unfold is_convertible_to. rewrite ctype_eqb_refl. auto.
  - destruct a, b; try discriminate; injection H as <-; unfold is_convertible_to;
      rewrite ?ctype_eqb_refl; auto.
Qed.

Lemma if_check_agrees : forall l c r, wf_value l -> wf_value c -> wf_value r ->
  match check_if_expression (cv_type l) (cv_type c) (cv_type r) with
  | Ok t => evaluate_if_expression l c r <> Err type_error
            /\ forall v, evaluate_if_expression l c r = Ok v -> cv_type v = t
  | Err _ => evaluate_if_expression l c r = Err type_error
  | _ => False
  end.
Proof.
  intros l c r Hl Hc Hr.
  destruct (check_if_expression (cv_type l) (cv_type c) (cv_type r)) as [t|e| |] eqn:E.
  - rewrite (eval_if_spec l c r t) by assumption.
    unfold check_if_expression in E. destruct (ctype_eqb (cv_type c) TBool); [|discriminate].
    cbn [negb] in E.
    assert (Ht : wf_type t) by (eapply common_type_wf; [apply Hl|apply Hr|eassumption]).
    apply common_type_convertible in E.
    set (v := if cv_int c =? 1 then l else r).
    assert (Hv : wf_value v) by (unfold v; destruct (cv_int c =? 1); assumption).
    assert (Hcv : is_convertible_to (cv_type v) t = true)
      by (unfold v; destruct (cv_int c =? 1); tauto).
    split.
    + intros He. pose proof (convert_error_kind v t Hv Ht) as Hk. rewrite He in Hk. congruence.
    + intros v' Hv'. eapply convert_wf in Hv'; try eassumption. tauto.
  - unfold evaluate_if_expression. rewrite E. reflexivity.
  - unfold check_if_expression, get_common_type in E.
    destruct (negb _); [discriminate|]. destruct (ctype_eqb _ _); [discriminate|].
    destruct (cv_type l), (cv_type r); discriminate.
  - unfold check_if_expression, get_common_type in E.
    destruct (negb _); [discriminate|]. destruct (ctype_eqb _ _); [discriminate|].
    destruct (cv_type l), (cv_type r); discriminate.
Qed.

Lemma checks_total : forall a op b,
  defined (check_binary_operator a op b) /\ defined (check_unary_operator op a).
Proof.
  intros a op b. split; [apply check_never_undefined|]. destruct a, op; exact I.
Qed.

Lemma compare_trichotomy : forall t x y, is_integer t = true ->
  wf_value (CV t x) -> wf_value (CV t y) ->
  let holds op := evaluate_binary_operator (CV t x) op (CV t y) = Ok cv_True in
  let fails op := evaluate_binary_operator (CV t x) op (CV t y) = Ok cv_False in
  ((holds less_than /\ fails equals /\ fails greater_than)
   \/ (fails less_than /\ holds equals /\ fails greater_than)
   \/ (fails less_than /\ fails equals /\ holds greater_than))
  /\ (holds less_or_equal <-> fails greater_than)
  /\ (holds greater_or_equal <-> fails less_than)
  /\ (holds not_equals <-> fails equals).
Proof.
  intros t x y Hi Hx Hy.
  assert (Hc : forall op R, order_relation op = Some R ->
    (evaluate_binary_operator (CV t x) op (CV t y) = Ok cv_True <-> R x y)
    /\ (evaluate_binary_operator (CV t x) op (CV t y) = Ok cv_False <-> ~ R x y)).
  { intros op R HR. destruct (compare_correct t op R x y Hi Hx Hy HR) as (b & He & H1 & H0).
    rewrite He. unfold cv_True, cv_False. split; split.
    - intros [= ->]. apply H1. reflexivity.
    - intros H. apply H1 in H. subst b. reflexivity.
    - intros [= ->]. apply H0. reflexivity.
    - intros H. apply H0 in H. subst b. reflexivity. }
  cbv zeta.
  pose proof (Hc less_than _ eq_refl) as [A1 A2].
  pose proof (Hc equals _ eq_refl) as [B1 B2].
  pose proof (Hc greater_than _ eq_refl) as [C1 C2].
  pose proof (Hc less_or_equal _ eq_refl) as [D1 D2].
  pose proof (Hc greater_or_equal _ eq_refl) as [E1 E2].
  pose proof (Hc not_equals _ eq_refl) as [F1 F2].
  rewrite A1, A2, B1, B2, C1, C2, D1, E1, F1. cbn beta. lia.
Qed.

Lemma compare_transitive : forall t x y z, is_integer t = true ->
  wf_value (CV t x) -> wf_value (CV t y) -> wf_value (CV t z) ->
  evaluate_binary_operator (CV t x) less_than (CV t y) = Ok cv_True ->
  evaluate_binary_operator (CV t y) less_than (CV t z) = Ok cv_True ->
  evaluate_binary_operator (CV t x) less_than (CV t z) = Ok cv_True.
Proof.
  intros t x y z Hi Hx Hy Hz H1 H2.
  destruct (compare_correct t less_than Z.lt x y Hi Hx Hy eq_refl) as (b1 & He1 & T1 & _).
  destruct (compare_correct t less_than Z.lt y z Hi Hy Hz eq_refl) as (b2 & He2 & T2 & _).
  destruct (compare_correct t less_than Z.lt x z Hi Hx Hz eq_refl) as (b3 & He3 & T3 & _).
  unfold cv_True in *. rewrite He1 in H1. rewrite He2 in H2. injection H1 as ->. injection H2 as ->.
  rewrite He3. f_equal. f_equal. apply T3.
  apply Z.lt_trans with y; [apply T1|apply T2]; reflexivity.
Qed.
