(** Lemmas about operators on possibly unknown values. *)
From Coq Require Import ZArith List Bool Lia ZifyBool.
From Verif Require Import Prelude Types Ops OpsSpec OpsProofs OpsFacts AbsOps AbsOpsSpec.
Import ListNotations.
Open Scope Z_scope.
Local Arguments Z.pow : simpl never.

Lemma may_be_known : forall t z c, may_be (AV t (Some z)) c -> c = CV t z /\ wf_value c.
Proof.
  intros t z [ct cz] (Hw & Ht & Hv). cbn in *. subst ct. rewrite (Hv z eq_refl) in *. auto.
Qed.

Lemma may_be_type : forall a c, may_be a c -> cv_type c = av_type a.
Proof. intros a c H. apply H. Qed.

Lemma may_be_wf : forall a c, may_be a c -> wf_value c.
Proof. intros a c H. apply H. Qed.

Lemma convert_defined : forall v t, wf_value v -> wf_type t ->
  defined (convert_to v t lossless_numeric).
Proof.
  intros v t Hv Ht. pose proof (convert_error_kind v t Hv Ht) as H.
  destruct (convert_to v t lossless_numeric) as [r|e| |]; cbn; auto.
Qed.

(** Soundness of conversion. *)
Lemma value_convert_sound : forall a t c, wf_type t -> may_be a c ->
  match value_convert_to a t lossless_numeric with
  | Ok r => match av_val r with
            | Some z => convert_to c t lossless_numeric = Ok (CV (av_type r) z)
            | None => av_type r = t
                      /\ ((exists v, convert_to c t lossless_numeric = Ok v /\ may_be r v)
                          \/ exists e, convert_to c t lossless_numeric = Err e)
            end
  | Err e => convert_to c t lossless_numeric = Err e
  | _ => False
  end.
Proof.
  intros [at_ av] t c Ht H. unfold value_convert_to. cbn [av_type av_val].
  pose proof (may_be_type _ _ H) as Hty. cbn in Hty.
  pose proof (convert_error_kind c t (may_be_wf _ _ H) Ht) as Hk. rewrite Hty in Hk.
  destruct (is_convertible_to at_ t) eqn:E; cbn [negb].
  - destruct av as [z|].
    + apply may_be_known in H. destruct H as [-> Hw].
      destruct (convert_to (CV at_ z) t lossless_numeric) as [r|e| |] eqn:Ec;
        cbn; try reflexivity; try contradiction.
      destruct r; reflexivity.
    + cbn. split; [reflexivity|].
      pose proof (convert_defined c t (may_be_wf _ _ H) Ht) as Hd.
      destruct (convert_to c t lossless_numeric) as [r|e| |] eqn:Ec; try contradiction.
      * left. exists r. split; [reflexivity|].
        pose proof (convert_wf c t lossless_numeric r (may_be_wf _ _ H) Ht Ec) as [Hw Htr].
        split; [assumption|]. split; [assumption|]. discriminate.
      * right. eauto.
  - destruct (convert_to c t lossless_numeric) as [r|e| |]; try congruence; try contradiction.
    destruct e; try reflexivity; try contradiction. destruct Hk; congruence.
Qed.

(** Converting both operands first does not change the result. *)
Lemma eval_after_convert : forall l op r t l' r', wf_value l -> wf_value r ->
  get_common_type (cv_type l) (cv_type r) = Ok t ->
  convert_to l t lossless_numeric = Ok l' -> convert_to r t lossless_numeric = Ok r' ->
  evaluate_binary_operator l op r = evaluate_binary_operator l' op r'.
Proof.
  intros l op r t l' r' Hl Hr Ht Hcl Hcr.
  assert (Hwt : wf_type t) by (eapply common_type_wf; [apply Hl|apply Hr|eassumption]).
  pose proof (convert_wf _ _ _ _ Hl Hwt Hcl) as [Hl' _].
  pose proof (convert_wf _ _ _ _ Hr Hwt Hcr) as [Hr' _].
  split_values l r Hl Hr; cbn in Ht; try discriminate;
    try (injection Ht as <-; rewrite convert_to_same' in Hcl, Hcr by reflexivity;
         injection Hcl as <-; injection Hcr as <-; reflexivity).
  - injection Ht as <-. rewrite convert_to_same' in Hcr by reflexivity. injection Hcr as <-.
    rewrite convert_int_uint in Hcl by assumption.
    rewrite eval_int_uint by assumption.
    destruct ((0 <=? x) && (x <? 2 ^ wr)) eqn:E; [|discriminate]. injection Hcl as <-.
    destruct (uint_op_ok op) eqn:Eo; [reflexivity|].
    rewrite eval_uint_binary by lia. destruct op; try discriminate; reflexivity.
  - injection Ht as <-. rewrite convert_to_same' in Hcl by reflexivity. injection Hcl as <-.
    rewrite convert_int_uint in Hcr by assumption.
    rewrite eval_uint_int by assumption.
    destruct ((0 <=? y) && (y <? 2 ^ wl)) eqn:E; [|discriminate]. injection Hcr as <-.
    destruct (uint_op_ok op) eqn:Eo; [reflexivity|].
    rewrite eval_uint_binary by lia. destruct op; try discriminate; reflexivity.
  - unfold get_common_type in Ht. cbn in Ht. destruct (wl =? wr) eqn:E; [|discriminate].
    injection Ht as <-. apply Z.eqb_eq in E. subst wr.
    rewrite convert_to_same' in Hcl, Hcr by reflexivity.
    injection Hcl as <-; injection Hcr as <-; reflexivity.
Qed.

Lemma check_common : forall a op b t, check_binary_operator a op b = Ok t ->
  exists c, get_common_type a b = Ok c.
Proof.
  intros a op b t H. unfold check_binary_operator in H.
  destruct (negb (is_binary op)); [discriminate|].
  destruct (ctype_eqb a TVoid || ctype_eqb b TVoid); [discriminate|].
  destruct (get_common_type a b) as [c|e| |]; try discriminate. eauto.
Qed.

Lemma eval_convert_error_l : forall l op r t c e, 
  check_binary_operator (cv_type l) op (cv_type r) = Ok t ->
  get_common_type (cv_type l) (cv_type r) = Ok c ->
  convert_to l c lossless_numeric = Err e -> evaluate_binary_operator l op r = Err e.
Proof.
  intros l op r t c e Hk Hc He. unfold evaluate_binary_operator, convert_to_equal_type.
  rewrite Hk, Hc. cbn [or_type_error bind]. rewrite He. reflexivity.
Qed.

Lemma eval_convert_error_r : forall l op r t c e, wf_value l -> wf_value r ->
  check_binary_operator (cv_type l) op (cv_type r) = Ok t ->
  get_common_type (cv_type l) (cv_type r) = Ok c ->
  convert_to r c lossless_numeric = Err e -> exists e', evaluate_binary_operator l op r = Err e'.
Proof.
  intros l op r t c e Hl Hr Hk Hc He. unfold evaluate_binary_operator, convert_to_equal_type.
  rewrite Hk, Hc. cbn [or_type_error bind].
  assert (Hwt : wf_type c) by (eapply common_type_wf; [apply Hl|apply Hr|eassumption]).
  pose proof (convert_defined l c Hl Hwt) as Hd.
  destruct (convert_to l c lossless_numeric) as [l'|e'| |]; try contradiction; cbn [bind]; [|eauto].
  rewrite He. cbn. eauto.
Qed.

(** The exact form of the result of a binary operator once the type check has succeeded. *)
Lemma value_binary_sound : forall a op b x y, may_be a x -> may_be b y ->
  match value_evaluate_binary_operator a op b with
  | Ok r => match av_val r with
            | Some z => evaluate_binary_operator x op y = Ok (CV (av_type r) z)
            | None => check_binary_operator (cv_type x) op (cv_type y) = Ok (av_type r)
            end
  | Err _ => exists e, evaluate_binary_operator x op y = Err e
  | _ => True
  end.
Proof.
  intros a op b x y Ha Hb.
  unfold value_evaluate_binary_operator, value_convert_to_equal_type.
  rewrite <- (may_be_type _ _ Ha), <- (may_be_type _ _ Hb).
  destruct (check_binary_operator (cv_type x) op (cv_type y)) as [t|e| |] eqn:Ek;
    cbn [or_type_error bind]; auto.
  2:{ exists type_error. unfold evaluate_binary_operator. rewrite Ek. reflexivity. }
  destruct (check_common _ _ _ _ Ek) as [c Hc]. rewrite Hc. cbn [or_type_error bind].
  assert (Hwt : wf_type c).
  { eapply common_type_wf; [|  |eassumption]; [apply (may_be_wf _ _ Ha)|apply (may_be_wf _ _ Hb)]. }
  pose proof (value_convert_sound a c x Hwt Ha) as Hsa.
  pose proof (value_convert_sound b c y Hwt Hb) as Hsb.
  destruct (value_convert_to a c lossless_numeric) as [l|e| |]; try contradiction; cbn [bind].
  2:{ exists e. eapply eval_convert_error_l; eassumption. }
  destruct (value_convert_to b c lossless_numeric) as [r|e| |]; try contradiction; cbn [bind].
  2:{ eapply eval_convert_error_r; try eassumption; eapply may_be_wf; eassumption. }
  destruct l as [lt [lz|]], r as [rt [rz|]]; cbn [is_known av_val andb].
  - cbn [concrete_value av_val av_type bind].
    cbn [av_val av_type] in Hsa, Hsb.
    erewrite (eval_after_convert x op y c); try eassumption;
      try (eapply may_be_wf; eassumption).
    destruct (evaluate_binary_operator (CV lt lz) op (CV rt rz)) as [v|e| |]; cbn; auto.
    + destruct v; reflexivity.
    + eauto.
  - cbn. reflexivity.
  - cbn [av_val av_type] in Hsa, Hsb. destruct Hsa as [-> Hsa].
    unfold as_int. cbn [av_val av_type].
    assert (Hz : (op = division \/ op = remainder) -> rt = TInt -> rz = 0 ->
              exists e, evaluate_binary_operator x op y = Err e).
    { intros Hop -> ->. 
      destruct Hsa as [[x' [Hx' _]]|[e He]];
        [|exists e; eapply eval_convert_error_l; eassumption].
      erewrite (eval_after_convert x op y c); try eassumption;
        try (eapply may_be_wf; eassumption).
      pose proof (convert_wf _ _ _ _ (may_be_wf _ _ Hb) Hwt Hsb) as [_ Hty]. cbn in Hty.
      pose proof (convert_wf _ _ _ _ (may_be_wf _ _ Ha) Hwt Hx') as [Hwx Htyx].
      destruct x' as [tx zx]. cbn in Htyx. subst c. subst tx.
      exists division_by_zero. apply division_zero_same; auto. }
    assert (Hs : (op = shift_left \/ op = shift_right) -> rt <> TInt).
    { intros Hop ->. 
      pose proof (convert_wf _ _ _ _ (may_be_wf _ _ Hb) Hwt Hsb) as [_ Hty]. cbn in Hty. subst c.
      unfold check_binary_operator in Ek. rewrite Hc in Ek.
      destruct Hop as [-> | ->]; cbn in Ek;
        destruct (ctype_eqb (cv_type x) TVoid || ctype_eqb (cv_type y) TVoid); discriminate. }
    destruct op; cbn [bind av_val av_type unknown_of_type]; try reflexivity;
      destruct (ctype_eqb rt TInt) eqn:Er; cbn [assert_then bind]; auto;
      apply ctype_eqb_eq in Er;
      try (destruct (rz =? 0) eqn:E0; cbn [bind av_val av_type unknown_of_type]; [|reflexivity];
           apply Hz; auto; lia);
      exfalso; apply Hs; auto.
  - reflexivity.
Qed.

Lemma value_binary_known : forall a op b x y v, may_be a x -> may_be b y ->
  value_evaluate_binary_operator a op b = Ok (known v) -> evaluate_binary_operator x op y = Ok v.
Proof.
  intros a op b x y v Ha Hb H. pose proof (value_binary_sound a op b x y Ha Hb) as S.
  rewrite H in S. cbn in S. destruct v; exact S.
Qed.

Lemma value_binary_unknown : forall a op b x y t, may_be a x -> may_be b y ->
  value_evaluate_binary_operator a op b = Ok (unknown_of_type t) ->
  defined (evaluate_binary_operator x op y) ->
  (exists v, evaluate_binary_operator x op y = Ok v /\ cv_type v = t)
  \/ (exists e, evaluate_binary_operator x op y = Err e).
Proof.
  intros a op b x y t Ha Hb H Hd. pose proof (value_binary_sound a op b x y Ha Hb) as S.
  rewrite H in S. cbn in S.
  destruct (evaluate_binary_operator x op y) as [v|e| |] eqn:E; try contradiction; [left|right; eauto].
  exists v. split; [reflexivity|].
  apply eval_binary_type in E; [congruence|eapply may_be_wf; eassumption|eapply may_be_wf; eassumption].
Qed.

Lemma value_binary_error : forall a op b x y e, may_be a x -> may_be b y ->
  value_evaluate_binary_operator a op b = Err e ->
  exists e', evaluate_binary_operator x op y = Err e'.
Proof.
  intros a op b x y e Ha Hb H. pose proof (value_binary_sound a op b x y Ha Hb) as S.
  rewrite H in S. exact S.
Qed.

(** Abort of the analysis-time operator. *)
Lemma wf_avalue_known : forall t z, wf_avalue (AV t (Some z)) -> wf_value (CV t z).
Proof. intros t z [Ht Hz]. split; [exact Ht|apply Hz; reflexivity]. Qed.

Lemma may_be_inhabited : forall a, wf_avalue a -> exists c, may_be a c.
Proof.
  intros [t [z|]] H.
  - exists (CV t z). split; [apply wf_avalue_known; assumption|]. split; [reflexivity|].
    intros ? [= ->]. reflexivity.
  - exists (CV t 0). destruct H as [H _]. cbn in H. split; [|split; [reflexivity|discriminate]].
    split; [assumption|]. destruct t; cbn; auto; try lia.
    pose proof (pow2_pos width). cbn in H. lia.
Qed.

Lemma value_convert_same : forall t o, value_convert_to (AV t o) t lossless_numeric = Ok (AV t o).
Proof.
  intros t o. unfold value_convert_to, is_convertible_to. cbn [av_type av_val].
  rewrite ctype_eqb_refl. cbn [orb negb]. destruct o; [|reflexivity].
  rewrite convert_to_same' by reflexivity. reflexivity.
Qed.

Lemma value_convert_unknown_int : forall w,
  value_convert_to (AV TInt None) (TUint w) lossless_numeric = Ok (AV (TUint w) None).
Proof. reflexivity. Qed.

Lemma value_convert_known_int : forall w z, 0 < w < 128 -> - 2 ^ 127 <= z < 2 ^ 127 ->
  value_convert_to (AV TInt (Some z)) (TUint w) lossless_numeric =
  if (0 <=? z) && (z <? 2 ^ w) then Ok (AV (TUint w) (Some z)) else Err int_to_uint_range_error.
Proof.
  intros w z Hw Hz. unfold value_convert_to. cbn [av_type av_val is_convertible_to ctype_eqb orb negb].
  rewrite convert_int_uint by assumption. destruct ((0 <=? z) && (z <? 2 ^ w)); reflexivity.
Qed.

Lemma uint_unknown_known : forall w z op,
  value_evaluate_binary_operator (AV (TUint w) None) op (AV (TUint w) (Some z)) =
  match op with
  | division | remainder | shift_left | shift_right => Abort
  | _ => if uint_op_ok op then Ok (AV (if is_binary_comparison op then TBool else TUint w) None)
         else Err type_error
  end.
Proof.
  intros w z op. unfold value_evaluate_binary_operator, value_convert_to_equal_type, get_common_type.
  cbn [av_type]. rewrite check_binary_uint_same. cbn [ctype_eqb]. rewrite Z.eqb_refl.
  cbn [or_type_error bind]. rewrite !value_convert_same. cbn [bind].
  destruct op; reflexivity.
Qed.

Lemma value_binary_int_uint : forall w z op,
  value_evaluate_binary_operator (AV TInt None) op (AV (TUint w) (Some z)) =
  value_evaluate_binary_operator (AV (TUint w) None) op (AV (TUint w) (Some z)).
Proof.
  intros w z op. unfold value_evaluate_binary_operator, value_convert_to_equal_type.
  cbn [av_type]. rewrite (proj1 (check_mixed w op)). unfold get_common_type.
  cbn [ctype_eqb]. rewrite Z.eqb_refl.
  cbn [or_type_error bind]. rewrite value_convert_unknown_int, !value_convert_same. reflexivity.
Qed.

Lemma value_binary_uint_int : forall w z op, 0 < w < 128 -> - 2 ^ 127 <= z < 2 ^ 127 ->
  value_evaluate_binary_operator (AV (TUint w) None) op (AV TInt (Some z)) =
  if uint_op_ok op then
    if (0 <=? z) && (z <? 2 ^ w) then
      value_evaluate_binary_operator (AV (TUint w) None) op (AV (TUint w) (Some z))
    else Err int_to_uint_range_error
  else Err type_error.
Proof.
  intros w z op Hw Hz. unfold value_evaluate_binary_operator, value_convert_to_equal_type.
  cbn [av_type]. rewrite (proj2 (check_mixed w op)). rewrite check_binary_uint_same.
  unfold get_common_type. cbn [ctype_eqb]. rewrite Z.eqb_refl.
  cbn [or_type_error bind]. rewrite value_convert_known_int, !value_convert_same by assumption.
  destruct ((0 <=? z) && (z <? 2 ^ w)); destruct op; reflexivity.
Qed.

Lemma value_binary_incompatible : forall l op r,
  match av_type l, av_type r with
  | TVoid, _ | _, TVoid => True
  | TBool, TBool => False
  | TBool, _ | _, TBool => True
  | _, _ => False
  end -> value_evaluate_binary_operator l op r = Err type_error.
Proof.
  intros [tl x] op [tr y] H. cbn [av_type] in H.
  destruct tl, tr; try contradiction; destruct op; reflexivity.
Qed.

Lemma value_binary_unknown_abort_iff : forall a op b, wf_avalue a -> wf_avalue b ->
  (av_val a = None \/ av_val b = None) ->
  ((value_evaluate_binary_operator a op b = Abort <-> unknown_by_known_uint a op b)
   /\ value_evaluate_binary_operator a op b <> UB).
Proof.
  intros [ta [za|]] op [tb [zb|]] Ha Hb Hu; cbn in Hu;
    try (destruct Hu; discriminate); clear Hu.
  - (* lhs known, rhs unknown *)
    assert (Hn : ~ unknown_by_known_uint (AV ta (Some za)) op (AV tb None)).
    { intros (_ & H & _). discriminate. }
    assert (Hd : defined (value_evaluate_binary_operator (AV ta (Some za)) op (AV tb None))).
    { unfold value_evaluate_binary_operator, value_convert_to_equal_type. cbn [av_type].
      pose proof (check_never_undefined ta op tb) as Hk.
      destruct (check_binary_operator ta op tb) as [t|e| |] eqn:Ek; try contradiction; [|exact I].
      cbn [or_type_error bind]. destruct (check_common _ _ _ _ Ek) as [c Hc]. rewrite Hc.
      cbn [or_type_error bind].
      assert (Hwt : wf_type c) by (eapply common_type_wf; [apply Ha|apply Hb|eassumption]).
      destruct (may_be_inhabited _ Ha) as [x Hx].
      pose proof (value_convert_sound _ c x Hwt Hx) as Hs.
      destruct (value_convert_to (AV ta (Some za)) c lossless_numeric) as [l|e| |] eqn:El;
        try contradiction; cbn [bind]; [|exact I].
      unfold value_convert_to. cbn [av_type av_val].
      destruct (is_convertible_to tb c); cbn; [|exact I].
      destruct (is_known l); exact I. }
    split; [split; [intros H; rewrite H in Hd; contradiction|contradiction]|].
    intros H; rewrite H in Hd; contradiction.
  - (* lhs unknown, rhs known *)
    destruct Ha as [Hta _]. destruct Hb as [Htb Hb]. cbn [av_type av_val] in *.
    specialize (Hb zb eq_refl).
    destruct ta as [| | |wa], tb as [| | |wb]; cbn [wf_type in_type_range] in *;
      try (rewrite value_binary_incompatible by exact I; split; [split; [discriminate|]|discriminate];
           intros (_ & _ & w & z & _ & _ & [[? [?|?]]|[? ?]]); discriminate).
    + (* Bool, Bool *)
      split; [split; [destruct op; discriminate|]|destruct op; discriminate].
      intros (_ & _ & w & z & _ & _ & [[? [?|?]]|[? ?]]); discriminate.
    + (* Int, Int *)
      split; [split|].
      * destruct op; cbn; try discriminate; destruct (zb =? 0); discriminate.
      * intros (_ & _ & w & z & _ & _ & [[? _]|[_ ?]]); discriminate.
      * destruct op; cbn; try discriminate; destruct (zb =? 0); discriminate.
    + (* Int, Uint *)
      rewrite value_binary_int_uint. rewrite uint_unknown_known.
      split; [split|].
      * intros H. assert (Hop : op = division \/ op = remainder \/ op = shift_left \/ op = shift_right)
          by (destruct op; try discriminate; auto).
        split; [assumption|]. split; [reflexivity|]. exists wb, zb.
        split; [reflexivity|]. split; [assumption|]. right; auto.
      * intros [Hop _]. destruct Hop as [-> | [-> | [-> | ->]]]; reflexivity.
      * destruct op; discriminate.
    + (* Uint, Int *)
      rewrite value_binary_uint_int by assumption. rewrite uint_unknown_known.
      split; [split|].
      * destruct (uint_op_ok op) eqn:Eo; [|discriminate].
        destruct ((0 <=? zb) && (zb <? 2 ^ wa)) eqn:E; [|discriminate].
        intros H. assert (Hop : op = division \/ op = remainder \/ op = shift_left \/ op = shift_right)
          by (destruct op; try discriminate; auto).
        split; [assumption|]. split; [reflexivity|]. exists wa, zb.
        split; [reflexivity|]. split; [unfold uint_range; lia|]. left; auto.
      * intros (Hop & _ & w & z & [= <-] & Hz & [[[= <-] _]|[? _]]); [|discriminate].
        unfold uint_range in Hz. replace ((0 <=? zb) && (zb <? 2 ^ wa)) with true by lia.
        destruct Hop as [-> | [-> | [-> | ->]]]; reflexivity.
      * destruct (uint_op_ok op); [|discriminate].
        destruct ((0 <=? zb) && (zb <? 2 ^ wa)); [|discriminate]. destruct op; discriminate.
    + (* Uint, Uint *)
      destruct (Z.eq_dec wa wb) as [->|Hne].
      * rewrite uint_unknown_known. split; [split|].
        -- intros H. assert (Hop : op = division \/ op = remainder \/ op = shift_left \/ op = shift_right)
             by (destruct op; try discriminate; auto).
           split; [assumption|]. split; [reflexivity|]. exists wb, zb.
           split; [reflexivity|]. split; [assumption|]. left; auto.
        -- intros [Hop _]. destruct Hop as [-> | [-> | [-> | ->]]]; reflexivity.
        -- destruct op; discriminate.
      * assert (Hck : value_evaluate_binary_operator (AV (TUint wa) None) op (AV (TUint wb) (Some zb))
                      = Err type_error).
        { unfold value_evaluate_binary_operator, check_binary_operator, get_common_type.
          cbn [av_type ctype_eqb orb].
          apply Z.eqb_neq in Hne. rewrite Hne. destruct (is_binary op); reflexivity. }
        rewrite Hck. split; [split|]; try discriminate.
        intros (_ & _ & w & z & _ & _ & [[[= <-] [[= ?]|?]]|[? _]]); try discriminate.
        exfalso. congruence.
  - (* both unknown *)
    assert (Hn : ~ unknown_by_known_uint (AV ta None) op (AV tb None)).
    { intros (_ & _ & w & z & H & _). discriminate. }
    assert (Hd : defined (value_evaluate_binary_operator (AV ta None) op (AV tb None))).
    { unfold value_evaluate_binary_operator, value_convert_to_equal_type. cbn [av_type].
      pose proof (check_never_undefined ta op tb) as Hk.
      destruct (check_binary_operator ta op tb) as [t|e| |] eqn:Ek; try contradiction; [|exact I].
      cbn [or_type_error bind]. destruct (check_common _ _ _ _ Ek) as [c Hc]. rewrite Hc.
      cbn [or_type_error bind]. unfold value_convert_to. cbn [av_type av_val].
      destruct (is_convertible_to ta c); cbn; [|exact I].
      destruct (is_convertible_to tb c); cbn; exact I. }
    split; [split; [intros H; rewrite H in Hd; contradiction|contradiction]|].
    intros H; rewrite H in Hd; contradiction.
Qed.

(** Unary operators. *)
Lemma value_unary_sound : forall op a x, may_be a x ->
  match value_evaluate_unary_operator op a with
  | Ok r => match av_val r with
            | Some z => evaluate_unary_operator op x = Ok (CV (av_type r) z)
            | None => (exists v, evaluate_unary_operator op x = Ok v /\ cv_type v = av_type r)
                      \/ evaluate_unary_operator op x = UB
            end
  | Err e => evaluate_unary_operator op x = Err e
  | Abort => False
  | UB => evaluate_unary_operator op x = UB
  end.
Proof.
  intros op [t [z|]] x H; unfold value_evaluate_unary_operator; cbn [av_type av_val].
  - apply may_be_known in H. destruct H as [-> Hw].
    destruct (check_unary_operator op t) as [t'|e| |] eqn:Ek; cbn [or_type_error bind].
    + cbn [is_known av_val negb concrete_value bind av_type].
      destruct (evaluate_unary_operator op (CV t z)) as [v|e| |] eqn:E; cbn; auto.
      * destruct v; reflexivity.
      * exfalso. assert (Hx : ~ defined (evaluate_unary_operator op (CV t z)))
          by (rewrite E; cbn; tauto).
        apply eval_unary_undefined_iff in Hx; [|assumption]. destruct Hx as (Ht & -> & Hz).
        cbn in Ht, Hz. subst t z. vm_compute in E. discriminate.
    + eapply unary_check_err. eassumption.
    + destruct t, op; discriminate.
    + destruct t, op; discriminate.
  - pose proof (may_be_type _ _ H) as Ht. cbn in Ht.
    destruct (check_unary_operator op t) as [t'|e| |] eqn:Ek; cbn [or_type_error bind].
    + cbn. rewrite <- Ht in Ek.
      assert (Heq : t' = t).
      { rewrite Ht in Ek. destruct t, op; cbn in Ek; try discriminate; congruence. }
      subst t'.
      destruct (evaluate_unary_operator op x) as [v|e| |] eqn:E.
      * left. exists v. split; [reflexivity|]. apply eval_unary_type in E; [congruence|].
        eapply may_be_wf; eassumption.
      * exfalso. destruct x as [tx zx]. cbn in Ht, Ek. subst tx.
        destruct H as [[Hw1 Hw2] _]. cbn in Hw1, Hw2.
        destruct t as [| | |w]; try (destruct op; discriminate).
        -- destruct op; try discriminate; cbn in E.
           unfold signed_result in E. destruct (in_big_int (- zx)); discriminate.
        -- rewrite eval_uint_unary in E by assumption. destruct op; discriminate.
      * exfalso. assert (Hx : ~ defined (evaluate_unary_operator op x))
          by (rewrite E; cbn; tauto).
        apply eval_unary_undefined_iff in Hx; [|eapply may_be_wf; eassumption].
        destruct x as [tx zx]. destruct Hx as (Ht' & -> & Hz).
        cbn in Ht', Hz. subst tx zx. vm_compute in E. discriminate.
      * right. reflexivity.
    + eapply unary_check_err. rewrite Ht. eassumption.
    + destruct t, op; discriminate.
    + destruct t, op; discriminate.
Qed.

(** If-expressions. *)
Lemma value_if_sound : forall a c b x y z, may_be a x -> may_be c y -> may_be b z ->
  match value_evaluate_if_expression a c b with
  | Ok r => match av_val r with
            | Some n => evaluate_if_expression x y z = Ok (CV (av_type r) n)
            | None => (exists v, evaluate_if_expression x y z = Ok v /\ cv_type v = av_type r)
                      \/ (exists e, evaluate_if_expression x y z = Err e)
            end
  | Err e => evaluate_if_expression x y z = Err e
  | _ => False
  end.
Proof.
  intros a c b x y z Ha Hc Hb. unfold value_evaluate_if_expression.
  rewrite <- (may_be_type _ _ Ha), <- (may_be_type _ _ Hc), <- (may_be_type _ _ Hb).
  pose proof (if_check_agrees x y z (may_be_wf _ _ Ha) (may_be_wf _ _ Hc) (may_be_wf _ _ Hb)) as Hk.
  destruct (check_if_expression (cv_type x) (cv_type y) (cv_type z)) as [t|e| |] eqn:Ek;
    try contradiction; cbn [or_type_error bind]; [|exact Hk].
  assert (Hspec : evaluate_if_expression x y z =
                  convert_to (if cv_int y =? 1 then x else z) t lossless_numeric).
  { eapply eval_if_spec; try eassumption; eapply may_be_wf; eassumption. }
  assert (Hbool : cv_type y = TBool).
  { unfold check_if_expression in Ek. destruct (ctype_eqb (cv_type y) TBool) eqn:E; [|discriminate].
    apply ctype_eqb_eq. assumption. }
  assert (Hwt : wf_type t).
  { unfold check_if_expression in Ek. rewrite Hbool in Ek. cbn in Ek.
    eapply common_type_wf; [apply (may_be_wf _ _ Ha)|apply (may_be_wf _ _ Hb)|eassumption]. }
  destruct c as [tc [zc|]]; cbn [is_known av_val negb].
  - pose proof (may_be_known _ _ _ Hc) as [-> Hwy]. cbn in Hbool. subst tc.
    unfold as_bool. cbn [av_val av_type ctype_eqb assert_then bind].
    destruct Hwy as [_ Hy]. cbn [cv_type cv_int in_type_range] in *.
    assert (Hb2 : negb (zc =? 0) = (zc =? 1)) by lia.
    rewrite Hb2, Hspec.
    destruct (zc =? 1).
    + pose proof (value_convert_sound a t x Hwt Ha) as S.
      destruct (value_convert_to a t lossless_numeric) as [r|e| |]; try contradiction; auto.
      destruct (av_val r); auto. destruct S as [<- [[v [Hv Hm]]|[e He]]]; [left|right; eauto].
      exists v. split; [assumption|]. apply may_be_type. assumption.
    + pose proof (value_convert_sound b t z Hwt Hb) as S.
      destruct (value_convert_to b t lossless_numeric) as [r|e| |]; try contradiction; auto.
      destruct (av_val r); auto. destruct S as [<- [[v [Hv Hm]]|[e He]]]; [left|right; eauto].
      exists v. split; [assumption|]. apply may_be_type. assumption.
  - cbn.
    destruct Hk as [_ Hk].
    set (v := if cv_int y =? 1 then x else z) in *.
    assert (Hv : wf_value v).
    { unfold v. destruct (cv_int y =? 1); eapply may_be_wf; eassumption. }
    pose proof (convert_defined v t Hv Hwt) as Hd. rewrite <- Hspec in Hd.
    destruct (evaluate_if_expression x y z) as [r|e| |]; try contradiction; [left|right]; eauto.
Qed.

(** The builtin [assert]. *)
Lemma value_builtin_assert_spec : forall args,
  value_evaluate_builtin_function builtin_assert args =
  match args with
  | [AV TBool (Some z)] => if z =? 1 then Ok av_Void else Err assertion_fail
  | [AV TBool None] => Ok (unknown_of_type TVoid)
  | _ => Err type_error
  end.
Proof.
  intros [|[t [z|]] [|b l]]; try reflexivity; destruct t; try reflexivity.
  unfold value_evaluate_builtin_function, evaluate_builtin_function. cbn.
  destruct (z =? 1); reflexivity.
Qed.

Lemma value_binary_refuted :
  (exists a b, value_evaluate_binary_operator a equals b = Ok (unknown_of_type TBool)
     /\ forall x y, may_be a x -> may_be b y -> evaluate_binary_operator x equals y = Abort)
  /\ (exists a b, value_evaluate_binary_operator a division b = Abort
     /\ forall x y, may_be a x -> may_be b y -> exists v, evaluate_binary_operator x division y = Ok v).
Proof.
  split.
  - exists (unknown_of_type TBool), (unknown_of_type TBool). split; [reflexivity|].
    intros [tx x] [ty y] (_ & Hx & _) (_ & Hy & _). cbn in Hx, Hy. subst tx ty.
    rewrite eval_bool_binary. reflexivity.
  - exists (unknown_of_type (TUint 8)), (AV TInt (Some 2)). split; [vm_compute; reflexivity|].
    intros x y Hx Hy. apply may_be_known in Hy. destruct Hy as [-> _].
    destruct x as [tx x]. destruct Hx as ([_ Hr] & Ht & _). cbn in Ht. subst tx. cbn in Hr.
    rewrite eval_uint_int by lia. change (uint_op_ok division) with true. cbn match.
    change ((0 <=? 2) && (2 <? 2 ^ 8)) with true. cbn match.
    rewrite eval_uint_binary by (try lia; change (2 ^ 8) with 256; lia).
    cbn. eauto.
Qed.
