(** Evaluation of trees whose recorded types and values fit together. *)
From Coq Require Import ZArith List Bool Lia.
From Verif Require Import Prelude Types Ops OpsSpec OpsProofs OpsFacts AbsOps AbsOpsSpec AbsOpsProofs Text Tables Literals
  LinMapSpec Ast AstFacts SourceSem Annotated.
Import ListNotations.
Open Scope Z_scope.
Local Arguments Z.pow : simpl never.

(** ** Operators *)

Lemma operate_typed : forall t o,
  (forall v, o = Ok v -> wf_value v /\ cv_type v = t) -> o <> Err type_error -> typed_result t (operate o).
Proof.
  intros t o H N. destruct o as [v|e| |]; cbn; auto. repeat split; try discriminate. congruence.
Qed.

Lemma convert_typed : forall v t, wf_value v -> wf_type t -> is_convertible_to (cv_type v) t = true ->
  typed_result t (operate (convert_to v t lossless_numeric)).
Proof.
  intros v t Hv Ht Hc. apply operate_typed.
  - intros r. apply convert_wf; assumption.
  - intros E. pose proof (convert_error_kind v t Hv Ht) as K. rewrite E in K. congruence.
Qed.

Lemma ret_recorded : forall v, wf_value v -> as_recorded (known v) (ret v).
Proof.
  intros v Hv. split; [cbn; auto|]. intros z Hz. cbn in *. injection Hz as <-. destruct v; reflexivity.
Qed.

Lemma recorded_unknown : forall t r, typed_result t r -> as_recorded (AV t None) r.
Proof. intros t r H. split; [exact H|]. discriminate. Qed.

Lemma as_recorded_typed : forall a r, as_recorded a r -> typed_result (av_type a) r.
Proof. intros a r [H _]. exact H. Qed.

Lemma as_recorded_may_be : forall a v, as_recorded a (ret v) -> may_be a v.
Proof.
  intros a v [[Hw Ht] Hz]. split; [exact Hw|]. split; [exact Ht|].
  intros z Ez. specialize (Hz z Ez). injection Hz as ->. reflexivity.
Qed.

Lemma may_be_recorded : forall a v, may_be a v -> as_recorded a (ret v).
Proof.
  intros a v (Hw & Ht & Hz). split; [cbn; auto|]. intros z Ez. destruct v as [t x]. cbn in *.
  rewrite (Hz _ Ez), Ht. reflexivity.
Qed.

(** The operand is not a value: nothing is known about the result. *)
Lemma not_value_unknown : forall a r z, as_recorded a r -> av_val a = Some z -> exists v, r = ret v.
Proof. intros a r z [_ H] E. eauto. Qed.

Lemma typed_bind : forall t A (x : res A) k,
  match x with
  | Some (Ok v) => typed_result t (k v)
  | Some (Err e) => run_error e
  | _ => True
  end -> typed_result t (rbind x k).
Proof. intros t A [[v|e| |]|] k H; exact H. Qed.

Lemma convert_recorded : forall a x t r, as_recorded a x -> wf_type t ->
  is_convertible_to (av_type a) t = true ->
  recorded_result (value_evaluate_conversion a t) t r ->
  av_type r = t /\ as_recorded r (do v <- x; operate (convert_to v t lossless_numeric)).
Proof.
  intros a x t r Hx Ht Hc Hr.
  assert (T : typed_result t (do v <- x; operate (convert_to v t lossless_numeric))).
  { apply typed_bind. destruct x as [[v|e| |]|]; try exact I.
    - apply as_recorded_may_be in Hx. apply convert_typed; [apply Hx|exact Ht|].
      rewrite (may_be_type _ _ Hx). exact Hc.
    - apply Hx. }
  destruct Hr as [Hr|[_ ->]]; [|split; [reflexivity|apply recorded_unknown; exact T]].
  unfold value_evaluate_conversion in Hr.
  assert (Ety : av_type r = t).
  { unfold value_convert_to in Hr. rewrite Hc in Hr. cbn [negb] in Hr. destruct (av_val a) as [z|] eqn:Ez.
    - destruct (not_value_unknown _ _ _ Hx Ez) as [v ->]. apply as_recorded_may_be in Hx.
      pose proof (may_be_wf _ _ Hx) as Hw.
      assert (Ev : v = CV (av_type a) z).
      { destruct a. cbn in *. subst. apply may_be_known in Hx. tauto. }
      rewrite <- Ev in Hr.
      destruct (convert_to v t lossless_numeric) as [w|e| |] eqn:E; try discriminate.
      injection Hr as <-. cbn. apply (convert_wf _ _ _ _ Hw Ht E).
    - injection Hr as <-. reflexivity. }
  split; [exact Ety|]. split; [rewrite Ety; exact T|]. intros z Ez.
  destruct (av_val a) as [za|] eqn:Eza.
  - destruct (not_value_unknown _ _ _ Hx Eza) as [v ->]. apply as_recorded_may_be in Hx.
    pose proof (value_convert_sound a t v Ht Hx) as S. rewrite Hr, Ez in S. cbn [rbind ret]. rewrite S. reflexivity.
  - unfold value_convert_to in Hr. rewrite Hc, Eza in Hr. injection Hr as <-. discriminate.
Qed.

Lemma binary_result_unknown : forall l op r v t, check_binary_operator (av_type l) op (av_type r) = Ok t ->
  value_evaluate_binary_operator l op r = Ok v ->
  match av_val v with
  | Some _ => (exists x, av_val l = Some x) /\ exists y, av_val r = Some y
  | None => av_type v = t
  end.
Proof.
  intros l op r v t Hc H. unfold value_evaluate_binary_operator in H. rewrite Hc in H. cbn [or_type_error bind] in H.
  destruct (value_convert_to_equal_type l r) as [[l' r']|e| |] eqn:E; try discriminate. cbn [bind] in H.
  unfold value_convert_to_equal_type in E.
  destruct (get_common_type (av_type l) (av_type r)) as [c|e| |]; try discriminate. cbn [or_type_error bind] in E.
  destruct (value_convert_to l c lossless_numeric) as [l1|e| |] eqn:El; try discriminate. cbn [bind] in E.
  destruct (value_convert_to r c lossless_numeric) as [r1|e| |] eqn:Er; try discriminate. cbn [bind] in E.
  injection E as <- <-.
  assert (K : forall a b, value_convert_to a c lossless_numeric = Ok b -> is_known b = true -> exists z, av_val a = Some z).
  { intros a b Hab Hk. unfold value_convert_to in Hab. destruct (negb _); [discriminate|].
    destruct (av_val a) as [z|]; [eauto|]. injection Hab as <-. discriminate. }
  destruct (is_known l1) eqn:K1; destruct (is_known r1) eqn:K2; cbn [andb] in H.
  - assert (Kn : (exists x, av_val l = Some x) /\ exists y, av_val r = Some y) by (split; eauto).
    destruct (concrete_value l1) as [a|e| |]; try discriminate. cbn [bind] in H.
    destruct (concrete_value r1) as [b|e| |]; try discriminate. cbn [bind] in H.
    destruct (evaluate_binary_operator a op b) as [x|e| |]; try discriminate. injection H as <-. exact Kn.
  - injection H as <-. reflexivity.
  - destruct (_ : outcome eval_error unit) in H; try discriminate. injection H as <-. reflexivity.
  - injection H as <-. reflexivity.
Qed.

Lemma binary_recorded : forall l r x y op t v, as_recorded l x -> as_recorded r y ->
  check_binary_operator (av_type l) op (av_type r) = Ok t ->
  recorded_result (value_evaluate_binary_operator l op r) t v ->
  av_type v = t /\ as_recorded v (do a <- x; do b <- y; operate (evaluate_binary_operator a op b)).
Proof.
  intros l r x y op t v Hx Hy Hc Hv.
  assert (T : typed_result t (do a <- x; do b <- y; operate (evaluate_binary_operator a op b))).
  { apply typed_bind. destruct x as [[a|e| |]|]; try exact I; [|apply Hx].
    apply typed_bind. destruct y as [[b|e| |]|]; try exact I; [|apply Hy].
    apply as_recorded_may_be in Hx, Hy.
    assert (Hc' : check_binary_operator (cv_type a) op (cv_type b) = Ok t)
      by (rewrite (may_be_type _ _ Hx), (may_be_type _ _ Hy); exact Hc).
    destruct (binary_check_ok a op b t (may_be_wf _ _ Hx) (may_be_wf _ _ Hy) Hc') as [N K].
    apply operate_typed; [|exact N]. intros w Hw. split; [|apply K; exact Hw].
    eapply eval_binary_wf; [apply (may_be_wf _ _ Hx)|apply (may_be_wf _ _ Hy)|exact Hw]. }
  destruct Hv as [Hv|[_ ->]]; [|split; [reflexivity|apply recorded_unknown; exact T]].
  pose proof (binary_result_unknown _ _ _ _ _ Hc Hv) as U.
  destruct (av_val v) as [z|] eqn:Ez.
  - destruct U as [[za Ea] [zb Eb]].
    destruct (not_value_unknown _ _ _ Hx Ea) as [a ->]. destruct (not_value_unknown _ _ _ Hy Eb) as [b ->].
    apply as_recorded_may_be in Hx, Hy. pose proof (value_binary_sound l op r a b Hx Hy) as S. rewrite Hv, Ez in S.
    cbn [rbind ret] in *. rewrite S in *. cbn [operate ret typed_result cv_type] in *. destruct T as [Tw Tt].
    split; [exact Tt|]. split; [cbn; auto|]. intros z' E'. congruence.
  - split; [exact U|]. split; [rewrite U; exact T|]. congruence.
Qed.

Lemma check_logical : forall a op b t, op = logical_and \/ op = logical_or ->
  check_binary_operator a op b = Ok t -> a = TBool /\ b = TBool /\ t = TBool.
Proof.
  intros a op b t Hop H. destruct Hop; subst op; destruct a, b; cbn in H; try discriminate;
    try (injection H as <-; auto); unfold check_binary_operator, get_common_type in H; cbn in H;
    destruct (width =? width0); discriminate.
Qed.

Lemma truth_bool : forall v, wf_value v -> cv_type v = TBool ->
  truth v = ret (cv_int v =? 1) /\ (v = cv_True \/ v = cv_False).
Proof.
  intros [t z] [_ Hz] Ht. cbn in *. subst t. cbn in Hz. unfold truth. cbn [cv_type ctype_eqb cv_int].
  assert (z = 0 \/ z = 1) as [-> | ->] by lia; split; auto.
Qed.

Lemma logical_recorded : forall l r x y op t v, op = logical_and \/ op = logical_or ->
  as_recorded l x -> as_recorded r y ->
  check_binary_operator (av_type l) op (av_type r) = Ok t ->
  recorded_result (value_evaluate_binary_operator l op r) t v ->
  av_type v = t
  /\ as_recorded v (do a <- x; do b <- truth a;
                    match op with
                    | logical_and => if (b : bool) then y else ret cv_False
                    | _ => if (b : bool) then ret cv_True else y
                    end).
Proof.
  intros l r x y op t v Hop Hx Hy Hc Hv.
  destruct (check_logical _ _ _ _ Hop Hc) as (Hl & Hr & ->).
  assert (T : typed_result TBool
                (do a <- x; do b <- truth a;
                 match op with
                 | logical_and => if (b : bool) then y else ret cv_False
                 | _ => if (b : bool) then ret cv_True else y
                 end)).
  { apply typed_bind. destruct x as [[a|e| |]|]; try exact I; [|apply Hx].
    apply as_recorded_may_be in Hx. apply as_recorded_typed in Hy. rewrite Hr in Hy.
    destruct (truth_bool a (may_be_wf _ _ Hx)) as [-> _]; [rewrite (may_be_type _ _ Hx); exact Hl|].
    cbn [rbind ret]. assert (typed_result TBool (ret cv_True) /\ typed_result TBool (ret cv_False)) as [Wt Wf]
      by (split; cbn; unfold wf_value; cbn; auto 6).
    destruct Hop; subst op; destruct (cv_int a =? 1); assumption. }
  destruct Hv as [Hv|[_ ->]]; [|split; [reflexivity|apply recorded_unknown; exact T]].
  pose proof (binary_result_unknown _ _ _ _ _ Hc Hv) as U.
  destruct (av_val v) as [z|] eqn:Ez.
  - destruct U as [[za Ea] [zb Eb]].
    destruct (not_value_unknown _ _ _ Hx Ea) as [a ->]. destruct (not_value_unknown _ _ _ Hy Eb) as [b ->].
    apply as_recorded_may_be in Hx, Hy. pose proof (value_binary_sound l op r a b Hx Hy) as S. rewrite Hv, Ez in S.
    assert (Ta : cv_type a = TBool) by (rewrite (may_be_type _ _ Hx); exact Hl).
    assert (Tb : cv_type b = TBool) by (rewrite (may_be_type _ _ Hy); exact Hr).
    destruct (truth_bool a (may_be_wf _ _ Hx) Ta) as [Et [-> | ->]];
      destruct (truth_bool b (may_be_wf _ _ Hy) Tb) as [_ [-> | ->]];
      destruct Hop; subst op; destruct v as [tv zv]; cbn in Ez; subst zv; vm_compute in S;
      injection S as <- <-; (split; [reflexivity|]);
      (split; [vm_compute; intuition discriminate|intros ? [= <-]; reflexivity]).
  - split; [exact U|]. split; [rewrite U; exact T|]. congruence.
Qed.

Lemma check_unary_same : forall op t t', check_unary_operator op t = Ok t' -> t' = t.
Proof. intros op t t' H. destruct op, t; cbn in H; try discriminate; congruence. Qed.

Lemma unary_recorded : forall a x op t v, as_recorded a x ->
  check_unary_operator op (av_type a) = Ok t ->
  recorded_result (value_evaluate_unary_operator op a) t v ->
  av_type v = t /\ as_recorded v (do w <- x; operate (evaluate_unary_operator op w)).
Proof.
  intros a x op t v Hx Hc Hv.
  assert (T : typed_result t (do w <- x; operate (evaluate_unary_operator op w))).
  { apply typed_bind. destruct x as [[w|e| |]|]; try exact I; [|apply Hx].
    apply as_recorded_may_be in Hx.
    rewrite <- (may_be_type _ _ Hx) in Hc.
    destruct (unary_check_ok op w t (may_be_wf _ _ Hx) Hc) as [N K].
    apply operate_typed; [|exact N]. intros r Hr. split; [|apply K; exact Hr].
    eapply eval_unary_wf; [apply (may_be_wf _ _ Hx)|exact Hr]. }
  destruct Hv as [Hv|[_ ->]]; [|split; [reflexivity|apply recorded_unknown; exact T]].
  pose proof (check_unary_same _ _ _ Hc) as Et.
  destruct (av_val a) as [za|] eqn:Ea.
  - destruct (not_value_unknown _ _ _ Hx Ea) as [w ->]. apply as_recorded_may_be in Hx.
    pose proof (value_unary_sound op a w Hx) as S. rewrite Hv in S.
    cbn [rbind ret] in *. destruct (av_val v) as [z|] eqn:Ez.
    + rewrite S in *. cbn [operate ret typed_result cv_type] in *. split; [tauto|]. split; [cbn; tauto|]. congruence.
    + exfalso. unfold value_evaluate_unary_operator in Hv. rewrite Hc in Hv. cbn [or_type_error bind] in Hv.
      unfold is_known, concrete_value in Hv. rewrite Ea in Hv. cbn [negb bind] in Hv.
      destruct (evaluate_unary_operator op _); try discriminate. injection Hv as <-. discriminate.
  - unfold value_evaluate_unary_operator, is_known in Hv. rewrite Hc, Ea in Hv. cbn in Hv. injection Hv as <-.
    split; [congruence|]. split; [rewrite <- Et; exact T|]. congruence.
Qed.

Lemma if_recorded : forall l c r xl xc xr t v, as_recorded l xl -> as_recorded c xc -> as_recorded r xr ->
  wf_type t ->
  check_if_expression (av_type l) (av_type c) (av_type r) = Ok t ->
  recorded_result (value_evaluate_if_expression l c r) t v ->
  av_type v = t
  /\ as_recorded v (do c' <- xc; do b <- truth c'; do w <- (if (b : bool) then xl else xr);
                    operate (convert_to w t lossless_numeric)).
Proof.
  intros l c r xl xc xr t v Hl Hc Hr Ht Hk Hv. unfold check_if_expression in Hk.
  destruct (ctype_eqb (av_type c) TBool) eqn:Ec; [|discriminate]. apply ctype_eqb_eq in Ec. cbn [negb] in Hk.
  destruct (common_type_convertible _ _ _ Hk) as [Kl Kr].
  assert (B : forall b : bool, typed_result t (do w <- (if b then xl else xr); operate (convert_to w t lossless_numeric))).
  { intros b. assert (Hb : as_recorded (if b then l else r) (if b then xl else xr)) by (destruct b; assumption).
    assert (Kb : is_convertible_to (av_type (if b then l else r)) t = true) by (destruct b; assumption).
    apply typed_bind. destruct (if b then xl else xr) as [[w|e| |]|]; try exact I; [|apply Hb].
    apply as_recorded_may_be in Hb. apply convert_typed; [apply Hb|exact Ht|].
    rewrite (may_be_type _ _ Hb). exact Kb. }
  assert (T : typed_result t (do c' <- xc; do b <- truth c'; do w <- (if (b : bool) then xl else xr);
                              operate (convert_to w t lossless_numeric))).
  { apply typed_bind. destruct xc as [[w|e| |]|]; try exact I; [|apply Hc].
    apply as_recorded_may_be in Hc.
    destruct (truth_bool w (may_be_wf _ _ Hc)) as [-> _]; [rewrite (may_be_type _ _ Hc); exact Ec|].
    cbn [rbind ret]. apply B. }
  destruct Hv as [Hv|[_ ->]]; [|split; [reflexivity|apply recorded_unknown; exact T]].
  unfold value_evaluate_if_expression, check_if_expression in Hv. rewrite Ec in Hv. cbn [ctype_eqb negb] in Hv.
  rewrite Hk in Hv. cbn [or_type_error bind] in Hv. unfold is_known in Hv.
  destruct (av_val c) as [z|] eqn:Ez; cbn [negb] in Hv.
  - destruct (not_value_unknown _ _ _ Hc Ez) as [w ->]. apply as_recorded_may_be in Hc.
    assert (Ew : w = CV TBool z).
    { destruct c as [tc zc]. cbn in *. subst. apply may_be_known in Hc. tauto. }
    destruct (truth_bool w (may_be_wf _ _ Hc)) as [Et Hw]; [rewrite (may_be_type _ _ Hc); exact Ec|].
    cbn [rbind ret]. rewrite Et. cbn [rbind ret]. rewrite Ew in *. cbn [cv_int] in *.
    unfold as_bool in Hv. rewrite Ez, Ec in Hv. cbn [ctype_eqb assert_then bind] in Hv.
    assert (Eb : negb (z =? 0) = (z =? 1)) by (destruct Hw as [E|E]; injection E as ->; reflexivity).
    rewrite Eb in Hv. set (b := z =? 1) in *.
    apply convert_recorded with (a := if b then l else r); [destruct b; assumption|exact Ht|destruct b; assumption|].
    left. exact Hv.
  - injection Hv as <-. split; [reflexivity|]. apply recorded_unknown. exact T.
Qed.

Lemma assert_recorded : forall a x r, as_recorded a x ->
  value_evaluate_builtin_function builtin_assert [a] = Ok r ->
  av_type a = TBool
  /\ as_recorded r (do v <- x; do w <- operate (convert_to v TBool lossless_numeric);
                    operate (evaluate_builtin_function builtin_assert [w])).
Proof.
  intros a x r Hx Hr. rewrite value_builtin_assert_spec in Hr. destruct a as [[] [z|]]; try discriminate.
  - destruct (z =? 1) eqn:Ez; [|discriminate]. injection Hr as <-. apply Z.eqb_eq in Ez. subst z. split; [reflexivity|].
    destruct Hx as [_ Hx]. rewrite (Hx _ eq_refl). split; [vm_compute; auto|]. intros z [= <-]. reflexivity.
  - injection Hr as <-. split; [reflexivity|]. apply recorded_unknown. apply typed_bind.
    destruct x as [[v|e| |]|]; try exact I; [|apply Hx].
    apply as_recorded_may_be in Hx. destruct (truth_bool v (may_be_wf _ _ Hx) (may_be_type _ _ Hx)) as [_ [-> | ->]];
      vm_compute; auto. repeat split; discriminate.
Qed.

Lemma check_binary_wf : forall a op b t, wf_type a -> wf_type b -> check_binary_operator a op b = Ok t -> wf_type t.
Proof.
  intros a op b t Ha Hb H. destruct (check_common _ _ _ _ H) as [c Hc].
  pose proof (common_type_wf _ _ _ Ha Hb Hc) as Hw. unfold check_binary_operator in H. rewrite Hc in H.
  destruct (negb (is_binary op)); [discriminate|]. destruct (_ || _)%bool; [discriminate|]. cbn [bind] in H.
  destruct c, op; cbn in H; try discriminate; injection H as <-; exact Hw || exact I.
Qed.

Lemma skipn_tl : forall A i (l : list A), skipn (S i) l = tl (skipn i l).
Proof.
  induction i as [|i IH]; intros [|a l]; try reflexivity. cbn [skipn] in *. apply IH.
Qed.

(** ** Expressions *)

Section Evaluation.
Variable values : positive -> option avalue.
Variable table : positive -> option func.
Variable callf : positive -> list cvalue -> res cvalue.

(** Calls yield values of the return type. *)
Definition calls_typed : Prop := forall n f args t, table n = Some f -> typed_args f args ->
  denotes (f_return f) t -> typed_result t (callf n args).
Hypothesis Hcall : calls_typed.

Notation evalt := (eval true table (constants_of values) callf).

Lemma parameter_type_denotes : forall n f i p t, table n = Some f -> nth_error (f_params f) i = Some p ->
  denotes (p_type p) t -> parameter_type table (LNode DFunction n) i = ret t.
Proof.
  intros n f i p t Hf Hp (Hd & _). unfold parameter_type. rewrite Hf, Hp, Hd. reflexivity.
Qed.

Lemma all_noted_Forall : forall l, all_noted values table l <-> Forall (noted values table) l.
Proof.
  induction l as [|e l IH]; cbn; split; intros H; auto.
  - destruct H. constructor; [assumption|apply IH; assumption].
  - inversion H; subst. split; [assumption|apply IH; assumption].
Qed.

Lemma args_recorded : forall vars n f, table n = Some f -> forall args i,
  Forall (fun e => exists a, expr_cv e = Some a /\ wf_type (av_type a) /\ as_recorded a (evalt vars e)) args ->
  Forall2 (argument_fits) (map expr_cv args) (skipn i (f_params f)) ->
  match eval_args true table (constants_of values) callf vars (Some (LNode DFunction n)) i args with
  | Some (Ok vs) => Forall2 (fun p v => exists t, denotes (p_type p) t /\ wf_value v /\ cv_type v = t) (skipn i (f_params f)) vs
  | Some (Err e) => run_error e
  | _ => True
  end.
Proof.
  intros vars n f Hf. induction args as [|e args IH]; intros i Hargs Hfits.
  - inversion Hfits. cbn. constructor.
  - inversion Hargs as [|? ? (a & Ha & Hw & Hr) Hargs']; subst. inversion Hfits as [|? p ? ps Hp Hfits' E1 E2]; subst.
    destruct Hp as (a' & t & Ea & Hd & Hc). cbn in Ea. rewrite Ha in Ea. injection Ea as <-.
    assert (Hn : nth_error (f_params f) i = Some p).
    { rewrite <- (firstn_skipn i (f_params f)) at 1. rewrite <- E2.
      assert (L : length (firstn i (f_params f)) = i).
      { apply firstn_length_le. destruct (Nat.le_gt_cases i (length (f_params f))) as [|G]; [assumption|].
        rewrite skipn_all2 in E2 by lia. discriminate. }
      rewrite nth_error_app2 by lia. rewrite L, Nat.sub_diag. reflexivity. }
    assert (Hs : skipn (S i) (f_params f) = ps).
    { rewrite skipn_tl, <- E2. reflexivity. }
    cbn [eval_args]. rewrite (parameter_type_denotes _ _ _ _ _ Hf Hn Hd).
    destruct (evalt vars e) as [[v|er| |]|]; try exact I; [|apply Hr]. cbn [rbind].
    unfold pass. cbn [rbind ret]. apply as_recorded_may_be in Hr.
    assert (Hcv : typed_result t (operate (convert_to v t lossless_numeric))).
    { apply convert_typed; [apply Hr|apply Hd|]. rewrite (may_be_type _ _ Hr). exact Hc. }
    destruct (operate (convert_to v t lossless_numeric)) as [[w|er| |]|]; try exact I; [|exact Hcv]. cbn [rbind].
    specialize (IH (S i) Hargs'). rewrite Hs in IH. specialize (IH Hfits').
    destruct (eval_args _ _ _ _ _ _ (S i) args) as [[vs|er| |]|]; try exact I; [|exact IH]. cbn [rbind ret].
    constructor; [|exact IH]. exists t. split; [exact Hd|]. exact Hcv.
Qed.

Lemma eval_recorded : forall e vars, noted values table e -> typed_vars values vars ->
  exists a, expr_cv e = Some a /\ wf_type (av_type a) /\ as_recorded a (evalt vars e).
Proof.
  induction e as [cv e t IH|cv l c r IHl IHc IHr|cv op l r IHl IHr|cv op e IH|cv name lk st args IH
                 |cv name lk g|cv lit t] using expr_induction; intros vars Hn Hv.
  - destruct Hn as (Hn & v & t0 & r & Ev & Hd & Hc & Hr & ->). destruct (IH vars Hn Hv) as (a & Ea & Hw & Ha).
    rewrite Ev in Ea. injection Ea as <-. exists r. split; [reflexivity|].
    destruct Hd as (_ & Hd & Ht). destruct (convert_recorded _ _ _ _ Ha Ht Hc Hr) as [E R].
    split; [rewrite E; exact Ht|]. cbn [eval recorded]. rewrite Hd. exact R.
  - destruct Hn as (Hl & Hc & Hr & lv & c' & rv & t & v & El & Ec & Er & Hk & Hres & ->).
    destruct (IHl vars Hl Hv) as (? & E & Wl & Rl). rewrite El in E. injection E as <-.
    destruct (IHc vars Hc Hv) as (? & E & Wc & Rc). rewrite Ec in E. injection E as <-.
    destruct (IHr vars Hr Hv) as (? & E & Wr & Rr). rewrite Er in E. injection E as <-.
    assert (Ht : wf_type t).
    { unfold check_if_expression in Hk. destruct (negb _); [discriminate|]. eapply common_type_wf; [| |exact Hk]; assumption. }
    destruct (if_recorded _ _ _ _ _ _ _ _ Rl Rc Rr Ht Hk Hres) as [E R].
    exists v. split; [reflexivity|]. split; [rewrite E; exact Ht|]. cbn [eval recorded recorded_type adapt]. rewrite E. exact R.
  - destruct Hn as (Hl & Hr & lv & rv & t & v & El & Er & Hk & Hres & ->).
    destruct (IHl vars Hl Hv) as (? & E & Wl & Rl). rewrite El in E. injection E as <-.
    destruct (IHr vars Hr Hv) as (? & E & Wr & Rr). rewrite Er in E. injection E as <-.
    pose proof (check_binary_wf _ _ _ _ Wl Wr Hk) as Ht.
    exists v. split; [reflexivity|].
    assert (R : av_type v = t /\ as_recorded v (evalt vars (EBinary (Some v) op l r))).
    { assert (Dec : op = logical_and \/ op = logical_or \/ (op <> logical_and /\ op <> logical_or))
        by (destruct op; auto; right; right; split; discriminate).
      destruct Dec as [->|[->|[N1 N2]]].
      - exact (logical_recorded _ _ _ _ _ _ _ (or_introl eq_refl) Rl Rr Hk Hres).
      - exact (logical_recorded _ _ _ _ _ _ _ (or_intror eq_refl) Rl Rr Hk Hres).
      - pose proof (binary_recorded _ _ _ _ _ _ _ Rl Rr Hk Hres) as B. cbn [eval recorded].
        destruct op; try congruence; exact B. }
    destruct R as [E R]. split; [rewrite E; exact Ht|exact R].
  - destruct Hn as (Hn & x & t & v & Ex & Hk & Hres & ->). destruct (IH vars Hn Hv) as (? & E & Wx & Rx).
    rewrite Ex in E. injection E as <-. destruct (unary_recorded _ _ _ _ _ Rx Hk Hres) as [E R].
    exists v. split; [reflexivity|]. split; [|exact R]. rewrite E, (check_unary_same _ _ _ Hk). exact Wx.
  - destruct Hn as (Hargs & Hn). fold (all_noted values table args) in Hargs. apply all_noted_Forall in Hargs.
    assert (Ha : Forall (fun e => exists a, expr_cv e = Some a /\ wf_type (av_type a) /\ as_recorded a (evalt vars e)) args).
    { rewrite Forall_forall in *. intros e He. apply IH; auto. }
    destruct lk as [[[] n|p|[]]|]; try contradiction.
    + destruct Hn as (f & t & Hf & Hfits & Hd & ->). exists (AV t None). split; [reflexivity|].
      split; [apply Hd|]. apply recorded_unknown.
      change (evalt vars (ECall (Some (AV t None)) name (Some (LNode DFunction n)) st args))
        with (do vs <- eval_args true table (constants_of values) callf vars (Some (LNode DFunction n)) O args; callf n vs).
      pose proof (args_recorded vars n f Hf args O Ha Hfits) as A. apply typed_bind.
      destruct (eval_args _ _ _ _ _ _ O args) as [[vs|e| |]|]; try exact I; [|exact A].
      apply (Hcall n f vs t Hf A Hd).
    + destruct Hn as (e & v & r & -> & Ev & Hr & ->). exists r. split; [reflexivity|].
      inversion Ha as [|? ? (a & Ea & Wa & Ra) _]; subst. rewrite Ev in Ea. injection Ea as <-.
      destruct (assert_recorded _ _ _ Ra Hr) as [Tv R]. split.
      { rewrite value_builtin_assert_spec in Hr. destruct v as [[] [z|]]; try discriminate;
          [destruct (z =? 1); [|discriminate]|]; injection Hr as <-; exact I. }
      cbn [eval recorded]. unfold pass. cbn [parameter_type rbind ret].
      destruct (evalt vars e) as [[w|er| |]|]; cbn [rbind] in *; try exact R.
      destruct (operate (convert_to w TBool lossless_numeric)) as [[u|er| |]|]; cbn [rbind ret] in *; exact R.
  - destruct lk as [[[] n|p|b]|]; try contradiction.
    + destruct Hn as (t & Ht & Hval & ->). exists (AV t None). split; [reflexivity|]. split; [exact Ht|].
      apply recorded_unknown. cbn [eval recorded]. destruct (vars n) as [v|] eqn:E; [|cbn; repeat split; discriminate].
      destruct (Hv _ _ E) as (t' & E' & Hw & Hty). rewrite Hval in E'. injection E' as <-. cbn. auto.
    + destruct Hn as ([t o] & Hw & Hval & ->). eexists. split; [reflexivity|]. split; [apply Hw|].
      cbn [eval recorded]. unfold constants_of. rewrite Hval. destruct o as [z|].
      * apply (ret_recorded (CV t z)). apply wf_avalue_known. exact Hw.
      * apply recorded_unknown. cbn. repeat split; discriminate.
    + destruct Hn as (t & Ht & Hval & ->). exists (AV t None). split; [reflexivity|]. split; [exact Ht|].
      apply recorded_unknown. cbn [eval recorded]. destruct (vars p) as [v|] eqn:E; [|cbn; repeat split; discriminate].
      destruct (Hv _ _ E) as (t' & E' & Hw & Hty). rewrite Hval in E'. injection E' as <-. cbn. auto.
  - destruct Hn as (v & Hl & Hw & ->). exists (known v). split; [reflexivity|]. split; [apply Hw|].
    cbn [eval recorded]. rewrite Hl. apply ret_recorded. exact Hw.
Qed.

(** ** Statements *)

Definition good_ctl (rt : ctype) (r : res (ctl * env)) : Prop :=
  match r with
  | Some (Ok (c, vars)) =>
      typed_vars values vars /\ match c with Returns v => wf_value v /\ cv_type v = rt | _ => True end
  | Some (Err e) => run_error e
  | _ => True
  end.

Lemma good_bind : forall rt A (x : res A) k,
  match x with
  | Some (Ok v) => good_ctl rt (k v)
  | Some (Err e) => run_error e
  | _ => True
  end -> good_ctl rt (rbind x k).
Proof. intros rt A [[v|e| |]|] k H; exact H. Qed.

Lemma typed_update : forall vars n v t, typed_vars values vars -> values n = Some (AV t None) ->
  wf_value v -> cv_type v = t -> typed_vars values (update vars n v).
Proof.
  intros vars n v t Hv Hn Hw Ht p w. unfold update. destruct (Pos.eqb p n) eqn:E; [|apply Hv].
  apply Pos.eqb_eq in E. subst p. intros [= <-]. eauto.
Qed.

Lemma condition_good : forall e vars, noted values table e -> (exists c, expr_cv e = Some c /\ av_type c = TBool) ->
  typed_vars values vars ->
  match (do c <- evalt vars e; truth c) with
  | Some (Err er) => run_error er
  | _ => True
  end.
Proof.
  intros e vars Hn (c & Ec & Tc) Hv. destruct (eval_recorded e vars Hn Hv) as (a & Ea & _ & R).
  rewrite Ec in Ea. injection Ea as <-. destruct (evalt vars e) as [[v|er| |]|]; try exact I; [|apply R].
  cbn [rbind]. apply as_recorded_may_be in R. destruct (truth_bool v (may_be_wf _ _ R)) as [-> _]; [|exact I].
  rewrite (may_be_type _ _ R). exact Tc.
Qed.

Lemma converted_good : forall e vars t, noted values table e -> typed_vars values vars -> wf_type t ->
  (exists v, expr_cv e = Some v /\ is_convertible_to (av_type v) t = true) ->
  typed_result t (do v <- evalt vars e; operate (convert_to v t lossless_numeric)).
Proof.
  intros e vars t Hn Hv Ht (v & Ev & Hc). destruct (eval_recorded e vars Hn Hv) as (a & Ea & _ & R).
  rewrite Ev in Ea. injection Ea as <-. apply typed_bind.
  destruct (evalt vars e) as [[w|er| |]|]; try exact I; [|apply R]. apply as_recorded_may_be in R.
  apply convert_typed; [apply R|exact Ht|]. rewrite (may_be_type _ _ R). exact Hc.
Qed.

Notation exect := (exec true table (constants_of values) callf).

Lemma exec_typed : forall rt, wf_type rt -> forall fuel s vars, noted_stmt values table rt s ->
  typed_vars values vars -> good_ctl rt (exect rt fuel vars s).
Proof.
  intros rt Hrt fuel.
  induction s as [cv name self t e|cv name self t e|cv e|cv co b IHb|cv co b e IHb IHe|cv co b IHb
                 |cv t e|cv name lk e|cv l IHl|e] using stmt_induction; intros vars Hn Hv.
  - cbn. auto.
  - destruct Hn as (ty & Ht & Hval & -> & _ & He). destruct e as [e|]; [|cbn; auto].
    destruct He as (Hn & He). pose proof (converted_good e vars ty Hn Hv Ht He) as C.
    cbn [exec adapt recorded_type rbind ret av_type].
    destruct (evalt vars e) as [[v|er| |]|]; cbn [rbind] in *; try exact C.
    destruct (operate (convert_to v ty lossless_numeric)) as [[w|er| |]|]; cbn [rbind] in *; try exact C.
    split; [|exact I]. destruct C. eapply typed_update; eassumption.
  - cbn. auto.
  - destruct Hn as (Hn & Hc & Hb & _). cbn [exec]. pose proof (condition_good _ _ Hn Hc Hv) as C.
    destruct (evalt vars co) as [[v|er| |]|]; cbn [rbind] in *; try exact I; try exact C.
    destruct (truth v) as [[[]|er| |]|]; cbn [rbind] in *; try exact I; try exact C; [apply IHb; assumption|].
    cbn. auto.
  - destruct Hn as (Hn & Hc & Hb & He). cbn [exec]. pose proof (condition_good _ _ Hn Hc Hv) as C.
    destruct (evalt vars co) as [[v|er| |]|]; cbn [rbind] in *; try exact I; try exact C.
    destruct (truth v) as [[[]|er| |]|]; cbn [rbind] in *; try exact I; try exact C; [apply IHb|apply IHe]; assumption.
  - destruct Hn as (Hn & Hc & Hb). cbn [exec]. generalize fuel at 2. intros k. revert vars Hv.
    induction k as [|k IH]; intros vars Hv; [exact I|]. cbn [loop]. pose proof (condition_good _ _ Hn Hc Hv) as C.
    destruct (do c <- evalt vars co; truth c) as [[[]|er| |]|]; cbn [rbind] in *; try exact I; try exact C;
      [|cbn; auto].
    specialize (IHb vars Hb Hv). destruct (exect rt fuel vars b) as [[[c w]|er| |]|]; cbn [rbind] in *; try exact IHb.
    destruct IHb as [Hw Hc']. destruct c; try (apply IH; exact Hw); cbn; auto.
  - destruct t; try (cbn; auto; fail). cbn [exec recorded]. destruct e as [e|].
    + destruct Hn as (Hn & v & r & Ev & Hc & _ & _).
      pose proof (converted_good e vars rt Hn Hv Hrt (ex_intro _ v (conj Ev Hc))) as C. unfold pass. cbn [rbind ret].
      destruct (evalt vars e) as [[w|er| |]|]; cbn [rbind] in *; try exact C.
      destruct (operate (convert_to w rt lossless_numeric)) as [[u|er| |]|]; cbn [rbind] in *; try exact C.
      cbn. auto.
    + destruct Hn as [-> _]. cbn. unfold wf_value. cbn. auto.
  - destruct Hn as (Hn & n & t & v & r & -> & Ht & Hval & Ev & Hc & Hr & ->).
    destruct (eval_recorded e vars Hn Hv) as (a & Ea & _ & R). rewrite Ev in Ea. injection Ea as <-.
    destruct (convert_recorded _ _ _ _ R Ht Hc Hr) as [Et _].
    pose proof (converted_good e vars t Hn Hv Ht (ex_intro _ v (conj Ev Hc))) as C.
    cbn [exec adapt recorded_type rbind ret]. rewrite Et.
    destruct (evalt vars e) as [[w|er| |]|]; cbn [rbind] in *; try exact C.
    destruct (operate (convert_to w t lossless_numeric)) as [[u|er| |]|]; cbn [rbind] in *; try exact C.
    split; [|exact I]. destruct C. eapply typed_update; eassumption.
  - change (exect rt fuel vars (SBlock cv l)) with (exec_children true table (constants_of values) callf rt fuel l vars).
    change (all_noted_stmt values table rt l) in Hn. revert vars Hn Hv.
    induction IHl as [|s l Hs _ IH]; intros vars Hn Hv; [cbn; auto|]. destruct Hn as [Hn1 Hn2].
    cbn [exec_children]. specialize (Hs vars Hn1 Hv).
    destruct (exect rt fuel vars s) as [[[c w]|er| |]|]; cbn [rbind] in *; try exact Hs.
    destruct c; try exact Hs. apply IH; [exact Hn2|apply Hs].
  - cbn [exec]. apply good_bind. destruct (eval_recorded e vars Hn Hv) as (a & Ea & _ & R).
    destruct (evalt vars e) as [[w|er| |]|]; try exact I; [|apply R]. cbn. auto.
Qed.
End Evaluation.

(** ** Functions *)

Lemma bind_typed : forall values params args, 
  (forall p, In p params -> exists t, denotes (p_type p) t /\ values (p_self p) = Some (AV t None)) ->
  Forall2 (fun p v => exists t, denotes (p_type p) t /\ wf_value v /\ cv_type v = t) params args ->
  exists vars, bind_parameters params args = Some vars /\ typed_vars values vars.
Proof.
  intros values params args Hp H. induction H as [|p v params args (t & Hd & Hw & Ht) _ IH].
  - exists empty_env. split; [reflexivity|]. intros p v H. discriminate.
  - destruct IH as (vars & Hb & Hv); [intros q Hq; apply Hp; right; exact Hq|]. cbn [bind_parameters]. rewrite Hb.
    eexists. split; [reflexivity|]. destruct (Hp p (or_introl eq_refl)) as (t' & (Hd' & _) & Hval).
    assert (t' = t) by (destruct Hd as (Hd & _); congruence). subst t'.
    eapply typed_update; eassumption.
Qed.

Lemma denotes_unique : forall n t t', denotes n t -> denotes n t' -> t = t'.
Proof. intros n t t' (H & _) (H' & _). congruence. Qed.

Lemma denotes_void : forall n t, denotes n t -> node_type n = tt_Void -> t = TVoid.
Proof.
  intros [cv k w cw] t (_ & H & _) Hk. cbn in Hk. subst k. unfold type_of_node, concrete_type_value, concrete_type in H.
  destruct cw; cbn in H; [discriminate|]. injection H as <-. reflexivity.
Qed.

Lemma call_typed : forall values table,
  (forall n f, table n = Some f -> noted_function values table f) ->
  forall fuel, calls_typed table (call true table (constants_of values) fuel).
Proof.
  intros values table Ht. induction fuel as [|fuel IH]; intros n f args t Hf Ha Hd; [exact I|].
  cbn [call]. rewrite Hf. destruct (Ht n f Hf) as [(rt & Hrt & Hbody) Hp].
  pose proof (denotes_unique _ _ _ Hd Hrt) as <-.
  destruct (bind_typed values (f_params f) args Hp Ha) as (vars & -> & Hv).
  destruct Hrt as (_ & -> & Hw). cbn [rbind ret].
  pose proof (exec_typed values table _ IH t Hw fuel (f_body f) vars Hbody Hv) as G.
  destruct (exec _ _ _ _ t fuel vars (f_body f)) as [[[c w]|er| |]|]; cbn [rbind] in *; try exact G.
  destruct c; try (cbn; repeat split; discriminate).
  - destruct (node_type (f_return f)) eqn:Ek; try (cbn; repeat split; discriminate).
    rewrite (denotes_void _ _ Hd Ek). cbn. unfold wf_value. cbn. auto.
  - cbn. apply G.
Qed.

(** ** Generated code computes the meaning, where no conversion is left out *)

Section Direct.
Variable values : positive -> option avalue.
Variable table : positive -> option func.
Variable callt callf : positive -> list cvalue -> res cvalue.
Hypothesis Hcall : calls_typed table callt.
Hypothesis Hsame : forall n f args, table n = Some f -> typed_args f args -> callt n args = callf n args.

Notation evalt := (eval true table (constants_of values) callt).
Notation evalf := (eval false table (constants_of values) callf).

Lemma convert_id : forall v t, cv_type v = t -> operate (convert_to v t lossless_numeric) = ret v.
Proof. intros v t <-. rewrite convert_to_same' by reflexivity. reflexivity. Qed.

(** A known value is what the evaluator would compute. *)
Lemma recorded_same : forall a r, as_recorded a r -> recorded false (Some a) r = r.
Proof.
  intros [t [z|]] r [_ H]; [|reflexivity]. cbn. rewrite (H z eq_refl). reflexivity.
Qed.

Lemma args_direct : forall vars n f, table n = Some f -> forall args i,
  Forall (fun e => evalf vars e = evalt vars e) args ->
  Forall (fun e => exists a, expr_cv e = Some a /\ wf_type (av_type a) /\ as_recorded a (evalt vars e)) args ->
  eval_args false table (constants_of values) callf vars (Some (LNode DFunction n)) i args
  = eval_args true table (constants_of values) callt vars (Some (LNode DFunction n)) i args.
Proof.
  intros vars n f Hf. induction args as [|e args IH]; intros i He Hr; [reflexivity|].
  inversion He as [|? ? Ee He']; subst. inversion Hr as [|? ? (a & Ea & Wa & Ra) Hr']; subst.
  cbn [eval_args]. rewrite Ee. destruct (evalt vars e) as [[v|er| |]|]; try reflexivity. cbn [rbind].
  rewrite (IH (S i) He' Hr'). unfold pass. rewrite Ea. cbn [recorded_type rbind ret].
  destruct (parameter_type table (LNode DFunction n) i) as [[t|er| |]|]; try reflexivity. cbn [rbind].
  destruct (ctype_eqb (av_type a) t) eqn:E; [|reflexivity].
  rewrite convert_id; [reflexivity|]. apply as_recorded_may_be in Ra. rewrite (may_be_type _ _ Ra).
  apply ctype_eqb_eq. exact E.
Qed.

Lemma all_direct_Forall : forall l, all_direct l <-> Forall direct l.
Proof.
  induction l as [|e l IH]; cbn; split; intros H; auto.
  - destruct H. constructor; [assumption|apply IH; assumption].
  - inversion H; subst. split; [assumption|apply IH; assumption].
Qed.

Lemma eval_direct : forall e vars, noted values table e -> typed_vars values vars -> direct e ->
  evalf vars e = evalt vars e.
Proof.
  induction e as [cv e t IH|cv l c r IHl IHc IHr|cv op l r IHl IHr|cv op e IH|cv name lk st args IH
                 |cv name lk g|cv lit t] using expr_induction; intros vars Hn Hv Hd;
    match goal with |- evalf vars ?e = _ =>
      destruct (eval_recorded values table callt Hcall e vars Hn Hv) as (a & Ea & Wa & Ra) end;
    cbn [expr_cv] in Ea; subst cv.
  - destruct Hn as (Hn & _). cbn [eval]. rewrite (IH vars Hn Hv Hd). apply recorded_same. exact Ra.
  - destruct Hn as (Hl & Hc & Hr & lv & c' & rv & t & v & El & Ec & Er & Hk & Hres & Ev).
    destruct Hd as (Dl & Dc & Dr & Tl & Tr). rewrite El in Tl. rewrite Er in Tr. injection Ev as <-.
    cbn in Tl, Tr. injection Tl as Tl. injection Tr as Tr.
    cbn [eval]. rewrite (IHl vars Hl Hv Dl), (IHc vars Hc Hv Dc), (IHr vars Hr Hv Dr).
    etransitivity; [|apply recorded_same; exact Ra]. f_equal. cbn [eval recorded].
    destruct (evalt vars c) as [[u|er| |]|]; try reflexivity. cbn [rbind].
    destruct (truth u) as [[b|er| |]|]; try reflexivity. cbn [rbind recorded_type].
    destruct (eval_recorded values table callt Hcall l vars Hl Hv) as (x & E & _ & Rl).
    rewrite El in E. injection E as <-.
    destruct (eval_recorded values table callt Hcall r vars Hr Hv) as (x & E & _ & Rr).
    rewrite Er in E. injection E as <-.
    unfold adapt. cbn [recorded_type rbind ret]. destruct b.
    + destruct (evalt vars l) as [[w|er| |]|]; try reflexivity. cbn [rbind]. apply as_recorded_may_be in Rl.
      rewrite convert_id; [reflexivity|]. rewrite (may_be_type _ _ Rl). exact Tl.
    + destruct (evalt vars r) as [[w|er| |]|]; try reflexivity. cbn [rbind]. apply as_recorded_may_be in Rr.
      rewrite convert_id; [reflexivity|]. rewrite (may_be_type _ _ Rr). exact Tr.
  - destruct Hn as (Hl & Hr & _). destruct Hd as [Dl Dr]. cbn [eval].
    rewrite (IHl vars Hl Hv Dl), (IHr vars Hr Hv Dr). apply recorded_same. exact Ra.
  - destruct Hn as (Hn & _). cbn [eval]. rewrite (IH vars Hn Hv Hd). apply recorded_same. exact Ra.
  - destruct Hn as (Hargs & Hn). fold (all_noted values table args) in Hargs. apply all_noted_Forall in Hargs.
    apply all_direct_Forall in Hd.
    assert (Hr : Forall (fun e => exists a, expr_cv e = Some a /\ wf_type (av_type a) /\ as_recorded a (evalt vars e)) args).
    { rewrite Forall_forall in *. intros e He. apply eval_recorded; auto. }
    assert (He : Forall (fun e => evalf vars e = evalt vars e) args).
    { rewrite Forall_forall in *. intros e He. apply IH; auto. }
    destruct lk as [[[] n|p|[]]|]; try contradiction.
    + destruct Hn as (f & t & Hf & Hfits & Hdn & [= ->]).
      change ((do vs <- eval_args false table (constants_of values) callf vars (Some (LNode DFunction n)) O args; callf n vs)
              = do vs <- eval_args true table (constants_of values) callt vars (Some (LNode DFunction n)) O args; callt n vs).
      rewrite (args_direct vars n f Hf args O He Hr).
      pose proof (args_recorded values table callt vars n f Hf args O Hr Hfits) as A.
      destruct (eval_args _ _ _ _ _ _ O args) as [[vs|e| |]|]; try reflexivity. cbn [rbind].
      symmetry. apply (Hsame n f vs Hf A).
    + destruct Hn as (e & v & r & -> & Ev & Hr' & [= ->]).
      inversion He as [|? ? Ee _]; subst. inversion Hr as [|? ? (x & Ex & Wx & Rx) _]; subst.
      cbn [eval]. rewrite Ee. etransitivity; [|apply recorded_same; exact Ra]. f_equal. cbn [eval recorded].
      destruct (evalt vars e) as [[w|er| |]|]; try reflexivity. cbn [rbind].
      unfold pass. cbn [parameter_type rbind ret]. rewrite Ex. cbn [recorded_type rbind ret].
      destruct (ctype_eqb (av_type x) TBool) eqn:E; [|reflexivity].
      rewrite convert_id; [reflexivity|]. apply as_recorded_may_be in Rx. rewrite (may_be_type _ _ Rx).
      apply ctype_eqb_eq. exact E.
  - destruct lk as [[[] n|p|b]|]; try contradiction.
    + apply recorded_same. exact Ra.
    + destruct Hd as [v [= ->]]. destruct Ra as [_ Ra]. rewrite (Ra _ eq_refl). reflexivity.
    + apply recorded_same. exact Ra.
  - apply recorded_same. exact Ra.
Qed.

Notation exect := (exec true table (constants_of values) callt).
Notation execf := (exec false table (constants_of values) callf).

Lemma adapt_direct : forall e vars cv, noted values table e -> typed_vars values vars ->
  option_map av_type (expr_cv e) = option_map av_type cv ->
  (do v <- evalt vars e; adapt true v (recorded_type cv)) = evalt vars e.
Proof.
  intros e vars cv Hn Hv Hc. destruct (eval_recorded values table callt Hcall e vars Hn Hv) as (a & Ea & _ & Ra).
  rewrite Ea in Hc. destruct cv as [b|]; [|discriminate]. cbn in Hc. injection Hc as Hc.
  destruct (evalt vars e) as [[w|er| |]|]; try reflexivity. cbn [rbind adapt recorded_type ret].
  apply convert_id. apply as_recorded_may_be in Ra. rewrite (may_be_type _ _ Ra). exact Hc.
Qed.

Lemma rbind_assoc : forall A B C (x : res A) (f : A -> res B) (g : B -> res C),
  rbind (rbind x f) g = rbind x (fun a => rbind (f a) g).
Proof. intros A B C [[a|e| |]|] f g; reflexivity. Qed.

Lemma exec_direct : forall rt, wf_type rt -> forall fuel s vars, noted_stmt values table rt s ->
  typed_vars values vars -> direct_stmt s -> execf rt fuel vars s = exect rt fuel vars s.
Proof.
  intros rt Hrt fuel.
  induction s as [cv name self t e|cv name self t e|cv e|cv co b IHb|cv co b e IHb IHe|cv co b IHb
                 |cv t e|cv name lk e|cv l IHl|e] using stmt_induction; intros vars Hn Hv Hd.
  - reflexivity.
  - destruct Hn as (ty & Ht & Hval & -> & _ & He). destruct e as [e|]; [|reflexivity].
    destruct He as (Hn & _). destruct Hd as [Hd Hc]. cbn [exec]. rewrite (eval_direct e vars Hn Hv Hd).
    rewrite <- (adapt_direct e vars _ Hn Hv Hc) at 1. rewrite rbind_assoc.
    destruct (evalt vars e) as [[w|er| |]|]; try reflexivity.
  - reflexivity.
  - destruct Hn as (Hn & _ & Hb & _). destruct Hd as (Dc & Db & _). cbn [exec]. rewrite (eval_direct co vars Hn Hv Dc).
    destruct (evalt vars co) as [[w|er| |]|]; try reflexivity. cbn [rbind].
    destruct (truth w) as [[[]|er| |]|]; try reflexivity. cbn [rbind]. apply IHb; assumption.
  - destruct Hn as (Hn & _ & Hb & He). destruct Hd as (Dc & Db & De). cbn [exec]. rewrite (eval_direct co vars Hn Hv Dc).
    destruct (evalt vars co) as [[w|er| |]|]; try reflexivity. cbn [rbind].
    destruct (truth w) as [[[]|er| |]|]; try reflexivity; cbn [rbind]; [apply IHb|apply IHe]; assumption.
  - destruct Hn as (Hn & Hc & Hb). destruct Hd as (Dc & Db). cbn [exec]. generalize fuel at 2 4. intros k. revert vars Hv.
    induction k as [|k IH]; intros vars Hv; [reflexivity|]. cbn [loop]. rewrite (eval_direct co vars Hn Hv Dc).
    destruct (do c <- evalt vars co; truth c) as [[[]|er| |]|]; try reflexivity. cbn [rbind].
    rewrite (IHb vars Hb Hv Db). pose proof (exec_typed values table callt Hcall rt Hrt fuel b vars Hb Hv) as G.
    destruct (exect rt fuel vars b) as [[[c w]|er| |]|]; try reflexivity. cbn [rbind].
    destruct c; try reflexivity; apply IH; apply G.
  - destruct t; try reflexivity. cbn [exec]. destruct e as [e|].
    + destruct Hn as (Hn & v & r & Ev & Hc & Hr & ->). rewrite (eval_direct e vars Hn Hv Hd).
      destruct (eval_recorded values table callt Hcall e vars Hn Hv) as (a & Ea & _ & Ra).
      rewrite Ev in Ea. injection Ea as <-. destruct (convert_recorded _ _ _ _ Ra Hrt Hc Hr) as [Et R].
      f_equal.
      assert (E : (do v <- evalt vars e; pass false v (recorded_type (expr_cv e)) (ret rt))
                = (do v <- evalt vars e; pass true v (recorded_type (expr_cv e)) (ret rt))).
      { destruct (evalt vars e) as [[w|er| |]|]; try reflexivity. unfold pass. rewrite Ev. cbn [recorded_type rbind ret].
        destruct (ctype_eqb (av_type v) rt) eqn:E; [|reflexivity]. rewrite convert_id; [reflexivity|].
        apply as_recorded_may_be in Ra. rewrite (may_be_type _ _ Ra). apply ctype_eqb_eq. exact E. }
      rewrite E. apply recorded_same. exact R.
    + destruct Hn as [-> ->]. reflexivity.
  - destruct Hn as (Hn & n & t & v & r & -> & _). destruct Hd as [Hd Hc]. cbn [exec].
    rewrite (eval_direct e vars Hn Hv Hd).
    rewrite <- (adapt_direct e vars _ Hn Hv Hc) at 1. rewrite rbind_assoc.
    destruct (evalt vars e) as [[w|er| |]|]; try reflexivity.
  - change (exec_children false table (constants_of values) callf rt fuel l vars
            = exec_children true table (constants_of values) callt rt fuel l vars).
    change (all_noted_stmt values table rt l) in Hn. change (all_direct_stmt l) in Hd. revert vars Hn Hv.
    induction IHl as [|s l Hs _ IH]; intros vars Hn Hv; [reflexivity|]. destruct Hn as [Hn1 Hn2]. destruct Hd as [Hd1 Hd2].
    cbn [exec_children]. rewrite (Hs vars Hn1 Hv Hd1).
    pose proof (exec_typed values table callt Hcall rt Hrt fuel s vars Hn1 Hv) as G.
    destruct (exect rt fuel vars s) as [[[c w]|er| |]|]; try reflexivity. cbn [rbind].
    destruct c; try reflexivity. apply IH; [exact Hd2|exact Hn2|apply G].
  - cbn [exec]. rewrite (eval_direct e vars Hn Hv Hd). reflexivity.
Qed.
End Direct.

Lemma call_direct : forall values table,
  (forall n f, table n = Some f -> noted_function values table f /\ direct_stmt (f_body f)) ->
  forall fuel n f args, table n = Some f -> typed_args f args ->
  call true table (constants_of values) fuel n args = call false table (constants_of values) fuel n args.
Proof.
  intros values table Ht. induction fuel as [|fuel IH]; intros n f args Hf Ha; [reflexivity|].
  cbn [call]. rewrite Hf. destruct (Ht n f Hf) as [[(rt & Hrt & Hbody) Hp] Hd].
  destruct (bind_typed values (f_params f) args Hp Ha) as (vars & -> & Hv).
  destruct Hrt as (_ & -> & Hw). cbn [rbind ret].
  rewrite (exec_direct values table (call true table (constants_of values) fuel) (call false table (constants_of values) fuel)
    (call_typed values table (fun n f H => proj1 (Ht n f H)) fuel) IH rt Hw fuel (f_body f) vars Hbody Hv Hd).
  reflexivity.
Qed.
