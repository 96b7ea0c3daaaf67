(** The trees that the BMD parser makes, and when it makes one. *)
From Coq Require Import ZArith Ascii String List Bool Lia.
From Verif Require Import Prelude Text Literals LiteralsSpec LiteralsProofs HtmlWriter HtmlWriterProofs
  Directives DirectivesSpec DirectivesProofs BmdParse BmdParseSpec BmdParseFacts BmdRawFacts.
Import ListNotations.
Open Scope string_scope.
Open Scope list_scope.
Open Scope Z_scope.
Local Arguments Z.pow : simpl never.
Local Arguments char_eqb : simpl never.

(** * Places in the source *)

Definition at_src (src : text) (st : pstate) : Prop :=
  exists pre post, src = pre ++ ps_rest st ++ post /\ ps_pos st = locate pre.

Lemma at_src_moves : forall src st t st', at_src src st -> moves st t st' -> at_src src st'.
Proof.
  intros src st t st' (pre & post & E & P) (M1 & M2). exists (pre ++ t), post. split.
  - rewrite E, M1, <- !app_assoc. reflexivity.
  - rewrite M2, P, move_locate. reflexivity.
Qed.

Lemma moves_begin : forall st t st', moves st t st' ->
  po_begin (ps_pos st') = po_begin (ps_pos st) + Z.of_nat (length t).
Proof. intros st t st' [_ M]. rewrite M. apply move_begin. Qed.

Lemma moves_covers : forall src st t st',
  at_src src st -> moves st t st' -> covers src (span_of (ps_pos st) (Z.of_nat (length t))) t.
Proof.
  intros src st t st' (pre & post & E & P) (M1 & M2). exists pre, (ps_rest st' ++ post). split.
  - rewrite E, M1, <- !app_assoc. reflexivity.
  - rewrite P. reflexivity.
Qed.

Lemma moves_covers_to : forall src st t st',
  at_src src st -> moves st t st' ->
  covers src (span_of (ps_pos st) (po_begin (ps_pos st') - po_begin (ps_pos st))) t.
Proof.
  intros src st t st' A M. rewrite (moves_begin _ _ _ M).
  replace (_ + _ - _) with (Z.of_nat (length t)) by lia. eapply moves_covers; eassumption.
Qed.

Lemma expect_moves : forall c rule st st', expect c rule st = Ok st' -> moves st [c] st'.
Proof.
  intros c rule [p [|d r]] st' H; cbn in H; [discriminate H|].
  destruct (char_eqb d c) eqn:E; [|discriminate H]. injection H as <-.
  apply char_eq in E. subst d. split; reflexivity.
Qed.

Lemma expect_defined : forall c rule st, defined (expect c rule st).
Proof. intros c rule [p [|d r]]; cbn; [exact I|]. destruct (char_eqb d c); exact I. Qed.

(** * Names and literals *)

Lemma identifier_plain : forall c, in_set c identifier_characters = true -> plain_char c = true.
Proof. intros [[] [] [] [] [] [] [] []]; vm_compute; intros H; try reflexivity; discriminate H. Qed.

Lemma digit_plain : forall base c, is_digit_of base c -> plain_char c = true.
Proof.
  intros base c (d & H & _). revert H.
  destruct c as [[] [] [] [] [] [] [] []]; vm_compute; intros H; try reflexivity; discriminate H.
Qed.

Lemma Forall_plain : forall (P : ascii -> Prop) t,
  (forall c, P c -> plain_char c = true) -> Forall P t -> forallb plain_char t = true.
Proof.
  intros P t H F. apply forallb_forall. intros c I. apply H. rewrite Forall_forall in F. auto.
Qed.

Lemma identifier_name_char : forall c, in_set c identifier_characters = true -> is_name_char c.
Proof.
  intros [[] [] [] [] [] [] [] []] H; try (vm_compute in H; discriminate H); clear H;
    unfold is_name_char, is_digit_char;
    match goal with |- context [code ?c] => let v := eval vm_compute in (code c) in
      change (code c) with v end; lia.
Qed.

Lemma not_digit_char : forall c, is_decimal_digit c = false -> ~ is_digit_char c.
Proof.
  intros [[] [] [] [] [] [] [] []] H D; try (vm_compute in H; discriminate H); clear H;
    unfold is_digit_char in D;
    match goal with _ : context [code ?c] |- _ => let v := eval vm_compute in (code c) in
      change (code c) with v in D end; lia.
Qed.

Lemma match_name_moves : forall st id sp st',
  match_name st = Ok (id, sp, st') ->
  moves st id st' /\ id <> [] /\ identifier_text id /\
  sp = span_of (ps_pos st) (Z.of_nat (length id)) /\ is_name id.
Proof.
  intros st id sp st' H. unfold match_name in H. destruct (ps_rest st) as [|c r] eqn:R; [discriminate H|].
  destruct (match_identifier (c :: r)) as [|n] eqn:M; [discriminate H|].
  assert (F : Forall (fun c => in_set c identifier_characters = true) (firstn (S n) (c :: r)) /\
              (S n <= length (c :: r))%nat).
  { rewrite <- M. unfold match_identifier. destruct (is_decimal_digit c); [split; [constructor|lia]|].
    destruct (prefix_length_spec (fun c => in_set c identifier_characters) (c :: r)) as (F1 & F2 & _).
    auto. }
  destruct F as [F1 F2].
  assert (Dg : is_decimal_digit c = false).
  { unfold match_identifier in M. destruct (is_decimal_digit c); [discriminate M|reflexivity]. }
  injection H as <- <- <-.
  assert (L : length (firstn (S n) (c :: r)) = S n) by (apply firstn_length_le; exact F2).
  split; [|split; [|split; [|split]]].
  - change (moves st (firstn (S n) (c :: r)) (skip (S n) st)). rewrite <- R.
    apply skip_moves; rewrite R; [exact F2|].
    eapply Forall_plain; [|exact F1]. intros x. apply identifier_plain.
  - intros E. discriminate E.
  - exact F1.
  - cbn [firstn length] in L. injection L as L. cbn [length]. rewrite L. reflexivity.
  - split; [eapply Forall_impl; [|exact F1]; intros x; apply identifier_name_char|].
    exists c, (firstn n r). split; [reflexivity|]. apply not_digit_char, Dg.
Qed.

Lemma match_name_defined : forall st, defined (match_name st).
Proof.
  intros st. unfold match_name. destruct (ps_rest st); [exact I|].
  destruct (match_identifier _); exact I.
Qed.

Lemma literal_text_plain : forall k p ds, is_literal_text k p ds -> forallb plain_char p = true.
Proof.
  intros k p ds H. destruct H; cbn [str list_ascii_of_string app forallb];
    repeat match goal with |- context [plain_char ?c] =>
      let v := eval vm_compute in (plain_char c) in
      match v with true => change (plain_char c) with true end end;
    cbn [andb]; try reflexivity.
  1-3: eapply Forall_plain; [|eassumption]; intros x; apply digit_plain.
  apply andb_true_iff. split; [eapply digit_plain; eassumption|].
  eapply Forall_plain; [|eassumption]; intros x; apply digit_plain.
Qed.

Lemma to_int64_small : forall v, 0 <= v < 2 ^ 63 -> to_int64 v = v.
Proof.
  intros v H. unfold to_int64. rewrite Z.mod_small by (change (2 ^ 64) with (2 * 2 ^ 63); lia).
  destruct (v <? 2 ^ 63) eqn:E; lia.
Qed.

Lemma to_int64_range : forall v, - 2 ^ 63 <= to_int64 v < 2 ^ 63.
Proof.
  intros v. unfold to_int64. pose proof (Z.mod_pos_bound v (2 ^ 64)) as B.
  change (2 ^ 64) with (2 * 2 ^ 63) in *. destruct (v mod (2 * 2 ^ 63) <? 2 ^ 63) eqn:E; lia.
Qed.

Lemma match_literal_moves : forall st v st',
  match_literal st = Ok (v, st') ->
  exists t n k, moves st t st' /\ v = V_number (span_of (ps_pos st) (Z.of_nat (length t))) n k /\
    number_reads k t n /\ - 2 ^ 63 <= n < 2 ^ 63.
Proof.
  intros st v st' H. unfold match_literal in H. destruct (ps_rest st) as [|c r] eqn:R; [discriminate H|].
  destruct (match_integer_literal (c :: r)) as [status len k] eqn:M. cbn [lm_status lm_type lm_length] in H.
  destruct status; try discriminate H.
  destruct (match nth_error (c :: r) len with Some x => _ | None => _ end); [discriminate H|].
  destruct (parse_integer_literal (firstn len (c :: r))) as [z|] eqn:Z; [|discriminate H].
  injection H as <- <-.
  destruct (match_integer_literal_ok _ _ _ M) as (p & ds & rest & E & L & T & _).
  assert (F : firstn len (c :: r) = p).
  { rewrite E, <- L, firstn_app, Nat.sub_diag, firstn_all. cbn. apply app_nil_r. }
  exists p, (to_int64 z), k. split; [|split; [|split; [|apply to_int64_range]]].
  - rewrite <- F, <- R. apply skip_moves.
    + rewrite R, E, app_length. lia.
    + rewrite R, F. eapply literal_text_plain. exact T.
  - rewrite L. reflexivity.
  - exists ds. split; [exact T|]. intros v D B U.
    rewrite F, (literal_int_value _ _ _ _ T D U) in Z
      by (change (2 ^ 127) with (2 ^ 63 * 2 ^ 64); change (2 ^ 64) with (2 * 2 ^ 63);
          pose proof (Z.pow_pos_nonneg 2 63); nia).
    injection Z as <-. apply to_int64_small. split; [|exact B].
    apply (denotes_bounds (base_of k) ds v); [destruct k; reflexivity|exact D].
Qed.

Lemma match_literal_defined : forall st, defined (match_literal st).
Proof.
  intros st. unfold match_literal. destruct (ps_rest st); [exact I|].
  destruct (lm_status _); try exact I.
  destruct (match nth_error _ _ with Some x => _ | None => _ end); [exact I|].
  destruct (parse_integer_literal _); exact I.
Qed.

Definition placed_value (src : text) (v : bmd_value) : Prop :=
  match v with
  | V_identifier s t => covers src s t /\ is_name t
  | V_number s n k => (exists t, covers src s t /\ number_reads k t n) /\ - 2 ^ 63 <= n < 2 ^ 63
  end.

Lemma match_value_moves : forall src st v st',
  at_src src st -> match_value st = Ok (v, st') ->
  exists t, moves st t st' /\ value_span v = span_of (ps_pos st) (Z.of_nat (length t)) /\
    placed_value src v.
Proof.
  intros src st v st' A H. unfold match_value in H. destruct (peek_if is_decimal_digit st).
  - destruct (match_literal_moves _ _ _ H) as (t & n & k & M & -> & N & R).
    exists t. split; [exact M|]. split; [reflexivity|]. split; [|exact R]. exists t. split; [|exact N].
    eapply moves_covers; eassumption.
  - destruct (match_name st) as [[[t sp] st1]| | |] eqn:E; try discriminate H.
    cbn [bind] in H. injection H as <- <-.
    destruct (match_name_moves _ _ _ _ E) as (M & _ & _ & -> & Nm).
    exists t. split; [exact M|]. split; [reflexivity|]. split; [|exact Nm]. eapply moves_covers; eassumption.
Qed.

Lemma match_value_defined : forall st, defined (match_value st).
Proof.
  intros st. unfold match_value. destruct (peek_if is_decimal_digit st); [apply match_literal_defined|].
  pose proof (match_name_defined st) as D. destruct (match_name st) as [[[t sp] st1]| | |]; exact D.
Qed.

(** * Arguments *)

Definition between (a b : Z) (s : source_span) : Prop := a <= sp_begin s /\ sp_begin s + sp_length s <= b.

Lemma between_weaken : forall a b a' b' s, between a b s -> a' <= a -> b <= b' -> between a' b' s.
Proof. unfold between. intros. lia. Qed.

Lemma bind_loop_ok : forall E A B (x : option (outcome E A)) (f : A -> option (outcome E B)) b,
  bind_loop x f = Some (Ok b) -> exists a, x = Some (Ok a) /\ f a = Some (Ok b).
Proof. intros E A B [[a|e| |]|] f b H; try discriminate H. exists a. auto. Qed.

Ltac binv H a E := apply bind_loop_ok in H; destruct H as (a & E & H).
Ltac some_ok E := match type of E with Some ?x = Some ?y => assert (E' : x = y) by (injection E; auto);
                    clear E; rename E' into E end.

Lemma has_argument_false : forall k args, has_argument k args = false -> ~ In k (map fst args).
Proof.
  intros k args H I. apply in_map_iff in I. destruct I as ((k', v) & E & I). cbn in E. subst k'.
  unfold has_argument in H. assert (X : existsb (fun a => text_eqb (fst a) k) args = true).
  { apply existsb_exists. exists (k, v). split; [exact I|]. apply text_eqb_eq. reflexivity. }
  congruence.
Qed.

Lemma NoDup_snoc : forall A (l : list A) x, NoDup l -> ~ In x l -> NoDup (l ++ [x]).
Proof.
  induction l as [|y l IH]; intros x N I; cbn.
  - constructor; [exact (fun H => H)|constructor].
  - inversion N; subst. constructor.
    + rewrite in_app_iff. intros [H|[H|[]]]; [auto|]. apply I. subst. now left.
    + apply IH; auto. intros H. apply I. now right.
Qed.

(** The arguments read so far lie between [a] and [b]. *)
Definition args_inv (src : text) (a b : Z) (args : list (text * bmd_value)) : Prop :=
  NoDup (map fst args) /\
  Forall (fun x => between a b (value_span (snd x)) /\ is_name (fst x) /\ placed_value src (snd x)) args.

Definition solid (t : text) : Prop := exists t' c, t = t' ++ [c] /\ is_space c = false.

Lemma solid_app : forall a t, solid t -> solid (a ++ t).
Proof. intros a t (t' & c & -> & H). exists (a ++ t'), c. rewrite app_assoc. auto. Qed.

Lemma solid_char : forall c, is_space c = false -> solid [c].
Proof. intros c H. exists [], c. auto. Qed.

Lemma solid_nonempty : forall t, solid t -> (0 < length t)%nat.
Proof. intros t (t' & c & -> & _). rewrite app_length. cbn. lia. Qed.

Lemma arguments_loop_moves : forall src a fuel args st args' st',
  arguments_loop fuel args st = Some (Ok (args', st')) ->
  at_src src st -> a <= po_begin (ps_pos st) -> args_inv src a (po_begin (ps_pos st)) args ->
  exists t, moves st (t ++ str "]") st' /\ args_inv src a (po_begin (ps_pos st')) args'.
Proof.
  intros src a. induction fuel as [|fuel IH]; intros args st args' st' H A La Inv; [discriminate H|].
  cbn [arguments_loop] in H.
  binv H x1 E1. destruct x1 as [b1 st1]. binv H x2 E2. destruct x2 as [[key ksp] st2].
  binv H x3 E3. destruct x3 as [b3 st3]. binv H st4 E4. binv H x5 E5. destruct x5 as [b5 st5].
  binv H x6 E6. destruct x6 as [value st6].
  destruct (has_argument key args) eqn:HA; [discriminate H|].
  binv H x7 E7. destruct x7 as [b7 st7].
  some_ok E1. some_ok E2. some_ok E3. some_ok E4. some_ok E5. some_ok E6. some_ok E7.
  destruct (match_word_blank_moves _ _ _ E1) as (t1 & M1 & _).
  destruct (match_name_moves _ _ _ _ E2) as (M2 & _ & _ & _ & Nk).
  destruct (match_word_blank_moves _ _ _ E3) as (t3 & M3 & _).
  pose proof (expect_moves _ _ _ _ E4) as M4.
  destruct (match_word_blank_moves _ _ _ E5) as (t5 & M5 & _).
  pose proof (moves_trans _ _ _ _ _ M1 (moves_trans _ _ _ _ _ M2 (moves_trans _ _ _ _ _ M3
               (moves_trans _ _ _ _ _ M4 M5)))) as M15.
  pose proof (at_src_moves _ _ _ _ A M15) as A5.
  destruct (match_value_moves _ _ _ _ A5 E6) as (t6 & M6 & Vsp & PV).
  destruct (match_word_blank_moves _ _ _ E7) as (t7 & M7 & _).
  pose proof (moves_trans _ _ _ _ _ M15 (moves_trans _ _ _ _ _ M6 M7)) as M17.
  pose proof (at_src_moves _ _ _ _ A M17) as A7.
  pose proof (moves_begin _ _ _ M15) as B5. pose proof (moves_begin _ _ _ M6) as B6.
  pose proof (moves_begin _ _ _ M7) as B7.
  assert (Inv' : args_inv src a (po_begin (ps_pos st7)) (args ++ [(key, value)])).
  { destruct Inv as [N F]. split.
    - rewrite map_app. apply NoDup_snoc; [exact N|]. apply has_argument_false. exact HA.
    - apply Forall_app. split.
      + eapply Forall_impl; [|exact F]. intros x [Hx Hp]. split; [|exact Hp].
        eapply between_weaken; [exact Hx|lia|lia].
      + constructor; [|constructor]. cbn [snd]. split; [|split; [exact Nk|exact PV]]. rewrite Vsp.
        unfold between, span_of. cbn [sp_begin sp_length]. lia. }
  destruct (eof st7); [discriminate H|]. destruct (peek_char "," st7).
  - binv H st8 E8. some_ok E8. pose proof (expect_moves _ _ _ _ E8) as M8.
    pose proof (moves_begin _ _ _ M8) as B8. cbn [length] in B8.
    destruct (IH _ _ _ _ H) as (t & M & I').
    + eapply at_src_moves; eassumption.
    + lia.
    + destruct Inv' as [N F]. split; [exact N|]. eapply Forall_impl; [|exact F].
      intros x [Hx Hp]. split; [|exact Hp]. eapply between_weaken; [exact Hx|lia|lia].
    + pose proof (moves_trans _ _ _ _ _ M17 (moves_trans _ _ _ _ _ M8 M)) as M18.
      rewrite (app_assoc _ t), app_assoc in M18. eexists. split; [exact M18|exact I'].
  - binv H st8 E8. some_ok E8. pose proof (expect_moves _ _ _ _ E8) as M8.
    pose proof (moves_begin _ _ _ M8) as B8. cbn [length] in B8. injection H as <- <-.
    eexists. split; [eapply moves_trans; [exact M17|exact M8]|].
    destruct Inv' as [N F]. split; [exact N|]. eapply Forall_impl; [|exact F].
      intros x [Hx Hp]. split; [|exact Hp]. eapply between_weaken; [exact Hx|lia|lia].
Qed.

Lemma match_arguments_moves : forall src a st args' st',
  match_arguments st = Some (Ok (args', st')) ->
  at_src src st -> a <= po_begin (ps_pos st) ->
  exists t, moves st t st' /\ solid t /\ argument_text t /\ args_inv src a (po_begin (ps_pos st')) args'.
Proof.
  intros src a st args' st' H A La. unfold match_arguments in H. binv H st1 E1. some_ok E1.
  pose proof (expect_moves _ _ _ _ E1) as M1. pose proof (moves_begin _ _ _ M1) as B1. cbn [length] in B1.
  destruct (arguments_loop_moves src a _ _ _ _ _ H) as (t & M & I').
  - eapply at_src_moves; eassumption.
  - lia.
  - split; constructor.
  - eexists. split; [eapply moves_trans; eassumption|]. split; [|split; [|exact I']].
    + apply solid_app. apply solid_app. apply solid_char. reflexivity.
    + right. exists t. reflexivity.
Qed.

(** [arguments_end]: the loop ends, and is defined, when the rest does not end with the beginning of a
    comment. *)
Lemma not_ends_moves : forall st t st',
  moves st t st' -> ~ ends_in_opener (ps_rest st) -> ~ ends_in_opener (ps_rest st').
Proof. intros st t st' [M _] H E. apply H. rewrite M. apply ends_in_opener_suffix. exact E. Qed.

Lemma moves_length : forall st t st', moves st t st' ->
  length (ps_rest st) = (length t + length (ps_rest st'))%nat.
Proof. intros st t st' [M _]. rewrite M. apply app_length. Qed.

Lemma bind_loop_total : forall E A B (x : outcome E A) (f : A -> option (outcome E B)),
  defined x -> (forall a, x = Ok a -> exists r, f a = Some r /\ defined r) ->
  exists r, bind_loop (Some x) f = Some r /\ defined r.
Proof.
  intros E A B [a|e| |] f D H; try contradiction D.
  - apply H. reflexivity.
  - exists (Err e). split; [reflexivity|exact I].
Qed.

Lemma arguments_end : forall fuel args st,
  (length (ps_rest st) < fuel)%nat -> ~ ends_in_opener (ps_rest st) ->
  exists r, arguments_loop fuel args st = Some r /\ defined r.
Proof.
  induction fuel as [|fuel IH]; intros args st L N; [lia|]. cbn [arguments_loop].
  apply bind_loop_total; [apply match_word_blank_defined; exact N|]. intros [b1 st1] E1.
  destruct (match_word_blank_moves _ _ _ E1) as (t1 & M1 & _).
  pose proof (not_ends_moves _ _ _ M1 N) as N1.
  apply bind_loop_total; [apply match_name_defined|]. intros [[key ksp] st2] E2.
  destruct (match_name_moves _ _ _ _ E2) as (M2 & _). pose proof (not_ends_moves _ _ _ M2 N1) as N2.
  apply bind_loop_total; [apply match_word_blank_defined; exact N2|]. intros [b3 st3] E3.
  destruct (match_word_blank_moves _ _ _ E3) as (t3 & M3 & _).
  pose proof (not_ends_moves _ _ _ M3 N2) as N3.
  apply bind_loop_total; [apply expect_defined|]. intros st4 E4.
  pose proof (expect_moves _ _ _ _ E4) as M4. pose proof (not_ends_moves _ _ _ M4 N3) as N4.
  apply bind_loop_total; [apply match_word_blank_defined; exact N4|]. intros [b5 st5] E5.
  destruct (match_word_blank_moves _ _ _ E5) as (t5 & M5 & _).
  pose proof (not_ends_moves _ _ _ M5 N4) as N5.
  apply bind_loop_total; [apply match_value_defined|]. intros [value st6] E6.
  assert (M6 : exists t6, moves st5 t6 st6).
  { unfold match_value in E6. destruct (peek_if is_decimal_digit st5).
    - destruct (match_literal_moves _ _ _ E6) as (t & n & k & M & _). exists t. exact M.
    - destruct (match_name st5) as [[[t sp] s]| | |] eqn:E; try discriminate E6. cbn [bind] in E6.
      injection E6 as <- <-. destruct (match_name_moves _ _ _ _ E) as (M & _). exists t. exact M. }
  destruct M6 as [t6 M6]. pose proof (not_ends_moves _ _ _ M6 N5) as N6.
  destruct (has_argument key args); [eexists; split; [reflexivity|exact I]|].
  apply bind_loop_total; [apply match_word_blank_defined; exact N6|]. intros [b7 st7] E7.
  destruct (match_word_blank_moves _ _ _ E7) as (t7 & M7 & _).
  pose proof (not_ends_moves _ _ _ M7 N6) as N7.
  destruct (eof st7); [eexists; split; [reflexivity|exact I]|].
  destruct (peek_char "," st7).
  - apply bind_loop_total; [apply expect_defined|]. intros st8 E8.
    pose proof (expect_moves _ _ _ _ E8) as M8. apply IH; [|exact (not_ends_moves _ _ _ M8 N7)].
    pose proof (moves_length _ _ _ M1). pose proof (moves_length _ _ _ M2).
    pose proof (moves_length _ _ _ M3). pose proof (moves_length _ _ _ M4).
    pose proof (moves_length _ _ _ M5). pose proof (moves_length _ _ _ M6).
    pose proof (moves_length _ _ _ M7). pose proof (moves_length _ _ _ M8). cbn [length] in *. lia.
  - apply bind_loop_total; [apply expect_defined|]. intros st8 E8.
    eexists. split; [reflexivity|exact I].
Qed.

Lemma match_arguments_total : forall st,
  ~ ends_in_opener (ps_rest st) -> exists r, match_arguments st = Some r /\ defined r.
Proof.
  intros st N. unfold match_arguments. apply bind_loop_total; [apply expect_defined|]. intros st1 E1.
  pose proof (expect_moves _ _ _ _ E1) as M1. apply arguments_end; [lia|].
  exact (not_ends_moves _ _ _ M1 N).
Qed.
