(** Where the BMD parser reports an error, and what is wrong there. *)
From Coq Require Import ZArith Ascii String List Bool Lia.
From Verif Require Import Prelude Text Literals LiteralsSpec LiteralsProofs HtmlWriter HtmlWriterProofs
  Directives DirectivesSpec DirectivesProofs DirectivesProps BmdParse BmdParseSpec BmdParseFacts
  BmdRawFacts BmdParseProofs BmdSound DiagnosticsSpec.
From Verif Require TokenizerSpec TokenizerProofs.
Import ListNotations.
Open Scope string_scope.
Open Scope list_scope.
Open Scope Z_scope.
Local Arguments Z.pow : simpl never.
Local Arguments char_eqb : simpl never.

(** * Specification *)

(** A directive may begin here: a backslash that does not escape the next character. *)
Definition directive_here (t : text) : Prop :=
  exists r, t = "\"%char :: r /\ forall c r', r = c :: r' -> ~ escapable c.

(** What is wrong between [pre] and [post]. *)
Definition document_trouble (c : bmd_error_code) (pre post : text) : Prop :=
  match c with
  | be_unexpected_character => post <> []
  | be_integer_suffix => exists a k p ds x r,
      pre = a ++ p /\ is_literal_text k p ds /\ post = x :: r /\ TokenizerSpec.is_identifier_char x
  | be_invalid_directive => exists a id r,
      pre = a ++ str "\" /\ post = id ++ r /\ is_name id /\ forall t, id <> name_of t
  | be_duplicate_argument => exists id r, post = id ++ r /\ is_name id
  | be_directive_in_text_span => exists r, post = "\"%char :: r
  | be_text_in_directive_list => post <> [] /\ ~ directive_here post
  | _ => True
  end.

(** The error is reported at a place of the source, and that is wrong there. *)
Definition reported (src : text) (e : bmd_error) : Prop :=
  exists pre post, src = pre ++ post /\ pe_pos e = locate pre /\ document_trouble (pe_code e) pre post.

(** * Proof *)

Section Errors.
Variable src : text.

Definition errs {A} (x : outcome bmd_error A) : Prop := forall e, x = Err e -> reported src e.
Definition errs_loop {A} (x : option (outcome bmd_error A)) : Prop := forall e, x = Some (Err e) -> reported src e.

Lemma errs_bind : forall A B (x : option (outcome bmd_error A)) (f : A -> option (outcome bmd_error B)),
  errs_loop x -> (forall a, x = Some (Ok a) -> errs_loop (f a)) -> errs_loop (bind_loop x f).
Proof.
  intros A B [[a|e0| |]|] f X F e H; try discriminate H.
  - exact (F a eq_refl e H).
  - injection H as <-. apply X. reflexivity.
Qed.

Lemma errs_some : forall A (x : outcome bmd_error A), errs x -> errs_loop (Some x).
Proof. intros A x X e H. injection H as ->. apply X. reflexivity. Qed.

Lemma errs_ok : forall A (a : A), errs (Ok a).
Proof. intros A a e H. discriminate H. Qed.
Lemma errs_loop_ok : forall A (a : A), errs_loop (Some (Ok a)).
Proof. intros A a e H. discriminate H. Qed.
Lemma errs_loop_abort : forall A, errs_loop (@Some (outcome bmd_error A) Abort).
Proof. intros A e H. discriminate H. Qed.

Lemma errs_fail : forall A c r st, at_src src st ->
  (forall pre post, src = pre ++ ps_rest st ++ post -> document_trouble c pre (ps_rest st ++ post)) ->
  errs (@fail A c r st).
Proof.
  intros A c r st (pre & post & E & P) T e H. injection H as <-.
  exists pre, (ps_rest st ++ post). split; [exact E|]. split; [exact P|]. cbn [pe_code]. apply T. exact E.
Qed.

Lemma expect_errs : forall c rule st, at_src src st -> errs (expect c rule st).
Proof.
  intros c rule st A. unfold expect. destruct (ps_rest st) as [|d r] eqn:R.
  - apply errs_fail; [exact A|]. intros. exact Logic.I.
  - destruct (char_eqb d c); [apply errs_ok|]. apply errs_fail; [exact A|]. intros. rewrite R. discriminate.
Qed.

(** * White space *)

Lemma blank_loop_err : forall n s, (length s <= n)%nat -> forall m k b p e,
  blank_loop m k b p s = Err e -> pe_code e = be_unterminated_comment /\ pe_pos e = move s p.
Proof.
  induction n as [|n IH]; intros s L m k b p e H.
  { destruct s; [|cbn in L; lia]. destruct m; cbn in H; try discriminate H; injection H as <-; split; reflexivity. }
  destruct s as [|c r].
  { destruct m; cbn in H; try discriminate H; injection H as <-; split; reflexivity. }
  cbn [length] in L. destruct m; cbn [blank_loop] in H.
  - destruct r as [|d r'].
    + destruct (negb (is_space c)); [discriminate H|]. destruct (char_eqb c ch_newline); apply IH in H; try exact H; cbn; lia.
    + cbn [length] in L.
      destruct (char_eqb c "/" && char_eqb d "/").
      { destruct r' as [|x r']; [discriminate H|]. apply IH in H; [exact H|cbn in *; lia]. }
      destruct (char_eqb c "/" && char_eqb d "*").
      { destruct r' as [|x r']; [discriminate H|]. apply IH in H; [exact H|cbn in *; lia]. }
      destruct (negb (is_space c)); [discriminate H|].
      destruct (char_eqb c ch_newline); apply IH in H; try exact H; cbn in *; lia.
  - destruct (char_eqb c ch_newline); apply IH in H; try exact H; lia.
  - destruct r as [|d r'].
    + apply IH in H; [exact H|cbn; lia].
    + cbn [length] in L. destruct (char_eqb c "*" && char_eqb d "/"); apply IH in H; try exact H; cbn in *; lia.
Qed.

Lemma at_end : forall st e, at_src src st -> pe_pos e = move (ps_rest st) (ps_pos st) ->
  (forall pre post, document_trouble (pe_code e) pre post) -> reported src e.
Proof.
  intros st e (pre & post & E & P) M T. exists (pre ++ ps_rest st), post. split; [rewrite <- app_assoc; exact E|].
  split; [rewrite M, P; apply move_locate|apply T].
Qed.

Lemma match_blank_errs : forall rule st, at_src src st -> errs (match_blank rule st).
Proof.
  intros rule st A e H. unfold match_blank in H.
  destruct (blank_loop cm_none 0 false (ps_pos st) (ps_rest st)) as [[b st']|e'| |] eqn:E; try discriminate H.
  cbn in H. injection H as <-. apply (blank_loop_err _ _ (le_n _)) in E. destruct E as [E1 E2].
  eapply at_end; [exact A|exact E2|]. intros. cbn [pe_code]. rewrite E1. exact Logic.I.
Qed.

Lemma match_word_blank_errs : forall st, at_src src st -> errs (match_word_blank st).
Proof.
  intros st A e H. unfold match_word_blank in H. apply (match_blank_errs br_blank st A).
  destruct (match_blank br_blank st) as [[b st']|e'| |]; cbn [bind] in H; try discriminate H; [|exact H].
  destruct (bl_break b); discriminate H.
Qed.

(** * Names and values *)

Lemma match_name_errs : forall st, at_src src st -> errs (match_name st).
Proof.
  intros st A. unfold match_name. destruct (ps_rest st) as [|c r] eqn:R.
  - apply errs_fail; [exact A|]. intros. exact Logic.I.
  - destruct (match_identifier (c :: r)); [|apply errs_ok]. apply errs_fail; [exact A|]. intros. rewrite R. discriminate.
Qed.

Lemma match_literal_errs : forall st, at_src src st -> errs (match_literal st).
Proof.
  intros st A. unfold match_literal. destruct (ps_rest st) as [|c r] eqn:R.
  { apply errs_fail; [exact A|]. intros. exact Logic.I. }
  destruct (match_integer_literal (c :: r)) as [status len k] eqn:M. cbn [lm_status lm_type lm_length].
  destruct status.
  - destruct (match_integer_literal_ok _ _ _ M) as (p & ds & rest & E & L & T & _).
    assert (F : firstn len (c :: r) = p).
    { rewrite E, <- L, firstn_app, Nat.sub_diag, firstn_all. cbn. apply app_nil_r. }
    assert (S : skipn len (c :: r) = rest).
    { rewrite E, <- L, skipn_app, Nat.sub_diag, skipn_all. reflexivity. }
    destruct (nth_error (c :: r) len) as [x|] eqn:N.
    2:{ destruct (parse_integer_literal _); [apply errs_ok|]. apply errs_fail; [exact A|]. intros. exact Logic.I. }
    destruct (in_set x identifier_characters) eqn:I0.
    2:{ destruct (parse_integer_literal _); [apply errs_ok|]. apply errs_fail; [exact A|]. intros. exact Logic.I. }
    rewrite E, <- L, nth_error_app2, Nat.sub_diag in N by lia. destruct rest as [|y rest]; [discriminate N|].
    injection N as ->. intros e H. injection H as <-. destruct A as (pre & post & EA & PA).
    exists (pre ++ p), ((x :: rest) ++ post). split; [rewrite EA, R, E, <- !app_assoc; reflexivity|]. split.
    + cbn [pe_pos skip ps_pos]. rewrite <- L. rewrite <- (move_plain p) by (eapply literal_text_plain; exact T).
      rewrite PA. apply move_locate.
    + exists pre, k, p, ds, x, (rest ++ post). split; [reflexivity|]. split; [exact T|]. split; [reflexivity|].
      apply TokenizerProofs.ident_b_iff. rewrite <- TokenizerProofs.in_identifier_characters. exact I0.
  - apply errs_fail; [exact A|]. intros. exact Logic.I.
  - assert (X : lm_status (match_integer_literal (c :: r)) = lm_no_digits_following_prefix) by (rewrite M; reflexivity).
    assert (L : len = 2%nat).
    { clear -M. unfold match_integer_literal in M.
      repeat match type of M with context [if ?b then _ else _] => destruct b end;
        try (injection M; congruence); try discriminate M. }
    apply match_integer_literal_prefix_only in X. intros e H. injection H as <-.
    destruct A as (pre & post & EA & PA).
    assert (Y : exists q rest, c :: r = q ++ rest /\ length q = 2%nat /\ forallb plain_char q = true).
    { destruct X as [(rest & E & _)|(rest & E & _)]; [exists (str "0b"), rest|exists (str "0x"), rest];
        (split; [exact E|split; reflexivity]). }
    destruct Y as (q & rest & E & Lq & Pq). exists (pre ++ q), (rest ++ post).
    split; [rewrite EA, R, E, <- !app_assoc; reflexivity|]. split; [|exact Logic.I].
    cbn [pe_pos skip ps_pos]. rewrite L, <- Lq, <- (move_plain q) by exact Pq. rewrite PA. apply move_locate.
Qed.

Lemma match_value_errs : forall st, at_src src st -> errs (match_value st).
Proof.
  intros st A e H. unfold match_value in H. destruct (peek_if is_decimal_digit st).
  - exact (match_literal_errs st A e H).
  - apply (match_name_errs st A). destruct (match_name st) as [[[t s] st']|e'| |]; cbn in H; try discriminate H.
    injection H as ->. reflexivity.
Qed.

(** * Arguments *)

Lemma arguments_loop_errs : forall fuel args st, at_src src st -> errs_loop (arguments_loop fuel args st).
Proof.
  induction fuel as [|fuel IH]; intros args st A; [intros e H; discriminate H|]. cbn [arguments_loop].
  apply errs_bind; [apply errs_some, match_word_blank_errs, A|]. intros [b1 st1] E1. some_ok E1.
  destruct (match_word_blank_moves _ _ _ E1) as (t1 & M1 & _). pose proof (at_src_moves _ _ _ _ A M1) as A1.
  apply errs_bind; [apply errs_some, match_name_errs, A1|]. intros [[key ks] st2] E2. some_ok E2.
  destruct (match_name_moves _ _ _ _ E2) as (M2 & _ & _ & _ & Nk). pose proof (at_src_moves _ _ _ _ A1 M2) as A2.
  apply errs_bind; [apply errs_some, match_word_blank_errs, A2|]. intros [b3 st3] E3. some_ok E3.
  destruct (match_word_blank_moves _ _ _ E3) as (t3 & M3 & _). pose proof (at_src_moves _ _ _ _ A2 M3) as A3.
  apply errs_bind; [apply errs_some, expect_errs, A3|]. intros st4 E4. some_ok E4.
  pose proof (expect_moves _ _ _ _ E4) as M4. pose proof (at_src_moves _ _ _ _ A3 M4) as A4.
  apply errs_bind; [apply errs_some, match_word_blank_errs, A4|]. intros [b5 st5] E5. some_ok E5.
  destruct (match_word_blank_moves _ _ _ E5) as (t5 & M5 & _). pose proof (at_src_moves _ _ _ _ A4 M5) as A5.
  apply errs_bind; [apply errs_some, match_value_errs, A5|]. intros [value st6] E6. some_ok E6.
  destruct (match_value_moves _ _ _ _ A5 E6) as (t6 & M6 & _). pose proof (at_src_moves _ _ _ _ A5 M6) as A6.
  destruct (has_argument key args).
  { apply errs_some, errs_fail; [exact A1|]. intros pre post E. destruct M2 as [M2 _]. rewrite M2.
    exists key, (ps_rest st2 ++ post). split; [rewrite <- app_assoc; reflexivity|exact Nk]. }
  apply errs_bind; [apply errs_some, match_word_blank_errs, A6|]. intros [b7 st7] E7. some_ok E7.
  destruct (match_word_blank_moves _ _ _ E7) as (t7 & M7 & _). pose proof (at_src_moves _ _ _ _ A6 M7) as A7.
  destruct (eof st7); [apply errs_some, errs_fail; [exact A7|intros; exact Logic.I]|].
  destruct (peek_char "," st7).
  - apply errs_bind; [apply errs_some, expect_errs, A7|]. intros st8 E8. some_ok E8. apply IH.
    eapply at_src_moves; [exact A7|eapply expect_moves; exact E8].
  - apply errs_bind; [apply errs_some, expect_errs, A7|]. intros st8 E8. apply errs_loop_ok.
Qed.

Lemma match_arguments_errs : forall st, at_src src st -> errs_loop (match_arguments st).
Proof.
  intros st A. unfold match_arguments. apply errs_bind; [apply errs_some, expect_errs, A|]. intros st1 E1. some_ok E1.
  apply arguments_loop_errs. eapply at_src_moves; [exact A|eapply expect_moves; exact E1].
Qed.

(** * Blocks *)

Lemma raw_loop_err : forall n s, (length s <= n)%nat -> forall m level p e,
  raw_loop m level p s = Err e ->
  (pe_code e = be_unterminated_comment \/ pe_code e = be_unexpected_eof) /\ pe_pos e = move s p.
Proof.
  induction n as [|n IH]; intros s L m level p e H.
  { destruct s; [|cbn in L; lia]. destruct m; cbn in H; injection H as <-; split; auto. }
  destruct s as [|c r].
  { destruct m; cbn in H; injection H as <-; split; auto. }
  cbn [length] in L. destruct m; cbn [raw_loop] in H.
  - destruct (char_eqb c "}"); [destruct level; [discriminate H|apply IH in H; [exact H|lia]]|].
    destruct (char_eqb c "{"); [apply IH in H; [exact H|lia]|].
    destruct r as [|d r']; [apply IH in H; [exact H|lia]|]. cbn [length] in L.
    destruct (char_eqb c ch_backslash && is_escapeable d); [apply IH in H; [exact H|lia]|].
    destruct (char_eqb c "/" && char_eqb d "/"); [apply IH in H; [exact H|lia]|].
    destruct (char_eqb c "/" && char_eqb d "*"); apply IH in H; try exact H; cbn; lia.
  - destruct (char_eqb c ch_newline); apply IH in H; try exact H; lia.
  - destruct r as [|d r']; [apply IH in H; [exact H|lia]|]. cbn [length] in L.
    destruct (char_eqb c "*" && char_eqb d "/"); apply IH in H; try exact H; cbn; lia.
Qed.

Lemma raw_block_errs : forall st, at_src src st -> errs (match_raw_block_impl st).
Proof.
  intros st A e H. unfold match_raw_block_impl in H.
  destruct (expect "{" br_block st) as [st1|e1| |] eqn:E1; cbn [bind] in H; try discriminate H.
  - pose proof (at_src_moves _ _ _ _ A (expect_moves _ _ _ _ E1)) as A1.
    destruct (raw_loop cm_none 0 (ps_pos st1) (ps_rest st1)) as [st2|e2| |] eqn:E2; cbn [bind] in H; try discriminate H.
    + unfold assert_then in H. destruct (match firstn _ _ with [] => _ | _ => _ end); discriminate H.
    + injection H as <-. apply (raw_loop_err _ _ (le_n _)) in E2. destruct E2 as [C P].
      eapply at_end; [exact A1|exact P|]. intros. destruct C as [-> | ->]; exact Logic.I.
  - injection H as <-. exact (expect_errs _ _ _ A _ E1).
Qed.

Lemma inside_errs : forall A (f : pstate -> option (outcome bmd_error (A * pstate))) st, at_src src st ->
  (forall st', at_src src st' -> errs_loop (f st')) -> errs_loop (match_inside_block f st).
Proof.
  intros A f st At F. unfold match_inside_block.
  apply errs_bind; [apply errs_some, raw_block_errs, At|]. intros [[p content] st1] E1. some_ok E1.
  apply match_raw_block_impl_iff in E1. destruct E1 as (R & RC & Ne & -> & P1).
  apply errs_bind.
  - apply F. destruct At as (pre & post & E & P). exists (pre ++ str "{"), (str "}" ++ ps_rest st1 ++ post).
    cbn [ps_rest ps_pos]. split.
    + rewrite E, R, <- !app_assoc. reflexivity.
    + rewrite P. rewrite <- (advance_plain "{"%char) by reflexivity. apply advance_locate.
  - intros [a inner] _. destruct (eof inner); [apply errs_loop_ok|apply errs_loop_abort].
Qed.

Lemma match_text_moves : forall st t st', match_text st = Ok (t, st') -> exists u, moves st u st'.
Proof.
  intros st t st' H. unfold match_text, match_text_impl in H.
  set (s1 := text_loop st false (ps_pos st) (ps_rest st)) in *.
  assert (X : exists u, moves st u s1).
  { destruct (text_loop_moves _ _ (le_n _) st false (ps_pos st) [] s1 eq_refl eq_refl eq_refl eq_refl)
      as [[E|[t' [c [E1 [E2 E3]]]]] E4].
    - exists []. rewrite E. apply moves_refl.
    - exists (t' ++ [c]). split; assumption. }
  assert (s1 = st') as <-.
  { destruct (firstn _ _); [injection H as _ <-; reflexivity|]. unfold assert_then in H.
    destruct (negb _); [|discriminate H]. destruct (negb _); [|discriminate H]. injection H as _ <-. reflexivity. }
  exact X.
Qed.

Lemma match_text_errs : forall st, errs (match_text st).
Proof.
  intros st e H. unfold match_text, match_text_impl in H. destruct (firstn _ _); [discriminate H|].
  unfold assert_then in H. destruct (negb _); [|discriminate H]. destruct (negb _); discriminate H.
Qed.

Lemma possible_directive : forall st, peek_possible_directive st = true <->
  exists r, ps_rest st = "\"%char :: r /\ forall c r', r = c :: r' -> ~ escapable c.
Proof.
  intros st. unfold peek_possible_directive. split.
  - destruct (ps_rest st) as [|c r]; [discriminate|]. rewrite andb_true_iff. intros [C D].
    apply char_eq in C. subst c. exists r. split; [reflexivity|]. intros d r' -> X. apply is_escapeable_iff in X.
    rewrite X in D. discriminate D.
  - intros (r & -> & D). apply andb_true_iff. split; [reflexivity|]. destruct r as [|d r']; [reflexivity|].
    apply negb_true_iff. destruct (is_escapeable d) eqn:X; [|reflexivity].
    apply is_escapeable_iff in X. destruct (D d r' eq_refl X).
Qed.

(** * The parser *)

Definition L_errs (fuel : nat) : Prop := forall initial before e p st,
  at_src src st -> errs_loop (content_loop fuel initial before e p st).
Definition P_errs (fuel : nat) : Prop := forall initial e st,
  at_src src st -> errs_loop (paragraph_loop fuel initial e st).
Definition I_errs (fuel : nat) : Prop := forall c initial e st,
  at_src src st -> errs_loop (directives_loop fuel c initial e st).
Definition D_errs (fuel : nat) : Prop := forall ctx st,
  at_src src st -> errs_loop (match_directive fuel ctx st).
Definition C_errs (fuel : nat) : Prop := forall ty st,
  at_src src st -> errs_loop (match_directive_content fuel ty st).

Lemma directive_moves : forall fuel ctx st d st', at_src src st ->
  match_directive fuel ctx st = Some (Ok (d, st')) -> exists t, moves st t st'.
Proof.
  intros fuel ctx st d st' A H. destruct (all_sound src fuel) as (_ & _ & _ & HD & _).
  destruct (HD _ _ _ _ A H) as (t & _ & _ & _ & _ & M & _). exists t. exact M.
Qed.

Lemma content_errs : forall fuel, D_errs fuel -> L_errs fuel -> L_errs (S fuel).
Proof.
  intros fuel HD HL initial before e p st A. cbn [content_loop].
  destruct (eof st). { destruct (break_paragraph _ _ _ _) as [[? ?] ?]. apply errs_loop_ok. }
  destruct (peek_if is_space st); [apply errs_loop_abort|].
  apply errs_bind.
  - destruct (peek_possible_directive st).
    + apply errs_bind; [apply HD, A|]. intros [d st1] E1. destruct (directive_moves _ _ _ _ _ A E1) as (t & M).
      destruct d as [|sp ty id args b|]; try apply errs_loop_abort.
      destruct (environment_of ty).
      1,2,3,4: first [apply errs_loop_ok|apply errs_some, errs_fail; [eapply at_src_moves; eassumption|intros; exact Logic.I]
        |destruct (break_paragraph _ _ _ _) as [[? ?] ?]; apply errs_loop_ok].
    + apply errs_bind; [apply errs_some, match_text_errs|]. intros [[n|] st1] E1; [apply errs_loop_ok|apply errs_loop_abort].
  - intros [[[e' p'] b'] st1] E.
    assert (M : exists t, moves st t st1).
    { destruct (peek_possible_directive st); binv E x1 E1; destruct x1 as [d st2].
      - destruct d as [|sp ty id args b|]; try discriminate E.
        assert (st2 = st1) as <-.
        { destruct (environment_of ty); try discriminate E;
            [|destruct (break_paragraph _ _ _ _) as [[? ?] ?]]; injection E; auto. }
        eapply directive_moves; eassumption.
      - destruct d; [|discriminate E]. injection E as _ _ _ <-. some_ok E1. eapply match_text_moves; exact E1. }
    destruct M as (t & M). pose proof (at_src_moves _ _ _ _ A M) as A1. clear E.
    apply errs_bind; [apply errs_some, match_blank_errs, A1|]. intros [b st2] E. some_ok E.
    destruct (match_blank_moves _ _ _ _ E) as (t2 & M2 & _). pose proof (at_src_moves _ _ _ _ A1 M2) as A2.
    destruct (bl_break b); [destruct (break_paragraph _ _ _ _) as [[? ?] ?]|]; apply HL, A2.
Qed.

Lemma paragraph_errs : forall fuel, D_errs fuel -> P_errs fuel -> P_errs (S fuel).
Proof.
  intros fuel HD HP initial e st A. cbn [paragraph_loop]. destruct (eof st); [apply errs_loop_ok|].
  apply errs_bind.
  - destruct (peek_if is_space st); [|apply errs_loop_ok].
    apply errs_bind; [apply errs_some, match_word_blank_errs, A|]. intros [b st1] _. apply errs_loop_ok.
  - intros [stop st1] E.
    assert (A1 : at_src src st1).
    { destruct (peek_if is_space st); [|injection E as _ <-; exact A]. binv E x E1. destruct x as [b st2]. some_ok E1.
      injection E as _ <-. destruct (match_word_blank_moves _ _ _ E1) as (t & M & _). eapply at_src_moves; eassumption. }
    destruct stop; [apply errs_loop_ok|].
    apply errs_bind; [apply errs_some, match_text_errs|]. intros [t st2] E2. some_ok E2.
    destruct (match_text_moves _ _ _ E2) as (u & M2). pose proof (at_src_moves _ _ _ _ A1 M2) as A2.
    destruct t; [apply HP, A2|]. destruct (peek_possible_directive st2); [|apply HP, A2].
    apply errs_bind; [apply HD, A2|]. intros [d st3] E3. destruct (directive_moves _ _ _ _ _ A2 E3) as (v & M3).
    apply HP. eapply at_src_moves; eassumption.
Qed.

Lemma directives_errs : forall fuel, D_errs fuel -> I_errs fuel -> I_errs (S fuel).
Proof.
  intros fuel HD HI c initial e st A. cbn [directives_loop]. destruct (eof st) eqn:Eof; [apply errs_loop_ok|].
  destruct (peek_possible_directive st) eqn:Pk; cbn [negb].
  - apply errs_bind; [apply HD, A|]. intros [d st1] E1. destruct (directive_moves _ _ _ _ _ A E1) as (u & M1).
    pose proof (at_src_moves _ _ _ _ A M1) as A1.
    apply errs_bind; [apply errs_some, match_blank_errs, A1|]. intros [b st2] E2. some_ok E2.
    destruct (match_blank_moves _ _ _ _ E2) as (t2 & M2 & _). apply HI. eapply at_src_moves; eassumption.
  - apply errs_some, errs_fail; [exact A|]. intros pre post _. unfold eof in Eof.
    destruct (ps_rest st) as [|c0 r] eqn:R; [discriminate Eof|]. split; [discriminate|].
    intros (r' & E & X). injection E as -> E. destruct r as [|d r''].
    + assert (peek_possible_directive st = true); [|congruence]. apply possible_directive. exists [].
      split; [exact R|]. discriminate.
    + assert (peek_possible_directive st = true); [|congruence]. apply possible_directive. exists (d :: r'').
      split; [exact R|]. intros x y Exy. injection Exy as <- _. apply (X d (r'' ++ post)). rewrite <- E. reflexivity.
Qed.

Lemma to_left_right : forall n p, 0 <= po_column p -> 0 <= po_begin p -> to_left n (to_right n p) = Ok p.
Proof.
  intros n [l c b] H1 H2. cbn in H1, H2. unfold to_left, to_right. cbn [po_line po_column po_begin].
  replace (Z.of_nat n <=? c + Z.of_nat n) with true by (symmetry; apply Z.leb_le; lia).
  replace (Z.of_nat n <=? b + Z.of_nat n) with true by (symmetry; apply Z.leb_le; lia).
  cbn [assert_then]. do 2 f_equal; lia.
Qed.

Lemma to_left_inv : forall n p q, to_left n (to_right n p) = Ok q -> q = p.
Proof.
  intros n [l c b] q H. unfold to_left, to_right in H. cbn [po_line po_column po_begin] in H.
  destruct (_ <=? _); [|discriminate H]. destruct (_ <=? _); [|discriminate H]. cbn in H. injection H as <-.
  f_equal; lia.
Qed.

Lemma match_name_pos : forall st id sp st', match_name st = Ok (id, sp, st') ->
  ps_pos st' = to_right (length id) (ps_pos st).
Proof.
  intros st id sp st' H. destruct (match_name_moves _ _ _ _ H) as ([R _] & _).
  unfold match_name in H. destruct (ps_rest st) as [|c r] eqn:E; [discriminate H|].
  destruct (match_identifier (c :: r)) as [|n] eqn:M; [discriminate H|]. injection H as H _ Hs.
  assert (L : length id = S n).
  { assert (X : skipn (S n) (c :: r) = ps_rest st') by (rewrite <- Hs; cbn [skip ps_rest]; rewrite E; reflexivity).
    assert (Y : length (c :: r) = (length id + length (ps_rest st'))%nat) by (rewrite R, app_length; reflexivity).
    assert (Z0 : id = firstn (S n) (c :: r)) by (symmetry; exact H).
    pose proof (firstn_length (S n) (c :: r)) as W. rewrite <- Z0 in W. pose proof (skipn_length (S n) (c :: r)) as V.
    rewrite X in V. pose proof (TokenizerProofs.match_identifier_spec (c :: r)) as [_ U]; [lia|]. lia. }
  rewrite L, <- Hs. reflexivity.
Qed.

Lemma directive_errs : forall fuel, C_errs fuel -> D_errs (S fuel).
Proof.
  intros fuel HC ctx st A. cbn [match_directive]. destruct (negb (allows_directives ctx)); [apply errs_loop_abort|].
  apply errs_bind; [apply errs_some, expect_errs, A|]. intros st1 E1. some_ok E1.
  pose proof (expect_moves _ _ _ _ E1) as M1. pose proof (at_src_moves _ _ _ _ A M1) as A1.
  apply errs_bind; [apply errs_some, match_name_errs, A1|]. intros [[id sp] st2] E2. some_ok E2.
  destruct (match_name_moves _ _ _ _ E2) as (M2 & _ & _ & _ & Nk). pose proof (at_src_moves _ _ _ _ A1 M2) as A2.
  pose proof (directive_lookup id) as Look.
  destruct (directive_type_by_id id) as [[ty|]| | |]; [| |apply errs_loop_abort..|intros e H; discriminate H].
  2:{ intros e H. some_ok H. destruct (to_left (length id) (ps_pos st2)) as [q|? | |] eqn:Q; cbn [bind] in H; try discriminate H.
      - rewrite (match_name_pos _ _ _ _ E2) in Q. apply to_left_inv in Q. injection H as <-.
        destruct A as (pre & post & EA & PA). destruct M1 as [R1 P1]. destruct M2 as [R2 _].
        exists (pre ++ str "\"), (ps_rest st1 ++ post). split; [rewrite EA, R1, <- !app_assoc; reflexivity|]. split.
        + cbn [pe_pos]. rewrite Q, P1, PA. apply move_locate.
        + exists pre, id, (ps_rest st2 ++ post). split; [reflexivity|]. split; [rewrite R2, <- app_assoc; reflexivity|].
          split; [exact Nk|]. exact (proj1 Look).
      - unfold to_left, assert_then in Q. destruct (_ <=? _); [|discriminate Q]. destruct (_ <=? _); discriminate Q. }
  destruct (negb (allowed_in ty ctx)); [apply errs_some, errs_fail; [exact A2|intros; exact Logic.I]|].
  apply errs_bind. { destruct (peek_char "[" st2); [apply match_arguments_errs, A2|apply errs_loop_ok]. }
  intros [args st3] E3.
  assert (A3 : at_src src st3).
  { destruct (peek_char "[" st2); [|injection E3 as _ <-; exact A2].
    destruct (match_arguments_moves _ _ _ _ _ E3 A2 (Z.le_refl _)) as (u & M3 & _). eapply at_src_moves; eassumption. }
  apply errs_bind; [|intros [b st4] _; apply errs_loop_ok].
  destruct (peek_char "{" st3); [apply HC, A3|apply errs_loop_ok].
Qed.

Lemma block_errs : forall fuel, L_errs fuel -> P_errs fuel -> I_errs fuel -> C_errs (S fuel).
Proof.
  intros fuel HL HP HI ty st A. cbn [match_directive_content].
  assert (Span : forall dirs, errs_loop (match_inside_block
            (fun st =>
               let& (b, st1) := Some (match_blank br_block st) in
               if bl_break b then Some (fail be_paragraph_break_in_span br_block st1)
               else
                 let& (n, st2) :=
                   (if dirs : bool then
                      let& (n, st2) := paragraph_loop fuel (ps_pos st1) [] st1 in Some (Ok (Some n, st2))
                    else Some (match_text st1)) in
                 if peek_if is_space st2 then Some (fail be_paragraph_break_in_span br_block st2)
                 else if negb dirs && peek_possible_directive st2 then
                   Some (fail be_directive_in_text_span br_block st2)
                 else Some (Ok (n, st2))) st)).
  { intros dirs. apply inside_errs; [exact A|]. clear st A. intros st A.
    apply errs_bind; [apply errs_some, match_blank_errs, A|]. intros [b st1] E1. some_ok E1.
    destruct (match_blank_moves _ _ _ _ E1) as (t1 & M1 & _). pose proof (at_src_moves _ _ _ _ A M1) as A1.
    destruct (bl_break b); [apply errs_some, errs_fail; [exact A1|intros; exact Logic.I]|].
    apply errs_bind.
    { destruct dirs; [|apply errs_some, match_text_errs].
      apply errs_bind; [apply HP, A1|]. intros [n st2] _. apply errs_loop_ok. }
    intros [n st2] E2.
    assert (A2 : at_src src st2).
    { destruct dirs.
      - binv E2 x E3. destruct x as [m st3]. injection E2 as _ <-.
        destruct (all_sound src fuel) as (_ & PS & _).
        destruct (PS st1 st1 [] [] m st3 A1 (moves_refl _)) as (u & l & M & _);
          [apply list_inv_nil|exact Logic.I|exact E3|]. eapply at_src_moves; eassumption.
      - some_ok E2. destruct (match_text_moves _ _ _ E2) as (u & M2). eapply at_src_moves; eassumption. }
    destruct (peek_if is_space st2); [apply errs_some, errs_fail; [exact A2|intros; exact Logic.I]|].
    destruct (negb dirs && peek_possible_directive st2) eqn:Pk; [|apply errs_loop_ok].
    apply andb_true_iff in Pk. destruct Pk as [_ Pk]. apply possible_directive in Pk. destruct Pk as (r & R & _).
    apply errs_some, errs_fail; [exact A2|]. intros pre post _. exists (r ++ post). rewrite R. reflexivity. }
  assert (Inner : forall (f : pstate -> pstate -> option (outcome bmd_error (bmd_node * pstate))),
    (forall st0 st1, at_src src st1 -> errs_loop (f st0 st1)) ->
    errs_loop (match_inside_block
      (fun st => let& (_, st1) := Some (match_blank br_block st) in
                 let& (n, st2) := f st st1 in Some (Ok (Some n, st2))) st)).
  { intros f F. apply inside_errs; [exact A|]. clear st A Span. intros st A.
    apply errs_bind; [apply errs_some, match_blank_errs, A|]. intros [b st1] E1. some_ok E1.
    destruct (match_blank_moves _ _ _ _ E1) as (t1 & M1 & _). pose proof (at_src_moves _ _ _ _ A M1) as A1.
    apply errs_bind; [apply F, A1|]. intros [n st2] _. apply errs_loop_ok. }
  destruct ty.
  all: try apply (Span true); try apply (Span false).
  all: try (apply (Inner (fun st0 st1 => content_loop fuel (ps_pos st1) (ps_pos st1) [] [] st1)); intros; apply HL; assumption).
  all: try (apply (Inner (fun st0 st1 => directives_loop fuel ct_meta (ps_pos st0) [] st1)); intros; apply HI; assumption).
  all: try (apply (Inner (fun st0 st1 => directives_loop fuel ct_list (ps_pos st0) [] st1)); intros; apply HI; assumption).
  - apply errs_some. intros e H. unfold match_empty_block in H.
    destruct (match_blank br_block st) as [[b st1]|e1| |] eqn:E1; cbn [bind] in H; try discriminate H.
    + destruct (match_blank_moves _ _ _ _ E1) as (t1 & M1 & _). pose proof (at_src_moves _ _ _ _ A M1) as A1.
      assert (X : @fail (option bmd_node * pstate) be_directive_must_be_empty br_block st1 = Err e).
      { destruct (expect "}" br_block st1); [discriminate H|exact H..]. }
      revert e H X. intros e _ X. revert e X. apply errs_fail; [exact A1|intros; exact Logic.I].
    + injection H as <-. eapply match_blank_errs; eassumption.
  - apply errs_some. intros e H. unfold match_raw_block in H.
    destruct (match_raw_block_impl st) as [[[q content] st1]|e1| |] eqn:E1; cbn [bind] in H; try discriminate H.
    injection H as <-. eapply raw_block_errs; eassumption.
Qed.

Theorem all_errs : forall fuel, L_errs fuel /\ P_errs fuel /\ I_errs fuel /\ D_errs fuel /\ C_errs fuel.
Proof.
  induction fuel as [|fuel (HL & HP & HI & HD & HC)].
  - repeat split; red; intros; intros ? X; discriminate X.
  - split; [apply content_errs; assumption|]. split; [apply paragraph_errs; assumption|].
    split; [apply directives_errs; assumption|]. split; [apply directive_errs; assumption|].
    apply block_errs; assumption.
Qed.

End Errors.

Theorem parse_reported : forall fuel src e, bmd_parse fuel src = Some (Err e) -> reported src e.
Proof.
  intros fuel src. unfold bmd_parse.
  assert (A : at_src src (PState (Position 0 0 0) src)).
  { exists [], []. cbn [ps_rest ps_pos]. split; [rewrite app_nil_r; reflexivity|reflexivity]. }
  apply errs_bind; [apply errs_some, match_blank_errs, A|]. intros [b st1] E1. some_ok E1.
  destruct (match_blank_moves _ _ _ _ E1) as (t1 & M1 & _). pose proof (at_src_moves _ _ _ _ A M1) as A1.
  destruct (eof st1); [apply errs_loop_ok|].
  apply errs_bind; [apply (all_errs src fuel), A1|]. intros [n st2] _. apply errs_loop_ok.
Qed.
