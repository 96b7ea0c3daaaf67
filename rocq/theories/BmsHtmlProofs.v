(** Proofs about code in HTML: every token is an element, and the white space between them is kept. *)
From Coq Require Import ZArith Ascii String List Bool Lia.
From Verif Require Import Prelude Text Literals LiteralsSpec LiteralsProofs Tables Tokenizer TokenizerSpec
  TokenizerProofs HtmlWriter HtmlWriterSpec HtmlWriterProofs BmsHtml DocHtmlSpec DocHtmlFacts.
Import ListNotations.
Open Scope string_scope.
Open Scope list_scope.
Open Scope Z_scope.

(** * Categories *)

Lemma one_of_false : forall t l, (forall s, In s l -> t <> str s) -> one_of t l = false.
Proof.
  intros t l. unfold one_of. induction l as [|s l IH]; intros H; [reflexivity|]. cbn [existsb].
  rewrite IH by (intros s' I; apply H; right; exact I).
  destruct (text_eqb t (str s)) eqn:Q; [|reflexivity]. exfalso. apply (H s (or_introl eq_refl)).
  apply text_eqb_eq. exact Q.
Qed.

Lemma letter_in_set : forall c, is_identifier_char c -> ~ is_digit_of 10 c ->
  in_set c (str "abcdefghijklmnopqrstuvwxyzABCDEFGHIJKLMNOPQRSTUVWXYZ_") = true.
Proof.
  intros c C D. assert (digit_in 10 c = false) as N.
  { destruct (digit_in 10 c) eqn:Q; [|reflexivity]. destruct D. apply digit_in_iff, Q. }
  clear D. unfold is_identifier_char in C. revert C N.
  destruct c as [[] [] [] [] [] [] [] []]; intros C N; try reflexivity; exfalso;
    try (vm_compute in N; discriminate N);
    match type of C with context [code ?x] => let z := eval vm_compute in (code x) in change (code x) with z in C end;
    lia.
Qed.

Lemma category_word : forall c r, Forall is_identifier_char (c :: r) -> ~ is_digit_of 10 c ->
  (forall k q, keyword_spelling k = Some q -> c :: r <> str q) -> category (c :: r) = str "c-idn".
Proof.
  intros c r F D K. unfold category.
  assert (forall l, Forall (fun s => exists k, keyword_spelling k = Some s) l -> one_of (c :: r) l = false) as W.
  { intros l A. apply one_of_false. intros s I. rewrite Forall_forall in A. destruct (A s I) as (k & Q).
    exact (K k s Q). }
  inversion F as [|? ? C _]; subst.
  assert (forall l, Forall (fun s => match str s with x :: _ => ~ is_identifier_char x | [] => False end) l ->
    one_of (c :: r) l = false) as P.
  { intros l A. apply one_of_false. intros s I E. rewrite Forall_forall in A. specialize (A s I).
    rewrite <- E in A. exact (A C). }
  rewrite (W ["let"; "const"; "function"; "while"; "if"; "else"; "requires"; "return"; "break";
               "continue"; "static_assert"; "as"]).
  2: { repeat (apply Forall_cons; [match goal with |- exists k, keyword_spelling k = Some ?q =>
         first [exists tk_keyword_let; reflexivity|exists tk_keyword_const; reflexivity
           |exists tk_keyword_function; reflexivity|exists tk_keyword_while; reflexivity
           |exists tk_keyword_if; reflexivity|exists tk_keyword_else; reflexivity
           |exists tk_keyword_requires; reflexivity|exists tk_keyword_return; reflexivity
           |exists tk_keyword_break; reflexivity|exists tk_keyword_continue; reflexivity
           |exists tk_keyword_static_assert; reflexivity|exists tk_keyword_as; reflexivity] end|]).
       apply Forall_nil. }
  rewrite (W ["true"; "false"]).
  2: { constructor; [exists tk_keyword_true; reflexivity|].
       constructor; [exists tk_keyword_false; reflexivity|constructor]. }
  rewrite (W ["Uint"; "Int"; "Bool"; "Void"]).
  2: { constructor; [exists tk_keyword_uint; reflexivity|].
       constructor; [exists tk_keyword_int; reflexivity|].
       constructor; [exists tk_keyword_bool; reflexivity|].
       constructor; [exists tk_keyword_void; reflexivity|constructor]. }
  assert (forall x, ~ (97 <= code x <= 122 \/ 65 <= code x <= 90 \/ 48 <= code x <= 57 \/ code x = 95) ->
    ~ is_identifier_char x) as NI by (intros x H; exact H).
  rewrite !P; [|repeat (constructor; [apply NI; vm_compute; clear; intuition congruence|]); constructor..].
  rewrite is_decimal_digit_10.
  assert (digit_in 10 c = false) as ->.
  { destruct (digit_in 10 c) eqn:Q; [|reflexivity]. destruct D. apply digit_in_iff, Q. }
  rewrite letter_in_set by assumption. reflexivity.
Qed.

Lemma category_number : forall c r, is_digit_of 10 c -> category (c :: r) = str "c-int".
Proof.
  intros c r D. apply digit_in_iff in D. revert D.
  destruct c as [[] [] [] [] [] [] [] []]; intros D; vm_compute in D; try discriminate D; reflexivity.
Qed.

Lemma category_comment : forall r,
  category ("/"%char :: "/"%char :: r) = str "c-com" /\ category ("/"%char :: "*"%char :: r) = str "c-com".
Proof. intros r. split; reflexivity. Qed.

Lemma literal_category : forall s n k, match_integer_literal s = LM lm_ok n k ->
  category (firstn n s) = str "c-int".
Proof.
  intros s n k H. apply match_integer_literal_ok in H. destruct H as (p & ds & rest & -> & <- & L & _).
  rewrite firstn_app, Nat.sub_diag, firstn_all. cbn [firstn]. rewrite app_nil_r.
  inversion L; subst; try reflexivity. apply category_number. assumption.
Qed.

Lemma token_category : forall s n t, token_facts s n t ->
  category (firstn n s) = code_span_type_tag (categorize_token_type t).
Proof.
  intros s n t (R & N & L & O). unfold right_token in R.
  destruct (operator_spelling t) as [q|] eqn:Q.
  - destruct (long_token t) eqn:G.
    + specialize (L eq_refl). subst n. destruct R as [[[r R] _] _].
      destruct t; try discriminate G; injection Q as <-; subst s; cbn [str list_ascii_of_string app firstn].
      * destruct r as [|x r]; reflexivity.
      * destruct r as [|x [|y r]]; reflexivity.
    + destruct (O eq_refl) as [_ F]. rewrite (F q eq_refl).
      destruct t; try discriminate Q; try discriminate G; injection Q as <-; reflexivity.
  - destruct t; try discriminate Q;
      try (destruct R as (q & K & F & _); injection K as <-; rewrite F; reflexivity);
      try (eapply literal_category; exact R).
    + destruct R as (W & K & D). destruct W as (Ne & F & r & S).
      destruct (firstn n s) as [|c w] eqn:X; [congruence|]. apply category_word; [exact F| |exact K].
      apply (D c (w ++ r)). exact (proj1 S).
    + pose proof (string_literal_spec s) as Z. rewrite R in Z. destruct Z as (b & r & -> & _ & ->).
      rewrite Nat.add_comm. cbn [Nat.add firstn]. reflexivity.
    + pose proof (block_comment_spec s) as Z. rewrite R in Z. destruct Z as (b & r & -> & -> & _).
      rewrite Nat.add_comm. cbn [Nat.add firstn str list_ascii_of_string app]. apply category_comment.
    + destruct R as (b & R). pose proof (line_comment_spec s) as Z. rewrite R in Z. destruct b.
      * destruct Z as (p & r & -> & <- & W & _).
        rewrite firstn_app, Nat.sub_diag, firstn_all. cbn [firstn]. rewrite app_nil_r.
        apply starts_with_iff in W. destruct W as (u & ->). apply category_comment.
      * destruct Z as (W & -> & _). rewrite firstn_all. apply starts_with_iff in W. destruct W as (u & ->).
        apply category_comment.
Qed.

Lemma category_names : forall t, sound_name (code_span_type_tag t) = true
  /\ is_html_identifier (code_span_type_tag t) = true.
Proof. intros []; split; reflexivity. Qed.

(** * White space *)

Definition gap_text (a b : source_span) : text :=
  if sp_line a =? sp_line b then
    if sp_column a =? sp_column b then []
    else repeat " "%char (Z.to_nat (wrap64 (sp_column b - wrap64 (sp_column a + sp_length a))))
  else repeat ch_newline (Z.to_nat (wrap64 (sp_line b - sp_line a)))
       ++ (if sp_column b =? 0 then [] else repeat " "%char (Z.to_nat (sp_column b))).

Lemma source_gap_written : forall E a b w w', write_source_gap (E := E) a b fs_pre w = Ok w' ->
  written w' = written w ++ gap_text a b /\ w_state w' = w_state w /\ w_depth w' = w_depth w.
Proof.
  intros E a b w w' R. unfold write_source_gap, assert_then in R.
  destruct (negb (in_attributes w) && negb (in_initial w)); [|discriminate R].
  destruct ((sp_line a <? sp_line b) || (sp_line a =? sp_line b) && (sp_column a <=? sp_column b));
    [|discriminate R]. cbn [style_is_pre] in R. unfold gap_text.
  destruct (sp_line a =? sp_line b); cbn [negb] in R.
  - destruct (sp_column a =? sp_column b); cbn [negb] in R; injection R as <-.
    + rewrite app_nil_r. auto.
    + split; [apply written_emit|]. auto.
  - destruct (sp_column b =? 0); cbn [negb] in R; injection R as <-.
    + rewrite app_nil_r. split; [apply written_emit|]. auto.
    + split; [rewrite !written_emit, <- app_assoc; reflexivity|]. auto.
Qed.

Lemma since_more : forall s a b, count_newlines s <> 0%nat -> since_newline s a = since_newline s b.
Proof.
  induction s as [|c s IH]; intros a b H; [destruct (H eq_refl)|]. cbn [count_newlines since_newline] in *.
  destruct (char_eqb c ch_newline); [reflexivity|]. apply IH. exact H.
Qed.

Lemma since_none : forall s a, count_newlines s = 0%nat -> since_newline s a = (a + length s)%nat.
Proof.
  induction s as [|c s IH]; intros a H; [cbn; lia|]. cbn [count_newlines since_newline] in *.
  destruct (char_eqb c ch_newline); [lia|]. rewrite IH by lia. cbn. lia.
Qed.

Lemma since_le : forall s a, (since_newline s a <= a + length s)%nat.
Proof.
  induction s as [|c s IH]; intros a; [cbn; lia|]. cbn [since_newline length].
  destruct (char_eqb c ch_newline); [specialize (IH 0%nat)|specialize (IH (S a))]; lia.
Qed.

Lemma count_le : forall s, (count_newlines s <= length s)%nat.
Proof.
  induction s as [|c s IH]; [cbn; lia|]. cbn [count_newlines length]. destruct (char_eqb c ch_newline); lia.
Qed.

Lemma drop_line_ends_spec : forall g, Forall (fun c => c = " "%char \/ c = ch_newline) g ->
  drop_line_ends g = repeat ch_newline (count_newlines g) ++ repeat " "%char (since_newline g 0).
Proof.
  induction 1 as [|c g C _ IH]; [reflexivity|]. cbn [drop_line_ends]. rewrite IH.
  destruct C as [-> | ->].
  - change (count_newlines (" "%char :: g)) with (count_newlines g).
    change (since_newline (" "%char :: g) 0) with (since_newline g 1).
    destruct (count_newlines g) as [|k] eqn:K.
    + rewrite !since_none by exact K. cbn [repeat app Nat.add]. destruct (length g); reflexivity.
    + rewrite (since_more g 1 0) by (rewrite K; discriminate). reflexivity.
  - change (count_newlines (ch_newline :: g)) with (S (count_newlines g)).
    change (since_newline (ch_newline :: g) 0) with (since_newline g 0).
    change (Ascii.eqb ch_newline " ") with false. cbn [andb repeat app].
    destruct (repeat ch_newline (count_newlines g) ++ repeat " "%char (since_newline g 0)); reflexivity.
Qed.

Lemma gap_exact : forall code p t, Z.of_nat (length code) < 2 ^ 64 -> ~ In ch_tab code -> ~ In ch_cr code ->
  exact_position code (tok_pos p) -> exact_position code (tok_pos t) ->
  ~ In ch_newline (tok_text code p) -> (0 < tok_length p)%nat -> (tok_end p <= tok_begin t)%nat ->
  (tok_begin t <= length code)%nat -> Forall is_white (slice code (tok_end p) (tok_begin t)) ->
  gap_text (token_span p) (token_span t) = drop_line_ends (slice code (tok_end p) (tok_begin t)).
Proof.
  intros code p t LB NT NC [EL1 EC1] [EL2 EC2] NN LP O LE W.
  set (g := slice code (tok_end p) (tok_begin t)) in *.
  change (begin (tok_pos t)) with (tok_begin t) in *. change (begin (tok_pos p)) with (tok_begin p) in *.
  rewrite drop_line_ends_spec.
  2: { apply Forall_forall. intros c I. rewrite Forall_forall in W. pose proof (slice_incl _ _ _ _ I) as J.
       destruct (W c I) as [->|[->|[->| ->]]]; auto; contradiction. }
  assert (firstn (tok_begin t) code = firstn (tok_begin p) code ++ tok_text code p ++ g) as S.
  { unfold g, tok_text. rewrite (firstn_slice code (tok_end p) (tok_begin t)) by exact O.
    rewrite (firstn_slice code (tok_begin p) (tok_end p)) by (unfold tok_end; lia).
    rewrite <- app_assoc. reflexivity. }
  assert (length (tok_text code p) = tok_length p) as TL.
  { unfold tok_text. rewrite slice_length by lia. unfold tok_end. lia. }
  assert (length g = (tok_begin t - tok_end p)%nat) as GL by (apply slice_length; exact LE).
  assert (line (tok_pos t) = line (tok_pos p) + count_newlines g)%nat as L.
  { rewrite EL2, EL1, S, !count_newlines_app, (count_newlines_none _ NN). lia. }
  assert (column (tok_pos t) = since_newline g (column (tok_pos p) + tok_length p))%nat as C.
  { rewrite EC2, EC1, S, !since_newline_app, (since_newline_none (tok_text code p)) by exact NN.
    rewrite TL. reflexivity. }
  assert (column (tok_pos p) <= tok_begin p)%nat as CP.
  { rewrite EC1. eapply Nat.le_trans; [apply since_le|]. rewrite firstn_length. lia. }
  assert (line (tok_pos t) <= length code)%nat as LT.
  { rewrite EL2. eapply Nat.le_trans; [apply count_le|]. rewrite firstn_length. lia. }
  unfold gap_text, token_span. cbn [sp_line sp_column sp_begin sp_length].
  destruct (count_newlines g) as [|k] eqn:K.
  - rewrite L, Nat.add_0_r, Z.eqb_refl. rewrite since_none in C by exact K. rewrite C.
    assert (Z.of_nat (column (tok_pos p)) =? Z.of_nat (column (tok_pos p) + tok_length p + length g) = false)
      as -> by (apply Z.eqb_neq; lia).
    rewrite since_none by exact K. cbn [repeat app Nat.add]. f_equal. unfold wrap64.
    unfold tok_end in *.
    rewrite (Z.mod_small (Z.of_nat (column (tok_pos p)) + _)) by lia. rewrite Z.mod_small; lia.
  - assert (Z.of_nat (line (tok_pos p)) =? Z.of_nat (line (tok_pos t)) = false) as -> by (apply Z.eqb_neq; lia).
    rewrite C, (since_more g _ 0) by (rewrite K; discriminate). f_equal.
    + f_equal. unfold wrap64. rewrite Z.mod_small; lia.
    + destruct (Z.eqb_spec (Z.of_nat (since_newline g 0)) 0) as [Z0|Z0].
      * replace (since_newline g 0) with 0%nat by lia. reflexivity.
      * rewrite Nat2Z.id. reflexivity.
Qed.

Lemma drop_line_ends_nil : forall g, drop_line_ends g = [] <-> g = [].
Proof.
  intros [|c g]; [split; reflexivity|]. split; [|discriminate]. cbn [drop_line_ends].
  destruct (drop_line_ends g); [discriminate|]. destruct (_ && _); discriminate.
Qed.

(** * The loop over the tokens *)

Definition token_fine (code : text) (t : token) : Prop :=
  token_facts (skipn (tok_begin t) code) (tok_length t) (tok_type t) /\
  exact_position code (tok_pos t) /\ ~ In ch_newline (tok_text code t).

Definition starts (previous : option token) : nat :=
  match previous with None => 0 | Some p => tok_end p end.

Definition before (code : text) (previous : option token) : Prop :=
  match previous with None => True | Some p => token_fine code p /\ (0 < tok_length p)%nat end.

Lemma tok_text_eq : forall code t, tok_text code t = firstn (tok_length t) (skipn (tok_begin t) code).
Proof. intros code t. unfold tok_text, slice, tok_end. f_equal. lia. Qed.

Lemma pre_tagged : forall w w' ev, tagged fs_pre w w' ev ->
  w_state w' = ws_normal /\ exists t, written w' = written w ++ t /\ scan Data t = (Data, [ev]).
Proof.
  intros w w' ev (B & u & t & W & S & _ & _ & U). split; [exact B|]. exists t.
  rewrite (U eq_refl) in W. cbn [app block_end is_block_like] in W. rewrite app_nil_r in W. auto.
Qed.

Lemma tokens_written : forall E code ts previous w w', Z.of_nat (length code) < 2 ^ 64 ->
  ~ In ch_tab code -> ~ In ch_cr code -> Forall (token_fine code) ts -> tiles code (starts previous) ts ->
  before code previous -> tokens_to_html (E := E) code previous ts w = Ok w' ->
  w_depth w' = w_depth w /\ (ts = [] /\ w' = w \/ w_state w' = ws_normal) /\
  exists t, written w' = written w ++ t /\ scan Data t = (Data, exact_events code previous ts).
Proof.
  intros E code. induction ts as [|t ts IH]; intros previous w w' LB NT NC F T B R.
  { injection R as <-. split; [reflexivity|]. split; [left; auto|]. exists []. rewrite app_nil_r. auto. }
  inversion F as [|? ? [F1 [F2 F3]] F']; subst. inversion T as [|? ? ? T1 T2 T3 T4 T5]; subst.
  cbn [tokens_to_html] in R.
  assert (exists w1, match previous with
                | None => Ok w
                | Some p => write_source_gap (E := E) (token_span p) (token_span t) fs_pre w
                end = Ok w1 /\ w_depth w1 = w_depth w /\
          written w1 = written w ++ match previous with
                | None => []
                | Some p => drop_line_ends (slice code (tok_end p) (tok_begin t)) end /\
          Forall is_white match previous with
                | None => []
                | Some p => drop_line_ends (slice code (tok_end p) (tok_begin t)) end)
    as (w1 & R1 & D1 & W1 & P1).
  { destruct previous as [p|].
    - destruct (write_source_gap (token_span p) (token_span t) fs_pre w) as [w1| | |] eqn:R1;
        try discriminate R. exists w1. split; [reflexivity|].
      destruct (source_gap_written _ _ _ _ _ R1) as (W & S & D). split; [exact D|].
      destruct B as [(B1 & B2 & B3) B4].
      rewrite (gap_exact code p t) in W by (try assumption; unfold tok_end in *; cbn [starts] in *; lia).
      split; [exact W|].
      rewrite drop_line_ends_spec.
      + apply Forall_app. split; apply Forall_forall; intros c I; apply repeat_spec in I; subst c; unfold is_white; auto.
      + apply Forall_forall. intros c I. rewrite Forall_forall in T2. pose proof (slice_incl _ _ _ _ I) as J.
        destruct (T2 c I) as [->|[->|[->| ->]]]; auto; contradiction.
    - exists w. rewrite app_nil_r. auto. }
  rewrite R1 in R. cbn [bind] in R.
  set (tag := Tag_Properties (code_span_type_tag (categorize_token_type (tok_type t))) fs_pre) in R.
  destruct (category_names (categorize_token_type (tok_type t))) as [SN _].
  destruct (begin_tag tag w1) as [w2| | |] eqn:R2; try discriminate R. cbn [bind] in R.
  destruct (begin_tag_tagged tag w1 w2 R2 SN) as [G2 D2]. apply pre_tagged in G2.
  destruct G2 as (S2 & t2 & W2 & C2).
  unfold assert_then in R. destruct (Nat.leb (begin (tok_pos t)) (length code)); [|discriminate R].
  change (begin (tok_pos t)) with (tok_begin t) in R. rewrite <- tok_text_eq in R.
  destruct (inner_text_lays (E := E) (tok_text code t) fs_pre w2) as (n & w3 & R3 & L3 & S3).
  { unfold in_content. rewrite S2. reflexivity. }
  rewrite R3 in R. cbn [bind] in R.
  destruct (end_tag tag w3) as [w4| | |] eqn:R4; try discriminate R. cbn [bind] in R.
  destruct (end_tag_tagged tag w3 w4 R4 SN) as [G4 D4]. apply pre_tagged in G4.
  destruct G4 as (S4 & t4 & W4 & C4).
  destruct (IH (Some t) w4 w' LB NT NC F' T5 (conj (conj F1 (conj F2 F3)) T3) R) as (D5 & S5 & t5 & W5 & C5).
  split; [rewrite D5; pose proof (lays_depth _ _ _ L3); lia|].
  split; [right; destruct S5 as [[-> ->]|S5]; assumption|].
  eexists. split.
  { rewrite W5, W4, (lays_written _ _ _ L3), W2, W1, <- !app_assoc. reflexivity. }
  cbn [exact_events]. unfold inline_element. rewrite tok_text_eq, (token_category _ _ _ F1), <- tok_text_eq.
  set (gap := match previous with None => [] | Some p => _ end) in *.
  replace (match previous with None => [] | Some p => map E_char _ end) with (map E_char gap)
    by (unfold gap; destruct previous; reflexivity).
  clearbody gap. rewrite scan_app, scan_plain.
  2: { eapply Forall_impl; [|exact P1]. intros c C ->. destruct C as [C|[C|[C|C]]]; discriminate C. }
  rewrite scan_app, C2, scan_app, scan_plain by apply no_bracket_plain, (lays_plain _ _ _ L3).
  rewrite scan_app, C4, C5. unfold inner_text. cbn [style_is_pre]. rewrite escape_reference.
  unfold text_events. cbn [app]. rewrite <- !app_assoc. reflexivity.
Qed.

Lemma tokens_fine : forall code ts, regular_code code -> tokenize code = Some (Ok ts) ->
  Forall (token_fine code) ts /\ tiles code 0 ts.
Proof.
  intros code ts (LB & NT & NC & N) H. specialize (N ts H). split.
  - pose proof (loop_tokens _ _ _ _ H) as F1.
    pose proof (tokens_exact code ts H NT NC) as F2.
    assert (Forall (fun t => exact_position code (tok_pos t)) ts) as F3.
    { apply F2. eapply Forall_impl; [|exact N]. auto. }
    clear F2. rewrite Forall_forall in *. intros t I.
    split; [apply F1, I|]. split; [apply F3, I|apply N, I].
  - exact (loop_tiles _ _ _ _ H).
Qed.

Lemma events_alike : forall code ts previous f, tiles code (starts previous) ts ->
  ~ In ch_tab code -> ~ In ch_cr code ->
  alike f (exact_events code previous ts) (token_events code previous ts).
Proof.
  intros code. induction ts as [|t ts IH]; intros previous f T NT NC; [apply alike_refl|].
  inversion T as [|? ? ? T1 T2 T3 T4 T5]; subst. cbn [exact_events token_events].
  apply alike_app.
  - destruct previous as [p|]; [|apply alike_refl]. cbn [starts] in T1, T2.
    destruct (Nat.eqb_spec (tok_end p) (tok_begin t)) as [Q|Q].
    + unfold slice. rewrite Q, Nat.sub_diag. apply alike_refl.
    + apply blank_alike.
      * rewrite drop_line_ends_spec.
        -- apply white_app; apply white_repeat; reflexivity.
        -- apply Forall_forall. intros c I. rewrite Forall_forall in T2. pose proof (slice_incl _ _ _ _ I) as J.
           destruct (T2 c I) as [->|[->|[->| ->]]]; auto; contradiction.
      * intros N. apply (proj1 (drop_line_ends_nil _)) in N. apply (f_equal (@length ascii)) in N.
        rewrite slice_length in N by (unfold tok_end in *; lia). cbn in N. lia.
  - apply alike_app; [apply alike_refl|]. apply IH; assumption.
Qed.

Lemma tokens_adds : forall E code ts w w', regular_code code -> tokenize code = Some (Ok ts) ->
  in_content w = true -> tokens_to_html (E := E) code None ts w = Ok w' ->
  adds w w' (token_events code None ts) /\ w_depth w' = w_depth w.
Proof.
  intros E code ts w w' RC H C R. destruct (tokens_fine code ts RC H) as [F T].
  destruct RC as (LB & NT & NC & _).
  destruct (tokens_written E code ts None w w' LB NT NC F T Logic.I R) as (D & S & t & W & SC).
  split; [|exact D]. destruct S as [[-> ->]|S].
  { apply adds_refl, C. }
  split; [unfold in_content; rewrite S; reflexivity|]. exists t, (exact_events code None ts).
  split; [exact W|]. split; [exact SC|]. intros f _. split.
  - apply events_alike; assumption.
  - intros N. unfold in_new_line in N. rewrite S in N. discriminate N.
Qed.

(** * Code without spaces at the ends of lines *)

Lemma drop_nothing : forall g, (forall a b, g <> a ++ [" "%char; ch_newline] ++ b) -> drop_line_ends g = g.
Proof.
  induction g as [|c g IH]; intros H; [reflexivity|]. cbn [drop_line_ends].
  rewrite IH by (intros a b Q; apply (H (c :: a) b); rewrite Q; reflexivity).
  destruct g as [|x g]; [reflexivity|]. destruct (Ascii.eqb_spec c " "), (Ascii.eqb_spec x ch_newline); try reflexivity.
  subst. destruct (H [] g). reflexivity.
Qed.

Lemma characters_app : forall a b, characters (a ++ b) = characters a ++ characters b.
Proof. intros a b. unfold characters. apply flat_map_app. Qed.

Lemma characters_map : forall t, characters (map E_char t) = t.
Proof. induction t as [|c t IH]; [reflexivity|]. cbn. f_equal. exact IH. Qed.

Lemma slice_app : forall (s : text) i j k, (i <= j)%nat -> (j <= k)%nat -> slice s i k = slice s i j ++ slice s j k.
Proof.
  intros s i j k A B. unfold slice. replace (k - i)%nat with ((j - i) + (k - j))%nat by lia.
  assert (forall (l : text) n m, firstn (n + m) l = firstn n l ++ firstn m (skipn n l)) as P.
  { induction l as [|x l IH]; intros [|n] m; cbn; rewrite ?firstn_nil; try reflexivity. f_equal. apply IH. }
  rewrite P. f_equal. f_equal. assert (forall (l : text) n m, skipn n (skipn m l) = skipn (m + n) l) as Q.
  { induction l as [|x l IH]; intros n [|m]; cbn; rewrite ?skipn_nil; try reflexivity. apply IH. }
  rewrite Q. f_equal. lia.
Qed.

Lemma reference_app : forall a b, flat_map reference (a ++ b) = flat_map reference a ++ flat_map reference b.
Proof. intros a b. apply flat_map_app. Qed.

Lemma reference_white : forall g, Forall is_white g -> flat_map reference g = g.
Proof.
  induction 1 as [|c g C _ IH]; [reflexivity|]. cbn [flat_map]. rewrite IH.
  destruct C as [->|[->|[->| ->]]]; reflexivity.
Qed.

Lemma exact_characters : forall code ts p, tiles code (tok_end p) ts ->
  (forall a b, code <> a ++ [" "%char; ch_newline] ++ b) ->
  exists k, (tok_end p <= k <= length code)%nat /\ Forall is_white (slice code k (length code)) /\
    characters (exact_events code (Some p) ts) = flat_map reference (slice code (tok_end p) k).
Proof.
  intros code. induction ts as [|t ts IH]; intros p T N.
  { inversion T as [? L W|]; subst. exists (tok_end p). split; [lia|]. split; [exact W|].
    unfold slice. rewrite Nat.sub_diag. reflexivity. }
  inversion T as [|? ? ? T1 T2 T3 T4 T5]; subst. destruct (IH t T5 N) as (k & K1 & K2 & K3).
  exists k. assert (tok_begin t <= tok_end t)%nat by (unfold tok_end; lia).
  split; [lia|]. split; [exact K2|]. cbn [exact_events]. unfold inline_element.
  change (E_open ?n ?a ?b :: ?x ++ ?y) with ([E_open n a b] ++ x ++ y). rewrite !characters_app, K3.
  unfold text_events. rewrite !characters_map. cbn [characters flat_map app]. rewrite app_nil_r.
  rewrite (slice_app _ (tok_end p) (tok_begin t) k), (slice_app _ (tok_begin t) (tok_end t) k) by lia.
  rewrite !reference_app, drop_nothing.
  - rewrite (reference_white (slice code (tok_end p) (tok_begin t)) T2). reflexivity.
  - intros a b Q. assert (code = firstn (tok_begin t) code ++ skipn (tok_begin t) code) as X by (symmetry; apply firstn_skipn).
    rewrite (firstn_slice code (tok_end p) (tok_begin t) T1), Q in X.
    apply (N (firstn (tok_end p) code ++ a) (b ++ skipn (tok_begin t) code)). rewrite X at 1.
    rewrite <- !app_assoc. reflexivity.
Qed.

Theorem code_characters : forall code ts, tokenize code = Some (Ok ts) ->
  (forall a b, code <> a ++ [" "%char; ch_newline] ++ b) ->
  exists before body after, code = before ++ body ++ after /\ Forall is_white before /\ Forall is_white after /\
    characters (exact_events code None ts) = flat_map reference body.
Proof.
  intros code ts H N. pose proof (loop_tiles _ _ _ _ H : tiles code 0 ts) as T. destruct ts as [|t ts].
  - inversion T as [? L W|]; subst. exists code, [], []. rewrite !app_nil_r. split; [reflexivity|]. split.
    + unfold slice in W. rewrite Nat.sub_0_r in W. cbn [skipn] in W. rewrite firstn_all in W. exact W.
    + split; [constructor|reflexivity].
  - inversion T as [|? ? ? T1 T2 T3 T4 T5]; subst.
    destruct (exact_characters code ts t T5 N) as (k & K1 & K2 & K3).
    assert (tok_begin t <= tok_end t)%nat by (unfold tok_end; lia).
    exists (slice code 0 (tok_begin t)), (slice code (tok_begin t) k), (slice code k (length code)).
    split.
    + rewrite <- !slice_app by lia. unfold slice. rewrite Nat.sub_0_r. cbn [skipn]. symmetry. apply firstn_all.
    + split; [exact T2|]. split; [exact K2|]. cbn [exact_events]. unfold inline_element.
      change (E_open ?n ?a ?b :: ?x ++ ?y) with ([E_open n a b] ++ x ++ y). rewrite !characters_app, K3.
      unfold text_events. rewrite !characters_map. cbn [characters flat_map app]. rewrite app_nil_r.
      rewrite (slice_app _ (tok_begin t) (tok_end t) k) by lia. rewrite reference_app. reflexivity.
Qed.
