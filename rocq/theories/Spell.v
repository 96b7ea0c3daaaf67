(** Which tokens the tokenizer makes of a text that is put together from tokens and white space. *)
From Coq Require Import ZArith Ascii String List Bool Lia.
From Verif Require Import Prelude Text Literals LiteralsSpec LiteralsProofs Tables Tokenizer TokenizerSpec
  TokenizerProofs Parse.
Import ListNotations.
Open Scope string_scope.
Open Scope list_scope.
Open Scope nat_scope.

(** [s] is the texts of the tokens [ls] with white space between them, and at each token that is what the
    tokenizer matches. *)
Inductive spells : text -> list lexeme -> Prop :=
| spells_end : forall w, Forall is_white w -> spells w []
| spells_token : forall w t k s ls,
    Forall is_white w -> t <> [] -> (forall p, try_match p (t ++ s) = Ok (length t, k)) ->
    k <> tk_block_comment -> spells s ls -> spells (w ++ t ++ s) ((k, t) :: ls).

Definition white_b (c : ascii) : bool := in_set c [" "; ch_cr; ch_tab; ch_newline]%char.

Lemma prefix_length_app : forall (f : ascii -> bool) w s, Forall (fun c => f c = true) w ->
  match s with [] => True | c :: _ => f c = false end -> prefix_length f (w ++ s) = length w.
Proof.
  intros f w s W. induction W as [|c w C W IH]; intros S0; cbn.
  - destruct s as [|c s]; [reflexivity|]. cbn. rewrite S0. reflexivity.
  - rewrite C, IH by exact S0. reflexivity.
Qed.

Lemma white_forall : forall w, Forall is_white w -> Forall (fun c => white_b c = true) w.
Proof. intros w H. eapply Forall_impl; [|exact H]. intros c C. apply in_white. exact C. Qed.

Lemma matched_not_white : forall t s p r, t <> [] -> try_match p (t ++ s) = Ok r ->
  match t ++ s with [] => True | c :: _ => white_b c = false end.
Proof.
  intros [|c t] s p r T H; [congruence|]. cbn in *. unfold assert_then in H.
  destruct (is_space c) eqn:E; [discriminate H|]. rewrite is_space_white in E. exact E.
Qed.

Lemma advance_begin : forall chars p, begin (advance_over chars p) = begin p + length chars.
Proof. exact advance_over_begin. Qed.

Lemma spells_tokenize_loop : forall s ls, spells s ls -> forall source p fuel,
  skipn (begin p) source = s -> begin p <= length source -> length s < fuel ->
  exists ts, tokenize_loop fuel source p = Some (Ok ts) /\ lexemes source ts = ls.
Proof.
  induction 1 as [w W | w t k s ls W T M K Sp IH]; intros source p fuel E L F.
  - exists []. split; [|reflexivity]. destruct fuel as [|fuel]; [lia|]. cbn [tokenize_loop].
    enough (tokenize_step source p = Ok None) as -> by reflexivity. unfold tokenize_step.
    destruct (Nat.eqb (begin p) (length source)) eqn:B; [reflexivity|]. apply Nat.eqb_neq in B.
    unfold assert_then. assert (Nat.ltb (begin p) (length source) = true) as -> by (apply Nat.ltb_lt; lia).
    cbv zeta. rewrite E. rewrite <- (app_nil_r w) at 1.
    fold white_b. change (fun c => in_set c [" "%char; ch_cr; ch_tab; ch_newline]) with white_b.
    rewrite (prefix_length_app white_b w [] (white_forall _ W) Logic.I), Nat.eqb_refl. reflexivity.
  - destruct fuel as [|fuel]; [lia|]. cbn [tokenize_loop].
    assert (LS : length source = begin p + length w + length t + length s).
    { apply (f_equal (@length ascii)) in E. rewrite skipn_length, !app_length in E. lia. }
    assert (LT : 0 < length t) by (destruct t; [congruence | cbn; lia]).
    assert (E1 : skipn (begin p + length w) source = t ++ s).
    { rewrite <- skipn_skipn', E, skipn_app, Nat.sub_diag, skipn_all. reflexivity. }
    assert (E2 : skipn (begin p + length w + length t) source = s).
    { rewrite <- skipn_skipn', E1, skipn_app, Nat.sub_diag, skipn_all. reflexivity. }
    assert (exists p1, begin p1 = begin p + length w /\
      tokenize_step source p = Ok (Some (Token p1 (length t) k, to_right p1 (length t)))) as (p1 & B1 & Hs).
    { unfold tokenize_step. assert (Nat.eqb (begin p) (length source) = false) as -> by (apply Nat.eqb_neq; lia).
      unfold assert_then at 1. assert (Nat.ltb (begin p) (length source) = true) as -> by (apply Nat.ltb_lt; lia).
      cbv zeta. rewrite E. change (fun c => in_set c [" "%char; ch_cr; ch_tab; ch_newline]) with white_b.
      rewrite (prefix_length_app white_b w (t ++ s) (white_forall _ W) (matched_not_white _ _ _ _ T (M p))).
      assert (Nat.eqb (length w) (length (w ++ t ++ s)) = false) as ->
        by (apply Nat.eqb_neq; rewrite !app_length; lia).
      assert (exists p1, begin p1 = begin p + length w /\
        (if Nat.eqb (length w) 0 then Ok p else advance_position_by source p (length w)) = Ok p1) as (p1 & B1 & ->).
      { destruct (Nat.eqb (length w) 0) eqn:Z0.
        - apply Nat.eqb_eq in Z0. exists p. split; [lia | reflexivity].
        - exists (advance_over (firstn (length w) (skipn (begin p) source)) p). split.
          + rewrite advance_over_begin, firstn_length, skipn_length. lia.
          + unfold advance_position_by, assert_then.
            assert (Nat.ltb (begin p + length w) (length source) = true) as -> by (apply Nat.ltb_lt; lia).
            reflexivity. }
      exists p1. split; [exact B1|]. cbn [bind]. rewrite skipn_app, Nat.sub_diag, skipn_all. cbn [app skipn].
      rewrite M. cbn [bind].
      destruct (token_type_eqb k tk_block_comment) eqn:KB; [apply token_type_eqb_eq in KB; congruence|].
      reflexivity. }
    rewrite Hs.
    destruct (IH source (to_right p1 (length t)) fuel) as (ts & Hl & Hx).
    + cbn [to_right begin]. rewrite B1. exact E2.
    + cbn [to_right begin]. lia.
    + rewrite !app_length in F. lia.
    + rewrite Hl. eexists. split; [reflexivity|]. unfold lexemes in *. cbn [map tok_type tok_length tok_pos].
      rewrite Hx, B1, E1, firstn_app, Nat.sub_diag, firstn_all. cbn [firstn]. rewrite app_nil_r. reflexivity.
Qed.

Lemma spells_tokenize : forall s ls, spells s ls ->
  exists ts, tokenize s = Some (Ok ts) /\ lexemes s ts = ls.
Proof.
  intros s ls H. unfold tokenize. eapply spells_tokenize_loop; [exact H| reflexivity | cbn; lia | lia].
Qed.

(** ** White space *)

Lemma spells_white : forall c s ls, is_white c -> spells s ls -> spells (c :: s) ls.
Proof.
  intros c s ls C H. destruct H as [w W | w t k s ls W T M K H].
  - apply spells_end. constructor; assumption.
  - apply (spells_token (c :: w)); try assumption. constructor; assumption.
Qed.

Lemma spells_space : forall s ls, spells s ls -> spells (" "%char :: s) ls.
Proof. intros s ls. apply spells_white. left. reflexivity. Qed.
Lemma spells_newline : forall s ls, spells s ls -> spells (ch_newline :: s) ls.
Proof. intros s ls. apply spells_white. right; right; right. reflexivity. Qed.

Lemma spells_whites : forall w s ls, Forall is_white w -> spells s ls -> spells (w ++ s) ls.
Proof. intros w s ls W H. induction W; cbn; [exact H | apply spells_white; assumption]. Qed.

(** ** Operators and punctuation *)

Lemma spells_one : forall t k s ls, t <> [] -> (forall p, try_match p (t ++ s) = Ok (length t, k)) ->
  k <> tk_block_comment -> spells s ls -> spells (t ++ s) ((k, t) :: ls).
Proof. intros t k s ls T M K H. apply (spells_token []); auto. Qed.

(** Tokens of one character that no longer token starts with. *)
Definition single (k : token_type) : Prop :=
  In k [tk_left_parenthesis; tk_right_parenthesis; tk_left_brace; tk_right_brace; tk_plus; tk_multiplication;
    tk_remainder; tk_bitwise_not; tk_bitwise_xor; tk_dot; tk_colon; tk_comma; tk_at; tk_semicolon].

Lemma spells_single : forall k q s ls, single k -> operator_spelling k = Some q -> spells s ls ->
  spells (str q ++ s) ((k, str q) :: ls).
Proof.
  intros k q s ls C Q H. unfold single in C. cbn in C.
  repeat (destruct C as [<-|C]; [injection Q as <-; apply spells_one; [discriminate | reflexivity | discriminate | exact H]|]).
  destruct C.
Qed.

Lemma spells_minus : forall c s ls, c <> ">"%char -> spells (c :: s) ls ->
  spells (str "-" ++ c :: s) ((tk_minus, str "-") :: ls).
Proof.
  intros c s ls C H. apply spells_one; [discriminate | | discriminate | exact H].
  intros p. apply char_eqb_neq in C. cbn. rewrite C. reflexivity.
Qed.

(** An operator with a space after it. *)
Lemma spells_operator : forall k q s ls, operator_spelling k = Some q ->
  k <> tk_logical_and -> k <> tk_logical_not -> spells s ls ->
  spells (str q ++ " "%char :: s) ((k, str q) :: ls).
Proof.
  intros k q s ls Q N1 N2 H. apply spells_space in H.
  destruct k; try discriminate Q; try congruence; injection Q as <-;
    (apply spells_one; [discriminate | reflexivity | discriminate | exact H]).
Qed.

Lemma spells_and : forall s ls, spells s ls ->
  spells (str "&& " ++ s) ((tk_logical_and, str "&& ") :: ls).
Proof. intros s ls H. apply spells_one; [discriminate | reflexivity | discriminate | exact H]. Qed.

(** ** Words *)

(** What comes after a word or a number. *)
Definition stops (s : text) : Prop := match s with [] => True | c :: _ => ident_b c = false end.

(** Words: not empty, of identifier characters, and not starting with a digit. *)
Definition word_b (w : text) : bool :=
  match w with [] => false | c :: _ => negb (is_decimal_digit c) && forallb ident_b w end.

Lemma word_first : forall c, ident_b c = true -> is_decimal_digit c = false ->
  forall w, match_fixed_length_token (c :: w) = None /\ char_eqb c "/" = false /\ char_eqb c ch_quote = false
    /\ is_space c = false.
Proof. intros c. all_chars c; intros H D w; try discriminate H; try discriminate D; repeat split. Qed.

Lemma match_identifier_word : forall w s, word_b w = true -> stops s -> match_identifier (w ++ s) = length w.
Proof.
  intros [|c w] s W St; [discriminate W|]. unfold word_b in W. apply andb_prop in W. destruct W as [D W].
  change ((c :: w) ++ s) with (c :: (w ++ s)). unfold match_identifier.
  apply negb_true_iff in D. rewrite D.
  rewrite (prefix_length_ext _ ident_b) by (intros; apply in_identifier_characters).
  change (c :: (w ++ s)) with ((c :: w) ++ s). apply prefix_length_app.
  - apply Forall_forall. intros x X. rewrite forallb_forall in W. exact (W x X).
  - exact St.
Qed.

Lemma try_word : forall w s p, word_b w = true -> stops s ->
  try_match p (w ++ s) = Ok (length w, match keyword_by_name w with Some k => k | None => tk_identifier end).
Proof.
  intros w s p W St. pose proof (match_identifier_word _ _ W St) as M.
  destruct w as [|c w]; [discriminate W|]. unfold word_b in W. apply andb_prop in W. destruct W as [D W].
  apply negb_true_iff in D. cbn [forallb] in W. apply andb_prop in W. destruct W as [C W].
  destruct (word_first c C D (w ++ s)) as (F & Sl & Q & Sp).
  change ((c :: w) ++ s) with (c :: (w ++ s)) in *.
  unfold try_match. rewrite Sp, Sl, Q, D, F, M. cbn [negb assert_then].
  assert (firstn (length (c :: w)) (c :: w ++ s) = c :: w) as ->.
  { change (c :: w ++ s) with ((c :: w) ++ s). rewrite firstn_app, Nat.sub_diag, firstn_all. cbn. apply f_equal. apply app_nil_r. }
  cbn [Nat.eqb length negb]. destruct (keyword_by_name (c :: w)); reflexivity.
Qed.

Lemma keyword_not_block : forall w k, keyword_by_name w = Some k -> k <> tk_block_comment.
Proof.
  intros w k H. apply keyword_by_name_some in H. destruct H as (q & Q & _). intros ->. discriminate Q.
Qed.

Lemma spells_keyword : forall k q s ls, keyword_spelling k = Some q -> stops s -> spells s ls ->
  spells (str q ++ s) ((k, str q) :: ls).
Proof.
  intros k q s ls Q St H. apply spells_one; [| | |exact H].
  - destruct k; try discriminate Q; injection Q as <-; discriminate.
  - intros p. rewrite try_word; [|destruct k; try discriminate Q; injection Q as <-; reflexivity | exact St].
    rewrite (keyword_by_name_complete _ _ Q). reflexivity.
  - intros ->. discriminate Q.
Qed.

Lemma spells_identifier : forall w s ls, word_b w = true -> keyword_by_name w = None -> stops s -> spells s ls ->
  spells (w ++ s) ((tk_identifier, w) :: ls).
Proof.
  intros w s ls W K St H. apply spells_one; [| | |exact H].
  - intros ->. discriminate W.
  - intros p. rewrite try_word by assumption. rewrite K. reflexivity.
  - discriminate.
Qed.

(** ** Numbers *)

Lemma digits_match : forall n ds s, n = 2 \/ n = 8 \/ n = 10 \/ n = 16 ->
  Forall (is_digit_of (Z.of_nat n)) ds -> stops s -> match_digits (ds ++ s) n = length ds.
Proof.
  intros n ds s N D St. rewrite match_digits_eq by exact N. apply prefix_length_app.
  - eapply Forall_impl; [|exact D]. intros c C. apply digit_in_iff. exact C.
  - destruct s as [|c s]; [exact Logic.I|]. cbn in St.
    destruct N as [-> | [-> | [-> | ->]]]; all_chars c; try discriminate St; reflexivity.
Qed.

Lemma digit_of_10 : forall c, is_digit_of 10 c -> is_decimal_digit c = true.
Proof. intros c C. rewrite is_decimal_digit_10. apply digit_in_iff. exact C. Qed.

Lemma digit_smaller : forall a b c, (a <= b)%Z -> is_digit_of a c -> is_digit_of b c.
Proof. intros a b c L (d & D & X). exists d. split; [exact D | lia]. Qed.

Lemma match_literal_text : forall t x ds s, is_literal_text t x ds -> stops s ->
  match_integer_literal (x ++ s) = LM lm_ok (length x) t.
Proof.
  intros t x ds s H St.
  destruct H as [ds N D | ds N D | ds N D | | c ds N C D].
  - pose proof (digits_match 2 ds s ltac:(tauto) D St) as M. unfold match_integer_literal.
    change (str "0b" ++ ds) with ("0"%char :: "b"%char :: ds). cbn [app].
    change (starts_with ("0"%char :: "b"%char :: ds ++ s) "0b") with true.
    change (is_decimal_digit "0") with true. cbn [negb skipn].
    rewrite M. destruct ds as [|d ds]; [congruence|]. cbn [length Nat.eqb]. f_equal. cbn. lia.
  - pose proof (digits_match 16 ds s ltac:(tauto) D St) as M. unfold match_integer_literal.
    change (str "0x" ++ ds) with ("0"%char :: "x"%char :: ds). cbn [app].
    change (starts_with ("0"%char :: "x"%char :: ds ++ s) "0b") with false.
    change (starts_with ("0"%char :: "x"%char :: ds ++ s) "0x") with true.
    change (is_decimal_digit "0") with true. cbn [negb skipn].
    rewrite M. destruct ds as [|d ds]; [congruence|]. cbn [length Nat.eqb]. f_equal. cbn. lia.
  - destruct ds as [|d ds]; [congruence|].
    assert (D1 : Forall (is_digit_of 8) ("0"%char :: d :: ds)).
    { constructor; [|exact D]. exists 0%Z. split; [reflexivity | lia]. }
    pose proof (digits_match 8 _ s ltac:(tauto) D1 St) as M. unfold match_integer_literal. cbn [app] in *.
    assert (is_digit_of 8 d) as D0 by (inversion D; assumption).
    assert (starts_with ("0"%char :: d :: ds ++ s) "0b" = false /\ starts_with ("0"%char :: d :: ds ++ s) "0x" = false)
      as [-> ->].
    { apply digit_in_iff in D0. clear - D0. all_chars d; try discriminate D0; split; reflexivity. }
    change (is_decimal_digit "0") with true. change (char_eqb "0" "0") with true. cbn [negb].
    rewrite M. reflexivity.
  - assert (D1 : Forall (is_digit_of 8) ["0"%char]).
    { constructor; [|constructor]. exists 0%Z. split; [reflexivity | lia]. }
    pose proof (digits_match 8 _ s ltac:(tauto) D1 St) as M. unfold match_integer_literal. cbn [app] in *.
    assert (starts_with ("0"%char :: s) "0b" = false /\ starts_with ("0"%char :: s) "0x" = false) as [-> ->].
    { destruct s as [|d s]; [split; reflexivity|]. cbn in St. clear - St. all_chars d; try discriminate St; split; reflexivity. }
    change (is_decimal_digit "0") with true. change (char_eqb "0" "0") with true. cbn [negb].
    rewrite M. reflexivity.
  - pose proof (digits_match 10 (c :: ds) s ltac:(tauto) (Forall_cons _ C D) St) as M.
    unfold match_integer_literal. cbn [app] in *. rewrite (digit_of_10 _ C). cbn [negb].
    assert (starts_with (c :: ds ++ s) "0b" = false /\ starts_with (c :: ds ++ s) "0x" = false) as [-> ->].
    { clear - N. all_chars c; try (split; reflexivity). congruence. }
    apply char_eqb_neq in N. rewrite N, M. reflexivity.
Qed.

Lemma literal_head : forall t x ds, is_literal_text t x ds -> exists c r, x = c :: r /\ is_decimal_digit c = true.
Proof.
  intros t x ds [ds' N D | ds' N D | ds' N D | | c ds' N C D]; cbn [str list_ascii_of_string app]; do 2 eexists;
    (split; [reflexivity|]); try reflexivity. apply digit_of_10. exact C.
Qed.

Lemma digit_head : forall c, is_decimal_digit c = true ->
  is_space c = false /\ char_eqb c "/" = false /\ char_eqb c ch_quote = false.
Proof. intros c. all_chars c; intros D; try discriminate D; repeat split. Qed.

Lemma spells_literal : forall t x ds s ls, is_literal_text t x ds -> stops s -> spells s ls ->
  spells (x ++ s) ((token_type_of t, x) :: ls).
Proof.
  intros t x ds s ls H St Sp. pose proof (match_literal_text _ _ _ _ H St) as M.
  destruct (literal_head _ _ _ H) as (c & r & -> & D). destruct (digit_head c D) as (W & Sl & Q).
  apply spells_one; [discriminate | | destruct t; discriminate | exact Sp].
  intros p. change ((c :: r) ++ s) with (c :: r ++ s) in *. unfold try_match. rewrite W, Sl, Q, D, M.
  cbn [negb assert_then lm_status lm_length lm_type].
  assert (nth_error (c :: r ++ s) (length (c :: r)) = nth_error s 0) as ->.
  { change (c :: r ++ s) with ((c :: r) ++ s). rewrite nth_error_app2 by lia. rewrite Nat.sub_diag. reflexivity. }
  destruct s as [|d s]; cbn [nth_error].
  - reflexivity.
  - rewrite in_identifier_characters. cbn in St. rewrite St. reflexivity.
Qed.
