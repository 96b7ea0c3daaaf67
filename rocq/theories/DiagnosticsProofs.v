(** What diagnostics show, and where. *)
From Coq Require Import ZArith Ascii String List Bool Lia.
From Verif Require Import Prelude Text Tables Literals LiteralsSpec LiteralsProofs Decimal Tokenizer
  TokenizerSpec TokenizerProofs Parse ParseTotal Diagnostics DiagnosticsSpec.
From Verif Require DecimalSpec DecimalProofs.
Import ListNotations.
Open Scope string_scope.
Open Scope list_scope.
Open Scope nat_scope.
Local Arguments char_eqb : simpl never.

(** * Colours *)

Lemma shows_refl : forall t, shows t t.
Proof. induction t; constructor; assumption. Qed.

Lemma shows_app : forall a b t u, shows a t -> shows b u -> shows (a ++ b) (t ++ u).
Proof.
  intros a b t u A B. induction A as [|c a t A IH|e a t E A IH]; cbn [app]; [exact B|constructor; exact IH|].
  rewrite <- app_assoc. constructor; assumption.
Qed.

Lemma shows_escape : forall e, escape e -> shows e [].
Proof. intros e E. rewrite <- (app_nil_r e). constructor; [exact E|constructor]. Qed.

Ltac is_escape p := exists (str p); split; [reflexivity|];
  repeat (constructor; [first [left; vm_compute; discriminate | right; reflexivity]|]); constructor.

Lemma escape_black : escape ansi_black. Proof. is_escape "30". Qed.
Lemma escape_reset : escape ansi_reset. Proof. is_escape "0". Qed.
Lemma escape_h_black : escape ansi_h_black. Proof. is_escape "0;90". Qed.
Lemma escape_h_red : escape ansi_h_red. Proof. is_escape "0;91". Qed.
Lemma escape_h_green : escape ansi_h_green. Proof. is_escape "0;92". Qed.
Lemma escape_h_yellow : escape ansi_h_yellow. Proof. is_escape "0;93". Qed.
Lemma escape_h_blue : escape ansi_h_blue. Proof. is_escape "0;94". Qed.
Lemma escape_h_magenta : escape ansi_h_magenta. Proof. is_escape "0;95". Qed.
Lemma escape_h_cyan : escape ansi_h_cyan. Proof. is_escape "0;96". Qed.
Lemma escape_h_white : escape ansi_h_white. Proof. is_escape "0;97". Qed.

Lemma shows_color : forall colors e, escape e -> shows (color colors e) [].
Proof. intros [] e E; [apply shows_escape; exact E|constructor]. Qed.

Ltac show :=
  repeat match goal with
  | |- shows (color _ _ ++ _) _ => eapply (shows_app _ _ []);
      [apply shows_color; first [apply escape_black|apply escape_reset|apply escape_h_green|apply escape_h_yellow]|]
  | |- shows (color _ _) [] =>
      apply shows_color; first [apply escape_black|apply escape_reset|apply escape_h_green|apply escape_h_yellow]
  end.

(** * Numbers *)

Lemma number_denotes : forall n, (Z.of_nat n < 10 ^ 20)%Z -> DecimalSpec.denotes (number n) (Z.of_nat n).
Proof. intros n N. apply DecimalProofs.std_denotes. lia. Qed.

Lemma number_short : forall n, (Z.of_nat n < 100000)%Z -> length (number n) <= 5.
Proof.
  intros n N. unfold number, std_to_string.
  assert (B : (0 <= Z.of_nat n < 10 ^ Z.of_nat 20)%Z)
    by (change (10 ^ Z.of_nat 20)%Z with 100000000000000000000%Z; lia).
  destruct (DecimalProofs.digits_facts 20 (Z.of_nat n) B) as (_ & _ & (k & K & KB) & _); [lia|].
  rewrite K. destruct KB as [->|KB]; [lia|]. destruct (le_lt_dec k 4) as [L|L]; [lia|].
  assert (10 ^ 5 <= 10 ^ Z.of_nat k)%Z by (apply Z.pow_le_mono_r; lia).
  change (10 ^ 5)%Z with 100000%Z in H. lia.
Qed.

(** * Lines *)

Lemma last_newline_app : forall a b, last_newline (a ++ b) =
  match last_newline b with Some i => Some (length a + i) | None => last_newline a end.
Proof.
  induction a as [|c a IH]; intros b; cbn [app last_newline length].
  - destruct (last_newline b); reflexivity.
  - rewrite IH. destruct (last_newline b) as [i|]; [f_equal; lia|reflexivity].
Qed.

Lemma last_newline_none : forall a, ~ In ch_newline a -> last_newline a = None.
Proof.
  induction a as [|c a IH]; intros H; [reflexivity|]. cbn [last_newline].
  rewrite IH by (intros X; apply H; right; exact X).
  assert (char_eqb c ch_newline = false) as -> by (apply char_eqb_neq; intros ->; apply H; left; reflexivity).
  reflexivity.
Qed.

Lemma split_line : forall a, exists before pre, a = before ++ pre /\
  (before = [] \/ exists b, before = b ++ [ch_newline]) /\ ~ In ch_newline pre.
Proof.
  induction a as [|c a (before & pre & E & B & N)] using rev_ind.
  - exists [], []. repeat split; [left; reflexivity|intros []].
  - destruct (Ascii.eqb_spec c ch_newline) as [->|Hc].
    + exists (a ++ [ch_newline]), []. rewrite app_nil_r. repeat split; [right; exists a; reflexivity|intros []].
    + exists before, (pre ++ [c]). rewrite E, <- app_assoc. repeat split; [exact B|].
      intros H. apply in_app_or in H. destruct H as [H|[H|[]]]; congruence.
Qed.

Lemma split_rest : forall b, exists post after, b = post ++ after /\ ~ In ch_newline post /\
  (after = [] \/ exists a, after = ch_newline :: a) /\
  match first_newline b with Some i => i = length post | None => after = [] end.
Proof.
  induction b as [|c b (post & after & E & N & A & F)].
  - exists [], []. repeat split; [intros []|left; reflexivity].
  - cbn [first_newline]. destruct (char_eqb c ch_newline) eqn:Ec.
    + apply char_eqb_eq in Ec. subst c. exists [], (ch_newline :: b).
      repeat split; [intros []|right; exists b; reflexivity].
    + exists (c :: post), after. rewrite E. split; [reflexivity|]. split.
      { intros [->|H]; [rewrite char_eqb_refl in Ec; discriminate Ec|exact (N H)]. }
      split; [exact A|]. rewrite E in F. destruct (first_newline (post ++ after)); cbn; [lia|exact F].
Qed.

Lemma before_no_newline : forall before pre, ~ In ch_newline pre ->
  (before = [] \/ exists b, before = b ++ [ch_newline]) ->
  since_newline (before ++ pre) 0 = length pre.
Proof.
  intros before pre N [->|[b ->]].
  - cbn [app]. rewrite since_newline_none by exact N. reflexivity.
  - rewrite !since_newline_app. cbn [since_newline]. rewrite char_eqb_refl.
    rewrite since_newline_none by exact N. reflexivity.
Qed.

Lemma firstn_app_length : forall {A} (a b : list A), firstn (length a) (a ++ b) = a.
Proof. intros A a b. rewrite firstn_app, Nat.sub_diag, firstn_all. cbn. apply app_nil_r. Qed.
Lemma skipn_app_length : forall {A} (a b : list A), skipn (length a) (a ++ b) = b.
Proof. intros A a b. rewrite skipn_app, Nat.sub_diag, skipn_all. reflexivity. Qed.

(** The line of a character that is not a line feed. *)
Lemma find_line_ok : forall E source i c, nth_error source i = Some c -> c <> ch_newline ->
  exists l from, @find_line E source i = Ok l /\ on_line source i l from /\
    since_newline (firstn i source) 0 = i - from.
Proof.
  intros E source i c H C. apply nth_error_split in H. destruct H as (a & b & -> & La). subst i.
  destruct (split_line a) as (before & pre & -> & Bb & Np).
  destruct (split_rest b) as (post & after & -> & Nq & Aq & F).
  exists (pre ++ c :: post), (length before). unfold find_line, assert_then.
  assert (Nat.ltb (length (before ++ pre)) (length ((before ++ pre) ++ c :: post ++ after)) = true) as ->
    by (apply Nat.ltb_lt; rewrite !app_length; cbn [length]; lia).
  assert (F1 : firstn (length (before ++ pre) + 1) ((before ++ pre) ++ c :: post ++ after)
               = before ++ (pre ++ [c])).
  { replace ((before ++ pre) ++ c :: post ++ after) with ((before ++ pre ++ [c]) ++ post ++ after)
      by (rewrite <- !app_assoc; reflexivity).
    replace (length (before ++ pre) + 1) with (length (before ++ pre ++ [c]))
      by (rewrite !app_length; cbn [length]; lia).
    apply firstn_app_length. }
  assert (S1 : skipn (length (before ++ pre) + 1) ((before ++ pre) ++ c :: post ++ after) = post ++ after).
  { replace ((before ++ pre) ++ c :: post ++ after) with ((before ++ pre ++ [c]) ++ post ++ after)
      by (rewrite <- !app_assoc; reflexivity).
    replace (length (before ++ pre) + 1) with (length (before ++ pre ++ [c]))
      by (rewrite !app_length; cbn [length]; lia).
    apply skipn_app_length. }
  rewrite F1, S1.
  assert (L1 : match last_newline (before ++ (pre ++ [c])) with Some i => i + 1 | None => 0 end = length before).
  { rewrite last_newline_app, (last_newline_none (pre ++ [c])).
    - destruct Bb as [->|[b' ->]]; [reflexivity|]. rewrite last_newline_app. cbn [last_newline].
      rewrite char_eqb_refl. rewrite app_length. cbn [length]. lia.
    - intros X. apply in_app_or in X. destruct X as [X|[X|[]]]; congruence. }
  rewrite L1.
  assert (L2 : match first_newline (post ++ after) with
               | Some i => length (before ++ pre) + 1 + i
               | None => length ((before ++ pre) ++ c :: post ++ after) end
             = length before + length (pre ++ c :: post)).
  { destruct (first_newline (post ++ after)); [rewrite F, !app_length; cbn [length]; lia|].
    rewrite F, app_nil_r, !app_length. cbn [length]. lia. }
  rewrite L2. split; [|split].
  - replace ((before ++ pre) ++ c :: post ++ after) with (before ++ (pre ++ c :: post) ++ after)
      by (rewrite <- !app_assoc; reflexivity).
    rewrite skipn_app_length.
    replace (length before + _ - length before) with (length (pre ++ c :: post)) by lia.
    rewrite firstn_app_length. reflexivity.
  - exists before, after. rewrite <- !app_assoc. cbn [app]. split; [reflexivity|]. split; [reflexivity|].
    split; [exact Bb|]. split.
    { intros X. apply in_app_or in X. destruct X as [X|[X|X]]; [exact (Np X)|congruence|exact (Nq X)]. }
    split; [exact Aq|]. rewrite !app_length. cbn [length]. lia.
  - rewrite firstn_app_length, before_no_newline by assumption. rewrite app_length. lia.
Qed.

Lemma count_newlines_firstn : forall i source, count_newlines (firstn i source) <= count_newlines source.
Proof.
  intros i source. rewrite <- (firstn_skipn i source) at 2. rewrite count_newlines_app. lia.
Qed.

Lemma count_newlines_length : forall s, count_newlines s <= length s.
Proof. induction s as [|c s IH]; cbn; [lia|]. destruct (char_eqb c ch_newline); lia. Qed.

Lemma repeat_spaces : forall n, Forall (eq " "%char) (repeat " "%char n).
Proof. induction n; constructor; [reflexivity|assumption]. Qed.

(** * The two parts of a diagnostic *)

(** A place of a source that is shown right. *)
Definition shown_place (source : text) (p : position) : Prop :=
  exact_position source p /\ exists c, nth_error source (begin p) = Some c /\ c <> ch_newline.

Lemma affected_marked : forall E source p colors, few_lines source -> shown_place source p ->
  exists out mark, @print_affected_line E source p colors = Ok out /\ shows out mark /\
    marked source (begin p) mark.
Proof.
  intros E source p colors F ((EL & EC) & c & H & C).
  destruct (find_line_ok E _ _ _ H C) as (l & from & L & O & S0).
  unfold print_affected_line. rewrite L. cbn [bind]. eexists. eexists. split; [reflexivity|].
  pose proof (count_newlines_firstn (begin p) source) as CF. unfold few_lines in F.
  assert (B : (Z.of_nat (line p + 1) < 100000)%Z) by lia.
  pose proof (number_short _ B) as NS. split.
  - show. apply (shows_app _ _ (padded 5 (number (line p + 1)))); [apply shows_refl|].
    apply (shows_app _ _ separator); [apply shows_refl|]. show.
    apply (shows_app _ _ l); [apply shows_refl|]. apply (shows_app _ _ [ch_newline]); [apply shows_refl|].
    apply (shows_app _ _ (padded 5 [])); [apply shows_refl|].
    apply (shows_app _ _ separator); [apply shows_refl|].
    apply (shows_app _ _ (repeat " "%char (column p))); [apply shows_refl|]. show.
    apply (shows_app _ _ (str "^")); [apply shows_refl|].
    apply (shows_app _ _ [ch_newline]); [apply shows_refl|]. apply shows_color, escape_reset.
  - exists (repeat " "%char (5 - length (number (line p + 1)))), (number (line p + 1)), l, from,
      (repeat " "%char 5), (repeat " "%char (column p)).
    split. { unfold padded, separator. rewrite <- !app_assoc. reflexivity. }
    split. { unfold line_number. rewrite <- EL. replace (Z.of_nat (line p) + 1)%Z with (Z.of_nat (line p + 1)) by lia.
             apply number_denotes. lia. }
    split; [exact O|]. split.
    { apply Forall_app. split; [apply repeat_spaces|]. apply Forall_app. split; apply repeat_spaces. }
    split. { rewrite app_length, !repeat_length. lia. }
    rewrite repeat_length, EC. exact S0.
Qed.

Lemma in_memory_column : forall source i, in_memory source -> i < length source ->
  (Z.of_nat (since_newline (firstn i source) 0 + 1) < 10 ^ 20)%Z.
Proof.
  intros source i M I0.
  assert (H : forall s acc, since_newline s acc <= acc + length s).
  { induction s as [|x s IH]; intros acc; cbn; [lia|]. destruct (char_eqb x ch_newline); [specialize (IH 0)|specialize (IH (S acc))]; lia. }
  specialize (H (firstn i source) 0). rewrite firstn_length in H. unfold in_memory in M.
  change (10 ^ 20)%Z with 100000000000000000000%Z. change (2 ^ 64)%Z with 18446744073709551616%Z in M. lia.
Qed.

Lemma head_ok : forall file source p colors prefix kind message,
  in_memory source -> shown_place source p -> shows prefix (str kind ++ str ": ") ->
  exists head, shows (print_file_position file p colors ++ str ": " ++ prefix ++ message ++ [ch_newline]) head
    /\ headed file source (begin p) kind message head.
Proof.
  intros file source p colors prefix kind message M ((EL & EC) & c & H & C) P.
  assert (I0 : begin p < length source) by (apply nth_error_Some; congruence).
  destruct (find_line_ok unit _ _ _ H C) as (l & from & L & O & S0).
  pose proof (in_memory_column _ _ M I0) as CB.
  pose proof (count_newlines_firstn (begin p) source) as CF. pose proof (count_newlines_length source) as CL.
  unfold in_memory in M.
  exists (file ++ str ":" ++ number (line p + 1) ++ str ":" ++ number (column p + 1) ++ str ": "
          ++ str kind ++ str ": " ++ message ++ [ch_newline]). split.
  - unfold print_file_position. rewrite <- !app_assoc. show.
    apply (shows_app _ _ file); [apply shows_refl|]. apply (shows_app _ _ (str ":")); [apply shows_refl|].
    apply (shows_app _ _ (number (line p + 1))); [apply shows_refl|].
    apply (shows_app _ _ (str ":")); [apply shows_refl|].
    apply (shows_app _ _ (number (column p + 1))); [apply shows_refl|]. show.
    apply (shows_app _ _ (str ": ")); [apply shows_refl|].
    rewrite !app_assoc, <- (app_assoc _ message), <- (app_assoc (str kind ++ str ": ")).
    apply shows_app; [exact P|apply shows_refl].
  - exists (number (line p + 1)), (number (column p + 1)).
    split. { unfold line_number. rewrite <- EL.
             replace (Z.of_nat (line p) + 1)%Z with (Z.of_nat (line p + 1)) by lia.
             apply number_denotes. change (10 ^ 20)%Z with 100000000000000000000%Z.
             change (2 ^ 64)%Z with 18446744073709551616%Z in M. lia. }
    split; [|reflexivity]. exists l, from. split; [exact O|]. rewrite <- S0, <- EC.
    replace (Z.of_nat (column p) + 1)%Z with (Z.of_nat (column p + 1)) by lia.
    apply number_denotes. rewrite EC. exact CB.
Qed.

Lemma shows_error_prefix : shows error_prefix (str "error" ++ str ": ").
Proof.
  apply (shows_app ansi_h_red (str "error: " ++ ansi_reset) [] (str "error: " ++ []));
    [apply shows_escape, escape_h_red|].
  apply shows_app; [apply shows_refl|apply shows_escape, escape_reset].
Qed.

Lemma shows_note_prefix : shows note_prefix (str "note" ++ str ": ").
Proof.
  apply (shows_app ansi_h_white (str "note: " ++ ansi_reset) [] (str "note: " ++ []));
    [apply shows_escape, escape_h_white|].
  apply shows_app; [apply shows_refl|apply shows_escape, escape_reset].
Qed.

(** One message and the line. *)
Lemma diagnose_one : forall E file source p colors message,
  few_lines source -> in_memory source -> shown_place source p ->
  exists affected, @print_affected_line E source p colors = Ok affected /\
    diagnosed file source (begin p) [("error"%string, message)]
      (print_file_position file p colors ++ str ": " ++ error_prefix ++ message ++ [ch_newline] ++ affected).
Proof.
  intros E file source p colors message F M P.
  destruct (affected_marked E source p colors F P) as (out & mark & A & SA & MA).
  destruct (head_ok file source p colors _ _ message M P shows_error_prefix) as (head & SH & HH).
  exists out. split; [exact A|]. exists [head], mark. split; [|split; [exact MA|]].
  - cbn [concat]. rewrite app_nil_r.
    replace (print_file_position file p colors ++ _)
      with ((print_file_position file p colors ++ str ": " ++ error_prefix ++ message ++ [ch_newline]) ++ out)
      by (rewrite <- !app_assoc; reflexivity).
    apply shows_app; assumption.
  - constructor; [exact HH|constructor].
Qed.

(** * Errors of the tokenizer *)

Lemma string_unterminated : forall s n, match_string_literal s = Some (TM n false) ->
  exists r, s = ch_quote :: r /\ forall body r', string_body body -> r <> body ++ ch_quote :: r'.
Proof.
  intros s n H. pose proof (string_literal_spec s) as S0. rewrite H in S0. destruct S0 as (_ & (r & ->) & N).
  exists r. split; [reflexivity|]. intros body r' B ->. exact (N body r' B eq_refl).
Qed.

(** What an error of [try_match] means for the rest of the source. *)
Lemma try_match_trouble : forall pre p s e, try_match p s = Err e -> begin p = length pre ->
  trouble (pre ++ s) (te_code e) (begin (te_pos e)) /\
  exists k, te_pos e = to_right p k /\ k <= length s /\ ~ In ch_newline (firstn k s) /\
    (te_code e <> no_digits_following_integer_prefix ->
     exists c, nth_error s k = Some c /\ c <> ch_newline).
Proof.
  intros pre p s e H Hp.
  assert (R0 : forall q, to_right q 0 = q) by (intros [a b c]; unfold to_right; cbn; f_equal; lia).
  assert (Hres : forall n t, tokenize_result n t <> Err e).
  { intros n t Hx. unfold tokenize_result, assert_then in Hx. destruct (negb _); discriminate. }
  destruct s as [|c s']; [discriminate|]. unfold try_match, assert_then in H.
  set (s := c :: s') in *.
  assert (SK : skipn (begin p) (pre ++ s) = s) by (rewrite Hp; apply skipn_app_length).
  destruct (is_space c) eqn:Esp; cbn [negb] in H; [discriminate|].
  assert (W : ~ is_white c).
  { intros X. apply in_white in X. rewrite is_space_white in Esp. congruence. }
  assert (NL : c <> ch_newline) by (intros ->; apply W; right; right; right; reflexivity).
  assert (K0 : exists k, p = to_right p k /\ k <= length s /\ ~ In ch_newline (firstn k s) /\
     exists c, nth_error s k = Some c /\ c <> ch_newline).
  { exists 0. rewrite R0. split; [reflexivity|]. split; [lia|]. split; [intros []|]. exists c. split; [reflexivity|exact NL]. }
  destruct (char_eqb c "/") eqn:Esl.
  { apply char_eqb_eq in Esl.
    destruct (match_line_comment s); [exfalso; eapply Hres; exact H|].
    destruct (match_block_comment s) as [m|] eqn:Eb.
    { destruct m as [n []]; cbn [tm_terminated negb] in H; [exfalso; eapply Hres; exact H|].
      injection H as <-. cbn [te_code te_pos]. split.
      - pose proof (block_comment_spec s) as B. rewrite Eb in B. destruct B as (r & E1 & _ & N).
        cbn [trouble]. rewrite SK. exists r. split; assumption.
      - destruct K0 as (k & A & B & C & D). exists k. repeat split; try assumption. intros _. exact D. }
    destruct (match_fixed_length_token s) eqn:Ef; [exfalso; eapply Hres; exact H|].
    exfalso. subst c. discriminate Ef. }
  destruct (char_eqb c ch_quote) eqn:Eq.
  { apply char_eqb_eq in Eq.
    destruct (match_string_literal s) as [m|] eqn:Es.
    - destruct m as [n []]; cbn [tm_terminated negb] in H; [exfalso; eapply Hres; exact H|].
      injection H as <-. cbn [te_code te_pos]. split.
      + cbn [trouble]. rewrite SK. eapply string_unterminated. exact Es.
      + destruct K0 as (k & A & B & C & D). exists k. repeat split; try assumption. intros _. exact D.
    - exfalso. pose proof (string_literal_spec s) as S0. rewrite Es in S0. apply (S0 s'). subst c. reflexivity. }
  apply char_eqb_neq in Eq.
  destruct (is_decimal_digit c) eqn:Ed.
  { destruct (match_integer_literal s) as [st len lt] eqn:Ei. cbn [lm_status lm_length lm_type] in H.
    destruct st.
    - pose proof (match_integer_no_newline _ _ _ Ei) as NN.
      apply match_integer_literal_ok in Ei. destruct Ei as (q & ds & rest & E1 & E2 & Ht & _).
      destruct (nth_error s len) as [x|] eqn:En; [|exfalso; eapply Hres; exact H].
      destruct (in_set x identifier_characters) eqn:Ein; [|exfalso; eapply Hres; exact H].
      injection H as <-. cbn [te_code te_pos]. rewrite E1 in En. rewrite <- E2 in En.
      rewrite nth_error_app2, Nat.sub_diag in En by lia. destruct rest as [|y rest]; [discriminate|].
      injection En as ->. rewrite in_identifier_characters in Ein.
      assert (X : is_identifier_char x) by (apply ident_b_iff; exact Ein). split.
      + exists pre, lt, q, ds, x, rest. rewrite E1. split; [reflexivity|].
        split; [rewrite app_length; unfold to_right; cbn [begin]; lia|]. split; assumption.
      + exists len. split; [reflexivity|]. split; [rewrite E1, app_length; lia|]. split; [exact NN|].
        intros _. exists x. split.
        * rewrite E1, <- E2, nth_error_app2, Nat.sub_diag by lia. reflexivity.
        * intros ->. vm_compute in Ein. discriminate Ein.
    - exfalso. assert (X : lm_status (match_integer_literal s) = lm_no_digits) by (rewrite Ei; reflexivity).
      apply match_integer_literal_no_digits in X. cbn in X. apply X.
      apply digit_in_iff. rewrite <- is_decimal_digit_10. exact Ed.
    - injection H as <-. cbn [te_code te_pos].
      assert (X : lm_status (match_integer_literal s) = lm_no_digits_following_prefix) by (rewrite Ei; reflexivity).
      apply match_integer_literal_prefix_only in X. split.
      + cbn [trouble]. destruct X as [(r & E1 & D)|(r & E1 & D)]; exists pre.
        * exists 2%Z, r. split; [left; split; [rewrite E1; reflexivity|reflexivity]|].
          split; [unfold to_right; cbn [begin]; lia|exact D].
        * exists 16%Z, r. split; [right; split; [rewrite E1; reflexivity|reflexivity]|].
          split; [unfold to_right; cbn [begin]; lia|exact D].
      + exists 2. split; [reflexivity|]. destruct X as [(r & E1 & D)|(r & E1 & D)]; rewrite E1;
          (split; [cbn; lia|split; [cbn; intros [X|[X|[]]]; discriminate X|intros X; congruence]]). }
  destruct (match_fixed_length_token s) eqn:Ef; [exfalso; eapply Hres; exact H|].
  destruct (Nat.eqb (match_identifier s) 0) eqn:E0; cbn [negb] in H.
  2:{ destruct (keyword_by_name _); exfalso; eapply Hres; exact H. }
  apply Nat.eqb_eq in E0. injection H as <-. cbn [te_code te_pos]. split.
  - cbn [trouble]. rewrite SK. exists c, s'. split; [reflexivity|]. split; [exact W|]. split.
    { intros X. unfold match_identifier, s in E0. rewrite Ed in E0. cbn [prefix_length] in E0.
      rewrite in_identifier_characters in E0. apply ident_b_iff in X. rewrite X in E0. discriminate E0. }
    split; [exact Eq|]. intros t q r' Ho. apply (match_fixed_none _ Ef t q r' Ho).
  - destruct K0 as (k & A & B & C & D). exists k. repeat split; try assumption. intros _. exact D.
Qed.

Lemma step_err : forall source p e, tokenize_step source p = Err e ->
  exists p1, begin p <= begin p1 < length source /\
    p1 = advance_over (slice source (begin p) (begin p1)) p /\
    try_match p1 (skipn (begin p1) source) = Err e.
Proof.
  intros source p e H. unfold tokenize_step in H.
  destruct (Nat.eqb (begin p) (length source)); [discriminate|].
  unfold assert_then in H.
  destruct (Nat.ltb (begin p) (length source)) eqn:El; [|discriminate]. apply Nat.ltb_lt in El.
  pose proof (white_prefix source (begin p)) as Hw.
  set (w := prefix_length (fun c => in_set c [" "; ch_cr; ch_tab; ch_newline]%char) (skipn (begin p) source)) in *.
  destruct Hw as (Hw1 & Hw2 & Hw3). rewrite skipn_length in Hw2.
  destruct (Nat.eqb w (length (skipn (begin p) source))) eqn:Ew; [discriminate|].
  apply Nat.eqb_neq in Ew. rewrite skipn_length in Ew.
  assert (Hp1 : exists p1, (if Nat.eqb w 0 then Ok p else @advance_position_by tokenize_error source p w) = Ok p1
                /\ begin p1 = begin p + w /\ p1 = advance_over (slice source (begin p) (begin p + w)) p).
  { destruct (Nat.eqb w 0) eqn:E0.
    - apply Nat.eqb_eq in E0. exists p. rewrite E0. split; [reflexivity|]. split; [lia|].
      unfold slice. replace (begin p + 0 - begin p) with 0 by lia. reflexivity.
    - exists (advance_over (firstn w (skipn (begin p) source)) p).
      unfold advance_position_by, assert_then.
      assert (Nat.ltb (begin p + w) (length source) = true) as -> by (apply Nat.ltb_lt; lia).
      split; [reflexivity|]. split.
      + rewrite advance_over_begin, firstn_length, skipn_length. lia.
      + unfold slice. replace (begin p + w - begin p) with w by lia. reflexivity. }
  destruct Hp1 as (p1 & Hp1 & Hb1 & Hadv). rewrite Hp1 in H. cbn [bind] in H.
  rewrite skipn_skipn' in H.
  exists p1. split; [lia|]. rewrite Hb1. split; [exact Hadv|].
  destruct (try_match p1 (skipn (begin p + w) source)) as [[n ty]|e'| |] eqn:Et; cbn [bind] in H;
    try discriminate H.
  - destruct (negb (token_type_eqb ty tk_block_comment)); [discriminate H|].
    unfold advance_position_by, assert_then in H. destruct (Nat.ltb _ _); discriminate H.
  - injection H as ->. reflexivity.
Qed.

Lemma loop_error_place : forall fuel source p e, tokenize_loop fuel source p = Some (Err e) ->
  no_tab_cr source ->
  Forall (fun t => tok_type t <> tk_block_comment -> ~ In ch_newline (tok_text source t))
    (tokens_appended fuel source p) ->
  exact_position source p -> begin p <= length source ->
  trouble source (te_code e) (begin (te_pos e)) /\ exact_position source (te_pos e) /\
  begin (te_pos e) <= length source /\
  (te_code e <> no_digits_following_integer_prefix -> shown_place source (te_pos e)).
Proof.
  induction fuel as [|fuel IH]; intros source p e H Htab Hnl Hp Hb; [discriminate|].
  cbn [tokenize_loop tokens_appended] in H, Hnl.
  destruct (tokenize_step source p) as [[[t p']|]|e'| |] eqn:Es; try discriminate H.
  - destruct (tokenize_loop fuel source p') as [[ts'|e''| |]|] eqn:El; try discriminate H.
    injection H as ->. inversion Hnl as [|? ? Hnlt Hnlts]; subst.
    apply step_some in Es. destruct Es as (H1 & H2 & H3 & TF & H5 & H6 & H7 & H8).
    assert (Hend : tok_end t <= length source).
    { rewrite <- H5. destruct fuel as [|fuel]; [discriminate El|]. cbn [tokenize_loop] in El.
      unfold tokenize_step, assert_then in El.
      destruct (Nat.eqb (begin p') (length source)) eqn:E1; [discriminate El|].
      destruct (Nat.ltb (begin p') (length source)) eqn:E2; [|discriminate El].
      apply Nat.ltb_lt in E2. lia. }
    assert (Htp : exact_position source (tok_pos t)).
    { destruct Hp as [Hpl Hpc]. unfold exact_position. fold (tok_begin t).
      rewrite (firstn_slice source (begin p) (tok_begin t)) by lia.
      rewrite count_newlines_app, since_newline_app, <- Hpl, <- Hpc, H6.
      apply advance_over_exact. apply no_tab_cr_slice. exact Htab. }
    eapply IH; try eassumption; [|rewrite H5; exact Hend].
    destruct Htp as [Htl Htc]. fold (tok_begin t) in Htl, Htc.
    unfold exact_position. rewrite H5.
    rewrite (firstn_slice source (tok_begin t) (tok_end t)) by (unfold tok_end; lia).
    rewrite count_newlines_app, since_newline_app, <- Htl, <- Htc.
    fold (tok_text source t).
    destruct (token_type_eqb (tok_type t) tk_block_comment) eqn:Eb.
    + apply token_type_eqb_eq in Eb. rewrite (H8 Eb). apply advance_over_exact.
      apply no_tab_cr_slice. exact Htab.
    + assert (Hne : tok_type t <> tk_block_comment)
        by (intros He; rewrite He in Eb; discriminate Eb).
      rewrite (H7 Hne). specialize (Hnlt Hne). unfold to_right. cbn [line column].
      rewrite count_newlines_none, since_newline_none by exact Hnlt.
      unfold tok_text. rewrite slice_length by exact Hend. unfold tok_end. split; lia.
  - injection H as ->. apply step_err in Es. destruct Es as (p1 & B1 & A1 & T1).
    assert (E1 : exact_position source p1).
    { destruct Hp as [Hpl Hpc]. unfold exact_position.
      rewrite (firstn_slice source (begin p) (begin p1)) by lia.
      rewrite count_newlines_app, since_newline_app, <- Hpl, <- Hpc.
      rewrite A1 at 1 3. apply advance_over_exact. apply no_tab_cr_slice. exact Htab. }
    assert (FL : begin p1 = length (firstn (begin p1) source)) by (rewrite firstn_length; lia).
    destruct (try_match_trouble (firstn (begin p1) source) _ _ _ T1 FL) as (TR & k & K1 & K2 & K3 & K4).
    rewrite firstn_skipn in TR. split; [exact TR|].
    rewrite skipn_length in K2.
    assert (EX : exact_position source (te_pos e)).
    { rewrite K1. unfold exact_position, to_right. cbn [line column begin].
      rewrite (firstn_slice source (begin p1) (begin p1 + k)) by lia. destruct E1 as [E1 E2].
      rewrite count_newlines_app, since_newline_app, <- E1, <- E2.
      unfold slice. replace (begin p1 + k - begin p1) with k by lia.
      rewrite count_newlines_none, since_newline_none by exact K3. rewrite firstn_length, skipn_length. split; lia. }
    split; [exact EX|]. split; [rewrite K1; cbn [to_right begin]; lia|]. intros NC. split; [exact EX|].
    destruct (K4 NC) as (c & C1 & C2). exists c. split; [|exact C2]. rewrite K1. cbn [to_right begin].
    rewrite <- (firstn_skipn (begin p1) source), nth_error_app2; rewrite <- FL; [|lia].
    replace (begin p1 + k - begin p1) with k by lia. exact C1.
Qed.

(** Only tokens that may hold line feeds matter. *)
Lemma appended_facts : forall fuel source p, Forall (fun t =>
  token_facts (skipn (tok_begin t) source) (tok_length t) (tok_type t)) (tokens_appended fuel source p).
Proof.
  induction fuel as [|fuel IH]; intros source p; cbn [tokens_appended]; [constructor|].
  destruct (tokenize_step source p) as [[[t p']|]| | |] eqn:Es; try constructor; [|apply IH].
  apply step_some in Es. apply Es.
Qed.

(** The tokens that were read hold no line feed where that is not expected. *)
Definition no_newline_inside (source : text) (ts : list token) : Prop :=
  Forall (fun t => tok_type t = tk_string_literal \/ tok_type t = tk_logical_and
                   \/ tok_type t = tk_logical_not -> ~ In ch_newline (tok_text source t)) ts.

Lemma tokenizer_error_place : forall source e, tokenize source = Some (Err e) ->
  plain_columns source ->
  no_newline_inside source (tokens_appended (S (length source)) source (Pos 0 0 0)) ->
  trouble source (te_code e) (begin (te_pos e)) /\ exact_position source (te_pos e) /\
  begin (te_pos e) <= length source /\
  (te_code e <> no_digits_following_integer_prefix -> shown_place source (te_pos e)).
Proof.
  intros source e H P NN. unfold tokenize in H. eapply loop_error_place; try exact H.
  - exact P.
  - pose proof (appended_facts (S (length source)) source (Pos 0 0 0)) as Hf.
    unfold no_newline_inside in NN. rewrite Forall_forall in Hf, NN |- *.
    intros t Hin Hne. specialize (Hf t Hin). specialize (NN t Hin).
    destruct (may_cover_newline (tok_type t)) eqn:Em.
    + apply NN. destruct (tok_type t); try discriminate Em; auto. congruence.
    + unfold tok_text, slice. replace (tok_end t - tok_begin t) with (tok_length t) by (unfold tok_end; lia).
      eapply token_no_newline; eassumption.
  - split; reflexivity.
  - cbn. lia.
Qed.
