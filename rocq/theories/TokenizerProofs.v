(** Lemmas about the tokenizer. *)
From Coq Require Import ZArith Ascii String List Bool Lia.
From Verif Require Import Prelude Text Literals LiteralsSpec LiteralsProofs Tables Tokenizer TokenizerSpec.
Import ListNotations.
Open Scope string_scope.
Open Scope list_scope.
Open Scope nat_scope.

(** * Characters *)

Definition ident_b (c : ascii) : bool :=
  ((97 <=? code c) && (code c <=? 122) || (65 <=? code c) && (code c <=? 90)
   || (48 <=? code c) && (code c <=? 57) || (code c =? 95))%Z.

Lemma in_identifier_characters : forall c, in_set c identifier_characters = ident_b c.
Proof. intros c. all_chars c; reflexivity. Qed.

Lemma ident_b_iff : forall c, ident_b c = true <-> is_identifier_char c.
Proof.
  intros c. unfold ident_b, is_identifier_char.
  rewrite !orb_true_iff, !andb_true_iff, !Z.leb_le, Z.eqb_eq. tauto.
Qed.

Lemma in_white : forall c, in_set c [" "; ch_cr; ch_tab; ch_newline]%char = true <-> is_white c.
Proof.
  intros c. unfold in_set, is_white. cbn [existsb].
  rewrite !orb_true_iff, !char_eqb_eq. intuition discriminate.
Qed.

Lemma is_space_white : forall c, is_space c = in_set c [" "; ch_cr; ch_tab; ch_newline]%char.
Proof. intros c. all_chars c; reflexivity. Qed.

(** * Fixed-length tokens *)

Lemma operator_spelling_short : forall t q, operator_spelling t = Some q -> length (str q) <= 2.
Proof. intros t q H. destruct t; try discriminate H; injection H as <-; cbn; lia. Qed.

Lemma second_is_iff : forall rest c, second_is rest c = true <-> exists r, rest = c :: r.
Proof.
  intros [|x rest] c; cbn.
  - split; [discriminate|intros [r H]; discriminate].
  - rewrite char_eqb_eq. split; [intros ->; eexists; reflexivity|intros [r H]; congruence].
Qed.

Ltac fixed_cases :=
  repeat match goal with
  | H : (if char_eqb ?c ?x then _ else _) = _ |- _ =>
      let E := fresh "E" in destruct (char_eqb c x) eqn:E;
      [apply char_eqb_eq in E; try subst c|clear E]
  | H : (if second_is ?r ?x then _ else _) = _ |- _ =>
      let E := fresh "S" in destruct (second_is r x) eqn:E
  end.

(** Operator spellings that are a prefix of a text, as a computable check. *)
Definition operators : list string :=
  ["("; ")"; "{"; "}"; "="; "=="; "!="; "+"; "-"; "*"; "/"; "%"; "<"; ">"; "<="; ">="; "<<"; ">>";
   "&"; "|"; "~"; "^"; "&&"; "||"; "!"; "->"; "=>"; "."; ":"; ","; "@"; ";"].

Lemma operators_complete : forall t q, operator_spelling t = Some q -> In q operators.
Proof.
  intros t q H. destruct t; try discriminate H; injection H as <-; unfold operators;
    repeat (first [left; reflexivity | right]).
Qed.

Definition longest_b (s : text) (n : nat) : bool :=
  forallb (fun q => negb (starts_with s (str q)) || Nat.leb (length (str q)) n) operators.

Lemma longest_b_ok : forall s p r, s = p ++ r -> longest_b s (length p) = true -> longest_operator s p.
Proof.
  intros s p r Hs Hb. split; [exists r; exact Hs|]. intros t q r' Hq Hr.
  unfold longest_b in Hb. rewrite forallb_forall in Hb.
  specialize (Hb q (operators_complete t q Hq)).
  apply orb_true_iff in Hb. destruct Hb as [Hb|Hb]; [|apply Nat.leb_le in Hb; exact Hb].
  assert (starts_with s (str q) = true) by (apply starts_with_iff; exists r'; exact Hr).
  rewrite H in Hb. discriminate.
Qed.

Lemma match_fixed_spec : forall s t, match_fixed_length_token s = Some t ->
  exists q, operator_spelling t = Some q /\ longest_operator s q.
Proof.
  intros [|c rest] t H; [discriminate|]. unfold match_fixed_length_token in H.
  fixed_cases; try discriminate H; injection H as <-; (eexists; split; [reflexivity|]);
    try (match goal with S : second_is _ _ = true |- _ =>
           apply second_is_iff in S; destruct S as [r0 ->];
           apply (longest_b_ok _ _ r0); [reflexivity|]; destruct r0; vm_compute; reflexivity end);
    (apply (longest_b_ok _ _ rest); [reflexivity|];
     destruct rest as [|x rest]; [vm_compute; reflexivity|]; cbn [second_is] in *;
     all_chars x; first [vm_compute; reflexivity|vm_compute in *; discriminate]).
Qed.

Lemma match_fixed_none : forall s, match_fixed_length_token s = None ->
  forall t q r, operator_spelling t = Some q -> s <> str q ++ r.
Proof.
  intros [|c rest] H t q r Hq Hs.
  - destruct t; try discriminate Hq; injection Hq as <-; discriminate Hs.
  - unfold match_fixed_length_token in H.
    destruct t; try discriminate Hq; injection Hq as <-; cbn [str list_ascii_of_string app] in Hs;
      injection Hs as -> ->; cbn in H; try discriminate H;
      repeat match type of H with (if ?b then _ else _) = _ => destruct b end; discriminate H.
Qed.

Lemma match_fixed_length : forall s t, match_fixed_length_token s = Some t ->
  (t <> tk_logical_and -> t <> tk_logical_not ->
     exists q, operator_spelling t = Some q /\ token_type_length t = length (str q))
  /\ token_type_length t <> 0
  /\ (t = tk_logical_and \/ t = tk_logical_not -> token_type_length t = 3).
Proof.
  intros s t H. apply match_fixed_spec in H. destruct H as (q & Hq & _).
  split; [|split].
  - intros H1 H2. destruct t; try discriminate Hq; try congruence; eexists; split; reflexivity.
  - destruct t; try discriminate Hq; cbn; lia.
  - intros [-> | ->]; reflexivity.
Qed.

(** * Words *)

Lemma match_identifier_spec : forall s, match_identifier s <> 0 ->
  maximal_word s (firstn (match_identifier s) s) /\ match_identifier s <= length s.
Proof.
  intros [|c s] H; [cbn in H; congruence|]. unfold match_identifier in *.
  destruct (is_decimal_digit c); [congruence|].
  set (f := fun c => in_set c identifier_characters) in *.
  destruct (prefix_length_spec f (c :: s)) as (H1 & H2 & H3).
  set (n := prefix_length f (c :: s)) in *.
  split; [|exact H2]. split; [|split].
  - intros Hn. apply (f_equal (@length ascii)) in Hn. rewrite firstn_length in Hn.
    change (@length ascii []) with 0 in Hn. lia.
  - eapply Forall_impl; [|exact H1]. intros x Hx. apply ident_b_iff.
    rewrite <- in_identifier_characters. exact Hx.
  - exists (skipn n (c :: s)). split; [symmetry; apply firstn_skipn|].
    destruct (skipn n (c :: s)) as [|x r] eqn:E; [exact I|].
    assert (Hx : nth_error (c :: s) n = Some x).
    { rewrite <- (firstn_skipn n (c :: s)), E. rewrite nth_error_app2; rewrite firstn_length; [|lia].
      replace (n - Nat.min n (length (c :: s))) with 0 by lia. reflexivity. }
    apply H3 in Hx. unfold f in Hx. rewrite in_identifier_characters in Hx.
    intros Hi. apply ident_b_iff in Hi. congruence.
Qed.

Lemma keyword_by_name_some : forall w k, keyword_by_name w = Some k ->
  exists q, keyword_spelling k = Some q /\ w = str q.
Proof.
  intros w k H. unfold keyword_by_name, types_by_name in H. cbn [keyword_lookup] in H.
  repeat match type of H with
  | (if text_eqb ?a w then _ else _) = _ =>
      let E := fresh "E" in destruct (text_eqb a w) eqn:E;
      [apply text_eqb_eq in E; injection H as <-; eexists; split; [reflexivity|symmetry; exact E]|clear E]
  end. discriminate H.
Qed.

Lemma keyword_by_name_complete : forall k q, keyword_spelling k = Some q ->
  keyword_by_name (str q) = Some k.
Proof. intros k q H. destruct k; try discriminate H; injection H as <-; reflexivity. Qed.

Lemma keyword_operator : forall k q, keyword_spelling k = Some q -> operator_spelling k = None.
Proof. intros k q H. destruct k; try discriminate H; reflexivity. Qed.

(** * One token *)

Lemma tokenize_result_ok : forall n t n' t', tokenize_result n t = Ok (n', t') ->
  n' = n /\ t' = t /\ n <> 0.
Proof.
  intros n t n' t' H. unfold tokenize_result, assert_then in H.
  destruct (Nat.eqb n 0) eqn:E; [discriminate|]. injection H as <- <-. apply Nat.eqb_neq in E. auto.
Qed.

Lemma tokenize_result_defined : forall n t, n <> 0 -> tokenize_result n t = Ok (n, t).
Proof.
  intros n t H. unfold tokenize_result, assert_then. apply Nat.eqb_neq in H. rewrite H. reflexivity.
Qed.

Definition long_token (t : token_type) : bool :=
  match t with tk_logical_and | tk_logical_not => true | _ => false end.

Definition token_facts (s : text) (n : nat) (t : token_type) : Prop :=
  right_token s t n /\ n <> 0 /\
  (long_token t = true -> n = 3) /\
  (long_token t = false -> n <= length s /\
     forall q, operator_spelling t = Some q -> firstn n s = str q).

Lemma fixed_token_facts : forall s t, match_fixed_length_token s = Some t ->
  (t = tk_division -> match_line_comment s = None /\ match_block_comment s = None) ->
  token_facts s (token_type_length t) t.
Proof.
  intros s t H Hd. destruct (match_fixed_spec s t H) as (q & Hq & Hl).
  destruct (match_fixed_length s t H) as (H1 & H2 & H3).
  split; [unfold right_token; rewrite Hq; auto|]. split; [exact H2|]. split.
  - intros Ht. apply H3. destruct t; try discriminate Ht; auto.
  - intros Ht. destruct H1 as (q' & Hq' & Hlen).
    { intros ->; discriminate Ht. } { intros ->; discriminate Ht. }
    rewrite Hq in Hq'. injection Hq' as <-. rewrite Hlen.
    destruct Hl as [[r Hr] _]. rewrite Hr. split; [rewrite app_length; lia|].
    intros q' Hq'. rewrite Hq in Hq'. injection Hq' as <-.
    rewrite firstn_app, Nat.sub_diag, firstn_all. cbn. apply app_nil_r.
Qed.

Lemma line_comment_some : forall s m, match_line_comment s = Some m ->
  tm_length m <> 0 /\ tm_length m <= length s /\ ~ In ch_newline (firstn (tm_length m) s).
Proof.
  intros s m H. pose proof (line_comment_spec s) as Hs. rewrite H in Hs.
  destruct m as [n b]. cbn. destruct b.
  - destruct Hs as (p & r & -> & <- & Hst & Hn). destruct p as [|c p]; [discriminate|].
    split; [cbn; lia|]. split; [rewrite app_length; lia|].
    rewrite firstn_app, Nat.sub_diag, firstn_all. cbn [firstn]. rewrite app_nil_r. exact Hn.
  - destruct Hs as (Hst & -> & Hn). destruct s as [|c s]; [discriminate|].
    split; [cbn; lia|]. split; [lia|]. rewrite firstn_all. exact Hn.
Qed.

Lemma block_comment_some : forall s n, match_block_comment s = Some (TM n true) ->
  n <> 0 /\ n <= length s /\ (n = length s -> exists a, s = a ++ ["/"%char]).
Proof.
  intros s n H. pose proof (block_comment_spec s) as Hs. rewrite H in Hs.
  destruct Hs as (body & r & -> & -> & _). rewrite !app_length. cbn [length str list_ascii_of_string].
  split; [lia|]. split; [lia|]. intros Hl. assert (r = []) as -> by (destruct r; [reflexivity|cbn in Hl; lia]).
  exists (str "/*" ++ body ++ ["*"%char]). cbn. f_equal. f_equal. rewrite <- app_assoc. reflexivity.
Qed.

Lemma string_literal_some : forall s n, match_string_literal s = Some (TM n true) ->
  n <> 0 /\ n <= length s.
Proof.
  intros s n H. pose proof (string_literal_spec s) as Hs. rewrite H in Hs.
  destruct Hs as (body & r & -> & _ & ->). cbn [length]. rewrite app_length. cbn [length]. lia.
Qed.

Lemma literal_text_nonempty : forall t p ds, is_literal_text t p ds -> p <> [].
Proof. intros t p ds H. inversion H; subst; cbn; discriminate. Qed.

Lemma match_integer_some : forall s n t, match_integer_literal s = LM lm_ok n t ->
  n <> 0 /\ n <= length s.
Proof.
  intros s n t H. apply match_integer_literal_ok in H.
  destruct H as (p & ds & rest & -> & <- & Ht & _). apply literal_text_nonempty in Ht.
  rewrite app_length. destruct p; [congruence|]. cbn. lia.
Qed.

Lemma try_match_ok : forall p s n t, try_match p s = Ok (n, t) -> token_facts s n t.
Proof.
  intros p s n t H. destruct s as [|c s']; [discriminate|]. set (s := c :: s') in *.
  unfold try_match, assert_then in H. unfold s in H at 1.
  destruct (negb (is_space c)); [|discriminate].
  destruct (char_eqb c "/") eqn:Eslash.
  { destruct (match_line_comment s) as [m|] eqn:El.
    { apply tokenize_result_ok in H. destruct H as (-> & -> & Hn).
      destruct (line_comment_some _ _ El) as (_ & Hle & _).
      split; [cbn; destruct m; eexists; exact El|]. split; [exact Hn|].
      split; [discriminate|]. intros _. split; [exact Hle|]. discriminate. }
    destruct (match_block_comment s) as [m|] eqn:Eb.
    { destruct m as [len []]; cbn [tm_terminated negb tm_length] in H; [|discriminate].
      apply tokenize_result_ok in H. destruct H as (-> & -> & Hn).
      destruct (block_comment_some _ _ Eb) as (_ & Hle & _).
      split; [exact Eb|]. split; [exact Hn|].
      split; [discriminate|]. intros _. split; [exact Hle|]. discriminate. }
    destruct (match_fixed_length_token s) as [t'|] eqn:Ef; [|discriminate].
    apply tokenize_result_ok in H. destruct H as (-> & -> & Hn).
    apply fixed_token_facts; auto. }
  destruct (char_eqb c ch_quote) eqn:Equote.
  { destruct (match_string_literal s) as [m|] eqn:Es; [|discriminate].
    destruct m as [len []]; cbn [tm_terminated negb tm_length] in H; [|discriminate].
    apply tokenize_result_ok in H. destruct H as (-> & -> & Hn).
    destruct (string_literal_some _ _ Es) as (_ & Hle).
    split; [exact Es|]. split; [exact Hn|].
    split; [discriminate|]. intros _. split; [exact Hle|]. discriminate. }
  destruct (is_decimal_digit c) eqn:Ed.
  { destruct (match_integer_literal s) as [st len lt] eqn:Ei. cbn [lm_status lm_length lm_type] in H.
    destruct st; [|discriminate|discriminate].
    destruct (match_integer_some _ _ _ Ei) as (Hn & Hle).
    assert (Hr : tokenize_result len (token_type_of lt) = Ok (n, t)).
    { destruct (nth_error s len) as [x|]; [|exact H].
      destruct (in_set x identifier_characters); [discriminate|exact H]. }
    apply tokenize_result_ok in Hr. destruct Hr as (-> & -> & _).
    split; [destruct lt; exact Ei|]. split; [exact Hn|].
    split; [destruct lt; discriminate|]. intros _. split; [exact Hle|]. destruct lt; discriminate. }
  destruct (match_fixed_length_token s) as [t'|] eqn:Ef.
  { apply tokenize_result_ok in H. destruct H as (-> & -> & Hn).
    apply fixed_token_facts; [exact Ef|]. intros ->.
    apply match_fixed_spec in Ef. destruct Ef as (q & [= <-] & [[r Hr] _]).
    unfold s in Hr. injection Hr as -> _. discriminate Eslash. }
  destruct (Nat.eqb (match_identifier s) 0) eqn:E0; cbn [negb] in H; [discriminate|].
  apply Nat.eqb_neq in E0. destruct (match_identifier_spec s E0) as [Hw Hle].
  destruct (keyword_by_name (firstn (match_identifier s) s)) as [k|] eqn:Ek.
  - apply tokenize_result_ok in H. destruct H as (-> & -> & Hn).
    apply keyword_by_name_some in Ek. destruct Ek as (q & Hq & Hf).
    rewrite Hf in Hw.
    pose proof (keyword_operator k q Hq) as Hop.
    split.
    { unfold right_token. rewrite Hop. destruct k; try discriminate Hq; exists q; auto. }
    split; [exact E0|]. split; [destruct k; discriminate|]. intros _. split; [exact Hle|].
    intros q'. rewrite Hop. discriminate.
  - apply tokenize_result_ok in H. destruct H as (-> & -> & Hn).
    split.
    { unfold right_token. cbn [operator_spelling]. split; [exact Hw|]. split.
      - intros k q Hq Heq. rewrite Heq in Ek.
        rewrite (keyword_by_name_complete k q Hq) in Ek. discriminate.
      - intros d r [= <- _] D. apply digit_in_iff in D. rewrite is_decimal_digit_10, D in Ed. discriminate. }
    split; [exact E0|]. split; [discriminate|]. intros _. split; [exact Hle|]. discriminate.
Qed.

Lemma try_match_err : forall p s e, try_match p s = Err e ->
  exists k, k <= length s /\ te_pos e = to_right p k.
Proof.
  intros p s e H.
  assert (H0 : forall x, x = TE illegal_character p \/ x = TE unterminated_comment p
                 \/ x = TE unterminated_string p -> exists k, k <= length s /\ te_pos x = to_right p k).
  { intros x Hx. exists 0. split; [lia|]. destruct p as [l c b]. unfold to_right. cbn [line column begin].
    rewrite !Nat.add_0_r. destruct Hx as [-> | [-> | ->]]; reflexivity. }
  assert (Hres : forall n t, tokenize_result n t <> Err e).
  { intros n t Hx. unfold tokenize_result, assert_then in Hx. destruct (negb _); discriminate. }
  destruct s as [|c s']; [discriminate|]. unfold try_match, assert_then in H.
  set (s := c :: s') in *.
  destruct (negb (is_space c)); [|discriminate].
  destruct (char_eqb c "/").
  { destruct (match_line_comment s); [exfalso; eapply Hres; exact H|].
    destruct (match_block_comment s) as [m|].
    { destruct (negb (tm_terminated m)); [injection H as <-; auto|exfalso; eapply Hres; exact H]. }
    destruct (match_fixed_length_token s); [exfalso; eapply Hres; exact H|injection H as <-; auto]. }
  destruct (char_eqb c ch_quote).
  { destruct (match_string_literal s) as [m|]; [|injection H as <-; auto].
    destruct (negb (tm_terminated m)); [injection H as <-; auto|exfalso; eapply Hres; exact H]. }
  destruct (is_decimal_digit c).
  { destruct (match_integer_literal s) as [st len lt] eqn:Ei. cbn [lm_status lm_length lm_type] in H.
    destruct st.
    - destruct (match_integer_some _ _ _ Ei) as [_ Hle].
      destruct (nth_error s len) as [x|]; [|exfalso; eapply Hres; exact H].
      destruct (in_set x identifier_characters); [|exfalso; eapply Hres; exact H].
      injection H as <-. exists len. split; [exact Hle|reflexivity].
    - injection H as <-; auto.
    - injection H as <-. exists 2. split; [|reflexivity].
      assert (Hst : lm_status (match_integer_literal s) = lm_no_digits_following_prefix)
        by (rewrite Ei; reflexivity).
      apply match_integer_literal_prefix_only in Hst.
      destruct Hst as [[r [-> _]]|[r [-> _]]]; rewrite app_length; cbn; lia. }
  destruct (match_fixed_length_token s); [exfalso; eapply Hres; exact H|].
  destruct (negb _); [|injection H as <-; auto].
  destruct (keyword_by_name _); exfalso; eapply Hres; exact H.
Qed.

Lemma try_match_defined : forall p c s, ~ is_white c -> defined (try_match p (c :: s)).
Proof.
  intros p c s' Hw. unfold try_match, assert_then.
  set (s := c :: s') in *.
  assert (Hsp : is_space c = false).
  { rewrite is_space_white. destruct (in_set c _) eqn:E; [|reflexivity].
    exfalso. apply Hw. apply in_white. exact E. }
  rewrite Hsp. cbn [negb].
  assert (Hres : forall n t, n <> 0 -> defined (tokenize_result n t))
    by (intros n t Hn; rewrite tokenize_result_defined by exact Hn; exact I).
  destruct (char_eqb c "/").
  { destruct (match_line_comment s) as [m|] eqn:El.
    { apply Hres. destruct (line_comment_some _ _ El) as (Hn & _). exact Hn. }
    destruct (match_block_comment s) as [[len []]|] eqn:Eb; cbn [negb tm_terminated tm_length].
    { apply Hres. destruct (block_comment_some _ _ Eb) as (Hn & _). exact Hn. }
    { exact I. }
    destruct (match_fixed_length_token s) as [t|] eqn:Ef; [|exact I].
    apply Hres. destruct (match_fixed_length s t Ef) as (_ & Hn & _). exact Hn. }
  destruct (char_eqb c ch_quote).
  { destruct (match_string_literal s) as [[len []]|] eqn:Es; cbn [negb tm_terminated tm_length];
      [|exact I|exact I].
    apply Hres. destruct (string_literal_some _ _ Es) as (Hn & _). exact Hn. }
  destruct (is_decimal_digit c).
  { destruct (match_integer_literal s) as [st len lt] eqn:Ei. cbn [lm_status lm_length lm_type].
    destruct st; [|exact I|exact I].
    destruct (match_integer_some _ _ _ Ei) as [Hn _].
    destruct (nth_error s len) as [x|]; [|apply Hres; exact Hn].
    destruct (in_set x identifier_characters); [exact I|apply Hres; exact Hn]. }
  destruct (match_fixed_length_token s) as [t|] eqn:Ef.
  { apply Hres. destruct (match_fixed_length s t Ef) as (_ & Hn & _). exact Hn. }
  destruct (Nat.eqb (match_identifier s) 0) eqn:E0; cbn [negb]; [exact I|].
  apply Nat.eqb_neq in E0.
  destruct (keyword_by_name _); apply Hres; exact E0.
Qed.

(** * One step *)

Lemma advance_over_begin : forall chars p, begin (advance_over chars p) = begin p + length chars.
Proof.
  induction chars as [|c chars IH]; intros p; cbn [advance_over length]; [lia|].
  rewrite IH. destruct (char_eqb c ch_tab), (char_eqb c ch_cr), (char_eqb c ch_newline); cbn [begin]; lia.
Qed.

Lemma skipn_skipn' : forall (s : text) a b, skipn a (skipn b s) = skipn (b + a) s.
Proof.
  induction s as [|x s IH]; intros a [|b]; cbn [skipn Nat.add]; try reflexivity.
  - destruct a; reflexivity.
  - apply IH.
Qed.

Lemma white_prefix : forall s i, let w := prefix_length (fun c => in_set c [" "; ch_cr; ch_tab; ch_newline]%char) (skipn i s) in
  Forall is_white (slice s i (i + w)) /\ w <= length (skipn i s)
  /\ match skipn w (skipn i s) with [] => True | c :: _ => ~ is_white c end.
Proof.
  intros s i w.
  destruct (prefix_length_spec (fun c => in_set c [" "; ch_cr; ch_tab; ch_newline]%char) (skipn i s)) as (H1 & H2 & H3).
  fold w in H1, H2, H3. split; [|split; [exact H2|]].
  - unfold slice. replace (i + w - i) with w by lia. eapply Forall_impl; [|exact H1].
    intros c Hc. apply in_white. exact Hc.
  - destruct (skipn w (skipn i s)) as [|x r] eqn:E; [exact I|].
    assert (Hx : nth_error (skipn i s) w = Some x).
    { rewrite <- (firstn_skipn w (skipn i s)), E.
      rewrite nth_error_app2; rewrite firstn_length; [|lia].
      replace (w - Nat.min w (length (skipn i s))) with 0 by lia. reflexivity. }
    apply H3 in Hx. intros Hw. apply in_white in Hw. congruence.
Qed.

Lemma token_type_eqb_eq : forall a b, token_type_eqb a b = true <-> a = b.
Proof.
  intros a b. unfold token_type_eqb. rewrite Z.eqb_eq. split; [|congruence].
  destruct a, b; intros H; first [reflexivity|discriminate H].
Qed.

Lemma advance_ok : forall E source p n p', @advance_position_by E source p n = Ok p' ->
  begin p' = begin p + n /\ begin p + n < length source
  /\ p' = advance_over (firstn n (skipn (begin p) source)) p.
Proof.
  intros E source p n p' H. unfold advance_position_by, assert_then in H.
  destruct (Nat.ltb (begin p + n) (length source)) eqn:El; [|discriminate].
  apply Nat.ltb_lt in El. injection H as <-.
  split; [|split; [exact El|reflexivity]].
  rewrite advance_over_begin, firstn_length, skipn_length. lia.
Qed.

(** What a successful step does. *)
Lemma step_some : forall source p t p', tokenize_step source p = Ok (Some (t, p')) ->
  let w := tok_begin t - begin p in
  begin p <= tok_begin t /\ tok_begin t < length source
  /\ Forall is_white (slice source (begin p) (tok_begin t))
  /\ token_facts (skipn (tok_begin t) source) (tok_length t) (tok_type t)
  /\ begin p' = tok_end t
  /\ tok_pos t = advance_over (slice source (begin p) (tok_begin t)) p
  /\ (tok_type t <> tk_block_comment -> p' = to_right (tok_pos t) (tok_length t))
  /\ (tok_type t = tk_block_comment -> p' = advance_over (tok_text source t) (tok_pos t)).
Proof.
  intros source p t p' H. unfold tokenize_step in H.
  destruct (Nat.eqb (begin p) (length source)); [discriminate|].
  unfold assert_then in H.
  destruct (Nat.ltb (begin p) (length source)) eqn:El; [|discriminate]. apply Nat.ltb_lt in El.
  pose proof (white_prefix source (begin p)) as Hw.
  set (w := prefix_length (fun c => in_set c [" "; ch_cr; ch_tab; ch_newline]%char) (skipn (begin p) source)) in *.
  destruct Hw as (Hw1 & Hw2 & Hw3). rewrite skipn_length in Hw2.
  destruct (Nat.eqb w (length (skipn (begin p) source))) eqn:Ew; [discriminate|].
  apply Nat.eqb_neq in Ew. rewrite skipn_length in Ew.
  assert (Hp1 : exists p1, (if Nat.eqb w 0 then Ok p else @advance_position_by tokenize_error source p w) = Ok p1
                /\ begin p1 = begin p + w /\ p1 = advance_over (slice source (begin p) (begin p + w)) p).
  { destruct (Nat.eqb w 0) eqn:E0.
    - apply Nat.eqb_eq in E0. exists p. rewrite E0. split; [reflexivity|]. split; [lia|].
      unfold slice. replace (begin p + 0 - begin p) with 0 by lia. reflexivity.
    - exists (advance_over (firstn w (skipn (begin p) source)) p).
      unfold advance_position_by, assert_then.
      assert (Nat.ltb (begin p + w) (length source) = true) as -> by (apply Nat.ltb_lt; lia).
      split; [reflexivity|]. split.
      + rewrite advance_over_begin, firstn_length, skipn_length. lia.
      + unfold slice. replace (begin p + w - begin p) with w by lia. reflexivity. }
  destruct Hp1 as (p1 & Hp1 & Hb1 & Hadv). rewrite Hp1 in H. cbn [bind] in H.
  rewrite skipn_skipn' in H.
  destruct (try_match p1 (skipn (begin p + w) source)) as [[n ty]| | |] eqn:Et; cbn [bind] in H;
    try discriminate H.
  apply try_match_ok in Et. rewrite <- Hb1 in Et.
  destruct (token_type_eqb ty tk_block_comment) eqn:Eb; cbn [negb] in H.
  - apply token_type_eqb_eq in Eb. subst ty.
    destruct (advance_position_by source p1 n) as [p2| | |] eqn:Ea; cbn [bind] in H; try discriminate H.
    apply advance_ok in Ea. destruct Ea as (Ha1 & Ha2 & Ha3).
    injection H as <- <-. unfold tok_begin, tok_end, tok_text. cbn [tok_pos tok_length tok_type].
    unfold tok_begin, tok_end. cbn [tok_pos tok_length].
    split; [lia|]. split; [lia|]. split; [rewrite Hb1; exact Hw1|]. split; [exact Et|].
    split; [exact Ha1|]. split; [rewrite Hb1; exact Hadv|]. split; [congruence|].
    intros _. rewrite Ha3. unfold slice, tok_begin. cbn [tok_pos]. replace (begin p1 + n - begin p1) with n by lia. reflexivity.
  - injection H as <- <-. unfold tok_begin, tok_end. cbn [tok_pos tok_length tok_type].
    unfold tok_begin. cbn [tok_pos].
    split; [lia|]. split; [lia|]. split; [rewrite Hb1; exact Hw1|]. split; [exact Et|].
    split; [reflexivity|]. split; [rewrite Hb1; exact Hadv|]. split; [reflexivity|].
    intros ->. discriminate Eb.
Qed.

Lemma step_none : forall source p, tokenize_step source p = Ok None ->
  begin p <= length source /\ Forall is_white (slice source (begin p) (length source)).
Proof.
  intros source p H. unfold tokenize_step in H.
  destruct (Nat.eqb (begin p) (length source)) eqn:Ee.
  { apply Nat.eqb_eq in Ee. rewrite Ee. split; [lia|]. unfold slice. rewrite Nat.sub_diag. constructor. }
  unfold assert_then in H.
  destruct (Nat.ltb (begin p) (length source)) eqn:El; [|discriminate]. apply Nat.ltb_lt in El.
  pose proof (white_prefix source (begin p)) as Hw.
  set (w := prefix_length (fun c => in_set c [" "; ch_cr; ch_tab; ch_newline]%char) (skipn (begin p) source)) in *.
  destruct Hw as (Hw1 & Hw2 & Hw3).
  destruct (Nat.eqb w (length (skipn (begin p) source))) eqn:Ew.
  - apply Nat.eqb_eq in Ew. rewrite skipn_length in Ew. split; [lia|].
    replace (length source) with (begin p + w) by lia. exact Hw1.
  - exfalso. clear -H.
    destruct (if Nat.eqb w 0 then Ok p else @advance_position_by tokenize_error source p w); cbn [bind] in H; try discriminate H.
    destruct (try_match _ _) as [[n ty]| | |]; cbn [bind] in H; try discriminate H.
    destruct (negb _); [discriminate H|].
    destruct (advance_position_by _ _ _); cbn [bind] in H; discriminate H.
Qed.

(** * The loop *)

Lemma tiles_from : forall source from ts, tiles source from ts -> from <= length source.
Proof. intros source from ts H. inversion H; subst; unfold tok_end in *; lia. Qed.

Lemma loop_tiles : forall fuel source p ts, tokenize_loop fuel source p = Some (Ok ts) ->
  tiles source (begin p) ts.
Proof.
  induction fuel as [|fuel IH]; intros source p ts H; [discriminate|].
  cbn [tokenize_loop] in H.
  destruct (tokenize_step source p) as [[[t p']|]| | |] eqn:Es; try discriminate H.
  - destruct (tokenize_loop fuel source p') as [[ts'| | |]|] eqn:El; try discriminate H.
    injection H as <-. apply step_some in Es.
    destruct Es as (H1 & H2 & H3 & (_ & Hn & _) & H5 & _).
    apply IH in El. rewrite H5 in El. pose proof (tiles_from _ _ _ El).
    constructor; try assumption; lia.
  - injection H as <-. apply step_none in Es. destruct Es. constructor; assumption.
Qed.

Lemma loop_tokens : forall fuel source p ts, tokenize_loop fuel source p = Some (Ok ts) ->
  Forall (fun t => token_facts (skipn (tok_begin t) source) (tok_length t) (tok_type t)) ts.
Proof.
  induction fuel as [|fuel IH]; intros source p ts H; [discriminate|].
  cbn [tokenize_loop] in H.
  destruct (tokenize_step source p) as [[[t p']|]| | |] eqn:Es; try discriminate H.
  - destruct (tokenize_loop fuel source p') as [[ts'| | |]|] eqn:El; try discriminate H.
    injection H as <-. apply step_some in Es.
    destruct Es as (_ & _ & _ & Hf & _). constructor; [exact Hf|]. eapply IH. exact El.
  - injection H as <-. constructor.
Qed.

Lemma loop_enough_fuel : forall fuel source p, length source + 1 - begin p <= fuel -> 0 < fuel ->
  tokenize_loop fuel source p <> None.
Proof.
  induction fuel as [|fuel IH]; intros source p Hf Hpos; [lia|].
  cbn [tokenize_loop].
  destruct (tokenize_step source p) as [[[t p']|]| | |] eqn:Es; try discriminate.
  apply step_some in Es. destruct Es as (H1 & H2 & _ & (_ & Hn & _) & H5 & _).
  unfold tok_end in H5.
  assert (Hl : tokenize_loop fuel source p' <> None) by (apply IH; lia).
  destruct (tokenize_loop fuel source p') as [[]|]; congruence.
Qed.

(** * Positions *)

Definition no_tab_cr (s : text) : Prop := ~ In ch_tab s /\ ~ In ch_cr s.

Lemma since_newline_app : forall a b acc,
  since_newline (a ++ b) acc = since_newline b (since_newline a acc).
Proof. induction a as [|x a IH]; intros b acc; cbn; [reflexivity|apply IH]. Qed.

Lemma count_newlines_app : forall a b, count_newlines (a ++ b) = count_newlines a + count_newlines b.
Proof. induction a as [|x a IH]; intros b; cbn; [reflexivity|]. rewrite IH. lia. Qed.

Lemma count_newlines_none : forall a, ~ In ch_newline a -> count_newlines a = 0.
Proof.
  induction a as [|x a IH]; intros H; cbn; [reflexivity|].
  destruct (char_eqb x ch_newline) eqn:E; [apply char_eqb_eq in E; exfalso; apply H; left; auto|].
  rewrite IH; [reflexivity|]. intros Hin. apply H. right. exact Hin.
Qed.

Lemma since_newline_none : forall a acc, ~ In ch_newline a -> since_newline a acc = acc + length a.
Proof.
  induction a as [|x a IH]; intros acc H; cbn [since_newline length]; [lia|].
  destruct (char_eqb x ch_newline) eqn:E; [apply char_eqb_eq in E; exfalso; apply H; left; auto|].
  rewrite IH; [lia|]. intros Hin. apply H. right. exact Hin.
Qed.

Lemma advance_over_exact : forall chars p, no_tab_cr chars ->
  line (advance_over chars p) = line p + count_newlines chars
  /\ column (advance_over chars p) = since_newline chars (column p).
Proof.
  induction chars as [|c chars IH]; intros p [Ht Hc]; cbn [advance_over count_newlines since_newline].
  { split; lia. }
  assert (Hs : no_tab_cr chars) by (split; intros Hin; [apply Ht|apply Hc]; right; exact Hin).
  assert (char_eqb c ch_tab = false) as -> by (apply char_eqb_neq; intros ->; apply Ht; left; auto).
  assert (char_eqb c ch_cr = false) as -> by (apply char_eqb_neq; intros ->; apply Hc; left; auto).
  destruct (char_eqb c ch_newline).
  - destruct (IH (Pos (line p + 1) 0 (begin p + 1)) Hs) as [-> ->]. cbn. split; lia.
  - destruct (IH (Pos (line p) (column p + 1) (begin p + 1)) Hs) as [-> ->]. cbn.
    rewrite Nat.add_1_r. split; lia.
Qed.

Lemma firstn_slice : forall (s : text) i j, i <= j -> firstn j s = firstn i s ++ slice s i j.
Proof.
  intros s i j H. unfold slice. rewrite <- (firstn_skipn i s) at 1.
  rewrite firstn_app. rewrite firstn_firstn. replace (Nat.min j i) with i by lia.
  destruct (Nat.le_gt_cases i (length s)) as [Hl|Hl].
  - rewrite firstn_length. replace (Nat.min i (length s)) with i by lia. reflexivity.
  - rewrite (skipn_all2 s) by lia. rewrite !firstn_nil. reflexivity.
Qed.

Lemma slice_incl : forall (s : text) i j c, In c (slice s i j) -> In c s.
Proof.
  intros s i j c H. unfold slice in H.
  assert (Hsk : In c (skipn i s)).
  { rewrite <- (firstn_skipn (j - i) (skipn i s)). apply in_or_app. left. exact H. }
  rewrite <- (firstn_skipn i s). apply in_or_app. right. exact Hsk.
Qed.

Lemma no_tab_cr_slice : forall s i j, no_tab_cr s -> no_tab_cr (slice s i j).
Proof. intros s i j [Ht Hc]. split; intros H; apply slice_incl in H; auto. Qed.

Lemma slice_length : forall (s : text) i j, j <= length s -> length (slice s i j) = j - i.
Proof. intros s i j H. unfold slice. rewrite firstn_length, skipn_length. lia. Qed.

Lemma loop_positions : forall fuel source p ts, tokenize_loop fuel source p = Some (Ok ts) ->
  no_tab_cr source ->
  Forall (fun t => tok_type t <> tk_block_comment -> ~ In ch_newline (tok_text source t)) ts ->
  exact_position source p -> begin p <= length source ->
  Forall (fun t => exact_position source (tok_pos t)) ts.
Proof.
  induction fuel as [|fuel IH]; intros source p ts H Htab Hnl Hp Hb; [discriminate|].
  pose proof (loop_tiles _ _ _ _ H) as Htile.
  cbn [tokenize_loop] in H.
  destruct (tokenize_step source p) as [[[t p']|]| | |] eqn:Es; try discriminate H.
  2: { injection H as <-. constructor. }
  destruct (tokenize_loop fuel source p') as [[ts'| | |]|] eqn:El; try discriminate H.
  injection H as <-. inversion Htile as [|? ? ? Hle _ _ Hend _]; subst.
  inversion Hnl as [|? ? Hnlt Hnlts]; subst.
  apply step_some in Es. destruct Es as (H1 & H2 & H3 & _ & H5 & H6 & H7 & H8).
  assert (Htp : exact_position source (tok_pos t)).
  { destruct Hp as [Hpl Hpc]. unfold exact_position. fold (tok_begin t).
    rewrite (firstn_slice source (begin p) (tok_begin t)) by lia.
    rewrite count_newlines_app, since_newline_app, <- Hpl, <- Hpc, H6.
    apply advance_over_exact. apply no_tab_cr_slice. exact Htab. }
  constructor; [exact Htp|].
  eapply IH; try eassumption; [|rewrite H5; exact Hend].
  destruct Htp as [Htl Htc]. fold (tok_begin t) in Htl, Htc.
  unfold exact_position. rewrite H5.
  rewrite (firstn_slice source (tok_begin t) (tok_end t)) by (unfold tok_end; lia).
  rewrite count_newlines_app, since_newline_app, <- Htl, <- Htc.
  fold (tok_text source t).
  destruct (token_type_eqb (tok_type t) tk_block_comment) eqn:Eb.
  - apply token_type_eqb_eq in Eb. rewrite (H8 Eb). apply advance_over_exact.
    apply no_tab_cr_slice. exact Htab.
  - assert (Hne : tok_type t <> tk_block_comment)
      by (intros He; rewrite He in Eb; discriminate Eb).
    rewrite (H7 Hne). specialize (Hnlt Hne). unfold to_right. cbn [line column].
    rewrite count_newlines_none, since_newline_none by exact Hnlt.
    unfold tok_text. rewrite slice_length by exact Hend. unfold tok_end. split; lia.
Qed.

(** Only string literals, [!], [&&] and block comments can cover a newline. *)
Definition may_cover_newline (t : token_type) : bool :=
  match t with
  | tk_block_comment | tk_string_literal | tk_logical_and | tk_logical_not => true
  | _ => false
  end.

Lemma digit_not_newline : forall base c, is_digit_of base c -> c <> ch_newline.
Proof. intros base c (d & Hd & _) ->. discriminate. Qed.

Lemma digits_no_newline : forall base s, Forall (is_digit_of base) s -> ~ In ch_newline s.
Proof.
  intros base s H Hin. rewrite Forall_forall in H. apply H in Hin.
  apply (digit_not_newline base ch_newline Hin eq_refl).
Qed.

Lemma literal_no_newline : forall t p ds, is_literal_text t p ds -> ~ In ch_newline p.
Proof.
  intros t p ds H. inversion H; subst; cbn.
  - intros [Hx|[Hx|Hx]]; try discriminate Hx. eapply digits_no_newline; eassumption.
  - intros [Hx|[Hx|Hx]]; try discriminate Hx. eapply digits_no_newline; eassumption.
  - intros [Hx|Hx]; try discriminate Hx. eapply digits_no_newline; eassumption.
  - intros [Hx|[]]; discriminate Hx.
  - intros [Hx|Hx]; [eapply digit_not_newline; eassumption|eapply digits_no_newline; eassumption].
Qed.

Lemma match_integer_no_newline : forall s n t, match_integer_literal s = LM lm_ok n t ->
  ~ In ch_newline (firstn n s).
Proof.
  intros s n t H. apply match_integer_literal_ok in H.
  destruct H as (p & ds & rest & -> & <- & Ht & _).
  rewrite firstn_app, Nat.sub_diag, firstn_all. cbn [firstn]. rewrite app_nil_r.
  eapply literal_no_newline. exact Ht.
Qed.

Lemma word_no_newline : forall s w, maximal_word s w -> ~ In ch_newline w.
Proof.
  intros s w (_ & H & _) Hin. rewrite Forall_forall in H. apply H in Hin.
  apply ident_b_iff in Hin. discriminate Hin.
Qed.

Lemma operator_no_newline : forall t q, operator_spelling t = Some q -> ~ In ch_newline (str q).
Proof.
  intros t q H. destruct t; try discriminate H; injection H as <-; cbn;
    intuition discriminate.
Qed.

Lemma token_no_newline : forall s n t, token_facts s n t -> may_cover_newline t = false ->
  ~ In ch_newline (firstn n s).
Proof.
  intros s n t (Hr & _ & _ & Hs) Hm.
  assert (Hlong : long_token t = false) by (destruct t; try discriminate Hm; reflexivity).
  destruct (Hs Hlong) as [Hle Hop]. clear Hs Hlong.
  destruct (operator_spelling t) as [q|] eqn:Eop.
  - rewrite (Hop q eq_refl). eapply operator_no_newline. exact Eop.
  - unfold right_token in Hr. rewrite Eop in Hr. clear Hop.
    destruct t; try discriminate Hm; try discriminate Eop;
      try (apply match_integer_no_newline in Hr; exact Hr);
      try (destruct Hr as (q & _ & Hf & Hw); rewrite Hf; eapply word_no_newline; exact Hw).
    + destruct Hr as [Hw _]. eapply word_no_newline; exact Hw.
    + destruct Hr as [b Hb]. apply line_comment_some in Hb. apply Hb.
Qed.

Lemma tokens_exact : forall source ts, tokenize source = Some (Ok ts) ->
  ~ In ch_tab source -> ~ In ch_cr source ->
  Forall (fun t => tok_type t = tk_string_literal \/ tok_type t = tk_logical_and
                   \/ tok_type t = tk_logical_not -> ~ In ch_newline (tok_text source t)) ts ->
  Forall (fun t => exact_position source (tok_pos t)) ts.
Proof.
  intros source ts H Ht Hc Hnl. unfold tokenize in H.
  eapply loop_positions; try exact H.
  - split; assumption.
  - pose proof (loop_tokens _ _ _ _ H) as Hf. rewrite Forall_forall in Hf, Hnl |- *.
    intros t Hin Hne. specialize (Hf t Hin). specialize (Hnl t Hin).
    destruct (may_cover_newline (tok_type t)) eqn:Em.
    + apply Hnl. destruct (tok_type t); try discriminate Em; auto. congruence.
    + unfold tok_text, slice. replace (tok_end t - tok_begin t) with (tok_length t) by (unfold tok_end; lia).
      eapply token_no_newline; eassumption.
  - split; reflexivity.
  - cbn. lia.
Qed.

(** * Totality *)

(** No [!] or [&&] near the end of the text, and the text does not end with a slash. *)
Definition no_trailing_long_token (source : text) : Prop :=
  (forall i r, skipn i source = str "!" ++ r -> i + 3 <= length source) /\
  (forall i r, skipn i source = str "&&" ++ r -> i + 3 <= length source) /\
  (forall a, source <> a ++ ["/"%char]).

Lemma advance_enough : forall E source p n, begin p + n < length source ->
  exists p', @advance_position_by E source p n = Ok p'.
Proof.
  intros E source p n H. unfold advance_position_by, assert_then.
  assert (Nat.ltb (begin p + n) (length source) = true) as -> by (apply Nat.ltb_lt; lia).
  eexists. reflexivity.
Qed.

Lemma step_total : forall source p, no_trailing_long_token source -> begin p <= length source ->
  match tokenize_step source p with
  | Ok None => True
  | Ok (Some (t, p')) => begin p' <= length source
  | Err e => begin (te_pos e) <= length source
  | _ => False
  end.
Proof.
  intros source p (Hnot & Hand & Hslash) Hb.
  destruct (tokenize_step source p) as [[[t p']|]|e| |] eqn:Es; [|exact I|..].
  - apply step_some in Es. destruct Es as (H1 & H2 & H3 & (Hr & Hn & Hl3 & Hl) & H5 & _).
    rewrite H5. unfold tok_end.
    destruct (long_token (tok_type t)) eqn:El.
    + rewrite (Hl3 eq_refl). unfold right_token in Hr.
      destruct (tok_type t); try discriminate El; cbn in Hr; destruct Hr as [[[r Hr] _] _].
      * exact (Hand _ _ Hr).
      * exact (Hnot _ _ Hr).
    + destruct (Hl eq_refl) as [Hle _]. rewrite skipn_length in Hle. lia.
  - unfold tokenize_step in Es.
    destruct (Nat.eqb (begin p) (length source)); [discriminate|]. unfold assert_then in Es.
    destruct (Nat.ltb (begin p) (length source)); [|discriminate].
    pose proof (white_prefix source (begin p)) as Hw.
    set (w := prefix_length (fun c => in_set c [" "; ch_cr; ch_tab; ch_newline]%char) (skipn (begin p) source)) in *.
    destruct Hw as (_ & Hw2 & _). rewrite skipn_length in Hw2.
    destruct (Nat.eqb w _); [discriminate|].
    destruct (if Nat.eqb w 0 then Ok p else @advance_position_by tokenize_error source p w) as [p1|e1| |] eqn:Ea;
      cbn [bind] in Es; try discriminate Es.
    + assert (Hb1 : begin p1 = begin p + w).
      { destruct (Nat.eqb w 0) eqn:E0.
        - injection Ea as <-. apply Nat.eqb_eq in E0. lia.
        - apply advance_ok in Ea. apply Ea. }
      destruct (try_match p1 _) as [[n ty]|e2| |] eqn:Et; cbn [bind] in Es; try discriminate Es.
      * destruct (negb _); [discriminate|].
        unfold advance_position_by, assert_then in Es. destruct (Nat.ltb _ _); discriminate Es.
      * injection Es as <-. apply try_match_err in Et. destruct Et as (k & Hk & ->).
        cbn. rewrite skipn_skipn', skipn_length in Hk. lia.
    + exfalso. destruct (Nat.eqb w 0); [discriminate|].
      unfold advance_position_by, assert_then in Ea. destruct (Nat.ltb _ _); discriminate Ea.
  - exfalso. unfold tokenize_step in Es.
    destruct (Nat.eqb (begin p) (length source)) eqn:Ee; [discriminate|].
    apply Nat.eqb_neq in Ee. unfold assert_then in Es.
    destruct (Nat.ltb (begin p) (length source)) eqn:El; [|apply Nat.ltb_ge in El; lia].
    apply Nat.ltb_lt in El.
    pose proof (white_prefix source (begin p)) as Hw.
    set (w := prefix_length (fun c => in_set c [" "; ch_cr; ch_tab; ch_newline]%char) (skipn (begin p) source)) in *.
    destruct Hw as (_ & Hw2 & Hw3). rewrite skipn_length in Hw2.
    destruct (Nat.eqb w (length (skipn (begin p) source))) eqn:Ew; [discriminate|].
    apply Nat.eqb_neq in Ew. rewrite skipn_length in Ew.
    assert (Hp1 : exists p1, (if Nat.eqb w 0 then Ok p else @advance_position_by tokenize_error source p w) = Ok p1
                  /\ begin p1 = begin p + w).
    { destruct (Nat.eqb w 0) eqn:E0.
      - apply Nat.eqb_eq in E0. exists p. split; [reflexivity|lia].
      - destruct (advance_enough tokenize_error source p w) as [p1 Hp1]; [lia|].
        exists p1. split; [exact Hp1|]. apply advance_ok in Hp1. apply Hp1. }
    destruct Hp1 as (p1 & Hp1 & Hb1). rewrite Hp1 in Es. cbn [bind] in Es.
    destruct (skipn w (skipn (begin p) source)) as [|c r] eqn:Er.
    { apply (f_equal (@length ascii)) in Er. rewrite !skipn_length in Er.
      change (@length ascii []) with 0 in Er. lia. }
    pose proof (try_match_defined p1 c r Hw3) as Hdef.
    destruct (try_match p1 (c :: r)) as [[n ty]| | |] eqn:Et; cbn [bind] in Es; try discriminate Es;
      try exact Hdef.
    destruct (token_type_eqb ty tk_block_comment) eqn:Eb; cbn [negb] in Es; [|discriminate].
    apply token_type_eqb_eq in Eb. subst ty. apply try_match_ok in Et.
    destruct Et as (Hr & _). cbn in Hr. apply block_comment_some in Hr.
    destruct Hr as (_ & Hle & Hend). rewrite <- Er in Hle, Hend.
    rewrite skipn_skipn' in Hle, Hend. rewrite skipn_length in Hle, Hend.
    destruct (advance_enough tokenize_error source p1 n) as [p2 Hp2].
    { destruct (Nat.eq_dec n (length source - (begin p + w))) as [He|]; [|lia].
      exfalso. destruct (Hend He) as [a Ha].
      apply (Hslash (firstn (begin p + w) source ++ a)).
      rewrite <- app_assoc, <- Ha, firstn_skipn. reflexivity. }
    rewrite Hp2 in Es. discriminate.
  - exfalso. unfold tokenize_step, assert_then in Es.
    destruct (Nat.eqb (begin p) (length source)); [discriminate|].
    destruct (Nat.ltb (begin p) (length source)) eqn:El; [|discriminate].
    pose proof (white_prefix source (begin p)) as Hw.
    set (w := prefix_length (fun c => in_set c [" "; ch_cr; ch_tab; ch_newline]%char) (skipn (begin p) source)) in *.
    destruct Hw as (_ & _ & Hw3).
    destruct (Nat.eqb w _) eqn:Ew; [discriminate|]. clear El.
    destruct (if Nat.eqb w 0 then Ok p else @advance_position_by tokenize_error source p w) as [p1|e1| |] eqn:Ea;
      cbn [bind] in Es; try discriminate Es.
    + destruct (skipn w (skipn (begin p) source)) as [|c r] eqn:Er; [discriminate Es|].
      pose proof (try_match_defined p1 c r Hw3) as Hdef.
      destruct (try_match p1 (c :: r)) as [[n ty]| | |]; cbn [bind] in Es; try discriminate Es;
        try exact Hdef.
      destruct (negb _); [discriminate|].
      unfold advance_position_by, assert_then in Es. destruct (Nat.ltb _ _); discriminate Es.
    + destruct (Nat.eqb w 0); [discriminate|].
      unfold advance_position_by, assert_then in Ea. destruct (Nat.ltb _ _); discriminate Ea.
Qed.

Lemma loop_total : forall fuel source p r, tokenize_loop fuel source p = Some r ->
  no_trailing_long_token source -> begin p <= length source ->
  match r with
  | Ok _ => True
  | Err e => begin (te_pos e) <= length source
  | _ => False
  end.
Proof.
  induction fuel as [|fuel IH]; intros source p r H Hno Hb; [discriminate|].
  cbn [tokenize_loop] in H. pose proof (step_total source p Hno Hb) as Hst.
  destruct (tokenize_step source p) as [[[t p']|]|e| |]; try contradiction.
  - destruct (tokenize_loop fuel source p') as [r'|] eqn:El; [|discriminate].
    pose proof (IH _ _ _ El Hno Hst) as Hr.
    destruct r'; injection H as <-; auto.
  - injection H as <-. exact I.
  - injection H as <-. exact Hst.
Qed.

Lemma tokenize_total : forall source, no_trailing_long_token source ->
  exists r, tokenize source = Some r /\
  match r with
  | Ok _ => True
  | Err e => begin (te_pos e) <= length source
  | _ => False
  end.
Proof.
  intros source H. unfold tokenize.
  destruct (tokenize_loop (S (length source)) source (Pos 0 0 0)) as [r|] eqn:E.
  - exists r. split; [reflexivity|]. eapply loop_total; [exact E|exact H|cbn; lia].
  - exfalso. revert E. apply loop_enough_fuel; cbn [begin]; lia.
Qed.

Lemma tokenize_enough_fuel : forall source, tokenize source <> None.
Proof. intros source. apply loop_enough_fuel; cbn [begin]; lia. Qed.
