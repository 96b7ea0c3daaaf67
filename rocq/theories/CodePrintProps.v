(** C67: code, tokens and long texts on a terminal. *)
From Coq Require Import ZArith Ascii String List Bool Lia.
From Verif Require Import Prelude Text Tables Decimal Tokenizer TokenizerSpec TokenizerProofs CodeString
  CodeStringProofs Diagnostics DiagnosticsSpec DiagnosticsProofs.
From Verif Require CodeStringSpec DecimalSpec.
Import ListNotations.
Open Scope string_scope.
Open Scope list_scope.
Open Scope nat_scope.
Local Arguments char_eqb : simpl never.

(** * Specification *)

(** [out] shows the text [t] and the part of it from [i] up to [j] in one colour, [c]. *)
Definition colored (out t : text) (i j : nat) (c : text) : Prop :=
  exists before after,
    out = before ++ c ++ CodeStringSpec.slice i j t ++ ansi_reset ++ after /\ escape c /\
    shows before (firstn i t) /\ shows after (skipn j t).

(** A line about a token: its place, its kind, and for a kind of tokens with different texts the text. *)
Definition listed (source : text) (t : token) (l : text) : Prop :=
  exists s1 n1 s2 n2 r, l = s1 ++ n1 ++ str ":" ++ s2 ++ n2 ++ str ": " ++ type_name (tok_type t) ++ r ++ [ch_newline] /\
    Forall (eq " "%char) (s1 ++ s2) /\
    DecimalSpec.denotes n1 (Z.of_nat (line (tok_pos t)) + 1) /\
    DecimalSpec.denotes n2 (Z.of_nat (column (tok_pos t)) + 1) /\
    (Nat.eqb (token_type_length (tok_type t)) 0 = false -> r = []) /\
    (Nat.eqb (token_type_length (tok_type t)) 0 = true ->
     exists r', r = str "(" ++ TokenizerSpec.tok_text source t ++ str ")" ++ r').

(** A text with line ends and tabulators written as escape sequences. *)
Fixpoint escaped (t : text) : text :=
  match t with
  | [] => []
  | c :: r =>
      (if Ascii.eqb c "013" then str "\r" else if Ascii.eqb c "009" then str "\t"
       else if Ascii.eqb c "010" then str "\n" else [c]) ++ escaped r
  end.

(** * Proof *)

Fixpoint spanned (p : nat) (l : list span) (n : nat) : Prop :=
  match l with
  | [] => p <= n
  | x :: r => p <= s_begin x /\ spanned (CodeStringSpec.s_end x) r n
  end.

Lemma spanned_le : forall l p n, spanned p l n -> p <= n.
Proof.
  induction l as [|x l IH]; intros p n H; [exact H|]. destruct H as [H1 H2]. apply IH in H2.
  unfold CodeStringSpec.s_end in H2. lia.
Qed.

Lemma well_spanned_from : forall l p n, p <= n -> (forall x, In x l -> p <= s_begin x) ->
  (forall i j x y, nth_error l i = Some x -> nth_error l j = Some y -> i < j -> CodeStringSpec.s_end x <= s_begin y) ->
  (forall x, In x l -> CodeStringSpec.s_end x <= n) -> spanned p l n.
Proof.
  induction l as [|x l IH]; intros p n P B O L; [exact P|]. split; [apply B; left; reflexivity|].
  apply IH.
  - apply L. left. reflexivity.
  - intros y I0. apply In_nth_error in I0. destruct I0 as (j & J). apply (O 0 (S j) x y); [reflexivity|exact J|lia].
  - intros i j y z I0 J K. apply (O (S i) (S j) y z); [exact I0|exact J|lia].
  - intros y I0. apply L. right. exact I0.
Qed.

Lemma escape_highlight : forall k, escape (highlight_color k).
Proof.
  intros []; first [apply escape_h_white|apply escape_h_blue|apply escape_h_cyan|apply escape_h_green
    |apply escape_h_black|apply escape_black|apply escape_h_magenta|apply escape_h_red].
Qed.

Lemma slice_skip : forall p q (t : text), p <= q -> q <= length t ->
  CodeStringSpec.slice p q t ++ skipn q t = skipn p t.
Proof.
  intros p q t P Q. unfold CodeStringSpec.slice. rewrite <- (firstn_skipn (q - p) (skipn p t)) at 2.
  f_equal. rewrite skipn_skipn'. f_equal. lia.
Qed.

Lemma print_spans_ok : forall E t l p, spanned p l (length t) ->
  exists out, @print_spans E t l p = Ok out /\ shows out (skipn p t) /\
    forall x, In x l -> exists before after,
      out = before ++ highlight_color (s_type x) ++ CodeStringSpec.slice (s_begin x) (CodeStringSpec.s_end x) t
            ++ ansi_reset ++ after /\
      shows before (CodeStringSpec.slice p (s_begin x) t) /\ shows after (skipn (CodeStringSpec.s_end x) t).
Proof.
  induction l as [|x l IH]; intros p S0.
  - cbn [spanned] in S0. cbn [print_spans]. destruct (Nat.eqb p (length t)) eqn:Q.
    + apply Nat.eqb_eq in Q. subst p. exists []. split; [reflexivity|]. split; [rewrite skipn_all; constructor|contradiction].
    + unfold substr, assert_then. rewrite (proj2 (Nat.leb_le _ _) S0). eexists. split; [reflexivity|].
      split; [|contradiction]. rewrite firstn_all2; [apply shows_refl|]. rewrite skipn_length. lia.
  - destruct S0 as [S1 S2]. pose proof (spanned_le _ _ _ S2) as Le.
    destruct (IH _ S2) as (rest & R & SR & CR). clear IH. cbn [print_spans].
    unfold assert_then at 1. rewrite (proj2 (Nat.leb_le _ _) S1).
    assert (G : @Nat.eqb p (s_begin x) = Nat.eqb p (s_begin x)) by reflexivity.
    assert (Gap : (if Nat.eqb p (s_begin x) then Ok [] else @substr E t p (s_begin x - p))
                  = Ok (CodeStringSpec.slice p (s_begin x) t)).
    { unfold CodeStringSpec.slice. destruct (Nat.eqb p (s_begin x)) eqn:Q.
      - apply Nat.eqb_eq in Q. rewrite <- Q, Nat.sub_diag. reflexivity.
      - unfold substr, assert_then. rewrite (proj2 (Nat.leb_le p (length t))); [reflexivity|].
        unfold CodeStringSpec.s_end in Le. lia. }
    rewrite Gap. cbn [bind]. clear Gap G.
    assert (Sp : @substr E t (s_begin x) (s_length x) = Ok (CodeStringSpec.slice (s_begin x) (CodeStringSpec.s_end x) t)).
    { unfold substr, assert_then, CodeStringSpec.slice, CodeStringSpec.s_end in *.
      rewrite (proj2 (Nat.leb_le (s_begin x) (length t))) by lia.
      replace (s_begin x + s_length x - s_begin x) with (s_length x) by lia. reflexivity. }
    rewrite Sp. cbn [bind]. clear Sp. fold (CodeStringSpec.s_end x). rewrite R. cbn [bind].
    assert (Bt : s_begin x <= CodeStringSpec.s_end x) by (unfold CodeStringSpec.s_end; lia).
    eexists. split; [reflexivity|]. split.
    + rewrite <- (slice_skip p (s_begin x)) by lia. apply shows_app; [apply shows_refl|].
      rewrite <- (slice_skip (s_begin x) (CodeStringSpec.s_end x)) by lia.
      apply (shows_app _ _ []); [apply shows_escape, escape_highlight|].
      apply shows_app; [apply shows_refl|]. apply (shows_app _ _ []); [apply shows_escape, escape_reset|exact SR].
    + intros y [<-|I0].
      * exists (CodeStringSpec.slice p (s_begin x) t), rest. split; [reflexivity|]. split; [apply shows_refl|exact SR].
      * destruct (CR y I0) as (b & a & Eo & Sb & Sa).
        exists (CodeStringSpec.slice p (s_begin x) t ++ highlight_color (s_type x)
                ++ CodeStringSpec.slice (s_begin x) (CodeStringSpec.s_end x) t ++ ansi_reset ++ b), a.
        split; [rewrite Eo, <- !app_assoc; reflexivity|]. split; [|exact Sa].
        assert (Le' : CodeStringSpec.s_end x <= s_begin y).
        { clear -S2 I0. revert S2 I0. generalize (CodeStringSpec.s_end x). induction l as [|z l IH]; intros q S2 I0; [contradiction I0|].
          destruct S2 as [A B]. destruct I0 as [<-|I0]; [exact A|]. specialize (IH _ B I0).
          unfold CodeStringSpec.s_end in IH. lia. }
        assert (Sl : CodeStringSpec.slice p (s_begin y) t
          = CodeStringSpec.slice p (s_begin x) t ++ CodeStringSpec.slice (s_begin x) (CodeStringSpec.s_end x) t
            ++ CodeStringSpec.slice (CodeStringSpec.s_end x) (s_begin y) t).
        { assert (Cut : forall a b c, a <= b -> b <= c ->
            CodeStringSpec.slice a c t = CodeStringSpec.slice a b t ++ CodeStringSpec.slice b c t).
          { clear. intros a b c A B. unfold CodeStringSpec.slice.
            replace (c - a) with ((b - a) + (c - b)) by lia. rewrite <- (firstn_skipn (b - a) (firstn _ (skipn a t))).
            rewrite firstn_firstn, Nat.min_l by lia. f_equal. rewrite skipn_firstn_comm, skipn_skipn'.
            replace (b - a + (c - b) - (b - a)) with (c - b) by lia. do 2 f_equal. lia. }
          rewrite (Cut p (s_begin x)) by lia. f_equal. apply Cut; lia. }
        rewrite Sl. apply shows_app; [apply shows_refl|]. apply (shows_app _ _ []); [apply shows_escape, escape_highlight|].
        apply shows_app; [apply shows_refl|]. apply (shows_app _ _ []); [apply shows_escape, escape_reset|exact Sb].
Qed.

(** ** C67: Code, tokens and long texts are shown as they are *)

(** Highlighted code is shown as it is, every span of it in its colour. *)
Theorem C67_code : forall E s, CodeStringSpec.well_spanned s ->
  exists out, @print_code_string E s true = Ok out /\ shows out (cs_text s) /\
    (forall x, In x (cs_spans s) ->
       colored out (cs_text s) (s_begin x) (CodeStringSpec.s_end x) (highlight_color (s_type x))) /\
    @print_code_string E s false = Ok (cs_text s).
Proof.
  intros E s (W1 & W2 & W3). unfold print_code_string.
  destruct (print_spans_ok E (cs_text s) (cs_spans s) 0) as (out & H & Sh & C).
  { apply well_spanned_from; [lia|intros; lia|exact W2|exact W3]. }
  exists out. split; [exact H|]. split; [exact Sh|]. split; [|reflexivity].
  intros x I0. destruct (C x I0) as (b & a & Eo & Sb & Sa). exists b, a. split; [exact Eo|].
  split; [apply escape_highlight|]. split; [|exact Sa].
  unfold CodeStringSpec.slice in Sb. cbn [skipn] in Sb. rewrite Nat.sub_0_r in Sb. exact Sb.
Qed.

(** This includes all code that is built by appends and attempts, as by the generators. *)
Theorem C67_built_code : forall E l, let s := fst (acts l empty_code) in
  exists out, @print_code_string E s true = Ok out /\ shows out (cs_text s).
Proof.
  intros E l s. destruct (C67_code E s) as (out & H & Sh & _); [|exists out; auto].
  apply acts_well_spanned. exact well_spanned_empty.
Qed.

Example C67_code_example :
  @print_code_string unit (Code (str "return x") [Span 0 6 sp_keyword; Span 7 1 sp_identifier]) true =
    Ok (ansi "0;95" ++ str "return" ++ ansi "0" ++ str " " ++ ansi "0;97" ++ str "x" ++ ansi "0").
Proof. vm_compute. reflexivity. Qed.

(** Spans that are not in order abort the program. *)
Example C67_disorder_example :
  @print_code_string unit (Code (str "ab") [Span 1 1 sp_keyword; Span 0 1 sp_keyword]) true = Abort.
Proof. vm_compute. reflexivity. Qed.

(** The tokens of every source can be listed, and each line is about one token. *)
Theorem C67_tokens : forall E source ts,
  tokenize source = Some (Ok ts) ->
  Forall (fun t => (Z.of_nat (line (tok_pos t)) + 1 < 10 ^ 20)%Z /\ (Z.of_nat (column (tok_pos t)) + 1 < 10 ^ 20)%Z) ts ->
  exists lines, @print_tokens E ts source = Ok (concat lines) /\ Forall2 (listed source) ts lines.
Proof.
  intros E source ts H B. pose proof (loop_tiles _ _ _ _ H) as Ti. clear H. revert Ti B.
  generalize (begin (Pos 0 0 0)). induction ts as [|t ts IH]; intros n Ti B.
  - exists []. split; [reflexivity|constructor].
  - inversion Ti; subst. inversion B as [|? ? [B1 B2] B3]; subst.
    destruct (IH (tok_end t)) as (lines & P & F); try assumption. clear IH. cbn [print_tokens].
    unfold substr, assert_then. fold (tok_begin t).
    rewrite (proj2 (Nat.leb_le (tok_begin t) (length source))) by (unfold tok_end in *; lia). cbn [bind].
    rewrite P. cbn [bind].
    set (x := firstn (tok_length t) (skipn (tok_begin t) source)).
    set (r := if Nat.eqb (token_type_length (tok_type t)) 0
              then str "(" ++ x ++ str ")"
                   ++ (if Nat.ltb 1 (length x) then str " (" ++ number (length x) ++ str " characters)" else [])
              else []).
    exists ((padded 2 (number (line (tok_pos t) + 1)) ++ str ":" ++ padded 2 (number (column (tok_pos t) + 1))
          ++ str ": " ++ type_name (tok_type t) ++ r ++ [ch_newline]) :: lines).
    split. { cbn [concat]. rewrite <- !app_assoc. reflexivity. }
    constructor; [|exact F].
    exists (repeat " "%char (2 - length (number (line (tok_pos t) + 1)))), (number (line (tok_pos t) + 1)),
      (repeat " "%char (2 - length (number (column (tok_pos t) + 1)))), (number (column (tok_pos t) + 1)), r.
    split; [unfold padded; rewrite <- !app_assoc; reflexivity|].
    split; [apply Forall_app; split; apply repeat_spaces|].
    split. { replace (Z.of_nat (line (tok_pos t)) + 1)%Z with (Z.of_nat (line (tok_pos t) + 1)) by lia. apply number_denotes. lia. }
    split. { replace (Z.of_nat (column (tok_pos t)) + 1)%Z with (Z.of_nat (column (tok_pos t) + 1)) by lia. apply number_denotes. lia. }
    unfold r. split; intros Q; rewrite Q; [reflexivity|].
    eexists. replace (tok_text source t) with x; [reflexivity|].
    unfold x, tok_text, slice. f_equal. unfold tok_end. lia.
Qed.

Example C67_tokens_example : exists ts, tokenize (str "x = 42") = Some (Ok ts) /\
  @print_tokens unit ts (str "x = 42") =
    Ok (str " 1: 1: identifier(x)" ++ [ch_newline] ++ str " 1: 3: assign" ++ [ch_newline]
        ++ str " 1: 5: decimal_literal(42) (2 characters)" ++ [ch_newline]).
Proof. eexists. split; [vm_compute; reflexivity|]. vm_compute. reflexivity. Qed.

(** A long text is shown up to the limit, with at most one column more, and only then is it cut off. *)
Theorem C67_cut_off : forall limit v colors, (0 <= limit)%Z ->
  exists k, k <= length v /\
    shows (print_cut_off limit v colors) (escaped (firstn k v) ++ if Nat.eqb k (length v) then [] else str " ...") /\
    (Z.of_nat (length (escaped (firstn k v))) <= limit + 1)%Z /\
    (k < length v -> (limit <= Z.of_nat (length (escaped (firstn k v))))%Z).
Proof.
  intros limit v colors. revert limit.
  assert (G : forall limit, (-1 <= limit)%Z -> exists k, k <= length v /\
    shows (print_cut_off limit v colors) (escaped (firstn k v) ++ if Nat.eqb k (length v) then [] else str " ...") /\
    (Z.of_nat (length (escaped (firstn k v))) <= limit + 1)%Z /\
    (k < length v -> (limit <= Z.of_nat (length (escaped (firstn k v))))%Z)).
  2:{ intros limit L. apply G. lia. }
  induction v as [|c v IH]; intros limit L.
  - exists 0. split; [reflexivity|]. split; [constructor|]. cbn. split; [lia|]. intros X. lia.
  - cbn [print_cut_off]. destruct (limit <=? 0)%Z eqn:Q.
    + apply Z.leb_le in Q. exists 0. split; [lia|]. cbn [firstn escaped length Nat.eqb]. split.
      * apply (shows_app _ _ []); [apply shows_color, escape_h_black|].
        rewrite <- (app_nil_r (str " ...")) at 2. apply shows_app; [apply shows_refl|]. apply shows_color, escape_reset.
      * cbn. lia.
    + apply Z.leb_gt in Q. unfold char_eqb.
      assert (Two : forall s, length (str s) = 2 -> (forall r, escaped (c :: r) = str s ++ escaped r) ->
        exists k, k <= length (c :: v) /\
          shows (color colors ansi_h_red ++ str s ++ color colors ansi_reset ++ print_cut_off (limit - 2) v colors)
            (escaped (firstn k (c :: v)) ++ if Nat.eqb k (length (c :: v)) then [] else str " ...") /\
          (Z.of_nat (length (escaped (firstn k (c :: v)))) <= limit + 1)%Z /\
          (k < length (c :: v) -> (limit <= Z.of_nat (length (escaped (firstn k (c :: v)))))%Z)).
      { intros s Ls Es. destruct (IH (limit - 2)%Z) as (k & K & Sh & U & V); [lia|].
        exists (S k). cbn [length firstn Nat.eqb]. rewrite Es. rewrite app_length, Ls. split; [lia|]. split.
        - rewrite <- app_assoc. apply (shows_app _ _ []); [apply shows_color, escape_h_red|].
          apply shows_app; [apply shows_refl|]. apply (shows_app _ _ []); [apply shows_color, escape_reset|exact Sh].
        - split; [lia|]. intros X. assert (k < length v) by lia. specialize (V H). lia. }
      destruct (Ascii.eqb c ch_cr) eqn:C1; [apply Two; [reflexivity|]; intros r; cbn [escaped]; unfold ch_cr in C1; rewrite C1; reflexivity|].
      destruct (Ascii.eqb c ch_tab) eqn:C2; [apply Two; [reflexivity|]; intros r; cbn [escaped]; unfold ch_cr, ch_tab in C1, C2; rewrite C1, C2; reflexivity|].
      destruct (Ascii.eqb c ch_newline) eqn:C3; [apply Two; [reflexivity|]; intros r; cbn [escaped]; unfold ch_cr, ch_tab, ch_newline in C1, C2, C3; rewrite C1, C2, C3; reflexivity|].
      destruct (IH (limit - 1)%Z) as (k & K & Sh & U & V); [lia|]. clear Two.
      exists (S k). cbn [length firstn Nat.eqb escaped]. unfold ch_cr, ch_tab, ch_newline in C1, C2, C3. rewrite C1, C2, C3.
      rewrite app_length. cbn [length]. split; [lia|]. split; [apply sh_char; exact Sh|].
      split; [lia|]. intros X. assert (k < length v) by lia. specialize (V H). lia.
Qed.

Example C67_cut_off_example :
  print_cut_off 4 (str "ab" ++ [ch_newline] ++ str "cd") false = str "ab\n ...".
Proof. vm_compute. reflexivity. Qed.

(** * Assumptions of the theorems above *)
Print Assumptions C67_code.
Print Assumptions C67_built_code.
Print Assumptions C67_tokens.
Print Assumptions C67_cut_off.
