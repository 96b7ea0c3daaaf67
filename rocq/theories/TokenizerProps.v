(** C15 to C18: the tokenizer. *)
From Coq Require Import ZArith Ascii String List Bool Lia.
From Verif Require Import Prelude Text Literals LiteralsSpec Tables Tokenizer TokenizerSpec TokenizerProofs.
Import ListNotations.
Open Scope string_scope.
Open Scope list_scope.
Open Scope nat_scope.

(** ** C15: Tokens tile the source *)

(** [tiles] (TokenizerSpec.v): in order, not overlapping, not empty, inside the source, and only white
    space between, before and after.  Comments are tokens themselves. *)
Theorem C15_tokens_tile_source : forall source ts,
  tokenize source = Some (Ok ts) -> tiles source 0 ts.
Proof. intros source ts H. exact (loop_tiles _ _ _ _ H). Qed.

Example C15_example : exists ts, tokenize "let x = 0x1f; // end" = Some (Ok ts) /\ length ts = 6.
Proof. eexists. vm_compute. split; reflexivity. Qed.

(** ** C16: Maximal munch *)

(** Every token of a successful run has the type the longest match rule gives ([right_token] in
    TokenizerSpec.v), and its text is exactly what that type spells, except for [!] and [&&].
    The full statement has no exception; it is false, see [C16_token_text_refuted]. *)
Theorem C16_longest_match_partial : forall source ts,
  tokenize source = Some (Ok ts) ->
  Forall (fun t =>
    right_token (skipn (tok_begin t) source) (tok_type t) (tok_length t) /\
    (tok_type t <> tk_logical_and -> tok_type t <> tk_logical_not ->
     forall q, operator_spelling (tok_type t) = Some q -> tok_text source t = str q)) ts.
Proof.
  intros source ts H. eapply Forall_impl; [|exact (loop_tokens _ _ _ _ H)].
  intros t (Hr & _ & _ & Hs). split; [exact Hr|]. intros H1 H2 q Hq.
  assert (Hl : long_token (tok_type t) = false)
    by (destruct (tok_type t); try reflexivity; congruence).
  unfold tok_text, slice. replace (tok_end t - tok_begin t) with (tok_length t) by (unfold tok_end; lia).
  exact (proj2 (Hs Hl) q Hq).
Qed.

Example C16_example :
  option_map (fun r => match r with Ok ts => map tok_type ts | _ => [] end)
    (tokenize "a<<=iff if(x1=>y)") =
  Some [tk_identifier; tk_shift_left; tk_assign; tk_identifier; tk_keyword_if; tk_left_parenthesis;
        tk_identifier; tk_double_right_arrow; tk_identifier; tk_right_parenthesis].
Proof. vm_compute. reflexivity. Qed.

(** The token for [&&] swallows the next character, here the identifier [b], and [!] the next two. *)
Theorem C16_token_text_refuted : exists source ts t,
  tokenize source = Some (Ok ts) /\ In t ts /\
  operator_spelling (tok_type t) = Some "&&" /\ tok_text source t = str "&&b".
Proof.
  exists (str "a&&b"). eexists. eexists. split; [vm_compute; reflexivity|].
  split; [right; left; reflexivity|]. vm_compute. auto.
Qed.

(** ** C17: Source positions are exact *)

(** Full statement: for every token the recorded line and column are the number of newlines before it
    and the distance from the last one.  Proved when the source has no tabs or carriage returns and no
    string literal, [!] or [&&] token covers a newline; false otherwise, see the refutations.
    The recorded offset needs no condition: it is the offset C15 and C16 speak of. *)
Theorem C17_positions_exact_partial : forall source ts,
  tokenize source = Some (Ok ts) ->
  ~ In ch_tab source -> ~ In ch_cr source ->
  Forall (fun t => tok_type t = tk_string_literal \/ tok_type t = tk_logical_and
                   \/ tok_type t = tk_logical_not -> ~ In ch_newline (tok_text source t)) ts ->
  Forall (fun t => exact_position source (tok_pos t)) ts.
Proof. exact tokens_exact. Qed.

Example C17_example : exists ts,
  tokenize (str "a /* x" ++ [ch_newline] ++ str "y */ b" ++ [ch_newline] ++ str " c") = Some (Ok ts) /\
  map (fun t => (line (tok_pos t), column (tok_pos t))) ts = [(0, 0); (0, 2); (1, 5); (2, 1)].
Proof. eexists. vm_compute. split; reflexivity. Qed.

Theorem C17_line_refuted : exists source ts t,
  tokenize source = Some (Ok ts) /\ In t ts /\
  line (tok_pos t) <> count_newlines (firstn (tok_begin t) source).
Proof.
  exists [ch_quote; ch_newline; ch_quote; "a"%char]. eexists. eexists.
  split; [vm_compute; reflexivity|]. split; [right; left; reflexivity|]. vm_compute. discriminate.
Qed.

Theorem C17_column_refuted : exists source ts t,
  tokenize source = Some (Ok ts) /\ In t ts /\
  column (tok_pos t) <> since_newline (firstn (tok_begin t) source) 0.
Proof.
  exists [ch_tab; "a"%char]. eexists. eexists.
  split; [vm_compute; reflexivity|]. split; [left; reflexivity|]. vm_compute. discriminate.
Qed.

(** ** C18: Tokenization is total *)

(** The loop always ends: the bound on iterations in the model is never reached. *)
Theorem C18_terminates : forall source, tokenize source <> None.
Proof. exact tokenize_enough_fuel. Qed.

(** Full statement: for every source.  Proved for sources that do not end with a slash and in which
    [!] and [&&] are at least three characters from the end; false otherwise. *)
Theorem C18_total_partial : forall source,
  (forall i r, skipn i source = str "!" ++ r -> i + 3 <= length source) ->
  (forall i r, skipn i source = str "&&" ++ r -> i + 3 <= length source) ->
  (forall a, source <> a ++ ["/"%char]) ->
  exists r, tokenize source = Some r /\
  match r with
  | Ok _ => True
  | Err e => begin (te_pos e) <= length source
  | _ => False
  end.
Proof. intros source H1 H2 H3. apply tokenize_total. split; [exact H1|split; [exact H2|exact H3]]. Qed.

Example C18_example :
  tokenize (str "x $ y") = Some (Err (TE illegal_character (Pos 0 2 2))) /\
  tokenize (str "12ab") = Some (Err (TE integer_suffix (Pos 0 2 2))).
Proof. vm_compute. auto. Qed.

Theorem C18_not_refuted : exists source, tokenize source = Some Abort /\ source = str "!a".
Proof. exists (str "!a"). vm_compute. auto. Qed.

Theorem C18_comment_at_end_refuted : exists source,
  tokenize source = Some Abort /\ source = str "let x = 1; /* end */".
Proof. eexists. split; [|reflexivity]. vm_compute. reflexivity. Qed.

(** * Assumptions of the theorems above *)
Print Assumptions C15_tokens_tile_source.
Print Assumptions C16_longest_match_partial.
Print Assumptions C16_token_text_refuted.
Print Assumptions C17_positions_exact_partial.
Print Assumptions C17_line_refuted.
Print Assumptions C17_column_refuted.
Print Assumptions C18_terminates.
Print Assumptions C18_total_partial.
Print Assumptions C18_not_refuted.
Print Assumptions C18_comment_at_end_refuted.
