(** C66: diagnostics show the place of the error. *)
From Coq Require Import ZArith Ascii String List Bool Lia.
From Verif Require Import Prelude Text Tables Literals LiteralsSpec LiteralsProofs Decimal Tokenizer
  TokenizerSpec TokenizerProofs Parse ParseTotal Diagnostics DiagnosticsSpec DiagnosticsProofs.
From Verif Require HtmlWriter BmdParse BmdParseSpec BmdErrors DecimalSpec.
Import ListNotations.
Open Scope string_scope.
Open Scope list_scope.
Open Scope nat_scope.
Local Arguments char_eqb : simpl never.

(** ** C66: A diagnostic shows the place of the error *)

(** Full statement: for every source that is not accepted, what is printed is the message with the line and
    the column of the error, the line of the source, and a mark under the character at which the error is.
    It is false, see the refutations.  Proved: it holds for the tokenizer except for two kinds of errors, for
    the parser of programs except at the end of the source, and for the parser of documents except at the end
    of the source and of a line; in sources without tabulators, carriage returns and line feeds inside of
    tokens, with fewer than 99999 lines. *)

Theorem C66_tokenizer_partial : forall E file source e colors,
  tokenize source = Some (Err e) ->
  plain_columns source -> few_lines source -> in_memory source ->
  no_newline_inside source (tokens_appended (S (length source)) source (Pos 0 0 0)) ->
  te_code e <> unterminated_string -> te_code e <> no_digits_following_integer_prefix ->
  exists out message, @print_tokenize_error E file source e colors = Ok out /\
    diagnosed file source (begin (te_pos e)) [("error"%string, message)] out /\
    trouble source (te_code e) (begin (te_pos e)).
Proof.
  intros E file source e colors H P F M NN N1 N2.
  destruct (tokenizer_error_place source e H P NN) as (T & _ & _ & S0). specialize (S0 N2).
  assert (X : exists message, @tokenize_prose E (te_code e) = Ok message).
  { destruct (te_code e); try contradiction; eexists; reflexivity. }
  destruct X as (message & X). unfold print_tokenize_error. rewrite X. cbn [bind].
  destruct (diagnose_one E file source (te_pos e) colors message F M S0) as (affected & A & D).
  rewrite A. cbn [bind]. eexists. exists message. split; [reflexivity|]. split; [exact D|exact T].
Qed.

(** The place of every error of the tokenizer is right, also of those that cannot be printed. *)
Theorem C66_tokenizer_place_partial : forall source e,
  tokenize source = Some (Err e) -> plain_columns source ->
  no_newline_inside source (tokens_appended (S (length source)) source (Pos 0 0 0)) ->
  trouble source (te_code e) (begin (te_pos e)) /\ exact_position source (te_pos e).
Proof.
  intros source e H P NN. destruct (tokenizer_error_place source e H P NN) as (T & X & _). auto.
Qed.

Lemma token_shown : forall source ts t, tokenize source = Some (Ok ts) -> plain_columns source ->
  no_newline_inside source ts -> In t ts -> shown_place source (tok_pos t).
Proof.
  intros source ts t H [P1 P2] NN I. split.
  - pose proof (tokens_exact source ts H P1 P2 NN) as X. rewrite Forall_forall in X. apply X. exact I.
  - pose proof (loop_tokens _ _ _ _ H) as Hf. unfold no_newline_inside in NN. rewrite Forall_forall in Hf, NN.
    specialize (Hf t I). specialize (NN t I). fold (tok_begin t).
    pose proof (loop_tiles _ _ _ _ H) as Ti.
    assert (L : tok_begin t < length source).
    { clear -Ti I. revert I Ti. generalize (begin (Pos 0 0 0)). induction ts as [|u ts IH]; intros n I Ti; [contradiction I|].
      inversion Ti; subst. destruct I as [<-|I].
      - unfold tok_end in *. lia.
      - apply (IH (tok_end u)); assumption. }
    destruct (nth_error source (tok_begin t)) as [c|] eqn:N; [|apply nth_error_None in N; lia].
    exists c. split; [reflexivity|]. intros ->.
    assert (S0 : exists r, skipn (tok_begin t) source = ch_newline :: r).
    { clear -N. revert source N. generalize (tok_begin t). induction n as [|n IH]; intros [|x s] N; try discriminate N.
      - cbn in N. injection N as ->. exists s. reflexivity.
      - cbn in N |- *. apply IH. exact N. }
    destruct S0 as (r & S0). destruct Hf as (R & Nz & Rest). 
    assert (Il : In ch_newline (firstn (tok_length t) (skipn (tok_begin t) source))).
    { rewrite S0. destruct (tok_length t); [congruence|]. left. reflexivity. }
    destruct (may_cover_newline (tok_type t)) eqn:Em.
    + assert (C : tok_type t = tk_block_comment \/ (tok_type t = tk_string_literal \/ tok_type t = tk_logical_and
                   \/ tok_type t = tk_logical_not)) by (destruct (tok_type t); try discriminate Em; auto).
      destruct C as [C|C].
      * rewrite C in R. cbn in R. rewrite S0 in R. discriminate R.
      * apply (NN C). unfold tok_text, slice. replace (tok_end t - tok_begin t) with (tok_length t) by (unfold tok_end; lia).
        exact Il.
    + eapply token_no_newline; [|exact Em|exact Il]. split; [exact R|]. split; [exact Nz|exact Rest].
Qed.

Theorem C66_program_partial : forall E file source ts e colors,
  tokenize source = Some (Ok ts) -> parse (lexemes source ts) = Some (Err e) ->
  plain_columns source -> few_lines source -> in_memory source -> no_newline_inside source ts ->
  pe_rest e <> [] ->
  exists out before t after m1 m2,
    ts = before ++ t :: after /\ pe_rest e = lexemes source (t :: after) /\
    @print_parse_error E file source ts e colors = Ok out /\
    diagnosed file source (tok_begin t) [("error"%string, m1); ("note"%string, m2)] out.
Proof.
  intros E file source ts e colors H PE P F M NN Ne.
  assert (X : exists before, lexemes source ts = before ++ pe_rest e).
  { destruct (parse_good (lexemes source ts)) as [(p & Q)|[(e' & b & Q & R)|(Q & _)]]; rewrite PE in Q; try discriminate Q.
    injection Q as <-. exists b. exact R. }
  destruct X as (bl & X).
  assert (Y : exists before t after, ts = before ++ t :: after /\ pe_rest e = lexemes source (t :: after)).
  { exists (firstn (length bl) ts).
    assert (Z0 : lexemes source (skipn (length bl) ts) = pe_rest e).
    { unfold lexemes in *. rewrite <- skipn_map, X. apply skipn_app_length. }
    destruct (skipn (length bl) ts) as [|t after] eqn:S0; [destruct (Ne (eq_sym Z0))|].
    exists t, after. split; [|symmetry; exact Z0]. rewrite <- S0. symmetry. apply firstn_skipn. }
  destruct Y as (before & t & after & -> & R).
  assert (T : fail_token (before ++ t :: after) e = t).
  { unfold fail_token. rewrite R. unfold lexemes. rewrite map_length, app_length.
    replace (length before + length (t :: after) - length (t :: after)) with (length before) by lia.
    rewrite nth_error_app2, Nat.sub_diag by lia. reflexivity. }
  assert (S0 : shown_place source (tok_pos t)).
  { eapply token_shown; [exact H|exact P|exact NN|]. apply in_or_app. right. left. reflexivity. }
  unfold print_parse_error. rewrite T.
  destruct (affected_marked E source (tok_pos t) colors F S0) as (aff & mark & A & SA & MA).
  rewrite A. cbn [bind].
  set (m1 := str "unexpected token " ++ readable_name (tok_type t) ++ str " while matching '"
             ++ rule_name (pe_rule e) ++ str "'").
  set (m2 := str "expected " ++ expected_text (pe_expected e)).
  destruct (head_ok file source (tok_pos t) colors _ _ m1 M S0 shows_error_prefix) as (h1 & S1 & H1).
  destruct (head_ok file source (tok_pos t) colors _ _ m2 M S0 shows_note_prefix) as (h2 & S2 & H2).
  eexists. exists before, t, after, m1, m2. split; [reflexivity|]. split; [exact R|]. split; [reflexivity|].
  exists [h1; h2], mark. split; [|split; [exact MA|constructor; [exact H1|constructor; [exact H2|constructor]]]].
  cbn [concat]. rewrite app_nil_r, <- app_assoc.
  replace (print_file_position file (tok_pos t) colors ++ _)
    with ((print_file_position file (tok_pos t) colors ++ str ": " ++ error_prefix ++ m1 ++ [ch_newline])
          ++ (print_file_position file (tok_pos t) colors ++ str ": " ++ note_prefix ++ m2 ++ [ch_newline]) ++ aff)
    by (unfold m1, m2; rewrite <- !app_assoc; reflexivity).
  apply shows_app; [exact S1|]. apply shows_app; [exact S2|exact SA].
Qed.

(** Documents. *)

Lemma newlines_count : forall t, BmdParseSpec.newlines t = Z.of_nat (count_newlines t).
Proof.
  induction t as [|c t IH]; [reflexivity|]. cbn [BmdParseSpec.newlines count_newlines]. rewrite IH.
  unfold char_eqb. destruct (Ascii.eqb c ch_newline); lia.
Qed.

Lemma column_since : forall t acc, ~ In ch_tab t -> ~ In ch_cr t ->
  BmdParseSpec.column_after (Z.of_nat acc) t = Z.of_nat (since_newline t acc).
Proof.
  induction t as [|c t IH]; intros acc N1 N2; [reflexivity|]. cbn [BmdParseSpec.column_after since_newline].
  assert (Ascii.eqb c ch_tab = false) as T by (apply Ascii.eqb_neq; intros ->; apply N1; left; reflexivity).
  assert (Ascii.eqb c ch_cr = false) as R by (apply Ascii.eqb_neq; intros ->; apply N2; left; reflexivity).
  unfold char_eqb.
  rewrite T, R, orb_false_r.
  destruct (Ascii.eqb c ch_newline).
  - apply (IH 0); intros X; [apply N1|apply N2]; right; exact X.
  - replace (Z.of_nat acc + 1)%Z with (Z.of_nat (S acc)) by lia.
    apply IH; intros X; [apply N1|apply N2]; right; exact X.
Qed.

Lemma locate_exact : forall pre post, plain_columns (pre ++ post) ->
  exact_position (pre ++ post) (of_document (BmdParseSpec.locate pre)) /\
  begin (of_document (BmdParseSpec.locate pre)) = length pre.
Proof.
  intros pre post [N1 N2]. unfold of_document, BmdParseSpec.locate, exact_position.
  cbn [BmdParse.po_line BmdParse.po_column BmdParse.po_begin line column begin]. rewrite Nat2Z.id.
  rewrite firstn_app_length, newlines_count. change 0%Z with (Z.of_nat 0).
  rewrite column_since, !Nat2Z.id; [auto| |]; intros X; [apply N1|apply N2]; apply in_or_app; left; exact X.
Qed.

(** Every error in a document is reported at a place of the document, and that is wrong there. *)
Theorem C66_document_place_partial : forall fuel source e,
  BmdParse.bmd_parse fuel source = Some (Err e) -> plain_columns source ->
  let p := of_document (BmdParse.pe_pos e) in
  exact_position source p /\ begin p <= length source /\
  BmdErrors.document_trouble (BmdParse.pe_code e) (firstn (begin p) source) (skipn (begin p) source).
Proof.
  intros fuel source e H P p.
  destruct (BmdErrors.parse_reported fuel source e H) as (pre & post & -> & L & T).
  destruct (locate_exact pre post P) as [X B]. unfold p. rewrite L, B.
  rewrite firstn_app_length, skipn_app_length. split; [exact X|]. rewrite app_length. split; [lia|exact T].
Qed.

Theorem C66_document_partial : forall E fuel file source e colors c,
  BmdParse.bmd_parse fuel source = Some (Err e) ->
  plain_columns source -> few_lines source -> in_memory source ->
  let i := begin (of_document (BmdParse.pe_pos e)) in
  nth_error source i = Some c -> c <> ch_newline ->
  exists out message, @print_bmd_error E file source e colors = Ok out /\
    diagnosed file source i [("error"%string, message)] out /\
    BmdErrors.document_trouble (BmdParse.pe_code e) (firstn i source) (skipn i source) /\
    (BmdParse.pe_code e = BmdParse.be_unexpected_character ->
       exists rule, message = str "unexpected character '" ++ [c] ++ str "' while matching '" ++ rule ++ str "'").
Proof.
  intros E fuel file source e colors c H P F M i N C.
  destruct (C66_document_place_partial fuel source e H P) as (X & _ & T). fold i in T.
  assert (S0 : shown_place source (of_document (BmdParse.pe_pos e))) by (split; [exact X|exists c; auto]).
  set (message := match BmdParse.pe_code e with
    | BmdParse.be_unexpected_character => str "unexpected character '" ++ [c] ++ str "' while matching '"
                        ++ bmd_rule_name (BmdParse.pe_rule e) ++ str "'"
    | k => bmd_prose k end).
  destruct (diagnose_one E file source _ colors message F M S0) as (affected & A & D).
  exists (print_file_position file (of_document (BmdParse.pe_pos e)) colors ++ str ": " ++ error_prefix
          ++ message ++ [ch_newline] ++ affected), message. split.
  - unfold print_bmd_error. fold i. rewrite N.
    assert (Z0 : match source with [] => Ok [] | _ :: _ => @print_affected_line E source (of_document (BmdParse.pe_pos e)) colors end
                = Ok affected).
    { destruct source; [destruct i; discriminate N|exact A]. }
    rewrite Z0. clear -Z0. unfold message.
    destruct (BmdParse.pe_code e); cbn [bind]; rewrite <- ?app_assoc; reflexivity.
  - split; [exact D|]. split; [exact T|]. intros K. exists (bmd_rule_name (BmdParse.pe_rule e)).
    unfold message. rewrite K. reflexivity.
Qed.

(** No character outside of the source is read. *)
Theorem C66_document_defined : forall E fuel file source e colors,
  BmdParse.bmd_parse fuel source = Some (Err e) -> @print_bmd_error E file source e colors <> UB.
Proof.
  intros E fuel file source e colors H.
  destruct (BmdErrors.parse_reported fuel source e H) as (pre & post & -> & L & T).
  unfold print_bmd_error. 
  assert (B : begin (of_document (BmdParse.pe_pos e)) = length pre).
  { rewrite L. cbn. apply Nat2Z.id. }
  rewrite B.
  destruct (BmdParse.pe_code e); cbn [bind];
    try (destruct (pre ++ post) eqn:Q; [discriminate|]; unfold print_affected_line, find_line, assert_then;
         destruct (Nat.ltb _ _); discriminate).
  cbn in T. destruct post as [|c post]; [congruence|].
  rewrite nth_error_app2, Nat.sub_diag by lia. cbn [nth_error bind].
  destruct (pre ++ c :: post) eqn:Q; [discriminate|]. unfold print_affected_line, find_line, assert_then.
  destruct (Nat.ltb _ _); discriminate.
Qed.

(** Examples: what is printed, with the colours that are always printed. *)
Example C66_tokenizer_example :
  let source := str "let x = 1;" ++ [ch_newline] ++ str "  $y" in
  exists e, tokenize source = Some (Err e) /\
  @print_tokenize_error unit (str "a.bms") source e false =
    Ok (str "a.bms:2:3: " ++ ansi "0;91" ++ str "error: " ++ ansi "0" ++ str "Illegal character encountered."
        ++ [ch_newline] ++ str "    2 |   $y" ++ [ch_newline] ++ str "      |   ^" ++ [ch_newline]).
Proof. eexists. split; [vm_compute; reflexivity|]. vm_compute. reflexivity. Qed.

Example C66_program_example :
  let source := str "const x = 1;" ++ [ch_newline] ++ str "const 5 = 1;" in
  exists ts e, tokenize source = Some (Ok ts) /\ parse (lexemes source ts) = Some (Err e) /\
  @print_parse_error unit (str "a.bms") source ts e false =
    Ok (str "a.bms:2:7: " ++ ansi "0;91" ++ str "error: " ++ ansi "0"
        ++ str "unexpected token decimal literal while matching 'const_declaration'"
        ++ [ch_newline] ++ str "a.bms:2:7: " ++ ansi "0;97" ++ str "note: " ++ ansi "0"
        ++ str "expected identifier"
        ++ [ch_newline] ++ str "    2 | const 5 = 1;" ++ [ch_newline] ++ str "      |       ^" ++ [ch_newline]).
Proof. eexists. eexists. split; [vm_compute; reflexivity|]. split; [vm_compute; reflexivity|]. vm_compute. reflexivity. Qed.

Example C66_document_example :
  let source := str "text" ++ [ch_newline] ++ str "\foo{x}" in
  exists e, BmdParse.bmd_parse (BmdParse.parse_fuel source) source = Some (Err e) /\
  @print_bmd_error unit (str "a.bmd") source e false =
    Ok (str "a.bmd:2:2: " ++ ansi "0;91" ++ str "error: " ++ ansi "0" ++ str "Invalid directive."
        ++ [ch_newline] ++ str "    2 | \foo{x}" ++ [ch_newline] ++ str "      |  ^" ++ [ch_newline]).
Proof. eexists. split; [vm_compute; reflexivity|]. vm_compute. reflexivity. Qed.

(** There is no text for a string that does not end and for a number without digits: the program aborts
    when it should print them. *)
Theorem C66_no_text_refuted :
  (exists source e, tokenize source = Some (Err e) /\ te_code e = unterminated_string /\
     forall E file colors, @print_tokenize_error E file source e colors = Abort) /\
  (exists source e, tokenize source = Some (Err e) /\ te_code e = no_digits_following_integer_prefix /\
     forall E file colors, @print_tokenize_error E file source e colors = Abort).
Proof.
  split.
  - exists (ch_quote :: str "abc"). eexists. split; [vm_compute; reflexivity|]. split; [reflexivity|]. reflexivity.
  - exists (str "0x"). eexists. split; [vm_compute; reflexivity|]. split; [reflexivity|]. reflexivity.
Qed.

(** Neither error can ever be printed. *)
Theorem C66_no_text : forall E file source e colors,
  te_code e = unterminated_string \/ te_code e = no_digits_following_integer_prefix ->
  @print_tokenize_error E file source e colors = Abort.
Proof. intros E file source e colors [H|H]; unfold print_tokenize_error; rewrite H; reflexivity. Qed.

(** An error at the end of a program is shown at its beginning and as an identifier, though the source has no
    token; for the empty source the program aborts. *)
Theorem C66_end_of_program_refuted :
  (exists source e, tokenize source = Some (Ok []) /\ parse (lexemes source []) = Some (Err e) /\
     forall E, @print_parse_error E (str "a.bms") source [] e false =
       Ok (str "a.bms:1:1: " ++ ansi "0;91" ++ str "error: " ++ ansi "0"
           ++ str "unexpected token identifier while matching 'program_declaration'"
           ++ [ch_newline] ++ str "a.bms:1:1: " ++ ansi "0;97" ++ str "note: " ++ ansi "0" ++ str "expected one of: 'const', 'function', 'static_assert', or '@'"
           ++ [ch_newline] ++ str "    1 |  " ++ [ch_newline] ++ str "      | ^" ++ [ch_newline])) /\
  (exists e, tokenize [] = Some (Ok []) /\ parse (lexemes [] []) = Some (Err e) /\
     forall E file colors, @print_parse_error E file [] [] e colors = Abort).
Proof.
  split.
  - exists (str " "). eexists. split; [vm_compute; reflexivity|]. split; [vm_compute; reflexivity|].
    intros E. vm_compute. reflexivity.
  - eexists. split; [vm_compute; reflexivity|]. split; [vm_compute; reflexivity|]. reflexivity.
Qed.

(** An error at the end of a document aborts the program. *)
Theorem C66_end_of_document_refuted : exists source e,
  BmdParse.bmd_parse (BmdParse.parse_fuel source) source = Some (Err e) /\
  forall E file colors, @print_bmd_error E file source e colors = Abort.
Proof.
  exists (str "\b{"). eexists. split; [vm_compute; reflexivity|]. reflexivity.
Qed.

(** Exactly the errors behind the last character do. *)
Theorem C66_end_of_document : forall E fuel file source e colors,
  BmdParse.bmd_parse fuel source = Some (Err e) -> source <> [] ->
  (@print_bmd_error E file source e colors = Abort <->
   BmdParse.po_begin (BmdParse.pe_pos e) = Z.of_nat (length source)).
Proof.
  intros E fuel file source e colors H Ne.
  destruct (BmdErrors.parse_reported fuel source e H) as (pre & post & -> & L & T).
  assert (B : begin (of_document (BmdParse.pe_pos e)) = length pre) by (rewrite L; cbn; apply Nat2Z.id).
  assert (B' : BmdParse.po_begin (BmdParse.pe_pos e) = Z.of_nat (length pre)) by (rewrite L; reflexivity).
  rewrite B'.
  assert (A : @print_affected_line E (pre ++ post) (of_document (BmdParse.pe_pos e)) colors = Abort <-> post = []).
  { unfold print_affected_line, find_line, assert_then. rewrite B. destruct (Nat.ltb _ _) eqn:Q; cbn [bind].
    - apply Nat.ltb_lt in Q. rewrite app_length in Q. split; [discriminate|]. intros ->. cbn in Q. lia.
    - apply Nat.ltb_ge in Q. rewrite app_length in Q. split; [|reflexivity]. intros _. destruct post; [reflexivity|cbn in Q; lia]. }
  assert (X : @print_bmd_error E file (pre ++ post) e colors = Abort <-> post = []).
  { rewrite <- A. unfold print_bmd_error. rewrite B. destruct (pre ++ post) as [|x y] eqn:Q; [congruence|].
    assert (G : forall m, (let* affected := @print_affected_line E (x :: y) (of_document (BmdParse.pe_pos e)) colors in
        Ok (print_file_position file (of_document (BmdParse.pe_pos e)) colors ++ str ": " ++ error_prefix ++ m ++ affected)) = Abort
        <-> @print_affected_line E (x :: y) (of_document (BmdParse.pe_pos e)) colors = Abort).
    { intros m. destruct (print_affected_line _ _ _); cbn [bind]; split; intros; try discriminate; reflexivity. }
    destruct (BmdParse.pe_code e); cbn [bind]; try apply G.
    cbn in T. destruct post as [|c post]; [congruence|].
    replace (nth_error (x :: y) (length pre)) with (Some c); [cbn [bind]; apply G|].
    rewrite <- Q, nth_error_app2, Nat.sub_diag by lia. reflexivity. }
  rewrite X, app_length. split.
  - intros ->. cbn [length]. f_equal. lia.
  - intros Y. destruct post; [reflexivity|cbn [length] in Y; lia].
Qed.

(** An error at the end of a line shows the next line. *)
Theorem C66_end_of_line_refuted : exists source e,
  BmdParse.bmd_parse (BmdParse.parse_fuel source) source = Some (Err e) /\
  source = str "a\" ++ [ch_newline] ++ str "b" /\ BmdParse.po_begin (BmdParse.pe_pos e) = 2%Z /\
  forall E, @print_bmd_error E (str "a.bmd") source e false =
    Ok (str "a.bmd:1:3: " ++ ansi "0;91" ++ str "error: " ++ ansi "0" ++ str "unexpected character '" ++ [ch_newline]
        ++ str "' while matching 'identifier'"
        ++ [ch_newline] ++ str "    1 | b" ++ [ch_newline] ++ str "      |   ^" ++ [ch_newline]).
Proof.
  eexists. eexists. split; [|split; [reflexivity|]]; [vm_compute; reflexivity|]. split; [reflexivity|].
  intros E. vm_compute. reflexivity.
Qed.

(** After a tabulator the column is wrong. *)
Theorem C66_tabulator_refuted : exists source e,
  tokenize source = Some (Err e) /\
  (forall E, @print_tokenize_error E (str "a.bms") source e false =
    Ok (str "a.bms:1:5: " ++ ansi "0;91" ++ str "error: " ++ ansi "0" ++ str "Illegal character encountered."
        ++ [ch_newline] ++ str "    1 | " ++ source ++ [ch_newline] ++ str "      |     ^" ++ [ch_newline])) /\
  column_number source (begin (te_pos e)) (str "2") /\ ~ column_number source (begin (te_pos e)) (str "5").
Proof.
  exists (ch_tab :: str "$"). eexists. split; [vm_compute; reflexivity|]. split; [intros E; vm_compute; reflexivity|].
  cbn [te_pos begin]. split.
  - exists (ch_tab :: str "$"), 0. split.
    2:{ split; [reflexivity|]. split; [discriminate|]. intros c r X Y. injection X as <- <-. congruence. }
    exists [], []. split; [reflexivity|]. split; [reflexivity|]. split; [left; reflexivity|].
    split; [intros [X|[X|[]]]; discriminate X|]. split; [left; reflexivity|]. cbn. lia.
  - intros (l & from & (before & after & E & L & B & _ & _ & R) & D).
    assert (before = []) as ->.
    { destruct B as [B|(b & ->)]; [exact B|]. exfalso.
      assert (I : In ch_newline (ch_tab :: str "$")).
      { rewrite E. apply in_or_app. left. apply in_or_app. right. left. reflexivity. }
      destruct I as [X|[X|[]]]; discriminate X. }
    cbn in L. subst from. destruct D as [D _]. discriminate D.
Qed.

(** The colours cannot be switched off. *)
Theorem C66_colors_refuted : exists source e out,
  tokenize source = Some (Err e) /\ @print_tokenize_error unit [] source e false = Ok out /\
  In "027"%char out /\ ~ In "027"%char source.
Proof.
  exists (str "$"). eexists. eexists. split; [vm_compute; reflexivity|]. split; [vm_compute; reflexivity|].
  split; [vm_compute; tauto|]. vm_compute. intuition discriminate.
Qed.

(** * Assumptions of the theorems above *)
Print Assumptions C66_tokenizer_partial.
Print Assumptions C66_tokenizer_place_partial.
Print Assumptions C66_program_partial.
Print Assumptions C66_document_place_partial.
Print Assumptions C66_document_partial.
Print Assumptions C66_document_defined.
Print Assumptions C66_no_text_refuted.
Print Assumptions C66_no_text.
Print Assumptions C66_end_of_program_refuted.
Print Assumptions C66_end_of_document_refuted.
Print Assumptions C66_end_of_document.
Print Assumptions C66_end_of_line_refuted.
Print Assumptions C66_tabulator_refuted.
Print Assumptions C66_colors_refuted.
