(** Properties of the BMD parser: C39, C40, C49, C50. *)
From Coq Require Import ZArith Ascii String List Bool Lia.
From Verif Require Import Prelude Text Literals LiteralsSpec LiteralsProofs HtmlWriter Directives DirectivesSpec
  DirectivesProofs BmdParse BmdParseSpec BmdParseFacts BmdRawFacts BmdParseProofs BmdSound BmdTotal.
Import ListNotations.
Open Scope string_scope.
Open Scope list_scope.
Open Scope Z_scope.

(** * C39: documents on which the parser ends *)

(** C39. On a tame document, the parser ends, with a document or an error; the result does not depend on
    the fuel of the model.  What is missing are the documents that are not tame, see the refutations below:
    each of the four conditions of [tame] is needed. *)
Theorem C39_total_partial : forall src, tame src ->
  exists r, defined r /\ forall fuel, (parse_fuel src <= fuel)%nat -> bmd_parse fuel src = Some r.
Proof.
  intros src T. destruct (parse_total src T) as (r & E & D). exists r. split; [exact D|].
  intros fuel L. eapply parse_more; eassumption.
Qed.

(** C39. The result, if there is one, does not depend on the fuel of the model. *)
Theorem C39_fuel_irrelevant : forall src f g r s,
  bmd_parse f src = Some r -> bmd_parse g src = Some s -> r = s.
Proof.
  intros src f g r s Hf Hg. destruct (Nat.le_ge_cases f g) as [L|L].
  - apply (parse_more f g src r L) in Hf. congruence.
  - apply (parse_more g f src s L) in Hg. congruence.
Qed.

(** C39. Without markup and slashes, every document is tame. *)
Theorem C39_plain_text_tame : forall src,
  ~ In "{"%char src -> ~ In "/"%char src -> ~ In "\"%char src -> tame src.
Proof.
  intros src N1 N2 N3. split; [|split; [|split]].
  - intros (u & v & ->). apply N1. apply in_or_app. right. now left.
  - intros id _ (u & v & ->). exfalso. apply N3. apply in_or_app. right. now left.
  - intros pre o post Ho ->. exfalso. apply N2. apply in_or_app. right.
    destruct Ho as [-> | ->]; now left.
  - intros pre o Ho ->. apply N2. apply in_or_app. right. destruct Ho as [-> | ->]; now left.
Qed.

(** The refutations.  An empty block fails an assertion. *)
Theorem C39_empty_block_refuted : exists src, forall fuel, (3 <= fuel)%nat -> bmd_parse fuel src = Some Abort.
Proof.
  exists (str "\b{}"). intros fuel L. apply (parse_more 3); [exact L|]. vm_compute. reflexivity.
Qed.

(** So does a document that ends with the beginning of a comment. *)
Theorem C39_comment_at_end_refuted : exists src,
  forall fuel, (3 <= fuel)%nat -> bmd_parse fuel src = Some Abort.
Proof.
  exists (str "a //"). intros fuel L. apply (parse_more 3); [exact L|]. vm_compute. reflexivity.
Qed.

(** So does a comment that directly follows the text of a title. *)
Theorem C39_comment_in_title_refuted : exists src,
  forall fuel, (7 <= fuel)%nat -> bmd_parse fuel src = Some Abort.
Proof.
  exists (str "\meta{\title{a/*c*/}}"). intros fuel L. apply (parse_more 7); [exact L|].
  vm_compute. reflexivity.
Qed.

(** For a directive with a name after ["ul"], the table of names is read past its end. *)
Theorem C39_unknown_name_refuted : exists src,
  forall fuel, (2 <= fuel)%nat -> bmd_parse fuel src = Some UB.
Proof.
  exists (str "\var{x}"). intros fuel L. apply (parse_more 2); [exact L|]. vm_compute. reflexivity.
Qed.

(** On a comment that directly follows text inside of a formatting directive, the parser does not end. *)
Theorem C39_termination_refuted : exists src, forall fuel, bmd_parse fuel src = None.
Proof.
  exists (str "\b{a//x" ++ [ch_newline] ++ str "}"). intros fuel.
  set (p := Position 0 4 4). set (st := PState p (str "//x" ++ [ch_newline])).
  assert (Stuck : forall f i e, paragraph_loop f i e st = None).
  { induction f as [|f IH]; intros i e; [reflexivity|]. cbn [paragraph_loop].
    change (eof st) with false. change (peek_if is_space st) with false. cbn [bind_loop].
    change (match_text st) with (@Ok bmd_error _ (@None bmd_node, st)). cbn [bind_loop].
    change (peek_possible_directive st) with false. apply IH. }
  set (st1 := PState (Position 0 3 3) (str "a//x" ++ [ch_newline])).
  assert (Stuck1 : forall f i e, paragraph_loop f i e st1 = None).
  { intros [|f] i e; [reflexivity|]. cbn [paragraph_loop].
    change (eof st1) with false. change (peek_if is_space st1) with false. cbn [bind_loop].
    change (match_text st1) with (@Ok bmd_error _ (Some (B_text (Source_Span 0 3 3 1) (str "a")), st)).
    cbn [bind_loop]. apply Stuck. }
  set (st2 := PState (Position 0 2 2) (str "{a//x" ++ [ch_newline] ++ str "}")).
  assert (Stuck2 : forall f, match_directive_content f ct_span st2 = None).
  { intros [|f]; [reflexivity|]. cbn [match_directive_content]. unfold match_inside_block.
    change (match_raw_block_impl st2)
      with (@Ok bmd_error _ (Position 0 3 3, str "a//x" ++ [ch_newline], PState (Position 1 1 9) [])).
    cbn [bind_loop]. change (PState (to_right 1 (ps_pos st2)) (str "a//x" ++ [ch_newline])) with st1.
    change (match_blank br_block st1) with (@Ok bmd_error _ (Blank 0 false, st1)).
    cbn [bind_loop bl_break allows_directives]. rewrite Stuck1. reflexivity. }
  set (st3 := PState (Position 0 0 0) (str "\b{a//x" ++ [ch_newline] ++ str "}")).
  assert (Stuck3 : forall f, match_directive f ct_block st3 = None).
  { intros [|f]; [reflexivity|]. cbn [match_directive allows_directives negb].
    change (expect ch_backslash br_directive st3)
      with (@Ok bmd_error _ (PState (Position 0 1 1) (str "b{a//x" ++ [ch_newline] ++ str "}"))).
    cbn [bind_loop].
    change (match_name (PState (Position 0 1 1) (str "b{a//x" ++ [ch_newline] ++ str "}")))
      with (@Ok bmd_error _ (str "b", Source_Span 0 1 1 1, st2)).
    cbn [bind_loop]. change (directive_type_by_id (str "b")) with (@Ok unit _ (Some dt_bold)).
    cbv iota beta. change (allowed_in dt_bold ct_block) with true. cbn [negb].
    change (peek_char "[" st2) with false. cbn [bind_loop].
    change (peek_char "{" st2) with true. cbv iota. rewrite Stuck2. reflexivity. }
  unfold bmd_parse. fold st3.
  change (match_blank br_blank st3) with (@Ok bmd_error _ (Blank 0 false, st3)). cbn [bind_loop].
  change (eof st3) with false. cbv iota.
  assert (Stuck4 : forall f i b, content_loop f i b [] [] st3 = None).
  { intros [|f] i b; [reflexivity|]. cbn [content_loop]. change (eof st3) with false.
    change (peek_if is_space st3) with false. change (peek_possible_directive st3) with true. cbv iota.
    rewrite Stuck3. reflexivity. }
  rewrite Stuck4. reflexivity.
Qed.

(** A document with a comment, directives with and without arguments and blocks, and a list. *)
Definition sample : text :=
  str "/* c */ \h1{Title}" ++ [ch_newline; ch_newline] ++
  str "Some \b[x = 0x1f, y=z]{bold} text" ++ [ch_newline; ch_newline] ++
  str "\codeblock{ if (a) { \} } }" ++ [ch_newline] ++
  str "\ol{\item{one}  \item{two \i{three}}} end".

Example C39_example : tame sample /\
  (exists n, bmd_parse (parse_fuel sample) sample = Some (Ok (Some n))) /\
  bmd_parse 9 (str "\b{a") =
    Some (Err (Bmd_Error be_unexpected_eof br_raw_content (Position 0 4 4))).
Proof.
  split; [apply tameb_tame; vm_compute; reflexivity|]. split; [eexists; vm_compute; reflexivity|].
  vm_compute. reflexivity.
Qed.

(** * C40: raw blocks *)

(** C40. A raw block is read exactly when there is a balanced content, followed by a closing brace; this
    is what is read, and the parser goes on behind that brace. *)
Theorem C40_matching_brace_partial : forall pre s n st,
  match_raw_block (PState (locate pre) s) = Ok (n, st) <->
  exists c rest, s = str "{" ++ c ++ str "}" ++ rest /\ raw_content c /\ c <> [] /\
    n = Some (B_text (span_of (locate (pre ++ str "{")) (Z.of_nat (length c))) c) /\
    st = PState (locate (pre ++ str "{" ++ c ++ str "}")) rest.
Proof.
  intros pre s n st. unfold match_raw_block. split.
  - intros H. destruct (match_raw_block_impl (PState (locate pre) s)) as [[[p c] st']| | |] eqn:E;
      try discriminate H. cbn [bind] in H. injection H as <- <-.
    apply match_raw_block_impl_iff in E. cbn [ps_rest ps_pos] in E. destruct E as (R & RC & Ne & -> & P).
    exists c, (ps_rest st'). split; [exact R|]. split; [exact RC|]. split; [exact Ne|].
    rewrite advance_locate. split; [reflexivity|]. destruct st' as [p' r']. cbn [ps_rest ps_pos] in *.
    rewrite P, move_locate. reflexivity.
  - intros (c & rest & -> & RC & Ne & -> & ->).
    assert (E : match_raw_block_impl (PState (locate pre) (str "{" ++ c ++ str "}" ++ rest)) =
                Ok (locate (pre ++ str "{"), c, PState (locate (pre ++ str "{" ++ c ++ str "}")) rest)).
    { apply match_raw_block_impl_iff. cbn [ps_rest ps_pos]. split; [reflexivity|]. split; [exact RC|].
      split; [exact Ne|]. rewrite advance_locate, move_locate. split; reflexivity. }
    rewrite E. reflexivity.
Qed.

(** C40. There is at most one such content. *)
Theorem C40_content_unique : forall c d r q,
  raw_content c -> raw_content d -> c ++ str "}" ++ r = d ++ str "}" ++ q -> c = d /\ r = q.
Proof. intros c d r q. exact (raw_content_unique c d r q). Qed.

(** C40. Otherwise there is an error. *)
Theorem C40_no_block : forall pre s,
  (forall c rest, raw_content c -> s <> str "{" ++ c ++ str "}" ++ rest) ->
  exists e, match_raw_block (PState (locate pre) s) = Err e.
Proof.
  intros pre s N. unfold match_raw_block, match_raw_block_impl. unfold expect. cbn [ps_rest ps_pos].
  destruct s as [|x s]; [eexists; reflexivity|]. destruct (char_eqb x "{") eqn:X; [|eexists; reflexivity].
  apply char_eq in X. subst x. cbn [bind ps_rest ps_pos].
  pose proof (raw_loop_defined _ _ (le_n _) cm_none 0 (advance "{" (locate pre)) : defined
     (raw_loop cm_none 0 (advance "{" (locate pre)) s)) as D.
  destruct (raw_loop cm_none 0 (advance "{" (locate pre)) s) as [st|e| |] eqn:E; try contradiction D.
  - exfalso. apply raw_loop_iff in E. destruct E as (c & RC & R & _). apply (N c (ps_rest st) RC).
    rewrite R. reflexivity.
  - eexists. reflexivity.
Qed.

(** C40. In a parsed document, the block of each [\codeblock] is the text between its matching braces. *)
Theorem C40_documents : forall fuel src n sp id args b,
  bmd_parse fuel src = Some (Ok (Some n)) ->
  below (B_directive sp dt_code_block id args (Some b)) n ->
  exists s c pre head post,
    b = B_text s c /\ raw_content c /\ c <> [] /\
    src = pre ++ (str "\" ++ id ++ head ++ str "{" ++ c ++ str "}") ++ post /\
    sp = Source_Span (newlines pre) (column_after 0 pre) (Z.of_nat (length pre))
           (Z.of_nat (length (str "\" ++ id ++ head ++ str "{" ++ c ++ str "}"))).
Proof.
  intros fuel src n sp id args b H B.
  destruct (parse_sound _ _ _ H) as (sp0 & l & -> & P & _). clear H.
  induction B as [|sp1 l1 m I B IH|sp1 ty1 id1 args1 m B IH].
  - inversion P as [| |? ? ? ? ? at_ bt Cov AT BT Args Bl]; subst.
    destruct BT as [[_ E]|(c & RC & Ne & -> & Raw)]; [discriminate E|].
    destruct (Raw eq_refl) as [s E]. injection E as ->. destruct Cov as (pre & post & Es & ->).
    exists s, c, pre, at_, post. repeat (split; [first [reflexivity|assumption]|]). reflexivity.
  - inversion P as [|? ? t Cov F In Or Pa|]; subst. rewrite Forall_forall in F. apply IH. exact (F m I).
  - inversion P as [| |? ? ? ? ? at_ bt Cov AT BT Args Bl]; subst. inversion Bl; subst. apply IH. assumption.
Qed.

(** C40. An empty block, which is balanced, fails an assertion. *)
Theorem C40_empty_refuted : exists pre s, raw_content [] /\ s = str "{" ++ [] ++ str "}" /\
  match_raw_block (PState (locate pre) s) = Abort.
Proof. exists [], (str "{}"). split; [constructor|]. split; vm_compute; reflexivity. Qed.

Example C40_example :
  match_raw_block (PState (locate []) (str "{a{b}\}/*}*/}c}")) =
    Ok (Some (B_text (Source_Span 0 1 1 11) (str "a{b}\}/*}*/")),
        PState (Position 0 13 13) (str "c}")).
Proof. vm_compute. reflexivity. Qed.

(** * C49: where the nodes are *)

(** C49. Every node of a parsed document is where its span says (see [placed]).  What is missing is
    [C49_paragraphs_refuted]. *)
Theorem C49_placed_partial : forall fuel src n, bmd_parse fuel src = Some (Ok (Some n)) -> placed src n.
Proof. intros fuel src n H. destruct (parse_sound _ _ _ H) as (sp & l & -> & P & _). exact P. Qed.

(** C49. The children of a list do overlap: the paragraph before a heading covers the heading, too. *)
Theorem C49_paragraphs_refuted : exists src fuel sp l a b,
  bmd_parse fuel src = Some (Ok (Some (B_list sp l))) /\ l = [a; b] /\
  ~ behind (node_span b) (node_span a).
Proof.
  exists (str "a \h1{b}"), 30%nat. do 4 eexists. split; [vm_compute; reflexivity|].
  split; [reflexivity|]. intros H. vm_compute in H. apply H. reflexivity.
Qed.

Example C49_example :
  bmd_parse 30 (str "a \c[x=07]{b}") = Some (Ok (Some
    (B_list (Source_Span 0 0 0 13)
       [B_list (Source_Span 0 0 0 13)
          [B_text (Source_Span 0 0 0 1) (str "a");
           B_directive (Source_Span 0 2 2 11) dt_code (str "c")
             [(str "x", V_number (Source_Span 0 7 7 2) 7 octal_lit)]
             (Some (B_list (Source_Span 0 11 11 1) [B_text (Source_Span 0 11 11 1) (str "b")]))]]))).
Proof. vm_compute. reflexivity. Qed.

(** * C50: what stands where *)

(** C50. In a parsed document, every text and directive stands where it may, under its own name, its
    arguments have distinct names and its block holds what it may hold (see [fits]). *)
Theorem C50_fits : forall fuel src n,
  bmd_parse fuel src = Some (Ok (Some n)) -> exists sp l, n = B_list sp l /\ Forall (fits r_content_item) l.
Proof. intros fuel src n H. destruct (parse_sound _ _ _ H) as (sp & l & E & _ & F & _). eauto. Qed.

(** C50. So the nodes of each list, however deep, all have one role; a heading is never among text. *)
Theorem C50_lists : forall fuel src n sp l,
  bmd_parse fuel src = Some (Ok (Some n)) -> below (B_list sp l) n -> exists r, Forall (fits r) l.
Proof.
  intros fuel src n sp l H B.
  destruct (C50_fits _ _ _ H) as (sp0 & l0 & -> & F). clear H.
  assert (G : forall k, below (B_list sp l) k ->
     (forall r, fits r k -> exists r, Forall (fits r) l) /\
     (forall h, fits_block h (Some k) -> exists r, Forall (fits r) l)).
  { induction 1 as [|sp1 l1 k Ik Bk IH|sp1 ty1 id1 args1 k Bk IH].
    - split; intros x Hx; inversion Hx; subst; eauto.
    - destruct IH as [IH1 IH2]. split; intros x Hx; inversion Hx; subst;
        match goal with F : Forall _ l1 |- _ => rewrite Forall_forall in F; exact (IH1 _ (F k Ik)) end.
    - destruct IH as [IH1 IH2]. split; intros x Hx; inversion Hx; subst. eapply IH2. eassumption. }
  destruct (G _ B) as [_ G2]. apply (G2 (h_items r_content_item)). constructor. exact F.
Qed.

Example C50_example :
  bmd_parse 30 (str "\b{\h1{x}}") =
    Some (Err (Bmd_Error be_directive_not_allowed br_directive (Position 0 6 6))) /\
  bmd_parse 30 (str "\ul{\b{x}}") =
    Some (Err (Bmd_Error be_directive_not_allowed br_directive (Position 0 6 6))) /\
  bmd_parse 30 (str "\b[x=1,x=2]{y}") =
    Some (Err (Bmd_Error be_duplicate_argument br_argument (Position 0 7 7))).
Proof. vm_compute. repeat split; reflexivity. Qed.

(** * Assumptions of the theorems above *)
Print Assumptions C39_total_partial.
Print Assumptions C39_fuel_irrelevant.
Print Assumptions C39_plain_text_tame.
Print Assumptions C39_empty_block_refuted.
Print Assumptions C39_comment_at_end_refuted.
Print Assumptions C39_comment_in_title_refuted.
Print Assumptions C39_unknown_name_refuted.
Print Assumptions C39_termination_refuted.
Print Assumptions C40_matching_brace_partial.
Print Assumptions C40_content_unique.
Print Assumptions C40_no_block.
Print Assumptions C40_documents.
Print Assumptions C40_empty_refuted.
Print Assumptions C49_placed_partial.
Print Assumptions C49_paragraphs_refuted.
Print Assumptions C50_fits.
Print Assumptions C50_lists.
