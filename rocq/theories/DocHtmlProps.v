(** C61, C62: the HTML page of a document, and code in it. *)
From Coq Require Import ZArith Ascii String List Bool Lia Permutation.
From Verif Require Import Prelude Text Literals Tokenizer TokenizerSpec HtmlWriter HtmlWriterSpec HtmlWriterProofs
  Decimal DecimalSpec DecimalProps Directives BmdParse BmdParseSpec BmsHtml DocHtml DocHtmlSpec DocHtmlFacts
  BmsHtmlProofs DocHtmlProofs.
Import ListNotations.
Open Scope string_scope.
Open Scope list_scope.
Open Scope Z_scope.

(** * C61: the page of a document *)

(** Full statement: for each parsed document [n] and each successful conversion, a reader of the written
    text sees what [page_events] says, up to the length of white space.  Missing are the documents with a
    node that is not [fair], stylesheets whose names need no quotes, and stylesheets with quotes or
    control characters; see the refutations below. *)
Theorem C61_page_partial : forall arrange fuel src n width sheets w,
  (forall l, Permutation (arrange l) l) ->
  Z.of_nat (length src) < 2 ^ 64 -> bmd_parse fuel src = Some (Ok (Some n)) ->
  (forall m, below m n -> fair m) ->
  Forall (fun t => sound_value t = true /\ is_bare t = false) sheets ->
  doc_to_html arrange width sheets n = Some (Ok w) ->
  exists s l e, n = B_list s l /\ scan Data (written w) = (Data, e) /\ looks_like e (page_events arrange sheets l).
Proof. exact document_written. Qed.

Lemma ink_collapse : forall l f, ink (collapse f l) = ink l.
Proof.
  induction l as [|e l IH]; intros f; [reflexivity|]. destruct e as [c| | | |]; cbn [collapse ink filter];
    try (f_equal; apply IH).
  destruct (is_html_space c) eqn:S; [destruct f|]; cbn [negb filter ink].
  - apply IH.
  - change (is_html_space " ") with true. cbn [negb]. apply IH.
  - rewrite S. cbn [negb]. f_equal. apply IH.
Qed.

(** C61. So the tags and the characters other than white space are exactly those. *)
Corollary C61_ink_partial : forall arrange fuel src n width sheets w,
  (forall l, Permutation (arrange l) l) ->
  Z.of_nat (length src) < 2 ^ 64 -> bmd_parse fuel src = Some (Ok (Some n)) ->
  (forall m, below m n -> fair m) ->
  Forall (fun t => sound_value t = true /\ is_bare t = false) sheets ->
  doc_to_html arrange width sheets n = Some (Ok w) ->
  exists s l e, n = B_list s l /\ scan Data (written w) = (Data, e) /\ ink e = ink (page_events arrange sheets l).
Proof.
  intros arrange fuel src n width sheets w A L P F FS R.
  destruct (document_written _ _ _ _ _ _ _ A L P F FS R) as (s & l & e & Q & S & X).
  exists s, l, e. split; [exact Q|]. split; [exact S|].
  rewrite <- (ink_collapse e false), X. apply ink_collapse.
Qed.

(** C61. The numbers among the attributes denote themselves. *)
Theorem C61_numbers : forall n, - 2 ^ 63 <= n < 2 ^ 63 -> denotes_signed (decimal n) n.
Proof.
  intros n R. unfold decimal. destruct (Z.ltb_spec n 0).
  - right. exists (to_string_uint (- n)). split; [reflexivity|].
    split; [apply C54_small_unsigned_partial; lia|lia].
  - left. apply C54_small_unsigned_partial. lia.
Qed.

Definition nl : string := String ch_newline EmptyString.
Definition qt : string := String ch_quote EmptyString.

(** The page for a source text, and what a reader sees. *)
Definition page (sheets : list text) (src : text) : option (outcome document_error writer) :=
  match bmd_parse 200 src with
  | Some (Ok (Some n)) => doc_to_html (fun l => l) 2 sheets n
  | _ => None
  end.

(** Which conversions do not say what they should. *)
Definition wrong (sheets : list text) (src : text) : Prop :=
  exists s l w, bmd_parse 200 src = Some (Ok (Some (B_list s l))) /\
    doc_to_html (fun l => l) 2 sheets (B_list s l) = Some (Ok w) /\
    ~ looks_like (snd (scan Data (written w))) (page_events (fun l => l) sheets l).

Ltac witness := do 3 eexists; split; [vm_compute; reflexivity|]; split; [vm_compute; reflexivity|];
  intros H; vm_compute in H; discriminate H.

(** C61. [\sup] is subscript. *)
Theorem C61_superscript_refuted : wrong [] (str "x\sup{2}").
Proof. witness. Qed.

(** C61. A slash is added to the name of a stylesheet that needs no quotes. *)
Theorem C61_stylesheet_refuted : wrong [str "main.css"] (str "x").
Proof. witness. Qed.

(** C61. Quotes in the name of an instruction end the attribute. *)
Theorem C61_instruction_refuted : wrong [] (str ("\instruction{a" ++ qt ++ " onclick=" ++ qt ++ "b}")).
Proof. witness. Qed.

(** C61. That way, elements get attributes that are not in the document. *)
Theorem C61_injection_refuted : exists w,
  page [] (str ("\instruction{a" ++ qt ++ " onclick=" ++ qt ++ "b}")) = Some (Ok w) /\
  exists v, In (E_open (str "a") [(str "href", v); (str "onclick", str "b")] false) (snd (scan Data (written w))).
Proof.
  eexists. split; [vm_compute; reflexivity|]. eexists. vm_compute. do 14 right. left. reflexivity.
Qed.

(** C61. An element without a block is written as if it could be empty; HTML then takes the rest of the page
    for its content. *)
Theorem C61_self_closing_refuted : exists w, page [] (str "\tt x") = Some (Ok w) /\
  In (E_open (str "tt") [] true) (snd (scan Data (written w))) /\
  ~ In (E_close (str "tt")) (snd (scan Data (written w))).
Proof.
  eexists. split; [vm_compute; reflexivity|].
  split; [vm_compute; intuition|]. vm_compute. intuition discriminate.
Qed.

(** * C62: code *)

(** Full statement: code is shown with the white space it has in the document.  What is missing is white
    space at the ends of lines, before the first token and after the last, and code that is not regular. *)
Theorem C62_layout_partial : forall E code ts r w w', regular_code code -> tokenize code = Some (Ok ts) ->
  bms_inline_code_to_html (E := E) code w = Some (Ok (r, w')) ->
  exists t, written w' = written w ++ t /\ scan Data t = (Data, exact_events code None ts).
Proof.
  intros E code ts r w w' RC H R. unfold bms_inline_code_to_html in R. rewrite H in R.
  assert (exists w2, tokens_to_html (E := E) code None ts w = Ok w2 /\ w' = w2) as (w2 & R' & ->).
  { destruct (Parse.parse _) as [[p|e| |]|]; try discriminate R; apply some_eq in R; bstep R w2;
      injection R as _ <-; eauto. }
  destruct (tokens_fine code ts RC H) as [F T]. destruct RC as (LB & NT & NC & _).
  destruct (tokens_written E code ts None w w2 LB NT NC F T Logic.I R') as (_ & _ & X). exact X.
Qed.

(** C62. Without spaces at the ends of lines, all characters of the code are shown, in order, from the first
    token to the last. *)
Theorem C62_verbatim_partial : forall E code ts r w w', regular_code code -> tokenize code = Some (Ok ts) ->
  (forall a b, code <> a ++ [" "%char; ch_newline] ++ b) ->
  bms_inline_code_to_html (E := E) code w = Some (Ok (r, w')) ->
  exists t e before body after, written w' = written w ++ t /\ scan Data t = (Data, e) /\
    code = before ++ body ++ after /\ Forall is_white before /\ Forall is_white after /\
    characters e = flat_map reference body.
Proof.
  intros E code ts r w w' RC H N R. destruct (C62_layout_partial E code ts r w w' RC H R) as (t & W & S).
  destruct (code_characters code ts H N) as (b & c & d & Q & B & D & X).
  exists t, (exact_events code None ts), b, c, d. repeat (split; [assumption|]). exact X.
Qed.

(** The characters a reader sees of code. *)
Definition shown (code : text) : option (outcome unit text) :=
  match bms_inline_code_to_html (E := unit) code (Writer [] 2 ws_normal 0 0) with
  | Some (Ok (_, w)) => Some (Ok (characters (snd (scan Data (written w)))))
  | Some (Err e) => Some (Err e)
  | Some Abort => Some Abort
  | Some UB => Some UB
  | None => None
  end.

(** [t] is the code, apart from white space before and after it. *)
Definition kept (code t : text) : Prop :=
  exists before body after, code = before ++ body ++ after /\ Forall is_white before /\ Forall is_white after /\
    t = flat_map reference body.

(** Without angle brackets, what is kept is not longer. *)
Lemma kept_length : forall code t, kept code t -> ~ In "<"%char code -> ~ In ">"%char code ->
  (length t <= length code)%nat.
Proof.
  intros code t (b & c & a & -> & _ & _ & ->) N1 N2.
  assert (flat_map reference c = c) as Q.
  { assert (forall x, In x c -> reference x = [x]) as H.
    { intros x I. unfold reference. destruct (Ascii.eqb_spec x "<") as [->|_].
      - destruct N1. apply in_or_app. right. apply in_or_app. left. exact I.
      - destruct (Ascii.eqb_spec x ">") as [->|_]; [|reflexivity].
        destruct N2. apply in_or_app. right. apply in_or_app. left. exact I. }
    clear N1 N2. induction c as [|x c IH]; [reflexivity|]. cbn [flat_map].
    rewrite (H x) by (left; reflexivity). cbn [app]. f_equal. apply IH. intros y J. apply H. right. exact J. }
  rewrite Q, !app_length. lia.
Qed.

Ltac too_long := intros K; apply kept_length in K; [vm_compute in K; lia| |]; vm_compute; intuition discriminate.

(** C62. Indentation of the first line is lost, and so the lines are no longer aligned. *)
Theorem C62_indentation_refuted : exists code, code = str ("  x" ++ nl ++ "  y") /\
  shown code = Some (Ok (str ("x" ++ nl ++ "  y"))).
Proof. eexists. split; [reflexivity|]. vm_compute. reflexivity. Qed.

(** C62. After a comment of two lines there is one more line feed. *)
Theorem C62_comment_refuted : exists code t, code = str ("/*a" ++ nl ++ "b*/" ++ nl ++ "x") /\
  shown code = Some (Ok t) /\ ~ kept code t /\ t = str ("/*a" ++ nl ++ "b*/" ++ nl ++ nl ++ "x").
Proof.
  do 2 eexists. split; [reflexivity|]. split; [vm_compute; reflexivity|]. split; [too_long|reflexivity].
Qed.

(** C62. A token in the line of the end of a comment is moved to the next line. *)
Theorem C62_comment_line_refuted : exists code t, code = str ("/*a" ++ nl ++ "b*/x") /\
  shown code = Some (Ok t) /\ ~ kept code t /\ t = str ("/*a" ++ nl ++ "b*/" ++ nl ++ "   x").
Proof.
  do 2 eexists. split; [reflexivity|]. split; [vm_compute; reflexivity|]. split; [too_long|reflexivity].
Qed.

(** C62. Tabs become spaces. *)
Theorem C62_tab_refuted : exists code t, code = str "x" ++ [ch_tab] ++ str "y" /\
  shown code = Some (Ok t) /\ ~ kept code t /\ ~ In ch_tab t.
Proof.
  do 2 eexists. split; [reflexivity|]. split; [vm_compute; reflexivity|]. split; [too_long|].
  vm_compute. intuition discriminate.
Qed.

(** C62. After a carriage return, an assertion fails, or the tokens are run together. *)
Theorem C62_carriage_return_refuted : exists a b, a = str " x" ++ [ch_cr] ++ str "z" /\
  shown a = Some Abort /\
  b = str "xy" ++ [ch_cr] ++ str "z" /\ shown b = Some (Ok (str "xyz")).
Proof. do 2 eexists. split; [reflexivity|]. split; [|split; [reflexivity|]]; vm_compute; reflexivity. Qed.

(** ** Examples *)

Definition C61_source : text :=
  str ("\meta{\title[x=0x10]{Hello <x>}}" ++ nl ++ nl ++ "Some \b{bold \i{it} x}text\u{y} and \instruction[ext=bmi]{pdep}."
       ++ nl ++ nl ++ "\h2{More}" ++ nl ++ "\codeblock{let x = y<<0x1; //foo" ++ nl ++ "  return x;}").

(** All nodes of a tree. *)
Fixpoint nodes (n : bmd_node) : list bmd_node :=
  n :: match n with
       | B_list _ l => flat_map nodes l
       | B_directive _ _ _ _ (Some b) => nodes b
       | _ => []
       end.

Lemma below_nodes : forall m n, below m n -> In m (nodes n).
Proof.
  induction 1 as [|sp l k I B IH|sp ty id args k B IH].
  - destruct m; left; reflexivity.
  - right. apply in_flat_map. eauto.
  - right. exact IH.
Qed.

(** The hypotheses can be met, and this is what is written. *)
Example C61_example : exists s l w, bmd_parse 200 C61_source = Some (Ok (Some (B_list s l))) /\
  (forall m, below m (B_list s l) -> fair m) /\
  doc_to_html (fun l => l) 2 [str "/main.css"] (B_list s l) = Some (Ok w) /\
  written w = str (
    "<!DOCTYPE html>" ++ nl ++
    "<html>" ++ nl ++
    "<head>" ++ nl ++
    "  <link rel=stylesheet href=" ++ qt ++ "/main.css" ++ qt ++ "/>" ++ nl ++
    "</head>" ++ nl ++
    "<body>" ++ nl ++
    "<h1 x=16>Hello &lt;x&gt;</h1>" ++ nl ++
    "<p>" ++ nl ++
    "  Some <b>bold <i>it</i> x</b>text<u>y</u> and <a href=" ++ qt ++
      "https://www.felixcloutier.com/x86/pdep" ++ qt ++ "><code>pdep</code></a><sup>bmi</sup>." ++ nl ++
    "</p>" ++ nl ++
    "<h2>More</h2>" ++ nl ++
    "<pre>" ++ nl ++
    "<c-key>let</c-key> <c-idn>x</c-idn> <c-opr>=</c-opr> <c-idn>y</c-idn><c-opr>&lt;&lt;</c-opr>" ++
      "<c-int>0x1</c-int><c-pun>;</c-pun> <c-com>//foo</c-com>" ++ nl ++
    "  <c-key>return</c-key> <c-idn>x</c-idn><c-pun>;</c-pun>" ++ nl ++
    "</pre>" ++ nl ++
    "</body>" ++ nl ++
    "</html>" ++ nl).
Proof.
  do 3 eexists. split; [vm_compute; reflexivity|]. split.
  { intros m B.
    assert (regular_code (str ("let x = y<<0x1; //foo" ++ nl ++ "  return x;"))) as RC.
    { split; [vm_compute; reflexivity|]. do 2 (split; [vm_compute; intuition discriminate|]).
      intros ts H. vm_compute in H. injection H as <-.
      repeat constructor; vm_compute; intuition discriminate. }
    apply below_nodes in B.
    match type of B with In m ?l => cut (Forall fair l); [intros F; rewrite Forall_forall in F; exact (F m B)|] end.
    clear m B. cbn [nodes flat_map app].
    repeat (apply Forall_cons; [|]); try apply Forall_nil; try exact Logic.I; (split; [discriminate|]); split;
      intros T; try discriminate T; intros s t Q; try discriminate Q; injection Q as <- <-.
    - reflexivity.
    - intros _. exact RC. }
  split; [vm_compute; reflexivity|]. vm_compute. reflexivity.
Qed.

Example C62_example : shown (str ("let x = y<1;" ++ nl ++ nl ++ "  return  x; ")) =
  Some (Ok (str ("let x = y&lt;1;" ++ nl ++ nl ++ "  return  x;"))).
Proof. vm_compute. reflexivity. Qed.

(** * Assumptions of the theorems above *)
Print Assumptions C61_page_partial.
Print Assumptions C61_numbers.
Print Assumptions C61_superscript_refuted.
Print Assumptions C61_stylesheet_refuted.
Print Assumptions C61_instruction_refuted.
Print Assumptions C61_injection_refuted.
Print Assumptions C61_self_closing_refuted.
Print Assumptions C62_layout_partial.
Print Assumptions C62_verbatim_partial.
Print Assumptions C62_indentation_refuted.
Print Assumptions C62_comment_refuted.
Print Assumptions C62_comment_line_refuted.
Print Assumptions C62_tab_refuted.
Print Assumptions C62_carriage_return_refuted.
