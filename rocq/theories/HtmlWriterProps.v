(** The HTML writer: final statements (C36, C37, C38, C46, C47). *)
From Coq Require Import ZArith Ascii String List Bool Lia.
From Verif Require Import Prelude Text Literals LiteralsProofs HtmlWriter HtmlWriterSpec HtmlWriterProofs.
Import ListNotations.
Open Scope string_scope.
Open Scope list_scope.
Open Scope Z_scope.

(** ** C36: text is escaped *)

(** Writing a text adds no angle bracket. *)
Theorem C36_no_brackets : forall (t : text) s w w',
  make_call (E := unit) (W_inner_text t s) w = Ok w' ->
  exists added, written w' = written w ++ added /\
    ~ In "<"%char added /\ ~ In ">"%char added.
Proof.
  intros t s w w' R. cbn [make_call] in R. destruct (in_content w) eqn:C.
  2:{ unfold write_inner_text in R. rewrite C in R. discriminate R. }
  destruct (inner_text_lays (E := unit) t s w C) as (n & w1 & R1 & L & _). rewrite R1 in R.
  injection R as <-. exists (inner_text s w t). split; [apply (lays_written _ _ _ L)|].
  pose proof (lays_plain _ _ _ L) as P. unfold no_bracket in P. rewrite Forall_forall in P.
  split; intros X; destruct (P _ X) as [A B]; [apply A|apply B]; reflexivity.
Qed.

(** So it is read as characters of the content. *)
Theorem C36_only_text : forall (t : text) s w w',
  make_call (E := unit) (W_inner_text t s) w = Ok w' ->
  exists added, written w' = written w ++ added /\ scan Data added = (Data, map E_char added).
Proof.
  intros t s w w' R. destruct (C36_no_brackets t s w w' R) as (added & W & N & _).
  exists added. split; [exact W|]. apply scan_plain. unfold plain. apply Forall_forall.
  intros c H ->. exact (N H).
Qed.

(** Distinct texts without ['&'] give distinct outputs. Missing for C36: texts with ['&'], for which this
    is wrong. *)
Theorem C36_distinct_partial : forall t1 t2 s w w1 w2,
  in_set "&" t1 = false -> in_set "&" t2 = false ->
  make_call (E := unit) (W_inner_text t1 s) w = Ok w1 ->
  make_call (E := unit) (W_inner_text t2 s) w = Ok w2 ->
  written w1 = written w2 -> t1 = t2.
Proof.
  intros t1 t2 s w w1 w2 A1 A2 R1 R2 H. cbn [make_call] in R1, R2. destruct (in_content w) eqn:C.
  2:{ unfold write_inner_text in R1. rewrite C in R1. discriminate R1. }
  destruct (inner_text_lays (E := unit) t1 s w C) as (n1 & x1 & Q1 & L1 & _). rewrite Q1 in R1.
  injection R1 as <-.
  destruct (inner_text_lays (E := unit) t2 s w C) as (n2 & x2 & Q2 & L2 & _). rewrite Q2 in R2.
  injection R2 as <-.
  rewrite (lays_written _ _ _ L1), (lays_written _ _ _ L2) in H. apply app_inv_head in H.
  rewrite <- (unescape_escape t1 A1), <- (unescape_escape t2 A2). f_equal.
  unfold inner_text in H. destruct (style_is_pre s); [exact H|].
  change t1 with ([] ++ t1). change t2 with ([] ++ t2).
  rewrite <- (unindent_laid t1 [] (indentation s w) (margin w)) by constructor.
  rewrite <- (unindent_laid t2 [] (indentation s w) (margin w)) by constructor.
  rewrite H. reflexivity.
Qed.

(** Preformatted text without ['&'] is recovered by replacing the character references. *)
Theorem C36_unescape_partial : forall t w w',
  in_set "&" t = false ->
  make_call (E := unit) (W_inner_text t fs_pre) w = Ok w' ->
  exists added, written w' = written w ++ added /\ unescape added = t.
Proof.
  intros t w w' A R. cbn [make_call] in R. destruct (in_content w) eqn:C.
  2:{ unfold write_inner_text in R. rewrite C in R. discriminate R. }
  destruct (inner_text_lays (E := unit) t fs_pre w C) as (n & x & Q & L & _). rewrite Q in R.
  injection R as <-. exists (flat_map escape_char t).
  split; [apply (lays_written _ _ _ L)|apply unescape_escape, A].
Qed.

(** A writer in the content, for examples. *)
Definition started : writer := Eval vm_compute in
  match make_calls (E := unit) [W_preamble] (new_writer 2) with Ok w => w | _ => new_writer 2 end.

(** ['&'] is not escaped: the texts [<] and [&lt;] are written the same way. *)
Theorem C36_ampersand_refuted : exists t1 t2 w1 w2,
  t1 <> t2 /\
  make_call (E := unit) (W_inner_text t1 fs_pre) started = Ok w1 /\
  make_call (E := unit) (W_inner_text t2 fs_pre) started = Ok w2 /\
  written w1 = written w2.
Proof.
  exists (str "<"), (str "&lt;"). do 2 eexists. split; [discriminate|].
  split; [vm_compute; reflexivity|]. split; vm_compute; reflexivity.
Qed.

Definition writes (l : list call) : option text :=
  match make_calls (E := unit) l started with Ok w => Some (skipn 16 (written w)) | _ => None end.

Example C36_example :
  writes [W_inner_text (str "if a < b && c > d") fs_in_line] = Some (str "if a &lt; b && c &gt; d").
Proof. vm_compute. reflexivity. Qed.

(** ** C37: attributes *)

(** An opening tag with attributes is read back as that tag with these attributes. Missing for C37: values
    with double quotes or with white space other than spaces; they are read differently. *)
Theorem C37_attributes_partial : forall p a s w w',
  make_calls (E := unit)
    (W_begin_attributes p :: map (fun '(k, v) => W_attribute k v) a ++ [W_end_attributes s]) w = Ok w' ->
  sound_name (tp_id p) = true ->
  forallb (fun '(_, v) => sound_value v) a = true ->
  exists added e, written w' = written w ++ added /\ scan Data added = (Data, e) /\
    markup e = [E_open (tp_id p) a false].
Proof.
  intros p a s w w' R N V.
  assert (in_attributes w = false) as A.
  { cbn [make_calls make_call] in R. unfold begin_tag_with_attributes, assert_then in R.
    destruct (in_content w) eqn:C; [|discriminate R]. apply content_not_attributes, C. }
  assert (forall b n a0 bare, forallb (fun '(_, v) => sound_value v) b = true ->
    sound_calls (Some (n, a0, bare)) (map (fun '(k, v) => W_attribute k v) b) = true) as S.
  { clear. induction b as [|[k v] b IH]; intros n a0 bare H; [reflexivity|].
    cbn [forallb] in H. apply andb_true_iff in H. destruct H as [H1 H].
    cbn. rewrite H1. apply IH, H. }
  destruct (attributes_tag a (tp_id p) [] false) as (T1 & T2 & _).
  destruct (calls_effect _ _ _ None Data R (conj A eq_refl)) as (t & s' & e & E1 & E2 & E3 & E4 & _).
  { cbn [sound_calls sound_call call_markup snd]. rewrite N. cbn [andb].
    rewrite sound_calls_app, S by exact V. rewrite T1. reflexivity. }
  exists t, e. split; [exact E1|].
  change (W_begin_attributes p :: ?l) with ([W_begin_attributes p] ++ l) in E3, E4.
  rewrite calls_markup_app in E3. rewrite last_tag_app in E4.
  change (last_tag None [W_begin_attributes p]) with (Some (tp_id p, @nil (text * text), false)) in E3, E4.
  rewrite calls_markup_app, T1, T2 in E3. rewrite last_tag_app, T1 in E4.
  destruct E4 as [_ ->]. split; [exact E2|]. rewrite E3. reflexivity.
Qed.

Definition span_tag : tag_properties := Tag_Properties (str "span") fs_in_line.

(** What an HTML reader sees of a sequence of calls. *)
Definition reads (l : list call) : option (scan_state * list event) :=
  option_map (scan Data) (writes l).

(** A double quote ends the value and starts another attribute. *)
Theorem C37_quote_refuted : exists v,
  reads [W_begin_attributes span_tag; W_attribute (str "title") v; W_end_attributes fs_in_line]
  = Some (Data, [E_open (str "span") [(str "title", str "x"); (str "onclick", str "y")] false]).
Proof. exists ("x"%char :: ch_quote :: str " onclick=" ++ [ch_quote] ++ str "y"). vm_compute. reflexivity. Qed.

(** A line break or a tab does not cause quotes, and splits the value. *)
Theorem C37_white_space_refuted : exists v,
  sound_value (filter (fun c => negb (char_eqb c ch_tab)) v) = true /\
  reads [W_begin_attributes span_tag; W_attribute (str "title") v; W_end_attributes fs_in_line]
  = Some (Data, [E_open (str "span") [(str "title", str "a"); (str "onclick", [])] false]).
Proof. exists ("a"%char :: ch_tab :: str "onclick"). vm_compute. auto. Qed.

(** A value without quotes swallows the slash of a self-closing tag. *)
Theorem C37_self_closing_refuted : exists v,
  sound_value v = true /\
  reads [W_begin_attributes span_tag; W_attribute (str "class") v; W_end_empty fs_in_line]
  = Some (Data, [E_open (str "span") [(str "class", v ++ str "/")] false]).
Proof. exists (str "x"). vm_compute. auto. Qed.

Example C37_example :
  writes [W_begin_attributes span_tag; W_attribute (str "id") (str "x1"); W_attribute (str "title") (str "a > b");
          W_attribute (str "hidden") []; W_end_attributes fs_in_line]
  = Some (str "<span id=x1 title=" ++ [ch_quote] ++ str "a > b" ++ [ch_quote] ++ str " hidden>")
  /\ reads [W_begin_attributes span_tag; W_attribute (str "id") (str "x1"); W_attribute (str "title") (str "a > b");
          W_attribute (str "hidden") []; W_end_attributes fs_in_line]
  = Some (Data, [E_open (str "span")
       [(str "id", str "x1"); (str "title", str "a > b"); (str "hidden", [])] false]).
Proof. vm_compute. auto. Qed.

(** ** C38: tags balance *)

(** The markup of the written text is that of the calls, for sound arguments. The property asks for every
    accepted history; the arguments excluded by [sound_calls] are the ones of the refutations in this file. *)
Theorem C38_markup_partial : forall l width w,
  make_calls (E := unit) l (new_writer width) = Ok w -> sound_calls None l = true ->
  w_state w <> ws_attributes ->
  exists e, scan Data (written w) = (Data, e) /\ markup e = calls_markup None l.
Proof.
  intros l width w R S A.
  destruct (calls_effect l _ w None Data R (tracks_new width) S) as (t & s & e & E1 & E2 & E3 & E4 & _).
  exists e. cbn [new_writer written w_out flat_map app] in E1. rewrite E1.
  split; [|exact E3]. unfold tracks in E4. destruct (last_tag None l) as [[[n a] b]|].
  - destruct E4 as [E4 _]. unfold in_attributes in E4. destruct (w_state w); try discriminate. congruence.
  - destruct E4 as [_ ->]. exact E2.
Qed.

(** When [is_done] reports completion and no tag is open for attributes, every closing tag closes an element
    and no element is left open. *)
Theorem C38_balanced_partial : forall l width w,
  make_calls (E := unit) l (new_writer width) = Ok w -> sound_calls None l = true ->
  is_done w = true -> w_state w <> ws_attributes ->
  exists e, scan Data (written w) = (Data, e) /\ depth_after 0 (markup e) = Some 0%nat.
Proof.
  intros l width w R S D A.
  destruct (calls_effect l _ w None Data R (tracks_new width) S) as (t & s & e & E1 & E2 & E3 & E4 & E5).
  exists e. cbn [new_writer written w_out flat_map app] in E1. rewrite E1.
  unfold tracks in E4. destruct (last_tag None l) as [[[n a] b]|].
  { destruct E4 as [E4 _]. unfold in_attributes in E4. destruct (w_state w); try discriminate. congruence. }
  destruct E4 as [_ ->]. split; [exact E2|]. change 0%nat with (w_depth (new_writer width)) at 1. rewrite E3, E5. f_equal.
  unfold is_done in D. apply andb_true_iff in D. destruct D as [D _]. apply andb_true_iff in D.
  destruct D as [_ D]. apply Nat.eqb_eq. exact D.
Qed.

(** At every moment, the depth of the writer is the number of open elements. *)
Theorem C38_depth_partial : forall l width w,
  make_calls (E := unit) l (new_writer width) = Ok w -> sound_calls None l = true ->
  exists s e, scan Data (written w) = (s, e) /\ depth_after 0 (markup e) = Some (w_depth w).
Proof.
  intros l width w R S.
  destruct (calls_effect l _ w None Data R (tracks_new width) S) as (t & s & e & E1 & E2 & E3 & E4 & E5).
  exists s, e. cbn [new_writer written w_out flat_map app] in E1. rewrite E1.
  split; [exact E2|]. rewrite E3. exact E5.
Qed.

(** If the calls match, the tags are properly nested. *)
Theorem C38_nested_partial : forall l width w,
  make_calls (E := unit) l (new_writer width) = Ok w -> sound_calls None l = true ->
  matched [] None l = true -> w_state w <> ws_attributes ->
  exists e, scan Data (written w) = (Data, e) /\ nested [] (markup e) = true.
Proof.
  intros l width w R S M A. destruct (C38_markup_partial l width w R S A) as (e & E1 & E2).
  exists e. split; [exact E1|]. rewrite E2.
  eapply (matched_nested (E := unit) l (new_writer width) w [] None); [exact R|reflexivity|exact M].
Qed.

Definition a_tag : tag_properties := Tag_Properties (str "a") fs_flat.
Definition b_tag : tag_properties := Tag_Properties (str "b") fs_flat.

(** The writer does not compare names: tags that are not nested are accepted, and [is_done] holds. *)
Theorem C38_names_refuted : exists l w,
  make_calls (E := unit) l (new_writer 2) = Ok w /\ sound_calls None l = true /\ is_done w = true /\
  nested [] (markup (snd (scan Data (written w)))) = false.
Proof.
  exists [W_preamble; W_begin_tag a_tag; W_begin_tag b_tag; W_end_tag a_tag; W_end_tag b_tag].
  eexists. split; [vm_compute; reflexivity|]. vm_compute. auto.
Qed.

(** [is_done] holds before anything is written. *)
Theorem C38_initial_refuted : exists l w,
  make_calls (E := unit) l (new_writer 2) = Ok w /\ is_done w = true /\
  ~ In (E_declaration (str "DOCTYPE html")) (snd (scan Data (written w))).
Proof. exists []. eexists. split; [vm_compute; reflexivity|]. split; [reflexivity|]. cbn. auto. Qed.

(** A comment makes up for the preamble. *)
Theorem C38_no_preamble_refuted : exists l w,
  make_calls (E := unit) l (new_writer 2) = Ok w /\ sound_calls None l = true /\ is_done w = true /\
  In (E_open (str "a") [] false) (snd (scan Data (written w))) /\
  ~ In (E_declaration (str "DOCTYPE html")) (snd (scan Data (written w))).
Proof.
  exists [W_comment (str "x") fs_flat; W_begin_tag a_tag; W_end_tag a_tag].
  eexists. split; [vm_compute; reflexivity|]. split; [reflexivity|]. split; [reflexivity|].
  vm_compute. split; [auto 10|]. intros H. repeat (destruct H as [H|H]; [discriminate H|]). exact H.
Qed.

(** [is_done] holds in the middle of a tag. *)
Theorem C38_open_tag_refuted : exists l w,
  make_calls (E := unit) l (new_writer 2) = Ok w /\ sound_calls None l = true /\ is_done w = true /\
  fst (scan Data (written w)) <> Data.
Proof.
  exists [W_preamble; W_begin_attributes a_tag]. eexists. split; [vm_compute; reflexivity|].
  split; [reflexivity|]. split; [reflexivity|]. vm_compute. discriminate.
Qed.

Example C38_example : exists w,
  make_calls (E := unit)
    [W_preamble; W_begin_tag a_tag; W_begin_attributes span_tag; W_attribute (str "id") (str "x");
     W_end_attributes fs_in_line; W_inner_text (str "1 < 2") fs_in_line; W_end_tag span_tag;
     W_empty_tag (Tag_Properties (str "br") fs_in_line); W_end_tag a_tag] (new_writer 2) = Ok w
  /\ is_done w = true
  /\ written w = str "<!DOCTYPE html>" ++ [ch_newline] ++ str "<a>" ++ [ch_newline]
       ++ str "<span id=x>1 &lt; 2</span><br/>" ++ [ch_newline] ++ str "</a>" ++ [ch_newline].
Proof. eexists. split; [vm_compute; reflexivity|]. split; [reflexivity|]. vm_compute. reflexivity. Qed.

(** ** C46: every document can be written *)

(** Writing a document fails no assertion, and a reader sees the same tags, attributes and comments, properly
    nested. [writable] excludes unsound arguments and tags formatted as blocks that have attributes. *)
Theorem C46_document_partial : forall l width, forallb writable l = true ->
  exists w e, make_calls (E := unit) (W_preamble :: flat_map node_calls l) (new_writer width) = Ok w
    /\ scan Data (written w) = (Data, e)
    /\ markup e = E_declaration (str "DOCTYPE html") :: flat_map node_markup l
    /\ nested [] (markup e) = true
    /\ is_done w = in_new_line w.
Proof. intros l width. exact (document_written l width). Qed.

(** A tag formatted as a block cannot have attributes: ending them breaks the line in the wrong state. *)
Theorem C46_block_attributes_abort : forall p k v w,
  is_block_like (tp_style p) = true ->
  ~ exists w', make_calls (E := unit) (W_begin_attributes p :: W_attribute k v :: [W_end_attributes (tp_style p)]) w
    = Ok w'.
Proof.
  intros p k v w B [w' R]. cbn [make_calls make_call] in R.
  destruct (begin_tag_with_attributes p w) as [w1| | |]; try discriminate R. cbn [bind] in R.
  unfold write_attribute, assert_then in R. destruct (in_attributes w1) eqn:A; [|discriminate R].
  destruct (is_html_identifier k); [|discriminate R]. cbn [bind] in R.
  unfold end_attributes in R. change (in_attributes (emits ?c w1)) with (in_attributes w1) in R.
  rewrite A, B in R. cbn [assert_then] in R. unfold break_line in R.
  change (in_attributes (emit ?x (emits ?c w1))) with (in_attributes w1) in R. rewrite A in R. discriminate R.
Qed.

(** So there are documents that cannot be written. *)
Theorem C46_block_attributes_refuted : exists n,
  (match n with N_element _ a l => good_attributes a && forallb writable l | _ => false end) = true /\
  make_calls (E := unit) (W_preamble :: node_calls n) (new_writer 2) = Abort.
Proof.
  exists (N_element (Tag_Properties (str "ul") fs_block) [(str "class", str "x")]
            [N_text (str "y") fs_in_line]).
  split; vm_compute; reflexivity.
Qed.

(** A tag name that begins with a dash is accepted, but what is written is not a tag. *)
Theorem C46_name_refuted : exists p w,
  make_calls (E := unit) [W_preamble; W_begin_tag p; W_end_tag p] (new_writer 2) = Ok w /\
  markup (snd (scan Data (written w)))
  <> [E_declaration (str "DOCTYPE html"); E_open (tp_id p) [] false; E_close (tp_id p)].
Proof.
  exists (Tag_Properties (str "-x") fs_in_line). eexists. split; [vm_compute; reflexivity|]. vm_compute. discriminate.
Qed.

Definition example_document : list node :=
  [N_element (Tag_Properties (str "ul") fs_block) []
     [N_element (Tag_Properties (str "li") fs_block) []
        [N_text (str "x < y") fs_in_line; N_space " " 1;
         N_element span_tag [(str "title", str "p q")] [N_text (str "z") fs_pre]];
      N_comment (str " two ") fs_block;
      N_empty (Tag_Properties (str "hr") fs_block) [(str "class", str "a b")]]].

Example C46_example :
  forallb writable example_document = true /\
  exists w, make_calls (E := unit) (W_preamble :: flat_map node_calls example_document) (new_writer 2) = Ok w
    /\ is_done w = true
    /\ written w = str "<!DOCTYPE html>" ++ [ch_newline] ++ str "<ul>" ++ [ch_newline] ++ str "  <li>"
         ++ [ch_newline] ++ str "    x &lt; y <span title=" ++ [ch_quote] ++ str "p q" ++ [ch_quote]
         ++ str ">z</span>" ++ [ch_newline] ++ str "  </li>" ++ [ch_newline] ++ str "  <!-- two -->"
         ++ [ch_newline] ++ str "  <hr class=" ++ [ch_quote] ++ str "a b" ++ [ch_quote] ++ str "/>"
         ++ [ch_newline] ++ str "</ul>" ++ [ch_newline].
Proof. split; [reflexivity|]. eexists. split; [vm_compute; reflexivity|]. split; [reflexivity|]. vm_compute. reflexivity. Qed.

(** ** C47: comments *)

(** A comment is read back as that comment, unless it begins with [>] or [->] or holds [--!>]. *)
Theorem C47_comment_partial : forall c s w w',
  make_call (E := unit) (W_comment c s) w = Ok w' -> sound_comment c = true ->
  exists added e, written w' = written w ++ added /\ scan Data added = (Data, e) /\
    markup e = [E_comment c].
Proof.
  intros c s w w' R S.
  assert (in_attributes w = false) as A.
  { cbn [make_call] in R. unfold write_comment_tag, assert_then in R.
    destruct (in_attributes w); [discriminate R|reflexivity]. }
  destruct (call_effect _ _ _ None Data R (conj A eq_refl) S) as (t & s' & e & E1 & E2 & E3 & [_ ->] & _).
  exists t, e. auto.
Qed.

(** The writer only looks for [-->]; a reader also ends the comment at [--!>] ... *)
Theorem C47_bang_refuted : exists c,
  reads [W_comment c fs_in_line]
  = Some (Data, [E_comment (str "a"); E_open (str "script") [] false] ++ map E_char (str "-->")).
Proof. exists (str "a--!><script>"). vm_compute. reflexivity. Qed.

(** ... and at a bracket at the start. *)
Theorem C47_start_refuted : exists c,
  reads [W_comment c fs_in_line]
  = Some (Data, [E_comment []; E_open (str "script") [] false] ++ map E_char (str "-->")).
Proof. exists (str "><script>"). vm_compute. reflexivity. Qed.

Example C47_example :
  reads [W_comment (str "-- <b> -") fs_in_line] = Some (Data, [E_comment (str "-- <b> -")]).
Proof. vm_compute. reflexivity. Qed.

(** * Assumptions of the theorems above *)
Print Assumptions C36_no_brackets.
Print Assumptions C36_only_text.
Print Assumptions C36_distinct_partial.
Print Assumptions C36_unescape_partial.
Print Assumptions C36_ampersand_refuted.
Print Assumptions C37_attributes_partial.
Print Assumptions C37_quote_refuted.
Print Assumptions C37_white_space_refuted.
Print Assumptions C37_self_closing_refuted.
Print Assumptions C38_markup_partial.
Print Assumptions C38_balanced_partial.
Print Assumptions C38_depth_partial.
Print Assumptions C38_nested_partial.
Print Assumptions C38_names_refuted.
Print Assumptions C38_initial_refuted.
Print Assumptions C38_no_preamble_refuted.
Print Assumptions C38_open_tag_refuted.
Print Assumptions C46_document_partial.
Print Assumptions C46_block_attributes_abort.
Print Assumptions C46_block_attributes_refuted.
Print Assumptions C46_name_refuted.
Print Assumptions C47_comment_partial.
Print Assumptions C47_bang_refuted.
Print Assumptions C47_start_refuted.
