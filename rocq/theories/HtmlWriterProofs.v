(** Proofs about the HTML writer. *)
From Coq Require Import ZArith Ascii String List Bool Lia.
From Verif Require Import Prelude Text Literals LiteralsProofs HtmlWriter HtmlWriterSpec.
Import ListNotations.
Open Scope string_scope.
Open Scope list_scope.
Open Scope Z_scope.
Local Arguments Z.pow : simpl never.

Lemma char_eqb_eq : forall a b, char_eqb a b = true <-> a = b.
Proof. intros. apply Ascii.eqb_eq. Qed.

Lemma char_eqb_neq : forall a b, char_eqb a b = false <-> a <> b.
Proof. intros. apply Ascii.eqb_neq. Qed.

Lemma scan_app : forall a b s,
  scan s (a ++ b) =
  let '(s1, e1) := scan s a in let '(s2, e2) := scan s1 b in (s2, e1 ++ e2).
Proof.
  induction a as [|c a IH]; intros b s; cbn [scan app].
  - destruct (scan s b); reflexivity.
  - destruct (scan_char s c) as [s1 e1]. rewrite IH. destruct (scan s1 a) as [s2 e2].
    destruct (scan s2 b) as [s3 e3]. rewrite app_assoc. reflexivity.
Qed.

Definition plain (t : text) : Prop := Forall (fun c => c <> "<"%char) t.

Lemma scan_plain : forall t, plain t -> scan Data t = (Data, map E_char t).
Proof.
  induction 1 as [|c t Hc Ht IH]; [reflexivity|].
  cbn [scan scan_char]. unfold data. apply char_eqb_neq in Hc. rewrite Hc, IH. reflexivity.
Qed.

Lemma markup_chars : forall t, markup (map E_char t) = [].
Proof. induction t; cbn; auto. Qed.

Lemma markup_app : forall a b, markup (a ++ b) = markup a ++ markup b.
Proof. intros. apply filter_app. Qed.

Lemma written_emit : forall c w, written (emit c w) = written w ++ chunk_text c.
Proof.
  intros. unfold written, emit; cbn [w_out]. rewrite flat_map_app; cbn. rewrite app_nil_r; reflexivity.
Qed.

Lemma written_emits : forall l w, written (emits l w) = written w ++ flat_map chunk_text l.
Proof. intros. unfold written, emits; cbn [w_out]. rewrite flat_map_app. reflexivity. Qed.

(** ** Escaping *)

Definition escape_char (c : ascii) : text :=
  if char_eqb c "<" then str "&lt;" else if char_eqb c ">" then str "&gt;" else [c].

Lemma escape_text : forall t snippet,
  flat_map chunk_text (escape snippet t) = snippet ++ flat_map escape_char t.
Proof.
  induction t as [|c t IH]; intros s; cbn [escape flat_map].
  - destruct s; cbn; rewrite ?app_nil_r; reflexivity.
  - unfold escape_char at 1. destruct (char_eqb c "<").
    + cbn [flat_map chunk_text]. rewrite IH. reflexivity.
    + destruct (char_eqb c ">").
      * cbn [flat_map chunk_text]. rewrite IH. reflexivity.
      * rewrite IH, <- app_assoc. reflexivity.
Qed.

Definition no_bracket (t : text) : Prop := Forall (fun c => c <> "<"%char /\ c <> ">"%char) t.

Lemma escaped_no_bracket : forall t, no_bracket (flat_map escape_char t).
Proof.
  induction t as [|c t IH]; [constructor|]. cbn [flat_map]. apply Forall_app; split; [|exact IH].
  unfold escape_char. destruct (char_eqb c "<") eqn:A; [|destruct (char_eqb c ">") eqn:B].
  - repeat constructor; discriminate.
  - repeat constructor; discriminate.
  - apply char_eqb_neq in A, B. repeat constructor; auto.
Qed.

Lemma no_bracket_plain : forall t, no_bracket t -> plain t.
Proof. intros t. apply Forall_impl. tauto. Qed.

Lemma no_bracket_fill : forall c n, c <> "<"%char -> c <> ">"%char -> no_bracket (repeat c n).
Proof. induction n; cbn; constructor; auto. apply IHn; auto. Qed.

Lemma unescape_escape : forall t,
  in_set "&" t = false -> unescape (flat_map escape_char t) = t.
Proof.
  induction t as [|c t IH]; [reflexivity|].
  unfold in_set; cbn [existsb]. intros H. apply orb_false_iff in H. destruct H as [Hc Ht].
  specialize (IH Ht). cbn [flat_map]. set (r := flat_map escape_char t) in *. unfold escape_char.
  destruct (char_eqb c "<") eqn:A.
  { apply char_eqb_eq in A; subst c. change (unescape (str "&lt;" ++ r)) with ("<"%char :: unescape r).
    rewrite IH; reflexivity. }
  destruct (char_eqb c ">") eqn:B.
  { apply char_eqb_eq in B; subst c. change (unescape (str "&gt;" ++ r)) with (">"%char :: unescape r).
    rewrite IH; reflexivity. }
  cbn [app].
  assert (unescape (c :: r) = c :: unescape r) as E.
  { clearbody r. clear - Hc. apply char_eqb_neq in Hc.
    destruct c as [[] [] [] [] [] [] [] []]; try reflexivity. exfalso; apply Hc; reflexivity. }
  rewrite E, IH. reflexivity.
Qed.

(** ** What the layout functions add *)

(** [w'] comes from [w] by adding [t], which holds no brackets. *)
Record lays (w w' : writer) (t : text) : Prop := {
  lays_written : written w' = written w ++ t;
  lays_plain : no_bracket t;
  lays_width : w_width w' = w_width w;
  lays_depth : w_depth w' = w_depth w;
  lays_indent : w_indent w' = w_indent w
}.

Lemma lays_refl : forall w, lays w w [].
Proof. intros; constructor; rewrite ?app_nil_r; auto. constructor. Qed.

Lemma lays_trans : forall a b c t u, lays a b t -> lays b c u -> lays a c (t ++ u).
Proof.
  intros a b c t u [] []. constructor; try congruence.
  - rewrite lays_written1, lays_written0, app_assoc. reflexivity.
  - apply Forall_app; auto.
Qed.

Lemma no_newline_bracket : no_bracket [ch_newline].
Proof. repeat constructor; discriminate. Qed.

Section Writer.
Context {E : Type}.
Local Notation break_line := (@break_line E).
Local Notation indent := (@indent E).

Lemma break_line_lays : forall w w',
  break_line w = Ok w' -> lays w w' [ch_newline] /\ w_state w' = ws_new_line /\ in_attributes w = false.
Proof.
  unfold HtmlWriter.break_line, assert_then. intros w w' H.
  destruct (in_attributes w); [discriminate|]. injection H as <-.
  split; [|auto]. constructor; auto.
  - change (written (set_state ?s ?x)) with (written x). rewrite written_emit. reflexivity.
  - apply no_newline_bracket.
Qed.

Lemma break_line_ok : forall w,
  in_attributes w = false ->
  break_line w = Ok (set_state ws_new_line (emit (Chunk [ch_newline] ht_whitespace) w)).
Proof. unfold HtmlWriter.break_line, assert_then. intros w ->. reflexivity. Qed.

(** The text [indent] adds. *)
Definition margin (w : writer) : text := repeat " "%char (Z.to_nat (wrap64 (w_indent w * w_width w))).
Definition indentation (s : formatting_style) (w : writer) : text :=
  (if negb (in_new_line w) && is_block_like s then [ch_newline] else [])
  ++ (if (in_new_line w || is_block_like s) && negb (style_is_pre s) then margin w else []).

Lemma no_margin_bracket : forall w, no_bracket (margin w).
Proof. intros. apply no_bracket_fill; discriminate. Qed.

Lemma indentation_no_bracket : forall s w, no_bracket (indentation s w).
Proof.
  intros. unfold indentation. apply Forall_app; split.
  - destruct (_ && _); [apply no_newline_bracket|constructor].
  - destruct (_ && _); [apply no_margin_bracket|constructor].
Qed.

Lemma indent_spec : forall s w,
  in_attributes w = false ->
  exists w', indent s w = Ok w' /\ lays w w' (indentation s w) /\ w_state w' = ws_normal.
Proof.
  intros s w H. unfold HtmlWriter.indent, indentation.
  destruct (negb (in_new_line w) && is_block_like s) eqn:B.
  - rewrite (break_line_ok w H). cbn [bind].
    apply andb_true_iff in B. destruct B as [B1 B2]. apply negb_true_iff in B1.
    assert (style_is_pre s = false) as P by (destruct s; auto; discriminate).
    rewrite P, B1, B2. cbn. eexists; split; [reflexivity|]. split; [|reflexivity].
    constructor; auto.
    + change (written (set_state ?s ?x)) with (written x). rewrite written_emit.
      change (written (set_state ?s ?x)) with (written x). rewrite written_emit.
      rewrite <- app_assoc. reflexivity.
    + constructor; [split; discriminate|apply no_margin_bracket].
  - cbn [bind]. destruct (in_new_line w) eqn:N.
    + cbn [orb andb]. destruct (style_is_pre s) eqn:P; cbn [negb].
      * eexists; split; [reflexivity|]. split; [|reflexivity]. constructor; auto.
        -- rewrite app_nil_r. reflexivity.
        -- constructor.
      * eexists; split; [reflexivity|]. split; [|reflexivity]. constructor; auto.
        -- change (written (set_state ?s ?x)) with (written x). rewrite written_emit. reflexivity.
        -- apply no_margin_bracket.
    + cbn [negb andb] in B. rewrite B. cbn [orb andb].
      eexists; split; [reflexivity|]. split; [|reflexivity]. constructor; auto.
      * rewrite app_nil_r. reflexivity.
      * constructor.
Qed.

Lemma indent_lays : forall s w w',
  in_attributes w = false -> indent s w = Ok w' ->
  lays w w' (indentation s w) /\ w_state w' = ws_normal.
Proof.
  intros s w w' H R. destruct (indent_spec s w H) as (x & X & L). rewrite X in R.
  injection R as <-. exact L.
Qed.

Definition block_end (s : formatting_style) : text := if is_block_like s then [ch_newline] else [].
Definition block_state (s : formatting_style) : writer_state :=
  if is_block_like s then ws_new_line else ws_normal.

Lemma break_if_block_spec : forall s w,
  w_state w = ws_normal ->
  exists w', break_if_block (E := E) s w = Ok w' /\ lays w w' (block_end s) /\
    w_state w' = block_state s.
Proof.
  intros s w H. unfold break_if_block, block_end, block_state. destruct (is_block_like s).
  - rewrite break_line_ok by (unfold in_attributes; rewrite H; reflexivity).
    eexists; split; [reflexivity|]. split; [|reflexivity]. constructor; auto.
    + change (written (set_state ?s ?x)) with (written x). rewrite written_emit. reflexivity.
    + apply no_newline_bracket.
  - eexists; split; [reflexivity|]. split; [apply lays_refl|exact H].
Qed.

(** ** Inner text *)

Lemma escaped_lays : forall t w, in_content w = true ->
  exists w', write_escaped_text (E := E) t w = Ok w' /\ lays w w' (flat_map escape_char t)
    /\ w_state w' = ws_normal.
Proof.
  intros t w H. unfold write_escaped_text, assert_then. rewrite H.
  eexists; split; [reflexivity|]. split; [|reflexivity]. constructor; auto.
  - change (written (set_state ?s ?x)) with (written x).
    rewrite written_emits, escape_text. reflexivity.
  - apply escaped_no_bracket.
Qed.

(** The text of some lines: the first is preceded by [first], the others by [m]. *)
Fixpoint laid (first m line t : text) : text :=
  match t with
  | [] => match line with [] => [] | _ => first ++ flat_map escape_char line end
  | c :: r =>
      if char_eqb c ch_newline
      then (first ++ flat_map escape_char line) ++ [ch_newline] ++ laid m m [] r
      else laid first m (line ++ [c]) r
  end.

Lemma not_attributes_normal : forall w, w_state w = ws_normal -> in_attributes w = false.
Proof. intros w H. unfold in_attributes. rewrite H. reflexivity. Qed.

Lemma not_attributes_new_line : forall w, w_state w = ws_new_line -> in_attributes w = false.
Proof. intros w H. unfold in_attributes. rewrite H. reflexivity. Qed.

Lemma content_not_attributes : forall w, in_content w = true -> in_attributes w = false.
Proof. unfold in_content, in_attributes. intros w H. destruct (w_state w); auto; discriminate. Qed.

Lemma lays_margin : forall w w' t, lays w w' t -> margin w' = margin w.
Proof. intros w w' t [_ _ A _ B]. unfold margin. rewrite A, B. reflexivity. Qed.

Lemma lines_lays : forall s t line w,
  style_is_pre s = false -> in_attributes w = false -> in_initial w = false ->
  exists w', write_lines (E := E) s (text_lines line t) w = Ok w'
    /\ lays w w' (laid (indentation s w) (margin w) line t)
    /\ in_content w' = true.
Proof.
  intros s t. induction t as [|c t IH]; intros line w P A I0.
  - cbn [text_lines laid]. destruct line as [|x line].
    + exists w. repeat split; auto using lays_refl; try (rewrite app_nil_r; reflexivity).
      * constructor.
      * unfold in_content, in_attributes, in_initial in *. destruct (w_state w); auto; discriminate.
    + cbn [write_lines].
      destruct (indent_spec s w A) as (w1 & R1 & L1 & S1). rewrite R1. cbn [bind].
      destruct (escaped_lays (x :: line) w1) as (w2 & R2 & L2 & S2);
        [unfold in_content; rewrite S1; reflexivity|].
      rewrite R2. cbn [bind]. exists w2. split; [reflexivity|]. split.
      * apply (lays_trans _ _ _ _ _ L1 L2).
      * unfold in_content; rewrite S2; reflexivity.
  - cbn [text_lines laid]. destruct (char_eqb c ch_newline) eqn:C.
    + cbn [write_lines].
      destruct (indent_spec s w A) as (w1 & R1 & L1 & S1). rewrite R1. cbn [bind].
      destruct (escaped_lays line w1) as (w2 & R2 & L2 & S2);
        [unfold in_content; rewrite S1; reflexivity|].
      rewrite R2. cbn [bind].
      pose proof (break_line_ok w2 (not_attributes_normal _ S2)) as R3.
      destruct (break_line_lays _ _ R3) as (L3 & S3 & _).
      rewrite R3. cbn [bind]. set (w3 := set_state _ _) in *. clearbody w3. clear R3.
      destruct (IH [] w3 P (not_attributes_new_line _ S3)) as (w4 & R4 & L4 & S4).
      { unfold in_initial; rewrite S3; reflexivity. }
      exists w4. split; [exact R4|]. split; [|exact S4].
      assert (margin w3 = margin w) as M.
      { rewrite (lays_margin _ _ _ L3), (lays_margin _ _ _ L2), (lays_margin _ _ _ L1). reflexivity. }
      assert (indentation s w3 = margin w) as N.
      { unfold indentation, in_new_line. rewrite S3, P, M. reflexivity. }
      rewrite N, M in L4.
      apply (lays_trans _ _ _ _ _ (lays_trans _ _ _ _ _ L1 L2) (lays_trans _ _ _ _ _ L3 L4)).
    + apply IH; auto.
Qed.

Definition inner_text (s : formatting_style) (w : writer) (t : text) : text :=
  if style_is_pre s then flat_map escape_char t else laid (indentation s w) (margin w) [] t.

Lemma inner_text_lays : forall t s w, in_content w = true ->
  exists n w', write_inner_text (E := E) t s w = Ok (n, w') /\ lays w w' (inner_text s w t)
    /\ in_content w' = true.
Proof.
  intros t s w H. unfold write_inner_text, inner_text. rewrite H. cbn [assert_then].
  destruct (style_is_pre s) eqn:P.
  - destruct (escaped_lays t w H) as (w' & R & L & S). rewrite R. cbn [bind].
    eexists _, w'. split; [reflexivity|]. split; [exact L|]. unfold in_content; rewrite S; reflexivity.
  - destruct (lines_lays s t [] w P (content_not_attributes w H)) as (w' & R & L & S).
    { unfold in_content, in_initial in *. destruct (w_state w); auto; discriminate. }
    rewrite R. cbn [bind]. eexists _, w'. split; [reflexivity|]. split; [exact L|exact S].
Qed.

End Writer.

(** Removing [skip] characters, and [n] characters after every line break. *)
Fixpoint unindent (n skip : nat) (t : text) : text :=
  match t with
  | [] => []
  | c :: r =>
      match skip with
      | S k => unindent n k r
      | O => c :: unindent n (if char_eqb c ch_newline then n else 0%nat) r
      end
  end.

Lemma unindent_skip : forall a b n, unindent n (length a) (a ++ b) = unindent n 0 b.
Proof. induction a as [|c a IH]; intros; cbn [app length unindent]; auto. Qed.

Definition one_line (t : text) : Prop := Forall (fun c => c <> ch_newline) t.

Lemma unindent_line : forall a b n, one_line a -> unindent n 0 (a ++ b) = a ++ unindent n 0 b.
Proof.
  induction 1 as [|c a Hc Ha IH]; [reflexivity|]. cbn [app unindent].
  apply char_eqb_neq in Hc. rewrite Hc, IH. reflexivity.
Qed.

Lemma escape_one_line : forall t, one_line t -> one_line (flat_map escape_char t).
Proof.
  induction 1 as [|c t Hc Ht IH]; [constructor|]. cbn [flat_map]. apply Forall_app. split; [|exact IH].
  unfold escape_char. destruct (char_eqb c "<"); [repeat constructor; discriminate|].
  destruct (char_eqb c ">"); [repeat constructor; discriminate|]. constructor; auto.
Qed.

Lemma unindent_laid : forall t line first m, one_line line ->
  unindent (length m) (length first) (laid first m line t) = flat_map escape_char (line ++ t).
Proof.
  induction t as [|c t IH]; intros line first m H; cbn [laid].
  - rewrite app_nil_r. destruct line as [|x line].
    + destruct first; reflexivity.
    + rewrite unindent_skip, <- (app_nil_r (flat_map escape_char (x :: line))) at 1.
      rewrite unindent_line by (apply escape_one_line; exact H). cbn [unindent].
      rewrite app_nil_r. reflexivity.
  - destruct (char_eqb c ch_newline) eqn:C.
    + rewrite <- app_assoc, unindent_skip, unindent_line by (apply escape_one_line; exact H).
      cbn [app unindent]. rewrite (proj2 (char_eqb_eq _ _) eq_refl).
      rewrite (IH [] m m) by constructor.
      apply char_eqb_eq in C; subst c. rewrite (flat_map_app _ line). reflexivity.
    + rewrite IH.
      * rewrite <- app_assoc. reflexivity.
      * apply Forall_app. split; [exact H|]. apply char_eqb_neq in C. constructor; auto.
Qed.

(** ** Scanning tags *)

Lemma scan_step : forall s c s' r, scan_char s c = (s', []) -> scan s (c :: r) = scan s' r.
Proof. intros s c s' r H. cbn [scan]. rewrite H. destruct (scan s' r). reflexivity. Qed.

Lemma identifier_char : forall c, in_set c html_identifier_characters = true ->
  is_html_space c = false /\ char_eqb c "/" = false /\ char_eqb c ">" = false
  /\ char_eqb c "=" = false.
Proof. intros [[] [] [] [] [] [] [] []] H; vm_compute in H; try discriminate; repeat split. Qed.

Lemma identifier_chars : forall n,
  is_html_identifier n = true -> forallb (fun c => in_set c html_identifier_characters) n = true.
Proof. intros [|c n] H; [reflexivity|]. unfold is_html_identifier in H. apply andb_true_iff in H. tauto. Qed.

Lemma scan_name : forall r e n a,
  forallb (fun c => in_set c html_identifier_characters) r = true ->
  scan (Tag_name (Tag e n a)) r = (Tag_name (Tag e (n ++ r) a), []).
Proof.
  induction r as [|c r IH]; intros e n a H; [rewrite app_nil_r; reflexivity|].
  cbn [forallb] in H. apply andb_true_iff in H. destruct H as [Hc H].
  destruct (identifier_char c Hc) as (A & B & C & D).
  rewrite (scan_step _ _ (Tag_name (Tag e (n ++ [c]) a))).
  - rewrite IH, <- app_assoc by exact H. reflexivity.
  - cbn [scan_char]. rewrite A, B, C. reflexivity.
Qed.

Lemma scan_key : forall r t k,
  forallb (fun c => in_set c html_identifier_characters) r = true ->
  scan (Attribute_name t k) r = (Attribute_name t (k ++ r), []).
Proof.
  induction r as [|c r IH]; intros t k H; [rewrite app_nil_r; reflexivity|].
  cbn [forallb] in H. apply andb_true_iff in H. destruct H as [Hc H].
  destruct (identifier_char c Hc) as (A & B & C & D).
  rewrite (scan_step _ _ (Attribute_name t (k ++ [c]))).
  - rewrite IH, <- app_assoc by exact H. reflexivity.
  - cbn [scan_char]. rewrite A, B, C, D. reflexivity.
Qed.

(** The name of a tag, after the opening bracket. *)
Lemma alpha_identifier : forall c, is_alpha c = true ->
  char_eqb c "!" = false /\ char_eqb c "/" = false.
Proof. intros [[] [] [] [] [] [] [] []] H; vm_compute in H; try discriminate; repeat split. Qed.

Lemma scan_open_name : forall n, is_html_identifier n = true -> sound_name n = true ->
  scan Data ("<"%char :: n) = (Tag_name (Tag false n []), []).
Proof.
  intros n H S. rewrite (scan_step _ _ Tag_open) by reflexivity.
  apply identifier_chars in H. destruct n as [|c n]; [discriminate|].
  cbn [sound_name] in S. cbn [forallb] in H. apply andb_true_iff in H. destruct H as [_ H].
  rewrite (scan_step _ _ (Tag_name (Tag false [c] []))).
  - rewrite scan_name by exact H. reflexivity.
  - cbn [scan_char]. destruct (alpha_identifier c S) as [A B]. rewrite A, B, S. reflexivity.
Qed.

Lemma scan_close_name : forall n, is_html_identifier n = true -> sound_name n = true ->
  scan Data ("<"%char :: "/"%char :: n) = (Tag_name (Tag true n []), []).
Proof.
  intros n H S. rewrite (scan_step _ _ Tag_open), (scan_step _ _ End_tag_open) by reflexivity.
  apply identifier_chars in H. destruct n as [|c n]; [discriminate|].
  cbn [sound_name] in S. cbn [forallb] in H. apply andb_true_iff in H. destruct H as [_ H].
  rewrite (scan_step _ _ (Tag_name (Tag true [c] []))).
  - rewrite scan_name by exact H. reflexivity.
  - cbn [scan_char]. rewrite S. reflexivity.
Qed.

(** Scanner states in which a start tag is open for attributes. *)
Definition pending (n : text) (a : list (text * text)) (bare : bool) (s : scan_state) : Prop :=
  match s with
  | Tag_name t => t = Tag false n [] /\ a = [] /\ bare = false
  | Attribute_name t k => exists a', t = Tag false n a' /\ a = a' ++ [(k, [])] /\ bare = false
  | Value_unquoted t k v => exists a', t = Tag false n a' /\ a = a' ++ [(k, v)] /\ bare = true
  | After_value_quoted t => t = Tag false n a /\ bare = false
  | _ => False
  end.

Lemma pending_gt : forall n a b s, pending n a b s -> scan_char s ">" = (Data, [E_open n a false]).
Proof.
  intros n a b s H. destruct s; try destruct H; cbn [pending] in H.
  - destruct H0; subst. reflexivity.
  - destruct H as (-> & -> & _). reflexivity.
  - destruct H as (-> & -> & _). reflexivity.
  - subst. reflexivity.
Qed.

Lemma pending_self_closing : forall n a s, pending n a false s ->
  scan s (str "/>") = (Data, [E_open n a true]).
Proof.
  intros n a s H. destruct s; try destruct H; cbn [pending] in H.
  - destruct H0; subst. reflexivity.
  - destruct H as (-> & -> & _). reflexivity.
  - destruct H as (_ & _ & H). discriminate.
  - subst. reflexivity.
Qed.

Lemma pending_key : forall n a b s k, pending n a b s -> is_html_identifier k = true ->
  scan s (" "%char :: k) = (Attribute_name (Tag false n a) k, []).
Proof.
  intros n a b s k H K. apply identifier_chars in K as K'. destruct k as [|c k]; [discriminate|].
  cbn [forallb] in K'. apply andb_true_iff in K'. destruct K' as [Hc Hk].
  destruct (identifier_char c Hc) as (A & B & C & D).
  assert (exists s1, scan_char s " " = (s1, []) /\
            scan_char s1 c = (Attribute_name (Tag false n a) [c], [])) as (s1 & R1 & R2).
  { destruct s; try destruct H; cbn [pending] in H.
    - destruct H0; subst. eexists; split; [reflexivity|].
      cbn [scan_char]. unfold before_attribute_name. rewrite A, B, C. reflexivity.
    - destruct H as (-> & -> & _). eexists; split; [reflexivity|].
      cbn [scan_char]. rewrite A, B, C, D. reflexivity.
    - destruct H as (-> & -> & _). eexists; split; [reflexivity|].
      cbn [scan_char]. unfold before_attribute_name. rewrite A, B, C. reflexivity.
    - subst. eexists; split; [reflexivity|].
      cbn [scan_char]. unfold before_attribute_name. rewrite A, B, C. reflexivity. }
  rewrite (scan_step _ _ _ _ R1), (scan_step _ _ _ _ R2), scan_key by exact Hk. reflexivity.
Qed.

(** ** Attribute values *)

Lemma sound_value_char : forall c,
  negb (in_set c [""""%char; "009"%char; "010"%char; "012"%char; "013"%char]) = true ->
  char_eqb c """" = false /\ (is_html_space c = true -> c = " "%char).
Proof.
  intros [[] [] [] [] [] [] [] []] H; vm_compute in H; try discriminate; split;
    try reflexivity; intro X; vm_compute in X; try discriminate; reflexivity.
Qed.

Lemma scan_quoted : forall v t k acc, sound_value v = true ->
  scan (Value_double_quoted t k acc) v = (Value_double_quoted t k (acc ++ v), []).
Proof.
  induction v as [|c v IH]; intros t k acc H; [rewrite app_nil_r; reflexivity|].
  cbn [sound_value forallb] in H. apply andb_true_iff in H. destruct H as [Hc H].
  rewrite (scan_step _ _ (Value_double_quoted t k (acc ++ [c]))).
  - rewrite IH, <- app_assoc by exact H. reflexivity.
  - cbn [scan_char]. rewrite (proj1 (sound_value_char c Hc)). reflexivity.
Qed.

Lemma bare_char : forall c,
  negb (in_set c [""""%char; "009"%char; "010"%char; "012"%char; "013"%char]) = true ->
  in_set c (ch_quote :: str "/'`=<> ") = false ->
  is_html_space c = false /\ char_eqb c ">" = false /\ char_eqb c """" = false
  /\ char_eqb c "'" = false.
Proof.
  intros [[] [] [] [] [] [] [] []] H G; vm_compute in H; vm_compute in G; try discriminate; repeat split.
Qed.

Lemma scan_unquoted : forall v t k acc,
  sound_value v = true -> requires_quotes_in_attribute v = false ->
  scan (Value_unquoted t k acc) v = (Value_unquoted t k (acc ++ v), []).
Proof.
  induction v as [|c v IH]; intros t k acc H G; [rewrite app_nil_r; reflexivity|].
  cbn [sound_value forallb] in H. apply andb_true_iff in H. destruct H as [Hc H].
  unfold requires_quotes_in_attribute in G. cbn [existsb] in G.
  apply orb_false_iff in G. destruct G as [Gc G].
  destruct (bare_char c Hc Gc) as (A & B & _).
  rewrite (scan_step _ _ (Value_unquoted t k (acc ++ [c]))).
  - rewrite IH, <- app_assoc by assumption. reflexivity.
  - cbn [scan_char]. rewrite A, B. reflexivity.
Qed.

(** The text of an attribute. *)
Definition attribute_text (k v : text) : text :=
  " "%char :: k ++
  match v with
  | [] => []
  | _ => "="%char ::
         if requires_quotes_in_attribute v then ch_quote :: v ++ [ch_quote] else v
  end.

Lemma scan_attribute : forall n a b s k v,
  pending n a b s -> is_html_identifier k = true -> sound_value v = true ->
  exists s', scan s (attribute_text k v) = (s', []) /\ pending n (a ++ [(k, v)]) (is_bare v) s'.
Proof.
  intros n a b s k v P K V. unfold attribute_text.
  change (" "%char :: k ++ ?x) with ((" "%char :: k) ++ x).
  rewrite scan_app, (pending_key n a b s k P K). cbn [app].
  destruct v as [|c v].
  - eexists; split; [reflexivity|]. cbn. exists a. auto.
  - rewrite (scan_step (Attribute_name (Tag false n a) k) "=" (Before_attribute_value (Tag false n a) k))
      by reflexivity.
    unfold is_bare. destruct (requires_quotes_in_attribute (c :: v)) eqn:Q.
    + rewrite (scan_step _ _ (Value_double_quoted (Tag false n a) k [])) by reflexivity.
      rewrite scan_app, scan_quoted by exact V. cbn. eexists; split; [reflexivity|]. cbn. auto.
    + pose proof V as V'. pose proof Q as Q'.
      cbn [sound_value forallb] in V. apply andb_true_iff in V. destruct V as [Vc V].
      unfold requires_quotes_in_attribute in Q. cbn [existsb] in Q.
      apply orb_false_iff in Q. destruct Q as [Qc Q].
      destruct (bare_char c Vc Qc) as (A & B & C & D).
      rewrite (scan_step _ _ (Value_unquoted (Tag false n a) k [c])).
      * rewrite scan_unquoted by assumption. eexists; split; [reflexivity|]. cbn. exists a. auto.
      * cbn [scan_char]. rewrite A, B, C, D. reflexivity.
Qed.

(** ** Comments *)

(** The text of the comment up to now, in the states inside a comment. *)
Definition so_far (s : scan_state) : option text :=
  match s with
  | Comment_start => Some []
  | Comment_start_dash => Some (str "-")
  | Comment acc => Some acc
  | Comment_end_dash acc => Some (acc ++ str "-")
  | Comment_end acc => Some (acc ++ str "--")
  | Comment_end_bang acc => Some (acc ++ str "--!")
  | _ => None
  end.

(** A closing bracket here would end the comment. *)
Definition closes (p : text) : Prop :=
  p = [] \/ p = str "-" \/ (exists q, p = q ++ str "--") \/ (exists q, p = q ++ str "--!").

Lemma comment_keeps : forall acc c, exists s', comment acc c = (s', []) /\ so_far s' = Some (acc ++ [c]).
Proof.
  intros acc c. unfold comment. destruct (char_eqb c "-") eqn:A.
  - apply char_eqb_eq in A; subst. eexists; split; reflexivity.
  - eexists; split; reflexivity.
Qed.

Lemma comment_step : forall s p c, so_far s = Some p ->
  (exists s', scan_char s c = (s', []) /\ so_far s' = Some (p ++ [c])) \/ (c = ">"%char /\ closes p).
Proof.
  intros s p c H. destruct s; try discriminate; injection H as <-; cbn [scan_char].
  - destruct (char_eqb c "-") eqn:A.
    { apply char_eqb_eq in A; subst. left. eexists; split; reflexivity. }
    destruct (char_eqb c ">") eqn:B.
    { apply char_eqb_eq in B; subst. right. split; [reflexivity|]. left. reflexivity. }
    left. apply comment_keeps.
  - destruct (char_eqb c "-") eqn:A.
    { apply char_eqb_eq in A; subst. left. eexists; split; reflexivity. }
    destruct (char_eqb c ">") eqn:B.
    { apply char_eqb_eq in B; subst. right. split; [reflexivity|]. right. left. reflexivity. }
    left. apply comment_keeps.
  - left. apply comment_keeps.
  - destruct (char_eqb c "-") eqn:A.
    { apply char_eqb_eq in A; subst. left. eexists; split; [reflexivity|]. cbn [so_far].
      rewrite <- app_assoc. reflexivity. }
    left. apply comment_keeps.
  - destruct (char_eqb c ">") eqn:B.
    { apply char_eqb_eq in B; subst. right. split; [reflexivity|]. right; right; left. eauto. }
    destruct (char_eqb c "!") eqn:C.
    { apply char_eqb_eq in C; subst. left. eexists; split; [reflexivity|]. cbn [so_far].
      rewrite <- app_assoc. reflexivity. }
    destruct (char_eqb c "-") eqn:A.
    { apply char_eqb_eq in A; subst. left. eexists; split; [reflexivity|]. cbn [so_far].
      rewrite <- !app_assoc. reflexivity. }
    left. apply comment_keeps.
  - destruct (char_eqb c "-") eqn:A.
    { apply char_eqb_eq in A; subst. left. eexists; split; [reflexivity|]. cbn [so_far].
      rewrite <- !app_assoc. reflexivity. }
    destruct (char_eqb c ">") eqn:B.
    { apply char_eqb_eq in B; subst. right. split; [reflexivity|]. right; right; right. eauto. }
    left. apply comment_keeps.
Qed.

Lemma scan_comment_text : forall c s p, so_far s = Some p ->
  (forall a b, c = a ++ ">"%char :: b -> ~ closes (p ++ a)) ->
  exists s', scan s c = (s', []) /\ so_far s' = Some (p ++ c).
Proof.
  induction c as [|x c IH]; intros s p H N.
  - exists s. split; [reflexivity|]. rewrite app_nil_r. exact H.
  - destruct (comment_step s p x H) as [(s1 & R & S)|(-> & C)].
    + destruct (IH s1 _ S) as (s2 & R2 & S2).
      * intros a b ->. rewrite <- app_assoc. apply (N (x :: a) b). reflexivity.
      * exists s2. split; [rewrite (scan_step _ _ _ _ R); exact R2|].
        rewrite S2, <- app_assoc. reflexivity.
    + exfalso. apply (N [] c); [reflexivity|]. rewrite app_nil_r. exact C.
Qed.

Lemma comment_closed : forall s p, so_far s = Some p -> scan s (str "-->") = (Data, [E_comment p]).
Proof.
  intros s p H. destruct s; try discriminate; injection H as <-; cbn; rewrite <- ?app_assoc; reflexivity.
Qed.

Lemma starts_with_app : forall p s, starts_with (p ++ s) p = true.
Proof.
  induction p as [|c p IH]; intros s; [destruct s; reflexivity|]. cbn.
  rewrite (proj2 (char_eqb_eq c c) eq_refl). apply IH.
Qed.

Lemma find_text_app : forall q a b, find_text q (a ++ q ++ b) <> None.
Proof.
  intros q a b. induction a as [|c a IH].
  - cbn [app]. destruct (q ++ b) eqn:X; cbn [find_text]; rewrite <- X, starts_with_app; discriminate.
  - cbn [app find_text]. destruct (starts_with (c :: a ++ q ++ b) q); [discriminate|].
    destruct (find_text q (a ++ q ++ b)); [discriminate|]. congruence.
Qed.

Lemma scan_comment : forall c,
  sound_comment c = true -> find_text (str "-->") c = None ->
  scan Data (str "<!--" ++ c ++ str "-->") = (Data, [E_comment c]).
Proof.
  intros c S N. rewrite scan_app.
  change (scan Data (str "<!--")) with (Comment_start, @nil event). cbv iota beta.
  unfold sound_comment in S. apply andb_true_iff in S. destruct S as [S1 S2].
  apply andb_true_iff in S1. destruct S1 as [S0 S1]. apply negb_true_iff in S0, S1.
  assert (find_text (str "--!>") c = None) as M by (destruct (find_text (str "--!>") c); [discriminate|reflexivity]).
  destruct (scan_comment_text c Comment_start [] eq_refl) as (s' & R & F).
  - intros a b -> C. cbn [app] in C. destruct C as [->|[->|[[q ->]|[q ->]]]].
    + discriminate S0.
    + discriminate S1.
    + apply (find_text_app (str "-->") q b). rewrite <- N. rewrite <- app_assoc. reflexivity.
    + apply (find_text_app (str "--!>") q b). rewrite <- M. rewrite <- app_assoc. reflexivity.
  - rewrite scan_app, R. rewrite (comment_closed _ _ F). reflexivity.
Qed.

(** ** Calls *)

Section Calls.
Context {E : Type}.

(** The scanner is where the writer is. *)
Definition tracks (w : writer) (p : option open_tag) (s : scan_state) : Prop :=
  match p with
  | Some (n, a, b) => in_attributes w = true /\ pending n a b s
  | None => in_attributes w = false /\ s = Data
  end.

(** What a call does to the text, the scanner and the depth. *)
Definition effect (w w' : writer) (s : scan_state) (m : list event) (p' : option open_tag) : Prop :=
  exists t s' e,
    written w' = written w ++ t /\ scan s t = (s', e) /\ markup e = m /\ tracks w' p' s'
    /\ depth_after (w_depth w) m = Some (w_depth w').

Lemma tracks_data : forall w p s, tracks w p s -> in_attributes w = false -> p = None /\ s = Data.
Proof. intros w [[[n a] b]|] s [H K] A; [congruence|auto]. Qed.

Lemma lays_effect : forall w w' t,
  lays w w' t -> in_attributes w' = false -> effect w w' Data [] None.
Proof.
  intros w w' t L A. exists t, Data, (map E_char t).
  split; [apply (lays_written _ _ _ L)|].
  split; [apply scan_plain, no_bracket_plain, (lays_plain _ _ _ L)|].
  split; [apply markup_chars|]. split; [split; auto|].
  cbn. rewrite (lays_depth _ _ _ L). reflexivity.
Qed.

(** Layout, something that scans to one event, layout. *)
Lemma tag_effect : forall w w1 w2 w3 t1 t2 t3 ev,
  lays w w1 t1 -> lays w2 w3 t3 -> written w2 = written w1 ++ t2 -> scan Data t2 = (Data, [ev]) ->
  (match ev with E_char _ => false | _ => true end) = true ->
  in_attributes w3 = false ->
  forall w4, written w4 = written w3 -> w_state w4 = w_state w3 ->
  depth_after (w_depth w) [ev] = Some (w_depth w4) ->
  effect w w4 Data [ev] None.
Proof.
  intros w w1 w2 w3 t1 t2 t3 ev L1 L3 W2 S2 M A w4 W4 S4 D.
  exists (t1 ++ t2 ++ t3), Data, (map E_char t1 ++ [ev] ++ map E_char t3).
  split; [rewrite W4, (lays_written _ _ _ L3), W2, (lays_written _ _ _ L1), !app_assoc; reflexivity|].
  split.
  { rewrite scan_app, (scan_plain _ (no_bracket_plain _ (lays_plain _ _ _ L1))).
    rewrite scan_app, S2. rewrite (scan_plain _ (no_bracket_plain _ (lays_plain _ _ _ L3))). reflexivity. }
  split.
  { rewrite !markup_app, !markup_chars. cbn. destruct ev; try discriminate; reflexivity. }
  split; [|exact D]. split; [|reflexivity]. unfold in_attributes in *. rewrite S4. exact A.
Qed.

Lemma block_state_attributes : forall w s, w_state w = block_state s -> in_attributes w = false.
Proof.
  intros w s H. unfold in_attributes. rewrite H. unfold block_state.
  destruct (is_block_like s); reflexivity.
Qed.

Lemma scan_gt : forall s n a b, pending n a b s -> forall t, scan Data t = (s, []) ->
  scan Data (t ++ str ">") = (Data, [E_open n a false]).
Proof.
  intros s n a b P t R. rewrite scan_app, R. cbn. rewrite (pending_gt _ _ _ _ P). reflexivity.
Qed.

Ltac clear_assert H :=
  unfold assert_then in H;
  match type of H with (if ?b then _ else _) = _ =>
    let B := fresh "B" in destruct b eqn:B; [|discriminate H] end.

Lemma call_effect : forall c w w' p s,
  make_call (E := E) c w = Ok w' -> tracks w p s -> sound_call p c = true ->
  effect w w' s (fst (call_markup p c)) (snd (call_markup p c)).
Proof.
  intros c w w' p s R T Q. destruct c as [|t|t|t|k v|st|st|t|c st|t st|c n|a b st];
    cbn [make_call call_markup sound_call] in *.
  - (* preamble *)
    unfold write_preamble in R. clear_assert R.
    assert (in_attributes w = false) as A
      by (unfold in_attributes, in_initial in *; destruct (w_state w); auto; discriminate).
    destruct (tracks_data _ _ _ T A) as [-> ->].
    destruct (break_line_lays _ _ R) as (L & S & _).
    cbn [fst snd].
    eapply (tag_effect w w _ w' []); [apply lays_refl|exact L|apply written_emits|reflexivity|reflexivity
      |apply not_attributes_new_line, S|reflexivity|reflexivity|].
    cbn. rewrite (lays_depth _ _ _ L). reflexivity.
  - (* empty tag *)
    unfold write_empty_tag in R. clear_assert R. clear_assert R.
    pose proof (content_not_attributes _ B) as A. destruct (tracks_data _ _ _ T A) as [-> ->].
    destruct (indent_spec (E := E) (tp_style t) w A) as (w1 & R1 & L1 & S1). rewrite R1 in R.
    cbn [bind] in R.
    match type of R with break_if_block _ ?x = _ =>
      destruct (break_if_block_spec (E := E) (tp_style t) x S1) as (w3 & R3 & L3 & S3) end.
    rewrite R3 in R. injection R as <-. cbn [fst snd].
    eapply tag_effect; [exact L1|exact L3|apply written_emits| |reflexivity
      |apply (block_state_attributes _ _ S3)|reflexivity|reflexivity|].
    + cbn [flat_map chunk_text]. rewrite app_nil_r.
      rewrite app_assoc, scan_app. change (str "<" ++ tp_id t) with ("<"%char :: tp_id t).
      rewrite (scan_open_name _ B0 Q). reflexivity.
    + cbn. rewrite (lays_depth _ _ _ L3). cbn. rewrite (lays_depth _ _ _ L1). reflexivity.
  - (* opening tag *)
    unfold begin_tag in R. clear_assert R. clear_assert R.
    pose proof (content_not_attributes _ B) as A. destruct (tracks_data _ _ _ T A) as [-> ->].
    destruct (indent_spec (E := E) (tp_style t) w A) as (w1 & R1 & L1 & S1). rewrite R1 in R.
    cbn [bind] in R.
    match type of R with context [break_if_block _ ?x] =>
      destruct (break_if_block_spec (E := E) (tp_style t) x S1) as (w3 & R3 & L3 & S3) end.
    rewrite R3 in R. cbn [bind] in R. cbn [fst snd].
    eapply tag_effect; [exact L1|exact L3|apply written_emits| |reflexivity
      |apply (block_state_attributes _ _ S3)| | |].
    + cbn [flat_map chunk_text]. rewrite app_nil_r.
      rewrite app_assoc, scan_app. change (str "<" ++ tp_id t) with ("<"%char :: tp_id t).
      rewrite (scan_open_name _ B0 Q). reflexivity.
    + injection R as <-. destruct (style_is_block (tp_style t)); reflexivity.
    + injection R as <-. destruct (style_is_block (tp_style t)); reflexivity.
    + injection R as <-. cbn [depth_after].
      assert (w_depth w3 = w_depth w) as D
        by (rewrite (lays_depth _ _ _ L3); cbn; apply (lays_depth _ _ _ L1)).
      destruct (style_is_block (tp_style t)); cbn; rewrite D; reflexivity.
  - (* opening tag with attributes *)
    unfold begin_tag_with_attributes in R. clear_assert R. clear_assert R.
    pose proof (content_not_attributes _ B) as A. destruct (tracks_data _ _ _ T A) as [-> ->].
    destruct (indent_spec (E := E) (tp_style t) w A) as (w1 & R1 & L1 & S1). rewrite R1 in R.
    cbn [bind] in R. injection R as <-. cbn [fst snd].
    exists (indentation (tp_style t) w ++ "<"%char :: tp_id t), (Tag_name (Tag false (tp_id t) [])),
      (map E_char (indentation (tp_style t) w)).
    split.
    { change (written (set_state ?s ?x)) with (written x). rewrite written_emits.
      rewrite (lays_written _ _ _ L1), <- app_assoc. cbn. rewrite app_nil_r. reflexivity. }
    split.
    { rewrite scan_app, scan_plain by apply no_bracket_plain, (lays_plain _ _ _ L1).
      rewrite (scan_open_name _ B0 Q), app_nil_r. reflexivity. }
    split; [apply markup_chars|]. split; [split; [reflexivity|cbn; auto]|].
    cbn. rewrite (lays_depth _ _ _ L1). reflexivity.
  - (* attribute *)
    unfold write_attribute in R. clear_assert R. clear_assert R. injection R as <-.
    destruct p as [[[n a] b]|]; [|destruct T; congruence]. destruct T as [_ P]. cbn [fst snd].
    destruct (scan_attribute n a b s k v P B0 Q) as (s' & R & P').
    exists (attribute_text k v), s', []. split.
    { rewrite written_emits. f_equal. unfold attribute_text. cbn [flat_map chunk_text app].
      change (flat_map chunk_text (Chunk (str " ") ht_whitespace :: ?l))
        with (" "%char :: flat_map chunk_text l).
      destruct v as [|c v]; [reflexivity|]. destruct (requires_quotes_in_attribute (c :: v)); cbn;
        rewrite ?app_nil_r; reflexivity. }
    split; [exact R|]. split; [reflexivity|]. split; [split; [exact B|exact P']|]. reflexivity.
  - (* end of attributes *)
    unfold end_attributes in R. clear_assert R.
    destruct p as [[[n a] b]|]; [|destruct T; congruence]. destruct T as [_ P]. cbn [fst snd].
    destruct (is_block_like st).
    { unfold break_line in R.
      change (in_attributes (emit ?c w)) with (in_attributes w) in R. rewrite B in R. discriminate R. }
    cbn [bind] in R. injection R as <-.
    exists (str ">"), Data, [E_open n a false]. split.
    { change (written (set_depth ?d ?x)) with (written x).
      change (written (set_state ?s ?x)) with (written x). rewrite written_emit. reflexivity. }
    split; [cbn; rewrite (pending_gt _ _ _ _ P); reflexivity|].
    split; [reflexivity|]. split; [split; reflexivity|]. reflexivity.
  - (* end of an empty tag *)
    unfold end_empty_tag_attributes in R. clear_assert R.
    destruct p as [[[n a] b]|]; [|destruct T; congruence]. destruct T as [_ P]. cbn [fst snd].
    cbn in Q. apply negb_true_iff in Q. subst b.
    match type of R with break_if_block _ ?x = _ =>
      destruct (break_if_block_spec (E := E) st x eq_refl) as (w3 & R3 & L3 & S3) end.
    rewrite R3 in R. injection R as <-.
    exists (str "/>" ++ block_end st), Data, ([E_open n a true] ++ map E_char (block_end st)). split.
    { rewrite (lays_written _ _ _ L3).
      change (written (set_state ?s ?x)) with (written x). rewrite written_emit, <- app_assoc. reflexivity. }
    split.
    { rewrite scan_app, (pending_self_closing _ _ _ P).
      rewrite (scan_plain _ (no_bracket_plain _ (lays_plain _ _ _ L3))). reflexivity. }
    split; [rewrite markup_app, markup_chars; reflexivity|].
    split; [split; [apply (block_state_attributes _ _ S3)|reflexivity]|].
    cbn. rewrite (lays_depth _ _ _ L3). reflexivity.
  - (* closing tag *)
    unfold end_tag in R. clear_assert R. clear_assert R. clear_assert R.
    pose proof (content_not_attributes _ B) as A. destruct (tracks_data _ _ _ T A) as [-> ->].
    set (w0 := if style_is_block (tp_style t) then set_indent (wrap64 (w_indent w - 1)) w else w) in R.
    assert (written w0 = written w /\ w_depth w0 = w_depth w /\ in_attributes w0 = false) as (W0 & D0 & A0)
      by (unfold w0; destruct (style_is_block (tp_style t)); auto).
    clearbody w0.
    destruct (indent_spec (E := E) (tp_style t) w0 A0) as (w1 & R1 & L1 & S1). rewrite R1 in R.
    cbn [bind] in R.
    match type of R with context [break_if_block _ ?x] =>
      destruct (break_if_block_spec (E := E) (tp_style t) x S1) as (w3 & R3 & L3 & S3) end.
    rewrite R3 in R. cbn [bind] in R. injection R as <-. cbn [fst snd].
    assert (w_depth w3 = w_depth w) as D
      by (rewrite (lays_depth _ _ _ L3); cbn; rewrite (lays_depth _ _ _ L1); exact D0).
    assert (effect w0 (set_depth (pred (w_depth w3)) w3) Data [E_close (tp_id t)] None) as F.
    { eapply tag_effect; [exact L1|exact L3|apply written_emits| |reflexivity
        |apply (block_state_attributes _ _ S3)|reflexivity|reflexivity|].
      + cbn [flat_map chunk_text]. rewrite app_nil_r.
        rewrite app_assoc, scan_app. change (str "</" ++ tp_id t) with ("<"%char :: "/"%char :: tp_id t).
        rewrite (scan_close_name _ B0 Q). reflexivity.
      + cbn [depth_after set_depth w_depth]. rewrite D, D0.
        destruct (w_depth w); [discriminate|reflexivity]. }
    destruct F as (t' & s' & e & F1 & F2 & F3 & F4 & F5). exists t', s', e.
    rewrite W0 in F1. rewrite D0 in F5. auto.
  - (* comment *)
    unfold write_comment_tag in R. clear_assert R. clear_assert R.
    apply negb_true_iff in B. destruct (tracks_data _ _ _ T B) as [-> ->].
    destruct (find_text (str "-->") c) eqn:N; [discriminate|].
    destruct (indent_spec (E := E) st w B) as (w1 & R1 & L1 & S1). rewrite R1 in R.
    cbn [bind] in R.
    match type of R with context [break_if_block _ ?x] =>
      destruct (break_if_block_spec (E := E) st x S1) as (w3 & R3 & L3 & S3) end.
    rewrite R3 in R. injection R as <-. cbn [fst snd].
    eapply tag_effect; [exact L1|exact L3|apply written_emits| |reflexivity
      |apply (block_state_attributes _ _ S3)|reflexivity|reflexivity|].
    + cbn [flat_map chunk_text]. rewrite app_nil_r. apply scan_comment; assumption.
    + cbn. rewrite (lays_depth _ _ _ L3). cbn. rewrite (lays_depth _ _ _ L1). reflexivity.
  - (* text *)
    destruct (in_content w) eqn:B.
    2:{ unfold write_inner_text in R. rewrite B in R. discriminate R. }
    destruct (tracks_data _ _ _ T (content_not_attributes _ B)) as [-> ->].
    destruct (inner_text_lays (E := E) t st w B) as (n & w1 & R1 & L1 & S1). rewrite R1 in R.
    cbn [bind] in R. injection R as <-. apply (lays_effect _ _ _ L1). apply content_not_attributes, S1.
  - (* white space *)
    unfold write_whitespace in R. clear_assert R. clear_assert R. injection R as <-.
    apply andb_true_iff in B. destruct B as [B _]. apply negb_true_iff in B.
    destruct (tracks_data _ _ _ T B) as [-> ->]. eapply lays_effect; [|reflexivity].
    constructor; auto.
    + change (written (set_state ?s ?x)) with (written x). rewrite written_emit. reflexivity.
    + assert (c <> "<"%char /\ c <> ">"%char) as [X Y]
        by (split; intros ->; discriminate B0). apply no_bracket_fill; assumption.
  - (* source gap *)
    unfold write_source_gap in R. clear_assert R. clear_assert R. injection R as <-.
    apply andb_true_iff in B. destruct B as [B _]. apply negb_true_iff in B.
    destruct (tracks_data _ _ _ T B) as [-> ->]. cbn [fst snd].
    assert (forall c n k x u, c <> "<"%char -> c <> ">"%char -> lays w x u ->
              lays w (emit (Fill c n k) x) (u ++ repeat c (Z.to_nat n))) as F.
    { intros c n k x u X Y L. eapply lays_trans; [exact L|]. constructor; auto.
      - rewrite written_emit. reflexivity.
      - apply no_bracket_fill; assumption. }
    assert (exists u, lays w
      (if style_is_pre st then
              if negb (sp_line a =? sp_line b) then
                let w := emit (Fill ch_newline (wrap64 (sp_line b - sp_line a))
                                    ht_whitespace) w in
                if negb (sp_column b =? 0) then emit (Fill " " (sp_column b) ht_whitespace) w
                else w
              else if negb (sp_column a =? sp_column b) then
                emit (Fill " " (wrap64 (sp_column b - wrap64 (sp_column a + sp_length a)))
                           ht_whitespace) w
              else w
            else if negb (wrap64 (sp_begin a + sp_length a) =? sp_begin b) then
              emit (Chunk (str " ") ht_whitespace) w
            else w) u) as [u L].
    { destruct (style_is_pre st).
      - destruct (negb (sp_line a =? sp_line b)).
        + destruct (negb (sp_column b =? 0)); eexists; [apply F; try discriminate|];
            apply F; try discriminate; apply lays_refl.
        + destruct (negb (sp_column a =? sp_column b)); eexists;
            [apply F; try discriminate; apply lays_refl|apply lays_refl].
      - destruct (negb (wrap64 (sp_begin a + sp_length a) =? sp_begin b)).
        + exists (str " "). constructor; auto; [apply written_emit|].
          repeat constructor; discriminate.
        + eexists; apply lays_refl. }
    apply (lays_effect _ _ _ L).
    destruct (style_is_pre st), (negb (sp_line a =? sp_line b)), (negb (sp_column b =? 0)),
      (negb (sp_column a =? sp_column b)), (negb (wrap64 (sp_begin a + sp_length a) =? sp_begin b)); exact B.
Qed.

Lemma depth_after_app : forall a b d,
  depth_after d (a ++ b) =
  match depth_after d a with Some d' => depth_after d' b | None => None end.
Proof.
  induction a as [|e a IH]; intros b d; [reflexivity|].
  destruct e as [c|n at_ [|]|n|c|c]; cbn [app depth_after]; try apply IH.
  destruct d; [reflexivity|apply IH].
Qed.

Definition last_tag (p : option open_tag) (l : list call) : option open_tag :=
  fold_left (fun p c => snd (call_markup p c)) l p.

Lemma calls_effect : forall l w w' p s,
  make_calls (E := E) l w = Ok w' -> tracks w p s -> sound_calls p l = true ->
  effect w w' s (calls_markup p l) (last_tag p l).
Proof.
  induction l as [|c l IH]; intros w w' p s R T Q.
  - injection R as <-. exists [], s, []. repeat split; auto. symmetry; apply app_nil_r.
  - cbn [make_calls] in R. destruct (make_call c w) as [w1| | |] eqn:R1; try discriminate R.
    cbn [bind] in R. cbn [sound_calls] in Q. apply andb_true_iff in Q. destruct Q as [Q1 Q2].
    destruct (call_effect c w w1 p s R1 T Q1) as (t1 & s1 & e1 & A1 & A2 & A3 & A4 & A5).
    destruct (IH w1 w' _ _ R A4 Q2) as (t2 & s2 & e2 & B1 & B2 & B3 & B4 & B5).
    exists (t1 ++ t2), s2, (e1 ++ e2). cbn [calls_markup last_tag fold_left].
    destruct (call_markup p c) as [m p1] eqn:C. cbn [fst snd] in *.
    split; [rewrite B1, A1, app_assoc; reflexivity|].
    split; [rewrite scan_app, A2, B2; reflexivity|].
    split; [rewrite markup_app, A3, B3; reflexivity|].
    split; [exact B4|]. rewrite depth_after_app, A5. exact B5.
Qed.

Lemma tracks_new : forall width, tracks (new_writer width) None Data.
Proof. split; reflexivity. Qed.

End Calls.

(** ** Documents *)

Section Node_induction.
Variable P : node -> Prop.
Hypothesis P_text : forall t s, P (N_text t s).
Hypothesis P_space : forall c n, P (N_space c n).
Hypothesis P_comment : forall c s, P (N_comment c s).
Hypothesis P_empty : forall p a, P (N_empty p a).
Hypothesis P_element : forall p a l, Forall P l -> P (N_element p a l).
Fixpoint node_induction (n : node) : P n :=
  match n with
  | N_text t s => P_text t s
  | N_space c k => P_space c k
  | N_comment c s => P_comment c s
  | N_empty p a => P_empty p a
  | N_element p a l =>
      P_element p a l ((fix all (l : list node) : Forall P l :=
        match l with
        | [] => Forall_nil _
        | x :: r => Forall_cons _ (node_induction x) (all r)
        end) l)
  end.
End Node_induction.

Section Documents.
Context {E : Type}.

Lemma make_calls_app : forall a b w,
  make_calls (E := E) (a ++ b) w = (let* w' := make_calls a w in make_calls b w').
Proof.
  induction a as [|c a IH]; intros b w; [reflexivity|]. cbn [app make_calls].
  destruct (make_call c w); cbn [bind]; auto.
Qed.

(** A call is accepted, leaves the writer in the content, and changes the two depths as given. *)
Definition accepted (l : list call) (w : writer) (d : nat) (i : Z) : Prop :=
  exists w', make_calls (E := E) l w = Ok w' /\ in_content w' = true /\ w_depth w' = d /\ w_indent w' = i.

Lemma accepted_app : forall a b w d i d' i',
  accepted a w d i -> (forall w', in_content w' = true -> w_depth w' = d -> w_indent w' = i ->
    accepted b w' d' i') -> accepted (a ++ b) w d' i'.
Proof.
  intros a b w d i d' i' (w1 & R1 & C1 & D1 & I1) H.
  destruct (H w1 C1 D1 I1) as (w2 & R2 & C2). exists w2. split; [|exact C2].
  rewrite make_calls_app, R1. exact R2.
Qed.

Lemma block_state_content : forall w s, w_state w = block_state s -> in_content w = true.
Proof. intros w s H. unfold in_content. rewrite H. unfold block_state. destruct (is_block_like s); auto. Qed.

Lemma accepts_begin : forall p w, in_content w = true -> is_html_identifier (tp_id p) = true ->
  accepted [W_begin_tag p] w (S (w_depth w))
    (if style_is_block (tp_style p) then wrap64 (w_indent w + 1) else w_indent w).
Proof.
  intros p w C H. unfold accepted. cbn [make_calls make_call]. unfold begin_tag. rewrite C, H. cbn [assert_then].
  destruct (indent_spec (E := E) (tp_style p) w (content_not_attributes _ C)) as (w1 & R1 & L1 & S1).
  rewrite R1. cbn [bind].
  match goal with |- context [break_if_block _ ?x] =>
    destruct (break_if_block_spec (E := E) (tp_style p) x S1) as (w3 & R3 & L3 & S3) end.
  rewrite R3. cbn [bind].
  assert (w_depth w3 = w_depth w) as D by (rewrite (lays_depth _ _ _ L3); apply (lays_depth _ _ _ L1)).
  assert (w_indent w3 = w_indent w) as I by (rewrite (lays_indent _ _ _ L3); apply (lays_indent _ _ _ L1)).
  pose proof (block_state_content _ _ S3) as C3.
  eexists; split; [reflexivity|].
  destruct (style_is_block (tp_style p)); cbn; rewrite ?D, ?I; repeat split; exact C3.
Qed.

Lemma accepts_end : forall p w d, in_content w = true -> is_html_identifier (tp_id p) = true ->
  w_depth w = S d ->
  accepted [W_end_tag p] w d
    (if style_is_block (tp_style p) then wrap64 (w_indent w - 1) else w_indent w).
Proof.
  intros p w d C H D0. unfold accepted. cbn [make_calls make_call]. unfold end_tag. rewrite C, H, D0. cbn [assert_then Nat.eqb negb].
  set (w0 := if style_is_block (tp_style p) then set_indent (wrap64 (w_indent w - 1)) w else w).
  assert (in_attributes w0 = false /\ w_depth w0 = S d /\ w_indent w0 =
          if style_is_block (tp_style p) then wrap64 (w_indent w - 1) else w_indent w) as (A0 & D1 & I1).
  { unfold w0. pose proof (content_not_attributes _ C). destruct (style_is_block (tp_style p)); auto. }
  clearbody w0.
  destruct (indent_spec (E := E) (tp_style p) w0 A0) as (w1 & R1 & L1 & S1).
  rewrite R1. cbn [bind].
  match goal with |- context [break_if_block _ ?x] =>
    destruct (break_if_block_spec (E := E) (tp_style p) x S1) as (w3 & R3 & L3 & S3) end.
  rewrite R3. cbn [bind].
  assert (w_depth w3 = S d) as D
    by (rewrite (lays_depth _ _ _ L3); cbn; rewrite (lays_depth _ _ _ L1); exact D1).
  eexists; split; [reflexivity|]. cbn [in_content set_depth w_state w_depth w_indent].
  rewrite D, (lays_indent _ _ _ L3). cbn. rewrite (lays_indent _ _ _ L1), I1.
  split; [apply (block_state_content _ _ S3)|]. auto.
Qed.

Lemma accepts_attributes : forall a w, in_attributes w = true ->
  forallb (fun '(k, v) => is_html_identifier k && sound_value v) a = true ->
  exists w', make_calls (E := E) (map (fun '(k, v) => W_attribute k v) a) w = Ok w' /\
    in_attributes w' = true /\ w_depth w' = w_depth w /\ w_indent w' = w_indent w.
Proof.
  induction a as [|[k v] a IH]; intros w A H; [exists w; auto|].
  cbn [forallb] in H. apply andb_true_iff in H. destruct H as [H1 H]. apply andb_true_iff in H1.
  destruct H1 as [K _].
  cbn [map make_calls make_call]. unfold write_attribute. rewrite A, K. cbn [assert_then bind].
  match goal with |- context [make_calls _ ?x] => destruct (IH x A H) as (w' & R & B & D & I) end.
  exists w'. auto.
Qed.

Lemma accepts_open : forall p w, in_content w = true -> is_html_identifier (tp_id p) = true ->
  exists w', make_call (E := E) (W_begin_attributes p) w = Ok w' /\ in_attributes w' = true /\
    w_depth w' = w_depth w /\ w_indent w' = w_indent w.
Proof.
  intros p w C H. cbn [make_call]. unfold begin_tag_with_attributes. rewrite C, H. cbn [assert_then].
  destruct (indent_spec (E := E) (tp_style p) w (content_not_attributes _ C)) as (w1 & R1 & L1 & S1).
  rewrite R1. cbn [bind]. eexists; split; [reflexivity|]. split; [reflexivity|]. cbn.
  split; [apply (lays_depth _ _ _ L1)|apply (lays_indent _ _ _ L1)].
Qed.

Lemma accepts_start : forall p a w, in_content w = true -> is_html_identifier (tp_id p) = true ->
  good_attributes a = true ->
  match a with [] => true | _ => negb (is_block_like (tp_style p)) end = true ->
  accepted (tag_calls p a (W_begin_tag p) W_end_attributes) w (S (w_depth w))
    (if style_is_block (tp_style p) then wrap64 (w_indent w + 1) else w_indent w).
Proof.
  intros p a w C H G B. destruct a as [|x a]; [apply accepts_begin; assumption|].
  unfold tag_calls. apply negb_true_iff in B.
  destruct (accepts_open p w C H) as (w1 & R1 & A1 & D1 & I1).
  destruct (accepts_attributes (x :: a) w1 A1 G) as (w2 & R2 & A2 & D2 & I2).
  unfold accepted. change (W_begin_attributes p :: ?l) with ([W_begin_attributes p] ++ l).
  rewrite make_calls_app. cbn [make_calls]. rewrite R1. cbn [bind].
  rewrite make_calls_app, R2. cbn [bind make_calls make_call]. unfold end_attributes.
  rewrite A2, B. cbn [assert_then bind].
  eexists; split; [reflexivity|]. cbn. rewrite D2, D1, I2, I1.
  replace (style_is_block (tp_style p)) with false; auto.
  destruct (tp_style p); auto; discriminate.
Qed.

Lemma accepts_empty : forall p a w, in_content w = true -> is_html_identifier (tp_id p) = true ->
  good_attributes a = true ->
  accepted (tag_calls p a (W_empty_tag p) W_end_empty) w (w_depth w) (w_indent w).
Proof.
  intros p a w C H G. destruct a as [|x a].
  - unfold accepted, tag_calls. cbn [make_calls make_call]. unfold write_empty_tag. rewrite C, H. cbn [assert_then].
    destruct (indent_spec (E := E) (tp_style p) w (content_not_attributes _ C)) as (w1 & R1 & L1 & S1).
    rewrite R1. cbn [bind].
    match goal with |- context [break_if_block _ ?x] =>
      destruct (break_if_block_spec (E := E) (tp_style p) x S1) as (w3 & R3 & L3 & S3) end.
    rewrite R3. eexists; split; [reflexivity|]. split; [apply (block_state_content _ _ S3)|].
    rewrite (lays_depth _ _ _ L3), (lays_indent _ _ _ L3). cbn.
    split; [apply (lays_depth _ _ _ L1)|apply (lays_indent _ _ _ L1)].
  - unfold tag_calls.
    destruct (accepts_open p w C H) as (w1 & R1 & A1 & D1 & I1).
    destruct (accepts_attributes (x :: a) w1 A1 G) as (w2 & R2 & A2 & D2 & I2).
    unfold accepted. change (W_begin_attributes p :: ?l) with ([W_begin_attributes p] ++ l).
    rewrite make_calls_app. cbn [make_calls]. rewrite R1. cbn [bind].
    rewrite make_calls_app, R2. cbn [bind make_calls make_call]. unfold end_empty_tag_attributes.
    rewrite A2. cbn [assert_then].
    match goal with |- context [break_if_block _ ?x] =>
      destruct (break_if_block_spec (E := E) (tp_style p) x eq_refl) as (w3 & R3 & L3 & S3) end.
    rewrite R3. eexists; split; [reflexivity|]. split; [apply (block_state_content _ _ S3)|].
    rewrite (lays_depth _ _ _ L3), (lays_indent _ _ _ L3). cbn. split; congruence.
Qed.

Lemma wrap_back : forall i, 0 <= i < 2 ^ 64 -> wrap64 (wrap64 (i + 1) - 1) = i.
Proof.
  intros i H. unfold wrap64. rewrite Zminus_mod_idemp_l. replace (i + 1 - 1) with i by lia.
  apply Z.mod_small; exact H.
Qed.

Lemma space_ok : forall c, in_set c [" "%char; ch_newline; ch_tab; ch_cr] = true -> is_space c = true.
Proof. intros [[] [] [] [] [] [] [] []] H; vm_compute in H; try discriminate; reflexivity. Qed.

Lemma wrap_range : forall i, 0 <= wrap64 i < 2 ^ 64.
Proof. intros. apply Z.mod_pos_bound. reflexivity. Qed.

Lemma node_accepted : forall n w, writable n = true -> in_content w = true -> 0 <= w_indent w < 2 ^ 64 ->
  accepted (node_calls n) w (w_depth w) (w_indent w).
Proof.
  intros n. induction n as [t s|c k|c s|p a|p a l IH] using node_induction; intros w W C I.
  - cbn [node_calls]. destruct (inner_text_lays (E := E) t s w C) as (n & w1 & R1 & L1 & S1).
    exists w1. cbn [make_calls make_call]. rewrite R1. cbn [bind].
    split; [reflexivity|]. split; [exact S1|]. split; [apply (lays_depth _ _ _ L1)|apply (lays_indent _ _ _ L1)].
  - cbn [node_calls writable] in *. unfold accepted. cbn [make_calls make_call].
    unfold write_whitespace. rewrite (content_not_attributes _ C), (space_ok _ W).
    replace (in_initial w) with false
      by (unfold in_content, in_initial in *; destruct (w_state w); auto; discriminate).
    cbn. eexists; split; [reflexivity|]. auto.
  - cbn [node_calls writable] in *. apply andb_true_iff in W. destruct W as [_ W].
    unfold accepted. cbn [make_calls make_call]. unfold write_comment_tag.
    rewrite (content_not_attributes _ C), W. cbn [assert_then negb].
    destruct (indent_spec (E := E) s w (content_not_attributes _ C)) as (w1 & R1 & L1 & S1).
    rewrite R1. cbn [bind].
    match goal with |- context [break_if_block _ ?x] =>
      destruct (break_if_block_spec (E := E) s x S1) as (w3 & R3 & L3 & S3) end.
    rewrite R3. eexists; split; [reflexivity|]. split; [apply (block_state_content _ _ S3)|].
    rewrite (lays_depth _ _ _ L3), (lays_indent _ _ _ L3). cbn.
    split; [apply (lays_depth _ _ _ L1)|apply (lays_indent _ _ _ L1)].
  - cbn [node_calls writable] in *. apply andb_true_iff in W. destruct W as [W _].
    apply andb_true_iff in W. destruct W as [W G]. apply andb_true_iff in W. destruct W as [W _].
    apply accepts_empty; assumption.
  - cbn [node_calls writable] in *. apply andb_true_iff in W. destruct W as [W WL].
    apply andb_true_iff in W. destruct W as [W B]. apply andb_true_iff in W. destruct W as [W G].
    apply andb_true_iff in W. destruct W as [W _].
    eapply accepted_app; [apply accepts_start; assumption|].
    intros w1 C1 D1 I1.
    assert (accepted (flat_map node_calls l) w1 (w_depth w1) (w_indent w1)) as FL.
    { assert (0 <= w_indent w1 < 2 ^ 64) as J.
      { rewrite I1. destruct (style_is_block (tp_style p)); [apply wrap_range|exact I]. }
      clear - IH WL C1 J. revert w1 C1 J. induction IH as [|x l Hx Hl IHl]; intros w1 C1 J.
      - exists w1. auto.
      - cbn [forallb] in WL. apply andb_true_iff in WL. destruct WL as [W1 W2].
        cbn [flat_map]. eapply accepted_app; [apply Hx; assumption|].
        intros w' C' D' I'. rewrite <- D', <- I'. apply IHl; auto. rewrite I'. exact J. }
    eapply accepted_app; [exact FL|]. intros w2 C2 D2 I2.
    replace (w_indent w) with (if style_is_block (tp_style p) then wrap64 (w_indent w2 - 1) else w_indent w2).
    + apply accepts_end; [assumption|assumption|congruence].
    + rewrite I2, I1. destruct (style_is_block (tp_style p)); [apply wrap_back, I|reflexivity].
Qed.

Lemma calls_markup_app : forall a b p,
  calls_markup p (a ++ b) = calls_markup p a ++ calls_markup (last_tag p a) b.
Proof.
  induction a as [|c a IH]; intros b p; [reflexivity|]. cbn [app calls_markup last_tag fold_left].
  destruct (call_markup p c) as [e p'] eqn:X. rewrite IH, app_assoc. reflexivity.
Qed.

Lemma sound_calls_app : forall a b p,
  sound_calls p (a ++ b) = sound_calls p a && sound_calls (last_tag p a) b.
Proof.
  induction a as [|c a IH]; intros b p; [reflexivity|]. cbn [app sound_calls last_tag fold_left].
  rewrite IH, andb_assoc. reflexivity.
Qed.

Lemma last_tag_app : forall a b p, last_tag p (a ++ b) = last_tag (last_tag p a) b.
Proof. intros. unfold last_tag. apply fold_left_app. Qed.

Lemma attributes_tag : forall a n a0 b,
  last_tag (Some (n, a0, b)) (map (fun '(k, v) => W_attribute k v) a)
  = Some (n, a0 ++ a, match a with [] => b | _ => last_bare a end)
  /\ calls_markup (Some (n, a0, b)) (map (fun '(k, v) => W_attribute k v) a) = []
  /\ (good_attributes a = true ->
      sound_calls (Some (n, a0, b)) (map (fun '(k, v) => W_attribute k v) a) = true).
Proof.
  induction a as [|[k v] a IH]; intros n a0 b.
  - cbn. rewrite app_nil_r. auto.
  - cbn [map last_tag fold_left call_markup snd calls_markup sound_calls sound_call].
    destruct (IH n (a0 ++ [(k, v)]) (is_bare v)) as (A & B & C).
    split; [|split].
    + unfold last_tag in A. rewrite A, <- app_assoc. destruct a; reflexivity.
    + exact B.
    + intros G. unfold good_attributes in G. cbn [forallb] in G. apply andb_true_iff in G. destruct G as [G1 G].
      apply andb_true_iff in G1. destruct G1 as [_ V]. rewrite V. apply C. exact G.
Qed.

Lemma node_reads : forall n, writable n = true ->
  calls_markup None (node_calls n) = node_markup n /\ last_tag None (node_calls n) = None
  /\ sound_calls None (node_calls n) = true.
Proof.
  intros n. induction n as [t s|c k|c s|p a|p a l IH] using node_induction; intros W.
  - auto.
  - auto.
  - cbn [writable] in W. apply andb_true_iff in W. destruct W as [W _].
    cbn. rewrite W. auto.
  - cbn [writable] in W. apply andb_true_iff in W. destruct W as [W L].
    apply andb_true_iff in W. destruct W as [W G]. apply andb_true_iff in W. destruct W as [_ N].
    cbn [node_calls node_markup]. destruct a as [|x a].
    + cbn. rewrite N. auto.
    + unfold tag_calls. change (W_begin_attributes p :: ?l) with ([W_begin_attributes p] ++ l).
      destruct (attributes_tag (x :: a) (tp_id p) [] false) as (A & B & C).
      rewrite calls_markup_app, last_tag_app, sound_calls_app.
      change (last_tag None [W_begin_attributes p]) with (Some (tp_id p, @nil (text * text), false)).
      rewrite calls_markup_app, last_tag_app, sound_calls_app, A, B, C by exact G.
      cbn. cbn in L. rewrite N, L. auto.
  - cbn [writable] in W. apply andb_true_iff in W. destruct W as [W WL].
    apply andb_true_iff in W. destruct W as [W B0]. apply andb_true_iff in W. destruct W as [W G].
    apply andb_true_iff in W. destruct W as [_ N].
    cbn [node_calls node_markup].
    assert (calls_markup None (tag_calls p a (W_begin_tag p) W_end_attributes) = [E_open (tp_id p) a false]
            /\ last_tag None (tag_calls p a (W_begin_tag p) W_end_attributes) = None
            /\ sound_calls None (tag_calls p a (W_begin_tag p) W_end_attributes) = true) as (A1 & A2 & A3).
    { destruct a as [|x a].
      - cbn. rewrite N. auto.
      - unfold tag_calls. change (W_begin_attributes p :: ?l) with ([W_begin_attributes p] ++ l).
        destruct (attributes_tag (x :: a) (tp_id p) [] false) as (A & B & C).
        rewrite calls_markup_app, last_tag_app, sound_calls_app.
        change (last_tag None [W_begin_attributes p]) with (Some (tp_id p, @nil (text * text), false)).
        rewrite calls_markup_app, last_tag_app, sound_calls_app, A, B, C by exact G.
        cbn. rewrite N. auto. }
    assert (calls_markup None (flat_map node_calls l) = flat_map node_markup l
            /\ last_tag None (flat_map node_calls l) = None
            /\ sound_calls None (flat_map node_calls l) = true) as (B1 & B2 & B3).
    { clear - IH WL. induction IH as [|x l Hx Hl IHl]; [auto|].
      cbn [forallb] in WL. apply andb_true_iff in WL. destruct WL as [W1 W2].
      destruct (Hx W1) as (X1 & X2 & X3). destruct (IHl W2) as (Y1 & Y2 & Y3).
      cbn [flat_map]. rewrite calls_markup_app, last_tag_app, sound_calls_app, X1, X2, X3, Y1, Y2, Y3. auto. }
    rewrite calls_markup_app, last_tag_app, sound_calls_app, A1, A2, A3.
    rewrite calls_markup_app, last_tag_app, sound_calls_app, B1, B2, B3.
    cbn. rewrite N. auto.
Qed.

Lemma nested_app : forall n open r,
  nested open (node_markup n ++ r) = nested open r.
Proof.
  intros n. induction n as [t s|c k|c s|p a|p a l IH] using node_induction; intros open r; try reflexivity.
  cbn [node_markup app nested]. rewrite <- app_assoc.
  assert (forall o r, nested o (flat_map node_markup l ++ r) = nested o r) as F.
  { clear - IH. induction IH as [|x l Hx Hl IHl]; intros o r; [reflexivity|].
    cbn [flat_map]. rewrite <- app_assoc, Hx. apply IHl. }
  rewrite F. cbn [app nested]. rewrite (proj2 (text_eqb_eq _ _) eq_refl). reflexivity.
Qed.

Lemma document_written : forall l width, forallb writable l = true ->
  exists w e, make_calls (E := E) (W_preamble :: flat_map node_calls l) (new_writer width) = Ok w
    /\ scan Data (written w) = (Data, e)
    /\ markup e = E_declaration (str "DOCTYPE html") :: flat_map node_markup l
    /\ nested [] (markup e) = true
    /\ is_done w = in_new_line w.
Proof.
  intros l width W.
  assert (calls_markup None (flat_map node_calls l) = flat_map node_markup l
          /\ last_tag None (flat_map node_calls l) = None
          /\ sound_calls None (flat_map node_calls l) = true) as (B1 & B2 & B3).
  { clear - W. induction l as [|x l IHl]; [auto|].
    cbn [forallb] in W. apply andb_true_iff in W. destruct W as [W1 W2].
    destruct (node_reads x W1) as (X1 & X2 & X3). destruct (IHl W2) as (Y1 & Y2 & Y3).
    cbn [flat_map]. rewrite calls_markup_app, last_tag_app, sound_calls_app, X1, X2, X3, Y1, Y2, Y3. auto. }
  assert (accepted [W_preamble] (new_writer width) 0 0) as P.
  { eexists; split; [reflexivity|]. auto. }
  assert (accepted ([W_preamble] ++ flat_map node_calls l) (new_writer width) 0 0) as (w & R & C & D & I).
  { eapply accepted_app; [exact P|]. clear - W. induction l as [|x l IHl]; intros w C D I.
    - exists w. auto.
    - cbn [forallb] in W. apply andb_true_iff in W. destruct W as [W1 W2]. cbn [flat_map].
      eapply accepted_app; [apply node_accepted; auto; rewrite I; lia|].
      rewrite D, I. intros w' C' D' I'. apply IHl; auto. }
  destruct (calls_effect _ _ _ None Data R (tracks_new width)) as (t & s & e & T1 & T2 & T3 & T4 & T5).
  { exact B3. }
  assert (last_tag None ([W_preamble] ++ flat_map node_calls l) = None) as LT by exact B2.
  rewrite LT in T4. destruct T4 as [_ ->].
  assert (markup e = E_declaration (str "DOCTYPE html") :: flat_map node_markup l) as M.
  { rewrite T3, calls_markup_app. change (last_tag None [W_preamble]) with (@None open_tag). rewrite B1. reflexivity. }
  exists w, e. split; [exact R|]. split; [rewrite T1; exact T2|]. split; [exact M|]. split.
  - rewrite M. cbn [nested]. clear. induction l as [|x l IH]; [reflexivity|].
    cbn [flat_map]. rewrite nested_app. exact IH.
  - unfold is_done, in_new_line, in_content in *. rewrite D, I. destruct (w_state w); try discriminate; reflexivity.
Qed.

(** Calls that match produce nested elements. *)
Lemma matched_nested : forall l w w' open p,
  make_calls (E := E) l w = Ok w' ->
  match p with Some _ => in_attributes w = true | None => in_attributes w = false end ->
  matched open (option_map (fun '(n, _, _) => n) p) l = true ->
  nested open (calls_markup p l) = true.
Proof.
  assert (forall c w w', make_call (E := E) c w = Ok w' ->
    match c with W_begin_attributes _ | W_attribute _ _ => in_attributes w' = true
    | _ => in_attributes w' = false end) as AFTER.
  { intros c w w' R.
    destruct (in_attributes w) eqn:A.
    - destruct c; cbn [make_call] in R;
        unfold write_preamble, write_empty_tag, begin_tag, begin_tag_with_attributes, end_tag,
          write_comment_tag, write_inner_text, write_whitespace, write_source_gap, assert_then in R;
        try (assert (in_content w = false) as C
               by (unfold in_attributes, in_content in *; destruct (w_state w); auto; discriminate);
             rewrite C in R; discriminate R);
        try (assert (in_initial w = false) as C
               by (unfold in_attributes, in_initial in *; destruct (w_state w); auto; discriminate);
             rewrite C in R; discriminate R);
        try (rewrite A in R; discriminate R).
      + unfold write_attribute, assert_then in R. rewrite A in R.
        destruct (is_html_identifier key); [|discriminate]. injection R as <-. exact A.
      + unfold end_attributes in R. rewrite A in R. cbn [assert_then] in R.
        destruct (is_block_like s).
        * unfold break_line in R. change (in_attributes (emit ?c w)) with (in_attributes w) in R.
          rewrite A in R. discriminate R.
        * injection R as <-. reflexivity.
      + unfold end_empty_tag_attributes in R. rewrite A in R. cbn [assert_then] in R.
        match type of R with break_if_block _ ?x = _ =>
          destruct (break_if_block_spec (E := E) s x eq_refl) as (w3 & R3 & L3 & S3) end.
        rewrite R3 in R. injection R as <-. apply (block_state_attributes _ _ S3).
    - destruct c; cbn [make_call] in R.
      + unfold write_preamble, assert_then in R. destruct (in_initial w); [|discriminate].
        destruct (break_line_lays _ _ R) as (_ & S & _). apply not_attributes_new_line, S.
      + unfold write_empty_tag, assert_then in R. destruct (in_content w); [|discriminate].
        destruct (is_html_identifier (tp_id p)); [|discriminate].
        destruct (indent_spec (E := E) (tp_style p) w A) as (w1 & R1 & L1 & S1). rewrite R1 in R. cbn [bind] in R.
        match type of R with break_if_block _ ?x = _ =>
          destruct (break_if_block_spec (E := E) (tp_style p) x S1) as (w3 & R3 & L3 & S3) end.
        rewrite R3 in R. injection R as <-. apply (block_state_attributes _ _ S3).
      + unfold begin_tag, assert_then in R. destruct (in_content w); [|discriminate].
        destruct (is_html_identifier (tp_id p)); [|discriminate].
        destruct (indent_spec (E := E) (tp_style p) w A) as (w1 & R1 & L1 & S1). rewrite R1 in R. cbn [bind] in R.
        match type of R with context [break_if_block _ ?x] =>
          destruct (break_if_block_spec (E := E) (tp_style p) x S1) as (w3 & R3 & L3 & S3) end.
        rewrite R3 in R. cbn [bind] in R. pose proof (block_state_attributes _ _ S3) as X.
        injection R as <-. destruct (style_is_block (tp_style p)); exact X.
      + unfold begin_tag_with_attributes, assert_then in R. destruct (in_content w); [|discriminate].
        destruct (is_html_identifier (tp_id p)); [|discriminate].
        destruct (indent_spec (E := E) (tp_style p) w A) as (w1 & R1 & L1 & S1). rewrite R1 in R. cbn [bind] in R.
        injection R as <-. reflexivity.
      + unfold write_attribute, assert_then in R. rewrite A in R. discriminate.
      + unfold end_attributes, assert_then in R. rewrite A in R. discriminate.
      + unfold end_empty_tag_attributes, assert_then in R. rewrite A in R. discriminate.
      + unfold end_tag, assert_then in R. destruct (in_content w); [|discriminate].
        destruct (is_html_identifier (tp_id p)); [|discriminate].
        destruct (negb (w_depth w =? 0)%nat); [|discriminate].
        set (w0 := if style_is_block (tp_style p) then set_indent (wrap64 (w_indent w - 1)) w else w) in R.
        assert (in_attributes w0 = false) as A0 by (unfold w0; destruct (style_is_block (tp_style p)); auto).
        clearbody w0.
        destruct (indent_spec (E := E) (tp_style p) w0 A0) as (w1 & R1 & L1 & S1). rewrite R1 in R. cbn [bind] in R.
        match type of R with context [break_if_block _ ?x] =>
          destruct (break_if_block_spec (E := E) (tp_style p) x S1) as (w3 & R3 & L3 & S3) end.
        rewrite R3 in R. cbn [bind] in R. injection R as <-. apply (block_state_attributes _ _ S3).
      + unfold write_comment_tag, assert_then in R. rewrite A in R. cbn [negb] in R.
        destruct (find_text (str "-->") c); [discriminate|].
        destruct (indent_spec (E := E) s w A) as (w1 & R1 & L1 & S1). rewrite R1 in R. cbn [bind] in R.
        match type of R with context [break_if_block _ ?x] =>
          destruct (break_if_block_spec (E := E) s x S1) as (w3 & R3 & L3 & S3) end.
        rewrite R3 in R. injection R as <-. apply (block_state_attributes _ _ S3).
      + destruct (in_content w) eqn:B.
        2:{ unfold write_inner_text in R. rewrite B in R. discriminate R. }
        destruct (inner_text_lays (E := E) t s w B) as (n & w1 & R1 & L1 & S1). rewrite R1 in R.
        injection R as <-. apply content_not_attributes, S1.
      + unfold write_whitespace, assert_then in R. destruct (_ && _); [|discriminate].
        destruct (is_space c); [|discriminate]. injection R as <-. reflexivity.
      + unfold write_source_gap, assert_then in R. destruct (_ && _); [|discriminate].
        destruct (_ || _); [|discriminate]. injection R as <-.
        destruct (style_is_pre s), (negb (sp_line first =? sp_line second)), (negb (sp_column second =? 0)),
          (negb (sp_column first =? sp_column second)),
          (negb (wrap64 (sp_begin first + sp_length first) =? sp_begin second)); exact A. }
  induction l as [|c l IH]; intros w w' open p R T M; [exact M|].
  cbn [make_calls] in R. destruct (make_call c w) as [w1| | |] eqn:R1; try discriminate R. cbn [bind] in R.
  pose proof (AFTER c w w1 R1) as A1.
  destruct p as [[[n a] b]|]; cbn [option_map] in M.
  - destruct c; cbn [make_call] in R1;
      try (exfalso; unfold write_preamble, write_empty_tag, begin_tag, begin_tag_with_attributes, end_tag,
          write_comment_tag, write_inner_text, write_whitespace, write_source_gap, assert_then in R1;
        try (assert (in_content w = false) as C
               by (unfold in_attributes, in_content in *; destruct (w_state w); auto; discriminate);
             rewrite C in R1; discriminate R1);
        try (assert (in_initial w = false) as C
               by (unfold in_attributes, in_initial in *; destruct (w_state w); auto; discriminate);
             rewrite C in R1; discriminate R1);
        rewrite T in R1; discriminate R1).
    + cbn [calls_markup call_markup app]. eapply IH; [exact R|exact A1|exact M].
    + cbn [calls_markup call_markup app nested]. cbn [matched] in M. eapply IH; [exact R|exact A1|exact M].
    + cbn [calls_markup call_markup app nested]. cbn [matched] in M. eapply IH; [exact R|exact A1|].
      cbn [option_map]. destruct open; exact M.
  - destruct c; cbn [calls_markup call_markup app nested matched] in *; try exact A1;
      try (eapply IH; [exact R|exact A1|exact M]).
    + unfold make_call, write_attribute, assert_then in R1. rewrite T in R1. discriminate R1.
    + destruct open as [|m open]; [discriminate|]. apply andb_true_iff in M. destruct M as [M1 M].
      rewrite M1. eapply IH; [exact R|exact A1|exact M].
Qed.

End Documents.
