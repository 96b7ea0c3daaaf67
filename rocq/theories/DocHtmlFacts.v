(** What the functions of the writer that the converter uses add to the page, up to white space. *)
From Coq Require Import ZArith Ascii String List Bool Lia.
From Verif Require Import Prelude Text Literals HtmlWriter HtmlWriterSpec HtmlWriterProofs BmdParse
  BmdParseSpec DocHtmlSpec.
Import ListNotations.
Open Scope string_scope.
Open Scope list_scope.
Open Scope Z_scope.

(** * White space *)

(** Whether white space came last. *)
Fixpoint ends (after : bool) (l : list event) : bool :=
  match l with
  | [] => after
  | E_char c :: r => ends (is_html_space c) r
  | _ :: r => ends false r
  end.

Lemma collapse_app : forall a b f, collapse f (a ++ b) = collapse f a ++ collapse (ends f a) b.
Proof.
  induction a as [|e a IH]; intros b f; [reflexivity|].
  destruct e as [c| | | |]; cbn [app collapse ends]; rewrite ?IH; try reflexivity.
  destruct (is_html_space c), f; reflexivity.
Qed.

Lemma ends_app : forall a b f, ends f (a ++ b) = ends (ends f a) b.
Proof.
  induction a as [|e a IH]; intros b f; [reflexivity|]. destruct e; cbn [app ends]; apply IH.
Qed.

(** Two sequences look the same after white space, if [f], or else after something else. *)
Definition alike (f : bool) (a b : list event) : Prop :=
  collapse f a = collapse f b /\ ends f a = ends f b.

Lemma alike_refl : forall f a, alike f a a.
Proof. split; reflexivity. Qed.

Lemma alike_app : forall f a a' b b', alike f a a' -> alike (ends f a') b b' -> alike f (a ++ b) (a' ++ b').
Proof.
  intros f a a' b b' [A1 A2] [B1 B2]. split.
  - rewrite !collapse_app, A1, A2, B1. reflexivity.
  - rewrite !ends_app, A2, B2. reflexivity.
Qed.

Definition white (t : text) : Prop := Forall (fun c => is_html_space c = true) t.

Lemma white_alike : forall t, white t -> alike true (map E_char t) [].
Proof.
  induction 1 as [|c t W _ [I1 I2]]; [split; reflexivity|]. cbn [map]. split; cbn [collapse ends]; rewrite W.
  - exact I1.
  - exact I2.
Qed.

Lemma blank_alike : forall t f, white t -> t <> [] -> alike f (map E_char t) blank_space.
Proof.
  intros [|c t] f W N; [congruence|]. inversion W as [|? ? Wc Wt]; subst.
  destruct (white_alike t Wt) as [A B]. cbn [collapse ends] in A, B. split.
  - cbn [map collapse blank_space]. rewrite Wc, A. destruct f; reflexivity.
  - cbn [map ends blank_space]. rewrite Wc, B. reflexivity.
Qed.

Lemma white_newline : white [ch_newline].
Proof. repeat constructor. Qed.

Lemma white_repeat : forall c n, is_html_space c = true -> white (repeat c n).
Proof. intros c n H. induction n; constructor; auto. Qed.

Lemma white_margin : forall w, white (margin w).
Proof. intros w. apply white_repeat. reflexivity. Qed.

Lemma white_app : forall a b, white a -> white b -> white (a ++ b).
Proof. intros. apply Forall_app. auto. Qed.

(** * Writing *)

(** White space came last, if the writer is on a new line. *)
Definition flag_ok (w : writer) (f : bool) : Prop := in_new_line w = true -> f = true.

(** [w'] comes from [w] by writing what looks like [m]. *)
Definition adds (w w' : writer) (m : list event) : Prop :=
  in_content w' = true /\
  exists t e, written w' = written w ++ t /\ scan Data t = (Data, e) /\
    forall f, flag_ok w f -> alike f e m /\ flag_ok w' (ends f m).

Lemma adds_refl : forall w, in_content w = true -> adds w w [].
Proof.
  intros w C. split; [exact C|]. exists [], []. split; [symmetry; apply app_nil_r|].
  split; [reflexivity|]. intros f F. split; [apply alike_refl|exact F].
Qed.

Lemma adds_trans : forall w1 w2 w3 a b, adds w1 w2 a -> adds w2 w3 b -> adds w1 w3 (a ++ b).
Proof.
  intros w1 w2 w3 a b (_ & t1 & e1 & W1 & S1 & F1) (C & t2 & e2 & W2 & S2 & F2).
  split; [exact C|]. exists (t1 ++ t2), (e1 ++ e2).
  split; [rewrite W2, W1, app_assoc; reflexivity|].
  split; [rewrite scan_app, S1, S2; reflexivity|].
  intros f F. destruct (F1 f F) as [A1 G1]. destruct (F2 _ G1) as [A2 G2].
  split; [apply alike_app; assumption|]. rewrite ends_app. exact G2.
Qed.

(** Only white space. *)
Lemma indentation_white : forall s w, white (indentation s w).
Proof.
  intros s w. unfold indentation. apply white_app.
  - destruct (_ && _); [apply white_newline|constructor].
  - destruct (_ && _); [apply white_margin|constructor].
Qed.

Definition lead (s : formatting_style) : list event := if is_block_like s then blank_space else [].

Lemma indentation_alike : forall s w f, flag_ok w f -> alike f (map E_char (indentation s w)) (lead s).
Proof.
  intros s w f F. pose proof (indentation_white s w) as W. unfold lead.
  destruct (in_new_line w) eqn:N.
  - rewrite (F N). destruct (white_alike _ W) as [A B].
    destruct (is_block_like s); split; rewrite ?A, ?B; reflexivity.
  - destruct (is_block_like s) eqn:L.
    + apply blank_alike; [exact W|]. unfold indentation. rewrite N, L. discriminate.
    + unfold indentation. rewrite N, L. apply alike_refl.
Qed.

Lemma block_end_alike : forall s f, alike f (map E_char (block_end s)) (lead s).
Proof.
  intros s f. unfold block_end, lead. destruct (is_block_like s); [|apply alike_refl].
  apply blank_alike; [apply white_newline|discriminate].
Qed.

Definition is_tag (ev : event) : Prop := match ev with E_char _ => False | _ => True end.

Lemma tag_ends : forall ev f, is_tag ev -> ends f [ev] = false.
Proof. intros [] f H; try reflexivity. destruct H. Qed.

(** [w'] comes from [w] by writing a tag between white space. *)
Definition tagged (s : formatting_style) (w w' : writer) (ev : event) : Prop :=
  w_state w' = block_state s /\
  exists u t, written w' = written w ++ u ++ t ++ block_end s /\ scan Data t = (Data, [ev]) /\
    no_bracket u /\ (forall f, flag_ok w f -> alike f (map E_char u) (lead s)) /\
    (s = fs_pre -> u = []).

Lemma tag_tagged : forall s w w0 w1 w2 w3 w4 t ev, written w0 = written w -> in_new_line w0 = in_new_line w ->
  lays w0 w1 (indentation s w0) -> written w2 = written w1 ++ t -> scan Data t = (Data, [ev]) ->
  lays w2 w3 (block_end s) -> w_state w3 = block_state s ->
  written w4 = written w3 -> w_state w4 = w_state w3 -> tagged s w w4 ev.
Proof.
  intros s w w0 w1 w2 w3 w4 t ev W0 N0 L1 E2 S L3 B E4 B4. split; [congruence|].
  exists (indentation s w0), t. split.
  { rewrite E4, (lays_written _ _ _ L3), E2, (lays_written _ _ _ L1), W0, <- !app_assoc. reflexivity. }
  split; [exact S|]. split; [apply indentation_no_bracket|]. split.
  - intros f F. apply indentation_alike. unfold flag_ok in *. rewrite N0. exact F.
  - intros ->. unfold indentation. rewrite !andb_false_r. reflexivity.
Qed.

Lemma block_end_no_bracket : forall s, no_bracket (block_end s).
Proof.
  intros s. unfold block_end. destruct (is_block_like s); repeat constructor; discriminate.
Qed.

Lemma tagged_adds : forall s w w' ev, tagged s w w' ev -> is_tag ev -> adds w w' (lead s ++ [ev] ++ lead s).
Proof.
  intros s w w' ev (B & u & t & W & S & U & A & _) T. split; [apply (block_state_content _ _ B)|].
  exists (u ++ t ++ block_end s), (map E_char u ++ [ev] ++ map E_char (block_end s)).
  split; [exact W|]. split.
  { rewrite scan_app, scan_plain by apply no_bracket_plain, U.
    rewrite scan_app, S, scan_plain by apply no_bracket_plain, block_end_no_bracket. reflexivity. }
  intros f F. split.
  - apply alike_app; [apply A, F|]. apply alike_app; [apply alike_refl|]. apply block_end_alike.
  - intros N. rewrite !ends_app, (tag_ends _ _ T). unfold in_new_line in N. rewrite B in N.
    unfold block_state in N. unfold lead. destruct (is_block_like s); [reflexivity|discriminate N].
Qed.

Lemma emits_keeps : forall l w, w_state (emits l w) = w_state w /\ w_depth (emits l w) = w_depth w.
Proof.
  induction l as [|c l IH]; intros w; [split; reflexivity|]. exact (IH (emit c w)).
Qed.

Section Calls.
Context {E : Type}.

Ltac clear_assert H :=
  unfold assert_then in H;
  match type of H with (if ?b then _ else _) = _ =>
    let B := fresh "B" in destruct b eqn:B; [|discriminate H] end.

Ltac open_tag_text Q B :=
  cbn [flat_map chunk_text]; rewrite app_nil_r, app_assoc, scan_app;
  match goal with |- context [scan Data (str "<" ++ ?n)] =>
    change (str "<" ++ n) with ("<"%char :: n); rewrite (scan_open_name _ B Q) end; reflexivity.

Lemma begin_tag_tagged : forall p w w', begin_tag (E := E) p w = Ok w' -> sound_name (tp_id p) = true ->
  tagged (tp_style p) w w' (E_open (tp_id p) [] false)
  /\ w_depth w' = S (w_depth w).
Proof.
  intros p w w' R Q. unfold begin_tag in R. clear_assert R. clear_assert R.
  destruct (indent_spec (E := E) (tp_style p) w (content_not_attributes _ B)) as (w1 & R1 & L1 & S1).
  rewrite R1 in R. cbn [bind] in R.
  match type of R with context [break_if_block _ ?x] =>
    destruct (break_if_block_spec (E := E) (tp_style p) x S1) as (w3 & R3 & L3 & S3) end.
  rewrite R3 in R. cbn [bind] in R. split.
  - eapply (tag_tagged _ w w); [reflexivity|reflexivity|exact L1|apply written_emits| |exact L3|exact S3| |].
    + open_tag_text Q B0.
    + injection R as <-. destruct (style_is_block (tp_style p)); reflexivity.
    + injection R as <-. destruct (style_is_block (tp_style p)); reflexivity.
  - injection R as <-.
    assert (w_depth w3 = w_depth w) as D
      by (rewrite (lays_depth _ _ _ L3); apply (lays_depth _ _ _ L1)).
    destruct (style_is_block (tp_style p)); cbn; rewrite D; reflexivity.
Qed.

Lemma write_empty_tag_tagged : forall p w w', write_empty_tag (E := E) p w = Ok w' ->
  sound_name (tp_id p) = true ->
  tagged (tp_style p) w w' (E_open (tp_id p) [] true)
  /\ w_depth w' = w_depth w.
Proof.
  intros p w w' R Q. unfold write_empty_tag in R. clear_assert R. clear_assert R.
  destruct (indent_spec (E := E) (tp_style p) w (content_not_attributes _ B)) as (w1 & R1 & L1 & S1).
  rewrite R1 in R. cbn [bind] in R.
  match type of R with break_if_block _ ?x = _ =>
    destruct (break_if_block_spec (E := E) (tp_style p) x S1) as (w3 & R3 & L3 & S3) end.
  rewrite R3 in R. injection R as <-. split.
  - eapply (tag_tagged _ w w); [reflexivity|reflexivity|exact L1|apply written_emits| |exact L3|exact S3|reflexivity|reflexivity].
    open_tag_text Q B0.
  - rewrite (lays_depth _ _ _ L3). apply (lays_depth _ _ _ L1).
Qed.

Lemma end_tag_tagged : forall p w w', end_tag (E := E) p w = Ok w' -> sound_name (tp_id p) = true ->
  tagged (tp_style p) w w' (E_close (tp_id p))
  /\ w_depth w = S (w_depth w').
Proof.
  intros p w w' R Q. unfold end_tag in R. clear_assert R. clear_assert R. clear_assert R.
  set (w0 := if style_is_block (tp_style p) then set_indent (wrap64 (w_indent w - 1)) w else w) in R.
  assert (in_attributes w0 = false /\ w_depth w0 = w_depth w /\ written w0 = written w
          /\ in_new_line w0 = in_new_line w) as (A0 & D0 & W0 & N0).
  { unfold w0. pose proof (content_not_attributes _ B). destruct (style_is_block (tp_style p)); auto. }
  clearbody w0.
  destruct (indent_spec (E := E) (tp_style p) w0 A0) as (w1 & R1 & L1 & S1).
  rewrite R1 in R. cbn [bind] in R.
  match type of R with context [break_if_block _ ?x] =>
    destruct (break_if_block_spec (E := E) (tp_style p) x S1) as (w3 & R3 & L3 & S3) end.
  rewrite R3 in R. cbn [bind] in R. injection R as <-. split.
  - eapply (tag_tagged _ w w0);
      [exact W0|exact N0|exact L1|apply written_emits| |exact L3|exact S3|reflexivity|reflexivity].
    cbn [flat_map chunk_text]. rewrite app_nil_r, app_assoc, scan_app.
    change (str "</" ++ tp_id p) with ("<"%char :: "/"%char :: tp_id p).
    rewrite (scan_close_name _ B0 Q). reflexivity.
  - cbn [set_depth w_depth]. rewrite (lays_depth _ _ _ L3). cbn [emits w_depth].
    rewrite (lays_depth _ _ _ L1), D0. apply negb_true_iff, Nat.eqb_neq in B1. lia.
Qed.

(** Tags with attributes. *)

Definition values (l : list (text * text)) : Prop := Forall (fun a => sound_value (snd a) = true) l.

(** [w'] comes from [w] by writing the beginning of a tag after white space. *)
Definition opens (s : formatting_style) (w w' : writer) (n : text) (a : list (text * text)) (bare : bool) : Prop :=
  in_attributes w' = true /\ w_depth w' = w_depth w /\
  exists t st, written w' = written w ++ indentation s w ++ t /\ scan Data t = (st, [])
    /\ pending n a bare st.

Lemma begin_attributes_opens : forall p w w', begin_tag_with_attributes (E := E) p w = Ok w' ->
  sound_name (tp_id p) = true -> opens (tp_style p) w w' (tp_id p) [] false.
Proof.
  intros p w w' R Q. unfold begin_tag_with_attributes in R. clear_assert R. clear_assert R.
  destruct (indent_spec (E := E) (tp_style p) w (content_not_attributes _ B)) as (w1 & R1 & L1 & S1).
  rewrite R1 in R. cbn [bind] in R. injection R as <-.
  split; [reflexivity|]. split; [apply (lays_depth _ _ _ L1)|].
  exists ("<"%char :: tp_id p), (Tag_name (Tag false (tp_id p) [])). split.
  { change (written (set_state ?s ?x)) with (written x). rewrite written_emits.
    rewrite (lays_written _ _ _ L1), <- app_assoc. cbn. rewrite app_nil_r. reflexivity. }
  split; [apply scan_open_name; assumption|]. repeat split.
Qed.

Lemma write_attribute_opens : forall k v s w0 w w' n a b, write_attribute (E := E) k v w = Ok w' ->
  sound_value v = true -> opens s w0 w n a b -> opens s w0 w' n (a ++ [(k, v)]) (is_bare v).
Proof.
  intros k v s w0 w w' n a b R Q (A & D & t & st & W & S & P). unfold write_attribute in R.
  clear_assert R. clear_assert R. injection R as <-.
  destruct (scan_attribute n a b st k v P B0 Q) as (st' & S' & P').
  unfold opens, in_attributes. rewrite !(proj1 (emits_keeps _ _)), (proj2 (emits_keeps _ _)).
  split; [exact B|]. split; [exact D|]. exists (t ++ attribute_text k v), st'. split; [|split].
  - rewrite written_emits, W, <- !app_assoc. do 3 f_equal. unfold attribute_text.
    change (flat_map chunk_text (Chunk (str " ") ht_whitespace :: ?l))
      with (" "%char :: flat_map chunk_text l).
    destruct v as [|c v]; [reflexivity|]. destruct (requires_quotes_in_attribute (c :: v)); cbn;
      rewrite ?app_nil_r; reflexivity.
  - rewrite scan_app, S, S'. reflexivity.
  - exact P'.
Qed.

(** A block cannot have attributes, so the tag is one in a line. *)
Lemma end_attributes_adds : forall s w0 w w' n a b, end_attributes (E := E) s w = Ok w' ->
  opens s w0 w n a b ->
  is_block_like s = false /\
  adds w0 w' [E_open n a false] /\ w_depth w' = S (w_depth w0).
Proof.
  intros s w0 w w' n a b R (A & D & t & st & W & S & P). unfold end_attributes in R. clear_assert R.
  destruct (is_block_like s) eqn:L.
  { unfold break_line, assert_then in R. change (in_attributes (emit ?c w)) with (in_attributes w) in R.
    rewrite B in R. discriminate R. }
  cbn [bind] in R. injection R as <-. split; [reflexivity|]. split.
  - split; [reflexivity|]. exists (indentation s w0 ++ t ++ str ">"),
      (map E_char (indentation s w0) ++ [E_open n a false]).
    split.
    { change (written (set_depth ?d (set_state ?s ?x))) with (written x). rewrite written_emit, W.
      rewrite <- !app_assoc. reflexivity. }
    split.
    { rewrite scan_app, scan_plain by apply no_bracket_plain, indentation_no_bracket.
      rewrite (scan_gt _ _ _ _ P _ S). reflexivity. }
    intros f F. split; [|intros X; discriminate X].
    pose proof (indentation_alike s w0 f F) as X. unfold lead in X. rewrite L in X.
    exact (alike_app _ _ _ _ _ X (alike_refl _ _)).
  - cbn. rewrite D. reflexivity.
Qed.

Lemma end_empty_adds : forall s w0 w w' n a, end_empty_tag_attributes (E := E) s w = Ok w' ->
  opens s w0 w n a false ->
  adds w0 w' (lead s ++ [E_open n a true] ++ lead s) /\ w_depth w' = w_depth w0.
Proof.
  intros s w0 w w' n a R (A & D & t & st & W & S & P). unfold end_empty_tag_attributes in R. clear_assert R.
  match type of R with break_if_block _ ?x = _ =>
    destruct (break_if_block_spec (E := E) s x eq_refl) as (w3 & R3 & L3 & S3) end.
  rewrite R3 in R. injection R as <-. split.
  - split; [apply (block_state_content _ _ S3)|].
    exists (indentation s w0 ++ (t ++ str "/>") ++ block_end s),
      (map E_char (indentation s w0) ++ [E_open n a true] ++ map E_char (block_end s)).
    split.
    { rewrite (lays_written _ _ _ L3). change (written (set_state ?s ?x)) with (written x).
      rewrite written_emit, W. rewrite <- !app_assoc. reflexivity. }
    split.
    { rewrite scan_app, scan_plain by apply no_bracket_plain, indentation_no_bracket.
      rewrite scan_app, scan_app, S, (pending_self_closing _ _ _ P).
      rewrite scan_plain by apply no_bracket_plain, (lays_plain _ _ _ L3). reflexivity. }
    intros f F. split.
    + apply alike_app; [apply indentation_alike, F|]. apply alike_app; [apply alike_refl|].
      apply block_end_alike.
    + intros N. unfold in_new_line in N. rewrite S3 in N. unfold block_state in N.
      rewrite !ends_app. unfold lead. destruct (is_block_like s); [reflexivity|discriminate N].
  - rewrite (lays_depth _ _ _ L3). exact D.
Qed.

(** Any tag that is closed at once does not change the depth. *)
Lemma end_empty_depth : forall s w w', end_empty_tag_attributes (E := E) s w = Ok w' ->
  w_depth w' = w_depth w.
Proof.
  intros s w w' R. unfold end_empty_tag_attributes in R. clear_assert R.
  match type of R with break_if_block _ ?x = _ =>
    destruct (break_if_block_spec (E := E) s x eq_refl) as (w3 & R3 & L3 & S3) end.
  rewrite R3 in R. injection R as <-. rewrite (lays_depth _ _ _ L3). reflexivity.
Qed.

(** Text. *)

Lemma escape_reference : forall t, flat_map escape_char t = flat_map reference t.
Proof. intros t. apply flat_map_ext. intros c. reflexivity. Qed.

Lemma laid_alike : forall t first m line f, white first -> white m -> (first = [] \/ f = true) ->
  alike f (map E_char (laid first m line t)) (text_events (line ++ t)).
Proof.
  induction t as [|c t IH]; intros first m line f W M F; cbn [laid].
  - rewrite app_nil_r. destruct line as [|x line]; [apply alike_refl|].
    rewrite map_app, escape_reference. unfold text_events.
    change (map E_char (flat_map reference (x :: line)))
      with ([] ++ map E_char (flat_map reference (x :: line))) at 2.
    apply alike_app; [|apply alike_refl]. destruct F as [->| ->]; [apply alike_refl|].
    apply white_alike, W.
  - destruct (char_eqb c ch_newline) eqn:C.
    + apply char_eqb_eq in C; subst c. unfold text_events. rewrite flat_map_app, !map_app.
      rewrite escape_reference. rewrite <- app_assoc.
      change (map E_char (flat_map reference line) ++ map E_char (flat_map reference (ch_newline :: t)))
        with ([] ++ map E_char (flat_map reference line) ++ map E_char [ch_newline]
              ++ map E_char (flat_map reference t)).
      apply alike_app; [destruct F as [->| ->]; [apply alike_refl|apply white_alike, W]|].
      apply alike_app; [apply alike_refl|]. apply alike_app; [apply alike_refl|].
      change (flat_map reference t) with (flat_map reference ([] ++ t)).
      apply IH; [exact M|exact M|]. right. reflexivity.
    + replace (line ++ c :: t) with ((line ++ [c]) ++ t) by (rewrite <- app_assoc; reflexivity).
      apply IH; assumption.
Qed.

(** A text that leaves the writer on a new line ends with a line break. *)
Lemma lines_end : forall s t line w w', style_is_pre s = false -> in_content w = true ->
  write_lines (E := E) s (text_lines line t) w = Ok w' -> in_new_line w' = true ->
  (t = [] /\ line = [] /\ in_new_line w = true) \/ exists u, t = u ++ [ch_newline].
Proof.
  intros s. induction t as [|c t IH]; intros line w w' P C R N; cbn [text_lines] in R.
  - destruct line as [|x line]; [injection R as <-; auto|]. exfalso. cbn [write_lines] in R.
    destruct (indent_spec (E := E) s w (content_not_attributes _ C)) as (w1 & R1 & L1 & S1).
    rewrite R1 in R. cbn [bind] in R.
    destruct (escaped_lays (E := E) (x :: line) w1) as (w2 & R2 & L2 & S2);
      [unfold in_content; rewrite S1; reflexivity|].
    rewrite R2 in R. cbn [bind] in R. injection R as <-. unfold in_new_line in N. rewrite S2 in N.
    discriminate N.
  - right. destruct (char_eqb c ch_newline) eqn:E0.
    + cbn [write_lines] in R.
      destruct (indent_spec (E := E) s w (content_not_attributes _ C)) as (w1 & R1 & L1 & S1).
      rewrite R1 in R. cbn [bind] in R.
      destruct (escaped_lays (E := E) line w1) as (w2 & R2 & L2 & S2);
        [unfold in_content; rewrite S1; reflexivity|].
      rewrite R2 in R. cbn [bind] in R.
      pose proof (break_line_ok (E := E) w2 (not_attributes_normal _ S2)) as R3.
      destruct (break_line_lays _ _ R3) as (L3 & S3 & _).
      rewrite R3 in R. cbn [bind] in R. set (w3 := set_state _ _) in *. clearbody w3.
      apply char_eqb_eq in E0; subst c.
      destruct (IH [] w3 w' P) as [(-> & _)|(u & ->)]; auto.
      * unfold in_content. rewrite S3. reflexivity.
      * exists []. reflexivity.
      * exists (ch_newline :: u). reflexivity.
    + destruct (IH (line ++ [c]) w w' P C R N) as [(_ & X & _)|(u & ->)].
      * destruct line; discriminate X.
      * exists (c :: u). reflexivity.
Qed.

Lemma ends_text : forall u f, ends f (text_events (u ++ [ch_newline])) = true.
Proof.
  intros u f. unfold text_events. rewrite flat_map_app, map_app, ends_app. reflexivity.
Qed.

Lemma text_adds : forall t s w n w', write_inner_text (E := E) t s w = Ok (n, w') ->
  is_block_like s = false -> adds w w' (text_events t) /\ w_depth w' = w_depth w.
Proof.
  intros t s w n w' R L.
  assert (in_content w = true) as C.
  { unfold write_inner_text, assert_then in R. destruct (in_content w); [reflexivity|discriminate R]. }
  destruct (inner_text_lays (E := E) t s w C) as (n1 & w1 & R1 & L1 & C1).
  pose proof R as R0. rewrite R1 in R. injection R as <- <-. split; [|apply (lays_depth _ _ _ L1)].
  split; [exact C1|].
  exists (inner_text s w t), (map E_char (inner_text s w t)).
  split; [apply (lays_written _ _ _ L1)|].
  split; [apply scan_plain, no_bracket_plain, (lays_plain _ _ _ L1)|].
  intros f F. unfold inner_text. destruct (style_is_pre s) eqn:P.
  - split; [rewrite escape_reference; apply alike_refl|]. intros N. exfalso.
    unfold write_inner_text in R0. rewrite C, P in R0. cbn [assert_then] in R0.
    destruct (escaped_lays (E := E) t w C) as (w2 & R2 & _ & S2). rewrite R2 in R0. cbn [bind] in R0.
    injection R0 as _ <-. unfold in_new_line in N. rewrite S2 in N. discriminate N.
  - split.
    + change t with ([] ++ t) at 2. apply laid_alike; [apply indentation_white|apply white_margin|].
      destruct (in_new_line w) eqn:N; [right; apply F, N|]. left. unfold indentation. rewrite N, L. reflexivity.
    + intros N. unfold write_inner_text in R0. rewrite C, P in R0. cbn [assert_then] in R0.
      destruct (write_lines s (text_lines [] t) w) as [w2| | |] eqn:R2; try discriminate R0.
      cbn [bind] in R0. injection R0 as _ <-.
      destruct (lines_end s t [] w w2 P C R2 N) as [(-> & _ & X)|(u & ->)]; [apply F, X|apply ends_text].
Qed.

(** White space. *)

Lemma whitespace_adds : forall c w w', write_whitespace (E := E) c 1 w = Ok w' ->
  is_html_space c = true -> adds w w' blank_space /\ w_depth w' = w_depth w.
Proof.
  intros c w w' R H. unfold write_whitespace in R. clear_assert R. clear_assert R. injection R as <-.
  split; [|reflexivity]. split; [reflexivity|]. exists [c], [E_char c].
  split; [change (written (set_state ?s ?x)) with (written x); rewrite written_emit; reflexivity|].
  split.
  { cbn [scan scan_char]. unfold data.
    assert (char_eqb c "<" = false) as -> by (apply char_eqb_neq; intros ->; discriminate H). reflexivity. }
  intros f F. split; [|intros N; discriminate N].
  apply (blank_alike [c]); [constructor; [exact H|constructor]|discriminate].
Qed.

Lemma emit_white_adds : forall w c, in_content w = true -> white (chunk_text c) ->
  adds w (emit c w) (if match chunk_text c with [] => true | _ => false end then [] else blank_space).
Proof.
  intros w c C W. split; [exact C|]. exists (chunk_text c), (map E_char (chunk_text c)).
  split; [apply written_emit|]. split.
  { apply scan_plain. eapply Forall_impl; [|exact W]. intros x H ->. discriminate H. }
  intros f F. destruct (chunk_text c) as [|x t]; [split; [apply alike_refl|exact F]|].
  split; [apply blank_alike; [exact W|discriminate]|]. intros _. reflexivity.
Qed.

Lemma source_gap_adds : forall a b w w', write_source_gap (E := E) a b fs_in_line w = Ok w' ->
  0 <= sp_begin a + sp_length a < 2 ^ 64 -> adds w w' (gap a b) /\ w_depth w' = w_depth w.
Proof.
  intros a b w w' R H. unfold write_source_gap in R. clear_assert R. clear_assert R.
  cbn [style_is_pre] in R. unfold wrap64 in R. rewrite Z.mod_small in R by exact H.
  assert (in_content w = true) as C.
  { unfold in_content, in_attributes, in_initial in *. destruct (w_state w); auto; discriminate B. }
  unfold gap. destruct (sp_begin a + sp_length a =? sp_begin b); cbn [negb] in R; injection R as <-.
  - split; [apply adds_refl, C|reflexivity].
  - split; [|reflexivity]. apply (emit_white_adds w (Chunk (str " ") ht_whitespace)); [exact C|].
    repeat constructor.
Qed.

End Calls.
