(** Proofs about the conversion of documents to HTML: which documents are converted. *)
From Coq Require Import ZArith Ascii String List Bool Lia Permutation.
From Verif Require Import Prelude Text Decimal Literals LiteralsProofs Tokenizer TokenizerSpec TokenizerProofs Parse GrammarSpec ParseProps
  HtmlWriter HtmlWriterSpec HtmlWriterProofs
  Directives DirectivesSpec BmdParse BmdParseSpec BmdSound BmsHtml DocHtml DocHtmlSpec DocHtmlFacts BmsHtmlProofs
  DocHtmlProofs.
Import ListNotations.
Open Scope string_scope.
Open Scope list_scope.
Open Scope Z_scope.

(** * The writer *)

(** [w'] comes from [w] by writing content that is closed. *)
Definition fine (w w' : writer) : Prop :=
  in_content w' = true /\ w_depth w' = w_depth w /\ w_indent w' = w_indent w.

Definition writable (w : writer) : Prop := in_content w = true /\ 0 <= w_indent w < 2 ^ 64.

Lemma fine_refl : forall w, writable w -> fine w w.
Proof. intros w [C _]. repeat split; auto. Qed.

Lemma fine_trans : forall a b c, fine a b -> fine b c -> fine a c.
Proof. intros a b c (_ & D1 & I1) (C & D2 & I2). split; [exact C|]. split; congruence. Qed.

Lemma fine_writable : forall a b, writable a -> fine a b -> writable b.
Proof. intros a b [_ I] (C & _ & Q). split; [exact C|]. rewrite Q. exact I. Qed.

Section Steps.
Context {E : Type}.

(** [w'] is [w] after the start tag [p]. *)
Definition started (p : tag_properties) (w w' : writer) : Prop :=
  in_content w' = true /\ w_depth w' = S (w_depth w) /\
  w_indent w' = if style_is_block (tp_style p) then wrap64 (w_indent w + 1) else w_indent w.

Lemma started_writable : forall p w w', writable w -> started p w w' -> writable w'.
Proof.
  intros p w w' [_ I] (C & _ & Q). split; [exact C|]. rewrite Q.
  destruct (style_is_block (tp_style p)); [apply wrap_range|exact I].
Qed.

Lemma begin_works : forall p w, writable w -> is_html_identifier (tp_id p) = true ->
  exists w', begin_tag (E := E) p w = Ok w' /\ started p w w'.
Proof.
  intros p w [C _] H. destruct (accepts_begin (E := E) p w C H) as (w' & R & A).
  cbn [make_calls make_call] in R. destruct (begin_tag p w) as [x| | |]; try discriminate R.
  injection R as ->. exists w'. split; [reflexivity|exact A].
Qed.

Lemma end_works : forall p w w1 w2, writable w -> is_html_identifier (tp_id p) = true ->
  started p w w1 -> fine w1 w2 -> exists w', end_tag (E := E) p w2 = Ok w' /\ fine w w'.
Proof.
  intros p w w1 w2 [_ I] H (_ & D1 & I1) (C2 & D2 & I2).
  assert (w_depth w2 = S (w_depth w)) as D by congruence.
  destruct (accepts_end (E := E) p w2 (w_depth w) C2 H D) as (w' & R & C & D' & I').
  cbn [make_calls make_call] in R. destruct (end_tag p w2) as [x| | |]; try discriminate R.
  injection R as ->. exists w'. split; [reflexivity|]. split; [exact C|]. split; [exact D'|].
  rewrite I', I2, I1. destruct (style_is_block (tp_style p)); [apply wrap_back, I|reflexivity].
Qed.

Lemma empty_works : forall p w, writable w -> is_html_identifier (tp_id p) = true ->
  exists w', write_empty_tag (E := E) p w = Ok w' /\ fine w w'.
Proof.
  intros p w [C _] H. destruct (accepts_empty (E := E) p [] w C H eq_refl) as (w' & R & A).
  cbn [tag_calls make_calls make_call] in R. destruct (write_empty_tag p w) as [x| | |]; try discriminate R.
  injection R as ->. exists w'. split; [reflexivity|exact A].
Qed.

Lemma text_works : forall t s w, writable w ->
  exists n w', write_inner_text (E := E) t s w = Ok (n, w') /\ fine w w'.
Proof.
  intros t s w [C _]. destruct (inner_text_lays (E := E) t s w C) as (n & w' & R & L & C').
  exists n, w'. split; [exact R|]. split; [exact C'|].
  split; [apply (lays_depth _ _ _ L)|apply (lays_indent _ _ _ L)].
Qed.

Lemma content_not_initial : forall w, in_content w = true -> in_initial w = false.
Proof. intros w C. unfold in_content, in_initial in *. destruct (w_state w); auto; discriminate. Qed.

Lemma whitespace_works : forall c n w, writable w -> is_space c = true ->
  exists w', write_whitespace (E := E) c n w = Ok w' /\ fine w w'.
Proof.
  intros c n w [C _] H. unfold write_whitespace.
  rewrite (content_not_attributes _ C), (content_not_initial _ C), H. cbn [negb andb assert_then].
  eexists. split; [reflexivity|]. repeat split.
Qed.

(** One position is not before another. *)
Definition ordered (a b : source_span) : Prop :=
  sp_line a < sp_line b \/ sp_line a = sp_line b /\ sp_column a <= sp_column b.

Lemma gap_works : forall a b s w, writable w -> ordered a b ->
  exists w', write_source_gap (E := E) a b s w = Ok w' /\ fine w w'.
Proof.
  intros a b s w [C _] O. unfold write_source_gap.
  rewrite (content_not_attributes _ C), (content_not_initial _ C). cbn [negb andb assert_then].
  assert ((sp_line a <? sp_line b) || (sp_line a =? sp_line b) && (sp_column a <=? sp_column b) = true) as Q.
  { unfold ordered in O. destruct O as [O|[O1 O2]].
    - apply Z.ltb_lt in O. rewrite O. reflexivity.
    - apply Z.eqb_eq in O1. apply Z.leb_le in O2. rewrite O1, O2. apply orb_true_r. }
  rewrite Q. cbn [assert_then]. eexists. split; [reflexivity|].
  repeat match goal with |- context [if ?x then _ else _] => destruct x end; repeat split; assumption.
Qed.

Lemma open_works : forall p w, writable w -> is_html_identifier (tp_id p) = true ->
  exists w', begin_tag_with_attributes (E := E) p w = Ok w' /\ in_attributes w' = true /\
    w_depth w' = w_depth w /\ w_indent w' = w_indent w.
Proof. intros p w [C _] H. exact (accepts_open (E := E) p w C H). Qed.

Lemma attribute_works : forall k v w, in_attributes w = true -> is_html_identifier k = true ->
  exists w', write_attribute (E := E) k v w = Ok w' /\ in_attributes w' = true /\
    w_depth w' = w_depth w /\ w_indent w' = w_indent w.
Proof.
  intros k v w A H. unfold write_attribute. rewrite A, H. cbn [assert_then]. eexists. split; [reflexivity|].
  repeat split; assumption.
Qed.

Lemma close_works : forall p w w1, is_block_like (tp_style p) = false -> in_attributes w1 = true ->
  w_depth w1 = w_depth w -> w_indent w1 = w_indent w ->
  exists w', end_attributes (E := E) (tp_style p) w1 = Ok w' /\ started p w w'.
Proof.
  intros p w w1 B A D I. unfold end_attributes. rewrite A, B. cbn [assert_then bind].
  eexists. split; [reflexivity|]. split; [reflexivity|]. cbn. rewrite D, I. split; [reflexivity|].
  destruct (tp_style p); try discriminate B; reflexivity.
Qed.

Lemma close_empty_works : forall s w w1, in_attributes w1 = true ->
  w_depth w1 = w_depth w -> w_indent w1 = w_indent w ->
  exists w', end_empty_tag_attributes (E := E) s w1 = Ok w' /\ fine w w'.
Proof.
  intros s w w1 A D I. unfold end_empty_tag_attributes. rewrite A. cbn [assert_then].
  unfold break_if_block. destruct (is_block_like s); eexists; (split; [reflexivity|]); repeat split; assumption.
Qed.

End Steps.

(** * Positions *)

Lemma newlines_pos : forall t, 0 <= newlines t.
Proof. induction t as [|c t IH]; cbn [newlines]; [lia|]. destruct (Ascii.eqb c ch_newline); lia. Qed.

Lemma newlines_app : forall a b, newlines (a ++ b) = newlines a + newlines b.
Proof. induction a as [|c a IH]; intros b; cbn [app newlines]; [lia|]. rewrite IH. lia. Qed.

Lemma column_app : forall a b col, column_after col (a ++ b) = column_after (column_after col a) b.
Proof. induction a as [|c a IH]; intros b col; [reflexivity|]. cbn [app column_after]. apply IH. Qed.

Lemma column_mono : forall t col, ~ In ch_cr t -> newlines t = 0 -> col <= column_after col t.
Proof.
  induction t as [|c t IH]; intros col N Z; [cbn; lia|]. cbn [column_after newlines] in *.
  pose proof (newlines_pos t). destruct (Ascii.eqb_spec c ch_newline) as [->|_]; [lia|].
  destruct (Ascii.eqb_spec c ch_cr) as [->|_]; [destruct N; left; reflexivity|]. cbn [orb].
  assert (forall k, k <= column_after k t) as H1 by (intros k; apply IH; [intros I; apply N; right; exact I|lia]).
  destruct (Ascii.eqb c ch_tab); [specialize (H1 (col + 4))|specialize (H1 (col + 1))]; lia.
Qed.

Lemma covers_ordered : forall src a b ta tb, ~ In ch_cr src -> covers src a ta -> covers src b tb ->
  sp_begin a <= sp_begin b -> ordered a b.
Proof.
  intros src a b ta tb N (p1 & q1 & S1 & ->) (p2 & q2 & S2 & ->) L. cbn [sp_begin] in L. unfold ordered.
  cbn [sp_line sp_column].
  assert (exists d, p2 = p1 ++ d) as (d & ->).
  { exists (skipn (length p1) p2). rewrite <- (firstn_skipn (length p1) p2) at 1. f_equal.
    assert (firstn (length p1) src = p1) as F1 by (rewrite S1; rewrite firstn_app, Nat.sub_diag, firstn_all; apply app_nil_r).
    rewrite <- F1 at 2. rewrite S2, firstn_app. replace (length p1 - length p2)%nat with 0%nat by lia.
    symmetry. apply app_nil_r. }
  rewrite newlines_app, column_app. pose proof (newlines_pos d).
  destruct (Z.eq_dec (newlines d) 0) as [Q|Q]; [right|left; lia]. split; [lia|].
  apply column_mono; [|exact Q]. intros I. apply N. rewrite S2. apply in_or_app. left. apply in_or_app. right. exact I.
Qed.

(** * Code *)

Lemma position_ordered : forall code p t,
  exact_position code (tok_pos p) -> exact_position code (tok_pos t) ->
  (tok_begin p <= tok_begin t)%nat -> ordered (token_span p) (token_span t).
Proof.
  intros code p t [L1 C1] [L2 C2] O. unfold ordered, token_span. cbn [sp_line sp_column].
  change (begin (tok_pos t)) with (tok_begin t) in *. change (begin (tok_pos p)) with (tok_begin p) in *.
  rewrite L1, L2, C1, C2. rewrite (firstn_slice code (tok_begin p) (tok_begin t) O).
  rewrite count_newlines_app, since_newline_app. set (g := slice code (tok_begin p) (tok_begin t)).
  destruct (count_newlines g) as [|k] eqn:K; [right|left; lia]. rewrite (since_none g) by exact K. lia.
Qed.

Lemma tag_identifier : forall c, is_html_identifier (code_span_type_tag c) = true.
Proof. intros []; reflexivity. Qed.

Lemma tokens_work : forall E code ts previous w, Forall (fun t => exact_position code (tok_pos t)) ts ->
  tiles code (starts previous) ts ->
  match previous with Some p => exact_position code (tok_pos p) | None => True end -> writable w ->
  exists w', tokens_to_html (E := E) code previous ts w = Ok w' /\ fine w w'.
Proof.
  intros E code. induction ts as [|t ts IH]; intros previous w F T P W.
  { exists w. split; [reflexivity|apply fine_refl, W]. }
  inversion F as [|? ? F1 F']; subst. inversion T as [|? ? ? T1 T2 T3 T4 T5]; subst. cbn [tokens_to_html].
  assert (exists w1, match previous with
                | None => Ok w
                | Some p => write_source_gap (E := E) (token_span p) (token_span t) fs_pre w
                end = Ok w1 /\ fine w w1) as (w1 & R1 & G1).
  { destruct previous as [p|]; [|exists w; split; [reflexivity|apply fine_refl, W]].
    apply gap_works; [exact W|]. eapply position_ordered; [exact P|exact F1|].
    cbn [starts] in T1. unfold tok_end in T1. lia. }
  rewrite R1. cbn [bind]. clear R1. pose proof (fine_writable _ _ W G1) as W1.
  set (tag := Tag_Properties (code_span_type_tag (categorize_token_type (tok_type t))) fs_pre).
  assert (is_html_identifier (tp_id tag) = true) as H by apply tag_identifier.
  destruct (begin_works (E := E) tag w1 W1 H) as (w2 & R2 & S2). rewrite R2. cbn [bind].
  pose proof (started_writable _ _ _ W1 S2) as W2.
  replace (Nat.leb (begin (tok_pos t)) (length code)) with true.
  2: { symmetry. apply Nat.leb_le. change (begin (tok_pos t)) with (tok_begin t). unfold tok_end in T4. lia. }
  cbn [assert_then].
  destruct (text_works (E := E) (firstn (tok_length t) (skipn (begin (tok_pos t)) code)) fs_pre w2 W2)
    as (n & w3 & R3 & G3). rewrite R3. cbn [bind].
  destruct (end_works (E := E) tag w1 w2 w3 W1 H S2 G3) as (w4 & R4 & G4). rewrite R4. cbn [bind].
  pose proof (fine_trans _ _ _ G1 G4) as G.
  destruct (IH (Some t) w4 F' T5 F1 (fine_writable _ _ W G)) as (w5 & R5 & G5).
  exists w5. split; [exact R5|]. exact (fine_trans _ _ _ G G5).
Qed.

Lemma code_works : forall E code ts w, regular_code code -> tokenize code = Some (Ok ts) ->
  ~ malformed_annotation (lexemes code ts) -> writable w ->
  exists r w', bms_inline_code_to_html (E := E) code w = Some (Ok (r, w')) /\ r <> bms_tokenize_error /\ fine w w'.
Proof.
  intros E code ts w RC H M W. unfold bms_inline_code_to_html. rewrite H.
  destruct (tokens_fine code ts RC H) as [F T].
  assert (Forall (fun t => exact_position code (tok_pos t)) ts) as F'
    by (eapply Forall_impl; [|exact F]; intros t X; apply X).
  destruct (tokens_work E code ts None w F' T Logic.I W) as (w' & R & G).
  destruct (C53_answers_partial code ts H) as [[p P]|[(e & b & P & _)|[_ B]]]; [| |contradiction].
  - rewrite P, R. exists bms_fine, w'. split; [reflexivity|]. split; [discriminate|exact G].
  - rewrite P, R. exists bms_parse_error, w'. split; [reflexivity|]. split; [discriminate|exact G].
Qed.

(** * The converter *)

Lemma on_works : forall f h w, f (hc_writer h) = Ok w ->
  on_writer f h = Some (Ok (Converter w (hc_at_start h) (hc_title h) (hc_bms_function h) (hc_c_equivalent h))).
Proof. intros f h w R. unfold on_writer. rewrite R. reflexivity. Qed.

Lemma text_writes : forall t s h, writable (hc_writer h) ->
  exists n w, write_text t s h = Some (Ok (n, Converter w (hc_at_start h) (hc_title h) (hc_bms_function h) (hc_c_equivalent h)))
    /\ fine (hc_writer h) w.
Proof.
  intros t s h W. destruct (text_works (E := document_error) t s _ W) as (n & w & R & G).
  exists n, w. unfold write_text. rewrite R. split; [reflexivity|exact G].
Qed.

(** One step of a computation. *)
Ltac go R := rewrite R; cbn [bind_loop bind hc_writer hc_at_start hc_title hc_bms_function hc_c_equivalent leave_start].

Section Convert.
Variable arrange : list (text * bmd_value) -> list (text * bmd_value).
Hypothesis arranged : forall l, Permutation (arrange l) l.
Variable src : text.
Hypothesis no_return : ~ In ch_cr src.

Definition named (args : list (text * bmd_value)) : Prop :=
  Forall (fun a => is_html_identifier (fst a) = true) args.

Lemma attributes_work : forall l w, named l -> in_attributes w = true ->
  exists w', write_attributes l w = Ok w' /\ in_attributes w' = true /\
    w_depth w' = w_depth w /\ w_indent w' = w_indent w.
Proof.
  induction l as [|[k v] l IH]; intros w N A; [exists w; auto|]. inversion N as [|? ? N1 N2]; subst.
  cbn [write_attributes]. destruct (attribute_works (E := document_error) k (attribute_value v) w A N1) as (w1 & R1 & A1 & D1 & I1).
  rewrite R1. cbn [bind]. destruct (IH w1 N2 A1) as (w2 & R2 & A2 & D2 & I2).
  exists w2. split; [exact R2|]. split; [exact A2|]. split; congruence.
Qed.

Lemma begin_with_works : forall args p w, named args -> writable w -> is_html_identifier (tp_id p) = true ->
  (args = [] \/ is_block_like (tp_style p) = false) ->
  exists w', begin_with_attributes arrange args true p w = Ok w' /\ started p w w'.
Proof.
  intros args p w N W H B. unfold begin_with_attributes. destruct args as [|a args]; [apply begin_works; assumption|].
  destruct B as [B|B]; [discriminate B|].
  destruct (open_works (E := document_error) p w W H) as (w1 & R1 & A1 & D1 & I1). rewrite R1. cbn [bind].
  assert (named (arrange (a :: args))) as N'.
  { unfold named in *. rewrite Forall_forall in *. intros x I. apply N. eapply Permutation_in; [apply arranged|exact I]. }
  destruct (attributes_work _ w1 N' A1) as (w2 & R2 & A2 & D2 & I2). rewrite R2. cbn [bind].
  apply close_works; congruence.
Qed.

(** ** Lists *)

Definition answers (n : bmd_node) : Prop :=
  forall h, writable (hc_writer h) -> (is_meta n = true -> hc_at_start h = true) ->
    exists h', convert_directive arrange n h = Some (Ok h') /\ fine (hc_writer h) (hc_writer h').

Definition is_directive (n : bmd_node) : bool := match n with B_directive _ _ _ _ _ => true | _ => false end.

(** A list of items can be followed from one to the next. *)
Fixpoint follows (previous : option bmd_node) (l : list bmd_node) : Prop :=
  match l with
  | [] => True
  | n :: r => match previous with Some p => ordered (node_span p) (node_span n) | None => True end /\ follows (Some n) r
  end.

Lemma list_answers : forall style l previous h,
  Forall (fun n => is_directive n = true -> answers n) l -> Forall (fits r_paragraph_item) l ->
  apart l -> follows previous l -> writable (hc_writer h) ->
  exists h', convert_list (convert_directive arrange) style previous l h = Some (Ok h') /\ fine (hc_writer h) (hc_writer h').
Proof.
  intros style. induction l as [|n l IH]; intros previous h T F A O W.
  { exists h. split; [reflexivity|apply fine_refl, W]. }
  inversion T as [|? ? Tn Tl]; subst. inversion F as [|? ? Fn Fl]; subst. destruct O as [O1 O2].
  cbn [convert_list].
  assert (exists h1, match previous with
                | Some (B_directive d _ _ _ _) => on_writer (write_source_gap d (span_of_node n) fs_in_line) h
                | _ => Some (Ok h)
                end = Some (Ok h1) /\ fine (hc_writer h) (hc_writer h1)) as (h1 & R1 & G1).
  { destruct previous as [[|d ty i a b|]|]; try (exists h; split; [reflexivity|apply fine_refl, W]).
    destruct (gap_works (E := document_error) d (node_span n) fs_in_line _ W O1) as (w1 & R1 & G1).
    eexists. split; [apply on_works; exact R1|exact G1]. }
  go R1. clear R1. pose proof (fine_writable _ _ W G1) as W1.
  destruct n as [s children|s ty id args b|s t].
  - inversion Fn.
  - assert (environment_of ty <> env_content) as EN by (inversion Fn; subst; destruct ty; discriminate).
    assert (is_meta (B_directive s ty id args b) = false) as NM by (destruct ty; try reflexivity; destruct (EN eq_refl)).
    destruct (Tn eq_refl h1 W1) as (h2 & R2 & G2); [intros Q; congruence|].
    assert (apart l) as A' by exact A.
    pose proof (fine_trans _ _ _ G1 G2) as G12.
    destruct (IH (Some (B_directive s ty id args b)) h2 Tl Fl A' O2 (fine_writable _ _ W G12)) as (h3 & R3 & G3).
    exists h3. split; [|exact (fine_trans _ _ _ G12 G3)].
    destruct (environment_of ty); try congruence; go R2; exact R3.
  - unfold convert_text. destruct (text_writes t style (leave_start h1) W1) as (n & w2 & R2 & G2). go R2. clear R2.
    assert (apart l) as A' by (destruct l as [|[] ?]; try exact A; try contradiction).
    set (h2 := Converter w2 _ _ _ _). change (fine (hc_writer h1) (hc_writer h2)) in G2.
    pose proof (fine_trans _ _ _ G1 G2) as G12. pose proof (fine_writable _ _ W G12) as W2.
    match goal with |- context [bind_loop ?m _] =>
      assert (exists h3, m = Some (Ok h3) /\ fine (hc_writer h2) (hc_writer h3)) as (h3 & R3 & G3) end.
    { destruct l as [|[|d ty i a b|] l].
      - exists h2. split; [reflexivity|apply fine_refl, W2].
      - inversion Fl as [|? ? X _]; inversion X.
      - destruct (sp_begin s + sp_length s =? sp_begin d); [exists h2; split; [reflexivity|apply fine_refl, W2]|].
        match goal with |- context [write_whitespace ?c 1] =>
          destruct (whitespace_works (E := document_error) c 1 _ W2) as (w3 & R3 & G3); [destruct (_ <? _); reflexivity|] end.
        eexists. split; [apply on_works; exact R3|exact G3].
      - contradiction. }
    go R3. pose proof (fine_trans _ _ _ G12 G3) as G13.
    destruct (IH (Some (B_text s t)) h3 Tl Fl A' O2 (fine_writable _ _ W G13)) as (h4 & R4 & G4).
    exists h4. split; [exact R4|exact (fine_trans _ _ _ G13 G4)].
Qed.

Lemma follows_placed : forall l previous, Forall (fits r_paragraph_item) l -> Forall (placed src) l ->
  in_order (map node_span (match previous with Some p => [p] | None => [] end ++ l)) ->
  match previous with Some p => placed src p | None => True end -> follows previous l.
Proof.
  induction l as [|n l IH]; intros previous F P O Q; [exact Logic.I|].
  inversion F as [|? ? F1 F2]; subst. inversion P as [|? ? P1 P2]; subst. cbn [follows]. split.
  - destruct previous as [p|]; [|exact Logic.I]. destruct O as [O _].
    assert (forall m, placed src m -> exists t, covers src (node_span m) t) as C.
    { intros m X. inversion X; subst; eexists; eassumption. }
    destruct (C p Q) as (tp & Cp), (C n P1) as (tn & Cn).
    eapply covers_ordered; [exact no_return|exact Cp|exact Cn|]. unfold behind in O.
    assert (0 <= sp_length (node_span p)) by (destruct Cp as (? & ? & _ & X); rewrite X; cbn [sp_length]; lia). lia.
  - apply IH; try assumption. destruct previous as [p|]; [|exact O]. apply O.
Qed.

Lemma items_items : forall l, Forall (fits r_paragraph_item) l -> items l = l.
Proof.
  induction 1 as [|n l F _ IH]; [reflexivity|]. unfold items in *. cbn [flat_map]. rewrite IH.
  inversion F; reflexivity.
Qed.

(** ** Directives *)

Definition prepared (n : bmd_node) : Prop := placed src n /\ workable n.

Lemma name_identifier : forall t, BmdParseSpec.is_name t -> is_html_identifier t = true.
Proof.
  intros t (F & c & r & -> & N). unfold is_html_identifier.
  assert (is_decimal_digit c = false) as D.
  { destruct (is_decimal_digit c) eqn:D; [|reflexivity]. destruct N. unfold is_digit_char.
    clear F. destruct c as [[] [] [] [] [] [] [] []]; vm_compute in D; try discriminate D; vm_compute; split; discriminate. }
  rewrite D. cbn [negb andb]. apply forallb_forall. intros x I. rewrite Forall_forall in F. specialize (F x I).
  unfold is_name_char, is_digit_char in F. clear - F.
  destruct x as [[] [] [] [] [] [] [] []]; vm_compute; try reflexivity; exfalso; vm_compute in F; intuition congruence.
Qed.

Lemma placed_named : forall s ty id args b, placed src (B_directive s ty id args b) -> named args.
Proof.
  intros s ty id args b P. inversion P as [| |? ? ? ? ? ? ? _ _ _ A _]; subst.
  eapply Forall_impl; [|exact A]. intros a (_ & N & _). apply name_identifier, N.
Qed.

Lemma directive_identifier : forall ty, is_html_passthrough ty = true -> is_html_identifier (directive_tag ty) = true.
Proof. intros [] H; try discriminate H; reflexivity. Qed.

Lemma passthrough_answers : forall s ty id args b, is_html_passthrough ty = true ->
  fits (role_of ty) (B_directive s ty id args b) -> placed src (B_directive s ty id args b) ->
  workable (B_directive s ty id args b) ->
  (forall sp l, b = Some (B_list sp l) ->
    (Forall (fits r_paragraph_item) l -> Forall (fun n => is_directive n = true -> answers n) l) /\ apart l /\
    Forall (fun n => workable n) l) ->
  answers (B_directive s ty id args b).
Proof.
  intros s ty id args b HP F P WK IB h W _. cbn [convert_directive]. rewrite HP.
  set (tag := Tag_Properties (directive_tag ty) (formatting_style_of ty)).
  assert (is_html_identifier (tp_id tag) = true) as HI by (apply directive_identifier, HP).
  assert (must_be_empty ty = false) as ME by (destruct ty; try reflexivity; contradiction).
  rewrite ME. cbn [negb]. rewrite orb_true_r. cbn [negb].
  change (hc_writer h) with (hc_writer (leave_start h)) in W |- *.
  destruct b as [b|]; cbn [has_block negb andb].
  - assert (args = [] \/ is_block_like (tp_style tag) = false) as AB.
    { destruct ty; try discriminate HP; try (right; reflexivity); try (left; exact WK); contradiction. }
    destruct (begin_with_works args tag _ (placed_named _ _ _ _ _ P) W HI AB) as (w1 & R1 & S1).
    rewrite (on_works _ _ _ R1). cbn [bind_loop hc_writer hc_at_start hc_title hc_bms_function hc_c_equivalent leave_start].
    set (h1 := Converter w1 _ _ _ _). pose proof (started_writable _ _ _ W S1 : writable (hc_writer h1)) as W1.
    match goal with |- context [bind_loop ?m _] =>
      assert (exists h2, m = Some (Ok h2) /\ fine (hc_writer h1) (hc_writer h2)) as (h2 & R2 & G2) end.
    { inversion F as [| |? ? ? ? ? _ _ FB RO]; subst.
      assert (exists sp l, b = B_list sp l /\ content_type_of ty <> ct_nothing /\ content_type_of ty <> ct_raw /\
                content_type_of ty <> ct_text_span /\ content_type_of ty <> ct_block /\
                (l = [] \/ Forall (fits r_paragraph_item) l)) as (sp & l & -> & C1 & C2 & C3 & C4 & FL).
      { destruct ty; try discriminate HP; inversion FB as [|? ? ?|r sp l FL]; subst;
          try (exists sp, l; repeat (split; [first [reflexivity|discriminate]|]); right; exact FL);
          try contradiction;
          (exists sp, l; repeat (split; [first [reflexivity|discriminate]|]); left;
           destruct l as [|x l]; [reflexivity|]; exfalso;
           destruct (IB _ _ eq_refl) as (_ & _ & WL); inversion FL as [|? ? X _]; inversion WL as [|? ? Y _]; subst;
           inversion X as [| |? ty' ? ? ? _ _ _ RO']; subst; destruct ty'; try discriminate RO'; exact Y). }
      assert (exists h2, convert_list (convert_directive arrange) (tp_style tag) None l h1 = Some (Ok h2) /\
        fine (hc_writer h1) (hc_writer h2)) as (h2 & R2 & G2).
      { destruct FL as [->|FL]; [exists h1; split; [reflexivity|apply fine_refl, W1]|].
        destruct (IB _ _ eq_refl) as (T & A & _). apply list_answers; try assumption; [exact (T FL)|].
        inversion P as [| |? ? ? ? ? ? ? _ _ _ _ PB]; subst. inversion PB as [|? ? PL _]; subst.
        inversion PL as [|? ? ? _ PF _ PO _|]; subst. rewrite items_items in PO by exact FL.
        apply follows_placed; [exact FL|exact PF|exact PO|exact Logic.I]. }
      exists h2. split; [|exact G2]. destruct (content_type_of ty); try congruence; exact R2. }
    go R2. destruct (end_works (E := document_error) tag _ _ _ W HI S1 G2) as (w3 & R3 & G3).
    rewrite (on_works _ _ _ R3). eexists. split; [reflexivity|exact G3].
  - assert (args = []) as ->.
    { destruct ty; try discriminate HP; try (apply WK; reflexivity); try exact WK; contradiction. }
    destruct (empty_works (E := document_error) tag _ W HI) as (w1 & R1 & G1).
    rewrite (on_works _ _ _ R1). eexists. split; [reflexivity|exact G1].
Qed.

(** Metadata. *)
Lemma meta_works : forall l title h, Forall (fits r_meta_item) l ->
  Forall workable l -> Forall (placed src) l ->
  (length (filter is_title l) <= match title with Some _ => 0 | None => 1 end)%nat ->
  match title with Some (args, b) => named args /\ (b = false -> args = []) | None => True end ->
  exists title' h', meta_loop l title h = Ok (title', h') /\ hc_writer h' = hc_writer h /\
    match title' with Some (args, b) => named args /\ (b = false -> args = []) | None => True end.
Proof.
  induction l as [|n l IH]; intros title h F WL P L T.
  { exists title, h. split; [reflexivity|]. split; [reflexivity|exact T]. }
  inversion F as [|? ? F1 F2]; subst. inversion WL as [|? ? W1 W2]; subst. inversion P as [|? ? P1 P2]; subst.
  inversion F1 as [| |s ty id args b _ _ FB RO]; subst.
  assert (exists h1, update_metadata s ty b h = Ok h1 /\ hc_writer h1 = hc_writer h) as (h1 & R1 & Q1).
  { destruct ty; try discriminate RO; inversion FB; subst; eexists; (split; [reflexivity|reflexivity]). }
  cbn [meta_loop]. rewrite R1. cbn [bind].
  destruct ty; try discriminate RO.
  - cbn [filter is_title length] in L. destruct title as [x|]; [lia|].
    destruct (IH (Some (args, has_block b)) h1 F2 W2 P2) as (t & h2 & R2 & Q2 & T2).
    + lia.
    + split; [exact (placed_named _ _ _ _ _ P1)|]. intros HB. apply W1. destruct b; [discriminate HB|reflexivity].
    + exists t, h2. split; [exact R2|]. split; [congruence|exact T2].
  - destruct (IH title h1 F2 W2 P2 L T) as (t & h2 & R2 & Q2 & T2).
    exists t, h2. split; [exact R2|]. split; [congruence|exact T2].
  - destruct (IH title h1 F2 W2 P2 L T) as (t & h2 & R2 & Q2 & T2).
    exists t, h2. split; [exact R2|]. split; [congruence|exact T2].
Qed.

Lemma meta_answers : forall s id args b, fits r_content_item (B_directive s dt_meta id args b) ->
  placed src (B_directive s dt_meta id args b) -> workable (B_directive s dt_meta id args b) ->
  (forall sp l, b = Some (B_list sp l) -> Forall workable l) ->
  answers (B_directive s dt_meta id args b).
Proof.
  intros s id args b F P WK IB h W M. cbn [convert_directive is_html_passthrough]. unfold convert_meta_directive.
  rewrite (M eq_refl). cbn [negb].
  destruct b as [b|].
  2: { exists (leave_start h). split; [reflexivity|]. apply fine_refl, W. }
  inversion F as [| |? ? ? ? ? _ _ FB RO]; subst. inversion FB as [| |r sp l FL]; subst.
  inversion P as [| |? ? ? ? ? ? ? _ _ _ _ PB]; subst. inversion PB as [|? ? PL _]; subst.
  inversion PL as [|? ? ? _ PF _ PO _|]; subst.
  destruct (meta_works l None (leave_start h) FL (IB _ _ eq_refl) PF (WK _ _ eq_refl) Logic.I)
    as (title & h1 & R1 & Q1 & T1).
  rewrite R1. cbn [bind_loop]. cbn [leave_start hc_writer] in Q1. rewrite <- Q1 in W |- *.
  destruct title as [[targs tb]|]; [|exists h1; split; [reflexivity|apply fine_refl, W]].
  destruct T1 as [N1 N2]. set (heading := Tag_Properties (str "h1") fs_in_line).
  assert (exists w', begin_with_attributes arrange targs tb heading (hc_writer h1) = Ok w' /\ started heading (hc_writer h1) w')
    as (w2 & R2 & S2).
  { destruct tb.
    - apply begin_with_works; try assumption; [reflexivity|right; reflexivity].
    - rewrite (N2 eq_refl). apply begin_works; [exact W|reflexivity]. }
  rewrite (on_works _ _ _ R2). cbn [bind_loop].
  set (h2 := Converter w2 _ _ _ _). pose proof (started_writable _ _ _ W S2 : writable (hc_writer h2)) as W2.
  destruct (text_writes (hc_title h2) (tp_style heading) h2 W2) as (n & w3 & R3 & G3). rewrite R3. cbn [bind_loop].
  destruct (end_works (E := document_error) heading _ _ _ W eq_refl S2 G3) as (w4 & R4 & G4).
  erewrite on_works by (cbn [hc_writer]; exact R4). eexists. split; [reflexivity|exact G4].
Qed.

(** Names of languages and architectures. *)
Lemma known_enum : forall A (by_name : text -> option A) e key args fallback l,
  (forall t, one_of t l = true -> by_name t <> None) -> known key args l = true ->
  exists a, enum_by_attribute by_name e args key fallback = Ok a /\
    match argument key args with Some (V_identifier _ t) => by_name t = Some a | Some (V_number _ _ _) => False | None => a = fallback end.
Proof.
  intros A by_name e key args fallback l H K. unfold enum_by_attribute. rewrite find_name_argument.
  unfold known, has, argument_is in K. destruct (argument key args) as [[s t|s n k]|]; cbn [negb orb] in K.
  - specialize (H t K). destruct (by_name t) as [a|]; [|congruence]. exists a. split; reflexivity.
  - discriminate K.
  - exists fallback. split; reflexivity.
Qed.

Ltac in_table K :=
  unfold one_of in K; cbn [existsb] in K;
  repeat (apply orb_true_iff in K; destruct K as [K|K];
    [apply text_eqb_eq in K; subst; try (vm_compute; discriminate); try reflexivity|]); try discriminate K.

Lemma language_table : forall t, one_of t language_names = true -> nested_language_by_name t <> None.
Proof. intros t K. unfold language_names in K. in_table K. Qed.

Lemma architecture_table : forall t, one_of t architecture_names = true -> architecture_by_name t <> None.
Proof. intros t K. unfold architecture_names in K. in_table K. Qed.

Lemma plain_table : forall t, one_of t plain_names = true -> nested_language_by_name t = Some nl_plaintext.
Proof. intros t K. unfold plain_names in K. in_table K. Qed.

Lemma bms_table : forall t, one_of t ["bms"] = true -> nested_language_by_name t = Some nl_bms.
Proof. intros t K. in_table K. Qed.

Lemma code_answers : forall s ty id args b, ty = dt_code \/ ty = dt_code_block ->
  fits (role_of ty) (B_directive s ty id args b) -> workable (B_directive s ty id args b) ->
  answers (B_directive s ty id args b).
Proof.
  intros s ty id args b TY F WK h W _.
  assert (known (str "lang") args language_names = true) as K by (destruct TY as [-> | ->]; apply WK).
  replace (convert_directive arrange (B_directive s ty id args b) h) with (convert_code_directive ty args b h)
    by (destruct TY as [-> | ->]; reflexivity).
  unfold convert_code_directive.
  destruct (known_enum _ nested_language_by_name de_invalid_language _ _ nl_bms _ language_table K) as (lang & R0 & Q0).
  rewrite R0. cbn [bind_loop].
  set (tag := match ty with dt_code => _ | _ => _ end).
  assert (is_html_identifier (tp_id tag) = true) as HI by (destruct TY as [-> | ->]; reflexivity).
  change (hc_writer h) with (hc_writer (leave_start h)) in W |- *.
  destruct (begin_works (E := document_error) tag _ W HI) as (w1 & R1 & S1).
  rewrite (on_works _ _ _ R1). cbn [bind_loop].
  set (h1 := Converter w1 _ _ _ _). pose proof (started_writable _ _ _ W S1 : writable (hc_writer h1)) as W1.
  assert (exists h2, convert_nested_code b lang h1 = Some (Ok h2) /\ fine (hc_writer h1) (hc_writer h2)) as (h2 & R2 & G2).
  { destruct b as [b|]; [|exists h1; split; [reflexivity|apply fine_refl, W1]].
    destruct TY as [-> | ->]; [destruct WK as [X _]; discriminate X|].
    inversion F as [| |? ? ? ? ? _ _ FB RO]; subst. inversion FB as [|sp t _|]; subst.
    destruct WK as [_ WK]. specialize (WK sp t eq_refl). cbn [convert_nested_code].
    destruct (argument_is (str "lang") args plain_names) eqn:PL.
    - assert (lang = nl_plaintext) as ->.
      { unfold argument_is in PL. destruct (argument (str "lang") args) as [[? x|]|]; try discriminate PL.
        apply plain_table in PL. congruence. }
      destruct (text_writes t fs_pre h1 W1) as (n & w2 & R2 & G2). rewrite R2. cbn [bind_loop].
      eexists. split; [reflexivity|exact G2].
    - destruct (WK eq_refl) as (KB & RC & ts & TK & MA).
      assert (lang = nl_bms) as ->.
      { unfold known, has, argument_is in KB. destruct (argument (str "lang") args) as [[? x|]|]; cbn in KB.
        - apply bms_table in KB. congruence.
        - discriminate KB.
        - exact Q0. }
      destruct (code_works document_error t ts _ RC TK MA W1) as (r & w2 & R2 & NT & G2). rewrite R2. cbn [bind_loop].
      destruct r; [|congruence|]; (erewrite on_works by reflexivity; eexists; split; [reflexivity|exact G2]). }
  rewrite R2. cbn [bind_loop].
  destruct (end_works (E := document_error) tag _ _ _ W HI S1 G2) as (w3 & R3 & G3).
  rewrite (on_works _ _ _ R3). eexists. split; [reflexivity|exact G3].
Qed.

Lemma instruction_answers : forall s id args b, fits r_paragraph_item (B_directive s dt_instruction id args b) ->
  workable (B_directive s dt_instruction id args b) -> answers (B_directive s dt_instruction id args b).
Proof.
  intros s id args b F (NB & K & NE) h W _. cbn [convert_directive is_html_passthrough].
  unfold convert_instruction_directive.
  destruct (known_enum _ architecture_by_name de_invalid_architecture _ _ arch_x86 _ architecture_table K) as (a & R0 & _).
  rewrite R0. cbn [bind_loop]. clear R0.
  inversion F as [| |? ? ? ? ? _ _ FB RO]; subst. inversion FB as [|sp x _|]; subst; [congruence|].
  set (hyperlink := Tag_Properties (str "a") fs_in_line). set (code := Tag_Properties (str "code") fs_in_line).
  set (superscript := Tag_Properties (str "sup") fs_in_line).
  assert (forall h0, writable (hc_writer h0) -> forall t tag, is_html_identifier (tp_id tag) = true -> forall k,
    (forall h1, fine (hc_writer h0) (hc_writer h1) -> exists h2, k h1 = Some (Ok h2) /\ fine (hc_writer h1) (hc_writer h2)) ->
    exists h2, bind_loop (on_writer (begin_tag tag) h0) (fun h =>
      bind_loop (write_text t fs_in_line h) (fun '(_, h) => bind_loop (on_writer (end_tag tag) h) k)) = Some (Ok h2) /\
      fine (hc_writer h0) (hc_writer h2)) as ELEMENT.
  { intros h0 W0 t tag HI k HK. destruct (begin_works (E := document_error) tag _ W0 HI) as (w1 & R1 & S1).
    rewrite (on_works _ _ _ R1). cbn [bind_loop]. set (h1 := Converter w1 _ _ _ _).
    pose proof (started_writable _ _ _ W0 S1 : writable (hc_writer h1)) as W1.
    destruct (text_writes t fs_in_line h1 W1) as (n & w2 & R2 & G2). rewrite R2. cbn [bind_loop].
    destruct (end_works (E := document_error) tag _ _ _ W0 HI S1 G2) as (w3 & R3 & G3).
    erewrite on_works by (cbn [hc_writer]; exact R3). cbn [bind_loop]. set (h3 := Converter w3 _ _ _ _).
    destruct (HK h3 G3) as (h4 & R4 & G4). exists h4. split; [exact R4|exact (fine_trans _ _ _ G3 G4)]. }
  assert (forall h0, writable (hc_writer h0) -> exists h2, match extension s args with
      | Ok [] => Some (Ok h0)
      | Ok e =>
          let& h := on_writer (begin_tag superscript) h0 in
          let& (_, h) := write_text e fs_in_line h in
          on_writer (end_tag superscript) h
      | _ => Some Abort
      end = Some (Ok h2) /\ fine (hc_writer h0) (hc_writer h2)) as EXT.
  { intros h0 W0. unfold extension. rewrite find_name_argument.
    destruct (argument (str "ext") args) as [[? [|c t]|? ? ?]|].
    - exists h0. split; [reflexivity|apply fine_refl, W0].
    - destruct (begin_works (E := document_error) superscript _ W0 eq_refl) as (w1 & R1 & S1).
      rewrite (on_works _ _ _ R1). cbn [bind_loop]. set (h1 := Converter w1 _ _ _ _).
      pose proof (started_writable _ _ _ W0 S1 : writable (hc_writer h1)) as W1.
      destruct (text_writes (c :: t) fs_in_line h1 W1) as (n & w2 & R2 & G2). rewrite R2. cbn [bind_loop].
      destruct (end_works (E := document_error) superscript _ _ _ W0 eq_refl S1 G2) as (w3 & R3 & G3).
      erewrite on_works by (cbn [hc_writer]; exact R3). eexists. split; [reflexivity|exact G3].
    - destruct (NE _ _ _ eq_refl).
    - exists h0. split; [reflexivity|apply fine_refl, W0]. }
  change (hc_writer h) with (hc_writer (leave_start h)) in W |- *. generalize dependent (leave_start h). clear h.
  intros h W. destruct (architecture_link_prefix a) as [|c pre].
  - cbn [bind_loop]. apply ELEMENT; [exact W|reflexivity|]. intros h1 G1. cbn [bind_loop].
    apply EXT. exact (fine_writable _ _ W G1).
  - destruct (open_works (E := document_error) hyperlink _ W eq_refl) as (w1 & R1 & A1 & D1 & I1).
    destruct (attribute_works (E := document_error) (str "href") ((c :: pre) ++ x) w1 A1 eq_refl) as (w2 & R2 & A2 & D2 & I2).
    destruct (close_works (E := document_error) hyperlink (hc_writer h) w2 eq_refl A2) as (w3 & R3 & S3); [congruence|congruence|].
    erewrite on_works.
    2: { rewrite R1. cbn [bind]. rewrite R2. cbn [bind]. exact R3. }
    cbn [bind_loop]. set (h3 := Converter w3 _ _ _ _).
    pose proof (started_writable _ _ _ W S3 : writable (hc_writer h3)) as W3.
    destruct (begin_works (E := document_error) code _ W3 eq_refl) as (w4 & R4 & S4).
    rewrite (on_works _ _ _ R4). cbn [bind_loop]. set (h4 := Converter w4 _ _ _ _).
    pose proof (started_writable _ _ _ W3 S4 : writable (hc_writer h4)) as W4.
    destruct (text_writes x fs_in_line h4 W4) as (n & w5 & R5 & G5). rewrite R5. cbn [bind_loop].
    destruct (end_works (E := document_error) code _ _ _ W3 eq_refl S4 G5) as (w6 & R6 & G6).
    erewrite on_works by (cbn [hc_writer]; exact R6). cbn [bind_loop].
    destruct (end_works (E := document_error) hyperlink _ _ _ W eq_refl S3 G6) as (w7 & R7 & G7).
    erewrite on_works by (cbn [hc_writer]; exact R7). cbn [bind_loop].
    match goal with |- exists h', match _ with Ok _ => _ | _ => _ end = _ /\ _ => idtac | _ => idtac end.
    match goal with |- context [Converter w7 ?a ?b ?c ?d] => set (h7 := Converter w7 a b c d) end.
    destruct (EXT h7 (fine_writable _ _ W G7)) as (h8 & R8 & G8). exists h8. split; [exact R8|].
    exact (fine_trans _ _ _ G7 G8).
Qed.

Definition reaches (m : bmd_node) : Prop :=
  forall r, r = r_paragraph_item \/ r = r_content_item ->
    is_directive m = true -> fits r m -> (forall k, below k m -> prepared k) -> answers m.

Lemma all_reach : forall n m, below m n -> reaches m.
Proof.
  intros n. induction n as [s t|s l IH|s ty id args b IH] using bmd_induction; intros m B.
  - inversion B; subst. intros r _ X. discriminate X.
  - inversion B as [|? ? x I B'|]; subst; [intros r _ X; discriminate X|]. rewrite Forall_forall in IH. eapply IH; eassumption.
  - inversion B as [| |? ? ? ? x B']; subst; [|apply IH; exact B'].
    intros r RR _ F PR. destruct (PR _ (below_self _)) as [P WK].
    assert (fits (role_of ty) (B_directive s ty id args b) /\ role_of ty = r) as [F' RO] by (inversion F; subst; split; [exact F|reflexivity]).
    assert (forall sp l, b = Some (B_list sp l) ->
      (Forall (fits r_paragraph_item) l -> Forall (fun n => is_directive n = true -> answers n) l) /\ apart l /\
      Forall (fun n => workable n) l) as IB.
    { intros sp l ->.
      assert (forall x k, In x l -> below k x -> below k (B_directive s ty id args (Some (B_list sp l)))) as BD.
      { intros x k I BK. apply below_block. eapply below_list; eassumption. }
      repeat split.
      - intros FL. apply Forall_forall. intros x I D. rewrite Forall_forall in FL.
        eapply IH; [eapply below_list; [exact I|constructor]|left; reflexivity|exact D|apply FL, I|].
        intros k BK. apply PR. eapply BD; eassumption.
      - apply (PR (B_list sp l)). apply below_block. constructor.
      - apply Forall_forall. intros x I. apply PR. eapply BD; [exact I|constructor]. }
    destruct (is_html_passthrough ty) eqn:HP.
    + apply passthrough_answers; assumption.
    + destruct ty; try discriminate HP; try contradiction.
      * apply code_answers; auto.
      * apply code_answers; auto.
      * apply instruction_answers; assumption.
      * apply meta_answers; try assumption. intros sp l Q. apply (IB sp l Q).
      * cbn in RO. destruct RR; subst; discriminate.
      * cbn in RO. destruct RR; subst; discriminate.
      * cbn in RO. destruct RR; subst; discriminate.
Qed.

Lemma content_answers : forall l h, Forall (fits r_content_item) l ->
  (forall n m, In n l -> below m n -> prepared m) ->
  match l with [] => True | n :: r => (is_meta n = true -> hc_at_start h = true) /\ Forall (fun m => is_meta m = false) r end ->
  writable (hc_writer h) ->
  exists h', convert_content (convert_directive arrange) l h = Some (Ok h') /\ fine (hc_writer h) (hc_writer h').
Proof.
  induction l as [|n l IH]; intros h F PR MF W.
  { exists h. split; [reflexivity|apply fine_refl, W]. }
  inversion F as [|? ? Fn Fl]; subst. destruct MF as [M1 M2]. cbn [convert_content].
  match goal with |- context [bind_loop ?m _] =>
    assert (exists h1, m = Some (Ok h1) /\ fine (hc_writer h) (hc_writer h1)) as (h1 & R1 & G1) end.
  { destruct n as [s children|s ty id args b|s t]; [| |inversion Fn].
    - inversion Fn as [|? ? NE FC|]; subst. destruct children as [|c children]; [congruence|].
      set (p := Tag_Properties (str "p") fs_block).
      destruct (begin_works (E := document_error) p _ W eq_refl) as (w1 & R1 & S1).
      rewrite (on_works _ _ _ R1). cbn [bind_loop]. set (h1 := Converter w1 _ _ _ _).
      pose proof (started_writable _ _ _ W S1 : writable (hc_writer h1)) as W1.
      destruct (PR _ _ (or_introl eq_refl) (below_self _)) as [PL WK].
      inversion PL as [|? ? ? _ PF _ PO _|]; subst. rewrite items_items in PO by exact FC.
      destruct (list_answers fs_in_line (c :: children) None h1) as (h2 & R2 & G2); try exact FC.
      + apply Forall_forall. intros x I D. rewrite Forall_forall in FC.
        eapply all_reach; [apply below_self|left; reflexivity|exact D|apply FC, I|].
        intros k BK. eapply PR; [left; reflexivity|]. eapply below_list; eassumption.
      + exact WK.
      + apply follows_placed; [exact FC|exact PF|exact PO|exact Logic.I].
      + exact W1.
      + rewrite R2. cbn [bind_loop].
        destruct (end_works (E := document_error) p _ _ _ W eq_refl S1 G2) as (w3 & R3 & G3).
        rewrite (on_works _ _ _ R3). eexists. split; [reflexivity|exact G3].
    - assert (answers (B_directive s ty id args b)) as A.
      { eapply all_reach; [apply below_self|right; reflexivity|reflexivity|exact Fn|].
        intros k BK. eapply PR; [left; reflexivity|exact BK]. }
      destruct (A h W M1) as (h1 & R1 & G1). exists h1. split; [|exact G1].
      assert (environment_of ty = env_content) as EN by (inversion Fn as [| |? ? ? ? ? _ _ _ RO]; subst; destruct ty; try discriminate RO; reflexivity).
      rewrite EN. exact R1. }
  rewrite R1. cbn [bind_loop].
  destruct (IH h1 Fl) as (h2 & R2 & G2).
  - intros x m I. apply PR. right. exact I.
  - destruct l as [|x l]; [exact Logic.I|]. inversion M2; subst. split; [congruence|assumption].
  - exact (fine_writable _ _ W G1).
  - exists h2. split; [exact R2|exact (fine_trans _ _ _ G1 G2)].
Qed.

Lemma stylesheets_work : forall l w, writable w ->
  exists w', write_stylesheets l w = Ok w' /\ fine w w'.
Proof.
  induction l as [|t l IH]; intros w W.
  { exists w. split; [reflexivity|apply fine_refl, W]. }
  cbn [write_stylesheets]. set (link := Tag_Properties (str "link") fs_block).
  destruct (open_works (E := document_error) link _ W eq_refl) as (w1 & R1 & A1 & D1 & I1). rewrite R1. cbn [bind].
  destruct (attribute_works (E := document_error) (str "rel") (str "stylesheet") w1 A1 eq_refl) as (w2 & R2 & A2 & D2 & I2).
  rewrite R2. cbn [bind].
  destruct (attribute_works (E := document_error) (str "href") t w2 A2 eq_refl) as (w3 & R3 & A3 & D3 & I3).
  rewrite R3. cbn [bind].
  destruct (close_empty_works (E := document_error) (tp_style link) w w3 A3) as (w4 & R4 & G4); [congruence|congruence|].
  rewrite R4. cbn [bind]. destruct (IH w4 (fine_writable _ _ W G4)) as (w5 & R5 & G5).
  exists w5. split; [exact R5|exact (fine_trans _ _ _ G4 G5)].
Qed.

Theorem page_answers : forall width sheets s l, Forall (fits r_content_item) l ->
  (forall n m, In n l -> below m n -> prepared m) -> meta_first l ->
  exists w, doc_to_html arrange width sheets (B_list s l) = Some (Ok w).
Proof.
  intros width sheets s l F PR MF. unfold doc_to_html. cbv zeta.
  set (html := Tag_Properties (str "html") fs_flat). set (body := Tag_Properties (str "body") fs_flat).
  set (head := Tag_Properties (str "head") fs_block).
  assert (exists w0, write_preamble (E := document_error) (new_writer width) = Ok w0 /\ writable w0 /\
    w_depth w0 = 0%nat /\ w_indent w0 = 0) as (w0 & R0 & W0 & D0 & I0).
  { eexists. split; [reflexivity|]. split; [|split; reflexivity]. split; [reflexivity|]. cbn. lia. }
  rewrite R0. cbn [bind].
  destruct (begin_works (E := document_error) html _ W0 eq_refl) as (w1 & R1 & S1). rewrite R1. cbn [bind].
  pose proof (started_writable _ _ _ W0 S1) as W1.
  destruct (begin_works (E := document_error) head _ W1 eq_refl) as (w2 & R2 & S2). rewrite R2. cbn [bind].
  pose proof (started_writable _ _ _ W1 S2) as W2.
  destruct (stylesheets_work sheets w2 W2) as (w3 & R3 & G3). rewrite R3. cbn [bind].
  destruct (end_works (E := document_error) head _ _ _ W1 eq_refl S2 G3) as (w4 & R4 & G4). rewrite R4. cbn [bind].
  pose proof (fine_writable _ _ W1 G4) as W4.
  destruct (begin_works (E := document_error) body _ W4 eq_refl) as (w5 & R5 & S5). rewrite R5. cbn [bind bind_loop].
  pose proof (started_writable _ _ _ W4 S5) as W5.
  destruct (content_answers l (Converter w5 true [] [] []) F PR) as (h & R6 & G6); [|exact W5|].
  { destruct l as [|n l]; [exact Logic.I|]. split; [reflexivity|]. exact (MF n l eq_refl). }
  rewrite R6. cbn [bind_loop].
  destruct (end_works (E := document_error) body _ _ _ W4 eq_refl S5 G6) as (w7 & R7 & G7). rewrite R7. cbn [bind].
  destruct (end_works (E := document_error) html _ _ _ W0 eq_refl S1 (fine_trans _ _ _ G4 G7)) as (w8 & R8 & (C8 & D8 & I8)).
  rewrite R8. cbn [bind]. assert (is_done w8 = true) as DN; [|rewrite DN; eexists; reflexivity].
  unfold is_done. rewrite D8, I8, D0, I0. cbn [Nat.eqb Z.eqb andb]. rewrite !andb_true_r.
  assert (in_new_line w8 = true) as NL; [|rewrite NL; apply orb_true_r].
  clear - R8. unfold end_tag in R8. destruct (in_content w7); [|discriminate R8]. cbn [assert_then] in R8.
  destruct (is_html_identifier (tp_id html)); [|discriminate R8]. cbn [assert_then] in R8.
  destruct (negb (Nat.eqb (w_depth w7) 0)); [|discriminate R8]. cbn [assert_then] in R8.
  bstep R8 wa. bstep R8 wb. injection R8 as <-. unfold break_if_block in R0.
  change (is_block_like (tp_style html)) with true in R0. cbv iota in R0. unfold break_line in R0.
  destruct (negb _) in R0; [|discriminate R0]. injection R0 as <-. reflexivity.
Qed.

End Convert.

Theorem document_answers : forall arrange fuel src n width sheets,
  (forall l, Permutation (arrange l) l) -> ~ In ch_cr src ->
  bmd_parse fuel src = Some (Ok (Some n)) -> (forall m, below m n -> workable m) ->
  (forall s l, n = B_list s l -> meta_first l) ->
  exists w, doc_to_html arrange width sheets n = Some (Ok w).
Proof.
  intros arrange fuel src n width sheets A NC P WK MF.
  destruct (parse_sound _ _ _ P) as (s & l & -> & Q & FL & _).
  eapply page_answers; [exact A|exact NC|exact FL| |exact (MF s l eq_refl)].
  intros k m I B. assert (below m (B_list s l)) as B' by (eapply below_list; eassumption).
  split; [exact (below_placed _ _ _ Q B')|apply WK, B'].
Qed.
