(** Proofs about the conversion of documents to HTML: what a successful conversion writes. *)
From Coq Require Import ZArith Ascii String List Bool Lia Permutation.
From Verif Require Import Prelude Text Decimal Literals LiteralsProofs Tokenizer TokenizerProofs HtmlWriter
  HtmlWriterSpec HtmlWriterProofs
  Directives DirectivesSpec BmdParse BmdParseSpec BmdSound BmsHtml DocHtml DocHtmlSpec DocHtmlFacts BmsHtmlProofs.
Import ListNotations.
Open Scope string_scope.
Open Scope list_scope.
Open Scope Z_scope.

(** * Monads *)

Lemma loop_ok : forall E A B (m : option (outcome E A)) (k : A -> option (outcome E B)) b,
  bind_loop m k = Some (Ok b) -> exists a, m = Some (Ok a) /\ k a = Some (Ok b).
Proof. intros E A B [[a| | |]|] k b H; try discriminate H. exists a. auto. Qed.

Lemma some_eq : forall A (a b : A), Some a = Some b -> a = b.
Proof. intros A a b H. injection H as ->. reflexivity. Qed.

Lemma bind_ok : forall E A B (m : outcome E A) (k : A -> outcome E B) b,
  bind m k = Ok b -> exists a, m = Ok a /\ k a = Ok b.
Proof. intros E A B [a| | |] k b H; try discriminate H. exists a. auto. Qed.

Ltac step H a :=
  let R := fresh "R" in apply loop_ok in H; destruct H as (a & R & H); cbv beta iota in H.
Ltac bstep H a :=
  let R := fresh "R" in apply bind_ok in H; destruct H as (a & R & H); cbv beta iota in H.

Lemma on_writer_ok : forall f h h', on_writer f h = Some (Ok h') ->
  exists w, f (hc_writer h) = Ok w /\ h' = Converter w (hc_at_start h) (hc_title h) (hc_bms_function h) (hc_c_equivalent h).
Proof.
  intros f h h' H. unfold on_writer in H. injection H as H. apply bind_ok in H. destruct H as (w & R & H).
  injection H as <-. exists w. auto.
Qed.

Lemma write_text_ok : forall t s h n h', write_text t s h = Some (Ok (n, h')) ->
  exists w, write_inner_text (E := document_error) t s (hc_writer h) = Ok (n, w) /\
    h' = Converter w (hc_at_start h) (hc_title h) (hc_bms_function h) (hc_c_equivalent h).
Proof.
  intros t s h n h' H. unfold write_text in H. injection H as H. apply bind_ok in H.
  destruct H as ((m & w) & R & H). injection H as <- <-. exists w. auto.
Qed.

Ltac wstep H h :=
  let R := fresh "R" in let w := fresh "w" in
  apply loop_ok in H; destruct H as (h & R & H); apply on_writer_ok in R; destruct R as (w & R & ->);
  cbn [hc_writer hc_at_start hc_title hc_bms_function hc_c_equivalent] in *.
Ltac tstep H h :=
  let R := fresh "R" in let w := fresh "w" in let n := fresh "n" in
  apply loop_ok in H; destruct H as ((n & h) & R & H); cbv beta iota in H;
  apply write_text_ok in R; destruct R as (w & R & ->);
  cbn [hc_writer hc_at_start hc_title hc_bms_function hc_c_equivalent] in *.

(** * What is done to the writer *)

(** The depth does not grow; if it does not shrink either, what is written looks like [m]. *)
Definition turns (w w' : writer) (m : list event) : Prop :=
  in_content w' = true /\ (w_depth w' <= w_depth w)%nat /\ (w_depth w' = w_depth w -> adds w w' m).

Lemma turns_refl : forall w, in_content w = true -> turns w w [].
Proof. intros w C. split; [exact C|]. split; [lia|]. intros _. apply adds_refl, C. Qed.

Lemma turns_trans : forall w1 w2 w3 a b, turns w1 w2 a -> turns w2 w3 b -> turns w1 w3 (a ++ b).
Proof.
  intros w1 w2 w3 a b (_ & D1 & A1) (C & D2 & A2). split; [exact C|]. split; [lia|]. intros D.
  eapply adds_trans; [apply A1; lia|apply A2; lia].
Qed.

Lemma turns_adds : forall w w' m, adds w w' m -> w_depth w' = w_depth w -> turns w w' m.
Proof. intros w w' m A D. split; [apply A|]. split; [lia|]. auto. Qed.

Lemma turns_element : forall w w1 w2 w3 a m b, adds w w1 a -> w_depth w1 = S (w_depth w) -> turns w1 w2 m ->
  adds w2 w3 b -> w_depth w2 = S (w_depth w3) -> turns w w3 (a ++ m ++ b).
Proof.
  intros w w1 w2 w3 a m b A1 D1 (C2 & D2 & A2) A3 D3. split; [apply A3|]. split; [lia|]. intros D.
  eapply adds_trans; [exact A1|]. eapply adds_trans; [apply A2; lia|exact A3].
Qed.

(** An element in a style. *)
Definition element (s : formatting_style) (name : text) (a : list (text * text)) (inner : list event) : list event :=
  lead s ++ [E_open name a false] ++ lead s ++ inner ++ lead s ++ [E_close name] ++ lead s.

Lemma begin_adds : forall E p w w', begin_tag (E := E) p w = Ok w' -> sound_name (tp_id p) = true ->
  adds w w' (lead (tp_style p) ++ [E_open (tp_id p) [] false] ++ lead (tp_style p))
  /\ w_depth w' = S (w_depth w).
Proof.
  intros E p w w' R Q. destruct (begin_tag_tagged _ _ _ R Q) as [T D]. split; [|exact D].
  apply tagged_adds; [exact T|exact Logic.I].
Qed.

Lemma end_adds : forall E p w w', end_tag (E := E) p w = Ok w' -> sound_name (tp_id p) = true ->
  adds w w' (lead (tp_style p) ++ [E_close (tp_id p)] ++ lead (tp_style p))
  /\ w_depth w = S (w_depth w').
Proof.
  intros E p w w' R Q. destruct (end_tag_tagged _ _ _ R Q) as [T D]. split; [|exact D].
  apply tagged_adds; [exact T|exact Logic.I].
Qed.

Lemma element_turns : forall E p w w1 w2 w3 a m, sound_name (tp_id p) = true ->
  adds w w1 (lead (tp_style p) ++ [E_open (tp_id p) a false] ++ lead (tp_style p)) ->
  w_depth w1 = S (w_depth w) -> turns w1 w2 m -> end_tag (E := E) p w2 = Ok w3 ->
  turns w w3 (element (tp_style p) (tp_id p) a m).
Proof.
  intros E p w w1 w2 w3 a m Q A D T R. destruct (end_adds _ _ _ _ R Q) as [A3 D3]. unfold element.
  pose proof (turns_element _ _ _ _ _ _ _ A D T A3 D3) as X. rewrite <- !app_assoc in X. exact X.
Qed.

Lemma tag_turns : forall E p w w1 w2 w3 m, sound_name (tp_id p) = true ->
  begin_tag (E := E) p w = Ok w1 -> turns w1 w2 m -> end_tag (E := E) p w2 = Ok w3 ->
  turns w w3 (element (tp_style p) (tp_id p) [] m).
Proof.
  intros E p w w1 w2 w3 m Q R T R3. destruct (begin_adds _ _ _ _ R Q) as [A D].
  eapply element_turns; eassumption.
Qed.

Lemma text_turns : forall E t s w n w', write_inner_text (E := E) t s w = Ok (n, w') ->
  is_block_like s = false -> turns w w' (text_events t).
Proof.
  intros E t s w n w' R L. destruct (text_adds _ _ _ _ _ R L) as [A D]. apply turns_adds; assumption.
Qed.

Lemma element_inline : forall s n a m, is_block_like s = false -> element s n a m = inline_element n a m.
Proof.
  intros s n a m L. unfold element, inline_element, lead. rewrite L. reflexivity.
Qed.

Lemma element_block : forall s n a m, is_block_like s = true -> element s n a m = block_element n a m.
Proof. intros s n a m L. unfold element, block_element, lead. rewrite L. reflexivity. Qed.

(** * Trees *)

Section Induction.
Variable P : bmd_node -> Prop.
Hypothesis text_case : forall s t, P (B_text s t).
Hypothesis list_case : forall s l, Forall P l -> P (B_list s l).
Hypothesis directive_case : forall s t id args b, match b with None => True | Some n => P n end ->
  P (B_directive s t id args b).

Fixpoint bmd_induction (n : bmd_node) : P n :=
  match n with
  | B_text s t => text_case s t
  | B_list s l =>
      list_case s l ((fix all (l : list bmd_node) : Forall P l :=
                        match l with
                        | [] => Forall_nil P
                        | x :: r => Forall_cons x (bmd_induction x) (all r)
                        end) l)
  | B_directive s t id args b =>
      directive_case s t id args b (match b with None => Logic.I | Some x => bmd_induction x end)
  end.
End Induction.

(** * Names and values *)

Lemma find_name_argument : forall key args, find_name key args = argument key args.
Proof.
  intros key. unfold argument. induction args as [|[k v] args IH]; [reflexivity|].
  cbn [find_name find fst]. destruct (text_eqb k key); [reflexivity|exact IH].
Qed.

Lemma text_eqb_refl : forall t, text_eqb t t = true.
Proof. intros t. apply text_eqb_eq. reflexivity. Qed.

Ltac by_name H :=
  repeat (match type of H with (if text_eqb ?k ?t then _ else _) = _ =>
    let Q := fresh "Q" in destruct (text_eqb k t) eqn:Q; [apply text_eqb_eq in Q; subst t; try discriminate H; try reflexivity|] end);
  try discriminate H.

Lemma plain_language : forall t, nested_language_by_name t = Some nl_plaintext ->
  one_of t ["plain"; "plaintext"; "text"; "raw"] = true.
Proof.
  intros t H. unfold nested_language_by_name in H. destruct t as [|c t]; [discriminate H|].
  remember (c :: t) as u. clear Hequ c t. cbn [find_name] in H. by_name H.
Qed.

Lemma bms_language : forall t, nested_language_by_name t = Some nl_bms ->
  one_of t ["plain"; "plaintext"; "text"; "raw"] = false.
Proof.
  intros t H. unfold nested_language_by_name in H. destruct t as [|c t]; [discriminate H|].
  remember (c :: t) as u. clear Hequ c t. cbn [find_name] in H. by_name H.
Qed.

Lemma linked_architecture : forall t a, architecture_by_name t = Some a ->
  one_of t ["x86"; "x86_64"; "x86-64"] = match a with arch_x86 => true | _ => false end.
Proof.
  intros t a H. unfold architecture_by_name in H. destruct t as [|c t]; [discriminate H|].
  remember (c :: t) as u. clear Hequ c t. cbn [find_name] in H.
  repeat (match type of H with (if text_eqb ?k ?t then _ else _) = _ =>
    let Q := fresh "Q" in destruct (text_eqb k t) eqn:Q;
      [apply text_eqb_eq in Q; subst t; injection H as <-; reflexivity|] end).
  discriminate H.
Qed.

(** * The converter *)

Section Convert.
Variable arrange : list (text * bmd_value) -> list (text * bmd_value).
Hypothesis arranged : forall l, Permutation (arrange l) l.

(** A value that is written as it should be. *)
Definition good_value (v : bmd_value) : Prop :=
  sound_value (attribute_value v) = true /\ attribute_value v = value_text v /\
  match v with V_identifier _ t => t <> [] | _ => True end.

(** A node whose own faults do not show. *)
Definition good (n : bmd_node) : Prop :=
  0 <= sp_begin (node_span n) + sp_length (node_span n) < 2 ^ 64 /\
  match n with
  | B_directive _ ty _ args b =>
      ty <> dt_superscript /\ Forall (fun a => good_value (snd a)) args /\
      (ty = dt_instruction -> forall s t, b = Some (B_text s t) -> sound_value t = true) /\
      (ty = dt_code_block -> forall s t, b = Some (B_text s t) ->
         argument_is (str "lang") args ["plain"; "plaintext"; "text"; "raw"] = false -> regular_code t)
  | _ => True
  end.

Lemma write_attributes_opens : forall l s w0 w w' n a b, Forall (fun x => good_value (snd x)) l ->
  write_attributes l w = Ok w' -> opens s w0 w n a b ->
  exists b', opens s w0 w' n (a ++ map (fun x => (fst x, value_text (snd x))) l) b'.
Proof.
  induction l as [|[k v] l IH]; intros s w0 w w' n a b G R O.
  - injection R as <-. exists b. cbn [map]. rewrite app_nil_r. exact O.
  - inversion G as [|? ? [G1 [G2 _]] G']; subst. cbn [write_attributes] in R. bstep R w1.
    cbn [snd] in G1, G2. pose proof (write_attribute_opens _ _ _ _ _ _ _ _ _ R0 G1 O) as O1.
    rewrite G2 in O1. destruct (IH _ _ _ _ _ _ _ G' R O1) as (b' & O2). exists b'.
    cbn [map fst snd]. rewrite <- app_assoc in O2. exact O2.
Qed.

Lemma write_attributes_depth : forall l w w', write_attributes l w = Ok w' -> w_depth w' = w_depth w.
Proof.
  induction l as [|[k v] l IH]; intros w w' R; [injection R as <-; reflexivity|].
  cbn [write_attributes] in R. bstep R w1. rewrite (IH _ _ R). unfold write_attribute, assert_then in R0.
  destruct (in_attributes w); [|discriminate R0]. destruct (is_html_identifier k); [|discriminate R0].
  injection R0 as <-. apply emits_keeps.
Qed.

Lemma attributes_nil : attributes arrange [] = [].
Proof. unfold attributes. rewrite (Permutation_nil (Permutation_sym (arranged []))). reflexivity. Qed.

Lemma begin_with_adds : forall args p w w', begin_with_attributes arrange args true p w = Ok w' ->
  sound_name (tp_id p) = true -> Forall (fun a => good_value (snd a)) args ->
  adds w w' (lead (tp_style p) ++ [E_open (tp_id p) (attributes arrange args) false] ++ lead (tp_style p))
  /\ w_depth w' = S (w_depth w).
Proof.
  intros args p w w' R Q G. unfold begin_with_attributes in R. destruct args as [|x args].
  - rewrite attributes_nil. apply begin_adds with (E := document_error); assumption.
  - bstep R w1. bstep R w2. pose proof (begin_attributes_opens _ _ _ R0 Q) as O.
    assert (Forall (fun a => good_value (snd a)) (arrange (x :: args))) as G'
      by (eapply Permutation_Forall; [apply Permutation_sym, arranged|exact G]).
    destruct (write_attributes_opens _ _ _ _ _ _ _ _ G' R1 O) as (b & O2).
    destruct (end_attributes_adds _ _ _ _ _ _ _ R O2) as (L & A & D). unfold lead. rewrite L. split; [exact A|exact D].
Qed.

Lemma begin_without_block : forall args p w w', args <> [] ->
  begin_with_attributes arrange args false p w = Ok w' -> sound_name (tp_id p) = true -> w_depth w' = w_depth w.
Proof.
  intros args p w w' N R Q. unfold begin_with_attributes in R. destruct args as [|x args]; [congruence|].
  bstep R w1. bstep R w2. rewrite (end_empty_depth _ _ _ R), (write_attributes_depth _ _ _ R1).
  apply (begin_attributes_opens _ _ _ R0 Q).
Qed.

(** The title is empty until the meta directive. *)
Definition untitled (h : converter) : Prop := hc_at_start h = true -> hc_title h = [].

Definition later (h h' : converter) : Prop :=
  untitled h' /\ (hc_at_start h = false -> hc_at_start h' = false).

(** What conversion of a directive should do. *)
Definition directive_turns (n : bmd_node) : Prop :=
  match n with
  | B_directive _ ty _ _ _ =>
      fits (role_of ty) n -> (forall m, below m n -> good m) ->
      forall h h', in_content (hc_writer h) = true -> untitled h ->
      convert_directive arrange n h = Some (Ok h') ->
      hc_at_start h' = false /\ turns (hc_writer h) (hc_writer h') (node_events arrange n)
  | _ => True
  end.

(** ** Lists *)

(** The gap before the first child has been written with a text before it. *)
Definition after_previous (previous : option bmd_node) : option source_span :=
  match previous with Some (B_directive d _ _ _ _) => Some d | _ => None end.

Lemma run_gap : forall f s l,
  run_events f (Some s) l
  = match l with [] => [] | n :: _ => gap s (node_span n) end ++ run_events f None l.
Proof. intros f s [|n l]; reflexivity. Qed.

Lemma list_turns : forall style l previous h h',
  Forall directive_turns l -> Forall (fits r_paragraph_item) l -> (forall n m, In n l -> below m n -> good m) ->
  match previous with Some p => good p | None => True end -> is_block_like style = false ->
  in_content (hc_writer h) = true -> untitled h ->
  convert_list (convert_directive arrange) style previous l h = Some (Ok h') ->
  later h h' /\ turns (hc_writer h) (hc_writer h')
    (run_events (node_events arrange) (after_previous previous) l).
Proof.
  intros style. induction l as [|n l IH]; intros previous h h' T F G GP L C U R.
  { injection R as <-. split; [split; [exact U|auto]|]. apply turns_refl, C. }
  inversion T as [|? ? Tn Tl]; subst. inversion F as [|? ? Fn Fl]; subst.
  assert (forall n m, In n l -> below m n -> good m) as Gl by (intros x m I; apply G; right; exact I).
  pose proof (G n n (or_introl eq_refl) (below_self n)) as Gn.
  cbn [convert_list] in R. step R h1.
  assert (untitled h1 /\ turns (hc_writer h) (hc_writer h1)
            match after_previous previous with None => [] | Some p => gap p (node_span n) end) as [U1 T1].
  { destruct previous as [[|d ty i a b|]|]; cbn [after_previous].
    - injection R0 as <-. split; [exact U|apply turns_refl, C].
    - apply on_writer_ok in R0. destruct R0 as (w & R0 & ->). split; [exact U|].
      cbn [hc_writer]. change (span_of_node n) with (node_span n) in R0.
      destruct (source_gap_adds _ _ _ _ R0) as [A D]; [apply GP|]. apply turns_adds; assumption.
    - injection R0 as <-. split; [exact U|apply turns_refl, C].
    - injection R0 as <-. split; [exact U|apply turns_refl, C]. }
  clear R0. pose proof (proj1 T1) as C1.
  destruct n as [s children|s ty id args b|s t].
  - discriminate R.
  - assert (environment_of ty <> env_content) as EN by (intros Q; rewrite Q in R; discriminate R).
    assert (exists h2, convert_directive arrange (B_directive s ty id args b) h1 = Some (Ok h2) /\
      convert_list (convert_directive arrange) style (Some (B_directive s ty id args b)) l h2 = Some (Ok h'))
      as (h2 & R1 & R2).
    { destruct (environment_of ty); try congruence; step R h2; exists h2; auto. }
    clear R. inversion Fn as [| |? ? ? ? ? I1 I2 I3 RO]; subst.
    assert (fits (role_of ty) (B_directive s ty (name_of ty) args b)) as FT by (constructor; auto).
    destruct (Tn FT (fun m B => G _ m (or_introl eq_refl) B) h1 h2 C1 U1 R1) as [S2 T2].
    destruct (IH (Some (B_directive s ty (name_of ty) args b)) h2 h') as [[U3 A3] T3]; try assumption.
    + exact (proj1 T2).
    + intros S. congruence.
    + split; [split; [exact U3|intros _; exact (A3 S2)]|].
      pose proof (turns_trans _ _ _ _ _ T1 (turns_trans _ _ _ _ _ T2 T3)) as X.
      cbn [run_events after_previous node_span] in *. exact X.
  - step R x. destruct x as [lines h2]. cbv beta iota in R. apply write_text_ok in R0.
    destruct R0 as (w & R0 & ->). cbn [hc_writer hc_at_start leave_start] in R0.
    pose proof (text_turns _ _ _ _ _ _ R0 L) as T2. step R h3.
    assert (hc_at_start h3 = false /\ turns w (hc_writer h3)
              match l with [] => [] | n :: _ => gap s (node_span n) end) as [S3 T3].
    { destruct l as [|[|d ty i a b|] l].
      - injection R1 as <-. split; [reflexivity|]. apply turns_refl. exact (proj1 T2).
      - discriminate R1.
      - unfold gap. cbn [node_span]. destruct (sp_begin s + sp_length s =? sp_begin d).
        + injection R1 as <-. split; [reflexivity|]. apply turns_refl. exact (proj1 T2).
        + apply on_writer_ok in R1. destruct R1 as (w' & R1 & ->). split; [reflexivity|]. cbn [hc_writer] in *.
          match type of R1 with write_whitespace ?c _ _ = _ =>
            assert (is_html_space c = true) as Q by (destruct (_ <? _); reflexivity) end.
          destruct (whitespace_adds _ _ _ R1 Q) as [A D]. apply turns_adds; assumption.
      - discriminate R1. }
    destruct (IH (Some (B_text s t)) h3 h') as [[U4 A4] T4]; try assumption.
    + exact (proj1 T3).
    + intros S. congruence.
    + split; [split; [exact U4|intros _; exact (A4 S3)]|].
      pose proof (turns_trans _ _ _ _ _ T1 (turns_trans _ _ _ _ _ T2 (turns_trans _ _ _ _ _ T3 T4))) as X.
      cbn [run_events after_previous node_span node_events] in *. rewrite (run_gap _ s l). exact X.
Qed.

(** An item of a list is not implemented. *)
Lemma items_turns : forall style l previous h h', Forall (fits r_list_item) l ->
  in_content (hc_writer h) = true ->
  convert_list (convert_directive arrange) style previous l h = Some (Ok h') -> l = [] /\ h' = h.
Proof.
  intros style [|n l] previous h h' F C R; [injection R as <-; auto|]. exfalso.
  inversion F as [|? ? Fn _]; subst. cbn [convert_list] in R. step R h1.
  inversion Fn as [| |s ty id args b I1 I2 I3 RO]; subst.
  destruct ty; try discriminate RO. cbn [environment_of] in R. step R h2. discriminate R1.
Qed.

Lemma content_turns : forall l h h',
  Forall (fun n => forall m, below m n -> directive_turns m) l -> Forall (fits r_content_item) l ->
  (forall n m, In n l -> below m n -> good m) ->
  in_content (hc_writer h) = true -> untitled h ->
  convert_content (convert_directive arrange) l h = Some (Ok h') ->
  turns (hc_writer h) (hc_writer h') (flat_map (node_events arrange) l).
Proof.
  induction l as [|n l IH]; intros h h' T F G C U R.
  { injection R as <-. apply turns_refl, C. }
  inversion T as [|? ? Tn Tl]; subst. inversion F as [|? ? Fn Fl]; subst.
  assert (forall n m, In n l -> below m n -> good m) as Gl by (intros x m I; apply G; right; exact I).
  pose proof (G n n (or_introl eq_refl) (below_self n)) as Gn.
  cbn [convert_content] in R. step R h1. cbn [flat_map].
  assert (untitled h1 /\ turns (hc_writer h) (hc_writer h1) (node_events arrange n)) as [U1 T1].
  { destruct n as [s children|s ty id args b|s t].
    - destruct children as [|c children]; [discriminate R0|]. remember (c :: children) as cs.
      wstep R0 h2. step R0 h3. apply on_writer_ok in R0. destruct R0 as (w3 & R0 & ->).
      cbn [hc_writer hc_at_start hc_title hc_bms_function hc_c_equivalent] in *.
      inversion Fn; subst.
      destruct (begin_adds _ _ _ _ R1 eq_refl) as [A1 D1].
      edestruct (list_turns fs_in_line) as [[U3 _] T3]; [| | | | | | |exact R2|].
      + apply Forall_forall. intros x I. apply Tn. eapply below_list; [exact I|constructor].
      + assumption.
      + intros x m I B. apply (G _ m (or_introl eq_refl)). eapply below_list; eassumption.
      + exact Logic.I.
      + reflexivity.
      + apply A1.
      + exact U.
      + split; [exact U3|]. exact (tag_turns _ (Tag_Properties (str "p") fs_block) _ _ _ _ _ eq_refl R1 T3 R0).
    - destruct (environment_of ty) eqn:EN; try discriminate R0.
      inversion Fn as [| |? ? ? ? ? I1 I2 I3 RO]; subst.
      destruct (Tn _ (below_self _) ltac:(constructor; auto) (fun m B => G _ m (or_introl eq_refl) B) h h1 C U R0)
        as [S1 T1].
      split; [intros S; congruence|exact T1].
    - discriminate R0. }
  eapply turns_trans; [exact T1|]. apply IH; try assumption. exact (proj1 T1).
Qed.

(** ** Directives *)

Lemma meta_loop_ok : forall l title h title' h', Forall (fits r_meta_item) l ->
  meta_loop l title h = Ok (title', h') ->
  hc_writer h' = hc_writer h /\ hc_at_start h' = hc_at_start h /\
  match title with
  | Some x => title' = Some x /\ flat_map (title_events arrange) l = [] /\ hc_title h' = hc_title h
  | None =>
      title' = None /\ flat_map (title_events arrange) l = [] /\ hc_title h' = hc_title h \/
      exists s id args b, title' = Some (args, has_block b) /\ In (B_directive s dt_title id args b) l /\
        flat_map (title_events arrange) l
        = inline_element (str "h1") (attributes arrange args) (block_events b) /\
        match b with
        | None => hc_title h' = hc_title h
        | Some _ => exists sp, b = Some (B_text sp (hc_title h'))
        end
  end.
Proof.
  induction l as [|n l IH]; intros title h title' h' F R.
  { injection R as <- <-. split; [reflexivity|]. split; [reflexivity|].
    destruct title; [auto|left; auto]. }
  inversion F as [|? ? Fn Fl]; subst. cbn [meta_loop] in R.
  inversion Fn as [| |s ty id args b I1 I2 I3 RO]; subst.
  bstep R h1. cbn [flat_map].
  assert (hc_writer h1 = hc_writer h /\ hc_at_start h1 = hc_at_start h /\
          match ty, b with
          | dt_title, Some _ => exists sp, b = Some (B_text sp (hc_title h1))
          | _, _ => hc_title h1 = hc_title h
          end) as (W1 & S1 & T1).
  { destruct ty; try discriminate RO; destruct b as [[| |sp x]|]; cbn [update_metadata] in R0;
      try discriminate R0; injection R0 as <-; cbn; try (split; [reflexivity|]; split; [reflexivity|]);
      try reflexivity; try (split; reflexivity).
    exists sp. reflexivity. }
  destruct ty; try discriminate RO.
  - destruct title as [x|]; [discriminate R|].
    destruct (IH _ _ _ _ Fl R) as (W2 & S2 & T2 & E2 & H2).
    split; [congruence|]. split; [congruence|]. right. exists s, (name_of dt_title), args, b.
    split; [exact T2|]. split; [left; reflexivity|]. rewrite E2, app_nil_r. split; [reflexivity|].
    destruct b as [b|]; [destruct T1 as (sp & T1); exists sp; rewrite H2; exact T1|congruence].
  - destruct (IH _ _ _ _ Fl R) as (W2 & S2 & X). split; [congruence|]. split; [congruence|].
    assert (hc_title h1 = hc_title h) as T by (destruct b; exact T1). cbn [title_events app].
    rewrite T in X. destruct title; [exact X|]. destruct X as [X|(s' & i' & a' & b' & X1 & X2 & X3)]; [left; exact X|].
    right. exists s', i', a', b'. split; [exact X1|]. split; [right; exact X2|exact X3].
  - destruct (IH _ _ _ _ Fl R) as (W2 & S2 & X). split; [congruence|]. split; [congruence|].
    assert (hc_title h1 = hc_title h) as T by (destruct b; exact T1). cbn [title_events app].
    rewrite T in X. destruct title; [exact X|]. destruct X as [X|(s' & i' & a' & b' & X1 & X2 & X3)]; [left; exact X|].
    right. exists s', i', a', b'. split; [exact X1|]. split; [right; exact X2|exact X3].
Qed.

Lemma meta_turns : forall s id args b, directive_turns (B_directive s dt_meta id args b).
Proof.
  intros s id args b F G h h' C U R. cbn [convert_directive is_html_passthrough] in R.
  unfold convert_meta_directive in R. destruct (hc_at_start h) eqn:S; [|discriminate R]. cbn [negb] in R.
  specialize (U S). cbn [node_events].
  destruct b as [[sp l| |]|]; try discriminate R.
  2: { injection R as <-. split; [reflexivity|]. apply turns_refl, C. }
  inversion F as [| |? ? ? ? ? I1 I2 I3 RO]; subst. inversion I3 as [| |? ? ? FL]; subst.
  step R x. destruct x as [title h1]. cbv beta iota in R. injection R0 as R0.
  destruct (meta_loop_ok _ _ _ _ _ FL R0) as (W1 & S1 & X). cbn [hc_writer hc_at_start leave_start hc_title] in *.
  destruct X as [(-> & -> & _)|(s' & i' & a' & b' & -> & IN & -> & TT)].
  { injection R as <-. split; [exact S1|]. rewrite W1. apply turns_refl, C. }
  assert (below (B_directive s' dt_title i' a' b') (B_directive s dt_meta (name_of dt_meta) args (Some (B_list sp l))))
    as BB by (apply below_block; eapply below_list; [exact IN|constructor]).
  destruct (G _ BB) as (_ & _ & GA & _). rewrite U in TT.
  set (heading := Tag_Properties (str "h1") fs_in_line) in R.
  wstep R h2. tstep R h3. apply on_writer_ok in R. destruct R as (w4 & R & ->).
  cbn [hc_writer hc_at_start hc_title] in *. split; [exact S1|]. rewrite <- W1.
  rewrite <- (element_inline fs_in_line) by reflexivity.
  destruct b' as [b'|].
  - cbn [has_block] in R1. destruct (begin_with_adds _ _ _ _ R1 eq_refl GA) as [A D].
    destruct TT as (sp' & TT). injection TT as ->. cbn [block_events].
    eapply (element_turns document_error heading); [reflexivity|exact A|exact D| |exact R].
    eapply text_turns; [exact R2|reflexivity].
  - cbn [has_block] in R1. cbn [block_events]. rewrite TT in R2. destruct a' as [|x a'].
    + rewrite attributes_nil.
      eapply (tag_turns document_error heading); [reflexivity|exact R1| |exact R].
      exact (text_turns _ _ _ _ _ _ R2 (eq_refl : is_block_like fs_in_line = false)).
    + assert (w_depth w = w_depth (hc_writer h1)) as D
        by (eapply begin_without_block; [|exact R1|reflexivity]; discriminate).
      pose proof (text_turns _ _ _ _ _ _ R2 (eq_refl : is_block_like fs_in_line = false)) as (_ & D2 & _).
      destruct (end_adds _ _ _ _ R (eq_refl : sound_name (tp_id heading) = true)) as [A3 D3].
      split; [apply A3|]. split; [lia|]. intros Q. lia.
Qed.

Lemma language_plain : forall args lang,
  enum_by_attribute nested_language_by_name de_invalid_language args (str "lang") nl_bms = Ok lang ->
  (lang = nl_plaintext -> argument_is (str "lang") args ["plain"; "plaintext"; "text"; "raw"] = true) /\
  (lang = nl_bms -> argument_is (str "lang") args ["plain"; "plaintext"; "text"; "raw"] = false).
Proof.
  intros args lang H. unfold enum_by_attribute in H. rewrite find_name_argument in H. unfold argument_is.
  destruct (argument (str "lang") args) as [[s t|s n k]|]; [|discriminate H|].
  - destruct (nested_language_by_name t) eqn:Q; [|discriminate H]. injection H as ->. split; intros ->.
    + apply plain_language, Q.
    + apply bms_language, Q.
  - injection H as <-. split; [discriminate|reflexivity].
Qed.

Lemma code_turns : forall s ty id args b, ty = dt_code \/ ty = dt_code_block ->
  directive_turns (B_directive s ty id args b).
Proof.
  intros s ty id args b TY F G h h' C U R.
  assert (is_html_passthrough ty = false) as HP by (destruct TY as [-> | ->]; reflexivity).
  cbn [convert_directive] in R. rewrite HP in R.
  assert (convert_code_directive ty args b h = Some (Ok h')) as R'
    by (destruct TY as [-> | ->]; exact R).
  clear R. rename R' into R. unfold convert_code_directive in R.
  step R lang. apply some_eq in R0. destruct (language_plain _ _ R0) as [LP LB]. clear R0.
  set (tag := match ty with dt_code => Tag_Properties (str "code") fs_in_line
                          | _ => Tag_Properties (str "pre") fs_block end) in R.
  assert (sound_name (tp_id tag) = true) as SN by (unfold tag; destruct TY as [-> | ->]; reflexivity).
  wstep R h1. step R h2. apply on_writer_ok in R. destruct R as (w3 & R & ->).
  cbn [hc_writer hc_at_start hc_title leave_start] in *.
  destruct (begin_adds _ _ _ _ R0 SN) as [A1 D1].
  set (inner := match b with
    | Some (B_text _ t) =>
        if argument_is (str "lang") args ["plain"; "plaintext"; "text"; "raw"]
        then text_events t else code_events t
    | _ => []
    end).
  assert (hc_at_start h2 = false /\ turns w (hc_writer h2) inner /\ (ty = dt_code -> b = None)) as (S2 & T2 & B2).
  { unfold convert_nested_code in R1. unfold inner. destruct b as [[| |sp t]|]; try discriminate R1.
    - assert (ty = dt_code_block) as T.
      { destruct TY as [-> | ->]; [|reflexivity]. inversion F as [| |? ? ? ? ? I1 I2 I3 RO]; subst.
        inversion I3. }
      destruct lang; try discriminate R1.
      + rewrite (LP eq_refl). tstep R1 h3. injection R1 as <-. split; [reflexivity|].
        split; [|rewrite T; discriminate]. exact (text_turns _ _ _ _ _ _ R2 eq_refl).
      + rewrite (LB eq_refl). step R1 x. destruct x as [r w2]. cbv beta iota in R1.
        destruct (G _ (below_self _)) as (_ & _ & _ & _ & GR).
        specialize (GR T sp t eq_refl (LB eq_refl)).
        unfold code_events. cbn [hc_writer] in R2. unfold bms_inline_code_to_html in R2.
        destruct (tokenize t) as [[tokens|e| |]|] eqn:TK; try discriminate R2.
        2: { injection R2 as R2. bstep R2 y. destruct y as [n w4]. injection R2 as <- <-. discriminate R1. }
        assert (tokens_to_html (E := document_error) t None tokens w = Ok w2 /\ r <> bms_tokenize_error) as [R3 NR].
        { destruct (Parse.parse (Parse.lexemes t tokens)) as [[?|?| |]|]; try discriminate R2;
            injection R2 as R2; bstep R2 y; injection R2 as <- <-; (split; [exact R3|discriminate]). }
        assert (on_writer (fun _ => Ok w2)
          {| hc_writer := w; hc_at_start := false; hc_title := hc_title h;
             hc_bms_function := hc_bms_function h; hc_c_equivalent := hc_c_equivalent h |} = Some (Ok h2)) as R4
          by (destruct r; try congruence; exact R1).
        apply on_writer_ok in R4. destruct R4 as (w5 & R4 & ->). injection R4 as <-.
        split; [reflexivity|]. split; [|rewrite T; discriminate]. cbn [hc_writer].
        destruct (tokens_adds _ _ _ _ _ GR TK (proj1 A1) R3) as [A3 D3]. apply turns_adds; assumption.
    - injection R1 as <-. split; [reflexivity|]. split; [apply turns_refl, A1|reflexivity]. }
  split; [exact S2|].
  pose proof (element_turns _ _ _ _ _ _ _ _ SN A1 D1 T2 R) as X. unfold inner, tag in X.
  destruct TY as [-> | ->].
  - rewrite (B2 eq_refl) in X. exact X.
  - exact X.
Qed.

Lemma instruction_turns : forall s id args b, directive_turns (B_directive s dt_instruction id args b).
Proof.
  intros s id args b F G h h' C U R. cbn [convert_directive is_html_passthrough] in R.
  unfold convert_instruction_directive in R. step R arch. apply some_eq in R0.
  destruct b as [[| |sp x]|]; try discriminate R.
  destruct (G _ (below_self _)) as (_ & _ & GA & GI & _). specialize (GI eq_refl sp x eq_refl).
  set (linked := match architecture_link_prefix arch with [] => false | _ :: _ => true end) in R.
  assert (argument_is (str "arch") args ["x86"; "x86_64"; "x86-64"] || negb (has (str "arch") args)
          = match arch with arch_x86 => true | _ => false end) as LK.
  { unfold enum_by_attribute in R0. rewrite find_name_argument in R0. unfold argument_is, has.
    destruct (argument (str "arch") args) as [[s0 t|s0 n k]|]; [|discriminate R0|].
    - destruct (architecture_by_name t) eqn:Q; [|discriminate R0]. injection R0 as ->.
      rewrite (linked_architecture _ _ Q). apply orb_false_r.
    - injection R0 as <-. reflexivity. }
  cbn [node_events]. unfold instruction_events. rewrite LK. clear LK R0.
  set (code := Tag_Properties (str "code") fs_in_line) in *.
  set (hyperlink := Tag_Properties (str "a") fs_in_line) in *.
  set (superscript := Tag_Properties (str "sup") fs_in_line) in *.
  step R h1. wstep R h2. tstep R h3. wstep R h4. step R h5.
  cbn [hc_writer hc_at_start hc_title leave_start] in *.
  assert (turns (hc_writer h1) w1 (inline_element (str "code") [] (text_events x))) as TN.
  { rewrite <- (element_inline fs_in_line) by reflexivity.
    eapply (tag_turns document_error code); [reflexivity|exact R1| |exact R3].
    exact (text_turns _ _ _ _ _ _ R2 (eq_refl : is_block_like fs_in_line = false)). }
  assert (hc_at_start h5 = false /\ turns (hc_writer h) (hc_writer h5)
    (if match arch with arch_x86 => true | _ => false end
     then inline_element (str "a") [(str "href", str "https://www.felixcloutier.com/x86/" ++ x)]
            (inline_element (str "code") [] (text_events x))
     else inline_element (str "code") [] (text_events x))) as [S5 T5].
  { destruct arch; unfold linked in R0, R4; cbn [architecture_link_prefix] in R0, R4;
      try (injection R0 as <-; injection R4 as <-; split; [reflexivity|exact TN]).
    apply on_writer_ok in R0. destruct R0 as (wa & R0 & ->). apply on_writer_ok in R4. destruct R4 as (wb & R4 & ->).
    cbn [hc_writer hc_at_start hc_title leave_start] in *. split; [reflexivity|].
    bstep R0 wc. bstep R0 wd.
    pose proof (begin_attributes_opens _ _ _ R5 (eq_refl : sound_name (tp_id hyperlink) = true)) as O.
    assert (sound_value (str "https://www.felixcloutier.com/x86/" ++ x) = true) as SV.
    { unfold sound_value. rewrite forallb_app. apply andb_true_iff. split; [reflexivity|exact GI]. }
    pose proof (write_attribute_opens _ _ _ _ _ _ _ _ _ R6 SV O) as O2.
    destruct (end_attributes_adds _ _ _ _ _ _ _ R0 O2) as (_ & A & D).
    rewrite <- (element_inline fs_in_line) by reflexivity.
    exact (element_turns document_error hyperlink _ _ _ _ _ _ (eq_refl : sound_name (tp_id hyperlink) = true) A D TN R4). }
  clear R0 R1 R2 R3 R4 TN. unfold extension in R. rewrite find_name_argument in R.
  destruct (argument (str "ext") args) as [[s0 e|s0 n0 k]|] eqn:AE.
  - assert (e <> []) as NE.
    { unfold argument in AE. destruct (find _ args) as [[k v]|] eqn:FD; [|discriminate AE].
      injection AE as ->. apply find_some in FD. destruct FD as [I _]. rewrite Forall_forall in GA.
      apply (GA _ I). }
    destruct e as [|c e]; [congruence|]. remember (c :: e) as ext. clear c e Heqext NE.
    wstep R h6. tstep R h7. apply on_writer_ok in R. destruct R as (w7 & R & ->).
    cbn [hc_writer hc_at_start] in *. split; [exact S5|]. eapply turns_trans; [exact T5|].
    rewrite <- (element_inline fs_in_line) by reflexivity.
    eapply (tag_turns document_error superscript); [reflexivity|exact R0| |exact R].
    exact (text_turns _ _ _ _ _ _ R1 (eq_refl : is_block_like fs_in_line = false)).
  - discriminate R.
  - injection R as <-. rewrite app_nil_r. auto.
Qed.

Lemma passthrough_turns : forall s ty id args b, is_html_passthrough ty = true ->
  match b with Some (B_list _ l) => Forall directive_turns l | _ => True end ->
  directive_turns (B_directive s ty id args b).
Proof.
  intros s ty id args b HP TB F G h h' C U R. cbn [convert_directive] in R. rewrite HP in R.
  inversion F as [| |? ? ? ? ? I1 I2 I3 RO]; subst.
  destruct (G _ (below_self _)) as (_ & NS & GA & _).
  set (tag := Tag_Properties (directive_tag ty) (formatting_style_of ty)) in R.
  assert (sound_name (tp_id tag) = true) as SN by (unfold tag; destruct ty; try discriminate HP; reflexivity).
  assert (directive_tag ty = name_of ty) as TN by (destruct ty; try discriminate HP; try reflexivity; congruence).
  assert (is_block_like (formatting_style_of ty) = is_block_element ty) as BL
    by (destruct ty; try discriminate HP; reflexivity).
  assert (is_element ty = true) as IE by (destruct ty; try discriminate HP; reflexivity).
  assert (node_events arrange (B_directive s ty (name_of ty) args b)
          = match args, b with
            | [], None =>
                if is_block_element ty then blank_space ++ [E_open (name_of ty) [] true] ++ blank_space
                else [E_open (name_of ty) [] true]
            | _, _ => element (formatting_style_of ty) (name_of ty) (attributes arrange args)
                  (match b with Some (B_list _ l) => run_events (node_events arrange) None l | _ => [] end)
            end) as NE.
  { destruct ty; try discriminate HP; cbn [node_events is_element]; destruct args, b; reflexivity. }
  rewrite NE. clear NE.
  destruct (has_block b || negb (must_be_empty ty)) eqn:HB; cbn [negb] in R; [|discriminate R].
  destruct (negb (has_block b) && match args with [] => true | _ :: _ => false end) eqn:EM.
  - apply andb_true_iff in EM. destruct EM as [E1 E2]. destruct b; [discriminate E1|].
    destruct args; [|discriminate E2]. apply on_writer_ok in R. destruct R as (w & R & ->).
    cbn [hc_writer hc_at_start leave_start] in *. split; [reflexivity|].
    destruct (write_empty_tag_tagged _ _ _ R SN) as [T D].
    pose proof (tagged_adds _ _ _ _ T Logic.I) as A. apply turns_adds; [|exact D].
    unfold tag in A. cbn [tp_style tp_id] in A. unfold lead in A. rewrite BL, TN in A.
    destruct (is_block_element ty); exact A.
  - wstep R h1. step R h2. apply on_writer_ok in R. destruct R as (w2 & R & ->).
    cbn [hc_writer hc_at_start hc_title leave_start] in *.
    destruct b as [b|].
    + cbn [has_block] in R0. destruct (begin_with_adds _ _ _ _ R0 SN GA) as [A D].
      set (h1 := Converter _ _ _ _ _) in R1.
      assert (hc_at_start h2 = false /\ turns w (hc_writer h2)
        (match b with B_list _ l => run_events (node_events arrange) None l | _ => [] end)) as [S2 T2].
      { assert (untitled h1) as U1 by (intros Q; discriminate Q).
        destruct b as [sp l| |].
        - assert (convert_list (convert_directive arrange) (formatting_style_of ty) None l h1 = Some (Ok h2)) as R2.
          { destruct ty; try discriminate HP; try discriminate R1; exact R1. }
          inversion I3 as [| |r ? ? FL HE]; subst.
          destruct r.
          + edestruct (list_turns (formatting_style_of ty)) as [[U2 A2] T2]; [| | | | | | |exact R2|].
            * exact TB.
            * exact FL.
            * intros n m I B. apply G. apply below_block. eapply below_list; eassumption.
            * exact Logic.I.
            * destruct ty; try discriminate HP; try discriminate HE; reflexivity.
            * apply A.
            * exact U1.
            * split; [exact (A2 eq_refl)|exact T2].
          + destruct ty; try discriminate HP; discriminate HE.
          + destruct ty; try discriminate HP; discriminate HE.
          + destruct (items_turns _ _ _ h1 _ FL (proj1 A) R2) as [-> ->]. split; [reflexivity|].
            apply turns_refl. exact (proj1 A).
        - destruct ty; try discriminate HP; discriminate R1.
        - destruct ty; try discriminate HP; try discriminate R1; inversion I3. }
      split; [exact S2|].
      pose proof (element_turns _ _ _ _ _ _ _ _ SN A D T2 R) as X. unfold tag in X. cbn [tp_id tp_style] in X.
      rewrite TN in X. destruct args; exact X.
    + cbn [has_block] in *. injection R1 as <-. split; [reflexivity|]. cbn [hc_writer] in *.
      destruct args as [|x args]; [discriminate EM|].
      assert (w_depth w = w_depth (hc_writer h)) as D
        by (eapply begin_without_block; [|exact R0|exact SN]; discriminate).
      destruct (end_adds _ _ _ _ R SN) as [A3 D3].
      split; [apply A3|]. split; [lia|]. intros Q. lia.
Qed.

Lemma all_turns : forall n m, below m n -> directive_turns m.
Proof.
  intros n. induction n as [s t|s l IH|s ty id args b IH] using bmd_induction; intros m B.
  - inversion B; subst. exact Logic.I.
  - inversion B as [|? ? x I B'|]; subst; [exact Logic.I|]. rewrite Forall_forall in IH. eapply IH; eassumption.
  - inversion B as [| |? ? ? ? x B']; subst; [|apply IH; exact B'].
    destruct (is_html_passthrough ty) eqn:HP.
    + apply passthrough_turns; [exact HP|]. destruct b as [[sp l| |]|]; try exact Logic.I.
      apply Forall_forall. intros x I. apply IH. eapply below_list; [exact I|constructor].
    + destruct ty; try discriminate HP; try (intros F G h h' C U R; discriminate R).
      * apply code_turns. auto.
      * apply code_turns. auto.
      * apply instruction_turns.
      * apply meta_turns.
Qed.

(** ** The page *)

Lemma stylesheets_turns : forall l w w', Forall (fun t => sound_value t = true /\ is_bare t = false) l ->
  in_content w = true -> write_stylesheets l w = Ok w' ->
  adds w w' (flat_map link_events l) /\ w_depth w' = w_depth w.
Proof.
  induction l as [|t l IH]; intros w w' F C R.
  - injection R as <-. split; [apply adds_refl, C|reflexivity].
  - inversion F as [|? ? [F1 F2] F']; subst. cbn [write_stylesheets] in R.
    bstep R w1. bstep R w2. bstep R w3. bstep R w4.
    pose proof (begin_attributes_opens _ _ _ R0 eq_refl) as O1.
    pose proof (write_attribute_opens _ _ _ _ _ _ _ _ _ R1 eq_refl O1) as O2.
    pose proof (write_attribute_opens _ _ _ _ _ _ _ _ _ R2 F1 O2) as O3. rewrite F2 in O3.
    destruct (end_empty_adds _ _ _ _ _ _ R3 O3) as [A D].
    destruct (IH _ _ F' (proj1 A) R) as [A' D']. split; [|congruence].
    cbn [flat_map]. exact (adds_trans _ _ _ _ _ A A').
Qed.

Definition page_inside (links body : list event) : list event :=
  block_element (str "html") [] (block_element (str "head") [] links ++ block_element (str "body") [] body).

Lemma page_collapse : forall e links body,
  collapse true e = collapse true (page_inside links body) ->
  looks_like ([E_declaration (str "DOCTYPE html"); E_char ch_newline] ++ e)
    (E_declaration (str "DOCTYPE html") :: page_inside links body).
Proof.
  intros e links body H. unfold looks_like.
  transitivity (E_declaration (str "DOCTYPE html") :: E_char " " :: collapse true e); [reflexivity|].
  rewrite H. reflexivity.
Qed.

Lemma preamble_written : forall E width w, write_preamble (E := E) (new_writer width) = Ok w ->
  scan Data (written w) = (Data, [E_declaration (str "DOCTYPE html"); E_char ch_newline])
  /\ flag_ok w true /\ in_content w = true /\ w_depth w = 0%nat.
Proof. intros E width w R. injection R as <-. repeat split; reflexivity. Qed.

Lemma doc_to_html_ok : forall width sheets root w, doc_to_html arrange width sheets root = Some (Ok w) ->
  exists wp wh wd ws we w1 s l h wb,
    root = B_list s l /\
    write_preamble (E := document_error) (new_writer width) = Ok wp /\
    begin_tag (E := document_error) (Tag_Properties (str "html") fs_flat) wp = Ok wh /\
    begin_tag (E := document_error) (Tag_Properties (str "head") fs_block) wh = Ok wd /\
    write_stylesheets sheets wd = Ok ws /\
    end_tag (E := document_error) (Tag_Properties (str "head") fs_block) ws = Ok we /\
    begin_tag (E := document_error) (Tag_Properties (str "body") fs_flat) we = Ok w1 /\
    convert_content (convert_directive arrange) l (Converter w1 true [] [] []) = Some (Ok h) /\
    end_tag (E := document_error) (Tag_Properties (str "body") fs_flat) (hc_writer h) = Ok wb /\
    end_tag (E := document_error) (Tag_Properties (str "html") fs_flat) wb = Ok w.
Proof.
  intros width sheets root w. unfold doc_to_html.
  generalize (Tag_Properties (str "html") fs_flat) (Tag_Properties (str "head") fs_block) (Tag_Properties (str "body") fs_flat).
  intros html head body R.
  step R w1. apply some_eq in R0. bstep R0 wp. bstep R0 wh. bstep R0 wd. bstep R0 ws. bstep R0 we.
  destruct root as [s l| |]; try discriminate R.
  step R h. apply some_eq in R. bstep R wb. bstep R wf.
  destruct (is_done wf) eqn:DN; [|discriminate R]. injection R as <-.
  exists wp, wh, wd, ws, we, w1, s, l, h, wb. repeat (split; [first [reflexivity|assumption]|]). assumption.
Qed.

Lemma page_adds : forall l1 l2 wp wh wd ws we w1 w2 wb wf,
  adds wp wh (lead fs_flat ++ [E_open (str "html") [] false] ++ lead fs_flat) ->
  adds wh wd (lead fs_block ++ [E_open (str "head") [] false] ++ lead fs_block) ->
  adds wd ws l1 ->
  adds ws we (lead fs_block ++ [E_close (str "head")] ++ lead fs_block) ->
  adds we w1 (lead fs_flat ++ [E_open (str "body") [] false] ++ lead fs_flat) ->
  adds w1 w2 l2 ->
  adds w2 wb (lead fs_flat ++ [E_close (str "body")] ++ lead fs_flat) ->
  adds wb wf (lead fs_flat ++ [E_close (str "html")] ++ lead fs_flat) ->
  adds wp wf (page_inside l1 l2).
Proof.
  intros l1 l2 wp wh wd ws we w1 w2 wb wf A1 A2 A3 A4 A5 A6 A7 A8.
  pose proof (adds_trans _ _ _ _ _ A1 (adds_trans _ _ _ _ _ A2 (adds_trans _ _ _ _ _ A3
    (adds_trans _ _ _ _ _ A4 (adds_trans _ _ _ _ _ A5 (adds_trans _ _ _ _ _ A6
      (adds_trans _ _ _ _ _ A7 A8))))))) as A.
  unfold page_inside, block_element. change (lead fs_flat) with blank_space in A.
  change (lead fs_block) with blank_space in A. rewrite <- !app_assoc in *. exact A.
Qed.

Theorem page_written : forall width sheets s l w,
  Forall (fun t => sound_value t = true /\ is_bare t = false) sheets ->
  Forall (fits r_content_item) l -> (forall n m, In n l -> below m n -> good m) ->
  doc_to_html arrange width sheets (B_list s l) = Some (Ok w) ->
  exists e, scan Data (written w) = (Data, e) /\ looks_like e (page_events arrange sheets l).
Proof.
  intros width sheets s l w FS F G R. apply doc_to_html_ok in R.
  destruct R as (wp & wh & wd & ws & we & w1 & s' & l' & h & wb & Q & R1 & R2 & R3 & R4 & R5 & R6 & R7 & R8 & R9).
  injection Q as <- <-.
  destruct (preamble_written _ _ _ R1) as (W0 & F0 & C0 & D0).
  destruct (begin_adds _ _ _ _ R2 eq_refl) as [A1 D1]. destruct (begin_adds _ _ _ _ R3 eq_refl) as [A2 D2].
  destruct (stylesheets_turns _ _ _ FS (proj1 A2) R4) as [A3 D3].
  destruct (end_adds _ _ _ _ R5 eq_refl) as [A4 D4]. destruct (begin_adds _ _ _ _ R6 eq_refl) as [A5 D5].
  assert (Forall (fun n => forall m, below m n -> directive_turns m) l) as T
    by (apply Forall_forall; intros n _; apply all_turns).
  destruct (content_turns l (Converter w1 true [] [] []) h T F G (proj1 A5) (fun _ => eq_refl) R7) as (C6 & D6 & A6).
  cbn [hc_writer] in D6, A6.
  destruct (end_adds _ _ _ _ R8 eq_refl) as [A7 D7]. destruct (end_adds _ _ _ _ R9 eq_refl) as [A8 D8].
  assert (adds w1 (hc_writer h) (flat_map (node_events arrange) l)) as A by (apply A6; clear - D0 D1 D2 D3 D4 D5 D6 D7 D8; lia).
  destruct (page_adds _ _ _ _ _ _ _ _ _ _ _ A1 A2 A3 A4 A5 A A7 A8) as (_ & t & e & W & S & X).
  exists ([E_declaration (str "DOCTYPE html"); E_char ch_newline] ++ e). split.
  { rewrite W, scan_app, W0, S. reflexivity. }
  apply page_collapse. destruct (X true F0) as [[X1 _] _]. exact X1.
Qed.

End Convert.

(** * Parsed documents *)

Lemma sound_chars : forall t, Forall (fun c => code c = 45 \/ 48 <= code c) t -> sound_value t = true.
Proof.
  intros t F. unfold sound_value. apply forallb_forall. intros c I. rewrite Forall_forall in F.
  specialize (F c I). apply negb_true_iff. destruct (in_set c _) eqn:M; [exfalso|reflexivity].
  unfold in_set in M. apply existsb_exists in M. destruct M as (x & IX & Q). apply char_eqb_eq in Q. subst x.
  repeat (destruct IX as [<-|IX]; [vm_compute in F; intuition congruence|]). destruct IX.
Qed.

Lemma digits_chars : forall k x, 0 <= x -> Forall (fun c => 48 <= code c) (digits k x).
Proof.
  assert (forall x, 0 <= x < 10 -> 48 <= code (digit x)) as D.
  { intros x X. assert (x = 0 \/ x = 1 \/ x = 2 \/ x = 3 \/ x = 4 \/ x = 5 \/ x = 6 \/ x = 7 \/ x = 8 \/ x = 9)
      as C by lia. clear X. intuition (subst x; vm_compute; congruence). }
  induction k as [|k IH]; intros x X; [constructor|]. cbn [digits]. destruct (Z.ltb_spec x 10).
  - constructor; [apply D; lia|constructor].
  - apply Forall_app. split; [apply IH; apply Z.div_pos; lia|].
    constructor; [apply D, Z.mod_pos_bound; lia|constructor].
Qed.

Lemma number_good : forall s n k, - 2 ^ 63 <= n < 2 ^ 63 -> good_value (V_number s n k).
Proof.
  intros s n k R. unfold good_value. cbn [attribute_value value_text].
  assert (forall x, 0 <= x <= 2 ^ 63 -> to_string_uint x = std_to_string x) as U.
  { intros x X. unfold to_string_uint, to_string_fuel. replace (x <=? 2 ^ 64 - 1) with true; [reflexivity|].
    symmetry. apply Z.leb_le. lia. }
  unfold std_to_string_int64, decimal. repeat split.
  - apply sound_chars. destruct (Z.leb_spec 0 n).
    + eapply Forall_impl; [|apply digits_chars; lia]. intros c C. right. exact C.
    + constructor; [left; reflexivity|]. eapply Forall_impl; [|apply digits_chars; lia].
      intros c C. right. exact C.
  - destruct (Z.leb_spec 0 n), (Z.ltb_spec n 0); try lia; rewrite U by lia; reflexivity.
Qed.

Lemma name_good : forall s t, BmdParseSpec.is_name t -> good_value (V_identifier s t).
Proof.
  intros s t (F & c & r & -> & _). unfold good_value. cbn [attribute_value value_text]. repeat split; [|discriminate].
  apply sound_chars. eapply Forall_impl; [|exact F]. intros x X. right.
  unfold is_name_char, is_digit_char in X. lia.
Qed.

Lemma covers_bound : forall src sp t, Z.of_nat (length src) < 2 ^ 64 -> covers src sp t ->
  0 <= sp_begin sp + sp_length sp < 2 ^ 64.
Proof.
  intros src sp t L (pre & post & -> & ->). cbn [sp_begin sp_length]. rewrite !app_length in L. lia.
Qed.

Lemma placed_good : forall src n, Z.of_nat (length src) < 2 ^ 64 -> placed src n -> fair n -> good n.
Proof.
  intros src n L P F. inversion P as [sp t C|sp l t C _ _ _ _|sp ty id args b at_ bt C _ _ A _]; subst; split;
    try (eapply covers_bound; eassumption); try exact Logic.I.
  destruct F as (F1 & F2 & F3). split; [exact F1|]. split; [|split; assumption].
  eapply Forall_impl; [|exact A]. intros [k v] (_ & _ & V). cbn [snd] in *. destruct v as [s t|s n k'].
  - apply name_good, V.
  - apply number_good, V.
Qed.

Lemma below_placed : forall src n m, placed src n -> below m n -> placed src m.
Proof.
  intros src n m P B. induction B as [|sp l k I B IH|sp ty id args k B IH]; [exact P| |].
  - apply IH. inversion P as [|? ? ? _ F _ _ _|]; subst. rewrite Forall_forall in F. exact (F _ I).
  - apply IH. inversion P as [| |? ? ? ? ? ? ? _ _ _ _ Q]; subst. inversion Q; subst. assumption.
Qed.

Theorem document_written : forall arrange fuel src n width sheets w,
  (forall l, Permutation (arrange l) l) ->
  Z.of_nat (length src) < 2 ^ 64 -> bmd_parse fuel src = Some (Ok (Some n)) ->
  (forall m, below m n -> fair m) ->
  Forall (fun t => sound_value t = true /\ is_bare t = false) sheets ->
  doc_to_html arrange width sheets n = Some (Ok w) ->
  exists s l e, n = B_list s l /\ scan Data (written w) = (Data, e) /\ looks_like e (page_events arrange sheets l).
Proof.
  intros arrange fuel src n width sheets w A L P F FS R.
  destruct (parse_sound _ _ _ P) as (s & l & -> & Q & FL & _).
  destruct (page_written arrange A width sheets s l w FS FL) as (e & E1 & E2); [|exact R|].
  - intros k m I B. assert (below m (B_list s l)) as B' by (eapply below_list; eassumption).
    eapply placed_good; [exact L|exact (below_placed _ _ _ Q B')|apply F, B'].
  - exists s, l, e. auto.
Qed.
