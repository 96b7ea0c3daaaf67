(** C74: the printed tree of a document. *)
From Coq Require Import ZArith Ascii String List Bool Lia Permutation.
From Verif Require Import Prelude Text Literals LiteralsSpec HtmlWriter Directives DirectivesSpec BmdParse BmdParseSpec BmdSound Diagnostics
  DocTree DocTreeSpec DocTreeProofs.
Import ListNotations.
Open Scope string_scope.
Open Scope list_scope.
Open Scope nat_scope.

(** C74. The tree of every parsed document is printed: no assertion fails, and there is a line for every node,
    argument and missing block, in the order of the source, indented by its depth. *)
Theorem C74_tree : forall E arrange o fuel src root, (forall l, Permutation (arrange l) l) ->
  bmd_parse fuel src = Some (Ok root) ->
  exists lines, @print_document_tree E arrange o src root = Ok (concat lines) /\
    Forall2 (line_of (indent_width o) (max_node_text_length o) (tree_colors o)) (walk_document arrange src root) lines.
Proof. intros E arrange o fuel src root A P. exact (document_lines E arrange A o src fuel root P). Qed.

(** What the walk tells is the source: the text of a text node, and of any node that is where its span says. *)
Theorem C74_every_node : forall arrange src n m level, below m n ->
  exists deeper, level <= deeper /\ In (E_node deeper (is_directive m) (label m) (text_at src (node_span m))) (walk arrange src level n).
Proof.
  intros arrange src n m level B. revert level. induction B as [|sp l k I B IH|sp ty id args k B IH]; intros level.
  - exists level. split; [lia|]. destruct m; left; reflexivity.
  - destruct (IH (S level)) as (d & L & J). exists d. split; [lia|]. cbn [walk]. right. apply in_flat_map. exists k. auto.
  - destruct (IH (S level)) as (d & L & J). exists d. split; [lia|]. cbn [walk]. right. apply in_app_iff. right. exact J.
Qed.
Theorem C74_text_nodes : forall fuel src n sp t, bmd_parse fuel src = Some (Ok (Some n)) -> below (B_text sp t) n ->
  text_at src (node_span (B_text sp t)) = t.
Proof.
  intros fuel src n sp t P B. destruct (parse_sound _ _ _ P) as (s & l & -> & Q & _). clear P.
  assert (X : placed src (B_text sp t)).
  { revert Q. induction B as [|s' l' m I B IH|s' ty id args m B IH]; intros Q; [exact Q| |]; apply IH; inversion Q; subst.
    - rewrite Forall_forall in *. auto.
    - match goal with H : placed_block _ _ _ |- _ => inversion H; subst; assumption end. }
  inversion X; subst. apply text_at_covers. assumption.
Qed.

(** * Lines *)

Definition plain (t : text) : Prop := ~ In ch_newline t.

Lemma plain_app : forall a b, plain a -> plain b -> plain (a ++ b).
Proof. unfold plain. intros a b A B I. apply in_app_iff in I. tauto. Qed.

Lemma plain_repeat : forall n, plain (repeat " "%char n).
Proof. intros n I. apply repeat_spec in I. discriminate I. Qed.

Lemma plain_painted : forall b k t, plain (esc k) -> plain t -> plain (painted b k t).
Proof. intros [] k t K T; [|exact T]. apply plain_app; [exact K|]. apply plain_app; [exact T|]. vm_compute. intuition discriminate. Qed.

Lemma escaped_plain : forall b t, plain (escaped b t).
Proof.
  intros b t. unfold escaped. induction t as [|c t IH]; [intros []|]. cbn [flat_map]. apply plain_app; [|exact IH].
  destruct (control c) as [x|] eqn:C.
  - apply plain_painted; [vm_compute; intuition discriminate|]. unfold control in C.
    destruct (Ascii.eqb c ch_cr); [injection C as <-; vm_compute; intuition discriminate|].
    destruct (Ascii.eqb c ch_tab); [injection C as <-; vm_compute; intuition discriminate|].
    destruct (Ascii.eqb c ch_newline); [injection C as <-; vm_compute; intuition discriminate|discriminate C].
  - intros [->|[]]. vm_compute in C. discriminate C.
Qed.

Lemma shown_plain : forall max b t out, shown max b t out -> plain out.
Proof.
  intros max b t out (p & q & _ & -> & _). apply plain_app; [apply escaped_plain|]. destruct q; [intros []|].
  apply plain_painted; vm_compute; intuition discriminate.
Qed.

(** The names and values of a walk are without line feeds. *)
Definition entry_plain (e : entry) : Prop :=
  match e with E_node _ _ name _ => plain name | E_argument _ name t => plain name /\ plain t | E_null _ => True end.

Lemma line_shape : forall indent max b e line, line_of indent max b e line -> entry_plain e ->
  exists before after, line = before ++ [ch_newline] ++ after /\ plain before /\ (after = [] \/ after = esc "0").
Proof.
  intros indent max b e line L P. destruct e as [level d name t|level name t|level]; cbn [line_of entry_plain] in *.
  - destruct L as (out & S & ->).
    exists (repeat " "%char (indent * level) ++ esc (if d then "0;92" else "0;95") ++ name ++ esc "0;90" ++ str "(" ++ esc "0" ++ out ++ esc "0;90" ++ str ")"), (esc "0").
    split; [rewrite <- !app_assoc; reflexivity|]. split; [|right; reflexivity].
    repeat apply plain_app; try exact P; try apply plain_repeat; try (eapply shown_plain; exact S); destruct d; vm_compute; intuition discriminate.
  - subst line. exists (repeat " "%char (indent * level) ++ esc "0;94" ++ name ++ str ": " ++ esc "0" ++ t), []. split; [rewrite <- !app_assoc; reflexivity|].
    split; [|left; reflexivity]. destruct P. repeat apply plain_app; try assumption; try apply plain_repeat; vm_compute; intuition discriminate.
  - subst line. exists (repeat " "%char (indent * level) ++ str "null"), []. split; [rewrite <- !app_assoc; reflexivity|].
    split; [|left; reflexivity]. apply plain_app; [apply plain_repeat|vm_compute; intuition discriminate].
Qed.

Lemma name_plain : forall t, is_name t -> plain t.
Proof.
  intros t (F & _) I. rewrite Forall_forall in F. specialize (F _ I). unfold is_name_char, is_digit_char in F. vm_compute in F.
  intuition (try discriminate; try congruence).
Qed.

Lemma literal_plain : forall k t ds, is_literal_text k t ds -> plain t.
Proof.
  assert (D : forall b ds, Forall (is_digit_of b) ds -> plain ds).
  { intros b ds F I. rewrite Forall_forall in F. specialize (F _ I). destruct F as (v & F & _). vm_compute in F. discriminate F. }
  intros k t ds L. destruct L as [ds _ F|ds _ F|ds _ F| |c ds _ C F].
  - apply plain_app; [vm_compute; intuition discriminate|eapply D, F].
  - apply plain_app; [vm_compute; intuition discriminate|eapply D, F].
  - change ("0"%char :: ds) with (["0"%char] ++ ds). apply plain_app; [vm_compute; intuition discriminate|eapply D, F].
  - vm_compute. intuition discriminate.
  - apply (D 10%Z). constructor; assumption.
Qed.

Lemma label_plain : forall n, (forall sp ty id args b, n = B_directive sp ty id args b -> id = name_of ty) -> plain (label n).
Proof.
  intros [sp l|sp ty id args b|sp t] H; cbn [label]; [vm_compute; intuition discriminate| |vm_compute; intuition discriminate].
  rewrite (H _ _ _ _ _ eq_refl). destruct ty; vm_compute; intuition discriminate.
Qed.

Lemma walk_plain : forall arrange src, (forall l, Permutation (arrange l) l) ->
  forall n level, placed src n -> standing n -> Forall entry_plain (walk arrange src level n).
Proof.
  intros arrange src A. induction n as [sp l IH|sp ty id args b IH|sp t] using tree_ind; intros level P St.
  - cbn [walk]. constructor; [apply label_plain; discriminate|]. apply Forall_forall. intros e I. apply in_flat_map in I as (m & Im & I).
    assert (F : exists r, Forall (fits r) l) by (destruct St as [(r & F)|(x & F)]; inversion F; subst; eexists; eassumption).
    destruct F as (r & F). rewrite Forall_forall in F, IH. inversion P as [|? ? ? _ PL _ _ _|]; subst. rewrite Forall_forall in PL.
    pose proof (IH m Im (S level) (PL m Im) (or_introl (ex_intro _ r (F m Im)))) as G. rewrite Forall_forall in G. apply G, I.
  - assert (F : fits_block (holds_of ty) b /\ id = name_of ty) by (destruct St as [(r & F)|(x & F)]; inversion F; subst; auto).
    destruct F as (F & Id). inversion P as [| |? ? ? ? ? at_ bt C _ _ V PB]; subst. cbn [walk]. constructor.
    { apply label_plain. intros. congruence. }
    apply Forall_app. split.
    + apply Forall_forall. intros e I. apply in_map_iff in I as ([name v] & <- & I). apply (Permutation_in _ (A args)) in I.
      rewrite Forall_forall in V. destruct (V _ I) as (_ & N & Vv). cbn [fst snd] in *. split; [apply name_plain, N|].
      destruct v as [s t|s z k]; cbn [value_span].
      * destruct Vv as (Cv & Nv). rewrite (text_at_covers _ _ _ Cv). apply name_plain, Nv.
      * destruct Vv as ((t & Cv & ds & L & _) & _). rewrite (text_at_covers _ _ _ Cv). eapply literal_plain, L.
    + destruct b as [m|]; [|repeat constructor]. inversion PB; subst. apply IH; [reflexivity|assumption|]. right. eexists. exact F.
  - cbn [walk]. constructor; [|constructor]. apply label_plain. discriminate.
Qed.

(** C74. Each of the lines is one line: it has one line feed, and only the color is reset behind it. *)
Theorem C74_lines : forall arrange o fuel src root, (forall l, Permutation (arrange l) l) ->
  bmd_parse fuel src = Some (Ok root) ->
  forall e line, In e (walk_document arrange src root) ->
    line_of (indent_width o) (max_node_text_length o) (tree_colors o) e line ->
    exists before after, line = before ++ [ch_newline] ++ after /\ ~ In ch_newline before /\ (after = [] \/ after = esc "0").
Proof.
  intros arrange o fuel src root A P e line I L. eapply line_shape; [exact L|]. destruct root as [n|]; cbn [walk_document] in I.
  - destruct (parse_sound _ _ _ P) as (sp & l & -> & Q & F & _).
    pose proof (walk_plain arrange src A (B_list sp l) 0 Q (or_intror (ex_intro _ (h_items r_content_item) (fits_items r_content_item sp l F)))) as G.
    rewrite Forall_forall in G. apply G, I.
  - destruct I as [<-|[]]. exact Logic.I.
Qed.

(** * Long texts *)

Lemma width_app : forall a b, width (a ++ b) = width a + width b.
Proof. induction a as [|c a IH]; intros b; cbn [app width]; [reflexivity|]. rewrite IH. lia. Qed.

Lemma width_of_bounds : forall c, 1 <= width_of c <= 2.
Proof. intros c. unfold width_of. destruct (control c); lia. Qed.

(** C74. A text that is not too wide is shown as a whole; of others, no more than one column too much. *)
Theorem C74_whole : forall o t, width t <= max_node_text_length o -> print_cut_off o t = escaped (tree_colors o) t.
Proof.
  intros o t L. destruct (print_shown o t) as (p & q & -> & -> & Q & _). destruct q as [|c q]; [rewrite !app_nil_r; reflexivity|].
  rewrite width_app in L. cbn [width] in L. pose proof (width_of_bounds c). specialize (Q ltac:(discriminate)). lia.
Qed.
Theorem C74_cut : forall o t, max_node_text_length o + 1 < width t ->
  exists p q, t = p ++ q /\ q <> [] /\ width p <= max_node_text_length o + 1 /\
    print_cut_off o t = escaped (tree_colors o) p ++ painted (tree_colors o) "0;90" (str " ...").
Proof.
  intros o t L. destruct (print_shown o t) as (p & q & -> & -> & Q & M).
  assert (W : width p <= max_node_text_length o + 1).
  { destruct p as [|c p] using rev_ind; [cbn; lia|]. specialize (M p c [] eq_refl). rewrite width_app. cbn [width]. pose proof (width_of_bounds c). lia. }
  exists p, q. split; [reflexivity|]. destruct q as [|c q]; [rewrite app_nil_r in L; lia|]. split; [discriminate|]. split; [exact W|reflexivity].
Qed.

(** C74. With colors, texts that are shown as a whole can be told apart, if they have no escape sequences of their
    own. *)
Theorem C74_distinct : forall o t u, tree_colors o = true -> ~ In "027"%char t -> ~ In "027"%char u ->
  width t <= max_node_text_length o -> width u <= max_node_text_length o -> print_cut_off o t = print_cut_off o u -> t = u.
Proof.
  intros o t u C T U Lt Lu H. rewrite (C74_whole o t Lt), (C74_whole o u Lu), C in H. clear Lt Lu C o.
  assert (X : forall c r, escaped true (c :: r) = (match control c with Some x => esc "0;91" ++ ["\"%char; x] ++ esc "0" | None => [c] end) ++ escaped true r)
    by reflexivity.
  assert (K : forall c d x, control c = Some x -> control d = Some x -> c = d).
  { intros c d x. unfold control. 
    destruct (Ascii.eqb_spec c ch_cr), (Ascii.eqb_spec d ch_cr), (Ascii.eqb_spec c ch_tab), (Ascii.eqb_spec d ch_tab),
      (Ascii.eqb_spec c ch_newline), (Ascii.eqb_spec d ch_newline); intros; subst; congruence. }
  revert u U H. induction t as [|c t IH]; intros [|d u] U H; [reflexivity| | |].
  - rewrite X in H. destruct (control d); discriminate H.
  - rewrite X in H. destruct (control c); discriminate H.
  - rewrite !X in H. assert (N : c <> "027"%char /\ d <> "027"%char) by (split; intros ->; [apply T|apply U]; left; reflexivity).
    assert (T' : ~ In "027"%char t) by (intros I; apply T; right; exact I).
    assert (U' : ~ In "027"%char u) by (intros I; apply U; right; exact I).
    destruct (control c) as [x|] eqn:Cc, (control d) as [y|] eqn:Cd.
    + cbn [esc str list_ascii_of_string app] in H. injection H as -> H. f_equal; [eapply K; eassumption|]. apply IH; assumption.
    + exfalso. cbn [esc app] in H. injection H as H _. destruct N. congruence.
    + exfalso. cbn [esc app] in H. injection H as H _. destruct N. congruence.
    + injection H as -> H. f_equal. apply IH; assumption.
Qed.

(** C74. Without colors they cannot, and the colors are not switched off in most places: the option is checked in
    [color], which is only used for long and for special text (src/common/diagnostics.cpp:908-922). *)
Theorem C74_distinct_refuted : exists o t u, tree_colors o = false /\ t <> u /\ width t <= max_node_text_length o /\
  width u <= max_node_text_length o /\ print_cut_off o t = print_cut_off o u.
Proof. exists (Tree_Options 2 30 false), [ch_newline], (str "\n"). repeat split; try discriminate; vm_compute; repeat constructor. Qed.

Theorem C74_colors_refuted : exists o src root t, bmd_parse (parse_fuel src) src = Some (Ok root) /\ tree_colors o = false /\
  print_document_tree (E := Empty_set) (fun l => l) o src root = Ok t /\ In "027"%char t.
Proof.
  exists (Tree_Options 2 30 false), (str "a"). eexists. eexists. split; [vm_compute; reflexivity|]. split; [reflexivity|].
  split; [vm_compute; reflexivity|]. vm_compute. tauto.
Qed.

(** The tree of a small document, without its colors. *)
Fixpoint bleach (skipping : bool) (t : text) : text :=
  match t with
  | [] => []
  | c :: r => if skipping then bleach (negb (Ascii.eqb c "m")) r else if Ascii.eqb c "027" then bleach true r else c :: bleach false r
  end.
Example C74_document : exists root t, 
  bmd_parse 100 (str "\h1{Hi}" ++ [ch_newline; ch_newline] ++ str "See \instruction[x = a, n = 7]{add}, and so on and on.") = Some (Ok root) /\
  print_document_tree (E := Empty_set) (fun l => l) dump_options
    (str "\h1{Hi}" ++ [ch_newline; ch_newline] ++ str "See \instruction[x = a, n = 7]{add}, and so on and on.") root = Ok t /\
  bleach false t = concat (map (fun l => str l ++ [ch_newline])
    ["List(\h1{Hi}\n\nSee \instruction[x  ...)";
     "  \h1(\h1{Hi})";
     "    List(Hi)";
     "      Text(Hi)";
     "  List(\h1{Hi}\n\nSee \instruction[x  ...)";
     "    Text(See)";
     "    \instruction(\instruction[x = a, n = 7]{add ...)";
     "    x: a";
     "    n: 7";
     "      Text(add)";
     "    Text(, and so on and on.)"]).
Proof. eexists. eexists. split; [vm_compute; reflexivity|]. split; [vm_compute; reflexivity|]. vm_compute. reflexivity. Qed.

(** * Assumptions of the theorems above *)
Print Assumptions C74_tree.
Print Assumptions C74_every_node.
Print Assumptions C74_text_nodes.
Print Assumptions C74_lines.
Print Assumptions C74_whole.
Print Assumptions C74_cut.
Print Assumptions C74_distinct.
Print Assumptions C74_distinct_refuted.
Print Assumptions C74_colors_refuted.
