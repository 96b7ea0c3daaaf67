(** The printed tree of a document: proofs. *)
From Coq Require Import ZArith Ascii String List Bool Lia Permutation.
From Verif Require Import Prelude Text HtmlWriter Directives BmdParse BmdParseSpec BmdSound Diagnostics DocTree DocTreeSpec.
Import ListNotations.
Open Scope string_scope.
Open Scope list_scope.
Open Scope nat_scope.

(** * Texts *)

Lemma color_painted : forall b k t, color b (esc k) ++ t ++ color b (esc "0") = painted b k t.
Proof. intros [] k t; cbn [color painted]; [reflexivity|]. rewrite app_nil_r. reflexivity. Qed.

Lemma painted_then : forall b k t u, color b (esc k) ++ t ++ color b (esc "0") ++ u = painted b k t ++ u.
Proof. intros b k t u. rewrite <- color_painted, <- !app_assoc. reflexivity. Qed.

Lemma cut_off_step : forall o n c r, n < max_node_text_length o ->
  cut_off o n (c :: r) = escaped (tree_colors o) [c] ++ cut_off o (n + width_of c) r.
Proof.
  intros o n c r L. cbn [cut_off]. destruct (Nat.leb_spec (max_node_text_length o) n); [lia|]. unfold escaped, width_of, control, char_eqb.
  cbn [flat_map]. rewrite app_nil_r.
  destruct (Ascii.eqb c ch_cr); [apply painted_then|]. destruct (Ascii.eqb c ch_tab); [apply painted_then|].
  destruct (Ascii.eqb c ch_newline); [apply painted_then|]. reflexivity.
Qed.

Lemma cut_off_shown : forall o v n, exists p q, v = p ++ q /\
  cut_off o n v = escaped (tree_colors o) p ++ (match q with [] => [] | _ => painted (tree_colors o) "0;90" (str " ...") end) /\
  (q <> [] -> max_node_text_length o <= n + width p) /\
  (forall p1 c p2, p = p1 ++ c :: p2 -> n + width p1 < max_node_text_length o).
Proof.
  intros o. induction v as [|c r IH]; intros n.
  - exists [], []. split; [reflexivity|]. split; [reflexivity|]. split; [congruence|]. intros [|? ?] c p2 E; discriminate E.
  - destruct (Nat.leb_spec (max_node_text_length o) n) as [L|L].
    + exists [], (c :: r). split; [reflexivity|]. split.
      * cbn [cut_off]. destruct (Nat.leb_spec (max_node_text_length o) n); [|lia]. cbn [escaped flat_map app]. apply color_painted.
      * split; [cbn [width]; lia|]. intros [|? ?] x p2 E; discriminate E.
    + destruct (IH (n + width_of c)) as (p & q & -> & E & Q & P). exists (c :: p), q. split; [reflexivity|]. split.
      * rewrite (cut_off_step o n c (p ++ q) L), E. change (c :: p) with ([c] ++ p). unfold escaped. rewrite flat_map_app, app_assoc. reflexivity.
      * split; [intros N; cbn [width]; specialize (Q N); lia|]. intros [|d p1] x p2 F; [cbn [width]; lia|].
        injection F as -> F. cbn [width]. specialize (P _ _ _ F). lia.
Qed.

Lemma print_shown : forall o v, shown (max_node_text_length o) (tree_colors o) v (print_cut_off o v).
Proof. intros o v. apply (cut_off_shown o v 0). Qed.

(** * Spans *)

Lemma extract_covers : forall E src sp t, covers src sp t -> (sp_begin sp < Z.of_nat (length src))%Z ->
  @extract E src sp = Ok (text_at src sp).
Proof.
  intros E src sp t (pre & post & S & ->) L. unfold extract. cbn [sp_begin sp_length] in *.
  destruct (Z.ltb_spec (Z.of_nat (length pre)) (Z.of_nat (length src))); [|lia]. cbn [assert_then].
  destruct (Z.leb_spec (Z.of_nat (length pre) + Z.of_nat (length t)) (Z.of_nat (length src))); [reflexivity|].
  rewrite S, !app_length in *. lia.
Qed.

Lemma text_at_covers : forall src sp t, covers src sp t -> text_at src sp = t.
Proof.
  intros src sp t (pre & post & -> & ->). unfold text_at. cbn [sp_begin sp_length]. rewrite !Nat2Z.id.
  rewrite skipn_app, skipn_all, Nat.sub_diag. cbn [skipn app]. rewrite firstn_app, firstn_all, Nat.sub_diag. apply app_nil_r.
Qed.

Lemma covers_end : forall src sp t, covers src sp t ->
  (sp_begin sp + sp_length sp <= Z.of_nat (length src) /\ sp_length sp = Z.of_nat (length t) /\ 0 <= sp_begin sp)%Z.
Proof. intros src sp t (pre & post & -> & ->). cbn [sp_begin sp_length]. rewrite !app_length. lia. Qed.

Lemma node_covers : forall src n, placed src n -> exists t, covers src (node_span n) t.
Proof. intros src n H. inversion H; subst; eexists; eassumption. Qed.

(** A node that does not begin at the end of the source. *)
Definition begun (src : text) (n : bmd_node) : Prop := (sp_begin (node_span n) < Z.of_nat (length src))%Z.

Lemma item_begun : forall src n r, placed src n -> fits r n -> r <> r_content_item \/ is_directive n = true -> begun src n.
Proof.
  intros src n r P F N. destruct P as [sp t C|sp l t C PL I _ _|sp ty id args b at_ bt C A B V P].
  - inversion F; subst. destruct (covers_end _ _ _ C) as (E & L & _). unfold begun. cbn [node_span].
    destruct t as [|c t]; [congruence|]. cbn [length] in L. lia.
  - exfalso. inversion F; subst. destruct N as [N|N]; [congruence|discriminate N].
  - destruct (covers_end _ _ _ C) as (E & L & _). unfold begun. cbn [node_span]. rewrite app_length in L. cbn [length str list_ascii_of_string] in L. lia.
Qed.

Lemma node_begun : forall src n r, placed src n -> fits r n -> begun src n.
Proof.
  intros src n r P F. destruct n as [sp l|sp ty id args b|sp t].
  - inversion F as [|? ? N FL|]; subst. destruct l as [|m l]; [congruence|]. inversion P as [|? ? ? C PL I|]; subst.
    apply Forall_inv in PL. apply Forall_inv in I. apply Forall_inv in FL.
    assert (M : begun src m) by (eapply item_begun; [exact PL|exact FL|left; discriminate]).
    destruct I as [I _]. unfold begun in *. cbn [node_span]. lia.
  - eapply item_begun; [exact P|exact F|right; reflexivity].
  - eapply item_begun; [exact P|exact F|]. inversion F; subst. left. discriminate.
Qed.

(** Induction over trees. *)
Section Trees.
Variable Q : bmd_node -> Prop.
Hypothesis QL : forall sp l, Forall Q l -> Q (B_list sp l).
Hypothesis QD : forall sp ty id args b, (forall m, b = Some m -> Q m) -> Q (B_directive sp ty id args b).
Hypothesis QT : forall sp t, Q (B_text sp t).
Fixpoint tree_ind (n : bmd_node) : Q n :=
  match n with
  | B_list sp l => QL sp l ((fix go l := match l return Forall Q l with [] => Forall_nil Q | m :: l' => Forall_cons m (tree_ind m) (go l') end) l)
  | B_directive sp ty id args b =>
      QD sp ty id args b
        match b as b' return forall m, b' = Some m -> Q m with
        | Some m' => fun m H => match H in _ = o return match o with Some m => Q m | None => True end with eq_refl => tree_ind m' end
        | None => fun m H => match H in _ = o return match o with Some m => Q m | None => True end with eq_refl => Logic.I end
        end
  | B_text sp t => QT sp t
  end.
End Trees.

Section Printing.
Variable E : Type.
Variable arrange : list (text * bmd_value) -> list (text * bmd_value).
Hypothesis arranged : forall l, Permutation (arrange l) l.
Variable o : tree_options.
Variable src : text.

Notation line := (line_of (indent_width o) (max_node_text_length o) (tree_colors o)).

Lemma head_line : forall n level, placed src n -> begun src n ->
  exists h, @print_head E o src level n = Ok h /\ line (E_node level (is_directive n) (label n) (text_at src (node_span n))) h.
Proof.
  intros n level P B. destruct (node_covers _ _ P) as (t & C).
  assert (X : @extract E src (span_of_node n) = Ok (text_at src (node_span n))) by (destruct n; eapply extract_covers; eassumption).
  unfold print_head. rewrite X. cbn [bind]. eexists. split; [reflexivity|].
  exists (print_cut_off o (text_at src (node_span n))). split; [apply print_shown|].
  destruct n; cbn [is_directive label]; unfold indentation; rewrite <- ?app_assoc; reflexivity.
Qed.

Definition argument_placed (sp : source_span) (a : text * bmd_value) : Prop :=
  inside (value_span (snd a)) sp /\ is_name (fst a) /\
  match snd a with
  | V_identifier s t => covers src s t /\ is_name t
  | V_number s n k => (exists t, covers src s t /\ number_reads k t n) /\ (- 2 ^ 63 <= n < 2 ^ 63)%Z
  end.

(** Values are not empty. *)
Lemma value_covers : forall sp a, argument_placed sp a -> exists t, covers src (value_span (snd a)) t /\ t <> [].
Proof.
  intros sp [name v] (_ & _ & V). cbn [snd] in *. destruct v as [s t|s n k]; cbn [value_span].
  - destruct V as (C & _ & c & r & -> & _). eexists. split; [exact C|discriminate].
  - destruct V as ((t & C & ds & L & _) & _). exists t. split; [exact C|]. intros ->.
    inversion L.
Qed.

Lemma arguments_lines : forall level sp args, Forall (argument_placed sp) args ->
  exists ls, @print_arguments E o src level args = Ok (concat ls) /\
    Forall2 line (map (fun a => E_argument level (fst a) (text_at src (value_span (snd a)))) args) ls.
Proof.
  intros level sp args F. induction F as [|a args A F (ls & P & L)].
  - exists []. split; [reflexivity|constructor].
  - destruct (value_covers _ _ A) as (t & C & N). destruct a as [name v]. cbn [fst snd] in *.
    assert (X : @extract E src (span_of_value v) = Ok (text_at src (value_span v))).
    { destruct v; eapply extract_covers; try eassumption;
        destruct (covers_end _ _ _ C) as (C1 & C2 & _); destruct t; [congruence|cbn [length] in C2; cbn [value_span] in *; lia|congruence|cbn [length] in C2; cbn [value_span] in *; lia]. }
    cbn [print_arguments]. rewrite X, P. cbn [bind]. eexists (_ :: ls). split; [|cbn [map]; constructor; [|exact L]].
    + cbn [concat]. f_equal. instantiate (1 := indentation o level ++ ansi_h_blue ++ name ++ str ": " ++ ansi_reset ++ text_at src (value_span v) ++ [ch_newline]).
      rewrite <- !app_assoc. reflexivity.
    + cbn [line_of fst snd]. reflexivity.
Qed.

(** A node of a document, or a block. *)
Definition standing (n : bmd_node) : Prop := (exists r, fits r n) \/ exists h, fits_block h (Some n).

Lemma node_lines : forall n level, placed src n -> begun src n -> standing n ->
  exists ls, @print_node E arrange o src level n = Ok (concat ls) /\ Forall2 line (walk arrange src level n) ls.
Proof.
  induction n as [sp l IH|sp ty id args b IH|sp t] using tree_ind; intros level P B St;
    destruct (head_line _ level P B) as (h & H & HL).
  - assert (F : exists r, Forall (fits r) l).
    { destruct St as [(r & F)|(x & F)]; inversion F; subst; [|eexists; eassumption]. eexists. eassumption. }
    destruct F as (r & F). inversion P as [|? ? ? _ PL _ _ _|]; subst.
    assert (G : forall l, Forall (fun n => forall level, placed src n -> begun src n -> standing n ->
        exists ls, @print_node E arrange o src level n = Ok (concat ls) /\ Forall2 line (walk arrange src level n) ls) l ->
      Forall (placed src) l -> Forall (fits r) l ->
      exists ls, (fix print_children (l : list bmd_node) : outcome E text :=
           match l with
           | [] => Ok []
           | c :: l' =>
               let* t := print_node arrange o src (level + 1) c in
               let* u := print_children l' in
               Ok (t ++ u)
           end) l = Ok (concat ls) /\ Forall2 line (flat_map (walk arrange src (S level)) l) ls).
    { clear. intros l I. induction I as [|n l In I IH]; intros P F.
      - exists []. split; [reflexivity|constructor].
      - inversion P as [|? ? Pn Pl]; subst. inversion F as [|? ? Fn Fl]; subst.
        destruct (In (level + 1) Pn (node_begun _ _ _ Pn Fn) (or_introl (ex_intro _ r Fn))) as (l1 & P1 & L1).
        destruct (IH Pl Fl) as (l2 & P2 & L2). exists (l1 ++ l2). rewrite P1. cbn [bind]. rewrite P2. cbn [bind].
        split; [rewrite concat_app; reflexivity|]. cbn [flat_map]. apply Forall2_app; [|exact L2]. rewrite Nat.add_1_r in L1. exact L1. }
    destruct (G l IH PL F) as (ls & P1 & L1). exists (h :: ls). cbn [print_node walk]. rewrite H. cbn [bind]. rewrite P1. cbn [bind].
    split; [reflexivity|]. constructor; assumption.
  - inversion P as [| |? ? ? ? ? at_ bt C _ _ V PB]; subst.
    assert (A : Forall (argument_placed sp) (arrange args)).
    { apply Forall_forall. intros a Ia. rewrite Forall_forall in V. apply V. eapply Permutation_in; [apply arranged|exact Ia]. }
    destruct (arguments_lines level sp _ A) as (la & PA & LA).
    assert (F : fits_block (holds_of ty) b).
    { destruct St as [(r & F)|(x & F)]; inversion F; subst. assumption. }
    assert (G : exists ls, match b with None => Ok (print_null o (level + 1)) | Some b => @print_node E arrange o src (level + 1) b end = Ok (concat ls) /\
      Forall2 line match b with Some m => walk arrange src (S level) m | None => [E_null (S level)] end ls).
    { rewrite Nat.add_1_r. destruct b as [m|].
      - inversion PB as [|? ? Pm In]; subst. apply (IH m eq_refl _ Pm).
        + destruct (covers_end _ _ _ C) as (C1 & _). destruct In as [I1 I2]. destruct (node_covers _ _ Pm) as (tm & Cm).
          destruct (covers_end _ _ _ Cm) as (_ & C2 & _). unfold begun. lia.
        + right. eexists. exact F.
      - exists [print_null o (S level)]. split; [cbn [concat]; rewrite app_nil_r; reflexivity|]. constructor; [reflexivity|constructor]. }
    destruct G as (ls & PG & LG). exists (h :: la ++ ls). cbn [print_node walk]. rewrite H. cbn [bind]. rewrite PA. cbn [bind].
    rewrite PG. cbn [bind concat]. rewrite concat_app. split; [reflexivity|]. constructor; [exact HL|]. apply Forall2_app; assumption.
  - exists [h]. cbn [print_node walk concat]. rewrite H. cbn [bind]. rewrite app_nil_r. split; [reflexivity|]. constructor; [exact HL|constructor].
Qed.

Lemma document_lines : forall fuel root, bmd_parse fuel src = Some (Ok root) ->
  exists ls, @print_document_tree E arrange o src root = Ok (concat ls) /\ Forall2 line (walk_document arrange src root) ls.
Proof.
  intros fuel [n|] H; cbn [print_document_tree walk_document].
  - destruct (parse_sound _ _ _ H) as (sp & l & -> & P & F & B). apply node_lines; [exact P|exact B|].
    right. exists (h_items r_content_item). constructor. exact F.
  - exists [print_null o 0]. split; [cbn [concat]; rewrite app_nil_r; reflexivity|]. constructor; [reflexivity|constructor].
Qed.

End Printing.

(** Errors are not among the results. *)
Lemma extract_no_error : forall E src sp e, @extract E src sp <> Err e.
Proof. intros E src sp e. unfold extract. destruct (_ <? _)%Z; [|discriminate]. cbn [assert_then]. destruct (_ <=? _)%Z; discriminate. Qed.

Lemma arguments_no_error : forall E o src level args e, @print_arguments E o src level args <> Err e.
Proof.
  intros E o src level args e. induction args as [|[k v] args IH]; cbn [print_arguments]; [discriminate|].
  pose proof (extract_no_error E src (span_of_value v) e) as X. destruct (extract src (span_of_value v)) as [t|x| |]; cbn [bind]; try congruence.
  destruct (print_arguments o src level args) as [u|x| |]; cbn [bind]; congruence.
Qed.

Lemma node_no_error : forall E arrange o src n level e, @print_node E arrange o src level n <> Err e.
Proof.
  intros E arrange o src.
  assert (H : forall n level e, @print_head E o src level n <> Err e).
  { intros n level e. unfold print_head. pose proof (extract_no_error E src (span_of_node n) e) as X.
    destruct (extract src (span_of_node n)); cbn [bind]; congruence. }
  induction n as [sp l IH|sp ty id args b IH|sp t] using tree_ind; intros level e; cbn [print_node].
  - specialize (H (B_list sp l) level e). destruct (print_head o src level (B_list sp l)) as [h|x| |]; cbn [bind]; try congruence. clear H.
    match goal with |- bind (?F l) _ <> _ => assert (G : F l <> Err e) end.
    { induction IH as [|n l In I IH']; [discriminate|]. specialize (In (level + 1) e).
      destruct (print_node arrange o src (level + 1) n) as [t|x| |]; cbn [bind]; try congruence.
      match goal with |- bind ?F _ <> _ => destruct F as [u|x| |] end; cbn [bind]; congruence. }
    match goal with |- bind ?F _ <> _ => destruct F as [u|x| |] end; cbn [bind]; congruence.
  - specialize (H (B_directive sp ty id args b) level e). destruct (print_head o src level _) as [h|x| |]; cbn [bind]; try congruence. clear H.
    pose proof (arguments_no_error E o src level (arrange args) e) as A. destruct (print_arguments _ _ _ _) as [a|x| |]; cbn [bind]; try congruence.
    destruct b as [m|]; [|discriminate]. specialize (IH m eq_refl (level + 1) e). destruct (print_node _ _ _ _ m) as [u|x| |]; cbn [bind]; congruence.
  - specialize (H (B_text sp t) level e). destruct (print_head o src level _) as [h|x| |]; cbn [bind]; congruence.
Qed.

Lemma document_no_error : forall E arrange o src root e, @print_document_tree E arrange o src root <> Err e.
Proof. intros E arrange o src [n|] e; [apply node_no_error|discriminate]. Qed.
