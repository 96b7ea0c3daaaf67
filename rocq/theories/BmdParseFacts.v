(** How the parts of the BMD parser move through the source. *)
From Coq Require Import ZArith Ascii String List Bool Lia.
From Verif Require Import Prelude Text Literals LiteralsProofs HtmlWriter HtmlWriterProofs Directives
  DirectivesSpec BmdParse BmdParseSpec.
Import ListNotations.
Open Scope string_scope.
Open Scope list_scope.
Open Scope Z_scope.
Local Arguments Z.pow : simpl never.
Local Arguments char_eqb : simpl never.

(** * Moving over a text *)

Definition move (t : text) (p : position) : position := fold_left (fun p c => advance c p) t p.

Definition moves (st : pstate) (t : text) (st' : pstate) : Prop :=
  ps_rest st = t ++ ps_rest st' /\ ps_pos st' = move t (ps_pos st).

Lemma move_app : forall a b p, move (a ++ b) p = move b (move a p).
Proof. intros. unfold move. apply fold_left_app. Qed.

Lemma moves_refl : forall st, moves st [] st.
Proof. split; reflexivity. Qed.

Lemma moves_trans : forall a b c t u, moves a t b -> moves b u c -> moves a (t ++ u) c.
Proof.
  intros a b c t u [H1 H2] [H3 H4]. split.
  - rewrite H1, H3, app_assoc. reflexivity.
  - rewrite H4, H2, move_app. reflexivity.
Qed.

Lemma advance_begin : forall c p, po_begin (advance c p) = po_begin p + 1.
Proof.
  intros c p. unfold advance. destruct (char_eqb c ch_tab); [reflexivity|].
  destruct (char_eqb c ch_cr); [reflexivity|]. destruct (char_eqb c ch_newline); reflexivity.
Qed.

Lemma move_begin : forall t p, po_begin (move t p) = po_begin p + Z.of_nat (length t).
Proof.
  induction t as [|c t IH]; intros p; cbn [move fold_left length]; [cbn; lia|].
  change (fold_left _ t (advance c p)) with (move t (advance c p)). rewrite IH, advance_begin. lia.
Qed.

Lemma advance_locate : forall c pre, advance c (locate pre) = locate (pre ++ [c]).
Proof.
  intros c pre. unfold locate. rewrite app_length. cbn [length].
  assert (HN : newlines (pre ++ [c]) = newlines pre + (if Ascii.eqb c ch_newline then 1 else 0)).
  { induction pre as [|d pre IH]; cbn [newlines app]; [lia|]. rewrite IH. lia. }
  assert (HC : forall col, column_after col (pre ++ [c]) =
            if Ascii.eqb c ch_newline || Ascii.eqb c ch_cr then 0
            else if Ascii.eqb c ch_tab then column_after col pre + 4 else column_after col pre + 1).
  { clear HN. induction pre as [|d pre IH]; intros col; cbn [column_after app]; [reflexivity|]. apply IH. }
  rewrite HN, HC. unfold advance, char_eqb. cbn [po_line po_column po_begin].
  destruct (Ascii.eqb_spec c ch_tab) as [->|N1].
  - cbn [Ascii.eqb Bool.eqb ch_tab ch_newline ch_cr orb]. f_equal; cbn; lia.
  - destruct (Ascii.eqb_spec c ch_cr) as [->|N2].
    + cbn [Ascii.eqb Bool.eqb ch_tab ch_newline ch_cr orb]. f_equal; cbn; lia.
    + destruct (Ascii.eqb_spec c ch_newline) as [->|N3]; cbn [orb]; f_equal; lia.
Qed.

Lemma move_locate : forall t pre, move t (locate pre) = locate (pre ++ t).
Proof.
  induction t as [|c t IH]; intros pre.
  - rewrite app_nil_r. reflexivity.
  - change (move (c :: t) (locate pre)) with (move t (advance c (locate pre))).
    rewrite advance_locate, IH, <- app_assoc. reflexivity.
Qed.

Lemma column_after_nonneg : forall t col, 0 <= col -> 0 <= column_after col t.
Proof.
  induction t as [|c t IH]; intros col H; [exact H|]. cbn [column_after]. apply IH.
  destruct (Ascii.eqb c ch_newline || Ascii.eqb c ch_cr); [lia|]. destruct (Ascii.eqb c ch_tab); lia.
Qed.

(** Characters other than line breaks and tabulators. *)
Definition plain_char (c : ascii) : bool :=
  negb (char_eqb c ch_tab) && negb (char_eqb c ch_cr) && negb (char_eqb c ch_newline).

Lemma advance_plain : forall c p, plain_char c = true -> advance c p = to_right 1 p.
Proof.
  intros c p H. unfold plain_char in H. rewrite !andb_true_iff, !negb_true_iff in H.
  destruct H as [[H1 H2] H3]. unfold advance. rewrite H1, H2, H3. reflexivity.
Qed.

Lemma to_right_add : forall a b p, to_right b (to_right a p) = to_right (a + b) p.
Proof. intros a b p. unfold to_right. cbn [po_line po_column po_begin]. f_equal; lia. Qed.

Lemma move_plain : forall t p, forallb plain_char t = true -> move t p = to_right (length t) p.
Proof.
  induction t as [|c t IH]; intros p H.
  - unfold to_right. cbn. rewrite !Z.add_0_r. destruct p; reflexivity.
  - cbn [forallb] in H. apply andb_true_iff in H. destruct H as [H1 H2].
    change (move (c :: t) p) with (move t (advance c p)).
    rewrite IH by exact H2. rewrite advance_plain by exact H1. rewrite to_right_add. reflexivity.
Qed.

Lemma skip_moves : forall n st,
  (n <= length (ps_rest st))%nat -> forallb plain_char (firstn n (ps_rest st)) = true ->
  moves st (firstn n (ps_rest st)) (skip n st).
Proof.
  intros n st L H. split; cbn [skip ps_rest ps_pos].
  - symmetry. apply firstn_skipn.
  - rewrite move_plain by exact H. rewrite firstn_length_le by exact L. reflexivity.
Qed.

(** * White space and comments *)

(** The rest begins with white space or a comment. *)
Definition at_comment (s : text) : bool := starts_with s (str "//") || starts_with s (str "/*").

Definition at_blank (s : text) : bool :=
  match s with [] => false | c :: _ => is_space c || at_comment s end.

Lemma blank_loop_moves : forall n s, (length s <= n)%nat -> forall m k b p b' st',
  blank_loop m k b p s = Ok (b', st') ->
  (exists t, s = t ++ ps_rest st' /\ ps_pos st' = move t p) /\ at_blank (ps_rest st') = false.
Proof.
  induction n as [|n IH]; intros s L m k b p b' st' H.
  { destruct s; [|cbn in L; lia]. destruct m; try discriminate H. injection H as <- <-.
    split; [exists []|]; auto. }
  assert (step : forall x r t0 m k b p0, s = t0 ++ r -> p0 = move t0 p -> t0 = x :: tl t0 ->
            blank_loop m k b p0 r = Ok (b', st') ->
            (exists t, s = t ++ ps_rest st' /\ ps_pos st' = move t p) /\ at_blank (ps_rest st') = false).
  { intros x r t0 m0 k0 b0 p0 E1 E2 E3 E. apply IH in E.
    - destruct E as [[t [E4 E5]] E6]. split; [|exact E6].
      exists (t0 ++ t). rewrite E1, E4, E5, E2, app_assoc, move_app. auto.
    - rewrite E1, E3 in L. cbn in L. rewrite app_length in L. lia. }
  destruct s as [|c r].
  { destruct m; try discriminate H. injection H as <- <-. split; [exists []|]; auto. }
  destruct m; cbn [blank_loop] in H.
  - destruct r as [|d r'].
    + destruct (is_space c) eqn:S; cbn [negb] in H.
      * destruct (char_eqb c ch_newline).
        -- eapply (step c [] [c]); [reflexivity|reflexivity|reflexivity|exact H].
        -- eapply (step c [] [c]); [reflexivity|reflexivity|reflexivity|exact H].
      * injection H as <- <-. split; [exists []; auto|]. cbn. rewrite S. unfold at_comment. cbn [starts_with str list_ascii_of_string]. rewrite !andb_false_r. reflexivity.
    + destruct (char_eqb c "/" && char_eqb d "/") eqn:C1.
      { destruct r' as [|e r'']; [discriminate H|].
        eapply (step c (e :: r'') [c; d]); [reflexivity|reflexivity|reflexivity|exact H]. }
      destruct (char_eqb c "/" && char_eqb d "*") eqn:C2.
      { destruct r' as [|e r'']; [discriminate H|].
        eapply (step c (e :: r'') [c; d]); [reflexivity|reflexivity|reflexivity|exact H]. }
      destruct (is_space c) eqn:S; cbn [negb] in H.
      * destruct (char_eqb c ch_newline).
        -- eapply (step c (d :: r') [c]); [reflexivity|reflexivity|reflexivity|exact H].
        -- eapply (step c (d :: r') [c]); [reflexivity|reflexivity|reflexivity|exact H].
      * injection H as <- <-. split; [exists []; auto|].
        unfold at_blank, at_comment. cbn [ps_rest]. rewrite S. cbn [starts_with str list_ascii_of_string orb].
        assert (E : forall x y : ascii, char_eqb x y = char_eqb y x) by (intros; apply Ascii.eqb_sym).
        rewrite (E "/"%char c), (E "/"%char d), (E "*"%char d), !andb_true_r, C1, C2. reflexivity.
  - destruct (char_eqb c ch_newline).
    + eapply (step c r [c]); [reflexivity|reflexivity|reflexivity|exact H].
    + eapply (step c r [c]); [reflexivity|reflexivity|reflexivity|exact H].
  - destruct r as [|d r'].
    + eapply (step c [] [c]); [reflexivity|reflexivity|reflexivity|exact H].
    + destruct (char_eqb c "*" && char_eqb d "/").
      * eapply (step c r' [c; d]); [reflexivity|reflexivity|reflexivity|exact H].
      * eapply (step c (d :: r') [c]); [reflexivity|reflexivity|reflexivity|exact H].
Qed.

Lemma match_blank_moves : forall rule st b st',
  match_blank rule st = Ok (b, st') ->
  exists t, moves st t st' /\ bl_length b = Z.of_nat (length t) /\ at_blank (ps_rest st') = false.
Proof.
  intros rule st b st' H. unfold match_blank in H.
  destruct (blank_loop cm_none 0 false (ps_pos st) (ps_rest st)) as [[b1 st1]| | |] eqn:E;
    try discriminate H.
  cbn [with_rule bind] in H. injection H as <- <-.
  apply (blank_loop_moves _ _ (le_n _)) in E. destruct E as [[t [E1 E2]] E3].
  exists t. split; [split; assumption|]. split; [|exact E3].
  cbn [bl_length]. rewrite E2, move_begin. lia.
Qed.

Lemma match_word_blank_moves : forall st b st',
  match_word_blank st = Ok (b, st') ->
  exists t, moves st t st' /\ bl_length b = Z.of_nat (length t) /\
    (bl_break b = false -> at_blank (ps_rest st') = false).
Proof.
  intros st b st' H. unfold match_word_blank in H.
  destruct (match_blank br_blank st) as [[b1 st1]| | |] eqn:E; try discriminate H. cbn [bind] in H.
  apply match_blank_moves in E. destruct E as [t [E1 [E2 E3]]].
  destruct (bl_break b1) eqn:B; injection H as <- <-.
  - exists []. split; [apply moves_refl|]. split; [reflexivity|]. discriminate.
  - exists t. auto.
Qed.

(** The loop only aborts at a comment that begins with the last two characters. *)
Definition ends_in_opener (s : text) : Prop := exists pre o, opener o /\ s = pre ++ o.

Lemma ends_in_opener_suffix : forall t s, ends_in_opener s -> ends_in_opener (t ++ s).
Proof. intros t s [pre [o [H ->]]]. exists (t ++ pre), o. rewrite app_assoc. auto. Qed.

Lemma blank_loop_defined : forall n s, (length s <= n)%nat -> forall m k b p,
  ~ ends_in_opener s -> defined (blank_loop m k b p s).
Proof.
  induction n as [|n IH]; intros s L m k b p H.
  { destruct s; [|cbn in L; lia]. destruct m; exact I. }
  assert (suf : forall t r, s = t ++ r -> ~ ends_in_opener r).
  { intros t r -> E. apply H. apply ends_in_opener_suffix. exact E. }
  destruct s as [|c r]; [destruct m; exact I|].
  assert (Hr : ~ ends_in_opener r) by (apply (suf [c]); reflexivity).
  cbn [length] in L.
  assert (Hn : forall m k b p, defined (blank_loop m k b p r)) by (intros; apply IH; [lia|exact Hr]).
  destruct m; cbn [blank_loop].
  - destruct r as [|d r'].
    + destruct (negb (is_space c)); [exact I|]. destruct (char_eqb c ch_newline); apply Hn.
    + assert (Hr' : ~ ends_in_opener r') by (apply (suf [c; d]); reflexivity). cbn [length] in L.
      destruct (char_eqb c "/" && char_eqb d "/") eqn:C1.
      { destruct r' as [|e r'']; [|apply IH; [lia|exact Hr']].
        apply andb_true_iff in C1. destruct C1 as [C1 C2].
        apply Ascii.eqb_eq in C1. apply Ascii.eqb_eq in C2. subst c d.
        destruct H. exists [], (str "//"). split; [left; reflexivity|reflexivity]. }
      destruct (char_eqb c "/" && char_eqb d "*") eqn:C2.
      { destruct r' as [|e r'']; [|apply IH; [lia|exact Hr']].
        apply andb_true_iff in C2. destruct C2 as [C2 C3].
        apply Ascii.eqb_eq in C2. apply Ascii.eqb_eq in C3. subst c d.
        destruct H. exists [], (str "/*"). split; [right; reflexivity|reflexivity]. }
      destruct (negb (is_space c)); [exact I|]. destruct (char_eqb c ch_newline); apply Hn.
  - destruct (char_eqb c ch_newline); apply Hn.
  - destruct r as [|d r']; [apply Hn|].
    destruct (char_eqb c "*" && char_eqb d "/"); [|apply Hn].
    apply IH; [cbn in L; lia|]. apply (suf [c; d]). reflexivity.
Qed.

Lemma match_blank_defined : forall rule st,
  ~ ends_in_opener (ps_rest st) -> defined (match_blank rule st).
Proof.
  intros rule st H. unfold match_blank.
  pose proof (blank_loop_defined _ _ (le_n _) cm_none 0 false (ps_pos st) H) as D.
  destruct (blank_loop cm_none 0 false (ps_pos st) (ps_rest st)) as [[b1 st1]| | |]; try exact D; exact I.
Qed.

Lemma match_word_blank_defined : forall st,
  ~ ends_in_opener (ps_rest st) -> defined (match_word_blank st).
Proof.
  intros st H. unfold match_word_blank. pose proof (match_blank_defined br_blank st H) as D.
  destruct (match_blank br_blank st) as [[b1 st1]| | |]; try exact D. cbn [bind].
  destruct (bl_break b1); exact I.
Qed.

(** * Text *)

(** The parser is at a possible directive (a backslash that does not escape anything). *)
Definition at_directive (s : text) : bool :=
  match s with
  | [] => false
  | c :: r => char_eqb c ch_backslash && match r with [] => true | d :: _ => negb (is_escapeable d) end
  end.

(** Where text ends. *)
Definition text_stops (s : text) : Prop :=
  match s with [] => True | c :: _ => is_space c = true \/ at_comment s = true \/ at_directive s = true end.

Definition all_space (t : text) : bool := forallb is_space t.

Lemma text_loop_moves : forall n s, (length s <= n)%nat -> forall final b p w st',
  text_loop final b p s = st' ->
  ps_rest final = w ++ s -> all_space w = true -> p = move w (ps_pos final) ->
  (st' = final \/
   exists t c, ps_rest final = (t ++ [c]) ++ ps_rest st' /\ ps_pos st' = move (t ++ [c]) (ps_pos final)
             /\ is_space c = false) /\
  text_stops (ps_rest st').
Proof.
  induction n as [|n IH]; intros s L final b p w st' H Hw Sw Hp.
  { destruct s; [|cbn in L; lia]. cbn in H. subst st'. split; [left; reflexivity|].
    rewrite Hw, app_nil_r. destruct w as [|x w]; [exact I|]. cbn in Sw. apply andb_true_iff in Sw.
    left. apply Sw. }
  assert (stop : forall r, s = r -> (text_stops r) -> st' = final ->
     (st' = final \/
      exists t c, ps_rest final = (t ++ [c]) ++ ps_rest st' /\ ps_pos st' = move (t ++ [c]) (ps_pos final)
             /\ is_space c = false) /\ text_stops (ps_rest st')).
  { intros r <- Hs ->. split; [left; reflexivity|]. rewrite Hw. destruct w as [|x w]; [exact Hs|].
    cbn in Sw. apply andb_true_iff in Sw. left. apply Sw. }
  assert (go : forall t c r b', s = t ++ c :: r -> is_space c = false ->
     text_loop (PState (advance c (move t p)) r) b' (advance c (move t p)) r = st' ->
     (st' = final \/
      exists t c, ps_rest final = (t ++ [c]) ++ ps_rest st' /\ ps_pos st' = move (t ++ [c]) (ps_pos final)
             /\ is_space c = false) /\ text_stops (ps_rest st')).
  { intros t c r b' E Hc H'. pose proof L as L'. rewrite E, app_length in L'. cbn in L'.
    eapply IH in H'; [|lia|cbn [ps_rest]; rewrite app_nil_l; reflexivity|reflexivity|reflexivity].
    destruct H' as [H1 H2]. split; [|exact H2]. right.
    assert (EE : ps_rest final = ((w ++ t) ++ [c]) ++ r).
    { rewrite Hw, E. rewrite <- !app_assoc. reflexivity. }
    assert (EP : advance c (move t p) = move ((w ++ t) ++ [c]) (ps_pos final)).
    { rewrite !move_app, Hp. reflexivity. }
    destruct H1 as [->|[t' [c' [H1 [H3 H4]]]]].
    - exists (w ++ t), c. cbn [ps_rest ps_pos]. auto.
    - exists (((w ++ t) ++ [c]) ++ t'), c'. cbn [ps_rest ps_pos] in H1, H3.
      rewrite EE, H1. split; [rewrite <- !app_assoc; reflexivity|].
      rewrite H3, EP. split; [rewrite !move_app; reflexivity|exact H4]. }
  destruct s as [|c r]; [apply (stop []); [reflexivity|exact I|symmetry; exact H]|].
  cbn [text_loop] in H.
  destruct (is_space c) eqn:S.
  - assert (next : forall b', text_loop final b' (advance c p) r = st' ->
      (st' = final \/
      exists t c, ps_rest final = (t ++ [c]) ++ ps_rest st' /\ ps_pos st' = move (t ++ [c]) (ps_pos final)
             /\ is_space c = false) /\ text_stops (ps_rest st')).
    { intros b' H'. cbn in L. eapply (IH r) with (w := w ++ [c]) in H'; [exact H'|lia| | |].
      - rewrite Hw, <- app_assoc. reflexivity.
      - unfold all_space in *. rewrite forallb_app, Sw. cbn. rewrite S. reflexivity.
      - rewrite move_app, <- Hp. reflexivity. }
    destruct (char_eqb c ch_newline); [|apply next with b; exact H].
    destruct b; [|apply next with true; exact H].
    apply (stop (c :: r)); [reflexivity|left; exact S|symmetry; exact H].
  - destruct (char_eqb c "/") eqn:C1.
    + apply Ascii.eqb_eq in C1. subst c. destruct r as [|d r'].
      * apply (go [] "/"%char [] false); auto.
      * destruct (char_eqb d "/" || char_eqb d "*") eqn:C2.
        -- apply (stop ("/"%char :: d :: r')); [reflexivity| |symmetry; exact H].
           right. left. apply orb_true_iff in C2.
           destruct C2 as [C2|C2]; apply Ascii.eqb_eq in C2; subst d; reflexivity.
        -- apply (go [] "/"%char (d :: r') false); auto.
    + destruct (char_eqb c ch_backslash) eqn:C2.
      * apply Ascii.eqb_eq in C2. subst c. destruct r as [|d r'].
        -- apply (stop [ch_backslash]); [reflexivity| |symmetry; exact H]. right. right. reflexivity.
        -- destruct (is_escapeable d) eqn:C3.
           ++ apply (go [ch_backslash] d r' false); auto.
              unfold is_escapeable in C3. rewrite !orb_true_iff in C3.
              destruct C3 as [[C3|C3]|C3]; apply Ascii.eqb_eq in C3; subst d; reflexivity.
           ++ apply (stop (ch_backslash :: d :: r')); [reflexivity| |symmetry; exact H].
              right. right. cbn. rewrite C3. reflexivity.
      * apply (go [] c r false); auto.
Qed.

(** The text matched is what was moved over; it does not begin or end with white space unless the parser
    was at white space. *)
Lemma match_text_spec : forall st,
  peek_if is_space st = false ->
  exists t st', moves st t st' /\ text_stops (ps_rest st') /\
    ((t = [] /\ st' = st /\ match_text st = Ok (None, st')) \/
     (exists t' c, t = t' ++ [c] /\ is_space c = false) /\ 
     match_text st = Ok (Some (B_text (span_of (ps_pos st) (Z.of_nat (length t))) t), st')).
Proof.
  intros st Hsp. unfold match_text, match_text_impl.
  set (st' := text_loop st false (ps_pos st) (ps_rest st)).
  destruct (text_loop_moves _ _ (le_n _) st false (ps_pos st) [] st' eq_refl eq_refl eq_refl eq_refl)
    as [[E|[t' [c [E1 [E2 E3]]]]] E4].
  - exists [], st'. rewrite E in *. split; [apply moves_refl|]. split; [exact E4|]. left.
    split; [reflexivity|]. split; [reflexivity|]. rewrite Z.sub_diag. reflexivity.
  - exists (t' ++ [c]), st'. split; [split; assumption|]. split; [exact E4|]. right.
    split; [exists t', c; auto|].
    replace (firstn _ (ps_rest st)) with (t' ++ [c]).
    2:{ rewrite E2, move_begin, E1.
        replace (Z.to_nat _) with (length (t' ++ [c])) by lia.
        rewrite firstn_app, Nat.sub_diag, firstn_all, firstn_O, app_nil_r. reflexivity. }
    destruct (t' ++ [c]) as [|x t] eqn:Et; [destruct t'; discriminate Et|].
    assert (Hx : is_space x = false).
    { unfold peek_if in Hsp. rewrite E1 in Hsp. exact Hsp. }
    rewrite Hx. replace (last (x :: t) x) with c by (rewrite <- Et, last_last; reflexivity).
    rewrite E3. reflexivity.
Qed.
