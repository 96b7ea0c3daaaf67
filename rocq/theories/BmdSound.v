(** Every tree that the BMD parser makes is placed and fits. *)
From Coq Require Import ZArith Ascii String List Bool Lia.
From Verif Require Import Prelude Text Literals LiteralsSpec LiteralsProofs HtmlWriter HtmlWriterProofs
  Directives DirectivesSpec DirectivesProofs DirectivesProps BmdParse BmdParseSpec BmdParseFacts
  BmdRawFacts BmdParseProofs.
Import ListNotations.
Open Scope string_scope.
Open Scope list_scope.
Open Scope Z_scope.
Local Arguments Z.pow : simpl never.
Local Arguments char_eqb : simpl never.

(** * Lists of nodes *)

Definition span_end (s : source_span) : Z := sp_begin s + sp_length s.

Lemma in_order_snoc : forall l b,
  in_order l -> Forall (fun a => span_end a <= sp_begin b) l -> in_order (l ++ [b]).
Proof.
  induction l as [|a l IH]; intros b O F; [exact I|]. inversion F as [|? ? Ha Fl]; subst.
  destruct l as [|c l].
  - split; [exact Ha|exact I].
  - destruct O as [O1 O2]. split; [exact O1|]. apply (IH b O2 Fl).
Qed.

Lemma items_app : forall a b, items (a ++ b) = items a ++ items b.
Proof. intros a b. unfold items. apply flat_map_app. Qed.

Lemma items_fits : forall r l, r <> r_content_item -> Forall (fits r) l -> items l = l.
Proof.
  intros r l N F. induction F as [|n l Hn Fl IH]; [reflexivity|].
  change (items (n :: l)) with (match n with B_list _ l => l | _ => [n] end ++ items l). rewrite IH.
  destruct n; try reflexivity. inversion Hn; subst. destruct N. reflexivity.
Qed.

Lemma paragraphs_fits : forall r l, r <> r_content_item -> Forall (fits r) l -> paragraphs l = [].
Proof.
  intros r l N F. induction F as [|n l Hn Fl IH]; [reflexivity|].
  unfold paragraphs in *. cbn [filter]. rewrite IH.
  destruct n; try reflexivity. inversion Hn; subst. destruct N. reflexivity.
Qed.

Lemma paragraphs_app : forall a b, paragraphs (a ++ b) = paragraphs a ++ paragraphs b.
Proof. intros a b. unfold paragraphs. apply filter_app. Qed.

(** What is known about a list of nodes between [a] and [b]. *)
Definition list_inv (src : text) (r : role) (a b : Z) (l : list bmd_node) : Prop :=
  Forall (placed src) l /\ Forall (fits r) l /\ Forall (fun n => between a b (node_span n)) l.

Lemma list_inv_weaken : forall src r a b a' b' l,
  list_inv src r a b l -> a' <= a -> b <= b' -> list_inv src r a' b' l.
Proof.
  intros src r a b a' b' l (P & F & B) La Lb. split; [exact P|]. split; [exact F|].
  eapply Forall_impl; [|exact B]. intros n H. exact (between_weaken _ _ _ _ _ H La Lb).
Qed.

Lemma list_inv_nil : forall src r a b, list_inv src r a b [].
Proof. intros. repeat split; constructor. Qed.

Lemma list_inv_snoc : forall src r a b l n,
  list_inv src r a b l -> placed src n -> fits r n -> between a b (node_span n) ->
  list_inv src r a b (l ++ [n]).
Proof.
  intros src r a b l n (P & F & B) Pn Fn Bn.
  repeat split; apply Forall_app; split; try assumption; constructor; try assumption; constructor.
Qed.

Lemma ends_by : forall src r a b l c, list_inv src r a b l -> b <= c ->
  Forall (fun s => span_end s <= c) (map node_span l).
Proof.
  intros src r a b l c (_ & _ & B) L. induction B as [|n l Hn Bl IH]; cbn; constructor.
  - unfold span_end. destruct Hn. lia.
  - exact IH.
Qed.

(** A list node from [s0] to [st]. *)
Lemma placed_from : forall src r s0 t st l,
  at_src src s0 -> moves s0 t st ->
  list_inv src r (po_begin (ps_pos s0)) (po_begin (ps_pos st)) l ->
  in_order (map node_span (items l)) -> in_order (map node_span (paragraphs l)) ->
  placed src (B_list (span_of (ps_pos s0) (po_begin (ps_pos st) - po_begin (ps_pos s0))) l).
Proof.
  intros src r s0 t st l A M (P & F & B) O O'.
  econstructor; [eapply moves_covers_to; eassumption|exact P| |exact O|exact O'].
  eapply Forall_impl; [|exact B]. intros n [H1 H2]. unfold inside, span_of. cbn [sp_begin sp_length]. lia.
Qed.

(** * Directives and content types *)

Definition holds_by (c : content_type) : holds :=
  match c with
  | ct_nothing => h_nothing
  | ct_text_span | ct_raw => h_one_text
  | ct_span => h_items r_paragraph_item
  | ct_block => h_items r_content_item
  | ct_meta => h_items r_meta_item
  | ct_list => h_items r_list_item
  end.

Lemma holds_of_by : forall t, holds_of t = holds_by (content_type_of t).
Proof. intros []; reflexivity. Qed.

Lemma role_in_span : forall t, allowed_in t ct_span = true -> role_of t = r_paragraph_item.
Proof. intros []; cbn; intros H; try reflexivity; discriminate H. Qed.

Lemma role_env_paragraph : forall t, environment_of t = env_paragraph -> role_of t = r_paragraph_item.
Proof. intros []; cbn; intros H; try reflexivity; discriminate H. Qed.

Lemma role_env_content : forall t, environment_of t = env_content -> role_of t = r_content_item.
Proof. intros []; cbn; intros H; try reflexivity; discriminate H. Qed.

(** The lists that hold directives only. *)
Definition directive_role (c : content_type) : role :=
  match c with ct_meta => r_meta_item | _ => r_list_item end.

Lemma role_in_directives : forall t c, c = ct_meta \/ c = ct_list ->
  allowed_in t c = true -> role_of t = directive_role c.
Proof. intros t c [-> | ->]; destruct t; cbn; intros H; try reflexivity; discriminate H. Qed.

(** * The invariants *)

(** The content before the parser, which is at [bs]; the items end by [be]. *)
Definition content_inv (src : text) (b0 bb be bs : Z) (elements paragraph : list bmd_node) : Prop :=
  list_inv src r_content_item b0 bs elements /\
  list_inv src r_paragraph_item bb be paragraph /\
  Forall (fun n => span_end (node_span n) <= be) (items elements) /\
  in_order (map node_span (items elements ++ paragraph)) /\
  Forall (fun n => span_end (node_span n) <= bb) (paragraphs elements) /\
  in_order (map node_span (paragraphs elements)).

Lemma content_inv_weaken : forall src b0 bb be bs be' bs' e p,
  content_inv src b0 bb be bs e p -> be <= be' -> bs <= bs' -> content_inv src b0 bb be' bs' e p.
Proof.
  intros src b0 bb be bs be' bs' e p (H1 & H2 & H3 & H4) L1 L2. split; [|split; [|split]].
  - eapply list_inv_weaken; [exact H1|lia|lia].
  - eapply list_inv_weaken; [exact H2|lia|lia].
  - eapply Forall_impl; [|exact H3]. cbn. intros n H. lia.
  - exact H4.
Qed.

Lemma break_inv : forall src s0 sb st tb tb' be e p e' p' before',
  at_src src s0 -> moves s0 tb sb -> moves sb tb' st ->
  content_inv src (po_begin (ps_pos s0)) (po_begin (ps_pos sb)) be (po_begin (ps_pos st)) e p ->
  be <= po_begin (ps_pos st) ->
  break_paragraph e p (ps_pos sb) (ps_pos st) = (e', p', before') ->
  p' = [] /\ exists sb' ub ub', before' = ps_pos sb' /\ moves s0 ub sb' /\ moves sb' ub' st /\
    content_inv src (po_begin (ps_pos s0)) (po_begin (ps_pos sb')) be (po_begin (ps_pos st)) e' p'.
Proof.
  intros src s0 sb st tb tb' be e p e' p' before' A Mb Ms (I1 & I2 & I3 & I4 & I5 & I6) Le H.
  unfold break_paragraph in H. destruct p as [|n p].
  - injection H as <- <- <-. split; [reflexivity|]. exists sb, tb, tb'.
    repeat (split; [first [reflexivity|assumption]|]). repeat split; assumption.
  - injection H as <- <- <-. split; [reflexivity|]. exists st, (tb ++ tb'), [].
    split; [reflexivity|]. split; [eapply moves_trans; eassumption|]. split; [apply moves_refl|].
    assert (O : in_order (map node_span (n :: p))).
    { rewrite map_app in I4. clear -I4. induction (items e) as [|x l IH]; [exact I4|].
      apply IH. cbn [map app in_order] in I4. destruct (map node_span l ++ _); [exact I|apply I4]. }
    pose proof (moves_begin _ _ _ Mb) as Bb. pose proof (moves_begin _ _ _ Ms) as Bs.
    split; [|split; [apply list_inv_nil|split; [|split; [|split]]]].
    + apply list_inv_snoc; [exact I1| | |].
      * eapply placed_from; [eapply at_src_moves; eassumption|exact Ms| | |].
        -- eapply list_inv_weaken; [exact I2|lia|lia].
        -- rewrite (items_fits r_paragraph_item); [exact O|discriminate|apply I2].
        -- rewrite (paragraphs_fits r_paragraph_item); [exact Logic.I|discriminate|apply I2].
      * constructor; [discriminate|apply I2].
      * unfold between, node_span, span_of. cbn [sp_begin sp_length]. lia.
    + rewrite items_app. apply Forall_app. split; [exact I3|]. cbn [items flat_map app].
      rewrite app_nil_r. destruct I2 as (_ & _ & B). eapply Forall_impl; [|exact B].
      intros x [_ Hx]. exact Hx.
    + rewrite items_app. cbn [items flat_map]. rewrite !app_nil_r. exact I4.
    + rewrite paragraphs_app. apply Forall_app. split.
      * eapply Forall_impl; [|exact I5]. cbn. intros x Hx. lia.
      * constructor; [|constructor]. unfold span_end, node_span, span_of. cbn [sp_begin sp_length]. lia.
    + rewrite paragraphs_app, map_app. apply in_order_snoc; [exact I6|]. apply Forall_map. exact I5.
Qed.

Section Sound.
Variable src : text.

Definition D_sound (fuel : nat) : Prop := forall ctx st d st',
  at_src src st -> match_directive fuel ctx st = Some (Ok (d, st')) ->
  exists t ty id args b, moves st t st' /\ solid t /\
    d = B_directive (span_of (ps_pos st) (Z.of_nat (length t))) ty id args b /\
    allowed_in ty ctx = true /\ placed src d /\ fits (role_of ty) d.

Definition C_sound (fuel : nat) : Prop := forall ty st b st',
  at_src src st -> peek_char "{" st = true ->
  match_directive_content fuel ty st = Some (Ok (b, st')) ->
  exists c, moves st (str "{" ++ c ++ str "}") st' /\ raw_content c /\ c <> [] /\
    (ty = ct_raw -> exists sp, b = Some (B_text sp c)) /\
    placed_block src (span_of (ps_pos st) (Z.of_nat (length (str "{" ++ c ++ str "}")))) b /\
    fits_block (holds_by ty) b.

Definition L_sound (fuel : nat) : Prop := forall s0 sb st tb tb' e p n st',
  at_src src s0 -> moves s0 tb sb -> moves sb tb' st ->
  content_inv src (po_begin (ps_pos s0)) (po_begin (ps_pos sb)) (po_begin (ps_pos st))
    (po_begin (ps_pos st)) e p ->
  content_loop fuel (ps_pos s0) (ps_pos sb) e p st = Some (Ok (n, st')) ->
  exists t l, moves st t st' /\ ps_rest st' = [] /\
    n = B_list (span_of (ps_pos s0) (po_begin (ps_pos st') - po_begin (ps_pos s0))) l /\
    placed src n /\ Forall (fits r_content_item) l.

Definition P_sound (fuel : nat) : Prop := forall s0 st t0 e n st',
  at_src src s0 -> moves s0 t0 st ->
  list_inv src r_paragraph_item (po_begin (ps_pos s0)) (po_begin (ps_pos st)) e ->
  in_order (map node_span e) ->
  paragraph_loop fuel (ps_pos s0) e st = Some (Ok (n, st')) ->
  exists t l, moves st t st' /\
    n = B_list (span_of (ps_pos s0) (po_begin (ps_pos st') - po_begin (ps_pos s0))) l /\
    placed src n /\ Forall (fits r_paragraph_item) l.

Definition I_sound (fuel : nat) : Prop := forall c s0 st t0 e n st',
  c = ct_meta \/ c = ct_list ->
  at_src src s0 -> moves s0 t0 st ->
  list_inv src (directive_role c) (po_begin (ps_pos s0)) (po_begin (ps_pos st)) e ->
  in_order (map node_span e) ->
  directives_loop fuel c (ps_pos s0) e st = Some (Ok (n, st')) ->
  exists t l, moves st t st' /\
    n = B_list (span_of (ps_pos s0) (po_begin (ps_pos st') - po_begin (ps_pos s0))) l /\
    placed src n /\ Forall (fits (directive_role c)) l.

Lemma snoc_order : forall r a b l n c,
  list_inv src r a b l -> in_order (map node_span l) -> b <= c -> sp_begin (node_span n) = c ->
  in_order (map node_span (l ++ [n])).
Proof.
  intros r a b l n c V O L E. rewrite map_app. apply in_order_snoc; [exact O|]. rewrite E.
  eapply ends_by; eassumption.
Qed.

(** The text node at the front. *)
Lemma text_node : forall st t,
  at_src src st -> solid t -> forall st', moves st t st' ->
  placed src (B_text (span_of (ps_pos st) (Z.of_nat (length t))) t) /\
  fits r_paragraph_item (B_text (span_of (ps_pos st) (Z.of_nat (length t))) t).
Proof.
  intros st t A S st' M. split.
  - constructor. eapply moves_covers; eassumption.
  - constructor. intros ->. apply Nat.lt_irrefl with 0%nat. exact (solid_nonempty _ S).
Qed.

Lemma directives_step : forall fuel, D_sound fuel -> I_sound fuel -> I_sound (S fuel).
Proof.
  intros fuel HD HI c s0 st t0 e n st' Hc A M0 V O H. cbn [directives_loop] in H.
  destruct (eof st) eqn:Eof.
  - injection H as <- <-. exists [], e. split; [apply moves_refl|]. split; [reflexivity|].
    split; [|apply V]. eapply placed_from; [exact A|exact M0|exact V| |].
    + rewrite (items_fits (directive_role c)); [exact O| |apply V]. destruct Hc as [-> | ->]; discriminate.
    + rewrite (paragraphs_fits (directive_role c)); [exact Logic.I| |apply V].
      destruct Hc as [-> | ->]; discriminate.
  - destruct (peek_possible_directive st); [|discriminate H]. cbn [negb] in H.
    binv H x1 E1. destruct x1 as [d st1]. binv H x2 E2. destruct x2 as [b st2]. some_ok E2.
    destruct (HD _ _ _ _ (at_src_moves _ _ _ _ A M0) E1)
      as (t1 & ty & id & args & bl & M1 & S1 & Ed & Al & Pd & Fd).
    destruct (match_blank_moves _ _ _ _ E2) as (t2 & M2 & _).
    pose proof (moves_begin _ _ _ M0) as B0. pose proof (moves_begin _ _ _ M1) as B1.
    pose proof (moves_begin _ _ _ M2) as B2.
    assert (Sd : node_span d = span_of (ps_pos st) (Z.of_nat (length t1))) by (rewrite Ed; reflexivity).
    destruct (HI c s0 st2 (t0 ++ t1 ++ t2) (e ++ [d]) n st' Hc A) as (t & l & M & R).
    + eapply moves_trans; [exact M0|]. eapply moves_trans; eassumption.
    + apply list_inv_snoc.
      * eapply list_inv_weaken; [exact V|lia|lia].
      * exact Pd.
      * rewrite <- (role_in_directives ty c Hc Al). exact Fd.
      * rewrite Sd. unfold between, span_of. cbn [sp_begin sp_length]. lia.
    + eapply snoc_order; [exact V|exact O|apply Z.le_refl|]. rewrite Sd. reflexivity.
    + exact H.
    + exists (t1 ++ t2 ++ t), l. split; [|exact R].
      eapply moves_trans; [exact M1|]. eapply moves_trans; eassumption.
Qed.

Lemma paragraph_step : forall fuel, D_sound fuel -> P_sound fuel -> P_sound (S fuel).
Proof.
  intros fuel HD HP s0 st t0 e n st' A M0 V O H. cbn [paragraph_loop] in H.
  assert (Fin : forall st1 t1, moves st t1 st1 ->
    Some (Ok (B_list (span_of (ps_pos s0) (po_begin (ps_pos st1) - po_begin (ps_pos s0))) e, st1)) =
      @Some (outcome bmd_error _) (Ok (n, st')) ->
    exists t l, moves st t st' /\
      n = B_list (span_of (ps_pos s0) (po_begin (ps_pos st') - po_begin (ps_pos s0))) l /\
      placed src n /\ Forall (fits r_paragraph_item) l).
  { intros st1 t1 M1 E. injection E as <- <-. exists t1, e. split; [exact M1|]. split; [reflexivity|].
    pose proof (moves_begin _ _ _ M1) as B1.
    split; [|apply V]. eapply placed_from; [exact A|eapply moves_trans; eassumption| | |].
    - eapply list_inv_weaken; [exact V|lia|lia].
    - rewrite (items_fits r_paragraph_item); [exact O|discriminate|apply V].
    - rewrite (paragraphs_fits r_paragraph_item); [exact Logic.I|discriminate|apply V]. }
  destruct (eof st) eqn:Eof; [eapply Fin; [apply moves_refl|exact H]|].
  binv H x1 E1. destruct x1 as [stop st1].
  assert (M1 : exists t1, moves st t1 st1 /\ (stop = false -> peek_if is_space st1 = false)).
  { destruct (peek_if is_space st) eqn:Sp.
    - binv E1 x E2. destruct x as [b s]. some_ok E2. injection E1 as <- <-.
      destruct (match_word_blank_moves _ _ _ E2) as (t1 & M1 & L & N). exists t1. split; [exact M1|].
      intros Z0. unfold match_word_blank in E2.
      destruct (match_blank br_blank st) as [[b2 st2]| | |]; try discriminate E2. cbn [bind] in E2.
      destruct (bl_break b2) eqn:Br.
      + injection E2 as <- <-. discriminate Z0.
      + injection E2 as <- <-. specialize (N Br). unfold peek_if. unfold at_blank in N.
        destruct (ps_rest st2); [reflexivity|]. apply orb_false_iff in N. apply N.
    - injection E1 as <- <-. exists []. split; [apply moves_refl|]. intros _. exact Sp. }
  destruct M1 as (t1 & M1 & N1). destruct stop; [eapply Fin; [exact M1|exact H]|].
  specialize (N1 eq_refl).
  pose proof (moves_trans _ _ _ _ _ M0 M1) as M01.
  pose proof (at_src_moves _ _ _ _ A M01) as A1.
  pose proof (moves_begin _ _ _ M0) as B0. pose proof (moves_begin _ _ _ M1) as B1.
  destruct (match_text_spec st1 N1) as (t2 & st2 & M2 & Stop & [(-> & -> & E2) | (S2 & E2)]);
    rewrite E2 in H; cbn [bind_loop] in H.
  - destruct (peek_possible_directive st1).
    + binv H x3 E3. destruct x3 as [d st3].
      destruct (HD _ _ _ _ A1 E3) as (t3 & ty & id & args & bl & M3 & S3 & Ed & Al & Pd & Fd).
      pose proof (moves_begin _ _ _ M3) as B3.
      assert (Sd : node_span d = span_of (ps_pos st1) (Z.of_nat (length t3))) by (rewrite Ed; reflexivity).
      destruct (HP s0 st3 ((t0 ++ t1) ++ t3) (e ++ [d]) n st' A) as (t & l & M & R).
      * eapply moves_trans; eassumption.
      * apply list_inv_snoc.
        -- eapply list_inv_weaken; [exact V|lia|lia].
        -- exact Pd.
        -- rewrite <- (role_in_span ty Al). exact Fd.
        -- rewrite Sd. unfold between, span_of. cbn [sp_begin sp_length]. lia.
      * eapply (snoc_order r_paragraph_item); [exact V|exact O| |rewrite Sd; reflexivity].
        cbn [span_of sp_begin]. lia.
      * exact H.
      * exists (t1 ++ t3 ++ t), l. split; [|exact R].
        eapply moves_trans; [exact M1|]. eapply moves_trans; eassumption.
    + destruct (HP s0 st1 (t0 ++ t1) e n st' A) as (t & l & M & R).
      * exact M01.
      * eapply list_inv_weaken; [exact V|lia|lia].
      * exact O.
      * exact H.
      * exists (t1 ++ t), l. split; [|exact R]. eapply moves_trans; eassumption.
  - destruct (text_node st1 t2 A1 S2 st2 M2) as [Pt Ft].
    pose proof (moves_begin _ _ _ M2) as B2.
    destruct (HP s0 st2 ((t0 ++ t1) ++ t2)
               (e ++ [B_text (span_of (ps_pos st1) (Z.of_nat (length t2))) t2]) n st' A)
      as (t & l & M & R).
    + eapply moves_trans; eassumption.
    + apply list_inv_snoc; [eapply list_inv_weaken; [exact V|lia|lia]|exact Pt|exact Ft|].
      unfold between, node_span, span_of. cbn [sp_begin sp_length]. lia.
    + eapply (snoc_order r_paragraph_item); [exact V|exact O| |reflexivity].
      cbn [node_span span_of sp_begin]. lia.
    + exact H.
    + exists (t1 ++ t2 ++ t), l. split; [|exact R].
      eapply moves_trans; [exact M1|]. eapply moves_trans; eassumption.
Qed.

Lemma content_step : forall fuel, D_sound fuel -> L_sound fuel -> L_sound (S fuel).
Proof.
  intros fuel HD HL s0 sb st tb tb' e p n st' A Mb Ms V H. cbn [content_loop] in H.
  pose proof (moves_trans _ _ _ _ _ Mb Ms) as M0.
  pose proof (at_src_moves _ _ _ _ A M0) as A0.
  destruct (eof st) eqn:Eof.
  - destruct (break_paragraph e p (ps_pos sb) (ps_pos st)) as [[e' p'] before'] eqn:BP.
    injection H as <- <-.
    destruct (break_inv src s0 sb st tb tb' _ e p e' p' before' A Mb Ms V (Z.le_refl _) BP)
      as (-> & sb' & ub & ub' & -> & Mb' & Ms' & V').
    exists [], e'. split; [apply moves_refl|]. split.
    { unfold eof in Eof. destruct (ps_rest st); [reflexivity|discriminate Eof]. }
    split; [reflexivity|]. destruct V' as (V1 & _ & _ & V4 & _ & V6). split; [|apply V1].
    eapply placed_from; [exact A|exact M0|exact V1| |exact V6]. rewrite app_nil_r in V4. exact V4.
  - destruct (peek_if is_space st) eqn:Sp; [discriminate H|].
    binv H x1 E1. destruct x1 as [[[e1 p1] before1] st1].
    binv H x2 E2. destruct x2 as [b st2]. some_ok E2.
    destruct (match_blank_moves _ _ _ _ E2) as (t2 & M2 & _).
    pose proof (moves_begin _ _ _ M2) as B2.
    assert (G : exists sb1 ub ub' t1, before1 = ps_pos sb1 /\ moves s0 ub sb1 /\ moves sb1 ub' st1 /\
              moves st t1 st1 /\
              content_inv src (po_begin (ps_pos s0)) (po_begin (ps_pos sb1)) (po_begin (ps_pos st1))
                (po_begin (ps_pos st1)) e1 p1).
    { clear H HL. destruct (peek_possible_directive st).
      - binv E1 x3 E3. destruct x3 as [d st3].
        destruct (HD _ _ _ _ A0 E3) as (t3 & ty & id & args & bl & M3 & S3 & Ed & Al & Pd & Fd).
        pose proof (moves_begin _ _ _ M3) as B3. pose proof (moves_begin _ _ _ Mb) as Bb.
        pose proof (moves_begin _ _ _ Ms) as Bs.
        assert (Sd : node_span d = span_of (ps_pos st) (Z.of_nat (length t3))) by (rewrite Ed; reflexivity).
        rewrite Ed in E1. destruct (environment_of ty) eqn:En; try discriminate E1.
        + rewrite <- Ed in E1. injection E1 as <- <- <- <-. exists sb, tb, (tb' ++ t3), t3.
          split; [reflexivity|]. split; [exact Mb|]. split; [eapply moves_trans; eassumption|].
          split; [exact M3|].
          destruct (content_inv_weaken _ _ _ _ _ (po_begin (ps_pos st3)) (po_begin (ps_pos st3)) _ _ V)
            as (W1 & W2 & W3 & W4 & W5); [lia|lia|].
          destruct V as (V1 & V2 & V3 & V4 & V5).
          split; [exact W1|]. split; [|split; [exact W3|split; [|exact V5]]].
          * apply list_inv_snoc; [exact W2|exact Pd| |].
            -- rewrite <- (role_env_paragraph ty En). exact Fd.
            -- rewrite Sd. unfold between, span_of. cbn [sp_begin sp_length]. lia.
          * rewrite app_assoc, map_app. apply in_order_snoc; [exact V4|].
            rewrite Sd. cbn [span_of sp_begin]. rewrite map_app. apply Forall_app. split.
            -- apply Forall_map. exact V3.
            -- eapply ends_by; [exact V2|lia].
        + destruct (break_paragraph e p (ps_pos sb) (ps_pos st3)) as [[e' p'] before'] eqn:BP.
          rewrite <- Ed in E1. injection E1 as <- <- <- <-.
          assert (V' : content_inv src (po_begin (ps_pos s0)) (po_begin (ps_pos sb)) (po_begin (ps_pos st))
                         (po_begin (ps_pos st3)) e p).
          { eapply content_inv_weaken; [exact V|lia|lia]. }
          destruct (break_inv src s0 sb st3 tb (tb' ++ t3) _ e p e' p' before' A Mb
                      (moves_trans _ _ _ _ _ Ms M3) V' ltac:(lia) BP)
            as (-> & sb' & ub & ub' & -> & Mb' & Ms' & (W1 & W2 & W3 & W4 & W5 & W6)).
          exists sb', ub, ub', t3. repeat (split; [first [reflexivity|assumption]|]).
          rewrite app_nil_r in W4.
          assert (Pe : paragraphs (e' ++ [d]) = paragraphs e').
          { rewrite paragraphs_app, Ed. apply app_nil_r. }
          split; [|split; [apply list_inv_nil|split; [|split; [|rewrite Pe; auto]]]].
          * apply list_inv_snoc; [exact W1|exact Pd| |].
            -- rewrite <- (role_env_content ty En). exact Fd.
            -- rewrite Sd. unfold between, span_of. cbn [sp_begin sp_length]. lia.
          * rewrite items_app. apply Forall_app. split.
            -- eapply Forall_impl; [|exact W3]. cbn. intros x Hx. lia.
            -- rewrite Ed. cbn [items flat_map app]. constructor; [|constructor]. rewrite <- Ed, Sd.
               unfold span_end, span_of. cbn [sp_begin sp_length]. lia.
          * rewrite app_nil_r, items_app, map_app.
            assert (Ei : items [d] = [d]) by (rewrite Ed; reflexivity). rewrite Ei.
            apply in_order_snoc; [exact W4|]. rewrite Sd. cbn [span_of sp_begin].
            apply Forall_map. exact W3.
      - destruct (match_text_spec st Sp) as (t3 & st3 & M3 & Stop & [(-> & -> & E3) | (S3 & E3)]);
          rewrite E3 in E1; cbn [bind_loop] in E1; [discriminate E1|].
        injection E1 as <- <- <- <-. exists sb, tb, (tb' ++ t3), t3.
        split; [reflexivity|]. split; [exact Mb|]. split; [eapply moves_trans; eassumption|].
        split; [exact M3|].
        destruct (text_node st t3 A0 S3 st3 M3) as [Pt Ft].
        pose proof (moves_begin _ _ _ M3) as B3. pose proof (moves_begin _ _ _ Ms) as Bs.
        destruct (content_inv_weaken _ _ _ _ _ (po_begin (ps_pos st3)) (po_begin (ps_pos st3)) _ _ V)
          as (W1 & W2 & W3 & W4 & W5); [lia|lia|].
        destruct V as (V1 & V2 & V3 & V4 & V5).
        split; [exact W1|]. split; [|split; [exact W3|split; [|exact V5]]].
        + apply list_inv_snoc; [exact W2|exact Pt|exact Ft|].
          unfold between, node_span, span_of. cbn [sp_begin sp_length]. lia.
        + rewrite app_assoc, map_app. apply in_order_snoc; [exact V4|].
          cbn [node_span span_of sp_begin]. rewrite map_app. apply Forall_app. split.
          * apply Forall_map. exact V3.
          * eapply ends_by; [exact V2|lia]. }
    destruct G as (sb1 & ub & ub' & t1 & -> & Mb1 & Ms1 & M1 & V1).
    pose proof (moves_begin _ _ _ M1) as B1.
    assert (V2 : content_inv src (po_begin (ps_pos s0)) (po_begin (ps_pos sb1)) (po_begin (ps_pos st2))
                (po_begin (ps_pos st2)) e1 p1).
    { eapply content_inv_weaken; [exact V1|lia|lia]. }
    pose proof (moves_trans _ _ _ _ _ Ms1 M2) as Ms2.
    assert (Done : forall t l, moves st2 t st' ->
               ps_rest st' = [] /\
               n = B_list (span_of (ps_pos s0) (po_begin (ps_pos st') - po_begin (ps_pos s0))) l /\
               placed src n /\ Forall (fits r_content_item) l ->
               exists t l, moves st t st' /\ ps_rest st' = [] /\
               n = B_list (span_of (ps_pos s0) (po_begin (ps_pos st') - po_begin (ps_pos s0))) l /\
               placed src n /\ Forall (fits r_content_item) l).
    { intros t l M R. exists (t1 ++ t2 ++ t), l. split; [|exact R].
      eapply moves_trans; [exact M1|]. eapply moves_trans; eassumption. }
    destruct (bl_break b).
    + destruct (break_paragraph e1 p1 (ps_pos sb1) (ps_pos st2)) as [[e' p'] before'] eqn:BP.
      destruct (break_inv src s0 sb1 st2 ub (ub' ++ t2) _ e1 p1 e' p' before' A Mb1 Ms2 V2 (Z.le_refl _) BP)
        as (-> & sb' & vb & vb' & -> & Mb' & Ms' & V').
      destruct (HL _ _ _ _ _ _ _ _ _ A Mb' Ms' V' H) as (t & l & M & R).
      exact (Done t l M R).
    + destruct (HL _ _ _ _ _ _ _ _ _ A Mb1 Ms2 V2 H) as (t & l & M & R).
      exact (Done t l M R).
Qed.

Lemma inside_block_ok : forall A (f : pstate -> option (outcome bmd_error (A * pstate))) st a st',
  match_inside_block f st = Some (Ok (a, st')) -> at_src src st ->
  exists content inner,
    ps_rest st = str "{" ++ content ++ str "}" ++ ps_rest st' /\
    raw_content content /\ content <> [] /\
    at_src src (PState (to_right 1 (ps_pos st)) content) /\
    f (PState (to_right 1 (ps_pos st)) content) = Some (Ok (a, inner)) /\ ps_rest inner = [] /\
    forall t, moves (PState (to_right 1 (ps_pos st)) content) t inner ->
      t = content /\ moves st (str "{" ++ content ++ str "}") st' /\
      po_begin (ps_pos inner) < po_begin (ps_pos st').
Proof.
  intros A f st a st' H At. unfold match_inside_block in H. binv H x1 E1. destruct x1 as [[p content] st1].
  some_ok E1. apply match_raw_block_impl_iff in E1. destruct E1 as (R & RC & Ne & -> & P1).
  binv H x2 E2. destruct x2 as [a' inner]. destruct (eof inner) eqn:Eof; [|discriminate H].
  injection H as <- <-. exists content, inner. cbn [ps_rest ps_pos].
  assert (Ri : ps_rest inner = []).
  { unfold eof in Eof. destruct (ps_rest inner); [reflexivity|discriminate Eof]. }
  split; [exact R|]. split; [exact RC|]. split; [exact Ne|].
  split; [|split; [exact E2|split; [exact Ri|]]].
  - destruct At as (pre & post & E & P). exists (pre ++ str "{"), (str "}" ++ ps_rest st1 ++ post).
    cbn [ps_rest ps_pos]. split.
    + rewrite E, R, <- !app_assoc. reflexivity.
    + rewrite P. rewrite <- (advance_plain "{"%char) by reflexivity. apply advance_locate.
  - intros t [M1 M2]. cbn [ps_rest ps_pos] in M1, M2. rewrite Ri, app_nil_r in M1. subst t.
    split; [reflexivity|]. split; [split; cbn [ps_rest ps_pos]|].
    + rewrite R, <- !app_assoc. reflexivity.
    + rewrite M2, !move_app. rewrite <- (advance_plain "}"%char) by reflexivity.
      rewrite <- (advance_plain "{"%char) by reflexivity. reflexivity.
    + unfold to_right. cbn [po_begin]. lia.
Qed.

Lemma solid_block : forall c, solid (str "{" ++ c ++ str "}").
Proof. intros c. apply solid_app. apply solid_app. apply solid_char. reflexivity. Qed.

Lemma block_length : forall c, Z.of_nat (length (str "{" ++ c ++ str "}")) = Z.of_nat (length c) + 2.
Proof. intros c. rewrite !app_length. cbn [length str list_ascii_of_string]. lia. Qed.

Lemma block_step : forall fuel, L_sound fuel -> P_sound fuel -> I_sound fuel ->
  C_sound (S fuel).
Proof.
  intros fuel HL HP HI ty st b st' A Pk H. cbn [match_directive_content] in H.
  assert (Text : forall s1 t0 t s2 st1 content,
             at_src src s1 -> moves (PState (to_right 1 (ps_pos st)) content) t0 s1 ->
             moves s1 t s2 -> moves st (str "{" ++ content ++ str "}") st1 -> t0 ++ t = content ->
             solid t ->
             placed_block src (span_of (ps_pos st) (Z.of_nat (length (str "{" ++ content ++ str "}"))))
               (Some (B_text (span_of (ps_pos s1) (Z.of_nat (length t))) t)) /\
             fits_block h_one_text (Some (B_text (span_of (ps_pos s1) (Z.of_nat (length t))) t))).
  { intros s1 t0 t s2 st1 content A1 M0 M1 Mt Ec S. destruct (text_node s1 t A1 S s2 M1) as [Pt Ft].
    pose proof (moves_begin _ _ _ M0) as B0. cbn [ps_pos to_right po_begin] in B0.
    split; constructor.
    - exact Pt.
    - unfold strictly_inside, node_span, span_of. cbn [sp_begin sp_length]. rewrite block_length.
      rewrite <- Ec, app_length. lia.
    - inversion Ft; subst; assumption. }
  assert (List : forall r s0 t0 t s2 content l,
             moves (PState (to_right 1 (ps_pos st)) content) t0 s0 -> moves s0 t s2 ->
             t0 ++ t = content ->
             let n := B_list (span_of (ps_pos s0) (po_begin (ps_pos s2) - po_begin (ps_pos s0))) l in
             placed src n -> Forall (fits r) l ->
             placed_block src (span_of (ps_pos st) (Z.of_nat (length (str "{" ++ content ++ str "}")))) (Some n) /\
             fits_block (h_items r) (Some n)).
  { intros r s0 t0 t s2 content l M0 M1 Ec n Pn Fl.
    pose proof (moves_begin _ _ _ M0) as B0. cbn [ps_pos to_right po_begin] in B0.
    pose proof (moves_begin _ _ _ M1) as B1.
    split; constructor.
    - exact Pn.
    - unfold strictly_inside, n, node_span, span_of. cbn [sp_begin sp_length]. rewrite block_length.
      rewrite <- Ec, app_length. lia.
    - exact Fl. }
  assert (Span : forall dirs, (dirs = true /\ ty = ct_span \/ dirs = false /\ ty = ct_text_span) ->
    match_inside_block
            (fun st =>
               let& (b, st1) := Some (match_blank br_block st) in
               if bl_break b then Some (fail be_paragraph_break_in_span br_block st1)
               else
                 let& (n, st2) :=
                   (if dirs then
                      let& (n, st2) := paragraph_loop fuel (ps_pos st1) [] st1 in Some (Ok (Some n, st2))
                    else Some (match_text st1)) in
                 if peek_if is_space st2 then Some (fail be_paragraph_break_in_span br_block st2)
                 else if negb dirs && peek_possible_directive st2 then
                   Some (fail be_directive_in_text_span br_block st2)
                 else Some (Ok (n, st2))) st = Some (Ok (b, st')) ->
    exists c, moves st (str "{" ++ c ++ str "}") st' /\ raw_content c /\ c <> [] /\
      (ty = ct_raw -> exists sp, b = Some (B_text sp c)) /\
      placed_block src (span_of (ps_pos st) (Z.of_nat (length (str "{" ++ c ++ str "}")))) b /\
      fits_block (holds_by ty) b).
  { clear H. intros dirs Hd H.
    destruct (inside_block_ok _ _ _ _ _ H A) as (content & inner & R & RC & Ne & Ai & E & Ri & Fin).
    clear H. cbv beta in E. binv E x1 E1. destruct x1 as [bl s1]. some_ok E1.
    destruct (match_blank_moves _ _ _ _ E1) as (t0 & M0 & _ & Nb).
    destruct (bl_break bl); [discriminate E|].
    binv E x2 E2. destruct x2 as [n s2].
    destruct (peek_if is_space s2); [discriminate E|].
    destruct (negb dirs && peek_possible_directive s2); [discriminate E|]. injection E as <- <-.
    pose proof (at_src_moves _ _ _ _ Ai M0) as A1.
    destruct Hd as [[-> ->]|[-> ->]].
    - binv E2 x3 E3. destruct x3 as [n' s3]. injection E2 as <- <-.
      destruct (HP s1 s1 [] [] n' s3 A1 (moves_refl _) (list_inv_nil _ _ _ _) Logic.I E3)
        as (t & l & M & -> & Pn & Fl).
      destruct (Fin _ (moves_trans _ _ _ _ _ M0 M)) as (Ec & Mt & Lt).
      exists content. split; [exact Mt|]. split; [exact RC|]. split; [exact Ne|].
      split; [discriminate|].
      exact (List r_paragraph_item s1 t0 t s3 content l M0 M Ec Pn Fl).
    - some_ok E2.
      assert (Ns : peek_if is_space s1 = false).
      { unfold at_blank in Nb. unfold peek_if. destruct (ps_rest s1); [reflexivity|].
        apply orb_false_iff in Nb. apply Nb. }
      destruct (match_text_spec s1 Ns) as (t & s3 & M & _ & [(-> & -> & E3) | (S3 & E3)]);
        rewrite E3 in E2; injection E2 as <- <-.
      + destruct (Fin _ M0) as (Ec & Mt & Lt).
        exists content. split; [exact Mt|]. split; [exact RC|]. split; [exact Ne|].
      split; [discriminate|].
        split; constructor.
      + destruct (Fin _ (moves_trans _ _ _ _ _ M0 M)) as (Ec & Mt & Lt).
        exists content. split; [exact Mt|]. split; [exact RC|]. split; [exact Ne|].
      split; [discriminate|].
        exact (Text s1 t0 t s3 st' content A1 M0 M Mt Ec S3). }
  assert (Dirs : forall c, (c = ct_meta \/ c = ct_list) -> ty = c ->
    match_inside_block
            (fun st =>
               let& (_, st1) := Some (match_blank br_block st) in
               let& (n, st2) := directives_loop fuel c (ps_pos st) [] st1 in
               Some (Ok (Some n, st2))) st = Some (Ok (b, st')) ->
    exists c, moves st (str "{" ++ c ++ str "}") st' /\ raw_content c /\ c <> [] /\
      (ty = ct_raw -> exists sp, b = Some (B_text sp c)) /\
      placed_block src (span_of (ps_pos st) (Z.of_nat (length (str "{" ++ c ++ str "}")))) b /\
      fits_block (holds_by ty) b).
  { clear H. intros c Hc -> H.
    destruct (inside_block_ok _ _ _ _ _ H A) as (content & inner & R & RC & Ne & Ai & E & Ri & Fin).
    clear H. cbv beta in E. binv E x1 E1. destruct x1 as [bl s1]. some_ok E1.
    destruct (match_blank_moves _ _ _ _ E1) as (t0 & M0 & _ & Nb).
    binv E x2 E2. destruct x2 as [n s2]. injection E as <- <-.
    destruct (HI c _ s1 t0 [] n s2 Hc Ai M0 (list_inv_nil _ _ _ _) Logic.I E2)
      as (t & l & M & -> & Pn & Fl).
    pose proof (moves_trans _ _ _ _ _ M0 M) as M01.
    destruct (Fin _ M01) as (Ec & Mt & Lt).
    exists content. split; [exact Mt|]. split; [exact RC|]. split; [exact Ne|].
      split; [destruct Hc as [-> | ->]; discriminate|].
    replace (holds_by c) with (h_items (directive_role c)) by (destruct Hc as [-> | ->]; reflexivity).
    exact (List _ _ [] (t0 ++ t) s2 content l (moves_refl _) M01 Ec Pn Fl). }
  destruct ty; cbn [allows_directives] in H.
  - (* nothing *)
    exfalso. some_ok H. unfold match_empty_block in H.
    assert (E1 : match_blank br_block st = Ok (Blank 0 false, st)).
    { clear -Pk. destruct st as [p [|c r]]; [discriminate Pk|]. unfold peek_char, peek_if in Pk.
      cbn [ps_rest] in Pk. apply char_eq in Pk. subst c.
      unfold match_blank. cbn [ps_rest ps_pos]. 
      assert (E : blank_loop cm_none 0 false p ("{"%char :: r) = Ok (false, PState p ("{"%char :: r))).
      { destruct r; reflexivity. }
      rewrite E. cbn [with_rule bind ps_pos]. rewrite Z.sub_diag. reflexivity. }
    rewrite E1 in H. cbn [bind] in H. clear -H Pk.
    destruct st as [p [|c r]]; [discriminate Pk|]. unfold peek_char, peek_if in Pk.
      cbn [ps_rest] in Pk. apply char_eq in Pk. subst c. discriminate H.
  - apply (Span false); [right; auto|exact H].
  - apply (Span true); [left; auto|exact H].
  - destruct (inside_block_ok _ _ _ _ _ H A) as (content & inner & R & RC & Ne & Ai & E & Ri & Fin).
    clear H. cbv beta in E. binv E x1 E1. destruct x1 as [bl s1]. some_ok E1.
    destruct (match_blank_moves _ _ _ _ E1) as (t0 & M0 & _ & Nb).
    binv E x2 E2. destruct x2 as [n s2]. injection E as <- <-.
    pose proof (at_src_moves _ _ _ _ Ai M0) as A1.
    destruct (HL s1 s1 s1 [] [] [] [] n s2 A1 (moves_refl _) (moves_refl _)) as (t & l & M & _ & -> & Pn & Fl).
    + split; [apply list_inv_nil|]. split; [apply list_inv_nil|]. repeat split; constructor.
    + exact E2.
    + destruct (Fin _ (moves_trans _ _ _ _ _ M0 M)) as (Ec & Mt & Lt).
      exists content. split; [exact Mt|]. split; [exact RC|]. split; [exact Ne|].
      split; [discriminate|].
      exact (List r_content_item s1 t0 t s2 content l M0 M Ec Pn Fl).
  - apply (Dirs ct_meta); auto.
  - apply (Dirs ct_list); auto.
  - some_ok H. unfold match_raw_block in H.
    destruct (match_raw_block_impl st) as [[[p content] st1]| | |] eqn:E1; try discriminate H.
    cbn [bind] in H. injection H as <- <-.
    apply match_raw_block_impl_iff in E1. destruct E1 as (R & RC & Ne & -> & P1).
    exists content.
    split; [split; [rewrite R, <- !app_assoc; reflexivity|exact P1]|].
    split; [exact RC|]. split; [exact Ne|]. split; [intros _; eexists; reflexivity|].
    split; constructor.
    + constructor. destruct A as (pre & post & E & P).
      exists (pre ++ str "{"), (str "}" ++ ps_rest st1 ++ post). split.
      * rewrite E, R, <- !app_assoc. reflexivity.
      * rewrite P, advance_locate. reflexivity.
    + unfold strictly_inside, node_span, span_of. cbn [sp_begin sp_length]. rewrite block_length, advance_begin. lia.
    + exact Ne.
Qed.

Lemma directive_step : forall fuel, C_sound fuel -> D_sound (S fuel).
Proof.
  intros fuel HC ctx st d st' A H. cbn [match_directive] in H.
  destruct (allows_directives ctx); [|discriminate H]. cbn [negb] in H.
  binv H st1 E1. some_ok E1. binv H x2 E2. destruct x2 as [[id isp] st2]. some_ok E2.
  destruct (directive_type_by_id id) as [[ty|]| | |] eqn:Look;
    [|some_ok H; destruct (to_left _ _); discriminate H|discriminate H..].
  destruct (allowed_in ty ctx) eqn:Al; [|discriminate H]. cbn [negb] in H.
  binv H x3 E3. destruct x3 as [args st3]. binv H x4 E4. destruct x4 as [block st4].
  injection H as <- <-.
  pose proof (expect_moves _ _ _ _ E1) as M1.
  destruct (match_name_moves _ _ _ _ E2) as (M2 & Ne & Id & _).
  pose proof (moves_trans _ _ _ _ _ M1 M2) as M12.
  pose proof (at_src_moves _ _ _ _ A M12) as A2.
  pose proof (moves_begin _ _ _ M12) as B12. rewrite app_length in B12. cbn [length] in B12.
  assert (G3 : exists t3, moves st2 t3 st3 /\ (t3 = [] \/ solid t3) /\ argument_text t3 /\
            args_inv src (po_begin (ps_pos st)) (po_begin (ps_pos st3)) args).
  { destruct (peek_char "[" st2).
    - destruct (match_arguments_moves src (po_begin (ps_pos st)) _ _ _ E3 A2 ltac:(lia))
        as (t3 & M3 & S3 & AT & I3).
      exists t3. auto.
    - injection E3 as <- <-. exists []. split; [apply moves_refl|]. split; [now left|].
      split; [now left|]. split; constructor. }
  destruct G3 as (t3 & M3 & S3 & AT & I3).
  pose proof (at_src_moves _ _ _ _ A2 M3) as A3. pose proof (moves_begin _ _ _ M3) as B3.
  assert (G4 : exists t4, moves st3 t4 st4 /\ (t4 = [] \/ solid t4) /\ block_text ty block t4 /\
            placed_block src (span_of (ps_pos st3) (Z.of_nat (length t4))) block /\
            fits_block (holds_of ty) block).
  { rewrite holds_of_by. destruct (peek_char "{" st3) eqn:Pk.
    - destruct (HC _ _ _ _ A3 Pk E4) as (c & M4 & RC & Nc & Raw & R4).
      exists (str "{" ++ c ++ str "}"). split; [exact M4|]. split; [right; apply solid_block|].
      split; [|exact R4]. right. exists c. repeat (split; [first [reflexivity|assumption]|]).
      intros ->. apply Raw. reflexivity.
    - injection E4 as <- <-. exists []. split; [apply moves_refl|]. split; [now left|].
      split; [left; auto|]. split; constructor. }
  destruct G4 as (t4 & M4 & S4 & BT & P4 & F4). pose proof (moves_begin _ _ _ M4) as B4.
  pose proof (moves_trans _ _ _ _ _ M12 (moves_trans _ _ _ _ _ M3 M4)) as M.
  pose proof (moves_begin _ _ _ M) as B.
  exists (([ch_backslash] ++ id) ++ t3 ++ t4), ty, id, args, block.
  split; [exact M|]. split.
  { assert (Si : solid ([ch_backslash] ++ id)).
    { apply solid_app. destruct (exists_last Ne) as (i & c & ->). exists i, c. split; [reflexivity|].
      unfold identifier_text in Id. apply Forall_app in Id. destruct Id as [_ Id].
      inversion Id as [|? ? Hc _]; subst. revert Hc.
      destruct c as [[] [] [] [] [] [] [] []]; vm_compute; intros Hc; try reflexivity; discriminate Hc. }
    destruct S4 as [->|S4]; [|apply solid_app; apply solid_app; exact S4].
    rewrite app_nil_r. destruct S3 as [->|S3]; [rewrite app_nil_r; exact Si|apply solid_app; exact S3]. }
  replace (po_begin (ps_pos st4) - po_begin (ps_pos st))
    with (Z.of_nat (length (([ch_backslash] ++ id) ++ t3 ++ t4))) by lia.
  split; [reflexivity|]. split; [exact Al|]. split.
  - apply placed_directive with (at_ := t3) (bt := t4).
    + change (str "\" ++ id ++ t3 ++ t4) with (([ch_backslash] ++ id) ++ t3 ++ t4).
      eapply moves_covers; eassumption.
    + exact AT.
    + exact BT.
    + destruct I3 as [_ I3]. eapply Forall_impl; [|exact I3]. intros x [[H1 H2] Hp]. split; [|exact Hp].
      unfold inside, span_of. cbn [sp_begin sp_length]. lia.
    + inversion P4 as [|? n Pn In]; subst; constructor; [exact Pn|].
      unfold strictly_inside, span_of in *. cbn [sp_begin sp_length] in *. rewrite !app_length in *. cbn [length] in *.
      lia.
  - constructor; [|apply I3|exact F4]. apply C42_only_known_names. exact Look.
Qed.

Theorem all_sound : forall fuel,
  L_sound fuel /\ P_sound fuel /\ I_sound fuel /\ D_sound fuel /\ C_sound fuel.
Proof.
  induction fuel as [|fuel (HL & HP & HI & HD & HC)].
  - repeat split; red; intros; discriminate.
  - split; [apply content_step; assumption|]. split; [apply paragraph_step; assumption|].
    split; [apply directives_step; assumption|]. split; [apply directive_step; assumption|].
    apply block_step; assumption.
Qed.

End Sound.

(** * Documents *)

Theorem parse_sound : forall fuel src n,
  bmd_parse fuel src = Some (Ok (Some n)) ->
  exists sp l, n = B_list sp l /\ placed src n /\ Forall (fits r_content_item) l /\ sp_begin sp < Z.of_nat (length src).
Proof.
  intros fuel src n H. unfold bmd_parse in H. binv H x1 E1. destruct x1 as [b st1]. some_ok E1.
  destruct (eof st1) eqn:F; [discriminate H|]. binv H x2 E2. destruct x2 as [n' st2]. injection H as <-.
  destruct (match_blank_moves _ _ _ _ E1) as (t1 & M1 & _).
  assert (A : at_src src (PState (Position 0 0 0) src)).
  { exists [], []. cbn [ps_rest ps_pos app]. rewrite app_nil_r. split; reflexivity. }
  pose proof (at_src_moves _ _ _ _ A M1) as A1.
  destruct (all_sound src fuel) as (HL & _).
  destruct (HL st1 st1 st1 [] [] [] [] n' st2 A1 (moves_refl _) (moves_refl _)) as (t & l & _ & _ & -> & Pn & Fl).
  - split; [apply list_inv_nil|]. split; [apply list_inv_nil|]. repeat split; constructor.
  - exact E2.
  - eexists. eexists. split; [reflexivity|]. split; [exact Pn|]. split; [exact Fl|].
    destruct A1 as (pre & post & -> & P). unfold span_of. rewrite P. cbn [sp_begin locate po_begin].
    unfold eof in F. destruct (ps_rest st1); [discriminate F|]. rewrite !app_length. cbn [length]. lia.
Qed.
