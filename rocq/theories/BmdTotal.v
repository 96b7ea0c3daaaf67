(** On which sources the BMD parser ends without failing an assertion. *)
From Coq Require Import ZArith Ascii String List Bool Lia.
From Verif Require Import Prelude Text Literals LiteralsSpec LiteralsProofs HtmlWriter HtmlWriterProofs
  Directives DirectivesSpec DirectivesProofs DirectivesProps BmdParse BmdParseSpec BmdParseFacts
  BmdRawFacts BmdParseProofs BmdSound.
Import ListNotations.
Open Scope string_scope.
Open Scope list_scope.
Open Scope Z_scope.
Local Arguments Z.pow : simpl never.
Local Arguments char_eqb : simpl never.

(** * More fuel does not change the result *)

Definition refines {A} (x y : option A) : Prop := forall r, x = Some r -> y = Some r.

Lemma refines_refl : forall A (x : option A), refines x x.
Proof. intros A x r H. exact H. Qed.

Lemma bind_refines : forall E A B (x y : option (outcome E A)) (f g : A -> option (outcome E B)),
  refines x y -> (forall a, refines (f a) (g a)) -> refines (bind_loop x f) (bind_loop y g).
Proof.
  intros E A B [x|] y f g Hx Hf r H; [|discriminate H]. rewrite (Hx x eq_refl).
  destruct x; try exact H. exact (Hf _ _ H).
Qed.

Lemma inside_refines : forall A (f g : pstate -> option (outcome bmd_error (A * pstate))) st,
  (forall s, refines (f s) (g s)) -> refines (match_inside_block f st) (match_inside_block g st).
Proof.
  intros A f g st H. unfold match_inside_block. apply bind_refines; [apply refines_refl|].
  intros [[p c] s]. apply bind_refines; [apply H|]. intros [a inner]. apply refines_refl.
Qed.

Ltac refine_step :=
  match goal with
  | |- refines ?x ?x => apply refines_refl
  | |- refines (bind_loop _ _) (bind_loop _ _) => apply bind_refines
  | |- refines (match_inside_block _ _) (match_inside_block _ _) => apply inside_refines
  | |- forall _, _ => intro
  | |- refines (let '(_, _) := ?x in _) _ => destruct x
  | |- refines (if ?x then _ else _) _ => destruct x
  | |- refines (match ?x with _ => _ end) _ => destruct x
  | H : forall _, _ |- _ => apply H
  end.

Lemma more_fuel : forall f,
  (forall i b e p st, refines (content_loop f i b e p st) (content_loop (S f) i b e p st)) /\
  (forall i e st, refines (paragraph_loop f i e st) (paragraph_loop (S f) i e st)) /\
  (forall c i e st, refines (directives_loop f c i e st) (directives_loop (S f) c i e st)) /\
  (forall c st, refines (match_directive f c st) (match_directive (S f) c st)) /\
  (forall c st, refines (match_directive_content f c st) (match_directive_content (S f) c st)).
Proof.
  induction f as [|f (HL & HP & HI & HD & HC)].
  - repeat split; repeat intro; discriminate.
  - split; [|split; [|split; [|split]]].
    + intros i b e p st. remember (S f) as g eqn:Eg.
      rewrite Eg at 1. cbn [content_loop]. repeat refine_step.
    + intros i e st. remember (S f) as g eqn:Eg. rewrite Eg at 1. cbn [paragraph_loop]. repeat refine_step.
    + intros c i e st. remember (S f) as g eqn:Eg. rewrite Eg at 1. cbn [directives_loop]. repeat refine_step.
    + intros c st. remember (S f) as g eqn:Eg. rewrite Eg at 1. cbn [match_directive]. repeat refine_step.
    + intros c st. remember (S f) as g eqn:Eg. rewrite Eg at 1. cbn [match_directive_content].
      repeat refine_step.
Qed.

Lemma content_more : forall f g i b e p st, (f <= g)%nat ->
  refines (content_loop f i b e p st) (content_loop g i b e p st).
Proof.
  intros f g i b e p st L. induction L as [|g L IH]; [apply refines_refl|].
  intros r H. apply (proj1 (more_fuel g)). apply IH. exact H.
Qed.

Theorem parse_more : forall f g src r, (f <= g)%nat ->
  bmd_parse f src = Some r -> bmd_parse g src = Some r.
Proof.
  intros f g src r L. unfold bmd_parse. apply bind_refines; [apply refines_refl|]. intros [b st1].
  destruct (eof st1); [apply refines_refl|].
  apply bind_refines; [apply content_more; exact L|]. intros [n st]. apply refines_refl.
Qed.

(** * Where the loops end *)

Lemma peek_directive : forall st, peek_possible_directive st = at_directive (ps_rest st).
Proof. reflexivity. Qed.

Lemma paragraph_ends : forall f i e st n st',
  paragraph_loop f i e st = Some (Ok (n, st')) -> eof st' = true \/ peek_if is_space st' = true.
Proof.
  induction f as [|f IH]; intros i e st n st' H; [discriminate H|]. cbn [paragraph_loop] in H.
  destruct (eof st) eqn:Eof; [injection H as <- <-; now left|].
  binv H x1 E1. destruct x1 as [stop st1].
  destruct (peek_if is_space st) eqn:Sp.
  - binv E1 x2 E2. destruct x2 as [b s]. some_ok E2. injection E1 as <- <-.
    destruct (bl_length b =? 0) eqn:Z0.
    + injection H as <- <-.
      destruct (match_word_blank_moves _ _ _ E2) as (t & [M1 M2] & L & _). right.
      assert (length t = 0)%nat by lia. destruct t; [|discriminate]. cbn [app] in M1.
      unfold peek_if in *. rewrite <- M1. exact Sp.
    + binv H x3 E3. destruct x3 as [[t|] st2]; [eapply IH; exact H|].
      destruct (peek_possible_directive st2); [|eapply IH; exact H].
      binv H x4 E4. destruct x4 as [d st3]. eapply IH; exact H.
  - injection E1 as <- <-. binv H x3 E3. destruct x3 as [[t|] st2]; [eapply IH; exact H|].
    destruct (peek_possible_directive st2); [|eapply IH; exact H].
    binv H x4 E4. destruct x4 as [d st3]. eapply IH; exact H.
Qed.

Lemma directives_end : forall f c i e st n st',
  directives_loop f c i e st = Some (Ok (n, st')) -> eof st' = true.
Proof.
  induction f as [|f IH]; intros c i e st n st' H; [discriminate H|]. cbn [directives_loop] in H.
  destruct (eof st) eqn:Eof; [injection H as <- <-; exact Eof|].
  destruct (negb (peek_possible_directive st)); [discriminate H|].
  binv H x1 E1. destruct x1 as [d st1]. binv H x2 E2. destruct x2 as [b st2]. eapply IH; exact H.
Qed.

Lemma bind_total : forall E A B (x : option (outcome E A)) (f : A -> option (outcome E B)),
  (exists r, x = Some r /\ defined r) ->
  (forall a, x = Some (Ok a) -> exists r, f a = Some r /\ defined r) ->
  exists r, bind_loop x f = Some r /\ defined r.
Proof.
  intros E A B x f (r & -> & D) H. apply bind_loop_total; [exact D|]. intros a ->. apply H. reflexivity.
Qed.

Ltac done := eexists; split; [reflexivity|exact I].

(** * Tame sources *)

Section Total.
Variable src : text.
Hypothesis Tame : tame src.

Definition good (st : pstate) : Prop := at_src src st /\ ~ ends_in_opener (ps_rest st).

Lemma good_moves : forall st t st', good st -> moves st t st' -> good st'.
Proof.
  intros st t st' [A N] M. split; [eapply at_src_moves; eassumption|exact (not_ends_moves _ _ _ M N)].
Qed.

Lemma at_comment_opener : forall s, at_comment s = true -> exists o r, opener o /\ s = o ++ r.
Proof.
  intros s H. unfold at_comment in H. apply orb_true_iff in H.
  destruct H as [H|H]; apply starts_with_iff in H; destruct H as [r ->].
  - exists (str "//"), r. split; [now left|reflexivity].
  - exists (str "/*"), r. split; [now right|reflexivity].
Qed.

Lemma no_comment_after : forall st t st',
  at_src src st -> moves st t st' -> solid t -> at_comment (ps_rest st') = false.
Proof.
  intros st t st' (pre & post & E & _) [M _] (t' & c & -> & Sp).
  destruct (at_comment (ps_rest st')) eqn:C; [|reflexivity]. exfalso.
  apply at_comment_opener in C. destruct C as (o & r & Ho & R).
  destruct Tame as (_ & _ & T & _).
  destruct (T (pre ++ t' ++ [c]) o (r ++ post) Ho) as [Z0|(pre' & d & Ed & Sd)].
  - rewrite E, M, R, <- !app_assoc. reflexivity.
  - destruct pre; [|discriminate Z0]. destruct t'; discriminate Z0.
  - rewrite app_assoc in Ed. apply app_inj_tail in Ed. destruct Ed as [_ <-]. congruence.
Qed.

Lemma good_inside : forall st content rest,
  at_src src st -> ps_rest st = str "{" ++ content ++ str "}" ++ rest -> raw_content content ->
  good (PState (to_right 1 (ps_pos st)) content).
Proof.
  intros st content rest (pre & post & E & P) R RC. split.
  - exists (pre ++ str "{"), (str "}" ++ rest ++ post). cbn [ps_rest ps_pos]. split.
    + rewrite E, R, <- !app_assoc. reflexivity.
    + rewrite P. rewrite <- (advance_plain "{"%char) by reflexivity. apply advance_locate.
  - cbn [ps_rest]. intros (a & o & Ho & Ec).
    destruct (raw_content_ends content a o RC Ho Ec) as (a' & ->).
    destruct Tame as (_ & _ & T & _).
    destruct (T (pre ++ str "{" ++ a' ++ ["*"%char]) o (str "}" ++ rest ++ post) Ho)
      as [Z0|(pre' & d & Ed & Sd)].
    + rewrite E, R, Ec, <- !app_assoc. reflexivity.
    + destruct pre; discriminate Z0.
    + rewrite !app_assoc in Ed. apply app_inj_tail in Ed. destruct Ed as [_ <-]. discriminate Sd.
Qed.

Lemma raw_impl_defined : forall st, at_src src st -> defined (match_raw_block_impl st).
Proof.
  intros st (pre & post & E & P). unfold match_raw_block_impl.
  destruct (expect "{" br_block st) as [st1| | |] eqn:E1; cbn [bind]; try exact I;
    [|pose proof (expect_defined "{" br_block st) as D; rewrite E1 in D; exact D..].
  pose proof (expect_moves _ _ _ _ E1) as [M1 M2].
  pose proof (raw_loop_defined _ _ (le_n _) cm_none 0 (ps_pos st1) : defined (raw_loop cm_none 0 (ps_pos st1) (ps_rest st1))) as D.
  destruct (raw_loop cm_none 0 (ps_pos st1) (ps_rest st1)) as [st2| | |] eqn:E2; try exact D. cbn [bind].
  apply raw_loop_iff in E2. destruct E2 as (c & RC & R & P2). rewrite P2, move_begin, app_length. cbn [length].
  replace (Z.to_nat _) with (length c) by lia.
  rewrite R, firstn_app, Nat.sub_diag, firstn_all. cbn [firstn]. rewrite app_nil_r.
  destruct c as [|x c]; [|exact I]. exfalso. destruct Tame as [T _]. apply T.
  exists pre, (ps_rest st2 ++ post). rewrite E, M1, R. reflexivity.
Qed.

Lemma inside_total : forall A (f : pstate -> option (outcome bmd_error (A * pstate))) st,
  at_src src st ->
  (forall s, good s -> (length (ps_rest s) + 2 <= length (ps_rest st))%nat ->
     exists r, f s = Some r /\ defined r /\ match r with Ok (_, s') => eof s' = true | _ => True end) ->
  exists r, match_inside_block f st = Some r /\ defined r.
Proof.
  intros A f st At H. unfold match_inside_block.
  apply bind_loop_total; [apply raw_impl_defined; exact At|]. intros [[p content] st1] E1.
  apply match_raw_block_impl_iff in E1. destruct E1 as (R & RC & Ne & _ & _).
  destruct (H (PState (to_right 1 (ps_pos st)) content)) as (r & Er & D & Fin).
  - eapply good_inside; eassumption.
  - cbn [ps_rest]. rewrite R, !app_length. cbn [length str list_ascii_of_string]. lia.
  - rewrite Er. apply bind_loop_total; [exact D|]. intros [a inner] ->. rewrite Fin. done.
Qed.

Definition enough (k fuel : nat) (st : pstate) : Prop := (3 * length (ps_rest st) + k <= fuel)%nat.

Definition L_total (fuel : nat) : Prop := forall i b e p st,
  good st -> at_blank (ps_rest st) = false -> enough 3 fuel st ->
  exists r, content_loop fuel i b e p st = Some r /\ defined r.
Definition P_total (fuel : nat) : Prop := forall i e st,
  good st -> at_comment (ps_rest st) = false -> enough 3 fuel st ->
  exists r, paragraph_loop fuel i e st = Some r /\ defined r.
Definition I_total (fuel : nat) : Prop := forall c i e st,
  allows_directives c = true -> good st -> enough 3 fuel st ->
  exists r, directives_loop fuel c i e st = Some r /\ defined r.
Definition D_total (fuel : nat) : Prop := forall c st,
  allows_directives c = true -> good st -> enough 2 fuel st ->
  exists r, match_directive fuel c st = Some r /\ defined r.
Definition C_total (fuel : nat) : Prop := forall c st,
  good st -> enough 3 fuel st ->
  exists r, match_directive_content fuel c st = Some r /\ defined r.

Lemma at_blank_space : forall st, at_blank (ps_rest st) = false -> peek_if is_space st = false.
Proof.
  intros st N. unfold at_blank in N. unfold peek_if. destruct (ps_rest st); [reflexivity|].
  apply orb_false_iff in N. apply N.
Qed.

Lemma at_blank_comment : forall s, at_blank s = false -> at_comment s = false.
Proof.
  intros [|c s] N; [reflexivity|]. unfold at_blank in N. apply orb_false_iff in N. apply N.
Qed.

Lemma directives_total_step : forall f, D_total f -> I_total f -> I_total (S f).
Proof.
  intros f HD HI c i e st Al G En. unfold enough in En. cbn [directives_loop].
  destruct (eof st) eqn:Eof; [done|].
  destruct (negb (peek_possible_directive st)); [done|].
  apply bind_total; [apply HD; [exact Al|exact G|unfold enough; lia]|]. intros [d st1] E1.
  destruct (all_sound src f) as (_ & _ & _ & SD & _).
  destruct (SD _ _ _ _ (proj1 G) E1) as (t1 & ty & id & args & bl & M1 & S1 & _).
  pose proof (good_moves _ _ _ G M1) as G1.
  apply bind_loop_total; [apply match_blank_defined; apply G1|]. intros [b st2] E2.
  destruct (match_blank_moves _ _ _ _ E2) as (t2 & M2 & _).
  apply HI; [exact Al|exact (good_moves _ _ _ G1 M2)|].
  pose proof (moves_length _ _ _ M1). pose proof (moves_length _ _ _ M2).
  pose proof (solid_nonempty _ S1). unfold enough. lia.
Qed.

Lemma paragraph_total_step : forall f, D_total f -> P_total f -> P_total (S f).
Proof.
  intros f HD HP i e st G Nc En. unfold enough in En. cbn [paragraph_loop].
  destruct (eof st) eqn:Eof; [done|].
  apply bind_total.
  - destruct (peek_if is_space st); [|done].
    apply bind_loop_total; [apply match_word_blank_defined; apply G|]. intros [b st1] _. done.
  - intros [stop st1] E1. destruct stop; [done|].
    assert (Q : exists t1, moves st t1 st1 /\ at_blank (ps_rest st1) = false).
    { destruct (peek_if is_space st) eqn:Sp.
      - binv E1 x2 E2. destruct x2 as [b s]. some_ok E2. injection E1 as Z0 <-.
        destruct (match_word_blank_moves _ _ _ E2) as (t & M & L & N). exists t. split; [exact M|].
        apply N. unfold match_word_blank in E2.
        destruct (match_blank br_blank st) as [[b2 st2]| | |]; try discriminate E2. cbn [bind] in E2.
        destruct (bl_break b2) eqn:Br; injection E2 as <- <-; [discriminate Z0|exact Br].
      - injection E1 as <-. exists []. split; [apply moves_refl|]. unfold at_blank, peek_if in *.
        destruct (ps_rest st); [reflexivity|]. rewrite Sp, Nc. reflexivity. }
    destruct Q as (t1 & M1 & Nb).
    pose proof (good_moves _ _ _ G M1) as G1. pose proof (moves_length _ _ _ M1) as L1.
    destruct (match_text_spec st1 (at_blank_space _ Nb))
      as (t2 & st2 & M2 & Stop & [(-> & -> & E2) | (S2 & E2)]); rewrite E2; cbn [bind_loop].
    + destruct (peek_possible_directive st1) eqn:PD.
      * apply bind_total; [apply HD; [reflexivity|exact G1|unfold enough; lia]|]. intros [d st3] E3.
        destruct (all_sound src f) as (_ & _ & _ & SD & _).
        destruct (SD _ _ _ _ (proj1 G1) E3) as (t3 & ty & id & args & bl & M3 & S3 & _).
        pose proof (moves_length _ _ _ M3). pose proof (solid_nonempty _ S3).
        apply HP; [exact (good_moves _ _ _ G1 M3)| |unfold enough; lia].
        eapply no_comment_after; [apply G1|exact M3|exact S3].
      * (* at the end *)
        assert (Z0 : ps_rest st1 = []).
        { rewrite peek_directive in PD. unfold text_stops in Stop.
          destruct (ps_rest st1) as [|c r] eqn:R; [reflexivity|]. exfalso.
          rewrite <- R in *. pose proof (at_blank_comment _ Nb). unfold at_blank in Nb. rewrite R in Nb.
          rewrite <- R in Nb. apply orb_false_iff in Nb. destruct Nb as [Nb _].
          destruct Stop as [X|[X|X]]; congruence. }
        apply HP; [exact G1|rewrite Z0; reflexivity|].
        unfold enough. unfold eof in Eof. destruct (ps_rest st); [discriminate Eof|]. rewrite Z0. cbn [length] in *. lia.
    + pose proof (moves_length _ _ _ M2). pose proof (solid_nonempty _ S2).
      apply HP; [exact (good_moves _ _ _ G1 M2)| |unfold enough; lia].
      eapply no_comment_after; [apply G1|exact M2|exact S2].
Qed.

Lemma content_total_step : forall f, D_total f -> L_total f -> L_total (S f).
Proof.
  intros f HD HL i b e p st G Nb En. unfold enough in En. cbn [content_loop].
  destruct (eof st) eqn:Eof; [destruct (break_paragraph e p b (ps_pos st)) as [[e' p'] b']; done|].
  rewrite (at_blank_space _ Nb).
  assert (Rest : forall e1 p1 b1 st1 t1, moves st t1 st1 -> solid t1 ->
    exists r, (let& (bk, st'') := Some (match_blank br_content st1) in
        let '(elements'', paragraph'', before'') :=
          if bl_break bk then break_paragraph e1 p1 b1 (ps_pos st'')
          else (e1, p1, b1) in
        content_loop f i before'' elements'' paragraph'' st'') = Some r /\ defined r).
  { intros e1 p1 b1 st1 t1 M1 S1. pose proof (good_moves _ _ _ G M1) as G1.
    apply bind_loop_total; [apply match_blank_defined; apply G1|]. intros [bk st2] E2.
    destruct (match_blank_moves _ _ _ _ E2) as (t2 & M2 & _ & Nb2).
    pose proof (good_moves _ _ _ G1 M2) as G2.
    pose proof (moves_length _ _ _ M1). pose proof (moves_length _ _ _ M2).
    pose proof (solid_nonempty _ S1).
    destruct (if bl_break bk then _ else _) as [[e2 p2] b2].
    apply HL; [exact G2|exact Nb2|unfold enough; lia]. }
  destruct (peek_possible_directive st) eqn:PD.
  - destruct (HD ct_block st eq_refl G ltac:(unfold enough; lia)) as (r & Er & Dr). rewrite Er.
    destruct r as [[d st1]|err| |]; try contradiction Dr; [|done]. cbn [bind_loop].
    destruct (all_sound src f) as (_ & _ & _ & SD & _).
    destruct (SD _ _ _ _ (proj1 G) Er) as (t1 & ty & id & args & bl & M1 & S1 & -> & _).
    destruct (environment_of ty); try done; cbn [bind_loop]; [eapply Rest; eassumption|].
    destruct (break_paragraph e p b (ps_pos st1)) as [[e' p'] b']. eapply Rest; eassumption.
  - destruct (match_text_spec st (at_blank_space _ Nb))
      as (t2 & st2 & M2 & Stop & [(-> & -> & E2) | (S2 & E2)]); rewrite E2; cbn [bind_loop].
    + exfalso. rewrite peek_directive in PD. unfold text_stops in Stop. unfold eof in Eof.
      pose proof (at_blank_comment _ Nb). pose proof (at_blank_space _ Nb) as Ns. unfold peek_if in Ns.
      destruct (ps_rest st); [discriminate Eof|]. destruct Stop as [X|[X|X]]; congruence.
    + eapply Rest; eassumption.
Qed.

Lemma directive_total_step : forall f, C_total f -> D_total (S f).
Proof.
  intros f HC c st Al G En. unfold enough in En. cbn [match_directive]. rewrite Al. cbn [negb].
  apply bind_loop_total; [apply expect_defined|]. intros st1 E1.
  apply bind_loop_total; [apply match_name_defined|]. intros [[id isp] st2] E2.
  pose proof (expect_moves _ _ _ _ E1) as M1.
  destruct (match_name_moves _ _ _ _ E2) as (M2 & Ne & Id & _).
  pose proof (good_moves _ _ _ G M1) as G1. pose proof (good_moves _ _ _ G1 M2) as G2.
  pose proof (directive_lookup id) as Look.
  destruct (directive_type_by_id id) as [[ty|]|u| |]; try contradiction Look.
  - destruct (allowed_in ty c); cbn [negb]; [|done].
    apply bind_total; [destruct (peek_char "[" st2); [apply match_arguments_total; apply G2|done]|].
    intros [args st3] E3.
    assert (M3 : exists t3, moves st2 t3 st3).
    { destruct (peek_char "[" st2).
      - destruct (match_arguments_moves src 0 _ _ _ E3 (proj1 G2)) as (t3 & M3 & _).
        + destruct G2 as [(pre & post & _ & P) _]. rewrite P. cbn. lia.
        + exists t3. exact M3.
      - injection E3 as <- <-. exists []. apply moves_refl. }
    destruct M3 as [t3 M3]. pose proof (good_moves _ _ _ G2 M3) as G3.
    pose proof (moves_length _ _ _ M1). pose proof (moves_length _ _ _ M2).
    pose proof (moves_length _ _ _ M3). cbn [length] in *.
    apply bind_total.
    + destruct (peek_char "{" st3); [|done]. apply HC; [exact G3|]. unfold enough.
      destruct id; [destruct Ne; reflexivity|]. cbn [length] in *. lia.
    + intros [block st4] E4. done.
  - destruct G1 as [(pre & post & _ & P) _].
    assert (P2 : ps_pos st2 = to_right (length id) (ps_pos st1)).
    { rewrite (proj2 M2). apply move_plain. eapply Forall_plain; [|exact Id]. intros x. apply identifier_plain. }
    unfold to_left. rewrite P2, P. unfold to_right, locate. cbn [po_column po_begin po_line].
    assert (0 <= column_after 0 pre) by (apply column_after_nonneg; lia).
    eexists. split; [reflexivity|].
    destruct (Z.of_nat (length id) <=? column_after 0 pre + Z.of_nat (length id)) eqn:X1; [|lia].
    destruct (Z.of_nat (length id) <=? Z.of_nat (length pre) + Z.of_nat (length id)) eqn:X2; [|lia].
    exact I.
  - exfalso. apply beyond_ul in Look. destruct Tame as (_ & T & _). apply (T id Id); [|exact Look].
    destruct G as [(pre & post & E & _) _]. exists pre, (ps_rest st2 ++ post).
    rewrite E, (proj1 M1), (proj1 M2), <- !app_assoc. reflexivity.
Qed.

Lemma block_total_step : forall f, L_total f -> P_total f -> I_total f -> C_total (S f).
Proof.
  intros f HL HP HI c st G En. unfold enough in En. cbn [match_directive_content].
  destruct (all_sound src f) as (SL & SP & SI & _).
  assert (Bl : forall s, good s -> forall g : blank * pstate -> option (outcome bmd_error (option bmd_node * pstate)),
    (forall b s1 t, moves s t s1 -> good s1 -> at_blank (ps_rest s1) = false ->
      (length (ps_rest s1) <= length (ps_rest s))%nat ->
      exists r, g (b, s1) = Some r /\ defined r /\ match r with Ok (_, s') => eof s' = true | _ => True end) ->
    exists r, bind_loop (Some (match_blank br_block s)) g = Some r /\ defined r /\
      match r with Ok (_, s') => eof s' = true | _ => True end).
  { intros s Gs g H. pose proof (match_blank_defined br_block s (proj2 Gs)) as D.
    destruct (match_blank br_block s) as [[b s1]|e| |] eqn:E; try contradiction D; cbn [bind_loop].
    - destruct (match_blank_moves _ _ _ _ E) as (t & M & _ & N).
      eapply (H b s1 t M); [exact (good_moves _ _ _ Gs M)|exact N|].
      pose proof (moves_length _ _ _ M). lia.
    - exists (Err e). repeat split. }
  assert (Dirs : forall c, c = ct_meta \/ c = ct_list ->
    exists r, match_inside_block
            (fun st =>
               let& (_, st1) := Some (match_blank br_block st) in
               let& (n, st2) := directives_loop f c (ps_pos st) [] st1 in
               Some (Ok (Some n, st2))) st = Some r /\ defined r).
  { intros c' Hc. apply inside_total; [apply G|]. intros s Gs Ls. apply Bl; [exact Gs|].
    intros b s1 t M G1 N L1. cbv beta.
    destruct (HI c' (ps_pos s) [] s1) as (r & Er & Dr);
      [destruct Hc as [-> | ->]; reflexivity|exact G1|unfold enough; lia|].
    rewrite Er. destruct r as [[n s2]|err| |]; try contradiction Dr; cbn [bind_loop].
    - eexists. split; [reflexivity|]. split; [exact I|]. eapply directives_end. exact Er.
    - exists (Err err). repeat split. }
  destruct c; cbn [allows_directives].
  - unfold match_empty_block. pose proof (match_blank_defined br_block st (proj2 G)) as D.
    eexists. split; [reflexivity|].
    destruct (match_blank br_block st) as [[b s1]|e| |]; try contradiction D; [|exact I]. cbn [bind].
    destruct (expect "}" br_block s1); exact I.
  - apply inside_total; [apply G|]. intros s Gs Ls. apply Bl; [exact Gs|].
    intros b s1 t M G1 N L1. cbv beta. destruct (bl_break b); [eexists; repeat split|].
    destruct (match_text_spec s1 (at_blank_space _ N))
      as (t2 & s2 & M2 & Stop & C2).
    assert (E2 : exists n, match_text s1 = Ok (n, s2)).
    { destruct C2 as [(_ & _ & E2)|(_ & E2)]; eauto. }
    destruct E2 as [n E2]. rewrite E2. cbn [bind_loop].
    destruct (peek_if is_space s2) eqn:Sp; [eexists; repeat split|].
    cbn [negb andb]. destruct (peek_possible_directive s2) eqn:PD; [eexists; repeat split|].
    eexists. split; [reflexivity|]. split; [exact I|].
    assert (Nc : at_comment (ps_rest s2) = false).
    { destruct C2 as [(-> & -> & _)|(S2 & _)]; [apply at_blank_comment; exact N|].
      eapply no_comment_after; [apply G1|exact M2|exact S2]. }
    rewrite peek_directive in PD. unfold text_stops in Stop. unfold eof, peek_if in *.
    destruct (ps_rest s2); [reflexivity|]. destruct Stop as [X|[X|X]]; congruence.
  - apply inside_total; [apply G|]. intros s Gs Ls. apply Bl; [exact Gs|].
    intros b s1 t M G1 N L1. cbv beta. destruct (bl_break b); [eexists; repeat split|].
    destruct (HP (ps_pos s1) [] s1 G1 (at_blank_comment _ N)) as (r & Er & Dr); [unfold enough; lia|].
    rewrite Er. destruct r as [[n s2]|err| |]; try contradiction Dr; cbn [bind_loop];
      [|exists (Err err); repeat split].
    destruct (peek_if is_space s2) eqn:Sp; [eexists; repeat split|]. cbn [negb andb].
    eexists. split; [reflexivity|]. split; [exact I|].
    destruct (paragraph_ends _ _ _ _ _ _ Er) as [X|X]; [exact X|congruence].
  - apply inside_total; [apply G|]. intros s Gs Ls. apply Bl; [exact Gs|].
    intros b s1 t M G1 N L1. cbv beta.
    destruct (HL (ps_pos s1) (ps_pos s1) [] [] s1 G1 N) as (r & Er & Dr); [unfold enough; lia|].
    rewrite Er. destruct r as [[n s2]|err| |]; try contradiction Dr; cbn [bind_loop];
      [|exists (Err err); repeat split].
    eexists. split; [reflexivity|]. split; [exact I|].
    destruct (SL s1 s1 s1 [] [] [] [] n s2 (proj1 G1) (moves_refl _) (moves_refl _)) as (t' & l & _ & R & _).
    + split; [apply list_inv_nil|]. split; [apply list_inv_nil|]. repeat split; constructor.
    + exact Er.
    + unfold eof. rewrite R. reflexivity.
  - apply Dirs. now left.
  - apply Dirs. now right.
  - eexists. split; [reflexivity|]. unfold match_raw_block.
    pose proof (raw_impl_defined st (proj1 G)) as D.
    destruct (match_raw_block_impl st) as [[[p content] st1]| | |]; exact D.
Qed.

Lemma all_total : forall f,
  L_total f /\ P_total f /\ I_total f /\ D_total f /\ C_total f.
Proof.
  induction f as [|f (HL & HP & HI & HD & HC)].
  - repeat split; red; intros; unfold enough in *; lia.
  - split; [apply content_total_step; assumption|]. split; [apply paragraph_total_step; assumption|].
    split; [apply directives_total_step; assumption|]. split; [apply directive_total_step; assumption|].
    apply block_total_step; assumption.
Qed.

(** [parse_fuel] is enough. *)
Theorem parse_total : exists r, bmd_parse (parse_fuel src) src = Some r /\ defined r.
Proof.
  unfold bmd_parse.
  assert (G : good (PState (Position 0 0 0) src)).
  { split.
    - exists [], []. cbn [ps_rest ps_pos app]. rewrite app_nil_r. split; reflexivity.
    - intros (pre & o & Ho & E). destruct Tame as (_ & _ & _ & T). exact (T pre o Ho E). }
  apply bind_loop_total; [apply match_blank_defined; apply G|]. intros [b st1] E1.
  destruct (match_blank_moves _ _ _ _ E1) as (t1 & M1 & _ & N).
  destruct (eof st1); [done|].
  apply bind_total.
  - apply all_total; [exact (good_moves _ _ _ G M1)|exact N|].
    pose proof (moves_length _ _ _ M1) as L. cbn [ps_rest] in L. unfold enough, parse_fuel. lia.
  - intros [n st2] _. done.
Qed.

End Total.

(** * Recognising tame sources *)

Definition tame_at (pre s : text) : bool :=
  negb (starts_with s (str "{}")) &&
  (if starts_with s (str "\") then
     forallb (fun k => let id := firstn k (skipn 1 s) in
                       negb (forallb (fun c => in_set c identifier_characters) id) ||
                       negb (text_ltb (str "ul") id)) (seq 0 (length s))
   else true) &&
  (if at_comment s then
     match rev pre with [] => true | c :: _ => is_space c end && negb (Nat.eqb (length s) 2)
   else true).

Definition tameb (src : text) : bool :=
  forallb (fun i => tame_at (firstn i src) (skipn i src)) (seq 0 (S (length src))).

Lemma tameb_at : forall src, tameb src = true -> forall pre s, src = pre ++ s -> tame_at pre s = true.
Proof.
  intros src H pre s ->. unfold tameb in H. rewrite forallb_forall in H.
  specialize (H (length pre)).
  rewrite firstn_app, skipn_app, Nat.sub_diag, firstn_all, skipn_all in H. cbn [firstn skipn app] in H.
  rewrite app_nil_r in H. apply H. apply in_seq. rewrite app_length. lia.
Qed.

Lemma starts_with_app : forall p s, starts_with (p ++ s) p = true.
Proof. intros p s. apply starts_with_iff. exists s. reflexivity. Qed.

Theorem tameb_tame : forall src, tameb src = true -> tame src.
Proof.
  intros src H. pose proof (tameb_at src H) as T. clear H. split; [|split; [|split]].
  - intros (u & v & E). specialize (T u (str "{}" ++ v) E). unfold tame_at in T.
    rewrite starts_with_app in T. discriminate T.
  - intros id Hid (u & v & E) P. rewrite <- app_assoc in E. specialize (T u _ E). unfold tame_at in T.
    rewrite starts_with_app in T. apply andb_true_iff in T. destruct T as [T _].
    apply andb_true_iff in T. destruct T as [_ T]. rewrite forallb_forall in T.
    specialize (T (length id)).
    replace (skipn 1 (str "\" ++ id ++ v)) with (id ++ v) in T by reflexivity.
    rewrite firstn_app, Nat.sub_diag, firstn_all in T. cbn [firstn] in T. rewrite app_nil_r in T.
    assert (I1 : forallb (fun c => in_set c identifier_characters) id = true).
    { apply forallb_forall. apply Forall_forall. exact Hid. }
    apply text_ltb_precedes in P. cbv zeta in T. rewrite I1, P in T.
    assert (X : negb true || negb true = true); [|discriminate X]. apply T. apply in_seq.
    rewrite !app_length. cbn [length str list_ascii_of_string]. lia.
  - intros pre o post Ho E. specialize (T pre (o ++ post) E). unfold tame_at in T.
    apply andb_true_iff in T. destruct T as [_ T].
    assert (C : at_comment (o ++ post) = true).
    { unfold at_comment. apply orb_true_iff. destruct Ho as [-> | ->]; [left|right]; apply starts_with_app. }
    rewrite C in T. apply andb_true_iff in T. destruct T as [T _].
    destruct (rev pre) as [|c r] eqn:R.
    + left. rewrite <- (rev_involutive pre), R. reflexivity.
    + right. exists (rev r), c. split; [|exact T]. rewrite <- (rev_involutive pre), R. reflexivity.
  - intros pre o Ho E. specialize (T pre o E). unfold tame_at in T.
    apply andb_true_iff in T. destruct T as [_ T].
    assert (C : at_comment o = true) by (destruct Ho as [-> | ->]; reflexivity).
    rewrite C in T. apply andb_true_iff in T. destruct T as [_ T].
    destruct Ho as [-> | ->]; discriminate T.
Qed.
