(** When the parser's question about comparisons has the right answer everywhere in a printed expression. *)
From Coq Require Import ZArith Ascii String List Bool Lia.
From Verif Require Import Prelude Text Literals LiteralsSpec LiteralsProofs Types Ops Tables Tokenizer TokenizerSpec
  TokenizerProofs Annotations AbsOps Ast NameLookup Parse GrammarSpec ParseFacts ParseDialects CodeString GenBase GenBms GenFacts Spell
  PrintSpec PrintFacts PrintGrammar.
Import ListNotations.
Open Scope string_scope.
Open Scope list_scope.
Open Scope Z_scope.

(** ** Any choice *)

Section Any.
Variable o : code_options.
Variable d : dialect.
Hypothesis any : forall ts b, choice d ts b.

Lemma starts_any : forall e rest, starts o d e rest.
Proof. intros [] rest; cbn; auto. Qed.

Lemma agrees_any : forall e rest, agrees o d e rest.
Proof.
  induction e as [cv e t IHe IHt | cv l c r IHl IHc IHr | cv op l r IHl IHr | cv op e IHe
    | cv name lk st args IH | cv name lk g | cv lit t] using expr_width_induction; intros rest; cbn [agrees].
  - split.
    + destruct (wraps o conversion e); [split; [apply starts_any|]|]; apply IHe.
    + destruct t as [c k [w|] n]; cbn in IHt; [split; [apply starts_any | apply IHt] | exact Logic.I].
  - repeat split; try apply any.
    + destruct (wraps o if_expression l); [split; [apply starts_any|]|]; apply IHl.
    + destruct (wraps o if_expression c); [split; [apply starts_any|]|]; apply IHc.
    + destruct (wraps o if_expression r); [split; [apply starts_any|]|]; apply IHr.
  - split.
    + destruct (wraps o op l); [split; [apply starts_any|]|]; apply IHl.
    + destruct (wraps o op r); [split; [apply starts_any|]|]; apply IHr.
  - destruct (wraps o op e); [split; [apply starts_any|]|]; apply IHe.
  - induction IH as [|a l A IH IH2]; [exact Logic.I|]. split; [split; [apply starts_any | apply A] | exact IH2].
  - exact Logic.I.
  - exact Logic.I.
Qed.
Lemma whole_any : forall e rest, whole o d e rest.
Proof. intros e rest. split; [apply starts_any | apply agrees_any]. Qed.
End Any.

(** ** Depths *)

Lemma depth_app : forall a b, depth (a ++ b) = depth a + depth b.
Proof. induction a as [|[k x] a IH]; intros b; [reflexivity|]. destruct k; cbn [app depth]; rewrite IH; lia. Qed.

Lemma depth_rp : depth [rp] = -1.
Proof. reflexivity. Qed.

(** Never below the depth at the start, and back to it at the end. *)
Definition balanced (ts : list lexeme) : Prop := depth ts = 0 /\ forall p q, ts = p ++ q -> 0 <= depth p.

Lemma balanced_app : forall a b, balanced a -> balanced b -> balanced (a ++ b).
Proof.
  intros a b (A1 & A2) (B1 & B2). split; [rewrite depth_app; lia|]. intros p q E.
  apply app_eq_app in E. destruct E as (l & [(-> & ->)|(-> & ->)]).
  - eapply A2. reflexivity.
  - rewrite depth_app. specialize (B2 l q eq_refl). lia.
Qed.
Lemma balanced_nil : balanced [].
Proof. split; [reflexivity|]. intros [|x p] q E; [cbn; lia | discriminate E]. Qed.
Lemma balanced_cons : forall k x ts, k <> tk_left_parenthesis -> k <> tk_right_parenthesis -> balanced ts -> balanced ((k, x) :: ts).
Proof.
  intros k x ts K1 K2 H. apply (balanced_app [(k, x)]); [|exact H]. split; [destruct k; try congruence; reflexivity|].
  intros [|y p] q E; [cbn; lia|]. injection E as <- E. symmetry in E. apply app_eq_nil in E. destruct E as [-> ->].
  destruct k; try congruence; cbn; lia.
Qed.
Lemma balanced_parens : forall ts, balanced ts -> balanced (lp :: ts ++ [rp]).
Proof.
  intros ts (A1 & A2). split; [change (1 + depth (ts ++ [rp]) = 0); rewrite depth_app, depth_rp; lia|]. intros [|y p] q E; [cbn; lia|].
  injection E as <- E. apply app_eq_app in E. destruct E as (l & [(-> & E)|(-> & E)]).
  - change (0 <= 1 + depth p). specialize (A2 p l eq_refl). lia.
  - destruct l as [|z l]; [rewrite app_nil_r; change (0 <= 1 + depth ts); lia|]. injection E as <- E. symmetry in E. apply app_eq_nil in E.
    destruct E as [-> ->]. change (0 <= 1 + depth (ts ++ [rp])). rewrite depth_app, depth_rp. lia.
Qed.

(** No [if] at the depth of the start. *)
Definition ifless (ts : list lexeme) : Prop := forall p y q, ts = p ++ (tk_keyword_if, y) :: q -> depth p <> 0.

Lemma split_at : forall (A : Type) (a b p q : list A) x, a ++ b = p ++ x :: q ->
  (exists q', a = p ++ x :: q' /\ q = q' ++ b) \/ (exists p', b = p' ++ x :: q /\ p = a ++ p').
Proof.
  intros A a b p q x E. apply app_eq_app in E. destruct E as (l & [(-> & E)|(-> & E)]).
  - destruct l as [|z l].
    + right. exists []. cbn in *. rewrite !app_nil_r. split; congruence.
    + left. injection E as <- ->. exists l. split; reflexivity.
  - right. exists l. split; [exact E | reflexivity].
Qed.

Lemma ifless_app : forall a b, depth a = 0 -> ifless a -> ifless b -> ifless (a ++ b).
Proof.
  intros a b D A B p y q E. apply split_at in E. destruct E as [(q' & -> & _)|(p' & -> & ->)].
  - eapply A. reflexivity.
  - rewrite depth_app, D. eapply B. reflexivity.
Qed.
Lemma ifless_nil : ifless [].
Proof. intros p y q E. destruct p; discriminate E. Qed.
Lemma ifless_cons : forall k x ts, k <> tk_left_parenthesis -> k <> tk_right_parenthesis -> k <> tk_keyword_if -> ifless ts ->
  ifless ((k, x) :: ts).
Proof.
  intros k x ts K1 K2 K3 H. apply (ifless_app [(k, x)]); [destruct k; try congruence; reflexivity | | exact H].
  intros p y q E. destruct p as [|z p]; [cbn in E; congruence|]. injection E as _ E. destruct p; discriminate E.
Qed.
Lemma ifless_parens : forall ts, balanced ts -> ifless (lp :: ts ++ [rp]).
Proof.
  intros ts (A1 & A2) p y q E. destruct p as [|z p]; [discriminate E|]. injection E as <- E.
  apply split_at in E. destruct E as [(q' & -> & _)|(p' & E & ->)].
  - change (1 + depth p <> 0). specialize (A2 p _ eq_refl). lia.
  - destruct p' as [|z p']; [discriminate E|]. injection E as _ E. destruct p'; discriminate E.
Qed.

(** Nothing that ends a statement. *)
Definition unbroken (ts : list lexeme) : Prop :=
  forall k y, In (k, y) ts -> ~ In k [tk_left_brace; tk_right_brace; tk_semicolon].
Lemma unbroken_app : forall a b, unbroken a -> unbroken b -> unbroken (a ++ b).
Proof. intros a b A B k y H. apply in_app_or in H. destruct H; [eapply A | eapply B]; eassumption. Qed.
Lemma unbroken_nil : unbroken [].
Proof. intros k y []. Qed.
Lemma unbroken_cons : forall k x ts, ~ In k [tk_left_brace; tk_right_brace; tk_semicolon] -> unbroken ts -> unbroken ((k, x) :: ts).
Proof. intros k x ts K H k' y [E|E]; [injection E as <- <-; exact K | eapply H; exact E]. Qed.
Lemma unbroken_parens : forall ts, unbroken ts -> unbroken (lp :: ts ++ [rp]).
Proof.
  intros ts H. apply unbroken_cons; [cbn; intuition discriminate|]. apply unbroken_app; [exact H|].
  apply unbroken_cons; [cbn; intuition discriminate | apply unbroken_nil].
Qed.

Lemma no_comparison_app : forall a b, no_comparison a -> no_comparison b -> no_comparison (a ++ b).
Proof. intros a b A B k y H. apply in_app_or in H. destruct H; [eapply A | eapply B]; eassumption. Qed.
Lemma no_comparison_nil : no_comparison [].
Proof. intros k y []. Qed.
Lemma no_comparison_cons : forall k x ts, ~ In k comparison_operators -> no_comparison ts -> no_comparison ((k, x) :: ts).
Proof. intros k x ts K H k' y [E|E]; [injection E as <- <-; exact K | eapply H; exact E]. Qed.
Lemma no_comparison_parens : forall ts, no_comparison ts -> no_comparison (lp :: ts ++ [rp]).
Proof.
  intros ts H. apply no_comparison_cons; [cbn; intuition discriminate|]. apply no_comparison_app; [exact H|].
  apply no_comparison_cons; [cbn; intuition discriminate | apply no_comparison_nil].
Qed.

(** ** The tokens of an expression *)

Section Tokens.
Variable o : code_options.
Notation tk := (tk o).
Notation tk_of_type := (tk_of_type o).
Notation sub_tokens := (sub_tokens o).
Notation wraps := (wraps o).

Definition is_if (e : expr) : bool := match e with EIf _ _ _ _ => true | _ => false end.

Lemma balanced_sub : forall outer e, balanced (tk e) -> balanced (sub_tokens outer e (tk e)).
Proof. intros outer e H. unfold PrintFacts.sub_tokens. destruct (wraps outer e); [apply balanced_parens|]; exact H. Qed.
Lemma unbroken_sub : forall outer e, unbroken (tk e) -> unbroken (sub_tokens outer e (tk e)).
Proof. intros outer e H. unfold PrintFacts.sub_tokens. destruct (wraps outer e); [apply unbroken_parens|]; exact H. Qed.
Lemma no_comparison_sub : forall outer e, no_comparison (tk e) -> no_comparison (sub_tokens outer e (tk e)).
Proof. intros outer e H. unfold PrintFacts.sub_tokens. destruct (wraps outer e); [apply no_comparison_parens|]; exact H. Qed.

Lemma join_holds : forall (P : list lexeme -> Prop), P [] -> (forall a b, P a -> P b -> P (a ++ b)) -> P [comma] ->
  forall ts, Forall P ts -> forall first, P (join_tokens first ts).
Proof.
  intros P N A C ts H. induction H as [|t ts T H IH]; intros first; cbn [join_tokens]; [exact N|].
  apply A; [destruct first; assumption|]. apply A; [exact T | apply IH].
Qed.

Lemma operator_kind : forall op k, binary_token op = Some k \/ unary_token op = Some k ->
  fst (operator_lexeme op) = k /\ k <> tk_left_parenthesis /\ k <> tk_right_parenthesis /\ k <> tk_keyword_if /\
  ~ In k [tk_left_brace; tk_right_brace; tk_semicolon].
Proof.
  intros op k [H|H]; destruct op; try discriminate H; injection H as <-; cbn; repeat split; try discriminate; intuition discriminate.
Qed.

Ltac sub_case IH := match goal with Sh : shows ?e _ |- context [sub_tokens _ ?e _] => pose proof (IH _ Sh) end.

Lemma tokens_scan : forall e p, shows e p -> balanced (tk e) /\ unbroken (tk e).
Proof.
  induction e as [cv e t IHe IHt | cv l c r IHl IHc IHr | cv op l r IHl IHr | cv op e IHe
    | cv name lk st args IH | cv name lk g | cv lit t] using expr_width_induction; intros p H;
    inversion H; subst; cbn [PrintFacts.tk].
  - match goal with He : shows e _, Ht : shows_type t _ |- _ => destruct (IHe _ He) as [B U]; rename Ht into HT end.
    assert (balanced (tk_of_type t) /\ unbroken (tk_of_type t)) as [B2 U2].
    { destruct HT as [cv' k cw K | cv' w q cw W]; cbn in IHt.
      - destruct k; try congruence; cbn; (split; [apply balanced_cons; try discriminate; apply balanced_nil
          | apply unbroken_cons; [cbn; intuition discriminate | apply unbroken_nil]]).
      - destruct (IHt _ W) as [B2 U2]. cbn [PrintFacts.tk_of_type]. split.
        + apply balanced_cons; try discriminate. apply balanced_parens. exact B2.
        + apply unbroken_cons; [cbn; intuition discriminate|]. apply unbroken_parens. exact U2. }
    split.
    + apply balanced_app; [apply balanced_sub; exact B|]. apply balanced_cons; try discriminate. exact B2.
    + apply unbroken_app; [apply unbroken_sub; exact U|]. apply unbroken_cons; [cbn; intuition discriminate | exact U2].
  - match goal with H1 : shows l _, H2 : shows c _, H3 : shows r _ |- _ =>
      destruct (IHl _ H1) as [B1 U1]; destruct (IHc _ H2) as [B2 U2]; destruct (IHr _ H3) as [B3 U3] end.
    split.
    + apply balanced_app; [apply balanced_sub; exact B1|]. apply balanced_cons; try discriminate.
      apply balanced_app; [apply balanced_sub; exact B2|]. apply balanced_cons; try discriminate. apply balanced_sub. exact B3.
    + apply unbroken_app; [apply unbroken_sub; exact U1|]. apply unbroken_cons; [cbn; intuition discriminate|].
      apply unbroken_app; [apply unbroken_sub; exact U2|]. apply unbroken_cons; [cbn; intuition discriminate|].
      apply unbroken_sub. exact U3.
  - match goal with H1 : shows l _, H3 : shows r _ |- _ =>
      destruct (IHl _ H1) as [B1 U1]; destruct (IHr _ H3) as [B3 U3] end.
    match goal with K : binary_token _ = _ |- _ => destruct (operator_kind _ _ (or_introl K)) as (E & K1 & K2 & K3 & K4) end.
    destruct (operator_lexeme op) as [k' x]. cbn in E. subst k'. split.
    + apply balanced_app; [apply balanced_sub; exact B1|]. apply balanced_cons; try assumption. apply balanced_sub. exact B3.
    + apply unbroken_app; [apply unbroken_sub; exact U1|]. apply unbroken_cons; [assumption|]. apply unbroken_sub. exact U3.
  - match goal with H1 : shows e _ |- _ => destruct (IHe _ H1) as [B1 U1] end.
    match goal with K : unary_token _ = _ |- _ => destruct (operator_kind _ _ (or_intror K)) as (E & K1 & K2 & K3 & K4) end.
    destruct (operator_lexeme op) as [k' x]. cbn in E. subst k'. split.
    + apply balanced_cons; try assumption. apply balanced_sub. exact B1.
    + apply unbroken_cons; [assumption|]. apply unbroken_sub. exact U1.
  - match goal with A : Forall2 shows args _ |- _ =>
      pose proof (Forall2_args _ _ _ _ (fun e => balanced (tk e) /\ unbroken (tk e)) _ _ IH A (fun a b Ha Hb => Ha b Hb)) as F end.
    assert (F1 : Forall balanced (map tk args)).
    { clear - F. induction F as [|a l [A _] F IH]; cbn; constructor; assumption. }
    assert (F2 : Forall unbroken (map tk args)).
    { clear - F. induction F as [|a l [_ A] F IH]; cbn; constructor; assumption. }
    split.
    + apply balanced_cons; try discriminate. apply balanced_parens. apply join_holds; [apply balanced_nil | apply balanced_app
        | apply balanced_cons; try discriminate; apply balanced_nil | exact F1].
    + apply unbroken_cons; [cbn; intuition discriminate|]. apply unbroken_parens. apply join_holds; [apply unbroken_nil | apply unbroken_app
        | apply unbroken_cons; [cbn; intuition discriminate | apply unbroken_nil] | exact F2].
  - split; [apply balanced_cons; try discriminate; apply balanced_nil | apply unbroken_cons; [cbn; intuition discriminate | apply unbroken_nil]].
  - split; [apply balanced_cons; try (destruct t0; discriminate); apply balanced_nil
      | apply unbroken_cons; [destruct t0; cbn; intuition discriminate | apply unbroken_nil]].
  - split; [apply balanced_cons; try discriminate; apply balanced_nil | apply unbroken_cons; [cbn; intuition discriminate | apply unbroken_nil]].
  - split; [apply balanced_cons; try discriminate; apply balanced_nil | apply unbroken_cons; [cbn; intuition discriminate | apply unbroken_nil]].
Qed.

Lemma wraps_if : forall outer e, precedence_group_of outer <> pg_postfix_unary -> precedence_group_of outer <> pg_primary ->
  is_if e = true -> wraps outer e = true.
Proof.
  intros outer e N1 N2 H. destruct e; try discriminate H. unfold PrintFacts.wraps. apply orb_true_intro. right.
  unfold needs_parentheses, compare_precedence. cbn [expression_type]. destruct (precedence_group_of outer); try congruence; reflexivity.
Qed.

(** A subexpression of anything but a call. *)
Definition takes_operands (outer : expr_kind) : Prop :=
  precedence_group_of outer <> pg_postfix_unary /\ precedence_group_of outer <> pg_primary.

Lemma ifless_sub : forall outer e, takes_operands outer -> balanced (tk e) -> (is_if e = false -> ifless (tk e)) ->
  ifless (sub_tokens outer e (tk e)).
Proof.
  intros outer e (T1 & T2) B H. unfold PrintFacts.sub_tokens. destruct (wraps outer e) eqn:W.
  - apply ifless_parens. exact B.
  - apply H. destruct (is_if e) eqn:I1; [|reflexivity]. rewrite (wraps_if outer e T1 T2 I1) in W. discriminate W.
Qed.

Lemma binary_takes : forall op k, binary_token op = Some k \/ unary_token op = Some k -> takes_operands op.
Proof. intros op k [H|H]; destruct op; try discriminate H; split; discriminate. Qed.

Lemma ifless_type : forall t q, shows_type t q -> ifless (tk_of_type t).
Proof.
  intros t q [cv k cw K | cv w p cw W].
  - destruct k; try congruence; cbn; apply ifless_cons; try discriminate; apply ifless_nil.
  - cbn [PrintFacts.tk_of_type]. apply ifless_cons; try discriminate. apply ifless_parens. eapply tokens_scan. exact W.
Qed.

Lemma tokens_ifless : forall e p, shows e p -> is_if e = false -> ifless (tk e).
Proof.
  induction e as [cv e t IHe IHt | cv l c r IHl IHc IHr | cv op l r IHl IHr | cv op e IHe
    | cv name lk st args IH | cv name lk g | cv lit t] using expr_width_induction; intros p H N;
    inversion H; subst; cbn [PrintFacts.tk]; try discriminate N.
  - match goal with He : shows e _ |- _ => destruct (tokens_scan _ _ He) as [B _]; pose proof (IHe _ He) as I1 end.
    apply ifless_app; [apply balanced_sub; exact B | apply ifless_sub; [split; discriminate | exact B | exact I1] |].
    apply ifless_cons; try discriminate. eapply ifless_type. eassumption.
  - match goal with H1 : shows l _, H3 : shows r _ |- _ =>
      destruct (tokens_scan _ _ H1) as [B1 _]; pose proof (IHl _ H1) as I1;
      destruct (tokens_scan _ _ H3) as [B3 _]; pose proof (IHr _ H3) as I3 end.
    match goal with K : binary_token _ = _ |- _ => destruct (operator_kind _ _ (or_introl K)) as (E & K1 & K2 & K3 & K4);
      pose proof (binary_takes _ _ (or_introl K)) as T end.
    destruct (operator_lexeme op) as [k' x]. cbn in E. subst k'.
    apply ifless_app; [apply balanced_sub; exact B1 | apply ifless_sub; assumption |].
    apply ifless_cons; try assumption. apply ifless_sub; assumption.
  - match goal with H1 : shows e _ |- _ => destruct (tokens_scan _ _ H1) as [B1 _]; pose proof (IHe _ H1) as I1 end.
    match goal with K : unary_token _ = _ |- _ => destruct (operator_kind _ _ (or_intror K)) as (E & K1 & K2 & K3 & K4);
      pose proof (binary_takes _ _ (or_intror K)) as T end.
    destruct (operator_lexeme op) as [k' x]. cbn in E. subst k'.
    apply ifless_cons; try assumption. apply ifless_sub; assumption.
  - destruct (tokens_scan _ _ H) as [B U].
    apply ifless_cons; try discriminate. cbn [PrintFacts.tk] in B. apply ifless_parens.
    match goal with A : Forall2 shows args _ |- _ => clear - A end.
    apply join_holds; [apply balanced_nil | apply balanced_app | apply balanced_cons; try discriminate; apply balanced_nil |].
    match goal with A : Forall2 _ _ _ |- _ => induction A as [|a p l l' A1 A IH] end; cbn; constructor; [|exact IH].
    eapply tokens_scan. exact A1.
  - apply ifless_cons; try discriminate. apply ifless_nil.
  - apply ifless_cons; try (destruct t0; discriminate). apply ifless_nil.
  - apply ifless_cons; try discriminate. apply ifless_nil.
  - apply ifless_cons; try discriminate. apply ifless_nil.
Qed.

Lemma comparison_existsb : forall k, existsb (token_type_eqb k) comparison_operators = true <-> In k comparison_operators.
Proof.
  intros k. rewrite existsb_exists. split.
  - intros (x & X & E). apply token_type_eqb_eq in E. subst x. exact X.
  - intros H. exists k. split; [exact H | apply token_type_eqb_eq; reflexivity].
Qed.

Lemma type_plain_tokens : forall t q, shows_type t q -> match q with PType _ (Some w) => plain w | _ => true end = true ->
  type_holds (fun e => forall p, shows e p -> plain p = true -> no_comparison (tk e)) t -> no_comparison (tk_of_type t).
Proof.
  intros t q [cv k cw K | cv w p cw W] N IH.
  - destruct k; try congruence; cbn; (apply no_comparison_cons; [cbn; intuition discriminate | apply no_comparison_nil]).
  - cbn in IH. cbn [PrintFacts.tk_of_type]. apply no_comparison_cons; [cbn; intuition discriminate|].
    apply no_comparison_parens. eapply IH; eassumption.
Qed.

Lemma tokens_plain : forall e p, shows e p -> plain p = true -> no_comparison (tk e).
Proof.
  induction e as [cv e t IHe IHt | cv l c r IHl IHc IHr | cv op l r IHl IHr | cv op e IHe
    | cv name lk st args IH | cv name lk g | cv lit t] using expr_width_induction; intros p H N;
    inversion H; subst; cbn [PrintFacts.tk]; unfold plain in N; cbn [every] in N;
    repeat match goal with N : _ && _ = true |- _ => apply andb_prop in N; destruct N end.
  - apply no_comparison_app; [apply no_comparison_sub; eapply IHe; eassumption|].
    apply no_comparison_cons; [cbn; intuition discriminate|]. eapply type_plain_tokens; [eassumption | | exact IHt].
    match goal with K : shows_type t ?q |- _ => destruct q as [k [w|]] end; [assumption | reflexivity].
  - apply no_comparison_app; [apply no_comparison_sub; eapply IHl; eassumption|].
    apply no_comparison_cons; [cbn; intuition discriminate|].
    apply no_comparison_app; [apply no_comparison_sub; eapply IHc; eassumption|].
    apply no_comparison_cons; [cbn; intuition discriminate|]. apply no_comparison_sub. eapply IHr; eassumption.
  - match goal with K : binary_token _ = _ |- _ => destruct (operator_kind _ _ (or_introl K)) as (E & _) end.
    destruct (operator_lexeme op) as [k' x]. cbn in E. subst k'.
    apply no_comparison_app; [apply no_comparison_sub; eapply IHl; eassumption|].
    apply no_comparison_cons; [|apply no_comparison_sub; eapply IHr; eassumption].
    intros K. apply comparison_existsb in K. cbn [comparison] in *. rewrite K in *. discriminate.
  - match goal with K : unary_token _ = _ |- _ => destruct (operator_kind _ _ (or_intror K)) as (E & _); rename K into HU end.
    destruct (operator_lexeme op) as [k' x]. cbn in E. subst k'.
    apply no_comparison_cons; [|apply no_comparison_sub; eapply IHe; eassumption].
    destruct op; try discriminate HU; injection HU as <-; cbn; intuition discriminate.
  - apply no_comparison_cons; [cbn; intuition discriminate|]. apply no_comparison_parens.
    apply join_holds; [apply no_comparison_nil | apply no_comparison_app
      | apply no_comparison_cons; [cbn; intuition discriminate | apply no_comparison_nil] |].
    match goal with A : Forall2 shows args _, M : forallb _ _ = true |- _ => clear - IH A M; revert M end.
    match goal with A : Forall2 _ _ _ |- _ => induction A as [|a p l l' A1 A IH2] end; intros M; cbn; constructor;
      cbn in M; apply andb_prop in M; destruct M as [M1 M2]; inversion IH; subst; eauto.
  - apply no_comparison_cons; [cbn; intuition discriminate | apply no_comparison_nil].
  - apply no_comparison_cons; [destruct t0; cbn; intuition discriminate | apply no_comparison_nil].
  - apply no_comparison_cons; [cbn; intuition discriminate | apply no_comparison_nil].
  - apply no_comparison_cons; [cbn; intuition discriminate | apply no_comparison_nil].
Qed.

(** ** Comparisons further out *)

(** All comparison operators in the statement that goes on with [ts] are at most [k] deeper than the start. *)
Definition shallow (k : Z) (ts : list lexeme) : Prop :=
  forall before op x after, ts = before ++ (op, x) :: after -> In op comparison_operators -> unbroken before -> depth before <= k.

Lemma unbroken_tail : forall a b, unbroken (a ++ b) -> unbroken b.
Proof. intros a b H k y I1. apply (H k y). apply in_or_app. right. exact I1. Qed.
Lemma shallow_app : forall k a b, no_comparison a -> shallow (k - depth a) b -> shallow k (a ++ b).
Proof.
  intros k a b A B p op x q E C U. apply split_at in E. destruct E as [(q' & -> & _)|(p' & -> & ->)].
  - exfalso. apply (A op x); [|exact C]. apply in_or_app. right. left. reflexivity.
  - rewrite depth_app. specialize (B p' op x q eq_refl C (unbroken_tail _ _ U)). lia.
Qed.
Lemma shallow_weaken : forall k j ts, shallow k ts -> k <= j -> shallow j ts.
Proof. intros k j ts H L p op x q E C U. specialize (H p op x q E C U). lia. Qed.
Lemma shallow_rp : forall k ts, shallow (k + 1) ts -> shallow k (rp :: ts).
Proof.
  intros k ts H. apply (shallow_app k [rp]); [apply no_comparison_cons; [cbn; intuition discriminate | apply no_comparison_nil]|].
  cbn. eapply shallow_weaken; [exact H | lia].
Qed.
Lemma shallow_token : forall k t x ts, ~ In t comparison_operators -> t <> tk_left_parenthesis -> t <> tk_right_parenthesis ->
  shallow k ts -> shallow k ((t, x) :: ts).
Proof.
  intros k t x ts C N1 N2 H. apply (shallow_app k [(t, x)]);
    [apply no_comparison_cons; [exact C | apply no_comparison_nil]|].
  assert (depth [(t, x)] = 0) as -> by (destruct t; try congruence; reflexivity). eapply shallow_weaken; [exact H | lia].
Qed.
Lemma shallow_balanced : forall k a b, no_comparison a -> balanced a -> shallow k b -> shallow k (a ++ b).
Proof. intros k a b A (B & _) H. apply shallow_app; [exact A|]. rewrite B. eapply shallow_weaken; [exact H | lia]. Qed.
Lemma shallow_plain : forall k ts, no_comparison ts -> shallow k ts.
Proof.
  intros k ts H p op x q -> C _. exfalso. apply (H op x); [|exact C]. apply in_or_app. right. left. reflexivity.
Qed.

Lemma shallow_break : forall k t x ts, In t [tk_left_brace; tk_right_brace; tk_semicolon] -> shallow k ((t, x) :: ts).
Proof.
  intros k t x ts T p op y q E C U. destruct p as [|z p].
  - injection E as -> _ _. exfalso. cbn in T, C. intuition (subst; discriminate).
  - injection E as <- _. exfalso. apply (U t x); [left; reflexivity | exact T].
Qed.

Lemma shallow_foreseen : forall ts, shallow (-1) ts -> foreseen ts false.
Proof.
  intros ts H. split; [discriminate|]. intros (b & op & x & a & E & C & D & U & _). specialize (H b op x a E C U). lia.
Qed.

Lemma shows_compares : forall e p, shows e p -> compares e = comparison p.
Proof.
  intros e p H. destruct H; try reflexivity; cbn.
  - unfold compares, group. cbn. destruct op; try discriminate; match goal with K : binary_token _ = _ |- _ => injection K as <- end; reflexivity.
  - unfold compares, group. cbn. destruct op; try discriminate; reflexivity.
Qed.

Lemma starts_plain : forall e p rest, shows e p -> plain p = true -> shallow (-1) rest -> starts o lower e rest.
Proof.
  intros e p rest H N R. assert (C : choice lower (tk e ++ rest) (compares e)).
  { rewrite (shows_compares _ _ H). assert (comparison p = false) as ->.
    { unfold plain in N. destruct p; cbn [every] in N; apply andb_prop in N; destruct N as [N _]; apply negb_true_iff in N; exact N. }
    apply shallow_foreseen. apply shallow_balanced; [eapply tokens_plain | eapply tokens_scan |]; eassumption. }
  destruct e; try exact Logic.I; exact C.
Qed.

Definition quiet (e : expr) (rest : list lexeme) : Prop := shallow 0 rest /\ (is_if e = true -> shallow (-1) rest).

Lemma quiet_inside : forall e rest, shallow 0 rest -> quiet e (rp :: rest).
Proof.
  intros e rest H. assert (shallow (-1) (rp :: rest)) by (apply shallow_rp; exact H).
  split; [eapply shallow_weaken; [eassumption | lia] | auto].
Qed.

Definition agreeable (e : expr) : Prop := forall p, shows e p -> plain p = true -> forall rest, quiet e rest -> agrees o lower e rest.

Lemma agreeable_whole : forall e p rest, agreeable e -> shows e p -> plain p = true -> shallow (-1) rest -> whole o lower e rest.
Proof.
  intros e p rest A H N R. split; [eapply starts_plain; eassumption|]. eapply A; [exact H | exact N|].
  split; [eapply shallow_weaken; [exact R | lia] | auto].
Qed.

Lemma agreeable_operand : forall outer e p rest, agreeable e -> shows e p -> plain p = true -> takes_operands outer ->
  shallow 0 rest -> operand o lower outer e rest.
Proof.
  intros outer e p rest A H N (T1 & T2) R. unfold operand. destruct (wraps outer e) eqn:W.
  - eapply agreeable_whole; [exact A | exact H | exact N | apply shallow_rp; exact R].
  - eapply A; [exact H | exact N|]. split; [exact R|]. intros I1. rewrite (wraps_if outer e T1 T2 I1) in W. discriminate W.
Qed.

Lemma agreeable_part : forall e p rest, agreeable e -> shows e p -> plain p = true -> shallow 0 rest ->
  foreseen (sub_tokens if_expression e (tk e) ++ rest) false -> part o lower e rest.
Proof.
  intros e p rest A H N R F. split.
  - assert ((if wraps if_expression e then false else compares e) = false) as ->; [|exact F].
    destruct (wraps if_expression e); [reflexivity|]. rewrite (shows_compares _ _ H).
    unfold plain in N. destruct p; cbn [every] in N; apply andb_prop in N; destruct N as [N _]; apply negb_true_iff in N; exact N.
  - eapply agreeable_operand; [exact A | exact H | exact N | split; discriminate | exact R].
Qed.

Lemma agrees_args : forall args ps, Forall2 shows args ps -> Forall agreeable args -> forallb plain ps = true ->
  forall rest, shallow 0 rest ->
  (fix all (l : list expr) : Prop :=
         match l with
         | [] => True
         | a :: l' => (starts o lower a (join_tokens false (map tk l') ++ rp :: rest) /\
                       agrees o lower a (join_tokens false (map tk l') ++ rp :: rest)) /\ all l'
         end) args.
Proof.
  intros args ps H. induction H as [|a p args ps A H IH]; intros F N rest R; [exact Logic.I|].
  inversion F as [|? ? Fa Fr]; subst. cbn in N. apply andb_prop in N. destruct N as [N1 N2].
  split; [|apply IH; assumption].
  eapply agreeable_whole; [exact Fa | exact A | exact N1|].
  apply shallow_balanced.
  - apply join_holds; [apply no_comparison_nil | apply no_comparison_app
      | apply no_comparison_cons; [cbn; intuition discriminate | apply no_comparison_nil] |].
    clear - H N2. induction H as [|b q l l' B H IH]; cbn in *; constructor; apply andb_prop in N2; destruct N2 as [N1 N2];
      [eapply tokens_plain; eassumption | auto].
  - apply join_holds; [apply balanced_nil | apply balanced_app | apply balanced_cons; try discriminate; apply balanced_nil |].
    clear - H. induction H as [|b q l l' B H IH]; cbn in *; constructor; [eapply tokens_scan; eassumption | auto].
  - apply shallow_rp. exact R.
Qed.

Ltac split_plain N := unfold plain in N; cbn [every] in N;
    repeat match goal with N : _ && _ = true |- _ => apply andb_prop in N; destruct N end.
Ltac scan H := let B := fresh "B" in let C := fresh "C" in pose proof (proj1 (tokens_scan _ _ H)) as B; pose proof (tokens_plain _ _ H ltac:(assumption)) as C.

Lemma agrees_plain : forall e, agreeable e.
Proof.
  induction e as [cv e t IHe IHt | cv l c r IHl IHc IHr | cv op l r IHl IHr | cv op e IHe
    | cv name lk st args IH | cv name lk g | cv lit t] using expr_width_induction; intros p H N rest (Q1 & Q2);
    inversion H; subst; split_plain N; cbn [agrees].
  - match goal with He : shows e _, Ht : shows_type t _ |- _ => rename He into HE, Ht into HT end. split.
    + apply (agreeable_operand conversion) with (p := p0); [exact IHe | exact HE | assumption | split; discriminate|].
      apply shallow_token; try discriminate; [cbn; intuition discriminate|]. apply shallow_balanced; [| |exact Q1].
      * eapply type_plain_tokens; [exact HT | destruct q as [k [w|]]; [assumption | reflexivity]|].
        destruct t as [c k [w|] n]; cbn; [|exact Logic.I]. intros. eapply tokens_plain; eassumption.
      * destruct HT as [cv' k cw K | cv' w q cw W].
        -- destruct k; try congruence; cbn; apply balanced_cons; try discriminate; apply balanced_nil.
        -- cbn [PrintFacts.tk_of_type]. apply balanced_cons; try discriminate. apply balanced_parens. eapply tokens_scan. exact W.
    + destruct HT as [cv' k cw K | cv' w q cw W]; [exact Logic.I|]. cbn in IHt.
      eapply agreeable_whole; [exact IHt | exact W | assumption | apply shallow_rp; exact Q1].
  - match goal with H1 : shows l _, H2 : shows c _, H3 : shows r _ |- _ => rename H1 into HL, H2 into HC, H3 into HR end.
    scan HL. scan HC. scan HR. specialize (Q2 eq_refl).
    assert (R3 : shallow (-1) (sub_tokens if_expression r (tk r) ++ rest))
      by (apply shallow_balanced; [apply no_comparison_sub | apply balanced_sub |]; assumption).
    assert (R2 : shallow (-1) ((tk_keyword_else, str "else") :: sub_tokens if_expression r (tk r) ++ rest))
      by (apply shallow_token; try discriminate; [cbn; intuition discriminate | exact R3]).
    assert (R2' : shallow (-1) (sub_tokens if_expression c (tk c) ++ (tk_keyword_else, str "else") :: sub_tokens if_expression r (tk r) ++ rest))
      by (apply shallow_balanced; [apply no_comparison_sub | apply balanced_sub |]; assumption).
    assert (R1 : shallow (-1) ((tk_keyword_if, str "if") :: sub_tokens if_expression c (tk c) ++ (tk_keyword_else, str "else") :: sub_tokens if_expression r (tk r) ++ rest))
      by (apply shallow_token; try discriminate; [cbn; intuition discriminate | exact R2']).
    assert (R1' : shallow (-1) (sub_tokens if_expression l (tk l) ++ (tk_keyword_if, str "if") :: sub_tokens if_expression c (tk c) ++ (tk_keyword_else, str "else") :: sub_tokens if_expression r (tk r) ++ rest))
      by (apply shallow_balanced; [apply no_comparison_sub | apply balanced_sub |]; assumption).
    split; [|split].
    + eapply agreeable_part; [exact IHl | exact HL | assumption | eapply shallow_weaken; [exact R1 | lia] | apply shallow_foreseen; exact R1'].
    + eapply agreeable_part; [exact IHc | exact HC | assumption | eapply shallow_weaken; [exact R2 | lia] | apply shallow_foreseen; exact R2'].
    + eapply agreeable_part; [exact IHr | exact HR | assumption | exact Q1 | apply shallow_foreseen; exact R3].
  - match goal with H1 : shows l _, H3 : shows r _ |- _ => rename H1 into HL, H3 into HR end.
    match goal with K : binary_token _ = _ |- _ => destruct (operator_kind _ _ (or_introl K)) as (E & K1 & K2 & _);
      pose proof (binary_takes _ _ (or_introl K)) as T; rename K into HB end.
    scan HR. split.
    + apply (agreeable_operand op) with (p := pl); [exact IHl | exact HL | assumption | exact T |].
      destruct (operator_lexeme op) as [k' x]. cbn in E. subst k'.
      apply shallow_token; try assumption.
      * intros K. apply comparison_existsb in K. cbn [comparison] in *. rewrite K in *. discriminate.
      * apply shallow_balanced; [apply no_comparison_sub | apply balanced_sub |]; assumption.
    + apply (agreeable_operand op) with (p := pr); [exact IHr | exact HR | assumption | exact T | exact Q1].
  - match goal with K : unary_token _ = _ |- _ => pose proof (binary_takes _ _ (or_intror K)) as T end.
    apply (agreeable_operand op) with (p := p0); try assumption.
  - eapply agrees_args; eassumption.
  - exact Logic.I.
  - exact Logic.I.
  - exact Logic.I.
  - exact Logic.I.
Qed.

(** ** Comparisons at the outside *)

Lemma ahead_at : forall before op x after, In op comparison_operators -> depth before = 0 -> unbroken before -> ifless before ->
  foreseen (before ++ (op, x) :: after) true.
Proof.
  intros before op x after C D U F. split; [|reflexivity]. intros _. exists before, op, x, after.
  repeat split; assumption.
Qed.

Lemma outer_binary : forall e p rest, shows e p -> outer_comparison p = true -> shallow 0 rest ->
  foreseen (tk e ++ rest) true /\ agrees o lower e rest /\ compares e = true.
Proof.
  intros e p rest H C R. destruct H; try discriminate C. unfold outer_comparison in C.
  repeat match goal with N : _ && _ = true |- _ => apply andb_prop in N; destruct N end.
  match goal with K : binary_token _ = _ |- _ => destruct (operator_kind _ _ (or_introl K)) as (E & K1 & K2 & _);
      pose proof (binary_takes _ _ (or_introl K)) as T; rename K into HB end.
  match goal with H1 : shows l _, H3 : shows r _ |- _ => rename H1 into HL, H3 into HR end.
  scan HL. scan HR. destruct (tokens_scan _ _ HL) as [_ U].
  match goal with K : comparison _ = true |- _ => rename K into HC end.
  split; [|split].
  - cbn [PrintFacts.tk]. rewrite <- app_assoc. cbn [app]. destruct (operator_lexeme op) as [k' x]. cbn in E. subst k'.
    apply ahead_at.
    + apply comparison_existsb. exact HC.
    + apply balanced_sub. assumption.
    + apply unbroken_sub. exact U.
    + apply ifless_sub; [exact T | assumption |]. intros. eapply tokens_ifless; eassumption.
  - cbn [agrees]. split.
    + apply (agreeable_operand op) with (p := pl); [apply agrees_plain | exact HL | assumption | exact T |].
      destruct (operator_lexeme op) as [k' x]. cbn in E. subst k'.
      intros q op' x' q' Eq Cq Uq. destruct q as [|y q]; [cbn; lia|]. injection Eq as <- Eq.
      apply (unbroken_tail [(k, x)]) in Uq.
      assert (shallow 0 (sub_tokens op r (tk r) ++ rest)) as Sh
        by (apply shallow_balanced; [apply no_comparison_sub | apply balanced_sub |]; assumption).
      specialize (Sh q op' x' q' Eq Cq Uq). destruct k; try congruence; cbn; exact Sh.
    + apply (agreeable_operand op) with (p := pr); [apply agrees_plain | exact HR | assumption | exact T | exact R].
  - unfold compares, group. cbn. destruct op; try discriminate HB; injection HB as <-; try discriminate HC; reflexivity.
Qed.

Lemma whole_plain : forall e p rest, shows e p -> plain p = true -> shallow (-1) rest -> whole o lower e rest.
Proof.
  intros e p rest H N R. eapply agreeable_whole; [apply agrees_plain | exact H | exact N | exact R].
Qed.

Lemma whole_comparison : forall e p rest, shows e p -> outer_comparison p = true -> shallow (-1) rest -> whole o lower e rest.
Proof.
  intros e p rest H N R. destruct (outer_binary e p rest H N (shallow_weaken _ 0 _ R ltac:(lia))) as (F & A & C).
  split; [|exact A]. destruct e; try exact Logic.I; cbn [starts]; rewrite C; exact F.
Qed.

Lemma outer_not_wrapped : forall e p, always_parenthesize o = false -> shows e p -> outer_comparison p = true ->
  wraps if_expression e = false.
Proof.
  intros e p AP H C. destruct H; try discriminate C. unfold PrintFacts.wraps. rewrite AP. cbn [orb expression_type].
  destruct op; try discriminate; reflexivity.
Qed.

Lemma simple_part : forall e p rest, always_parenthesize o = false -> shows e p -> simple p = true -> shallow 0 rest ->
  (outer_comparison p = false -> foreseen (sub_tokens if_expression e (tk e) ++ rest) false) -> part o lower e rest.
Proof.
  intros e p rest AP H S0 R F. unfold simple in S0. destruct (outer_comparison p) eqn:C.
  - destruct (outer_binary e p rest H C R) as (F1 & A & K). pose proof (outer_not_wrapped _ _ AP H C) as W.
    unfold part, operand, PrintFacts.sub_tokens. rewrite W. split; [rewrite K; exact F1 | exact A].
  - rewrite orb_false_r in S0. eapply agreeable_part; [apply agrees_plain | exact H | exact S0 | exact R | apply F; reflexivity].
Qed.

Lemma simple_sub_plain : forall e p, always_parenthesize o = false -> shows e p -> simple p = true ->
  shallow 0 (sub_tokens if_expression e (tk e)).
Proof.
  intros e p AP H S0. unfold simple in S0. destruct (outer_comparison p) eqn:C.
  - pose proof (outer_not_wrapped _ _ AP H C) as W. unfold PrintFacts.sub_tokens. rewrite W.
    destruct H; try discriminate C. unfold outer_comparison in C.
    repeat match goal with N : _ && _ = true |- _ => apply andb_prop in N; destruct N end.
    match goal with H1 : shows l _, H3 : shows r _ |- _ => rename H1 into HL, H3 into HR end.
    match goal with K : binary_token _ = _ |- _ => destruct (operator_kind _ _ (or_introl K)) as (E & K1 & K2 & _) end.
    scan HL. scan HR. cbn [PrintFacts.tk]. destruct (operator_lexeme op) as [k' x]. cbn in E. subst k'.
    apply shallow_balanced; [apply no_comparison_sub; assumption | apply balanced_sub; assumption|].
    intros q op' x' q' Eq Cq _. destruct q as [|y q]; [cbn; lia|]. injection Eq as <- Eq.
    exfalso. eapply no_comparison_sub; [|rewrite Eq; apply in_or_app; right; left; reflexivity | exact Cq]. assumption.
  - rewrite orb_false_r in S0. apply shallow_plain, no_comparison_sub. eapply tokens_plain; eassumption.
Qed.

Lemma shallow_both : forall a b, shallow 0 a -> depth a = 0 -> shallow 0 b -> shallow 0 (a ++ b).
Proof.
  intros a b A D B p op x q E C U. apply split_at in E. destruct E as [(q' & -> & _)|(p' & -> & ->)].
  - eapply A; [reflexivity | exact C | exact U].
  - rewrite depth_app, D. specialize (B p' op x q eq_refl C (unbroken_tail _ _ U)). lia.
Qed.

Lemma whole_if : forall e p rest, always_parenthesize o = false -> shows e p -> outer_if p = true -> shallow (-1) rest ->
  whole o lower e rest.
Proof.
  intros e p rest AP H N R. destruct H; try discriminate N. unfold outer_if in N.
  repeat match goal with N : _ && _ = true |- _ => apply andb_prop in N; destruct N end.
  match goal with H1 : shows l _, H2 : shows c _, H3 : shows r _ |- _ => rename H1 into HL, H2 into HC, H3 into HR end.
  assert (R3 : shallow 0 (sub_tokens if_expression r (tk r) ++ rest)).
  { apply shallow_both; [eapply simple_sub_plain; eassumption | apply balanced_sub; eapply tokens_scan; exact HR | eapply shallow_weaken; [exact R | lia]]. }
  assert (R2 : shallow 0 ((tk_keyword_else, str "else") :: sub_tokens if_expression r (tk r) ++ rest))
    by (apply shallow_token; try discriminate; [cbn; intuition discriminate | exact R3]).
  assert (R2' : shallow 0 (sub_tokens if_expression c (tk c) ++ (tk_keyword_else, str "else") :: sub_tokens if_expression r (tk r) ++ rest)).
  { apply shallow_both; [eapply simple_sub_plain; eassumption | apply balanced_sub; eapply tokens_scan; exact HC | exact R2]. }
  assert (R1 : shallow 0 ((tk_keyword_if, str "if") :: sub_tokens if_expression c (tk c) ++ (tk_keyword_else, str "else") :: sub_tokens if_expression r (tk r) ++ rest))
      by (apply shallow_token; try discriminate; [cbn; intuition discriminate | exact R2']).
  split; [exact Logic.I|]. cbn [agrees]. split; [|split].
  - eapply (simple_part l); try eassumption. intros C.
    match goal with S0 : simple pl = true |- _ => unfold simple in S0; rewrite C, orb_false_r in S0; rename S0 into NL end.
    split; [discriminate|]. intros (b & op & x & a & E & Cp & D & U & F). exfalso.
    apply split_at in E. destruct E as [(q' & E & _)|(p' & E & ->)].
    + eapply no_comparison_sub; [eapply tokens_plain; [exact HL | exact NL] | | exact Cp].
      rewrite E. apply in_or_app. right. left. reflexivity.
    + destruct p' as [|y p']; [injection E as <- _ _; cbn in Cp; intuition discriminate|]. injection E as <- E.
      eapply F; [reflexivity|]. apply balanced_sub. eapply tokens_scan. exact HL.
  - eapply (simple_part c); try eassumption. intros C.
    match goal with S0 : simple pc = true |- _ => unfold simple in S0; rewrite C, orb_false_r in S0; rename S0 into NC end.
    match goal with S0 : implb _ _ = true |- _ => rewrite C in S0; rename S0 into IM end.
    destruct (outer_comparison pr) eqn:CR; [discriminate IM|].
    match goal with S0 : simple pr = true |- _ => unfold simple in S0; rewrite CR, orb_false_r in S0; rename S0 into NR end.
    apply shallow_foreseen.
    apply shallow_balanced; [apply no_comparison_sub; eapply tokens_plain; eassumption | apply balanced_sub; eapply tokens_scan; exact HC|].
    apply shallow_token; try discriminate; [cbn; intuition discriminate|].
    apply shallow_balanced; [apply no_comparison_sub; eapply tokens_plain; eassumption | apply balanced_sub; eapply tokens_scan; exact HR | exact R].
  - eapply (simple_part r); try eassumption; [eapply shallow_weaken; [exact R | lia]|]. intros C.
    match goal with S0 : simple pr = true |- _ => unfold simple in S0; rewrite C, orb_false_r in S0; rename S0 into NR end.
    apply shallow_foreseen.
    apply shallow_balanced; [apply no_comparison_sub; eapply tokens_plain; eassumption | apply balanced_sub; eapply tokens_scan; exact HR | exact R].
Qed.

(** ** Together *)

Lemma whole_recognized : forall e p rest, shows e p -> recognized (always_parenthesize o) p = true -> shallow (-1) rest -> whole o lower e rest.
Proof.
  intros e p rest H R Sh. unfold recognized in R. apply orb_prop in R. destruct R as [R|R]; [apply orb_prop in R; destruct R as [R|R]|].
  - eapply whole_plain; eassumption.
  - eapply whole_comparison; eassumption.
  - apply andb_prop in R. destruct R as [A R]. apply negb_true_iff in A. eapply whole_if; eassumption.
Qed.

(** The comparisons in it are not deeper than the start. *)
Lemma recognized_shallow : forall e p, shows e p -> recognized (always_parenthesize o) p = true -> shallow 0 (tk e).
Proof.
  intros e p H R. unfold recognized in R. apply orb_prop in R. destruct R as [R|R]; [apply orb_prop in R; destruct R as [R|R]|].
  - apply shallow_plain. eapply tokens_plain; eassumption.
  - destruct H; try discriminate R. unfold outer_comparison in R.
    repeat match goal with N : _ && _ = true |- _ => apply andb_prop in N; destruct N end.
    match goal with H1 : shows l _, H3 : shows r _ |- _ => rename H1 into HL, H3 into HR end.
    scan HL. scan HR. cbn [PrintFacts.tk].
    apply shallow_balanced; [apply no_comparison_sub; assumption | apply balanced_sub; assumption|].
    intros q op' x' q' Eq Cq _. destruct q as [|y q]; [cbn; lia|]. injection Eq as <- Eq.
    exfalso. eapply no_comparison_sub; [|rewrite Eq; apply in_or_app; right; left; reflexivity | exact Cq]. assumption.
  - apply andb_prop in R. destruct R as [A R]. apply negb_true_iff in A.
    destruct H; try discriminate R. unfold outer_if in R.
    repeat match goal with N : _ && _ = true |- _ => apply andb_prop in N; destruct N end.
    match goal with H1 : shows l _, H2 : shows c _, H3 : shows r _ |- _ => rename H1 into HL, H2 into HC, H3 into HR end.
    cbn [PrintFacts.tk].
    apply shallow_both; [eapply simple_sub_plain; eassumption | apply balanced_sub; eapply tokens_scan; exact HL|].
    apply shallow_token; try discriminate; [cbn; intuition discriminate|].
    apply shallow_both; [eapply simple_sub_plain; eassumption | apply balanced_sub; eapply tokens_scan; exact HC|].
    apply shallow_token; try discriminate; [cbn; intuition discriminate|].
    eapply simple_sub_plain; eassumption.
Qed.
End Tokens.
