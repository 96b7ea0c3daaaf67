(** What the BMS generator writes for an expression: its text, its tokens, and where they belong in the grammar. *)
From Coq Require Import ZArith Ascii String List Bool Lia.
From Verif Require Import Prelude Text Literals LiteralsSpec LiteralsProofs Types Ops Tables Tokenizer TokenizerSpec
  TokenizerProofs Annotations AbsOps Ast NameLookup Parse GrammarSpec CodeString GenBase GenBms GenFacts Spell PrintSpec.
Import ListNotations.
Open Scope string_scope.
Open Scope list_scope.

Section Print.
Variable o : code_options.

Definition wraps (outer : expr_kind) (inner : expr) : bool :=
  always_parenthesize o || needs_parentheses outer (expression_type inner).

(** The text of a subexpression. *)
Definition sub_text (outer : expr_kind) (inner : expr) (t : text) : text :=
  if wraps outer inner then "("%char :: t ++ [")"%char] else t.

Fixpoint join (first : bool) (l : list text) : text :=
  match l with
  | [] => []
  | t :: rest => (if first then [] else str ", ") ++ t ++ join false rest
  end.

Fixpoint pr (e : expr) : text :=
  match e with
  | EConversion _ x t => sub_text conversion x (pr x) ++ str " as " ++ pr_type t
  | EIf _ l c r =>
      sub_text if_expression l (pr l) ++ str " if " ++ sub_text if_expression c (pr c) ++ str " else " ++
      sub_text if_expression r (pr r)
  | EBinary _ op l r =>
      sub_text op l (pr l) ++ " "%char :: token_type_code_name (expression_type_token op) ++
      " "%char :: sub_text op r (pr r)
  | EPrefix _ op x => token_type_code_name (expression_type_token op) ++ sub_text op x (pr x)
  | ECall _ name _ _ args => name ++ "("%char :: join true (map pr args) ++ [")"%char]
  | EId _ name _ _ => name
  | ELiteral _ lit _ => lit
  end
with pr_type (t : type_node) : text :=
  match t with
  | Type_Node _ tt_Uint (Some w) _ => str "Uint(" ++ pr w ++ [")"%char]
  | Type_Node _ k _ _ => type_type_name k
  end.

Definition lp : lexeme := (tk_left_parenthesis, str "(").
Definition rp : lexeme := (tk_right_parenthesis, str ")").
Definition comma : lexeme := (tk_comma, str ",").

Definition sub_tokens (outer : expr_kind) (inner : expr) (t : list lexeme) : list lexeme :=
  if wraps outer inner then lp :: t ++ [rp] else t.

Fixpoint join_tokens (first : bool) (l : list (list lexeme)) : list lexeme :=
  match l with
  | [] => []
  | t :: rest => (if first then [] else [comma]) ++ t ++ join_tokens false rest
  end.

(** The token [&&] takes the space after it with it. *)
Definition operator_lexeme (op : expr_kind) : lexeme :=
  (expression_type_token op,
   match op with logical_and => str "&& " | _ => token_type_code_name (expression_type_token op) end).

Fixpoint tk (e : expr) : list lexeme :=
  match e with
  | EConversion _ x t => sub_tokens conversion x (tk x) ++ (tk_keyword_as, str "as") :: tk_of_type t
  | EIf _ l c r =>
      sub_tokens if_expression l (tk l) ++ (tk_keyword_if, str "if") :: sub_tokens if_expression c (tk c) ++
      (tk_keyword_else, str "else") :: sub_tokens if_expression r (tk r)
  | EBinary _ op l r => sub_tokens op l (tk l) ++ operator_lexeme op :: sub_tokens op r (tk r)
  | EPrefix _ op x => operator_lexeme op :: sub_tokens op x (tk x)
  | ECall _ name _ _ args => (tk_identifier, name) :: lp :: join_tokens true (map tk args) ++ [rp]
  | EId _ name _ _ => [(tk_identifier, name)]
  | ELiteral _ lit k => [(k, lit)]
  end
with tk_of_type (t : type_node) : list lexeme :=
  match t with
  | Type_Node _ tt_Uint (Some w) _ => (tk_keyword_uint, str "Uint") :: lp :: tk w ++ [rp]
  | Type_Node _ tt_Uint None _ => [(tk_keyword_uint, str "Uint")]
  | Type_Node _ tt_Int _ _ => [(tk_keyword_int, str "Int")]
  | Type_Node _ tt_Bool _ _ => [(tk_keyword_bool, str "Bool")]
  | Type_Node _ tt_Void _ _ => [(tk_keyword_void, str "Void")]
  end.

(** ** What is written *)

(** From depth [d] and with the flag [b], [m] appends [t] and leaves the flag at [b']. *)
Definition writes (d : nat) (b : bool) (m : gen) (t : text) (b' : bool) : Prop :=
  forall out, exists spans, m (GS out d b) = (GS (Code (cs_text out ++ t) spans) d b', Ok tt).

Lemma writes_seq : forall d b m t b1 k u b2, writes d b m t b1 -> writes d b1 k u b2 -> writes d b (m ;; k) (t ++ u) b2.
Proof.
  intros d b m t b1 k u b2 M K out. destruct (M out) as (sp & E). unfold seq. rewrite E.
  destruct (K (Code (cs_text out ++ t) sp)) as (sp2 & E2). exists sp2. rewrite E2. cbn. rewrite app_assoc. reflexivity.
Qed.
Lemma writes_done : forall d b, writes d b done [] b.
Proof. intros d b out. exists (cs_spans out). unfold done. rewrite app_nil_r. destruct out. reflexivity. Qed.
Lemma writes_char : forall d b c, writes d b (put_char c) [c] b.
Proof. intros d b c out. eexists. reflexivity. Qed.
Lemma writes_char_span : forall d b c k, writes d b (put_char_span c k) [c] b.
Proof. intros d b c k out. eexists. reflexivity. Qed.
Lemma writes_span : forall d b t k, t <> [] -> writes d b (put_span t k) t b.
Proof. intros d b [|c t] k T out; [congruence|]. eexists. reflexivity. Qed.
Lemma writes_attempt : forall d b m t b', writes d b m t b' -> writes d b (attempt m) t b'.
Proof. intros d b m t b' M out. destruct (M out) as (sp & E). exists sp. unfold attempt. rewrite E. reflexivity. Qed.
Lemma writes_parens : forall d b m t b', writes d b m t b' -> writes d b (parens m) ("("%char :: t ++ [")"%char]) b'.
Proof.
  intros d b m t b' M out. unfold parens.
  cbn [g_out g_depth g_start]. destruct (M (append_char_span "(" sp_bracket out)) as (sp & E). rewrite E.
  eexists. cbn [append_char_span g_out g_depth g_start cs_text cs_spans].
  replace ((cs_text out ++ ["("%char]) ++ t) with (cs_text out ++ "("%char :: t) by (rewrite <- app_assoc; reflexivity).
  unfold append_char_span at 1. cbn [cs_text cs_spans]. rewrite <- app_assoc. reflexivity.
Qed.
Lemma writes_eq : forall d b m t u b', writes d b m t b' -> t = u -> writes d b m u b'.
Proof. intros d b m t u b' M <-. exact M. Qed.

Lemma writes_infix : forall d b t k, t <> [] -> writes d b (write_infix t k) (" "%char :: t ++ [" "%char]) b.
Proof.
  intros d b t k T. unfold write_infix. eapply writes_eq.
  - eapply writes_seq; [apply writes_char|]. eapply writes_seq; [apply writes_span; exact T | apply writes_char].
  - reflexivity.
Qed.

Lemma code_name_nonempty : forall k, token_type_code_name (expression_type_token k) <> [].
Proof. destruct k; discriminate. Qed.

Lemma writes_subexpression : forall d b outer inner m t, writes d b m t b ->
  writes d b (subexpression o needs_parentheses outer inner m) (sub_text outer inner t) b.
Proof.
  intros d b outer inner m t M. unfold subexpression, sub_text, wraps. cbv zeta. apply writes_attempt.
  destruct (always_parenthesize o || needs_parentheses outer (expression_type inner)).
  - eapply writes_eq; [eapply writes_seq; [apply writes_char_span|]; eapply writes_seq; [exact M | apply writes_char_span]|].
    reflexivity.
  - eapply writes_eq; [eapply writes_seq; [apply writes_done|]; eapply writes_seq; [exact M | apply writes_done]|].
    cbn. apply app_nil_r.
Qed.

Lemma writes_comma : forall d b, writes d b write_separating_comma (str ", ") b.
Proof. intros d b. eapply writes_eq; [eapply writes_seq; [apply writes_char_span | apply writes_char]|]. reflexivity. Qed.

Lemma writes_separated : forall d b ms ts, Forall2 (fun m t => writes d b m t b) ms ts -> forall first,
  writes d b (separated first ms) (join first ts) b.
Proof.
  intros d b ms ts H. induction H as [|m t ms ts M H IH]; intros first; cbn [separated join].
  - apply writes_done.
  - eapply writes_seq; [|eapply writes_seq; [exact M | apply IH]].
    destruct first; [apply writes_done | apply writes_comma].
Qed.

Lemma name_nonempty : forall x, is_name x -> x <> [].
Proof. intros x ((c & r & -> & _) & _). discriminate. Qed.
Lemma literal_nonempty : forall t x ds, is_literal_text t x ds -> x <> [].
Proof. intros t x ds H. destruct (literal_head _ _ _ H) as (c & r & -> & _). discriminate. Qed.

Lemma Forall2_args : forall A B (P : A -> Prop) (R : A -> B -> Prop) (Q : A -> Prop) l l',
  Forall P l -> Forall2 R l l' -> (forall a b, P a -> R a b -> Q a) -> Forall Q l.
Proof.
  intros A B P R Q l l' HP HR HQ. induction HR as [|a b l l' R1 HR IH]; [constructor|].
  inversion HP; subst. constructor; eauto.
Qed.

Lemma type_writes_of : forall t q d b, shows_type t q ->
  type_holds (fun e => forall p, shows e p -> forall d b, writes d b (bms_expr o e) (pr e) b) t ->
  writes d b (bms_type o t) (pr_type t) b.
Proof.
  intros t q d b H IH. destruct H as [cv k cw K | cv w p cw W].
  - destruct k; try congruence; cbn [bms_type pr_type]; apply writes_span; discriminate.
  - cbn [bms_type pr_type]. cbn in IH. apply writes_attempt.
    eapply writes_eq; [eapply writes_seq; [apply writes_span; discriminate | apply writes_parens; eapply IH; exact W]|].
    reflexivity.
Qed.

Lemma expr_writes : forall e p, shows e p -> forall d b, writes d b (bms_expr o e) (pr e) b.
Proof.
  induction e as [cv e t IHe IHt | cv l c r IHl IHc IHr | cv op l r IHl IHr | cv op e IHe
    | cv name lk st args IH | cv name lk g | cv lit t] using expr_width_induction; intros p H d b;
    inversion H; subst; cbn [bms_expr pr]; unfold infix.
  - apply writes_attempt. eapply writes_eq.
    + eapply writes_seq; [apply writes_subexpression; eapply IHe; eassumption|].
      eapply writes_seq; [apply writes_infix; discriminate | eapply type_writes_of; eassumption].
    + reflexivity.
  - apply writes_attempt. eapply writes_eq.
    + eapply writes_seq; [apply writes_subexpression; eapply IHl; eassumption|].
      eapply writes_seq; [apply writes_infix; discriminate|].
      eapply writes_seq; [apply writes_subexpression; eapply IHc; eassumption|].
      eapply writes_seq; [apply writes_infix; discriminate|].
      apply writes_subexpression; eapply IHr; eassumption.
    + reflexivity.
  - apply writes_attempt. eapply writes_eq.
    + eapply writes_seq; [apply writes_subexpression; eapply IHl; eassumption|].
      eapply writes_seq; [apply writes_infix; apply code_name_nonempty|].
      apply writes_subexpression; eapply IHr; eassumption.
    + cbn [app]. rewrite <- app_assoc. reflexivity.
  - eapply writes_seq; [apply writes_span; apply code_name_nonempty|].
    apply writes_subexpression. eapply IHe. eassumption.
  - apply writes_attempt. eapply writes_eq.
    + eapply writes_seq; [apply writes_done|].
      eapply writes_seq; [apply writes_span; apply name_nonempty; assumption|].
      apply writes_parens. apply writes_separated with (ts := map pr args).
      match goal with A : Forall2 shows args _ |- _ => pose proof (Forall2_args _ _ _ _ (fun e => forall d b, writes d b (bms_expr o e) (pr e) b) _ _ IH A) as F end.
      specialize (F (fun a b Ha Hb => Ha b Hb)). clear - F.
      induction F as [|a l F1 F IH]; cbn; constructor; [apply F1 | exact IH].
    + reflexivity.
  - apply writes_span. apply name_nonempty. assumption.
  - apply writes_span. eapply literal_nonempty. eassumption.
  - apply writes_span. discriminate.
  - apply writes_span. discriminate.
Qed.

Lemma type_writes : forall t q, shows_type t q -> forall d b, writes d b (bms_type o t) (pr_type t) b.
Proof.
  intros t q H d b. eapply type_writes_of; [exact H|].
  destruct t as [cv k [w|] cw]; cbn; [|exact Logic.I]. intros p W. eapply expr_writes. exact W.
Qed.

(** ** How it is spelled *)

Lemma name_word : forall x, is_name x -> word_b x = true /\ keyword_by_name x = None.
Proof.
  intros x ((c & r & -> & D) & W & K). split.
  - unfold word_b. apply andb_true_intro. split.
    + apply negb_true_iff. destruct (is_decimal_digit c) eqn:E; [|reflexivity]. exfalso. apply D. clear - E.
      all_chars c; try discriminate E; vm_compute; split; discriminate.
    + apply forallb_forall. intros x X. apply ident_b_iff. rewrite Forall_forall in W. exact (W x X).
  - destruct (keyword_by_name (c :: r)) as [k|] eqn:E; [|reflexivity]. exfalso.
    apply keyword_by_name_some in E. destruct E as (q & Q & E). exact (K _ _ Q E).
Qed.

Definition spelled (t : text) (u : list lexeme) : Prop :=
  forall rest ls, stops rest -> spells rest ls -> spells (t ++ rest) (u ++ ls).

Lemma spelled_parens : forall t u, spelled t u -> spelled ("("%char :: t ++ [")"%char]) (lp :: u ++ [rp]).
Proof.
  intros t u H rest ls St Sp. cbn [app]. rewrite <- !app_assoc. cbn [app].
  apply (spells_single tk_left_parenthesis "("); [cbn; tauto | reflexivity|].
  apply H; [reflexivity|]. apply (spells_single tk_right_parenthesis ")"); [cbn; tauto | reflexivity | exact Sp].
Qed.

Lemma spelled_sub : forall outer inner t u, spelled t u -> spelled (sub_text outer inner t) (sub_tokens outer inner u).
Proof.
  intros outer inner t u H. unfold sub_text, sub_tokens. destruct (wraps outer inner); [apply spelled_parens|]; exact H.
Qed.

Lemma spelled_join : forall ts us, Forall2 spelled ts us -> forall rest ls, stops rest -> spells rest ls ->
  spells (join true ts ++ rest) (join_tokens true us ++ ls) /\
  spells (join false ts ++ rest) (join_tokens false us ++ ls).
Proof.
  intros ts us H. induction H as [|t u ts us T H IH]; intros rest ls St Sp; [split; exact Sp|].
  destruct (IH rest ls St Sp) as [_ IH2]. cbn [join join_tokens app]. rewrite <- !app_assoc.
  assert (K : spells (t ++ join false ts ++ rest) (u ++ join_tokens false us ++ ls)).
  { apply T; [|exact IH2]. destruct ts; [exact St | reflexivity]. }
  split; [exact K|]. cbn [app str list_ascii_of_string].
  apply (spells_single tk_comma ","); [cbn; tauto | reflexivity|]. apply spells_space. exact K.
Qed.

Lemma binary_spelling : forall op k, binary_token op = Some k -> forall s ls, spells s ls ->
  spells (" "%char :: token_type_code_name (expression_type_token op) ++ " "%char :: s) (operator_lexeme op :: ls).
Proof.
  intros op k H s ls Sp. apply spells_space.
  destruct op; try discriminate H; unfold operator_lexeme; cbn [expression_type_token token_type_code_name].
  all: try (apply spells_and; exact Sp).
  all: match goal with |- spells _ ((?k, ?t) :: _) =>
         let q := eval cbv in (match operator_spelling k with Some q => q | None => "" end) in
         apply (spells_operator k q); [reflexivity | discriminate | discriminate | exact Sp] end.
Qed.

Definition head_ok (t : text) : Prop := exists c r, t = c :: r /\ c <> ">"%char.

Lemma head_sub : forall outer inner t u, head_ok t -> head_ok (sub_text outer inner t ++ u).
Proof.
  intros outer inner t u (c & r & -> & C). unfold sub_text. destruct (wraps outer inner).
  - do 2 eexists. split; [reflexivity | discriminate].
  - do 2 eexists. split; [reflexivity | exact C].
Qed.
Lemma head_app : forall t u, head_ok t -> head_ok (t ++ u).
Proof. intros t u (c & r & -> & C). do 2 eexists. split; [reflexivity | exact C]. Qed.
Lemma name_head : forall x, is_name x -> head_ok x.
Proof.
  intros x ((c & r & -> & _) & W & _). do 2 eexists. split; [reflexivity|]. inversion W as [|? ? C _]; subst.
  apply ident_b_iff in C. intros ->. discriminate C.
Qed.

Lemma pr_head : forall e p, shows e p -> head_ok (pr e).
Proof.
  induction e as [cv e t IHe IHt | cv l c r IHl IHc IHr | cv op l r IHl IHr | cv op e IHe
    | cv name lk st args IH | cv name lk g | cv lit t] using expr_width_induction; intros p H;
    inversion H; subst; cbn [pr]; eauto using head_sub.
  - apply head_app. destruct op; try discriminate; do 2 eexists; (split; [reflexivity | discriminate]).
  - apply head_app, name_head. assumption.
  - apply name_head. assumption.
  - match goal with L : is_literal_text _ _ _ |- _ => destruct (literal_head _ _ _ L) as (c & r & -> & D) end.
    do 2 eexists. split; [reflexivity|]. intros ->. discriminate D.
  - do 2 eexists. split; [reflexivity | discriminate].
  - do 2 eexists. split; [reflexivity | discriminate].
Qed.

Lemma prefix_spelling : forall op k, unary_token op = Some k -> k <> tk_logical_not ->
  forall t u, spelled t u -> head_ok t -> spelled (token_type_code_name (expression_type_token op) ++ t) (operator_lexeme op :: u).
Proof.
  intros op k H N t u T (c & r & -> & C) rest ls St Sp. rewrite <- app_assoc. cbn [app]. specialize (T rest ls St Sp).
  destruct op; try discriminate H; injection H as <-; try congruence; unfold operator_lexeme;
    cbn [expression_type_token token_type_code_name].
  - apply (spells_single tk_plus "+"); [cbn; tauto | reflexivity | exact T].
  - apply spells_minus; [exact C | exact T].
  - apply (spells_single tk_bitwise_not "~"); [cbn; tauto | reflexivity | exact T].
Qed.

Definition no_negation (p : pexpr) : bool := every (fun q => negb (negation q)) p.

Lemma type_spelled_of : forall t q, shows_type t q ->
  match q with PType _ (Some w) => no_negation w | _ => true end = true ->
  type_holds (fun e => forall p, shows e p -> no_negation p = true -> spelled (pr e) (tk e)) t ->
  spelled (pr_type t) (tk_of_type t).
Proof.
  intros t q H N IH. destruct H as [cv k cw K | cv w p cw W].
  - intros rest ls St Sp. destruct k; try congruence; cbn [pr_type tk_of_type type_type_name app].
    + apply (spells_keyword tk_keyword_void "Void"); [reflexivity | exact St | exact Sp].
    + apply (spells_keyword tk_keyword_bool "Bool"); [reflexivity | exact St | exact Sp].
    + apply (spells_keyword tk_keyword_int "Int"); [reflexivity | exact St | exact Sp].
  - cbn in IH. intros rest ls St Sp. cbn [pr_type tk_of_type].
    change ((str "Uint(" ++ pr w ++ [")"%char]) ++ rest) with (str "Uint" ++ ("("%char :: pr w ++ [")"%char]) ++ rest).
    cbn [app]. apply (spells_keyword tk_keyword_uint "Uint"); [reflexivity | reflexivity|].
    apply (spelled_parens _ _ (IH _ W N) rest ls St Sp).
Qed.

Lemma args_spelled : forall args ps, Forall2 shows args ps ->
  Forall (fun e => forall p, shows e p -> no_negation p = true -> spelled (pr e) (tk e)) args ->
  forallb no_negation ps = true -> Forall2 spelled (map pr args) (map tk args).
Proof.
  intros args ps H. induction H as [|a p args ps A H IH]; intros F N; cbn; [constructor|].
  cbn in N. apply andb_prop in N. destruct N as [N1 N2]. inversion F; subst. constructor; eauto.
Qed.

Lemma expr_spelled : forall e p, shows e p -> no_negation p = true -> spelled (pr e) (tk e).
Proof.
  induction e as [cv e t IHe IHt | cv l c r IHl IHc IHr | cv op l r IHl IHr | cv op e IHe
    | cv name lk st args IH | cv name lk g | cv lit t] using expr_width_induction; intros p H N;
    inversion H; subst; unfold no_negation in N; cbn [every] in N;
    repeat match goal with N : _ && _ = true |- _ => apply andb_prop in N; destruct N end; cbn [pr tk].
  - intros rest ls St Sp. rewrite <- !app_assoc.
    apply (spelled_sub _ _ _ _ (IHe _ ltac:(eassumption) ltac:(assumption))); [reflexivity|].
    change (str " as " ++ pr_type t ++ rest) with (" "%char :: str "as" ++ " "%char :: pr_type t ++ rest).
    apply spells_space. apply (spells_keyword tk_keyword_as "as"); [reflexivity | reflexivity|]. apply spells_space.
    eapply type_spelled_of; [eassumption | | exact IHt | exact St | exact Sp].
    match goal with K : shows_type t ?q |- _ => destruct q as [k [w|]] end; [assumption | reflexivity].
  - intros rest ls St Sp. rewrite <- !app_assoc.
    apply (spelled_sub _ _ _ _ (IHl _ ltac:(eassumption) ltac:(assumption))); [reflexivity|].
    cbn [str list_ascii_of_string app].
    apply spells_space. apply (spells_keyword tk_keyword_if "if"); [reflexivity | reflexivity|]. apply spells_space.
    rewrite <- !app_assoc.
    apply (spelled_sub _ _ _ _ (IHc _ ltac:(eassumption) ltac:(assumption))); [reflexivity|]. cbn [app].
    apply spells_space. apply (spells_keyword tk_keyword_else "else"); [reflexivity | reflexivity|]. apply spells_space.
    apply (spelled_sub _ _ _ _ (IHr _ ltac:(eassumption) ltac:(assumption))); assumption.
  - intros rest ls St Sp. rewrite <- !app_assoc.
    apply (spelled_sub _ _ _ _ (IHl _ ltac:(eassumption) ltac:(assumption))); [reflexivity|].
    cbn [app]. rewrite <- !app_assoc. cbn [app]. eapply binary_spelling; [eassumption|].
    apply (spelled_sub _ _ _ _ (IHr _ ltac:(eassumption) ltac:(assumption))); assumption.
  - eapply prefix_spelling; [eassumption | | apply spelled_sub; eapply IHe; eassumption |].
    + intros ->. discriminate.
    + rewrite <- (app_nil_r (sub_text op e (pr e))). apply head_sub. eapply pr_head. eassumption.
  - match goal with A : Forall2 shows _ _, M : is_name _ |- _ =>
      pose proof (args_spelled _ _ A IH ltac:(assumption)) as J; destruct (name_word _ M) as [W K] end.
    intros rest ls St Sp. rewrite <- app_assoc. cbn [app]. apply spells_identifier; [exact W | exact K | reflexivity|].
    rewrite <- !app_assoc. cbn [app]. apply (spells_single tk_left_parenthesis "("); [cbn; tauto | reflexivity|].
    apply (spelled_join _ _ J); [reflexivity|].
    apply (spells_single tk_right_parenthesis ")"); [cbn; tauto | reflexivity | exact Sp].
  - match goal with M : is_name _ |- _ => destruct (name_word _ M) as [W K] end.
    intros rest ls St Sp. apply spells_identifier; assumption.
  - intros rest ls St Sp. eapply spells_literal; eassumption.
  - intros rest ls St Sp. apply (spells_keyword tk_keyword_true "true"); [reflexivity | exact St | exact Sp].
  - intros rest ls St Sp. apply (spells_keyword tk_keyword_false "false"); [reflexivity | exact St | exact Sp].
Qed.

Lemma type_spelled : forall t q, shows_type t q ->
  match q with PType _ (Some w) => no_negation w | _ => true end = true -> spelled (pr_type t) (tk_of_type t).
Proof.
  intros t q H N. eapply type_spelled_of; [exact H | exact N|].
  destruct t as [cv k [w|] cw]; cbn; [|exact Logic.I]. intros p W. eapply expr_spelled. exact W.
Qed.
End Print.
