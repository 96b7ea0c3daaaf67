(** What the BMS generator writes for statements and declarations: the text, the tokens, and their place in the
    grammar. *)
From Coq Require Import ZArith Ascii String List Bool Lia.
From Verif Require Import Prelude Text Literals LiteralsSpec LiteralsProofs Types Ops Tables Tokenizer TokenizerSpec
  TokenizerProofs Annotations AbsOps Ast AstFacts NameLookup Parse GrammarSpec CodeString GenBase GenBms GenFacts Spell PrintSpec
  PrintFacts PrintGrammar PrintLook.
Import ListNotations.
Open Scope string_scope.
Open Scope list_scope.

Section Program.
Variable o : code_options.
Notation pr := (pr o).
Notation pr_type := (pr_type o).
Notation tk := (tk o).
Notation tk_of_type := (tk_of_type o).

(** ** Text *)

Definition ind (d : nat) (b : bool) : text := if b then repeat (indent_char o) (d * indent_size o) else [].
Definition separator (break : bool) : text := if break then [ch_newline] else [" "%char].
Definition pr_option (t : option type_node) : text :=
  match t with Some t => str ": " ++ pr_type t | None => [] end.

Fixpoint pr_stmt (d : nat) (b : bool) (s : stmt) : text :=
  match s with
  | SConst _ x _ t e => ind d b ++ str "const " ++ x ++ pr_option t ++ str " = " ++ pr e ++ str ";"
  | SLet _ x _ t i =>
      ind d b ++ str "let " ++ x ++ pr_option t ++ (match i with Some e => str " = " ++ pr e | None => [] end) ++ str ";"
  | SStatic_Assert _ e => ind d b ++ str "static_assert(" ++ pr e ++ str ");"
  | SIf _ c x e =>
      ind d b ++ str "if " ++ pr c ++ separator (break_after_if o) ++ pr_stmt d false x ++
      match e with Some y => str "else " ++ pr_stmt d false y | None => [] end
  | SWhile _ c x => ind d b ++ str "while " ++ pr c ++ separator (break_after_if o) ++ pr_stmt d false x
  | SControl _ t e =>
      ind d b ++ token_type_code_name (control_token t) ++
      (match e with Some x => " "%char :: pr x | None => [] end) ++ str ";"
  | SAssign _ x _ e => ind d b ++ x ++ str " = " ++ pr e ++ str ";"
  | SBlock _ l =>
      str "{" ++ ch_newline :: concat (map (fun x => pr_stmt (S d) true x ++ [ch_newline]) l) ++ ind d true ++ str "}"
  | SExpr e => pr e
  end.

Definition pr_parameter (p : parameter) : text := p_name p ++ str ": " ++ pr_type (p_type p).
Definition pr_function (f : func) : text :=
  str "function " ++ f_name f ++ ("("%char :: join true (map pr_parameter (f_params f)) ++ [")"%char]) ++
  str " -> " ++ pr_type (f_return f) ++ separator (break_after_function o) ++ pr_stmt 0 false (f_body f).
Definition pr_declaration (x : declaration) : text :=
  match x with Decl_Function f => pr_function f | Decl_Statement s => pr_stmt 0 true s end.
Fixpoint pr_declarations (first : bool) (l : list declaration) : text :=
  match l with
  | [] => []
  | x :: rest => (if first then [] else [ch_newline; ch_newline]) ++ pr_declaration x ++ pr_declarations false rest
  end.
Definition pr_program (l : list declaration) : text := pr_declarations true l ++ [ch_newline].

(** ** Writing *)

Lemma writes_end_line : forall d b, writes d b end_line [ch_newline] true.
Proof. intros d b out. eexists. reflexivity. Qed.
Lemma writes_indent : forall d b, writes d b (write_indent o) (ind d b) false.
Proof.
  intros d b out. unfold write_indent, ind. cbn [g_start]. destruct b.
  - eexists. reflexivity.
  - exists (cs_spans out). rewrite app_nil_r. destruct out. reflexivity.
Qed.
Lemma writes_indented : forall d b m t b', writes (S d) b m t b' -> writes d b (indented m) t b'.
Proof.
  intros d b m t b' M out. destruct (M out) as (sp & E). exists sp. unfold indented. cbn [g_out g_depth g_start].
  rewrite E. reflexivity.
Qed.
Lemma writes_separator : forall d break, exists b', writes d false (if break : bool then end_line else put_char " ") (separator break) b'.
Proof. intros d [|]; [exists true; apply writes_end_line | exists false; apply writes_char]. Qed.
Lemma writes_semi : forall d b, writes d b write_semicolon (str ";") b.
Proof. intros d b. apply writes_char_span. Qed.

Lemma writes_annotation : forall d b t q, shows_option t q -> writes d b (bms_annotation o t) (pr_option t) b.
Proof.
  intros d b t q [|t' q' H]; cbn [bms_annotation pr_option]; [apply writes_done|].
  eapply writes_eq; [eapply writes_seq; [apply writes_char_span|]; eapply writes_seq; [apply writes_char | eapply type_writes; exact H]|].
  reflexivity.
Qed.

Lemma writes_lines : forall d ms ts, Forall2 (fun m t => writes d true m t false) ms ts ->
  writes d true (lines ms) (concat (map (fun t => t ++ [ch_newline]) ts)) true.
Proof.
  intros d ms ts H. induction H as [|m t ms ts M H IH]; cbn [lines map concat]; [apply writes_done|].
  intros out. destruct (M out) as (sp & E). rewrite E.
  assert (K : writes d false (end_line ;; lines ms) ([ch_newline] ++ concat (map (fun t => t ++ [ch_newline]) ts)) true)
    by (eapply writes_seq; [apply writes_end_line | exact IH]).
  destruct (K (Code (cs_text out ++ t) sp)) as (sp2 & E2). exists sp2. rewrite E2. cbn [cs_text].
  rewrite <- !app_assoc. reflexivity.
Qed.

Ltac wr := eapply writes_seq; [first [apply writes_indent | apply writes_char | apply writes_semi
  | eapply writes_annotation; eassumption | eapply expr_writes; eassumption | apply writes_infix; discriminate
  | apply writes_span; (discriminate || (apply name_nonempty; assumption)) | apply writes_done]|].
Ltac flat := repeat (cbn [app str list_ascii_of_string pr_stmt token_type_code_name]; rewrite <- ?app_assoc); try reflexivity.

Lemma writes_let_init : forall d b i,
  (forall e, i = Some e -> exists p, shows e p) ->
  writes d b (match i with Some e => infix tk_assign sp_operation ;; bms_expr o e | None => done end)
    (match i with Some e => str " = " ++ pr e | None => [] end) b.
Proof.
  intros d b [e|] H; [|apply writes_done]. destruct (H e eq_refl) as (p & P). unfold infix.
  eapply writes_eq; [eapply writes_seq; [apply writes_infix; discriminate | eapply expr_writes; exact P] | reflexivity].
Qed.

Definition body_writes (s : stmt) : Prop := forall d b, writes d b (bms_stmt o s) (pr_stmt d b s) false.
Definition block_writes (s : stmt) : Prop := forall d b, writes d b (bms_stmt o s) (pr_stmt d false s) false.

Lemma stmt_writes : forall s q, shows_stmt s q -> body_writes s.
Proof.
  induction s as [cv x self t e | cv x self t i | cv e | cv c b IHb | cv c b e IHb IHe | cv c b IHb
    | cv t e | cv x lk e | cv l IH | e] using stmt_induction; intros q H d0 b0; inversion H; subst;
    cbn [bms_stmt]; unfold infix, keyword.
  - apply writes_attempt. eapply writes_eq; [do 7 wr; apply writes_semi | flat].
  - apply writes_attempt. eapply writes_eq.
    + do 5 wr. eapply writes_seq; [apply (writes_let_init d0 false (Some e)); intros ? E; injection E as <-; eauto | apply writes_semi].
    + flat.
  - apply writes_attempt. eapply writes_eq.
    + do 4 wr. eapply writes_seq; [apply (writes_annotation d0 false (Some t0) (Some q0)); constructor; assumption|].
      eapply writes_seq; [apply (writes_let_init d0 false None); intros ? E; discriminate E | apply writes_semi].
    + flat.
  - apply writes_attempt. eapply writes_eq.
    + do 2 wr. eapply writes_seq; [apply writes_parens; eapply expr_writes; eassumption | apply writes_semi].
    + flat.
  - destruct (writes_separator d0 (break_after_if o)) as (b' & SB). apply writes_attempt. eapply writes_eq.
    + do 4 wr. eapply writes_seq; [exact SB|].
      eapply writes_seq; [eapply (IHb (PBlock _)); constructor; eassumption | apply writes_done].
    + flat.
  - destruct (writes_separator d0 (break_after_if o)) as (b' & SB). apply writes_attempt. eapply writes_eq.
    + do 4 wr. eapply writes_seq; [exact SB|].
      eapply writes_seq; [eapply (IHb (PBlock _)); constructor; eassumption|].
      do 3 wr. eapply IHe. eassumption.
    + flat.
  - destruct (writes_separator d0 (break_after_if o)) as (b' & SB). apply writes_attempt. eapply writes_eq.
    + do 4 wr. eapply writes_seq; [exact SB|]. eapply (IHb (PBlock _)); constructor; eassumption.
    + flat.
  - apply writes_attempt. eapply writes_eq; [do 3 wr; apply writes_semi | flat].
  - apply writes_attempt. eapply writes_eq; [do 3 wr; apply writes_semi | flat].
  - apply writes_attempt. eapply writes_eq; [do 3 wr; apply writes_semi | flat].
  - apply writes_attempt. eapply writes_eq.
    + do 2 wr. eapply writes_seq; [|apply writes_semi]. wr. eapply expr_writes. eassumption.
    + flat.
  - apply writes_attempt. eapply writes_eq; [do 4 wr; apply writes_semi | flat].
  - apply writes_attempt. eapply writes_eq.
    + eapply writes_seq; [apply writes_span; discriminate|]. eapply writes_seq; [apply writes_end_line|].
      eapply writes_seq; [apply writes_indented; apply writes_lines with (ts := map (pr_stmt (S d0) true) l)|].
      * match goal with K : Forall2 shows_stmt l _ |- _ => rename K into F; clear - IH F; revert IH end.
        induction F as [|a q l qs A F IH2]; intros IH; cbn; constructor; inversion IH; subst; [|auto].
        match goal with K : forall q, shows_stmt a q -> _ |- _ => exact (K _ A (S d0) true) end.
      * eapply writes_seq; [apply writes_indent | apply writes_span; discriminate].
    + cbn [pr_stmt]. rewrite map_map. flat.
Qed.

Lemma parameter_writes : forall d b p q, shows_parameter p q -> writes d b (bms_parameter o p) (pr_parameter p) b.
Proof.
  intros d b p q [x self t q' N T]. unfold bms_parameter. cbn [p_name p_type].
  eapply writes_eq; [wr; eapply writes_seq; [apply writes_char_span|]; wr; eapply type_writes; exact T | reflexivity].
Qed.

Lemma function_writes : forall f q, shows_function f q -> forall b, writes 0 b (bms_function o f) (pr_function f) false.
Proof.
  intros f q [g ps q' cv l body N P T R B S0] b. unfold bms_function, keyword, infix. rewrite B.
  destruct (writes_separator 0 (break_after_function o)) as (b' & SB).
  apply writes_attempt. eapply writes_eq.
  - do 4 wr. eapply writes_seq; [apply writes_parens; apply writes_separated with (ts := map pr_parameter (f_params g))|].
    + clear - P. induction P as [|a q l qs A F IH2]; cbn; constructor; [eapply parameter_writes; exact A | exact IH2].
    + wr. eapply writes_seq; [eapply type_writes; exact T|]. eapply writes_seq; [exact SB|].
      eapply (stmt_writes (SBlock cv l) (PBlock body)). constructor. exact S0.
  - unfold pr_function. rewrite B. unfold ind. destruct b; flat.
Qed.

Lemma declaration_writes : forall x q, shows_declaration x q -> forall b, writes 0 b (bms_declaration o x) (pr_declaration x) false.
Proof.
  intros x q H b. destruct H as [cv x self t e q H | cv e q H | f q H]; cbn [bms_declaration pr_declaration].
  - pose proof (stmt_writes _ _ H 0%nat b) as W. destruct b; exact W.
  - pose proof (stmt_writes _ _ H 0%nat b) as W. destruct b; exact W.
  - eapply function_writes. exact H.
Qed.

Lemma declarations_writes : forall l qs, Forall2 shows_declaration l qs -> forall first b, exists b',
  writes 0 b (bms_declarations o first l) (pr_declarations first l) b'.
Proof.
  intros l qs H. induction H as [|x q l qs X H IH]; intros first b; cbn [bms_declarations pr_declarations].
  - exists b. apply writes_done.
  - destruct (IH false false) as (b' & K). exists b'. intros out.
    assert (W : writes 0 b (attempt ((if first then done else end_line ;; end_line) ;; bms_declaration o x))
      ((if first then [] else [ch_newline; ch_newline]) ++ pr_declaration x) false).
    { apply writes_attempt. destruct first.
      - eapply writes_seq; [apply writes_done | eapply declaration_writes; exact X].
      - eapply writes_seq; [eapply writes_eq; [eapply writes_seq; apply writes_end_line | reflexivity] | eapply declaration_writes; exact X]. }
    destruct (W out) as (sp & E). rewrite E. destruct (K (Code (cs_text out ++ (if first then [] else [ch_newline; ch_newline]) ++ pr_declaration x) sp)) as (sp2 & E2).
    rewrite E2. exists sp2. cbn [cs_text]. rewrite <- !app_assoc. reflexivity.
Qed.

Lemma program_writes : forall l qs, Forall2 shows_declaration l qs ->
  exists c, generate_bms_code o l empty_code = (c, Ok tt) /\ cs_text c = pr_program l.
Proof.
  intros l qs H. destruct (declarations_writes l qs H true true) as (b & D).
  assert (W : writes 0 true (bms_program o l) (pr_program l) true).
  { unfold bms_program, pr_program. apply writes_attempt. eapply writes_seq; [exact D | apply writes_end_line]. }
  destruct (W empty_code) as (sp & E). unfold generate_bms_code. rewrite E. eexists. split; [reflexivity|]. reflexivity.
Qed.

(** ** Tokens *)

Definition semi : lexeme := (tk_semicolon, str ";").
Definition assign : lexeme := (tk_assign, str "=").
Definition tk_option (t : option type_node) : list lexeme :=
  match t with Some t => (tk_colon, str ":") :: tk_of_type t | None => [] end.

Fixpoint tk_stmt (s : stmt) : list lexeme :=
  match s with
  | SConst _ x _ t e => (tk_keyword_const, str "const") :: (tk_identifier, x) :: tk_option t ++ assign :: tk e ++ [semi]
  | SLet _ x _ t i =>
      (tk_keyword_let, str "let") :: (tk_identifier, x) :: tk_option t ++
      (match i with Some e => assign :: tk e | None => [] end) ++ [semi]
  | SStatic_Assert _ e => (tk_keyword_static_assert, str "static_assert") :: (lp :: tk e ++ [rp]) ++ [semi]
  | SIf _ c x e =>
      (tk_keyword_if, str "if") :: tk c ++ tk_stmt x ++
      match e with Some y => (tk_keyword_else, str "else") :: tk_stmt y | None => [] end
  | SWhile _ c x => (tk_keyword_while, str "while") :: tk c ++ tk_stmt x
  | SControl _ t e =>
      (control_token t, token_type_code_name (control_token t)) :: (match e with Some x => tk x | None => [] end) ++ [semi]
  | SAssign _ x _ e => (tk_identifier, x) :: assign :: tk e ++ [semi]
  | SBlock _ l => (tk_left_brace, str "{") :: flat_map tk_stmt l ++ [(tk_right_brace, str "}")]
  | SExpr e => tk e
  end.

Definition tk_parameter (p : parameter) : list lexeme :=
  (tk_identifier, p_name p) :: (tk_colon, str ":") :: tk_of_type (p_type p).
Definition tk_function (f : func) : list lexeme :=
  (tk_keyword_function, str "function") :: (tk_identifier, f_name f) ::
  (lp :: join_tokens true (map tk_parameter (f_params f)) ++ [rp]) ++
  (tk_right_arrow, str "->") :: tk_of_type (f_return f) ++ tk_stmt (f_body f).
Definition tk_declaration (x : declaration) : list lexeme :=
  match x with Decl_Function f => tk_function f | Decl_Statement s => tk_stmt s end.
Definition tk_program (l : list declaration) : list lexeme := flat_map tk_declaration l.

(** ** Spelling *)

Hypothesis white : is_white (indent_char o).

(** Spelled like this whatever comes next. *)
Definition closed (t : text) (u : list lexeme) : Prop := forall rest ls, spells rest ls -> spells (t ++ rest) (u ++ ls).

Lemma spells_ind : forall d b s ls, spells s ls -> spells (ind d b ++ s) ls.
Proof.
  intros d b s ls H. apply spells_whites; [|exact H]. unfold ind. destruct b; [|constructor].
  apply Forall_forall. intros c C. apply repeat_spec in C. subst c. exact white.
Qed.
Lemma spells_separator : forall b s ls, spells s ls -> spells (separator b ++ s) ls.
Proof. intros [|] s ls H; [apply spells_newline | apply spells_space]; exact H. Qed.
Lemma separator_stops : forall b s, stops (separator b ++ s).
Proof. intros [|] s; reflexivity. Qed.
Lemma spells_semi : forall s ls, spells s ls -> spells (str ";" ++ s) (semi :: ls).
Proof. intros s ls H. apply (spells_single tk_semicolon ";"); [cbn; tauto | reflexivity | exact H]. Qed.
Lemma spells_assign : forall s ls, spells s ls -> spells (str " = " ++ s) (assign :: ls).
Proof.
  intros s ls H. change (str " = " ++ s) with (" "%char :: str "=" ++ " "%char :: s). apply spells_space.
  apply (spells_operator tk_assign "="); [reflexivity | discriminate | discriminate | exact H].
Qed.
Lemma spells_name : forall x s ls, is_name x -> stops s -> spells s ls -> spells (x ++ s) ((tk_identifier, x) :: ls).
Proof. intros x s ls N St H. destruct (name_word _ N). apply spells_identifier; assumption. Qed.

Definition widths_fine (f : pexpr -> bool) (q : ptype) : bool := forallb f (type_expressions q).

Lemma type_is_spelled : forall t q, shows_type t q -> forallb no_negation (type_expressions q) = true ->
  spelled (pr_type t) (tk_of_type t).
Proof.
  intros t q H N. eapply type_spelled; [exact H|]. destruct q as [k [w|]]; cbn in N; [|reflexivity].
  rewrite andb_true_r in N. exact N.
Qed.
Lemma option_spelled : forall t q, shows_option t q -> forallb no_negation (option_expressions q) = true ->
  spelled (pr_option t) (tk_option t).
Proof.
  intros t q [|t' q' H] N rest ls St Sp; cbn [pr_option tk_option app]; [exact Sp|].
  change ((str ": " ++ pr_type t') ++ rest) with (str ":" ++ " "%char :: pr_type t' ++ rest).
  apply (spells_single tk_colon ":"); [cbn; tauto | reflexivity|]. apply spells_space.
  eapply type_is_spelled; eassumption.
Qed.
Lemma option_stops : forall t s, stops s -> stops (pr_option t ++ s).
Proof. intros [t|] s St; [reflexivity | exact St]. Qed.

Lemma statements_closed : forall l ps, Forall2 shows_stmt l ps ->
  Forall (fun s => forall q, shows_stmt s q -> forallb no_negation (stmt_expressions q) = true ->
    forall d b, closed (pr_stmt d b s) (tk_stmt s)) l ->
  forallb no_negation (flat_map stmt_expressions ps) = true ->
  forall d, closed (concat (map (fun x => pr_stmt (S d) true x ++ [ch_newline]) l)) (flat_map tk_stmt l).
Proof.
  intros l ps H. induction H as [|a q l qs A H IH2]; intros F N d rest ls Sp; cbn [map concat flat_map]; [exact Sp|].
  inversion F as [|? ? Fa Fr]; subst. cbn [flat_map] in N. rewrite forallb_app in N. apply andb_prop in N. destruct N as [N1 N2].
  rewrite <- !app_assoc. apply (Fa _ A N1). cbn [app]. apply spells_newline. apply IH2; assumption.
Qed.

Lemma block_closed : forall cv l ps, Forall2 shows_stmt l ps ->
  Forall (fun s => forall q, shows_stmt s q -> forallb no_negation (stmt_expressions q) = true ->
    forall d b, closed (pr_stmt d b s) (tk_stmt s)) l ->
  forallb no_negation (flat_map stmt_expressions ps) = true ->
  forall d b, closed (pr_stmt d b (SBlock cv l)) (tk_stmt (SBlock cv l)).
Proof.
  intros cv l ps H F N d b rest ls Sp. cbn [pr_stmt tk_stmt]. cbn [app]. rewrite <- !app_assoc. cbn [app]. rewrite <- !app_assoc.
  apply (spells_single tk_left_brace "{"); [cbn; tauto | reflexivity|]. apply spells_newline.
  apply (statements_closed l ps H F N d). apply spells_ind. cbn [app].
  apply (spells_single tk_right_brace "}"); [cbn; tauto | reflexivity | exact Sp].
Qed.

Ltac splitb := cbn [stmt_expressions option_expressions forallb flat_map app] in *; rewrite ?forallb_app in *; cbn [forallb] in *; rewrite ?andb_true_r in *;
    repeat match goal with N : _ && _ = true |- _ => apply andb_prop in N; destruct N end.
Ltac kw k q := apply (spells_keyword k q); [reflexivity | reflexivity|].
Ltac ex := match goal with |- spells (PrintFacts.pr _ ?e ++ _) _ => eapply (expr_spelled o e); [eassumption | eassumption | |] end.

Lemma stmt_closed : forall s q, shows_stmt s q -> forallb no_negation (stmt_expressions q) = true ->
  forall d b, closed (pr_stmt d b s) (tk_stmt s).
Proof.
  induction s as [cv x self t e | cv x self t i | cv e | cv c b IHb | cv c b e IHb IHe | cv c b IHb
    | cv t e | cv x lk e | cv l IH | e] using stmt_induction; intros q H N d0 b0;
    inversion H; subst; [.. | idtac].
  - intros rest ls Sp. splitb. cbn [pr_stmt tk_stmt app]. rewrite <- !app_assoc. cbn [app]. rewrite <- !app_assoc. apply spells_ind. cbn [app].
    kw tk_keyword_const "const". apply spells_space. apply spells_name; [assumption | apply option_stops; reflexivity|].
    eapply option_spelled; [eassumption | assumption | reflexivity|].
    apply spells_assign. ex; [reflexivity|]. apply spells_semi. exact Sp.
  - intros rest ls Sp. splitb. cbn [pr_stmt tk_stmt app]. rewrite <- !app_assoc. cbn [app]. rewrite <- !app_assoc. apply spells_ind. cbn [app].
    kw tk_keyword_let "let". apply spells_space. apply spells_name; [assumption | apply option_stops; reflexivity|].
    eapply option_spelled; [eassumption | assumption | reflexivity|].
    apply spells_assign. ex; [reflexivity|]. apply spells_semi. exact Sp.
  - intros rest ls Sp. splitb. cbn [pr_stmt tk_stmt app]. rewrite <- !app_assoc. apply spells_ind. cbn [app].
    kw tk_keyword_let "let". apply spells_space. apply spells_name; [assumption | reflexivity|].
    apply (option_spelled (Some t0) (Some q0)); [constructor; assumption | assumption | reflexivity|].
    apply spells_semi. exact Sp.
  - intros rest ls Sp. splitb. cbn [pr_stmt tk_stmt app]. rewrite <- !app_assoc. apply spells_ind. cbn [app].
    kw tk_keyword_static_assert "static_assert".
    apply (spells_single tk_left_parenthesis "("); [cbn; tauto | reflexivity|]. rewrite <- ?app_assoc. cbn [app].
    ex; [reflexivity|].
    apply (spells_single tk_right_parenthesis ")"); [cbn; tauto | reflexivity|]. apply spells_semi. exact Sp.
  - intros rest ls Sp. splitb. remember (SBlock cv' l) as B0 eqn:EB. cbn [pr_stmt tk_stmt app]. rewrite <- !app_assoc.
    apply spells_ind. cbn [app].
    kw tk_keyword_if "if". apply spells_space. ex; [apply separator_stops|]. apply spells_separator.
    eapply (IHb (PBlock _)); [subst B0; constructor; eassumption | assumption | exact Sp].
  - intros rest ls Sp. splitb. remember (SBlock cv' l) as B0 eqn:EB. remember (SIf cv2 c2 b2 e2) as E0 eqn:EE. cbn [pr_stmt tk_stmt app]. rewrite <- !app_assoc.
    apply spells_ind. cbn [app].
    kw tk_keyword_if "if". apply spells_space. ex; [apply separator_stops|]. apply spells_separator.
    eapply (IHb (PBlock _)); [subst B0; constructor; eassumption | assumption |].
    cbn [app]. kw tk_keyword_else "else". apply spells_space.
    eapply IHe; [eassumption | assumption | exact Sp].
  - intros rest ls Sp. splitb. remember (SBlock cv' l) as B0 eqn:EB. cbn [pr_stmt tk_stmt app]. rewrite <- !app_assoc.
    apply spells_ind. cbn [app].
    kw tk_keyword_while "while". apply spells_space. ex; [apply separator_stops|]. apply spells_separator.
    eapply (IHb (PBlock _)); [subst B0; constructor; eassumption | assumption | exact Sp].
  - intros rest ls Sp. cbn [pr_stmt tk_stmt app]. rewrite <- !app_assoc. apply spells_ind. cbn [app control_token token_type_code_name].
    kw tk_keyword_break "break". apply spells_semi. exact Sp.
  - intros rest ls Sp. cbn [pr_stmt tk_stmt app]. rewrite <- !app_assoc. apply spells_ind. cbn [app control_token token_type_code_name].
    kw tk_keyword_continue "continue". apply spells_semi. exact Sp.
  - intros rest ls Sp. cbn [pr_stmt tk_stmt app]. rewrite <- !app_assoc. apply spells_ind. cbn [app control_token token_type_code_name].
    kw tk_keyword_return "return". apply spells_semi. exact Sp.
  - intros rest ls Sp. splitb. cbn [pr_stmt tk_stmt app]. rewrite <- !app_assoc. apply spells_ind. cbn [app control_token token_type_code_name].
    kw tk_keyword_return "return". apply spells_space. rewrite <- app_assoc. ex; [reflexivity|]. apply spells_semi. exact Sp.
  - intros rest ls Sp. splitb. cbn [pr_stmt tk_stmt app]. rewrite <- !app_assoc. apply spells_ind. cbn [app].
    apply spells_name; [assumption | reflexivity|]. apply spells_assign. ex; [reflexivity|]. apply spells_semi. exact Sp.
  - eapply block_closed; eassumption.
Qed.

Lemma parameter_spelled : forall p q, shows_parameter p q -> forallb no_negation (type_expressions (pp_type q)) = true ->
  spelled (pr_parameter p) (tk_parameter p).
Proof.
  intros p q [x self t q' N T] NE rest ls St Sp. unfold pr_parameter, tk_parameter. cbn [p_name p_type pp_type] in *.
  rewrite <- !app_assoc. apply spells_name; [assumption | reflexivity|]. cbn [app].
  apply (spells_single tk_colon ":"); [cbn; tauto | reflexivity|]. apply spells_space. eapply type_is_spelled; eassumption.
Qed.

Lemma function_closed : forall f q, shows_function f q -> forallb no_negation (function_expressions q) = true ->
  closed (pr_function f) (tk_function f).
Proof.
  intros f q [g ps q' cv l body N P T R B S0] NE rest ls Sp. unfold function_expressions in NE.
  cbn [pf_parameters pf_return_type pf_requires pf_body app] in NE. splitb.
  unfold pr_function, tk_function. rewrite B. rewrite <- !app_assoc. cbn [app].
  kw tk_keyword_function "function". apply spells_space. apply spells_name; [assumption | reflexivity|].
  apply (spells_single tk_left_parenthesis "("); [cbn; tauto | reflexivity|]. rewrite <- !app_assoc. cbn [app].
  apply spelled_join; [| reflexivity |].
  - match goal with K : forallb _ (flat_map _ ps) = true |- _ => clear - P K white; revert K end.
    induction P as [|a q l qs A F IH2]; intros K; cbn; constructor; cbn [flat_map] in K; rewrite forallb_app in K;
      apply andb_prop in K; destruct K; [eapply parameter_spelled; eassumption | auto].
  - apply (spells_single tk_right_parenthesis ")"); [cbn; tauto | reflexivity|].
    change (str " -> ") with (" "%char :: str "->" ++ [" "%char]). cbn [app]. apply spells_space.
    apply (spells_operator tk_right_arrow "->"); [reflexivity | discriminate | discriminate|].
    rewrite <- app_assoc. eapply type_is_spelled; [eassumption | eassumption | apply separator_stops|]. apply spells_separator.
    apply (stmt_closed (SBlock cv l) (PBlock body)); [constructor; exact S0 | assumption | exact Sp].
Qed.

Lemma declaration_closed : forall x q, shows_declaration x q -> forallb no_negation (declaration_expressions q) = true ->
  closed (pr_declaration x) (tk_declaration x).
Proof.
  intros x q H N. destruct H as [cv x self t e q H | cv e q H | f q H]; cbn [pr_declaration tk_declaration declaration_expressions] in *.
  - eapply stmt_closed; eassumption.
  - eapply stmt_closed; eassumption.
  - eapply function_closed; eassumption.
Qed.

Lemma declarations_closed : forall l qs, Forall2 shows_declaration l qs -> forallb no_negation (program_expressions qs) = true ->
  forall first, closed (pr_declarations first l) (flat_map tk_declaration l).
Proof.
  intros l qs H. induction H as [|x q l qs X H IH]; intros N first rest ls Sp; cbn [pr_declarations flat_map]; [exact Sp|].
  unfold program_expressions in N. cbn [flat_map] in N. rewrite forallb_app in N. apply andb_prop in N. destruct N as [N1 N2].
  rewrite <- !app_assoc.
  assert (K : spells (pr_declaration x ++ pr_declarations false l ++ rest) (tk_declaration x ++ flat_map tk_declaration l ++ ls)).
  { eapply declaration_closed; [exact X | exact N1|]. apply IH; assumption. }
  destruct first; cbn [app]; [exact K|]. apply spells_newline, spells_newline. exact K.
Qed.

Lemma program_spelled : forall l qs, Forall2 shows_declaration l qs -> forallb no_negation (program_expressions qs) = true ->
  spells (pr_program l) (tk_program l).
Proof.
  intros l qs H N. unfold pr_program, tk_program. rewrite <- (app_nil_r (flat_map tk_declaration l)).
  eapply declarations_closed; [exact H | exact N|]. apply spells_newline. apply spells_end. constructor.
Qed.
End Program.
