(** Facts about all generators: they only append, and failing ones leave nothing behind. *)
From Coq Require Import ZArith Ascii String List Bool Lia.
From Verif Require Import Prelude Types Ops Text Tables AbsOps Ast AstFacts NameLookup CodeString CodeStringSpec
  CodeStringProofs Decimal GenBase GenBms GenC.
Import ListNotations.
Open Scope string_scope.
Open Scope list_scope.
Open Scope gen_scope.

(** Errors that stop the generation. *)
Definition stops (widths : bool) (r : outcome generator_error unit) : Prop :=
  match r with
  | Err ge_empty | Err ge_error => False
  | Err ge_unsupported_integer_width => widths = true
  | _ => True
  end.

Create HintDb gen.
Section Appends.
Variable w : bool.

(** What was in the output stays, and spans stay well-formed. *)
Definition appends (m : gen) : Prop := forall s,
  extends (g_out s) (g_out (fst (m s))) /\
  (well_spanned (g_out s) -> well_spanned (g_out (fst (m s)))) /\
  g_depth (fst (m s)) = g_depth s /\
  stops w (snd (m s)).

Lemma seq_appends : forall m k, appends m -> appends k -> appends (m ;; k).
Proof.
  intros m k M K s. unfold seq. destruct (M s) as (E & W & D & R). destruct (m s) as [s1 [u|e| |]]; cbn in *.
  - destruct (K s1) as (E' & W' & D' & R'). split; [eapply extends_trans; eassumption|].
    split; [auto|]. split; [exact (eq_trans D' D) | exact R'].
  - auto.
  - auto.
  - auto.
Qed.

Lemma done_appends : appends done.
Proof. intros s. cbn. split; [apply extends_refl|]. auto. Qed.
Lemma aborts_appends : appends aborts.
Proof. intros s. cbn. split; [apply extends_refl|]. auto. Qed.
Lemma undefined_appends : appends undefined.
Proof. intros s. cbn. split; [apply extends_refl|]. auto. Qed.
Lemma fails_appends : w = true -> appends (fails ge_unsupported_integer_width).
Proof. intros W s. cbn. split; [apply extends_refl|]. auto. Qed.

Lemma put_char_appends : forall c, appends (put_char c).
Proof.
  intros c s. cbn. split; [apply extends_text|]. split; [apply (well_spanned_text (g_out s) [c])|]. auto.
Qed.
Lemma put_text_appends : forall t, appends (put_text t).
Proof.
  intros t s. cbn. split; [apply extends_text|]. split; [apply (well_spanned_text (g_out s) t)|]. auto.
Qed.
Lemma put_char_span_appends : forall c k, appends (put_char_span c k).
Proof.
  intros c k s. cbn. split; [apply extends_make|]. split; [|auto].
  apply (well_spanned_span (g_out s) [c] k). discriminate.
Qed.
Lemma put_span_appends : forall t k, appends (put_span t k).
Proof.
  intros t k s. unfold put_span, append_span. destruct t as [|c t]; cbn.
  - split; [apply extends_refl|]. auto.
  - split; [apply extends_make|]. split; [|auto]. apply (well_spanned_span (g_out s) (c :: t) k). discriminate.
Qed.

Lemma attempt_appends : forall m, appends m -> appends (attempt m).
Proof.
  intros m M s. destruct (M s) as (E & W & D & R). unfold attempt. destruct (m s) as [s1 [u|e| |]]; cbn in *.
  - auto.
  - rewrite (resize_extends _ _ E). split; [apply extends_refl|]. auto.
  - rewrite (resize_extends _ _ E). split; [apply extends_refl|]. auto.
  - rewrite (resize_extends _ _ E). split; [apply extends_refl|]. auto.
Qed.

Lemma attempt_failed : forall m s, appends m ->
  (snd (attempt m s) = Ok tt \/ g_out (fst (attempt m s)) = g_out s).
Proof.
  intros m s M. destruct (M s) as (E & _). unfold attempt. destruct (m s) as [s1 [[]|e| |]]; cbn in *.
  - left. reflexivity.
  - right. apply resize_extends. exact E.
  - right. apply resize_extends. exact E.
  - right. apply resize_extends. exact E.
Qed.

Lemma parens_appends : forall m, appends m -> appends (parens m).
Proof.
  intros m M s. unfold parens.
  set (s0 := GS (append_char_span "(" sp_bracket (g_out s)) (g_depth s) (g_start s)).
  destruct (put_char_span_appends "("%char sp_bracket s) as (E0 & W0 & _ & _).
  destruct (M s0) as (E & W & D & R). destruct (m s0) as [s1 r]. cbn in *.
  destruct (put_char_span_appends ")"%char sp_bracket s1) as (E1 & W1 & _ & _). cbn in *.
  split; [eapply extends_trans; [exact E0|]; eapply extends_trans; eassumption|].
  split; [auto|]. split; [exact D | exact R].
Qed.

Lemma indented_appends : forall m, appends m -> appends (indented m).
Proof.
  intros m M s. unfold indented. destruct (M (GS (g_out s) (S (g_depth s)) (g_start s))) as (E & W & D & R).
  destruct (m _) as [s1 r]. cbn in *. split; [exact E|]. split; [exact W|]. split; [rewrite D; reflexivity | exact R].
Qed.

Lemma end_line_appends : appends end_line.
Proof.
  intros s. cbn. split; [apply extends_text|]. split; [apply (well_spanned_text (g_out s) [ch_newline])|]. auto.
Qed.

Lemma write_indent_appends : forall o, appends (write_indent o).
Proof.
  intros o s. unfold write_indent. destruct (g_start s); cbn.
  - split; [apply extends_text|]. split; [apply (well_spanned_text (g_out s))|]. auto.
  - split; [apply extends_refl|]. auto.
Qed.

Lemma if_appends : forall (b : bool) m k, appends m -> appends k -> appends (if b then m else k).
Proof. intros [] m k M K; assumption. Qed.

#[local] Hint Resolve seq_appends done_appends aborts_appends undefined_appends fails_appends put_char_appends
  put_text_appends put_char_span_appends put_span_appends attempt_appends parens_appends indented_appends
  end_line_appends write_indent_appends if_appends : gen.

Lemma write_infix_appends : forall t k, appends (write_infix t k).
Proof. intros t k. unfold write_infix. auto with gen. Qed.
Lemma write_semicolon_appends : appends write_semicolon.
Proof. unfold write_semicolon. auto with gen. Qed.
Lemma write_comma_appends : appends write_separating_comma.
Proof. unfold write_separating_comma. auto with gen. Qed.
Lemma separate_function_appends : forall o, appends (separate_after_function o).
Proof. intros o. unfold separate_after_function. auto with gen. Qed.
Lemma separate_if_appends : forall o, appends (separate_after_if o).
Proof. intros o. unfold separate_after_if. auto with gen. Qed.
Lemma subexpression_appends : forall o needs outer inner m, appends m -> appends (subexpression o needs outer inner m).
Proof. intros o needs outer inner m M. unfold subexpression. cbv zeta. auto with gen. Qed.
#[local] Hint Resolve write_infix_appends write_semicolon_appends write_comma_appends separate_function_appends
  separate_if_appends subexpression_appends : gen.

Lemma separated_appends : forall l first, Forall appends l -> appends (separated first l).
Proof.
  induction l as [|m l IH]; intros first H; cbn [separated]; [apply done_appends|].
  inversion H; subst. auto with gen.
Qed.

(** Empty constructs leave the state alone. *)
Definition appends_or_empty (m : gen) : Prop := forall s, m s = (s, Err ge_empty) \/
  (extends (g_out s) (g_out (fst (m s))) /\
   (well_spanned (g_out s) -> well_spanned (g_out (fst (m s)))) /\
   g_depth (fst (m s)) = g_depth s /\
   stops w (snd (m s))).

Lemma appends_either : forall m, appends m -> appends_or_empty m.
Proof. intros m M s. right. apply M. Qed.
Lemma empty_either : appends_or_empty (fails ge_empty).
Proof. intros s. left. reflexivity. Qed.

Lemma lines_appends : forall l, Forall appends_or_empty l -> appends (lines l).
Proof.
  induction l as [|m l IH]; intros H s; cbn [lines]; [apply done_appends|]. inversion H as [|? ? M L]; subst.
  specialize (IH L). destruct (M s) as [-> | (E & W & D & R)]; [apply IH|].
  destruct (m s) as [s1 [u|[]| |]]; cbn in E, W, D, R; try contradiction; try solve [cbn; auto].
  destruct (seq_appends _ _ end_line_appends IH s1) as (E' & W' & D' & R').
  split; [eapply extends_trans; eassumption|]. split; [auto|]. split; [exact (eq_trans D' D) | exact R'].
Qed.

End Appends.
#[export] Hint Resolve seq_appends done_appends aborts_appends undefined_appends fails_appends put_char_appends put_text_appends put_char_span_appends put_span_appends attempt_appends parens_appends indented_appends end_line_appends write_indent_appends if_appends write_infix_appends write_semicolon_appends write_comma_appends separate_function_appends separate_if_appends subexpression_appends : gen.

(** ** BMS *)

(** Induction that also reaches the widths of types. *)
Section Widths.
Variable P : expr -> Prop.
Definition type_holds (t : type_node) : Prop :=
  match t with Type_Node _ _ (Some w) _ => P w | _ => True end.
Hypothesis Hconv : forall cv e t, P e -> type_holds t -> P (EConversion cv e t).
Hypothesis Hif : forall cv l c r, P l -> P c -> P r -> P (EIf cv l c r).
Hypothesis Hbin : forall cv op l r, P l -> P r -> P (EBinary cv op l r).
Hypothesis Hpre : forall cv op e, P e -> P (EPrefix cv op e).
Hypothesis Hcall : forall cv name lk st args, Forall P args -> P (ECall cv name lk st args).
Hypothesis Hid : forall cv name lk g, P (EId cv name lk g).
Hypothesis Hlit : forall cv lit t, P (ELiteral cv lit t).

Fixpoint expr_width_induction (e : expr) : P e :=
  match e with
  | EConversion cv e1 t =>
      Hconv cv e1 t (expr_width_induction e1)
        (match t return type_holds t with
         | Type_Node c k (Some w) n => expr_width_induction w
         | Type_Node c k None n => Logic.I
         end)
  | EIf cv l c r => Hif cv l c r (expr_width_induction l) (expr_width_induction c) (expr_width_induction r)
  | EBinary cv op l r => Hbin cv op l r (expr_width_induction l) (expr_width_induction r)
  | EPrefix cv op e1 => Hpre cv op e1 (expr_width_induction e1)
  | ECall cv name lk st args =>
      Hcall cv name lk st args
        ((fix all (l : list expr) : Forall P l :=
            match l with
            | [] => Forall_nil P
            | a :: rest => Forall_cons a (expr_width_induction a) (all rest)
            end) args)
  | EId cv name lk g => Hid cv name lk g
  | ELiteral cv lit t => Hlit cv lit t
  end.

Lemma type_width_holds : forall t, type_holds t.
Proof. intros [c k [w|] n]; cbn; [apply expr_width_induction | exact Logic.I]. Qed.
End Widths.

Lemma Forall_map' : forall A B (f : A -> B) (P : B -> Prop) l, Forall (fun a => P (f a)) l -> Forall P (map f l).
Proof. intros A B f P l H. induction H; cbn; constructor; assumption. Qed.

Lemma bms_type_appends_of : forall o t, type_holds (fun e => appends false (bms_expr o e)) t -> appends false (bms_type o t).
Proof. intros o [c [] [w|] n] H; cbn in *; auto with gen. Qed.

Lemma bms_expr_appends : forall o e, appends false (bms_expr o e).
Proof.
  intros o. induction e as [cv e t IHe IHt | cv l c r IHl IHc IHr | cv op l r IHl IHr | cv op e IHe
    | cv name lk st args IH | cv name lk g | cv lit t] using expr_width_induction; cbn [bms_expr]; unfold infix, keyword.
  - apply bms_type_appends_of in IHt. auto with gen.
  - auto 10 with gen.
  - auto with gen.
  - auto with gen.
  - assert (appends false (separated true (map (bms_expr o) args))).
    { apply separated_appends. apply Forall_map'. exact IH. } auto with gen.
  - auto with gen.
  - auto with gen.
Qed.

Lemma bms_type_appends : forall o t, appends false (bms_type o t).
Proof. intros o t. apply bms_type_appends_of. apply type_width_holds; intros; apply bms_expr_appends. Qed.
#[export] Hint Resolve bms_expr_appends bms_type_appends : gen.

Lemma bms_annotation_appends : forall o t, appends false (bms_annotation o t).
Proof. intros o [t|]; cbn; auto with gen. Qed.
#[export] Hint Resolve bms_annotation_appends : gen.

Lemma bms_stmt_appends : forall o s, appends false (bms_stmt o s).
Proof.
  intros o. induction s as [cv name self t e | cv name self t e | cv e | cv c b IHb | cv c b e IHb IHe | cv c b IHb
    | cv t e | cv name lk e | cv l IH | e] using stmt_induction; cbn [bms_stmt]; unfold infix, keyword.
  - auto 20 with gen.
  - assert (appends false (match e with Some e => write_infix (token_type_code_name tk_assign) sp_operation;; bms_expr o e | None => done end))
      by (destruct e; auto with gen). auto 20 with gen.
  - auto 20 with gen.
  - assert (appends false (match b with SBlock _ _ => bms_stmt o b | _ => aborts end)) by (destruct b; auto with gen).
    auto 20 with gen.
  - assert (appends false (match b with SBlock _ _ => bms_stmt o b | _ => aborts end)) by (destruct b; auto with gen).
    assert (appends false (match e with
      | SIf _ _ _ _ => write_indent o;; put_span (token_type_code_name tk_keyword_else) sp_keyword;; put_char " ";; bms_stmt o e
      | SBlock _ _ => bms_stmt o e | _ => aborts end)) by (destruct e; auto with gen).
    auto 20 with gen.
  - assert (appends false (match b with SBlock _ _ => bms_stmt o b | _ => aborts end)) by (destruct b; auto with gen).
    auto 20 with gen.
  - assert (appends false (match e with Some x => put_char " " ;; bms_expr o x | None => done end)) by (destruct e; auto with gen).
    auto 20 with gen.
  - auto 20 with gen.
  - assert (appends false (lines (map (bms_stmt o) l))).
    { apply lines_appends. apply Forall_map'. eapply Forall_impl; [|exact IH]. intros a. apply appends_either. }
    auto 20 with gen.
  - auto with gen.
Qed.
#[export] Hint Resolve bms_stmt_appends : gen.

Lemma bms_declaration_appends : forall o d, appends false (bms_declaration o d).
Proof.
  intros o [f|s]; cbn [bms_declaration]; [|auto with gen]. unfold bms_function, infix, keyword.
  assert (appends false (separated true (map (bms_parameter o) (f_params f)))).
  { apply separated_appends, Forall_map'. apply Forall_forall. intros p _. unfold bms_parameter. auto with gen. }
  assert (appends false (match f_body f with SBlock _ _ => bms_stmt o (f_body f) | _ => aborts end))
    by (destruct (f_body f) eqn:E; auto with gen).
  auto 20 with gen.
Qed.
#[export] Hint Resolve bms_declaration_appends : gen.

Lemma bms_declarations_appends : forall o l first, appends false (bms_declarations o first l).
Proof.
  induction l as [|d l IH]; intros first s; cbn [bms_declarations]; [apply done_appends|].
  set (m := attempt _). assert (M : appends false m) by (unfold m; auto with gen). destruct (M s) as (E & W & D & R).
  destruct (m s) as [s1 [u|[]| |]]; cbn in E, W, D, R; try contradiction; try solve [cbn; auto].
  destruct (IH false s1) as (E' & W' & D' & R').
  split; [eapply extends_trans; eassumption|]. split; [auto|]. split; [exact (eq_trans D' D) | exact R'].
Qed.

Lemma bms_program_appends : forall o l,
  appends false (bms_declarations o true l ;; end_line).
Proof. intros o l. apply seq_appends; [apply bms_declarations_appends | apply end_line_appends]. Qed.

(** ** C and C++ *)

Lemma with_value_appends : forall A (x : outcome generator_error A) k,
  (forall e, x = Err e -> e = ge_unsupported_integer_width) -> (forall a, appends true (k a)) ->
  appends true (with_value x k).
Proof.
  intros A [a|e| |] k X K; cbn; auto with gen. rewrite (X e eq_refl). auto with gen.
Qed.

Lemma append_value_appends : forall v, appends true (append_value v).
Proof. intros [[] z]; cbn; auto with gen. Qed.
#[export] Hint Resolve append_value_appends : gen.

Lemma append_type_appends : forall t d, appends true (append_type t d).
Proof. intros t d. unfold append_type, prepend_std. destruct t; auto 10 with gen. Qed.
#[export] Hint Resolve append_type_appends : gen.

Lemma generate_type_appends : forall o d t, appends true (generate_type o d t).
Proof.
  intros o d t. unfold generate_type. apply with_value_appends; [|auto with gen].
  intros e H. unfold to_c_type in H. destruct t as [| | |w]; try discriminate H.
  repeat match type of H with (if ?b then _ else _) = _ => destruct b; try discriminate H end. congruence.
Qed.
#[export] Hint Resolve generate_type_appends : gen.

Lemma c_type_node_appends : forall o d t, appends true (c_type_node o d t).
Proof.
  intros o d t. unfold c_type_node. apply with_value_appends; [|auto with gen].
  intros e H. unfold concrete_type_value, concrete_type in H. destruct t as [c k w n].
  destruct k, n; cbn in H; try discriminate H.
  unfold concrete_type_Uint, concrete_type_ctor, assert_then in H.
  repeat match type of H with context [if ?b then _ else _] => destruct b; cbn in H; try discriminate H end.
Qed.
#[export] Hint Resolve c_type_node_appends : gen.

Lemma append_const_value_appends : forall cv, appends true (append_const_value cv).
Proof.
  intros [v|]; cbn; auto with gen. apply with_value_appends; [|auto with gen].
  intros e H. unfold concrete_value in H. destruct (av_val v); discriminate H.
Qed.
Lemma generate_type_of_appends : forall o d cv, appends true (generate_type_of o d cv).
Proof. intros o d [v|]; cbn; auto with gen. Qed.
#[export] Hint Resolve append_const_value_appends generate_type_of_appends : gen.

Lemma c_expr_appends : forall o d cs e nested, appends true (c_expr o d cs nested e).
Proof.
  intros o d cs. induction e as [cv e t IHe | cv l c r IHl IHc IHr | cv op l r IHl IHr | cv op e IHe
    | cv name lk st args IH | cv name lk g | cv lit t] using expr_induction; intros nested; cbn [c_expr].
  - auto with gen.
  - auto 20 with gen.
  - auto with gen.
  - auto with gen.
  - assert (appends true (separated true (map (c_expr o d cs true) args))).
    { apply separated_appends. apply Forall_map'. eapply Forall_impl; [|exact IH]. auto. } auto with gen.
  - destruct lk as [[[] n|p|b]|]; auto with gen.
  - auto with gen.
Qed.
#[export] Hint Resolve c_expr_appends : gen.

Lemma c_stmt_appends : forall o d cs s, appends_or_empty true (c_stmt o d cs s) /\
  (match s with SConst _ _ _ _ _ | SStatic_Assert _ _ => True | _ => appends true (c_stmt o d cs s) end).
Proof.
  intros o d cs. assert (B : forall m, appends true m -> appends_or_empty true m /\ appends true m)
    by (intros m M; split; [apply appends_either; exact M | exact M]).
  induction s as [cv name self t e | cv name self t e | cv e | cv c b [_ IHb] | cv c b e [_ IHb] [_ IHe] | cv c b [_ IHb]
    | cv t e | cv name lk e | cv l IH | e] using stmt_induction; cbn [c_stmt]; try apply B.
  - split; [|exact Logic.I]. destruct (c_23 o); [|apply empty_either]. apply appends_either. auto 20 with gen.
  - assert (appends true (match e with Some e => write_infix (str "=") sp_operation;; c_expr o d cs false e | None => done end))
      by (destruct e; auto with gen). auto 20 with gen.
  - split; [apply empty_either | exact Logic.I].
  - assert (appends true (match b with SBlock _ _ => c_stmt o d cs b | _ => aborts end)) by (destruct b; auto with gen).
    auto 20 with gen.
  - assert (appends true (match b with SBlock _ _ => c_stmt o d cs b | _ => aborts end)) by (destruct b; auto with gen).
    assert (appends true (match e with
      | SIf _ _ _ _ => write_indent o;; put_span (str "else") sp_keyword;; put_char " ";; c_stmt o d cs e
      | SBlock _ _ => c_stmt o d cs e | _ => aborts end)) by (destruct e; auto with gen).
    auto 20 with gen.
  - assert (appends true (match b with SBlock _ _ => c_stmt o d cs b | _ => aborts end)) by (destruct b; auto with gen).
    auto 20 with gen.
  - assert (appends true (match e with Some x => put_char " " ;; c_expr o d cs false x | None => done end)) by (destruct e; auto with gen).
    auto 20 with gen.
  - auto 20 with gen.
  - assert (appends true (lines (map (c_stmt o d cs) l))).
    { apply lines_appends. apply Forall_map'. eapply Forall_impl; [|exact IH]. intros a [H _]. exact H. }
    auto 20 with gen.
  - auto with gen.
Qed.

Lemma c_declaration_appends : forall o d cs x, appends_or_empty true (c_declaration o d cs x).
Proof.
  intros o d cs [f|s]; cbn [c_declaration]; [|apply c_stmt_appends]. unfold c_function.
  destruct (f_generic f); [apply empty_either|]. apply appends_either.
  assert (appends true (separated true (map (c_parameter o d) (f_params f)))).
  { apply separated_appends, Forall_map'. apply Forall_forall. intros p _. unfold c_parameter. auto with gen. }
  assert (appends true (match f_body f with SBlock _ _ => c_stmt o d cs (f_body f) | _ => aborts end)).
  { pose proof (proj2 (c_stmt_appends o d cs (f_body f))) as H0. destruct (f_body f) eqn:E; auto with gen. }
  assert (appends true (match f_params f with [] => put_span (str "void") sp_keyword | _ => done end))
    by (destruct (f_params f); auto with gen).
  auto 20 with gen.
Qed.

Lemma c_declarations_appends : forall o d cs l first, appends true (c_declarations o d cs first l).
Proof.
  induction l as [|x l IH]; intros first s; cbn [c_declarations]; [apply done_appends|].
  destruct (c_declaration_appends o d cs x s) as [-> | (E & W & D & R)]; [apply IH|].
  destruct (c_declaration o d cs x s) as [s1 [u|[]| |]]; cbn in E, W, D, R; try contradiction; try solve [cbn; auto].
  assert (M : appends true ((if first then done else end_line) ;; end_line ;; c_declarations o d cs false l)) by auto with gen.
  destruct (M s1) as (E' & W' & D' & R').
  split; [eapply extends_trans; eassumption|]. split; [auto|]. split; [exact (eq_trans D' D) | exact R'].
Qed.
