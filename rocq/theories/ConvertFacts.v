(** Facts about the conversion of the parser's tree to the syntax tree. *)
From Coq Require Import ZArith Ascii String List Bool Lia.
From Verif Require Import Prelude Text Types Ops Tables AbsOps Annotations Ast Parse GrammarSpec NameLookup Programs PrintSpec
  Convert ConvertSpec.
Import ListNotations.
Open Scope list_scope.

(** ** Induction *)

Section Pexpr.
Variable P : pexpr -> Prop.
Definition P_type (t : ptype) : Prop := match t with PType _ (Some e) => P e | PType _ None => True end.
Hypothesis Hconv : forall e t, P e -> P_type t -> P (PConversion e t).
Hypothesis Hif : forall a c b, P a -> P c -> P b -> P (PIf a c b).
Hypothesis Hbin : forall op a b, P a -> P b -> P (PBinary op a b).
Hypothesis Hpre : forall op e, P e -> P (PPrefix op e).
Hypothesis Hcall : forall x args annotations st, Forall P args -> P (PCall x args annotations st).
Hypothesis Hid : forall x, P (PId x).
Hypothesis Hlit : forall x k, P (PLiteral x k).

Fixpoint pexpr_induction (e : pexpr) : P e :=
  match e with
  | PConversion e1 t =>
      Hconv e1 t (pexpr_induction e1)
        (match t as t0 return P_type t0 with
         | PType _ (Some w) => pexpr_induction w
         | PType _ None => Logic.I
         end)
  | PIf a c b => Hif a c b (pexpr_induction a) (pexpr_induction c) (pexpr_induction b)
  | PBinary op a b => Hbin op a b (pexpr_induction a) (pexpr_induction b)
  | PPrefix op e1 => Hpre op e1 (pexpr_induction e1)
  | PCall x args annotations st =>
      Hcall x args annotations st
        ((fix all (l : list pexpr) : Forall P l :=
            match l with
            | [] => Forall_nil P
            | a :: rest => Forall_cons a (pexpr_induction a) (all rest)
            end) args)
  | PId x => Hid x
  | PLiteral x k => Hlit x k
  end.
End Pexpr.

Section Pstmt.
Variable P : pstmt -> Prop.
Hypothesis Hconst : forall x an t e, P (PConst x an t e).
Hypothesis Hlet : forall x an t e, P (PLet x an t e).
Hypothesis Hassert : forall e, P (PStatic_Assert e).
Hypothesis Hif : forall an c b, Forall P b -> P (PIf_Statement an c b None).
Hypothesis Hifelse : forall an c b s, Forall P b -> P s -> P (PIf_Statement an c b (Some s)).
Hypothesis Hwhile : forall an c b, Forall P b -> P (PWhile an c b).
Hypothesis Hbreak : P PBreak.
Hypothesis Hcontinue : P PContinue.
Hypothesis Hreturn : forall e, P (PReturn e).
Hypothesis Hassign : forall x an e, P (PAssignment x an e).
Hypothesis Hblock : forall b, Forall P b -> P (PBlock b).
Hypothesis Hexpr : forall e, P (PExpr e).

Fixpoint pstmt_induction (s : pstmt) : P s :=
  let all := fix all (l : list pstmt) : Forall P l :=
    match l with
    | [] => Forall_nil P
    | a :: rest => Forall_cons a (pstmt_induction a) (all rest)
    end in
  match s with
  | PConst x an t e => Hconst x an t e
  | PLet x an t e => Hlet x an t e
  | PStatic_Assert e => Hassert e
  | PIf_Statement an c b None => Hif an c b (all b)
  | PIf_Statement an c b (Some s1) => Hifelse an c b s1 (all b) (pstmt_induction s1)
  | PWhile an c b => Hwhile an c b (all b)
  | PBreak => Hbreak
  | PContinue => Hcontinue
  | PReturn e => Hreturn e
  | PAssignment x an e => Hassign x an e
  | PBlock b => Hblock b (all b)
  | PExpr e => Hexpr e
  end.
End Pstmt.

(** ** Structure *)

Lemma bind_ok {E A B} (m : outcome E A) (f : A -> outcome E B) b :
  bind m f = Ok b -> exists a, m = Ok a /\ f a = Ok b.
Proof. destruct m; cbn; intros H; try discriminate. eauto. Qed.

Ltac inv_ok H :=
  repeat match type of H with
  | bind _ _ = Ok _ => let x := fresh "x" in let E := fresh "E" in apply bind_ok in H as (x & E & H)
  | (let '(_, _) := ?p in _) = Ok _ => destruct p
  end.

Lemma binary_token_of {E} op k : @binary_expression_type_of_token E op = Ok k -> binary_token k = Some op.
Proof. destruct op; cbn; intros H; try discriminate; injection H as <-; reflexivity. Qed.
Lemma unary_token_of {E} op k : @unary_expression_type_of_token E op = Ok k -> unary_token k = Some op.
Proof. destruct op; cbn; intros H; try discriminate; injection H as <-; reflexivity. Qed.

Lemma convert_call {E} x args an b :
  @convert_expr E (PCall x args an b) = let* l := convert_exprs args in Ok (ECall None x None b l).
Proof. reflexivity. Qed.
Lemma convert_exprs_cons {E} a rest :
  @convert_exprs E (a :: rest) = let* x := convert_expr a in let* r := convert_exprs rest in Ok (x :: r).
Proof. reflexivity. Qed.

Lemma convert_type_structure_of {E} t :
  P_type (fun p => forall e, @convert_expr E p = Ok e -> stands_for p e) t ->
  forall t', @convert_type E t = Ok t' -> stands_for_type t t'.
Proof.
  destruct t as [k [w|]]; cbn; intros IH t' H.
  - inv_ok H. injection H as <-. constructor. auto.
  - injection H as <-. constructor.
Qed.

Lemma convert_expr_structure {E} p : forall e, @convert_expr E p = Ok e -> stands_for p e.
Proof.
  induction p using pexpr_induction; intros r R.
  - cbn in R. inv_ok R. injection R as <-. constructor; [auto|]. eapply convert_type_structure_of; eassumption.
  - cbn in R. inv_ok R. injection R as <-. constructor; auto.
  - cbn in R. inv_ok R. injection R as <-. constructor; auto. eapply binary_token_of. eassumption.
  - cbn in R. inv_ok R. injection R as <-. constructor; auto. eapply unary_token_of. eassumption.
  - rewrite convert_call in R. inv_ok R. injection R as <-. constructor. revert x0 E0.
    induction H as [|a rest Ha _ IH]; intros l L.
    + injection L as <-. constructor.
    + rewrite convert_exprs_cons in L. inv_ok L. injection L as <-. constructor; auto.
  - injection R as <-. constructor.
  - injection R as <-. constructor.
Qed.
Lemma convert_type_structure {E} t t' : @convert_type E t = Ok t' -> stands_for_type t t'.
Proof.
  apply convert_type_structure_of. destruct t as [k [w|]]; cbn; [|exact Logic.I]. apply convert_expr_structure.
Qed.
Lemma convert_option_both {E A B} (f : A -> outcome E B) (R : A -> B -> Prop) x y :
  (forall a b, f a = Ok b -> R a b) -> convert_option f x = Ok y -> both R x y.
Proof.
  intros H. destruct x; cbn; intros G; [|injection G as <-; constructor].
  inv_ok G. injection G as <-. constructor. auto.
Qed.

(** Identities between two numbers, each given out once. *)
Definition given (n n' : positive) (l : list positive) : Prop :=
  (n <= n')%positive /\ Forall (fun i => n <= i < n')%positive l /\ NoDup l.

Lemma given_nil n : given n n [].
Proof. split; [lia|]. split; constructor. Qed.
Lemma given_one n : given n (Pos.succ n) [n].
Proof. split; [lia|]. split; [|repeat constructor; intros []]. constructor; [lia|constructor]. Qed.
Lemma given_app n1 n2 n3 l l' : given n1 n2 l -> given n2 n3 l' -> given n1 n3 (l ++ l').
Proof.
  intros (H1 & H2 & H3) (G1 & G2 & G3). rewrite Forall_forall in H2, G2. split; [lia|]. split.
  - apply Forall_app. split; apply Forall_forall; intros x Hx; [apply H2 in Hx|apply G2 in Hx]; lia.
  - induction l as [|a l IH]; [exact G3|]. inversion_clear H3. cbn. constructor.
    + rewrite in_app_iff. intros [|C]; [contradiction|]. apply G2 in C. specialize (H2 a (or_introl eq_refl)). lia.
    + apply IH; [|assumption]. intros x Hx. apply H2. right. exact Hx.
Qed.
Lemma given_cons n n' l : given (Pos.succ n) n' l -> given n n' (n :: l).
Proof. intros H. apply (given_app n (Pos.succ n) n' [n] l); [apply given_one|exact H]. Qed.

Definition converts_to {E} (p : pstmt) : Prop := forall n s n',
  @convert_stmt E n p = Ok (s, n') -> stands_for_stmt p s /\ given n n' (declares s).

Lemma convert_stmts_structure {E} ps : Forall (@converts_to E) ps -> forall n ss n',
  @convert_stmts E n ps = Ok (ss, n') -> Forall2 stands_for_stmt ps ss /\ given n n' (flat_map declares ss).
Proof.
  induction 1 as [|p rest Hp _ IH]; intros n ss n' H.
  - injection H as <- <-. split; [constructor|apply given_nil].
  - change (@convert_stmts E n (p :: rest)) with
      (let* '(s1, n1) := @convert_stmt E n p in let* '(r, n2) := @convert_stmts E n1 rest in Ok (s1 :: r, n2)) in H.
    inv_ok H. injection H as <- <-. apply Hp in E0 as [A1 A2]. apply IH in E1 as [B1 B2].
    split; [constructor; assumption|]. cbn. eapply given_app; eassumption.
Qed.

Lemma convert_block {E} n l : @convert_stmt E n (PBlock l) =
  let* '(l', n') := convert_stmts n l in Ok (SBlock None l', n').
Proof. reflexivity. Qed.
Lemma convert_if {E} n an c l e : @convert_stmt E n (PIf_Statement an c l e) =
  let* c' := convert_expr c in let* '(b, n1) := convert_stmt n (PBlock l) in
  match e with
  | None => Ok (SIf None c' b None, n1)
  | Some s1 => let* '(s1', n2) := convert_stmt n1 s1 in Ok (SIf None c' b (Some s1'), n2)
  end.
Proof. destruct e; reflexivity. Qed.
Lemma convert_while {E} n an c l : @convert_stmt E n (PWhile an c l) =
  let* c' := convert_expr c in let* '(b, n1) := convert_stmt n (PBlock l) in Ok (SWhile None c' b, n1).
Proof. reflexivity. Qed.

Lemma convert_stmt_structure {E} p : @converts_to E p.
Proof.
  induction p using pstmt_induction; intros n s' n' R.
  - cbn in R. inv_ok R. injection R as <- <-. split; [|apply given_one].
    constructor; [eapply convert_option_both; [|eassumption]; apply convert_type_structure|].
    eapply convert_expr_structure; eassumption.
  - cbn in R. inv_ok R. injection R as <- <-. split; [|apply given_one].
    constructor; (eapply convert_option_both; [|eassumption]); [apply convert_type_structure|apply convert_expr_structure].
  - cbn in R. inv_ok R. injection R as <- <-. split; [|apply given_nil].
    constructor. eapply convert_expr_structure; eassumption.
  - rewrite convert_if, convert_block in R. inv_ok R. inv_ok E1. injection E1 as <- <-. injection R as <- <-.
    destruct (convert_stmts_structure b H _ _ _ E2) as [B1 B2]. split.
    + constructor; [eapply convert_expr_structure; eassumption|exact B1|constructor].
    + cbn. rewrite app_nil_r. exact B2.
  - rewrite convert_if, convert_block in R. inv_ok R. inv_ok E1. injection E1 as <- <-. injection R as <- <-.
    destruct (convert_stmts_structure b H _ _ _ E3) as [B1 B2]. apply IHp in E2 as [C1 C2]. split.
    + constructor; [eapply convert_expr_structure; eassumption|exact B1|constructor; exact C1].
    + cbn. eapply given_app; eassumption.
  - rewrite convert_while, convert_block in R. inv_ok R. inv_ok E1. injection E1 as <- <-. injection R as <- <-.
    destruct (convert_stmts_structure b H _ _ _ E2) as [B1 B2]. split; [|exact B2].
    constructor; [eapply convert_expr_structure; eassumption|exact B1].
  - injection R as <- <-. split; [constructor|apply given_nil].
  - injection R as <- <-. split; [constructor|apply given_nil].
  - cbn in R. inv_ok R. injection R as <- <-. split; [|apply given_nil].
    constructor. eapply convert_option_both; [|eassumption]. apply convert_expr_structure.
  - cbn in R. inv_ok R. injection R as <- <-. split; [|apply given_nil].
    constructor. eapply convert_expr_structure; eassumption.
  - rewrite convert_block in R. inv_ok R. injection R as <- <-.
    destruct (convert_stmts_structure b H _ _ _ E0) as [B1 B2]. split; [constructor; exact B1|exact B2].
  - cbn in R. inv_ok R. injection R as <- <-. split; [|apply given_nil].
    constructor. eapply convert_expr_structure; eassumption.
Qed.
Lemma convert_body_structure {E} ps n ss n' :
  @convert_stmts E n ps = Ok (ss, n') -> Forall2 stands_for_stmt ps ss /\ given n n' (flat_map declares ss).
Proof. apply convert_stmts_structure. apply Forall_forall. intros p _. apply convert_stmt_structure. Qed.

Lemma convert_parameters_structure {E} qs : forall n ps n', @convert_parameters E n qs = Ok (ps, n') ->
  Forall2 stands_for_parameter qs ps /\ given n n' (map p_self ps).
Proof.
  induction qs as [|[x q] rest IH]; intros n ps n' H.
  - injection H as <- <-. split; [constructor|apply given_nil].
  - cbn in H. inv_ok H. injection H as <- <-. apply IH in E1 as [A1 A2]. split.
    + constructor; [|exact A1]. constructor. eapply convert_type_structure; eassumption.
    + cbn. apply given_cons. exact A2.
Qed.

Lemma convert_function_structure {E} n p f n' : @convert_function E n p = Ok (f, n') ->
  stands_for_function p f /\ given n n' (f_self f :: declared_in f).
Proof.
  intros H. destruct p as [x an qs q r ps]. unfold convert_function in H. cbn [pf_name pf_parameters pf_return_type pf_requires pf_body] in H.
  inv_ok H. injection H as <- <-.
  apply convert_parameters_structure in E0 as [A1 A2]. apply convert_body_structure in E3 as [B1 B2]. split.
  - constructor; [exact A1|eapply convert_type_structure; eassumption| |exact B1].
    eapply convert_option_both; [|eassumption]. apply convert_expr_structure.
  - apply given_cons. eapply given_app; [exact A2|exact B2].
Qed.

Lemma convert_declarations_structure {E} p : forall n l, @convert_declarations E n p = Ok l ->
  Forall2 stands_for_declaration p l /\ exists n', given n n' (identities l).
Proof.
  induction p as [|[f|s] rest IH]; intros n l H; cbn in H.
  - injection H as <-. split; [constructor|exists n; apply given_nil].
  - inv_ok H. injection H as <-. apply convert_function_structure in E0 as [A1 A2]. apply IH in E1 as [B1 (n' & B2)].
    split; [constructor; [constructor; exact A1|exact B1]|]. exists n'. eapply given_app; eassumption.
  - inv_ok H. injection H as <-. apply convert_stmt_structure in E0 as [A1 A2]. apply IH in E1 as [B1 (n' & B2)].
    split; [constructor; [constructor; exact A1|exact B1]|]. exists n'. eapply given_app; eassumption.
Qed.

(** ** Totality *)

(** Conversion succeeds if [b] holds, and aborts otherwise. *)
Definition settled {E A} (b : bool) (o : outcome E A) : Prop := if b then exists a, o = Ok a else o = Abort.

Lemma settled_ok {E A} (a : A) : settled true (@Ok E A a).
Proof. exists a. reflexivity. Qed.
Lemma settled_bind {E A B} b c (m : outcome E A) (f : A -> outcome E B) :
  settled b m -> (forall a, settled c (f a)) -> settled (b && c) (bind m f).
Proof.
  destruct b; cbn; intros H G; [|rewrite H; reflexivity]. destruct H as [a ->]. cbn. apply G.
Qed.
Lemma settled_then {E A B} b (m : outcome E A) (f : A -> outcome E B) :
  settled b m -> (forall a, settled true (f a)) -> settled b (bind m f).
Proof. intros H G. rewrite <- (andb_true_r b). apply settled_bind; assumption. Qed.

Definition not_ge (p : pexpr) : bool := negb (greater_or_equal_used p).

Lemma every_intro f p : every f p =
  f p &&
  match p with
  | PConversion e t => every f e && forallb (every f) (type_expressions t)
  | PIf a c b => every f a && every f c && every f b
  | PBinary _ a b => every f a && every f b
  | PPrefix _ e => every f e
  | PCall _ args _ _ => forallb (every f) args
  | PId _ | PLiteral _ _ => true
  end.
Proof. destruct p as [e [k [w|]]| | | | | | ]; try reflexivity. cbn. rewrite andb_true_r. reflexivity. Qed.

Lemma binary_settled {E} op : existsb (token_type_eqb op) binary_operators = true ->
  settled (negb (token_type_eqb op tk_greater_or_equal)) (@binary_expression_type_of_token E op).
Proof. destruct op; cbn; intros H; try discriminate; try reflexivity; eexists; reflexivity. Qed.
Lemma unary_settled {E} op : existsb (token_type_eqb op) unary_operators = true ->
  settled true (@unary_expression_type_of_token E op).
Proof. destruct op; cbn; intros H; try discriminate; eexists; reflexivity. Qed.
Lemma not_ge_binary op a b : not_ge (PBinary op a b) = negb (token_type_eqb op tk_greater_or_equal).
Proof. destruct op; reflexivity. Qed.

Definition expr_settled {E} (p : pexpr) : Prop :=
  every proper_operator p = true -> settled (every not_ge p) (@convert_expr E p).

Lemma type_settled_of {E} t : P_type (@expr_settled E) t ->
  forallb (every proper_operator) (type_expressions t) = true ->
  settled (forallb (every not_ge) (type_expressions t)) (@convert_type E t).
Proof.
  destruct t as [k [w|]]; cbn [P_type type_expressions forallb]; intros H G.
  - rewrite andb_true_r in *. cbn [convert_type]. apply settled_then; [apply H; exact G|].
    intros a. apply settled_ok.
  - apply settled_ok.
Qed.

Lemma convert_expr_settled {E} p : @expr_settled E p.
Proof.
  induction p using pexpr_induction; unfold expr_settled; rewrite (every_intro proper_operator), (every_intro not_ge).
  - cbn [proper_operator]. intros G. change (not_ge (PConversion p t)) with true.
    apply andb_prop in G as [_ G]. apply andb_prop in G as [G1 G2]. cbn [convert_expr andb].
    apply settled_bind; [auto|]. intros x. apply settled_then; [apply type_settled_of; assumption|].
    intros y. apply settled_ok.
  - intros G. change (not_ge (PIf p1 p2 p3)) with true. apply andb_prop in G as [_ G]. apply andb_prop in G as [G G3].
    apply andb_prop in G as [G1 G2]. cbn [convert_expr andb]. rewrite <- andb_assoc.
    apply settled_bind; [auto|]. intros x. apply settled_bind; [auto|]. intros y. apply settled_then; [auto|].
    intros z. apply settled_ok.
  - intros G. apply andb_prop in G as [G G2]. apply andb_prop in G2 as [G1 G2]. rewrite not_ge_binary. cbn [convert_expr].
    apply settled_bind; [apply binary_settled; exact G|]. intros k. apply settled_bind; [auto|]. intros x.
    apply settled_then; [auto|]. intros y. apply settled_ok.
  - intros G. apply andb_prop in G as [G G2]. change (not_ge (PPrefix op p)) with true. cbn [convert_expr].
    apply settled_bind; [apply unary_settled; exact G|]. intros k. apply settled_then; [auto|]. intros x. apply settled_ok.
  - intros G. apply andb_prop in G as [_ G]. rewrite convert_call. cbn [andb].
    change (settled (forallb (every not_ge) args) (let* l := @convert_exprs E args in Ok (ECall None x None st l))).
    apply settled_then; [|intros; apply settled_ok].
    induction H as [|a rest Ha _ IH]; [apply settled_ok|]. cbn [forallb] in G |- *. apply andb_prop in G as [G1 G2].
    rewrite convert_exprs_cons. apply settled_bind; [auto|]. intros y. apply settled_then; [auto|]. intros z. apply settled_ok.
  - intros _. apply settled_ok.
  - intros _. apply settled_ok.
Qed.
Lemma convert_type_settled {E} t : forallb (every proper_operator) (type_expressions t) = true ->
  settled (forallb (every not_ge) (type_expressions t)) (@convert_type E t).
Proof. apply type_settled_of. destruct t as [k [w|]]; cbn; [|exact Logic.I]. apply convert_expr_settled. Qed.

Definition opt_expr (e : option pexpr) : list pexpr := match e with Some e => [e] | None => [] end.
Lemma convert_option_type {E} t : forallb (every proper_operator) (option_expressions t) = true ->
  settled (forallb (every not_ge) (option_expressions t)) (convert_option (@convert_type E) t).
Proof.
  destruct t as [t|]; cbn [option_expressions convert_option]; intros H; [|apply settled_ok].
  apply settled_then; [apply convert_type_settled; exact H|]. intros a. apply settled_ok.
Qed.
Lemma convert_option_expr {E} e : forallb (every proper_operator) (opt_expr e) = true ->
  settled (forallb (every not_ge) (opt_expr e)) (convert_option (@convert_expr E) e).
Proof.
  destruct e as [e|]; cbn [opt_expr convert_option forallb]; intros H; [|apply settled_ok]. rewrite andb_true_r in *.
  apply settled_then; [apply convert_expr_settled; exact H|]. intros a. apply settled_ok.
Qed.

Definition stmt_settled {E} (p : pstmt) : Prop := forall n,
  forallb (every proper_operator) (stmt_expressions p) = true ->
  settled (forallb (every not_ge) (stmt_expressions p)) (@convert_stmt E n p).

Lemma forallb_flat {A B} (f : B -> bool) (g : A -> list B) l :
  forallb f (flat_map g l) = forallb (fun a => forallb f (g a)) l.
Proof. induction l as [|a l IH]; [reflexivity|]. cbn. rewrite forallb_app, IH. reflexivity. Qed.

Lemma convert_stmts_settled {E} ps : Forall (@stmt_settled E) ps -> forall n,
  forallb (every proper_operator) (flat_map stmt_expressions ps) = true ->
  settled (forallb (every not_ge) (flat_map stmt_expressions ps)) (@convert_stmts E n ps).
Proof.
  induction 1 as [|p rest Hp _ IH]; intros n G; [apply settled_ok|].
  cbn [flat_map] in G |- *. rewrite forallb_app in G |- *. apply andb_prop in G as [G1 G2].
  change (@convert_stmts E n (p :: rest)) with
      (let* '(s1, n1) := @convert_stmt E n p in let* '(r, n2) := @convert_stmts E n1 rest in Ok (s1 :: r, n2)).
  apply settled_bind; [auto|]. intros [s n1]. apply settled_then; [auto|]. intros [r n2]. apply settled_ok.
Qed.
Lemma convert_block_settled {E} ps : Forall (@stmt_settled E) ps -> forall n,
  forallb (every proper_operator) (flat_map stmt_expressions ps) = true ->
  settled (forallb (every not_ge) (flat_map stmt_expressions ps)) (@convert_stmt E n (PBlock ps)).
Proof.
  intros H n G. rewrite convert_block. apply settled_then; [apply convert_stmts_settled; assumption|].
  intros [l n']. apply settled_ok.
Qed.

Lemma convert_stmt_settled {E} p : @stmt_settled E p.
Proof.
  induction p using pstmt_induction; intros n G; cbn [stmt_expressions] in G |- *.
  - rewrite forallb_app in *. apply andb_prop in G as [G1 G2]. cbn [forallb] in *. rewrite andb_true_r in *.
    cbn [convert_stmt]. apply settled_bind; [apply convert_option_type; exact G1|]. intros t'.
    apply settled_then; [apply convert_expr_settled; exact G2|]. intros e'. apply settled_ok.
  - rewrite forallb_app in *. apply andb_prop in G as [G1 G2].
    cbn [convert_stmt]. apply settled_bind; [apply convert_option_type; exact G1|]. intros t'.
    apply settled_then; [apply convert_option_expr; exact G2|]. intros e'. apply settled_ok.
  - cbn [forallb] in *. rewrite andb_true_r in *. cbn [convert_stmt].
    apply settled_then; [apply convert_expr_settled; exact G|]. intros e'. apply settled_ok.
  - rewrite app_nil_r in *. cbn [forallb] in *. apply andb_prop in G as [G1 G2]. rewrite convert_if.
    apply settled_bind; [apply convert_expr_settled; exact G1|]. intros e'.
    apply settled_then; [apply convert_block_settled; assumption|]. intros [b' n1]. apply settled_ok.
  - cbn [forallb] in *. rewrite forallb_app in *. apply andb_prop in G as [G1 G2]. apply andb_prop in G2 as [G2 G3].
    rewrite convert_if.
    apply settled_bind; [apply convert_expr_settled; exact G1|]. intros e'.
    apply settled_bind; [apply convert_block_settled; assumption|]. intros [b' n1].
    apply settled_then; [auto|]. intros [s' n2]. apply settled_ok.
  - cbn [forallb] in *. apply andb_prop in G as [G1 G2]. rewrite convert_while.
    apply settled_bind; [apply convert_expr_settled; exact G1|]. intros e'.
    apply settled_then; [apply convert_block_settled; assumption|]. intros [b' n1]. apply settled_ok.
  - apply settled_ok.
  - apply settled_ok.
  - cbn [convert_stmt]. apply settled_then; [apply convert_option_expr; exact G|]. intros e'. apply settled_ok.
  - cbn [forallb] in *. rewrite andb_true_r in *. cbn [convert_stmt].
    apply settled_then; [apply convert_expr_settled; exact G|]. intros e'. apply settled_ok.
  - apply convert_block_settled; assumption.
  - cbn [forallb] in *. rewrite andb_true_r in *. cbn [convert_stmt].
    apply settled_then; [apply convert_expr_settled; exact G|]. intros e'. apply settled_ok.
Qed.

Lemma convert_parameters_settled {E} qs : forall n,
  forallb (every proper_operator) (flat_map (fun q => type_expressions (pp_type q)) qs) = true ->
  settled (forallb (every not_ge) (flat_map (fun q => type_expressions (pp_type q)) qs)) (@convert_parameters E n qs).
Proof.
  induction qs as [|[x q] rest IH]; intros n G; [apply settled_ok|].
  cbn [flat_map pp_type] in G |- *. rewrite forallb_app in *. apply andb_prop in G as [G1 G2]. cbn [convert_parameters pp_type].
  apply settled_bind; [apply convert_type_settled; exact G1|]. intros t. apply settled_then; [auto|]. intros [r n'].
  apply settled_ok.
Qed.

Lemma convert_function_settled {E} n f : forallb (every proper_operator) (function_expressions f) = true ->
  settled (forallb (every not_ge) (function_expressions f)) (@convert_function E n f).
Proof.
  destruct f as [x an qs q r ps]. unfold function_expressions, convert_function.
  cbn [pf_parameters pf_return_type pf_requires pf_body]. rewrite !forallb_app. intros G.
  apply andb_prop in G as [G1 G]. apply andb_prop in G as [G2 G]. apply andb_prop in G as [G3 G4].
  apply settled_bind; [apply convert_parameters_settled; exact G1|]. intros [ps' n1].
  apply settled_bind; [apply convert_type_settled; exact G2|]. intros t.
  apply settled_bind; [apply convert_option_expr; exact G3|]. intros e.
  apply settled_then; [|intros [b n2]; apply settled_ok].
  apply convert_stmts_settled; [|exact G4]. apply Forall_forall. intros s _. apply convert_stmt_settled.
Qed.

Lemma convert_declarations_settled {E} p : forall n, forallb (every proper_operator) (program_expressions p) = true ->
  settled (without_greater_or_equal p) (@convert_declarations E n p).
Proof.
  unfold without_greater_or_equal. change (fun q => negb (greater_or_equal_used q)) with not_ge.
  induction p as [|d rest IH]; intros n G; [apply settled_ok|].
  unfold program_expressions in *. cbn [flat_map] in G |- *. rewrite forallb_app in *. apply andb_prop in G as [G1 G2].
  destruct d as [f|s]; cbn [declaration_expressions convert_declarations] in *.
  - apply settled_bind; [apply convert_function_settled; exact G1|]. intros [f' n1].
    apply settled_then; [apply IH; exact G2|]. intros l. apply settled_ok.
  - apply settled_bind; [apply convert_stmt_settled; exact G1|]. intros [s' n1].
    apply settled_then; [apply IH; exact G2|]. intros l. apply settled_ok.
Qed.
