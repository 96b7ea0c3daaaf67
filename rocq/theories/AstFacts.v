(** Induction on syntax trees, through the lists and optional children they contain. *)
From Coq Require Import ZArith List Bool.
From Verif Require Import Prelude Types Ops Text Tables AbsOps Ast.
Import ListNotations.

Section Expr.
Variable P : expr -> Prop.
Hypothesis Hconv : forall cv e t, P e -> P (EConversion cv e t).
Hypothesis Hif : forall cv l c r, P l -> P c -> P r -> P (EIf cv l c r).
Hypothesis Hbin : forall cv op l r, P l -> P r -> P (EBinary cv op l r).
Hypothesis Hpre : forall cv op e, P e -> P (EPrefix cv op e).
Hypothesis Hcall : forall cv name lk st args, Forall P args -> P (ECall cv name lk st args).
Hypothesis Hid : forall cv name lk g, P (EId cv name lk g).
Hypothesis Hlit : forall cv lit t, P (ELiteral cv lit t).

Fixpoint expr_induction (e : expr) : P e :=
  match e with
  | EConversion cv e1 t => Hconv cv e1 t (expr_induction e1)
  | EIf cv l c r => Hif cv l c r (expr_induction l) (expr_induction c) (expr_induction r)
  | EBinary cv op l r => Hbin cv op l r (expr_induction l) (expr_induction r)
  | EPrefix cv op e1 => Hpre cv op e1 (expr_induction e1)
  | ECall cv name lk st args =>
      Hcall cv name lk st args
        ((fix all (l : list expr) : Forall P l :=
            match l with
            | [] => Forall_nil P
            | a :: rest => Forall_cons a (expr_induction a) (all rest)
            end) args)
  | EId cv name lk g => Hid cv name lk g
  | ELiteral cv lit t => Hlit cv lit t
  end.
End Expr.

Section Stmt.
Variable P : stmt -> Prop.
Hypothesis Hconst : forall cv name self t e, P (SConst cv name self t e).
Hypothesis Hlet : forall cv name self t e, P (SLet cv name self t e).
Hypothesis Hassert : forall cv e, P (SStatic_Assert cv e).
Hypothesis Hif : forall cv c b, P b -> P (SIf cv c b None).
Hypothesis Hifelse : forall cv c b e, P b -> P e -> P (SIf cv c b (Some e)).
Hypothesis Hwhile : forall cv c b, P b -> P (SWhile cv c b).
Hypothesis Hcontrol : forall cv t e, P (SControl cv t e).
Hypothesis Hassign : forall cv name lk e, P (SAssign cv name lk e).
Hypothesis Hblock : forall cv l, Forall P l -> P (SBlock cv l).
Hypothesis Hexpr : forall e, P (SExpr e).

Fixpoint stmt_induction (s : stmt) : P s :=
  match s with
  | SConst cv name self t e => Hconst cv name self t e
  | SLet cv name self t e => Hlet cv name self t e
  | SStatic_Assert cv e => Hassert cv e
  | SIf cv c b None => Hif cv c b (stmt_induction b)
  | SIf cv c b (Some e) => Hifelse cv c b e (stmt_induction b) (stmt_induction e)
  | SWhile cv c b => Hwhile cv c b (stmt_induction b)
  | SControl cv t e => Hcontrol cv t e
  | SAssign cv name lk e => Hassign cv name lk e
  | SBlock cv l =>
      Hblock cv l
        ((fix all (l : list stmt) : Forall P l :=
            match l with
            | [] => Forall_nil P
            | a :: rest => Forall_cons a (stmt_induction a) (all rest)
            end) l)
  | SExpr e => Hexpr e
  end.
End Stmt.

(** ** Induction on expressions and types *)

Section Induction.
Variable P : expr -> Prop.
Variable Q : type_node -> Prop.
Hypothesis Hconv : forall cv e t, P e -> Q t -> P (EConversion cv e t).
Hypothesis Hif : forall cv l c r, P l -> P c -> P r -> P (EIf cv l c r).
Hypothesis Hbin : forall cv op l r, P l -> P r -> P (EBinary cv op l r).
Hypothesis Hpre : forall cv op e, P e -> P (EPrefix cv op e).
Hypothesis Hcall : forall cv name lk st args, Forall P args -> P (ECall cv name lk st args).
Hypothesis Hid : forall cv name lk g, P (EId cv name lk g).
Hypothesis Hlit : forall cv lit t, P (ELiteral cv lit t).
Hypothesis Hnode : forall cv k cw, Q (Type_Node cv k None cw).
Hypothesis Hwidth : forall cv k e cw, P e -> Q (Type_Node cv k (Some e) cw).

Fixpoint expr_ind_both (e : expr) : P e :=
  match e with
  | EConversion cv e1 t => Hconv cv e1 t (expr_ind_both e1) (type_ind_both t)
  | EIf cv l c r => Hif cv l c r (expr_ind_both l) (expr_ind_both c) (expr_ind_both r)
  | EBinary cv op l r => Hbin cv op l r (expr_ind_both l) (expr_ind_both r)
  | EPrefix cv op e1 => Hpre cv op e1 (expr_ind_both e1)
  | ECall cv name lk st args =>
      Hcall cv name lk st args
        ((fix all (l : list expr) : Forall P l :=
            match l with
            | [] => Forall_nil P
            | a :: rest => Forall_cons a (expr_ind_both a) (all rest)
            end) args)
  | EId cv name lk g => Hid cv name lk g
  | ELiteral cv lit t => Hlit cv lit t
  end
with type_ind_both (t : type_node) : Q t :=
  match t with
  | Type_Node cv k None cw => Hnode cv k cw
  | Type_Node cv k (Some e) cw => Hwidth cv k e cw (expr_ind_both e)
  end.

Lemma both_induction : (forall e, P e) /\ (forall t, Q t).
Proof. split; [exact expr_ind_both|exact type_ind_both]. Qed.
End Induction.
