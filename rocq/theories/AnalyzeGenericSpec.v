(** Calls in analysed programs: vocabulary for statements about bit-generic functions.  This does not model
    code of the repository. *)
From Coq Require Import ZArith List Bool.
From Verif Require Import Prelude Types Ops Text Tables AbsOps VM Ast Analyze Instantiate InstantiateSpec AnalyzeGeneric.
Import ListNotations.
Open Scope Z_scope.

(** The calls in an expression, inner ones first: where each leads, and what is recorded for its arguments. *)
Fixpoint calls (e : expr) : list (option lookup * list (option avalue)) :=
  match e with
  | EConversion _ e1 t => calls e1 ++ calls_type t
  | EIf _ l c r => calls c ++ calls l ++ calls r
  | EBinary _ _ l r => calls l ++ calls r
  | EPrefix _ _ e1 => calls e1
  | ECall _ _ lk _ args => flat_map calls args ++ [(lk, map expr_cv args)]
  | EId _ _ _ _ | ELiteral _ _ _ => []
  end
with calls_type (t : type_node) : list (option lookup * list (option avalue)) :=
  match t with Type_Node _ _ width _ => match width with Some e => calls e | None => [] end end.

Fixpoint calls_stmt (s : stmt) : list (option lookup * list (option avalue)) :=
  match s with
  | SConst _ _ _ t e => match t with Some t => calls_type t | None => [] end ++ calls e
  | SLet _ _ _ t e =>
      match t with Some t => calls_type t | None => [] end ++ match e with Some e => calls e | None => [] end
  | SStatic_Assert _ e => calls e
  | SIf _ c b e => calls c ++ calls_stmt b ++ match e with Some s1 => calls_stmt s1 | None => [] end
  | SWhile _ c b => calls c ++ calls_stmt b
  | SControl _ _ e => match e with Some e => calls e | None => [] end
  | SAssign _ _ _ e => calls e
  | SBlock _ l => flat_map calls_stmt l
  | SExpr e => calls e
  end.

Definition calls_params (l : list parameter) := flat_map (fun p => calls_type (p_type p)) l.
Definition calls_requires (e : option expr) := match e with Some e => calls e | None => [] end.
Definition calls_function (f : func) :=
  calls_params (f_params f) ++ calls_type (f_return f) ++ calls_requires (f_requires f) ++ calls_stmt (f_body f).
Definition calls_item (i : item) := match i with Item_Function _ => [] | Item_Statement s => calls_stmt s end.

Section Led.
(** The functions of the program, and the instances that there are. *)
Variable T : positive -> option func.
Variable instances : positive -> list instance.

(** A call leads where it led before, or from a bit-generic function to one of its instances. *)
Inductive led : option lookup -> option lookup -> Prop :=
| led_same : forall lk, led lk lk
| led_instance : forall m f i, T m = Some f -> f_generic f = true -> In i (instances m) ->
    led (Some (LNode DFunction m)) (Some (LNode DFunction (f_self (i_function i)))).

Definition calls_led (c c' : list (option lookup * list (option avalue))) : Prop :=
  Forall2 (fun x y => led (fst x) (fst y)) c c'.

(** A call that has been analysed: if it led to a bit-generic function, it now leads to one of its instances,
    whose parameters have the widths of the arguments. *)
Inductive served (before after : option lookup * list (option avalue)) : Prop :=
| sv_same : fst after = fst before ->
    (forall m f, fst before = Some (LNode DFunction m) -> T m = Some f -> f_generic f = false) ->
    served before after
| sv_instance : forall m f i types, fst before = Some (LNode DFunction m) -> T m = Some f -> f_generic f = true ->
    In i (instances m) -> fst after = Some (LNode DFunction (f_self (i_function i))) ->
    map (option_map av_type) (snd after) = map Some types -> Forall2 takes (f_params (i_function i)) types ->
    served before after.

(** No call leads to a bit-generic function. *)
Definition settled (c : list (option lookup * list (option avalue))) : Prop :=
  Forall (fun x => forall m f, fst x = Some (LNode DFunction m) -> T m = Some f -> f_generic f = false) c.
End Led.

(** Nothing has been recorded for types in expressions. *)
Fixpoint new_types (e : expr) : bool :=
  match e with
  | EConversion _ e1 t => new_types e1 && new_type t
  | EIf _ l c r => new_types l && new_types c && new_types r
  | EBinary _ _ l r => new_types l && new_types r
  | EPrefix _ _ e1 => new_types e1
  | ECall _ _ _ _ args => forallb new_types args
  | EId _ _ _ _ | ELiteral _ _ _ => true
  end
with new_type (t : type_node) : bool :=
  match t with
  | Type_Node cv _ width _ =>
      match cv with None => true | Some _ => false end && match width with Some e => new_types e | None => true end
  end.

Fixpoint new_stmt (s : stmt) : bool :=
  match s with
  | SConst cv _ _ t e =>
      match cv with None => true | Some _ => false end && match t with Some t => new_type t | None => true end
      && new_types e
  | SLet _ _ _ t e =>
      match t with Some t => new_type t | None => true end && match e with Some e => new_types e | None => true end
  | SStatic_Assert cv e => match cv with None => true | Some _ => false end && new_types e
  | SIf _ c b e => new_types c && new_stmt b && match e with Some s1 => new_stmt s1 | None => true end
  | SWhile _ c b => new_types c && new_stmt b
  | SControl _ k e =>
      match e with Some e => match k with ctl_return => new_types e | _ => false end | None => true end
  | SAssign _ _ _ e => new_types e
  | SBlock _ l => forallb new_stmt l
  | SExpr e => new_types e
  end.

Definition new_requires (e : option expr) : bool :=
  match e with Some e => match expr_cv e with None => true | Some _ => false end && new_types e | None => true end.
Definition new_function (f : func) : bool :=
  forallb (fun p => new_type (p_type p)) (f_params f) && new_type (f_return f) && new_requires (f_requires f)
  && new_stmt (f_body f) && (level_index (f_level f) =? 0).

(** Functions before the analysis: each under its identity, without anything recorded in it, and bit-generic ones
    with declarations of their own; identities from [next] on are not in use. *)
Definition table_ready (T : positive -> option func) (next : positive) : Prop :=
  forall n f, T n = Some f -> f_self f = n /\ (n < next)%positive /\ new_function f = true /\
    (f_generic f = true -> NoDup (own f) /\ untouched f).
