(** What an instance of a bit-generic function should be.  This does not model code of the repository. *)
From Coq Require Import ZArith List Bool.
From Verif Require Import Prelude Types Ops Text Tables AbsOps Ast NameLookupSpec Programs Instantiate.
Import ListNotations.
Open Scope Z_scope.

Section Relabel.
(** The new identity of each declaration. *)
Variable new : positive -> positive.

Definition relabel_lookup (d : lookup) : lookup :=
  match d with
  | LNode k n => LNode k (new n)
  | LParameter n => LParameter (new n)
  | LBuiltin b => LBuiltin b
  end.

(** The same tree for other declarations. *)
Fixpoint relabel (e : expr) : expr :=
  match e with
  | EConversion cv e1 t => EConversion cv (relabel e1) (relabel_type t)
  | EIf cv l c r => EIf cv (relabel l) (relabel c) (relabel r)
  | EBinary cv op l r => EBinary cv op (relabel l) (relabel r)
  | EPrefix cv op e1 => EPrefix cv op (relabel e1)
  | ECall cv name lk st args => ECall cv name (option_map relabel_lookup lk) st (map relabel args)
  | EId cv name lk g => EId cv name (option_map relabel_lookup lk) (option_map new g)
  | ELiteral cv x t => ELiteral cv x t
  end
with relabel_type (t : type_node) : type_node :=
  match t with
  | Type_Node cv k width w => Type_Node cv k (match width with Some e => Some (relabel e) | None => None end) w
  end.

Fixpoint relabel_stmt (s : stmt) : stmt :=
  match s with
  | SConst cv x n t e => SConst cv x (new n) (option_map relabel_type t) (relabel e)
  | SLet cv x n t e => SLet cv x (new n) (option_map relabel_type t) (option_map relabel e)
  | SStatic_Assert cv e => SStatic_Assert cv (relabel e)
  | SIf cv c b e =>
      SIf cv (relabel c) (relabel_stmt b) (match e with Some s1 => Some (relabel_stmt s1) | None => None end)
  | SWhile cv c b => SWhile cv (relabel c) (relabel_stmt b)
  | SControl cv k e => SControl cv k (option_map relabel e)
  | SAssign cv x lk e => SAssign cv x (option_map relabel_lookup lk) (relabel e)
  | SBlock cv l => SBlock cv (map relabel_stmt l)
  | SExpr e => SExpr (relabel e)
  end.

Definition relabel_param (p : parameter) : parameter :=
  Param (p_name p) (new (p_self p)) (relabel_type (p_type p)).

End Relabel.

(** The parameters with the widths filled in where they are generic. *)
Inductive filled : list parameter -> list Z -> list parameter -> Prop :=
| fi_nil : filled [] [] []
| fi_generic : forall x n cv cv' y lk g cw w l ws l', filled l ws l' ->
    filled (Param x n (Type_Node cv tt_Uint (Some (EId cv' y lk (Some g))) cw) :: l) (w :: ws)
      (Param x n (Type_Node cv tt_Uint (Some (EId (Some (AV TInt (Some w))) y lk (Some g))) (Some w)) :: l')
| fi_other : forall p l ws l',
    (forall cv k cv' y lk g cw, p_type p <> Type_Node cv k (Some (EId cv' y lk (Some g))) cw) ->
    filled l ws l' -> filled (p :: l) ws (p :: l').

(** An instance: the function for other declarations and with the given widths, not analysed yet. *)
Definition instance_of (new : positive -> positive) (f : func) (ws : list Z) (g : func) : Prop :=
  exists params, filled (map (relabel_param new) (f_params f)) ws params /\
    g = Func (f_name f) (new (f_self f)) (f_cv f) params (relabel_type new (f_return f))
          (option_map (relabel new) (f_requires f)) (relabel_stmt new (f_body f)) false None unanalyzed.

(** All declarations of a function, with itself. *)
Definition own (f : func) : list positive := f_self f :: declared_in f.

(** The uses of names in statements and functions. *)
Fixpoint uses_stmt (s : stmt) : list (text * option lookup) :=
  match s with
  | SConst _ _ _ t e => match t with Some t => uses_type t | None => [] end ++ uses e
  | SLet _ _ _ t e =>
      match t with Some t => uses_type t | None => [] end ++ match e with Some e => uses e | None => [] end
  | SStatic_Assert _ e => uses e
  | SIf _ c b e => uses c ++ uses_stmt b ++ match e with Some s1 => uses_stmt s1 | None => [] end
  | SWhile _ c b => uses c ++ uses_stmt b
  | SControl _ _ e => match e with Some e => uses e | None => [] end
  | SAssign _ x lk e => (x, lk) :: uses e
  | SBlock _ l => flat_map uses_stmt l
  | SExpr e => uses e
  end.

Definition uses_function (f : func) : list (text * option lookup) :=
  flat_map (fun p => uses_type (p_type p)) (f_params f) ++ uses_type (f_return f)
  ++ match f_requires f with Some e => uses e | None => [] end ++ uses_stmt (f_body f).

(** A use leads to a declaration of the list, or is that of a builtin function. *)
Definition leads_into (ids : list positive) (u : text * option lookup) : Prop :=
  match snd u with
  | None | Some (LBuiltin _) => True
  | Some (LNode _ n) | Some (LParameter n) => In n ids
  end.

(** The function uses nothing but what it declares. *)
Definition self_contained (f : func) : Prop := Forall (leads_into (own f)) (uses_function f).

(** No child is missing. *)
Fixpoint complete (e : expr) : bool :=
  match e with
  | EConversion _ e1 t => complete e1 && complete_type t
  | EIf _ l c r => complete l && complete c && complete r
  | EBinary _ _ l r => complete l && complete r
  | EPrefix _ _ e1 => complete e1
  | ECall _ _ _ _ args => forallb complete args
  | EId _ _ _ _ | ELiteral _ _ _ => true
  end
with complete_type (t : type_node) : bool :=
  match t with
  | Type_Node _ _ (Some e) _ => complete e
  | Type_Node _ _ None _ => false
  end.

Fixpoint complete_stmt (s : stmt) : bool :=
  match s with
  | SConst _ _ _ (Some t) e => complete_type t && complete e
  | SLet _ _ _ (Some t) (Some e) => complete_type t && complete e
  | SStatic_Assert _ e => complete e
  | SIf _ c b (Some e) => complete c && complete_stmt b && complete_stmt e
  | SWhile _ c b => complete c && complete_stmt b
  | SControl _ _ (Some e) => complete e
  | SAssign _ _ _ e => complete e
  | SBlock _ l => forallb complete_stmt l
  | SExpr e => complete e
  | _ => false
  end.

Definition complete_function (f : func) : bool :=
  forallb (fun p => complete_type (p_type p)) (f_params f) && complete_type (f_return f)
  && match f_requires f with Some e => complete e | None => true end && complete_stmt (f_body f).

(** The number of widths that a function has. *)
Definition is_generic (p : parameter) : bool :=
  match p_type p with Type_Node _ _ (Some (EId _ _ _ (Some _))) _ => true | _ => false end.
Definition generic_count (f : func) : nat := length (filter is_generic (f_params f)).

(** The instances of a function, for which identities up to [n] have been given out. *)
Definition instances_of (f : func) (n : positive) (l : list instance) : Prop :=
  (forall i, In i l -> length (i_widths i) = generic_count f /\
     exists new, instance_of new f (i_widths i) (i_function i)) /\
  NoDup (map i_widths l) /\ NoDup (flat_map (fun i => own (i_function i)) l) /\
  (forall i x, In i l -> In x (own (i_function i)) -> (x < n)%positive).

(** The widths that are asked for, for [n] parameters. *)
Definition asked (w : widths) (n : nat) : list Z :=
  match w with W_single x => repeat x n | W_list l => firstn n l end.
Definition enough (w : widths) (n : nat) : Prop :=
  match w with W_single _ => True | W_list l => (n <= length l)%nat end.

(** Only types [Uint] have a width. *)
Definition widths_of_uints (f : func) : Prop :=
  Forall (fun p => match p_type p with Type_Node _ k (Some _) _ => k = tt_Uint | _ => True end) (f_params f).

(** The parameters have not been analysed, as those of a function before instantiation. *)
Definition untouched (f : func) : Prop :=
  Forall (fun p => match p_type p with Type_Node cv _ _ cw => cv = None /\ cw = None end) (f_params f).

(** A parameter takes an argument: if its width is generic, it is that of the argument. *)
Definition takes (p : parameter) (a : ctype) : Prop := is_generic p = true ->
  exists w, a = TUint w /\ exists cv e, p_type p = Type_Node cv tt_Uint (Some e) (Some w).

(** A generic parameter and an argument from which its width is deduced. *)
Definition deducible (p : parameter) (a : ctype) : Prop := is_generic p = true -> exists w, a = TUint w.
