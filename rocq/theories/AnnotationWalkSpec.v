(** The annotations of a parsed program, in the order of the source, and what makes them valid.  This is a
    specification; it does not model code of the repository. *)
From Coq Require Import List.
From Verif Require Import Prelude Text Types Tables Annotations AnnotationsSpec Ast Parse.
Import ListNotations.

(** An annotation and the construct it is written on. *)
Definition carried : Type := construct * parsed_annotation.
Definition on (c : construct) (l : list parsed_annotation) : list carried := map (pair c) l.

Fixpoint carried_expr (e : pexpr) : list carried :=
  match e with
  | PConversion e1 target => carried_expr e1 ++ carried_type target
  | PIf lhs condition rhs => carried_expr lhs ++ carried_expr condition ++ carried_expr rhs
  | PBinary _ lhs rhs => carried_expr lhs ++ carried_expr rhs
  | PPrefix _ e1 => carried_expr e1
  | PCall _ args annotations _ => on co_function_call_expression annotations ++ flat_map carried_expr args
  | PId _ | PLiteral _ _ => []
  end
with carried_type (t : ptype) : list carried :=
  match t with
  | PType _ None => []
  | PType _ (Some width) => carried_expr width
  end.

Definition carried_option {A} (f : A -> list carried) (x : option A) : list carried :=
  match x with None => [] | Some a => f a end.

Fixpoint carried_stmt (s : pstmt) : list carried :=
  match s with
  | PConst _ annotations type init =>
      on co_constant annotations ++ carried_option carried_type type ++ carried_expr init
  | PLet _ annotations type init =>
      on co_variable annotations ++ carried_option carried_type type ++ carried_option carried_expr init
  | PStatic_Assert e => carried_expr e
  | PIf_Statement annotations condition l else_node =>
      on co_if_statement annotations ++ carried_expr condition ++ flat_map carried_stmt l
      ++ match else_node with None => [] | Some s1 => carried_stmt s1 end
  | PWhile annotations condition l =>
      on co_while_statement annotations ++ carried_expr condition ++ flat_map carried_stmt l
  | PBreak | PContinue => []
  | PReturn e => carried_option carried_expr e
  | PAssignment _ annotations e => on co_assignment annotations ++ carried_expr e
  | PBlock l => flat_map carried_stmt l
  | PExpr e => carried_expr e
  end.

Definition carried_function (f : pfunction) : list carried :=
  on co_function (pf_annotations f) ++ flat_map (fun p => carried_type (pp_type p)) (pf_parameters f)
  ++ carried_type (pf_return_type f) ++ carried_option carried_expr (pf_requires f)
  ++ flat_map carried_stmt (pf_body f).

Definition carried_declaration (d : pdecl) : list carried :=
  match d with PD_Function f => carried_function f | PD_Statement s => carried_stmt s end.
Definition annotations_in (p : list pdecl) : list carried := flat_map carried_declaration p.

(** The annotation is known, it belongs where it is written, each argument is for a parameter of its own and
    suits it, and none is missing. *)
Definition valid (x : carried) : Prop :=
  exists t slots vs, annotation_type_name t = pn_name (snd x) /\ belongs_on t (fst x)
    /\ bound t [] (pn_arguments (snd x)) slots /\ all_suit t (pn_arguments (snd x)) slots vs
    /\ (forall i, required_at t i -> In i slots).

(** What is wrong with an annotation. *)
Inductive invalid (x : carried) : annotation_error -> Prop :=
| invalid_name : (forall t, annotation_type_name t <> pn_name (snd x)) -> invalid x ae_unknown
| invalid_place : forall t, annotation_type_name t = pn_name (snd x) -> ~ belongs_on t (fst x) ->
    invalid x ae_not_applicable
| invalid_arguments : forall t e, annotation_type_name t = pn_name (snd x) -> belongs_on t (fst x) ->
    rejected t (pn_arguments (snd x)) e -> invalid x e.

(** The arguments are literals, without upper case digits (C13). *)
Definition literal_arguments (x : carried) : Prop := Forall well_formed (pn_arguments (snd x)).
Definition lower_case_arguments (x : carried) : Prop := Forall lower_case (pn_arguments (snd x)).
