(** What a variable of type [Result] or [Variant] should be: a box which is absent or holds one content.
    Independent of the model: no tags, no members and no counting of objects. *)
From Coq Require Import List Bool Arith.
From Verif Require Import Holders.
Import ListNotations.
Open Scope nat_scope.

(** The boxes of a program. *)
Definition boxes (C : Type) := list (option C).

Section Boxes.
  Context {C X Q A : Type}.
  (** [content x c]: a converting constructor makes the content [c] of the argument [x]. *)
  Context (content : X -> C -> Prop).
  (** [leaves c c']: moving the content [c] away may leave [c'] behind. *)
  Context (leaves : C -> C -> Prop).
  (** [tells c q r]: the answer to the question [q] about the content [c] is [r]. *)
  Context (tells : C -> Q -> A -> Prop).

  (** What one operation does: a new box holds its argument, a copy holds what the original holds, moving and
      assigning take the content over, a box which was moved from still is a box, and looking changes nothing. *)
  Inductive does : boxes C -> op X Q -> boxes C -> list A -> Prop :=
  | does_new : forall s a x c,
      nth_error s a = Some None -> content x c -> does s (New a x) (put s a (Some c)) []
  | does_copy : forall s a b c,
      nth_error s a = Some None -> nth_error s b = Some (Some c) ->
      does s (Copy a b) (put s a (Some c)) []
  | does_move : forall s a b c c',
      nth_error s a = Some None -> nth_error s b = Some (Some c) -> leaves c c' ->
      does s (Move a b) (put (put s a (Some c)) b (Some c')) []
  | does_assign : forall s a b old c,
      nth_error s a = Some (Some old) -> nth_error s b = Some (Some c) ->
      does s (Assign a b) (put s a (Some c)) []
  | does_assign_move : forall s a b old c c',
      nth_error s a = Some (Some old) -> nth_error s b = Some (Some c) -> leaves c c' ->
      does s (Assign_move a b) (put (put s a (Some c)) b (Some c')) []
  | does_delete : forall s a c,
      nth_error s a = Some (Some c) -> does s (Delete a) (put s a None) []
  | does_look : forall s a c q r,
      nth_error s a = Some (Some c) -> tells c q r -> does s (Look a q) s [r].

  (** What a sequence of operations does. *)
  Inductive does_all : boxes C -> list (op X Q) -> boxes C -> list A -> Prop :=
  | does_nothing : forall s, does_all s [] s []
  | does_more : forall s o s1 l1 rest s2 l2,
      does s o s1 l1 -> does_all s1 rest s2 l2 -> does_all s (o :: rest) s2 (l1 ++ l2).
End Boxes.

(** Which variables a program may use: it makes a variable only where there is none, and uses and deletes only
    variables which there are.  [used] says of each variable whether it exists; the compiler ensures this for local
    variables. *)
Definition exists_at (used : list bool) (a : nat) : bool := nth a used false.
Definition free_at (used : list bool) (a : nat) : bool := nth a (map negb used) false.
Fixpoint scoped {X Q} (askable : Q -> bool) (makes : X -> bool) (used : list bool) (ops : list (op X Q)) : bool :=
  match ops with
  | [] => true
  | New a x :: rest => free_at used a && makes x && scoped askable makes (put used a true) rest
  | Copy a b :: rest | Move a b :: rest =>
      free_at used a && exists_at used b && scoped askable makes (put used a true) rest
  | Assign a b :: rest | Assign_move a b :: rest =>
      exists_at used a && exists_at used b && scoped askable makes used rest
  | Delete a :: rest => exists_at used a && scoped askable makes (put used a false) rest
  | Look a q :: rest => exists_at used a && askable q && scoped askable makes used rest
  end.

(** No operation assigns from an rvalue. *)
Definition no_move_assignment {X Q} (ops : list (op X Q)) : bool :=
  forallb (fun o => match o with Assign_move _ _ => false | _ => true end) ops.

(** Which variables exist. *)
Definition in_use {C} (s : boxes C) : list bool := map (fun b => match b with Some _ => true | None => false end) s.

(** The number of boxes whose content is an object. *)
Fixpoint objects {C} (object : C -> bool) (s : boxes C) : nat :=
  match s with
  | [] => 0
  | Some c :: rest => (if object c then 1 else 0) + objects object rest
  | None :: rest => objects object rest
  end.

(** What a [Result<T, E>] tells. *)
Definition result_tells {T E} (c : T + E) (q : result_question) (r : answer (T + E)) : Prop :=
  r = match q, c with
  | Has_value, inl _ => Flag true
  | Has_value, inr _ => Flag false
  | Value, inl v => Object (inl v)
  | Value, inr _ => Thrown
  | Error_of, inl _ => Thrown
  | Error_of, inr e => Object (inr e)
  end.

(** Moving a [Result<T, E>] leaves a result of the same kind. *)
Definition result_leaves {T E} (c c' : T + E) : Prop :=
  match c, c' with inl _, inl _ => True | inr _, inr _ => True | _, _ => False end.

(** What a [Result<void, E>] tells. *)
Definition status_tells {E} (c : option E) (q : result_question) (r : answer E) : Prop :=
  r = match q, c with
  | Has_value, None => Flag true
  | Has_value, Some _ => Flag false
  | Value, None => Flag true
  | Value, Some _ => Thrown
  | Error_of, None => Thrown
  | Error_of, Some e => Object e
  end.

(** Moving a [Result<void, E>] leaves a result of the same kind. *)
Definition status_leaves {E} (c c' : option E) : Prop :=
  match c, c' with None, None => True | Some _, Some _ => True | _, _ => False end.

Section Variants.
  Context {ty val : Type} (same : ty -> ty -> bool) (ts : list ty).

  (** The content of a [Variant<Ts...>]: which alternative, counted from 0, and its value. *)
  Definition alternative := (nat * val)%type.

  (** [i] is the first place of [t]. *)
  Definition first_place (t : ty) (i : nat) : Prop :=
    (exists u, nth_error ts i = Some u /\ same t u = true) /\
    forall j u, j < i -> nth_error ts j = Some u -> same t u = false.

  (** A value of a type becomes the first alternative of this type. *)
  Definition variant_content (x : ty * val) (c : alternative) : Prop :=
    first_place (fst x) (fst c) /\ snd c = snd x.

  (** Moving a variant leaves the same alternative. *)
  Definition variant_leaves (c c' : alternative) : Prop := fst c = fst c'.

  (** What a variant tells, as a relation: questions with a type are about the first alternative of this type. *)
  Inductive variant_tells : alternative -> variant_question -> answer (ty * val) -> Prop :=
  | tells_index : forall i v j, variant_tells (i, v) (Index_is j) (Flag (Nat.eqb i j))
  | tells_holds : forall i v t, first_place t i -> variant_tells (i, v) (Holds t) (Flag true)
  | tells_lacks : forall i v t j, first_place t j -> i <> j -> variant_tells (i, v) (Holds t) (Flag false)
  | tells_get : forall i v t, nth_error ts i = Some t -> variant_tells (i, v) (Get i) (Object (t, v))
  | tells_get_other : forall i v j, i <> j -> variant_tells (i, v) (Get j) Thrown
  | tells_get_if : forall i v t, nth_error ts i = Some t -> variant_tells (i, v) (Get_if i) (Object (t, v))
  | tells_get_if_other : forall i v j, i <> j -> variant_tells (i, v) (Get_if j) (Flag false)
  | tells_get_type : forall i v t, first_place t i -> variant_tells (i, v) (Get_type t) (Object (t, v))
  | tells_get_type_other : forall i v t j, first_place t j -> i <> j -> variant_tells (i, v) (Get_type t) Thrown
  | tells_get_if_type : forall i v t, first_place t i -> variant_tells (i, v) (Get_if_type t) (Object (t, v))
  | tells_get_if_type_other : forall i v t j,
      first_place t j -> i <> j -> variant_tells (i, v) (Get_if_type t) (Flag false).

  (** The questions which compile: about alternatives which there are. *)
  Definition variant_askable (q : variant_question (ty := ty)) : bool :=
    match q with
    | Index_is _ => true
    | Get i | Get_if i => i <? length ts
    | Holds t | Get_type t | Get_if_type t => existsb (same t) ts
    end.

  (** The values which can be put into a variant: of one of the types. *)
  Definition variant_makes (x : ty * val) : bool := existsb (same (fst x)) ts.
End Variants.
