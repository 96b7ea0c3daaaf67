(** Model of the two hand written tagged unions: [Result<T, Error>] and [Result<void, Error>]
    (src/common/result.hpp) and [Variant<Ts...>] (src/common/variant.hpp), with the helpers for packs of
    types (src/common/packs.hpp).

    The memory is a list of slots, one per variable of such a type.  A slot is empty while no such object
    lives there; otherwise it says which object lives in the union and what the tag is, and these two can
    disagree.  Using, assigning or destroying a member which is not the one alive is [UB].  Beginning the
    life of a member where another one is alive is not [UB] in C++, but the old member is never destroyed;
    to see this, the memory counts the objects which were constructed and the ones which were destroyed.

    Simplifications: the operations of the contained types do not throw, copying gives an equal object and
    moving an object leaves [moved x] behind, for an arbitrary function [moved].  Arguments of converting
    constructors are values from outside the memory.  Variables do not overlap: a holder is not inside
    another one. *)
From Coq Require Import List Bool Arith.
From Verif Require Import Prelude.
Import ListNotations.
Open Scope nat_scope.

(** An object with an anonymous union and a tag (src/common/result.hpp:17-21, src/common/variant.hpp:200-201):
    [alive] is the member which is alive, [tag] is [m_has_value] or [m_index]. *)
Record cell (O F : Type) : Type := Cell { alive : option O; tag : F }.
Arguments Cell {O F} alive tag.
Arguments alive {O F} c.
Arguments tag {O F} c.

(** All variables holding a [Result] or a [Variant] (src/common/result.hpp:15, src/common/variant.hpp:190), and
    how many contained objects were constructed and destroyed. *)
Record memory (O F : Type) : Type :=
  Memory { slots : list (option (cell O F)); born : nat; died : nat }.
Arguments Memory {O F} slots born died.
Arguments slots {O F} m.
Arguments born {O F} m.
Arguments died {O F} m.

(** The variable with number [a] (src/common/result.hpp:15): a position of the list. *)
Definition slot {A} (l : list (option A)) (a : nat) : option A := nth a l None.

(** Writing the variable with number [a] (src/common/result.hpp:15). *)
Fixpoint put {A} (l : list A) (a : nat) (x : A) : list A :=
  match l, a with
  | [], _ => []
  | _ :: l', 0 => x :: l'
  | y :: l', S a' => y :: put l' a' x
  end.

Section Cells.
  Context {O F : Type}.

  (** Reading [m_has_value] or [m_index] (src/common/result.hpp:21, src/common/variant.hpp:200). *)
  Definition tag_of (m : memory O F) (a : nat) : outcome unit F :=
    match slot (slots m) a with Some c => Ok (tag c) | None => UB end.

  (** Using a member of the union through a glvalue (src/common/result.hpp:18-19, src/common/variant.hpp:201):
      undefined unless the member, recognised by [p], is alive. *)
  Definition read {A} (p : O -> option A) (m : memory O F) (a : nat) : outcome unit A :=
    match slot (slots m) a with
    | Some c => match alive c with
                | Some o => match p o with Some x => Ok x | None => UB end
                | None => UB
                end
    | None => UB
    end.

  (** [std::construct_at] on the storage of the union (src/common/result.hpp:92, src/common/variant.hpp:217). *)
  Definition construct (o : O) (m : memory O F) (a : nat) : outcome unit (memory O F) :=
    match slot (slots m) a with
    | Some c => Ok (Memory (put (slots m) a (Some (Cell (Some o) (tag c)))) (S (born m)) (died m))
    | None => UB
    end.

  (** Assigning to a member of the union (src/common/result.hpp:119, src/common/variant.hpp:254). *)
  Definition overwrite {A} (p : O -> option A) (o : O) (m : memory O F) (a : nat)
    : outcome unit (memory O F) :=
    let* _ := read p m a in
    match slot (slots m) a with
    | Some c => Ok (Memory (put (slots m) a (Some (Cell (Some o) (tag c)))) (born m) (died m))
    | None => UB
    end.

  (** [std::destroy_at] on a member of the union (src/common/result.hpp:125, src/common/variant.hpp:333). *)
  Definition destroy {A} (p : O -> option A) (m : memory O F) (a : nat) : outcome unit (memory O F) :=
    let* _ := read p m a in
    match slot (slots m) a with
    | Some c => Ok (Memory (put (slots m) a (Some (Cell None (tag c)))) (born m) (S (died m)))
    | None => UB
    end.

  (** Writing [m_has_value] or [m_index] (src/common/result.hpp:127, src/common/variant.hpp:265). *)
  Definition retag (t : F) (m : memory O F) (a : nat) : outcome unit (memory O F) :=
    match slot (slots m) a with
    | Some c => Ok (Memory (put (slots m) a (Some (Cell (alive c) t))) (born m) (died m))
    | None => UB
    end.

  (** The life of the holder begins, with the tag of the member initialiser and no member alive
      (src/common/result.hpp:89, src/common/variant.hpp:213). *)
  Definition begin (t : F) (m : memory O F) (a : nat) : outcome unit (memory O F) :=
    match slot (slots m) a with
    | Some _ => UB
    | None => if a <? length (slots m)
              then Ok (Memory (put (slots m) a (Some (Cell None t))) (born m) (died m))
              else UB
    end.

  (** The life of the holder ends after the body of its destructor (src/common/result.hpp:167,
      src/common/variant.hpp:245): a member which is still alive is forgotten. *)
  Definition finish (m : memory O F) (a : nat) : outcome unit (memory O F) :=
    match slot (slots m) a with
    | Some _ => Ok (Memory (put (slots m) a None) (born m) (died m))
    | None => UB
    end.

  (** An object outside of the memory is constructed and destroyed again, such as the local variable [copy]
      (src/common/variant.hpp:294-297). *)
  Definition temporary (m : memory O F) : memory O F := Memory (slots m) (S (born m)) (S (died m)).
End Cells.

(** What the user of a [Result] or [Variant] can do with variables (src/common/result.hpp:24-261,
    src/common/variant.hpp:204-339); [New] passes a value to a converting constructor and [Look] asks a question
    [q]. *)
Inductive op (C Q : Type) : Type :=
| New (a : nat) (c : C)
| Copy (a b : nat)
| Move (a b : nat)
| Assign (a b : nat)
| Assign_move (a b : nat)
| Delete (a : nat)
| Look (a : nat) (q : Q).
Arguments New {C Q} a c.
Arguments Copy {C Q} a b.
Arguments Move {C Q} a b.
Arguments Assign {C Q} a b.
Arguments Assign_move {C Q} a b.
Arguments Delete {C Q} a.
Arguments Look {C Q} a q.

(** The answer of an accessor (src/common/result.hpp:169-261): a flag, a contained object, or the exception of
    the failed assertion. *)
Inductive answer (O : Type) : Type :=
| Flag (b : bool)
| Object (o : O)
| Thrown.
Arguments Flag {O} b.
Arguments Object {O} o.
Arguments Thrown {O}.

(** A sequence of operations (src/common/result.hpp:15): the first undefined one ends it; exceptions of accessors
    are caught by the caller and are answers. *)
Fixpoint run_all {M C Q A} (step : M -> op C Q -> outcome unit (M * list A)) (m : M) (ops : list (op C Q))
  : outcome unit (M * list A) :=
  match ops with
  | [] => Ok (m, [])
  | o :: rest =>
      let* '(m1, l1) := step m o in
      let* '(m2, l2) := run_all step m1 rest in
      Ok (m2, l1 ++ l2)
  end.

(** An operation without an answer (src/common/result.hpp:112-135). *)
Definition silent {M A} (x : outcome unit M) : outcome unit (M * list A) :=
  let* m := x in Ok (m, []).

Section Result_class.
  (** The states left behind by moving a [T] and an [Error] (src/common/result.hpp:35,51): any. *)
  Context {T E : Type} (moved_value : T -> T) (moved_error : E -> E).

  (** Memory of variables of type [Result<T, Error>] (src/common/result.hpp:15-21). *)
  Definition results := memory (T + E) bool.

  (** The member [m_value] (src/common/result.hpp:18). *)
  Definition m_value (o : T + E) : option T := match o with inl v => Some v | inr _ => None end.
  (** The member [m_error] (src/common/result.hpp:19). *)
  Definition m_error (o : T + E) : option E := match o with inl _ => None | inr e => Some e end.

  (** [Result(const T&)], [Result(T&&)], [Result(const Error&)], [Result(Error&&)] and the same with
      [Success_Tag] and [Error_Tag] (src/common/result.hpp:24-84). *)
  Definition result_from (x : T + E) (m : results) (a : nat) : outcome unit results :=
    match x with
    | inl v => let* m := begin true m a in construct (inl v) m a
    | inr e => let* m := begin false m a in construct (inr e) m a
    end.

  (** [Result(const Result&)] (src/common/result.hpp:86-97). *)
  Definition result_copy (m : results) (this other : nat) : outcome unit results :=
    let* t := tag_of m other in
    let* m := begin t m this in
    if t then
      let* v := read m_value m other in construct (inl v) m this
    else
      let* e := read m_error m other in construct (inr e) m this.

  (** [Result(Result&&)] (src/common/result.hpp:99-110). *)
  Definition result_move (m : results) (this other : nat) : outcome unit results :=
    let* t := tag_of m other in
    let* m := begin t m this in
    if t then
      let* v := read m_value m other in
      let* m := construct (inl v) m this in
      overwrite m_value (inl (moved_value v)) m other
    else
      let* e := read m_error m other in
      let* m := construct (inr e) m this in
      overwrite m_error (inr (moved_error e)) m other.

  (** [operator=(const Result&)] (src/common/result.hpp:112-135). *)
  Definition result_assign (m : results) (this other : nat) : outcome unit results :=
    let* mine := tag_of m this in
    let* its := tag_of m other in
    if this =? other then Ok m
    else if mine && its then
      let* v := read m_value m other in overwrite m_value (inl v) m this
    else if negb mine && negb its then
      let* e := read m_error m other in overwrite m_error (inr e) m this
    else if mine && negb its then
      let* m := destroy m_value m this in
      let* e := read m_error m other in
      let* m := construct (inr e) m this in
      retag false m this
    else
      let* m := destroy m_error m this in
      let* v := read m_value m other in
      let* m := construct (inl v) m this in
      retag true m this.

  (** The body of [operator=(Result&&)] up to its closing brace (src/common/result.hpp:140-155). *)
  Definition result_assign_move_body (m : results) (this other : nat) : outcome unit results :=
    let* mine := tag_of m this in
    let* its := tag_of m other in
    if mine && its then
      let* v := read m_value m other in
      let* m := overwrite m_value (inl v) m this in
      overwrite m_value (inl (moved_value v)) m other
    else if negb mine && negb its then
      let* e := read m_error m other in
      let* m := overwrite m_error (inr e) m this in
      overwrite m_error (inr (moved_error e)) m other
    else if mine && negb its then
      let* m := destroy m_value m this in
      let* e := read m_error m other in
      let* m := construct (inr e) m this in
      let* m := overwrite m_error (inr (moved_error e)) m other in
      retag false m this
    else
      let* m := destroy m_error m this in
      let* v := read m_value m other in
      let* m := construct (inl v) m this in
      let* m := overwrite m_value (inl (moved_value v)) m other in
      retag true m this.

  (** [operator=(Result&&)] (src/common/result.hpp:137-156): declared to return [Result&], but there is no
      return statement.  Flowing off the end is undefined behaviour. *)
  Definition result_assign_move (m : results) (this other : nat) : outcome unit results :=
    let* _ := result_assign_move_body m this other in UB.

  (** [~Result()] (src/common/result.hpp:158-167). *)
  Definition result_delete (m : results) (this : nat) : outcome unit results :=
    let* t := tag_of m this in
    let* m := if t then destroy m_value m this else destroy m_error m this in
    finish m this.

  (** The accessors of a [Result] (src/common/result.hpp:169-261). *)
  Inductive result_question := Has_value | Value | Error_of.

  (** [has_value()] and [operator bool] (169-177), [operator->], [operator*] and [value()] (179-237) and
      [error()] (239-261) (src/common/result.hpp:169-261): the assertions are on [m_has_value], then the member is
      used. *)
  Definition result_look (q : result_question) (m : results) (a : nat) : outcome unit (answer (T + E)) :=
    let* t := tag_of m a in
    match q with
    | Has_value => Ok (Flag t)
    | Value => if t then let* v := read m_value m a in Ok (Object (inl v)) else Ok Thrown
    | Error_of => if negb t then let* e := read m_error m a in Ok (Object (inr e)) else Ok Thrown
    end.

  (** One operation on variables of type [Result<T, Error>] (src/common/result.hpp:24-261). *)
  Definition result_step (m : results) (o : op (T + E) result_question)
    : outcome unit (results * list (answer (T + E))) :=
    match o with
    | New a c => silent (result_from c m a)
    | Copy a b => silent (result_copy m a b)
    | Move a b => silent (result_move m a b)
    | Assign a b => silent (result_assign m a b)
    | Assign_move a b => silent (result_assign_move m a b)
    | Delete a => silent (result_delete m a)
    | Look a q => let* r := result_look q m a in Ok (m, [r])
    end.
End Result_class.

Section Result_void.
  (** The state left behind by moving an [Error] (src/common/result.hpp:341): any. *)
  Context {E : Type} (moved_error : E -> E).

  (** Memory of variables of type [Result<void, Error>] (src/common/result.hpp:316-322). *)
  Definition statuses := memory E bool.

  (** The member [m_error], the only one of the union (src/common/result.hpp:320). *)
  Definition only_error (o : E) : option E := Some o.

  (** [Result()], [Result(const Error&)] and [Result(Error&&)] (src/common/result.hpp:325-344). *)
  Definition status_from (x : option E) (m : statuses) (a : nat) : outcome unit statuses :=
    match x with
    | None => begin true m a
    | Some e => let* m := begin false m a in construct e m a
    end.

  (** [Result(const Result&)] (src/common/result.hpp:346-354). *)
  Definition status_copy (m : statuses) (this other : nat) : outcome unit statuses :=
    let* t := tag_of m other in
    let* m := begin t m this in
    if negb t then let* e := read only_error m other in construct e m this else Ok m.

  (** [Result(Result&&)] (src/common/result.hpp:356-364). *)
  Definition status_move (m : statuses) (this other : nat) : outcome unit statuses :=
    let* t := tag_of m other in
    let* m := begin t m this in
    if negb t then
      let* e := read only_error m other in
      let* m := construct e m this in
      overwrite only_error (moved_error e) m other
    else Ok m.

  (** [operator=(const Result&)] (src/common/result.hpp:366-387) and [operator=(Result&&)] (389-410), which has the
      same body and copies the error too. *)
  Definition status_assign (m : statuses) (this other : nat) : outcome unit statuses :=
    let* mine := tag_of m this in
    let* its := tag_of m other in
    if this =? other then Ok m
    else if mine && its then Ok m
    else if negb mine && negb its then
      let* e := read only_error m other in overwrite only_error e m this
    else if mine && negb its then
      let* e := read only_error m other in
      let* m := construct e m this in
      retag false m this
    else
      let* m := destroy only_error m this in
      retag true m this.

  (** [~Result()] (src/common/result.hpp:412-417). *)
  Definition status_delete (m : statuses) (this : nat) : outcome unit statuses :=
    let* t := tag_of m this in
    let* m := if negb t then destroy only_error m this else Ok m in
    finish m this.

  (** [has_value()] and [operator bool] (419-427), [operator*] and [value()] (429-437) and [error()] (439-461)
      (src/common/result.hpp:419-461).  A success has no value: its answer to [Value] is the flag. *)
  Definition status_look (q : result_question) (m : statuses) (a : nat) : outcome unit (answer E) :=
    let* t := tag_of m a in
    match q with
    | Has_value => Ok (Flag t)
    | Value => if t then Ok (Flag true) else Ok Thrown
    | Error_of => if negb t then let* e := read only_error m a in Ok (Object e) else Ok Thrown
    end.

  (** One operation on variables of type [Result<void, Error>] (src/common/result.hpp:325-461). *)
  Definition status_step (m : statuses) (o : op (option E) result_question)
    : outcome unit (statuses * list (answer E)) :=
    match o with
    | New a c => silent (status_from c m a)
    | Copy a b => silent (status_copy m a b)
    | Move a b => silent (status_move m a b)
    | Assign a b => silent (status_assign m a b)
    | Assign_move a b => silent (status_assign m a b)
    | Delete a => silent (status_delete m a)
    | Look a q => let* r := status_look q m a in Ok (m, [r])
    end.
End Result_void.

Section Packs.
  Context {A : Type} (eqb : A -> A -> bool).

  (** [pack_first_index_of_impl] (src/common/packs.hpp:21-29): the fold over [||] stops at the first match; [None]
      is [Size(-1)]. *)
  Fixpoint first_index_from (i : nat) (x : A) (ts : list A) : option nat :=
    match ts with
    | [] => None
    | t :: rest => if eqb x t then Some i else first_index_from (S i) x rest
    end.

  (** [pack_first_index_of_v] (src/common/packs.hpp:59-60). *)
  Definition first_index_of (x : A) (ts : list A) : option nat := first_index_from 0 x ts.

  (** [pack_last_index_of_impl] (src/common/packs.hpp:41-49): the fold over the comma visits all types; the counter
      grows in both branches. *)
  Fixpoint last_index_from (i : nat) (result : option nat) (x : A) (ts : list A) : option nat :=
    match ts with
    | [] => result
    | t :: rest => last_index_from (S i) (if eqb x t then Some i else result) x rest
    end.

  (** [pack_last_index_of_v] (src/common/packs.hpp:72-73). *)
  Definition last_index_of (x : A) (ts : list A) : option nat := last_index_from 0 None x ts.

  (** [pack_first_index_satisfying_v] (src/common/packs.hpp:31-39,68-70). *)
  Fixpoint first_satisfying_from (p : A -> bool) (i : nat) (ts : list A) : option nat :=
    match ts with
    | [] => None
    | t :: rest => if p t then Some i else first_satisfying_from p (S i) rest
    end.

  (** [pack_at_index_t] (src/common/packs.hpp:10-19,53-54): [None] is a program which does not compile. *)
  Fixpoint at_index (i : nat) (ts : list A) : option A :=
    match ts, i with
    | [], _ => None
    | t :: _, 0 => Some t
    | _ :: rest, S i' => at_index i' rest
    end.

  (** [pack_contains_v] (src/common/packs.hpp:62-63). *)
  Fixpoint contains (x : A) (ts : list A) : bool :=
    match ts with [] => false | t :: rest => eqb x t || contains x rest end.
End Packs.

Section Variant_class.
  (** Types with their equality [std::is_same_v], objects of all types, what moving leaves behind and
      [std::is_nothrow_copy_constructible_v] (src/common/variant.hpp:139-148,288): any. *)
  Context {ty val : Type} (same : ty -> ty -> bool) (moved : val -> val) (nothrow_copy : ty -> bool).
  (** The pack [Ts...] (src/common/variant.hpp:189). *)
  Context (ts : list ty).

  (** Memory of variables of type [Variant<Ts...>], for types which are not all trivially copyable
      (src/common/variant.hpp:189-201): the object alive is a type and a value. *)
  Definition variants := memory (ty * val) nat.

  (** An object of type [t] in the storage (src/common/variant.hpp:201,254): what [reinterpret_cast<T*>] needs. *)
  Definition as_type (t : ty) (o : ty * val) : option val :=
    if same t (fst o) then Some (snd o) else None.

  (** [get<I>(variant)] (src/common/variant.hpp:447-481). *)
  Definition get_index (i : nat) (m : variants) (a : nat) : outcome unit (ty * val) :=
    match at_index i ts with
    | None => UB
    | Some t =>
        let* k := tag_of m a in
        assert_then (i =? k) (let* v := read (as_type t) m a in Ok (t, v))
    end.

  (** How many cases the [switch] has (src/common/variant.hpp:61-129). *)
  Definition cases (alternatives : nat) : nat :=
    if alternatives =? 2 then 2
    else if alternatives <=? 4 then 4
    else if alternatives <=? 8 then 8
    else 32.

  (** [visit(f, v)] (src/common/variant.hpp:48-130), up to the call of [f]: the type and the value of the object
      it is called with.  A case with a number which is not the index of an alternative is empty and falls
      through to the next one, at last to the assertion after the [switch].  With one alternative it names
      [::std::get], which does not exist for this class: such a program does not compile. *)
  Definition visit (m : variants) (a : nat) : outcome unit (ty * val) :=
    let alternatives := length ts in
    let* k := tag_of m a in
    if (k <? cases alternatives) && (k <? alternatives) then get_index k m a else Abort.

  (** [Variant(T&&)] (src/common/variant.hpp:233-240). *)
  Definition variant_from (x : ty * val) (m : variants) (a : nat) : outcome unit variants :=
    match first_index_of same (fst x) ts with
    | None => UB
    | Some i => let* m := begin i m a in construct x m a
    end.

  (** [Variant(const Variant&)] (src/common/variant.hpp:222-231). *)
  Definition variant_copy (m : variants) (this other : nat) : outcome unit variants :=
    let* k := tag_of m other in
    let* m := begin k m this in
    let* x := visit m other in
    construct x m this.

  (** [Variant(Variant&&)] (src/common/variant.hpp:211-220). *)
  Definition variant_move (m : variants) (this other : nat) : outcome unit variants :=
    let* k := tag_of m other in
    let* m := begin k m this in
    let* x := visit m other in
    let* m := construct x m this in
    overwrite (as_type (fst x)) (fst x, moved (snd x)) m other.

  (** [destroy()] (src/common/variant.hpp:329-336). *)
  Definition variant_destroy (m : variants) (this : nat) : outcome unit variants :=
    let* x := visit m this in
    destroy (as_type (fst x)) m this.

  (** [operator=(Variant&&)] (src/common/variant.hpp:247-268). *)
  Definition variant_assign_move (m : variants) (this other : nat) : outcome unit variants :=
    let* mine := tag_of m this in
    let* its := tag_of m other in
    if mine =? its then
      let* x := visit m other in
      let* m := overwrite (as_type (fst x)) x m this in
      overwrite (as_type (fst x)) (fst x, moved (snd x)) m other
    else
      let* m := variant_destroy m this in
      let* x := visit m other in
      let* m := construct x m this in
      let* m := overwrite (as_type (fst x)) (fst x, moved (snd x)) m other in
      let* its := tag_of m other in
      retag its m this.

  (** [operator=(const Variant&)] (src/common/variant.hpp:270-303). *)
  Definition variant_assign (m : variants) (this other : nat) : outcome unit variants :=
    let* mine := tag_of m this in
    let* its := tag_of m other in
    if mine =? its then
      let* x := visit m other in
      overwrite (as_type (fst x)) x m this
    else
      let* x := visit m other in
      let* m := if nothrow_copy (fst x) then
                  let* m := variant_destroy m this in
                  construct x m this
                else
                  let m := temporary m in
                  let* m := variant_destroy m this in
                  construct x m this in
      let* its := tag_of m other in
      retag its m this.

  (** [~Variant()] (src/common/variant.hpp:242-245). *)
  Definition variant_delete (m : variants) (this : nat) : outcome unit variants :=
    let* m := variant_destroy m this in
    finish m this.

  (** [index() == i] (src/common/variant.hpp:305-308), [holds_alternative<T>] (396-403), [get_if<I>] (405-423),
      [get_if<T>] (425-445), [get<I>] (447-481) and [get<T>] (483-521). *)
  Inductive variant_question :=
  | Index_is (i : nat)
  | Holds (t : ty)
  | Get_if (i : nat)
  | Get_if_type (t : ty)
  | Get (i : nat)
  | Get_type (t : ty).

  (** The accessors (src/common/variant.hpp:305-308,396-521): a null pointer is the answer [Flag false]; the
      question must be one which compiles. *)
  Definition variant_look (q : variant_question) (m : variants) (a : nat) : outcome unit (answer (ty * val)) :=
    let* k := tag_of m a in
    match q with
    | Index_is i => Ok (Flag (k =? i))
    | Holds t => match first_index_of same t ts with
                 | Some i => Ok (Flag (k =? i))
                 | None => UB
                 end
    | Get_if i => match at_index i ts with
                  | Some t => if k =? i then let* v := read (as_type t) m a in Ok (Object (t, v))
                              else Ok (Flag false)
                  | None => UB
                  end
    | Get_if_type t => match first_index_of same t ts with
                       | Some i => if k =? i then let* v := read (as_type t) m a in Ok (Object (t, v))
                                   else Ok (Flag false)
                       | None => UB
                       end
    | Get i => match at_index i ts with
               | Some t => if i =? k then let* v := read (as_type t) m a in Ok (Object (t, v)) else Ok Thrown
               | None => UB
               end
    | Get_type t => match first_index_of same t ts with
                    | Some i => if i =? k then let* v := read (as_type t) m a in Ok (Object (t, v))
                                else Ok Thrown
                    | None => UB
                    end
    end.

  (** [operator==(const Variant&, const Variant&)] (src/common/variant.hpp:310-319), with the equality of the contained
      types. *)
  Definition variant_equal (equal : ty * val -> ty * val -> bool) (m : variants) (a b : nat) : outcome unit bool :=
    let* i := tag_of m a in
    let* j := tag_of m b in
    if i =? j then
      let* x := visit m a in
      let* y := read (as_type (fst x)) m b in
      Ok (equal x (fst x, y))
    else Ok false.

  (** One operation on variables of type [Variant<Ts...>] (src/common/variant.hpp:204-339). *)
  Definition variant_step (m : variants) (o : op (ty * val) variant_question)
    : outcome unit (variants * list (answer (ty * val))) :=
    match o with
    | New a c => silent (variant_from c m a)
    | Copy a b => silent (variant_copy m a b)
    | Move a b => silent (variant_move m a b)
    | Assign a b => silent (variant_assign m a b)
    | Assign_move a b => silent (variant_assign_move m a b)
    | Delete a => silent (variant_delete m a)
    | Look a q => let* r := variant_look q m a in Ok (m, [r])
    end.
End Variant_class.
