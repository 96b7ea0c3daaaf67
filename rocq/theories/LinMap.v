(** The variable environment of the virtual machine.
    Models src/bms/vm/linear_map_stack.hpp. *)
From Coq Require Import ZArith List Bool.
From Verif Require Import Prelude Types.
Import ListNotations.

(** [Key = const void*] (src/bms/vm/linear_map_stack.hpp:28-29): [None] is [nullptr], [Some p] the
    address of a parameter or syntax tree node; only the identity of addresses matters. *)
Definition key : Type := option positive.
(** [sentinel_key] (src/bms/vm/linear_map_stack.hpp:29). *)
Definition sentinel_key : key := None.
(** Comparison of pointers (src/bms/vm/linear_map_stack.hpp:51-53, 85). *)
Definition key_eqb (a b : key) : bool :=
  match a, b with
  | None, None => true
  | Some p, Some q => Pos.eqb p q
  | _, _ => false
  end.

(** [Entry] (src/bms/vm/linear_map_stack.hpp:30-33). *)
Record entry : Type := Entry { e_key : key; e_value : cvalue }.

(** [m_data] (src/bms/vm/linear_map_stack.hpp:36) with the newest entry ([back()]) first: the C++ loops
    run from the back. Memory resources are not modelled. *)
Definition linmap : Type := list entry.

(** The loop of [find] (src/bms/vm/linear_map_stack.hpp:52-57): the distance from the back of the entry
    found; the [Entry*] of the C++ code points to it. *)
Fixpoint find_from (k : key) (m : linmap) : option nat :=
  match m with
  | [] => None
  | e :: rest =>
      if key_eqb (e_key e) sentinel_key then None
      else if key_eqb k (e_key e) then Some 0%nat
      else match find_from k rest with Some i => Some (S i) | None => None end
  end.

(** [find] (src/bms/vm/linear_map_stack.hpp:49-58). *)
Definition lm_find {E} (k : key) (m : linmap) : outcome E (option nat) :=
  assert_then (negb (key_eqb k sentinel_key)) (Ok (find_from k m)).

(** Reading through the [Entry*] returned by [find] (e.g. src/bms/vm/vm.cpp:26). *)
Definition lm_value (m : linmap) (i : nat) : option cvalue :=
  match nth_error m i with Some e => Some (e_value e) | None => None end.

(** Writing through the [Entry*] returned by [find] (src/bms/vm/linear_map_stack.hpp:71). *)
Fixpoint lm_set (m : linmap) (i : nat) (v : cvalue) : linmap :=
  match m, i with
  | [], _ => []
  | e :: rest, O => Entry (e_key e) v :: rest
  | e :: rest, S j => e :: lm_set rest j v
  end.

(** [clear] (src/bms/vm/linear_map_stack.hpp:44-47). *)
Definition lm_clear : linmap := [].

(** [emplace] (src/bms/vm/linear_map_stack.hpp:60-66): [Err i] is the error holding the existing entry;
    the entry added on success is the newest one. *)
Definition lm_emplace (k : key) (v : cvalue) (m : linmap) : outcome nat linmap :=
  match @lm_find nat k m with
  | Ok (Some i) => Err i
  | Ok None => Ok (Entry k v :: m)
  | Err e => Err e
  | Abort => Abort
  | UB => UB
  end.

(** [assign] (src/bms/vm/linear_map_stack.hpp:68-75). *)
Definition lm_assign {E} (k : key) (v : cvalue) (m : linmap) : outcome E linmap :=
  let* found := lm_find k m in
  match found with
  | Some i => Ok (lm_set m i v)
  | None => Ok (Entry k v :: m)
  end.

(** [push_frame] (src/bms/vm/linear_map_stack.hpp:77-80). *)
Definition lm_push_frame (sentinel_value : cvalue) (m : linmap) : linmap :=
  Entry sentinel_key sentinel_value :: m.

(** [pop_frame] (src/bms/vm/linear_map_stack.hpp:82-92): [None] is [std::nullopt], which leaves the data
    as it was. *)
Fixpoint lm_pop_frame (m : linmap) : option (cvalue * linmap) :=
  match m with
  | [] => None
  | e :: rest =>
      if key_eqb (e_key e) sentinel_key then Some (e_value e, rest) else lm_pop_frame rest
  end.
