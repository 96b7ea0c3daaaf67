(** What a stack of finite maps is, independently of the linear representation. *)
From Coq Require Import ZArith List Bool.
From Verif Require Import Prelude Types LinMap.
Import ListNotations.

(** A finite map from variables to values. *)
Definition env : Type := positive -> option cvalue.
Definition empty_env : env := fun _ => None.
Definition update (f : env) (p : positive) (v : cvalue) : env :=
  fun q => if Pos.eqb q p then Some v else f q.

(** A stack of maps: the newest map, and below it the value saved with each frame and the map under it. *)
Record mapstack : Type := MapStack { ms_current : env; ms_saved : list (cvalue * env) }.

(** Operations a user may perform, on real variables. *)
Inductive op : Type :=
| OFind (p : positive)
| OEmplace (p : positive) (v : cvalue)
| OAssign (p : positive) (v : cvalue)
| OPush (v : cvalue)
| OPop
| OClear.

(** What the user observes: the value found, whether the insertion took place (and otherwise the existing
    value), the value returned by popping a frame. *)
Inductive obs : Type :=
| Found (v : option cvalue)
| Inserted
| Existing (v : cvalue)
| Done
| Popped (v : option cvalue)
| Crashed.

(** The specification. *)
Definition spec_step (s : mapstack) (o : op) : mapstack * obs :=
  match o with
  | OFind p => (s, Found (ms_current s p))
  | OEmplace p v =>
      match ms_current s p with
      | Some w => (s, Existing w)
      | None => (MapStack (update (ms_current s) p v) (ms_saved s), Inserted)
      end
  | OAssign p v => (MapStack (update (ms_current s) p v) (ms_saved s), Done)
  | OPush v => (MapStack empty_env ((v, ms_current s) :: ms_saved s), Done)
  | OPop =>
      match ms_saved s with
      | [] => (s, Popped None)
      | (v, f) :: rest => (MapStack f rest, Popped (Some v))
      end
  | OClear => (MapStack empty_env [], Done)
  end.

(** The implementation, observed in the same way. *)
Definition impl_step (m : linmap) (o : op) : linmap * obs :=
  match o with
  | OFind p =>
      match @lm_find unit (Some p) m with
      | Ok (Some i) => (m, Found (lm_value m i))
      | Ok None => (m, Found None)
      | _ => (m, Crashed)
      end
  | OEmplace p v =>
      match lm_emplace (Some p) v m with
      | Ok m' => (m', Inserted)
      | Err i => match lm_value m i with Some w => (m, Existing w) | None => (m, Crashed) end
      | _ => (m, Crashed)
      end
  | OAssign p v =>
      match @lm_assign unit (Some p) v m with Ok m' => (m', Done) | _ => (m, Crashed) end
  | OPush v => (lm_push_frame v m, Done)
  | OPop =>
      match lm_pop_frame m with
      | Some (v, m') => (m', Popped (Some v))
      | None => (m, Popped None)
      end
  | OClear => (lm_clear, Done)
  end.

(** Observations along a history, from the initial (empty) state. *)
Fixpoint observe {S} (step : S -> op -> S * obs) (s : S) (history : list op) : list obs :=
  match history with
  | [] => []
  | o :: rest => let '(s', b) := step s o in b :: observe step s' rest
  end.

Definition spec_init : mapstack := MapStack empty_env [].
