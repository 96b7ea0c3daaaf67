(** Final theorems about the variable environment of the virtual machine: property C19. *)
From Coq Require Import ZArith List Bool Lia.
From Verif Require Import Prelude Types LinMap LinMapSpec LinMapProofs.
Import ListNotations.
Open Scope Z_scope.

(** ** C19: the linear map stack is a stack of finite maps *)

(** Every history of operations on variables, of any length, gives the observations that the stack of
    maps of [LinMapSpec.v] gives. In particular no operation on a variable ever crashes. *)
Theorem C19_stack_of_maps : forall history,
  observe impl_step lm_clear history = observe spec_step spec_init history.
Proof. exact refines. Qed.

(** The same from any data a caller may have built, including data pushed by another user. *)
Theorem C19_stack_of_maps_from_any_state : forall m history,
  observe impl_step m history = observe spec_step (MapStack (current m) (saved m)) history.
Proof.
  intros. apply refines_from. split; [reflexivity|].
  unfold frames_eq. cbn [ms_saved]. induction (saved m); constructor; auto.
Qed.

(** The sentinel is not a variable: the operations on it fail their assertion. *)
Theorem C19_null_key_rejected : forall E v m,
  @lm_find E None m = Abort /\ @lm_assign E None v m = Abort /\ lm_emplace None v m = Abort.
Proof. intros. repeat split. Qed.

Example C19_example_history :
  observe impl_step lm_clear
    [OAssign 1 (CV TInt 10); OAssign 2 (CV TInt 20); OPush (CV TInt 99); OFind 1;
     OAssign 1 (CV TInt 11); OEmplace 1 (CV TInt 12); OEmplace 3 (CV TInt 13); OFind 1; OPop;
     OFind 1; OFind 3; OAssign 1 (CV TInt 14); OFind 1; OFind 2; OPop]%positive
  = [Done; Done; Done; Found None; Done; Existing (CV TInt 11); Inserted; Found (Some (CV TInt 11));
     Popped (Some (CV TInt 99)); Found (Some (CV TInt 10)); Found None; Done;
     Found (Some (CV TInt 14)); Found (Some (CV TInt 20)); Popped None].
Proof. vm_compute. reflexivity. Qed.

(** * Assumptions of the theorems above *)
Print Assumptions C19_stack_of_maps.
Print Assumptions C19_stack_of_maps_from_any_state.
Print Assumptions C19_null_key_rejected.
