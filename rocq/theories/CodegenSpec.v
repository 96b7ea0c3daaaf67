(** Vocabulary for the correctness of code generation: runs of the abstract machine of [VMSpec], trees of
    the shape the parser builds, and programs that are laid out the way analysis lays them out. *)
From Coq Require Import ZArith List Bool.
From Verif Require Import Prelude Types Ops Text Tables AbsOps LinMap LinMapSpec LinMapProofs VM VMSpec Ast Codegen SourceSem.
Import ListNotations.
Open Scope Z_scope.

(** One cycle, and [k] cycles. A cycle that does not move the program counter is not one: the virtual
    machine reports it as an infinite loop. *)
Definition astep (prog : list instr) (a b : machine) : Prop :=
  exists i, fetch prog (a_pc a) = Some i /\ effect (instruction_count prog) i a b /\ a_pc b <> a_pc a.

Inductive steps (prog : list instr) : nat -> machine -> machine -> Prop :=
| steps_zero : forall a, steps prog 0 a a
| steps_more : forall k a b c, astep prog a b -> steps prog k b c -> steps prog (S k) a c.

(** The machine stops with an error code, or crashes. *)
Definition stops (prog : list instr) (a : machine) (c : exec_code) : Prop :=
  exists i, fetch prog (a_pc a) = Some i /\ faults (instruction_count prog) i a c.
Definition dies (prog : list instr) (a : machine) : Prop :=
  exists i, fetch prog (a_pc a) = Some i /\ crashes (instruction_count prog) i a.

(** The error code that reports a failed run; [None] where generated code promises nothing. *)
Definition reported (e : src_error) : option exec_code :=
  match e with
  | s_eval e => Some (x_evaluation e)
  | s_uninitialized => Some x_load_uninitialized
  | s_not_bool => Some x_jump_if_not_bool
  | s_break_outside_loop => Some x_symbolic_jump
  | s_no_value | s_stuck => None
  end.

(** Calls that discard their result occur as statements only (src/bms/ast.cpp:500-506,
    src/bms/parsing/parse.cpp: the rule for assignments and call statements). *)
Fixpoint plain (e : expr) : bool :=
  match e with
  | EConversion _ e1 _ => plain e1
  | EIf _ l c r => plain l && plain c && plain r
  | EBinary _ _ l r => plain l && plain r
  | EPrefix _ _ e1 => plain e1
  | ECall _ _ _ st args => negb st && forallb plain args
  | EId _ _ _ _ | ELiteral _ _ _ => true
  end.

Fixpoint shaped (s : stmt) : bool :=
  match s with
  | SConst _ _ _ _ _ | SStatic_Assert _ _ => true
  | SLet _ _ _ _ init => match init with Some e => plain e | None => true end
  | SIf _ c b e => plain c && shaped b && match e with Some e => shaped e | None => true end
  | SWhile _ c b => plain c && shaped b
  | SControl _ _ e => match e with Some e => plain e | None => true end
  | SAssign _ _ _ e => plain e
  | SBlock _ l => forallb shaped l
  | SExpr e => match e with ECall _ _ _ st args => st && forallb plain args | _ => false end
  end.

(** Every jump of the program leads into the program. *)
Definition closed (prog : list instr) : Prop :=
  forall pc o, (fetch prog pc = Some (IRelative_Jump o) \/ exists b, fetch prog pc = Some (IRelative_Jump_If o b)) ->
  0 <= pc + 1 + o < instruction_count prog.

(** The code of one function: what the code generator knew about other functions, the address of the first
    instruction, and the instructions. *)
Record code_unit : Type := CodeUnit { u_info : functions; u_start : Z; u_code : list instr }.

(** [code] is found at [pc] in the program. *)
Definition located (prog : list instr) (pc : Z) (code : list instr) : Prop :=
  exists before after, prog = before ++ code ++ after /\ pc = instruction_count before.

(** What the code generator knows about analysed functions with code is true, and their code is found below
    the address [lo]. *)
Definition callees_known (table : positive -> option func) (units : positive -> option code_unit)
  (lo : Z) (info : functions) : Prop :=
  forall n' i a, info n' = Some i -> fi_analyzed i = true -> fi_address i = Some a ->
  (exists f', table n' = Some f' /\ fi_parameters i = map (fun p => type_cv (p_type p)) (f_params f'))
  /\ exists u', units n' = Some u' /\ u_start u' = a /\ a + instruction_count (u_code u') <= lo.

(** [units] describes the functions whose code is in the program: it is their generated code, and the
    functions they call are in the program too, at lower addresses. *)
Definition linked (prog : list instr) (table : positive -> option func)
  (units : positive -> option code_unit) : Prop :=
  forall n u, units n = Some u ->
  exists f, table n = Some f
    /\ shaped (f_body f) = true
    /\ gen_function (u_info u) f = Ok (u_code u)
    /\ u_code u <> []
    /\ located prog (u_start u) (u_code u)
    /\ callees_known table units (u_start u) (u_info u).

(** [k] cycles of the virtual machine. *)
Inductive cycles : nat -> vm -> vm -> Prop :=
| cycles_zero : forall m, cycles 0 m m
| cycles_more : forall k m m' m'', cycle m = Ok m' -> cycles k m' m'' -> cycles (S k) m m''.

(** The virtual machine, started in [m], does what the evaluator says: it reaches a machine that is [good]
    for the result; it stops with the error code that reports the error; it crashes; and where the evaluator
    ran out of [fuel] the machine does not stop for [fuel] cycles. *)
Definition follows {R} (fuel : nat) (m : vm) (r : res R) (good : R -> vm -> Prop) : Prop :=
  match r with
  | None => exists k m', cycles k m m' /\ (fuel <= k)%nat
  | Some (Ok x) => exists k m', cycles k m m' /\ good x m'
  | Some (Err e) =>
      match reported e with
      | None => True
      | Some c => exists k m' x, cycles k m m' /\ cycle m' = Err x /\ ee_code x = c
      end
  | Some _ => exists k m', cycles k m m' /\ ~ defined (cycle m')
  end.

(** The variables of the running function, and those of its callers, are the same. *)
Definition same_frames (f g : linmap) : Prop :=
  (forall p, current f p = current g p) /\ frames_eq (saved f) (saved g).

(** [break] and [continue] occur inside loops only: what src/bms/analyze.cpp:464-474 checks. *)
Fixpoint loops_ok (inside : bool) (s : stmt) : bool :=
  match s with
  | SIf _ _ b e => loops_ok inside b && match e with Some e => loops_ok inside e | None => true end
  | SWhile _ _ b => loops_ok true b
  | SControl _ ctl_return _ => true
  | SControl _ _ _ => inside
  | SBlock _ l => forallb (loops_ok inside) l
  | _ => true
  end.

(** The target of the jump at index [i] of [code], as an index of [code]. *)
Definition jump_at (code : list instr) (i : Z) (target : Z) : Prop :=
  exists o, target = i + 1 + o
    /\ (fetch code i = Some (IRelative_Jump o) \/ exists b, fetch code i = Some (IRelative_Jump_If o b)).

(** The last statement of the body is [return], or the function returns nothing and its body has no
    [return] outside of nested statements. *)
Definition ends_with_return (f : func) : Prop :=
  exists cv l, f_body f = SBlock cv l
    /\ ((exists l' c e, l = l' ++ [SControl c ctl_return e])
        \/ (node_type (f_return f) = tt_Void
            /\ forall s, In s l -> match s with SControl _ _ _ => False | _ => True end)).

(** The program consists of the code of such functions. *)
Definition assembled (prog : list instr) : Prop :=
  exists parts, prog = concat parts
    /\ forall code, In code parts ->
       exists info f, gen_function info f = Ok code /\ ends_with_return f.
