(** The listing of a program of the virtual machine. Models src/bms/vm/instructions.cpp. *)
From Coq Require Import ZArith Ascii String List Bool.
From Verif Require Import Prelude Text Types Ops LinMap VM Tables Decimal ErrorPrint.
Import ListNotations.
Open Scope string_scope.
Open Scope list_scope.
Open Scope Z_scope.

(** An instruction with the [name] of its [debug_info] (src/bms/vm/instructions.hpp:19-21,
    src/bms/debug_info.hpp:39-42); the rest of the debug information is not printed. *)
Definition named_instr : Type := text * instr.

(** The type names (src/bms/concrete_type.hpp:24-34) and [operator<<] of [Concrete_Type]
    (src/bms/vm/instructions.cpp:12-21); the width is a [Size]. *)
Definition print_ctype (t : ctype) : text :=
  match t with
  | TVoid => str "Void"
  | TBool => str "Bool"
  | TInt => str "Int"
  | TUint w => str "Uint" ++ str "(" ++ std_to_string w ++ str ")"
  end.

(** [operator<<] of [Concrete_Value] (src/bms/vm/instructions.cpp:23-32). *)
Definition print_cvalue (v : cvalue) : text :=
  match cv_type v with
  | TVoid => str "Void"
  | TBool => if cv_int v =? 0 then str "false" else str "true"
  | TInt => to_string_int (cv_int v)
  | TUint _ => to_string_uint (to_big_uint (cv_int v))
  end.

(** [std::left << std::setw(name_column_width)] (src/bms/vm/instructions.cpp:36, e.g. 40): spaces behind
    the next text up to 16 characters; a longer text would not be cut. *)
Definition name_column_width : nat := 16.
Definition pad (t : text) : text := t ++ repeat " "%char (name_column_width - length t). (* src/bms/vm/instructions.cpp:40 *)

(** [out << offset] of a [Signed_Size] (src/bms/vm/instructions.cpp:70, 77); part of the standard library. *)
Definition print_signed (x : Z) : text :=
  if 0 <=? x then std_to_string x else str "-" ++ std_to_string (- x).
(** [(i.offset >= 0 ? "+" : "") << i.offset] (src/bms/vm/instructions.cpp:69-70, 77). *)
Definition print_offset (x : Z) : text := (if 0 <=? x then str "+" else str "") ++ print_signed x.

(** [builtin_function_name] (src/bms/evaluation/builtin_function.hpp:16-19). *)
Definition builtin_function_name (f : builtin) : text := match f with builtin_assert => str "assert" end.

Section Printing.

(** [out << i.source] of a [const void*] (src/bms/vm/instructions.cpp:40, 49): what this looks like is
    left open by the standard. *)
Variable print_pointer : key -> text.

(** [if (!i.debug_info.name.empty()) out << "    ; " << i.debug_info.name]
    (src/bms/vm/instructions.cpp:41-43, 50-52). *)
Definition print_name (name : text) : text :=
  match name with
  | [] => []
  | _ :: _ => str "    ; " ++ name
  end.

(** [operator<<] of the instructions (src/bms/vm/instructions.cpp:38-124). *)
Definition print_instr (i : named_instr) : text :=
  match snd i with
  | ILoad source => pad (str "load ") ++ print_pointer source ++ print_name (fst i)
  | IStore target => pad (str "store ") ++ print_pointer target ++ print_name (fst i)
  | IPush v => pad (str "push ") ++ print_cvalue v
  | IPop => pad (str "pop")
  | IRelative_Jump o => pad (str "jump ") ++ print_offset o
  | IRelative_Jump_If o e =>
      pad (str "if ") ++ (if e then str "true" else str "false") ++ str " jump " ++ print_offset o
  | IBreak => str "break"
  | IContinue => str "continue"
  | IReturn => str "return"
  | IConvert t => pad (str "convert to ") ++ print_ctype t
  | IUnary_Operate op => str "unary " ++ expression_type_code_name op
  | IBinary_Operate op => str "binary " ++ expression_type_code_name op
  | ICall a => pad (str "call ") ++ std_to_string a
  | IBuiltin_Call f => pad (str "call builtin ") ++ builtin_function_name f
  end.

(** [dump_program] (src/bms/vm/instructions.cpp:128-133). *)
Fixpoint dump_program (l : list named_instr) : text :=
  match l with
  | [] => []
  | i :: r => print_instr i ++ "010"%char :: dump_program r
  end.

End Printing.
