(** C75: the listing of a program of the virtual machine tells which program it is. *)
From Coq Require Import ZArith Ascii String List Bool Lia.
From Verif Require Import Prelude Text Types Ops LinMap VM Tables Decimal DecimalSpec VMPrint VMPrintSpec VMPrintProofs.
Import ListNotations.
Open Scope string_scope.
Open Scope list_scope.
Open Scope Z_scope.

(** The lines of a text: all of them end with an end of line. *)
Fixpoint lines_of (t : text) (line : text) : list text :=
  match t with
  | [] => []
  | c :: r => if Ascii.eqb c "010"%char then line :: lines_of r [] else lines_of r (line ++ [c])
  end.

Lemma lines_line : forall a line r, one_line a ->
  lines_of (a ++ "010"%char :: r) line = (line ++ a) :: lines_of r [].
Proof.
  induction a as [|c a IH]; intros line r A.
  - cbn. rewrite app_nil_r. reflexivity.
  - cbn [lines_of app]. destruct (Ascii.eqb_spec c "010"%char) as [->|Nc]; [destruct A; left; reflexivity|].
    rewrite IH; [|intros Hin; apply A; right; exact Hin]. rewrite <- app_assoc. reflexivity.
Qed.

(** There is one line for each instruction, in the order of the program. *)
Theorem C75_lines : forall p l, pointers_shown p -> Forall shown l ->
  lines_of (dump_program p l) [] = map (print_instr p) l.
Proof.
  intros p l P L. induction L as [|i l I L IH]; [reflexivity|]. cbn [dump_program map].
  rewrite lines_line by (apply line_one_line; assumption). rewrite IH. reflexivity.
Qed.

(** Programs with the same listing have the same instructions: all of them with all operands, but for the
    types of pushed numbers. *)
Theorem C75_listing_partial : forall p l m, pointers_shown p -> Forall shown l -> Forall shown m ->
  dump_program p l = dump_program p m -> Forall2 same_instr l m.
Proof. intros p l m P. exact (dump_fun p P l m). Qed.

(** Hence programs that push no numbers, only truth values, are determined by their listings. *)
Definition pushes_bits (i : text * instr) : Prop :=
  match snd i with IPush v => v = cv_Void \/ v = cv_True \/ v = cv_False | _ => True end.

Theorem C75_listing_bits : forall p l m, pointers_shown p -> Forall shown l -> Forall shown m ->
  Forall pushes_bits l -> Forall pushes_bits m ->
  dump_program p l = dump_program p m -> map snd l = map snd m.
Proof.
  intros p l m P L M BL BM E. pose proof (dump_fun p P l m L M E) as F. clear E L M.
  induction F as [|[n i] [k j] l m S0 F IH]; [reflexivity|].
  inversion BL as [|? ? Bi Bl]; subst. inversion BM as [|? ? Bj Bm]; subst. cbn [map snd]. f_equal; [|exact (IH Bl Bm)].
  unfold same_instr, pushes_bits in *. cbn [snd] in *. destruct i, j; try congruence.
  unfold same_value in S0. destruct Bi as [->|[->| ->]], Bj as [->|[->| ->]]; cbn in S0; try reflexivity;
    try destruct S0 as [S1 S2]; try (exfalso; first [discriminate (S1 eq_refl) | discriminate (S2 eq_refl) | exact S0]); try destruct S0.
Qed.

(** The types are not shown: different programs, with different results, look alike. *)
Definition sample_pointer (k : key) : text :=
  match k with None => str "0" | Some p => str "0x" ++ repeat "1"%char (Pos.to_nat p) end.

Lemma sample_pointers : pointers_shown sample_pointer.
Proof.
  assert (R : forall n c, In c (repeat "1"%char n) -> c = "1"%char) by (intros n c; apply repeat_spec).
  split; [|split].
  - intros [a|] [b|] E; cbn [sample_pointer str list_ascii_of_string app] in E; try discriminate E; [|reflexivity].
    injection E as E. apply (f_equal (@length ascii)) in E. rewrite !repeat_length in E.
    apply Pos2Nat.inj in E. rewrite E. reflexivity.
  - intros [a|] Hin; cbn in Hin.
    + destruct Hin as [A|[A|A]]; try discriminate A. apply R in A. discriminate A.
    + destruct Hin as [A|[]]. discriminate A.
  - intros [a|] Hin; cbn in Hin.
    + destruct Hin as [A|[A|A]]; try discriminate A. apply R in A. discriminate A.
    + destruct Hin as [A|[]]. discriminate A.
Qed.


Definition sum (t : ctype) : list named_instr :=
  [([], IPush (CV t 255)); ([], IPush (CV t 1)); ([], IBinary_Operate binary_plus)].

Theorem C75_types_refuted : exists l m, pointers_shown sample_pointer /\ Forall shown l /\ Forall shown m /\
  dump_program sample_pointer l = dump_program sample_pointer m /\
  cycle (VM (map snd l) [] [CV (TUint 8) 1; CV (TUint 8) 255] 2 None) =
    Ok (VM (map snd l) [] [CV (TUint 8) 0] 3 None) /\
  cycle (VM (map snd m) [] [CV TInt 1; CV TInt 255] 2 None) =
    Ok (VM (map snd m) [] [CV TInt 256] 3 None) /\
  map snd l <> map snd m.
Proof.
  exists (sum (TUint 8)), (sum TInt). split; [exact sample_pointers|].
  assert (K : forall t, t = TUint 8 \/ t = TInt -> Forall shown (sum t)).
  { intros t T. assert (V : forall n, n = 255 \/ n = 1 -> value_shown (CV t n)).
    { intros n [-> | ->]; destruct T as [->| ->]; (split; [split; reflexivity || discriminate | left; reflexivity]). }
    repeat apply Forall_cons; [| | |apply Forall_nil]; (split; [intros [] |]).
    - apply V. left. reflexivity.
    - apply V. right. reflexivity.
    - unfold instr_shown, binary_kind, snd. cbn [In]. tauto. }
  split; [apply K; left; reflexivity|]. split; [apply K; right; reflexivity|].
  split; [vm_compute; reflexivity|]. split; [vm_compute; reflexivity|]. split; [vm_compute; reflexivity | discriminate].
Qed.

(** Numbers of more than 64 bits look like others. *)
Theorem C75_numbers_refuted : exists x y, 0 <= x < 2 ^ 127 /\ 0 <= y < 2 ^ 127 /\ x <> y /\
  dump_program sample_pointer [([], IPush (CV TInt x))] = dump_program sample_pointer [([], IPush (CV TInt y))].
Proof.
  exists 100000000000000000000, 100. split; [split; reflexivity || discriminate|].
  split; [split; reflexivity || discriminate|]. split; [discriminate | vm_compute; reflexivity].
Qed.

Example C75_example :
  dump_program sample_pointer
    [(str "x", ILoad (Some 2%positive)); ([], IPush (CV (TUint 8) 7)); ([], IBinary_Operate less_than);
     ([], IRelative_Jump_If 2 false); ([], IConvert (TUint 8)); ([], IPop); ([], IRelative_Jump (-6));
     ([], IBuiltin_Call builtin_assert); ([], ICall 12); ([], IReturn)] =
  str "load            0x11    ; x" ++ ["010"%char] ++
  str "push            7" ++ ["010"%char] ++
  str "binary <" ++ ["010"%char] ++
  str "if              false jump +2" ++ ["010"%char] ++
  str "convert to      Uint(8)" ++ ["010"%char] ++
  str "pop             " ++ ["010"%char] ++
  str "jump            -6" ++ ["010"%char] ++
  str "call builtin    assert" ++ ["010"%char] ++
  str "call            12" ++ ["010"%char] ++
  str "return" ++ ["010"%char].
Proof. vm_compute. reflexivity. Qed.

(** * Assumptions of the theorems above *)
Print Assumptions C75_lines.
Print Assumptions C75_listing_partial.
Print Assumptions C75_listing_bits.
Print Assumptions C75_types_refuted.
Print Assumptions C75_numbers_refuted.
