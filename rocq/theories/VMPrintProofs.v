(** Reading the listing of a program back. *)
From Coq Require Import ZArith Ascii String List Bool Lia.
From Verif Require Import Prelude Text Types Ops LinMap VM Tables Decimal DecimalSpec DecimalProofs DecimalProps VMPrint VMPrintSpec.
Import ListNotations.
Open Scope string_scope.
Open Scope list_scope.
Open Scope Z_scope.

Lemma cut_at : forall (c : ascii) a b x y, ~ In c a -> ~ In c b ->
  a ++ c :: x = b ++ c :: y -> a = b /\ x = y.
Proof.
  induction a as [|d a IH]; intros b x y A B E; destruct b as [|d' b]; cbn in *.
  - injection E as E. split; [reflexivity | exact E].
  - injection E as E1 E2. exfalso. apply B. left. symmetry. exact E1.
  - injection E as E1 E2. exfalso. apply A. left. exact E1.
  - injection E as E1 E2. subst d'. destruct (IH b x y) as [-> ->]; [tauto | tauto | exact E2 |]. split; reflexivity.
Qed.

Lemma cut_word : forall (c : ascii) a b x, ~ In c a -> a = b ++ c :: x -> False.
Proof. intros c a b x A E. apply A. rewrite E. apply in_or_app. right. left. reflexivity. Qed.

Lemma denotes_fun : forall t x y, denotes t x -> denotes t y -> x = y.
Proof. intros t x y (A & _) (B & _). congruence. Qed.

Lemma denotes_digits : forall t acc x c, decimal_from acc t = Some x -> In c t -> digit_value c <> None.
Proof.
  induction t as [|d t IH]; intros acc x c D Hin; [destruct Hin|].
  cbn in D. destruct (digit_value d) eqn:V; [|discriminate]. destruct Hin as [<-|Hin]; [congruence|].
  exact (IH _ _ _ D Hin).
Qed.

Lemma denotes_one_line : forall t x, denotes t x -> one_line t.
Proof. intros t x (D & _) Hin. apply (denotes_digits _ _ _ _ D Hin). reflexivity. Qed.

Lemma denotes_minus : forall t x, denotes ("-"%char :: t) x -> False.
Proof. intros t x (D & _). cbn in D. discriminate. Qed.

Lemma denotes_signed_fun : forall t x y, denotes_signed t x -> denotes_signed t y -> x = y.
Proof.
  intros t x y [A|(a & -> & A & _)] [B|(b & E & B & _)].
  - exact (denotes_fun _ _ _ A B).
  - subst t. destruct (denotes_minus _ _ A).
  - destruct (denotes_minus _ _ B).
  - injection E as <-. pose proof (denotes_fun _ _ _ A B). lia.
Qed.

Lemma denotes_signed_one_line : forall t x, denotes_signed t x -> one_line t.
Proof.
  intros t x [A|(a & -> & A & _)]; [exact (denotes_one_line _ _ A)|].
  intros [E|Hin]; [discriminate|]. exact (denotes_one_line _ _ A Hin).
Qed.

Lemma denotes_first : forall c t x, denotes (c :: t) x -> digit_value c <> None.
Proof. intros c t x (D & _). exact (denotes_digits _ _ _ c D (or_introl eq_refl)). Qed.

Lemma denotes_signed_first : forall c t x, denotes_signed (c :: t) x -> digit_value c <> None \/ c = "-"%char.
Proof.
  intros c t x [A|(a & E & _)]; [left; exact (denotes_first _ _ _ A)|]. injection E as -> _. right. reflexivity.
Qed.

(** Numbers. *)
Lemma size_denotes : forall a, 0 <= a < 2 ^ 64 -> denotes (std_to_string a) a.
Proof. intros a A. apply std_denotes. split; [lia|]. destruct A as [_ A]. eapply Z.lt_trans; [exact A|]. reflexivity. Qed.

Lemma offset_fun : forall x y, - 2 ^ 63 <= x < 2 ^ 63 -> - 2 ^ 63 <= y < 2 ^ 63 ->
  print_offset x = print_offset y -> x = y.
Proof.
  intros x y X Y E. unfold print_offset, print_signed in E.
  change (2 ^ 63) with 9223372036854775808 in X, Y.
  assert (Dn : forall z, 0 <= z <= 9223372036854775808 -> denotes (std_to_string z) z).
  { intros z Z0. apply size_denotes. change (2 ^ 64) with 18446744073709551616. lia. }
  destruct (0 <=? x) eqn:Px, (0 <=? y) eqn:Py; cbn [str list_ascii_of_string app] in E; try discriminate;
    injection E as E.
  - apply Z.leb_le in Px, Py. apply (denotes_fun (std_to_string x)); [apply Dn; lia|]. rewrite E. apply Dn. lia.
  - apply Z.leb_gt in Px, Py. assert (- x = - y); [|lia].
    apply (denotes_fun (std_to_string (- x))); [apply Dn; lia|]. rewrite E. apply Dn. lia.
Qed.

Lemma offset_one_line : forall x, - 2 ^ 63 <= x < 2 ^ 63 -> one_line (print_offset x).
Proof.
  intros x X. unfold print_offset, print_signed, one_line. change (2 ^ 63) with 9223372036854775808 in X.
  destruct (0 <=? x) eqn:Px; cbn [str list_ascii_of_string app]; intros [E|Hin]; try discriminate;
    revert Hin.
  - apply (denotes_one_line _ x). apply Z.leb_le in Px. apply size_denotes. change (2 ^ 64) with 18446744073709551616. lia.
  - apply (denotes_one_line _ (- x)). apply Z.leb_gt in Px. apply size_denotes. change (2 ^ 64) with 18446744073709551616. lia.
Qed.

Lemma number_denotes : forall v, value_shown v ->
  match cv_type v with TInt | TUint _ => denotes_signed (print_cvalue v) (cv_int v) | _ => True end.
Proof.
  intros [t n] H. unfold value_shown, print_cvalue in *. cbn [cv_type cv_int] in *. destruct t; try exact Logic.I.
  - destruct H as [R F]. apply C54_signed_partial; [exact R | exact F].
  - destruct H as [R F]. left. unfold to_big_uint. change (2 ^ 127) with 170141183460469231731687303715884105728 in R.
    rewrite Z.mod_small by (unfold two128; lia). apply C54_unsigned_partial; [unfold two128; lia | exact F].
Qed.

Lemma word_no_number : forall t x, In t [str "Void"; str "true"; str "false"] -> denotes_signed t x -> False.
Proof.
  intros t x [<-|[<-|[<-|[]]]] D; destruct (denotes_signed_first _ _ _ D) as [Q|Q];
    first [apply Q; reflexivity | discriminate Q].
Qed.

Lemma value_fun : forall v w, value_shown v -> value_shown w -> print_cvalue v = print_cvalue w -> same_value v w.
Proof.
  intros v w V W E. pose proof (number_denotes v V) as NV. pose proof (number_denotes w W) as NW.
  assert (B : forall b : bool, In (if b then str "false" else str "true") [str "Void"; str "true"; str "false"]).
  { intros [|]; cbn [In]; tauto. }
  assert (U : In (str "Void") [str "Void"; str "true"; str "false"]) by (left; reflexivity).
  unfold same_value. unfold print_cvalue in *.
  destruct (cv_type v) eqn:Tv, (cv_type w) eqn:Tw; try exact Logic.I;
    try (rewrite E in NV; exact (denotes_signed_fun _ _ _ NV NW));
    try (rewrite E in NV; first [exact (word_no_number _ _ U NV) | exact (word_no_number _ _ (B _) NV)]);
    try (rewrite <- E in NW; first [exact (word_no_number _ _ U NW) | exact (word_no_number _ _ (B _) NW)]).
  - destruct (cv_int w =? 0); discriminate E.
  - destruct (cv_int v =? 0); discriminate E.
  - destruct (cv_int v =? 0) eqn:Zv, (cv_int w =? 0) eqn:Zw; try discriminate E.
    + apply Z.eqb_eq in Zv, Zw. tauto.
    + apply Z.eqb_neq in Zv, Zw. tauto.
Qed.

Lemma value_one_line : forall v, value_shown v -> one_line (print_cvalue v).
Proof.
  intros v V. pose proof (number_denotes v V) as NV. unfold print_cvalue in *. destruct (cv_type v).
  - intros [A|[A|[A|[A|A]]]]; try discriminate A. destruct A.
  - destruct (cv_int v =? 0); intros Hin; cbn in Hin;
      repeat (destruct Hin as [A|Hin]; [discriminate A|]); destruct Hin.
  - exact (denotes_signed_one_line _ _ NV).
  - exact (denotes_signed_one_line _ _ NV).
Qed.

Ltac literal_line := let H := fresh in intros H; cbn in H; repeat (destruct H as [H|H]; [discriminate H|]); destruct H.

Lemma one_line_app : forall a b, one_line a -> one_line b -> one_line (a ++ b).
Proof. intros a b A B Hin. apply in_app_or in Hin. destruct Hin; [exact (A H) | exact (B H)]. Qed.

Lemma ctype_one_line : forall t, instr_shown (IConvert t) -> one_line (print_ctype t).
Proof.
  intros [| | |w] H; try literal_line. cbn [print_ctype].
  apply one_line_app; [literal_line|]. apply one_line_app; [literal_line|].
  apply one_line_app; [|literal_line]. apply (denotes_one_line _ w). apply size_denotes. exact H.
Qed.

Lemma ctype_fun : forall a b, instr_shown (IConvert a) -> instr_shown (IConvert b) ->
  print_ctype a = print_ctype b -> a = b.
Proof.
  intros a b A B E. destruct a, b; cbn [print_ctype str list_ascii_of_string app] in E; try discriminate E;
    try reflexivity.
  injection E as E. apply app_inj_tail in E. destruct E as [E _]. f_equal.
  apply (denotes_fun (std_to_string width)); [apply size_denotes; exact A|]. rewrite E. apply size_denotes. exact B.
Qed.

Lemma code_name_one_line : forall k, one_line (expression_type_code_name k).
Proof. intros k. destruct k; literal_line. Qed.

Lemma unary_fun : forall a b, unary_kind a -> unary_kind b ->
  expression_type_code_name a = expression_type_code_name b -> a = b.
Proof.
  intros a b A B E. unfold unary_kind in *. cbn in A, B.
  repeat (destruct A as [<-|A]); try destruct A;
    repeat (destruct B as [<-|B]); try destruct B; first [reflexivity | discriminate E].
Qed.

Lemma binary_fun : forall a b, binary_kind a -> binary_kind b ->
  expression_type_code_name a = expression_type_code_name b -> a = b.
Proof.
  intros a b A B E. unfold binary_kind in *. cbn in A, B.
  repeat (destruct A as [<-|A]); try destruct A;
    repeat (destruct B as [<-|B]); try destruct B; first [reflexivity | discriminate E].
Qed.

Section Pointers.

Variable print_pointer : key -> text.
Hypothesis P : pointers_shown print_pointer.

Lemma name_one_line : forall n, one_line n -> one_line (print_name n).
Proof.
  intros [|c n] H; [literal_line|]. unfold print_name. apply one_line_app; [literal_line | exact H].
Qed.

Lemma line_one_line : forall i, shown i -> one_line (print_instr print_pointer i).
Proof.
  intros [n i] [N1 H]. cbn [fst snd] in *. destruct P as (_ & _ & PL).
  destruct i; unfold print_instr; cbn [fst snd];
    repeat match goal with |- one_line (_ ++ _) => apply one_line_app end; try literal_line;
    try (apply PL); try (apply name_one_line; exact N1); try (apply code_name_one_line).
  - apply value_one_line. exact H.
  - apply offset_one_line. exact H.
  - destruct expected; literal_line.
  - apply offset_one_line. exact H.
  - apply ctype_one_line. exact H.
  - apply (denotes_one_line _ address). apply size_denotes. exact H.
  - destruct function; literal_line.
Qed.

Lemma pointer_name_fun : forall a b n m,
  print_pointer a ++ print_name n = print_pointer b ++ print_name m -> a = b /\ n = m.
Proof.
  intros a b n m E. destruct P as (PI & PS & _).
  destruct n as [|c n], m as [|d m]; unfold print_name in E; cbn [str list_ascii_of_string app] in E.
  - rewrite !app_nil_r in E. split; [apply PI; exact E | reflexivity].
  - rewrite app_nil_r in E. destruct (cut_word _ _ _ _ (PS a) E).
  - rewrite app_nil_r in E. symmetry in E. destruct (cut_word _ _ _ _ (PS b) E).
  - apply cut_at in E; [|apply PS|apply PS]. destruct E as [E1 E2]. injection E2 as -> ->.
    split; [apply PI; exact E1 | reflexivity].
Qed.

Lemma line_fun : forall i j, shown i -> shown j -> print_instr print_pointer i = print_instr print_pointer j ->
  same_instr i j.
Proof.
  intros [n i] [m j] [_ H] [_ K] E. cbn [fst snd] in *. unfold same_instr; cbn [fst snd].
  destruct i, j; unfold print_instr in E; cbn [fst snd] in E;
    unfold pad in E; cbn [str list_ascii_of_string app length Nat.sub repeat name_column_width] in E;
    try discriminate E; try reflexivity;
    repeat match type of E with (?c :: _) = (?c :: _) => injection E as E end.
  - destruct (pointer_name_fun _ _ _ _ E) as [-> ->]. reflexivity.
  - destruct (pointer_name_fun _ _ _ _ E) as [-> ->]. reflexivity.
  - exact (value_fun _ _ H K E).
  - f_equal. exact (offset_fun _ _ H K E).
  - destruct expected, expected0; cbn [str list_ascii_of_string app] in E; try discriminate E;
      repeat match type of E with (?c :: _) = (?c :: _) => injection E as E end;
      f_equal; exact (offset_fun _ _ H K E).
  - f_equal. exact (ctype_fun _ _ H K E).
  - f_equal. exact (unary_fun _ _ H K E).
  - f_equal. exact (binary_fun _ _ H K E).
  - f_equal. apply (denotes_fun (std_to_string address)); [apply size_denotes; exact H|].
    rewrite E. apply size_denotes. exact K.
  - destruct function, function0. reflexivity.
Qed.

Lemma dump_fun : forall l m, Forall shown l -> Forall shown m ->
  dump_program print_pointer l = dump_program print_pointer m -> Forall2 same_instr l m.
Proof.
  induction l as [|i l IH]; intros [|j m] L M E; cbn [dump_program] in E.
  - constructor.
  - destruct (print_instr print_pointer j); discriminate E.
  - destruct (print_instr print_pointer i); discriminate E.
  - inversion L as [|? ? Li Ll]; subst. inversion M as [|? ? Mj Mm]; subst.
    apply cut_at in E; [|apply line_one_line; assumption|apply line_one_line; assumption].
    destruct E as [E1 E2]. constructor; [exact (line_fun _ _ Li Mj E1) | exact (IH _ Ll Mm E2)].
Qed.

End Pointers.
