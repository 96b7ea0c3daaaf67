(** C12, C13, C14: literals, comments and string literals. *)
From Coq Require Import ZArith Ascii String List Bool Lia.
From Verif Require Import Prelude Text Literals LiteralsSpec LiteralsProofs.
Import ListNotations.
Open Scope string_scope.
Open Scope list_scope.
Open Scope Z_scope.

(** ** C12: Integer literals denote their positional value *)

(** Full statement: an accepted digit string evaluates to its positional value, and a value that does
    not fit is rejected.  The second half is false (see [C12_overflow_refuted]): the overflow check
    compares with the previous value only.  Proved: every value that fits is accepted exactly. *)
Theorem C12_fitting_value_exact_partial : forall base s v,
  base = 2 \/ base = 8 \/ base = 10 \/ base = 16 ->
  denotes base s v -> s <> [] -> Forall (fun c => ~ is_upper_case c) s -> v < 2 ^ 128 ->
  parse_uinteger_digits s base = Some v.
Proof. exact parse_digits_fits. Qed.

Example C12_fitting_example : parse_uinteger_digits "ffffffffffffffffffffffffffffffff" 16 = Some (2 ^ 128 - 1)
  /\ parse_uinteger_digits "340282366920938463463374607431768211455" 10 = Some (2 ^ 128 - 1).
Proof. vm_compute. auto. Qed.

(** Whatever is accepted is right modulo 2^128. *)
Theorem C12_accepted_modulo_partial : forall base s v r,
  base = 2 \/ base = 8 \/ base = 10 \/ base = 16 ->
  denotes base s v -> parse_uinteger_digits s base = Some r -> r = v mod 2 ^ 128.
Proof. exact parse_digits_modulo. Qed.

(** In base 2 the property holds in full. *)
Theorem C12_binary_exact : forall s v, s <> [] -> denotes 2 s v ->
  parse_uinteger_digits s 2 = if v <? 2 ^ 128 then Some v else None.
Proof. exact parse_binary_exact. Qed.

Example C12_binary_example :
  parse_uinteger_digits "10110" 2 = Some 22
  /\ parse_uinteger_digits (repeat "1"%char 128) 2 = Some (2 ^ 128 - 1)
  /\ parse_uinteger_digits (repeat "1"%char 129) 2 = None.
Proof. vm_compute. auto. Qed.

(** In the other bases a value up to a certain bound beyond 2^128 is rejected. *)
Theorem C12_near_overflow_rejected_partial : forall base s v,
  base = 2 \/ base = 8 \/ base = 10 \/ base = 16 -> denotes base s v -> s <> [] ->
  2 ^ 128 <= v -> (base - 1) * v < base * 2 ^ 128 -> parse_uinteger_digits s base = None.
Proof. exact parse_near_overflow. Qed.

Example C12_near_overflow_example :
  parse_uinteger_digits "340282366920938463463374607431768211456" 10 = None
  /\ parse_uinteger_digits "340282366920938463463374607431768211459" 10 = None
  /\ parse_uinteger_digits "100000000000000000000000000000000" 16 = None.
Proof. vm_compute. auto. Qed.

(** The decimal number 4 * 10^38 does not fit but is accepted with another value. *)
Theorem C12_overflow_refuted : exists base s v r,
  denotes base s v /\ 2 ^ 128 <= v /\ parse_uinteger_digits s base = Some r /\ r <> v.
Proof.
  exists 10, (str "400000000000000000000000000000000000000"),
    400000000000000000000000000000000000000,
    59717633079061536536625392568231788544.
  split; [exact denotes_32_zeros|]. vm_compute. repeat split; discriminate.
Qed.

(** The same for whole literals, as read by the parser ([is_literal_text] in LiteralsSpec.v: prefix
    and digits); the value a program literal gets is a signed 128-bit integer. *)
Theorem C12_int_literal_value_partial : forall t p ds v,
  is_literal_text t p ds -> denotes (base_of t) ds v ->
  Forall (fun c => ~ is_upper_case c) ds -> v < 2 ^ 127 ->
  parse_integer_literal p = Some v.
Proof. exact literal_int_value. Qed.

Theorem C12_negative_literal_value_partial : forall t p ds v,
  is_literal_text t p ds -> denotes (base_of t) ds v ->
  Forall (fun c => ~ is_upper_case c) ds -> v <= 2 ^ 127 ->
  parse_integer_literal ("-"%char :: p) = Some (- v).
Proof. exact literal_negative_value. Qed.

Example C12_int_literal_example :
  parse_integer_literal "0x7f" = Some 127 /\ parse_integer_literal "0755" = Some 493 /\
  parse_integer_literal "-0b101" = Some (-5) /\ parse_integer_literal "0" = Some 0.
Proof. vm_compute. auto. Qed.

(** A literal of 2^127 or more silently becomes negative. *)
Theorem C12_int_literal_refuted : exists t p ds r,
  is_literal_text t p ds /\ parse_integer_literal p = Some r /\ r < 0.
Proof.
  exists decimal_lit, (str "170141183460469231731687303715884105728"),
    (str "170141183460469231731687303715884105728"), (- 2 ^ 127).
  split; [|vm_compute; auto].
  apply lit_decimal; [discriminate|exists 1; split; [reflexivity|lia]|].
  repeat (apply Forall_cons; [eexists; split; reflexivity|]). apply Forall_nil.
Qed.

(** ** C13: The literal recogniser *)

(** A recognised literal is a prefix of the input with the shape of its kind, and the character after
    it is not a digit: of the literal's base, or after a lone [0] not an octal digit. *)
Theorem C13_recognised_is_maximal_literal : forall s len t,
  match_integer_literal s = LM lm_ok len t ->
  exists p ds rest, s = p ++ rest /\ length p = len /\ is_literal_text t p ds
    /\ (match rest with
        | [] => True
        | c :: _ => ~ is_digit_of (if Nat.eqb len 1 then if starts_with s "0" then 8 else 10
                                   else base_of t) c
        end).
Proof. exact match_integer_literal_ok. Qed.

Example C13_recognised_example :
  match_integer_literal "0x1fg" = LM lm_ok 4 hexadecimal_lit /\
  match_integer_literal "0778" = LM lm_ok 3 octal_lit /\
  match_integer_literal "0+1" = LM lm_ok 1 decimal_lit /\
  match_integer_literal "120)" = LM lm_ok 3 decimal_lit.
Proof. vm_compute. auto. Qed.

(** The two failures happen exactly when no literal can start or a prefix has no digits. *)
Theorem C13_no_digits_exactly : forall s,
  lm_status (match_integer_literal s) = lm_no_digits <->
  match s with [] => True | c :: _ => ~ is_digit_of 10 c end.
Proof. exact match_integer_literal_no_digits. Qed.

Theorem C13_prefix_only_exactly : forall s,
  lm_status (match_integer_literal s) = lm_no_digits_following_prefix <->
  (exists r, s = str "0b" ++ r /\ match r with [] => True | c :: _ => ~ is_digit_of 2 c end)
  \/ (exists r, s = str "0x" ++ r /\ match r with [] => True | c :: _ => ~ is_digit_of 16 c end).
Proof. exact match_integer_literal_prefix_only. Qed.

(** Full statement: a recognised literal whose value fits is never rejected by the value parser.
    Missing: hexadecimal literals with upper-case digits, for which it is false. *)
Theorem C13_recognised_has_value_partial : forall s len t,
  match_integer_literal s = LM lm_ok len t ->
  Forall (fun c => ~ is_upper_case c) (firstn len s) ->
  exists ds v, is_literal_text t (firstn len s) ds /\ denotes (base_of t) ds v
    /\ (v < 2 ^ 128 -> parse_uinteger_literal (firstn len s) = Some v).
Proof. exact recognised_has_value. Qed.

Example C13_value_example :
  match_integer_literal "0xffu" = LM lm_ok 4 hexadecimal_lit /\
  parse_uinteger_literal (firstn 4 (str "0xffu")) = Some 255.
Proof. vm_compute. auto. Qed.

Theorem C13_upper_case_refuted : exists s len t ds v,
  match_integer_literal s = LM lm_ok len t /\ is_literal_text t (firstn len s) ds /\
  denotes (base_of t) ds v /\ v < 2 ^ 128 /\ parse_uinteger_literal (firstn len s) = None.
Proof.
  exists (str "0xFF"), 4%nat, hexadecimal_lit, (str "FF"), 255.
  split; [reflexivity|]. split.
  { apply (lit_hex (str "FF")); [discriminate|].
    repeat (apply Forall_cons; [exists 15; split; [reflexivity|lia]|]). apply Forall_nil. }
  split; [|split; [reflexivity|reflexivity]].
  change 255 with (15 * 16 ^ Z.of_nat (length (str "F")) + (15 * 16 ^ Z.of_nat (length (str "")) + 0)).
  constructor; [reflexivity|reflexivity|]. constructor; [reflexivity|reflexivity|]. constructor.
Qed.

(** ** C14: Comments and string literals *)

Theorem C14_line_comment : forall s,
  match match_line_comment s with
  | None => forall r, s <> str "//" ++ r
  | Some (TM len true) =>
      exists p r, s = p ++ ch_newline :: r /\ length p = len
                  /\ starts_with p "//" = true /\ ~ In ch_newline p
  | Some (TM len false) => starts_with s "//" = true /\ len = length s /\ ~ In ch_newline s
  end.
Proof. exact line_comment_spec. Qed.

Theorem C14_block_comment : forall s,
  match match_block_comment s with
  | None => forall r, s <> str "/*" ++ r
  | Some (TM len true) =>
      exists body r, s = str "/*" ++ body ++ str "*/" ++ r /\ len = (length body + 4)%nat
        /\ forall j, occurs_at "*/" (body ++ str "*/" ++ r) j -> (length body <= j)%nat
  | Some (TM len false) =>
      exists r, s = str "/*" ++ r /\ len = length s /\ forall j, ~ occurs_at "*/" r j
  end.
Proof. exact block_comment_spec. Qed.

(** The string literal ends at the first unescaped quote ([string_body] contains no unescaped
    quote, and the decomposition is unique).  Missing from the full statement: "on the same line",
    which is false. *)
Theorem C14_string_literal_partial : forall s,
  match match_string_literal s with
  | None => forall r, s <> ch_quote :: r
  | Some (TM len true) =>
      exists body r, s = ch_quote :: body ++ ch_quote :: r /\ string_body body
                     /\ len = (length body + 2)%nat
  | Some (TM len false) =>
      len = length s /\ (exists r, s = ch_quote :: r)
      /\ forall body r, string_body body -> s <> ch_quote :: body ++ ch_quote :: r
  end.
Proof. exact string_literal_spec. Qed.

Theorem C14_string_literal_end_unique : forall b1 b2 r1 r2,
  string_body b1 -> string_body b2 ->
  b1 ++ ch_quote :: r1 = b2 ++ ch_quote :: r2 -> b1 = b2 /\ r1 = r2.
Proof. exact string_body_unique. Qed.

Theorem C14_same_line_refuted : exists s len,
  match_string_literal s = Some (TM len true) /\ In ch_newline (firstn len s).
Proof.
  exists [ch_quote; ch_newline; ch_quote], 3%nat. split; [reflexivity|]. cbn. auto.
Qed.

Example C14_example :
  match_line_comment (str "// a" ++ [ch_newline; "b"%char]) = Some (TM 4 true) /\
  match_line_comment "// a" = Some (TM 4 false) /\
  match_block_comment "/* / * */ */" = Some (TM 9 true) /\
  match_block_comment "/*/" = Some (TM 3 false) /\
  match_string_literal ([ch_quote; "a"%char; ch_backslash; ch_quote; "b"%char; ch_quote] ++ str "x")
    = Some (TM 6 true).
Proof. vm_compute. auto. Qed.

(** * Assumptions of the theorems above *)
Print Assumptions C12_fitting_value_exact_partial.
Print Assumptions C12_accepted_modulo_partial.
Print Assumptions C12_binary_exact.
Print Assumptions C12_near_overflow_rejected_partial.
Print Assumptions C12_overflow_refuted.
Print Assumptions C12_int_literal_value_partial.
Print Assumptions C12_negative_literal_value_partial.
Print Assumptions C12_int_literal_refuted.
Print Assumptions C13_recognised_is_maximal_literal.
Print Assumptions C13_no_digits_exactly.
Print Assumptions C13_prefix_only_exactly.
Print Assumptions C13_recognised_has_value_partial.
Print Assumptions C13_upper_case_refuted.
Print Assumptions C14_line_comment.
Print Assumptions C14_block_comment.
Print Assumptions C14_string_literal_partial.
Print Assumptions C14_string_literal_end_unique.
Print Assumptions C14_same_line_refuted.
