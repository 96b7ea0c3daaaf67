(** What a diagnostic should show.  This does not model code of the repository. *)
From Coq Require Import ZArith Ascii String List Bool.
From Verif Require Import Prelude Text Tables Literals LiteralsSpec Tokenizer TokenizerSpec.
From Verif Require DecimalSpec.
Import ListNotations.
Open Scope string_scope.
Open Scope list_scope.
Open Scope nat_scope.

(** * What is seen on a terminal *)

(** A sequence of characters that only sets the colour. *)
Definition escape (t : text) : Prop := exists parameters,
  t = ["027"%char; "["%char] ++ parameters ++ str "m" /\
  Forall (fun c => DecimalSpec.digit_value c <> None \/ c = ";"%char) parameters.

(** [out] is [t] with some colours. *)
Inductive shows : text -> text -> Prop :=
| sh_end : shows [] []
| sh_char : forall c out t, shows out t -> shows (c :: out) (c :: t)
| sh_color : forall e out t, escape e -> shows out t -> shows (e ++ out) t.

(** * Places *)

(** The line [l] of the source, which begins at [from], has the offset [i]; a line feed and the end of the
    source belong to the line that they end. *)
Definition on_line (source : text) (i : nat) (l : text) (from : nat) : Prop :=
  exists before after, source = before ++ l ++ after /\ length before = from /\
    (before = [] \/ exists b, before = b ++ [ch_newline]) /\
    ~ In ch_newline l /\
    (after = [] \/ exists a, after = ch_newline :: a) /\
    from <= i <= from + length l.

(** The number of the line with the offset [i], and of its column; both count from one. *)
Definition line_number (source : text) (i : nat) (t : text) : Prop :=
  DecimalSpec.denotes t (Z.of_nat (count_newlines (firstn i source)) + 1).
Definition column_number (source : text) (i : nat) (t : text) : Prop :=
  exists l from, on_line source i l from /\ DecimalSpec.denotes t (Z.of_nat (i - from) + 1).

(** The line with the offset [i] with its number, and below it a mark that stands under that character. *)
Definition marked (source : text) (i : nat) (t : text) : Prop :=
  exists spaces n l from blank under,
    t = spaces ++ n ++ str " | " ++ l ++ [ch_newline] ++ blank ++ str " | " ++ under ++ str "^" ++ [ch_newline] /\
    line_number source i n /\ on_line source i l from /\
    Forall (eq " "%char) (spaces ++ blank ++ under) /\
    length blank = length (spaces ++ n) /\ length under = i - from.

(** The message with the place in front of it. *)
Definition headed (file source : text) (i : nat) (kind : string) (message t : text) : Prop :=
  exists l c, line_number source i l /\ column_number source i c /\
    t = file ++ str ":" ++ l ++ str ":" ++ c ++ str ": " ++ str kind ++ str ": " ++ message ++ [ch_newline].

(** A whole diagnostic: the messages, and the line. *)
Definition diagnosed (file source : text) (i : nat) (messages : list (string * text)) (out : text) : Prop :=
  exists heads mark,
    shows out (concat heads ++ mark) /\ marked source i mark /\
    Forall2 (fun m t => headed file source i (fst m) (snd m) t) messages heads.

(** * What is wrong at a place *)

(** No word, number, string or operator begins with the first character of [s]. *)
Definition no_token (s : text) : Prop :=
  exists c r, s = c :: r /\ ~ is_white c /\ ~ is_identifier_char c /\ c <> ch_quote /\
    forall t q r', operator_spelling t = Some q -> s <> str q ++ r'.

(** The source has an error of that kind at the offset [i]. *)
Definition trouble (source : text) (c : tokenize_error_code) (i : nat) : Prop :=
  match c with
  | illegal_character => no_token (skipn i source)
  | unterminated_comment => exists r, skipn i source = str "/*" ++ r /\ forall j, ~ occurs_at (str "*/") r j
  | unterminated_string => exists r, skipn i source = ch_quote :: r /\
      forall body r', string_body body -> r <> body ++ ch_quote :: r'
  | integer_suffix => exists a k p ds c r, source = a ++ p ++ c :: r /\ length (a ++ p) = i /\
      is_literal_text k p ds /\ is_identifier_char c
  | no_digits_following_integer_prefix => exists a base r,
      (source = a ++ str "0b" ++ r /\ base = 2%Z \/ source = a ++ str "0x" ++ r /\ base = 16%Z) /\
      length a + 2 = i /\ match r with [] => True | c :: _ => ~ is_digit_of base c end
  end.

(** Sources in which every character takes one column. *)
Definition plain_columns (source : text) : Prop := ~ In ch_tab source /\ ~ In ch_cr source.

(** Sources whose lines have numbers of at most five digits. *)
Definition few_lines (source : text) : Prop := (Z.of_nat (count_newlines source) < 99999)%Z.

(** Sources that fit into memory. *)
Definition in_memory (source : text) : Prop := (Z.of_nat (length source) < 2 ^ 64)%Z.

