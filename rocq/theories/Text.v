(** Strings as lists of characters, and the [std::string_view] operations the code uses.
    A C++ [char] is an 8-bit [ascii]; comparisons between characters in the code only involve
    characters below 128, for which signedness of [char] does not matter. *)
From Coq Require Import ZArith Ascii String List Bool.
Import ListNotations.

(** [std::string_view] (e.g. src/common/parse.hpp:73). *)
Definition text : Type := list ascii.

(** String literals such as those at src/common/parse.cpp:93. *)
Definition str (s : string) : text := list_ascii_of_string s.
Coercion str : string >-> text.

(** [c - '0'] and similar: the code of a character (src/common/parse.cpp:53). *)
Definition code (c : ascii) : Z := Z.of_N (N_of_ascii c).

(** [==] on characters (src/common/parse.cpp:126). *)
Definition char_eqb (a b : ascii) : bool := Ascii.eqb a b.

(** Equality of strings ([operator==] of [std::string_view], e.g.
    src/bms/tokenization/tokenize.cpp:55). *)
Fixpoint text_eqb (a b : text) : bool :=
  match a, b with
  | [], [] => true
  | x :: a', y :: b' => char_eqb x y && text_eqb a' b'
  | _, _ => false
  end.

(** [s.starts_with(p)] (src/common/parse.cpp:93). *)
Fixpoint starts_with (s p : text) {struct p} : bool :=
  match p, s with
  | [], _ => true
  | x :: p', y :: s' => char_eqb x y && starts_with s' p'
  | _ :: _, [] => false
  end.

(** [set.find(c) != npos] for a string used as a character set
    (src/bms/tokenization/tokenize.cpp:289). *)
Definition in_set (c : ascii) (set : text) : bool := existsb (char_eqb c) set.

(** Length of the longest prefix of characters satisfying [f];
    [std::min(s.find_first_not_of(set), s.size())] for [f := fun c => in_set c set]
    (src/common/parse.cpp:145). *)
Fixpoint prefix_length (f : ascii -> bool) (s : text) : nat :=
  match s with
  | c :: s' => if f c then S (prefix_length f s') else 0
  | [] => 0
  end.

(** [s.find(c)] (src/common/parse.cpp:96). *)
Fixpoint find_char (c : ascii) (s : text) : option nat :=
  match s with
  | [] => None
  | x :: s' => if char_eqb c x then Some 0 else option_map S (find_char c s')
  end.

(** [s.find(p)] (src/common/parse.cpp:109). *)
Fixpoint find_text (p s : text) : option nat :=
  if starts_with s p then Some 0
  else match s with
       | [] => None
       | _ :: s' => option_map S (find_text p s')
       end.

(** Named characters (src/common/parse.hpp:67, src/common/parse.cpp:126-129). *)
Definition ch_newline : ascii := "010"%char.
Definition ch_tab : ascii := "009"%char.
Definition ch_cr : ascii := "013"%char.
Definition ch_quote : ascii := """"%char.
Definition ch_backslash : ascii := "\"%char.
