(** What a highlighted string is meant to be, independently of how it is built. *)
From Coq Require Import List Arith.
From Verif Require Import Text CodeString.
Import ListNotations.

(** [later] continues [earlier]: nothing that was there has changed. *)
Definition extends (earlier later : code_string) : Prop :=
  (exists t, cs_text later = cs_text earlier ++ t) /\
  (exists l, cs_spans later = cs_spans earlier ++ l).

(** One past the last character of a span. *)
Definition s_end (x : span) : nat := s_begin x + s_length x.

(** Spans are non-empty, in increasing order without overlap, and inside the text. *)
Definition well_spanned (s : code_string) : Prop :=
  (forall x, In x (cs_spans s) -> 0 < s_length x) /\
  (forall i j x y, nth_error (cs_spans s) i = Some x -> nth_error (cs_spans s) j = Some y ->
     i < j -> s_end x <= s_begin y) /\
  (forall x, In x (cs_spans s) -> s_end x <= length (cs_text s)).

(** The characters from [i] up to [j]. *)
Definition slice (i j : nat) (t : text) : text := firstn (j - i) (skipn i t).

(** The text from position [i] on, cut at the spans: gap, span, gap, span, ..., gap. *)
Fixpoint pieces (i : nat) (spans : list span) (t : text) : list text :=
  match spans with
  | [] => [slice i (length t) t]
  | x :: r => slice i (s_begin x) t :: slice (s_begin x) (s_end x) t :: pieces (s_end x) r t
  end.
