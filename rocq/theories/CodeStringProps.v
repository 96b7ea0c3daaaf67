(** Properties C34 and C35: attempts and highlighting spans of generated code. *)
From Coq Require Import Ascii String List Bool Arith Lia.
From Verif Require Import Prelude Text CodeString CodeStringSpec CodeStringProofs.
Import ListNotations.
Open Scope string_scope.
Open Scope list_scope.

(** C34: an attempt that is not committed leaves the string exactly as it was, whatever happened in it:
    appends, nested attempts that were or were not committed, and failed assertions. *)
Theorem C34_restores : forall body s, fst (act (A_attempt body false) s) = s.
Proof. exact attempt_restores. Qed.

(** C34: so does an attempt that an exception passes through, even if [commit] would have come later. *)
Theorem C34_thrown : forall body committed s,
  snd (act (A_attempt body committed) s) = false -> fst (act (A_attempt body committed) s) = s.
Proof. exact attempt_thrown. Qed.

(** C34: a committed attempt keeps exactly what its body wrote, and bodies only append. *)
Theorem C34_commits : forall body s,
  snd (acts body s) = true ->
  act (A_attempt body true) s = acts body s /\ extends s (fst (act (A_attempt body true) s)).
Proof.
  intros body s H. split; [apply attempt_committed; exact H | apply act_extends].
Qed.

(** C34: no sequence of appends and attempts changes what was there before it. *)
Theorem C34_appends : forall l s, extends s (fst (acts l s)).
Proof. exact acts_extends. Qed.

Definition sample : list action :=
  [ A_span (str "x") sp_identifier; A_char " ";
    A_attempt [ A_span (str "lost") sp_error; A_attempt [ A_text (str "kept?") ] true ] false;
    A_attempt [ A_parens [ A_span (str "12") sp_number; A_attempt [ A_char "!" ] false ] ] true;
    A_fill 2 ";" ].

Example sample_result :
  acts sample empty_code =
  (Code (str "x (12);;")
        [Span 0 1 sp_identifier; Span 2 1 sp_bracket; Span 3 2 sp_number; Span 5 1 sp_bracket], true).
Proof. reflexivity. Qed.

(** An exception in the middle: nothing after it happens, and the attempt around it is undone. *)
Example thrown_result :
  acts [ A_text (str "a"); A_attempt [ A_parens [ A_text (str "b"); A_span [] sp_error ] ] true;
         A_text (str "c") ] empty_code
  = (Code (str "a") [], false).
Proof. reflexivity. Qed.

(** C35: the spans of a string that was built by appends and attempts, starting from the empty string,
    are non-empty, ordered without overlap and inside the text. The property speaks of any truncation;
    here truncations are the ones that attempts make, which are the only ones in the code base. *)
Theorem C35_spans_partial : forall l, well_spanned (fst (acts l empty_code)).
Proof. intros l. apply acts_well_spanned. exact well_spanned_empty. Qed.

(** C35: this holds from any well-formed string on, so also in the middle of attempts. *)
Theorem C35_spans_kept_partial : forall l s, well_spanned s -> well_spanned (fst (acts l s)).
Proof. exact acts_well_spanned. Qed.

(** C35: gaps and spans together are the text. *)
Theorem C35_pieces_partial : forall l,
  let s := fst (acts l empty_code) in
  concat (pieces 0 (cs_spans s) (cs_text s)) = cs_text s.
Proof.
  intros l s. apply well_spanned_pieces. apply acts_well_spanned. exact well_spanned_empty.
Qed.

Example sample_pieces :
  let s := fst (acts sample empty_code) in
  pieces 0 (cs_spans s) (cs_text s)
  = [[]; str "x"; str " "; str "("; []; str "12"; []; str ")"; str ";;"].
Proof. reflexivity. Qed.

(** C35: a truncation to a length that the string never had can leave a span outside of the text:
    [resize] is public and does not look at the spans. *)
Theorem C35_resize_refuted : exists s n,
  well_spanned s /\ text_length n <= length (cs_text s) /\ span_count n <= length (cs_spans s) /\
  ~ well_spanned (resize n s).
Proof.
  exists (fst (act (A_span (str "abc") sp_keyword) empty_code)), (Length 1 1).
  split; [apply acts_well_spanned_both; exact well_spanned_empty |].
  split; [simpl; lia |]. split; [simpl; lia |].
  intros (_ & _ & H). specialize (H (Span 0 3 sp_keyword) (or_introl eq_refl)).
  unfold s_end in H. simpl in H. lia.
Qed.

(** C35: [resize] to a greater length makes empty spans. *)
Theorem C35_grow_refuted : exists s n, well_spanned s /\ ~ well_spanned (resize n s).
Proof.
  exists empty_code, (Length 0 1). split; [exact well_spanned_empty |].
  intros (H & _). specialize (H _ (or_introl eq_refl)). simpl in H. lia.
Qed.

(** * Assumptions of the theorems above *)
Print Assumptions C34_restores.
Print Assumptions C34_thrown.
Print Assumptions C34_commits.
Print Assumptions C34_appends.
Print Assumptions C35_spans_partial.
Print Assumptions C35_spans_kept_partial.
Print Assumptions C35_pieces_partial.
Print Assumptions C35_resize_refuted.
Print Assumptions C35_grow_refuted.
