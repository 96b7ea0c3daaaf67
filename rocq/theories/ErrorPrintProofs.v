(** Lemmas for the printing of errors of the analysis (C68). *)
From Coq Require Import ZArith Ascii String List Bool Lia.
From Verif Require Import Prelude Types Ops Text Tables Decimal AbsOps Tokenizer TokenizerSpec VM Annotations
  Diagnostics DiagnosticsSpec DiagnosticsProofs ErrorPrint ErrorPrintSpec.
From Verif Require DecimalSpec DecimalProofs DecimalProps.
Import ListNotations.
Open Scope string_scope.
Open Scope list_scope.
Open Scope nat_scope.

(** What a line tells. *)
Definition told_of (l : error_line) : told :=
  Told match el_kind l with lk_error => "error" | lk_note => "note" end
    (option_map begin (el_pos l))
    (el_message l ++ match el_comparison l with
                     | Some (x, y, op) => x ++ str " " ++ op ++ str " " ++ y
                     | None => [] end)
    (negb (el_omit l)).

Definition line_placed (source : text) (l : error_line) : Prop :=
  forall p, el_pos l = Some p -> shown_place source p.

Lemma shows_prefix : forall k, shows match k with lk_error => error_prefix | lk_note => note_prefix end
  (str match k with lk_error => "error" | lk_note => "note" end ++ str ": ").
Proof. intros []; [apply shows_error_prefix|apply shows_note_prefix]. Qed.

Lemma shows_hidden : forall c b u, shows c [] -> shows b u -> shows (c ++ b) u.
Proof. intros c b u C B. exact (shows_app c b [] u C B). Qed.
Lemma shows_same : forall a b u, shows b u -> shows (a ++ b) (a ++ u).
Proof. intros a b u B. apply shows_app; [apply shows_refl|exact B]. Qed.

Definition comparison_text (colors : bool) (c : option (text * text * text)) : text :=
  match c with
  | Some (x, y, op) =>
      color colors ansi_h_magenta ++ x ++ color colors ansi_reset ++ str " " ++ op ++ str " "
      ++ color colors ansi_h_magenta ++ y ++ color colors ansi_reset
  | None => []
  end.
Definition comparison_shown (c : option (text * text * text)) : text :=
  match c with Some (x, y, op) => x ++ str " " ++ op ++ str " " ++ y | None => [] end.

Lemma shows_comparison : forall colors c, shows (comparison_text colors c) (comparison_shown c).
Proof.
  intros colors [[[x y] op]|]; [|constructor]. cbn [comparison_text comparison_shown].
  apply shows_hidden; [apply shows_color, escape_h_magenta|].
  apply shows_same. apply shows_hidden; [apply shows_color, escape_reset|].
  do 3 apply shows_same. apply shows_hidden; [apply shows_color, escape_h_magenta|].
  rewrite <- (app_nil_r y) at 2. apply shows_same. apply shows_color, escape_reset.
Qed.

(** As [head_ok], for a message with colours. *)
Lemma head_colored : forall file source p colors prefix kind printed message,
  in_memory source -> shown_place source p -> shows prefix (str kind ++ str ": ") -> shows printed message ->
  exists head, shows (print_file_position file p colors ++ str ": " ++ prefix ++ printed ++ [ch_newline]) head
    /\ headed file source (begin p) kind message head.
Proof.
  intros file source p colors prefix kind printed message M ((EL & EC) & c & H & C) P Sm.
  assert (I0 : begin p < length source) by (apply nth_error_Some; congruence).
  destruct (find_line_ok unit _ _ _ H C) as (l & from & L & O & S0).
  pose proof (in_memory_column _ _ M I0) as CB.
  pose proof (count_newlines_firstn (begin p) source) as CF. pose proof (count_newlines_length source) as CL.
  unfold in_memory in M.
  exists (file ++ str ":" ++ number (line p + 1) ++ str ":" ++ number (column p + 1) ++ str ": "
          ++ str kind ++ str ": " ++ message ++ [ch_newline]). split.
  - unfold print_file_position. rewrite <- !app_assoc. show.
    apply (shows_app _ _ file); [apply shows_refl|]. apply (shows_app _ _ (str ":")); [apply shows_refl|].
    apply (shows_app _ _ (number (line p + 1))); [apply shows_refl|].
    apply (shows_app _ _ (str ":")); [apply shows_refl|].
    apply (shows_app _ _ (number (column p + 1))); [apply shows_refl|]. show.
    apply (shows_app _ _ (str ": ")); [apply shows_refl|].
    rewrite (app_assoc (str kind)).
    apply shows_app; [exact P|]. apply shows_app; [exact Sm|apply shows_refl].
  - exists (number (line p + 1)), (number (column p + 1)).
    split. { unfold line_number. rewrite <- EL.
             replace (Z.of_nat (line p) + 1)%Z with (Z.of_nat (line p + 1)) by lia.
             apply number_denotes. change (10 ^ 20)%Z with 100000000000000000000%Z.
             change (2 ^ 64)%Z with 18446744073709551616%Z in M. lia. }
    split; [|reflexivity]. exists l, from. split; [exact O|]. rewrite <- S0, <- EC.
    replace (Z.of_nat (column p) + 1)%Z with (Z.of_nat (column p + 1)) by lia.
    apply number_denotes. rewrite EC. exact CB.
Qed.

Lemma line_ok : forall E file source colors l, few_lines source -> in_memory source -> line_placed source l ->
  exists out part, @print_error_line E file source colors l = Ok out /\ shows out part /\
    told_as file source (told_of l) part.
Proof.
  intros E file source colors [k pos m c omit] F M P. unfold print_error_line. cbn [el_kind el_pos el_message el_comparison el_omit].
  fold (comparison_text colors c). unfold told_of. cbn [el_kind el_pos el_message el_comparison el_omit].
  fold (comparison_shown c).
  assert (Sm : shows (m ++ comparison_text colors c) (m ++ comparison_shown c))
    by (apply shows_app; [apply shows_refl|apply shows_comparison]).
  destruct pos as [p|]; cbn [option_map print_source_position].
  - specialize (P p eq_refl).
    destruct (head_colored file source p colors _ _ _ _ M P (shows_prefix k) Sm) as (head & SH & HH).
    rewrite <- app_assoc in SH.
    destruct omit; cbn [negb].
    + eexists. exists head. split; [reflexivity|]. split; [exact SH|]. constructor. exact HH.
    + destruct (affected_marked E source p colors F P) as (out & mark & A & SA & MA). rewrite A. cbn [bind].
      eexists. exists (head ++ mark). split; [reflexivity|]. split; [apply shows_app; [exact SH|exact SA]|].
      constructor; [exact HH|exact MA].
  - eexists. exists (str "(internal): " ++ str match k with lk_error => "error" | lk_note => "note" end ++ str ": "
      ++ (m ++ comparison_shown c) ++ [ch_newline]).
    split; [destruct omit; reflexivity|]. split; [|constructor].
    change (str "(internal): ") with (str "(internal)" ++ str ": ").
    rewrite <- !app_assoc. apply shows_hidden; [apply shows_color, escape_black|].
    apply shows_same. apply shows_hidden; [apply shows_color, escape_reset|].
    apply shows_same. rewrite (app_assoc (str match k with lk_error => _ | lk_note => _ end)).
    apply shows_app; [apply shows_prefix|]. rewrite !app_assoc. apply shows_app; [exact Sm|apply shows_refl].
Qed.

Lemma lines_ok : forall E file source colors l, few_lines source -> in_memory source ->
  Forall (line_placed source) l ->
  exists out parts, @print_error_lines E file source colors l = Ok out /\ shows out (concat parts) /\
    Forall2 (told_as file source) (map told_of l) parts.
Proof.
  intros E file source colors l F M. induction l as [|x l IH]; intros P.
  - exists [], []. split; [reflexivity|]. split; constructor.
  - inversion P as [|? ? Px Pl]; subst. destruct (IH Pl) as (out & parts & O & S0 & T).
    destruct (line_ok E file source colors x F M Px) as (o & p & Ox & Sx & Tx).
    cbn [print_error_lines]. rewrite Ox. cbn [bind]. rewrite O. cbn [bind].
    exists (o ++ out), (p :: parts). split; [reflexivity|]. split; [cbn [concat]; apply shows_app; assumption|].
    cbn [map]. constructor; assumption.
Qed.

(** * Values *)

Lemma value_written : forall v, writable v -> written v (value_to_string v).
Proof.
  intros [t z] W. unfold writable, written, value_to_string in *. cbn [cv_type cv_int] in *. destruct t.
  - reflexivity.
  - destruct (Z.eqb_spec z 0); [left|right]; auto.
  - destruct W as [R P]. apply DecimalProps.C54_signed_partial; assumption.
  - destruct W as [R P]. unfold to_big_uint. rewrite Z.mod_small by exact R.
    apply DecimalProps.C54_unsigned_partial; assumption.
Qed.

(** * The lines *)

(** Lines at the places of the error. *)
Definition lines_of (e : analysis_error) (l : list error_line) : Prop :=
  Forall (fun x => el_pos x = di_pos (ae_fail e) \/ el_pos x = cause_pos e) l.

Lemma lines_placed : forall source e l, in_source source e -> lines_of e l -> Forall (line_placed source) l.
Proof.
  intros source e l I L. eapply Forall_impl; [|exact L]. intros x [X|X] p P.
  - rewrite X in P. exact (I (ae_fail e) p (or_introl eq_refl) P).
  - rewrite X in P. unfold cause_pos in P. destruct (ae_cause e) as [c|] eqn:C; [|discriminate P].
    exact (I c p (or_intror C) P).
Qed.

Lemma cause_place_pos : forall e, cause_place e = option_map begin (cause_pos e).
Proof. intros e. unfold cause_place, cause_pos, place_of. destruct (ae_cause e); reflexivity. Qed.

Lemma app_not_nil : forall {A} (a b : list A), a <> [] -> a ++ b <> [].
Proof. intros A [|x a] b H; [contradiction|discriminate]. Qed.

Lemma prose_not_nil : forall c, analysis_prose c <> [].
Proof. intros []; discriminate. Qed.
Lemma cause_not_nil : forall c, cause_prose c <> [].
Proof. intros []; discriminate. Qed.
Lemma execution_not_nil : forall c, execution_prose c <> [].
Proof. intros []; discriminate. Qed.

(** The two special cases. *)
Lemma made_return : forall E e, is_return_type_error e = true -> ae_cause e <> None -> ae_type e <> None ->
  exists l, @make_error_printable E e = Ok (l, false) /\ lines_of e l /\ about e (map told_of l).
Proof.
  intros E e R C T. unfold make_error_printable. rewrite R.
  destruct (ae_cause e) as [c|] eqn:Ec; [|contradiction]. destruct (ae_type e) as [t|]; [|contradiction].
  assert (Co : code_of e = ac_incompatible_types)
    by (unfold is_return_type_error in R; destruct (code_of e); try discriminate R; reflexivity).
  eexists. split; [reflexivity|]. split.
  - constructor; [left; reflexivity|]. constructor; [right; reflexivity|constructor].
  - cbn [map]. unfold told_of. cbn [el_kind el_pos el_message el_comparison el_omit negb]. constructor.
    + eexists _, _. split; [unfold place_of; reflexivity|]. split; [destruct (ctype_eqb t TVoid); discriminate|].
      constructor; [|constructor]. cbn [t_kind t_message t_place]. split; [reflexivity|].
      split; [destruct (ctype_eqb t TVoid); discriminate|]. right. symmetry. apply cause_place_pos.
    + intros c' Hc N. rewrite Ec in Hc. injection Hc as <-. eexists. split.
      * right. left. unfold cause_pos. rewrite Ec. reflexivity.
      * congruence.
    + congruence.
    + intros x c' X. unfold code_of in Co. rewrite X in Co. discriminate Co.
    + congruence.
    + congruence.
    + congruence.
    + intros x X. unfold code_of in Co. rewrite X in Co. discriminate Co.
Qed.

Lemma made_width : forall E e v, code_of e = ac_width_invalid -> ae_value e = Some (AV TInt (Some v)) ->
  (v <= 0 \/ 128 < v)%Z ->
  exists l, @make_error_printable E e = Ok (l, false) /\ lines_of e l /\ about e (map told_of l).
Proof.
  intros E e v C V R. unfold make_error_printable.
  assert (is_return_type_error e = false) as -> by (unfold is_return_type_error; rewrite C; reflexivity).
  rewrite C. unfold width_line. rewrite V. cbn [as_int av_val av_type ctype_eqb assert_then bind].
  assert (X : exists r, (if (v <? 0)%Z then (Ok (ErrorLine lk_error (di_pos (ae_fail e)) ((str "The width evaluated to " ++ to_string_int v) ++ str ", but widths must be positive.") None false) : outcome E error_line)
      else if (v =? 0)%Z then Ok (ErrorLine lk_error (di_pos (ae_fail e)) ((str "The width evaluated to " ++ to_string_int v) ++ str ", but widths shall not be zero.") None false)
      else if (uint_max_width <? v)%Z
      then Ok (ErrorLine lk_error (di_pos (ae_fail e)) ((str "The width evaluated to " ++ to_string_int v) ++ str ", but the maximum allowed is " ++ std_to_string uint_max_width ++ str ".") None false)
      else Abort) = Ok (ErrorLine lk_error (di_pos (ae_fail e)) (str "The width evaluated to " ++ to_string_int v ++ str "," ++ r) None false)).
  { unfold uint_max_width. destruct (Z.ltb_spec v 0).
    - exists (str " but widths must be positive."). rewrite <- app_assoc. reflexivity.
    - destruct (Z.eqb_spec v 0).
      + exists (str " but widths shall not be zero."). rewrite <- app_assoc. reflexivity.
      + destruct (Z.ltb_spec 128 v); [|lia].
        exists (str " but the maximum allowed is " ++ std_to_string 128 ++ str "."). rewrite <- app_assoc. reflexivity. }
  destruct X as (r & X). rewrite X. cbn [bind]. eexists. split; [reflexivity|]. split.
  - constructor; [left; reflexivity|constructor].
  - cbn [map]. unfold told_of. cbn [el_kind el_pos el_message el_comparison el_omit negb]. constructor.
    + eexists _, _. split; [unfold place_of; reflexivity|]. split; [discriminate|constructor].
    + congruence.
    + congruence.
    + intros x c' Y. unfold code_of in C. rewrite Y in C. discriminate C.
    + intros v' _ V' W. rewrite V in V'. injection V' as <-. exists (to_string_int v), r.
      split; [rewrite app_nil_r; reflexivity|]. exact (value_written (CV TInt v) W).
    + congruence.
    + congruence.
    + intros x Y. unfold code_of in C. rewrite Y in C. discriminate C.
Qed.

Lemma made_other : forall E e, is_return_type_error e = false -> code_of e <> ac_width_invalid ->
  @make_error_printable E e =
    (let* x := execution_note e in
     let* a := argument_note e in
     Ok (ErrorLine lk_error (di_pos (ae_fail e)) (analysis_prose (code_of e)) None false
         :: x ++ a ++ cause_note e, is_internal e)).
Proof.
  intros E e R C. unfold make_error_printable. rewrite R. destruct (code_of e); try reflexivity. contradiction C. reflexivity.
Qed.

Lemma cause_notes : forall e, Forall (fun x => el_kind x = lk_note /\ el_message x <> [] /\ el_pos x = cause_pos e) (cause_note e).
Proof.
  intros e. unfold cause_note, cause_pos.
  assert (G : forall c, ae_cause e = Some c ->
    Forall (fun x => el_kind x = lk_note /\ el_message x <> [] /\ el_pos x = di_pos c)
      [ErrorLine lk_note (di_pos c)
        (match ae_code e with d_evaluation x => str "Caused by: " ++ evaluation_prose x | _ => cause_prose (code_of e) end
         ++ match di_pos c with
            | Some _ => []
            | None => str " (" ++ construct_prose (di_construct c)
                ++ match di_name c with [] => [] | name => str " '" ++ name ++ str "'" end ++ str ")"
            end) None false]).
  { intros c Ec. constructor; [|constructor]. cbn [el_kind el_message el_pos]. split; [reflexivity|].
    split; [|reflexivity]. apply app_not_nil.
    destruct (ae_code e); first [discriminate|apply cause_not_nil]. }
  destruct (ae_extras e) as [|f|w].
  - destruct (ae_cause e) as [c|] eqn:Ec; [|constructor]. exact (G c eq_refl).
  - constructor; [|constructor]. cbn [el_kind el_message el_pos]. split; [reflexivity|]. split; [discriminate|reflexivity].
  - destruct (ae_cause e) as [c|] eqn:Ec; [|constructor]. exact (G c eq_refl).
Qed.

Lemma made : forall E e, printable e ->
  exists l b, @make_error_printable E e = Ok (l, b) /\ lines_of e l /\ about e (map told_of l) /\
    b = is_internal e.
Proof.
  intros E e [[P1 [P2 P3]] PR PW PA].
  destruct (is_return_type_error e) eqn:R.
  { assert (Co : code_of e = ac_incompatible_types /\ di_construct (ae_fail e) = dc_return_statement).
    { unfold is_return_type_error in R. destruct (code_of e); try discriminate R.
      destruct (di_construct (ae_fail e)); try discriminate R. auto. }
    destruct Co as [C1 C2]. destruct (PR C1 C2) as [X Y].
    destruct (made_return E e R X Y) as (l & L & A & B). exists l, false. repeat (split; [assumption|]).
    unfold is_internal; unfold code_of in *; destruct (ae_code e); try reflexivity; discriminate. }
  assert (W : code_of e = ac_width_invalid \/ code_of e <> ac_width_invalid)
    by (destruct (code_of e); auto; right; discriminate).
  destruct W as [W|W].
  { destruct (PW W) as (v & V & B). destruct (made_width E e v W V B) as (l & L & A & C).
    exists l, false. repeat (split; [assumption|]).
    unfold is_internal; unfold code_of in *; destruct (ae_code e); try reflexivity; discriminate. }
  rewrite (made_other E e R W).
  assert (X : exists x, @execution_note E e = Ok x /\
     Forall (fun l => el_kind l = lk_note /\ el_message l <> [] /\ el_pos l = di_pos (ae_fail e)) x /\
     (forall c, ae_code e = d_execution c -> x = [ErrorLine lk_note (di_pos (ae_fail e)) (execution_prose c) None false])).
  { unfold execution_note. destruct (ae_code e) as [c|c|c|] eqn:Ec.
    - exists []. split; [destruct c; congruence|]. split; [constructor|discriminate].
    - exists []. split; [reflexivity|]. split; [constructor|discriminate].
    - eexists. split; [reflexivity|]. split.
      + constructor; [|constructor]. split; [reflexivity|]. split; [apply execution_not_nil|reflexivity].
      + intros c' X. injection X as <-. reflexivity.
    - congruence. }
  destruct X as (x & Ex & Fx & Hx).
  assert (A : exists a, @argument_note E e = Ok a /\
     Forall (fun l => el_kind l = lk_note /\ el_message l <> [] /\ el_pos l = di_pos (ae_fail e)) a /\
     (forall w, ae_extras e = ex_wrong_argument w -> exists r,
       (code_of e = ac_annotation_argument_wrong_type -> r = parameter_type_prose (wa_expected w)) /\
       a = [ErrorLine lk_note (di_pos (ae_fail e)) (str "Parameter '" ++ wa_name w ++ str "' must be " ++ r) None true])).
  { unfold argument_note. destruct (ae_extras e) as [|f|w] eqn:Ee.
    - exists []. split; [reflexivity|]. split; [constructor|discriminate].
    - exists []. split; [reflexivity|]. split; [constructor|discriminate].
    - destruct (PA w eq_refl W eq_refl) as [C|C]; rewrite C; cbn [bind]; eexists; (split; [reflexivity|]); (split;
        [constructor; [|constructor]; split; [reflexivity|]; split; [discriminate|reflexivity]
        |intros w' X; injection X as <-; eexists; split; [|reflexivity]; first [reflexivity|discriminate]]). }
  destruct A as (a & Ea & Fa & Ha).
  rewrite Ex. cbn [bind]. rewrite Ea. cbn [bind]. eexists _, _. split; [reflexivity|].
  pose proof (cause_notes e) as Fc.
  split; [|split; [|auto]].
  - constructor; [left; reflexivity|]. apply Forall_app. split.
    + eapply Forall_impl; [|exact Fx]. intros l (_ & _ & H). left. exact H.
    + apply Forall_app. split.
      * eapply Forall_impl; [|exact Fa]. intros l (_ & _ & H). left. exact H.
      * eapply Forall_impl; [|exact Fc]. intros l (_ & _ & H). right. exact H.
  - constructor.
    + eexists _, _. split; [cbn [map]; unfold told_of at 1; cbn [el_kind el_pos el_message el_comparison el_omit negb]; reflexivity|].
      split; [rewrite app_nil_r; apply prose_not_nil|].
      rewrite Forall_map, !Forall_app.
      assert (G : forall (l : error_line), el_kind l = lk_note -> el_message l <> [] ->
        t_kind (told_of l) = "note" /\ t_message (told_of l) <> []).
      { intros l K M. unfold told_of. rewrite K. cbn [t_kind t_message]. split; [reflexivity|].
        apply app_not_nil. exact M. }
      split; [|split].
      * eapply Forall_impl; [|exact Fx]. intros l (K & M & H). destruct (G l K M). repeat split; try assumption.
        left. unfold told_of, place_of. cbn [t_place]. rewrite H. reflexivity.
      * eapply Forall_impl; [|exact Fa]. intros l (K & M & H). destruct (G l K M). repeat split; try assumption.
        left. unfold told_of, place_of. cbn [t_place]. rewrite H. reflexivity.
      * eapply Forall_impl; [|exact Fc]. intros l (K & M & H). destruct (G l K M). repeat split; try assumption.
        right. unfold told_of. cbn [t_place]. rewrite H. symmetry. apply cause_place_pos.
    + intros c Ec _.
      assert (L : exists y, In y (cause_note e) /\ el_kind y = lk_note /\ el_pos y = di_pos c /\ el_omit y = false /\
        ((forall f, ae_extras e <> ex_comparison f) -> di_pos c = None -> el_comparison y = None /\
          exists b, el_message y = b ++ str " (" ++ construct_prose (di_construct c) ++
            match di_name c with [] => [] | _ => str " '" ++ di_name c ++ str "'" end ++ str ")")).
      { unfold cause_note, cause_pos. rewrite Ec. destruct (ae_extras e) as [|f|w]; eexists;
          (split; [left; reflexivity|]); (split; [reflexivity|]); (split; [reflexivity|]); (split; [reflexivity|]);
          intros NC NP; try (destruct (NC f eq_refl)); cbn [el_comparison el_message];
          (split; [reflexivity|]); rewrite NP; eexists; (destruct (di_name c); reflexivity). }
      destruct L as (y & Iy & Ky & Py & Oy & My). exists (t_message (told_of y)). split.
      * apply (in_map told_of) in Iy. cbn [map]. right. rewrite !map_app. apply in_or_app. right. apply in_or_app. right.
        replace (Told "note" (place_of c) (t_message (told_of y)) true) with (told_of y); [exact Iy|].
        unfold told_of, place_of. rewrite Ky, Py, Oy. reflexivity.
      * intros _ NC NP. destruct (My NC NP) as (N & b & B). exists b. unfold told_of. cbn [t_message].
        rewrite N, B, app_nil_r. reflexivity.
    + intros _ _. eexists. cbn [map]. unfold told_of at 1. cbn [el_kind el_pos el_message el_comparison el_omit negb].
      rewrite app_nil_r. reflexivity.
    + intros k c Ek Ec NC.
      assert (L : exists r, In (ErrorLine lk_note (di_pos c) (str "Caused by: " ++ evaluation_prose k ++ r) None false)
                              (cause_note e)).
      { unfold cause_note. rewrite Ec, Ek. destruct (ae_extras e) as [|f|w]; try (destruct (NC f eq_refl));
          eexists; left; cbn [app]; rewrite <- app_assoc; reflexivity. }
      destruct L as (r & L). exists r. apply (in_map told_of) in L. cbn [map]. right. rewrite !map_app.
      apply in_or_app. right. apply in_or_app. right. unfold told_of at 1 in L.
      cbn [el_kind el_pos el_message el_comparison el_omit negb] in L. rewrite app_nil_r in L. exact L.
    + congruence.
    + intros f Ef _ _ Wl Wr. exists (value_to_string (cf_left f)), (value_to_string (cf_right f)).
      split; [apply value_written; exact Wl|]. split; [apply value_written; exact Wr|].
      cbn [map]. right. rewrite !map_app. apply in_or_app. right. apply in_or_app. right.
      unfold cause_note. rewrite Ef. left. unfold told_of. cbn [el_kind el_pos el_message el_comparison el_omit negb].
      rewrite cause_place_pos. reflexivity.
    + intros w Ew _ _. destruct (Ha w Ew) as (r & Q & ->). exists r. split; [|exact Q]. cbn [map]. right. rewrite !map_app.
      apply in_or_app. right. apply in_or_app. left. left. unfold told_of.
      cbn [el_kind el_pos el_message el_comparison el_omit negb]. rewrite app_nil_r. reflexivity.
    + intros c Hc. rewrite (Hx c Hc). cbn [map]. right. left. unfold told_of.
      cbn [el_kind el_pos el_message el_comparison el_omit negb]. rewrite app_nil_r. reflexivity.
Qed.

(** Nothing else can be printed. *)
Lemma made_only : forall E e p, @make_error_printable E e = Ok p -> printable e.
Proof.
  intros E e p H. unfold make_error_printable in H.
  destruct (is_return_type_error e) eqn:R.
  { assert (Co : code_of e = ac_incompatible_types).
    { unfold is_return_type_error in R. destruct (code_of e); try discriminate R. reflexivity. }
    destruct (ae_cause e) eqn:Ec; [|discriminate H]. destruct (ae_type e) eqn:Et; [|discriminate H].
    constructor; try congruence.
    - split; [|split]; intros X; unfold code_of in Co; rewrite X in Co; discriminate Co.
    - intros _ _. split; congruence. }
  assert (NR : code_of e = ac_incompatible_types -> di_construct (ae_fail e) = dc_return_statement -> False)
    by (intros C1 C2; unfold is_return_type_error in R; rewrite C1, C2 in R; discriminate R).
  assert (W : code_of e = ac_width_invalid \/ code_of e <> ac_width_invalid)
    by (destruct (code_of e); auto; right; discriminate).
  destruct W as [W|W].
  { rewrite W in H. unfold width_line in H. destruct (ae_value e) as [[t [z|]]|] eqn:V; try discriminate H.
    unfold as_int in H. cbn [av_val av_type] in H. destruct t; try discriminate H. cbn [ctype_eqb assert_then bind] in H.
    constructor; try congruence.
    - split; [|split]; intros X; unfold code_of in W; rewrite X in W; discriminate W.
    - intros _. exists z. split; [exact V|]. unfold uint_max_width in H.
      destruct (Z.ltb_spec z 0); [lia|]. destruct (Z.eqb_spec z 0); [lia|]. destruct (Z.ltb_spec 128 z); [lia|discriminate H]. }
  assert (H' : @make_error_printable E e = Ok p) by (unfold make_error_printable; rewrite R; exact H).
  rewrite (made_other E e R W) in H'. clear H.
  destruct (execution_note e) as [x| | |] eqn:Ex; try discriminate H'. cbn [bind] in H'.
  destruct (argument_note e) as [a| | |] eqn:Ea; try discriminate H'.
  constructor; try congruence.
  - unfold execution_note in Ex. split; [|split]; intros X; rewrite X in Ex; discriminate Ex.
  - intros C1 C2. destruct (NR C1 C2).
  - intros w Ew _ _. unfold argument_note in Ea. rewrite Ew in Ea.
    destruct (code_of e); try discriminate Ea; auto.
Qed.
