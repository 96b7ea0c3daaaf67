(** What the diagnostic of an error of the analysis should show.  This does not model code of the
    repository, except that it speaks about the fields of an error and the places that build one. *)
From Coq Require Import ZArith Ascii String List Bool.
From Verif Require Import Prelude Types Text Tables AbsOps Tokenizer TokenizerSpec VM Annotations DiagnosticsSpec
  DiagnosticsProofs ErrorPrint.
From Verif Require DecimalSpec.
Import ListNotations.
Open Scope string_scope.
Open Scope list_scope.
Open Scope nat_scope.

(** One message of a diagnostic: what kind of message, where, and whether the line is shown. *)
Record told : Type := Told { t_kind : string; t_place : option nat; t_message : text; t_marked : bool }.

(** How it looks. *)
Inductive told_as (file source : text) : told -> text -> Prop :=
| ta_marked : forall kind i m head mark,
    headed file source i kind m head -> marked source i mark ->
    told_as file source (Told kind (Some i) m true) (head ++ mark)
| ta_head : forall kind i m head,
    headed file source i kind m head -> told_as file source (Told kind (Some i) m false) head
| ta_nowhere : forall kind m b,
    told_as file source (Told kind None m b) (str "(internal): " ++ str kind ++ str ": " ++ m ++ [ch_newline]).

(** The whole diagnostic; [end_] is what is printed below the messages. *)
Definition tells (file source : text) (l : list told) (end_ out : text) : Prop :=
  exists parts, shows out (concat parts ++ end_) /\ Forall2 (told_as file source) l parts.

(** Where something is. *)
Definition place_of (d : debug_info) : option nat := option_map begin (di_pos d).
Definition cause_place (e : analysis_error) : option nat :=
  match ae_cause e with Some c => place_of c | None => None end.

(** [t] is how the value [v] is written. *)
Definition written (v : cvalue) (t : text) : Prop :=
  match cv_type v with
  | TVoid => t = str "Void"
  | TBool => (cv_int v = 0%Z /\ t = str "false") \/ (cv_int v <> 0%Z /\ t = str "true")
  | TInt => DecimalSpec.denotes_signed t (cv_int v)
  | TUint _ => DecimalSpec.denotes t (cv_int v)
  end.

(** The values for which that is shown (see C54). *)
Definition writable (v : cvalue) : Prop :=
  match cv_type v with
  | TVoid | TBool => True
  | TInt => (- two127 <= cv_int v < two127)%Z /\ DecimalSpec.full_parts (Z.abs (cv_int v))
  | TUint _ => (0 <= cv_int v < two128)%Z /\ DecimalSpec.full_parts (cv_int v)
  end.

(** The messages [l] are about the error [e]: the error is shown first, at the place of the failure; all else
    is a note at that place or at the cause. *)
Record about (e : analysis_error) (l : list told) : Prop := {
  ab_error : exists m notes, l = Told "error" (place_of (ae_fail e)) m true :: notes /\ m <> [] /\
    Forall (fun t => t_kind t = "note" /\ t_message t <> [] /\
                     (t_place t = place_of (ae_fail e) \/ t_place t = cause_place e)) notes;
  (** the cause is shown, and named if it has no place *)
  ab_cause : forall c, ae_cause e = Some c -> code_of e <> ac_width_invalid ->
    exists m, In (Told "note" (place_of c) m true) l /\
      (is_return_type_error e = false -> (forall f, ae_extras e <> ex_comparison f) -> di_pos c = None ->
       exists a, m = a ++ str " (" ++ construct_prose (di_construct c) ++
         match di_name c with [] => [] | _ => str " '" ++ di_name c ++ str "'" end ++ str ")");
  (** it is told which error it is *)
  ab_code : code_of e <> ac_width_invalid -> is_return_type_error e = false ->
    exists notes, l = Told "error" (place_of (ae_fail e)) (analysis_prose (code_of e)) true :: notes;
  (** the reason of a failed evaluation is told at its cause *)
  ab_reason : forall x c, ae_code e = d_evaluation x -> ae_cause e = Some c ->
    (forall f, ae_extras e <> ex_comparison f) ->
    exists r, In (Told "note" (place_of c) (str "Caused by: " ++ evaluation_prose x ++ r) true) l;
  (** a width is shown *)
  ab_width : forall v, code_of e = ac_width_invalid -> ae_value e = Some (AV TInt (Some v)) ->
    writable (CV TInt v) ->
    exists n r, l = [Told "error" (place_of (ae_fail e)) (str "The width evaluated to " ++ n ++ str "," ++ r) true]
      /\ written (CV TInt v) n;
  (** the sides of a comparison are shown *)
  ab_comparison : forall f, ae_extras e = ex_comparison f -> code_of e <> ac_width_invalid ->
    is_return_type_error e = false -> writable (cf_left f) -> writable (cf_right f) ->
    exists x y, written (cf_left f) x /\ written (cf_right f) y /\
      In (Told "note" (cause_place e)
            (str "Comparison evaluated to " ++ x ++ str " " ++ expression_type_code_name (cf_op f) ++ str " " ++ y)
            true) l;
  (** the parameter of an annotation is named *)
  ab_argument : forall w, ae_extras e = ex_wrong_argument w -> code_of e <> ac_width_invalid ->
    is_return_type_error e = false ->
    exists r, In (Told "note" (place_of (ae_fail e)) (str "Parameter '" ++ wa_name w ++ str "' must be " ++ r) false) l /\
      (code_of e = ac_annotation_argument_wrong_type -> r = parameter_type_prose (wa_expected w));
  (** an error of the machine is told *)
  ab_execution : forall x, ae_code e = d_execution x ->
    In (Told "note" (place_of (ae_fail e)) (execution_prose x) true) l
}.

(** The errors that only a defect of the analysis or of the generated code can cause. *)
Definition unexpected (e : analysis_error) : Prop :=
  code_of e = ac_execution_error \/ ae_code e = d_evaluation type_error.

(** The errors that can be printed. *)
Record printable (e : analysis_error) : Prop := {
  pr_code : ae_code e <> d_execution_lost /\ ae_code e <> d_plain ac_execution_error /\
            ae_code e <> d_plain ac_evaluation_error;
  pr_return : code_of e = ac_incompatible_types -> di_construct (ae_fail e) = dc_return_statement ->
    ae_cause e <> None /\ ae_type e <> None;
  pr_width : code_of e = ac_width_invalid ->
    exists v, ae_value e = Some (AV TInt (Some v)) /\ (v <= 0 \/ 128 < v)%Z;
  pr_argument : forall w, ae_extras e = ex_wrong_argument w -> code_of e <> ac_width_invalid ->
    is_return_type_error e = false ->
    code_of e = ac_annotation_argument_wrong_type \/ code_of e = ac_annotation_argument_wrong_value
}.

(** The places of the error are places of the source. *)
Definition in_source (source : text) (e : analysis_error) : Prop :=
  forall d p, (d = ae_fail e \/ ae_cause e = Some d) -> di_pos d = Some p -> shown_place source p.

(** The values with which a place is reached: a width is only rejected if it is out of range
    (src/bms/analyze.cpp:229). *)
Definition reached (s : site) : Prop :=
  match s with
  | st_width_invalid _ v => (v <= 0 \/ 128 < v)%Z
  | _ => True
  end.

(** The two places whose errors cannot be printed. *)
Definition hopeless (s : site) : Prop :=
  match s with
  | st_return_incompatible _ _ => True
  | st_execution (x_evaluation _) _ _ _ => False
  | st_execution _ _ _ _ => True
  | _ => False
  end.
