(** Properties of annotation arguments: C41. *)
From Coq Require Import ZArith Ascii String List Bool Lia.
From Verif Require Import Prelude Text Literals LiteralsSpec LiteralsProofs Tables
  Annotations AnnotationsSpec AnnotationsProofs.
Import ListNotations.
Open Scope string_scope.
Open Scope list_scope.
Open Scope Z_scope.

(** C41. The arguments of an accepted annotation are bound from left to right, positional ones to the
    first parameter not yet given and named ones to the parameter of that name; no parameter is given
    twice, every value is one its parameter admits, and no required parameter is missing.  The values
    are kept in the order of the arguments. *)
Theorem C41_accepted : forall t args vs, Forall well_formed args -> process_arguments t args = Ok vs ->
  exists slots, bound t [] args slots /\ all_suit t args slots vs
    /\ (forall i, required_at t i -> In i slots).
Proof.
  intros t args vs W E. pose proof (process_spec t args W) as S. rewrite E in S. exact S.
Qed.

(** C41. All such arguments are accepted, as long as hexadecimal digits are in lower case (C13). *)
Theorem C41_accepted_if : forall t args slots vs, Forall well_formed args -> Forall lower_case args ->
  bound t [] args slots -> all_suit t args slots vs -> (forall i, required_at t i -> In i slots) ->
  process_arguments t args = Ok vs.
Proof. exact process_complete. Qed.

(** C41. There is only one way to bind arguments, and no parameter is bound twice. *)
Theorem C41_binding_unique : forall t args s1 s2, bound t [] args s1 -> bound t [] args s2 ->
  s1 = s2 /\ NoDup s1.
Proof.
  intros t args s1 s2 B1 B2. split; [eapply bound_unique; eassumption|].
  assert (G : forall given, NoDup given -> forall l s, bound t given l s -> NoDup (given ++ s)).
  { intros given N l s B. revert N. induction B as [given|given a l i s F B IH]; intros N.
    - rewrite app_nil_r. exact N.
    - replace (given ++ i :: s) with ((given ++ [i]) ++ s) by (rewrite <- app_assoc; reflexivity).
      apply IH. apply NoDup_Add with (a := i) (l := given).
      + rewrite <- (app_nil_r given) at 1. apply Add_app.
      + split; [exact N|]. inversion F; subst; assumption. }
  apply (G [] (NoDup_nil _) args s1 B1).
Qed.

(** C41. Rejections say what is wrong: a superfluous, unknown, duplicate, ill-typed or inadmissible
    argument after arguments that are in order, or a missing one. *)
Theorem C41_rejected : forall t args e, Forall well_formed args -> process_arguments t args = Err e ->
  rejected t args e.
Proof.
  intros t args e W E. pose proof (process_spec t args W) as S. rewrite E in S. exact S.
Qed.

(** C41. Arguments from the parser never fail an assertion. *)
Theorem C41_total : forall t args, Forall well_formed args -> defined (process_arguments t args).
Proof.
  intros t args W. pose proof (process_spec t args W) as S.
  destruct (process_arguments t args); cbn; tauto.
Qed.

(** C41. All annotations of a node are resolved, in order, when their names are known, they belong on the
    node and their arguments are accepted. *)
Theorem C41_resolved : forall c ns l, do_resolve c ns = Ok l <->
  Forall2 (fun n r => annotation_type_name (an_type r) = pn_name n /\ belongs_on (an_type r) c
                      /\ process_arguments (an_type r) (pn_arguments n) = Ok (an_arguments r)) ns l.
Proof.
  intros c. induction ns as [|n ns IH]; intros l; cbn [do_resolve].
  - split; [intros [= <-]; constructor|intros H; inversion H; reflexivity].
  - split.
    + destruct (annotation_type_by_name (pn_name n)) as [t|] eqn:En; [|discriminate].
      apply type_by_name_spec in En.
      destruct (annotation_type_applicable_to t c) eqn:Ea; cbn [negb]; [|discriminate].
      apply applicable_spec in Ea.
      destruct (process_arguments t (pn_arguments n)) as [vs| | |] eqn:Ep; cbn [bind]; try discriminate.
      destruct (do_resolve c ns) as [r| | |]; cbn [bind]; try discriminate.
      intros [= <-]. constructor; [cbn; auto|]. apply IH. reflexivity.
    + intros H. inversion H as [|? r ? l' (Hn & Hb & Hp) Hrest]; subst.
      apply type_by_name_spec in Hn. rewrite Hn. apply applicable_spec in Hb. rewrite Hb. cbn [negb].
      rewrite Hp. cbn [bind]. apply IH in Hrest. rewrite Hrest. cbn [bind]. destruct r. reflexivity.
Qed.

(** C41 (partial). When the arguments are given in the order of the parameters, the [i]-th value of the
    resolved annotation is the one for parameter [i].  In full: for every accepted argument list.  That
    fails: [C41_presentation_refuted]. *)
Theorem C41_presentation_partial : forall t args vs n, Forall well_formed args ->
  process_arguments t args = Ok vs -> bound t [] args (seq 0 n) ->
  List.length vs = n /\ forall i v, nth_error vs i = Some v ->
    exists a, nth_error args i = Some a /\ suits t a i v.
Proof.
  intros t args vs n W E B. destruct (C41_accepted t args vs W E) as (slots & B' & Su & _).
  assert (slots = seq 0 n) by (eapply bound_unique; eassumption). subst slots. clear -Su.
  assert (G : forall args' s vs', all_suit t args' s vs' -> forall k m, s = seq k m ->
    List.length vs' = m /\ forall i v, nth_error vs' i = Some v ->
      exists a, nth_error args' i = Some a /\ suits t a (k + i) v).
  { induction 1 as [|a j v args' s vs' Hs _ IH]; intros k m E.
    - destruct m; [|discriminate E]. split; [reflexivity|]. intros [|i] v H; discriminate H.
    - destruct m as [|m]; [discriminate E|]. cbn in E. injection E as -> E.
      destruct (IH (S k) m E) as [L G]. split; [cbn; congruence|].
      intros [|i] w H.
      + injection H as <-. exists a. rewrite Nat.add_0_r. split; [reflexivity|exact Hs].
      + destruct (G i w H) as (b & Hb & Sb). exists b. split; [exact Hb|].
        replace (k + S i)%nat with (S k + i)%nat by lia. exact Sb. }
  destruct (G args (seq 0 n) vs Su 0%nat n eq_refl) as [L G']. split; [exact L|exact G'].
Qed.

(** C41. The resolved annotation does not present arguments under their parameters: two argument lists
    that give different values to the same parameters are resolved to the same annotation. *)
Definition positional (s : string) : annotation_argument := AA [] (str s) tk_string_literal.
Definition named (k s : string) : annotation_argument := AA (str k) (str s) tk_string_literal.

Theorem C41_presentation_refuted : exists args1 args2 vs,
  Forall well_formed args1 /\ Forall well_formed args2
  /\ process_arguments an_c_equivalent args1 = Ok vs /\ process_arguments an_c_equivalent args2 = Ok vs
  /\ bound an_c_equivalent [] args1 [0%nat; 1%nat] /\ bound an_c_equivalent [] args2 [1%nat; 0%nat].
Proof.
  exists [named "function" "stdc_leading_zeros"; named "include" "stdbit.h"],
         [named "include" "stdc_leading_zeros"; named "function" "stdbit.h"],
         [av_string (str "stdc_leading_zeros"); av_string (str "stdbit.h")].
  assert (W : forall k s, string_body (str s) -> well_formed (named k s)) by (intros; constructor; assumption).
  assert (B1 : string_body (str "stdc_leading_zeros")) by (repeat (constructor; try discriminate)).
  assert (B2 : string_body (str "stdbit.h")) by (repeat (constructor; try discriminate)).
  split; [repeat (apply Forall_cons; [apply W; assumption|]); apply Forall_nil|].
  split; [repeat (apply Forall_cons; [apply W; assumption|]); apply Forall_nil|].
  split; [vm_compute; reflexivity|]. split; [vm_compute; reflexivity|].
  split; (eapply bound_cons; [apply by_name; [discriminate|reflexivity|cbn; intuition lia]|]);
    (eapply bound_cons; [apply by_name; [discriminate|reflexivity|cbn; intuition lia]|]); constructor.
Qed.

(** An annotation with positional and named arguments in mixed order, and the same with a duplicate. *)
Example C41_example :
  process_arguments an_c_equivalent
    [AA (str "since") (str "0x17") tk_hexadecimal_literal; positional "f"; positional "stdbit.h"]
  = Ok [av_int 23; av_string (str "f"); av_string (str "stdbit.h")]
  /\ process_arguments an_c_equivalent [positional "f"; named "function" "g"] = Err ae_argument_duplicate
  /\ process_arguments an_unroll [AA [] (str "129") tk_decimal_literal] = Err ae_argument_wrong_value
  /\ process_arguments an_unroll [] = Err ae_missing_argument
  /\ bound an_c_equivalent []
       [AA (str "since") (str "0x17") tk_hexadecimal_literal; positional "f"; positional "stdbit.h"]
       [2%nat; 0%nat; 1%nat].
Proof.
  split; [vm_compute; reflexivity|]. split; [vm_compute; reflexivity|].
  split; [vm_compute; reflexivity|]. split; [vm_compute; reflexivity|].
  eapply bound_cons; [apply by_name; [discriminate|reflexivity|cbn; intuition lia]|].
  eapply bound_cons; [apply by_position; [reflexivity|cbn; lia|cbn; intuition lia|intros j H; lia]|].
  eapply bound_cons; [apply by_position; [reflexivity|cbn; lia|cbn; intuition lia|]|constructor].
  intros j H. assert (j = 0%nat) by lia. subst j. cbn. auto.
Qed.

(** The names are those of the enumerators, so [inline] is not known but [inline_] is. *)
Example C41_names : annotation_type_by_name (str "inline") = None
  /\ annotation_type_by_name (str "inline_") = Some an_inline
  /\ do_resolve co_function [PAnn (str "instantiate") [AA [] (str "8") tk_decimal_literal];
                             PAnn (str "remove_if_unused") []]
     = Ok [Ann an_instantiate [av_int 8]; Ann an_remove_if_unused []].
Proof. vm_compute. auto. Qed.

(** * Assumptions of the theorems above *)
Print Assumptions C41_accepted.
Print Assumptions C41_accepted_if.
Print Assumptions C41_binding_unique.
Print Assumptions C41_rejected.
Print Assumptions C41_total.
Print Assumptions C41_resolved.
Print Assumptions C41_presentation_partial.
Print Assumptions C41_presentation_refuted.
