(** Proofs about the directive table. *)
From Coq Require Import ZArith Ascii String List Bool Lia Sorted.
From Verif Require Import Prelude Text Literals LiteralsProofs Directives DirectivesSpec.
Import ListNotations.
Open Scope string_scope.
Open Scope list_scope.
Open Scope Z_scope.

Lemma code_inj : forall x y, code x = code y -> x = y.
Proof.
  intros x y H. unfold code in H. apply N2Z.inj in H.
  rewrite <- (ascii_N_embedding x), <- (ascii_N_embedding y), H. reflexivity.
Qed.

Lemma text_ltb_irrefl : forall a, text_ltb a a = false.
Proof.
  induction a as [|x a IH]; [reflexivity|]. cbn [text_ltb]. rewrite !Z.ltb_irrefl. exact IH.
Qed.

Lemma text_ltb_trans : forall a b c, text_ltb a b = true -> text_ltb b c = true -> text_ltb a c = true.
Proof.
  induction a as [|x a IH]; intros [|y b] [|z c] H1 H2; try discriminate; try reflexivity.
  cbn [text_ltb] in *.
  destruct (Z.ltb_spec (code x) (code y)).
  - destruct (Z.ltb_spec (code y) (code z)).
    + destruct (Z.ltb_spec (code x) (code z)); [reflexivity|lia].
    + destruct (Z.ltb_spec (code z) (code y)); [discriminate|].
      destruct (Z.ltb_spec (code x) (code z)); [reflexivity|lia].
  - destruct (Z.ltb_spec (code y) (code x)); [discriminate|].
    assert (E : code x = code y) by lia. rewrite E in *.
    destruct (Z.ltb_spec (code y) (code z)); [reflexivity|].
    destruct (Z.ltb_spec (code z) (code y)); [discriminate|]. eauto.
Qed.

Lemma text_ltb_total : forall a b, text_ltb a b = false -> text_ltb b a = false -> a = b.
Proof.
  induction a as [|x a IH]; intros [|y b] H1 H2; try discriminate; [reflexivity|].
  cbn [text_ltb] in *.
  destruct (Z.ltb_spec (code x) (code y)); [discriminate|].
  destruct (Z.ltb_spec (code y) (code x)); [discriminate|].
  rewrite (code_inj x y) by lia. f_equal. eauto.
Qed.

Lemma text_ltb_precedes : forall a b, text_ltb a b = true <-> precedes a b.
Proof.
  split.
  - revert b. induction a as [|x a IH]; intros [|y b] H; try discriminate.
    + exists []. left. split; [reflexivity|]. exists y, b. reflexivity.
    + cbn [text_ltb] in H.
      destruct (Z.ltb_spec (code x) (code y)).
      * exists []. right. exists x, a, y, b. auto.
      * destruct (Z.ltb_spec (code y) (code x)); [discriminate|].
        rewrite (code_inj x y) by lia.
        destruct (IH _ H) as [p [[-> [z [q ->]]]|[u [a' [v [b' [-> [-> L]]]]]]]].
        -- exists (y :: p). left. split; [reflexivity|]. exists z, q. reflexivity.
        -- exists (y :: p). right. exists u, a', v, b'. auto.
  - intros [p [[-> [y [q ->]]]|[x [a' [y [b' [-> [-> L]]]]]]]]; induction p as [|c p IH].
    + reflexivity.
    + cbn [text_ltb app]. rewrite Z.ltb_irrefl. exact IH.
    + cbn [text_ltb app]. destruct (Z.ltb_spec (code x) (code y)); [reflexivity|lia].
    + cbn [text_ltb app]. rewrite Z.ltb_irrefl. exact IH.
Qed.

(** * Binary search *)

(** The ids of the table increase. *)
Definition sorted (table : list (text * directive_type)) : Prop :=
  forall i j a b, (i < j)%nat -> nth_error table i = Some a -> nth_error table j = Some b ->
    text_ltb (fst a) (fst b) = true.

Lemma lower_bound_correct : forall fuel table id first len,
  sorted table -> (len < fuel)%nat -> (first + len <= length table)%nat ->
  (forall i a, (i < first)%nat -> nth_error table i = Some a -> text_ltb (fst a) id = true) ->
  (forall i a, (first + len <= i)%nat -> nth_error table i = Some a -> text_ltb (fst a) id = false) ->
  exists r, lower_bound fuel table id first len = Some r /\
    (forall i a, (i < r)%nat -> nth_error table i = Some a -> text_ltb (fst a) id = true) /\
    (forall i a, (r <= i)%nat -> nth_error table i = Some a -> text_ltb (fst a) id = false).
Proof.
  induction fuel as [|fuel IH]; intros table id first len HS HF HL HB HA; [lia|].
  cbn [lower_bound]. destruct len as [|n].
  - exists first. rewrite Nat.add_0_r in HA. auto.
  - set (len := S n) in *. set (half := Nat.div2 len).
    assert (Hh : (half < len)%nat) by (subst half len; apply Nat.lt_div2; lia).
    destruct (nth_error table (first + half)) as [[middle t]|] eqn:E.
    2:{ apply nth_error_None in E. lia. }
    destruct (text_ltb middle id) eqn:C.
    + apply IH; [exact HS|lia|lia| |].
      * intros i a Hi Ha. destruct (Nat.eq_dec i (first + half)) as [->|Ne].
        -- rewrite E in Ha. injection Ha as <-. exact C.
        -- eapply text_ltb_trans; [eapply (HS i (first + half)%nat); [lia|exact Ha|exact E]|exact C].
      * intros i a Hi. apply HA. lia.
    + apply IH; [exact HS|lia|lia|exact HB|].
      intros i a Hi Ha. destruct (Nat.eq_dec i (first + half)) as [->|Ne].
      * rewrite E in Ha. injection Ha as <-. exact C.
      * destruct (text_ltb (fst a) id) eqn:D; [|reflexivity].
        rewrite (text_ltb_trans middle (fst a) id) in C; [discriminate| |exact D].
        change middle with (fst (middle, t)). eapply (HS (first + half)%nat i); [lia|exact E|exact Ha].
Qed.

Lemma lookup_id_correct : forall table id,
  sorted table ->
  exists r, lookup_id table id = Some r /\
    match r with
    | Ok (Some t) => In (id, t) table
    | Ok None => (forall t, ~ In (id, t) table) /\
                 exists a, In a table /\ text_ltb (fst a) id = false
    | Err _ => False
    | Abort => False
    | UB => forall a, In a table -> text_ltb (fst a) id = true
    end.
Proof.
  intros table id HS. unfold lookup_id.
  destruct (lower_bound_correct (S (length table)) table id 0 (length table)) as [i [-> [HB HA]]];
    try assumption; try lia.
  { intros i a Hi Ha. assert (nth_error table i <> None) by congruence.
    match goal with H : nth_error table i <> None |- _ => apply nth_error_Some in H end. lia. }
  eexists. split; [reflexivity|].
  destruct (nth_error table i) as [[found t]|] eqn:E.
  - destruct (text_eqb found id) eqn:Q.
    + apply text_eqb_eq in Q. subst found. eapply nth_error_In. exact E.
    + split.
      * intros t' Hin. apply In_nth_error in Hin. destruct Hin as [j Hj].
        assert (Hne : i <> j).
        { intros ->. rewrite E in Hj. injection Hj as -> _.
          assert (text_eqb id id = true) by (apply text_eqb_eq; reflexivity). congruence. }
        destruct (Nat.lt_ge_cases j i) as [L|L].
        -- specialize (HB j _ L Hj). cbn [fst] in HB. rewrite text_ltb_irrefl in HB. discriminate.
        -- specialize (HS i j _ _ ltac:(lia) E Hj). cbn [fst] in HS.
           specialize (HA i _ (le_n _) E). cbn [fst] in HA. congruence.
      * exists (found, t). split; [eapply nth_error_In; exact E|]. exact (HA i _ (le_n _) E).
  - apply nth_error_None in E. intros a Hin. apply In_nth_error in Hin. destruct Hin as [j Hj].
    apply (HB j); [|exact Hj].
    assert (H : nth_error table j <> None) by congruence. apply nth_error_Some in H. lia.
Qed.

Fixpoint sortedb (table : list (text * directive_type)) : bool :=
  match table with
  | [] => true
  | a :: rest => forallb (fun b => text_ltb (fst a) (fst b)) rest && sortedb rest
  end.

Lemma sortedb_sorted : forall table, sortedb table = true -> sorted table.
Proof.
  induction table as [|c rest IH]; intros H i j a b L Ha Hb.
  - destruct i; discriminate.
  - cbn [sortedb] in H. apply andb_true_iff in H. destruct H as [H1 H2].
    destruct j as [|j]; [lia|]. cbn [nth_error] in Hb.
    destruct i as [|i]; cbn [nth_error] in Ha.
    + injection Ha as <-. rewrite forallb_forall in H1. apply (H1 b). eapply nth_error_In. exact Hb.
    + eapply (IH H2 i j); eauto. lia.
Qed.

Lemma directive_table_sorted : sorted directive_table.
Proof. apply sortedb_sorted. vm_compute. reflexivity. Qed.

(** The search of the table ends. *)
Lemma lookup_id_ends : forall id, lookup_id directive_table id <> None.
Proof.
  intros id. destruct (lookup_id_correct directive_table id directive_table_sorted) as [r [-> _]].
  discriminate.
Qed.

Lemma in_directive_table : forall id t, In (id, t) directive_table <-> id = name_of t.
Proof.
  intros id t. split.
  - intros H. unfold directive_table in H. cbn [In] in H.
    repeat (destruct H as [H|H]; [injection H as <- <-; reflexivity|]). destruct H.
  - intros ->. destruct t; cbn -[str]; tauto.
Qed.

Lemma directive_lookup : forall id,
  match directive_type_by_id id with
  | Ok (Some t) => id = name_of t
  | Ok None => (forall t, id <> name_of t) /\ ~ beyond_all id
  | UB => beyond_all id
  | Err _ | Abort => False
  end.
Proof.
  intros id. unfold directive_type_by_id.
  destruct (lookup_id_correct directive_table id directive_table_sorted) as [r [-> H]].
  destruct r as [[t|]| | |]; try contradiction.
  - apply in_directive_table. exact H.
  - destruct H as [H [[a u] [Ha Hb]]]. split.
    + intros t E. apply (H t). apply in_directive_table. exact E.
    + intros B. apply in_directive_table in Ha. subst a. specialize (B u).
      apply text_ltb_precedes in B. cbn [fst] in Hb. congruence.
  - intros t. apply text_ltb_precedes. apply (H (name_of t, t)). apply in_directive_table. reflexivity.
Qed.

Lemma name_of_inj : forall t u, name_of t = name_of u -> t = u.
Proof. intros t u. destruct t; destruct u; intros H; try reflexivity; discriminate H. Qed.

Lemma not_beyond_name : forall t, ~ beyond_all (name_of t).
Proof.
  intros t B. specialize (B t). apply text_ltb_precedes in B. rewrite text_ltb_irrefl in B. discriminate.
Qed.

Lemma beyond_ul : forall id, beyond_all id <-> precedes (str "ul") id.
Proof.
  intros id. split.
  - intros B. exact (B dt_unordered_list).
  - intros P t. apply text_ltb_precedes in P. apply text_ltb_precedes.
    destruct (text_ltb (name_of t) (str "ul")) eqn:C.
    + exact (text_ltb_trans _ _ _ C P).
    + destruct t; try discriminate C. exact P.
Qed.
