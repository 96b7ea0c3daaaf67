(** Which tokens C reads in a text that is put together from words, numbers, punctuators and white space. *)
From Coq Require Import ZArith Ascii String List Bool Lia.
From Verif Require Import Prelude Text Types Literals LiteralsSpec Tables Tokenizer TokenizerSpec DecimalSpec PrintSpec CGrammar CGrammarFacts.
Import ListNotations.
Open Scope string_scope.
Open Scope list_scope.
Open Scope nat_scope.

(** What may follow a word or a number. *)
Definition c_stops (s : text) : Prop := match s with [] => True | c :: _ => In c [" "; "("; ")"; ","; ":"]%char end.

Lemma stops_not : forall c s, c_stops (c :: s) -> ~ c_nondigit c /\ ~ c_digit c /\ c <> "."%char /\ c <> "'"%char.
Proof.
  intros c s H. cbn in H. unfold c_nondigit, c_digit.
  destruct H as [<- | [<- | [<- | [<- | [<- | []]]]]]; vm_compute; intuition (congruence || discriminate).
Qed.

Lemma prefix_split : forall (u v t s : text), u ++ v = t ++ s -> length t < length u ->
  exists c r, u = t ++ c :: r /\ s = c :: r ++ v.
Proof.
  induction u as [|a u IH]; intros v [|b t] s E L; cbn in *; try lia.
  - subst s. exists a, u. auto.
  - injection E as -> E. destruct (IH v t s E ltac:(lia)) as (c & r & -> & ->). exists c, r. auto.
Qed.

Lemma slash_first : forall c s, c <> "/"%char -> ~ starts_comment (c :: s).
Proof. intros c s N (r & [E | E]); injection E as E _; exact (N E). Qed.

Lemma reads_space : forall s ks, reads s ks -> reads (" "%char :: s) ks.
Proof.
  intros s ks H. destruct H as [w W | w t k s ks W T L C R].
  - apply reads_end. constructor; [cbn; auto | exact W].
  - change (" "%char :: w ++ t ++ s) with ((" "%char :: w) ++ t ++ s). apply reads_token; auto.
    constructor; [cbn; auto | exact W].
Qed.

Lemma reads_here : forall t k s ks, is_c_token t k -> longest t s -> ~ starts_comment (t ++ s) -> reads s ks ->
  reads (t ++ s) (k :: ks).
Proof. intros t k s ks T L C R. apply (reads_token [] t k s ks); auto. Qed.

Lemma reads_word : forall x s ks, is_c_word x -> c_stops s -> reads s ks -> reads (x ++ s) (Word x :: ks).
Proof.
  intros x s ks (c & r & -> & C & R0) St R. apply reads_here; [constructor; exists c, r; auto | | | exact R].
  - intros u v k E U. destruct (Nat.le_gt_cases (length u) (length (c :: r))) as [L|L]; [exact L|]. exfalso.
    destruct (prefix_split _ _ _ _ E L) as (a & q & -> & ->). destruct (stops_not _ _ St) as (N1 & N2 & _).
    inversion U as [? (c' & r' & E' & _ & F) | ? X | p P E1 E2]; subst.
    + cbn in E'. injection E' as <- <-. rewrite Forall_forall in F. destruct (F a); [|tauto|tauto].
      apply in_or_app. right. cbn. auto.
    + destruct (pp_first _ X) as (c' & r' & E' & D). cbn in E'. injection E' as <- <-.
      destruct D as [D | (-> & _)]; [eapply c_classes; eauto | exact (dot_nondigit C)].
    + destruct (punct_first _ P) as (c' & r' & E' & D & _). rewrite E1 in E'. cbn in E'. injection E' as <- <-.
      eapply nondigit_punct; eauto.
  - cbn. apply slash_first. intros ->. eapply nondigit_punct; [exact C|]. cbn. tauto.
Qed.

Lemma pp_after_digits : forall u, is_pp_number u -> forall x c r, u = x ++ c :: r -> x <> [] -> Forall c_digit x ->
  c_digit c \/ c_nondigit c \/ c = "."%char \/ c = "'"%char.
Proof.
  assert (ND : ~ c_digit "." /\ ~ c_digit "'").
  { unfold c_digit. split; vm_compute; intuition congruence. }
  induction 1 as [a A | a A | y a H IH A | y a H IH A | y e s H IH E1 E2]; intros x c r E X F.
  - destruct x as [|b [|b' x]]; [congruence | discriminate E | discriminate E].
  - destruct x as [|b x]; [congruence|]. cbn in E. injection E as <- E. inversion F; subst. tauto.
  - destruct (Nat.le_gt_cases (length y) (length x)) as [L|L].
    + assert (EL := f_equal (@length ascii) E). rewrite !app_length in EL. cbn in EL.
      assert (r = []) as -> by (destruct r; [reflexivity | cbn in EL; lia]). apply app_inj_tail in E. destruct E as [_ <-]. tauto.
    + symmetry in E. symmetry in E. destruct (prefix_split y [a] x (c :: r) E L) as (c' & r' & E' & E''). injection E'' as <- _.
      eapply IH; eassumption.
  - destruct (Nat.le_gt_cases (length y) (length x)) as [L|L].
    + assert (EL := f_equal (@length ascii) E). rewrite !app_length in EL. cbn in EL.
      destruct r as [|a' r].
      * change (y ++ ["'"%char; a]) with (y ++ ["'"%char] ++ [a]) in E. rewrite app_assoc in E. apply app_inj_tail in E.
        destruct E as [_ <-]. tauto.
      * assert (r = []) as -> by (destruct r; [reflexivity | cbn in EL; lia]).
        change (y ++ ["'"%char; a]) with (y ++ ["'"%char] ++ [a]) in E. change (x ++ [c; a']) with (x ++ [c] ++ [a']) in E.
        rewrite !app_assoc in E. apply app_inj_tail in E. destruct E as [E _]. apply app_inj_tail in E. destruct E as [_ <-]. auto.
    + destruct (prefix_split y ["'"%char; a] x (c :: r) E L) as (c' & r' & E' & E''). injection E'' as <- _.
      eapply IH; eassumption.
  - destruct (Nat.le_gt_cases (length y) (length x)) as [L|L].
    + assert (EL := f_equal (@length ascii) E). rewrite !app_length in EL. cbn in EL.
      destruct r as [|a' r].
      * change (y ++ [e; s]) with (y ++ [e] ++ [s]) in E. rewrite app_assoc in E. apply app_inj_tail in E.
        destruct E as [E _]. subst x. rewrite Forall_app in F. destruct F as [_ F]. inversion F as [|? ? D _]; subst. exfalso.
        unfold c_digit in D. cbn in E1. destruct E1 as [<- | [<- | [<- | [<- | []]]]]; vm_compute in D; intuition congruence.
      * assert (r = []) as -> by (destruct r; [reflexivity | cbn in EL; lia]).
        change (y ++ [e; s]) with (y ++ [e] ++ [s]) in E. change (x ++ [c; a']) with (x ++ [c] ++ [a']) in E.
        rewrite !app_assoc in E. apply app_inj_tail in E. destruct E as [E _]. apply app_inj_tail in E. destruct E as [_ <-].
        right. left. unfold c_nondigit. cbn in E1. destruct E1 as [<- | [<- | [<- | [<- | []]]]]; vm_compute; intuition congruence.
    + destruct (prefix_split y [e; s] x (c :: r) E L) as (c' & r' & E' & E''). injection E'' as <- _.
      eapply IH; eassumption.
Qed.

Lemma digits_number : forall x, x <> [] -> Forall c_digit x -> is_pp_number x.
Proof.
  intros x. induction x as [|c x IH] using rev_ind; intros N F; [congruence|].
  rewrite Forall_app in F. destruct F as [F1 F2]. inversion F2; subst.
  destruct x as [|a x]; [apply pp_digit; assumption|]. apply pp_more; [|left; assumption]. apply IH; [discriminate | exact F1].
Qed.

Lemma decimal_digits : forall x acc n, decimal_from acc x = Some n -> Forall c_digit x.
Proof.
  induction x as [|c x IH]; intros acc n H; [constructor|]. cbn [decimal_from] in H. unfold digit_value in H.
  destruct ((48 <=? code c) && (code c <=? 57))%Z eqn:E; [|discriminate H].
  apply andb_prop in E. destruct E as [A B]. constructor; [unfold c_digit; lia | eapply IH; exact H].
Qed.
Lemma denotes_digits : forall x n, denotes x n -> x <> [] /\ Forall c_digit x.
Proof. intros x n (D & N & _). split; [exact N | eapply decimal_digits; exact D]. Qed.

Lemma reads_number : forall x n s ks, denotes x n -> c_stops s -> reads s ks -> reads (x ++ s) (Number x :: ks).
Proof.
  intros x n s ks D St R. destruct (denotes_digits _ _ D) as [N F].
  apply reads_here; [constructor; apply digits_number; assumption | | | exact R].
  - intros u v k E U. destruct (Nat.le_gt_cases (length u) (length x)) as [L|L]; [exact L|]. exfalso.
    destruct (prefix_split _ _ _ _ E L) as (a & q & -> & ->). destruct (stops_not _ _ St) as (N1 & N2 & N3 & N4).
    destruct x as [|c x]; [congruence|]. inversion F as [|? ? C F']; subst.
    inversion U as [? (c' & r' & E' & C' & _) | ? X | p P E1 E2]; subst.
    + cbn in E'. injection E' as <- <-. eapply c_classes; eauto.
    + destruct (pp_after_digits _ X (c :: x) a q eq_refl ltac:(discriminate) F) as [K | [K | [K | K]]]; tauto.
    + destruct (punct_first _ P) as (c' & r' & E' & D' & _). rewrite E1 in E'. cbn in E'. injection E' as <- <-.
      eapply c_classes; eauto.
  - destruct x as [|c x]; [congruence|]. cbn. apply slash_first. intros ->. inversion F as [|? ? C _]; subst.
    unfold c_digit in C. vm_compute in C. intuition congruence.
Qed.

Fixpoint prefix_b (a b : text) : bool :=
  match a, b with
  | [], _ => true
  | x :: a', y :: b' => Ascii.eqb x y && prefix_b a' b'
  | _ :: _, [] => false
  end.
Lemma prefix_b_app : forall a b, prefix_b a (a ++ b) = true.
Proof. induction a as [|x a IH]; intros b; [reflexivity|]. cbn. rewrite Ascii.eqb_refl. apply IH. Qed.

(** No punctuator goes on with the character [c]. *)
Definition munches (q : string) (c : ascii) : bool :=
  forallb (fun p => negb (prefix_b (str q ++ [c]) (str p))) punctuators.

Lemma reads_punct : forall q s ks, In q punctuators -> q <> "." ->
  match s with [] => True | c :: _ => munches q c = true end ->
  ~ starts_comment (str q ++ s) -> reads s ks -> reads (str q ++ s) (punct q :: ks).
Proof.
  intros q s ks Q D St C R. apply reads_here; [constructor; exact Q | | exact C | exact R].
  intros u v k E U. destruct (Nat.le_gt_cases (length u) (length (str q))) as [L|L]; [exact L|]. exfalso.
  destruct (prefix_split _ _ _ _ E L) as (a & r & -> & ->).
  destruct (punct_first _ Q) as (c & t & E1 & P & PD).
  inversion U as [x (c' & r' & E' & C' & _) | x X | p P' E2 E3]; subst.
  - rewrite E1 in E'. cbn in E'. injection E' as <- _. eapply nondigit_punct; eauto.
  - destruct (pp_first _ X) as (c' & r' & E' & D'). rewrite E1 in E'. cbn in E'. injection E' as <- <-.
    destruct D' as [D' | (-> & d & r'' & E' & D')]; [eapply c_classes; eauto|].
    specialize (PD eq_refl). destruct t as [|b t].
    + apply D. apply str_injective. rewrite E1. reflexivity.
    + cbn in E'. injection E' as -> _. exact (PD D').
  - unfold munches in St. rewrite forallb_forall in St. specialize (St p P').
    rewrite E2 in St. change (a :: r) with ([a] ++ r) in St. rewrite app_assoc, prefix_b_app in St. discriminate St.
Qed.

Lemma name_c_word : forall x, is_name x -> is_c_word x.
Proof.
  intros x ((c & r & -> & D) & F & _). inversion F as [|? ? C F']; subst. exists c, r. split; [reflexivity|].
  unfold is_identifier_char, c_nondigit, c_digit in *. split; [lia|].
  eapply Forall_impl; [|exact F']. intros a A. unfold is_identifier_char in A. lia.
Qed.

Definition cspelled (t : text) (u : list c_token) : Prop :=
  forall rest ks, c_stops rest -> reads rest ks -> reads (t ++ rest) (u ++ ks).

Lemma cspelled_word : forall x, is_c_word x -> cspelled x [Word x].
Proof. intros x X rest ks St R. apply reads_word; assumption. Qed.
Lemma cspelled_number : forall x n, denotes x n -> cspelled x [Number x].
Proof. intros x n X rest ks St R. eapply reads_number; eassumption. Qed.

Lemma reads_bracket : forall q s ks, In q ["("; ")"; ","; "~"; "?"; "::"] -> reads s ks ->
  reads (str q ++ s) (punct q :: ks).
Proof.
  intros q s ks Q R. cbn [In] in Q.
  assert (PU : In q punctuators). { unfold punctuators. cbn [In]. intuition (subst; tauto). }
  apply reads_punct; [exact PU | intros ->; intuition discriminate | | | exact R].
  - destruct s as [|a s]; [exact Logic.I|]. destruct Q as [<- | [<- | [<- | [<- | [<- | [<- | []]]]]]];
      clear; destruct a as [[] [] [] [] [] [] [] []]; vm_compute; reflexivity.
  - destruct Q as [<- | [<- | [<- | [<- | [<- | [<- | []]]]]]]; cbn; apply slash_first; discriminate.
Qed.

(** An operator between spaces. *)
Lemma reads_spaced : forall q s ks, In q punctuators -> q <> "." -> reads s ks ->
  reads (" "%char :: str q ++ " "%char :: s) (punct q :: ks).
Proof.
  intros q s ks Q D R. apply reads_space. apply reads_punct; [exact Q | exact D | | | apply reads_space; exact R].
  - unfold munches. rewrite forallb_forall. intros p P. apply negb_true_iff.
    unfold punctuators in Q, P. cbn [In] in Q, P. clear D R.
    destruct (prefix_b (str q ++ [" "%char]) (str p)) eqn:E; [|reflexivity]. exfalso.
    assert (SP : In " "%char (str p)).
    { clear - E. revert E. generalize (str q) as a. generalize (str p) as b. intros b a. revert b.
      induction a as [|x a IH]; intros [|y b] E; cbn [prefix_b app] in E; try discriminate E.
      - apply andb_prop in E. destruct E as [E _]. apply Ascii.eqb_eq in E. subst y. left. reflexivity.
      - apply andb_prop in E. destruct E as [_ E]. right. apply IH. exact E. }
    clear - P SP. repeat (destruct P as [<- | P]; [vm_compute in SP; intuition discriminate|]). exact P.
  - unfold punctuators in Q. cbn [In] in Q. intros (r & [E | E]); clear - Q E;
      repeat (destruct Q as [<- | Q]; [discriminate E|]); exact Q.
Qed.
