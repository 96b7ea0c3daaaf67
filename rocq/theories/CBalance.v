(** Expressions of C have as many opening as closing parentheses. *)
From Coq Require Import ZArith Ascii String List Bool Lia.
From Verif Require Import Prelude Text Types Ops Literals LiteralsSpec Tables Tokenizer TokenizerSpec AbsOps Ast DecimalSpec
  GenBase PrintSpec CGrammar CGrammarFacts CPrintSpec CSpell CPrintFacts CRegroup.
Import ListNotations.
Open Scope string_scope.
Open Scope list_scope.
Open Scope Z_scope.

Scheme derives_min := Minimality for derives Sort Prop
  with derives_arguments_min := Minimality for derives_arguments Sort Prop.
Combined Scheme derives_induction from derives_min, derives_arguments_min.

Definition token_excess (k : c_token) : Z := match k with Word _ | Number _ => 0 | Punct p => excess p end.
Definition tokens_excess (ks : list c_token) : Z := fold_right Z.add 0 (map token_excess ks).

Lemma tokens_app : forall u v, tokens_excess (u ++ v) = tokens_excess u + tokens_excess v.
Proof. unfold tokens_excess. induction u as [|k u IH]; intros v; cbn [map fold_right app]; [|rewrite IH]; lia. Qed.
Lemma tokens_cons : forall k v, tokens_excess (k :: v) = token_excess k + tokens_excess v.
Proof. reflexivity. Qed.

Lemma operator_excess : forall k op, In op (operators_at k) -> token_excess (punct op) = 0.
Proof. intros k op H. do 12 (destruct k as [|k]; [in_list H; subst op; reflexivity|]). destruct H. Qed.

Lemma type_excess : forall ys y, names_type ys y -> tokens_excess ys = 0.
Proof. destruct 1; reflexivity. Qed.

Lemma derives_balanced :
  (forall k ts t, derives k ts t -> tokens_excess ts = 0) /\
  (forall ts args, derives_arguments ts args -> tokens_excess ts = 0).
Proof.
  apply derives_induction; intros; rewrite ?tokens_app, ?tokens_cons, ?tokens_app, ?tokens_cons; try assumption; try reflexivity.
  - rewrite (operator_excess k op) by assumption. lia.
  - change (token_excess (punct "?")) with 0. change (token_excess (punct ":")) with 0. lia.
  - rewrite (type_excess ys y) by assumption.
    change (token_excess (punct "(")) with 1. change (token_excess (punct ")")) with (-1). lia.
  - assert (E : token_excess (punct op) = 0) by (in_list H; subst op; reflexivity). lia.
  - assert (E : token_excess (punct op) = 0) by (in_list H; subst op; reflexivity). lia.
  - change (token_excess (punct "(")) with 1. change (token_excess (punct ")")) with (-1). cbn [tokens_excess map fold_right]. lia.
  - assert (E : token_excess (punct op) = 0) by (in_list H; subst op; reflexivity). cbn [tokens_excess map fold_right]. lia.
  - change (token_excess (punct "(")) with 1. change (token_excess (punct ")")) with (-1). cbn [tokens_excess map fold_right]. lia.
  - change (token_excess (punct ",")) with 0. lia.
Qed.

Lemma excess_plain : forall s, Forall (fun c => c <> "("%char /\ c <> ")"%char) s -> excess s = 0.
Proof.
  induction 1 as [|c s C H IH]; [reflexivity|]. cbn [excess]. rewrite IH.
  destruct (Ascii.eqb_spec c "("); [tauto|]. destruct (Ascii.eqb_spec c ")"); [tauto | reflexivity].
Qed.
Lemma char_plain : forall c, c_nondigit c \/ c_digit c -> c <> "("%char /\ c <> ")"%char.
Proof.
  intros c C. split; intros ->; unfold c_nondigit, c_digit in C; vm_compute in C; intuition congruence.
Qed.
Lemma pp_plain : forall x, is_pp_number x -> Forall (fun c => c <> "("%char /\ c <> ")"%char) x.
Proof.
  induction 1 as [c C | c C | x c X IH C | x c X IH C | x e s X IH E S1].
  - constructor; [apply char_plain; auto | constructor].
  - constructor; [split; discriminate|]. constructor; [apply char_plain; auto | constructor].
  - apply Forall_app. split; [exact IH|]. constructor; [|constructor].
    destruct C as [C | [C | ->]]; [apply char_plain; auto | apply char_plain; auto | split; discriminate].
  - apply Forall_app. split; [exact IH|]. constructor; [split; discriminate|]. constructor; [|constructor].
    apply char_plain. tauto.
  - apply Forall_app. split; [exact IH|]. in_list E; subst e; in_list S1; subst s;
      (constructor; [split; discriminate|]; constructor; [split; discriminate|]; constructor).
Qed.
Lemma token_text_excess : forall x k, is_c_token x k -> excess x = token_excess k.
Proof.
  destruct 1 as [x X | x X | q Q]; cbn [token_excess]; [| |reflexivity].
  - destruct X as (c & r & -> & C & R). apply excess_word. constructor; auto.
  - apply excess_plain, pp_plain, X.
Qed.
Lemma white_excess : forall w, Forall c_white w -> excess w = 0.
Proof.
  intros w W. apply excess_plain. eapply Forall_impl; [|exact W]. intros c C. cbn in C.
  in_list C; subst c; split; discriminate.
Qed.

Lemma reads_excess : forall s ks, reads s ks -> excess s = tokens_excess ks.
Proof.
  induction 1 as [w W | w t k s ks W K _ _ R IH]; [rewrite white_excess by exact W; reflexivity|].
  rewrite !excess_app, tokens_cons, (white_excess w W), (token_text_excess _ _ K), IH. lia.
Qed.

Theorem means_balanced : forall s t, means s t -> excess s = 0.
Proof. intros s t ((ks & R & D) & _). rewrite (reads_excess _ _ R). exact (proj1 derives_balanced _ _ _ D). Qed.
