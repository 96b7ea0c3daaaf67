(** Reading the printed tree of a program back: proofs. *)
From Coq Require Import ZArith Ascii String List Bool Lia.
From Verif Require Import Prelude Text Types Tables Ast Annotations Parse Decimal Diagnostics AnnotationWalkSpec ConvertFacts
  ProgramTree ProgramTreeSpec.
Import ListNotations.
Open Scope string_scope.
Open Scope list_scope.
Open Scope nat_scope.

(** * Characters *)
Definition wordc (c : ascii) : bool :=
  let n := nat_of_ascii c in ((65 <=? n) && (n <=? 90)) || ((97 <=? n) && (n <=? 122)) || (n =? 95).
Definition digitc (c : ascii) : bool := let n := nat_of_ascii c in (48 <=? n) && (n <=? 57).
Definition linec (c : ascii) : bool := negb (Ascii.eqb c "010"%char).

Lemma span_eq : forall (P : ascii -> bool) a1 a2 c1 c2 r1 r2, forallb P a1 = true -> forallb P a2 = true ->
  P c1 = false -> P c2 = false -> a1 ++ c1 :: r1 = a2 ++ c2 :: r2 -> a1 = a2 /\ c1 = c2 /\ r1 = r2.
Proof.
  intros P. induction a1 as [|x a1 IH]; intros [|y a2] c1 c2 r1 r2 A1 A2 C1 C2 E; cbn in *.
  - injection E as -> ->. auto.
  - injection E as -> ->. apply andb_true_iff in A2. destruct A2 as (A2 & _). congruence.
  - injection E as <- <-. apply andb_true_iff in A1. destruct A1 as (A1 & _). congruence.
  - injection E as -> E. apply andb_true_iff in A1, A2. destruct (IH a2 c1 c2 r1 r2) as (-> & -> & ->); tauto.
Qed.

Lemma digit_digitc : forall d, (0 <= d < 10)%Z -> digitc (digit d) = true.
Proof.
  intros d D. assert (C : (d = 0 \/ d = 1 \/ d = 2 \/ d = 3 \/ d = 4 \/ d = 5 \/ d = 6 \/ d = 7 \/ d = 8 \/ d = 9)%Z) by lia.
  destruct C as [->|[->|[->|[->|[->|[->|[->|[->|[->| ->]]]]]]]]]; reflexivity.
Qed.
Lemma digits_digitc : forall fuel x, (0 <= x)%Z -> forallb digitc (digits fuel x) = true.
Proof.
  induction fuel as [|f IH]; intros x X; [reflexivity|]. cbn [digits]. destruct (Z.ltb_spec x 10) as [L|L].
  - cbn [forallb]. rewrite digit_digitc by lia. reflexivity.
  - rewrite forallb_app, IH by (apply Z.div_pos; lia). cbn [forallb andb].
    rewrite digit_digitc by (apply Z.mod_pos_bound; lia). reflexivity.
Qed.
Lemma number_digitc : forall n, forallb digitc (number n) = true.
Proof. intros n. apply digits_digitc. lia. Qed.
Lemma number_cons : forall n, exists c r, number n = c :: r /\ digitc c = true.
Proof.
  intros n. pose proof (number_digitc n) as D. destruct (number n) as [|c r] eqn:E.
  - unfold number, std_to_string in E. change 20 with (S 19) in E. cbn [digits] in E.
    destruct (Z.of_nat n <? 10)%Z; [discriminate|]. symmetry in E. apply app_cons_not_nil in E. destruct E.
  - cbn [forallb] in D. apply andb_true_iff in D. exists c, r. tauto.
Qed.

(** * Views *)
Definition wordb (t : text) : bool := forallb wordc t.
Definition kindb (t : text) : bool := wordb t && negb (text_eqb t []).
Fixpoint worded (v : view) : bool :=
  match v with
  | View k _ l =>
      kindb k && forallb (fun x : text * option view =>
        let (r, y) := x in wordb r && match y with Some z => worded z | None => true end) l
  end.
Definition part_worded (x : part) : bool := let (r, y) := x in wordb r && match y with Some z => worded z | None => true end.

Lemma worded_view : forall k w l, worded (View k w l) = kindb k && forallb part_worded l.
Proof. reflexivity. Qed.
Lemma worded_list : forall A (f : A -> view) (role : string) l, wordb (str role) = true -> Forall (fun a => worded (f a) = true) l ->
  forallb part_worded (map (fun a => has role (f a)) l) = true.
Proof.
  intros A f role l W F. induction F as [|a l Ha _ IH]; [reflexivity|]. cbn [map forallb]. rewrite IH.
  unfold has, part_worded. rewrite W, Ha. reflexivity.
Qed.
Lemma forall_all : forall A (P : A -> Prop) l, (forall a, P a) -> Forall P l.
Proof. intros A P l H. apply Forall_forall. intros; apply H. Qed.

Lemma worded_annotation : forall a, worded (view_annotation a) = true.
Proof.
  intros a. unfold view_annotation. rewrite worded_view, worded_list; [reflexivity | reflexivity |].
  apply forall_all. intros; reflexivity.
Qed.
Lemma worded_annotations : forall l, match view_annotations l with Some z => worded z | None => true end = true.
Proof.
  intros [|a l]; [reflexivity|]. unfold view_annotations. rewrite worded_view, worded_list; [reflexivity | reflexivity |].
  apply forall_all, worded_annotation.
Qed.

Lemma worded_type_from : forall t, P_type (fun e => worded (view_expr e) = true) t -> worded (view_type t) = true.
Proof.
  intros [ty [e|]] H; cbn [view_type]; rewrite worded_view; cbn [forallb part_worded]; [rewrite H|]; reflexivity.
Qed.
Lemma worded_expr : forall e, worded (view_expr e) = true.
Proof.
  induction e using pexpr_induction; cbn [view_expr]; rewrite worded_view; unfold has; cbn [forallb part_worded].
  - rewrite IHe, (worded_type_from _ H). reflexivity.
  - rewrite IHe1, IHe2, IHe3. reflexivity.
  - rewrite IHe1, IHe2. reflexivity.
  - rewrite IHe. reflexivity.
  - rewrite forallb_app. change (fun a : pexpr => (str "", Some (view_expr a))) with (fun a => has "" (view_expr a)).
    rewrite worded_list by (reflexivity || assumption).
    cbn [forallb part_worded]. rewrite worded_annotations. reflexivity.
  - reflexivity.
  - reflexivity.
Qed.
Lemma worded_type : forall t, worded (view_type t) = true.
Proof. intros t. apply worded_type_from. destruct t as [ty [e|]]; cbn; [apply worded_expr | exact Logic.I]. Qed.
Lemma worded_may : forall A (f : A -> view) role x, wordb (str role) = true -> (forall a, worded (f a) = true) ->
  part_worded (may_have role f x) = true.
Proof. intros A f role [a|] W F; unfold may_have, part_worded; cbn [option_map]; rewrite W, ?F; reflexivity. Qed.
Lemma worded_has : forall role v, wordb (str role) = true -> worded v = true -> part_worded (has role v) = true.
Proof. intros role v W F. unfold has, part_worded. now rewrite W, F. Qed.
Lemma worded_ann : forall role l, wordb (str role) = true -> part_worded (str role, view_annotations l) = true.
Proof. intros role l W. unfold part_worded. now rewrite W, worded_annotations. Qed.

Ltac words := rewrite worded_view; cbn [forallb];
  repeat first [rewrite worded_ann by reflexivity | rewrite worded_may by (reflexivity || apply worded_type || apply worded_expr)
    | rewrite worded_has by (reflexivity || apply worded_type || apply worded_expr || assumption)]; try reflexivity.

Lemma worded_stmt : forall s, worded (view_stmt s) = true.
Proof.
  induction s using pstmt_induction; cbn [view_stmt]; try (words; fail); try reflexivity.
  - assert (B : worded (View (str "Block_Statement") (str "{") (map (fun s1 => has "" (view_stmt s1)) b)) = true)
      by (rewrite worded_view, worded_list by (reflexivity || assumption); reflexivity).
    words.
  - assert (B : worded (View (str "Block_Statement") (str "{") (map (fun s1 => has "" (view_stmt s1)) b)) = true)
      by (rewrite worded_view, worded_list by (reflexivity || assumption); reflexivity).
    words. unfold part_worded. rewrite IHs. reflexivity.
  - assert (B : worded (View (str "Block_Statement") (str "{") (map (fun s1 => has "" (view_stmt s1)) b)) = true)
      by (rewrite worded_view, worded_list by (reflexivity || assumption); reflexivity).
    words.
  - rewrite worded_view, worded_list by (reflexivity || assumption). reflexivity.
  - apply worded_expr.
Qed.

Lemma worded_decl : forall d, worded (view_decl d) = true.
Proof.
  intros [f|s]; [|apply worded_stmt]. cbn [view_decl].
  assert (B : worded (View (str "Block_Statement") (str "{") (map (fun s1 => has "" (view_stmt s1)) (pf_body f))) = true)
    by (rewrite worded_view, worded_list by (reflexivity || (apply forall_all, worded_stmt)); reflexivity).
  words.
  assert (P : part_worded (str "parameters", view_parameters (pf_parameters f)) = true).
  { unfold part_worded, view_parameters. destruct (rev (pf_parameters f)) as [|p r]; [reflexivity|].
    rewrite worded_view, worded_list; [reflexivity | reflexivity |]. apply forall_all. intros q. unfold view_parameter. words. }
  rewrite P. reflexivity.
Qed.

Lemma worded_program : forall p, worded (view_program p) = true.
Proof.
  intros p. unfold view_program. rewrite worded_view, worded_list; [reflexivity | reflexivity | apply forall_all, worded_decl].
Qed.

(** * Lines *)
Lemma role_text_nil : forall b, role_text b [] = [].
Proof. reflexivity. Qed.
Lemma role_text_cons : forall b c r, role_text b (c :: r) =
  escape b "0;92" ++ (c :: r) ++ escape b "30" ++ str "=" ++ escape b "0".
Proof. reflexivity. Qed.

Lemma escape_true : forall k, escape true k = "027"%char :: "["%char :: str k ++ str "m".
Proof. reflexivity. Qed.

Lemma number_line : forall b n1 n2 x1 x2,
  escape b "0;90" ++ number n1 ++ escape b "0" ++ str ":" ++ x1 = escape b "0;90" ++ number n2 ++ escape b "0" ++ str ":" ++ x2 -> x1 = x2.
Proof.
  intros b n1 n2 x1 x2 E. apply app_inv_head in E. destruct b; cbn in E.
  - apply (span_eq digitc) in E; try apply number_digitc; try reflexivity. destruct E as (_ & _ & E). now injection E.
  - apply (span_eq digitc) in E; try apply number_digitc; try reflexivity. destruct E as (_ & _ & E). exact E.
Qed.

Lemma kind_line : forall b k1 k2 y1 y2, wordb k1 = true -> wordb k2 = true ->
  escape b "0;95" ++ k1 ++ escape b "0;90" ++ str "(" ++ y1 = escape b "0;95" ++ k2 ++ escape b "0;90" ++ str "(" ++ y2 ->
  k1 = k2 /\ y1 = y2.
Proof.
  intros b k1 k2 y1 y2 W1 W2 E. apply app_inv_head in E. destruct b; cbn in E.
  - apply (span_eq wordc) in E; try assumption; try reflexivity. destruct E as (-> & _ & E). injection E as ->. auto.
  - apply (span_eq wordc) in E; try assumption; try reflexivity. destruct E as (-> & _ & ->). auto.
Qed.

Lemma role_kind : forall b r1 r2 k1 k2 y1 y2, wordb r1 = true -> wordb r2 = true -> wordb k1 = true -> wordb k2 = true ->
  role_text b r1 ++ escape b "0;95" ++ k1 ++ escape b "0;90" ++ str "(" ++ y1 =
  role_text b r2 ++ escape b "0;95" ++ k2 ++ escape b "0;90" ++ str "(" ++ y2 -> r1 = r2 /\ k1 = k2 /\ y1 = y2.
Proof.
  intros b r1 r2 k1 k2 y1 y2 R1 R2 W1 W2 E. destruct r1 as [|c1 r1], r2 as [|c2 r2].
  - split; [reflexivity|]. apply (kind_line b); assumption.
  - exfalso. rewrite role_text_nil, role_text_cons in E. repeat rewrite <- app_assoc in E. destruct b; cbn in E; [discriminate E|].
    apply (span_eq wordc k1 (c2 :: r2)) in E; try assumption; try reflexivity. destruct E as (_ & E & _). discriminate E.
  - exfalso. rewrite role_text_nil, role_text_cons in E. repeat rewrite <- app_assoc in E. destruct b; cbn in E; [discriminate E|].
    apply (span_eq wordc (c1 :: r1) k2) in E; try assumption; try reflexivity. destruct E as (_ & E & _). discriminate E.
  - rewrite !role_text_cons in E. repeat rewrite <- app_assoc in E. apply app_inv_head in E.
    assert (X : c1 :: r1 = c2 :: r2 /\ escape b "0;95" ++ k1 ++ escape b "0;90" ++ str "(" ++ y1 =
      escape b "0;95" ++ k2 ++ escape b "0;90" ++ str "(" ++ y2).
    { destruct b; cbn [escape] in E |- *; cbn in E |- *.
      - apply (span_eq wordc (c1 :: r1) (c2 :: r2)) in E; try assumption; try reflexivity. destruct E as (Er & _ & E).
        split; [exact Er|]. injection E as E. rewrite E. reflexivity.
      - apply (span_eq wordc (c1 :: r1) (c2 :: r2)) in E; try assumption; try reflexivity. destruct E as (Er & _ & E).
        split; [exact Er | exact E]. }
    destruct X as (-> & X). split; [reflexivity|]. apply (kind_line b); assumption.
Qed.

Lemma linec_in : forall w, ~ In "010"%char w -> forallb linec w = true.
Proof.
  intros w N. apply forallb_forall. intros c C. unfold linec. destruct (Ascii.eqb_spec c "010"%char); [subst; tauto|reflexivity].
Qed.

Lemma word_line : forall b w1 w2 z1 z2, ~ In "010"%char w1 -> ~ In "010"%char w2 ->
  escape b "0" ++ w1 ++ escape b "0;90" ++ str ")" ++ ["010"%char] ++ escape b "0" ++ z1 =
  escape b "0" ++ w2 ++ escape b "0;90" ++ str ")" ++ ["010"%char] ++ escape b "0" ++ z2 -> w1 = w2 /\ z1 = z2.
Proof.
  intros b w1 w2 z1 z2 N1 N2 E. apply app_inv_head in E. apply linec_in in N1, N2.
  assert (T : forallb linec (escape b "0;90" ++ str ")") = true) by (destruct b; reflexivity).
  assert (X : (w1 ++ escape b "0;90" ++ str ")") ++ "010"%char :: escape b "0" ++ z1 =
    (w2 ++ escape b "0;90" ++ str ")") ++ "010"%char :: escape b "0" ++ z2).
  { repeat rewrite <- app_assoc. exact E. }
  apply (span_eq linec) in X; try reflexivity; try (rewrite forallb_app, T, ?N1, ?N2; reflexivity).
  destruct X as (X1 & _ & X2). apply app_inv_tail in X1. apply app_inv_head in X2. auto.
Qed.

Lemma null_lines : forall b r1 r2 z1 z2, wordb r1 = true -> wordb r2 = true ->
  role_text b r1 ++ str "null" ++ ["010"%char] ++ z1 = role_text b r2 ++ str "null" ++ ["010"%char] ++ z2 -> r1 = r2 /\ z1 = z2.
Proof.
  intros b r1 r2 z1 z2 R1 R2 E. destruct r1 as [|c1 r1], r2 as [|c2 r2].
  - cbn in E. injection E as ->. auto.
  - exfalso. rewrite role_text_nil, role_text_cons in E. repeat rewrite <- app_assoc in E. destruct b; cbn in E; [discriminate E|].
    apply (span_eq wordc (str "null") (c2 :: r2)) in E; try assumption; try reflexivity. destruct E as (_ & E & _). discriminate E.
  - exfalso. rewrite role_text_nil, role_text_cons in E. repeat rewrite <- app_assoc in E. destruct b; cbn in E; [discriminate E|].
    apply (span_eq wordc (c1 :: r1) (str "null")) in E; try assumption; try reflexivity. destruct E as (_ & E & _). discriminate E.
  - rewrite !role_text_cons in E. repeat rewrite <- app_assoc in E. apply app_inv_head in E.
    destruct b; cbn in E; apply (span_eq wordc (c1 :: r1) (c2 :: r2)) in E; try assumption; try reflexivity;
      destruct E as (Er & _ & E); (split; [exact Er|]); injection E as E; exact E.
Qed.

Lemma digit_not_word : forall c, digitc c = true -> wordc c = false.
Proof.
  intros c. unfold digitc, wordc. rewrite andb_true_iff, !Nat.leb_le. intros D.
  destruct (Nat.leb_spec 65 (nat_of_ascii c)), (Nat.leb_spec 97 (nat_of_ascii c)), (Nat.eqb_spec (nat_of_ascii c) 95); cbn; lia || reflexivity.
Qed.

Lemma null_no_node : forall b r n z x, wordb r = true ->
  role_text b r ++ str "null" ++ z = escape b "0;90" ++ number n ++ x -> False.
Proof.
  intros b r n z x R E. destruct (number_cons n) as (c & d & N & D). rewrite N in E. apply digit_not_word in D.
  destruct r as [|c1 r].
  - rewrite role_text_nil in E. destruct b; cbn in E; [discriminate E|]. injection E as E _. subst c. discriminate D.
  - rewrite role_text_cons in E. repeat rewrite <- app_assoc in E. destruct b; cbn in E; [discriminate E|]. injection E as E _. subst c.
    unfold wordb in R. cbn [forallb] in R. rewrite D in R. discriminate R.
Qed.

(** * Trees *)
Section Reading.
Variable b : bool.
Variable w : nat.
Hypothesis W : 0 < w.

Definition kid_line (level : nat) (x : text * option numbered) : text :=
  let (r, y) := x in
  match y with
  | Some z => layout b w number (S level) r z
  | None => repeat " "%char (S level * w) ++ role_text b r ++ str "null" ++ ["010"%char]
  end.

Lemma layout_node : forall level role n k x l, layout b w number level role (Numbered n k x l) =
  repeat " "%char (level * w) ++ escape b "0;90" ++ number n ++ escape b "0" ++ str ":" ++ role_text b role
      ++ escape b "0;95" ++ k ++ escape b "0;90" ++ str "(" ++ escape b "0" ++ x
      ++ escape b "0;90" ++ str ")" ++ ["010"%char] ++ escape b "0" ++ flat_map (kid_line level) l.
Proof. reflexivity. Qed.

Lemma indented_eq : forall k c r k' c' r', c <> " "%char -> c' <> " "%char ->
  repeat " "%char k ++ c :: r = repeat " "%char k' ++ c' :: r' -> k = k'.
Proof.
  induction k as [|k IH]; intros c r [|k'] c' r' C C' E; cbn in E; [reflexivity | | |].
  - injection E as E _. contradiction.
  - injection E as E _. congruence.
  - injection E as E. f_equal. exact (IH _ _ _ _ _ C C' E).
Qed.

(** What follows the lines of a node. *)
Definition follows (level : nat) (r : text) : Prop :=
  r = [] \/ exists k c r', k <= level * w /\ r = repeat " "%char k ++ c :: r' /\ c <> " "%char.

Lemma digit_no_space : forall c, digitc c = true -> c <> " "%char.
Proof. intros c D ->. discriminate D. Qed.
Lemma word_no_space : forall c, wordc c = true -> c <> " "%char.
Proof. intros c D ->. discriminate D. Qed.

Lemma node_starts : forall level role v r, exists c r', layout b w number level role v ++ r = repeat " "%char (level * w) ++ c :: r' /\ c <> " "%char.
Proof.
  intros level role [n k x l] r. rewrite layout_node. repeat rewrite <- app_assoc. destruct b.
  - cbn [escape]. eexists _, _. split; [cbn [app]; reflexivity|]. discriminate.
  - destruct (number_cons n) as (c & d & N & D). rewrite N. eexists _, _. split; [cbn [escape app]; reflexivity|]. apply digit_no_space, D.
Qed.

Lemma kid_starts : forall level x r, wordb (fst x) = true ->
  exists c r', kid_line level x ++ r = repeat " "%char (S level * w) ++ c :: r' /\ c <> " "%char.
Proof.
  intros level [role [v|]] r R; [apply node_starts|]. cbn [kid_line]. repeat rewrite <- app_assoc.
  destruct role as [|c1 role].
  - exists "n"%char. eexists. split; [reflexivity|discriminate].
  - rewrite role_text_cons. destruct b.
    + eexists _, _. split; [cbn [escape app]; reflexivity|]. discriminate.
    + eexists _, _. split; [cbn [escape app]; reflexivity|]. apply word_no_space. cbn in R. apply andb_true_iff in R. tauto.
Qed.

Lemma kid_follows : forall level x r, wordb (fst x) = true -> follows (S level) (kid_line level x ++ r).
Proof. intros level x r R. destruct (kid_starts level x r R) as (c & r' & -> & C). right. exists (S level * w), c, r'. auto. Qed.
Lemma follows_up : forall level r, follows level r -> follows (S level) r.
Proof. intros level r [->|(k & c & r' & L & E & C)]; [left; reflexivity|]. right. exists k, c, r'. repeat split; try assumption. cbn. lia. Qed.
Lemma kid_no_follow : forall level x r, wordb (fst x) = true -> ~ follows level (kid_line level x ++ r).
Proof.
  intros level x r R F. destruct (kid_starts level x r R) as (c & r' & E & C). rewrite E in F.
  destruct F as [F|(k & c2 & r2 & L & F & C2)]; [symmetry in F; apply app_cons_not_nil in F; exact F|].
  apply indented_eq in F; try assumption. cbn in F. lia.
Qed.

Definition unnumbered_part (x : text * option numbered) : text * option view :=
  let (role, y) := x in (role, match y with Some z => Some (unnumbered z) | None => None end).
Lemma unnumbered_node : forall n k x l, unnumbered (Numbered n k x l) = View k x (map unnumbered_part l).
Proof. reflexivity. Qed.

Definition lined (x : part) : Prop := match snd x with Some z => one_line z | None => True end.
Lemma one_line_node : forall k x l, one_line (View k x l) <-> ~ In "010"%char x /\ Forall lined l.
Proof.
  intros k x l. cbn [one_line]. assert (X : forall l, (fix all (l : list (text * option view)) : Prop :=
         match l with
         | [] => True
         | (_, None) :: r => all r
         | (_, Some z) :: r => one_line z /\ all r
         end) l <-> Forall lined l).
  { induction l0 as [|[r [z|]] l0 IH].
    - split; intros; [constructor|exact Logic.I].
    - rewrite IH. split; [intros (A & B); constructor; assumption | intros Q; inversion Q; split; assumption].
    - rewrite IH. split; [intros B; constructor; [exact Logic.I|assumption] | intros Q; inversion Q; assumption]. }
  rewrite X. reflexivity.
Qed.

Definition read_node (v1 : numbered) : Prop := forall v2 level role1 role2 r1 r2,
  worded (unnumbered v1) = true -> worded (unnumbered v2) = true -> one_line (unnumbered v1) -> one_line (unnumbered v2) ->
  wordb role1 = true -> wordb role2 = true -> follows level r1 -> follows level r2 ->
  layout b w number level role1 v1 ++ r1 = layout b w number level role2 v2 ++ r2 ->
  role1 = role2 /\ unnumbered v1 = unnumbered v2 /\ r1 = r2.

Lemma read_kids : forall l1 level l2 r1 r2,
  Forall (fun x : text * option numbered => match snd x with Some z => read_node z | None => True end) l1 ->
  forallb part_worded (map unnumbered_part l1) = true -> forallb part_worded (map unnumbered_part l2) = true ->
  Forall lined (map unnumbered_part l1) -> Forall lined (map unnumbered_part l2) ->
  follows level r1 -> follows level r2 ->
  flat_map (kid_line level) l1 ++ r1 = flat_map (kid_line level) l2 ++ r2 ->
  map unnumbered_part l1 = map unnumbered_part l2 /\ r1 = r2.
Proof.
  intros l1 level l2 r1 r2 IH. revert l2. induction IH as [|x1 l1 H1 _ IHl]; intros [|x2 l2] K1 K2 O1 O2 F1 F2 E; cbn [flat_map map forallb] in *.
  - auto.
  - exfalso. cbn [app] in E. rewrite E in F1. rewrite <- app_assoc in F1. apply andb_true_iff in K2. destruct K2 as (K2 & _).
    refine (kid_no_follow _ _ _ _ F1). destruct x2 as [role2 y2]. cbn in K2 |- *. apply andb_true_iff in K2. tauto.
  - exfalso. cbn [app] in E. rewrite <- E in F2. rewrite <- app_assoc in F2. apply andb_true_iff in K1. destruct K1 as (K1 & _).
    refine (kid_no_follow _ _ _ _ F2). destruct x1 as [role1 y1]. cbn in K1 |- *. apply andb_true_iff in K1. tauto.
  - apply andb_true_iff in K1, K2. destruct K1 as (K1 & K1'), K2 as (K2 & K2').
    inversion O1 as [|? ? P1 Q1]; inversion O2 as [|? ? P2 Q2]; subst. repeat rewrite <- app_assoc in E.
    assert (G : forall l r, forallb part_worded (map unnumbered_part l) = true -> follows level r ->
      follows (S level) (flat_map (kid_line level) l ++ r)).
    { intros [|[role y] l] r K F; [apply follows_up, F|]. cbn [flat_map]. rewrite <- app_assoc. apply kid_follows.
      cbn [map forallb unnumbered_part part_worded] in K. apply andb_true_iff in K. destruct K as (K & _). apply andb_true_iff in K. cbn. tauto. }
    pose proof (G l1 r1 K1' F1) as G1. pose proof (G l2 r2 K2' F2) as G2.
    destruct x1 as [role1 y1], x2 as [role2 y2]. cbn [unnumbered_part part_worded kid_line snd] in *.
    apply andb_true_iff in K1, K2. destruct K1 as (R1 & K1), K2 as (R2 & K2).
    assert (X : role1 = role2 /\ match y1 with Some z => Some (unnumbered z) | None => None end =
        match y2 with Some z => Some (unnumbered z) | None => None end /\
        flat_map (kid_line level) l1 ++ r1 = flat_map (kid_line level) l2 ++ r2).
    { destruct y1 as [z1|], y2 as [z2|].
      - destruct (H1 z2 (S level) role1 role2 _ _ K1 K2 P1 P2 R1 R2 G1 G2 E) as (-> & -> & X). auto.
      - exfalso. destruct z1 as [n1 k1 x1 m1]. rewrite layout_node in E. repeat rewrite <- app_assoc in E. apply app_inv_head in E.
        symmetry in E. exact (null_no_node _ _ _ _ _ R2 E).
      - exfalso. destruct z2 as [n1 k1 x1 m1]. rewrite layout_node in E. repeat rewrite <- app_assoc in E. apply app_inv_head in E.
        exact (null_no_node _ _ _ _ _ R1 E).
      - repeat rewrite <- app_assoc in E. apply app_inv_head in E. destruct (null_lines _ _ _ _ _ R1 R2 E) as (-> & X). auto. }
    destruct X as (-> & X1 & X2). destruct (IHl l2 K1' K2' Q1 Q2 F1 F2 X2) as (-> & ->). rewrite X1. auto.
Qed.

Section Numbered_Induction.
Variable P : numbered -> Prop.
Definition of_part (x : text * option numbered) : Prop := match snd x with Some z => P z | None => True end.
Hypothesis H : forall n k x l, Forall of_part l -> P (Numbered n k x l).
Fixpoint numbered_induction (v : numbered) : P v :=
  match v with
  | Numbered n k x l =>
      H n k x l
        ((fix all (l : list (text * option numbered)) : Forall of_part l :=
            match l with
            | [] => Forall_nil _
            | y :: r => Forall_cons y (match y as y0 return of_part y0 with
                                       | (_, Some z) => numbered_induction z
                                       | (_, None) => Logic.I
                                       end) (all r)
            end) l)
  end.
End Numbered_Induction.

Lemma read_nodes : forall v, read_node v.
Proof.
  induction v as [n1 k1 x1 l1 IH] using numbered_induction.
  intros [n2 k2 x2 l2] level role1 role2 r1 r2 K1 K2 O1 O2 R1 R2 F1 F2 E.
  rewrite !unnumbered_node in *. rewrite worded_view in K1, K2. apply one_line_node in O1, O2.
  apply andb_true_iff in K1, K2. destruct K1 as (K1 & K1'), K2 as (K2 & K2'), O1 as (N1 & O1), O2 as (N2 & O2).
  unfold kindb in K1, K2. apply andb_true_iff in K1, K2. destruct K1 as (K1 & _), K2 as (K2 & _).
  rewrite !layout_node in E. repeat rewrite <- app_assoc in E. apply app_inv_head in E.
  apply number_line in E. apply role_kind in E; try assumption. destruct E as (-> & -> & E).
  apply word_line in E; try assumption. destruct E as (-> & E).
  destruct (read_kids l1 level l2 r1 r2 IH K1' K2' O1 O2 F1 F2 E) as (-> & ->). auto.
Qed.

Lemma read_back : forall v1 v2, worded (unnumbered v1) = true -> worded (unnumbered v2) = true ->
  one_line (unnumbered v1) -> one_line (unnumbered v2) ->
  layout b w number 0 [] v1 = layout b w number 0 [] v2 -> unnumbered v1 = unnumbered v2.
Proof.
  intros v1 v2 K1 K2 O1 O2 E.
  destruct (read_nodes v1 v2 0 [] [] [] [] K1 K2 O1 O2 eq_refl eq_refl (or_introl eq_refl) (or_introl eq_refl)) as (_ & X & _);
    [rewrite !app_nil_r; exact E | exact X].
Qed.
End Reading.
