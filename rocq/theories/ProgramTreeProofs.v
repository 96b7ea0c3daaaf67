(** The printed tree of a program: proofs. *)
From Coq Require Import ZArith Ascii String List Bool Lia Permutation.
From Verif Require Import Prelude Text Types Tables Ast Annotations Parse Decimal Diagnostics AnnotationWalkSpec ConvertFacts
  ProgramTree ProgramTreeSpec.
Import ListNotations.
Open Scope string_scope.
Open Scope list_scope.
Open Scope nat_scope.

(** * Trees *)
Section Tree_Induction.
Variable P : tree -> Prop.
Definition of_kid (k : kid) : Prop := match k with Some (_, t) => P t | None => True end.
Hypothesis H : forall s names x ks, Forall of_kid ks -> P (Tree s names x ks).
Fixpoint tree_induction (t : tree) : P t :=
  match t with
  | Tree s names x ks =>
      H s names x ks
        ((fix all (l : list kid) : Forall of_kid l :=
            match l with
            | [] => Forall_nil _
            | k :: r => Forall_cons k (match k as k0 return of_kid k0 with
                                       | Some (_, t1) => tree_induction t1
                                       | None => Logic.I
                                       end) (all r)
            end) ks)
  end.
End Tree_Induction.

Definition role_at (names : option (list text)) (i : nat) : text :=
  match names with None => [] | Some l => nth i l (str "type") end.
Fixpoint roles {A} (names : option (list text)) (i : nat) (l : list A) : list (text * A) :=
  match l with [] => [] | a :: r => (role_at names i, a) :: roles names (S i) r end.
Definition covers (names : option (list text)) (n : nat) : bool :=
  match names with None => true | Some l => n <=? length l end.

Fixpoint numbering (h : nat) (t : tree) : numbered :=
  match t with
  | Tree s names x ks =>
      Numbered h s x (roles names 0 (map (fun k : kid => match k with Some (h1, t1) => Some (numbering h1 t1) | None => None end) ks))
  end.
Definition kid_numbered (k : kid) : option numbered := match k with Some (h1, t1) => Some (numbering h1 t1) | None => None end.

Fixpoint tview (t : tree) : view :=
  match t with
  | Tree s names x ks =>
      View s x (roles names 0 (map (fun k : kid => match k with Some (_, t1) => Some (tview t1) | None => None end) ks))
  end.
Definition kview (k : kid) : option view := match k with Some (_, t1) => Some (tview t1) | None => None end.

Fixpoint tnamed (t : tree) : bool :=
  match t with
  | Tree _ names _ ks =>
      covers names (length ks) && forallb (fun k : kid => match k with Some (_, t1) => tnamed t1 | None => true end) ks
  end.
Definition knamed (k : kid) : bool := match k with Some (_, t1) => tnamed t1 | None => true end.

Fixpoint tnumbers (t : tree) : list nat :=
  match t with
  | Tree _ _ _ ks => flat_map (fun k : kid => match k with Some (h, t1) => h :: tnumbers t1 | None => [] end) ks
  end.
Definition knumbers (k : kid) : list nat := match k with Some (h, t1) => h :: tnumbers t1 | None => [] end.

Fixpoint tbelow (h : nat) (t : tree) : Prop :=
  match t with
  | Tree _ _ _ ks =>
      (fix all (l : list kid) : Prop :=
         match l with
         | [] => True
         | None :: r => all r
         | Some (h1, t1) :: r => (h1 < h /\ tbelow h1 t1) /\ all r
         end) ks
  end.
Definition kbelow (h : nat) (k : kid) : Prop := match k with Some (h1, t1) => h1 < h /\ tbelow h1 t1 | None => True end.

Lemma below_node : forall h s names x ks, tbelow h (Tree s names x ks) <-> Forall (kbelow h) ks.
Proof.
  intros h s names x ks. cbn [tbelow]. induction ks as [|[[h1 t1]|] r IH].
  - split; intros; [constructor|exact Logic.I].
  - rewrite IH. split; [intros (A & B); constructor; assumption | intros Q; inversion Q; split; assumption].
  - rewrite IH. split; [intros B; constructor; [exact Logic.I|assumption] | intros Q; inversion Q; assumption].
Qed.

(** * The printer *)
Lemma text_eqb_nil : forall t, text_eqb t [] = match t with [] => true | _ => false end.
Proof. destruct t; reflexivity. Qed.

Lemma role_printed : forall b role,
  match role with
  | [] => []
  | _ => color b ansi_h_green ++ role ++ color b ansi_black ++ str "=" ++ color b ansi_reset
  end = role_text b role.
Proof. intros b role. unfold role_text. rewrite text_eqb_nil. destruct role, b; reflexivity. Qed.

Definition kid_text (o : program_options) (level : nat) (x : text * option numbered) : text :=
  let (r, y) := x in
  match y with
  | Some z => layout (colored o) (width o) number (S level) r z
  | None => repeat " "%char (S level * width o) ++ role_text (colored o) r ++ str "null" ++ ["010"%char]
  end.

Lemma covers_role : forall E names i, @child_name E names i =
  if covers names (S i) then Ok (role_at names i) else UB.
Proof.
  intros E [l|] i; [|reflexivity]. unfold child_name, covers, role_at.
  destruct (Nat.leb_spec (S i) (length l)) as [L|L].
  - rewrite (nth_error_nth' l (str "type")) by lia. reflexivity.
  - rewrite (proj2 (nth_error_None l i)) by lia. reflexivity.
Qed.

Lemma covers_less : forall names i j, i <= j -> covers names j = true -> covers names i = true.
Proof. intros [l|] i j L C; [|reflexivity]. cbn in *. apply Nat.leb_le in C. apply Nat.leb_le. lia. Qed.

Lemma print_layout : forall E o t level role h, @print_tree E o level role h t =
  if tnamed t then Ok (layout (colored o) (width o) number level role (numbering h t)) else UB.
Proof.
  intros E o t. induction t as [s names x ks IH] using tree_induction. intros level role h.
  cbn [print_tree].
  assert (X : forall l i, Forall (of_kid (fun t => forall level role h, @print_tree E o level role h t =
      if tnamed t then Ok (layout (colored o) (width o) number level role (numbering h t)) else UB)) l ->
    (fix print_kids (i : nat) (l : list (option (nat * tree))) : outcome E text :=
           match l with
           | [] => Ok []
           | k :: l' =>
               let* name := child_name names i in
               let* a := match k with
                         | None => Ok (null_line o (S level) name)
                         | Some (h, t1) => print_tree o (S level) name h t1
                         end in
               let* b := print_kids (S i) l' in
               Ok (a ++ b)
           end) i l =
    if (match l with [] => true | _ => covers names (i + length l) end) && forallb knamed l
    then Ok (flat_map (kid_text o level) (roles names i (map kid_numbered l))) else UB).
  { induction l as [|k l IHl]; intros i F; [reflexivity|].
    inversion F as [|? ? Fk Fl]; subst. rewrite covers_role, (IHl (S i) Fl). clear IHl.
    cbn [length forallb map roles flat_map]. replace (i + S (length l)) with (S i + length l) by lia.
    assert (CS : covers names (S i + length l) = true -> covers names (S i) = true) by (apply covers_less; lia).
    destruct (covers names (S i + length l)) eqn:CL.
    - rewrite (CS eq_refl). cbn [bind].
      destruct k as [[h1 t1]|].
      + cbn [of_kid] in Fk. rewrite Fk. cbn [knamed]. destruct (tnamed t1); [|reflexivity]. cbn [bind andb].
        destruct l as [|k2 l2]; [cbn [andb forallb bind map roles flat_map kid_text kid_numbered]; rewrite ?app_nil_r; reflexivity|].
        cbn [andb]. destruct (forallb knamed (k2 :: l2)); reflexivity.
      + cbn [bind andb knamed].
        assert (N : null_line o (S level) (role_at names i) = kid_text o level (role_at names i, None)).
        { unfold null_line, kid_text. rewrite role_printed. rewrite (Nat.mul_comm (width o)). reflexivity. }
        destruct l as [|k2 l2]; [cbn [andb forallb bind map roles flat_map]; rewrite N; reflexivity|].
        cbn [andb]. destruct (forallb knamed (k2 :: l2)); [|reflexivity]. cbn [bind]. rewrite N. reflexivity.
    - cbn [andb].
      destruct (covers names (S i)) eqn:CI; [|reflexivity]. cbn [bind].
      destruct l as [|k2 l2]; [cbn [length] in CL; rewrite Nat.add_0_r in CL; congruence|].
      destruct k as [[h1 t1]|]; [cbn [of_kid] in Fk; rewrite Fk; destruct (tnamed t1); reflexivity | reflexivity]. }
  rewrite (X ks 0 IH). cbn [tnamed]. fold kid. change (fun k : kid => match k with Some (_, t1) => tnamed t1 | None => true end) with knamed.
  replace (match ks with [] => true | _ => covers names (0 + length ks) end) with (covers names (length ks))
    by (destruct ks, names; reflexivity).
  destruct (covers names (length ks) && forallb knamed ks); [|reflexivity]. cbn [bind].
  f_equal. cbn [numbering layout]. unfold node_line. rewrite role_printed. rewrite (Nat.mul_comm (width o)).
  change (fun x0 : text * option numbered => _) with (kid_text o level) at 1.
  destruct (colored o); repeat rewrite <- app_assoc; reflexivity.
Qed.

(** * Numberings *)
Lemma roles_map : forall A B (f : A -> B) names i l, roles names i (map f l) = map (fun x => (fst x, f (snd x))) (roles names i l).
Proof. intros A B f names i l. revert i. induction l as [|a l IH]; intros i; cbn; [reflexivity|]. now rewrite IH. Qed.

Lemma numbering_view : forall t h, unnumbered (numbering h t) = tview t.
Proof.
  induction t as [s names x ks IH] using tree_induction. intros h. cbn [numbering tview unnumbered]. f_equal.
  generalize 0. induction IH as [|k ks Hk _ IHks]; intros i; cbn; [reflexivity|].
  rewrite IHks. destruct k as [[h1 t1]|]; [cbn [of_kid] in Hk; rewrite Hk|]; reflexivity.
Qed.

Lemma numbering_numbers : forall t h, numbers (numbering h t) = h :: tnumbers t.
Proof.
  induction t as [s names x ks IH] using tree_induction. intros h. cbn [numbering tnumbers numbers]. f_equal.
  generalize 0. induction IH as [|k ks Hk _ IHks]; intros i; cbn; [reflexivity|].
  rewrite IHks. destruct k as [[h1 t1]|]; [cbn [of_kid] in Hk; rewrite Hk|]; reflexivity.
Qed.

Lemma numbering_descending : forall t h, tbelow h t -> descending (numbering h t).
Proof.
  induction t as [s names x ks IH] using tree_induction. intros h B. apply below_node in B. cbn [numbering descending].
  generalize 0. induction IH as [|k ks Hk _ IHks]; intros i; cbn [map roles]; [exact Logic.I|].
  inversion B as [|? ? Bk Br]; subst. destruct k as [[h1 t1]|]; [|apply IHks, Br].
  split; [|apply IHks, Br]. destruct Bk as (B1 & B2). split; [destruct t1; exact B1 | apply Hk, B2].
Qed.

(** * What is built *)
Definition cnt (l : list nat) (x : nat) : nat := count_occ Nat.eq_dec l x.
Definition inb (a b x : nat) : nat := if (a <=? x) && (x <? b) then 1 else 0.

Lemma inb_empty : forall a x, inb a a x = 0.
Proof. intros a x. unfold inb. destruct (Nat.leb_spec a x), (Nat.ltb_spec x a); cbn; lia. Qed.
Lemma inb_join : forall a b c x, a <= b -> b <= c -> inb a c x = inb a b x + inb b c x.
Proof.
  intros a b c x L M. unfold inb.
  destruct (Nat.leb_spec a x), (Nat.ltb_spec x b), (Nat.leb_spec b x), (Nat.ltb_spec x c); cbn; lia.
Qed.
Lemma cnt_app : forall a b x, cnt (a ++ b) x = cnt a x + cnt b x.
Proof. intros. apply count_occ_app. Qed.
Lemma cnt_cons : forall h l x, cnt (h :: l) x = inb h (S h) x + cnt l x.
Proof.
  intros h l x. unfold cnt, inb. cbn [count_occ].
  destruct (Nat.eq_dec h x), (Nat.leb_spec h x), (Nat.ltb_spec x (S h)); cbn; lia.
Qed.

Definition made (r : tree * nat) (n : nat) (v : view) (b : bool) : Prop :=
  let (t, n') := r in
  n <= n' /\ (forall x, cnt (tnumbers t) x = inb n n' x) /\ tview t = v /\ tnamed t = b /\ (forall h, n' <= h -> tbelow h t).
Definition kid_made (r : kid * nat) (n : nat) (v : option view) (b : bool) : Prop :=
  let (k, n') := r in
  n <= n' /\ (forall x, cnt (knumbers k) x = inb n n' x) /\ kview k = v /\ knamed k = b /\ (forall h, n' <= h -> kbelow h k).
Definition kids_made (r : list kid * nat) (n : nat) (vs : list (option view)) (b : bool) : Prop :=
  let (ks, n') := r in
  n <= n' /\ (forall x, cnt (flat_map knumbers ks) x = inb n n' x) /\ map kview ks = vs /\ forallb knamed ks = b
  /\ (forall h, n' <= h -> Forall (kbelow h) ks).

Lemma view_node : forall s names x ks, tview (Tree s names x ks) = View s x (roles names 0 (map kview ks)).
Proof. reflexivity. Qed.
Lemma named_node : forall s names x ks, tnamed (Tree s names x ks) = covers names (length ks) && forallb knamed ks.
Proof. reflexivity. Qed.
Lemma numbers_node : forall s names x ks, tnumbers (Tree s names x ks) = flat_map knumbers ks.
Proof. reflexivity. Qed.

Lemma roles_none : forall A (l : list A) i, roles None i l = map (fun a => ([], a)) l.
Proof. induction l as [|a l IH]; intros i; cbn; [reflexivity|]. now rewrite IH. Qed.

Lemma made_word : forall r n v b, made r n v b -> tree_text (fst r) = word_of v.
Proof. intros [[s names x ks] n'] n v b (_ & _ & V & _). subst v. reflexivity. Qed.

Lemma each_made : forall A (f : A -> nat -> tree * nat) (v : A -> view) (b : A -> bool) l n,
  Forall (fun a => forall n, made (f a n) n (v a) (b a)) l ->
  kids_made (push_each f l n) n (map (fun a => Some (v a)) l) (forallb b l).
Proof.
  intros A f v b l n F. revert n. induction F as [|a l Ha _ IH]; intros n.
  - cbn. repeat split; try constructor. intros x. symmetry. apply inb_empty.
  - cbn [push_each]. specialize (Ha n). destruct (f a n) as [t n1]. unfold push. specialize (IH (S n1)).
    fold (push_each f). destruct (push_each f l (S n1)) as [ks n2].
    destruct Ha as (L1 & N1 & V1 & B1 & D1), IH as (L2 & N2 & V2 & B2 & D2). unfold kids_made.
    repeat split.
    + lia.
    + intros x. cbn [flat_map knumbers]. cbn [app]. rewrite cnt_cons, cnt_app, N1, N2.
      rewrite (inb_join n n1 n2 x), (inb_join n1 (S n1) n2 x) by lia. lia.
    + cbn [map kview]. rewrite V1, V2. reflexivity.
    + cbn [forallb knamed]. rewrite B1, B2. reflexivity.
    + intros h L. constructor; [split; [lia|apply D1; lia] | apply D2, L].
Qed.

(** A node without names of its children. *)
Lemma list_made : forall s x ks n n' vs b, kids_made (ks, n') n vs b ->
  made (Tree s None x ks, n') n (View s x (map (fun v => ([], v)) vs)) b.
Proof.
  intros s x ks n n' vs b (L & C & V & B & D). repeat split; [exact L | | | |].
  - intros y. rewrite numbers_node. apply C.
  - rewrite view_node, roles_none, V. reflexivity.
  - rewrite named_node, B. reflexivity.
  - intros h H. apply below_node, D, H.
Qed.

Lemma push_made : forall t n' n v b, made (t, n') n v b -> kid_made (push n' t) n (Some v) b.
Proof.
  intros t n' n v b (L & C & V & B & D). repeat split; cbn [kview knamed knumbers kbelow].
  - lia.
  - intros x. rewrite cnt_cons, C. rewrite (inb_join n n' (S n') x) by lia. lia.
  - now rewrite V.
  - exact B.
  - lia.
  - apply D. lia.
Qed.

Lemma option_made : forall A (f : A -> nat -> tree * nat) (v : A -> view) (b : A -> bool) x n,
  (forall a n, x = Some a -> made (f a n) n (v a) (b a)) ->
  kid_made (push_option f x n) n (option_map v x) (match x with Some a => b a | None => true end).
Proof.
  intros A f v b [a|] n F; cbn [push_option option_map].
  - specialize (F a n eq_refl). destruct (f a n) as [t n1]. apply push_made, F.
  - repeat split; cbn; [lia|]. intros x. symmetry. apply inb_empty.
Qed.

(** * Annotations *)
Definition slim (a : parsed_annotation) : bool := length (pn_arguments a) <=? 1.
Definition slim_carried (x : carried) : bool := slim (snd x).

Lemma argument_made : forall a n, made (argument_tree a n) n (view_argument a) true.
Proof.
  intros a n. unfold argument_tree. repeat split; [lia | |].
  - intros x. symmetry. apply inb_empty.
  - cbn [tview map roles]. unfold view_argument. f_equal. rewrite text_eqb_nil. destruct (aa_key a); [|reflexivity].
    destruct (aa_value_type a); reflexivity.
Qed.

Lemma forallb_true : forall A (l : list A), forallb (fun _ => true) l = true.
Proof. induction l; cbn; auto. Qed.

Lemma roles_type : forall A (l : list A) i, roles (Some [str "type"]) i l = map (fun a => (str "type", a)) l.
Proof.
  induction l as [|a l IH]; intros i; cbn [roles map]; [reflexivity|]. rewrite IH. f_equal. f_equal.
  unfold role_at. destruct i as [|[|i]]; reflexivity.
Qed.

Lemma annotation_made : forall a n, made (annotation_tree a n) n (view_annotation a) (slim a).
Proof.
  intros a n. unfold annotation_tree.
  pose proof (each_made _ argument_tree view_argument (fun _ => true) (pn_arguments a) n) as X.
  assert (F : Forall (fun x => forall n, made (argument_tree x n) n (view_argument x) true) (pn_arguments a))
    by (apply Forall_forall; intros; apply argument_made).
  specialize (X F). clear F. destruct (push_each argument_tree (pn_arguments a) n) as [ks n1].
  destruct X as (L & C & V & B & D). repeat split; [exact L | | | |].
  - intros x. rewrite numbers_node. apply C.
  - rewrite view_node, V, roles_type. unfold view_annotation. rewrite map_map. reflexivity.
  - rewrite named_node, B, forallb_true, andb_true_r. unfold slim. rewrite <- (map_length kview), V, map_length. reflexivity.
  - intros h H. apply below_node, D, H.
Qed.

Lemma kids_of_annotations : forall l n, kids_made (annotation_kids l n) n (map (fun a => Some (view_annotation a)) l) (forallb slim l).
Proof. intros l n. apply each_made. apply Forall_forall. intros; apply annotation_made. Qed.

(** The list is pushed at some later time. *)
Lemma list_of_annotations : forall l n m ks n', annotation_kids l n = (ks, n') -> n' <= m ->
  let (k, m') := push_annotations ks m in
  n <= n' /\ m <= m' /\ (forall x, cnt (knumbers k) x = inb n n' x + inb m m' x) /\ kview k = view_annotations l
  /\ knamed k = forallb slim l /\ (forall h, m' <= h -> kbelow h k).
Proof.
  intros l n m ks n' E L. pose proof (kids_of_annotations l n) as X. rewrite E in X. clear E.
  destruct X as (L1 & C & V & B & D). destruct ks as [|k0 ks]; cbn [push_annotations].
  - destruct l; [|discriminate V]. repeat split; [exact L1 | lia | ]. intros x. specialize (C x). cbn in *. rewrite inb_empty. lia.
  - assert (NE : l <> []) by (intros ->; discriminate V).
    unfold push. repeat split; [exact L1 | lia | | | | |].
    + intros x. cbn [knumbers]. rewrite cnt_cons, numbers_node, C. lia.
    + cbn [kview]. rewrite view_node, V, roles_none. unfold view_annotations. destruct l; [congruence|]. do 2 f_equal.
      rewrite map_map. reflexivity.
    + cbn [knamed]. rewrite named_node, B. reflexivity.
    + lia.
    + apply below_node, D. lia.
Qed.

Lemma slim_on : forall c l, forallb slim_carried (on c l) = forallb slim l.
Proof. intros c l. unfold on. induction l as [|a l IH]; cbn; [reflexivity|]. now rewrite IH. Qed.

(** * Expressions *)
Lemma code_operator : forall k, code k = operator_word k.
Proof. destruct k; reflexivity. Qed.
Lemma code_type : forall t, code (type_keyword t) = type_word t.
Proof. destruct t; reflexivity. Qed.

Lemma slim_app : forall a b, forallb slim_carried (a ++ b) = forallb slim_carried a && forallb slim_carried b.
Proof. intros. apply forallb_app. Qed.
Lemma slim_flat : forall A (f : A -> list carried) l, forallb slim_carried (flat_map f l) = forallb (fun a => forallb slim_carried (f a)) l.
Proof. induction l as [|a l IH]; cbn [flat_map forallb]; [reflexivity|]. now rewrite slim_app, IH. Qed.

(** Joins the intervals that the parts of a node take. *)
Ltac joined :=
  repeat match goal with
  | |- context [inb ?a ?b ?x + inb ?b ?c ?x] => rewrite <- (inb_join a b c x) by lia
  end.
Ltac sums :=
  intros ?x; rewrite ?numbers_node; cbn [flat_map knumbers app]; rewrite ?app_nil_r; repeat first [rewrite cnt_cons | rewrite cnt_app];
  repeat match goal with C : forall y, cnt _ y = _ |- _ => rewrite C end.
(** The interval from the first to the last bound, cut at the bounds between them. *)
Ltac cut_at x a l c :=
  match l with
  | nil => idtac
  | ?b :: ?r => rewrite (inb_join a b c x) by lia; cut_at x b r c
  end.
Ltac bounds a l c := sums; match goal with |- _ = inb _ _ ?x => cut_at x a l c end; lia.

Lemma below_kids : forall h s names x ks, Forall (kbelow h) ks -> tbelow h (Tree s names x ks).
Proof. intros. apply below_node. assumption. Qed.

Ltac below := intros ?h ?Lh; apply below_kids;
  repeat first [apply Forall_cons | apply Forall_nil];
  match goal with
  | |- _ < _ /\ _ => split; [lia|]
  | |- kbelow _ (Some _) => split; [lia|]
  | _ => idtac
  end; first [exact Logic.I | match goal with D : forall h, _ <= h -> _ |- _ => apply D; lia end].

Definition expr_made (e : pexpr) : Prop := forall n, made (expr_tree e n) n (view_expr e) (forallb slim_carried (carried_expr e)).
Definition type_made (t : ptype) : Prop := forall n, made (type_tree t n) n (view_type t) (forallb slim_carried (carried_type t)).

Lemma type_from : forall t, P_type expr_made t -> type_made t.
Proof.
  intros [type [e|]] H n; cbn [type_tree P_type] in *.
  - specialize (H n). destruct (expr_tree e n) as [t n1]. unfold push. destruct H as (L & C & V & B & D). unfold made. split; [lia|]. split; [|split; [|split]].
    + bounds n [n1] (S n1).
    + rewrite view_node. cbn [map kview]. rewrite V, code_type. reflexivity.
    + rewrite named_node. cbn [forallb knamed]. rewrite B. cbn. now rewrite andb_true_r.
    + below.
  - repeat split; [lia | | ].
    + intros x. symmetry. apply inb_empty.
    + rewrite view_node. cbn [map kview]. rewrite code_type. reflexivity.
Qed.

Lemma exprs_made : forall e, expr_made e.
Proof.
  induction e using pexpr_induction; intros n; cbn [expr_tree carried_expr].
  - apply type_from in H. specialize (IHe n). destruct (expr_tree e n) as [t1 n1].
    pose proof (made_word _ _ _ _ IHe) as W. specialize (H n1). destruct (type_tree t n1) as [t2 n2].
    destruct IHe as (L1 & C1 & V1 & B1 & D1), H as (L2 & C2 & V2 & B2 & D2). unfold push. cbn [fst] in W. unfold made. split; [lia|]. split; [|split; [|split]].
    + bounds n [n1; n2; S n2] (S (S n2)).
    + rewrite view_node. cbn [map kview]. rewrite V1, V2, W. reflexivity.
    + rewrite named_node. cbn [forallb knamed]. rewrite B1, B2, slim_app. cbn. now rewrite andb_true_r.
    + below.
  - specialize (IHe1 n). destruct (expr_tree e1 n) as [t1 n1]. pose proof (made_word _ _ _ _ IHe1) as W.
    specialize (IHe2 n1). destruct (expr_tree e2 n1) as [t2 n2]. specialize (IHe3 n2). destruct (expr_tree e3 n2) as [t3 n3].
    destruct IHe1 as (L1 & C1 & V1 & B1 & D1), IHe2 as (L2 & C2 & V2 & B2 & D2), IHe3 as (L3 & C3 & V3 & B3 & D3).
    unfold push. cbn [fst] in W. unfold made. split; [lia|]. split; [|split; [|split]].
    + bounds n [n1; n2; n3; S n3; S (S n3)] (S (S (S n3))).
    + rewrite view_node. cbn [map kview]. rewrite V1, V2, V3, W. reflexivity.
    + rewrite named_node. cbn [forallb knamed]. rewrite B1, B2, B3, !slim_app. cbn. now rewrite andb_true_r.
    + below.
  - specialize (IHe1 n). destruct (expr_tree e1 n) as [t1 n1].
    specialize (IHe2 n1). destruct (expr_tree e2 n1) as [t2 n2].
    destruct IHe1 as (L1 & C1 & V1 & B1 & D1), IHe2 as (L2 & C2 & V2 & B2 & D2).
    unfold push. unfold made. split; [lia|]. split; [|split; [|split]].
    + bounds n [n1; n2; S n2] (S (S n2)).
    + rewrite view_node. cbn [map kview]. rewrite V1, V2, code_operator. reflexivity.
    + rewrite named_node. cbn [forallb knamed]. rewrite B1, B2, !slim_app. cbn. now rewrite andb_true_r.
    + below.
  - specialize (IHe n). destruct (expr_tree e n) as [t1 n1]. destruct IHe as (L1 & C1 & V1 & B1 & D1). unfold push. unfold made. split; [lia|]. split; [|split; [|split]].
    + bounds n [n1] (S n1).
    + rewrite view_node. cbn [map kview]. rewrite V1, code_operator. reflexivity.
    + rewrite named_node. cbn [forallb knamed]. rewrite B1. cbn. now rewrite andb_true_r.
    + below.
  - pose proof (each_made _ expr_tree view_expr (fun a => forallb slim_carried (carried_expr a)) args n H) as X.
    destruct (push_each expr_tree args n) as [ks n1].
    destruct (annotation_kids annotations n1) as [aks n2] eqn:EA.
    pose proof (list_of_annotations _ _ n2 _ _ EA (le_n _)) as Y. destruct (push_annotations aks n2) as [k n3].
    destruct X as (L1 & C1 & V1 & B1 & D1), Y as (L2 & L3 & C2 & V2 & B2 & D2). unfold made. split; [lia|]. split; [|split; [|split]].
    + intros x0. rewrite numbers_node, flat_map_app, cnt_app. cbn [flat_map]. rewrite app_nil_r, C1, C2.
      cut_at x0 n [n1; n2] n3. lia.
    + rewrite view_node, map_app, V1, roles_none, map_app. cbn [map]. rewrite V2. cbn [view_expr]. rewrite map_map. reflexivity.
    + rewrite named_node, forallb_app, B1. cbn [forallb covers]. rewrite B2, slim_app, slim_on, slim_flat. cbn [andb].
      rewrite andb_true_r. apply andb_comm.
    + intros h Lh. apply below_kids, Forall_app. split; [apply D1; lia | constructor; [apply D2; lia | constructor]].
  - repeat split; [lia|]. intros y. symmetry. apply inb_empty.
  - repeat split; [lia|]. intros y. symmetry. apply inb_empty.
Qed.

Lemma types_made : forall t, type_made t.
Proof. intros t. apply type_from. destruct t as [ty [e|]]; cbn; [apply exprs_made | exact Logic.I]. Qed.

(** * Statements *)
Lemma opt_type : forall x n, kid_made (push_option type_tree x n) n (option_map view_type x)
  (forallb slim_carried (carried_option carried_type x)).
Proof.
  intros x n. pose proof (option_made _ type_tree view_type (fun a => forallb slim_carried (carried_type a)) x n) as X.
  destruct x; apply X; intros a m _; apply types_made.
Qed.
Lemma opt_expr : forall x n, kid_made (push_option expr_tree x n) n (option_map view_expr x)
  (forallb slim_carried (carried_option carried_expr x)).
Proof.
  intros x n. pose proof (option_made _ expr_tree view_expr (fun a => forallb slim_carried (carried_expr a)) x n) as X.
  destruct x; apply X; intros a m _; apply exprs_made.
Qed.

Definition stmt_made (s : pstmt) : Prop := forall n, made (stmt_tree s n) n (view_stmt s) (forallb slim_carried (carried_stmt s)).

Definition view_block (l : list pstmt) : view := View (str "Block_Statement") (str "{") (map (fun s1 => has "" (view_stmt s1)) l).
Lemma block_made : forall l n, Forall stmt_made l ->
  let (ks, n1) := push_each stmt_tree l n in
  made (block_node ks, n1) n (view_block l) (forallb slim_carried (flat_map carried_stmt l)).
Proof.
  intros l n F. pose proof (each_made _ stmt_tree view_stmt (fun a => forallb slim_carried (carried_stmt a)) l n F) as X.
  destruct (push_each stmt_tree l n) as [ks n1]. unfold block_node, view_block. rewrite slim_flat.
  replace (map (fun s1 => has "" (view_stmt s1)) l) with (map (fun v : option view => ([] : text, v)) (map (fun a => Some (view_stmt a)) l))
    by (rewrite map_map; reflexivity).
  apply list_made, X.
Qed.

Ltac start_annotations EA :=
  match goal with |- context [annotation_kids ?l ?n] => destruct (annotation_kids l n) as [aks na] eqn:EA end.
Ltac named := rewrite named_node; cbn [forallb knamed];
  repeat match goal with B : knamed _ = _ |- _ => rewrite B; clear B | B : tnamed _ = _ |- _ => rewrite B; clear B end;
  cbn [carried_stmt]; rewrite ?slim_app, ?slim_on; cbn [covers length Nat.leb andb]; rewrite ?andb_true_r; try reflexivity.
Ltac viewed := rewrite view_node; cbn [map kview];
  repeat match goal with V : kview _ = _ |- _ => rewrite V; clear V | V : tview _ = _ |- _ => rewrite V; clear V end; try reflexivity.

Lemma stmts_made : forall s, stmt_made s.
Proof.
  induction s using pstmt_induction; intros n; cbn [stmt_tree].
  - (* const *) start_annotations EA.
    pose proof (opt_type t na) as X. destruct (push_option type_tree t na) as [k2 n2].
    pose proof (exprs_made e n2) as Y. destruct (expr_tree e n2) as [t3 n3].
    destruct X as (L1 & C1 & V1 & B1 & D1), Y as (L2 & C2 & V2 & B2 & D2).
    pose proof (list_of_annotations _ _ n3 _ _ EA ltac:(lia)) as Z. destruct (push_annotations aks n3) as [k1 n4].
    destruct Z as (L3 & L4 & C3 & V3 & B3 & D3). unfold push. unfold made. split; [lia|]. split; [|split; [|split]].
    + bounds n [na; n2; n3; n4] (S n4).
    + viewed.
    + named.
    + below.
  - (* let *) start_annotations EA.
    pose proof (opt_type t na) as X. destruct (push_option type_tree t na) as [k2 n2].
    pose proof (opt_expr e n2) as Y. destruct (push_option expr_tree e n2) as [k3 n3].
    destruct X as (L1 & C1 & V1 & B1 & D1), Y as (L2 & C2 & V2 & B2 & D2).
    pose proof (list_of_annotations _ _ n3 _ _ EA ltac:(lia)) as Z. destruct (push_annotations aks n3) as [k1 n4].
    destruct Z as (L3 & L4 & C3 & V3 & B3 & D3). unfold made. split; [lia|]. split; [|split; [|split]].
    + bounds n [na; n2; n3] n4.
    + viewed.
    + named.
    + below.
  - (* static assertion *) pose proof (exprs_made e n) as Y. destruct (expr_tree e n) as [t1 n1].
    destruct Y as (L2 & C2 & V2 & B2 & D2). unfold push, made. split; [lia|]. split; [|split; [|split]].
    + bounds n [n1] (S n1).
    + viewed.
    + named.
    + below.
  - (* if *) start_annotations EA.
    pose proof (exprs_made c na) as Y. destruct (expr_tree c na) as [t2 n2].
    pose proof (block_made b n2 H) as X. destruct (push_each stmt_tree b n2) as [ks n3].
    destruct Y as (L1 & C1 & V1 & B1 & D1), X as (L2 & C2 & V2 & B2 & D2).
    pose proof (list_of_annotations _ _ n3 _ _ EA ltac:(lia)) as Z. destruct (push_annotations aks n3) as [k1 n5].
    destruct Z as (L3 & L4 & C3 & V3 & B3 & D3). unfold push, made. split; [lia|]. split; [|split; [|split]].
    + bounds n [na; n2; n3; n5; S n5] (S (S n5)).
    + viewed.
    + named.
    + below.
  - (* if, else *) start_annotations EA.
    pose proof (exprs_made c na) as Y. destruct (expr_tree c na) as [t2 n2].
    pose proof (block_made b n2 H) as X. destruct (push_each stmt_tree b n2) as [ks n3].
    specialize (IHs n3). destruct (stmt_tree s n3) as [t4 n4].
    destruct Y as (L1 & C1 & V1 & B1 & D1), X as (L2 & C2 & V2 & B2 & D2), IHs as (L5 & C5 & V5 & B5 & D5). unfold push.
    pose proof (list_of_annotations _ _ (S n4) _ _ EA ltac:(lia)) as Z. destruct (push_annotations aks (S n4)) as [k1 n5].
    destruct Z as (L3 & L4 & C3 & V3 & B3 & D3). unfold made. split; [lia|]. split; [|split; [|split]].
    + bounds n [na; n2; n3; n4; S n4; n5; S n5] (S (S n5)).
    + viewed.
    + named.
    + below.
  - (* while *) start_annotations EA.
    pose proof (exprs_made c na) as Y. destruct (expr_tree c na) as [t2 n2].
    pose proof (block_made b n2 H) as X. destruct (push_each stmt_tree b n2) as [ks n3].
    destruct Y as (L1 & C1 & V1 & B1 & D1), X as (L2 & C2 & V2 & B2 & D2).
    pose proof (list_of_annotations _ _ n3 _ _ EA ltac:(lia)) as Z. destruct (push_annotations aks n3) as [k1 n5].
    destruct Z as (L3 & L4 & C3 & V3 & B3 & D3). unfold push, made. split; [lia|]. split; [|split; [|split]].
    + bounds n [na; n2; n3; n5; S n5] (S (S n5)).
    + viewed.
    + named.
    + below.
  - repeat split; [lia|]. intros y. symmetry. apply inb_empty.
  - repeat split; [lia|]. intros y. symmetry. apply inb_empty.
  - (* return *) pose proof (opt_expr e n) as Y. destruct (push_option expr_tree e n) as [k1 n1].
    destruct Y as (L2 & C2 & V2 & B2 & D2). unfold made. split; [lia|]. split; [|split; [|split]].
    + bounds n (@nil nat) n1.
    + viewed.
    + named.
    + below.
  - (* assignment *) start_annotations EA.
    pose proof (exprs_made e na) as Y. destruct (expr_tree e na) as [t2 n2].
    destruct Y as (L1 & C1 & V1 & B1 & D1).
    pose proof (list_of_annotations _ _ n2 _ _ EA ltac:(lia)) as Z. destruct (push_annotations aks n2) as [k1 n3].
    destruct Z as (L3 & L4 & C3 & V3 & B3 & D3). unfold push, made. split; [lia|]. split; [|split; [|split]].
    + bounds n [na; n2; n3] (S n3).
    + viewed.
    + named.
    + below.
  - pose proof (block_made b n H) as X. destruct (push_each stmt_tree b n) as [ks n3]. exact X.
  - apply exprs_made.
Qed.

(** * Declarations *)
Lemma parameter_made : forall p n, made (parameter_tree p n) n (view_parameter p) (forallb slim_carried (carried_type (pp_type p))).
Proof.
  intros p n. unfold parameter_tree. pose proof (types_made (pp_type p) n) as Y. destruct (type_tree (pp_type p) n) as [t1 n1].
  destruct Y as (L1 & C1 & V1 & B1 & D1). unfold push, made. split; [lia|]. split; [|split; [|split]].
  - bounds n [n1] (S n1).
  - viewed.
  - named.
  - below.
Qed.

Lemma last_rev : forall A (l : list A) p r d, rev l = p :: r -> last l d = p.
Proof. intros A l p r d E. rewrite <- (rev_involutive l), E. cbn [rev]. apply last_last. Qed.

Lemma parameters_made : forall l n, kid_made (parameters_kid l n) n (view_parameters l)
  (forallb slim_carried (flat_map (fun p => carried_type (pp_type p)) l)).
Proof.
  intros l n.
  pose proof (each_made _ parameter_tree view_parameter (fun p => forallb slim_carried (carried_type (pp_type p))) l n
    ltac:(apply Forall_forall; intros; apply parameter_made)) as X.
  assert (R : l = [] \/ exists p r, rev l = p :: r).
  { destruct (rev l) as [|p r] eqn:E; [|right; eauto]. left. rewrite <- (rev_involutive l), E. reflexivity. }
  destruct R as [->|(p & r & R)].
  - repeat split; cbn; [lia|]. intros x. symmetry. apply inb_empty.
  - replace (parameters_kid l n) with (let (ks, n1) := push_each parameter_tree l n in
      push n1 (Tree (str "Parameter_List") None (last (map pp_name l) []) ks)) by (destruct l; [discriminate R|reflexivity]).
    destruct (push_each parameter_tree l n) as [ks n1]. unfold view_parameters. rewrite R.
    rewrite (last_rev _ (map pp_name l) (pp_name p) (map pp_name r)) by (rewrite <- map_rev, R; reflexivity).
    rewrite slim_flat. apply push_made.
    replace (map (fun q => has "" (view_parameter q)) l) with (map (fun v : option view => ([] : text, v)) (map (fun a => Some (view_parameter a)) l))
      by (rewrite map_map; reflexivity).
    apply list_made, X.
Qed.

Lemma decls_made : forall d n, made (decl_tree d n) n (view_decl d) (forallb slim_carried (carried_declaration d)).
Proof.
  intros [f|s] n; [|apply stmts_made]. cbn [decl_tree carried_declaration]. unfold function_tree, carried_function.
  start_annotations EA.
  pose proof (parameters_made (pf_parameters f) na) as X. destruct (parameters_kid (pf_parameters f) na) as [k2 n2].
  pose proof (types_made (pf_return_type f) n2) as Y. destruct (type_tree (pf_return_type f) n2) as [t3 n3].
  pose proof (opt_expr (pf_requires f) n3) as Z. destruct (push_option expr_tree (pf_requires f) n3) as [k4 n4].
  pose proof (block_made (pf_body f) n4 ltac:(apply Forall_forall; intros; apply stmts_made)) as W.
  destruct (push_each stmt_tree (pf_body f) n4) as [ks n5].
  destruct X as (L1 & C1 & V1 & B1 & D1), Y as (L2 & C2 & V2 & B2 & D2), Z as (L5 & C5 & V5 & B5 & D5), W as (L6 & C6 & V6 & B6 & D6).
  pose proof (list_of_annotations _ _ n5 _ _ EA ltac:(lia)) as Z. destruct (push_annotations aks n5) as [k1 n6].
  destruct Z as (L3 & L4 & C3 & V3 & B3 & D3). unfold push, made. split; [lia|]. split; [|split; [|split]].
  - bounds n [na; n2; n3; n4; n5; n6; S n6] (S (S n6)).
  - viewed.
  - named.
  - below.
Qed.

Lemma program_made : forall p n, made (program_tree p n) n (view_program p) (forallb slim_carried (annotations_in p)).
Proof.
  intros p n. unfold program_tree, annotations_in.
  pose proof (each_made _ decl_tree view_decl (fun d => forallb slim_carried (carried_declaration d)) p n
    ltac:(apply Forall_forall; intros; apply decls_made)) as X.
  destruct (push_each decl_tree p n) as [ks n1]. rewrite slim_flat.
  replace (view_program p) with (View (str "Program") match ks with Some (_, t) :: _ => tree_text t | _ => [] end
    (map (fun v : option view => ([] : text, v)) (map (fun a => Some (view_decl a)) p))); [apply list_made, X|].
  destruct X as (_ & _ & V & _). unfold view_program. rewrite map_map. f_equal.
  destruct p as [|d p], ks as [|[[h t]|] ks]; try discriminate V; [reflexivity|].
  cbn [map kview] in V. injection V as V1 V2. rewrite <- V1. destruct t; reflexivity.
Qed.
