(** How C groups what the generator for C and C++ writes. *)
From Coq Require Import ZArith Ascii String List Bool Lia.
From Verif Require Import Prelude Text Types Ops Literals LiteralsSpec Tables Tokenizer TokenizerSpec TokenizerProofs AbsOps Ast
  NameLookup AstFacts CodeString Decimal DecimalSpec GenBase GenC GenFacts PrintSpec PrintFacts
  CGrammar CGrammarFacts CPrintSpec CSpell CPrintFacts.
Import ListNotations.
Open Scope string_scope.
Open Scope list_scope.
Open Scope nat_scope.

Ltac ands := repeat match goal with H : _ && _ = true |- _ => apply andb_prop in H; destruct H end.

(** ** Trees *)

Section Induction.
Variable P : c_tree -> Prop.
Hypothesis Hname : forall x, P (C_Name x).
Hypothesis Hnumber : forall n, P (C_Number n).
Hypothesis Hbool : forall b, P (C_Bool b).
Hypothesis Hunary : forall op a, P a -> P (C_Unary op a).
Hypothesis Hpostfix : forall op a, P a -> P (C_Postfix op a).
Hypothesis Hbinary : forall op a b, P a -> P b -> P (C_Binary op a b).
Hypothesis Hconditional : forall c a b, P c -> P a -> P b -> P (C_Conditional c a b).
Hypothesis Hcast : forall t a, P a -> P (C_Cast t a).
Hypothesis Hcall : forall f args, P f -> Forall P args -> P (C_Call f args).

Fixpoint tree_induction (t : c_tree) : P t :=
  match t with
  | C_Name x => Hname x
  | C_Number n => Hnumber n
  | C_Bool b => Hbool b
  | C_Unary op a => Hunary op a (tree_induction a)
  | C_Postfix op a => Hpostfix op a (tree_induction a)
  | C_Binary op a b => Hbinary op a b (tree_induction a) (tree_induction b)
  | C_Conditional c a b => Hconditional c a b (tree_induction c) (tree_induction a) (tree_induction b)
  | C_Cast t a => Hcast t a (tree_induction a)
  | C_Call f args =>
      Hcall f args (tree_induction f)
        ((fix all (l : list c_tree) : Forall P l :=
            match l with
            | [] => Forall_nil P
            | a :: rest => Forall_cons a (tree_induction a) (all rest)
            end) args)
  end.
End Induction.

(** Operators of one level written one after the other. *)
Fixpoint graft (op : text) (a b : c_tree) : c_tree :=
  match b with
  | C_Binary q b1 b2 => if same_level op q then C_Binary q (graft op a b1) b2 else C_Binary op a b
  | _ => C_Binary op a b
  end.

(** The tree that is read when right operands of the same level have no parentheses. *)
Fixpoint regroup (t : c_tree) : c_tree :=
  match t with
  | C_Name _ | C_Number _ | C_Bool _ => t
  | C_Unary op a => C_Unary op (regroup a)
  | C_Postfix op a => C_Postfix op (regroup a)
  | C_Binary op a b => graft op (regroup a) (regroup b)
  | C_Conditional c a b => C_Conditional (regroup c) (regroup a) (regroup b)
  | C_Cast y a => C_Cast y (regroup a)
  | C_Call f args => C_Call (regroup f) (map regroup args)
  end.

Lemma text_eqb_true : forall a b, text_eqb a b = true <-> a = b.
Proof.
  induction a as [|x a IH]; intros [|y b]; cbn; try (split; congruence).
  rewrite andb_true_iff, IH. unfold char_eqb. rewrite Ascii.eqb_eq. split; [intros (-> & ->); reflexivity | intros H; injection H; auto].
Qed.

Definition at_level (k : nat) (p : text) : Prop := exists s, p = str s /\ In s (operators_at k).

Lemma at_level_b : forall p k, existsb (fun s => text_eqb p (str s)) (operators_at k) = true <-> at_level k p.
Proof.
  intros p k. rewrite existsb_exists. unfold at_level. split; intros (s & A & B).
  - exists s. apply text_eqb_true in B. auto.
  - exists s. split; [exact B | apply text_eqb_true; exact A].
Qed.
Lemma same_level_iff : forall p q, same_level p q = true <-> exists k, at_level k p /\ at_level k q.
Proof.
  intros p q. unfold same_level. rewrite existsb_exists. split.
  - intros (k & _ & H). apply andb_prop in H. rewrite !at_level_b in H. exists k. exact H.
  - intros (k & P & Q). exists k. split.
    + destruct P as (s & _ & P). apply operators_bound in P. apply in_seq. lia.
    + apply andb_true_intro. rewrite !at_level_b. auto.
Qed.
Lemma at_level_unique : forall j k p, at_level j p -> at_level k p -> j = k.
Proof.
  intros j k p (s & -> & J) (s' & E & K). apply str_injective in E. subst s'. eapply operators_unique; eassumption.
Qed.
Lemma same_level_at : forall j k p q, at_level j p -> at_level k q -> same_level p q = (j =? k).
Proof.
  intros j k p q P Q. destruct (Nat.eqb_spec j k) as [<- | N].
  - apply same_level_iff. eauto.
  - destruct (same_level p q) eqn:E; [|reflexivity]. apply same_level_iff in E. destruct E as (i & P' & Q').
    exfalso. apply N. rewrite (at_level_unique _ _ _ P P'). exact (at_level_unique _ _ _ Q' Q).
Qed.
Lemma same_level_trans : forall k p p' q, at_level k p -> at_level k p' -> same_level p q = same_level p' q.
Proof.
  intros k p p' q P P'. destruct (same_level p q) eqn:E.
  - apply same_level_iff in E. destruct E as (i & A & B). rewrite <- (at_level_unique _ _ _ P A) in B.
    symmetry. apply same_level_iff. eauto.
  - destruct (same_level p' q) eqn:E'; [|reflexivity]. apply same_level_iff in E'. destruct E' as (i & A & B).
    rewrite <- (at_level_unique _ _ _ P' A) in B. rewrite <- E. apply same_level_iff. eauto.
Qed.

Lemma graft_graft : forall k p q a l r, at_level k p -> at_level k q ->
  graft p a (graft q l r) = graft q (graft p a l) r.
Proof.
  intros k p q a l r P Q. assert (PQ : same_level p q = true) by (apply same_level_iff; eauto).
  assert (TR : forall s, same_level p s = same_level q s) by (intros s; eapply same_level_trans; eassumption).
  induction r; cbn [graft]; try (rewrite PQ; reflexivity).
  destruct (same_level q op) eqn:E; cbn [graft]; [|rewrite PQ; reflexivity].
  rewrite TR, E, IHr1. reflexivity.
Qed.

Definition top_at (k : nat) (t : c_tree) : Prop := match t with C_Binary q _ _ => at_level k q | _ => True end.

Lemma graft_apart : forall j k p a b, at_level j p -> top_at k b -> j <> k -> graft p a b = C_Binary p a b.
Proof.
  intros j k p a b P B N. destruct b; try reflexivity. cbn [graft top_at] in *. rewrite (same_level_at _ _ _ _ P B).
  destruct (Nat.eqb_spec j k); [congruence | reflexivity].
Qed.
Lemma graft_top : forall k p a b, at_level k p -> top_at k (graft p a b).
Proof.
  intros k p a b P. destruct b; try exact P. cbn [graft]. destruct (same_level p op) eqn:E; [|exact P].
  apply same_level_iff in E. destruct E as (i & A & B). rewrite (at_level_unique _ _ _ P A). exact B.
Qed.

Lemma graft_leans : forall p a b, leans_left a = true -> leans_left b = true -> leans_left (graft p a b) = true.
Proof.
  unfold leans_left. intros p a b A B. induction b; cbn [graft]; try (cbn [every_node groups_right] in *; rewrite A, ?B; reflexivity).
  destruct (same_level p op) eqn:E.
  - cbn [every_node] in *. apply andb_prop in B. destruct B as [B0 B]. apply andb_prop in B. destruct B as [B1 B2].
    rewrite B2, (IHb1 B1). apply andb_true_intro. split; [|reflexivity]. exact B0.
  - cbn [every_node groups_right] in *. rewrite A, E, B. reflexivity.
Qed.
Lemma regroup_leans : forall t, leans_left (regroup t) = true.
Proof.
  induction t as [x | n | b | op a IHa | op a IHa | op a b IHa IHb | c a b IHc IHa IHb | y a IHa | f args IHf IHargs]
    using tree_induction; cbn [regroup]; try reflexivity; unfold leans_left in *; cbn [every_node groups_right negb andb].
  - exact IHa.
  - exact IHa.
  - apply graft_leans; assumption.
  - rewrite IHc, IHa, IHb. reflexivity.
  - exact IHa.
  - rewrite IHf. cbn. induction IHargs as [|a l A L IH]; [reflexivity|]. cbn. rewrite A. exact IH.
Qed.
Lemma regroup_same : forall t, leans_left t = true -> regroup t = t.
Proof.
  induction t as [x | n | b | op a IHa | op a IHa | op a b IHa IHb | c a b IHc IHa IHb | y a IHa | f args IHf IHargs]
    using tree_induction; intros L; unfold leans_left in *; cbn [every_node] in L; cbn [regroup]; try reflexivity;
    repeat match goal with H : _ && _ = true |- _ => apply andb_prop in H; destruct H end.
  - f_equal. auto.
  - f_equal. auto.
  - rewrite IHa, IHb by assumption. destruct b; try reflexivity. cbn [graft].
    match goal with G : negb (groups_right _) = true |- _ => cbn [groups_right] in G; apply negb_true_iff in G; rewrite G end.
    reflexivity.
  - f_equal; auto.
  - f_equal. auto.
  - f_equal; [auto|]. match goal with F : forallb _ _ = true |- _ => revert F end.
    induction IHargs as [|a l A B IH]; intros F; [reflexivity|]. cbn in F. apply andb_prop in F. destruct F as [F1 F2].
    cbn. rewrite A, IH by assumption. reflexivity.
Qed.
Theorem regroup_fixed : forall t, regroup t = t <-> leans_left t = true.
Proof. intros t. split; [intros <-; apply regroup_leans | apply regroup_same]. Qed.

(** ** What is written *)

Lemma derives_up : forall j k ts t, j <= k -> k <= 15 -> derives k ts t -> derives j ts t.
Proof.
  intros j k ts t L K D. induction L as [|k L IH]; [exact D|]. apply IH; [lia|]. apply d_up; [lia | exact D].
Qed.
Lemma derives_parens : forall k ts t, k <= 15 -> derives 0 ts t -> derives k (punct "(" :: ts ++ [punct ")"]) t.
Proof. intros k ts t K D. apply (derives_up k 15); [exact K | lia | apply d_parentheses; exact D]. Qed.

(** The level of an expression that is not a conditional. *)
Definition kind_level (k : expr_kind) : nat :=
  match c_binary k with Some op => match level_of op with Some n => n | None => 12 end | None => 12 end.

Lemma kind_at : forall k op, c_binary k = Some op -> In op (operators_at (kind_level k)).
Proof. intros k op H. destruct k; try discriminate H; injection H as <-; vm_compute; tauto. Qed.

Lemma kind_bounds : forall k, 2 <= kind_level k <= 12.
Proof. destruct k; vm_compute; lia. Qed.

Lemma kind_parens : forall k j ts t, derives (kind_level j) ts t -> derives (kind_level k) (punct "(" :: ts ++ [punct ")"]) t.
Proof.
  intros k j ts t D. pose proof (kind_bounds k). pose proof (kind_bounds j). apply derives_parens; [lia|].
  eapply derives_up; [| |exact D]; lia.
Qed.
Lemma kind_parens_next : forall k j ts t, derives (kind_level j) ts t -> derives (S (kind_level k)) (punct "(" :: ts ++ [punct ")"]) t.
Proof.
  intros k j ts t D. pose proof (kind_bounds k). pose proof (kind_bounds j). apply derives_parens; [lia|].
  eapply derives_up; [| |exact D]; lia.
Qed.
Lemma kind_up : forall k j ts t, kind_level k <= kind_level j -> derives (kind_level j) ts t -> derives (kind_level k) ts t.
Proof. intros k j ts t L D. pose proof (kind_bounds j). eapply derives_up; [exact L | lia | exact D]. Qed.
Lemma kind_next : forall k j ts t, k <= kind_level j -> k <> kind_level j -> derives (kind_level j) ts t -> derives (S k) ts t.
Proof. intros k j ts t L N D. pose proof (kind_bounds j). eapply derives_up; [| |exact D]; lia. Qed.

Lemma needs_level : forall k j op, c_binary k = Some op -> j <> if_expression ->
  (c_needs_parentheses k j = false -> kind_level k <= kind_level j) /\
  (c_needs_parentheses k j = true -> kind_level k <> kind_level j).
Proof.
  intros k j op H N. destruct k; try discriminate H; destruct j; try congruence; vm_compute; split; intros E;
    try discriminate E; try lia; discriminate.
Qed.

Section Group.
Variable o : code_options.
Variable d : c_dialect.
Variable const_value : positive -> option avalue.

Lemma value_level : forall v t, shows_value v t -> derives 12 (value_tokens v) t /\ regroup t = t /\ forall k, top_at k t.
Proof.
  intros v t H. destruct H as [z | z | z Z0 F | z Z0 F | w z Z0 F]; cbn [value_tokens];
    (split; [|split; [reflexivity | intros k; exact Logic.I]]).
  - apply (d_cast [word "void"] [Number (str "0")]); [constructor|]. apply (derives_up 12 15); [lia | lia|].
    apply d_number. split; [reflexivity|]. split; [discriminate|]. intros c r E N. injection E as <- <-. congruence.
  - apply (derives_up 12 15); [lia | lia|]. destruct (z =? 0)%Z; [apply d_false | apply d_true].
  - apply (derives_up 12 15); [lia | lia|]. rewrite (proj2 (Z.leb_le 0 z)) by lia. apply d_number, digits_of; [lia | exact F].
  - apply (derives_up 12 13); [lia | lia|]. rewrite (proj2 (Z.leb_gt 0 z)) by lia.
    apply (d_unary "-"); [cbn; tauto|]. apply (derives_up 12 15); [lia | lia|]. apply d_number, digits_of; [lia | exact F].
  - apply (derives_up 12 15); [lia | lia|]. apply d_number, digits_of; [lia | exact F].
Qed.

Lemma arguments_join : forall us ts, Forall2 (fun u t => derives 1 u t) us ts ->
  derives_arguments (cjoin true us) ts.
Proof.
  intros us ts H. induction H as [|u t us ts D H IH]; [constructor|]. cbn [cjoin app].
  destruct H as [|u' t' us ts D' H].
  - cbn. rewrite app_nil_r. apply da_last. exact D.
  - cbn [cjoin app] in *. apply da_more; [exact D | discriminate | exact IH].
Qed.

(** The tree as it is read. *)
Definition read_as (t : c_tree) : c_tree := if always_parenthesize o then t else regroup t.

Lemma not_if : forall e t, c_shows const_value e t -> is_conditional t = false -> expression_type e <> if_expression.
Proof.
  intros e t H N. destruct H; cbn [expression_type]; try discriminate.
  - destruct k; try discriminate.
  - destruct k; try discriminate.
Qed.

Lemma expr_grouped : forall e t, c_shows const_value e t -> widths_exist (bits o d) t = true -> no_conditional t = true ->
  derives (kind_level (expression_type e)) (ctk o d const_value true e) (read_as t) /\
  (always_parenthesize o = false -> top_at (kind_level (expression_type e)) (regroup t) /\
   forall k op ts a, In op (operators_at k) -> k <= kind_level (expression_type e) -> derives k ts a ->
   derives k (ts ++ punct op :: ctk o d const_value true e) (graft (str op) a (regroup t))).
Proof.
  unfold widths_exist, no_conditional.
  assert (REST : forall e u, c_shows const_value e u -> derives (kind_level (expression_type e)) (ctk o d const_value true e) (read_as u) ->
    kind_level (expression_type e) = 12 ->
    (always_parenthesize o = false -> forall k, top_at k (regroup u)) ->
    derives (kind_level (expression_type e)) (ctk o d const_value true e) (read_as u) /\
    (always_parenthesize o = false -> top_at (kind_level (expression_type e)) (regroup u) /\
      forall k op ts a, In op (operators_at k) -> k <= kind_level (expression_type e) -> derives k ts a ->
      derives k (ts ++ punct op :: ctk o d const_value true e) (graft (str op) a (regroup u)))).
  { intros e u S0 D K T. split; [exact D|]. intros AL. split; [apply T; exact AL|]. intros k op ts a O1 L DA.
    pose proof (operators_bound _ _ O1) as B. rewrite (graft_apart k (S k)); [| exists op; auto | apply T; exact AL | lia].
    apply d_binary; [exact O1 | exact DA|]. apply (derives_up (S k) 12); [lia | lia|]. rewrite K in D.
    unfold read_as in D. rewrite AL in D. exact D. }
  induction e as [cv e y IHe _ | cv l c r IHl IHc IHr | cv op l r IHl IHr | cv op e IHe
    | cv name lk st args IH | cv name lk g | cv lit k] using expr_width_induction; intros t H W N.
  - inversion H as [? ? a ? z CT SE | | | | | | |]; subst. cbn [every_node] in W, N. ands.
    destruct (IHe _ SE ltac:(assumption) ltac:(assumption)) as [D _].
    apply REST; [exact H | | reflexivity | intros _ k; exact Logic.I].
    cbn [ctk expression_type]. unfold target_of. rewrite CT.
    assert (E : read_as (C_Cast z a) = C_Cast z (read_as a)) by (unfold read_as; destruct (always_parenthesize o); reflexivity).
    rewrite E. apply d_cast; [apply type_named; assumption|].
    unfold csub. destruct (cwraps o conversion e) eqn:WR.
    + apply derives_parens; [lia|]. pose proof (kind_bounds (expression_type e)). eapply derives_up; [| |exact D]; lia.
    + enough (kind_level (expression_type e) = 12) as K by (rewrite K in D; exact D).
      unfold cwraps in WR. apply orb_false_iff in WR. destruct WR as [_ WR]. revert WR.
      generalize (expression_type e) as j. intros j. destruct j; vm_compute; congruence.
  - inversion H; subst. cbn [every_node is_conditional negb andb] in N. discriminate N.
  - inversion H as [| | ? ? p ? a ? b CB SL SR | | | | |]; subst. cbn [every_node] in W, N. ands.
    destruct (IHl _ SL ltac:(assumption) ltac:(assumption)) as [DL XL].
    destruct (IHr _ SR ltac:(assumption) ltac:(assumption)) as [DR XR].
    pose proof (kind_at _ _ CB) as O1. pose proof (kind_bounds (expression_type l)) as BL.
    pose proof (kind_bounds (expression_type r)) as BR. pose proof (kind_bounds op) as BO.
    assert (NL : expression_type l <> if_expression).
    { eapply not_if; [exact SL|]. destruct a; try reflexivity. cbn [every_node is_conditional negb andb] in *. discriminate. }
    assert (NR : expression_type r <> if_expression).
    { eapply not_if; [exact SR|]. destruct b; try reflexivity. cbn [every_node is_conditional negb andb] in *. discriminate. }
    destruct (needs_level _ _ _ CB NL) as [QL1 QL2]. destruct (needs_level _ _ _ CB NR) as [QR1 QR2].
    cbn [expression_type ctk]. unfold op_token. destruct (binary_name _ _ CB) as (EN & _ & _). rewrite EN.
    unfold read_as in *. unfold csub, cwraps. destruct (always_parenthesize o) eqn:AL; cbn [orb].
    + split; [|discriminate]. apply d_binary; [exact O1 | |].
      * eapply kind_parens; exact DL.
      * eapply kind_parens_next; exact DR.
    + destruct (XL eq_refl) as [TL PL]. destruct (XR eq_refl) as [TR PR]. cbn [regroup].
      assert (AT : at_level (kind_level op) (str p)) by (exists p; auto).
      assert (LEFT : derives (kind_level op)
        (if c_needs_parentheses op (expression_type l) then punct "(" :: ctk o d const_value true l ++ [punct ")"] else ctk o d const_value true l)
        (regroup a)).
      { destruct (c_needs_parentheses op (expression_type l)) eqn:NP.
        - eapply kind_parens; exact DL.
        - eapply kind_up; [apply QL1; reflexivity | exact DL]. }
      assert (RIGHT : forall ts x, derives (kind_level op) ts x -> derives (kind_level op)
        (ts ++ punct p :: (if c_needs_parentheses op (expression_type r) then punct "(" :: ctk o d const_value true r ++ [punct ")"] else ctk o d const_value true r))
        (graft (str p) x (regroup b))).
      { intros ts x DX. destruct (c_needs_parentheses op (expression_type r)) eqn:NP.
        - rewrite (graft_apart _ _ _ _ _ AT TR) by (apply QR2; reflexivity). apply d_binary; [exact O1 | exact DX|].
          eapply kind_parens_next; exact DR.
        - apply PR; [exact O1 | apply QR1; reflexivity | exact DX]. }
      split; [apply RIGHT; exact LEFT|]. intros _. split; [apply graft_top; exact AT|].
      intros k q ts x Q L DX. destruct (Nat.eq_dec k (kind_level op)) as [-> | NE].
      * rewrite app_comm_cons, app_assoc.
        rewrite (graft_graft (kind_level op)); [|exists q; auto | exact AT]. apply RIGHT.
        destruct (c_needs_parentheses op (expression_type l)) eqn:NP.
        -- rewrite (graft_apart (kind_level op) (kind_level (expression_type l))); [| exists q; auto | exact TL | apply QL2; reflexivity].
           apply d_binary; [exact Q | exact DX|]. eapply kind_parens_next; exact DL.
        -- apply PL; [exact Q | apply QL1; reflexivity | exact DX].
      * rewrite (graft_apart k (kind_level op)); [| exists q; auto | apply graft_top; exact AT | exact NE].
        apply d_binary; [exact Q | exact DX|]. eapply kind_next; [exact L | exact NE | apply RIGHT; exact LEFT].
  - inversion H as [| | | ? ? p ? a CU SE | | | |]; subst. cbn [every_node] in W, N. ands.
    destruct (IHe _ SE ltac:(assumption) ltac:(assumption)) as [D _].
    destruct (unary_name _ _ CU) as (EN & Q). 
    assert (K : kind_level (expression_type (EPrefix cv op e)) = 12) by (destruct op; try discriminate CU; reflexivity).
    apply REST; [exact H | | exact K | intros _ k; exact Logic.I].
    rewrite K. cbn [ctk]. unfold op_token. rewrite EN.
    assert (E : read_as (C_Unary (str p) a) = C_Unary (str p) (read_as a)) by (unfold read_as; destruct (always_parenthesize o); reflexivity).
    rewrite E. apply d_up; [lia|]. apply d_unary; [in_list Q; subst p; cbn; tauto|].
    unfold csub. destruct (cwraps o op e) eqn:WR.
    + apply derives_parens; [lia|]. pose proof (kind_bounds (expression_type e)). eapply derives_up; [| |exact D]; lia.
    + enough (kind_level (expression_type e) = 12) as K' by (rewrite K' in D; exact D).
      destruct (prefix_wraps _ _ _ _ CU WR) as [G | [G | G]]; revert G; generalize (expression_type e) as j; intros j;
        destruct j; vm_compute; congruence.
  - inversion H as [| | | | ? ? ? ? us NX CN FA | | |]; subst. cbn [every_node] in W, N. ands.
    apply REST; [exact H | | reflexivity | intros _ k; exact Logic.I]. cbn [ctk expression_type].
    assert (E : read_as (C_Call (C_Name name) us) = C_Call (C_Name name) (map read_as us)).
    { unfold read_as. destruct (always_parenthesize o); [rewrite map_id|]; reflexivity. }
    rewrite E. apply (derives_up _ 14); [vm_compute; lia | lia|].
    apply (d_call [Word name]); [apply (derives_up _ 15); [lia | lia|]; apply d_name; exact CN|].
    apply arguments_join.
    match goal with F : forallb _ us = true, G : forallb _ us = true |- _ => rename F into FW; rename G into FN end.
    clear - IH FA FW FN. revert FW FN. induction FA as [|x u args us XU FA IHF]; intros FW FN; cbn [map]; constructor.
    + inversion IH as [|? ? IH1 IH2]; subst. cbn [forallb] in FW, FN. apply andb_prop in FW, FN. destruct FW, FN.
      destruct (IH1 _ XU ltac:(assumption) ltac:(assumption)) as [D _].
      eapply derives_up; [| |exact D]; pose proof (kind_bounds (expression_type x)); lia.
    + inversion IH as [|? ? IH1 IH2]; subst. cbn [forallb] in FW, FN. apply andb_prop in FW, FN. destruct FW, FN. auto.
  - assert (V : forall v, shows_value v t -> derives 12 (value_tokens v) (read_as t) /\ forall k, top_at k (regroup t)).
    { intros v V. destruct (value_level _ _ V) as (DV & RV & TV). unfold read_as. rewrite RV.
      split; [destruct (always_parenthesize o); exact DV | exact TV]. }
    inversion H as [| | | | | ? ? ? ? NX CN NC | ? ? n ? v ? CV SV |]; subst.
    + apply REST; [exact H | | reflexivity | intros _ k; exact Logic.I].
      assert (E : read_as (C_Name name) = C_Name name) by (unfold read_as; destruct (always_parenthesize o); reflexivity).
      rewrite E. cbn [ctk expression_type]. apply (derives_up _ 15); [vm_compute; lia | lia|].
      destruct lk as [[[] m|m|f]|]; try discriminate NC; apply d_name; exact CN.
    + destruct (V _ SV) as [DV TV]. apply REST; [exact H | | reflexivity | intros _; exact TV].
      cbn [ctk expression_type]. rewrite CV. exact DV.
  - inversion H as [| | | | | | | v ? ? ? SV]; subst. destruct (value_level _ _ SV) as (DV & RV & TV).
    apply REST; [exact H | | reflexivity | intros _ k'; rewrite RV; apply TV].
    cbn [ctk expression_type]. unfold read_as. rewrite RV. destruct (always_parenthesize o); exact DV.
Qed.

Lemma ctk_nested : forall e nested, expression_type e <> if_expression ->
  ctk o d const_value nested e = ctk o d const_value true e.
Proof. intros e nested N. destruct e; try reflexivity. cbn in N. congruence. Qed.

Lemma part_grouped : forall e t, c_shows const_value e t -> widths_exist (bits o d) t = true -> no_conditional t = true ->
  derives 2 (csub o if_expression e (ctk o d const_value true e)) (read_as t).
Proof.
  intros e t H W N. destruct (expr_grouped e t H W N) as [D _]. pose proof (kind_bounds (expression_type e)) as B.
  unfold csub. destruct (cwraps o if_expression e).
  - apply derives_parens; [lia|]. eapply derives_up; [| |exact D]; lia.
  - eapply derives_up; [| |exact D]; lia.
Qed.

Lemma if_needs_no : forall k, c_needs_parentheses if_expression k = false.
Proof. destruct k; reflexivity. Qed.

Lemma derives_2_1 : forall ts t, derives 2 ts t -> derives 1 ts t.
Proof. intros ts t D. apply d_up; [lia | exact D]. Qed.
Lemma derives_2_0 : forall ts t, derives 2 ts t -> derives 0 ts t.
Proof. intros ts t D. apply d_up; [lia|]. apply derives_2_1. exact D. Qed.

Lemma top_grouped : forall e t nested, c_shows const_value e t -> widths_exist (bits o d) t = true ->
  no_conditional t = true \/ (nested = false /\ else_if t = true) ->
  derives 0 (ctk o d const_value nested e) (read_as t).
Proof.
  intros e t nested H W [N | (-> & N)].
  - rewrite ctk_nested.
    + destruct (expr_grouped e t H W N) as [D _]. pose proof (kind_bounds (expression_type e)). eapply derives_up; [| |exact D]; lia.
    + eapply not_if; [exact H|]. destruct t; try reflexivity. discriminate N.
  - destruct t as [| | | | | |c a b| |]; try discriminate N. destruct b as [| | | | | |c' a' b'| |]; try discriminate N.
    cbn [else_if] in N. apply andb_prop in N. destruct N as [N N5]. apply andb_prop in N. destruct N as [N N4].
    apply andb_prop in N. destruct N as [N N3]. apply andb_prop in N. destruct N as [N1 N2].
    inversion H as [| ? l ? p ? r ? SL SC SR | | | | | ? ? ? ? ? ? ? SV | ? ? ? ? SV]; subst;
      [| inversion SV | inversion SV].
    inversion SR as [| cv2 l' ? p' ? r' ? SL' SC' SR' | | | | | ? ? ? ? ? ? ? SV | ? ? ? ? SV]; subst;
      [| inversion SV | inversion SV].
    unfold widths_exist in W. cbn [every_node] in W.
    apply andb_prop in W. destruct W as [_ W]. apply andb_prop in W. destruct W as [W W3]. apply andb_prop in W. destruct W as [W1 W2].
    apply andb_prop in W3. destruct W3 as [_ W]. apply andb_prop in W. destruct W as [W W6]. apply andb_prop in W. destruct W as [W4 W5].
    pose proof (part_grouped _ _ SC W1 N1) as DC. pose proof (part_grouped _ _ SL W2 N2) as DL.
    pose proof (part_grouped _ _ SC' W4 N3) as DC'. pose proof (part_grouped _ _ SL' W5 N4) as DL'.
    pose proof (part_grouped _ _ SR' W6 N5) as DR'.
    assert (E : read_as (C_Conditional c a (C_Conditional c' a' b')) =
      C_Conditional (read_as c) (read_as a) (C_Conditional (read_as c') (read_as a') (read_as b'))).
    { unfold read_as. destruct (always_parenthesize o); reflexivity. }
    rewrite E.
    assert (IN : derives 0 (csub o if_expression p' (ctk o d const_value true p') ++ punct "?" ::
        csub o if_expression l' (ctk o d const_value true l') ++ punct ":" :: csub o if_expression r' (ctk o d const_value true r'))
      (C_Conditional (read_as c') (read_as a') (read_as b'))).
    { apply d_up; [clear; lia|]. apply d_conditional; [exact DC' | apply derives_2_0; exact DL' | apply derives_2_1; exact DR']. }
    cbn [ctk]. apply d_up; [clear; lia|]. cbn [app]. apply d_conditional; [exact DC | apply derives_2_0; exact DL|].
    unfold csub at 1. unfold cwraps at 1. rewrite if_needs_no, orb_false_r. destruct (always_parenthesize o) eqn:AL.
    + match goal with |- derives 1 ((punct "(" :: (punct "(" :: ?X ++ punct "?" :: ?Y ++ punct ":" :: ?Z ++ []) ++ [punct ")"]) ++ [punct ")"]) _ =>
        replace ((punct "(" :: (punct "(" :: X ++ punct "?" :: Y ++ punct ":" :: Z ++ []) ++ [punct ")"]) ++ [punct ")"])
          with (punct "(" :: (punct "(" :: (X ++ punct "?" :: Y ++ punct ":" :: Z) ++ [punct ")"]) ++ [punct ")"])
          by (rewrite app_nil_r; cbn [app]; rewrite <- ?app_assoc; cbn [app]; rewrite <- ?app_assoc; reflexivity) end.
      apply derives_parens; [clear; lia|]. apply derives_parens; [clear; lia|]. exact IN.
    + match goal with |- derives 1 ((punct "(" :: ?X ++ punct "?" :: ?Y ++ punct ":" :: ?Z ++ []) ++ [punct ")"]) _ =>
        replace ((punct "(" :: X ++ punct "?" :: Y ++ punct ":" :: Z ++ []) ++ [punct ")"])
          with (punct "(" :: (X ++ punct "?" :: Y ++ punct ":" :: Z) ++ [punct ")"])
          by (rewrite app_nil_r; cbn [app]; rewrite <- ?app_assoc; cbn [app]; rewrite <- ?app_assoc; reflexivity) end.
      apply derives_parens; [clear; lia|]. exact IN.
Qed.

(** ** Parentheses *)

Open Scope Z_scope.

Lemma excess_app : forall s t, excess (s ++ t) = excess s + excess t.
Proof. induction s as [|c s IH]; intros t; cbn [excess app]; [lia|]. rewrite IH. lia. Qed.
Lemma excess_word : forall s, Forall (fun c => c_nondigit c \/ c_digit c) s -> excess s = 0.
Proof.
  induction 1 as [|c s C H IH]; [reflexivity|]. cbn [excess]. rewrite IH.
  destruct (Ascii.eqb_spec c "(") as [->|_]; [unfold c_nondigit, c_digit in C; vm_compute in C; intuition congruence|].
  destruct (Ascii.eqb_spec c ")") as [->|_]; [unfold c_nondigit, c_digit in C; vm_compute in C; intuition congruence|]. reflexivity.
Qed.
Lemma excess_name : forall x, is_name x -> excess x = 0.
Proof. intros x X. destruct (name_c_word _ X) as (c & r & -> & C & R). apply excess_word. constructor; auto. Qed.
Lemma excess_digits : forall x n, denotes x n -> excess x = 0.
Proof.
  intros x n D. apply denotes_digits in D. destruct D as [_ D]. apply excess_word. eapply Forall_impl; [|exact D]. auto.
Qed.
Lemma excess_value : forall v t, shows_value v t -> excess (value_text v) = 0 /\ conditionals t = 0%nat.
Proof.
  intros v t H. destruct H as [z | z | z Z0 F | z Z0 F | w z Z0 F]; cbn [value_text]; (split; [|reflexivity]).
  - reflexivity.
  - destruct (z =? 0); reflexivity.
  - unfold to_string_int. rewrite (proj2 (Z.leb_le 0 z)) by lia. rewrite big_uint_small by lia.
    eapply excess_digits, digits_of; [lia | exact F].
  - unfold to_string_int. rewrite (proj2 (Z.leb_gt 0 z)) by lia. rewrite big_uint_small by lia. rewrite excess_app.
    change (excess (str "-")) with 0. rewrite Z.add_0_l. eapply excess_digits, digits_of; [lia | exact F].
  - rewrite big_uint_small by lia. eapply excess_digits, digits_of; [lia | exact F].
Qed.
Lemma excess_type : forall y, has_width (bits o d) y = true -> excess (type_text o d y) = 0.
Proof.
  intros y H. destruct y as [| | |w]; cbn [type_text]; try (destruct d; reflexivity).
  destruct (width_cases _ _ w H) as [W _]. pose proof (excess_digits _ _ (std_digits w W)) as E.
  destruct (bits o d && c_prefer_bitint o); [rewrite !excess_app, E; reflexivity|].
  destruct ((w =? 8) || (w =? 16) || (w =? 32) || (w =? 64)); rewrite !excess_app, E; [destruct (is_cpp d)|]; reflexivity.
Qed.
Lemma excess_csub : forall outer e s, excess (csub_text o outer e s) = excess s.
Proof.
  intros outer e s. unfold csub_text. destruct (cwraps o outer e); [|reflexivity].
  change ("("%char :: s ++ [")"%char]) with (["("%char] ++ s ++ [")"%char]). rewrite !excess_app. change (excess ["("%char]) with 1.
  change (excess [")"%char]) with (-1). lia.
Qed.
Lemma excess_join : forall l first, excess (join first l) = fold_right Z.add 0 (map excess l).
Proof.
  induction l as [|s l IH]; intros first; [reflexivity|]. cbn [join map fold_right]. rewrite !excess_app, IH.
  destruct first; [|change (excess (str ", ")) with 0]; cbn [excess]; lia.
Qed.

Lemma excess_expr : forall e t, c_shows const_value e t -> widths_exist (bits o d) t = true -> forall nested,
  excess (cpr o d const_value nested e) =
  Z.of_nat (conditionals t) - (if is_conditional t && negb nested then 2 else 0).
Proof.
  unfold widths_exist.
  induction e as [cv e y IHe _ | cv l c r IHl IHc IHr | cv op l r IHl IHr | cv op e IHe
    | cv name lk st args IH | cv name lk g | cv lit k] using expr_width_induction; intros t H W nested.
  - inversion H as [? ? a ? z CT SE | | | | | | |]; subst. cbn [every_node] in W. ands. cbn [cpr conditionals is_conditional andb].
    unfold target_of. rewrite CT.
    match goal with |- excess ("("%char :: ?x ++ ")"%char :: ?y) = _ =>
      change (excess (["("%char] ++ x ++ [")"%char] ++ y) = Z.of_nat (conditionals a) - 0) end.
    rewrite !excess_app, excess_csub, excess_type by assumption. rewrite (IHe _ SE ltac:(assumption)). cbn [negb]. rewrite andb_false_r.
    change (excess ["("%char]) with 1. change (excess [")"%char]) with (-1). lia.
  - inversion H as [| ? ? a ? p ? b SL SC SR | | | | | |]; subst. cbn [every_node] in W. ands. cbn [cpr conditionals is_conditional andb].
    rewrite !excess_app, !excess_csub. rewrite (IHl _ SL), (IHc _ SC), (IHr _ SR) by assumption. cbn [negb]. rewrite !andb_false_r.
    change (excess (str " ? ")) with 0. change (excess (str " : ")) with 0.
    destruct nested; cbn [negb]; [change (excess ["("%char]) with 1 | change (excess [")"%char]) with (-1)]; cbn [excess]; lia.
  - inversion H as [| | ? ? p ? a ? b CB SL SR | | | | |]; subst. cbn [every_node] in W. ands. cbn [cpr conditionals is_conditional andb].
    destruct (binary_name _ _ CB) as (-> & _ & _).
    match goal with |- excess (?x ++ " "%char :: ?q ++ " "%char :: ?y) = _ =>
      change (excess (x ++ [" "%char] ++ q ++ [" "%char] ++ y) = Z.of_nat (conditionals a + conditionals b) - 0) end.
    rewrite !excess_app, !excess_csub. rewrite (IHl _ SL), (IHr _ SR) by assumption. cbn [negb]. rewrite !andb_false_r.
    change (excess [" "%char]) with 0.
    assert (EX : excess (str p) = 0) by (destruct op; try discriminate CB; injection CB as <-; reflexivity). lia.
  - inversion H as [| | | ? ? p ? a CU SE | | | |]; subst. cbn [every_node] in W. ands. cbn [cpr conditionals is_conditional andb].
    destruct (unary_name _ _ CU) as (-> & Q). rewrite excess_app, excess_csub, (IHe _ SE) by assumption. cbn [negb]. rewrite andb_false_r.
    assert (EX : excess (str p) = 0) by (in_list Q; subst p; reflexivity). lia.
  - inversion H as [| | | | ? ? ? ? us NX CN FA | | |]; subst. cbn [every_node] in W. ands. cbn [cpr conditionals is_conditional andb].
    match goal with |- excess (?x ++ "("%char :: ?y ++ [")"%char]) = _ =>
      change (excess (x ++ ["("%char] ++ y ++ [")"%char]) = Z.of_nat (0 + list_sum (map conditionals us)) - 0) end.
    rewrite !excess_app, excess_join, excess_name by exact NX.
    change (excess ["("%char]) with 1. change (excess [")"%char]) with (-1).
    enough (fold_right Z.add 0 (map excess (map (cpr o d const_value true) args)) = Z.of_nat (list_sum (map conditionals us))) by lia.
    match goal with F : forallb _ us = true |- _ => rename F into FW end.
    clear - IH FA FW. revert FW. induction FA as [|x u args us XU FA IHF]; intros FW; [reflexivity|].
    cbn [map fold_right]. change (list_sum (?a :: ?b)) with (a + list_sum b)%nat.
    inversion IH as [|? ? IH1 IH2]; subst. cbn [forallb] in FW. apply andb_prop in FW. destruct FW.
    rewrite IHF by assumption. rewrite (IH1 _ XU) by assumption. cbn [negb]. rewrite andb_false_r.
    change (list_sum (conditionals u :: map conditionals us)) with (conditionals u + list_sum (map conditionals us))%nat. lia.
  - inversion H as [| | | | | ? ? ? ? NX CN NC | ? ? n ? v ? CV SV |]; subst.
    + cbn [cpr conditionals is_conditional andb]. destruct lk as [[[] m|m|f]|]; try discriminate NC; rewrite excess_name by exact NX; reflexivity.
    + cbn [cpr]. rewrite CV. destruct (excess_value _ _ SV) as [-> E]. rewrite E. destruct SV; reflexivity.
  - inversion H as [| | | | | | | v ? ? ? SV]; subst. cbn [cpr]. destruct (excess_value _ _ SV) as [-> E]. rewrite E. destruct SV; reflexivity.
Qed.
End Group.
