(** Proofs about name lookup. *)
From Coq Require Import ZArith Ascii String List Bool Lia.
From Verif Require Import Prelude Types Ops Text Tables AbsOps Literals LiteralsProofs Ast AstFacts NameLookup NameLookupSpec.
Import ListNotations.
Open Scope list_scope.

(** ** Symbol tables *)

(** The symbol table holds exactly the visible declarations. *)
Definition holds (t : symbols) (G : visible) : Prop :=
  t <> [] /\ NoDup (names G) /\ forall x d, sym_find t x = Some d <-> In (x, d) G.

Lemma text_eqb_refl : forall x, text_eqb x x = true.
Proof. intros x. apply text_eqb_eq. reflexivity. Qed.

Lemma text_eqb_neq : forall x y, x <> y -> text_eqb x y = false.
Proof. intros x y H. destruct (text_eqb x y) eqn:E; [|reflexivity]. apply text_eqb_eq in E. contradiction. Qed.

Lemma emplace_old : forall t x d old, t <> [] -> sym_find t x = Some old -> emplace t x d = inl old.
Proof.
  intros [|s t] x d old Hne H; [congruence|]. cbn in *. destruct (sym_find t x); [congruence|]. rewrite H. reflexivity.
Qed.

Lemma emplace_new : forall t x d, t <> [] -> sym_find t x = None ->
  exists t', emplace t x d = inr t' /\ t' <> []
    /\ forall y, sym_find t' y = if text_eqb y x then Some d else sym_find t y.
Proof.
  intros [|s t] x d Hne H; [congruence|]. cbn in *. destruct (sym_find t x) eqn:E; [discriminate|]. rewrite H.
  eexists. split; [reflexivity|]. split; [discriminate|]. intros y. cbn. destruct (text_eqb y x) eqn:Exy.
  - apply text_eqb_eq in Exy. subst. rewrite E. reflexivity.
  - destruct (sym_find t y); reflexivity.
Qed.

Lemma holds_none : forall t G x, holds t G -> (sym_find t x = None <-> ~ In x (names G)).
Proof.
  intros t G x (_ & _ & H). split.
  - intros E Hin. apply in_map_iff in Hin as ([y d] & <- & Hin). apply H in Hin. cbn in E. congruence.
  - intros Hn. destruct (sym_find t x) as [d|] eqn:E; [|reflexivity]. apply H in E. elim Hn.
    apply in_map_iff. exists (x, d). auto.
Qed.

Lemma define_new : forall t G x d c, holds t G -> ~ In x (names G) ->
  exists t', define t x d c = Ok t' /\ holds t' ((x, d) :: G).
Proof.
  intros t G x d c H Hn. pose proof H as (Hne & Hnd & Hf).
  destruct (emplace_new t x d Hne) as (t' & E & Hne' & Hf'); [apply (holds_none t G); assumption|].
  exists t'. unfold define. rewrite E. split; [reflexivity|]. split; [exact Hne'|]. split; [constructor; assumption|].
  intros y e. rewrite Hf'. destruct (text_eqb y x) eqn:Exy.
  - apply text_eqb_eq in Exy. subst y. split.
    + intros K. injection K as <-. left. reflexivity.
    + intros [K|K]; [congruence|]. elim Hn. apply in_map_iff. exists (x, e). auto.
  - rewrite Hf. split; [intros K; right; exact K|]. intros [K|K]; [|exact K]. injection K as <- <-.
    rewrite text_eqb_refl in Exy. discriminate.
Qed.

Lemma define_old : forall t G x d c, holds t G -> In x (names G) ->
  exists old, define t x d c = Err (Lookup_Error c (Some old)) /\ In (x, old) G.
Proof.
  intros t G x d c H Hin. pose proof H as (Hne & Hnd & Hf).
  apply in_map_iff in Hin as ([y old] & <- & Hin). apply Hf in Hin as E. exists old. split; [|exact Hin].
  unfold define. cbn. rewrite (emplace_old t y d old Hne E). reflexivity.
Qed.

Lemma define_ok : forall t G x d c t', holds t G -> define t x d c = Ok t' ->
  ~ In x (names G) /\ holds t' ((x, d) :: G).
Proof.
  intros t G x d c t' H E. destruct (in_dec (list_eq_dec ascii_dec) x (names G)) as [Hin|Hn].
  - destruct (define_old t G x d c H Hin) as (old & E' & _). congruence.
  - destruct (define_new t G x d c H Hn) as (t2 & E' & H2). split; [exact Hn|]. congruence.
Qed.

Lemma holds_nested : forall t G, holds t G -> holds (nested t) G.
Proof.
  intros t G (H1 & H2 & H3). split; [discriminate|]. split; [exact H2|]. intros x d. cbn.
  rewrite <- H3. destruct (sym_find t x); [reflexivity|split; discriminate].
Qed.

(** ** Expressions *)

Definition nl_args (t : symbols) : list expr -> outcome lookup_error (list expr) :=
  fix all (l : list expr) : outcome lookup_error (list expr) :=
    match l with
    | [] => Ok []
    | a :: rest => let* a' := nl_expr t a in let* rest' := all rest in Ok (a' :: rest')
    end.

Lemma bind_ok : forall (E A B : Type) (m : outcome E A) (k : A -> outcome E B) b,
  bind m k = Ok b -> exists a, m = Ok a /\ k a = Ok b.
Proof. intros E A B [a|e| |] k b H; try discriminate. exists a. auto. Qed.

Ltac binv H :=
  let a := fresh "a" in let H1 := fresh "E" in
  apply bind_ok in H as (a & H1 & H).

(** What comes out is resolved. *)
Lemma nl_sound_both : forall t G, holds t G ->
  (forall e e', nl_expr t e = Ok e' -> resolved G e e')
  /\ (forall ty ty', nl_type t ty = Ok ty' -> resolved_type G ty ty').
Proof.
  intros t G HG. apply both_induction.
  - intros cv e ty IHe IHt e' H. cbn [nl_expr] in H. binv H. binv H. injection H as <-.
    destruct (IHe _ E) as [S1 B1]. destruct (IHt _ E0) as [S2 B2]. split; cbn [strip uses]; [congruence|].
    apply Forall_app. auto.
  - intros cv l c r IHl IHc IHr e' H. cbn [nl_expr] in H. binv H. binv H. binv H. injection H as <-.
    destruct (IHl _ E) as [S1 B1]. destruct (IHc _ E0) as [S2 B2]. destruct (IHr _ E1) as [S3 B3].
    split; cbn [strip uses]; [congruence|]. rewrite !Forall_app. auto.
  - intros cv op l r IHl IHr e' H. cbn [nl_expr] in H. binv H. binv H. injection H as <-.
    destruct (IHl _ E) as [S1 B1]. destruct (IHr _ E0) as [S2 B2].
    split; cbn [strip uses]; [congruence|]. rewrite !Forall_app. auto.
  - intros cv op e IH e' H. cbn [nl_expr] in H. binv H. injection H as <-.
    destruct (IH _ E) as [S1 B1]. split; cbn [strip uses]; [congruence|exact B1].
  - intros cv name lk st args IH e' H. cbn [nl_expr] in H. destruct (sym_find t name) as [d|] eqn:Ed; [|discriminate].
    binv H. injection H as <-. change (nl_args t args = Ok a) in E.
    assert (map strip a = map strip args /\ Forall (bound G) (flat_map uses a)) as [S1 B1].
    { revert a E. induction IH as [|x args Hx _ IHl]; intros a E; cbn [nl_args] in E.
      - injection E as <-. split; [reflexivity|constructor].
      - binv E. binv E. injection E as <-. destruct (Hx _ E0) as [S1 B1]. destruct (IHl _ E1) as [S2 B2].
        cbn [map flat_map]. split; [congruence|]. apply Forall_app. auto. }
    split; cbn [strip uses]; [congruence|]. constructor; [|exact B1]. exists d. split; [reflexivity|]. apply HG. exact Ed.
  - intros cv name lk g e' H. cbn [nl_expr] in H. destruct (sym_find t name) as [d|] eqn:Ed; [|discriminate].
    injection H as <-. split; [reflexivity|]. constructor; [|constructor]. exists d. split; [reflexivity|]. apply HG. exact Ed.
  - intros cv lit ty e' H. injection H as <-. split; [reflexivity|constructor].
  - intros cv k cw ty' H. injection H as <-. split; [reflexivity|constructor].
  - intros cv k e cw IH ty' H. cbn [nl_type] in H. binv H. injection H as <-. destruct (IH _ E) as [S1 B1].
    split; cbn [strip_type uses_type]; [congruence|exact B1].
Qed.

(** Existing results of lookups do not matter. *)
Lemma nl_strip_both : forall t,
  (forall e, nl_expr t (strip e) = nl_expr t e) /\ (forall ty, nl_type t (strip_type ty) = nl_type t ty).
Proof.
  intros t. apply both_induction; intros; cbn [strip strip_type nl_expr nl_type]; try reflexivity;
    try (rewrite ?H, ?H0, ?H1; reflexivity).
  destruct (sym_find t name) as [d|]; [|reflexivity]. change (bind (nl_args t (map strip args)) (fun args' => Ok (ECall cv name (Some d) st args'))
    = bind (nl_args t args) (fun args' => Ok (ECall cv name (Some d) st args'))). f_equal.
  induction H as [|x args Hx _ IH]; [reflexivity|]. cbn [map nl_args]. rewrite Hx, IH. reflexivity.
Qed.

(** Results that are right stay the same. *)
Lemma nl_fixed_both : forall t G, holds t G ->
  (forall e, Forall (bound G) (uses e) -> nl_expr t e = Ok e)
  /\ (forall ty, Forall (bound G) (uses_type ty) -> nl_type t ty = Ok ty).
Proof.
  intros t G (Hne & Hnd & HG). apply both_induction.
  - intros cv e ty IHe IHt H. cbn in *. apply Forall_app in H as [H1 H2]. rewrite IHe by assumption. cbn.
    rewrite IHt by assumption. reflexivity.
  - intros cv l c r IHl IHc IHr H. cbn in *. rewrite !Forall_app in H. destruct H as (H1 & H2 & H3).
    rewrite IHl by assumption. cbn. rewrite IHc by assumption. cbn. rewrite IHr by assumption. reflexivity.
  - intros cv op l r IHl IHr H. cbn in *. rewrite !Forall_app in H. destruct H as (H1 & H2).
    rewrite IHl by assumption. cbn. rewrite IHr by assumption. reflexivity.
  - intros cv op e IH H. cbn in *. rewrite IH by assumption. reflexivity.
  - intros cv name lk st args IH H. cbn [nl_expr uses] in *. inversion H as [|u us Hu Hus]; subst.
    destruct Hu as (d & E & Hd). cbn in E, Hd. subst lk. apply HG in Hd. rewrite Hd.
    assert (nl_args t args = Ok args) as E.
    { clear H. induction IH as [|x args Hx _ IHl]; [reflexivity|]. cbn [flat_map] in Hus. apply Forall_app in Hus as [H1 H2].
      cbn [nl_args]. rewrite Hx by assumption. cbn. rewrite IHl by assumption. reflexivity. }
    change (bind (nl_args t args) (fun args' => Ok (ECall cv name (Some d) st args')) = Ok (ECall cv name (Some d) st args)).
    rewrite E. reflexivity.
  - intros cv name lk g H. cbn [nl_expr uses] in *. inversion H as [|u us Hu Hus]; subst.
    destruct Hu as (d & E & Hd). cbn in E, Hd. subst lk. apply HG in Hd. rewrite Hd. reflexivity.
  - reflexivity.
  - reflexivity.
  - intros cv k e cw IH H. cbn in *. rewrite IH by assumption. reflexivity.
Qed.

Lemma nl_expr_iff : forall t G e e', holds t G -> (nl_expr t e = Ok e' <-> resolved G e e').
Proof.
  intros t G e e' HG. split; [apply nl_sound_both; exact HG|]. intros [S B].
  rewrite <- (proj1 (nl_strip_both t) e), <- S, (proj1 (nl_strip_both t)). apply (nl_fixed_both t G HG). exact B.
Qed.

Lemma nl_type_iff : forall t G e e', holds t G -> (nl_type t e = Ok e' <-> resolved_type G e e').
Proof.
  intros t G e e' HG. split; [apply nl_sound_both; exact HG|]. intros [S B].
  rewrite <- (proj2 (nl_strip_both t) e), <- S, (proj2 (nl_strip_both t)). apply (nl_fixed_both t G HG). exact B.
Qed.

Lemma nl_option_iff : forall (A : Type) (f : A -> outcome lookup_error A) (R : A -> A -> Prop) x x',
  (forall a a', f a = Ok a' <-> R a a') -> (nl_option f x = Ok x' <-> resolved_opt R x x').
Proof.
  intros A f R [a|] x' H; cbn [nl_option].
  - split.
    + intros E. binv E. injection E as <-. cbn. apply H. exact E0.
    + destruct x' as [a'|]; cbn; [|contradiction]. intros K. apply H in K. rewrite K. reflexivity.
  - split; [intros E; injection E as <-; exact I|]. destruct x'; cbn; [contradiction|reflexivity].
Qed.

(** Expressions never abort, and without calls only variables can be missing. *)
Lemma nl_defined_both : forall t,
  (forall e, defined (nl_expr t e)) /\ (forall ty, defined (nl_type t ty)).
Proof.
  intros t. apply both_induction; intros; cbn [nl_expr nl_type]; try exact I;
    repeat match goal with
    | H : defined ?m |- context [bind ?m _] => destruct m; cbn [bind defined] in *; try exact I; try contradiction
    end.
  - destruct (sym_find t name) as [d|]; [|exact I]. change (defined (bind (nl_args t args) (fun args' => Ok (ECall cv name (Some d) st args')))).
    assert (defined (nl_args t args)) as D.
    { induction H as [|x args Hx _ IH]; [exact I|]. cbn [nl_args].
      destruct (nl_expr t x); cbn [bind defined] in *; try exact I; try contradiction.
      destruct (nl_args t args); cbn [bind defined] in *; try exact I; contradiction. }
    destruct (nl_args t args); cbn [bind defined] in *; try exact I; contradiction.
  - destruct (sym_find t name); exact I.
Qed.

Lemma nl_undefined_both : forall t,
  (forall e, no_calls e = true -> forall x, nl_expr t e = Err x -> le_code x = reference_to_undefined_variable)
  /\ (forall ty, match ty with Type_Node _ _ (Some e) _ => no_calls e | _ => true end = true ->
      forall x, nl_type t ty = Err x -> le_code x = reference_to_undefined_variable).
Proof.
  assert (B : forall (A B : Type) (m : outcome lookup_error A) (k : A -> outcome lookup_error B) x,
    bind m k = Err x -> m = Err x \/ exists a, m = Ok a /\ k a = Err x).
  { intros A B [a|e| |] k x H; try discriminate; eauto. injection H as <-. auto. }
  intros t. apply both_induction.
  - intros cv e ty IHe IHt Hc x H. cbn [no_calls] in Hc. destruct ty as [c2 k2 w2 cw2]. apply andb_prop in Hc as [H1 H2].
    cbn [nl_expr] in H. apply B in H as [H|(a & _ & H)]; [eauto|]. apply B in H as [H|(a' & _ & H)]; [|discriminate].
    apply IHt; [exact H2|exact H].
  - intros cv l c r IHl IHc IHr Hc x H. cbn [no_calls] in Hc. apply andb_prop in Hc as [Hc H3]. apply andb_prop in Hc as [H1 H2].
    cbn [nl_expr] in H. apply B in H as [H|(a & _ & H)]; [eauto|]. apply B in H as [H|(a' & _ & H)]; [eauto|].
    apply B in H as [H|(a'' & _ & H)]; [eauto|discriminate].
  - intros cv op l r IHl IHr Hc x H. cbn [no_calls] in Hc. apply andb_prop in Hc as [H1 H2].
    cbn [nl_expr] in H. apply B in H as [H|(a & _ & H)]; [eauto|]. apply B in H as [H|(a' & _ & H)]; [eauto|discriminate].
  - intros cv op e IH Hc x H. cbn [nl_expr] in H. apply B in H as [H|(a & _ & H)]; [eauto|discriminate].
  - discriminate.
  - intros cv name lk g Hc x H. cbn [nl_expr] in H. destruct (sym_find t name); [discriminate|]. injection H as <-. reflexivity.
  - discriminate.
  - discriminate.
  - intros cv k e cw IH Hc x H. cbn [nl_type] in H. apply B in H as [H|(a & _ & H)]; [eauto|discriminate].
Qed.

(** ** Statements *)

Definition nl_list : symbols -> list stmt -> outcome lookup_error (list stmt) :=
  fix all (t : symbols) (l : list stmt) : outcome lookup_error (list stmt) :=
    match l with
    | [] => Ok []
    | s1 :: rest => let* '(s1', t1) := nl_stmt t s1 in let* rest' := all t1 rest in Ok (s1' :: rest')
    end.

Lemma nl_stmt_sound : forall s t G s' t', holds t G -> nl_stmt t s = Ok (s', t') ->
  exists G', resolved_stmt G s s' G' /\ holds t' G'.
Proof.
  induction s as [cv name self ty e|cv name self ty e|cv e|cv co b IHb|cv co b e IHb IHe|cv co b IHb
                 |cv ty e|cv name lk e|cv l IH|e] using stmt_induction; intros t G s' t' HG H; cbn [nl_stmt] in H.
  - binv H. binv H. binv H. injection H as <- <-. destruct (define_ok _ _ _ _ _ _ HG E) as [Hn HG'].
    eexists. split; [|exact HG']. constructor; [exact Hn| |].
    + eapply nl_option_iff; [|exact E0]. intros. apply nl_type_iff. exact HG'.
    + eapply nl_expr_iff; eassumption.
  - binv H. binv H. binv H. injection H as <- <-. destruct (define_ok _ _ _ _ _ _ HG E) as [Hn HG'].
    eexists. split; [|exact HG']. constructor; [exact Hn| |].
    + eapply nl_option_iff; [|exact E0]. intros. apply nl_type_iff. exact HG'.
    + eapply nl_option_iff; [|exact E1]. intros. apply nl_expr_iff. exact HG'.
  - binv H. injection H as <- <-. exists G. split; [|exact HG]. constructor. eapply nl_expr_iff; eassumption.
  - binv H. binv H. destruct a0 as [b' t1]. injection H as <- <-. destruct (IHb _ _ _ _ HG E0) as (G1 & R & HG1).
    exists G1. split; [|exact HG1]. constructor; [eapply nl_expr_iff; eassumption|exact R].
  - binv H. binv H. destruct a0 as [b' t1]. binv H. destruct a0 as [e' t2]. injection H as <- <-.
    destruct (IHb _ _ _ _ HG E0) as (G1 & R & HG1). destruct (IHe _ _ _ _ HG1 E1) as (G2 & R2 & HG2).
    exists G2. split; [|exact HG2]. econstructor; [eapply nl_expr_iff; eassumption|exact R|exact R2].
  - binv H. binv H. destruct a0 as [b' t1]. injection H as <- <-. destruct (IHb _ _ _ _ HG E0) as (G1 & R & HG1).
    exists G1. split; [|exact HG1]. constructor; [eapply nl_expr_iff; eassumption|exact R].
  - binv H. injection H as <- <-. exists G. split; [|exact HG]. constructor.
    eapply nl_option_iff; [|exact E]. intros. apply nl_expr_iff. exact HG.
  - destruct (sym_find t name) as [d|] eqn:Ed; [|discriminate]. binv H. injection H as <- <-. exists G. split; [|exact HG].
    constructor; [apply HG; exact Ed|eapply nl_expr_iff; eassumption].
  - binv H. injection H as <- <-. exists G. split; [|exact HG]. constructor.
    change (nl_list (nested t) l = Ok a) in E. apply holds_nested in HG. revert HG E. generalize (nested t). clear t.
    revert G a. induction IH as [|s l Hs _ IHl]; intros G a t HG E; cbn [nl_list] in E.
    + injection E as <-. constructor.
    + binv E. destruct a0 as [s' t1]. binv E. injection E as <-. destruct (Hs _ _ _ _ HG E0) as (G1 & R & HG1).
      econstructor; [exact R|]. eapply IHl; eassumption.
  - binv H. injection H as <- <-. exists G. split; [|exact HG]. constructor. eapply nl_expr_iff; eassumption.
Qed.

Scheme resolved_stmt_mut := Minimality for resolved_stmt Sort Prop
  with resolved_list_mut := Minimality for resolved_list Sort Prop.

Lemma nl_stmt_complete : forall G s s' G', resolved_stmt G s s' G' ->
  forall t, holds t G -> exists t', nl_stmt t s = Ok (s', t') /\ holds t' G'.
Proof.
  apply (resolved_stmt_mut
    (fun G s s' G' => forall t, holds t G -> exists t', nl_stmt t s = Ok (s', t') /\ holds t' G')
    (fun G l l' => forall t, holds t G -> nl_list t l = Ok l')).
  - intros G cv x n ty ty' e e' Hn Ht He t HG. destruct (define_new t G x (LNode DConst n) failed_to_define_variable HG Hn) as (t' & E & HG').
    exists t'. split; [|exact HG']. cbn [nl_stmt]. rewrite E. cbn [bind].
    apply (nl_option_iff _ (nl_type t')) in Ht; [|intros; apply nl_type_iff; exact HG']. rewrite Ht. cbn [bind].
    apply (nl_expr_iff t') in He; [|exact HG']. rewrite He. reflexivity.
  - intros G cv x n ty ty' e e' Hn Ht He t HG. destruct (define_new t G x (LNode DLet n) failed_to_define_variable HG Hn) as (t' & E & HG').
    exists t'. split; [|exact HG']. cbn [nl_stmt]. rewrite E. cbn [bind].
    apply (nl_option_iff _ (nl_type t')) in Ht; [|intros; apply nl_type_iff; exact HG']. rewrite Ht. cbn [bind].
    apply (nl_option_iff _ (nl_expr t')) in He; [|intros; apply nl_expr_iff; exact HG']. rewrite He. reflexivity.
  - intros G cv e e' He t HG. exists t. split; [|exact HG]. cbn [nl_stmt]. apply (nl_expr_iff t) in He; [|exact HG]. rewrite He. reflexivity.
  - intros G cv c c' b b' G1 Hc _ IHb t HG. destruct (IHb t HG) as (t1 & E & HG1). exists t1. split; [|exact HG1].
    cbn [nl_stmt]. apply (nl_expr_iff t) in Hc; [|exact HG]. rewrite Hc. cbn [bind]. rewrite E. reflexivity.
  - intros G cv c c' b b' s s' G1 G2 Hc _ IHb _ IHs t HG. destruct (IHb t HG) as (t1 & E & HG1).
    destruct (IHs t1 HG1) as (t2 & E2 & HG2). exists t2. split; [|exact HG2].
    cbn [nl_stmt]. apply (nl_expr_iff t) in Hc; [|exact HG]. rewrite Hc. cbn [bind]. rewrite E. cbn [bind]. rewrite E2. reflexivity.
  - intros G cv c c' b b' G1 Hc _ IHb t HG. destruct (IHb t HG) as (t1 & E & HG1). exists t1. split; [|exact HG1].
    cbn [nl_stmt]. apply (nl_expr_iff t) in Hc; [|exact HG]. rewrite Hc. cbn [bind]. rewrite E. reflexivity.
  - intros G cv k e e' He t HG. exists t. split; [|exact HG]. cbn [nl_stmt].
    apply (nl_option_iff _ (nl_expr t)) in He; [|intros; apply nl_expr_iff; exact HG]. rewrite He. reflexivity.
  - intros G cv x lk d e e' Hd He t HG. exists t. split; [|exact HG]. cbn [nl_stmt]. apply HG in Hd as Ed. rewrite Ed.
    apply (nl_expr_iff t) in He; [|exact HG]. rewrite He. reflexivity.
  - intros G cv l l' _ IH t HG. exists t. split; [|exact HG]. cbn [nl_stmt].
    change (bind (nl_list (nested t) l) (fun c => Ok (SBlock cv c, t)) = Ok (SBlock cv l', t)).
    rewrite (IH _ (holds_nested _ _ HG)). reflexivity.
  - intros G e e' He t HG. exists t. split; [|exact HG]. cbn [nl_stmt]. apply (nl_expr_iff t) in He; [|exact HG]. rewrite He. reflexivity.
  - reflexivity.
  - intros G s s' G1 l l' _ IHs _ IHl t HG. destruct (IHs t HG) as (t1 & E & HG1). cbn [nl_list]. rewrite E. cbn [bind].
    rewrite (IHl t1 HG1). reflexivity.
Qed.

Lemma defined_define : forall t x d c, defined (define t x d c).
Proof. intros t x d c. unfold define. destruct (emplace t x d); exact I. Qed.

Lemma defined_option : forall (A : Type) (f : A -> outcome lookup_error A) x, (forall a, defined (f a)) -> defined (nl_option f x).
Proof. intros A f [a|] H; [|exact I]. cbn. specialize (H a). destruct (f a); cbn in *; try exact I; contradiction. Qed.

Lemma defined_bind : forall (A B : Type) (m : outcome lookup_error A) (k : A -> outcome lookup_error B),
  defined m -> (forall a, defined (k a)) -> defined (bind m k).
Proof. intros A B [a|e| |] k H1 H2; cbn in *; try exact I; try contradiction. apply H2. Qed.

Lemma nl_expr_defined : forall t e, defined (nl_expr t e).
Proof. intros t e. apply nl_defined_both. Qed.
Lemma nl_type_defined : forall t e, defined (nl_type t e).
Proof. intros t e. apply nl_defined_both. Qed.

#[local] Hint Resolve defined_define defined_option nl_expr_defined nl_type_defined : nl.

Lemma nl_stmt_defined : forall s t, defined (nl_stmt t s).
Proof.
  induction s as [cv name self ty e|cv name self ty e|cv e|cv co b IHb|cv co b e IHb IHe|cv co b IHb
                 |cv ty e|cv name lk e|cv l IH|e] using stmt_induction; intros t; cbn [nl_stmt];
    repeat (apply defined_bind; [auto with nl|intros]); try exact I.
  - destruct a0. exact I.
  - destruct a0. apply defined_bind; [auto|]. intros [? ?]. exact I.
  - destruct a0. exact I.
  - destruct (sym_find t name); [|exact I]. apply defined_bind; [auto with nl|intros; exact I].
  - change (defined (nl_list (nested t) l)). generalize (nested t). clear t.
    induction IH as [|s l Hs _ IHl]; intros t; [exact I|]. cbn [nl_list]. apply defined_bind; [apply Hs|]. intros [s' t1].
    apply defined_bind; [apply IHl|]. intros. exact I.
Qed.

(** ** Functions *)

Lemma nl_parameters_sound : forall l t G l' g t', holds t G -> nl_parameters t l = Ok (l', g, t') ->
  exists G', resolved_params G l l' g G' /\ holds t' G'.
Proof.
  induction l as [|[x n ty] l IH]; intros t G l' g t' HG H; cbn [nl_parameters] in H.
  { injection H as <- <- <-. exists G. split; [constructor|exact HG]. }
  binv H. destruct a as [[p' g1] t1]. binv H. destruct a as [[rest' g2] t2]. injection H as <- <- <-.
  unfold nl_parameter in E. binv E. cbn [p_name p_self p_type] in *.
  destruct (define_ok _ _ _ _ _ _ HG E1) as [Hn HG1].
  destruct ty as [cv k [w|] cw].
  - destruct (nl_expr a w) as [w'|e| |] eqn:Ew; try discriminate.
    + injection E as <- <- <-. destruct (IH _ _ _ _ _ HG1 E0) as (G' & R & HG'). exists G'. split; [|exact HG'].
      cbn [orb]. constructor; [exact Hn| |exact R]. apply (nl_type_iff a); [exact HG1|]. cbn [nl_type]. rewrite Ew. reflexivity.
    + destruct (le_code e); try discriminate. destruct w as [| | | | |cv' y lk g0|]; try discriminate.
      injection E as <- <- <-. cbn [nl_expr] in Ew. destruct (sym_find a y) eqn:Ey; [discriminate|].
      assert (Hy : ~ In y (names ((x, LParameter n) :: G))) by (apply (holds_none a); assumption).
      destruct (define_new a _ y (LNode DWidth n) failed_to_define_variable HG1 Hy) as (t'' & Ed & HG2).
      unfold define in Ed. destruct (emplace a y (LNode DWidth n)); [discriminate|]. injection Ed as ->.
      destruct (IH _ _ _ _ _ HG2 E0) as (G' & R & HG'). exists G'. split; [|exact HG']. cbn [orb].
      econstructor; eassumption.
  - injection E as <- <- <-. destruct (IH _ _ _ _ _ HG1 E0) as (G' & R & HG'). exists G'. split; [|exact HG'].
    constructor; [exact Hn| |exact R]. split; [reflexivity|constructor].
Qed.

Lemma nl_parameters_complete : forall G l l' g G', resolved_params G l l' g G' ->
  forall t, holds t G -> exists t', nl_parameters t l = Ok (l', g, t') /\ holds t' G'.
Proof.
  induction 1 as [G|G x n ty ty' l l' g G' Hn Ht _ IH|G x n cv k cv' y lk g0 w l l' g G' Hn Hy _ IH]; intros t HG.
  - exists t. auto.
  - destruct (define_new t G x (LParameter n) failed_to_define_parameter HG Hn) as (t1 & E & HG1).
    destruct (IH t1 HG1) as (t' & E' & HG'). exists t'. split; [|exact HG'].
    cbn [nl_parameters]. unfold nl_parameter. cbn [p_name p_self p_type]. rewrite E. cbn [bind].
    apply (nl_type_iff t1) in Ht; [|exact HG1]. destruct ty as [cv k [e|] cw].
    + cbn [nl_type] in Ht. binv Ht. injection Ht as <-. rewrite E0. cbn [bind]. rewrite E'. reflexivity.
    + injection Ht as <-. cbn [bind]. rewrite E'. reflexivity.
  - destruct (define_new t G x (LParameter n) failed_to_define_parameter HG Hn) as (t1 & E & HG1).
    destruct (define_new t1 _ y (LNode DWidth n) failed_to_define_variable HG1 Hy) as (t2 & E2 & HG2).
    destruct (IH t2 HG2) as (t' & E' & HG'). exists t'. split; [|exact HG'].
    cbn [nl_parameters]. unfold nl_parameter. cbn [p_name p_self p_type]. rewrite E. cbn [bind nl_expr].
    replace (sym_find t1 y) with (@None lookup) by (symmetry; apply (holds_none t1 _ y HG1); exact Hy). cbn [le_code].
    unfold define in E2. destruct (emplace t1 y (LNode DWidth n)); [discriminate|]. injection E2 as ->.
    cbn [bind]. rewrite E'. reflexivity.
Qed.

Lemma nl_function_iff : forall t G f f', holds t G -> (nl_function t f = Ok f' <-> resolved_function G f f').
Proof.
  intros t G f f' HG. apply holds_nested in HG. split.
  - intros H. unfold nl_function in H. binv H. destruct a as [[params g] t1]. binv H. binv H. binv H. destruct a1 as [body t2].
    injection H as <-. destruct (nl_parameters_sound _ _ _ _ _ _ HG E) as (G1 & R1 & HG1).
    destruct (nl_stmt_sound _ _ _ _ _ HG1 E2) as (G2 & R2 & HG2).
    exists params, g, a, a0, body, G1, G2. split; [exact R1|]. split; [eapply nl_type_iff; eassumption|].
    split; [|split; [exact R2|reflexivity]]. eapply nl_option_iff; [|exact E1]. intros. apply nl_expr_iff. exact HG1.
  - intros (params & g & ret & req & body & G1 & G2 & R1 & R2 & R3 & R4 & ->). unfold nl_function.
    destruct (nl_parameters_complete _ _ _ _ _ R1 _ HG) as (t1 & E1 & HG1). rewrite E1. cbn [bind].
    apply (nl_type_iff t1) in R2; [|exact HG1]. rewrite R2. cbn [bind].
    apply (nl_option_iff _ (nl_expr t1)) in R3; [|intros; apply nl_expr_iff; exact HG1]. rewrite R3. cbn [bind].
    destruct (nl_stmt_complete _ _ _ _ R4 _ HG1) as (t2 & E2 & _). rewrite E2. reflexivity.
Qed.

(** ** Programs *)

From Coq Require Import Permutation.

Lemma holds_permutation : forall t G G', Permutation G G' -> holds t G -> holds t G'.
Proof.
  intros t G G' P (H1 & H2 & H3). split; [exact H1|]. split.
  - eapply Permutation_NoDup; [|exact H2]. apply Permutation_map. exact P.
  - intros x d. rewrite H3. split; apply Permutation_in; [exact P|apply Permutation_sym; exact P].
Qed.

Lemma register_sound : forall l t G t', holds t G -> nl_register_all t l = Ok t' ->
  Forall (fun d => is_global_declaration d = true) l /\ holds t' (flat_map declares_global l ++ G).
Proof.
  induction l as [|d l IH]; intros t G t' HG H; cbn [nl_register_all] in H.
  { injection H as <-. split; [constructor|exact HG]. }
  binv H. assert (K : is_global_declaration d = true /\ holds a (declares_global d ++ G)).
  { destruct d as [f|[]]; cbn in E |- *; try discriminate.
    - split; [reflexivity|]. eapply define_ok; eassumption.
    - split; [reflexivity|]. eapply define_ok; eassumption.
    - injection E as <-. auto. }
  destruct K as [K1 K2]. destruct (IH _ _ _ K2 H) as [F HG']. split; [constructor; assumption|].
  eapply holds_permutation; [|exact HG']. cbn [flat_map]. rewrite <- !app_assoc. rewrite !app_assoc.
  apply Permutation_app_tail. apply Permutation_app_comm.
Qed.

Lemma register_complete : forall l t G, holds t G -> Forall (fun d => is_global_declaration d = true) l ->
  NoDup (names (flat_map declares_global l ++ G)) -> exists t', nl_register_all t l = Ok t'.
Proof.
  induction l as [|d l IH]; intros t G HG F N; [eexists; reflexivity|]. inversion F as [|? ? Fd Fl]; subst.
  assert (P : Permutation (flat_map declares_global (d :: l) ++ G) (flat_map declares_global l ++ declares_global d ++ G)).
  { cbn [flat_map]. rewrite <- !app_assoc. rewrite !app_assoc. apply Permutation_app_tail. apply Permutation_app_comm. }
  assert (exists t1, nl_register t d = Ok t1 /\ holds t1 (declares_global d ++ G)) as (t1 & E & H1).
  { destruct d as [f|[]]; try discriminate; cbn [nl_register declares_global app]; try (exists t; split; [reflexivity|exact HG]).
    - apply define_new; [exact HG|]. cbn [flat_map declares_global app names map fst] in N. inversion N as [|? ? Hnin _]; subst.
      intros Hin. apply Hnin. rewrite map_app. apply in_or_app. right. exact Hin.
    - apply define_new; [exact HG|]. cbn [flat_map declares_global app names map fst] in N. inversion N as [|? ? Hnin _]; subst.
      intros Hin. apply Hnin. rewrite map_app. apply in_or_app. right. exact Hin. }
  cbn [nl_register_all]. rewrite E. cbn [bind]. apply (IH t1 (declares_global d ++ G) H1 Fl).
  eapply Permutation_NoDup; [|exact N]. apply Permutation_map. exact P.
Qed.

Lemma holds_builtin : holds [[]; builtin_scope] [(str "assert", LBuiltin builtin_assert)].
Proof.
  split; [discriminate|]. split; [repeat constructor; intros []|].
  intros x d. cbn [sym_find scope_find builtin_scope]. destruct (text_eqb x (str "assert")) eqn:E.
  - apply text_eqb_eq in E. subst. cbn [In]. split; [intros H; injection H as <-; auto|]. intros [H|[]]. congruence.
  - split; [discriminate|]. intros [H|[]]. injection H as <- <-. rewrite text_eqb_refl in E. discriminate.
Qed.

Lemma is_node_refl : forall k n, is_node (Some (LNode k n)) k n = true.
Proof. intros [] n; cbn; apply Pos.eqb_refl. Qed.

Lemma nl_global_iff : forall t G d d', holds t G -> is_global_declaration d = true ->
  (forall u, In u (declares_global d) -> In u G) -> (nl_global t d = Ok d' <-> resolved_declaration G d d').
Proof.
  intros t G d d' HG Hd Hin. destruct d as [f|s].
  - cbn [nl_global]. replace (sym_find t (f_name f)) with (Some (LNode DFunction (f_self f)))
      by (symmetry; apply HG, Hin; left; reflexivity). rewrite is_node_refl. cbn [assert_then bind]. split.
    + intros H. binv H. injection H as <-. constructor. eapply nl_function_iff; eassumption.
    + intros H. inversion H as [? f' R| |]; subst. apply (nl_function_iff t) in R; [|exact HG]. rewrite R. reflexivity.
  - destruct s; try discriminate; cbn [nl_global].
    + replace (sym_find t name) with (Some (LNode DConst self)) by (symmetry; apply HG, Hin; left; reflexivity).
      rewrite is_node_refl. cbn [assert_then bind]. split.
      * intros H. binv H. binv H. injection H as <-. constructor; [|eapply nl_expr_iff; eassumption].
        eapply nl_option_iff; [|exact E]. intros. apply nl_type_iff. exact HG.
      * intros H. inversion H as [|? ? ? ? t' ? e' R1 R2|]; subst.
        apply (nl_option_iff _ (nl_type t)) in R1; [|intros; apply nl_type_iff; exact HG]. rewrite R1. cbn [bind].
        apply (nl_expr_iff t) in R2; [|exact HG]. rewrite R2. reflexivity.
    + split.
      * intros H. binv H. injection H as <-. constructor. eapply nl_expr_iff; eassumption.
      * intros H. inversion H as [| |? ? e' R]; subst. apply (nl_expr_iff t) in R; [|exact HG]. rewrite R. reflexivity.
Qed.

Lemma nl_global_all_iff : forall t G l, holds t G -> Forall (fun d => is_global_declaration d = true) l ->
  (forall u, In u (flat_map declares_global l) -> In u G) ->
  forall l', nl_global_all t l = Ok l' <-> Forall2 (resolved_declaration G) l l'.
Proof.
  intros t G l HG. induction l as [|d l IH]; intros F Hin l'; cbn [nl_global_all].
  - split; [intros H; injection H as <-; constructor|]. intros H. inversion H. reflexivity.
  - inversion F as [|? ? Fd Fl]; subst. cbn [flat_map] in Hin.
    assert (Hd : forall u, In u (declares_global d) -> In u G) by (intros; apply Hin, in_or_app; auto).
    assert (Hl : forall u, In u (flat_map declares_global l) -> In u G) by (intros; apply Hin, in_or_app; auto).
    split.
    + intros H. binv H. binv H. injection H as <-. constructor; [eapply nl_global_iff; eassumption|]. apply IH; assumption.
    + intros H. inversion H as [|? d' ? l2 R Rs]; subst. apply (nl_global_iff t G) in R; [|assumption..]. rewrite R. cbn [bind].
      apply IH in Rs; [|assumption..]. rewrite Rs. reflexivity.
Qed.

Lemma resolved_global : forall G d d', resolved_declaration G d d' -> is_global_declaration d = true.
Proof. intros G d d' []; reflexivity. Qed.

Lemma name_lookup_iff : forall l l', name_lookup l = Ok l' <-> scoped_program l l'.
Proof.
  intros l l'. unfold name_lookup. split.
  - intros H. binv H. destruct (register_sound _ _ _ _ holds_builtin E) as [F HG]. fold (globals l) in HG.
    split; [apply HG|]. apply (nl_global_all_iff a); [exact HG|exact F| |exact H].
    intros u Hu. apply in_or_app. auto.
  - intros [N R]. assert (F : Forall (fun d => is_global_declaration d = true) l).
    { clear N. revert R. generalize (globals l). intros G R. induction R; constructor; [eapply resolved_global; eassumption|assumption]. }
    destruct (register_complete l _ _ holds_builtin F N) as [t E]. rewrite E. cbn [bind].
    destruct (register_sound _ _ _ _ holds_builtin E) as [_ HG]. fold (globals l) in HG.
    apply (nl_global_all_iff t (globals l)); [exact HG|exact F| |exact R]. intros u Hu. apply in_or_app. auto.
Qed.

(** Without calls in the widths of parameters, lookup ends with a program or an error. *)
Lemma nl_parameters_defined : forall l t,
  forallb (fun p => match p_type p with Type_Node _ _ (Some e) _ => no_calls e | Type_Node _ _ None _ => true end) l = true ->
  defined (nl_parameters t l).
Proof.
  induction l as [|[x n [cv k w cw]] l IH]; intros t H; [exact I|]. cbn [forallb p_type] in H. apply andb_prop in H as [Hp Hl].
  cbn [nl_parameters]. apply defined_bind; [|intros [[p' g] t1]; apply defined_bind; [apply IH; exact Hl|intros [[? ?] ?]; exact I]].
  unfold nl_parameter. apply defined_bind; [apply defined_define|]. intros t1. cbn [p_type]. destruct w as [e|]; [|exact I].
  pose proof (nl_expr_defined t1 e) as D. destruct (nl_expr t1 e) as [e'|er| |] eqn:E; try exact I; try contradiction.
  rewrite (proj1 (nl_undefined_both t1) e Hp er E). destruct e; exact I.
Qed.

Lemma nl_function_defined : forall t f, plain_widths (Decl_Function f) = true -> defined (nl_function t f).
Proof.
  intros t f H. unfold nl_function. apply defined_bind; [apply nl_parameters_defined; exact H|]. intros [[params g] t1].
  apply defined_bind; [auto with nl|]. intros ret. apply defined_bind; [auto with nl|]. intros req.
  apply defined_bind; [apply nl_stmt_defined|]. intros [body t2]. exact I.
Qed.

Lemma name_lookup_defined : forall l, Forall (fun d => is_global_declaration d = true /\ plain_widths d = true) l ->
  defined (name_lookup l).
Proof.
  intros l F. unfold name_lookup. destruct (nl_register_all [[]; builtin_scope] l) as [t|e| |] eqn:E; cbn [bind]; try exact I.
  - destruct (register_sound _ _ _ _ holds_builtin E) as [_ HG]. fold (globals l) in HG. clear E.
    assert (Hin : forall u, In u (flat_map declares_global l) -> In u (globals l)) by (intros u Hu; apply in_or_app; auto).
    revert HG Hin. generalize (globals l). intros G HG Hin. induction F as [|d l [Fd Fp] _ IH]; [exact I|].
    cbn [nl_global_all]. cbn [flat_map] in Hin. apply defined_bind; [|intros d'; apply defined_bind].
    + destruct d as [f|[]]; try discriminate; cbn [nl_global declares_global] in *.
      * replace (sym_find t (f_name f)) with (Some (LNode DFunction (f_self f)))
          by (symmetry; apply HG, Hin; left; reflexivity). rewrite is_node_refl. cbn [assert_then bind].
        apply defined_bind; [apply nl_function_defined; exact Fp|]. intros. exact I.
      * replace (sym_find t name) with (Some (LNode DConst self)) by (symmetry; apply HG, Hin; left; reflexivity).
        rewrite is_node_refl. cbn [assert_then bind]. apply defined_bind; [auto with nl|]. intros.
        apply defined_bind; [auto with nl|]. intros. exact I.
      * apply defined_bind; [auto with nl|]. intros. exact I.
    + apply IH. intros u Hu. apply Hin, in_or_app. auto.
    + intros. exact I.
  - exfalso. revert E. generalize ([[]; builtin_scope]). induction F as [|d l [Fd _] _ IH]; intros t E; [discriminate|].
    cbn [nl_register_all] in E. destruct (nl_register t d) as [t'|er| |] eqn:Er; cbn [bind] in E; try discriminate; [exact (IH _ E)|].
    destruct d as [f|[]]; try discriminate; cbn in Er; try (unfold define in Er; destruct (emplace _ _ _); discriminate).
  - exfalso. revert E. generalize ([[]; builtin_scope]). induction F as [|d l [Fd _] _ IH]; intros t E; [discriminate|].
    cbn [nl_register_all] in E. destruct (nl_register t d) as [t'|er| |] eqn:Er; cbn [bind] in E; try discriminate; [exact (IH _ E)|].
    destruct d as [f|[]]; try discriminate; cbn in Er; try (unfold define in Er; destruct (emplace _ _ _); discriminate).
Qed.
