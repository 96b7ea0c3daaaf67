(** After name lookup, programs are ready for analysis. *)
From Coq Require Import ZArith List Bool Lia.
From Verif Require Import Prelude Types Ops Text Tables AbsOps VM Ast AstFacts Codegen SourceSem CodegenSpec Analyze Programs
  NameLookup NameLookupSpec NameLookupProofs Sources.
Import ListNotations.

(** Declarations are of the kind that the entry says. *)
Definition kinds (consts : positive -> bool) (G : visible) : Prop :=
  forall x d, In (x, d) G ->
  match d with
  | LParameter n | LNode DLet n => consts n = false
  | LNode DConst n => consts n = true
  | _ => True
  end.

Lemma fresh_conversion : forall consts cv e t,
  fresh consts (EConversion cv e t) = absent cv && fresh consts e && fresh_type consts t.
Proof. reflexivity. Qed.

Lemma fresh_width : forall consts cv k e cw,
  fresh_type consts (Type_Node cv k (Some e) cw) = absent cv && absent cw && fresh consts e.
Proof. reflexivity. Qed.

Lemma fresh_both : forall consts G, kinds consts G ->
  (forall e, fresh consts (strip e) = true -> Forall (bound G) (uses e) -> fresh consts e = true)
  /\ (forall t, fresh_type consts (strip_type t) = true -> Forall (bound G) (uses_type t) -> fresh_type consts t = true).
Proof.
  intros consts G K. apply both_induction.
  - intros cv e t IHe IHt H B. cbn [strip uses] in *. rewrite fresh_conversion in *. apply andb_prop in H as [H H3].
    apply andb_prop in H as [H1 H2]. apply Forall_app in B as [B1 B2]. rewrite H1, IHe, IHt by assumption. reflexivity.
  - intros cv l c r IHl IHc IHr H B. cbn in *. apply andb_prop in H as [H H4]. apply andb_prop in H as [H H3].
    apply andb_prop in H as [H1 H2]. rewrite !Forall_app in B. destruct B as (B1 & B2 & B3).
    rewrite H1, IHl, IHc, IHr by assumption. reflexivity.
  - intros cv op l r IHl IHr H B. cbn in *. apply andb_prop in H as [H H3]. apply andb_prop in H as [H1 H2].
    apply Forall_app in B as [B1 B2]. rewrite H1, IHl, IHr by assumption. reflexivity.
  - intros cv op e IH H B. cbn in *. apply andb_prop in H as [H1 H2]. rewrite H1, IH by assumption. reflexivity.
  - intros cv name lk st args IH H B. cbn [strip fresh uses] in *. apply andb_prop in H as [H1 H2]. rewrite H1. cbn [andb].
    inversion B as [|? ? _ B']; subst. clear B. induction IH as [|a args Ha _ IHl]; [reflexivity|].
    cbn [map forallb flat_map] in *. apply andb_prop in H2 as [H2 H3]. apply Forall_app in B' as [B1 B2].
    rewrite Ha, IHl by assumption. reflexivity.
  - intros cv name lk g H B. cbn in *. rewrite andb_true_r in H. rewrite H. cbn [andb].
    inversion B as [|? ? (d & E & Hd) _]; subst. cbn in E, Hd. subst lk. apply K in Hd.
    destruct d as [[] n|n|b]; try reflexivity; rewrite Hd; reflexivity.
  - intros cv lit t H B. exact H.
  - intros cv k cw H B. exact H.
  - intros cv k e cw IH H B. cbn [strip_type uses_type] in *. rewrite fresh_width in *. apply andb_prop in H as [H1 H2]. rewrite H1, IH by assumption. reflexivity.
Qed.

Lemma resolved_fresh : forall consts G e e', kinds consts G -> resolved G e e' ->
  fresh consts (strip e) = true -> fresh consts e' = true.
Proof. intros consts G e e' K [S B] H. apply (proj1 (fresh_both consts G K)); [rewrite S; exact H|exact B]. Qed.
Lemma resolved_type_fresh : forall consts G e e', kinds consts G -> resolved_type G e e' ->
  fresh_type consts (strip_type e) = true -> fresh_type consts e' = true.
Proof. intros consts G e e' K [S B] H. apply (proj2 (fresh_both consts G K)); [rewrite S; exact H|exact B]. Qed.

Lemma call_free_both : (forall e, call_free (strip e) = call_free e) /\ (forall t, call_free_type (strip_type t) = call_free_type t).
Proof. apply both_induction; intros; cbn; congruence. Qed.

Lemma plain_strip : forall e, plain (strip e) = plain e.
Proof.
  induction e as [cv e t IH|cv l c r IHl IHc IHr|cv op l r IHl IHr|cv op e IH|cv name lk st args IH
                 |cv name lk g|cv lit t] using expr_induction; cbn; try congruence. f_equal.
  induction IH as [|a args Ha _ IHl]; [reflexivity|]. cbn. congruence.
Qed.

Lemma resolved_plain : forall G e e', resolved G e e' -> plain e' = plain e.
Proof. intros G e e' [S _]. rewrite <- (plain_strip e), <- S, plain_strip. reflexivity. Qed.

Lemma kinds_cons : forall consts G x d, kinds consts G ->
  match d with LParameter n | LNode DLet n => consts n = false | LNode DConst n => consts n = true | _ => True end ->
  kinds consts ((x, d) :: G).
Proof. intros consts G x d K H y e [E|E]; [injection E as <- <-; exact H|exact (K y e E)]. Qed.

Lemma resolved_stmt_fresh : forall consts G s s' G', resolved_stmt G s s' G' ->
  kinds consts G -> fresh_stmt consts (strip_stmt s) = true -> fresh_stmt consts s' = true /\ kinds consts G'.
Proof.
  intros consts. apply (resolved_stmt_mut
    (fun G s s' G' => kinds consts G -> fresh_stmt consts (strip_stmt s) = true -> fresh_stmt consts s' = true /\ kinds consts G')
    (fun G l l' => kinds consts G -> forallb (fresh_stmt consts) (map strip_stmt l) = true -> forallb (fresh_stmt consts) l' = true)).
  - intros G cv x n t t' e e' Hn Ht He K H. cbn in H. apply andb_prop in H as [H H4]. apply andb_prop in H as [H H3].
    apply andb_prop in H as [H1 H2]. assert (K' : kinds consts ((x, LNode DConst n) :: G)) by (apply kinds_cons; assumption).
    split; [|exact K']. cbn. rewrite H1, H2, (resolved_fresh _ _ _ _ K' He H3).
    destruct t as [t|], t' as [t'|]; cbn in *; try contradiction; [|reflexivity].
    rewrite (resolved_type_fresh _ _ _ _ K' Ht H4). reflexivity.
  - intros G cv x n t t' e e' Hn Ht He K H. cbn in H. apply andb_prop in H as [H H4]. apply andb_prop in H as [H H3].
    apply andb_prop in H as [H1 H2]. assert (K' : kinds consts ((x, LNode DLet n) :: G)) by (apply kinds_cons; [assumption|]; destruct (consts n); [discriminate|reflexivity]).
    split; [|exact K']. cbn. rewrite H1, H2. cbn [andb].
    assert (match t' with Some t0 => fresh_type consts t0 | None => true end = true) as ->.
    { destruct t as [t|], t' as [t'|]; cbn in *; try contradiction; [|reflexivity]. eapply resolved_type_fresh; eassumption. }
    destruct e as [e|], e' as [e'|]; cbn in *; try contradiction; [|reflexivity]. eapply resolved_fresh; eassumption.
  - intros G cv e e' He K H. cbn in *. apply andb_prop in H as [H1 H2]. rewrite H1, (resolved_fresh _ _ _ _ K He H2). auto.
  - intros G cv c c' b b' G1 Hc _ IHb K H. cbn in *. apply andb_prop in H as [H _]. apply andb_prop in H as [H H3].
    apply andb_prop in H as [H1 H2]. destruct (IHb K H3) as [H4 K1]. rewrite H1, (resolved_fresh _ _ _ _ K Hc H2), H4. auto.
  - intros G cv c c' b b' s s' G1 G2 Hc _ IHb _ IHs K H. cbn in *. apply andb_prop in H as [H H5]. apply andb_prop in H as [H H3].
    apply andb_prop in H as [H1 H2]. destruct (IHb K H3) as [H4 K1]. destruct (IHs K1 H5) as [H6 K2].
    rewrite H1, (resolved_fresh _ _ _ _ K Hc H2), H4, H6. auto.
  - intros G cv c c' b b' G1 Hc _ IHb K H. cbn in *. apply andb_prop in H as [H H3].
    apply andb_prop in H as [H1 H2]. destruct (IHb K H3) as [H4 K1]. rewrite H1, (resolved_fresh _ _ _ _ K Hc H2), H4. auto.
  - intros G cv k e e' He K H. cbn in *. apply andb_prop in H as [H1 H2]. rewrite H1. split; [|exact K]. cbn [andb].
    destruct e as [e|], e' as [e'|]; cbn in *; try contradiction; [|reflexivity]. eapply resolved_fresh; eassumption.
  - intros G cv x lk d e e' Hd He K H. cbn in *. apply andb_prop in H as [H _]. apply andb_prop in H as [H1 H2].
    rewrite H1, (resolved_fresh _ _ _ _ K He H2). split; [|exact K]. cbn [andb]. apply K in Hd.
    destruct d as [[] n|n|b]; try reflexivity. rewrite Hd. reflexivity.
  - intros G cv l l' _ IH K H. cbn in *. apply andb_prop in H as [H1 H2]. rewrite H1, (IH K H2). auto.
  - intros G e e' He K H. cbn in *. split; [|exact K]. eapply resolved_fresh; eassumption.
  - reflexivity.
  - intros G s s' G1 l l' _ IHs _ IHl K H. cbn in *. apply andb_prop in H as [H1 H2]. destruct (IHs K H1) as [H3 K1].
    rewrite H3, (IHl K1 H2). reflexivity.
Qed.

Lemma resolved_stmt_shape : forall G s s' G', resolved_stmt G s s' G' -> shaped s' = shaped s /\ declares s' = declares s.
Proof.
  apply (resolved_stmt_mut
    (fun G s s' G' => shaped s' = shaped s /\ declares s' = declares s)
    (fun G l l' => forallb shaped l' = forallb shaped l /\ flat_map declares l' = flat_map declares l));
    intros; cbn; repeat match goal with H : _ /\ _ |- _ => destruct H end; try (split; congruence);
    repeat match goal with
    | H : resolved _ _ _ |- _ => pose proof (resolved_plain _ _ _ H); revert H
    end; intros; try (split; congruence).
  - destruct e as [e|], e' as [e'|]; cbn in *; try contradiction; split; try reflexivity. eapply resolved_plain; eassumption.
  - destruct e as [e|], e' as [e'|]; cbn in *; try contradiction; split; try reflexivity. eapply resolved_plain; eassumption.
  - split; [|reflexivity]. match goal with H : resolved _ _ _ |- _ => destruct H as [E _] end.
    destruct e, e'; cbn [strip] in E; try discriminate; try reflexivity.
    clear H0. injection E as _ _ Es E. f_equal; [exact Es|]. revert args0 E.
    induction args as [|a args IH]; intros [|b args0] E; try discriminate; [reflexivity|]. cbn in *.
    injection E as E1 E2. f_equal; [|apply IH; exact E2]. rewrite <- (plain_strip a), <- E1, plain_strip. reflexivity.
Qed.

Lemma resolved_list_app : forall G l1 l2 l', resolved_list G (l1 ++ l2) l' ->
  exists G1 l1' l2', l' = l1' ++ l2' /\ resolved_list G1 l2 l2'.
Proof.
  intros G l1. revert G. induction l1 as [|s l1 IH]; intros G l2 l' H.
  - exists G, [], l'. auto.
  - cbn in H. inversion H as [|? ? s' G1 ? l2' Hs Hl]; subst. destruct (IH _ _ _ Hl) as (G2 & a & b & -> & R).
    exists G2, (s' :: a), b. auto.
Qed.

Lemma resolved_list_in : forall G l l', resolved_list G l l' ->
  forall s', In s' l' -> exists s G1 G2, In s l /\ resolved_stmt G1 s s' G2.
Proof.
  intros G l. revert G. induction l as [|s l IH]; intros G l' H s' Hin; inversion H as [|? ? s1 G1 ? l2' Hs Hl]; subst; [destruct Hin|].
  destruct Hin as [->|Hin]; [exists s, G, G1; cbn; auto|]. destruct (IH _ _ Hl s' Hin) as (s0 & G2 & G3 & H0 & R).
  exists s0, G2, G3. cbn. auto.
Qed.

Lemma node_type_strip : forall t, node_type (strip_type t) = node_type t.
Proof. intros [cv k w cw]. reflexivity. Qed.

Lemma resolved_ends : forall G f f', resolved_function G f f' -> ends_with_return f -> ends_with_return f'.
Proof.
  intros G f f' (params & g & ret & req & body & G1 & G2 & R1 & [S2 _] & R3 & R4 & ->) (cv & l & Hb & H).
  rewrite Hb in R4. inversion R4 as [| | | | | | | |? ? ? l' Hl|]; subst. exists cv, l'. split; [reflexivity|]. cbn [f_return].
  destruct H as [(l0 & c & e & ->)|[Hv Hno]].
  - left. destruct (resolved_list_app _ _ _ _ Hl) as (G3 & a & b & -> & R). inversion R as [|? ? s' G4 ? b' Hs Hn]; subst.
    inversion Hn; subst. inversion Hs; subst. eauto.
  - right. split; [rewrite <- (node_type_strip ret), S2, node_type_strip; exact Hv|]. intros s' Hs'.
    destruct (resolved_list_in _ _ _ Hl s' Hs') as (s & G3 & G4 & Hin & R). specialize (Hno s Hin). inversion R; subst; auto.
Qed.

Lemma resolved_params_ready : forall consts G l l' g G', resolved_params G l l' g G' -> g = false -> kinds consts G ->
  (forall p, In p l -> fresh_type consts (strip_type (p_type p)) = true /\ call_free_type (p_type p) = true /\ consts (p_self p) = false) ->
  kinds consts G' /\ map p_self l' = map p_self l
  /\ (forall p, In p l' -> fresh_type consts (p_type p) = true /\ call_free_type (p_type p) = true /\ consts (p_self p) = false).
Proof.
  induction 1 as [G|G x n ty ty' l l' g G' Hn Ht _ IH|]; intros Hg K HH; [|subst|discriminate]; rename HH into H.
  - split; [exact K|]. split; [reflexivity|]. intros p [].
  - destruct (H _ (or_introl eq_refl)) as (H1 & H2 & H3). cbn [p_type p_self] in H1, H2, H3.
    assert (K' : kinds consts ((x, LParameter n) :: G)) by (apply kinds_cons; assumption).
    destruct (IH eq_refl K' (fun p Hp => H p (or_intror Hp))) as (K1 & E & Hall). split; [exact K1|]. split; [cbn; congruence|].
    intros p [<-|Hp]; [|exact (Hall p Hp)]. cbn [p_type p_self]. split; [exact (resolved_type_fresh _ _ _ _ K' Ht H1)|]. split; [|exact H3].
    destruct Ht as [S _]. rewrite <- (proj2 call_free_both), S, (proj2 call_free_both). exact H2.
Qed.

Lemma resolved_function_ready : forall consts G f f', kinds consts G -> resolved_function G f f' -> f_generic f' = false ->
  source_function consts f -> function_ready consts f' /\ f_self f' = f_self f /\ declared_in f' = declared_in f.
Proof.
  intros consts G f f' K R Hg (S1 & S2 & S3 & S4 & S5 & S6 & S7 & S8 & S9 & S10 & S11 & S12).
  pose proof (resolved_ends _ _ _ R S11) as Hend.
  destruct R as (params & g & ret & req & body & G1 & G2 & R1 & R2 & R3 & R4 & ->). cbn [f_generic] in Hg. rewrite S3 in Hg. cbn in Hg. subst g.
  destruct (resolved_params_ready consts _ _ _ _ _ R1 eq_refl K S6) as (K1 & Ep & Hp).
  destruct (resolved_stmt_fresh consts _ _ _ _ R4 K1 S9) as [Hf _]. destruct (resolved_stmt_shape _ _ _ _ R4) as [Hs Hd].
  assert (D : declared_in (Func (f_name f) (f_self f) (f_cv f) params ret req body (f_generic f || false) (f_address f) (f_level f)) = declared_in f).
  { unfold declared_in. cbn [f_params f_body]. congruence. }
  split; [|split; [reflexivity|exact D]].
  unfold function_ready. rewrite D. cbn [f_cv f_requires f_generic f_address f_level f_params f_return f_body].
  rewrite S2 in R3. destruct req; [contradiction|]. rewrite S3.
  repeat (split; [first [assumption|reflexivity]|]). split; [eapply resolved_type_fresh; eassumption|].
  split; [destruct R2 as [E _]; rewrite <- (proj2 call_free_both), E, (proj2 call_free_both); exact S8|].
  split; [exact Hf|]. split; [congruence|]. split; [exact Hend|exact S12].
Qed.

Lemma nodup_app : forall (A : Type) (l1 l2 : list A), NoDup (l1 ++ l2) ->
  NoDup l1 /\ NoDup l2 /\ forall x, In x l1 -> ~ In x l2.
Proof.
  intros A l1 l2. induction l1 as [|a l1 IH]; intros H.
  - split; [constructor|]. split; [exact H|]. intros x [].
  - cbn in H. inversion H as [|? ? Hn H']; subst. destruct (IH H') as (H1 & H2 & H3). split; [|split; [exact H2|]].
    + constructor; [|exact H1]. intros Hin. apply Hn, in_or_app. auto.
    + intros x [<-|Hx] Hin; [apply Hn, in_or_app; auto|exact (H3 x Hx Hin)].
Qed.

Lemma nodup_flat_map : forall (A B : Type) (f : A -> list B) l a b x, NoDup (flat_map f l) ->
  In a l -> In b l -> In x (f a) -> In x (f b) -> a = b.
Proof.
  intros A B f l a b x. induction l as [|c l IH]; intros H Ha Hb Hxa Hxb; [destruct Ha|]. cbn in H.
  destruct (nodup_app _ _ _ H) as (_ & H2 & H3).
  destruct Ha as [->|Ha], Hb as [->|Hb]; auto.
  - elim (H3 x Hxa). apply in_flat_map. eauto.
  - elim (H3 x Hxb). apply in_flat_map. eauto.
Qed.

Section Program.
Variable consts : positive -> bool.
Variable l l' : list declaration.
Hypothesis Hsrc : source_program consts l.
Hypothesis Hscope : scoped_program l l'.
Hypothesis Hplain : forall f, In f (functions_of l') -> f_generic f = false.

Lemma in_functions : forall m f, In f (functions_of m) <-> In (Decl_Function f) m.
Proof.
  intros m f. unfold functions_of. rewrite in_flat_map. split.
  - intros ([g|s] & H1 & H2); [destruct H2 as [->|[]]; exact H1|destruct H2].
  - intros H. exists (Decl_Function f). cbn. auto.
Qed.
Lemma in_statements : forall m s, In s (statements_of m) <-> In (Decl_Statement s) m.
Proof.
  intros m s. unfold statements_of. rewrite in_flat_map. split.
  - intros ([g|s'] & H1 & H2); [destruct H2|destruct H2 as [->|[]]; exact H1].
  - intros H. exists (Decl_Statement s). cbn. auto.
Qed.

Lemma global_kinds : kinds consts (globals l).
Proof.
  destruct Hsrc as (_ & _ & _ & Hs). intros x d Hin. apply in_app_or in Hin as [Hin|[E|[]]]; [|injection E as <- <-; exact I].
  apply in_flat_map in Hin as ([f|s] & H1 & H2).
  - destruct H2 as [E|[]]. injection E as <- <-. exact I.
  - apply in_statements in H1. specialize (Hs s H1). destruct s; cbn in H2; try contradiction. destruct H2 as [E|[]].
    injection E as <- <-. cbn in Hs. apply andb_prop in Hs as [Hs _]. apply andb_prop in Hs as [Hs _]. apply andb_prop in Hs as [_ Hs]. exact Hs.
Qed.

Lemma forall2_in_r : forall (A B : Type) (R : A -> B -> Prop) la lb b, Forall2 R la lb -> In b lb -> exists a, In a la /\ R a b.
Proof.
  intros A B R la lb b H. induction H as [|a b' la lb HR _ IH]; intros Hin; [destruct Hin|].
  destruct Hin as [->|Hin]; [exists a; cbn; auto|]. destruct (IH Hin) as (a' & H1 & H2). exists a'. cbn. auto.
Qed.

Lemma function_source : forall f', In f' (functions_of l') -> exists f, In f (functions_of l)
  /\ function_ready consts f' /\ f_self f' = f_self f /\ declared_in f' = declared_in f.
Proof.
  intros f' Hf'. pose proof (Hplain f' Hf') as Hg. apply in_functions in Hf'.
  destruct (forall2_in_r _ _ _ _ _ _ (proj2 Hscope) Hf') as (d & Hd & R). inversion R as [f ? RF| |]; subst.
  apply in_functions in Hd. exists f. split; [exact Hd|]. eapply resolved_function_ready; [apply global_kinds|exact RF|exact Hg|].
  apply Hsrc. exact Hd.
Qed.

Lemma global_declares : forall G d d', resolved_declaration G d d' ->
  match d, d' with
  | Decl_Statement s, Decl_Statement s' => declares s' = declares s /\ is_global s' = true
  | Decl_Function _, Decl_Function _ => True
  | _, _ => False
  end.
Proof. intros G d d' []; cbn; auto. Qed.

Lemma table_in : forall m n f, table_of m n = Some f -> In f (functions_of m) /\ f_self f = n.
Proof. intros m n f H. apply find_some in H as [H1 H2]. apply Pos.eqb_eq in H2. auto. Qed.

Lemma items_declared : global_declared (items_of l') = flat_map declares (statements_of l).
Proof.
  destruct Hscope as [_ F]. revert F. generalize (globals l). intros G F. clear -F.
  induction F as [|d d' l l' R _ IH]; [reflexivity|]. apply global_declares in R.
  destruct d as [f|s], d' as [f'|s']; try contradiction; cbn; [exact IH|]. destruct R as [-> _]. f_equal. exact IH.
Qed.

Lemma lookup_ready : program_ready consts (table_of l') (items_of l').
Proof.
  pose proof Hsrc as (Hf & Hself & Hids & Hs). destruct (nodup_app _ _ _ Hids) as (N1 & N2 & N3).
  split; [|split; [|split; [|split]]].
  - intros n f' H. apply table_in in H as [Hin Hn]. destruct (function_source f' Hin) as (f & _ & Hr & _ & _).
    split; [exact Hr|]. apply in_functions in Hin. apply in_map_iff. exists (Decl_Function f'). split; [cbn; congruence|exact Hin].
  - intros n n' f f' p H H' Hp Hp'. apply table_in in H as [Hin <-]. apply table_in in H' as [Hin' <-].
    destruct (function_source f Hin) as (g & Hg & _ & E1 & E2). destruct (function_source f' Hin') as (g' & Hg' & _ & E1' & E2').
    rewrite E2 in Hp. rewrite E2' in Hp'. rewrite E1, E1'. f_equal. eapply nodup_flat_map; eassumption.
  - intros s' H. apply in_map_iff in H as ([f|s0] & E & Hin); [discriminate|]. injection E as ->.
    destruct (forall2_in_r _ _ _ _ _ _ (proj2 Hscope) Hin) as (d & Hd & R).
    inversion R as [|cv x n t t' e e' Ht He|cv e e' He]; subst; (split; [reflexivity|]); apply in_statements in Hd; specialize (Hs _ Hd);
      pose proof global_kinds as K; cbn in Hs |- *.
    + apply andb_prop in Hs as [Hs H4]. apply andb_prop in Hs as [Hs H3]. rewrite Hs, (resolved_fresh _ _ _ _ K He H3). cbn [andb].
      destruct t as [t|], t' as [t'|]; cbn in *; try contradiction; [|reflexivity]. eapply resolved_type_fresh; eassumption.
    + apply andb_prop in Hs as [Hs H3]. rewrite Hs, (resolved_fresh _ _ _ _ K He H3). reflexivity.
  - rewrite items_declared. exact N2.
  - intros n f' p H Hp. apply table_in in H as [Hin _]. destruct (function_source f' Hin) as (f & Hf1 & _ & _ & E).
    rewrite items_declared. apply N3. apply in_flat_map. exists f. rewrite <- E. auto.
Qed.
End Program.
