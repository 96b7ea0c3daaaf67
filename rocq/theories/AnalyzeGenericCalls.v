(** Where calls lead after the analysis with bit-generic functions. *)
From Coq Require Import ZArith List Bool Lia.
From Verif Require Import Prelude Types Ops Text Tables AbsOps Literals LinMap VM Ast AstFacts Codegen Programs Analyze
  Instantiate InstantiateSpec InstantiateProofs AnalyzeGeneric AnalyzeGenericSpec.
Import ListNotations.
Open Scope Z_scope.

Section Calls.
Variable T : positive -> option func.
Variable next0 : positive.
Hypothesis Ready : table_ready T next0.

(** What the function under identity [n] was at first. *)
Definition origin (g : gstate) (n : positive) (o : func) : Prop :=
  T n = Some o \/ exists m i, In i (g_instances g m) /\ i_function i = o /\ f_self o = n.

Notation cled g := (calls_led T (g_instances g)).
Notation settled := (settled T).

Definition new_params (l : list parameter) : bool := forallb (fun p => new_type (p_type p)) l.

Record grown (g : gstate) (o h : func) : Prop := {
  gr_self : f_self h = f_self o;
  gr_generic : f_generic h = f_generic o;
  gr_same : f_generic o = true -> h = o;
  gr_params : cled g (calls_params (f_params o)) (calls_params (f_params h));
  gr_return : cled g (calls_type (f_return o)) (calls_type (f_return h));
  gr_requires : cled g (calls_requires (f_requires o)) (calls_requires (f_requires h));
  gr_body : cled g (calls_stmt (f_body o)) (calls_stmt (f_body h))
}.

(** Each part of a function is as in the source or has been analysed, and analysed parts lead to no generic
    functions. *)
Record proper (h : func) : Prop := {
  pr_params : new_params (f_params h) = true \/ settled (calls_params (f_params h));
  pr_return : new_type (f_return h) = true \/ settled (calls_type (f_return h));
  pr_requires : new_requires (f_requires h) = true \/ settled (calls_requires (f_requires h));
  pr_body : new_stmt (f_body h) = true \/ settled (calls_stmt (f_body h));
  pr_shallow : 1 <= level_index (f_level h) ->
    settled (calls_params (f_params h)) /\ settled (calls_type (f_return h)) /\ settled (calls_requires (f_requires h));
  pr_full : 2 <= level_index (f_level h) -> settled (calls_stmt (f_body h))
}.

Record kept (h h' : func) : Prop := {
  kp_params : settled (calls_params (f_params h)) -> settled (calls_params (f_params h'));
  kp_return : settled (calls_type (f_return h)) -> settled (calls_type (f_return h'));
  kp_requires : settled (calls_requires (f_requires h)) -> settled (calls_requires (f_requires h'));
  kp_body : settled (calls_stmt (f_body h)) -> settled (calls_stmt (f_body h'))
}.
Lemma kept_refl : forall h, kept h h.
Proof. intros h. constructor; auto. Qed.
Lemma kept_trans : forall a b c, kept a b -> kept b c -> kept a c.
Proof. intros a b c [] []. constructor; auto. Qed.

Record inv (g : gstate) : Prop := {
  iv_next : (next0 <= g_next g)%positive;
  iv_keys : forall n h, st_functions (g_st g) n = Some h -> (n < g_next g)%positive;
  iv_inst : forall m i, In i (g_instances g m) -> exists f, T m = Some f /\ f_generic f = true;
  iv_list : forall m f, T m = Some f -> f_generic f = true -> instances_of f (g_next g) (g_instances g m);
  iv_new : forall m i x, In i (g_instances g m) -> In x (own (i_function i)) -> (next0 <= x)%positive;
  iv_origin : forall n h, st_functions (g_st g) n = Some h -> exists o, origin g n o /\ grown g o h /\ proper h;
  iv_there : forall n o, origin g n o -> exists h, st_functions (g_st g) n = Some h;
  iv_unique : forall n o o', origin g n o -> origin g n o' -> o = o'
}.

Record evolves (g g' : gstate) : Prop := {
  ev_instances : forall m, exists l, g_instances g' m = g_instances g m ++ l;
  ev_functions : forall n h, st_functions (g_st g) n = Some h ->
    exists h', st_functions (g_st g') n = Some h' /\ kept h h'
}.
Lemma evolves_refl : forall g, evolves g g.
Proof.
  intros g. constructor; [intros m; exists []; rewrite app_nil_r; reflexivity|]. intros n h E. eauto using kept_refl.
Qed.
Lemma evolves_trans : forall g1 g2 g3, evolves g1 g2 -> evolves g2 g3 -> evolves g1 g3.
Proof.
  intros g1 g2 g3 [A1 A2] [B1 B2]. constructor.
  - intros m. destruct (A1 m) as [l X]. destruct (B1 m) as [l' Y]. exists (l ++ l'). rewrite Y, X, app_assoc. reflexivity.
  - intros n h X. destruct (A2 n h X) as (h1 & Y & K1). destruct (B2 n h1 Y) as (h2 & Z & K2). eauto using kept_trans.
Qed.
Lemma evolves_in : forall g g' m i, evolves g g' -> In i (g_instances g m) -> In i (g_instances g' m).
Proof. intros g g' m i [E _] X. destruct (E m) as [l ->]. apply in_or_app. left. exact X. Qed.
Lemma origin_evolves : forall g g' n o, evolves g g' -> origin g n o -> origin g' n o.
Proof.
  intros g g' n o E [X|(m & i & A & B & C)]; [left; exact X|right]. exists m, i. split; [|auto].
  eapply evolves_in; eassumption.
Qed.
Lemma led_evolves : forall g g' a b, evolves g g' -> led T (g_instances g) a b -> led T (g_instances g') a b.
Proof.
  intros g g' a b E [lk|m f i A B C]; [constructor|]. econstructor; try eassumption. eapply evolves_in; eassumption.
Qed.
Lemma cled_evolves : forall g g' a b, evolves g g' -> cled g a b -> cled g' a b.
Proof. intros g g' a b E. induction 1; constructor; auto. eapply led_evolves; eassumption. Qed.
Lemma cled_refl : forall g a, cled g a a.
Proof. intros g. induction a; constructor; [constructor|assumption]. Qed.
Lemma fresh_instance : forall g m i, inv g -> In i (g_instances g m) -> T (f_self (i_function i)) = None.
Proof.
  intros g m i I X. destruct (T (f_self (i_function i))) as [f|] eqn:E; [|reflexivity]. exfalso.
  destruct (Ready _ _ E) as (_ & L & _). pose proof (iv_new g I m i _ X (or_introl eq_refl)). lia.
Qed.
Lemma led_trans : forall g a b c, inv g -> led T (g_instances g) a b -> led T (g_instances g) b c ->
  led T (g_instances g) a c.
Proof.
  intros g a b c I X Y. inversion X as [|m f i A B C]; subst; [exact Y|]. inversion Y as [|m' f' i' A' B' C']; subst; [exact X|].
  rewrite (fresh_instance g m i I C) in A'. discriminate A'.
Qed.
Lemma cled_trans : forall g a b c, inv g -> cled g a b -> cled g b c -> cled g a c.
Proof.
  intros g a b c I X. revert c. induction X; intros c Y; inversion Y; subst; constructor.
  - eapply led_trans; eassumption.
  - apply IHX. assumption.
Qed.
Lemma grown_evolves : forall g g' o h, evolves g g' -> grown g o h -> grown g' o h.
Proof. intros g g' o h E []. constructor; auto; eapply cled_evolves; eassumption. Qed.
Lemma grown_refl : forall g o, grown g o o.
Proof. intros g o. constructor; auto; apply cled_refl. Qed.

Lemma settled_led : forall g c c', inv g -> cled g c c' -> settled c -> settled c'.
Proof.
  intros g c c' I X. induction X as [|x y c c' L _ IH]; intros S; inversion S as [|? ? S1 S2]; subst; constructor; [|apply IH; exact S2].
  intros m f E F. inversion L as [lk Q1 Q2|m' f' i A B C Q1 Q2].
  - rewrite Q2 in S1. eapply S1; eassumption.
  - exfalso. rewrite E in Q2. injection Q2 as Q2. rewrite <- Q2, (fresh_instance g m' i I C) in F. discriminate F.
Qed.
Lemma settled_served : forall g c c', inv g -> Forall2 (served T (g_instances g)) c c' -> settled c'.
Proof.
  intros g c c' I X. induction X as [|x y c c' L _ IH]; constructor; [|exact IH].
  intros m f E F. destruct L as [Q H|m' f' i ts A B C D Q _ _].
  - apply (H m f); [rewrite <- Q; exact E|exact F].
  - exfalso. rewrite E in Q. injection Q as Q. rewrite Q, (fresh_instance g m' i I D) in F. discriminate F.
Qed.

(** What happens to calls; all of them are served if nothing had been analysed. *)
Definition handled (g : gstate) (new : bool) (c c' : list (option lookup * list (option avalue))) : Prop :=
  cled g c c' /\ (new = true -> Forall2 (served T (g_instances g)) c c').
Lemma served_evolves : forall g g' a b, evolves g g' -> served T (g_instances g) a b -> served T (g_instances g') a b.
Proof.
  intros g g' a b E [Q H|m' f' i ts A B C D Q R S]; [apply sv_same; assumption|].
  eapply sv_instance; try eassumption. eapply evolves_in; eassumption.
Qed.
Lemma handled_evolves : forall g g' new c c', evolves g g' -> handled g new c c' -> handled g' new c c'.
Proof.
  intros g g' new c c' E [A B]. split; [eapply cled_evolves; eassumption|]. intros N. specialize (B N).
  induction B; inversion A; subst; constructor; auto. eapply served_evolves; eassumption.
Qed.
Lemma handled_app : forall g b b1 b2 c1 c1' c2 c2', handled g b1 c1 c1' -> handled g b2 c2 c2' ->
  (b = true -> b1 = true /\ b2 = true) -> handled g b (c1 ++ c2) (c1' ++ c2').
Proof.
  intros g b b1 b2 c1 c1' c2 c2' [A1 A2] [B1 B2] H. split; [apply Forall2_app; assumption|].
  intros X. destruct (H X). apply Forall2_app; auto.
Qed.
Lemma handled_less : forall g b b1 c c', handled g b1 c c' -> (b = true -> b1 = true) -> handled g b c c'.
Proof. intros g b b1 c c' [A B] H. split; auto. Qed.
Lemma handled_nil : forall g b, handled g b [] [].
Proof. intros g b. split; [constructor|constructor]. Qed.
Lemma handled_same : forall g c, handled g false c c.
Proof. intros g b. split; [apply cled_refl|discriminate]. Qed.
Lemma handled_settled : forall g new c c', inv g -> handled g new c c' -> new = true \/ settled c -> settled c'.
Proof.
  intros g new c c' I [A B] [X|X]; [eapply settled_served; eauto|eapply settled_led; eassumption].
Qed.

Definition known (g : gstate) (n : positive) (f : func) : Prop :=
  exists o, origin g n o /\ grown g o f /\ proper f.
Lemma known_evolves : forall g g' n f, evolves g g' -> known g n f -> known g' n f.
Proof.
  intros g g' n f E (o & A & B & C). exists o. split; [eapply origin_evolves; eassumption|]. split; [|exact C].
  eapply grown_evolves; eassumption.
Qed.

(** What holds of the function now, and goes on to hold. *)
Definition sig_settled (g : gstate) (n : positive) : Prop := exists h, st_functions (g_st g) n = Some h /\
  settled (calls_params (f_params h)) /\ settled (calls_type (f_return h)).
Definition requires_settled (g : gstate) (n : positive) : Prop := exists h, st_functions (g_st g) n = Some h /\
  settled (calls_requires (f_requires h)).
Definition body_settled (g : gstate) (n : positive) : Prop := exists h, st_functions (g_st g) n = Some h /\
  settled (calls_stmt (f_body h)).
Lemma sig_evolves : forall g g' n, evolves g g' -> sig_settled g n -> sig_settled g' n.
Proof. intros g g' n [_ E] (h & X & A & B). destruct (E n h X) as (h' & Z & []). exists h'. auto. Qed.
Lemma requires_evolves : forall g g' n, evolves g g' -> requires_settled g n -> requires_settled g' n.
Proof. intros g g' n [_ E] (h & X & A). destruct (E n h X) as (h' & Z & []). exists h'. auto. Qed.
Lemma body_evolves : forall g g' n, evolves g g' -> body_settled g n -> body_settled g' n.
Proof. intros g g' n [_ E] (h & X & A). destruct (E n h X) as (h' & Z & []). exists h'. auto. Qed.
Definition since (g g' : gstate) : Prop := evolves g g'.

(** ** A small logic *)

Definition good {A} (g0 : gstate) (m : G A) (Q : A -> gstate -> Prop) : Prop :=
  forall g a g', inv g -> evolves g0 g -> m g = Some (Ok (a, g')) -> inv g' /\ evolves g g' /\ Q a g'.

Lemma good_bind : forall A B g0 (x : G A) Q (f : A -> G B) R, good g0 x Q ->
  (forall a g1, inv g1 -> evolves g0 g1 -> Q a g1 -> good g1 (f a) R) -> good g0 (gbind x f) R.
Proof.
  intros A B g0 x Q f R X F g b g' I Pg E. unfold gbind in E.
  destruct (x g) as [[[a g1]| | |]|] eqn:Ex; try discriminate E.
  destruct (X g a g1 I Pg Ex) as (I1 & E1 & Qa).
  destruct (F a g1 I1 (evolves_trans _ _ _ Pg E1) Qa g1 b g' I1 (evolves_refl g1) E) as (I2 & E2 & Rb).
  split; [exact I2|]. split; [eapply evolves_trans; eassumption|exact Rb].
Qed.
Lemma good_ret : forall A g0 (a : A) (Q : A -> gstate -> Prop), (forall g, inv g -> evolves g0 g -> Q a g) ->
  good g0 (gret a) Q.
Proof. intros A g0 a Q H g b g' I Pg E. injection E as <- <-. split; [exact I|]. split; [apply evolves_refl|auto]. Qed.
Lemma good_weaken : forall A g0 (m : G A) (Q Q' : A -> gstate -> Prop), good g0 m Q ->
  (forall a g, inv g -> evolves g0 g -> Q a g -> Q' a g) -> good g0 m Q'.
Proof.
  intros A g0 m Q Q' H X g a g' I Pg E. destruct (H g a g' I Pg E) as (A1 & A2 & A3). split; [exact A1|]. split; [exact A2|].
  apply X; try assumption. eapply evolves_trans; eassumption.
Qed.

(** Operations that leave the functions alone. *)
Definition quiet {A} (m : M A) : Prop :=
  forall st a st', m st = Some (Ok (a, st')) -> st_functions st' = st_functions st.
Lemma evolves_quiet : forall g st, st_functions st = st_functions (g_st g) -> evolves g (with_st st g).
Proof.
  intros g st E. constructor; cbn; [intros m; exists []; rewrite app_nil_r; reflexivity|].
  rewrite E. intros n h X. eauto using kept_refl.
Qed.
Lemma inv_quiet : forall g st, inv g -> st_functions st = st_functions (g_st g) -> inv (with_st st g).
Proof.
  intros g st [] E. constructor; cbn; try rewrite E; auto. intros n h X. destruct (iv_origin0 n h X) as (o & A & B & C).
  exists o. split; [exact A|]. split; [|exact C]. eapply grown_evolves; [apply evolves_quiet; exact E|exact B].
Qed.
Lemma good_up : forall A g0 (m : M A), quiet m -> good g0 (up m) (fun _ _ => True).
Proof.
  intros A g0 m q g a g' I _ E. unfold up in E. destruct (m (g_st g)) as [[[b st]| | |]|] eqn:X; try discriminate E.
  injection E as <- <-. split; [apply inv_quiet; [exact I|exact (q _ _ _ X)]|].
  split; [apply evolves_quiet; exact (q _ _ _ X)|exact Logic.I].
Qed.
Lemma good_fail : forall A g0 e (Q : A -> gstate -> Prop), good g0 (up (mfail e)) Q.
Proof. intros A g0 e Q g a g' _ _ E. discriminate E. Qed.
Lemma good_abort : forall A g0 (Q : A -> gstate -> Prop), good g0 (up mabort) Q.
Proof. intros A g0 Q g a g' _ _ E. discriminate E. Qed.
Lemma good_ub : forall A g0 (Q : A -> gstate -> Prop), good g0 (up mub) Q.
Proof. intros A g0 Q g a g' _ _ E. discriminate E. Qed.

Lemma quiet_ret : forall A (a : A), quiet (mret a).
Proof. intros A a st b st' E. injection E as <- <-. reflexivity. Qed.
Lemma quiet_fail : forall A e, quiet (@mfail A e).
Proof. intros A e st b st' E. discriminate E. Qed.
Lemma quiet_abort : forall A, quiet (@mabort A).
Proof. intros A st b st' E. discriminate E. Qed.
Lemma quiet_ub : forall A, quiet (@mub A).
Proof. intros A st b st' E. discriminate E. Qed.
Lemma quiet_bind : forall A B (x : M A) (f : A -> M B), quiet x -> (forall a, quiet (f a)) -> quiet (mbind x f).
Proof.
  intros A B x f X F st b st' E. unfold mbind in E. destruct (x st) as [[[a s]| | |]|] eqn:Ex; try discriminate E.
  rewrite (F a s b st' E). exact (X _ _ _ Ex).
Qed.
Lemma quiet_lift : forall E A (f : E -> analysis_error) (x : outcome E A), quiet (lift f x).
Proof. intros E A f x. destruct x; [apply quiet_ret|apply quiet_fail|apply quiet_abort|apply quiet_ub]. Qed.
Lemma quiet_value : forall A (x : option A), quiet (mvalue x).
Proof. intros A []; [apply quiet_ret|apply quiet_abort]. Qed.
Lemma quiet_assert : forall b, quiet (massert b).
Proof. intros []; [apply quiet_ret|apply quiet_abort]. Qed.
Lemma quiet_type : forall t, quiet (mtype t).
Proof.
  intros t st a st' E. unfold mtype in E. destruct (@concrete_type_value unit t); try discriminate E. injection E as _ <-. reflexivity.
Qed.
Lemma quiet_unknown : forall r t, quiet (or_unknown r t).
Proof. intros r t. destruct r; cbn; auto using quiet_ret, quiet_abort, quiet_ub. Qed.
Lemma quiet_deref : forall v, quiet (deref v).
Proof. intros v. destruct v; cbn; auto using quiet_ret, quiet_ub. Qed.
Lemma quiet_get : quiet mget.
Proof. intros st a st' E. injection E as _ <-. reflexivity. Qed.
Lemma quiet_set_value : forall n v, quiet (set_value n v).
Proof. intros n v st a st' E. injection E as _ <-. reflexivity. Qed.
Lemma quiet_set_vm : forall m, quiet (set_vm m).
Proof. intros m st a st' E. injection E as _ <-. reflexivity. Qed.
Lemma quiet_push : forall n, quiet (push_function n).
Proof. intros m st a st' E. injection E as _ <-. reflexivity. Qed.
Lemma quiet_pop : quiet pop_function.
Proof. intros st a st' E. injection E as _ <-. reflexivity. Qed.
Lemma quiet_get_function : forall n, quiet (get_function n).
Proof.
  intros n st a st' E. unfold get_function in E. destruct (st_functions st n); [|discriminate E]. injection E as _ <-. reflexivity.
Qed.
Lemma quiet_pass : forall cx params args, quiet (pass_arguments cx params args).
Proof.
  intros cx. induction params as [|p params IH]; intros [|a args]; cbn [pass_arguments]; try apply quiet_ret.
  apply quiet_bind; [apply quiet_type|intros t]. destruct (negb (is_convertible_to (av_type a) t)); [apply quiet_fail|].
  apply quiet_bind; [|intros _; apply IH].
  destruct (value_evaluate_conversion a t); [|destruct (is_constant cx); [apply quiet_fail|apply quiet_ret]
    |apply quiet_abort|apply quiet_ub].
  destruct (is_constant cx); [|apply quiet_ret].
  apply quiet_bind; [apply quiet_lift|intros c]. apply quiet_bind; [apply quiet_get|intros st; apply quiet_set_vm].
Qed.
Lemma quiet_evaluate : forall rf, quiet (evaluate_call rf).
Proof.
  intros rf st a st' E. unfold evaluate_call in E. destruct (run rf (st_vm st)) as [[|x| |]|]; try discriminate E.
  destruct (ee_code x); try discriminate E. 
  match type of E with ?m st = _ => assert (X : quiet m) end.
  { apply quiet_bind; [apply quiet_set_vm|intros _]. apply quiet_bind; [apply quiet_assert|intros _].
    apply quiet_bind; [apply quiet_lift|intros [v m]]. apply quiet_bind; [apply quiet_set_vm|intros _; apply quiet_ret]. }
  exact (X _ _ _ E).
Qed.
Lemma quiet_literal : forall lit t, quiet (an_literal lit t).
Proof.
  intros lit t. destruct t; cbn [an_literal]; try apply quiet_abort; try apply quiet_ret;
    destruct (parse_integer_literal lit); first [apply quiet_ret|apply quiet_fail].
Qed.
Lemma quiet_id : forall cx lk, quiet (an_id cx lk).
Proof.
  intros cx lk. unfold an_id. apply quiet_bind; [apply quiet_value|intros t]. apply quiet_bind; [apply quiet_get|intros st].
  destruct t as [[] n|p|b]; try (destruct (is_constant cx)); try (destruct (st_values st n));
    first [apply quiet_ret|apply quiet_fail|apply quiet_abort].
Qed.

Hint Resolve quiet_ret quiet_fail quiet_abort quiet_ub quiet_lift quiet_value quiet_assert quiet_type quiet_unknown
  quiet_deref quiet_get quiet_set_value quiet_set_vm quiet_push quiet_pop quiet_get_function quiet_pass quiet_evaluate
  quiet_literal quiet_id : quiet.

(** Reading a function. *)
Lemma good_get : forall g0 n, good g0 (gget_function n)
  (fun f g => st_functions (g_st g) n = Some f /\ known g n f).
Proof.
  intros g0 n g f g' I _ E. unfold gget_function, up, get_function in E.
  destruct (st_functions (g_st g) n) as [h|] eqn:X; [|discriminate E]. injection E as <- <-.
  assert (with_st (g_st g) g = g) as -> by (destruct g; reflexivity).
  split; [exact I|]. split; [apply evolves_refl|]. split; [exact X|exact (iv_origin g I n h X)].
Qed.

(** Writing a function. *)
Lemma good_set : forall g0 n c o, origin g0 n o -> f_generic o = false ->
  (forall g h, inv g -> evolves g0 g -> st_functions (g_st g) n = Some h -> grown g o h -> proper h ->
     grown g o (c h) /\ proper (c h) /\ kept h (c h)) ->
  good g0 (gset_function n c)
    (fun _ g' => exists g h, inv g /\ evolves g0 g /\ st_functions (g_st g) n = Some h /\ grown g o h /\ proper h /\
                             st_functions (g_st g') n = Some (c h)).
Proof.
  intros g0 n c o O0 Ge H g a g' I E0 E. unfold gset_function, up, set_function in E. injection E as _ <-.
  pose proof (origin_evolves _ _ _ _ E0 O0) as O. destruct (iv_there g I n o O) as (h & Eh).
  destruct (iv_origin g I n h Eh) as (o' & O' & Gr & Pr). assert (o' = o) by (eapply iv_unique; eassumption). subst o'.
  destruct (H g h I E0 Eh Gr Pr) as (Gr' & Pr' & Ke).
  match goal with |- inv (with_st ?s g) /\ _ => set (st := s) end.
  assert (Ev : evolves g (with_st st g)).
  { constructor; cbn; [intros m; exists []; rewrite app_nil_r; reflexivity|]. intros k x X.
    destruct (Pos.eqb_spec k n) as [->|N]; [|eauto using kept_refl]. rewrite Eh in X |- *. injection X as <-.
    exists (c h). split; [reflexivity|exact Ke]. }
  split; [|split; [exact Ev|]].
  - destruct I as [A1 A2 A3 A4 A5 A6 A7 A8]. constructor; cbn; auto.
    + intros k x X. destruct (Pos.eqb_spec k n) as [->|N]; [|eauto]. eauto.
    + intros k x X. destruct (Pos.eqb_spec k n) as [->|N].
      * rewrite Eh in X. injection X as <-. exists o. split; [exact O|]. split; [|exact Pr'].
        apply (grown_evolves g); assumption.
      * destruct (A6 k x X) as (o' & B1 & B2 & B3). exists o'. split; [exact B1|]. split; [|exact B3].
        apply (grown_evolves g); assumption.
    + intros k o' X. destruct (Pos.eqb_spec k n) as [->|N]; [|eauto]. rewrite Eh. cbn. eauto.
  - exists g, h. repeat (split; [assumption|]). cbn. rewrite Pos.eqb_refl, Eh. reflexivity.
Qed.

(** ** Instances *)

Lemma known_generic : forall g n f, known g n f -> f_generic f = true -> inv g -> T n = Some f.
Proof.
  intros g n f (o & O & Gr & _) Ge I. rewrite (gr_generic _ _ _ Gr) in Ge. rewrite (gr_same _ _ _ Gr Ge).
  destruct O as [O|(m & i & A & B & C)]; [exact O|]. exfalso.
  destruct (iv_inst g I m i A) as (f' & F1 & F2). destruct (iv_list g I m f' F1 F2) as (L & _).
  destruct (L i A) as (_ & new & params & _ & Q). rewrite B in Q. rewrite Q in Ge. discriminate Ge.
Qed.
Lemma known_plain : forall g n f, known g n f -> f_generic f = false -> inv g ->
  forall f', T n = Some f' -> f_generic f' = false.
Proof.
  intros g n f (o & O & Gr & _) Ge I f' F. assert (f' = o) by (eapply iv_unique; [exact I|left; exact F|exact O]). subst f'.
  rewrite <- (gr_generic _ _ _ Gr). exact Ge.
Qed.

Lemma new_relabelled : forall new,
  (forall e, new_types (relabel new e) = new_types e /\ (expr_cv (relabel new e) = expr_cv e)) /\
  (forall t, new_type (relabel_type new t) = new_type t).
Proof.
  intros new. apply both_induction.
  - intros cv e t [IHe _] IHt. split; [|reflexivity]. change (new_types (relabel new e) && new_type (relabel_type new t) = new_types e && new_type t).
    rewrite IHe, IHt. reflexivity.
  - intros cv l c r [IHl _] [IHc _] [IHr _]. split; [|reflexivity].
    change (new_types (relabel new l) && new_types (relabel new c) && new_types (relabel new r) = new_types l && new_types c && new_types r).
    rewrite IHl, IHc, IHr. reflexivity.
  - intros cv op l r [IHl _] [IHr _]. split; [|reflexivity].
    change (new_types (relabel new l) && new_types (relabel new r) = new_types l && new_types r).
    rewrite IHl, IHr. reflexivity.
  - intros cv op e [IHe _]. split; [exact IHe|reflexivity].
  - intros cv name lk st args IH. split; [|reflexivity]. 
    change (forallb new_types (map (relabel new) args) = forallb new_types args).
    induction IH as [|a args [Ha _] _ IHl]; [reflexivity|]. cbn [map forallb]. rewrite Ha, IHl. reflexivity.
  - intros. split; reflexivity.
  - intros. split; reflexivity.
  - intros. reflexivity.
  - intros cv k e cw [IHe _]. 
    change (match cv with None => true | Some _ => false end && new_types (relabel new e) = match cv with None => true | Some _ => false end && new_types e).
    rewrite IHe. reflexivity.
Qed.
Lemma new_relabelled_stmt : forall new s, new_stmt (relabel_stmt new s) = new_stmt s.
Proof.
  intros new. destruct (new_relabelled new) as [He Ht]. assert (He' := fun e => proj1 (He e)).
  induction s as [cv name self t e|cv name self t e|cv e|cv c b IHb|cv c b e IHb IHe|cv c b IHb
                 |cv t e|cv name lk e|cv l IH|e] using stmt_induction; cbn [relabel_stmt new_stmt option_map].
  - rewrite He'. destruct t; cbn; rewrite ?Ht; reflexivity.
  - destruct t, e; cbn; rewrite ?Ht, ?He'; reflexivity.
  - rewrite He'. reflexivity.
  - rewrite He', IHb. reflexivity.
  - rewrite He', IHb, IHe. reflexivity.
  - rewrite He', IHb. reflexivity.
  - destruct e; cbn; rewrite ?He'; reflexivity.
  - apply He'.
  - induction IH as [|s l Hs _ IHl]; [reflexivity|]. cbn [map forallb]. rewrite Hs, IHl. reflexivity.
  - apply He'.
Qed.
Lemma new_filled : forall l ws l', filled l ws l' -> new_params l = true -> new_params l' = true.
Proof.
  induction 1 as [|x n cv cv' y lk g cw w l ws l' F IH|p l ws l' N F IH]; intros H; [exact H| |];
    unfold new_params in *; cbn [forallb] in *; apply andb_true_iff in H as [H1 H2]; apply andb_true_iff; split; auto.
Qed.
Lemma proper_instance : forall new f ws h, new_function f = true -> instance_of new f ws h -> proper h.
Proof.
  intros new f ws h N (params & F & ->). unfold new_function in N. rewrite !andb_true_iff in N.
  destruct N as ((((N1 & N2) & N3) & N4) & _). destruct (new_relabelled new) as [He Ht].
  constructor; cbn [f_params f_return f_requires f_body f_level level_index]; try lia; left.
  - eapply new_filled; [exact F|]. unfold new_params. clear -N1 Ht. induction (f_params f) as [|p l IH]; [reflexivity|].
    cbn [map forallb] in *. apply andb_true_iff in N1 as [A B]. apply andb_true_iff. split; [|auto]. cbn. rewrite Ht. exact A.
  - rewrite Ht. exact N2.
  - destruct (f_requires f) as [e|]; [|reflexivity]. cbn in *. destruct (He e) as [-> ->]. exact N3.
  - rewrite new_relabelled_stmt. exact N4.
Qed.

Lemma good_instance : forall g0 n f args, T n = Some f -> f_generic f = true -> length (f_params f) = length args ->
  good g0 (call_instance n f args)
    (fun self g => exists i, In i (g_instances g n) /\ self = f_self (i_function i) /\
                             Forall2 takes (f_params (i_function i)) (map av_type args)).
Proof.
  intros g0 n f args F Ge Len g self g' I _ E. unfold call_instance in E.
  destruct (Ready n f F) as (Sf & Lt & Nf & X). destruct (X Ge) as (D & U). clear X.
  destruct (instance_for_call f (g_instances g n) (map av_type args) (g_next g)) as [[[i l'] n']|[]| |] eqn:C; try discriminate E.
  injection E as <- <-. pose proof (iv_list g I n f F Ge) as L.
  destruct (called f _ (map av_type args) _ i l' n' D L U) as (In1 & L' & Tk); [rewrite map_length; auto|exact C|].
  assert (Step : (l' = g_instances g n /\ n' = g_next g) \/
    (l' = g_instances g n ++ [i] /\ forall x, In x (own (i_function i)) -> (g_next g <= x < n')%positive)).
  { unfold instance_for_call in C. destruct (match f_params f with [] => false | _ :: _ => true end); [|discriminate C].
    cbn [assert_then] in C. destruct (deduce_widths (f_params f) (map av_type args)) as [ws| | |]; try discriminate C. cbn [bind] in C.
    apply instantiated in C as (_ & _ & _ & [St|(St & _ & St2)]); [left; exact St|right; auto|exact D|exact L]. }
  assert (Nx : (g_next g <= n')%positive).
  { destruct Step as [[_ ->]|[_ B]]; [lia|]. specialize (B _ (or_introl eq_refl)). lia. }
  destruct (proj1 L' i In1) as (_ & new & Inst).
  set (self := f_self (i_function i)).
  match goal with |- inv ?s /\ _ => set (gn := s) end.
  assert (Insts : forall m, exists l, g_instances gn m = g_instances g m ++ l).
  { intros m. cbn. destruct (Pos.eqb_spec m n) as [->|Nm]; [|exists []; rewrite app_nil_r; reflexivity].
    destruct Step as [[-> _]|[-> _]]; [exists []; rewrite app_nil_r; reflexivity|exists [i]; reflexivity]. }
  assert (Ev : evolves g gn).
  { constructor; [exact Insts|]. intros k h Q. cbn. exists h. split; [|apply kept_refl].
    destruct (Pos.eqb k self); rewrite ?Q; reflexivity. }
  assert (Old : forall m j, In j (g_instances gn m) -> In j (g_instances g m) \/
     (m = n /\ j = i /\ forall x, In x (own (i_function i)) -> (g_next g <= x < n')%positive)).
  { intros m j. cbn. destruct (Pos.eqb_spec m n) as [->|Nm]; [|auto].
    destruct Step as [[-> _]|[-> B]]; [auto|]. intros J. apply in_app_or in J as [J|[<-|[]]]; [auto|]. right. auto. }
  assert (Bound : forall m j, In j (g_instances g m) -> (f_self (i_function j) < g_next g)%positive).
  { intros m j J. destruct (iv_inst g I m j J) as (f' & F1 & F2). destruct (iv_list g I m f' F1 F2) as (_ & _ & _ & B).
    exact (B j _ J (or_introl eq_refl)). }
  split; [|split; [exact Ev|]].
  2:{ exists i. split; [|split; [reflexivity|exact Tk]]. cbn. rewrite Pos.eqb_refl. exact In1. }
  constructor.
  - cbn. pose proof (iv_next g I). lia.
  - intros k h Q. cbn in Q |- *. destruct (Pos.eqb_spec k self) as [->|Nk].
    + destruct L' as (_ & _ & _ & B). exact (B i _ In1 (or_introl eq_refl)).
    + pose proof (iv_keys g I k h Q). lia.
  - intros m j J. destruct (Old m j J) as [J1|(-> & -> & _)]; [exact (iv_inst g I m j J1)|eauto].
  - intros m f' F1 F2. cbn. destruct (Pos.eqb_spec m n) as [->|Nm].
    + rewrite F in F1. injection F1 as <-. exact L'.
    + destruct (iv_list g I m f' F1 F2) as (B1 & B2 & B3 & B4). split; [exact B1|]. split; [exact B2|]. split; [exact B3|].
      intros j x J1 J2. specialize (B4 j x J1 J2). lia.
  - intros m j x J1 J2. destruct (Old m j J1) as [J3|(-> & -> & B)]; [exact (iv_new g I m j x J3 J2)|].
    specialize (B x J2). pose proof (iv_next g I). lia.
  - intros k h Q. cbn in Q. destruct (Pos.eqb_spec k self) as [->|Nk].
    + destruct (st_functions (g_st g) self) as [h0|] eqn:Q0.
      * injection Q as <-. destruct (iv_origin g I _ _ Q0) as (o & B1 & B2 & B3). exists o.
        split; [eapply origin_evolves; eassumption|]. split; [eapply grown_evolves; eassumption|exact B3].
      * injection Q as <-. exists (i_function i). split; [|split; [apply grown_refl|eapply proper_instance; eassumption]].
        right. exists n, i. split; [|auto]. cbn. rewrite Pos.eqb_refl. exact In1.
    + destruct (iv_origin g I _ _ Q) as (o & B1 & B2 & B3). exists o.
      split; [eapply origin_evolves; eassumption|]. split; [eapply grown_evolves; eassumption|exact B3].
  - intros k o [O|(m & j & J & Q1 & Q2)]; cbn.
    + destruct (iv_there g I k o (or_introl O)) as (h & Q). exists h. destruct (Pos.eqb k self); rewrite Q; reflexivity.
    + destruct (Old m j J) as [J1|(-> & -> & _)].
      * destruct (iv_there g I k o) as (h & Q); [right; exists m, j; auto|]. exists h. destruct (Pos.eqb k self); rewrite Q; reflexivity.
      * subst o k. fold self. rewrite Pos.eqb_refl. destruct (st_functions (g_st g) self); eauto.
  - assert (Cross : forall k o o', origin g k o -> (exists m j, In j (g_instances gn m) /\ i_function j = o' /\ f_self o' = k) -> o = o').
    { intros k o o' O (m & j & J & Q1 & Q2). destruct (Old m j J) as [J1|(-> & -> & B)].
      - apply (iv_unique g I k); [exact O|]. right. exists m, j. auto.
      - exfalso. subst o'. specialize (B _ (or_introl eq_refl)). rewrite Q2 in B.
        destruct (iv_there g I k o O) as (h & Q). pose proof (iv_keys g I k h Q). lia. }
    intros k o o' O O'. destruct O as [O|O], O' as [O'|O'].
    + congruence.
    + exact (Cross k o o' (or_introl O) O').
    + symmetry. exact (Cross k o' o (or_introl O') O).
    + destruct O as (m & j & J & Q1 & Q2). destruct (Old m j J) as [J1|(-> & -> & B)].
      * apply (Cross k o o'); [right; exists m, j; auto|exact O'].
      * destruct O' as (m' & j' & J' & Q1' & Q2'). destruct (Old m' j' J') as [J1|(-> & -> & _)]; [|congruence].
        symmetry. apply (Cross k o' o); [right; exists m', j'; auto|]. exists n, i. auto.
Qed.

(** ** The analysis *)

Section Analysis.
Variable callee : positive -> level -> G unit.
Variable rf : nat.
Hypothesis Callee : forall g0 n lv, good g0 (callee n lv) (fun _ _ => True).

Ltac bring := cbv beta in *;
  repeat match goal with
  | E : evolves ?a ?b, H : handled ?a _ _ _ |- _ => apply (handled_evolves a b _ _ _ E) in H
  | E : evolves ?a ?b, H : known ?a _ _ |- _ => apply (known_evolves a b _ _ E) in H
  | E : evolves ?a ?b, H : origin ?a _ _ |- _ => apply (origin_evolves a b _ _ E) in H
  | E : evolves ?a ?b, H : sig_settled ?a _ |- _ => apply (sig_evolves a b _ E) in H
  | E : evolves ?a ?b, H : requires_settled ?a _ |- _ => apply (requires_evolves a b _ E) in H
  | E : evolves ?a ?b, H : body_settled ?a _ |- _ => apply (body_evolves a b _ E) in H
  | E : evolves ?a ?b, H : since ?z ?a |- _ => apply (fun X => evolves_trans z a b X E : since z b) in H
  | E : evolves ?a ?b, H : served T (g_instances ?a) _ _ |- _ => apply (served_evolves a b _ _ E) in H
  end.
Ltac next := let a := fresh "x" in let g := fresh "g" in let I := fresh "I" in let E := fresh "E" in let H := fresh "H" in
  intros a g I E H; cbv beta in H; bring; clear E.

Lemma good_value : forall A g0 (x : option A), good g0 (gvalue x) (fun a _ => x = Some a).
Proof.
  intros A g0 x g a g' I E X. destruct (good_up A g0 (mvalue x) (quiet_value A x) g a g' I E X) as (H1 & H2 & _).
  split; [exact H1|]. split; [exact H2|]. destruct x; [|discriminate X]. injection X as -> _. reflexivity.
Qed.

Ltac op := eapply good_bind; [first [apply good_value|apply good_up; auto with quiet]|next].

Lemma good_call : forall g0 lv cx lk args, good g0 (gan_call callee rf lv cx lk args)
  (fun r g => served T (g_instances g) (lk, []) (Some (fst r), map Some args)).
Proof.
  intros g0 lv cx lk args. unfold gan_call. op. subst lk.
  destruct x as [k n|n|b].
  - destruct k; try apply good_fail.
    eapply good_bind; [apply good_get|]. intros f g1 I1 _ [_ K]. clear g0 g I.
    destruct (Nat.eqb_spec (length (f_params f)) (length args)) as [Len|_]; [|apply good_fail]. cbn [negb].
    eapply good_bind with (Q := fun n' g => served T (g_instances g) (Some (LNode DFunction n), []) (Some (LNode DFunction n'), map Some args)).
    { destruct (f_generic f) eqn:Ge.
      - pose proof (known_generic _ _ _ K Ge I1) as F.
        eapply good_weaken; [apply good_instance; [exact F|exact Ge|exact Len]|].
        intros n' g2 I2 _ (i & X1 & -> & X2). eapply sv_instance with (m := n) (types := map av_type args); cbn;
          try reflexivity; try eassumption. rewrite !map_map. reflexivity.
      - apply good_ret. intros g2 I2 E. bring. apply sv_same; [reflexivity|]. intros m f' Q F. injection Q as <-.
        eapply known_plain; eassumption. }
    next. eapply good_bind; [apply good_get|]. intros f2 g2 I2 E [_ K2]. bring. clear E.
    op. op.
    match goal with |- good _ (if ?b then _ else _) _ => destruct b end; [apply good_fail|].
    eapply good_bind; [apply Callee|next].
    eapply good_bind; [apply good_get|]. intros f3 g6 I6 E [_ K3]. bring. clear E.
    op. destruct (f_cv f3) as [rv|]; [|apply good_ub].
    eapply good_bind with (Q := fun _ _ => True).
    { destruct (is_constant cx); [|apply good_ret; auto]. op. op. op. apply good_up. auto with quiet. }
    next. op. destruct (is_constant cx).
    + op. apply good_ret. intros. bring. assumption.
    + apply good_ret. intros. bring. assumption.
  - apply good_ub.
  - op. op. apply good_ret. intros. bring. apply sv_same; [reflexivity|]. intros m f Q. discriminate Q.
Qed.

Lemma good_id : forall g0 cx lk, good g0 (gan_id cx lk) (fun _ _ => True).
Proof.
  intros g0 cx lk. unfold gan_id.
  assert (U : good g0 (up (an_id cx lk)) (fun _ _ => True)) by (apply good_up; auto with quiet).
  destruct lk as [[[] n| |]|]; try exact U. intros g a g' I E X.
  destruct (g_widths g n); [|discriminate X]. destruct (is_constant cx && negb (is_known a0)); [discriminate X|].
  injection X as <- <-. split; [exact I|]. split; [apply evolves_refl|exact Logic.I].
Qed.

Lemma good_assoc : forall A B C g0 (x : G A) (h : A -> G B) (f : B -> G C) R,
  good g0 (gbind x (fun a => gbind (h a) f)) R -> good g0 (gbind (gbind x h) f) R.
Proof.
  intros A B C g0 x h f R H g c g' I E X. apply (H g c g' I E). unfold gbind in *.
  destruct (x g) as [[[a g1]| | |]|]; try discriminate X; exact X.
Qed.

Ltac open_ops :=
  unfold gfail, gabort, gub, gassert, glift, gtype, gor_unknown, gderef, gget, gset_value, gset_vm, gpush_function,
    gpop_function, gan_literal in *.
Ltac go := repeat (cbn [expr_cv type_cv] in *;
  match goal with
  | |- good _ (gbind (gvalue _) _) _ => op
  | |- good _ (gbind (up _) _) _ => op
  | |- good _ (up (mfail _)) _ => apply good_fail
  | |- good _ (up mabort) _ => apply good_abort
  | |- good _ (up mub) _ => apply good_ub
  | |- good _ (up _) (fun _ _ => True) => apply good_up; solve [auto with quiet]
  | |- good ?g (gbind (gret ?a) ?f) ?R => change (good g (f a) R); cbv beta
  | |- good _ (gbind (gbind _ _) _) _ => apply good_assoc; cbv beta
  | |- good _ (gbind (match ?x with _ => _ end) _) _ =>
      eapply good_bind with (Q := fun _ _ => True); [go|next]
  | |- good _ (gbind _ _) _ => eapply good_bind; [solve [eauto]|next]
  | |- good _ (match ?x with _ => _ end) _ => destruct x
  | |- good _ (gret _) (fun _ _ => True) => apply good_ret; intros; exact Logic.I
  | |- good _ (gret _) _ => apply good_ret; intros; bring
  end).
Ltac both := clear; rewrite ?andb_true_iff; tauto.

Ltac pieces :=
  match goal with
  | |- handled _ _ [] [] => apply (handled_nil _ true)
  | |- handled _ _ (_ ++ _) (_ ++ _) => eapply (handled_app _ (_ && _)); [pieces|pieces|apply andb_true_iff]
  | |- handled _ _ _ _ => eassumption
  end.
Ltac app := eapply handled_less; [pieces|both].
Ltac fin :=
  match goal with
  | |- handled ?g _ _ (calls (EConversion _ ?a ?b)) =>
      match goal with |- handled _ (new_types (EConversion _ ?e ?t)) _ _ =>
        change (handled g (new_types e && new_type t) (calls e ++ calls_type t) (calls a ++ calls_type b)) end
  | |- handled ?g _ _ (calls (EIf _ ?a ?b ?c)) =>
      match goal with |- handled _ (new_types (EIf _ ?l ?m ?r)) _ _ =>
        change (handled g (new_types l && new_types m && new_types r) (calls m ++ calls l ++ calls r)
                  (calls b ++ calls a ++ calls c)) end
  | |- handled ?g _ _ (calls (EBinary _ _ ?a ?b)) =>
      match goal with |- handled _ (new_types (EBinary _ _ ?l ?r)) _ _ =>
        change (handled g (new_types l && new_types r) (calls l ++ calls r) (calls a ++ calls b)) end
  | |- handled ?g _ _ (calls (EPrefix _ _ ?a)) =>
      match goal with |- handled _ (new_types (EPrefix _ _ ?e)) _ _ =>
        change (handled g (new_types e) (calls e) (calls a)) end
  | |- handled ?g _ _ (calls_type (Type_Node _ _ (Some ?a) _)) =>
      match goal with |- handled _ (new_type (Type_Node ?cv _ (Some ?e) _)) _ _ =>
        change (handled g (match cv with None => true | Some _ => false end && new_types e) (calls e) (calls a)) end
  | |- handled _ _ (calls (EId _ _ _ _)) _ => apply handled_nil
  | |- handled _ _ (calls (ELiteral _ _ _)) _ => apply handled_nil
  | |- handled _ _ (calls_type (Type_Node _ _ None _)) _ => apply handled_nil
  end; try app.

Lemma good_both :
  (forall e g0 lv cx, good g0 (gan_expr callee rf lv cx e) (fun e' g => handled g (new_types e) (calls e) (calls e'))) /\
  (forall t g0, good g0 (gan_type callee rf t) (fun t' g => handled g (new_type t) (calls_type t) (calls_type t'))).
Proof.
  apply both_induction.
  - intros cv e t IHe IHt g0 lv cx. cbn [gan_expr]. open_ops. go; fin.
  - intros cv l c r IHl IHc IHr g0 lv cx. cbn [gan_expr]. open_ops. go; fin.
  - intros cv op l r IHl IHr g0 lv cx. cbn [gan_expr]. open_ops. go; fin.
  - intros cv op e IHe g0 lv cx. cbn [gan_expr]. open_ops. go; fin.
  - intros cv name lk st args IH g0 lv cx. cbn [gan_expr]. op. destruct lk as [t|]; [|discriminate].
    eapply good_bind with (Q := fun r g => handled g (forallb new_types args) (flat_map calls args) (flat_map calls (fst r)) /\
      map expr_cv (fst r) = map Some (snd r)).
    { clear I. revert g. induction IH as [|a args IHa _ IHargs]; intros g; [apply good_ret; intros; split; [apply handled_nil|reflexivity]|].
      eapply good_bind; [apply IHa|next]. op. eapply good_bind; [apply IHargs|]. intros [rest' vs] g3 I3 E3 [X1 X2]. bring.
      cbn [fst snd] in *. apply good_ret. intros. bring. cbn [fst snd flat_map forallb map]. split; [app|congruence]. }
    intros [args' values] g1 I1 E1 [X1 X2]. cbn [fst snd] in *. clear E1.
    eapply good_bind; [apply good_call|]. intros [lk' v] g2 I2 E2 X3. bring. cbn [fst] in X3.
    apply good_ret. intros g3 I3 E3. bring. cbn [new_types].
    change (handled g3 (forallb new_types args) (flat_map calls args ++ [(Some t, map expr_cv args)])
      (flat_map calls args' ++ [(Some lk', map expr_cv args')])).
    rewrite X2. eapply handled_app with (b2 := true); [exact X1| |auto].
    split; [|intros _]; (constructor; [|constructor]); cbn [fst].
    + destruct X3 as [Q H'|m f i ts Q1 Q2 Q3 Q4 Q5 Q6 Q7]; cbn in *; [rewrite Q; constructor|].
      rewrite Q1, Q5. econstructor; eassumption.
    + destruct X3 as [Q H'|m f i ts Q1 Q2 Q3 Q4 Q5 Q6 Q7]; [apply sv_same; assumption|eapply sv_instance; eassumption].
  - intros cv name lk gen g0 lv cx. cbn [gan_expr]. destruct cv; [go; fin|].
    eapply good_bind; [apply good_id|next]. go; fin.
  - intros cv lit t g0 lv cx. cbn [gan_expr]. open_ops. go; fin.
  - intros cv k cw g0. cbn [gan_type]. open_ops. go; fin.
  - intros cv k e cw IHe g0. cbn [gan_type]. open_ops. go; try fin.
    change (handled g false (calls e) (calls e)). apply handled_same.
Qed.

Definition Hexpr := proj1 good_both.
Definition Htype := proj2 good_both.

Lemma good_stmt : forall s g0 rt lv loop, good g0 (gan_stmt callee rf rt lv loop s)
  (fun s' g => handled g (new_stmt s) (calls_stmt s) (calls_stmt s')).
Proof.
  destruct good_both as [He Ht].
  induction s as [cv name self t e|cv name self t e|cv e|cv c b IHb|cv c b e IHb IHe|cv c b IHb
                 |cv t e|cv name lk e|cv l IH|e] using stmt_induction; intros g0 rt lv loop; cbn [gan_stmt]; open_ops.
  - destruct cv; [go; apply handled_same|]. go; cbn [new_stmt calls_stmt]; app.
  - go; subst; cbn [new_stmt calls_stmt]; app.
  - destruct cv; [go; apply handled_same|]. go; cbn [new_stmt calls_stmt]; app.
  - go; cbn [new_stmt calls_stmt]; app.
  - go; cbn [new_stmt calls_stmt]; app.
  - go; cbn [new_stmt calls_stmt]; app.
  - destruct t, e; go; cbn [new_stmt calls_stmt]; try app; apply handled_same.
  - go; cbn [new_stmt calls_stmt]; app.
  - eapply good_bind with (Q := fun l' g => handled g (forallb new_stmt l) (flat_map calls_stmt l) (flat_map calls_stmt l')).
    + revert g0. induction IH as [|s l Hs _ IHl]; intros g0; [go; apply handled_nil|]. go; cbn [forallb flat_map]; app.
    + next. go. exact H.
  - go; cbn [new_stmt calls_stmt]; app.
Qed.

Lemma good_parameters : forall l g0, good g0 (gan_parameters callee rf l)
  (fun l' g => handled g (new_params l) (calls_params l) (calls_params l')).
Proof.
  destruct good_both as [He Ht]. induction l as [|p l IH]; intros g0; cbn [gan_parameters]; open_ops; go; [apply handled_nil|].
  unfold new_params, calls_params. cbn [forallb flat_map p_type]. app.
Qed.

Lemma good_instances : forall n lv count l g0, good g0 (gan_instances callee n lv count l) (fun _ _ => True).
Proof.
  intros n lv count. induction l as [|i l IH]; intros g0; cbn [gan_instances]; [go|].
  eapply good_bind; [apply Callee|next]. intros g1 a g2 I1 E1 X.
  destruct (Nat.eqb (length (g_instances g1 n)) count); [|discriminate X]. exact (IH g g1 a g2 I1 E1 X).
Qed.

(** A function that has been analysed. *)
Definition all_settled (g : gstate) (n : positive) : Prop :=
  sig_settled g n /\ requires_settled g n /\ body_settled g n.
Definition analysed (n : positive) (lv : level) (g : gstate) : Prop :=
  forall h, st_functions (g_st g) n = Some h -> f_generic h = false -> 2 <= level_index lv -> all_settled g n.

Lemma good_set' : forall g0 n c o, origin g0 n o -> f_generic o = false ->
  (forall g h, inv g -> evolves g0 g -> st_functions (g_st g) n = Some h -> grown g o h -> proper h ->
     grown g o (c h) /\ proper (c h) /\ kept h (c h)) ->
  good g0 (gset_function n c) (fun _ g' => exists h, st_functions (g_st g') n = Some (c h)).
Proof.
  intros g0 n c o O Ge H. eapply good_weaken; [eapply good_set; eassumption|].
  intros _ g _ _ (g1 & h & _ & _ & _ & _ & _ & X). exists h. exact X.
Qed.

Ltac parts := cbn [with_signature with_requires with_level with_body with_address with_result
  f_self f_generic f_params f_return f_requires f_body f_level] in *.
Ltac same_function := repeat match goal with
  | H : sig_settled _ _ |- _ => destruct H as (? & ? & ? & ?)
  | H : requires_settled _ _ |- _ => destruct H as (? & ? & ?)
  | H : body_settled _ _ |- _ => destruct H as (? & ? & ?)
  | A : st_functions (g_st ?g) ?n = Some ?x, B : st_functions (g_st ?g) ?n = Some ?y |- _ =>
      rewrite A in B; injection B as <-
  end.

Lemma good_body : forall g0 n lv, good g0 (gan_function_body callee rf n lv) (fun _ g => analysed n lv g).
Proof.
  intros g0 n lv. unfold gan_function_body.
  eapply good_bind; [apply good_get|]. intros f g1 I1 _ [Rd K]. clear g0.
  assert (Si : since g1 g1) by apply evolves_refl.
  eapply good_bind; [apply good_up; auto with quiet|next].
  destruct (level_leb lv (f_level f)) eqn:Lv.
  { (* analysed before *)
    apply good_ret. intros g2 I2 E2 h Eh _ L2. bring. unfold level_leb in Lv. apply Z.leb_le in Lv.
    destruct K as (o & _ & _ & Pr). pose proof (pr_shallow f Pr ltac:(lia)) as (P1 & P2 & P3).
    pose proof (pr_full f Pr ltac:(lia)) as P4.
    split; [|split]; [apply (sig_evolves g1)|apply (requires_evolves g1)|apply (body_evolves g1)]; try exact Si; exists f; auto. }
  destruct (f_generic f) eqn:Ge.
  { (* generic *)
    intros g2 [] g3 I2 E2 X. destruct (good_instances n lv _ _ g g2 tt g3 I2 E2 X) as (I3 & E3 & _).
    split; [exact I3|]. split; [exact E3|]. intros h Eh Gh _. exfalso. bring.
    destruct K as (o & O & Gr & _). destruct (iv_origin g3 I3 n h Eh) as (o' & O' & Gr' & _).
    assert (o' = o) by (eapply (iv_unique g3 I3); eassumption). subst o'.
    rewrite (gr_generic _ _ _ Gr') in Gh. rewrite (gr_generic _ _ _ Gr) in Ge. congruence. }
  destruct K as (o & O & Gr & Pr). assert (Go : f_generic o = false) by (rewrite <- (gr_generic _ _ _ Gr); exact Ge).
  assert (K : known g n f) by (exists o; auto). clear Gr.
  eapply good_bind; [apply good_parameters|]. intros params g2 I2 E2 H2. bring. clear E2.
  pose proof (handled_settled _ _ _ _ I2 H2 (pr_params f Pr)) as S2.
  eapply good_bind; [apply Htype|]. intros rt g3 I3 E3 H3. bring. clear E3.
  pose proof (handled_settled _ _ _ _ I3 H3 (pr_return f Pr)) as S3.
  eapply good_bind.
  { apply good_set' with (o := o); [exact O|exact Go|]. intros g4 h I4 E4 Eh Gr Ph. bring.
    destruct K as (o' & O' & Gr' & _). assert (o' = o) by (eapply (iv_unique g4 I4); eassumption). subst o'.
    split; [|split].
    - destruct Gr, Gr'. constructor; parts; try assumption; try congruence.
      + eapply cled_trans; [exact I4|exact gr_params1|apply H2].
      + eapply cled_trans; [exact I4|exact gr_return1|apply H3].
    - destruct Ph. constructor; parts; auto. intros L. split; [exact S2|]. split; [exact S3|apply pr_shallow0; exact L].
    - constructor; parts; auto. }
  intros [] g4 I4 E4 (h4 & Eh4). bring. clear E4.
  assert (Sg : sig_settled g4 n) by (eexists; split; [exact Eh4|]; parts; auto). clear h4 Eh4 H2 H3.
  eapply good_bind; [apply good_up; auto with quiet|]. intros [] g5 I5 E5 _. bring. clear E5.
  eapply good_bind with (Q := fun _ g => requires_settled g n).
  { assert (Q0 : settled (calls_requires (f_requires f)) -> forall g, since g1 g -> requires_settled g n).
    { intros Sf g' Hg. apply (requires_evolves g1); [exact Hg|]. exists f. auto. }
    destruct (f_requires f) as [e|] eqn:Rq.
    2:{ apply good_ret. intros g6 I6 E6. bring. apply Q0; [constructor|exact Si]. }
    destruct (expr_cv e) as [v|] eqn:Cv.
    { apply good_ret. intros g6 I6 E6. bring. apply Q0; [|exact Si]. pose proof (pr_requires f Pr) as [X|X]; rewrite Rq in X.
      - cbn in X. rewrite Cv in X. discriminate X.
      - exact X. }
    eapply good_bind; [apply Hexpr|]. intros e' g6 I6 E6 H6. bring. clear E6.
    assert (S6 : settled (calls e')).
    { eapply handled_settled; [exact I6|exact H6|]. pose proof (pr_requires f Pr) as [X|X]; rewrite Rq in X; [left|right; exact X].
      cbn in X. apply andb_true_iff in X as [_ X]. exact X. }
    eapply good_bind.
    { apply good_set' with (o := o); [exact O|exact Go|]. intros g7 h I7 E7 Eh Gr Ph. bring.
      destruct K as (o' & O' & Gr' & _). assert (o' = o) by (eapply (iv_unique g7 I7); eassumption). subst o'.
      split; [|split].
      - destruct Gr, Gr'. constructor; parts; try assumption; try congruence.
        rewrite Rq in gr_requires1. eapply cled_trans; [exact I7|exact gr_requires1|apply H6].
      - destruct Ph. constructor; parts; auto. intros L. destruct (pr_shallow0 L) as (B1 & B2 & _). auto.
      - constructor; parts; auto. }
    intros [] g7 I7 E7 (h7 & Eh7). bring. clear E7.
    assert (Rs : requires_settled g7 n) by (eexists; split; [exact Eh7|]; parts; auto). clear h7 Eh7.
    open_ops. go; assumption. }
  intros [] g6 I6 E6 Rs. bring. clear E6.
  eapply good_bind; [apply good_get|]. intros f7 g7 I7 E7 [Rd7 K7]. bring. clear E7 Rd7.
  eapply good_bind with (Q := fun _ _ => True).
  { destruct (level_leb shallow (f_level f7)); [apply good_ret; auto|].
    eapply good_weaken; [apply good_set' with (o := o); [exact O|exact Go|]|auto]. intros g8 h I8 E8 Eh Gr Ph. bring.
    same_function. split; [|split].
    - destruct Gr. constructor; parts; auto; congruence.
    - destruct Ph. constructor; parts; auto. cbn. lia.
    - constructor; parts; auto. }
  intros [] g8 I8 E8 _. bring. clear E8 K7.
  eapply good_bind with (Q := fun _ g => level_leb full lv = true -> body_settled g n).
  { destruct (level_leb full lv); [|apply good_ret; discriminate].
    eapply good_bind; [apply good_get|]. intros f9 g9 I9 E9 [_ K9]. bring. clear E9.
    eapply good_bind; [apply good_stmt|]. intros body g10 I10 E10 H10. bring. clear E10.
    assert (S10 : settled (calls_stmt body)).
    { destruct K9 as (_ & _ & _ & P9). eapply handled_settled; [exact I10|exact H10|apply (pr_body f9 P9)]. }
    eapply good_weaken.
    { apply good_set' with (o := o); [exact O|exact Go|]. intros g11 h I11 E11 Eh Gr Ph. bring.
      destruct K9 as (o' & O' & Gr' & _). assert (o' = o) by (eapply (iv_unique g11 I11); eassumption). subst o'.
      split; [|split].
      - destruct Gr, Gr'. constructor; parts; try assumption; try congruence.
        eapply cled_trans; [exact I11|exact gr_body1|apply H10].
      - destruct Ph. constructor; parts; auto.
      - constructor; parts; auto. }
    intros [] g11 I11 _ (h & Eh) _. eexists. split; [exact Eh|]. parts. exact S10. }
  intros [] g9 I9 E9 Bs. bring. clear E9.
  eapply good_bind with (Q := fun _ g => level_leb full lv = true -> body_settled g n).
  { destruct (level_leb for_constant_evaluation lv) eqn:Lc.
    2:{ apply good_ret. intros g10 I10 E10 L. specialize (Bs L). bring. exact Bs. }
    assert (L : level_leb full lv = true).
    { unfold level_leb in *. apply Z.leb_le in Lc. apply Z.leb_le. cbn in *. lia. }
    specialize (Bs L).
    eapply good_bind; [apply good_get|]. intros f10 g10 I10 E10 [_ K10]. bring. clear E10.
    open_ops. op. op. destruct (add_instructions (st_vm x0) x1) as [m address]. op.
    eapply good_weaken; [apply good_set' with (o := o); [exact O|exact Go|]|].
    { intros ga h Ia Ea Eh Gr Ph. bring. split; [|split].
      - destruct Gr. constructor; parts; auto; congruence.
      - destruct Ph. constructor; parts; auto.
      - constructor; parts; auto. }
    intros [] ga Ia Ea _ _. bring. exact Bs. }
  intros [] g10 I10 E10 Bs'. bring. clear E10 Bs.
  eapply good_bind with (Q := fun _ g => 2 <= level_index lv -> all_settled g n).
  { assert (Bs : 2 <= level_index lv -> body_settled g10 n).
    { intros L. apply Bs'. unfold level_leb. apply Z.leb_le. cbn. exact L. }
    clear Bs'.
    eapply good_weaken; [apply good_set' with (o := o); [exact O|exact Go|]|].
    { intros g11 h I11 E11 Eh Gr Ph. split; [|split].
      - destruct Gr. constructor; parts; auto; congruence.
      - bring. destruct Ph. constructor; parts; auto.
        + intros _. same_function. auto.
        + intros L. specialize (Bs L). bring. same_function. assumption.
      - constructor; parts; auto. }
    intros [] g11 I11 E11 _ L. specialize (Bs L). bring. split; [|split]; assumption. }
  intros [] g11 I11 E11 As. 
  eapply good_weaken; [apply good_up; auto with quiet|]. intros [] g12 I12 E12 _ h Eh _ L.
  destruct (As L) as (B1 & B2 & B3). bring. split; [|split]; assumption.
Qed.

End Analysis.

Lemma good_function : forall rf fuel g0 n lv, good g0 (gan_function rf fuel n lv) (fun _ g => analysed n lv g).
Proof.
  induction fuel as [|fuel IH]; intros g0 n lv; cbn [gan_function].
  - intros g a g' _ _ E. discriminate E.
  - apply good_body. intros g1 n' lv'. eapply good_weaken; [apply IH|auto].
Qed.

(** What becomes of the parts of the program. *)
Definition item_done (g : gstate) (x y : item) : Prop :=
  match x, y with
  | Item_Function n, Item_Function m => n = m /\ forall o, T n = Some o -> f_generic o = false -> all_settled g n
  | Item_Statement s, Item_Statement s' => handled g (new_stmt s) (calls_stmt s) (calls_stmt s')
  | _, _ => False
  end.
Lemma item_evolves : forall g g' x y, evolves g g' -> item_done g x y -> item_done g' x y.
Proof.
  intros g g' [n|s] [m|s'] E H; try exact H.
  - destruct H as [-> H]. split; [reflexivity|]. intros o A B. destruct (H o A B) as (B1 & B2 & B3).
    split; [eapply sig_evolves; eassumption|]. split; [eapply requires_evolves; eassumption|eapply body_evolves; eassumption].
  - exact (handled_evolves _ _ _ _ _ E H).
Qed.
Lemma good_items : forall rf fuel l g0, good g0 (gan_items rf fuel l) (fun l' g => Forall2 (item_done g) l l').
Proof.
  intros rf fuel. induction l as [|[n|s] l IH]; intros g0; cbn [gan_items].
  - apply good_ret. constructor.
  - eapply good_bind; [apply good_function|]. intros [] g1 I1 E1 A1.
    assert (D : item_done g1 (Item_Function n) (Item_Function n)).
    { split; [reflexivity|]. intros o To Go. destruct (iv_there g1 I1 n o (or_introl To)) as (h & Eh).
      apply (A1 h Eh); [|cbn; lia]. destruct (iv_origin g1 I1 n h Eh) as (o' & O' & Gr & _).
      assert (o' = o) by (eapply (iv_unique g1 I1); [exact O'|left; exact To]). subst o'. rewrite (gr_generic _ _ _ Gr). exact Go. }
    eapply good_bind; [apply IH|]. intros l' g2 I2 E2 A2. apply good_ret. intros g3 I3 E3. constructor.
    + eapply item_evolves; [exact E3|]. eapply item_evolves; eassumption.
    + cbv beta in A2. clear -A2 E3. induction A2; constructor; [eapply item_evolves; eassumption|assumption].
  - eapply good_bind; [apply good_stmt; intros g1 n lv; eapply good_weaken; [apply good_function|auto]|].
    intros s' g1 I1 E1 A1. assert (D : item_done g1 (Item_Statement s) (Item_Statement s')) by exact A1.
    eapply good_bind; [apply IH|]. intros l' g2 I2 E2 A2. apply good_ret. intros g3 I3 E3. constructor.
    + eapply item_evolves; [exact E3|]. eapply item_evolves; eassumption.
    + cbv beta in A2. clear -A2 E3. induction A2; constructor; [eapply item_evolves; eassumption|assumption].
Qed.

Lemma inv_start : forall vals m st ws,
  inv (GState (State T vals m st) (fun _ => []) ws next0).
Proof.
  intros vals m st ws. constructor; cbn.
  - lia.
  - intros n h E. destruct (Ready n h E) as (_ & L & _). exact L.
  - intros _ i [].
  - intros n f _ _. split; [intros i []|]. split; [constructor|]. split; [constructor|]. intros i x [].
  - intros _ i x [].
  - intros n h E. exists h. split; [left; exact E|]. split; [apply grown_refl|]. destruct (Ready n h E) as (_ & _ & N & _).
    unfold new_function in N. rewrite !andb_true_iff in N. destruct N as ((((N1 & N2) & N3) & N4) & N5). apply Z.eqb_eq in N5.
    constructor; try (left; assumption); intros; exfalso; lia.
  - intros n o [E|(m' & i & [] & _)]. eauto.
  - intros n o o' [E|(m1 & i1 & [] & _)] [E'|(m2 & i2 & [] & _)]. congruence.
Qed.

Theorem analysed_program : forall rf fuel l l' g, analyze_generic rf fuel T next0 l = Some (Ok (l', g)) ->
  inv g /\ Forall2 (item_done g) l l'.
Proof.
  intros rf fuel l l' g H. unfold analyze_generic in H.
  destruct (good_items rf fuel l _ _ _ _ (inv_start _ _ _ _) (evolves_refl _) H) as (A & _ & B). auto.
Qed.

End Calls.
