(** From runs of the abstract machine to runs of the virtual machine. *)
From Coq Require Import ZArith List Bool Lia.
From Verif Require Import Prelude Types Ops Text Literals Tables AbsOps LinMap LinMapSpec LinMapProofs VM VMSpec VMProofs
  Ast AstFacts Codegen SourceSem CodegenSpec CodegenProofs.
Import ListNotations.
Open Scope Z_scope.
Local Arguments Z.pow : simpl never.
Local Arguments Z.add : simpl never.

(** The relations of [VMSpec] do not distinguish machines with pointwise equal variables. *)
Lemma update_same : forall f g p v, (forall q, f q = g q) -> forall q, update f p v q = update g p v q.
Proof. intros f g p v H q. unfold update. destruct (Pos.eqb q p); auto. Qed.

Lemma effect_same : forall n i a b a', effect n i a b -> same a a' ->
  exists b', effect n i a' b' /\ same b b'.
Proof.
  intros n i a b [s' f' cs' pc'] He (Hs & Hf & Hcs & Hpc). cbn in Hs, Hf, Hcs, Hpc.
  destruct He; cbn in *; subst.
  all: try (eexists; split; [constructor; try eassumption|repeat split; cbn; auto; lia]; fail).
  - eexists; split; [apply eff_load with (v := v); rewrite <- Hf; assumption|repeat split; cbn; auto].
  - eexists; split; [apply eff_store|]. repeat split; cbn; auto. apply update_same. exact Hf.
  - inversion Hcs as [|x y l l' [Hx Hp] Hl]; subst. destruct y as [r' g]. cbn in Hx. subst r'.
    eexists; split; [apply eff_return; assumption|]. repeat split; cbn; auto.
  - eexists; split; [apply eff_call; assumption|]. repeat split; cbn; auto.
    constructor; auto.
Qed.

Lemma faults_same : forall n i a c a', faults n i a c -> same a a' -> faults n i a' c.
Proof.
  intros n i a c [s' f' cs' pc'] He (Hs & Hf & Hcs & Hpc). cbn in Hs, Hf, Hcs, Hpc.
  destruct He; cbn in *; subst; try (econstructor; eassumption).
  - apply flt_load. rewrite <- Hf. assumption.
  - inversion Hcs. subst. apply flt_return.
Qed.

Lemma crashes_same : forall n i a a', crashes n i a -> same a a' -> crashes n i a'.
Proof.
  intros n i a [s' f' cs' pc'] He (Hs & Hf & Hcs & Hpc). cbn in Hs, Hf, Hcs, Hpc.
  destruct He; cbn in *; subst; try (econstructor; eassumption).
  all: apply crash_null; cbn; tauto.
Qed.

Lemma below_same : forall n i a a', jumps_below n i a -> same a a' -> jumps_below n i a'.
Proof.
  intros n i a [s' f' cs' pc'] He (Hs & Hf & Hcs & Hpc). cbn in Hs, Hf, Hcs, Hpc.
  destruct He; cbn in *; subst; constructor; assumption.
Qed.

Lemma cycles_run : forall k m m', cycles k m m' -> forall j, run (k + j) m = run j m'.
Proof.
  intros k m m' H. induction H as [|k m m' m'' Hc _ IH]; intros j; [reflexivity|].
  cbn [Nat.add run]. rewrite Hc. apply IH.
Qed.

Lemma cycles_ok : forall k m m', cycles k m m' -> machine_ok m ->
  machine_ok m' /\ vm_instructions m' = vm_instructions m.
Proof.
  intros k m m' H. induction H as [|k m m' m'' Hc _ IH]; intros Hm; [auto|].
  destruct (cycle_preserves _ _ Hm Hc) as (H1 & H2 & _).
  destruct (IH H1) as [H3 H4]. split; [exact H3|congruence].
Qed.

Lemma step_cycle : forall m a b, machine_ok m -> same a (abs m) ->
  astep (vm_instructions m) a b -> exists m', cycle m = Ok m' /\ same b (abs m').
Proof.
  intros m a b Hm Hs (i & Hi & He & Hp).
  destruct (effect_same _ _ _ _ _ He Hs) as (b' & He' & Hb).
  assert (Hpc : a_pc a = vm_counter m) by (destruct Hs as (_ & _ & _ & H); exact H).
  rewrite Hpc in Hi, Hp.
  assert (Hnb : ~ jumps_below (instruction_count (vm_instructions m)) i (abs m)).
  { intros C. destruct (below_excludes _ _ _ C) as [C1 _]. exact (C1 _ He'). }
  apply (cycle_ok_iff m i Hm Hi Hnb b). exists b'. split; [exact He'|]. split; [exact Hb|].
  destruct Hb as (_ & _ & _ & H). congruence.
Qed.

Lemma steps_cycles : forall prog k a b, steps prog k a b -> forall m, machine_ok m -> same a (abs m) ->
  vm_instructions m = prog -> exists m', cycles k m m' /\ same b (abs m').
Proof.
  intros prog k a b H. induction H as [a|k a b c Hs _ IH]; intros m Hm Ha Hp.
  - exists m. split; [constructor|exact Ha].
  - subst prog. destruct (step_cycle _ _ _ Hm Ha Hs) as (m1 & Hc & Hb).
    destruct (cycle_preserves _ _ Hm Hc) as (Hm1 & Hp1 & _).
    destruct (IH m1 Hm1 Hb Hp1) as (m2 & Hc2 & Hb2). exists m2. split; [|exact Hb2].
    eapply cycles_more; eassumption.
Qed.

Lemma stops_cycle : forall m a c, machine_ok m -> same a (abs m) -> stops (vm_instructions m) a c ->
  exists e, cycle m = Err e /\ ee_code e = c /\ vm_instructions (ee_machine e) = vm_instructions m.
Proof.
  intros m a c Hm Hs (i & Hi & Hf).
  assert (Hpc : a_pc a = vm_counter m) by (destruct Hs as (_ & _ & _ & H); exact H).
  rewrite Hpc in Hi. pose proof (faults_same _ _ _ _ _ Hf Hs) as Hf'.
  assert (Hnb : ~ jumps_below (instruction_count (vm_instructions m)) i (abs m)).
  { intros C. destruct (below_excludes _ _ _ C) as (_ & _ & C1).
    apply (C1 (instruction_count_nonneg _) _ Hf'). }
  assert (H : exists e, cycle m = Err e /\ ee_code e = c)
    by (apply (cycle_error_iff m i Hm Hi Hnb c); left; exact Hf').
  destruct H as (e & He & Hc). exists e. split; [exact He|]. split; [exact Hc|].
  destruct (cycle_error_text _ _ Hm He) as [H _]. exact H.
Qed.

Lemma dies_cycle : forall m a, machine_ok m -> same a (abs m) -> dies (vm_instructions m) a ->
  ~ defined (cycle m).
Proof.
  intros m a Hm Hs (i & Hi & Hf).
  assert (Hpc : a_pc a = vm_counter m) by (destruct Hs as (_ & _ & _ & H); exact H).
  rewrite Hpc in Hi. apply cycle_crash_iff; [exact Hm|]. right. exists i. split; [exact Hi|].
  eapply crashes_same; eassumption.
Qed.

(** The machine runs for at least [k] cycles. *)
Lemma cycles_unfinished : forall k m m', cycles k m m' -> run k m = None.
Proof.
  intros k m m' H. rewrite <- (Nat.add_0_r k). rewrite (cycles_run _ _ _ H). reflexivity.
Qed.

Lemma run_more : forall k m r, run k m = Some r -> forall j, run (k + j) m = Some r.
Proof.
  induction k as [|k IH]; intros m r H j; [discriminate|]. cbn [run Nat.add] in *.
  destruct (cycle m); try exact H. apply IH. exact H.
Qed.

Lemma run_less : forall k m, run k m = None -> forall j, (j <= k)%nat -> run j m = None.
Proof.
  intros k m H j Hj. destruct (run j m) as [r|] eqn:E; [|reflexivity].
  apply run_more with (j := (k - j)%nat) in E. replace (j + (k - j))%nat with k in E by lia. congruence.
Qed.

(** [leads] for the abstract machine gives [follows] for the virtual machine. *)
Lemma leads_follows : forall R fuel m a (r : res R) (G : R -> machine -> Prop) (G' : R -> vm -> Prop),
  machine_ok m -> same a (abs m) -> leads (vm_instructions m) fuel a r G ->
  (forall x b m', G x b -> same b (abs m') -> machine_ok m' -> vm_instructions m' = vm_instructions m -> G' x m') ->
  follows fuel m r G'.
Proof.
  intros R fuel m a r G G' Hm Ha Hl HG. destruct r as [[x|e| |]|]; cbn [follows leads] in *.
  - destruct Hl as (k & b & Hs & Hb). destruct (steps_cycles _ _ _ _ Hs m Hm Ha eq_refl) as (m' & Hc & Hb').
    destruct (cycles_ok _ _ _ Hc Hm) as [Hm' Hp]. exists k, m'. split; [exact Hc|]. eapply HG; eassumption.
  - destruct (reported e) as [c|]; [|exact I]. destruct Hl as (k & b & Hs & Hb).
    destruct (steps_cycles _ _ _ _ Hs m Hm Ha eq_refl) as (m' & Hc & Hb').
    destruct (cycles_ok _ _ _ Hc Hm) as [Hm' Hp]. rewrite <- Hp in Hb.
    destruct (stops_cycle _ _ _ Hm' Hb' Hb) as (x & Hx & Hcode & _). exists k, m', x. auto.
  - destruct Hl as (k & b & Hs & Hb).
    destruct (steps_cycles _ _ _ _ Hs m Hm Ha eq_refl) as (m' & Hc & Hb').
    destruct (cycles_ok _ _ _ Hc Hm) as [Hm' Hp]. rewrite <- Hp in Hb.
    exists k, m'. split; [exact Hc|]. eapply dies_cycle; eassumption.
  - destruct Hl as (k & b & Hs & Hb).
    destruct (steps_cycles _ _ _ _ Hs m Hm Ha eq_refl) as (m' & Hc & Hb').
    destruct (cycles_ok _ _ _ Hc Hm) as [Hm' Hp]. rewrite <- Hp in Hb.
    exists k, m'. split; [exact Hc|]. eapply dies_cycle; eassumption.
  - destruct Hl as (k & b & Hs & Hk).
    destruct (steps_cycles _ _ _ _ Hs m Hm Ha eq_refl) as (m' & Hc & Hb'). exists k, m'. auto.
Qed.

Lemma same_refl : forall a, same a a.
Proof.
  intros a. repeat split; auto. unfold frames_eq. induction (a_callers a); constructor; auto.
Qed.

Section Run.
Variable table : positive -> option func.
Variable constants : positive -> option cvalue.
Variable units : positive -> option code_unit.
Variable m : vm.
Notation prog := (vm_instructions m).
Hypothesis Hm : machine_ok m.
Hypothesis Hclosed : closed prog.
Hypothesis Hlinked : linked prog table units.

Lemma machine_of_abs : same (Machine (vm_stack m) (current (vm_frames m)) (saved (vm_frames m)) (vm_counter m))
  (abs m).
Proof. apply same_refl. Qed.

Lemma callees_calls : forall info fuel lo, callees_known table units lo info ->
  (forall n' i a, info n' = Some i -> fi_analyzed i = true -> fi_address i = Some a -> exists f', table n' = Some f'
     /\ fi_parameters i = map (fun p => type_cv (p_type p)) (f_params f'))
  /\ (forall n i a args pc s f cs, info n = Some i -> fi_analyzed i = true -> fi_address i = Some a ->
        fetch prog pc = Some (ICall a) -> lo <= pc ->
        leads prog fuel (Machine (rev args ++ s) f cs pc) (call false table constants fuel n args)
          (fun v b => b = Machine (v :: s) f cs (pc + 1))).
Proof.
  intros info fuel lo H. split.
  - intros n' i a Hn Han Had. destruct (H _ _ _ Hn Han Had) as [Hp _]. exact Hp.
  - intros n i a args pc s f cs Hn Han Had Hf Hlo. destruct (H _ _ _ Hn Han Had) as [_ (u & Hu & Hst & Hle)]. subst a.
    assert (instruction_count prog < 2 ^ 62) by apply Hm.
    eapply call_sim; try eassumption. unfold size. lia.
Qed.

Lemma expression_runs : forall info e code fuel,
  callees_known table units (vm_counter m) info -> plain e = true -> gen_expr info e = Ok code ->
  located prog (vm_counter m) code ->
  follows fuel m (eval false table constants (call false table constants fuel) (current (vm_frames m)) e)
    (fun v m' => vm_stack m' = v :: vm_stack m /\ same_frames (vm_frames m') (vm_frames m)
                 /\ vm_counter m' = vm_counter m + instruction_count code).
Proof.
  intros info e code fuel Hk Hp Hg Hloc. destruct (callees_calls info fuel _ Hk) as [H1 H2].
  assert (Hsz : instruction_count prog < 2 ^ 62) by apply Hm.
  eapply leads_follows; [exact Hm|apply machine_of_abs| |].
  - eapply expr_sim; try eassumption; [apply located_code_at; exact Hloc|lia].
  - cbn beta. intros v b m' -> (E1 & E2 & E3 & E4) _ _. cbn in E1, E2, E3, E4. split; [auto|].
    split; [|unfold size in E4; lia]. split; [intros p; symmetry; apply E2|].
    clear - E3. unfold frames_eq in *. induction E3 as [|x y l l' [Ha Hb] _ IH]; constructor; auto.
Qed.

Lemma statement_runs : forall info rt st code fuel,
  callees_known table units (vm_counter m) info -> shaped st = true ->
  gen_stmt info rt st = Ok code -> located prog (vm_counter m) code ->
  follows fuel m (exec false table constants (call false table constants fuel) rt fuel (current (vm_frames m)) st)
    (fun r m' =>
       match r with
       | (Normal, vars) =>
           vm_counter m' = vm_counter m + instruction_count code /\ vm_stack m' = vm_stack m
           /\ (forall p, current (vm_frames m') p = vars p) /\ frames_eq (saved (vm_frames m)) (saved (vm_frames m'))
       | (Breaks, _) => fetch prog (vm_counter m') = Some IBreak
       | (Continues, _) => fetch prog (vm_counter m') = Some IContinue
       | (Returns v, vars) =>
           fetch prog (vm_counter m') = Some IReturn /\ vm_stack m' = v :: vm_stack m
           /\ (forall p, current (vm_frames m') p = vars p) /\ frames_eq (saved (vm_frames m)) (saved (vm_frames m'))
       end).
Proof.
  intros info rt st code fuel Hk Hp Hg Hloc. destruct (callees_calls info fuel _ Hk) as [H1 H2].
  assert (Hsz : instruction_count prog < 2 ^ 62) by apply Hm.
  eapply leads_follows; [exact Hm|apply machine_of_abs| |].
  - eapply stmt_sim; try eassumption; [apply located_code_at; exact Hloc|lia|discriminate|discriminate].
  - cbn beta. intros [c vars] b m' Hb (E1 & E2 & E3 & E4) _ Hpr. destruct c; cbn [after] in Hb.
    + subst b. cbn in E1, E2, E3, E4. repeat split; auto.
    + rewrite E4 in Hb. exact Hb.
    + rewrite E4 in Hb. exact Hb.
    + destruct Hb as (pc' & -> & Hf & _). cbn in E1, E2, E3, E4. subst pc'. repeat split; auto.
Qed.

Lemma call_runs : forall n u args s fuel, units n = Some u ->
  fetch prog (vm_counter m) = Some (ICall (u_start u)) ->
  u_start u + instruction_count (u_code u) <= vm_counter m ->
  vm_stack m = rev args ++ s ->
  follows fuel m (call false table constants fuel n args)
    (fun v m' => vm_stack m' = v :: s /\ same_frames (vm_frames m') (vm_frames m)
                 /\ vm_counter m' = vm_counter m + 1).
Proof.
  intros n u args s fuel Hu Hf Hle Hs. assert (Hsz : instruction_count prog < 2 ^ 62) by apply Hm.
  eapply leads_follows; [exact Hm|apply machine_of_abs| |].
  - rewrite Hs. eapply call_sim; eassumption.
  - cbn beta. intros v b m' -> (E1 & E2 & E3 & E4) _ _. cbn in E1, E2, E3, E4. split; [auto|].
    split; [|lia]. split; [intros p; symmetry; apply E2|].
    clear - E3. unfold frames_eq in *. induction E3 as [|x y l l' [Ha Hb] _ IH]; constructor; auto.
Qed.

(** A machine that was reset, given arguments, and sent to the start of a function. *)
Lemma entry_leads : forall n u args fuel, units n = Some u ->
  vm_counter m = u_start u -> vm_stack m = rev args -> vm_frames m = lm_clear ->
  follows fuel m (call false table constants (S fuel) n args)
    (fun v m' => vm_stack m' = [v] /\ exists x, cycle m' = Err x /\ ee_code x = x_pop_call
                                              /\ vm_stack (ee_machine x) = [v]).
Proof.
  intros n u args fuel Hu Hc Hs Hf. assert (Hsz : instruction_count prog < 2 ^ 62) by apply Hm.
  eapply leads_follows; [exact Hm| | |].
  2: { eapply entry_sim; eassumption. }
  - rewrite <- Hc, <- Hs. unfold abs. rewrite Hf. repeat split; auto.
    constructor.
  - cbn beta. intros v b m' [Hb1 (i & Hi & Hb2)] Hsame Hm' Hp. split.
    { destruct Hsame as (E1 & _). unfold abs in E1. cbn in E1. congruence. }
    pose proof Hsame as (E1 & _ & _ & E4). unfold abs in E1, E4. cbn in E1, E4.
    rewrite <- Hp in Hi, Hb2. assert (Hst : stops (vm_instructions m') b x_pop_call) by (exists i; auto).
    destruct (stops_cycle _ _ _ Hm' Hsame Hst) as (x & Hx & Hcode & _).
    exists x. split; [exact Hx|]. split; [exact Hcode|].
    unfold cycle in Hx. rewrite E4 in Hi. rewrite Hi in Hx.
    assert (i = IReturn).
    { clear - Hb2. remember x_pop_call as c eqn:E in Hb2. destruct Hb2; try discriminate E; [reflexivity]. }
    subst i. cbn [execute] in Hx. destruct (lm_pop_frame (vm_frames m')) as [[r fr]|].
    + cbn [bind] in Hx. destruct (_ =? _); [|discriminate]. injection Hx as <-. discriminate.
    + cbn in Hx. injection Hx as <-. cbn. congruence.
Qed.
End Run.

(** The result of a run does not depend on the fuel. *)
Lemma run_unique : forall k k' m r r', run k m = Some r -> run k' m = Some r' -> r = r'.
Proof.
  intros k k' m r r' H H'. apply run_more with (j := k') in H. apply run_more with (j := k) in H'.
  rewrite Nat.add_comm in H'. congruence.
Qed.

Lemma cycles_error : forall k m m' x, cycles k m m' -> cycle m' = Err x -> run (k + 1) m = Some (Err x).
Proof. intros k m m' x H Hx. rewrite (cycles_run _ _ _ H). cbn [run]. rewrite Hx. reflexivity. Qed.

Lemma cycles_crash : forall k m m', cycles k m m' -> ~ defined (cycle m') ->
  exists r, run (k + 1) m = Some r /\ ~ defined r.
Proof.
  intros k m m' H Hx. rewrite (cycles_run _ _ _ H). cbn [run].
  destruct (cycle m') as [y|y| |]; cbn in Hx; try tauto; eexists; (split; [reflexivity|tauto]).
Qed.

(** With loops around [break] and [continue], a statement never ends in one of them. *)
Lemma loops_ok_exec : forall fa table constants ca rt fl st inside vars c vars',
  loops_ok inside st = true -> exec fa table constants ca rt fl vars st = Some (Ok (c, vars')) ->
  (c = Breaks \/ c = Continues) -> inside = true.
Proof.
  intros fa table constants ca rt fl. 
  induction st as [cv name self t e|cv name self t e|cv e|cv co b IHb|cv co b e IHb IHe|cv co b IHb
                  |cv t e|cv name lk e|cv l IHl|e] using stmt_induction;
    intros inside vars c vars' Hl Hx Hc.
  - cbn in Hx. injection Hx as <- <-. destruct Hc; discriminate.
  - cbn [exec] in Hx. destruct e as [e|]; [|injection Hx as <- <-; destruct Hc; discriminate].
    destruct (eval _ _ _ _ _ _) as [[v|?| |]|]; cbn [rbind] in Hx; try discriminate.
    destruct (adapt _ _ _) as [[w|?| |]|]; cbn [rbind] in Hx; try discriminate.
    injection Hx as <- <-. destruct Hc; discriminate.
  - cbn in Hx. injection Hx as <- <-. destruct Hc; discriminate.
  - cbn [exec loops_ok] in *. rewrite andb_true_r in Hl.
    destruct (eval _ _ _ _ _ _) as [[v|?| |]|]; cbn [rbind] in Hx; try discriminate.
    destruct (truth v) as [[[|]|?| |]|]; cbn [rbind] in Hx; try discriminate.
    + eapply IHb; eassumption.
    + injection Hx as <- <-. destruct Hc; discriminate.
  - cbn [exec loops_ok] in *. apply andb_prop in Hl. destruct Hl as [Hl1 Hl2].
    destruct (eval _ _ _ _ _ _) as [[v|?| |]|]; cbn [rbind] in Hx; try discriminate.
    destruct (truth v) as [[[|]|?| |]|]; cbn [rbind] in Hx; try discriminate.
    + eapply IHb; eassumption.
    + eapply IHe; eassumption.
  - exfalso. cbn [exec] in Hx.
    match type of Hx with loop ?co ?bo ?n _ = _ =>
      assert (G : forall k v r, loop co bo k v = Some (Ok r) -> fst r <> Breaks /\ fst r <> Continues) end.
    { clear. induction k as [|k IH]; intros v r H; [discriminate|]. cbn [loop] in H.
      match type of H with rbind ?x _ = _ => destruct x as [[[|]|?| |]|] end; cbn [rbind] in H; try discriminate.
      - match type of H with rbind ?x _ = _ => destruct x as [[[c0 v0]|?| |]|] end; cbn [rbind] in H; try discriminate.
        destruct c0; try (eapply IH; eassumption); injection H as <-; split; discriminate.
      - injection H as <-. split; discriminate. }
    apply G in Hx. cbn [fst] in Hx. tauto.
  - destruct t; cbn [loops_ok exec] in *; try assumption.
    match type of Hx with rbind ?x _ = _ => destruct x as [[w|?| |]|] end; cbn [rbind] in Hx; try discriminate.
    injection Hx as <- <-. destruct Hc; discriminate.
  - cbn [exec] in Hx. destruct (eval _ _ _ _ _ _) as [[v|?| |]|]; cbn [rbind] in Hx; try discriminate.
    destruct (adapt _ _ _) as [[w|?| |]|]; cbn [rbind] in Hx; try discriminate.
    destruct lk as [[[] n|p|f]|]; try discriminate. injection Hx as <- <-. destruct Hc; discriminate.
  - rewrite exec_block_unfold in Hx. cbn [loops_ok] in Hl. revert vars Hx Hl.
    induction IHl as [|st l Hs _ IH]; intros vars Hx Hl.
    + cbn in Hx. injection Hx as <- <-. destruct Hc; discriminate.
    + cbn [forallb] in Hl. apply andb_prop in Hl. destruct Hl as [Hl1 Hl2]. cbn [exec_children] in Hx.
      destruct (exec fa table constants ca rt fl vars st) as [[[c1 v1]|?| |]|] eqn:E; cbn [rbind] in Hx; try discriminate.
      destruct c1; try (injection Hx as <- <-; eapply Hs; eassumption).
      eapply IH; eassumption.
  - cbn [exec] in Hx. destruct (eval _ _ _ _ _ _) as [[v|?| |]|]; cbn [rbind] in Hx; try discriminate.
    injection Hx as <- <-. destruct Hc; discriminate.
Qed.

(** Errors of the evaluator come from functions that are called, and from the statements themselves. *)
Definition only {A} (P : src_error -> Prop) (r : res A) : Prop := forall e, r = Some (Err e) -> P e.

Section Errors.
Variable P : src_error -> Prop.
Hypothesis P_eval : forall e, P (s_eval e).
Hypothesis P_uninitialized : P s_uninitialized.
Hypothesis P_not_bool : P s_not_bool.
Hypothesis P_stuck : P s_stuck.

Lemma only_bind : forall A B (x : res A) (f : A -> res B),
  only P x -> (forall a, x = Some (Ok a) -> only P (f a)) -> only P (rbind x f).
Proof.
  intros A B [[a|e| |]|] f Hx Hf e' H; cbn in H; try discriminate.
  - exact (Hf a eq_refl _ H).
  - injection H as <-. apply Hx. reflexivity.
Qed.
Lemma only_ret : forall A (a : A), only P (ret a).
Proof. intros A a e H. discriminate. Qed.
Lemma only_stuck : forall A, only P (@throw A s_stuck).
Proof. intros A e H. injection H as <-. exact P_stuck. Qed.
Lemma only_operate : forall r, only P (operate r).
Proof. intros [v|x| |] e H; cbn in H; try discriminate. injection H as <-. apply P_eval. Qed.
Lemma only_truth : forall v, only P (truth v).
Proof.
  intros v e H. unfold truth in H. destruct (ctype_eqb _ _).
  - destruct (_ =? 0); [discriminate|]. destruct (_ =? 1); [discriminate|]. injection H as <-. exact P_stuck.
  - injection H as <-. exact P_not_bool.
Qed.
Lemma only_recorded_type : forall cv, only P (recorded_type cv).
Proof. intros [a|]; [apply only_ret|apply only_stuck]. Qed.
Lemma only_type_of_node : forall t, only P (type_of_node t).
Proof. intros t. unfold type_of_node. destruct (concrete_type_value _); try apply only_stuck. apply only_ret. Qed.
Lemma only_recorded : forall fa cv k, only P k -> only P (recorded fa cv k).
Proof. intros [|] [[t [z|]]|] k H; cbn; try assumption. apply only_ret. Qed.
Lemma only_adapt : forall fa v t, only P t -> only P (adapt fa v t).
Proof.
  intros [|] v t H; cbn [adapt]; [|apply only_ret]. apply only_bind; [exact H|]. intros. apply only_operate.
Qed.
Lemma only_pass : forall fa v f t, only P f -> only P t -> only P (pass fa v f t).
Proof.
  intros fa v f t Hf Ht. unfold pass. apply only_bind; [exact Ht|]. intros.
  destruct fa; [apply only_operate|]. apply only_bind; [exact Hf|]. intros.
  destruct (ctype_eqb _ _); [apply only_ret|apply only_operate].
Qed.

Variable fa : bool.
Variable table : positive -> option func.
Variable constants : positive -> option cvalue.
Variable ca : positive -> list cvalue -> res cvalue.
Hypothesis P_call : forall n args, only P (ca n args).

Lemma only_parameter_type : forall l i, only P (parameter_type table l i).
Proof.
  intros [[] n|p|b] i; cbn [parameter_type]; try apply only_stuck.
  - destruct (table n); [|apply only_stuck]. destruct (nth_error _ _); [|apply only_stuck].
    apply only_recorded_type.
  - destruct b, i; [apply only_ret|apply only_stuck].
Qed.
Lemma only_invoke : forall l args, only P (invoke ca l args).
Proof.
  intros [[] n|p|[]] args; cbn [invoke]; try apply only_stuck; [apply P_call|].
  destruct args as [|v [|]]; try apply only_stuck. apply only_operate.
Qed.

Lemma only_eval : forall e vars, only P (eval fa table constants ca vars e).
Proof.
  induction e as [cv e t IH|cv l c r IHl IHc IHr|cv op l r IHl IHr|cv op e IH|cv name lk st args IH
                 |cv name lk g|cv lit t] using expr_induction; intros vars.
  - cbn [eval]. apply only_recorded, only_bind; [apply IH|]. intros. apply only_bind; [apply only_type_of_node|].
    intros. apply only_operate.
  - cbn [eval]. apply only_recorded, only_bind; [apply IHc|]. intros. apply only_bind; [apply only_truth|].
    intros b _. apply only_bind; [destruct b; [apply IHl|apply IHr]|]. intros. apply only_adapt, only_recorded_type.
  - cbn [eval]. apply only_recorded, only_bind; [apply IHl|]. intros v _.
    assert (D : only P (do r0 <- eval fa table constants ca vars r; operate (evaluate_binary_operator v op r0)))
      by (apply only_bind; [apply IHr|intros; apply only_operate]).
    destruct op; try exact D; (apply only_bind; [apply only_truth|]); intros b _; destruct b;
      try apply only_ret; apply IHr.
  - cbn [eval]. apply only_recorded, only_bind; [apply IH|]. intros. apply only_operate.
  - rewrite eval_call_unfold. apply only_recorded, only_bind.
    + generalize 0%nat. induction IH as [|e args He _ IHa]; intros i; cbn [eval_args]; [apply only_ret|].
      apply only_bind; [apply He|]. intros. apply only_bind.
      { apply only_pass; [apply only_recorded_type|]. destruct lk; [apply only_parameter_type|apply only_stuck]. }
      intros. apply only_bind; [apply IHa|]. intros. apply only_ret.
    + intros. destruct lk; [apply only_invoke|apply only_stuck].
  - cbn [eval]. apply only_recorded.
    assert (U : forall n, only P (match vars n with Some v => ret v | None => throw s_uninitialized end)).
    { intros n e H. destruct (vars n); [discriminate|]. injection H as <-. exact P_uninitialized. }
    destruct lk as [[[] n|p|b]|]; try apply only_stuck; try apply U.
    destruct fa; [|apply U]. destruct (constants n); [apply only_ret|].
    intros e H. injection H as <-. exact P_uninitialized.
  - cbn [eval]. apply only_recorded. unfold literal_value.
    destruct t; try apply only_stuck; try apply only_ret; destruct (parse_integer_literal lit);
      try apply only_stuck; apply only_ret.
Qed.

Lemma only_exec : forall rt fl st vars, only P (exec fa table constants ca rt fl vars st).
Proof.
  intros rt fl.
  induction st as [cv name self t e|cv name self t e|cv e|cv co b IHb|cv co b e IHb IHe|cv co b IHb
                  |cv t e|cv name lk e|cv l IHl|e] using stmt_induction; intros vars.
  - apply only_ret.
  - cbn [exec]. destruct e as [e|]; [|apply only_ret]. apply only_bind; [apply only_eval|]. intros.
    apply only_bind; [apply only_adapt, only_recorded_type|]. intros. apply only_ret.
  - apply only_ret.
  - cbn [exec]. apply only_bind; [apply only_eval|]. intros. apply only_bind; [apply only_truth|].
    intros [|] _; [apply IHb|apply only_ret].
  - cbn [exec]. apply only_bind; [apply only_eval|]. intros. apply only_bind; [apply only_truth|].
    intros [|] _; [apply IHb|apply IHe].
  - cbn [exec]. generalize fl at 2. intros k. revert vars. induction k as [|k IH]; intros vars.
    + intros e H. discriminate.
    + cbn [loop]. apply only_bind.
      { apply only_bind; [apply only_eval|]. intros. apply only_truth. }
      intros [|] _; [|apply only_ret]. apply only_bind; [apply IHb|]. intros [[] w] _; try apply IH; apply only_ret.
  - destruct t; try apply only_ret. cbn [exec]. apply only_bind; [|intros; apply only_ret].
    apply only_recorded. destruct e as [e|]; [|apply only_ret]. apply only_bind; [apply only_eval|]. intros.
    apply only_pass; [apply only_recorded_type|apply only_ret].
  - cbn [exec]. apply only_bind; [apply only_eval|]. intros.
    apply only_bind; [apply only_adapt, only_recorded_type|]. intros.
    destruct lk as [[[] n|p|b]|]; try apply only_stuck. apply only_ret.
  - rewrite exec_block_unfold. revert vars. induction IHl as [|st l Hs _ IH]; intros vars; cbn [exec_children].
    + apply only_ret.
    + apply only_bind; [apply Hs|]. intros [[] w] _; try apply only_ret. apply IH.
  - cbn [exec]. apply only_bind; [apply only_eval|]. intros. apply only_ret.
Qed.
End Errors.

(** With loops around [break] and [continue], calls do not fail with [s_break_outside_loop]. *)
Lemma call_no_break : forall fa table constants,
  (forall n f, table n = Some f -> loops_ok false (f_body f) = true) ->
  forall fuel n args, only (fun e => e <> s_break_outside_loop) (call fa table constants fuel n args).
Proof.
  intros fa table constants Hl. induction fuel as [|fuel IH]; intros n args; [intros e H; discriminate|].
  cbn [call]. destruct (table n) as [f|] eqn:Et; [|apply only_stuck; discriminate].
  destruct (bind_parameters _ _); [|apply only_stuck; discriminate].
  apply only_bind; [apply only_type_of_node; discriminate|]. intros rt _.
  apply only_bind; [apply only_exec; try discriminate; exact IH|].
  intros [c vars] Hx. destruct c; try apply only_ret.
  - intros er H. destruct (node_type _); try discriminate; injection H as <-; discriminate.
  - pose proof (loops_ok_exec _ _ _ _ _ _ _ _ _ _ _ (Hl _ _ Et) Hx (or_introl eq_refl)). discriminate.
  - pose proof (loops_ok_exec _ _ _ _ _ _ _ _ _ _ _ (Hl _ _ Et) Hx (or_intror eq_refl)). discriminate.
Qed.

Section Entry.
Variable table : positive -> option func.
Variable constants : positive -> option cvalue.
Variable units : positive -> option code_unit.
Variable m : vm.
Hypothesis Hm : machine_ok m.
Hypothesis Hclosed : closed (vm_instructions m).
Hypothesis Hlinked : linked (vm_instructions m) table units.
Variable n : positive.
Variable u : code_unit.
Variable args : list cvalue.
Hypothesis Hu : units n = Some u.
Hypothesis Hpc : vm_counter m = u_start u.
Hypothesis Hst : vm_stack m = rev args.
Hypothesis Hfr : vm_frames m = lm_clear.

Lemma entry_value : forall fuel v, call false table constants (S fuel) n args = Some (Ok v) ->
  exists k x, run k m = Some (Err x) /\ ee_code x = x_pop_call /\ vm_stack (ee_machine x) = [v].
Proof.
  intros fuel v H.
  pose proof (entry_leads table constants units m Hm Hclosed Hlinked n u args fuel Hu Hpc Hst Hfr) as L.
  rewrite H in L. destruct L as (k & m' & Hc & _ & x & Hx & H1 & H2).
  exists (k + 1)%nat, x. split; [eapply cycles_error; eassumption|auto].
Qed.

Lemma entry_error : forall fuel e c, call false table constants (S fuel) n args = Some (Err e) ->
  reported e = Some c -> exists k x, run k m = Some (Err x) /\ ee_code x = c.
Proof.
  intros fuel e c H Hr.
  pose proof (entry_leads table constants units m Hm Hclosed Hlinked n u args fuel Hu Hpc Hst Hfr) as L.
  rewrite H in L. cbn [follows] in L. rewrite Hr in L. destruct L as (k & m' & x & Hc & Hx & H1).
  exists (k + 1)%nat, x. split; [eapply cycles_error; eassumption|auto].
Qed.

Lemma entry_crash : forall fuel r, call false table constants (S fuel) n args = Some r -> ~ defined r ->
  exists k r, run k m = Some r /\ ~ defined r.
Proof.
  intros fuel r H Hr.
  pose proof (entry_leads table constants units m Hm Hclosed Hlinked n u args fuel Hu Hpc Hst Hfr) as L.
  rewrite H in L. destruct r as [v|e| |]; cbn in Hr; try tauto;
    destruct L as (k & m' & Hc & Hx); exists (k + 1)%nat; eapply cycles_crash; eassumption.
Qed.

Lemma entry_unfinished : forall fuel, call false table constants (S fuel) n args = None -> run fuel m = None.
Proof.
  intros fuel H.
  pose proof (entry_leads table constants units m Hm Hclosed Hlinked n u args fuel Hu Hpc Hst Hfr) as L.
  rewrite H in L. destruct L as (k & m' & Hc & Hk). eapply run_less; [eapply cycles_unfinished; exact Hc|exact Hk].
Qed.

(** Everything a run can end with. *)
Lemma entry_stops : forall k r, run k m = Some r ->
  exists res, call false table constants (S k) n args = Some res /\
  match res with
  | Ok v => exists x, r = Err x /\ ee_code x = x_pop_call /\ vm_stack (ee_machine x) = [v]
  | Err e => forall c, reported e = Some c -> exists x, r = Err x /\ ee_code x = c
  | _ => ~ defined r
  end.
Proof.
  intros k r Hr. destruct (call false table constants (S k) n args) as [res|] eqn:E.
  - exists res. split; [reflexivity|]. destruct res as [v|e| |].
    + destruct (entry_value _ _ E) as (k' & x & H1 & H2). exists x.
      split; [eapply run_unique; eassumption|exact H2].
    + intros c Hc. destruct (entry_error _ _ _ E Hc) as (k' & x & H1 & H2). exists x.
      split; [eapply run_unique; eassumption|exact H2].
    + destruct (entry_crash _ _ E) as (k' & r' & H1 & H2); [cbn; tauto|].
      rewrite (run_unique _ _ _ _ _ Hr H1). exact H2.
    + destruct (entry_crash _ _ E) as (k' & r' & H1 & H2); [cbn; tauto|].
      rewrite (run_unique _ _ _ _ _ Hr H1). exact H2.
  - apply entry_unfinished in E. congruence.
Qed.

End Entry.
