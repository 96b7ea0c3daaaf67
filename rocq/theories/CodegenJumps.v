(** Where the jumps of generated code lead. *)
From Coq Require Import ZArith List Bool Lia.
From Verif Require Import Prelude Types Ops Text Tables AbsOps LinMap LinMapSpec VM VMSpec VMProofs
  Ast AstFacts Codegen SourceSem CodegenSpec CodegenProofs.
Import ListNotations.
Open Scope Z_scope.
Local Arguments Z.pow : simpl never.
Local Arguments Z.add : simpl never.

(** The jumps of [code], found at index [k], lead to [lo .. hi]. *)
Fixpoint within (lo hi k : Z) (code : list instr) : Prop :=
  match code with
  | [] => True
  | i :: rest =>
      match i with
      | IRelative_Jump o | IRelative_Jump_If o _ => lo <= k + 1 + o <= hi
      | _ => True
      end /\ within lo hi (k + 1) rest
  end.

Definition not_symbolic (i : instr) : Prop := i <> IBreak /\ i <> IContinue.

Lemma within_app : forall a b lo hi k,
  within lo hi k (a ++ b) <-> within lo hi k a /\ within lo hi (k + size a) b.
Proof.
  induction a as [|i a IH]; intros b lo hi k; cbn [app within].
  - rewrite size_nil, Z.add_0_r. tauto.
  - rewrite IH, size_cons. replace (k + 1 + size a) with (k + (1 + size a)) by lia. tauto.
Qed.

Lemma within_shift : forall code lo hi k lo' hi' d, within lo hi k code ->
  lo' <= lo + d -> hi + d <= hi' -> within lo' hi' (k + d) code.
Proof.
  induction code as [|i code IH]; intros lo hi k lo' hi' d H Hlo Hhi; [exact I|].
  cbn [within] in *. destruct H as [H1 H2]. split.
  - destruct i; try exact I; lia.
  - replace (k + d + 1) with (k + 1 + d) by lia. eapply IH; eassumption.
Qed.

Ltac shift H := eapply within_shift with (d := _) in H; [exact H| |].

Lemma within_at : forall code lo hi k, within 0 (size code) 0 code -> lo <= k -> k + size code <= hi ->
  within lo hi k code.
Proof.
  intros code lo hi k H H1 H2. replace k with (0 + k) by lia.
  eapply within_shift; [exact H| |]; lia.
Qed.

Ltac sizes :=
  repeat match goal with
  | |- context [size (_ ++ _)] => rewrite size_app
  | |- context [size (_ :: _)] => rewrite size_cons
  | |- context [size []] => rewrite size_nil
  end;
  repeat match goal with a : list instr |- _ =>
    match goal with H : 0 <= size a |- _ => fail 1 | _ => pose proof (size_nonneg a) end end.

Ltac within_parts :=
  repeat (rewrite within_app || (cbn [app within]; match goal with |- _ /\ _ => split end)
          || match goal with |- _ /\ _ => split end);
  try exact I; try (sizes; lia);
  try (apply within_at; [assumption|sizes; lia|sizes; lia]).

Lemma push_known_inv : forall cv (k : outcome codegen_error (list instr)) code,
  push_known cv k = Ok code -> (exists v, code = [IPush v]) \/ k = Ok code.
Proof.
  intros cv k code H. destruct cv as [[t [z|]]|]; cbn in H; try discriminate; [left|right]; [|exact H].
  injection H as <-. eauto.
Qed.

Lemma symbolic_app : forall a b, Forall not_symbolic a -> Forall not_symbolic b -> Forall not_symbolic (a ++ b).
Proof. intros. apply Forall_app. auto. Qed.

Ltac symbolic :=
  repeat first [assumption | apply symbolic_app | apply Forall_nil
    | apply Forall_cons; [split; discriminate|]].

Section Jumps.
Variable info : functions.

Lemma expr_jumps : forall e code, gen_expr info e = Ok code ->
  within 0 (size code) 0 code /\ Forall not_symbolic code.
Proof.
  induction e as [cv e t IH|cv l c r IHl IHc IHr|cv op l r IHl IHr|cv op e IH|cv name lk st args IH
                 |cv name lk g|cv lit t] using expr_induction; intros code Hg.
  - cbn [gen_expr] in Hg. apply push_known_inv in Hg. destruct Hg as [(v & ->)|Hg]; [split; [within_parts|symbolic]|].
    binds. injection Hg as <-. destruct (IH _ B) as [W N]. split; [within_parts|symbolic].
  - cbn [gen_expr] in Hg. apply push_known_inv in Hg. destruct Hg as [(v & ->)|Hg]; [split; [within_parts|symbolic]|].
    binds. injection Hg as <-. destruct (IHc _ B) as [W N], (IHl _ B0) as [W0 N0], (IHr _ B1) as [W1 N1].
    split; [within_parts|symbolic].
  - cbn [gen_expr] in Hg. apply push_known_inv in Hg. destruct Hg as [(v & ->)|Hg]; [split; [within_parts|symbolic]|].
    apply bind_ok in Hg. destruct Hg as (cl & Bl & Hg). destruct (IHl _ Bl) as [W N].
    assert (H : exists cr tl, gen_expr info r = Ok cr /\ code = cl ++ tl
      /\ (tl = cr ++ [IBinary_Operate op]
          \/ exists cb x, tl = [IRelative_Jump_If (size cr + 1) cb] ++ cr ++ [IRelative_Jump 1; IPush x])).
    { destruct op; binds; injection Hg as <-; eexists; eexists; (split; [eassumption|]);
        (split; [reflexivity|]);
        solve [left; reflexivity | right; eexists; eexists; reflexivity]. }
    destruct H as (cr & tl & Br & -> & Htl). destruct (IHr _ Br) as [W0 N0].
    destruct Htl as [->|(cb & x & ->)]; (split; [within_parts|symbolic]).
  - cbn [gen_expr] in Hg. apply push_known_inv in Hg. destruct Hg as [(v & ->)|Hg]; [split; [within_parts|symbolic]|].
    binds. injection Hg as <-. destruct (IH _ B) as [W N]. split; [within_parts|symbolic].
  - destruct cv as [v|]; [|discriminate]. destruct (is_known v) eqn:Ek.
    { cbn [gen_expr] in Hg. rewrite Ek in Hg. destruct v as [t [z|]]; [|discriminate].
      destruct st; cbn in Hg; injection Hg as <-; (split; [within_parts|symbolic]). }
    rewrite (gen_call_unfold _ _ _ _ _ _ v eq_refl Ek) in Hg. binds. injection Hg as <-.
    assert (Ha : forall args i code, Forall (fun e => forall code, gen_expr info e = Ok code ->
               within 0 (size code) 0 code /\ Forall not_symbolic code) args ->
             gen_args info lk i args = Ok code -> within 0 (size code) 0 code /\ Forall not_symbolic code).
    { clear. induction args as [|e args IHa]; intros i code HF Hg.
      - cbn in Hg. injection Hg as <-. split; [exact I|constructor].
      - inversion HF as [|x l Hx Hl]; subst. cbn [gen_args] in Hg. binds. injection Hg as <-.
        destruct (Hx _ B) as [W N]. destruct (IHa _ _ Hl B3) as [W0 N0].
        destruct (ctype_eqb (av_type a0) a2); (split; [within_parts|symbolic]). }
    destruct (Ha _ _ _ IH B) as [W N].
    assert (Hi : within 0 (size a0) 0 a0 /\ Forall not_symbolic a0).
    { unfold gen_invoke in B0. binds.
      assert (Hc : (exists ad, a1 = [ICall ad]) \/ a1 = [] \/ exists f, a1 = [IBuiltin_Call f]).
      { destruct lk as [[[] n|p|f]|]; try discriminate; try (injection B1 as <-; eauto; fail).
        destruct (info n) as [i|]; [|discriminate].
        destruct (fi_analyzed i); [|discriminate]. destruct (fi_address i); [|discriminate].
        injection B1 as <-. eauto. }
      injection B0 as <-.
      destruct Hc as [(ad & ->)|[->|(f & ->)]]; destruct st; (split; [within_parts|symbolic]). }
    destruct Hi as [W0 N0]. split; [within_parts|symbolic].
  - cbn [gen_expr] in Hg. apply push_known_inv in Hg. destruct Hg as [(v & ->)|Hg]; [split; [within_parts|symbolic]|].
    binds. injection Hg as <-. split; [within_parts|symbolic].
  - cbn [gen_expr] in Hg. apply push_known_inv in Hg. destruct Hg as [(v & ->)|Hg]; [split; [within_parts|symbolic]|].
    discriminate.
Qed.

Variable return_type : ctype.

(** Resolving the symbolic jumps of a loop body. *)
Lemma resolve_within : forall code before hi, within 0 (before + size code) before code ->
  0 <= before -> hi = before + size code + 1 -> within 0 hi before (resolve_jumps before code).
Proof.
  induction code as [|i code IH]; intros before hi H Hb Hhi; [exact I|].
  cbn [resolve_jumps within] in *. rewrite size_cons in *. destruct H as [H1 H2].
  pose proof (size_nonneg code) as Hs. split.
  - destruct i; try exact I; try lia; rewrite ?size_cons; lia.
  - apply IH; try lia. replace (before + 1 + size code) with (before + (1 + size code)) by lia. exact H2.
Qed.

Lemma resolve_symbolic : forall code before, Forall not_symbolic (resolve_jumps before code).
Proof.
  induction code as [|i code IH]; intros before; cbn [resolve_jumps]; constructor; [|apply IH].
  destruct i; split; discriminate.
Qed.

Lemma stmt_jumps : forall st code, gen_stmt info return_type st = Ok code ->
  within 0 (size code) 0 code /\ (loops_ok false st = true -> Forall not_symbolic code).
Proof.
  induction st as [cv name self t e|cv name self t e|cv e|cv c b IHb|cv c b e IHb IHe|cv c b IHb
                  |cv t e|cv name lk e|cv l IHl|e] using stmt_induction; intros code Hg.
  - cbn in Hg. binds. injection Hg as <-. split; [exact I|constructor].
  - cbn in Hg. binds. destruct e as [e|].
    + binds. injection Hg as <-. destruct (expr_jumps _ _ B0) as [W N]. split; [within_parts|intros _; symbolic].
    + injection Hg as <-. split; [exact I|constructor].
  - cbn in Hg. binds. injection Hg as <-. split; [exact I|constructor].
  - cbn [gen_stmt] in Hg. binds. injection Hg as <-. destruct (expr_jumps _ _ B) as [W N].
    destruct (IHb _ B0) as [W0 N0]. split; [within_parts|]. cbn [loops_ok]. intros Hl.
    rewrite andb_true_r in Hl. specialize (N0 Hl). symbolic.
  - cbn [gen_stmt] in Hg. binds. injection Hg as <-. destruct (expr_jumps _ _ B) as [W N].
    destruct (IHb _ B0) as [W0 N0], (IHe _ B1) as [W1 N1]. split; [within_parts|]. cbn [loops_ok]. intros Hl.
    apply andb_prop in Hl. destruct Hl as [H1 H2]. specialize (N0 H1). specialize (N1 H2). symbolic.
  - cbn [gen_stmt] in Hg. binds. injection Hg as <-. destruct (expr_jumps _ _ B) as [W N].
    destruct (IHb _ B0) as [W0 N0]. split.
    + assert (W1 : within 0 (size a + 1 + size a0 + 1) (size a + 1) (resolve_jumps (size a + 1) a0)).
      { pose proof (size_nonneg a). apply resolve_within; try lia.
        apply within_at; [exact W0|lia|lia]. }
      pose proof (size_nonneg a). pose proof (size_nonneg a0).
      rewrite size_app. cbn [app]. rewrite size_cons, size_app, resolve_size, size_cons, size_nil.
      rewrite within_app. split; [apply within_at; [exact W|lia|lia]|].
      cbn [within]. split; [lia|]. rewrite within_app. split.
      * replace (0 + size a + 1) with (size a + 1) by lia.
        replace (size a + (1 + (size a0 + (1 + 0)))) with (size a + 1 + size a0 + 1) by lia. exact W1.
      * rewrite resolve_size. cbn [within]. split; [lia|exact I].
    + intros _. pose proof (resolve_symbolic a0 (size a + 1)). symbolic.
  - cbn [gen_stmt] in Hg. binds. destruct t.
    + injection Hg as <-. split; [within_parts|]. cbn. discriminate.
    + injection Hg as <-. split; [within_parts|]. cbn. discriminate.
    + unfold assert_then in Hg. destruct (ctype_eqb _ _); [|discriminate]. destruct (is_known a).
      * binds. injection Hg as <-. split; [within_parts|intros _; symbolic].
      * binds. injection Hg as <-. destruct (expr_jumps _ _ B1) as [W N].
        destruct (ctype_eqb _ _); (split; [within_parts|intros _; symbolic]).
  - cbn [gen_stmt] in Hg. binds. injection Hg as <-. destruct (expr_jumps _ _ B0) as [W N].
    split; [within_parts|intros _; symbolic].
  - rewrite gen_block_unfold in Hg. cbn [loops_ok]. revert code Hg.
    induction IHl as [|st l Hs _ IH]; intros code Hg.
    + cbn in Hg. injection Hg as <-. split; [exact I|constructor].
    + cbn [gen_children] in Hg. binds. injection Hg as <-. destruct (Hs _ B) as [W N].
      destruct (IH _ B0) as [W0 N0]. split; [within_parts|]. cbn [forallb]. intros Hl.
      apply andb_prop in Hl. destruct Hl as [H1 H2]. specialize (N H1). specialize (N0 H2). symbolic.
  - cbn [gen_stmt] in Hg. destruct (expr_jumps _ _ Hg) as [W N]. split; [exact W|intros _; exact N].
Qed.

End Jumps.

Lemma within_jump : forall code lo hi i t, within lo hi 0 code -> jump_at code i t -> lo <= t <= hi.
Proof.
  assert (G : forall code k lo hi i o, within lo hi k code ->
    (nth_error code i = Some (IRelative_Jump o) \/ exists b, nth_error code i = Some (IRelative_Jump_If o b)) ->
    lo <= k + Z.of_nat i + 1 + o <= hi).
  { induction code as [|c code IH]; intros k lo hi i o W H.
    - destruct H as [H|[b H]]; destruct i; discriminate.
    - destruct W as [W1 W2]. destruct i as [|i].
      + destruct H as [H|[b H]]; cbn [nth_error] in H; injection H as ->; change (Z.of_nat 0) with 0; lia.
      + specialize (IH _ _ _ i o W2 H). lia. }
  intros code lo hi i t W (o & -> & H).
  assert (0 <= i) by (destruct H as [H|[b H]]; apply fetch_range in H; lia).
  rewrite fetch_nth in H by assumption.
  specialize (G _ _ _ _ _ _ W H). lia.
Qed.

(** The code of the stores at the start of a function, of its body, and what follows the body. *)
Lemma gen_function_parts : forall info f code, gen_function info f = Ok code ->
  exists bcv children rt body tail,
    f_body f = SBlock bcv children
    /\ gen_children info rt children = Ok body
    /\ code = map (fun p => IStore (Some (p_self p))) (rev (f_params f)) ++ body ++ tail
    /\ match node_type (f_return f) with
       | tt_Void => (tail = [] /\ @has_return codegen_error (rev children) = Ok true)
                    \/ (tail = [IPush cv_Void; IReturn] /\ @has_return codegen_error (rev children) = Ok false)
       | _ => tail = []
       end.
Proof.
  intros info f code Hg. unfold gen_function in Hg. binds.
  destruct (f_body f) as [| | | | | | |bcv children|] eqn:Ebody; try discriminate.
  apply bind_ok in Hg. destruct Hg as (body & Bb & Hg). rewrite gen_block_unfold in Bb.
  destruct (node_type (f_return f)).
  - binds. destruct a1; injection Hg as <-.
    + exists bcv, children, a0, body, []. repeat split; auto.
    + exists bcv, children, a0, body, [IPush cv_Void; IReturn]. repeat split; auto.
  - injection Hg as <-. exists bcv, children, a0, body, []. rewrite app_nil_r. repeat split; auto.
  - injection Hg as <-. exists bcv, children, a0, body, []. rewrite app_nil_r. repeat split; auto.
  - injection Hg as <-. exists bcv, children, a0, body, []. rewrite app_nil_r. repeat split; auto.
Qed.

Lemma stores_within : forall params k lo hi,
  within lo hi k (map (fun p => IStore (Some (p_self p))) params).
Proof. induction params as [|p l IH]; intros; [exact I|]. split; [exact I|apply IH]. Qed.
Lemma stores_symbolic : forall params,
  Forall not_symbolic (map (fun p => IStore (Some (p_self p))) params).
Proof. induction params as [|p l IH]; constructor; [split; discriminate|exact IH]. Qed.

Lemma function_jumps : forall info f code, gen_function info f = Ok code ->
  within 0 (size code) 0 code /\ (loops_ok false (f_body f) = true -> Forall not_symbolic code).
Proof.
  intros info f code Hg.
  destruct (gen_function_parts _ _ _ Hg) as (bcv & children & rt & body & tail & Eb & Bb & -> & Ht).
  rewrite <- (gen_block_unfold info rt bcv) in Bb. destruct (stmt_jumps info rt _ _ Bb) as [W N].
  assert (Htail : tail = [] \/ tail = [IPush cv_Void; IReturn]) by (destruct (node_type (f_return f)); tauto).
  set (st := map _ _). pose proof (stores_symbolic (rev (f_params f))) as Ns. fold st in Ns. split.
  - rewrite within_app. split; [apply stores_within|]. rewrite within_app. split.
    + pose proof (size_nonneg st). pose proof (size_nonneg tail).
      apply within_at; [exact W|lia|]. rewrite !size_app. lia.
    + destruct Htail as [-> | ->]; cbn [within]; auto.
  - rewrite Eb. intros Hl. specialize (N Hl). destruct Htail as [-> | ->]; symbolic.
Qed.

Lemma gen_children_app : forall info rt a b code, gen_children info rt (a ++ b) = Ok code ->
  exists ca cb, gen_children info rt a = Ok ca /\ gen_children info rt b = Ok cb /\ code = ca ++ cb.
Proof.
  induction a as [|s a IH]; intros b code H.
  - exists [], code. auto.
  - cbn [app gen_children] in H. binds. injection H as <-.
    destruct (IH _ _ B0) as (ca & cb & H1 & H2 & ->). exists (a0 ++ ca), cb. cbn [gen_children].
    rewrite B, H1. cbn [bind]. rewrite app_assoc. auto.
Qed.

Lemma has_return_none : forall E l,
  (forall s, In s l -> match s with SControl _ _ _ => False | _ => True end) ->
  @has_return E l = Ok false.
Proof.
  induction l as [|s l IH]; intros H; [reflexivity|]. pose proof (H s (or_introl eq_refl)) as Hs.
  destruct s; cbn [has_return]; try contradiction; apply IH; intros s' Hi; apply H; right; exact Hi.
Qed.

Lemma function_jumps_strict : forall info f code, gen_function info f = Ok code -> ends_with_return f ->
  within 0 (size code - 1) 0 code.
Proof.
  intros info f code Hg (cv & l & El & H).
  destruct (gen_function_parts _ _ _ Hg) as (bcv & children & rt & body & tail & Eb & Bb & -> & Ht).
  rewrite Eb in El. injection El as <- <-.
  set (st := map _ _). rewrite within_app. split; [apply stores_within|].
  pose proof (size_nonneg st) as Ss. pose proof (size_nonneg body) as Sb. pose proof (size_nonneg tail) as St.
  assert (Htail : tail = [] \/ tail = [IPush cv_Void; IReturn]) by (destruct (node_type (f_return f)); tauto).
  assert (Htw : forall k hi, within 0 hi k tail) by (intros; destruct Htail as [-> | ->]; cbn; auto).
  rewrite within_app. split; [|apply Htw]. destruct H as [(l' & c & e & ->)|[Hv Hn]].
  - apply gen_children_app in Bb. destruct Bb as (ca & cb & Ba & Bb & ->).
    cbn [gen_children] in Bb. binds. cbn in B0. injection B0 as <-. rewrite app_nil_r in Bb. injection Bb as <-.
    rewrite <- (gen_block_unfold info rt bcv) in Ba. destruct (stmt_jumps info rt _ _ Ba) as [Wa _].
    pose proof (size_nonneg ca) as Sca.
    assert (Hr : exists pre, a = pre ++ [IReturn] /\ within 0 (size pre) 0 pre).
    { cbn [gen_stmt] in B. binds. unfold assert_then in B. destruct (ctype_eqb _ _); [|discriminate].
      destruct (is_known a0).
      - binds. injection B as <-. exists [IPush a1]. split; [reflexivity|cbn; auto].
      - binds. injection B as <-. destruct (expr_jumps _ _ _ B2) as [W _].
        eexists. split; [rewrite app_assoc; reflexivity|].
        destruct (ctype_eqb _ _); within_parts. }
    destruct Hr as (pre & -> & Wp). pose proof (size_nonneg pre) as Spre.
    rewrite !size_app, size_cons, size_nil. rewrite within_app. split.
    + apply within_at; [exact Wa|lia|lia].
    + rewrite within_app. split; [apply within_at; [exact Wp|lia|lia]|]. cbn; auto.
  - rewrite Hv in Ht. destruct Ht as [[-> Hr]|[-> _]].
    + exfalso. rewrite (has_return_none codegen_error (rev children)) in Hr; [discriminate|].
      intros s Hi. apply Hn. apply in_rev. exact Hi.
    + rewrite <- (gen_block_unfold info rt bcv) in Bb. destruct (stmt_jumps info rt _ _ Bb) as [W _].
      apply within_at; [exact W|lia|]. rewrite !size_app, !size_cons, size_nil. lia.
Qed.

Lemma fetch_app_left : forall a b i, i < instruction_count a -> fetch (a ++ b) i = fetch a i.
Proof.
  intros a b i H. unfold fetch. destruct (Z.leb_spec 0 i); cbn [andb]; [|reflexivity].
  unfold instruction_count in *. rewrite app_length.
  destruct (Z.ltb_spec i (Z.of_nat (length a))); [|lia].
  destruct (Z.ltb_spec i (Z.of_nat (length a + length b))); [|lia].
  apply nth_error_app1. lia.
Qed.
Lemma fetch_app_right : forall a b i, instruction_count a <= i -> fetch (a ++ b) i = fetch b (i - instruction_count a).
Proof.
  intros a b i H. unfold fetch, instruction_count in *. rewrite app_length.
  destruct (Z.leb_spec 0 i); [|lia]. destruct (Z.leb_spec 0 (i - Z.of_nat (length a))); [|lia]. cbn [andb].
  destruct (Z.ltb_spec i (Z.of_nat (length a + length b))),
    (Z.ltb_spec (i - Z.of_nat (length a)) (Z.of_nat (length b))); try lia; [|reflexivity].
  rewrite nth_error_app2 by lia. f_equal. lia.
Qed.

Lemma assembled_closed : forall prog, assembled prog -> closed prog.
Proof.
  intros prog (parts & -> & Hp) pc o Hj.
  assert (Hj' : jump_at (concat parts) pc (pc + 1 + o)) by (exists o; split; [reflexivity|exact Hj]).
  clear Hj. revert pc Hj'. induction parts as [|code parts IH]; intros pc (o' & E & Hj).
  - exfalso. destruct Hj as [Hj|[b Hj]]; apply fetch_range in Hj; cbn in Hj; lia.
  - assert (o' = o) by lia. subst o'. clear E. cbn [concat] in *.
    destruct (Hp code (or_introl eq_refl)) as (info & f & Hg & He).
    pose proof (function_jumps_strict _ _ _ Hg He) as W.
    unfold instruction_count. rewrite app_length, Nat2Z.inj_add.
    fold (instruction_count code) (instruction_count (concat parts)).
    assert (0 <= instruction_count (concat parts)) by (unfold instruction_count; lia).
    destruct (Z.lt_ge_cases pc (instruction_count code)) as [Hlt|Hge].
    + rewrite fetch_app_left in Hj by assumption.
      assert (J : jump_at code pc (pc + 1 + o)) by (exists o; auto).
      pose proof (within_jump _ _ _ _ _ W J). unfold size in *. lia.
    + rewrite fetch_app_right in Hj by assumption.
      assert (J : jump_at (concat parts) (pc - instruction_count code)
                    (pc - instruction_count code + 1 + o)) by (exists o; auto).
      assert (Hp' : forall c, In c parts -> exists info f, gen_function info f = Ok c /\ ends_with_return f)
        by (intros c Hc; apply Hp; right; exact Hc).
      specialize (IH Hp' _ J). unfold instruction_count in *. lia.
Qed.
