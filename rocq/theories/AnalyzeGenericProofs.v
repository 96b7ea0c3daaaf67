(** Facts about the analysis with bit-generic functions. *)
From Coq Require Import ZArith List Bool Lia.
From Verif Require Import Prelude Types Ops Text Tables AbsOps Literals LinMap VM Ast AstFacts Codegen Analyze
  Instantiate AnalyzeGeneric.
Import ListNotations.
Open Scope Z_scope.

(** * Programs without calls of bit-generic functions *)

(** No function has instances. *)
Definition plain_state (g : gstate) : Prop := forall n, g_instances g n = [].

(** What [Analyze.v] answers, with the rest of the state. *)
Definition raise {A} (g : gstate) (r : option (outcome analysis_error (A * state)))
  : option (outcome generic_error (A * gstate)) :=
  match r with
  | None => None
  | Some (Ok (a, st)) => Some (Ok (a, with_st st g))
  | Some (Err e) => Some (Err (ge_analysis e))
  | Some Abort => Some Abort
  | Some UB => Some UB
  end.

Definition agrees {A} (m : G A) (m0 : M A) : Prop :=
  forall g, plain_state g -> m0 (g_st g) = Some (Err outside_model) \/ m g = raise g (m0 (g_st g)).

Lemma agrees_up : forall A (m : M A), agrees (up m) m.
Proof. intros A m g _. right. reflexivity. Qed.
Lemma agrees_ret : forall A (a : A), agrees (gret a) (mret a).
Proof. intros A a g _. right. destruct g. reflexivity. Qed.
Lemma agrees_outside : forall A (m : G A), agrees m (mfail outside_model).
Proof. intros A m g _. left. reflexivity. Qed.
Lemma agrees_bind : forall A B (x : G A) x0 (f : A -> G B) f0,
  agrees x x0 -> (forall a, agrees (f a) (f0 a)) -> agrees (gbind x f) (mbind x0 f0).
Proof.
  intros A B x x0 f f0 X F g P. unfold gbind, mbind. destruct (X g P) as [E|E].
  - left. rewrite E. reflexivity.
  - rewrite E. destruct (x0 (g_st g)) as [[[a st]| | |]|]; cbn [raise]; auto. 
    destruct (F a (with_st st g) P) as [H|H]; [left; exact H|right]. rewrite H. change (g_st (with_st st g)) with st.
    destruct (f0 a st) as [[[b st']| | |]|]; reflexivity.
Qed.

Lemma agrees_ext : forall A (m : G A) m0 m1, (forall st, m0 st = m1 st) -> agrees m m0 -> agrees m m1.
Proof. intros A m m0 m1 E X g P. rewrite <- E. exact (X g P). Qed.
Lemma bind_assoc : forall A B C (x : M A) (f : A -> M B) (k : B -> M C) st,
  mbind x (fun a => mbind (f a) k) st = mbind (mbind x f) k st.
Proof. intros A B C x f k st. unfold mbind. destruct (x st) as [[[a s]| | |]|]; reflexivity. Qed.
Lemma agrees_assoc : forall A B C (m : G C) (x : M A) (f : A -> M B) (k : B -> M C),
  agrees m (mbind x (fun a => mbind (f a) k)) -> agrees m (mbind (mbind x f) k).
Proof. intros A B C m x f k. apply agrees_ext. intros st. apply bind_assoc. Qed.
Lemma agrees_ret_bind : forall A B (m : G B) (a : A) k, agrees m (k a) -> agrees m (mbind (mret a) k).
Proof. intros A B m a k X g P. exact (X g P). Qed.
Lemma agrees_gret_bind : forall A B (a : A) k (m : M B), agrees (k a) m -> agrees (gbind (gret a) k) m.
Proof. intros A B a k m X g P. exact (X g P). Qed.
Lemma agrees_fail : forall A B e (k : A -> M B), agrees (gfail e) (mbind (mfail e) k).
Proof. intros A B e k g P. right. reflexivity. Qed.
Lemma agrees_abort : forall A B (k : A -> M B), agrees gabort (mbind mabort k).
Proof. intros A B k g P. right. reflexivity. Qed.
Lemma agrees_ub : forall A B (k : A -> M B), agrees gub (mbind mub k).
Proof. intros A B k g P. right. reflexivity. Qed.
Lemma agrees_out : forall A B (m : G B) (k : A -> M B), agrees m (mbind (mfail outside_model) k).
Proof. intros A B m k g P. left. reflexivity. Qed.
Lemma agrees_assert : forall A b (k : unit -> G A) k0, b = true -> agrees (k tt) k0 -> agrees (gbind (gassert b) k) k0.
Proof. intros A b k k0 -> X g P. unfold gbind, gassert, up. cbn. destruct g. exact (X _ P). Qed.

Lemma with_same : forall g, with_st (g_st g) g = g.
Proof. intros []. reflexivity. Qed.
Lemma read_again : forall A g n f (k : positive -> func -> G A), st_functions (g_st g) n = Some f ->
  gbind (gret n) (fun n => gbind (gget_function n) (k n)) g = k n f g.
Proof.
  intros A g n f k E. unfold gbind, gret, gget_function, up, get_function. rewrite E. unfold mret. rewrite with_same. reflexivity.
Qed.
Lemma agrees_get : forall A n (k : func -> G A) k0,
  (forall f g, plain_state g -> st_functions (g_st g) n = Some f ->
     k0 f (g_st g) = Some (Err outside_model) \/ k f g = raise g (k0 f (g_st g))) ->
  agrees (gbind (gget_function n) k) (mbind (get_function n) k0).
Proof.
  intros A n k k0 X g P. unfold gbind, mbind, gget_function, up, get_function.
  destruct (st_functions (g_st g) n) as [f|] eqn:E; [|right; reflexivity]. unfold mret. rewrite with_same. exact (X f g P E).
Qed.

Ltac agree :=
  repeat first
    [ assumption
    | apply agrees_outside | apply agrees_out
    | apply agrees_ret
    | apply agrees_up
    | apply agrees_fail | apply agrees_abort | apply agrees_ub
    | apply agrees_assoc
    | apply agrees_ret_bind
    | apply agrees_gret_bind
    | apply agrees_bind; [|let a := fresh "a" in intros a]
    | match goal with
      | |- agrees (match ?x with _ => _ end) (match ?x with _ => _ end) => destruct x
      | |- agrees _ (mbind (match ?x with _ => _ end) _) => destruct x
      end ].

Section Agree.
Variable gcallee : positive -> level -> G unit.
Variable callee : positive -> level -> M unit.
Variable rf : nat.
Hypothesis H : forall n lv, agrees (gcallee n lv) (callee n lv).

Lemma agrees_value : forall A B (t : A) k (m : M B), agrees (k t) m -> agrees (gbind (gvalue (Some t)) k) m.
Proof. intros A B t k m X g P. unfold gbind, gvalue, up. cbn. destruct g. exact (X _ P). Qed.

Lemma agrees_call : forall lv cx t args,
  agrees (gan_call gcallee rf lv cx (Some t) args)
    (mbind (an_call callee rf lv cx (Some t) args) (fun v => mret (t, v))).
Proof.
  intros lv cx t args. unfold gan_call, an_call. cbn [mvalue].
  apply agrees_assoc, agrees_ret_bind, agrees_value.
  destruct t as [k n|p|b]; [|apply agrees_ub|].
  2: { unfold glift. agree. }
  destruct k; try apply agrees_fail.
  apply agrees_assoc.
  apply agrees_get. intros f g P E.
  destruct (negb (Nat.eqb (length (f_params f)) (length args))); [right; reflexivity|].
  destruct (f_generic f) eqn:Ge; [left; reflexivity|].
  rewrite (read_again _ g n f _ E).
  match goal with |- ?m0 (g_st g) = _ \/ ?m g = _ => enough (X : agrees m m0) by exact (X g P) end.
  apply agrees_assert; [rewrite Ge; reflexivity|].
  unfold gget, glift, gset_vm, gvalue, gassert, gget_function. agree. 
  all: try apply H.
Qed.

Lemma agrees_id : forall cx lk, agrees (gan_id cx lk) (an_id cx lk).
Proof.
  intros cx lk. unfold gan_id. destruct lk as [[[] n| |]|]; try apply agrees_up.
  intros g P. left. reflexivity.
Qed.

Ltac open_ops := unfold glift, gvalue, gassert, gtype, gor_unknown, gderef, gset_value, gget, gset_vm, gan_literal,
  gget_function, gset_function, gpush_function, gpop_function, gfail, gub, gabort in *.

Ltac agree' :=
  repeat first
    [ assumption
    | apply agrees_outside | apply agrees_out
    | apply agrees_ret
    | apply agrees_up
    | match goal with X : forall _ _, agrees _ _ |- _ => apply X end
    | match goal with X : forall _, agrees _ _ |- _ => apply X end
    | match goal with X : forall _ _ _, agrees _ _ |- _ => apply X end
    | apply agrees_bind; [|let a := fresh "a" in intros a]
    | match goal with
      | |- agrees (match ?x with _ => _ end) (match ?x with _ => _ end) => destruct x
      end ].

Lemma agrees_both :
  (forall e lv cx, agrees (gan_expr gcallee rf lv cx e) (an_expr callee rf lv cx e)) /\
  (forall t, agrees (gan_type gcallee rf t) (an_type callee rf t)).
Proof.
  apply both_induction.
  - intros cv e t IHe IHt lv cx. cbn [gan_expr an_expr]. open_ops. agree'.
  - intros cv l c r IHl IHc IHr lv cx. cbn [gan_expr an_expr]. open_ops. agree'.
  - intros cv op l r IHl IHr lv cx. cbn [gan_expr an_expr]. open_ops. agree'.
  - intros cv op e IHe lv cx. cbn [gan_expr an_expr]. open_ops. agree'.
  - intros cv name lk st args IH lv cx. cbn [gan_expr an_expr].
    destruct lk as [t|]; [|right; reflexivity]. apply agrees_bind; [apply agrees_up|intros _].
    apply agrees_bind.
    + induction IH as [|a args IHa _ IHargs]; open_ops; agree'.
    + intros [args' values].
      eapply agrees_ext; [|apply (agrees_bind _ _ _ _ _ (fun r => mret (ECall (Some (snd r)) name (Some (fst r)) st args'))
        (agrees_call lv cx t values)); intros [lk' v]; apply agrees_ret].
      intros s. unfold mbind, mret. destruct (an_call callee rf lv cx (Some t) values s) as [[[v s']| | |]|]; reflexivity.
  - intros cv name lk gen lv cx. cbn [gan_expr an_expr]. destruct cv; [apply agrees_ret|].
    apply agrees_bind; [apply agrees_id|intros v; apply agrees_ret].
  - intros cv lit t lv cx. cbn [gan_expr an_expr]. open_ops. agree'.
  - intros cv k cw. cbn [gan_type an_type]. open_ops. agree'.
  - intros cv k e cw IHe. cbn [gan_type an_type]. open_ops. agree'.
Qed.

Lemma agrees_stmt : forall s rt lv loop,
  agrees (gan_stmt gcallee rf rt lv loop s) (an_stmt callee rf rt lv loop s).
Proof.
  destruct agrees_both as [He Ht].
  induction s as [cv name self t e|cv name self t e|cv e|cv c b IHb|cv c b e IHb IHe|cv c b IHb
                 |cv t e|cv name lk e|cv l IH|e] using stmt_induction; intros rt lv loop; cbn [gan_stmt an_stmt]; open_ops.
  - agree'.
  - agree'.
  - agree'.
  - agree'.
  - agree'.
  - agree'.
  - agree'.
  - agree'.
  - apply agrees_bind; [|intros l'; agree']. induction IH as [|s l Hs _ IHl]; agree'.
  - agree'.
Qed.

Lemma agrees_parameters : forall l, agrees (gan_parameters gcallee rf l) (an_parameters callee rf l).
Proof. destruct agrees_both as [He Ht]. induction l as [|p l IH]; cbn [gan_parameters an_parameters]; open_ops; agree'. Qed.

Lemma agrees_body : forall n lv, agrees (gan_function_body gcallee rf n lv) (an_function_body callee rf n lv).
Proof.
  destruct agrees_both as [He Ht]. pose proof agrees_stmt as Hs. pose proof agrees_parameters as Hp.
  intros n lv. unfold gan_function_body, an_function_body. open_ops.
  apply agrees_bind; [apply agrees_up|intros f]. apply agrees_bind; [apply agrees_up|intros _].
  destruct (level_leb lv (f_level f)); [apply agrees_ret|].
  destruct (f_generic f).
  { intros g P. right. rewrite (P n). cbn. destruct g; reflexivity. }
  agree'. all: apply Hs.
Qed.

End Agree.

Lemma agrees_function : forall rf fuel n lv, agrees (gan_function rf fuel n lv) (an_function rf fuel n lv).
Proof.
  induction fuel as [|fuel IH]; intros n lv; cbn [gan_function an_function].
  - intros g P. right. reflexivity.
  - apply agrees_body. exact IH.
Qed.

Lemma agrees_items : forall rf fuel l, agrees (gan_items rf fuel l) (an_items rf fuel l).
Proof.
  intros rf fuel. pose proof (agrees_function rf fuel) as F.
  induction l as [|[n|s] l IH]; cbn [gan_items an_items].
  - apply agrees_ret.
  - apply agrees_bind; [apply F|intros _]. apply agrees_bind; [exact IH|intros l']. apply agrees_ret.
  - apply agrees_bind; [apply agrees_stmt; exact F|intros s']. apply agrees_bind; [exact IH|intros l']. apply agrees_ret.
Qed.
