(** More effort and more fuel do not change results. *)
From Coq Require Import ZArith List Bool Lia.
From Verif Require Import Prelude Types Ops AbsOps Text Tables Literals LinMapSpec Ast AstFacts SourceSem AcceptedSpec
  Analyze ProgramSem.
Import ListNotations.
Open Scope Z_scope.

Definition le {A} (a b : res A) : Prop := a = None \/ b = a.

Lemma le_refl : forall A (a : res A), le a a.
Proof. right. reflexivity. Qed.

Lemma le_some : forall A (a b : res A) r, le a b -> a = Some r -> b = Some r.
Proof. intros A a b r [H|H] E; congruence. Qed.

Lemma le_trans : forall A (a b c : res A), le a b -> le b c -> le a c.
Proof. intros A a b c [H|H]; [left; exact H|]. subst. auto. Qed.

Lemma le_bind : forall A B (a a' : res A) (f f' : A -> res B),
  le a a' -> (forall x, le (f x) (f' x)) -> le (rbind a f) (rbind a' f').
Proof.
  intros A B a a' f f' [->| ->] Hf; [left; reflexivity|]. destruct a as [[x|x| |]|]; cbn [rbind]; auto using le_refl.
Qed.

Definition call_le (c c' : positive -> list cvalue -> res cvalue) : Prop := forall n args, le (c n args) (c' n args).

Record statics_le (K K' : statics) : Prop := {
  le_call : call_le (static_call K) (static_call K');
  le_value : forall p, le (static_value K p) (static_value K' p);
  le_type : forall p, le (static_type K p) (static_type K' p);
  le_signature : forall n, le (static_signature K n) (static_signature K' n) }.

Section Mono.
Variables K K' : statics.
Hypothesis HK : statics_le K K'.

Lemma parameter_types_mono : forall lk, le (parameter_types K lk) (parameter_types K' lk).
Proof.
  intros [[[] n|p|[]]|]; cbn [parameter_types]; try apply le_refl. apply le_bind; [apply (le_signature _ _ HK)|].
  intros x. apply le_refl.
Qed.

Lemma invoked_mono : forall call call' lk args, call_le call call' -> le (invoked call lk args) (invoked call' lk args).
Proof. intros call call' [[[] n|p|[]]|] args H; cbn [invoked]; try apply le_refl. apply H. Qed.

Lemma ev_args_mono : forall call call' vars args types,
  Forall (fun e => le (ev K call vars e) (ev K' call' vars e)) args ->
  le (ev_args K call vars types args) (ev_args K' call' vars types args).
Proof.
  intros call call' vars. induction args as [|a args IH]; intros types H; destruct types as [|t types]; cbn [ev_args];
    try apply le_refl.
  inversion H; subst. apply le_bind; [assumption|]. intros v. apply le_bind; [apply le_refl|]. intros w.
  apply le_bind; [auto|]. intros ws. apply le_refl.
Qed.

Lemma ev_mono_both :
  (forall e, (forall call call' vars, call_le call call' -> le (ev K call vars e) (ev K' call' vars e))
             /\ le (type_of K e) (type_of K' e))
  /\ (forall t, le (type_meant K t) (type_meant K' t)).
Proof.
  apply both_induction.
  - intros cv e t [He _] Ht. split; [|exact Ht]. intros call call' vars Hc. cbn [ev]. apply le_bind; [auto|]. intros v.
    apply le_bind; [exact Ht|]. intros c. apply le_refl.
  - intros cv l c r [Hl Tl] [Hc _] [Hr Tr]. split.
    + intros call call' vars Hca. cbn [ev]. apply le_bind; [auto|]. intros v. apply le_bind; [apply le_refl|]. intros b.
      apply le_bind; [destruct b; auto|]. intros w. apply le_bind; [exact Tl|]. intros tl. apply le_bind; [exact Tr|].
      intros tr. apply le_refl.
    + cbn [type_of]. apply le_bind; [exact Tl|]. intros tl. apply le_bind; [exact Tr|]. intros tr. apply le_refl.
  - intros cv op l r [Hl Tl] [Hr Tr]. split.
    + intros call call' vars Hca. cbn [ev]. apply le_bind; [auto|]. intros v.
      assert (G : le (do r0 <- ev K call vars r; operate (evaluate_binary_operator v op r0))
                     (do r0 <- ev K' call' vars r; operate (evaluate_binary_operator v op r0))).
      { apply le_bind; [auto|]. intros w. apply le_refl. }
      destruct op; try exact G; (apply le_bind; [apply le_refl|]; intros []; auto using le_refl).
    + cbn [type_of]. apply le_bind; [exact Tl|]. intros tl. apply le_bind; [exact Tr|]. intros tr. apply le_refl.
  - intros cv op e [He Te]. split; [|exact Te]. intros call call' vars Hc. cbn [ev]. apply le_bind; [auto|]. intros v.
    apply le_refl.
  - intros cv name lk st args IH. split.
    + intros call call' vars Hc. cbn [ev]. apply le_bind; [apply parameter_types_mono|]. intros types.
      apply le_bind; [|intros values; apply invoked_mono; exact Hc].
      apply (ev_args_mono call call' vars args types). eapply Forall_impl; [|exact IH]. intros a [Ha _]. auto.
    + cbn [type_of]. destruct lk as [[[] n|p|[]]|]; try apply le_refl. apply le_bind; [apply (le_signature _ _ HK)|].
      intros s. apply le_refl.
  - intros cv name lk g. split.
    + intros call call' vars Hc. cbn [ev]. destruct lk as [[[] n|p|b]|]; try apply le_refl. apply (le_value _ _ HK).
    + cbn [type_of]. destruct lk as [[[] n|p|b]|]; try apply le_refl; apply (le_type _ _ HK).
  - intros cv lit t. split; [intros call call' vars Hc|]; apply le_refl.
  - intros cv k cw. cbn [type_meant]. apply le_refl.
  - intros cv k e cw [He _]. cbn [type_meant]. destruct k; try apply le_refl. apply le_bind; [apply He, (le_call _ _ HK)|].
    intros v. apply le_refl.
Qed.

Lemma ev_mono : forall e call call' vars, call_le call call' -> le (ev K call vars e) (ev K' call' vars e).
Proof. intros e. apply ev_mono_both. Qed.
Lemma type_of_mono : forall e, le (type_of K e) (type_of K' e).
Proof. intros e. apply ev_mono_both. Qed.
Lemma type_meant_mono : forall t, le (type_meant K t) (type_meant K' t).
Proof. apply ev_mono_both. Qed.
Lemma ev_static_mono : forall e, le (ev_static K e) (ev_static K' e).
Proof. intros e. apply ev_mono. apply (le_call _ _ HK). Qed.

Lemma types_meant_mono : forall l, le (types_meant K l) (types_meant K' l).
Proof.
  induction l as [|t l IH]; cbn [types_meant]; [apply le_refl|]. apply le_bind; [apply type_meant_mono|]. intros c.
  apply le_bind; [exact IH|]. intros cs. apply le_refl.
Qed.

Lemma loop_mono : forall (c c' : env -> res bool) (b b' : env -> res (ctl * env)),
  (forall v, le (c v) (c' v)) -> (forall v, le (b v) (b' v)) ->
  forall fuel fuel' vars, (fuel <= fuel')%nat -> le (loop c b fuel vars) (loop c' b' fuel' vars).
Proof.
  intros c c' b b' Hc Hb. induction fuel as [|fuel IH]; intros fuel' vars Hle; [left; reflexivity|].
  destruct fuel' as [|fuel']; [lia|]. cbn [loop]. apply le_bind; [apply Hc|]. intros x. destruct x; [|apply le_refl].
  apply le_bind; [apply Hb|]. intros [[] ?]; try apply le_refl; apply IH; lia.
Qed.

Lemma ex_mono : forall call call' rt fuel fuel', call_le call call' -> (fuel <= fuel')%nat ->
  forall s vars, le (ex K call rt fuel vars s) (ex K' call' rt fuel' vars s).
Proof.
  intros call call' rt fuel fuel' Hc Hle.
  induction s as [cv name self t e|cv name self t e|cv e|cv co b IHb|cv co b e IHb IHe|cv co b IHb
                 |cv t e|cv name lk e|cv l IH|e] using stmt_induction; intros vars; cbn [ex]; try apply le_refl.
  - destruct e as [e|]; [|apply le_refl]. apply le_bind; [apply ev_mono; exact Hc|]. intros v.
    apply le_bind; [apply (le_type _ _ HK)|]. intros c. apply le_refl.
  - apply le_bind; [apply ev_mono; exact Hc|]. intros v. apply le_bind; [apply le_refl|]. intros []; auto using le_refl.
  - apply le_bind; [apply ev_mono; exact Hc|]. intros v. apply le_bind; [apply le_refl|]. intros []; auto using le_refl.
  - apply loop_mono; [| |exact Hle].
    + intros v. apply le_bind; [apply ev_mono; exact Hc|]. intros w. apply le_refl.
    + intros v. apply IHb.
  - destruct t; try apply le_refl. apply le_bind; [|intros v; apply le_refl]. destruct e as [e|]; [|apply le_refl].
    apply le_bind; [apply ev_mono; exact Hc|]. intros v. apply le_refl.
  - destruct lk as [[[] n|p|b]|]; try apply le_refl. apply le_bind; [apply ev_mono; exact Hc|]. intros v.
    apply le_bind; [apply (le_type _ _ HK)|]. intros c. apply le_refl.
  - revert vars. induction IH as [|s l Hs _ IHl]; intros vars; [apply le_refl|]. apply le_bind; [apply Hs|].
    intros [[] ?]; try apply le_refl. apply IHl.
  - apply le_bind; [apply ev_mono; exact Hc|]. intros v. apply le_refl.
Qed.

Lemma run_call_mono : forall table fuel fuel', (fuel <= fuel')%nat ->
  call_le (run_call table K fuel) (run_call table K' fuel').
Proof.
  intros table. induction fuel as [|fuel IH]; intros fuel' Hle n args; [left; reflexivity|].
  destruct fuel' as [|fuel']; [lia|]. cbn [run_call]. destruct (table n) as [f|]; [|apply le_refl].
  destruct (bind_parameters _ _) as [vars|]; [|apply le_refl]. apply le_bind; [apply (le_signature _ _ HK)|]. intros s.
  apply le_bind; [apply ex_mono; [apply IH|]; lia|]. intros r. apply le_refl.
Qed.

End Mono.

Section Statics.
Variable table : positive -> option func.
Variable decls : positive -> option declaration.

Lemma statics_le_refl : forall K, statics_le K K.
Proof. intros K. split; intros; try intros ? ?; apply le_refl. Qed.

Lemma statics_le_trans : forall a b c, statics_le a b -> statics_le b c -> statics_le a c.
Proof.
  intros a b c [A1 A2 A3 A4] [B1 B2 B3 B4]. split; intros; try intros ? ?; eapply le_trans; eauto.
Qed.

Lemma statics_grow : forall k, statics_le (statics_of table decls k) (statics_of table decls (S k)).
Proof.
  induction k as [|k IH]; [split; intros; try intros ? ?; left; reflexivity|]. cbn [statics_of]. split; cbn [static_call static_value static_type static_signature].
  - apply run_call_mono; [exact IH|lia].
  - intros p. unfold constant_value. destruct (decls p) as [[[t|] e|[t|] e|t]|]; try apply le_refl.
    + apply le_bind; [apply ev_static_mono; exact IH|]. intros v. apply le_bind; [apply type_meant_mono; exact IH|].
      intros c. apply le_refl.
    + apply ev_static_mono; exact IH.
  - intros p. unfold declared_type. destruct (decls p) as [[[t|] e|[t|] [e|]|t]|]; try apply le_refl;
      first [apply type_meant_mono|apply type_of_mono]; exact IH.
  - intros n. unfold signature. destruct (table n) as [f|]; [|apply le_refl].
    apply le_bind; [apply types_meant_mono; exact IH|]. intros ts. apply le_bind; [apply type_meant_mono; exact IH|].
    intros t. apply le_refl.
Qed.

Lemma statics_mono : forall k k', (k <= k')%nat -> statics_le (statics_of table decls k) (statics_of table decls k').
Proof.
  intros k k' H. induction H as [|k' H IH]; [apply statics_le_refl|]. eapply statics_le_trans; [exact IH|apply statics_grow].
Qed.
End Statics.
