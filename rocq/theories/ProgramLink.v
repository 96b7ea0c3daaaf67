(** Analysed trees and the source trees they come from: both mean the same. *)
From Coq Require Import ZArith List Bool Lia.
From Verif Require Import Prelude Types Ops OpsSpec AbsOps AbsOpsSpec Text Tables Literals LinMapSpec Ast AstFacts
  SourceSem Annotated AnnotatedProofs AcceptedSpec Analyze CodegenProofs ProgramSem ProgramMono.
Import ListNotations.
Open Scope Z_scope.

Section Annot.
Variable K : statics.

(** A type node before and after analysis. *)
Definition typed_node (t t' : type_node) : Prop := exists c, denotes t' c /\ type_meant K t = ret c.

(** An expression before and after analysis. *)
Fixpoint annot (e e' : expr) {struct e} : Prop :=
  match e, e' with
  | EConversion _ e1 t, EConversion _ e1' t' => annot e1 e1' /\ typed_node t t'
  | EIf _ l c r, EIf cv l' c' r' =>
      annot l l' /\ annot c c' /\ annot r r'
      /\ exists tl tr v, type_of K l = ret tl /\ type_of K r = ret tr /\ cv = Some v /\ common tl tr = ret (av_type v)
  | EBinary _ op l r, EBinary _ op' l' r' => op' = op /\ annot l l' /\ annot r r'
  | EPrefix _ op e1, EPrefix _ op' e1' => op' = op /\ annot e1 e1'
  | ECall _ _ lk _ args, ECall _ _ lk' _ args' =>
      lk' = lk
      /\ (fix all (l l' : list expr) {struct l} : Prop :=
            match l, l' with
            | [], [] => True
            | a :: rest, a' :: rest' => annot a a' /\ all rest rest'
            | _, _ => False
            end) args args'
  | EId _ _ lk _, EId cv _ lk' _ =>
      lk' = lk
      /\ match lk with
         | Some (LNode DConst n) => forall v, cv = Some (known v) -> static_value K n = ret v
         | _ => True
         end
  | ELiteral _ lit t, ELiteral _ lit' t' => lit' = lit /\ t' = t
  | _, _ => False
  end.

Definition all_annot : list expr -> list expr -> Prop :=
  fix all (l l' : list expr) {struct l} : Prop :=
    match l, l' with
    | [], [] => True
    | a :: rest, a' :: rest' => annot a a' /\ all rest rest'
    | _, _ => False
    end.

(** A statement before and after analysis. *)
Fixpoint annot_stmt (s s' : stmt) {struct s} : Prop :=
  match s, s' with
  | SConst _ _ self _ _, SConst cv _ self' _ _ =>
      self' = self /\ forall v, cv = Some (known v) -> static_value K self = ret v
  | SStatic_Assert _ e, SStatic_Assert _ _ => ev_static K e = ret cv_True
  | SLet _ _ self _ init, SLet cv _ self' _ init' =>
      self' = self
      /\ match init, init' with
         | None, None => True
         | Some e, Some e' => annot e e' /\ exists v, cv = Some v /\ static_type K self = ret (av_type v)
         | _, _ => False
         end
  | SIf _ c b e, SIf _ c' b' e' =>
      annot c c' /\ annot_stmt b b'
      /\ match e, e' with
         | None, None => True
         | Some s1, Some s1' => annot_stmt s1 s1'
         | _, _ => False
         end
  | SWhile _ c b, SWhile _ c' b' => annot c c' /\ annot_stmt b b'
  | SControl _ k e, SControl _ k' e' =>
      k' = k
      /\ match k with
         | ctl_return =>
             match e, e' with
             | None, None => True
             | Some e1, Some e1' => annot e1 e1'
             | _, _ => False
             end
         | _ => True
         end
  | SAssign _ _ lk e, SAssign cv _ lk' e' =>
      lk' = lk /\ annot e e'
      /\ match lk with
         | Some (LNode DLet n) => exists v, cv = Some v /\ static_type K n = ret (av_type v)
         | _ => False
         end
  | SBlock _ l, SBlock _ l' =>
      (fix all (l l' : list stmt) {struct l} : Prop :=
         match l, l' with
         | [], [] => True
         | a :: rest, a' :: rest' => annot_stmt a a' /\ all rest rest'
         | _, _ => False
         end) l l'
  | SExpr e, SExpr e' => annot e e'
  | _, _ => False
  end.

Definition all_annot_stmt : list stmt -> list stmt -> Prop :=
  fix all (l l' : list stmt) {struct l} : Prop :=
    match l, l' with
    | [], [] => True
    | a :: rest, a' :: rest' => annot_stmt a a' /\ all rest rest'
    | _, _ => False
    end.

(** A signature before and after analysis. *)
Definition signed (n : positive) (f : func) : Prop :=
  exists ts t, static_signature K n = ret (ts, t)
    /\ Forall2 denotes (map p_type (f_params f)) ts /\ denotes (f_return f) t.

End Annot.

Lemma ev_call_unfold : forall K call vars cv name lk st args,
  ev K call vars (ECall cv name lk st args)
  = do types <- parameter_types K lk;
    do values <- ev_args K call vars types args;
    invoked call lk values.
Proof. reflexivity. Qed.

Lemma ev_conversion_unfold : forall K call vars cv e t,
  ev K call vars (EConversion cv e t) = do v <- ev K call vars e; do c <- type_meant K t; convert v c.
Proof. reflexivity. Qed.

Lemma ev_if_unfold : forall K call vars cv l c r,
  ev K call vars (EIf cv l c r)
  = do c' <- ev K call vars c;
    do b <- truth c';
    do v <- (if (b : bool) then ev K call vars l else ev K call vars r);
    do tl <- type_of K l;
    do tr <- type_of K r;
    do t <- common tl tr;
    convert v t.
Proof. reflexivity. Qed.

Lemma ex_block_unfold : forall K call rt fuel vars cv l,
  ex K call rt fuel vars (SBlock cv l) = ex_children K call rt fuel l vars.
Proof. reflexivity. Qed.

Lemma pairs_length : forall A B (R : A -> B -> Prop) l l', Forall2 R l l' -> length l = length l'.
Proof. intros A B R l l' H. induction H; cbn [length]; congruence. Qed.

Lemma rbind_ext : forall A B (x y : res A) (f g : A -> res B),
  x = y -> (forall a, x = Some (Ok a) -> f a = g a) -> rbind x f = rbind y g.
Proof. intros A B x y f g <- H. destruct x as [[a| | |]|]; cbn [rbind]; auto. Qed.

Lemma loop_ext : forall c c' b b', (forall v, c v = c' v) -> (forall v, b v = b' v) ->
  forall fuel vars, loop c b fuel vars = loop c' b' fuel vars.
Proof.
  intros c c' b b' Hc Hb. induction fuel as [|fuel IH]; intros vars; [reflexivity|]. cbn [loop].
  apply rbind_ext; [apply Hc|]. intros [] _; [|reflexivity]. apply rbind_ext; [apply Hb|].
  intros [[] w] _; auto.
Qed.

Section Link.
Variable K : statics.
Variable values : positive -> option avalue.
(** The analysed functions. *)
Variable T : positive -> option func.
Hypothesis Hsig : forall n f, T n = Some f -> signed K n f.

Section Calls.
Variables call0 call1 : positive -> list cvalue -> res cvalue.
Hypothesis Hcall : forall n f args, T n = Some f -> call0 n args = call1 n args.

Notation evK := (ev K call0).
Notation evalT := (eval true T (constants_of values) call1).

Lemma args_link : forall vars n f ts, T n = Some f -> Forall2 denotes (map p_type (f_params f)) ts ->
  forall args args' i,
  Forall (fun e => forall e', annot K e e' -> noted values T e' -> direct e' -> forall vars, evK vars e = evalT vars e') args ->
  all_annot K args args' -> Forall (noted values T) args' -> all_direct args' ->
  length args' = length (skipn i ts) ->
  ev_args K call0 vars (skipn i ts) args
  = eval_args true T (constants_of values) call1 vars (Some (LNode DFunction n)) i args'.
Proof.
  intros vars n f ts Hf Hts. induction args as [|a args IH]; intros args' i HF Ha Hn Hd L.
  - destruct args' as [|a' args']; [|destruct Ha]. destruct (skipn i ts); [reflexivity|discriminate].
  - destruct args' as [|a' args']; [destruct Ha|]. destruct Ha as [Ha Hr]. destruct Hd as [D1 D2].
    inversion HF as [|? ? H1 H2]; subst. inversion Hn as [|? ? N1 N2]; subst.
    assert (exists t, nth_error ts i = Some t /\ skipn i ts = t :: skipn (S i) ts) as (t & Et & Es).
    { destruct (skipn i ts) as [|t rest] eqn:E; [discriminate|]. exists t.
      assert (nth_error ts i = Some t) as En.
      { rewrite <- (firstn_skipn i ts). rewrite E.
        assert (Li : length (firstn i ts) = i).
        { apply firstn_length_le. destruct (Nat.le_gt_cases i (length ts)) as [|G]; [assumption|].
          rewrite skipn_all2 in E by lia. discriminate. }
        rewrite nth_error_app2 by lia. rewrite Li, Nat.sub_diag. reflexivity. }
      split; [exact En|]. rewrite skipn_tl, E. reflexivity. }
    rewrite Es. cbn [ev_args eval_args]. rewrite (H1 a' Ha N1 D1).
    assert (exists p, nth_error (f_params f) i = Some p /\ denotes (p_type p) t) as (p & Ep & Dp).
    { clear -Hts Et. revert i ts Hts Et. induction (f_params f) as [|q l IHl]; intros i ts H E.
      - inversion H; subst. destruct i; discriminate.
      - inversion H; subst. destruct i as [|i]; cbn [nth_error] in *; [injection E as <-; eauto|eauto]. }
    rewrite (parameter_type_denotes _ _ _ _ _ _ Hf Ep Dp).
    apply rbind_ext; [reflexivity|]. intros v _. cbn [pass rbind ret]. apply rbind_ext; [reflexivity|].
    intros w _. rewrite (IH args' (S i)); auto.
    rewrite Es in L. cbn [length] in L. congruence.
Qed.

Lemma eval_link : forall e e', annot K e e' -> noted values T e' -> direct e' ->
  forall vars, evK vars e = evalT vars e'.
Proof.
  induction e as [cv e t IH|cv l c r IHl IHc IHr|cv op l r IHl IHr|cv op e IH|cv name lk st args IH
                 |cv name lk g|cv lit t] using expr_induction; intros e' Ha Hn Hd vars;
    destruct e' as [cv' e' t'|cv' l' c' r'|cv' op' l' r'|cv' op' e'|cv' name' lk' st' args'|cv' name' lk' g'|cv' lit' t'];
    try contradiction.
  - destruct Ha as (Ha & c & Dc & Hc). destruct Hn as (Hn & _). cbn [direct] in Hd. rewrite ev_conversion_unfold. cbn [eval recorded].
    rewrite (IH e' Ha Hn Hd), Hc. destruct Dc as (_ & Dc & _). rewrite Dc. reflexivity.
  - destruct Ha as (Al & Ac & Ar & tl & tr & v & Tl & Tr & -> & Co). destruct Hn as (Nl & Nc & Nr & _).
    destruct Hd as (Dl & Dc & Dr & _). rewrite ev_if_unfold. cbn [eval recorded].
    rewrite (IHc c' Ac Nc Dc). apply rbind_ext; [reflexivity|]. intros w _. apply rbind_ext; [reflexivity|]. intros b _.
    apply rbind_ext; [destruct b; auto|]. intros u _. rewrite Tl, Tr. cbn [rbind ret]. rewrite Co. reflexivity.
  - destruct Ha as (-> & Al & Ar). destruct Hn as (Nl & Nr & _). destruct Hd as (Dl & Dr). cbn [ev eval recorded].
    rewrite (IHl l' Al Nl Dl). apply rbind_ext; [reflexivity|]. intros w _. rewrite (IHr r' Ar Nr Dr). reflexivity.
  - destruct Ha as (-> & Ha). destruct Hn as (Hn & _). cbn [direct] in Hd. cbn [ev eval recorded].
    rewrite (IH e' Ha Hn Hd). reflexivity.
  - destruct Ha as (-> & Ha). destruct Hn as (Hn & Hlk). apply (all_noted_Forall values T) in Hn.
    rewrite ev_call_unfold, eval_call_unfold. cbn [recorded].
    destruct lk as [[[] n|p|[]]|]; try contradiction.
    + destruct Hlk as (f & t & Hf & Hfit & Dr & _). destruct (Hsig n f Hf) as (ts & t' & Hs & Hts & _).
      cbn [parameter_types]. rewrite Hs. cbn [rbind ret fst].
      rewrite <- (args_link vars n f ts Hf Hts args args' O IH Ha Hn Hd).
      * cbn [skipn]. apply rbind_ext; [reflexivity|]. intros vs _. cbn [invoked invoke]. eapply Hcall. exact Hf.
      * cbn [skipn]. apply pairs_length in Hfit, Hts. rewrite map_length in Hfit, Hts. congruence.
    + destruct Hlk as (a & v & r & -> & _ & _ & _).
      destruct args as [|a0 [|a1 args]]; try (destruct Ha; contradiction); try contradiction.
      destruct Ha as [Ha _]. inversion IH as [|? ? H1 _]; subst. inversion Hn as [|? ? N1 _]; subst. destruct Hd as [D1 _].
      cbn [parameter_types rbind ret ev_args eval_args parameter_type]. rewrite (H1 a Ha N1 D1).
      destruct (evalT vars a) as [[w| | |]|]; cbn [rbind]; try reflexivity. cbn [pass rbind ret]. unfold convert.
      destruct (operate (convert_to w TBool lossless_numeric)) as [[x| | |]|]; reflexivity.
  - destruct Ha as (-> & Ha). cbn [noted] in Hn. cbn [ev eval recorded]. destruct lk as [[[] n|p|[]]|]; try contradiction; try reflexivity.
    destruct Hn as (v & _ & Hv & ->). destruct Hd as (w & Hw). injection Hw as ->.
    rewrite (Ha w eq_refl). unfold constants_of. rewrite Hv. destruct w; reflexivity.
  - destruct Ha as (-> & ->). reflexivity.
Qed.

Lemma exec_link : forall rt fuel s s', annot_stmt K s s' -> noted_stmt values T rt s' -> direct_stmt s' ->
  forall vars, ex K call0 rt fuel vars s = exec true T (constants_of values) call1 rt fuel vars s'.
Proof.
  intros rt fuel.
  induction s as [cv name self t e|cv name self t e|cv e|cv co b IHb|cv co b e IHb IHe|cv co b IHb
                 |cv t e|cv name lk e|cv l IH|e] using stmt_induction; intros s' Ha Hn Hd vars;
    destruct s' as [cv' name' self' t' e'|cv' name' self' t' e'|cv' e'|cv' co' b' e'|cv' co' b'
                 |cv' t' e'|cv' name' lk' e'|cv' l'|e']; try contradiction; try reflexivity.
  - destruct Ha as (-> & Ha). destruct Hn as (ty & _ & _ & _ & _ & Hn). cbn [ex exec direct_stmt] in *.
    destruct e as [e|], e' as [e'|]; try contradiction; [|reflexivity]. destruct Ha as (Ha & v & -> & Hs).
    rewrite (eval_link e e' Ha (proj1 Hn) (proj1 Hd)). apply rbind_ext; [reflexivity|]. intros w _. rewrite Hs. cbn [rbind ret adapt recorded_type].
    reflexivity.
  - destruct Ha as (Ac & Ab & Ae). destruct e' as [e'|]; [contradiction|]. destruct Hn as (Nc & _ & Nb & _). destruct Hd as (Dc & Db & _).
    cbn [ex exec]. rewrite (eval_link co co' Ac Nc Dc). apply rbind_ext; [reflexivity|]. intros v _. apply rbind_ext; [reflexivity|].
    intros [] _; [auto|reflexivity].
  - destruct Ha as (Ac & Ab & Ae). destruct e' as [e'|]; [|contradiction]. destruct Hn as (Nc & _ & Nb & Ne). destruct Hd as (Dc & Db & De).
    cbn [ex exec]. rewrite (eval_link co co' Ac Nc Dc). apply rbind_ext; [reflexivity|]. intros v _. apply rbind_ext; [reflexivity|].
    intros [] _; auto.
  - destruct Ha as (Ac & Ab). destruct Hn as (Nc & _ & Nb). destruct Hd as (Dc & Db). cbn [ex exec]. apply loop_ext; [|auto].
    intros v. rewrite (eval_link co co' Ac Nc Dc). reflexivity.
  - destruct Ha as (-> & Ha). destruct t; try reflexivity. cbn [ex exec recorded]. destruct e as [e|], e' as [e'|]; try contradiction; [|reflexivity].
    destruct Hn as [Hn _]. cbn [direct_stmt] in Hd. rewrite (eval_link e e' Ha Hn Hd). apply rbind_ext; [|reflexivity].
    apply rbind_ext; reflexivity.
  - destruct Ha as (-> & Ha & Hlk). destruct lk as [[[] n|p|[]]|]; try contradiction. destruct Hlk as (v & -> & Hs).
    destruct Hn as [Hn _]. destruct Hd as [Hd _]. cbn [ex exec]. rewrite (eval_link e e' Ha Hn Hd).
    apply rbind_ext; [reflexivity|]. intros w _. rewrite Hs. reflexivity.
  - cbn [annot_stmt noted_stmt direct_stmt] in Ha, Hn, Hd. rewrite ex_block_unfold, exec_block_unfold.
    revert l' Ha Hn Hd vars. induction l as [|s l IHl]; intros l' Ha Hn Hd vars; destruct l' as [|s' l']; try contradiction; [reflexivity|].
    destruct Ha as [A1 A2]. destruct Hn as [N1 N2]. destruct Hd as [D1 D2]. inversion IH as [|? ? H1 H2]; subst.
    cbn [ex_children exec_children]. rewrite (H1 s' A1 N1 D1). apply rbind_ext; [reflexivity|]. intros [[] w] _; try reflexivity.
    apply IHl; assumption.
  - cbn [ex exec]. rewrite (eval_link e e' Ha Hn Hd). reflexivity.
Qed.
End Calls.

(** The functions before and after analysis. *)
Variable table : positive -> option func.
Hypothesis Hfun : forall n f, T n = Some f -> exists f0, table n = Some f0
  /\ map p_self (f_params f) = map p_self (f_params f0) /\ annot_stmt K (f_body f0) (f_body f)
  /\ noted_function values T f /\ direct_stmt (f_body f).

Lemma bind_link : forall ps ps' args, map p_self ps = map p_self ps' -> bind_parameters ps args = bind_parameters ps' args.
Proof.
  induction ps as [|p ps IH]; intros [|p' ps'] args E; try discriminate; [reflexivity|]. cbn [map] in E. injection E as E1 E2.
  destruct args as [|a args]; [reflexivity|]. cbn [bind_parameters]. rewrite (IH _ args E2), E1. reflexivity.
Qed.

Lemma denotes_void : forall n t, denotes n t ->
  (match t with TVoid => node_type n = tt_Void | _ => node_type n <> tt_Void end).
Proof.
  intros [cv k w cw] t (_ & H & _). unfold type_of_node, concrete_type_value, concrete_type in H. cbn [node_type] in *.
  destruct k; destruct cw as [z|]; cbn [bind value_of] in H; try discriminate; try (injection H as <-; try reflexivity; discriminate).
  destruct t; try discriminate.
  unfold concrete_type_Uint, concrete_type_ctor, assert_then in H.
  destruct (_ <=? _); cbn [bind] in H; [|discriminate]. destruct (1 <? _); cbn [bind] in H; [|discriminate].
  destruct (_ && _)%bool; cbn [bind value_of] in H; discriminate.
Qed.

Lemma call_link : forall fuel n f args, T n = Some f ->
  run_call table K fuel n args = call true T (constants_of values) fuel n args.
Proof.
  induction fuel as [|fuel IH]; intros n f args Hf; [reflexivity|]. cbn [run_call call].
  destruct (Hfun n f Hf) as (f0 & Hf0 & Hp & Hb & ((t & Dt & Nb) & _) & Hd). destruct (Hsig n f Hf) as (ts & t' & Hs & _ & Dt').
  pose proof (denotes_unique _ _ _ Dt Dt') as <-. rewrite Hf0, Hf, <- (bind_link _ _ args Hp), Hs.
  destruct (bind_parameters _ _) as [vars|]; [|reflexivity]. pose proof Dt as (_ & Et & _). rewrite Et. cbn [rbind ret snd].
  rewrite (exec_link _ _ IH t fuel _ _ Hb Nb Hd vars). apply rbind_ext; [reflexivity|]. intros [[] w] _; try reflexivity.
  pose proof (denotes_void _ _ Dt) as V. destruct t; [rewrite V; reflexivity|..]; destruct (node_type (f_return f)); congruence.
Qed.
End Link.
