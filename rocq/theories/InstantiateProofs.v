(** Proofs about instances of bit-generic functions. *)
From Coq Require Import ZArith List Bool Lia.
From Verif Require Import Prelude Types Ops Text Tables AbsOps Ast AstFacts NameLookupSpec Programs Instantiate
  InstantiateSpec.
Import ListNotations.
Open Scope Z_scope.

Section Proofs.
Context {E : Type}.
Local Notation outcome := (outcome E).

(** * The copy *)

Lemma copied : (forall e, copy_expr (E := E) e = if complete e then Ok e else UB) /\
  (forall t, copy_type (E := E) t = if complete_type t then Ok t else UB).
Proof.
  apply both_induction.
  - intros cv e t He Ht.
    change (copy_expr (E := E) (EConversion cv e t)) with
      (let* e1' := copy_expr (E := E) e in let* t' := copy_type t in Ok (EConversion cv e1' t')).
    change (complete (EConversion cv e t)) with (complete e && complete_type t).
    rewrite He, Ht. destruct (complete e), (complete_type t); reflexivity.
  - intros cv l c r Hl Hc Hr. cbn [copy_expr complete]. rewrite Hl, Hc, Hr.
    destruct (complete l), (complete c), (complete r); reflexivity.
  - intros cv op l r Hl Hr. cbn [copy_expr complete]. rewrite Hl, Hr. destruct (complete l), (complete r); reflexivity.
  - intros cv op e He. cbn [copy_expr complete]. rewrite He. destruct (complete e); reflexivity.
  - intros cv name lk st args H. cbn [copy_expr complete].
    match goal with |- bind ?m _ = _ => assert (m = if forallb complete args then Ok args else UB) as ->;
      [|destruct (forallb complete args); reflexivity] end.
    induction H as [|a r A _ IH]; [reflexivity|]. cbn [forallb]. rewrite A. destruct (complete a); [|reflexivity].
    cbn [bind andb]. rewrite IH. destruct (forallb complete r); reflexivity.
  - reflexivity.
  - reflexivity.
  - reflexivity.
  - intros cv k e cw He.
    change (copy_type (E := E) (Type_Node cv k (Some e) cw)) with
      (let* e' := copy_expr (E := E) e in Ok (Type_Node cv k (Some e') cw)).
    change (complete_type (Type_Node cv k (Some e) cw)) with (complete e).
    rewrite He. destruct (complete e); reflexivity.
Qed.

Lemma copy_expr_is : forall e, copy_expr (E := E) e = if complete e then Ok e else UB.
Proof. apply copied. Qed.
Lemma copy_type_is : forall t, copy_type (E := E) t = if complete_type t then Ok t else UB.
Proof. apply copied. Qed.

(** The same statement with other declarations, which its parts do not lead to yet. *)
Fixpoint selfed (new : positive -> positive) (s : stmt) : stmt :=
  match s with
  | SConst cv x n t e => SConst cv x (new n) t e
  | SLet cv x n t e => SLet cv x (new n) t e
  | SIf cv c b e => SIf cv c (selfed new b) (match e with Some s1 => Some (selfed new s1) | None => None end)
  | SWhile cv c b => SWhile cv c (selfed new b)
  | SBlock cv l => SBlock cv (map (selfed new) l)
  | _ => s
  end.

Fixpoint insert_all (l : list positive) (s : copy_state) : copy_state :=
  match l with [] => s | n :: r => insert_all r (snd (insert n s)) end.
Fixpoint given (l : list positive) (s : copy_state) : list positive :=
  match l with [] => [] | n :: r => i_next s :: given r (snd (insert n s)) end.

Lemma insert_all_app : forall a b s, insert_all (a ++ b) s = insert_all b (insert_all a s).
Proof. induction a; intros; [reflexivity|]. cbn [app insert_all]. apply IHa. Qed.
Lemma given_app : forall a b s, given (a ++ b) s = given a s ++ given b (insert_all a s).
Proof. induction a; intros; [reflexivity|]. cbn [app insert_all given]. f_equal. apply IHa. Qed.
Lemma given_length : forall a s, length (given a s) = length a.
Proof. induction a; intros; [reflexivity|]. cbn [given length]. f_equal. apply IHa. Qed.

Lemma map_given_app : forall new a b s, map new (a ++ b) = given (a ++ b) s ->
  map new a = given a s /\ map new b = given b (insert_all a s).
Proof.
  intros new a b s H. rewrite map_app, given_app in H.
  assert (length (map new a) = length (given a s)) as L by (rewrite map_length, given_length; reflexivity).
  revert H L. generalize (map new a), (given a s), (map new b), (given b (insert_all a s)).
  intros p q r t. revert q. induction p as [|x p IH]; intros [|y q] H L; try discriminate L; [split; [reflexivity|exact H]|].
  cbn [app] in H. injection H as -> H. injection L as L. destruct (IH q H L) as [-> ->]. split; reflexivity.
Qed.

Lemma copy_stmt_is : forall x new s, map new (declares x) = given (declares x) s ->
  copy_stmt (E := E) x s = if complete_stmt x then Ok (selfed new x, insert_all (declares x) s) else UB.
Proof.
  induction x as [cv x n t e|cv x n t e|cv e|cv c b IHb|cv c b e IHb IHe|cv c b IHb|cv k e|cv x lk e|cv l IHl|e]
    using stmt_induction; intros new s H; cbn [copy_stmt complete_stmt declares selfed insert_all]; cbn [declares] in H.
  - cbn [map given insert fst] in H. injection H as H. cbn [insert snd].
    destruct t as [t|]; cbn [copy_child bind]; [|reflexivity].
    rewrite copy_type_is. destruct (complete_type t); [|reflexivity]. cbn [bind]. rewrite copy_expr_is.
    destruct (complete e); [|reflexivity]. cbn [bind andb]. rewrite H. reflexivity.
  - cbn [map given insert fst] in H. injection H as H. cbn [insert snd].
    destruct t as [t|]; cbn [copy_child bind]; [|reflexivity].
    rewrite copy_type_is. destruct (complete_type t); [|destruct e; reflexivity]. cbn [bind].
    destruct e as [e|]; cbn [copy_child]; [|reflexivity]. rewrite copy_expr_is.
    destruct (complete e); [|reflexivity]. cbn [bind andb]. rewrite H. reflexivity.
  - rewrite copy_expr_is. destruct (complete e); reflexivity.
  - rewrite copy_expr_is. destruct (complete c); [|reflexivity]. cbn [bind]. rewrite app_nil_r in H.
    rewrite (IHb new s H). destruct (complete_stmt b); reflexivity.
  - destruct (map_given_app _ _ _ _ H) as [Hb He].
    rewrite copy_expr_is. destruct (complete c); [|reflexivity]. cbn [bind andb].
    rewrite (IHb new s Hb). destruct (complete_stmt b); [|reflexivity]. cbn [bind andb].
    rewrite (IHe new _ He). destruct (complete_stmt e); [|reflexivity]. cbn [bind]. rewrite insert_all_app. reflexivity.
  - rewrite copy_expr_is. destruct (complete c); [|reflexivity]. cbn [bind andb]. rewrite (IHb new s H).
    destruct (complete_stmt b); reflexivity.
  - destruct e as [e|]; cbn [copy_child bind]; [|reflexivity]. rewrite copy_expr_is. destruct (complete e); reflexivity.
  - rewrite copy_expr_is. destruct (complete e); reflexivity.
  - match goal with |- bind ?m _ = _ => assert (m = if forallb complete_stmt l then Ok (map (selfed new) l, insert_all (flat_map declares l) s) else UB) as ->;
      [|destruct (forallb complete_stmt l); reflexivity] end.
    revert s H. induction IHl as [|a r A _ IH]; intros s H; [reflexivity|]. cbn [flat_map] in H.
    destruct (map_given_app _ _ _ _ H) as [Ha Hr].
    cbn [forallb]. rewrite (A new s Ha). destruct (complete_stmt a); [|reflexivity].
    cbn [bind andb]. rewrite (IH _ Hr). destruct (forallb complete_stmt r); [|reflexivity]. cbn [bind flat_map map].
    rewrite insert_all_app. reflexivity.
  - rewrite copy_expr_is. destruct (complete e); reflexivity.
Qed.

Definition selfed_param (new : positive -> positive) (p : parameter) : parameter :=
  Param (p_name p) (new (p_self p)) (p_type p).

(** * The map afterwards *)

Lemma find_insert : forall n s x, find_copy (i_map (snd (insert n s))) x =
  if Pos.eqb n x then match find_copy (i_map s) n with Some q => Some q | None => Some (i_next s) end
  else find_copy (i_map s) x.
Proof.
  intros n s x. cbn [insert snd i_map]. destruct (find_copy (i_map s) n) eqn:F.
  - destruct (Pos.eqb_spec n x) as [<-|_]; [exact F|reflexivity].
  - cbn [find_copy]. reflexivity.
Qed.

Lemma find_insert_all : forall l s x, ~ In x l -> find_copy (i_map (insert_all l s)) x = find_copy (i_map s) x.
Proof.
  induction l as [|n l IH]; intros s x H; [reflexivity|]. cbn [insert_all].
  rewrite IH by (intros X; apply H; right; exact X). rewrite find_insert.
  destruct (Pos.eqb_spec n x) as [->|_]; [|reflexivity]. destruct H. left. reflexivity.
Qed.

Lemma find_given : forall l s, NoDup l -> (forall n, In n l -> find_copy (i_map s) n = None) ->
  map (find_copy (i_map (insert_all l s))) l = map Some (given l s).
Proof.
  induction l as [|n l IH]; intros s D F; [reflexivity|]. inversion D as [|? ? N D']; subst.
  cbn [insert_all given map]. f_equal.
  - rewrite find_insert_all by exact N. rewrite find_insert, Pos.eqb_refl, (F n) by (left; reflexivity). reflexivity.
  - apply IH; [exact D'|]. intros x I. rewrite find_insert. destruct (Pos.eqb_spec n x) as [<-|_]; [contradiction|].
    apply F. right. exact I.
Qed.

Lemma copy_of_given : forall l s, NoDup l -> (forall n, In n l -> find_copy (i_map s) n = None) ->
  map (copy_of (i_map (insert_all l s))) l = given l s.
Proof.
  intros l s D F. pose proof (find_given l s D F) as H. revert H. generalize (given l s), (i_map (insert_all l s)).
  clear. intros g m. revert g. induction l as [|n l IH]; intros [|q g] H; try discriminate H; [reflexivity|].
  cbn [map] in H |- *. injection H as H1 H2. unfold copy_of at 1. rewrite H1. f_equal. apply IH. exact H2.
Qed.

Lemma insert_all_next : forall l s, (i_next s <= i_next (insert_all l s))%positive.
Proof.
  induction l as [|n l IH]; intros s; cbn [insert_all]; [lia|]. specialize (IH (snd (insert n s))). cbn [insert snd i_next] in IH. cbn [insert snd] in *. lia.
Qed.

Lemma given_range : forall l s x, In x (given l s) -> (i_next s <= x < i_next (insert_all l s))%positive.
Proof.
  induction l as [|n l IH]; intros s x H; [destruct H|]. cbn [given insert_all] in *. destruct H as [<-|H].
  - pose proof (insert_all_next l (snd (insert n s))) as X. cbn [insert snd i_next] in *. lia.
  - apply IH in H. cbn [insert snd i_next] in *. lia.
Qed.

Lemma given_nodup : forall l s, NoDup (given l s).
Proof.
  induction l as [|n l IH]; intros s; cbn [given]; constructor; [|apply IH].
  intros H. apply given_range in H. cbn [insert snd i_next] in H. lia.
Qed.

(** * Names *)

Lemma remap_is : forall m lk l, remap_lookup (E := E) m lk = Ok l -> l = option_map (relabel_lookup (copy_of m)) lk.
Proof.
  intros m [[k n|n|b]|] l H; cbn [remap_lookup] in H.
  - unfold copy_of. cbn. unfold copy_of. destruct (find_copy m n); [|discriminate H]. injection H as <-. reflexivity.
  - cbn. unfold copy_of. destruct (find_copy m n); [|discriminate H]. injection H as <-. reflexivity.
  - injection H as <-. reflexivity.
  - injection H as <-. reflexivity.
Qed.

Lemma remap_works : forall m x lk, leads_into (map fst m) (x, lk) ->
  remap_lookup (E := E) m lk = Ok (option_map (relabel_lookup (copy_of m)) lk).
Proof.
  intros m x lk H.
  assert (forall n, In n (map fst m) -> find_copy m n = Some (copy_of m n)) as F.
  { intros n I. unfold copy_of. destruct (find_copy m n) eqn:Q; [reflexivity|]. exfalso. revert I Q. clear.
    induction m as [|[k v] m IH]; [intros []|]. cbn. intros [->|I]; [rewrite Pos.eqb_refl; discriminate|].
    destruct (Pos.eqb k n); [discriminate|auto]. }
  destruct lk as [[k n|n|b]|]; cbn [remap_lookup leads_into snd] in *; try reflexivity; rewrite (F n H); reflexivity.
Qed.


Lemma expr_updated : forall m,
  (forall e e', update_expr (E := E) m e = Ok e' -> e' = relabel (copy_of m) e) /\
  (forall t t', update_type (E := E) m t = Ok t' -> t' = relabel_type (copy_of m) t).
Proof.
  intros m. apply both_induction.
  - intros cv e t He Ht x H.
    change (update_expr (E := E) m (EConversion cv e t)) with
      (let* e1' := update_expr (E := E) m e in let* t' := update_type m t in Ok (EConversion cv e1' t')) in H.
    destruct (update_expr m e) eqn:Q1; try discriminate H. cbn [bind] in H.
    destruct (update_type m t) eqn:Q2; try discriminate H. injection H as <-.
    change (relabel (copy_of m) (EConversion cv e t)) with
      (EConversion cv (relabel (copy_of m) e) (relabel_type (copy_of m) t)).
    rewrite (He _ eq_refl), (Ht _ eq_refl). reflexivity.
  - intros cv l c r Hl Hc Hr x H. cbn [update_expr] in H.
    destruct (update_expr m l); try discriminate H. cbn [bind] in H.
    destruct (update_expr m c); try discriminate H. cbn [bind] in H.
    destruct (update_expr m r); try discriminate H. injection H as <-. cbn [relabel].
    rewrite (Hl _ eq_refl), (Hc _ eq_refl), (Hr _ eq_refl). reflexivity.
  - intros cv op l r Hl Hr x H. cbn [update_expr] in H.
    destruct (update_expr m l); try discriminate H. cbn [bind] in H.
    destruct (update_expr m r); try discriminate H. injection H as <-. cbn [relabel].
    rewrite (Hl _ eq_refl), (Hr _ eq_refl). reflexivity.
  - intros cv op e He x H. cbn [update_expr] in H.
    destruct (update_expr m e); try discriminate H. injection H as <-. cbn [relabel].
    rewrite (He _ eq_refl). reflexivity.
  - intros cv name lk st args IH x H. cbn [update_expr] in H.
    destruct (remap_lookup m lk) eqn:R; try discriminate H. apply remap_is in R. subst. cbn [bind] in H.
    match type of H with bind ?m _ = _ => destruct m as [l| | |] eqn:Q; try discriminate H end.
    injection H as <-. cbn [relabel]. f_equal. revert l Q.
    induction IH as [|a r A _ IH]; intros l Q; [injection Q as <-; reflexivity|].
    destruct (update_expr m a); try discriminate Q. cbn [bind] in Q.
    match type of Q with bind ?m _ = _ => destruct m as [l1| | |] eqn:Q1; try discriminate Q end.
    injection Q as <-. cbn [map]. rewrite (A _ eq_refl), (IH _ eq_refl). reflexivity.
  - intros cv name lk g x H. cbn [update_expr] in H.
    destruct (remap_lookup m lk) eqn:R; try discriminate H. apply remap_is in R. subst. injection H as <-. reflexivity.
  - intros cv lit t x H. injection H as <-. reflexivity.
  - intros cv k cw x H. injection H as <-. reflexivity.
  - intros cv k e cw He x H.
    change (update_type (E := E) m (Type_Node cv k (Some e) cw)) with
      (let* e' := update_expr (E := E) m e in Ok (Type_Node cv k (Some e') cw)) in H.
    destruct (update_expr m e); try discriminate H. injection H as <-.
    change (relabel_type (copy_of m) (Type_Node cv k (Some e) cw)) with (Type_Node cv k (Some (relabel (copy_of m) e)) cw).
    rewrite (He _ eq_refl). reflexivity.
Qed.

Lemma expr_updates : forall m,
  (forall e, Forall (leads_into (map fst m)) (uses e) -> update_expr (E := E) m e = Ok (relabel (copy_of m) e)) /\
  (forall t, Forall (leads_into (map fst m)) (uses_type t) -> update_type (E := E) m t = Ok (relabel_type (copy_of m) t)).
Proof.
  intros m. apply both_induction.
  - intros cv e t He Ht H.
    change (uses (EConversion cv e t)) with (uses e ++ uses_type t) in H. apply Forall_app in H as [H1 H2].
    change (update_expr (E := E) m (EConversion cv e t)) with
      (let* e1' := update_expr (E := E) m e in let* t' := update_type m t in Ok (EConversion cv e1' t')).
    rewrite (He H1), (Ht H2). reflexivity.
  - intros cv l c r Hl Hc Hr H. cbn [uses] in H. apply Forall_app in H as [H1 H]. apply Forall_app in H as [H2 H3].
    cbn [update_expr]. rewrite (Hl H1), (Hc H2), (Hr H3). reflexivity.
  - intros cv op l r Hl Hr H. cbn [uses] in H. apply Forall_app in H as [H1 H2].
    cbn [update_expr]. rewrite (Hl H1), (Hr H2). reflexivity.
  - intros cv op e He H. cbn [uses] in H. cbn [update_expr]. rewrite (He H). reflexivity.
  - intros cv name lk st args IH H. cbn [uses] in H. inversion H as [|? ? H1 H2]; subst. cbn [update_expr].
    rewrite (remap_works _ _ _ H1). cbn [bind relabel].
    match goal with |- bind ?x _ = _ => assert (x = Ok (map (relabel (copy_of m)) args)) as ->; [|reflexivity] end.
    clear H H1. induction IH as [|a r A _ IH]; [reflexivity|]. cbn [flat_map] in H2. apply Forall_app in H2 as [Ha Hr].
    rewrite (A Ha). cbn [bind]. rewrite (IH Hr). reflexivity.
  - intros cv name lk g H. cbn [uses] in H. inversion H as [|? ? H1 H2]; subst. cbn [update_expr].
    rewrite (remap_works _ _ _ H1). reflexivity.
  - reflexivity.
  - reflexivity.
  - intros cv k e cw He H. change (uses_type (Type_Node cv k (Some e) cw)) with (uses e) in H.
    change (update_type (E := E) m (Type_Node cv k (Some e) cw)) with
      (let* e' := update_expr (E := E) m e in Ok (Type_Node cv k (Some e') cw)).
    rewrite (He H). reflexivity.
Qed.

Section Update.
Variable m : list (positive * positive).
Local Notation new := (copy_of m).

Lemma child_updated : forall A (f : A -> outcome A) g x y, (forall a b, f a = Ok b -> b = g a) ->
  update_child f x = Ok y -> y = option_map g x.
Proof.
  intros A f g [a|] y F H; cbn [update_child] in H; [|injection H as <-; reflexivity].
  destruct (f a) eqn:Q; try discriminate H. injection H as <-. cbn. f_equal. apply F. exact Q.
Qed.

Ltac up H := match type of H with
  | bind ?x _ = _ => let Q := fresh "Q" in destruct x eqn:Q; try discriminate H; cbn [bind] in H
  end.

Lemma stmt_updated : forall x y, update_stmt (E := E) m (selfed new x) = Ok y -> y = relabel_stmt new x.
Proof.
  destruct (expr_updated m) as [UE UT].
  induction x as [cv x n t e|cv x n t e|cv e|cv c b IHb|cv c b e IHb IHe|cv c b IHb|cv k e|cv x lk e|cv l IHl|e]
    using stmt_induction; intros y H; cbn [selfed update_stmt] in H; cbn [relabel_stmt].
  - up H. up H. injection H as <-. rewrite (child_updated _ _ _ _ _ UT Q), (UE _ _ Q0). reflexivity.
  - up H. up H. injection H as <-. rewrite (child_updated _ _ _ _ _ UT Q), (child_updated _ _ _ _ _ UE Q0). reflexivity.
  - up H. injection H as <-. rewrite (UE _ _ Q). reflexivity.
  - up H. up H. injection H as <-. rewrite (UE _ _ Q), (IHb _ eq_refl). reflexivity.
  - up H. up H. up H. injection H as <-. rewrite (UE _ _ Q), (IHb _ eq_refl), (IHe _ eq_refl). reflexivity.
  - up H. up H. injection H as <-. rewrite (UE _ _ Q), (IHb _ eq_refl). reflexivity.
  - up H. injection H as <-. rewrite (child_updated _ _ _ _ _ UE Q). reflexivity.
  - up H. up H. injection H as <-. apply remap_is in Q. rewrite Q, (UE _ _ Q0). reflexivity.
  - up H. injection H as <-. f_equal. revert t Q. induction IHl as [|a r A _ IH]; intros t Q; [injection Q as <-; reflexivity|].
    cbn [map] in Q |- *. up Q. up Q. injection Q as <-. rewrite (A _ eq_refl), (IH _ eq_refl). reflexivity.
  - up H. injection H as <-. rewrite (UE _ _ Q). reflexivity.
Qed.

Lemma stmt_updates : forall x, Forall (leads_into (map fst m)) (uses_stmt x) ->
  update_stmt (E := E) m (selfed new x) = Ok (relabel_stmt new x).
Proof.
  destruct (expr_updates m) as [UE UT].
  induction x as [cv x n t e|cv x n t e|cv e|cv c b IHb|cv c b e IHb IHe|cv c b IHb|cv k e|cv x lk e|cv l IHl|e]
    using stmt_induction; intros H; cbn [selfed update_stmt relabel_stmt]; cbn [uses_stmt] in H.
  - apply Forall_app in H as [H1 H2]. rewrite (UE _ H2). destruct t as [t|]; [|reflexivity].
    cbn [update_child]. rewrite (UT _ H1). reflexivity.
  - apply Forall_app in H as [H1 H2].
    assert (update_child (update_type (E := E) m) t = Ok (option_map (relabel_type new) t)) as ->.
    { destruct t as [t|]; [|reflexivity]. cbn [update_child]. rewrite (UT _ H1). reflexivity. }
    destruct e as [e|]; [|reflexivity]. cbn [update_child bind]. rewrite (UE _ H2). reflexivity.
  - rewrite (UE _ H). reflexivity.
  - rewrite app_nil_r in H. apply Forall_app in H as [H1 H2]. rewrite (UE _ H1), (IHb H2). reflexivity.
  - apply Forall_app in H as [H1 H]. apply Forall_app in H as [H2 H3].
    rewrite (UE _ H1), (IHb H2). cbn [bind]. rewrite (IHe H3). reflexivity.
  - apply Forall_app in H as [H1 H2]. rewrite (UE _ H1), (IHb H2). reflexivity.
  - destruct e as [e|]; [|reflexivity]. cbn [update_child]. rewrite (UE _ H). reflexivity.
  - inversion H as [|? ? H1 H2]; subst. rewrite (remap_works _ _ _ H1), (UE _ H2). reflexivity.
  - match goal with |- bind ?x _ = _ => assert (x = Ok (map (relabel_stmt new) l)) as ->; [|reflexivity] end.
    induction IHl as [|a r A _ IH]; [reflexivity|]. cbn [flat_map] in H. apply Forall_app in H as [Ha Hr].
    cbn [map]. rewrite (A Ha). cbn [bind]. rewrite (IH Hr). reflexivity.
  - rewrite (UE _ H). reflexivity.
Qed.

Lemma params_updated : forall l l', update_params (E := E) m (map (selfed_param new) l) = Ok l' -> l' = map (relabel_param new) l.
Proof.
  destruct (expr_updated m) as [_ UT]. induction l as [|p l IH]; intros l' H; [injection H as <-; reflexivity|].
  cbn [map update_params selfed_param p_type p_name p_self] in H. up H. up H. injection H as <-. cbn [map].
  rewrite (IH _ eq_refl), (UT _ _ Q). reflexivity.
Qed.

Lemma params_update : forall l, Forall (leads_into (map fst m)) (flat_map (fun p => uses_type (p_type p)) l) ->
  update_params (E := E) m (map (selfed_param new) l) = Ok (map (relabel_param new) l).
Proof.
  destruct (expr_updates m) as [_ UT]. induction l as [|p l IH]; intros H; [reflexivity|].
  cbn [flat_map] in H. apply Forall_app in H as [H1 H2].
  cbn [map update_params selfed_param p_type p_name p_self]. rewrite (UT _ H1), (IH H2). reflexivity.
Qed.
End Update.

(** * Functions *)

Lemma copy_params_is : forall l new s, NoDup (map p_self l) ->
  (forall p, In p l -> find_copy (i_map s) (p_self p) = None) ->
  map new (map p_self l) = given (map p_self l) s ->
  copy_params (E := E) l s =
    if forallb (fun p => complete_type (p_type p)) l then Ok (map (selfed_param new) l, insert_all (map p_self l) s) else UB.
Proof.
  induction l as [|p l IH]; intros new s D F H; [reflexivity|]. cbn [map given] in H, D. injection H as H1 H2.
  inversion D as [|? ? N D']; subst. cbn [copy_params]. rewrite (F p) by (left; reflexivity). cbn [assert_then].
  rewrite (surjective_pairing (insert (p_self p) s)). rewrite copy_type_is. cbn [forallb].
  destruct (complete_type (p_type p)); [|reflexivity]. cbn [bind andb].
  rewrite (IH new (snd (insert (p_self p) s)) D').
  - destruct (forallb _ l); [|reflexivity]. cbn [bind map insert_all]. unfold selfed_param at 2. rewrite H1. reflexivity.
  - intros q I. rewrite find_insert. destruct (Pos.eqb_spec (p_self p) (p_self q)) as [Q|_].
    + destruct N. rewrite Q. apply in_map. exact I.
    + apply F. right. exact I.
  - exact H2.
Qed.

Definition selfed_function (new : positive -> positive) (f : func) : func :=
  Func (f_name f) (new (f_self f)) (f_cv f) (map (selfed_param new) (f_params f)) (f_return f) (f_requires f)
    (selfed new (f_body f)) false None unanalyzed.

Lemma copy_function_is : forall f new s, NoDup (own f) -> i_map s = [] -> map new (own f) = given (own f) s ->
  f_generic f = true ->
  copy_function (E := E) f s = if complete_function f then Ok (selfed_function new f, insert_all (own f) s) else UB.
Proof.
  intros f new s D M H G. unfold own, declared_in in *. cbn [map given] in H. injection H as H1 H2.
  destruct (map_given_app _ _ _ _ H2) as [H3 H4]. inversion D as [|? ? N D']; subst.
  assert (NoDup (map p_self (f_params f))) as D1.
  { revert D'. generalize (map p_self (f_params f)), (declares (f_body f)). clear. intros a b D.
    induction a as [|x a IH]; [constructor|]. inversion D as [|? ? N D']; subst. constructor; [|auto].
    intros I. apply N. apply in_or_app. left. exact I. }
  unfold copy_function. rewrite G. cbn [assert_then]. rewrite (surjective_pairing (insert (f_self f) s)).
  rewrite (copy_params_is (f_params f) new); [|exact D1| |exact H3].
  2:{ intros p I. rewrite find_insert, M. cbn [find_copy]. destruct (Pos.eqb_spec (f_self f) (p_self p)) as [Q|_]; [|reflexivity].
      destruct N. apply in_or_app. left. rewrite Q. apply in_map. exact I. }
  unfold complete_function. destruct (forallb _ (f_params f)); [|reflexivity]. cbn [bind andb].
  rewrite copy_type_is. destruct (complete_type (f_return f)); [|reflexivity]. cbn [bind andb].
  cbn [insert_all]. rewrite insert_all_app.
  assert ((match f_requires f with None => Ok None | Some e => let* e' := copy_expr e in Ok (Some e') end)
    = if match f_requires f with Some e => complete e | None => true end then Ok (E := E) (f_requires f) else UB) as ->.
  { destruct (f_requires f) as [e|]; [|reflexivity]. rewrite copy_expr_is. destruct (complete e); reflexivity. }
  destruct (match f_requires f with Some e => complete e | None => true end); [|reflexivity]. cbn [bind andb].
  rewrite (copy_stmt_is _ new (insert_all (map p_self (f_params f)) (snd (insert (f_self f) s))) H4). destruct (complete_stmt (f_body f)); [|reflexivity]. cbn [bind].
  unfold selfed_function. rewrite H1. reflexivity.
Qed.

Definition relabel_function (new : positive -> positive) (f : func) : func :=
  Func (f_name f) (new (f_self f)) (f_cv f) (map (relabel_param new) (f_params f)) (relabel_type new (f_return f))
    (option_map (relabel new) (f_requires f)) (relabel_stmt new (f_body f)) false None unanalyzed.

Lemma function_updated : forall m f g, update_function (E := E) m (selfed_function (copy_of m) f) = Ok g ->
  g = relabel_function (copy_of m) f.
Proof.
  intros m f g H. destruct (expr_updated m) as [UE UT]. unfold update_function, selfed_function in H.
  cbn [f_name f_self f_cv f_params f_return f_requires f_body f_generic f_address f_level] in H.
  destruct (update_params m _) eqn:Q1; try discriminate H. cbn [bind] in H.
  destruct (update_type m _) eqn:Q2; try discriminate H. cbn [bind] in H.
  destruct (update_child _ _) eqn:Q3; try discriminate H. cbn [bind] in H.
  destruct (update_stmt m _) eqn:Q4; try discriminate H. injection H as <-.
  unfold relabel_function. rewrite (params_updated _ _ _ Q1), (UT _ _ Q2), (child_updated _ _ _ _ _ UE Q3), (stmt_updated _ _ _ Q4).
  reflexivity.
Qed.

Lemma function_updates : forall m f, Forall (leads_into (map fst m)) (uses_function f) ->
  update_function (E := E) m (selfed_function (copy_of m) f) = Ok (relabel_function (copy_of m) f).
Proof.
  intros m f H. destruct (expr_updates m) as [UE UT]. unfold uses_function in H.
  apply Forall_app in H as [H1 H]. apply Forall_app in H as [H2 H]. apply Forall_app in H as [H3 H4].
  unfold update_function, selfed_function.
  cbn [f_name f_self f_cv f_params f_return f_requires f_body f_generic f_address f_level].
  rewrite (params_update _ _ H1), (UT _ H2), (stmt_updates _ _ H4). cbn [bind]. unfold relabel_function.
  destruct (f_requires f) as [e|]; [|reflexivity]. cbn [update_child]. rewrite (UE _ H3). reflexivity.
Qed.

Lemma declares_relabel : forall new x, declares (relabel_stmt new x) = map new (declares x).
Proof.
  intros new.
  induction x as [cv x n t e|cv x n t e|cv e|cv c b IHb|cv c b e IHb IHe|cv c b IHb|cv k e|cv x lk e|cv l IHl|e]
    using stmt_induction; cbn [relabel_stmt declares map]; try reflexivity.
  - rewrite !app_nil_r. exact IHb.
  - rewrite IHb, IHe, map_app. reflexivity.
  - exact IHb.
  - induction IHl as [|a r A _ IH]; [reflexivity|]. cbn [map flat_map]. rewrite A, IH, map_app. reflexivity.
Qed.

Lemma own_relabel : forall new f, own (relabel_function new f) = map new (own f).
Proof.
  intros new f. unfold own, declared_in, relabel_function. cbn [f_self f_params f_body map]. f_equal.
  rewrite declares_relabel, map_app, !map_map. reflexivity.
Qed.

Lemma insert_all_keys : forall l s, (forall n, In n l -> In n (map fst (i_map (insert_all l s)))) /\
  (forall n, In n (map fst (i_map s)) -> In n (map fst (i_map (insert_all l s)))).
Proof.
  induction l as [|x l IH]; intros s; [split; [intros n []|auto]|]. cbn [insert_all].
  destruct (IH (snd (insert x s))) as [I1 I2].
  assert (forall n, n = x \/ In n (map fst (i_map s)) -> In n (map fst (i_map (snd (insert x s))))) as K.
  { intros n [->|H]; cbn [insert snd i_map].
    - destruct (find_copy (i_map s) x) eqn:Q; [|left; reflexivity]. revert Q. clear.
      induction (i_map s) as [|[k v] m IH]; [discriminate|]. cbn. destruct (Pos.eqb_spec k x); [left; assumption|auto].
    - destruct (find_copy (i_map s) x); [exact H|right; exact H]. }
  split.
  - intros n [<-|I]; [|auto]. apply I2, K. left. reflexivity.
  - intros n I. apply I2, K. right. exact I.
Qed.

Theorem deep_copy_copies : forall f n g n', NoDup (own f) -> f_generic f = true ->
  deep_copy (E := E) f n = Ok (g, n') ->
  complete_function f = true /\
  exists new, g = relabel_function new f /\ NoDup (own g) /\ forall x, In x (own g) -> (n <= x < n')%positive.
Proof.
  intros f n g n' D G H. unfold deep_copy in H. set (s := Copy_State [] n) in *.
  pose proof (copy_of_given (own f) s D (fun _ _ => eq_refl)) as M.
  set (new := copy_of (i_map (insert_all (own f) s))) in *.
  rewrite (copy_function_is f new s D eq_refl M G) in H.
  destruct (complete_function f); [|discriminate H]. split; [reflexivity|]. cbn [bind] in H.
  destruct (update_function _ _) eqn:U; try discriminate H. injection H as <- <-.
  apply function_updated in U. subst. exists new. split; [reflexivity|].
  rewrite own_relabel. fold new. rewrite M. split; [apply given_nodup|]. intros x I. apply (given_range (own f) s x I).
Qed.

Theorem deep_copy_works : forall f n, NoDup (own f) -> f_generic f = true ->
  complete_function f = true -> self_contained f ->
  exists g n', deep_copy (E := E) f n = Ok (g, n').
Proof.
  intros f n D G C S. unfold deep_copy. set (s := Copy_State [] n) in *.
  pose proof (copy_of_given (own f) s D (fun _ _ => eq_refl)) as M.
  rewrite (copy_function_is f _ s D eq_refl M G), C. cbn [bind]. rewrite function_updates; [do 2 eexists; reflexivity|].
  eapply Forall_impl; [|exact S]. intros [x lk] L. destruct (insert_all_keys (own f) s) as [K _].
  destruct lk as [[k p|p|b]|]; cbn [leads_into snd] in *; auto.
Qed.

Theorem deep_copy_undefined : forall f n, NoDup (own f) -> f_generic f = true -> complete_function f = false ->
  deep_copy (E := E) f n = UB.
Proof.
  intros f n D G C. unfold deep_copy. set (s := Copy_State [] n) in *.
  pose proof (copy_of_given (own f) s D (fun _ _ => eq_refl)) as M.
  rewrite (copy_function_is f _ s D eq_refl M G), C. reflexivity.
Qed.

(** * Widths *)

Lemma generic_relabel : forall new p, is_generic (relabel_param new p) = is_generic p.
Proof.
  intros new [x n [cv k [e|] cw]]; [|reflexivity]. unfold is_generic, relabel_param. cbn [p_type p_name p_self].
  change (relabel_type new (Type_Node cv k (Some e) cw)) with (Type_Node cv k (Some (relabel new e)) cw).
  destruct e as [| | | | |? ? ? [g|]|]; reflexivity.
Qed.

Lemma count_relabel : forall new l, length (filter is_generic (map (relabel_param new) l)) = length (filter is_generic l).
Proof.
  intros new. induction l as [|p l IH]; [reflexivity|]. cbn [map filter]. rewrite generic_relabel.
  destruct (is_generic p); cbn [length]; rewrite IH; reflexivity.
Qed.

Lemma filled_length : forall l ws l', filled l ws l' -> length ws = length (filter is_generic l).
Proof.
  induction 1 as [|x n cv cv' y lk g cw w l ws l' _ IH|p l ws l' N _ IH]; [reflexivity| |].
  - cbn. rewrite IH. reflexivity.
  - cbn [filter]. destruct (is_generic p) eqn:G; [|exact IH]. exfalso. unfold is_generic in G.
    destruct (p_type p) as [cv k [[| | | | |cv' y lk [g|]|]|] cw] eqn:Q; try discriminate G. eapply N, eq_refl.
Qed.

Lemma filled_selves : forall l ws l', filled l ws l' -> map p_self l' = map p_self l.
Proof. induction 1; cbn; congruence. Qed.

(** The widths from index [k] on. *)
Definition reads (w : widths) (k : nat) (ws : list Z) : Prop :=
  forall i x, nth_error ws i = Some x -> get_width (E := E) w (k + i) = Ok x.

Lemma reads_cons : forall w k x ws, get_width (E := E) w k = Ok x -> reads w (S k) ws -> reads w k (x :: ws).
Proof.
  intros w k x ws H R [|i] y Q.
  - injection Q as <-. rewrite Nat.add_0_r. exact H.
  - rewrite Nat.add_succ_r. apply (R i y Q).
Qed.

Lemma reads_asked : forall w ws, reads w 0 ws -> ws = asked w (length ws).
Proof.
  intros [x|l] ws R; cbn [asked].
  - assert (forall y, In y ws -> y = x) as A.
    { intros y I. apply In_nth_error in I as [i I]. apply R in I. cbn in I. congruence. }
    clear R. induction ws as [|y ws IH]; [reflexivity|]. cbn. f_equal; [apply A; left; reflexivity|].
    apply IH. intros z I. apply A. right. exact I.
  - unfold reads in R. cbn [get_width Nat.add] in R. revert l R. induction ws as [|y ws IH]; intros l R; [reflexivity|].
    pose proof (R O y eq_refl) as R0. destruct l as [|z l]; [discriminate R0|]. injection R0 as ->. cbn. f_equal.
    apply IH. intros i x Q. apply (R (S i) x Q).
Qed.

Lemma asked_reads : forall w n, enough w n -> reads w 0 (asked w n) /\ length (asked w n) = n.
Proof.
  intros [x|l] n L; cbn [asked]; (split; [|first [apply repeat_length|apply firstn_length_le; exact L]]).
  - intros i y Q. cbn. f_equal. symmetry. apply nth_error_In in Q. eapply repeat_spec. exact Q.
  - intros i y Q. cbn. assert (nth_error l i = Some y) as ->; [|reflexivity]. clear L. revert l i Q.
    induction n as [|n IH]; intros [|z l] [|i] Q; try discriminate Q; [exact Q|]. exact (IH l i Q).
Qed.

Lemma get_enough : forall w n k, enough w n -> (k < n)%nat -> exists x, get_width (E := E) w k = Ok x.
Proof.
  intros [x|l] n k L K; cbn in *; [eexists; reflexivity|].
  destruct (nth_error l k) eqn:Q; [eexists; reflexivity|]. apply nth_error_None in Q. lia.
Qed.

Lemma substituted : forall w l before l' ws, substitute_params (E := E) l w before = Ok (l', ws) ->
  exists ws1, ws = before ++ ws1 /\ filled l ws1 l' /\ reads w (length before) ws1.
Proof.
  intros w. assert (forall k, reads w k []) as R0 by (intros k [|i] x Q; discriminate Q).
  induction l as [|p l IH]; intros before l' ws H; cbn [substitute_params] in H.
  - injection H as <- <-. exists []. rewrite app_nil_r. split; [reflexivity|split; [constructor|apply R0]].
  - assert (forall o : outcome (list parameter * list Z), o = substitute_params l w before ->
      (let* ' (r', ws0) := o in Ok (p :: r', ws0)) = Ok (l', ws) ->
      (forall cv k cv' y lk g cw, p_type p <> Type_Node cv k (Some (EId cv' y lk (Some g))) cw) ->
      exists ws1, ws = before ++ ws1 /\ filled (p :: l) ws1 l' /\ reads w (length before) ws1) as Other.
    { intros o Q X N. subst o. destruct (substitute_params l w before) as [[r ws0]| | |] eqn:S; try discriminate X.
      injection X as <- <-. apply IH in S as (ws1 & -> & F & R). exists ws1. split; [reflexivity|].
      split; [constructor; assumption|exact R]. }
    destruct p as [x n [cv k [e|] cw]]; cbn [p_type p_name p_self] in *; [|eapply Other; [reflexivity|exact H|discriminate]].
    destruct k; try discriminate H. cbn [assert_then] in H.
    destruct e as [| | | | |cv' y lk [g|]|]; try (eapply Other; [reflexivity|exact H|discriminate]).
    destruct (get_width w (length before)) as [z| | |] eqn:G; try discriminate H. cbn [bind] in H.
    destruct (substitute_params l w (before ++ [z])) as [[r ws0]| | |] eqn:S; try discriminate H.
    injection H as <- <-. apply IH in S as (ws1 & -> & F & R). exists (z :: ws1). rewrite <- app_assoc.
    split; [reflexivity|]. split; [constructor; exact F|]. apply reads_cons; [exact G|].
    rewrite app_length, Nat.add_1_r in R. exact R.
Qed.

Lemma substitutes : forall w l before,
  Forall (fun p => match p_type p with Type_Node _ k (Some _) _ => k = tt_Uint | _ => True end) l ->
  enough w (length before + length (filter is_generic l)) ->
  exists l' ws, substitute_params (E := E) l w before = Ok (l', ws).
Proof.
  intros w. induction l as [|p l IH]; intros before U L; [do 2 eexists; reflexivity|].
  inversion U as [|? ? U1 U2]; subst. cbn [substitute_params]. cbn [filter] in L.
  destruct p as [x n [cv k [e|] cw]]; cbn [p_type p_name p_self] in *.
  2:{ destruct (IH before U2 L) as (l' & ws & ->). do 2 eexists. reflexivity. }
  subst k. cbn [assert_then].
  destruct e as [| | | | |cv' y lk [g|]|]; try (destruct (IH before U2 L) as (l' & ws & ->); do 2 eexists; reflexivity).
  cbn in L. destruct (get_enough w _ (length before) L) as [z ->]; [lia|]. cbn [bind].
  destruct (IH (before ++ [z]) U2) as (l' & ws & ->); [|do 2 eexists; reflexivity].
  rewrite app_length. cbn [length]. replace (length before + 1 + length (filter is_generic l))%nat
    with (length before + S (length (filter is_generic l)))%nat by lia. exact L.
Qed.

(** * Instances that are there *)

Lemma NoDup_snoc : forall A (l : list A) x, NoDup l -> ~ In x l -> NoDup (l ++ [x]).
Proof.
  intros A l x D N. apply NoDup_rev in D. rewrite <- (rev_involutive (l ++ [x])), rev_app_distr. apply NoDup_rev.
  cbn. constructor; [|exact D]. rewrite <- in_rev. exact N.
Qed.

Lemma NoDup_append : forall A (a b : list A), NoDup a -> NoDup b -> (forall x, In x a -> In x b -> False) -> NoDup (a ++ b).
Proof.
  induction a as [|x a IH]; intros b Da Db H; [exact Db|]. inversion Da as [|? ? N D]; subst. cbn. constructor.
  - intros I. apply in_app_or in I as [I|I]; [contradiction|]. apply (H x); [left; reflexivity|exact I].
  - apply IH; [exact D|exact Db|]. intros y I J. apply (H y); [right; exact I|exact J].
Qed.

Lemma has_widths_is : forall w l k b, has_widths (E := E) l w k = Ok b -> if b then reads w k l else ~ reads w k l.
Proof.
  intros w. induction l as [|x l IH]; intros k b H; cbn [has_widths] in H.
  - injection H as <-. intros [|i] y Q; discriminate Q.
  - destruct (get_width w k) as [y| | |] eqn:G; try discriminate H. cbn [bind] in H.
    destruct (Z.eqb_spec x y) as [<-|N].
    + apply IH in H. destruct b; [apply reads_cons; assumption|]. intros R. apply H. intros i z Q.
      specialize (R (S i) z Q). rewrite Nat.add_succ_r in R. exact R.
    + injection H as <-. intros R. specialize (R O x eq_refl). rewrite Nat.add_0_r, G in R. injection R as ->. auto.
Qed.

Lemma has_widths_answers : forall w l k, enough w (k + length l) -> exists b, has_widths (E := E) l w k = Ok b.
Proof.
  intros w. induction l as [|x l IH]; intros k L; cbn [has_widths]; [eexists; reflexivity|]. cbn [length] in L.
  destruct (get_enough w _ k L) as [y ->]; [lia|]. cbn [bind]. destruct (x =? y); [|eexists; reflexivity].
  apply IH. rewrite Nat.add_succ_r in L. exact L.
Qed.

Lemma find_instance_is : forall w l r, find_instance (E := E) l w = Ok r ->
  match r with
  | Some i => In i l /\ reads w 0 (i_widths i)
  | None => forall i, In i l -> ~ reads w 0 (i_widths i)
  end.
Proof.
  intros w. induction l as [|i l IH]; intros r H; cbn [find_instance] in H; [injection H as <-; intros i []|].
  destruct (has_widths (i_widths i) w 0) as [b| | |] eqn:Q; try discriminate H. cbn [bind] in H.
  apply has_widths_is in Q. destruct b.
  - injection H as <-. split; [left; reflexivity|exact Q].
  - apply IH in H. destruct r as [j|].
    + destruct H. split; [right; assumption|assumption].
    + intros j [<-|I]; [exact Q|apply H; exact I].
Qed.

Lemma find_instance_answers : forall w n l, enough w n -> (forall i, In i l -> length (i_widths i) = n) ->
  exists r, find_instance (E := E) l w = Ok r.
Proof.
  intros w n l L. induction l as [|i l IH]; intros A; cbn [find_instance]; [eexists; reflexivity|].
  destruct (has_widths_answers w (i_widths i) 0) as [b ->]; [rewrite (A i) by (left; reflexivity); exact L|].
  cbn [bind]. destruct b; [eexists; reflexivity|]. apply IH. intros j I. apply A. right. exact I.
Qed.

Lemma instance_own : forall f new params, map p_self params = map p_self (map (relabel_param new) (f_params f)) ->
  forall x s cv t r b gn a lv, s = new (f_self f) -> b = relabel_stmt new (f_body f) ->
  own (Func x s cv params t r b gn a lv) = map new (own f).
Proof.
  intros f new params H x s cv t r b gn a lv -> ->. rewrite <- own_relabel. unfold own, declared_in, relabel_function.
  cbn [f_self f_params f_body]. rewrite H. reflexivity.
Qed.

Theorem instantiated : forall f l w n i l' n', NoDup (own f) -> instances_of f n l ->
  instantiate_function (E := E) f l w n = Ok (i, l', n') ->
  i_widths i = asked w (generic_count f) /\ In i l' /\ instances_of f n' l' /\
  ((l' = l /\ n' = n) \/
   (l' = l ++ [i] /\ (forall j, In j l -> i_widths j <> i_widths i) /\
    forall x, In x (own (i_function i)) -> (n <= x < n')%positive)).
Proof.
  intros f l w n i l' n' D I H. unfold instantiate_function in H.
  destruct (f_generic f) eqn:G; [|discriminate H]. cbn [assert_then] in H.
  destruct (find_instance l w) as [r| | |] eqn:F; try discriminate H. cbn [bind] in H. apply find_instance_is in F.
  destruct r as [j|].
  - injection H as <- <- <-. destruct F as [F1 F2]. destruct (proj1 I j F1) as [L _].
    split; [rewrite <- L; apply reads_asked; exact F2|]. split; [exact F1|]. split; [exact I|left; auto].
  - destruct (deep_copy f n) as [[g m]| | |] eqn:C; try discriminate H. cbn [bind] in H.
    apply deep_copy_copies in C as (_ & new & -> & N & B); [|exact D|exact G].
    unfold substitute_widths in H. cbn [relabel_function f_generic negb assert_then] in H.
    cbn [f_name f_self f_cv f_params f_return f_requires f_body f_generic f_address f_level] in H.
    destruct (substitute_params _ w []) as [[ps ws]| | |] eqn:S; try discriminate H. cbn [bind] in H.
    apply substituted in S as (ws1 & Q & S & R). cbn [app length] in Q, R. subst ws1.
    injection H as <- <- <-. change (f_params (relabel_function new f)) with (map (relabel_param new) (f_params f)) in S. pose proof (filled_length _ _ _ S) as Ln. rewrite count_relabel in Ln.
    cbn [i_widths i_function].
    match goal with |- context [Instance ws ?h] => set (g := h) in * end.
    assert (own g = own (relabel_function new f)) as Own.
    { unfold g. rewrite own_relabel. apply instance_own; [|reflexivity|reflexivity]. eapply filled_selves. exact S. }
    assert (forall j, In j l -> i_widths j <> ws) as Fresh.
    { intros j J Q. apply (F j J). rewrite Q. exact R. }
    split; [unfold generic_count; rewrite <- Ln; apply reads_asked; exact R|].
    split; [apply in_or_app; right; left; reflexivity|]. rewrite Own.
    split; [|right; split; [reflexivity|split; [exact Fresh|exact B]]].
    destruct I as (I1 & I2 & I3 & I4). split; [|split; [|split]].
    + intros j J. apply in_app_or in J as [J|[<-|[]]]; [apply I1; exact J|]. cbn [i_widths i_function].
      split; [exact Ln|]. exists new. exists ps. split; [exact S|reflexivity].
    + rewrite map_app. cbn [map i_widths]. apply NoDup_snoc; [exact I2|]. intros J. apply in_map_iff in J as (j & Q & J). exact (Fresh j J Q).
    + rewrite flat_map_app. cbn [flat_map i_function]. rewrite app_nil_r, Own. apply NoDup_append; [exact I3|exact N|].
      intros x X Y. apply in_flat_map in X as (j & J & X). specialize (I4 j x J X). specialize (B x Y). lia.
    + intros j x J X. apply in_app_or in J as [J|[<-|[]]].
      * specialize (I4 j x J X). assert (n <= m)%positive; [|lia].
        assert (In (f_self (relabel_function new f)) (own (relabel_function new f))) as Z by (left; reflexivity).
        specialize (B _ Z). lia.
      * cbn [i_function] in X. rewrite Own in X. apply B in X. lia.
Qed.

Theorem instantiates : forall f l w n, NoDup (own f) -> f_generic f = true -> instances_of f n l ->
  widths_of_uints f -> complete_function f = true -> self_contained f -> enough w (generic_count f) ->
  exists i l' n', instantiate_function (E := E) f l w n = Ok (i, l', n').
Proof.
  intros f l w n D G I U C S L. unfold instantiate_function. rewrite G. cbn [assert_then].
  destruct (find_instance_answers w (generic_count f) l L) as [r ->]; [intros i J; apply (proj1 I i J)|].
  cbn [bind]. destruct r as [i|]; [do 3 eexists; reflexivity|].
  destruct (deep_copy_works f n D G C S) as (g & n' & Q). rewrite Q. cbn [bind].
  apply deep_copy_copies in Q as (_ & new & -> & _); [|exact D|exact G].
  unfold substitute_widths. cbn [relabel_function f_generic negb assert_then].
  cbn [f_name f_self f_cv f_params f_return f_requires f_body f_generic f_address f_level].
  change (f_params (relabel_function new f)) with (map (relabel_param new) (f_params f)).
  destruct (substitutes w (map (relabel_param new) (f_params f)) []) as (ps & ws & ->); [| |do 3 eexists; reflexivity].
  - apply Forall_map. eapply Forall_impl; [|exact U]. intros [x k [cv t [e|] cw]]; cbn; auto.
  - cbn [length Nat.add]. rewrite count_relabel. exact L.
Qed.

End Proofs.

(** * Deduction *)

Lemma filled_cons : forall p l ws l', filled (p :: l) ws l' ->
  if is_generic p then
    exists w ws1 p' l1 cv e, ws = w :: ws1 /\ l' = p' :: l1 /\ filled l ws1 l1
      /\ p_type p' = Type_Node cv tt_Uint (Some e) (Some w)
  else exists l1, l' = p :: l1 /\ filled l ws l1.
Proof.
  intros p l ws l' H. inversion H as [|x n cv cv' y lk g cw w l0 ws0 l1 F|p0 l0 ws0 l1 N F]; subst.
  - cbn. do 6 eexists. split; [reflexivity|]. split; [reflexivity|]. split; [exact F|reflexivity].
  - destruct (is_generic p) eqn:G; [|exists l1; split; [reflexivity|exact F]]. exfalso. unfold is_generic in G.
    destruct (p_type p) as [cv k [[| | | | |cv' y lk [g|]|]|] cw] eqn:Q; try discriminate G. eapply N, eq_refl.
Qed.

Lemma deduce_cons : forall p l a args, match p_type p with Type_Node cv _ e cw => cv = None /\ cw = None /\ e <> None end ->
  deduce_widths (p :: l) (a :: args) =
  if is_generic p then
    match a with TUint n => let* r := deduce_widths l args in Ok (n :: r) | _ => Err width_deduction_from_non_uint end
  else deduce_widths l args.
Proof.
  intros [x n [cv k [e|] cw]] l a args H; cbn [p_type] in H; destruct H as (-> & -> & N); [|destruct N; reflexivity].
  cbn [deduce_widths p_type assert_then]. unfold is_generic. cbn [p_type]. destruct e as [| | | | |? ? ? [g|]|]; reflexivity.
Qed.

Lemma deduced : forall params args ws new params', length args = length params ->
  Forall (fun p => match p_type p with Type_Node cv _ _ cw => cv = None /\ cw = None end) params ->
  deduce_widths params args = Ok ws -> filled (map (relabel_param new) params) ws params' ->
  Forall2 takes params' args.
Proof.
  induction params as [|p l IH]; intros [|a args] ws new params' L U H F; try discriminate L.
  - inversion F. constructor.
  - injection L as L. inversion U as [|? ? U1 U2]; subst. cbn [map] in F. apply filled_cons in F.
    rewrite generic_relabel in F.
    rewrite deduce_cons in H.
    2:{ destruct p as [x n [cv k [e|] cw]]; cbn [p_type] in *; destruct U1; (split; [assumption|split; [assumption|]]); [discriminate|].
        subst. discriminate H. }
    destruct (is_generic p) eqn:G.
    + destruct F as (w & ws1 & p' & l1 & cv & e & -> & -> & F & T). destruct a as [| | |n]; try discriminate H.
      destruct (deduce_widths l args) as [r| | |] eqn:Q; try discriminate H. cbn [bind] in H. injection H as -> ->.
      constructor; [|eapply IH; eassumption]. intros _. exists w. split; [reflexivity|]. exists cv, e. exact T.
    + destruct F as (l1 & -> & F). constructor; [|eapply IH; eassumption].
      intros X. rewrite generic_relabel in X. congruence.
Qed.

Lemma deduced_count : forall params args ws, length args = length params ->
  Forall (fun p => match p_type p with Type_Node cv _ _ cw => cv = None /\ cw = None end) params ->
  deduce_widths params args = Ok ws -> length ws = length (filter is_generic params).
Proof.
  induction params as [|p l IH]; intros [|a args] ws L U H; try discriminate L; [injection H as <-; reflexivity|].
  injection L as L. inversion U as [|? ? U1 U2]; subst. rewrite deduce_cons in H.
  2:{ destruct p as [x n [cv k [e|] cw]]; cbn [p_type] in *; destruct U1; (split; [assumption|split; [assumption|]]); [discriminate|].
      subst. discriminate H. }
  cbn [filter]. destruct (is_generic p).
  - destruct a as [| | |n]; try discriminate H. destruct (deduce_widths l args) as [r| | |] eqn:Q; try discriminate H.
    injection H as <-. cbn [length]. f_equal. eapply IH; eassumption.
  - eapply IH; eassumption.
Qed.

Lemma deduces : forall params args, length args = length params ->
  Forall (fun p => match p_type p with Type_Node cv _ _ cw => cv = None /\ cw = None end) params ->
  forallb (fun p => complete_type (p_type p)) params = true ->
  (Forall2 deducible params args /\ exists ws, deduce_widths params args = Ok ws) \/
  (~ Forall2 deducible params args /\ deduce_widths params args = Err width_deduction_from_non_uint).
Proof.
  induction params as [|p l IH]; intros [|a args] L U C; try discriminate L.
  - left. split; [constructor|eexists; reflexivity].
  - injection L as L. inversion U as [|? ? U1 U2]; subst. cbn [forallb] in C. apply andb_true_iff in C as [C1 C2].
    rewrite deduce_cons.
    2:{ destruct p as [x n [cv k [e|] cw]]; cbn [p_type] in *; destruct U1; (split; [assumption|split; [assumption|]]); [discriminate|].
        discriminate C1. }
    specialize (IH args L U2 C2). destruct (is_generic p) eqn:G.
    + destruct a as [| | |n];
        try (right; split; [|reflexivity]; intros F; inversion F as [|? ? ? ? X _]; subst; destruct (X G) as [w W]; discriminate W).
      destruct IH as [[D [ws ->]]|[N ->]].
      * left. split; [|eexists; reflexivity]. constructor; [|exact D]. intros _. eexists. reflexivity.
      * right. split; [|reflexivity]. intros F. inversion F; subst. auto.
    + destruct IH as [[D [ws ->]]|[N ->]].
      * left. split; [|eexists; reflexivity]. constructor; [|exact D]. intros X. congruence.
      * right. split; [|reflexivity]. intros F. inversion F; subst. auto.
Qed.

Theorem called : forall f l args n i l' n', NoDup (own f) -> instances_of f n l -> untouched f ->
  length args = length (f_params f) -> instance_for_call f l args n = Ok (i, l', n') ->
  In i l' /\ instances_of f n' l' /\ Forall2 takes (f_params (i_function i)) args.
Proof.
  intros f l args n i l' n' D I U L H. unfold instance_for_call in H.
  destruct (match f_params f with [] => false | _ :: _ => true end); [|discriminate H]. cbn [assert_then] in H.
  destruct (deduce_widths (f_params f) args) as [ws| | |] eqn:Q; try discriminate H. cbn [bind] in H.
  apply instantiated in H as (W & J & K & _); [|exact D|exact I]. split; [exact J|]. split; [exact K|].
  destruct (proj1 K i J) as (_ & new & params & F & E). rewrite E. cbn [f_params].
  rewrite W in F. cbn [asked] in F. rewrite firstn_all2 in F.
  - eapply deduced; eassumption.
  - rewrite (deduced_count _ _ _ L U Q). unfold generic_count. lia.
Qed.

Theorem callable : forall f l args n, NoDup (own f) -> f_generic f = true -> instances_of f n l -> untouched f ->
  widths_of_uints f -> complete_function f = true -> self_contained f -> f_params f <> [] ->
  length args = length (f_params f) ->
  (Forall2 deducible (f_params f) args /\ exists i l' n', instance_for_call f l args n = Ok (i, l', n')) \/
  (~ Forall2 deducible (f_params f) args /\ instance_for_call f l args n = Err width_deduction_from_non_uint).
Proof.
  intros f l args n D G I U W C S P L. unfold instance_for_call.
  replace (match f_params f with [] => false | _ :: _ => true end) with true by (destruct (f_params f); [contradiction|reflexivity]).
  cbn [assert_then]. pose proof C as C'. unfold complete_function in C'. rewrite !andb_true_iff in C'. destruct C' as [[[C' _] _] _].
  destruct (deduces (f_params f) args L U C') as [[X [ws Q]]|[X Q]]; rewrite Q; cbn [bind]; [left|right; split; [exact X|reflexivity]].
  split; [exact X|]. apply instantiates; try assumption. cbn [enough]. unfold generic_count.
  rewrite (deduced_count _ _ _ L U Q). lia.
Qed.
