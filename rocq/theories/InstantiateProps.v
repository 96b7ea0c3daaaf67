(** Theorems about instances of bit-generic functions (C64, C65). *)
From Coq Require Import ZArith Ascii String List Bool Lia.
From Verif Require Import Prelude Types Ops Text Tables Tokenizer AbsOps Annotations Ast Parse GrammarSpec ParseFacts ParseProps NameLookup
  NameLookupSpec NameLookupProofs NameLookupProps Programs Sources SourcesProofs Convert ConvertSpec ConvertParse ConvertFacts ConvertSources
  FrontEndProps Instantiate InstantiateSpec InstantiateProofs.
Import ListNotations.
Open Scope string_scope.
Open Scope list_scope.
Open Scope Z_scope.

(** * Functions of a parsed program *)

Definition uint_width (t : ptype) : Prop := match t with PType k (Some _) => k = tt_Uint | PType _ None => True end.

Lemma parameters_widths d ts l rest : parameters_phrase d ts l rest -> Forall (fun q => uint_width (pp_type q)) l.
Proof.
  assert (forall ts t rest, derive_type d ts t rest -> uint_width t) as T by (intros ? ? ? X; inversion X; subst; exact Logic.I || reflexivity).
  induction 1 as [ts p rest X|ts p r1 r2 l rest X _ _ IH]; inversion X; subst; constructor; try (eapply T; eassumption);
    [constructor|exact IH].
Qed.

Lemma phrase_widths d ts f rest an : function_phrase d an ts f rest -> Forall (fun q => uint_width (pp_type q)) (pf_parameters f).
Proof.
  intros H. inversion H; subst. cbn [pf_parameters].
  match goal with P : optional_parameters _ _ _ _ |- _ => destruct P as [[-> _]|P] end; [constructor|].
  eapply parameters_widths. eassumption.
Qed.

Lemma program_widths d ts p : program_phrase d ts p ->
  Forall (fun x => match x with PD_Function f => Forall (fun q => uint_width (pp_type q)) (pf_parameters f) | _ => True end) p.
Proof.
  assert (forall ts x rest, declaration_phrase d ts x rest ->
    match x with PD_Function f => Forall (fun q => uint_width (pp_type q)) (pf_parameters f) | _ => True end) as D.
  { intros ts1 x rest H. inversion H; subst; try exact Logic.I. eapply phrase_widths. eassumption. }
  induction 1 as [ts x rest H _|ts x r1 l H _ IH]; (constructor; [eapply D; eassumption|]); [constructor|exact IH].
Qed.

(** What is known about the type of a parameter before lookup, and lookup keeps. *)
Definition clean (t : type_node) : Prop :=
  match t with Type_Node cv k e cw => cv = None /\ cw = None /\ (e <> None -> k = tt_Uint) end.

Lemma stripped_clean : forall t t', strip_type t' = strip_type t -> clean t -> clean t'.
Proof.
  intros [cv k e cw] [cv' k' e' cw'] H C. cbn [strip_type] in H. injection H as -> -> H ->.
  cbn [clean] in *. destruct C as (-> & -> & C). split; [reflexivity|]. split; [reflexivity|].
  intros N. apply C. destruct e, e'; congruence.
Qed.

Lemma resolved_params_clean : forall G l l' g G', resolved_params G l l' g G' -> Forall (fun p => clean (p_type p)) l ->
  Forall (fun p => clean (p_type p)) l' /\ map p_self l' = map p_self l /\ (g = true -> l' <> []).
Proof.
  induction 1 as [G|G x n t t' l l' g G' N T _ IH|G x n cv k cv' y lk g0 w l l' g G' N1 N2 _ IH]; intros C.
  - split; [constructor|split; [reflexivity|discriminate]].
  - inversion C as [|? ? C1 C2]; subst. destruct (IH C2) as (I1 & I2 & I3). split; [|split; [cbn; congruence|discriminate]].
    constructor; [|exact I1]. destruct T as [T _]. eapply stripped_clean; eassumption.
  - inversion C as [|? ? C1 C2]; subst. destruct (IH C2) as (I1 & I2 & I3). split; [|split; [cbn; congruence|discriminate]].
    constructor; [|exact I1]. cbn in *. destruct C1 as (-> & -> & C1). split; [reflexivity|]. split; [reflexivity|].
    intros _. apply C1. discriminate.
Qed.

Lemma nodup_part : forall (A B : Type) (f : A -> list B) l x, NoDup (flat_map f l) -> In x l -> NoDup (f x).
Proof.
  intros A B f l x D I. induction l as [|y l IH]; [destruct I|]. cbn in D. apply SourcesProofs.nodup_app in D as (D1 & D2 & _).
  destruct I as [->|I]; auto.
Qed.

(** * C64: Instances *)

(** The functions of a program that was parsed, converted and resolved: *)
Theorem C64_source : forall E ts p l l' f, parse ts = Some (Ok p) -> @convert_program E p = Ok l ->
  name_lookup l = Ok l' -> In f (functions_of l') ->
  NoDup (own f) /\ untouched f /\ widths_of_uints f /\ (f_generic f = true -> f_params f <> []).
Proof.
  intros E ts p l l' f P C L F. pose proof (C56_identities E p l C) as D. pose proof (C56_structure E p l C) as S.
  apply C31_scoping_partial in L as [_ R]. apply SourcesProofs.in_functions in F.
  destruct (SourcesProofs.forall2_in_r _ _ _ _ _ _ R F) as (d & Hd & RD). inversion RD as [f0 ? RF| |]; subst.
  destruct (SourcesProofs.forall2_in_r _ _ _ _ _ _ S Hd) as (x & Hx & SF). inversion SF as [pf ? SP|]; subst.
  pose proof (program_widths _ _ _ (parse_sound _ _ P)) as W. rewrite Forall_forall in W. specialize (W _ Hx). cbn in W.
  assert (Forall (fun p => clean (p_type p)) (f_params f0)) as Cl.
  { inversion SP as [? ? ? qs tl ? ? ? ? ? ? S1]; subst. cbn [pf_parameters f_params] in *. clear -S1 W.
    induction S1 as [|q t qs tl Q _ IH]; [constructor|]. inversion W as [|? ? W1 W2]; subst. constructor; [|auto].
    inversion Q as [? ? ? ? T]; subst. cbn [p_type pp_type] in *. inversion T; subst; cbn in *; repeat split; congruence. }
  assert (f_generic f0 = false) as G0 by (inversion SP; reflexivity).
  destruct RF as (params & g & ret & req & body & G1 & G2 & RP & _ & _ & RB & ->).
  destruct (resolved_params_clean _ _ _ _ _ RP Cl) as (C1 & C2 & C3). split; [|split; [|split]].
  - pose proof (nodup_part _ _ _ _ _ D Hd) as N. cbn in N. unfold own, declared_in. cbn [f_self f_params f_body].
    rewrite C2, (proj2 (resolved_stmt_shape _ _ _ _ RB)). exact N.
  - unfold untouched. cbn [f_params]. eapply Forall_impl; [|exact C1]. intros q. cbn beta. unfold clean.
    destruct (p_type q). intros (A & B & _). split; assumption.
  - unfold widths_of_uints. cbn [f_params]. eapply Forall_impl; [|exact C1]. intros q. cbn beta. unfold clean.
    destruct (p_type q) as [cv k [e|] cw]; [|trivial]. intros (_ & _ & A). apply A. discriminate.
  - cbn [f_generic f_params]. rewrite G0. exact C3.
Qed.

(** Asking for an instance with some widths gives the instance with these widths; the instances stay what they
    should be: each is the function with these widths filled in, in which the uses of names lead to the
    declarations of the instance instead of those of the function; no two have the same widths, and all their
    declarations are new. *)
Theorem C64_instances : forall E f l w n i l' n', NoDup (own f) -> instances_of f n l ->
  @instantiate_function E f l w n = Ok (i, l', n') ->
  i_widths i = asked w (generic_count f) /\ In i l' /\ instances_of f n' l' /\
  ((l' = l /\ n' = n) \/
   (l' = l ++ [i] /\ (forall j, In j l -> i_widths j <> i_widths i) /\
    forall x, In x (own (i_function i)) -> (n <= x < n')%positive)).
Proof. intros E. apply instantiated. Qed.

(** Full statement: for every bit-generic function of a program, there is an answer.  It is false (see below);
    it holds for functions in which no part that may be missing is missing, and that use nothing but what they
    declare.  The widths only have to be as many as the function needs. *)
Theorem C64_answers_partial : forall E E' ts p l l' f insts w n, parse ts = Some (Ok p) ->
  @convert_program E' p = Ok l -> name_lookup l = Ok l' -> In f (functions_of l') ->
  f_generic f = true -> instances_of f n insts -> enough w (generic_count f) ->
  complete_function f = true -> self_contained f ->
  exists i insts' n', @instantiate_function E f insts w n = Ok (i, insts', n').
Proof.
  intros E E' ts p l l' f insts w n P C L F G I W Co S.
  destruct (C64_source E' ts p l l' f P C L F) as (D & _ & U & _). apply instantiates; assumption.
Qed.

(** Without any of these parts, the behaviour is undefined for every such function, unless the instance is
    there already. *)
Theorem C64_incomplete : forall E E' ts p l l' f w n, parse ts = Some (Ok p) ->
  @convert_program E' p = Ok l -> name_lookup l = Ok l' -> In f (functions_of l') ->
  f_generic f = true -> complete_function f = false -> @instantiate_function E f [] w n = UB.
Proof.
  intros E E' ts p l l' f w n P C L F G Co.
  destruct (C64_source E' ts p l l' f P C L F) as (D & _). unfold instantiate_function. rewrite G.
  cbn [assert_then find_instance bind]. rewrite (deep_copy_undefined f n D G Co). reflexivity.
Qed.

(** * C65: Deduction *)

(** The instance that a call uses takes the arguments of the call: the width of each parameter whose width is
    generic is that of the argument. *)
Theorem C65_deduction : forall E' ts p l l' f insts args n i insts' n', parse ts = Some (Ok p) ->
  @convert_program E' p = Ok l -> name_lookup l = Ok l' -> In f (functions_of l') ->
  instances_of f n insts -> length args = length (f_params f) ->
  instance_for_call f insts args n = Ok (i, insts', n') ->
  In i insts' /\ instances_of f n' insts' /\ Forall2 takes (f_params (i_function i)) args.
Proof.
  intros E' ts p l l' f insts args n i insts' n' P C L F I A H.
  destruct (C64_source E' ts p l l' f P C L F) as (D & U & _). eapply called; eassumption.
Qed.

(** Full statement: each call of a bit-generic function with as many arguments as parameters gets an instance
    if the arguments for generic parameters have types [Uint], and an error otherwise.  It is false (see
    below); it holds under the conditions of [C64_answers_partial]. *)
Theorem C65_answers_partial : forall E' ts p l l' f insts args n, parse ts = Some (Ok p) ->
  @convert_program E' p = Ok l -> name_lookup l = Ok l' -> In f (functions_of l') ->
  f_generic f = true -> instances_of f n insts -> length args = length (f_params f) ->
  complete_function f = true -> self_contained f ->
  (Forall2 deducible (f_params f) args /\ exists i insts' n', instance_for_call f insts args n = Ok (i, insts', n')) \/
  (~ Forall2 deducible (f_params f) args /\ instance_for_call f insts args n = Err width_deduction_from_non_uint).
Proof.
  intros E' ts p l l' f insts args n P C L F G I A Co S.
  destruct (C64_source E' ts p l l' f P C L F) as (D & U & W & N). apply callable; auto.
Qed.

(** * Examples and counterexamples *)

(** The declarations of a source text after name lookup. *)
Definition looked_up (source : string) : option (list declaration) :=
  match @convert_program unit (tree_of source) with
  | Ok l => match name_lookup l with Ok l' => Some l' | _ => None end
  | _ => None
  end.
(** The first function of a source text. *)
Definition first_function (source : string) : option func :=
  match looked_up source with Some l => hd_error (functions_of l) | None => None end.

(** test/valid_bms/dependent_static_assert.bms: the function is complete and uses what it declares.  Calls with
    arguments of types [Uint(32)], [Uint(8)] and [Uint(32)] again make two instances. *)
Definition awoo : string :=
  "function awoo(x: Uint(N)) -> Uint(N) { static_assert(N == 32); return x; } const y: Uint(32) = 0; const z = awoo(y); ".
Definition awoo_function : func :=
  Func (str "awoo") 1 None [Param (str "x") 2 (Type_Node None tt_Uint (Some (EId None (str "N") None (Some 2%positive))) None)]
    (Type_Node None tt_Uint (Some (EId None (str "N") (Some (LNode DWidth 2)) None)) None) None
    (SBlock None [SStatic_Assert None (EBinary None equals (EId None (str "N") (Some (LNode DWidth 2)) None)
                                         (ELiteral None (str "32") tk_decimal_literal));
                  SControl None ctl_return (Some (EId None (str "x") (Some (LParameter 2)) None))])
    true None unanalyzed.
Example C64_example :
  first_function awoo = Some awoo_function /\ complete_function awoo_function = true /\ self_contained awoo_function
  /\ exists i j n1 n2, instance_for_call awoo_function [] [TUint 32] 10 = Ok (i, [i], n1)
  /\ instance_for_call awoo_function [i] [TUint 8] n1 = Ok (j, [i; j], n2)
  /\ instance_for_call awoo_function [i; j] [TUint 32] n2 = Ok (i, [i; j], n2)
  /\ own (i_function i) = [10; 11]%positive /\ own (i_function j) = [12; 13]%positive
  /\ uses_function (i_function j) =
       [(str "N", None); (str "N", Some (LNode DWidth 13)); (str "N", Some (LNode DWidth 13)); (str "x", Some (LParameter 13))].
Proof.
  split; [vm_compute; reflexivity|]. split; [vm_compute; reflexivity|]. split.
  { unfold self_contained. vm_compute. repeat (apply Forall_cons; [tauto|]). apply Forall_nil. }
  do 4 eexists. split; [vm_compute; reflexivity|]. split; [vm_compute; reflexivity|]. split; [vm_compute; reflexivity|].
  repeat split; vm_compute; reflexivity.
Qed.

(** An argument of type [Bool]. *)
Example C65_example : first_function awoo = Some awoo_function
  /\ instance_for_call awoo_function [] [TBool] 10 = Err width_deduction_from_non_uint.
Proof. split; vm_compute; reflexivity. Qed.

(** The first function of a source text is bit-generic, and making its first instance has this result. *)
Definition instance_result (source : string) (args : list ctype) (r : outcome deduction_error (instance * list instance * positive)) : Prop :=
  exists f, first_function source = Some f /\ f_generic f = true /\ length args = length (f_params f)
    /\ Forall2 deducible (f_params f) args /\ instance_for_call f [] args 100 = r.

Ltac witness := eexists; split; [vm_compute; reflexivity|]; split; [vm_compute; reflexivity|]; split; [vm_compute; reflexivity|];
  split; [repeat constructor; intros X; first [discriminate X|eexists; reflexivity]|vm_compute; reflexivity].

(** No copy of a type other than [Uint] can be made, *)
Theorem C64_return_type_refuted : exists source args, instance_result source args UB.
Proof. exists "function f(x: Uint(N)) -> Bool { return x == x; } ", [TUint 8]. witness. Qed.
(** nor of a declaration without a type, *)
Theorem C64_let_refuted : exists source args, instance_result source args UB.
Proof. exists "function f(x: Uint(N)) -> Uint(N) { let y = x; return y; } ", [TUint 8]. witness. Qed.
(** nor of a variable without an initialiser, *)
Theorem C64_uninitialized_refuted : exists source args, instance_result source args UB.
Proof. exists "function f(x: Uint(N)) -> Uint(N) { let y: Uint(N); y = x; return y; } ", [TUint 8]. witness. Qed.
(** nor of an [if] without [else], *)
Theorem C64_if_refuted : exists source args, instance_result source args UB.
Proof. exists "function f(x: Uint(N)) -> Uint(N) { if x == x { return x; } return x; } ", [TUint 8]. witness. Qed.
(** nor of [break]. *)
Theorem C64_break_refuted : exists source args, instance_result source args UB.
Proof. exists "function f(x: Uint(N)) -> Uint(N) { while x == x { break; } return x; } ", [TUint 8]. witness. Qed.

(** Making an instance of a function that uses a global constant, or that calls another function, aborts. *)
Theorem C64_global_refuted : exists source args, instance_result source args Abort.
Proof. exists "function f(x: Uint(N)) -> Uint(N) { return x + c; } const c = 1; ", [TUint 8]. witness. Qed.
Theorem C64_call_refuted : exists source args, instance_result source args Abort.
Proof. exists "function f(x: Uint(N)) -> Uint(N) { return g(x); } function g(x: Uint(N)) -> Uint(N) { return x; } ", [TUint 8]. witness. Qed.

(** Calling a function that has a parameter of another type besides the generic one aborts. *)
Theorem C65_parameter_refuted : exists source args, instance_result source args Abort.
Proof. exists "function f(x: Uint(N), b: Bool) -> Uint(N) { return x; } ", [TUint 8; TBool]. witness. Qed.

(** A program with a function that is not bit-generic cannot be instantiated as a whole. *)
Theorem C64_all : forall E l w n f insts, In (f, insts) l -> f_generic f = false ->
  forall r, @instantiate_all E l w n <> Ok r.
Proof.
  intros E. induction l as [|[g gi] l IH]; intros w n f insts I G r H; [destruct I|]. cbn [instantiate_all] in H.
  destruct (instantiate_function g gi w n) as [[[i gi'] n']| | |] eqn:Q; try discriminate H. cbn [bind] in H.
  destruct I as [X|I].
  - injection X as -> ->. unfold instantiate_function in Q. rewrite G in Q. discriminate Q.
  - destruct (instantiate_all l w n') as [[l' n'']| | |] eqn:R; try discriminate H. eapply IH; eassumption.
Qed.
(** Making an instance of each function of a program: each function gets the instance asked for, and the
    declarations of all instances are different. *)
Definition all_own (l : list (func * list instance)) : list positive :=
  flat_map (fun x => flat_map (fun i => own (i_function i)) (snd x)) l.

Lemma instances_grow : forall f n n' l, instances_of f n l -> (n <= n')%positive -> instances_of f n' l.
Proof.
  intros f n n' l (A & B & C & D) L. split; [exact A|]. split; [exact B|]. split; [exact C|].
  intros i x I X. specialize (D i x I X). lia.
Qed.

Lemma in_all_own : forall l x, In x (all_own l) <-> exists f il i, In (f, il) l /\ In i il /\ In x (own (i_function i)).
Proof.
  intros l x. unfold all_own. rewrite in_flat_map. split.
  - intros ([f il] & A & B). apply in_flat_map in B as (i & B & C). exists f, il, i. auto.
  - intros (f & il & i & A & B & C). exists (f, il). split; [exact A|]. apply in_flat_map. exists i. auto.
Qed.

Lemma nodup_app_intro : forall (A : Type) (l l' : list A), NoDup l -> NoDup l' ->
  (forall x, In x l -> ~ In x l') -> NoDup (l ++ l').
Proof.
  intros A l l' H H' D. induction H as [|x l N H IH]; [exact H'|]. cbn [app]. constructor.
  - rewrite in_app_iff. intros [X|X]; [exact (N X)|]. apply (D x); [left; reflexivity|exact X].
  - apply IH. intros y Y. apply D. right. exact Y.
Qed.

Lemma instantiated_all : forall E l w n l' n', @instantiate_all E l w n = Ok (l', n') ->
  Forall (fun x => NoDup (own (fst x)) /\ instances_of (fst x) n (snd x)) l -> NoDup (all_own l) ->
  (n <= n')%positive /\
  Forall2 (fun x y => fst y = fst x /\ instances_of (fst x) n' (snd y) /\
             exists i, In i (snd y) /\ i_widths i = asked w (generic_count (fst x))) l l' /\
  NoDup (all_own l') /\
  forall x, In x (all_own l') -> In x (all_own l) \/ (n <= x < n')%positive.
Proof.
  intros E. induction l as [|[f il] l IH]; intros w n l' n' H F D; cbn [instantiate_all] in H.
  - injection H as <- <-. split; [lia|]. split; [constructor|]. split; [constructor|]. intros x [].
  - destruct (instantiate_function f il w n) as [[[i il'] n1]| | |] eqn:Q; try discriminate H. cbn [bind] in H.
    destruct (instantiate_all l w n1) as [[r' n2]| | |] eqn:R; try discriminate H. cbn [bind] in H.
    injection H as <- <-. inversion F as [|? ? [F1 F2] F3]; subst. cbn [fst snd] in F1, F2.
    assert (D' : NoDup (flat_map (fun i => own (i_function i)) il ++ all_own l)) by exact D.
    apply SourcesProofs.nodup_app in D' as (D1 & D2 & D3).
    destruct (C64_instances E f il w n i il' n1 F1 F2 Q) as (W & I & IO & New).
    assert (G : (n <= n1)%positive).
    { destruct New as [[_ ->]|(_ & _ & New)]; [lia|].
      assert (X : (n <= f_self (i_function i) < n1)%positive) by (apply New; left; reflexivity). lia. }
    destruct (IH w n1 r' n2 R) as (G2 & I2 & N2 & O2).
    { eapply Forall_impl; [|exact F3]. intros [g gl] [A B]. split; [exact A|]. eapply instances_grow; eassumption. }
    { exact D2. }
    assert (Old : forall x, In x (all_own l) -> (x < n)%positive).
    { intros x X. apply in_all_own in X as (g & gl & j & A & B & C). rewrite Forall_forall in F3.
      destruct (F3 _ A) as [_ (_ & _ & _ & L)]. exact (L j x B C). }
    assert (Head : forall x, In x (flat_map (fun i => own (i_function i)) il') ->
              In x (flat_map (fun i => own (i_function i)) il) \/ (n <= x < n1)%positive).
    { intros x X. destruct New as [[-> _]|(-> & _ & New)]; [left; exact X|].
      rewrite flat_map_app in X. apply in_app_or in X as [X|X]; [left; exact X|]. right.
      cbn [flat_map] in X. rewrite app_nil_r in X. apply New. exact X. }
    split; [lia|]. split; [|split].
    + constructor; [|exact I2]. cbn [fst snd]. split; [reflexivity|]. split; [eapply instances_grow; eassumption|].
      exists i. split; assumption.
    + change (NoDup (flat_map (fun i => own (i_function i)) il' ++ all_own r')). apply nodup_app_intro.
      * apply IO.
      * exact N2.
      * intros x X Y. destruct (O2 x Y) as [Y'|Y'].
        { destruct (Head x X) as [X'|X']; [exact (D3 x X' Y')|]. specialize (Old x Y'). lia. }
        { apply in_flat_map in X as (j & A & B). destruct IO as (_ & _ & _ & L). specialize (L j x A B). lia. }
    + intros x X. change (In x (flat_map (fun i => own (i_function i)) il' ++ all_own r')) in X.
      change (all_own ((f, il) :: l)) with (flat_map (fun i => own (i_function i)) il ++ all_own l).
      rewrite in_app_iff. apply in_app_or in X as [X|X].
      * destruct (Head x X) as [X'|X']; [left; left; exact X'|right; lia].
      * destruct (O2 x X) as [X'|X']; [left; right; exact X'|right; lia].
Qed.

Theorem C64_all_instances : forall E E' ts p decls decls' w n l' n', parse ts = Some (Ok p) ->
  @convert_program E' p = Ok decls -> name_lookup decls = Ok decls' ->
  @instantiate_all E (map (fun f => (f, [])) (functions_of decls')) w n = Ok (l', n') ->
  Forall2 (fun f y => fst y = f /\ exists i, snd y = [i] /\ i_widths i = asked w (generic_count f) /\
             exists new, instance_of new f (i_widths i) (i_function i)) (functions_of decls') l' /\
  NoDup (all_own l') /\ (forall x, In x (all_own l') -> (n <= x < n')%positive).
Proof.
  intros E E' ts p decls decls' w n l' n' P C L H.
  assert (Empty : all_own (map (fun f => (f, [])) (functions_of decls')) = []).
  { clear. unfold all_own. induction (functions_of decls') as [|f l IH]; [reflexivity|exact IH]. }
  destruct (instantiated_all E _ w n l' n' H) as (_ & I & N & O).
  - apply Forall_forall. intros x X. apply in_map_iff in X as (f & <- & X). cbn [fst snd].
    split; [apply (C64_source E' ts p decls decls' f P C L X)|].
    split; [intros i []|]. split; [constructor|]. split; [constructor|intros i x []].
  - rewrite Empty. constructor.
  - split; [|split; [exact N|]].
    + clear N O Empty P C L. revert l' n n' H I. induction (functions_of decls') as [|f l IH]; intros l' n n' H I.
      { inversion I. constructor. }
      cbn [map instantiate_all] in H.
      destruct (instantiate_function f [] w n) as [[[i il'] n1]| | |] eqn:Q; try discriminate H. cbn [bind] in H.
      destruct (instantiate_all (map (fun f => (f, [])) l) w n1) as [[r' n2]| | |] eqn:R; try discriminate H.
      cbn [bind] in H. injection H as <- <-. inversion I as [|? ? ? ? [_ ((I1 & _) & (j & J1 & J2))] I2]; subst.
      constructor; [|eapply IH; eassumption]. cbn [fst snd] in *. split; [reflexivity|].
      assert (il' = [i]) as ->.
      { unfold instantiate_function, assert_then in Q. destruct (f_generic f); [|discriminate Q].
        cbn [find_instance bind] in Q.
        destruct (deep_copy f n) as [[g n3]| | |]; try discriminate Q. cbn [bind] in Q.
        destruct (substitute_widths g w) as [[g' ws]| | |]; try discriminate Q. cbn [bind] in Q.
        injection Q as <- <- _. reflexivity. }
      exists i. split; [reflexivity|].
      destruct J1 as [->|[]]. split; [exact J2|]. destruct (I1 j (or_introl eq_refl)) as [_ X]. exact X.
    + intros x X. destruct (O x X) as [X'|X']; [rewrite Empty in X'; destruct X'|exact X'].
Qed.

Theorem C64_all_refuted : exists source, match looked_up source with
  | Some l => @instantiate_all unit (map (fun f => (f, [])) (functions_of l)) (W_single 8) 100 = Abort
  | None => False
  end.
Proof. exists "function f() -> Int { return 1; } ". vm_compute. reflexivity. Qed.

(** * Assumptions of the theorems above *)
Print Assumptions C64_source.
Print Assumptions C64_instances.
Print Assumptions C64_answers_partial.
Print Assumptions C64_incomplete.
Print Assumptions C65_deduction.
Print Assumptions C65_answers_partial.
Print Assumptions C64_return_type_refuted.
Print Assumptions C64_let_refuted.
Print Assumptions C64_uninitialized_refuted.
Print Assumptions C64_if_refuted.
Print Assumptions C64_break_refuted.
Print Assumptions C64_global_refuted.
Print Assumptions C64_call_refuted.
Print Assumptions C65_parameter_refuted.
Print Assumptions C64_all.
Print Assumptions C64_all_instances.
Print Assumptions C64_all_refuted.
