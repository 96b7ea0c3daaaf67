(** What the generator for C and C++ writes for an expression: its text, its tokens, and how they are grouped. *)
From Coq Require Import ZArith Ascii String List Bool Lia.
From Verif Require Import Prelude Text Types Ops Literals LiteralsSpec Tables Tokenizer TokenizerSpec TokenizerProofs AbsOps Ast
  NameLookup AstFacts CodeString Decimal DecimalSpec DecimalProofs DecimalProps GenBase GenC GenFacts Spell PrintSpec PrintFacts
  CGrammar CGrammarFacts CPrintSpec CSpell.
Import ListNotations.
Open Scope string_scope.
Open Scope list_scope.
Open Scope gen_scope.
Open Scope nat_scope.

Section Print.
Variable o : code_options.
Variable d : c_dialect.
Variable const_value : positive -> option avalue.

Definition bits : bool := negb (is_cpp d) && c_23 o.

Definition type_text (y : ctype) : text :=
  let std := if is_cpp d then str "std::" else [] in
  let fixed w := std ++ str "uint" ++ std_to_string w ++ str "_t" in
  match y with
  | TVoid => str "void"
  | TInt => str "int"
  | TBool => match d with c99 => str "_Bool" | _ => str "bool" end
  | TUint w =>
      if bits && c_prefer_bitint o then str "unsigned _BitInt(" ++ std_to_string w ++ str ")"
      else if ((w =? 8) || (w =? 16) || (w =? 32) || (w =? 64))%Z then fixed w
      else str "unsigned _BitInt(" ++ std_to_string w ++ str ")"
  end.
Definition type_tokens (y : ctype) : list c_token :=
  let std := if is_cpp d then [word "std"; punct "::"] else [] in
  let fixed w := std ++ [Word (str "uint" ++ std_to_string w ++ str "_t")] in
  let bitint w := [word "unsigned"; word "_BitInt"; punct "("; Number (std_to_string w); punct ")"] in
  match y with
  | TVoid => [word "void"]
  | TInt => [word "int"]
  | TBool => match d with c99 => [word "_Bool"] | _ => [word "bool"] end
  | TUint w =>
      if bits && c_prefer_bitint o then bitint w
      else if ((w =? 8) || (w =? 16) || (w =? 32) || (w =? 64))%Z then fixed w
      else bitint w
  end.

Definition value_text (v : avalue) : text :=
  match v with
  | AV TVoid _ => str "(void)0"
  | AV TBool (Some z) => if (z =? 0)%Z then str "false" else str "true"
  | AV TInt (Some z) => to_string_int z
  | AV (TUint _) (Some z) => to_string_uint (to_big_uint z)
  | _ => []
  end.
Definition value_tokens (v : avalue) : list c_token :=
  match v with
  | AV TVoid _ => [punct "("; word "void"; punct ")"; Number (str "0")]
  | AV TBool (Some z) => if (z =? 0)%Z then [word "false"] else [word "true"]
  | AV TInt (Some z) =>
      if (0 <=? z)%Z then [Number (to_string_uint z)] else [punct "-"; Number (to_string_uint (- z))]
  | AV (TUint _) (Some z) => [Number (to_string_uint z)]
  | _ => []
  end.

Definition cwraps (outer : expr_kind) (inner : expr) : bool :=
  always_parenthesize o || c_needs_parentheses outer (expression_type inner).
Definition csub_text (outer : expr_kind) (inner : expr) (t : text) : text :=
  if cwraps outer inner then "("%char :: t ++ [")"%char] else t.
Definition csub (outer : expr_kind) (inner : expr) (t : list c_token) : list c_token :=
  if cwraps outer inner then punct "(" :: t ++ [punct ")"] else t.

Definition target_of (t : type_node) : ctype :=
  match concrete_type_value (E := generator_error) t with Ok y => y | _ => TVoid end.

Fixpoint cpr (nested : bool) (e : expr) : text :=
  match e with
  | EConversion _ x t => "("%char :: type_text (target_of t) ++ ")"%char :: csub_text conversion x (cpr true x)
  | EIf _ l c r =>
      (if nested then ["("%char] else []) ++
      csub_text if_expression c (cpr true c) ++ str " ? " ++ csub_text if_expression l (cpr true l) ++ str " : " ++
      csub_text if_expression r (cpr true r) ++ (if nested then [] else [")"%char])
  | EBinary _ op l r =>
      csub_text op l (cpr true l) ++ " "%char :: token_type_code_name (expression_type_token op) ++
      " "%char :: csub_text op r (cpr true r)
  | EPrefix _ op x => token_type_code_name (expression_type_token op) ++ csub_text op x (cpr true x)
  | ECall _ name _ _ args => name ++ "("%char :: join true (map (cpr true) args) ++ [")"%char]
  | EId _ name lk _ =>
      match lk with
      | Some (LNode DConst n) => match const_value n with Some v => value_text v | None => [] end
      | _ => name
      end
  | ELiteral cv _ _ => match cv with Some v => value_text v | None => [] end
  end.

Fixpoint cjoin (first : bool) (l : list (list c_token)) : list c_token :=
  match l with
  | [] => []
  | t :: rest => (if first then [] else [punct ","]) ++ t ++ cjoin false rest
  end.
Definition op_token (op : expr_kind) : c_token := Punct (token_type_code_name (expression_type_token op)).

Fixpoint ctk (nested : bool) (e : expr) : list c_token :=
  match e with
  | EConversion _ x t => punct "(" :: type_tokens (target_of t) ++ punct ")" :: csub conversion x (ctk true x)
  | EIf _ l c r =>
      (if nested then [punct "("] else []) ++
      csub if_expression c (ctk true c) ++ punct "?" :: csub if_expression l (ctk true l) ++ punct ":" ::
      csub if_expression r (ctk true r) ++ (if nested then [] else [punct ")"])
  | EBinary _ op l r => csub op l (ctk true l) ++ op_token op :: csub op r (ctk true r)
  | EPrefix _ op x => op_token op :: csub op x (ctk true x)
  | ECall _ name _ _ args => Word name :: punct "(" :: cjoin true (map (ctk true) args) ++ [punct ")"]
  | EId _ name lk _ =>
      match lk with
      | Some (LNode DConst n) => match const_value n with Some v => value_tokens v | None => [] end
      | _ => [Word name]
      end
  | ELiteral cv _ _ => match cv with Some v => value_tokens v | None => [] end
  end.

(** ** What is written *)

Lemma writes_csub : forall n b outer inner m t, writes n b m t b ->
  writes n b (subexpression o c_needs_parentheses outer inner m) (csub_text outer inner t) b.
Proof.
  intros n b outer inner m t M. unfold subexpression, csub_text, cwraps. cbv zeta. apply writes_attempt.
  destruct (always_parenthesize o || c_needs_parentheses outer (expression_type inner)).
  - eapply writes_eq; [eapply writes_seq; [apply writes_char_span|]; eapply writes_seq; [exact M | apply writes_char_span]|].
    reflexivity.
  - eapply writes_eq; [eapply writes_seq; [apply writes_done|]; eapply writes_seq; [exact M | apply writes_done]|].
    cbn. apply app_nil_r.
Qed.

Lemma digits_of : forall z, (0 <= z < 2 ^ 128)%Z -> full_parts z -> denotes (to_string_uint z) z.
Proof. intros z Z0 F. apply (C54_unsigned_partial z Z0). exact F. Qed.
Lemma big_uint_small : forall z, (0 <= z < 2 ^ 128)%Z -> to_big_uint z = z.
Proof. intros z Z0. unfold to_big_uint, two128. apply Z.mod_small. exact Z0. Qed.
Lemma denotes_nonempty : forall x n, denotes x n -> x <> [].
Proof. intros x n (_ & N & _). exact N. Qed.

Lemma writes_value : forall n b v t, shows_value v t -> writes n b (append_const_value (Some v)) (value_text v) b.
Proof.
  intros n b v t H. unfold append_const_value, concrete_value.
  destruct H as [z | z | z Z0 F | z Z0 F | w z Z0 F]; cbn [av_val av_type with_value append_value cv_type cv_int value_text].
  - eapply writes_eq; [eapply writes_seq; [apply writes_char_span|]; eapply writes_seq; [apply writes_span; discriminate|];
      eapply writes_seq; [apply writes_char_span | apply writes_char_span]|]. reflexivity.
  - destruct (z =? 0)%Z; apply writes_span; discriminate.
  - apply writes_span. unfold to_string_int. rewrite (proj2 (Z.leb_le 0 z)) by lia. rewrite big_uint_small by lia.
    eapply denotes_nonempty, digits_of; [lia | exact F].
  - apply writes_span. unfold to_string_int. rewrite (proj2 (Z.leb_gt 0 z)) by lia. discriminate.
  - apply writes_span. rewrite big_uint_small by exact Z0. eapply denotes_nonempty, digits_of; [exact Z0 | exact F].
Qed.

Lemma std_digits : forall w, (0 < w < 2 ^ 64)%Z -> denotes (std_to_string w) w.
Proof. intros w W. apply std_denotes. lia. Qed.

Lemma width_cases : forall w, has_width bits (TUint w) = true ->
  (0 < w < 2 ^ 64)%Z /\ (bits = true \/ (w = 8 \/ w = 16 \/ w = 32 \/ w = 64)%Z).
Proof.
  intros w H. unfold has_width in H. rewrite !orb_true_iff, !andb_true_iff, !Z.eqb_eq, !Z.ltb_lt in H.
  destruct H as [[[[-> | ->] | ->] | ->] | [[B W1] W2]]; try (split; [lia | right; lia]). split; [lia | left; exact B].
Qed.

Lemma writes_text : forall n b t, writes n b (put_text t) t b.
Proof. intros n b t out. eexists. reflexivity. Qed.

Lemma writes_type : forall n b y, has_width bits y = true -> writes n b (generate_type o d y) (type_text y) b.
Proof.
  intros n b y H. unfold generate_type.
  assert (STD : forall n b, writes n b (prepend_std d) (if is_cpp d then str "std::" else []) b).
  { intros n0 b0. unfold prepend_std. destruct (is_cpp d); [|apply writes_done].
    eapply writes_eq; [eapply writes_seq; apply writes_span; discriminate | reflexivity]. }
  assert (BI : forall w, (0 < w < 2 ^ 64)%Z ->
    writes n b (append_type (ct_bituint w) d) (str "unsigned _BitInt(" ++ std_to_string w ++ str ")") b).
  { intros w W. cbn [append_type]. eapply writes_eq.
    - eapply writes_seq; [apply writes_span; discriminate|]. eapply writes_seq; [apply writes_char|].
      eapply writes_seq; [apply writes_span; discriminate|]. eapply writes_seq; [apply writes_char_span|].
      eapply writes_seq; [apply writes_text | apply writes_char_span].
    - reflexivity. }
  destruct y as [| | |w]; cbn [to_c_type with_value append_type type_text].
  - apply writes_span. discriminate.
  - apply writes_span. destruct d; discriminate.
  - apply writes_span. discriminate.
  - destruct (width_cases w H) as [W C]. fold bits. destruct (bits && c_prefer_bitint o) eqn:P; [apply BI; exact W|].
    destruct (w =? 8)%Z eqn:E8; [apply Z.eqb_eq in E8; subst w; cbn [with_value append_type]; eapply writes_eq;
      [eapply writes_seq; [apply STD | apply writes_span; discriminate] | reflexivity]|].
    destruct (w =? 16)%Z eqn:E16; [apply Z.eqb_eq in E16; subst w; cbn [with_value append_type]; eapply writes_eq;
      [eapply writes_seq; [apply STD | apply writes_span; discriminate] | reflexivity]|].
    destruct (w =? 32)%Z eqn:E32; [apply Z.eqb_eq in E32; subst w; cbn [with_value append_type]; eapply writes_eq;
      [eapply writes_seq; [apply STD | apply writes_span; discriminate] | reflexivity]|].
    destruct (w =? 64)%Z eqn:E64; [apply Z.eqb_eq in E64; subst w; cbn [with_value append_type]; eapply writes_eq;
      [eapply writes_seq; [apply STD | apply writes_span; discriminate] | reflexivity]|].
    apply Z.eqb_neq in E8, E16, E32, E64. destruct C as [C | C]; [|lia]. rewrite C. cbn [with_value orb].
    apply BI. exact W.
Qed.

Definition inlined (e : expr) : bool := negb (c_23 o && mentions_const e).

Lemma and_split : forall a b, a && b = true -> a = true /\ b = true.
Proof. intros a b H. apply andb_prop. exact H. Qed.
Ltac ands := repeat match goal with H : _ && _ = true |- _ => apply and_split in H; destruct H end.

Lemma args_nodes : forall f args ts, Forall2 (c_shows const_value) args ts -> forallb (every_node f) ts = true ->
  Forall2 (fun a t => c_shows const_value a t /\ every_node f t = true) args ts.
Proof.
  intros f args ts H. induction H as [|a t args ts A H IH]; intros F; constructor; cbn in F; ands; auto.
Qed.

Lemma inlined_or : forall a b, negb (c_23 o && (a || b)) = true -> negb (c_23 o && a) = true /\ negb (c_23 o && b) = true.
Proof. intros a b H. destruct (c_23 o), a, b; auto. Qed.

Lemma expr_cwrites : forall e t, c_shows const_value e t -> widths_exist bits t = true -> inlined e = true ->
  forall nested n b, writes n b (c_expr o d const_value nested e) (cpr nested e) b.
Proof.
  unfold widths_exist, inlined.
  induction e as [cv e y IHe _ | cv l c r IHl IHc IHr | cv op l r IHl IHr | cv op e IHe
    | cv name lk st args IH | cv name lk g | cv lit k] using expr_width_induction; intros t H W J nested n b;
    inversion H; subst; cbn [every_node] in W; cbn [mentions_const] in J; ands; cbn [c_expr cpr].
  - apply writes_attempt. unfold c_type_node, target_of.
    match goal with T : concrete_type_value y = Ok _ |- _ => rewrite T end. cbn [with_value]. eapply writes_eq.
    + eapply writes_seq; [apply writes_parens, writes_type; assumption | apply writes_csub; eapply IHe; eauto].
    + cbn [app]. rewrite <- app_assoc. reflexivity.
  - apply inlined_or in J. destruct J as [J J3]. apply inlined_or in J. destruct J as [J1 J2].
    assert (OPEN : writes n b (if nested then put_char_span "(" sp_bracket else done) (if nested then ["("%char] else []) b)
      by (destruct nested; [apply writes_char_span | apply writes_done]).
    assert (CLOSE : writes n b (if nested then done else put_char_span ")" sp_bracket) (if nested then [] else [")"%char]) b)
      by (destruct nested; [apply writes_done | apply writes_char_span]).
    apply writes_attempt. eapply writes_eq.
    + eapply writes_seq; [apply OPEN|].
      eapply writes_seq; [apply writes_csub; eapply IHc; eauto|].
      eapply writes_seq; [apply writes_infix; discriminate|].
      eapply writes_seq; [apply writes_csub; eapply IHl; eauto|].
      eapply writes_seq; [apply writes_infix; discriminate|].
      eapply writes_seq; [apply writes_csub; eapply IHr; eauto|].
      apply CLOSE.
    + reflexivity.
  - apply inlined_or in J. destruct J as [J1 J2]. apply writes_attempt. eapply writes_eq.
    + eapply writes_seq; [apply writes_csub; eapply IHl; eauto|].
      eapply writes_seq; [apply writes_infix; apply code_name_nonempty|].
      apply writes_csub; eapply IHr; eauto.
    + cbn [app]. rewrite <- app_assoc. reflexivity.
  - eapply writes_seq; [apply writes_span; apply code_name_nonempty|]. apply writes_csub. eapply IHe; eauto.
  - apply writes_attempt. eapply writes_eq.
    + eapply writes_seq; [apply writes_done|].
      eapply writes_seq; [apply writes_span; apply name_nonempty; assumption|].
      apply writes_parens. apply writes_separated with (ts := map (cpr true) args).
      match goal with A : Forall2 _ args _, F : forallb _ _ = true |- _ => pose proof (args_nodes _ _ _ A F) as G; clear - G IH J end.
      revert J. induction G as [|a u args us (A1 & A2) G IHG]; intros J; cbn; constructor; inversion IH; subst; cbn [existsb] in J;
        apply inlined_or in J; destruct J as [J1 J2]; auto. eapply H1; eauto.
    + reflexivity.
  - destruct lk as [[[] m|m|f]|]; try discriminate; apply writes_span; apply name_nonempty; assumption.
  - cbn [names_const] in J. rewrite andb_true_r in J. apply negb_true_iff in J. rewrite J.
    match goal with V : const_value _ = Some _ |- _ => rewrite V end. eapply writes_value. eassumption.
  - eapply writes_value. eassumption.
Qed.

(** ** How C reads it *)

Lemma cspelled_parens : forall t u, cspelled t u -> cspelled ("("%char :: t ++ [")"%char]) (punct "(" :: u ++ [punct ")"]).
Proof.
  intros t u H rest ks St R. cbn [app]. rewrite <- !app_assoc. cbn [app].
  apply (reads_bracket "("); [cbn; tauto|]. apply H; [cbn; tauto|]. apply (reads_bracket ")"); [cbn; tauto | exact R].
Qed.
Lemma cspelled_sub : forall outer inner t u, cspelled t u -> cspelled (csub_text outer inner t) (csub outer inner u).
Proof.
  intros outer inner t u H. unfold csub_text, csub. destruct (cwraps outer inner); [apply cspelled_parens|]; exact H.
Qed.

Lemma cspelled_value : forall v t, shows_value v t -> cspelled (value_text v) (value_tokens v).
Proof.
  intros v t H rest ks St R. destruct H as [z | z | z Z0 F | z Z0 F | w z Z0 F]; cbn [value_text value_tokens].
  - apply (reads_bracket "("); [cbn; tauto|].
    apply (reads_word (str "void") (")"%char :: "0"%char :: rest)); [|cbn; tauto|].
    + do 2 eexists. split; [reflexivity|]. split; [unfold c_nondigit; vm_compute; intuition congruence|].
      repeat constructor; unfold c_nondigit; vm_compute; intuition congruence.
    + apply (reads_bracket ")" ("0"%char :: rest)); [cbn; tauto|].
      apply (reads_number (str "0") 0%Z); [|exact St | exact R]. split; [reflexivity|]. split; [discriminate|].
      intros c r E N. injection E as <- <-. congruence.
  - destruct (z =? 0)%Z; cbn [app]; apply reads_word; try exact St; try exact R.
    + do 2 eexists. split; [reflexivity|]. split; [unfold c_nondigit; vm_compute; intuition congruence|].
      repeat constructor; unfold c_nondigit; vm_compute; intuition congruence.
    + do 2 eexists. split; [reflexivity|]. split; [unfold c_nondigit; vm_compute; intuition congruence|].
      repeat constructor; unfold c_nondigit; vm_compute; intuition congruence.
  - rewrite (proj2 (Z.leb_le 0 z)) by lia. unfold to_string_int. rewrite (proj2 (Z.leb_le 0 z)) by lia.
    rewrite big_uint_small by lia. eapply reads_number; [apply digits_of; [lia | exact F] | exact St | exact R].
  - rewrite (proj2 (Z.leb_gt 0 z)) by lia. unfold to_string_int. rewrite (proj2 (Z.leb_gt 0 z)) by lia.
    rewrite big_uint_small by lia. assert (D := digits_of (- z) ltac:(lia) F).
    rewrite <- app_assoc. apply (reads_punct "-"); [unfold punctuators; cbn [In]; tauto | discriminate | | |].
    + destruct (denotes_digits _ _ D) as [NE FD]. destruct (to_string_uint (- z)) as [|c x]; [congruence|].
      inversion FD as [|? ? C _]; subst. clear - C. cbn [app]. unfold c_digit in C.
      destruct c as [[] [] [] [] [] [] [] []]; vm_compute in C; try (exfalso; intuition congruence); vm_compute; reflexivity.
    + cbn. apply slash_first. discriminate.
    + eapply reads_number; [exact D | exact St | exact R].
  - rewrite big_uint_small by exact Z0. eapply reads_number; [apply digits_of; [exact Z0 | exact F] | exact St | exact R].
Qed.
Ltac c_word := do 2 eexists; split; [reflexivity|]; split; [unfold c_nondigit; vm_compute; intuition congruence|];
  repeat (apply Forall_cons; [unfold c_nondigit, c_digit; vm_compute; intuition congruence|]); apply Forall_nil.

Lemma type_named : forall y, has_width bits y = true -> names_type (type_tokens y) y.
Proof.
  intros y H. destruct y as [| | |w]; cbn [type_tokens]; try (destruct d; constructor).
  destruct (width_cases w H) as [W C]. destruct (bits && c_prefer_bitint o); [constructor; apply std_digits; exact W|].
  destruct ((w =? 8) || (w =? 16) || (w =? 32) || (w =? 64))%Z eqn:E; [|constructor; apply std_digits; exact W].
  rewrite !orb_true_iff, !Z.eqb_eq in E. destruct E as [[[-> | ->] | ->] | ->]; destruct (is_cpp d); cbn [app]; constructor.
Qed.

Lemma cspelled_type : forall y, has_width bits y = true -> cspelled (type_text y) (type_tokens y).
Proof.
  intros y H. destruct y as [| | |w]; cbn [type_tokens type_text].
  - apply cspelled_word. c_word.
  - destruct d; apply cspelled_word; c_word.
  - apply cspelled_word. c_word.
  - destruct (width_cases w H) as [W C].
    assert (BI : cspelled (str "unsigned _BitInt(" ++ std_to_string w ++ str ")")
      [word "unsigned"; word "_BitInt"; punct "("; Number (std_to_string w); punct ")"]).
    { intros rest ks St R. rewrite <- app_assoc. rewrite <- app_assoc.
      apply (reads_word (str "unsigned") (str " _BitInt(" ++ std_to_string w ++ str ")" ++ rest)); [c_word | cbn; tauto|].
      apply (reads_space (str "_BitInt(" ++ std_to_string w ++ str ")" ++ rest)).
      apply (reads_word (str "_BitInt") ("("%char :: std_to_string w ++ str ")" ++ rest)); [c_word | cbn; tauto|].
      apply (reads_bracket "(" (std_to_string w ++ str ")" ++ rest)); [cbn; tauto|].
      eapply reads_number; [apply std_digits; exact W | cbn; tauto|].
      apply (reads_bracket ")" rest); [cbn; tauto | exact R]. }
    destruct (bits && c_prefer_bitint o); [exact BI|].
    destruct ((w =? 8) || (w =? 16) || (w =? 32) || (w =? 64))%Z eqn:E; [|exact BI]. clear BI.
    rewrite !orb_true_iff, !Z.eqb_eq in E.
    assert (FX : is_c_word (str "uint" ++ std_to_string w ++ str "_t")).
    { destruct E as [[[-> | ->] | ->] | ->]; c_word. }
    destruct (is_cpp d); [|apply cspelled_word; exact FX].
    intros rest ks St R. rewrite <- app_assoc.
    apply (reads_word (str "std") (str "::" ++ (str "uint" ++ std_to_string w ++ str "_t") ++ rest)); [c_word | cbn; tauto|].
    apply (reads_bracket "::"); [cbn; tauto|]. apply reads_word; [exact FX | exact St | exact R].
Qed.

Lemma cspelled_join : forall ts us, Forall2 cspelled ts us -> forall rest ks, c_stops rest -> reads rest ks ->
  reads (join true ts ++ rest) (cjoin true us ++ ks) /\ reads (join false ts ++ rest) (cjoin false us ++ ks).
Proof.
  intros ts us H. induction H as [|t u ts us T H IH]; intros rest ks St R; [split; exact R|].
  destruct (IH rest ks St R) as [_ IH2]. cbn [join cjoin app]. rewrite <- !app_assoc.
  assert (K : reads (t ++ join false ts ++ rest) (u ++ cjoin false us ++ ks)).
  { apply T; [|exact IH2]. destruct ts; [exact St | cbn; tauto]. }
  split; [exact K|]. cbn [app str list_ascii_of_string].
  apply (reads_bracket "," (" "%char :: t ++ join false ts ++ rest)); [cbn; tauto|]. apply reads_space. exact K.
Qed.

Lemma binary_name : forall k op, c_binary k = Some op ->
  token_type_code_name (expression_type_token k) = str op /\ In op punctuators /\ op <> ".".
Proof.
  intros k op H. destruct k; try discriminate H; injection H as <-; (split; [reflexivity|]);
    (split; [unfold punctuators; cbn [In]; tauto | discriminate]).
Qed.
Lemma unary_name : forall k op, c_unary k = Some op ->
  token_type_code_name (expression_type_token k) = str op /\ In op ["+"; "-"; "!"; "~"].
Proof.
  intros k op H. destruct k; try discriminate H; injection H as <-; (split; [reflexivity | cbn; tauto]).
Qed.

(** The first character of an expression. *)
Definition operand_char (c : ascii) : Prop := c_nondigit c \/ c_digit c \/ In c ["("; "+"; "-"; "!"; "~"]%char.
Definition operand_head (t : text) : Prop := exists c r, t = c :: r /\ operand_char c.

Lemma head_csub : forall outer inner t u, operand_head t -> operand_head (csub_text outer inner t ++ u).
Proof.
  intros outer inner t u (c & r & -> & C). unfold csub_text. destruct (cwraps outer inner).
  - do 2 eexists. split; [reflexivity|]. right. right. cbn. tauto.
  - do 2 eexists. split; [reflexivity | exact C].
Qed.
Lemma head_value : forall v t, shows_value v t -> operand_head (value_text v).
Proof.
  intros v t H. destruct H as [z | z | z Z0 F | z Z0 F | w z Z0 F]; cbn [value_text].
  - do 2 eexists. split; [reflexivity|]. right. right. cbn. tauto.
  - destruct (z =? 0)%Z; do 2 eexists; (split; [reflexivity|]); left; unfold c_nondigit; vm_compute; intuition congruence.
  - unfold to_string_int. rewrite (proj2 (Z.leb_le 0 z)) by lia. rewrite big_uint_small by lia.
    destruct (denotes_digits _ _ (digits_of z ltac:(lia) F)) as [NE FD]. destruct (to_string_uint z) as [|c x]; [congruence|].
    inversion FD; subst. do 2 eexists. split; [reflexivity|]. right. left. assumption.
  - unfold to_string_int. rewrite (proj2 (Z.leb_gt 0 z)) by lia. do 2 eexists. split; [reflexivity|]. right. right. cbn. tauto.
  - rewrite big_uint_small by lia.
    destruct (denotes_digits _ _ (digits_of z ltac:(lia) F)) as [NE FD]. destruct (to_string_uint z) as [|c x]; [congruence|].
    inversion FD; subst. do 2 eexists. split; [reflexivity|]. right. left. assumption.
Qed.
Lemma head_name : forall x, is_name x -> exists c r, x = c :: r /\ c_nondigit c.
Proof. intros x X. destruct (name_c_word _ X) as (c & r & -> & C & _). eauto. Qed.

Lemma cpr_head : forall e t, c_shows const_value e t -> operand_head (cpr true e).
Proof.
  induction e as [cv e y IHe _ | cv l c r IHl IHc IHr | cv op l r IHl IHr | cv op e IHe
    | cv name lk st args IH | cv name lk g | cv lit k] using expr_width_induction; intros t H; inversion H; subst; cbn [cpr].
  - do 2 eexists. split; [reflexivity|]. right. right. cbn. tauto.
  - do 2 eexists. split; [reflexivity|]. right. right. cbn. tauto.
  - apply head_csub. eapply IHl. eassumption.
  - match goal with U : c_unary op = Some _ |- _ => destruct (unary_name _ _ U) as [-> Q] end.
    in_list Q; subst; do 2 eexists; (split; [reflexivity|]); right; right; cbn; tauto.
  - match goal with N : is_name _ |- _ => destruct (head_name _ N) as (a & q & -> & C) end.
    do 2 eexists. split; [reflexivity|]. left. exact C.
  - match goal with N : is_name _ |- _ => destruct (head_name _ N) as (a & q & E & C) end.
    destruct lk as [[[] m|m|f]|]; try discriminate; subst name; do 2 eexists; (split; [reflexivity|]); left; exact C.
  - match goal with V : const_value _ = Some _ |- _ => rewrite V end. eapply head_value. eassumption.
  - eapply head_value. eassumption.
Qed.

(** An operand of a prefix operator begins with a sign only if it is one. *)
Lemma sign_head : forall e t q r, c_shows const_value e t -> c_group_of (expression_type e) = cg_prefix \/
    c_group_of (expression_type e) = cg_postfix \/ c_group_of (expression_type e) = cg_primary ->
  In q ["+"; "-"] -> cpr true e = str q ++ r -> exists a, t = C_Unary (str q) a.
Proof.
  intros e t q r H G Q E.
  assert (VH : forall v u, shows_value v u -> value_text v = str q ++ r -> exists a, u = C_Unary (str q) a).
  { intros v u V EV. destruct V as [z | z | z Z0 F | z Z0 F | w z Z0 F]; cbn [value_text] in EV.
    - in_list Q; subst q; discriminate EV.
    - destruct (z =? 0)%Z; in_list Q; subst q; discriminate EV.
    - exfalso. unfold to_string_int in EV. rewrite (proj2 (Z.leb_le 0 z)) in EV by lia. rewrite big_uint_small in EV by lia.
      destruct (denotes_digits _ _ (digits_of z ltac:(lia) F)) as [_ FD]. rewrite EV in FD.
      in_list Q; subst q; inversion FD as [|? ? D _]; subst; unfold c_digit in D; vm_compute in D; intuition congruence.
    - unfold to_string_int in EV. rewrite (proj2 (Z.leb_gt 0 z)) in EV by lia. in_list Q; subst q; [discriminate EV|]. eauto.
    - exfalso. rewrite big_uint_small in EV by lia.
      destruct (denotes_digits _ _ (digits_of z ltac:(lia) F)) as [_ FD]. rewrite EV in FD.
      in_list Q; subst q; inversion FD as [|? ? D _]; subst; unfold c_digit in D; vm_compute in D; intuition congruence. }
  assert (NH : forall x s, is_name x -> x ++ s = str q ++ r -> False).
  { intros x s X EX. destruct (head_name _ X) as (c & x' & -> & C).
    in_list Q; subst q; injection EX as -> _; unfold c_nondigit in C; vm_compute in C; intuition congruence. }
  destruct H; cbn [cpr expression_type] in *.
  - in_list Q; subst q; discriminate E.
  - destruct G as [G | [G | G]]; discriminate G.
  - destruct k; try discriminate; destruct G as [G | [G | G]]; discriminate G.
  - destruct (unary_name _ _ H) as [E1 Q1]. rewrite E1 in E.
    in_list Q; subst q; in_list Q1; subst op; try discriminate E; eauto.
  - exfalso. eapply NH; [|exact E]. assumption.
  - exfalso. eapply (NH x []); [assumption|]. rewrite app_nil_r. destruct lk as [[[] m|m|f]|]; try discriminate; exact E.
  - rewrite H in E. eapply VH; eassumption.
  - eapply VH; eassumption.
Qed.

Lemma prefix_wraps : forall k e op, c_unary k = Some op -> cwraps k e = false ->
  c_group_of (expression_type e) = cg_prefix \/ c_group_of (expression_type e) = cg_postfix \/
  c_group_of (expression_type e) = cg_primary.
Proof.
  intros k e op U W. unfold cwraps in W. apply orb_false_iff in W. destruct W as [_ W]. revert W.
  generalize (expression_type e) as j. intros j. destruct k; try discriminate U; destruct j; vm_compute; intros W;
    try discriminate W; tauto.
Qed.

Lemma cspelled_prefix : forall op t u, In op ["+"; "-"; "!"; "~"] -> cspelled t u -> operand_head t ->
  (op = "+" \/ op = "-" -> forall r, t <> str op ++ r) -> cspelled (str op ++ t) (punct op :: u).
Proof.
  intros op t u Q T (c & r & -> & C) N rest ks St R. rewrite <- app_assoc. cbn [app].
  assert (PU : In op punctuators) by (in_list Q; subst op; unfold punctuators; cbn [In]; tauto).
  apply reads_punct; [exact PU | intros ->; in_list Q; discriminate | | | apply T; assumption].
  - unfold operand_char, c_nondigit, c_digit in C. in_list Q; subst op.
    + specialize (N (or_introl eq_refl) r). destruct c as [[] [] [] [] [] [] [] []]; vm_compute in C;
        try (exfalso; intuition discriminate); vm_compute; reflexivity.
    + specialize (N (or_intror eq_refl) r). destruct c as [[] [] [] [] [] [] [] []]; vm_compute in C;
        try (exfalso; intuition discriminate); vm_compute; reflexivity.
    + destruct c as [[] [] [] [] [] [] [] []]; vm_compute in C; try (exfalso; intuition discriminate); vm_compute; reflexivity.
    + destruct c as [[] [] [] [] [] [] [] []]; vm_compute in C; try (exfalso; intuition discriminate); vm_compute; reflexivity.
  - in_list Q; subst op; cbn; apply slash_first; discriminate.
Qed.

Definition apart (t : c_tree) : bool := always_parenthesize o || signs_apart t.

Lemma expr_cspelled : forall e t, c_shows const_value e t -> widths_exist bits t = true -> apart t = true ->
  forall nested, cspelled (cpr nested e) (ctk nested e).
Proof.
  assert (SA : forall a b, always_parenthesize o || (a && b) = true ->
    (always_parenthesize o || a = true) /\ (always_parenthesize o || b = true)).
  { intros a b. destruct (always_parenthesize o), a, b; auto. }
  unfold widths_exist, apart, signs_apart.
  induction e as [cv e y IHe _ | cv l c r IHl IHc IHr | cv op l r IHl IHr | cv op e IHe
    | cv name lk st args IH | cv name lk g | cv lit k] using expr_width_induction; intros t H W A nested;
    inversion H; subst; cbn [every_node] in W, A; ands;
    repeat match goal with A : _ || (_ && _) = true |- _ => apply SA in A; destruct A end; cbn [cpr ctk].
  - match goal with T : concrete_type_value y = Ok _ |- _ => unfold target_of; rewrite T end.
    intros rest ks St R. cbn [app]. apply (reads_bracket "("); [cbn; tauto|]. rewrite <- !app_assoc. cbn [app].
    apply cspelled_type; [assumption | cbn; tauto|]. apply (reads_bracket ")"); [cbn; tauto|].
    apply cspelled_sub; eauto.
  - intros rest ks St R. rewrite <- !app_assoc. cbn [app]. rewrite <- !app_assoc. cbn [app]. rewrite <- !app_assoc.
    assert (M : reads (csub_text if_expression c (cpr true c) ++ str " ? " ++ csub_text if_expression l (cpr true l) ++ str " : " ++
        csub_text if_expression r (cpr true r) ++ (if nested then [] else [")"%char]) ++ rest)
      (csub if_expression c (ctk true c) ++ punct "?" :: csub if_expression l (ctk true l) ++ punct ":" ::
        csub if_expression r (ctk true r) ++ (if nested then [] else [punct ")"]) ++ ks)).
    { apply cspelled_sub; [eauto | cbn; tauto|]. apply (reads_spaced "?"); [unfold punctuators; cbn [In]; tauto | discriminate|].
      apply cspelled_sub; [eauto | cbn; tauto|]. apply (reads_spaced ":"); [unfold punctuators; cbn [In]; tauto | discriminate|].
      apply cspelled_sub; [eauto | destruct nested; [exact St | cbn; tauto]|].
      destruct nested; [exact R|]. apply (reads_bracket ")"); [cbn; tauto | exact R]. }
    destruct nested; [|exact M]. apply (reads_bracket "("); [cbn; tauto | exact M].
  - intros rest ks St R. rewrite <- !app_assoc. cbn [app]. rewrite <- !app_assoc. cbn [app].
    match goal with B : c_binary op = Some _ |- _ => destruct (binary_name _ _ B) as (E1 & Q & N) end.
    unfold op_token. rewrite E1.
    apply cspelled_sub; [eauto | cbn; tauto|]. apply reads_spaced; [exact Q | exact N|]. apply cspelled_sub; eauto.
  - match goal with U : c_unary op = Some _ |- _ => rename U into UN; destruct (unary_name _ _ UN) as (E1 & Q) end.
    unfold op_token. rewrite E1. apply cspelled_prefix; [exact Q | apply cspelled_sub; eauto | |].
    + rewrite <- (app_nil_r (csub_text _ _ _)). apply head_csub. eapply cpr_head. eassumption.
    + intros S0 r E. unfold csub_text in E. destruct (cwraps op e) eqn:WR.
      * destruct S0; subst; discriminate E.
      * assert (SG : In op0 ["+"; "-"]) by (cbn; intuition).
        match goal with C : c_shows _ e _ |- _ =>
          destruct (sign_head _ _ op0 r C (prefix_wraps _ _ _ UN WR) SG E) as (a' & ->) end.
        unfold cwraps in WR. apply orb_false_iff in WR. destruct WR as [AL _].
        match goal with K : _ || negb (adjacent_signs _) = true |- _ => rewrite AL in K end.
        destruct S0; subst; discriminate.
  - intros rest ks St R. rewrite <- app_assoc. cbn [app]. apply reads_word; [apply name_c_word; assumption | cbn; tauto|].
    apply (reads_bracket "("); [cbn; tauto|]. rewrite <- !app_assoc. cbn [app].
    assert (F : Forall2 cspelled (map (cpr true) args) (map (ctk true) args)).
    { match goal with B : Forall2 _ args ?us, F : forallb _ ?us = true, G : _ || forallb _ ?us = true |- _ =>
        rename B into BB; rename F into FF; rename G into GG end.
      clear - IH BB FF GG SA. revert FF GG. induction BB as [|a u args us A1 BB IHB]; intros F G; cbn in *; constructor.
      - inversion IH; subst. ands. apply SA in G. destruct G. eauto.
      - inversion IH; subst. ands. apply SA in G. destruct G. eauto. }
    apply (cspelled_join _ _ F); [cbn; tauto|]. apply (reads_bracket ")"); [cbn; tauto | exact R].
  - destruct lk as [[[] m|m|f]|]; try discriminate; apply cspelled_word, name_c_word; assumption.
  - match goal with V : const_value _ = Some _ |- _ => rewrite V end. eapply cspelled_value. eassumption.
  - eapply cspelled_value. eassumption.
Qed.
End Print.
