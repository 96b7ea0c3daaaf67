(** C72: the command-line tool. *)
From Coq Require Import ZArith Ascii String List Bool Lia Permutation.
From Verif Require Import Prelude Text Types Tables Tokenizer Ops AbsOps Annotations Ast Parse NameLookup Codegen Analyze
  Programs Sources Convert FrontEnd Instantiate AnalyzeGeneric CodeString GenBase GenBms GenC GenFacts HtmlWriter
  DocHtml Diagnostics DiagnosticsSpec DiagnosticsProofs CodeStringProofs Tool.
From Verif Require LiteralsProofs BmdParse ErrorPrint CodeStringSpec CodePrintProps AnalyzeGenericProps DocTree DocTreeSpec DocTreeProofs DocTreeProps ProgramTree ProgramTreeSpec ProgramTreeProps.
Import ListNotations.
Open Scope string_scope.
Open Scope list_scope.
Open Scope nat_scope.

(** * Specification *)

(** A name with that ending. *)
Definition named (file : text) (suffix : string) : Prop := exists stem, file = stem ++ str suffix.

(** The names under which users know the languages. *)
Definition known_as (l : code_language) : list string :=
  match l with
  | cl_bms => ["bms"; "BMS"] | cl_c => ["c"; "C"] | cl_cpp => ["cpp"; "C++"; "c++"; "cxx"]
  | cl_rust => ["rust"; "Rust"; "rs"] | cl_java => ["java"; "Java"] | cl_kotlin => ["kotlin"; "Kotlin"; "kt"]
  | cl_javascript => ["javascript"; "JavaScript"; "js"; "JS"] | cl_typescript => ["TypeScript"; "ts"; "TS"]
  end.

(** * Reading files *)

Lemma read_chunks_all : forall n fuel size left out, 0 < size -> length left <= n -> n < fuel ->
  read_chunks fuel size left out = Some (out ++ left).
Proof.
  induction n as [n IH] using lt_wf_ind. intros [|fuel] size left out P L F; [lia|]. cbn [read_chunks].
  destruct (Nat.leb_spec size (length left)) as [Q|Q].
  - assert (Ls : length (skipn size left) = length left - size) by apply skipn_length.
    rewrite (IH (n - size)); try lia. rewrite <- app_assoc, firstn_skipn. reflexivity.
  - rewrite firstn_all2 by lia. reflexivity.
Qed.

(** C72. A file is read completely, whatever its size and that of the buffer. *)
Theorem C72_reads : forall size t, 0 < size -> read_chunks (S (length t)) size t [] = Some t.
Proof. intros size t P. rewrite (read_chunks_all (length t)); auto. Qed.

Example C72_reads_pieces : read_chunks 8 3 (str "abcdefg") [] = Some (str "abcdefg")
  /\ read_chunks 7 3 (str "abcdef") [] = Some (str "abcdef") /\ read_chunks 1 3 [] [] = Some [].
Proof. repeat split. Qed.

(** * Names *)

Lemma ends_with_spec : forall t s, ends_with t (str s) = true <-> named t s.
Proof.
  intros t s. unfold ends_with, named. set (u := str s). clearbody u. clear s. rewrite andb_true_iff, LiteralsProofs.text_eqb_eq, Nat.leb_le. split.
  - intros [_ H]. exists (firstn (length t - length u) t). rewrite <- H at 2. symmetry. apply firstn_skipn.
  - intros (a & ->). rewrite app_length. split; [lia|]. replace (length a + length u - length u) with (length a) by lia.
    rewrite skipn_app, skipn_all, Nat.sub_diag. reflexivity.
Qed.

(** C72. Each language is found under its names, and no other language is; other names are no languages. *)
Theorem C72_languages : forall name l,
  code_language_by_name name = Some l <-> exists s, name = str s /\ In s (known_as l).
Proof.
  intros name l. unfold code_language_by_name. split.
  - assert (X : forall t, find_name name t = Some l -> In (name, l) t).
    { induction t as [|[n x] t IH]; [discriminate|]. cbn [find_name]. destruct (text_eqb n name) eqn:Q.
      - intros H. injection H as ->. apply LiteralsProofs.text_eqb_eq in Q as ->. left. reflexivity.
      - intros H. right. auto. }
    intros H. apply X in H. clear X. unfold languages_by_name in H.
    repeat (apply in_inv in H; destruct H as [H|H];
      [apply pair_equal_spec in H as [<- <-]; eexists; split; [reflexivity|cbn; tauto]|]). destruct H.
  - intros (s & -> & H). destruct l; cbn [known_as In] in H;
      repeat (destruct H as [<-|H]; [vm_compute; reflexivity|]); destruct H.
Qed.

(** C72. Full statement (src/cli/glue.hpp:15-17): each enumerator's name is supported.  One is not. *)
Theorem C72_languages_refuted : exists l, code_language_by_name (code_language_name l) = None.
Proof. exists cl_typescript. vm_compute. reflexivity. Qed.
Theorem C72_enumerators : forall l, l <> cl_typescript -> code_language_by_name (code_language_name l) = Some l.
Proof. intros [] H; try reflexivity. destruct (H eq_refl). Qed.
Theorem C72_readable_names : forall l, code_language_by_name (code_language_readable_name l) = Some l.
Proof. intros []; reflexivity. Qed.

(** * Runs *)

Section Runs.
Variables (run_fuel fuel document_fuel : nat) (arrange : list (text * BmdParse.bmd_value) -> list (text * BmdParse.bmd_value))
  (located : list pdecl -> tool_error -> ErrorPrint.analysis_error)
  (assertion_rest exception_what : text)
  (unfinished : option BmdParse.bmd_node -> list chunk) (w : world).

Definition main_ : list text -> option (outcome unit ending) := (* the tool with these *)
  main run_fuel fuel document_fuel arrange located assertion_rest exception_what
    unfinished w.

(** The program with that text becomes, after its analysis, [a]. *)
Definition becomes (source : text) (a : list declaration) : Prop :=
  exists tokens p, tokenize source = Some (Ok tokens) /\ parse (lexemes source tokens) = Some (Ok p) /\
    analyze run_fuel fuel p = Some (Ok a).

(** There is such a program in that file. *)
Definition program_in (file : text) (a : list declaration) : Prop :=
  exists source, input w file = Content source /\ becomes source a.

(** The page of the document in that file. *)
Definition page_of (file : text) (v : writer) : Prop :=
  exists source document, input w file = Content source /\
    BmdParse.bmd_parse document_fuel source = Some (Ok document) /\ write_html arrange document = Some (Ok v).

(** ** Proof *)

(** All ends of a part of a run are failures. *)
Definition fails_in {A} (m : run A) : Prop :=
  match m with Some (Err e) => status e = 1%Z /\ console e <> [] /\ file_written e = None | _ => True end.

Lemma speaks_app : forall (a b : text), a <> [] -> a ++ b <> [].
Proof. intros [|c a] b H; [contradiction|discriminate]. Qed.

Lemma step_fails : forall E A (m : option (outcome E A)) print,
  (forall e t, print e = Ok t -> t <> []) -> fails_in (step m print).
Proof.
  intros E A [[a|e| |]|] print H; cbn; auto. destruct (print e) as [t|[]| |] eqn:Q; cbn; auto.
  repeat split. exact (H _ _ Q).
Qed.

Lemma load_fails : forall file, fails_in (load_file exception_what w file).
Proof.
  intros file. unfold load_file. destruct (input w file) as [|t|]; cbn [fails_in]; [|destruct (read_chunks _ _ _ _); exact Logic.I|];
    repeat split; discriminate.
Qed.

Lemma load_content : forall file s, load_file exception_what w file = Some (Ok s) <-> input w file = Content s.
Proof.
  intros file s. unfold load_file. destruct (input w file) as [|t|]; try (split; discriminate).
  rewrite C72_reads by lia. split; intros H; injection H as ->; reflexivity.
Qed.

Ltac opens H := unfold bind in H; repeat match type of H with
  | match ?m with _ => _ end = _ => destruct m eqn:?; try discriminate H
  end.

Lemma position_speaks : forall file p, print_file_position file p true <> [].
Proof. intros file p. discriminate. Qed.

Lemma tokenize_fails : forall source file, fails_in (tokenize_file source file).
Proof.
  intros source file. apply step_fails. intros e t H. unfold print_tokenize_error in H. opens H. injection H as <-. discriminate.
Qed.
Lemma parse_fails : forall ts source file, fails_in (parse_tokenized ts source file).
Proof.
  intros ts source file. apply step_fails. intros e t H. unfold print_parse_error in H. cbv zeta in H. opens H. injection H as <-. discriminate.
Qed.
Lemma bmd_fails : forall source file, fails_in (parse_bmd_file document_fuel source file).
Proof.
  intros source file. apply step_fails. intros e t H. unfold print_bmd_error in H. cbv zeta in H.
  match type of H with bind ?m _ = _ => destruct m as [message|x| |] eqn:Q; try discriminate H end.
  cbn [bind] in H. opens H; injection H as <-; discriminate.
Qed.

Lemma error_line_speaks : forall E file source l t, @ErrorPrint.print_error_line E file source true l = Ok t -> t <> [].
Proof.
  intros E file source l t H. unfold ErrorPrint.print_error_line in H.
  assert (X : forall r, ErrorPrint.print_source_position file (ErrorPrint.el_pos l) true ++ r <> [])
    by (intros r; destruct (ErrorPrint.el_pos l); discriminate).
  match type of H with context [ErrorPrint.print_source_position _ _ _ ++ ?r] => specialize (X r);
    set (h := ErrorPrint.print_source_position file (ErrorPrint.el_pos l) true ++ r) in * end.
  clearbody h. cbv zeta in H. unfold bind in H.
  destruct (ErrorPrint.el_pos l), (ErrorPrint.el_omit l); try (injection H as <-; exact X).
  destruct (print_affected_line _ _ _); try discriminate H. injection H as <-. apply speaks_app, X.
Qed.

(** C72 (and C68): no error of the analysis is printed as nothing. *)
Theorem C72_analysis_speaks : forall E file source e t, @ErrorPrint.print_analysis_error E file source e true = Ok t -> t <> [].
Proof.
  intros E file source e t H. unfold ErrorPrint.print_analysis_error in H.
  destruct (ErrorPrint.make_error_printable e) as [[ls i]|x| |] eqn:M; try discriminate H. cbn [bind fst snd] in H.
  assert (L : ls <> []).
  { clear H. unfold ErrorPrint.make_error_printable in M. unfold bind in M.
    repeat match type of M with
    | (if ?b then _ else _) = _ => destruct b
    | match ?m with _ => _ end = _ => destruct m; try discriminate M
    end; intros ->; discriminate M. }
  destruct ls as [|l ls]; [contradiction|]. cbn [ErrorPrint.print_error_lines] in H.
  destruct (ErrorPrint.print_error_line file source true l) as [a|x| |] eqn:P; try discriminate H. cbn [bind] in H.
  destruct (ErrorPrint.print_error_lines file source true ls) as [b|x| |]; try discriminate H. cbn [bind] in H.
  injection H as <-. rewrite <- app_assoc. apply speaks_app. exact (error_line_speaks _ _ _ _ _ P).
Qed.

Lemma analyze_fails : forall p source file, fails_in (analyze_parsed run_fuel fuel located p source file).
Proof. intros p source file. apply step_fails. intros e t H. exact (C72_analysis_speaks _ _ _ _ _ H). Qed.

Lemma then_fails : forall A B (m : run A) (f : A -> run B), fails_in m -> (forall a, fails_in (f a)) -> fails_in (then_ m f).
Proof. intros A B [[a|e| |]|] f H F; cbn; auto. Qed.

(** A run ends in one of these ways. *)
Definition good (m : run ending) : Prop :=
  match m with
  | Some (Ok e) => status e = 0%Z \/ status e = 1%Z /\ console e <> []
  | Some (Err e) => status e = 1%Z /\ console e <> []
  | _ => True
  end.

Lemma then_good : forall A (m : run A) f, fails_in m -> (forall a, good (f a)) -> good (then_ m f).
Proof. intros A [[a|e| |]|] f H F; cbn in *; auto; tauto. Qed.

Lemma printed_fails : forall A (x : outcome ending A), (forall e, x <> Err e) -> fails_in (Some x).
Proof. intros A [a|e| |] H; cbn; auto. destruct (H e eq_refl). Qed.

Lemma print_tokens_no_error : forall ts source e, @print_tokens ending ts source <> Err e.
Proof.
  induction ts as [|t ts IH]; intros source e H; [discriminate H|]. cbn [print_tokens] in H.
  unfold substr, assert_then in H. destruct (Nat.leb _ _); [|discriminate H]. cbn [bind] in H.
  destruct (@print_tokens ending ts source) as [r|x| |] eqn:Q; try discriminate H. exact (IH _ _ Q).
Qed.

Lemma print_spans_no_error : forall t l p e, @print_spans ending t l p <> Err e.
Proof.
  intros t. induction l as [|x l IH]; intros p e H; cbn [print_spans] in H; unfold substr, assert_then, bind in H;
    repeat match type of H with
    | (if ?b then _ else _) = _ => destruct b; try discriminate H
    | match ?m with _ => _ end = _ => destruct m eqn:?; try discriminate H
    end;
    repeat match goal with
    | X : (if ?b then _ else _) = Err _ |- _ => destruct b; try discriminate X
    | X : print_spans _ _ _ = Err _ |- _ => exact (IH _ _ X)
    end.
Qed.

Lemma converts_good : forall file source document shown kept, good (converts arrange assertion_rest unfinished file source document shown kept).
Proof.
  intros. unfold converts. cbv zeta. destruct (write_html arrange document) as [[v|e| |]|]; cbn [good status console]; auto.
  - destruct (print_document_error file source e true) as [t|[]| |] eqn:P; cbn [good status console]; auto.
    + right. split; [reflexivity|]. intros X. apply app_eq_nil in X as [_ X]. subst t.
      unfold print_document_error in P. cbv zeta in P. unfold bind in P.
      destruct (print_affected_line _ _ _); try discriminate P.
    + right. split; [reflexivity|]. intros X. apply app_eq_nil in X as [_ X]. discriminate X.
  - right. split; [reflexivity|]. intros X. apply app_eq_nil in X as [_ X]. discriminate X.
Qed.

Lemma tree_no_error : forall E o p e, @ProgramTree.print_program_tree E o p <> Err e.
Proof.
  intros E o p e H. destruct (ProgramTreeProps.C77_undefined E o p) as [U D].
  assert (N : ~ ProgramTreeSpec.rich_annotation p) by (intros R; apply U in R; congruence).
  destruct (D N) as (out & O). congruence.
Qed.

Lemma command_good : forall args, good (command run_fuel fuel document_fuel arrange located assertion_rest exception_what
  unfinished w args).
Proof.
  assert (F : forall t, t <> [] -> good (Some (Ok (ends 1 t)))) by (intros t T; right; auto).
  assert (Z0 : forall t, good (Some (Ok (ends 0 t)))) by (intros t; left; reflexivity).
  intros [|pn [|c [|file rest]]]; cbn [command]; try (apply F; discriminate).
  repeat match goal with |- good (if text_eqb ?x ?y then _ else _) => destruct (text_eqb x y) end.
  - unfold dump_tokens. destruct (negb _); [apply F; discriminate|].
    apply then_good; [apply load_fails|]. intros source. apply then_good; [apply tokenize_fails|]. intros ts.
    apply then_good; [apply printed_fails, print_tokens_no_error|]. intros t. apply Z0.
  - unfold dump_ast. apply then_good; [apply load_fails|]. intros source. destruct (ends_with file (str ".bms")).
    + apply then_good; [apply tokenize_fails|]. intros ts. apply then_good; [apply parse_fails|]. intros p.
      apply then_good; [apply printed_fails, tree_no_error|]. intros t. apply Z0.
    + destruct (ends_with file (str ".bmd")); [|apply F; discriminate]. apply then_good; [apply bmd_fails|]. intros d.
      apply then_good; [apply printed_fails, DocTreeProofs.document_no_error|]. intros t. apply Z0.
  - unfold check_semantics. destruct (negb _); [apply F; discriminate|].
    apply then_good; [apply load_fails|]. intros source. apply then_good; [apply tokenize_fails|]. intros ts.
    apply then_good; [apply parse_fails|]. intros p. apply then_good; [apply analyze_fails|]. intros a. apply Z0.
  - destruct rest as [|language rest]; [apply F; discriminate|]. unfold generate. destruct (negb _); [apply F; discriminate|].
    destruct (code_language_by_name language) as [l|]; [|apply F; discriminate].
    apply then_good; [apply load_fails|]. intros source. apply then_good; [apply tokenize_fails|]. intros ts.
    apply then_good; [apply parse_fails|]. intros p. apply then_good; [apply analyze_fails|]. intros a.
    destruct (generate_code l default_options a empty_code) as [out [u|e| |]]; cbn [good]; auto; [|apply F; discriminate].
    apply then_good; [apply printed_fails, print_spans_no_error|]. intros t. apply Z0.
  - unfold to_html. apply then_good; [apply load_fails|]. intros source. destruct (ends_with file (str ".bms")); [apply Z0|].
    destruct (ends_with file (str ".bmd")); [|apply F; discriminate]. apply then_good; [apply bmd_fails|]. intros d.
    destruct rest as [|name rest]; [apply converts_good|]. destruct (output w name); [apply F; discriminate|apply converts_good].
  - apply F. discriminate.
Qed.

(** ** Theorems *)

(** C72. Each run that ends reports success or failure, and each failure is told to the user; this includes
    failed assertions. *)
Theorem C72_failures_speak : forall args e, main_ args = Some (Ok e) ->
  status e = 0%Z \/ status e = 1%Z /\ console e <> [].
Proof.
  intros args e H. pose proof (command_good args) as G. unfold main_, main in H.
  destruct (command _ _ _ _ _ _ _ _ _ _) as [[x|x| |]|]; try discriminate H; injection H as <-; cbn [good] in G; auto.
  right. split; [reflexivity|discriminate].
Qed.

Lemma text_eqb_false : forall a b, a <> b -> text_eqb a b = false.
Proof. intros a b H. destruct (text_eqb a b) eqn:Q; [|reflexivity]. apply LiteralsProofs.text_eqb_eq in Q. contradiction. Qed.

Lemma becomes_spec : forall source a file (k : list declaration -> run ending),
  becomes source a ->
  then_ (tokenize_file source file) (fun tokens => then_ (parse_tokenized tokens source file) (fun p =>
    then_ (analyze_parsed run_fuel fuel located p source file) k)) = k a.
Proof.
  intros source a file k (ts & p & T & P & A). unfold tokenize_file, parse_tokenized, analyze_parsed.
  rewrite T. cbn [step then_]. rewrite P. cbn [step then_]. rewrite A. reflexivity.
Qed.

Lemma becomes_only : forall source file (k : list declaration -> run ending) e,
  then_ (tokenize_file source file) (fun tokens => then_ (parse_tokenized tokens source file) (fun p =>
    then_ (analyze_parsed run_fuel fuel located p source file) k)) = Some (Ok e) ->
  exists a, becomes source a /\ k a = Some (Ok e).
Proof.
  intros source file k e H. unfold tokenize_file in H. destruct (tokenize source) as [[ts|x| |]|] eqn:T; cbn [step then_] in H; try discriminate H.
  2:{ destruct (print_tokenize_error _ _ _ _) as [t|[]| |]; discriminate H. }
  unfold parse_tokenized in H. cbv zeta in H. destruct (parse (lexemes source ts)) as [[p|x| |]|] eqn:P; cbn [step then_] in H; try discriminate H.
  2:{ destruct (print_parse_error _ _ _ _ _) as [t|[]| |]; discriminate H. }
  unfold analyze_parsed in H. destruct (analyze run_fuel fuel p) as [[a|x| |]|] eqn:A; cbn [step then_] in H; try discriminate H.
  2:{ destruct (ErrorPrint.print_analysis_error _ _ _ _) as [t|[]| |]; discriminate H. }
  exists a. split; [exists ts, p; auto|exact H].
Qed.

Lemma loads : forall file source f, input w file = Content source -> then_ (B := ending) (load_file exception_what w file) f = f source.
Proof. intros file source f H. apply load_content in H. rewrite H. reflexivity. Qed.
Lemma loads_only : forall file (f : text -> run ending) e, then_ (load_file exception_what w file) f = Some (Ok e) ->
  exists source, input w file = Content source /\ f source = Some (Ok e).
Proof.
  intros file f e H. destruct (load_file exception_what w file) as [[s|x| |]|] eqn:L; try discriminate H.
  exists s. split; [apply (load_content file s); exact L|exact H].
Qed.

(** What a run that succeeds has computed. *)
Lemma main_success : forall args e, main_ args = Some (Ok e) -> status e = 0%Z ->
  command run_fuel fuel document_fuel arrange located assertion_rest exception_what
    unfinished w args = Some (Ok e).
Proof.
  intros args e H S. pose proof (command_good args) as G. unfold main_, main in H.
  destruct (command _ _ _ _ _ _ _ _ _ _) as [[x|x| |]|]; try discriminate H; injection H as <-; auto; cbn in *.
  - destruct G as [G _]. congruence.
  - discriminate S.
Qed.

(** C72. [verify] succeeds exactly for the names of files with programs that are accepted, and then says that
    all checks passed. *)
Theorem C72_verify : forall program_name file rest,
  (forall a, named file ".bms" -> program_in file a ->
     main_ (program_name :: str "verify" :: file :: rest) = Some (Ok (ends 0 passed_text))) /\
  (forall e, main_ (program_name :: str "verify" :: file :: rest) = Some (Ok e) -> status e = 0%Z ->
     e = ends 0 passed_text /\ named file ".bms" /\ exists a, program_in file a).
Proof.
  intros pn file rest. split.
  - intros a N (source & I & B). unfold main_, main. change (command _ _ _ _ _ _ _ _ _ (pn :: str "verify" :: file :: rest))
      with (check_semantics run_fuel fuel located exception_what w file).
    unfold check_semantics. apply ends_with_spec in N. rewrite N. cbn [negb]. rewrite (loads _ _ _ I), (becomes_spec _ a) by exact B.
    reflexivity.
  - intros e H S. apply main_success in H; [|exact S].
    change (check_semantics run_fuel fuel located exception_what w file = Some (Ok e)) in H. unfold check_semantics in H.
    destruct (ends_with file (str ".bms")) eqn:N; [|injection H as <-; discriminate S]. cbn [negb] in H. apply ends_with_spec in N.
    apply loads_only in H as (source & I & H). apply becomes_only in H as (a & B & H). injection H as <-.
    split; [reflexivity|]. split; [exact N|]. exists a, source. auto.
Qed.

(** C72. [generate] succeeds exactly for programs that are accepted, with a language that has a generator which
    does not fail; then it shows the code that was generated. *)
Theorem C72_generate : forall program_name file name rest,
  (forall a l out, named file ".bms" -> program_in file a -> code_language_by_name name = Some l ->
     generate_code l default_options a empty_code = (out, Ok tt) ->
     exists t, main_ (program_name :: str "generate" :: file :: name :: rest) = Some (Ok (ends 0 t)) /\
       shows t (cs_text out)) /\
  (forall e, main_ (program_name :: str "generate" :: file :: name :: rest) = Some (Ok e) -> status e = 0%Z ->
     named file ".bms" /\ exists a l out, program_in file a /\ code_language_by_name name = Some l /\
       generate_code l default_options a empty_code = (out, Ok tt) /\ shows (console e) (cs_text out)).
Proof.
  assert (W : forall l o a out r, generate_code l o a empty_code = (out, r) -> CodeStringSpec.well_spanned out).
  { intros l o a out r H. destruct l; cbn [generate_code] in H; try (injection H as <- _; exact well_spanned_empty).
    - unfold generate_bms_code, bms_program in H.
      pose proof (attempt_appends false _ (bms_program_appends o a) (GS empty_code 0 true)) as (_ & X & _).
      destruct (attempt _ _) as [s r']. injection H as <- _. apply X, well_spanned_empty.
    - unfold generate_c_cpp_code, c_program in H. cbv zeta in H. set (d := if c_23 o then _ else _) in H. set (cs := find_const _) in H.
      pose proof (attempt_appends true _ (c_declarations_appends o d cs a true) (GS empty_code 0 true)) as (_ & X & _).
      destruct (attempt _ _) as [s r']. injection H as <- _. apply X, well_spanned_empty.
    - unfold generate_c_cpp_code, c_program in H. cbv zeta in H. set (cs := find_const _) in H.
      pose proof (attempt_appends true _ (c_declarations_appends o cpp20 cs a true) (GS empty_code 0 true)) as (_ & X & _).
      destruct (attempt _ _) as [s r']. injection H as <- _. apply X, well_spanned_empty. }
  intros pn file name rest. split.
  - intros a l out N (source & I & B) L Gn. destruct (CodePrintProps.C67_code ending out (W _ _ _ _ _ Gn)) as (t & P & Sh & _).
    exists t. split; [|exact Sh]. unfold main_, main. change (command _ _ _ _ _ _ _ _ _ (pn :: str "generate" :: file :: name :: rest))
      with (generate run_fuel fuel located exception_what w file name).
    unfold generate. apply ends_with_spec in N. rewrite N. cbn [negb]. rewrite L, (loads _ _ _ I), (becomes_spec _ a) by exact B.
    rewrite Gn, P. reflexivity.
  - intros e H S. apply main_success in H; [|exact S].
    change (generate run_fuel fuel located exception_what w file name = Some (Ok e)) in H. unfold generate in H.
    destruct (ends_with file (str ".bms")) eqn:N; [|injection H as <-; discriminate S]. cbn [negb] in H. apply ends_with_spec in N.
    split; [exact N|]. destruct (code_language_by_name name) as [l|] eqn:L; [|injection H as <-; discriminate S].
    apply loads_only in H as (source & I & H). apply becomes_only in H as (a & B & H).
    destruct (generate_code l default_options a empty_code) as [out r] eqn:Gn. destruct r as [[]|x| |]; try discriminate H.
    2:{ injection H as <-. discriminate S. }
    destruct (CodePrintProps.C67_code ending out (W _ _ _ _ _ Gn)) as (t & P & Sh & _). rewrite P in H. injection H as <-.
    exists a, l, out. split; [exists source; auto|]. auto.
Qed.

(** C72. There are three generators; with any other language, programs that are accepted end with the report of a
    failed assertion. *)
Theorem C72_not_implemented : forall program_name file name rest a l, named file ".bms" -> program_in file a ->
  code_language_by_name name = Some l -> l <> cl_bms -> l <> cl_c -> l <> cl_cpp ->
  main_ (program_name :: str "generate" :: file :: name :: rest) = Some (Ok (ends 1 (assertion_text assertion_rest))).
Proof.
  intros pn file name rest a l N (source & I & B) L A1 A2 A3. unfold main_, main.
  change (command _ _ _ _ _ _ _ _ _ (pn :: str "generate" :: file :: name :: rest))
    with (generate run_fuel fuel located exception_what w file name).
  unfold generate. apply ends_with_spec in N. rewrite N. cbn [negb]. rewrite L, (loads _ _ _ I), (becomes_spec _ a) by exact B.
  destruct l; try contradiction; reflexivity.
Qed.

Lemma shows_page : forall l, shows (colored_page l) (simple_page l).
Proof.
  assert (X : forall k, escape (html_color k)).
  { intros []; first [apply escape_reset|apply escape_h_black|apply escape_h_blue|apply escape_black|apply escape_h_cyan
      |apply escape_h_green]. }
  induction l as [|c l IH]; [constructor|]. unfold colored_page, simple_page. cbn [flat_map].
  rewrite <- app_assoc. apply (shows_app _ _ []); [apply shows_escape, X|]. apply shows_app; [apply shows_refl|exact IH].
Qed.

(** C72. [html] with one file shows the page of its document. *)
Theorem C72_html_console : forall program_name file v, named file ".bmd" -> page_of file v ->
  exists t, main_ [program_name; str "html"; file] = Some (Ok (ends 0 t)) /\ shows t (written v).
Proof.
  intros pn file v N (source & d & I & P & H). exists (colored_page (w_out v)). split; [|apply shows_page].
  unfold main_, main. change (command _ _ _ _ _ _ _ _ _ [pn; str "html"; file])
    with (to_html document_fuel arrange assertion_rest exception_what unfinished w file None).
  unfold to_html. rewrite (loads _ _ _ I). destruct (ends_with file (str ".bms")) eqn:M.
  { exfalso. apply ends_with_spec in M. destruct M as (a & ->), N as (b & N). apply (f_equal (@rev ascii)) in N. rewrite !rev_app_distr in N. discriminate N. }
  apply ends_with_spec in N. rewrite N. unfold parse_bmd_file. rewrite P. cbn [step then_]. unfold converts. rewrite H. reflexivity.
Qed.

(** C72. [html] with two files writes the page to the second one, without colours, as far as there is room. *)
Theorem C72_html_file : forall program_name file name rest v room, named file ".bmd" -> page_of file v ->
  output w name = Room room ->
  main_ (program_name :: str "html" :: file :: name :: rest)
  = Some (Ok (Ending 0 [] (Some (name, stored room (written v))))).
Proof.
  intros pn file name rest v room N (source & d & I & P & H) R.
  unfold main_, main. change (command _ _ _ _ _ _ _ _ _ (pn :: str "html" :: file :: name :: rest))
    with (to_html document_fuel arrange assertion_rest exception_what unfinished w file (Some name)).
  unfold to_html. rewrite (loads _ _ _ I). destruct (ends_with file (str ".bms")) eqn:M.
  { exfalso. apply ends_with_spec in M. destruct M as (a & ->), N as (b & N). apply (f_equal (@rev ascii)) in N. rewrite !rev_app_distr in N. discriminate N. }
  apply ends_with_spec in N. rewrite N. unfold parse_bmd_file. rewrite P. cbn [step then_]. rewrite R. unfold converts. rewrite H. reflexivity.
Qed.

Lemma same_end : forall (a e : ending), Some (Ok (E := ending) a) = Some (Ok e) -> e = a.
Proof. intros a e H. injection H as ->. reflexivity. Qed.
Lemma converts_success : forall file source d shown kept e,
  converts arrange assertion_rest unfinished file source d shown kept = Some (Ok e) -> status e = 0%Z ->
  exists v, write_html arrange d = Some (Ok v) /\ e = Ending 0 (shown (w_out v)) (kept (w_out v)).
Proof.
  intros file source d shown kept e C S. revert C. unfold converts. cbv zeta. destruct (write_html arrange d) as [[v|x| |]|]; intros C; try discriminate C.
  - apply same_end in C. eauto.
  - revert C. destruct (print_document_error file source x true) as [t|[]| |]; intros C; try discriminate C; apply same_end in C; rewrite C in S; discriminate S.
  - apply same_end in C. rewrite C in S. discriminate S.
Qed.

Lemma to_html_success : forall file out e,
  to_html document_fuel arrange assertion_rest exception_what unfinished w file out = Some (Ok e) -> status e = 0%Z ->
  ~ named file ".bms" -> named file ".bmd" /\ exists v, page_of file v /\
    match out with
    | None => shows (console e) (written v) /\ file_written e = None
    | Some name => exists room, output w name = Room room /\ file_written e = Some (name, stored room (written v))
    end.
Proof.
  intros file out e H S N. unfold to_html in H. apply loads_only in H as (source & I & H).
  destruct (ends_with file (str ".bms")) eqn:M; [apply ends_with_spec in M; contradiction|].
  destruct (ends_with file (str ".bmd")) eqn:M'; [|injection H as <-; discriminate S]. apply ends_with_spec in M'. split; [exact M'|].
  unfold parse_bmd_file in H. destruct (BmdParse.bmd_parse document_fuel source) as [[d|x| |]|] eqn:P; cbn [step then_] in H; try discriminate H.
  2:{ destruct (print_bmd_error _ _ _ _) as [t|[]| |]; discriminate H. }
  destruct out as [name|].
  - destruct (output w name) as [|room] eqn:O; [injection H as <-; discriminate S|]. apply converts_success in H as (v & V & ->); [|exact S].
    exists v. split; [exists source, d; auto|]. exists room. split; reflexivity.
  - apply converts_success in H as (v & V & ->); [|exact S]. exists v. split; [exists source, d; auto|]. split; [apply shows_page|reflexivity].
Qed.

(** C72. Full statement: [html] succeeds only if the page was made.  Missing are files whose names end with [.bms]. *)
Theorem C72_html_success_partial : forall program_name file rest e,
  main_ (program_name :: str "html" :: file :: rest) = Some (Ok e) -> status e = 0%Z -> ~ named file ".bms" ->
  named file ".bmd" /\ exists v, page_of file v /\
    match rest with
    | [] => shows (console e) (written v) /\ file_written e = None
    | name :: _ => exists room, output w name = Room room /\ file_written e = Some (name, stored room (written v))
    end.
Proof.
  intros pn file rest e H S N. apply main_success in H; [|exact S].
  revert H. destruct rest as [|name rest].
  - change (command _ _ _ _ _ _ _ _ _ [pn; str "html"; file])
      with (to_html document_fuel arrange assertion_rest exception_what unfinished w file None).
    intros H. exact (to_html_success file None e H S N).
  - change (command _ _ _ _ _ _ _ _ _ (pn :: str "html" :: file :: name :: rest))
      with (to_html document_fuel arrange assertion_rest exception_what unfinished w file (Some name)).
    intros H. exact (to_html_success file (Some name) e H S N).
Qed.

(** C72. A program without calls of bit-generic functions is accepted by [verify] and [generate] if and only if
    [FrontEnd.compile] accepts it, to which C57 and C58 belong; for the others see C70. *)
Theorem C72_accepted : forall source, compile run_fuel fuel source <> Some (Err (fe_analysis outside_model)) ->
  ((exists a, becomes source a) <-> exists c, compile run_fuel fuel source = Some (Ok c)).
Proof.
  intros source. unfold becomes, compile. destruct (tokenize source) as [[ts|x| |]|]; intros O;
    try (split; [intros (a & ? & ? & X & _); discriminate X|intros (c & X); discriminate X]).
  destruct (parse (lexemes source ts)) as [[p|x| |]|] eqn:P;
    try (split; [intros (a & ts' & p' & X & Y & _); injection X as <-; rewrite P in Y; discriminate Y|intros (c & X); discriminate X]).
  assert (A : (exists a, analyze run_fuel fuel p = Some (Ok a)) <-> exists c, analyze_tree run_fuel fuel p = Some (Ok c)).
  { revert O. unfold analyze, analyze_tree. destruct (convert_program p) as [l|x| |]; cbn [bind];
      try (intros _; split; intros (y & Y); discriminate Y).
    destruct (resolve_annotations p) as [u|x| |]; cbn [bind step_error]; try (intros _; split; intros (y & Y); discriminate Y).
    destruct (name_lookup l) as [l'|x| |]; cbn [step_error]; try (intros _; split; intros (y & Y); discriminate Y).
    intros O. destruct (AnalyzeGenericProps.C70_conservative run_fuel fuel (table_of l') (after_all (nodes_of l')) (items_of l')) as [H|H].
    { rewrite H in O. destruct (O eq_refl). }
    destruct (analyze_program run_fuel fuel (table_of l') (items_of l')) as [[[i st]|x| |]|],
      (analyze_generic run_fuel fuel (table_of l') (after_all (nodes_of l')) (items_of l')) as [[[i' g]|x'| |]|];
      try contradiction; cbn [step_error bind]; split; intros (y & Y); try discriminate Y; eauto. }
  split.
  - intros (a & ts' & p' & X & Y & Z). injection X as <-. rewrite P in Y. injection Y as <-. apply A. eauto.
  - intros H. apply A in H as (a & H). exists a, ts, p. auto.
Qed.

(** A run that writes no file. *)
Definition no_file (m : run ending) : Prop :=
  match m with Some (Ok e) | Some (Err e) => file_written e = None | _ => True end.
Lemma then_no_file : forall A (m : run A) f, fails_in m -> (forall a, no_file (f a)) -> no_file (then_ m f).
Proof. intros A [[a|e| |]|] f H F; cbn in *; auto; tauto. Qed.
Lemma converts_no_file : forall file source document shown,
  no_file (converts arrange assertion_rest unfinished file source document shown (fun _ => None)).
Proof.
  intros. unfold converts. cbv zeta. destruct (write_html arrange document) as [[v|e| |]|]; cbn; auto.
  destruct (print_document_error file source e true) as [t|[]| |]; cbn; auto.
Qed.

Ltac no_file := repeat match goal with
  | |- no_file (then_ _ _) => apply then_no_file;
      [first [apply load_fails|apply tokenize_fails|apply parse_fails|apply analyze_fails|apply bmd_fails
             |apply printed_fails, print_tokens_no_error|apply printed_fails, print_spans_no_error
             |apply printed_fails, DocTreeProofs.document_no_error|apply printed_fails, tree_no_error]|intros ?]
  | |- no_file (if ?b then _ else _) => destruct b eqn:?
  | |- no_file (Some _) => exact eq_refl || exact Logic.I
  | |- no_file (match ?r with [] => _ | _ :: _ => _ end) => destruct r
  end.

(** C72. Only [html] writes a file, and only the second one; the program or document is never changed unless it
    is that one. *)
Theorem C72_files : forall args e name t, main_ args = Some (Ok e) -> file_written e = Some (name, t) ->
  exists program_name file rest, args = program_name :: str "html" :: file :: name :: rest /\ named file ".bmd".
Proof.
  intros args e name t H F.
  assert (Q : no_file (command run_fuel fuel document_fuel arrange located assertion_rest exception_what
    unfinished w args) -> False).
  { intros Q. unfold main_, main in H. destruct (command _ _ _ _ _ _ _ _ _ _) as [[x|x| |]|]; try discriminate H;
      injection H as <-; cbn in *; congruence. }
  destruct args as [|pn [|c [|file rest]]]; cbn [command] in Q; try (destruct (Q eq_refl)).
  destruct (text_eqb c (str "dump_tokens")); [destruct Q; unfold dump_tokens; no_file|].
  destruct (text_eqb c (str "dump_ast")); [destruct Q; unfold dump_ast; no_file|].
  destruct (text_eqb c (str "verify")); [destruct Q; unfold check_semantics; no_file|].
  destruct (text_eqb c (str "generate")).
  { destruct Q. no_file. unfold generate. no_file. destruct (code_language_by_name t0) as [l|]; no_file.
    destruct (generate_code l default_options a2 empty_code) as [out [u|x| |]]; no_file. }
  destruct (text_eqb c (str "html")) eqn:C; [|destruct (Q eq_refl)]. apply LiteralsProofs.text_eqb_eq in C as ->.
  destruct rest as [|name' rest].
  { destruct Q. unfold to_html. no_file. apply converts_no_file. }
  destruct (ends_with file (str ".bms")) eqn:M; [destruct Q; unfold to_html; rewrite M; no_file|].
  destruct (ends_with file (str ".bmd")) eqn:M'; [|destruct Q; unfold to_html; rewrite M, M'; no_file].
  exists pn, file, rest. split; [|apply ends_with_spec; exact M'].
  cut (name = name'); [intros ->; reflexivity|].
  assert (Y : match command run_fuel fuel document_fuel arrange located assertion_rest exception_what
    unfinished w (pn :: str "html" :: file :: name' :: rest) with
    | Some (Ok e) | Some (Err e) => match file_written e with Some (n, _) => n = name' | None => True end | _ => True end).
  { change (command _ _ _ _ _ _ _ _ _ (pn :: str "html" :: file :: name' :: rest))
    with (to_html document_fuel arrange assertion_rest exception_what unfinished w file (Some name')).
    unfold to_html. rewrite M, M'. pose proof (load_fails file) as Lf. destruct (load_file exception_what w file) as [[s|x| |]|]; cbn [then_]; auto.
    2:{ destruct Lf as (_ & _ & ->). exact Logic.I. }
    pose proof (bmd_fails s file) as Bf. destruct (parse_bmd_file document_fuel s file) as [[d|x| |]|]; cbn [then_]; auto.
    2:{ destruct Bf as (_ & _ & ->). exact Logic.I. }
    destruct (output w name'); [exact Logic.I|]. unfold converts. cbv zeta.
    destruct (write_html arrange d) as [[v|x| |]|]; auto.
    - reflexivity.
    - destruct (print_document_error file s x true) as [u|[]| |]; auto; reflexivity.
    - reflexivity. }
  unfold main_, main in H. destruct (command _ _ _ _ _ _ _ _ _ _) as [[x|x| |]|]; try discriminate H;
    injection H as <-; try rewrite F in Y; auto; discriminate F.
Qed.

(** C74. [dump_ast] shows the tree of every document that can be parsed, and ends with status 0. *)
Theorem C74_dump : forall pn file rest source root, named file ".bmd" -> input w file = Content source ->
  BmdParse.bmd_parse document_fuel source = Some (Ok root) -> (forall l, Permutation (arrange l) l) ->
  exists lines, main_ (pn :: str "dump_ast" :: file :: rest) = Some (Ok (ends 0 (concat lines))) /\
    Forall2 (DocTreeSpec.line_of 2 30 true) (DocTreeSpec.walk_document arrange source root) lines.
Proof.
  intros pn file rest source root N I P A.
  destruct (DocTreeProps.C74_tree ending arrange DocTree.dump_options document_fuel source root A P) as (lines & T & L).
  exists lines. split; [|exact L]. unfold main_, main. change (command _ _ _ _ _ _ _ _ _ (pn :: str "dump_ast" :: file :: rest))
    with (dump_ast document_fuel arrange exception_what w file).
  assert (M : ends_with file (str ".bmd") = true) by (apply ends_with_spec; exact N).
  assert (M' : ends_with file (str ".bms") = false).
  { destruct (ends_with file (str ".bms")) eqn:X; [|reflexivity]. exfalso. apply ends_with_spec in X. destruct X as (a & ->), N as (b & N). apply (f_equal (@rev ascii)) in N. rewrite !rev_app_distr in N. discriminate N. }
  unfold dump_ast. rewrite (loads _ _ _ I). rewrite M', M. unfold parse_bmd_file. rewrite P. cbn [step then_].
  rewrite T. reflexivity.
Qed.
(** C77. [dump_ast] shows the tree of every program that can be parsed, and ends with status 0, unless an annotation has more
    than one argument; in that case its behaviour is undefined. *)
Theorem C77_dump : forall pn file rest source tokens p, named file ".bms" -> input w file = Content source ->
  tokenize source = Some (Ok tokens) -> parse (lexemes source tokens) = Some (Ok p) ->
  (~ ProgramTreeSpec.rich_annotation p -> exists v, ProgramTreeSpec.unnumbered v = ProgramTreeSpec.view_program p /\
     main_ (pn :: str "dump_ast" :: file :: rest) = Some (Ok (ends 0 (ProgramTreeSpec.layout true 2 Diagnostics.number 0 [] v)))) /\
  (ProgramTreeSpec.rich_annotation p -> main_ (pn :: str "dump_ast" :: file :: rest) = Some UB).
Proof.
  intros pn file rest source tokens p N I T P.
  assert (M : ends_with file (str ".bms") = true) by (apply ends_with_spec; exact N).
  unfold main_, main. change (command _ _ _ _ _ _ _ _ _ (pn :: str "dump_ast" :: file :: rest))
    with (dump_ast document_fuel arrange exception_what w file).
  unfold dump_ast. rewrite (loads _ _ _ I). rewrite M. unfold tokenize_file. rewrite T. cbn [step then_].
  unfold parse_tokenized. rewrite P. cbn [step then_]. split; intros R.
  - destruct (ProgramTreeProps.C77_lines_partial ending ProgramTree.dump_program_options p R) as (v & V & U & _).
    exists v. split; [exact U|]. rewrite V. reflexivity.
  - apply (ProgramTreeProps.C77_undefined ending ProgramTree.dump_program_options p) in R. rewrite R. reflexivity.
Qed.
End Runs.

(** * Counterexamples *)

Section Counterexamples.
Variables (run_fuel fuel : nat) (located : list pdecl -> tool_error -> ErrorPrint.analysis_error)
  (assertion_rest exception_what : text)
  (unfinished : option BmdParse.bmd_node -> list chunk).

Definition tool (w : world) (args : list string) : option (outcome unit ending) := (* the tool with these *)
  main run_fuel fuel 200 (fun l => l) located assertion_rest exception_what
    unfinished w (map str args).

(** A world in which all files have that text, and all can be written. *)
Definition all_files (source : string) (room : option nat) : world :=
  World (fun _ => Content (str source)) (fun _ => Room room).

(** C72. [html] says that a program cannot be converted and reports success (src/cli/main.cpp:74-77). *)
Theorem C72_html_program_refuted : forall source,
  tool (all_files source None) ["bitmanip"; "html"; "a.bms"; "a.html"] = Some (Ok (ends 0 not_supported_text)).
Proof.
  intros source. unfold tool, main. cbn [map]. change (command _ _ _ _ _ _ _ _ _ _)
    with (to_html 200 (fun l => l) assertion_rest exception_what unfinished (all_files source None) (str "a.bms") (Some (str "a.html"))).
  unfold to_html, load_file. cbn [input all_files]. rewrite C72_reads by lia. reflexivity.
Qed.

(** C72. If there is no room for the page, success is reported all the same: nobody looks at the results of
    [HTML_Token_Consumer::write]. *)
Theorem C72_no_room_refuted : exists source room page,
  tool (all_files source None) ["bitmanip"; "html"; "a.bmd"; "a.html"] = Some (Ok (Ending 0 [] (Some (str "a.html", page)))) /\
  tool (all_files source (Some room)) ["bitmanip"; "html"; "a.bmd"; "a.html"]
  = Some (Ok (Ending 0 [] (Some (str "a.html", firstn room page)))) /\ room < length page.
Proof.
  exists "some text", 20. eexists. split; [vm_compute; reflexivity|]. split; [vm_compute; reflexivity|]. vm_compute. lia.
Qed.

Lemma hr_document : exists n, BmdParse.bmd_parse 200 (str "\hr") = Some (Ok n) /\ write_html (fun l => l) n = Some Abort.
Proof.
  exists match BmdParse.bmd_parse 200 (str "\hr") with Some (Ok n) => n | _ => None end. split; vm_compute; reflexivity.
Qed.

(** C72. A conversion that fails has emptied the output file before: what was there is lost, also if that is the
    document itself. *)
Theorem C72_lost_refuted : exists source e t, status e = 1%Z /\ file_written e = Some (str "a.bmd", t) /\
  tool (all_files source None) ["bitmanip"; "html"; "a.bmd"; "a.bmd"] = Some (Ok e).
Proof.
  destruct hr_document as (n & P & H). exists "\hr". eexists. eexists. split; [|split]; cycle 2.
  - unfold tool, main. cbn [map]. change (command _ _ _ _ _ _ _ _ _ _)
      with (to_html 200 (fun l => l) assertion_rest exception_what unfinished (all_files "\hr" None) (str "a.bmd") (Some (str "a.bmd"))).
    unfold to_html, load_file. cbn [input all_files]. rewrite C72_reads by lia. cbn [then_].
    change (ends_with (str "a.bmd") (str ".bms")) with false. change (ends_with (str "a.bmd") (str ".bmd")) with true.
    cbn match. unfold parse_bmd_file. rewrite P. cbn [step then_ output all_files]. unfold converts. rewrite H. reflexivity.
  - reflexivity.
  - reflexivity.
Qed.

(** C72. The terminal stays red after a message about a wrong name (src/cli/main.cpp:38): nothing after the colour
    sets it back. *)
Theorem C72_color_refuted : forall w, exists t, tool w ["bitmanip"; "verify"; "a.txt"] = Some (Ok (ends 1 (ansi_red ++ t))) /\
  ~ In "027"%char t.
Proof. intros w. eexists. split; [reflexivity|]. vm_compute. intuition discriminate. Qed.

(** C72. The help says that [dump_tokens] takes documents (src/cli/main.cpp:169); it does not. *)
Theorem C72_help_refuted : In (str "dump_tokens", str "FILE", str "Prints BMS/BMD tokens.") command_helps /\
  forall w, tool w ["bitmanip"; "dump_tokens"; "a.bmd"] = Some (Ok (ends 1 suffix_text)).
Proof. split; [left; reflexivity|]. reflexivity. Qed.

(** A file that cannot be opened, one that cannot be read, and too few arguments. *)
Example C72_unopenable : tool (World (fun _ => Unopenable) (fun _ => Room None)) ["bitmanip"; "verify"; "a.bms"]
  = Some (Ok (ends 1 (cannot_open_text (str "a.bms")))).
Proof. reflexivity. Qed.
Example C72_directory : tool (World (fun _ => Broken) (fun _ => Room None)) ["bitmanip"; "verify"; "a.bms"]
  = Some (Ok (ends 1 (exception_text exception_what))).
Proof. reflexivity. Qed.
Example C72_few_arguments : forall w, tool w ["bitmanip"; "verify"] = Some (Ok (ends 1 (help_text (str "bitmanip")))).
Proof. reflexivity. Qed.
End Counterexamples.

(** Programs that are accepted and rejected. *)
Definition sample_tool : world -> list string -> option (outcome unit ending) :=
  tool 1000 20 (fun _ _ => ErrorPrint.AnalysisError (ErrorPrint.d_plain ErrorPrint.ac_condition_not_bool) ErrorPrint.ex_none
      (ErrorPrint.DebugInfo ErrorPrint.dc_program None []) None None None)
    [] [] (fun _ => []).
Example C72_accepted_example :
  sample_tool (all_files "function f(x: Uint(8)) -> Uint(8) { return x + (1 as Uint(8)); } const c: Uint(8) = f(2 as Uint(8)); static_assert(c == 3); " None)
    ["bitmanip"; "verify"; "a.bms"] = Some (Ok (ends 0 passed_text)).
Proof. vm_compute. reflexivity. Qed.
Example C72_rejected_example :
  match sample_tool (all_files "function f(x: Uint(8)) -> Uint(8) { return x; } const c: Uint(8) = f(2 as Uint(8)); static_assert(c == 3); " None)
    ["bitmanip"; "verify"; "a.bms"] with Some (Ok e) => status e | _ => 2%Z end = 1%Z.
Proof. vm_compute. reflexivity. Qed.
Definition uncolored (o : option (outcome unit ending)) : option (Z * text) :=
  (* the console without colours: a sequence ends with the letter m *)
  match o with
  | Some (Ok e) =>
      Some (status e, fst (fold_left (fun '(out, inside) c =>
        if Ascii.eqb c "027" then (out, true) else if inside then (out, negb (Ascii.eqb c "m")) else (out ++ [c], inside))
        (console e) ([], false)))
  | _ => None
  end.
Example C72_generated_example :
  uncolored (sample_tool (all_files "function f() -> Uint(8) { return 5 as Uint(8); } " None) ["bitmanip"; "generate"; "a.bms"; "c"])
  = Some (0%Z, str "uint8_t f(void) {
    return (uint8_t)5;
}
").
Proof. vm_compute. reflexivity. Qed.
Example C72_page_example :
  sample_tool (all_files "\b{t} and text" None) ["bitmanip"; "html"; "a.bmd"; "a.html"]
  = Some (Ok (Ending 0 [] (Some (str "a.html", str "<!DOCTYPE html>
<html>
<head>
  <link rel=stylesheet href=""/css/code.css""/>
  <link rel=stylesheet href=""/css/main.css""/>
</head>
<body>
<p>
  <b>t</b> and text
</p>
</body>
</html>
")))).
Proof. vm_compute. reflexivity. Qed.

(** An example for [C77_dump]: a program that is shown, and one that is not. *)
Example C77_dump_example :
  uncolored (sample_tool (all_files "static_assert(1 == x); " None) ["bitmanip"; "dump_ast"; "a.bms"])
  = Some (0%Z, str "4:Program(static_assert)
  3:Static_Assert(static_assert)
    2:expression=Binary_Expression(==)
      0:left=Literal(1)
      1:right=Id_Expression(x)
") /\
  sample_tool (all_files "@a(1, 2) const x = 1; " None) ["bitmanip"; "dump_ast"; "a.bms"] = Some UB.
Proof. split; vm_compute; reflexivity. Qed.

(** * Assumptions of the theorems above *)
Print Assumptions C72_reads.
Print Assumptions C72_languages.
Print Assumptions C72_languages_refuted.
Print Assumptions C72_enumerators.
Print Assumptions C72_readable_names.
Print Assumptions C72_analysis_speaks.
Print Assumptions C72_failures_speak.
Print Assumptions C72_verify.
Print Assumptions C72_generate.
Print Assumptions C72_not_implemented.
Print Assumptions C72_html_console.
Print Assumptions C72_html_file.
Print Assumptions C72_html_success_partial.
Print Assumptions C72_accepted.
Print Assumptions C72_files.
Print Assumptions C74_dump.
Print Assumptions C77_dump.
Print Assumptions C72_html_program_refuted.
Print Assumptions C72_no_room_refuted.
Print Assumptions C72_lost_refuted.
Print Assumptions C72_color_refuted.
Print Assumptions C72_help_refuted.
