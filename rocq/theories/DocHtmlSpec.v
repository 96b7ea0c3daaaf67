(** What the HTML page of a BMD document should be, stated without the converter: the events that a
    reader of HTML should see. *)
From Coq Require Import ZArith Ascii String List Bool.
From Verif Require Import Prelude Text Literals Tables Tokenizer TokenizerSpec Parse GrammarSpec HtmlWriter HtmlWriterSpec
  Decimal Directives DirectivesSpec BmdParse BmdParseSpec.
Import ListNotations.
Open Scope string_scope.
Open Scope list_scope.
Open Scope Z_scope.

(** * White space *)

(** What a reader shows of white space: a run of it is one space.  [after]: white space came before. *)
Fixpoint collapse (after : bool) (l : list event) : list event :=
  match l with
  | [] => []
  | E_char c :: r =>
      if is_html_space c then (if after then collapse true r else E_char " " :: collapse true r)
      else E_char c :: collapse false r
  | e :: r => e :: collapse false r
  end.

(** Two sequences of events look the same. *)
Definition looks_like (a b : list event) : Prop := collapse false a = collapse false b.

(** Only what is not white space. *)
Definition ink (l : list event) : list event :=
  filter (fun e => match e with E_char c => negb (is_html_space c) | _ => true end) l.

(** * Pieces of a page *)

Definition blank_space : list event := [E_char " "%char].

(** A character of a text: angle brackets are written as character references. *)
Definition reference (c : ascii) : text :=
  if Ascii.eqb c "<" then str "&lt;" else if Ascii.eqb c ">" then str "&gt;" else [c].

Definition text_events (t : text) : list event := map E_char (flat_map reference t).

(** An element in a line of text, and one that stands on its own lines. *)
Definition inline_element (name : text) (attributes : list (text * text)) (inner : list event) : list event :=
  E_open name attributes false :: inner ++ [E_close name].
Definition block_element (name : text) (attributes : list (text * text)) (inner : list event) : list event :=
  blank_space ++ [E_open name attributes false] ++ blank_space ++ inner ++ blank_space ++ [E_close name]
  ++ blank_space.

(** White space stands between two things that are not next to each other. *)
Definition gap (a b : source_span) : list event :=
  if sp_begin a + sp_length a =? sp_begin b then [] else blank_space.

(** * Code *)

Definition one_of (t : text) (l : list string) : bool := existsb (fun s => text_eqb t (str s)) l.

(** The element for a token of the language, by the text of the token. *)
Definition category (t : text) : text :=
  if one_of t ["let"; "const"; "function"; "while"; "if"; "else"; "requires"; "return"; "break";
               "continue"; "static_assert"; "as"] then str "c-key"
  else if one_of t ["true"; "false"] then str "c-bol"
  else if one_of t ["Uint"; "Int"; "Bool"; "Void"] then str "c-typ"
  else if one_of t ["("; ")"; "{"; "}"] then str "c-bra"
  else if one_of t ["@"; "."; ":"; ","; ";"; "->"] then str "c-pun"
  else if one_of t ["=>"] then str "c-err"
  else match t with
       | c :: d =>
           if is_decimal_digit c then str "c-int"
           else if in_set c (str "abcdefghijklmnopqrstuvwxyzABCDEFGHIJKLMNOPQRSTUVWXYZ_") then str "c-idn"
           else if Ascii.eqb c ch_quote then str "c-str"
           else if starts_with t (str "//") || starts_with t (str "/*") then str "c-com"
           else str "c-opr"
       | [] => str "c-opr"
       end.

(** Code: an element for each token. *)
Fixpoint token_events (code : text) (previous : option token) (l : list token) : list event :=
  match l with
  | [] => []
  | t :: r =>
      match previous with
      | None => []
      | Some p => if Nat.eqb (tok_end p) (tok_begin t) then [] else blank_space
      end
      ++ inline_element (category (tok_text code t)) [] (text_events (tok_text code t))
      ++ token_events code (Some t) r
  end.

Definition code_events (code : text) : list event :=
  match tokenize code with
  | Some (Ok tokens) => token_events code None tokens
  | _ => []
  end.

(** White space as it is kept in a code block: all of it, except spaces at the end of a line. *)
Fixpoint drop_line_ends (t : text) : text :=
  match t with
  | [] => []
  | c :: r =>
      match drop_line_ends r with
      | x :: r' => if Ascii.eqb c " " && Ascii.eqb x ch_newline then x :: r' else c :: x :: r'
      | [] => [c]
      end
  end.

(** Code with its white space from the first token on. *)
Fixpoint exact_events (code : text) (previous : option token) (l : list token) : list event :=
  match l with
  | [] => []
  | t :: r =>
      match previous with
      | None => []
      | Some p => map E_char (drop_line_ends (slice code (tok_end p) (tok_begin t)))
      end
      ++ inline_element (category (tok_text code t)) [] (text_events (tok_text code t))
      ++ exact_events code (Some t) r
  end.

(** Code whose white space is line feeds and spaces, and in which no token covers a line feed. *)
Definition regular_code (code : text) : Prop :=
  Z.of_nat (length code) < 2 ^ 64 /\ ~ In ch_tab code /\ ~ In ch_cr code /\
  forall tokens, tokenize code = Some (Ok tokens) ->
    Forall (fun t => ~ In ch_newline (tok_text code t)) tokens.

(** The characters outside of tags. *)
Definition characters (l : list event) : text :=
  flat_map (fun e => match e with E_char c => [c] | _ => [] end) l.

(** * Directives *)

(** The argument of that name. *)
Definition argument (key : text) (args : list (text * bmd_value)) : option bmd_value :=
  option_map snd (find (fun a => text_eqb (fst a) key) args).

(** The argument of that name is one of the given words. *)
Definition argument_is (key : text) (args : list (text * bmd_value)) (l : list string) : bool :=
  match argument key args with
  | Some (V_identifier _ t) => one_of t l
  | _ => false
  end.

Definition has (key : text) (args : list (text * bmd_value)) : bool :=
  match argument key args with Some _ => true | None => false end.

(** A number in decimal notation. *)
Definition decimal (n : Z) : text :=
  if n <? 0 then "-"%char :: to_string_uint (- n) else to_string_uint n.

Definition value_text (v : bmd_value) : text :=
  match v with
  | V_identifier _ t => t
  | V_number _ n _ => decimal n
  end.

(** Directives that are elements of HTML under the same name. *)
Definition is_element (t : directive_type) : bool :=
  match t with
  | dt_bold | dt_italic | dt_underlined | dt_strikethrough | dt_deleted | dt_quoted | dt_keyboard
  | dt_teletype | dt_subscript | dt_superscript | dt_line_break | dt_horizontal_rule
  | dt_heading1 | dt_heading2 | dt_heading3 | dt_heading4 | dt_heading5 | dt_heading6
  | dt_ordered_list | dt_unordered_list => true
  | _ => false
  end.

(** Elements that stand on their own lines. *)
Definition is_block_element (t : directive_type) : bool :=
  match t with dt_ordered_list | dt_unordered_list | dt_horizontal_rule => true | _ => false end.

Section Page.
(** The order in which the attributes of an element appear. *)
Variable arrange : list (text * bmd_value) -> list (text * bmd_value).

Definition attributes (args : list (text * bmd_value)) : list (text * text) :=
  map (fun a => (fst a, value_text (snd a))) (arrange args).

Section Nodes.
Variable node_events : bmd_node -> list event.

(** The items of a paragraph, one after the other. *)
Fixpoint run_events (previous : option source_span) (l : list bmd_node) : list event :=
  match l with
  | [] => []
  | n :: r =>
      match previous with None => [] | Some p => gap p (node_span n) end
      ++ node_events n ++ run_events (Some (node_span n)) r
  end.

End Nodes.

(** The text of a block that is one text. *)
Definition block_events (b : option bmd_node) : list event :=
  match b with
  | Some (B_text _ t) => text_events t
  | _ => []
  end.

(** A page has its title as a heading. *)
Definition title_events (n : bmd_node) : list event :=
  match n with
  | B_directive _ dt_title _ args b => inline_element (str "h1") (attributes args) (block_events b)
  | _ => []
  end.

(** An instruction: code, with a link to its documentation if it is one of x86 (as it is by default), and
    the name of the extension. *)
Definition instruction_events (args : list (text * bmd_value)) (t : text) : list event :=
  let name := inline_element (str "code") [] (text_events t) in
  (if argument_is (str "arch") args ["x86"; "x86_64"; "x86-64"] || negb (has (str "arch") args)
   then inline_element (str "a") [(str "href", str "https://www.felixcloutier.com/x86/" ++ t)] name
   else name)
  ++ match argument (str "ext") args with
     | Some (V_identifier _ e) => inline_element (str "sup") [] (text_events e)
     | _ => []
     end.

(** The events of a node: a paragraph of the content, a text or a directive. *)
Fixpoint node_events (n : bmd_node) : list event :=
  match n with
  | B_text _ t => text_events t
  | B_list _ l => block_element (str "p") [] (run_events node_events None l)
  | B_directive _ ty _ args b =>
      match ty with
      | dt_meta => match b with Some (B_list _ l) => flat_map title_events l | _ => [] end
      | dt_code_block =>
          block_element (str "pre") []
            (match b with
             | Some (B_text _ t) =>
                 if argument_is (str "lang") args ["plain"; "plaintext"; "text"; "raw"]
                 then text_events t else code_events t
             | _ => []
             end)
      | dt_code => inline_element (str "code") [] []
      | dt_instruction =>
          match b with Some (B_text _ t) => instruction_events args t | _ => [] end
      | _ =>
          if is_element ty then
            match args, b with
            | [], None =>
                if is_block_element ty then blank_space ++ [E_open (name_of ty) [] true] ++ blank_space
                else [E_open (name_of ty) [] true]
            | _, _ =>
                (if is_block_element ty then block_element else inline_element)
                  (name_of ty) (attributes args)
                  (match b with Some (B_list _ l) => run_events node_events None l | _ => [] end)
            end
          else []
      end
  end.

(** The whole page. *)
Definition link_events (sheet : text) : list event :=
  blank_space ++ [E_open (str "link") [(str "rel", str "stylesheet"); (str "href", sheet)] true]
  ++ blank_space.

Definition page_events (sheets : list text) (l : list bmd_node) : list event :=
  E_declaration (str "DOCTYPE html") ::
  block_element (str "html") []
    (block_element (str "head") [] (flat_map link_events sheets)
     ++ block_element (str "body") [] (flat_map node_events l)).

End Page.

(** * Exceptions *)

(** Nodes that the conversion does not get wrong: superscript becomes subscript, the text of an instruction is
    put into an attribute, and code is laid out by the columns of its tokens. *)
Definition fair (n : bmd_node) : Prop :=
  match n with
  | B_directive _ ty _ args b =>
      ty <> dt_superscript /\
      (ty = dt_instruction -> forall s t, b = Some (B_text s t) -> sound_value t = true) /\
      (ty = dt_code_block -> forall s t, b = Some (B_text s t) ->
         argument_is (str "lang") args ["plain"; "plaintext"; "text"; "raw"] = false -> regular_code t)
  | _ => True
  end.

(** * Documents that can be converted *)

(** The argument of that name is missing, or one of the given words. *)
Definition known (key : text) (args : list (text * bmd_value)) (l : list string) : bool :=
  negb (has key args) || argument_is key args l.

Definition plain_names : list string := ["plain"; "plaintext"; "text"; "raw"].
Definition language_names : list string :=
  ["bmd"; "bms"; "c"; "c++"; "cxx"; "cpp"; "plain"; "plaintext"; "text"; "raw"; "rust"].
Definition architecture_names : list string :=
  ["x86"; "x86_64"; "x86-64"; "arm"; "risc_v"; "risc-v"; "power"; "power-pc"; "power_pc"; "sparc"; "mips";
   "ibm_z"; "ibm-z"].

(** No text directly after a text; a comment between them does not count. *)
Fixpoint apart (l : list bmd_node) : Prop :=
  match l with
  | B_text _ _ :: ((B_text _ _ :: _) as r) => False
  | _ :: r => apart r
  | [] => True
  end.

Definition is_title (n : bmd_node) : bool :=
  match n with B_directive _ dt_title _ _ _ => true | _ => false end.
Definition is_meta (n : bmd_node) : bool :=
  match n with B_directive _ dt_meta _ _ _ => true | _ => false end.

(** What a node needs for its conversion, apart from the nodes below it. *)
Definition workable (n : bmd_node) : Prop :=
  match n with
  | B_text _ _ => True
  | B_list _ l => apart l
  | B_directive _ ty _ args b =>
      match ty with
      | dt_line_break | dt_horizontal_rule | dt_item | dt_note => False
      | dt_code => b = None /\ known (str "lang") args language_names = true
      | dt_code_block =>
          known (str "lang") args language_names = true /\
          forall s t, b = Some (B_text s t) -> argument_is (str "lang") args plain_names = false ->
            known (str "lang") args ["bms"] = true /\ regular_code t /\
            exists ts, tokenize t = Some (Ok ts) /\ ~ malformed_annotation (lexemes t ts)
      | dt_instruction =>
          b <> None /\ known (str "arch") args architecture_names = true /\
          forall s n k, argument (str "ext") args <> Some (V_number s n k)
      | dt_meta => forall s l, b = Some (B_list s l) -> (length (filter is_title l) <= 1)%nat
      | dt_title => b = None -> args = []
      | dt_bms_function | dt_c_equivalent => True
      | dt_ordered_list | dt_unordered_list => args = []
      | _ => b = None -> args = []
      end
  end.

(** Metadata only at the beginning. *)
Definition meta_first (l : list bmd_node) : Prop := forall n r, l = n :: r -> Forall (fun m => is_meta m = false) r.
