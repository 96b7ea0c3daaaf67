(** Conversion of a parsed BMD document to HTML. Models src/bmd/html/doc_to_html.cpp.

    [None] stands for a loop that does not end, which could only be one of the BMS tokenizer or of the
    BMS parser.  The order in which the arguments of a directive are visited is that of a
    [std::pmr::unordered_map], so it is a parameter: [arrange]. *)
From Coq Require Import ZArith Ascii String List Bool.
From Verif Require Import Prelude Text Decimal Literals HtmlWriter Directives BmdParse BmsHtml.
Import ListNotations.
Open Scope string_scope.
Open Scope list_scope.
Open Scope Z_scope.

(** [Document_Error_Code] (src/bmd/html/doc_to_html.hpp:12-33). *)
Inductive document_error_code : Type :=
| de_writer_misuse | de_directive_not_allowed | de_meta_not_at_start_of_file | de_duplicate_meta_entry
| de_number_attribute_not_allowed | de_invalid_language | de_invalid_architecture
| de_code_tokenization_failure.

(** [Document_Error] (src/bmd/html/doc_to_html.hpp:35-38). *)
Record document_error : Type := Document_Error { de_code : document_error_code; de_pos : position }.

(** An error at the beginning of a span, which is converted to a position
    (e.g. src/bmd/html/doc_to_html.cpp:323-324). *)
Definition error_at {A} (c : document_error_code) (s : source_span) : outcome document_error A :=
  Err (Document_Error c (Position (sp_line s) (sp_column s) (sp_begin s))).

(** [Nested_Language] (src/bmd/html/doc_to_html.cpp:17-24). *)
Inductive nested_language : Type := nl_plaintext | nl_bms | nl_bmd | nl_c | nl_cxx | nl_rust.

(** [lookup.find(name)] in one of the maps (e.g. src/bmd/html/doc_to_html.cpp:47-52). *)
Fixpoint find_name {A} (name : text) (l : list (text * A)) : option A :=
  match l with
  | [] => None
  | (k, v) :: r => if text_eqb k name then Some v else find_name name r
  end.

(** [nested_language_by_name] (src/bmd/html/doc_to_html.cpp:26-53). *)
Definition nested_language_by_name (name : text) : option nested_language :=
  match name with
  | [] => None
  | _ :: _ =>
      find_name name
        [ (str "bmd", nl_bmd); (str "bms", nl_bms); (str "c", nl_c); (str "c++", nl_cxx);
          (str "cxx", nl_cxx); (str "cpp", nl_cxx); (str "plain", nl_plaintext);
          (str "plaintext", nl_plaintext); (str "text", nl_plaintext); (str "raw", nl_plaintext);
          (str "rust", nl_rust) ]
  end.

(** [Architecture] (src/bmd/html/doc_to_html.cpp:56). *)
Inductive architecture : Type :=
| arch_x86 | arch_arm | arch_risc_v | arch_power | arch_sparc | arch_mips | arch_ibm_z.

(** [architecture_by_name] (src/bmd/html/doc_to_html.cpp:58-80). *)
Definition architecture_by_name (name : text) : option architecture :=
  match name with
  | [] => None
  | _ :: _ =>
      find_name name
        [ (str "x86", arch_x86); (str "x86_64", arch_x86); (str "x86-64", arch_x86); (str "arm", arch_arm);
          (str "risc_v", arch_risc_v); (str "risc-v", arch_risc_v); (str "power", arch_power);
          (str "power-pc", arch_power); (str "power_pc", arch_power); (str "sparc", arch_sparc);
          (str "mips", arch_mips); (str "ibm_z", arch_ibm_z); (str "ibm-z", arch_ibm_z) ]
  end.

(** [architecture_link_prefix] (src/bmd/html/doc_to_html.cpp:82-88). *)
Definition architecture_link_prefix (a : architecture) : text :=
  match a with
  | arch_x86 => str "https://www.felixcloutier.com/x86/"
  | _ => []
  end.

(** [HTML_Converter] (src/bmd/html/doc_to_html.cpp:109-129). *)
Record converter : Type := Converter {
  hc_writer : writer;
  hc_at_start : bool;
  hc_title : text;
  hc_bms_function : text;
  hc_c_equivalent : text
}.

(** What a member function yields (src/bmd/html/doc_to_html.cpp:131). *)
Definition converted : Type := option (outcome document_error converter).

(** A call of the writer (e.g. src/bmd/html/doc_to_html.cpp:142). *)
Definition on_writer (f : writer -> outcome document_error writer) (h : converter) : converted :=
  Some (let* w := f (hc_writer h) in
        Ok (Converter w (hc_at_start h) (hc_title h) (hc_bms_function h) (hc_c_equivalent h))).

(** [m_at_start_of_file = false] (src/bmd/html/doc_to_html.cpp:233). *)
Definition leave_start (h : converter) : converter :=
  Converter (hc_writer h) false (hc_title h) (hc_bms_function h) (hc_c_equivalent h).

(** [write_inner_text], with the number of lines (src/bmd/html/doc_to_html.cpp:230-235). *)
Definition write_text (t : text) (s : formatting_style) (h : converter)
  : option (outcome document_error (nat * converter)) :=
  Some (let* '(n, w) := write_inner_text t s (hc_writer h) in
        Ok (n, Converter w (hc_at_start h) (hc_title h) (hc_bms_function h) (hc_c_equivalent h))).

(** [convert_text] (src/bmd/html/doc_to_html.cpp:230-235). *)
Definition convert_text (t : text) (s : formatting_style) (h : converter)
  : option (outcome document_error (nat * converter)) :=
  write_text t s (leave_start h).

(** [get_source_span] (src/bmd/parsing/ast.hpp; src/bmd/html/doc_to_html.cpp:177). *)
Definition span_of_node (n : bmd_node) : source_span :=
  match n with B_list s _ => s | B_directive s _ _ _ _ => s | B_text s _ => s end.

(** [std::to_string] of an [Int64] (src/bmd/html/doc_to_html.cpp:304). *)
Definition std_to_string_int64 (x : Z) : text :=
  if 0 <=? x then std_to_string x else "-"%char :: std_to_string (- x).

(** The value of an attribute as text (src/bmd/html/doc_to_html.cpp:299-306). *)
Definition attribute_value (v : bmd_value) : text :=
  match v with
  | V_identifier _ t => t
  | V_number _ n _ => std_to_string_int64 n
  end.

(** [enum_by_attribute] (src/bmd/html/doc_to_html.cpp:479-502) with [attribute_enum_by_name] (90-102) and
    [enum_document_error_v] (104-107). *)
Definition enum_by_attribute {A} (by_name : text -> option A) (invalid : document_error_code)
  (args : list (text * bmd_value)) (key : text) (fallback : A) : outcome document_error A :=
  match find_name key args with
  | None => Ok fallback
  | Some (V_number s _ _) => error_at de_number_attribute_not_allowed s
  | Some (V_identifier s t) =>
      match by_name t with
      | None => error_at invalid s
      | Some a => Ok a
      end
  end.

Section Convert.
(** The order in which the arguments of a directive are visited (src/bmd/html/doc_to_html.cpp:298). *)
Variable arrange : list (text * bmd_value) -> list (text * bmd_value).

(** The loop of [pass_through_attributes] (src/bmd/html/doc_to_html.cpp:298-308). *)
Fixpoint write_attributes (l : list (text * bmd_value)) (w : writer) : outcome document_error writer :=
  match l with
  | [] => Ok w
  | (k, v) :: r => let* w := write_attribute k (attribute_value v) w in write_attributes r w
  end.

(** [begin_tag_with_passed_through_attributes] and [pass_through_attributes]
    (src/bmd/html/doc_to_html.cpp:283-315). *)
Definition begin_with_attributes (args : list (text * bmd_value)) (has_block : bool) (p : tag_properties)
  (w : writer) : outcome document_error writer :=
  match args with
  | [] => begin_tag p w
  | _ :: _ =>
      let* w := begin_tag_with_attributes p w in
      let* w := write_attributes (arrange args) w in
      if has_block then end_attributes (tp_style p) w else end_empty_tag_attributes (tp_style p) w
  end.

(** [directive.get_block() != nullptr] (src/bmd/html/doc_to_html.cpp:265). *)
Definition has_block (b : option bmd_node) : bool :=
  match b with None => false | Some _ => true end.

(** [update_metadata_from_directive] (src/bmd/html/doc_to_html.cpp:504-531). *)
Definition update_metadata (s : source_span) (t : directive_type) (b : option bmd_node) (h : converter)
  : outcome document_error converter :=
  match b with
  | None => Ok h
  | Some block =>
      match t with
      | dt_title =>
          match block with
          | B_text _ x => Ok (Converter (hc_writer h) (hc_at_start h) x (hc_bms_function h) (hc_c_equivalent h))
          | _ => Abort
          end
      | dt_bms_function =>
          match block with
          | B_text _ x => Ok (Converter (hc_writer h) (hc_at_start h) (hc_title h) x (hc_c_equivalent h))
          | _ => Abort
          end
      | dt_c_equivalent =>
          match block with
          | B_text _ x => Ok (Converter (hc_writer h) (hc_at_start h) (hc_title h) (hc_bms_function h) x)
          | _ => Abort
          end
      | _ => error_at de_directive_not_allowed s
      end
  end.

(** The loop of [convert_meta_directive] (src/bmd/html/doc_to_html.cpp:332-347): the arguments of the
    title directive and whether it has a block. *)
Fixpoint meta_loop (l : list bmd_node) (title : option (list (text * bmd_value) * bool)) (h : converter)
  : outcome document_error (option (list (text * bmd_value) * bool) * converter) :=
  match l with
  | [] => Ok (title, h)
  | B_directive s t _ args b :: r =>
      let* h := update_metadata s t b h in
      match t with
      | dt_title =>
          match title with
          | Some _ => error_at de_duplicate_meta_entry s
          | None => meta_loop r (Some (args, has_block b)) h
          end
      | _ => meta_loop r title h
      end
  | _ :: _ => Abort
  end.

(** [convert_meta_directive] (src/bmd/html/doc_to_html.cpp:317-357). *)
Definition convert_meta_directive (s : source_span) (b : option bmd_node) (h : converter) : converted :=
  if negb (hc_at_start h) then Some (error_at de_meta_not_at_start_of_file s)
  else
    let h := leave_start h in
    match b with
    | None => Some (Ok h)
    | Some (B_list _ l) =>
        let& (title, h) := Some (meta_loop l None h) in
        match title with
        | None => Some (Ok h)
        | Some (args, block) =>
            let heading := Tag_Properties (str "h1") fs_in_line in
            let& h := on_writer (begin_with_attributes args block heading) h in
            let& (_, h) := write_text (hc_title h) (tp_style heading) h in
            on_writer (end_tag heading) h
        end
    | Some _ => Some Abort
    end.

(** [convert_nested_code] (src/bmd/html/doc_to_html.cpp:386-415). *)
Definition convert_nested_code (b : option bmd_node) (lang : nested_language) (h : converter) : converted :=
  match b with
  | None => Some (Ok h)
  | Some (B_text s code) =>
      match lang with
      | nl_plaintext => let& (_, h) := write_text code fs_pre h in Some (Ok h)
      | nl_bms =>
          let& (r, w) := bms_inline_code_to_html code (hc_writer h) in
          match r with
          | bms_tokenize_error => Some (error_at de_code_tokenization_failure s)
          | _ => on_writer (fun _ => Ok w) h
          end
      | _ => Some Abort
      end
  | Some _ => Some Abort
  end.

(** [convert_code_directive] (src/bmd/html/doc_to_html.cpp:359-384). *)
Definition convert_code_directive (t : directive_type) (args : list (text * bmd_value))
  (b : option bmd_node) (h : converter) : converted :=
  let h := leave_start h in
  let& lang := Some (enum_by_attribute nested_language_by_name de_invalid_language args (str "lang") nl_bms) in
  let tag := match t with
             | dt_code => Tag_Properties (str "code") fs_in_line
             | _ => Tag_Properties (str "pre") fs_block
             end in
  let& h := on_writer (begin_tag tag) h in
  let& h := convert_nested_code b lang h in
  on_writer (end_tag tag) h.

(** The attribute [ext] (src/bmd/html/doc_to_html.cpp:430-442). *)
Definition extension (s : source_span) (args : list (text * bmd_value)) : outcome document_error text :=
  match find_name (str "ext") args with
  | None => Ok []
  | Some (V_identifier _ t) => Ok t
  | Some (V_number _ _ _) => error_at de_number_attribute_not_allowed s
  end.

(** [convert_instruction_directive] (src/bmd/html/doc_to_html.cpp:417-477): a missing block is
    dereferenced; the error of [extension] is not looked for, so that [operator->] asserts. *)
Definition convert_instruction_directive (s : source_span) (args : list (text * bmd_value))
  (b : option bmd_node) (h : converter) : converted :=
  let h := leave_start h in
  let& arch := Some (enum_by_attribute architecture_by_name de_invalid_architecture args (str "arch") arch_x86) in
  let hyperlink := Tag_Properties (str "a") fs_in_line in
  let code := Tag_Properties (str "code") fs_in_line in
  let superscript := Tag_Properties (str "sup") fs_in_line in
  match b with
  | None => Some UB
  | Some (B_text _ x) =>
      let prefix := architecture_link_prefix arch in
      let linked := match prefix with [] => false | _ :: _ => true end in
      let& h := if linked then
                  on_writer (fun w =>
                    let* w := begin_tag_with_attributes hyperlink w in
                    let* w := write_attribute (str "href") (prefix ++ x) w in
                    end_attributes (tp_style hyperlink) w) h
                else Some (Ok h) in
      let& h := on_writer (begin_tag code) h in
      let& (_, h) := write_text x fs_in_line h in
      let& h := on_writer (end_tag code) h in
      let& h := if linked then on_writer (end_tag hyperlink) h else Some (Ok h) in
      match extension s args with
      | Ok [] => Some (Ok h)
      | Ok e =>
          let& h := on_writer (begin_tag superscript) h in
          let& (_, h) := write_text e fs_in_line h in
          on_writer (end_tag superscript) h
      | _ => Some Abort
      end
  | Some _ => Some Abort
  end.

Section Lists.
(** [convert_directive], which these functions call. *)
Variable convert_directive : bmd_node -> converter -> converted.

(** [convert_list] (src/bmd/html/doc_to_html.cpp:170-228), from the child after [previous] on. *)
Fixpoint convert_list (style : formatting_style) (previous : option bmd_node) (l : list bmd_node)
  (h : converter) : converted :=
  match l with
  | [] => Some (Ok h)
  | n :: rest =>
      let& h := match previous with
                | Some (B_directive d _ _ _ _) =>
                    on_writer (write_source_gap d (span_of_node n) fs_in_line) h
                | _ => Some (Ok h)
                end in
      match n with
      | B_text s t =>
          let& (lines, h) := convert_text t style h in
          let& h := match rest with
                    | [] => Some (Ok h)
                    | B_directive d _ _ _ _ :: _ =>
                        if sp_begin s + sp_length s =? sp_begin d then Some (Ok h)
                        else
                          on_writer
                            (write_whitespace
                               (if sp_line s + Z.of_nat lines <? sp_line d + 1 then ch_newline else " "%char) 1) h
                    | _ :: _ => Some Abort
                    end in
          convert_list style (Some n) rest h
      | B_directive _ t _ _ _ =>
          match environment_of t with
          | env_content => Some Abort
          | _ =>
              let& h := convert_directive n h in
              convert_list style (Some n) rest h
          end
      | B_list _ _ => Some Abort
      end
  end.

(** [convert_content] (src/bmd/html/doc_to_html.cpp:131-168). *)
Fixpoint convert_content (l : list bmd_node) (h : converter) : converted :=
  match l with
  | [] => Some (Ok h)
  | n :: rest =>
      let& h := match n with
                | B_list _ [] => Some Abort
                | B_list _ children =>
                    let paragraph := Tag_Properties (str "p") fs_block in
                    let& h := on_writer (begin_tag paragraph) h in
                    let& h := convert_list fs_in_line None children h in
                    on_writer (end_tag paragraph) h
                | B_directive _ t _ _ _ =>
                    match environment_of t with
                    | env_content => convert_directive n h
                    | _ => Some Abort
                    end
                | B_text _ _ => Some Abort
                end in
      convert_content rest h
  end.

End Lists.

(** [convert_directive] (src/bmd/html/doc_to_html.cpp:237-253), with
    [convert_html_passthrough_directive] (255-281) and [convert_block] (533-560).  What is not a directive
    is not passed to it. *)
Fixpoint convert_directive (n : bmd_node) (h : converter) : converted :=
  match n with
  | B_directive s t _ args b =>
      if is_html_passthrough t then
        let h := leave_start h in
        let tag := Tag_Properties (directive_tag t) (formatting_style_of t) in
        if negb (has_block b || negb (must_be_empty t)) then Some Abort
        else if negb (has_block b) && match args with [] => true | _ :: _ => false end
        then on_writer (write_empty_tag tag) h
        else
          let& h := on_writer (begin_with_attributes args (has_block b) tag) h in
          let& h := match b with
                    | None => Some (Ok h)
                    | Some block =>
                        match content_type_of t with
                        | ct_nothing => Some Abort
                        | ct_raw | ct_text_span =>
                            match block with
                            | B_text _ x => let& (_, h) := convert_text x (tp_style tag) h in Some (Ok h)
                            | _ => Some Abort
                            end
                        | ct_span | ct_meta | ct_list =>
                            match block with
                            | B_list _ l => convert_list convert_directive (tp_style tag) None l h
                            | _ => Some Abort
                            end
                        | ct_block =>
                            match block with
                            | B_list _ l => convert_content convert_directive l h
                            | _ => Some Abort
                            end
                        end
                    end in
          on_writer (end_tag tag) h
      else
        match t with
        | dt_meta => convert_meta_directive s b h
        | dt_code | dt_code_block => convert_code_directive t args b h
        | dt_instruction => convert_instruction_directive s args b h
        | _ => Some Abort
        end
  | _ => Some Abort
  end.

(** The stylesheets (src/bmd/html/doc_to_html.cpp:581-586). *)
Fixpoint write_stylesheets (l : list text) (w : writer) : outcome document_error writer :=
  match l with
  | [] => Ok w
  | sheet :: r =>
      let link := Tag_Properties (str "link") fs_block in
      let* w := begin_tag_with_attributes link w in
      let* w := write_attribute (str "rel") (str "stylesheet") w in
      let* w := write_attribute (str "href") sheet w in
      let* w := end_empty_tag_attributes (tp_style link) w in
      write_stylesheets r w
  end.

(** [doc_to_html] (src/bmd/html/doc_to_html.cpp:565-605), with the final writer; the root of a parsed
    document is never null. *)
Definition doc_to_html (width : Z) (stylesheets : list text) (root : bmd_node)
  : option (outcome document_error writer) :=
  let html := Tag_Properties (str "html") fs_flat in
  let body := Tag_Properties (str "body") fs_flat in
  let head := Tag_Properties (str "head") fs_block in
  let& w := Some (
    let* w := write_preamble (new_writer width) in
    let* w := begin_tag html w in
    let* w := begin_tag head w in
    let* w := write_stylesheets stylesheets w in
    let* w := end_tag head w in
    begin_tag body w) in
  match root with
  | B_list _ l =>
      let& h := convert_content convert_directive l (Converter w true [] [] []) in
      Some (let* w := end_tag body (hc_writer h) in
            let* w := end_tag html w in
            if is_done w then Ok w else Err (Document_Error de_writer_misuse (Position 0 0 0)))
  | _ => Some Abort
  end.

End Convert.
