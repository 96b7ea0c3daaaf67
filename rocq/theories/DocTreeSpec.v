(** What the printed tree of a document should be, stated without the printer. *)
From Coq Require Import ZArith Ascii String List Bool.
From Verif Require Import Prelude Text HtmlWriter Directives BmdParse BmdParseSpec.
Import ListNotations.
Open Scope string_scope.
Open Scope list_scope.
Open Scope nat_scope.

(** The lines: a node with its name and its text in the source, an argument with its name and its text, and the
    missing block of a directive or root of a document. *)
Inductive entry : Type :=
| E_node (level : nat) (directive : bool) (name t : text)
| E_argument (level : nat) (name t : text)
| E_null (level : nat).

(** The characters of the source at a span. *)
Definition text_at (src : text) (s : source_span) : text :=
  firstn (Z.to_nat (sp_length s)) (skipn (Z.to_nat (sp_begin s)) src).

Definition is_directive (n : bmd_node) : bool := match n with B_directive _ _ _ _ _ => true | _ => false end.
Definition label (n : bmd_node) : text :=
  match n with B_directive _ _ id _ _ => str "\" ++ id | B_list _ _ => str "List" | B_text _ _ => str "Text" end.

(** All nodes, each after its parent and behind what is below its elder siblings; the arguments of a directive
    directly after it. *)
Fixpoint walk (arrange : list (text * bmd_value) -> list (text * bmd_value)) (src : text) (level : nat) (n : bmd_node)
  : list entry :=
  E_node level (is_directive n) (label n) (text_at src (node_span n)) ::
  match n with
  | B_text _ _ => []
  | B_list _ l => flat_map (walk arrange src (S level)) l
  | B_directive _ _ _ args b =>
      map (fun a => E_argument level (fst a) (text_at src (value_span (snd a)))) (arrange args) ++
      match b with Some m => walk arrange src (S level) m | None => [E_null (S level)] end
  end.

Definition walk_document arrange (src : text) (root : option bmd_node) : list entry :=
  match root with Some n => walk arrange src 0 n | None => [E_null 0] end.

(** The columns that a text takes when its control characters are shown as a backslash and a letter. *)
Definition control (c : ascii) : option ascii :=
  if Ascii.eqb c ch_cr then Some "r"%char else if Ascii.eqb c ch_tab then Some "t"%char
  else if Ascii.eqb c ch_newline then Some "n"%char else None.
Definition width_of (c : ascii) : nat := match control c with Some _ => 2 | None => 1 end.
Fixpoint width (t : text) : nat := match t with [] => 0 | c :: r => width_of c + width r end.

(** Escape sequences of terminals. *)
Definition esc (parameters : string) : text := ["027"%char; "["%char] ++ str parameters ++ str "m".
Definition painted (colors : bool) (parameters : string) (t : text) : text :=
  if colors then esc parameters ++ t ++ esc "0" else t.

Definition escaped (colors : bool) (t : text) : text :=
  flat_map (fun c => match control c with Some x => painted colors "0;91" ["\"%char; x] | None => [c] end) t.

(** A text is shown up to the first place where it has taken [max] columns, and dots follow if it goes on. *)
Definition shown (max : nat) (colors : bool) (t out : text) : Prop :=
  exists p q, t = p ++ q /\ out = escaped colors p ++ (match q with [] => [] | _ => painted colors "0;90" (str " ...") end) /\
    (q <> [] -> max <= width p) /\
    (forall p1 c p2, p = p1 ++ c :: p2 -> width p1 < max).

(** The line of an entry, with the colors that are always there. *)
Definition line_of (indent max : nat) (colors : bool) (e : entry) (line : text) : Prop :=
  match e with
  | E_null level => line = repeat " "%char (indent * level) ++ str "null" ++ [ch_newline]
  | E_argument level name t =>
      line = repeat " "%char (indent * level) ++ esc "0;94" ++ name ++ str ": " ++ esc "0" ++ t ++ [ch_newline]
  | E_node level d name t => exists out, shown max colors t out /\
      line = repeat " "%char (indent * level) ++ esc (if d then "0;92" else "0;95") ++ name ++ esc "0;90" ++ str "(" ++ esc "0"
             ++ out ++ esc "0;90" ++ str ")" ++ [ch_newline] ++ esc "0"
  end.
