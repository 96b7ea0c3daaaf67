(** How C and C++ read an expression: tokens, precedence and associativity (C23 6.4, 6.5; C++20 [lex], [expr]).
    Left out are the forms that need a token which the generator never writes within an expression: string
    and character literals, [sizeof] and other keyword operators, subscripts, member access, assignments,
    compound literals. *)
From Coq Require Import ZArith Ascii String List Bool.
From Verif Require Import Prelude Text Types Literals DecimalSpec.
Import ListNotations.
Open Scope string_scope.
Open Scope list_scope.
Open Scope nat_scope.

(** ** Tokens *)

Inductive c_token : Type := Word (x : text) | Number (x : text) | Punct (x : text).

Definition c_digit (c : ascii) : Prop := (48 <= code c <= 57)%Z.
Definition c_nondigit (c : ascii) : Prop :=
  (65 <= code c <= 90 \/ 97 <= code c <= 122 \/ code c = 95)%Z.

(** Identifiers and keywords. *)
Definition is_c_word (x : text) : Prop :=
  exists c r, x = c :: r /\ c_nondigit c /\ Forall (fun a => c_nondigit a \/ c_digit a) r.

(** Preprocessing numbers. *)
Inductive is_pp_number : text -> Prop :=
| pp_digit : forall c, c_digit c -> is_pp_number [c]
| pp_dot_digit : forall c, c_digit c -> is_pp_number ["."%char; c]
| pp_more : forall x c, is_pp_number x -> c_digit c \/ c_nondigit c \/ c = "."%char -> is_pp_number (x ++ [c])
| pp_separator : forall x c, is_pp_number x -> c_digit c \/ c_nondigit c -> is_pp_number (x ++ ["'"%char; c])
| pp_exponent : forall x e s, is_pp_number x -> In e ["e"; "E"; "p"; "P"]%char -> In s ["+"; "-"]%char ->
    is_pp_number (x ++ [e; s]).

Definition punctuators : list string :=
  [ "["; "]"; "("; ")"; "{"; "}"; "."; "->"; "++"; "--"; "&"; "*"; "+"; "-"; "~"; "!"; "/"; "%"; "<<"; ">>"; "<"; ">";
    "<="; ">="; "=="; "!="; "^"; "|"; "&&"; "||"; "?"; ":"; "::"; ";"; "..."; "="; "*="; "/="; "%="; "+="; "-=";
    "<<="; ">>="; "&="; "^="; "|="; ","; "#"; "##"; "<:"; ":>"; "<%"; "%>"; "%:"; "%:%:"; ".*"; "->*"; "<=>" ].

Inductive is_c_token : text -> c_token -> Prop :=
| is_word : forall x, is_c_word x -> is_c_token x (Word x)
| is_number : forall x, is_pp_number x -> is_c_token x (Number x)
| is_punct : forall q, In q punctuators -> is_c_token (str q) (Punct (str q)).

Definition c_white (c : ascii) : Prop := In c [" "; ch_newline; ch_tab]%char.

(** The next token is the longest sequence of characters that could be one (C23 6.4p4). *)
Definition longest (t s : text) : Prop :=
  forall u v k, u ++ v = t ++ s -> is_c_token u k -> length u <= length t.
Definition starts_comment (s : text) : Prop :=
  exists r, s = "/"%char :: "/"%char :: r \/ s = "/"%char :: "*"%char :: r.

(** [reads s ks]: the text [s] consists of the tokens [ks]. *)
Inductive reads : text -> list c_token -> Prop :=
| reads_end : forall w, Forall c_white w -> reads w []
| reads_token : forall w t k s ks, Forall c_white w -> is_c_token t k -> longest t s -> ~ starts_comment (t ++ s) ->
    reads s ks -> reads (w ++ t ++ s) (k :: ks).

(** ** Expressions *)

(** Keywords of C and C++, alternative spellings of operators, and names of types. *)
Definition reserved : list string :=
  [ "alignas"; "alignof"; "and"; "and_eq"; "asm"; "auto"; "bitand"; "bitor"; "bool"; "break"; "case"; "catch"; "char";
    "char8_t"; "char16_t"; "char32_t"; "class"; "compl"; "concept"; "const"; "consteval"; "constexpr"; "constinit";
    "const_cast"; "continue"; "co_await"; "co_return"; "co_yield"; "decltype"; "default"; "delete"; "do"; "double";
    "dynamic_cast"; "else"; "enum"; "explicit"; "export"; "extern"; "false"; "float"; "for"; "friend"; "goto"; "if";
    "inline"; "int"; "long"; "mutable"; "namespace"; "new"; "noexcept"; "not"; "not_eq"; "nullptr"; "operator"; "or";
    "or_eq"; "private"; "protected"; "public"; "register"; "reinterpret_cast"; "requires"; "restrict"; "return";
    "short"; "signed"; "sizeof"; "static"; "static_assert"; "static_cast"; "struct"; "switch"; "template"; "this";
    "thread_local"; "throw"; "true"; "try"; "typedef"; "typeid"; "typename"; "typeof"; "typeof_unqual"; "union";
    "unsigned"; "using"; "virtual"; "void"; "volatile"; "wchar_t"; "while"; "xor"; "xor_eq"; "_Alignas"; "_Alignof";
    "_Atomic"; "_BitInt"; "_Bool"; "_Complex"; "_Decimal128"; "_Decimal32"; "_Decimal64"; "_Generic"; "_Imaginary";
    "_Noreturn"; "_Static_assert"; "_Thread_local"; "uint8_t"; "uint16_t"; "uint32_t"; "uint64_t"; "std" ].

Definition c_name (x : text) : Prop := forall q, In q reserved -> x <> str q.

Inductive c_tree : Type :=
| C_Name (x : text)
| C_Number (n : Z)
| C_Bool (b : bool)
| C_Unary (op : text) (a : c_tree)
| C_Postfix (op : text) (a : c_tree)
| C_Binary (op : text) (a b : c_tree)
| C_Conditional (c a b : c_tree)
| C_Cast (t : ctype) (a : c_tree)
| C_Call (f : c_tree) (args : list c_tree).

Definition punct (q : string) : c_token := Punct (str q).
Definition word (q : string) : c_token := Word (str q).

(** The names of the types that stand for the types of BMS. *)
Inductive names_type : list c_token -> ctype -> Prop :=
| nt_void : names_type [word "void"] TVoid
| nt_int : names_type [word "int"] TInt
| nt_bool : names_type [word "bool"] TBool
| nt_bool99 : names_type [word "_Bool"] TBool
| nt_8 : names_type [word "uint8_t"] (TUint 8)
| nt_16 : names_type [word "uint16_t"] (TUint 16)
| nt_32 : names_type [word "uint32_t"] (TUint 32)
| nt_64 : names_type [word "uint64_t"] (TUint 64)
| nt_std_8 : names_type [word "std"; punct "::"; word "uint8_t"] (TUint 8)
| nt_std_16 : names_type [word "std"; punct "::"; word "uint16_t"] (TUint 16)
| nt_std_32 : names_type [word "std"; punct "::"; word "uint32_t"] (TUint 32)
| nt_std_64 : names_type [word "std"; punct "::"; word "uint64_t"] (TUint 64)
| nt_bits : forall x n, denotes x n ->
    names_type [word "unsigned"; word "_BitInt"; punct "("; Number x; punct ")"] (TUint n).

(** The binary operators by level; they associate to the left. Level 0 is [expression], level 1
    [conditional-expression] and, without assignments, [assignment-expression]; level 12 is [cast-expression], 13
    [unary-expression], 14 [postfix-expression], 15 [primary-expression]. *)
Definition operators_at (k : nat) : list string :=
  match k with
  | 0 => [","]
  | 2 => ["||"] | 3 => ["&&"] | 4 => ["|"] | 5 => ["^"] | 6 => ["&"]
  | 7 => ["=="; "!="] | 8 => ["<"; ">"; "<="; ">="] | 9 => ["<<"; ">>"]
  | 10 => ["+"; "-"] | 11 => ["*"; "/"; "%"]
  | _ => []
  end.
Definition unary_operators : list string := ["&"; "*"; "+"; "-"; "~"; "!"].
Definition increments : list string := ["++"; "--"].

(** [derives k ts t]: at level [k] of the grammar, the tokens [ts] are the expression [t]. *)
Inductive derives : nat -> list c_token -> c_tree -> Prop :=
| d_up : forall k ts t, k < 15 -> derives (S k) ts t -> derives k ts t
| d_binary : forall k op ts us a b, In op (operators_at k) -> derives k ts a -> derives (S k) us b ->
    derives k (ts ++ punct op :: us) (C_Binary (str op) a b)
| d_conditional : forall cs ts us c a b, derives 2 cs c -> derives 0 ts a -> derives 1 us b ->
    derives 1 (cs ++ punct "?" :: ts ++ punct ":" :: us) (C_Conditional c a b)
| d_cast : forall ys ts y a, names_type ys y -> derives 12 ts a ->
    derives 12 (punct "(" :: ys ++ punct ")" :: ts) (C_Cast y a)
| d_unary : forall op ts a, In op unary_operators -> derives 12 ts a -> derives 13 (punct op :: ts) (C_Unary (str op) a)
| d_increment : forall op ts a, In op increments -> derives 13 ts a -> derives 13 (punct op :: ts) (C_Unary (str op) a)
| d_call : forall ts us f args, derives 14 ts f -> derives_arguments us args ->
    derives 14 (ts ++ punct "(" :: us ++ [punct ")"]) (C_Call f args)
| d_postfix : forall op ts a, In op increments -> derives 14 ts a -> derives 14 (ts ++ [punct op]) (C_Postfix (str op) a)
| d_parentheses : forall ts a, derives 0 ts a -> derives 15 (punct "(" :: ts ++ [punct ")"]) a
| d_name : forall x, c_name x -> derives 15 [Word x] (C_Name x)
| d_number : forall x n, denotes x n -> derives 15 [Number x] (C_Number n)
| d_true : derives 15 [word "true"] (C_Bool true)
| d_false : derives 15 [word "false"] (C_Bool false)
with derives_arguments : list c_token -> list c_tree -> Prop :=
| da_none : derives_arguments [] []
| da_last : forall ts a, derives 1 ts a -> derives_arguments ts [a]
| da_more : forall ts us a args, derives 1 ts a -> args <> [] -> derives_arguments us args ->
    derives_arguments (ts ++ punct "," :: us) (a :: args).

(** The text [s] is the C expression [t], and only that. *)
Definition means (s : text) (t : c_tree) : Prop :=
  (exists ks, reads s ks /\ derives 0 ks t) /\
  (forall ks u, reads s ks -> derives 0 ks u -> u = t).
