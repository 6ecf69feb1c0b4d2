(** Rust's tokens and the declarations that thrift! is documented to read, independently of the
    lexer and the patterns of RustLex.v and RustMacro.v. *)
From Verif Require Import Base ErrorName Types Macro RustLex.
Open Scope Z_scope.

(** * Tokens *)
Definition blank (c : Z) : Prop := 9 <= c <= 13 \/ c = 32.
Definition letter (c : Z) : Prop := 65 <= c <= 90 \/ 97 <= c <= 122 \/ c = 95.
Definition decimal (c : Z) : Prop := 48 <= c <= 57.
Definition hexadecimal (c : Z) : Prop := decimal c \/ 65 <= c <= 70 \/ 97 <= c <= 102.
Definition word (c : Z) : Prop := letter c \/ decimal c.
(** [s] does not start with such a character *)
Definition ends (p : Z -> Prop) (s : list Z) : Prop := match s with [] => True | c :: _ => ~ p c end.
Definition starts (w s : list Z) : Prop := exists r, s = w ++ r.

Inductive line_comment : list Z -> list rtok -> Prop :=
| Li_inner w : line_comment (text "!" ++ w) [RDoc true w]
| Li_outer w : ~ starts (text "/") w -> line_comment (text "/" ++ w) [RDoc false w]
| Li_plain w : ~ starts (text "!") w -> (starts (text "/") w -> starts (text "//") w) -> line_comment w [].
(** Comments nest *)
Inductive nested : list Z -> Prop :=
| N_end : nested []
| N_char c w : ~ starts (text "/*") (c :: w ++ text "*/") -> ~ starts (text "*/") (c :: w ++ text "*/") -> nested w -> nested (c :: w)
| N_comment u w : nested u -> nested w -> nested (text "/*" ++ u ++ text "*/" ++ w).
Inductive block_comment : list Z -> list rtok -> Prop :=
| Bl_inner w : block_comment (text "!" ++ w) [RDoc true w]
| Bl_outer w : w <> [] -> ~ starts (text "*") w -> block_comment (text "*" ++ w) [RDoc false w]
| Bl_plain w : ~ starts (text "!") w -> (starts (text "*") w -> starts (text "**") w \/ w = text "*") -> block_comment w [].

Inductive in_quotes : list Z -> Prop :=
| Q_end : in_quotes []
| Q_plain c w : c <> 34 -> c <> 92 -> in_quotes w -> in_quotes (c :: w)
| Q_escape c w : In c (text "nrt0" ++ [92; 39; 34]) -> in_quotes w -> in_quotes (92 :: c :: w).
Definition decimals (w : list Z) : Prop := exists c v, w = c :: v /\ decimal c /\ Forall (fun c => decimal c \/ c = 95) v.
Definition hexadecimals (w : list Z) : Prop :=
  exists v, w = text "0x" ++ v /\ Forall (fun c => hexadecimal c \/ c = 95) v /\ Exists hexadecimal v.
(** A number before [s].  A point belongs to it unless another point or a name follows. *)
Inductive number_before : list Z -> list Z -> Prop :=
| Nu_integer w s : decimals w \/ hexadecimals w -> ends word s -> (starts (text ".") s -> exists c, (c = 46 \/ letter c) /\ starts [46; c] s) -> number_before w s
| Nu_point w s : decimals w -> ends (fun c => c = 46 \/ word c) s -> number_before (w ++ text ".") s
| Nu_fraction u w s : decimals u -> decimals w -> ends word s -> number_before (u ++ text "." ++ w) s.
Definition punctuation : list string :=
  ["!"; "!="; "#"; "$"; "%"; "%="; "&"; "&&"; "&="; "*"; "*="; "+"; "+="; ","; "-"; "-="; "->"; "."; ".."; "..."; "..="; "/"; "/="; ":"; "::"; ";";
   "<"; "<-"; "<<"; "<<="; "<="; "="; "=="; "=>"; ">"; ">="; ">>"; ">>="; "?"; "@"; "^"; "^="; "|"; "|="; "||"; "~"]%string.
Definition brackets : list (string * rtok) :=
  [("(", ROpen Paren); (")", RClose Paren); ("[", ROpen Bracket); ("]", RClose Bracket); ("{", ROpen Brace); ("}", RClose Brace)]%string.

Inductive rust_text : list Z -> list rtok -> Prop :=
| X_end : rust_text [] []
| X_blank c s ts : blank c -> rust_text s ts -> rust_text (c :: s) ts
| X_line w s t ts : ~ In 10 w -> ends (fun c => c <> 10) s -> line_comment w t -> rust_text s ts -> rust_text (text "//" ++ w ++ s) (t ++ ts)
| X_block w s t ts : nested w -> block_comment w t -> rust_text s ts -> rust_text (text "/*" ++ w ++ text "*/" ++ s) (t ++ ts)
| X_name c w s ts : letter c -> Forall word w -> ends (fun c => word c \/ c = 34 \/ c = 39 \/ c = 35) s -> rust_text s ts ->
    rust_text ((c :: w) ++ s) (RId (string_of (c :: w)) :: ts)
| X_number w s ts : number_before w s -> rust_text s ts -> rust_text (w ++ s) (RLit w :: ts)
| X_string w s ts : in_quotes w -> ends letter s -> rust_text s ts -> rust_text ((34 :: w ++ [34]) ++ s) (RLit (34 :: w ++ [34]) :: ts)
| X_bracket n t s ts : In (n, t) brackets -> rust_text s ts -> rust_text (text n ++ s) (t :: ts)
| X_punct n s ts : In n punctuation -> (forall m, In m punctuation -> starts (text m) (text n ++ s) -> (String.length m <= String.length n)%nat) ->
    ~ starts (text "//") (text n ++ s) -> ~ starts (text "/*") (text n ++ s) -> rust_text s ts -> rust_text (text n ++ s) (RPunct n :: ts).

(** Groups *)
Inductive grouped : list tree -> list rtok -> Prop :=
| U_end : grouped [] []
| U_name n g ts : grouped g ts -> grouped (Lf (LId n) :: g) (RId n :: ts)
| U_literal w g ts : grouped g ts -> grouped (Lf (LLit w) :: g) (RLit w :: ts)
| U_punct s g ts : grouped g ts -> grouped (Lf (LPunct s) :: g) (RPunct s :: ts)
| U_outer w g ts : grouped g ts ->
    grouped ([Lf (LPunct "#"); Gr Bracket [Lf (LId "doc"); Lf (LPunct "="); Lf (LLit (34 :: w ++ [34]))]] ++ g) (RDoc false w :: ts)
| U_inner w g ts : grouped g ts ->
    grouped ([Lf (LPunct "#"); Lf (LPunct "!"); Gr Bracket [Lf (LId "doc"); Lf (LPunct "="); Lf (LLit (34 :: w ++ [34]))]] ++ g) (RDoc true w :: ts)
| U_group d i is g ts : grouped i is -> grouped g ts -> grouped (Gr d i :: g) (ROpen d :: is ++ RClose d :: ts).

(** * Declarations *)
Definition name (n : string) : tree := Lf (LId n).
Definition sign (s : string) : tree := Lf (LPunct s).
Definition lit (w : list Z) : tree := Lf (LLit w).
Definition keywords : list string :=
  ["Self"; "abstract"; "as"; "async"; "await"; "become"; "box"; "break"; "const"; "continue"; "crate"; "do"; "dyn"; "else"; "enum"; "extern"; "false";
   "final"; "fn"; "for"; "if"; "impl"; "in"; "let"; "loop"; "macro"; "match"; "mod"; "move"; "mut"; "override"; "priv"; "pub"; "ref"; "return"; "self";
   "static"; "struct"; "super"; "trait"; "true"; "try"; "type"; "typeof"; "unsafe"; "unsized"; "use"; "virtual"; "where"; "while"; "yield"]%string.
Definition usable (n : string) : Prop := n <> "_"%string /\ ~ In n keywords.
(** Any number of [g] *)
Inductive sequence {A} (g : A -> list tree -> Prop) : list A -> list tree -> Prop :=
| S_nil : sequence g [] []
| S_cons a ts l ts' : g a ts -> sequence g l ts' -> sequence g (a :: l) (ts ++ ts').

Inductive literal : list tree -> Prop :=
| T_plain w : literal [lit w]
| T_minus w : literal [sign "-"; lit w]
| T_bool n : n = "true"%string \/ n = "false"%string -> literal [name n].
Inductive path : list tree -> Prop :=
| Pa_name n : path [name n]
| Pa_more n p : path p -> path (p ++ [sign "::"; name n]).
Inductive meta : list tree -> Prop :=
| Me_path p : path p -> meta p
| Me_value p v : path p -> literal v -> meta (p ++ sign "=" :: v)
| Me_group p d g : path p -> meta (p ++ [Gr d g]).
Inductive attribute : unit -> list tree -> Prop :=
| At_metas ms g : sequence (fun (_ : unit) => meta) ms g -> attribute tt [sign "#"; Gr Bracket g].
(** Any number of attributes, which includes doc comments *)
Definition attrs (ts : list tree) : Prop := exists l, sequence attribute l ts.

(** Numbers in base [b]; underscores count for nothing. *)
Inductive numeral (b : Z) : list Z -> Z -> Prop :=
| Num_nil : numeral b [] 0
| Num_skip w z : numeral b w z -> numeral b (w ++ [95]) z
| Num_digit w z c d : numeral b w z -> 0 <= d < b -> (0 <= d <= 9 /\ c = 48 + d \/ 10 <= d /\ (c = 55 + d \/ c = 87 + d)) -> numeral b (w ++ [c]) (b * z + d).
Inductive natural : list Z -> Z -> Prop :=
| Nat_decimal c w z : decimal c -> numeral 10 (c :: w) z -> natural (c :: w) z
| Nat_hexadecimal w z : numeral 16 w z -> natural (text "0x" ++ w) z.
Inductive integer : Z -> list tree -> Prop :=
| In_plus w z : natural w z -> integer z [lit w]
| In_minus w z : natural w z -> integer (- z) [sign "-"; lit w].
Definition fits_bits (n z : Z) : Prop := - 2 ^ (n - 1) <= z < 2 ^ (n - 1).
Definition written (t : tree) : string := match t with Lf (LId n) => n | Lf (LLit w) => string_of w | Lf (LPunct s) => s | Gr _ _ => "" end.

Inductive element : option string -> list tree -> Prop :=
| El_none : element None []
| El_some e : e <> "_"%string -> element (Some e) [sign "<"; name e; sign ">"].
Inductive default_value : option string -> list tree -> Prop :=
| Df_none : default_value None []
| Df_some v : literal v -> default_value (Some (String.concat "" (map written v))) (sign "=" :: v).
Inductive semicolon : list tree -> Prop := Se_none : semicolon [] | Se_some : semicolon [sign ";"].
Definition demand (b : bool) : string := if b then "required" else "optional".
(** macros.rs:46-51, except that the requirement is not optional *)
Inductive struct_field : mfield -> list tree -> Prop :=
| Fi_struct a z i b t e es n d ds s : attrs a -> integer z i -> fits_bits 16 z -> t <> "_"%string -> element e es -> usable n -> default_value d ds -> semicolon s ->
    struct_field {| m_id := z; m_req := Some b; m_type := t; m_elem := e; m_name := n; m_default := d |}
      (a ++ i ++ [sign ":"; name (demand b); name t] ++ es ++ [name n] ++ ds ++ s).
(** macros.rs:118-124, except that there is no requirement *)
Inductive union_field : mfield -> list tree -> Prop :=
| Fi_union a z i t e es n s : attrs a -> integer z i -> fits_bits 16 z -> t <> "_"%string -> element e es -> usable n -> semicolon s ->
    union_field {| m_id := z; m_req := None; m_type := t; m_elem := e; m_name := n; m_default := None |}
      (a ++ i ++ [sign ":"; name t] ++ es ++ [name n] ++ s).
(** macros.rs:193-199 *)
Inductive constant : string * Z -> list tree -> Prop :=
| Co_enum a n z i : attrs a -> usable n -> integer z i -> fits_bits 32 z -> constant (n, z) (a ++ [name n; sign "="] ++ i ++ [sign ";"]).
Inductive declared : option (string * mdef) -> list tree -> Prop :=
| De_struct a n fs ts : attrs a -> usable n -> sequence struct_field fs ts -> declared (Some (n, MStruct fs)) (a ++ [name "struct"; name n; Gr Brace ts])
| De_union a n fs ts : attrs a -> usable n -> sequence union_field fs ts -> declared (Some (n, MUnion fs)) (a ++ [name "union"; name n; Gr Brace ts])
| De_enum a n cs ts : attrs a -> usable n -> sequence constant cs ts -> declared (Some (n, MEnum cs)) (a ++ [name "enum"; name n; Gr Brace ts])
| De_namespace a l n : attrs a -> l <> "_"%string -> n <> "_"%string -> declared None (a ++ [name "namespace"; name l; name n]).
Definition somes {A} (l : list (option A)) : list A := flat_map (fun o => match o with Some a => [a] | None => [] end) l.
Definition declarations (ds : list (string * mdef)) (ts : list tree) : Prop := exists l, sequence declared l ts /\ ds = somes l.

(** * The documented syntax
    Fields with the requirement in square brackets: macros.rs:50, and without default :122 *)
Inductive demanded : option bool -> list tree -> Prop := Rq_none : demanded None [] | Rq_some b : demanded (Some b) [name (demand b)].
Inductive documented_field (defaults : bool) : option bool -> list tree -> Prop :=
| Do_field a z i q qs t e es n d ds s : attrs a -> integer z i -> fits_bits 16 z -> demanded q qs -> t <> "_"%string -> element e es -> usable n ->
    default_value d ds -> (defaults = false -> d = None) -> semicolon s ->
    documented_field defaults q (a ++ i ++ [sign ":"] ++ qs ++ [name t] ++ es ++ [name n] ++ ds ++ s).
