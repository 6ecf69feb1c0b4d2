(** The thrift language as the generator's grammar describes it, independently of the lexer
    and parser of ThriftLex.v and ThriftParse.v: how tokens are spelled, what may
    stand between them, and which sequences of tokens are documents. *)
From Verif Require Import Base ErrorName Generator ThriftLex ThriftParse.
Open Scope Z_scope.

(** * Tokens *)
Definition words : list string :=
  ["include"; "cpp_include"; "namespace"; "const"; "typedef"; "enum"; "struct"; "union"; "exception"; "service"; "extends"; "required";
   "optional"; "oneway"; "void"; "throws"; "map"; "set"; "list"; "cpp_type"; "bool"; "byte"; "i16"; "i32"; "i64"; "double"; "string"; "binary"]%string.
Definition punctuation : list string := ["*"; "="; "{"; "}"; ":"; "("; ")"; "<"; ">"; "["; "]"; ";"]%string.
Definition digit_char (c : Z) : Prop := 48 <= c <= 57.
Definition letter_char (c : Z) : Prop := 65 <= c <= 90 \/ 97 <= c <= 122.
Definition hex_char (c : Z) : Prop := digit_char c \/ 65 <= c <= 70 \/ 97 <= c <= 102.
Definition sign_text (w : list Z) : Prop := w = [] \/ w = text "+" \/ w = text "-".
Definition digits_text (w : list Z) : Prop := w <> [] /\ Forall digit_char w.
Definition integer_text (w : list Z) : Prop := exists s ds, w = s ++ ds /\ sign_text s /\ digits_text ds.
Definition hex_text (w : list Z) : Prop :=
  exists s hs, w = s ++ text "0x" ++ hs /\ (s = [] \/ s = text "-") /\ hs <> [] /\ Forall hex_char hs.
Definition mantissa_text (w : list Z) : Prop :=
  digits_text w \/ (exists a b, w = a ++ text "." ++ b /\ (a = [] \/ digits_text a) /\ digits_text b).
Definition exponent_text (w : list Z) : Prop :=
  w = [] \/ exists e s ds, w = e ++ s ++ ds /\ (e = text "e" \/ e = text "E") /\ sign_text s /\ digits_text ds.
Definition double_text (w : list Z) : Prop := exists s m e, w = s ++ m ++ e /\ sign_text s /\ mantissa_text m /\ exponent_text e.
(** What may stand between the quotes [q] *)
Inductive quotable (q : Z) : list Z -> Prop :=
| Q_end : quotable q []
| Q_plain c w : c <> q -> c <> 92 -> quotable q w -> quotable q (c :: w)
| Q_escape c w : In c (text "rnt" ++ [34; 39; 92]) -> quotable q w -> quotable q (92 :: c :: w).
Definition literal_text (w : list Z) : Prop := exists q v, (q = 34 \/ q = 39) /\ quotable q v /\ w = q :: v ++ [q].
Definition identifier_text (w : list Z) : Prop :=
  exists c v, w = c :: v /\ (letter_char c \/ c = 95) /\ Forall (fun c => letter_char c \/ digit_char c \/ c = 46 \/ c = 95) v.

Definition spelling (t : token) : list Z :=
  match t with
  | T s => text s
  | TInteger w | THex w | TDouble w | TLiteral w => w
  | TId n => text n
  | TComma => text ","
  end.
Definition well_formed (t : token) : Prop :=
  match t with
  | T s => In s words \/ In s punctuation
  | TInteger w => integer_text w
  | THex w => hex_text w
  | TDouble w => double_text w /\ ~ integer_text w
  | TLiteral w => literal_text w
  | TId n => identifier_text (text n) /\ ~ In n words
  | TComma => True
  end.

(** * Between tokens *)
(** No "*/" before the end *)
Definition comment_body (b : list Z) : Prop := forall u v, b ++ text "*/" = u ++ text "*/" ++ v -> v = [].
Inductive piece : list Z -> Prop :=
| P_space : piece [32]
| P_tab : piece [9]
| P_newline : piece [10]
| P_return_newline : piece [13; 10]
| P_line s b : s = text "//" \/ s = text "#" -> ~ In 10 b -> piece (s ++ b ++ [10])
| P_block b : comment_body b -> piece (text "/*" ++ b ++ text "*/").
Definition gap (g : list Z) : Prop := exists ps, g = List.concat ps /\ Forall piece ps.

(** [s] is divided into tokens, each as long as possible. *)
Definition longest (t : token) (rest : list Z) : Prop :=
  forall t' r, well_formed t' -> spelling t' ++ r = spelling t ++ rest -> (List.length (spelling t') <= List.length (spelling t))%nat.
Inductive munch : list Z -> list token -> Prop :=
| M_end g : gap g -> munch g []
| M_token g t rest ts : gap g -> well_formed t -> longest t rest -> munch rest ts -> munch (g ++ spelling t ++ rest) (t :: ts).

(** A sufficient condition: words and numbers end before another character. *)
Definition word_char (c : Z) : Prop := letter_char c \/ digit_char c \/ In c (text "._+-").
Definition delimited (t : token) : Prop := match t with T s => In s punctuation | TLiteral _ | TComma => True | _ => False end.
Definition apart (t : token) (rest : list Z) : Prop :=
  delimited t \/ match rest with [] => True | c :: _ => ~ word_char c end.
Inductive layout : list Z -> list token -> Prop :=
| L_end g : gap g -> layout g []
| L_token g t rest ts : gap g -> well_formed t -> apart t rest -> layout rest ts -> layout (g ++ spelling t ++ rest) (t :: ts).

(** * Documents *)
Inductive opt_sep : list token -> Prop := O_none : opt_sep [] | O_comma : opt_sep [TComma] | O_semicolon : opt_sep [T ";"].
(** Any number of [g] *)
Inductive gr_many {A} (g : A -> list token -> Prop) : list A -> list token -> Prop :=
| G_nil : gr_many g [] []
| G_cons a ts l ts' : g a ts -> gr_many g l ts' -> gr_many g (a :: l) (ts ++ ts').

(** Values of digits *)
Definition hex_value (v c : Z) : Prop := 0 <= v <= 9 /\ c = 48 + v \/ 10 <= v <= 15 /\ (c = 55 + v \/ c = 87 + v).
Inductive gr_integer : integer -> list token -> Prop :=
| G_dec s ds : ds <> [] -> Forall (fun d => 0 <= d <= 9) ds ->
    gr_integer (Dec s ds) [TInteger (match s with NoSign => [] | Plus => text "+" | Minus => text "-" end ++ map (Z.add 48) ds)]
| G_hex neg vs cs : vs <> [] -> Forall2 hex_value vs cs ->
    gr_integer (Hex neg vs) [THex ((if neg then text "-" else []) ++ text "0x" ++ cs)].
Definition base_name (b : builtin) : string :=
  match b with BOOL => "bool" | BYTE => "byte" | I16 => "i16" | I32 => "i32" | I64 => "i64" | DOUBLE => "double" | STRING => "string" | BINARY => "binary" end.
Inductive opt_cpp : list token -> Prop := C_none : opt_cpp [] | C_some w : opt_cpp [T "cpp_type"; TLiteral w].
Inductive gr_type : ftype -> list token -> Prop :=
| G_base b : gr_type (Base b) [T (base_name b)]
| G_named n : gr_type (Named n) [TId n]
| G_map cpp k v ks vs : opt_cpp cpp -> gr_type k ks -> gr_type v vs ->
    gr_type (MapOf k v) ([T "map"] ++ cpp ++ [T "<"] ++ ks ++ [TComma] ++ vs ++ [T ">"])
| G_set cpp e es : opt_cpp cpp -> gr_type e es -> gr_type (SetOf e) ([T "set"] ++ cpp ++ [T "<"] ++ es ++ [T ">"])
| G_list cpp e es : opt_cpp cpp -> gr_type e es -> gr_type (ListOf e) ([T "list"] ++ cpp ++ [T "<"] ++ es ++ [T ">"]).
Inductive gr_value : list token -> Prop :=
| G_int w : gr_value [TInteger w]
| G_hexint w : gr_value [THex w]
| G_double w : gr_value [TDouble w]
| G_literal w : gr_value [TLiteral w]
| G_id n : gr_value [TId n]
| G_vlist vs : gr_values vs -> gr_value ([T "["] ++ vs ++ [T "]"])
| G_vmap es : gr_entries es -> gr_value ([T "{"] ++ es ++ [T "}"])
with gr_values : list token -> Prop :=
| G_vnil : gr_values []
| G_vcons v s vs : gr_value v -> opt_sep s -> gr_values vs -> gr_values (v ++ s ++ vs)
with gr_entries : list token -> Prop :=
| G_enil : gr_entries []
| G_econs k v s es : gr_value k -> gr_value v -> opt_sep s -> gr_entries es -> gr_entries (k ++ [T ":"] ++ v ++ s ++ es).

Inductive gr_id : option integer -> list token -> Prop :=
| G_noid : gr_id None []
| G_someid i ts : gr_integer i ts -> gr_id (Some i) (ts ++ [T ":"]).
Inductive gr_req : option freq -> list token -> Prop :=
| G_default : gr_req None []
| G_required : gr_req (Some REQUIRED) [T "required"]
| G_optional : gr_req (Some OPTIONAL) [T "optional"].
Inductive opt_default : list token -> Prop :=
| D_none : opt_default []
| D_some v : gr_value v -> opt_default ([T "="] ++ v).
Inductive gr_field : pfield -> list token -> Prop :=
| G_field id req n t is rs ts ds s : gr_id id is -> gr_req req rs -> gr_type t ts -> opt_default ds -> opt_sep s ->
    gr_field {| p_id := id; p_req := req; p_name := n; p_type := t |} (is ++ rs ++ ts ++ [TId n] ++ ds ++ s).
Inductive gr_enum_field : string * integer -> list token -> Prop :=
| G_enum_field n i is s : gr_integer i is -> opt_sep s -> gr_enum_field (n, i) ([TId n] ++ [T "="] ++ is ++ s).
Inductive gr_result : list token -> Prop :=
| G_void : gr_result [T "void"]
| G_result t ts : gr_type t ts -> gr_result ts.
Inductive opt_oneway : list token -> Prop := W_none : opt_oneway [] | W_some : opt_oneway [T "oneway"].
Inductive opt_throws : list token -> Prop :=
| E_none : opt_throws []
| E_some fs ts : gr_many gr_field fs ts -> opt_throws ([T "throws"; T "("] ++ ts ++ [T ")"]).
Inductive gr_function : unit -> list token -> Prop :=
| G_function ow rs n fs ps th s : opt_oneway ow -> gr_result rs -> gr_many gr_field fs ps -> opt_throws th -> opt_sep s ->
    gr_function tt (ow ++ rs ++ [TId n; T "("] ++ ps ++ [T ")"] ++ th ++ s).
Inductive opt_extends : list token -> Prop := X_none : opt_extends [] | X_some n : opt_extends [T "extends"; TId n].
Inductive gr_definition : string * pdefinition -> list token -> Prop :=
| G_const n t ts vs s : gr_type t ts -> gr_value vs -> opt_sep s -> gr_definition (n, PConst) ([T "const"] ++ ts ++ [TId n; T "="] ++ vs ++ s)
| G_typedef n t ts : gr_type t ts -> gr_definition (n, PTypeDef t) ([T "typedef"] ++ ts ++ [TId n])
| G_enum n fs ts : gr_many gr_enum_field fs ts -> gr_definition (n, PEnum fs) ([T "enum"; TId n; T "{"] ++ ts ++ [T "}"])
| G_struct n fs ts : gr_many gr_field fs ts -> gr_definition (n, PStruct fs) ([T "struct"; TId n; T "{"] ++ ts ++ [T "}"])
| G_union n fs ts : gr_many gr_field fs ts -> gr_definition (n, PUnion fs) ([T "union"; TId n; T "{"] ++ ts ++ [T "}"])
| G_exception n fs ts : gr_many gr_field fs ts -> gr_definition (n, PException) ([T "exception"; TId n; T "{"] ++ ts ++ [T "}"])
| G_service n x fs ts : opt_extends x -> gr_many gr_function fs ts ->
    gr_definition (n, PService) ([T "service"; TId n] ++ x ++ [T "{"] ++ ts ++ [T "}"]).
Inductive gr_header : header -> list token -> Prop :=
| G_include w : gr_header (Include w) [T "include"; TLiteral w]
| G_cpp_include w : gr_header (CppInclude w) [T "cpp_include"; TLiteral w]
| G_namespace l n : gr_header (Namespace l n) [T "namespace"; TId l; TId n]
| G_namespace_any n : gr_header (Namespace "*" n) [T "namespace"; T "*"; TId n].
Inductive gr_document : list header * list (string * pdefinition) -> list token -> Prop :=
| G_document hs ds h d : gr_many gr_header hs h -> gr_many gr_definition ds d -> gr_document (hs, ds) (h ++ d).

(** * The documents that have a text *)
Definition valid_name (n : string) : Prop := identifier_text (text n) /\ ~ In n words.
Definition valid_integer (i : integer) : Prop :=
  match i with
  | Dec _ ds => ds <> [] /\ Forall (fun d => 0 <= d <= 9) ds
  | Hex _ ds => ds <> [] /\ Forall (fun d => 0 <= d <= 15) ds
  end.
Fixpoint valid_type (t : ftype) : Prop :=
  match t with
  | Base _ => True
  | Named n => valid_name n
  | SetOf e | ListOf e => valid_type e
  | MapOf k v => valid_type k /\ valid_type v
  end.
(** DEFAULT is not written: it is the absence of a requirement. *)
Definition valid_field (f : pfield) : Prop :=
  (forall i, p_id f = Some i -> valid_integer i) /\ p_req f <> Some DEFAULT /\ valid_name (p_name f) /\ valid_type (p_type f).
Definition valid_definition (nd : string * pdefinition) : Prop :=
  valid_name (fst nd) /\
  match snd nd with
  | PTypeDef t => valid_type t
  | PEnum fs => Forall (fun '(n, i) => valid_name n /\ valid_integer i) fs
  | PStruct fs | PUnion fs => Forall valid_field fs
  | PConst | PException | PService => True
  end.
Definition valid_header (h : header) : Prop :=
  match h with
  | Include w | CppInclude w => literal_text w
  | Namespace l n => (l = "*"%string \/ valid_name l) /\ valid_name n
  end.
Definition valid_document (x : list header * list (string * pdefinition)) : Prop :=
  Forall valid_header (fst x) /\ Forall valid_definition (snd x).

(** * Headers *)
(** The last declaration counts. *)
Inductive namespace_of (l : string) : list header -> option string -> Prop :=
| N_none hs : (forall n, ~ In (Namespace l n) hs) -> namespace_of l hs None
| N_last hs n hs' : (forall n, ~ In (Namespace l n) hs') -> namespace_of l (hs ++ Namespace l n :: hs') (Some n).
Inductive rust_namespace : list header -> option string -> Prop :=
| R_rust hs n : namespace_of "rust" hs (Some n) -> rust_namespace hs (Some n)
| R_any hs o : namespace_of "rust" hs None -> namespace_of "*" hs o -> rust_namespace hs o.
Definition includes (hs : list header) : list (list Z) := flat_map (fun h => match h with Include w => [w] | _ => [] end) hs.
(** [use crate::a::b;] *)
Definition rust_word (w : list Z) : Prop :=
  exists c v, w = c :: v /\ (letter_char c \/ c = 95) /\ Forall (fun c => letter_char c \/ digit_char c \/ c = 95) v.
Definition use_line (l : list Z) : Prop :=
  exists ps, ps <> [] /\ Forall rust_word ps /\ l = text "use crate" ++ flat_map (fun p => text "::" ++ p) ps ++ text ";".
