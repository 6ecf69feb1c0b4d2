(** generator/src/main/antlr4/net/jhorstmann/compactthrift/Thrift.g4: the parser that ANTLR
    generates, a recursive descent in which one token of lookahead decides, and
    Parser.kt from the text of a document to its definitions.  The first error is thrown
    (Parser.kt:17-29).  Of the parse tree that part is kept which Parser.kt looks at. *)
From Verif Require Import Base ErrorName Generator ThriftLex.
Open Scope Z_scope.

Definition P (A : Type) : Type := list token -> kotlin (A * list token).
Definition syntax {A} : kotlin A := KThrow Syntax.
Definition is_text (s : string) (t : token) : bool := match t with T s' => String.eqb s s' | _ => false end.
(** Lookahead *)
Definition next (f : token -> bool) (ts : list token) : bool := match ts with t :: _ => f t | [] => false end.
Definition expect (s : string) : P unit := fun ts =>
  match ts with t :: ts' => if is_text s t then KOk (tt, ts') else syntax | [] => syntax end.
Definition comma : P unit := fun ts => match ts with TComma :: ts' => KOk (tt, ts') | _ => syntax end.
Definition identifier : P string := fun ts => match ts with TId n :: ts' => KOk (n, ts') | _ => syntax end.
Definition literal : P (list Z) := fun ts => match ts with TLiteral w :: ts' => KOk (w, ts') | _ => syntax end.
(** [x*].  [n]: at least the number of tokens *)
Fixpoint many {A} (starts : token -> bool) (p : P A) (n : nat) (ts : list token) : kotlin (list A * list token) :=
  if next starts ts then
    match n with
    | O => KThrow StackOverflow
    | S n' =>
        let! (a, ts) := p ts in
        let! (l, ts) := many starts p n' ts in
        KOk (a :: l, ts)
    end
  else KOk ([], ts).

(** Thrift.g4:83-86 [listSeparator?] *)
Definition is_separator (t : token) : bool := match t with TComma => true | _ => is_text ";" t end.
Definition separator (ts : list token) : list token := if next is_separator ts then tl ts else ts.

(** Thrift.g4:74-77, with the digits that Parser.kt:158-179 converts *)
Definition digits_of (w : list Z) : list Z :=
  map (fun c => if c <=? 57 then c - 48 else if c <=? 70 then c - 55 else c - 87) w.
Definition dec_of (w : list Z) : integer :=
  match w with
  | 43 :: ds => Dec Plus (digits_of ds)
  | 45 :: ds => Dec Minus (digits_of ds)
  | ds => Dec NoSign (digits_of ds)
  end.
Definition hex_of (w : list Z) : integer :=
  match w with
  | 45 :: _ => Hex true (digits_of (skipn 3 w))
  | _ => Hex false (digits_of (skipn 2 w))
  end.
Definition starts_integer (t : token) : bool := match t with TInteger _ | THex _ => true | _ => false end.
Definition parse_integer : P integer := fun ts =>
  match ts with
  | TInteger w :: ts => KOk (dec_of w, ts)
  | THex w :: ts => KOk (hex_of w, ts)
  | _ => syntax
  end.

(** Thrift.g4:88-97 *)
Definition base_types : list (string * builtin) :=
  [("bool", BOOL); ("byte", BYTE); ("i16", I16); ("i32", I32); ("i64", I64); ("double", DOUBLE); ("string", STRING); ("binary", BINARY)]%string.
Definition base_type (s : string) : option builtin := option_map snd (find (fun x => String.eqb s (fst x)) base_types).
Definition starts_type (t : token) : bool :=
  match t with
  | TId _ => true
  | T s => match base_type s with Some _ => true | None => is_text "map" t || is_text "set" t || is_text "list" t end
  | _ => false
  end.
(** Thrift.g4:61-63 [cppType?] *)
Definition parse_cpp_type : P unit := fun ts =>
  if next (is_text "cpp_type") ts then let! (_, ts) := literal (tl ts) in KOk (tt, ts) else KOk (tt, ts).
(** Thrift.g4:53-59.  [d]: admissible nesting of calls *)
Fixpoint parse_type (d : nat) : P ftype := fun ts =>
  match d with
  | O => KThrow StackOverflow
  | S d' =>
      match ts with
      | TId n :: ts => KOk (Named n, ts)
      | T s :: ts =>
          match base_type s with
          | Some b => KOk (Base b, ts)
          | None =>
              if String.eqb s "map" then
                let! (_, ts) := parse_cpp_type ts in let! (_, ts) := expect "<" ts in let! (k, ts) := parse_type d' ts in
                let! (_, ts) := comma ts in let! (v, ts) := parse_type d' ts in let! (_, ts) := expect ">" ts in KOk (MapOf k v, ts)
              else if String.eqb s "set" then
                let! (_, ts) := parse_cpp_type ts in let! (_, ts) := expect "<" ts in let! (e, ts) := parse_type d' ts in
                let! (_, ts) := expect ">" ts in KOk (SetOf e, ts)
              else if String.eqb s "list" then
                let! (_, ts) := parse_cpp_type ts in let! (_, ts) := expect "<" ts in let! (e, ts) := parse_type d' ts in
                let! (_, ts) := expect ">" ts in KOk (ListOf e, ts)
              else syntax
          end
      | _ => syntax
      end
  end.

(** Thrift.g4:65-72, 79-81.  The value itself is not used. *)
Definition starts_value (t : token) : bool :=
  match t with TInteger _ | THex _ | TDouble _ | TLiteral _ | TId _ => true | _ => is_text "[" t || is_text "{" t end.
Fixpoint parse_value (d : nat) : P unit := fun ts =>
  match d with
  | O => KThrow StackOverflow
  | S d' =>
      match ts with
      | TInteger _ :: ts | THex _ :: ts | TDouble _ :: ts | TLiteral _ :: ts | TId _ :: ts => KOk (tt, ts)
      | T s :: ts =>
          if String.eqb s "[" then
            let! (_, ts) := many starts_value (fun ts => let! (_, ts) := parse_value d' ts in KOk (tt, separator ts)) (List.length ts) ts in
            expect "]" ts
          else if String.eqb s "{" then
            let! (_, ts) := many starts_value (fun ts =>
                              let! (_, ts) := parse_value d' ts in let! (_, ts) := expect ":" ts in let! (_, ts) := parse_value d' ts in
                              KOk (tt, separator ts)) (List.length ts) ts in
            expect "}" ts
          else syntax
      | _ => syntax
      end
  end.

(** Thrift.g4:35-38 [fieldRequirement?] *)
Definition parse_requirement : P (option freq) := fun ts =>
  if next (is_text "required") ts then KOk (Some REQUIRED, tl ts)
  else if next (is_text "optional") ts then KOk (Some OPTIONAL, tl ts)
  else KOk (None, ts).
Definition starts_field (t : token) : bool := starts_integer t || is_text "required" t || is_text "optional" t || starts_type t.
(** Thrift.g4:31-33 *)
Definition parse_field (d : nat) : P pfield := fun ts =>
  let! (id, ts) := if next starts_integer ts then let! (i, ts) := parse_integer ts in let! (_, ts) := expect ":" ts in KOk (Some i, ts)
                   else KOk (None, ts) in
  let! (req, ts) := parse_requirement ts in
  let! (t, ts) := parse_type d ts in
  let! (n, ts) := identifier ts in
  let! (_, ts) := if next (is_text "=") ts then parse_value d (tl ts) else KOk (tt, ts) in
  KOk ({| p_id := id; p_req := req; p_name := n; p_type := t |}, separator ts).
Definition parse_fields (d : nat) : P (list pfield) := fun ts => many starts_field (parse_field d) (List.length ts) ts.
(** Thrift.g4:27-29 *)
Definition starts_enum_field (t : token) : bool := match t with TId _ => true | _ => false end.
Definition parse_enum_field : P (string * integer) := fun ts =>
  let! (n, ts) := identifier ts in let! (_, ts) := expect "=" ts in let! (i, ts) := parse_integer ts in KOk ((n, i), separator ts).
(** Thrift.g4:40-51 *)
Definition starts_function (t : token) : bool := is_text "oneway" t || is_text "void" t || starts_type t.
Definition parse_function (d : nat) : P unit := fun ts =>
  let ts := if next (is_text "oneway") ts then tl ts else ts in
  let! (_, ts) := if next (is_text "void") ts then KOk (tt, tl ts) else let! (_, ts) := parse_type d ts in KOk (tt, ts) in
  let! (_, ts) := identifier ts in
  let! (_, ts) := expect "(" ts in let! (_, ts) := parse_fields d ts in let! (_, ts) := expect ")" ts in
  let! (_, ts) := if next (is_text "throws") ts then
                    let! (_, ts) := expect "(" (tl ts) in let! (_, ts) := parse_fields d ts in expect ")" ts
                  else KOk (tt, ts) in
  KOk (tt, separator ts).

Definition braces {A} (p : P A) : P A := fun ts =>
  let! (_, ts) := expect "{" ts in let! (a, ts) := p ts in let! (_, ts) := expect "}" ts in KOk (a, ts).
(** Thrift.g4:17-25 *)
Definition definition_words : list string := ["const"; "typedef"; "enum"; "struct"; "union"; "exception"; "service"]%string.
Definition starts_definition (t : token) : bool := existsb (fun s => is_text s t) definition_words.
Definition parse_definition (d : nat) : P (string * pdefinition) := fun ts =>
  match ts with
  | T s :: ts =>
      if String.eqb s "const" then
        let! (_, ts) := parse_type d ts in let! (n, ts) := identifier ts in let! (_, ts) := expect "=" ts in let! (_, ts) := parse_value d ts in
        KOk ((n, PConst), separator ts)
      else if String.eqb s "typedef" then let! (t, ts) := parse_type d ts in let! (n, ts) := identifier ts in KOk ((n, PTypeDef t), ts)
      else if String.eqb s "enum" then
        let! (n, ts) := identifier ts in
        let! (fs, ts) := braces (fun ts => many starts_enum_field parse_enum_field (List.length ts) ts) ts in KOk ((n, PEnum fs), ts)
      else if String.eqb s "struct" then
        let! (n, ts) := identifier ts in let! (fs, ts) := braces (parse_fields d) ts in KOk ((n, PStruct fs), ts)
      else if String.eqb s "union" then
        let! (n, ts) := identifier ts in let! (fs, ts) := braces (parse_fields d) ts in KOk ((n, PUnion fs), ts)
      else if String.eqb s "exception" then
        let! (n, ts) := identifier ts in let! (_, ts) := braces (parse_fields d) ts in KOk ((n, PException), ts)
      else if String.eqb s "service" then
        let! (n, ts) := identifier ts in
        let! (_, ts) := if next (is_text "extends") ts then identifier (tl ts) else KOk (""%string, ts) in
        let! (_, ts) := braces (fun ts => many starts_function (parse_function d) (List.length ts) ts) ts in KOk ((n, PService), ts)
      else syntax
  | _ => syntax
  end.

(** Thrift.g4:11-15 *)
Inductive header : Type :=
| Include (w : list Z)
| CppInclude (w : list Z)
| Namespace (lang n : string).
Definition starts_header (t : token) : bool := is_text "include" t || is_text "cpp_include" t || is_text "namespace" t.
Definition parse_header : P header := fun ts =>
  match ts with
  | T s :: ts =>
      if String.eqb s "include" then let! (w, ts) := literal ts in KOk (Include w, ts)
      else if String.eqb s "cpp_include" then let! (w, ts) := literal ts in KOk (CppInclude w, ts)
      else if String.eqb s "namespace" then
        let! (l, ts) := if next (is_text "*") ts then KOk ("*"%string, tl ts) else identifier ts in
        let! (n, ts) := identifier ts in KOk (Namespace l n, ts)
      else syntax
  | _ => syntax
  end.
(** Thrift.g4:7-9 *)
Definition parse (d : nat) (ts : list token) : kotlin (list header * list (string * pdefinition)) :=
  let! (hs, ts) := many starts_header parse_header (List.length ts) ts in
  let! (ds, ts) := many starts_definition (parse_definition d) (List.length ts) ts in
  match ts with [] => KOk (hs, ds) | _ :: _ => syntax end.

(** * Parser.kt *)
(** Parser.kt:44-64.  The map of namespaces and the texts of the includes *)
Definition header_map : Type := list (string * string) * list (list Z).
Definition map_header (hs : list header) : kotlin header_map :=
  fold_left (fun r h => let! (ns, is) := r in
               match h with
               | Namespace l n => KOk (put ns l n, is)
               | Include w => KOk (ns, is ++ [w])
               | CppInclude _ => KThrow NotImplemented
               end) hs (KOk ([], [])).
(** Parser.kt:31-42, 181-185 and Main.kt:13-15: from the text to the document *)
Definition load (d : nat) (s : list Z) : kotlin (header_map * document) :=
  match lex s with
  | None => syntax
  | Some ts =>
      let! (hs, ds) := parse d ts in
      let! h := map_header hs in
      let! doc := map_document ds in
      KOk (h, doc)
  end.

(** * The first lines of the generated code *)
Fixpoint get {V} (m : list (string * V)) (k : string) : option V :=
  match m with
  | [] => None
  | (k', v) :: m' => if String.eqb k k' then Some v else get m' k
  end.
(** [replace(".", "::")] *)
Definition dots (w : list Z) : list Z := flat_map (fun c => if c =? 46 then [58; 58] else [c]) w.
(** Generator.kt:118-132, without the line feeds.  [now]: the time of generation *)
Definition header_lines (now : list Z) (h : header_map) : list (list Z) :=
  let '(namespaces, includes) := h in
  let namespace := match get namespaces "rust" with Some n => Some n | None => get namespaces "*" end in
  let prefix := match namespace with Some n => dots (text n) ++ text "::" | None => [] end in
  [text "#[allow(non_snake_case)]"; text "// Generated on " ++ now] ++
  match namespace with Some n => [text "// namepace=" ++ text n] | None => [] end ++
  map (fun i => text "use crate::" ++ prefix ++ i ++ text ";") includes ++
  [text "use std::borrow::Cow;"; text "use compact_thrift_runtime::*;"].
