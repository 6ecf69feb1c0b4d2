(** generator/src/main/java/net/jhorstmann/compactthrift: from the parse tree of a
    thrift document to the generated Rust items.

    The lexer, the parser and the headers are in ThriftLex.v and ThriftParse.v; this
    file starts at the parse tree.  Not modelled: the textual layout of the generated
    code (the model ends at the list of items), constant values. *)
From Verif Require Import Base.

(** Kotlin exceptions; [Syntax]: from the lexer or the parser (ThriftParse.v) *)
Inductive exn : Type := NumberFormat | NotImplemented | NoSuchElement | StackOverflow | Syntax.
Inductive kotlin (A : Type) : Type := KOk (a : A) | KThrow (e : exn).
Arguments KOk {A}. Arguments KThrow {A}.
Definition kbind {A B} (m : kotlin A) (k : A -> kotlin B) : kotlin B := match m with KOk a => k a | KThrow e => KThrow e end.
Notation "'let!' x := m 'in' k" := (kbind m (fun x => k)) (at level 200, x pattern, m at level 100, k at level 200).
Fixpoint kmap {A B} (f : A -> kotlin B) (l : list A) : kotlin (list B) :=
  match l with
  | [] => KOk []
  | a :: l' => let! b := f a in let! bs := kmap f l' in KOk (b :: bs)
  end.

(** Domain.kt:53-88 *)
Inductive builtin : Type := BOOL | BYTE | I16 | I32 | I64 | DOUBLE | STRING | BINARY.
Inductive ftype : Type :=
| Base (b : builtin)
| Named (n : string)
| SetOf (t : ftype)
| ListOf (t : ftype)
| MapOf (k v : ftype).
Inductive freq : Type := DEFAULT | OPTIONAL | REQUIRED.
Record gfield : Type := { g_id : Z; g_req : freq; g_name : string; g_type : ftype }.
(** Domain.kt:13-49; constants, exceptions and services are never constructed. *)
Inductive definition : Type :=
| TypeDef (t : ftype)
| EnumDef (fields : list (string * Z))
| StructDef (fields : list gfield)
| UnionDef (fields : list gfield).
Definition document := list (string * definition).

(** * Parse tree (Thrift.g4:17-61,74-77,99-105) *)
Inductive sign : Type := NoSign | Plus | Minus.
(** Digits most significant first, at least one. *)
Inductive integer : Type :=
| Dec (s : sign) (digits : list Z)
| Hex (negative : bool) (digits : list Z).
Record pfield : Type := { p_id : option integer; p_req : option freq; p_name : string; p_type : ftype }.
Inductive pdefinition : Type :=
| PConst
| PTypeDef (t : ftype)
| PEnum (fields : list (string * integer))
| PStruct (fields : list pfield)
| PUnion (fields : list pfield)
| PException
| PService.

(** [String.toInt(radix)], which is java.lang.Integer.parseInt: the exact value or NumberFormatException. *)
Definition magnitude (radix : Z) (digits : list Z) : Z := fold_left (fun n d => radix * n + d) digits 0.
Definition int_of (z : Z) : kotlin Z := if (-2147483648 <=? z) && (z <=? 2147483647) then KOk z else KThrow NumberFormat.
(** Parser.kt:158-179 *)
Definition map_integer (i : integer) : kotlin Z :=
  match i with
  | Dec s digits => int_of (match s with Minus => - magnitude 10 digits | _ => magnitude 10 digits end)
  | Hex negative digits => let! value := int_of (magnitude 16 digits) in KOk (if negative then wraps 32 (- value) else value)
  end.

(** [associateByTo(LinkedHashMap())]: a repeated key keeps its place and takes the new value. *)
Fixpoint put {V} (m : list (string * V)) (k : string) (v : V) : list (string * V) :=
  match m with
  | [] => [(k, v)]
  | (k', v') :: m' => if String.eqb k k' then (k, v) :: m' else (k', v') :: put m' k v
  end.
Definition associate {V} (l : list (string * V)) : list (string * V) := fold_left (fun m '(k, v) => put m k v) l [].

(** Parser.kt:128-131 *)
Definition map_enum_fields (fields : list (string * integer)) : kotlin (list (string * Z)) :=
  let! l := kmap (fun '(n, i) => let! v := map_integer i in KOk (n, v)) fields in
  KOk (associate l).

(** Parser.kt:133-148.  [current]: currentFieldId *)
Fixpoint number_fields (current : Z) (fields : list pfield) : kotlin (list gfield) :=
  match fields with
  | [] => KOk []
  | p :: fields' =>
      let! current := match p_id p with Some i => map_integer i | None => KOk (wraps 32 (current + 1)) end in
      let! rest := number_fields current fields' in
      KOk ({| g_id := current; g_req := match p_req p with Some r => r | None => DEFAULT end; g_name := p_name p; g_type := p_type p |} :: rest)
  end.
Definition map_fields (fields : list pfield) : kotlin (list gfield) :=
  let! l := number_fields (-1) fields in
  KOk (map snd (associate (map (fun f => (g_name f, f)) l))).

(** Parser.kt:66-97 *)
Definition map_definition (d : pdefinition) : kotlin definition :=
  match d with
  | PTypeDef t => KOk (TypeDef t)
  | PEnum fields => let! fs := map_enum_fields fields in KOk (EnumDef fs)
  | PStruct fields => let! fs := map_fields fields in KOk (StructDef fs)
  | PUnion fields => let! fs := map_fields fields in KOk (UnionDef fs)
  | PConst | PException | PService => KThrow NotImplemented
  end.
(** Parser.kt:181-185 *)
Definition map_document (ds : list (string * pdefinition)) : kotlin document :=
  let! l := kmap (fun '(n, d) => let! d := map_definition d in KOk (n, d)) ds in
  KOk (associate l).

(** [document.definitions[name]] *)
Fixpoint find_definition (doc : document) (n : string) : option definition :=
  match doc with
  | [] => None
  | (m, d) :: doc' => if String.eqb n m then Some d else find_definition doc' n
  end.

(** Generator.kt:31-40, the fields considered *)
Definition lifetime_fields (d : option definition) : list gfield :=
  match d with
  | Some (StructDef fields) | Some (UnionDef fields) => fields
  | _ => []
  end.
(** [fields.any { ... }] *)
Fixpoint kany {A} (f : A -> kotlin bool) (l : list A) : kotlin bool :=
  match l with
  | [] => KOk false
  | a :: l' => let! b := f a in if b then KOk true else kany f l'
  end.
(** Generator.kt:16-30.  [d]: admissible nesting of calls. *)
Fixpoint field_needs_lifetime (doc : document) (d : nat) (t : ftype) {struct d} : kotlin bool :=
  match d with
  | O => KThrow StackOverflow
  | S d' =>
      match t with
      | Base b => KOk (match b with STRING | BINARY => true | _ => false end)
      | Named n => kany (fun f => field_needs_lifetime doc d' (g_type f)) (lifetime_fields (find_definition doc n))
      | ListOf e | SetOf e => field_needs_lifetime doc d' e
      | MapOf k v => let! b := field_needs_lifetime doc d' k in if b then KOk true else field_needs_lifetime doc d' v
      end
  end.
Definition definition_needs_lifetime (doc : document) (d : nat) (def : option definition) : kotlin bool :=
  kany (fun f => field_needs_lifetime doc d (g_type f)) (lifetime_fields def).

(** * Generated items *)
Inductive rtype : Type :=
| RBool | RU8 | RI16 | RI32 | RI64 | RF64 | RCowStr | RCowBytes
| RVec (t : rtype) | RHashSet (t : rtype) | RHashMap (k v : rtype) | ROption (t : rtype)
| RNamed (n : string) (lifetime : bool).
(** Generator.kt:6-14 *)
Definition rust_identifier (n : string) : string := if String.eqb n "type" then "r#type" else n.
(** Generator.kt:54-76 *)
Fixpoint rust_field_type (doc : document) (d : nat) (t : ftype) : kotlin rtype :=
  match t with
  | Base b => KOk (match b with BOOL => RBool | BYTE => RU8 | I16 => RI16 | I32 => RI32 | I64 => RI64 | DOUBLE => RF64 | STRING => RCowStr | BINARY => RCowBytes end)
  | Named n =>
      match find_definition doc n with
      | None => KOk (RNamed n false)
      | Some def => let! l := definition_needs_lifetime doc d (Some def) in KOk (RNamed n l)
      end
  | MapOf k v => let! k := rust_field_type doc d k in let! v := rust_field_type doc d v in KOk (RHashMap k v)
  | SetOf e => let! e := rust_field_type doc d e in KOk (RHashSet e)
  | ListOf e => let! e := rust_field_type doc d e in KOk (RVec e)
  end.
(** Generator.kt:143-151 *)
Definition rust_type (doc : document) (d : nat) (t : ftype) (r : freq) : kotlin rtype :=
  let! t := rust_field_type doc d t in
  KOk (match r with REQUIRED => t | _ => ROption t end).

(** The impl of CompactThriftProtocol: names of its items, the arms of the match in the
    reading function, the fields in the order of writing, the required fields. *)
Record rimpl : Type := {
  i_items : list string;
  i_field_type : Z;
  i_arms : list (Z * string);
  i_writes : list (Z * string);
  i_required : list string
}.
Inductive ritem : Type :=
| IAlias (n : string) (t : rtype)
| IEnum (n : string) (consts : list (string * Z)) (i : rimpl)
| IStruct (n : string) (lifetime : bool) (fields : list (string * rtype)) (i : rimpl)
| IUnion (n : string) (lifetime : bool) (variants : list (string * rtype)) (default : string) (i : rimpl).

Definition required (f : gfield) : bool := match g_req f with REQUIRED => true | _ => false end.
Definition protocol_items : list string := ["FIELD_TYPE"; "fill"; "write"]%string.
(** Generator.kt:160-164, 166-224, 226-288, 290-355 *)
Definition generate (doc : document) (d : nat) (nd : string * definition) : kotlin ritem :=
  let '(n, def) := nd in
  match def with
  | TypeDef t => let! t := rust_type doc d t REQUIRED in KOk (IAlias (rust_identifier n) t)
  | EnumDef fields =>
      KOk (IEnum (rust_identifier n) (map (fun '(n, v) => (rust_identifier n, v)) fields)
             {| i_items := protocol_items; i_field_type := 5; i_arms := []; i_writes := []; i_required := [] |})
  | StructDef fields =>
      let! l := definition_needs_lifetime doc d (Some def) in
      let! fs := kmap (fun f => let! t := rust_type doc d (g_type f) (g_req f) in KOk (rust_identifier (g_name f), t)) fields in
      KOk (IStruct (rust_identifier n) l fs
             {| i_items := protocol_items; i_field_type := 12;
                i_arms := map (fun f => (g_id f, rust_identifier (g_name f))) fields;
                i_writes := map (fun f => (g_id f, rust_identifier (g_name f))) fields;
                i_required := map (fun f => rust_identifier (g_name f)) (filter required fields) |})
  | UnionDef fields =>
      let! l := definition_needs_lifetime doc d (Some def) in
      let! fs := kmap (fun f => let! t := rust_type doc d (g_type f) REQUIRED in KOk (g_name f, t)) fields in
      match fields with
      | [] => KThrow NoSuchElement
      | first :: _ =>
          KOk (IUnion n l fs (g_name first)
                 {| i_items := protocol_items; i_field_type := 12;
                    i_arms := map (fun f => (g_id f, g_name f)) fields;
                    i_writes := map (fun f => (g_id f, g_name f)) fields;
                    i_required := [] |})
      end
  end.
Definition generate_document (doc : document) (d : nat) : kotlin (list ritem) := kmap (generate doc d) doc.

(** runtime/src/protocol.rs:435-461: the items of the trait, and whether they have a default *)
Definition trait_items : list (string * bool) :=
  [("FIELD_TYPE", false); ("read_thrift", true); ("fill_thrift", false); ("fill_thrift_field", true);
   ("write_thrift", false); ("write_thrift_field", true)]%string.
(** runtime/src/types.rs:24-398: the types of [rtype] that implement the trait. *)
Fixpoint implements (t : rtype) : bool :=
  match t with
  | RBool | RI16 | RI32 | RI64 | RF64 | RCowStr | RCowBytes | RNamed _ _ => true
  | RVec RU8 => true
  | RVec t | ROption t => implements t
  | RU8 | RHashSet _ | RHashMap _ _ => false
  end.
