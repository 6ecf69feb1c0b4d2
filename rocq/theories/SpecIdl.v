(** The Thrift interface definition language as far as the wire format is concerned, and how a Rust
    schema represents one written in it.  Independent of the macros and of the reading and writing
    functions. *)
From Verif Require Import Base Types Generator SpecCompact Schema SpecEvolve Parquet ParquetIdl.

(** * Types of the language *)
(** The type without Rust's pointers and sets; lists are vectors.  Sets and maps have no counterpart. *)
Fixpoint plain (t : ftype) : option ty :=
  match t with
  | Base BOOL => Some TBool
  | Base BYTE => Some TI8
  | Base I16 => Some TI16
  | Base I32 => Some TI32
  | Base I64 => Some TI64
  | Base DOUBLE => Some TDouble
  | Base STRING => Some TString
  | Base BINARY => Some TBinary
  | Named n => Some (if String.eqb n "i8" then TI8 else TNamed n)
  | ListOf t' => option_map TVec (plain t')
  | SetOf _ | MapOf _ _ => None
  end.
(** Type codes of the compact protocol; [enum n]: [n] is the name of an enumeration. *)
Definition idl_code (enum : string -> bool) (t : ftype) : Z :=
  match t with
  | Base BOOL => 2
  | Base BYTE => 3
  | Base I16 => 4
  | Base I32 => 5
  | Base I64 => 6
  | Base DOUBLE => 7
  | Base STRING | Base BINARY => 8
  | ListOf _ => 9
  | SetOf _ => 10
  | MapOf _ _ => 11
  | Named n => if String.eqb n "i8" then 3 else if enum n then 5 else 12
  end.
Definition enum_in (E : env) (n : string) : bool := match lookup E n with Some DEnum => true | _ => false end.

(** The type written as one or two identifiers in a declaration.  Box, Rc and Arc say how the value is
    stored.  [None]: the identifier is not a type of the language but one of Rust. *)
Definition idl_simple (n : string) : option ftype :=
  if String.eqb n "bool" then Some (Base BOOL)
  else if String.eqb n "byte" || String.eqb n "i8" then Some (Base BYTE)
  else if String.eqb n "i16" then Some (Base I16)
  else if String.eqb n "i32" then Some (Base I32)
  else if String.eqb n "i64" then Some (Base I64)
  else if String.eqb n "double" then Some (Base DOUBLE)
  else if String.eqb n "string" then Some (Base STRING)
  else if String.eqb n "binary" then Some (Base BINARY)
  else if existsb (String.eqb n) ["u8"; "f64"; "str"; "String"; "EncodingSet"]%string then None
  else Some (Named n).
Definition pointer (n : string) : bool := existsb (String.eqb n) ["Box"; "Rc"; "Arc"]%string.
Definition idl_type (n : string) (e : option string) : option ftype :=
  match e with
  | None => idl_simple n
  | Some e =>
      if String.eqb n "list" then option_map ListOf (idl_simple e)
      else if String.eqb n "set" then option_map SetOf (idl_simple e)
      else if pointer n then idl_simple e
      else None
  end.

(** * Schemas of the language *)
Definition idl_field (union : bool) (f : gfield) : option field :=
  option_map (fun t => {| f_id := g_id f; f_req := union || match g_req f with REQUIRED => true | _ => false end; f_ty := t; f_name := g_name f |})
    (plain (g_type f)).
Definition idl_def (d : definition) : option def :=
  match d with
  | EnumDef _ => Some DEnum
  | StructDef fs => option_map DStruct (sequence (map (idl_field false) fs))
  | UnionDef fs => option_map DUnion (sequence (map (idl_field true) fs))
  | TypeDef _ => None
  end.
Definition idl_env (doc : document) : option env :=
  sequence (map (fun '(n, d) => option_map (pair n) (idl_def d)) doc).

(** * Representation
    [E1]: a schema of the language; [E2]: a Rust schema. *)
(** A Rust type has the wire format of a plain one: it is the same up to boxes, and a list of
    encodings may be an EncodingSet. *)
Fixpoint carries (E1 : env) (t u : ty) : bool :=
  match u with
  | TBox u' => negb (boolish u') && carries E1 t u'
  | TShared u' => negb (boolish u') && carries E1 t u'
  | TVec u' => match t with TVec t' => carries E1 t' u' | _ => false end
  | TEncSet => match t with TVec (TNamed n) => String.eqb n "Encoding" && enum_in E1 n | _ => false end
  | TOption _ => false
  | _ => ty_eqb t u
  end.

(** [represents E1 E2 t u v w]: the Rust value [w : u] stands for [v : t].  Fields are matched by id;
    those that only one of the schemas declares are absent from the other's value. *)
Inductive represents (E1 E2 : env) : ty -> ty -> value -> value -> Prop :=
| rep_scalar t v : match t with TBool | TI8 | TI16 | TI32 | TI64 | TDouble | TBinary | TString => True | _ => False end -> represents E1 E2 t t v v
| rep_enum n z : lookup E1 n = Some DEnum -> lookup E2 n = Some DEnum -> represents E1 E2 (TNamed n) (TNamed n) (VI32 z) (VI32 z)
| rep_vec t u vs ws : carries E1 t u = true -> represents_all E1 E2 t u vs ws -> represents E1 E2 (TVec t) (TVec u) (VVec vs) (VVec ws)
| rep_box t u v w : represents E1 E2 t u v w -> represents E1 E2 t (TBox u) v (VBox w)
| rep_shared t u v w : represents E1 E2 t u v w -> represents E1 E2 t (TShared u) v (VShared true w)
| rep_encset zs mask :
    lookup E1 "Encoding" = Some DEnum -> Forall (fun z => 0 <= z <= 30) zs -> 0 <= mask -> (forall k, 0 <= k -> Z.testbit mask k = true <-> In k zs) ->
    represents E1 E2 (TVec (TNamed "Encoding")) TEncSet (VVec (map VI32 zs)) (VEncSet mask)
| rep_struct n fs1 fs2 vs ws :
    lookup E1 n = Some (DStruct fs1) -> lookup E2 n = Some (DStruct fs2) -> represents_fields E1 E2 (present fs1 vs) fs2 ws ->
    represents E1 E2 (TNamed n) (TNamed n) (VStruct vs) (VStruct ws)
| rep_union n fs1 fs2 i j f1 f2 v w :
    lookup E1 n = Some (DUnion fs1) -> lookup E2 n = Some (DUnion fs2) -> nth_error fs1 i = Some f1 -> nth_error fs2 j = Some f2 ->
    f_id f1 = f_id f2 -> represents E1 E2 (f_ty f1) (f_ty f2) v w ->
    represents E1 E2 (TNamed n) (TNamed n) (VUnion i v) (VUnion j w)
with represents_all (E1 E2 : env) : ty -> ty -> list value -> list value -> Prop :=
| rep_nil t u : represents_all E1 E2 t u [] []
| rep_cons t u v vs w ws : represents E1 E2 t u v w -> represents_all E1 E2 t u vs ws -> represents_all E1 E2 t u (v :: vs) (w :: ws)
(** the fields present in one, the fields and values of the other *)
with represents_fields (E1 E2 : env) : list (field * value) -> list field -> list value -> Prop :=
| rep_end p : represents_fields E1 E2 p [] []
| rep_present p f1 f2 v w fs ws :
    In (f1, v) p -> f_id f1 = f_id f2 -> represents E1 E2 (f_ty f1) (f_ty f2) v w -> represents_fields E1 E2 p fs ws ->
    represents_fields E1 E2 p (f2 :: fs) ((if f_req f2 then w else VSome w) :: ws)
| rep_absent p f2 fs ws :
    f_req f2 = false -> (forall f1 v, In (f1, v) p -> f_id f1 <> f_id f2) -> represents_fields E1 E2 p fs ws ->
    represents_fields E1 E2 p (f2 :: fs) (VNone :: ws).

(** [implements read write E1 E2]: the Rust schema defines the names of the other as the same kind of thing, with
    fields of the same format.  [read]: it requires nothing that may be absent.  [write]: it
    requires everything that must be present.  (For a union, the variants of one are variants of the other.) *)
Definition known (ids fs : list field) : bool := forallb (fun f => existsb (fun g => f_id g =? f_id f) fs) ids.
Definition shared_fields (test : field -> field -> bool) (fs1 fs2 : list field) : bool :=
  forallb (fun f1 => forallb (fun f2 => negb (f_id f1 =? f_id f2) || test f1 f2) fs2) fs1.
Definition required_in (fs1 fs2 : list field) : bool :=
  forallb (fun f1 => negb (f_req f1) || existsb (fun f2 => (f_id f2 =? f_id f1) && f_req f2) fs2) fs1.
Definition implements_def (read write : bool) (E1 : env) (d1 d2 : def) : bool :=
  match d1, d2 with
  | DEnum, DEnum => true
  | DStruct fs1, DStruct fs2 =>
      nodupb (map f_id fs1) && known fs2 fs1 && shared_fields (fun f1 f2 => carries E1 (f_ty f1) (f_ty f2)) fs1 fs2
      && (negb read || required_in fs2 fs1) && (negb write || required_in fs1 fs2)
  | DUnion fs1, DUnion fs2 =>
      nodupb (map f_id fs1) && shared_fields (fun f1 f2 => carries E1 (f_ty f1) (f_ty f2)) fs1 fs2
      && (negb read || known fs1 fs2) && (negb write || known fs2 fs1)
  | _, _ => false
  end.
Definition implements (read write : bool) (E1 E2 : env) : bool :=
  forallb (fun '(n, d2) => match lookup E1 n with Some d1 => implements_def read write E1 d1 d2 | None => false end) E2
  && forallb (fun '(n, _) => is_some (lookup E2 n)) E1.

(** Encodings that fit an EncodingSet: lists of them have elements 0..=30. *)
Definition fits (t : ty) (v : value) : bool :=
  negb (ty_eqb t (TNamed "Encoding")) || match v with VI32 z => (0 <=? z) && (z <=? 30) | _ => false end.
Fixpoint lists_fit (E : env) (t : ty) (v : value) {struct v} : bool :=
  match v, t with
  | VVec vs, TVec t' => forallb (fun w => fits t' w && lists_fit E t' w) vs
  | VStruct vs, TNamed m =>
      match lookup E m with
      | Some (DStruct fs) =>
          (fix all (vs : list value) (fs : list field) : bool :=
             match vs, fs with
             | v :: vs', f :: fs' => (if f_req f then lists_fit E (f_ty f) v else match v with VSome w => lists_fit E (f_ty f) w | _ => true end) && all vs' fs'
             | _, _ => true
             end) vs fs
      | _ => true
      end
  | VUnion i w, TNamed m =>
      match lookup E m with
      | Some (DUnion fs) => match nth_error fs i with Some f => lists_fit E (f_ty f) w | None => true end
      | _ => true
      end
  | _, _ => true
  end.

(** * What a Rust schema adds to another
    [extend E1 E2]: [E1] with the fields, variants and definitions only [E2] has. *)
Fixpoint unbox (t : ty) : ty :=
  match t with TBox t' | TShared t' => unbox t' | TVec t' => TVec (unbox t') | _ => t end.
Definition added (fs1 fs2 : list field) : list field :=
  map (fun f => {| f_id := f_id f; f_req := f_req f; f_ty := unbox (f_ty f); f_name := f_name f |})
    (filter (fun f => negb (existsb (fun g => f_id g =? f_id f) fs1)) fs2).
Definition extend_def (d1 d2 : def) : def :=
  match d1, d2 with
  | DStruct fs1, DStruct fs2 => DStruct (fs1 ++ added fs1 fs2)
  | DUnion fs1, DUnion fs2 => DUnion (fs1 ++ added fs1 fs2)
  | _, _ => d1
  end.
Definition extend (E1 E2 : env) : env :=
  map (fun '(n, d1) => (n, match lookup E2 n with Some d2 => extend_def d1 d2 | None => d1 end)) E1
  ++ map (fun '(n, d2) => (n, match d2 with DStruct fs => DStruct (added [] fs) | DUnion fs => DUnion (added [] fs) | DEnum => DEnum end))
       (filter (fun '(n, _) => negb (is_some (lookup E1 n))) E2).
(** A schema without some definitions. *)
Definition without (names : list string) (E : env) : env := filter (fun '(n, _) => negb (existsb (String.eqb n) names)) E.

(** * The Parquet format *)
Definition parquet_idl : env :=
  match map_document parquet_thrift with
  | KOk doc => match idl_env doc with Some E => E | None => [] end
  | KThrow _ => []
  end.
(** parquet.thrift together with what only format.rs declares (geospatial types, variants): a later
    version of the former. *)
Definition parquet_latest : env := extend parquet_idl parquet_env.
(** The definitions that reach ColumnMetaData. *)
Definition footer_names : list string := ["ColumnMetaData"; "ColumnChunk"; "RowGroup"; "FileMetaData"]%string.
