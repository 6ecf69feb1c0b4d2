(** Properties of declarations and of the Parquet interface definition, C61-C62. *)
From Verif Require Import Base Protocol Types Parquet Generator Macro FormatRs ParquetIdl SpecCompact SpecInput Schema Typing SpecIdl SampleFile P_DataExamples P_Idl.

(** ** C61: field declarations.
    Full statement: a field declared in the macros with a type of the interface definition language gets the
    type code of that type, and a Rust type with its wire format.
    [C61_partial] has three premises more: the type is not a set, not a list of bytes, and not a pointer to a
    bool (only for the second conclusion).  Without the first two it is false
    ([C61_refuted]); for the third see [C11_pointer_refuted].  The declarations of format.rs meet all
    ([C61_format] and C13). *)
Theorem C61_partial : forall E n e ft u, idl_type n e = Some ft -> declared_type n e = Some u ->
  (e <> None -> n <> "set"%string) -> (n = "list"%string -> e <> Some "byte"%string) ->
  wire_code E u = idl_code (enum_in E) ft /\
  ((pointer n = true -> e <> Some "bool"%string) -> exists t, plain ft = Some t /\ carries E t u = true).
Proof. exact declared_ok. Qed.
Print Assumptions C61_partial.
(** A set is sent as a list, a list of bytes as a binary, and [byte] does not compile. *)
Theorem C61_refuted : forall E,
  (exists ft u, idl_type "set" (Some "i32"%string) = Some ft /\ declared_type "set" (Some "i32"%string) = Some u /\ idl_code (enum_in E) ft = 10 /\ wire_code E u = 9) /\
  (exists ft u, idl_type "list" (Some "byte"%string) = Some ft /\ declared_type "list" (Some "byte"%string) = Some u /\ idl_code (enum_in E) ft = 9 /\ wire_code E u = 8) /\
  (exists ft, idl_type "byte" None = Some ft /\ declared_type "byte" None = None).
Proof. exact declared_wrong. Qed.
Print Assumptions C61_refuted.
(** The declarations in format.rs, expanded, are the schema the other theorems are about. *)
Theorem C61_format : expand_all format_rs = Some parquet_env /\
  Forall (fun x => In x format_rs) [("Type", MEnum names_Type); ("ConvertedType", MEnum names_ConvertedType); ("FieldRepetitionType", MEnum names_FieldRepetitionType);
    ("EdgeInterpolationAlgorithm", MEnum names_EdgeInterpolationAlgorithm); ("Encoding", MEnum names_Encoding); ("CompressionCodec", MEnum names_CompressionCodec);
    ("PageType", MEnum names_PageType); ("BoundaryOrder", MEnum names_BoundaryOrder)]%string.
Proof. exact format_rs_expands. Qed.
Print Assumptions C61_format.

Example C61_example : forall E, lookup E "Encoding" = Some DEnum ->
  idl_type "list" (Some "Encoding"%string) = Some (ListOf (Named "Encoding")) /\ declared_type "list" (Some "Encoding"%string) = Some (TVec (TNamed "Encoding")) /\
  carries E (TVec (TNamed "Encoding")) TEncSet = true /\ declared_type "Box" (Some "SchemaElement"%string) = Some (TBox (TNamed "SchemaElement")).
Proof. intros E H. repeat split. cbn. unfold enum_in. rewrite H. reflexivity. Qed.

(** ** C62: format.rs and parquet.thrift.
    Full statement: whatever conforms to the Parquet interface definition is read by the types of format.rs as the
    value it stands for, and whatever these types write conforms to it.
    [C62_read_partial] has one premise more: lists of encodings have elements 0..=30 (they are read as an EncodingSet, see C37).
    [C62_write_partial] excludes the types that reach ColumnMetaData; for these it is false ([C62_write_refuted]):
    format.rs leaves out the required field path_in_schema.
    In both, the definition is the one in parquet.thrift with the fields that only format.rs declares added. *)
Theorem C62_read_partial : forall c n v bs d,
  cfg_ok c -> reserve_ok c -> typed parquet_latest (TNamed n) v -> lists_fit parquet_latest (TNamed n) v = true -> enc parquet_latest (TNamed n) v bs ->
  (need 12 (TNamed n) (List.length bs) <= d)%nat ->
  exists w, represents parquet_latest parquet_env (TNamed n) (TNamed n) v w /\ typed parquet_env (TNamed n) w /\
    both_read c (fun S I => read_thrift c I parquet_env d (TNamed n)) bs w.
Proof. exact parquet_idl_read. Qed.
Print Assumptions C62_read_partial.
Theorem C62_write_partial : forall n w bs,
  ~ In n footer_names -> typed parquet_env (TNamed n) w -> write_thrift vec_write_all parquet_env (TNamed n) w [] = (bs, Ok tt) ->
  exists v, represents parquet_latest parquet_env (TNamed n) (TNamed n) v (unshare w) /\ enc parquet_latest (TNamed n) v bs.
Proof. exact parquet_idl_write. Qed.
Print Assumptions C62_write_partial.
(** The metadata of the sample file, read and written again, conforms for no value. *)
Theorem C62_write_refuted : exists w bs, typed parquet_env (TNamed "FileMetaData") w /\
  snd (read_thrift debug64 (slice_input debug64) parquet_env 40 (TNamed "FileMetaData") alltypes_metadata) = Ok w /\
  write_thrift vec_write_all parquet_env (TNamed "FileMetaData") w [] = (bs, Ok tt) /\ forall v, ~ enc parquet_latest (TNamed "FileMetaData") v bs.
Proof. exact footer_not_conforming. Qed.
Print Assumptions C62_write_refuted.
(** For any two schemas: a definition and Rust types for it. *)
Theorem C62_read_any : forall c E1 K1 E2 K2 t u v w bs d,
  cfg_ok c -> reserve_ok c -> env_ok true E1 K1 = true -> env_ok true E2 K2 = true -> implements false false E1 E2 = true ->
  ty_closed E1 t = true -> ty_closed E2 u = true -> carries E1 t u = true ->
  enc E1 t v bs -> represents E1 E2 t u v w -> (need K2 u (List.length bs) <= d)%nat ->
  both_read c (fun S I => read_thrift c I E2 d u) bs w.
Proof. exact idl_read. Qed.
Print Assumptions C62_read_any.
Theorem C62_write_any : forall E1 E2 K2 t u w bs,
  env_ok true E2 K2 = true -> Typing.fits E2 w u = true -> implements false true E1 E2 = true ->
  carries E1 t u = true -> typed E2 u w -> write_thrift vec_write_all E2 u w [] = (bs, Ok tt) ->
  exists v, represents E1 E2 t u v (unshare w) /\ enc E1 t v bs.
Proof. exact idl_write. Qed.
Print Assumptions C62_write_any.

(** parquet.thrift is a document without sets and maps; format.rs leaves out two of its fields. *)
Example C62_document : exists doc, map_document parquet_thrift = KOk doc /\ idl_env doc = Some parquet_idl /\ List.length doc = 60%nat.
Proof. eexists. vm_compute. repeat split; reflexivity. Qed.
Example C62_left_out :
  filter (fun x => match snd x with [] => false | _ => true end)
    (map (fun '(n, d) => (n, match d, lookup parquet_env n with
                             | DStruct fs1, Some (DStruct fs2) => map f_name (filter (fun f => negb (existsb (fun g => f_id g =? f_id f) fs2)) fs1)
                             | DEnum, Some DEnum | DUnion _, Some (DUnion _) => []
                             | _, _ => ["?"%string]
                             end)) parquet_idl)
  = [("ColumnMetaData", ["path_in_schema"; "index_page_offset"])]%string.
Proof. vm_compute. reflexivity. Qed.
Example C62_added :
  filter (fun x => match snd x with [] => false | _ => true end)
    (map (fun '(n, d) => (n, match lookup parquet_idl n, d with
                             | Some (DStruct fs1), DStruct fs2 | Some (DUnion fs1), DUnion fs2 => map f_name (added fs1 fs2)
                             | Some DEnum, DEnum => []
                             | None, _ => ["new"%string]
                             | _, _ => ["?"%string]
                             end)) parquet_env)
  = [("BoundingBox", ["new"]); ("GeospatialStatistics", ["new"]); ("VariantType", ["new"]); ("EdgeInterpolationAlgorithm", ["new"]);
     ("GeometryType", ["new"]); ("GeographyType", ["new"]); ("LogicalType", ["VARIANT"; "GEOMETRY"; "GEOGRAPHY"]);
     ("ColumnMetaData", ["geospatial_statistics"])]%string.
Proof. vm_compute. reflexivity. Qed.
(** The metadata of the sample file conforms and satisfies the premises of [C62_read_partial]. *)
Example C62_example : typed parquet_latest (TNamed "FileMetaData") alltypes_idl /\ lists_fit parquet_latest (TNamed "FileMetaData") alltypes_idl = true /\
  enc parquet_latest (TNamed "FileMetaData") alltypes_idl alltypes_metadata /\ List.length alltypes_metadata = 1721%nat /\ ~ In "PageHeader"%string footer_names.
Proof.
  split; [exact alltypes_idl_typed|]. split; [vm_compute; reflexivity|]. split; [exact alltypes_conforms|]. split; [vm_compute; reflexivity|].
  intros [H|[H|[H|[H|[]]]]]; discriminate H.
Qed.
