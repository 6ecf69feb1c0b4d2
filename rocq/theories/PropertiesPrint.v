(** Property theorems C65 and C66: what schema.rs prints. *)
From Verif Require Import Base Protocol Encodings Types Parquet Footer SchemaTree ErrorName SampleFile SpecCompact SpecInput Schema Typing SpecFooter SpecSchema
  SchemaPrint SpecPrint P_Footer P_Schema P_Print.

(** ** C65: the printed schema tells the schema.
    Full claim: two schemas print the same text only if they have the same groups,
    columns, names and types.  Proved for names without spaces and line feeds, false
    otherwise. *)
Theorem C65_partial : forall f g,
  field_ok f -> field_ok g -> Forall plain_name (names f) -> Forall plain_name (names g) ->
  pretty_print_schema f 0 = pretty_print_schema g 0 <-> shape_of f = shape_of g.
Proof. exact unambiguous. Qed.
Print Assumptions C65_partial.
(** The text, line by line. *)
Theorem C65_lines : forall f n, field_ok f -> exists ls, shows n f ls /\ pretty_print_schema f n = lines ls.
Proof. exact (fun f n H => pretty_lines f H n). Qed.
Print Assumptions C65_lines.
(** Converted schemas satisfy the condition on numbers. *)
Theorem C65_converted : forall c little alloc d els f,
  cfg_ok c -> Forall element_ok els -> zlen els < 2 ^ usize_bits c -> convert_schema c little alloc d els = POk f -> field_ok f.
Proof. exact convert_field_ok. Qed.
Print Assumptions C65_converted.
Theorem C65_refuted : exists f g, field_ok f /\ field_ok g /\
  pretty_print_schema f 0 = pretty_print_schema g 0 /\ shape_of f <> shape_of g.
Proof. exact (ex_intro _ one_column (ex_intro _ two_columns ambiguous)). Qed.
Print Assumptions C65_refuted.

Example C65_example : field_ok sample_field /\ Forall plain_name (names sample_field) /\
  pretty_print_schema sample_field 0 = lines [
    text "REQUIRED group r {";
    text "  OPTIONAL group a (List) {";
    text "    REPEATED group b {";
    text "      OPTIONAL FIXED_LEN_BYTE_ARRAY(4) c (Decimal(DecimalOptions { precision: 9, scale: 1 }));";
    text "    }";
    text "  }";
    text "  REQUIRED INT32 d (Date);";
    text "}"].
Proof.
  split; [exact (convert_field_ok debug64 true (fun _ => true) 128 _ _ ltac:(vm_compute; auto) sample_ok eq_refl ltac:(vm_compute; reflexivity))|].
  split; [repeat constructor; discriminate|]. vm_compute. reflexivity.
Qed.

(** ** C66: the program as a whole.
    A Parquet file with conforming metadata and a well-formed schema is summarised. *)
Theorem C66_prints : forall c little alloc f d m v t,
  cfg_ok c -> reserve_ok c -> healthy f -> bytes (data f) -> (forall n, alloc n = true) -> zlen (data f) < 2 ^ (usize_bits c - 1) ->
  parquet_file (data f) m -> enc parquet_env (TNamed "FileMetaData") v m ->
  (need 12 (TNamed "FileMetaData") (List.length m) <= d)%nat -> (128 <= d)%nat ->
  schema_of v = Some (flatten t) -> everywhere announced t -> everywhere acceptable t -> (groups t <= 127)%nat -> required (elem t) ->
  exists fld sl ls, represents little t fld /\ says_summary v sl /\ shows 0 fld ls /\
    main c little alloc d f = Some (lines (sl ++ ls), POk tt).
Proof. exact file_printed. Qed.
Print Assumptions C66_prints.
(** Nothing else is presented as a summary. *)
Theorem C66_finished : forall c little alloc f d out,
  cfg_ok c -> healthy f -> bytes (data f) -> (forall n, alloc n = true) -> zlen (data f) < 2 ^ (usize_bits c - 1) ->
  main c little alloc d f = Some (out, POk tt) ->
  exists m s' v es fld sl ls, parquet_file (data f) m /\
    read_thrift c (slice_input c) parquet_env d (TNamed "FileMetaData") m = (s', Ok v) /\
    schema_of v = Some es /\ convert_schema c little alloc d es = POk fld /\
    says_summary v sl /\ shows 0 fld ls /\ out = lines (sl ++ ls).
Proof. exact (fun c little alloc f d out H1 H2 H3 H4 H5 => main_finished c little alloc f H1 H2 H3 H4 H5 d out). Qed.
Print Assumptions C66_finished.
(** Besides failing [unwrap]s only the panics of decoding occur, and these before anything is printed. *)
Theorem C66_panics : forall c little alloc f d out p,
  cfg_ok c -> healthy f -> bytes (data f) -> (forall n, alloc n = true) -> zlen (data f) < 2 ^ (usize_bits c - 1) ->
  (need 12 (TNamed "FileMetaData") (List.length (data f)) <= d)%nat -> (128 <= d)%nat ->
  main c little alloc d f = Some (out, PPanic p) -> out = [] /\ slice_panic c p.
Proof. exact (fun c little alloc f d out p H1 H2 H3 H4 H5 => main_panics c little alloc f H1 H2 H3 H4 H5 d out p). Qed.
Print Assumptions C66_panics.
Theorem C66_total : forall c little alloc f d,
  cfg_ok c -> healthy f -> bytes (data f) -> (forall n, alloc n = true) -> zlen (data f) < 2 ^ (usize_bits c - 1) ->
  main c little alloc d f <> None.
Proof. exact (fun c little alloc f d H1 H2 H3 H4 H5 => main_total c little alloc f H1 H2 H3 H4 H5 d). Qed.
Print Assumptions C66_total.

Example C66_example : healthy sample_meta_file /\ parquet_file (data sample_meta_file) sample_meta_bytes /\
  enc parquet_env (TNamed "FileMetaData") sample_meta sample_meta_bytes /\ schema_of sample_meta = Some (flatten sample_tree) /\
  everywhere announced sample_tree /\ everywhere acceptable sample_tree /\ (groups sample_tree <= 127)%nat /\ required (elem sample_tree).
Proof. exact sample_meta_ok. Qed.
(** The file that the program opens. *)
Example C66_alltypes :
  main debug64 true (fun _ => true) 2000 (cursor (alltypes_metadata ++ le4 (zlen alltypes_metadata) ++ [80; 65; 82; 49])) = Some (lines [
    text "version: 1";
    text "num of rows: 7300";
    text "created by: parquet-mr version 1.12.0-SNAPSHOT (build 6901a2040848c6b37fa61f4b0a76246445f396db)";
    text "REQUIRED group hive_schema {";
    text "  OPTIONAL INT32 id;";
    text "  OPTIONAL BOOLEAN bool_col;";
    text "  OPTIONAL INT32 tinyint_col (Integer(i8));";
    text "  OPTIONAL INT32 smallint_col (Integer(i16));";
    text "  OPTIONAL INT32 int_col;";
    text "  OPTIONAL INT64 bigint_col;";
    text "  OPTIONAL FLOAT float_col;";
    text "  OPTIONAL DOUBLE double_col;";
    text "  OPTIONAL BYTE_ARRAY date_string_col (String);";
    text "  OPTIONAL BYTE_ARRAY string_col (String);";
    text "  OPTIONAL INT96 timestamp_col;";
    text "  OPTIONAL INT32 year;";
    text "  OPTIONAL INT32 month;";
    text "}"], POk tt).
Proof. vm_compute. reflexivity. Qed.
