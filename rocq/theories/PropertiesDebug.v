(** Property theorems C80 and C81: what [{:?}] and [{:#?}] print for the generated types, and what dump.rs prints. *)
From Verif Require Import Base Protocol Encodings Types Parquet Footer SchemaTree ErrorName SpecUtf8 SpecCompact SpecInput Schema Typing SpecFooter SpecSchema
  SchemaPrint SpecPrint SpecEqual Debug SpecDebug P_Footer P_Schema P_Print P_Debug P_DebugLines.
Open Scope list_scope.

(** ** C80: the printed text tells the value.
    Up to the sharing of Rc and Arc and the bits of NaNs, with and without the alternate flag. *)
Theorem C80_text : forall printable show alt E t v w,
  prints_doubles show -> names_ok E -> typed E t v -> typed E t w ->
  debug printable show alt E v t = debug printable show alt E w t <-> indistinct v w.
Proof. exact (fun printable show alt E t v w H1 H2 => debug_iff printable show alt E H1 H2 t v w). Qed.
Print Assumptions C80_text.
(** Printed values followed by line feeds can be told apart one by one. *)
Theorem C80_line : forall printable show alt E t v w s s',
  prints_doubles show -> names_ok E -> typed E t v -> typed E t w ->
  debug printable show alt E v t ++ newline ++ s = debug printable show alt E w t ++ newline ++ s' -> indistinct v w /\ s = s'.
Proof. exact (fun printable show alt E t v w s s' H1 H2 => debug_line printable show alt E H1 H2 t v w s s'). Qed.
Print Assumptions C80_line.
(** The lines printed by [{:#?}]. *)
Theorem C80_pretty : forall printable show E t v,
  prints_doubles show -> names_ok E -> typed E t v ->
  exists ls, pretty printable show E t v ls /\ debug printable show true E v t ++ newline = lines ls.
Proof. exact (fun printable show E t v H1 H2 => debug_pretty printable show E H1 H2 t v). Qed.
Print Assumptions C80_pretty.

(** The assumptions hold for some printer of doubles and for the schema of format.rs. *)
Example C80_example : prints_doubles show_bits /\ names_ok parquet_env /\ typed parquet_env (TNamed "FileMetaData") sample_meta.
Proof. exact (conj show_bits_ok (conj parquet_names sample_meta_typed)). Qed.
Example C80_compact :
  debug ascii show_bits false parquet_env (VStruct [VStr [107; 34; 10; 195; 164; 27]; VSome (VStr [])]) (TNamed "KeyValue")
  = text "KeyValue { key: ""k\""\n\u{e4}\u{1b}"", value: Some("""") }".
Proof. reflexivity. Qed.
Example C80_alternate :
  debug ascii show_bits true sample_debug_env (VStruct [VEncSet 5; VBin [0; 255]; VI32 (-1); VStruct []; VVec []; VUnion 1 (VI64 7)]) (TNamed "Sample") ++ newline = lines [
    text "Sample {";
    text "    set: [";
    text "        Encoding(";
    text "            0,";
    text "        ),";
    text "        Encoding(";
    text "            2,";
    text "        ),";
    text "    ],";
    text "    bytes: [";
    text "        0,";
    text "        255,";
    text "    ],";
    text "    kind: Kind(";
    text "        -1,";
    text "    ),";
    text "    unit: Unit,";
    text "    list: [],";
    text "    either: right(";
    text "        7,";
    text "    ),";
    text "}"].
Proof. vm_compute. reflexivity. Qed.
(** Two NaNs print the same. *)
Example C80_nan : indistinct (VDouble 9221120237041090560) (VDouble 9221120237041090561) /\
  debug ascii show_bits true parquet_env (VDouble 9221120237041090560) TDouble = debug ascii show_bits true parquet_env (VDouble 9221120237041090561) TDouble.
Proof. exact nans_alike. Qed.

(** ** C81: dump.rs prints the metadata of the file. *)
Theorem C81_prints : forall printable show c alloc f d m v,
  cfg_ok c -> reserve_ok c -> prints_doubles show -> healthy f -> bytes (data f) -> (forall n, alloc n = true) -> zlen (data f) < 2 ^ (usize_bits c - 1) ->
  parquet_file (data f) m -> enc parquet_env (TNamed "FileMetaData") v m ->
  (need 12 (TNamed "FileMetaData") (List.length m) <= d)%nat ->
  exists ls, pretty printable show parquet_env (TNamed "FileMetaData") v ls /\ dump printable show c alloc d f = (lines ls, POk tt).
Proof. exact dump_lines. Qed.
Print Assumptions C81_prints.
(** Whatever it prints without failing is the metadata that decoding yields. *)
Theorem C81_finished : forall printable show c alloc f d out,
  cfg_ok c -> prints_doubles show -> healthy f -> bytes (data f) -> (forall n, alloc n = true) -> zlen (data f) < 2 ^ (usize_bits c - 1) ->
  dump printable show c alloc d f = (out, POk tt) ->
  exists m s' v ls, parquet_file (data f) m /\
    read_thrift c (slice_input c) parquet_env d (TNamed "FileMetaData") m = (s', Ok v) /\
    pretty printable show parquet_env (TNamed "FileMetaData") v ls /\ out = lines ls.
Proof. exact dump_finished_lines. Qed.
Print Assumptions C81_finished.
(** Files with the same output have the same metadata. *)
Theorem C81_determines : forall printable show c alloc d f g out,
  prints_doubles show -> cfg_ok c -> healthy f -> healthy g -> bytes (data f) -> bytes (data g) ->
  (forall n, alloc n = true) -> zlen (data f) < 2 ^ (usize_bits c - 1) -> zlen (data g) < 2 ^ (usize_bits c - 1) ->
  dump printable show c alloc d f = (out, POk tt) -> dump printable show c alloc d g = (out, POk tt) ->
  exists m n s s' v w, parquet_file (data f) m /\ parquet_file (data g) n /\
    read_thrift c (slice_input c) parquet_env d (TNamed "FileMetaData") m = (s, Ok v) /\
    read_thrift c (slice_input c) parquet_env d (TNamed "FileMetaData") n = (s', Ok w) /\ indistinct v w.
Proof. exact dump_determines. Qed.
Print Assumptions C81_determines.
(** When it fails it has printed nothing. *)
Theorem C81_silent : forall printable show c alloc d f out r,
  dump printable show c alloc d f = (out, r) -> r <> POk tt -> out = [].
Proof. exact dump_silent. Qed.
Print Assumptions C81_silent.
(** Besides failing [unwrap]s only the panics of decoding occur. *)
Theorem C81_panics : forall printable show c alloc f d out p,
  cfg_ok c -> healthy f -> bytes (data f) -> (forall n, alloc n = true) -> zlen (data f) < 2 ^ (usize_bits c - 1) ->
  (need 12 (TNamed "FileMetaData") (List.length (data f)) <= d)%nat ->
  dump printable show c alloc d f = (out, PPanic p) -> slice_panic c p.
Proof. exact (fun printable show c alloc f d out p H1 H2 H3 H4 H5 => dump_panics printable show c alloc f H1 H2 H3 H4 H5 d out p). Qed.
Print Assumptions C81_panics.

Example C81_example :
  healthy sample_meta_file /\ parquet_file (data sample_meta_file) sample_meta_bytes /\ enc parquet_env (TNamed "FileMetaData") sample_meta sample_meta_bytes /\
  firstn 7 (split_lines (fst (dump ascii show_bits debug64 (fun _ => true) 200 sample_meta_file))) = [
    text "FileMetaData {";
    text "    version: 1,";
    text "    schema: [";
    text "        SchemaElement {";
    text "            type_: None,";
    text "            type_length: None,";
    text "            repetition_type: None,"] /\
  snd (dump ascii show_bits debug64 (fun _ => true) 200 sample_meta_file) = POk tt.
Proof. split; [constructor|]. split; [split; [reflexivity|exists []; reflexivity]|]. split; [exact sample_meta_enc|]. split; vm_compute; reflexivity. Qed.
