(** Property theorems C10-C15 and C23-C25: conformance, round trip, skipping, writing. *)
From Verif Require Import Base Uleb Utf8 Protocol Encodings Types Parquet SampleFile SpecUtf8 SpecCompact SpecInput Schema Typing
  SampleSchema P_Sink P_Roundtrip P_DataExamples.

(** ** C10: what is written conforms to the compact protocol.
    Full claim: for every environment and value.  Proved for schemas whose booleans are
    not behind pointers nor union variants and values whose present fields follow each
    other within reach of [write_field_header]; false without. *)
Theorem C10_write_conforms_partial : forall E K t v bs,
  env_ok true E K = true -> fits E v t = true -> typed E t v ->
  write_thrift vec_write_all E t v [] = (bs, Ok tt) -> enc E t (unshare v) bs.
Proof. exact write_conforms. Qed.
Print Assumptions C10_write_conforms_partial.

(** For these schemas the last condition holds of every value. *)
Theorem C10_schema_partial : forall E t v, wenv_ok E = true -> typed E t v -> fits E v t = true.
Proof. exact schema_fits. Qed.
Print Assumptions C10_schema_partial.

Theorem C10_refuted :
  exists E t v bs, wenv_ok E = true /\ typed E t v /\
    write_thrift vec_write_all E t v [] = (bs, Ok tt) /\ ~ enc E t (unshare v) bs.
Proof. exact boxed_bool_nonconforming. Qed.
Print Assumptions C10_refuted.

Example C10_example :
  env_ok true sample_env 6 = true /\ wenv_ok sample_env = true /\ typed sample_env (TNamed "Node") sample_node /\
  write_thrift vec_write_all sample_env (TNamed "Node") sample_node [] =
    ([21; 9; 17; 25; 44; 21; 14; 41; 12; 0; 21; 216; 4; 41; 12; 0; 28; 8; 80; 3; 1; 2; 3; 0; 56; 2; 195; 169;
      153; 34; 1; 2; 21; 154; 1; 28; 21; 1; 41; 12; 0; 0], Ok tt).
Proof. repeat split; try (apply typedb_ok); vm_compute; reflexivity. Qed.
(** A schema that is not within reach, a value that is, and one that is not. *)
Example C10_fits :
  wenv_ok gap_env = false /\ fits gap_env (VStruct [VI32 1; VNone]) (TNamed "Gap") = true /\
  fits gap_env (VStruct [VI32 1; VSome (VI32 2)]) (TNamed "Gap") = false.
Proof. vm_compute. auto. Qed.

(** ** C11: every conforming encoding is read as its value.
    Full claim: for every environment.  Proved for schemas whose booleans are not
    behind pointers nor union variants; false without. *)
Theorem C11_read_conforming_partial : forall c E K t v bs d,
  cfg_ok c -> reserve_ok c -> env_ok true E K = true -> ty_closed E t = true ->
  enc E t v bs -> (need K t (List.length bs) <= d)%nat ->
  both_read c (fun S I => read_thrift c I E d t) bs v.
Proof. exact read_conforming. Qed.
Print Assumptions C11_read_conforming_partial.

Theorem C11_pointer_refuted :
  exists E t v bs, typed E t v /\ enc E t v bs /\
    forall d, (9 <= d)%nat -> snd (read_thrift release64 (slice_input release64) E d t bs) = Err InvalidType.
Proof. exact boxed_bool_rejected. Qed.
Print Assumptions C11_pointer_refuted.
Theorem C11_union_refuted :
  exists E t v bs, typed E t v /\ enc E t v bs /\
    write_thrift vec_write_all E t v [] = (bs, Ok tt) /\
    forall d, (9 <= d)%nat -> snd (read_thrift release64 (slice_input release64) E d t bs) = Err (IO UnexpectedEof).
Proof. exact bool_union_rejected. Qed.
Print Assumptions C11_union_refuted.

Example C11_example :
  enc sample_env (TNamed "Node") (leaf 7) odd_leaf /\ odd_leaf = [9; 6; 12; 40; 1; 99; 5; 2; 142; 0; 0] /\
  read_thrift debug32 (reader_input debug32) sample_env 200 (TNamed "Node") [RData odd_leaf; RFail (OtherKind 1)]
    = ([RFail (OtherKind 1)], Ok (leaf 7)).
Proof. split; [exact odd_leaf_enc|]. split; vm_compute; reflexivity. Qed.

(** ** C12: write then read returns the same value (Rc/Arc compared by content).
    Full claim: for every environment and value.  Proved for schemas without boolean union
    variants and values whose present fields follow each other within reach of
    [write_field_header]; false without. *)
Theorem C12_write_read_partial : forall c E K t v bs d,
  cfg_ok c -> reserve_ok c -> env_ok false E K = true -> fits E v t = true -> typed E t v ->
  write_thrift vec_write_all E t v [] = (bs, Ok tt) -> (need K t (List.length bs) <= d)%nat ->
  both_read c (fun S I => read_thrift c I E d t) bs (unshare v).
Proof. exact write_read. Qed.
Print Assumptions C12_write_read_partial.

Theorem C12_gap_refuted : exists c E K t v bs,
  cfg_ok c /\ reserve_ok c /\ env_ok true E K = true /\ typed E t v /\
  write_thrift vec_write_all E t v [] = (bs, Ok tt) /\
  exists w, w <> unshare v /\ forall d, (20 <= d)%nat -> read_thrift c (slice_input c) E d t bs = ([], Ok w).
Proof. exact gap_refuted. Qed.
Print Assumptions C12_gap_refuted.
(** (The boolean union of [C11_union_refuted] does not read back either.) *)

Example C12_example :
  env_ok false boxed_env 3 = true /\ wenv_ok boxed_env = true /\
  typed boxed_env (TNamed "B") (VStruct [VBox (VBool true)]) /\
  (need 6 (TNamed "Node") 42 <= 431)%nat /\
  read_thrift portable64 (slice_input portable64) sample_env 431 (TNamed "Node")
    (fst (write_thrift vec_write_all sample_env (TNamed "Node") sample_node []) ++ [7]) = ([7], Ok sample_node).
Proof. repeat split; try (apply typedb_ok); vm_compute; try reflexivity. Qed.

(** ** C13: parquet metadata round-trips, and its encoding conforms. *)
Theorem C13_parquet_write_read : forall c t v bs d,
  cfg_ok c -> reserve_ok c -> typed parquet_env t v ->
  write_thrift vec_write_all parquet_env t v [] = (bs, Ok tt) -> (need 12 t (List.length bs) <= d)%nat ->
  enc parquet_env t (unshare v) bs /\
  both_read c (fun S I => read_thrift c I parquet_env d t) bs (unshare v).
Proof. exact parquet_write_read. Qed.
Print Assumptions C13_parquet_write_read.

Example C13_example :
  typed parquet_env (TNamed "FileMetaData") alltypes_value /\
  (let '(bs, o) := write_thrift vec_write_all parquet_env (TNamed "FileMetaData") alltypes_value [] in
   o = Ok tt /\ List.length bs = 1566%nat).
Proof. split; [apply typedb_ok|]; vm_compute; auto. Qed.

(** ** C15: skipping consumes exactly one value. *)
Theorem C15_skip_exact : forall c t e bs d, cfg_ok c -> wire t e bs -> (2 * List.length bs < d)%nat ->
  both_read c (fun S I => skip_field c I d t e) bs tt.
Proof. exact skip_exact. Qed.
Print Assumptions C15_skip_exact.

Example C15_example : wire 11 false [1; 25; 1; 28; 21; 4; 0] /\
  skip_field release64 (slice_input release64) 15 11 false ([1; 25; 1; 28; 21; 4; 0] ++ [8; 8]) = ([8; 8], Ok tt).
Proof. split; [exact odd_wire_wire|vm_compute; reflexivity]. Qed.

(** ** C23: short writes and interruptions are invisible. *)
Theorem C23_write_success : forall E t v k k',
  write_thrift sink_write_all E t v k = (k', Ok tt) ->
  exists bs, write_thrift vec_write_all E t v [] = (bs, Ok tt) /\ received k k' bs.
Proof. exact sink_ok. Qed.
Print Assumptions C23_write_success.
Theorem C23_write_healthy : forall E t v bs o k k' o',
  write_thrift vec_write_all E t v [] = (bs, o) ->
  write_thrift sink_write_all E t v k = (k', o') ->
  Forall (fun ev => wfatal ev = None) (script k) ->
  o' = o /\ delivered k' = delivered k ++ bs.
Proof. exact sink_healthy. Qed.
Print Assumptions C23_write_healthy.
Theorem C23_vec_appends : forall E t v w bs o,
  write_thrift vec_write_all E t v [] = (bs, o) -> write_thrift vec_write_all E t v w = (w ++ bs, o).
Proof. exact vec_append. Qed.
Print Assumptions C23_vec_appends.

(** ** C24: a failing sink receives a prefix and its error is returned. *)
Theorem C24_sink_failure : forall E t v bs o k k' o',
  write_thrift vec_write_all E t v [] = (bs, o) ->
  write_thrift sink_write_all E t v k = (k', o') ->
  (o' = o /\ received k k' bs) \/ (exists kind, o' = Err (IO kind) /\ broken k k' bs kind).
Proof. exact sink_vs_vec. Qed.
Print Assumptions C24_sink_failure.

Example C23_example :
  write_thrift sink_write_all sample_env (TNamed "Node") (leaf 7)
    {| delivered := [9]; script := [WAccept 1; WInterrupted; WAccept 5; WFail Interrupted; WAccept 1; WAccept 1] |} =
  ({| delivered := [9; 21; 14; 41; 12; 0]; script := [] |}, Ok tt).
Proof. vm_compute. reflexivity. Qed.
Example C24_example :
  write_thrift sink_write_all sample_env (TNamed "Node") (leaf 7)
    {| delivered := []; script := [WAccept 1; WAccept 5; WFail (OtherKind 4); WAccept 1] |} =
  ({| delivered := [21; 14]; script := [WAccept 1] |}, Err (IO (OtherKind 4))).
Proof. vm_compute. reflexivity. Qed.

(** ** C25: writing fails exactly on oversized or missing values. *)
Theorem C25_write_outcome : forall E t v, typed E t v ->
  exists bs, appends (write_thrift vec_write_all E t v) bs (result_of (unwritable false v)) /\ bytes bs.
Proof. exact write_outcome. Qed.
Print Assumptions C25_write_outcome.

Example C25_example :
  typed sample_env (TVec (TOption TI32)) (VVec [VSome (VI32 1); VNone]) /\
  unwritable false (VVec [VSome (VI32 1); VNone]) = Some MissingValue /\
  write_thrift vec_write_all sample_env (TVec (TOption TI32)) (VVec [VSome (VI32 1); VNone]) [] = ([37; 2], Err MissingValue) /\
  unwritable false sample_node = None.
Proof. repeat split; try (apply typedb_ok); vm_compute; reflexivity. Qed.
