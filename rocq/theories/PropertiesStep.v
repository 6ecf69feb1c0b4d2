(** Property theorem C96: reading and skipping move over the same bytes. *)
From Verif Require Import Base Uleb Protocol Types Parquet SpecCompact SpecInput SpecDefault SpecAccept SpecStep Schema SampleSchema P_Step.

(** ** C96: a value that is read leaves the input where skipping it would have left it. This is
    the statement for types without boolean struct fields and without unions; for those two, and
    for over-long integers where the vector instructions are used, it is false. *)
Theorem C96_slice_partial : forall c E good t s rest v d,
  cfg_ok c -> acceptable E -> steady E good -> declared E t -> steady_type good t = true -> bytes s -> sse2 c = false \/ short_runs s ->
  read_thrift c (slice_input c) E d t s = (rest, Ok v) ->
  exists d', skip_field c (slice_input c) d' (wire_code E t) true s = (rest, Ok tt).
Proof. exact in_step. Qed.
Print Assumptions C96_slice_partial.

Theorem C96_reader_partial : forall c E K good t r r' v d,
  cfg_ok c -> acceptable E -> env_closed E K = true -> steady E good -> declared E t -> ty_closed E t = true -> steady_type good t = true -> reader_bytes r ->
  read_thrift c (reader_input c) E d t r = (r', Ok v) ->
  exists d' r2, skip_field c (reader_input c) d' (wire_code E t) true r = (r2, Ok tt) /\ content r2 = content r' /\ ending r2 = ending r'.
Proof. exact in_step_reader. Qed.
Print Assumptions C96_reader_partial.

Theorem C96_parquet : steady parquet_env steady_parquet.
Proof. exact parquet_steady. Qed.
Print Assumptions C96_parquet.

(** A boolean field takes no bytes when it is read, whatever wire type its header says. *)
Theorem C96_bool_refuted : exists s v,
  bytes s /\ short_runs s /\ read_thrift portable64 (slice_input portable64) parquet_env 8 (TNamed "DictionaryPageHeader") s = ([], Ok v) /\
  skip_field portable64 (slice_input portable64) 8 (wire_code parquet_env (TNamed "DictionaryPageHeader")) true s = ([], Err (IO UnexpectedEof)).
Proof. exact bool_out_of_step. Qed.
Print Assumptions C96_bool_refuted.

(** A union reads the variant with the id in the header, whatever wire type the header says. *)
Theorem C96_union_refuted : exists s v rest,
  bytes s /\ short_runs s /\ rest <> [] /\ read_thrift portable64 (slice_input portable64) parquet_env 8 (TNamed "BloomFilterHash") s = ([], Ok v) /\
  skip_field portable64 (slice_input portable64) 8 (wire_code parquet_env (TNamed "BloomFilterHash")) true s = (rest, Ok tt).
Proof. exact union_out_of_step. Qed.
Print Assumptions C96_union_refuted.

(** The vector instructions pass at most seventeen bytes. *)
Theorem C96_overlong_refuted : exists s v rest,
  bytes s /\ rest <> [] /\ read_thrift release64 (slice_input release64) parquet_env 8 TI32 s = ([], Ok v) /\
  skip_field release64 (slice_input release64) 8 (wire_code parquet_env TI32) true s = (rest, Ok tt).
Proof. exact overlong_out_of_step. Qed.
Print Assumptions C96_overlong_refuted.

(** A column index with two pages and an unknown field, followed by another byte. *)
Example C96_column_index : let s := [25; 34; 1; 2; 25; 40; 1; 7; 0; 25; 40; 1; 9; 0; 21; 2; 69; 8; 0; 99] in
  read_thrift release64 (slice_input release64) parquet_env 8 (TNamed "ColumnIndex") s
    = ([99], Ok (VStruct [VVec [VBool true; VBool false]; VVec [VBin [7]; VBin []]; VVec [VBin [9]; VBin []]; VI32 1; VNone; VNone; VNone])) /\
  skip_field release64 (slice_input release64) 8 (wire_code parquet_env (TNamed "ColumnIndex")) true s = ([99], Ok tt) /\
  steady_type steady_parquet (TNamed "ColumnIndex") = true /\ steady_type steady_parquet (TNamed "DictionaryPageHeader") = false.
Proof. repeat split; vm_compute; reflexivity. Qed.
