(** Property theorem C88: reading data and writing it again never makes it longer. *)
From Verif Require Import Base Uleb Utf8 Protocol Encodings Types Parquet SpecUtf8 SpecCompact SpecInput Schema Typing
  SampleSchema P_DataExamples P_Rewrite.

(** ** C88: whatever bytes are accepted, canonical or not, with unknown fields or without,
    the value read from them is written in at most as many bytes as were consumed. *)
Theorem C88_slice : forall c E K d t s rest v,
  cfg_ok c -> env_ok false E K = true -> ty_closed E t = true -> bytes s ->
  read_thrift c (slice_input c) E d t s = (rest, Ok v) -> fits E v t = true ->
  exists bs, write_thrift vec_write_all E t v [] = (bs, Ok tt) /\ (List.length bs + List.length rest <= List.length s)%nat.
Proof. exact rewrite_slice. Qed.
Print Assumptions C88_slice.

Theorem C88_reader : forall c E K d t r r' v,
  cfg_ok c -> env_ok false E K = true -> ty_closed E t = true -> reader_bytes r ->
  read_thrift c (reader_input c) E d t r = (r', Ok v) -> fits E v t = true ->
  exists bs, write_thrift vec_write_all E t v [] = (bs, Ok tt) /\ (List.length bs + reader_left r' <= reader_left r)%nat.
Proof. exact rewrite_reader. Qed.
Print Assumptions C88_reader.

(** Every type of parquet.thrift, without further conditions on the value. *)
Theorem C88_parquet : forall c d n s rest v,
  cfg_ok c -> ty_closed parquet_env (TNamed n) = true -> bytes s ->
  read_thrift c (slice_input c) parquet_env d (TNamed n) s = (rest, Ok v) ->
  exists bs, write_thrift vec_write_all parquet_env (TNamed n) v [] = (bs, Ok tt) /\ (List.length bs + List.length rest <= List.length s)%nat.
Proof. exact rewrite_parquet. Qed.
Print Assumptions C88_parquet.

(** Eleven bytes with an unknown field, long headers and a padded number become five;
    a statistics struct with a distinct count in a padded number and a null count out of
    order loses two bytes. *)
Example C88_example :
  cfg_ok release64 /\ env_ok false sample_env 6 = true /\ ty_closed sample_env (TNamed "Node") = true /\
  read_thrift release64 (slice_input release64) sample_env 40 (TNamed "Node") [9; 6; 12; 40; 1; 99; 5; 2; 142; 0; 0; 77] = ([77], Ok (leaf 7)) /\
  fits sample_env (leaf 7) (TNamed "Node") = true /\
  write_thrift vec_write_all sample_env (TNamed "Node") (leaf 7) [] = ([21; 14; 41; 12; 0], Ok tt) /\
  read_thrift release64 (slice_input release64) parquet_env 40 (TNamed "Statistics") [70; 130; 0; 6; 6; 4; 0] =
    ([], Ok (VStruct [VNone; VNone; VSome (VI64 2); VSome (VI64 1); VNone; VNone; VNone; VNone])) /\
  write_thrift vec_write_all parquet_env (TNamed "Statistics")
    (VStruct [VNone; VNone; VSome (VI64 2); VSome (VI64 1); VNone; VNone; VNone; VNone]) [] = ([54; 4; 22; 2; 0], Ok tt).
Proof. split; [exact release64_ok|]. vm_compute. repeat split. Qed.

(** [fits] is needed: declared out of order, the fields 1, 30 and 15 are written with two
    bytes for the header of the second, while the bytes read needed one for each. *)
Example C88_out_of_order :
  let E := [("S"%string, DStruct [Build_field 1 true TBool "a"; Build_field 30 true TBool "b"; Build_field 15 true TBool "c"])] in
  read_thrift release64 (slice_input release64) E 9 (TNamed "S") [17; 225; 241; 0] = ([], Ok (VStruct [VBool true; VBool true; VBool true])) /\
  fits E (VStruct [VBool true; VBool true; VBool true]) (TNamed "S") = false /\
  write_thrift vec_write_all E (TNamed "S") (VStruct [VBool true; VBool true; VBool true]) [] = ([17; 1; 58; 17; 0], Ok tt) /\
  env_ok false E 3 = true.
Proof. vm_compute. repeat split. Qed.
