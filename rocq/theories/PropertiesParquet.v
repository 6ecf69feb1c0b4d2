(** Property theorems C37, C38: parquet/src/encodings.rs. *)
From Coq Require Import Sorted.
From Verif Require Import Base Uleb Utf8 Protocol Encodings Types Parquet SpecUtf8 SpecCompact SpecInput Schema Typing
  SampleSchema P_EncSet.

(** ** C37: an EncodingSet holds exactly the encodings of the list it was read from. *)
Theorem C37_iter : forall m, in_u 32 m ->
  StronglySorted Z.lt (encset_iter m) /\
  (forall k, In k (encset_iter m) <-> 0 <= k /\ Z.testbit m k = true) /\
  encset_len m = zlen (encset_iter m) /\ (encset_is_empty m = true <-> encset_iter m = []).
Proof. exact iter_spec. Qed.
Print Assumptions C37_iter.
Theorem C37_read : forall c E zs hdr body d, cfg_ok c -> (1 <= d)%nat ->
  list_header (zlen zs) 5 hdr -> enc_seq E TI32 (map VI32 zs) body -> Forall (fun z => 0 <= z <= 30) zs ->
  exists m, both_read c (fun S I => read_thrift c I E d TEncSet) (hdr ++ body) (VEncSet m) /\
    in_u 31 m /\ forall k, In k (encset_iter m) <-> In k zs.
Proof. exact encset_reads. Qed.
Print Assumptions C37_read.
Theorem C37_reject : forall c E zs z n hdr body d, cfg_ok c -> (1 <= d)%nat ->
  list_header n 5 hdr -> zlen zs < n -> Forall (fun z => 0 <= z <= 30) zs -> ~ (0 <= z <= 30) ->
  enc_seq E TI32 (map VI32 (zs ++ [z])) body ->
  both_fail c (fun S I => read_thrift c I E d TEncSet) (hdr ++ body) InvalidNumber.
Proof. exact encset_read_bad. Qed.
Print Assumptions C37_reject.
Theorem C37_reject_type : forall c E n et hdr d, cfg_ok c -> (1 <= d)%nat -> 0 <= et <= 15 -> et <> 5 -> list_header n et hdr ->
  both_fail c (fun S I => read_thrift c I E d TEncSet) hdr InvalidType.
Proof. exact encset_read_type. Qed.
Print Assumptions C37_reject_type.
Theorem C37_kept : forall S c (I : input S) E d m s s' v o,
  fill c I E d TEncSet (VEncSet m) s = (s', v, o) -> o <> Ok tt -> v = VEncSet m.
Proof. exact encset_kept. Qed.
Print Assumptions C37_kept.
Theorem C37_roundtrip : forall c E m d, cfg_ok c -> in_u 31 m -> (1 <= d)%nat ->
  exists bs, appends (write_thrift vec_write_all E TEncSet (VEncSet m)) bs (Ok tt) /\
    both_read c (fun S I => read_thrift c I E d TEncSet) bs (VEncSet m).
Proof. exact encset_roundtrip. Qed.
Print Assumptions C37_roundtrip.

Example C37_example :
  read_thrift release64 (slice_input release64) [] 1 TEncSet [53; 60; 0; 60; 7] = ([7], Ok (VEncSet 1073741825)) /\
  encset_iter 1073741825 = [0; 30] /\ encset_len 1073741825 = 2 /\
  read_thrift release64 (slice_input release64) [] 1 TEncSet [53; 60; 62; 60; 7] = ([60; 7], Err InvalidNumber) /\
  read_thrift release64 (slice_input release64) [] 1 TEncSet [53; 1; 62; 60; 7] = ([62; 60; 7], Err InvalidNumber) /\
  read_thrift release64 (slice_input release64) [] 1 TEncSet [54; 1; 62; 60; 7] = ([1; 62; 60; 7], Err InvalidType) /\
  write_thrift vec_write_all [] TEncSet (VEncSet 2147483647) [9]
    = ([9; 245; 31] ++ map (fun k => 2 * Z.of_nat k) (seq 0 31), Ok tt).
Proof. repeat split; vm_compute; reflexivity. Qed.

(** ** C38: EncodingSet and Vec<Encoding> are wire compatible. *)
Theorem C38_vec_to_set : forall c E n zs d,
  cfg_ok c -> lookup E n = Some DEnum -> Forall (fun z => 0 <= z <= 30) zs -> zlen zs <= 10000000 -> (1 <= d)%nat ->
  exists bs m, appends (write_thrift vec_write_all E (TVec (TNamed n)) (VVec (map VI32 zs))) bs (Ok tt) /\
    both_read c (fun S I => read_thrift c I E d TEncSet) bs (VEncSet m) /\
    in_u 31 m /\ forall k, In k (encset_iter m) <-> In k zs.
Proof. exact vec_to_set. Qed.
Print Assumptions C38_vec_to_set.
Theorem C38_set_to_vec : forall c E n m d,
  cfg_ok c -> reserve_ok c -> lookup E n = Some DEnum -> in_u 31 m -> (2 <= d)%nat ->
  exists bs, appends (write_thrift vec_write_all E TEncSet (VEncSet m)) bs (Ok tt) /\
    both_read c (fun S I => read_thrift c I E d (TVec (TNamed n))) bs (VVec (map VI32 (encset_iter m))).
Proof. exact set_to_vec. Qed.
Print Assumptions C38_set_to_vec.

Example C38_example :
  lookup parquet_env "Encoding" = Some DEnum /\
  write_thrift vec_write_all parquet_env (TVec (TNamed "Encoding")) (VVec [VI32 8; VI32 0; VI32 8]) [] = ([53; 16; 0; 16], Ok tt) /\
  read_thrift release64 (slice_input release64) parquet_env 1 TEncSet [53; 16; 0; 16] = ([], Ok (VEncSet 257)) /\
  write_thrift vec_write_all parquet_env TEncSet (VEncSet 257) [] = ([37; 0; 16], Ok tt) /\
  read_thrift release64 (slice_input release64) parquet_env 2 (TVec (TNamed "Encoding")) [37; 0; 16] = ([], Ok (VVec [VI32 0; VI32 8])).
Proof. repeat split; vm_compute; reflexivity. Qed.
