(** Property theorems C63 and C64: the encoding written is the shortest, and encodings
    can be told apart. *)
From Verif Require Import Base Uleb Utf8 Protocol Encodings Types Parquet SpecUtf8 SpecCompact SpecInput Schema Typing
  SampleSchema P_Roundtrip P_DataExamples P_Short.

(** ** C63: no conforming encoding of a value is shorter than the one written. *)
Theorem C63_shortest : forall E K t v bs bs',
  env_ok true E K = true -> fits E v t = true -> typed E t v ->
  write_thrift vec_write_all E t v [] = (bs, Ok tt) ->
  enc E t (unshare v) bs' -> (List.length bs <= List.length bs')%nat.
Proof. exact shortest. Qed.
Print Assumptions C63_shortest.

Theorem C63_parquet : forall t v bs bs',
  typed parquet_env t v -> write_thrift vec_write_all parquet_env t v [] = (bs, Ok tt) ->
  enc parquet_env t (unshare v) bs' -> (List.length bs <= List.length bs')%nat.
Proof. exact parquet_shortest. Qed.
Print Assumptions C63_parquet.

Example C63_example :
  env_ok true sample_env 6 = true /\ fits sample_env (leaf 7) (TNamed "Node") = true /\
  typed sample_env (TNamed "Node") (leaf 7) /\
  write_thrift vec_write_all sample_env (TNamed "Node") (leaf 7) [] = ([21; 14; 41; 12; 0], Ok tt) /\
  enc sample_env (TNamed "Node") (unshare (leaf 7)) [9; 6; 12; 40; 1; 99; 5; 2; 142; 0; 0].
Proof.
  split; [reflexivity|]. split; [reflexivity|]. split; [apply typedb_ok; vm_compute; reflexivity|].
  split; [vm_compute; reflexivity|exact odd_leaf_enc].
Qed.

(** ** C64: encodings determine their values, and none is a proper prefix of another. *)
Theorem C64_conforming : forall E K t v1 v2 b1 b2 r1 r2,
  env_ok true E K = true -> ty_closed E t = true -> enc E t v1 b1 -> enc E t v2 b2 ->
  b1 ++ r1 = b2 ++ r2 -> b1 = b2 /\ v1 = v2.
Proof. exact enc_unique. Qed.
Print Assumptions C64_conforming.

Theorem C64_written : forall E K t v1 v2 b1 b2 r1 r2,
  env_ok false E K = true -> fits E v1 t = true -> fits E v2 t = true ->
  typed E t v1 -> typed E t v2 ->
  write_thrift vec_write_all E t v1 [] = (b1, Ok tt) ->
  write_thrift vec_write_all E t v2 [] = (b2, Ok tt) ->
  b1 ++ r1 = b2 ++ r2 -> b1 = b2 /\ unshare v1 = unshare v2.
Proof. exact write_unique. Qed.
Print Assumptions C64_written.

(** Conversely the writer cannot see whether a value is shared: equal values are written alike. *)
Theorem C64_sharing : forall W (wa : list Z -> M W unit) E t v,
  typed E t v -> write_thrift wa E t (unshare v) = write_thrift wa E t v.
Proof. exact @write_unshare. Qed.
Print Assumptions C64_sharing.

Example C64_example :
  write_thrift vec_write_all sample_env (TNamed "Node") (leaf 7) [] = ([21; 14; 41; 12; 0], Ok tt) /\
  write_thrift vec_write_all sample_env (TNamed "Node") (leaf 8) [] = ([21; 16; 41; 12; 0], Ok tt) /\
  unshare (VShared false (leaf 7)) = VShared true (leaf 7) /\ ty_closed sample_env (TNamed "Node") = true.
Proof. vm_compute. repeat split. Qed.
