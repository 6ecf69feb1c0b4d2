(** Witnesses for PropertiesStruct.v. *)
From Coq Require Import ZifyBool ZifyNat ZifyN.
From Verif Require Import Base Uleb Utf8 Protocol Encodings Types Parquet SpecUtf8 SpecCompact SpecFields SpecInput Schema Typing
  SampleSchema P_Arith P_Reads P_Inputs P_Write P_PrimRefuted P_DataExamples.

Definition node_fields : list field := [
  fld 1 true TI32 "key"; fld 2 false TBool "flag"; fld 3 true (TVec (TNamed "Node")) "kids";
  fld 4 false (TNamed "Shape") "shape"; fld 7 false TString "name"; fld 16 false (TVec TBool) "bits";
  fld 17 false (TNamed "Color") "color"; fld 18 false (TBox (TNamed "Node")) "next" ].
Example node_fields_ok : lookup sample_env "Node" = Some (DStruct node_fields). Proof. reflexivity. Qed.

(** key = 7, flag = true, key = -3, an unknown byte, kids = []. *)
Definition occs1 : list occ := [
  OField (fld 1 true TI32 "key") (VI32 7); OField (fld 2 false TBool "flag") (VBool true);
  OField (fld 1 true TI32 "key") (VI32 (-3)); OOther 5; OField (fld 3 true (TVec (TNamed "Node")) "kids") (VVec [])].
Definition bytes1 : list Z := [21; 14; 17; 5; 2; 5; 67; 200; 9; 6; 12].
Lemma run1 : run sample_env node_fields 0 occs1 3 bytes1.
Proof.
  unfold occs1. change bytes1 with ([21] ++ [14] ++ [17; 5; 2; 5; 67; 200; 9; 6; 12]).
  apply run_field with (ft := 5); [left; reflexivity|change 21 with (16 * (1 - 0) + 5); apply fh_short; cbn; lia| |].
  { change 5 with (wire_code sample_env TI32). apply efl_other; [reflexivity|]. apply enc_i32. apply zz_dec; try reflexivity; [cbn; lia|term]. }
  change [17; 5; 2; 5; 67; 200; 9; 6; 12] with ([17] ++ [] ++ [5; 2; 5; 67; 200; 9; 6; 12]).
  apply run_field with (ft := 1); [right; left; reflexivity|change 17 with (16 * (2 - 1) + 1); apply fh_short; cbn; lia| |].
  { apply (efl_bool sample_env true). }
  change [5; 2; 5; 67; 200; 9; 6; 12] with ([5; 2] ++ [5] ++ [67; 200; 9; 6; 12]).
  apply run_field with (ft := 5); [left; reflexivity|apply fh_long; apply zz_dec; try reflexivity; [cbn; lia|term]| |].
  { change 5 with (wire_code sample_env TI32). apply efl_other; [reflexivity|]. apply enc_i32. apply zz_dec; try reflexivity; [cbn; lia|term]. }
  change [67; 200; 9; 6; 12] with ([67] ++ [200] ++ [9; 6; 12]).
  apply run_other with (t := 3); [|lia|change 67 with (16 * (5 - 1) + 3); apply fh_short; cbn; lia| |].
  { intros f Hf. cbn in Hf. repeat (destruct Hf as [<-|Hf]; [cbn; lia|]). contradiction. }
  { apply w_byte. vm_compute. split; congruence. }
  change [9; 6; 12] with ([9; 6] ++ [12] ++ []).
  apply run_field with (ft := 9); [right; right; left; reflexivity|apply fh_long; apply zz_dec; try reflexivity; [cbn; lia|term]| |constructor].
  change 9 with (wire_code sample_env (TVec (TNamed "Node"))). apply efl_other; [reflexivity|].
  change [12] with ([12] ++ @nil Z). apply enc_vec with (tag := 12); [left; reflexivity| |constructor].
  change 12 with (16 * zlen (@nil value) + 12) at 2. apply lh_short. cbn. lia.
Qed.
Lemma tidy1 : tidy sample_env node_fields occs1.
Proof.
  intros f Hf. unfold once_at_most. cbn in Hf.
  destruct Hf as [<-|Hf]; [right; split; reflexivity|].
  repeat (destruct Hf as [<-|Hf]; [left; cbn; lia|]). contradiction.
Qed.

(** * False claims *)
(** C29: an optional boolean announced as a string is read as [false]; a union
    variant ([radius], a double) announced as a list is read as a double. *)
Lemma wrong_types_accepted : exists s1 v1 s2 v2,
  bytes s1 /\ bytes s2 /\
  s1 = [21; 14; 24; 25; 12; 0] /\
  (forall c, In c [release64; debug64; portable64; debug32] ->
     read_thrift c (slice_input c) sample_env 100 (TNamed "Node") s1 = ([], Ok v1) /\
     read_thrift c (slice_input c) sample_env 100 (TNamed "Shape") s2 = ([], Ok v2)) /\
  v1 = VStruct [VI32 7; VSome (VBool false); VVec []; VNone; VNone; VNone; VNone; VNone] /\
  s2 = [25; 0; 0; 0; 0; 0; 0; 0; 0; 0] /\ v2 = VUnion 0 (VDouble 0).
Proof.
  do 4 eexists. repeat apply conj; try reflexivity.
  - repeat constructor; vm_compute; congruence.
  - repeat constructor; vm_compute; congruence.
  - intros c Hc. cbn in Hc. repeat (destruct Hc as [<-|Hc]; [split; vm_compute; reflexivity|]). contradiction.
Qed.

(** C31: with 32-bit pointers a length of 2^32 + 1 is taken for 1. *)
Lemma long_list_32bit : exists n bs, varint n bs /\ 10000000 < n /\
  read_thrift debug32 (slice_input debug32) [] 10 (TVec TI8) (240 + 3 :: bs ++ [7]) = ([], Ok (VVec [VI8 7])) /\
  skip_field debug32 (slice_input debug32) 10 9 false (240 + 3 :: bs ++ [7]) = ([], Ok tt).
Proof.
  exists (2 ^ 32 + 1), [129; 128; 128; 128; 16]. split; [|split; [reflexivity|split; vm_compute; reflexivity]].
  apply varint_dec; [vm_compute; split; congruence|reflexivity|cbn; lia|term].
Qed.

(** C34: a set is written with the list type and the set type is refused. *)
Definition set_env : env := [("S"%string, DStruct [fld 1 true (TVec TI32) "values"])].
Lemma sets_are_lists :
  appends (write_thrift vec_write_all set_env (TNamed "S") (VStruct [VVec [VI32 3]])) [25; 21; 6; 0] (Ok tt) /\
  read_thrift release64 (slice_input release64) set_env 50 (TNamed "S") [26; 21; 6; 0] = ([21; 6; 0], Err InvalidType) /\
  read_thrift release64 (slice_input release64) set_env 50 (TNamed "S") [25; 21; 6; 0] = ([], Ok (VStruct [VVec [VI32 3]])).
Proof. split; [|split; vm_compute; reflexivity]. intros w. unfold write_thrift. cbn. unfold bind, ret, vec_write_all. cbn. unfold write_byte. cbn. rewrite <- ?app_assoc. reflexivity. Qed.

(** C35: the byte 0x30 ends a struct too. *)
Lemma stop_not_zero : exists s v, bytes s /\ ~ In 0 s /\
  (forall c, In c [release64; debug64; portable64; debug32] ->
     read_thrift c (slice_input c) sample_env 100 (TNamed "Node") s = ([], Ok v)) /\
  s = [21; 14; 41; 12; 48].
Proof.
  exists [21; 14; 41; 12; 48]. eexists. repeat apply conj; try reflexivity.
  - repeat constructor; vm_compute; congruence.
  - cbn. lia.
  - intros c Hc. cbn in Hc. repeat (destruct Hc as [<-|Hc]; [vm_compute; reflexivity|]). contradiction.
Qed.

(** C52: declared defaults in the parquet schema (format.rs:745 and 974). *)
Lemma defaults_ignored :
  read_thrift release64 (slice_input release64) parquet_env 100 (TNamed "DataPageHeaderV2")
    [21; 2; 21; 2; 21; 2; 21; 0; 21; 2; 21; 2; 0]
  = ([], Ok (VStruct [VI32 1; VI32 1; VI32 1; VI32 0; VI32 1; VI32 1; VNone; VNone])) /\
  read_thrift release64 (slice_input release64) parquet_env 100 (TNamed "ColumnChunk") [0]
  = ([], Err (MissingField "ColumnChunk::file_offset")).
Proof. split; vm_compute; reflexivity. Qed.
