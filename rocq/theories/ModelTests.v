(** Tests of the model (not proofs): the unit tests of the repository replayed on
    the model, and the metadata of the repository's sample parquet file decoded,
    re-encoded and decoded again. *)
From Verif Require Import Base Uleb Protocol Encodings Types Parquet SampleFile.
Open Scope string_scope.
Open Scope list_scope.
Open Scope Z_scope.

Definition release : cfg := {| overflow_checks := false; sse2 := true; usize_bits := 64; reserve := fun _ => true |}.
Definition debug : cfg := {| overflow_checks := true; sse2 := true; usize_bits := 64; reserve := fun _ => true |}.
Definition portable : cfg := {| overflow_checks := true; sse2 := false; usize_bits := 64; reserve := fun _ => true |}.

Definition rd (E : env) (t : ty) (s : list Z) := read_thrift debug (slice_input debug) E 40 t s.
Definition wr (E : env) (t : ty) (v : value) := write_thrift vec_write_all E t v [].

(* types.rs:381-398 *)
Example t1 : wr [] (TVec TBool) (VVec [VBool false; VBool true; VBool true]) = ([50; 2; 1; 1], Ok tt).
Proof. vm_compute. reflexivity. Qed.
Example t2 : rd [] (TVec TBool) [49; 2; 1; 0] = ([], Ok (VVec [VBool false; VBool true; VBool false])).
Proof. vm_compute. reflexivity. Qed.
Example t3 : rd [] (TVec TBool) [50; 2; 1; 0] = ([], Ok (VVec [VBool false; VBool true; VBool false])).
Proof. vm_compute. reflexivity. Qed.
(* lib.rs:33-43 *)
Example t4 : decode_uleb debug slice_read_byte slice_left [143; 117] = ([], Ok 14991).
Proof. vm_compute. reflexivity. Qed.
Example t5 : snd (decode_uleb debug slice_read_byte slice_left (repeat 129 11 ++ [0])) <> Err (IO UnexpectedEof).
Proof. vm_compute. discriminate. Qed.
(* lib.rs:45-64 *)
Example t6 : skip_uleb_sse2 (repeat 0 16) = Ok (repeat 0 15).
Proof. vm_compute. reflexivity. Qed.
Example t7 : skip_uleb_sse2 (0 :: 129 :: repeat 0 14) = Ok (129 :: repeat 0 14).
Proof. vm_compute. reflexivity. Qed.
Example t8 : skip_uleb_sse2 (128 :: 1 :: repeat 0 14) = Ok (repeat 0 14).
Proof. vm_compute. reflexivity. Qed.
(* lib.rs:66-76 *)
Example t9 : map (fun s => snd (read_i32 debug (slice_input debug) s))
                 [[0]; [1]; [2]; [127]; [143; 117]; [143; 117; 0; 0]]
             = [Ok 0; Ok (-1); Ok 1; Ok (-64); Ok (-7496); Ok (-7496)].
Proof. vm_compute. reflexivity. Qed.
(* lib.rs:86-114 *)
Example t10 : rd [] (TVec TBool) [66; 0; 1; 1; 0] = ([], Ok (VVec [VBool false; VBool true; VBool true; VBool false])).
Proof. vm_compute. reflexivity. Qed.
Example t11 : rd [] (TBox TI32) [2] = ([], Ok (VBox (VI32 1))).
Proof. vm_compute. reflexivity. Qed.
Example t12 : rd [] (TOption (TBox TI32)) [2] = ([], Ok (VSome (VBox (VI32 1)))).
Proof. vm_compute. reflexivity. Qed.
(* lib.rs:134-161 *)
Example t13 :
  let v := VVec [VI64 1; VI64 (-2^63); VI64 (2^63-1); VI64 9999999] in
  rd [] (TVec TI64) (fst (wr [] (TVec TI64) v)) = ([], Ok v).
Proof. vm_compute. reflexivity. Qed.
Example t14 :
  let v := VVec [VI64 1; VI64 999999999999; VI64 (-1); VI64 (2^63-1)] in
  skip_field debug (slice_input debug) 5 9 true (fst (wr [] (TVec TI64) v)) = ([], Ok tt).
Proof. vm_compute. reflexivity. Qed.

(* lib.rs (parquet):152-161: the sample file's metadata *)
Definition alltypes_result := Eval vm_compute in rd parquet_env (TNamed "FileMetaData") alltypes_metadata.
Example t15 : match alltypes_result with ([], Ok (VStruct (VI32 1 :: _))) => True | _ => False end.
Proof. vm_compute. exact I. Qed.
(* decoding from a reader that delivers one byte at a time gives the same value *)
Example t16 : snd (read_thrift debug (reader_input debug) parquet_env 40 (TNamed "FileMetaData")
                (map (fun b => RData [b]) alltypes_metadata)) = snd alltypes_result.
Proof. vm_compute. reflexivity. Qed.
(* writing the decoded value and reading it back *)
Example t17 : match snd alltypes_result with
              | Ok v => rd parquet_env (TNamed "FileMetaData") (fst (wr parquet_env (TNamed "FileMetaData") v)) = ([], Ok v)
              | _ => False end.
Proof. vm_compute. reflexivity. Qed.
