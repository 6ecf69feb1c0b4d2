(** What follows for the text of parquet/src/lib.rs, and an example. *)
From Verif Require Import Base Uleb Protocol Encodings Types Parquet RustSyntax RustEval Footer SpecInput Schema Typing SpecFooter LibProgram SpecLib P_Roundtrip P_Footer P_LibIndex.
Open Scope Z_scope.
Open Scope list_scope.

Lemma lib_footer c alloc D d f m : cfg_ok c -> healthy f -> bytes (data f) -> (forall n, alloc n = true) -> zlen (data f) < 2 ^ (usize_bits c - 1) ->
  snd (lib_fn c alloc D (2 + d) "get_metadata_chunk" [RObj] f) = CRet [Some RObj] (ROk (RBytes m)) <-> parquet_file (data f) m.
Proof.
  intros Hc Hh Hb Ha Hz. rewrite (lib_metadata c alloc D Hc d f Hb), <- (metadata_ok_iff c alloc Hc f m Hh Hb Ha Hz).
  destruct (get_metadata_chunk c alloc f) as [f' [l|e|q]]; cbn [answer snd]; split; intros H; inversion H; reflexivity.
Qed.
Lemma lib_no_panic c alloc D d v s p : usize_bits c = 64 -> typed parquet_env (TNamed "FileMetaData") v -> cfg_ok c ->
  snd (lib_fn c alloc D (2 + d) "get_page_index_range" [RElem (OVal "FileMetaData" v)] s) <> CPan p.
Proof.
  intros H64 Hv Hc. rewrite (lib_range c alloc D Hc d v s Hv). pose proof (fun q => range_no_panic c H64 (metadata_of v) q (metadata_of_ok v Hv)) as Hp.
  destruct (get_page_index_range c (metadata_of v)) as [o|e|q]; cbn [answer snd]; [discriminate|discriminate|]. exfalso. exact (Hp q eq_refl).
Qed.

(** * A file and its metadata *)
Definition sample_column (oo ol co cl : value) : value := VStruct [VNone; VI64 4; VNone; oo; ol; co; cl; VNone; VNone].
Definition sample_group (cols : list value) : value := VStruct [VVec cols; VI64 0; VI64 0; VNone; VNone; VNone; VNone].
Definition sample_meta : value := VStruct [VI32 1; VVec []; VI64 0; VVec [
  sample_group [sample_column VNone VNone VNone VNone;
                sample_column (VSome (VI64 4)) (VSome (VI32 (zlen sample_oib))) (VSome (VI64 (5 + zlen sample_oib))) (VSome (VI32 (zlen sample_cib)))];
  sample_group [];
  sample_group [sample_column (VSome (VI64 4)) (VSome (VI32 1)) VNone VNone]]; VNone; VNone; VNone; VNone; VNone].
Lemma sample_typed : typed parquet_env (TNamed "FileMetaData") sample_meta.
Proof. apply typedb_ok. vm_compute. reflexivity. Qed.
Lemma sample_meta_md : metadata_of sample_meta = sample_md.
Proof. vm_compute. reflexivity. Qed.
Lemma lib_cfg : cfg_ok debug64.
Proof. split; [right; reflexivity|reflexivity]. Qed.
Lemma sample_bytes : bytes (data sample_file).
Proof. apply bytesb_ok. vm_compute. reflexivity. Qed.
Lemma sample_bytes0 : bytes (data (cursor (data sample_file ++ [0]))).
Proof. apply bytesb_ok. vm_compute. reflexivity. Qed.
Lemma sample_stack : (4 <= 20)%nat.
Proof. lia. Qed.
Lemma lib_example :
  snd (lib_fn debug64 (fun _ => true) 20 5 "get_metadata_chunk" [RObj] sample_file) = CRet [Some RObj] (ROk (RBytes [21; 2; 0])) /\
  snd (lib_fn debug64 (fun _ => true) 20 5 "get_metadata_chunk" [RObj] (cursor (data sample_file ++ [0]))) = CRet [Some RObj] (RErr (RElem (OError PInvalidMagic))) /\
  exists chunk,
    snd (lib_fn debug64 (fun _ => true) 20 5 "get_page_index_chunk" [RObj; RElem (OVal "FileMetaData" sample_meta)] sample_file) =
      CRet [Some RObj; None] (ROk (RSome (RTup [RBytes chunk; RTup [RInt Usize 4; RInt Usize 29]]))) /\
    snd (lib_fn debug64 (fun _ => true) 20 5 "read_page_index" [RBytes chunk; RInt Usize 4; RElem (OVal "FileMetaData" sample_meta)] sample_file) =
      CRet [None; None; None] (ROk (RList [RList [RNone; RSome (RTup [RElem (OVal "OffsetIndex" sample_oi); RElem (OVal "ColumnIndex" sample_ci)])]; RList []; RList [RNone]])).
Proof.
  pose proof (lib_metadata debug64 (fun _ => true) 20 lib_cfg 3 sample_file sample_bytes) as E1.
  pose proof (lib_metadata debug64 (fun _ => true) 20 lib_cfg 3 (cursor (data sample_file ++ [0])) sample_bytes0) as E2.
  pose proof (lib_chunk debug64 (fun _ => true) 20 lib_cfg 2 sample_meta sample_file sample_typed) as E3.
  pose proof (lib_index debug64 (fun _ => true) 20 lib_cfg sample_stack 0 sample_meta (firstn 25 (skipn 4 (data sample_file))) 4 sample_file sample_typed ltac:(lia)) as E4.
  cbn [Nat.add] in E1, E2, E3, E4. rewrite sample_meta_md in E3, E4.
  split; [rewrite E1; vm_compute; reflexivity|]. split; [rewrite E2; vm_compute; reflexivity|].
  exists (firstn 25 (skipn 4 (data sample_file))). split; [rewrite E3; vm_compute; reflexivity|rewrite E4; vm_compute; reflexivity].
Qed.
