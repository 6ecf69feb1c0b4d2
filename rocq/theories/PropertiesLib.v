(** The text of the functions of parquet/src/lib.rs, C104. *)
From Verif Require Import Base Uleb Protocol Encodings Types Parquet RustSyntax RustEval Footer SpecInput Schema Typing SpecFooter LibProgram SpecLib P_Footer P_LibIndex P_LibFacts.

(** ** C104: the text does what Footer.v says *)
Theorem C104_metadata : forall c alloc D d s, cfg_ok c -> bytes (data s) ->
  lib_fn c alloc D (2 + d) "get_metadata_chunk" [RObj] s = answer [Some RObj] RBytes (get_metadata_chunk c alloc s).
Proof. exact (fun c alloc D d s Hc => lib_metadata c alloc D Hc d s). Qed.
Print Assumptions C104_metadata.
Theorem C104_range : forall c alloc D d v s, cfg_ok c -> typed parquet_env (TNamed "FileMetaData") v ->
  lib_fn c alloc D (2 + d) "get_page_index_range" [RElem (OVal "FileMetaData" v)] s =
  answer [None] (opt_value range_value) (s, get_page_index_range c (metadata_of v)).
Proof. exact (fun c alloc D d v s Hc => lib_range c alloc D Hc d v s). Qed.
Print Assumptions C104_range.
Theorem C104_chunk : forall c alloc D d v s, cfg_ok c -> typed parquet_env (TNamed "FileMetaData") v ->
  lib_fn c alloc D (3 + d) "get_page_index_chunk" [RObj; RElem (OVal "FileMetaData" v)] s =
  answer [Some RObj; None] (opt_value chunk_value) (get_page_index_chunk c alloc (metadata_of v) s).
Proof. exact (fun c alloc D d v s Hc => lib_chunk c alloc D Hc d v s). Qed.
Print Assumptions C104_chunk.
(** [D]: the stack for reading the indexes; [off]: a usize *)
Theorem C104_index : forall c alloc D d v chunk off s, cfg_ok c -> (4 <= D)%nat -> typed parquet_env (TNamed "FileMetaData") v -> 0 <= off ->
  lib_fn c alloc D (5 + d) "read_page_index" [RBytes chunk; RInt Usize off; RElem (OVal "FileMetaData" v)] s =
  answer [None; None; None] indexes_value (s, read_page_index c D chunk off (metadata_of v)).
Proof. exact (fun c alloc D d v chunk off s Hc HD => lib_index c alloc D Hc HD d v chunk off s). Qed.
Print Assumptions C104_index.
(** Hence C39 and C40 hold of the text. *)
Theorem C104_footer : forall c alloc D d f m,
  cfg_ok c -> healthy f -> bytes (data f) -> (forall n, alloc n = true) -> zlen (data f) < 2 ^ (usize_bits c - 1) ->
  snd (lib_fn c alloc D (2 + d) "get_metadata_chunk" [RObj] f) = CRet [Some RObj] (ROk (RBytes m)) <-> parquet_file (data f) m.
Proof. exact lib_footer. Qed.
Print Assumptions C104_footer.
Theorem C104_no_panic : forall c alloc D d v s p, usize_bits c = 64 -> typed parquet_env (TNamed "FileMetaData") v -> cfg_ok c ->
  snd (lib_fn c alloc D (2 + d) "get_page_index_range" [RElem (OVal "FileMetaData" v)] s) <> CPan p.
Proof. exact lib_no_panic. Qed.
Print Assumptions C104_no_panic.

Example C104_example :
  typed parquet_env (TNamed "FileMetaData") sample_meta /\
  snd (lib_fn debug64 (fun _ => true) 20 5 "get_metadata_chunk" [RObj] sample_file) = CRet [Some RObj] (ROk (RBytes [21; 2; 0])) /\
  snd (lib_fn debug64 (fun _ => true) 20 5 "get_metadata_chunk" [RObj] (cursor (data sample_file ++ [0]))) = CRet [Some RObj] (RErr (RElem (OError PInvalidMagic))) /\
  exists chunk,
    snd (lib_fn debug64 (fun _ => true) 20 5 "get_page_index_chunk" [RObj; RElem (OVal "FileMetaData" sample_meta)] sample_file) =
      CRet [Some RObj; None] (ROk (RSome (RTup [RBytes chunk; RTup [RInt Usize 4; RInt Usize 29]]))) /\
    snd (lib_fn debug64 (fun _ => true) 20 5 "read_page_index" [RBytes chunk; RInt Usize 4; RElem (OVal "FileMetaData" sample_meta)] sample_file) =
      CRet [None; None; None] (ROk (RList [RList [RNone; RSome (RTup [RElem (OVal "OffsetIndex" sample_oi); RElem (OVal "ColumnIndex" sample_ci)])]; RList []; RList [RNone]])).
Proof. exact (conj sample_typed lib_example). Qed.
