(** Property theorems C16-C22 and C36: arbitrary, truncated and failing input. *)
From Verif Require Import Base Uleb Utf8 Protocol Encodings Types Parquet SpecUtf8 SpecCompact SpecInput Schema Typing
  SampleSchema P_DataExamples P_Robust P_RobustRefuted.

(** ** C16: slices and readers agree on every input.
    Full claim: for every build.  Proved without the SSE2 path for all inputs (and
    every ending of the reader), and with it for inputs without sixteen consecutive
    bytes above 127, up to a panic where the end of input should be reported.  The
    SSE2 path refutes the full claim. *)
Theorem C16_read_partial : forall c E K d t r,
  cfg_ok c -> env_closed E K = true -> ty_closed E t = true -> bytes (content r) -> reader_bytes r ->
  agrees (read_thrift (portable c) (slice_input (portable c)) E d t (content r)) (read_thrift c (reader_input c) E d t r) r.
Proof. exact read_agrees. Qed.
Print Assumptions C16_read_partial.
Theorem C16_skip_partial : forall c d t inside r,
  cfg_ok c -> bytes (content r) -> reader_bytes r ->
  agrees (skip_field (portable c) (slice_input (portable c)) d t inside (content r)) (skip_field c (reader_input c) d t inside r) r.
Proof. exact skip_agrees. Qed.
Print Assumptions C16_skip_partial.
Theorem C16_read_sse2_partial : forall c E K d t s,
  cfg_ok c -> env_closed E K = true -> ty_closed E t = true -> bytes s -> short_runs s ->
  same_or_index (read_thrift (portable c) (slice_input (portable c)) E d t s) (read_thrift c (slice_input c) E d t s).
Proof. exact read_index. Qed.
Print Assumptions C16_read_sse2_partial.
Theorem C16_skip_sse2_partial : forall c d t inside s,
  cfg_ok c -> bytes s -> short_runs s ->
  same_or_index (skip_field (portable c) (slice_input (portable c)) d t inside s) (skip_field c (slice_input c) d t inside s).
Proof. exact skip_index. Qed.
Print Assumptions C16_skip_sse2_partial.
Theorem C16_read_refuted : exists E t s v1 v2 s1 r2,
  env_ok true E 3 = true /\ bytes s /\ v1 <> v2 /\
  read_thrift release64 (slice_input release64) E 100 t s = (s1, Ok v1) /\
  read_thrift release64 (reader_input release64) E 100 t [RData s] = (r2, Ok v2).
Proof. exact slice_reader_disagree. Qed.
Print Assumptions C16_read_refuted.
Theorem C16_skip_refuted : exists s1 s2 s3,
  bytes s1 /\ bytes s2 /\ bytes s3 /\
  snd (skip_field release64 (slice_input release64) 10 5 false s1) = Panic PSliceIndex /\
  snd (skip_field release64 (reader_input release64) 10 5 false [RData s1]) = Err (IO UnexpectedEof) /\
  snd (skip_field release64 (slice_input release64) 10 5 false s2) = Panic PUndefined /\
  snd (skip_field release64 (reader_input release64) 10 5 false [RData s2]) = Err (IO UnexpectedEof) /\
  skip_field release64 (slice_input release64) 10 5 false s3 = ([0; 1], Ok tt) /\
  skip_field release64 (reader_input release64) 10 5 false [RData s3] = ([RData [1]], Ok tt).
Proof. exact slice_skip_disagree. Qed.
Print Assumptions C16_skip_refuted.

Example C16_example :
  env_closed sample_env 6 = true /\
  read_thrift portable64 (slice_input portable64) sample_env 200 (TNamed "Node") [21; 14; 41; 12; 69; 9; 0] = ([9; 0], Err InvalidType) /\
  read_thrift portable64 (reader_input portable64) sample_env 200 (TNamed "Node") [RData [21; 14; 41]; RInterrupted; RData [12; 69; 9]; RData [0]]
    = ([RData [9]; RData [0]], Err InvalidType).
Proof. repeat split; vm_compute; reflexivity. Qed.

(** ** C17: malformed input never panics.
    Full claim: no panic in any build.  Proved: with enough stack, the panics in
    [slice_panic] and [reader_panic] are the only ones; in unchecked builds without
    SSE2, and from readers in unchecked builds, there are none.  Each listed panic
    occurs. *)
Theorem C17_read_slice_partial : forall c E K d t s p,
  cfg_ok c -> env_closed E K = true -> ty_closed E t = true -> bytes s -> (need K t (List.length s) <= d)%nat ->
  snd (read_thrift c (slice_input c) E d t s) = Panic p -> slice_panic c p.
Proof. exact read_slice_panic. Qed.
Print Assumptions C17_read_slice_partial.
Theorem C17_read_reader_partial : forall c E K d t r p,
  cfg_ok c -> env_closed E K = true -> ty_closed E t = true -> reader_bytes r -> (need K t (reader_left r) <= d)%nat ->
  snd (read_thrift c (reader_input c) E d t r) = Panic p -> reader_panic c p.
Proof. exact read_reader_panic. Qed.
Print Assumptions C17_read_reader_partial.
Theorem C17_skip_slice_partial : forall c d t inside s p,
  cfg_ok c -> bytes s -> (2 * List.length s + 2 <= d)%nat ->
  snd (skip_field c (slice_input c) d t inside s) = Panic p -> slice_panic c p.
Proof. exact skip_slice_panic. Qed.
Print Assumptions C17_skip_slice_partial.
Theorem C17_skip_reader_partial : forall c d t inside r p,
  cfg_ok c -> reader_bytes r -> (2 * reader_left r + 2 <= d)%nat ->
  snd (skip_field c (reader_input c) d t inside r) = Panic p -> reader_panic c p.
Proof. exact skip_reader_panic. Qed.
Print Assumptions C17_skip_reader_partial.
Theorem C17_refuted : exists s1 s2 s3, bytes s1 /\ bytes s2 /\ bytes s3 /\
  snd (read_thrift release64 (slice_input release64) parquet_env 1000 (TNamed "FileMetaData") s1) = Panic PSliceIndex /\
  snd (read_thrift release64 (slice_input release64) parquet_env 1000 (TNamed "FileMetaData") s2) = Panic PUndefined /\
  snd (read_thrift debug64 (slice_input debug64) parquet_env 1000 (TNamed "FileMetaData") s3) = Panic POverflow /\
  snd (read_thrift debug64 (reader_input debug64) parquet_env 1000 (TNamed "FileMetaData") [RData s3]) = Panic POverflow.
Proof. exact panics. Qed.
Print Assumptions C17_refuted.
Theorem C17_varint_refuted : forall c, overflow_checks c = true -> forall k fuel shift value rest,
  shift + 7 * Z.of_nat k < 2 ^ 32 <= shift + 7 * Z.of_nat k + 7 -> 0 <= shift -> (k < fuel)%nat ->
  snd (decode_uleb_loop c slice_read_byte fuel shift value (repeat 128 (Datatypes.S k) ++ rest)) = Panic POverflow.
Proof. exact decode_shift_overflow. Qed.
Print Assumptions C17_varint_refuted.

Example C17_example :
  env_closed parquet_env 12 = true /\ (need 12 (TNamed "FileMetaData") 3 <= 1000)%nat /\
  ~ slice_panic portable64 POverflow /\ ~ slice_panic portable64 PSliceIndex /\
  snd (read_thrift portable64 (slice_input portable64) parquet_env 1000 (TNamed "FileMetaData") [255; 255; 255]) = Err InvalidType.
Proof.
  repeat split; try (vm_compute; reflexivity).
  - vm_compute. repeat constructor.
  - intros [[H _]|[H _]]; discriminate.
  - intros [[H _]|[H _]]; discriminate.
Qed.

(** ** C18: decoding terminates and only moves forward.
    For every stack depth: the loops never exhaust their bounds, and what remains
    is a later position of the input. *)
Theorem C18_read_slice : forall c E K d t s,
  cfg_ok c -> env_closed E K = true -> ty_closed E t = true -> bytes s ->
  suffix (fst (read_thrift c (slice_input c) E d t s)) s /\
  forall p, snd (read_thrift c (slice_input c) E d t s) = Panic p -> sane p.
Proof. exact read_slice_forward. Qed.
Print Assumptions C18_read_slice.
Theorem C18_read_reader : forall c E K d t r,
  cfg_ok c -> env_closed E K = true -> ty_closed E t = true -> reader_bytes r ->
  later (fst (read_thrift c (reader_input c) E d t r)) r /\
  forall p, snd (read_thrift c (reader_input c) E d t r) = Panic p -> sane p.
Proof. exact read_reader_forward. Qed.
Print Assumptions C18_read_reader.
Theorem C18_skip_slice : forall c d t inside s,
  cfg_ok c -> bytes s ->
  suffix (fst (skip_field c (slice_input c) d t inside s)) s /\
  forall p, snd (skip_field c (slice_input c) d t inside s) = Panic p -> sane p.
Proof. exact skip_slice_forward. Qed.
Print Assumptions C18_skip_slice.
Theorem C18_skip_reader : forall c d t inside r,
  cfg_ok c -> reader_bytes r ->
  later (fst (skip_field c (reader_input c) d t inside r)) r /\
  forall p, snd (skip_field c (reader_input c) d t inside r) = Panic p -> sane p.
Proof. exact skip_reader_forward. Qed.
Print Assumptions C18_skip_reader.

Example C18_example :
  fst (read_thrift portable64 (slice_input portable64) sample_env 200 (TNamed "Node") [21; 14; 200; 7; 7]) = [7] /\
  later [RData [5; 6]] [RFail Interrupted; RData [1; 5; 6]] /\ ~ later [RData [1; 6]] [RData [1; 5; 6]].
Proof.
  split; [vm_compute; reflexivity|]. split; [exists [AFail Interrupted; AByte 1]; reflexivity|].
  intros [p H]. destruct p as [|a [|b [|c [|d p]]]]; discriminate.
Qed.

(** ** C19: bytes after the value do not matter (nor after an error other than
    the end of input); for every build. *)
Theorem C19_read_slice : forall c E K d t s ext,
  cfg_ok c -> env_closed E K = true -> ty_closed E t = true -> bytes (s ++ ext) ->
  settled (snd (read_thrift c (slice_input c) E d t s)) ->
  read_thrift c (slice_input c) E d t (s ++ ext) =
    (fst (read_thrift c (slice_input c) E d t s) ++ ext, snd (read_thrift c (slice_input c) E d t s)).
Proof. exact read_slice_extends. Qed.
Print Assumptions C19_read_slice.
Theorem C19_skip_slice : forall c d t inside s ext,
  cfg_ok c -> bytes (s ++ ext) ->
  settled (snd (skip_field c (slice_input c) d t inside s)) ->
  skip_field c (slice_input c) d t inside (s ++ ext) =
    (fst (skip_field c (slice_input c) d t inside s) ++ ext, snd (skip_field c (slice_input c) d t inside s)).
Proof. exact skip_slice_extends. Qed.
Print Assumptions C19_skip_slice.
Theorem C19_read_reader : forall c E K d t r r2 ext a r',
  cfg_ok c -> env_closed E K = true -> ty_closed E t = true ->
  reader_bytes r -> reader_bytes r2 -> content r2 = content r ++ ext ->
  read_thrift c (reader_input c) E d t r = (r', Ok a) ->
  exists r2', read_thrift c (reader_input c) E d t r2 = (r2', Ok a) /\ content r2' = content r' ++ ext /\ ending r2' = ending r2.
Proof. exact read_reader_extends. Qed.
Print Assumptions C19_read_reader.

Example C19_example :
  let read := read_thrift release64 (slice_input release64) sample_env 200 (TNamed "Node") in
  read [21; 14; 41; 12; 0; 3] = ([3], Ok (leaf 7)) /\ read ([21; 14; 41; 12; 0; 3] ++ [1; 2]) = ([3; 1; 2], Ok (leaf 7)) /\
  settled (snd (read [21; 14; 41; 12; 0; 3])).
Proof. vm_compute. auto. Qed.

(** ** C20: how a reader splits its data is invisible. *)
Theorem C20_read : forall c E K d t r1 r2,
  cfg_ok c -> env_closed E K = true -> ty_closed E t = true ->
  reader_bytes r1 -> reader_bytes r2 -> content r1 = content r2 -> ending r1 = ending r2 ->
  same_reads (read_thrift c (reader_input c) E d t r1) (read_thrift c (reader_input c) E d t r2).
Proof. exact read_chunking. Qed.
Print Assumptions C20_read.
Theorem C20_skip : forall c d t inside r1 r2,
  cfg_ok c -> reader_bytes r1 -> reader_bytes r2 -> content r1 = content r2 -> ending r1 = ending r2 ->
  same_reads (skip_field c (reader_input c) d t inside r1) (skip_field c (reader_input c) d t inside r2).
Proof. exact skip_chunking. Qed.
Print Assumptions C20_skip.

Example C20_example :
  let r1 := [RData [21; 14; 41; 12; 0; 3]] in
  let r2 := [RData [21]; RInterrupted; RData [14; 41; 12; 0]; RFail Interrupted; RData [3]] in
  let read := read_thrift debug32 (reader_input debug32) sample_env 200 (TNamed "Node") in
  content r1 = content r2 /\ ending r1 = ending r2 /\
  read r1 = ([RData [3]], Ok (leaf 7)) /\ read r2 = ([RFail Interrupted; RData [3]], Ok (leaf 7)).
Proof. vm_compute. auto. Qed.

(** ** C21: a reader's failure is reported, and only if it comes before the end of
    the value.  (With C16: wherever a slice of the same bytes would end
    prematurely, the reader's error is returned.) *)
Theorem C21_truncated : forall c E K t v p q d,
  cfg_ok c -> reserve_ok c -> env_ok true E K = true -> ty_closed E t = true ->
  enc E t v (p ++ q) -> q <> [] -> bytes (p ++ q) -> (need K t (List.length (p ++ q)) <= d)%nat ->
  (snd (read_thrift c (slice_input c) E d t p) = Err (IO UnexpectedEof) \/
   (sse2 c = true /\ snd (read_thrift c (slice_input c) E d t p) = Panic PSliceIndex)) /\
  forall r, content r = p -> reader_bytes r -> snd (read_thrift c (reader_input c) E d t r) = Err (ending r).
Proof. exact truncated_enc. Qed.
Print Assumptions C21_truncated.
Theorem C21_not_observed : forall c E K d t r r2 a r',
  cfg_ok c -> env_closed E K = true -> ty_closed E t = true ->
  reader_bytes r -> reader_bytes r2 -> content r2 = content r ->
  read_thrift c (reader_input c) E d t r = (r', Ok a) ->
  exists r2', read_thrift c (reader_input c) E d t r2 = (r2', Ok a) /\ content r2' = content r' /\ ending r2' = ending r2.
Proof. exact not_observed. Qed.
Print Assumptions C21_not_observed.

Example C21_example :
  let read := read_thrift debug32 (reader_input debug32) sample_env 200 (TNamed "Node") in
  ending [RData [21; 14]; RFail (OtherKind 3)] = IO (OtherKind 3) /\
  read [RData [21; 14]; RFail (OtherKind 3); RData [41; 12; 0]] = ([RData [41; 12; 0]], Err (IO (OtherKind 3))) /\
  read [RData [21; 14]; RData [41; 12; 0]; RFail (OtherKind 3)] = ([RFail (OtherKind 3)], Ok (leaf 7)).
Proof. vm_compute. auto. Qed.

(** ** C22: truncated encodings are never accepted: [C21_truncated] for conforming
    encodings, and the same for whatever is written. *)
Theorem C22_truncated_write : forall c E K t v p q d,
  cfg_ok c -> reserve_ok c -> env_ok false E K = true -> fits E v t = true -> typed E t v ->
  write_thrift vec_write_all E t v [] = (p ++ q, Ok tt) -> q <> [] -> (need K t (List.length (p ++ q)) <= d)%nat ->
  (snd (read_thrift c (slice_input c) E d t p) = Err (IO UnexpectedEof) \/
   (sse2 c = true /\ snd (read_thrift c (slice_input c) E d t p) = Panic PSliceIndex)) /\
  forall r, content r = p -> reader_bytes r -> snd (read_thrift c (reader_input c) E d t r) = Err (ending r).
Proof. exact truncated_write. Qed.
Print Assumptions C22_truncated_write.

Example C22_example :
  forall k, (k < 42)%nat ->
  snd (read_thrift portable64 (slice_input portable64) sample_env 431 (TNamed "Node")
    (firstn k (fst (write_thrift vec_write_all sample_env (TNamed "Node") sample_node [])))) = Err (IO UnexpectedEof).
Proof.
  intros k Hk. do 42 (destruct k as [|k]; [vm_compute; reflexivity|]). exfalso. revert Hk. apply Nat.nlt_ge.
  apply (Nat.le_add_r 42).
Qed.

(** ** C36: the stack needed is not bounded: for every depth there is an input of
    that length (plus one) that exceeds it, also for parquet's FileMetaData.
    ([C17_read_slice_partial] bounds it by a linear function of the input length.) *)
Theorem C36_refuted : forall c d,
  bytes (249 :: repeat 25 d) /\
  snd (read_thrift c (slice_input c) parquet_env d (TNamed "FileMetaData") (249 :: repeat 25 d)) = Panic PStack.
Proof. exact stack_unbounded. Qed.
Print Assumptions C36_refuted.
Theorem C36_skip_refuted : forall c d, snd (skip_field c (slice_input c) d 9 false (repeat 25 d)) = Panic PStack.
Proof. exact nest_skip. Qed.
Print Assumptions C36_skip_refuted.
