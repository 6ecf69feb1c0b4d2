(** Properties of the footer and page index functions, C39-C42, C56, C57. *)
From Verif Require Import Base Uleb Protocol Encodings Types Parquet Footer SpecInput Schema Typing SpecFooter P_Footer.

(** ** C39: the metadata chunk of a file.
    Full statement: as [C39_ok], and InvalidMagic iff the last four bytes exist and
    are not PAR1.  The latter needs at least eight bytes ([C39_magic_partial]); for
    four to seven bytes it is false ([C39_refuted]). *)
Theorem C39_ok : forall c alloc f m,
  cfg_ok c -> healthy f -> bytes (data f) -> (forall n, alloc n = true) -> zlen (data f) < 2 ^ (usize_bits c - 1) ->
  snd (get_metadata_chunk c alloc f) = POk m <-> parquet_file (data f) m.
Proof. intros c alloc f m Hc. exact (metadata_ok_iff c alloc Hc f m). Qed.
Print Assumptions C39_ok.
Theorem C39_magic_partial : forall c alloc f,
  cfg_ok c -> healthy f -> bytes (data f) ->
  snd (get_metadata_chunk c alloc f) = PErr PInvalidMagic <->
  exists pre m4, data f = pre ++ m4 /\ 4 <= zlen pre /\ zlen m4 = 4 /\ m4 <> [80; 65; 82; 49].
Proof. intros c alloc f Hc. exact (metadata_magic_iff c alloc Hc f). Qed.
Print Assumptions C39_magic_partial.
Theorem C39_otherwise : forall c alloc f,
  cfg_ok c -> healthy f -> bytes (data f) -> (forall n, n <= zlen (data f) -> alloc n = true) -> zlen (data f) < 2 ^ (usize_bits c - 1) ->
  (exists m, snd (get_metadata_chunk c alloc f) = POk m) \/ snd (get_metadata_chunk c alloc f) = PErr PInvalidMagic \/
  snd (get_metadata_chunk c alloc f) = PErr (PIo InvalidInput).
Proof. intros c alloc f Hc. exact (metadata_otherwise c alloc Hc f). Qed.
Print Assumptions C39_otherwise.
Theorem C39_refuted : exists f, healthy f /\
  (exists pre m4, data f = pre ++ m4 /\ zlen m4 = 4 /\ m4 <> [80; 65; 82; 49]) /\
  forall c alloc, snd (get_metadata_chunk c alloc f) = PErr (PIo InvalidInput).
Proof. exact magic_refuted. Qed.
Print Assumptions C39_refuted.

Example C39_example : healthy sample_file /\ parquet_file (data sample_file) [21; 2; 0] /\
  snd (get_metadata_chunk debug64 (fun _ => true) sample_file) = POk [21; 2; 0] /\
  snd (get_metadata_chunk debug64 (fun _ => true) (cursor (data sample_file ++ [0]))) = PErr PInvalidMagic /\
  snd (get_metadata_chunk debug64 (fun _ => true) (cursor [1; 2; 3; 0; 0; 0; 80; 65; 82; 49])) = PErr (PIo InvalidInput).
Proof.
  split; [constructor|]. split; [|vm_compute; auto].
  split; [reflexivity|]. exists (firstn 29 (data sample_file)). reflexivity.
Qed.

(** ** C40: the page index range, for 64-bit usize. *)
Theorem C40_some_partial : forall c md a b, usize_bits c = 64 -> metadata_ok md ->
  get_page_index_range c md = POk (Some (a, b)) <->
  ~ negative md /\ a < b /\ (exists e, extent md a e) /\ (exists s, extent md s b) /\ (forall s e, extent md s e -> a <= s /\ e <= b).
Proof. intros c md a b H. exact (range_some c H md a b). Qed.
Print Assumptions C40_some_partial.
Theorem C40_none_partial : forall c md, usize_bits c = 64 -> metadata_ok md ->
  get_page_index_range c md = POk None <-> ~ negative md /\ exists p, forall s e, extent md s e -> s = p /\ e = p.
Proof. intros c md H. exact (range_none c H md). Qed.
Print Assumptions C40_none_partial.
Theorem C40_error_partial : forall c md e, usize_bits c = 64 -> metadata_ok md ->
  get_page_index_range c md = PErr e <-> e = PInvalidOffset /\ negative md.
Proof. intros c md e H. exact (range_err c H md e). Qed.
Print Assumptions C40_error_partial.
Theorem C40_no_panic_partial : forall c md p, usize_bits c = 64 -> metadata_ok md -> get_page_index_range c md <> PPanic p.
Proof. intros c md p H. exact (range_no_panic c H md p). Qed.
Print Assumptions C40_no_panic_partial.
(** The hypothesis [metadata_ok] holds of everything that was decoded, and of every value of the type. *)
Theorem C40_decoded : forall c d s s' v, cfg_ok c -> bytes s ->
  read_thrift c (slice_input c) parquet_env d (TNamed "FileMetaData") s = (s', Ok v) -> metadata_ok (metadata_of v).
Proof. exact decoded_ok. Qed.
Print Assumptions C40_decoded.
Theorem C40_typed : forall v, typed parquet_env (TNamed "FileMetaData") v -> metadata_ok (metadata_of v).
Proof. exact metadata_of_ok. Qed.
Print Assumptions C40_typed.
(** With 32-bit usize offsets are truncated, and sums overflow. *)
Theorem C40_refuted : exists c md, cfg_ok c /\ usize_bits c = 32 /\ metadata_ok md /\
  (exists a b, extent md a b /\ b = 4294967306) /\ get_page_index_range c md = POk (Some (0, 10)).
Proof. exact range32_refuted. Qed.
Print Assumptions C40_refuted.
Theorem C40_overflow_refuted : exists c md, cfg_ok c /\ usize_bits c = 32 /\ metadata_ok md /\ get_page_index_range c md = PPanic POverflow.
Proof. exact range32_overflow_refuted. Qed.
Print Assumptions C40_overflow_refuted.

Example C40_example : metadata_ok sample_md /\ get_page_index_range debug64 sample_md = POk (Some (4, 29)) /\
  get_page_index_range debug64 [[both 4 0 4 0]] = POk None /\ get_page_index_range debug64 [[both 4 1 4 (-1)]] = PErr PInvalidOffset.
Proof. split; [|vm_compute; auto]. repeat constructor; cbn; unfold in_s; lia. Qed.

(** ** C41: the page indexes, for 64-bit usize.
    [regular]: the condition under which no assertion fails, see C42. *)
Theorem C41_chunk : forall c alloc f md a b chunk,
  usize_bits c = 64 -> healthy f -> metadata_ok md -> (forall n, alloc n = true) -> zlen (data f) < 2 ^ 63 ->
  get_page_index_range c md = POk (Some (a, b)) ->
  snd (get_page_index_chunk c alloc md f) = POk (Some (chunk, (a, b))) <-> at_offset (data f) a chunk /\ zlen chunk = b - a.
Proof. exact chunk_present. Qed.
Print Assumptions C41_chunk.
Theorem C41_indexes : forall c alloc d f f' md chunk a b rs,
  usize_bits c = 64 -> metadata_ok md -> get_page_index_chunk c alloc md f = (f', POk (Some (chunk, (a, b)))) ->
  read_page_index c d chunk a md = POk rs ->
  Forall2 (Forall2 (column_result (read_index c d) (data f))) md rs.
Proof. intros c alloc d f f' md chunk a b rs H. exact (fun H1 H2 => index_forward c alloc H d f f' md chunk a b H1 H2 rs). Qed.
Print Assumptions C41_indexes.
Theorem C41_complete : forall c alloc d f f' md chunk a b rs,
  usize_bits c = 64 -> metadata_ok md -> get_page_index_chunk c alloc md f = (f', POk (Some (chunk, (a, b)))) -> regular md ->
  Forall2 (Forall2 (column_result (read_index c d) (data f))) md rs ->
  read_page_index c d chunk a md = POk rs.
Proof. intros c alloc d f f' md chunk a b rs H. exact (fun H1 H2 H3 => index_backward c alloc H d f f' md chunk a b H1 H2 H3 rs). Qed.
Print Assumptions C41_complete.

Example C41_example : exists f' chunk,
  get_page_index_chunk debug64 (fun _ => true) sample_md sample_file = (f', POk (Some (chunk, (4, 29)))) /\
  read_page_index debug64 20 chunk 4 sample_md = POk [[None; Some (sample_oi, sample_ci)]; []; [None]].
Proof. exists {| data := data sample_file; pos := 29; faults := [] |}, (firstn 25 (skipn 4 (data sample_file))). split; vm_compute; reflexivity. Qed.

(** ** C42: panics of read_page_index.
    Full statement: none, if get_page_index_chunk succeeded.  It holds for [regular]
    metadata, up to the panics of decoding listed in C17; otherwise assertions fail. *)
Theorem C42_partial : forall c alloc d f f' md chunk a b p,
  cfg_ok c -> usize_bits c = 64 -> metadata_ok md -> bytes (data f) ->
  get_page_index_chunk c alloc md f = (f', POk (Some (chunk, (a, b)))) -> regular md ->
  (need 12 (TNamed "ColumnIndex") (List.length (data f)) <= d)%nat ->
  read_page_index c d chunk a md = PPanic p -> slice_panic c p.
Proof. exact index_panic_decode. Qed.
Print Assumptions C42_partial.
(** an empty index *)
Theorem C42_refuted : forall c d alloc, usize_bits c = 64 -> (forall n, alloc n = true) ->
  exists f f' md chunk, metadata_ok md /\ get_page_index_chunk c alloc md f = (f', POk (Some (chunk, (4, 6)))) /\
    read_page_index c d chunk 4 md = PPanic PAssert.
Proof. exact index_assert_refuted. Qed.
Print Assumptions C42_refuted.
(** a column without column index, whose offset index precedes the others *)
Theorem C42_before_refuted : forall c d alloc, usize_bits c = 64 -> (forall n, alloc n = true) ->
  exists f f' md chunk, metadata_ok md /\ get_page_index_chunk c alloc md f = (f', POk (Some (chunk, (4, 6)))) /\
    (forall cols col, In cols md -> In col cols -> offset_index_length col = Some 1) /\
    read_page_index c d chunk 4 md = PPanic PAssert.
Proof. exact index_before_refuted. Qed.
Print Assumptions C42_before_refuted.

Example C42_example : regular sample_md /\ (need 12 (TNamed "ColumnIndex") (List.length (data sample_file)) <= 1000)%nat.
Proof.
  split; [|vm_compute; repeat constructor].
  assert (Hh : extent sample_md 4 14).
  { exists 4, 10, 15, 14. split; [|auto]. eexists _, _. split; [left; reflexivity|]. split; [right; left; reflexivity|reflexivity]. }
  intros cols col oo ol H1 H2 Q1 Q2. destruct H1 as [<-|[<-|[<-|[]]]]; cbn [In] in H2.
  - destruct H2 as [<-|[<-|[]]]; [discriminate|]. injection Q1 as <-. injection Q2 as <-. split; [lia|]. split; [exists 4, 14; split; [exact Hh|lia]|].
    intros co cl [= <-] [= <-]. lia.
  - destruct H2.
  - destruct H2 as [<-|[]]. injection Q1 as <-. injection Q2 as <-. split; [lia|]. split; [exists 4, 14; split; [exact Hh|lia]|]. discriminate.
Qed.

(** ** C56: failing operations on the file are reported. *)
Theorem C56_metadata : forall c alloc f,
  snd (get_metadata_chunk c alloc f) = snd (get_metadata_chunk c alloc (without_faults f)) \/
  exists k, In (Some k) (faults f) /\ snd (get_metadata_chunk c alloc f) = PErr (PIo k).
Proof. exact metadata_faults. Qed.
Print Assumptions C56_metadata.
Theorem C56_page_index : forall c alloc md f,
  snd (get_page_index_chunk c alloc md f) = snd (get_page_index_chunk c alloc md (without_faults f)) \/
  exists k, In (Some k) (faults f) /\ snd (get_page_index_chunk c alloc md f) = PErr (PIo k).
Proof. exact page_index_chunk_faults. Qed.
Print Assumptions C56_page_index.
Example C56_example :
  let f := {| data := data sample_file; pos := 0; faults := [None; Some Interrupted] |} in
  snd (get_metadata_chunk debug64 (fun _ => true) f) = PErr (PIo Interrupted) /\
  snd (get_page_index_chunk debug64 (fun _ => true) sample_md f) = PErr (PIo Interrupted).
Proof. vm_compute. auto. Qed.

(** ** C57: memory requested for the chunks.
    The metadata chunk never needs more than the file's size ([C57_metadata]); the
    page index chunk does: the buffer is allocated before the file is looked at. *)
Theorem C57_metadata : forall c alloc f p,
  cfg_ok c -> bytes (data f) -> (forall n, n <= zlen (data f) -> alloc n = true) -> zlen (data f) < 2 ^ (usize_bits c - 1) ->
  snd (get_metadata_chunk c alloc f) <> PPanic p.
Proof. exact metadata_no_panic. Qed.
Print Assumptions C57_metadata.
Theorem C57_capacity_refuted : forall c alloc f, usize_bits c = 64 -> healthy f ->
  exists md, metadata_ok md /\ ~ negative md /\ snd (get_page_index_chunk c alloc md f) = PPanic PAlloc.
Proof. exact chunk_capacity_refuted. Qed.
Print Assumptions C57_capacity_refuted.
Theorem C57_refuted : forall c alloc n, usize_bits c = 64 -> 0 < n < 2 ^ 62 -> alloc n = false ->
  exists md, metadata_ok md /\ ~ negative md /\ snd (get_page_index_chunk c alloc md (cursor [])) = PPanic PAlloc.
Proof. exact chunk_unbounded_refuted. Qed.
Print Assumptions C57_refuted.
