(** Sizes of decoded values: C74 and C75. *)
From Verif Require Import Base Protocol Types Parquet SpecInput SpecCompact Schema Typing SpecSize P_Size.

(** C74. The size of a decoded value is at most a constant of the schema times the number of
    bytes it was decoded from. *)
Theorem C74_slice : forall c E K d t s rest v,
  cfg_ok c -> env_closed E K = true -> ty_closed E t = true -> bytes s -> read_thrift c (slice_input c) E d t s = (rest, Ok v) ->
  (nodes v + per_byte E K t * List.length rest <= per_byte E K t * List.length s)%nat.
Proof. exact read_slice_size. Qed.
Print Assumptions C74_slice.
Theorem C74_reader : forall c E K d t r r' v,
  cfg_ok c -> env_closed E K = true -> ty_closed E t = true -> reader_bytes r -> read_thrift c (reader_input c) E d t r = (r', Ok v) ->
  (nodes v + per_byte E K t * reader_left r' <= per_byte E K t * reader_left r)%nat.
Proof. exact read_reader_size. Qed.
Print Assumptions C74_reader.
(** The constant for all types of the parquet crate *)
Theorem C74_parquet : forall c d n s rest v,
  cfg_ok c -> ty_closed parquet_env (TNamed n) = true -> bytes s -> read_thrift c (slice_input c) parquet_env d (TNamed n) s = (rest, Ok v) ->
  (nodes v + 17 * List.length rest <= 17 * List.length s)%nat.
Proof. exact parquet_size. Qed.
Print Assumptions C74_parquet.
(** A list of three empty structs in four bytes *)
Example C74_example : let r := read_thrift release64 (slice_input release64) parquet_env 20 (TVec (TNamed "StringType")) [60; 0; 0; 0; 9] in
  r = ([9], Ok (VVec [VStruct []; VStruct []; VStruct []])) /\ nodes (VVec [VStruct []; VStruct []; VStruct []]) = 4%nat /\
  per_byte parquet_env 12 (TNamed "FileMetaData") = 17%nat.
Proof. vm_compute. repeat split. Qed.

(** C75. Decoding asks the allocator only for space in proportion to the input.  False: six
    bytes make it ask for a list of ten million schema elements.  It asks for at most that
    many elements: what the allocator would say to longer lists does not matter. *)
Theorem C75_partial : forall S c r' (I : input S) E,
  (forall n, n <= 10000000 -> reserve c n = r' n) ->
  forall d t s, read_thrift c I E d t s =
    read_thrift {| overflow_checks := overflow_checks c; sse2 := sse2 c; usize_bits := usize_bits c; reserve := r' |} I E d t s.
Proof. exact (fun S c r' I E => reserve_limit c r' I E). Qed.
Print Assumptions C75_partial.
Theorem C75_refuted : forall c, cfg_ok c ->
  snd (read_thrift c (slice_input c) parquet_env 20 (TNamed "FileMetaData") [41; 252; 128; 173; 226; 4]) =
    Err (if reserve c 10000000 then IO UnexpectedEof else ReserveError).
Proof. exact reserved_before_reading. Qed.
Print Assumptions C75_refuted.
Example C75_example : cfg_ok release64 /\ reserve release64 10000000 = true.
Proof. split; [split; [right; reflexivity|auto]|reflexivity]. Qed.
