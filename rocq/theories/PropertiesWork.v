(** Property theorem C89: decoding asks its input at most once per byte, plus one call that fails. *)
From Verif Require Import Base Uleb Utf8 Protocol Types Parquet SpecInput Schema SampleSchema SpecWork P_Lawful P_Work.

(** ** C89: counting changes nothing but the counter, and the number of calls is at most
    the number of bytes consumed, plus one if decoding fails; no length in the data can
    make decoding do work that the data does not pay for. *)
Theorem C89_slice : forall c E d t v s, cfg_ok c -> bytes s ->
  exists n, fill c (counting (slice_input c)) E d t v (s, 0%nat) =
    (let '(rest, w, o) := fill c (slice_input c) E d t v s in (rest, n, w, o)) /\
  (let '(rest, w, o) := fill c (slice_input c) E d t v s in (n + List.length rest <= List.length s + slack o)%nat).
Proof. exact slice_calls. Qed.
Print Assumptions C89_slice.

Theorem C89_reader : forall c E d t v r, cfg_ok c -> reader_bytes r ->
  exists n, fill c (counting (reader_input c)) E d t v (r, 0%nat) =
    (let '(r', w, o) := fill c (reader_input c) E d t v r in (r', n, w, o)) /\
  (let '(r', w, o) := fill c (reader_input c) E d t v r in (n + reader_left r' <= reader_left r + slack o)%nat).
Proof. exact reader_calls. Qed.
Print Assumptions C89_reader.

Theorem C89_skip : forall c d ft e s, cfg_ok c -> bytes s ->
  exists n, skip_field c (counting (slice_input c)) d ft e (s, 0%nat) = (let '(rest, o) := skip_field c (slice_input c) d ft e s in (rest, n, o)) /\
  (let '(rest, o) := skip_field c (slice_input c) d ft e s in (n + List.length rest <= List.length s + slack o)%nat).
Proof. exact slice_skip_calls. Qed.
Print Assumptions C89_skip.

(** Every element of a list costs a byte beside the header, also if the list is skipped;
    every entry of a skipped map costs two. *)
Theorem C89_list : forall c E d t v s rest vs, cfg_ok c -> bytes s ->
  fill c (slice_input c) E d (TVec t) v s = (rest, VVec vs, Ok tt) -> (List.length rest + List.length vs < List.length s)%nat.
Proof. exact slice_list_pays. Qed.
Print Assumptions C89_list.

Theorem C89_skipped_list : forall c d s n et s1 rest, cfg_ok c -> bytes s ->
  read_collection_len_and_type c (slice_input c) s = (s1, Ok (n, et)) -> skip_collection c (slice_input c) d s = (rest, Ok tt) ->
  Z.of_nat (List.length rest) + n <= Z.of_nat (List.length s1).
Proof. exact slice_skip_list_pays. Qed.
Print Assumptions C89_skipped_list.

Theorem C89_skipped_map : forall c d s n kt vt s1 rest, cfg_ok c -> bytes s ->
  read_map_len_and_types c (slice_input c) s = (s1, Ok (n, kt, vt)) -> skip_map c (slice_input c) d s = (rest, Ok tt) ->
  Z.of_nat (List.length rest) + 2 * n <= Z.of_nat (List.length s1).
Proof. exact slice_skip_map_pays. Qed.
Print Assumptions C89_skipped_map.

(** Three numbers take four calls for four bytes, three skipped doubles four calls for
    25 bytes, a list that announces 2097151 booleans but has two takes seven, the last of
    which fails; a skipped map of two entries leaves one byte. *)
Example C89_example :
  fill release64 (counting (slice_input release64)) [] 5 (TVec TI32) (VVec []) ([53; 2; 4; 6; 9], 0%nat) =
    (([9], 4%nat), VVec [VI32 1; VI32 2; VI32 3], Ok tt) /\
  skip_field release64 (counting (slice_input release64)) 5 9 false ((55 :: repeat 0 24), 0%nat) = (([], 4%nat), Ok tt) /\
  skip_field release64 (counting (slice_input release64)) 5 9 false ([241; 255; 255; 127; 1; 2], 0%nat) = (([], 7%nat), Err (IO UnexpectedEof)) /\
  read_map_len_and_types release64 (slice_input release64) [2; 85; 2; 4; 6; 8; 9] = ([2; 4; 6; 8; 9], Ok (2, 5, 5)) /\
  skip_map release64 (slice_input release64) 5 [2; 85; 2; 4; 6; 8; 9] = ([9], Ok tt).
Proof. repeat split; vm_compute; reflexivity. Qed.
