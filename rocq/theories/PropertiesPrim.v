(** Property theorems C01-C09: primitive values and field headers. *)
From Verif Require Import Base Uleb Utf8 Protocol Types SpecUtf8 SpecCompact SpecInput
  P_Prim P_PrimRefuted.

(** ** C01: lengths round-trip and are self-delimiting. *)
Theorem C01_len_roundtrip : forall c n, cfg_ok c -> in_u (usize_bits c) n ->
  exists bs, appends (write_len vec_write_all n) bs (Ok tt) /\
             both_read c (fun S I => read_len c I) bs n.
Proof. exact len_roundtrip. Qed.
Print Assumptions C01_len_roundtrip.

Example C01_example :
  write_len vec_write_all 300 [] = ([172; 2], Ok tt) /\
  read_len release64 (slice_input release64) [172; 2; 7; 9] = ([7; 9], Ok 300) /\
  read_len release64 (reader_input release64) [RInterrupted; RData [172]; RInterrupted; RData [2; 7]; RFail (OtherKind 3)]
    = ([RData [7]; RFail (OtherKind 3)], Ok 300).
Proof. repeat split; vm_compute; reflexivity. Qed.

(** ** C02: i16, i32, i64 round-trip. *)
Theorem C02_i16_roundtrip : forall c n, cfg_ok c -> in_s 16 n ->
  exists bs, appends (write_i16 vec_write_all n) bs (Ok tt) /\ both_read c (fun S I => read_i16 c I) bs n.
Proof. exact i16_roundtrip. Qed.
Print Assumptions C02_i16_roundtrip.
Theorem C02_i32_roundtrip : forall c n, cfg_ok c -> in_s 32 n ->
  exists bs, appends (write_i32 vec_write_all n) bs (Ok tt) /\ both_read c (fun S I => read_i32 c I) bs n.
Proof. exact i32_roundtrip. Qed.
Print Assumptions C02_i32_roundtrip.
Theorem C02_i64_roundtrip : forall c n, cfg_ok c -> in_s 64 n ->
  exists bs, appends (write_i64 vec_write_all n) bs (Ok tt) /\ both_read c (fun S I => read_i64 c I) bs n.
Proof. exact i64_roundtrip. Qed.
Print Assumptions C02_i64_roundtrip.

Example C02_example :
  in_s 64 (- 2 ^ 63) /\
  (let '(bs, o) := write_i64 vec_write_all (- 2 ^ 63) [] in
   o = Ok tt /\ List.length bs = 10%nat /\
   read_i64 debug32 (slice_input debug32) (bs ++ [1]) = ([1], Ok (- 2 ^ 63))).
Proof. vm_compute. repeat split; congruence. Qed.

(** ** C03: integers are written in the minimal form. *)
Theorem C03_canonical : forall n,
  (in_s 16 n -> exists bs, appends (write_i16 vec_write_all n) bs (Ok tt) /\ canonical (zigzag n) 3 bs) /\
  (in_s 32 n -> exists bs, appends (write_i32 vec_write_all n) bs (Ok tt) /\ canonical (zigzag n) 5 bs) /\
  (in_s 64 n -> exists bs, appends (write_i64 vec_write_all n) bs (Ok tt) /\ canonical (zigzag n) 10 bs).
Proof. exact ints_canonical. Qed.
Print Assumptions C03_canonical.

Example C03_example : in_s 16 (-32768) /\ write_i16 vec_write_all (-32768) [] = ([255; 255; 3], Ok tt)
  /\ digits128 [255; 255; 3] = zigzag (-32768).
Proof. vm_compute. repeat split; congruence. Qed.

(** ** C04: varints decode to the number they denote modulo 2^64.
    Full claim: for every terminated [bs],
    [zigzag n = digits128 bs mod 2^64 -> both_read c read_i64 bs n].
    Proved for at most ten bytes, and for any number of bytes if the number is
    below 2^64; false beyond that, because the shift amount wraps at 64. *)
Theorem C04_varint_partial : forall c bs n, cfg_ok c -> terminated bs -> (List.length bs <= 10)%nat ->
  in_s 64 n -> zigzag n = digits128 bs mod 2 ^ 64 ->
  both_read c (fun S I => read_i64 c I) bs n.
Proof. exact i64_read_mod. Qed.
Print Assumptions C04_varint_partial.
Theorem C04_padded_partial : forall c bs n, cfg_ok c -> terminated bs ->
  (overflow_checks c = true -> 7 * zlen bs < 2 ^ 32) ->
  in_s 64 n -> zigzag n = digits128 bs ->
  both_read c (fun S I => read_i64 c I) bs n.
Proof. exact i64_read_padded. Qed.
Print Assumptions C04_padded_partial.
Theorem C04_refuted : exists c bs n, cfg_ok c /\ terminated bs /\ in_s 64 n /\
  zigzag n = digits128 bs mod 2 ^ 64 /\ ~ both_read c (fun S I => read_i64 c I) bs n.
Proof. exact varint_long_refuted. Qed.
Print Assumptions C04_refuted.

Example C04_example :
  terminated [133; 128; 128; 128; 128; 128; 128; 128; 128; 128; 128; 0] /\
  digits128 [133; 128; 128; 128; 128; 128; 128; 128; 128; 128; 128; 0] = zigzag (-3) /\
  read_i64 debug32 (slice_input debug32) [133; 128; 128; 128; 128; 128; 128; 128; 128; 128; 128; 0; 9] = ([9], Ok (-3)).
Proof. split; [repeat (apply term_last || apply term_more); vm_compute; split; congruence|]. vm_compute. auto. Qed.

(** ** C05: out-of-range integers.
    The claim (an error is returned) is false: the number is truncated. *)
Theorem C05_refuted : exists c bs, cfg_ok c /\ varint (zigzag 32768) bs /\
  read_i16 c (slice_input c) bs = ([], Ok 0).
Proof. exact narrow_refuted. Qed.
Print Assumptions C05_refuted.
(** What is returned instead, for every varint. *)
Theorem C05_i16_truncates : forall c bs n m, cfg_ok c -> varint n bs -> in_s 16 m -> zigzag m = n mod 2 ^ 16 ->
  both_read c (fun S I => read_i16 c I) bs m.
Proof. exact i16_read_trunc. Qed.
Print Assumptions C05_i16_truncates.
Theorem C05_i32_truncates : forall c bs n m, cfg_ok c -> varint n bs -> in_s 32 m -> zigzag m = n mod 2 ^ 32 ->
  both_read c (fun S I => read_i32 c I) bs m.
Proof. exact i32_read_trunc. Qed.
Print Assumptions C05_i32_truncates.

(** ** C06: doubles. *)
Theorem C06_double_roundtrip : forall c z, cfg_ok c -> in_u 64 z ->
  exists bs, appends (write_double vec_write_all z) bs (Ok tt) /\
    List.length bs = 8%nat /\ bytes bs /\ digits256 bs = z /\ both_read c (fun S I => in_read_double I) bs z.
Proof. exact double_roundtrip. Qed.
Print Assumptions C06_double_roundtrip.

(** A NaN with payload. *)
Example C06_example :
  in_u 64 9221120237041090577 /\
  write_double vec_write_all 9221120237041090577 [] = ([17; 0; 0; 0; 0; 0; 248; 127], Ok tt).
Proof. vm_compute. repeat split; congruence. Qed.

(** ** C07: binaries. *)
Theorem C07_binary_roundtrip : forall c l, cfg_ok c -> bytes l -> zlen l <= 16777216 ->
  exists bs, appends (write_binary vec_write_all l) bs (Ok tt) /\ both_read c (fun S I => in_read_binary I) bs l.
Proof. exact binary_roundtrip. Qed.
Print Assumptions C07_binary_roundtrip.
Theorem C07_write_limit : forall l, 16777216 < zlen l ->
  appends (write_binary vec_write_all l) [] (Err (InvalidBinaryLen (zlen l))).
Proof. exact binary_too_long_write. Qed.
Print Assumptions C07_write_limit.
Theorem C07_read_limit : forall c n bs, cfg_ok c -> varint n bs -> in_u (usize_bits c) n -> 16777216 < n ->
  both_fail c (fun S I => in_read_binary I) bs (InvalidBinaryLen n) /\
  both_fail c (fun S I => in_skip_binary I) bs (InvalidBinaryLen n).
Proof. exact binary_too_long_read. Qed.
Print Assumptions C07_read_limit.
(** Without [in_u (usize_bits c) n] the claim is false: on 32-bit targets the
    length is truncated before the check. *)
Theorem C07_read_limit_32bit_refuted : exists c n bs rest, cfg_ok c /\ varint n bs /\ 16777216 < n /\
  in_read_binary (slice_input c) (bs ++ rest) = ([9], Ok [7; 8]).
Proof. exact binary_limit_32bit_refuted. Qed.
Print Assumptions C07_read_limit_32bit_refuted.

Example C07_example : varint 16777217 [129; 128; 128; 8] /\
  in_read_binary (slice_input release64) [129; 128; 128; 8; 5] = ([5], Err (InvalidBinaryLen 16777217)).
Proof.
  split; [|vm_compute; reflexivity].
  split; [repeat (apply term_last || apply term_more); vm_compute; split; congruence|].
  vm_compute. repeat split; try congruence. repeat constructor.
Qed.

(** ** C08: strings. *)
Theorem C08_read_string : forall c payload bs, cfg_ok c -> binary payload bs ->
  (well_formed_utf8 payload -> both_read c (fun S I => read_string I) bs payload) /\
  (~ well_formed_utf8 payload -> both_fail c (fun S I => read_string I) bs InvalidString).
Proof. exact string_read. Qed.
Print Assumptions C08_read_string.
Theorem C08_string_roundtrip : forall c l, cfg_ok c -> bytes l -> well_formed_utf8 l -> zlen l <= 16777216 ->
  exists bs, appends (write_string vec_write_all l) bs (Ok tt) /\ both_read c (fun S I => read_string I) bs l.
Proof. exact string_roundtrip. Qed.
Print Assumptions C08_string_roundtrip.

(** "é😀" is well formed; an encoded surrogate is not. *)
Example C08_example : well_formed_utf8 [195; 169; 240; 159; 152; 128] /\
  read_string (slice_input release64) [3; 237; 160; 128; 1] = ([1], Err InvalidString).
Proof.
  split; [|vm_compute; reflexivity]. exists [233; 128512]. split; [|vm_compute; reflexivity].
  repeat constructor; unfold scalar_value; vm_compute; intuition congruence.
Qed.

(** ** C09: field headers.
    Full claim: for all previous ids, ids and types the header reads back.  It
    holds exactly for the pairs of [header_roundtrips]. *)
Theorem C09_header_exact : forall c ft id last, cfg_ok c -> 1 <= ft <= 15 -> in_s 16 id -> in_s 16 last ->
  exists bs, appends (write_field_header vec_write_all ft id last) bs (Ok id) /\
    (both_read c (fun S I => read_field_header c I last) bs (ft, id) <-> header_roundtrips c last id).
Proof. exact header_roundtrip_iff. Qed.
Print Assumptions C09_header_exact.
(** The full claim is false: field 20 after field 1 reads back as field 19. *)
Theorem C09_refuted : exists c bs, cfg_ok c /\
  appends (write_field_header vec_write_all 5 20 1) bs (Ok 20) /\
  both_read c (fun S I => read_field_header c I 1) bs (5, 19).
Proof. exact header_refuted. Qed.
Print Assumptions C09_refuted.

Example C09_example : header_roundtrips debug32 3 18 /\ header_roundtrips debug32 0 32767.
Proof. split; [right|left]; vm_compute; repeat split; congruence. Qed.
