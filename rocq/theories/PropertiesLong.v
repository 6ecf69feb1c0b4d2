(** Property theorems C04, continued: integers in sequences of any length. *)
From Verif Require Import Base Uleb Utf8 Protocol Types SpecUtf8 SpecCompact SpecInput SpecLong P_Long.

(** ** C04: what every terminated sequence is read as. *)
Theorem C04_any_length : forall c bs v, cfg_ok c -> terminated bs ->
  (overflow_checks c = true -> 7 * zlen bs < 2 ^ 32) -> overlaid bs v ->
  (forall n, in_s 64 n -> zigzag n = v -> both_read c (fun S I => read_i64 c I) bs n) /\
  (forall n, in_s 32 n -> zigzag n = v mod 2 ^ 32 -> both_read c (fun S I => read_i32 c I) bs n) /\
  (forall n, in_s 16 n -> zigzag n = v mod 2 ^ 16 -> both_read c (fun S I => read_i16 c I) bs n).
Proof. exact ints_overlaid. Qed.
Print Assumptions C04_any_length.
Theorem C04_overlaid : forall bs, exists! v, overlaid bs v.
Proof. exact overlaid_one. Qed.
Print Assumptions C04_overlaid.
Theorem C04_overflow : forall c bs, cfg_ok c -> overflow_checks c = true -> terminated bs -> 2 ^ 32 <= 7 * zlen bs ->
  (forall rest, bytes rest -> snd (read_i64 c (slice_input c) (bs ++ rest)) = Panic POverflow) /\
  (forall r rest, content r = bs ++ rest -> snd (read_i64 c (reader_input c) r) = Panic POverflow).
Proof. exact i64_overflows. Qed.
Print Assumptions C04_overflow.

(** The eleventh byte starts at bit 70 of the number, and at bit 6 of the word. *)
Example C04_long_example :
  terminated [128; 128; 128; 128; 128; 128; 128; 128; 128; 128; 1] /\
  digits128 [128; 128; 128; 128; 128; 128; 128; 128; 128; 128; 1] = 2 ^ 70 /\
  zigzag 32 = 64 /\
  read_i64 release64 (slice_input release64) [128; 128; 128; 128; 128; 128; 128; 128; 128; 128; 1; 5] = ([5], Ok 32).
Proof. repeat split; try (vm_compute; reflexivity). repeat constructor; vm_compute; intuition discriminate. Qed.

(** ** C16: what skipping an integer does to a slice, with SSE2 and without. *)
Theorem C16_integer_sse2 : forall c p rest, sse2 c = true -> bytes (p ++ rest) -> open_run p rest ->
  sse2_skip p rest (in_skip_integer (slice_input c) (p ++ rest)).
Proof. exact skip_exact. Qed.
Print Assumptions C16_integer_sse2.
Theorem C16_integer_plain : forall c p rest, sse2 c = false -> bytes (p ++ rest) -> open_run p rest ->
  (overflow_checks c = true -> 7 * (zlen p + 1) < 2 ^ 32) ->
  match rest with
  | [] => snd (in_skip_integer (slice_input c) (p ++ rest)) = Err (IO UnexpectedEof)
  | _ :: q => in_skip_integer (slice_input c) (p ++ rest) = (q, Ok tt)
  end.
Proof. exact skip_plain. Qed.
Print Assumptions C16_integer_plain.

Example C16_integer_example :
  open_run (repeat 128 17) [0; 1] /\
  in_skip_integer (slice_input release64) (repeat 128 17 ++ [0; 1]) = ([0; 1], Ok tt) /\
  in_skip_integer (slice_input portable64) (repeat 128 17 ++ [0; 1]) = ([1], Ok tt).
Proof. split; [|split; vm_compute; reflexivity]. split; [|vm_compute; reflexivity]. cbn [repeat]. repeat constructor; discriminate. Qed.
