(** Running the interpreter on code with unknown values. *)
From Verif Require Import Base Uleb Utf8 Protocol RustSyntax RustEval SpecText P_Arith.
Open Scope Z_scope.
Open Scope list_scope.

(** The integers, the world and the loops stay as they are. *)
Ltac cbn_text :=
  cbn -[stop_loop with_pat fits iterate count_up each each_ok collect w_call w_get w_set w_bound Z.add Z.sub Z.opp Z.land Z.shiftl Z.shiftr Z.lor Z.lxor Z.lnot Z.eqb Z.leb Z.ltb Z.modulo Z.pow Z.to_nat Z.of_nat
         wrapu wraps firstn skipn zlen movemask trailing_zeros32 le_bytes from_le_bytes utf8_valid usize_bits app nth_error
         decode_uleb decode_uleb_loop encode_uleb encode_uleb_loop skip_uleb_sse2 skip_uleb_fallback read_len_with read_len read_i16 read_i32 read_i64 read_full_field_id zigzag_decode16 zigzag_decode32 zigzag_decode64
         zigzag_encode16 zigzag_encode32 zigzag_encode64 Protocol.read_field_header read_collection_len_and_type read_map_len_and_types
         Protocol.skip_field Protocol.skip_collection Protocol.skip_map skip_struct_loop repeatM in_read_byte in_read_double in_read_binary in_skip_integer in_skip_binary in_left
         MAX_BINARY_LEN MAX_COLLECTION_LEN write_byte write_len write_i16 write_i32 write_i64 write_double write_binary write_string Protocol.write_field_header].
Ltac open_text := cbv beta iota delta [bindE scoped callE vresE retE optE put ill panE method gives ret bind fail crash discard].
Ltac text := repeat (progress (cbn_text; open_text)); cbn_text.
Ltac hide_loop B EB :=
  match goal with
  | |- context [XLoop ?b] => remember b as B eqn:EB
  | |- context [XWhile ?d ?b] => remember b as B eqn:EB
  end.

Lemma fits_u32 c z : fits c U32 z = (0 <=? z) && (z <? 2 ^ 32). Proof. reflexivity. Qed.
Lemma land127 b : 0 <= Z.land b 127 < 128.
Proof. rewrite land_127. apply Z.mod_pos_bound. lia. Qed.
Lemma land1 b : 0 <= Z.land b 1 < 2.
Proof. rewrite land_1. apply Z.mod_pos_bound. lia. Qed.
Lemma land15 b : 0 <= Z.land b 15 < 16.
Proof. rewrite land_15. apply Z.mod_pos_bound. lia. Qed.
