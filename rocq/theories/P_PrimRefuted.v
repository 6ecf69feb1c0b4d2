(** Witnesses for the refuted claims about primitives, and sample configurations. *)
From Coq Require Import ZifyBool ZifyNat ZifyN.
From Verif Require Import Base Uleb Utf8 Protocol Types SpecUtf8 SpecCompact SpecInput
  P_Arith P_Reads P_Inputs P_Write P_Prim.

Lemma varint_dec n bs :
  0 <= n < 2 ^ 64 -> digits128 bs = n -> (List.length bs <= 10)%nat -> terminated bs -> varint n bs.
Proof. intros. repeat split; auto; lia. Qed.

Ltac term := repeat (apply term_last || apply term_more); vm_compute; split; congruence.

(** Denotes 2^70, that is 0 modulo 2^64; the last digit is shifted by 70 mod 64. *)
Lemma varint_long_refuted : exists c bs n, cfg_ok c /\ terminated bs /\ in_s 64 n /\
  zigzag n = digits128 bs mod 2 ^ 64 /\ ~ both_read c (fun S I => read_i64 c I) bs n.
Proof.
  exists release64, [128; 128; 128; 128; 128; 128; 128; 128; 128; 128; 1], 0.
  split; [exact release64_ok|]. split; [term|]. split; [vm_compute; split; congruence|].
  split; [vm_compute; reflexivity|]. intros [H _].
  specialize (H [] ltac:(repeat constructor; vm_compute; congruence)). vm_compute in H. congruence.
Qed.

Lemma narrow_refuted : exists c bs, cfg_ok c /\ varint (zigzag 32768) bs /\
  read_i16 c (slice_input c) bs = ([], Ok 0).
Proof.
  exists release64, [128; 128; 4]. split; [exact release64_ok|]. split; [|vm_compute; reflexivity].
  apply varint_dec; [vm_compute; split; congruence|vm_compute; reflexivity|cbn; lia|term].
Qed.

Lemma binary_limit_32bit_refuted : exists c n bs rest, cfg_ok c /\ varint n bs /\ 16777216 < n /\
  in_read_binary (slice_input c) (bs ++ rest) = ([9], Ok [7; 8]).
Proof.
  exists debug32, (2 ^ 32 + 2), [130; 128; 128; 128; 16], [7; 8; 9].
  split; [exact debug32_ok|]. split; [|split; vm_compute; reflexivity].
  apply varint_dec; [vm_compute; split; congruence|vm_compute; reflexivity|cbn; lia|term].
Qed.

Lemma header_refuted : exists c bs, cfg_ok c /\
  appends (write_field_header vec_write_all 5 20 1) bs (Ok 20) /\
  both_read c (fun S I => read_field_header c I 1) bs (5, 19).
Proof.
  exists release64, [5; 38]. split; [exact release64_ok|]. split; [intros w; apply write_field_header_puts|].
  apply both_reads; [|exact release64_ok]. intros S I R D.
  apply (read_field_header_reads R release64 I D); [lia|lia|]. constructor. split; [vm_compute; split; congruence|].
  apply varint_dec; [vm_compute; split; congruence|vm_compute; reflexivity|cbn; lia|term].
Qed.
