(** Arithmetic lemmas: wrap-around, zigzag, base-128 digits. *)
From Coq Require Import ZifyBool ZifyNat ZifyN.
From Verif Require Import Base Uleb Protocol Types SpecCompact.
Ltac Zify.zify_post_hook ::= Z.div_mod_to_equations.

Lemma zlen_app {A} (l1 l2 : list A) : zlen (l1 ++ l2) = zlen l1 + zlen l2.
Proof. unfold zlen. rewrite app_length. lia. Qed.
Lemma zlen_cons {A} (a : A) l : zlen (a :: l) = 1 + zlen l.
Proof. unfold zlen. cbn [List.length]. lia. Qed.
Lemma zlen_nonneg {A} (l : list A) : 0 <= zlen l.
Proof. unfold zlen. lia. Qed.
Lemma zlen_nil {A} : zlen (@nil A) = 0.
Proof. reflexivity. Qed.

Lemma wrapu_id n z : 0 <= z < 2 ^ n -> wrapu n z = z.
Proof. intros H. unfold wrapu. apply Z.mod_small. exact H. Qed.

Lemma wrapu_range n z : 0 <= n -> 0 <= wrapu n z < 2 ^ n.
Proof. intros H. unfold wrapu. apply Z.mod_pos_bound. apply Z.pow_pos_nonneg; lia. Qed.

Lemma wraps_id n z : 0 < n -> - 2 ^ (n - 1) <= z < 2 ^ (n - 1) -> wraps n z = z.
Proof.
  intros Hn H. unfold wraps.
  assert (2 ^ n = 2 * 2 ^ (n - 1)) by (rewrite <- Z.pow_succ_r by lia; f_equal; lia).
  rewrite Z.mod_small; lia.
Qed.

Lemma wraps_range n z : 0 < n -> - 2 ^ (n - 1) <= wraps n z < 2 ^ (n - 1).
Proof.
  intros Hn. unfold wraps.
  assert (2 ^ n = 2 * 2 ^ (n - 1)) by (rewrite <- Z.pow_succ_r by lia; f_equal; lia).
  assert (0 < 2 ^ (n - 1)) by (apply Z.pow_pos_nonneg; lia).
  pose proof (Z.mod_pos_bound (z + 2 ^ (n - 1)) (2 ^ n)). lia.
Qed.

Lemma wraps_congr n z : 0 < n -> exists k, wraps n z = z + k * 2 ^ n.
Proof.
  intros Hn. unfold wraps.
  assert (0 < 2 ^ n) by (apply Z.pow_pos_nonneg; lia).
  exists (- ((z + 2 ^ (n - 1)) / 2 ^ n)).
  pose proof (Z.div_mod (z + 2 ^ (n - 1)) (2 ^ n)). lia.
Qed.

Lemma lxor_m1 a : Z.lxor a (-1) = - a - 1.
Proof. rewrite Z.lxor_m1_r. unfold Z.lnot. lia. Qed.

Lemma land_1 a : Z.land a 1 = a mod 2.
Proof. change 1 with (Z.ones 1). rewrite Z.land_ones by lia. reflexivity. Qed.
Lemma land_15 a : Z.land a 15 = a mod 16.
Proof. change 15 with (Z.ones 4). rewrite Z.land_ones by lia. reflexivity. Qed.
Lemma land_127 a : Z.land a 127 = a mod 128.
Proof. change 127 with (Z.ones 7). rewrite Z.land_ones by lia. reflexivity. Qed.

Lemma shiftr_div a n : 0 <= n -> Z.shiftr a n = a / 2 ^ n.
Proof. intros. apply Z.shiftr_div_pow2. lia. Qed.
Lemma shiftl_mul a n : 0 <= n -> Z.shiftl a n = a * 2 ^ n.
Proof. intros. apply Z.shiftl_mul_pow2. lia. Qed.

(** Byte facts by exhaustive check over the 256 bytes, lifted to all bytes. *)
Definition all_bytes : list Z := map Z.of_nat (seq 0 256).
Lemma all_bytes_in b : is_byte b -> In b all_bytes.
Proof.
  intros H. unfold all_bytes, is_byte in *. apply in_map_iff. exists (Z.to_nat b).
  split; [lia|]. apply in_seq. lia.
Qed.
Lemma byte_forall (P : Z -> bool) : forallb P all_bytes = true -> forall b, is_byte b -> P b = true.
Proof. intros H b Hb. rewrite forallb_forall in H. apply H. apply all_bytes_in. exact Hb. Qed.

Lemma land_128_0 b : is_byte b -> (Z.land b 128 =? 0) = (b <? 128).
Proof.
  intros Hb.
  apply (byte_forall (fun b => Bool.eqb (Z.land b 128 =? 0) (b <? 128))) in Hb; [|vm_compute; reflexivity].
  apply Bool.eqb_prop in Hb. exact Hb.
Qed.

Lemma list_nibbles b : is_byte b -> Z.shiftr (Z.land b 240) 4 = b / 16.
Proof.
  intros Hb.
  apply (byte_forall (fun b => Z.shiftr (Z.land b 240) 4 =? b / 16)) in Hb; [|vm_compute; reflexivity].
  lia.
Qed.

(** [ty | (n << 4)] for nibbles. *)
Lemma nibble_lor t n : 0 <= t < 16 -> 0 <= n < 16 -> Z.lor t (wrapu 8 (Z.shiftl (wrapu 8 n) 4)) = 16 * n + t.
Proof.
  intros Ht Hn.
  assert (H : forallb (fun t => forallb (fun n => Z.lor t (wrapu 8 (Z.shiftl (wrapu 8 n) 4)) =? 16 * n + t)
                          (map Z.of_nat (seq 0 16))) (map Z.of_nat (seq 0 16)) = true)
    by (vm_compute; reflexivity).
  rewrite forallb_forall in H.
  specialize (H t). rewrite forallb_forall in H.
  assert (In t (map Z.of_nat (seq 0 16))) as Hin.
  { apply in_map_iff. exists (Z.to_nat t). split; [lia|]. apply in_seq. lia. }
  specialize (H Hin n).
  assert (In n (map Z.of_nat (seq 0 16))) as Hin'.
  { apply in_map_iff. exists (Z.to_nat n). split; [lia|]. apply in_seq. lia. }
  specialize (H Hin'). lia.
Qed.
Lemma lor_240 t : 0 <= t < 16 -> Z.lor t 240 = 240 + t.
Proof.
  intros Ht.
  assert (H : forallb (fun t => Z.lor t 240 =? 240 + t) (map Z.of_nat (seq 0 16)) = true)
    by (vm_compute; reflexivity).
  rewrite forallb_forall in H. specialize (H t).
  assert (In t (map Z.of_nat (seq 0 16))) as Hin.
  { apply in_map_iff. exists (Z.to_nat t). split; [lia|]. apply in_seq. lia. }
  specialize (H Hin). lia.
Qed.

(** Disjoint or is addition. *)
Lemma lor_add a b n : 0 <= n -> 0 <= a < 2 ^ n -> b mod 2 ^ n = 0 -> Z.lor a b = a + b.
Proof.
  intros Hn Ha Hb.
  assert (Hl : Z.land a b = 0).
  { apply Z.bits_inj'. intros i Hi. rewrite Z.land_spec, Z.bits_0.
    destruct (Z.lt_ge_cases i n) as [Hlt|Hge].
    - rewrite <- (Z.mod_pow2_bits_low b n i) by lia. rewrite Hb, Z.bits_0. apply andb_false_r.
    - replace a with (a mod 2 ^ n) by (apply Z.mod_small; lia).
      rewrite Z.mod_pow2_bits_high by lia. reflexivity. }
  rewrite <- Z.lxor_lor by exact Hl. rewrite <- Z.add_nocarry_lxor by exact Hl. reflexivity.
Qed.

(** * Zigzag *)
Definition unzigzag (u : Z) : Z := if Z.even u then u / 2 else - (u / 2) - 1.

Lemma unzigzag_zigzag n : unzigzag (zigzag n) = n.
Proof.
  unfold unzigzag, zigzag. destruct (0 <=? n) eqn:H.
  - rewrite Z.even_mul. cbn [Z.even orb]. lia.
  - replace (- 2 * n - 1) with (1 + 2 * (- n - 1)) by lia.
    rewrite Z.even_add_mul_2. cbn [Z.even]. lia.
Qed.

Lemma zigzag_nonneg n : 0 <= zigzag n.
Proof. unfold zigzag. destruct (0 <=? n) eqn:H; lia. Qed.

Lemma zigzag_range b n : 0 < b -> in_s b n -> 0 <= zigzag n < 2 ^ b.
Proof.
  intros Hb [H1 H2]. unfold zigzag.
  assert (2 ^ b = 2 * 2 ^ (b - 1)) by (rewrite <- Z.pow_succ_r by lia; f_equal; lia).
  destruct (0 <=? n) eqn:H0; lia.
Qed.

Lemma unzigzag_range b u : 0 < b -> 0 <= u < 2 ^ b -> in_s b (unzigzag u).
Proof.
  intros Hb Hu. unfold unzigzag, in_s.
  assert (2 ^ b = 2 * 2 ^ (b - 1)) by (rewrite <- Z.pow_succ_r by lia; f_equal; lia).
  destruct (Z.even u); lia.
Qed.

Lemma zigzag_decode_gen b u :
  1 < b -> 0 <= u < 2 ^ b ->
  Z.lxor (wraps b (Z.shiftr u 1)) (- (Z.land u 1)) = unzigzag u.
Proof.
  intros Hb Hu.
  assert (2 ^ b = 2 * 2 ^ (b - 1)) by (rewrite <- Z.pow_succ_r by lia; f_equal; lia).
  rewrite shiftr_div, land_1 by lia. change (2 ^ 1) with 2.
  rewrite wraps_id by lia.
  unfold unzigzag. pose proof (Z.mod_pos_bound u 2 eq_refl) as Hm.
  rewrite Zeven_mod. unfold Zeq_bool.
  assert (u mod 2 = 0 \/ u mod 2 = 1) as [Hc|Hc] by (clear -Hm; lia); rewrite Hc; cbn [Z.compare].
  - apply Z.lxor_0_r.
  - rewrite lxor_m1. reflexivity.
Qed.

Lemma zigzag_decode16_spec u : 0 <= u < 2 ^ 16 -> zigzag_decode16 u = unzigzag u.
Proof. intros. apply zigzag_decode_gen; lia. Qed.
Lemma zigzag_decode32_spec u : 0 <= u < 2 ^ 32 -> zigzag_decode32 u = unzigzag u.
Proof. intros. apply zigzag_decode_gen; lia. Qed.
Lemma zigzag_decode64_spec u : 0 <= u < 2 ^ 64 -> zigzag_decode64 u = unzigzag u.
Proof. intros. apply zigzag_decode_gen; lia. Qed.

Lemma zigzag_encode_gen b n :
  1 < b -> in_s b n ->
  wrapu b (Z.lxor (wraps b (Z.shiftl n 1)) (Z.shiftr n (b - 1))) = zigzag n.
Proof.
  intros Hb [H1 H2].
  assert (E2 : 2 ^ b = 2 * 2 ^ (b - 1)) by (rewrite <- Z.pow_succ_r by lia; f_equal; lia).
  assert (0 < 2 ^ (b - 1)) by (apply Z.pow_pos_nonneg; lia).
  rewrite shiftl_mul, shiftr_div by lia. change (2 ^ 1) with 2.
  destruct (wraps_congr b (n * 2)) as [k Hk]; [lia|].
  unfold zigzag. destruct (0 <=? n) eqn:H0.
  - rewrite Z.div_small by lia. rewrite Z.lxor_0_r, Hk. unfold wrapu.
    rewrite Z.mod_add by lia. rewrite Z.mod_small by lia. lia.
  - assert (n / 2 ^ (b - 1) = -1) as ->.
    { symmetry. apply Z.div_unique with (r := n + 2 ^ (b - 1)); lia. }
    rewrite lxor_m1, Hk. unfold wrapu.
    replace (- (n * 2 + k * 2 ^ b) - 1) with (- 2 * n - 1 + (- k) * 2 ^ b) by lia.
    rewrite Z.mod_add by lia. apply Z.mod_small. lia.
Qed.
Lemma zigzag_encode16_spec n : in_s 16 n -> zigzag_encode16 n = zigzag n.
Proof. intros. apply (zigzag_encode_gen 16); [lia|assumption]. Qed.
Lemma zigzag_encode32_spec n : in_s 32 n -> zigzag_encode32 n = zigzag n.
Proof. intros. apply (zigzag_encode_gen 32); [lia|assumption]. Qed.
Lemma zigzag_encode64_spec n : in_s 64 n -> zigzag_encode64 n = zigzag n.
Proof. intros. apply (zigzag_encode_gen 64); [lia|assumption]. Qed.

(** * Digits *)
Lemma digits128_nonneg bs : 0 <= digits128 bs.
Proof. induction bs as [|b bs IH]; cbn [digits128]; lia. Qed.

Lemma terminated_bytes bs : terminated bs -> bytes bs.
Proof.
  induction 1 as [b H|b bs H H' IH]; unfold bytes in *.
  - repeat constructor; lia.
  - constructor; [unfold is_byte; lia|assumption].
Qed.

Lemma terminated_nonempty bs : terminated bs -> (1 <= List.length bs)%nat.
Proof. destruct 1; cbn [List.length]; lia. Qed.

Lemma digits128_bound bs : digits128 bs < 2 ^ (7 * zlen bs).
Proof.
  induction bs as [|b bs IH]; [reflexivity|].
  cbn [digits128]. rewrite zlen_cons.
  replace (7 * (1 + zlen bs)) with (7 + 7 * zlen bs) by lia.
  pose proof (zlen_nonneg bs).
  rewrite Z.pow_add_r by lia. change (2 ^ 7) with 128. lia.
Qed.

(** Little-endian bytes. *)
Lemma le_bytes_length n z : List.length (le_bytes n z) = n.
Proof. revert z; induction n as [|n IH]; intros z; cbn [le_bytes List.length]; [reflexivity|]. now rewrite IH. Qed.
Lemma le_bytes_bytes n z : bytes (le_bytes n z).
Proof.
  revert z; induction n as [|n IH]; intros z; cbn [le_bytes]; constructor; [|apply IH].
  unfold is_byte. lia.
Qed.
Lemma from_le_bytes_digits l : from_le_bytes l = digits256 l.
Proof. induction l as [|b l IH]; cbn [from_le_bytes digits256]; [reflexivity|]. now rewrite IH. Qed.
Lemma digits256_le_bytes n z : 0 <= z < 256 ^ (Z.of_nat n) -> digits256 (le_bytes n z) = z.
Proof.
  revert z; induction n as [|n IH]; intros z Hz.
  - cbn in *. lia.
  - cbn [le_bytes digits256]. rewrite IH; [lia|].
    rewrite Nat2Z.inj_succ, Z.pow_succ_r in Hz by lia. lia.
Qed.
Lemma digits256_range l : bytes l -> 0 <= digits256 l < 256 ^ (zlen l).
Proof.
  induction 1 as [|b l Hb Hl IH]; [cbn; lia|].
  cbn [digits256]. rewrite zlen_cons. pose proof (zlen_nonneg l).
  rewrite Z.pow_add_r by lia. change (256 ^ 1) with 256. unfold is_byte in Hb. lia.
Qed.
