(** Writing into a Vec<u8>: exact outcome and conformance of the bytes. *)
From Coq Require Import ZifyBool ZifyNat ZifyN.
From Verif Require Import Base Uleb Utf8 Protocol Encodings Types SpecUtf8 SpecCompact Schema Typing
  P_Arith P_Reads P_Inputs P_Gen P_Fill.
Ltac Zify.zify_post_hook ::= Z.div_mod_to_equations.

(** [puts m bs o]: [m] appends [bs] and returns [o]. *)
Definition puts {A} (m : M (list Z) A) (bs : list Z) (o : outcome A) : Prop :=
  forall w, m w = (w ++ bs, o).

Lemma puts_ret {A} (a : A) : puts (ret a) [] (Ok a).
Proof. intros w. unfold ret. now rewrite app_nil_r. Qed.
Lemma puts_fail {A} e : puts (@fail _ A e) [] (Err e).
Proof. intros w. unfold fail. now rewrite app_nil_r. Qed.
Lemma puts_all bs : puts (vec_write_all bs) bs (Ok tt).
Proof. intros w. reflexivity. Qed.
Lemma puts_byte b : puts (write_byte vec_write_all b) [b] (Ok tt).
Proof. apply puts_all. Qed.
Lemma puts_bind {A B} (m : M (list Z) A) (f : A -> M (list Z) B) b1 b2 a o :
  puts m b1 (Ok a) -> puts (f a) b2 o -> puts (bind m f) (b1 ++ b2) o.
Proof. intros H1 H2 w. unfold bind. rewrite H1, H2, app_assoc. reflexivity. Qed.
Lemma puts_bind_err {A B} (m : M (list Z) A) (f : A -> M (list Z) B) b1 e :
  puts m b1 (Err e) -> puts (bind m f) b1 (Err e).
Proof. intros H1 w. unfold bind. rewrite H1. reflexivity. Qed.

(** * Varints *)
Fixpoint leb (fuel : nat) (n : Z) : list Z :=
  match fuel with
  | O => []
  | Datatypes.S f => if 127 <? n then 128 + n mod 128 :: leb f (n / 128) else [n]
  end.

Lemma lor_128 n : 0 <= n -> Z.lor (wrapu 8 n) 128 = 128 + n mod 128.
Proof.
  intros Hn. unfold wrapu. change (2 ^ 8) with 256.
  assert (Hb : is_byte (n mod 256)) by (unfold is_byte; lia).
  apply (byte_forall (fun b => Z.lor b 128 =? 128 + b mod 128)) in Hb; [|vm_compute; reflexivity].
  apply Z.eqb_eq in Hb. rewrite Hb. lia.
Qed.

Lemma encode_loop_puts fuel : forall n, 0 <= n < 128 ^ Z.of_nat fuel -> 0 < Z.of_nat fuel ->
  puts (encode_uleb_loop (write_byte vec_write_all) fuel n) (leb fuel n) (Ok tt).
Proof.
  induction fuel as [|fuel IH]; intros n Hn Hf; [lia|]. cbn [encode_uleb_loop leb].
  rewrite Nat2Z.inj_succ, Z.pow_succ_r in Hn by lia.
  destruct (127 <? n) eqn:Hgt.
  - rewrite lor_128 by lia. rewrite shiftr_div by lia. change (2 ^ 7) with 128.
    change (128 + n mod 128 :: leb fuel (n / 128)) with ([128 + n mod 128] ++ leb fuel (n / 128)).
    eapply puts_bind; [apply puts_byte|].
    destruct fuel as [|fuel]; [cbn in Hn; lia|]. apply IH; lia.
  - unfold wrapu. change (2 ^ 8) with 256. replace (n mod 256) with n by lia. apply puts_byte.
Qed.

Lemma leb_terminated fuel : forall n, 0 <= n < 128 ^ Z.of_nat fuel -> 0 < Z.of_nat fuel -> terminated (leb fuel n).
Proof.
  induction fuel as [|fuel IH]; intros n Hn Hf; [lia|]. cbn [leb].
  rewrite Nat2Z.inj_succ, Z.pow_succ_r in Hn by lia.
  destruct (127 <? n) eqn:Hgt; [|constructor; lia].
  constructor; [lia|]. destruct fuel as [|fuel]; [cbn in Hn; lia|]. apply IH; lia.
Qed.
Lemma leb_digits fuel : forall n, 0 <= n < 128 ^ Z.of_nat fuel -> 0 < Z.of_nat fuel -> digits128 (leb fuel n) = n.
Proof.
  induction fuel as [|fuel IH]; intros n Hn Hf; [lia|]. cbn [leb].
  rewrite Nat2Z.inj_succ, Z.pow_succ_r in Hn by lia.
  destruct (127 <? n) eqn:Hgt; cbn [digits128].
  - destruct fuel as [|fuel]; [cbn in Hn; lia|]. rewrite IH by lia. lia.
  - lia.
Qed.
Lemma leb_length fuel n : (List.length (leb fuel n) <= fuel)%nat.
Proof.
  revert n. induction fuel as [|fuel IH]; intros n; cbn [leb List.length]; [lia|].
  destruct (127 <? n); cbn [List.length]; [specialize (IH (n / 128)); lia|lia].
Qed.

(** A byte count that suffices for [n] is enough for its canonical form. *)
Lemma leb_length_bound fuel : forall k n, 0 <= n < 128 ^ Z.of_nat k -> (1 <= k)%nat ->
  (List.length (leb fuel n) <= k)%nat.
Proof.
  induction fuel as [|fuel IH]; intros k n Hn Hk; cbn [leb List.length]; [lia|].
  destruct (127 <? n) eqn:Hgt; cbn [List.length]; [|lia].
  destruct k as [|[|k]]; [lia|cbn in Hn; lia|].
  rewrite Nat2Z.inj_succ, Z.pow_succ_r in Hn by lia.
  specialize (IH (Datatypes.S k) (n / 128)). lia.
Qed.

Lemma leb_minimal fuel n bs :
  0 <= n -> digits128 bs = n -> terminated bs -> (List.length (leb fuel n) <= List.length bs)%nat.
Proof.
  intros Hn Hd Ht. pose proof (terminated_nonempty _ Ht). apply leb_length_bound; [|lia].
  pose proof (digits128_bound bs) as Hb. rewrite Hd in Hb. split; [exact Hn|].
  unfold zlen in Hb. replace (128 ^ Z.of_nat (List.length bs)) with (2 ^ (7 * Z.of_nat (List.length bs))); [exact Hb|].
  rewrite Z.pow_mul_r by lia. reflexivity.
Qed.

Lemma pow_10 : 2 ^ 64 < 128 ^ Z.of_nat 10.
Proof. vm_compute. reflexivity. Qed.

Lemma encode_uleb_puts n : 0 <= n < 2 ^ 64 ->
  puts (encode_uleb (write_byte vec_write_all) n) (leb 10 n) (Ok tt).
Proof. intros. pose proof pow_10. apply encode_loop_puts; lia. Qed.

Lemma leb_varint n : 0 <= n < 2 ^ 64 -> varint n (leb 10 n).
Proof.
  intros H. pose proof pow_10. repeat split; try lia.
  - apply leb_terminated; lia.
  - apply leb_digits; lia.
  - apply leb_length.
Qed.

Lemma write_len_puts n : 0 <= n < 2 ^ 64 -> puts (write_len vec_write_all n) (leb 10 n) (Ok tt).
Proof. intros H. unfold write_len. rewrite wrapu_id by exact H. apply encode_uleb_puts. exact H. Qed.

Lemma write_i16_puts z : in_s 16 z -> puts (write_i16 vec_write_all z) (leb 10 (zigzag z)) (Ok tt).
Proof.
  intros H. unfold write_i16. rewrite zigzag_encode16_spec by exact H.
  pose proof (zigzag_range 16 z ltac:(lia) H). apply encode_uleb_puts. lia.
Qed.
Lemma write_i32_puts z : in_s 32 z -> puts (write_i32 vec_write_all z) (leb 10 (zigzag z)) (Ok tt).
Proof.
  intros H. unfold write_i32. rewrite zigzag_encode32_spec by exact H.
  pose proof (zigzag_range 32 z ltac:(lia) H). apply encode_uleb_puts. lia.
Qed.
Lemma write_i64_puts z : in_s 64 z -> puts (write_i64 vec_write_all z) (leb 10 (zigzag z)) (Ok tt).
Proof.
  intros H. unfold write_i64. rewrite zigzag_encode64_spec by exact H.
  pose proof (zigzag_range 64 z ltac:(lia) H). apply encode_uleb_puts. lia.
Qed.
Lemma zz_leb b z : 0 < b <= 64 -> in_s b z -> zz_int b z (leb 10 (zigzag z)).
Proof.
  intros Hb H. split; [exact H|]. apply leb_varint. pose proof (zigzag_range b z ltac:(lia) H).
  assert (2 ^ b <= 2 ^ 64) by (apply Z.pow_le_mono_r; lia). lia.
Qed.

(** * Binaries *)
Lemma write_binary_puts l :
  puts (write_binary vec_write_all l)
       (if 16777216 <? zlen l then [] else leb 10 (zlen l) ++ l)
       (result_of (if 16777216 <? zlen l then Some (InvalidBinaryLen (zlen l)) else None)).
Proof.
  unfold write_binary. change MAX_BINARY_LEN with 16777216.
  destruct (16777216 <? zlen l) eqn:H; [apply puts_fail|].
  pose proof (zlen_nonneg l). eapply puts_bind; [apply write_len_puts; lia|apply puts_all].
Qed.
Lemma binary_leb l : bytes l -> (16777216 <? zlen l) = false -> binary l (leb 10 (zlen l) ++ l).
Proof.
  intros Hb H. exists (leb 10 (zlen l)). pose proof (zlen_nonneg l).
  split; [reflexivity|]. split; [apply leb_varint; lia|]. split; [lia|exact Hb].
Qed.

(** * Headers *)
Lemma write_list_header_puts ft len : 0 <= ft < 16 -> 0 <= len < 2 ^ 64 ->
  puts (write_list_header vec_write_all ft len)
       (if len <? 15 then [16 * len + ft] else (240 + ft) :: leb 10 len) (Ok tt).
Proof.
  intros Hft Hlen. unfold write_list_header. destruct (len <? 15) eqn:H.
  - rewrite nibble_lor by lia. apply puts_byte.
  - rewrite lor_240 by lia. change ((240 + ft) :: leb 10 len) with ([240 + ft] ++ leb 10 len).
    eapply puts_bind; [apply puts_byte|apply write_len_puts; exact Hlen].
Qed.
Lemma list_header_canonical ft len : 0 <= len <= 10000000 ->
  list_header len ft (if len <? 15 then [16 * len + ft] else (240 + ft) :: leb 10 len).
Proof.
  intros H. destruct (len <? 15) eqn:Hl; [constructor; lia|]. constructor; [lia|]. apply leb_varint. lia.
Qed.

(** What [write_field_header] emits, for all ids. *)
Definition header_bytes (ft id last : Z) : list Z :=
  let delta := wraps 16 (id - last) in
  if 15 <? delta then ft :: leb 10 (zigzag delta)
  else [Z.lor ft (wrapu 8 (Z.shiftl (wrapu 8 delta) 4))].

Lemma write_field_header_puts ft id last :
  puts (write_field_header vec_write_all ft id last) (header_bytes ft id last) (Ok id).
Proof.
  unfold write_field_header, header_bytes. set (delta := wraps 16 (id - last)).
  assert (in_s 16 delta) by (apply wraps_range; lia).
  rewrite <- (app_nil_r (if 15 <? delta then _ else _)).
  eapply puts_bind; [|apply puts_ret].
  destruct (15 <? delta).
  - change (ft :: leb 10 (zigzag delta)) with ([ft] ++ leb 10 (zigzag delta)).
    eapply puts_bind; [apply puts_byte|apply write_i16_puts; assumption].
  - apply puts_byte.
Qed.

Lemma header_bytes_ok ft id last :
  1 <= ft < 16 -> header_ok last id = true -> field_header last id ft (header_bytes ft id last).
Proof.
  intros Hft H. unfold header_ok in H. unfold header_bytes.
  rewrite wraps_id by lia.
  destruct (15 <? id - last) eqn:H15.
  - assert (last = 0) as -> by lia. rewrite Z.sub_0_r. constructor.
    apply zz_leb; [lia|unfold in_s; lia].
  - rewrite nibble_lor by lia. constructor; lia.
Qed.

(** * EncodingSet *)
Lemma tz_bits n : forall x, 0 < x < 2 ^ Z.of_nat n ->
  let k := trailing_zeros_from n x in
  0 <= k < Z.of_nat n /\ Z.testbit x k = true /\ (forall j, 0 <= j < k -> Z.testbit x j = false).
Proof.
  induction n as [|n IH]; intros x Hx; [cbn in Hx; lia|]. cbn [trailing_zeros_from].
  rewrite Nat2Z.inj_succ, Z.pow_succ_r in Hx by lia.
  destruct (Z.testbit x 0) eqn:H0.
  - cbv zeta. split; [lia|]. split; [exact H0|]. intros. lia.
  - assert (Hodd : x mod 2 = 0).
    { rewrite Z.bit0_mod in H0 || idtac. rewrite Z.bit0_odd in H0. rewrite Zmod_odd, H0. reflexivity. }
    assert (Hs : Z.shiftr x 1 = x / 2) by (rewrite shiftr_div by lia; reflexivity).
    destruct (IH (Z.shiftr x 1)) as (H1 & H2 & H3); [rewrite Hs; lia|].
    cbv zeta in *. set (k := trailing_zeros_from n (Z.shiftr x 1)) in *.
    split; [lia|]. split.
    + rewrite Z.shiftr_spec in H2 by lia. rewrite Z.add_comm. exact H2.
    + intros j Hj. destruct (Z.eq_dec j 0) as [->|Hj0]; [exact H0|].
      specialize (H3 (j - 1) ltac:(lia)). rewrite Z.shiftr_spec in H3 by lia.
      replace (j - 1 + 1) with j in H3 by lia. exact H3.
Qed.

(** Clearing the lowest set bit. *)
Lemma clear_lowest x k : 0 < x -> 0 <= k -> Z.testbit x k = true -> (forall j, 0 <= j < k -> Z.testbit x j = false) ->
  forall j, 0 <= j -> Z.testbit (Z.land x (x - 1)) j = Z.testbit x j && negb (j =? k).
Proof.
  intros Hx Hk Hbit Hlow.
  assert (Hdiv : x mod 2 ^ k = 0).
  { apply Z.bits_inj'. intros j Hj. rewrite Z.bits_0. destruct (Z.lt_ge_cases j k).
    - rewrite Z.mod_pow2_bits_low by lia. apply Hlow. lia.
    - apply Z.mod_pow2_bits_high. lia. }
  assert (Hp : 0 < 2 ^ k) by (apply Z.pow_pos_nonneg; lia).
  set (q := x / 2 ^ k).
  assert (Hxq : x = q * 2 ^ k) by (unfold q; pose proof (Z.div_mod x (2 ^ k)); lia).
  assert (Hqodd : Z.odd q = true).
  { rewrite <- Z.bit0_odd. unfold q. rewrite <- Z.shiftr_div_pow2 by lia. rewrite Z.shiftr_spec by lia. exact Hbit. }
  assert (Hx1 : x - 1 = (q - 1) * 2 ^ k + Z.ones k).
  { rewrite Z.ones_equiv. lia. }
  intros j Hj. rewrite Z.land_spec. destruct (Z.lt_ge_cases j k) as [Hlt|Hge].
  - rewrite Hlow by lia. reflexivity.
  - assert (Hb1 : Z.testbit (x - 1) j = Z.testbit (q - 1) (j - k)).
    { rewrite Hx1. replace j with (j - k + k) at 1 by lia.
      rewrite <- Z.shiftr_spec by lia. rewrite Z.shiftr_div_pow2 by lia. f_equal.
      rewrite Z.ones_equiv. symmetry. apply Z.div_unique with (r := Z.pred (2 ^ k)); lia. }
    assert (Hb0 : Z.testbit x j = Z.testbit q (j - k)).
    { rewrite Hxq at 1. rewrite <- Z.shiftl_mul_pow2 by lia. apply Z.shiftl_spec. lia. }
    rewrite Hb1, Hb0.
    destruct (j =? k) eqn:Hjk.
    + replace (j - k) with 0 by lia. rewrite !Z.bit0_odd, Hqodd.
      replace (q - 1) with (Z.pred q) by lia. rewrite Z.odd_pred, <- Z.negb_odd, Hqodd. reflexivity.
    + rewrite andb_true_r.
      assert (q - 1 = 2 * (q / 2)) as Hq1.
      { rewrite Zodd_mod in Hqodd. unfold Zeq_bool in Hqodd. destruct (q mod 2 ?= 1) eqn:Hcmp; try discriminate.
        apply Z.compare_eq in Hcmp. lia. }
      assert (Z.testbit (q - 1) (j - k) = Z.testbit q (j - k)) as ->; [|apply andb_diag].
      replace (j - k) with (Z.succ (j - k - 1)) by lia. rewrite Hq1, Z.double_bits_succ.
      rewrite <- Z.div2_bits by lia. rewrite <- Z.div2_div. reflexivity.
Qed.

(** The set bits below [n] in ascending order. *)
Fixpoint bits_from (n : nat) (k : Z) (mask : Z) : list Z :=
  match n with
  | O => []
  | Datatypes.S n' => (if Z.testbit mask k then [k] else []) ++ bits_from n' (k + 1) mask
  end.

Lemma bits_from_In n : forall k mask x, In x (bits_from n k mask) <-> k <= x < k + Z.of_nat n /\ Z.testbit mask x = true.
Proof.
  induction n as [|n IH]; intros k mask x; cbn [bits_from].
  - cbn [In]. lia.
  - rewrite in_app_iff, IH. destruct (Z.testbit mask k) eqn:Hb; cbn [In].
    + split; [intros [[<-|[]]|[]]; [split; [lia|exact Hb]|split; [lia|assumption]]|].
      intros [Hr Hx]. destruct (Z.eq_dec k x); [left; left; assumption|right; split; [lia|exact Hx]].
    + split; [intros [[]|[]]; split; [lia|assumption]|].
      intros [Hr Hx]. right. split; [|exact Hx]. assert (k <> x) by congruence. lia.
Qed.

Lemma bits_from_ext n : forall k m m', (forall j, k <= j -> Z.testbit m j = Z.testbit m' j) -> bits_from n k m = bits_from n k m'.
Proof.
  induction n as [|n IH]; intros k m m' H; cbn [bits_from]; [reflexivity|].
  rewrite H by lia. f_equal. apply IH. intros. apply H. lia.
Qed.

(** If the lowest set bit at or above [k] is [j], the list starts with [j]. *)
Lemma bits_from_lowest n : forall k m j, k <= j < k + Z.of_nat n -> Z.testbit m j = true ->
  (forall i, k <= i < j -> Z.testbit m i = false) ->
  bits_from n k m = j :: bits_from (Z.to_nat (k + Z.of_nat n - j - 1)) (j + 1) m.
Proof.
  induction n as [|n IH]; intros k m j Hj Hb Hlow; [lia|]. cbn [bits_from].
  destruct (Z.eq_dec k j) as [->|Hne].
  - rewrite Hb. cbn [app]. do 2 f_equal. lia.
  - rewrite Hlow by lia. cbn [app]. rewrite IH with (j := j); [|lia|exact Hb|intros; apply Hlow; lia].
    do 2 f_equal. lia.
Qed.

Lemma bits_from_zero n k m : (forall j, k <= j < k + Z.of_nat n -> Z.testbit m j = false) -> bits_from n k m = [].
Proof.
  revert k. induction n as [|n IH]; intros k H; cbn [bits_from]; [reflexivity|].
  rewrite H by lia. cbn [app]. apply IH. intros. apply H. lia.
Qed.

Lemma mask_bits_high m j n : 0 <= n -> 0 <= m < 2 ^ n -> n <= j -> Z.testbit m j = false.
Proof.
  intros Hn Hm Hj. rewrite <- (Z.mod_small m (2 ^ n)) by lia. apply Z.mod_pow2_bits_high. lia.
Qed.

Lemma encset_iter_go_spec fuel : forall m k,
  0 <= k <= 32 -> in_u 32 m -> (forall j, 0 <= j < k -> Z.testbit m j = false) ->
  32 - k <= Z.of_nat fuel ->
  encset_iter_go fuel m = bits_from (Z.to_nat (32 - k)) k m.
Proof.
  induction fuel as [|fuel IH]; intros m k Hk Hm Hlow Hf; unfold in_u in Hm; cbn [encset_iter_go].
  - replace (Z.to_nat (32 - k)) with O by lia. reflexivity.
  - destruct (m =? 0) eqn:H0.
    + assert (m = 0) as -> by lia. symmetry. apply bits_from_zero. intros. apply Z.bits_0.
    + destruct (tz_bits 32 m) as (H1 & H2 & H3); [lia|].
      fold (trailing_zeros32 m) in *. set (j := trailing_zeros32 m) in *.
      assert (Hkj : k <= j).
      { destruct (Z.lt_ge_cases j k) as [Hlt|]; [|assumption]. rewrite Hlow in H2 by lia. discriminate. }
      rewrite (bits_from_lowest (Z.to_nat (32 - k)) k m j); [|lia|exact H2|intros; apply H3; lia].
      f_equal.
      pose proof (clear_lowest m j ltac:(lia) ltac:(lia) H2 H3) as Hcl.
      rewrite (IH (Z.land m (m - 1)) (j + 1)); [|lia| | |lia].
      * replace (Z.to_nat (k + Z.of_nat (Z.to_nat (32 - k)) - j - 1)) with (Z.to_nat (32 - (j + 1))) by lia.
        apply bits_from_ext. intros i Hi. rewrite Hcl by lia. replace (i =? j) with false by lia. apply andb_true_r.
      * unfold in_u. split.
        -- apply Z.land_nonneg. lia.
        -- assert (Z.land m (m - 1) <= m); [|lia].
           assert (Hle : Z.ldiff m (Z.land m (m - 1)) = m - Z.land m (m - 1)).
           { symmetry. apply Z.sub_nocarry_ldiff. apply Z.bits_inj'. intros i Hi.
             rewrite Z.ldiff_spec, Z.land_spec, Z.bits_0. destruct (Z.testbit m i), (Z.testbit (m - 1) i); reflexivity. }
           assert (0 <= Z.ldiff m (Z.land m (m - 1))) by (apply Z.ldiff_nonneg; left; lia). lia.
      * intros i Hi. rewrite Hcl by lia. destruct (Z.eq_dec i j) as [->|Hne]; [rewrite Z.eqb_refl; apply andb_false_r|].
        rewrite H3 by lia. reflexivity.
Qed.

Lemma encset_iter_bits m : in_u 32 m -> encset_iter m = bits_from 32 0 m.
Proof. intros Hm. unfold encset_iter. rewrite (encset_iter_go_spec 32 m 0); [reflexivity|lia|exact Hm|lia|lia]. Qed.

Lemma count_ones_bits n : forall k m, 0 <= k -> count_ones_go n (Z.shiftr m k) = zlen (bits_from n k m).
Proof.
  induction n as [|n IH]; intros k m Hk; cbn [count_ones_go bits_from]; [reflexivity|].
  rewrite zlen_app. rewrite Z.shiftr_shiftr by lia. rewrite IH by lia.
  rewrite Z.shiftr_spec by lia. rewrite Z.add_0_l. destruct (Z.testbit m k); reflexivity.
Qed.
Lemma encset_len_bits m : encset_len m = zlen (bits_from 32 0 m).
Proof. unfold encset_len. rewrite <- (Z.shiftr_0_r m) at 1. apply count_ones_bits. lia. Qed.

Lemma write_i32s_puts zs : Forall (in_s 32) zs ->
  puts (write_i32s vec_write_all zs) (flat_map (fun z => leb 10 (zigzag z)) zs) (Ok tt).
Proof.
  induction 1 as [|z zs Hz HF IH]; cbn [write_i32s flat_map]; [apply puts_ret|].
  eapply puts_bind; [apply write_i32_puts; exact Hz|exact IH].
Qed.

Lemma bits_from_length n k m : (List.length (bits_from n k m) <= n)%nat.
Proof.
  revert k. induction n as [|n IH]; intros k; cbn [bits_from]; [cbn; lia|].
  rewrite app_length. specialize (IH (k + 1)). destruct (Z.testbit m k); cbn [List.length]; lia.
Qed.

(** * Sizes of what is written *)
Definition vsize (n : Z) : Z := zlen (leb 10 n).
Definition lsize (n : Z) : Z := if n <? 15 then 1 else 1 + vsize n.
Definition hsize (last id : Z) : Z := if (1 <=? id - last) && (id - last <=? 15) then 1 else 1 + vsize (zigzag id).
Definition zsum (l : list Z) : Z := fold_right Z.add 0 l.
Fixpoint obool (v : value) : bool := match v with VBool _ => true | VSome w => obool w | _ => false end.
Definition fields_size (sz : value -> ty -> Z) : Z -> list field -> list value -> Z :=
  fix go (last : Z) (fs : list field) (vs : list value) {struct vs} : Z :=
    match vs, fs with
    | w :: vs', f :: fs' =>
        match f_req f, w with
        | false, VNone => go last fs' vs'
        | _, _ => hsize last (f_id f) + (if obool w then 0 else sz w (field_ty f)) + go (f_id f) fs' vs'
        end
    | _, _ => 0
    end.
Fixpoint csize (E : env) (v : value) (t : ty) {struct v} : Z :=
  match v, t with
  | VBool _, _ | VI8 _, _ => 1
  | VI16 z, _ | VI32 z, _ | VI64 z, _ => vsize (zigzag z)
  | VDouble _, _ => 8
  | VBin l, _ | VStr l, _ => vsize (zlen l) + zlen l
  | VVec vs, TVec t' => lsize (zlen vs) + zsum (map (fun w => csize E w t') vs)
  | VSome w, TOption t' | VBox w, TBox t' | VShared _ w, TShared t' => csize E w t'
  | VEncSet m, _ => lsize (zlen (bits_from 32 0 m)) + zlen (bits_from 32 0 m)
  | VStruct vs, TNamed n =>
      match lookup E n with
      | Some (DStruct fs) => fields_size (csize E) 0 fs vs + 1
      | _ => 0
      end
  | VUnion i w, TNamed n =>
      match lookup E n with
      | Some (DUnion fs) =>
          match nth_error fs i with
          | Some f => hsize 0 (f_id f) + (if obool w then 0 else csize E w (f_ty f)) + 1
          | None => 0
          end
      | _ => 0
      end
  | _, _ => 0
  end.

Lemma header_bytes_size ft id last : header_ok last id = true -> zlen (header_bytes ft id last) = hsize last id.
Proof.
  intros H. unfold header_ok in H. unfold header_bytes, hsize. rewrite wraps_id by lia.
  destruct (15 <? id - last) eqn:H15.
  - assert (last = 0) as -> by lia. rewrite Z.sub_0_r in *. unfold zlen, vsize, zlen. cbn [List.length].
    destruct ((1 <=? id) && (id <=? 15)) eqn:Hx; lia.
  - destruct ((1 <=? id - last) && (id - last <=? 15)) eqn:Hx; [reflexivity|lia].
Qed.
Lemma list_header_size ft n : zlen (if n <? 15 then [16 * n + ft] else (240 + ft) :: leb 10 n) = lsize n.
Proof. unfold lsize, vsize. destruct (n <? 15); [reflexivity|]. unfold zlen. cbn [List.length]. lia. Qed.
Lemma unshare_obool v : obool (unshare v) = obool v.
Proof. induction v; cbn [unshare obool]; auto. Qed.

Lemma encset_write_puts m : in_u 32 m ->
  exists hdr, list_header (zlen (bits_from 32 0 m)) 5 hdr /\ bytes hdr /\ zlen hdr = lsize (zlen (bits_from 32 0 m)) /\
  puts (encset_write vec_write_all m) (hdr ++ flat_map (fun z => leb 10 (zigzag z)) (bits_from 32 0 m)) (Ok tt).
Proof.
  intros Hm. unfold encset_write. rewrite encset_len_bits, encset_iter_bits by exact Hm.
  pose proof (bits_from_length 32 0 m) as Hlen.
  set (zs := bits_from 32 0 m) in *.
  assert (Hz : 0 <= zlen zs <= 32) by (unfold zlen; lia).
  exists (if zlen zs <? 15 then [16 * zlen zs + 5] else (240 + 5) :: leb 10 (zlen zs)).
  split; [apply list_header_canonical; lia|]. split.
  { destruct (zlen zs <? 15) eqn:H15; (constructor; [unfold is_byte; lia|]); [constructor|].
    apply terminated_bytes. apply leb_varint. lia. }
  split; [apply list_header_size|].
  eapply puts_bind; [apply (write_list_header_puts 5); lia|].
  apply write_i32s_puts. apply Forall_forall. intros x Hx. unfold zs in Hx. apply bits_from_In in Hx. unfold in_s. lia.
Qed.


Lemma encset_write_gencu unk strict E m : in_u 31 m ->
  exists bs, puts (encset_write vec_write_all m) bs (Ok tt) /\ bytes bs /\ gencu unk strict E TEncSet (VEncSet m) bs /\
    zlen bs = lsize (zlen (bits_from 32 0 m)) + zlen (bits_from 32 0 m).
Proof.
  intros Hm. assert (Hm' : in_u 32 m) by (unfold in_u in *; lia).
  destruct (encset_write_puts m Hm') as (hdr & Hh & Hhb & Hhs & Hp).
  set (zs := bits_from 32 0 m) in *.
  assert (Hzs : Forall (fun z => 0 <= z <= 30) zs).
  { apply Forall_forall. intros x Hx. unfold zs in Hx. apply bits_from_In in Hx as [Hr Hx].
    split; [lia|]. destruct (Z.eq_dec x 31) as [->|]; [|lia].
    rewrite (mask_bits_high m 31 31) in Hx; [discriminate|lia|exact Hm|lia]. }
  eexists. split; [exact Hp|]. split.
  { apply bytes_app. split; [exact Hhb|]. clear -Hzs.
    induction Hzs as [|z zs Hz HF IH]; cbn [flat_map]; [constructor|]. apply bytes_app. split; [|exact IH].
    apply terminated_bytes. apply leb_varint. unfold zigzag. destruct (0 <=? z) eqn:?; lia. }
  split.
  2: { rewrite zlen_app, Hhs. f_equal. fold zs. clear -Hzs.
       induction Hzs as [|z zs Hz HF IH]; cbn [flat_map]; [reflexivity|]. rewrite zlen_app, IH.
       assert (Hone : leb 10 (zigzag z) = [zigzag z]).
       { cbn [leb]. unfold zigzag. destruct (0 <=? z) eqn:?; destruct (127 <? _) eqn:?; try reflexivity; lia. }
       rewrite Hone. unfold zlen. cbn [List.length]. lia. }
  eapply gn_encset with (zs := zs).
  - exact Hzs.
  - unfold in_u in Hm; lia.
  - intros k Hk. unfold zs. rewrite bits_from_In. split; [|intros []; assumption].
    intros Hb. split; [|exact Hb]. destruct (Z.lt_ge_cases k 32); [lia|].
    rewrite (mask_bits_high m k 31) in Hb; [discriminate|lia|exact Hm|lia].
  - exact Hh.
  - clear -Hzs. induction Hzs as [|z zs Hz HF IH]; cbn [flat_map map]; constructor; [|exact IH].
    constructor. apply zz_leb; [lia|unfold in_s; lia].
Qed.

(** * The theorem *)
Definition seq_unwritable (b : bool) : list value -> option error :=
  fix all (vs : list value) :=
    match vs with [] => None | w :: vs' => first_some (unwritable b w) (all vs') end.

Definition zipw {W} (wa : list Z -> M W unit) (E : env) : list value -> list field -> list (wmethods W) :=
  fix zip (vs : list value) (fs : list field) : list (wmethods W) :=
    match vs, fs with
    | w :: vs', f :: fs' => writer wa E w (field_ty f) :: zip vs' fs'
    | w :: vs', [] => ill_typed :: zip vs' []
    | [], _ => []
    end.

Lemma typed_closed E :
  (forall t v, typed E t v -> ty_closed E t = true) /\ (forall t vs, typed_seq E t vs -> True)
  /\ (forall fs vs, typed_fields E fs vs -> True).
Proof.
  apply typed_mutind; intros; cbn [ty_closed]; try exact Logic.I; try reflexivity; try assumption.
  all: match goal with H : lookup _ _ = _ |- _ => rewrite H end; reflexivity.
Qed.

(** Is anything written for this value in field position? *)
Fixpoint absent (v : value) : bool :=
  match v with VNone => true | VSome w => absent w | _ => false end.

Lemma leb_bytes n : 0 <= n < 2 ^ 64 -> bytes (leb 10 n).
Proof. intros H. apply terminated_bytes. apply leb_varint. exact H. Qed.

Lemma header_bytes_bytes ft id last : 0 <= ft < 16 -> bytes (header_bytes ft id last).
Proof.
  intros Hft. unfold header_bytes. set (delta := wraps 16 (id - last)).
  assert (Hd : in_s 16 delta) by (apply wraps_range; lia).
  destruct (15 <? delta) eqn:H15.
  - constructor; [unfold is_byte; lia|]. apply leb_bytes.
    pose proof (zigzag_range 16 delta ltac:(lia) Hd). lia.
  - constructor; [|constructor].
    assert (Hw : wrapu 8 (Z.shiftl (wrapu 8 delta) 4) = 16 * (delta mod 16)).
    { unfold wrapu. rewrite Z.shiftl_mul_pow2 by lia. change (2 ^ 8) with 256. change (2 ^ 4) with 16. lia. }
    rewrite Hw, (lor_add ft _ 4) by lia. unfold is_byte. lia.
Qed.

Section Write.
  Variable E : env.
  Variable K : nat.
  Variables unk strict : bool.

  Definition safe : Prop := env_ok strict E K = true.

  Notation wr v t := (wplain (writer vec_write_all E v t)).
  Notation wrf v t := (wfield (writer vec_write_all E v t)).

  Definition plain_ok (t : ty) (v : value) : Prop :=
    exists bs, puts (wr v t) bs (result_of (unwritable false v)) /\ bytes bs /\
       (unwritable false v = None -> safe -> fits E v t = true ->
        gencu unk strict E t (unshare v) bs /\ zlen bs = csize E (unshare v) t).

  Definition field_result (v : value) (id last : Z) : outcome Z :=
    match unwritable true v with
    | Some e => Err e
    | None => Ok (if absent v then last else id)
    end.

  Definition field_good (t : ty) (v : value) : Prop :=
    forall id last, exists bs, puts (wrf v t id last) bs (field_result v id last) /\ bytes bs /\
      (absent v = true -> bs = []) /\
      (unwritable true v = None -> absent v = false -> safe -> fits E v t = true -> header_ok last id = true ->
       (strict = true -> bool_direct t = true) ->
       exists ft hdr payload, bs = hdr ++ payload /\ field_header last id ft hdr /\
         gencu_field unk strict E t (unshare v) ft payload /\
         zlen bs = hsize last id + (if obool v then 0 else csize E (unshare v) t)).

  Definition Q (t : ty) (v : value) : Prop := plain_ok t v /\ field_good t v.

  Definition Qs (t : ty) (vs : list value) : Prop :=
    exists bs, puts (write_items (map (fun w => writer vec_write_all E w t) vs)) bs (result_of (seq_unwritable false vs)) /\
      bytes bs /\ (seq_unwritable false vs = None -> safe -> forallb (fun w => fits E w t) vs = true ->
        gencu_seq unk strict E t (map unshare vs) bs /\ zlen bs = zsum (map (fun w => csize E w t) (map unshare vs))).

  Definition Qf (fs : list field) (vs : list value) : Prop :=
    forall last, exists bs, puts (write_fields (zipw vec_write_all E vs fs) fs last) bs (result_of (seq_unwritable true vs)) /\
      bytes bs /\ (seq_unwritable true vs = None -> safe ->
        (forall f, In f fs -> strict = true -> bool_direct (f_ty f) = true) ->
        fields_fit (fits E) last fs vs = true -> forall allfs,
        gencu_fields unk strict E allfs last (present fs (map unshare vs)) (bs ++ [0]) /\
        zlen bs = fields_size (csize E) last fs (map unshare vs)).

  Lemma Q_default t v :
    plain_ok t v -> typed E t v ->
    writer vec_write_all E v t = with_default vec_write_all (field_type E t) (wr v t) ->
    unwritable true v = unwritable false v -> absent v = false -> bool_or_option t = false -> Q t v.
  Proof.
    intros Hp Ht Hw Hu Ha Hb. split; [exact Hp|]. intros id last. destruct Hp as (bs & Hp & Hbs & Hg).
    pose proof (proj1 (typed_closed E) _ _ Ht) as Hc.
    rewrite (wire_code_field_type E t Hc) in Hw.
    pose proof (wire_code_range E t) as Hr.
    rewrite Hw. cbn [wfield with_default]. unfold default_wfield, field_result. rewrite Hu, Ha.
    exists (header_bytes (wire_code E t) id last ++ bs).
    split.
    - eapply puts_bind; [apply write_field_header_puts|].
      destruct (unwritable false v); cbn [result_of] in Hp.
      + eapply puts_bind_err. exact Hp.
      + rewrite <- (app_nil_r bs). eapply puts_bind; [exact Hp|apply puts_ret].
    - split; [apply bytes_app; split; [apply header_bytes_bytes; lia|exact Hbs]|].
      split; [discriminate|]. intros Hn _ Hs Hfit Hh Hd.
      exists (wire_code E t), (header_bytes (wire_code E t) id last), bs.
      split; [reflexivity|]. split; [apply header_bytes_ok; [lia|exact Hh]|].
      destruct (Hg Hn Hs Hfit) as [Hg1 Hg2]. split.
      2: { rewrite zlen_app, header_bytes_size by exact Hh. rewrite Hg2.
           replace (obool v) with false; [reflexivity|].
           destruct Ht; try reflexivity; discriminate. }
      apply gf_other; [exact Hb| |exact Hc|exact Hg1].
      intros Hst. specialize (Hd Hst). destruct t; cbn [bool_direct bool_or_option] in *; try discriminate;
        apply negb_true_iff; exact Hd.
  Qed.

  Lemma write_typed :
    (forall t v, typed E t v -> Q t v) /\ (forall t vs, typed_seq E t vs -> Qs t vs)
    /\ (forall fs vs, typed_fields E fs vs -> Qf fs vs).
  Proof.
    apply typed_mutind.
    - (* bool *)
      intros b. split.
      + exists [if b then 1 else 2]. split; [|split].
        * destruct b; cbn; apply puts_byte.
        * constructor; [destruct b; unfold is_byte; lia|constructor].
        * intros _ _ _. split; [destruct b; constructor; lia|reflexivity].
      + intros id last. exists (header_bytes (if b then 1 else 2) id last). split; [|split; [|split]].
        * destruct b; apply write_field_header_puts.
        * apply header_bytes_bytes. destruct b; lia.
        * discriminate.
        * intros _ _ _ _ Hh _. exists (if b then 1 else 2), (header_bytes (if b then 1 else 2) id last), [].
          split; [now rewrite app_nil_r|]. split; [apply header_bytes_ok; [destruct b; lia|exact Hh]|].
          split; [constructor|]. rewrite header_bytes_size by exact Hh. cbn [obool]. lia.
    - (* i8 *)
      intros z Hz. apply Q_default; try reflexivity; [|constructor; exact Hz].
      exists [wrapu 8 z]. split; [apply puts_byte|]. split.
      + constructor; [|constructor]. unfold is_byte, wrapu. lia.
      + intros _ _ _. split; [constructor; exact Hz|reflexivity].
    - intros z Hz. apply Q_default; try reflexivity; [|constructor; exact Hz].
      exists (leb 10 (zigzag z)). pose proof (zigzag_range 16 z ltac:(lia) Hz).
      split; [apply write_i16_puts; exact Hz|]. split; [apply leb_bytes; lia|].
      intros _ _ _. split; [constructor; apply zz_leb; [lia|exact Hz]|reflexivity].
    - intros z Hz. apply Q_default; try reflexivity; [|constructor; exact Hz].
      exists (leb 10 (zigzag z)). pose proof (zigzag_range 32 z ltac:(lia) Hz).
      split; [apply write_i32_puts; exact Hz|]. split; [apply leb_bytes; lia|].
      intros _ _ _. split; [constructor; apply zz_leb; [lia|exact Hz]|reflexivity].
    - intros z Hz. apply Q_default; try reflexivity; [|constructor; exact Hz].
      exists (leb 10 (zigzag z)). pose proof (zigzag_range 64 z ltac:(lia) Hz).
      split; [apply write_i64_puts; exact Hz|]. split; [apply leb_bytes; lia|].
      intros _ _ _. split; [constructor; apply zz_leb; [lia|exact Hz]|reflexivity].
    - (* double *)
      intros z Hz. apply Q_default; try reflexivity; [|constructor; exact Hz].
      exists (le_bytes 8 z). split; [apply puts_all|]. split; [apply le_bytes_bytes|].
      intros _ _ _. cbn [unshare]. split; [|unfold zlen; rewrite le_bytes_length; reflexivity].
      rewrite <- (digits256_le_bytes 8 z) at 1.
      + constructor; [apply le_bytes_length|apply le_bytes_bytes].
      + exact Hz.
    - (* binary *)
      intros l Hl. apply Q_default; try reflexivity; [|constructor; exact Hl].
      eexists. split; [apply write_binary_puts|]. cbn [unwritable].
      pose proof (zlen_nonneg l). destruct (16777216 <? zlen l) eqn:Hbig.
      + split; [constructor|discriminate].
      + split; [apply bytes_app; split; [apply leb_bytes; lia|exact Hl]|].
        intros _ _ _. split; [constructor; apply binary_leb; assumption|apply zlen_app].
    - intros l Hl Hu. apply Q_default; try reflexivity; [|constructor; assumption].
      eexists. split; [apply write_binary_puts|]. cbn [unwritable].
      pose proof (zlen_nonneg l). destruct (16777216 <? zlen l) eqn:Hbig.
      + split; [constructor|discriminate].
      + split; [apply bytes_app; split; [apply leb_bytes; lia|exact Hl]|].
        intros _ _ _. split; [constructor; [apply binary_leb; assumption|exact Hu]|apply zlen_app].
    - (* vec *)
      intros t vs Hc Hvs (bs & Hp & Hbs & Hg). apply Q_default; try reflexivity; [|constructor; assumption].
      unfold plain_ok. cbn [writer wplain with_default].
      change (unwritable false (VVec vs)) with
        (if 10000000 <? zlen vs then Some InvalidCollectionLen else seq_unwritable false vs).
      change MAX_COLLECTION_LEN with 10000000. pose proof (zlen_nonneg vs).
      destruct (10000000 <? zlen vs) eqn:Hbig.
      + exists []. split; [apply puts_fail|]. split; [constructor|discriminate].
      + rewrite (wire_code_field_type E t Hc). pose proof (wire_code_range E t) as Hr.
        exists ((if zlen vs <? 15 then [16 * zlen vs + wire_code E t]
                 else (240 + wire_code E t) :: leb 10 (zlen vs)) ++ bs). split; [|split].
        * eapply puts_bind; [apply write_list_header_puts; lia|exact Hp].
        * apply bytes_app. split; [|exact Hbs]. destruct (zlen vs <? 15) eqn:H15.
          -- constructor; [unfold is_byte; lia|constructor].
          -- constructor; [unfold is_byte; lia|]. apply leb_bytes. lia.
        * intros Hn Hs Hfit. cbn [unshare]. destruct (Hg Hn Hs Hfit) as [Hg1 Hg2].
          assert (Hlen : zlen (map unshare vs) = zlen vs) by (unfold zlen; now rewrite map_length). split.
          -- eapply gn_vec; [exact Hc|left; reflexivity| |exact Hg1]. rewrite Hlen. apply list_header_canonical. lia.
          -- rewrite zlen_app, list_header_size, Hg2. cbn [csize]. rewrite Hlen. reflexivity.
    - (* none *)
      intros t Hc. split.
      + exists []. split; [apply puts_fail|]. split; [constructor|discriminate].
      + intros id last. exists []. split; [apply puts_ret|]. split; [constructor|].
        split; [reflexivity|discriminate].
    - (* some *)
      intros t v Ht [(bs & Hp & Hbs & Hg) Hf]. split.
      + exists bs. split; [exact Hp|]. split; [exact Hbs|]. intros Hn Hs Hfit. cbn [unshare].
        destruct (Hg Hn Hs Hfit) as [Hg1 Hg2]. split; [constructor; exact Hg1|exact Hg2].
      + intros id last. destruct (Hf id last) as (bs' & Hp' & Hbs' & Ha & Hg').
        exists bs'. split; [exact Hp'|]. split; [exact Hbs'|]. split; [exact Ha|].
        intros Hn Hab Hs Hfit Hh Hd. destruct (Hg' Hn Hab Hs Hfit Hh Hd) as (ft & hdr & pl & H1 & H2 & H3 & H4).
        exists ft, hdr, pl. split; [exact H1|]. split; [exact H2|]. cbn [unshare obool csize]. split; [constructor; exact H3|exact H4].
    - (* box *)
      intros t v Ht [(bs & Hp & Hbs & Hg) _]. apply Q_default; try reflexivity; [|constructor; exact Ht].
      exists bs. split; [exact Hp|]. split; [exact Hbs|]. intros Hn Hs Hfit. cbn [unshare].
      destruct (Hg Hn Hs Hfit) as [Hg1 Hg2]. split; [constructor; exact Hg1|exact Hg2].
    - intros t u v Ht [(bs & Hp & Hbs & Hg) _]. apply Q_default; try reflexivity; [|constructor; exact Ht].
      exists bs. split; [exact Hp|]. split; [exact Hbs|]. intros Hn Hs Hfit. cbn [unshare].
      destruct (Hg Hn Hs Hfit) as [Hg1 Hg2]. split; [constructor; exact Hg1|exact Hg2].
    - (* EncodingSet *)
      intros m Hm. apply Q_default; try reflexivity; [|constructor; exact Hm].
      destruct (encset_write_gencu unk strict E m Hm) as (bs & Hp & Hb & Hg).
      exists bs. split; [exact Hp|]. split; [exact Hb|intros _ _ _; exact Hg].
    - (* enum *)
      intros n z Hl Hz.
      assert (Hw : writer vec_write_all E (VI32 z) (TNamed n) =
                   with_default vec_write_all (field_type E (TNamed n)) (write_i32 vec_write_all z)).
      { cbn [writer]. rewrite Hl. reflexivity. }
      apply Q_default; try reflexivity; [|apply ty_enum; assumption|rewrite Hw; reflexivity].
      exists (leb 10 (zigzag z)). pose proof (zigzag_range 32 z ltac:(lia) Hz).
      rewrite Hw. cbn [wplain with_default].
      split; [apply write_i32_puts; exact Hz|]. split; [apply leb_bytes; lia|].
      intros _ _ _. split; [constructor; [exact Hl|]; apply zz_leb; [lia|exact Hz]|reflexivity].
    - (* struct *)
      intros n fs vs Hl Hty Hfs.
      assert (Hw : writer vec_write_all E (VStruct vs) (TNamed n) =
                   with_default vec_write_all (field_type E (TNamed n))
                     (write_fields (zipw vec_write_all E vs fs) fs 0 ;; write_byte vec_write_all 0)).
      { cbn [writer]. rewrite Hl. reflexivity. }
      apply Q_default; try reflexivity; [|apply ty_struct with fs; assumption|rewrite Hw; reflexivity].
      destruct (Hfs 0) as (bs & Hp & Hbs & Hg). unfold plain_ok. rewrite Hw. cbn [wplain with_default].
      change (unwritable false (VStruct vs)) with (seq_unwritable true vs).
      destruct (seq_unwritable true vs) as [e|]; cbn [result_of] in *.
      + exists bs. split; [eapply puts_bind_err; exact Hp|]. split; [exact Hbs|discriminate].
      + exists (bs ++ [0]). split; [eapply puts_bind; [exact Hp|apply puts_byte]|].
        split; [apply bytes_app; split; [exact Hbs|repeat constructor; lia]|].
        intros _ Hs Hfit. cbn [unshare].
        destruct (struct_fields _ _ _ _ _ Hs Hl) as (Hnd & Hfo & _).
        cbn [fits] in Hfit. rewrite Hl in Hfit.
        destruct (Hg eq_refl Hs ltac:(intros f Hf; apply Hfo; exact Hf) Hfit fs) as [Hg1 Hg2]. split.
        2: { rewrite zlen_app, Hg2. cbn [csize]. rewrite Hl. reflexivity. }
        econstructor; [exact Hl| |exact Hg1].
        * clear -Hty. induction Hty; cbn [map]; constructor; [|assumption].
          unfold field_shape. unfold field_ty in *. destruct (f_req f); [left; reflexivity|right].
          inversion H; subst; cbn [unshare]; eauto.
    - (* union *)
      intros n fs i f v Hl Hn Hty [_ Hf].
      assert (Hw : writer vec_write_all E (VUnion i v) (TNamed n) =
                   with_default vec_write_all (field_type E (TNamed n))
                     (let! _ := wrf v (f_ty f) (f_id f) 0 in write_byte vec_write_all 0)).
      { cbn [writer]. rewrite Hl, Hn. reflexivity. }
      apply Q_default; try reflexivity; [|eapply ty_union; eassumption|rewrite Hw; reflexivity].
      destruct (Hf (f_id f) 0) as (bs & Hp & Hbs & Ha & Hg). unfold plain_ok. rewrite Hw. cbn [wplain with_default].
      unfold field_result in Hp.
      change (unwritable false (VUnion i v)) with (unwritable true v).
      destruct (unwritable true v) as [e|]; cbn [result_of].
      + exists bs. split; [eapply puts_bind_err; exact Hp|]. split; [exact Hbs|discriminate].
      + exists (bs ++ [0]). split; [eapply puts_bind; [exact Hp|apply puts_byte]|].
        split; [apply bytes_app; split; [exact Hbs|repeat constructor; lia]|].
        intros _ Hs Hfit. cbn [unshare].
        destruct (union_fields _ _ _ _ _ Hs Hl) as (Hnd & Hfo & _). apply nth_error_In in Hn as Hin.
        cbn [fits] in Hfit. rewrite Hl, Hn in Hfit.
        apply andb_true_iff in Hfit as [Hfit Hfv]. apply andb_true_iff in Hfit as [Hh Hno].
        destruct (Hfo f Hin) as (Hc & _ & Hnb).
        assert (Hab : absent v = false).
        { inversion Hty; subst; try reflexivity;
            match goal with H : TOption _ = f_ty f |- _ => rewrite <- H in Hno; discriminate end. }
        destruct (Hg eq_refl Hab Hs Hfv Hh) as (ft & hdr & pl & -> & H2 & H3 & H4).
        { intros _. destruct (f_ty f); cbn [boolish bool_direct not_option] in *; try reflexivity; try discriminate;
            rewrite Hnb; reflexivity. }
        split.
        2: { rewrite zlen_app, H4. cbn [csize]. rewrite Hl, Hn, unshare_obool. reflexivity. }
        rewrite <- app_assoc. inversion H3; subst; try (match goal with H : _ = f_ty f |- _ => rewrite <- H in *; discriminate end).
        eapply gn_union; eassumption.
    - (* seq *)
      intros t. exists []. split; [apply puts_ret|]. split; [constructor|]. intros _ _ _. split; [constructor|reflexivity].
    - intros t v vs Ht [(b1 & Hp1 & Hb1 & Hg1) _] Hts (b2 & Hp2 & Hb2 & Hg2).
      unfold Qs. cbn [map write_items]. cbn [seq_unwritable]. fold (seq_unwritable false).
      destruct (unwritable false v) as [e|]; cbn [first_some result_of] in *.
      + exists b1. split; [eapply puts_bind_err; exact Hp1|]. split; [exact Hb1|discriminate].
      + exists (b1 ++ b2). split; [eapply puts_bind; [exact Hp1|exact Hp2]|].
        split; [apply bytes_app; split; assumption|]. intros Hn Hs Hfit.
        cbn [forallb] in Hfit. apply andb_true_iff in Hfit as [Hf1 Hf2].
        destruct (Hg1 eq_refl Hs Hf1) as [H1 H2]. destruct (Hg2 Hn Hs Hf2) as [H3 H4].
        split; [constructor; assumption|]. rewrite zlen_app, H2, H4. reflexivity.
    - (* fields *)
      intros last. exists []. split; [apply puts_ret|]. split; [constructor|]. intros _ _ _ _ allfs. split; [constructor|reflexivity].
    - intros f fs v vs Ht [_ Hf] Hts Hfs last.
      destruct (Hf (f_id f) last) as (b1 & Hp1 & Hb1 & Ha1 & Hg1). unfold field_result in Hp1.
      cbn [zipw write_fields]. fold (@zipw (list Z) vec_write_all E).
      cbn [seq_unwritable]. fold (seq_unwritable true).
      destruct (unwritable true v) as [e|]; cbn [first_some].
      + exists b1. split; [eapply puts_bind_err; exact Hp1|]. split; [exact Hb1|discriminate].
      + destruct (Hfs (if absent v then last else f_id f)) as (b2 & Hp2 & Hb2 & Hg2).
        exists (b1 ++ b2). split; [eapply puts_bind; [exact Hp1|exact Hp2]|].
        split; [apply bytes_app; split; assumption|]. intros Hn Hs Hfo Hfit allfs.
        pose proof (Hfo f (or_introl eq_refl)) as Hbd.
        assert (Hfo' : forall g, In g fs -> strict = true -> bool_direct (f_ty g) = true)
          by (intros g Hg; apply Hfo; right; exact Hg).
        cbn [fields_fit] in Hfit. fold (fields_fit (fits E)) in Hfit.
        cbn [map present]. unfold field_ty in *.
        assert (Hna : not_option (f_ty f) = true -> forall w, typed E (f_ty f) w -> absent w = false).
        { intros Hno w Hw. inversion Hw; subst; try reflexivity;
            match goal with H : TOption _ = f_ty f |- _ => rewrite <- H in Hno; discriminate end. }
        destruct (f_req f) eqn:Hreq.
        * apply andb_true_iff in Hfit as [Hfit Hf4]. apply andb_true_iff in Hfit as [Hfit Hf3].
          apply andb_true_iff in Hfit as [Hf1 Hf2].
          rewrite (Hna Hf2 v Ht) in *.
          destruct (Hg1 eq_refl eq_refl Hs Hf3 Hf1 Hbd) as (ft & hdr & pl & -> & H2 & H3 & H4).
          destruct (Hg2 Hn Hs Hfo' Hf4 allfs) as [H5 H6]. split.
          -- rewrite <- !app_assoc. cbn [app].
             apply gfs_known with (p1 := []) (ft := ft); [exact H2|exact H3|exact H5].
          -- rewrite zlen_app, H4, H6. cbn [fields_size]. fold (fields_size (csize E)). rewrite Hreq, unshare_obool.
             unfold field_ty. rewrite Hreq. reflexivity.
        * inversion Ht as [| | | | | | | | |t' Hc|t' w Hw| | | | | |]; subst; cbn [unshare app absent] in *.
          -- rewrite (Ha1 eq_refl). cbn [app]. destruct (Hg2 Hn Hs Hfo' Hfit allfs) as [H5 H6]. split; [exact H5|].
             rewrite H6. cbn [fields_size]. fold (fields_size (csize E)). rewrite Hreq. reflexivity.
          -- apply andb_true_iff in Hfit as [Hfit Hf4]. apply andb_true_iff in Hfit as [Hfit Hf3].
             apply andb_true_iff in Hfit as [Hf1 Hf2]. rewrite (Hna Hf2 w Hw) in *.
             destruct (Hg1 eq_refl eq_refl Hs Hf3 Hf1 Hbd) as (ft & hdr & pl & -> & H2 & H3 & H4).
             destruct (Hg2 Hn Hs Hfo' Hf4 allfs) as [H5 H6]. split.
             ++ rewrite <- !app_assoc. apply gfs_known with (p1 := []) (ft := ft); [exact H2| |exact H5].
                inversion H3; subst; [assumption|discriminate].
             ++ rewrite zlen_app, H4, H6. cbn [fields_size obool csize]. fold (fields_size (csize E)).
                rewrite Hreq, unshare_obool. unfold field_ty. rewrite Hreq. reflexivity.
  Qed.
End Write.

(** A schema within reach makes every value fit. *)
Lemma headers_fit E :
  wenv_ok E = true ->
  (forall t v, typed E t v -> fits E v t = true) /\
  (forall t vs, typed_seq E t vs -> forallb (fun w => fits E w t) vs = true) /\
  (forall fs vs, typed_fields E fs vs -> forall last lasts, In last lasts -> headers_ok lasts fs = true ->
     forallb (fun f => not_option (f_ty f)) fs = true -> fields_fit (fits E) last fs vs = true).
Proof.
  intros HW.
  assert (Hdef : forall n d, lookup E n = Some d -> wdef_ok d = true).
  { intros n d Hl. apply lookup_In in Hl. unfold wenv_ok in HW. rewrite forallb_forall in HW. exact (HW _ Hl). }
  apply typed_mutind; intros; try reflexivity; try assumption.
  - (* struct *)
    cbn [fits]. rewrite H. specialize (Hdef _ _ H). cbn [wdef_ok] in Hdef. apply andb_true_iff in Hdef as [Hh Hno].
    apply (H1 0 [0]); [left; reflexivity|exact Hh|exact Hno].
  - (* union *)
    cbn [fits]. rewrite H, H0. specialize (Hdef _ _ H). cbn [wdef_ok] in Hdef. rewrite forallb_forall in Hdef.
    rewrite (Hdef f); [exact H2|]. eapply nth_error_In. exact H0.
  - cbn [forallb]. rewrite H0, H2. reflexivity.
  - cbn [headers_ok] in H4. apply andb_true_iff in H4 as [Hh1 Hh2]. cbn [forallb] in H5. apply andb_true_iff in H5 as [Hno Hno'].
    rewrite forallb_forall in Hh1. specialize (Hh1 _ H3).
    cbn [fields_fit]. fold (fields_fit (fits E)).
    destruct (f_req f).
    + rewrite Hh1, Hno, H0. cbn [andb]. apply (H2 (f_id f) [f_id f]); [left; reflexivity|exact Hh2|exact Hno'].
    + assert (Hp : header_ok last (f_id f) && not_option (f_ty f) && fits E v (field_ty f) && fields_fit (fits E) (f_id f) fs vs = true).
      { rewrite Hh1, Hno, H0. cbn [andb]. apply (H2 (f_id f) (f_id f :: lasts)); [left; reflexivity|exact Hh2|exact Hno']. }
      destruct v; try exact Hp.
      apply (H2 last (f_id f :: lasts)); [right; exact H3|exact Hh2|exact Hno'].
Qed.
