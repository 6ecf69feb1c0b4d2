(** Primitive reads and writes: the lemmas behind C01-C09. *)
From Coq Require Import ZifyBool ZifyNat ZifyN.
From Verif Require Import Base Uleb Utf8 Protocol Types SpecUtf8 SpecCompact SpecInput
  Typing P_Arith P_Reads P_Utf8 P_Inputs P_Write.
Ltac Zify.zify_post_hook ::= Z.div_mod_to_equations.

Definition fails {S A} (R : S -> list Z -> Prop) (m : M S A) (bs : list Z) (e : error) : Prop :=
  forall s rest, R s (bs ++ rest) -> exists s', m s = (s', Err e) /\ R s' rest.

Lemma fails_bind {S A B} (R : S -> list Z -> Prop) (m : M S A) (f : A -> M S B) bs a e :
  reads R m bs a -> (forall s rest, R s rest -> f a s = (s, Err e)) -> fails R (bind m f) bs e.
Proof.
  intros H Hf s rest HR. destruct (H _ _ HR) as (s1 & E1 & R1). exists s1. unfold bind. rewrite E1.
  rewrite (Hf _ _ R1). auto.
Qed.

Lemma both_fails {A} c (m : forall S, input S -> M S A) bs e :
  fails slice_holds (m _ (slice_input c)) bs e ->
  (forall x, fails (reader_holds x) (m _ (reader_input c)) bs e) -> both_fail c m bs e.
Proof.
  intros H1 H2. split.
  - intros rest Hb. destruct (H1 (bs ++ rest) rest) as (s' & E1 & [-> _]); [split; auto|exact E1].
  - intros r rest Hr. destruct (H2 (ending r) r rest) as (s' & E1 & R1 & R2); [split; auto|].
    exists s'. auto.
Qed.

Lemma usize_range c : cfg_ok c -> 2 ^ 32 <= 2 ^ usize_bits c <= 2 ^ 64.
Proof. intros [[-> | ->] _]; lia. Qed.

(** * C01 *)
Lemma read_len_usize {S} (R : S -> list Z -> Prop) c rb left n bs :
  (forall b, reads R rb [b] b) -> (forall s bs, R s bs -> (List.length bs <= left s)%nat) ->
  in_u (usize_bits c) n -> varint n bs -> reads R (read_len_with c rb left) bs n.
Proof.
  intros H1 H2 Hn Hv. unfold read_len_with. rewrite <- (wrapu_id (usize_bits c) n Hn).
  apply (reads_bind_ret R (decode_uleb c rb left) (fun len => wrapu (usize_bits c) len)).
  apply decode_varint; assumption.
Qed.

Lemma len_roundtrip c n : cfg_ok c -> in_u (usize_bits c) n ->
  exists bs, appends (write_len vec_write_all n) bs (Ok tt) /\ both_read c (fun S I => read_len c I) bs n.
Proof.
  intros Hc Hn. pose proof (usize_range c Hc) as Hr. assert (H64 : 0 <= n < 2 ^ 64) by (unfold in_u in Hn; lia).
  exists (leb 10 n). split; [apply write_len_puts; exact H64|].
  apply both_reads; [|exact Hc]. intros S I R D.
  apply read_len_usize; [apply (del_byte _ _ D)|apply (del_left _ _ D)|exact Hn|apply leb_varint; exact H64].
Qed.

(** * C02, C03 *)
Lemma leb_canonical n k : 0 <= n < 2 ^ 64 -> n < 128 ^ Z.of_nat k -> (1 <= k)%nat -> canonical n k (leb 10 n).
Proof.
  intros H Hk Hk1. destruct (leb_varint n H) as (Ht & Hd & _ & _). split; [exact Ht|]. split; [exact Hd|].
  split; [apply leb_length_bound; lia|]. intros bs' Ht' Hd'. apply leb_minimal; [lia|exact Hd'|exact Ht'].
Qed.

Lemma i16_roundtrip c n : cfg_ok c -> in_s 16 n ->
  exists bs, appends (write_i16 vec_write_all n) bs (Ok tt) /\ both_read c (fun S I => read_i16 c I) bs n.
Proof.
  intros Hc Hn. exists (leb 10 (zigzag n)). split; [apply write_i16_puts; exact Hn|].
  apply both_reads; [|exact Hc]. intros S I R D. apply (read_i16_reads R c I D). apply zz_leb; [lia|exact Hn].
Qed.
Lemma i32_roundtrip c n : cfg_ok c -> in_s 32 n ->
  exists bs, appends (write_i32 vec_write_all n) bs (Ok tt) /\ both_read c (fun S I => read_i32 c I) bs n.
Proof.
  intros Hc Hn. exists (leb 10 (zigzag n)). split; [apply write_i32_puts; exact Hn|].
  apply both_reads; [|exact Hc]. intros S I R D. apply (read_i32_reads R c I D). apply zz_leb; [lia|exact Hn].
Qed.
Lemma i64_roundtrip c n : cfg_ok c -> in_s 64 n ->
  exists bs, appends (write_i64 vec_write_all n) bs (Ok tt) /\ both_read c (fun S I => read_i64 c I) bs n.
Proof.
  intros Hc Hn. exists (leb 10 (zigzag n)). split; [apply write_i64_puts; exact Hn|].
  apply both_reads; [|exact Hc]. intros S I R D. apply (read_i64_reads R c I D). apply zz_leb; [lia|exact Hn].
Qed.

Lemma ints_canonical n :
  (in_s 16 n -> exists bs, appends (write_i16 vec_write_all n) bs (Ok tt) /\ canonical (zigzag n) 3 bs) /\
  (in_s 32 n -> exists bs, appends (write_i32 vec_write_all n) bs (Ok tt) /\ canonical (zigzag n) 5 bs) /\
  (in_s 64 n -> exists bs, appends (write_i64 vec_write_all n) bs (Ok tt) /\ canonical (zigzag n) 10 bs).
Proof.
  split; [|split]; intros Hn; exists (leb 10 (zigzag n)).
  - split; [apply write_i16_puts; exact Hn|]. pose proof (zigzag_range 16 n ltac:(lia) Hn).
    apply leb_canonical; [lia| |lia]. change (128 ^ Z.of_nat 3) with (2 ^ 21). lia.
  - split; [apply write_i32_puts; exact Hn|]. pose proof (zigzag_range 32 n ltac:(lia) Hn).
    apply leb_canonical; [lia| |lia]. change (128 ^ Z.of_nat 5) with (2 ^ 35). lia.
  - split; [apply write_i64_puts; exact Hn|]. pose proof (zigzag_range 64 n ltac:(lia) Hn).
    apply leb_canonical; [lia| |lia]. change (128 ^ Z.of_nat 10) with (2 ^ 70). lia.
Qed.

Lemma zigzag_inj a b : zigzag a = zigzag b -> a = b.
Proof. intros H. rewrite <- (unzigzag_zigzag a), H. apply unzigzag_zigzag. Qed.

(** * C04 *)
Definition uleb_of {S} (c : cfg) (I : input S) : M S Z := decode_uleb c (in_read_byte I) (in_left I).

Lemma uleb_read_mod c bs : cfg_ok c -> terminated bs -> (List.length bs <= 10)%nat ->
  both_read c (fun S I => uleb_of c I) bs (digits128 bs mod 2 ^ 64).
Proof.
  intros Hc Ht Hl. apply both_reads; [|exact Hc]. intros S I R D. unfold uleb_of.
  apply decode_uleb_reads_mod; [apply (del_byte _ _ D)|apply (del_left _ _ D)|exact Ht|exact Hl].
Qed.

Lemma i64_read_mod c bs n : cfg_ok c -> terminated bs -> (List.length bs <= 10)%nat ->
  in_s 64 n -> zigzag n = digits128 bs mod 2 ^ 64 ->
  both_read c (fun S I => read_i64 c I) bs n.
Proof.
  intros Hc Ht Hl Hn Hz. apply both_reads; [|exact Hc]. intros S I R D. unfold read_i64.
  replace n with (zigzag_decode64 (wrapu 64 (digits128 bs mod 2 ^ 64))).
  - apply (reads_bind_ret R (decode_uleb c (in_read_byte I) (in_left I)) (fun i => zigzag_decode64 (wrapu 64 i))).
    apply decode_uleb_reads_mod; [apply (del_byte _ _ D)|apply (del_left _ _ D)|exact Ht|exact Hl].
  - rewrite <- Hz. pose proof (zigzag_range 64 n ltac:(lia) Hn).
    rewrite wrapu_id by assumption. rewrite zigzag_decode64_spec by assumption. apply unzigzag_zigzag.
Qed.

(** Zero-padded sequences of any length. *)
Lemma i64_read_padded c bs n : cfg_ok c -> terminated bs ->
  (overflow_checks c = true -> 7 * zlen bs < 2 ^ 32) ->
  in_s 64 n -> zigzag n = digits128 bs ->
  both_read c (fun S I => read_i64 c I) bs n.
Proof.
  intros Hc Ht Hov Hn Hz. pose proof (zigzag_range 64 n ltac:(lia) Hn) as Hr.
  apply both_reads; [|exact Hc]. intros S I R D. unfold read_i64.
  replace n with (zigzag_decode64 (wrapu 64 (digits128 bs))).
  - apply (reads_bind_ret R (decode_uleb c (in_read_byte I) (in_left I)) (fun i => zigzag_decode64 (wrapu 64 i))).
    apply decode_uleb_reads; [apply (del_byte _ _ D)|apply (del_left _ _ D)|exact Ht|exact Hov|lia].
  - rewrite <- Hz. rewrite wrapu_id by assumption. rewrite zigzag_decode64_spec by assumption. apply unzigzag_zigzag.
Qed.

(** * C05: what the narrow reads return for any varint *)
Lemma i32_read_trunc c bs n m : cfg_ok c -> varint n bs -> in_s 32 m -> zigzag m = n mod 2 ^ 32 ->
  both_read c (fun S I => read_i32 c I) bs m.
Proof.
  intros Hc Hv Hm Hz. apply both_reads; [|exact Hc]. intros S I R D. unfold read_i32.
  replace m with (zigzag_decode32 (wrapu 32 n)).
  - apply (reads_bind_ret R (decode_uleb c (in_read_byte I) (in_left I)) (fun i => zigzag_decode32 (wrapu 32 i))).
    apply (decode_varint_I R c I D). exact Hv.
  - unfold wrapu. rewrite <- Hz. pose proof (zigzag_range 32 m ltac:(lia) Hm).
    rewrite zigzag_decode32_spec by assumption. apply unzigzag_zigzag.
Qed.
Lemma i16_read_trunc c bs n m : cfg_ok c -> varint n bs -> in_s 16 m -> zigzag m = n mod 2 ^ 16 ->
  both_read c (fun S I => read_i16 c I) bs m.
Proof.
  intros Hc Hv Hm Hz. apply both_reads; [|exact Hc]. intros S I R D. unfold read_i16.
  replace m with (zigzag_decode16 (wrapu 16 n)).
  - apply (reads_bind_ret R (decode_uleb c (in_read_byte I) (in_left I)) (fun i => zigzag_decode16 (wrapu 16 i))).
    apply (decode_varint_I R c I D). exact Hv.
  - unfold wrapu. rewrite <- Hz. pose proof (zigzag_range 16 m ltac:(lia) Hm).
    rewrite zigzag_decode16_spec by assumption. apply unzigzag_zigzag.
Qed.

(** * C06 *)
Lemma double_roundtrip c z : cfg_ok c -> in_u 64 z ->
  exists bs, appends (write_double vec_write_all z) bs (Ok tt) /\
    List.length bs = 8%nat /\ bytes bs /\ digits256 bs = z /\ both_read c (fun S I => in_read_double I) bs z.
Proof.
  intros Hc Hz. exists (le_bytes 8 z). split; [apply puts_all|].
  pose proof (le_bytes_length 8 z). pose proof (le_bytes_bytes 8 z).
  assert (Hd : digits256 (le_bytes 8 z) = z) by (apply digits256_le_bytes; exact Hz).
  repeat split; try assumption; rewrite <- Hd at 2; apply both_reads; try exact Hc;
    intros S I R D; apply (del_double _ _ D); assumption.
Qed.

(** * C07 *)
Lemma binary_roundtrip c l : cfg_ok c -> bytes l -> zlen l <= 16777216 ->
  exists bs, appends (write_binary vec_write_all l) bs (Ok tt) /\ both_read c (fun S I => in_read_binary I) bs l.
Proof.
  intros Hc Hl Hlen. pose proof (write_binary_puts l) as Hp.
  replace (16777216 <? zlen l) with false in Hp by lia. eexists. split; [exact Hp|].
  apply both_reads; [|exact Hc]. intros S I R D. apply (del_binary _ _ D). apply binary_leb; [exact Hl|lia].
Qed.
Lemma binary_too_long_write l : 16777216 < zlen l ->
  appends (write_binary vec_write_all l) [] (Err (InvalidBinaryLen (zlen l))).
Proof.
  intros H. pose proof (write_binary_puts l) as Hp. replace (16777216 <? zlen l) with true in Hp by lia. exact Hp.
Qed.
Lemma binary_too_long_read c n bs : cfg_ok c -> varint n bs -> in_u (usize_bits c) n -> 16777216 < n ->
  both_fail c (fun S I => in_read_binary I) bs (InvalidBinaryLen n) /\
  both_fail c (fun S I => in_skip_binary I) bs (InvalidBinaryLen n).
Proof.
  intros Hc Hv Hn Hbig.
  assert (Hlen1 : reads slice_holds (read_len_with c slice_read_byte slice_left) bs n)
    by (apply read_len_usize with (n := n); [exact slice_byte|exact slice_holds_left|exact Hn|exact Hv]).
  assert (Hlen2 : forall x, reads (reader_holds x) (read_len_with c reader_read_byte reader_left) bs n)
    by (intros x; apply read_len_usize with (n := n); [exact (reader_byte x)|exact (reader_holds_left x)|exact Hn|exact Hv]).
  assert (Hb : MAX_BINARY_LEN <? n = true) by (unfold MAX_BINARY_LEN; lia).
  assert (Hr : forall x, fails (reader_holds x) (reader_read_binary c) bs (InvalidBinaryLen n)).
  { intros x. eapply fails_bind; [apply Hlen2|]. intros s rest _. rewrite Hb. reflexivity. }
  split; apply both_fails.
  - cbn [slice_input in_read_binary]. eapply fails_bind; [exact Hlen1|]. intros s rest _. rewrite Hb. reflexivity.
  - exact Hr.
  - cbn [slice_input in_skip_binary]. eapply fails_bind; [exact Hlen1|]. intros s rest _. rewrite Hb. reflexivity.
  - intros x s rest HR. destruct (Hr x s rest HR) as (s1 & E1 & R1). exists s1. split; [|exact R1].
    cbn [reader_input in_skip_binary]. unfold bind. rewrite E1. reflexivity.
Qed.

(** * C08 *)
Lemma string_read c payload bs : cfg_ok c -> binary payload bs ->
  (well_formed_utf8 payload -> both_read c (fun S I => read_string I) bs payload) /\
  (~ well_formed_utf8 payload -> both_fail c (fun S I => read_string I) bs InvalidString).
Proof.
  intros Hc Hb. assert (Hpb : bytes payload) by (destruct Hb as (? & _ & _ & _ & ?); assumption).
  split.
  - intros Hw. apply both_reads; [|exact Hc]. intros S I R D. unfold read_string.
    rewrite <- (app_nil_r bs). eapply reads_bind; [apply (del_binary _ _ D); exact Hb|].
    rewrite (utf8_valid_complete payload Hw). apply reads_ret.
  - intros Hw.
    assert (Hv : utf8_valid payload = false).
    { destruct (utf8_valid payload) eqn:H; [|reflexivity]. exfalso. apply Hw. apply utf8_valid_iff; assumption. }
    apply both_fails.
    + eapply fails_bind; [apply (del_binary _ _ (slice_delivers c Hc)); exact Hb|].
      intros s rest _. rewrite Hv. reflexivity.
    + intros x. eapply fails_bind; [apply (del_binary _ _ (reader_delivers x c Hc)); exact Hb|].
      intros s rest _. rewrite Hv. reflexivity.
Qed.
Lemma string_roundtrip c l : cfg_ok c -> bytes l -> well_formed_utf8 l -> zlen l <= 16777216 ->
  exists bs, appends (write_string vec_write_all l) bs (Ok tt) /\ both_read c (fun S I => read_string I) bs l.
Proof.
  intros Hc Hl Hw Hlen. pose proof (write_binary_puts l) as Hp.
  replace (16777216 <? zlen l) with false in Hp by lia. eexists. split; [exact Hp|].
  apply string_read; [exact Hc|apply binary_leb; [exact Hl|lia]|exact Hw].
Qed.

(** * C09 *)
Lemma land_byte_15 b : 0 <= b < 256 -> Z.land b 15 = b mod 16.
Proof. intros H. apply land_15. Qed.

Lemma header_roundtrip_iff c ft id last : cfg_ok c -> 1 <= ft <= 15 -> in_s 16 id -> in_s 16 last ->
  exists bs, appends (write_field_header vec_write_all ft id last) bs (Ok id) /\
    (both_read c (fun S I => read_field_header c I last) bs (ft, id) <-> header_roundtrips c last id).
Proof.
  intros Hc Hft Hid Hlast. exists (header_bytes ft id last). split; [apply write_field_header_puts|].
  unfold header_roundtrips. pose proof (wraps_range 16 (id - last) ltac:(lia)) as Hd.
  unfold header_bytes. set (delta := wraps 16 (id - last)) in *.
  assert (Hdc : exists k, delta = id - last + k * 65536).
  { unfold delta. unfold wraps. change (2 ^ 16) with 65536. change (2 ^ (16 - 1)) with 32768.
    exists (- ((id - last + 32768) / 65536)). lia. }
  destruct Hdc as [k Hk].
  destruct (15 <? delta) eqn:H15.
  - split.
    + intros [Hs _]. left. destruct (Z.eq_dec last 0) as [Hl|Hl].
      * split; [exact Hl|]. subst last. unfold in_s in *. lia.
      * exfalso. specialize (Hs []). rewrite app_nil_r in Hs.
        assert (Hz : zz_int 16 delta (leb 10 (zigzag delta))) by (apply zz_leb; [lia|exact Hd]).
        assert (Hb : bytes (ft :: leb 10 (zigzag delta))).
        { constructor; [unfold is_byte; lia|]. apply terminated_bytes. destruct Hz as [_ (Ht & _)]. exact Ht. }
        specialize (Hs Hb).
        destruct (read_field_header_reads slice_holds c (slice_input c) (slice_delivers c Hc) last delta ft
                    (ft :: leb 10 (zigzag delta))) with (s := ft :: leb 10 (zigzag delta)) (rest := @nil Z)
          as (s' & E1 & _); [unfold in_s in *; lia|lia|constructor; exact Hz|split; [now rewrite app_nil_r|rewrite app_nil_r; exact Hb]|].
        rewrite Hs in E1. injection E1 as _ Heq. unfold in_s in *. lia.
    + intros [[-> Hgt]|[Hbad _]]; [|lia]. apply both_reads; [|exact Hc]. intros S I R D.
      assert (delta = id) as -> by (unfold in_s in *; lia).
      apply (read_field_header_reads R c I D); [lia|lia|]. constructor. apply zz_leb; [lia|exact Hid].
  - assert (Hw : wrapu 8 (Z.shiftl (wrapu 8 delta) 4) = 16 * (delta mod 16)).
    { unfold wrapu. rewrite Z.shiftl_mul_pow2 by lia. change (2 ^ 8) with 256. change (2 ^ 4) with 16. lia. }
    rewrite Hw. rewrite (lor_add ft _ 4) by lia.
    set (b := ft + 16 * (delta mod 16)).
    assert (Hbyte : 0 <= b < 256) by (unfold b; lia).
    assert (Hb0 : (b =? 0) = false) by (unfold b; lia).
    assert (Hb15 : Z.land b 15 = ft) by (rewrite land_15; unfold b; lia).
    assert (Hb4 : Z.shiftr b 4 = delta mod 16) by (rewrite shiftr_div by lia; change (2 ^ 4) with 16; unfold b; lia).
    split.
    + intros [Hs _]. right. specialize (Hs []). rewrite app_nil_r in Hs.
      assert (Hb : bytes [b]) by (constructor; [exact Hbyte|constructor]).
      specialize (Hs Hb). unfold read_field_header, bind in Hs. cbn [slice_input in_read_byte slice_read_byte] in Hs.
      rewrite Hb0, Hb15, Hb4 in Hs.
      destruct (delta mod 16 =? 0) eqn:Hm0; cbn [negb] in Hs.
      * exfalso. unfold read_full_field_id, bind, decode_uleb in Hs. cbn in Hs. discriminate.
      * destruct (overflow_checks c && (32767 <? last + delta mod 16)) eqn:Hov; [discriminate|].
        unfold ret in Hs. injection Hs as Hs.
        assert (exists k2, id = last + delta mod 16 + k2 * 65536).
        { rewrite <- Hs. unfold wraps. change (2 ^ 16) with 65536. change (2 ^ (16 - 1)) with 32768.
          exists (- ((last + delta mod 16 + 32768) / 65536)). lia. }
        destruct H as [k2 Hk2]. unfold in_s in *.
        assert (delta = delta mod 16) by lia. split; [lia|]. intros Hoc. rewrite Hoc in Hov. cbn [andb] in Hov. lia.
    + intros [[-> Hgt]|[Hd15 Hov]].
      { exfalso. unfold in_s in *. lia. }
      apply both_reads; [|exact Hc]. intros S I R D s rest HR.
      destruct (del_byte _ _ D _ s rest HR) as (s1 & E1 & R1).
      exists s1. split; [|exact R1]. unfold read_field_header, bind. rewrite E1. rewrite Hb0, Hb15, Hb4.
      replace (delta mod 16) with delta by lia. replace (delta =? 0) with false by lia. cbn [negb].
      replace (overflow_checks c && (32767 <? last + delta)) with false.
      * unfold ret. repeat f_equal. unfold wraps. change (2 ^ 16) with 65536. change (2 ^ (16 - 1)) with 32768.
        unfold in_s in *. lia.
      * destruct (overflow_checks c); [|reflexivity]. cbn [andb]. specialize (Hov eq_refl). lia.
Qed.
