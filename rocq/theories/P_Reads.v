(** What it means for a call to read given bytes, the laws an input has to obey,
    and the primitive reads under these laws. *)
From Coq Require Import ZifyBool ZifyNat ZifyN.
From Verif Require Import Base Uleb Utf8 Protocol Types SpecUtf8 SpecCompact P_Arith.
Ltac Zify.zify_post_hook ::= Z.div_mod_to_equations.

(** [reads R m bs a]: on every state that holds [bs] followed by anything, [m]
    succeeds with [a] and leaves exactly what follows. *)
Definition reads {S A} (R : S -> list Z -> Prop) (m : M S A) (bs : list Z) (a : A) : Prop :=
  forall s rest, R s (bs ++ rest) -> exists s', m s = (s', Ok a) /\ R s' rest.

Record delivers {S} (I : input S) (R : S -> list Z -> Prop) : Prop := {
  del_byte : forall b, reads R (in_read_byte I) [b] b;
  del_double : forall p, List.length p = 8%nat -> reads R (in_read_double I) p (digits256 p);
  del_binary : forall p bs, binary p bs -> reads R (in_read_binary I) bs p;
  del_skip_int : forall n bs, varint n bs -> reads R (in_skip_integer I) bs tt;
  del_skip_bin : forall p bs, binary p bs -> reads R (in_skip_binary I) bs tt;
  del_left : forall s bs, R s bs -> (List.length bs <= in_left I s)%nat
}.

Section Reads.
  Context {S : Type} (R : S -> list Z -> Prop).

  Lemma reads_ret {A} (a : A) : reads R (ret a) [] a.
  Proof. intros s rest H. exists s. split; [reflexivity|exact H]. Qed.

  Lemma reads_bind {A B} (m : M S A) (f : A -> M S B) b1 b2 a b :
    reads R m b1 a -> reads R (f a) b2 b -> reads R (bind m f) (b1 ++ b2) b.
  Proof.
    intros H1 H2 s rest H. rewrite <- app_assoc in H.
    destruct (H1 _ _ H) as (s1 & E1 & R1). destruct (H2 _ _ R1) as (s2 & E2 & R2).
    exists s2. unfold bind. rewrite E1. auto.
  Qed.

  Lemma reads_bind_ret {A B} (m : M S A) (f : A -> B) b1 a :
    reads R m b1 a -> reads R (bind m (fun x => ret (f x))) b1 (f a).
  Proof.
    intros H1. rewrite <- (app_nil_r b1). eapply reads_bind; [exact H1|apply reads_ret].
  Qed.

  Lemma reads_repeat (m : M S unit) n bss :
    List.length bss = n -> Forall (fun b => reads R m b tt) bss ->
    reads R (repeatM n m) (List.concat bss) tt.
  Proof.
    intros <- H. induction H as [|b bss Hb Hbs IH]; cbn [List.length repeatM List.concat].
    - apply reads_ret.
    - eapply reads_bind; [exact Hb|exact IH].
  Qed.

  (** * Varints *)
  Variable c : cfg.
  Variable rb : M S Z.
  Variable left : S -> nat.
  Hypothesis Hrb : forall b, reads R rb [b] b.
  Hypothesis Hleft : forall s bs, R s bs -> (List.length bs <= left s)%nat.

  (** The pure content of the decoding loop. *)
  Fixpoint uleb_acc (shift value : Z) (bs : list Z) : Z :=
    match bs with
    | [] => value
    | b :: bs' =>
        uleb_acc (wrapu 32 (shift + 7))
          (Z.lor value (wrapu 64 (Z.shiftl (Z.land b 127) (shift mod 64)))) bs'
    end.

  Lemma decode_loop_reads bs :
    terminated bs -> forall fuel shift value s rest,
    (List.length bs <= fuel)%nat -> 0 <= shift ->
    (overflow_checks c = true -> shift + 7 * zlen bs < 2 ^ 32) ->
    R s (bs ++ rest) ->
    exists s', decode_uleb_loop c rb fuel shift value s = (s', Ok (uleb_acc shift value bs)) /\ R s' rest.
  Proof.
    induction 1 as [b Hb|b bs Hb Ht IH]; intros fuel shift value s rest Hf Hs Hov HR;
    (destruct fuel as [|fuel]; [cbn [List.length] in Hf; lia|]);
    cbn [decode_uleb_loop uleb_acc]; rewrite zlen_cons in Hov.
    - destruct (Hrb b s rest HR) as (s1 & E1 & R1).
      unfold bind at 1. rewrite E1. exists s1. split; [|exact R1].
      rewrite land_128_0 by (unfold is_byte; lia).
      replace (b <? 128) with true by lia.
      rewrite zlen_nil in Hov.
      destruct (overflow_checks c && (2 ^ 32 <=? shift + 7)) eqn:Hc; [|reflexivity].
      apply andb_true_iff in Hc as [Hc1 Hc2]. specialize (Hov Hc1). lia.
    - destruct (Hrb b s (bs ++ rest) HR) as (s1 & E1 & R1).
      unfold bind at 1. rewrite E1.
      rewrite land_128_0 by (unfold is_byte; lia).
      replace (b <? 128) with false by lia.
      pose proof (zlen_nonneg bs).
      destruct (overflow_checks c && (2 ^ 32 <=? shift + 7)) eqn:Hc.
      { apply andb_true_iff in Hc as [Hc1 Hc2]. specialize (Hov Hc1). lia. }
      apply IH; [cbn [List.length] in Hf; lia| | |exact R1].
      + pose proof (wrapu_range 32 (shift + 7)). lia.
      + intros Hc1. specialize (Hov Hc1). rewrite wrapu_id; lia.
  Qed.

  (** As long as the accumulated number fits, nothing is lost. *)
  Lemma uleb_acc_fits bs : bytes bs -> forall k shift value,
    0 <= k -> (7 * k < 2 ^ 32 -> shift = 7 * k) ->
    0 <= value -> value < 2 ^ (7 * k) ->
    value + 2 ^ (7 * k) * digits128 bs < 2 ^ 64 ->
    uleb_acc shift value bs = value + 2 ^ (7 * k) * digits128 bs.
  Proof.
    induction 1 as [|b bs Hb Hbs IH]; intros k shift value Hk Hsh Hv0 Hv Hfit;
    cbn [uleb_acc digits128] in *; [lia|].
    pose proof (digits128_nonneg bs) as Hd.
    assert (Hp : 0 < 2 ^ (7 * k)) by (apply Z.pow_pos_nonneg; lia).
    assert (Hp1 : 2 ^ (7 * (k + 1)) = 128 * 2 ^ (7 * k)).
    { replace (7 * (k + 1)) with (7 + 7 * k) by lia. rewrite Z.pow_add_r by lia. reflexivity. }
    rewrite land_127.
    assert (Hlor : Z.lor value (wrapu 64 (Z.shiftl (b mod 128) (shift mod 64)))
                   = value + 2 ^ (7 * k) * (b mod 128)).
    { destruct (Z.eq_dec (b mod 128) 0) as [H0|H0].
      - rewrite H0, Z.shiftl_0_l. unfold wrapu. rewrite Z.mod_0_l by lia. rewrite Z.lor_0_r. lia.
      - assert (Hb1 : 1 <= b mod 128) by (pose proof (Z.mod_pos_bound b 128); lia).
        assert (Hk64 : 7 * k < 64).
        { destruct (Z.lt_ge_cases (7 * k) 64) as [|Hge]; [assumption|].
          assert (2 ^ 64 <= 2 ^ (7 * k)) by (apply Z.pow_le_mono_r; lia). nia. }
        rewrite Hsh by lia. rewrite (Z.mod_small (7 * k) 64) by lia.
        rewrite shiftl_mul by lia.
        rewrite wrapu_id by nia.
        rewrite (lor_add _ _ (7 * k)); [lia|lia|lia|].
        apply Z.mod_mul. lia. }
    rewrite Hlor.
    destruct (Z.lt_ge_cases (7 * (k + 1)) (2 ^ 32)) as [Hlt|Hge].
    - rewrite IH with (k := k + 1); [rewrite Hp1; lia|lia| | nia | nia | rewrite Hp1; nia].
      intros _. rewrite Hsh by lia. rewrite wrapu_id by lia. lia.
    - rewrite IH with (k := k + 1); [rewrite Hp1; lia|lia| lia | nia | nia | rewrite Hp1; nia].
  Qed.

  (** Up to ten bytes, the result is the denoted number modulo 2^64. *)
  Lemma uleb_acc_mod bs : bytes bs -> forall k value,
    0 <= k -> k + zlen bs <= 10 -> 0 <= value < 2 ^ 64 -> value < 2 ^ (7 * k) ->
    uleb_acc (7 * k) value bs = (value + 2 ^ (7 * k) * digits128 bs) mod 2 ^ 64.
  Proof.
    induction 1 as [|b bs Hb Hbs IH]; intros k value Hk Hlen Hv Hv';
    cbn [uleb_acc digits128] in *.
    - rewrite Z.mod_small; lia.
    - rewrite zlen_cons in Hlen. pose proof (zlen_nonneg bs).
      assert (Hp1 : 2 ^ (7 * (k + 1)) = 128 * 2 ^ (7 * k)).
      { replace (7 * (k + 1)) with (7 + 7 * k) by lia. rewrite Z.pow_add_r by lia. reflexivity. }
      rewrite land_127, (Z.mod_small (7 * k) 64) by lia.
      rewrite wrapu_id by lia. replace (7 * k + 7) with (7 * (k + 1)) by lia.
      assert (Hp : 0 < 2 ^ (7 * k)) by (apply Z.pow_pos_nonneg; lia).
      set (q := 2 ^ (64 - 7 * k)).
      assert (Hq : 0 < q) by (apply Z.pow_pos_nonneg; lia).
      assert (Hqq : 2 ^ 64 = 2 ^ (7 * k) * q).
      { unfold q. rewrite <- Z.pow_add_r by lia. f_equal. lia. }
      rewrite shiftl_mul by lia.
      assert (Hw : wrapu 64 (b mod 128 * 2 ^ (7 * k)) = (b mod 128 mod q) * 2 ^ (7 * k)).
      { unfold wrapu. rewrite Hqq, (Z.mul_comm (b mod 128)), Zmult_mod_distr_l. lia. }
      rewrite Hw.
      assert (Hr : 0 <= b mod 128 mod q <= b mod 128).
      { split; [apply Z.mod_pos_bound; lia|apply Z.mod_le; [|lia]].
        apply Z.mod_pos_bound. lia. }
      assert (Hr2 : b mod 128 mod q < q) by (apply Z.mod_pos_bound; lia).
      assert (Hb128 : b mod 128 < 128) by (apply Z.mod_pos_bound; lia).
      rewrite (lor_add _ _ (7 * k)); [|lia|lia|apply Z.mod_mul; lia].
      rewrite IH; [|lia|lia| |rewrite Hp1; nia].
      + rewrite Hp1.
        pose proof (Z.div_mod (b mod 128) q) as Hdm.
        replace (value + 2 ^ (7 * k) * (b mod 128 + 128 * digits128 bs))
          with (value + b mod 128 mod q * 2 ^ (7 * k) + 128 * 2 ^ (7 * k) * digits128 bs
                + (b mod 128 / q) * 2 ^ 64) by (rewrite Hqq; nia).
        rewrite Z.mod_add by lia. reflexivity.
      + rewrite Hqq. rewrite Hqq in Hv. split; [nia|].
        destruct (Z.lt_ge_cases (7 * k) 64); nia.
  Qed.

  Lemma decode_uleb_reads_acc bs :
    terminated bs -> (overflow_checks c = true -> 7 * zlen bs < 2 ^ 32) ->
    reads R (decode_uleb c rb left) bs (uleb_acc 0 0 bs).
  Proof.
    intros Ht Hov s rest HR. unfold decode_uleb.
    apply decode_loop_reads with (rest := rest); [exact Ht| |lia|exact Hov|exact HR].
    specialize (Hleft _ _ HR). rewrite app_length in Hleft. lia.
  Qed.

  (** A terminated sequence of any length whose number fits in 64 bits. *)
  Lemma decode_uleb_reads bs :
    terminated bs -> (overflow_checks c = true -> 7 * zlen bs < 2 ^ 32) -> digits128 bs < 2 ^ 64 ->
    reads R (decode_uleb c rb left) bs (digits128 bs).
  Proof.
    intros Ht Hov Hfit. replace (digits128 bs) with (uleb_acc 0 0 bs) at 1.
    - apply decode_uleb_reads_acc; assumption.
    - rewrite uleb_acc_fits with (k := 0); [lia|apply terminated_bytes; exact Ht|lia|reflexivity|lia|lia|].
      change (2 ^ (7 * 0)) with 1. lia.
  Qed.

  Lemma decode_uleb_reads_mod bs :
    terminated bs -> (List.length bs <= 10)%nat ->
    reads R (decode_uleb c rb left) bs (digits128 bs mod 2 ^ 64).
  Proof.
    intros Ht Hlen. replace (digits128 bs mod 2 ^ 64) with (uleb_acc 0 0 bs).
    - apply decode_uleb_reads_acc; [assumption|]. unfold zlen. lia.
    - change 0 with (7 * 0) at 1. rewrite uleb_acc_mod; [|apply terminated_bytes; exact Ht|lia| |lia|reflexivity].
      + change (2 ^ (7 * 0)) with 1. f_equal. lia.
      + unfold zlen. lia.
  Qed.

  Lemma decode_varint n bs : varint n bs -> reads R (decode_uleb c rb left) bs n.
  Proof.
    intros (Ht & Hd & Hlen & Hn). subst n. apply decode_uleb_reads; [exact Ht| |lia].
    unfold zlen. lia.
  Qed.

  Lemma read_len_with_reads n bs :
    cfg_ok c -> n < 2 ^ 32 -> varint n bs -> reads R (read_len_with c rb left) bs n.
  Proof.
    intros Hc Hlt Hv. unfold read_len_with. pose proof Hv as (_ & _ & _ & Hn).
    replace n with (wrapu (usize_bits c) n).
    - apply (reads_bind_ret (decode_uleb c rb left) (fun len => wrapu (usize_bits c) len)).
      apply decode_varint. exact Hv.
    - apply wrapu_id. destruct Hc as [[-> | ->] _]; lia.
  Qed.
End Reads.

(** * Reads built on the trait methods *)
Section Generic.
  Context {S : Type} (R : S -> list Z -> Prop).
  Variable c : cfg.
  Variable I : input S.
  Hypothesis D : delivers I R.
  Hypothesis Hc : cfg_ok c.

  Lemma decode_varint_I n bs :
    varint n bs -> reads R (decode_uleb c (in_read_byte I) (in_left I)) bs n.
  Proof. apply decode_varint; [apply (del_byte _ _ D)|apply (del_left _ _ D)]. Qed.

  Lemma read_len_reads n bs : n < 2 ^ 32 -> varint n bs -> reads R (read_len c I) bs n.
  Proof.
    intros. apply read_len_with_reads; try assumption; [apply (del_byte _ _ D)|apply (del_left _ _ D)].
  Qed.

  Lemma read_i16_reads n bs : zz_int 16 n bs -> reads R (read_i16 c I) bs n.
  Proof.
    intros [Hr Hv]. unfold read_i16.
    replace n with (zigzag_decode16 (wrapu 16 (zigzag n))).
    - apply (reads_bind_ret R (decode_uleb c (in_read_byte I) (in_left I))
               (fun i => zigzag_decode16 (wrapu 16 i))). apply decode_varint_I. exact Hv.
    - pose proof (zigzag_range 16 n ltac:(lia) Hr). rewrite wrapu_id by assumption.
      rewrite zigzag_decode16_spec by assumption. apply unzigzag_zigzag.
  Qed.
  Lemma read_i32_reads n bs : zz_int 32 n bs -> reads R (read_i32 c I) bs n.
  Proof.
    intros [Hr Hv]. unfold read_i32.
    replace n with (zigzag_decode32 (wrapu 32 (zigzag n))).
    - apply (reads_bind_ret R (decode_uleb c (in_read_byte I) (in_left I))
               (fun i => zigzag_decode32 (wrapu 32 i))). apply decode_varint_I. exact Hv.
    - pose proof (zigzag_range 32 n ltac:(lia) Hr). rewrite wrapu_id by assumption.
      rewrite zigzag_decode32_spec by assumption. apply unzigzag_zigzag.
  Qed.
  Lemma read_i64_reads n bs : zz_int 64 n bs -> reads R (read_i64 c I) bs n.
  Proof.
    intros [Hr Hv]. unfold read_i64.
    replace n with (zigzag_decode64 (wrapu 64 (zigzag n))).
    - apply (reads_bind_ret R (decode_uleb c (in_read_byte I) (in_left I))
               (fun i => zigzag_decode64 (wrapu 64 i))). apply decode_varint_I. exact Hv.
    - pose proof (zigzag_range 64 n ltac:(lia) Hr). rewrite wrapu_id by assumption.
      rewrite zigzag_decode64_spec by assumption. apply unzigzag_zigzag.
  Qed.

  Lemma read_field_header_stop last : reads R (read_field_header c I last) [0] (0, last).
  Proof.
    intros s rest HR. destruct (del_byte _ _ D 0 s rest HR) as (s1 & E1 & R1).
    exists s1. split; [|exact R1]. unfold read_field_header, bind. rewrite E1. reflexivity.
  Qed.

  Lemma read_field_header_reads last id t hdr :
    - 32768 <= last -> 1 <= t <= 15 -> field_header last id t hdr ->
    reads R (read_field_header c I last) hdr (t, id).
  Proof.
    intros Hl Ht Hh. destruct Hh as [Hd Hid|bs Hz].
    - intros s rest HR. destruct (del_byte _ _ D _ s rest HR) as (s1 & E1 & R1).
      exists s1. split; [|exact R1]. unfold read_field_header, bind. rewrite E1.
      replace (16 * (id - last) + t =? 0) with false by lia.
      rewrite land_15, shiftr_div by lia. change (2 ^ 4) with 16.
      replace ((16 * (id - last) + t) mod 16) with t by lia.
      replace ((16 * (id - last) + t) / 16) with (id - last) by lia.
      replace (id - last =? 0) with false by lia. cbn [negb].
      replace (last + (id - last)) with id by lia.
      replace (32767 <? id) with false by lia. rewrite andb_false_r.
      rewrite wraps_id by lia. reflexivity.
    - change (t :: bs) with ([t] ++ bs). unfold read_field_header.
      eapply reads_bind; [apply (del_byte _ _ D)|].
      replace (t =? 0) with false by lia.
      rewrite land_15, shiftr_div by lia. change (2 ^ 4) with 16.
      replace (t mod 16) with t by lia. replace (t / 16) with 0 by lia. cbn [negb Z.eqb].
      apply (reads_bind_ret R (read_full_field_id c I) (fun id => (t, id))).
      apply (read_i16_reads id bs Hz).
  Qed.

  Lemma read_collection_len_and_type_reads n et hdr :
    0 <= et <= 15 -> list_header n et hdr -> reads R (read_collection_len_and_type c I) hdr (n, et).
  Proof.
    intros Het Hh. destruct Hh as [Hn|bs Hn Hv].
    - intros s rest HR. destruct (del_byte _ _ D _ s rest HR) as (s1 & E1 & R1).
      exists s1. split; [|exact R1]. unfold read_collection_len_and_type, bind. rewrite E1.
      rewrite land_15. rewrite list_nibbles by (unfold is_byte; lia).
      replace ((16 * n + et) mod 16) with et by lia.
      replace ((16 * n + et) / 16) with n by lia.
      replace (n =? 15) with false by lia. cbn [negb ret].
      unfold ret. replace (MAX_COLLECTION_LEN <? n) with false by (unfold MAX_COLLECTION_LEN; lia).
      reflexivity.
    - change (240 + et :: bs) with ([240 + et] ++ bs). unfold read_collection_len_and_type.
      eapply reads_bind; [apply (del_byte _ _ D)|].
      rewrite land_15. rewrite list_nibbles by (unfold is_byte; lia).
      replace ((240 + et) mod 16) with et by lia.
      replace ((240 + et) / 16) with 15 by lia. cbn [negb Z.eqb Pos.eqb].
      rewrite <- (app_nil_r bs). eapply reads_bind; [apply read_len_reads; [|exact Hv]; lia|].
      replace (MAX_COLLECTION_LEN <? n) with false by (unfold MAX_COLLECTION_LEN; lia).
      apply reads_ret.
  Qed.
End Generic.
