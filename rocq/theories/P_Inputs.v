(** Slices and readers obey the input laws. *)
From Coq Require Import ZifyBool ZifyNat ZifyN.
From Verif Require Import SpecInput Base Uleb Utf8 Protocol Types SpecUtf8 SpecCompact P_Arith P_Reads.
Ltac Zify.zify_post_hook ::= Z.div_mod_to_equations.

(** * Skipping a varint in a slice *)
Lemma movemask_nonneg l : bytes l -> 0 <= movemask l.
Proof.
  induction 1 as [|b l Hb Hl IH]; cbn [movemask]; [lia|].
  rewrite shiftr_div by lia. change (2 ^ 7) with 128. unfold is_byte in Hb. lia.
Qed.

Lemma trailing_zeros_mask chunk : bytes chunk -> forall k n,
  Z.of_nat (List.length chunk) < k -> (List.length chunk < n)%nat ->
  trailing_zeros_from n (wrapu k (Z.lnot (movemask chunk))) = Z.of_nat (continuation_run chunk).
Proof.
  induction 1 as [|b l Hb Hl IH]; intros k n Hk Hn; (destruct n as [|n]; [cbn in Hn; lia|]);
  cbn [movemask continuation_run trailing_zeros_from List.length] in *.
  - change (Z.lnot 0) with (-1). unfold wrapu.
    replace (Z.testbit (-1 mod 2 ^ k) 0) with true; [reflexivity|].
    symmetry. rewrite Z.mod_pow2_bits_low by lia. reflexivity.
  - rewrite land_128_0 by exact Hb. unfold is_byte in Hb.
    rewrite shiftr_div by lia. change (2 ^ 7) with 128.
    assert (Hbit : Z.testbit (wrapu k (Z.lnot (b / 128 + 2 * movemask l))) 0 = (b <? 128)).
    { unfold wrapu. rewrite Z.mod_pow2_bits_low by lia.
      rewrite Z.lnot_spec by lia. rewrite Z.bit0_odd, Z.add_comm.
      rewrite Z.add_comm, Z.odd_add_mul_2.
      assert (b / 128 = if b <? 128 then 0 else 1) as ->.
      { destruct (b <? 128) eqn:E; lia. }
      destruct (b <? 128); reflexivity. }
    rewrite Hbit. destruct (b <? 128) eqn:E; [reflexivity|].
    replace (b / 128) with 1 by lia.
    replace (Z.shiftr (wrapu k (Z.lnot (1 + 2 * movemask l))) 1) with (wrapu (k - 1) (Z.lnot (movemask l))).
    + rewrite IH by lia. lia.
    + unfold wrapu. rewrite shiftr_div by lia. change (2 ^ 1) with 2.
      unfold Z.lnot.
      replace (Z.pred (- (1 + 2 * movemask l))) with (2 * Z.pred (- movemask l)) by lia.
      replace (2 ^ k) with (2 * 2 ^ (k - 1)) by (rewrite <- Z.pow_succ_r by lia; f_equal; lia).
      rewrite Zmult_mod_distr_l. symmetry. rewrite Z.mul_comm. apply Z.div_mul. lia.
Qed.

Lemma tz_step n x :
  trailing_zeros_from (Datatypes.S n) x = if Z.testbit x 0 then 0 else 1 + trailing_zeros_from n (Z.shiftr x 1).
Proof. reflexivity. Qed.

Lemma skip_uleb_sse2_len_run s :
  bytes s -> skip_uleb_sse2_len s = Z.of_nat (continuation_run (firstn 16 s)) + 1.
Proof.
  intros Hb. unfold skip_uleb_sse2_len, trailing_zeros32.
  assert (Hb16 : bytes (firstn 16 s)).
  { unfold bytes in *. rewrite <- (firstn_skipn 16 s) in Hb. apply Forall_app in Hb. apply Hb. }
  assert (Hlen : (List.length (firstn 16 s) <= 16)%nat) by apply firstn_le_length.
  set (chunk := firstn 16 s) in *. clearbody chunk. clear Hb s.
  rewrite <- (trailing_zeros_mask chunk Hb16 31 31) by lia.
  change 32%nat with (Datatypes.S 31). rewrite tz_step.
  replace (Z.testbit _ 0) with false.
  - rewrite Z.add_comm. do 2 f_equal. unfold wrapu.
    rewrite shiftl_mul, shiftr_div by lia. change (2 ^ 1) with 2.
    set (x := Z.lnot (movemask chunk)). clearbody x.
    change (2 ^ 32) with 4294967296. change (2 ^ 31) with 2147483648. lia.
  - unfold wrapu. symmetry. rewrite Z.mod_pow2_bits_low by lia. apply Z.shiftl_spec_low. lia.
Qed.

Lemma continuation_run_terminated bs rest :
  terminated bs -> continuation_run (bs ++ rest) = (List.length bs - 1)%nat.
Proof.
  induction 1 as [b Hb|b bs Hb Ht IH]; cbn [app continuation_run List.length];
    rewrite land_128_0 by (unfold is_byte; lia).
  - replace (b <? 128) with true by lia. reflexivity.
  - replace (b <? 128) with false by lia. rewrite IH.
    pose proof (terminated_nonempty _ Ht). lia.
Qed.

(** * Slices *)
Definition slice_holds (s : list Z) (bs : list Z) : Prop := s = bs /\ bytes bs.

Lemma slice_byte b : reads slice_holds slice_read_byte [b] b.
Proof.
  intros s rest [-> Hb]. exists rest. split; [reflexivity|]. split; [reflexivity|].
  inversion Hb; assumption.
Qed.

Lemma bytes_app l1 l2 : bytes (l1 ++ l2) <-> bytes l1 /\ bytes l2.
Proof. unfold bytes. apply Forall_app. Qed.

Lemma slice_holds_left s bs : slice_holds s bs -> (List.length bs <= slice_left s)%nat.
Proof. intros [-> _]. unfold slice_left. lia. Qed.

Lemma skipn_app_exact {A} n (l1 l2 : list A) : List.length l1 = n -> skipn n (l1 ++ l2) = l2.
Proof. intros <-. rewrite skipn_app, Nat.sub_diag, skipn_all. reflexivity. Qed.
Lemma firstn_app_exact {A} n (l1 l2 : list A) : List.length l1 = n -> firstn n (l1 ++ l2) = l1.
Proof. intros <-. rewrite firstn_app, Nat.sub_diag, firstn_all. apply app_nil_r. Qed.

Lemma slice_delivers c : cfg_ok c -> delivers (slice_input c) slice_holds.
Proof.
  intros Hc. constructor.
  - exact slice_byte.
  - intros p Hp s rest [-> Hb]. cbn [slice_input in_read_double]. exists rest.
    unfold slice_read_double. rewrite zlen_app.
    replace (zlen p + zlen rest <? 8) with false by (unfold zlen; lia).
    rewrite skipn_app_exact, firstn_app_exact by exact Hp.
    rewrite from_le_bytes_digits. apply bytes_app in Hb. split; [reflexivity|split; [reflexivity|apply Hb]].
  - intros p bs (len & -> & Hv & Hmax & Hp). cbn [slice_input in_read_binary]. unfold slice_read_binary.
    eapply reads_bind.
    + apply read_len_with_reads with (n := zlen p); [exact slice_byte|exact slice_holds_left|exact Hc|lia|exact Hv].
    + replace (MAX_BINARY_LEN <? zlen p) with false by (unfold MAX_BINARY_LEN; lia).
      intros s rest [-> Hb]. exists rest. rewrite zlen_app.
      replace (zlen p + zlen rest <? zlen p) with false by (unfold zlen; lia).
      rewrite skipn_app_exact, firstn_app_exact by (unfold zlen; lia).
      apply bytes_app in Hb. split; [reflexivity|split; [reflexivity|apply Hb]].
  - intros n bs Hv. cbn [slice_input in_skip_integer]. unfold slice_skip_integer.
    destruct (sse2 c) eqn:Hsse.
    + intros s rest [-> Hb]. exists rest. destruct Hv as (Ht & _ & Hlen & _).
      pose proof (terminated_nonempty _ Ht) as Hne.
      destruct (16 <=? zlen (bs ++ rest)) eqn:H16.
      * unfold skip_uleb_sse2. rewrite skip_uleb_sse2_len_run by exact Hb.
        replace (continuation_run (firstn 16 (bs ++ rest))) with (List.length bs - 1)%nat.
        -- replace (Z.of_nat (List.length bs - 1) + 1 <=? zlen (bs ++ rest)) with true by (rewrite zlen_app; unfold zlen; lia).
           rewrite skipn_app_exact by lia.
           apply bytes_app in Hb. split; [reflexivity|split; [reflexivity|apply Hb]].
        -- rewrite firstn_app. rewrite firstn_all2 by lia.
           symmetry. apply continuation_run_terminated. exact Ht.
      * unfold skip_uleb_fallback. rewrite continuation_run_terminated by exact Ht.
        replace (Nat.leb (List.length bs - 1 + 1) (List.length (bs ++ rest))) with true
          by (rewrite app_length; lia).
        rewrite skipn_app_exact by lia.
        apply bytes_app in Hb. split; [reflexivity|split; [reflexivity|apply Hb]].
    + apply (reads_bind_ret slice_holds (decode_uleb c slice_read_byte slice_left) (fun _ => tt) bs n).
      apply decode_varint; [exact slice_byte|exact slice_holds_left|exact Hv].
  - intros p bs (len & -> & Hv & Hmax & Hp). cbn [slice_input in_skip_binary]. unfold slice_skip_binary.
    eapply reads_bind.
    + apply read_len_with_reads with (n := zlen p); [exact slice_byte|exact slice_holds_left|exact Hc|lia|exact Hv].
    + replace (MAX_BINARY_LEN <? zlen p) with false by (unfold MAX_BINARY_LEN; lia).
      intros s rest [-> Hb]. exists rest. rewrite zlen_app.
      replace (zlen p + zlen rest <? zlen p) with false by (unfold zlen; lia).
      rewrite skipn_app_exact by (unfold zlen; lia).
      apply bytes_app in Hb. split; [reflexivity|split; [reflexivity|apply Hb]].
  - exact slice_holds_left.
Qed.

(** * Readers *)

Definition reader_holds (e : error) (r : reader) (bs : list Z) : Prop := content r = bs /\ ending r = e.

Lemma read_exact_content r : forall n,
  match read_exact_go r n with
  | (r', Ok l) => content r = l ++ content r' /\ List.length l = n /\ ending r' = ending r
  | (r', Err e) => (List.length (content r) < n)%nat /\ e = ending r
  | (_, Panic _) => False
  end.
Proof.
  induction r as [|ev r IH]; intros n.
  { destruct n; cbn; [auto|]. split; [lia|reflexivity]. }
  destruct n as [|n]; [cbn [read_exact_go]; auto|].
  destruct ev as [chunk| |k]; cbn [read_exact_go].
  - destruct chunk as [|b chunk].
    { cbn. split; [lia|reflexivity]. }
    destruct (Nat.leb (List.length (b :: chunk)) (Datatypes.S n)) eqn:Hle.
    + specialize (IH (Datatypes.S n - List.length (b :: chunk))%nat).
      destruct (read_exact_go r _) as [r' [l|e|p]].
      * destruct IH as (Hc & Hl & He). cbn [content ending]. rewrite Hc, app_assoc.
        split; [reflexivity|split; [|exact He]]. rewrite app_length. apply Nat.leb_le in Hle. lia.
      * destruct IH as (Hl & He). cbn [content ending]. rewrite app_length.
        apply Nat.leb_le in Hle. split; [lia|exact He].
      * exact IH.
    + apply Nat.leb_gt in Hle.
      assert (Hs : content (RData (skipn (Datatypes.S n) (b :: chunk)) :: r)
                   = skipn (Datatypes.S n) (b :: chunk) ++ content r
                   /\ ending (RData (skipn (Datatypes.S n) (b :: chunk)) :: r) = ending r).
      { assert (List.length (skipn (Datatypes.S n) (b :: chunk)) <> 0%nat) by (rewrite skipn_length; lia).
        destruct (skipn (Datatypes.S n) (b :: chunk)); [cbn in H; lia|split; reflexivity]. }
      destruct Hs as [-> ->]. cbn [ending]. change (content (RData (b :: chunk) :: r)) with ((b :: chunk) ++ content r).
      rewrite app_assoc, firstn_skipn. split; [reflexivity|]. split; [|reflexivity].
      rewrite firstn_length. lia.
  - cbn [content ending]. apply IH.
  - destruct k; cbn [content ending];
      try (split; [cbn; lia|reflexivity]).
    apply IH.
Qed.

Lemma read_exact_reads e bs : reads (reader_holds e) (read_exact (List.length bs)) bs bs.
Proof.
  intros r rest [H He]. unfold reader_holds in *. unfold read_exact.
  pose proof (read_exact_content r (List.length bs)) as HC.
  destruct (read_exact_go r (List.length bs)) as [r' [l|e'|p]].
  - destruct HC as (HC & Hl & He'). rewrite H in HC.
    assert (bs = l /\ rest = content r') as [-> ->].
    { clear -HC Hl. revert l HC Hl. induction bs as [|b bs IH]; intros [|x l] HC Hl; cbn in *; try lia; auto.
      injection HC as <- HC. destruct (IH l HC ltac:(lia)) as [-> ->]. auto. }
    exists r'. split; [reflexivity|]. split; [reflexivity|congruence].
  - destruct HC as [HC _]. rewrite H, app_length in HC. lia.
  - contradiction.
Qed.

Lemma reader_byte e b : reads (reader_holds e) reader_read_byte [b] b.
Proof. apply (reads_bind_ret _ (read_exact 1) (fun buf => nth 0 buf 0) [b] [b]). apply (read_exact_reads e [b]). Qed.

Lemma content_left r : (List.length (content r) <= reader_left r)%nat.
Proof.
  induction r as [|[[|b chunk]| |k] r IH]; cbn [content reader_left List.length]; try lia.
  - rewrite app_length. cbn [List.length]. lia.
  - destruct k; cbn [List.length]; lia.
Qed.

Lemma reader_holds_left e r bs : reader_holds e r bs -> (List.length bs <= reader_left r)%nat.
Proof. intros [<- _]. apply content_left. Qed.

Lemma reader_binary_reads e c p bs : cfg_ok c -> binary p bs -> reads (reader_holds e) (reader_read_binary c) bs p.
Proof.
  intros Hc (len & -> & Hv & Hmax & Hp). unfold reader_read_binary.
  eapply reads_bind.
  - apply read_len_with_reads with (n := zlen p); [exact (reader_byte e)|exact (reader_holds_left e)|exact Hc|lia|exact Hv].
  - replace (MAX_BINARY_LEN <? zlen p) with false by (unfold MAX_BINARY_LEN; lia).
    replace (Z.to_nat (zlen p)) with (List.length p) by (unfold zlen; lia).
    apply read_exact_reads.
Qed.

Lemma reader_delivers e c : cfg_ok c -> delivers (reader_input c) (reader_holds e).
Proof.
  intros Hc. constructor; cbn [reader_input in_read_byte in_read_double in_read_binary in_skip_integer in_skip_binary in_left].
  - exact (reader_byte e).
  - intros p Hp. rewrite <- from_le_bytes_digits.
    apply (reads_bind_ret _ (read_exact 8) from_le_bytes p p). rewrite <- Hp. apply read_exact_reads.
  - intros p bs Hb. apply reader_binary_reads; assumption.
  - intros n bs Hv. apply (reads_bind_ret _ (decode_uleb c reader_read_byte reader_left) (fun _ => tt) bs n).
    apply decode_varint; [exact (reader_byte e)|exact (reader_holds_left e)|exact Hv].
  - intros p bs Hb. apply (reads_bind_ret _ (reader_read_binary c) (fun _ => tt) bs p).
    apply reader_binary_reads; assumption.
  - exact (reader_holds_left e).
Qed.

(** * Both at once *)
Lemma both_reads {A} c (m : forall S, input S -> M S A) bs a :
  (forall S (I : input S) (R : S -> list Z -> Prop), delivers I R -> reads R (m S I) bs a) ->
  cfg_ok c -> both_read c m bs a.
Proof.
  intros H Hc. split.
  - intros rest Hb. destruct (H _ _ _ (slice_delivers c Hc) (bs ++ rest) rest) as (s' & E1 & [-> _]); [split; auto|exact E1].
  - intros r rest Hr. destruct (H _ _ _ (reader_delivers (ending r) c Hc) r rest) as (s' & E1 & R1 & R2); [split; auto|].
    exists s'. auto.
Qed.
