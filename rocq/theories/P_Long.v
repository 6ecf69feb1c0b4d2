(** C04: sequences of any length. *)
From Coq Require Import ZifyBool ZifyNat ZifyN.
From Verif Require Import Base Uleb Utf8 Protocol Types SpecUtf8 SpecCompact SpecInput SpecLong
  P_Arith P_Reads P_Inputs P_Prim.
Ltac Zify.zify_post_hook ::= Z.div_mod_to_equations.

Lemma digit_bit b k m : 0 <= m < 64 -> 0 <= k < 64 ->
  Z.testbit (wrapu 64 (Z.shiftl (Z.land b 127) m)) k = true <->
  exists j, 0 <= j < 7 /\ Z.testbit b j = true /\ k = m + j.
Proof.
  intros Hm Hk. unfold wrapu. rewrite Z.mod_pow2_bits_low by lia. rewrite Z.shiftl_spec by lia.
  destruct (Z.lt_ge_cases (k - m) 0) as [Hn|Hn].
  - rewrite Z.testbit_neg_r by lia. split; [discriminate|]. intros (j & Hj & _ & E). lia.
  - change 127 with (Z.ones 7). rewrite Z.land_spec.
    destruct (Z.lt_ge_cases (k - m) 7) as [H7|H7].
    + rewrite Z.ones_spec_low by lia. rewrite andb_true_r. split.
      * intros H. exists (k - m). repeat split; [lia|lia|exact H|lia].
      * intros (j & Hj & Hb & E). replace (k - m) with j by lia. exact Hb.
    + rewrite Z.ones_spec_high by lia. rewrite andb_false_r. split; [discriminate|].
      intros (j & Hj & _ & E). lia.
Qed.

Lemma shift_step shift n : 0 <= n -> shift mod 64 = (7 * n) mod 64 ->
  wrapu 32 (shift + 7) mod 64 = (7 * (n + 1)) mod 64.
Proof.
  intros Hn H. unfold wrapu. change (2 ^ 32) with (64 * 67108864). lia.
Qed.

Lemma acc_bits bs : forall n shift value k, 0 <= n -> shift mod 64 = (7 * n) mod 64 -> 0 <= k < 64 ->
  Z.testbit (uleb_acc shift value bs) k = true <->
  Z.testbit value k = true \/
  exists i b j, nth_error bs i = Some b /\ 0 <= j < 7 /\ Z.testbit b j = true /\
                k = (7 * (n + Z.of_nat i)) mod 64 + j.
Proof.
  induction bs as [|b bs IH]; intros n shift value k Hn Hs Hk; cbn [uleb_acc].
  - split; [auto|]. intros [H|(i & b & j & Hi & _)]; [exact H|]. destruct i; discriminate.
  - rewrite (IH (n + 1)); [|lia|apply shift_step; assumption|exact Hk].
    rewrite Z.lor_spec, orb_true_iff, digit_bit by (pose proof (Z.mod_pos_bound shift 64); lia).
    rewrite Hs. split.
    + intros [[H|(j & Hj & Hb & E)]|(i & b' & j & Hi & Hj & Hb & E)].
      * auto.
      * right. exists 0%nat, b, j. repeat split; [lia|lia|exact Hb|].
        replace (n + Z.of_nat 0) with n by lia. exact E.
      * right. exists (Datatypes.S i), b', j. repeat split; [exact Hi|lia|lia|exact Hb|].
        replace (n + Z.of_nat (Datatypes.S i)) with (n + 1 + Z.of_nat i) by lia. exact E.
    + intros [H|([|i] & b' & j & Hi & Hj & Hb & E)].
      * auto.
      * left. right. injection Hi as ->. exists j. repeat split; [lia|lia|exact Hb|].
        replace (n + Z.of_nat 0) with n in E by lia. exact E.
      * right. exists i, b', j. repeat split; [exact Hi|lia|lia|exact Hb|].
        replace (n + 1 + Z.of_nat i) with (n + Z.of_nat (Datatypes.S i)) by lia. exact E.
Qed.

Lemma lor_range a b : in_u 64 a -> in_u 64 b -> in_u 64 (Z.lor a b).
Proof.
  unfold in_u. intros Ha Hb. split; [apply Z.lor_nonneg; lia|].
  assert (E : Z.lor a b = Z.lor a b mod 2 ^ 64).
  { apply Z.bits_inj'. intros k Hk. destruct (Z.lt_ge_cases k 64).
    - rewrite Z.mod_pow2_bits_low by lia. reflexivity.
    - rewrite Z.mod_pow2_bits_high by lia. rewrite Z.lor_spec.
      rewrite <- (Z.mod_small a (2 ^ 64)), <- (Z.mod_small b (2 ^ 64)) by lia.
      rewrite !Z.mod_pow2_bits_high by lia. reflexivity. }
  rewrite E. apply Z.mod_pos_bound. lia.
Qed.

Lemma acc_range bs : forall shift value, in_u 64 value -> in_u 64 (uleb_acc shift value bs).
Proof.
  induction bs as [|b bs IH]; intros shift value Hv; cbn [uleb_acc]; [exact Hv|].
  apply IH, lor_range; [exact Hv|]. unfold in_u. pose proof (wrapu_range 64 (Z.shiftl (Z.land b 127) (shift mod 64))). lia.
Qed.

Lemma acc_overlaid bs : overlaid bs (uleb_acc 0 0 bs).
Proof.
  split; [apply acc_range; unfold in_u; lia|]. intros k Hk.
  rewrite (acc_bits bs 0 0 0 k) by (lia || reflexivity). rewrite Z.testbit_0_l. split.
  - intros [H|H]; [discriminate|exact H].
  - auto.
Qed.

Lemma bits64 u v : in_u 64 u -> in_u 64 v ->
  (forall k, 0 <= k < 64 -> Z.testbit u k = true <-> Z.testbit v k = true) -> u = v.
Proof.
  unfold in_u. intros Hu Hv H. apply Z.bits_inj'. intros k Hk. destruct (Z.lt_ge_cases k 64).
  - specialize (H k ltac:(lia)). destruct (Z.testbit u k), (Z.testbit v k); try reflexivity; intuition discriminate.
  - rewrite <- (Z.mod_small u (2 ^ 64)), <- (Z.mod_small v (2 ^ 64)) by lia.
    rewrite !Z.mod_pow2_bits_high by lia. reflexivity.
Qed.

Lemma overlaid_unique bs u v : overlaid bs u -> overlaid bs v -> u = v.
Proof.
  intros [Hu U] [Hv V]. apply bits64; [exact Hu|exact Hv|]. intros k Hk. rewrite (U k Hk), (V k Hk). reflexivity.
Qed.

Lemma overlaid_one bs : exists! v, overlaid bs v.
Proof.
  exists (uleb_acc 0 0 bs). split; [apply acc_overlaid|]. intros v Hv. eapply overlaid_unique; [apply acc_overlaid|exact Hv].
Qed.

Lemma uleb_overlaid {S} (I : input S) R c bs v : delivers I R -> terminated bs ->
  (overflow_checks c = true -> 7 * zlen bs < 2 ^ 32) -> overlaid bs v ->
  reads R (decode_uleb c (in_read_byte I) (in_left I)) bs v.
Proof.
  intros D Ht Hov Hv. rewrite (overlaid_unique _ _ _ Hv (acc_overlaid bs)).
  apply decode_uleb_reads_acc; [apply (del_byte _ _ D)|apply (del_left _ _ D)|exact Ht|exact Hov].
Qed.

Lemma ints_overlaid c bs v : cfg_ok c -> terminated bs ->
  (overflow_checks c = true -> 7 * zlen bs < 2 ^ 32) -> overlaid bs v ->
  (forall n, in_s 64 n -> zigzag n = v -> both_read c (fun S I => read_i64 c I) bs n) /\
  (forall n, in_s 32 n -> zigzag n = v mod 2 ^ 32 -> both_read c (fun S I => read_i32 c I) bs n) /\
  (forall n, in_s 16 n -> zigzag n = v mod 2 ^ 16 -> both_read c (fun S I => read_i16 c I) bs n).
Proof.
  intros Hc Ht Hov Hv. split; [|split]; intros n Hn Hz; (apply both_reads; [|exact Hc]); intros S I R D.
  - replace n with (zigzag_decode64 (wrapu 64 v)).
    + apply (reads_bind_ret R (decode_uleb c (in_read_byte I) (in_left I)) (fun i => zigzag_decode64 (wrapu 64 i))).
      apply uleb_overlaid; assumption.
    + rewrite <- Hz. pose proof (zigzag_range 64 n ltac:(lia) Hn). rewrite wrapu_id by assumption.
      rewrite zigzag_decode64_spec by assumption. apply unzigzag_zigzag.
  - replace n with (zigzag_decode32 (wrapu 32 v)).
    + apply (reads_bind_ret R (decode_uleb c (in_read_byte I) (in_left I)) (fun i => zigzag_decode32 (wrapu 32 i))).
      apply uleb_overlaid; assumption.
    + unfold wrapu. rewrite <- Hz. pose proof (zigzag_range 32 n ltac:(lia) Hn).
      rewrite zigzag_decode32_spec by assumption. apply unzigzag_zigzag.
  - replace n with (zigzag_decode16 (wrapu 16 v)).
    + apply (reads_bind_ret R (decode_uleb c (in_read_byte I) (in_left I)) (fun i => zigzag_decode16 (wrapu 16 i))).
      apply uleb_overlaid; assumption.
    + unfold wrapu. rewrite <- Hz. pose proof (zigzag_range 16 n ltac:(lia) Hn).
      rewrite zigzag_decode16_spec by assumption. apply unzigzag_zigzag.
Qed.

(** * Where additions are checked *)
Lemma loop_overflows {S} (R : S -> list Z -> Prop) c (rb : M S Z) : (forall b, reads R rb [b] b) ->
  overflow_checks c = true -> forall bs, terminated bs -> forall fuel shift value s rest,
  (List.length bs <= fuel)%nat -> 0 <= shift -> 2 ^ 32 <= shift + 7 * zlen bs -> R s (bs ++ rest) ->
  snd (decode_uleb_loop c rb fuel shift value s) = Panic POverflow.
Proof.
  intros Hrb Hc bs Ht. induction Ht as [b Hb|b bs Hb Ht IH]; intros fuel shift value s rest Hf Hs Hov HR;
    (destruct fuel as [|fuel]; [cbn [List.length] in Hf; lia|]);
    cbn [decode_uleb_loop]; rewrite zlen_cons in Hov; rewrite Hc; cbn [andb].
  - destruct (Hrb b s rest HR) as (s1 & E1 & R1). unfold bind at 1. rewrite E1. rewrite zlen_nil in Hov.
    replace (2 ^ 32 <=? shift + 7) with true by lia. reflexivity.
  - destruct (Hrb b s (bs ++ rest) HR) as (s1 & E1 & R1). unfold bind at 1. rewrite E1.
    destruct (2 ^ 32 <=? shift + 7) eqn:Ho; [reflexivity|].
    rewrite land_128_0 by (unfold is_byte; lia). replace (b <? 128) with false by lia.
    rewrite wrapu_id by lia. apply (IH fuel (shift + 7) _ s1 rest); [cbn [List.length] in Hf; lia|lia|lia|exact R1].
Qed.

Lemma i64_overflows_R {S} (I : input S) R c bs s rest : delivers I R -> overflow_checks c = true -> terminated bs ->
  2 ^ 32 <= 7 * zlen bs -> R s (bs ++ rest) -> snd (read_i64 c I s) = Panic POverflow.
Proof.
  intros D Hc Ht Hl HR. unfold read_i64, bind, decode_uleb.
  pose proof (del_left _ _ D _ _ HR) as HL. rewrite app_length in HL.
  pose proof (loop_overflows R c (in_read_byte I) (del_byte _ _ D) Hc bs Ht (Datatypes.S (in_left I s)) 0 0 s rest
    ltac:(lia) ltac:(lia) ltac:(lia) HR) as E.
  destruct (decode_uleb_loop _ _ _ _ _ _) as [s' o]. cbn [snd] in E. subst o. reflexivity.
Qed.

Lemma i64_overflows c bs : cfg_ok c -> overflow_checks c = true -> terminated bs -> 2 ^ 32 <= 7 * zlen bs ->
  (forall rest, bytes rest -> snd (read_i64 c (slice_input c) (bs ++ rest)) = Panic POverflow) /\
  (forall r rest, content r = bs ++ rest -> snd (read_i64 c (reader_input c) r) = Panic POverflow).
Proof.
  intros Hk Hc Ht Hl. split.
  - intros rest Hb. eapply i64_overflows_R; [apply (slice_delivers c Hk)|exact Hc|exact Ht|exact Hl|].
    split; [reflexivity|]. apply Forall_app. split; [apply terminated_bytes; exact Ht|exact Hb].
  - intros r rest Hr. eapply i64_overflows_R; [apply (reader_delivers (ending r) c Hk)|exact Hc|exact Ht|exact Hl|].
    split; [exact Hr|reflexivity].
Qed.

(** * C16: skipping an integer with SSE2 *)
Lemma run_of p rest : bytes (p ++ rest) -> open_run p rest -> continuation_run (p ++ rest) = List.length p.
Proof.
  intros Hb [Hp Hr]. induction Hp as [|b p Hb1 Hp IH]; cbn [app List.length].
  - destruct rest as [|b q]; [reflexivity|]. cbn [continuation_run]. inversion_clear Hb.
    rewrite land_128_0 by assumption. replace (b <? 128) with true by lia. reflexivity.
  - cbn [continuation_run app] in *. inversion_clear Hb.
    rewrite land_128_0 by assumption. replace (b <? 128) with false by lia. rewrite IH by assumption. reflexivity.
Qed.

Lemma run_firstn n : forall s, bytes s -> continuation_run (firstn n s) = Nat.min n (continuation_run s).
Proof.
  induction n as [|n IH]; intros s Hs; [reflexivity|]. destruct Hs as [|b s Hb Hs]; [reflexivity|].
  cbn [firstn continuation_run]. destruct (Z.land b 128 =? 0); [reflexivity|]. rewrite IH by assumption. reflexivity.
Qed.

Lemma skip_exact c p rest : sse2 c = true -> bytes (p ++ rest) -> open_run p rest ->
  sse2_skip p rest (in_skip_integer (slice_input c) (p ++ rest)).
Proof.
  intros Hc Hb Ho. cbn [in_skip_integer slice_input]. unfold slice_skip_integer. rewrite Hc.
  pose proof (run_of p rest Hb Ho) as Hrun.
  unfold sse2_skip.
  destruct (16 <=? zlen (p ++ rest)) eqn:H16; unfold zlen in H16.
  - unfold skip_uleb_sse2. rewrite skip_uleb_sse2_len_run by assumption. rewrite run_firstn, Hrun by assumption.
    destruct (Nat.lt_ge_cases (List.length p) 16) as [Hl|Hl].
    + rewrite Nat.min_r by lia. right. left. split; [exact Hl|].
      destruct rest as [|b q]; [rewrite app_nil_r in H16; lia|]. exists b, q. split; [reflexivity|].
      unfold zlen. rewrite app_length in *. cbn [List.length] in *.
      replace (Z.of_nat (List.length p) + 1 <=? Z.of_nat (List.length p + Datatypes.S (List.length q))) with true by lia.
      f_equal. replace (Z.to_nat (Z.of_nat (List.length p) + 1)) with (List.length p + 1)%nat by lia.
      rewrite skipn_app. rewrite skipn_all2 by lia. replace (List.length p + 1 - List.length p)%nat with 1%nat by lia. reflexivity.
    + rewrite Nat.min_l by lia. change (Z.of_nat 16 + 1) with 17. unfold zlen.
      destruct (17 <=? Z.of_nat (List.length (p ++ rest))) eqn:H17.
      * right. right. right. split; [exact Hl|]. exists (firstn 17 (p ++ rest)), (skipn 17 (p ++ rest)).
        split; [symmetry; apply firstn_skipn|]. split; [rewrite firstn_length; lia|reflexivity].
      * right. right. left. split; [exact Hl|]. split; [lia|reflexivity].
  - unfold skip_uleb_fallback. rewrite Hrun. destruct rest as [|b q].
    + left. rewrite app_nil_r in *. split; [lia|]. split; [reflexivity|].
      replace (Nat.leb (List.length p + 1) (List.length p)) with false by lia. reflexivity.
    + right. left. split; [rewrite app_length in H16; cbn [List.length] in H16; lia|].
      exists b, q. split; [reflexivity|]. rewrite app_length in *. cbn [List.length] in *.
      replace (Nat.leb (List.length p + 1) (List.length p + Datatypes.S (List.length q))) with true by lia.
      f_equal. rewrite skipn_app. rewrite skipn_all2 by lia.
      replace (List.length p + 1 - List.length p)%nat with 1%nat by lia. reflexivity.
Qed.

(** The same without SSE2. *)
Lemma loop_open {S} (R : S -> list Z -> Prop) c (rb : M S Z) :
  (forall b, reads R rb [b] b) -> forall p fuel shift value s rest e,
  (forall s', R s' [] -> exists s'', rb s' = (s'', Err e)) ->
  Forall (fun b => 128 <= b < 256) p -> (List.length p < fuel)%nat -> 0 <= shift ->
  (overflow_checks c = true -> shift + 7 * zlen p < 2 ^ 32) -> R s (p ++ rest) -> rest = [] ->
  snd (decode_uleb_loop c rb fuel shift value s) = Err e.
Proof.
  intros Hrb p. induction p as [|b p IH]; intros fuel shift value s rest e He Hp Hf Hs Hov HR ->;
    (destruct fuel as [|fuel]; [lia|]); cbn [decode_uleb_loop]; unfold bind at 1.
  - destruct (He s HR) as [s'' E]. rewrite E. reflexivity.
  - rewrite zlen_cons in Hov. pose proof (zlen_nonneg p). inversion_clear Hp.
    destruct (Hrb b s (p ++ []) HR) as (s1 & E1 & R1). rewrite E1.
    destruct (overflow_checks c && (2 ^ 32 <=? shift + 7)) eqn:Ho.
    { apply andb_true_iff in Ho as [Ho1 Ho2]. specialize (Hov Ho1). lia. }
    rewrite land_128_0 by (unfold is_byte; lia). replace (b <? 128) with false by lia.
    apply (IH fuel _ _ s1 [] e He); [assumption|cbn [List.length] in Hf; lia| | |exact R1|reflexivity].
    + pose proof (wrapu_range 32 (shift + 7)). lia.
    + intros Ho1. specialize (Hov Ho1). rewrite wrapu_id; lia.
Qed.

Lemma run_terminated p b : Forall (fun b => 128 <= b < 256) p -> 0 <= b < 128 -> terminated (p ++ [b]).
Proof. intros Hp Hb. induction Hp; cbn [app]; constructor; assumption. Qed.

Lemma run_bytes p rest : bytes (p ++ rest) -> open_run p rest ->
  Forall (fun b => 128 <= b < 256) p /\ match rest with [] => True | b :: _ => 0 <= b < 128 end.
Proof.
  intros Hb [Hp Hr]. apply Forall_app in Hb as [H1 H2]. split.
  - rewrite Forall_forall in *. intros x Hx. specialize (H1 x Hx). specialize (Hp x Hx). unfold is_byte in H1. lia.
  - destruct H2 as [|b q Hb _]; [exact I|]. unfold is_byte in Hb. lia.
Qed.

Lemma skip_plain c p rest : sse2 c = false -> bytes (p ++ rest) -> open_run p rest ->
  (overflow_checks c = true -> 7 * (zlen p + 1) < 2 ^ 32) ->
  match rest with
  | [] => snd (in_skip_integer (slice_input c) (p ++ rest)) = Err (IO UnexpectedEof)
  | _ :: q => in_skip_integer (slice_input c) (p ++ rest) = (q, Ok tt)
  end.
Proof.
  intros Hc Hb Ho Hov. cbn [in_skip_integer slice_input]. unfold slice_skip_integer. rewrite Hc.
  destruct (run_bytes p rest Hb Ho) as [Hp Hr].
  destruct rest as [|b q].
  - rewrite app_nil_r. unfold bind, decode_uleb.
    assert (E : snd (decode_uleb_loop c slice_read_byte (Datatypes.S (slice_left p)) 0 0 p) = Err (IO UnexpectedEof)).
    { apply (loop_open (fun s bs => s = bs) c slice_read_byte) with (p := p) (rest := []);
        [intros b s r ->; exists r; split; reflexivity| |exact Hp|unfold slice_left; lia|lia| |symmetry; apply app_nil_r|reflexivity].
      - intros s' ->. exists []. reflexivity.
      - intros H1. specialize (Hov H1). lia. }
    destruct (decode_uleb_loop _ _ _ _ _ _) as [s' o]. cbn [snd] in E. subst o. reflexivity.
  - destruct (decode_uleb_reads_acc (fun s bs => s = bs) c slice_read_byte slice_left) with (bs := p ++ [b]) (s := p ++ b :: q) (rest := q) as (s' & E & ->).
    + intros b' s r ->. exists r. split; reflexivity.
    + intros s bs ->. unfold slice_left. lia.
    + apply run_terminated; assumption.
    + intros H1. specialize (Hov H1). unfold zlen in *. rewrite app_length. cbn [List.length]. lia.
    + rewrite <- app_assoc. reflexivity.
    + unfold bind. rewrite E. reflexivity.
Qed.
