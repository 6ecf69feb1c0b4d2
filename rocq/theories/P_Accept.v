(** Exactly what is accepted: the lemmas behind C90. *)
From Coq Require Import ZifyBool ZifyNat ZifyN.
From Verif Require Import Base Uleb Utf8 Protocol Encodings Types SpecUtf8 SpecCompact SpecInput SpecDefault SpecAccept
  P_Arith P_Utf8 P_Inputs P_Fill P_Write P_EncSet P_Default P_SimInst P_Robust Schema SampleSchema.
Ltac Zify.zify_post_hook ::= Z.div_mod_to_equations.

(** [m] succeeds with [a] exactly on the byte strings of [R a]. *)
Definition exactly {A} (m : M (list Z) A) (R : A -> list Z -> Prop) : Prop :=
  forall s s' a, bytes s -> (m s = (s', Ok a) <-> exists p, s = p ++ s' /\ R a p).

Lemma exactly_weaken {A} (m : M (list Z) A) R R' : exactly m R -> (forall a p, bytes p -> (R a p <-> R' a p)) -> exactly m R'.
Proof.
  intros H HR s s' a Hb. rewrite (H s s' a Hb). split; intros (p & -> & Hp); exists p; (split; [reflexivity|]); apply bytes_app in Hb as [Hb _]; apply (HR a p Hb); exact Hp.
Qed.
Lemma exactly_ret {A} (a : A) : exactly (ret a) (fun b p => b = a /\ p = []).
Proof.
  intros s s' b Hb. split.
  - intros H. injection H as <- <-. exists []. auto.
  - intros (p & -> & -> & ->). reflexivity.
Qed.
Lemma exactly_fail {A} e : exactly (@fail (list Z) A e) (fun _ _ => False).
Proof. intros s s' b Hb. split; [discriminate|]. intros (p & _ & []). Qed.
Lemma exactly_crash {A} e : exactly (@crash (list Z) A e) (fun _ _ => False).
Proof. intros s s' b Hb. split; [discriminate|]. intros (p & _ & []). Qed.
Lemma exactly_bind {A B} (m : M (list Z) A) (k : A -> M (list Z) B) R Q :
  exactly m R -> (forall a, exactly (k a) (Q a)) -> exactly (bind m k) (fun b p => exists a p1 p2, p = p1 ++ p2 /\ R a p1 /\ Q a b p2).
Proof.
  intros Hm Hk s s' b Hb. unfold bind. split.
  - destruct (m s) as [s1 [a|e|p]] eqn:H1; try discriminate. intros H2. apply Hm in H1 as (p1 & -> & HR); [|exact Hb].
    apply bytes_app in Hb as [_ Hb]. apply (Hk a) in H2 as (p2 & -> & HQ); [|exact Hb].
    exists (p1 ++ p2). rewrite app_assoc. split; [reflexivity|]. exists a, p1, p2. auto.
  - intros (p & -> & a & p1 & p2 & -> & HR & HQ). rewrite <- app_assoc in *.
    assert (H1 : m (p1 ++ p2 ++ s') = (p2 ++ s', Ok a)) by (apply (Hm _ _ _ Hb); exists p1; auto). rewrite H1.
    apply bytes_app in Hb as [_ Hb]. apply (Hk a _ _ _ Hb). exists p2. auto.
Qed.
Lemma exactly_if {A} (b : bool) (m1 m2 : M (list Z) A) R1 R2 : exactly m1 R1 -> exactly m2 R2 -> exactly (if b then m1 else m2) (if b then R1 else R2).
Proof. destruct b; auto. Qed.
Lemma exactly_byte : exactly slice_read_byte (fun b p => p = [b]).
Proof.
  intros s s' b Hb. unfold slice_read_byte. split.
  - destruct s as [|x s]; [discriminate|]. intros H. injection H as <- <-. exists [x]. auto.
  - intros (p & -> & ->). reflexivity.
Qed.

Section Exact.
  Variable c : cfg.
  Hypothesis Hc : cfg_ok c.

  (** * Numbers *)
  Lemma digit_joined b k : is_byte b -> 0 <= k -> wrapu 64 (Z.shiftl (Z.land b 127) k) = (b mod 128) * 2 ^ k mod 2 ^ 64.
  Proof. intros Hb Hk. unfold wrapu. rewrite Z.shiftl_mul_pow2 by lia. change 127 with (Z.ones 7). rewrite Z.land_ones by lia. reflexivity. Qed.
  Lemma land128 b : is_byte b -> (Z.land b 128 =? 0) = (b <? 128).
  Proof. intros Hb. unfold is_byte in Hb. destruct (b <? 128) eqn:H.
    - apply Z.eqb_eq. apply Z.bits_inj'. intros k Hk. rewrite Z.land_spec, Z.bits_0. change 128 with (2 ^ 7). rewrite Z.pow2_bits_eqb by lia.
      destruct (7 =? k) eqn:Hk7; [|apply andb_false_r]. replace k with 7 by lia. rewrite andb_true_r. rewrite Z.testbit_false by lia. change (2 ^ 7) with 128. rewrite Z.div_small by lia. reflexivity.
    - apply Z.eqb_neq. intros H0. assert (Hbit : Z.testbit (Z.land b 128) 7 = true).
      { rewrite Z.land_spec. change (Z.testbit 128 7) with true. rewrite andb_true_r, Z.testbit_true by lia. change (2 ^ 7) with 128. replace (b / 128) with 1 by lia. reflexivity. }
      rewrite H0 in Hbit. rewrite Z.bits_0 in Hbit. discriminate. Qed.
  Definition shift_of (i : Z) : Z := (7 * i) mod 2 ^ 32.
  Lemma loop_sound fuel : forall i value s s' n, 0 <= i -> (overflow_checks c = true -> 7 * i < 2 ^ 32) -> bytes s ->
    decode_uleb_loop c slice_read_byte fuel (shift_of i) value s = (s', Ok n) ->
    exists p, s = p ++ s' /\ terminated p /\ n = Z.lor value (joined i p) /\ (overflow_checks c = true -> 7 * (i + zlen p) < 2 ^ 32).
  Proof.
    induction fuel as [|fuel IH]; intros i value s s' n Hi Ho Hb H; cbn [decode_uleb_loop] in H; [discriminate|].
    unfold bind, slice_read_byte in H. destruct s as [|b s]; [discriminate|].
    assert (Hbb : is_byte b) by (inversion Hb; assumption). assert (Hbs : bytes s) by (inversion Hb; assumption).
    rewrite digit_joined in H; [|exact Hbb|lia].
    replace (shift_of i mod 64) with ((7 * i) mod 64) in H by (unfold shift_of; clear; lia).
    destruct (overflow_checks c && (2 ^ 32 <=? shift_of i + 7)) eqn:Hov; [discriminate|].
    replace (wrapu 32 (shift_of i + 7)) with (shift_of (i + 1)) in H by (unfold shift_of, wrapu; clear; lia).
    assert (Ho' : overflow_checks c = true -> 7 * (i + 1) < 2 ^ 32).
    { intros E. rewrite E in Hov. specialize (Ho E). cbn [andb] in Hov. unfold shift_of in Hov. rewrite Z.mod_small in Hov by lia. lia. }
    rewrite land128 in H by exact Hbb. unfold is_byte in Hbb. destruct (b <? 128) eqn:Hb128.
    - injection H as <- <-. exists [b]. split; [reflexivity|]. split; [constructor; lia|]. cbn [joined]. rewrite Z.lor_0_r.
      split; [reflexivity|]. intros E. specialize (Ho' E). unfold zlen. cbn [List.length]. lia.
    - apply IH in H as (p & -> & Ht & -> & Ho2); [|lia|exact Ho'|exact Hbs]. exists (b :: p). split; [reflexivity|].
      split; [constructor; [lia|exact Ht]|]. cbn [joined]. rewrite Z.lor_assoc. split; [reflexivity|]. intros E. specialize (Ho2 E).
      unfold zlen in *. cbn [List.length]. lia.
  Qed.
  Lemma loop_complete p : terminated p -> forall fuel i value s', 0 <= i -> (List.length p <= fuel)%nat -> bytes p -> (overflow_checks c = true -> 7 * (i + zlen p) < 2 ^ 32) ->
    decode_uleb_loop c slice_read_byte fuel (shift_of i) value (p ++ s') = (s', Ok (Z.lor value (joined i p))).
  Proof.
    induction 1 as [b Hb|b p Hb Ht IH]; intros fuel i value s' Hi Hf Hbs Ho; (destruct fuel as [|fuel]; [cbn [List.length] in Hf; lia|]);
      cbn [decode_uleb_loop]; unfold bind, slice_read_byte; cbn [app].
    - rewrite digit_joined; [|unfold is_byte; lia|lia]. rewrite land128 by (unfold is_byte; lia). replace (b <? 128) with true by lia.
      replace (shift_of i mod 64) with ((7 * i) mod 64) by (unfold shift_of; clear; lia).
      replace (overflow_checks c && (2 ^ 32 <=? shift_of i + 7)) with false.
      { cbn [joined]. rewrite Z.lor_0_r. reflexivity. }
      symmetry. destruct (overflow_checks c); [|reflexivity]. specialize (Ho eq_refl). cbn [andb]. unfold zlen in Ho. cbn [List.length] in Ho. unfold shift_of. rewrite Z.mod_small by lia. lia.
    - rewrite digit_joined; [|unfold is_byte; lia|lia]. rewrite land128 by (unfold is_byte; lia). replace (b <? 128) with false by lia.
      replace (shift_of i mod 64) with ((7 * i) mod 64) by (unfold shift_of; clear; lia).
      assert (Hl : zlen (b :: p) = zlen p + 1) by (unfold zlen; cbn [List.length]; lia).
      assert (0 <= zlen p) by (unfold zlen; lia).
      replace (overflow_checks c && (2 ^ 32 <=? shift_of i + 7)) with false.
      { replace (wrapu 32 (shift_of i + 7)) with (shift_of (i + 1)) by (unfold shift_of, wrapu; clear; lia).
        rewrite IH; [cbn [joined]; rewrite Z.lor_assoc; reflexivity|lia|cbn [List.length] in Hf; lia|inversion Hbs; assumption|].
        intros E. specialize (Ho E). lia. }
      symmetry. destruct (overflow_checks c); [|reflexivity]. specialize (Ho eq_refl). cbn [andb]. unfold shift_of. rewrite Z.mod_small by lia. lia.
  Qed.
  Lemma exactly_uleb : exactly (decode_uleb c slice_read_byte slice_left) (number c).
  Proof.
    intros s s' n Hb. unfold decode_uleb, number. change 0 with (shift_of 0) at 1. split.
    - intros H. apply loop_sound in H as (p & -> & Ht & -> & Ho); [|lia|lia|exact Hb]. exists p. split; [reflexivity|]. split; [exact Ht|].
      split; [rewrite Z.lor_0_l; reflexivity|]. exact Ho.
    - intros (p & -> & Ht & <- & Ho). rewrite loop_complete; [rewrite Z.lor_0_l; reflexivity|exact Ht|lia| | |exact Ho].
      + unfold slice_left. rewrite app_length. lia.
      + apply bytes_app in Hb as [Hb _]. exact Hb.
  Qed.
  Lemma unzigzag_signed bits n : signed bits n = unzigzag (n mod 2 ^ bits).
  Proof. unfold signed, unzigzag. cbv zeta. set (m := n mod 2 ^ bits). destruct (Z.even m) eqn:He; [reflexivity|].
    pose proof (Zmod_even m) as Hm. rewrite He in Hm. clearbody m. lia. Qed.
  Lemma exactly_map {A B} (m : M (list Z) A) (f : A -> B) R : exactly m R -> exactly (let! a := m in ret (f a)) (fun b p => exists a, b = f a /\ R a p).
  Proof.
    intros H. eapply exactly_weaken; [apply exactly_bind; [exact H|intros a; apply exactly_ret]|]. cbn beta. intros b p _. split.
    - intros (a & p1 & p2 & -> & HR & -> & ->). rewrite app_nil_r. eauto.
    - intros (a & -> & HR). exists a, p, []. rewrite app_nil_r. auto.
  Qed.
  Lemma exactly_len : exactly (read_len_with c slice_read_byte slice_left) (fun n p => exists m, n = length_of c m /\ number c m p).
  Proof. unfold read_len_with, length_of. exact (exactly_map _ _ _ exactly_uleb). Qed.
  Lemma exactly_i16 : exactly (read_i16 c (slice_input c)) (fun z p => exists n, z = signed 16 n /\ number c n p).
  Proof.
    eapply exactly_weaken; [exact (exactly_map _ _ _ exactly_uleb)|]. cbn beta. intros z p _.
    split; intros (n & -> & H); exists n; (split; [|exact H]); rewrite unzigzag_signed, zigzag_decode16_spec; try reflexivity; unfold wrapu; lia.
  Qed.
  Lemma exactly_i32 : exactly (read_i32 c (slice_input c)) (fun z p => exists n, z = signed 32 n /\ number c n p).
  Proof.
    eapply exactly_weaken; [exact (exactly_map _ _ _ exactly_uleb)|]. cbn beta. intros z p _.
    split; intros (n & -> & H); exists n; (split; [|exact H]); rewrite unzigzag_signed, zigzag_decode32_spec; try reflexivity; unfold wrapu; lia.
  Qed.
  Lemma exactly_i64 : exactly (read_i64 c (slice_input c)) (fun z p => exists n, z = signed 64 n /\ number c n p).
  Proof.
    eapply exactly_weaken; [exact (exactly_map _ _ _ exactly_uleb)|]. cbn beta. intros z p _.
    split; intros (n & -> & H); exists n; (split; [|exact H]); rewrite unzigzag_signed, zigzag_decode64_spec; try reflexivity; unfold wrapu; lia.
  Qed.
  Lemma exactly_take n : exactly (fun s => if zlen s <? n then (s, Err (IO UnexpectedEof)) else (skipn (Z.to_nat n) s, Ok (firstn (Z.to_nat n) s)))
    (fun l p => l = p /\ zlen p = Z.max 0 n).
  Proof.
    intros s s' l Hb. split.
    - destruct (zlen s <? n) eqn:Hn; [discriminate|]. intros H. injection H as <- <-. exists (firstn (Z.to_nat n) s). rewrite firstn_skipn.
      split; [reflexivity|]. split; [reflexivity|]. unfold zlen in *. rewrite firstn_length. lia.
    - intros (p & -> & -> & Hl). assert (Hn : zlen (p ++ s') <? n = false) by (unfold zlen in *; rewrite app_length; lia). rewrite Hn.
      assert (Hp : List.length p = Z.to_nat n) by (unfold zlen in Hl; lia).
      rewrite skipn_app_exact, firstn_app_exact by exact Hp. reflexivity.
  Qed.
  Lemma usize_pos : 0 < 2 ^ usize_bits c.
  Proof. destruct Hc as [[->| ->] _]; lia. Qed.
  Lemma exactly_binary : exactly (slice_read_binary c) (chunk c).
  Proof.
    eapply exactly_weaken.
    - unfold slice_read_binary. apply exactly_bind; [exact exactly_len|]. intros n. apply exactly_if; [apply exactly_fail|apply exactly_take].
    - cbn beta. intros l p Hb. pose proof usize_pos. split.
      + intros (n & p1 & p2 & -> & (m & -> & Hm) & H1). destruct (MAX_BINARY_LEN <? length_of c m) eqn:Hmax; [contradiction|]. destruct H1 as [-> Hl].
        assert (0 <= length_of c m) by (unfold length_of; apply Z.mod_pos_bound; assumption).
        exists m, p1. split; [reflexivity|]. split; [exact Hm|]. unfold MAX_BINARY_LEN in Hmax. apply bytes_app in Hb as [_ Hb]. repeat split; [lia|lia|exact Hb].
      + intros (m & len & -> & Hm & Hl & Hmax & _). exists (length_of c m), len, l. split; [reflexivity|]. split; [eauto|].
        unfold MAX_BINARY_LEN. replace (16 * 1024 * 1024 <? length_of c m) with false by lia. split; [reflexivity|]. unfold zlen in *. lia.
  Qed.
  Lemma exactly_discard {A} (m : M (list Z) A) R : exactly m R -> exactly (m ;; ret tt) (fun _ p => exists a, R a p).
  Proof.
    intros H. eapply exactly_weaken; [apply exactly_bind; [exact H|intros a; apply exactly_ret]|]. cbn beta. intros b p _. split.
    - intros (a & p1 & p2 & -> & HR & _ & ->). rewrite app_nil_r. eauto.
    - intros (a & HR). exists a, p, []. rewrite app_nil_r. destruct b. auto.
  Qed.
  Lemma exactly_skip_binary : exactly (slice_skip_binary c) (fun _ p => exists payload, chunk c payload p).
  Proof.
    intros s s' a Hb. destruct a. rewrite <- (exactly_discard _ _ exactly_binary s s' tt Hb). unfold slice_skip_binary, slice_read_binary, bind.
    destruct (read_len_with c slice_read_byte slice_left s) as [s1 [n|e|p]]; try (split; discriminate).
    destruct (MAX_BINARY_LEN <? n); [split; discriminate|]. destruct (zlen s1 <? n); [split; discriminate|]. reflexivity.
  Qed.
  Lemma exactly_double : exactly slice_read_double (fun n p => n = digits256 p /\ List.length p = 8%nat).
  Proof.
    intros s s' n Hb. unfold slice_read_double. assert (Hd : forall l, from_le_bytes l = digits256 l) by (induction l as [|x l IH]; [reflexivity|cbn [from_le_bytes digits256]; rewrite IH; reflexivity]).
    split.
    - destruct (zlen s <? 8) eqn:Hl; [discriminate|]. intros H. injection H as <- <-. exists (firstn 8 s). rewrite firstn_skipn. rewrite Hd. repeat split.
      rewrite firstn_length. unfold zlen in Hl. lia.
    - intros (p & -> & -> & Hl). assert (Hn : zlen (p ++ s') <? 8 = false) by (unfold zlen; rewrite app_length; lia). rewrite Hn.
      rewrite skipn_app_exact, firstn_app_exact, Hd by exact Hl. reflexivity.
  Qed.
  Lemma run_terminated_split s : bytes s -> (continuation_run s < List.length s)%nat -> exists p s', s = p ++ s' /\ terminated p /\ List.length p = (continuation_run s + 1)%nat.
  Proof.
    induction s as [|b s IH]; intros Hb Hl; [cbn in Hl; lia|]. cbn [continuation_run] in *. assert (Hbb : is_byte b) by (inversion Hb; assumption).
    rewrite land128 in * by exact Hbb. unfold is_byte in Hbb. destruct (b <? 128) eqn:H128.
    - exists [b], s. split; [reflexivity|]. split; [constructor; lia|reflexivity].
    - destruct IH as (p & s' & -> & Ht & Hp); [inversion Hb; assumption|cbn [List.length] in Hl; lia|].
      exists (b :: p), s'. split; [reflexivity|]. split; [constructor; [lia|exact Ht]|cbn [List.length]; lia].
  Qed.
  Lemma run_of_terminated p s' : bytes p -> terminated p -> continuation_run (p ++ s') = (List.length p - 1)%nat.
  Proof.
    intros Hb Ht. induction Ht as [b H|b p H Ht IH]; cbn [app continuation_run]; rewrite land128 by (unfold is_byte; lia).
    - replace (b <? 128) with true by lia. reflexivity.
    - replace (b <? 128) with false by lia. rewrite IH by (inversion Hb; assumption). cbn [List.length]. destruct p; [inversion Ht|cbn [List.length]; lia].
  Qed.
  Lemma run_all l s' : Forall (fun x => 128 <= x < 256) l -> continuation_run (l ++ s') = (List.length l + continuation_run s')%nat.
  Proof. induction 1 as [|x l Hx HF IH]; [reflexivity|]. cbn [app continuation_run List.length]. rewrite land128 by (unfold is_byte; lia). replace (x <? 128) with false by lia. rewrite IH. reflexivity. Qed.
  Lemma run_full l : bytes l -> continuation_run l = List.length l -> Forall (fun x => 128 <= x < 256) l.
  Proof. induction l as [|x l IH]; intros Hb H; [constructor|]. cbn [continuation_run List.length] in H. assert (Hx : is_byte x) by (inversion Hb; assumption).
    rewrite land128 in H by exact Hx. unfold is_byte in Hx. destruct (x <? 128) eqn:Hl; [lia|]. constructor; [lia|]. apply IH; [inversion Hb; assumption|lia]. Qed.
  Lemma run_le l : (continuation_run l <= List.length l)%nat.
  Proof. induction l as [|x l IH]; [reflexivity|]. cbn [continuation_run List.length]. destruct (Z.land x 128 =? 0); lia. Qed.
  Lemma run_firstn l n : (continuation_run (firstn n l) < n)%nat -> (continuation_run (firstn n l) < List.length (firstn n l))%nat -> continuation_run l = continuation_run (firstn n l).
  Proof. revert n. induction l as [|x l IH]; intros [|n] H H'; cbn [firstn continuation_run List.length] in *; try lia. destruct (Z.land x 128 =? 0); [reflexivity|]. rewrite IH with (n := n); lia. Qed.
  Lemma exactly_skip_int : exactly (slice_skip_integer c) (fun _ p => passed_int c p).
  Proof.
    unfold slice_skip_integer, passed_int. destruct (sse2 c); [|exact (exactly_discard _ _ exactly_uleb)].
    intros s s' u Hb. destruct u. split.
    - destruct (16 <=? zlen s) eqn:H16.
      + unfold skip_uleb_sse2. rewrite (skip_uleb_sse2_len_run s Hb). set (k := continuation_run (firstn 16 s)).
        destruct (Z.of_nat k + 1 <=? zlen s) eqn:Hk; [|discriminate]. intros H. replace (Z.to_nat (Z.of_nat k + 1)) with (k + 1)%nat in H by lia.
        assert (Hs : skipn (k + 1) s = s') by congruence. exists (firstn (k + 1) s). rewrite <- Hs, firstn_skipn. split; [reflexivity|].
        assert (Hf : List.length (firstn 16 s) = 16%nat) by (rewrite firstn_length; unfold zlen in H16; lia).
        pose proof (run_le (firstn 16 s)) as Hr. fold k in Hr. rewrite Hf in Hr.
        assert (Hb16 : bytes (firstn 16 s)) by (rewrite <- (firstn_skipn 16 s) in Hb; apply bytes_app in Hb; apply Hb).
        destruct (Nat.eq_dec k 16) as [Hk16|Hk16].
        * right. rewrite Hk16. cbn [Nat.add].
          destruct (skipn 16 s) as [|b tl] eqn:Hsk. { apply (f_equal (@List.length Z)) in Hsk. rewrite skipn_length in Hsk. cbn [List.length] in Hsk. unfold zlen in Hk. lia. }
          exists (firstn 16 s), b. assert (Hs17 : firstn 17 s = firstn 16 s ++ [b]).
          { rewrite <- (firstn_skipn 16 s) at 1. rewrite Hsk. change 17%nat with (16 + 1)%nat. rewrite <- Hf at 1. rewrite firstn_app_2. reflexivity. }
          split; [exact Hs17|]. split; [exact Hf|]. split; [apply run_full; [exact Hb16|fold k; lia]|].
          rewrite <- (firstn_skipn 16 s), Hsk in Hb. apply bytes_app in Hb as [_ Hb]. inversion Hb; assumption.
        * left. destruct (run_terminated_split (firstn 16 s) Hb16) as (p & q & Hpq & Ht & Hp); [fold k; lia|]. fold k in Hp.
          assert (Hfp : firstn (k + 1) s = p).
          { rewrite <- (firstn_skipn 16 s), Hpq, <- app_assoc. apply firstn_app_exact. exact Hp. }
          rewrite Hfp. split; [exact Ht|lia].
      + unfold skip_uleb_fallback. destruct (Nat.leb (continuation_run s + 1) (List.length s)) eqn:Hk; [|discriminate]. apply Nat.leb_le in Hk. intros H.
        assert (Hs : skipn (continuation_run s + 1) s = s') by congruence. exists (firstn (continuation_run s + 1) s). rewrite <- Hs, firstn_skipn. split; [reflexivity|].
        left. destruct (run_terminated_split s Hb) as (p & q & Hpq & Ht & Hp); [lia|].
        assert (Hfp : firstn (continuation_run s + 1) s = p) by (rewrite Hpq at 2; apply firstn_app_exact; exact Hp).
        rewrite Hfp. split; [exact Ht|]. rewrite Hp. unfold zlen in H16. lia.
    - intros (p & -> & Hp). assert (Hbp : bytes p) by (apply bytes_app in Hb; apply Hb).
      destruct (16 <=? zlen (p ++ s')) eqn:H16.
      + unfold skip_uleb_sse2. rewrite (skip_uleb_sse2_len_run _ Hb). set (k := continuation_run (firstn 16 (p ++ s'))).
        assert (Hk : (k + 1)%nat = List.length p).
        { destruct Hp as [[Ht Hl]|(l & b & -> & Hl & HF & Hbb)].
          - pose proof (run_of_terminated p (firstn (16 - List.length p) s') Hbp Ht) as Hr.
            subst k. rewrite firstn_app. rewrite (firstn_all2 p) by lia. rewrite Hr. destruct p; [inversion Ht|cbn [List.length]; lia].
          - subst k. rewrite <- app_assoc. rewrite firstn_app_exact by exact Hl. pose proof (run_all l [] HF) as Hr. rewrite app_nil_r in Hr. rewrite Hr, app_length, Hl. cbn. lia. }
        replace (Z.of_nat k + 1 <=? zlen (p ++ s')) with true by (unfold zlen; rewrite app_length; lia).
        replace (Z.to_nat (Z.of_nat k + 1)) with (List.length p) by lia. rewrite skipn_app_exact; reflexivity.
      + unfold skip_uleb_fallback. destruct Hp as [[Ht Hl]|(l & b & -> & Hl & HF & Hbb)].
        * rewrite (run_of_terminated p s' Hbp Ht). assert (Hp1 : (List.length p - 1 + 1 = List.length p)%nat) by (destruct p; [inversion Ht|cbn [List.length]; lia]). rewrite Hp1.
          replace (Nat.leb (List.length p) (List.length (p ++ s'))) with true by (symmetry; apply Nat.leb_le; rewrite app_length; lia).
          rewrite skipn_app_exact; reflexivity.
        * exfalso. unfold zlen in H16. rewrite !app_length, Hl in H16. cbn [List.length] in H16. lia.
  Qed.

  (** * Headers *)
  Notation I := (slice_input c).
  Lemma nibbles b : is_byte b -> Z.land b 15 = b mod 16 /\ Z.shiftr b 4 = b / 16 /\ Z.shiftr (Z.land b 240) 4 = b / 16.
  Proof.
    intros Hb. unfold is_byte in Hb. split; [change 15 with (Z.ones 4); apply Z.land_ones; lia|].
    assert (Hs : Z.shiftr b 4 = b / 16) by (apply Z.shiftr_div_pow2; lia). split; [exact Hs|].
    rewrite Z.shiftr_land, Hs. change (Z.shiftr 240 4) with (Z.ones 4). rewrite Z.land_ones by lia. apply Z.mod_small. change (2 ^ 4) with 16. lia.
  Qed.
  Lemma exactly_header last : exactly (read_field_header c I last) (fun '(ft, id) p => head c last id ft p).
  Proof.
    assert (Hid : exactly (read_full_field_id c I) (fun z p => exists n, z = signed 16 n /\ number c n p)) by exact exactly_i16.
    intros s s' [ft id] Hb. unfold read_field_header. unfold bind at 1. cbn [slice_input in_read_byte]. unfold slice_read_byte. split.
    - destruct s as [|b s]; [discriminate|]. assert (Hbb : is_byte b) by (inversion Hb; assumption). assert (Hbs : bytes s) by (inversion Hb; assumption).
      destruct (nibbles b Hbb) as (-> & -> & _). unfold is_byte in Hbb. destruct (b =? 0) eqn:H0.
      + intros H. injection H as <- <- <-. exists [0]. split; [replace b with 0 by lia; reflexivity|constructor].
      + destruct (b / 16 =? 0) eqn:Hd; cbn [negb].
        * unfold bind. destruct (read_full_field_id c I s) as [s1 [z|e|p]] eqn:Hz; try discriminate. intros H. injection H as <- <- <-.
          apply Hid in Hz as (p & -> & n & -> & Hn); [|exact Hbs]. exists (b :: p). split; [reflexivity|]. replace (b mod 16) with b by lia. apply hd_long; [lia|exact Hn].
        * destruct (overflow_checks c && (32767 <? last + b / 16)) eqn:Ho; [discriminate|]. intros H. injection H as <- <- <-. exists [b]. split; [reflexivity|].
          apply hd_short; [lia|]. intros E. rewrite E in Ho. cbn [andb] in Ho. lia.
    - intros (p & -> & H). destruct H as [|b H1 H2|t n bs H1 H2]; cbn [app].
      + reflexivity.
      + assert (Hbb : is_byte b) by (unfold is_byte; lia). destruct (nibbles b Hbb) as (-> & -> & _).
        replace (b =? 0) with false by lia. replace (b / 16 =? 0) with false by lia. cbn [negb].
        replace (overflow_checks c && (32767 <? last + b / 16)) with false; [reflexivity|]. symmetry. destruct (overflow_checks c); [|reflexivity]. specialize (H2 eq_refl). cbn [andb]. lia.
      + assert (Hbb : is_byte t) by (unfold is_byte; lia). destruct (nibbles t Hbb) as (-> & -> & _).
        replace (t =? 0) with false by lia. replace (t / 16 =? 0) with true by lia. cbn [negb]. unfold bind.
        assert (Hz : read_full_field_id c I (bs ++ s') = (s', Ok (signed 16 n))).
        { apply Hid; [inversion Hb; assumption|]. exists bs. split; [reflexivity|]. eauto. }
        rewrite Hz. unfold ret. replace (t mod 16) with t by lia. reflexivity.
  Qed.
  Lemma exactly_collection : exactly (read_collection_len_and_type c I) (fun '(n, et) p => lhead c n et p).
  Proof.
    intros s s' [n et] Hb. unfold read_collection_len_and_type, read_len. unfold bind at 1. cbn [slice_input in_read_byte in_left]. unfold slice_read_byte at 1. split.
    - destruct s as [|b s]; [discriminate|]. assert (Hbb : is_byte b) by (inversion Hb; assumption). assert (Hbs : bytes s) by (inversion Hb; assumption).
      destruct (nibbles b Hbb) as (-> & _ & ->). unfold is_byte in Hbb. unfold bind, MAX_COLLECTION_LEN. destruct (b / 16 =? 15) eqn:H15; cbn [negb].
      + destruct (read_len_with c slice_read_byte slice_left s) as [s1 [m|e|p]] eqn:Hm; try discriminate.
        destruct (10000000 <? m) eqn:Hmax; [discriminate|]. intros H. injection H as <- <- <-.
        apply exactly_len in Hm as (p & -> & k & -> & Hk); [|exact Hbs]. exists (b :: p). split; [reflexivity|]. apply lh_many; [lia|exact Hk|lia].
      + unfold ret. destruct (10000000 <? b / 16) eqn:Hmax; [discriminate|]. intros H. injection H as <- <- <-. exists [b]. split; [reflexivity|]. apply lh_few. lia.
    - intros (p & -> & H). destruct H as [b H1|b m bs H1 H2 H3]; cbn [app].
      + assert (Hbb : is_byte b) by (unfold is_byte; lia). destruct (nibbles b Hbb) as (-> & _ & ->). unfold bind, MAX_COLLECTION_LEN.
        replace (b / 16 =? 15) with false by lia. cbn [negb]. unfold ret. replace (10000000 <? b / 16) with false by lia. reflexivity.
      + assert (Hbb : is_byte b) by (unfold is_byte; lia). destruct (nibbles b Hbb) as (-> & _ & ->). unfold bind, MAX_COLLECTION_LEN.
        replace (b / 16 =? 15) with true by lia. cbn [negb].
        assert (Hm : read_len_with c slice_read_byte slice_left (bs ++ s') = (s', Ok (length_of c m))).
        { apply exactly_len; [inversion Hb; assumption|]. exists bs. split; [reflexivity|]. eauto. }
        rewrite Hm. replace (10000000 <? length_of c m) with false by lia. reflexivity.
  Qed.
  Definition mhead (n kt vt : Z) (p : list Z) : Prop :=
    (n = 0 /\ kt = 0 /\ vt = 0 /\ exists m, number c m p /\ length_of c m = 0) \/
    (exists m len b, p = len ++ [b] /\ number c m len /\ length_of c m = n /\ 0 < n <= 10000000 /\ kt = b / 16 /\ vt = b mod 16 /\ is_byte b).
  Lemma exactly_map_header : exactly (read_map_len_and_types c I) (fun '(n, kt, vt) p => mhead n kt vt p).
  Proof.
    intros s s' [[n kt] vt] Hb. unfold read_map_len_and_types, read_len. cbn [slice_input in_read_byte in_left]. unfold bind, MAX_COLLECTION_LEN. pose proof usize_pos as Hu.
    assert (Hlen : forall m, 0 <= length_of c m) by (intros m; unfold length_of; apply Z.mod_pos_bound; exact Hu). split.
    - destruct (read_len_with c slice_read_byte slice_left s) as [s1 [l|e|p]] eqn:Hm; try discriminate.
      apply exactly_len in Hm as (p & -> & m & -> & Hm); [|exact Hb]. apply bytes_app in Hb as [Hbp Hbs]. specialize (Hlen m).
      destruct (length_of c m =? 0) eqn:H0.
      + intros H. injection H as <- <- <- <-. exists p. split; [reflexivity|]. left. repeat split. exists m. split; [exact Hm|lia].
      + unfold slice_read_byte. destruct s1 as [|b s1]; [discriminate|]. assert (Hbb : is_byte b) by (inversion Hbs; assumption).
        destruct (nibbles b Hbb) as (-> & -> & _). destruct (10000000 <? length_of c m) eqn:Hmax; [discriminate|]. intros H. injection H as <- <- <- <-.
        exists (p ++ [b]). rewrite <- app_assoc. split; [reflexivity|]. right. exists m, p, b. split; [reflexivity|]. split; [exact Hm|]. split; [reflexivity|]. split; [lia|]. split; [reflexivity|]. split; [reflexivity|exact Hbb].
    - intros (p & -> & [(-> & -> & -> & m & Hm & H0)|(m & len & b & -> & Hm & <- & Hn & -> & -> & Hbb)]).
      + assert (H : read_len_with c slice_read_byte slice_left (p ++ s') = (s', Ok (length_of c m))).
        { apply exactly_len; [exact Hb|]. exists p. split; [reflexivity|]. eauto. }
        rewrite H. replace (length_of c m =? 0) with true by lia. reflexivity.
      + rewrite <- app_assoc in *. assert (H : read_len_with c slice_read_byte slice_left (len ++ [b] ++ s') = ([b] ++ s', Ok (length_of c m))).
        { apply exactly_len; [exact Hb|]. exists len. split; [reflexivity|]. eauto. }
        rewrite H. replace (length_of c m =? 0) with false by lia. unfold slice_read_byte. cbn [app].
        destruct (nibbles b Hbb) as (-> & -> & _). replace (10000000 <? length_of c m) with false by lia. reflexivity.
  Qed.

  (** * Skipping *)
  Definition sound {A} (m : M (list Z) A) (R : list Z -> Prop) : Prop :=
    forall s s' a, bytes s -> m s = (s', Ok a) -> exists p, s = p ++ s' /\ R p.
  Lemma exactly_sound {A} (m : M (list Z) A) R (R' : list Z -> Prop) : exactly m R -> (forall a p, bytes p -> R a p -> R' p) -> sound m R'.
  Proof. intros H HR s s' a Hb Hm. apply H in Hm as (p & -> & Hp); [|exact Hb]. exists p. split; [reflexivity|]. apply bytes_app in Hb as [Hb _]. eauto. Qed.
  Lemma sound_repeat et (m : M (list Z) unit) : sound m (passed c et true) -> forall n, sound (repeatM n m) (passed_seq c et n).
  Proof.
    intros Hm. induction n as [|n IH]; intros s s' a Hb H; cbn [repeatM] in H.
    - injection H as <- _. exists []. split; [reflexivity|constructor].
    - unfold bind in H. destruct (m s) as [s1 [u|e|p]] eqn:H1; try discriminate. apply Hm in H1 as (p1 & -> & Hp1); [|exact Hb].
      apply bytes_app in Hb as [_ Hb]. apply IH in H as (p2 & -> & Hp2); [|exact Hb]. exists (p1 ++ p2). rewrite app_assoc. split; [reflexivity|constructor; assumption].
  Qed.
  Lemma sound_pairs kt vt (m1 m2 : M (list Z) unit) : sound m1 (passed c kt true) -> sound m2 (passed c vt true) -> forall n, sound (repeatM n (m1 ;; m2)) (passed_pairs c kt vt n).
  Proof.
    intros Hm1 Hm2. induction n as [|n IH]; intros s s' a Hb H; cbn [repeatM] in H.
    - injection H as <- _. exists []. split; [reflexivity|constructor].
    - unfold bind in H. destruct (m1 s) as [s1 [u|e|p]] eqn:H1; try discriminate. apply Hm1 in H1 as (p1 & -> & Hp1); [|exact Hb]. apply bytes_app in Hb as [_ Hb].
      destruct (m2 s1) as [s2 [u2|e|p]] eqn:H2; try discriminate. apply Hm2 in H2 as (p2 & -> & Hp2); [|exact Hb]. apply bytes_app in Hb as [_ Hb].
      apply IH in H as (p3 & -> & Hp3); [|exact Hb]. exists (p1 ++ p2 ++ p3). rewrite <- !app_assoc. split; [reflexivity|constructor; assumption].
  Qed.
  Lemma sound_fields (sk : Z -> M (list Z) unit) : (forall ft, sound (sk ft) (passed c ft false)) -> forall fuel last, sound (skip_struct_loop c I sk fuel last) (passed_fields c last).
  Proof.
    intros Hsk. induction fuel as [|fuel IH]; intros last s s' a Hb H; cbn [skip_struct_loop] in H; [discriminate|].
    unfold bind in H. destruct (read_field_header c I last s) as [s1 [[ft id]|e|p]] eqn:H1; try discriminate.
    apply exactly_header in H1 as (p1 & -> & Hp1); [|exact Hb]. apply bytes_app in Hb as [_ Hb]. destruct (ft =? 0) eqn:H0.
    - injection H as <- _. exists p1. split; [reflexivity|]. replace ft with 0 in Hp1 by lia. econstructor; eassumption.
    - destruct (sk ft s1) as [s2 [u|e|p]] eqn:H2; try discriminate. apply Hsk in H2 as (p2 & -> & Hp2); [|exact Hb]. apply bytes_app in Hb as [_ Hb].
      apply IH in H as (p3 & -> & Hp3); [|exact Hb]. exists (p1 ++ p2 ++ p3). rewrite <- !app_assoc. split; [reflexivity|]. eapply pf_field; [exact Hp1|lia|exact Hp2|exact Hp3].
  Qed.
  Lemma range12 t : (1 <=? t) && (t <=? 2) = true -> 1 <= t <= 2. Proof. lia. Qed.
  Definition lists (et : Z) (p : list Z) : Prop := exists n e hdr body, p = hdr ++ body /\ lhead c n e hdr /\ 1 <= e <= 12 /\ passed_seq c e (Z.to_nat n) body.
  Lemma lists_passed t e p : 9 <= t <= 10 -> lists t p -> passed c t e p.
  Proof. intros Ht (n & et & hdr & body & -> & H1 & H2 & H3). econstructor; eassumption. Qed.
  Lemma sound_skip d : (forall ft e, sound (skip_field c I d ft e) (passed c ft e)) /\
    (forall t, 9 <= t <= 10 -> forall e, sound (skip_collection c I d) (passed c t e)) /\ (forall e, sound (skip_map c I d) (passed c 11 e)).
  Proof.
    assert (Byte : forall (R : list Z -> Prop), (forall b, is_byte b -> R [b]) -> sound (discard (in_read_byte I)) R).
    { intros R HR. apply (exactly_sound _ _ _ (exactly_discard _ _ exactly_byte)). intros a p Hb (b & ->). apply HR. inversion Hb; assumption. }
    assert (Int : forall (R : list Z -> Prop), (forall p, passed_int c p -> R p) -> sound (in_skip_integer I) R).
    { intros R HR. apply (exactly_sound _ _ _ exactly_skip_int). intros a p _. apply HR. }
    assert (Dbl : forall (R : list Z -> Prop), (forall p, List.length p = 8%nat -> bytes p -> R p) -> sound (discard (in_read_double I)) R).
    { intros R HR. apply (exactly_sound _ _ _ (exactly_discard _ _ exactly_double)). intros a p Hb (n & _ & Hl). apply HR; assumption. }
    assert (Bin : forall (R : list Z -> Prop), (forall l p, chunk c l p -> R p) -> sound (in_skip_binary I) R).
    { intros R HR. apply (exactly_sound _ _ _ exactly_skip_binary). intros a p Hb (l & Hl). exact (HR l p Hl). }
    induction d as [|d (IHf & IHc & IHm)]; [split; [intros ft e|split; [intros t Ht e|intros e]]; intros s s' a _ H; discriminate|]. split; [|split].
    - intros ft e. cbn [skip_field].
      destruct ((1 <=? ft) && (ft <=? 2)) eqn:T1.
      { destruct e; [apply Byte; intros b Hb; constructor; [lia|exact Hb]|]. intros s s' a Hb H. injection H as <- _. exists []. split; [reflexivity|]. constructor. lia. }
      destruct (ft =? 3) eqn:T3; [replace ft with 3 by lia; apply Byte; constructor; assumption|].
      destruct ((4 <=? ft) && (ft <=? 6)) eqn:T4; [apply Int; intros; constructor; [lia|assumption]|].
      destruct (ft =? 7) eqn:T7; [replace ft with 7 by lia; apply Dbl; intros; constructor; assumption|].
      destruct (ft =? 8) eqn:T8; [replace ft with 8 by lia; apply Bin; intros; econstructor; eassumption|].
      destruct ((ft =? 9) || (ft =? 10)) eqn:T9; [apply IHc; lia|].
      destruct (ft =? 11) eqn:T11; [replace ft with 11 by lia; apply IHm|].
      destruct (ft =? 12) eqn:T12; [|intros s s' a _ H; discriminate]. replace ft with 12 by lia.
      intros s s' a Hb H. apply sound_fields in H as (p & -> & Hp); [|intros; apply IHf|exact Hb]. exists p. split; [reflexivity|apply ps_struct; exact Hp].
    - intros t Ht e s s' a Hb H. cbn [skip_collection] in H. unfold bind in H.
      destruct (read_collection_len_and_type c I s) as [s1 [[n et]|x|p]] eqn:H1; try discriminate.
      apply exactly_collection in H1 as (p1 & -> & Hp1); [|exact Hb]. apply bytes_app in Hb as [_ Hb].
      assert (G : forall m, sound m (passed c et true) -> 1 <= et <= 12 -> repeatM (Z.to_nat n) m s1 = (s', Ok a) -> exists p, p1 ++ s1 = p ++ s' /\ passed c t e p).
      { intros m Hm Het Hr. apply (sound_repeat et m Hm) in Hr as (p2 & -> & Hp2); [|exact Hb]. exists (p1 ++ p2). rewrite app_assoc. split; [reflexivity|]. econstructor; eassumption. }
      destruct ((1 <=? et) && (et <=? 3)) eqn:T1.
      { apply G in H; [exact H| |lia]. apply Byte. intros b Hbb. destruct (et =? 3) eqn:T3; [replace et with 3 by lia; constructor; exact Hbb|constructor; [lia|exact Hbb]]. }
      destruct ((4 <=? et) && (et <=? 6)) eqn:T4; [apply G in H; [exact H| |lia]; apply Int; intros; constructor; [lia|assumption]|].
      destruct (et =? 7) eqn:T7; [apply G in H; [exact H| |lia]; replace et with 7 by lia; apply Dbl; intros; constructor; assumption|].
      destruct (et =? 8) eqn:T8; [apply G in H; [exact H| |lia]; replace et with 8 by lia; apply Bin; intros; econstructor; eassumption|].
      destruct ((et =? 9) || (et =? 10)) eqn:T9; [apply G in H; [exact H| |lia]; apply IHc; lia|].
      destruct (et =? 11) eqn:T11; [apply G in H; [exact H| |lia]; replace et with 11 by lia; apply IHm|].
      destruct (et =? 12) eqn:T12; [|discriminate]. apply G in H; [exact H| |lia]. replace et with 12 by lia.
      intros s2 s2' a2 Hb2 H2. apply IHf in H2 as (p & -> & Hp); [|exact Hb2]. exists p. split; [reflexivity|]. inversion Hp; subst; try lia. apply ps_struct. assumption.
    - intros e s s' a Hb H. cbn [skip_map] in H. unfold bind in H.
      destruct (read_map_len_and_types c I s) as [s1 [[[n kt] vt]|x|p]] eqn:H1; try discriminate.
      apply exactly_map_header in H1 as (p1 & -> & Hp1); [|exact Hb]. apply bytes_app in Hb as [_ Hb].
      apply (sound_pairs kt vt _ _ (IHf kt true) (IHf vt true)) in H as (p2 & -> & Hp2); [|exact Hb]. exists (p1 ++ p2). rewrite app_assoc. split; [reflexivity|].
      destruct Hp1 as [(-> & -> & -> & m & Hm & H0)|(m & len & b & -> & Hm & <- & Hn & -> & -> & Hbb)].
      + inversion Hp2; subst. rewrite app_nil_r. econstructor; eassumption.
      + rewrite <- app_assoc. cbn [app]. econstructor; eassumption.
  Qed.

  Definition done (m : nat -> M (list Z) unit) (p : list Z) : Prop :=
    exists d0, forall d, (d0 <= d)%nat -> forall s', bytes (p ++ s') -> m d (p ++ s') = (s', Ok tt).
  Lemma exactly_run {A} (m : M (list Z) A) R a p s' : exactly m R -> R a p -> bytes (p ++ s') -> m (p ++ s') = (s', Ok a).
  Proof. intros H HR Hb. apply H; [exact Hb|]. exists p. auto. Qed.
  Lemma done_prim (m : M (list Z) unit) (R : unit -> list Z -> Prop) (f : nat -> M (list Z) unit) p :
    exactly m R -> R tt p -> (forall d s, f (Datatypes.S d) s = m s) -> done f p.
  Proof.
    intros H HR Hf. exists 1%nat. intros d Hd s' Hb. destruct d as [|d]; [lia|]. rewrite Hf. exact (exactly_run m R tt p s' H HR Hb).
  Qed.
  Lemma skip_elements d s : skip_collection c I (Datatypes.S d) s = match read_collection_len_and_type c I s with
    | (s1, Ok (n, et)) => if (1 <=? et) && (et <=? 12) then repeatM (Z.to_nat n) (skip_field c I (if et =? 12 then d else Datatypes.S d) et true) s1 else (s1, Err InvalidType)
    | (s1, Err e) => (s1, Err e)
    | (s1, Panic p) => (s1, Panic p)
    end.
  Proof.
    cbn [skip_collection]. unfold bind. destruct (read_collection_len_and_type c I s) as [s1 [[n et]|e|p]]; try reflexivity.
    destruct ((1 <=? et) && (et <=? 12)) eqn:Het.
    - destruct (et =? 12) eqn:T12.
      + replace et with 12 by lia. cbn [Z.leb Z.eqb Z.compare Pos.compare Pos.compare_cont Pos.eqb andb orb].
        destruct d as [|d]; [reflexivity|]. reflexivity.
      + cbn [skip_field]. rewrite T12.
        destruct (et =? 3) eqn:T3. { replace et with 3 by lia. reflexivity. }
        replace ((1 <=? et) && (et <=? 3)) with ((1 <=? et) && (et <=? 2)) by lia.
        destruct ((1 <=? et) && (et <=? 2)) eqn:A1; [reflexivity|]. destruct ((4 <=? et) && (et <=? 6)) eqn:A2; [reflexivity|].
        destruct (et =? 7) eqn:A3; [reflexivity|]. destruct (et =? 8) eqn:A4; [reflexivity|]. destruct ((et =? 9) || (et =? 10)) eqn:A5; [reflexivity|].
        destruct (et =? 11) eqn:A6; [reflexivity|]. exfalso. lia.
    - replace ((1 <=? et) && (et <=? 3)) with false by lia. replace ((4 <=? et) && (et <=? 6)) with false by lia.
      replace (et =? 7) with false by lia. replace (et =? 8) with false by lia. replace ((et =? 9) || (et =? 10)) with false by lia.
      replace (et =? 11) with false by lia. replace (et =? 12) with false by lia. reflexivity.
  Qed.
  Lemma complete_skip :
    (forall t e p, passed c t e p -> done (fun d => skip_field c I d t e) p) /\
    (forall et n p, passed_seq c et n p -> done (fun d => repeatM n (skip_field c I d et true)) p) /\
    (forall kt vt n p, passed_pairs c kt vt n p -> done (fun d => repeatM n (skip_field c I d kt true ;; skip_field c I d vt true)) p) /\
    (forall last p, passed_fields c last p -> exists d0, forall d, (d0 <= d)%nat -> forall fuel s', (List.length p <= fuel)%nat -> bytes (p ++ s') ->
      skip_struct_loop c I (fun ft => skip_field c I d ft false) fuel last (p ++ s') = (s', Ok tt)).
  Proof.
    apply passed_mutind.
    - intros t Ht. apply (done_prim (ret tt) (fun _ p => p = [])); [|reflexivity|].
      + eapply exactly_weaken; [apply exactly_ret|]. cbn beta. intros [] p _. tauto.
      + intros d s. cbn [skip_field]. replace ((1 <=? t) && (t <=? 2)) with true by lia. reflexivity.
    - intros t b Ht Hb. apply (done_prim _ _ _ _ (exactly_discard _ _ exactly_byte)); [eauto|].
      intros d s. cbn [skip_field]. replace ((1 <=? t) && (t <=? 2)) with true by lia. reflexivity.
    - intros e b Hb. apply (done_prim _ _ _ _ (exactly_discard _ _ exactly_byte)); [eauto|]. reflexivity.
    - intros t e p Ht Hp. apply (done_prim _ _ _ _ exactly_skip_int); [exact Hp|].
      intros d s. cbn [skip_field]. replace ((1 <=? t) && (t <=? 2)) with false by lia. replace (t =? 3) with false by lia. replace ((4 <=? t) && (t <=? 6)) with true by lia. reflexivity.
    - intros e p Hl Hb. apply (done_prim _ _ _ _ (exactly_discard _ _ exactly_double)); [eauto|]. reflexivity.
    - intros e l p Hl. apply (done_prim _ _ _ _ exactly_skip_binary); [eauto|]. reflexivity.
    - intros t e n et hdr body Ht Hh Het _ (d0 & IH). exists (d0 + 3)%nat. intros d Hd s' Hb. rewrite <- app_assoc in *. destruct d as [|[|d]]; try lia.
      assert (Hsk : skip_field c I (Datatypes.S (Datatypes.S d)) t e (hdr ++ body ++ s') = skip_collection c I (Datatypes.S d) (hdr ++ body ++ s')).
      { assert (Ht' : t = 9 \/ t = 10) by lia. destruct Ht' as [-> | ->]; reflexivity. }
      rewrite Hsk, skip_elements. rewrite (exactly_run _ _ (n, et) hdr (body ++ s') exactly_collection Hh Hb).
      replace ((1 <=? et) && (et <=? 12)) with true by lia. apply bytes_app in Hb as [_ Hb]. destruct (et =? 12); apply IH; try lia; exact Hb.
    - intros e n p Hn H0. exists 2%nat. intros d Hd s' Hb. destruct d as [|[|d]]; try lia.
      change (skip_map c I (Datatypes.S d) (p ++ s') = (s', Ok tt)). cbn [skip_map]. unfold bind.
      rewrite (exactly_run _ _ (0, 0, 0) p s' exactly_map_header (or_introl (conj eq_refl (conj eq_refl (conj eq_refl (ex_intro _ n (conj Hn H0)))))) Hb). reflexivity.
    - intros e n len b body Hn H0 Hbb _ (d0 & IH). exists (d0 + 2)%nat. intros d Hd s' Hb. destruct d as [|[|d]]; try lia.
      change (skip_map c I (Datatypes.S d) ((len ++ b :: body) ++ s') = (s', Ok tt)). cbn [skip_map]. unfold bind at 1.
      replace ((len ++ b :: body) ++ s') with ((len ++ [b]) ++ body ++ s') in * by (rewrite <- !app_assoc; reflexivity).
      rewrite (exactly_run _ _ (length_of c n, b / 16, b mod 16) (len ++ [b]) (body ++ s') exactly_map_header); [|right; exists n, len, b; auto 9|exact Hb].
      apply bytes_app in Hb as [_ Hb]. apply IH; [lia|exact Hb].
    - intros e p _ (d0 & IH). exists (d0 + 1)%nat. intros d Hd s' Hb. destruct d as [|d]; try lia.
      change (skip_struct_loop c I (fun ft => skip_field c I d ft false) (Datatypes.S (slice_left (p ++ s'))) 0 (p ++ s') = (s', Ok tt)).
      apply IH; [lia| |exact Hb]. unfold slice_left. rewrite app_length. lia.
    - intros et. exists 0%nat. reflexivity.
    - intros et n b1 b2 _ (d1 & IH1) _ (d2 & IH2). exists (d1 + d2)%nat. intros d Hd s' Hb. rewrite <- app_assoc in *. cbn [repeatM]. unfold bind.
      rewrite IH1; [|lia|exact Hb]. apply bytes_app in Hb as [_ Hb]. apply IH2; [lia|exact Hb].
    - intros kt vt. exists 0%nat. reflexivity.
    - intros kt vt n b1 b2 b3 _ (d1 & IH1) _ (d2 & IH2) _ (d3 & IH3). exists (d1 + d2 + d3)%nat. intros d Hd s' Hb. rewrite <- !app_assoc in *.
      specialize (IH1 d ltac:(lia) _ Hb). apply bytes_app in Hb as [_ Hb]. specialize (IH2 d ltac:(lia) _ Hb). apply bytes_app in Hb as [_ Hb]. specialize (IH3 d ltac:(lia) _ Hb).
      cbn [repeatM]. unfold bind in IH3 |- * at 1. unfold bind. rewrite IH1, IH2. exact IH3.
    - intros last id hdr Hh. exists 0%nat. intros d _ fuel s' Hf Hb.
      assert (Hne : (1 <= List.length hdr)%nat) by (inversion Hh; cbn [List.length]; lia). destruct fuel as [|fuel]; [lia|]. cbn [skip_struct_loop]. unfold bind.
      rewrite (exactly_run _ _ (0, id) hdr s' (exactly_header last) Hh Hb). reflexivity.
    - intros last id t hdr b1 b2 Hh Ht _ (d1 & IH1) _ (d2 & IH2). exists (d1 + d2)%nat. intros d Hd fuel s' Hf Hb. rewrite <- !app_assoc in *.
      assert (Hne : (1 <= List.length hdr)%nat) by (inversion Hh; cbn [List.length]; lia). rewrite !app_length in Hf. destruct fuel as [|fuel]; [lia|]. cbn [skip_struct_loop]. unfold bind.
      rewrite (exactly_run _ _ (t, id) hdr _ (exactly_header last) Hh Hb). replace (t =? 0) with false by lia. apply bytes_app in Hb as [_ Hb].
      rewrite IH1; [|lia|exact Hb]. apply bytes_app in Hb as [_ Hb]. apply IH2; [lia|lia|exact Hb].
  Qed.

  (** * Filling: what is accepted is in the relation *)
  Variable E : env.
  Hypothesis HE : acceptable E.
  Lemma code t : declared E t -> field_type E t = wire_code E t.
  Proof.
    induction t; cbn [declared field_type wire_code]; try reflexivity; auto. intros [d ->]. destruct d; reflexivity.
  Qed.
  Lemma find_declared fs id i f : find_field fs id = Some (i, f) <-> declared_at fs id i f.
  Proof.
    revert i. induction fs as [|g fs IH]; intros i; cbn [find_field]; split.
    - discriminate.
    - intros (b & a & H & _). destruct b; discriminate.
    - destruct (f_id g =? id) eqn:Hg.
      + intros H. injection H as <- <-. exists [], fs. repeat split; [lia|constructor].
      + destruct (find_field fs id) as [[j h]|] eqn:Hf; [|discriminate]. intros H. injection H as <- <-.
        destruct (proj1 (IH j) eq_refl) as (b & a & -> & Hl & Hid & HF). exists (g :: b), a. cbn [app List.length]. repeat split; [lia|exact Hid|]. constructor; [lia|exact HF].
    - intros (b & a & H & Hl & Hid & HF). destruct b as [|h b]; cbn [app] in H; injection H as -> ->.
      + replace (f_id f =? id) with true by lia. subst i. reflexivity.
      + inversion HF; subst. replace (f_id h =? f_id f) with false by lia.
        assert (Hf : find_field (b ++ f :: a) (f_id f) = Some (List.length b, f)) by (apply IH; exists b, a; auto). rewrite Hf. reflexivity.
  Qed.
  Lemma find_undeclared fs id : find_field fs id = None <-> undeclared fs id.
  Proof.
    unfold undeclared. induction fs as [|g fs IH]; cbn [find_field]; [split; [constructor|reflexivity]|].
    destruct (f_id g =? id) eqn:Hg.
    - split; [discriminate|]. intros H. inversion H; subst. lia.
    - destruct (find_field fs id) as [[j h]|].
      + split; [discriminate|]. intros H. inversion H; subst. destruct IH as [_ IH]. discriminate IH. assumption.
      + split; [intros _; constructor; [lia|apply IH; reflexivity]|reflexivity].
  Qed.
  Lemma set_nth_split {A} (l : list A) i v : nth_error l i = Some v -> exists a b, l = a ++ v :: b /\ List.length a = i /\ forall w, set_nth l i w = a ++ w :: b.
  Proof.
    revert i. induction l as [|x l IH]; intros [|i] H; try discriminate; cbn [nth_error] in H.
    - injection H as ->. exists [], l. auto.
    - destruct (IH _ H) as (a & b & -> & Hl & Hs). exists (x :: a), b. cbn [app List.length set_nth]. repeat split; [lia|]. intros w. rewrite Hs. reflexivity.
  Qed.
  Lemma set_nth_app {A} (a b : list A) v w : set_nth (a ++ v :: b) (List.length a) w = a ++ w :: b.
  Proof. induction a as [|x a IH]; [reflexivity|]. cbn [app List.length set_nth]. rewrite IH. reflexivity. Qed.
  Definition marked (fs : list field) (flags : list bool) (seen : list nat) : Prop :=
    List.length flags = List.length fs /\ forall i, (i < List.length fs)%nat -> (nth_error flags i = Some true <-> In i seen).
  Lemma marked_start fs : marked fs (map (fun _ => false) fs) [].
  Proof.
    split; [apply map_length|]. intros i _. split; [|contradiction]. intros H. apply nth_error_In, in_map_iff in H as (x & H & _). discriminate.
  Qed.
  Lemma set_nth_length {A} (l : list A) i w : List.length (set_nth l i w) = List.length l.
  Proof. revert i. induction l as [|x l IH]; intros [|i]; cbn [set_nth List.length]; try reflexivity. rewrite IH. reflexivity. Qed.
  Lemma set_nth_get {A} (l : list A) i j w : nth_error (set_nth l i w) j = if Nat.eqb i j then (if Nat.ltb i (List.length l) then Some w else None) else nth_error l j.
  Proof.
    revert i j. induction l as [|x l IH]; intros i j.
    - cbn [set_nth List.length]. destruct i; destruct j; cbn; try reflexivity. destruct (Nat.eqb i j); reflexivity.
    - destruct i as [|i]; destruct j as [|j]; cbn [set_nth nth_error Nat.eqb]; try reflexivity. rewrite IH. destruct (Nat.eqb i j); [|reflexivity].
      cbn [List.length]. change (Nat.ltb (Datatypes.S i) (Datatypes.S (List.length l))) with (Nat.ltb i (List.length l)). reflexivity.
  Qed.
  Lemma marked_set fs flags seen i : marked fs flags seen -> marked fs (set_nth flags i true) (i :: seen).
  Proof.
    intros [Hl H]. split; [rewrite set_nth_length; exact Hl|]. intros j Hj. rewrite set_nth_get. destruct (Nat.eqb i j) eqn:Hij.
    - apply Nat.eqb_eq in Hij. subst j. replace (Nat.ltb i (List.length flags)) with true by (symmetry; apply Nat.ltb_lt; lia). split; [intros _; left; reflexivity|reflexivity].
    - apply Nat.eqb_neq in Hij. rewrite (H j Hj). split; [right; assumption|]. intros [?|?]; [contradiction|assumption].
  Qed.
  Lemma missing_none fs flags : List.length flags = List.length fs -> (first_missing fs flags = None <-> forall i f, nth_error fs i = Some f -> f_req f = true -> nth_error flags i = Some true).
  Proof.
    revert flags. induction fs as [|g fs IH]; intros [|b flags] Hl; cbn [List.length] in Hl; try lia; cbn [first_missing].
    - split; [|reflexivity]. intros _ [|i] f H; discriminate.
    - destruct (f_req g && negb b) eqn:Hg.
      + split; [discriminate|]. intros H. specialize (H O g eq_refl). destruct (f_req g); [|discriminate]. specialize (H eq_refl). cbn in H. injection H as ->. discriminate.
      + rewrite (IH flags) by lia. split.
        * intros H [|i] f Hf Hr; cbn [nth_error] in *; [injection Hf as ->; rewrite Hr in Hg; destruct b; [reflexivity|discriminate]|]. exact (H i f Hf Hr).
        * intros H i f Hf Hr. exact (H (Datatypes.S i) f Hf Hr).
  Qed.
  Lemma marked_missing fs flags seen : marked fs flags seen -> (first_missing fs flags = None <-> forall i f, nth_error fs i = Some f -> f_req f = true -> In i seen).
  Proof.
    intros [Hl H]. rewrite (missing_none fs flags Hl). split; intros G i f Hf Hr; specialize (G i f Hf Hr); apply H; try assumption; apply nth_error_Some; congruence.
  Qed.
  Definition soundF (m : list Z -> list Z * value * outcome unit) (R : list Z -> value -> Prop) : Prop :=
    forall s s' w u, bytes s -> m s = (s', w, Ok u) -> exists p, s = p ++ s' /\ R p w.
  Lemma assign_sound {A} (m : M (list Z) A) Q k v (R : list Z -> value -> Prop) : exactly m Q -> (forall a p, bytes p -> Q a p -> R p (k a)) -> soundF (assign m k v) R.
  Proof.
    intros H HR s s' w u Hb Hm. unfold assign in Hm. destruct (m s) as [s1 [a|e|p]] eqn:H1; try discriminate. injection Hm as <- <- _.
    apply H in H1 as (p & -> & Hp); [|exact Hb]. exists p. split; [reflexivity|]. apply bytes_app in Hb as [Hb _]. auto.
  Qed.
  Lemma encset_sound n : forall mask s s' m, bytes s -> encset_read_loop c I n mask s = (s', Ok m) ->
    exists p zs, s = p ++ s' /\ List.length zs = n /\ ints32 c zs p /\ Forall (fun z => 0 <= z <= 30) zs /\ m = fold_left (fun m z => Z.lor m (2 ^ z)) zs mask.
  Proof.
    induction n as [|n IH]; intros mask s s' m Hb H; cbn [encset_read_loop] in H.
    - injection H as <- <-. exists [], []. repeat split; constructor.
    - unfold bind in H. destruct (read_i32 c I s) as [s1 [z|e|p]] eqn:H1; try discriminate. apply exactly_i32 in H1 as (p1 & -> & k & -> & Hk); [|exact Hb].
      destruct ((signed 32 k <? 0) || (31 <=? signed 32 k)) eqn:Hz; [discriminate|]. apply bytes_app in Hb as [_ Hb].
      apply IH in H as (p2 & zs & -> & Hl & Hi & HF & ->); [|exact Hb]. exists (p1 ++ p2), (signed 32 k :: zs). rewrite app_assoc. split; [reflexivity|]. split; [cbn [List.length]; lia|].
      split; [constructor; assumption|]. split; [constructor; [lia|exact HF]|]. cbn [fold_left]. f_equal. f_equal.
      unfold wrapu. rewrite Z.shiftl_mul_pow2 by lia. rewrite Z.mul_1_l. apply Z.mod_small. split; [apply Z.pow_nonneg; lia|]. apply Z.pow_lt_mono_r; lia.
  Qed.
  Lemma encset_complete zs p : ints32 c zs p -> Forall (fun z => 0 <= z <= 30) zs -> forall mask s', bytes (p ++ s') ->
    encset_read_loop c I (List.length zs) mask (p ++ s') = (s', Ok (fold_left (fun m z => Z.lor m (2 ^ z)) zs mask)).
  Proof.
    induction 1 as [|k zs b1 b2 Hk Hi IH]; intros HF mask s' Hb; [reflexivity|]. rewrite <- app_assoc in *. cbn [List.length encset_read_loop]. unfold bind.
    rewrite (exactly_run _ _ (signed 32 k) b1 _ exactly_i32 (ex_intro _ k (conj eq_refl Hk)) Hb). inversion HF as [|? ? Hz HF']; subst.
    replace ((signed 32 k <? 0) || (31 <=? signed 32 k)) with false by lia. apply bytes_app in Hb as [_ Hb]. rewrite (IH HF' _ _ Hb). cbn [fold_left]. do 3 f_equal.
    f_equal. unfold wrapu. rewrite Z.shiftl_mul_pow2 by lia. rewrite Z.mul_1_l. apply Z.mod_small. split; [apply Z.pow_nonneg; lia|]. apply Z.pow_lt_mono_r; lia.
  Qed.
  Lemma set_of_bits zs k : Forall (fun z => 0 <= z <= 30) zs -> 0 <= k -> (Z.testbit (set_of zs) k = true <-> In k zs).
  Proof.
    intros HF Hk. unfold set_of. rewrite (fold_lor_bits [] 0 true zs 0 k HF Hk). rewrite Z.bits_0. cbn [orb]. rewrite existsb_exists. split.
    - intros (x & Hx & He). apply Z.eqb_eq in He. subst x. exact Hx.
    - intros H. exists k. split; [exact H|apply Z.eqb_refl].
  Qed.

  Lemma exactly_string : exactly (read_string I) (fun l p => chunk c l p /\ well_formed_utf8 l).
  Proof.
    eapply exactly_weaken.
    - unfold read_string. apply exactly_bind; [exact exactly_binary|]. intros l. apply exactly_if; [apply exactly_ret|apply exactly_fail].
    - cbn beta. intros l p Hb. split.
      + intros (l1 & p1 & p2 & -> & Hl & H). destruct (utf8_valid l1) eqn:Hu; [|contradiction]. destruct H as [-> ->]. rewrite app_nil_r. split; [exact Hl|].
        apply utf8_valid_iff; [|exact Hu]. destruct Hl as (n & len & _ & _ & _ & _ & Hp). exact Hp.
      + intros [Hl Hu]. exists l, p, []. rewrite app_nil_r. split; [reflexivity|]. split; [exact Hl|]. rewrite (utf8_valid_complete l Hu). auto.
  Qed.
  Lemma struct_sound name fs (ff : ty -> Z -> F (list Z)) (sk : Z -> M (list Z) unit) :
    (forall f, In f fs -> forall ft v, soundF (ff (field_ty f) ft v) (fun p w => takes_field c E (field_ty f) ft v p w)) -> (forall ft, sound (sk ft) (passed c ft false)) ->
    forall fuel last flags seen vs s s' ws u, bytes s -> marked fs flags seen -> struct_loop c I name fs ff sk fuel last flags vs s = (s', ws, Ok u) ->
      exists p, s = p ++ s' /\ takes_fields c E fs last seen vs p ws.
  Proof.
    intros Hff Hsk. induction fuel as [|fuel IH]; intros last flags seen vs s s' ws u Hb Hm H; cbn [struct_loop] in H; [discriminate|].
    destruct (read_field_header c I last s) as [s1 [[ft id]|e|p]] eqn:H1; try discriminate.
    apply exactly_header in H1 as (p1 & -> & Hp1); [|exact Hb]. apply bytes_app in Hb as [_ Hb]. destruct (ft =? 0) eqn:H0.
    - destruct (first_missing fs flags) eqn:Hmiss; [discriminate|]. injection H as <- <- _. exists p1. split; [reflexivity|].
      replace ft with 0 in Hp1 by lia. eapply ts_stop; [exact Hp1|]. apply (marked_missing fs flags seen Hm). exact Hmiss.
    - destruct (find_field fs id) as [[i f]|] eqn:Hf.
      + destruct (nth_error vs i) as [v|] eqn:Hv; [|discriminate]. apply find_declared in Hf.
        assert (Hin : In f fs) by (destruct Hf as (b & a & -> & _); apply in_or_app; right; left; reflexivity).
        destruct (ff (field_ty f) ft v s1) as [[s2 w] [x|e|p]] eqn:H2; try discriminate. apply (Hff f Hin) in H2 as (p2 & -> & Hp2); [|exact Hb]. apply bytes_app in Hb as [_ Hb].
        destruct (set_nth_split vs i v Hv) as (l & r & -> & Hl & Hset). rewrite Hset in H.
        apply IH with (seen := i :: seen) in H as (p3 & -> & Hp3); [|exact Hb|apply marked_set; exact Hm]. exists (p1 ++ p2 ++ p3). rewrite <- !app_assoc. split; [reflexivity|].
        subst i. eapply ts_known; [exact Hp1|lia|exact Hf|exact Hp2|exact Hp3].
      + apply find_undeclared in Hf. destruct (sk ft s1) as [s2 [x|e|p]] eqn:H2; try discriminate. apply Hsk in H2 as (p2 & -> & Hp2); [|exact Hb]. apply bytes_app in Hb as [_ Hb].
        apply IH with (seen := seen) in H as (p3 & -> & Hp3); [|exact Hb|exact Hm]. exists (p1 ++ p2 ++ p3). rewrite <- !app_assoc. split; [reflexivity|].
        eapply ts_unknown; [exact Hp1|lia|exact Hf|exact Hp2|exact Hp3].
  Qed.
  Lemma vec_sound dv fl t : (forall v, soundF (fl v) (fun p w => takes c E t v p w)) -> (forall v, dv = Some v -> standard E t v) ->
    forall n s s' ws u, bytes s -> vec_loop dv fl n s = (s', ws, Ok u) -> exists p, s = p ++ s' /\ takes_seq c E t n p ws.
  Proof.
    intros Hfl Hdv. induction n as [|n IH]; intros s s' ws u Hb H; cbn [vec_loop] in H.
    - injection H as <- <- _. exists []. split; [reflexivity|constructor].
    - destruct dv as [v|] eqn:Hv; [|discriminate]. destruct (fl v s) as [[s1 w] [x|e|p]] eqn:H1; try discriminate. apply Hfl in H1 as (p1 & -> & Hp1); [|exact Hb]. apply bytes_app in Hb as [_ Hb].
      destruct (vec_loop (Some v) fl n s1) as [[s2 ws'] o] eqn:H2. injection H as <- <- ->. apply IH in H2 as (p2 & -> & Hp2); [|exact Hb].
      exists (p1 ++ p2). rewrite app_assoc. split; [reflexivity|]. econstructor; [apply Hdv; reflexivity|exact Hp1|exact Hp2].
  Qed.
  Lemma field_declared n fs f : lookup E n = Some (DStruct fs) -> In f fs -> declared E (field_ty f).
  Proof. intros Hl Hf. pose proof (HE _ _ Hl f Hf) as H. unfold field_ty. destruct (f_req f); exact H. Qed.
  Lemma variant_declared n fs f : lookup E n = Some (DUnion fs) -> In f fs -> declared E (f_ty f).
  Proof. intros Hl Hf. exact (proj2 (HE _ _ Hl) f Hf). Qed.
  Lemma sound_fill d :
    (forall t v, declared E t -> soundF (fill c I E d t v) (fun p w => takes c E t v p w)) /\
    (forall t ft v, declared E t -> soundF (fill_field c I E d t ft v) (fun p w => takes_field c E t ft v p w)).
  Proof.
    induction d as [|d [IHf IHff]]; [split; [intros t v _|intros t ft v _]; intros s s' w u _ H; discriminate|]. split.
    - intros t v Ht. cbn [fill]. destruct t; cbn [declared] in Ht.
      + apply (assign_sound _ _ _ _ _ exactly_byte). intros b p Hb ->. constructor. inversion Hb; assumption.
      + apply (assign_sound _ _ _ _ _ exactly_byte). intros b p Hb ->. constructor. inversion Hb; assumption.
      + apply (assign_sound _ _ _ _ _ exactly_i16). intros z p _ (n & -> & Hn). constructor. exact Hn.
      + apply (assign_sound _ _ _ _ _ exactly_i32). intros z p _ (n & -> & Hn). constructor. exact Hn.
      + apply (assign_sound _ _ _ _ _ exactly_i64). intros z p _ (n & -> & Hn). constructor. exact Hn.
      + apply (assign_sound _ _ _ _ _ exactly_double). intros z p Hb (-> & Hl). constructor; assumption.
      + apply (assign_sound _ _ _ _ _ exactly_binary). intros l p _ Hl. constructor. exact Hl.
      + apply (assign_sound _ _ _ _ _ exactly_string). intros l p _ [Hl Hu]. constructor; assumption.
      + intros s s' w u Hb H. destruct (read_collection_len_and_type c I s) as [s1 [[n et]|e|p]] eqn:H1; try discriminate.
        apply exactly_collection in H1 as (p1 & -> & Hp1); [|exact Hb]. apply bytes_app in Hb as [_ Hb]. rewrite (code t Ht) in H.
        destruct (negb (et =? wire_code E t) && negb ((wire_code E t =? 2) && (et =? 1))) eqn:Het; [discriminate|]. destruct (negb (reserve c n)) eqn:Hr; [discriminate|].
        destruct (vec_loop (default E d t) (fill c I E d t) (Z.to_nat n) s1) as [[s2 ws] o] eqn:Hv. injection H as <- <- ->.
        apply (vec_sound _ _ t) in Hv as (p2 & -> & Hp2); [|intros v'; apply IHf; exact Ht|intros v' Hd; exact (default_standard E d t v' Hd)|exact Hb].
        exists (p1 ++ p2). rewrite app_assoc. split; [reflexivity|]. econstructor; [exact Hp1|lia|destruct (reserve c n); [reflexivity|discriminate]|exact Hp2].
      + intros s s' w u Hb H.
        assert (G : empty v /\ exists dv w0, default E d t = Some dv /\ fill c I E d t dv s = (s', w0, Ok u) /\ w = VSome w0).
        { destruct v; try discriminate; (split; [intros x Hx; discriminate|]); (destruct (default E d t) as [dv|]; [|discriminate]); exists dv;
            (destruct (fill c I E d t dv s) as [[s1 w1] o]; injection H as <- <- ->; eauto). }
        destruct G as (Hempty & dv & w0 & Hd & Hw & ->). apply IHf in Hw as (p & -> & Hp); [|exact Ht|exact Hb]. exists p. split; [reflexivity|].
        econstructor; [exact Hempty|exact (default_standard E d t dv Hd)|exact Hp].
      + intros s s' w u Hb H. destruct v; try discriminate. destruct (fill c I E d t v s) as [[s1 w1] o] eqn:Hw. injection H as <- <- ->.
        apply IHf in Hw as (p & -> & Hp); [|exact Ht|exact Hb]. exists p. split; [reflexivity|constructor; exact Hp].
      + intros s s' w u Hb H. destruct v; try discriminate. destruct unique; [|discriminate]. destruct (fill c I E d t v s) as [[s1 w1] o] eqn:Hw. injection H as <- <- ->.
        apply IHf in Hw as (p & -> & Hp); [|exact Ht|exact Hb]. exists p. split; [reflexivity|constructor; exact Hp].
      + intros s s' w u Hb H. unfold assign, encset_read, bind in H. destruct (read_collection_len_and_type c I s) as [s1 [[n et]|e|p]] eqn:H1; try discriminate.
        apply exactly_collection in H1 as (p1 & -> & Hp1); [|exact Hb]. apply bytes_app in Hb as [_ Hb]. destruct (negb (et =? 5)) eqn:Het; [discriminate|].
        destruct (encset_read_loop c I (Z.to_nat n) 0 s1) as [s2 [m|e|p]] eqn:Hl; try discriminate. injection H as <- <- _.
        apply encset_sound in Hl as (p2 & zs & -> & Hlen & Hi & HF & ->); [|exact Hb]. exists (p1 ++ p2). rewrite app_assoc. split; [reflexivity|].
        replace et with 5 in Hp1 by lia.
        assert (Hn : 0 <= n) by (pose proof usize_pos; inversion Hp1; subst; [lia|unfold length_of; apply Z.mod_pos_bound; assumption]).
        apply (tk_encset c E v n zs (set_of zs) p1 p2 Hp1); [unfold zlen; lia|exact Hi|exact HF|exact (proj1 (proj1 (set_of_spec zs HF)))|intros k Hk; exact (set_of_bits zs k HF Hk)].
      + destruct (lookup E name) as [[fs|fs|]|] eqn:Hl.
        * intros s s' w u Hb H. destruct v; try discriminate. destruct (struct_loop _ _ _ _ _ _ _ _ _ _ s) as [[s2 ws] o] eqn:Hs. injection H as <- <- ->.
          apply (struct_sound name fs _ _ (fun f Hf ft v => IHff (field_ty f) ft v (field_declared _ _ _ Hl Hf)) (fun ft => proj1 (sound_skip d) ft false) _ _ _ []) in Hs
            as (p & -> & Hp); [|exact Hb|apply marked_start]. exists p. split; [reflexivity|]. econstructor; [exact Hl|exact Hp].
        * intros s s' w u Hb H. destruct (read_field_header c I 0 s) as [s1 [[ft id]|e|p]] eqn:H1; try discriminate.
          apply exactly_header in H1 as (p1 & -> & Hp1); [|exact Hb]. apply bytes_app in Hb as [_ Hb]. destruct (ft =? 0) eqn:H0; [discriminate|].
          destruct (find_field fs id) as [[i f]|] eqn:Hf; [|discriminate]. apply find_declared in Hf.
          assert (Hin : In f fs) by (destruct Hf as (b & a & -> & _); apply in_or_app; right; left; reflexivity).
          destruct (default E d (f_ty f)) as [dv|] eqn:Hd; [|discriminate]. destruct (fill c I E d (f_ty f) dv s1) as [[s2 w2] [x|e|p]] eqn:H2; try discriminate.
          apply IHf in H2 as (p2 & -> & Hp2); [|exact (variant_declared _ _ _ Hl Hin)|exact Hb]. apply bytes_app in Hb as [_ Hb].
          cbn [slice_input in_read_byte] in H. unfold slice_read_byte in H. destruct s2 as [|b s2]; [discriminate|]. destruct (b =? 0) eqn:Hb0; [|discriminate]. injection H as <- <- _.
          exists (p1 ++ p2 ++ [0]). rewrite <- !app_assoc. cbn [app]. split; [do 3 f_equal; lia|]. econstructor; [exact Hl|exact Hp1|lia|exact Hf|exact (default_standard E d _ dv Hd)|exact Hp2].
        * apply (assign_sound _ _ _ _ _ exactly_i32). intros z p _ (n & -> & Hn). constructor; [exact Hl|exact Hn].
        * intros s s' w u _ H. discriminate.
    - intros t ft v Ht. cbn [fill_field].
      assert (Other : t <> TBool -> (forall t', t <> TOption t') -> soundF (fun s => if negb (ft =? field_type E t) then (s, v, Err InvalidType) else fill c I E d t v s) (fun p w => takes_field c E t ft v p w)).
      { intros H1 H2 s s' w u Hb H. rewrite (code t Ht) in H. destruct (ft =? wire_code E t) eqn:Hft; cbn [negb] in H; [|discriminate].
        apply IHf in H as (p & -> & Hp); [|exact Ht|exact Hb]. exists p. split; [reflexivity|]. replace ft with (wire_code E t) by lia. apply tf_other; assumption. }
      destruct t; try (apply Other; [discriminate|intros; discriminate]).
      + intros s s' w u Hb H. injection H as <- <- _. exists []. split; [reflexivity|constructor].
      + clear Other. cbn [declared] in Ht. intros s s' w u Hb H.
        assert (G : empty v /\ exists dv w0, default E d t = Some dv /\ fill_field c I E d t ft dv s = (s', w0, Ok u) /\ w = VSome w0).
        { destruct v; try discriminate; (split; [intros x Hx; discriminate|]); (destruct (default E d t) as [dv|]; [|discriminate]); exists dv;
            (destruct (fill_field c I E d t ft dv s) as [[s1 w1] o]; injection H as <- <- ->; eauto). }
        destruct G as (Hempty & dv & w0 & Hd & Hw & ->). apply IHff in Hw as (p & -> & Hp); [|exact Ht|exact Hb]. exists p. split; [reflexivity|].
        econstructor; [exact Hempty|exact (default_standard E d t dv Hd)|exact Hp].
  Qed.

  (** * Filling: what is in the relation is accepted *)
  Lemma default_more d t v : default E d t = Some v -> forall d', (d <= d')%nat -> default E d' t = Some v.
  Proof.
    revert t v. induction d as [|d IH]; intros t v H d' Hd; [discriminate|]. destruct d' as [|d']; [lia|]. cbn [default] in *. destruct t; try exact H.
    - destruct (default E d t) eqn:Ht; [|discriminate]. rewrite (IH _ _ Ht d') by lia. exact H.
    - destruct (default E d t) eqn:Ht; [|discriminate]. rewrite (IH _ _ Ht d') by lia. exact H.
    - destruct (lookup E name) as [[fs|[|f fs]|]|]; try exact H.
      + assert (G : forall l vs, sequence (map (fun f => default E d (field_ty f)) l) = Some vs -> sequence (map (fun f => default E d' (field_ty f)) l) = Some vs).
        { induction l as [|f l IHl]; intros vs Hs; cbn [map sequence] in *; [exact Hs|]. destruct (default E d (field_ty f)) eqn:Hf; [|discriminate]. rewrite (IH _ _ Hf d') by lia.
          destruct (sequence (map (fun f => default E d (field_ty f)) l)) eqn:Hq; [|discriminate]. rewrite (IHl _ eq_refl). exact Hs. }
        destruct (sequence (map (fun f => default E d (field_ty f)) fs)) eqn:Hq; [|discriminate]. rewrite (G _ _ Hq). exact H.
      + destruct (default E d (f_ty f)) eqn:Hf; [|discriminate]. rewrite (IH _ _ Hf d') by lia. exact H.
  Qed.
  Lemma standard_from t v : standard E t v -> exists d0, forall d, (d0 <= d)%nat -> default E d t = Some v.
  Proof. intros H. destruct (proj1 (default_iff E t v) H) as [d0 Hd]. exists d0. intros d. exact (default_more d0 t v Hd d). Qed.
  Definition doneF (m : nat -> list Z -> list Z * value * outcome unit) (p : list Z) (w : value) : Prop :=
    exists d0, forall d, (d0 <= d)%nat -> forall s', bytes (p ++ s') -> m d (p ++ s') = (s', w, Ok tt).
  Lemma done_assign {A} (m : M (list Z) A) Q k v a p (f : nat -> list Z -> list Z * value * outcome unit) :
    exactly m Q -> Q a p -> (forall d s, f (Datatypes.S d) s = assign m k v s) -> doneF f p (k a).
  Proof.
    intros H HQ Hf. exists 1%nat. intros d Hd s' Hb. destruct d as [|d]; [lia|]. rewrite Hf. unfold assign. rewrite (exactly_run m Q a p s' H HQ Hb). reflexivity.
  Qed.
  Lemma complete_fill :
    (forall t v p w, takes c E t v p w -> declared E t -> doneF (fun d => fill c I E d t v) p w) /\
    (forall t n p ws, takes_seq c E t n p ws -> declared E t -> exists d0, forall d, (d0 <= d)%nat -> forall s', bytes (p ++ s') -> vec_loop (default E d t) (fill c I E d t) n (p ++ s') = (s', ws, Ok tt)) /\
    (forall t ft v p w, takes_field c E t ft v p w -> declared E t -> doneF (fun d => fill_field c I E d t ft v) p w) /\
    (forall fs last seen vs p ws, takes_fields c E fs last seen vs p ws -> (forall f, In f fs -> declared E (field_ty f)) -> forall name,
      exists d0, forall d, (d0 <= d)%nat -> forall fuel flags s', (List.length p <= fuel)%nat -> marked fs flags seen -> bytes (p ++ s') ->
        struct_loop c I name fs (fun t' ft w s' => fill_field c I E d t' ft w s') (fun ft => skip_field c I d ft false) fuel last flags vs (p ++ s') = (s', ws, Ok tt)).
  Proof.
    apply takes_mutind.
    - intros v b Hb _. apply (done_assign _ _ (fun b => VBool (b =? 1)) v b [b] _ exactly_byte eq_refl). reflexivity.
    - intros v b Hb _. apply (done_assign _ _ (fun b => VI8 (wraps 8 b)) v b [b] _ exactly_byte eq_refl). reflexivity.
    - intros v n bs Hn _. apply (done_assign _ _ VI16 v _ bs _ exactly_i16 (ex_intro _ n (conj eq_refl Hn))). reflexivity.
    - intros v n bs Hn _. apply (done_assign _ _ VI32 v _ bs _ exactly_i32 (ex_intro _ n (conj eq_refl Hn))). reflexivity.
    - intros v n bs Hn _. apply (done_assign _ _ VI64 v _ bs _ exactly_i64 (ex_intro _ n (conj eq_refl Hn))). reflexivity.
    - intros v bs Hl Hb _. apply (done_assign _ _ VDouble v _ bs _ exactly_double (conj eq_refl Hl)). reflexivity.
    - intros v l bs Hl _. apply (done_assign _ _ VBin v _ bs _ exactly_binary Hl). reflexivity.
    - intros v l bs Hl Hu _. apply (done_assign _ _ VStr v _ bs _ exactly_string (conj Hl Hu)). reflexivity.
    - intros t v n et hdr ws body Hh Het Hr _ IH Ht. cbn [declared] in Ht. destruct (IH Ht) as [d0 IH']. exists (Datatypes.S d0). intros d Hd s' Hb. destruct d as [|d]; [lia|].
      rewrite <- app_assoc in *. cbn [fill]. rewrite (exactly_run _ _ (n, et) hdr _ exactly_collection Hh Hb). rewrite (code t Ht).
      replace (negb (et =? wire_code E t) && negb ((wire_code E t =? 2) && (et =? 1))) with false by lia. rewrite Hr. cbn [negb].
      apply bytes_app in Hb as [_ Hb]. rewrite (IH' d ltac:(lia) s' Hb). reflexivity.
    - intros t v dv bs w He Hs _ IH Ht. cbn [declared] in Ht. destruct (IH Ht) as [d1 IH']. destruct (standard_from _ _ Hs) as [d2 Hd2]. exists (Datatypes.S (d1 + d2)). intros d Hd s' Hb.
      destruct d as [|d]; [lia|]. cbn [fill]. rewrite (Hd2 d) by lia. rewrite (IH' d ltac:(lia) s' Hb). destruct v; try reflexivity. exfalso. exact (He _ eq_refl).
    - intros t v bs w _ IH Ht. cbn [declared] in Ht. destruct (IH Ht) as [d1 IH']. exists (Datatypes.S d1). intros d Hd s' Hb. destruct d as [|d]; [lia|]. cbn [fill]. rewrite (IH' d ltac:(lia) s' Hb). reflexivity.
    - intros t v bs w _ IH Ht. cbn [declared] in Ht. destruct (IH Ht) as [d1 IH']. exists (Datatypes.S d1). intros d Hd s' Hb. destruct d as [|d]; [lia|]. cbn [fill]. rewrite (IH' d ltac:(lia) s' Hb). reflexivity.
    - intros v n zs mask hdr body Hh Hn Hi HF H0 Hbits _. exists 1%nat. intros d Hd s' Hb. destruct d as [|d]; [lia|]. rewrite <- app_assoc in *. cbn [fill]. unfold assign, encset_read, bind.
      rewrite (exactly_run _ _ (n, 5) hdr _ exactly_collection Hh Hb). cbn [Z.eqb Pos.eqb negb]. apply bytes_app in Hb as [_ Hb].
      replace (Z.to_nat n) with (List.length zs) by (unfold zlen in Hn; lia). rewrite (encset_complete zs body Hi HF 0 s' Hb). fold (set_of zs).
      replace (set_of zs) with mask; [reflexivity|]. apply Z.bits_inj'. intros k Hk. pose proof (Hbits k Hk) as H1. pose proof (set_of_bits zs k HF Hk) as H2.
      destruct (Z.testbit mask k), (Z.testbit (set_of zs) k); try reflexivity; exfalso; intuition discriminate.
    - intros name v n bs Hl Hn _. apply (done_assign _ _ VI32 v _ bs _ exactly_i32 (ex_intro _ n (conj eq_refl Hn))). intros d s. cbn [fill]. rewrite Hl. reflexivity.
    - intros name fs vs bs ws Hl _ IH _. destruct (IH (fun f => field_declared name fs f Hl) name) as [d0 IH']. exists (Datatypes.S d0). intros d Hd s' Hb. destruct d as [|d]; [lia|].
      cbn [fill]. rewrite Hl. pose proof (IH' d ltac:(lia) (Datatypes.S (slice_left (bs ++ s'))) (map (fun _ => false) fs) s' ltac:(unfold slice_left; rewrite app_length; lia) (marked_start fs) Hb) as G.
      exact (f_equal (fun x => match x with (s2, vs', o) => (s2, VStruct vs', o) end) G).
    - intros name fs v id ft hdr i f dv bs w Hl Hh Hft Hf Hs _ IH _.
      assert (Hin : In f fs) by (destruct Hf as (b & a & -> & _); apply in_or_app; right; left; reflexivity).
      destruct (IH (variant_declared _ _ _ Hl Hin)) as [d1 IH']. destruct (standard_from _ _ Hs) as [d2 Hd2]. exists (Datatypes.S (d1 + d2)). intros d Hd s' Hb.
      destruct d as [|d]; [lia|]. cbn [fill]. rewrite Hl. rewrite <- !app_assoc in *. rewrite (exactly_run _ _ (ft, id) hdr _ (exactly_header 0) Hh Hb). replace (ft =? 0) with false by lia.
      rewrite (proj2 (find_declared fs id i f) Hf). rewrite (Hd2 d) by lia. apply bytes_app in Hb as [_ Hb]. rewrite (IH' d ltac:(lia) _ Hb). reflexivity.
    - intros t _. exists 0%nat. reflexivity.
    - intros t n dv b1 w b2 ws Hs _ IH1 _ IH2 Ht. destruct (IH1 Ht) as [d1 H1]. destruct (IH2 Ht) as [d2 H2]. destruct (standard_from _ _ Hs) as [d3 H3]. exists (d1 + d2 + d3)%nat.
      intros d Hd s' Hb. rewrite <- app_assoc in *. cbn [vec_loop]. rewrite (H3 d) by lia. rewrite (H1 d ltac:(lia) _ Hb). apply bytes_app in Hb as [_ Hb].
      specialize (H2 d ltac:(lia) _ Hb). rewrite (H3 d) in H2 by lia. rewrite H2. reflexivity.
    - intros ft v _. exists 1%nat. intros d Hd s' Hb. destruct d as [|d]; [lia|]. reflexivity.
    - intros t ft v dv bs w He Hs _ IH Ht. cbn [declared] in Ht. destruct (IH Ht) as [d1 IH']. destruct (standard_from _ _ Hs) as [d2 Hd2]. exists (Datatypes.S (d1 + d2)). intros d Hd s' Hb.
      destruct d as [|d]; [lia|]. cbn [fill_field]. rewrite (Hd2 d) by lia. rewrite (IH' d ltac:(lia) s' Hb). destruct v; try reflexivity. exfalso. exact (He _ eq_refl).
    - intros t v bs w H1 H2 _ IH Ht. destruct (IH Ht) as [d1 IH']. exists (Datatypes.S d1). intros d Hd s' Hb. destruct d as [|d]; [lia|].
      assert (G : fill_field c I E (Datatypes.S d) t (wire_code E t) v (bs ++ s') = if negb (wire_code E t =? field_type E t) then (bs ++ s', v, Err InvalidType) else fill c I E d t v (bs ++ s')).
      { destruct t; try reflexivity; [congruence|exfalso; exact (H2 _ eq_refl)]. }
      rewrite G, (code t Ht), Z.eqb_refl. cbn [negb]. apply IH'; [lia|exact Hb].
    - intros fs last seen vs id hdr Hh Hreq _ name. exists 0%nat. intros d _ fuel flags s' Hf Hm Hb.
      assert (Hne : (1 <= List.length hdr)%nat) by (inversion Hh; cbn [List.length]; lia). destruct fuel as [|fuel]; [lia|]. cbn [struct_loop].
      rewrite (exactly_run _ _ (0, id) hdr s' (exactly_header last) Hh Hb). cbn [Z.eqb]. rewrite (proj2 (marked_missing fs flags seen Hm) Hreq). reflexivity.
    - intros fs last seen l v r id ft hdr f b1 w b2 ws Hh Hft Hf _ IH1 _ IH2 Hfs name.
      assert (Hin : In f fs) by (destruct Hf as (b & a & -> & _); apply in_or_app; right; left; reflexivity).
      destruct (IH1 (Hfs f Hin)) as [d1 H1]. destruct (IH2 Hfs name) as [d2 H2]. exists (d1 + d2)%nat. intros d Hd fuel flags s' Hfu Hm Hb. rewrite <- !app_assoc in *.
      assert (Hne : (1 <= List.length hdr)%nat) by (inversion Hh; cbn [List.length]; lia). rewrite !app_length in Hfu. destruct fuel as [|fuel]; [lia|]. cbn [struct_loop].
      rewrite (exactly_run _ _ (ft, id) hdr _ (exactly_header last) Hh Hb). replace (ft =? 0) with false by lia. rewrite (proj2 (find_declared fs id _ f) Hf).
      rewrite nth_error_app2, Nat.sub_diag by lia. cbn [nth_error]. apply bytes_app in Hb as [_ Hb]. unfold field_ty at 1. rewrite (H1 d ltac:(lia) _ Hb). apply bytes_app in Hb as [_ Hb].
      rewrite set_nth_app. apply H2; [lia|lia|apply marked_set; exact Hm|exact Hb].
    - intros fs last seen vs id ft hdr b1 b2 ws Hh Hft Hf Hp _ IH2 Hfs name. destruct (proj1 complete_skip _ _ _ Hp) as [d1 H1]. destruct (IH2 Hfs name) as [d2 H2]. exists (d1 + d2)%nat.
      intros d Hd fuel flags s' Hfu Hm Hb. rewrite <- !app_assoc in *.
      assert (Hne : (1 <= List.length hdr)%nat) by (inversion Hh; cbn [List.length]; lia). rewrite !app_length in Hfu. destruct fuel as [|fuel]; [lia|]. cbn [struct_loop].
      rewrite (exactly_run _ _ (ft, id) hdr _ (exactly_header last) Hh Hb). replace (ft =? 0) with false by lia. rewrite (proj2 (find_undeclared fs id) Hf).
      apply bytes_app in Hb as [_ Hb]. rewrite (H1 d ltac:(lia) _ Hb). apply bytes_app in Hb as [_ Hb]. apply H2; [lia|lia|exact Hm|exact Hb].
  Qed.
End Exact.

(** * The statements *)
Lemma fill_iff c E t v s rest w : cfg_ok c -> acceptable E -> declared E t -> bytes s ->
  (exists d, fill c (slice_input c) E d t v s = (rest, w, Ok tt)) <-> (exists p, s = p ++ rest /\ takes c E t v p w).
Proof.
  intros Hc HE Ht Hb. split.
  - intros [d H]. exact (proj1 (sound_fill c Hc E HE d) t v Ht s rest w tt Hb H).
  - intros (p & -> & Hp). destruct (proj1 (complete_fill c Hc E HE) t v p w Hp Ht) as [d0 H]. exists d0. exact (H d0 (le_n _) rest Hb).
Qed.
Lemma read_done c E t p v : cfg_ok c -> acceptable E -> declared E t -> accepted c E t p v ->
  exists d0, forall d, (d0 <= d)%nat -> forall rest, bytes (p ++ rest) -> read_thrift c (slice_input c) E d t (p ++ rest) = (rest, Ok v).
Proof.
  intros Hc HE Ht (dv & Hs & Hp). destruct (standard_from E t dv Hs) as [d1 H1]. destruct (proj1 (complete_fill c Hc E HE) t dv p v Hp Ht) as [d2 H2]. exists (d1 + d2)%nat.
  intros d Hd rest Hb. unfold read_thrift. rewrite (H1 d) by lia. rewrite (H2 d ltac:(lia) rest Hb). reflexivity.
Qed.
Lemma read_iff c E t s rest v : cfg_ok c -> acceptable E -> declared E t -> bytes s ->
  (exists d, read_thrift c (slice_input c) E d t s = (rest, Ok v)) <-> (exists p, s = p ++ rest /\ accepted c E t p v).
Proof.
  intros Hc HE Ht Hb. split.
  - intros [d H]. unfold read_thrift in H. destruct (default E d t) as [dv|] eqn:Hd; [|discriminate].
    destruct (fill c (slice_input c) E d t dv s) as [[s1 w] [u|e|x]] eqn:Hf; try discriminate. injection H as <- <-.
    apply (proj1 (sound_fill c Hc E HE d) t dv Ht) in Hf as (p & -> & Hp); [|exact Hb]. exists p. split; [reflexivity|]. exists dv. split; [exact (default_standard E d t dv Hd)|exact Hp].
  - intros (p & -> & Hp). destruct (read_done c E t p v Hc HE Ht Hp) as [d0 H]. exists d0. exact (H d0 (le_n _) rest Hb).
Qed.
Lemma skip_iff c ft e s rest : cfg_ok c -> bytes s ->
  (exists d, skip_field c (slice_input c) d ft e s = (rest, Ok tt)) <-> (exists p, s = p ++ rest /\ passed c ft e p).
Proof.
  intros Hc Hb. split.
  - intros [d H]. exact (proj1 (sound_skip c Hc d) ft e s rest tt Hb H).
  - intros (p & -> & Hp). destruct (proj1 (complete_skip c Hc) ft e p Hp) as [d0 H]. exists d0. exact (H d0 (le_n _) rest Hb).
Qed.
Lemma agrees_ok {A} (x : list Z * outcome A) (y : reader * outcome A) r : agrees x y r -> forall rest a,
  x = (rest, Ok a) <-> exists r', y = (r', Ok a) /\ content r' = rest /\ ending r' = ending r.
Proof.
  intros [H1 H2] rest a. destruct x as [s o], y as [r' o']. cbn [fst snd] in *. split.
  - intros [= -> ->]. exists r'. cbn in H1. subst o'. destruct (H2 I) as [H3 H4]. auto.
  - intros (r2 & [= -> ->] & Hr & _). assert (o = Ok a) by (destruct o as [a'|e|p]; [|destruct e; try match goal with k : io_kind |- _ => destruct k end|]; cbn in H1; congruence). subst o. destruct (H2 I) as [H3 _]. congruence.
Qed.
Lemma reader_iff c E K t r rest v : cfg_ok c -> acceptable E -> env_closed E K = true -> declared E t -> ty_closed E t = true -> reader_bytes r ->
  (exists d r', read_thrift c (reader_input c) E d t r = (r', Ok v) /\ content r' = rest /\ ending r' = ending r) <->
  (exists p, content r = p ++ rest /\ accepted (portable c) E t p v).
Proof.
  intros Hc HE HK Ht Hty Hr. pose proof (content_bytes r Hr) as Hb. rewrite <- (read_iff (portable c) E t (content r) rest v (portable_ok c Hc) HE Ht Hb).
  split; intros [d H]; exists d; apply (agrees_ok _ _ r (read_agrees c E K d t r Hc HK Hty Hb Hr)); exact H.
Qed.
Lemma reader_skip_iff c ft e r rest : cfg_ok c -> reader_bytes r ->
  (exists d r', skip_field c (reader_input c) d ft e r = (r', Ok tt) /\ content r' = rest /\ ending r' = ending r) <->
  (exists p, content r = p ++ rest /\ passed (portable c) ft e p).
Proof.
  intros Hc Hr. pose proof (content_bytes r Hr) as Hb. rewrite <- (skip_iff (portable c) ft e (content r) rest (portable_ok c Hc) Hb).
  split; intros [d H]; exists d; apply (agrees_ok _ _ r (skip_agrees c d ft e r Hc Hb Hr)); exact H.
Qed.
Lemma accepted_unique c E t p q r1 r2 v w : cfg_ok c -> acceptable E -> declared E t -> bytes (p ++ r1) ->
  accepted c E t p v -> accepted c E t q w -> p ++ r1 = q ++ r2 -> p = q /\ v = w.
Proof.
  intros Hc HE Ht Hb Hp Hq Heq. destruct (read_done c E t p v Hc HE Ht Hp) as [d1 H1]. destruct (read_done c E t q w Hc HE Ht Hq) as [d2 H2].
  specialize (H1 (d1 + d2)%nat ltac:(lia) r1 Hb). rewrite Heq in H1, Hb. rewrite (H2 (d1 + d2)%nat ltac:(lia) r2 Hb) in H1. injection H1 as -> <-. split; [|reflexivity]. exact (app_inv_tail _ _ _ Heq).
Qed.

(** A repeated field, the later of which counts, then an optional boolean with the wire type of an i32. *)
Lemma accepted_sample : accepted release64 [("S"%string, DStruct [fld 1 true TI32 "a"; fld 2 false TBool "b"])] (TNamed "S") [21; 2; 5; 130; 128; 0; 4; 21; 0]
  (VStruct [VI32 2; VSome (VBool false)]).
Proof.
  set (E := [("S"%string, DStruct [fld 1 true TI32 "a"; fld 2 false TBool "b"])]). exists (VStruct [VI32 0; VNone]).
  split; [apply (default_standard E 5); vm_compute; reflexivity|].
  assert (N : forall b, 0 <= b < 128 -> number release64 b [b]).
  { intros b Hb. split; [constructor; lia|]. split; [|discriminate]. cbn [joined]. rewrite Z.lor_0_r. change (2 ^ ((7 * 0) mod 64)) with 1. change (2 ^ 64) with 18446744073709551616. lia. }
  apply (tk_struct release64 E "S" [fld 1 true TI32 "a"; fld 2 false TBool "b"]); [reflexivity|].
  apply (ts_known release64 E _ 0 [] [] (VI32 0) [VNone] 1 5 [21] (fld 1 true TI32 "a") [2] (VI32 1) [5; 130; 128; 0; 4; 21; 0]).
  { apply (hd_short release64 0 21); [lia|discriminate]. } { lia. } { exists [], [fld 2 false TBool "b"]. repeat split. constructor. }
  { apply (tf_other release64 E TI32 (VI32 0)); [discriminate|discriminate|]. apply (tk_i32 release64 E _ 2). apply N. lia. }
  apply (ts_known release64 E _ 1 [0%nat] [] (VI32 1) [VNone] 1 5 [5; 130; 128; 0] (fld 1 true TI32 "a") [4] (VI32 2) [21; 0]).
  { apply (hd_long release64 1 5 2); [lia|]. split; [apply term_more; [lia|]; apply term_more; [lia|]; apply term_last; lia|]. split; [reflexivity|discriminate]. } { lia. }
  { exists [], [fld 2 false TBool "b"]. repeat split. constructor. }
  { apply (tf_other release64 E TI32 (VI32 1)); [discriminate|discriminate|]. apply (tk_i32 release64 E _ 4). apply N. lia. }
  apply (ts_known release64 E _ 1 _ [VI32 2] VNone [] 2 5 [21] (fld 2 false TBool "b") [] (VSome (VBool false)) [0]).
  { apply (hd_short release64 1 21); [lia|discriminate]. } { lia. } { exists [fld 1 true TI32 "a"], []. repeat split. constructor; [cbn; lia|constructor]. }
  { apply (tf_option release64 E TBool 5 VNone (VBool false)); [intros x; discriminate|constructor|]. apply (tf_bool release64 E 5). }
  apply (ts_stop release64 E _ 2 _ _ 2); [apply hd_stop|]. intros i f Hi Hr. destruct i as [|[|i]]; cbn in Hi.
  - right. right. left. reflexivity.
  - injection Hi as <-. discriminate.
  - destruct i; discriminate.
Qed.
(** With SSE2 an integer of seventeen bytes is skipped without looking at the last; otherwise it goes on until a byte below 128. *)
Lemma passed_sample : passed release64 5 false (repeat 128 16 ++ [200]) /\ ~ passed portable64 5 false (repeat 128 16 ++ [200]).
Proof.
  split.
  - apply ps_int; [lia|]. right. exists (repeat 128 16), 200. split; [reflexivity|]. split; [reflexivity|]. split; [|unfold is_byte; lia]. apply Forall_forall. intros x Hx. apply repeat_spec in Hx. lia.
  - intros H. inversion H; subst; try lia. match goal with H : passed_int _ _ |- _ => destruct H as (n & Ht & _) end.
    cbn [repeat app] in Ht. repeat match goal with H : terminated _ |- _ => inversion H; subst; clear H; try lia end.
Qed.
