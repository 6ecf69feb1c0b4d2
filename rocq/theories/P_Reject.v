(** Exactly what is refused and why: the lemmas behind C92. *)
From Coq Require Import ZifyBool ZifyNat ZifyN.
From Verif Require Import Base Uleb Utf8 Protocol Encodings Types SpecUtf8 SpecCompact SpecInput SpecDefault SpecAccept SpecReject
  P_Arith P_Utf8 P_Inputs P_Fill P_Write P_EncSet P_Default P_SimInst P_Robust Schema SampleSchema P_Accept.
Ltac Zify.zify_post_hook ::= Z.div_mod_to_equations.

Definition fault_is {A} (o : outcome A) (f : fault) : Prop :=
  match o, f with Err e, Fails e' => e = e' | Panic p, Dies p' => p = p' | _, _ => False end.
(** [m] ends with [f] exactly on the inputs of [R]. *)
Definition faulty {A} (m : M (list Z) A) (R : list Z -> fault -> Prop) : Prop :=
  forall s f, bytes s -> (fault_is (snd (m s)) f <-> R s f).
Lemma faulty_weaken {A} (m : M (list Z) A) R R' : faulty m R -> (forall s f, bytes s -> (R s f <-> R' s f)) -> faulty m R'.
Proof. intros H HR s f Hb. rewrite (H s f Hb). exact (HR s f Hb). Qed.
Lemma faulty_ret {A} (a : A) : faulty (ret a) (fun _ _ => False).
Proof. intros s f _. destruct f; cbn; tauto. Qed.
Lemma fault_err {A} e f : @fault_is A (Err e) f <-> f = Fails e.
Proof. destruct f; cbn; split; intros H; (contradiction || congruence). Qed.
Lemma fault_panic {A} p f : @fault_is A (Panic p) f <-> f = Dies p.
Proof. destruct f; cbn; split; intros H; (contradiction || congruence). Qed.
Lemma fault_ok {A} (a : A) f : ~ fault_is (Ok a) f.
Proof. destruct f; cbn; tauto. Qed.
Lemma faulty_fail {A} e : faulty (@fail (list Z) A e) (fun _ f => f = Fails e).
Proof. intros s f _. apply fault_err. Qed.
Lemma faulty_crash {A} p : faulty (@crash (list Z) A p) (fun _ f => f = Dies p).
Proof. intros s f _. apply fault_panic. Qed.
Lemma faulty_bind {A B} (m : M (list Z) A) (k : A -> M (list Z) B) Q R R' :
  exactly m Q -> faulty m R -> (forall a, faulty (k a) (R' a)) ->
  faulty (bind m k) (fun s f => R s f \/ exists a p s', s = p ++ s' /\ Q a p /\ R' a s' f).
Proof.
  intros HQ HR Hk s f Hb. unfold bind. pose proof (HR s f Hb) as H1. destruct (m s) as [s1 [a|e|p]] eqn:Hm; cbn [snd] in H1.
  - pose proof Hm as Hm'. apply HQ in Hm as (p & -> & Hp); [|exact Hb]. apply bytes_app in Hb as [Hb1 Hb2]. rewrite (Hk a s1 f Hb2). split.
    + intros H. right. exists a, p, s1. auto.
    + intros [H|(a' & p' & s' & He & Hp' & H)]; [apply H1 in H; apply fault_ok in H; contradiction|].
      assert (Hm2 : m (p' ++ s') = (s', Ok a')) by (apply HQ; [rewrite <- He; apply bytes_app; auto|eauto]). rewrite <- He, Hm' in Hm2. injection Hm2 as <- <-. exact H.
  - split; [intros H; left; apply H1; exact H|]. intros [H|(a' & p' & s' & -> & Hp' & H)]; [apply H1; exact H|].
    assert (Hm2 : m (p' ++ s') = (s', Ok a')) by (apply HQ; [exact Hb|eauto]). congruence.
  - split; [intros H; left; apply H1; exact H|]. intros [H|(a' & p' & s' & -> & Hp' & H)]; [apply H1; exact H|].
    assert (Hm2 : m (p' ++ s') = (s', Ok a')) by (apply HQ; [exact Hb|eauto]). congruence.
Qed.
Lemma faulty_if {A} (b : bool) (m1 m2 : M (list Z) A) R1 R2 : faulty m1 R1 -> faulty m2 R2 -> faulty (if b then m1 else m2) (fun s f => if b then R1 s f else R2 s f).
Proof. destruct b; auto. Qed.
Lemma faulty_discard {A} (m : M (list Z) A) R : faulty m R -> faulty (m ;; ret tt) R.
Proof. intros H s f Hb. rewrite <- (H s f Hb). unfold bind. destruct (m s) as [s1 [a|e|p]]; destruct f; cbn; tauto. Qed.
Lemma faulty_map {A B} (m : M (list Z) A) (g : A -> B) R : faulty m R -> faulty (let! a := m in ret (g a)) R.
Proof. intros H s f Hb. rewrite <- (H s f Hb). unfold bind. destruct (m s) as [s1 [a|e|p]]; destruct f; cbn; tauto. Qed.
Lemma faulty_byte : faulty slice_read_byte (fun s f => s = [] /\ f = too_short).
Proof.
  intros [|b s] f _; cbn [slice_read_byte snd].
  - rewrite fault_err. unfold too_short. tauto.
  - split; [intros H; apply fault_ok in H; contradiction|intros [H _]; discriminate].
Qed.

Section Exact.
  Variable c : cfg.
  Hypothesis Hc : cfg_ok c.

  (** * Numbers *)
  Lemma loop_faulty fuel : forall i value s f, 0 <= i -> (overflow_checks c = true -> 7 * i < 2 ^ 32) -> bytes s -> (List.length s < fuel)%nat ->
    (fault_is (snd (decode_uleb_loop c slice_read_byte fuel (shift_of i) value s)) f <->
     (Forall (fun b => 128 <= b < 256) s /\ (overflow_checks c = true -> 7 * (i + zlen s) < 2 ^ 32) /\ f = too_short) \/
     (exists l b r, s = l ++ b :: r /\ Forall (fun b => 128 <= b < 256) l /\ overflow_checks c = true /\
       7 * (i + zlen l) < 2 ^ 32 <= 7 * (i + zlen l + 1) /\ f = Dies POverflow)).
  Proof.
    induction fuel as [|fuel IH]; intros i value s f Hi Ho Hb Hf; [lia|]. cbn [decode_uleb_loop]. unfold bind, slice_read_byte at 1. destruct s as [|b s].
    - cbn [snd]. rewrite fault_err. split.
      + intros ->. left. split; [constructor|]. split; [|reflexivity]. unfold zlen; cbn [List.length]. intros E. specialize (Ho E). lia.
      + intros [(_ & _ & ->)|(l & b & r & H & _)]; [reflexivity|]. destruct l; discriminate.
    - assert (Hbb : is_byte b) by (inversion Hb; assumption). assert (Hbs : bytes s) by (inversion Hb; assumption). cbn [List.length] in Hf.
      rewrite land128 by exact Hbb. unfold is_byte in Hbb. set (value' := Z.lor value _). clearbody value'.
      destruct (overflow_checks c && (2 ^ 32 <=? shift_of i + 7)) eqn:Hov.
      + apply andb_true_iff in Hov as [E Hov]. specialize (Ho E). unfold shift_of in Hov. rewrite Z.mod_small in Hov by lia. cbn [crash snd]. unfold crash. cbn [snd]. rewrite fault_panic. split.
        * intros ->. right. exists [], b, s. split; [reflexivity|]. split; [constructor|]. split; [exact E|]. unfold zlen; cbn [List.length]. split; [lia|reflexivity].
        * intros [(HF & H & ->)|(l & b' & r & H & HF & _ & Hl & ->)]; [|reflexivity]. exfalso. specialize (H E). unfold zlen in H. cbn [List.length] in H. lia.
      + assert (Ho' : overflow_checks c = true -> 7 * (i + 1) < 2 ^ 32).
        { intros E. rewrite E in Hov. specialize (Ho E). cbn [andb] in Hov. unfold shift_of in Hov. rewrite Z.mod_small in Hov by lia. lia. }
        replace (wrapu 32 (shift_of i + 7)) with (shift_of (i + 1)) by (unfold shift_of, wrapu; clear; lia).
        destruct (b <? 128) eqn:H128.
        * split; [intros H; apply fault_ok in H; contradiction|].
          intros [(HF & _)|(l & b' & r & H & HF & E & Hl & ->)]; [inversion HF; subst; lia|]. destruct l as [|x l]; injection H as -> ->; [|inversion HF; subst; lia].
          exfalso. specialize (Ho' E). unfold zlen in Hl. cbn [List.length] in Hl. lia.
        * rewrite (IH (i + 1) value' s f ltac:(lia) Ho' Hbs ltac:(lia)). assert (Hz : zlen (b :: s) = 1 + zlen s) by (unfold zlen; cbn [List.length]; lia). split.
          -- intros [(HF & H & ->)|(l & b' & r & -> & HF & E & Hl & ->)].
             ++ left. split; [constructor; [lia|exact HF]|]. split; [|reflexivity]. intros E. specialize (H E). lia.
             ++ right. exists (b :: l), b', r. split; [reflexivity|]. split; [constructor; [lia|exact HF]|]. split; [exact E|]. split; [|reflexivity]. unfold zlen in *. cbn [List.length]. lia.
          -- intros [(HF & H & ->)|(l & b' & r & H & HF & E & Hl & ->)].
             ++ left. split; [inversion HF; assumption|]. split; [|reflexivity]. intros E. specialize (H E). lia.
             ++ right. destruct l as [|x l]; injection H as -> ->; [exfalso; specialize (Ho' E); unfold zlen in Hl; cbn [List.length] in Hl; lia|].
                exists l, b', r. split; [reflexivity|]. split; [inversion HF; assumption|]. split; [exact E|]. split; [|reflexivity]. unfold zlen in *. cbn [List.length] in Hl. lia.
  Qed.
  Lemma faulty_uleb : faulty (decode_uleb c slice_read_byte slice_left) (no_number c).
  Proof.
    intros s f Hb. unfold decode_uleb. change 0 with (shift_of 0) at 1. rewrite loop_faulty; [|lia|lia|exact Hb|unfold slice_left; lia]. unfold no_number.
    split; (intros [(H1 & H2 & H3)|(l & b & r & H1 & H2 & H3 & H4 & H5)]; [left; auto|right; exists l, b, r]); auto.
  Qed.
  Lemma faulty_len : faulty (read_len_with c slice_read_byte slice_left) (no_number c).
  Proof. exact (faulty_map _ _ _ faulty_uleb). Qed.
  Lemma faulty_take n : faulty (fun s => if zlen s <? n then (s, Err (IO UnexpectedEof)) else (skipn (Z.to_nat n) s, Ok (firstn (Z.to_nat n) s))) (fun s f => zlen s < n /\ f = too_short).
  Proof.
    intros s f _. destruct (zlen s <? n) eqn:H; cbn [snd].
    - rewrite fault_err. split; [intros ->; split; [lia|reflexivity]|intros [_ ->]; reflexivity].
    - split; [intros G; apply fault_ok in G; contradiction|intros [G _]; lia].
  Qed.
  Lemma faulty_binary : faulty (slice_read_binary c) (no_chunk c).
  Proof.
    eapply faulty_weaken.
    - unfold slice_read_binary. apply faulty_bind; [exact (exactly_len c)|exact faulty_len|]. intros n. apply faulty_if; [apply faulty_fail|apply faulty_take].
    - cbn beta. intros s f Hb. unfold no_chunk, MAX_BINARY_LEN. split.
      + intros [H|(n & p & s' & -> & (m & -> & Hm) & H)]; [left; exact H|]. destruct (16 * 1024 * 1024 <? length_of c m) eqn:Hmax.
        * subst f. right. left. exists m, p, s'. split; [reflexivity|]. split; [exact Hm|]. split; [lia|reflexivity].
        * destruct H as [H ->]. right. right. exists m, p, s'. split; [reflexivity|]. split; [exact Hm|]. split; [lia|]. split; [exact H|reflexivity].
      + intros [H|[(m & p & s' & -> & Hm & Hmax & ->)|(m & p & s' & -> & Hm & Hmax & H & ->)]]; [left; exact H| |]; right; exists (length_of c m), p, s'; (split; [reflexivity|]; split; [eauto|]).
        * replace (16 * 1024 * 1024 <? length_of c m) with true by lia. reflexivity.
        * replace (16 * 1024 * 1024 <? length_of c m) with false by lia. auto.
  Qed.
  Lemma faulty_skip_binary : faulty (slice_skip_binary c) (no_chunk c).
  Proof.
    intros s f Hb. rewrite <- (faulty_binary s f Hb). unfold slice_skip_binary, slice_read_binary, bind.
    destruct (read_len_with c slice_read_byte slice_left s) as [s1 [n|e|p]]; try (destruct f; reflexivity).
    destruct (MAX_BINARY_LEN <? n); [destruct f; reflexivity|]. destruct (zlen s1 <? n); destruct f; reflexivity.
  Qed.
  Lemma faulty_double : faulty slice_read_double (fun s f => (List.length s < 8)%nat /\ f = too_short).
  Proof.
    intros s f _. unfold slice_read_double. destruct (zlen s <? 8) eqn:H; cbn [snd]; unfold zlen in H.
    - rewrite fault_err. split; [intros ->; split; [lia|reflexivity]|intros [_ ->]; reflexivity].
    - split; [intros G; apply fault_ok in G; contradiction|intros [G _]; lia].
  Qed.
  Lemma faulty_skip_int : faulty (slice_skip_integer c) (no_int c).
  Proof.
    unfold slice_skip_integer, no_int. destruct (sse2 c); [|exact (faulty_discard _ _ faulty_uleb)].
    intros s f Hb. destruct (16 <=? zlen s) eqn:H16.
    - unfold skip_uleb_sse2. rewrite (skip_uleb_sse2_len_run s Hb). set (k := continuation_run (firstn 16 s)).
      assert (Hf : List.length (firstn 16 s) = 16%nat) by (rewrite firstn_length; unfold zlen in H16; lia).
      pose proof (run_le (firstn 16 s)) as Hr. fold k in Hr. rewrite Hf in Hr.
      destruct (Z.of_nat k + 1 <=? zlen s) eqn:Hk; cbn [snd].
      + split; [intros G; apply fault_ok in G; contradiction|]. intros [HF [[Hl _]|[Hl _]]]; unfold zlen in *; [lia|].
        exfalso. assert (Hs : firstn 16 s = s) by (apply firstn_all2; lia). pose proof (run_all s [] HF) as Hr2. rewrite app_nil_r in Hr2. cbn [continuation_run] in Hr2. subst k. rewrite Hs in Hk. lia.
      + assert (Hl : List.length s = 16%nat) by (unfold zlen in *; lia). assert (Hk16 : k = 16%nat) by (unfold zlen in *; lia).
        assert (Hs : firstn 16 s = s) by (apply firstn_all2; lia). rewrite fault_panic. split.
        * intros ->. split; [|right; auto]. apply run_full; [exact Hb|]. subst k. rewrite Hs in Hk16. lia.
        * intros [_ [[H _]|[_ ->]]]; [lia|reflexivity].
    - unfold skip_uleb_fallback. destruct (Nat.leb (continuation_run s + 1) (List.length s)) eqn:Hk; cbn [snd].
      + apply Nat.leb_le in Hk. split; [intros G; apply fault_ok in G; contradiction|]. intros [HF _]. pose proof (run_all s [] HF) as Hr2. rewrite app_nil_r in Hr2. cbn [continuation_run] in Hr2. lia.
      + apply Nat.leb_gt in Hk. pose proof (run_le s) as Hr. rewrite fault_panic. split.
        * intros ->. split; [apply run_full; [exact Hb|lia]|]. left. split; [unfold zlen in H16; lia|reflexivity].
        * intros [_ [[_ ->]|[H _]]]; [reflexivity|unfold zlen in H16; lia].
  Qed.

  (** * Headers *)
  Notation I := (slice_input c).
  Lemma faulty_header last : faulty (read_field_header c I last) (no_head c last).
  Proof.
    assert (Hid : faulty (read_full_field_id c I) (no_number c)) by exact (faulty_map _ _ _ faulty_uleb).
    intros s f Hb. unfold read_field_header, no_head. unfold bind at 1. cbn [slice_input in_read_byte]. unfold slice_read_byte. destruct s as [|b s].
    - cbn [snd]. rewrite fault_err. split; [intros ->; left; auto|]. intros [[_ ->]|[(b & r & H & _)|(b & r & H & _)]]; [reflexivity|discriminate|discriminate].
    - assert (Hbb : is_byte b) by (inversion Hb; assumption). assert (Hbs : bytes s) by (inversion Hb; assumption).
      destruct (nibbles b Hbb) as (-> & -> & _). unfold is_byte in Hbb. destruct (b =? 0) eqn:H0.
      + split; [intros G; apply fault_ok in G; contradiction|]. intros [[H _]|[(b' & r & H & Hr & _)|(b' & r & H & Hr & _)]]; [discriminate| |]; injection H as -> ->; lia.
      + destruct (b / 16 =? 0) eqn:Hd; cbn [negb].
        * assert (G : fault_is (snd ((let! id := read_full_field_id c I in ret (b mod 16, id)) s)) f <-> no_number c s f) by exact (faulty_map _ _ _ Hid s f Hbs).
          rewrite G. split.
          -- intros H. right. right. exists b, s. split; [reflexivity|]. split; [lia|exact H].
          -- intros [[H _]|[(b' & r & H & Hr & _)|(b' & r & H & Hr & Hn)]]; [discriminate| |]; injection H as -> ->; [lia|exact Hn].
        * destruct (overflow_checks c && (32767 <? last + b / 16)) eqn:Ho.
          -- unfold crash. cbn [snd]. rewrite fault_panic. apply andb_true_iff in Ho as [E Ho]. split.
             ++ intros ->. right. left. exists b, s. split; [reflexivity|]. split; [lia|]. split; [exact E|]. split; [lia|reflexivity].
             ++ intros [[H _]|[(b' & r & H & Hr & _ & _ & ->)|(b' & r & H & Hr & Hn)]]; [discriminate|reflexivity|]. injection H as -> ->. lia.
          -- split; [intros G; apply fault_ok in G; contradiction|].
             intros [[H _]|[(b' & r & H & Hr & E & Hl & ->)|(b' & r & H & Hr & Hn)]]; [discriminate| |]; injection H as -> ->; [rewrite E in Ho; cbn [andb] in Ho; lia|lia].
  Qed.
  Lemma faulty_collection : faulty (read_collection_len_and_type c I) (no_lhead c).
  Proof.
    intros s f Hb. unfold read_collection_len_and_type, read_len, no_lhead. unfold bind at 1. cbn [slice_input in_read_byte in_left]. unfold slice_read_byte at 1. destruct s as [|b s].
    - cbn [snd]. rewrite fault_err. split; [intros ->; left; auto|]. intros [[_ ->]|[(b & r & H & _)|(b & n & l & r & H & _)]]; [reflexivity|discriminate|discriminate].
    - assert (Hbb : is_byte b) by (inversion Hb; assumption). assert (Hbs : bytes s) by (inversion Hb; assumption).
      destruct (nibbles b Hbb) as (-> & _ & ->). unfold is_byte in Hbb. destruct (b / 16 =? 15) eqn:H15; cbn [negb].
      + pose proof (faulty_bind (read_len_with c slice_read_byte slice_left) (fun len => if MAX_COLLECTION_LEN <? len then fail InvalidCollectionLen else ret (len, b mod 16)) _ _ _ (exactly_len c) faulty_len
          (fun n => faulty_if (MAX_COLLECTION_LEN <? n) _ _ _ _ (faulty_fail InvalidCollectionLen) (faulty_ret (n, b mod 16))) s f Hbs) as G. cbn beta in G. rewrite G. unfold MAX_COLLECTION_LEN. split.
        * intros [H|(n & p & s' & -> & (m & -> & Hm) & H)]; [right; left; exists b, s; split; [reflexivity|]; split; [lia|exact H]|].
          destruct (10000000 <? length_of c m) eqn:Hmax; [|contradiction]. subst f. right. right. exists b, m, p, s'. split; [reflexivity|]. split; [lia|]. split; [exact Hm|]. split; [lia|reflexivity].
        * intros [[H _]|[(b' & r & H & Hr & Hn)|(b' & m & p & r & H & Hr & Hm & Hmax & ->)]]; [discriminate| |]; injection H as -> ->; [left; exact Hn|].
          right. exists (length_of c m), p, r. split; [reflexivity|]. split; [eauto|]. replace (10000000 <? length_of c m) with true by lia. reflexivity.
      + unfold bind, ret, MAX_COLLECTION_LEN. replace (10000000 <? b / 16) with false by lia. split; [intros G; apply fault_ok in G; contradiction|].
        intros [[H _]|[(b' & r & H & Hr & Hn)|(b' & m & p & r & H & Hr & _)]]; [discriminate| |]; injection H as -> ->; lia.
  Qed.
  Definition no_mhead (s : list Z) (f : fault) : Prop :=
    no_number c s f \/ (exists m, number c m s /\ length_of c m <> 0 /\ f = too_short) \/
    (exists m len b r, s = len ++ b :: r /\ number c m len /\ is_byte b /\ 10000000 < length_of c m /\ f = Fails InvalidCollectionLen).
  Lemma faulty_map_header : faulty (read_map_len_and_types c I) no_mhead.
  Proof.
    eapply faulty_weaken.
    - unfold read_map_len_and_types, read_len. cbn [slice_input in_read_byte in_left]. apply faulty_bind; [exact (exactly_len c)|exact faulty_len|]. intros n. apply faulty_if; [apply faulty_ret|].
      apply faulty_bind; [exact exactly_byte|exact faulty_byte|]. intros b. cbn beta zeta. apply faulty_if; [apply faulty_fail|apply faulty_ret].
    - cbn beta. intros s f Hb. unfold no_mhead, MAX_COLLECTION_LEN. split.
      + intros [H|(n & p & s' & -> & (m & -> & Hm) & H)]; [left; exact H|]. destruct (length_of c m =? 0) eqn:H0; [contradiction|].
        destruct H as [[-> ->]|(b & p' & s2 & -> & -> & H)].
        * right. left. exists m. rewrite app_nil_r. split; [exact Hm|]. split; [lia|reflexivity].
        * destruct (10000000 <? length_of c m) eqn:Hmax; [|contradiction]. subst f. right. right. exists m, p, b, s2. split; [reflexivity|]. split; [exact Hm|]. split; [|split; [lia|reflexivity]].
          apply bytes_app in Hb as [_ Hb]. inversion Hb; assumption.
      + intros [H|[(m & Hm & H0 & ->)|(m & p & b & r & -> & Hm & Hbb & Hmax & ->)]]; [left; exact H| |]; right.
        * exists (length_of c m), s, []. rewrite app_nil_r. split; [reflexivity|]. split; [eauto|]. replace (length_of c m =? 0) with false by lia. left. auto.
        * exists (length_of c m), p, (b :: r). split; [reflexivity|]. split; [eauto|]. replace (length_of c m =? 0) with false by lia. right. exists b, [b], r. split; [reflexivity|]. split; [reflexivity|].
          replace (10000000 <? length_of c m) with true by lia. reflexivity.
  Qed.

  (** * Skipping: what is refused is in the relation *)
  (** Not for want of stack and not because the object has a different type. *)
  Definition inner (f : fault) : Prop := f <> Dies PStack /\ f <> Dies PIllTyped.
  Definition blames {A} (m : M (list Z) A) (R : list Z -> fault -> Prop) : Prop :=
    forall s f, bytes s -> inner f -> fault_is (snd (m s)) f -> R s f.
  Lemma faulty_blames {A} (m : M (list Z) A) R (R' : list Z -> fault -> Prop) : faulty m R -> (forall s f, bytes s -> R s f -> R' s f) -> blames m R'.
  Proof. intros H HR s f Hb _ Hf. apply HR; [exact Hb|]. apply H; assumption. Qed.
  Lemma blames_repeat et (m : M (list Z) unit) : sound m (passed c et true) -> blames m (stuck c et true) -> forall n, blames (repeatM n m) (stuck_seq c et n).
  Proof.
    intros Hs Hm. induction n as [|n IH]; intros s f Hb Hi H; cbn [repeatM] in H; [apply fault_ok in H; contradiction|].
    unfold bind in H. pose proof (Hm s f Hb Hi) as H1. destruct (m s) as [s1 [u|e|p]] eqn:Hms; cbn [snd] in H1.
    - apply Hs in Hms as (p1 & -> & Hp1); [|exact Hb]. apply bytes_app in Hb as [_ Hb]. apply sq_later; [exact Hp1|]. exact (IH s1 f Hb Hi H).
    - apply sq_here. apply H1. exact H.
    - apply sq_here. apply H1. exact H.
  Qed.
  Lemma blames_pairs kt vt (m1 m2 : M (list Z) unit) : sound m1 (passed c kt true) -> sound m2 (passed c vt true) ->
    blames m1 (stuck c kt true) -> blames m2 (stuck c vt true) -> forall n, blames (repeatM n (m1 ;; m2)) (stuck_pairs c kt vt n).
  Proof.
    intros Hs1 Hs2 Hm1 Hm2. induction n as [|n IH]; intros s f Hb Hi H; cbn [repeatM] in H; [apply fault_ok in H; contradiction|].
    unfold bind in H. pose proof (Hm1 s f Hb Hi) as H1. destruct (m1 s) as [s1 [u|e|p]] eqn:Hms; cbn [snd] in H1; try (apply sp_key; apply H1; exact H).
    apply Hs1 in Hms as (p1 & -> & Hp1); [|exact Hb]. apply bytes_app in Hb as [_ Hb].
    pose proof (Hm2 s1 f Hb Hi) as H2. destruct (m2 s1) as [s2 [u2|e|p]] eqn:Hms2; cbn [snd] in H2; try (apply sp_value; [exact Hp1|]; apply H2; exact H).
    apply Hs2 in Hms2 as (p2 & -> & Hp2); [|exact Hb]. apply bytes_app in Hb as [_ Hb]. apply sp_later; [exact Hp1|exact Hp2|]. exact (IH s2 f Hb Hi H).
  Qed.
  Lemma head_nonempty last id ft hdr : head c last id ft hdr -> (1 <= List.length hdr)%nat.
  Proof. intros H. inversion H; cbn [List.length]; lia. Qed.
  Lemma blames_fields (sk : Z -> M (list Z) unit) : (forall ft, sound (sk ft) (passed c ft false)) -> (forall ft, blames (sk ft) (stuck c ft false)) ->
    forall fuel last s f, bytes s -> inner f -> (List.length s < fuel)%nat -> fault_is (snd (skip_struct_loop c I sk fuel last s)) f -> stuck_fields c last s f.
  Proof.
    intros Hs Hsk. induction fuel as [|fuel IH]; intros last s f Hb Hi Hfu H; [lia|]. cbn [skip_struct_loop] in H.
    unfold bind in H. pose proof (faulty_header last s f Hb) as H1. destruct (read_field_header c I last s) as [s1 [[ft id]|e|p]] eqn:Hms; cbn [snd] in H1; try (apply sf_head; apply H1; exact H).
    apply exactly_header in Hms as (p1 & -> & Hp1); [|exact Hb]. apply bytes_app in Hb as [_ Hb]. pose proof (head_nonempty _ _ _ _ Hp1) as Hne. rewrite app_length in Hfu.
    destruct (ft =? 0) eqn:H0; [apply fault_ok in H; contradiction|].
    pose proof (Hsk ft s1 f Hb Hi) as H2. destruct (sk ft s1) as [s2 [u|e|p]] eqn:Hms; cbn [snd] in H2; try (apply (sf_here c last id ft); [exact Hp1|lia|apply H2; exact H]).
    apply Hs in Hms as (p2 & -> & Hp2); [|exact Hb]. apply bytes_app in Hb as [_ Hb]. rewrite app_length in Hfu. apply (sf_later c last id ft); [exact Hp1|lia|exact Hp2|]. apply (IH id s2 f Hb Hi); [lia|exact H].
  Qed.
  Lemma blames_skip d : (forall ft e, blames (skip_field c I d ft e) (stuck c ft e)) /\
    (forall t e, 9 <= t <= 10 -> blames (skip_collection c I d) (stuck c t e)) /\ (forall e, blames (skip_map c I d) (stuck c 11 e)).
  Proof.
    assert (Sk : forall A (m : M (list Z) A) R, m = crash PStack -> blames m R).
    { intros A m R -> s f _ [Hi _] H. cbn [crash snd] in H. unfold crash in H. apply fault_panic in H. congruence. }
    induction d as [|d (IHf & IHc & IHm)]; [split; [|split]; intros; apply Sk; reflexivity|].
    assert (F : forall ft e, blames (skip_field c I (Datatypes.S d) ft e) (stuck c ft e)).
    { intros ft e. cbn [skip_field].
      destruct ((1 <=? ft) && (ft <=? 2)) eqn:T1.
      { destruct e; [|intros s f _ _ H; apply fault_ok in H; contradiction].
        apply (faulty_blames _ _ _ (faulty_discard _ _ faulty_byte)). intros s f _ [-> ->]. apply sk_bool. lia. }
      destruct (ft =? 3) eqn:T3; [replace ft with 3 by lia; apply (faulty_blames _ _ _ (faulty_discard _ _ faulty_byte)); intros s f _ [-> ->]; apply sk_byte|].
      destruct ((4 <=? ft) && (ft <=? 6)) eqn:T4; [apply (faulty_blames _ _ _ faulty_skip_int); intros s f _ H; apply sk_int; [lia|exact H]|].
      destruct (ft =? 7) eqn:T7; [replace ft with 7 by lia; apply (faulty_blames _ _ _ (faulty_discard _ _ faulty_double)); intros s f _ [H ->]; apply sk_double; exact H|].
      destruct (ft =? 8) eqn:T8; [replace ft with 8 by lia; apply (faulty_blames _ _ _ faulty_skip_binary); intros s f _ H; apply sk_binary; exact H|].
      destruct ((ft =? 9) || (ft =? 10)) eqn:T9; [apply IHc; lia|].
      destruct (ft =? 11) eqn:T11; [replace ft with 11 by lia; apply IHm|].
      destruct (ft =? 12) eqn:T12.
      - replace ft with 12 by lia. intros s f Hb Hi H. apply sk_struct.
        apply (blames_fields _ (fun ft => proj1 (sound_skip c Hc d) ft false) (fun ft => IHf ft false) _ _ _ _ Hb Hi) with (2 := H). cbn [slice_input in_left]. unfold slice_left. lia.
      - apply (faulty_blames _ _ _ (faulty_fail InvalidType)). intros s f _ ->. apply sk_type. lia. }
    split; [exact F|]. split.
    - intros t e Ht s f Hb Hi H. rewrite skip_elements in H. pose proof (faulty_collection s f Hb) as H1.
      destruct (read_collection_len_and_type c I s) as [s1 [[n et]|x|p]] eqn:Hms; cbn [snd] in H1; try (apply sk_list; [exact Ht|]; apply H1; exact H).
      apply exactly_collection in Hms as (p1 & -> & Hp1); [|exact Hb]. apply bytes_app in Hb as [_ Hb]. destruct ((1 <=? et) && (et <=? 12)) eqn:Het.
      + apply (sk_list_elem c t e n et); [exact Ht|exact Hp1|lia|].
        assert (G : forall d', (forall ft e, blames (skip_field c I d' ft e) (stuck c ft e)) -> fault_is (snd (repeatM (Z.to_nat n) (skip_field c I d' et true) s1)) f -> stuck_seq c et (Z.to_nat n) s1 f).
        { intros d' Hd' G. exact (blames_repeat et _ (proj1 (sound_skip c Hc d') et true) (Hd' et true) _ _ _ Hb Hi G). }
        destruct (et =? 12); [exact (G d IHf H)|exact (G _ F H)].
      + cbn [snd] in H. apply fault_err in H. subst f. apply (sk_list_type c t e n et); [exact Ht|exact Hp1|lia].
    - intros e s f Hb Hi H. cbn [skip_map] in H. unfold bind at 1 in H. pose proof (faulty_map_header s f Hb) as H1.
      destruct (read_map_len_and_types c I s) as [s1 [[[n kt] vt]|x|p]] eqn:Hms; cbn [snd] in H1.
      2,3: apply H1 in H as [H|[(m & Hm & H0 & ->)|(m & len & b & r & -> & Hm & Hbb & Hmax & ->)]];
        [apply sk_map_len; exact H|exact (sk_map_types c e m s Hm H0)|exact (sk_map_many c e m len b r Hm Hbb Hmax)].
      apply (exactly_map_header c Hc) in Hms as (p1 & -> & Hp1); [|exact Hb]. apply bytes_app in Hb as [_ Hb].
      apply (blames_pairs kt vt _ _ (proj1 (sound_skip c Hc d) kt true) (proj1 (sound_skip c Hc d) vt true) (IHf kt true) (IHf vt true) _ _ _ Hb Hi) in H.
      destruct Hp1 as [(-> & -> & -> & m & Hm & H0)|(m & len & b & -> & Hm & <- & Hn & -> & -> & Hbb)].
      + change (Z.to_nat 0) with 0%nat in H. inversion H.
      + rewrite <- app_assoc. cbn [app]. eapply sk_map; eassumption.
  Qed.

  (** * Skipping: what is in the relation is refused *)
  Definition stops {A} (m : nat -> M (list Z) A) (s : list Z) (f : fault) : Prop := exists d0, forall d, (d0 <= d)%nat -> fault_is (snd (m d s)) f.
  Lemma stops_prim {A} (m : M (list Z) A) R (g : nat -> M (list Z) A) s f : faulty m R -> bytes s -> R s f -> (forall d, g (Datatypes.S d) s = m s) -> stops g s f.
  Proof. intros H Hb HR Hg. exists 1%nat. intros d Hd. destruct d as [|d]; [lia|]. rewrite Hg. apply H; assumption. Qed.
  Lemma fault_bind {A B} (m : M (list Z) A) (k : A -> M (list Z) B) s f : fault_is (snd (m s)) f -> fault_is (snd (bind m k s)) f.
  Proof. intros H. unfold bind. destruct (m s) as [s1 [a|e|p]]; [apply fault_ok in H; contradiction|destruct f; exact H|destruct f; exact H]. Qed.
  Lemma skip_list d t e s : 9 <= t <= 10 -> skip_field c I (Datatypes.S (Datatypes.S d)) t e s = skip_collection c I (Datatypes.S d) s.
  Proof. intros Ht. assert (Ht' : t = 9 \/ t = 10) by lia. destruct Ht' as [-> | ->]; reflexivity. Qed.
  Lemma stops_skip :
    (forall t e s f, stuck c t e s f -> bytes s -> stops (fun d => skip_field c I d t e) s f) /\
    (forall et n s f, stuck_seq c et n s f -> bytes s -> stops (fun d => repeatM n (skip_field c I d et true)) s f) /\
    (forall kt vt n s f, stuck_pairs c kt vt n s f -> bytes s -> stops (fun d => repeatM n (skip_field c I d kt true ;; skip_field c I d vt true)) s f) /\
    (forall last s f, stuck_fields c last s f -> bytes s -> exists d0, forall d, (d0 <= d)%nat -> forall fuel, (List.length s < fuel)%nat ->
      fault_is (snd (skip_struct_loop c I (fun ft => skip_field c I d ft false) fuel last s)) f).
  Proof.
    apply stuck_mutind.
    - intros t Ht Hb. apply (stops_prim _ _ _ _ _ (faulty_discard _ _ faulty_byte) Hb); [auto|]. intros d. cbn [skip_field]. replace ((1 <=? t) && (t <=? 2)) with true by lia. reflexivity.
    - intros e Hb. apply (stops_prim _ _ _ _ _ (faulty_discard _ _ faulty_byte) Hb); [auto|]. reflexivity.
    - intros t e s f Ht Hn Hb. apply (stops_prim _ _ _ _ _ faulty_skip_int Hb Hn). intros d. cbn [skip_field].
      replace ((1 <=? t) && (t <=? 2)) with false by lia. replace (t =? 3) with false by lia. replace ((4 <=? t) && (t <=? 6)) with true by lia. reflexivity.
    - intros e s Hl Hb. apply (stops_prim _ _ _ _ _ (faulty_discard _ _ faulty_double) Hb); [auto|]. reflexivity.
    - intros e s f Hn Hb. apply (stops_prim _ _ _ _ _ faulty_skip_binary Hb Hn). reflexivity.
    - intros t e s f Ht Hn Hb. exists 2%nat. intros d Hd. destruct d as [|[|d]]; try lia. rewrite skip_list by exact Ht. cbn [skip_collection]. apply fault_bind. apply faulty_collection; assumption.
    - intros t e n et hdr s Ht Hh Het Hb. exists 2%nat. intros d Hd. destruct d as [|[|d]]; try lia. rewrite skip_list by exact Ht. rewrite skip_elements.
      rewrite (exactly_run _ _ (n, et) hdr s (exactly_collection c) Hh Hb). replace ((1 <=? et) && (et <=? 12)) with false by lia. reflexivity.
    - intros t e n et hdr s f Ht Hh Het _ IH Hb. destruct (IH (proj2 (proj1 (bytes_app _ _) Hb))) as [d0 IH']. exists (d0 + 3)%nat. intros d Hd. destruct d as [|[|d]]; try lia. rewrite skip_list by exact Ht. rewrite skip_elements.
      rewrite (exactly_run _ _ (n, et) hdr s (exactly_collection c) Hh Hb). replace ((1 <=? et) && (et <=? 12)) with true by lia. destruct (et =? 12); apply IH'; lia.
    - intros e s f Hn Hb. exists 2%nat. intros d Hd. destruct d as [|[|d]]; try lia. apply (fault_bind (read_map_len_and_types c I)). apply faulty_map_header; [exact Hb|]. left. exact Hn.
    - intros e n len Hn H0 Hb. exists 2%nat. intros d Hd. destruct d as [|[|d]]; try lia. apply (fault_bind (read_map_len_and_types c I)). apply faulty_map_header; [exact Hb|]. right. left. eauto.
    - intros e n len b s Hn Hbb Hmax Hb. exists 2%nat. intros d Hd. destruct d as [|[|d]]; try lia. apply (fault_bind (read_map_len_and_types c I)). apply faulty_map_header; [exact Hb|]. right. right. exists n, len, b, s. auto.
    - intros e n len b s f Hn H0 Hbb _ IH Hb. replace (len ++ b :: s) with ((len ++ [b]) ++ s) in * by (rewrite <- app_assoc; reflexivity).
      destruct (IH (proj2 (proj1 (bytes_app _ _) Hb))) as [d0 IH']. exists (d0 + 2)%nat. intros d Hd. destruct d as [|[|d]]; try lia.
      change (fault_is (snd (skip_map c I (Datatypes.S d) ((len ++ [b]) ++ s))) f). cbn [skip_map]. unfold bind at 1.
      rewrite (exactly_run _ _ (length_of c n, b / 16, b mod 16) (len ++ [b]) s (exactly_map_header c Hc)); [|right; exists n, len, b; auto 9|exact Hb]. apply IH'. lia.
    - intros e s f _ IH Hb. destruct (IH Hb) as [d0 IH']. exists (Datatypes.S d0). intros d Hd. destruct d as [|d]; [lia|].
      change (fault_is (snd (skip_struct_loop c I (fun ft => skip_field c I d ft false) (Datatypes.S (slice_left s)) 0 s)) f). apply IH'; [lia|unfold slice_left; lia].
    - intros t e s Ht Hb. apply (stops_prim _ _ _ _ _ (faulty_fail InvalidType) Hb); [reflexivity|]. intros d. cbn [skip_field].
      replace ((1 <=? t) && (t <=? 2)) with false by lia. replace (t =? 3) with false by lia. replace ((4 <=? t) && (t <=? 6)) with false by lia. replace (t =? 7) with false by lia.
      replace (t =? 8) with false by lia. replace ((t =? 9) || (t =? 10)) with false by lia. replace (t =? 11) with false by lia. replace (t =? 12) with false by lia. reflexivity.
    - intros et n s f _ IH Hb. destruct (IH Hb) as [d0 IH']. exists d0. intros d Hd. cbn [repeatM]. apply fault_bind. exact (IH' d Hd).
    - intros et n b s f Hp _ IH Hb. destruct (proj1 (complete_skip c Hc) _ _ _ Hp) as [d1 H1]. destruct (IH (proj2 (proj1 (bytes_app _ _) Hb))) as [d2 H2]. exists (d1 + d2)%nat. intros d Hd. cbn [repeatM]. unfold bind.
      rewrite H1; [|lia|exact Hb]. apply H2. lia.
    - intros kt vt n s f _ IH Hb. destruct (IH Hb) as [d0 IH']. exists d0. intros d Hd. cbn [repeatM]. apply fault_bind. apply fault_bind. exact (IH' d Hd).
    - intros kt vt n b s f Hp _ IH Hb. destruct (proj1 (complete_skip c Hc) _ _ _ Hp) as [d1 H1]. destruct (IH (proj2 (proj1 (bytes_app _ _) Hb))) as [d2 H2]. exists (d1 + d2)%nat. intros d Hd. cbn [repeatM]. apply fault_bind. unfold bind.
      rewrite H1; [|lia|exact Hb]. apply H2. lia.
    - intros kt vt n b1 b2 s f Hp1 Hp2 _ IH Hb. destruct (proj1 (complete_skip c Hc) _ _ _ Hp1) as [d1 H1]. destruct (proj1 (complete_skip c Hc) _ _ _ Hp2) as [d2 H2].
      pose proof (proj2 (proj1 (bytes_app _ _) Hb)) as Hb2. destruct (IH (proj2 (proj1 (bytes_app _ _) Hb2))) as [d3 H3]. exists (d1 + d2 + d3)%nat. intros d Hd.
      specialize (H1 d ltac:(lia) _ Hb). specialize (H2 d ltac:(lia) _ Hb2). specialize (H3 d ltac:(lia)). cbn [repeatM]. unfold bind in H3 |- * at 1. unfold bind. rewrite H1, H2. exact H3.
    - intros last s f Hn Hb. exists 0%nat. intros d _ fuel Hf. destruct fuel as [|fuel]; [lia|]. cbn [skip_struct_loop]. apply fault_bind. apply faulty_header; assumption.
    - intros last id t hdr s f Hh Ht _ IH Hb. destruct (IH (proj2 (proj1 (bytes_app _ _) Hb))) as [d0 IH']. exists d0. intros d Hd fuel Hf. pose proof (head_nonempty _ _ _ _ Hh) as Hne. rewrite app_length in Hf.
      destruct fuel as [|fuel]; [lia|]. cbn [skip_struct_loop]. unfold bind at 1. rewrite (exactly_run _ _ (t, id) hdr _ (exactly_header c last) Hh Hb). replace (t =? 0) with false by lia. apply fault_bind. apply IH'. exact Hd.
    - intros last id t hdr b s f Hh Ht Hp _ IH Hb. destruct (proj1 (complete_skip c Hc) _ _ _ Hp) as [d1 H1]. pose proof (proj2 (proj1 (bytes_app _ _) Hb)) as Hb2. destruct (IH (proj2 (proj1 (bytes_app _ _) Hb2))) as [d2 H2].
      exists (d1 + d2)%nat. intros d Hd fuel Hf. pose proof (head_nonempty _ _ _ _ Hh) as Hne. rewrite !app_length in Hf.
      destruct fuel as [|fuel]; [lia|]. cbn [skip_struct_loop]. unfold bind at 1. rewrite (exactly_run _ _ (t, id) hdr _ (exactly_header c last) Hh Hb). replace (t =? 0) with false by lia. unfold bind.
      rewrite H1; [|lia|exact Hb2]. apply H2; lia.
  Qed.

  (** * Filling: what is refused is in the relation *)
  Variable E : env.
  Hypothesis HE : acceptable E.
  Lemma faulty_string : faulty (read_string I) (fun s f => no_chunk c s f \/ exists l b r, s = b ++ r /\ chunk c l b /\ ~ well_formed_utf8 l /\ f = Fails InvalidString).
  Proof.
    eapply faulty_weaken.
    - unfold read_string. apply faulty_bind; [exact (exactly_binary c Hc)|exact faulty_binary|]. intros l. apply faulty_if; [apply faulty_ret|apply faulty_fail].
    - cbn beta. intros s f Hb. split.
      + intros [H|(l & p & s' & -> & Hl & H)]; [left; exact H|]. right. destruct (utf8_valid l) eqn:Hu; [contradiction|]. subst f. exists l, p, s'. split; [reflexivity|]. split; [exact Hl|]. split; [|reflexivity].
        intros Hw. rewrite (utf8_valid_complete l Hw) in Hu. discriminate.
      + intros [H|(l & p & s' & -> & Hl & Hu & ->)]; [left; exact H|]. right. exists l, p, s'. split; [reflexivity|]. split; [exact Hl|]. destruct (utf8_valid l) eqn:Hv; [|reflexivity].
        exfalso. apply Hu. apply utf8_valid_iff; [|exact Hv]. destruct Hl as (n & len & _ & _ & _ & _ & Hp). exact Hp.
  Qed.
  Lemma faulty_i16 : faulty (read_i16 c I) (no_number c).
  Proof. exact (faulty_map _ _ _ faulty_uleb). Qed.
  Lemma faulty_i64 : faulty (read_i64 c I) (no_number c).
  Proof. exact (faulty_map _ _ _ faulty_uleb). Qed.
  Lemma faulty_i32 : faulty (read_i32 c I) (no_number c).
  Proof. exact (faulty_map _ _ _ faulty_uleb). Qed.
  Lemma faulty_ints n : forall mask, faulty (encset_read_loop c I n mask) (no_ints c n).
  Proof.
    induction n as [|n IH]; intros mask; cbn [encset_read_loop].
    - eapply faulty_weaken; [apply faulty_ret|]. intros s f _. split; [contradiction|]. intros H. inversion H.
    - eapply faulty_weaken.
      + apply faulty_bind; [exact (exactly_i32 c)|exact faulty_i32|]. intros z. apply faulty_if; [apply faulty_fail|apply IH].
      + cbn beta. intros s f Hb. split.
        * intros [H|(z & p & s' & -> & (k & -> & Hk) & H)]; [apply ni_number; exact H|]. destruct ((signed 32 k <? 0) || (31 <=? signed 32 k)) eqn:Hz.
          -- subst f. apply (ni_range c n k); [exact Hk|lia].
          -- apply (ni_later c n k); [exact Hk|lia|exact H].
        * intros H. inversion H as [? ? ? Hn|? k b s' Hk Hz|? k b s' ? Hk Hz Hl]; subst; [left; exact Hn| |]; right; exists (signed 32 k), b, s'; (split; [reflexivity|]; split; [eauto|]).
          -- replace ((signed 32 k <? 0) || (31 <=? signed 32 k)) with true by lia. reflexivity.
          -- replace ((signed 32 k <? 0) || (31 <=? signed 32 k)) with false by lia. exact Hl.
  Qed.
  Lemma missing_some fs flags seen nm : marked fs flags seen -> (first_missing fs flags = Some nm <-> exists g, lacks fs seen g /\ nm = f_name g).
  Proof.
    intros [Hl H]. transitivity (exists before g after, fs = before ++ g :: after /\ nm = f_name g /\ f_req g = true /\ nth_error flags (List.length before) <> Some true /\
      forall i h, nth_error before i = Some h -> f_req h = true -> nth_error flags i = Some true).
    - clear H. revert flags Hl. induction fs as [|g fs IH]; intros [|b flags] Hl; cbn [List.length] in Hl; try lia; cbn [first_missing].
      + split; [discriminate|]. intros ([|x before] & g & after & He & _); discriminate.
      + destruct (f_req g && negb b) eqn:Hg.
        * apply andb_true_iff in Hg as [Hr Hb]. destruct b; [discriminate|]. split.
          -- intros [= <-]. exists [], g, fs. split; [reflexivity|]. split; [reflexivity|]. split; [exact Hr|]. split; [discriminate|]. intros [|i] h Hi; discriminate.
          -- intros ([|x before] & g' & after & He & Hn & Hr' & Hs & Hbef); injection He as -> ->; [subst; reflexivity|]. specialize (Hbef O x eq_refl Hr). discriminate.
        * rewrite (IH flags) by lia. split.
          -- intros (before & g' & after & -> & Hn & Hr' & Hs & Hbef). exists (g :: before), g', after. split; [reflexivity|]. split; [exact Hn|]. split; [exact Hr'|]. split; [exact Hs|].
             intros [|i] h Hi Hh; cbn [nth_error] in *; [injection Hi as ->; rewrite Hh in Hg; destruct b; [reflexivity|discriminate]|]. exact (Hbef i h Hi Hh).
          -- intros ([|x before] & g' & after & He & Hn & Hr' & Hs & Hbef); injection He as -> ->.
             ++ exfalso. rewrite Hr' in Hg. destruct b; [|discriminate]. apply Hs. reflexivity.
             ++ exists before, g', after. split; [reflexivity|]. split; [exact Hn|]. split; [exact Hr'|]. split; [exact Hs|]. intros i h Hi. exact (Hbef (Datatypes.S i) h Hi).
    - split.
      + intros (before & g & after & -> & Hn & Hr & Hs & Hbef). exists g. split; [|exact Hn]. exists before, after. split; [reflexivity|]. split; [exact Hr|]. rewrite app_length in H. cbn [List.length] in H. split.
        * intros Hin. apply Hs. apply H; [lia|exact Hin].
        * intros i h Hi Hh. apply H; [|exact (Hbef i h Hi Hh)]. assert (i < List.length before)%nat by (apply nth_error_Some; congruence). lia.
      + intros (g & (before & after & -> & Hr & Hs & Hbef) & Hn). exists before, g, after. split; [reflexivity|]. split; [exact Hn|]. split; [exact Hr|]. rewrite app_length in H. cbn [List.length] in H. split.
        * intros Hin. apply Hs. apply H; [lia|exact Hin].
        * intros i h Hi Hh. apply H; [|exact (Hbef i h Hi Hh)]. assert (i < List.length before)%nat by (apply nth_error_Some; congruence). lia.
  Qed.

  Definition blamesF (m : list Z -> list Z * value * outcome unit) (R : list Z -> fault -> Prop) : Prop :=
    forall s f, bytes s -> inner f -> fault_is (snd (m s)) f -> R s f.
  Lemma fault_assign {A} (m : M (list Z) A) k v s f : fault_is (snd (assign m k v s)) f <-> fault_is (snd (m s)) f.
  Proof. unfold assign. destruct (m s) as [s1 [a|e|p]]; destruct f; cbn; tauto. Qed.
  Lemma assign_blames {A} (m : M (list Z) A) R0 k v (R : list Z -> fault -> Prop) : faulty m R0 -> (forall s f, bytes s -> R0 s f -> R s f) -> blamesF (assign m k v) R.
  Proof. intros H HR s f Hb _ Hf. apply HR; [exact Hb|]. apply H; [exact Hb|]. apply (fault_assign m k v). exact Hf. Qed.
  Lemma struct_blames name fs (ff : ty -> Z -> F (list Z)) (sk : Z -> M (list Z) unit) :
    (forall g, In g fs -> forall ft v, soundF (ff (field_ty g) ft v) (fun p w => takes_field c E (field_ty g) ft v p w)) -> (forall ft, sound (sk ft) (passed c ft false)) ->
    (forall g, In g fs -> forall ft v, blamesF (ff (field_ty g) ft v) (refuses_field c E (field_ty g) ft v)) -> (forall ft, blames (sk ft) (stuck c ft false)) ->
    forall fuel last flags seen vs s f, bytes s -> inner f -> (List.length s < fuel)%nat -> marked fs flags seen ->
      fault_is (snd (struct_loop c I name fs ff sk fuel last flags vs s)) f -> refuses_fields c E name fs last seen vs s f.
  Proof.
    intros Sff Ssk Hff Hsk. induction fuel as [|fuel IH]; intros last flags seen vs s f Hb Hi Hfu Hm H; [lia|]. cbn [struct_loop] in H.
    pose proof (faulty_header last s f Hb) as H1. destruct (read_field_header c I last s) as [s1 [[ft id]|e|p]] eqn:Hms; cbn [snd] in H1, H; try (apply rs_head; apply H1; destruct f; exact H).
    apply exactly_header in Hms as (p1 & -> & Hp1); [|exact Hb]. apply bytes_app in Hb as [_ Hb]. pose proof (head_nonempty _ _ _ _ Hp1) as Hne. rewrite app_length in Hfu. destruct (ft =? 0) eqn:H0.
    - replace ft with 0 in Hp1 by lia. destruct (first_missing fs flags) as [nm|] eqn:Hmiss; cbn [snd] in H; [|apply fault_ok in H; contradiction].
      apply fault_err in H. subst f. apply (missing_some fs flags seen nm Hm) in Hmiss as (g & Hg & ->). exact (rs_missing c E name fs last seen vs id p1 s1 g Hp1 Hg).
    - destruct (find_field fs id) as [[i g]|] eqn:Hf.
      + destruct (nth_error vs i) as [v|] eqn:Hv; cbn [snd] in H; [|apply fault_panic in H; exfalso; exact (proj2 Hi H)]. apply find_declared in Hf.
        assert (Hin : In g fs) by (destruct Hf as (b & a & -> & _); apply in_or_app; right; left; reflexivity).
        destruct (set_nth_split vs i v Hv) as (l & r & -> & Hl & Hset). subst i.
        pose proof (Hff g Hin ft v s1 f Hb Hi) as H2. destruct (ff (field_ty g) ft v s1) as [[s2 w] [x|e|p]] eqn:Hms; cbn [snd] in H2, H;
          try (apply (rs_known c E name fs last seen l v r id ft p1 g s1 f Hp1); [lia|exact Hf|apply H2; exact H]).
        apply (Sff g Hin) in Hms as (p2 & -> & Hp2); [|exact Hb]. apply bytes_app in Hb as [_ Hb]. rewrite app_length in Hfu. rewrite Hset in H.
        apply (rs_known_later c E name fs last seen l v r id ft p1 g p2 w s2 f Hp1); [lia|exact Hf|exact Hp2|]. apply (IH id (set_nth flags (List.length l) true)); [exact Hb|exact Hi|lia|apply marked_set; exact Hm|exact H].
      + apply find_undeclared in Hf. pose proof (Hsk ft s1 f Hb Hi) as H2. destruct (sk ft s1) as [s2 [x|e|p]] eqn:Hms; cbn [snd] in H2, H;
          try (apply (rs_unknown c E name fs last seen vs id ft p1 s1 f Hp1); [lia|exact Hf|apply H2; exact H]).
        apply Ssk in Hms as (p2 & -> & Hp2); [|exact Hb]. apply bytes_app in Hb as [_ Hb]. rewrite app_length in Hfu.
        apply (rs_unknown_later c E name fs last seen vs id ft p1 p2 s2 f Hp1); [lia|exact Hf|exact Hp2|]. apply (IH id flags); [exact Hb|exact Hi|lia|exact Hm|exact H].
  Qed.
  Lemma vec_blames dv fl t : (forall v, soundF (fl v) (fun p w => takes c E t v p w)) -> (forall v, blamesF (fl v) (refuses c E t v)) -> (forall v, dv = Some v -> standard E t v) ->
    forall n s f, bytes s -> inner f -> fault_is (snd (vec_loop dv fl n s)) f -> refuses_seq c E t n s f.
  Proof.
    intros Sfl Hfl Hdv. induction n as [|n IH]; intros s f Hb Hi H; cbn [vec_loop] in H; [apply fault_ok in H; contradiction|].
    destruct dv as [v|] eqn:Hv; [|apply fault_panic in H; exfalso; exact (proj1 Hi H)].
    pose proof (Hfl v s f Hb Hi) as H1. destruct (fl v s) as [[s1 w] [x|e|p]] eqn:Hms; cbn [snd] in H1, H; try (apply (rq_here c E t n v); [apply Hdv; reflexivity|apply H1; exact H]).
    apply Sfl in Hms as (p1 & -> & Hp1); [|exact Hb]. apply bytes_app in Hb as [_ Hb].
    destruct (vec_loop (Some v) fl n s1) as [[s2 ws'] o] eqn:H2. cbn [snd] in H. apply (rq_later c E t n v p1 w); [apply Hdv; reflexivity|exact Hp1|]. apply (IH s1 f Hb Hi). rewrite H2. exact H.
  Qed.
  Lemma blames_fill d :
    (forall t v, declared E t -> blamesF (fill c I E d t v) (refuses c E t v)) /\
    (forall t ft v, declared E t -> blamesF (fill_field c I E d t ft v) (refuses_field c E t ft v)).
  Proof.
    induction d as [|d [IHf IHff]]; [split; [intros t v _|intros t ft v _]; intros s f _ Hi H; apply fault_panic in H; exfalso; exact (proj1 Hi H)|]. split.
    - intros t v Ht. cbn [fill]. destruct t; cbn [declared] in Ht.
      + apply (assign_blames _ _ _ _ _ faulty_byte). intros s f _ [-> ->]. apply rf_bool.
      + apply (assign_blames _ _ _ _ _ faulty_byte). intros s f _ [-> ->]. apply rf_i8.
      + apply (assign_blames _ _ _ _ _ (faulty_map _ _ _ faulty_uleb)). intros s f _ H. apply rf_i16. exact H.
      + apply (assign_blames _ _ _ _ _ faulty_i32). intros s f _ H. apply rf_i32. exact H.
      + apply (assign_blames _ _ _ _ _ (faulty_map _ _ _ faulty_uleb)). intros s f _ H. apply rf_i64. exact H.
      + apply (assign_blames _ _ _ _ _ faulty_double). intros s f _ [H ->]. apply rf_double. exact H.
      + apply (assign_blames _ _ _ _ _ faulty_binary). intros s f _ H. apply rf_bin. exact H.
      + apply (assign_blames _ _ _ _ _ faulty_string). intros s f _ [H|(l & b & r & -> & Hl & Hu & ->)]; [apply rf_str; exact H|exact (rf_utf8 c E v l b r Hl Hu)].
      + intros s f Hb Hi H. pose proof (faulty_collection s f Hb) as H1. destruct (read_collection_len_and_type c I s) as [s1 [[n et]|e|p]] eqn:Hms; cbn [snd] in H1, H;
          try (apply rf_vec; apply H1; destruct f; exact H).
        apply exactly_collection in Hms as (p1 & -> & Hp1); [|exact Hb]. apply bytes_app in Hb as [_ Hb]. rewrite (code E t Ht) in H.
        destruct (negb (et =? wire_code E t) && negb ((wire_code E t =? 2) && (et =? 1))) eqn:Het.
        { apply fault_err in H. subst f. apply (rf_vec_type c E t v n et p1 s1 Hp1); lia. }
        destruct (reserve c n) eqn:Hr; cbn [negb] in H; [|apply fault_err in H; subst f; apply (rf_vec_memory c E t v n et p1 s1 Hp1); [lia|exact Hr]].
        apply (rf_vec_elem c E t v n et p1 s1 f Hp1); [lia|exact Hr|].
        apply (vec_blames (default E d t) (fill c I E d t) t (fun v' => proj1 (sound_fill c Hc E HE d) t v' Ht) (fun v' => IHf t v' Ht) (fun v' Hd => default_standard E d t v' Hd) _ _ _ Hb Hi).
        destruct (vec_loop (default E d t) (fill c I E d t) (Z.to_nat n) s1) as [[s2 ws] o]. exact H.
      + intros s f Hb Hi H.
        assert (G : (exists w, v = VSome w /\ f = Fails DuplicateField) \/ (empty v /\ exists dv, default E d t = Some dv /\ fault_is (snd (fill c I E d t dv s)) f)).
        { destruct v; try (right; split; [intros x Hx; discriminate|]; destruct (default E d t) as [dv|]; [|apply fault_panic in H; exfalso; exact (proj1 Hi H)]; exists dv; split; [reflexivity|];
            destruct (fill c I E d t dv s) as [[s1 w1] o]; exact H). left. exists v. split; [reflexivity|]. apply fault_err in H. exact H. }
        destruct G as [(w & -> & ->)|(Hempty & dv & Hd & Hw)]; [apply rf_option_full|]. apply (rf_option c E t v dv s f Hempty (default_standard E d t dv Hd)). exact (IHf t dv Ht s f Hb Hi Hw).
      + intros s f Hb Hi H. destruct v; try (apply fault_panic in H; exfalso; exact (proj2 Hi H)). apply rf_box. apply (IHf t v Ht s f Hb Hi). destruct (fill c I E d t v s) as [[s1 w1] o]. exact H.
      + intros s f Hb Hi H. destruct v; try (apply fault_panic in H; exfalso; exact (proj2 Hi H)). destruct unique; [|apply fault_err in H; subst f; apply rf_shared_busy].
        apply rf_shared. apply (IHf t v Ht s f Hb Hi). destruct (fill c I E d t v s) as [[s1 w1] o]. exact H.
      + intros s f Hb Hi H. apply fault_assign in H. unfold encset_read, bind in H. pose proof (faulty_collection s f Hb) as H1.
        destruct (read_collection_len_and_type c I s) as [s1 [[n et]|e|p]] eqn:Hms; cbn [snd] in H1; try (apply rf_encset; apply H1; exact H).
        apply exactly_collection in Hms as (p1 & -> & Hp1); [|exact Hb]. apply bytes_app in Hb as [_ Hb]. destruct (negb (et =? 5)) eqn:Het.
        * apply fault_err in H. subst f. apply (rf_encset_type c E v n et p1 s1 Hp1). lia.
        * replace et with 5 in Hp1 by lia. apply (rf_encset_elem c E v n p1 s1 f Hp1). exact (proj1 (faulty_ints _ 0 s1 f Hb) H).
      + destruct (lookup E name) as [[fs|fs|]|] eqn:Hl.
        * intros s f Hb Hi H. destruct v; try (apply fault_panic in H; exfalso; exact (proj2 Hi H)). apply (rf_struct c E name fs _ s f Hl).
          apply (struct_blames name fs _ _ (fun g Hg ft v => proj2 (sound_fill c Hc E HE d) (field_ty g) ft v (field_declared E HE _ _ _ Hl Hg)) (fun ft => proj1 (sound_skip c Hc d) ft false)
            (fun g Hg ft v => IHff (field_ty g) ft v (field_declared E HE _ _ _ Hl Hg)) (fun ft => proj1 (blames_skip d) ft false) (Datatypes.S (slice_left s)) 0 (map (fun _ => false) fs) []);
            [exact Hb|exact Hi|unfold slice_left; lia|apply marked_start|].
          cbn [slice_input in_left] in H. destruct (struct_loop _ _ _ _ _ _ _ _ _ _ s) as [[s2 ws] o]. exact H.
        * intros s f Hb Hi H. pose proof (faulty_header 0 s f Hb) as H1. destruct (read_field_header c I 0 s) as [s1 [[ft id]|e|p]] eqn:Hms; cbn [snd] in H1, H;
            try (apply (rf_union c E name fs v s f Hl); apply H1; destruct f; exact H).
          apply exactly_header in Hms as (p1 & -> & Hp1); [|exact Hb]. apply bytes_app in Hb as [_ Hb]. destruct (ft =? 0) eqn:H0.
          { apply fault_err in H. subst f. replace ft with 0 in Hp1 by lia. exact (rf_union_stop c E name fs v id p1 s1 Hl Hp1). }
          destruct (find_field fs id) as [[i g]|] eqn:Hf.
          2: { apply find_undeclared in Hf. apply fault_err in H. subst f. apply (rf_union_unknown c E name fs v id ft p1 s1 Hl Hp1); [lia|exact Hf]. }
          apply find_declared in Hf. assert (Hin : In g fs) by (destruct Hf as (b & a & -> & _); apply in_or_app; right; left; reflexivity). pose proof (variant_declared E HE _ _ _ Hl Hin) as Hg.
          destruct (default E d (f_ty g)) as [dv|] eqn:Hd; [|apply fault_panic in H; exfalso; exact (proj1 Hi H)]. apply default_standard in Hd.
          pose proof (IHf (f_ty g) dv Hg s1 f Hb Hi) as H2. destruct (fill c I E d (f_ty g) dv s1) as [[s2 w2] [x|e|p]] eqn:Hms; cbn [snd] in H2, H;
            try (apply (rf_union_inner c E name fs v id ft p1 i g dv s1 f Hl Hp1); [lia|exact Hf|exact Hd|apply H2; exact H]).
          apply (proj1 (sound_fill c Hc E HE d) (f_ty g) dv Hg) in Hms as (p2 & -> & Hp2); [|exact Hb].
          apply (rf_union_end c E name fs v id ft p1 i g dv p2 w2 s2 f Hl Hp1); [lia|exact Hf|exact Hd|exact Hp2|].
          cbn [slice_input in_read_byte] in H. unfold slice_read_byte in H. destruct s2 as [|b s2]; cbn [snd] in H.
          { left. apply fault_err in H. auto. }
          right. exists b, s2. split; [reflexivity|]. destruct (b =? 0) eqn:Hb0; [apply fault_ok in H; contradiction|]. split; [lia|]. apply fault_err in H. exact H.
        * apply (assign_blames _ _ _ _ _ faulty_i32). intros s f _ H. exact (rf_enum c E name v s f Hl H).
        * intros s f _ Hi H. apply fault_panic in H. exfalso. exact (proj2 Hi H).
    - intros t ft v Ht. cbn [fill_field].
      assert (Other : t <> TBool -> (forall t', t <> TOption t') -> blamesF (fun s => if negb (ft =? field_type E t) then (s, v, Err InvalidType) else fill c I E d t v s) (refuses_field c E t ft v)).
      { intros H1 H2 s f Hb Hi H. rewrite (code E t Ht) in H. destruct (ft =? wire_code E t) eqn:Hft; cbn [negb] in H.
        - replace ft with (wire_code E t) by lia. apply (rl_other c E t v s f H1 H2). exact (IHf t v Ht s f Hb Hi H).
        - apply fault_err in H. subst f. apply (rl_type c E t ft v s H1 H2). lia. }
      destruct t; try (apply Other; [discriminate|intros; discriminate]).
      + intros s f _ _ H. apply fault_ok in H. contradiction.
      + clear Other. cbn [declared] in Ht. intros s f Hb Hi H.
        assert (G : (exists w, v = VSome w /\ f = Fails DuplicateField) \/ (empty v /\ exists dv, default E d t = Some dv /\ fault_is (snd (fill_field c I E d t ft dv s)) f)).
        { destruct v; try (right; split; [intros x Hx; discriminate|]; destruct (default E d t) as [dv|]; [|apply fault_panic in H; exfalso; exact (proj1 Hi H)]; exists dv; split; [reflexivity|];
            destruct (fill_field c I E d t ft dv s) as [[s1 w1] o]; exact H). left. exists v. split; [reflexivity|]. apply fault_err in H. exact H. }
        destruct G as [(w & -> & ->)|(Hempty & dv & Hd & Hw)]; [apply rl_option_full|]. apply (rl_option c E t ft v dv s f Hempty (default_standard E d t dv Hd)). exact (IHff t ft dv Ht s f Hb Hi Hw).
  Qed.

  (** * Filling: what is in the relation is refused *)
  Definition stopsF (m : nat -> list Z -> list Z * value * outcome unit) (s : list Z) (f : fault) : Prop := exists d0, forall d, (d0 <= d)%nat -> fault_is (snd (m d s)) f.
  Lemma stops_assign {A} (m : M (list Z) A) R k v (g : nat -> list Z -> list Z * value * outcome unit) s f :
    faulty m R -> bytes s -> R s f -> (forall d, g (Datatypes.S d) s = assign m k v s) -> stopsF g s f.
  Proof. intros H Hb HR Hg. exists 1%nat. intros d Hd. destruct d as [|d]; [lia|]. rewrite Hg. apply fault_assign. apply H; assumption. Qed.
  Lemma fault_app {s t : list Z} : bytes (s ++ t) -> bytes t.
  Proof. intros H. exact (proj2 (proj1 (bytes_app _ _) H)). Qed.
  Lemma stops_fill :
    (forall t v s f, refuses c E t v s f -> declared E t -> bytes s -> stopsF (fun d => fill c I E d t v) s f) /\
    (forall t n s f, refuses_seq c E t n s f -> declared E t -> bytes s -> exists d0, forall d, (d0 <= d)%nat -> fault_is (snd (vec_loop (default E d t) (fill c I E d t) n s)) f) /\
    (forall t ft v s f, refuses_field c E t ft v s f -> declared E t -> bytes s -> stopsF (fun d => fill_field c I E d t ft v) s f) /\
    (forall name fs last seen vs s f, refuses_fields c E name fs last seen vs s f -> (forall g, In g fs -> declared E (field_ty g)) -> bytes s ->
      exists d0, forall d, (d0 <= d)%nat -> forall fuel flags, (List.length s < fuel)%nat -> marked fs flags seen ->
        fault_is (snd (struct_loop c I name fs (fun t' ft w s' => fill_field c I E d t' ft w s') (fun ft => skip_field c I d ft false) fuel last flags vs s)) f).
  Proof.
    assert (F3 : forall d t ft v s, t <> TBool -> (forall t', t <> TOption t') -> fill_field c I E (Datatypes.S d) t ft v s = if negb (ft =? field_type E t) then (s, v, Err InvalidType) else fill c I E d t v s).
    { intros d t ft v s H1 H2. destruct t; try reflexivity; [congruence|exfalso; exact (H2 _ eq_refl)]. }
    apply refuses_mutind.
    - intros v _ Hb. apply (stops_assign _ _ (fun b => VBool (b =? 1)) v _ _ _ faulty_byte Hb); [auto|reflexivity].
    - intros v _ Hb. apply (stops_assign _ _ (fun b => VI8 (wraps 8 b)) v _ _ _ faulty_byte Hb); [auto|reflexivity].
    - intros v s f Hn _ Hb. apply (stops_assign _ _ VI16 v _ _ _ faulty_i16 Hb Hn). reflexivity.
    - intros v s f Hn _ Hb. apply (stops_assign _ _ VI32 v _ _ _ faulty_i32 Hb Hn). reflexivity.
    - intros v s f Hn _ Hb. apply (stops_assign _ _ VI64 v _ _ _ faulty_i64 Hb Hn). reflexivity.
    - intros v s Hl _ Hb. apply (stops_assign _ _ VDouble v _ _ _ faulty_double Hb); [auto|reflexivity].
    - intros v s f Hn _ Hb. apply (stops_assign _ _ VBin v _ _ _ faulty_binary Hb Hn). reflexivity.
    - intros v s f Hn _ Hb. apply (stops_assign _ _ VStr v _ _ _ faulty_string Hb (or_introl Hn)). reflexivity.
    - intros v l b s Hl Hu _ Hb. apply (stops_assign _ _ VStr v _ _ _ faulty_string Hb); [|reflexivity]. right. exists l, b, s. auto.
    - intros t v s f Hn _ Hb. exists 1%nat. intros d Hd. destruct d as [|d]; [lia|]. cbn [fill]. pose proof (proj2 (faulty_collection s f Hb) Hn) as H.
      destruct (read_collection_len_and_type c I s) as [s1 [[n et]|e|p]]; [apply fault_ok in H; contradiction|destruct f; exact H|destruct f; exact H].
    - intros t v n et hdr s Hh H1 H2 Ht Hb. cbn [declared] in Ht. exists 1%nat. intros d Hd. destruct d as [|d]; [lia|]. cbn [fill].
      rewrite (exactly_run _ _ (n, et) hdr _ (exactly_collection c) Hh Hb). rewrite (code E t Ht).
      replace (negb (et =? wire_code E t) && negb ((wire_code E t =? 2) && (et =? 1))) with true by lia. reflexivity.
    - intros t v n et hdr s Hh Het Hr Ht Hb. cbn [declared] in Ht. exists 1%nat. intros d Hd. destruct d as [|d]; [lia|]. cbn [fill].
      rewrite (exactly_run _ _ (n, et) hdr _ (exactly_collection c) Hh Hb). rewrite (code E t Ht).
      replace (negb (et =? wire_code E t) && negb ((wire_code E t =? 2) && (et =? 1))) with false by lia. rewrite Hr. reflexivity.
    - intros t v n et hdr s f Hh Het Hr _ IH Ht Hb. cbn [declared] in Ht. destruct (IH Ht (fault_app Hb)) as [d0 IH']. exists (Datatypes.S d0). intros d Hd. destruct d as [|d]; [lia|]. cbn [fill].
      rewrite (exactly_run _ _ (n, et) hdr _ (exactly_collection c) Hh Hb). rewrite (code E t Ht).
      replace (negb (et =? wire_code E t) && negb ((wire_code E t =? 2) && (et =? 1))) with false by lia. rewrite Hr. cbn [negb]. specialize (IH' d ltac:(lia)).
      destruct (vec_loop (default E d t) (fill c I E d t) (Z.to_nat n) s) as [[s2 ws] o]. exact IH'.
    - intros t v s _ _. exists 1%nat. intros d Hd. destruct d as [|d]; [lia|]. reflexivity.
    - intros t v dv s f He Hs _ IH Ht Hb. cbn [declared] in Ht. destruct (IH Ht Hb) as [d1 IH']. destruct (standard_from E _ _ Hs) as [d2 Hd2]. exists (Datatypes.S (d1 + d2)). intros d Hd.
      destruct d as [|d]; [lia|]. cbn [fill]. rewrite (Hd2 d) by lia. specialize (IH' d ltac:(lia)). destruct (fill c I E d t dv s) as [[s1 w] o].
      destruct v; try exact IH'. exfalso. exact (He _ eq_refl).
    - intros t v s f _ IH Ht Hb. cbn [declared] in Ht. destruct (IH Ht Hb) as [d1 IH']. exists (Datatypes.S d1). intros d Hd. destruct d as [|d]; [lia|]. cbn [fill]. specialize (IH' d ltac:(lia)).
      destruct (fill c I E d t v s) as [[s1 w] o]. exact IH'.
    - intros t v s f _ IH Ht Hb. cbn [declared] in Ht. destruct (IH Ht Hb) as [d1 IH']. exists (Datatypes.S d1). intros d Hd. destruct d as [|d]; [lia|]. cbn [fill]. specialize (IH' d ltac:(lia)).
      destruct (fill c I E d t v s) as [[s1 w] o]. exact IH'.
    - intros t v s _ _. exists 1%nat. intros d Hd. destruct d as [|d]; [lia|]. reflexivity.
    - intros v s f Hn _ Hb. exists 1%nat. intros d Hd. destruct d as [|d]; [lia|]. cbn [fill]. apply fault_assign. apply fault_bind. apply faulty_collection; assumption.
    - intros v n et hdr s Hh Het _ Hb. exists 1%nat. intros d Hd. destruct d as [|d]; [lia|]. cbn [fill]. apply fault_assign. unfold encset_read, bind.
      rewrite (exactly_run _ _ (n, et) hdr _ (exactly_collection c) Hh Hb). replace (et =? 5) with false by lia. reflexivity.
    - intros v n hdr s f Hh Hn _ Hb. exists 1%nat. intros d Hd. destruct d as [|d]; [lia|]. cbn [fill]. apply fault_assign. unfold encset_read, bind.
      rewrite (exactly_run _ _ (n, 5) hdr _ (exactly_collection c) Hh Hb). cbn [Z.eqb Pos.eqb negb]. apply faulty_ints; [exact (fault_app Hb)|exact Hn].
    - intros name v s f Hl Hn _ Hb. apply (stops_assign _ _ VI32 v _ _ _ faulty_i32 Hb Hn). intros d. cbn [fill]. rewrite Hl. reflexivity.
    - intros name fs vs s f Hl _ IH _ Hb. destruct (IH (fun g => field_declared E HE name fs g Hl) Hb) as [d0 IH']. exists (Datatypes.S d0). intros d Hd. destruct d as [|d]; [lia|].
      cbn [fill]. rewrite Hl. specialize (IH' d ltac:(lia) (Datatypes.S (slice_left s)) (map (fun _ => false) fs) ltac:(unfold slice_left; lia) (marked_start fs)).
      cbn [slice_input in_left]. destruct (struct_loop _ _ _ _ _ _ _ _ _ _ s) as [[s2 ws] o]. exact IH'.
    - intros name fs v s f Hl Hn _ Hb. exists 1%nat. intros d Hd. destruct d as [|d]; [lia|]. cbn [fill]. rewrite Hl. pose proof (proj2 (faulty_header 0 s f Hb) Hn) as H.
      destruct (read_field_header c I 0 s) as [s1 [[n et]|e|p]]; [apply fault_ok in H; contradiction|destruct f; exact H|destruct f; exact H].
    - intros name fs v id hdr s Hl Hh _ Hb. exists 1%nat. intros d Hd. destruct d as [|d]; [lia|]. cbn [fill]. rewrite Hl. rewrite (exactly_run _ _ (0, id) hdr _ (exactly_header c 0) Hh Hb). reflexivity.
    - intros name fs v id ft hdr s Hl Hh Hft Hu _ Hb. exists 1%nat. intros d Hd. destruct d as [|d]; [lia|]. cbn [fill]. rewrite Hl. rewrite (exactly_run _ _ (ft, id) hdr _ (exactly_header c 0) Hh Hb).
      replace (ft =? 0) with false by lia. rewrite (proj2 (find_undeclared fs id) Hu). reflexivity.
    - intros name fs v id ft hdr i g dv s f Hl Hh Hft Hg Hs _ IH _ Hb.
      assert (Hin : In g fs) by (destruct Hg as (b & a & -> & _); apply in_or_app; right; left; reflexivity).
      destruct (IH (variant_declared E HE _ _ _ Hl Hin) (fault_app Hb)) as [d1 IH']. destruct (standard_from E _ _ Hs) as [d2 Hd2]. exists (Datatypes.S (d1 + d2)). intros d Hd. destruct d as [|d]; [lia|].
      cbn [fill]. rewrite Hl. rewrite (exactly_run _ _ (ft, id) hdr _ (exactly_header c 0) Hh Hb). replace (ft =? 0) with false by lia. rewrite (proj2 (find_declared fs id i g) Hg). rewrite (Hd2 d) by lia.
      specialize (IH' d ltac:(lia)). destruct (fill c I E d (f_ty g) dv s) as [[s2 w] [x|e|p]]; [apply fault_ok in IH'; contradiction|exact IH'|exact IH'].
    - intros name fs v id ft hdr i g dv b w s f Hl Hh Hft Hg Hs Hp Hend _ Hb.
      assert (Hin : In g fs) by (destruct Hg as (b' & a & -> & _); apply in_or_app; right; left; reflexivity).
      destruct (proj1 (complete_fill c Hc E HE) _ _ _ _ Hp (variant_declared E HE _ _ _ Hl Hin)) as [d1 H1]. destruct (standard_from E _ _ Hs) as [d2 Hd2]. exists (Datatypes.S (d1 + d2)). intros d Hd. destruct d as [|d]; [lia|].
      cbn [fill]. rewrite Hl. rewrite (exactly_run _ _ (ft, id) hdr _ (exactly_header c 0) Hh Hb). replace (ft =? 0) with false by lia. rewrite (proj2 (find_declared fs id i g) Hg). rewrite (Hd2 d) by lia.
      rewrite (H1 d ltac:(lia) s (fault_app Hb)). cbn [slice_input in_read_byte]. unfold slice_read_byte. destruct Hend as [[-> ->]|(x & r & -> & Hx & ->)]; [reflexivity|]. replace (x =? 0) with false by lia. reflexivity.
    - intros t n dv s f Hs _ IH Ht Hb. destruct (IH Ht Hb) as [d1 H1]. destruct (standard_from E _ _ Hs) as [d2 Hd2]. exists (d1 + d2)%nat. intros d Hd. cbn [vec_loop]. rewrite (Hd2 d) by lia.
      specialize (H1 d ltac:(lia)). destruct (fill c I E d t dv s) as [[s1 w] [x|e|p]]; [apply fault_ok in H1; contradiction|exact H1|exact H1].
    - intros t n dv b w s f Hs Hp _ IH Ht Hb. destruct (proj1 (complete_fill c Hc E HE) _ _ _ _ Hp Ht) as [d1 H1]. destruct (IH Ht (fault_app Hb)) as [d2 H2]. destruct (standard_from E _ _ Hs) as [d3 Hd3].
      exists (d1 + d2 + d3)%nat. intros d Hd. cbn [vec_loop]. specialize (H2 d ltac:(lia)). rewrite (Hd3 d) in H2 |- * by lia. rewrite (H1 d ltac:(lia) s Hb).
      destruct (vec_loop (Some dv) (fill c I E d t) n s) as [[s2 ws] o]. exact H2.
    - intros t ft v s _ _. exists 1%nat. intros d Hd. destruct d as [|d]; [lia|]. reflexivity.
    - intros t ft v dv s f He Hs _ IH Ht Hb. cbn [declared] in Ht. destruct (IH Ht Hb) as [d1 IH']. destruct (standard_from E _ _ Hs) as [d2 Hd2]. exists (Datatypes.S (d1 + d2)). intros d Hd.
      destruct d as [|d]; [lia|]. cbn [fill_field]. rewrite (Hd2 d) by lia. specialize (IH' d ltac:(lia)). destruct (fill_field c I E d t ft dv s) as [[s1 w] o].
      destruct v; try exact IH'. exfalso. exact (He _ eq_refl).
    - intros t ft v s H1 H2 Hft Ht _. exists 1%nat. intros d Hd. destruct d as [|d]; [lia|]. rewrite (F3 d t ft v s H1 H2), (code E t Ht). replace (ft =? wire_code E t) with false by lia. reflexivity.
    - intros t v s f H1 H2 _ IH Ht Hb. destruct (IH Ht Hb) as [d1 IH']. exists (Datatypes.S d1). intros d Hd. destruct d as [|d]; [lia|]. rewrite (F3 d t _ v s H1 H2), (code E t Ht), Z.eqb_refl. cbn [negb]. apply IH'. lia.
    - intros name fs last seen vs s f Hn _ Hb. exists 0%nat. intros d _ fuel flags Hfu Hm. destruct fuel as [|fuel]; [lia|]. cbn [struct_loop]. pose proof (proj2 (faulty_header last s f Hb) Hn) as H.
      destruct (read_field_header c I last s) as [s1 [[n et]|e|p]]; [apply fault_ok in H; contradiction|destruct f; exact H|destruct f; exact H].
    - intros name fs last seen vs id hdr s g Hh Hg _ Hb. exists 0%nat. intros d _ fuel flags Hfu Hm. destruct fuel as [|fuel]; [lia|]. cbn [struct_loop].
      rewrite (exactly_run _ _ (0, id) hdr _ (exactly_header c last) Hh Hb). cbn [Z.eqb]. rewrite (proj2 (missing_some fs flags seen (f_name g) Hm)); [reflexivity|]. exists g. auto.
    - intros name fs last seen l v r id ft hdr g s f Hh Hft Hg _ IH Hfs Hb.
      assert (Hin : In g fs) by (destruct Hg as (b & a & -> & _); apply in_or_app; right; left; reflexivity).
      destruct (IH (Hfs g Hin) (fault_app Hb)) as [d1 IH']. exists d1. intros d Hd fuel flags Hfu Hm. destruct fuel as [|fuel]; [lia|]. cbn [struct_loop].
      rewrite (exactly_run _ _ (ft, id) hdr _ (exactly_header c last) Hh Hb). replace (ft =? 0) with false by lia. rewrite (proj2 (find_declared fs id _ g) Hg).
      rewrite nth_error_app2, Nat.sub_diag by lia. cbn [nth_error]. specialize (IH' d Hd). unfold field_ty at 1. destruct (fill_field c I E d _ ft v s) as [[s2 w] [x|e|p]]; [apply fault_ok in IH'; contradiction|exact IH'|exact IH'].
    - intros name fs last seen vs id ft hdr s f Hh Hft Hu Hp Hfs Hb. destruct (proj1 stops_skip _ _ _ _ Hp (fault_app Hb)) as [d1 H1]. exists d1. intros d Hd fuel flags Hfu Hm. destruct fuel as [|fuel]; [lia|]. cbn [struct_loop].
      rewrite (exactly_run _ _ (ft, id) hdr _ (exactly_header c last) Hh Hb). replace (ft =? 0) with false by lia. rewrite (proj2 (find_undeclared fs id) Hu).
      specialize (H1 d Hd). destruct (skip_field c I d ft false s) as [s2 [x|e|p]]; [apply fault_ok in H1; contradiction|exact H1|exact H1].
    - intros name fs last seen l v r id ft hdr g b w s f Hh Hft Hg Hp _ IH Hfs Hb.
      assert (Hin : In g fs) by (destruct Hg as (b' & a & -> & _); apply in_or_app; right; left; reflexivity).
      destruct (proj1 (proj2 (proj2 (complete_fill c Hc E HE))) _ _ _ _ _ Hp (Hfs g Hin)) as [d1 H1]. destruct (IH Hfs (fault_app (fault_app Hb))) as [d2 H2]. exists (d1 + d2)%nat. intros d Hd fuel flags Hfu Hm.
      pose proof (head_nonempty _ _ _ _ Hh) as Hne. rewrite !app_length in Hfu. destruct fuel as [|fuel]; [lia|]. cbn [struct_loop].
      rewrite (exactly_run _ _ (ft, id) hdr _ (exactly_header c last) Hh Hb). replace (ft =? 0) with false by lia. rewrite (proj2 (find_declared fs id _ g) Hg).
      rewrite nth_error_app2, Nat.sub_diag by lia. cbn [nth_error]. unfold field_ty at 1. rewrite (H1 d ltac:(lia) _ (fault_app Hb)). rewrite set_nth_app. apply H2; [lia|lia|apply marked_set; exact Hm].
    - intros name fs last seen vs id ft hdr b s f Hh Hft Hu Hp _ IH Hfs Hb. destruct (proj1 (complete_skip c Hc) _ _ _ Hp) as [d1 H1]. destruct (IH Hfs (fault_app (fault_app Hb))) as [d2 H2]. exists (d1 + d2)%nat. intros d Hd fuel flags Hfu Hm.
      pose proof (head_nonempty _ _ _ _ Hh) as Hne. rewrite !app_length in Hfu. destruct fuel as [|fuel]; [lia|]. cbn [struct_loop].
      rewrite (exactly_run _ _ (ft, id) hdr _ (exactly_header c last) Hh Hb). replace (ft =? 0) with false by lia. rewrite (proj2 (find_undeclared fs id) Hu).
      rewrite (H1 d ltac:(lia) _ (fault_app Hb)). apply H2; [lia|lia|exact Hm].
  Qed.
End Exact.

(** * The statements *)
Lemma fault_unique {A} (o : outcome A) f g : fault_is o f -> fault_is o g -> f = g.
Proof. destruct o, f, g; cbn; intros; try contradiction; congruence. Qed.
Lemma stops_unique {A} (m : nat -> M (list Z) A) s f g : stops m s f -> stops m s g -> f = g.
Proof. intros [d1 H1] [d2 H2]. exact (fault_unique _ _ _ (H1 (d1 + d2)%nat ltac:(lia)) (H2 (d1 + d2)%nat ltac:(lia))). Qed.
Lemma fault_error {A} (o : outcome A) e : fault_is o (Fails e) <-> o = Err e.
Proof. destruct o; cbn; split; intros H; (contradiction || congruence). Qed.
Lemma fault_dies {A} (o : outcome A) p : fault_is o (Dies p) <-> o = Panic p.
Proof. destruct o; cbn; split; intros H; (contradiction || congruence). Qed.
Lemma error_inner e : inner (Fails e). Proof. split; discriminate. Qed.
Lemma panic_inner p : p <> PStack -> p <> PIllTyped -> inner (Dies p). Proof. split; congruence. Qed.

Lemma fill_fault c E t v s f : cfg_ok c -> acceptable E -> declared E t -> bytes s -> inner f ->
  (exists d, fault_is (snd (fill c (slice_input c) E d t v s)) f) <-> refuses c E t v s f.
Proof.
  intros Hc HE Ht Hb Hi. split.
  - intros [d H]. exact (proj1 (blames_fill c Hc E HE d) t v Ht s f Hb Hi H).
  - intros H. destruct (proj1 (stops_fill c Hc E HE) t v s f H Ht Hb) as [d0 H0]. exists d0. exact (H0 d0 (le_n _)).
Qed.
Lemma fill_error c E t v s e : cfg_ok c -> acceptable E -> declared E t -> bytes s ->
  (exists d, snd (fill c (slice_input c) E d t v s) = Err e) <-> refuses c E t v s (Fails e).
Proof. intros Hc HE Ht Hb. rewrite <- (fill_fault c E t v s (Fails e) Hc HE Ht Hb (error_inner e)). split; intros [d H]; exists d; apply fault_error; exact H. Qed.
Lemma fill_panic c E t v s p : cfg_ok c -> acceptable E -> declared E t -> bytes s -> p <> PStack -> p <> PIllTyped ->
  (exists d, snd (fill c (slice_input c) E d t v s) = Panic p) <-> refuses c E t v s (Dies p).
Proof. intros Hc HE Ht Hb H1 H2. rewrite <- (fill_fault c E t v s (Dies p) Hc HE Ht Hb (panic_inner p H1 H2)). split; intros [d H]; exists d; apply fault_dies; exact H. Qed.
Lemma read_blames c E t s f d : cfg_ok c -> acceptable E -> declared E t -> bytes s -> inner f -> fault_is (snd (read_thrift c (slice_input c) E d t s)) f -> refused c E t s f.
Proof.
  intros Hc HE Ht Hb Hi H. unfold read_thrift in H. destruct (default E d t) as [dv|] eqn:Hd; [|apply fault_panic in H; exfalso; exact (proj1 Hi H)]. exists dv. split; [exact (default_standard E d t dv Hd)|].
  apply (fill_fault c E t dv s f Hc HE Ht Hb Hi). exists d. destruct (fill c (slice_input c) E d t dv s) as [[s1 w] [u|e|p]]; cbn [snd] in *; [apply fault_ok in H; contradiction|destruct f; exact H|destruct f; exact H].
Qed.
Lemma read_stops c E t s f : cfg_ok c -> acceptable E -> declared E t -> bytes s -> refused c E t s f -> stops (fun d => read_thrift c (slice_input c) E d t) s f.
Proof.
  intros Hc HE Ht Hb (dv & Hs & H). destruct (proj1 (stops_fill c Hc E HE) t dv s f H Ht Hb) as [d1 H1]. destruct (standard_from E t dv Hs) as [d2 H2]. exists (d1 + d2)%nat. intros d Hd.
  unfold read_thrift. rewrite (H2 d) by lia. specialize (H1 d ltac:(lia)). destruct (fill c (slice_input c) E d t dv s) as [[s1 w] [u|e|p]]; cbn [snd] in *; [apply fault_ok in H1; contradiction|destruct f; exact H1|destruct f; exact H1].
Qed.
Lemma read_error c E t s e : cfg_ok c -> acceptable E -> declared E t -> bytes s ->
  (exists d, snd (read_thrift c (slice_input c) E d t s) = Err e) <-> refused c E t s (Fails e).
Proof.
  intros Hc HE Ht Hb. split.
  - intros [d H]. apply (read_blames c E t s (Fails e) d Hc HE Ht Hb (error_inner e)). apply fault_error. exact H.
  - intros H. destruct (read_stops c E t s _ Hc HE Ht Hb H) as [d0 H0]. exists d0. apply fault_error. exact (H0 d0 (le_n _)).
Qed.
Lemma refused_unique c E t s f g : cfg_ok c -> acceptable E -> declared E t -> bytes s -> refused c E t s f -> refused c E t s g -> f = g.
Proof. intros Hc HE Ht Hb Hf Hg. exact (stops_unique _ s f g (read_stops c E t s f Hc HE Ht Hb Hf) (read_stops c E t s g Hc HE Ht Hb Hg)). Qed.
Lemma refuses_unique c E t v s f g : cfg_ok c -> acceptable E -> declared E t -> bytes s -> refuses c E t v s f -> refuses c E t v s g -> f = g.
Proof.
  intros Hc HE Ht Hb Hf Hg. destruct (proj1 (stops_fill c Hc E HE) t v s f Hf Ht Hb) as [d1 H1]. destruct (proj1 (stops_fill c Hc E HE) t v s g Hg Ht Hb) as [d2 H2].
  exact (fault_unique _ _ _ (H1 (d1 + d2)%nat ltac:(lia)) (H2 (d1 + d2)%nat ltac:(lia))).
Qed.
(** With enough stack. *)
Lemma read_outcome c E K d t s : cfg_ok c -> acceptable E -> env_closed E K = true -> declared E t -> ty_closed E t = true -> bytes s -> (need K t (List.length s) <= d)%nat ->
  (forall e, snd (read_thrift c (slice_input c) E d t s) = Err e <-> refused c E t s (Fails e)) /\
  (forall p, snd (read_thrift c (slice_input c) E d t s) = Panic p <-> refused c E t s (Dies p)) /\
  (forall v, snd (read_thrift c (slice_input c) E d t s) = Ok v <-> exists p rest, s = p ++ rest /\ accepted c E t p v).
Proof.
  intros Hc HE HK Ht Hty Hb Hd.
  assert (P : forall d', (d <= d')%nat -> forall p, snd (read_thrift c (slice_input c) E d' t s) = Panic p -> inner (Dies p)).
  { intros d' Hd' p Hp. pose proof (read_slice_panic c E K d' t s p Hc HK Hty Hb ltac:(lia) Hp) as Hs. split; intros He; injection He as ->; destruct Hs as [[_ H]|[_ [H|H]]]; discriminate. }
  assert (F : forall f, fault_is (snd (read_thrift c (slice_input c) E d t s)) f -> refused c E t s f).
  { intros f Hf. apply (read_blames c E t s f d Hc HE Ht Hb); [|exact Hf]. destruct f as [e|p]; [apply error_inner|]. apply (P d (le_n _)). apply fault_dies. exact Hf. }
  assert (V : forall v, snd (read_thrift c (slice_input c) E d t s) = Ok v -> exists p rest, s = p ++ rest /\ accepted c E t p v).
  { intros v Hv. destruct (read_thrift c (slice_input c) E d t s) as [rest o] eqn:Hr. cbn [snd] in Hv. subst o. destruct (proj1 (read_iff c E t s rest v Hc HE Ht Hb)) as (p & H1 & H2); eauto. }
  assert (X : forall v f, (exists p rest, s = p ++ rest /\ accepted c E t p v) -> refused c E t s f -> False).
  { intros v f (p & rest & -> & Hp) Hf. destruct (read_done c E t p v Hc HE Ht Hp) as [d1 H1]. destruct (read_stops c E t _ f Hc HE Ht Hb Hf) as [d2 H2].
    specialize (H2 (d1 + d2)%nat ltac:(lia)). cbn beta in H2. rewrite (H1 (d1 + d2)%nat ltac:(lia) rest Hb) in H2. exact (fault_ok _ _ H2). }
  assert (C : forall f, refused c E t s f -> fault_is (snd (read_thrift c (slice_input c) E d t s)) f).
  { intros f Hf. destruct (snd (read_thrift c (slice_input c) E d t s)) as [v|e|p] eqn:Ho.
    - exfalso. exact (X v f (V v eq_refl) Hf).
    - rewrite (refused_unique c E t s f (Fails e) Hc HE Ht Hb Hf (F (Fails e) eq_refl)). reflexivity.
    - rewrite (refused_unique c E t s f (Dies p) Hc HE Ht Hb Hf (F (Dies p) eq_refl)). reflexivity. }
  split; [|split].
  - intros e. rewrite <- fault_error. split; [apply F|apply C].
  - intros p. rewrite <- fault_dies. split; [apply F|apply C].
  - intros v. split; [apply V|]. intros Hv. destruct (snd (read_thrift c (slice_input c) E d t s)) as [w|e|p] eqn:Ho.
    + f_equal. destruct (V w eq_refl) as (p1 & r1 & H1 & A1). destruct Hv as (p2 & r2 & H2 & A2). rewrite H1 in Hb, H2. exact (proj2 (accepted_unique c E t p1 p2 r1 r2 w v Hc HE Ht Hb A1 A2 H2)).
    + exfalso. exact (X v (Fails e) Hv (F (Fails e) eq_refl)).
    + exfalso. exact (X v (Dies p) Hv (F (Dies p) eq_refl)).
Qed.
Lemma accepted_or_refused c E K t s : cfg_ok c -> acceptable E -> env_closed E K = true -> declared E t -> ty_closed E t = true -> bytes s ->
  ((exists v p rest, s = p ++ rest /\ accepted c E t p v) \/ (exists f, refused c E t s f)) /\
  ~ ((exists v p rest, s = p ++ rest /\ accepted c E t p v) /\ (exists f, refused c E t s f)).
Proof.
  intros Hc HE HK Ht Hty Hb. destruct (read_outcome c E K _ t s Hc HE HK Ht Hty Hb (le_n _)) as (He & Hp & Hv).
  destruct (snd (read_thrift c (slice_input c) E (need K t (List.length s)) t s)) as [v|e|p]; split.
  - left. exists v. apply Hv. reflexivity.
  - intros [_ [[e|p] Hf]]; [apply He in Hf|apply Hp in Hf]; discriminate.
  - right. exists (Fails e). apply He. reflexivity.
  - intros [(v & H) _]. apply Hv in H. discriminate.
  - right. exists (Dies p). apply Hp. reflexivity.
  - intros [(v & H) _]. apply Hv in H. discriminate.
Qed.
Lemma read_reader_outcome c E K d t r : cfg_ok c -> acceptable E -> env_closed E K = true -> declared E t -> ty_closed E t = true -> reader_bytes r ->
  (need K t (List.length (content r)) <= d)%nat ->
  (forall e, snd (read_thrift c (reader_input c) E d t r) = Err e <->
     (refused (portable c) E t (content r) (Fails e) /\ e <> IO UnexpectedEof) \/ (refused (portable c) E t (content r) too_short /\ e = ending r)) /\
  (forall p, snd (read_thrift c (reader_input c) E d t r) = Panic p <-> refused (portable c) E t (content r) (Dies p)).
Proof.
  intros Hc HE HK Ht Hty Hr Hd. pose proof (content_bytes r Hr) as Hb. destruct (read_agrees c E K d t r Hc HK Hty Hb Hr) as [-> _].
  destruct (read_outcome (portable c) E K d t (content r) (portable_ok c Hc) HE HK Ht Hty Hb Hd) as (He & Hp & Hv).
  set (o := snd (read_thrift (portable c) (slice_input (portable c)) E d t (content r))) in *. clearbody o. unfold too_short. split.
  - intros e. rewrite <- !He. destruct o as [v|e0|p]; cbn [reader_outcome].
    + split; [discriminate|]. intros [[H _]|[H _]]; discriminate.
    + assert (D : e0 = IO UnexpectedEof \/ (e0 <> IO UnexpectedEof /\ @reader_outcome value (Err e0) (ending r) = Err e0)).
      { destruct e0; try (right; split; [discriminate|reflexivity]). match goal with k : io_kind |- _ => destruct k end; try (right; split; [discriminate|reflexivity]). left. reflexivity. }
      destruct D as [->|[H0 D]].
      * split; [intros [= <-]; right; auto|]. intros [[[= <-] H]|[_ ->]]; [contradiction|reflexivity].
      * cbn [reader_outcome] in D. rewrite D. split; [intros [= <-]; left; auto|]. intros [[H _]|[H _]]; [exact H|congruence].
    + split; [discriminate|]. intros [[H _]|[H _]]; discriminate.
  - intros p. rewrite <- Hp. destruct o as [v|e0|q]; cbn [reader_outcome]; [tauto| |tauto]. split; [|discriminate]. destruct e0; try discriminate. match goal with k : io_kind |- _ => destruct k end; discriminate.
Qed.
(** Skipping. *)
Lemma skip_fault c ft e s f : cfg_ok c -> bytes s -> inner f -> (exists d, fault_is (snd (skip_field c (slice_input c) d ft e s)) f) <-> stuck c ft e s f.
Proof.
  intros Hc Hb Hi. split.
  - intros [d H]. exact (proj1 (blames_skip c Hc d) ft e s f Hb Hi H).
  - intros H. destruct (proj1 (stops_skip c Hc) ft e s f H Hb) as [d0 H0]. exists d0. exact (H0 d0 (le_n _)).
Qed.
Lemma skip_outcome c d ft e s : cfg_ok c -> bytes s -> (2 * List.length s + 2 <= d)%nat ->
  (forall x, snd (skip_field c (slice_input c) d ft e s) = Err x <-> stuck c ft e s (Fails x)) /\
  (forall p, snd (skip_field c (slice_input c) d ft e s) = Panic p <-> stuck c ft e s (Dies p)) /\
  (snd (skip_field c (slice_input c) d ft e s) = Ok tt <-> exists p rest, s = p ++ rest /\ passed c ft e p).
Proof.
  intros Hc Hb Hd.
  assert (F : forall f, fault_is (snd (skip_field c (slice_input c) d ft e s)) f -> stuck c ft e s f).
  { intros f Hf. apply (proj1 (blames_skip c Hc d) ft e s f Hb); [|exact Hf]. destruct f as [x|p]; [apply error_inner|]. apply fault_dies in Hf.
    pose proof (skip_slice_panic c d ft e s p Hc Hb Hd Hf) as Hs. split; intros He; injection He as ->; destruct Hs as [[_ H]|[_ [H|H]]]; discriminate. }
  assert (V : forall u, snd (skip_field c (slice_input c) d ft e s) = Ok u -> exists p rest, s = p ++ rest /\ passed c ft e p).
  { intros u Hv. destruct (skip_field c (slice_input c) d ft e s) as [rest o] eqn:Hr. cbn [snd] in Hv. subst o. destruct (proj1 (sound_skip c Hc d) ft e s rest u Hb Hr) as (p & H1 & H2). eauto. }
  assert (X : forall f, (exists p rest, s = p ++ rest /\ passed c ft e p) -> stuck c ft e s f -> False).
  { intros f (p & rest & -> & Hp) Hf. destruct (proj1 (complete_skip c Hc) _ _ _ Hp) as [d1 H1]. destruct (proj1 (stops_skip c Hc) _ _ _ _ Hf Hb) as [d2 H2].
    specialize (H2 (d1 + d2)%nat ltac:(lia)). cbn beta in H2. rewrite (H1 (d1 + d2)%nat ltac:(lia) rest Hb) in H2. exact (fault_ok _ _ H2). }
  assert (U : forall f g, stuck c ft e s f -> stuck c ft e s g -> f = g).
  { intros f g Hf Hg. exact (stops_unique _ s f g (proj1 (stops_skip c Hc) _ _ _ _ Hf Hb) (proj1 (stops_skip c Hc) _ _ _ _ Hg Hb)). }
  assert (C : forall f, stuck c ft e s f -> fault_is (snd (skip_field c (slice_input c) d ft e s)) f).
  { intros f Hf. destruct (snd (skip_field c (slice_input c) d ft e s)) as [v|x|p] eqn:Ho.
    - exfalso. exact (X f (V v eq_refl) Hf).
    - rewrite (U f (Fails x) Hf (F (Fails x) eq_refl)). reflexivity.
    - rewrite (U f (Dies p) Hf (F (Dies p) eq_refl)). reflexivity. }
  split; [|split].
  - intros x. rewrite <- fault_error. split; [apply F|apply C].
  - intros p. rewrite <- fault_dies. split; [apply F|apply C].
  - split; [apply V|]. intros Hv. destruct (snd (skip_field c (slice_input c) d ft e s)) as [[]|x|p] eqn:Ho; [reflexivity| |].
    + exfalso. exact (X (Fails x) Hv (F (Fails x) eq_refl)).
    + exfalso. exact (X (Dies p) Hv (F (Dies p) eq_refl)).
Qed.

(** A required field that does not occur, and a number that goes on where the input ends. *)
Lemma refused_sample :
  refused release64 [("S"%string, DStruct [fld 1 true TI32 "a"; fld 2 false TBool "b"])] (TNamed "S") [34; 0; 9] (Fails (MissingField "S::a")) /\
  refused release64 [("S"%string, DStruct [fld 1 true TI32 "a"; fld 2 false TBool "b"])] (TNamed "S") [21; 128; 200] (Fails (IO UnexpectedEof)).
Proof.
  set (E := [("S"%string, DStruct [fld 1 true TI32 "a"; fld 2 false TBool "b"])]).
  assert (Hs : standard E (TNamed "S") (VStruct [VI32 0; VNone])) by (apply (default_standard E 5); vm_compute; reflexivity).
  split; exists (VStruct [VI32 0; VNone]); (split; [exact Hs|]); apply (rf_struct release64 E "S" [fld 1 true TI32 "a"; fld 2 false TBool "b"]); try reflexivity.
  - apply (rs_known_later release64 E "S" _ 0 [] [VI32 0] VNone [] 2 2 [34] (fld 2 false TBool "b") [] (VSome (VBool false)) [0; 9]).
    { apply (hd_short release64 0 34); [lia|discriminate]. } { lia. } { exists [fld 1 true TI32 "a"], []. repeat split. constructor; [cbn; lia|constructor]. }
    { apply (tf_option release64 E TBool 2 VNone (VBool false)); [intros x; discriminate|constructor|]. apply (tf_bool release64 E 2). }
    apply (rs_missing release64 E "S" _ 2 _ _ 2 [0] [9] (fld 1 true TI32 "a")); [apply hd_stop|]. exists [], [fld 2 false TBool "b"].
    split; [reflexivity|]. split; [reflexivity|]. split; [|intros [|i] h H; discriminate]. intros [H|[]]. discriminate.
  - apply (rs_known release64 E "S" _ 0 [] [] (VI32 0) [VNone] 1 5 [21] (fld 1 true TI32 "a") [128; 200]).
    { apply (hd_short release64 0 21); [lia|discriminate]. } { lia. } { exists [], [fld 2 false TBool "b"]. repeat split. constructor. }
    apply (rl_other release64 E TI32 (VI32 0)); [discriminate|discriminate|]. apply rf_i32. left. split; [repeat constructor; lia|]. split; [discriminate|reflexivity].
Qed.
(** With SSE2, a number that fills the last sixteen bytes of the input; otherwise the end of the input is noticed. *)
Lemma stuck_sample : stuck release64 5 false (repeat 128 16) (Dies PUndefined) /\ stuck release64 5 false (repeat 128 15) (Dies PSliceIndex) /\
  stuck portable64 5 false (repeat 128 16) (Fails (IO UnexpectedEof)).
Proof.
  assert (F : forall n, Forall (fun b => 128 <= b < 256) (repeat 128 n)) by (intros n; apply Forall_forall; intros x Hx; apply repeat_spec in Hx; lia).
  split; [|split]; apply sk_int; try lia.
  - split; [apply F|]. right. split; reflexivity.
  - split; [apply F|]. left. split; [cbn; lia|reflexivity].
  - left. split; [apply F|]. split; [discriminate|reflexivity].
Qed.
