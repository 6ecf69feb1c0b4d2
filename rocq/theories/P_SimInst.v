(** Pairs of inputs that P_Sim.v relates. *)
From Coq Require Import ZifyBool ZifyNat ZifyN.
From Verif Require Import Base Uleb Utf8 Protocol Types SpecCompact SpecInput Schema P_Arith P_Reads P_Inputs P_Good P_Lawful P_Sim.
Ltac Zify.zify_post_hook ::= Z.div_mod_to_equations.

Lemma portable_ok c : cfg_ok c -> cfg_ok (portable c).
Proof. intros [H1 H2]. split; [exact H1|discriminate]. Qed.

Definition any : panic -> Prop := fun _ => True.

Lemma sim_ext {S1 S2 A} R eofp weakp (s1 : S1) (s2 : S2) (m1 m1' : M S1 A) (m2 m2' : M S2 A) :
  m1' s1 = m1 s1 -> m2' s2 = m2 s2 -> sim R eofp weakp s1 s2 m1 m2 -> sim R eofp weakp s1 s2 m1' m2'.
Proof. unfold sim. intros -> ->. auto. Qed.

(** The bounded reads of a slice. *)
Definition take (n : Z) : M (list Z) (list Z) :=
  fun s => if zlen s <? n then (s, Err (IO UnexpectedEof)) else (skipn (Z.to_nat n) s, Ok (firstn (Z.to_nat n) s)).
Lemma take_byte s : slice_read_byte s = bind (take 1) (fun buf => ret (nth 0 buf 0)) s.
Proof.
  destruct s as [|b s]; [reflexivity|]. unfold bind, take. rewrite zlen_cons.
  destruct (1 + zlen s <? 1) eqn:Hl; [unfold zlen in Hl; lia|]. reflexivity.
Qed.
Lemma take_double s : slice_read_double s = bind (take 8) (fun buf => ret (from_le_bytes buf)) s.
Proof. unfold bind, take, slice_read_double. destruct (zlen s <? 8); reflexivity. Qed.
Lemma take_skip_binary c s : slice_skip_binary c s = bind (slice_read_binary c) (fun _ => ret tt) s.
Proof.
  unfold slice_skip_binary, slice_read_binary, bind. destruct (read_len_with c slice_read_byte slice_left s) as [s' [n|e|p]]; try reflexivity.
  destruct (MAX_BINARY_LEN <? n); [reflexivity|]. destruct (zlen s' <? n); reflexivity.
Qed.

(** * A: a slice without SSE2 and a reader *)
Section ReaderSim.
  Variable c : cfg.
  Hypothesis Hc : cfg_ok c.
  Variable e : error.
  Definition RA (s : list Z) (r : reader) : Prop := content r = s /\ ending r = e /\ bytes s /\ reader_bytes r.
  Definition eofA : option (failure -> Prop) := Some (fun f => f = FErr e).
  Definition weakA : panic -> Prop := fun _ => False.
  Notation simA := (sim RA eofA weakA).

  Lemma take_sim n s r : RA s r -> simA s r (take n) (read_exact (Z.to_nat n)).
  Proof.
    intros (H1 & H2 & H3 & H4). unfold sim, take, read_exact.
    pose proof (read_exact_content r (Z.to_nat n)) as HC.
    pose proof (read_exact_tame any r (Z.to_nat n) H4) as [Hl _]. unfold read_exact in Hl.
    destruct (read_exact_go r (Z.to_nat n)) as [r' [l|e'|p]]; cbn [fst snd] in *.
    - destruct HC as (HC & Hn & He). rewrite <- H1, HC, zlen_app.
      replace (zlen l + zlen (content r') <? n) with false by (unfold zlen; lia).
      rewrite skipn_app_exact, firstn_app_exact by exact Hn. unfold simr. cbn [fst snd]. split; [reflexivity|].
      split; [reflexivity|]. split; [congruence|]. split.
      + rewrite <- H1, HC in H3. apply bytes_app in H3. apply H3.
      + apply (or_inv _ _ _ reader_order _ _ Hl H4).
    - destruct HC as (HC & He). replace (zlen s <? n) with true by (rewrite <- H1; unfold zlen; lia).
      unfold simr. cbn. exists (FErr e'). split; [reflexivity|]. f_equal. congruence.
    - contradiction.
  Qed.
  Lemma byteA s r : RA s r -> simA s r slice_read_byte reader_read_byte.
  Proof.
    intros H. eapply sim_ext; [apply take_byte|reflexivity|]. apply sim_bind; [apply (take_sim 1); exact H|].
    intros buf s' r' _ _ H'. apply sim_ret. exact H'.
  Qed.
  Lemma lawful1 : lawful (portable c) (slice_input (portable c)) bytes (@suffix Z) any.
  Proof. apply slice_lawful; [apply portable_ok; exact Hc|]. intros; exact I. Qed.
  Lemma lawful2 : lawful c (reader_input c) reader_bytes later any.
  Proof. apply reader_lawful; [exact Hc|]. intros; exact I. Qed.
  Lemma invA s r : RA s r -> bytes s /\ reader_bytes r.
  Proof. intros (_ & _ & H1 & H2). auto. Qed.
  Lemma binaryA s r : RA s r -> simA s r (slice_read_binary (portable c)) (reader_read_binary c).
  Proof.
    intros H. apply sim_bind.
    - apply (read_len_sim RA eofA weakA (portable c) c (slice_input (portable c)) (reader_input c)
             bytes (@suffix Z) reader_bytes later lawful1 lawful2 eq_refl invA byteA eq_refl). exact H.
    - intros n s' r' _ _ H'. destruct (MAX_BINARY_LEN <? n); [apply sim_fail; [reflexivity|exact H']|].
      apply (take_sim n). exact H'.
  Qed.
  Lemma skipintA s r : RA s r -> simA s r (slice_skip_integer (portable c)) (in_skip_integer (reader_input c)).
  Proof.
    intros H. apply sim_bind.
    - apply (uleb_sim RA eofA weakA (portable c) c (slice_input (portable c)) (reader_input c)
             bytes (@suffix Z) reader_bytes later lawful1 lawful2 eq_refl invA byteA). exact H.
    - intros n s' r' _ _ H'. apply sim_ret. exact H'.
  Qed.
  Lemma doubleA s r : RA s r -> simA s r slice_read_double reader_read_double.
  Proof.
    intros H. eapply sim_ext; [apply take_double|reflexivity|]. apply sim_bind; [apply (take_sim 8); exact H|].
    intros buf s' r' _ _ H'. apply sim_ret. exact H'.
  Qed.
  Lemma skipbinA s r : RA s r -> simA s r (slice_skip_binary (portable c)) (in_skip_binary (reader_input c)).
  Proof.
    intros H. eapply sim_ext; [apply take_skip_binary|reflexivity|]. apply sim_bind; [apply binaryA; exact H|].
    intros buf s' r' _ _ H'. apply sim_ret. exact H'.
  Qed.

  Lemma readA E K d t s r : env_closed E K = true -> ty_closed E t = true -> RA s r ->
    simA s r (read_thrift (portable c) (slice_input (portable c)) E d t) (read_thrift c (reader_input c) E d t).
  Proof.
    intros HE Ht H.
    apply (read_sim RA eofA weakA (portable c) c (slice_input (portable c)) (reader_input c)
             bytes (@suffix Z) reader_bytes later lawful1 lawful2 eq_refl
             invA byteA eq_refl doubleA binaryA skipintA skipbinA (portable_ok _ Hc) Hc eq_refl E K HE); assumption.
  Qed.
  Lemma skipA d t inside s r : RA s r ->
    simA s r (skip_field (portable c) (slice_input (portable c)) d t inside) (skip_field c (reader_input c) d t inside).
  Proof.
    intros H.
    apply (skip_sim RA eofA weakA (portable c) c (slice_input (portable c)) (reader_input c)
             bytes (@suffix Z) reader_bytes later lawful1 lawful2 eq_refl
             invA byteA eq_refl doubleA binaryA skipintA skipbinA (portable_ok _ Hc) Hc). exact H.
  Qed.
End ReaderSim.

(** * B: a slice and the slice with more bytes behind, for any way of skipping integers *)
Definition with_skip (c : cfg) (skip : M (list Z) unit) : input (list Z) :=
  {| in_read_byte := slice_read_byte; in_read_double := slice_read_double; in_read_binary := slice_read_binary c;
     in_skip_integer := skip; in_skip_binary := slice_skip_binary c; in_left := slice_left |}.

Lemma with_skip_lawful c skip : cfg_ok c ->
  (forall s, bytes s -> tame (@suffix Z) any s skip (fun _ _ => True)) ->
  lawful c (with_skip c skip) bytes (@suffix Z) any.
Proof.
  intros Hc H. assert (L : lawful c (slice_input c) bytes (@suffix Z) any) by (apply slice_lawful; [exact Hc|intros; exact I]).
  destruct L. split; assumption.
Qed.

Section ExtSim.
  Variable c : cfg.
  Hypothesis Hc : cfg_ok c.
  Variable ext : list Z.
  Variable weak : panic -> Prop.
  Variable skip : M (list Z) unit.
  Hypothesis skip_tame1 : forall s, bytes s -> tame (@suffix Z) any s skip (fun _ _ => True).
  Definition RB (s s2 : list Z) : Prop := s2 = s ++ ext /\ bytes s2.
  Notation simB := (sim RB None weak).

  Lemma takeB n s s2 : RB s s2 -> simB s s2 (take n) (take n).
  Proof.
    intros [-> Hb]. unfold sim, take. destruct (zlen s <? n) eqn:Hl; [exact I|].
    rewrite zlen_app. replace (zlen s + zlen ext <? n) with false by (unfold zlen in *; lia).
    unfold simr. cbn [fst snd]. rewrite skipn_app, firstn_app.
    replace (Z.to_nat n - List.length s)%nat with O by (unfold zlen in *; lia). cbn [firstn skipn]. rewrite app_nil_r.
    split; [reflexivity|]. split; [reflexivity|].
    rewrite <- (firstn_skipn (Z.to_nat n) s), <- app_assoc in Hb. apply bytes_app in Hb. apply Hb.
  Qed.
  Lemma byteB s s2 : RB s s2 -> simB s s2 slice_read_byte slice_read_byte.
  Proof.
    intros H. eapply sim_ext; [apply take_byte|apply take_byte|]. apply sim_bind; [apply takeB; exact H|].
    intros buf s' r' _ _ H'. apply sim_ret. exact H'.
  Qed.
  Lemma doubleB s s2 : RB s s2 -> simB s s2 slice_read_double slice_read_double.
  Proof.
    intros H. eapply sim_ext; [apply take_double|apply take_double|]. apply sim_bind; [apply takeB; exact H|].
    intros buf s' r' _ _ H'. apply sim_ret. exact H'.
  Qed.
  Lemma lawfulB : lawful c (with_skip c skip) bytes (@suffix Z) any.
  Proof. apply with_skip_lawful; assumption. Qed.
  Lemma invB s r : RB s r -> bytes s /\ bytes r.
  Proof. intros [-> H2]. split; [|exact H2]. apply bytes_app in H2. apply H2. Qed.
  Lemma binaryB s r : RB s r -> simB s r (slice_read_binary c) (slice_read_binary c).
  Proof.
    intros H. apply sim_bind.
    - apply (read_len_sim RB None weak c c (with_skip c skip) (with_skip c skip)
             bytes (@suffix Z) bytes (@suffix Z) lawfulB lawfulB eq_refl invB byteB eq_refl). exact H.
    - intros n s' r' _ _ H'. destruct (MAX_BINARY_LEN <? n); [apply sim_fail; [reflexivity|exact H']|].
      apply (takeB n). exact H'.
  Qed.
  Lemma skipbinB s r : RB s r -> simB s r (slice_skip_binary c) (slice_skip_binary c).
  Proof.
    intros H. eapply sim_ext; [apply take_skip_binary|apply take_skip_binary|]. apply sim_bind; [apply binaryB; exact H|].
    intros buf s' r' _ _ H'. apply sim_ret. exact H'.
  Qed.
  Lemma ulebB s s2 : RB s s2 -> simB s s2 (decode_uleb c slice_read_byte slice_left) (decode_uleb c slice_read_byte slice_left).
  Proof.
    apply (uleb_sim RB None weak c c (with_skip c skip) (with_skip c skip)
             bytes (@suffix Z) bytes (@suffix Z) lawfulB lawfulB eq_refl invB byteB).
  Qed.
  Hypothesis skipB : forall s s2, RB s s2 -> simB s s2 skip skip.
  Lemma readB E K d t s s2 : env_closed E K = true -> ty_closed E t = true -> RB s s2 ->
    simB s s2 (read_thrift c (with_skip c skip) E d t) (read_thrift c (with_skip c skip) E d t).
  Proof.
    intros HE Ht H.
    apply (read_sim RB None weak c c (with_skip c skip) (with_skip c skip)
             bytes (@suffix Z) bytes (@suffix Z) lawfulB lawfulB eq_refl
             invB byteB eq_refl doubleB binaryB skipB skipbinB Hc Hc eq_refl E K HE); assumption.
  Qed.
  Lemma skip_fieldB d t inside s s2 : RB s s2 ->
    simB s s2 (skip_field c (with_skip c skip) d t inside) (skip_field c (with_skip c skip) d t inside).
  Proof.
    intros H.
    apply (skip_sim RB None weak c c (with_skip c skip) (with_skip c skip)
             bytes (@suffix Z) bytes (@suffix Z) lawfulB lawfulB eq_refl
             invB byteB eq_refl doubleB binaryB skipB skipbinB Hc Hc). exact H.
  Qed.
End ExtSim.

(** * C: the same slice, two ways of skipping integers *)
Section SameSim.
  Variable c1 c2 : cfg.
  Hypothesis Hc1 : cfg_ok c1.
  Hypothesis Hc2 : cfg_ok c2.
  Hypothesis Hov : overflow_checks c2 = overflow_checks c1.
  Hypothesis Hub : usize_bits c2 = usize_bits c1.
  Hypothesis Hre : reserve c2 = reserve c1.
  Variable P : list Z -> Prop.
  Hypothesis HP : forall s' s, suffix s' s -> P s -> P s'.
  Variable Q : failure -> Prop.
  Hypothesis HQ : Q (FErr (IO UnexpectedEof)).
  Variable weak : panic -> Prop.
  Variable skip1 skip2 : M (list Z) unit.
  Hypothesis skip1_tame : forall s, bytes s -> tame (@suffix Z) any s skip1 (fun _ _ => True).
  Hypothesis skip2_tame : forall s, bytes s -> tame (@suffix Z) any s skip2 (fun _ _ => True).
  Definition RC (s s2 : list Z) : Prop := s2 = s /\ bytes s /\ P s.
  Notation simC := (sim RC (Some Q) weak).

  Lemma RC_suffix s s' : suffix s' s -> bytes s -> P s -> RC s' s'.
  Proof. intros H1 H2 H3. split; [reflexivity|]. split; [exact (suffix_Forall _ _ _ H1 H2)|exact (HP _ _ H1 H3)]. Qed.
  Lemma takeC n s s2 : RC s s2 -> simC s s2 (take n) (take n).
  Proof.
    intros (-> & Hb & Hp). unfold sim, take. destruct (zlen s <? n) eqn:Hl; unfold simr; cbn [fst snd eofb].
    - exists (FErr (IO UnexpectedEof)). auto.
    - split; [reflexivity|]. eapply RC_suffix; [apply suffix_skipn|exact Hb|exact Hp].
  Qed.
  Lemma byteC s s2 : RC s s2 -> simC s s2 slice_read_byte slice_read_byte.
  Proof.
    intros H. eapply sim_ext; [apply take_byte|apply take_byte|]. apply sim_bind; [apply takeC; exact H|].
    intros buf s' r' _ _ H'. apply sim_ret. exact H'.
  Qed.
  Lemma doubleC s s2 : RC s s2 -> simC s s2 slice_read_double slice_read_double.
  Proof.
    intros H. eapply sim_ext; [apply take_double|apply take_double|]. apply sim_bind; [apply takeC; exact H|].
    intros buf s' r' _ _ H'. apply sim_ret. exact H'.
  Qed.
  Lemma lawfulC1 : lawful c1 (with_skip c1 skip1) bytes (@suffix Z) any.
  Proof. apply with_skip_lawful; assumption. Qed.
  Lemma lawfulC2 : lawful c2 (with_skip c2 skip2) bytes (@suffix Z) any.
  Proof. apply with_skip_lawful; assumption. Qed.
  Lemma invC s r : RC s r -> bytes s /\ bytes r.
  Proof. intros (-> & H2 & _). auto. Qed.
  Lemma binaryC s r : RC s r -> simC s r (slice_read_binary c1) (slice_read_binary c2).
  Proof.
    intros H. apply sim_bind.
    - apply (read_len_sim RC (Some Q) weak c1 c2 (with_skip c1 skip1) (with_skip c2 skip2)
             bytes (@suffix Z) bytes (@suffix Z) lawfulC1 lawfulC2 Hov invC byteC Hub). exact H.
    - intros n s' r' _ _ H'. destruct (MAX_BINARY_LEN <? n); [apply sim_fail; [reflexivity|exact H']|].
      apply (takeC n). exact H'.
  Qed.
  Lemma skipbinC s r : RC s r -> simC s r (slice_skip_binary c1) (slice_skip_binary c2).
  Proof.
    intros H. eapply sim_ext; [apply take_skip_binary|apply take_skip_binary|]. apply sim_bind; [apply binaryC; exact H|].
    intros buf s' r' _ _ H'. apply sim_ret. exact H'.
  Qed.
  Hypothesis skipC : forall s s2, RC s s2 -> simC s s2 skip1 skip2.
  Lemma readC E K d t s s2 : env_closed E K = true -> ty_closed E t = true -> RC s s2 ->
    simC s s2 (read_thrift c1 (with_skip c1 skip1) E d t) (read_thrift c2 (with_skip c2 skip2) E d t).
  Proof.
    intros HE Ht H.
    apply (read_sim RC (Some Q) weak c1 c2 (with_skip c1 skip1) (with_skip c2 skip2)
             bytes (@suffix Z) bytes (@suffix Z) lawfulC1 lawfulC2 Hov
             invC byteC Hub doubleC binaryC skipC skipbinC Hc1 Hc2 Hre E K HE); assumption.
  Qed.
  Lemma skip_fieldC d t inside s s2 : RC s s2 ->
    simC s s2 (skip_field c1 (with_skip c1 skip1) d t inside) (skip_field c2 (with_skip c2 skip2) d t inside).
  Proof.
    intros H.
    apply (skip_sim RC (Some Q) weak c1 c2 (with_skip c1 skip1) (with_skip c2 skip2)
             bytes (@suffix Z) bytes (@suffix Z) lawfulC1 lawfulC2 Hov
             invC byteC Hub doubleC binaryC skipC skipbinC Hc1 Hc2). exact H.
  Qed.
End SameSim.
