(** Behaviour on arbitrary input: C16-C22, C36. *)
From Coq Require Import ZifyBool ZifyNat ZifyN.
From Verif Require Import Base Uleb Utf8 Protocol Encodings Types Parquet SpecUtf8 SpecCompact SpecInput Schema Typing
  P_Arith P_Reads P_Inputs P_Skip P_Gen P_Fill P_Good P_Lawful P_Sim P_SimInst P_Roundtrip.
Ltac Zify.zify_post_hook ::= Z.div_mod_to_equations.

(** * C17, C18: panics and progress *)
Lemma read_slice_panic c E K d t s p : cfg_ok c -> env_closed E K = true -> ty_closed E t = true -> bytes s ->
  (need K t (List.length s) <= d)%nat ->
  snd (read_thrift c (slice_input c) E d t s) = Panic p -> slice_panic c p.
Proof.
  intros Hc HE Ht Hb Hd H.
  destruct (read_tame c _ _ _ (slice_panic c) (slice_lawful c Hc _ (fun p H => H)) Hc E K HE d t s Hb Ht (or_intror Hd)) as [_ Q].
  rewrite H in Q. exact Q.
Qed.
Lemma read_reader_panic c E K d t r p : cfg_ok c -> env_closed E K = true -> ty_closed E t = true -> reader_bytes r ->
  (need K t (reader_left r) <= d)%nat ->
  snd (read_thrift c (reader_input c) E d t r) = Panic p -> reader_panic c p.
Proof.
  intros Hc HE Ht Hb Hd H.
  destruct (read_tame c _ _ _ (reader_panic c) (reader_lawful c Hc _ (fun p H => H)) Hc E K HE d t r Hb Ht (or_intror Hd)) as [_ Q].
  rewrite H in Q. exact Q.
Qed.
Lemma skip_slice_panic c d t inside s p : cfg_ok c -> bytes s -> (2 * List.length s + 2 <= d)%nat ->
  snd (skip_field c (slice_input c) d t inside s) = Panic p -> slice_panic c p.
Proof.
  intros Hc Hb Hd H.
  destruct (proj1 (skip_tame c _ _ _ (slice_panic c) (slice_lawful c Hc _ (fun p H => H)) Hc d) s t inside Hb (or_intror Hd)) as [_ Q].
  rewrite H in Q. exact Q.
Qed.
Lemma skip_reader_panic c d t inside r p : cfg_ok c -> reader_bytes r -> (2 * reader_left r + 2 <= d)%nat ->
  snd (skip_field c (reader_input c) d t inside r) = Panic p -> reader_panic c p.
Proof.
  intros Hc Hb Hd H.
  destruct (proj1 (skip_tame c _ _ _ (reader_panic c) (reader_lawful c Hc _ (fun p H => H)) Hc d) r t inside Hb (or_intror Hd)) as [_ Q].
  rewrite H in Q. exact Q.
Qed.

Lemma slice_panic_sane c p : slice_panic c p -> sane p.
Proof. intros [[_ ->]|[_ [->| ->]]]; split; discriminate. Qed.
Lemma reader_panic_sane c p : reader_panic c p -> sane p.
Proof. intros [_ ->]; split; discriminate. Qed.
Lemma stack_sane : sane PStack.
Proof. split; discriminate. Qed.

Lemma read_slice_forward c E K d t s : cfg_ok c -> env_closed E K = true -> ty_closed E t = true -> bytes s ->
  suffix (fst (read_thrift c (slice_input c) E d t s)) s /\
  forall p, snd (read_thrift c (slice_input c) E d t s) = Panic p -> sane p.
Proof.
  intros Hc HE Ht Hb.
  destruct (read_tame c _ _ _ sane (slice_lawful c Hc _ (slice_panic_sane c)) Hc E K HE d t s Hb Ht (or_introl stack_sane)) as [H Q].
  split; [exact H|]. intros p Hp. rewrite Hp in Q. exact Q.
Qed.
Lemma read_reader_forward c E K d t r : cfg_ok c -> env_closed E K = true -> ty_closed E t = true -> reader_bytes r ->
  later (fst (read_thrift c (reader_input c) E d t r)) r /\
  forall p, snd (read_thrift c (reader_input c) E d t r) = Panic p -> sane p.
Proof.
  intros Hc HE Ht Hb.
  destruct (read_tame c _ _ _ sane (reader_lawful c Hc _ (reader_panic_sane c)) Hc E K HE d t r Hb Ht (or_introl stack_sane)) as [H Q].
  split; [exact H|]. intros p Hp. rewrite Hp in Q. exact Q.
Qed.
Lemma skip_slice_forward c d t inside s : cfg_ok c -> bytes s ->
  suffix (fst (skip_field c (slice_input c) d t inside s)) s /\
  forall p, snd (skip_field c (slice_input c) d t inside s) = Panic p -> sane p.
Proof.
  intros Hc Hb.
  destruct (proj1 (skip_tame c _ _ _ sane (slice_lawful c Hc _ (slice_panic_sane c)) Hc d) s t inside Hb (or_introl stack_sane)) as [H Q].
  split; [exact H|]. intros p Hp. rewrite Hp in Q. exact Q.
Qed.
Lemma skip_reader_forward c d t inside r : cfg_ok c -> reader_bytes r ->
  later (fst (skip_field c (reader_input c) d t inside r)) r /\
  forall p, snd (skip_field c (reader_input c) d t inside r) = Panic p -> sane p.
Proof.
  intros Hc Hb.
  destruct (proj1 (skip_tame c _ _ _ sane (reader_lawful c Hc _ (reader_panic_sane c)) Hc d) r t inside Hb (or_introl stack_sane)) as [H Q].
  split; [exact H|]. intros p Hp. rewrite Hp in Q. exact Q.
Qed.

(** * Skipping integers on slices *)
Lemma land128 b : is_byte b -> (Z.land b 128 =? 0) = (b <? 128).
Proof. intros H. rewrite land_128_0 by exact H. reflexivity. Qed.

Lemma run_le s : (continuation_run s <= List.length s)%nat.
Proof. induction s as [|b s IH]; cbn; [lia|]. destruct (Z.land b 128 =? 0); lia. Qed.
Lemma run_split s : bytes s -> (continuation_run s < List.length s)%nat ->
  terminated (firstn (continuation_run s + 1) s).
Proof.
  induction s as [|b s IH]; intros Hb Hr; cbn [continuation_run List.length] in *; [lia|].
  inversion Hb; subst. rewrite land128 in * by assumption. destruct (b <? 128) eqn:Hlt.
  - cbn. constructor. unfold is_byte in *. lia.
  - cbn [Nat.add firstn]. constructor; [unfold is_byte in *; lia|]. apply IH; [assumption|lia].
Qed.
Lemma run_all s : bytes s -> continuation_run s = List.length s -> Forall (fun b => 128 <= b) s.
Proof.
  induction s as [|b s IH]; intros Hb Hr; cbn [continuation_run List.length] in *; [constructor|].
  inversion Hb; subst. rewrite land128 in * by assumption. destruct (b <? 128) eqn:Hlt; [lia|].
  constructor; [lia|]. apply IH; [assumption|lia].
Qed.
Lemma run_prefix s : bytes s -> Forall (fun b => 128 <= b) (firstn (continuation_run s) s).
Proof.
  induction s as [|b s IH]; intros Hb; cbn [continuation_run]; [constructor|].
  inversion Hb; subst. rewrite land128 by assumption. destruct (b <? 128) eqn:Hlt; [constructor|].
  cbn [firstn]. constructor; [lia|]. apply IH. assumption.
Qed.
Lemma run_app s ext : continuation_run (s ++ ext) =
  if (continuation_run s <? List.length s)%nat then continuation_run s else (List.length s + continuation_run ext)%nat.
Proof.
  induction s as [|b s IH]; cbn [app continuation_run List.length]; [reflexivity|].
  destruct (Z.land b 128 =? 0); [reflexivity|]. rewrite IH.
  pose proof (run_le s). destruct (continuation_run s <? List.length s)%nat eqn:H1, (S (continuation_run s) <? S (List.length s))%nat eqn:H2; lia.
Qed.
Lemma run_firstn n s : continuation_run (firstn n s) = Nat.min n (continuation_run s).
Proof.
  revert n. induction s as [|b s IH]; intros [|n]; cbn [firstn continuation_run]; try lia.
  destruct (Z.land b 128 =? 0); [lia|]. rewrite IH. lia.
Qed.

(** What the SSE2 path and its fallback do. *)
Definition fast_skip : M (list Z) unit := fun s =>
  let n := (Nat.min 16 (continuation_run s) + 1)%nat in
  if (n <=? List.length s)%nat then (skipn n s, Ok tt)
  else (s, Panic (if (16 <=? List.length s)%nat then PUndefined else PSliceIndex)).
Lemma fast_skip_ok c s : sse2 c = true -> bytes s -> slice_skip_integer c s = fast_skip s.
Proof.
  intros Hs Hb. unfold slice_skip_integer, fast_skip. rewrite Hs. pose proof (run_le s) as Hr.
  unfold zlen. destruct (16 <=? List.length s)%nat eqn:H16.
  - replace (16 <=? Z.of_nat (List.length s)) with true by lia. unfold skip_uleb_sse2.
    rewrite skip_uleb_sse2_len_run by exact Hb. rewrite run_firstn. unfold zlen.
    destruct (Nat.min 16 (continuation_run s) + 1 <=? List.length s)%nat eqn:Hl.
    + replace (Z.of_nat (Nat.min 16 (continuation_run s)) + 1 <=? Z.of_nat (List.length s)) with true by lia.
      f_equal. f_equal. lia.
    + replace (Z.of_nat (Nat.min 16 (continuation_run s)) + 1 <=? Z.of_nat (List.length s)) with false by lia. reflexivity.
  - replace (16 <=? Z.of_nat (List.length s)) with false by lia. unfold skip_uleb_fallback.
    replace (Nat.min 16 (continuation_run s)) with (continuation_run s) by lia.
    destruct (continuation_run s + 1 <=? List.length s)%nat; reflexivity.
Qed.

(** A monitor: as the above, but complains about integers longer than sixteen bytes. *)
Definition strict_skip : M (list Z) unit := fun s =>
  let n := continuation_run s in
  if (16 <=? n)%nat then (s, Panic PAssert)
  else if (n <? List.length s)%nat then (skipn (n + 1) s, Ok tt)
  else ([], Err (IO UnexpectedEof)).

Lemma strict_tame s : bytes s -> tame (@suffix Z) any s strict_skip (fun _ _ => True).
Proof.
  intros Hb. unfold tame, strict_skip. destruct (16 <=? continuation_run s)%nat; [split; [apply suffix_refl|exact I]|].
  destruct (continuation_run s <? List.length s)%nat; cbn [fst snd]; split; try exact I; [apply suffix_skipn|exists s; symmetry; apply app_nil_r].
Qed.
Lemma slice_skip_tame c s : cfg_ok c -> bytes s -> tame (@suffix Z) any s (slice_skip_integer c) (fun _ _ => True).
Proof. intros Hc. apply (lw_skip_int c (slice_input c) bytes (@suffix Z) any). apply slice_lawful; [exact Hc|intros; exact I]. Qed.

Lemma strict_delivers c : cfg_ok c -> delivers (with_skip c strict_skip) slice_holds.
Proof.
  intros Hc. pose proof (slice_delivers c Hc) as D. destruct D. split; try assumption.
  intros n bs (Ht & _ & Hlen & _) s rest [-> Hb]. exists rest. cbn [with_skip in_skip_integer]. unfold strict_skip.
  rewrite continuation_run_terminated by exact Ht. pose proof (terminated_nonempty _ Ht).
  replace (16 <=? List.length bs - 1)%nat with false by lia. rewrite app_length.
  replace (List.length bs - 1 <? List.length bs + List.length rest)%nat with true by lia.
  rewrite skipn_app_exact by lia. apply bytes_app in Hb. split; [reflexivity|]. split; [reflexivity|apply Hb].
Qed.

Definition idx_or_ub (p : panic) : Prop := p = PSliceIndex \/ p = PUndefined.

(** ** Extension *)
Lemma bytes_skipn n s : bytes s -> bytes (skipn n s).
Proof. intros H. eapply suffix_Forall; [apply suffix_skipn|exact H]. Qed.
Lemma strict_ext ext s s2 : RB ext s s2 -> sim (RB ext) None (fun _ => False) s s2 strict_skip strict_skip.
Proof.
  intros [-> Hb]. unfold sim, strict_skip. rewrite run_app. pose proof (run_le s).
  destruct (16 <=? continuation_run s)%nat eqn:H16.
  - right. destruct (continuation_run s <? List.length s)%nat eqn:Hlt; cbv beta iota zeta.
    + rewrite H16. reflexivity.
    + replace (16 <=? List.length s + continuation_run ext)%nat with true by lia. reflexivity.
  - destruct (continuation_run s <? List.length s)%nat eqn:Hlt; [|exact I]. cbv beta iota zeta. rewrite H16.
    rewrite app_length. replace (continuation_run s <? List.length s + List.length ext)%nat with true by lia.
    split; [reflexivity|]. cbn [fst]. rewrite skipn_app. replace (continuation_run s + 1 - List.length s)%nat with O by lia.
    cbn [skipn]. split; [reflexivity|]. apply bytes_skipn with (n := (continuation_run s + 1)%nat) in Hb.
    rewrite skipn_app in Hb. replace (continuation_run s + 1 - List.length s)%nat with O in Hb by lia. exact Hb.
Qed.
Lemma fast_ext ext s s2 : RB ext s s2 -> sim (RB ext) None idx_or_ub s s2 fast_skip fast_skip.
Proof.
  intros [-> Hb]. unfold sim, fast_skip. pose proof (run_le s).
  destruct (Nat.min 16 (continuation_run s) + 1 <=? List.length s)%nat eqn:Hle.
  - assert (Nat.min 16 (continuation_run (s ++ ext)) = Nat.min 16 (continuation_run s)) as ->.
    { rewrite run_app. destruct (continuation_run s <? List.length s)%nat eqn:?; lia. }
    rewrite app_length.
    replace (Nat.min 16 (continuation_run s) + 1 <=? List.length s + List.length ext)%nat with true by lia.
    set (n := (Nat.min 16 (continuation_run s) + 1)%nat) in *. split; [reflexivity|]. cbn [fst].
    apply bytes_skipn with (n := n) in Hb. rewrite skipn_app in *. replace (n - List.length s)%nat with O in * by lia.
    split; [reflexivity|exact Hb].
  - left. unfold idx_or_ub. destruct (16 <=? List.length s)%nat; auto.
Qed.
Lemma slice_ext c ext s s2 : cfg_ok c -> RB ext s s2 -> sim (RB ext) None idx_or_ub s s2 (slice_skip_integer c) (slice_skip_integer c).
Proof.
  intros Hc H. destruct (sse2 c) eqn:Hs.
  - destruct (invB _ _ _ H). eapply sim_ext; [apply fast_skip_ok; assumption|apply fast_skip_ok; assumption|].
    apply fast_ext. exact H.
  - unfold slice_skip_integer. rewrite Hs. apply sim_bind; [|intros; apply sim_ret; assumption].
    apply (ulebB c Hc ext idx_or_ub (slice_skip_integer c)); [|exact H]. intros s0. apply slice_skip_tame. exact Hc.
Qed.

(** ** Same slice *)
Definition eof_or_index (f : failure) : Prop := f = FErr (IO UnexpectedEof) \/ f = FPanic PSliceIndex.
Definition monitor (p : panic) : Prop := p = PAssert.
Lemma strict_fast s s2 : RC (fun _ => True) s s2 -> sim (RC (fun _ => True)) (Some eof_or_index) monitor s s2 strict_skip fast_skip.
Proof.
  intros (-> & Hb & _). unfold sim, strict_skip, fast_skip. pose proof (run_le s).
  destruct (16 <=? continuation_run s)%nat eqn:H16; [left; reflexivity|].
  replace (Nat.min 16 (continuation_run s)) with (continuation_run s) by lia.
  destruct (continuation_run s <? List.length s)%nat eqn:Hlt.
  - replace (continuation_run s + 1 <=? List.length s)%nat with true by lia.
    split; [reflexivity|]. cbn [fst]. split; [reflexivity|]. split; [apply bytes_skipn; exact Hb|exact I].
  - replace (continuation_run s + 1 <=? List.length s)%nat with false by lia.
    replace (16 <=? List.length s)%nat with false by lia.
    exists (FPanic PSliceIndex). split; [reflexivity|right; reflexivity].
Qed.

Lemma decode_unterminated c : forall fuel s shift value, Forall (fun b => 128 <= b < 256) s ->
  (List.length s < fuel)%nat -> 0 <= shift -> shift + 7 * zlen s < 2 ^ 32 ->
  decode_uleb_loop c slice_read_byte fuel shift value s = ([], Err (IO UnexpectedEof)).
Proof.
  induction fuel as [|fuel IH]; intros s shift value Hs Hf H0 Hov; [lia|].
  cbn [decode_uleb_loop]. destruct s as [|b s]; [reflexivity|]. inversion Hs; subst. rewrite zlen_cons in Hov.
  unfold bind. cbn [slice_read_byte]. rewrite land128 by (unfold is_byte; lia).
  assert (0 <= zlen s) by (unfold zlen; lia).
  replace (2 ^ 32 <=? shift + 7) with false by lia. rewrite andb_false_r. replace (b <? 128) with false by lia.
  apply IH; [assumption|cbn [List.length] in Hf; lia|rewrite wrapu_id; lia|rewrite wrapu_id; lia].
Qed.
Lemma decode_short c s : bytes s -> (continuation_run s < 16)%nat -> exists n,
  decode_uleb c slice_read_byte slice_left s =
  if (continuation_run s <? List.length s)%nat then (skipn (continuation_run s + 1) s, Ok n)
  else ([], Err (IO UnexpectedEof)).
Proof.
  intros Hb H16. destruct (continuation_run s <? List.length s)%nat eqn:Hlt.
  - assert (Ht : terminated (firstn (continuation_run s + 1) s)) by (apply run_split; [exact Hb|lia]).
    destruct (decode_uleb_reads_acc slice_holds c slice_read_byte slice_left slice_byte slice_holds_left _ Ht) with (s := s) (rest := skipn (continuation_run s + 1) s)
      as (s' & E1 & E2 & _).
    + intros _. unfold zlen. rewrite firstn_length. lia.
    + rewrite firstn_skipn. split; [reflexivity|exact Hb].
    + eexists. rewrite E1, E2. reflexivity.
  - exists 0. unfold decode_uleb. pose proof (run_le s).
    apply decode_unterminated; [|unfold slice_left; lia|lia|unfold zlen; lia].
    assert (Hall : Forall (fun b => 128 <= b) s) by (apply run_all; [exact Hb|lia]).
    unfold bytes in Hb. rewrite Forall_forall in *. intros b Hin. specialize (Hb b Hin). specialize (Hall b Hin). unfold is_byte in Hb. lia.
Qed.
Lemma short_run s : bytes s -> short_runs s -> (continuation_run s < 16)%nat.
Proof.
  intros Hb Hs. specialize (Hs [] (firstn (continuation_run s) s) (skipn (continuation_run s) s)).
  rewrite firstn_skipn in Hs. specialize (Hs eq_refl (run_prefix s Hb)). pose proof (run_le s).
  rewrite firstn_length in Hs. lia.
Qed.
Lemma short_suffix s' s : suffix s' s -> short_runs s -> short_runs s'.
Proof. intros [p ->] H a m b ->. apply (H (p ++ a) m b). rewrite <- app_assoc. reflexivity. Qed.
Lemma portable_fast c s s2 : cfg_ok c -> RC short_runs s s2 ->
  sim (RC short_runs) (Some eof_or_index) (fun _ => False) s s2 (slice_skip_integer (portable c)) (slice_skip_integer c).
Proof.
  intros Hc (-> & Hb & Hs). pose proof (short_run s Hb Hs) as H16. pose proof (run_le s).
  destruct (decode_short c s Hb H16) as [n Hn].
  assert (H1 : slice_skip_integer (portable c) s =
    if (continuation_run s <? List.length s)%nat then (skipn (continuation_run s + 1) s, Ok tt) else ([], Err (IO UnexpectedEof))).
  { unfold slice_skip_integer. cbn [sse2 portable]. unfold bind.
    change (decode_uleb (portable c) slice_read_byte slice_left s) with (decode_uleb c slice_read_byte slice_left s). rewrite Hn.
    destruct (continuation_run s <? List.length s)%nat; reflexivity. }
  unfold sim. rewrite H1. destruct (sse2 c) eqn:Hsse.
  - rewrite fast_skip_ok by assumption. unfold fast_skip.
    replace (Nat.min 16 (continuation_run s)) with (continuation_run s) by lia.
    destruct (continuation_run s <? List.length s)%nat eqn:Hlt.
    + replace (continuation_run s + 1 <=? List.length s)%nat with true by lia.
      split; [reflexivity|]. cbn [fst]. split; [reflexivity|]. split; [apply bytes_skipn; exact Hb|].
      eapply short_suffix; [apply suffix_skipn|exact Hs].
    + replace (continuation_run s + 1 <=? List.length s)%nat with false by lia.
      replace (16 <=? List.length s)%nat with false by lia.
      exists (FPanic PSliceIndex). split; [reflexivity|right; reflexivity].
  - unfold slice_skip_integer. rewrite Hsse. unfold bind. rewrite Hn. destruct (continuation_run s <? List.length s)%nat eqn:Hlt.
    + split; [reflexivity|]. cbn [fst]. split; [reflexivity|]. split; [apply bytes_skipn; exact Hb|].
      eapply short_suffix; [apply suffix_skipn|exact Hs].
    + exists (FErr (IO UnexpectedEof)). split; [reflexivity|left; reflexivity].
Qed.

(** * C16, C20, C21 *)
Lemma portable_self c : sse2 c = false -> portable c = c.
Proof. destruct c as [a b d e]. cbn. intros ->. reflexivity. Qed.

Lemma eofb_true e : eofb e = true -> e = IO UnexpectedEof.
Proof. destruct e; try discriminate. match goal with k : io_kind |- _ => destruct k end; try discriminate. reflexivity. Qed.
Lemma eofb_false {A} e x : eofb e = false -> reader_outcome (@Err A e) x = Err e.
Proof. destruct e; try reflexivity. match goal with k : io_kind |- _ => destruct k end; try reflexivity. discriminate. Qed.
Lemma sim_agrees {A} (x : list Z * outcome A) (y : reader * outcome A) r :
  simr (RA (ending r)) (eofA (ending r)) weakA x y -> agrees x y r.
Proof.
  unfold simr, agrees. destruct x as [s' [a|e|p]], y as [r' o]; cbn [fst snd].
  - intros (-> & H1 & H2 & _). cbn. auto.
  - destruct (eofb e) eqn:He.
    + apply eofb_true in He as ->. intros (f & -> & ->). cbn. tauto.
    + intros (-> & H1 & H2 & _). rewrite eofb_false by exact He. auto.
  - intros [[]| ->]. cbn. tauto.
Qed.
Lemma read_agrees c E K d t r : cfg_ok c -> env_closed E K = true -> ty_closed E t = true -> bytes (content r) -> reader_bytes r ->
  agrees (read_thrift (portable c) (slice_input (portable c)) E d t (content r)) (read_thrift c (reader_input c) E d t r) r.
Proof.
  intros Hc HE Ht Hb Hr. apply sim_agrees. apply (readA c Hc (ending r) E K); [exact HE|exact Ht|].
  repeat split; assumption.
Qed.
Lemma skip_agrees c d t inside r : cfg_ok c -> bytes (content r) -> reader_bytes r ->
  agrees (skip_field (portable c) (slice_input (portable c)) d t inside (content r)) (skip_field c (reader_input c) d t inside r) r.
Proof.
  intros Hc Hb Hr. apply sim_agrees. apply (skipA c Hc (ending r)). repeat split; assumption.
Qed.
Lemma content_bytes r : reader_bytes r -> bytes (content r).
Proof.
  unfold reader_bytes, bytes. induction r as [|[[|b ch]| |k] r IH]; cbn [atoms content]; intros H; try (constructor; fail).
  - apply Forall_app in H as [H1 H2]. apply Forall_app. split; [|apply IH; exact H2].
    revert H1. generalize (b :: ch). intros l Hl. rewrite Forall_map in Hl. exact Hl.
  - inversion H; subst. apply IH. assumption.
  - inversion H; subst. destruct k; try (constructor; fail). apply IH. assumption.
Qed.

Lemma sim_index {A} (x y : list Z * outcome A) :
  simr (RC short_runs) (Some eof_or_index) (fun _ => False) x y -> same_or_index x y.
Proof.
  unfold simr, same_or_index. destruct x as [s' [a|e|p]], y as [r' o]; cbn [fst snd].
  - intros (-> & -> & _). left. auto.
  - destruct (eofb e) eqn:He.
    + apply eofb_true in He as ->. intros (f & -> & [->| ->]); [left|right]; cbn; tauto.
    + intros (-> & -> & _). left. auto.
  - intros [[]| ->]. left. cbn. tauto.
Qed.
Lemma read_index c E K d t s : cfg_ok c -> env_closed E K = true -> ty_closed E t = true -> bytes s -> short_runs s ->
  same_or_index (read_thrift (portable c) (slice_input (portable c)) E d t s) (read_thrift c (slice_input c) E d t s).
Proof.
  intros Hc HE Ht Hb Hs. apply sim_index.
  apply (readC (portable c) c (portable_ok _ Hc) Hc eq_refl eq_refl eq_refl short_runs short_suffix eof_or_index (or_introl eq_refl)
    (fun _ => False) (slice_skip_integer (portable c)) (slice_skip_integer c)
    (fun s => slice_skip_tame (portable c) s (portable_ok _ Hc)) (fun s => slice_skip_tame c s Hc)
    (fun s s2 => portable_fast c s s2 Hc) E K); try assumption. split; auto.
Qed.
Lemma skip_index c d t inside s : cfg_ok c -> bytes s -> short_runs s ->
  same_or_index (skip_field (portable c) (slice_input (portable c)) d t inside s) (skip_field c (slice_input c) d t inside s).
Proof.
  intros Hc Hb Hs. apply sim_index.
  apply (skip_fieldC (portable c) c (portable_ok _ Hc) Hc eq_refl eq_refl short_runs short_suffix eof_or_index (or_introl eq_refl)
    (fun _ => False) (slice_skip_integer (portable c)) (slice_skip_integer c)
    (fun s => slice_skip_tame (portable c) s (portable_ok _ Hc)) (fun s => slice_skip_tame c s Hc)
    (fun s s2 => portable_fast c s s2 Hc)). split; auto.
Qed.

(** * C19 *)
Lemma sim_extends {A} ext (x y : list Z * outcome A) :
  simr (RB ext) None idx_or_ub x y -> settled (snd x) -> y = (fst x ++ ext, snd x).
Proof.
  unfold simr. destruct x as [s' [a|e|p]], y as [r' o]; cbn [fst snd].
  - intros (-> & -> & _) _. reflexivity.
  - destruct (eofb e) eqn:He; [apply eofb_true in He as ->; intros _ []|]. intros (-> & -> & _) _. reflexivity.
  - intros _ [].
Qed.
Lemma read_extends c E K d t s ext : cfg_ok c -> env_closed E K = true -> ty_closed E t = true -> bytes (s ++ ext) ->
  simr (RB ext) None idx_or_ub (read_thrift c (slice_input c) E d t s) (read_thrift c (slice_input c) E d t (s ++ ext)).
Proof.
  intros Hc HE Ht Hb.
  apply (readB c Hc ext idx_or_ub (slice_skip_integer c) (fun s => slice_skip_tame c s Hc) (fun s s2 => slice_ext c ext s s2 Hc) E K); try assumption.
  split; auto.
Qed.
Lemma skip_extends c d t inside s ext : cfg_ok c -> bytes (s ++ ext) ->
  simr (RB ext) None idx_or_ub (skip_field c (slice_input c) d t inside s) (skip_field c (slice_input c) d t inside (s ++ ext)).
Proof.
  intros Hc Hb.
  apply (skip_fieldB c Hc ext idx_or_ub (slice_skip_integer c) (fun s => slice_skip_tame c s Hc) (fun s s2 => slice_ext c ext s s2 Hc)).
  split; auto.
Qed.
Lemma read_slice_extends c E K d t s ext : cfg_ok c -> env_closed E K = true -> ty_closed E t = true -> bytes (s ++ ext) ->
  settled (snd (read_thrift c (slice_input c) E d t s)) ->
  read_thrift c (slice_input c) E d t (s ++ ext) =
    (fst (read_thrift c (slice_input c) E d t s) ++ ext, snd (read_thrift c (slice_input c) E d t s)).
Proof. intros. eapply sim_extends; [eapply read_extends; eassumption|assumption]. Qed.
Lemma skip_slice_extends c d t inside s ext : cfg_ok c -> bytes (s ++ ext) ->
  settled (snd (skip_field c (slice_input c) d t inside s)) ->
  skip_field c (slice_input c) d t inside (s ++ ext) =
    (fst (skip_field c (slice_input c) d t inside s) ++ ext, snd (skip_field c (slice_input c) d t inside s)).
Proof. intros. eapply sim_extends; [eapply skip_extends; eassumption|assumption]. Qed.

Lemma read_reader_extends c E K d t r r2 ext a r' : cfg_ok c -> env_closed E K = true -> ty_closed E t = true ->
  reader_bytes r -> reader_bytes r2 -> content r2 = content r ++ ext ->
  read_thrift c (reader_input c) E d t r = (r', Ok a) ->
  exists r2', read_thrift c (reader_input c) E d t r2 = (r2', Ok a) /\ content r2' = content r' ++ ext /\ ending r2' = ending r2.
Proof.
  intros Hc HE Ht. pose proof (portable_ok _ Hc) as Hp.
  intros H1 H2 Hco He.
  pose proof (read_agrees c E K d t) as HA.
  destruct (HA r Hc HE Ht (content_bytes r H1) H1) as [G1 G2]. destruct (HA r2 Hc HE Ht (content_bytes r2 H2) H2) as [G3 G4].
  pose proof (content_bytes r2 H2) as Hb. rewrite Hco in Hb, G3, G4.
  pose proof (read_slice_extends (portable c) E K d t (content r) ext Hp HE Ht Hb) as Hx.
  destruct (read_thrift (portable c) (slice_input (portable c)) E d t (content r)) as [s' o1]. rewrite He in G1, G2. cbn [fst snd] in *.
  assert (o1 = Ok a) as ->.
  { destruct o1 as [?|e|?]; cbn in G1; [congruence| |discriminate]. destruct e; try discriminate. match goal with k : io_kind |- _ => destruct k end; discriminate. }
  destruct (G2 I) as [G5 G6]. rewrite (Hx I) in G3, G4. cbn [fst snd reader_outcome] in *. destruct (G4 I) as [G7 G8].
  destruct (read_thrift c (reader_input c) E d t r2) as [r2' o2]. cbn [fst snd] in *. subst o2. exists r2'. rewrite G7, G5. auto.
Qed.

(** * C20 *)
Lemma same_reads_agree {A} (x : list Z * outcome A) y1 y2 r1 r2 :
  agrees x y1 r1 -> agrees x y2 r2 -> ending r1 = ending r2 -> same_reads y1 y2.
Proof.
  intros [G1 G2] [G3 G4] He. unfold same_reads.
  rewrite G1, G3, <- He. split; [reflexivity|]. intros a Ha.
  assert (settled (snd x)) as Hs.
  { destruct (snd x) as [?|e|?]; [exact I| |discriminate Ha]. destruct e; try exact I. match goal with k : io_kind |- _ => destruct k end; try exact I. discriminate Ha. }
  destruct (G2 Hs) as [-> ->]. destruct (G4 Hs) as [-> ->]. auto.
Qed.
Lemma read_chunking c E K d t r1 r2 : cfg_ok c -> env_closed E K = true -> ty_closed E t = true ->
  reader_bytes r1 -> reader_bytes r2 -> content r1 = content r2 -> ending r1 = ending r2 ->
  same_reads (read_thrift c (reader_input c) E d t r1) (read_thrift c (reader_input c) E d t r2).
Proof.
  intros Hc HE Ht H1 H2 Hco He.
  eapply same_reads_agree; [eapply read_agrees; eauto using content_bytes|rewrite Hco; eapply read_agrees; eauto using content_bytes|exact He].
Qed.
Lemma skip_chunking c d t inside r1 r2 : cfg_ok c ->
  reader_bytes r1 -> reader_bytes r2 -> content r1 = content r2 -> ending r1 = ending r2 ->
  same_reads (skip_field c (reader_input c) d t inside r1) (skip_field c (reader_input c) d t inside r2).
Proof.
  intros Hc H1 H2 Hco He.
  eapply same_reads_agree; [eapply skip_agrees; eauto using content_bytes|rewrite Hco; eapply skip_agrees; eauto using content_bytes|exact He].
Qed.

(** * C21, C22: truncation *)
Lemma env_closed_of strict E K : env_ok strict E K = true -> env_closed E K = true.
Proof. exact (env_ok_closed strict E K). Qed.

(** A monitored slice holding a proper prefix reports its end. *)
Lemma truncated_strict c strict E K t v p q d : cfg_ok c -> reserve_ok c -> env_ok strict E K = true -> ty_closed E t = true ->
  genc strict E t v (p ++ q) -> q <> [] -> bytes (p ++ q) -> (need K t (List.length (p ++ q)) <= d)%nat ->
  snd (read_thrift c (with_skip c strict_skip) E d t p) = Err (IO UnexpectedEof).
Proof.
  intros Hc Hr HE Ht Hg Hq Hb Hd.
  destruct (read_thrift_genc slice_holds c _ E K strict (strict_delivers c Hc) Hc HE Hr t v (p ++ q) d Hg Ht Hd (p ++ q) []) as (s' & E1 & E2 & _).
  { rewrite app_nil_r. split; [reflexivity|exact Hb]. }
  pose proof (readB c Hc q (fun _ => False) strict_skip strict_tame (strict_ext q) E K d t p (p ++ q) (env_closed_of _ _ _ HE) Ht (conj eq_refl Hb)) as Hs.
  unfold sim in Hs. rewrite E1 in Hs. unfold simr in Hs.
  destruct (read_thrift c (with_skip c strict_skip) E d t p) as [p' [a|e|x]]; cbn [fst snd] in *.
  - destruct Hs as [_ [Hs _]]. rewrite E2 in Hs. destruct p'; [|discriminate]. cbn in Hs. congruence.
  - destruct (eofb e) eqn:He; [apply eofb_true in He as ->; reflexivity|]. destruct Hs as [Hs _]. discriminate.
  - destruct Hs as [[]|Hs]. discriminate.
Qed.
Lemma truncated_slice c strict E K t v p q d : cfg_ok c -> reserve_ok c -> env_ok strict E K = true -> ty_closed E t = true ->
  genc strict E t v (p ++ q) -> q <> [] -> bytes (p ++ q) -> (need K t (List.length (p ++ q)) <= d)%nat ->
  (snd (read_thrift c (slice_input c) E d t p) = Err (IO UnexpectedEof) \/
   (sse2 c = true /\ snd (read_thrift c (slice_input c) E d t p) = Panic PSliceIndex)).
Proof.
  intros Hc Hr HE Ht Hg Hq Hb Hd. pose proof (proj1 (proj1 (bytes_app _ _) Hb)) as Hbp. destruct (sse2 c) eqn:Hsse.
  - pose proof (truncated_strict c strict E K t v p q d Hc Hr HE Ht Hg Hq Hb Hd) as Hs.
    assert (Hsk : forall s s2, RC (fun _ => True) s s2 ->
       sim (RC (fun _ => True)) (Some eof_or_index) monitor s s2 strict_skip (slice_skip_integer c)).
    { intros s s2 H. pose proof H as (-> & Hbs & _). eapply sim_ext; [reflexivity|apply fast_skip_ok; assumption|]. apply strict_fast. exact H. }
    pose proof (readC c c Hc Hc eq_refl eq_refl eq_refl (fun _ => True) (fun _ _ _ H => H) eof_or_index (or_introl eq_refl)
      monitor strict_skip (slice_skip_integer c) strict_tame (fun s => slice_skip_tame c s Hc) Hsk E K d t p p
      (env_closed_of _ _ _ HE) Ht (conj eq_refl (conj Hbp I))) as Hx.
    unfold sim, simr in Hx. rewrite Hs in Hx. cbn [eofb] in Hx. destruct Hx as (f & Hx & Hf).
    change (with_skip c (slice_skip_integer c)) with (slice_input c) in Hx. rewrite Hx.
    destruct Hf as [->| ->]; [left|right]; auto.
  - left.
    destruct (read_thrift_genc slice_holds c _ E K strict (slice_delivers c Hc) Hc HE Hr t v (p ++ q) d Hg Ht Hd (p ++ q) []) as (s' & E1 & E2 & _).
    { rewrite app_nil_r. split; [reflexivity|exact Hb]. }
    assert (Hsk : forall s s2, RB q s s2 -> sim (RB q) None (fun _ => False) s s2 (slice_skip_integer c) (slice_skip_integer c)).
    { intros s s2 H. unfold slice_skip_integer. rewrite Hsse. apply sim_bind; [|intros; apply sim_ret; assumption].
      apply (ulebB c Hc q (fun _ => False) (slice_skip_integer c)); [|exact H]. intros s0. apply slice_skip_tame. exact Hc. }
    pose proof (readB c Hc q (fun _ => False) (slice_skip_integer c) (fun s => slice_skip_tame c s Hc) Hsk E K d t p (p ++ q) (env_closed_of _ _ _ HE) Ht (conj eq_refl Hb)) as Hs.
    unfold sim in Hs. change (with_skip c (slice_skip_integer c)) with (slice_input c) in Hs. rewrite E1 in Hs. unfold simr in Hs.
    destruct (read_thrift c (slice_input c) E d t p) as [p' [a|e|x]]; cbn [fst snd] in *.
    + destruct Hs as [_ [Hs _]]. rewrite E2 in Hs. destruct p'; [|discriminate]. cbn in Hs. congruence.
    + destruct (eofb e) eqn:He; [apply eofb_true in He as ->; reflexivity|]. destruct Hs as [Hs _]. discriminate.
    + destruct Hs as [[]|Hs]. discriminate.
Qed.
Lemma truncated_reader c strict E K t v r q d : cfg_ok c -> reserve_ok c -> env_ok strict E K = true -> ty_closed E t = true ->
  genc strict E t v (content r ++ q) -> q <> [] -> bytes q -> reader_bytes r -> (need K t (List.length (content r ++ q)) <= d)%nat ->
  snd (read_thrift c (reader_input c) E d t r) = Err (ending r).
Proof.
  intros Hc Hr HE Ht Hg Hq Hbq Hrb Hd.
  pose proof (content_bytes r Hrb) as Hb.
  destruct (read_agrees c E K d t r Hc (env_closed_of _ _ _ HE) Ht Hb Hrb) as [G1 _]. rewrite G1.
  destruct (truncated_slice (portable c) strict E K t v (content r) q d (portable_ok _ Hc) Hr HE Ht Hg Hq) as [->|[H _]];
    [apply bytes_app; auto|exact Hd|reflexivity|discriminate].
Qed.
