(** EncodingSet: the lemmas behind C37 and C38. *)
From Coq Require Import ZifyBool ZifyNat ZifyN Sorted.
From Verif Require Import Base Uleb Utf8 Protocol Encodings Types SpecUtf8 SpecCompact SpecInput Schema Typing Parquet
  P_Arith P_Reads P_Inputs P_Gen P_Fill P_Write P_Prim P_Laws.
Ltac Zify.zify_post_hook ::= Z.div_mod_to_equations.

(** * iter and len *)
Lemma bits_from_sorted n : forall k m, StronglySorted Z.lt (bits_from n k m).
Proof.
  induction n as [|n IH]; intros k m; cbn [bits_from]; [constructor|].
  destruct (Z.testbit m k); cbn [app]; [|apply IH]. constructor; [apply IH|].
  apply Forall_forall. intros x Hx. apply bits_from_In in Hx. lia.
Qed.
Lemma iter_spec m : in_u 32 m ->
  StronglySorted Z.lt (encset_iter m) /\
  (forall k, In k (encset_iter m) <-> 0 <= k /\ Z.testbit m k = true) /\
  encset_len m = zlen (encset_iter m) /\ (encset_is_empty m = true <-> encset_iter m = []).
Proof.
  intros Hm. rewrite encset_len_bits, encset_iter_bits by exact Hm. unfold in_u in Hm.
  assert (Hin : forall k, In k (bits_from 32 0 m) <-> 0 <= k /\ Z.testbit m k = true).
  { intros k. rewrite bits_from_In. split; [tauto|]. intros [H1 H2]. split; [|exact H2].
    destruct (Z.lt_ge_cases k 32); [lia|]. rewrite (mask_bits_high m k 32) in H2; [discriminate|lia|lia|lia]. }
  split; [apply bits_from_sorted|]. split; [exact Hin|]. split; [reflexivity|].
  unfold encset_is_empty. rewrite Z.eqb_eq. split.
  - intros ->. reflexivity.
  - intros H. apply Z.bits_inj'. intros k Hk. rewrite Z.bits_0. destruct (Z.testbit m k) eqn:Hb; [|reflexivity].
    exfalso. assert (In k (bits_from 32 0 m)) as H1 by (apply Hin; auto). rewrite H in H1. exact H1.
Qed.

(** * Reading *)
Lemma enc_seq_i32 E zs body : enc_seq E TI32 (map VI32 zs) body ->
  exists bss, body = List.concat bss /\ Forall2 (fun z bs => zz_int 32 z bs) zs bss.
Proof.
  revert body. induction zs as [|z zs IH]; intros body H; cbn [map] in H; inversion H; subst.
  - exists []. split; [reflexivity|constructor].
  - match goal with H1 : enc _ TI32 _ _ |- _ => inversion H1; subst end.
    match goal with H2 : enc_seq _ _ _ _ |- _ => destruct (IH _ H2) as (bss & -> & HF) end.
    eexists (_ :: bss). split; [reflexivity|]. constructor; eassumption.
Qed.

Lemma fold_lor_range zs : Forall (fun z => 0 <= z <= 30) zs -> forall m0, in_u 31 m0 ->
  in_u 31 (fold_left (fun m z => Z.lor m (2 ^ z)) zs m0).
Proof.
  induction 1 as [|z zs Hz HF IH]; intros m0 Hm; cbn [fold_left]; [exact Hm|]. apply IH.
  assert (Hp : 2 ^ z < 2 ^ 31) by (apply Z.pow_lt_mono_r; lia). assert (Hp0 : 0 < 2 ^ z) by (apply Z.pow_pos_nonneg; lia).
  unfold in_u in *. split; [apply Z.lor_nonneg; lia|].
  destruct (Z.lt_ge_cases (Z.lor m0 (2 ^ z)) (2 ^ 31)) as [|Hge]; [assumption|exfalso].
  assert (Hl : 31 <= Z.log2 (Z.lor m0 (2 ^ z))) by (apply Z.log2_le_pow2; lia).
  rewrite Z.log2_lor, Z.log2_pow2 in Hl by lia.
  destruct (Z.eq_dec m0 0) as [->|Hne]; [change (Z.log2 0) with 0 in Hl; lia|].
  assert (Z.log2 m0 < 31) by (apply Z.log2_lt_pow2; lia). lia.
Qed.

Definition set_of (zs : list Z) : Z := fold_left (fun m z => Z.lor m (2 ^ z)) zs 0.
Lemma set_of_spec zs : Forall (fun z => 0 <= z <= 30) zs ->
  in_u 31 (set_of zs) /\ forall k, In k (encset_iter (set_of zs)) <-> In k zs.
Proof.
  intros Hz. assert (Hr : in_u 31 (set_of zs)) by (apply fold_lor_range; [exact Hz|unfold in_u; lia]).
  split; [exact Hr|]. intros k. destruct (iter_spec (set_of zs)) as (_ & Hin & _); [unfold in_u in *; lia|]. rewrite Hin.
  split.
  - intros [Hk Hb]. unfold set_of in Hb. rewrite (fold_lor_bits [] 0 true zs 0 k Hz Hk) in Hb. rewrite Z.bits_0 in Hb. cbn [orb] in Hb.
    apply existsb_exists in Hb as (x & Hx & He). apply Z.eqb_eq in He. subst x. exact Hx.
  - intros Hk. rewrite Forall_forall in Hz. pose proof (Hz k Hk). split; [lia|].
    unfold set_of. rewrite (fold_lor_bits [] 0 true zs 0 k (proj2 (Forall_forall _ _) Hz)) by lia. rewrite Z.bits_0. cbn [orb].
    apply existsb_exists. exists k. split; [exact Hk|apply Z.eqb_refl].
Qed.

Lemma encset_read_ok c E zs hdr body d : cfg_ok c -> (1 <= d)%nat ->
  list_header (zlen zs) 5 hdr -> enc_seq E TI32 (map VI32 zs) body -> Forall (fun z => 0 <= z <= 30) zs ->
  both_read c (fun S I => read_thrift c I E d TEncSet) (hdr ++ body) (VEncSet (set_of zs)).
Proof.
  intros Hc Hd Hh Hs Hz. destruct (enc_seq_i32 _ _ _ Hs) as (bss & -> & HF).
  apply both_reads; [|exact Hc]. intros S I R D s rest HR. rewrite <- app_assoc in HR.
  destruct (read_collection_len_and_type_reads R c I D Hc (zlen zs) 5 hdr ltac:(lia) Hh s _ HR) as (s1 & E1 & R1).
  destruct (encset_loop_reads R c I [] 0 true D zs bss HF Hz 0 s1 _ R1) as (s2 & E2 & R2).
  exists s2. split; [|exact R2]. destruct d as [|d]; [lia|]. unfold read_thrift. cbn [default fill]. unfold assign, encset_read, bind.
  rewrite E1. cbn [Z.eqb Pos.eqb negb]. replace (Z.to_nat (zlen zs)) with (List.length zs) by (unfold zlen; lia). rewrite E2. reflexivity.
Qed.

Lemma encset_reads c E zs hdr body d : cfg_ok c -> (1 <= d)%nat ->
  list_header (zlen zs) 5 hdr -> enc_seq E TI32 (map VI32 zs) body -> Forall (fun z => 0 <= z <= 30) zs ->
  exists m, both_read c (fun S I => read_thrift c I E d TEncSet) (hdr ++ body) (VEncSet m) /\
    in_u 31 m /\ forall k, In k (encset_iter m) <-> In k zs.
Proof. intros. exists (set_of zs). split; [apply encset_read_ok; assumption|apply set_of_spec; assumption]. Qed.
Lemma encset_loop_fails {S} (R : S -> list Z -> Prop) c (I : input S) zs bss z bs n : delivers I R ->
  Forall2 (fun z bs => zz_int 32 z bs) zs bss -> Forall (fun z => 0 <= z <= 30) zs ->
  zz_int 32 z bs -> ~ (0 <= z <= 30) -> (List.length zs < n)%nat ->
  forall m0, fails R (encset_read_loop c I n m0) (List.concat bss ++ bs) InvalidNumber.
Proof.
  intros D HF. revert n. induction HF as [|y b zs bss Hy HF IH]; intros n Hr Hz Hbad Hn m0 s rest HR; (destruct n as [|n]; [cbn in Hn; lia|]); cbn [encset_read_loop].
  - cbn [List.concat app] in HR. destruct (read_i32_reads R c I D z bs Hz s rest HR) as (s1 & E1 & R1).
    exists s1. unfold bind. rewrite E1. replace ((z <? 0) || (31 <=? z)) with true by lia. split; [reflexivity|exact R1].
  - inversion Hr as [|? ? Hy30 Hr']; subst. cbn [List.concat] in HR. rewrite <- !app_assoc in HR.
    destruct (read_i32_reads R c I D y b Hy s _ HR) as (s1 & E1 & R1).
    unfold bind. rewrite E1. replace ((y <? 0) || (31 <=? y)) with false by lia.
    rewrite app_assoc in R1. apply (IH n Hr' Hz Hbad ltac:(cbn in Hn; lia)). exact R1.
Qed.
Lemma encset_read_bad c E zs z n hdr body d : cfg_ok c -> (1 <= d)%nat ->
  list_header n 5 hdr -> zlen zs < n -> Forall (fun z => 0 <= z <= 30) zs -> ~ (0 <= z <= 30) ->
  enc_seq E TI32 (map VI32 (zs ++ [z])) body ->
  both_fail c (fun S I => read_thrift c I E d TEncSet) (hdr ++ body) InvalidNumber.
Proof.
  intros Hc Hd Hh Hn Hz Hbad Hs. destruct (enc_seq_i32 _ _ _ Hs) as (bss & -> & HF).
  apply Forall2_app_inv_l in HF as (bss1 & bss2 & HF1 & HF2 & ->).
  inversion HF2 as [|? b ? ? Hzb HF3]; subst. inversion HF3; subst.
  apply both_fails_gen; [|exact Hc]. intros S I R D s rest HR. rewrite <- app_assoc in HR.
  destruct (read_collection_len_and_type_reads R c I D Hc n 5 hdr ltac:(lia) Hh s _ HR) as (s1 & E1 & R1).
  rewrite concat_app in R1. cbn [List.concat] in R1. rewrite app_nil_r in R1.
  destruct (encset_loop_fails R c I zs bss1 z b (Z.to_nat n) D HF1 Hz Hzb Hbad ltac:(unfold zlen in Hn; lia) 0 s1 rest R1) as (s2 & E2 & R2).
  exists s2. split; [|exact R2]. destruct d as [|d]; [lia|]. unfold read_thrift. cbn [default fill]. unfold assign, encset_read, bind.
  rewrite E1. cbn [Z.eqb Pos.eqb negb]. rewrite E2. reflexivity.
Qed.

(** * Writing *)
Lemma i32_seq_leb E zs : Forall (in_s 32) zs -> enc_seq E TI32 (map VI32 zs) (flat_map (fun z => leb 10 (zigzag z)) zs).
Proof.
  induction 1 as [|z zs Hz HF IH]; cbn [flat_map map]; constructor; [|exact IH].
  constructor. apply zz_leb; [lia|exact Hz].
Qed.
Lemma small_s32 zs : Forall (fun z => 0 <= z <= 30) zs -> Forall (in_s 32) zs.
Proof. intros H. eapply Forall_impl; [|exact H]. intros z Hz. unfold in_s. cbv beta in Hz. lia. Qed.
Lemma iter_small m : in_u 31 m -> Forall (fun z => 0 <= z <= 30) (encset_iter m).
Proof.
  intros Hm. apply Forall_forall. intros k Hk. destruct (iter_spec m) as (_ & Hin & _); [unfold in_u in *; lia|].
  apply Hin in Hk as [Hk Hb]. split; [exact Hk|]. destruct (Z.lt_ge_cases k 31); [lia|].
  rewrite (mask_bits_high m k 31) in Hb; [discriminate|lia|exact Hm|lia].
Qed.
Lemma set_of_iter m : in_u 31 m -> set_of (encset_iter m) = m.
Proof.
  intros Hm. pose proof (iter_small m Hm) as Hs. destruct (iter_spec m) as (_ & Hin & _); [unfold in_u in *; lia|].
  apply Z.bits_inj'. intros k Hk. unfold set_of. rewrite (fold_lor_bits [] 0 true _ 0 k Hs Hk). rewrite Z.bits_0. cbn [orb].
  apply eq_true_iff_eq. rewrite existsb_exists. split.
  - intros (x & Hx & He). apply Z.eqb_eq in He. subst x. apply Hin in Hx. tauto.
  - intros Hb. exists k. split; [apply Hin; auto|apply Z.eqb_refl].
Qed.

(** What an EncodingSet writes: the list of its elements. *)
Lemma encset_writes E m : in_u 31 m -> exists hdr body,
  appends (write_thrift vec_write_all E TEncSet (VEncSet m)) (hdr ++ body) (Ok tt) /\
  list_header (zlen (encset_iter m)) 5 hdr /\ enc_seq E TI32 (map VI32 (encset_iter m)) body.
Proof.
  intros Hm. assert (Hm' : in_u 32 m) by (unfold in_u in *; lia).
  destruct (encset_write_puts m Hm') as (hdr & Hh & _ & Hp). rewrite <- encset_iter_bits in Hh, Hp by exact Hm'.
  do 2 eexists. split; [exact (proj2 Hp)|]. split; [exact Hh|]. apply i32_seq_leb, small_s32, iter_small, Hm.
Qed.
Lemma encset_roundtrip c E m d : cfg_ok c -> in_u 31 m -> (1 <= d)%nat ->
  exists bs, appends (write_thrift vec_write_all E TEncSet (VEncSet m)) bs (Ok tt) /\
    both_read c (fun S I => read_thrift c I E d TEncSet) bs (VEncSet m).
Proof.
  intros Hc Hm Hd. destruct (encset_writes E m Hm) as (hdr & body & Hp & Hh & Hs). eexists. split; [exact Hp|].
  pose proof (encset_read_ok c E _ hdr body d Hc Hd Hh Hs (iter_small m Hm)) as H. rewrite set_of_iter in H by exact Hm. exact H.
Qed.

(** Vec<Encoding> *)
Lemma vec_enum_writes E n zs : lookup E n = Some DEnum -> Forall (in_s 32) zs -> zlen zs <= 10000000 -> exists hdr body,
  appends (write_thrift vec_write_all E (TVec (TNamed n)) (VVec (map VI32 zs))) (hdr ++ body) (Ok tt) /\
  list_header (zlen zs) 5 hdr /\ enc_seq E TI32 (map VI32 zs) body.
Proof.
  intros Hl Hz Hlen. do 2 eexists. split; [|split; [apply list_header_canonical; unfold zlen in *; lia|apply i32_seq_leb; exact Hz]].
  unfold write_thrift. cbn [writer]. cbn [wplain with_default]. replace (zlen (map VI32 zs)) with (zlen zs) by (unfold zlen; rewrite map_length; reflexivity).
  unfold MAX_COLLECTION_LEN. replace (10000000 <? zlen zs) with false by lia. cbn [field_type]. rewrite Hl.
  eapply puts_bind; [apply write_list_header_puts; unfold zlen in *; lia|].
  clear Hlen. induction Hz as [|z zs Hz HF IH]; cbn [map write_items flat_map]; [apply puts_ret|].
  eapply puts_bind; [|exact IH]. cbn [writer]. rewrite Hl. cbn [wplain with_default]. apply write_i32_puts. exact Hz.
Qed.
Lemma vec_to_set c E n zs d : cfg_ok c -> lookup E n = Some DEnum -> Forall (fun z => 0 <= z <= 30) zs -> zlen zs <= 10000000 -> (1 <= d)%nat ->
  exists bs mask, appends (write_thrift vec_write_all E (TVec (TNamed n)) (VVec (map VI32 zs))) bs (Ok tt) /\
    both_read c (fun S I => read_thrift c I E d TEncSet) bs (VEncSet mask) /\
    in_u 31 mask /\ forall k, In k (encset_iter mask) <-> In k zs.
Proof.
  intros Hc Hl Hz Hlen Hd. destruct (vec_enum_writes E n zs Hl (small_s32 _ Hz) Hlen) as (hdr & body & Hp & Hh & Hs).
  exists (hdr ++ body), (set_of zs). split; [exact Hp|]. split; [apply encset_read_ok; assumption|]. apply set_of_spec. exact Hz.
Qed.

Lemma vec_enum_read c E n zs hdr body d : cfg_ok c -> reserve_ok c -> (2 <= d)%nat -> lookup E n = Some DEnum ->
  list_header (zlen zs) 5 hdr -> enc_seq E TI32 (map VI32 zs) body ->
  both_read c (fun S I => read_thrift c I E d (TVec (TNamed n))) (hdr ++ body) (VVec (map VI32 zs)).
Proof.
  intros Hc Hres Hd Hl Hh Hs. destruct (enc_seq_i32 _ _ _ Hs) as (bss & -> & HF).
  apply both_reads; [|exact Hc]. intros S I R D s rest HR. rewrite <- app_assoc in HR.
  destruct (read_collection_len_and_type_reads R c I D Hc (zlen zs) 5 hdr ltac:(lia) Hh s _ HR) as (s1 & E1 & R1).
  destruct d as [|d]; [lia|]. unfold read_thrift. cbn [default fill]. rewrite E1. cbn [field_type]. rewrite Hl. cbn [Z.eqb Pos.eqb negb andb].
  rewrite Hres by (destruct Hh; lia). cbn [negb]. replace (Z.to_nat (zlen zs)) with (List.length zs) by (unfold zlen; lia).
  clear Hh Hs HR E1 s hdr.
  assert (Hdef : default E d (TNamed n) = Some (VI32 0)) by (destruct d; [lia|]; cbn [default]; rewrite Hl; reflexivity).
  assert (Hfill : forall v s, fill c I E d (TNamed n) v s = assign (read_i32 c I) VI32 v s)
    by (intros v s; destruct d; [lia|]; cbn [fill]; rewrite Hl; reflexivity).
  rewrite Hdef.
  assert (H : forall s, R s (List.concat bss ++ rest) -> exists s2,
    vec_loop (Some (VI32 0)) (fill c I E d (TNamed n)) (List.length zs) s = (s2, map VI32 zs, Ok tt) /\ R s2 rest).
  { clear s1 R1. induction HF as [|z b zs bss Hz HF IH]; intros s HR; cbn [List.length vec_loop map List.concat] in *; [eauto|].
    rewrite <- app_assoc in HR. destruct (read_i32_reads R c I D z b Hz s _ HR) as (s2 & E2 & R2).
    rewrite Hfill. unfold assign. rewrite E2. destruct (IH s2 R2) as (s3 & E3 & R3). rewrite E3. eauto. }
  destruct (H s1 R1) as (s2 & E2 & R2). exists s2. split; [|exact R2]. rewrite E2. reflexivity.
Qed.
Lemma set_to_vec c E n m d : cfg_ok c -> reserve_ok c -> lookup E n = Some DEnum -> in_u 31 m -> (2 <= d)%nat ->
  exists bs, appends (write_thrift vec_write_all E TEncSet (VEncSet m)) bs (Ok tt) /\
    both_read c (fun S I => read_thrift c I E d (TVec (TNamed n))) bs (VVec (map VI32 (encset_iter m))).
Proof.
  intros Hc Hres Hl Hm Hd. destruct (encset_writes E m Hm) as (hdr & body & Hp & Hh & Hs). eexists. split; [exact Hp|].
  apply vec_enum_read; assumption.
Qed.

(** A list of other elements is refused, and a failed read leaves the set as it was. *)
Lemma encset_read_type c E n et hdr d : cfg_ok c -> (1 <= d)%nat -> 0 <= et <= 15 -> et <> 5 -> list_header n et hdr ->
  both_fail c (fun S I => read_thrift c I E d TEncSet) hdr InvalidType.
Proof.
  intros Hc Hd Het Hne Hh. apply both_fails_gen; [|exact Hc]. intros S I R D s rest HR.
  destruct (read_collection_len_and_type_reads R c I D Hc n et hdr ltac:(lia) Hh s _ HR) as (s1 & E1 & R1).
  exists s1. split; [|exact R1]. destruct d as [|d]; [lia|]. unfold read_thrift. cbn [default fill]. unfold assign, encset_read, bind.
  rewrite E1. replace (et =? 5) with false by lia. reflexivity.
Qed.
Lemma encset_kept S c (I : input S) E d m s s' v o : fill c I E d TEncSet (VEncSet m) s = (s', v, o) -> o <> Ok tt -> v = VEncSet m.
Proof.
  destruct d as [|d]; cbn [fill]; [intros [= <- <- <-]; reflexivity|]. unfold assign. destruct (encset_read c I s) as [s1 [x|e|p]]; intros [= <- <- <-]; congruence.
Qed.
