(** parquet/src/lib.rs: proofs of C39-C42. *)
From Coq Require Import ZifyBool ZifyNat ZifyN.
From Verif Require Import Base Uleb Utf8 Protocol Encodings Types Parquet Footer SpecFooter SpecInput Schema Typing.
From Verif Require P_Robust P_Valid.
Ltac Zify.zify_post_hook ::= Z.div_mod_to_equations.

Lemma zlen_app {A} (a b : list A) : zlen (a ++ b) = zlen a + zlen b.
Proof. unfold zlen. rewrite app_length. lia. Qed.
Lemma zlen_nonneg {A} (a : list A) : 0 <= zlen a.
Proof. unfold zlen. lia. Qed.
Lemma firstn_skipn_app {A} (pre s post : list A) a n : zlen pre = a -> zlen s = n ->
  firstn (Z.to_nat n) (skipn (Z.to_nat a) (pre ++ s ++ post)) = s.
Proof.
  intros <- <-. unfold zlen. rewrite !Nat2Z.id. rewrite skipn_app, skipn_all, Nat.sub_diag. cbn [skipn app].
  rewrite firstn_app, firstn_all, Nat.sub_diag. cbn [firstn]. apply app_nil_r.
Qed.
Lemma at_offset_sub bs a n : 0 <= a -> 0 <= n -> a + n <= zlen bs ->
  at_offset bs a (firstn (Z.to_nat n) (skipn (Z.to_nat a) bs)) /\ zlen (firstn (Z.to_nat n) (skipn (Z.to_nat a) bs)) = n.
Proof.
  unfold zlen. intros Ha Hn Hl. split.
  - exists (firstn (Z.to_nat a) bs), (skipn (Z.to_nat n) (skipn (Z.to_nat a) bs)). split.
    + rewrite (firstn_skipn (Z.to_nat n)). symmetry. apply firstn_skipn.
    + unfold zlen. rewrite firstn_length. lia.
  - rewrite firstn_length, skipn_length. lia.
Qed.
Lemma at_offset_unique bs a s s' : at_offset bs a s -> at_offset bs a s' -> zlen s = zlen s' -> s = s'.
Proof.
  intros (p & q & -> & Hp) (p' & q' & He & Hp') Hl.
  rewrite <- (firstn_skipn_app p s q a (zlen s) Hp eq_refl), He, Hl. apply firstn_skipn_app; auto.
Qed.
Lemma at_offset_app bs a b s t : at_offset bs a s -> at_offset s b t -> at_offset bs (a + b) t.
Proof.
  intros (p & q & -> & Hp) (p' & q' & -> & Hp'). exists (p ++ p'), (q' ++ q). rewrite <- !app_assoc. split; [reflexivity|].
  rewrite zlen_app. lia.
Qed.

Lemma list_eqb_eq a b : list_eqb a b = true <-> a = b.
Proof.
  revert b. induction a as [|x a IH]; intros [|y b]; cbn [list_eqb]; split; intros H; try reflexivity; try discriminate.
  - apply andb_true_iff in H as [H1 H2]. apply Z.eqb_eq in H1. apply IH in H2. congruence.
  - injection H as -> ->. rewrite Z.eqb_refl. cbn [andb]. apply IH. reflexivity.
Qed.

Lemma le4_from a b c d : is_byte a -> is_byte b -> is_byte c -> is_byte d -> le4 (from_le [a; b; c; d]) = [a; b; c; d].
Proof. unfold is_byte, le4. intros. cbn [from_le]. repeat f_equal; lia. Qed.
Lemma from_le4 n : 0 <= n < 2 ^ 32 -> from_le (le4 n) = n.
Proof. intros H. unfold le4. cbn [from_le]. change (2 ^ 32) with 4294967296 in H. lia. Qed.
Lemma from_le_range a b c d : is_byte a -> is_byte b -> is_byte c -> is_byte d -> 0 <= from_le [a; b; c; d] < 2 ^ 32.
Proof. unfold is_byte. intros. cbn [from_le]. change (2 ^ 32) with 4294967296. lia. Qed.

(** * Operations on the file *)
Lemma faulty_healthy {A} (m : F A) f : healthy f ->
  exists f', faulty m f = m f' /\ data f' = data f /\ pos f' = pos f /\ healthy f'.
Proof.
  unfold faulty, healthy. intros H. exists {| data := data f; pos := pos f; faults := tl (faults f) |}. cbn [data pos faults].
  destruct (faults f) as [|[k|] l]; [auto|inversion H; discriminate|inversion H; auto].
Qed.
Lemma seek_end_healthy off f : healthy f ->
  exists f', healthy f' /\ data f' = data f /\
    ((zlen (data f) + off < 0 /\ seek_end off f = (f', PErr (PIo InvalidInput))) \/
     (0 <= zlen (data f) + off /\ seek_end off f = (f', POk tt) /\ pos f' = zlen (data f) + off)).
Proof.
  intros H. unfold seek_end. match goal with |- context [faulty ?m f] => destruct (faulty_healthy m f H) as (f1 & E & Hd & Hp & Hh) end. cbv zeta in E |- *. rewrite E, Hd.
  destruct (zlen (data f) + off <? 0) eqn:Hc.
  - exists f1. repeat split; auto. left. split; [lia|reflexivity].
  - exists (at_pos f1 (zlen (data f) + off)). repeat split; auto. right. split; [lia|]. split; reflexivity.
Qed.
Lemma seek_start_healthy p f : healthy f ->
  exists f', healthy f' /\ data f' = data f /\ seek_start p f = (f', POk tt) /\ pos f' = p.
Proof.
  intros H. unfold seek_start. match goal with |- context [faulty ?m f] => destruct (faulty_healthy m f H) as (f1 & E & Hd & Hp & Hh) end. rewrite E.
  exists (at_pos f1 p). repeat split; auto.
Qed.
Lemma read_exact_healthy n f : healthy f ->
  exists f', healthy f' /\ data f' = data f /\
    ((pos f + n <= zlen (data f) /\ read_exact n f = (f', POk (firstn (Z.to_nat n) (skipn (Z.to_nat (pos f)) (data f))))) \/
     (zlen (data f) < pos f + n /\ read_exact n f = (f', PErr (PIo UnexpectedEof)))).
Proof.
  intros H. unfold read_exact. match goal with |- context [faulty ?m f] => destruct (faulty_healthy m f H) as (f1 & E & Hd & Hp & Hh) end.
  rewrite E, Hd, Hp. destruct (pos f + n <=? zlen (data f)) eqn:Hc; eexists; (split; [|split; [|first [left; split; [lia|reflexivity]|right; split; [lia|reflexivity]]]]); auto.
Qed.

(** * C39 *)
Lemma app_inj_tail_len {A} (a b x y : list A) : a ++ x = b ++ y -> List.length x = List.length y -> a = b /\ x = y.
Proof.
  revert b. induction a as [|h a IH]; intros b He Hl.
  - destruct b as [|k b]; [auto|]. exfalso. apply (f_equal (@List.length A)) in He. cbn in He. rewrite app_length in He. lia.
  - destruct b as [|k b].
    + exfalso. apply (f_equal (@List.length A)) in He. cbn in He. rewrite app_length in He. lia.
    + injection He as -> He. apply IH in He; [|exact Hl]. destruct He. subst. auto.
Qed.
Lemma list4 (l : list Z) : List.length l = 4%nat -> exists a b c d, l = [a; b; c; d].
Proof. destruct l as [|a [|b [|c [|d [|]]]]]; try discriminate. eauto. Qed.

Inductive footer_case (bs : list Z) : Prop :=
| fc_short : zlen bs < 8 -> footer_case bs
| fc_long pre l4 m4 : bs = pre ++ l4 ++ m4 -> List.length l4 = 4%nat -> List.length m4 = 4%nat -> footer_case bs.
Lemma footer_cases bs : footer_case bs.
Proof.
  destruct (Z.lt_ge_cases (zlen bs) 8) as [H|H]; [constructor; exact H|]. unfold zlen in H.
  apply (fc_long bs (firstn (List.length bs - 8) bs) (firstn 4 (skipn (List.length bs - 8) bs)) (skipn 4 (skipn (List.length bs - 8) bs))).
  - rewrite (firstn_skipn 4). symmetry. apply firstn_skipn.
  - rewrite firstn_length, skipn_length. lia.
  - rewrite !skipn_length. lia.
Qed.

Section Meta.
  Variables (c : cfg) (alloc : Z -> bool).
  Hypothesis Hc : cfg_ok c.

  (** The result on a healthy file as a function of its contents. *)
  Lemma metadata_short f : healthy f -> zlen (data f) < 8 -> snd (get_metadata_chunk c alloc f) = PErr (PIo InvalidInput).
  Proof.
    intros H Hl. unfold get_metadata_chunk, fbind. destruct (seek_end_healthy (-8) f H) as (f1 & _ & _ & [(_ & ->)|(? & _)]); [reflexivity|lia].
  Qed.
  Lemma metadata_long f pre l4 m4 : healthy f -> data f = pre ++ l4 ++ m4 -> List.length l4 = 4%nat -> List.length m4 = 4%nat -> bytes l4 ->
    snd (get_metadata_chunk c alloc f) =
      if negb (list_eqb m4 PARQUET_MAGIC) then PErr PInvalidMagic
      else if zlen pre <? from_le l4 then PErr (PIo InvalidInput)
      else match with_capacity c alloc (from_le l4) with
           | POk _ => POk (firstn (Z.to_nat (from_le l4)) (skipn (Z.to_nat (zlen pre - from_le l4)) pre))
           | PErr e => PErr e
           | PPanic p => PPanic p
           end.
  Proof.
    intros H Hd H4 Hm Hb. assert (Hlen : zlen (data f) = zlen pre + 8) by (rewrite Hd, !zlen_app; unfold zlen at 2 3; lia).
    assert (Hrange : 0 <= from_le l4 < 2 ^ 32).
    { destruct (list4 l4 H4) as (x & y & z & w & ->). inversion Hb as [|? ? B1 Hb1]; subst. inversion Hb1 as [|? ? B2 Hb2]; subst.
      inversion Hb2 as [|? ? B3 Hb3]; subst. inversion Hb3 as [|? ? B4 Hb4]; subst. apply from_le_range; assumption. }
    assert (Hwrap : wrapu (usize_bits c) (from_le l4) = from_le l4).
    { unfold wrapu. apply Z.mod_small. destruct Hc as [[-> | ->] _]; lia. }
    unfold get_metadata_chunk, fbind at 1. pose proof (zlen_nonneg pre) as Hpre.
    destruct (seek_end_healthy (-8) f H) as (f1 & H1 & D1 & [(? & _)|(_ & -> & P1)]); [lia|]. cbn [snd].
    unfold fbind at 1. destruct (read_exact_healthy 8 f1 H1) as (f2 & H2 & D2 & [(_ & ->)|(? & _)]); [|rewrite D1 in *; lia].
    rewrite P1, D1, Hlen. replace (zlen pre + 8 + -8) with (zlen pre) by lia. rewrite Hd.
    assert (Hfoot : firstn (Z.to_nat 8) (skipn (Z.to_nat (zlen pre)) (pre ++ l4 ++ m4)) = l4 ++ m4).
    { replace (pre ++ l4 ++ m4) with (pre ++ (l4 ++ m4) ++ []) by (rewrite app_nil_r; reflexivity).
      apply firstn_skipn_app; [reflexivity|]. unfold zlen. rewrite app_length. lia. }
    rewrite Hfoot. replace (skipn 4 (l4 ++ m4)) with m4 by (rewrite <- H4, skipn_app, skipn_all, Nat.sub_diag; reflexivity).
    replace (firstn 4 (l4 ++ m4)) with l4 by (rewrite <- H4 at 1; rewrite firstn_app, firstn_all, Nat.sub_diag; cbn [firstn]; rewrite app_nil_r; reflexivity).
    destruct (negb (list_eqb m4 PARQUET_MAGIC)); [reflexivity|]. rewrite Hwrap. cbv zeta. set (n := from_le l4) in *.
    unfold fbind at 1. destruct (seek_end_healthy (- n - 8) f2 H2) as (f3 & H3 & D3 & [(Hlt & ->)|(Hge & -> & P3)]).
    { replace (zlen pre <? n) with true by (rewrite D2, D1 in Hlt; lia). reflexivity. }
    replace (zlen pre <? n) with false by (rewrite D2, D1 in Hge; lia).
    unfold fbind at 1, fret. unfold with_capacity. destruct ((n <? 2 ^ (usize_bits c - 1)) && alloc n); [|reflexivity].
    destruct (read_exact_healthy n f3 H3) as (f4 & H4' & D4 & [(Hle & ->)|(Hlt & _)]); [|rewrite P3, D3, D2, D1 in Hlt; lia].
    cbn [snd]. f_equal. rewrite P3, D3, D2, D1, Hlen, Hd. replace (zlen pre + 8 + (- n - 8)) with (zlen pre - n) by lia.
    rewrite D2, D1 in Hge.
    rewrite skipn_app. rewrite firstn_app.
    match goal with |- ?a ++ firstn ?k ?y = _ => replace k with 0%nat; [cbn [firstn]; apply app_nil_r|] end.
    rewrite skipn_length. unfold zlen in *. lia.
  Qed.

  Lemma bytes_app_inv (a b : list Z) : bytes (a ++ b) -> bytes a /\ bytes b.
  Proof. unfold bytes. intros H. apply Forall_app in H. exact H. Qed.

  Lemma metadata_ok_iff f m : healthy f -> bytes (data f) -> (forall n, alloc n = true) -> zlen (data f) < 2 ^ (usize_bits c - 1) ->
    snd (get_metadata_chunk c alloc f) = POk m <-> parquet_file (data f) m.
  Proof.
    intros H Hb Ha Hsz. destruct (footer_cases (data f)) as [Hs|pre l4 m4 Hd H4 Hm].
    - rewrite (metadata_short f H Hs). split; [discriminate|]. intros (_ & pre & He). rewrite He, !zlen_app in Hs.
      pose proof (zlen_nonneg pre). pose proof (zlen_nonneg m). change (zlen [80; 65; 82; 49]) with 4 in Hs. change (zlen (le4 (zlen m))) with 4 in Hs. lia.
    - rewrite Hd in Hb. apply bytes_app_inv in Hb as [_ Hb]. apply bytes_app_inv in Hb as [Hb _].
      rewrite (metadata_long f pre l4 m4 H Hd H4 Hm Hb).
      assert (Hl4 : 0 <= from_le l4 < 2 ^ 32 /\ le4 (from_le l4) = l4).
      { destruct (list4 l4 H4) as (x & y & z & w & ->). inversion Hb as [|? ? B1 Hb1]; subst. inversion Hb1 as [|? ? B2 Hb2]; subst.
        inversion Hb2 as [|? ? B3 Hb3]; subst. inversion Hb3 as [|? ? B4 Hb4]; subst. split; [apply from_le_range|apply le4_from]; assumption. }
      destruct Hl4 as [Hr Hle]. assert (Hlen : zlen (data f) = zlen pre + 8) by (rewrite Hd, !zlen_app; unfold zlen at 2 3; lia).
      destruct (list_eqb m4 PARQUET_MAGIC) eqn:Hmag; cbn [negb].
      + apply list_eqb_eq in Hmag. subst m4. destruct (zlen pre <? from_le l4) eqn:Hlt.
        * split; [discriminate|]. intros (Hmm & pre' & He). exfalso.
          rewrite Hd in He. replace (pre' ++ m ++ le4 (zlen m) ++ [80; 65; 82; 49]) with ((pre' ++ m) ++ le4 (zlen m) ++ PARQUET_MAGIC) in He by (rewrite <- app_assoc; reflexivity).
          rewrite !app_assoc in He. apply app_inv_tail in He.
          assert (l4 = le4 (zlen m) /\ pre = pre' ++ m) as [-> ->].
          { apply app_inj_tail_len in He; [tauto|]. rewrite H4. reflexivity. }
          rewrite from_le4 in Hlt by (pose proof (zlen_nonneg m); lia). rewrite zlen_app in Hlt. pose proof (zlen_nonneg pre'). lia.
        * unfold with_capacity. rewrite Ha. replace (from_le l4 <? 2 ^ (usize_bits c - 1)) with true by lia. cbn [andb].
          split.
          -- intros [= <-]. destruct (at_offset_sub pre (zlen pre - from_le l4) (from_le l4)) as [(p & q & Hp & Hpl) Hn]; [lia|lia|lia|].
             unfold parquet_file. rewrite Hn. split; [lia|]. exists p. rewrite Hd. assert (q = []) as ->.
             { assert (zlen q = 0); [|destruct q; [reflexivity|unfold zlen in *; cbn in *; lia]].
               apply (f_equal zlen) in Hp. rewrite !zlen_app, Hn in Hp. lia. }
             rewrite app_nil_r in Hp. rewrite Hp at 1. rewrite <- app_assoc, Hle. reflexivity.
          -- intros (Hmm & pre' & He). rewrite Hd in He. replace (pre' ++ m ++ le4 (zlen m) ++ [80; 65; 82; 49]) with ((pre' ++ m) ++ le4 (zlen m) ++ PARQUET_MAGIC) in He by (rewrite <- app_assoc; reflexivity).
             rewrite !app_assoc in He. apply app_inv_tail in He.
             assert (l4 = le4 (zlen m) /\ pre = pre' ++ m) as [-> ->].
             { apply app_inj_tail_len in He; [tauto|]. rewrite H4. reflexivity. }
             rewrite from_le4 by (pose proof (zlen_nonneg m); lia). f_equal.
             replace (pre' ++ m) with (pre' ++ m ++ []) at 2 by (rewrite app_nil_r; reflexivity).
             apply firstn_skipn_app; [rewrite zlen_app; lia|reflexivity].
      + split; [discriminate|]. intros (Hmm & pre' & He). exfalso.
        rewrite Hd in He. replace (pre' ++ m ++ le4 (zlen m) ++ [80; 65; 82; 49]) with ((pre' ++ m ++ le4 (zlen m)) ++ PARQUET_MAGIC) in He by (rewrite <- !app_assoc; reflexivity).
        rewrite app_assoc in He. apply app_inj_tail_len in He; [|rewrite Hm; reflexivity]. destruct He as [_ ->].
        discriminate.
  Qed.
End Meta.

Section Meta2.
  Variables (c : cfg) (alloc : Z -> bool).
  Hypothesis Hc : cfg_ok c.

  Lemma data_l4 f pre l4 m4 : bytes (data f) -> data f = pre ++ l4 ++ m4 -> bytes l4.
  Proof. intros Hb Hd. rewrite Hd in Hb. apply bytes_app_inv in Hb as [_ Hb]. apply bytes_app_inv in Hb as [Hb _]. exact Hb. Qed.

  Lemma metadata_magic_iff f : healthy f -> bytes (data f) ->
    snd (get_metadata_chunk c alloc f) = PErr PInvalidMagic <->
    exists pre m4, data f = pre ++ m4 /\ 4 <= zlen pre /\ zlen m4 = 4 /\ m4 <> [80; 65; 82; 49].
  Proof.
    intros H Hb. destruct (footer_cases (data f)) as [Hs|pre l4 m4 Hd H4 Hm].
    - rewrite (metadata_short c alloc f H Hs). split; [discriminate|]. intros (pre & m4 & He & Hp & Hl & _). rewrite He, zlen_app in Hs. lia.
    - rewrite (metadata_long c alloc Hc f pre l4 m4 H Hd H4 Hm (data_l4 _ _ _ _ Hb Hd)).
      destruct (list_eqb m4 PARQUET_MAGIC) eqn:Hmag; cbn [negb].
      + split.
        * destruct (zlen pre <? from_le l4); [discriminate|]. unfold with_capacity. destruct (_ && _); discriminate.
        * intros (pre' & m4' & He & _ & Hl & Hne). exfalso. rewrite Hd, app_assoc in He. apply app_inj_tail_len in He; [|unfold zlen in Hl; lia].
          destruct He as [_ He]. subst m4'. apply list_eqb_eq in Hmag. exact (Hne Hmag).
      + split; [|reflexivity]. intros _. exists (pre ++ l4), m4. rewrite <- app_assoc. split; [exact Hd|]. rewrite zlen_app. unfold zlen. rewrite H4, Hm.
        split; [lia|]. split; [reflexivity|]. intros He. change [80; 65; 82; 49] with PARQUET_MAGIC in He. apply list_eqb_eq in He. congruence.
  Qed.
  Lemma metadata_otherwise f : healthy f -> bytes (data f) -> (forall n, n <= zlen (data f) -> alloc n = true) -> zlen (data f) < 2 ^ (usize_bits c - 1) ->
    (exists m, snd (get_metadata_chunk c alloc f) = POk m) \/ snd (get_metadata_chunk c alloc f) = PErr PInvalidMagic \/
    snd (get_metadata_chunk c alloc f) = PErr (PIo InvalidInput).
  Proof.
    intros H Hb Ha Hsz. destruct (footer_cases (data f)) as [Hs|pre l4 m4 Hd H4 Hm].
    - rewrite (metadata_short c alloc f H Hs). auto.
    - rewrite (metadata_long c alloc Hc f pre l4 m4 H Hd H4 Hm (data_l4 _ _ _ _ Hb Hd)).
      destruct (negb _); [auto|]. destruct (zlen pre <? from_le l4) eqn:Hlt; [auto|].
      assert (Hlen : zlen (data f) = zlen pre + 8) by (rewrite Hd, !zlen_app; unfold zlen at 2 3; lia).
      unfold with_capacity. rewrite Ha by lia. replace (from_le l4 <? 2 ^ (usize_bits c - 1)) with true by lia. cbn [andb]. eauto.
  Qed.
End Meta2.

(** ** Faults *)
Definition tame {A} (m : F A) : Prop := forall f,
  (exists k, In (Some k) (faults f) /\ snd (m f) = PErr (PIo k)) \/
  (snd (m f) = snd (m (without_faults f)) /\ without_faults (fst (m f)) = fst (m (without_faults f)) /\
   incl (faults (fst (m f))) (faults f)).
Lemma tame_ret {A} (r : presult A) : tame (fret r).
Proof. intros f. right. repeat split. apply incl_refl. Qed.
Lemma tame_bind {A B} (m : F A) (k : A -> F B) : tame m -> (forall a, tame (k a)) -> tame (fbind m k).
Proof.
  intros Hm Hk f. unfold fbind. destruct (Hm f) as [(e & Hin & He)|(Hs & Hw & Hi)].
  - left. exists e. split; [exact Hin|]. destruct (m f) as [f1 r]. cbn [snd] in He. rewrite He. reflexivity.
  - destruct (m f) as [f1 r], (m (without_faults f)) as [g1 r']. cbn [fst snd] in *. subst r' g1.
    destruct r as [a|e|p]; [|right; repeat split; auto|right; repeat split; auto].
    destruct (Hk a f1) as [(e & Hin & He)|(Hs' & Hw' & Hi')].
    + left. exists e. split; [apply Hi; exact Hin|exact He].
    + right. repeat split; auto. eapply incl_tran; eassumption.
Qed.
Lemma tame_faulty {A} (m : F A) :
  (forall f, snd (m f) = snd (m (without_faults f)) /\ without_faults (fst (m f)) = fst (m (without_faults f)) /\ faults (fst (m f)) = faults f) ->
  tame (faulty m).
Proof.
  intros Hm f. unfold faulty. cbn [faults without_faults]. destruct (faults f) as [|[k|] l] eqn:Hf; cbn [tl].
  - right. destruct (Hm {| data := data f; pos := pos f; faults := [] |}) as (H1 & H2 & H3). cbn [without_faults data pos] in *.
    repeat split; auto. rewrite H3. apply incl_refl.
  - left. exists k. split; [left; reflexivity|reflexivity].
  - right. destruct (Hm {| data := data f; pos := pos f; faults := l |}) as (H1 & H2 & H3). cbn [without_faults data pos faults] in *.
    repeat split; auto. rewrite H3. apply incl_tl, incl_refl.
Qed.
Lemma tame_seek_end off : tame (seek_end off).
Proof. apply tame_faulty. intros f. cbv zeta. cbn [without_faults data pos]. destruct (_ <? 0); repeat split. Qed.
Lemma tame_seek_start p : tame (seek_start p).
Proof. apply tame_faulty. intros f. repeat split. Qed.
Lemma tame_read_exact n : tame (read_exact n).
Proof. apply tame_faulty. intros f. cbn [without_faults data pos]. destruct (_ <=? _); repeat split. Qed.
Lemma tame_metadata c alloc : tame (get_metadata_chunk c alloc).
Proof.
  apply tame_bind; [apply tame_seek_end|intros _]. apply tame_bind; [apply tame_read_exact|intros footer].
  destruct (negb _); [apply tame_ret|]. cbv zeta. apply tame_bind; [apply tame_seek_end|intros _].
  apply tame_bind; [apply tame_ret|intros _]. apply tame_read_exact.
Qed.
Lemma tame_page_index_chunk c alloc md : tame (get_page_index_chunk c alloc md).
Proof.
  apply tame_bind; [apply tame_ret|intros [[a b]|]]; [|apply tame_ret].
  apply tame_bind; [apply tame_seek_start|intros _]. apply tame_bind; [apply tame_ret|intros _].
  apply tame_bind; [apply tame_read_exact|intros buf]. apply tame_ret.
Qed.
Lemma metadata_faults c alloc f :
  snd (get_metadata_chunk c alloc f) = snd (get_metadata_chunk c alloc (without_faults f)) \/
  exists k, In (Some k) (faults f) /\ snd (get_metadata_chunk c alloc f) = PErr (PIo k).
Proof. destruct (tame_metadata c alloc f) as [?|(? & _)]; auto. Qed.
Lemma page_index_chunk_faults c alloc md f :
  snd (get_page_index_chunk c alloc md f) = snd (get_page_index_chunk c alloc md (without_faults f)) \/
  exists k, In (Some k) (faults f) /\ snd (get_page_index_chunk c alloc md f) = PErr (PIo k).
Proof. destruct (tame_page_index_chunk c alloc md f) as [?|(? & _)]; auto. Qed.

(** * C40 *)
Lemma range_columns_app c l1 l2 acc : range_columns c acc (l1 ++ l2) = pbind (range_columns c acc l1) (fun a => range_columns c a l2).
Proof. revert acc. induction l1 as [|x l1 IH]; intros acc; [reflexivity|]. cbn [app range_columns]. destruct (range_step c acc x); cbn [pbind]; auto. Qed.
Lemma range_groups_concat c md acc : range_groups c acc md = range_columns c acc (List.concat md).
Proof.
  revert acc. induction md as [|x md IH]; intros acc; [reflexivity|]. cbn [range_groups List.concat]. rewrite range_columns_app.
  destruct (range_columns c acc x); cbn [pbind]; auto.
Qed.
Definition cextent (col : column) (a b : Z) : Prop :=
  exists oo ol co cl, indexes col = Some ((oo, ol), (co, cl)) /\ ((a = oo /\ b = oo + ol) \/ (a = co /\ b = co + cl)).
Definition cnegative (col : column) : Prop :=
  exists oo ol co cl, indexes col = Some ((oo, ol), (co, cl)) /\ (oo < 0 \/ ol < 0 \/ co < 0 \/ cl < 0).
Lemma in_concat_iff (md : metadata) col : In col (List.concat md) <-> exists cols, In (cols : list column) md /\ In col cols.
Proof. rewrite in_concat. reflexivity. Qed.
Lemma extent_concat md a b : extent md a b <-> exists col, In col (List.concat md) /\ cextent col a b.
Proof.
  unfold extent, has_indexes, cextent. split.
  - intros (oo & ol & co & cl & (cols & col & H1 & H2 & H3) & H). exists col. split; [apply in_concat_iff; eauto|]. exists oo, ol, co, cl. auto.
  - intros (col & Hin & oo & ol & co & cl & H1 & H2). apply in_concat_iff in Hin as (cols & Hi & Hj).
    exists oo, ol, co, cl. split; [exists cols, col; auto|exact H2].
Qed.
Lemma negative_concat md : negative md <-> exists col, In col (List.concat md) /\ cnegative col.
Proof.
  unfold negative, has_indexes, cnegative. split.
  - intros (oo & ol & co & cl & (cols & col & H1 & H2 & H3) & H). exists col. split; [apply in_concat_iff; eauto|]. exists oo, ol, co, cl. auto.
  - intros (col & Hin & oo & ol & co & cl & H1 & H2). apply in_concat_iff in Hin as (cols & Hi & Hj).
    exists oo, ol, co, cl. split; [exists cols, col; auto|exact H2].
Qed.
Lemma usize_id c z : 0 <= z < 2 ^ usize_bits c -> usize c z = z.
Proof. intros H. unfold usize, wrapu. apply Z.mod_small. exact H. Qed.

Lemma step_shape c acc col : range_step c acc col =
  match indexes col with
  | Some ((oo, ol), (co, cl)) =>
      if (oo <? 0) || (ol <? 0) || (co <? 0) || (cl <? 0) then PErr PInvalidOffset
      else pbind (uadd c (usize c oo) (usize c ol)) (fun oe => pbind (uadd c (usize c co) (usize c cl)) (fun ce =>
           POk (Z.min (Z.min (fst acc) (usize c oo)) (usize c co), Z.max (Z.max (snd acc) oe) ce)))
  | None => POk acc
  end.
Proof.
  unfold range_step, indexes. destruct acc as [mn mx].
  destruct (offset_index_offset col), (offset_index_length col), (column_index_offset col), (column_index_length col); reflexivity.
Qed.

Section Range.
  Variable c : cfg.
  Hypothesis H64 : usize_bits c = 64.

  Lemma step_ok mn mx col : column_ok col ->
    (cnegative col /\ range_step c (mn, mx) col = PErr PInvalidOffset) \/
    (~ cnegative col /\ exists mn' mx', range_step c (mn, mx) col = POk (mn', mx') /\ mn' <= mn /\ mx <= mx' /\
       (forall a b, cextent col a b -> mn' <= a /\ b <= mx' /\ 0 <= a <= b /\ a < 2 ^ 63 /\ b - a < 2 ^ 31) /\
       (mn' = mn \/ exists b, cextent col mn' b) /\ (mx' = mx \/ exists a, cextent col a mx')).
  Proof.
    intros Hok. rewrite step_shape. unfold cnegative, cextent. destruct (indexes col) as [[[oo ol] [co cl]]|] eqn:Hi.
    2:{ right. split; [intros (? & ? & ? & ? & [=] & _)|]. exists mn, mx. split; [reflexivity|]. repeat split; try lia; auto.
        all: destruct H as (? & ? & ? & ? & [=] & _). }
    destruct (_ || _) eqn:Hneg.
    - left. split; [|reflexivity]. exists oo, ol, co, cl. split; [reflexivity|lia].
    - right. split; [intros (? & ? & ? & ? & [= <- <- <- <-] & ?); lia|].
      unfold indexes in Hi. destruct Hok as (K1 & K2 & K3 & K4).
      destruct (offset_index_offset col); [|discriminate]. destruct (offset_index_length col); [|discriminate].
      destruct (column_index_offset col); [|discriminate]. destruct (column_index_length col); [|discriminate].
      injection Hi as -> -> -> ->. cbn [opt_in] in *. unfold in_s in *. change (2 ^ (64 - 1)) with 9223372036854775808 in *. change (2 ^ (32 - 1)) with 2147483648 in *.
      rewrite !usize_id by (rewrite H64; change (2 ^ 64) with 18446744073709551616; lia).
      unfold uadd. rewrite H64. change (2 ^ 64) with 18446744073709551616.
      replace (oo + ol <? 18446744073709551616) with true by lia. replace (co + cl <? 18446744073709551616) with true by lia. cbn [pbind].
      cbn [fst snd].
      eexists _, _. split; [reflexivity|]. split; [lia|]. split; [lia|]. split.
      { intros a b (? & ? & ? & ? & [= <- <- <- <-] & [[-> ->]|[-> ->]]); change (2 ^ 63) with 9223372036854775808; change (2 ^ 31) with 2147483648; lia. }
      split.
      + destruct (Z.min_spec (Z.min mn oo) co) as [[? ->]|[? ->]].
        * destruct (Z.min_spec mn oo) as [[? ->]|[? ->]]; [left; reflexivity|]. right. exists (oo + ol), oo, ol, co, cl. auto.
        * right. exists (co + cl), oo, ol, co, cl. auto.
      + destruct (Z.max_spec (Z.max mx (oo + ol)) (co + cl)) as [[? ->]|[? ->]].
        * right. exists co, oo, ol, co, cl. auto.
        * destruct (Z.max_spec mx (oo + ol)) as [[? ->]|[? ->]]; [|left; reflexivity]. right. exists oo, oo, ol, co, cl. auto.
  Qed.

  Definition cov (cols : list column) (mn mx mn' mx' : Z) : Prop :=
    mn' <= mn /\ mx <= mx' /\
    (forall col a b, In col cols -> cextent col a b -> mn' <= a /\ b <= mx' /\ 0 <= a <= b /\ a < 2 ^ 63 /\ b - a < 2 ^ 31) /\
    (mn' = mn \/ exists col b, In col cols /\ cextent col mn' b) /\ (mx' = mx \/ exists col a, In col cols /\ cextent col a mx').
  Lemma columns_ok cols : forall mn mx, Forall column_ok cols ->
    ((exists col, In col cols /\ cnegative col) /\ range_columns c (mn, mx) cols = PErr PInvalidOffset) \/
    (~ (exists col, In col cols /\ cnegative col) /\ exists mn' mx', range_columns c (mn, mx) cols = POk (mn', mx') /\ cov cols mn mx mn' mx').
  Proof.
    induction cols as [|col cols IH]; intros mn mx Hok.
    - right. split; [intros (? & [] & _)|]. exists mn, mx. split; [reflexivity|]. repeat split; try lia; auto; contradiction.
    - inversion Hok as [|? ? Hc Hcs]; subst. cbn [range_columns].
      destruct (step_ok mn mx col Hc) as [[Hn ->]|[Hn (m1 & x1 & -> & L1 & L2 & L3 & L4 & L5)]]; cbn [pbind].
      { left. split; [exists col; split; [left; reflexivity|exact Hn]|reflexivity]. }
      destruct (IH m1 x1 Hcs) as [[(k & Hk & Hkn) ->]|[Hns (m2 & x2 & -> & M1 & M2 & M3 & M4 & M5)]].
      { left. split; [exists k; split; [right; exact Hk|exact Hkn]|reflexivity]. }
      right. split.
      { intros (k & [<-|Hk] & Hkn); [exact (Hn Hkn)|]. apply Hns. exists k. auto. }
      exists m2, x2. split; [reflexivity|]. unfold cov. split; [lia|]. split; [lia|]. split.
      { intros k a b [<-|Hk] Hx; [apply L3 in Hx; lia|apply (M3 k a b Hk Hx)]. }
      split.
      + destruct M4 as [->|(k & b & Hk & Hx)]; [|right; exists k, b; split; [right; exact Hk|exact Hx]].
        destruct L4 as [->|(b & Hx)]; [left; reflexivity|right; exists col, b; split; [left; reflexivity|exact Hx]].
      + destruct M5 as [->|(k & a & Hk & Hx)]; [|right; exists k, a; split; [right; exact Hk|exact Hx]].
        destruct L5 as [->|(a & Hx)]; [left; reflexivity|right; exists col, a; split; [left; reflexivity|exact Hx]].
  Qed.

  Lemma metadata_concat md : metadata_ok md -> Forall column_ok (List.concat md).
  Proof. intros H. apply Forall_concat. exact H. Qed.

  Lemma range_total md : metadata_ok md ->
    (negative md /\ get_page_index_range c md = PErr PInvalidOffset) \/
    (~ negative md /\ exists mn mx, get_page_index_range c md = POk (if mn <? mx then Some (mn, mx) else None) /\
      (forall a b, extent md a b -> mn <= a /\ b <= mx /\ 0 <= a <= b /\ a < 2 ^ 63 /\ b - a < 2 ^ 31) /\
      ((mn = 2 ^ 64 - 1 /\ mx = 0 /\ forall a b, ~ extent md a b) \/ (exists b, extent md mn b) /\ (exists a, extent md a mx))).
  Proof.
    intros Hok. unfold get_page_index_range. rewrite range_groups_concat, H64.
    destruct (columns_ok (List.concat md) (2 ^ 64 - 1) 0 (metadata_concat md Hok)) as [[Hn ->]|[Hn (mn & mx & -> & M1 & M2 & M3 & M4 & M5)]].
    - left. split; [apply negative_concat; exact Hn|reflexivity].
    - right. split; [intros Hx; apply negative_concat in Hx; exact (Hn Hx)|]. exists mn, mx. cbn [pbind]. split; [reflexivity|]. split.
      { intros a b Hx. apply extent_concat in Hx as (col & Hin & Hx). eapply M3; eassumption. }
      assert (Hmx : (exists a, extent md a mx) -> mn < 2 ^ 63).
      { intros (a & Hx). apply extent_concat in Hx as (col & Hin & Hx). apply (M3 col) in Hx; [lia|exact Hin]. }
      assert (Hmn : (exists b, extent md mn b) -> 0 <= mn < 2 ^ 63 /\ mn <= mx).
      { intros (b & Hx). apply extent_concat in Hx as (col & Hin & Hx). apply (M3 col) in Hx; [lia|exact Hin]. }
      change (2 ^ 63) with 9223372036854775808 in *. change (2 ^ 64) with 18446744073709551616 in *.
      assert (Hcase : (exists b, extent md mn b) \/ ~ (exists a b, extent md a b)).
      { destruct M4 as [->|(k & b & Hk & Hx)]; [|left; exists b; apply extent_concat; eauto].
        right. intros (a & b & Hx). apply extent_concat in Hx as (k & Hk & Hx). apply (M3 k) in Hx; [|exact Hk].
        change (2 ^ 63) with 9223372036854775808 in *. lia. }
      destruct Hcase as [He|He].
      + right. split; [exact He|]. destruct M5 as [->|(k & a & Hk & Hx)]; [|exists a; apply extent_concat; eauto].
        destruct He as (b & Hx). exists mn. pose proof Hx as Hy. apply extent_concat in Hx as (k & Hk & Hx). apply (M3 k) in Hx; [|exact Hk].
        replace b with 0 in Hy by lia. exact Hy.
      + left. split; [|split; [|intros a b Hx; apply He; eauto]].
        * destruct M4 as [->|(k & b & Hk & Hx)]; [reflexivity|]. exfalso. apply He. exists mn, b. apply extent_concat. eauto.
        * destruct M5 as [->|(k & a & Hk & Hx)]; [reflexivity|]. exfalso. apply He. exists a, mx. apply extent_concat. eauto.
  Qed.

  Lemma range_some md a b : metadata_ok md ->
    get_page_index_range c md = POk (Some (a, b)) <->
    ~ negative md /\ a < b /\ (exists e, extent md a e) /\ (exists s, extent md s b) /\ (forall s e, extent md s e -> a <= s /\ e <= b).
  Proof.
    intros Hok. destruct (range_total md Hok) as [[Hn ->]|[Hn (mn & mx & -> & Hcov & Hex)]].
    { split; [discriminate|]. intros (H & _). contradiction. }
    split.
    - intros H. destruct (mn <? mx) eqn:Hlt; [|discriminate]. injection H as <- <-.
      destruct Hex as [(-> & -> & _)|(H1 & H2)]; [change (2 ^ 64) with 18446744073709551616 in Hlt; lia|].
      repeat split; auto; try lia; intros; edestruct Hcov as (? & ? & ?); try eassumption; lia.
    - intros (_ & Hab & (e & He) & (s & Hs) & Hc). destruct Hex as [(_ & _ & Hx)|((e' & He') & (s' & Hs'))]; [exfalso; exact (Hx _ _ He)|].
      assert (mn = a) by (apply Hcov in He; apply Hc in He'; lia). assert (mx = b) by (apply Hcov in Hs; apply Hc in Hs'; lia). subst.
      replace (a <? b) with true by lia. reflexivity.
  Qed.
  Lemma range_none md : metadata_ok md ->
    get_page_index_range c md = POk None <-> ~ negative md /\ exists p, forall s e, extent md s e -> s = p /\ e = p.
  Proof.
    intros Hok. destruct (range_total md Hok) as [[Hn ->]|[Hn (mn & mx & -> & Hcov & Hex)]].
    { split; [discriminate|]. intros (H & _). contradiction. }
    split.
    - intros H. destruct (mn <? mx) eqn:Hlt; [discriminate|]. split; [exact Hn|]. exists mn. intros s e He. apply Hcov in He. lia.
    - intros (_ & p & Hp). destruct Hex as [(-> & -> & _)|((e & He) & (s & Hs))]; [reflexivity|].
      apply Hp in He, Hs. replace (mn <? mx) with false by lia. reflexivity.
  Qed.
  Lemma range_err md e : metadata_ok md -> get_page_index_range c md = PErr e <-> e = PInvalidOffset /\ negative md.
  Proof.
    intros Hok. destruct (range_total md Hok) as [[Hn ->]|[Hn (mn & mx & -> & _)]].
    - split; [intros [= <-]; auto|]. intros [-> _]. reflexivity.
    - split; [discriminate|]. intros [_ H]. contradiction.
  Qed.
  Lemma range_no_panic md p : metadata_ok md -> get_page_index_range c md <> PPanic p.
  Proof. intros Hok. destruct (range_total md Hok) as [[Hn ->]|[Hn (mn & mx & -> & _)]]; discriminate. Qed.
End Range.

(** * C41, C42 *)
Section Index.
  Variables (c : cfg) (alloc : Z -> bool).
  Hypothesis H64 : usize_bits c = 64.

  Lemma seek_start_ok p f f' : seek_start p f = (f', POk tt) -> pos f' = p /\ data f' = data f.
  Proof.
    unfold seek_start, faulty. intros H. destruct (faults f) as [|[k|] l]; [|discriminate|]; injection H as <-; split; reflexivity.
  Qed.
  Lemma read_exact_ok n f f' bs : read_exact n f = (f', POk bs) ->
    pos f + n <= zlen (data f) /\ bs = firstn (Z.to_nat n) (skipn (Z.to_nat (pos f)) (data f)).
  Proof.
    unfold read_exact, faulty. intros H. destruct (faults f) as [|[k|] l]; [|discriminate|]; cbn [pos data] in H.
    all: destruct (pos f + n <=? zlen (data f)) eqn:Hle; [|discriminate]; injection H as _ <-; split; [lia|reflexivity].
  Qed.
  Lemma chunk_some f f' md chunk a b : get_page_index_chunk c alloc md f = (f', POk (Some (chunk, (a, b)))) ->
    get_page_index_range c md = POk (Some (a, b)) /\
    a + (b - a) <= zlen (data f) /\ chunk = firstn (Z.to_nat (b - a)) (skipn (Z.to_nat a) (data f)).
  Proof.
    unfold get_page_index_chunk. unfold fbind at 1. unfold fret at 1. destruct (get_page_index_range c md) as [[[a' b']|]| |]; try discriminate.
    unfold fbind at 1. destruct (seek_start a' f) as [f1 [[]| |]] eqn:E1; try discriminate. apply seek_start_ok in E1 as [P1 D1].
    unfold fbind at 1. unfold fret at 1. destruct (with_capacity c alloc (b' - a')); try discriminate.
    unfold fbind at 1. destruct (read_exact (b' - a') f1) as [f2 [buf| |]] eqn:E2; try discriminate. apply read_exact_ok in E2 as [L2 ->].
    unfold fret. intros [= _ <- <- <-]. rewrite P1, D1 in *. auto.
  Qed.
  Lemma chunk_at f f' md chunk a b : metadata_ok md -> get_page_index_chunk c alloc md f = (f', POk (Some (chunk, (a, b)))) ->
    get_page_index_range c md = POk (Some (a, b)) /\ 0 <= a /\ a < b /\ at_offset (data f) a chunk /\ zlen chunk = b - a.
  Proof.
    intros Hok H. apply chunk_some in H as (Hr & Hl & ->). split; [exact Hr|].
    pose proof Hr as Hr'. apply (range_some c H64 md a b Hok) in Hr' as (Hn & Hab & (e & He) & _ & _).
    assert (0 <= a).
    { destruct (range_total c H64 md Hok) as [[Hn' _]|[_ (mn & mx & _ & Hcov & _)]]; [contradiction|]. apply Hcov in He. lia. }
    repeat split; [lia|lia| |]; apply at_offset_sub; lia.
  Qed.
  (** a healthy file *)
  Lemma chunk_healthy md f a b : healthy f -> metadata_ok md -> get_page_index_range c md = POk (Some (a, b)) ->
    (b - a < 2 ^ 63 /\ alloc (b - a) = true) ->
    snd (get_page_index_chunk c alloc md f) =
      if b <=? zlen (data f) then POk (Some (firstn (Z.to_nat (b - a)) (skipn (Z.to_nat a) (data f)), (a, b))) else PErr (PIo UnexpectedEof).
  Proof.
    intros Hh Hok Hr [Hcap Hal]. unfold get_page_index_chunk. unfold fbind at 1. unfold fret at 1. rewrite Hr.
    unfold fbind at 1. destruct (seek_start_healthy a f Hh) as (f1 & H1 & D1 & -> & P1).
    unfold fbind at 1. unfold fret at 1. unfold with_capacity. rewrite H64, Hal. change (64 - 1) with 63. replace (b - a <? 2 ^ 63) with true by lia. cbn [andb].
    unfold fbind at 1. destruct (read_exact_healthy (b - a) f1 H1) as (f2 & H2 & D2 & [(Hle & ->)|(Hlt & ->)]); rewrite P1, D1 in *.
    - replace (b <=? zlen (data f)) with true by lia. reflexivity.
    - replace (b <=? zlen (data f)) with false by lia. reflexivity.
  Qed.

  (** the part of the chunk for one index *)
  Lemma index_range_ok a off len chunk : 0 <= a -> a <= off -> off < 2 ^ 63 -> 0 < len < 2 ^ 31 -> off + len <= a + zlen chunk ->
    index_range c a off len = POk (off - a, off - a + len) /\
    slice_range chunk (off - a, off - a + len) = POk (firstn (Z.to_nat len) (skipn (Z.to_nat (off - a)) chunk)).
  Proof.
    intros Ha Hao Ho Hl Hch. change (2 ^ 63) with 9223372036854775808 in *. change (2 ^ 31) with 2147483648 in *.
    unfold index_range. rewrite !usize_id by (rewrite H64; change (2 ^ 64) with 18446744073709551616; lia).
    replace (off <? a) with false by lia. replace (len <=? 0) with false by lia. unfold uadd. rewrite H64. change (2 ^ 64) with 18446744073709551616.
    replace (off - a + len <? 18446744073709551616) with true by lia. cbn [pbind]. split; [reflexivity|].
    unfold slice_range. replace (off - a <=? off - a + len) with true by lia. replace (off - a + len <=? zlen chunk) with true by lia. cbn [andb].
    replace (off - a + len - (off - a)) with len by lia. reflexivity.
  Qed.
  Lemma index_range_inv a off len r : 0 <= a -> 0 <= off < 2 ^ 63 -> len < 2 ^ 31 -> index_range c a off len = POk r -> a <= off /\ 0 < len.
  Proof.
    intros Ha Ho Hl. change (2 ^ 63) with 9223372036854775808 in *. change (2 ^ 31) with 2147483648 in *. unfold index_range.
    rewrite (usize_id c off) by (rewrite H64; change (2 ^ 64) with 18446744073709551616; lia).
    destruct (off <? a) eqn:H1; [discriminate|]. destruct (len <=? 0) eqn:H2; [discriminate|]. lia.
  Qed.

  Variables (d : nat) (f f' : file) (md : metadata) (chunk : list Z) (a b : Z).
  Hypothesis Hok : metadata_ok md.
  Hypothesis Hchunk : get_page_index_chunk c alloc md f = (f', POk (Some (chunk, (a, b)))).

  Lemma col_facts cols col oo ol co cl : In cols md -> In col cols -> indexes col = Some ((oo, ol), (co, cl)) ->
    0 <= a /\ a <= oo /\ oo < 2 ^ 63 /\ 0 <= ol < 2 ^ 31 /\ oo + ol <= a + zlen chunk /\
    a <= co /\ co < 2 ^ 63 /\ 0 <= cl < 2 ^ 31 /\ co + cl <= a + zlen chunk.
  Proof.
    intros H1 H2 H3. destruct (chunk_at _ _ _ _ _ _ Hok Hchunk) as (Hr & Ha & Hab & _ & Hlen).
    pose proof Hr as Hr'. apply (range_some c H64 md a b Hok) in Hr' as (Hn & _ & _ & _ & Hcov).
    assert (Hh : has_indexes md oo ol co cl) by (exists cols, col; auto).
    assert (He1 : extent md oo (oo + ol)) by (exists oo, ol, co, cl; auto).
    assert (He2 : extent md co (co + cl)) by (exists oo, ol, co, cl; auto).
    destruct (range_total c H64 md Hok) as [[Hn' _]|[_ (mn & mx & _ & Hc & _)]]; [contradiction|].
    pose proof (Hc _ _ He1). pose proof (Hc _ _ He2). apply Hcov in He1, He2. lia.
  Qed.
  Lemma at_sub off len : 0 <= a -> a <= off -> 0 <= len -> off + len <= a + zlen chunk ->
    at_offset (data f) off (firstn (Z.to_nat len) (skipn (Z.to_nat (off - a)) chunk)) /\
    zlen (firstn (Z.to_nat len) (skipn (Z.to_nat (off - a)) chunk)) = len.
  Proof.
    intros Ha Hao Hl Hle. destruct (chunk_at _ _ _ _ _ _ Hok Hchunk) as (_ & _ & _ & Hat & Hlen).
    destruct (at_offset_sub chunk (off - a) len) as [H1 H2]; [lia|lia|lia|]. split; [|exact H2].
    replace off with (a + (off - a)) at 1 by lia. eapply at_offset_app; eassumption.
  Qed.

  Lemma column_forward cols col r : In cols md -> In col cols -> read_page_index_column c d chunk a col = POk r ->
    column_result (read_index c d) (data f) col r.
  Proof.
    intros H1 H2 H. unfold column_result. destruct (indexes col) as [[[oo ol] [co cl]]|] eqn:Hi.
    - destruct (col_facts _ _ _ _ _ _ H1 H2 Hi) as (F1 & F2 & F3 & F4 & F5 & F6 & F7 & F8 & F9).
      unfold indexes in Hi. unfold read_page_index_column in H.
      destruct (offset_index_offset col) as [x|]; [|discriminate]. destruct (offset_index_length col) as [y|]; [|discriminate].
      destruct (column_index_offset col) as [z|]; [|discriminate]. destruct (column_index_length col) as [w|]; [|discriminate].
      injection Hi as -> -> -> ->.
      destruct (index_range c a oo ol) as [r1| |] eqn:E1; try discriminate. pose proof E1 as E1'. apply index_range_inv in E1'; [|lia|lia|lia].
      destruct (index_range_ok a oo ol chunk) as [E1o E1s]; [lia|lia|lia|lia|lia|]. rewrite E1o in E1. injection E1 as <-. cbn [pbind] in H.
      destruct (index_range c a co cl) as [r2| |] eqn:E2; try discriminate. pose proof E2 as E2'. apply index_range_inv in E2'; [|lia|lia|lia].
      destruct (index_range_ok a co cl chunk) as [E2o E2s]; [lia|lia|lia|lia|lia|]. rewrite E2o in E2. injection E2 as <-. cbn [pbind] in H.
      rewrite E1s in H. cbn [pbind] in H. match type of H with pbind ?m _ = _ => destruct m as [oi| |] eqn:E3; try discriminate end. cbn [pbind] in H.
      rewrite E2s in H. cbn [pbind] in H. match type of H with pbind ?m _ = _ => destruct m as [ci| |] eqn:E4; try discriminate end. cbn [pbind] in H.
      injection H as <-. destruct (at_sub oo ol) as [A1 A2]; [lia|lia|lia|lia|]. destruct (at_sub co cl) as [B1 B2]; [lia|lia|lia|lia|].
      eexists _, _, oi, ci. split; [reflexivity|]. repeat split; eauto.
    - unfold indexes in Hi. unfold read_page_index_column in H.
      destruct (offset_index_offset col) as [x|]; [|congruence]. destruct (offset_index_length col) as [y|]; [|congruence].
      destruct (index_range c a x y); try discriminate. cbn [pbind] in H.
      destruct (column_index_offset col) as [z|]; [|congruence]. destruct (column_index_length col) as [w|]; congruence.
  Qed.
  Lemma pcollect_forall2 {A B} (g : A -> presult B) (R : A -> B -> Prop) l : forall rs,
    (forall x y, In x l -> g x = POk y -> R x y) -> pcollect g l = POk rs -> Forall2 R l rs.
  Proof.
    induction l as [|x l IH]; intros rs HR H; cbn [pcollect] in H; [injection H as <-; constructor|].
    destruct (g x) as [y| |] eqn:E; try discriminate. cbn [pbind] in H. destruct (pcollect g l) as [ys| |] eqn:E2; try discriminate.
    injection H as <-. constructor; [apply HR; [left; reflexivity|exact E]|]. apply IH; [|reflexivity]. intros u v Hu. apply HR. right. exact Hu.
  Qed.
  Lemma pcollect_backward {A B} (g : A -> presult B) (R : A -> B -> Prop) l : forall rs,
    (forall x y, In x l -> R x y -> g x = POk y) -> Forall2 R l rs -> pcollect g l = POk rs.
  Proof.
    induction l as [|x l IH]; intros rs HR H; inversion H as [|? y ? ys Hxy Hl]; subst; [reflexivity|]. cbn [pcollect].
    rewrite (HR x y); [|left; reflexivity|exact Hxy]. cbn [pbind]. rewrite (IH ys); [reflexivity| |exact Hl]. intros u v Hu. apply HR. right. exact Hu.
  Qed.
  Lemma pcollect_panic {A B} (g : A -> presult B) l p : pcollect g l = PPanic p -> exists x, In x l /\ g x = PPanic p.
  Proof.
    induction l as [|x l IH]; intros H; cbn [pcollect] in H; [discriminate|].
    destruct (g x) as [y|e|q] eqn:E; cbn [pbind] in H; [|discriminate|injection H as ->; exists x; split; [left; reflexivity|exact E]].
    destruct (pcollect g l); cbn [pbind] in H; try discriminate. destruct (IH H) as (u & Hu & Hg). exists u. split; [right; exact Hu|exact Hg].
  Qed.

  Lemma index_forward rs : read_page_index c d chunk a md = POk rs -> Forall2 (Forall2 (column_result (read_index c d) (data f))) md rs.
  Proof.
    intros H. eapply pcollect_forall2; [|exact H]. intros cols ys Hin Hc. eapply pcollect_forall2; [|exact Hc].
    intros col r Hin2. eapply column_forward; eassumption.
  Qed.

  Hypothesis Hreg : regular md.
  Lemma partial_range cols col oo ol : In cols md -> In col cols -> offset_index_offset col = Some oo -> offset_index_length col = Some ol ->
    exists r, index_range c a oo ol = POk r.
  Proof.
    intros H1 H2 Q1 Q2. destruct (Hreg cols col oo ol H1 H2 Q1 Q2) as (L1 & (s & e & Hse & Hs) & _).
    destruct (chunk_at _ _ _ _ _ _ Hok Hchunk) as (Hr & Ha & _ & _ & _).
    apply (range_some c H64 md a b Hok) in Hr as (_ & _ & _ & _ & Hcov). apply Hcov in Hse.
    unfold metadata_ok in Hok. rewrite Forall_forall in Hok. specialize (Hok _ H1). rewrite Forall_forall in Hok. specialize (Hok _ H2).
    destruct Hok as (K1 & K2 & _ & _). rewrite Q1 in K1. rewrite Q2 in K2. cbn [opt_in] in *. unfold in_s in *.
    change (2 ^ (64 - 1)) with 9223372036854775808 in *. change (2 ^ (32 - 1)) with 2147483648 in *.
    unfold index_range. rewrite !usize_id by (rewrite H64; change (2 ^ 64) with 18446744073709551616; lia).
    replace (oo <? a) with false by lia. replace (ol <=? 0) with false by lia. unfold uadd. rewrite H64. change (2 ^ 64) with 18446744073709551616.
    replace (oo - a + ol <? 18446744073709551616) with true by lia. cbn [pbind]. eauto.
  Qed.
  Lemma column_backward cols col r : In cols md -> In col cols -> column_result (read_index c d) (data f) col r ->
    read_page_index_column c d chunk a col = POk r.
  Proof.
    intros H1 H2 H. unfold column_result in H. destruct (indexes col) as [[[oo ol] [co cl]]|] eqn:Hi.
    - destruct (col_facts _ _ _ _ _ _ H1 H2 Hi) as (F1 & F2 & F3 & F4 & F5 & F6 & F7 & F8 & F9).
      assert (Hpos : 0 < ol /\ 0 < cl).
      { unfold indexes in Hi. destruct (offset_index_offset col) as [x|] eqn:Q1; [|discriminate]. destruct (offset_index_length col) as [y|] eqn:Q2; [|discriminate].
        destruct (Hreg cols col x y H1 H2 Q1 Q2) as (L1 & _ & L2).
        destruct (column_index_offset col) as [z|]; [|discriminate]. destruct (column_index_length col) as [w|]; [|discriminate].
             injection Hi as <- <- <- <-. split; [exact L1|]. apply (L2 z w); reflexivity. }
      destruct H as (ob & cb & oi & ci & -> & A1 & A2 & A3 & B1 & B2 & B3).
      destruct (index_range_ok a oo ol chunk) as [E1o E1s]; [lia|lia|lia|lia|lia|].
      destruct (index_range_ok a co cl chunk) as [E2o E2s]; [lia|lia|lia|lia|lia|].
      destruct (at_sub oo ol) as [S1 S2]; [lia|lia|lia|lia|]. destruct (at_sub co cl) as [T1 T2]; [lia|lia|lia|lia|].
      rewrite <- (at_offset_unique _ _ _ _ A1 S1) in E1s by congruence. rewrite <- (at_offset_unique _ _ _ _ B1 T1) in E2s by congruence.
      unfold indexes in Hi. unfold read_page_index_column.
      destruct (offset_index_offset col) as [x|]; [|discriminate]. destruct (offset_index_length col) as [y|]; [|discriminate].
      destruct (column_index_offset col) as [z|]; [|discriminate]. destruct (column_index_length col) as [w|]; [|discriminate].
      injection Hi as -> -> -> ->. rewrite E1o. cbn [pbind]. rewrite E2o. cbn [pbind]. rewrite E1s. cbn [pbind]. rewrite A3. cbn [pbind].
      rewrite E2s. cbn [pbind]. rewrite B3. reflexivity.
    - subst r. unfold read_page_index_column.
      destruct (offset_index_offset col) as [x|] eqn:Q1; [|reflexivity]. destruct (offset_index_length col) as [y|] eqn:Q2; [|reflexivity].
      destruct (partial_range cols col x y H1 H2 Q1 Q2) as (r & ->). cbn [pbind]. unfold indexes in Hi. rewrite Q1, Q2 in Hi.
      destruct (column_index_offset col) as [z|]; [|reflexivity]. destruct (column_index_length col) as [w|]; [discriminate|reflexivity].
  Qed.
  Lemma index_backward rs : Forall2 (Forall2 (column_result (read_index c d) (data f))) md rs -> read_page_index c d chunk a md = POk rs.
  Proof.
    intros H. eapply pcollect_backward; [|exact H]. intros cols ys Hin Hc. eapply pcollect_backward; [|exact Hc].
    intros col r Hin2. eapply column_backward; eassumption.
  Qed.
  (** panics come from decoding an index *)
  Lemma index_panic p : read_page_index c d chunk a md = PPanic p ->
    exists cols col oo ol co cl, In cols md /\ In col cols /\ indexes col = Some ((oo, ol), (co, cl)) /\
      exists bs, (at_offset (data f) oo bs /\ zlen bs = ol /\ read_index c d "OffsetIndex" bs = PPanic p) \/
                 (at_offset (data f) co bs /\ zlen bs = cl /\ read_index c d "ColumnIndex" bs = PPanic p).
  Proof.
    intros H. apply pcollect_panic in H as (cols & H1 & H). apply pcollect_panic in H as (col & H2 & H).
    destruct (offset_index_offset col) as [oo|] eqn:Q1; [|unfold read_page_index_column in H; rewrite Q1 in H; discriminate].
    destruct (offset_index_length col) as [ol|] eqn:Q2; [|unfold read_page_index_column in H; rewrite Q1, Q2 in H; discriminate].
    destruct (Hreg cols col oo ol H1 H2 Q1 Q2) as (P1 & _ & P2). destruct (partial_range cols col oo ol H1 H2 Q1 Q2) as (r & Hr).
    unfold read_page_index_column in H. rewrite Q1, Q2, Hr in H. cbn [pbind] in H.
    destruct (column_index_offset col) as [co|] eqn:Q3; [|discriminate]. destruct (column_index_length col) as [cl|] eqn:Q4; [|discriminate].
    specialize (P2 co cl eq_refl eq_refl).
    assert (Hi : indexes col = Some ((oo, ol), (co, cl))) by (unfold indexes; rewrite Q1, Q2, Q3, Q4; reflexivity).
    exists cols, col, oo, ol, co, cl. split; [exact H1|]. split; [exact H2|]. split; [exact Hi|].
    destruct (col_facts _ _ _ _ _ _ H1 H2 Hi) as (F1 & F2 & F3 & F4 & F5 & F6 & F7 & F8 & F9).
    destruct (index_range_ok a oo ol chunk) as [E1o E1s]; [lia|lia|lia|lia|lia|].
    destruct (index_range_ok a co cl chunk) as [E2o E2s]; [lia|lia|lia|lia|lia|].
    destruct (at_sub oo ol) as [S1 S2]; [lia|lia|lia|lia|]. destruct (at_sub co cl) as [T1 T2]; [lia|lia|lia|lia|].
    rewrite E1o in Hr. injection Hr as <-. rewrite E2o in H. cbn [pbind] in H. rewrite E1s in H. cbn [pbind] in H.
    match type of H with pbind ?m _ = _ => destruct m as [oi|e|q] eqn:E3 end; cbn [pbind] in H; [|discriminate|].
    - rewrite E2s in H. cbn [pbind] in H. match type of H with pbind ?m _ = _ => destruct m as [ci|e|q] eqn:E4 end; cbn [pbind] in H; [discriminate|discriminate|].
      injection H as ->. eexists. right. split; [exact T1|]. split; [exact T2|exact E4].
    - injection H as ->. eexists. left. split; [exact S1|]. split; [exact S2|exact E3].
  Qed.
End Index.

(** Only the panics of decoding remain (cf. C17). *)
Lemma read_index_panic c d name bs p : cfg_ok c -> bytes bs -> ty_closed parquet_env (TNamed name) = true ->
  (need 12 (TNamed name) (List.length bs) <= d)%nat -> read_index c d name bs = PPanic p -> slice_panic c p.
Proof.
  intros Hc Hb Ht Hd H. unfold read_index in H. destruct (snd (read_thrift _ _ _ _ _ _)) as [v|e|q] eqn:E; try discriminate. injection H as ->.
  eapply P_Robust.read_slice_panic; eauto. vm_compute. reflexivity.
Qed.
Lemma at_offset_bytes bs a s : bytes bs -> at_offset bs a s -> bytes s /\ (List.length s <= List.length bs)%nat.
Proof.
  intros Hb (p & q & -> & _). apply bytes_app_inv in Hb as [_ Hb]. apply bytes_app_inv in Hb as [Hb _]. rewrite !app_length. split; [exact Hb|lia].
Qed.
Lemma need_mono K t n m : (n <= m -> need K t n <= need K t m)%nat.
Proof. unfold need. nia. Qed.
Lemma index_panic_decode c alloc d f f' md chunk a b p : cfg_ok c -> usize_bits c = 64 -> metadata_ok md -> bytes (data f) ->
  get_page_index_chunk c alloc md f = (f', POk (Some (chunk, (a, b)))) -> regular md ->
  (need 12 (TNamed "ColumnIndex") (List.length (data f)) <= d)%nat ->
  read_page_index c d chunk a md = PPanic p -> slice_panic c p.
Proof.
  intros Hc H64 Hok Hb Hch Hreg Hd H.
  destruct (index_panic c alloc H64 d f f' md chunk a b Hok Hch Hreg p H) as (cols & col & oo & ol & co & cl & _ & _ & _ & bs & [(Hat & _ & Hp)|(Hat & _ & Hp)]).
  all: destruct (at_offset_bytes _ _ _ Hb Hat) as [Hbs Hlen].
  all: eapply read_index_panic; [exact Hc|exact Hbs| | |exact Hp]; [vm_compute; reflexivity|].
  all: eapply Nat.le_trans; [apply need_mono; exact Hlen|]; exact Hd.
Qed.

(** * Decoded metadata has the ranges of its integer types *)
Lemma typed_seq_forall E t vs : typed_seq E t vs -> Forall (typed E t) vs.
Proof. induction 1; constructor; auto. Qed.
Lemma opt_i64 v : typed parquet_env (TOption TI64) v -> opt_in 64 (i_field v).
Proof. intros H. inversion H as [| | | | | | | | |? ?|? w Hw| | | | | |]; subst; [exact Coq.Init.Logic.I|]. inversion Hw; subst. assumption. Qed.
Lemma opt_i32 v : typed parquet_env (TOption TI32) v -> opt_in 32 (i_field v).
Proof. intros H. inversion H as [| | | | | | | | |? ?|? w Hw| | | | | |]; subst; [exact Coq.Init.Logic.I|]. inversion Hw; subst. assumption. Qed.
Ltac tfields H := repeat match type of H with typed_fields _ (_ :: _) _ => inversion H as [|? ? ? ? ?Ht ?Htl]; subst; clear H; rename Htl into H end.
Lemma column_of_ok v : typed parquet_env (TNamed "ColumnChunk") v -> column_ok (column_of v).
Proof.
  intros H. inversion H as [| | | | | | | | | | | | | |? ? Hl|? fs vs Hl Hf|? ? ? ? ? Hl]; subst; try (vm_compute in Hl; discriminate Hl).
  assert (fs = match def_ColumnChunk with DStruct fs => fs | _ => [] end) by (vm_compute in Hl; injection Hl as <-; reflexivity). subst fs.
  unfold def_ColumnChunk in Hf. tfields Hf. unfold column_ok, column_of. cbn [nth offset_index_offset offset_index_length column_index_offset column_index_length].
  repeat split; first [apply opt_i64|apply opt_i32]; assumption.
Qed.
Lemma columns_of_ok v : typed parquet_env (TNamed "RowGroup") v -> Forall column_ok (columns_of v).
Proof.
  intros H. inversion H as [| | | | | | | | | | | | | |? ? Hl|? fs vs Hl Hf|? ? ? ? ? Hl]; subst; try (vm_compute in Hl; discriminate Hl).
  assert (fs = match def_RowGroup with DStruct fs => fs | _ => [] end) by (vm_compute in Hl; injection Hl as <-; reflexivity). subst fs.
  unfold def_RowGroup in Hf. tfields Hf. match goal with H : typed _ (field_ty {| f_id := 1; f_req := _; f_ty := _; f_name := _ |}) _ |- _ => inversion H; subst end.
  cbn [columns_of]. apply Forall_map. eapply Forall_impl; [|eapply typed_seq_forall; eassumption]. apply column_of_ok.
Qed.
Lemma metadata_of_ok v : typed parquet_env (TNamed "FileMetaData") v -> metadata_ok (metadata_of v).
Proof.
  intros H. inversion H as [| | | | | | | | | | | | | |? ? Hl|? fs vs Hl Hf|? ? ? ? ? Hl]; subst; try (vm_compute in Hl; discriminate Hl).
  assert (fs = match def_FileMetaData with DStruct fs => fs | _ => [] end) by (vm_compute in Hl; injection Hl as <-; reflexivity). subst fs.
  unfold def_FileMetaData in Hf. tfields Hf. match goal with H : typed _ (field_ty {| f_id := 4; f_req := _; f_ty := _; f_name := _ |}) _ |- _ => inversion H; subst end.
  cbn [metadata_of nth]. apply Forall_map. eapply Forall_impl; [|eapply typed_seq_forall; eassumption]. apply columns_of_ok.
Qed.

(** * Witnesses *)
Definition no_column : column :=
  {| offset_index_offset := None; offset_index_length := None; column_index_offset := None; column_index_length := None |}.
Definition both (oo ol co cl : Z) : column :=
  {| offset_index_offset := Some oo; offset_index_length := Some ol; column_index_offset := Some co; column_index_length := Some cl |}.
Definition only_offset (oo ol : Z) : column :=
  {| offset_index_offset := Some oo; offset_index_length := Some ol; column_index_offset := None; column_index_length := None |}.
Definition cursor (bs : list Z) : file := {| data := bs; pos := 0; faults := [] |}.

Lemma chunk_cursor c alloc md bs a b : get_page_index_range c md = POk (Some (a, b)) -> b - a < 2 ^ (usize_bits c - 1) -> alloc (b - a) = true -> b <= zlen bs ->
  get_page_index_chunk c alloc md (cursor bs) =
    ({| data := bs; pos := b; faults := [] |}, POk (Some (firstn (Z.to_nat (b - a)) (skipn (Z.to_nat a) bs), (a, b)))).
Proof.
  intros Hr Hcap Ha Hb. unfold get_page_index_chunk. unfold fbind at 1. unfold fret at 1. rewrite Hr. unfold fbind at 1, seek_start at 1, faulty at 1. cbn [faults cursor].
  unfold fbind at 1, fret at 1, with_capacity. rewrite Ha. replace (b - a <? 2 ^ (usize_bits c - 1)) with true by lia. cbn [andb].
  unfold fbind at 1, read_exact, faulty. cbn [faults at_pos data pos tl cursor]. replace (a + (b - a)) with b by lia. replace (b <=? zlen bs) with true by lia. reflexivity.
Qed.
Lemma magic_refuted : exists f, healthy f /\ (exists pre m4, data f = pre ++ m4 /\ zlen m4 = 4 /\ m4 <> [80; 65; 82; 49]) /\
  forall c alloc, snd (get_metadata_chunk c alloc f) = PErr (PIo InvalidInput).
Proof.
  exists (cursor [1; 2; 3; 4; 5]). split; [constructor|]. split; [exists [1], [2; 3; 4; 5]; repeat split; discriminate|]. reflexivity.
Qed.
Lemma range32_refuted : exists c md, cfg_ok c /\ usize_bits c = 32 /\ metadata_ok md /\
  (exists a b, extent md a b /\ b = 4294967306) /\ get_page_index_range c md = POk (Some (0, 10)).
Proof.
  exists debug32, [[both 4294967296 10 4294967296 10]]. split; [exact debug32_ok|]. split; [reflexivity|]. split.
  { repeat constructor; cbn; unfold in_s; lia. }
  split; [|reflexivity]. exists 4294967296, 4294967306. split; [|reflexivity]. exists 4294967296, 10, 4294967296, 10. split; [|left; split; reflexivity].
  eexists _, _. split; [left; reflexivity|]. split; [left; reflexivity|]. reflexivity.
Qed.
Lemma range32_overflow_refuted : exists c md, cfg_ok c /\ usize_bits c = 32 /\ metadata_ok md /\ get_page_index_range c md = PPanic POverflow.
Proof.
  exists debug32, [[both 4294967295 1 0 1]]. split; [exact debug32_ok|]. split; [reflexivity|]. split; [|reflexivity].
  repeat constructor; cbn; unfold in_s; lia.
Qed.
Lemma index_assert_refuted : forall c d alloc, usize_bits c = 64 -> (forall n, alloc n = true) ->
  exists f f' md chunk, metadata_ok md /\ get_page_index_chunk c alloc md f = (f', POk (Some (chunk, (4, 6)))) /\
    read_page_index c d chunk 4 md = PPanic PAssert.
Proof.
  intros c d alloc H64 Ha. exists (cursor (repeat 0 8)), {| data := repeat 0 8; pos := 6; faults := [] |}, [[both 4 0 4 2]], (firstn (Z.to_nat (6 - 4)) (skipn (Z.to_nat 4) (repeat 0 8))).
  split; [repeat constructor; cbn; unfold in_s; lia|]. split.
  - apply chunk_cursor; [|rewrite H64; reflexivity|apply Ha|discriminate]. unfold get_page_index_range. cbn [range_groups range_columns].
    unfold range_step, uadd, usize, wrapu. rewrite H64. reflexivity.
  - unfold read_page_index, read_page_index_for_column_chunk. cbn [pcollect]. unfold read_page_index_column. cbn [both offset_index_offset offset_index_length column_index_offset column_index_length].
    unfold index_range, usize, wrapu. rewrite H64. reflexivity.
Qed.
Lemma index_before_refuted : forall c d alloc, usize_bits c = 64 -> (forall n, alloc n = true) ->
  exists f f' md chunk, metadata_ok md /\ get_page_index_chunk c alloc md f = (f', POk (Some (chunk, (4, 6)))) /\
    (forall cols col, In cols md -> In col cols -> offset_index_length col = Some 1) /\
    read_page_index c d chunk 4 md = PPanic PAssert.
Proof.
  intros c d alloc H64 Ha. exists (cursor (repeat 0 8)), {| data := repeat 0 8; pos := 6; faults := [] |}, [[only_offset 3 1; both 4 1 5 1]], (firstn (Z.to_nat (6 - 4)) (skipn (Z.to_nat 4) (repeat 0 8))).
  split; [repeat constructor; cbn; unfold in_s; lia|]. split; [|split].
  - apply chunk_cursor; [|rewrite H64; reflexivity|apply Ha|discriminate]. unfold get_page_index_range. cbn [range_groups range_columns].
    unfold range_step, uadd, usize, wrapu. rewrite H64. reflexivity.
  - intros cols col [<-|[]] [<-|[<-|[]]]; reflexivity.
  - unfold read_page_index, read_page_index_for_column_chunk. cbn [pcollect]. unfold read_page_index_column. cbn [only_offset both offset_index_offset offset_index_length column_index_offset column_index_length].
    unfold index_range, usize, wrapu. rewrite H64. reflexivity.
Qed.
Lemma chunk_capacity_refuted : forall c alloc f, usize_bits c = 64 -> healthy f ->
  exists md, metadata_ok md /\ ~ negative md /\ snd (get_page_index_chunk c alloc md f) = PPanic PAlloc.
Proof.
  intros c alloc f H64 Hh. exists [[both 9223372036854775807 1 0 1]]. split; [repeat constructor; cbn; unfold in_s; lia|]. split.
  { intros (oo & ol & co & cl & (cols & col & [<-|[]] & [<-|[]] & Hij) & Hneg). injection Hij as <- <- <- <-. lia. }
  assert (Hr : get_page_index_range c [[both 9223372036854775807 1 0 1]] = POk (Some (0, 9223372036854775808))).
  { unfold get_page_index_range. cbn [range_groups range_columns range_step both offset_index_offset offset_index_length column_index_offset column_index_length].
    unfold uadd, usize, wrapu. rewrite H64. reflexivity. }
  unfold get_page_index_chunk. unfold fbind at 1. unfold fret at 1. rewrite Hr. unfold fbind at 1.
  destruct (seek_start_healthy 0 f Hh) as (f1 & _ & _ & -> & _). unfold fbind at 1, fret at 1, with_capacity. rewrite H64. reflexivity.
Qed.
(** the buffer requested depends on the metadata only *)
Lemma chunk_unbounded_refuted : forall c alloc n, usize_bits c = 64 -> 0 < n < 2 ^ 62 -> alloc n = false ->
  exists md, metadata_ok md /\ ~ negative md /\ snd (get_page_index_chunk c alloc md (cursor [])) = PPanic PAlloc.
Proof.
  intros c alloc n H64 Hn Ha. change (2 ^ 62) with 4611686018427387904 in Hn. exists [[both 0 0 n 0]].
  split; [repeat constructor; cbn; unfold in_s; lia|]. split.
  { intros (oo & ol & co & cl & (cols & col & [<-|[]] & [<-|[]] & Hij) & Hneg). injection Hij as <- <- <- <-. lia. }
  assert (Hok : metadata_ok [[both 0 0 n 0]]) by (repeat constructor; cbn; unfold in_s; lia).
  assert (Hr : get_page_index_range c [[both 0 0 n 0]] = POk (Some (0, n))).
  { apply (range_some c H64 _ _ _ Hok). split.
    { intros (oo & ol & co & cl & (cols & col & [<-|[]] & [<-|[]] & Hij) & Hneg). injection Hij as <- <- <- <-. lia. }
    split; [lia|].
    assert (Hh : has_indexes [[both 0 0 n 0]] 0 0 n 0).
    { eexists _, _. split; [left; reflexivity|]. split; [left; reflexivity|]. reflexivity. }
    split; [exists 0, 0, 0, n, 0; split; [exact Hh|lia]|]. split; [exists n, 0, 0, n, 0; split; [exact Hh|lia]|].
    intros s e (oo & ol & co & cl & (cols & col & [<-|[]] & [<-|[]] & Hij) & Hneg). injection Hij as <- <- <- <-. lia. }
  unfold get_page_index_chunk. unfold fbind at 1. unfold fret at 1. rewrite Hr. unfold fbind at 1. unfold seek_start, faulty. cbn [faults cursor].
  unfold fbind at 1, fret at 1, with_capacity. replace (n - 0) with n by lia. rewrite Ha, andb_false_r. reflexivity.
Qed.

(** A small file: magic, an OffsetIndex, a ColumnIndex, arbitrary metadata, footer. *)
Definition sample_oi : value := VStruct [VVec [VStruct [VI64 4; VI32 17; VI64 0]]; VNone].
Definition sample_ci : value := VStruct [VVec [VBool false]; VVec [VBin [1]]; VVec [VBin [2]]; VI32 1; VNone; VNone; VNone].
Definition sample_oib : list Z := Eval vm_compute in fst (write_thrift vec_write_all parquet_env (TNamed "OffsetIndex") sample_oi []).
Definition sample_cib : list Z := Eval vm_compute in fst (write_thrift vec_write_all parquet_env (TNamed "ColumnIndex") sample_ci []).
Definition sample_file : file := Eval vm_compute in
  cursor ([80; 65; 82; 49] ++ sample_oib ++ [255] ++ sample_cib ++ [21; 2; 0] ++ le4 3 ++ [80; 65; 82; 49]).
Definition sample_md : metadata := Eval vm_compute in
  [[no_column; both 4 (zlen sample_oib) (5 + zlen sample_oib) (zlen sample_cib)]; []; [only_offset 4 1]].

Lemma decoded_ok c d s s' v : cfg_ok c -> bytes s ->
  read_thrift c (slice_input c) parquet_env d (TNamed "FileMetaData") s = (s', Ok v) -> metadata_ok (metadata_of v).
Proof.
  intros Hc Hb H. apply metadata_of_ok. eapply (P_Valid.read_slice_valid c parquet_env 12); eauto.
Qed.
Lemma metadata_no_panic c alloc f p : cfg_ok c -> bytes (data f) -> (forall n, n <= zlen (data f) -> alloc n = true) ->
  zlen (data f) < 2 ^ (usize_bits c - 1) -> snd (get_metadata_chunk c alloc f) <> PPanic p.
Proof.
  intros Hc Hb Ha Hl H. destruct (metadata_faults c alloc f) as [He|(k & _ & He)]; [|congruence]. rewrite He in H.
  destruct (metadata_otherwise c alloc Hc (without_faults f)) as [(m & Hm)|[Hm|Hm]]; try congruence; auto. constructor.
Qed.
Lemma chunk_present c alloc f md a b chunk : usize_bits c = 64 -> healthy f -> metadata_ok md -> (forall n, alloc n = true) ->
  zlen (data f) < 2 ^ 63 -> get_page_index_range c md = POk (Some (a, b)) ->
  snd (get_page_index_chunk c alloc md f) = POk (Some (chunk, (a, b))) <-> at_offset (data f) a chunk /\ zlen chunk = b - a.
Proof.
  intros H64 Hh Hok Ha Hl Hr. pose proof Hr as Hr'. apply (range_some c H64 md a b Hok) in Hr' as (Hn & Hab & (e & He) & (s & Hs) & _).
  destruct (range_total c H64 md Hok) as [[Hn' _]|[_ (mn & mx & _ & Hcov & _)]]; [contradiction|]. pose proof (Hcov _ _ He). 
  split.
  - intros H0. destruct (get_page_index_chunk c alloc md f) as [f' r] eqn:E. cbn [snd] in H0. subst r.
    apply (chunk_at c alloc H64 f f' md chunk a b Hok) in E. tauto.
  - intros [Hat Hlen]. assert (Hb : b <= zlen (data f)).
    { destruct Hat as (p & q & -> & <-). rewrite !zlen_app. pose proof (zlen_nonneg q). lia. }
    rewrite (chunk_healthy c alloc H64 md f a b Hh Hok Hr) by (split; [lia|apply Ha]). replace (b <=? zlen (data f)) with true by lia.
    do 3 f_equal. destruct (at_offset_sub (data f) a (b - a)) as [A1 A2]; [lia|lia|lia|].
    symmetry. f_equal. apply (at_offset_unique _ _ _ _ Hat A1). congruence.
Qed.
