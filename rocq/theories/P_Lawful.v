(** The two inputs obey the laws of P_Good.v. *)
From Coq Require Import ZifyBool ZifyNat ZifyN.
From Verif Require Import Base Uleb Utf8 Protocol Types SpecCompact SpecInput P_Arith P_Reads P_Inputs P_Good.
Ltac Zify.zify_post_hook ::= Z.div_mod_to_equations.

Lemma suffix_refl {A} (l : list A) : suffix l l.
Proof. exists []. reflexivity. Qed.
Lemma suffix_trans {A} (l1 l2 l3 : list A) : suffix l1 l2 -> suffix l2 l3 -> suffix l1 l3.
Proof. intros [p ->] [q ->]. exists (q ++ p). apply app_assoc. Qed.
Lemma suffix_length {A} (l1 l2 : list A) : suffix l1 l2 -> (List.length l1 <= List.length l2)%nat.
Proof. intros [p ->]. rewrite app_length. lia. Qed.
Lemma suffix_Forall {A} (P : A -> Prop) (l1 l2 : list A) : suffix l1 l2 -> Forall P l2 -> Forall P l1.
Proof. intros [p ->] H. apply Forall_app in H. apply H. Qed.
Lemma suffix_skipn {A} n (l : list A) : suffix (skipn n l) l.
Proof. exists (firstn n l). symmetry. apply firstn_skipn. Qed.

Lemma slice_order : order bytes (@suffix Z) slice_left.
Proof.
  split; [apply suffix_refl|apply suffix_trans|intros; apply suffix_length; assumption|].
  intros s' s H. apply suffix_Forall. exact H.
Qed.

Section Slice.
  Variable c : cfg.
  Hypothesis Hc : cfg_ok c.
  Variable okp : panic -> Prop.
  Hypothesis Hokp : forall p, slice_panic c p -> okp p.

  Lemma slice_overflow : overflow_checks c = true -> okp POverflow.
  Proof. intros H. apply Hokp. left. split; [exact H|reflexivity]. Qed.
  Lemma slice_byte_tame s : bytes s ->
    tame (@suffix Z) okp s slice_read_byte (fun s' b => is_byte b /\ (slice_left s' < slice_left s)%nat).
  Proof.
    intros Hb. destruct s as [|b s]; unfold tame; cbn.
    - split; [apply suffix_refl|exact I].
    - inversion Hb; subst. split; [exists [b]; reflexivity|]. split; [assumption|lia].
  Qed.
  Lemma slice_len_tame s : bytes s ->
    tame (@suffix Z) okp s (read_len_with c slice_read_byte slice_left) (fun s' n => 0 <= n /\ (slice_left s' < slice_left s)%nat).
  Proof.
    intros Hb. apply (read_len_with_tame bytes); [exact slice_order|apply slice_byte_tame|apply slice_overflow|exact Hb|].
    destruct Hc as [[H|H] _]; rewrite H; lia.
  Qed.
  Lemma slice_lawful : lawful c (slice_input c) bytes (@suffix Z) okp.
  Proof.
    split; cbn [slice_input in_left in_read_byte in_read_double in_read_binary in_skip_integer in_skip_binary].
    - exact slice_order.
    - apply slice_byte_tame.
    - intros s Hb. unfold tame, slice_read_double. destruct (zlen s <? 8) eqn:Hl; cbn [fst snd].
      + split; [apply suffix_refl|exact I].
      + split; [apply suffix_skipn|]. rewrite from_le_bytes_digits.
        assert (bytes (firstn 8 s)) as Hb8.
        { apply Forall_forall. intros x Hx. unfold bytes in Hb. rewrite Forall_forall in Hb. apply Hb.
          rewrite <- (firstn_skipn 8 s). apply in_or_app. left. exact Hx. }
        pose proof (digits256_range _ Hb8) as Hr. unfold zlen in *. rewrite firstn_length_le in Hr by lia. exact Hr.
    - intros s Hb. unfold slice_read_binary. eapply (tame_bind bytes); [exact slice_order|exact Hb|apply slice_len_tame; exact Hb|].
      intros s1 n Hi1 _ _ [Hn _]. unfold MAX_BINARY_LEN. destruct (16 * 1024 * 1024 <? n) eqn:Hm.
      { apply (tame_fail bytes) with (1 := slice_order). }
      unfold tame. destruct (zlen s1 <? n) eqn:Hl; cbn [fst snd]; [split; [apply suffix_refl|exact I]|].
      split; [apply suffix_skipn|]. split.
      + rewrite <- (firstn_skipn (Z.to_nat n) s1) in Hi1. apply bytes_app in Hi1. apply Hi1.
      + unfold zlen in *. rewrite firstn_length_le by lia. lia.
    - intros s Hb. unfold slice_skip_integer. destruct (sse2 c) eqn:Hs.
      + unfold tame. destruct (16 <=? zlen s).
        * unfold skip_uleb_sse2. destruct (skip_uleb_sse2_len s <=? zlen s); cbn [fst snd].
          -- split; [apply suffix_skipn|exact I].
          -- split; [apply suffix_refl|]. apply Hokp. right. auto.
        * unfold skip_uleb_fallback. destruct (Nat.leb _ _); cbn [fst snd].
          -- split; [apply suffix_skipn|exact I].
          -- split; [apply suffix_refl|]. apply Hokp. right. auto.
      + eapply (tame_bind bytes); [exact slice_order|exact Hb| |].
        * apply (decode_tame bytes); [exact slice_order|apply slice_byte_tame|apply slice_overflow|exact Hb].
        * intros s1 n _ _ _ _. apply (tame_ret bytes) with (1 := slice_order). exact I.
    - intros s Hb. unfold slice_skip_binary. eapply (tame_bind bytes); [exact slice_order|exact Hb|apply slice_len_tame; exact Hb|].
      intros s1 n Hi1 _ _ [Hn _]. destruct (MAX_BINARY_LEN <? n).
      { apply (tame_fail bytes) with (1 := slice_order). }
      unfold tame. destruct (zlen s1 <? n) eqn:Hl; cbn [fst snd]; [split; [apply suffix_refl|exact I]|].
      split; [apply suffix_skipn|exact I].
    - exact slice_overflow.
  Qed.
End Slice.

(** * Readers *)
Definition is_data (a : atom) : nat := match a with AByte _ => 1%nat | _ => 0%nat end.
Lemma data_length ch : list_sum (map is_data (map AByte ch)) = List.length ch.
Proof. induction ch as [|b ch IH]; [reflexivity|]. cbn [map is_data List.length]. change (list_sum (1%nat :: map is_data (map AByte ch))) with (1 + list_sum (map is_data (map AByte ch)))%nat. lia. Qed.
Lemma reader_left_atoms r : reader_left r = list_sum (map is_data (atoms r)).
Proof.
  induction r as [|[ch| |k] r IH]; [reflexivity| |exact IH|exact IH].
  destruct ch as [|b ch]; [exact IH|]. cbn [reader_left atoms].
  rewrite map_app, list_sum_app, data_length, IH. reflexivity.
Qed.
Lemma reader_order : order reader_bytes later reader_left.
Proof.
  split.
  - intros s. apply suffix_refl.
  - intros s1 s2 s3. apply suffix_trans.
  - intros s' s [p H]. rewrite !reader_left_atoms, H, map_app, list_sum_app. lia.
  - intros s' s H. apply suffix_Forall. exact H.
Qed.

Lemma atoms_data ch r : ch <> [] -> atoms (RData ch :: r) = map AByte ch ++ atoms r.
Proof. destruct ch; [congruence|reflexivity]. Qed.

Section Reader.
  Variable c : cfg.
  Hypothesis Hc : cfg_ok c.
  Variable okp : panic -> Prop.
  Hypothesis Hokp : forall p, reader_panic c p -> okp p.

  Lemma read_exact_tame r : forall want, reader_bytes r ->
    tame later okp r (read_exact want)
      (fun r' l => bytes l /\ List.length l = want /\ (reader_left r' + want <= reader_left r)%nat).
  Proof.
    unfold read_exact.
    induction r as [|ev r IH]; intros want Hb; unfold tame in *; cbn [read_exact_go].
    { destruct want; cbn [fst snd]; (split; [apply suffix_refl|]); [split; [constructor|split; [reflexivity|lia]]|exact I]. }
    destruct want as [|want]; [cbn [fst snd]; split; [apply suffix_refl|]; split; [constructor|split; [reflexivity|lia]]|].
    assert (Hskip : forall a, atoms (ev :: r) = a :: atoms r -> reader_left (ev :: r) = reader_left r ->
              later (fst (read_exact_go r (Datatypes.S want))) (ev :: r) /\
              match snd (read_exact_go r (Datatypes.S want)) with
              | Ok l => bytes l /\ List.length l = Datatypes.S want /\
                        (reader_left (fst (read_exact_go r (Datatypes.S want))) + Datatypes.S want <= reader_left (ev :: r))%nat
              | Err _ => True | Panic p => okp p end).
    { intros a Ha Hl. assert (Hb' : reader_bytes r).
      { unfold reader_bytes in *. rewrite Ha in Hb. inversion Hb; assumption. }
      destruct (IH (Datatypes.S want) Hb') as [H1 H2]. split.
      - eapply suffix_trans; [exact H1|]. exists [a]. exact Ha.
      - rewrite Hl. exact H2. }
    destruct ev as [[|b ch]| |k].
    - cbn [fst snd]. split; [exists [AEnd]; reflexivity|exact I].
    - assert (Hbb : bytes (b :: ch) /\ reader_bytes r).
      { unfold reader_bytes in *. rewrite atoms_data in Hb by discriminate. apply Forall_app in Hb as [H1 H2].
        split; [|exact H2]. rewrite Forall_map in H1. exact H1. }
      destruct Hbb as [Hb1 Hb2].
      destruct (Nat.leb (List.length (b :: ch)) (Datatypes.S want)) eqn:Hle.
      + apply Nat.leb_le in Hle. destruct (IH (Datatypes.S want - List.length (b :: ch))%nat Hb2) as [H1 H2].
        destruct (read_exact_go r (Datatypes.S want - List.length (b :: ch))) as [r' [l|e|p]]; cbn [fst snd] in *.
        * split; [eapply suffix_trans; [exact H1|]; exists (map AByte (b :: ch)); apply atoms_data; discriminate|].
          destruct H2 as (H2 & H3 & H4). split; [apply bytes_app; split; assumption|].
          rewrite app_length. cbn [reader_left]. lia.
        * split; [|exact I]. eapply suffix_trans; [exact H1|]; exists (map AByte (b :: ch)); apply atoms_data; discriminate.
        * split; [|exact H2]. eapply suffix_trans; [exact H1|]; exists (map AByte (b :: ch)); apply atoms_data; discriminate.
      + apply Nat.leb_gt in Hle. cbn [fst snd].
        assert (Hn : skipn (Datatypes.S want) (b :: ch) <> []).
        { intros Hn. apply (f_equal (@List.length Z)) in Hn. rewrite skipn_length in Hn. cbn [List.length] in *. lia. }
        split.
        * unfold later. rewrite !atoms_data by (assumption || discriminate).
          exists (map AByte (firstn (Datatypes.S want) (b :: ch))). rewrite app_assoc, <- map_app, firstn_skipn. reflexivity.
        * split; [|split].
          -- rewrite <- (firstn_skipn (Datatypes.S want) (b :: ch)) in Hb1. apply bytes_app in Hb1. apply Hb1.
          -- apply firstn_length_le. lia.
          -- cbn [reader_left]. rewrite skipn_length. lia.
    - apply (Hskip AInterrupted); reflexivity.
    - destruct k; try (cbn [fst snd]; split; [eexists [AFail _]; reflexivity|exact I]).
      apply (Hskip (AFail Interrupted)); reflexivity.
  Qed.

  Lemma reader_overflow : overflow_checks c = true -> okp POverflow.
  Proof. intros H. apply Hokp. split; [exact H|reflexivity]. Qed.
  Lemma reader_byte_tame r : reader_bytes r ->
    tame later okp r reader_read_byte (fun r' b => is_byte b /\ (reader_left r' < reader_left r)%nat).
  Proof.
    intros Hb. unfold reader_read_byte. eapply (tame_bind reader_bytes); [exact reader_order|exact Hb|apply read_exact_tame; exact Hb|].
    intros r' l _ _ _ (H1 & H2 & H3). apply (tame_ret reader_bytes) with (1 := reader_order).
    destruct l as [|b [|]]; try discriminate. inversion H1; subst. cbn [nth]. split; [assumption|lia].
  Qed.
  Lemma reader_binary_tame r : reader_bytes r ->
    tame later okp r (reader_read_binary c) (fun _ l => bytes l /\ zlen l <= 16777216).
  Proof.
    intros Hb. unfold reader_read_binary. eapply (tame_bind reader_bytes); [exact reader_order|exact Hb| |].
    - apply (read_len_with_tame reader_bytes); [exact reader_order|apply reader_byte_tame|apply reader_overflow|exact Hb|].
      destruct Hc as [[H|H] _]; rewrite H; lia.
    - intros r1 n Hb1 _ _ [Hn _]. unfold MAX_BINARY_LEN. destruct (16 * 1024 * 1024 <? n) eqn:Hm.
      + apply (tame_fail reader_bytes) with (1 := reader_order).
      + eapply tame_weaken; [apply read_exact_tame; exact Hb1|]. cbn. intros r2 l (H1 & H2 & _). unfold zlen. split; [exact H1|lia].
  Qed.
  Lemma reader_lawful : lawful c (reader_input c) reader_bytes later okp.
  Proof.
    split; cbn [reader_input in_left in_read_byte in_read_double in_read_binary in_skip_integer in_skip_binary].
    - exact reader_order.
    - apply reader_byte_tame.
    - intros r Hb. unfold reader_read_double. eapply (tame_bind reader_bytes); [exact reader_order|exact Hb|apply read_exact_tame; exact Hb|].
      intros r' l _ _ _ (H1 & H2 & _). apply (tame_ret reader_bytes) with (1 := reader_order).
      rewrite from_le_bytes_digits. pose proof (digits256_range _ H1) as Hr. unfold zlen in Hr. rewrite H2 in Hr. exact Hr.
    - apply reader_binary_tame.
    - intros r Hb. eapply (tame_bind reader_bytes); [exact reader_order|exact Hb| |].
      + apply (decode_tame reader_bytes); [exact reader_order|apply reader_byte_tame|apply reader_overflow|exact Hb].
      + intros r1 n _ _ _ _. apply (tame_ret reader_bytes) with (1 := reader_order). exact I.
    - intros r Hb. eapply (tame_bind reader_bytes); [exact reader_order|exact Hb|apply reader_binary_tame; exact Hb|].
      intros r1 n _ _ _ _. apply (tame_ret reader_bytes) with (1 := reader_order). exact I.
    - exact reader_overflow.
  Qed.
End Reader.
