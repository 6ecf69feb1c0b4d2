(** Skipping consumes exactly one conforming value. *)
From Coq Require Import ZifyBool ZifyNat ZifyN.
From Verif Require Import Base Uleb Utf8 Protocol Types SpecUtf8 SpecCompact P_Arith P_Reads.
Ltac Zify.zify_post_hook ::= Z.div_mod_to_equations.

Scheme wire_mind := Minimality for wire Sort Prop
  with wire_seq_mind := Minimality for wire_seq Sort Prop
  with wire_pairs_mind := Minimality for wire_pairs Sort Prop
  with wire_fields_mind := Minimality for wire_fields Sort Prop.
Combined Scheme wire_mutind from wire_mind, wire_seq_mind, wire_pairs_mind, wire_fields_mind.

Lemma varint_nonempty n bs : varint n bs -> (1 <= List.length bs)%nat.
Proof. intros (Ht & _). apply terminated_nonempty. exact Ht. Qed.

Lemma field_header_nonempty last id t hdr : field_header last id t hdr -> (1 <= List.length hdr)%nat.
Proof. destruct 1; cbn [List.length]; lia. Qed.
Lemma list_header_nonempty n et hdr : list_header n et hdr -> (1 <= List.length hdr)%nat.
Proof. destruct 1; cbn [List.length]; lia. Qed.
Lemma field_header_id last id t hdr : -32768 <= last -> field_header last id t hdr -> -32768 <= id <= 32767.
Proof. intros Hl. destruct 1 as [H1 H2|bs [H _]]; [lia|]. unfold in_s in H. lia. Qed.

Lemma wire_fields_nonempty last bs : wire_fields last bs -> (1 <= List.length bs)%nat.
Proof.
  destruct 1 as [|last id t hdr payload rest _ Hh]; [cbn; lia|].
  apply field_header_nonempty in Hh. rewrite app_length. lia.
Qed.

Section Skip.
  Context {S : Type} (R : S -> list Z -> Prop).
  Variable c : cfg.
  Variable I : input S.
  Hypothesis D : delivers I R.
  Hypothesis Hc : cfg_ok c.

  (** The per-element action of [skip_collection]. *)
  Definition elem_skip (d : nat) (et : Z) : M S unit :=
    if (1 <=? et) && (et <=? 3) then discard (in_read_byte I)
    else if (4 <=? et) && (et <=? 6) then in_skip_integer I
    else if et =? 7 then discard (in_read_double I)
    else if et =? 8 then in_skip_binary I
    else if (et =? 9) || (et =? 10) then skip_collection c I d
    else if et =? 11 then skip_map c I d
    else skip_field c I d 12 false.

  Lemma skip_collection_unfold d s :
    skip_collection c I (Datatypes.S d) s =
    bind (read_collection_len_and_type c I)
      (fun '(len, et) => if (1 <=? et) && (et <=? 12) then repeatM (Z.to_nat len) (elem_skip d et) else fail InvalidType) s.
  Proof.
    cbn [skip_collection]. unfold bind.
    destruct (read_collection_len_and_type c I s) as [s' [[len et]|e|p]]; try reflexivity.
    unfold elem_skip.
    destruct (1 <=? et) eqn:H1; cbn [andb].
    2:{ replace (4 <=? et) with false by lia. replace (et =? 7) with false by lia.
        replace (et =? 8) with false by lia. replace (et =? 9) with false by lia.
        replace (et =? 10) with false by lia. replace (et =? 11) with false by lia.
        replace (et =? 12) with false by lia. reflexivity. }
    destruct (et <=? 12) eqn:H12.
    2:{ replace (et <=? 3) with false by lia. replace (et <=? 6) with false by lia. rewrite andb_false_r.
        replace (et =? 7) with false by lia.
        replace (et =? 8) with false by lia. replace (et =? 9) with false by lia.
        replace (et =? 10) with false by lia. replace (et =? 11) with false by lia.
        replace (et =? 12) with false by lia. reflexivity. }
    destruct (et <=? 3) eqn:H3; [reflexivity|].
    destruct ((4 <=? et) && (et <=? 6)) eqn:H46; [reflexivity|].
    destruct (et =? 7) eqn:H7; [reflexivity|].
    destruct (et =? 8) eqn:H8; [reflexivity|].
    destruct ((et =? 9) || (et =? 10)) eqn:H9; [reflexivity|].
    destruct (et =? 11) eqn:H11; [reflexivity|].
    replace (et =? 12) with true by lia. reflexivity.
  Qed.

  Lemma reads_ext {A} (m m' : M S A) bs a : (forall s, m s = m' s) -> reads R m' bs a -> reads R m bs a.
  Proof. intros He H s rest HR. rewrite He. apply H. exact HR. Qed.

  Lemma reads_discard {A} (m : M S A) bs a : reads R m bs a -> reads R (discard m) bs tt.
  Proof. intros H. unfold discard. apply (reads_bind_ret R m (fun _ => tt) bs a H). Qed.

  Definition skips (t : Z) (e : bool) (bs : list Z) : Prop :=
    forall d, (2 * List.length bs < d)%nat ->
      reads R (skip_field c I d t e) bs tt.

  Definition skips_elem (t : Z) (bs : list Z) : Prop :=
    forall d, (2 * List.length bs < d)%nat -> reads R (elem_skip d t) bs tt.

  Theorem skip_wire :
    (forall t e bs, wire t e bs ->
       (forall d, (2 * List.length bs < d)%nat -> reads R (skip_field c I d t e) bs tt) /\
       (e = true -> forall d, (2 * List.length bs < d)%nat -> reads R (elem_skip d t) bs tt)) /\
    (forall et n bs, wire_seq et n bs ->
       forall d, (2 * List.length bs < d)%nat -> reads R (repeatM n (elem_skip d et)) bs tt) /\
    (forall kt vt n bs, wire_pairs kt vt n bs ->
       forall d, (2 * List.length bs < d)%nat ->
       reads R (repeatM n (skip_field c I d kt true ;; skip_field c I d vt true)) bs tt) /\
    (forall last bs, wire_fields last bs -> -32768 <= last ->
       forall d fuel s rest, (2 * List.length bs - 2 < d)%nat -> (List.length bs <= fuel)%nat ->
       R s (bs ++ rest) ->
       exists s', skip_struct_loop c I (fun ft => skip_field c I d ft false) fuel last s = (s', Ok tt) /\ R s' rest).
  Proof.
    apply wire_mutind.
    - (* bool field *)
      intros t Ht. split; [|discriminate]. intros d Hd. destruct d as [|d]; [lia|]. cbn [skip_field].
      replace ((1 <=? t) && (t <=? 2)) with true by lia. apply reads_ret.
    - (* bool element *)
      intros t b Ht Hb. split.
      + intros d Hd. destruct d as [|d]; [lia|]. cbn [skip_field].
        replace ((1 <=? t) && (t <=? 2)) with true by lia. apply reads_discard with (a := b). apply (del_byte _ _ D).
      + intros _ d Hd. unfold elem_skip. replace ((1 <=? t) && (t <=? 3)) with true by lia.
        apply reads_discard with (a := b). apply (del_byte _ _ D).
    - (* byte *)
      intros e b Hb. split.
      + intros d Hd. destruct d as [|d]; [lia|]. cbn [skip_field Z.leb Z.eqb andb Z.compare Pos.compare Pos.compare_cont Pos.eqb].
        apply reads_discard with (a := b). apply (del_byte _ _ D).
      + intros _ d Hd. unfold elem_skip. cbn [Z.leb andb Z.compare Pos.compare Pos.compare_cont].
        apply reads_discard with (a := b). apply (del_byte _ _ D).
    - (* integer *)
      intros t e n bs Ht Hv. split.
      + intros d Hd. destruct d as [|d]; [lia|]. cbn [skip_field].
        replace ((1 <=? t) && (t <=? 2)) with false by lia.
        replace (t =? 3) with false by lia. replace ((4 <=? t) && (t <=? 6)) with true by lia.
        apply (del_skip_int _ _ D n). exact Hv.
      + intros _ d Hd. unfold elem_skip. replace ((1 <=? t) && (t <=? 3)) with false by lia.
        replace ((4 <=? t) && (t <=? 6)) with true by lia. apply (del_skip_int _ _ D n). exact Hv.
    - (* double *)
      intros e bs Hl Hb. split.
      + intros d Hd. destruct d as [|d]; [lia|].
        cbn [skip_field Z.leb Z.eqb andb Z.compare Pos.compare Pos.compare_cont Pos.eqb].
        apply reads_discard with (a := digits256 bs). apply (del_double _ _ D). exact Hl.
      + intros _ d Hd. unfold elem_skip. cbn [Z.leb Z.eqb andb Z.compare Pos.compare Pos.compare_cont Pos.eqb].
        apply reads_discard with (a := digits256 bs). apply (del_double _ _ D). exact Hl.
    - (* binary *)
      intros e payload bs Hb. split.
      + intros d Hd. destruct d as [|d]; [lia|].
        cbn [skip_field Z.leb Z.eqb andb Z.compare Pos.compare Pos.compare_cont Pos.eqb].
        apply (del_skip_bin _ _ D payload). exact Hb.
      + intros _ d Hd. unfold elem_skip. cbn [Z.leb Z.eqb andb Z.compare Pos.compare Pos.compare_cont Pos.eqb].
        apply (del_skip_bin _ _ D payload). exact Hb.
    - (* list, set *)
      intros t e n et hdr body Ht Het Hh Hseq IH.
      assert (Hcoll : forall d, (2 * List.length (hdr ++ body) <= d)%nat ->
                reads R (skip_collection c I d) (hdr ++ body) tt).
      { intros d Hd. pose proof (list_header_nonempty _ _ _ Hh) as Hne. rewrite app_length in Hd.
        destruct d as [|d]; [lia|].
        eapply reads_ext; [apply skip_collection_unfold|].
        eapply reads_bind.
        - apply read_collection_len_and_type_reads with (n := Z.of_nat n) (et := et);
            [exact D|exact Hc|lia|exact Hh].
        - cbv beta iota. replace ((1 <=? et) && (et <=? 12)) with true by lia.
          rewrite Nat2Z.id. apply IH. lia. }
      split.
      + intros d Hd. destruct d as [|d]; [lia|]. cbn [skip_field].
        replace ((1 <=? t) && (t <=? 2)) with false by lia.
        replace (t =? 3) with false by lia. replace ((4 <=? t) && (t <=? 6)) with false by lia.
        replace (t =? 7) with false by lia. replace (t =? 8) with false by lia.
        replace ((t =? 9) || (t =? 10)) with true by lia. apply Hcoll. lia.
      + intros _ d Hd. unfold elem_skip.
        replace ((1 <=? t) && (t <=? 3)) with false by lia.
        replace ((4 <=? t) && (t <=? 6)) with false by lia.
        replace (t =? 7) with false by lia. replace (t =? 8) with false by lia.
        replace ((t =? 9) || (t =? 10)) with true by lia. apply Hcoll. lia.
    - (* empty map *)
      intros e bs Hv.
      assert (Hmap : forall d, (2 * List.length bs <= d)%nat -> reads R (skip_map c I d) bs tt).
      { intros d Hd. pose proof (varint_nonempty _ _ Hv). destruct d as [|d]; [lia|]. cbn [skip_map].
        rewrite <- (app_nil_r bs). eapply reads_bind with (a := (0, 0, 0)).
        - unfold read_map_len_and_types. rewrite <- (app_nil_r bs). eapply reads_bind.
          + apply read_len_reads with (n := 0); [exact D|exact Hc|lia|exact Hv].
          + apply reads_ret.
        - cbn. apply reads_ret. }
      split.
      + intros d Hd. destruct d as [|d]; [lia|].
        cbn [skip_field Z.leb Z.eqb andb orb Z.compare Pos.compare Pos.compare_cont Pos.eqb]. apply Hmap. lia.
      + intros _ d Hd. unfold elem_skip. cbn [Z.leb Z.eqb andb orb Z.compare Pos.compare Pos.compare_cont Pos.eqb].
        apply Hmap. lia.
    - (* map *)
      intros e n kt vt len body Hn Hv Hk Hvt Hp IH.
      assert (Hmap : forall d, (2 * List.length (len ++ [16 * kt + vt]%Z ++ body) <= d)%nat ->
                reads R (skip_map c I d) (len ++ [16 * kt + vt] ++ body) tt).
      { intros d Hd. pose proof (varint_nonempty _ _ Hv). rewrite !app_length in Hd. cbn [List.length] in Hd.
        destruct d as [|d]; [lia|]. cbn [skip_map].
        rewrite app_assoc. eapply reads_bind with (a := (Z.of_nat n, kt, vt)).
        - unfold read_map_len_and_types. eapply reads_bind.
          + apply read_len_reads with (n := Z.of_nat n); [exact D|exact Hc|lia|exact Hv].
          + replace (Z.of_nat n =? 0) with false by lia.
            rewrite <- (app_nil_r [16 * kt + vt]). eapply reads_bind; [apply (del_byte _ _ D)|].
            replace (MAX_COLLECTION_LEN <? Z.of_nat n) with false by (unfold MAX_COLLECTION_LEN; lia).
            rewrite land_15, shiftr_div by lia. change (2 ^ 4) with 16.
            replace ((16 * kt + vt) mod 16) with vt by lia.
            replace ((16 * kt + vt) / 16) with kt by lia. apply reads_ret.
        - cbv beta iota. rewrite Nat2Z.id. apply IH. lia. }
      split.
      + intros d Hd. destruct d as [|d]; [lia|].
        cbn [skip_field Z.leb Z.eqb andb orb Z.compare Pos.compare Pos.compare_cont Pos.eqb]. apply Hmap. lia.
      + intros _ d Hd. unfold elem_skip. cbn [Z.leb Z.eqb andb orb Z.compare Pos.compare Pos.compare_cont Pos.eqb].
        apply Hmap. lia.
    - (* struct *)
      intros e body Hf IH. pose proof (wire_fields_nonempty _ _ Hf) as Hne.
      assert (Hs : forall d e', (2 * List.length body < d)%nat -> reads R (skip_field c I d 12 e') body tt).
      { intros d e' Hd. destruct d as [|d]; [lia|].
        cbn [skip_field Z.leb Z.eqb andb orb Z.compare Pos.compare Pos.compare_cont Pos.eqb].
        intros s rest HR. apply IH with (rest := rest); [lia|lia| |exact HR].
        pose proof (del_left _ _ D _ _ HR) as Hl. rewrite app_length in Hl. lia. }
      split; [intros d; apply Hs|].
      intros _ d Hd. unfold elem_skip. cbn [Z.leb Z.eqb andb orb Z.compare Pos.compare Pos.compare_cont Pos.eqb].
      apply Hs. lia.
    - intros et d Hd. apply reads_ret.
    - intros et n b1 b2 H1 [_ IH1] H2 IH2 d Hd. rewrite app_length in Hd. cbn [repeatM].
      eapply reads_bind; [apply IH1; [reflexivity|lia]|apply IH2; lia].
    - intros kt vt d Hd. apply reads_ret.
    - intros kt vt n b1 b2 b3 H1 [IH1 _] H2 [IH2 _] H3 IH3 d Hd. rewrite !app_length in Hd. cbn [repeatM].
      rewrite app_assoc. eapply reads_bind; [|apply IH3; lia].
      eapply reads_bind; [apply IH1; lia|apply IH2; lia].
    - (* stop *)
      intros last Hl d fuel s rest Hd Hfuel HR.
      destruct fuel as [|fuel]; [cbn in Hfuel; lia|]. cbn [skip_struct_loop].
      destruct (read_field_header_stop R c I D last s rest HR) as (s1 & E1 & R1).
      exists s1. unfold bind. rewrite E1. split; [reflexivity|exact R1].
    - (* field *)
      intros last id t hdr payload rest0 Ht Hh Hw [IHw _] Hf IHf Hl d fuel s rest Hd Hfuel HR.
      pose proof (field_header_nonempty _ _ _ _ Hh) as Hne.
      pose proof (field_header_id _ _ _ _ Hl Hh) as Hid.
      pose proof (wire_fields_nonempty _ _ Hf) as Hne'.
      rewrite !app_length in Hd, Hfuel.
      destruct fuel as [|fuel]; [lia|]. cbn [skip_struct_loop].
      rewrite <- !app_assoc in HR.
      destruct (read_field_header_reads R c I D last id t hdr Hl ltac:(lia) Hh s _ HR) as (s1 & E1 & R1).
      unfold bind at 1. rewrite E1. replace (t =? 0) with false by lia.
      destruct (IHw d ltac:(lia) _ _ R1) as (s2 & E2 & R2).
      unfold bind. rewrite E2. apply IHf with (rest := rest); [lia|lia|lia|exact R2].
  Qed.

  Lemma skip_field_wire t e bs d :
    wire t e bs -> (2 * List.length bs < d)%nat -> reads R (skip_field c I d t e) bs tt.
  Proof. intros H. apply skip_wire in H as [H _]. exact (H d). Qed.
End Skip.
