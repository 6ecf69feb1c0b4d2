(** The writer's encoding is a shortest one, and what decodes uniquely. *)
From Coq Require Import ZifyBool ZifyNat ZifyN.
From Verif Require Import Base Uleb Utf8 Protocol Encodings Types SpecUtf8 SpecCompact SpecInput Schema Typing
  Parquet P_Arith P_Reads P_Inputs P_Gen P_Fill P_Write P_Roundtrip.
Ltac Zify.zify_post_hook ::= Z.div_mod_to_equations.

(** * Lower bounds *)
Lemma vsize_min n bs : varint n bs -> vsize n <= zlen bs.
Proof.
  intros (Ht & Hd & _ & Hn). unfold vsize, zlen. pose proof (leb_minimal 10 n bs ltac:(lia) Hd Ht). lia.
Qed.
Lemma vsize_pos n : 1 <= vsize n.
Proof. unfold vsize. cbn [leb]. destruct (127 <? n); unfold zlen; cbn [List.length]; lia. Qed.
Lemma lsize_min n et hdr : list_header n et hdr -> lsize n <= zlen hdr.
Proof.
  intros H. unfold lsize. destruct H as [H|bs H Hv].
  - destruct (n <? 15) eqn:?; [reflexivity|lia].
  - unfold zlen. cbn [List.length]. fold (zlen bs). pose proof (vsize_min _ _ Hv). unfold zlen in *. destruct (n <? 15) eqn:?; lia.
Qed.
(** Ids: one byte below 64, two below 8192, three otherwise. *)
Lemma vsize_id m : 0 <= m <= 32767 -> vsize (zigzag m) = if m <? 64 then 1 else if m <? 8192 then 2 else 3.
Proof.
  intros Hm. unfold vsize, zigzag. destruct (0 <=? m) eqn:?; [|lia]. cbn [leb].
  destruct (127 <? 2 * m) eqn:H1; [|destruct (m <? 64) eqn:?; [reflexivity|lia]].
  destruct (127 <? 2 * m / 128) eqn:H2; [|destruct (m <? 64) eqn:?; [lia|]; destruct (m <? 8192) eqn:?; [reflexivity|lia]].
  destruct (127 <? 2 * m / 128 / 128) eqn:H3; [lia|]. destruct (m <? 64) eqn:?; [lia|]. destruct (m <? 8192) eqn:?; [lia|]. reflexivity.
Qed.

(** Header bytes needed to get from [last] to some id of at least [m]. *)
Definition way (last m : Z) : Z :=
  if m <=? last + 15 then 1 else Z.min ((m - last + 14) / 15) (1 + vsize (zigzag m)).

Lemma way_short last id m : 0 < m <= 32767 -> 1 <= id - last <= 15 -> way last m <= 1 + way id m.
Proof.
  intros Hm Hd. unfold way. pose proof (vsize_pos (zigzag m)).
  destruct (m <=? last + 15) eqn:H1, (m <=? id + 15) eqn:H2; lia.
Qed.
Lemma way_long last id m bs : 0 < m <= 32767 -> zz_int 16 id bs -> way last m <= 1 + zlen bs + way id m.
Proof.
  intros Hm [Hr Hv]. apply vsize_min in Hv. unfold in_s in Hr. unfold way. pose proof (vsize_pos (zigzag id)).
  rewrite (vsize_id m) by lia.
  destruct (Z.lt_ge_cases id 0) as [Hneg|Hpos].
  - destruct (m <=? last + 15) eqn:H1, (m <=? id + 15) eqn:H2, (m <? 64) eqn:H3, (m <? 8192) eqn:H4; lia.
  - rewrite vsize_id in Hv by lia.
    destruct (m <=? last + 15) eqn:H1, (m <=? id + 15) eqn:H2, (m <? 64) eqn:H3, (m <? 8192) eqn:H4,
      (id <? 64) eqn:H5, (id <? 8192) eqn:H6; lia.
Qed.
Lemma way_pos last m : 1 <= way last m.
Proof. unfold way. pose proof (vsize_pos (zigzag m)). destruct (m <=? last + 15) eqn:?; lia. Qed.
Lemma way_header last id ft hdr m : 0 < m <= 32767 -> field_header last id ft hdr -> way last m <= zlen hdr + way id m.
Proof.
  intros Hm H. destruct H as [H1 H2|bs H].
  - apply way_short; [exact Hm|exact H1].
  - unfold zlen. cbn [List.length]. pose proof (way_long last id m bs Hm H). unfold zlen in *. lia.
Qed.
Lemma way_reach last id ft hdr m : 0 < m <= id -> id <= 32767 -> field_header last id ft hdr -> way last m <= zlen hdr.
Proof.
  intros Hm Hid H. destruct H as [H1 H2|bs [_ H]].
  - unfold way. destruct (m <=? last + 15) eqn:?; [reflexivity|lia].
  - unfold zlen. cbn [List.length]. apply vsize_min in H. unfold zlen in H.
    rewrite vsize_id in H by lia. unfold way. rewrite vsize_id by lia.
    destruct (m <=? last + 15) eqn:H1, (m <? 64) eqn:H3, (m <? 8192) eqn:H4, (id <? 64) eqn:H5, (id <? 8192) eqn:H6; lia.
Qed.
Lemma way_hsize m : 0 < m <= 32767 -> hsize 0 m = way 0 m.
Proof.
  intros Hm. unfold hsize, way. rewrite Z.sub_0_r, vsize_id by lia.
  destruct ((1 <=? m) && (m <=? 15)) eqn:H1, (m <=? 0 + 15) eqn:H2, (m <? 64) eqn:H3, (m <? 8192) eqn:H4; lia.
Qed.

(** * Every conforming encoding has at least the written size *)
Definition psize (E : env) (fv : field * value) : Z := if obool (snd fv) then 0 else csize E (snd fv) (f_ty (fst fv)).

Lemma zsum_app l1 l2 : zsum (l1 ++ l2) = zsum l1 + zsum l2.
Proof. unfold zsum. induction l1 as [|x l1 IH]; cbn [app fold_right]; lia. Qed.
Lemma zsum_middle {A} (f : A -> Z) p1 x p2 : zsum (map f (p1 ++ x :: p2)) = f x + zsum (map f (p1 ++ p2)).
Proof. rewrite !map_app, !zsum_app. cbn [map]. unfold zsum. cbn [fold_right]. lia. Qed.
Lemma zlen_middle {A} p1 (x : A) p2 : zlen (p1 ++ x :: p2) = 1 + zlen (p1 ++ p2).
Proof. unfold zlen. rewrite !app_length. cbn [List.length]. lia. Qed.

Lemma fields_after E fs : forall last vs, 0 < last -> Forall2 field_shape fs vs -> fields_fit (fits E) last fs vs = true ->
  fields_size (csize E) last fs vs = zsum (map (psize E) (present fs vs)) + zlen (present fs vs) /\
  (forall fv, In fv (present fs vs) -> last < f_id (fst fv) <= 32767 /\ fits E (snd fv) (f_ty (fst fv)) = true).
Proof.
  induction fs as [|f fs IH]; intros last vs Hl Hsh Hfit; inversion Hsh as [|? v ? vs' Hs Hsh']; subst.
  - split; [reflexivity|intros ? []].
  - cbn [fields_fit fields_size present] in *. fold (fields_fit (fits E)) in *. fold (fields_size (csize E)).
    assert (Hp : header_ok last (f_id f) && not_option (f_ty f) && fits E v (field_ty f) && fields_fit (fits E) (f_id f) fs vs' = true ->
      forall w, present (f :: fs) (v :: vs') = (f, w) :: present fs vs' ->
        (if obool v then 0 else csize E v (field_ty f)) = psize E (f, w) -> fits E v (field_ty f) = fits E w (f_ty f) ->
        hsize last (f_id f) + (if obool v then 0 else csize E v (field_ty f)) + fields_size (csize E) (f_id f) fs vs'
          = zsum (map (psize E) ((f, w) :: present fs vs')) + zlen ((f, w) :: present fs vs') /\
        (forall fv, In fv ((f, w) :: present fs vs') -> last < f_id (fst fv) <= 32767 /\ fits E (snd fv) (f_ty (fst fv)) = true)).
    { rewrite !andb_true_iff. intros [[[H1 _] H3] H4] w _ Hw Hf. unfold header_ok in H1.
      destruct (IH (f_id f) vs' ltac:(lia) Hsh' H4) as [I1 I2]. split.
      - rewrite I1, Hw. unfold hsize. destruct ((1 <=? f_id f - last) && (f_id f - last <=? 15)) eqn:Hd; [|lia].
        cbn [map]. unfold zsum, zlen. cbn [fold_right List.length]. lia.
      - intros fv [<-|Hin]; cbn [fst snd].
        + split; [lia|]. rewrite <- Hf. exact H3.
        + destruct (I2 fv Hin) as [I3 I4]. split; [lia|exact I4]. }
    destruct (f_req f) eqn:Hreq.
    + apply Hp with (w := v).
      * exact Hfit.
      * cbn [present]. rewrite Hreq. reflexivity.
      * unfold psize, field_ty. rewrite Hreq. reflexivity.
      * unfold field_ty. rewrite Hreq. reflexivity.
    + destruct Hs as [Hs|[->|[w ->]]]; [congruence| |].
      * apply IH; assumption.
      * apply Hp with (w := w).
        -- exact Hfit.
        -- cbn [present]. rewrite Hreq. reflexivity.
        -- unfold psize, field_ty. rewrite Hreq. reflexivity.
        -- unfold field_ty. rewrite Hreq. reflexivity.
Qed.
Lemma fields_from_0 E fs : forall vs, Forall2 field_shape fs vs -> fields_fit (fits E) 0 fs vs = true ->
  (present fs vs = [] /\ fields_size (csize E) 0 fs vs = 0) \/
  (exists m, 0 < m <= 32767 /\ fields_size (csize E) 0 fs vs = zsum (map (psize E) (present fs vs)) + zlen (present fs vs) - 1 + way 0 m /\
   present fs vs <> [] /\
   (forall fv, In fv (present fs vs) -> m <= f_id (fst fv) <= 32767 /\ fits E (snd fv) (f_ty (fst fv)) = true)).
Proof.
  induction fs as [|f fs IH]; intros vs Hsh Hfit; inversion Hsh as [|? v ? vs' Hs Hsh']; subst.
  - left. split; reflexivity.
  - cbn [fields_fit fields_size present] in *. fold (fields_fit (fits E)) in *. fold (fields_size (csize E)).
    assert (Hp : header_ok 0 (f_id f) && not_option (f_ty f) && fits E v (field_ty f) && fields_fit (fits E) (f_id f) fs vs' = true ->
      forall w, (if obool v then 0 else csize E v (field_ty f)) = psize E (f, w) -> fits E v (field_ty f) = fits E w (f_ty f) ->
      exists m, 0 < m <= 32767 /\
        hsize 0 (f_id f) + (if obool v then 0 else csize E v (field_ty f)) + fields_size (csize E) (f_id f) fs vs'
          = zsum (map (psize E) ((f, w) :: present fs vs')) + zlen ((f, w) :: present fs vs') - 1 + way 0 m /\
        (f, w) :: present fs vs' <> [] /\
        (forall fv, In fv ((f, w) :: present fs vs') -> m <= f_id (fst fv) <= 32767 /\ fits E (snd fv) (f_ty (fst fv)) = true)).
    { rewrite !andb_true_iff. intros [[[H1 _] H3] H4] w Hw Hf. unfold header_ok in H1. exists (f_id f).
      assert (Hid : 0 < f_id f <= 32767) by lia. split; [exact Hid|].
      destruct (fields_after E fs (f_id f) vs' ltac:(lia) Hsh' H4) as [I1 I2]. split; [|split; [discriminate|]].
      - rewrite I1, Hw, way_hsize by exact Hid. cbn [map]. unfold zsum, zlen. cbn [fold_right List.length]. lia.
      - intros fv [<-|Hin]; cbn [fst snd].
        + split; [lia|]. rewrite <- Hf. exact H3.
        + destruct (I2 fv Hin) as [I3 I4]. split; [lia|exact I4]. }
    destruct (f_req f) eqn:Hreq.
    + right. apply Hp; [exact Hfit| |]; unfold psize, field_ty; rewrite Hreq; reflexivity.
    + destruct Hs as [Hs|[->|[w ->]]]; [congruence| |].
      * apply IH; assumption.
      * right. apply Hp; [exact Hfit| |]; unfold psize, field_ty; rewrite Hreq; reflexivity.
Qed.

Lemma bits_from_NoDup n : forall k m, NoDup (bits_from n k m).
Proof.
  induction n as [|n IH]; intros k m; cbn [bits_from]; [constructor|].
  destruct (Z.testbit m k); cbn [app]; [|apply IH]. constructor; [|apply IH].
  intros H. apply bits_from_In in H. lia.
Qed.
Lemma boolish_direct t : boolish t = false -> bool_direct t = true.
Proof. induction t; cbn [boolish bool_direct]; intros H; try reflexivity; try discriminate; auto; rewrite H; reflexivity. Qed.
Lemma obool_direct E t v ft bs : enc_field E t v ft bs -> boolish t = true -> bool_direct t = true -> obool v = true.
Proof.
  intros H. induction H; cbn [boolish bool_direct obool]; intros Hb Hd; try reflexivity; try congruence; auto;
    rewrite Hb in Hd; discriminate.
Qed.
Lemma header_pos last id ft hdr : field_header last id ft hdr -> 1 <= zlen hdr.
Proof. intros []; unfold zlen; cbn [List.length]; lia. Qed.

Lemma enc_size E K : env_ok true E K = true ->
  (forall t v bs, enc E t v bs -> fits E v t = true -> csize E v t <= zlen bs) /\
  (forall t vs bs, enc_seq E t vs bs -> forallb (fun w => fits E w t) vs = true -> zsum (map (fun w => csize E w t) vs) <= zlen bs) /\
  (forall t v ft bs, enc_field E t v ft bs -> bool_direct t = true -> fits E v t = true ->
     (if obool v then 0 else csize E v t) <= zlen bs) /\
  (forall fs last pending bs, enc_fields E fs last pending bs ->
     (forall fv, In fv pending -> bool_direct (f_ty (fst fv)) = true /\ fits E (snd fv) (f_ty (fst fv)) = true) ->
     zsum (map (psize E) pending) + zlen pending + 1 <= zlen bs /\
     forall m, 0 < m <= 32767 -> pending <> [] -> (forall fv, In fv pending -> m <= f_id (fst fv) <= 32767) ->
       zsum (map (psize E) pending) + zlen pending - 1 + way last m + 1 <= zlen bs).
Proof.
  intros HE. apply enc_mutind.
  - intros _. reflexivity.
  - intros b _ _. reflexivity.
  - intros z _ _. reflexivity.
  - intros z bs [_ H] _. apply vsize_min. exact H.
  - intros z bs [_ H] _. apply vsize_min. exact H.
  - intros z bs [_ H] _. apply vsize_min. exact H.
  - intros bs H _ _. unfold zlen. rewrite H. reflexivity.
  - intros pl bs (len & -> & H & _) _. rewrite zlen_app. apply vsize_min in H. cbn [csize]. lia.
  - intros pl bs (len & -> & H & _) _ _. rewrite zlen_app. apply vsize_min in H. cbn [csize]. lia.
  - intros t vs tag hdr body _ Hh _ IH Hfit. rewrite zlen_app. cbn [csize]. apply lsize_min in Hh. specialize (IH Hfit). lia.
  - intros t v bs _ IH Hfit. exact (IH Hfit).
  - intros t v bs _ IH Hfit. exact (IH Hfit).
  - intros t v bs _ IH Hfit. exact (IH Hfit).
  - (* EncodingSet *)
    intros mask zs hdr body Hzs Hm Hbits Hh _ IH _. rewrite zlen_app. cbn [csize].
    set (bits := bits_from 32 0 mask).
    assert (Hle : zlen bits <= zlen zs).
    { unfold zlen. apply inj_le. apply NoDup_incl_length; [apply bits_from_NoDup|].
      intros x Hx. apply bits_from_In in Hx as [Hr Hx]. apply Hbits; [lia|exact Hx]. }
    assert (Hb32 : zlen bits <= 32) by (unfold zlen; pose proof (bits_from_length 32 0 mask); fold bits in H; lia).
    assert (Hbody : zlen zs <= zlen body).
    { assert (Hall : forallb (fun w => fits E w TI32) (map VI32 zs) = true) by (clear; induction zs; [reflexivity|exact IHzs]).
      specialize (IH Hall). etransitivity; [|exact IH]. clear. induction zs as [|z zs IHzs]; [reflexivity|].
      cbn [map]. unfold zsum, zlen in *. cbn [fold_right List.length csize] in *. pose proof (vsize_pos (zigzag z)). lia. }
    apply lsize_min in Hh. unfold lsize in *. pose proof (vsize_pos (zlen zs)).
    destruct (zlen bits <? 15) eqn:H1, (zlen zs <? 15) eqn:H2; try lia.
    assert (vsize (zlen bits) = 1); [|lia].
    unfold vsize. cbn [leb]. destruct (127 <? zlen bits) eqn:?; [lia|reflexivity].
  - intros n z bs _ [_ H] _. apply vsize_min. exact H.
  - (* struct *)
    intros n fs vs bs Hl Hsh _ IH Hfit. cbn [csize fits] in *. rewrite Hl in *.
    destruct (struct_fields _ _ _ _ _ HE Hl) as (_ & Hfo & _).
    assert (Hdir : forall fv, In fv (present fs vs) -> bool_direct (f_ty (fst fv)) = true).
    { intros fv Hin. apply Hfo; [|reflexivity]. clear -Hin. revert vs Hin. induction fs as [|f fs IHf]; intros [|v vs] Hin; cbn [present] in Hin; try contradiction.
      apply in_app_or in Hin as [Hin|Hin]; [|right; eapply IHf; exact Hin].
      left. destruct (f_req f); [destruct Hin as [<-|[]]; reflexivity|]. destruct v; cbn [In] in Hin; try contradiction. destruct Hin as [<-|[]]. reflexivity. }
    destruct (fields_from_0 E fs vs Hsh Hfit) as [[Hp Hsz]|(m & Hm & Hsz & Hp & Hall)].
    + rewrite Hp in *. destruct (IH ltac:(intros ? [])) as [I _]. cbn [map zsum fold_right] in I. unfold zlen in *. cbn [List.length] in I. lia.
    + destruct IH as [_ I].
      * intros fv Hin. split; [apply Hdir; exact Hin|apply Hall; exact Hin].
      * specialize (I m Hm Hp (fun fv Hin => proj1 (Hall fv Hin))). lia.
  - (* union *)
    intros n fs i f v ft hdr payload Hl Hn Hh _ IH Hfit. cbn [csize fits] in *. rewrite Hl, Hn in *.
    rewrite !andb_true_iff in Hfit. destruct Hfit as [[H1 _] H3]. unfold header_ok in H1.
    destruct (union_fields _ _ _ _ _ HE Hl) as (_ & Hfo & _).
    destruct (Hfo f (nth_error_In _ _ Hn)) as (_ & _ & Hnb).
    specialize (IH (boolish_direct _ Hnb) H3). rewrite !zlen_app.
    rewrite way_hsize by lia. pose proof (way_reach 0 (f_id f) ft hdr (f_id f) ltac:(lia) ltac:(lia) Hh).
    change (zlen [0]) with 1. lia.
  - intros t _. reflexivity.
  - intros t v vs b1 b2 _ IH1 _ IH2 Hfit. cbn [forallb map] in *. apply andb_true_iff in Hfit as [H1 H2].
    specialize (IH1 H1). specialize (IH2 H2). rewrite zlen_app. unfold zsum in *. cbn [fold_right]. lia.
  - intros b _ _. reflexivity.
  - intros t v ft bs Hb _ IH Hd Hfit. cbn [obool csize bool_direct fits] in *. apply IH; assumption.
  - intros t v ft bs Hb _ _ Hd _. cbn [bool_direct boolish] in Hd. rewrite Hb in Hd. discriminate.
  - intros t v ft bs Hb _ _ Hd _. cbn [bool_direct boolish] in Hd. rewrite Hb in Hd. discriminate.
  - intros t v bs Hb He IH Hd Hfit. specialize (IH Hfit). pose proof (zlen_nonneg bs). destruct (obool v); lia.
  - (* stop *)
    intros fs last Hall. split; [reflexivity|]. intros m Hm Hne _. congruence.
  - (* known *)
    intros fs last p1 f v p2 ft hdr payload rest Hh _ IHp _ IHr Hall.
    destruct (Hall (f, v) ltac:(apply in_or_app; right; left; reflexivity)) as [Hd Hf]. specialize (IHp Hd Hf).
    destruct (IHr ltac:(intros fv Hin; apply Hall; apply in_app_or in Hin as [Hin|Hin]; apply in_or_app; [left; exact Hin|right; right; exact Hin])) as [I1 I2].
    rewrite (zlen_app hdr), (zlen_app payload), zsum_middle, zlen_middle.
    change (psize E (f, v)) with (if obool v then 0 else csize E v (f_ty f)).
    pose proof (header_pos _ _ _ _ Hh). split; [lia|].
    intros m Hm _ Hids. destruct (Hids (f, v) ltac:(apply in_or_app; right; left; reflexivity)) as [Hid1 Hid2]. cbn [fst] in *.
    pose proof (way_reach last (f_id f) ft hdr m ltac:(lia) ltac:(lia) Hh). lia.
  - (* unknown *)
    intros fs last pending id t hdr payload rest _ _ Hh _ _ IH Hall.
    destruct (IH Hall) as [I1 I2]. rewrite !zlen_app. pose proof (header_pos _ _ _ _ Hh). pose proof (zlen_nonneg payload).
    split; [lia|]. intros m Hm Hne Hids. specialize (I2 m Hm Hne Hids).
    pose proof (way_header _ _ _ _ m Hm Hh). lia.
Qed.

Lemma fits_unshare E :
  (forall t v, typed E t v -> fits E v t = true -> fits E (unshare v) t = true) /\
  (forall t vs, typed_seq E t vs -> forallb (fun w => fits E w t) vs = true -> forallb (fun w => fits E w t) (map unshare vs) = true) /\
  (forall fs vs, typed_fields E fs vs -> forall last, fields_fit (fits E) last fs vs = true -> fields_fit (fits E) last fs (map unshare vs) = true).
Proof.
  apply typed_mutind; intros; cbn [unshare fits] in *; auto.
  - rewrite H in *. apply H1. exact H2.
  - rewrite H, H0 in *. rewrite !andb_true_iff in *. destruct H3 as [[H3 H4] H5]. auto.
  - cbn [map forallb] in *. rewrite andb_true_iff in *. destruct H3. auto.
  - cbn [map fields_fit] in *. fold (fields_fit (fits E)) in *.
    assert (Hp : header_ok last (f_id f) && not_option (f_ty f) && fits E v (field_ty f) && fields_fit (fits E) (f_id f) fs vs = true ->
      header_ok last (f_id f) && not_option (f_ty f) && fits E (unshare v) (field_ty f) && fields_fit (fits E) (f_id f) fs (map unshare vs) = true).
    { rewrite !andb_true_iff. intros [[[A B] C] D]. auto. }
    destruct (f_req f); [auto|]. destruct v; cbn [unshare] in *; auto.
Qed.

Lemma shortest E K t v bs bs' : env_ok true E K = true -> fits E v t = true -> typed E t v ->
  write_thrift vec_write_all E t v [] = (bs, Ok tt) -> enc E t (unshare v) bs' -> (List.length bs <= List.length bs')%nat.
Proof.
  intros HE Hf Ht Hw He. destruct (write_sized E K false true t v bs Ht Hw) as (_ & _ & Hg).
  destruct (Hg HE Hf) as [_ Hs].
  pose proof (proj1 (enc_size E K HE) t (unshare v) bs' He (proj1 (fits_unshare E) t v Ht Hf)) as Hle. unfold zlen in *. lia.
Qed.

(** * Unique decodability *)
Lemma content_data bs : content [RData bs] = bs.
Proof. destruct bs as [|b bs]; [reflexivity|]. cbn [content]. apply app_nil_r. Qed.

Lemma both_read_unique {A} c (m : forall S, input S -> M S A) b1 b2 r1 r2 a1 a2 :
  both_read c m b1 a1 -> both_read c m b2 a2 -> b1 ++ r1 = b2 ++ r2 -> b1 = b2 /\ a1 = a2.
Proof.
  intros [_ H1] [_ H2] Heq.
  destruct (H1 [RData (b1 ++ r1)] r1 (content_data _)) as (x1 & E1 & C1 & _).
  destruct (H2 [RData (b1 ++ r1)] r2) as (x2 & E2 & C2 & _); [rewrite content_data; exact Heq|].
  rewrite E1 in E2. injection E2 as -> ->. assert (r1 = r2) as -> by congruence.
  apply app_inv_tail in Heq. auto.
Qed.
Lemma enc_unique E K t v1 v2 b1 b2 r1 r2 : env_ok true E K = true -> ty_closed E t = true ->
  enc E t v1 b1 -> enc E t v2 b2 -> b1 ++ r1 = b2 ++ r2 -> b1 = b2 /\ v1 = v2.
Proof.
  intros HE Hcl H1 H2 Heq. set (d := (need K t (List.length b1) + need K t (List.length b2))%nat).
  eapply (both_read_unique release64 (fun S I => read_thrift release64 I E d t)); [| |exact Heq].
  - apply (read_conforming release64 E K t v1 b1 d release64_ok ltac:(intros n _; reflexivity) HE Hcl H1). unfold d. lia.
  - apply (read_conforming release64 E K t v2 b2 d release64_ok ltac:(intros n _; reflexivity) HE Hcl H2). unfold d. lia.
Qed.
Lemma write_unique E K t v1 v2 b1 b2 r1 r2 : env_ok false E K = true -> fits E v1 t = true -> fits E v2 t = true ->
  typed E t v1 -> typed E t v2 ->
  write_thrift vec_write_all E t v1 [] = (b1, Ok tt) -> write_thrift vec_write_all E t v2 [] = (b2, Ok tt) ->
  b1 ++ r1 = b2 ++ r2 -> b1 = b2 /\ unshare v1 = unshare v2.
Proof.
  intros HE F1 F2 T1 T2 H1 H2 Heq. set (d := (need K t (List.length b1) + need K t (List.length b2))%nat).
  eapply (both_read_unique release64 (fun S I => read_thrift release64 I E d t)); [| |exact Heq].
  - apply (write_read release64 E K t v1 b1 d release64_ok ltac:(intros n _; reflexivity) HE F1 T1 H1). unfold d. lia.
  - apply (write_read release64 E K t v2 b2 d release64_ok ltac:(intros n _; reflexivity) HE F2 T2 H2). unfold d. lia.
Qed.
Lemma parquet_shortest t v bs bs' : typed parquet_env t v -> write_thrift vec_write_all parquet_env t v [] = (bs, Ok tt) ->
  enc parquet_env t (unshare v) bs' -> (List.length bs <= List.length bs')%nat.
Proof.
  intros Ht Hw He. destruct parquet_ok as (_ & HE & HW).
  exact (shortest parquet_env 12 t v bs bs' HE (schema_fits _ _ _ HW Ht) Ht Hw He).
Qed.

(** * Sharing is invisible *)
Lemma writer_unshare {W} (wa : list Z -> M W unit) E :
  (forall t v, typed E t v -> writer wa E (unshare v) t = writer wa E v t) /\
  (forall t vs, typed_seq E t vs -> map (fun w => writer wa E w t) (map unshare vs) = map (fun w => writer wa E w t) vs) /\
  (forall fs vs, typed_fields E fs vs -> zipw wa E (map unshare vs) fs = zipw wa E vs fs).
Proof.
  apply typed_mutind; intros; cbn [unshare]; try reflexivity.
  - cbn [writer]. unfold zlen. rewrite map_length, H1. reflexivity.
  - cbn [writer]. rewrite H0. reflexivity.
  - cbn [writer]. rewrite H0. reflexivity.
  - cbn [writer]. rewrite H0. reflexivity.
  - cbn [writer]. rewrite H. change (with_default wa (field_type E (TNamed n)) (write_fields (zipw wa E (map unshare vs) fs) fs 0 ;; write_byte wa 0)
      = with_default wa (field_type E (TNamed n)) (write_fields (zipw wa E vs fs) fs 0 ;; write_byte wa 0)). rewrite H1. reflexivity.
  - cbn [writer]. rewrite H, H0, H2. reflexivity.
  - cbn [map]. rewrite H0, H2. reflexivity.
  - cbn [map zipw]. fold (@zipw W wa E). rewrite H0, H2. reflexivity.
Qed.
Lemma write_unshare {W} (wa : list Z -> M W unit) E t v : typed E t v -> write_thrift wa E t (unshare v) = write_thrift wa E t v.
Proof. intros Ht. unfold write_thrift. rewrite (proj1 (writer_unshare wa E) t v Ht). reflexivity. Qed.
