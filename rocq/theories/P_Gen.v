(** A relation between the specification's [enc] and what the implementation
    reads and writes: as [enc], except that booleans behind pointers are bytes
    with type 2 in the header (allowed when [strict = false]), that union
    payloads are never booleans in the header, and that wire codes are the
    model's.  [unk]: unknown fields are allowed. *)
From Verif Require Import Base Types SpecUtf8 SpecCompact Schema.

Definition bool_or_option (t : ty) : bool :=
  match t with TBool | TOption _ => true | _ => false end.

Inductive gencu (unk strict : bool) (E : env) : ty -> value -> list Z -> Prop :=
| gn_true : gencu unk strict E TBool (VBool true) [1]
| gn_false b : b = 2 \/ b = 0 -> gencu unk strict E TBool (VBool false) [b]
| gn_i8 z : in_s 8 z -> gencu unk strict E TI8 (VI8 z) [z mod 256]
| gn_i16 z bs : zz_int 16 z bs -> gencu unk strict E TI16 (VI16 z) bs
| gn_i32 z bs : zz_int 32 z bs -> gencu unk strict E TI32 (VI32 z) bs
| gn_i64 z bs : zz_int 64 z bs -> gencu unk strict E TI64 (VI64 z) bs
| gn_double bs : List.length bs = 8%nat -> bytes bs -> gencu unk strict E TDouble (VDouble (digits256 bs)) bs
| gn_bin payload bs : binary payload bs -> gencu unk strict E TBinary (VBin payload) bs
| gn_str payload bs : binary payload bs -> well_formed_utf8 payload -> gencu unk strict E TString (VStr payload) bs
| gn_vec t vs tag hdr body :
    ty_closed E t = true ->
    elem_tag E t tag -> list_header (zlen vs) tag hdr -> gencu_seq unk strict E t vs body ->
    gencu unk strict E (TVec t) (VVec vs) (hdr ++ body)
| gn_some t v bs : gencu unk strict E t v bs -> gencu unk strict E (TOption t) (VSome v) bs
| gn_box t v bs : gencu unk strict E t v bs -> gencu unk strict E (TBox t) (VBox v) bs
| gn_shared t v bs : gencu unk strict E t v bs -> gencu unk strict E (TShared t) (VShared true v) bs
| gn_encset mask zs hdr body :
    Forall (fun z => 0 <= z <= 30) zs ->
    0 <= mask -> (forall k, 0 <= k -> Z.testbit mask k = true <-> In k zs) ->
    list_header (zlen zs) 5 hdr -> gencu_seq unk strict E TI32 (map VI32 zs) body ->
    gencu unk strict E TEncSet (VEncSet mask) (hdr ++ body)
| gn_enum n z bs : lookup E n = Some DEnum -> zz_int 32 z bs -> gencu unk strict E (TNamed n) (VI32 z) bs
| gn_struct n fs vs bs :
    lookup E n = Some (DStruct fs) -> Forall2 field_shape fs vs ->
    gencu_fields unk strict E fs 0 (present fs vs) bs ->
    gencu unk strict E (TNamed n) (VStruct vs) bs
| gn_union n fs i f v hdr payload :
    lookup E n = Some (DUnion fs) -> nth_error fs i = Some f ->
    boolish (f_ty f) = false -> ty_closed E (f_ty f) = true ->
    field_header 0 (f_id f) (wire_code E (f_ty f)) hdr -> gencu unk strict E (f_ty f) v payload ->
    gencu unk strict E (TNamed n) (VUnion i v) (hdr ++ payload ++ [0])
with gencu_seq (unk strict : bool) (E : env) : ty -> list value -> list Z -> Prop :=
| gs_nil t : gencu_seq unk strict E t [] []
| gs_cons t v vs b1 b2 :
    gencu unk strict E t v b1 -> gencu_seq unk strict E t vs b2 -> gencu_seq unk strict E t (v :: vs) (b1 ++ b2)
with gencu_field (unk strict : bool) (E : env) : ty -> value -> Z -> list Z -> Prop :=
| gf_bool b : gencu_field unk strict E TBool (VBool b) (if b then 1 else 2) []
| gf_option t v ft bs : gencu_field unk strict E t v ft bs -> gencu_field unk strict E (TOption t) (VSome v) ft bs
| gf_other t v bs :
    bool_or_option t = false -> (strict = true -> boolish t = false) -> ty_closed E t = true ->
    gencu unk strict E t v bs -> gencu_field unk strict E t v (wire_code E t) bs
with gencu_fields (unk strict : bool) (E : env) : list field -> Z -> list (field * value) -> list Z -> Prop :=
| gfs_stop fs last : gencu_fields unk strict E fs last [] [0]
| gfs_known fs last p1 f v p2 ft hdr payload rest :
    field_header last (f_id f) ft hdr -> gencu_field unk strict E (f_ty f) v ft payload ->
    gencu_fields unk strict E fs (f_id f) (p1 ++ p2) rest ->
    gencu_fields unk strict E fs last (p1 ++ (f, v) :: p2) (hdr ++ payload ++ rest)
| gfs_unknown fs last pending id t hdr payload rest :
    unk = true -> (forall f, In f fs -> f_id f <> id) -> 1 <= t <= 12 ->
    field_header last id t hdr -> wire t false payload ->
    gencu_fields unk strict E fs id pending rest ->
    gencu_fields unk strict E fs last pending (hdr ++ payload ++ rest).

Scheme genc_mind := Minimality for gencu Sort Prop
  with genc_seq_mind := Minimality for gencu_seq Sort Prop
  with genc_field_mind := Minimality for gencu_field Sort Prop
  with genc_fields_mind := Minimality for gencu_fields Sort Prop.
Combined Scheme genc_mutind from genc_mind, genc_seq_mind, genc_field_mind, genc_fields_mind.

(** With unknown fields, as the specification has them; the writer produces none. *)
Notation genc := (gencu true).
Notation genc_seq := (gencu_seq true).
Notation genc_field := (gencu_field true).
Notation genc_fields := (gencu_fields true).

Scheme enc_mind := Minimality for enc Sort Prop
  with enc_seq_mind := Minimality for enc_seq Sort Prop
  with enc_field_mind := Minimality for enc_field Sort Prop
  with enc_fields_mind := Minimality for enc_fields Sort Prop.
Combined Scheme enc_mutind from enc_mind, enc_seq_mind, enc_field_mind, enc_fields_mind.

(** * What the checked schema guarantees *)
Lemma lookup_In E n d : lookup E n = Some d -> In (n, d) E.
Proof.
  induction E as [|[m d'] E IH]; cbn [lookup]; [discriminate|].
  destruct (String.eqb_spec n m) as [->|Hne]; intros H; [left|right; auto].
  injection H as ->. reflexivity.
Qed.

Lemma env_ok_def strict E K n d :
  env_ok strict E K = true -> lookup E n = Some d ->
  def_ok strict E K d = true /\ exists v, default E K (TNamed n) = Some v.
Proof.
  intros HE Hl. apply lookup_In in Hl. unfold env_ok in HE. rewrite forallb_forall in HE.
  specialize (HE _ Hl). cbv beta iota in HE. apply andb_true_iff in HE as [H1 H2].
  split; [exact H1|]. destruct (default E K (TNamed n)) as [v|]; [eauto|discriminate].
Qed.

Lemma nodupb_NoDup l : nodupb l = true -> NoDup l.
Proof.
  induction l as [|x l IH]; cbn [nodupb]; intros H; [constructor|].
  apply andb_true_iff in H as [H1 H2]. constructor; [|auto].
  intros Hin. apply negb_true_iff in H1.
  assert (existsb (Z.eqb x) l = true) as Hc; [|congruence].
  apply existsb_exists. exists x. split; [exact Hin|apply Z.eqb_refl].
Qed.

Lemma struct_fields strict E K n fs :
  env_ok strict E K = true -> lookup E n = Some (DStruct fs) ->
  NoDup (map f_id fs) /\
  (forall f, In f fs -> ty_closed E (f_ty f) = true /\ (ty_depth (field_ty f) <= K)%nat
                        /\ (strict = true -> bool_direct (f_ty f) = true)) /\
  exists v, default E K (TNamed n) = Some v.
Proof.
  intros HE Hl. destruct (env_ok_def _ _ _ _ _ HE Hl) as [Hd Hv]. cbn [def_ok] in Hd.
  apply andb_true_iff in Hd as [H1 H2]. split; [apply nodupb_NoDup; exact H1|]. split; [|exact Hv].
  intros f Hf. rewrite forallb_forall in H2. specialize (H2 f Hf). unfold field_ok in H2.
  apply andb_true_iff in H2 as [H2 H4]. apply andb_true_iff in H2 as [H2 H3].
  split; [exact H2|]. split; [apply Nat.leb_le; exact H3|].
  intros ->. exact H4.
Qed.

Lemma union_fields strict E K n fs :
  env_ok strict E K = true -> lookup E n = Some (DUnion fs) ->
  NoDup (map f_id fs) /\
  (forall f, In f fs -> ty_closed E (f_ty f) = true /\ (ty_depth (f_ty f) <= K)%nat
                        /\ boolish (f_ty f) = false) /\
  exists v, default E K (TNamed n) = Some v.
Proof.
  intros HE Hl. destruct (env_ok_def _ _ _ _ _ HE Hl) as [Hd Hv]. cbn [def_ok] in Hd.
  apply andb_true_iff in Hd as [H1 H2]. split; [apply nodupb_NoDup; exact H1|]. split; [|exact Hv].
  intros f Hf. rewrite forallb_forall in H2. specialize (H2 f Hf). unfold variant_ok in H2.
  apply andb_true_iff in H2 as [H2 H4]. apply andb_true_iff in H2 as [H2 H3].
  split; [exact H2|]. split; [apply Nat.leb_le; exact H3|]. apply negb_true_iff. exact H4.
Qed.

Lemma present_In fs vs f v : In (f, v) (present fs vs) -> In f fs.
Proof.
  revert vs. induction fs as [|g fs IH]; intros vs H; [destruct vs; contradiction|].
  destruct vs as [|w vs]; [contradiction|]. cbn [present] in H. apply in_app_or in H as [H|H].
  - destruct (f_req g).
    + destruct H as [H|[]]. injection H as -> ->. now left.
    + destruct w; try contradiction. destruct H as [H|[]]. injection H as -> ->. now left.
  - right. eapply IH. exact H.
Qed.

(** * Every conforming encoding is in the relation. *)
Lemma boolish_not_direct t : boolish t = true -> bool_direct t = true -> bool_or_option t = true.
Proof. destruct t; cbn; try discriminate; try reflexivity; intros H; rewrite H; discriminate. Qed.

Lemma enc_genc E K :
  env_ok true E K = true ->
  (forall t v bs, enc E t v bs -> ty_closed E t = true -> genc true E t v bs) /\
  (forall t vs bs, enc_seq E t vs bs -> ty_closed E t = true -> genc_seq true E t vs bs) /\
  (forall t v ft bs, enc_field E t v ft bs -> ty_closed E t = true ->
     (bool_direct t = true -> genc_field true E t v ft bs) /\
     (boolish t = false -> ft = wire_code E t /\ genc true E t v bs)) /\
  (forall fs last pending bs, enc_fields E fs last pending bs ->
     (forall f, In f fs -> ty_closed E (f_ty f) = true /\ bool_direct (f_ty f) = true) ->
     (forall f v, In (f, v) pending -> In f fs) ->
     genc_fields true E fs last pending bs).
Proof.
  intros HE. apply enc_mutind; intros.
  - constructor.
  - constructor; assumption.
  - constructor; assumption.
  - constructor; assumption.
  - constructor; assumption.
  - constructor; assumption.
  - constructor; assumption.
  - constructor; assumption.
  - constructor; assumption.
  - cbn [ty_closed] in *. econstructor; eauto.
  - constructor; auto.
  - constructor; auto.
  - constructor; auto.
  - econstructor; eauto.
  - constructor; auto.
  - destruct (struct_fields _ _ _ _ _ HE H) as (_ & Hf & _).
    econstructor; eauto. apply H2.
    + intros f Hin. destruct (Hf f Hin) as (? & _ & ?). auto.
    + intros f v. apply present_In.
  - destruct (union_fields _ _ _ _ _ HE H) as (_ & Hf & _).
    apply nth_error_In in H0 as Hin. destruct (Hf _ Hin) as (Hc & _ & Hb).
    destruct (H3 Hc) as [_ H3']. destruct (H3' Hb) as [-> Hg].
    econstructor; eauto.
  - constructor.
  - constructor; auto.
  - split; [intros _; constructor|discriminate].
  - cbn [boolish ty_closed bool_direct] in *. split; [|congruence].
    intros Hd. destruct (H1 H2) as [Hg _]. constructor. auto.
  - cbn [boolish ty_closed bool_direct] in *. split; [|congruence].
    rewrite H. discriminate.
  - cbn [boolish ty_closed bool_direct] in *. split; [|congruence].
    rewrite H. discriminate.
  - split; [|auto]. intros _. clear H0. specialize (H1 H2). clear HE.
    revert v bs H1 H H2. induction t; intros v bs H1 H H2; try discriminate;
      try (apply gf_other; auto; fail).
    inversion H1; subst. constructor. apply IHt; auto.
  - constructor.
  - assert (Hin : In f fs) by (apply (H5 f v); apply in_or_app; right; left; reflexivity).
    destruct (H4 f Hin) as [Hcl Hbd]. destruct (H1 Hcl) as [Hg _].
    econstructor; [eassumption|apply Hg; exact Hbd|]. apply H3; [exact H4|].
    intros f' v' Hin'. apply (H5 f' v'). apply in_app_or in Hin' as [|]; apply in_or_app; [left|right; right]; assumption.
  - eapply gfs_unknown; eauto.
Qed.

(** * The strict relation is conforming. *)
Lemma genc_enc E :
  (forall t v bs, genc true E t v bs -> enc E t v bs) /\
  (forall t vs bs, genc_seq true E t vs bs -> enc_seq E t vs bs) /\
  (forall t v ft bs, genc_field true E t v ft bs -> enc_field E t v ft bs) /\
  (forall fs last pending bs, genc_fields true E fs last pending bs -> enc_fields E fs last pending bs).
Proof.
  apply genc_mutind; intros; try (econstructor; eauto; fail).
  - (* union *) eapply enc_union; eauto. apply efl_other; auto.
  - destruct (boolish t) eqn:Hb; [constructor; assumption|].
    inversion H0; subst; try discriminate.
    + cbn in Hb. congruence.
    + cbn in Hb. congruence.
    + cbn in Hb. congruence.
    + change (wire_code E t) with (wire_code E (TOption t)).
      apply efl_other; [exact Hb|]. constructor. assumption.
Qed.

Lemma gencu_true unk strict E :
  (forall t v bs, gencu unk strict E t v bs -> genc strict E t v bs) /\
  (forall t vs bs, gencu_seq unk strict E t vs bs -> genc_seq strict E t vs bs) /\
  (forall t v ft bs, gencu_field unk strict E t v ft bs -> genc_field strict E t v ft bs) /\
  (forall fs last p bs, gencu_fields unk strict E fs last p bs -> genc_fields strict E fs last p bs).
Proof.
  apply genc_mutind; intros; try (econstructor; eassumption).
  eapply gfs_unknown; [reflexivity|eassumption..].
Qed.
