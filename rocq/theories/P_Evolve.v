(** Schema evolution: encodings of the writer's schema are encodings of the reader's (C14). *)
From Coq Require Import ZifyBool ZifyNat ZifyN Permutation.
From Verif Require Import Base Uleb Utf8 Protocol Encodings Types SpecUtf8 SpecCompact SpecInput Schema Typing SpecEvolve Parquet
  P_Arith P_Reads P_Skip P_Inputs P_Gen P_Fill P_Write P_Roundtrip SampleSchema P_DataExamples.
Ltac Zify.zify_post_hook ::= Z.div_mod_to_equations.

(** * A typed encoding is a value of its wire type *)
Lemma elem_tag_range E t tag : elem_tag E t tag -> 1 <= tag <= 12.
Proof. intros [->|[_ ->]]; [pose proof (wire_code_range E t)|]; lia. Qed.
Lemma genc_wire unk E :
  (forall t v bs, gencu unk true E t v bs ->
     (forall tag, elem_tag E t tag -> wire tag true bs) /\ (boolish t = false -> wire (wire_code E t) false bs)) /\
  (forall t vs bs, gencu_seq unk true E t vs bs -> forall tag, elem_tag E t tag -> wire_seq tag (List.length vs) bs) /\
  (forall t v ft bs, gencu_field unk true E t v ft bs -> 1 <= ft <= 12 /\ wire ft false bs) /\
  (forall fs last pending bs, gencu_fields unk true E fs last pending bs -> wire_fields last bs).
Proof.
  apply genc_mutind.
  - split; [|discriminate]. intros tag Ht. apply w_bool_elem; [|unfold is_byte; lia]. unfold elem_tag in Ht; cbn in Ht. lia.
  - intros b Hb. split; [|discriminate]. intros tag Ht. apply w_bool_elem; [|unfold is_byte; lia]. unfold elem_tag in Ht; cbn in Ht. lia.
  - intros z Hz. cbn [wire_code boolish]. unfold elem_tag; cbn [wire_code boolish].
    split; [intros tag [->|[? _]]; [|discriminate]|intros _]; apply w_byte; unfold is_byte; lia.
  - intros z bs [_ H]. unfold elem_tag; cbn [wire_code boolish].
    split; [intros tag [->|[? _]]; [|discriminate]|intros _]; (eapply w_int; [lia|exact H]).
  - intros z bs [_ H]. unfold elem_tag; cbn [wire_code boolish].
    split; [intros tag [->|[? _]]; [|discriminate]|intros _]; (eapply w_int; [lia|exact H]).
  - intros z bs [_ H]. unfold elem_tag; cbn [wire_code boolish].
    split; [intros tag [->|[? _]]; [|discriminate]|intros _]; (eapply w_int; [lia|exact H]).
  - intros bs Hl Hb. unfold elem_tag; cbn [wire_code boolish].
    split; [intros tag [->|[? _]]; [|discriminate]|intros _]; apply w_double; assumption.
  - intros p bs H. unfold elem_tag; cbn [wire_code boolish].
    split; [intros tag [->|[? _]]; [|discriminate]|intros _]; eapply w_binary; exact H.
  - intros p bs H _. unfold elem_tag; cbn [wire_code boolish].
    split; [intros tag [->|[? _]]; [|discriminate]|intros _]; eapply w_binary; exact H.
  - intros t vs tag hdr body _ Ht Hh _ IH. unfold elem_tag at 1; cbn [wire_code boolish]. pose proof (elem_tag_range _ _ _ Ht) as Hr.
    assert (forall e, wire 9 e (hdr ++ body)) as Hw
      by (intros e; apply (w_list 9 e (List.length vs) tag hdr body); [lia|exact Hr|exact Hh|apply IH; exact Ht]).
    split; [intros tag' [->|[? _]]; [|discriminate]|intros _]; apply Hw.
  - intros t v bs _ IH. exact IH.
  - intros t v bs _ IH. exact IH.
  - intros t v bs _ IH. exact IH.
  - intros mask zs hdr body _ _ _ Hh _ IH. unfold elem_tag at 1; cbn [wire_code boolish].
    assert (forall e, wire 9 e (hdr ++ body)) as Hw.
    { intros e; apply (w_list 9 e (List.length zs) 5 hdr body); [lia|lia|exact Hh|].
      specialize (IH 5 ltac:(left; reflexivity)). rewrite map_length in IH. exact IH. }
    split; [intros tag' [->|[? _]]; [|discriminate]|intros _]; apply Hw.
  - intros n z bs Hl [_ H]. unfold elem_tag; cbn [wire_code boolish]. rewrite Hl.
    split; [intros tag [->|[? _]]; [|discriminate]|intros _]; (eapply w_int; [lia|exact H]).
  - intros n fs vs bs Hl _ _ IH. unfold elem_tag; cbn [wire_code boolish]. rewrite Hl.
    split; [intros tag [->|[? _]]; [|discriminate]|intros _]; apply w_struct; exact IH.
  - intros n fs i f v hdr payload Hl _ Hb _ Hh _ [_ IH]. specialize (IH Hb). pose proof (wire_code_range E (f_ty f)) as Hr. unfold elem_tag; cbn [wire_code boolish]. rewrite Hl.
    assert (wire_fields 0 (hdr ++ payload ++ [0])) as Hw by (eapply wf_field; [|exact Hh|exact IH|constructor]; lia).
    split; [intros tag [->|[? _]]; [|discriminate]|intros _]; apply w_struct; exact Hw.
  - intros t tag _. constructor.
  - intros t v vs b1 b2 _ [IH1 _] _ IH2 tag Ht. cbn [List.length]. constructor; auto.
  - intros b. destruct b; (split; [lia|apply w_bool_field; auto]).
  - intros t v ft bs _ IH. exact IH.
  - intros t v bs _ Hb _ _ [_ IH]. split; [pose proof (wire_code_range E t); lia|auto].
  - intros fs last. constructor.
  - intros fs last p1 f v p2 ft hdr payload rest Hh _ [Hr Hw] _ IH. eapply wf_field; eassumption.
  - intros fs last pending id t hdr payload rest _ _ Hr Hh Hw _ IH. eapply wf_field; eassumption.
Qed.

(** * The order of pending fields does not matter *)
Lemma genc_fields_perm unk strict E fs last p bs : gencu_fields unk strict E fs last p bs ->
  forall p', Permutation p p' -> gencu_fields unk strict E fs last p' bs.
Proof.
  induction 1 as [fs last|fs last p1 f v p2 ft hdr payload rest Hh Hf Hr IH|fs last p id t hdr payload rest Hu Hn Ht Hh Hw Hr IH]; intros p' HP.
  - apply Permutation_nil in HP. subst. constructor.
  - assert (In (f, v) p') as Hin by (eapply Permutation_in; [exact HP|apply in_or_app; right; left; reflexivity]).
    apply in_split in Hin as (q1 & q2 & ->). econstructor; [eassumption|eassumption|]. apply IH. eapply Permutation_app_inv. exact HP.
  - eapply gfs_unknown; [eassumption..|]. apply IH. exact HP.
Qed.

(** * Projection *)
Lemma locate_spec id fs : match locate id fs with
  | Some (i, f) => nth_error fs i = Some f /\ In f fs /\ f_id f = id
  | None => forall f, In f fs -> f_id f <> id
  end.
Proof.
  induction fs as [|f fs IH]; cbn [locate]; [intros f []|]. destruct (Z.eqb_spec (f_id f) id) as [He|He].
  - repeat split; [left; reflexivity|exact He].
  - destruct (locate id fs) as [[i g]|]; cbn [option_map].
    + destruct IH as (H1 & H2 & H3). repeat split; [exact H1|right; exact H2|exact H3].
    + intros g [<-|Hg]; [exact He|apply IH; exact Hg].
Qed.
Lemma ids_inj fs f g : NoDup (map f_id fs) -> In f fs -> In g fs -> f_id f = f_id g -> f = g.
Proof.
  induction fs as [|x fs IH]; cbn [map]; intros Hn Hf Hg He; [destruct Hf|]. inversion Hn as [|? ? Hx Hn']; subst.
  destruct Hf as [<-|Hf], Hg as [<-|Hg]; [reflexivity| | |apply IH; auto];
    exfalso; apply Hx; [rewrite He|rewrite <- He]; apply in_map; assumption.
Qed.

Lemma present_head f v g w : In (g, w) (if f_req f then [(f, v)] else match v with VSome x => [(f, x)] | _ => [] end) ->
  g = f /\ (if f_req f then v = w else v = VSome w).
Proof.
  destruct (f_req f); [intros [H|[]]; injection H as <- <-; auto|].
  destruct v; try (intros []; fail). intros [H|[]]; injection H as <- <-; auto.
Qed.
Lemma present_in fs vs f w : In (f, w) (present fs vs) ->
  exists i v, nth_error fs i = Some f /\ nth_error vs i = Some v /\ (if f_req f then v = w else v = VSome w).
Proof.
  revert vs. induction fs as [|g fs IH]; intros [|v vs]; cbn [present]; try (intros []; fail). intros H. apply in_app_or in H as [H|H].
  - apply present_head in H as [-> H]. exists O, v. auto.
  - destruct (IH _ H) as (i & x & H1 & H2 & H3). exists (Datatypes.S i), x. auto.
Qed.
Lemma in_present fs vs i f v w : nth_error fs i = Some f -> nth_error vs i = Some v -> (if f_req f then v = w else v = VSome w) ->
  In (f, w) (present fs vs).
Proof.
  revert vs i. induction fs as [|g fs IH]; intros [|x vs] [|i]; cbn [nth_error]; try discriminate; cbn [present].
  - intros [= ->] [= ->] H. apply in_or_app. left. destruct (f_req f); subst; left; reflexivity.
  - intros H1 H2 H3. apply in_or_app. right. eapply IH; eassumption.
Qed.
Lemma present_NoDup fs vs : NoDup (map f_id fs) -> NoDup (map (fun x => f_id (fst x)) (present fs vs)).
Proof.
  revert vs. induction fs as [|g fs IH]; intros [|v vs] Hn; cbn [present map]; try constructor. cbn [map] in Hn. inversion Hn as [|? ? Hx Hn']; subst.
  assert (Hh : forall w, NoDup (map (fun x => f_id (fst x)) ((g, w) :: present fs vs))).
  { intros w. cbn [map fst]. constructor; [|apply IH; exact Hn']. intros Hin. apply in_map_iff in Hin as ([f y] & He & Hin). cbn [fst] in He.
    apply present_in in Hin as (i & x & Hi & _). apply Hx. rewrite <- He. apply in_map. eapply nth_error_In. exact Hi. }
  destruct (f_req g); [apply Hh|]. destruct v; try (apply IH; exact Hn'). apply Hh.
Qed.

Section Evolve.
  Variables E1 E2 : env.
  Variable K : nat.
  Variable total : bool.
  Hypothesis HE : env_ok true E2 K = true.
  Hypothesis HC : compatible total E1 E2 = true.

  Lemma compat_lookup n d2 : lookup E2 n = Some d2 -> exists d1, lookup E1 n = Some d1 /\ compatible_def total d1 d2 = true.
  Proof.
    intros Hl. apply lookup_In in Hl. unfold compatible in HC. rewrite forallb_forall in HC. specialize (HC _ Hl). cbv beta iota in HC.
    destruct (lookup E1 n) as [d1|]; [eauto|discriminate].
  Qed.
  Lemma compat_code t : ty_closed E2 t = true -> wire_code E1 t = wire_code E2 t.
  Proof.
    induction t; cbn [ty_closed wire_code]; intros Ht; auto. destruct (lookup E2 name) as [d2|] eqn:Hl; [|discriminate].
    destruct (compat_lookup _ _ Hl) as (d1 & -> & Hd). destruct d1, d2; cbn [compatible_def] in Hd; try discriminate; reflexivity.
  Qed.
  Lemma compat_struct n fs1 fs2 : lookup E1 n = Some (DStruct fs1) -> lookup E2 n = Some (DStruct fs2) ->
    NoDup (map f_id fs1) /\ NoDup (map f_id fs2) /\
    (forall f2, In f2 fs2 -> ty_closed E2 (f_ty f2) = true) /\
    (forall f1 f2, In f1 fs1 -> In f2 fs2 -> f_id f1 = f_id f2 -> f_ty f1 = f_ty f2 /\ (total = true -> f_req f2 = true -> f_req f1 = true)) /\
    (total = true -> forall f2, In f2 fs2 -> f_req f2 = true -> exists f1, In f1 fs1 /\ f_id f1 = f_id f2).
  Proof.
    intros H1 H2. destruct (compat_lookup _ _ H2) as (d1 & Hd & Hcd). rewrite H1 in Hd. injection Hd as <-. cbn [compatible_def] in Hcd.
    apply andb_true_iff in Hcd as [Hn1 Hcd]. apply nodupb_NoDup in Hn1. destruct (struct_fields _ _ _ _ _ HE H2) as (Hn2 & Hcl & _).
    rewrite forallb_forall in Hcd. split; [exact Hn1|]. split; [exact Hn2|]. split; [intros f2 Hf2; apply Hcl; exact Hf2|]. split.
    - intros f1 f2 Hf1 Hf2 He. specialize (Hcd f2 Hf2). pose proof (locate_spec (f_id f2) fs1) as Hloc.
      destruct (locate (f_id f2) fs1) as [[i g]|]; [|exfalso; eapply Hloc; eauto].
      destruct Hloc as (_ & Hg & Hge). assert (g = f1) by (apply (ids_inj fs1); auto; congruence). subst g.
      unfold shared_ok, ty_eqb in Hcd. destruct (ty_eq_dec (f_ty f1) (f_ty f2)) as [He'|]; [|discriminate]. split; [exact He'|].
      cbn [andb] in Hcd. intros -> Hr. rewrite Hr in Hcd. exact Hcd.
    - intros -> f2 Hf2 Hr. specialize (Hcd f2 Hf2). rewrite Hr in Hcd. pose proof (locate_spec (f_id f2) fs1) as Hloc.
      destruct (locate (f_id f2) fs1) as [[i g]|]; [|discriminate]. destruct Hloc as (_ & Hg & Hge). eauto.
  Qed.

  (** What [project] does with the fields of a struct. *)
  Fixpoint contents_of (vs : list value) (fs : list field) : list (Z * option (option value)) :=
    match vs, fs with
    | v :: vs', f :: fs' =>
        (f_id f, if f_req f then Some (project E1 E2 (f_ty f) v)
                 else match v with VSome w => Some (project E1 E2 (f_ty f) w) | _ => None end)
        :: contents_of vs' fs'
    | _, _ => []
    end.
  Lemma project_struct n vs fs1 fs2 : lookup E1 n = Some (DStruct fs1) -> lookup E2 n = Some (DStruct fs2) ->
    project E1 E2 (TNamed n) (VStruct vs) = option_map VStruct (sequence (map (restrict_field (contents_of vs fs1)) fs2)).
  Proof. intros H1 H2. cbn [project]. rewrite H1, H2. reflexivity. Qed.

  Lemma sequence_Forall2 {A} (l : list (option A)) r : sequence l = Some r <-> Forall2 (fun o a => o = Some a) l r.
  Proof.
    revert r. induction l as [|[a|] l IH]; intros r; cbn [sequence]; split; intros H.
    - injection H as <-. constructor.
    - inversion H. reflexivity.
    - destruct (sequence l) as [r'|]; [|discriminate]. injection H as <-. constructor; [reflexivity|apply IH; reflexivity].
    - inversion H as [|? ? ? ? Ha HF]; subst. injection Ha as <-. apply IH in HF. rewrite HF. reflexivity.
    - discriminate.
    - inversion H. discriminate.
  Qed.

  Lemma contents_assoc vs : forall fs id, NoDup (map f_id fs) -> List.length vs = List.length fs ->
    match assoc id (contents_of vs fs) with
    | Some (Some o) => exists f v, In (f, v) (present fs vs) /\ In f fs /\ f_id f = id /\ o = project E1 E2 (f_ty f) v
    | Some None => exists f, In f fs /\ f_id f = id /\ f_req f = false /\ forall v, ~ In (f, v) (present fs vs)
    | None => forall f, In f fs -> f_id f <> id
    end.
  Proof.
    induction vs as [|v vs IH]; intros [|f fs] id Hn Hlen; try discriminate; cbn [contents_of assoc]; [intros f []|].
    cbn [map] in Hn. inversion Hn as [|? ? Hx Hn']; subst. injection Hlen as Hlen.
    destruct (Z.eqb_spec (f_id f) id) as [He|He].
    - assert (Hno : forall w, ~ In (f, w) (present fs vs)).
      { intros w Hw. apply Hx. apply present_in in Hw as (i & x & Hi & _). apply in_map. eapply nth_error_In. exact Hi. }
      destruct (f_req f) eqn:Hr.
      + exists f, v. cbn [present]. rewrite Hr. repeat split; [left; reflexivity|left; reflexivity|exact He].
      + destruct v; try (exists f; repeat split; [left; reflexivity|exact He|exact Hr|intros w; cbn [present]; rewrite Hr; apply Hno]; fail).
        exists f, v. cbn [present]. rewrite Hr. repeat split; [left; reflexivity|left; reflexivity|exact He].
    - specialize (IH fs id Hn' Hlen). destruct (assoc id (contents_of vs fs)) as [[o|]|].
      + destruct IH as (g & w & H1 & H2 & H3 & H4). exists g, w. split; [cbn [present]; apply in_or_app; right; exact H1|].
        split; [right; exact H2|]. auto.
      + destruct IH as (g & H1 & H2 & H3 & H4). exists g. split; [right; exact H1|]. split; [exact H2|]. split; [exact H3|].
        intros w Hw. cbn [present] in Hw. apply in_app_or in Hw as [Hw|Hw]; [|eapply H4; exact Hw].
        apply present_head in Hw as [-> _]. congruence.
      + intros g [<-|Hg]; [exact He|auto].
  Qed.

  (** Pending fields of the writer, as the reader sees them. *)
  Inductive seen (fs2 : list field) : list (field * value) -> list (field * value) -> Prop :=
  | seen_nil : seen fs2 [] []
  | seen_keep f1 f2 v w p q :
      In f2 fs2 -> f_id f1 = f_id f2 -> f_ty f1 = f_ty f2 -> ty_closed E2 (f_ty f2) = true -> project E1 E2 (f_ty f1) v = Some w ->
      seen fs2 p q -> seen fs2 ((f1, v) :: p) ((f2, w) :: q)
  | seen_drop f1 v p q : (forall f2, In f2 fs2 -> f_id f2 <> f_id f1) -> seen fs2 p q -> seen fs2 ((f1, v) :: p) q.
  Lemma seen_split fs2 p1 x p2 q : seen fs2 (p1 ++ x :: p2) q ->
    exists q1 q2, seen fs2 (p1 ++ p2) (q1 ++ q2) /\
      ((exists y, seen fs2 [x] [y] /\ q = q1 ++ y :: q2) \/ (seen fs2 [x] [] /\ q = q1 ++ q2)).
  Proof.
    revert q. induction p1 as [|[f v] p1 IH]; intros q H; cbn [app] in *.
    - inversion H; subst.
      + exists [], q0. split; [assumption|]. left. eexists. split; [|reflexivity]. constructor; auto. constructor.
      + exists [], q. split; [assumption|]. right. split; [|reflexivity]. constructor; [assumption|constructor].
    - inversion H; subst.
      + destruct (IH _ H9) as (q1 & q2 & Hs & Hq). exists ((f2, w) :: q1), q2. split; [constructor; assumption|].
        destruct Hq as [(y & Hy & ->)|(Hy & ->)]; [left; eauto|right; auto].
      + destruct (IH _ H5) as (q1 & q2 & Hs & Hq). exists q1, q2. split; [constructor; assumption|]. exact Hq.
  Qed.

  Lemma project_seq t : forall vs ws, sequence (map (project E1 E2 t) vs) = Some ws -> Forall2 (fun v w => project E1 E2 t v = Some w) vs ws.
  Proof.
    intros vs ws H. apply sequence_Forall2 in H. revert ws H.
    induction vs as [|v vs IH]; intros ws H; inversion H; subst; constructor; auto.
  Qed.

  (** The projected fields, in the writer's order. *)
  Lemma seen_all fs2 vs2 : forall p,
    (forall f1 f2, In f1 (map fst p) -> In f2 fs2 -> f_id f1 = f_id f2 -> f_ty f1 = f_ty f2) ->
    (forall f2, In f2 fs2 -> ty_closed E2 (f_ty f2) = true) ->
    (forall f1 v f2, In (f1, v) p -> In f2 fs2 -> f_id f1 = f_id f2 -> exists w, project E1 E2 (f_ty f1) v = Some w /\ In (f2, w) (present fs2 vs2)) ->
    exists q, seen fs2 p q /\
      (forall f2 w, In (f2, w) q <-> exists f1 v, In (f1, v) p /\ In f2 fs2 /\ f_id f1 = f_id f2 /\ project E1 E2 (f_ty f1) v = Some w /\
         exists i, locate (f_id f1) fs2 = Some (i, f2)).
  Proof.
    induction p as [|[f1 v] p IH]; intros Hty Hcl Hpr.
    - exists []. split; [constructor|]. intros f2 w. split; [intros []|intros (f1 & v & [] & _)].
    - destruct IH as (q & Hs & Hq).
      { intros g1 g2 Hg. apply Hty. right. exact Hg. }
      { exact Hcl. }
      { intros g1 x g2 Hg. apply Hpr. right. exact Hg. }
      pose proof (locate_spec (f_id f1) fs2) as Hloc. destruct (locate (f_id f1) fs2) as [[i f2]|] eqn:Hl.
      + destruct Hloc as (_ & Hin & He). destruct (Hpr f1 v f2 (or_introl eq_refl) Hin (eq_sym He)) as (w & Hw & _).
        exists ((f2, w) :: q). split.
        { constructor; auto. apply Hty; [left; reflexivity|exact Hin|auto]. }
        intros g2 x. split.
        * intros [Hx|Hx]; [injection Hx as <- <-; exists f1, v; repeat split; eauto; left; reflexivity|].
          apply Hq in Hx as (h1 & y & H1 & H2). exists h1, y. split; [right; exact H1|exact H2].
        * intros (h1 & y & [H1|H1] & H2 & H3 & H4 & k & H5); [|right; apply Hq; eauto 10].
          injection H1 as <- <-. left. congruence.
      + exists q. split; [constructor; assumption|]. intros g2 x. rewrite Hq. split.
        * intros (h1 & y & H1 & H2). exists h1, y. split; [right; exact H1|exact H2].
        * intros (h1 & y & [H1|H1] & H2 & H3 & H4 & k & H5); [injection H1 as <- <-; congruence|eauto 10].
  Qed.
  Lemma seen_ids fs2 p q : seen fs2 p q -> forall id, In id (map (fun x => f_id (fst x)) q) -> In id (map (fun x => f_id (fst x)) p).
  Proof.
    induction 1 as [|f1 f2 v w p q H1 H2 H3 H4 H5 Hs IH|f1 v p q H1 Hs IH]; intros id Hin; cbn [map fst] in *; [exact Hin| |right; auto].
    destruct Hin as [<-|Hin]; [left; exact H2|right; auto].
  Qed.
  Lemma seen_NoDup fs2 p q : seen fs2 p q -> NoDup (map (fun x => f_id (fst x)) p) -> NoDup (map (fun x => f_id (fst x)) q).
  Proof.
    induction 1 as [|f1 f2 v w p q H1 H2 H3 H4 H5 Hs IH|f1 v p q H1 Hs IH]; intros Hn; cbn [map fst] in *; [constructor| |inversion Hn; auto].
    inversion Hn as [|? ? Hx Hn']; subst. constructor; [|auto]. intros Hin. apply Hx. rewrite H2. eapply seen_ids; eassumption.
  Qed.
  Lemma Forall2_length {A B} (P : A -> B -> Prop) l r : Forall2 P l r -> List.length l = List.length r.
  Proof. induction 1; cbn [List.length]; auto. Qed.

  Lemma struct_seen n fs1 fs2 vs ws : lookup E1 n = Some (DStruct fs1) -> lookup E2 n = Some (DStruct fs2) ->
    Forall2 field_shape fs1 vs -> project E1 E2 (TNamed n) (VStruct vs) = Some (VStruct ws) ->
    Forall2 field_shape fs2 ws /\ exists q, seen fs2 (present fs1 vs) q /\ Permutation q (present fs2 ws).
  Proof.
    intros H1 H2 Hsh Hp. destruct (compat_struct n fs1 fs2 H1 H2) as (Hn1 & Hn2 & Hcl & Hty & _).
    rewrite (project_struct n vs fs1 fs2 H1 H2) in Hp.
    destruct (sequence (map (restrict_field (contents_of vs fs1)) fs2)) as [ws'|] eqn:Hs; [|discriminate]. injection Hp as ->.
    apply sequence_Forall2 in Hs.
    assert (HR : Forall2 (fun f2 w => restrict_field (contents_of vs fs1) f2 = Some w) fs2 ws).
    { clear - Hs. revert ws Hs. induction fs2 as [|f2 fs2 IH]; intros ws Hs; inversion Hs; subst; constructor; auto. }
    clear Hs. assert (Hlen : List.length vs = List.length fs1) by (symmetry; eapply Forall2_length; exact Hsh).
    split.
    { clear - HR. induction HR as [|f2 w fs2 ws H HR IH]; constructor; auto. unfold restrict_field in H.
      destruct (assoc (f_id f2) (contents_of vs fs1)) as [[[x|]|]|]; destruct (f_req f2) eqn:Hr; try discriminate; injection H as <-; unfold field_shape; eauto. }
    assert (HG : forall f2 w, In (f2, w) (present fs2 ws) <->
      In f2 fs2 /\ exists f1 v, In (f1, v) (present fs1 vs) /\ f_id f1 = f_id f2 /\ project E1 E2 (f_ty f1) v = Some w).
    { intros f2 w. split.
      - intros Hin. apply present_in in Hin as (i & y & Hi & Hy & Hw).
        split; [eapply nth_error_In; exact Hi|].
        assert (HRi : restrict_field (contents_of vs fs1) f2 = Some y).
        { clear - HR Hi Hy. revert i Hi Hy. induction HR as [|? ? ? ? H HR IH]; intros [|i]; cbn [nth_error]; try discriminate.
          - intros [= <-] [= <-]. exact H.
          - apply IH. }
        unfold restrict_field in HRi. pose proof (contents_assoc vs fs1 (f_id f2) Hn1 Hlen) as HA.
        destruct (assoc (f_id f2) (contents_of vs fs1)) as [[[x|]|]|].
        + destruct HA as (f1 & v & Hin1 & _ & He & Hx). exists f1, v. split; [exact Hin1|]. split; [exact He|]. rewrite <- Hx.
          destruct (f_req f2); congruence.
        + discriminate.
        + destruct (f_req f2); [discriminate|]. congruence.
        + destruct (f_req f2); [discriminate|]. congruence.
      - intros (Hf2 & f1 & v & Hin1 & He & Hpv). apply In_nth_error in Hf2 as (i & Hi).
        assert (exists y, nth_error ws i = Some y /\ restrict_field (contents_of vs fs1) f2 = Some y) as (y & Hy & HRi).
        { clear - HR Hi. revert i Hi. induction HR as [|? ? ? ? H HR IH]; intros [|i]; cbn [nth_error]; try discriminate.
          - intros [= <-]. eauto.
          - apply IH. }
        eapply in_present; [exact Hi|exact Hy|]. unfold restrict_field in HRi.
        pose proof (contents_assoc vs fs1 (f_id f2) Hn1 Hlen) as HA.
        pose proof (present_in _ _ _ _ Hin1) as (k & z & Hk & Hz & Hzw).
        destruct (assoc (f_id f2) (contents_of vs fs1)) as [[[x|]|]|].
        + destruct HA as (g1 & v' & Hin1' & Hg1 & He' & Hx). assert (g1 = f1) by (apply (ids_inj fs1); auto; [eapply nth_error_In; exact Hk|congruence]). subst g1.
          pose proof (present_in _ _ _ _ Hin1') as (k' & z' & Hk' & Hz' & Hzw').
          assert (k = k').
          { assert (Hnf : NoDup fs1) by (eapply NoDup_map_inv; exact Hn1). rewrite NoDup_nth_error in Hnf. apply Hnf; [|congruence].
            apply nth_error_Some. congruence. }
          subst k'. assert (v = v') by (destruct (f_req f1); congruence). subst v'. destruct (f_req f2); congruence.
        + discriminate.
        + destruct HA as (g1 & Hg1 & He' & _ & Hno). assert (g1 = f1) by (apply (ids_inj fs1); auto; [eapply nth_error_In; exact Hk|congruence]). subst g1.
          exfalso. eapply Hno. exact Hin1.
        + exfalso. eapply HA; [eapply nth_error_In; exact Hk|exact He]. }
    destruct (seen_all fs2 ws (present fs1 vs)) as (q & Hq & Hqi).
    { intros f1 f2 Hf1 Hf2 He. apply in_map_iff in Hf1 as ([g y] & <- & Hin). cbn [fst]. apply present_in in Hin as (k & z & Hk & _).
      apply (Hty g f2); [eapply nth_error_In; exact Hk|exact Hf2|exact He]. }
    { exact Hcl. }
    { intros f1 v f2 Hin Hf2 He.
      apply In_nth_error in Hf2 as (i & Hi).
      assert (exists y, nth_error ws i = Some y /\ restrict_field (contents_of vs fs1) f2 = Some y) as (y & Hy & HRi).
      { clear - HR Hi. revert i Hi. induction HR as [|? ? ? ? H HR IH]; intros [|i]; cbn [nth_error]; try discriminate.
        - intros [= <-]. eauto.
        - apply IH. }
      destruct (project E1 E2 (f_ty f1) v) as [w|] eqn:Hpv.
      { exists w. split; [reflexivity|]. apply HG. split; [eapply nth_error_In; exact Hi|]. eauto 10. }
      exfalso. unfold restrict_field in HRi. pose proof (contents_assoc vs fs1 (f_id f2) Hn1 Hlen) as HA.
      pose proof (present_in _ _ _ _ Hin) as (k & z & Hk & Hz & Hzw).
      destruct (assoc (f_id f2) (contents_of vs fs1)) as [[[x|]|]|].
      + destruct HA as (g1 & v' & Hin1' & Hg1 & He' & Hx). assert (g1 = f1) by (apply (ids_inj fs1); auto; [eapply nth_error_In; exact Hk|congruence]). subst g1.
        pose proof (present_in _ _ _ _ Hin1') as (k' & z' & Hk' & Hz' & Hzw').
        assert (k = k').
        { assert (Hnf : NoDup fs1) by (eapply NoDup_map_inv; exact Hn1). rewrite NoDup_nth_error in Hnf. apply Hnf; [|congruence].
          apply nth_error_Some. congruence. }
        subst k'. assert (v = v') by (destruct (f_req f1); congruence). subst v'. congruence.
      + discriminate.
      + destruct HA as (g1 & Hg1 & He' & _ & Hno). assert (g1 = f1) by (apply (ids_inj fs1); auto; [eapply nth_error_In; exact Hk|congruence]). subst g1.
        eapply Hno. exact Hin.
      + eapply HA; [eapply nth_error_In; exact Hk|exact He]. }
    exists q. split; [exact Hq|]. apply NoDup_Permutation.
    - eapply NoDup_map_inv. eapply seen_NoDup; [exact Hq|]. apply present_NoDup. exact Hn1.
    - eapply NoDup_map_inv. apply (present_NoDup fs2 ws). exact Hn2.
    - intros [f2 w]. rewrite Hqi, HG. split.
      + intros (f1 & v & H & Hf2 & He & Hpv & _). eauto 10.
      + intros (Hf2 & f1 & v & H & He & Hpv). exists f1, v. repeat split; auto.
        pose proof (locate_spec (f_id f1) fs2) as Hloc. destruct (locate (f_id f1) fs2) as [[i g2]|].
        * destruct Hloc as (_ & Hg & Hge). exists i. f_equal. f_equal. apply (ids_inj fs2); auto. congruence.
        * exfalso. eapply Hloc; eauto.
  Qed.

  Variable unk : bool.
  (** If the writer's bytes may contain fields unknown to the writer, the reader may not know more ids. *)
  Hypothesis HN : unk = true -> forall n fs1 fs2, lookup E1 n = Some (DStruct fs1) -> lookup E2 n = Some (DStruct fs2) ->
    forall f2, In f2 fs2 -> exists f1, In f1 fs1 /\ f_id f1 = f_id f2.

  Lemma genc_evolve :
    (forall t v bs, gencu unk true E1 t v bs -> ty_closed E2 t = true -> forall w, project E1 E2 t v = Some w -> genc true E2 t w bs) /\
    (forall t vs bs, gencu_seq unk true E1 t vs bs -> ty_closed E2 t = true ->
       forall ws, Forall2 (fun v w => project E1 E2 t v = Some w) vs ws -> genc_seq true E2 t ws bs) /\
    (forall t v ft bs, gencu_field unk true E1 t v ft bs -> ty_closed E2 t = true -> forall w, project E1 E2 t v = Some w -> genc_field true E2 t w ft bs) /\
    (forall fs1 last p bs, gencu_fields unk true E1 fs1 last p bs -> forall fs2 q, seen fs2 p q ->
       (unk = true -> forall f2, In f2 fs2 -> exists f1, In f1 fs1 /\ f_id f1 = f_id f2) ->
       genc_fields true E2 fs2 last q bs).
  Proof.
    apply genc_mutind.
    - intros _ w [= <-]. constructor.
    - intros b Hb _ w [= <-]. constructor; exact Hb.
    - intros z Hz _ w [= <-]. constructor; exact Hz.
    - intros z bs Hz _ w [= <-]. constructor; exact Hz.
    - intros z bs Hz _ w [= <-]. constructor; exact Hz.
    - intros z bs Hz _ w [= <-]. constructor; exact Hz.
    - intros bs Hl Hb _ w [= <-]. constructor; assumption.
    - intros p bs H _ w [= <-]. constructor; assumption.
    - intros p bs H Hu _ w [= <-]. constructor; assumption.
    - intros t vs tag hdr body _ Htag Hh _ IH Hcl w Hw. cbn [project] in Hw. cbn [ty_closed] in Hcl.
      destruct (sequence (map (project E1 E2 t) vs)) as [ws|] eqn:Hs; [|discriminate]. injection Hw as <-.
      apply project_seq in Hs. econstructor; [exact Hcl| | |apply IH; eassumption].
      + unfold elem_tag in *. rewrite <- (compat_code t Hcl). exact Htag.
      + unfold zlen in *. rewrite <- (Forall2_length _ _ _ Hs). exact Hh.
    - intros t v bs _ IH Hcl w Hw. cbn [project ty_closed] in *. destruct (project E1 E2 t v); [|discriminate]. injection Hw as <-. constructor. auto.
    - intros t v bs _ IH Hcl w Hw. cbn [project ty_closed] in *. destruct (project E1 E2 t v); [|discriminate]. injection Hw as <-. constructor. auto.
    - intros t v bs _ IH Hcl w Hw. cbn [project ty_closed] in *. destruct (project E1 E2 t v); [|discriminate]. injection Hw as <-. constructor. auto.
    - intros mask zs hdr body H1 H2 H3 Hh _ IH _ w [= <-]. econstructor; [exact H1|exact H2|exact H3|exact Hh|].
      apply IH; [reflexivity|]. clear. induction zs; cbn [map]; constructor; auto.
    - intros n z bs Hl Hz Hcl w [= <-]. cbn [ty_closed] in Hcl. destruct (lookup E2 n) as [d2|] eqn:Hl2; [|discriminate].
      destruct (compat_lookup _ _ Hl2) as (d1 & Hl1 & Hd). rewrite Hl in Hl1. injection Hl1 as <-.
      destruct d2; try discriminate. constructor; assumption.
    - intros n fs vs bs Hl Hsh _ IH Hcl w Hw. cbn [ty_closed] in Hcl. destruct (lookup E2 n) as [d2|] eqn:Hl2; [|discriminate].
      destruct (compat_lookup _ _ Hl2) as (d1 & Hl1 & Hd). rewrite Hl in Hl1. injection Hl1 as <-.
      destruct d2 as [fs2| |]; try discriminate. assert (exists ws, w = VStruct ws) as (ws & ->).
      { rewrite (project_struct n vs fs fs2 Hl Hl2) in Hw. destruct (sequence _); [|discriminate]. injection Hw as <-. eauto. }
      destruct (struct_seen n fs fs2 vs ws Hl Hl2 Hsh Hw) as (Hsh2 & q & Hq & HP).
      econstructor; [exact Hl2|exact Hsh2|]. eapply genc_fields_perm; [|exact HP]. apply IH; [exact Hq|].
      intros Hu f2 Hf2. eapply HN; eassumption.
    - intros n fs i f v hdr payload Hl Hi Hb _ Hh _ IH Hcl w Hw. cbn [ty_closed] in Hcl. destruct (lookup E2 n) as [d2|] eqn:Hl2; [|discriminate].
      cbn [project] in Hw. rewrite Hl, Hl2 in Hw. destruct d2 as [|fs2|]; try discriminate. rewrite Hi in Hw.
      pose proof (locate_spec (f_id f) fs2) as Hloc. destruct (compat_lookup _ _ Hl2) as (d1 & Hl1 & Hd). rewrite Hl in Hl1. injection Hl1 as <-.
      cbn [compatible_def] in Hd. rewrite forallb_forall in Hd. specialize (Hd f (nth_error_In _ _ Hi)).
      destruct (locate (f_id f) fs2) as [[j f2]|]; [|discriminate]. destruct Hloc as (Hj & Hin & He).
      unfold ty_eqb in Hd. destruct (ty_eq_dec (f_ty f) (f_ty f2)) as [Ht|]; [|discriminate].
      destruct (project E1 E2 (f_ty f) v) as [x|] eqn:Hx; [|discriminate]. injection Hw as <-.
      destruct (union_fields _ _ _ _ _ HE Hl2) as (_ & Hfs & _). destruct (Hfs f2 Hin) as (Hcl2 & _ & Hb2).
      eapply gn_union; [exact Hl2|exact Hj|exact Hb2|exact Hcl2| |].
      + rewrite He, <- Ht, <- compat_code; [exact Hh|]. rewrite Ht. exact Hcl2.
      + rewrite <- Ht. apply IH; [rewrite Ht; exact Hcl2|reflexivity].
    - intros t _ ws H. inversion H; subst. constructor.
    - intros t v vs b1 b2 _ IH1 _ IH2 Hcl ws H. inversion H; subst. constructor; auto.
    - intros b _ w [= <-]. constructor.
    - intros t v ft bs _ IH Hcl w Hw. cbn [project ty_closed] in *. destruct (project E1 E2 t v); [|discriminate]. injection Hw as <-. constructor. auto.
    - intros t v bs H1 H2 _ _ IH Hcl w Hw. rewrite (compat_code t Hcl). constructor; auto.
    - intros fs last fs2 q Hs _. inversion Hs; subst. constructor.
    - intros fs last p1 f v p2 ft hdr payload rest Hh Hf IHf _ IH fs2 q Hs HN'.
      apply seen_split in Hs as (q1 & q2 & Hs & [(y & Hy & ->)|(Hy & ->)]).
      + inversion Hy as [|f1 f2 v' w p q Hin He Ht Hcl Hp Hnil|? ? ? ? ? Hnil]; subst; [|inversion Hnil]. rewrite He in Hh. econstructor; [exact Hh| |].
        * rewrite <- Ht. apply IHf; [rewrite Ht; exact Hcl|exact Hp].
        * rewrite <- He. apply IH; assumption.
      + inversion Hy; subst. destruct (proj1 (proj2 (proj2 (genc_wire unk E1))) _ _ _ _ Hf) as [Hr Hw].
        eapply gfs_unknown; [reflexivity|eassumption|exact Hr|exact Hh|exact Hw|]. apply IH; assumption.
    - intros fs last pending id t hdr payload rest Hu Hno Ht Hh Hw _ IH fs2 q Hs HN'.
      eapply gfs_unknown; [reflexivity| |exact Ht|exact Hh|exact Hw|apply IH; assumption].
      intros f2 Hf2 He. destruct (HN' Hu f2 Hf2) as (f1 & Hf1 & He'). apply (Hno f1 Hf1). congruence.
  Qed.
End Evolve.

(** * Projection is defined, and gives a value of the reader's type *)
Section Total.
  Variables E1 E2 : env.
  Variable K : nat.
  Hypothesis HE : env_ok true E2 K = true.
  Hypothesis HC : compatible true E1 E2 = true.

  Lemma typed_fields_length fs vs : typed_fields E1 fs vs -> List.length vs = List.length fs.
  Proof. induction 1; cbn [List.length]; auto. Qed.

  Lemma project_total :
    (forall t v, typed E1 t v -> ty_closed E2 t = true -> exists w, project E1 E2 t v = Some w /\ typed E2 t w) /\
    (forall t vs, typed_seq E1 t vs -> ty_closed E2 t = true -> exists ws, sequence (map (project E1 E2 t) vs) = Some ws /\ typed_seq E2 t ws) /\
    (forall fs vs, typed_fields E1 fs vs -> forall f v, In (f, v) (present fs vs) -> ty_closed E2 (f_ty f) = true ->
       exists w, project E1 E2 (f_ty f) v = Some w /\ typed E2 (f_ty f) w).
  Proof.
    apply typed_mutind.
    - intros b _. eexists. split; [reflexivity|constructor].
    - intros z Hz _. eexists. split; [reflexivity|constructor; exact Hz].
    - intros z Hz _. eexists. split; [reflexivity|constructor; exact Hz].
    - intros z Hz _. eexists. split; [reflexivity|constructor; exact Hz].
    - intros z Hz _. eexists. split; [reflexivity|constructor; exact Hz].
    - intros z Hz _. eexists. split; [reflexivity|constructor; exact Hz].
    - intros l Hl _. eexists. split; [reflexivity|constructor; exact Hl].
    - intros l Hl Hu _. eexists. split; [reflexivity|constructor; assumption].
    - intros t vs _ _ IH Hcl. cbn [ty_closed] in Hcl. destruct (IH Hcl) as (ws & Hs & Ht). cbn [project]. rewrite Hs. eexists. split; [reflexivity|constructor; assumption].
    - intros t _ Hcl. eexists. split; [reflexivity|constructor; exact Hcl].
    - intros t v _ IH Hcl. destruct (IH Hcl) as (w & Hw & Ht). cbn [project]. rewrite Hw. eexists. split; [reflexivity|constructor; assumption].
    - intros t v _ IH Hcl. destruct (IH Hcl) as (w & Hw & Ht). cbn [project]. rewrite Hw. eexists. split; [reflexivity|constructor; assumption].
    - intros t u v _ IH Hcl. destruct (IH Hcl) as (w & Hw & Ht). cbn [project]. rewrite Hw. eexists. split; [reflexivity|constructor; assumption].
    - intros m Hm _. eexists. split; [reflexivity|constructor; assumption].
    - intros n z Hl Hz Hcl. cbn [ty_closed] in Hcl. destruct (lookup E2 n) as [d2|] eqn:Hl2; [|discriminate].
      destruct (compat_lookup E1 E2 true HC _ _ Hl2) as (d1 & Hl1 & Hd). rewrite Hl in Hl1. injection Hl1 as <-.
      destruct d2; try discriminate. eexists. split; [reflexivity|constructor; assumption].
    - intros n fs vs Hl Hty IH Hcl. cbn [ty_closed] in Hcl. destruct (lookup E2 n) as [d2|] eqn:Hl2; [|discriminate].
      destruct (compat_lookup E1 E2 true HC _ _ Hl2) as (d1 & Hl1 & Hd). rewrite Hl in Hl1. injection Hl1 as <-.
      destruct d2 as [fs2| |]; try discriminate. clear Hd.
      destruct (compat_struct E1 E2 K true HE HC n fs fs2 Hl Hl2) as (Hn1 & Hn2 & Hcl2 & Hsame & Hreq). specialize (Hreq eq_refl).
      rewrite (project_struct E1 E2 n vs fs fs2 Hl Hl2).
      assert (H : forall gs, incl gs fs2 -> exists ws, sequence (map (restrict_field (contents_of E1 E2 vs fs)) gs) = Some ws /\ typed_fields E2 gs ws).
      { induction gs as [|g gs IHg]; intros Hincl; cbn [map sequence]; [exists []; split; [reflexivity|constructor]|].
        assert (Hg : In g fs2) by (apply Hincl; left; reflexivity).
        destruct IHg as (ws & Hs & Hts); [intros x Hx; apply Hincl; right; exact Hx|]. rewrite Hs.
        assert (exists y, restrict_field (contents_of E1 E2 vs fs) g = Some y /\ typed E2 (field_ty g) y) as (y & -> & Hy).
        { unfold restrict_field, field_ty. pose proof (contents_assoc E1 E2 vs fs (f_id g) Hn1 (typed_fields_length _ _ Hty)) as HA.
          destruct (assoc (f_id g) (contents_of E1 E2 vs fs)) as [[o|]|].
          - destruct HA as (f1 & v & Hin & Hf1 & He & ->). destruct (Hsame f1 g Hf1 Hg He) as [Ht _].
            destruct (IH f1 v Hin) as (w & Hw & Htw); [rewrite Ht; apply Hcl2; exact Hg|]. rewrite Hw. rewrite Ht in Htw.
            destruct (f_req g); eexists; (split; [reflexivity|]); [exact Htw|constructor; exact Htw].
          - destruct HA as (f1 & Hf1 & He & Hr & Hno). destruct (Hsame f1 g Hf1 Hg He) as [Ht Hrr]. destruct (f_req g) eqn:Hrg.
            + specialize (Hrr eq_refl eq_refl). congruence.
            + eexists. split; [reflexivity|]. constructor. apply Hcl2. exact Hg.
          - destruct (f_req g) eqn:Hrg.
            + destruct (Hreq g Hg Hrg) as (f1 & Hf1 & He). exfalso. eapply HA; eassumption.
            + eexists. split; [reflexivity|]. constructor. apply Hcl2. exact Hg. }
        eexists. split; [reflexivity|]. constructor; assumption. }
      destruct (H fs2 (incl_refl _)) as (ws & Hs & Hts). rewrite Hs. eexists. split; [reflexivity|]. econstructor; eassumption.
    - intros n fs i f v Hl Hi _ IH Hcl. cbn [ty_closed] in Hcl. destruct (lookup E2 n) as [d2|] eqn:Hl2; [|discriminate].
      cbn [project]. rewrite Hl, Hl2. pose proof (compat_lookup E1 E2 true HC _ _ Hl2) as (d1 & Hl1 & Hd). rewrite Hl in Hl1. injection Hl1 as <-.
      destruct d2 as [|fs2|]; try discriminate. rewrite Hi. cbn [compatible_def] in Hd. rewrite forallb_forall in Hd. specialize (Hd f (nth_error_In _ _ Hi)).
      pose proof (locate_spec (f_id f) fs2) as Hloc. destruct (locate (f_id f) fs2) as [[j f2]|]; [|discriminate]. destruct Hloc as (Hj & Hin & He).
      unfold ty_eqb in Hd. destruct (ty_eq_dec (f_ty f) (f_ty f2)) as [Ht|]; [|discriminate].
      destruct (union_fields _ _ _ _ _ HE Hl2) as (_ & Hfs & _). destruct (Hfs f2 Hin) as (Hcl2 & _ & _).
      destruct IH as (w & Hw & Htw); [rewrite Ht; exact Hcl2|]. rewrite Hw. eexists. split; [reflexivity|].
      econstructor; [exact Hl2|exact Hj|rewrite <- Ht; exact Htw].
    - intros t _. exists []. split; [reflexivity|constructor].
    - intros t v vs _ IH1 _ IH2 Hcl. destruct (IH1 Hcl) as (w & Hw & Ht). destruct (IH2 Hcl) as (ws & Hs & Hts). cbn [map sequence]. rewrite Hw, Hs.
      eexists. split; [reflexivity|constructor; assumption].
    - intros f v [].
    - intros f fs v vs Hv IH1 _ IH2 g x Hin Hcl. cbn [present] in Hin. apply in_app_or in Hin as [Hin|Hin]; [|apply IH2; assumption].
      apply present_head in Hin as [-> Hx]. unfold field_ty in *. destruct (f_req f); subst v; [apply IH1; exact Hcl|].
      destruct IH1 as (w & Hw & Ht); [exact Hcl|]. cbn [project] in Hw. destruct (project E1 E2 (f_ty f) x) as [y|]; [|discriminate].
      injection Hw as <-. inversion Ht; subst. eauto.
  Qed.
End Total.

(** * C14 *)
Lemma evolve_conforming c E1 K1 E2 K2 t v w bs d :
  cfg_ok c -> reserve_ok c -> env_ok true E1 K1 = true -> env_ok true E2 K2 = true -> compatible false E1 E2 = true -> narrower E1 E2 ->
  ty_closed E1 t = true -> ty_closed E2 t = true -> enc E1 t v bs -> project E1 E2 t v = Some w -> (need K2 t (List.length bs) <= d)%nat ->
  both_read c (fun S I => read_thrift c I E2 d t) bs w.
Proof.
  intros Hc Hr HE1 HE2 HC HN Hcl1 Hcl2 He Hp Hd. apply both_reads; [|exact Hc]. intros S I R D.
  apply (read_thrift_genc R c I E2 K2 true D Hc HE2 Hr); [|exact Hcl2|exact Hd].
  eapply (proj1 (genc_evolve E1 E2 K2 false HE2 HC true (fun _ => HN))); [|exact Hcl2|exact Hp].
  apply (proj1 (enc_genc E1 K1 HE1)); assumption.
Qed.
Lemma evolve_written c E1 K1 E2 K2 t v w bs d :
  cfg_ok c -> reserve_ok c -> env_ok true E1 K1 = true -> fits E1 v t = true -> env_ok true E2 K2 = true -> compatible false E1 E2 = true ->
  ty_closed E2 t = true -> typed E1 t v -> write_thrift vec_write_all E1 t v [] = (bs, Ok tt) ->
  project E1 E2 t (unshare v) = Some w -> (need K2 t (List.length bs) <= d)%nat ->
  both_read c (fun S I => read_thrift c I E2 d t) bs w.
Proof.
  intros Hc Hr HE1 HW HE2 HC Hcl2 Ht Hw Hp Hd. apply both_reads; [|exact Hc]. intros S I R D.
  apply (read_thrift_genc R c I E2 K2 true D Hc HE2 Hr); [|exact Hcl2|exact Hd].
  destruct (write_ok E1 t v bs Ht Hw) as (_ & _ & Hg).
  eapply (proj1 (genc_evolve E1 E2 K2 false HE2 HC false ltac:(discriminate))); [apply (Hg K1); assumption|exact Hcl2|exact Hp].
Qed.
Lemma evolve_total E1 E2 K2 t v :
  env_ok true E2 K2 = true -> compatible true E1 E2 = true -> ty_closed E2 t = true -> typed E1 t v ->
  exists w, project E1 E2 t v = Some w /\ typed E2 t w.
Proof. intros HE2 HC Hcl Ht. apply (proj1 (project_total E1 E2 K2 HE2 HC)); assumption. Qed.

(** * Examples and counterexamples *)
Definition sample_env2 : env := [
  ("Shape"%string, DUnion [fld 40 true TBinary "raw"; fld 1 true TDouble "radius"; fld 2 true (TNamed "Node") "node"]);
  ("Node"%string, DStruct [fld 18 false (TBox (TNamed "Node")) "next"; fld 3 true (TVec (TNamed "Node")) "kids"; fld 1 false TI32 "key";
     fld 9 false TI64 "extra"; fld 4 false (TNamed "Shape") "shape"])].
Definition sample_node2 : value :=
  VStruct [VSome (VBox (VStruct [VNone; VVec []; VSome (VI32 (-1)); VNone; VNone]));
           VVec [VStruct [VNone; VVec []; VSome (VI32 7); VNone; VNone]; VStruct [VNone; VVec []; VSome (VI32 300); VNone; VNone]];
           VSome (VI32 (-5)); VNone; VSome (VUnion 0 (VBin [1; 2; 3]))].
Lemma boxed_bool_dropped : exists E1 E2 v w bs, env_ok false E1 3 = true /\ wenv_ok E1 = true /\ env_ok true E2 3 = true /\ compatible true E1 E2 = true /\
  typed E1 (TNamed "S") v /\ write_thrift vec_write_all E1 (TNamed "S") v [] = (bs, Ok tt) /\ project E1 E2 (TNamed "S") v = Some w /\
  read_thrift release64 (slice_input release64) E2 50 (TNamed "S") bs = ([], Err (IO UnexpectedEof)).
Proof.
  exists [("S"%string, DStruct [fld 1 true (TBox TBool) "a"; fld 2 true TI32 "b"])], [("S"%string, DStruct [fld 2 true TI32 "b"])],
    (VStruct [VBox (VBool true); VI32 5]), (VStruct [VI32 5]), [18; 1; 21; 10; 0].
  repeat split; try (apply typedb_ok); vm_compute; reflexivity.
Qed.
