(** Struct fields that are missing, repeated or of the wrong type: C26-C29. *)
From Coq Require Import ZifyBool ZifyNat ZifyN.
From Verif Require Import Base Uleb Utf8 Protocol Encodings Types SpecUtf8 SpecCompact SpecFields SpecInput Schema
  P_Arith P_Reads P_Utf8 P_Inputs P_Skip P_Gen P_Fill P_Prim.
Ltac Zify.zify_post_hook ::= Z.div_mod_to_equations.

Lemma both_fails_gen {A} c (m : forall S, input S -> M S A) bs e :
  (forall S (I : input S) (R : S -> list Z -> Prop), delivers I R -> fails R (m S I) bs e) ->
  cfg_ok c -> both_fail c m bs e.
Proof.
  intros H Hc. apply both_fails; [apply H, slice_delivers, Hc|intros x; apply H, reader_delivers, Hc].
Qed.

(** * Replacement *)
Fixpoint fresh (E : env) (t : ty) (v : value) : Prop :=
  match t with
  | TBox t' => match v with VBox w => fresh E t' w | _ => False end
  | TShared t' => match v with VShared true w => fresh E t' w | _ => False end
  | TOption _ => False
  | TNamed n => match lookup E n with Some (DStruct _) => False | _ => True end
  | _ => True
  end.

Lemma dflt_fresh E t : replaceable E t = true -> forall v, dflt E t v -> fresh E t v.
Proof.
  induction t; cbn [replaceable fresh]; intros Hr v Hd; try exact I; try discriminate.
  - apply dflt_box in Hd as (w & -> & Hw). auto.
  - apply dflt_shared in Hd as (w & -> & Hw). auto.
  - destruct (lookup E name) as [[| |]|]; try exact I. discriminate.
Qed.
Lemma enc_fresh E t : replaceable E t = true -> forall v bs, enc E t v bs -> fresh E t v.
Proof.
  induction t; cbn [replaceable fresh]; intros Hr v bs He; try exact I; try discriminate.
  - inversion He; subst. eauto.
  - inversion He; subst. eauto.
  - destruct (lookup E name) as [[| |]|]; try exact I. discriminate.
Qed.
Lemma enc_field_fresh E t : replaceable E t = true -> forall v ft bs, enc_field E t v ft bs -> fresh E t v.
Proof.
  induction t; intros Hr v ft bs He; inversion He; subst;
    try (eapply enc_fresh; eassumption); cbn [replaceable fresh] in *; try exact I; eauto; discriminate.
Qed.

Section Replace.
  Context {S : Type}.
  Variable c : cfg.
  Variable I : input S.
  Variable E : env.

  Lemma same_assign {A} (m : M S A) k v1 v2 s : same_fill (assign m k v1 s) (assign m k v2 s).
  Proof. unfold assign. destruct (m s) as [s' [a|e|p]]; split; cbn; auto; (split; [reflexivity|]; try discriminate; reflexivity). Qed.
  Lemma same_stop (s : S) v1 v2 (o : outcome unit) : o <> Ok tt -> same_fill (s, v1, o) (s, v2, o).
  Proof. intros H. split; [reflexivity|]. split; [reflexivity|]. intros H'. contradiction. Qed.
  Lemma same_refl (x : S * value * outcome unit) : same_fill x x.
  Proof. split; [reflexivity|]. split; reflexivity. Qed.

  Lemma fill_replace d : forall t v1 v2 s, fresh E t v1 -> fresh E t v2 ->
    same_fill (fill c I E d t v1 s) (fill c I E d t v2 s).
  Proof.
    induction d as [|d IH]; intros t v1 v2 s H1 H2; [apply same_stop; discriminate|].
    cbn [fill]. destruct t; cbn [fresh] in *; try apply same_assign; try contradiction.
    - destruct (read_collection_len_and_type c I s) as [s1 [[n et]|e|p]]; try (apply same_stop; discriminate).
      destruct (_ && _); [apply same_stop; discriminate|]. destruct (negb (reserve c n)); apply same_refl.
    - destruct v1; try contradiction. destruct v2; try contradiction.
      destruct (IH t v1 v2 s H1 H2) as (G1 & G2 & G3).
      destruct (fill c I E d t v1 s) as [[s1 w1] o1], (fill c I E d t v2 s) as [[s2 w2] o2]. cbn [fst snd] in *. subst s2 o2.
      split; [reflexivity|]. split; [reflexivity|]. cbn [snd]. intros Ho. specialize (G3 Ho). congruence.
    - destruct v1; try contradiction. destruct v2; try contradiction. destruct unique; [|contradiction]. destruct unique0; [|contradiction].
      destruct (IH t v1 v2 s H1 H2) as (G1 & G2 & G3).
      destruct (fill c I E d t v1 s) as [[s1 w1] o1], (fill c I E d t v2 s) as [[s2 w2] o2]. cbn [fst snd] in *. subst s2 o2.
      split; [reflexivity|]. split; [reflexivity|]. cbn [snd]. intros Ho. specialize (G3 Ho). congruence.
    - destruct (lookup E name) as [[fs|fs|]|]; [contradiction| |apply same_assign|apply same_stop; discriminate].
      destruct (read_field_header c I 0 s) as [s1 [[ft last]|e|p]]; try (apply same_stop; discriminate).
      destruct (ft =? 0); [apply same_stop; discriminate|].
      destruct (find_field fs last) as [[i f]|]; [|apply same_stop; discriminate].
      destruct (default E d (f_ty f)); [apply same_refl|apply same_stop; discriminate].
  Qed.
  Lemma fill_field_replace d t ft v1 v2 s : fresh E t v1 -> fresh E t v2 ->
    same_fill (fill_field c I E d t ft v1 s) (fill_field c I E d t ft v2 s).
  Proof.
    intros H1 H2. destruct d as [|d]; [apply same_stop; discriminate|]. cbn [fill_field].
    assert (H : same_fill (if negb (ft =? field_type E t) then (s, v1, Err InvalidType) else fill c I E d t v1 s)
                          (if negb (ft =? field_type E t) then (s, v2, Err InvalidType) else fill c I E d t v2 s)).
    { destruct (negb _); [apply same_stop; discriminate|apply fill_replace; assumption]. }
    destruct t; try exact H; [apply same_refl|contradiction].
  Qed.
End Replace.

(** * Lists of occurrences *)
Lemma contents_app id o1 o2 : contents id (o1 ++ o2) = contents id o1 ++ contents id o2.
Proof. induction o1 as [|[f v|x] o1 IH]; cbn [app contents]; [reflexivity| |exact IH]. destruct (f_id f =? id); rewrite IH; reflexivity. Qed.

Definition seen (occs : list occ) (f : field) : bool := match contents (f_id f) occs with [] => false | _ => true end.

(** What a field holds while reading. *)
Definition current (E : env) (occs : list occ) (f : field) (v : value) : Prop :=
  match rev (contents (f_id f) occs) with
  | w :: _ => v = wrap_field f w
  | [] => dflt E (field_ty f) v
  end.
Definition fresh_occ (E : env) (fs : list field) (o : occ) : Prop :=
  match o with
  | OField f v => In f fs /\ (replaceable E (f_ty f) = true -> fresh E (f_ty f) v)
  | OOther _ => True
  end.

Lemma current_app_other E occs f v o : (forall g w, o = OField g w -> f_id g <> f_id f) ->
  current E (occs ++ [o]) f v <-> current E occs f v.
Proof.
  intros H. unfold current. rewrite contents_app. destruct o as [g w|id]; cbn [contents].
  - destruct (f_id g =? f_id f) eqn:Hg; [exfalso; apply (H g w eq_refl); lia|]. rewrite app_nil_r. reflexivity.
  - rewrite app_nil_r. reflexivity.
Qed.
Lemma current_app_same E occs f w : current E (occs ++ [OField f w]) f (wrap_field f w).
Proof. unfold current. rewrite contents_app. cbn [contents]. rewrite Z.eqb_refl, rev_app_distr. reflexivity. Qed.
Lemma seen_app_other occs f o : (forall g w, o = OField g w -> f_id g <> f_id f) -> seen (occs ++ [o]) f = seen occs f.
Proof.
  intros H. unfold seen. rewrite contents_app. destruct o as [g w|id]; cbn [contents].
  - destruct (f_id g =? f_id f) eqn:Hg; [exfalso; apply (H g w eq_refl); lia|]. rewrite app_nil_r. reflexivity.
  - rewrite app_nil_r. reflexivity.
Qed.
Lemma seen_app_same occs f w : seen (occs ++ [OField f w]) f = true.
Proof. unfold seen. rewrite contents_app. cbn [contents]. rewrite Z.eqb_refl. destruct (contents (f_id f) occs); reflexivity. Qed.

Lemma map_set {A B} (g h : A -> B) l i a : nth_error l i = Some a ->
  (forall j x, nth_error l j = Some x -> j <> i -> h x = g x) -> set_nth (map g l) i (h a) = map h l.
Proof.
  revert i. induction l as [|x l IH]; intros [|i] Hi Hne; cbn in *; try discriminate.
  - injection Hi as ->. f_equal. apply map_ext_in. intros y Hy. apply In_nth_error in Hy as [j Hj].
    symmetry. apply (Hne (Datatypes.S j)); [exact Hj|discriminate].
  - f_equal; [symmetry; apply (Hne O); [reflexivity|discriminate]|]. apply IH; [exact Hi|].
    intros j y Hj Hji. apply (Hne (Datatypes.S j)); [exact Hj|congruence].
Qed.
Lemma Forall2_set {A B} (P Q : A -> B -> Prop) l m i a b : Forall2 P l m -> nth_error l i = Some a -> Q a b ->
  (forall j x y, nth_error l j = Some x -> j <> i -> P x y -> Q x y) -> Forall2 Q l (set_nth m i b).
Proof.
  intros H. revert i. induction H as [|x y l m Hxy H IH]; intros [|i] Hi Hq Hne; cbn in *; try discriminate.
  - injection Hi as ->. constructor; [exact Hq|]. clear IH Hxy.
    assert (Hne' : forall j x y, nth_error l j = Some x -> P x y -> Q x y).
    { intros j x' y' Hj. apply (Hne (Datatypes.S j)); [exact Hj|discriminate]. }
    clear Hne. induction H; constructor; [apply (Hne' O); [reflexivity|assumption]|].
    apply IHForall2. intros j. apply (Hne' (Datatypes.S j)).
  - constructor; [apply (Hne O); [reflexivity|discriminate|exact Hxy]|]. apply IH; [exact Hi|exact Hq|].
    intros j x' y' Hj Hji. apply (Hne (Datatypes.S j)); [exact Hj|congruence].
Qed.
Lemma Forall2_nth {A B} (P : A -> B -> Prop) l m i a : Forall2 P l m -> nth_error l i = Some a ->
  exists b, nth_error m i = Some b /\ P a b.
Proof.
  intros H. revert i. induction H as [|x y l m Hxy H IH]; intros [|i] Hi; cbn in *; try discriminate.
  - injection Hi as ->. eauto.
  - apply IH. exact Hi.
Qed.
Lemma Forall2_weaken {A B} (P Q : A -> B -> Prop) l m : (forall a b, P a b -> Q a b) -> Forall2 P l m -> Forall2 Q l m.
Proof. intros H. induction 1; constructor; auto. Qed.
Lemma nodup_ids fs i j f g : NoDup (map f_id fs) -> nth_error fs i = Some f -> nth_error fs j = Some g -> j <> i -> f_id g <> f_id f.
Proof.
  intros Hnd Hf Hg Hij He. apply Hij. apply (proj1 (NoDup_nth_error (map f_id fs)) Hnd).
  - rewrite map_length. apply nth_error_Some. congruence.
  - rewrite !nth_error_map, Hf, Hg. cbn. congruence.
Qed.

Section Run.
  Context {S : Type} (R : S -> list Z -> Prop).
  Variable c : cfg.
  Variable I : input S.
  Variable E : env.
  Variable K : nat.
  Hypothesis D : delivers I R.
  Hypothesis Hc : cfg_ok c.
  Hypothesis HE : env_ok true E K = true.
  Hypothesis Hres : reserve_ok c.
  Variables (name : string) (fs : list field).
  Hypothesis Hnd : NoDup (map f_id fs).
  Hypothesis Hfs : forall f, In f fs -> ty_closed E (f_ty f) = true /\ (ty_depth (field_ty f) <= K)%nat /\ bool_direct (f_ty f) = true.

  Notation "'loop' d" := (struct_loop c I name fs (fun t' ft w s' => fill_field c I E d t' ft w s')
                        (fun ft => skip_field c I d ft false)) (at level 10, d at level 9).

  Lemma same_id f g : In f fs -> In g fs -> f_id g = f_id f -> g = f.
  Proof.
    intros Hf Hg He. apply In_nth_error in Hf as [i Hi]. apply In_nth_error in Hg as [j Hj].
    destruct (Nat.eq_dec j i) as [->|Hne]; [congruence|]. exfalso. exact (nodup_ids fs i j f g Hnd Hi Hj Hne He).
  Qed.

  (** One declared field. *)
  Lemma field_step d pre f v ft payload x :
    In f fs -> enc_field E (f_ty f) v ft payload -> (need K TBool (Datatypes.S (List.length payload)) <= Datatypes.S d)%nat ->
    Forall (fresh_occ E fs) pre -> current E pre f x ->
    once_at_most (pre ++ [OField f v]) f \/ (f_req f = true /\ replaceable E (f_ty f) = true) ->
    1 <= ft <= 12 /\ fills R (fill_field c I E d (field_ty f) ft x) payload (wrap_field f v).
  Proof.
    intros Hin He Hd Hpre Hx Htidy. destruct (Hfs f Hin) as (Hcl & Hdep & Hbd).
    destruct (proj1 (proj2 (proj2 (enc_genc E K HE))) _ _ _ _ He Hcl) as [Hg _]. specialize (Hg Hbd).
    pose proof (proj1 (proj2 (proj2 (fill_genc R c I E K true D Hc HE Hres))) _ _ _ _ Hg) as HP.
    unfold current in Hx. unfold once_at_most in Htidy. rewrite contents_app in Htidy. cbn [contents] in Htidy.
    rewrite Z.eqb_refl, app_length in Htidy. cbn [List.length] in Htidy.
    assert (Hone : (List.length (contents (f_id f) pre) + 1 <= 1)%nat -> rev (contents (f_id f) pre) = []).
    { intros H. destruct (contents (f_id f) pre); [reflexivity|cbn in H; lia]. }
    unfold field_ty, wrap_field in *. destruct (f_req f) eqn:Hq.
    - pose proof (need_field E K true TBool (f_ty f) _ (List.length payload) d Hd ltac:(lia) Hdep) as Hn.
      destruct (default_closed true E K (f_ty f) d HE Hcl) as [dv Hdv]; [unfold need in Hn; lia|].
      destruct (HP d dv Hcl ltac:(lia) (ex_intro _ _ Hdv)) as [Hft Hfi]. split; [exact Hft|].
      destruct (rev (contents (f_id f) pre)) as [|w r] eqn:Hrev.
      { rewrite (dflt_det _ _ _ _ Hx (ex_intro _ d Hdv)). exact Hfi. }
      destruct Htidy as [Ht|[_ Hr]]; [specialize (Hone Ht); discriminate|].
      subst x. assert (Hfw : fresh E (f_ty f) w).
      { assert (Hinw : In w (contents (f_id f) pre)) by (apply in_rev; rewrite Hrev; left; reflexivity).
        revert Hinw. clear -Hpre Hr Hnd Hin. induction Hpre as [|o pre Ho Hpre IH]; cbn [contents]; [contradiction|].
        destruct o as [g u|]; [|exact IH]. destruct (f_id g =? f_id f) eqn:Hg; [|exact IH].
        intros [<-|Hw]; [|auto]. cbn [fresh_occ] in Ho. destruct Ho as [Hgin Ho].
        assert (g = f) by (apply same_id; [exact Hin|exact Hgin|lia]). subst g. auto. }
      intros s rest HR. destruct (Hfi s rest HR) as (s1 & E1 & R1). exists s1. split; [|exact R1].
      destruct (fill_field_replace c I E d (f_ty f) ft dv w s (dflt_fresh E _ Hr _ (ex_intro _ d Hdv)) Hfw) as (G1 & G2 & G3).
      rewrite E1 in G3. rewrite <- G3; reflexivity.
    - destruct Htidy as [Ht|[Ht _]]; [|discriminate]. rewrite (Hone Ht) in Hx.
      cbn [ty_depth] in Hdep. pose proof (need_field E K true TBool (f_ty f) _ (List.length payload) d Hd ltac:(lia) ltac:(lia)) as Hn.
      destruct (default_closed true E K (f_ty f) (d - 1) HE Hcl) as [dv Hdv]; [unfold need in Hn; lia|].
      destruct (HP (d - 1)%nat dv Hcl ltac:(lia) (ex_intro _ _ Hdv)) as [Hft Hfi]. split; [exact Hft|].
      intros s0 rest0 HR0. destruct (Hfi _ _ HR0) as (s1 & E1 & R1). exists s1. split; [|exact R1].
      apply dflt_option in Hx. subst x. destruct d as [|d]; [lia|]. cbn [fill_field].
      replace (Datatypes.S d - 1)%nat with d in * by lia. rewrite Hdv, E1. reflexivity.
  Qed.

  Lemma need_less n n' d : (n' <= n)%nat -> (need K TBool n <= d)%nat -> (need K TBool n' <= d)%nat.
  Proof. intros H1 H2. exact (need_le E K true TBool TBool n n' d H2 H1 (le_n _)). Qed.

  Lemma once_prefix o1 o2 f : once_at_most (o1 ++ o2) f -> once_at_most o1 f.
  Proof. unfold once_at_most. rewrite contents_app, app_length. lia. Qed.

  (** A run of occurrences leads from one state of the loop to another. *)
  Lemma run_loop last occs last' bs : run E fs last occs last' bs ->
    forall d fuel pre cur s rest,
      -32768 <= last -> Forall (fresh_occ E fs) pre -> Forall2 (current E pre) fs cur -> tidy E fs (pre ++ occs) ->
      (need K TBool (Datatypes.S (List.length bs)) <= Datatypes.S d)%nat -> (List.length bs < fuel)%nat ->
      R s (bs ++ rest) ->
      exists s' fuel' cur',
        loop d fuel last (map (seen pre) fs) cur s = loop d fuel' last' (map (seen (pre ++ occs)) fs) cur' s' /\
        R s' rest /\ Forall2 (current E (pre ++ occs)) fs cur' /\ Forall (fresh_occ E fs) (pre ++ occs) /\
        (0 < fuel')%nat /\ -32768 <= last'.
  Proof.
    induction 1 as [last|last f v ft hdr payload occs last' rest0 Hin Hh He Hrun IH
                   |last id t hdr payload occs last' rest0 Hunk Ht Hh Hw Hrun IH];
      intros d fuel pre cur s rest Hl Hpre Hcur Htidy Hd Hfuel HR.
    - exists s, fuel, cur. rewrite app_nil_r. repeat split; try assumption.
    - assert (Hinf := Hin). apply In_nth_error in Hinf as [i Hi].
      pose proof (field_header_nonempty _ _ _ _ Hh) as Hne. pose proof (field_header_id _ _ _ _ Hl Hh) as Hid.
      rewrite !app_length in Hd, Hfuel. rewrite <- !app_assoc in HR.
      destruct fuel as [|fuel]; [lia|].
      destruct (Forall2_nth _ _ _ _ _ Hcur Hi) as (x & Hx & Hcx).
      replace (pre ++ OField f v :: occs) with ((pre ++ [OField f v]) ++ occs) in * by (rewrite <- app_assoc; reflexivity).
      assert (Ht1 : once_at_most (pre ++ [OField f v]) f \/ (f_req f = true /\ replaceable E (f_ty f) = true)).
      { destruct (Htidy f Hin) as [H|H]; [left; eapply once_prefix; exact H|right; exact H]. }
      destruct (field_step d pre f v ft payload x Hin He) as [Hft Hfill]; try assumption.
      { eapply need_less; [|exact Hd]. lia. }
      destruct (read_field_header_reads R c I D last (f_id f) ft hdr Hl ltac:(lia) Hh s _ HR) as (s1 & E1 & R1).
      destruct (Hfill _ _ R1) as (s2 & E2 & R2).
      destruct (IH d fuel (pre ++ [OField f v]) (set_nth cur i (wrap_field f v)) s2 rest) as (s' & fuel' & cur' & G1 & G2 & G3 & G4 & G5 & G6).
      + lia.
      + apply Forall_app. split; [exact Hpre|]. constructor; [|constructor]. split; [exact Hin|].
        intros Hr. eapply enc_field_fresh; eassumption.
      + eapply Forall2_set; [exact Hcur|exact Hi|apply current_app_same|].
        intros j g y Hj Hji Hy. apply current_app_other; [|exact Hy]. intros g' w' Heq. injection Heq as <- <-.
        intros Heq. apply (nodup_ids fs i j f g Hnd Hi Hj Hji). congruence.
      + exact Htidy.
      + eapply need_less; [|exact Hd]. lia.
      + lia.
      + exact R2.
      + exists s', fuel', cur'. split; [|auto]. rewrite <- G1. cbn [struct_loop]. rewrite E1.
        replace (ft =? 0) with false by lia. rewrite (find_field_nth fs i f Hnd Hi), Hx, E2. f_equal.
        rewrite <- (map_set (seen pre) (seen (pre ++ [OField f v])) fs i f Hi).
        * rewrite seen_app_same. reflexivity.
        * intros j g Hj Hji. apply seen_app_other. intros g' w' Heq. injection Heq as <- <-.
          intros Heq. apply (nodup_ids fs i j f g Hnd Hi Hj Hji). congruence.
    - pose proof (field_header_nonempty _ _ _ _ Hh) as Hne. pose proof (field_header_id _ _ _ _ Hl Hh) as Hid.
      rewrite !app_length in Hd, Hfuel. rewrite <- !app_assoc in HR.
      destruct fuel as [|fuel]; [lia|].
      replace (pre ++ OOther id :: occs) with ((pre ++ [OOther id]) ++ occs) in * by (rewrite <- app_assoc; reflexivity).
      destruct (read_field_header_reads R c I D last id t hdr Hl ltac:(lia) Hh s _ HR) as (s1 & E1 & R1).
      destruct (skip_field_wire R c I D Hc t false payload d Hw) with (s := s1) (rest := rest0 ++ rest) as (s2 & E2 & R2);
        [eapply (need_skip E K true); [exact Hd|lia]|exact R1|].
      destruct (IH d fuel (pre ++ [OOther id]) cur s2 rest) as (s' & fuel' & cur' & G1 & G2 & G3 & G4 & G5 & G6).
      + lia.
      + apply Forall_app. split; [exact Hpre|]. constructor; [exact Coq.Init.Logic.I|constructor].
      + eapply Forall2_weaken; [|exact Hcur]. intros g y Hy. apply current_app_other; [|exact Hy]. discriminate.
      + exact Htidy.
      + eapply need_less; [|exact Hd]. lia.
      + lia.
      + exact R2.
      + exists s', fuel', cur'. split; [|auto]. rewrite <- G1. cbn [struct_loop]. rewrite E1.
        replace (t =? 0) with false by lia. rewrite (find_field_none fs id Hunk), E2. f_equal.
        apply map_ext. intros g. symmetry. apply seen_app_other. discriminate.
  Qed.

  (** Ends of a run. *)
  Lemma missing_none occs : first_missing fs (map (seen occs) fs) = None <-> forall f, In f fs -> f_req f = true -> occurs occs f.
  Proof.
    clear Hnd Hfs. induction fs as [|g gs IH]; cbn [map first_missing]; [split; [contradiction|reflexivity]|].
    destruct (f_req g && negb (seen occs g)) eqn:Hm.
    - split; [discriminate|]. intros H. apply andb_true_iff in Hm as [H1 H2]. exfalso.
      apply (H g (or_introl eq_refl) H1). unfold seen in H2. destruct (contents (f_id g) occs); [reflexivity|discriminate].
    - rewrite IH. split.
      + intros H f [<-|Hf] Hq; [|auto]. intros Ho. rewrite Hq in Hm. unfold seen in Hm. rewrite Ho in Hm. discriminate.
      + intros H f Hf. apply H. right. exact Hf.
  Qed.
  Lemma missing_first occs fs1 f fs2 : fs = fs1 ++ f :: fs2 -> f_req f = true -> ~ occurs occs f ->
    (forall g, In g fs1 -> f_req g = true -> occurs occs g) -> first_missing fs (map (seen occs) fs) = Some (f_name f).
  Proof.
    clear Hnd Hfs. intros -> Hq Ho. induction fs1 as [|g fs1 IH]; intros H; cbn [app map first_missing].
    - rewrite Hq. unfold seen, occurs in *. destruct (contents (f_id f) occs); [reflexivity|]. exfalso. apply Ho. discriminate.
    - destruct (f_req g && negb (seen occs g)) eqn:Hm.
      + apply andb_true_iff in Hm as [H1 H2]. exfalso. apply (H g (or_introl eq_refl) H1).
        unfold seen in H2. destruct (contents (f_id g) occs); [reflexivity|discriminate].
      + apply IH. intros g' Hg'. apply H. right. exact Hg'.
  Qed.

  Lemma current_result occs cur : Forall2 (current E occs) fs cur -> (forall f, In f fs -> f_req f = true -> occurs occs f) ->
    Forall2 (final_content occs) fs cur.
  Proof.
    clear Hnd Hfs. intros H. induction H as [|f x gs cur Hx H IH]; intros Ho; constructor.
    - unfold current, final_content, wrap_field, field_ty in *. destruct (rev (contents (f_id f) occs)) as [|w r] eqn:Hr; [|exact Hx].
      destruct (f_req f) eqn:Hq.
      + exfalso. apply (Ho f (or_introl eq_refl) Hq). rewrite <- (rev_involutive (contents (f_id f) occs)), Hr. reflexivity.
      + split; [reflexivity|]. apply dflt_option in Hx. exact Hx.
    - apply IH. intros g Hg. apply Ho. right. exact Hg.
  Qed.

  Variable d : nat.
  Hypothesis Hlook : lookup E name = Some (DStruct fs).

  (** From the start of the struct to the end of the run. *)
  Lemma run_start occs last' bs : run E fs 0 occs last' bs -> tidy E fs occs ->
    (need K (TNamed name) (Datatypes.S (List.length bs)) <= Datatypes.S d)%nat ->
    forall s rest, R s (bs ++ rest) ->
    exists dv s' fuel cur, default E (Datatypes.S d) (TNamed name) = Some dv /\
      fill c I E (Datatypes.S d) (TNamed name) dv s =
        match loop d (Datatypes.S fuel) last' (map (seen occs) fs) cur s' with (s'', vs, o) => (s'', VStruct vs, o) end /\
      R s' rest /\ Forall2 (current E occs) fs cur /\ Forall (fresh_occ E fs) occs /\ -32768 <= last'.
  Proof.
    intros Hrun Ht Hd s rest HR.
    assert (Hcl : ty_closed E (TNamed name) = true) by (cbn [ty_closed]; rewrite Hlook; reflexivity).
    destruct (default_closed true E K (TNamed name) (Datatypes.S d) HE Hcl) as [dv Hdv]; [unfold need in Hd; lia|].
    destruct (dflt_struct E name fs dv Hlook (ex_intro _ _ Hdv)) as (dvs & -> & Hdvs).
    pose proof (del_left _ _ D _ _ HR) as Hleft. rewrite app_length in Hleft.
    destruct (run_loop 0 occs last' bs Hrun d (Datatypes.S (in_left I s)) [] dvs s rest) as (s' & fuel' & cur' & G1 & G2 & G3 & G4 & G5 & G6);
      [lia|constructor|exact Hdvs|exact Ht|exact Hd|lia|exact HR|].
    destruct fuel' as [|fuel']; [lia|].
    exists (VStruct dvs), s', fuel', cur'. split; [exact Hdv|]. split; [|auto].
    rewrite (fill_struct c I E d name fs dvs s Hlook). cbn [app] in G1. rewrite <- G1. reflexivity.
  Qed.

  Lemma run_stop occs last' bs : run E fs 0 occs last' bs -> tidy E fs occs ->
    (need K (TNamed name) (Datatypes.S (List.length bs)) <= Datatypes.S d)%nat ->
    (forall f, In f fs -> f_req f = true -> occurs occs f) ->
    exists vs, Forall2 (final_content occs) fs vs /\ reads R (read_thrift c I E (Datatypes.S d) (TNamed name)) (bs ++ [0]) (VStruct vs).
  Proof.
    intros Hrun Ht Hd Ho.
    assert (Huniq : forall vs1 vs2, Forall2 (final_content occs) fs vs1 -> Forall2 (final_content occs) fs vs2 -> vs1 = vs2).
    { clear. intros vs1 vs2 H1. revert vs2. induction H1 as [|f x gs vs1 Hx H IH]; intros vs2 H2; inversion H2; subst; [reflexivity|].
      f_equal; [|apply IH; assumption]. unfold final_content in *. destruct (rev (contents (f_id f) occs)); [|congruence].
      destruct Hx as [_ ->]. match goal with H : _ /\ _ |- _ => destruct H as [_ ->] end. reflexivity. }
    assert (Hall : exists vs, Forall2 (final_content occs) fs vs).
    { clear -Ho. induction fs as [|f gs IH]; [exists []; constructor|].
      destruct IH as [vs Hvs]; [intros g Hg; apply Ho; right; exact Hg|].
      assert (exists v, final_content occs f v) as [v Hv].
      { unfold final_content. destruct (rev (contents (f_id f) occs)) eqn:Hr; [|eauto]. exists VNone. split; [|reflexivity].
        destruct (f_req f) eqn:Hq; [|reflexivity]. exfalso. apply (Ho f (or_introl eq_refl) Hq).
        rewrite <- (rev_involutive (contents (f_id f) occs)), Hr. reflexivity. }
      exists (v :: vs). constructor; assumption. }
    destruct Hall as [vs Hvs]. exists vs. split; [exact Hvs|]. intros s rest HR. rewrite <- app_assoc in HR.
    destruct (run_start _ _ _ Hrun Ht Hd s _ HR) as (dv & s1 & fuel & cur & H1 & H2 & H3 & H4 & _ & H5).
    destruct (read_field_header_stop R c I D last' s1 rest H3) as (s2 & E2 & R2).
    exists s2. split; [|exact R2]. unfold read_thrift. rewrite H1, H2. cbn [struct_loop]. rewrite E2. cbn [Z.eqb].
    rewrite (proj2 (missing_none occs) Ho). f_equal. f_equal. f_equal. apply Huniq; [|exact Hvs]. apply current_result; assumption.
  Qed.

  Lemma run_missing occs last' bs fs1 f fs2 : run E fs 0 occs last' bs -> tidy E fs occs ->
    (need K (TNamed name) (Datatypes.S (List.length bs)) <= Datatypes.S d)%nat ->
    fs = fs1 ++ f :: fs2 -> f_req f = true -> ~ occurs occs f -> (forall g, In g fs1 -> f_req g = true -> occurs occs g) ->
    fails R (read_thrift c I E (Datatypes.S d) (TNamed name)) (bs ++ [0]) (MissingField (name ++ "::" ++ f_name f)).
  Proof.
    intros Hrun Ht Hd Hfseq Hq Hno Ho s rest HR. rewrite <- app_assoc in HR.
    destruct (run_start _ _ _ Hrun Ht Hd s _ HR) as (dv & s1 & fuel & cur & H1 & H2 & H3 & H4 & _ & H5).
    destruct (read_field_header_stop R c I D last' s1 rest H3) as (s2 & E2 & R2).
    exists s2. split; [|exact R2]. unfold read_thrift. rewrite H1, H2. cbn [struct_loop]. rewrite E2. cbn [Z.eqb].
    rewrite (missing_first occs fs1 f fs2 Hfseq Hq Hno Ho). reflexivity.
  Qed.

  (** A header after the run whose field fails at once. *)
  Lemma run_header occs last' bs f ft hdr e : run E fs 0 occs last' bs -> tidy E fs occs ->
    (need K (TNamed name) (Datatypes.S (List.length bs)) <= Datatypes.S d)%nat ->
    In f fs -> 1 <= ft <= 15 -> field_header last' (f_id f) ft hdr ->
    (forall x s, current E occs f x -> Forall (fresh_occ E fs) occs -> exists x', fill_field c I E d (field_ty f) ft x s = (s, x', Err e)) ->
    fails R (read_thrift c I E (Datatypes.S d) (TNamed name)) (bs ++ hdr) e.
  Proof.
    intros Hrun Ht Hd Hin Hft Hh Hf s rest HR. rewrite <- app_assoc in HR.
    destruct (run_start _ _ _ Hrun Ht Hd s _ HR) as (dv & s1 & fuel & cur & H1 & H2 & H3 & H4 & Hfr & H5).
    destruct (read_field_header_reads R c I D last' (f_id f) ft hdr H5 Hft Hh s1 _ H3) as (s2 & E2 & R2).
    exists s2. split; [|exact R2]. apply In_nth_error in Hin as [i Hi].
    destruct (Forall2_nth _ _ _ _ _ H4 Hi) as (x & Hx & Hcx). destruct (Hf x s2 Hcx Hfr) as (x' & Hx').
    unfold read_thrift. rewrite H1, H2. cbn [struct_loop]. rewrite E2. replace (ft =? 0) with false by lia.
    rewrite (find_field_nth fs i f Hnd Hi), Hx, Hx'. reflexivity.
  Qed.

  Lemma run_duplicate occs last' bs f ft hdr : run E fs 0 occs last' bs -> tidy E fs occs ->
    (need K (TNamed name) (Datatypes.S (List.length bs)) <= Datatypes.S d)%nat ->
    In f fs -> f_req f = false -> occurs occs f -> 1 <= ft <= 15 -> field_header last' (f_id f) ft hdr ->
    fails R (read_thrift c I E (Datatypes.S d) (TNamed name)) (bs ++ hdr) DuplicateField.
  Proof.
    intros Hrun Ht Hd Hin Hq Ho Hft Hh. eapply run_header; try eassumption. intros x s Hx _.
    unfold current in Hx. destruct (rev (contents (f_id f) occs)) as [|w r] eqn:Hr.
    { exfalso. apply Ho. rewrite <- (rev_involutive (contents (f_id f) occs)), Hr. reflexivity. }
    unfold wrap_field in Hx. rewrite Hq in Hx. subst x. exists (VSome w). unfold field_ty. rewrite Hq.
    unfold need in Hd. destruct d as [|d']; [lia|]. reflexivity.
  Qed.

  Lemma wrong_type t ft : forall n x s, boolish t = false -> ft <> wire_code E t -> ty_closed E t = true ->
    (ty_depth t + K < n)%nat -> dflt E t x \/ fresh E t x ->
    exists x', fill_field c I E n t ft x s = (s, x', Err InvalidType).
  Proof.
    induction t; intros n x s Hb Hft Hcl Hn Hx; (destruct n as [|n]; [lia|]); cbn [fill_field];
      try (rewrite wire_code_field_type by exact Hcl; replace (ft =? _) with false by lia; eexists; reflexivity); try discriminate.
    destruct Hx as [Hx|Hx]; [|contradiction]. apply dflt_option in Hx. subst x. cbn [boolish wire_code ty_closed ty_depth] in *.
    destruct (default_closed true E K t n HE Hcl ltac:(lia)) as [dv Hdv]. rewrite Hdv.
    destruct (IHt n dv s Hb Hft Hcl ltac:(lia) (or_introl (ex_intro _ _ Hdv))) as [x' ->]. eauto.
  Qed.

  Lemma run_wrong_type occs last' bs f ft hdr : run E fs 0 occs last' bs -> tidy E fs occs ->
    (need K (TNamed name) (Datatypes.S (List.length bs)) <= Datatypes.S d)%nat ->
    In f fs -> boolish (f_ty f) = false -> ~ occurs occs f \/ (f_req f = true /\ replaceable E (f_ty f) = true) ->
    1 <= ft <= 15 -> ft <> wire_code E (f_ty f) -> field_header last' (f_id f) ft hdr ->
    fails R (read_thrift c I E (Datatypes.S d) (TNamed name)) (bs ++ hdr) InvalidType.
  Proof.
    intros Hrun Ht Hd Hin Hb Ho Hft Hne Hh. eapply run_header; try eassumption. intros x s Hx Hfr.
    destruct (Hfs f Hin) as (Hcl & Hdep & _).
    apply wrong_type.
    - unfold field_ty. destruct (f_req f); exact Hb.
    - unfold field_ty. destruct (f_req f); exact Hne.
    - unfold field_ty. destruct (f_req f); exact Hcl.
    - unfold need in Hd. nia.
    - unfold current in Hx. destruct (rev (contents (f_id f) occs)) as [|w r] eqn:Hr; [left; exact Hx|].
      destruct Ho as [Ho|[Hq Hrep]].
      { exfalso. apply Ho. unfold occurs. intros H. rewrite H in Hr. discriminate. }
      right. unfold wrap_field, field_ty in *. rewrite Hq in *. subst x.
      assert (Hinw : In w (contents (f_id f) occs)) by (apply in_rev; rewrite Hr; left; reflexivity).
      revert Hinw. clear -Hfr Hrep Hnd Hin. induction Hfr as [|o pre Ho Hpre IH]; cbn [contents]; [contradiction|].
      destruct o as [g u|]; [|exact IH]. destruct (f_id g =? f_id f) eqn:Hg; [|exact IH].
      intros [<-|Hw]; [|auto]. cbn [fresh_occ] in Ho. destruct Ho as [Hgin Ho].
      assert (g = f) by (apply same_id; [exact Hin|exact Hgin|lia]). subst g. auto.
  Qed.
End Run.
