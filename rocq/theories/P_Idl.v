(** Declarations and the interface definition language (C61, C62). *)
From Coq Require Import ZifyBool ZifyNat ZifyN Permutation.
From Verif Require Import Base Uleb Utf8 Protocol Encodings Types SpecUtf8 SpecCompact SpecInput Schema Typing SpecEvolve Parquet
  Generator Macro FormatRs ParquetIdl SpecIdl P_Arith P_Reads P_Skip P_Inputs P_Gen P_Fill P_Write P_Roundtrip P_Evolve.
Ltac Zify.zify_post_hook ::= Z.div_mod_to_equations.

(** * Types *)
Lemma ty_eqb_eq t u : ty_eqb t u = true -> t = u.
Proof. unfold ty_eqb. destruct (ty_eq_dec t u); [auto|discriminate]. Qed.
Lemma carries_boolish E1 t u : carries E1 t u = true -> boolish t = boolish u.
Proof.
  revert t. induction u; cbn [carries]; intros t0 H; try (apply ty_eqb_eq in H; subst; reflexivity).
  - destruct t0; try discriminate. reflexivity.
  - discriminate.
  - apply andb_true_iff in H as [_ H]. cbn [boolish]. auto.
  - apply andb_true_iff in H as [_ H]. cbn [boolish]. auto.
  - destruct t0; try discriminate. reflexivity.
Qed.
Lemma carries_bool E1 u : carries E1 TBool u = true -> u = TBool.
Proof.
  intros H. pose proof (carries_boolish _ _ _ H) as Hb. cbn [boolish] in Hb.
  destruct u; cbn [carries boolish] in *; try discriminate; try (apply ty_eqb_eq in H; congruence);
    rewrite <- Hb in H; discriminate.
Qed.
Lemma carries_not_wrapped E1 t u : carries E1 t u = true -> match t with TOption _ | TBox _ | TShared _ | TEncSet => False | _ => True end.
Proof.
  revert t. induction u; cbn [carries]; intros t0 H; try (apply ty_eqb_eq in H; subst; exact I); try discriminate.
  - destruct t0; try discriminate. exact I.
  - apply andb_true_iff in H as [_ H]. exact (IHu _ H).
  - apply andb_true_iff in H as [_ H]. exact (IHu _ H).
  - destruct t0; try discriminate. exact I.
Qed.

Lemma NoDup_map_inv_eq {A B} (f : A -> B) l : NoDup (map f l) -> forall x y, In x l -> In y l -> f x = f y -> x = y.
Proof.
  induction l as [|a l IH]; cbn [map]; intros Hn x y Hx Hy He; [destruct Hx|]. inversion Hn as [|? ? Ha Hn']; subst.
  destruct Hx as [<-|Hx], Hy as [<-|Hy]; [reflexivity| | |apply IH; auto]; exfalso; apply Ha; [rewrite He|rewrite <- He]; apply in_map; assumption.
Qed.

Section Rep.
  Variables E1 E2 : env.
  Variables rd wr : bool.
  Variable K : nat.
  Hypothesis HE : env_ok true E2 K = true.
  Hypothesis HI : SpecIdl.implements rd wr E1 E2 = true.

  Lemma impl_lookup n d2 : lookup E2 n = Some d2 -> exists d1, lookup E1 n = Some d1 /\ implements_def rd wr E1 d1 d2 = true.
  Proof.
    intros Hl. apply lookup_In in Hl. unfold SpecIdl.implements in HI. apply andb_true_iff in HI as [H _].
    rewrite forallb_forall in H. specialize (H _ Hl). cbv beta iota in H.
    destruct (lookup E1 n) as [d1|]; [eauto|discriminate].
  Qed.
  Lemma impl_closed n d1 : lookup E1 n = Some d1 -> exists d2, lookup E2 n = Some d2.
  Proof.
    intros Hl. apply lookup_In in Hl. unfold SpecIdl.implements in HI. apply andb_true_iff in HI as [_ H].
    rewrite forallb_forall in H. specialize (H _ Hl). cbv beta iota in H. destruct (lookup E2 n); [eauto|discriminate].
  Qed.
  Lemma carries_code t u : carries E1 t u = true -> ty_closed E2 u = true -> wire_code E1 t = wire_code E2 u.
  Proof.
    revert t. induction u; cbn [carries ty_closed wire_code]; intros t0 H Hc; try (apply ty_eqb_eq in H; subst; reflexivity).
    - destruct t0; try discriminate. reflexivity.
    - discriminate.
    - apply andb_true_iff in H as [_ H]. auto.
    - apply andb_true_iff in H as [_ H]. auto.
    - destruct t0; try discriminate. reflexivity.
    - apply ty_eqb_eq in H. subst. cbn [wire_code]. destruct (lookup E2 name) as [d2|] eqn:Hl; [|discriminate].
      destruct (impl_lookup _ _ Hl) as (d1 & -> & Hd). destruct d1, d2; cbn [implements_def] in Hd; try discriminate; reflexivity.
  Qed.
  Lemma shared_ok_carries test fs1 fs2 f1 f2 : shared_fields test fs1 fs2 = true -> In f1 fs1 -> In f2 fs2 -> f_id f1 = f_id f2 -> test f1 f2 = true.
  Proof.
    unfold shared_fields. intros H H1 H2 He. rewrite forallb_forall in H. specialize (H f1 H1). rewrite forallb_forall in H. specialize (H f2 H2).
    rewrite He, Z.eqb_refl in H. exact H.
  Qed.
  Lemma known_in fs2 fs1 f2 : known fs2 fs1 = true -> In f2 fs2 -> exists f1, In f1 fs1 /\ f_id f1 = f_id f2.
  Proof.
    unfold known. intros H Hin. rewrite forallb_forall in H. specialize (H f2 Hin). apply existsb_exists in H as (f1 & H1 & H2).
    exists f1. split; [exact H1|lia].
  Qed.
  Lemma required_has fs2 fs1 f2 : required_in fs2 fs1 = true -> In f2 fs2 -> f_req f2 = true -> exists f1, In f1 fs1 /\ f_id f1 = f_id f2 /\ f_req f1 = true.
  Proof.
    unfold required_in. intros H Hin Hr. rewrite forallb_forall in H. specialize (H f2 Hin). rewrite Hr in H. cbn [negb orb] in H.
    apply existsb_exists in H as (f1 & H1 & H2). apply andb_true_iff in H2 as [H2 H3]. exists f1. repeat split; [exact H1|lia|exact H3].
  Qed.
  Lemma impl_struct n fs1 fs2 : lookup E1 n = Some (DStruct fs1) -> lookup E2 n = Some (DStruct fs2) ->
    NoDup (map f_id fs1) /\ NoDup (map f_id fs2) /\ (forall f2, In f2 fs2 -> ty_closed E2 (f_ty f2) = true) /\
    (forall f1 f2, In f1 fs1 -> In f2 fs2 -> f_id f1 = f_id f2 -> carries E1 (f_ty f1) (f_ty f2) = true) /\
    (forall f2, In f2 fs2 -> exists f1, In f1 fs1 /\ f_id f1 = f_id f2) /\
    (rd = true -> forall f2, In f2 fs2 -> f_req f2 = true -> exists f1, In f1 fs1 /\ f_id f1 = f_id f2 /\ f_req f1 = true) /\
    (wr = true -> forall f1, In f1 fs1 -> f_req f1 = true -> exists f2, In f2 fs2 /\ f_id f2 = f_id f1 /\ f_req f2 = true).
  Proof.
    intros H1 H2. destruct (impl_lookup _ _ H2) as (d1 & Hd & Hc). rewrite H1 in Hd. injection Hd as <-. cbn [implements_def] in Hc.
    repeat rewrite andb_true_iff in Hc. destruct Hc as ((((Hn & Hk) & Hs) & Hr) & Hw).
    destruct (struct_fields _ _ _ _ _ HE H2) as (Hn2 & Hcl & _).
    split; [apply nodupb_NoDup; exact Hn|]. split; [exact Hn2|]. split; [intros f2 Hf2; apply Hcl; exact Hf2|].
    split; [intros f1 f2 Hf1 Hf2 He; apply (shared_ok_carries _ _ _ _ _ Hs Hf1 Hf2 He)|].
    split; [intros f2 Hf2; apply (known_in _ _ _ Hk Hf2)|].
    split; [intros Hrd f2 Hf2 Hq; rewrite Hrd in Hr; apply (required_has _ _ _ Hr Hf2 Hq)|intros Hwr f1 Hf1 Hq; rewrite Hwr in Hw; apply (required_has _ _ _ Hw Hf1 Hq)].
  Qed.
  Lemma impl_union n fs1 fs2 : lookup E1 n = Some (DUnion fs1) -> lookup E2 n = Some (DUnion fs2) ->
    NoDup (map f_id fs1) /\ (forall f2, In f2 fs2 -> ty_closed E2 (f_ty f2) = true /\ boolish (f_ty f2) = false) /\
    (forall f1 f2, In f1 fs1 -> In f2 fs2 -> f_id f1 = f_id f2 -> carries E1 (f_ty f1) (f_ty f2) = true) /\
    (rd = true -> forall f1, In f1 fs1 -> exists f2, In f2 fs2 /\ f_id f2 = f_id f1) /\
    (wr = true -> forall f2, In f2 fs2 -> exists f1, In f1 fs1 /\ f_id f1 = f_id f2).
  Proof.
    intros H1 H2. destruct (impl_lookup _ _ H2) as (d1 & Hd & Hc). rewrite H1 in Hd. injection Hd as <-. cbn [implements_def] in Hc.
    repeat rewrite andb_true_iff in Hc. destruct Hc as (((Hn & Hs) & Hr) & Hw).
    destruct (union_fields _ _ _ _ _ HE H2) as (_ & Hfs & _).
    split; [apply nodupb_NoDup; exact Hn|]. split; [intros f2 Hf2; destruct (Hfs f2 Hf2) as (Ha & _ & Hb); auto|].
    split; [intros f1 f2 Hf1 Hf2 He; apply (shared_ok_carries _ _ _ _ _ Hs Hf1 Hf2 He)|].
    split; [intros Hrd f1 Hf1; rewrite Hrd in Hr; apply (known_in _ _ _ Hr Hf1)|intros Hwr f2 Hf2; rewrite Hwr in Hw; apply (known_in _ _ _ Hw Hf2)].
  Qed.

  (** * Reading *)
  Inductive matched (fs2 : list field) : list (field * value) -> list (field * value) -> Prop :=
  | mt_nil : matched fs2 [] []
  | mt_keep f1 f2 v w p q :
      In f2 fs2 -> f_id f1 = f_id f2 -> carries E1 (f_ty f1) (f_ty f2) = true -> ty_closed E2 (f_ty f2) = true -> represents E1 E2 (f_ty f1) (f_ty f2) v w ->
      matched fs2 p q -> matched fs2 ((f1, v) :: p) ((f2, w) :: q)
  | mt_drop f1 v p q : (forall f2, In f2 fs2 -> f_id f2 <> f_id f1) -> matched fs2 p q -> matched fs2 ((f1, v) :: p) q.
  Lemma matched_split fs2 p1 x p2 q : matched fs2 (p1 ++ x :: p2) q ->
    exists q1 q2, matched fs2 (p1 ++ p2) (q1 ++ q2) /\
      ((exists y, matched fs2 [x] [y] /\ q = q1 ++ y :: q2) \/ (matched fs2 [x] [] /\ q = q1 ++ q2)).
  Proof.
    revert q. induction p1 as [|[f v] p1 IH]; intros q H; cbn [app] in *.
    - inversion H; subst.
      + exists [], q0. split; [assumption|]. left. eexists. split; [|reflexivity]. constructor; auto. constructor.
      + exists [], q. split; [assumption|]. right. split; [|reflexivity]. constructor; [assumption|constructor].
    - inversion H as [|f1 f2 v1 w p q' A1 A2 A3 A4 A5 Hm|f1 v1 p q' A1 Hm]; subst.
      + destruct (IH _ Hm) as (q1 & q2 & Hs & Hq). exists ((f2, w) :: q1), q2. split; [constructor; assumption|].
        destruct Hq as [(y & Hy & ->)|(Hy & ->)]; [left; eauto|right; auto].
      + destruct (IH _ Hm) as (q1 & q2 & Hs & Hq). exists q1, q2. split; [constructor; assumption|]. exact Hq.
  Qed.

  Lemma rep_fields_shape p fs ws : represents_fields E1 E2 p fs ws -> Forall2 field_shape fs ws.
  Proof.
    induction 1 as [p|p f1 f2 v w fs ws Hin He _ _ IH|p f2 fs ws Hr _ _ IH]; constructor; auto; unfold field_shape.
    - destruct (f_req f2); eauto.
    - auto.
  Qed.
  Lemma rep_fields_in p fs ws : represents_fields E1 E2 p fs ws -> NoDup (map (fun x => f_id (fst x)) p) -> forall f2 w,
    In (f2, w) (present fs ws) -> In f2 fs /\ exists f1 v, In (f1, v) p /\ f_id f1 = f_id f2 /\ represents E1 E2 (f_ty f1) (f_ty f2) v w.
  Proof.
    intros H Hn. induction H as [p|p f1 f2 v w fs ws Hin He HR HF IH|p f2 fs ws Hr Hno HF IH]; intros g x; cbn [present]; [intros []| |];
      intros Hx; apply in_app_or in Hx as [Hx|Hx].
    - apply present_head in Hx as [-> Hx]. split; [left; reflexivity|]. exists f1, v. split; [exact Hin|]. split; [exact He|].
      destruct (f_req f2); congruence.
    - destruct (IH Hn g x Hx) as [H1 H2]. split; [right; exact H1|exact H2].
    - apply present_head in Hx as [-> Hx]. rewrite Hr in Hx. discriminate.
    - destruct (IH Hn g x Hx) as [H1 H2]. split; [right; exact H1|exact H2].
  Qed.
  Lemma rep_fields_has p fs ws : represents_fields E1 E2 p fs ws -> NoDup (map (fun x => f_id (fst x)) p) -> forall f1 v f2,
    In (f1, v) p -> In f2 fs -> f_id f1 = f_id f2 -> exists w, In (f2, w) (present fs ws) /\ represents E1 E2 (f_ty f1) (f_ty f2) v w.
  Proof.
    intros H Hn. induction H as [p|p f1 f2 v w fs ws Hin He HR HF IH|p f2 fs ws Hr Hno HF IH]; intros g x h Hg Hh Hgh; [destruct Hh| |];
      destruct Hh as [<-|Hh].
    - assert ((g, x) = (f1, v)) as [= -> ->].
      { apply (NoDup_map_inv_eq _ _ Hn); auto. cbn [fst]. congruence. }
      exists w. split; [|exact HR]. cbn [present]. apply in_or_app. left. destruct (f_req f2); left; reflexivity.
    - destruct (IH Hn g x h Hg Hh Hgh) as (y & H1 & H2). exists y. split; [|exact H2]. cbn [present]. apply in_or_app. right. exact H1.
    - exfalso. eapply Hno; eassumption.
    - destruct (IH Hn g x h Hg Hh Hgh) as (y & H1 & H2). exists y. split; [|exact H2]. cbn [present]. apply in_or_app. right. exact H1.
  Qed.
  Lemma matched_ids fs2 p q : matched fs2 p q -> forall id, In id (map (fun x => f_id (fst x)) q) -> In id (map (fun x => f_id (fst x)) p).
  Proof.
    induction 1 as [|f1 f2 v w p q H1 H2 H3 H4 H5 Hs IH|f1 v p q H1 Hs IH]; intros id Hin; cbn [map fst] in *; [exact Hin| |right; auto].
    destruct Hin as [<-|Hin]; [left; exact H2|right; auto].
  Qed.
  Lemma matched_NoDup fs2 p q : matched fs2 p q -> NoDup (map (fun x => f_id (fst x)) p) -> NoDup (map (fun x => f_id (fst x)) q).
  Proof.
    induction 1 as [|f1 f2 v w p q H1 H2 H3 H4 H5 Hs IH|f1 v p q H1 Hs IH]; intros Hn; cbn [map fst] in *; [constructor| |inversion Hn; auto].
    inversion Hn as [|? ? Hx Hn']; subst. constructor; [|auto]. intros Hin. apply Hx. rewrite H2. eapply matched_ids; eassumption.
  Qed.
  Lemma rep_matched n fs1 fs2 vs ws : lookup E1 n = Some (DStruct fs1) -> lookup E2 n = Some (DStruct fs2) ->
    represents_fields E1 E2 (present fs1 vs) fs2 ws -> exists q, matched fs2 (present fs1 vs) q /\ Permutation q (present fs2 ws).
  Proof.
    intros H1 H2 HF. destruct (impl_struct n fs1 fs2 H1 H2) as (Hn1 & Hn2 & Hcl & Hca & _).
    pose proof (present_NoDup fs1 vs Hn1) as Hnp.
    assert (H : forall p, incl p (present fs1 vs) -> exists q, matched fs2 p q /\
      forall f2 w, In (f2, w) q <-> In (f2, w) (present fs2 ws) /\ exists f1 v, In (f1, v) p /\ f_id f1 = f_id f2).
    { induction p as [|[f1 v] p IH]; intros Hi.
      - exists []. split; [constructor|]. intros f2 w. split; [intros []|intros (_ & f1 & v & [] & _)].
      - destruct IH as (q & Hq & Hqi); [intros x Hx; apply Hi; right; exact Hx|].
        assert (Hin : In (f1, v) (present fs1 vs)) by (apply Hi; left; reflexivity).
        assert (Hf1 : In f1 fs1) by (apply present_in in Hin as (i & x & Hx & _); eapply nth_error_In; exact Hx).
        pose proof (locate_spec (f_id f1) fs2) as Hloc. destruct (locate (f_id f1) fs2) as [[i f2]|].
        + destruct Hloc as (_ & Hf2 & He).
          destruct (rep_fields_has _ _ _ HF Hnp f1 v f2 Hin Hf2 (eq_sym He)) as (w & Hw & HR).
          exists ((f2, w) :: q). split; [constructor; auto|]. intros g x. split.
          * intros [Hx|Hx]; [injection Hx as <- <-; split; [exact Hw|]; exists f1, v; split; [left; reflexivity|auto]|].
            apply Hqi in Hx as (Ha & g1 & y & Hb & Hc). split; [exact Ha|]. exists g1, y. split; [right; exact Hb|exact Hc].
          * intros (Ha & g1 & y & [Hb|Hb] & Hc); [|right; apply Hqi; eauto]. injection Hb as <- <-. left.
            apply (NoDup_map_inv_eq _ _ (present_NoDup fs2 ws Hn2)); auto. cbn [fst]. congruence.
        + exists q. split; [constructor; auto|]. intros g x. rewrite Hqi. split.
          * intros (Ha & g1 & y & Hb & Hc). split; [exact Ha|]. exists g1, y. split; [right; exact Hb|exact Hc].
          * intros (Ha & g1 & y & [Hb|Hb] & Hc); [|eauto]. injection Hb as <- <-. exfalso.
            apply present_in in Ha as (i & z & Hz & _). apply (Hloc g); [eapply nth_error_In; exact Hz|congruence]. }
    destruct (H _ (incl_refl _)) as (q & Hq & Hqi). exists q. split; [exact Hq|]. apply NoDup_Permutation.
    - eapply NoDup_map_inv. eapply matched_NoDup; [exact Hq|exact Hnp].
    - eapply NoDup_map_inv. apply (present_NoDup fs2 ws). exact Hn2.
    - intros [f2 w]. rewrite Hqi. split; [intros [Ha _]; exact Ha|]. intros Ha. split; [exact Ha|].
      destruct (rep_fields_in _ _ _ HF Hnp f2 w Ha) as (_ & f1 & v & Hb & Hc & _). eauto.
  Qed.

  Lemma genc_rep unk :
    (forall t v bs, gencu unk true E1 t v bs -> forall u w, carries E1 t u = true -> ty_closed E2 u = true -> represents E1 E2 t u v w -> genc true E2 u w bs) /\
    (forall t vs bs, gencu_seq unk true E1 t vs bs -> forall u ws, carries E1 t u = true -> ty_closed E2 u = true -> represents_all E1 E2 t u vs ws -> genc_seq true E2 u ws bs) /\
    (forall t v ft bs, gencu_field unk true E1 t v ft bs -> forall u w, carries E1 t u = true -> ty_closed E2 u = true -> represents E1 E2 t u v w ->
       genc_field true E2 u w ft bs) /\
    (forall fs1 last p bs, gencu_fields unk true E1 fs1 last p bs -> forall fs2 q, matched fs2 p q ->
       (forall f2, In f2 fs2 -> exists f1, In f1 fs1 /\ f_id f1 = f_id f2) -> genc_fields true E2 fs2 last q bs).
  Proof.
    assert (Hbox : forall t v bs, (forall u w, match u with TBox _ | TShared _ => False | _ => True end ->
        carries E1 t u = true -> ty_closed E2 u = true -> represents E1 E2 t u v w -> genc true E2 u w bs) ->
      forall u w, carries E1 t u = true -> ty_closed E2 u = true -> represents E1 E2 t u v w -> genc true E2 u w bs).
    { intros t v bs H u. induction u; intros w Hc Hcl HR; try (apply H; auto; exact I).
      - cbn [carries] in Hc. apply andb_true_iff in Hc as [_ Hc]. inversion HR; subst; try contradiction. constructor. auto.
      - cbn [carries] in Hc. apply andb_true_iff in Hc as [_ Hc]. inversion HR; subst; try contradiction. constructor. auto. }
    apply genc_mutind.
    - apply Hbox. intros u w _ Hc _ HR. apply carries_bool in Hc. subst. inversion HR; subst. constructor.
    - intros b Hb. apply Hbox. intros u w _ Hc _ HR. apply carries_bool in Hc. subst. inversion HR; subst. constructor; exact Hb.
    - intros z Hz. apply Hbox. intros u w Hu Hc _ HR. inversion HR; subst; try contradiction. constructor; exact Hz.
    - intros z bs Hz. apply Hbox. intros u w Hu Hc _ HR. inversion HR; subst; try contradiction. constructor; exact Hz.
    - intros z bs Hz. apply Hbox. intros u w Hu Hc _ HR. inversion HR; subst; try contradiction. constructor; exact Hz.
    - intros z bs Hz. apply Hbox. intros u w Hu Hc _ HR. inversion HR; subst; try contradiction. constructor; exact Hz.
    - intros bs Hl Hb. apply Hbox. intros u w Hu Hc _ HR. inversion HR; subst; try contradiction. constructor; assumption.
    - intros p bs H. apply Hbox. intros u w Hu Hc _ HR. inversion HR; subst; try contradiction. constructor; assumption.
    - intros p bs H H8. apply Hbox. intros u w Hu Hc _ HR. inversion HR; subst; try contradiction. constructor; assumption.
    - intros t vs tag hdr body _ Ht Hh Hseq IH. apply Hbox. intros u w Hu Hc Hcl HR.
      inversion HR as [? ? Hs| |t' u' ? ws Hc' HA|? ? ? w' HR'|? ? ? w' HR'|zs mask He Hz Hm Hbit| |]; subst; try contradiction.
      + cbn [ty_closed] in Hcl. econstructor; [exact Hcl| | |apply IH; assumption].
        * unfold elem_tag in *. rewrite <- (carries_code _ _ Hc' Hcl), <- (carries_boolish _ _ _ Hc'). exact Ht.
        * assert (List.length ws = List.length vs) as Hlen.
          { clear - HA. induction HA; cbn [List.length]; congruence. }
          unfold zlen in *. rewrite Hlen. exact Hh.
      + assert (Htag : tag = 5) by (destruct Ht as [Ht|[Hb _]]; [cbn [wire_code] in Ht; rewrite He in Ht; exact Ht|discriminate]). subst tag.
        rewrite zlen_map in Hh || (unfold zlen in Hh; rewrite map_length in Hh).
        eapply gn_encset; [exact Hz|exact Hm|exact Hbit|exact Hh|]. clear - Hseq He. revert body Hseq.
        induction zs as [|z zs IHz]; cbn [map]; intros body Hseq; inversion Hseq as [|? ? ? b1 b2 Hg Hrest]; subst; constructor; [|auto].
        inversion Hg; subst; try congruence. constructor. assumption.
    - intros t v bs _ _ u w Hc. destruct (carries_not_wrapped _ _ _ Hc).
    - intros t v bs _ _ u w Hc. destruct (carries_not_wrapped _ _ _ Hc).
    - intros t v bs _ _ u w Hc. destruct (carries_not_wrapped _ _ _ Hc).
    - intros mask zs hdr body _ _ _ _ _ _ u w Hc. destruct (carries_not_wrapped _ _ _ Hc).
    - intros n z bs Hl Hz. apply Hbox. intros u w Hu Hc Hcl HR. inversion HR; subst; try contradiction. constructor; assumption.
    - intros n fs vs bs Hl Hsh _ IH. apply Hbox. intros u w Hu Hc Hcl HR. inversion HR as [| | | | | |? fs1 fs2 ? ws Hl1 Hl2 HF|]; subst; try contradiction.
      rewrite Hl in Hl1. injection Hl1 as <-. destruct (rep_matched _ _ _ _ _ Hl Hl2 HF) as (q & Hq & HP).
      econstructor; [exact Hl2|eapply rep_fields_shape; exact HF|]. eapply genc_fields_perm; [|exact HP]. apply IH; [exact Hq|].
      apply (impl_struct _ _ _ Hl Hl2).
    - intros n fs i f v hdr payload Hl Hi Hb Hcl1 Hh _ IH. apply Hbox. intros u w Hu Hc Hcl HR.
      inversion HR as [| | | | | | |? fs1 fs2 ? j f1 f2 ? w' Hl1 Hl2 Hi1 Hj He HR']; subst; try contradiction.
      rewrite Hl in Hl1. injection Hl1 as <-. rewrite Hi in Hi1. injection Hi1 as <-.
      destruct (impl_union _ _ _ Hl Hl2) as (_ & Hfs & Hca & _). destruct (Hfs f2 (nth_error_In _ _ Hj)) as (Hcl2 & Hb2).
      assert (Hcf : carries E1 (f_ty f) (f_ty f2) = true) by (apply Hca; [eapply nth_error_In; exact Hi|eapply nth_error_In; exact Hj|exact He]).
      eapply gn_union; [exact Hl2|exact Hj|exact Hb2|exact Hcl2| |apply IH; assumption].
      rewrite <- He, <- (carries_code _ _ Hcf Hcl2). exact Hh.
    - intros t u ws _ _ H. inversion H; subst. constructor.
    - intros t v vs b1 b2 _ IH1 _ IH2 u ws Hc Hcl H. inversion H; subst. constructor; auto.
    - intros b u w Hc Hcl HR. apply carries_bool in Hc. subst. inversion HR; subst. constructor.
    - intros t v ft bs _ _ u w Hc. destruct (carries_not_wrapped _ _ _ Hc).
    - intros t v bs H1 H2 _ Hg IH u w Hc Hcl HR. rewrite (carries_code _ _ Hc Hcl). pose proof (carries_boolish _ _ _ Hc) as Hbu. rewrite (H2 eq_refl) in Hbu.
      constructor; auto. destruct u; cbn [carries bool_or_option boolish] in *; try discriminate; reflexivity.
    - intros fs last fs2 q Hs _. inversion Hs; subst. constructor.
    - intros fs last p1 f v p2 ft hdr payload rest Hh Hf IHf _ IH fs2 q Hs HN'.
      apply matched_split in Hs as (q1 & q2 & Hs & [(y & Hy & ->)|(Hy & ->)]).
      + inversion Hy as [|f1 f2 v' w p q Hin He Hc Hcl HR Hnil|? ? ? ? ? Hnil]; subst; [|inversion Hnil]. rewrite He in Hh. econstructor; [exact Hh| |].
        * apply IHf; assumption.
        * rewrite <- He. apply IH; assumption.
      + inversion Hy; subst. destruct (proj1 (proj2 (proj2 (genc_wire unk E1))) _ _ _ _ Hf) as [Hr Hw].
        eapply gfs_unknown; [reflexivity|eassumption|exact Hr|exact Hh|exact Hw|]. apply IH; assumption.
    - intros fs last pending id t hdr payload rest Hu Hno Ht Hh Hw _ IH fs2 q Hs HN'.
      eapply gfs_unknown; [reflexivity| |exact Ht|exact Hh|exact Hw|apply IH; assumption].
      intros f2 Hf2 He. destruct (HN' f2 Hf2) as (f1 & Hf1 & He'). apply (Hno f1 Hf1). congruence.
  Qed.

  (** * A represented value exists *)
  Fixpoint fits_fields (vs : list value) (fs : list field) : bool :=
    match vs, fs with
    | v :: vs', f :: fs' => (if f_req f then lists_fit E1 (f_ty f) v else match v with VSome w => lists_fit E1 (f_ty f) w | _ => true end) && fits_fields vs' fs'
    | _, _ => true
    end.
  Definition represented (t : ty) (v : value) : Prop :=
    forall u, carries E1 t u = true -> ty_closed E2 u = true -> exists w, represents E1 E2 t u v w /\ typed E2 u w.
  Lemma represented_boxes t v : (forall u, match u with TBox _ | TShared _ => False | _ => True end -> carries E1 t u = true -> ty_closed E2 u = true ->
    exists w, represents E1 E2 t u v w /\ typed E2 u w) -> represented t v.
  Proof.
    intros H u. induction u; intros Hc Hcl; try (apply H; auto; exact I).
    - cbn [carries] in Hc. apply andb_true_iff in Hc as [_ Hc]. destruct (IHu Hc Hcl) as (w & Hw & Ht). exists (VBox w). split; constructor; assumption.
    - cbn [carries] in Hc. apply andb_true_iff in Hc as [_ Hc]. destruct (IHu Hc Hcl) as (w & Hw & Ht). exists (VShared true w). split; constructor; assumption.
  Qed.
  Lemma represented_leaf t v : match t with TBool | TI8 | TI16 | TI32 | TI64 | TDouble | TBinary | TString => True | _ => False end ->
    typed E2 t v -> represented t v.
  Proof.
    intros Hs Ht. apply represented_boxes. intros u Hu Hc _. exists v.
    assert (u = t) as ->; [|split; [constructor; exact Hs|exact Ht]].
    destruct u; cbn [carries] in Hc; try contradiction; try (apply ty_eqb_eq in Hc; auto; fail); destruct t; try contradiction; discriminate.
  Qed.
  Lemma mask_exists zs : Forall (fun z => 0 <= z <= 30) zs -> exists m, in_u 31 m /\ forall k, 0 <= k -> Z.testbit m k = true <-> In k zs.
  Proof.
    induction 1 as [|z zs Hz _ (m & Hm & Hb)].
    - exists 0. split; [unfold in_u; lia|]. intros k _. rewrite Z.bits_0. split; [discriminate|intros []].
    - exists (Z.lor (2 ^ z) m). split.
      + unfold in_u in *. split; [apply Z.lor_nonneg; split; [apply Z.pow_nonneg; lia|lia]|].
        assert (2 ^ z < 2 ^ 31) by (apply Z.pow_lt_mono_r; lia).
        destruct (Z.eq_dec m 0) as [->|Hm0]; [rewrite Z.lor_0_r; assumption|].
        apply Z.log2_lt_pow2.
        * assert (0 < 2 ^ z) by (apply Z.pow_pos_nonneg; lia). assert (0 <= Z.lor (2 ^ z) m) by (apply Z.lor_nonneg; lia).
          assert (Z.lor (2 ^ z) m <> 0) by (intros Hx; apply Z.lor_eq_0_iff in Hx; lia). lia.
        * rewrite Z.log2_lor by (try (apply Z.pow_nonneg); lia). apply Z.max_lub_lt; apply Z.log2_lt_pow2; try lia; apply Z.pow_pos_nonneg; lia.
      + intros k Hk. rewrite Z.lor_spec, orb_true_iff, (Hb k Hk), Z.pow2_bits_eqb by lia. cbn [In]. rewrite Z.eqb_eq. tauto.
  Qed.

  Lemma rep_exists : rd = true ->
    (forall t v, typed E1 t v -> forall t0 v0, (t = t0 /\ v = v0) \/ (t = TOption t0 /\ v = VSome v0) -> lists_fit E1 t0 v0 = true -> represented t0 v0) /\
    (forall t vs, typed_seq E1 t vs -> forallb (fun w => fits t w && lists_fit E1 t w) vs = true -> (forall u, carries E1 t u = true -> ty_closed E2 u = true ->
       exists ws, represents_all E1 E2 t u vs ws /\ typed_seq E2 u ws) /\
       (t = TNamed "Encoding" -> exists zs, vs = map VI32 zs /\ Forall (fun z => 0 <= z <= 30) zs)) /\
    (forall fs vs, typed_fields E1 fs vs -> fits_fields vs fs = true -> forall f v, In (f, v) (present fs vs) -> represented (f_ty f) v).
  Proof.
    intros Hrd.
    assert (Hleaf : forall t v, match t with TBool | TI8 | TI16 | TI32 | TI64 | TDouble | TBinary | TString => True | _ => False end ->
      typed E2 t v -> forall t0 v0, (t = t0 /\ v = v0) \/ (t = TOption t0 /\ v = VSome v0) -> lists_fit E1 t0 v0 = true -> represented t0 v0).
    { intros t v Hs Ht t0 v0 [[<- <-]|[-> ->]] _; [apply represented_leaf; assumption|destruct Hs]. }
    apply typed_mutind.
    - intros b. apply Hleaf; [exact I|constructor].
    - intros z Hz. apply Hleaf; [exact I|constructor; assumption].
    - intros z Hz. apply Hleaf; [exact I|constructor; assumption].
    - intros z Hz. apply Hleaf; [exact I|constructor; assumption].
    - intros z Hz. apply Hleaf; [exact I|constructor; assumption].
    - intros z Hz. apply Hleaf; [exact I|constructor; assumption].
    - intros z Hz. apply Hleaf; [exact I|constructor; assumption].
    - intros z Hz Hu. apply Hleaf; [exact I|constructor; assumption].
    - intros t vs _ _ IH t0 v0 [[<- <-]|[? ?]] Hf; [|discriminate]. cbn [lists_fit] in Hf. destruct (IH Hf) as [IHv IHe].
      apply represented_boxes. intros u Hu Hc Hcl. destruct u; try contradiction; cbn [carries] in Hc; try (apply ty_eqb_eq in Hc; discriminate); try discriminate.
      + destruct (IHv u Hc Hcl) as (ws & Hw & Ht). exists (VVec ws). split; constructor; assumption.
      + destruct t; try discriminate. apply andb_true_iff in Hc as [Hn He]. apply String.eqb_eq in Hn. subst name.
        destruct (IHe eq_refl) as (zs & -> & Hz). destruct (mask_exists zs Hz) as (m & Hm & Hb). exists (VEncSet m). split; [|constructor; exact Hm].
        constructor; [|exact Hz|unfold in_u in Hm; lia|exact Hb]. unfold enum_in in He. destruct (lookup E1 "Encoding") as [[| |]|]; try discriminate. reflexivity.
    - intros t _ t0 v0 [[<- <-]|[_ ?]] _; [|discriminate]. intros u Hc. destruct (carries_not_wrapped _ _ _ Hc).
    - intros t v _ IH t0 v0 [[<- <-]|[Ht Hv]] Hf; [intros u Hc; destruct (carries_not_wrapped _ _ _ Hc)|]. injection Ht as <-. injection Hv as <-. apply IH; auto.
    - intros t v _ _ t0 v0 [[<- <-]|[? ?]] _; [|discriminate]. intros u Hc. destruct (carries_not_wrapped _ _ _ Hc).
    - intros t u v _ _ t0 v0 [[<- <-]|[? ?]] _; [|discriminate]. intros u' Hc. destruct (carries_not_wrapped _ _ _ Hc).
    - intros m _ t0 v0 [[<- <-]|[? ?]] _; [|discriminate]. intros u' Hc. destruct (carries_not_wrapped _ _ _ Hc).
    - intros n z Hl Hz t0 v0 [[<- <-]|[? ?]] _; [|discriminate]. apply represented_boxes. intros u Hu Hc Hcl.
      destruct u; try contradiction; cbn [carries] in Hc; try (apply ty_eqb_eq in Hc; discriminate); try discriminate.
      apply ty_eqb_eq in Hc. injection Hc as <-. cbn [ty_closed] in Hcl. destruct (lookup E2 n) as [d2|] eqn:Hl2; [|discriminate].
      destruct (impl_lookup _ _ Hl2) as (d1 & Hl1 & Hd). rewrite Hl in Hl1. injection Hl1 as <-. destruct d2; try discriminate.
      exists (VI32 z). split; constructor; assumption.
    - intros n fs vs Hl Hty IH t0 v0 [[<- <-]|[? ?]] Hf; [|discriminate]. cbn [lists_fit] in Hf. rewrite Hl in Hf. change (fits_fields vs fs = true) in Hf.
      apply represented_boxes. intros u Hu Hc Hcl.
      destruct u; try contradiction; cbn [carries] in Hc; try (apply ty_eqb_eq in Hc; discriminate); try discriminate.
      apply ty_eqb_eq in Hc. injection Hc as <-. cbn [ty_closed] in Hcl. destruct (lookup E2 n) as [d2|] eqn:Hl2; [|discriminate].
      destruct (impl_lookup _ _ Hl2) as (d1 & Hl1 & Hd). rewrite Hl in Hl1. injection Hl1 as <-. destruct d2 as [fs2| |]; try discriminate. clear Hd.
      destruct (impl_struct _ _ _ Hl Hl2) as (Hn1 & Hn2 & Hcl2 & Hca & _ & Hreq & _). specialize (Hreq Hrd).
      assert (H : forall gs, incl gs fs2 -> exists ws, represents_fields E1 E2 (present fs vs) gs ws /\ typed_fields E2 gs ws).
      { induction gs as [|g gs IHg]; intros Hi; [exists []; split; constructor|].
        destruct IHg as (ws & HF & HT); [intros x Hx; apply Hi; right; exact Hx|].
        assert (Hg : In g fs2) by (apply Hi; left; reflexivity).
        destruct (existsb (fun x => f_id (fst x) =? f_id g) (present fs vs)) eqn:Hx.
        - apply existsb_exists in Hx as ([f1 v] & Hin & He). cbn [fst] in He. apply Z.eqb_eq in He.
          assert (Hf1 : In f1 fs) by (apply present_in in Hin as (i & y & Hy & _); eapply nth_error_In; exact Hy).
          destruct (IH Hf f1 v Hin (f_ty g) (Hca f1 g Hf1 Hg He) (Hcl2 g Hg)) as (w & Hw & Htw).
          exists ((if f_req g then w else VSome w) :: ws). split; [econstructor; eassumption|]. constructor; [|exact HT].
          unfold field_ty. destruct (f_req g); [exact Htw|constructor; exact Htw].
        - assert (Hno : forall f1 v, In (f1, v) (present fs vs) -> f_id f1 <> f_id g).
          { intros f1 v Hin He. assert (existsb (fun x => f_id (fst x) =? f_id g) (present fs vs) = true); [|congruence].
            apply existsb_exists. exists (f1, v). split; [exact Hin|]. cbn [fst]. lia. }
          destruct (f_req g) eqn:Hr.
          + exfalso. destruct (Hreq g Hg Hr) as (f1 & Hf1 & He & Hr1). apply In_nth_error in Hf1 as (i & Hi1).
            assert (exists y, nth_error vs i = Some y) as (y & Hy).
            { pose proof (typed_fields_length _ _ _ Hty). destruct (nth_error vs i) eqn:Hq; [eauto|]. apply nth_error_None in Hq.
              assert (nth_error fs i <> None) by congruence. apply nth_error_Some in H0. lia. }
            apply (Hno f1 y); [|exact He]. eapply in_present; [exact Hi1|exact Hy|]. rewrite Hr1. reflexivity.
          + exists (VNone :: ws). split; [apply rep_absent; assumption|]. constructor; [|exact HT]. unfold field_ty. rewrite Hr. constructor. apply Hcl2. exact Hg. }
      destruct (H fs2 (incl_refl _)) as (ws & HF & HT). exists (VStruct ws). split; econstructor; eassumption.
    - intros n fs i f v Hl Hi _ IH t0 v0 [[<- <-]|[? ?]] Hf; [|discriminate]. cbn [lists_fit] in Hf. rewrite Hl, Hi in Hf.
      apply represented_boxes. intros u Hu Hc Hcl.
      destruct u; try contradiction; cbn [carries] in Hc; try (apply ty_eqb_eq in Hc; discriminate); try discriminate.
      apply ty_eqb_eq in Hc. injection Hc as <-. cbn [ty_closed] in Hcl. destruct (lookup E2 n) as [d2|] eqn:Hl2; [|discriminate].
      destruct (impl_lookup _ _ Hl2) as (d1 & Hl1 & Hd). rewrite Hl in Hl1. injection Hl1 as <-. destruct d2 as [|fs2|]; try discriminate. clear Hd.
      destruct (impl_union _ _ _ Hl Hl2) as (_ & Hcl2 & Hca & Hk & _). specialize (Hk Hrd).
      pose proof (nth_error_In _ _ Hi) as Hf1. destruct (Hk f Hf1) as (f2 & Hf2 & He). apply In_nth_error in Hf2 as (j & Hj).
      pose proof (nth_error_In _ _ Hj) as Hf2. destruct (Hcl2 f2 Hf2) as [Hc2 _].
      destruct (IH (f_ty f) v (or_introl (conj eq_refl eq_refl)) Hf (f_ty f2) (Hca f f2 Hf1 Hf2 (eq_sym He)) Hc2) as (w & Hw & Htw).
      exists (VUnion j w). split; [eapply rep_union; eauto|econstructor; eassumption].
    - intros t _. split; [intros u _ _; exists []; split; constructor|]. intros _. exists []. split; [reflexivity|constructor].
    - intros t v vs _ IH1 _ IH2 HA. cbn [forallb] in HA. rewrite !andb_true_iff in HA. destruct HA as ((He & Hf) & Hfs). destruct (IH2 Hfs) as [IHv IHe]. split.
      + intros u Hc Hcl. destruct (IH1 t v (or_introl (conj eq_refl eq_refl)) Hf u Hc Hcl) as (w & Hw & Ht). destruct (IHv u Hc Hcl) as (ws & Hws & Hts).
        exists (w :: ws). split; constructor; assumption.
      + intros Hn. destruct (IHe Hn) as (zs & -> & Hz). subst t. cbn in He. destruct v; try discriminate. exists (z :: zs). split; [reflexivity|constructor; [lia|assumption]].
    - intros _ f v [].
    - intros f fs v vs _ IH1 _ IH2 HA g x Hin. cbn [fits_fields] in HA. apply andb_true_iff in HA as [Hf Hfs]. cbn [present] in Hin. apply in_app_or in Hin as [Hin|Hin]; [|apply IH2; assumption].
      apply present_head in Hin as [-> Hx]. unfold field_ty in IH1. destruct (f_req f); subst; apply (IH1 (f_ty f) x); auto.
  Qed.

  (** * Writing *)
  Lemma carries_closed t u : carries E1 t u = true -> ty_closed E2 u = true -> ty_closed E1 t = true.
  Proof.
    revert t. induction u; cbn [carries ty_closed]; intros t0 H Hc; try (apply ty_eqb_eq in H; subst; reflexivity); try discriminate.
    - destruct t0; try discriminate. cbn [ty_closed]. auto.
    - apply andb_true_iff in H as [_ H]. auto.
    - apply andb_true_iff in H as [_ H]. auto.
    - destruct t0 as [| | | | | | | |t1| | | | |]; try discriminate. destruct t1; try discriminate. apply andb_true_iff in H as [_ H].
      cbn [ty_closed]. unfold enum_in in H. destruct (lookup E1 name); [reflexivity|discriminate].
    - apply ty_eqb_eq in H. subst. cbn [ty_closed]. destruct (lookup E2 name) as [d2|] eqn:Hl; [|discriminate].
      destruct (impl_lookup _ _ Hl) as (d1 & -> & _). reflexivity.
  Qed.
  Definition stands_for (fs1 : list field) (x y : field * value) : Prop :=
    In (fst y) fs1 /\ f_id (fst y) = f_id (fst x) /\ represents E1 E2 (f_ty (fst y)) (f_ty (fst x)) (snd y) (snd x).
  Lemma stands_ids fs1 q p : Forall2 (stands_for fs1) q p -> map (fun x => f_id (fst x)) p = map (fun x => f_id (fst x)) q.
  Proof. induction 1 as [|x y q p (_ & H & _) _ IH]; cbn [map]; congruence. Qed.
  Lemma stands_in fs1 q p x : Forall2 (stands_for fs1) q p -> In x q -> exists y, In y p /\ stands_for fs1 x y.
  Proof. induction 1 as [|a b q p H _ IH]; intros Hx; [destruct Hx|]. destruct Hx as [<-|Hx]; [exists b; split; [left; reflexivity|exact H]|].
    destruct (IH Hx) as (y & Hy & Hs). exists y. split; [right; exact Hy|exact Hs]. Qed.
  Lemma in_stands fs1 q p y : Forall2 (stands_for fs1) q p -> In y p -> exists x, In x q /\ stands_for fs1 x y.
  Proof. induction 1 as [|a b q p H _ IH]; intros Hx; [destruct Hx|]. destruct Hx as [<-|Hx]; [exists a; split; [left; reflexivity|exact H]|].
    destruct (IH Hx) as (z & Hz & Hs). exists z. split; [right; exact Hz|exact Hs]. Qed.

  (** the struct with given contents *)
  Definition fill (p : list (field * value)) (f : field) : value :=
    match find (fun x => f_id (fst x) =? f_id f) p with
    | Some (_, v) => if f_req f then v else VSome v
    | None => VNone
    end.
  Lemma fill_spec p fs1 : NoDup (map f_id fs1) -> NoDup (map (fun x => f_id (fst x)) p) -> (forall x, In x p -> In (fst x) fs1) ->
    (forall f, In f fs1 -> f_req f = true -> exists v, In (f, v) p) ->
    Forall2 field_shape fs1 (map (fill p) fs1) /\ Permutation p (present fs1 (map (fill p) fs1)).
  Proof.
    intros Hn Hp Hin Hreq.
    assert (Hfind : forall f, In f fs1 -> match find (fun x => f_id (fst x) =? f_id f) p with Some (g, v) => g = f /\ In (f, v) p | None => forall v, ~ In (f, v) p end).
    { intros f Hf. destruct (find _ p) as [[g v]|] eqn:Hg.
      - apply find_some in Hg as [Hg1 Hg2]. cbn [fst] in Hg2. assert (g = f) by (apply (ids_inj fs1); auto; [apply (Hin _ Hg1)|lia]). subst. auto.
      - intros v Hv. pose proof (find_none _ _ Hg _ Hv) as Hx. cbn [fst] in Hx. lia. }
    split.
    - assert (H : forall gs, incl gs fs1 -> Forall2 field_shape gs (map (fill p) gs)).
      { induction gs as [|g gs IH]; intros Hi; constructor; [|apply IH; intros x Hx; apply Hi; right; exact Hx].
        unfold field_shape, fill. destruct (f_req g); [auto|]. right. destruct (find _ p) as [[h v]|]; eauto. }
      apply H. apply incl_refl.
    - apply NoDup_Permutation; [eapply NoDup_map_inv; exact Hp|eapply NoDup_map_inv; apply (present_NoDup fs1 (map (fill p) fs1) Hn)|].
      intros [f v]. split.
      + intros Hv. pose proof (Hin _ Hv) as Hf. cbn [fst] in Hf. pose proof (In_nth_error _ _ Hf) as (i & Hi).
        eapply in_present; [exact Hi|rewrite nth_error_map, Hi; reflexivity|]. unfold fill. specialize (Hfind f Hf).
        destruct (find _ p) as [[g w]|]; [|exfalso; eapply Hfind; exact Hv]. destruct Hfind as [-> Hw].
        assert ((f, w) = (f, v)) as [= ->] by (apply (NoDup_map_inv_eq _ _ Hp); auto). destruct (f_req f); reflexivity.
      + intros Hv. apply present_in in Hv as (i & x & Hi & Hx & Hxv). rewrite nth_error_map, Hi in Hx. injection Hx as <-.
        pose proof (nth_error_In _ _ Hi) as Hf. specialize (Hfind f Hf). unfold fill in Hxv. destruct (find _ p) as [[g w]|].
        * destruct Hfind as [-> Hw]. destruct (f_req f); congruence.
        * destruct (f_req f) eqn:Hr; [|discriminate]. destruct (Hreq f Hf Hr) as (y & Hy). exfalso. eapply Hfind. exact Hy.
  Qed.
  Lemma rep_fields_build p fs2 ws : NoDup fs2 -> Forall2 field_shape fs2 ws ->
    (forall f2 w, In (f2, w) (present fs2 ws) -> exists f1 v, In (f1, v) p /\ f_id f1 = f_id f2 /\ represents E1 E2 (f_ty f1) (f_ty f2) v w) ->
    (forall f1 v f2, In (f1, v) p -> In f2 fs2 -> f_id f1 = f_id f2 -> exists w, In (f2, w) (present fs2 ws)) ->
    represents_fields E1 E2 p fs2 ws.
  Proof.
    intros Hn Hs H1 H2.
    assert (H : forall gs xs k, Forall2 field_shape gs xs -> (forall i, nth_error gs i = nth_error fs2 (k + i)) -> (forall i, nth_error xs i = nth_error ws (k + i)) ->
      represents_fields E1 E2 p gs xs).
    { intros gs xs k HF. revert k. induction HF as [|g x gs xs Hg HF IH]; intros k Ha Hb; [constructor|].
      assert (HR : represents_fields E1 E2 p gs xs).
      { apply (IH (Datatypes.S k)); intros i; [specialize (Ha (Datatypes.S i))|specialize (Hb (Datatypes.S i))]; cbn [nth_error] in *;
          rewrite <- plus_n_Sm in *; assumption. }
      pose proof (Ha O) as Hgk. pose proof (Hb O) as Hxk. cbn [nth_error] in Hgk, Hxk. rewrite Nat.add_0_r in Hgk, Hxk. symmetry in Hgk, Hxk.
      destruct (f_req g) eqn:Hr.
      - destruct (H1 g x) as (f1 & v & Hin & He & Hrep); [eapply in_present; [exact Hgk|exact Hxk|rewrite Hr; reflexivity]|].
        pose proof (rep_present _ _ _ _ _ _ _ _ _ Hin He Hrep HR) as HP. rewrite Hr in HP. exact HP.
      - destruct Hg as [Hg|[->|(w & ->)]]; [congruence| |].
        + apply rep_absent; [exact Hr| |exact HR]. intros f1 v Hin He.
          destruct (H2 f1 v g Hin) as (w & Hw); [eapply nth_error_In; exact Hgk|exact He|].
          apply present_in in Hw as (j & y & Hj & Hy & Hyw). rewrite Hr in Hyw. subst y.
          assert (k = j) as <-. { apply (proj1 (NoDup_nth_error _) Hn); [apply nth_error_Some; congruence|congruence]. }
          congruence.
        + destruct (H1 g w) as (f1 & v & Hin & He & Hrep); [eapply in_present; [exact Hgk|exact Hxk|rewrite Hr; reflexivity]|].
          pose proof (rep_present _ _ _ _ _ _ _ _ _ Hin He Hrep HR) as HP. rewrite Hr in HP. exact HP. }
    apply (H fs2 ws O Hs); intros i; reflexivity.
  Qed.

  Lemma rep_written : wr = true ->
    (forall u w bs, gencu false true E2 u w bs -> forall t, carries E1 t u = true -> exists v, represents E1 E2 t u v w /\ gencu false true E1 t v bs) /\
    (forall u ws bs, gencu_seq false true E2 u ws bs -> forall t, carries E1 t u = true -> exists vs, represents_all E1 E2 t u vs ws /\ gencu_seq false true E1 t vs bs) /\
    (forall u w ft bs, gencu_field false true E2 u w ft bs -> forall t, carries E1 t u = true -> exists v, represents E1 E2 t u v w /\ gencu_field false true E1 t v ft bs) /\
    (forall fs2 last q bs, gencu_fields false true E2 fs2 last q bs -> forall fs1,
       (forall f2 w, In (f2, w) q -> exists f1, In f1 fs1 /\ f_id f1 = f_id f2 /\ carries E1 (f_ty f1) (f_ty f2) = true) ->
       exists p, Forall2 (stands_for fs1) q p /\ gencu_fields false true E1 fs1 last p bs).
  Proof.
    intros Hwr. assert (Hwr' : true = true -> wr = true) by (intros _; exact Hwr). clear Hwr. apply genc_mutind.
    - intros t Hc. apply ty_eqb_eq in Hc. subst. exists (VBool true). split; constructor; exact I.
    - intros b Hb t Hc. apply ty_eqb_eq in Hc. subst. exists (VBool false). split; constructor; try exact I. exact Hb.
    - intros z Hz t Hc. apply ty_eqb_eq in Hc. subst. exists (VI8 z). split; constructor; try exact I. exact Hz.
    - intros z bs Hz t Hc. apply ty_eqb_eq in Hc. subst. exists (VI16 z). split; constructor; try exact I. exact Hz.
    - intros z bs Hz t Hc. apply ty_eqb_eq in Hc. subst. exists (VI32 z). split; constructor; try exact I. exact Hz.
    - intros z bs Hz t Hc. apply ty_eqb_eq in Hc. subst. exists (VI64 z). split; constructor; try exact I. exact Hz.
    - intros bs Hl Hb t Hc. apply ty_eqb_eq in Hc. subst. exists (VDouble (digits256 bs)). split; constructor; try exact I; assumption.
    - intros p bs H t Hc. apply ty_eqb_eq in Hc. subst. exists (VBin p). split; constructor; try exact I. exact H.
    - intros p bs H H8 t Hc. apply ty_eqb_eq in Hc. subst. exists (VStr p). split; constructor; try exact I; assumption.
    - intros u ws tag hdr body Hcl Ht Hh _ IH t Hc. cbn [carries] in Hc. destruct t; try discriminate. destruct (IH _ Hc) as (vs & HA & Hg).
      exists (VVec vs). split; [constructor; assumption|].
      econstructor; [exact (carries_closed _ _ Hc Hcl)| | |exact Hg].
      + unfold elem_tag in *. rewrite (carries_code _ _ Hc Hcl), (carries_boolish _ _ _ Hc). exact Ht.
      + assert (List.length ws = List.length vs) as Hlen by (clear - HA; induction HA; cbn [List.length]; congruence).
        unfold zlen in *. rewrite <- Hlen. exact Hh.
    - intros u w bs _ _ t Hc. discriminate.
    - intros u w bs _ IH t Hc. cbn [carries] in Hc. apply andb_true_iff in Hc as [_ Hc]. destruct (IH t Hc) as (v & HR & Hg).
      exists v. split; [constructor; exact HR|exact Hg].
    - intros u w bs _ IH t Hc. cbn [carries] in Hc. apply andb_true_iff in Hc as [_ Hc]. destruct (IH t Hc) as (v & HR & Hg).
      exists v. split; [constructor; exact HR|exact Hg].
    - intros mask zs hdr body Hz Hm Hb Hh Hg _ t Hc. cbn [carries] in Hc. destruct t as [| | | | | | | |t1| | | | |]; try discriminate. destruct t1; try discriminate.
      apply andb_true_iff in Hc as [Hn He]. apply String.eqb_eq in Hn. subst. unfold enum_in in He.
      destruct (lookup E1 "Encoding") as [[| |]|] eqn:Hl; try discriminate. exists (VVec (map VI32 zs)). split; [constructor; assumption|].
      econstructor; [cbn [ty_closed]; rewrite Hl; reflexivity|left; cbn [wire_code]; rewrite Hl; reflexivity|unfold zlen in *; rewrite map_length; exact Hh|].
      clear - Hg Hl. revert body Hg. induction zs as [|z zs IH]; cbn [map]; intros body Hg; inversion Hg as [|? ? ? b1 b2 H1 H2]; subst; constructor; [|auto].
      inversion H1; subst. constructor; assumption.
    - intros n z bs Hl Hz t Hc. apply ty_eqb_eq in Hc. subst. destruct (impl_lookup _ _ Hl) as (d1 & Hl1 & Hd). destruct d1; try discriminate.
      exists (VI32 z). split; constructor; assumption.
    - intros n fs2 ws bs Hl2 Hsh _ IH t Hc. apply ty_eqb_eq in Hc. subst. destruct (impl_lookup _ _ Hl2) as (d1 & Hl1 & Hd).
      destruct d1 as [fs1| |]; try discriminate. clear Hd.
      destruct (impl_struct _ _ _ Hl1 Hl2) as (Hn1 & Hn2 & Hcl & Hca & Hk & _ & Hreq). specialize (Hreq (Hwr' eq_refl)).
      destruct (IH fs1) as (p & Hp & Hg).
      { intros f2 w Hin. apply present_in in Hin as (i & x & Hi & _). pose proof (nth_error_In _ _ Hi) as Hf2. destruct (Hk f2 Hf2) as (f1 & Hf1 & He). eauto. }
      pose proof (present_NoDup fs2 ws Hn2) as Hnq. pose proof Hnq as Hnp. rewrite <- (stands_ids _ _ _ Hp) in Hnp.
      destruct (fill_spec p fs1 Hn1 Hnp) as [Hsh1 HP].
      { intros y Hy. destruct (in_stands _ _ _ _ Hp Hy) as (x & _ & H & _). exact H. }
      { intros f Hf Hr. destruct (Hreq f Hf Hr) as (f2 & Hf2 & He & Hr2). apply In_nth_error in Hf2 as (i & Hi).
        assert (exists y, nth_error ws i = Some y) as (y & Hy).
        { pose proof (Forall2_length _ _ _ Hsh). destruct (nth_error ws i) eqn:Hq; [eauto|]. apply nth_error_None in Hq.
          assert (nth_error fs2 i <> None) by congruence. apply nth_error_Some in H0. lia. }
        assert (Hin : In (f2, y) (present fs2 ws)) by (eapply in_present; [exact Hi|exact Hy|rewrite Hr2; reflexivity]).
        destruct (stands_in _ _ _ _ Hp Hin) as ([g v] & Hg1 & Hg2 & Hg3 & _). cbn [fst snd] in *.
        assert (g = f) by (apply (ids_inj fs1); auto; congruence). subst. eauto. }
      exists (VStruct (map (fill p) fs1)). split; [|econstructor; [exact Hl1|exact Hsh1|eapply genc_fields_perm; [exact Hg|exact HP]]].
      econstructor; [exact Hl1|exact Hl2|]. apply rep_fields_build; [eapply NoDup_map_inv; exact Hn2|exact Hsh| |].
      + intros f2 w Hin. destruct (stands_in _ _ _ _ Hp Hin) as ([f1 v] & Hy & _ & He & HR). cbn [fst snd] in *.
        exists f1, v. split; [eapply Permutation_in; [exact HP|exact Hy]|auto].
      + intros f1 v f2 Hin Hf2 He. apply (Permutation_in _ (Permutation_sym HP)) in Hin.
        destruct (in_stands _ _ _ _ Hp Hin) as ([g w] & Hx & _ & Hg1 & _). cbn [fst snd] in *.
        assert (g = f2) as <-; [|eauto]. apply present_in in Hx as (i & x & Hi & _). apply (ids_inj fs2); auto; [eapply nth_error_In; exact Hi|congruence].
    - intros n fs2 j f2 w hdr payload Hl2 Hj Hb Hcl Hh _ IH t Hc. apply ty_eqb_eq in Hc. subst. destruct (impl_lookup _ _ Hl2) as (d1 & Hl1 & Hd).
      destruct d1 as [|fs1|]; try discriminate. clear Hd. destruct (impl_union _ _ _ Hl1 Hl2) as (_ & _ & Hca & _ & Hk). specialize (Hk (Hwr' eq_refl)).
      pose proof (nth_error_In _ _ Hj) as Hf2. destruct (Hk f2 Hf2) as (f1 & Hf1 & He). pose proof (Hca f1 f2 Hf1 Hf2 He) as Hc.
      destruct (IH _ Hc) as (v & HR & Hg). apply In_nth_error in Hf1 as (i & Hi). exists (VUnion i v).
      split; [eapply rep_union; eassumption|]. eapply gn_union; [exact Hl1|exact Hi| | | |exact Hg].
      + rewrite (carries_boolish _ _ _ Hc). exact Hb.
      + apply (carries_closed _ _ Hc Hcl).
      + rewrite He, (carries_code _ _ Hc Hcl). exact Hh.
    - intros u t _. exists []. split; constructor.
    - intros u w ws b1 b2 _ IH1 _ IH2 t Hc. destruct (IH1 t Hc) as (v & HR & Hg). destruct (IH2 t Hc) as (vs & HA & Hgs).
      exists (v :: vs). split; constructor; assumption.
    - intros b t Hc. apply ty_eqb_eq in Hc. subst. exists (VBool b). split; constructor; exact I.
    - intros u w ft bs _ _ t Hc. discriminate.
    - intros u w bs H1 H2 Hcl _ IH t Hc. destruct (IH t Hc) as (v & HR & Hg). exists v. split; [exact HR|].
      rewrite <- (carries_code _ _ Hc Hcl). pose proof (carries_boolish _ _ _ Hc) as Hb. rewrite (H2 eq_refl) in Hb.
      constructor; [|intros _; exact Hb|exact (carries_closed _ _ Hc Hcl)|exact Hg].
      pose proof (carries_not_wrapped _ _ _ Hc). destruct t; try contradiction; try discriminate; reflexivity.
    - intros fs2 last fs1 _. exists []. split; constructor.
    - intros fs2 last q1 f2 w q2 ft hdr payload rest Hh _ IHf _ IH fs1 Hk.
      destruct (IH fs1) as (p & Hp & Hg); [intros g x Hx; apply (Hk g x); apply in_app_or in Hx as [Hx|Hx]; apply in_or_app; [left|right; right]; exact Hx|].
      destruct (Hk f2 w) as (f1 & Hf1 & He & Hc); [apply in_or_app; right; left; reflexivity|]. destruct (IHf _ Hc) as (v & HR & Hgf).
      apply Forall2_app_inv_l in Hp as (p1 & p2 & Hp1 & Hp2 & ->). exists (p1 ++ (f1, v) :: p2). split.
      + apply Forall2_app; [exact Hp1|]. constructor; [|exact Hp2]. unfold stands_for; cbn [fst snd]. auto.
      + econstructor; [rewrite He; exact Hh|exact Hgf|rewrite He; exact Hg].
    - intros fs2 last pending id t hdr payload rest Hu. discriminate.
  Qed.
End Rep.

(** * Part of a schema *)
Section Agree.
  Variables E E' : env.
  Variable K : nat.
  Hypothesis HE : env_ok true E K = true.
  Hypothesis HA : forall n d, lookup E n = Some d -> lookup E' n = Some d.
  Lemma agree_closed t : ty_closed E t = true -> ty_closed E' t = true.
  Proof. induction t; cbn [ty_closed]; auto. destruct (lookup E name) eqn:Hl; [|discriminate]. rewrite (HA _ _ Hl). reflexivity. Qed.
  Lemma agree_code t : ty_closed E t = true -> wire_code E t = wire_code E' t.
  Proof. induction t; cbn [ty_closed wire_code]; auto. destruct (lookup E name) eqn:Hl; [|discriminate]. rewrite (HA _ _ Hl). reflexivity. Qed.
  Lemma agree_lookup n : ty_closed E (TNamed n) = true -> lookup E n = lookup E' n.
  Proof. cbn [ty_closed]. destruct (lookup E n) eqn:Hl; [|discriminate]. rewrite (HA _ _ Hl). reflexivity. Qed.
  Lemma genc_shrink unk :
    (forall t v bs, gencu unk true E' t v bs -> ty_closed E t = true -> gencu unk true E t v bs) /\
    (forall t vs bs, gencu_seq unk true E' t vs bs -> ty_closed E t = true -> gencu_seq unk true E t vs bs) /\
    (forall t v ft bs, gencu_field unk true E' t v ft bs -> ty_closed E t = true -> gencu_field unk true E t v ft bs) /\
    (forall fs last p bs, gencu_fields unk true E' fs last p bs -> (forall f v, In (f, v) p -> ty_closed E (f_ty f) = true) -> gencu_fields unk true E fs last p bs).
  Proof.
    apply genc_mutind; intros; try (constructor; auto; fail).
    - cbn [ty_closed] in *. econstructor; eauto. unfold elem_tag in *. rewrite agree_code by assumption. assumption.
    - econstructor; eauto.
    - constructor; [|assumption]. rewrite agree_lookup by assumption. assumption.
    - rewrite <- agree_lookup in H by assumption. econstructor; [eassumption|eassumption|]. apply H2.
      intros f v Hin. apply present_in in Hin as (i & x & Hi & _). destruct (struct_fields _ _ _ _ _ HE H) as (_ & Hcl & _). apply Hcl. eapply nth_error_In; exact Hi.
    - rewrite <- agree_lookup in H by assumption. destruct (union_fields _ _ _ _ _ HE H) as (_ & Hfs & _).
      destruct (Hfs f (nth_error_In _ _ H0)) as (Hcl & _). econstructor; try eassumption; [rewrite agree_code by assumption; assumption|auto].
    - rewrite <- agree_code by assumption. constructor; auto.
    - econstructor; [eassumption| |].
      + apply H1. apply (H4 f v). apply in_or_app. right. left. reflexivity.
      + apply H3. intros g w Hin. apply (H4 g w). apply in_app_or in Hin as [Hin|Hin]; apply in_or_app; [left|right; right]; exact Hin.
    - eapply gfs_unknown; eauto.
  Qed.
  Lemma genc_grow unk :
    (forall t v bs, gencu unk true E t v bs -> gencu unk true E' t v bs) /\
    (forall t vs bs, gencu_seq unk true E t vs bs -> gencu_seq unk true E' t vs bs) /\
    (forall t v ft bs, gencu_field unk true E t v ft bs -> gencu_field unk true E' t v ft bs) /\
    (forall fs last p bs, gencu_fields unk true E fs last p bs -> gencu_fields unk true E' fs last p bs).
  Proof.
    apply genc_mutind; intros; try (constructor; auto; fail).
    - econstructor; eauto; [apply agree_closed; assumption|]. unfold elem_tag in *. rewrite <- agree_code by assumption. assumption.
    - econstructor; eauto.
    - econstructor; eauto.
    - econstructor; eauto; [apply agree_closed; assumption|]. rewrite <- agree_code by assumption. assumption.
    - rewrite agree_code by assumption. constructor; auto. apply agree_closed. assumption.
    - econstructor; eauto.
    - eapply gfs_unknown; eauto.
  Qed.
End Agree.
Scheme represents_mind := Minimality for represents Sort Prop
  with represents_all_mind := Minimality for represents_all Sort Prop
  with represents_fields_mind := Minimality for represents_fields Sort Prop.
Combined Scheme represents_mutind from represents_mind, represents_all_mind, represents_fields_mind.
Lemma carries_grow E E' t u : (forall n d, lookup E n = Some d -> lookup E' n = Some d) -> carries E t u = true -> carries E' t u = true.
Proof.
  intros HA. revert t. induction u; cbn [carries]; intros t0 H; auto.
  - destruct t0; auto.
  - apply andb_true_iff in H as [H1 H2]. rewrite H1. cbn [andb]. auto.
  - apply andb_true_iff in H as [H1 H2]. rewrite H1. cbn [andb]. auto.
  - destruct t0 as [| | | | | | | |t1| | | | |]; auto. destruct t1; auto. unfold enum_in in *. destruct (lookup E name) eqn:Hl; [|destruct (String.eqb name "Encoding"); discriminate].
    rewrite (HA _ _ Hl). exact H.
Qed.
Lemma represents_grow E1 E1' E2 E2' : (forall n d, lookup E1 n = Some d -> lookup E1' n = Some d) -> (forall n d, lookup E2 n = Some d -> lookup E2' n = Some d) ->
  (forall t u v w, represents E1 E2 t u v w -> represents E1' E2' t u v w) /\
  (forall t u vs ws, represents_all E1 E2 t u vs ws -> represents_all E1' E2' t u vs ws) /\
  (forall p fs ws, represents_fields E1 E2 p fs ws -> represents_fields E1' E2' p fs ws).
Proof.
  intros HA HB. apply represents_mutind; intros.
  - constructor; assumption.
  - apply rep_enum; auto.
  - apply rep_vec; auto. eapply carries_grow; eassumption.
  - apply rep_box; assumption.
  - apply rep_shared; assumption.
  - apply rep_encset; auto.
  - eapply rep_struct; eauto.
  - eapply rep_union; eauto.
  - constructor.
  - constructor; assumption.
  - constructor.
  - eapply rep_present; eauto.
  - apply rep_absent; auto.
Qed.
Lemma without_lookup names E n d : lookup (without names E) n = Some d -> lookup E n = Some d /\ ~ In n names.
Proof.
  unfold without. induction E as [|[m d'] E IH]; cbn [filter lookup]; [discriminate|].
  destruct (existsb (String.eqb m) names) eqn:Hx; cbn [negb].
  - intros H. destruct (IH H) as [H1 H2]. split; [|exact H2]. destruct (String.eqb_spec n m) as [<-|]; [|exact H1].
    exfalso. apply H2. apply existsb_exists in Hx as (y & Hy & He). apply String.eqb_eq in He. subst. exact Hy.
  - cbn [lookup]. destruct (String.eqb_spec n m) as [<-|]; [|exact IH]. intros [= <-]. split; [reflexivity|].
    intros Hin. assert (existsb (String.eqb n) names = true); [|congruence]. apply existsb_exists. exists n. split; [exact Hin|apply String.eqb_refl].
Qed.

(** * C62 *)
Lemma idl_read c E1 K1 E2 K2 t u v w bs d :
  cfg_ok c -> reserve_ok c -> env_ok true E1 K1 = true -> env_ok true E2 K2 = true -> SpecIdl.implements false false E1 E2 = true ->
  ty_closed E1 t = true -> ty_closed E2 u = true -> carries E1 t u = true ->
  enc E1 t v bs -> represents E1 E2 t u v w -> (need K2 u (List.length bs) <= d)%nat ->
  both_read c (fun S I => read_thrift c I E2 d u) bs w.
Proof.
  intros Hc Hr HE1 HE2 HI Hcl1 Hcl2 Hca He HR Hd. apply both_reads; [|exact Hc]. intros S I R D.
  apply (read_thrift_genc R c I E2 K2 true D Hc HE2 Hr); [|exact Hcl2|exact Hd].
  eapply (proj1 (genc_rep E1 E2 false false K2 HE2 HI true)); [|exact Hca|exact Hcl2|exact HR].
  apply (proj1 (enc_genc E1 K1 HE1)); assumption.
Qed.
Lemma idl_write E1 E2 K2 t u w bs :
  env_ok true E2 K2 = true -> Typing.fits E2 w u = true -> SpecIdl.implements false true E1 E2 = true ->
  carries E1 t u = true -> typed E2 u w -> write_thrift vec_write_all E2 u w [] = (bs, Ok tt) ->
  exists v, represents E1 E2 t u v (unshare w) /\ enc E1 t v bs.
Proof.
  intros HE2 HW HI Hca Ht Hw. destruct (write_ok E2 u w bs Ht Hw) as (_ & _ & Hg).
  destruct (proj1 (rep_written E1 E2 false true K2 HE2 HI eq_refl) _ _ _ (Hg K2 false true HE2 HW) t Hca) as (v & HR & He).
  exists v. split; [exact HR|]. apply (proj1 (genc_enc E1)). apply (proj1 (gencu_true false true E1)). exact He.
Qed.
Lemma carries_named E n : carries E (TNamed n) (TNamed n) = true.
Proof. cbn [carries]. unfold ty_eqb. destruct (ty_eq_dec (TNamed n) (TNamed n)); congruence. Qed.
Lemma implements_weaken E1 E2 rd : SpecIdl.implements rd false E1 E2 = true -> SpecIdl.implements false false E1 E2 = true.
Proof.
  unfold SpecIdl.implements. rewrite !andb_true_iff. intros [H1 H2]. split; [|exact H2]. rewrite forallb_forall in *. intros [n d2] Hin.
  specialize (H1 _ Hin). cbv beta iota in *. destruct (lookup E1 n) as [d1|]; [|discriminate].
  destruct d1, d2; cbn [implements_def] in *; try discriminate; auto; rewrite !andb_true_iff in *; tauto.
Qed.
Lemma named_read c E1 K1 E2 K2 n v bs d :
  cfg_ok c -> reserve_ok c -> env_ok true E1 K1 = true -> env_ok true E2 K2 = true -> SpecIdl.implements true false E1 E2 = true ->
  typed E1 (TNamed n) v -> lists_fit E1 (TNamed n) v = true -> enc E1 (TNamed n) v bs -> (need K2 (TNamed n) (List.length bs) <= d)%nat ->
  exists w, represents E1 E2 (TNamed n) (TNamed n) v w /\ typed E2 (TNamed n) w /\ both_read c (fun S I => read_thrift c I E2 d (TNamed n)) bs w.
Proof.
  intros Hc Hr HE1 HE2 HI Ht Hf He Hd.
  pose proof (proj1 (typed_closed E1) _ _ Ht) as Hcl1.
  assert (Hcl2 : ty_closed E2 (TNamed n) = true).
  { cbn [ty_closed] in *. destruct (lookup E1 n) as [d1|] eqn:Hl; [|discriminate].
    destruct (impl_closed _ _ _ _ HI _ _ Hl) as (d2 & ->). reflexivity. }
  destruct (proj1 (rep_exists E1 E2 true false K2 HE2 HI eq_refl) _ _ Ht _ _ (or_introl (conj eq_refl eq_refl)) Hf (TNamed n) (carries_named E1 n) Hcl2) as (w & HR & Htw).
  exists w. split; [exact HR|]. split; [exact Htw|].
  exact (idl_read c E1 K1 E2 K2 _ _ v w bs d Hc Hr HE1 HE2 (implements_weaken _ _ _ HI) Hcl1 Hcl2 (carries_named E1 n) He HR Hd).
Qed.
Lemma without_has names E n : ~ In n names -> lookup (without names E) n = lookup E n.
Proof.
  intros Hn. unfold without. induction E as [|[m d] E IH]; cbn [filter lookup]; [reflexivity|].
  destruct (existsb (String.eqb m) names) eqn:Hx; cbn [negb].
  - rewrite IH. destruct (String.eqb_spec n m) as [<-|]; [|reflexivity]. exfalso. apply Hn. apply existsb_exists in Hx as (y & Hy & He). apply String.eqb_eq in He. subst. exact Hy.
  - cbn [lookup]. rewrite IH. reflexivity.
Qed.
Lemma named_write names E1 E2 K n w bs :
  env_ok true E2 K = true -> wenv_ok E2 = true -> env_ok true (without names E2) K = true -> SpecIdl.implements false true (without names E1) (without names E2) = true ->
  ~ In n names -> typed E2 (TNamed n) w -> write_thrift vec_write_all E2 (TNamed n) w [] = (bs, Ok tt) ->
  exists v, represents E1 E2 (TNamed n) (TNamed n) v (unshare w) /\ enc E1 (TNamed n) v bs.
Proof.
  intros HE HW HE2 HI Hn Ht Hw.
  assert (HA1 : forall m d, lookup (without names E1) m = Some d -> lookup E1 m = Some d) by (intros m d H; apply (without_lookup _ _ _ _ H)).
  assert (HA2 : forall m d, lookup (without names E2) m = Some d -> lookup E2 m = Some d) by (intros m d H; apply (without_lookup _ _ _ _ H)).
  pose proof (proj1 (typed_closed E2) _ _ Ht) as Hcl.
  assert (Hcl2 : ty_closed (without names E2) (TNamed n) = true) by (cbn [ty_closed] in *; rewrite without_has by exact Hn; exact Hcl).
  destruct (write_ok E2 (TNamed n) w bs Ht Hw) as (_ & _ & Hg).
  pose proof (proj1 (genc_shrink (without names E2) E2 K HE2 HA2 false) _ _ _ (Hg K false true HE (proj1 (headers_fit E2 HW) _ _ Ht)) Hcl2) as Hg2.
  destruct (proj1 (rep_written (without names E1) (without names E2) false true K HE2 HI eq_refl) _ _ _ Hg2 _ (carries_named _ n)) as (v & HR & He).
  exists v. split; [apply (proj1 (represents_grow _ _ _ _ HA1 HA2)); exact HR|].
  apply (proj1 (genc_enc _)). apply (proj1 (gencu_true false true _)). apply (proj1 (genc_grow (without names E1) E1 HA1 false)). exact He.
Qed.

Lemma parquet_latest_ok : env_ok true parquet_latest 12 = true.
Proof. vm_compute. reflexivity. Qed.
Lemma parquet_implements : SpecIdl.implements true false parquet_latest parquet_env = true.
Proof. vm_compute. reflexivity. Qed.
Lemma parquet_pages_ok : env_ok true (without footer_names parquet_env) 12 = true.
Proof. vm_compute. reflexivity. Qed.
Lemma parquet_pages_implements : SpecIdl.implements false true (without footer_names parquet_latest) (without footer_names parquet_env) = true.
Proof. vm_compute. reflexivity. Qed.
Lemma parquet_idl_read c n v bs d :
  cfg_ok c -> reserve_ok c -> typed parquet_latest (TNamed n) v -> lists_fit parquet_latest (TNamed n) v = true -> enc parquet_latest (TNamed n) v bs ->
  (need 12 (TNamed n) (List.length bs) <= d)%nat ->
  exists w, represents parquet_latest parquet_env (TNamed n) (TNamed n) v w /\ typed parquet_env (TNamed n) w /\
    both_read c (fun S I => read_thrift c I parquet_env d (TNamed n)) bs w.
Proof. intros Hc Hr. exact (named_read c parquet_latest 12 parquet_env 12 n v bs d Hc Hr parquet_latest_ok (proj1 (proj2 parquet_ok)) parquet_implements). Qed.
Lemma parquet_idl_write n w bs :
  ~ In n footer_names -> typed parquet_env (TNamed n) w -> write_thrift vec_write_all parquet_env (TNamed n) w [] = (bs, Ok tt) ->
  exists v, represents parquet_latest parquet_env (TNamed n) (TNamed n) v (unshare w) /\ enc parquet_latest (TNamed n) v bs.
Proof. exact (named_write footer_names parquet_latest parquet_env 12 n w bs (proj1 (proj2 parquet_ok)) (proj2 (proj2 parquet_ok)) parquet_pages_ok parquet_pages_implements). Qed.

(** * C61 *)
Lemma simple_ok E n ft : idl_simple n = Some ft ->
  match simple_type n with
  | RT u => exists t, plain ft = Some t /\ carries E t u = true /\ wire_code E u = idl_code (enum_in E) ft /\ boolish u = String.eqb n "bool"
  | RU8 => n = "byte"%string
  | RStr => False
  end.
Proof.
  unfold idl_simple, simple_type, rust_named, is. intros H.
  destruct (String.eqb_spec n "bool") as [->|H1]; [injection H as <-; cbn; eauto|].
  destruct (String.eqb_spec n "byte") as [->|H2]; [reflexivity|].
  destruct (String.eqb_spec n "i8") as [->|H3]; [injection H as <-; cbn; eauto|]. cbn [orb] in H.
  destruct (String.eqb_spec n "i16") as [->|H4]; [injection H as <-; cbn; eauto|].
  destruct (String.eqb_spec n "i32") as [->|H5]; [injection H as <-; cbn; eauto|].
  destruct (String.eqb_spec n "i64") as [->|H6]; [injection H as <-; cbn; eauto|].
  destruct (String.eqb_spec n "double") as [->|H7]; [injection H as <-; cbn; eauto|].
  destruct (String.eqb_spec n "string") as [->|H8]; [injection H as <-; cbn; eauto|].
  destruct (String.eqb_spec n "binary") as [->|H9]; [injection H as <-; cbn; eauto|].
  cbn [existsb] in H.
  destruct (String.eqb_spec n "u8") as [->|G1]; [discriminate|]. destruct (String.eqb_spec n "f64") as [->|G2]; [discriminate|].
  destruct (String.eqb_spec n "str") as [->|G3]; [discriminate|]. destruct (String.eqb_spec n "String") as [->|G4]; [discriminate|].
  destruct (String.eqb_spec n "EncodingSet") as [->|G5]; [discriminate|]. injection H as <-.
  cbn [plain idl_code]. destruct (String.eqb_spec n "i8") as [->|_]; [congruence|].
  exists (TNamed n). split; [reflexivity|]. split; [apply carries_named|]. split; [|reflexivity].
  cbn [wire_code]. unfold enum_in. destruct (lookup E n) as [[| |]|]; reflexivity.
Qed.
Lemma declared_ok E n e ft u : idl_type n e = Some ft -> declared_type n e = Some u ->
  (e <> None -> n <> "set"%string) -> (n = "list"%string -> e <> Some "byte"%string) ->
  wire_code E u = idl_code (enum_in E) ft /\
  ((pointer n = true -> e <> Some "bool"%string) -> exists t, plain ft = Some t /\ carries E t u = true).
Proof.
  unfold idl_type, declared_type. intros Hi Hd Hset Hlist. destruct e as [e|].
  - unfold compound_type, is in Hd. destruct (String.eqb_spec n "list") as [->|Hl].
    + cbn [orb] in Hd. destruct (idl_simple e) as [fe|] eqn:He; [|discriminate]. injection Hi as <-. pose proof (simple_ok E e fe He) as Hs.
      destruct (simple_type e) as [t| |]; [| |discriminate].
      * injection Hd as <-. destruct Hs as (t' & Hp & Hc & _). split; [reflexivity|]. intros _. exists (TVec t'). cbn [plain]. rewrite Hp. auto.
      * exfalso. apply (Hlist eq_refl). congruence.
    + destruct (String.eqb_spec n "set") as [->|Hs]; [exfalso; apply Hset; congruence|]. cbn [orb] in Hd.
      destruct (pointer n) eqn:Hp; [|discriminate]. pose proof (simple_ok E e ft Hi) as He.
      unfold pointer in Hp. cbn [existsb] in Hp.
      destruct (String.eqb_spec n "Box") as [->|Hb].
      * destruct (simple_type e) as [t| |]; [|discriminate|destruct He]. injection Hd as <-. destruct He as (t' & H1 & H2 & H3 & H4). split; [exact H3|].
        intros Hnb. exists t'. split; [exact H1|]. cbn [carries]. rewrite H2, H4. destruct (String.eqb_spec e "bool") as [->|]; [|reflexivity].
        exfalso. apply Hnb; reflexivity.
      * assert (Hrc : (n =? "Rc")%string || (n =? "Arc")%string = true) by (rewrite orb_assoc, orb_false_r in Hp; exact Hp). rewrite Hrc in Hd.
        destruct (simple_type e) as [t| |]; [|discriminate|destruct He]. injection Hd as <-. destruct He as (t' & H1 & H2 & H3 & H4). split; [exact H3|].
        intros Hnb. exists t'. split; [exact H1|]. cbn [carries]. rewrite H2, H4. destruct (String.eqb_spec e "bool") as [->|]; [|reflexivity].
        exfalso. apply Hnb; reflexivity.
  - pose proof (simple_ok E n ft Hi) as Hs. destruct (simple_type n) as [t| |]; [|discriminate|discriminate]. injection Hd as <-.
    destruct Hs as (t' & H1 & H2 & H3 & _). split; [exact H3|]. intros _. eauto.
Qed.
Lemma declared_wrong E : 
  (exists ft u, idl_type "set" (Some "i32"%string) = Some ft /\ declared_type "set" (Some "i32"%string) = Some u /\ idl_code (enum_in E) ft = 10 /\ wire_code E u = 9) /\
  (exists ft u, idl_type "list" (Some "byte"%string) = Some ft /\ declared_type "list" (Some "byte"%string) = Some u /\ idl_code (enum_in E) ft = 9 /\ wire_code E u = 8) /\
  (exists ft, idl_type "byte" None = Some ft /\ declared_type "byte" None = None).
Proof. repeat split; do 2 eexists || eexists; repeat split; reflexivity. Qed.
Lemma format_rs_expands : expand_all format_rs = Some parquet_env /\
  Forall (fun x => In x format_rs) [("Type", MEnum names_Type); ("ConvertedType", MEnum names_ConvertedType); ("FieldRepetitionType", MEnum names_FieldRepetitionType);
    ("EdgeInterpolationAlgorithm", MEnum names_EdgeInterpolationAlgorithm); ("Encoding", MEnum names_Encoding); ("CompressionCodec", MEnum names_CompressionCodec);
    ("PageType", MEnum names_PageType); ("BoundaryOrder", MEnum names_BoundaryOrder)]%string.
Proof.
  split; [vm_compute; reflexivity|]. unfold format_rs.
  repeat (constructor; [repeat (first [left; reflexivity|right])|]). constructor.
Qed.

(** * C62: the metadata of the sample file, rewritten *)
From Verif Require Import SampleFile P_DataExamples.
Definition alltypes_idl : value := Eval vm_compute in
  match snd (read_thrift debug64 (slice_input debug64) parquet_latest 40 (TNamed "FileMetaData") alltypes_metadata) with
  | Ok v => v
  | _ => VNone
  end.
Definition alltypes_rewritten : list Z := Eval vm_compute in fst (write_thrift vec_write_all parquet_env (TNamed "FileMetaData") alltypes_value []).
Lemma parquet_latest_writes : wenv_ok parquet_latest = true.
Proof. vm_compute. reflexivity. Qed.
Lemma alltypes_idl_typed : typed parquet_latest (TNamed "FileMetaData") alltypes_idl.
Proof. apply typedb_ok. vm_compute. reflexivity. Qed.
Lemma alltypes_idl_written : write_thrift vec_write_all parquet_latest (TNamed "FileMetaData") alltypes_idl [] = (alltypes_metadata, Ok tt).
Proof. vm_compute. reflexivity. Qed.
Lemma alltypes_idl_owned : unshare alltypes_idl = alltypes_idl.
Proof. vm_compute. reflexivity. Qed.
Lemma alltypes_conforms : enc parquet_latest (TNamed "FileMetaData") alltypes_idl alltypes_metadata.
Proof.
  destruct (write_ok _ _ _ _ alltypes_idl_typed alltypes_idl_written) as (_ & _ & Hg). specialize (Hg 12%nat true true parquet_latest_ok parquet_latest_writes).
  rewrite alltypes_idl_owned in Hg. exact (proj1 (genc_enc _) _ _ _ Hg).
Qed.
Lemma alltypes_value_typed : typed parquet_env (TNamed "FileMetaData") alltypes_value.
Proof. apply typedb_ok. vm_compute. reflexivity. Qed.
Lemma alltypes_rewritten_ok : write_thrift vec_write_all parquet_env (TNamed "FileMetaData") alltypes_value [] = (alltypes_rewritten, Ok tt).
Proof. vm_compute. reflexivity. Qed.
Lemma alltypes_rewritten_fails : snd (read_thrift release64 (slice_input release64) parquet_latest (need 12 (TNamed "FileMetaData") (List.length alltypes_rewritten))
  (TNamed "FileMetaData") alltypes_rewritten) = Err (MissingField "ColumnMetaData::path_in_schema").
Proof. vm_compute. reflexivity. Qed.
Lemma alltypes_rewritten_bytes : bytes alltypes_rewritten.
Proof. apply (write_ok _ _ _ _ alltypes_value_typed alltypes_rewritten_ok). Qed.
Lemma footer_not_conforming : exists w bs, typed parquet_env (TNamed "FileMetaData") w /\
  snd (read_thrift debug64 (slice_input debug64) parquet_env 40 (TNamed "FileMetaData") alltypes_metadata) = Ok w /\
  write_thrift vec_write_all parquet_env (TNamed "FileMetaData") w [] = (bs, Ok tt) /\ forall v, ~ enc parquet_latest (TNamed "FileMetaData") v bs.
Proof.
  exists alltypes_value, alltypes_rewritten. split; [exact alltypes_value_typed|]. split; [vm_compute; reflexivity|]. split; [exact alltypes_rewritten_ok|].
  intros v He.
  assert (Hcl : ty_closed parquet_latest (TNamed "FileMetaData") = true) by (vm_compute; reflexivity).
  destruct (read_conforming release64 parquet_latest 12 _ v _ _ release64_ok (fun _ _ => eq_refl) parquet_latest_ok Hcl He (le_n _)) as [Hs _].
  specialize (Hs []). rewrite app_nil_r in Hs. specialize (Hs alltypes_rewritten_bytes).
  pose proof alltypes_rewritten_fails as Hf. rewrite Hs in Hf. discriminate Hf.
Qed.
