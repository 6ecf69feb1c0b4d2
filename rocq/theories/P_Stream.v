(** Lemmas for C95. *)
From Verif Require Import Base Uleb Protocol Types Parquet SpecCompact SpecInput SpecDefault SpecAccept SpecStream Schema Typing P_SimInst P_Robust P_Sink P_Default P_Accept P_Roundtrip.

Lemma stream_slice c E K d ts bss vs rest : cfg_ok c -> env_closed E K = true -> Forall (fun t => ty_closed E t = true) ts -> bytes (List.concat bss ++ rest) ->
  each (fun t bs v => read_thrift c (slice_input c) E d t bs = ([], Ok v)) ts bss vs ->
  read_stream c (slice_input c) E d ts (List.concat bss ++ rest) = (rest, Ok vs).
Proof.
  intros Hc HK Ht Hb H. revert Ht Hb. induction H as [|t bs v ts bss vs H1 H IH]; intros Ht Hb; cbn [List.concat read_stream app] in *; [reflexivity|].
  apply Forall_cons_iff in Ht as [Ht1 Ht]. rewrite <- app_assoc in *.
  pose proof (read_slice_extends c E K d t bs (List.concat bss ++ rest) Hc HK Ht1 Hb) as Hx. rewrite H1 in Hx. specialize (Hx I). cbn [fst snd app] in Hx.
  unfold bind at 1. rewrite Hx. unfold bind at 1. unfold bytes in Hb. apply Forall_app in Hb as [_ Hb]. rewrite (IH Ht Hb). reflexivity.
Qed.
Lemma later_bytes r' r : later r' r -> reader_bytes r -> reader_bytes r'.
Proof. unfold later, reader_bytes, suffix. intros [p Hp] H. rewrite Hp in H. apply Forall_app in H as [_ H]. exact H. Qed.
Lemma stream_reader c E K d ts bss vs r rest : cfg_ok c -> env_closed E K = true -> Forall (fun t => ty_closed E t = true) ts -> reader_bytes r -> content r = List.concat bss ++ rest ->
  each (fun t bs v => read_thrift (portable c) (slice_input (portable c)) E d t bs = ([], Ok v)) ts bss vs ->
  exists r', read_stream c (reader_input c) E d ts r = (r', Ok vs) /\ content r' = rest /\ ending r' = ending r.
Proof.
  intros Hc HK Ht Hb Hr H. revert r Ht Hb Hr. induction H as [|t bs v ts bss vs H1 H IH]; intros r Ht Hb Hr; cbn [List.concat read_stream app] in *; [exists r; auto|].
  apply Forall_cons_iff in Ht as [Ht1 Ht]. rewrite <- app_assoc in Hr. pose proof (content_bytes r Hb) as Hcb.
  pose proof (read_slice_extends (portable c) E K d t bs (List.concat bss ++ rest) (portable_ok c Hc) HK Ht1) as Hx. rewrite <- Hr, H1 in Hx. specialize (Hx Hcb I). cbn [fst snd app] in Hx.
  apply (agrees_ok _ _ r (read_agrees c E K d t r Hc HK Ht1 Hcb Hb)) in Hx as (r1 & Hx & Hc1 & He1).
  pose proof (proj1 (read_reader_forward c E K d t r Hc HK Ht1 Hb)) as Hl. rewrite Hx in Hl. cbn [fst] in Hl.
  destruct (IH r1 Ht (later_bytes _ _ Hl Hb) Hc1) as (r2 & H2 & Hc2 & He2). exists r2.
  unfold bind at 1. rewrite Hx. unfold bind at 1. rewrite H2. split; [reflexivity|]. split; [exact Hc2|congruence].
Qed.

Lemma stream_iff c E ts s rest vs : cfg_ok c -> acceptable E -> Forall (declared E) ts -> bytes s ->
  (exists d, read_stream c (slice_input c) E d ts s = (rest, Ok vs)) <->
  (exists ps, s = List.concat ps ++ rest /\ each (accepted c E) ts ps vs).
Proof.
  intros Hc HE Ht Hb. split.
  - intros [d H]. revert s vs Hb H. induction ts as [|t ts IH]; intros s vs Hb H; cbn [read_stream] in H.
    + injection H as <- <-. exists []. split; [reflexivity|apply ea_nil].
    + apply Forall_cons_iff in Ht as [Ht1 Ht]. unfold bind at 1 in H. destruct (read_thrift c (slice_input c) E d t s) as [s1 [v|e|p]] eqn:H1; try discriminate.
      unfold bind at 1 in H. destruct (read_stream c (slice_input c) E d ts s1) as [s2 [vs'|e|p]] eqn:H2; try discriminate. injection H as -> <-.
      destruct (proj1 (read_iff c E t s s1 v Hc HE Ht1 Hb) (ex_intro _ d H1)) as (p & -> & Hp). unfold bytes in Hb. apply Forall_app in Hb as [_ Hb].
      destruct (IH Ht s1 vs' Hb H2) as (ps & -> & Hps). exists (p :: ps). split; [cbn [List.concat]; rewrite app_assoc; reflexivity|apply ea_cons; assumption].
  - intros (ps & -> & H). assert (Hd : exists d0, forall d, (d0 <= d)%nat -> read_stream c (slice_input c) E d ts (List.concat ps ++ rest) = (rest, Ok vs)).
    { revert Ht Hb. induction H as [|t p v ts ps vs H1 H IH]; intros Ht Hb; cbn [List.concat read_stream app] in *; [exists 0%nat; reflexivity|].
      apply Forall_cons_iff in Ht as [Ht1 Ht]. rewrite <- app_assoc in *. destruct (read_done c E t p v Hc HE Ht1 H1) as [d1 Hd1].
      destruct (IH Ht) as [d2 Hd2]; [unfold bytes in *; apply Forall_app in Hb as [_ Hb]; exact Hb|]. exists (d1 + d2)%nat. intros d Hd.
      unfold bind at 1. rewrite (Hd1 d ltac:(lia) _ Hb). unfold bind at 1. rewrite (Hd2 d ltac:(lia)). reflexivity. }
    destruct Hd as [d0 Hd]. exists d0. exact (Hd d0 (le_n _)).
Qed.
(** In one way only *)
Lemma stream_unique c E ts ps qs vs ws r1 r2 : cfg_ok c -> acceptable E -> Forall (declared E) ts -> bytes (List.concat ps ++ r1) ->
  each (accepted c E) ts ps vs -> each (accepted c E) ts qs ws -> List.concat ps ++ r1 = List.concat qs ++ r2 -> ps = qs /\ vs = ws /\ r1 = r2.
Proof.
  intros Hc HE Ht Hb H. revert qs ws Ht Hb. induction H as [|t p v ts ps vs H1 H IH]; intros qs ws Ht Hb Hq Heq.
  - inversion Hq; subst. cbn [List.concat app] in Heq. auto.
  - inversion Hq as [|t' q w ts' qs' ws' H1' Hq' E1 E2 E3]; subst. apply Forall_cons_iff in Ht as [Ht1 Ht]. cbn [List.concat] in *. rewrite <- !app_assoc in Heq.
    rewrite <- app_assoc in Hb. destruct (accepted_unique c E t p q _ _ v w Hc HE Ht1 Hb H1 H1' Heq) as [<- <-]. apply app_inv_head in Heq.
    unfold bytes in *. apply Forall_app in Hb as [_ Hb]. destruct (IH qs' ws' Ht Hb Hq' Heq) as (<- & <- & <-). auto.
Qed.

Lemma stream_write E tvs w : exists bss, write_stream vec_write_all E tvs w = (w ++ List.concat bss, snd (write_stream vec_write_all E tvs w)) /\
  ((snd (write_stream vec_write_all E tvs w) = Ok tt /\ Forall2 (fun tv bs => write_thrift vec_write_all E (fst tv) (snd tv) [] = (bs, Ok tt)) tvs bss) \/
   (exists before tv after bss' b, tvs = before ++ tv :: after /\ bss = bss' ++ [b] /\
      Forall2 (fun tv bs => write_thrift vec_write_all E (fst tv) (snd tv) [] = (bs, Ok tt)) before bss' /\
      write_thrift vec_write_all E (fst tv) (snd tv) [] = (b, snd (write_stream vec_write_all E tvs w)) /\ snd (write_stream vec_write_all E tvs w) <> Ok tt)).
Proof.
  revert w. induction tvs as [|[t v] tvs IH]; intros w; cbn [write_stream].
  - exists []. cbn [List.concat]. rewrite app_nil_r. split; [reflexivity|left; split; [reflexivity|apply Forall2_nil]].
  - destruct (write_thrift vec_write_all E t v []) as [b o] eqn:Hw. pose proof (vec_append E t v w b o Hw) as Hx. unfold bind. rewrite Hx. destruct o as [[]|e|p].
    + destruct (IH (w ++ b)) as (bss & H1 & H2). exists (b :: bss). cbn [List.concat]. rewrite app_assoc. split; [exact H1|]. destruct H2 as [[H2 H3]|(be & tv & af & bss' & b' & -> & -> & H3 & H4 & H5)].
      * left. split; [exact H2|]. apply Forall2_cons; [exact Hw|exact H3].
      * right. exists ((t, v) :: be), tv, af, (b :: bss'), b'. split; [reflexivity|]. split; [reflexivity|]. split; [apply Forall2_cons; assumption|]. split; assumption.
    + exists [b]. cbn [List.concat fst snd]. rewrite app_nil_r. split; [reflexivity|]. right. exists [], (t, v), tvs, [], b. split; [reflexivity|]. split; [reflexivity|]. split; [apply Forall2_nil|]. split; [exact Hw|discriminate].
    + exists [b]. cbn [List.concat fst snd]. rewrite app_nil_r. split; [reflexivity|]. right. exists [], (t, v), tvs, [], b. split; [reflexivity|]. split; [reflexivity|]. split; [apply Forall2_nil|]. split; [exact Hw|discriminate].
Qed.

Lemma stream_parquet c tvs bs : cfg_ok c -> reserve_ok c -> Forall (fun tv => typed parquet_env (fst tv) (snd tv)) tvs ->
  write_stream vec_write_all parquet_env tvs [] = (bs, Ok tt) ->
  exists d0, forall d, (d0 <= d)%nat -> both_read c (fun S I => read_stream c I parquet_env d (map fst tvs)) bs (map (fun tv => unshare (snd tv)) tvs).
Proof.
  intros Hc Hr Ht H. destruct (stream_write parquet_env tvs []) as (bss & H1 & H2). rewrite H in H1, H2. cbn [snd app] in H1, H2. injection H1 as ->.
  destruct H2 as [[_ H2]|(be & tv & af & bss' & b & _ & _ & _ & _ & H5)]; [|contradict H5; reflexivity]. clear H.
  induction H2 as [|[t v] b tvs bss Hb H2 IH].
  - exists 0%nat. intros d _. split; [intros rest _; reflexivity|]. intros r rest Hc'. exists r. cbn [List.concat app] in Hc'. auto.
  - apply Forall_cons_iff in Ht as [Ht1 Ht]. destruct (IH Ht) as [d0 H0]. cbn [fst snd] in *. exists (d0 + need 12 t (List.length b))%nat. intros d Hd.
    destruct (parquet_write_read c t v b d Hc Hr Ht1 Hb ltac:(lia)) as [_ [Hs Hrd]]. destruct (H0 d ltac:(lia)) as [Hs' Hrd'].
    cbn [map List.concat fst snd]. split.
    + intros rest Hbs. cbn [read_stream]. rewrite <- app_assoc in *. unfold bind at 1. rewrite (Hs _ Hbs). unfold bind at 1.
      unfold bytes in *. apply Forall_app in Hbs as [_ Hbs]. rewrite (Hs' rest Hbs). reflexivity.
    + intros r rest Hcr. cbn [read_stream]. rewrite <- app_assoc in Hcr. destruct (Hrd r _ Hcr) as (r1 & E1 & C1 & N1). destruct (Hrd' r1 rest C1) as (r2 & E2 & C2 & N2).
      exists r2. unfold bind at 1. rewrite E1. unfold bind at 1. rewrite E2. split; [reflexivity|]. split; [exact C2|congruence].
Qed.
