(** Lemmas for C96. *)
From Verif Require Import Base Uleb Protocol Types Parquet SpecCompact SpecInput SpecDefault SpecAccept SpecStep Schema SampleSchema P_SimInst P_Robust P_Default P_Accept.

Lemma short_runs_app a b : short_runs (a ++ b) -> short_runs a /\ short_runs b.
Proof.
  intros H. split; intros p m q E Hm.
  - apply (H p m (q ++ b)); [rewrite E, <- !app_assoc; reflexivity|exact Hm].
  - apply (H (a ++ p) m q); [rewrite E, <- !app_assoc; reflexivity|exact Hm].
Qed.
Lemma terminated_front bs : terminated bs -> exists l b, bs = l ++ [b] /\ Forall (fun b => 128 <= b) l.
Proof.
  induction 1 as [b Hb|b bs Hb H (l & x & -> & Hl)]; [exists [], b; split; [reflexivity|apply Forall_nil]|].
  exists (b :: l), x. split; [reflexivity|apply Forall_cons; [lia|exact Hl]].
Qed.

Section Step.
  Variable c : cfg.
  Variable E : env.
  Variable good : list string.
  Hypothesis HG : steady E good.
  Definition calm (p : list Z) : Prop := sse2 c = true -> short_runs p.
  Lemma calm_app a b : calm (a ++ b) -> calm a /\ calm b.
  Proof. unfold calm. intros H. split; intros Hs; destruct (short_runs_app _ _ (H Hs)); assumption. Qed.
  Lemma number_passed n bs : number c n bs -> calm bs -> passed_int c bs.
  Proof.
    intros Hn Hc. unfold passed_int. unfold calm in Hc. destruct (sse2 c); [|exists n; exact Hn]. left. destruct Hn as (Ht & _ & _). split; [exact Ht|].
    destruct (terminated_front bs Ht) as (l & b & -> & Hl). pose proof (Hc eq_refl [] l [b] eq_refl Hl). rewrite app_length. cbn [List.length]. lia.
  Qed.
  Lemma ints_passed zs body : ints32 c zs body -> calm body -> passed_seq c 5 (List.length zs) body.
  Proof.
    induction 1 as [|n zs b1 b2 Hn H IH]; cbn [List.length]; intros Hb; [apply pq_nil|]. apply calm_app in Hb as [H1 H2].
    apply pq_cons; [apply ps_int; [lia|exact (number_passed n b1 Hn H1)]|exact (IH H2)].
  Qed.
  (** Only booleans are different inside and outside of lists. *)
  Lemma passed_flag t e e' bs : ~ 1 <= t <= 2 -> passed c t e bs -> passed c t e' bs.
  Proof.
    intros Ht H. inversion H; subst; try contradiction.
    - apply ps_byte; assumption.
    - apply ps_int; assumption.
    - apply ps_double; assumption.
    - eapply ps_binary; eassumption.
    - eapply ps_list; eassumption.
    - eapply ps_map_empty; eassumption.
    - eapply ps_map; eassumption.
    - apply ps_struct; assumption.
  Qed.
  Lemma wire_range t : 2 <= wire_code E t <= 12.
  Proof. induction t; cbn [wire_code]; try lia. destruct (lookup E name) as [[| |]|]; lia. Qed.
  Lemma wire_boolish t : boolish t = false -> ~ 1 <= wire_code E t <= 2.
  Proof. induction t; cbn [wire_code boolish]; intros H; try lia; try discriminate; auto. destruct (lookup E name) as [[| |]|]; lia. Qed.
  Lemma in_steps t : steady_type good t = true -> forall n, t = TNamed n -> In n good.
  Proof. intros H n ->. cbn [steady_type] in H. destruct (in_dec string_dec n good); [assumption|discriminate]. Qed.

  Definition stepF (t : ty) (p : list Z) : Prop := steady_type good t = true -> calm p -> passed c (wire_code E t) true p.
  Lemma passed_elems et t n p : et = wire_code E t \/ (wire_code E t = 2 /\ et = 1) -> passed_seq c (wire_code E t) n p -> passed_seq c et n p.
  Proof.
    intros [->|[Hw ->]] H; [exact H|]. rewrite Hw in H. clear Hw. remember 2 as w eqn:Ew. induction H as [|et n b1 b2 H1 H2 IH]; [apply pq_nil|subst et].
    apply pq_cons; [|exact (IH eq_refl)]. inversion H1; subst; try lia. apply ps_bool_elem; [lia|assumption].
  Qed.
  Lemma step_all :
    (forall t v p w, takes c E t v p w -> stepF t p) /\
    (forall t n p ws, takes_seq c E t n p ws -> steady_type good t = true -> calm p -> passed_seq c (wire_code E t) n p) /\
    (forall t ft v p w, takes_field c E t ft v p w -> boolish t = false -> steady_type good t = true -> calm p -> passed c ft false p) /\
    (forall fs last seen vs p ws, takes_fields c E fs last seen vs p ws -> Forall (fun f => boolish (f_ty f) = false /\ steady_type good (f_ty f) = true) fs -> calm p -> passed_fields c last p).
  Proof.
    apply takes_mutind; unfold stepF; cbn [wire_code steady_type].
    - intros v b Hb _ _. apply ps_bool_elem; [lia|exact Hb].
    - intros v b Hb _ _. apply ps_byte; exact Hb.
    - intros v n bs Hn _ Hc. apply ps_int; [lia|exact (number_passed n bs Hn Hc)].
    - intros v n bs Hn _ Hc. apply ps_int; [lia|exact (number_passed n bs Hn Hc)].
    - intros v n bs Hn _ Hc. apply ps_int; [lia|exact (number_passed n bs Hn Hc)].
    - intros v bs Hl Hb _ _. apply ps_double; assumption.
    - intros v pl bs Hp _ _. apply (ps_binary c true pl). exact Hp.
    - intros v pl bs Hp _ _ _. apply (ps_binary c true pl). exact Hp.
    - intros t v n et hdr ws body Hh Het _ _ IH Hs Hc. apply calm_app in Hc as [_ Hc]. apply (ps_list c 9 true n et hdr body); [lia|exact Hh| |].
      + pose proof (wire_range t). destruct Het as [->|[_ ->]]; lia.
      + exact (passed_elems et t _ body Het (IH Hs Hc)).
    - intros t v dv bs w _ _ _ IH Hs Hc. exact (IH Hs Hc).
    - intros t v bs w _ IH Hs Hc. exact (IH Hs Hc).
    - intros t v bs w _ IH Hs Hc. exact (IH Hs Hc).
    - intros v n zs mask hdr body Hh Hn Hi _ _ _ _ Hc. apply calm_app in Hc as [_ Hc]. apply (ps_list c 9 true n 5 hdr body); [lia|exact Hh|lia|].
      subst n. unfold zlen. rewrite Nat2Z.id. exact (ints_passed zs body Hi Hc).
    - intros name v n bs Hl Hn _ Hc. rewrite Hl. apply ps_int; [lia|exact (number_passed n bs Hn Hc)].
    - intros name fs vs bs ws Hl _ IH Hs Hc. rewrite Hl. apply ps_struct. apply IH; [|exact Hc].
      pose proof (HG name (in_steps (TNamed name) Hs name eq_refl)) as H. rewrite Hl in H. exact H.
    - intros name fs v id ft hdr i f dv bs w Hl _ _ _ _ _ _ Hs _. exfalso. pose proof (HG name (in_steps (TNamed name) Hs name eq_refl)) as H. rewrite Hl in H. exact H.
    - intros t _ _. apply pq_nil.
    - intros t n dv b1 w b2 ws _ _ IH1 _ IH2 Hs Hc. apply calm_app in Hc as [H1 H2]. apply pq_cons; [exact (IH1 Hs H1)|exact (IH2 Hs H2)].
    - intros ft v H. discriminate.
    - intros t ft v dv bs w _ _ _ IH Hb Hs Hc. exact (IH Hb Hs Hc).
    - intros t v bs w _ _ _ IH Hb Hs Hc. apply (passed_flag _ true); [exact (wire_boolish t Hb)|exact (IH Hs Hc)].
    - intros fs last seen vs id hdr Hh _ _ _. apply (pf_stop c last id). exact Hh.
    - intros fs last seen l v r id ft hdr f b1 w b2 ws Hh Hf Hd _ IH1 _ IH2 Hfs Hc. apply calm_app in Hc as [_ Hc]. apply calm_app in Hc as [H1 H2].
      apply (pf_field c last id ft); [exact Hh|exact Hf| |exact (IH2 Hfs H2)].
      destruct Hd as (be & af & -> & _ & _ & _). apply Forall_app in Hfs as [_ Hfs]. apply Forall_cons_iff in Hfs as [[Hb Hs] _].
      apply IH1; [| |exact H1]; destruct (f_req f); assumption.
    - intros fs last seen vs id ft hdr b1 b2 ws Hh Hf _ Hp _ IH Hfs Hc. apply calm_app in Hc as [_ Hc]. apply calm_app in Hc as [_ H2].
      apply (pf_field c last id ft); [exact Hh|exact Hf|exact Hp|exact (IH Hfs H2)].
  Qed.
End Step.

Lemma in_step c E good t s rest v d : cfg_ok c -> acceptable E -> steady E good -> declared E t -> steady_type good t = true -> bytes s ->
  sse2 c = false \/ short_runs s ->
  read_thrift c (slice_input c) E d t s = (rest, Ok v) -> exists d', skip_field c (slice_input c) d' (wire_code E t) true s = (rest, Ok tt).
Proof.
  intros Hc HE HG Ht Hs Hb Hr H. destruct (proj1 (read_iff c E t s rest v Hc HE Ht Hb) (ex_intro _ d H)) as (p & -> & dv & _ & Hp).
  apply (skip_iff c _ true _ rest Hc Hb). exists p. split; [reflexivity|].
  apply (proj1 (step_all c E good HG) t dv p v Hp Hs). intros Hx. destruct Hr as [Hr|Hr]; [congruence|]. exact (proj1 (short_runs_app _ _ Hr)).
Qed.
Lemma in_step_reader c E K good t r r' v d : cfg_ok c -> acceptable E -> env_closed E K = true -> steady E good -> declared E t -> ty_closed E t = true -> steady_type good t = true -> reader_bytes r ->
  read_thrift c (reader_input c) E d t r = (r', Ok v) ->
  exists d' r2, skip_field c (reader_input c) d' (wire_code E t) true r = (r2, Ok tt) /\ content r2 = content r' /\ ending r2 = ending r'.
Proof.
  intros Hc HE HK HG Ht Hty Hs Hb H. pose proof (content_bytes r Hb) as Hcb. pose proof (portable_ok c Hc) as Hp.
  pose proof (read_agrees c E K d t r Hc HK Hty Hcb Hb) as Ha. rewrite H in Ha. destruct Ha as [H1 H2]. cbn [fst snd] in H1, H2.
  destruct (read_thrift (portable c) (slice_input (portable c)) E d t (content r)) as [s1 o] eqn:Hx. cbn [fst snd] in *.
  assert (o = Ok v) as -> by (destruct o as [a|e|q]; [|destruct e; try match goal with k : io_kind |- _ => destruct k end|]; cbn in H1; congruence).
  destruct (H2 I) as [H3 H4]. destruct (in_step (portable c) E good t (content r) s1 v d Hp HE HG Ht Hs Hcb (or_introl eq_refl) Hx) as [d' Hk]. exists d'.
  apply (agrees_ok _ _ r (skip_agrees c d' (wire_code E t) true r Hc Hcb Hb)) in Hk as (r2 & Hk & Hc2 & He2). exists r2. split; [exact Hk|]. split; congruence.
Qed.

Lemma parquet_steady : steady parquet_env steady_parquet.
Proof.
  intros n Hn. unfold steady_parquet in Hn. repeat (destruct Hn as [<-|Hn]; [cbv; repeat (constructor; try reflexivity)|]). destruct Hn.
Qed.

Lemma small_runs s : Forall (fun b => b < 128) s -> short_runs s.
Proof.
  intros Hs p m q -> Hm. apply Forall_app in Hs as [_ Hs]. apply Forall_app in Hs as [Hs _].
  destruct m as [|b m]; [cbn [List.length]; lia|]. apply Forall_cons_iff in Hs as [H1 _]. apply Forall_cons_iff in Hm as [H2 _]. lia.
Qed.
Lemma bool_out_of_step : exists s v,
  bytes s /\ short_runs s /\ read_thrift portable64 (slice_input portable64) parquet_env 8 (TNamed "DictionaryPageHeader") s = ([], Ok v) /\
  skip_field portable64 (slice_input portable64) 8 (wire_code parquet_env (TNamed "DictionaryPageHeader")) true s = ([], Err (IO UnexpectedEof)).
Proof.
  exists [21; 2; 21; 0; 21; 0]. eexists. split; [repeat (apply Forall_cons; [unfold is_byte; lia|]); apply Forall_nil|].
  split; [apply small_runs; repeat (apply Forall_cons; [lia|]); apply Forall_nil|]. split; vm_compute; reflexivity.
Qed.
Lemma union_out_of_step : exists s v rest,
  bytes s /\ short_runs s /\ rest <> [] /\ read_thrift portable64 (slice_input portable64) parquet_env 8 (TNamed "BloomFilterHash") s = ([], Ok v) /\
  skip_field portable64 (slice_input portable64) 8 (wire_code parquet_env (TNamed "BloomFilterHash")) true s = (rest, Ok tt).
Proof.
  exists [17; 0; 0]. eexists. exists [0]. split; [repeat (apply Forall_cons; [unfold is_byte; lia|]); apply Forall_nil|].
  split; [apply small_runs; repeat (apply Forall_cons; [lia|]); apply Forall_nil|]. split; [discriminate|]. split; vm_compute; reflexivity.
Qed.
Lemma overlong_out_of_step : exists s v rest,
  bytes s /\ rest <> [] /\ read_thrift release64 (slice_input release64) parquet_env 8 TI32 s = ([], Ok v) /\
  skip_field release64 (slice_input release64) 8 (wire_code parquet_env TI32) true s = (rest, Ok tt).
Proof.
  exists (List.repeat 128 18 ++ [0]). eexists. exists [128; 0]. split; [cbn [List.repeat app]; repeat (apply Forall_cons; [unfold is_byte; lia|]); apply Forall_nil|].
  split; [discriminate|]. split; vm_compute; reflexivity.
Qed.
