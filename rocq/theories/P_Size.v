(** The size of decoded values. *)
From Coq Require Import ZifyBool ZifyNat ZifyN.
From Verif Require Import Base Uleb Utf8 Protocol Encodings Types Parquet SpecUtf8 SpecCompact SpecInput Schema Typing SpecSize
  P_Arith P_Reads P_Inputs P_Skip P_Gen P_Fill P_Good P_Lawful P_Robust.

Lemma nodes_pos v : (1 <= nodes v)%nat.
Proof. destruct v; cbn [nodes]; lia. Qed.
Lemma list_max_in x l : In x l -> (x <= list_max l)%nat.
Proof. induction l as [|a l IH]; intros []; cbn [list_max fold_right]; [subst; lia|]. specialize (IH H). unfold list_max in IH. lia. Qed.
Lemma set_nth_nodes vs : forall i v v' n, nth_error vs i = Some v -> (nodes v' <= nodes v + n)%nat ->
  (list_sum (map nodes (set_nth vs i v')) <= list_sum (map nodes vs) + n)%nat.
Proof.
  unfold list_sum. induction vs as [|w vs IH]; intros [|i] v v' n Hi Hn; try discriminate; cbn [nth_error set_nth map fold_right] in *.
  - injection Hi as ->. lia.
  - specialize (IH i v v' n Hi Hn). lia.
Qed.

Section Size.
  Context {S : Type}.
  Variable c : cfg.
  Variable I : input S.
  Variable inv : S -> Prop.
  Variable le : S -> S -> Prop.
  Variable okp : panic -> Prop.
  Hypothesis L : lawful c I inv le okp.
  Hypothesis Hc : cfg_ok c.
  Notation tm := (tame le okp).
  Notation left := (in_left I).
  Hypothesis Hdouble : forall s, inv s -> tm s (in_read_double I) (fun s' _ => (left s' < left s)%nat).
  Hypothesis Hbinary : forall s, inv s -> tm s (in_read_binary I) (fun s' l => (left s' + List.length l < left s)%nat).
  Let O := lw_order _ _ _ _ _ L.
  Variables (E : env) (K : nat).
  Hypothesis HE : env_closed E K = true.
  Hypothesis Hpanic : okp PStack.

  (** What filling adds apart from what it reads *)
  Fixpoint extra (t : ty) : nat :=
    match t with TOption t' => default_nodes E K t' + extra t' | TBox t' | TShared t' => extra t' | _ => 0%nat end.
  Lemma extra_worst t : (default_nodes E K t + extra t <= worst E K t)%nat.
  Proof. induction t; cbn [extra worst]; lia. Qed.
  Lemma default_size t d v : ty_closed E t = true -> default E d t = Some v -> nodes v = default_nodes E K t.
  Proof.
    intros Hcl Hd. unfold default_nodes. destruct (closed_default E K HE t (ty_depth t + K) Hcl ltac:(lia)) as [w Hw]. rewrite Hw.
    destruct (Nat.le_ge_cases d (ty_depth t + K)) as [H|H].
    - rewrite (default_mono E d (ty_depth t + K) t v H Hd) in Hw. injection Hw as ->. reflexivity.
    - rewrite (default_mono E (ty_depth t + K) d t w H Hw) in Hd. injection Hd as ->. reflexivity.
  Qed.

  Variable B : nat.
  Fixpoint within (t : ty) : Prop :=
    match t with
    | TVec t' => (default_nodes E K t' + extra t' <= B)%nat /\ within t'
    | TOption t' | TBox t' | TShared t' => within t'
    | _ => True
    end.
  Hypothesis Hstruct : forall n fs f, lookup E n = Some (DStruct fs) -> In f fs -> (extra (field_ty f) <= B)%nat /\ within (field_ty f).
  Hypothesis Hunion : forall n fs f, lookup E n = Some (DUnion fs) -> In f fs -> (default_nodes E K (f_ty f) + extra (f_ty f) <= B)%nat /\ within (f_ty f).

  (** On success: later in the input, and bounded growth *)
  Definition grows (s : S) (v : value) (x : nat) (least : nat) (r : S * value * outcome unit) : Prop :=
    match r with
    | (s', v', Ok _) => le s' s /\ (left s' + least <= left s)%nat /\ (nodes v' + B * left s' + B * least <= nodes v + x + B * left s)%nat
    | _ => True
    end.
  Lemma grows_assign {A} s v (m : M S A) (k : A -> value) : (1 <= B)%nat ->
    tm s m (fun s' a => (left s' + nodes (k a) <= left s)%nat) -> grows s v 0 1 (assign m k v s).
  Proof.
    intros HB [H1 H2]. unfold grows, assign. destruct (m s) as [s' [a|e|p]]; cbn [fst snd] in *; auto. split; [exact H1|].
    pose proof (nodes_pos (k a)). pose proof (nodes_pos v). split; [lia|]. nia.
  Qed.
  Lemma grows_vec t dv fill1 s0 :
    (forall v, dv = Some v -> (nodes v + extra t <= B)%nat) ->
    (forall v s, inv s -> le s s0 -> grows s v (extra t) 1 (fill1 v s)) ->
    forall n s, inv s -> le s s0 ->
    match vec_loop dv fill1 n s with
    | (s', vs, Ok _) => le s' s /\ (list_sum (map nodes vs) + B * left s' <= B * left s)%nat
    | _ => True
    end.
  Proof.
    intros Hdv Hf. induction n as [|n IH]; intros s Hi Hle; cbn [vec_loop].
    - split; [apply (or_refl _ _ _ O)|]. cbn. lia.
    - destruct dv as [dv'|]; [|exact Coq.Init.Logic.I]. specialize (Hf dv' s Hi Hle). unfold grows in Hf. specialize (Hdv dv' eq_refl).
      destruct (fill1 dv' s) as [[s1 v1] [u|e|p]]; auto. destruct Hf as (H1 & H2 & H3).
      specialize (IH s1 (or_inv _ _ _ O _ _ H1 Hi) (or_trans _ _ _ O _ _ _ H1 Hle)).
      destruct (vec_loop (Some dv') fill1 n s1) as [[s2 vs] [u2|e|p]]; auto. destruct IH as [H4 H5].
      split; [eapply (or_trans _ _ _ O); eassumption|]. cbn [map]. unfold list_sum in *. cbn [fold_right]. nia.
  Qed.
  Lemma grows_struct name fs ff sk s0 :
    (forall f ft v s, In f fs -> inv s -> le s s0 -> grows s v (extra (field_ty f)) 0 (ff (field_ty f) ft v s)) ->
    (forall f, In f fs -> (extra (field_ty f) <= B)%nat) ->
    (forall ft s, inv s -> le s s0 -> tm s (sk ft) (fun _ _ => True)) ->
    forall fuel last flags vs s, inv s -> le s s0 ->
    match struct_loop c I name fs ff sk fuel last flags vs s with
    | (s', vs', Ok _) => le s' s /\ (left s' < left s)%nat /\ (list_sum (map nodes vs') + B * left s' + B <= list_sum (map nodes vs) + B * left s)%nat
    | _ => True
    end.
  Proof.
    intros Hff Hx Hsk. induction fuel as [|fuel IH]; intros last flags vs s Hi Hle; cbn [struct_loop]; [exact Coq.Init.Logic.I|].
    pose proof (header_tame c I inv le okp L s last Hi) as [H1 H2].
    destruct (read_field_header c I last s) as [s1 [[ft last']|e|p]]; cbn [fst snd] in *; auto.
    destruct H2 as [Hft Hlt]. pose proof (or_inv _ _ _ O _ _ H1 Hi) as Hi1. pose proof (or_trans _ _ _ O _ _ _ H1 Hle) as Hle1.
    destruct (ft =? 0).
    { destruct (first_missing fs flags); [exact Coq.Init.Logic.I|]. split; [exact H1|]. split; [exact Hlt|]. nia. }
    destruct (find_field fs last') as [[i f]|] eqn:Hfind.
    - destruct (find_field_In _ _ _ _ Hfind) as [Hnth _]. pose proof (nth_error_In _ _ Hnth) as Hin.
      destruct (nth_error vs i) as [v|] eqn:Hv; [|exact Coq.Init.Logic.I].
      specialize (Hff f ft v s1 Hin Hi1 Hle1). specialize (Hx f Hin). unfold grows in Hff.
      destruct (ff (field_ty f) ft v s1) as [[s2 v'] [u|e|p]]; auto. destruct Hff as (H3 & H4 & H5).
      specialize (IH last' (set_nth flags i true) (set_nth vs i v') s2 (or_inv _ _ _ O _ _ H3 Hi1) (or_trans _ _ _ O _ _ _ H3 Hle1)).
      destruct (struct_loop _ _ _ _ _ _ _ _ _ _ _) as [[s3 vs'] [u3|e|p]]; auto. destruct IH as (H6 & H7 & H8).
      split; [eapply (or_trans _ _ _ O); [exact H6|]; eapply (or_trans _ _ _ O); eassumption|]. split; [lia|].
      pose proof (set_nth_nodes vs i v v' (extra (field_ty f) + B * (left s1 - left s2)) Hv ltac:(nia)). nia.
    - pose proof (Hsk ft s1 Hi1 Hle1) as [H3 H4].
      destruct (sk ft s1) as [s2 [u|e|p]]; cbn [fst snd] in *; auto. pose proof (or_left _ _ _ O _ _ H3).
      specialize (IH last' flags vs s2 (or_inv _ _ _ O _ _ H3 Hi1) (or_trans _ _ _ O _ _ _ H3 Hle1)).
      destruct (struct_loop _ _ _ _ _ _ _ _ _ _ _) as [[s3 vs'] [u3|e|p]]; auto. destruct IH as (H6 & H7 & H8).
      split; [eapply (or_trans _ _ _ O); [exact H6|]; eapply (or_trans _ _ _ O); eassumption|]. split; [lia|]. nia.
  Qed.

  Hypothesis HB : (1 <= B)%nat.
  Lemma fill_grows d :
    (forall t v s, inv s -> ty_closed E t = true -> within t -> grows s v (extra t) 1 (fill c I E d t v s)) /\
    (forall t ft v s, inv s -> ty_closed E t = true -> within t -> grows s v (extra t) 0 (fill_field c I E d t ft v s)).
  Proof.
    induction d as [|d [IHf IHff]]; [split; intros; exact Coq.Init.Logic.I|]. split.
    - intros t v s Hi Hcl Hw. cbn [fill]. destruct t; cbn [extra].
      + apply grows_assign; [exact HB|]. eapply tame_weaken; [apply (lw_byte _ _ _ _ _ L); exact Hi|]. cbn. intros; lia.
      + apply grows_assign; [exact HB|]. eapply tame_weaken; [apply (lw_byte _ _ _ _ _ L); exact Hi|]. cbn. intros; lia.
      + apply grows_assign; [exact HB|]. eapply tame_weaken; [apply (read_i16_tame c I inv le okp L); exact Hi|]. cbn. intros; lia.
      + apply grows_assign; [exact HB|]. eapply tame_weaken; [apply (read_i32_tame c I inv le okp L); exact Hi|]. cbn. intros; lia.
      + apply grows_assign; [exact HB|]. eapply tame_weaken; [apply (read_i64_tame c I inv le okp L); exact Hi|]. cbn. intros; lia.
      + apply grows_assign; [exact HB|]. eapply tame_weaken; [apply Hdouble; exact Hi|]. cbn. intros; lia.
      + apply grows_assign; [exact HB|]. eapply tame_weaken; [apply Hbinary; exact Hi|]. cbn. intros; lia.
      + apply grows_assign; [exact HB|]. unfold read_string. eapply (tame_bind inv); [exact O|exact Hi|apply Hbinary; exact Hi|].
        intros s1 l Hi1 Hle1 Hl1 Hb. cbn beta in Hb. destruct (utf8_valid l); [|apply (tame_fail inv) with (1 := O)].
        apply (tame_ret inv) with (1 := O). cbn [nodes]. lia.
      + pose proof (collection_tame c I inv le okp L Hc s Hi) as [H1 H2].
        destruct (read_collection_len_and_type c I s) as [s1 [[n et]|e|p]]; cbn [fst snd] in *; try exact Coq.Init.Logic.I.
        destruct H2 as (Hn & Het & Hlt). pose proof (or_inv _ _ _ O _ _ H1 Hi) as Hi1.
        destruct (negb (et =? field_type E t) && negb ((field_type E t =? 2) && (et =? 1))); [exact Coq.Init.Logic.I|].
        destruct (negb (reserve c n)); [exact Coq.Init.Logic.I|]. cbn [ty_closed within] in Hcl, Hw. destruct Hw as [Hw1 Hw2].
        pose proof (grows_vec t (default E d t) (fill c I E d t) s1) as Hv.
        specialize (Hv ltac:(intros v' Hv'; rewrite (default_size t d v' Hcl Hv'); exact Hw1)).
        specialize (Hv ltac:(intros v' s' Hi' Hle'; apply IHf; assumption) (Z.to_nat n) s1 Hi1 (or_refl _ _ _ O s1)).
        destruct (vec_loop (default E d t) (fill c I E d t) (Z.to_nat n) s1) as [[s2 vs] [u|e|p]]; try exact Coq.Init.Logic.I.
        destruct Hv as [H3 H4]. cbn [grows nodes]. pose proof (or_left _ _ _ O _ _ H3). pose proof (nodes_pos v).
        split; [eapply (or_trans _ _ _ O); eassumption|]. split; [lia|]. nia.
      + cbn [ty_closed within] in Hcl, Hw.
        assert (Hgen : grows s v (default_nodes E K t + extra t) 1 match default E d t with
                 | None => (s, v, Panic PStack)
                 | Some dv => match fill c I E d t dv s with (s', v', o) => (s', VSome v', o) end end).
        { destruct (default E d t) as [dv|] eqn:Hdv; [|exact Coq.Init.Logic.I].
          specialize (IHf t dv s Hi Hcl Hw). unfold grows in IHf. rewrite (default_size t d dv Hcl Hdv) in IHf.
          destruct (fill c I E d t dv s) as [[s' v'] [u|e|p]]; try exact Coq.Init.Logic.I. destruct IHf as (H1 & H2 & H3).
          cbn [grows nodes]. pose proof (nodes_pos v). split; [exact H1|]. split; [exact H2|]. nia. }
        destruct v; try exact Hgen. exact Coq.Init.Logic.I.
      + cbn [ty_closed within] in Hcl, Hw. destruct v; try exact Coq.Init.Logic.I. specialize (IHf t v s Hi Hcl Hw). unfold grows in IHf.
        destruct (fill c I E d t v s) as [[s' v'] [u|e|p]]; try exact Coq.Init.Logic.I. destruct IHf as (H1 & H2 & H3).
        cbn [grows nodes]. split; [exact H1|]. split; [exact H2|]. nia.
      + cbn [ty_closed within] in Hcl, Hw. destruct v; try exact Coq.Init.Logic.I. destruct unique; [|exact Coq.Init.Logic.I].
        specialize (IHf t v s Hi Hcl Hw). unfold grows in IHf.
        destruct (fill c I E d t v s) as [[s' v'] [u|e|p]]; try exact Coq.Init.Logic.I. destruct IHf as (H1 & H2 & H3).
        cbn [grows nodes]. split; [exact H1|]. split; [exact H2|]. nia.
      + apply grows_assign; [exact HB|]. unfold encset_read. eapply (tame_bind inv); [exact O|exact Hi|apply (collection_tame c I inv le okp L Hc); exact Hi|].
        intros s1 [n et] Hi1 _ _ (_ & _ & Hlt). destruct (negb (et =? 5)); [apply (tame_fail inv) with (1 := O)|].
        assert (G : forall n mask s', inv s' -> (left s' < left s)%nat -> tm s' (encset_read_loop c I n mask) (fun s'' _ => (left s'' + 1 <= left s)%nat)).
        { clear n. induction n as [|n IH]; intros mask s' Hi' Hl'; cbn [encset_read_loop]; [apply (tame_ret inv) with (1 := O); lia|].
          eapply (tame_bind inv); [exact O|exact Hi'|apply (read_i32_tame c I inv le okp L); exact Hi'|].
          intros s2 z Hi2 _ _ [_ Hz]. destruct ((z <? 0) || (31 <=? z)); [apply (tame_fail inv) with (1 := O)|]. apply IH; [exact Hi2|lia]. }
        eapply tame_weaken; [apply G; assumption|]. cbn. intros; lia.
      + cbn [ty_closed] in Hcl. destruct (lookup E name) as [[fs|fs|]|] eqn:Hl; [| | |discriminate].
        * destruct v; try exact Coq.Init.Logic.I.
          pose proof (grows_struct name fs (fun t' ft w s' => fill_field c I E d t' ft w s') (fun ft => skip_field c I d ft false) s) as Hs.
          specialize (Hs ltac:(intros f ft w s1 Hin Hi1 Hle1; destruct (closed_struct E K HE _ _ Hl f Hin) as [Hc1 _];
                               apply IHff; [exact Hi1|exact Hc1|apply (Hstruct name fs f Hl Hin)])).
          specialize (Hs (fun f Hin => proj1 (Hstruct name fs f Hl Hin))).
          specialize (Hs ltac:(intros ft s1 Hi1 Hle1; apply (proj1 (skip_tame c I inv le okp L Hc d)); [exact Hi1|left; exact Hpanic])).
          specialize (Hs (Datatypes.S (left s)) 0 (map (fun _ => false) fs) vs s Hi (or_refl _ _ _ O s)).
          destruct (struct_loop _ _ _ _ _ _ _ _ _ _ _) as [[s' vs'] [u|e|p]]; try exact Coq.Init.Logic.I. destruct Hs as (H1 & H2 & H3).
          cbn [grows nodes]. split; [exact H1|]. split; [lia|]. nia.
        * pose proof (header_tame c I inv le okp L s 0 Hi) as [H1 H2].
          destruct (read_field_header c I 0 s) as [s1 [[ft last]|e|p]]; cbn [fst snd] in *; try exact Coq.Init.Logic.I.
          destruct H2 as [Hft Hlt]. pose proof (or_inv _ _ _ O _ _ H1 Hi) as Hi1. destruct (ft =? 0); [exact Coq.Init.Logic.I|].
          destruct (find_field fs last) as [[i f]|] eqn:Hfind; [|exact Coq.Init.Logic.I].
          destruct (find_field_In _ _ _ _ Hfind) as [Hnth _]. pose proof (nth_error_In _ _ Hnth) as Hin.
          destruct (closed_union E K HE _ _ Hl f Hin) as [Hc1 _]. destruct (Hunion name fs f Hl Hin) as [Hu1 Hu2].
          destruct (default E d (f_ty f)) as [dv|] eqn:Hdv; [|exact Coq.Init.Logic.I].
          specialize (IHf (f_ty f) dv s1 Hi1 Hc1 Hu2). unfold grows in IHf. rewrite (default_size _ d dv Hc1 Hdv) in IHf.
          destruct (fill c I E d (f_ty f) dv s1) as [[s2 w] [u|e|p]]; try exact Coq.Init.Logic.I. destruct IHf as (H3 & H4 & H5).
          pose proof (lw_byte _ _ _ _ _ L s2 (or_inv _ _ _ O _ _ H3 Hi1)) as [H7 H8].
          destruct (in_read_byte I s2) as [s3 [b|e|p]]; cbn [fst snd failed] in *; try exact Coq.Init.Logic.I.
          destruct (b =? 0); [|exact Coq.Init.Logic.I]. cbn [grows nodes]. pose proof (nodes_pos v).
          split; [eapply (or_trans _ _ _ O); [exact H7|]; eapply (or_trans _ _ _ O); eassumption|]. split; [lia|]. nia.
        * apply grows_assign; [exact HB|]. eapply tame_weaken; [apply (read_i32_tame c I inv le okp L); exact Hi|]. cbn. intros; lia.
    - intros t ft v s Hi Hcl Hw. cbn [fill_field].
      assert (Hother : grows s v (extra t) 0 (if negb (ft =? field_type E t) then (s, v, Err InvalidType) else fill c I E d t v s)).
      { destruct (negb (ft =? field_type E t)); [exact Coq.Init.Logic.I|]. specialize (IHf t v s Hi Hcl Hw). unfold grows in *.
        destruct (fill c I E d t v s) as [[s' v'] [u|e|p]]; try exact Coq.Init.Logic.I. destruct IHf as (H1 & H2 & H3). split; [exact H1|]. split; [lia|]. nia. }
      destruct t; try exact Hother.
      + cbn [grows nodes extra]. pose proof (nodes_pos v). split; [apply (or_refl _ _ _ O)|]. lia.
      + clear Hother. cbn [ty_closed within extra] in *.
        assert (Hgen : grows s v (default_nodes E K t + extra t) 0 match default E d t with
                 | None => (s, v, Panic PStack)
                 | Some dv => match fill_field c I E d t ft dv s with (s', v', o) => (s', VSome v', o) end end).
        { destruct (default E d t) as [dv|] eqn:Hdv; [|exact Coq.Init.Logic.I].
          specialize (IHff t ft dv s Hi Hcl Hw). unfold grows in IHff. rewrite (default_size t d dv Hcl Hdv) in IHff.
          destruct (fill_field c I E d t ft dv s) as [[s' v'] [u|e|p]]; try exact Coq.Init.Logic.I. destruct IHff as (H1 & H2 & H3).
          cbn [grows nodes]. pose proof (nodes_pos v). split; [exact H1|]. split; [exact H2|]. nia. }
        destruct v; try exact Hgen. exact Coq.Init.Logic.I.
  Qed.
End Size.

(** * The two inputs *)
Lemma slice_double_left c (Hc : cfg_ok c) (okp : panic -> Prop) (Hokp : forall p, slice_panic c p -> okp p) s : bytes s ->
  tame (@suffix Z) okp s (in_read_double (slice_input c)) (fun s' _ => (in_left (slice_input c) s' < in_left (slice_input c) s)%nat).
Proof.
  intros Hb. cbn [slice_input in_read_double in_left]. unfold tame, slice_read_double. destruct (zlen s <? 8) eqn:Hl; cbn [fst snd].
  - split; [apply suffix_refl|exact I].
  - split; [apply suffix_skipn|]. unfold slice_left, zlen in *. rewrite skipn_length. lia.
Qed.
Lemma slice_binary_left c (Hc : cfg_ok c) (okp : panic -> Prop) (Hokp : forall p, slice_panic c p -> okp p) s : bytes s ->
  tame (@suffix Z) okp s (in_read_binary (slice_input c)) (fun s' l => (in_left (slice_input c) s' + List.length l < in_left (slice_input c) s)%nat).
Proof.
  intros Hb. cbn [slice_input in_read_binary in_left]. unfold slice_read_binary.
  eapply (tame_bind bytes); [exact slice_order|exact Hb|apply (slice_len_tame c Hc okp Hokp); exact Hb|].
  intros s1 n Hi1 _ _ [Hn Hlt]. destruct (MAX_BINARY_LEN <? n); [apply (tame_fail bytes) with (1 := slice_order)|].
  unfold tame. destruct (zlen s1 <? n) eqn:Hl; cbn [fst snd]; [split; [apply suffix_refl|exact I]|].
  split; [apply suffix_skipn|]. unfold slice_left, zlen in *. rewrite skipn_length, firstn_length. lia.
Qed.
Lemma reader_double_left c (Hc : cfg_ok c) (okp : panic -> Prop) (Hokp : forall p, reader_panic c p -> okp p) r : reader_bytes r ->
  tame later okp r (in_read_double (reader_input c)) (fun r' _ => (in_left (reader_input c) r' < in_left (reader_input c) r)%nat).
Proof.
  intros Hb. cbn [reader_input in_read_double in_left]. unfold reader_read_double.
  eapply (tame_bind reader_bytes); [exact reader_order|exact Hb|apply read_exact_tame; exact Hb|].
  intros r1 l _ _ _ (_ & _ & H). apply (tame_ret reader_bytes) with (1 := reader_order). lia.
Qed.
Lemma reader_binary_left c (Hc : cfg_ok c) (okp : panic -> Prop) (Hokp : forall p, reader_panic c p -> okp p) r : reader_bytes r ->
  tame later okp r (in_read_binary (reader_input c)) (fun r' l => (in_left (reader_input c) r' + List.length l < in_left (reader_input c) r)%nat).
Proof.
  intros Hb. cbn [reader_input in_read_binary in_left]. unfold reader_read_binary.
  eapply (tame_bind reader_bytes); [exact reader_order|exact Hb| |].
  - apply (read_len_with_tame reader_bytes); [exact reader_order|apply reader_byte_tame|apply (reader_overflow c okp Hokp)|exact Hb|].
    destruct Hc as [[H|H] _]; rewrite H; lia.
  - intros r1 n Hb1 _ _ [Hn Hlt]. destruct (MAX_BINARY_LEN <? n); [apply (tame_fail reader_bytes) with (1 := reader_order)|].
    eapply tame_weaken; [apply (read_exact_tame okp); exact Hb1|]. cbn. intros r2 l (_ & H2 & H3). lia.
Qed.

(** * Choosing the constant *)
Section Bound.
  Variables (E : env) (K : nat).
  Lemma worst_within t B : (worst E K t <= B)%nat -> within E K B t.
  Proof.
    induction t; cbn [worst within]; intros H; auto; try (apply IHt; lia). split; [|apply IHt; lia].
    pose proof (extra_worst E K t). lia.
  Qed.
  Lemma worst_in n d t : lookup E n = Some d -> (worst_def E K d <= per_byte E K t)%nat.
  Proof.
    intros Hl. apply lookup_In in Hl. unfold per_byte.
    pose proof (list_max_in _ _ (in_map (fun nd => worst_def E K (snd nd)) E (n, d) Hl)) as H. cbn [snd] in H. lia.
  Qed.
End Bound.

Section Read.
  Context {S : Type}.
  Variables (c : cfg) (I : input S) (inv : S -> Prop) (le : S -> S -> Prop) (okp : panic -> Prop).
  Hypothesis L : lawful c I inv le okp.
  Hypothesis Hc : cfg_ok c.
  Hypothesis Hdouble : forall s, inv s -> tame le okp s (in_read_double I) (fun s' _ => (in_left I s' < in_left I s)%nat).
  Hypothesis Hbinary : forall s, inv s -> tame le okp s (in_read_binary I) (fun s' l => (in_left I s' + List.length l < in_left I s)%nat).
  Variables (E : env) (K : nat).
  Hypothesis HE : env_closed E K = true.
  Hypothesis Hpanic : okp PStack.
  Lemma read_size d t s s' v : inv s -> ty_closed E t = true -> read_thrift c I E d t s = (s', Ok v) ->
    (nodes v + per_byte E K t * in_left I s' <= per_byte E K t * in_left I s)%nat.
  Proof.
    intros Hi Hcl H. unfold read_thrift in H. destruct (default E d t) as [dv|] eqn:Hdv; [|discriminate].
    set (B := per_byte E K t) in *.
    assert (HwB : (worst E K t <= B)%nat) by (unfold B, per_byte; lia).
    assert (HB : (1 <= B)%nat).
    { pose proof (extra_worst E K t). pose proof (default_size E K HE t d dv Hcl Hdv). pose proof (nodes_pos dv). lia. }
    assert (Hs : forall n fs f, lookup E n = Some (DStruct fs) -> In f fs -> (extra E K (field_ty f) <= B)%nat /\ within E K B (field_ty f)).
    { intros n fs f Hl Hf. pose proof (worst_in E K n _ t Hl) as H1. fold B in H1. cbn [worst_def] in H1.
      pose proof (list_max_in _ _ (in_map (fun f => worst E K (field_ty f)) fs f Hf)). pose proof (extra_worst E K (field_ty f)). split; [lia|]. apply worst_within. lia. }
    assert (Hu : forall n fs f, lookup E n = Some (DUnion fs) -> In f fs -> (default_nodes E K (f_ty f) + extra E K (f_ty f) <= B)%nat /\ within E K B (f_ty f)).
    { intros n fs f Hl Hf. pose proof (worst_in E K n _ t Hl) as H1. fold B in H1. cbn [worst_def] in H1.
      pose proof (list_max_in _ _ (in_map (fun f => worst E K (f_ty f)) fs f Hf)). pose proof (extra_worst E K (f_ty f)). split; [lia|]. apply worst_within. lia. }
    pose proof (proj1 (fill_grows c I inv le okp L Hc Hdouble Hbinary E K HE Hpanic B Hs Hu HB d) t dv s Hi Hcl (worst_within E K t B HwB)) as G.
    unfold grows in G. destruct (fill c I E d t dv s) as [[s1 v1] [u|e|p]]; try discriminate. injection H as <- <-. destruct G as (_ & _ & G).
    pose proof (extra_worst E K t). rewrite (default_size E K HE t d dv Hcl Hdv) in G. nia.
  Qed.
End Read.

Theorem read_slice_size : forall c E K d t s rest v,
  cfg_ok c -> env_closed E K = true -> ty_closed E t = true -> bytes s -> read_thrift c (slice_input c) E d t s = (rest, Ok v) ->
  (nodes v + per_byte E K t * List.length rest <= per_byte E K t * List.length s)%nat.
Proof.
  intros c E K d t s rest v Hc HE Ht Hb H.
  exact (read_size c _ _ _ sane (slice_lawful c Hc _ (slice_panic_sane c)) Hc (slice_double_left c Hc _ (slice_panic_sane c))
    (slice_binary_left c Hc _ (slice_panic_sane c)) E K HE stack_sane d t s rest v Hb Ht H).
Qed.
Theorem read_reader_size : forall c E K d t r r' v,
  cfg_ok c -> env_closed E K = true -> ty_closed E t = true -> reader_bytes r -> read_thrift c (reader_input c) E d t r = (r', Ok v) ->
  (nodes v + per_byte E K t * reader_left r' <= per_byte E K t * reader_left r)%nat.
Proof.
  intros c E K d t s rest v Hc HE Ht Hb H.
  exact (read_size c _ _ _ sane (reader_lawful c Hc _ (reader_panic_sane c)) Hc (reader_double_left c Hc _ (reader_panic_sane c))
    (reader_binary_left c Hc _ (reader_panic_sane c)) E K HE stack_sane d t s rest v Hb Ht H).
Qed.
Theorem parquet_size : forall c d n s rest v,
  cfg_ok c -> ty_closed parquet_env (TNamed n) = true -> bytes s -> read_thrift c (slice_input c) parquet_env d (TNamed n) s = (rest, Ok v) ->
  (nodes v + 17 * List.length rest <= 17 * List.length s)%nat.
Proof.
  intros c d n s rest v Hc Ht Hb H.
  assert (B : (per_byte parquet_env 12 (TNamed n) <= 17)%nat).
  { cbn [ty_closed] in Ht. destruct (lookup parquet_env n) as [df|] eqn:Hl; [|discriminate].
    apply lookup_In in Hl. assert (G : forallb (fun nd => Nat.leb (per_byte parquet_env 12 (TNamed (fst nd))) 17) parquet_env = true) by (vm_compute; reflexivity).
    rewrite forallb_forall in G. specialize (G _ Hl). apply Nat.leb_le in G. exact G. }
  destruct (read_slice_forward c parquet_env 12 d (TNamed n) s Hc ltac:(vm_compute; reflexivity) Ht Hb) as [F _]. rewrite H in F. cbn [fst] in F. apply suffix_length in F.
  pose proof (read_slice_size c parquet_env 12 d (TNamed n) s rest v Hc ltac:(vm_compute; reflexivity) Ht Hb H) as R. nia.
Qed.

(** * Space reserved in advance *)
Lemma fill_vec_short c E d n v : cfg_ok c -> lookup E n <> None -> (match lookup E n with Some DEnum => 5 | _ => 12 end) = 12 ->
  (forall dv, default E d (TNamed n) = Some dv -> exists w, fill c (slice_input c) E d (TNamed n) dv [] = ([], w, Err (IO UnexpectedEof))) ->
  default E d (TNamed n) <> None ->
  snd (fill c (slice_input c) E (Datatypes.S d) (TVec (TNamed n)) v [252; 128; 173; 226; 4]) =
    Err (if reserve c 10000000 then IO UnexpectedEof else ReserveError).
Proof.
  intros Hc Hn Hty Hf Hd. cbn [fill].
  assert (R : read_collection_len_and_type c (slice_input c) [252; 128; 173; 226; 4] = ([], Ok (10000000, 12))).
  { destruct c as [o x u r], Hc as [[H|H] _]; cbn [usize_bits] in H; subst u; destruct o; vm_compute; reflexivity. }
  rewrite R. assert (T : field_type E (TNamed n) = 12) by (cbn [field_type]; destruct (lookup E n) as [[]|]; congruence).
  rewrite T. cbn [Z.eqb Pos.eqb negb andb]. destruct (reserve c 10000000); [|reflexivity]. cbn [negb].
  destruct (Z.to_nat 10000000) as [|k] eqn:Hk; [lia|]. cbn [vec_loop]. destruct (default E d (TNamed n)) as [dv|]; [|congruence].
  destruct (Hf dv eq_refl) as [w Hw]. rewrite Hw. reflexivity.
Qed.
Lemma empty_struct c E d n fs vs : lookup E n = Some (DStruct fs) -> exists w, fill c (slice_input c) E (Datatypes.S d) (TNamed n) (VStruct vs) [] = ([], w, Err (IO UnexpectedEof)).
Proof. intros Hl. cbn [fill]. rewrite Hl. eexists. reflexivity. Qed.
Lemma first_field c E d n fs vs s s1 id i f t v e : lookup E n = Some (DStruct fs) ->
  read_field_header c (slice_input c) 0 s = (s1, Ok (9, id)) -> find_field fs id = Some (i, f) -> nth_error vs i = Some v -> field_ty f = TVec t ->
  snd (fill c (slice_input c) E d (TVec t) v s1) = Err e ->
  snd (fill c (slice_input c) E (Datatypes.S (Datatypes.S d)) (TNamed n) (VStruct vs) s) = Err e.
Proof.
  intros Hl Hh Hf Hn Ht He.
  assert (U : fill c (slice_input c) E (Datatypes.S (Datatypes.S d)) (TNamed n) (VStruct vs) s =
    match struct_loop c (slice_input c) n fs (fun t' ft w s' => fill_field c (slice_input c) E (Datatypes.S d) t' ft w s')
            (fun ft => skip_field c (slice_input c) (Datatypes.S d) ft false)
            (Datatypes.S (in_left (slice_input c) s)) 0 (map (fun _ => false) fs) vs s with
    | (s', vs', o) => (s', VStruct vs', o)
    end).
  { remember (Datatypes.S d) as d1. cbn [fill]. rewrite Hl. reflexivity. }
  rewrite U. clear U. cbn [struct_loop]. rewrite Hh. cbn [Z.eqb]. rewrite Hf, Hn, Ht.
  assert (FF : fill_field c (slice_input c) E (Datatypes.S d) (TVec t) 9 v s1 = fill c (slice_input c) E d (TVec t) v s1) by reflexivity.
  rewrite FF. clear FF. destruct (fill c (slice_input c) E d (TVec t) v s1) as [[s2 v2] o]. cbn [snd] in He. subst o. reflexivity.
Qed.
Theorem reserved_before_reading : forall c, cfg_ok c ->
  snd (read_thrift c (slice_input c) parquet_env 20 (TNamed "FileMetaData") [41; 252; 128; 173; 226; 4]) =
    Err (if reserve c 10000000 then IO UnexpectedEof else ReserveError).
Proof.
  intros c Hc.
  assert (G : exists vs, default parquet_env 17 (TNamed "SchemaElement") = Some (VStruct vs)) by (eexists; vm_compute; reflexivity). destruct G as [vs G].
  assert (G' : exists fs, lookup parquet_env "SchemaElement" = Some (DStruct fs)) by (eexists; vm_compute; reflexivity). destruct G' as [fs G'].
  assert (V := fill_vec_short c parquet_env 17 "SchemaElement" (VVec []) Hc ltac:(rewrite G'; discriminate) ltac:(rewrite G'; reflexivity)).
  specialize (V ltac:(intros dv Hdv; rewrite G in Hdv; injection Hdv as <-; eapply empty_struct; exact G') ltac:(rewrite G; discriminate)).
  assert (D : exists vs0, default parquet_env 20 (TNamed "FileMetaData") = Some (VStruct vs0) /\ nth_error vs0 1 = Some (VVec [])) by (eexists; split; vm_compute; reflexivity).
  destruct D as (vs0 & D & N).
  assert (F : exists fs0 f, lookup parquet_env "FileMetaData" = Some (DStruct fs0) /\ find_field fs0 2 = Some (1%nat, f) /\ field_ty f = TVec (TNamed "SchemaElement"))
    by (do 2 eexists; repeat split; vm_compute; reflexivity).
  destruct F as (fs0 & f & F1 & F2 & F3).
  assert (R : read_field_header c (slice_input c) 0 [41; 252; 128; 173; 226; 4] = ([252; 128; 173; 226; 4], Ok (9, 2))).
  { destruct c as [o x u r]; destruct o; vm_compute; reflexivity. }
  pose proof (first_field c parquet_env 18 "FileMetaData" fs0 vs0 _ _ 2 1 f _ _ _ F1 R F2 N F3 V) as Q.
  unfold read_thrift. rewrite D.
  destruct (fill c (slice_input c) parquet_env 20 (TNamed "FileMetaData") (VStruct vs0) _) as [[s2 v2] o]. cbn [snd] in Q. subst o. reflexivity.
Qed.

Section Reserve.
  Context {S : Type}.
  Variables (c : cfg) (r' : Z -> bool) (I : input S) (E : env).
  Let c' : cfg := {| overflow_checks := overflow_checks c; sse2 := sse2 c; usize_bits := usize_bits c; reserve := r' |}.
  Hypothesis Hr : forall n, n <= 10000000 -> reserve c n = r' n.

  Lemma vec_loop_ext dv (f g : F S) : (forall v s, f v s = g v s) -> forall n s, vec_loop dv f n s = vec_loop dv g n s.
  Proof.
    intros H. induction n as [|n IH]; intros s; cbn [vec_loop]; [reflexivity|]. destruct dv as [v|]; [|reflexivity]. rewrite H.
    destruct (g v s) as [[s1 v1] [u|e|p]]; [rewrite IH|..]; reflexivity.
  Qed.
  Lemma struct_loop_ext name fs ff gg sk : (forall t ft v s, ff t ft v s = gg t ft v s) ->
    forall fuel last flags vs s, struct_loop c I name fs ff sk fuel last flags vs s = struct_loop c' I name fs gg sk fuel last flags vs s.
  Proof.
    intros H. induction fuel as [|fuel IH]; intros last flags vs s; cbn [struct_loop]; [reflexivity|].
    change (read_field_header c' I last s) with (read_field_header c I last s).
    destruct (read_field_header c I last s) as [s1 [[ft last']|e|p]]; try reflexivity. destruct (ft =? 0); [reflexivity|].
    destruct (find_field fs last') as [[i f]|].
    - destruct (nth_error vs i) as [v|]; [|reflexivity]. rewrite H. destruct (gg (field_ty f) ft v s1) as [[s2 v'] [u|e|p]]; [apply IH|..]; reflexivity.
    - destruct (sk ft s1) as [s2 [u|e|p]]; [apply IH|..]; reflexivity.
  Qed.
  Lemma collection_limit s s1 n et : read_collection_len_and_type c I s = (s1, Ok (n, et)) -> n <= 10000000.
  Proof.
    unfold read_collection_len_and_type, bind. destruct (in_read_byte I s) as [s2 [h|e|p]]; try discriminate. cbv zeta.
    destruct ((if negb (Z.shiftr (Z.land h 240) 4 =? 15) then ret (Z.shiftr (Z.land h 240) 4) else read_len c I) s2) as [s3 [len|e|p]]; try discriminate.
    unfold MAX_COLLECTION_LEN. destruct (10000000 <? len) eqn:Hl; [discriminate|]. unfold ret. intros H. injection H as _ <- _. lia.
  Qed.
  Lemma skip_reserve d : (forall ft e s, skip_field c I d ft e s = skip_field c' I d ft e s) /\ (forall s, skip_collection c I d s = skip_collection c' I d s) /\
    (forall s, skip_map c I d s = skip_map c' I d s).
  Proof. repeat split; intros; reflexivity. Qed.
  Lemma fill_reserve d :
    (forall t v s, fill c I E d t v s = fill c' I E d t v s) /\ (forall t ft v s, fill_field c I E d t ft v s = fill_field c' I E d t ft v s).
  Proof.
    induction d as [|d [IHf IHff]]; [split; reflexivity|]. split.
    - intros t v s. destruct t; try reflexivity.
      + cbn [fill]. change (read_collection_len_and_type c' I s) with (read_collection_len_and_type c I s).
        destruct (read_collection_len_and_type c I s) as [s1 [[n et]|e|p]] eqn:Hc; try reflexivity.
        destruct (negb (et =? field_type E t) && negb ((field_type E t =? 2) && (et =? 1))); [reflexivity|].
        change (reserve c' n) with (r' n). rewrite (Hr n (collection_limit _ _ _ _ Hc)). destruct (negb (r' n)); [reflexivity|].
        rewrite (vec_loop_ext (default E d t) (fill c I E d t) (fill c' I E d t) (fun v s => IHf t v s)). reflexivity.
      + cbn [fill]. destruct v; try reflexivity; (destruct (default E d t) as [dv|]; [|reflexivity]); rewrite IHf; reflexivity.
      + cbn [fill]. destruct v; try reflexivity. rewrite IHf. reflexivity.
      + cbn [fill]. destruct v as [| | | | | | | | | | | |[|] v| | |]; try reflexivity. rewrite IHf. reflexivity.
      + cbn [fill]. destruct (lookup E name) as [[fs|fs|]|]; try reflexivity.
        * destruct v; try reflexivity.
          rewrite (struct_loop_ext name fs (fun t' ft w s' => fill_field c I E d t' ft w s') (fun t' ft w s' => fill_field c' I E d t' ft w s')
                     (fun ft => skip_field c I d ft false) (fun t ft v s => IHff t ft v s)). reflexivity.
        * change (read_field_header c' I 0 s) with (read_field_header c I 0 s). destruct (read_field_header c I 0 s) as [s1 [[ft last]|e|p]]; try reflexivity.
          destruct (ft =? 0); [reflexivity|]. destruct (find_field fs last) as [[i f]|]; [|reflexivity]. destruct (default E d (f_ty f)) as [dv|]; [|reflexivity].
          rewrite IHf. reflexivity.
    - intros t ft v s. destruct t; try (cbn [fill_field]; rewrite IHf; reflexivity); try reflexivity.
      cbn [fill_field]. destruct v; try reflexivity; (destruct (default E d t) as [dv|]; [|reflexivity]); rewrite IHff; reflexivity.
  Qed.
  Theorem reserve_limit : forall d t s, read_thrift c I E d t s = read_thrift c' I E d t s.
  Proof. intros d t s. unfold read_thrift. destruct (default E d t) as [dv|]; [|reflexivity]. rewrite (proj1 (fill_reserve d)). reflexivity. Qed.
End Reserve.
