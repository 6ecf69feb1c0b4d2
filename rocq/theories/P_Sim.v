(** Decoding from two related inputs gives related results. *)
From Coq Require Import ZifyBool ZifyNat ZifyN.
From Verif Require Import Base Uleb Utf8 Protocol Encodings Types SpecUtf8 SpecCompact Schema Typing
  P_Arith P_Reads P_Utf8 P_Gen P_Fill P_Good.

Inductive failure : Type := FErr (e : error) | FPanic (p : panic).
Definition raise {A} (f : failure) : outcome A := match f with FErr e => Err e | FPanic p => Panic p end.
Definition eofb (e : error) : bool := match e with IO UnexpectedEof => true | _ => false end.

Section Sim.
  Context {S1 S2 : Type}.
  Variable R : S1 -> S2 -> Prop.
  (** What the second input does where the first reports its end: [None] anything. *)
  Variable eofp : option (failure -> Prop).
  (** Panics of the first input after which nothing is claimed. *)
  Variable weakp : panic -> Prop.

  Definition simr {A} (r1 : S1 * outcome A) (r2 : S2 * outcome A) : Prop :=
    match snd r1 with
    | Ok a => snd r2 = Ok a /\ R (fst r1) (fst r2)
    | Err e => if eofb e then match eofp with None => True | Some P => exists f, snd r2 = raise f /\ P f end
               else snd r2 = Err e /\ R (fst r1) (fst r2)
    | Panic p => weakp p \/ snd r2 = Panic p
    end.
  Definition sim {A} (s1 : S1) (s2 : S2) (m1 : M S1 A) (m2 : M S2 A) : Prop := simr (m1 s1) (m2 s2).

  Lemma sim_ret {A} s1 s2 (a : A) : R s1 s2 -> sim s1 s2 (ret a) (ret a).
  Proof. intros H. split; [reflexivity|exact H]. Qed.
  Lemma sim_fail {A} s1 s2 e : eofb e = false -> R s1 s2 -> @sim A s1 s2 (fail e) (fail e).
  Proof. intros He H. unfold sim, simr, fail. cbn [fst snd]. rewrite He. auto. Qed.
  Lemma sim_crash {A} s1 s2 p : @sim A s1 s2 (crash p) (crash p).
  Proof. right. reflexivity. Qed.
  Lemma sim_bind {A B} s1 s2 (m1 : M S1 A) (m2 : M S2 A) (f1 : A -> M S1 B) (f2 : A -> M S2 B) :
    sim s1 s2 m1 m2 ->
    (forall a s1' s2', m1 s1 = (s1', Ok a) -> m2 s2 = (s2', Ok a) -> R s1' s2' -> sim s1' s2' (f1 a) (f2 a)) ->
    sim s1 s2 (bind m1 f1) (bind m2 f2).
  Proof.
    unfold sim, simr, bind. destruct (m1 s1) as [t1 [a|e|p]], (m2 s2) as [t2 o2]; cbn [fst snd]; intros H Hf.
    - destruct H as [-> H]. apply Hf; auto.
    - destruct (eofb e) eqn:He.
      + cbn [snd]. rewrite ?He. destruct eofp as [P|]; [|exact I].
        destruct H as (f & -> & HP). exists f. destruct f; cbn; auto.
      + destruct H as [-> H]. cbn [fst snd]. rewrite ?He. auto.
    - destruct H as [H| ->]; cbn [snd]; auto.
  Qed.

  Variable c1 c2 : cfg.
  Variable I1 : input S1.
  Variable I2 : input S2.
  Variable inv1 : S1 -> Prop.
  Variable le1 : S1 -> S1 -> Prop.
  Variable inv2 : S2 -> Prop.
  Variable le2 : S2 -> S2 -> Prop.
  Let any : panic -> Prop := fun _ => True.
  Hypothesis L1 : lawful c1 I1 inv1 le1 any.
  Hypothesis L2 : lawful c2 I2 inv2 le2 any.
  Hypothesis Hov : overflow_checks c2 = overflow_checks c1.
  Hypothesis Hinv : forall s1 s2, R s1 s2 -> inv1 s1 /\ inv2 s2.
  Hypothesis Hbyte : forall s1 s2, R s1 s2 -> sim s1 s2 (in_read_byte I1) (in_read_byte I2).

  (** Post-conditions of successful calls on both sides. *)
  Lemma tame_ok {S A} (le : S -> S -> Prop) okp s (m : M S A) Q s' a :
    tame le okp s m Q -> m s = (s', Ok a) -> le s' s /\ Q s' a.
  Proof. intros [H1 H2] H. rewrite H in *. auto. Qed.
  Lemma left1 {A} s s' (m : M S1 A) a Q : tame le1 any s m Q -> m s = (s', Ok a) -> (in_left I1 s' <= in_left I1 s)%nat.
  Proof. intros H E. apply (or_left _ _ _ (lw_order _ _ _ _ _ L1)). eapply (tame_ok _ _ _ _ _ _ _ H E). Qed.
  Lemma left2 {A} s s' (m : M S2 A) a Q : tame le2 any s m Q -> m s = (s', Ok a) -> (in_left I2 s' <= in_left I2 s)%nat.
  Proof. intros H E. apply (or_left _ _ _ (lw_order _ _ _ _ _ L2)). eapply (tame_ok _ _ _ _ _ _ _ H E). Qed.

  Lemma decode_loop_sim fuel1 : forall fuel2 shift value s1 s2, R s1 s2 ->
    (in_left I1 s1 < fuel1)%nat -> (in_left I2 s2 < fuel2)%nat ->
    sim s1 s2 (decode_uleb_loop c1 (in_read_byte I1) fuel1 shift value) (decode_uleb_loop c2 (in_read_byte I2) fuel2 shift value).
  Proof.
    induction fuel1 as [|fuel1 IH]; intros fuel2 shift value s1 s2 HR H1 H2; [lia|].
    destruct fuel2 as [|fuel2]; [lia|]. cbn [decode_uleb_loop]. destruct (Hinv _ _ HR) as [Hi1 Hi2].
    apply sim_bind; [apply Hbyte; exact HR|]. intros b s1' s2' E1 E2 HR'.
    destruct (tame_ok _ _ _ _ _ _ _ (lw_byte _ _ _ _ _ L1 s1 Hi1) E1) as [_ [_ Hl1]].
    destruct (tame_ok _ _ _ _ _ _ _ (lw_byte _ _ _ _ _ L2 s2 Hi2) E2) as [_ [_ Hl2]].
    rewrite Hov. destruct (overflow_checks c1 && (2 ^ 32 <=? shift + 7)); [apply sim_crash|].
    destruct (Z.land b 128 =? 0); [apply sim_ret; exact HR'|]. apply IH; [exact HR'|lia|lia].
  Qed.
  Lemma uleb_sim s1 s2 : R s1 s2 ->
    sim s1 s2 (decode_uleb c1 (in_read_byte I1) (in_left I1)) (decode_uleb c2 (in_read_byte I2) (in_left I2)).
  Proof. intros HR. apply decode_loop_sim; [exact HR|lia|lia]. Qed.
  Hypothesis Hub : usize_bits c2 = usize_bits c1.
  Lemma read_len_sim s1 s2 : R s1 s2 -> sim s1 s2 (read_len c1 I1) (read_len c2 I2).
  Proof.
    intros HR. apply sim_bind; [apply uleb_sim; exact HR|]. intros n s1' s2' _ _ HR'. rewrite Hub. apply sim_ret. exact HR'.
  Qed.
  Hypothesis Hdouble : forall s1 s2, R s1 s2 -> sim s1 s2 (in_read_double I1) (in_read_double I2).
  Hypothesis Hbinary : forall s1 s2, R s1 s2 -> sim s1 s2 (in_read_binary I1) (in_read_binary I2).
  Hypothesis Hskint : forall s1 s2, R s1 s2 -> sim s1 s2 (in_skip_integer I1) (in_skip_integer I2).
  Hypothesis Hskbin : forall s1 s2, R s1 s2 -> sim s1 s2 (in_skip_binary I1) (in_skip_binary I2).

  Lemma read_i16_sim s1 s2 : R s1 s2 -> sim s1 s2 (read_i16 c1 I1) (read_i16 c2 I2).
  Proof. intros HR. apply sim_bind; [apply uleb_sim; exact HR|]. intros n s1' s2' _ _ HR'. apply sim_ret. exact HR'. Qed.
  Lemma read_i32_sim s1 s2 : R s1 s2 -> sim s1 s2 (read_i32 c1 I1) (read_i32 c2 I2).
  Proof. intros HR. apply sim_bind; [apply uleb_sim; exact HR|]. intros n s1' s2' _ _ HR'. apply sim_ret. exact HR'. Qed.
  Lemma read_i64_sim s1 s2 : R s1 s2 -> sim s1 s2 (read_i64 c1 I1) (read_i64 c2 I2).
  Proof. intros HR. apply sim_bind; [apply uleb_sim; exact HR|]. intros n s1' s2' _ _ HR'. apply sim_ret. exact HR'. Qed.
  Lemma read_string_sim s1 s2 : R s1 s2 -> sim s1 s2 (read_string I1) (read_string I2).
  Proof.
    intros HR. apply sim_bind; [apply Hbinary; exact HR|]. intros l s1' s2' _ _ HR'.
    destruct (utf8_valid l); [apply sim_ret; exact HR'|apply sim_fail; [reflexivity|exact HR']].
  Qed.
  Lemma header_sim last s1 s2 : R s1 s2 -> sim s1 s2 (read_field_header c1 I1 last) (read_field_header c2 I2 last).
  Proof.
    intros HR. apply sim_bind; [apply Hbyte; exact HR|]. intros b s1' s2' _ _ HR'. cbv beta zeta.
    destruct (b =? 0); [apply sim_ret; exact HR'|]. destruct (negb (Z.shiftr b 4 =? 0)).
    - rewrite Hov. destruct (overflow_checks c1 && (32767 <? last + Z.shiftr b 4)); [apply sim_crash|apply sim_ret; exact HR'].
    - apply sim_bind.
      + apply sim_bind; [apply uleb_sim; exact HR'|]. intros n t1 t2 _ _ HR2. apply sim_ret. exact HR2.
      + intros id t1 t2 _ _ HR2. apply sim_ret. exact HR2.
  Qed.
  Lemma collection_sim s1 s2 : R s1 s2 -> sim s1 s2 (read_collection_len_and_type c1 I1) (read_collection_len_and_type c2 I2).
  Proof.
    intros HR. apply sim_bind; [apply Hbyte; exact HR|]. intros b s1' s2' _ _ HR'. cbv beta zeta. apply sim_bind.
    - destruct (negb _); [apply sim_ret; exact HR'|apply read_len_sim; exact HR'].
    - intros n t1 t2 _ _ HR2. destruct (MAX_COLLECTION_LEN <? n); [apply sim_fail; [reflexivity|exact HR2]|apply sim_ret; exact HR2].
  Qed.
  Lemma map_sim s1 s2 : R s1 s2 -> sim s1 s2 (read_map_len_and_types c1 I1) (read_map_len_and_types c2 I2).
  Proof.
    intros HR. apply sim_bind; [apply read_len_sim; exact HR|]. intros n s1' s2' _ _ HR'.
    destruct (n =? 0); [apply sim_ret; exact HR'|]. apply sim_bind; [apply Hbyte; exact HR'|].
    intros b t1 t2 _ _ HR2. cbv beta zeta.
    destruct (MAX_COLLECTION_LEN <? n); [apply sim_fail; [reflexivity|exact HR2]|apply sim_ret; exact HR2].
  Qed.
  Lemma discard_sim {A} s1 s2 (m1 : M S1 A) (m2 : M S2 A) : sim s1 s2 m1 m2 -> sim s1 s2 (discard m1) (discard m2).
  Proof. intros H. apply sim_bind; [exact H|]. intros a t1 t2 _ _ HR2. apply sim_ret. exact HR2. Qed.
  Lemma repeat_sim (m1 : M S1 unit) (m2 : M S2 unit) n : (forall s1 s2, R s1 s2 -> sim s1 s2 m1 m2) ->
    forall s1 s2, R s1 s2 -> sim s1 s2 (repeatM n m1) (repeatM n m2).
  Proof.
    intros H. induction n as [|n IH]; intros s1 s2 HR; cbn [repeatM]; [apply sim_ret; exact HR|].
    apply sim_bind; [apply H; exact HR|]. intros u t1 t2 _ _ HR'. apply IH. exact HR'.
  Qed.

  Lemma skip_struct_loop_sim sk1 sk2 :
    (forall ft s1 s2, R s1 s2 -> sim s1 s2 (sk1 ft) (sk2 ft)) ->
    (forall ft s, inv1 s -> tame le1 any s (sk1 ft) (fun _ _ => True)) ->
    (forall ft s, inv2 s -> tame le2 any s (sk2 ft) (fun _ _ => True)) ->
    forall fuel1 fuel2 last s1 s2, R s1 s2 -> (in_left I1 s1 < fuel1)%nat -> (in_left I2 s2 < fuel2)%nat ->
    sim s1 s2 (skip_struct_loop c1 I1 sk1 fuel1 last) (skip_struct_loop c2 I2 sk2 fuel2 last).
  Proof.
    intros Hsk Ht1 Ht2. induction fuel1 as [|fuel1 IH]; intros fuel2 last s1 s2 HR Hf1 Hf2; [lia|].
    destruct fuel2 as [|fuel2]; [lia|]. cbn [skip_struct_loop]. destruct (Hinv _ _ HR) as [Hi1 Hi2].
    apply sim_bind; [apply header_sim; exact HR|]. intros [ft last'] t1 t2 E1 E2 HR1.
    destruct (tame_ok _ _ _ _ _ _ _ (header_tame _ _ _ _ _ L1 s1 last Hi1) E1) as [_ [_ Hl1]].
    destruct (tame_ok _ _ _ _ _ _ _ (header_tame _ _ _ _ _ L2 s2 last Hi2) E2) as [_ [_ Hl2]].
    destruct (ft =? 0); [apply sim_ret; exact HR1|]. destruct (Hinv _ _ HR1) as [Hi1' Hi2'].
    apply sim_bind; [apply Hsk; exact HR1|]. intros u r1 r2 E3 E4 HR2.
    pose proof (left1 _ _ _ _ _ (Ht1 ft t1 Hi1') E3). pose proof (left2 _ _ _ _ _ (Ht2 ft t2 Hi2') E4).
    apply IH; [exact HR2|lia|lia].
  Qed.

  Lemma deep_any n d : deep any n d.
  Proof. left. exact I. Qed.

  Hypothesis Hc1 : cfg_ok c1.
  Hypothesis Hc2 : cfg_ok c2.
  Lemma skip_sim d :
    (forall ft e s1 s2, R s1 s2 -> sim s1 s2 (skip_field c1 I1 d ft e) (skip_field c2 I2 d ft e)) /\
    (forall s1 s2, R s1 s2 -> sim s1 s2 (skip_collection c1 I1 d) (skip_collection c2 I2 d)) /\
    (forall s1 s2, R s1 s2 -> sim s1 s2 (skip_map c1 I1 d) (skip_map c2 I2 d)).
  Proof.
    induction d as [|d (IHf & IHc & IHm)]; [repeat split; intros; apply sim_crash|].
    assert (Hb : forall s1 s2, R s1 s2 -> sim s1 s2 (discard (in_read_byte I1)) (discard (in_read_byte I2))).
    { intros s1 s2 HR. apply discard_sim. apply Hbyte. exact HR. }
    assert (Hd : forall s1 s2, R s1 s2 -> sim s1 s2 (discard (in_read_double I1)) (discard (in_read_double I2))).
    { intros s1 s2 HR. apply discard_sim. apply Hdouble. exact HR. }
    split; [|split].
    - intros ft e s1 s2 HR. cbn [skip_field].
      destruct ((1 <=? ft) && (ft <=? 2)); [destruct e; [apply Hb; exact HR|apply sim_ret; exact HR]|].
      destruct (ft =? 3); [auto|]. destruct ((4 <=? ft) && (ft <=? 6)); [auto|].
      destruct (ft =? 7); [auto|]. destruct (ft =? 8); [auto|].
      destruct ((ft =? 9) || (ft =? 10)); [auto|]. destruct (ft =? 11); [auto|].
      destruct (ft =? 12); [|apply sim_fail; [reflexivity|exact HR]].
      apply (skip_struct_loop_sim (fun ft => skip_field c1 I1 d ft false) (fun ft => skip_field c2 I2 d ft false));
        [intros; apply IHf; assumption| | |exact HR|lia|lia].
      + intros ft' s Hi. apply (proj1 (skip_tame _ _ _ _ _ L1 Hc1 d)); [exact Hi|apply deep_any].
      + intros ft' s Hi. apply (proj1 (skip_tame _ _ _ _ _ L2 Hc2 d)); [exact Hi|apply deep_any].
    - intros s1 s2 HR. cbn [skip_collection]. apply sim_bind; [apply collection_sim; exact HR|].
      intros [n et] t1 t2 _ _ HR'. cbv beta zeta.
      destruct ((1 <=? et) && (et <=? 3)); [apply repeat_sim; assumption|].
      destruct ((4 <=? et) && (et <=? 6)); [apply repeat_sim; assumption|].
      destruct (et =? 7); [apply repeat_sim; assumption|]. destruct (et =? 8); [apply repeat_sim; assumption|].
      destruct ((et =? 9) || (et =? 10)); [apply repeat_sim; assumption|].
      destruct (et =? 11); [apply repeat_sim; assumption|].
      destruct (et =? 12); [apply repeat_sim; [|exact HR']; intros; apply IHf; assumption|apply sim_fail; [reflexivity|exact HR']].
    - intros s1 s2 HR. cbn [skip_map]. apply sim_bind; [apply map_sim; exact HR|].
      intros [[n kt] vt] t1 t2 _ _ HR'. apply repeat_sim; [|exact HR']. intros r1 r2 HR2.
      apply sim_bind; [apply IHf; exact HR2|]. intros u q1 q2 _ _ HR3. apply IHf. exact HR3.
  Qed.

  (** * Filling *)
  Hypothesis Hre : reserve c2 = reserve c1.
  Variable E : env.
  Variable K : nat.
  Hypothesis HE : env_closed E K = true.

  (** Results with targets; [T] is the type of the target. *)
  Definition simf {T} (r1 : S1 * T * outcome unit) (r2 : S2 * T * outcome unit) : Prop :=
    match snd r1 with
    | Ok _ => snd r2 = Ok tt /\ snd (fst r2) = snd (fst r1) /\ R (fst (fst r1)) (fst (fst r2))
    | Err e => if eofb e then match eofp with None => True | Some P => snd (fst r2) = snd (fst r1) /\ exists f, snd r2 = raise f /\ P f end
               else snd r2 = Err e /\ snd (fst r2) = snd (fst r1) /\ R (fst (fst r1)) (fst (fst r2))
    | Panic p => weakp p \/ (snd r2 = Panic p /\ snd (fst r2) = snd (fst r1))
    end.

  (** After a sub-call: what happens next on both sides. *)
  Lemma simf_bind {A T} (x1 : S1 * outcome A) (x2 : S2 * outcome A) (v : T) k1 k2 :
    simr x1 x2 ->
    (forall a s1 s2, x1 = (s1, Ok a) -> x2 = (s2, Ok a) -> R s1 s2 -> simf (k1 s1 a) (k2 s2 a)) ->
    simf (match x1 with (s, Ok a) => k1 s a | (s, Err e) => (s, v, Err e) | (s, Panic p) => (s, v, Panic p) end)
         (match x2 with (s, Ok a) => k2 s a | (s, Err e) => (s, v, Err e) | (s, Panic p) => (s, v, Panic p) end).
  Proof.
    unfold simr. destruct x1 as [s1 [a|e|p]], x2 as [s2 o2]; cbn [fst snd]; intros H Hk.
    - destruct H as [-> H]. apply Hk; auto.
    - unfold simf. cbn [snd fst]. destruct (eofb e) eqn:He.
      + destruct eofp as [P|]; [|exact I]. destruct H as (f & -> & HP). destruct f; cbn [raise snd fst]; (split; [reflexivity|]); eexists; (split; [|exact HP]); reflexivity.
      + destruct H as [-> H]. auto.
    - unfold simf. cbn [snd fst]. destruct H as [H| ->]; cbn [snd fst]; auto.
  Qed.
  Lemma simf_map {T U} (x1 : S1 * T * outcome unit) (x2 : S2 * T * outcome unit) (g : T -> U) :
    simf x1 x2 ->
    simf (let '(s, v, o) := x1 in (s, g v, o)) (let '(s, v, o) := x2 in (s, g v, o)).
  Proof.
    unfold simf. destruct x1 as [[s1 v1] [u|e|p]], x2 as [[s2 v2] o2]; cbn [fst snd].
    - intros (-> & -> & H). auto.
    - destruct (eofb e); [destruct eofp; [|auto]; intros [-> H]; auto|]. intros (-> & -> & H). auto.
    - intros [H|[-> ->]]; auto.
  Qed.
  Lemma simf_same {T} s1 s2 (v : T) o : R s1 s2 -> match o with Err e => eofb e = false | _ => True end ->
    simf (s1, v, o) (s2, v, o).
  Proof.
    intros HR Ho. unfold simf. cbn [fst snd]. destruct o as [[]|e|p]; [auto| |right; auto]. rewrite Ho. auto.
  Qed.
  (** Sequencing of two calls that update targets: on success continue, else stop. *)
  Lemma simf_seq {T U} (x1 : S1 * T * outcome unit) (x2 : S2 * T * outcome unit) (g : T -> U) k1 k2 :
    simf x1 x2 ->
    (forall s1 s2 v, x1 = (s1, v, Ok tt) -> x2 = (s2, v, Ok tt) -> R s1 s2 -> simf (k1 s1 v) (k2 s2 v)) ->
    simf (match x1 with (s, v, Ok _) => k1 s v | (s, v, o) => (s, g v, o) end)
         (match x2 with (s, v, Ok _) => k2 s v | (s, v, o) => (s, g v, o) end).
  Proof.
    unfold simf at 1. destruct x1 as [[s1 v1] [[]|e|p]], x2 as [[s2 v2] o2]; cbn [fst snd]; intros H Hk.
    - destruct H as (-> & -> & H). apply Hk; auto.
    - unfold simf. cbn [snd fst]. destruct (eofb e) eqn:He.
      + destruct eofp as [P|]; [|exact I]. destruct H as (-> & f & -> & HP). destruct f; cbn [raise snd fst]; (split; [reflexivity|]); eexists; (split; [|exact HP]); reflexivity.
      + destruct H as (-> & -> & H). auto.
    - unfold simf. cbn [snd fst]. destruct H as [H|[-> ->]]; cbn [snd fst]; auto.
  Qed.

  Lemma assign_sim {A} s1 s2 v (m1 : M S1 A) (m2 : M S2 A) k :
    sim s1 s2 m1 m2 -> simf (assign m1 k v s1) (assign m2 k v s2).
  Proof.
    intros H. unfold assign. apply simf_bind with (k1 := fun s a => (s, k a, Ok tt)) (k2 := fun s a => (s, k a, Ok tt)); [exact H|].
    intros a t1 t2 _ _ HR. apply simf_same; [exact HR|exact I].
  Qed.

  Lemma vec_loop_sim t dv f1 f2 : (forall v, dv = Some v -> typed E t v) ->
    (forall v s1 s2, R s1 s2 -> typed E t v -> simf (f1 v s1) (f2 v s2)) ->
    forall n s1 s2, R s1 s2 -> simf (vec_loop dv f1 n s1) (vec_loop dv f2 n s2).
  Proof.
    intros Hdt Hf. induction n as [|n IH]; intros s1 s2 HR; cbn [vec_loop]; [apply simf_same; [exact HR|exact I]|].
    destruct dv as [dv|]; [|apply simf_same; [exact HR|exact I]].
    apply simf_seq with (g := fun v => [v])
      (k1 := fun s v => match vec_loop (Some dv) f1 n s with (s'', vs, o) => (s'', v :: vs, o) end)
      (k2 := fun s v => match vec_loop (Some dv) f2 n s with (s'', vs, o) => (s'', v :: vs, o) end).
    - apply Hf; [exact HR|apply Hdt; reflexivity].
    - intros t1 t2 v _ _ HR'. apply simf_map with (g := cons v). apply IH. exact HR'.
  Qed.

  Lemma struct_loop_sim name fs ff1 ff2 sk1 sk2 :
    (forall f ft v s1 s2, In f fs -> R s1 s2 -> typed E (field_ty f) v -> simf (ff1 (field_ty f) ft v s1) (ff2 (field_ty f) ft v s2)) ->
    (forall f ft v s, In f fs -> inv1 s -> typed E (field_ty f) v -> tameF le1 any E s (field_ty f) (ff1 (field_ty f) ft v s)) ->
    (forall f ft v s, In f fs -> inv2 s -> typed E (field_ty f) v -> tameF le2 any E s (field_ty f) (ff2 (field_ty f) ft v s)) ->
    (forall ft s1 s2, R s1 s2 -> sim s1 s2 (sk1 ft) (sk2 ft)) ->
    (forall ft s, inv1 s -> tame le1 any s (sk1 ft) (fun _ _ => True)) ->
    (forall ft s, inv2 s -> tame le2 any s (sk2 ft) (fun _ _ => True)) ->
    forall fuel1 fuel2 last flags vs s1 s2, R s1 s2 -> typed_fields E fs vs ->
    (in_left I1 s1 < fuel1)%nat -> (in_left I2 s2 < fuel2)%nat ->
    simf (struct_loop c1 I1 name fs ff1 sk1 fuel1 last flags vs s1)
         (struct_loop c2 I2 name fs ff2 sk2 fuel2 last flags vs s2).
  Proof.
    intros Hff Hff1 Hff2 Hsk Hsk1 Hsk2. induction fuel1 as [|fuel1 IH]; intros fuel2 last flags vs s1 s2 HR Ht Hf1 Hf2; [lia|].
    destruct fuel2 as [|fuel2]; [lia|]. cbn [struct_loop]. destruct (Hinv _ _ HR) as [Hi1 Hi2].
    pose proof (header_sim last s1 s2 HR) as Hh. unfold sim in Hh.
    pose proof (fun t1 a => tame_ok _ _ _ _ _ t1 a (header_tame _ _ _ _ _ L1 s1 last Hi1)) as Hp1.
    pose proof (fun t2 a => tame_ok _ _ _ _ _ t2 a (header_tame _ _ _ _ _ L2 s2 last Hi2)) as Hp2.
    destruct (read_field_header c1 I1 last s1) as [t1 [[ft last']|e|p]] eqn:E1.
    2: { unfold simr in Hh. cbn [fst snd] in Hh. unfold simf. cbn [fst snd]. destruct (eofb e).
         - destruct eofp as [P|]; [|exact I]. destruct Hh as (f & Hh & HP).
           destruct (read_field_header c2 I2 last s2) as [t2 o2]. cbn [fst snd] in Hh. subst o2.
           destruct f; cbn [raise fst snd]; (split; [reflexivity|]); eexists; (split; [|exact HP]); reflexivity.
         - destruct (read_field_header c2 I2 last s2) as [t2 o2]. cbn [fst snd] in Hh. destruct Hh as [-> Hh]. auto. }
    2: { unfold simr in Hh. cbn [fst snd] in Hh. unfold simf. cbn [fst snd].
         destruct (read_field_header c2 I2 last s2) as [t2 o2]. cbn [fst snd] in Hh. destruct Hh as [Hh| ->]; auto. }
    unfold simr in Hh. cbn [fst snd] in Hh. destruct (read_field_header c2 I2 last s2) as [t2 o2]. cbn [fst snd] in Hh. destruct Hh as [-> HR1].
    destruct (Hp1 _ _ eq_refl) as [_ [_ Hl1]]. destruct (Hp2 _ _ eq_refl) as [_ [_ Hl2]]. clear Hp1 Hp2.
    destruct (Hinv _ _ HR1) as [Hi1' Hi2'].
    destruct (ft =? 0).
    { destruct (first_missing fs flags); apply simf_same; auto; reflexivity. }
    destruct (find_field fs last') as [[i f]|] eqn:Hfind.
    - destruct (find_field_In _ _ _ _ Hfind) as [Hnth _].
      destruct (typed_fields_nth _ _ _ _ _ Ht Hnth) as (v & Hv & Htv). rewrite Hv.
      pose proof (nth_error_In _ _ Hnth) as Hin.
      apply simf_seq with (g := fun v' => set_nth vs i v')
        (k1 := fun s v' => struct_loop c1 I1 name fs ff1 sk1 fuel1 last' (set_nth flags i true) (set_nth vs i v') s)
        (k2 := fun s v' => struct_loop c2 I2 name fs ff2 sk2 fuel2 last' (set_nth flags i true) (set_nth vs i v') s).
      + apply Hff; assumption.
      + intros r1 r2 v' Er1 Er2 HR2.
        pose proof (Hff1 f ft v t1 Hin Hi1' Htv) as (G1 & G2 & _). pose proof (Hff2 f ft v t2 Hin Hi2' Htv) as (G3 & _ & _).
        rewrite Er1 in G1, G2. rewrite Er2 in G3. cbn [fst snd] in *.
        apply (or_left _ _ _ (lw_order _ _ _ _ _ L1)) in G1. apply (or_left _ _ _ (lw_order _ _ _ _ _ L2)) in G3.
        apply IH; [exact HR2| |lia|lia]. eapply typed_fields_set; eassumption.
    - pose proof (Hsk ft t1 t2 HR1) as Hs. unfold sim in Hs.
      pose proof (fun r1 a => left1 _ r1 _ a _ (Hsk1 ft t1 Hi1')) as Hp1.
      pose proof (fun r2 a => left2 _ r2 _ a _ (Hsk2 ft t2 Hi2')) as Hp2.
      unfold simr in Hs. destruct (sk1 ft t1) as [r1 [u|e|p]], (sk2 ft t2) as [r2 o2]; cbn [fst snd] in Hs.
      + destruct Hs as [-> HR2]. specialize (Hp1 _ _ eq_refl). specialize (Hp2 _ _ eq_refl). apply IH; [exact HR2|exact Ht|lia|lia].
      + unfold simf. cbn [fst snd]. destruct (eofb e).
        * destruct eofp as [P|]; [|exact I]. destruct Hs as (f & -> & HP). destruct f; cbn [raise fst snd]; (split; [reflexivity|]); eexists; (split; [|exact HP]); reflexivity.
        * destruct Hs as [-> Hs]. auto.
      + unfold simf. cbn [fst snd]. destruct Hs as [Hs| ->]; auto.
  Qed.

  Lemma encset_loop_sim n : forall mask s1 s2, R s1 s2 -> sim s1 s2 (encset_read_loop c1 I1 n mask) (encset_read_loop c2 I2 n mask).
  Proof.
    induction n as [|n IH]; intros mask s1 s2 HR; cbn [encset_read_loop]; [apply sim_ret; exact HR|].
    apply sim_bind; [apply read_i32_sim; exact HR|]. intros z t1 t2 _ _ HR'.
    destruct ((z <? 0) || (31 <=? z)); [apply sim_fail; [reflexivity|exact HR']|]. apply IH. exact HR'.
  Qed.
  Lemma encset_sim s1 s2 : R s1 s2 -> sim s1 s2 (encset_read c1 I1) (encset_read c2 I2).
  Proof.
    intros HR. apply sim_bind; [apply collection_sim; exact HR|]. intros [n et] t1 t2 _ _ HR'.
    destruct (negb (et =? 5)); [apply sim_fail; [reflexivity|exact HR']|]. apply encset_loop_sim. exact HR'.
  Qed.

  Lemma fill_sim d :
    (forall t v s1 s2, R s1 s2 -> ty_closed E t = true -> typed E t v ->
       simf (fill c1 I1 E d t v s1) (fill c2 I2 E d t v s2)) /\
    (forall t ft v s1 s2, R s1 s2 -> ty_closed E t = true -> typed E t v ->
       simf (fill_field c1 I1 E d t ft v s1) (fill_field c2 I2 E d t ft v s2)).
  Proof.
    induction d as [|d [IHf IHff]]; [split; intros; apply simf_same; auto; exact I|].
    assert (Hdt : forall t v, ty_closed E t = true -> default E d t = Some v -> typed E t v).
    { intros t v. apply (default_typed E K HE). }
    split.
    - intros t v s1 s2 HR Hcl Hv. cbn [fill]. destruct t; try (apply assign_sim; auto; fail).
      + apply assign_sim. apply read_i16_sim. exact HR.
      + apply assign_sim. apply read_i32_sim. exact HR.
      + apply assign_sim. apply read_i64_sim. exact HR.
      + apply assign_sim. apply read_string_sim. exact HR.
      + (* Vec *)
        pose proof (collection_sim s1 s2 HR) as Hh. unfold sim in Hh. cbn [ty_closed] in Hcl.
        apply simf_bind with (v := v)
          (k1 := fun s1 '(len, element_type) =>
             if negb (element_type =? field_type E t) && negb ((field_type E t =? 2) && (element_type =? 1))
             then (s1, v, Err InvalidType)
             else if negb (reserve c1 len) then (s1, VVec [], Err ReserveError)
             else match vec_loop (default E d t) (fill c1 I1 E d t) (Z.to_nat len) s1 with (s2, vs, o) => (s2, VVec vs, o) end)
          (k2 := fun s1 '(len, element_type) =>
             if negb (element_type =? field_type E t) && negb ((field_type E t =? 2) && (element_type =? 1))
             then (s1, v, Err InvalidType)
             else if negb (reserve c2 len) then (s1, VVec [], Err ReserveError)
             else match vec_loop (default E d t) (fill c2 I2 E d t) (Z.to_nat len) s1 with (s2, vs, o) => (s2, VVec vs, o) end) in Hh.
        * destruct (read_collection_len_and_type c1 I1 s1) as [? [[? ?]|?|?]], (read_collection_len_and_type c2 I2 s2) as [? [[? ?]|?|?]]; exact Hh.
        * intros [n et] t1 t2 _ _ HR'. rewrite Hre. destruct (negb _ && negb _); [apply simf_same; [exact HR'|reflexivity]|].
          destruct (negb _); [apply simf_same; [exact HR'|reflexivity]|].
          apply simf_map with (g := VVec). apply (vec_loop_sim t); [intros w; apply Hdt; exact Hcl| |exact HR'].
          intros w r1 r2 HR2 Hw. apply IHf; assumption.
      + (* Option *)
        cbn [ty_closed] in Hcl.
        assert (Hgen : simf (T := value) match default E d t with
                 | None => (s1, v, Panic PStack)
                 | Some dv => match fill c1 I1 E d t dv s1 with (s', v', o) => (s', VSome v', o) end end
                 match default E d t with
                 | None => (s2, v, Panic PStack)
                 | Some dv => match fill c2 I2 E d t dv s2 with (s', v', o) => (s', VSome v', o) end end).
        { destruct (default E d t) as [dv|] eqn:Hdv; [|apply simf_same; [exact HR|exact I]].
          apply simf_map with (g := VSome). apply IHf; [exact HR|exact Hcl|apply Hdt; assumption]. }
        destruct v; try exact Hgen. apply simf_same; [exact HR|reflexivity].
      + inversion Hv; subst. apply simf_map with (g := VBox). apply IHf; assumption.
      + inversion Hv; subst. destruct u; [|apply simf_same; [exact HR|reflexivity]].
        apply simf_map with (g := VShared true). apply IHf; assumption.
      + apply assign_sim. apply encset_sim. exact HR.
      + cbn [ty_closed] in Hcl. destruct (lookup E name) as [[fs|fs|]|] eqn:Hl; [| | |discriminate].
        * inversion Hv; subst; try congruence. match goal with H : lookup E name = Some (DStruct ?g) |- _ => assert (g = fs) by congruence; subst g end.
          apply simf_map with (g := VStruct).
          apply struct_loop_sim; [| | | | | |exact HR|assumption|lia|lia].
          -- intros f ft w r1 r2 Hin HR' Hw. apply IHff; [exact HR'|apply (closed_struct E K HE _ _ Hl f Hin)|exact Hw].
          -- intros f ft w r1 Hin Hi Hw. apply (proj2 (fill_tame _ _ _ _ _ L1 Hc1 E K HE d)); [exact Hi|apply (closed_struct E K HE _ _ Hl f Hin)|exact Hw|apply deep_any].
          -- intros f ft w r1 Hin Hi Hw. apply (proj2 (fill_tame _ _ _ _ _ L2 Hc2 E K HE d)); [exact Hi|apply (closed_struct E K HE _ _ Hl f Hin)|exact Hw|apply deep_any].
          -- intros ft r1 r2 HR'. apply (proj1 (skip_sim d)). exact HR'.
          -- intros ft' s Hi. apply (proj1 (skip_tame _ _ _ _ _ L1 Hc1 d)); [exact Hi|apply deep_any].
          -- intros ft' s Hi. apply (proj1 (skip_tame _ _ _ _ _ L2 Hc2 d)); [exact Hi|apply deep_any].
        * (* union *)
          pose proof (header_sim 0 s1 s2 HR) as Hh. unfold sim in Hh.
          set (body := fun (S0 : Type) (I0 : input S0) (fl : ty -> value -> S0 -> S0 * value * outcome unit) (s : S0) (p : Z * Z) =>
             let '(ft, last) := p in
             if ft =? 0 then (s, v, Err InvalidType)
             else match find_field fs last with
                  | None => (s, v, Err (MissingField "$struct_name"))
                  | Some (i, f) =>
                      match default E d (f_ty f) with
                      | None => (s, v, Panic PStack)
                      | Some dv =>
                          match fl (f_ty f) dv s with
                          | (s2, w, Ok _) =>
                              match in_read_byte I0 s2 with
                              | (s3, Ok stop) => (s3, VUnion i w, if stop =? 0 then Ok tt else Err MissingStop)
                              | (s3, o) => (s3, VUnion i w, failed o)
                              end
                          | (s2, w, o) => (s2, VUnion i w, o)
                          end
                      end
                  end).
          apply simf_bind with (v := v) (k1 := body S1 I1 (fill c1 I1 E d)) (k2 := body S2 I2 (fill c2 I2 E d)) in Hh.
          -- unfold body in Hh. destruct (read_field_header c1 I1 0 s1) as [? [[? ?]|?|?]], (read_field_header c2 I2 0 s2) as [? [[? ?]|?|?]]; exact Hh.
          -- intros [ft last] t1 t2 _ _ HR'. unfold body. destruct (ft =? 0); [apply simf_same; [exact HR'|reflexivity]|].
             destruct (find_field fs last) as [[i f]|] eqn:Hfind; [|apply simf_same; [exact HR'|reflexivity]].
             destruct (find_field_In _ _ _ _ Hfind) as [Hnth _]. destruct (closed_union E K HE _ _ Hl f (nth_error_In _ _ Hnth)) as [Hcc1 _].
             destruct (default E d (f_ty f)) as [dv|] eqn:Hdv; [|apply simf_same; [exact HR'|exact I]].
             apply simf_seq with (g := VUnion i)
               (k1 := fun s w => match in_read_byte I1 s with
                              | (s3, Ok stop) => (s3, VUnion i w, if stop =? 0 then Ok tt else Err MissingStop)
                              | (s3, o) => (s3, VUnion i w, failed o) end)
               (k2 := fun s w => match in_read_byte I2 s with
                              | (s3, Ok stop) => (s3, VUnion i w, if stop =? 0 then Ok tt else Err MissingStop)
                              | (s3, o) => (s3, VUnion i w, failed o) end).
             ++ apply IHf; [exact HR'|exact Hcc1|apply Hdt; assumption].
             ++ intros r1 r2 w _ _ HR2. pose proof (Hbyte r1 r2 HR2) as Hb. unfold sim in Hb.
                apply simf_bind with (v := VUnion i w)
                  (k1 := fun s stop => (s, VUnion i w, if stop =? 0 then Ok tt else Err MissingStop))
                  (k2 := fun s stop => (s, VUnion i w, if stop =? 0 then Ok tt else Err MissingStop)) in Hb.
                ** destruct (in_read_byte I1 r1) as [? [?|?|?]], (in_read_byte I2 r2) as [? [?|?|?]]; exact Hb.
                ** intros b q1 q2 _ _ HR3. apply simf_same; [exact HR3|]. destruct (b =? 0); [exact I|reflexivity].
        * apply assign_sim. apply read_i32_sim. exact HR.
    - intros t ft v s1 s2 HR Hcl Hv. cbn [fill_field].
      assert (Hother : simf (if negb (ft =? field_type E t) then (s1, v, Err InvalidType) else fill c1 I1 E d t v s1)
                            (if negb (ft =? field_type E t) then (s2, v, Err InvalidType) else fill c2 I2 E d t v s2)).
      { destruct (negb (ft =? field_type E t)); [apply simf_same; [exact HR|reflexivity]|]. apply IHf; assumption. }
      destruct t; try exact Hother.
      + apply simf_same; [exact HR|exact I].
      + clear Hother. cbn [ty_closed] in Hcl.
        assert (Hgen : simf (T := value) match default E d t with
                 | None => (s1, v, Panic PStack)
                 | Some dv => match fill_field c1 I1 E d t ft dv s1 with (s', v', o) => (s', VSome v', o) end end
                 match default E d t with
                 | None => (s2, v, Panic PStack)
                 | Some dv => match fill_field c2 I2 E d t ft dv s2 with (s', v', o) => (s', VSome v', o) end end).
        { destruct (default E d t) as [dv|] eqn:Hdv; [|apply simf_same; [exact HR|exact I]].
          apply simf_map with (g := VSome). apply IHff; [exact HR|exact Hcl|apply Hdt; assumption]. }
        destruct v; try exact Hgen. apply simf_same; [exact HR|reflexivity].
  Qed.

  Lemma read_sim d t s1 s2 : R s1 s2 -> ty_closed E t = true ->
    sim s1 s2 (read_thrift c1 I1 E d t) (read_thrift c2 I2 E d t).
  Proof.
    intros HR Hcl. unfold read_thrift, sim. destruct (default E d t) as [dv|] eqn:Hdv; [|right; reflexivity].
    pose proof (proj1 (fill_sim d) t dv s1 s2 HR Hcl (default_typed E K HE _ _ _ Hcl Hdv)) as H.
    unfold simf in H. destruct (fill c1 I1 E d t dv s1) as [[t1 v1] [[]|e|p]], (fill c2 I2 E d t dv s2) as [[t2 v2] o2]; cbn [fst snd] in H.
    - destruct H as (-> & -> & H). split; [reflexivity|exact H].
    - unfold simr. cbn [fst snd]. destruct (eofb e).
      + destruct eofp as [P|]; [|exact I]. destruct H as (_ & f & -> & HP). exists f. split; [destruct f; reflexivity|exact HP].
      + destruct H as (-> & _ & H). auto.
    - unfold simr. cbn [fst snd]. destruct H as [H|[-> _]]; auto.
  Qed.
End Sim.
