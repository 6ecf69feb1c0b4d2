(** The number of calls to the input, and progress in every iteration. *)
From Coq Require Import ZifyBool ZifyNat ZifyN.
From Verif Require Import Base Uleb Utf8 Protocol Encodings Types Parquet SpecInput SpecWork Schema Typing
  P_Arith P_Inputs P_Fill P_Good P_Lawful P_Robust P_Size.

Section Work.
  Context {S : Type}.
  Variables (c : cfg) (I : input S) (inv : S -> Prop).
  Notation left := (in_left I).
  Notation J := (counting I).
  Definition spends {A} (m : M S A) : Prop := forall s, inv s ->
    inv (fst (m s)) /\ match snd (m s) with Ok _ => (left (fst (m s)) < left s)%nat | _ => (left (fst (m s)) <= left s)%nat end.
  Hypothesis Hbyte : spends (in_read_byte I).
  Hypothesis Hdouble : spends (in_read_double I).
  Hypothesis Hbinary : spends (in_read_binary I).
  Hypothesis Hint : spends (in_skip_integer I).
  Hypothesis Hbin : spends (in_skip_binary I).

  (** The counted run mirrors the other and the count is paid for *)
  Definition paid {A} (m1 : M S A) (m2 : M (S * nat) A) : Prop := forall s n, inv s ->
    match m1 s with
    | (s', o) => inv s' /\ exists k, m2 (s, n) = ((s', (n + k)%nat), o) /\ (k + left s' <= left s + slack o)%nat
    end.
  Lemma paid_tick {A} (m : M S A) : spends m -> paid m (tick m).
  Proof.
    intros H s n Hi. specialize (H s Hi). unfold tick. destruct (m s) as [s' o]; cbn [fst snd] in H. destruct H as [H1 H2].
    split; [exact H1|]. exists 1%nat. split; [f_equal; f_equal; lia|]. destruct o; cbn [slack]; lia.
  Qed.
  Lemma paid_ret {A} (a : A) : paid (ret a) (ret a).
  Proof. intros s n Hi. cbn. split; [exact Hi|]. exists 0%nat. rewrite Nat.add_0_r. split; [reflexivity|lia]. Qed.
  Lemma paid_fail {A} e : @paid A (fail e) (fail e).
  Proof. intros s n Hi. cbn. split; [exact Hi|]. exists 0%nat. rewrite Nat.add_0_r. split; [reflexivity|lia]. Qed.
  Lemma paid_crash {A} p : @paid A (crash p) (crash p).
  Proof. intros s n Hi. cbn. split; [exact Hi|]. exists 0%nat. rewrite Nat.add_0_r. split; [reflexivity|lia]. Qed.
  Lemma paid_bind {A B} (m1 : M S A) m2 (f1 : A -> M S B) f2 : paid m1 m2 -> (forall a, paid (f1 a) (f2 a)) -> paid (bind m1 f1) (bind m2 f2).
  Proof.
    intros Hm Hf s n Hi. specialize (Hm s n Hi). unfold bind. destruct (m1 s) as [s1 [a|e|p]]; destruct Hm as (Hi1 & k & -> & Hk); cbn [slack] in *.
    - specialize (Hf a s1 (n + k)%nat Hi1). destruct (f1 a s1) as [s2 o]. destruct Hf as (Hi2 & k2 & -> & Hk2). split; [exact Hi2|].
      exists (k + k2)%nat. rewrite Nat.add_assoc. split; [reflexivity|lia].
    - split; [exact Hi1|]. exists k. auto.
    - split; [exact Hi1|]. exists k. auto.
  Qed.
  Lemma paid_repeat n m1 m2 : paid m1 m2 -> paid (repeatM n m1) (repeatM n m2).
  Proof. intros H. induction n as [|n IH]; cbn [repeatM]; [apply paid_ret|]. apply paid_bind; [exact H|intros _; exact IH]. Qed.
  Lemma paid_discard {A} (m1 : M S A) m2 : paid m1 m2 -> paid (discard m1) (discard m2).
  Proof. intros H. apply paid_bind; [exact H|intros _; apply paid_ret]. Qed.

  Lemma paid_byte : paid (in_read_byte I) (in_read_byte J).
  Proof. apply paid_tick. exact Hbyte. Qed.
  Lemma paid_double : paid (in_read_double I) (in_read_double J).
  Proof. apply paid_tick. exact Hdouble. Qed.
  Lemma paid_binary : paid (in_read_binary I) (in_read_binary J).
  Proof. apply paid_tick. exact Hbinary. Qed.
  Lemma paid_int : paid (in_skip_integer I) (in_skip_integer J).
  Proof. apply paid_tick. exact Hint. Qed.
  Lemma paid_bin : paid (in_skip_binary I) (in_skip_binary J).
  Proof. apply paid_tick. exact Hbin. Qed.

  Lemma paid_uleb : paid (decode_uleb c (in_read_byte I) (in_left I)) (decode_uleb c (in_read_byte J) (in_left J)).
  Proof.
    assert (G : forall fuel shift value, paid (decode_uleb_loop c (in_read_byte I) fuel shift value) (decode_uleb_loop c (in_read_byte J) fuel shift value)).
    { induction fuel as [|fuel IH]; intros shift value; cbn [decode_uleb_loop]; [apply paid_crash|].
      apply paid_bind; [apply paid_byte|]. intros b. cbv zeta. destruct (overflow_checks c && (2 ^ 32 <=? shift + 7)); [apply paid_crash|].
      destruct (Z.land b 128 =? 0); [apply paid_ret|]. apply IH. }
    intros s n Hi. exact (G (Datatypes.S (left s)) 0 0 s n Hi).
  Qed.
  Lemma paid_len : paid (read_len_with c (in_read_byte I) (in_left I)) (read_len_with c (in_read_byte J) (in_left J)).
  Proof. apply paid_bind; [apply paid_uleb|]. intros; apply paid_ret. Qed.
  Lemma paid_i16 : paid (read_i16 c I) (read_i16 c J).
  Proof. apply paid_bind; [apply paid_uleb|]. intros; apply paid_ret. Qed.
  Lemma paid_i32 : paid (read_i32 c I) (read_i32 c J).
  Proof. apply paid_bind; [apply paid_uleb|]. intros; apply paid_ret. Qed.
  Lemma paid_i64 : paid (read_i64 c I) (read_i64 c J).
  Proof. apply paid_bind; [apply paid_uleb|]. intros; apply paid_ret. Qed.
  Lemma paid_string : paid (read_string I) (read_string J).
  Proof. apply paid_bind; [apply paid_binary|]. intros l. destruct (utf8_valid l); [apply paid_ret|apply paid_fail]. Qed.
  Lemma paid_header last : paid (read_field_header c I last) (read_field_header c J last).
  Proof.
    apply paid_bind; [apply paid_byte|]. intros b. cbv zeta. destruct (b =? 0); [apply paid_ret|].
    destruct (negb (Z.shiftr b 4 =? 0)).
    - destruct (overflow_checks c && _); [apply paid_crash|apply paid_ret].
    - apply paid_bind; [apply paid_bind; [apply paid_uleb|]; intros; apply paid_ret|]. intros; apply paid_ret.
  Qed.
  Lemma paid_collection : paid (read_collection_len_and_type c I) (read_collection_len_and_type c J).
  Proof.
    apply paid_bind; [apply paid_byte|]. intros b. cbv zeta. apply paid_bind.
    - destruct (negb _); [apply paid_ret|apply paid_len].
    - intros n. destruct (MAX_COLLECTION_LEN <? n); [apply paid_fail|apply paid_ret].
  Qed.
  Lemma paid_map : paid (read_map_len_and_types c I) (read_map_len_and_types c J).
  Proof.
    apply paid_bind; [apply paid_len|]. intros n. destruct (n =? 0); [apply paid_ret|].
    apply paid_bind; [apply paid_byte|]. intros b. cbv zeta. destruct (MAX_COLLECTION_LEN <? n); [apply paid_fail|apply paid_ret].
  Qed.
  Lemma paid_skip d :
    (forall ft e, paid (skip_field c I d ft e) (skip_field c J d ft e)) /\
    paid (skip_collection c I d) (skip_collection c J d) /\ paid (skip_map c I d) (skip_map c J d).
  Proof.
    induction d as [|d (IHf & IHc & IHm)]; [split; [intros ft e|split]; apply paid_crash|]. split; [|split].
    - intros ft e. cbn [skip_field].
      destruct ((1 <=? ft) && (ft <=? 2)); [destruct e; [apply paid_discard, paid_byte|apply paid_ret]|].
      destruct (ft =? 3); [apply paid_discard, paid_byte|].
      destruct ((4 <=? ft) && (ft <=? 6)); [apply paid_int|].
      destruct (ft =? 7); [apply paid_discard, paid_double|].
      destruct (ft =? 8); [apply paid_bin|].
      destruct ((ft =? 9) || (ft =? 10)); [exact IHc|].
      destruct (ft =? 11); [exact IHm|].
      destruct (ft =? 12); [|apply paid_fail].
      assert (G : forall fuel last, paid (skip_struct_loop c I (fun ft => skip_field c I d ft false) fuel last) (skip_struct_loop c J (fun ft => skip_field c J d ft false) fuel last)).
      { induction fuel as [|fuel IH]; intros last; cbn [skip_struct_loop]; [apply paid_crash|].
        apply paid_bind; [apply paid_header|]. intros [ft' last']. destruct (ft' =? 0); [apply paid_ret|].
        apply paid_bind; [apply IHf|]. intros _. apply IH. }
      intros s n Hi. exact (G (Datatypes.S (left s)) 0 s n Hi).
    - cbn [skip_collection]. apply paid_bind; [apply paid_collection|]. intros [n et]. cbv zeta.
      destruct ((1 <=? et) && (et <=? 3)); [apply paid_repeat, paid_discard, paid_byte|].
      destruct ((4 <=? et) && (et <=? 6)); [apply paid_repeat, paid_int|].
      destruct (et =? 7); [apply paid_repeat, paid_discard, paid_double|].
      destruct (et =? 8); [apply paid_repeat, paid_bin|].
      destruct ((et =? 9) || (et =? 10)); [apply paid_repeat, IHc|].
      destruct (et =? 11); [apply paid_repeat, IHm|].
      destruct (et =? 12); [apply paid_repeat, IHf|apply paid_fail].
    - cbn [skip_map]. apply paid_bind; [apply paid_map|]. intros [[n kt] vt]. apply paid_repeat. apply paid_bind; [apply IHf|intros _; apply IHf].
  Qed.
  Lemma paid_encset : paid (encset_read c I) (encset_read c J).
  Proof.
    apply paid_bind; [apply paid_collection|]. intros [n et]. destruct (negb (et =? 5)); [apply paid_fail|].
    assert (G : forall k mask, paid (encset_read_loop c I k mask) (encset_read_loop c J k mask)).
    { induction k as [|k IH]; intros mask; cbn [encset_read_loop]; [apply paid_ret|].
      apply paid_bind; [apply paid_i32|]. intros z. destruct ((z <? 0) || (31 <=? z)); [apply paid_fail|]. apply IH. }
    apply G.
  Qed.

  (** The same for calls with a value *)
  Definition paidF {V} (f1 : S -> S * V * outcome unit) (f2 : S * nat -> (S * nat) * V * outcome unit) : Prop := forall s n, inv s ->
    match f1 s with
    | (s', w, o) => inv s' /\ exists k, f2 (s, n) = ((s', (n + k)%nat), w, o) /\ (k + left s' <= left s + slack o)%nat
    end.
  Lemma paidF_stay {V} (w : V) o : paidF (fun s => (s, w, o)) (fun s => (s, w, o)).
  Proof. intros s n Hi. split; [exact Hi|]. exists 0%nat. rewrite Nat.add_0_r. split; [reflexivity|lia]. Qed.
  Lemma paidF_assign {A} (m1 : M S A) m2 k v : paid m1 m2 -> paidF (assign m1 k v) (assign m2 k v).
  Proof.
    intros H s n Hi. specialize (H s n Hi). unfold assign. destruct (m1 s) as [s1 [a|e|p]]; destruct H as (Hi1 & j & -> & Hk);
      (split; [exact Hi1|]; exists j; auto).
  Qed.
  Lemma paidF_wrap (g : value -> value) (f1 : S -> S * value * outcome unit) f2 : paidF f1 f2 ->
    paidF (fun s => match f1 s with (s', w, o) => (s', g w, o) end) (fun s => match f2 s with (s', w, o) => (s', g w, o) end).
  Proof.
    intros H s n Hi. specialize (H s n Hi). destruct (f1 s) as [[s1 w] o]. destruct H as (Hi1 & j & -> & Hk). split; [exact Hi1|]. exists j. auto.
  Qed.
  Lemma paidF_if {V} (b : bool) (f1 g1 : S -> S * V * outcome unit) f2 g2 : paidF f1 f2 -> paidF g1 g2 ->
    paidF (fun s => if b then f1 s else g1 s) (fun s => if b then f2 s else g2 s).
  Proof. intros H1 H2. destruct b; assumption. Qed.
  (** Read something first; on failure the value stays *)
  Lemma paidF_then {A} (m1 : M S A) m2 v (f1 : A -> S -> S * value * outcome unit) f2 : paid m1 m2 -> (forall a, paidF (f1 a) (f2 a)) ->
    paidF (fun s => match m1 s with (s1, Err e) => (s1, v, Err e) | (s1, Panic p) => (s1, v, Panic p) | (s1, Ok a) => f1 a s1 end)
          (fun s => match m2 s with (s1, Err e) => (s1, v, Err e) | (s1, Panic p) => (s1, v, Panic p) | (s1, Ok a) => f2 a s1 end).
  Proof.
    intros Hm Hf s n Hi. specialize (Hm s n Hi). destruct (m1 s) as [s1 [a|e|p]]; destruct Hm as (Hi1 & k & -> & Hk); cbn [slack] in *.
    - specialize (Hf a s1 (n + k)%nat Hi1). destruct (f1 a s1) as [[s2 w] o]. destruct Hf as (Hi2 & k2 & -> & Hk2). split; [exact Hi2|].
      exists (k + k2)%nat. rewrite Nat.add_assoc. split; [reflexivity|lia].
    - split; [exact Hi1|]. exists k. auto.
    - split; [exact Hi1|]. exists k. auto.
  Qed.

  Lemma paid_vec dv f1 f2 : (forall v, paidF (f1 v) (f2 v)) -> forall n, paidF (vec_loop dv f1 n) (vec_loop dv f2 n).
  Proof.
    intros Hf n. induction n as [|n IH]; cbn [vec_loop]; [apply paidF_stay|]. destruct dv as [dv|]; [|apply paidF_stay].
    intros s m Hi. specialize (Hf dv s m Hi). destruct (f1 dv s) as [[s1 w] [u|e|p]]; destruct Hf as (Hi1 & k & -> & Hk); cbn [slack] in *.
    - specialize (IH s1 (m + k)%nat Hi1). destruct (vec_loop (Some dv) f1 n s1) as [[s2 vs] o]. destruct IH as (Hi2 & k2 & -> & Hk2). split; [exact Hi2|].
      exists (k + k2)%nat. rewrite Nat.add_assoc. split; [reflexivity|lia].
    - split; [exact Hi1|]. exists k. auto.
    - split; [exact Hi1|]. exists k. auto.
  Qed.
  Lemma paid_struct name fs ff1 ff2 sk1 sk2 : (forall t ft v, paidF (ff1 t ft v) (ff2 t ft v)) -> (forall ft, paid (sk1 ft) (sk2 ft)) ->
    forall fuel last flags vs, paidF (struct_loop c I name fs ff1 sk1 fuel last flags vs) (struct_loop c J name fs ff2 sk2 fuel last flags vs).
  Proof.
    intros Hff Hsk. induction fuel as [|fuel IH]; intros last flags vs s n Hi; cbn [struct_loop]; [exact (paidF_stay vs _ s n Hi)|].
    pose proof (paid_header last s n Hi) as Hh. destruct (read_field_header c I last s) as [s1 [[ft last']|e|p]]; destruct Hh as (Hi1 & k & -> & Hk); cbn [slack] in *;
      [|split; [exact Hi1|]; exists k; auto|split; [exact Hi1|]; exists k; auto].
    destruct (ft =? 0).
    { destruct (first_missing fs flags); (split; [exact Hi1|]); exists k; (split; [reflexivity|cbn [slack]; lia]). }
    destruct (find_field fs last') as [[i f]|].
    - destruct (nth_error vs i) as [v|]; [|split; [exact Hi1|]; exists k; split; [reflexivity|cbn [slack]; lia]].
      specialize (Hff (field_ty f) ft v s1 (n + k)%nat Hi1). destruct (ff1 (field_ty f) ft v s1) as [[s2 w] [u|e|p]]; destruct Hff as (Hi2 & k2 & -> & Hk2); cbn [slack] in *.
      + specialize (IH last' (set_nth flags i true) (set_nth vs i w) s2 (n + k + k2)%nat Hi2).
        destruct (struct_loop _ _ _ _ _ _ _ _ _ _ s2) as [[s3 vs'] o]. destruct IH as (Hi3 & k3 & -> & Hk3). split; [exact Hi3|].
        exists (k + k2 + k3)%nat. rewrite !Nat.add_assoc. split; [reflexivity|lia].
      + split; [exact Hi2|]. exists (k + k2)%nat. rewrite Nat.add_assoc. split; [reflexivity|lia].
      + split; [exact Hi2|]. exists (k + k2)%nat. rewrite Nat.add_assoc. split; [reflexivity|lia].
    - specialize (Hsk ft s1 (n + k)%nat Hi1). destruct (sk1 ft s1) as [s2 [u|e|p]]; destruct Hsk as (Hi2 & k2 & -> & Hk2); cbn [slack] in *.
      + specialize (IH last' flags vs s2 (n + k + k2)%nat Hi2).
        destruct (struct_loop _ _ _ _ _ _ _ _ _ _ s2) as [[s3 vs'] o]. destruct IH as (Hi3 & k3 & -> & Hk3). split; [exact Hi3|].
        exists (k + k2 + k3)%nat. rewrite !Nat.add_assoc. split; [reflexivity|lia].
      + split; [exact Hi2|]. exists (k + k2)%nat. rewrite Nat.add_assoc. split; [reflexivity|lia].
      + split; [exact Hi2|]. exists (k + k2)%nat. rewrite Nat.add_assoc. split; [reflexivity|lia].
  Qed.

  Variable E : env.
  Lemma paid_fill d :
    (forall t v, paidF (fill c I E d t v) (fill c J E d t v)) /\ (forall t ft v, paidF (fill_field c I E d t ft v) (fill_field c J E d t ft v)).
  Proof.
    induction d as [|d [IHf IHff]]; [split; [intros t v|intros t ft v]; apply paidF_stay|]. split.
    - intros t v. cbn [fill]. destruct t.
      + apply paidF_assign, paid_byte.
      + apply paidF_assign, paid_byte.
      + apply paidF_assign, paid_i16.
      + apply paidF_assign, paid_i32.
      + apply paidF_assign, paid_i64.
      + apply paidF_assign, paid_double.
      + apply paidF_assign, paid_binary.
      + apply paidF_assign, paid_string.
      + intros s n Hi. pose proof (paid_collection s n Hi) as Hh.
        destruct (read_collection_len_and_type c I s) as [s1 [[len et]|e|p]]; destruct Hh as (Hi1 & k & -> & Hk); cbn [slack] in *;
          [|split; [exact Hi1|]; exists k; auto|split; [exact Hi1|]; exists k; auto].
        destruct (negb (et =? field_type E t) && negb ((field_type E t =? 2) && (et =? 1))); [split; [exact Hi1|]; exists k; split; [reflexivity|cbn [slack]; lia]|].
        destruct (negb (reserve c len)); [split; [exact Hi1|]; exists k; split; [reflexivity|cbn [slack]; lia]|].
        pose proof (paid_vec (default E d t) (fill c I E d t) (fill c J E d t) (IHf t) (Z.to_nat len) s1 (n + k)%nat Hi1) as Hv.
        destruct (vec_loop (default E d t) (fill c I E d t) (Z.to_nat len) s1) as [[s2 vs] o]. destruct Hv as (Hi2 & k2 & -> & Hk2).
        split; [exact Hi2|]. exists (k + k2)%nat. rewrite Nat.add_assoc. split; [reflexivity|lia].
      + assert (G : paidF (fun s => match default E d t with None => (s, v, Panic PStack)
                     | Some dv => match fill c I E d t dv s with (s', v', o) => (s', VSome v', o) end end)
                   (fun s => match default E d t with None => (s, v, Panic PStack)
                     | Some dv => match fill c J E d t dv s with (s', v', o) => (s', VSome v', o) end end)).
        { destruct (default E d t) as [dv|]; [|apply paidF_stay]. exact (paidF_wrap VSome _ _ (IHf t dv)). }
        destruct v; try exact G. apply paidF_stay.
      + destruct v; try apply paidF_stay. exact (paidF_wrap VBox _ _ (IHf t v)).
      + destruct v; try apply paidF_stay. destruct unique; [|apply paidF_stay]. exact (paidF_wrap (VShared true) _ _ (IHf t v)).
      + apply paidF_assign, paid_encset.
      + destruct (lookup E name) as [[fs|fs|]|].
        * destruct v; try apply paidF_stay. intros s n Hi.
          pose proof (paid_struct name fs (fun t' ft w s' => fill_field c I E d t' ft w s') (fun t' ft w s' => fill_field c J E d t' ft w s')
            (fun ft => skip_field c I d ft false) (fun ft => skip_field c J d ft false) IHff (fun ft => proj1 (paid_skip d) ft false)
            (Datatypes.S (left s)) 0 (map (fun _ => false) fs) vs s n Hi) as Hs.
          destruct (struct_loop _ _ _ _ _ _ _ _ _ _ s) as [[s2 vs'] o]. destruct Hs as (Hi2 & k2 & Heq & Hk2). split; [exact Hi2|].
          exists k2. split; [|exact Hk2].
          exact (f_equal (fun x : (S * nat) * list value * outcome unit => match x with (s', vs', o) => (s', VStruct vs', o) end) Heq).
        * intros s n Hi. pose proof (paid_header 0 s n Hi) as Hh.
          destruct (read_field_header c I 0 s) as [s1 [[ft last']|e|p]]; destruct Hh as (Hi1 & k & -> & Hk); cbn [slack] in *;
            [|split; [exact Hi1|]; exists k; auto|split; [exact Hi1|]; exists k; auto].
          destruct (ft =? 0); [split; [exact Hi1|]; exists k; split; [reflexivity|cbn [slack]; lia]|].
          destruct (find_field fs last') as [[i f]|]; [|split; [exact Hi1|]; exists k; split; [reflexivity|cbn [slack]; lia]].
          destruct (default E d (f_ty f)) as [dv|]; [|split; [exact Hi1|]; exists k; split; [reflexivity|cbn [slack]; lia]].
          specialize (IHf (f_ty f) dv s1 (n + k)%nat Hi1). destruct (fill c I E d (f_ty f) dv s1) as [[s2 w] [u|e|p]]; destruct IHf as (Hi2 & k2 & -> & Hk2); cbn [slack] in *.
          -- pose proof (paid_byte s2 (n + k + k2)%nat Hi2) as Hb. destruct (in_read_byte I s2) as [s3 [b|e|p]]; destruct Hb as (Hi3 & k3 & -> & Hk3); cbn [slack failed] in *;
               (split; [exact Hi3|]; exists (k + k2 + k3)%nat; rewrite !Nat.add_assoc; split; [reflexivity|]); try lia;
               destruct (b =? 0); cbn [slack]; lia.
          -- split; [exact Hi2|]. exists (k + k2)%nat. rewrite Nat.add_assoc. split; [reflexivity|lia].
          -- split; [exact Hi2|]. exists (k + k2)%nat. rewrite Nat.add_assoc. split; [reflexivity|lia].
        * apply paidF_assign, paid_i32.
        * apply paidF_stay.
    - intros t ft v. cbn [fill_field].
      assert (Hother : paidF (fun s => if negb (ft =? field_type E t) then (s, v, Err InvalidType) else fill c I E d t v s)
                             (fun s => if negb (ft =? field_type E t) then (s, v, Err InvalidType) else fill c J E d t v s)).
      { destruct (negb (ft =? field_type E t)); [apply paidF_stay|apply IHf]. }
      destruct t; try exact Hother; clear Hother; [apply paidF_stay|].
      assert (G : paidF (fun s => match default E d t with None => (s, v, Panic PStack)
                   | Some dv => match fill_field c I E d t ft dv s with (s', v', o) => (s', VSome v', o) end end)
                 (fun s => match default E d t with None => (s, v, Panic PStack)
                   | Some dv => match fill_field c J E d t ft dv s with (s', v', o) => (s', VSome v', o) end end)).
      { destruct (default E d t) as [dv|]; [|apply paidF_stay]. exact (paidF_wrap VSome _ _ (IHff t ft dv)). }
      destruct v; try exact G. apply paidF_stay.
  Qed.

  (** * Progress in every iteration *)
  Lemma paid_forward {A} (m1 : M S A) m2 s s' a : paid m1 m2 -> inv s -> m1 s = (s', Ok a) -> inv s' /\ (left s' <= left s)%nat.
  Proof. intros H Hi Hm. specialize (H s 0%nat Hi). rewrite Hm in H. destruct H as (H1 & k & _ & H2). cbn [slack] in H2. split; [exact H1|lia]. Qed.
  Lemma byte_first {A} (f1 : Z -> M S A) s s' a : (forall b, exists m2, paid (f1 b) m2) -> inv s -> bind (in_read_byte I) f1 s = (s', Ok a) -> (left s' < left s)%nat.
  Proof.
    intros Hf Hi H. unfold bind in H. destruct (Hbyte s Hi) as [H1 H2]. destruct (in_read_byte I s) as [s1 [b|e|p]]; cbn [fst snd] in *; try discriminate.
    destruct (Hf b) as [m2 Hm2]. destruct (paid_forward _ _ _ _ _ Hm2 H1 H). lia.
  Qed.
  Lemma uleb_first s s' a : inv s -> decode_uleb c (in_read_byte I) (in_left I) s = (s', Ok a) -> (left s' < left s)%nat.
  Proof.
    intros Hi H. unfold decode_uleb in H. cbn [decode_uleb_loop] in H.
    assert (G : forall fuel shift value, paid (decode_uleb_loop c (in_read_byte I) fuel shift value) (decode_uleb_loop c (in_read_byte J) fuel shift value)).
    { induction fuel as [|fuel IH]; intros shift value; cbn [decode_uleb_loop]; [apply paid_crash|].
      apply paid_bind; [apply paid_byte|]. intros b'. cbv zeta. destruct (overflow_checks c && (2 ^ 32 <=? shift + 7)); [apply paid_crash|].
      destruct (Z.land b' 128 =? 0); [apply paid_ret|]. apply IH. }
    eapply byte_first; [|exact Hi|exact H]. intros b. cbv beta zeta. destruct (overflow_checks c && (2 ^ 32 <=? 0 + 7)); [eexists; apply paid_crash|].
    destruct (Z.land b 128 =? 0); [eexists; apply paid_ret|]. eexists. apply G.
  Qed.
  Lemma bind_first {A B} (m : M S A) (f1 : A -> M S B) f2 s s' b :
    (forall s s' a, inv s -> m s = (s', Ok a) -> inv s' /\ (left s' < left s)%nat) -> (forall a, paid (f1 a) (f2 a)) -> inv s -> bind m f1 s = (s', Ok b) -> (left s' < left s)%nat.
  Proof.
    intros Hm Hf Hi H. unfold bind in H. specialize (Hm s). destruct (m s) as [s1 [a|e|p]]; try discriminate.
    destruct (Hm s1 a Hi eq_refl) as [H1 H2]. destruct (paid_forward _ _ _ _ _ (Hf a) H1 H). lia.
  Qed.
  Lemma spends_ok {A} (m : M S A) s s' a : spends m -> inv s -> m s = (s', Ok a) -> inv s' /\ (left s' < left s)%nat.
  Proof. intros H Hi Hm. specialize (H s Hi). rewrite Hm in H. exact H. Qed.
  Lemma discard_first {A} (m : M S A) s s' u : spends m -> inv s -> discard m s = (s', Ok u) -> (left s' < left s)%nat.
  Proof.
    intros H Hi Hm. eapply (bind_first m (fun _ => ret tt) (fun _ => ret tt)); [|intros; apply paid_ret|exact Hi|exact Hm].
    intros s0 s1 a Hi0 H0. exact (spends_ok m s0 s1 a H Hi0 H0).
  Qed.
  Lemma len_first s s' a : inv s -> read_len_with c (in_read_byte I) (in_left I) s = (s', Ok a) -> (left s' < left s)%nat.
  Proof.
    intros Hi H. eapply bind_first with (f2 := fun b => _); [| |exact Hi|exact H]; [|intros a0; apply paid_ret].
    intros s0 s1 n H0 H1. split; [exact (proj1 (paid_forward _ _ _ _ _ paid_uleb H0 H1))|exact (uleb_first _ _ _ H0 H1)].
  Qed.
  Lemma collection_first s s' a : inv s -> read_collection_len_and_type c I s = (s', Ok a) -> (left s' < left s)%nat.
  Proof.
    intros Hi H. eapply byte_first; [|exact Hi|exact H]. intros b. cbv beta zeta.
    exists (bind (if negb (Z.shiftr (Z.land b 240) 4 =? 15) then ret (Z.shiftr (Z.land b 240) 4) else read_len c J)
              (fun n => if MAX_COLLECTION_LEN <? n then fail InvalidCollectionLen else ret (n, Z.land b 15))). apply paid_bind.
    - destruct (negb _); [apply paid_ret|apply paid_len].
    - intros n. destruct (MAX_COLLECTION_LEN <? n); [apply paid_fail|apply paid_ret].
  Qed.
  Lemma map_first s s' a : inv s -> read_map_len_and_types c I s = (s', Ok a) -> (left s' < left s)%nat.
  Proof.
    intros Hi H. unfold read_map_len_and_types, bind in H.
    destruct (read_len c I s) as [s1 [n|e|p]] eqn:Hl; try discriminate. pose proof (len_first _ _ _ Hi Hl) as H1.
    pose proof (proj1 (paid_forward _ _ _ _ _ paid_len Hi Hl)) as Hi1.
    destruct (n =? 0); [injection H as <- _; exact H1|].
    destruct (Hbyte s1 Hi1) as [H2 H3]. destruct (in_read_byte I s1) as [s2 [b|e|p]]; cbn [fst snd] in *; try discriminate. cbv zeta in H.
    destruct (MAX_COLLECTION_LEN <? n); [discriminate|]. injection H as <- _. lia.
  Qed.
  Lemma header_first last s s' a : inv s -> read_field_header c I last s = (s', Ok a) -> (left s' < left s)%nat.
  Proof.
    intros Hi H. unfold read_field_header, bind in H. destruct (Hbyte s Hi) as [H1 H2].
    destruct (in_read_byte I s) as [s1 [b|e|p]]; cbn [fst snd] in *; try discriminate. cbv zeta in H.
    destruct (b =? 0); [injection H as <- _; exact H2|]. destruct (negb (Z.shiftr b 4 =? 0)).
    - destruct (overflow_checks c && _); [discriminate|]. injection H as <- _. exact H2.
    - unfold read_full_field_id, bind in H. destruct (decode_uleb c (in_read_byte I) (in_left I) s1) as [s2 [n|e|p]] eqn:Hn; try discriminate.
      injection H as <- _. pose proof (uleb_first _ _ _ H1 Hn). lia.
  Qed.
  Lemma struct_first d ff last fuel s s' u : (forall ft, paid (ff ft) (skip_field c J d ft false)) -> inv s -> skip_struct_loop c I ff (Datatypes.S fuel) last s = (s', Ok u) -> (left s' < left s)%nat.
  Proof.
    intros Hff Hi H. cbn [skip_struct_loop] in H.
    assert (G : forall fuel last, paid (skip_struct_loop c I ff fuel last) (skip_struct_loop c J (fun ft => skip_field c J d ft false) fuel last)).
    { clear fuel last H. induction fuel as [|fuel IH]; intros last; cbn [skip_struct_loop]; [apply paid_crash|].
      apply paid_bind; [apply paid_header|]. intros [ft' last']. destruct (ft' =? 0); [apply paid_ret|].
      apply paid_bind; [apply Hff|]. intros _. apply IH. }
    unfold bind in H. destruct (read_field_header c I last s) as [s1 [[ft last']|e|p]] eqn:Hh; try discriminate.
    pose proof (header_first _ _ _ _ Hi Hh) as H1. pose proof (proj1 (paid_forward _ _ _ _ _ (paid_header last) Hi Hh)) as Hi1.
    destruct (ft =? 0); [injection H as <- _; exact H1|].
    destruct (ff ft s1) as [s2 [x|e|p]] eqn:Hs; try discriminate. destruct (paid_forward _ _ _ _ _ (Hff ft) Hi1 Hs) as [Hi2 H2].
    destruct (paid_forward _ _ _ _ _ (G fuel last') Hi2 H) as [_ H3]. lia.
  Qed.
  Lemma skip_first d :
    (forall ft s s' u, inv s -> skip_field c I d ft true s = (s', Ok u) -> (left s' < left s)%nat) /\
    (forall s s' u, inv s -> skip_collection c I d s = (s', Ok u) -> (left s' < left s)%nat) /\
    (forall s s' u, inv s -> skip_map c I d s = (s', Ok u) -> (left s' < left s)%nat) /\
    (forall e s s' u, inv s -> skip_field c I d 12 e s = (s', Ok u) -> (left s' < left s)%nat).
  Proof.
    destruct d as [|d]; [repeat split; intros; discriminate|].
    assert (Hcol : forall d s s' u, inv s -> skip_collection c I d s = (s', Ok u) -> (left s' < left s)%nat).
    { clear d. intros [|d] s s' u Hi H; [discriminate|]. cbn [skip_collection] in H. unfold bind in H at 1.
      destruct (read_collection_len_and_type c I s) as [s1 [[n et]|e|p]] eqn:Hc; try discriminate.
      pose proof (collection_first _ _ _ Hi Hc) as H1. pose proof (proj1 (paid_forward _ _ _ _ _ paid_collection Hi Hc)) as Hi1.
      destruct (paid_skip d) as (IHf & IHc & IHm).
      assert (G : exists m2, paid (if (1 <=? et) && (et <=? 3) then repeatM (Z.to_nat n) (discard (in_read_byte I))
        else if (4 <=? et) && (et <=? 6) then repeatM (Z.to_nat n) (in_skip_integer I)
        else if et =? 7 then repeatM (Z.to_nat n) (discard (in_read_double I))
        else if et =? 8 then repeatM (Z.to_nat n) (in_skip_binary I)
        else if (et =? 9) || (et =? 10) then repeatM (Z.to_nat n) (skip_collection c I d)
        else if et =? 11 then repeatM (Z.to_nat n) (skip_map c I d)
        else if et =? 12 then repeatM (Z.to_nat n) (skip_field c I d 12 false) else fail InvalidType) m2).
      { destruct ((1 <=? et) && (et <=? 3)); [eexists; apply paid_repeat, paid_discard, paid_byte|].
        destruct ((4 <=? et) && (et <=? 6)); [eexists; apply paid_repeat, paid_int|].
        destruct (et =? 7); [eexists; apply paid_repeat, paid_discard, paid_double|].
        destruct (et =? 8); [eexists; apply paid_repeat, paid_bin|].
        destruct ((et =? 9) || (et =? 10)); [eexists; apply paid_repeat, IHc|].
        destruct (et =? 11); [eexists; apply paid_repeat, IHm|].
        destruct (et =? 12); [eexists; apply paid_repeat, IHf|eexists; apply paid_fail]. }
      destruct G as [m2 G]. cbv beta zeta in H. destruct (paid_forward _ _ _ _ _ G Hi1 H). lia. }
    assert (Hmap : forall d s s' u, inv s -> skip_map c I d s = (s', Ok u) -> (left s' < left s)%nat).
    { clear d. intros [|d] s s' u Hi H; [discriminate|]. cbn [skip_map] in H. unfold bind in H at 1.
      destruct (read_map_len_and_types c I s) as [s1 [[[n kt] vt]|e|p]] eqn:Hc; try discriminate.
      pose proof (map_first _ _ _ Hi Hc) as H1. pose proof (proj1 (paid_forward _ _ _ _ _ paid_map Hi Hc)) as Hi1.
      destruct (paid_skip d) as (IHf & _ & _).
      destruct (paid_forward _ _ _ _ _ (paid_repeat (Z.to_nat n) _ _ (paid_bind _ _ _ (fun _ => skip_field c J d vt true) (IHf kt true) (fun _ => IHf vt true))) Hi1 H). lia. }
    assert (Hstr : forall e s s' u, inv s -> skip_field c I (Datatypes.S d) 12 e s = (s', Ok u) -> (left s' < left s)%nat).
    { intros e s s' u Hi H. cbn [skip_field] in H. change ((1 <=? 12) && (12 <=? 2)) with false in H. cbn [Z.eqb Z.leb andb orb Pos.eqb] in H. cbn in H.
      eapply (struct_first d); [|exact Hi|exact H]. intros ft. apply (proj1 (paid_skip d)). }
    split; [|split; [apply Hcol|split; [apply Hmap|exact Hstr]]].
    intros ft s s' u Hi H. destruct (ft =? 12) eqn:H12; [assert (ft = 12) as -> by lia; exact (Hstr _ _ _ _ Hi H)|].
    cbn [skip_field] in H.
    destruct ((1 <=? ft) && (ft <=? 2)); [exact (discard_first _ _ _ _ Hbyte Hi H)|].
    destruct (ft =? 3); [exact (discard_first _ _ _ _ Hbyte Hi H)|].
    destruct ((4 <=? ft) && (ft <=? 6)); [exact (proj2 (spends_ok _ _ _ _ Hint Hi H))|].
    destruct (ft =? 7); [exact (discard_first _ _ _ _ Hdouble Hi H)|].
    destruct (ft =? 8); [exact (proj2 (spends_ok _ _ _ _ Hbin Hi H))|].
    destruct ((ft =? 9) || (ft =? 10)); [exact (Hcol _ _ _ _ Hi H)|].
    destruct (ft =? 11); [exact (Hmap _ _ _ _ Hi H)|]. rewrite H12 in H. discriminate.
  Qed.
  Lemma repeat_first n m1 m2 k s s' u : paid m1 m2 -> (forall s s' u, inv s -> m1 s = (s', Ok u) -> (left s' + k <= left s)%nat) -> inv s ->
    repeatM n m1 s = (s', Ok u) -> (left s' + n * k <= left s)%nat.
  Proof.
    intros Hp Hm. revert s. induction n as [|n IH]; intros s Hi H; cbn [repeatM] in H; [injection H as <- _; lia|].
    unfold bind in H. destruct (m1 s) as [s1 [x|e|p]] eqn:H1; try discriminate.
    pose proof (Hm _ _ _ Hi H1). specialize (IH s1 (proj1 (paid_forward _ _ _ _ _ Hp Hi H1)) H). lia.
  Qed.
  Lemma skip_list_pays d s n et s1 s' u : inv s -> read_collection_len_and_type c I s = (s1, Ok (n, et)) -> skip_collection c I d s = (s', Ok u) ->
    (left s' + Z.to_nat n <= left s1)%nat.
  Proof.
    intros Hi Hc H. destruct d as [|d]; [discriminate|]. cbn [skip_collection] in H. unfold bind in H at 1. rewrite Hc in H. cbv beta zeta in H.
    pose proof (proj1 (paid_forward _ _ _ _ _ paid_collection Hi Hc)) as Hi1.
    destruct (paid_skip d) as (IHf & IHc & IHm). destruct (skip_first d) as (_ & Fc & Fm & Fs).
    assert (S1 : forall m : M S unit, spends m -> forall s s' u, inv s -> m s = (s', Ok u) -> (left s' + 1 <= left s)%nat).
    { intros m Hm s0 s2 u0 H0 H1. pose proof (spends_ok _ _ _ _ Hm H0 H1). lia. }
    assert (D1 : forall m : M S Z, spends m -> forall s s' u, inv s -> discard m s = (s', Ok u) -> (left s' + 1 <= left s)%nat).
    { intros m Hm s0 s2 u0 H0 H1. pose proof (discard_first _ _ _ _ Hm H0 H1). lia. }
    rewrite <- (Nat.mul_1_r (Z.to_nat n)).
    destruct ((1 <=? et) && (et <=? 3)); [eapply repeat_first; [exact (paid_discard _ _ paid_byte)|apply D1; exact Hbyte|exact Hi1|exact H]|].
    destruct ((4 <=? et) && (et <=? 6)); [eapply repeat_first; [apply paid_int|apply S1; exact Hint|exact Hi1|exact H]|].
    destruct (et =? 7); [eapply repeat_first; [exact (paid_discard _ _ paid_double)|apply D1; exact Hdouble|exact Hi1|exact H]|].
    destruct (et =? 8); [eapply repeat_first; [apply paid_bin|apply S1; exact Hbin|exact Hi1|exact H]|].
    destruct ((et =? 9) || (et =? 10)); [eapply repeat_first; [apply IHc|intros s0 s2 u0 H0 H1; pose proof (Fc _ _ _ H0 H1); lia|exact Hi1|exact H]|].
    destruct (et =? 11); [eapply repeat_first; [apply IHm|intros s0 s2 u0 H0 H1; pose proof (Fm _ _ _ H0 H1); lia|exact Hi1|exact H]|].
    destruct (et =? 12); [eapply repeat_first; [apply IHf|intros s0 s2 u0 H0 H1; pose proof (Fs _ _ _ _ H0 H1); lia|exact Hi1|exact H]|discriminate].
  Qed.
  Lemma skip_map_pays d s n kt vt s1 s' u : inv s -> read_map_len_and_types c I s = (s1, Ok (n, kt, vt)) -> skip_map c I d s = (s', Ok u) ->
    (left s' + 2 * Z.to_nat n <= left s1)%nat.
  Proof.
    intros Hi Hc H. destruct d as [|d]; [discriminate|]. cbn [skip_map] in H. unfold bind in H at 1. rewrite Hc in H.
    pose proof (proj1 (paid_forward _ _ _ _ _ paid_map Hi Hc)) as Hi1. destruct (paid_skip d) as (IHf & _ & _). destruct (skip_first d) as (F & _).
    rewrite (Nat.mul_comm 2). eapply repeat_first; [exact (paid_bind _ _ _ (fun _ => skip_field c J d vt true) (IHf kt true) (fun _ => IHf vt true))| |exact Hi1|exact H].
    intros s0 s2 u0 H0 H1. unfold bind in H1. destruct (skip_field c I d kt true s0) as [s3 [x|e|p]] eqn:H3; try discriminate.
    pose proof (F _ _ _ _ H0 H3). pose proof (F _ _ _ _ (proj1 (paid_forward _ _ _ _ _ (IHf kt true) H0 H3)) H1). lia.
  Qed.
  Lemma struct_loop_first name fs ff1 ff2 sk1 sk2 : (forall t ft v, paidF (ff1 t ft v) (ff2 t ft v)) -> (forall ft, paid (sk1 ft) (sk2 ft)) ->
    forall fuel last flags vs s s' vs' u, inv s -> struct_loop c I name fs ff1 sk1 fuel last flags vs s = (s', vs', Ok u) -> (left s' < left s)%nat.
  Proof.
    intros Hff Hsk. induction fuel as [|fuel IH]; intros last flags vs s s' vs' u Hi H; cbn [struct_loop] in H; [discriminate|].
    destruct (read_field_header c I last s) as [s1 [[ft last']|e|p]] eqn:Hn; try discriminate.
    pose proof (header_first _ _ _ _ Hi Hn) as H1. pose proof (proj1 (paid_forward _ _ _ _ _ (paid_header last) Hi Hn)) as Hi1.
    destruct (ft =? 0). { destruct (first_missing fs flags); [discriminate|]. injection H as <- _ _. exact H1. }
    destruct (find_field fs last') as [[i f]|].
    - destruct (nth_error vs i) as [v|]; [|discriminate].
      specialize (Hff (field_ty f) ft v s1 0%nat Hi1). destruct (ff1 (field_ty f) ft v s1) as [[s2 w] [x|e|p]]; try discriminate.
      destruct Hff as (Hi2 & k & _ & Hk). cbn [slack] in Hk. specialize (IH _ _ _ _ _ _ _ Hi2 H). lia.
    - destruct (sk1 ft s1) as [s2 [x|e|p]] eqn:Hs; try discriminate. destruct (paid_forward _ _ _ _ _ (Hsk ft) Hi1 Hs) as [Hi2 H2].
      specialize (IH _ _ _ _ _ _ _ Hi2 H). lia.
  Qed.
  Lemma fill_first d : forall t v s s' v' u, inv s -> fill c I E d t v s = (s', v', Ok u) -> (left s' < left s)%nat.
  Proof.
    assert (As : forall A (m : M S A) k v s s' v' u, assign m k v s = (s', v', Ok u) -> exists a, m s = (s', Ok a)).
    { intros A m k v s s' v' u H. unfold assign in H. destruct (m s) as [s1 [a|e|p]]; try discriminate. injection H as <- _ _. eauto. }
    induction d as [|d IH]; intros t v s s' v' u Hi H; [discriminate|]. cbn [fill] in H. destruct t.
    - apply As in H as [a H]. exact (proj2 (spends_ok _ _ _ _ Hbyte Hi H)).
    - apply As in H as [a H]. exact (proj2 (spends_ok _ _ _ _ Hbyte Hi H)).
    - apply As in H as [a H]. unfold read_i16, bind in H. destruct (decode_uleb c (in_read_byte I) (in_left I) s) as [s1 [n|e|p]] eqn:Hn; try discriminate. injection H as <- _. exact (uleb_first _ _ _ Hi Hn).
    - apply As in H as [a H]. unfold read_i32, bind in H. destruct (decode_uleb c (in_read_byte I) (in_left I) s) as [s1 [n|e|p]] eqn:Hn; try discriminate. injection H as <- _. exact (uleb_first _ _ _ Hi Hn).
    - apply As in H as [a H]. unfold read_i64, bind in H. destruct (decode_uleb c (in_read_byte I) (in_left I) s) as [s1 [n|e|p]] eqn:Hn; try discriminate. injection H as <- _. exact (uleb_first _ _ _ Hi Hn).
    - apply As in H as [a H]. exact (proj2 (spends_ok _ _ _ _ Hdouble Hi H)).
    - apply As in H as [a H]. exact (proj2 (spends_ok _ _ _ _ Hbinary Hi H)).
    - apply As in H as [a H]. unfold read_string, bind in H. destruct (in_read_binary I s) as [s1 [l|e|p]] eqn:Hn; try discriminate.
      destruct (utf8_valid l); [|discriminate]. injection H as <- _. exact (proj2 (spends_ok _ _ _ _ Hbinary Hi Hn)).
    - destruct (read_collection_len_and_type c I s) as [s1 [[len et]|e|p]] eqn:Hn; try discriminate.
      pose proof (collection_first _ _ _ Hi Hn) as H1. pose proof (proj1 (paid_forward _ _ _ _ _ paid_collection Hi Hn)) as Hi1.
      destruct (negb (et =? field_type E t) && _); [discriminate|]. destruct (negb (reserve c len)); [discriminate|].
      pose proof (paid_vec (default E d t) _ _ (proj1 (paid_fill d) t) (Z.to_nat len) s1 0%nat Hi1) as Hv.
      destruct (vec_loop (default E d t) (fill c I E d t) (Z.to_nat len) s1) as [[s2 vs] o]. injection H as <- _ ->.
      destruct Hv as (_ & k & _ & Hk). cbn [slack] in Hk. lia.
    - assert (G : exists dv w, fill c I E d t dv s = (s', w, Ok u)).
      { destruct v; try discriminate; (destruct (default E d t) as [dv|]; [|discriminate]); exists dv;
          (destruct (fill c I E d t dv s) as [[s1 w] o]; injection H as <- _ ->; eauto). }
      destruct G as (dv & w & G). exact (IH _ _ _ _ _ _ Hi G).
    - destruct v; try discriminate. destruct (fill c I E d t v s) as [[s1 w] o] eqn:G. injection H as <- _ ->. exact (IH _ _ _ _ _ _ Hi G).
    - destruct v; try discriminate. destruct unique; [|discriminate]. destruct (fill c I E d t v s) as [[s1 w] o] eqn:G. injection H as <- _ ->. exact (IH _ _ _ _ _ _ Hi G).
    - apply As in H as [a H]. unfold encset_read, bind in H. destruct (read_collection_len_and_type c I s) as [s1 [[len et]|e|p]] eqn:Hn; try discriminate.
      pose proof (collection_first _ _ _ Hi Hn) as H1. pose proof (proj1 (paid_forward _ _ _ _ _ paid_collection Hi Hn)) as Hi1.
      destruct (negb (et =? 5)); [discriminate|].
      assert (G : forall k mask, paid (encset_read_loop c I k mask) (encset_read_loop c J k mask)).
      { induction k as [|k IHk]; intros mask; cbn [encset_read_loop]; [apply paid_ret|].
        apply paid_bind; [apply paid_i32|]. intros z. destruct ((z <? 0) || (31 <=? z)); [apply paid_fail|]. apply IHk. }
      destruct (paid_forward _ _ _ _ _ (G _ _) Hi1 H). lia.
    - destruct (lookup E name) as [[fs|fs|]|].
      + destruct v; try discriminate.
        destruct (struct_loop _ _ _ _ _ _ _ _ _ _ s) as [[s2 vs'] o] eqn:G. injection H as <- _ ->.
        exact (struct_loop_first name fs _ _ _ _ (proj2 (paid_fill d)) (fun ft => proj1 (paid_skip d) ft false) _ _ _ _ _ _ _ _ Hi G).
      + destruct (read_field_header c I 0 s) as [s1 [[ft last]|e|p]] eqn:Hn; try discriminate.
        pose proof (header_first _ _ _ _ Hi Hn) as H1. pose proof (proj1 (paid_forward _ _ _ _ _ (paid_header 0) Hi Hn)) as Hi1.
        destruct (ft =? 0); [discriminate|]. destruct (find_field fs last) as [[i f]|]; [|discriminate].
        destruct (default E d (f_ty f)) as [dv|]; [|discriminate]. pose proof (proj1 (paid_fill d) (f_ty f) dv s1 0%nat Hi1) as Hf.
        destruct (fill c I E d (f_ty f) dv s1) as [[s2 w2] [x|e|p]]; try discriminate. destruct Hf as (Hi2 & k & _ & Hk). cbn [slack] in Hk.
        destruct (Hbyte s2 Hi2) as [_ H3]. destruct (in_read_byte I s2) as [s3 [b|e|p]]; cbn [fst snd failed] in *; try discriminate.
        injection H as <- _ _. lia.
      + apply As in H as [a H]. unfold read_i32, bind in H. destruct (decode_uleb c (in_read_byte I) (in_left I) s) as [s1 [n|e|p]] eqn:Hn; try discriminate. injection H as <- _. exact (uleb_first _ _ _ Hi Hn).
      + discriminate.
  Qed.
  Lemma list_pays d t v s s' vs u : inv s -> fill c I E d (TVec t) v s = (s', VVec vs, Ok u) -> (left s' + List.length vs < left s)%nat.
  Proof.
    intros Hi H. destruct d as [|d]; [discriminate|]. cbn [fill] in H.
    destruct (read_collection_len_and_type c I s) as [s1 [[len et]|e|p]] eqn:Hn; try discriminate.
    pose proof (collection_first _ _ _ Hi Hn) as H1. pose proof (proj1 (paid_forward _ _ _ _ _ paid_collection Hi Hn)) as Hi1.
    destruct (negb (et =? field_type E t) && _); [discriminate|]. destruct (negb (reserve c len)); [discriminate|].
    assert (G : forall n s s' vs u, inv s -> vec_loop (default E d t) (fill c I E d t) n s = (s', vs, Ok u) -> (left s' + List.length vs <= left s)%nat).
    { clear - Hbyte Hdouble Hbinary Hint Hbin. induction n as [|n IH]; intros s s' vs u Hi H; cbn [vec_loop] in H; [injection H as <- <- _; cbn; lia|].
      destruct (default E d t) as [dv|]; [|discriminate]. pose proof (proj1 (paid_fill d) t dv s 0%nat Hi) as Hf.
      destruct (fill c I E d t dv s) as [[s1 w] [x|e|p]] eqn:Hw; try discriminate. destruct Hf as (Hi1 & _).
      pose proof (fill_first d t dv s s1 w x Hi Hw).
      destruct (vec_loop (Some dv) (fill c I E d t) n s1) as [[s2 ws] o] eqn:Hv. injection H as <- <- ->.
      specialize (IH _ _ _ _ Hi1 Hv). cbn [List.length]. lia. }
    destruct (vec_loop (default E d t) (fill c I E d t) (Z.to_nat len) s1) as [[s2 ws] o] eqn:Hv. injection H as <- <- ->.
    specialize (G _ _ _ _ _ Hi1 Hv). lia.
  Qed.
End Work.

(** * The two inputs *)
Lemma tame_spends {S A} (I : input S) inv le okp (m : M S A) Q :
  order inv le (in_left I) -> (forall s, inv s -> tame le okp s m Q) -> (forall s s' a, inv s -> m s = (s', Ok a) -> (in_left I s' < in_left I s)%nat) -> spends I inv m.
Proof.
  intros O H Hl s Hi. specialize (H s Hi) as [H1 H2]. specialize (Hl s). destruct (m s) as [s' [a|e|p]]; cbn [fst snd] in *;
    (split; [exact (or_inv _ _ _ O _ _ H1 Hi)|]); [exact (Hl s' a Hi eq_refl)|exact (or_left _ _ _ O _ _ H1)|exact (or_left _ _ _ O _ _ H1)].
Qed.
Lemma tame_less {S A} (I : input S) inv le okp (m : M S A) :
  order inv le (in_left I) -> (forall s, inv s -> tame le okp s m (fun s' _ => (in_left I s' < in_left I s)%nat)) -> spends I inv m.
Proof.
  intros O H s Hi. specialize (H s Hi) as [H1 H2]. destruct (m s) as [s' [a|e|p]]; cbn [fst snd] in *;
    (split; [exact (or_inv _ _ _ O _ _ H1 Hi)|]); [exact H2|exact (or_left _ _ _ O _ _ H1)|exact (or_left _ _ _ O _ _ H1)].
Qed.
Section Slice.
  Variable c : cfg.
  Hypothesis Hc : cfg_ok c.
  Notation I := (slice_input c).
  Notation L := (slice_lawful c Hc _ (slice_panic_sane c)).
  Lemma slice_spends_byte : spends I bytes (in_read_byte I).
  Proof. apply (tame_less I bytes (@suffix Z) sane); [exact slice_order|]. intros s Hi. eapply tame_weaken; [apply (lw_byte _ _ _ _ _ L); exact Hi|]. cbn beta. intros s' a [_ H]. exact H. Qed.
  Lemma slice_spends_double : spends I bytes (in_read_double I).
  Proof. apply (tame_less I bytes (@suffix Z) sane); [exact slice_order|]. intros s Hi. exact (slice_double_left c Hc _ (slice_panic_sane c) s Hi). Qed.
  Lemma slice_spends_binary : spends I bytes (in_read_binary I).
  Proof.
    apply (tame_less I bytes (@suffix Z) sane); [exact slice_order|]. intros s Hi.
    eapply tame_weaken; [exact (slice_binary_left c Hc _ (slice_panic_sane c) s Hi)|]. cbn beta. intros; lia.
  Qed.
  Lemma slice_spends_int : spends I bytes (in_skip_integer I).
  Proof.
    eapply tame_spends; [exact slice_order|apply (lw_skip_int _ _ _ _ _ L)|]. cbn [slice_input in_skip_integer in_left]. intros s s' a Hb H.
    unfold slice_skip_integer in H. unfold slice_left. destruct (sse2 c).
    - destruct (16 <=? zlen s) eqn:H16.
      + unfold skip_uleb_sse2 in H. rewrite (skip_uleb_sse2_len_run s Hb) in H. destruct (Z.of_nat (continuation_run (firstn 16 s)) + 1 <=? zlen s) eqn:Hl; [|discriminate].
        assert (Hs : skipn (Z.to_nat (Z.of_nat (continuation_run (firstn 16 s)) + 1)) s = s') by congruence. rewrite <- Hs, skipn_length. unfold zlen in *. lia.
      + unfold skip_uleb_fallback in H. destruct (Nat.leb (continuation_run s + 1) (List.length s)) eqn:Hl; [|discriminate]. apply Nat.leb_le in Hl.
        assert (Hs : skipn (continuation_run s + 1) s = s') by congruence. rewrite <- Hs, skipn_length. lia.
    - unfold bind in H. destruct (decode_uleb c slice_read_byte slice_left s) as [s1 [n|e|p]] eqn:Hn; try discriminate. injection H as <- _.
      exact (uleb_first c (slice_input c) bytes slice_spends_byte s s1 n Hb Hn).
  Qed.
  Lemma slice_spends_bin : spends I bytes (in_skip_binary I).
  Proof.
    eapply tame_spends; [exact slice_order|apply (lw_skip_bin _ _ _ _ _ L)|]. cbn [slice_input in_skip_binary in_left]. intros s s' a Hb H.
    unfold slice_skip_binary, bind in H. destruct (read_len_with c slice_read_byte slice_left s) as [s1 [n|e|p]] eqn:Hn; try discriminate.
    pose proof (slice_len_tame c Hc _ (slice_panic_sane c) s Hb) as [_ H2]. rewrite Hn in H2. cbn [fst snd] in H2. destruct H2 as [_ H2].
    destruct (MAX_BINARY_LEN <? n); [discriminate|]. destruct (zlen s1 <? n); [discriminate|]. injection H as <- _.
    unfold slice_left in *. rewrite skipn_length. lia.
  Qed.
End Slice.
Section Reader.
  Variable c : cfg.
  Hypothesis Hc : cfg_ok c.
  Notation I := (reader_input c).
  Notation L := (reader_lawful c Hc _ (reader_panic_sane c)).
  Lemma reader_spends_byte : spends I reader_bytes (in_read_byte I).
  Proof. apply (tame_less I reader_bytes later sane); [exact reader_order|]. intros s Hi. eapply tame_weaken; [apply (lw_byte _ _ _ _ _ L); exact Hi|]. cbn beta. intros s' a [_ H]. exact H. Qed.
  Lemma reader_spends_double : spends I reader_bytes (in_read_double I).
  Proof. apply (tame_less I reader_bytes later sane); [exact reader_order|]. intros s Hi. exact (reader_double_left c Hc _ (reader_panic_sane c) s Hi). Qed.
  Lemma reader_spends_binary : spends I reader_bytes (in_read_binary I).
  Proof.
    apply (tame_less I reader_bytes later sane); [exact reader_order|]. intros s Hi.
    eapply tame_weaken; [exact (reader_binary_left c Hc _ (reader_panic_sane c) s Hi)|]. cbn beta. intros; lia.
  Qed.
  Lemma reader_spends_int : spends I reader_bytes (in_skip_integer I).
  Proof.
    eapply tame_spends; [exact reader_order|apply (lw_skip_int _ _ _ _ _ L)|]. cbn [reader_input in_skip_integer in_left]. intros s s' a Hb H.
    unfold bind in H. destruct (decode_uleb c reader_read_byte reader_left s) as [s1 [n|e|p]] eqn:Hn; try discriminate. injection H as <- _.
    exact (uleb_first c (reader_input c) reader_bytes reader_spends_byte s s1 n Hb Hn).
  Qed.
  Lemma reader_spends_bin : spends I reader_bytes (in_skip_binary I).
  Proof.
    eapply tame_spends; [exact reader_order|apply (lw_skip_bin _ _ _ _ _ L)|]. cbn [reader_input in_skip_binary in_left]. intros s s' a Hb H.
    unfold bind in H. destruct (reader_read_binary c s) as [s1 [n|e|p]] eqn:Hn; try discriminate. injection H as <- _.
    exact (proj2 (spends_ok I reader_bytes (in_read_binary I) s s1 n reader_spends_binary Hb Hn)).
  Qed.
End Reader.

Theorem slice_calls : forall c E d t v s, cfg_ok c -> bytes s ->
  exists n : nat, fill c (counting (slice_input c)) E d t v (s, 0%nat) =
    (let '(rest, w, o) := fill c (slice_input c) E d t v s in (rest, n, w, o)) /\
  (let '(rest, w, o) := fill c (slice_input c) E d t v s in (n + List.length rest <= List.length s + slack o)%nat).
Proof.
  intros c E d t v s Hc Hb.
  pose proof (proj1 (paid_fill c (slice_input c) bytes (slice_spends_byte c Hc) (slice_spends_double c Hc) (slice_spends_binary c Hc)
    (slice_spends_int c Hc) (slice_spends_bin c Hc) E d) t v s 0%nat Hb) as H.
  destruct (fill c (slice_input c) E d t v s) as [[rest w] o]. destruct H as (_ & k & H1 & H2). exists k. split; [exact H1|exact H2].
Qed.
Theorem reader_calls : forall c E d t v r, cfg_ok c -> reader_bytes r ->
  exists n : nat, fill c (counting (reader_input c)) E d t v (r, 0%nat) =
    (let '(r', w, o) := fill c (reader_input c) E d t v r in (r', n, w, o)) /\
  (let '(r', w, o) := fill c (reader_input c) E d t v r in (n + reader_left r' <= reader_left r + slack o)%nat).
Proof.
  intros c E d t v s Hc Hb.
  pose proof (proj1 (paid_fill c (reader_input c) reader_bytes (reader_spends_byte c Hc) (reader_spends_double c Hc) (reader_spends_binary c Hc)
    (reader_spends_int c Hc) (reader_spends_bin c Hc) E d) t v s 0%nat Hb) as H.
  destruct (fill c (reader_input c) E d t v s) as [[rest w] o]. destruct H as (_ & k & H1 & H2). exists k. split; [exact H1|exact H2].
Qed.
Theorem slice_skip_calls : forall c d ft e s, cfg_ok c -> bytes s ->
  exists n : nat, skip_field c (counting (slice_input c)) d ft e (s, 0%nat) = (let '(rest, o) := skip_field c (slice_input c) d ft e s in (rest, n, o)) /\
  (let '(rest, o) := skip_field c (slice_input c) d ft e s in (n + List.length rest <= List.length s + slack o)%nat).
Proof.
  intros c d ft e s Hc Hb.
  pose proof (proj1 (paid_skip c (slice_input c) bytes (slice_spends_byte c Hc) (slice_spends_double c Hc)
    (slice_spends_int c Hc) (slice_spends_bin c Hc) d) ft e s 0%nat Hb) as H.
  destruct (skip_field c (slice_input c) d ft e s) as [rest o]. destruct H as (_ & k & H1 & H2). exists k. split; [exact H1|exact H2].
Qed.
Theorem slice_list_pays : forall c E d t v s rest vs, cfg_ok c -> bytes s ->
  fill c (slice_input c) E d (TVec t) v s = (rest, VVec vs, Ok tt) -> (List.length rest + List.length vs < List.length s)%nat.
Proof.
  intros c E d t v s rest vs Hc Hb H.
  exact (list_pays c (slice_input c) bytes (slice_spends_byte c Hc) (slice_spends_double c Hc) (slice_spends_binary c Hc)
    (slice_spends_int c Hc) (slice_spends_bin c Hc) E d t v s rest vs tt Hb H).
Qed.
Theorem slice_skip_list_pays : forall c d s n et s1 rest, cfg_ok c -> bytes s ->
  read_collection_len_and_type c (slice_input c) s = (s1, Ok (n, et)) -> skip_collection c (slice_input c) d s = (rest, Ok tt) ->
  Z.of_nat (List.length rest) + n <= Z.of_nat (List.length s1).
Proof.
  intros c d s n et s1 rest Hc Hb H1 H2.
  pose proof (skip_list_pays c (slice_input c) bytes (slice_spends_byte c Hc) (slice_spends_double c Hc)
    (slice_spends_int c Hc) (slice_spends_bin c Hc) d s n et s1 rest tt Hb H1 H2) as H. cbn [slice_input in_left] in H. unfold slice_left in H. lia.
Qed.
Theorem slice_skip_map_pays : forall c d s n kt vt s1 rest, cfg_ok c -> bytes s ->
  read_map_len_and_types c (slice_input c) s = (s1, Ok (n, kt, vt)) -> skip_map c (slice_input c) d s = (rest, Ok tt) ->
  Z.of_nat (List.length rest) + 2 * n <= Z.of_nat (List.length s1).
Proof.
  intros c d s n kt vt s1 rest Hc Hb H1 H2.
  pose proof (skip_map_pays c (slice_input c) bytes (slice_spends_byte c Hc) (slice_spends_double c Hc)
    (slice_spends_int c Hc) (slice_spends_bin c Hc) d s n kt vt s1 rest tt Hb H1 H2) as H. cbn [slice_input in_left] in H. unfold slice_left in H. lia.
Qed.
