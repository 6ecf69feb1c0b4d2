(** Default values, and objects that are ready to be filled. *)
From Verif Require Import Base Uleb Utf8 Protocol Encodings Types Parquet Schema SpecDefault P_Fill P_Good.
Open Scope Z_scope.

Lemma default_standard E d : forall t v, default E d t = Some v -> standard E t v.
Proof.
  induction d as [|d IH]; intros t v; [discriminate|]. destruct t; cbn [default]; try (intros [= <-]; constructor).
  - destruct (default E d t) as [w|] eqn:D; [|discriminate]. intros [= <-]. constructor. auto.
  - destruct (default E d t) as [w|] eqn:D; [|discriminate]. intros [= <-]. constructor. auto.
  - destruct (lookup E name) as [[fs|[|f fs]|]|] eqn:L; try discriminate.
    + destruct (sequence _) as [vs|] eqn:Q; [|discriminate]. intros [= <-]. apply (St_struct E name fs vs L). clear L. revert vs Q.
      induction fs as [|f fs IHf]; intros vs; cbn [map sequence]; [intros [= <-]; constructor|].
      destruct (default E d (field_ty f)) as [w|] eqn:D; [|discriminate]. destruct (sequence _) as [r|] eqn:Q; [|discriminate]. intros [= <-]. constructor; [exact (IH _ _ D)|auto].
    + destruct (default E d (f_ty f)) as [w|] eqn:D; [|discriminate]. intros [= <-]. exact (St_union E name f fs w L (IH _ _ D)).
    + intros [= <-]. exact (St_enum E name L).
Qed.
Lemma standard_default E : (forall t v, standard E t v -> exists d, default E d t = Some v) /\
  (forall fs vs, standard_fields E fs vs -> exists d, sequence (map (fun f => default E d (field_ty f)) fs) = Some vs).
Proof.
  apply standard_mutind; try (intros; exists 1%nat; reflexivity).
  - intros t v _ (d & D). exists (Datatypes.S d). cbn [default]. rewrite D. reflexivity.
  - intros t v _ (d & D). exists (Datatypes.S d). cbn [default]. rewrite D. reflexivity.
  - intros n fs vs L _ (d & D). exists (Datatypes.S d). cbn [default]. rewrite L, D. reflexivity.
  - intros n f fs v L _ (d & D). exists (Datatypes.S d). cbn [default]. rewrite L, D. reflexivity.
  - intros n L. exists 1%nat. cbn [default]. rewrite L. reflexivity.
  - intros f fs v vs _ (d & D) _ (d' & D'). exists (Nat.max d d'). cbn [map sequence]. change (if f_req f then f_ty f else TOption (f_ty f)) with (field_ty f) in D.
    rewrite (default_mono E d (Nat.max d d') _ _ ltac:(lia) D).
    rewrite (sequence_mono (map (fun f => default E d' (field_ty f)) fs) (map (fun f => default E (Nat.max d d') (field_ty f)) fs) vs); [reflexivity| |exact D'].
    clear. induction fs as [|f fs IH]; constructor; [|exact IH]. intros x. apply default_mono. lia.
Qed.
Theorem default_iff E t v : standard E t v <-> exists d, default E d t = Some v.
Proof. split; [apply standard_default|]. intros (d & D). exact (default_standard E d t v D). Qed.
Theorem standard_unique E t v w : standard E t v -> standard E t w -> v = w.
Proof. rewrite !default_iff. apply dflt_det. Qed.

(** ** Termination *)
Lemma standard_acc E : (forall t v, standard E t v -> Acc (fun a b => needs E b a) t) /\
  (forall fs vs, standard_fields E fs vs -> forall f, In f fs -> f_req f = true -> Acc (fun a b => needs E b a) (f_ty f)).
Proof.
  apply standard_mutind; try (intros; constructor; intros y N; inversion N; fail).
  - intros t v _ A. constructor. intros y N. inversion N. subst. exact A.
  - intros t v _ A. constructor. intros y N. inversion N. subst. exact A.
  - intros n fs vs L _ A. constructor. intros y N. inversion N as [| |n' fs' f L' J R|n' f fs' L']; subst; rewrite L in L'; [injection L' as <-; auto|discriminate].
  - intros n f fs v L _ A. constructor. intros y N. inversion N as [| |n' fs' g L' J R|n' g fs' L']; subst; rewrite L in L'; [discriminate|]. injection L' as <- _. exact A.
  - intros n L. constructor. intros y N. inversion N as [| |n' fs' g L' J R|n' g fs' L']; subst; rewrite L in L'; discriminate.
  - intros f J. destruct J.
  - intros f fs v vs _ A _ B g [<-|J] R; [rewrite R in A; exact A|exact (B g J R)].
Qed.
Lemma acc_standard E : acceptable E -> forall t, Acc (fun a b => needs E b a) t -> declared E t -> exists v, standard E t v.
Proof.
  intros OK t A. induction A as [t _ IH]. intros D. destruct t; try (eexists; constructor; fail); cbn [declared] in D.
  - destruct (IH t (Ne_box E t) D) as (v & K). exists (VBox v). constructor. exact K.
  - destruct (IH t (Ne_shared E t) D) as (v & K). exists (VShared true v). constructor. exact K.
  - destruct D as (df & L). pose proof (OK _ _ L) as O. destruct df as [fs|fs|].
    + assert (X : exists vs, standard_fields E fs vs).
      { assert (Y : forall f, In f fs -> exists v, standard E (field_ty f) v).
        { intros f J. unfold field_ty. destruct (f_req f) eqn:R; [|exists VNone; constructor]. exact (IH _ (Ne_struct E name fs f L J R) (O f J)). }
        clear L O IH. induction fs as [|f fs IHf]; [exists []; constructor|]. destruct (Y f (or_introl eq_refl)) as (v & K).
        destruct IHf as (vs & Ks); [intros g J; apply Y; right; exact J|]. exists (v :: vs). constructor; assumption. }
      destruct X as (vs & K). exists (VStruct vs). exact (St_struct E name fs vs L K).
    + destruct O as (NE & O). destruct fs as [|f fs]; [contradiction|]. destruct (IH _ (Ne_union E name f fs L) (O f (or_introl eq_refl))) as (v & K).
      exists (VUnion 0 v). exact (St_union E name f fs v L K).
    + exists (VI32 0). exact (St_enum E name L).
Qed.
Theorem terminates_iff E t : acceptable E -> declared E t -> ((exists v, standard E t v) <-> Acc (fun a b => needs E b a) t).
Proof. intros OK D. split; [intros (v & K); exact (proj1 (standard_acc E) t v K)|intros A; exact (acc_standard E OK t A D)]. Qed.
Lemma no_cycle E t : Acc (fun a b => needs E b a) t -> needs_itself E t t -> False.
Proof.
  induction 1 as [t _ IH]. intros N.
  assert (Sp : forall u, needs_itself E t u -> exists a, needs E t a /\ (a = u \/ needs_itself E a u)).
  { intros u X. induction X as [u Q|u w X (a & Q & [->|Y]) R].
    - exists u. auto.
    - exists u. split; [exact Q|]. right. constructor. exact R.
    - exists a. split; [exact Q|]. right. exact (Nt_more E a u w Y R). }
  destruct (Sp t N) as (a & Q & [->|Y]); [exact (IH t Q N)|]. exact (IH a Q (Nt_more E a t a Y Q)).
Qed.
Theorem cycle_none E t v : needs_itself E t t -> ~ standard E t v.
Proof. intros N K. exact (no_cycle E t (proj1 (standard_acc E) t v K) N). Qed.
Theorem none_overflows {S} c (I : input S) E d t s : (forall v, ~ standard E t v) -> read_thrift c I E d t s = (s, Panic PStack).
Proof. intros N. unfold read_thrift. destruct (default E d t) as [v|] eqn:D; [|reflexivity]. destruct (N v). exact (default_standard E d t v D). Qed.

(** ** Filling a cleared object *)
Section Fill.
  Context {S : Type} (c : cfg) (I : input S) (E : env).
  Definition agree (r1 r2 : S * value * outcome unit) : Prop :=
    fst (fst r1) = fst (fst r2) /\ snd r1 = snd r2 /\ (snd r1 = Ok tt -> snd (fst r1) = snd (fst r2)).
  Lemma agree_refl r : agree r r. Proof. repeat split. Qed.
  Inductive slots : list field -> list bool -> list value -> list value -> Prop :=
  | Sl_nil : slots [] [] [] []
  | Sl_cons f fs b bs v vs w ws : (v = w \/ (f_req f = true /\ b = false /\ cleared E (field_ty f) v /\ cleared E (field_ty f) w)) -> slots fs bs vs ws ->
      slots (f :: fs) (b :: bs) (v :: vs) (w :: ws).
  Lemma slots_start fs : forall vs ws, cleared_fields E fs vs -> cleared_fields E fs ws -> slots fs (map (fun _ => false) fs) vs ws.
  Proof.
    induction fs as [|f fs IH]; intros vs ws A B; inversion A; inversion B; subst; cbn [map]; constructor; [|auto].
    unfold field_ty. destruct (f_req f) eqn:R; [right; auto|]. left. match goal with X : cleared E (TOption _) v, Y : cleared E (TOption _) v0 |- _ => inversion X; inversion Y; reflexivity end.
  Qed.
  Lemma slots_end fs bs vs ws : slots fs bs vs ws -> first_missing fs bs = None -> vs = ws.
  Proof.
    induction 1 as [|f fs b bs v vs w ws H _ IH]; [reflexivity|]. cbn [first_missing]. destruct (f_req f && negb b) eqn:R; [discriminate|]. intros K. rewrite (IH K). f_equal.
    destruct H as [->|(Q & -> & _)]; [reflexivity|]. rewrite Q in R. discriminate.
  Qed.
  Lemma slots_nth fs bs vs ws : slots fs bs vs ws -> forall i f, nth_error fs i = Some f -> exists v w, nth_error vs i = Some v /\ nth_error ws i = Some w /\
    (v = w \/ (cleared E (field_ty f) v /\ cleared E (field_ty f) w)).
  Proof.
    induction 1 as [|f fs b bs v vs w ws H _ IH]; intros [|i] g; cbn [nth_error]; try discriminate; [|apply IH].
    intros [= <-]. exists v, w. repeat split. destruct H as [->|(_ & _ & X & Y)]; auto.
  Qed.
  Lemma slots_set fs bs vs ws x : slots fs bs vs ws -> forall i, slots fs (set_nth bs i true) (set_nth vs i x) (set_nth ws i x).
  Proof. induction 1 as [|f fs b bs v vs w ws H K IH]; intros [|i]; cbn [set_nth]; constructor; auto. Qed.
  Lemma find_nth fs : forall id i f, find_field fs id = Some (i, f) -> nth_error fs i = Some f.
  Proof.
    induction fs as [|g fs IH]; intros id i f; cbn [find_field]; [discriminate|]. destruct (f_id g =? id); [intros [= <- <-]; reflexivity|].
    destruct (find_field fs id) as [(j, h)|] eqn:Q; [|discriminate]. intros [= <- <-]. exact (IH _ _ _ Q).
  Qed.
  Lemma loop_agree n fs ff sk : (forall t ft v w s, cleared E t v -> cleared E t w -> agree (ff t ft v s) (ff t ft w s)) ->
    forall fuel last bs vs ws s, slots fs bs vs ws ->
    let r1 := struct_loop c I n fs ff sk fuel last bs vs s in let r2 := struct_loop c I n fs ff sk fuel last bs ws s in
    fst (fst r1) = fst (fst r2) /\ snd r1 = snd r2 /\ (snd r1 = Ok tt -> snd (fst r1) = snd (fst r2)).
  Proof.
    intros Hf. cbv zeta. induction fuel as [|fuel IH]; intros last bs vs ws s K; cbn [struct_loop]; [repeat split; discriminate|].
    destruct (read_field_header c I last s) as (s1, [(ft, last')|e|p]); [|repeat split; discriminate|repeat split; discriminate].
    destruct (ft =? 0).
    { destruct (first_missing fs bs) eqn:Fm; repeat split; try discriminate. intros _. exact (slots_end _ _ _ _ K Fm). }
    destruct (find_field fs last') as [(i, f)|] eqn:Ff.
    - destruct (slots_nth _ _ _ _ K i f (find_nth _ _ _ _ Ff)) as (v & w & -> & -> & C).
      assert (A : agree (ff (field_ty f) ft v s1) (ff (field_ty f) ft w s1)) by (destruct C as [->|(X & Y)]; [apply agree_refl|apply Hf; assumption]).
      destruct (ff (field_ty f) ft v s1) as ((s2, v'), o), (ff (field_ty f) ft w s1) as ((s3, w'), o'). destruct A as (A1 & A2 & A3). cbn [fst snd] in A1, A2, A3. subst s3 o'.
      destruct o as [[]|e|p]; [|repeat split; discriminate|repeat split; discriminate]. rewrite <- (A3 eq_refl). apply IH. apply slots_set. exact K.
    - destruct (sk ft s1) as (s2, [u|e|p]); [apply IH; exact K|repeat split; discriminate|repeat split; discriminate].
  Qed.
  Lemma assign_agree {A} (m : M S A) k v w s : agree (assign m k v s) (assign m k w s).
  Proof. unfold assign. destruct (m s) as (s1, [a|e|p]); repeat split; discriminate. Qed.
  Lemma fill_agree d : (forall t v w s, cleared E t v -> cleared E t w -> agree (fill c I E d t v s) (fill c I E d t w s)) /\
    (forall t ft v w s, cleared E t v -> cleared E t w -> agree (fill_field c I E d t ft v s) (fill_field c I E d t ft w s)).
  Proof.
    induction d as [|d (IH & IHf)]; [split; intros; repeat split; discriminate|].
    assert (G : forall t v w s, cleared E t v -> cleared E t w -> agree (fill c I E (Datatypes.S d) t v s) (fill c I E (Datatypes.S d) t w s)).
    { intros t v w s V W. destruct t as [| | | | | | | |t|t|t|t| |n]; cbn [fill]; try apply assign_agree.
      - destruct (read_collection_len_and_type c I s) as (s1, [(len, et)|e|p]); [|repeat split; discriminate|repeat split; discriminate].
        destruct (_ && _); [repeat split; discriminate|]. destruct (negb (reserve c len)); [repeat split; discriminate|]. apply agree_refl.
      - inversion V; inversion W; subst. apply agree_refl.
      - inversion V as [| | | | | | | | | | |t1 v1 V1| | | |]; inversion W as [| | | | | | | | | | |t2 w1 W1| | | |]; subst. pose proof (IH t v1 w1 s V1 W1) as A.
        destruct (fill c I E d t v1 s) as ((s1, a), o), (fill c I E d t w1 s) as ((s2, b), o'). destruct A as (A1 & A2 & A3). cbn [fst snd] in *. subst s2 o'. repeat split. cbn [fst snd]. intros K. rewrite (A3 K). reflexivity.
      - inversion V as [| | | | | | | | | | | |t1 v1 V1| | |]; inversion W as [| | | | | | | | | | | |t2 w1 W1| | |]; subst. pose proof (IH t v1 w1 s V1 W1) as A.
        destruct (fill c I E d t v1 s) as ((s1, a), o), (fill c I E d t w1 s) as ((s2, b), o'). destruct A as (A1 & A2 & A3). cbn [fst snd] in *. subst s2 o'. repeat split. cbn [fst snd]. intros K. rewrite (A3 K). reflexivity.
      - destruct (lookup E n) as [[fs|fs|]|] eqn:L.
        + inversion V as [| | | | | | | | | | | | |n1 fs1 vs L1 V1|n1 fs1 v1 L1|n1 v1 L1]; subst; try congruence.
          inversion W as [| | | | | | | | | | | | |n2 fs2 ws L2 W1|n2 fs2 w1 L2|n2 w1 L2]; subst; try congruence.
          assert (fs1 = fs) by congruence. assert (fs2 = fs) by congruence. subst fs1 fs2.
          match goal with |- agree (let (_, _) := struct_loop _ _ _ _ ?ff ?sk ?fu _ _ _ _ in _) _ => pose proof (loop_agree n fs ff sk IHf fu 0 _ vs ws s (slots_start fs vs ws V1 W1)) as A end.
          cbv zeta in A. match goal with |- agree (let (_, _) := ?x in _) (let (_, _) := ?y in _) => destruct x as ((s1, a), o), y as ((s2, b), o') end.
          destruct A as (A1 & A2 & A3). cbn [fst snd] in *. subst s2 o'. repeat split. cbn [fst snd]. intros K. rewrite (A3 K). reflexivity.
        + destruct (read_field_header c I 0 s) as (s2, [(ft, last')|x|p]); [|repeat split; discriminate|repeat split; discriminate].
          destruct (ft =? 0); [repeat split; discriminate|]. destruct (find_field fs last') as [(i, f)|]; [|repeat split; discriminate].
          destruct (default E d (f_ty f)) as [dv|]; [|repeat split; discriminate]. apply agree_refl.
        + apply assign_agree.
        + repeat split; discriminate. }
    split; [exact G|]. intros t ft v w s V W. cbn [fill_field].
    assert (D : agree (if negb (ft =? field_type E t) then (s, v, Err InvalidType) else fill c I E d t v s) (if negb (ft =? field_type E t) then (s, w, Err InvalidType) else fill c I E d t w s)).
    { destruct (negb _); [repeat split; discriminate|]. apply IH; assumption. }
    destruct t; try exact D; [apply agree_refl|]. inversion V; inversion W; subst. apply agree_refl.
  Qed.
End Fill.
Lemma standard_cleared E : (forall t v, standard E t v -> cleared E t v) /\ (forall fs vs, standard_fields E fs vs -> cleared_fields E fs vs).
Proof. apply standard_mutind; intros; first [apply Cl_enum; assumption | econstructor; eauto; fail]. Qed.
Theorem cleared_read {S} c (I : input S) E d t v s : cleared E t v -> (exists dv, default E d t = Some dv) ->
  exists s' w o, fill c I E d t v s = (s', w, o) /\
    read_thrift c I E d t s = (s', match o with Ok _ => Ok w | Err e => Err e | Panic p => Panic p end).
Proof.
  intros C (dv & D). pose proof (proj1 (fill_agree c I E d) t v dv s C (proj1 (standard_cleared E) t dv (default_standard E d t dv D))) as A.
  unfold read_thrift. rewrite D. destruct (fill c I E d t v s) as ((s1, w), o), (fill c I E d t dv s) as ((s2, w'), o'). destruct A as (A1 & A2 & A3). cbn [fst snd] in *. subst s2 o'.
  exists s1, w, o. split; [reflexivity|]. destruct o as [[]|e|p]; [rewrite (A3 eq_refl)| |]; reflexivity.
Qed.

Lemma parquet_acceptable : acceptable parquet_env.
Proof.
  intros n d L. assert (A : forall E, (forall n d, lookup E n = Some d -> In (n, d) E)).
  { induction E as [|(m, x) E IH]; intros k y; cbn [lookup]; [discriminate|]. destruct (String.eqb_spec k m) as [->|_]; [intros [= ->]; left; reflexivity|right; auto]. }
  assert (C : forall t, ty_closed parquet_env t = true -> declared parquet_env t).
  { induction t; cbn [ty_closed declared]; auto. destruct (lookup parquet_env name) as [x|]; [eauto|discriminate]. }
  assert (K : forallb (fun '(n, d) => match d with DStruct fs => forallb (fun f => ty_closed parquet_env (f_ty f)) fs
    | DUnion fs => negb (Nat.eqb (List.length fs) 0) && forallb (fun f => ty_closed parquet_env (f_ty f)) fs | DEnum => true end) parquet_env = true) by (vm_compute; reflexivity).
  rewrite forallb_forall in K. specialize (K _ (A _ _ _ L)). cbv beta iota in K. destruct d as [fs|fs|]; [| |exact Logic.I].
  - rewrite forallb_forall in K. intros f J. apply C, K, J.
  - apply andb_prop in K as (K1 & K2). rewrite forallb_forall in K2. split; [intros ->; discriminate K1|]. intros f J. apply C, K2, J.
Qed.
Theorem parquet_default t : declared parquet_env t -> exists v, standard parquet_env t v.
Proof.
  intros D. assert (C : ty_closed parquet_env t = true).
  { induction t; cbn [ty_closed declared] in *; auto. destruct D as (x & ->). reflexivity. }
  assert (K : env_ok true parquet_env 20 = true) by (vm_compute; reflexivity).
  destruct (default_closed true parquet_env 20 t _ K C (le_n _)) as (v & Hv). exists v. exact (default_standard _ _ _ _ Hv).
Qed.
