(** What is read and written again is not longer than before. *)
From Coq Require Import ZifyBool ZifyNat ZifyN.
From Verif Require Import Base Uleb Utf8 Protocol Encodings Types Parquet SpecUtf8 SpecCompact SpecInput Schema Typing
  P_Arith P_Reads P_Inputs P_Sink P_Skip P_Gen P_Fill P_Good P_Lawful P_Robust P_Write P_Roundtrip P_Short P_Valid.
Ltac Zify.zify_post_hook ::= Z.div_mod_to_equations.

(** * Sizes of varints *)
Lemma vsize_bound n k : 0 <= n < 2 ^ (7 * k) -> 1 <= k -> vsize n <= k.
Proof.
  intros Hn Hk. unfold vsize, zlen. rewrite <- (Z2Nat.id k) by lia. apply inj_le. apply leb_length_bound; [|lia].
  rewrite Z2Nat.id by lia. replace (128 ^ k) with (2 ^ (7 * k)); [exact Hn|]. rewrite Z.pow_mul_r by lia. reflexivity.
Qed.
Lemma vsize_10 n : vsize n <= 10.
Proof. unfold vsize, zlen. pose proof (leb_length 10 n). lia. Qed.
Lemma leb_length_mono fuel : forall m n, 0 <= m <= n -> (List.length (leb fuel m) <= List.length (leb fuel n))%nat.
Proof.
  induction fuel as [|fuel IH]; intros m n H; cbn [leb]; [lia|].
  destruct (127 <? m) eqn:Hm, (127 <? n) eqn:Hn; cbn [List.length]; try lia.
  specialize (IH (m / 128) (n / 128) ltac:(lia)). lia.
Qed.
Lemma vsize_mono m n : 0 <= m <= n -> vsize m <= vsize n.
Proof. intros H. unfold vsize, zlen. pose proof (leb_length_mono 10 m n H). lia. Qed.
Lemma wrapu_le b n : 0 <= b -> 0 <= n -> 0 <= wrapu b n <= n.
Proof. intros Hb Hn. pose proof (wrapu_range b n Hb) as [H _]. split; [exact H|]. unfold wrapu in *. apply Z.mod_le; [lia|]. apply Z.pow_pos_nonneg; lia. Qed.
Lemma zigzag_unzigzag u : 0 <= u -> zigzag (unzigzag u) = u.
Proof.
  intros H. unfold zigzag, unzigzag. destruct (Z.even u) eqn:He.
  - apply Z.even_spec in He as [k ->]. destruct (0 <=? 2 * k / 2) eqn:?; lia.
  - assert (Z.odd u = true) as Ho by (rewrite <- Z.negb_even, He; reflexivity). apply Z.odd_spec in Ho as [k ->].
    destruct (0 <=? - ((2 * k + 1) / 2) - 1) eqn:?; lia.
Qed.

(** * Headers and the way to an id *)
Lemma way_far last id m k : 0 < m <= 32767 -> in_s 16 id -> vsize (zigzag id) <= k -> way last m <= 1 + k + way id m.
Proof.
  intros Hm Hr Hv. unfold in_s in Hr. unfold way. pose proof (vsize_pos (zigzag id)). rewrite (vsize_id m) by lia.
  destruct (Z.lt_ge_cases id 0) as [Hneg|Hpos].
  - destruct (m <=? last + 15) eqn:H1, (m <=? id + 15) eqn:H2, (m <? 64) eqn:H3, (m <? 8192) eqn:H4; lia.
  - rewrite vsize_id in Hv by lia.
    destruct (m <=? last + 15) eqn:H1, (m <=? id + 15) eqn:H2, (m <? 64) eqn:H3, (m <? 8192) eqn:H4,
      (id <? 64) eqn:H5, (id <? 8192) eqn:H6; lia.
Qed.
Lemma way_near last id m : 0 < m <= 32767 -> 1 <= id - last <= 15 -> way last m <= 1 + way id m.
Proof. apply way_short. Qed.
Lemma way_max last m : m <= 32767 -> 32767 - 15 <= last -> way last m = 1.
Proof. intros H1 H2. unfold way. destruct (m <=? last + 15) eqn:?; [reflexivity|lia]. Qed.

(** [headed last id k]: a header of [k] bytes may lead from [last] to [id] *)
Definition headed (last id k : Z) : Prop :=
  1 <= k /\ in_s 16 id /\ (0 < id -> way last id <= k) /\ forall m, 0 < m <= 32767 -> way last m <= k + way id m.
Lemma headed_near last d : in_s 16 last -> 1 <= d <= 15 -> headed last (wraps 16 (last + d)) 1.
Proof.
  intros Hl Hd. unfold in_s in Hl. split; [lia|]. split; [apply wraps_range; lia|].
  destruct (Z.le_gt_cases (last + d) 32767) as [H|H].
  - rewrite wraps_id by lia. split.
    + intros _. unfold way. destruct (last + d <=? last + 15) eqn:?; lia.
    + intros m Hm. apply way_near; [exact Hm|lia].
  - split.
    + intros _. rewrite way_max; [lia| |lia]. pose proof (wraps_range 16 (last + d) ltac:(lia)) as Hr. unfold in_s in Hr. lia.
    + intros m Hm. rewrite (way_max last m) by lia. pose proof (way_pos (wraps 16 (last + d)) m). lia.
Qed.
Lemma headed_far last id k : in_s 16 id -> vsize (zigzag id) <= k -> headed last id (1 + k).
Proof.
  intros Hr Hv. pose proof (vsize_pos (zigzag id)). unfold in_s in Hr. split; [lia|]. split; [exact Hr|]. split.
  - intros Hp. unfold way. rewrite (vsize_id id) in * by lia. destruct (id <=? last + 15) eqn:?; [lia|].
    destruct (id <? 64), (id <? 8192); lia.
  - intros m Hm. apply way_far; assumption.
Qed.
Lemma headed_more last id k k' : headed last id k -> k <= k' -> headed last id k'.
Proof. intros (H1 & H2 & H3 & H4) H. split; [lia|]. split; [exact H2|]. split; [intros Hp; specialize (H3 Hp); lia|]. intros m Hm. specialize (H4 m Hm). lia. Qed.

(** * What reading consumes at least *)
Section Consumes.
  Context {S : Type}.
  Variable c : cfg.
  Variable inv : S -> Prop.
  Variable le : S -> S -> Prop.
  Variable left : S -> nat.
  Variable okp : panic -> Prop.
  Variable rb : M S Z.
  Hypothesis O : order inv le left.
  Hypothesis Hrb : forall s, inv s -> tame le okp s rb (fun s' b => is_byte b /\ (left s' < left s)%nat).
  Hypothesis Hov : overflow_checks c = true -> okp POverflow.
  Definition used (s s' : S) : Z := Z.of_nat (left s) - Z.of_nat (left s').

  Lemma decode_loop_used fuel : forall j value s, inv s -> (left s < fuel)%nat -> 0 <= j -> in_u 64 value -> (j < 10 -> value < 2 ^ (7 * j)) ->
    forall shift, (j < 10 -> shift = 7 * j) ->
    tame le okp s (decode_uleb_loop c rb fuel shift value)
      (fun s' n => in_u 64 n /\ 1 <= used s s' /\ (j + used s s' < 10 -> n < 2 ^ (7 * (j + used s s')))).
  Proof.
    unfold used. induction fuel as [|fuel IH]; intros j value s Hi Hf Hj Hv Hvj shift Hsh; [lia|]. cbn [decode_uleb_loop].
    eapply (tame_bind inv); [exact O|exact Hi|apply Hrb; exact Hi|]. intros s1 b Hi1 Hle Hl [Hb Hlt].
    set (value' := Z.lor value (wrapu 64 (Z.shiftl (Z.land b 127) (shift mod 64)))).
    assert (Hv' : in_u 64 value').
    { apply (lor_range c); [exact Hv|]. apply wrapu_range. lia. }
    assert (Hvj' : j < 10 -> value' < 2 ^ (7 * (j + 1))).
    { intros Hj9. specialize (Hsh Hj9). specialize (Hvj Hj9). clear IH. subst shift.
      assert (H127 : 0 <= Z.land b 127 < 128).
      { change 127 with (Z.ones 7). rewrite Z.land_ones by lia. lia. }
      assert (Hs : 0 <= wrapu 64 (Z.shiftl (Z.land b 127) ((7 * j) mod 64)) < 2 ^ (7 * (j + 1))).
      { rewrite Z.mod_small by lia. rewrite Z.shiftl_mul_pow2 by lia.
        assert (0 < 2 ^ (7 * j)) by (apply Z.pow_pos_nonneg; lia).
        assert (Heq : 2 ^ (7 * (j + 1)) = 128 * 2 ^ (7 * j)).
        { replace (7 * (j + 1)) with (7 + 7 * j) by lia. rewrite Z.pow_add_r by lia. reflexivity. }
        pose proof (wrapu_le 64 (Z.land b 127 * 2 ^ (7 * j)) ltac:(lia) ltac:(nia)) as [H1 H2]. rewrite Heq. nia. }
      destruct Hs as [Hs1 Hs2]. unfold in_u in Hv. subst value'.
      set (w := wrapu 64 (Z.shiftl (Z.land b 127) ((7 * j) mod 64))) in *.
      assert (Hv2 : value < 2 ^ (7 * (j + 1))).
      { eapply Z.lt_le_trans; [exact Hvj|]. apply Z.pow_le_mono_r; lia. }
      destruct (Z.eq_dec (Z.lor value w) 0) as [->|Hn]; [apply Z.pow_pos_nonneg; lia|].
      assert (0 <= Z.lor value w) by (apply Z.lor_nonneg; lia).
      apply Z.log2_lt_pow2; [lia|]. rewrite Z.log2_lor by lia.
      apply Z.max_lub_lt.
      - destruct (Z.eq_dec value 0) as [->|]; [cbn [Z.log2]; lia|]. apply Z.log2_lt_pow2; lia.
      - destruct (Z.eq_dec w 0) as [->|]; [cbn [Z.log2]; lia|]. apply Z.log2_lt_pow2; lia. }
    destruct (overflow_checks c && (2 ^ 32 <=? shift + 7)) eqn:Hc.
    { apply (tame_crash inv) with (1 := O). apply Hov. apply andb_true_iff in Hc as [Hc _]. exact Hc. }
    destruct (Z.land b 128 =? 0).
    - apply (tame_ret inv) with (1 := O). split; [exact Hv'|]. split; [lia|]. intros Hj9. specialize (Hvj' ltac:(lia)).
      eapply Z.lt_le_trans; [exact Hvj'|]. apply Z.pow_le_mono_r; lia.
    - eapply tame_weaken; [apply (IH (j + 1) value' s1 Hi1); [lia|lia|exact Hv'|intros; apply Hvj'; lia|]|].
      + intros Hj9. rewrite (Hsh ltac:(lia)). unfold wrapu. rewrite Z.mod_small by lia. lia.
      + cbn beta. intros s2 n (H1 & H2 & H3). split; [exact H1|]. split; [lia|]. intros Hx.
        eapply Z.lt_le_trans; [apply H3; lia|]. apply Z.pow_le_mono_r; lia.
  Qed.
  Lemma decode_used s : inv s -> tame le okp s (decode_uleb c rb left) (fun s' n => in_u 64 n /\ vsize n <= used s s').
  Proof.
    intros Hi. unfold decode_uleb.
    change (tame le okp s (decode_uleb_loop c rb (Datatypes.S (left s)) 0 0) (fun s' n => in_u 64 n /\ vsize n <= used s s')).
    eapply tame_weaken; [apply (decode_loop_used _ 0 0 s Hi); try lia; apply zero_u; lia|].
    cbn beta. intros s' n (H1 & H2 & H3). split; [exact H1|].
    destruct (Z.lt_ge_cases (used s s') 10) as [H|H]; [|pose proof (vsize_10 n); lia].
    apply vsize_bound; [|exact H2]. unfold in_u in H1. specialize (H3 ltac:(lia)). rewrite Z.add_0_l in H3. lia.
  Qed.
  Lemma len_used s : inv s -> 0 <= usize_bits c ->
    tame le okp s (read_len_with c rb left) (fun s' n => 0 <= n /\ vsize n <= used s s').
  Proof.
    intros Hi Hu. eapply (tame_bind inv); [exact O|exact Hi|apply decode_used; exact Hi|]. intros s1 n Hi1 Hle Hl [H1 H2].
    apply (tame_ret inv) with (1 := O). unfold in_u in H1. pose proof (wrapu_le (usize_bits c) n Hu ltac:(lia)) as [H3 H4].
    split; [exact H3|]. pose proof (vsize_mono (wrapu (usize_bits c) n) n ltac:(lia)). lia.
  Qed.
End Consumes.

(** * Sizes, computed without regard to whether the value fits *)
Definition here (f : field) (v : value) : bool := f_req f || match v with VNone => false | _ => true end.
Fixpoint ways (fs : list field) (vs : list value) : list Z :=
  match fs, vs with
  | f :: fs', v :: vs' => (if here f v then [way 0 (f_id f)] else []) ++ ways fs' vs'
  | _, _ => []
  end.
(** What the header of the first field takes beyond one byte *)
Definition lead (fs : list field) (vs : list value) : Z :=
  match ways fs vs with [] => 0 | x :: l => fold_right Z.min x l - 1 end.
Definition psz (sz : value -> ty -> Z) (v : value) (t : ty) : Z := if obool v then 0 else sz v t.
Definition msum (sz : value -> ty -> Z) : list field -> list value -> Z :=
  fix go (fs : list field) (vs : list value) {struct vs} : Z :=
    match vs, fs with
    | w :: vs', f :: fs' => (if here f w then 1 + psz sz w (field_ty f) else 0) + go fs' vs'
    | _, _ => 0
    end.
Fixpoint msize (E : env) (v : value) (t : ty) {struct v} : Z :=
  match v, t with
  | VBool _, _ | VI8 _, _ => 1
  | VI16 z, _ | VI32 z, _ | VI64 z, _ => vsize (zigzag z)
  | VDouble _, _ => 8
  | VBin l, _ | VStr l, _ => vsize (zlen l) + zlen l
  | VVec vs, TVec t' => lsize (zlen vs) + zsum (map (fun w => msize E w t') vs)
  | VSome w, TOption t' | VBox w, TBox t' | VShared _ w, TShared t' => msize E w t'
  | VEncSet m, _ => lsize (zlen (bits_from 32 0 m)) + zlen (bits_from 32 0 m)
  | VStruct vs, TNamed n =>
      match lookup E n with
      | Some (DStruct fs) => msum (msize E) fs vs + lead fs vs + 1
      | _ => 0
      end
  | VUnion i w, TNamed n =>
      match lookup E n with
      | Some (DUnion fs) =>
          match nth_error fs i with
          | Some f => way 0 (f_id f) + psz (msize E) w (f_ty f) + 1
          | None => 0
          end
      | _ => 0
      end
  | _, _ => 0
  end.
(** What a value keeps when it is filled again *)
Definition ksum (sz : value -> ty -> Z) (bs : value -> ty -> Z) : list field -> list value -> Z :=
  fix go (fs : list field) (vs : list value) {struct vs} : Z :=
    match vs, fs with
    | w :: vs', f :: fs' =>
        (if f_req f then bs w (field_ty f) else match w with VNone => 0 | _ => 1 + psz sz w (field_ty f) end) + go fs' vs'
    | _, _ => 0
    end.
Fixpoint bsize (E : env) (v : value) (t : ty) {struct v} : Z :=
  match v, t with
  | VBox w, TBox t' | VShared _ w, TShared t' => bsize E w t'
  | VStruct vs, TNamed n =>
      match lookup E n with
      | Some (DStruct fs) => ksum (msize E) (bsize E) fs vs + (if existsb f_req fs then 0 else lead fs vs)
      | _ => 0
      end
  | _, _ => 0
  end.

Lemma fold_min_le l : forall x, fold_right Z.min x l <= x /\ (forall y, In y l -> fold_right Z.min x l <= y).
Proof.
  induction l as [|a l IH]; intros x; cbn [fold_right]; [split; [lia|intros ? []]|]. destruct (IH x) as [H1 H2].
  split; [lia|]. intros y [<-|H]; [lia|]. specialize (H2 y H). lia.
Qed.
Lemma fold_min_ge l b : forall x, b <= x -> (forall y, In y l -> b <= y) -> b <= fold_right Z.min x l.
Proof.
  induction l as [|a l IH]; intros x Hx Hl; cbn [fold_right]; [exact Hx|].
  apply Z.min_glb; [apply Hl; left; reflexivity|]. apply IH; [exact Hx|intros y Hy; apply Hl; right; exact Hy].
Qed.
Lemma ways_In fs : forall vs x, In x (ways fs vs) -> exists i f v, nth_error fs i = Some f /\ nth_error vs i = Some v /\ here f v = true /\ x = way 0 (f_id f).
Proof.
  induction fs as [|f fs IH]; intros [|v vs] x H; cbn [ways] in H; try contradiction. apply in_app_or in H as [H|H].
  - destruct (here f v) eqn:Hh; [|contradiction]. destruct H as [<-|[]]. exists 0%nat, f, v. auto.
  - destruct (IH vs x H) as (i & g & w & H1 & H2 & H3). exists (Datatypes.S i), g, w. auto.
Qed.
Lemma In_ways fs : forall vs i f v, nth_error fs i = Some f -> nth_error vs i = Some v -> here f v = true -> In (way 0 (f_id f)) (ways fs vs).
Proof.
  induction fs as [|g fs IH]; intros [|w vs] [|i] f v Hf Hv Hh; cbn [nth_error ways] in *; try discriminate.
  - injection Hf as ->. injection Hv as ->. rewrite Hh. left. reflexivity.
  - apply in_or_app. right. eapply IH; eassumption.
Qed.
Lemma lead_nonneg fs vs : 0 <= lead fs vs.
Proof.
  unfold lead. destruct (ways fs vs) as [|x l] eqn:Hw; [lia|].
  assert (H : forall y, In y (x :: l) -> 1 <= y).
  { intros y Hy. rewrite <- Hw in Hy. destruct (ways_In _ _ _ Hy) as (i & f & v & _ & _ & _ & ->). apply way_pos. }
  pose proof (fold_min_ge l 1 x (H x (or_introl eq_refl)) (fun y Hy => H y (or_intror Hy))). lia.
Qed.
Lemma lead_le fs vs i f v : nth_error fs i = Some f -> nth_error vs i = Some v -> here f v = true -> lead fs vs <= way 0 (f_id f) - 1.
Proof.
  intros H1 H2 H3. pose proof (In_ways fs vs i f v H1 H2 H3) as H. unfold lead. destruct (ways fs vs) as [|x l]; [contradiction|].
  destruct (fold_min_le l x) as [H4 H5]. destruct H as [<-|H]; [lia|]. specialize (H5 _ H). lia.
Qed.
Lemma lead_ge fs vs b : ways fs vs <> [] -> (forall i f v, nth_error fs i = Some f -> nth_error vs i = Some v -> here f v = true -> b <= way 0 (f_id f)) -> b - 1 <= lead fs vs.
Proof.
  intros Hne H. unfold lead. destruct (ways fs vs) as [|x l] eqn:Hw; [congruence|].
  assert (G : forall y, In y (x :: l) -> b <= y).
  { intros y Hy. rewrite <- Hw in Hy. destruct (ways_In _ _ _ Hy) as (i & f & v & H1 & H2 & H3 & ->). eapply H; eassumption. }
  pose proof (fold_min_ge l b x (G x (or_introl eq_refl)) (fun y Hy => G y (or_intror Hy))). lia.
Qed.
Lemma way_mono m n : 0 < m <= n -> n <= 32767 -> way 0 m <= way 0 n.
Proof.
  intros H Hn. unfold way. rewrite !vsize_id by lia.
  destruct (m <=? 0 + 15) eqn:H1, (n <=? 0 + 15) eqn:H2, (m <? 64) eqn:H3, (m <? 8192) eqn:H4, (n <? 64) eqn:H5, (n <? 8192) eqn:H6; lia.
Qed.

Lemma msize_nonneg E v : forall t, 0 <= msize E v t.
Proof.
  induction v as [b|z|z|z|z|z|l|l|vs IH| |v IH|v IH|u v IH|m|vs IH|i v IH] using value_induction; intros t; cbn [msize]; try lia;
    try (pose proof (vsize_pos (zigzag z)); lia); try (pose proof (vsize_pos (zlen l)); pose proof (zlen_nonneg l); lia).
  - destruct t; try lia. assert (0 <= zsum (map (fun w => msize E w t) vs)).
    { unfold zsum. induction IH as [|w vs Hw _ IHvs]; cbn [map fold_right]; [lia|]. specialize (Hw t). lia. }
    unfold lsize. pose proof (vsize_pos (zlen vs)). destruct (_ <? 15); lia.
  - destruct t; try lia; apply IH.
  - destruct t; try lia; apply IH.
  - destruct t; try lia; apply IH.
  - unfold lsize. pose proof (zlen_nonneg (bits_from 32 0 m)). pose proof (vsize_pos (zlen (bits_from 32 0 m))). destruct (_ <? 15); lia.
  - destruct t; try lia. destruct (lookup E name) as [[fs|fs|]|]; try lia. pose proof (lead_nonneg fs vs).
    assert (0 <= msum (msize E) fs vs); [|lia]. clear H. revert fs. induction IH as [|w vs Hw _ IHvs]; intros [|f fs]; cbn [msum]; try lia.
    fold (msum (msize E)). specialize (IHvs fs). specialize (Hw (field_ty f)). unfold psz. destruct (here f w), (obool w); lia.
  - destruct t; try lia. destruct (lookup E name) as [[fs|fs|]|]; try lia. destruct (nth_error fs i) as [f|]; [|lia].
    pose proof (way_pos 0 (f_id f)). unfold psz. specialize (IH (f_ty f)). destruct (obool v); lia.
Qed.
Lemma psz_nonneg E v t : 0 <= psz (msize E) v t.
Proof. unfold psz. destruct (obool v); [lia|apply msize_nonneg]. Qed.
Lemma bsize_option E v t : bsize E v (TOption t) = 0.
Proof. destruct v; reflexivity. Qed.
Lemma bsize_psz E v : forall t, bsize E v t <= psz (msize E) v t.
Proof.
  induction v as [b|z|z|z|z|z|l|l|vs IH| |v IH|v IH|u v IH|m|vs IH|i v IH] using value_induction; intros t; try (cbn [bsize]; apply psz_nonneg).
  - destruct t; try apply psz_nonneg. cbn [bsize]. unfold psz. cbn [obool msize]. specialize (IH t). unfold psz in IH. pose proof (msize_nonneg E v t). destruct (obool v); lia.
  - destruct t; try apply psz_nonneg. cbn [bsize]. unfold psz. cbn [obool msize]. specialize (IH t). unfold psz in IH. pose proof (msize_nonneg E v t). destruct (obool v); lia.
  - destruct t; try apply psz_nonneg. cbn [bsize]. unfold psz at 1. cbn [obool msize]. destruct (lookup E name) as [[fs|fs|]|]; try lia.
    assert (ksum (msize E) (bsize E) fs vs <= msum (msize E) fs vs).
    { revert fs. induction IH as [|w vs Hw _ IHvs]; intros [|f fs]; cbn [msum ksum]; try lia.
      fold (msum (msize E)) (ksum (msize E) (bsize E)). specialize (IHvs fs). specialize (Hw (field_ty f)). unfold here.
      destruct (f_req f); cbn [orb]; [lia|]. destruct w; lia. }
    pose proof (lead_nonneg fs vs). destruct (existsb f_req fs); lia.
Qed.
Lemma default_bsize E d : forall t v, default E d t = Some v -> bsize E v t = 0.
Proof.
  induction d as [|d IH]; intros t v H; [discriminate|]. cbn [default] in H.
  destruct t; try (injection H as <-; reflexivity).
  - destruct (default E d t) as [w|] eqn:Hw; [|discriminate]. injection H as <-. cbn [bsize]. apply IH. exact Hw.
  - destruct (default E d t) as [w|] eqn:Hw; [|discriminate]. injection H as <-. cbn [bsize]. apply IH. exact Hw.
  - destruct (lookup E name) as [[fs|[|f fs]|]|] eqn:Hl; try discriminate.
    + destruct (sequence _) as [vs|] eqn:Hs; [|discriminate]. injection H as <-. cbn [bsize]. rewrite Hl. clear Hl.
      assert (G : ksum (msize E) (bsize E) fs vs = 0 /\ (existsb f_req fs = false -> ways fs vs = [])).
      { revert vs Hs. induction fs as [|f fs IHf]; intros vs Hs; cbn [map sequence] in Hs; [injection Hs as <-; split; reflexivity|].
        destruct (default E d (field_ty f)) as [w|] eqn:Hw; [|discriminate].
        destruct (sequence (map _ fs)) as [r|] eqn:Hr; [|discriminate]. injection Hs as <-.
        destruct (IHf r eq_refl) as [I1 I2]. cbn [ksum existsb ways]. fold (ksum (msize E) (bsize E)). rewrite I1. unfold here.
        destruct (f_req f) eqn:Hq; cbn [orb].
        - split; [|discriminate]. rewrite (IH _ _ Hw). reflexivity.
        - unfold field_ty in Hw. rewrite Hq in Hw. destruct d as [|d']; [discriminate|]. cbn [default] in Hw. injection Hw as <-.
          split; [reflexivity|]. exact I2. }
      destruct G as [G1 G2]. rewrite G1. destruct (existsb f_req fs); [reflexivity|]. unfold lead. rewrite G2; reflexivity.
    + destruct (default E d (f_ty f)) as [w|]; [|discriminate]. injection H as <-. reflexivity.
    + injection H as <-. reflexivity.
Qed.

(** For values that fit their headers this is the size written *)
Lemma csize_msize E v : forall t, fits E v t = true -> csize E v t <= msize E v t.
Proof.
  induction v as [b|z|z|z|z|z|l|l|vs IH| |v IH|v IH|u v IH|m|vs IH|i v IH] using value_induction; intros t Hf; try (cbn [csize msize]; lia).
  - destruct t; cbn [csize msize fits] in *; try lia. apply Z.add_le_mono_l.
    induction IH as [|w vs Hw _ IHvs]; [cbn; lia|]. cbn [map forallb] in *. unfold zsum in *. cbn [fold_right].
    apply andb_true_iff in Hf as [Hf1 Hf2]. specialize (Hw t Hf1). specialize (IHvs Hf2). lia.
  - destruct t; cbn [csize msize fits] in *; try lia; apply IH; exact Hf.
  - destruct t; cbn [csize msize fits] in *; try lia; apply IH; exact Hf.
  - destruct t; cbn [csize msize fits] in *; try lia; apply IH; exact Hf.
  - destruct t; cbn [csize msize fits] in *; try lia. destruct (lookup E name) as [[fs|fs|]|]; try lia. apply Z.add_le_mono_r.
    assert (Hp : forall w t', (forall t, fits E w t = true -> csize E w t <= msize E w t) -> fits E w t' = true ->
      (if obool w then 0 else csize E w t') <= psz (msize E) w t').
    { intros w t' Hw Ht. unfold psz. specialize (Hw t' Ht). destruct (obool w); lia. }
    assert (Hafter : forall fs vs last, Forall (fun w => forall t, fits E w t = true -> csize E w t <= msize E w t) vs -> 0 < last ->
      fields_fit (fits E) last fs vs = true -> fields_size (csize E) last fs vs <= msum (msize E) fs vs /\
        forall i f w, nth_error fs i = Some f -> nth_error vs i = Some w -> here f w = true -> last < f_id f <= 32767).
    { clear - Hp. induction fs as [|f fs IHf]; intros vs last Hall Hlast Hfit; destruct Hall as [|w vs Hw Hall];
        cbn [fields_fit fields_size msum] in *; try (split; [lia|]; intros [|?] ? ? ? ?; discriminate).
      fold (fields_fit (fits E)) in Hfit. fold (fields_size (csize E)) (msum (msize E)).
      assert (Hin : here f w = true -> header_ok last (f_id f) && not_option (f_ty f) && fits E w (field_ty f) && fields_fit (fits E) (f_id f) fs vs = true ->
        hsize last (f_id f) + (if obool w then 0 else csize E w (field_ty f)) + fields_size (csize E) (f_id f) fs vs <= 1 + psz (msize E) w (field_ty f) + msum (msize E) fs vs /\
        forall i g w', nth_error (f :: fs) i = Some g -> nth_error (w :: vs) i = Some w' -> here g w' = true -> last < f_id g <= 32767).
      { intros _ H. rewrite !andb_true_iff in H. destruct H as [[[H1 _] H3] H4]. unfold header_ok in H1.
        destruct (IHf vs (f_id f) Hall ltac:(lia) H4) as [I1 I2]. specialize (Hp w _ Hw H3).
        assert (hsize last (f_id f) = 1) as -> by (unfold hsize; destruct ((1 <=? f_id f - last) && (f_id f - last <=? 15)) eqn:?; [reflexivity|lia]).
        split; [lia|]. intros [|i] g w' Hg Hw' Hh; cbn [nth_error] in Hg, Hw'; [injection Hg as <-; lia|].
        specialize (I2 i g w' Hg Hw' Hh). lia. }
      assert (Hno : here f w = false -> fields_fit (fits E) last fs vs = true -> fields_size (csize E) last fs vs <= 0 + msum (msize E) fs vs /\
        forall i g w', nth_error (f :: fs) i = Some g -> nth_error (w :: vs) i = Some w' -> here g w' = true -> last < f_id g <= 32767).
      { intros Hh H. destruct (IHf vs last Hall Hlast H) as [I1 I2]. split; [lia|].
        intros [|i] g w' Hg Hw' Hh'; cbn [nth_error] in Hg, Hw'; [congruence|]. exact (I2 i g w' Hg Hw' Hh'). }
      unfold here in Hin, Hno |- *. destruct (f_req f); cbn [orb] in *; [apply Hin; auto|]. destruct w; try (apply Hin; auto; fail). apply Hno; auto. }
    assert (Hfirst : fields_size (csize E) 0 fs vs <= msum (msize E) fs vs + lead fs vs); [|lia].
    assert (G : (ways fs vs = [] /\ fields_size (csize E) 0 fs vs = 0) \/
      exists m, 0 < m /\ ways fs vs <> [] /\ fields_size (csize E) 0 fs vs <= msum (msize E) fs vs + way 0 m - 1 /\
        forall i f w, nth_error fs i = Some f -> nth_error vs i = Some w -> here f w = true -> m <= f_id f <= 32767).
    { revert fs Hf. induction IH as [|w vs Hw Hall IHvs]; intros fs Hfit; [left; destruct fs; split; reflexivity|].
      destruct fs as [|f fs]; [left; split; reflexivity|]. cbn [fields_fit fields_size msum ways] in *.
      fold (fields_fit (fits E)) in Hfit. fold (fields_size (csize E)) (msum (msize E)).
      assert (Hin : here f w = true -> header_ok 0 (f_id f) && not_option (f_ty f) && fits E w (field_ty f) && fields_fit (fits E) (f_id f) fs vs = true ->
        exists m, 0 < m /\ [way 0 (f_id f)] ++ ways fs vs <> [] /\
        hsize 0 (f_id f) + (if obool w then 0 else csize E w (field_ty f)) + fields_size (csize E) (f_id f) fs vs <= 1 + psz (msize E) w (field_ty f) + msum (msize E) fs vs + way 0 m - 1 /\
        forall i g w', nth_error (f :: fs) i = Some g -> nth_error (w :: vs) i = Some w' -> here g w' = true -> m <= f_id g <= 32767).
      { intros _ H. rewrite !andb_true_iff in H. destruct H as [[[H1 _] H3] H4]. unfold header_ok in H1.
        destruct (Hafter fs vs (f_id f) Hall ltac:(lia) H4) as [I1 I2]. specialize (Hp w _ Hw H3).
        exists (f_id f). split; [lia|]. split; [discriminate|]. rewrite way_hsize by lia. split; [lia|].
        intros [|i] g w' Hg Hw' Hh; cbn [nth_error] in Hg, Hw'; [injection Hg as <-; lia|]. specialize (I2 i g w' Hg Hw' Hh). lia. }
      assert (Hno : here f w = false -> fields_fit (fits E) 0 fs vs = true ->
        ([] ++ ways fs vs = [] /\ fields_size (csize E) 0 fs vs = 0) \/
        exists m, 0 < m /\ [] ++ ways fs vs <> [] /\ fields_size (csize E) 0 fs vs <= 0 + msum (msize E) fs vs + way 0 m - 1 /\
        forall i g w', nth_error (f :: fs) i = Some g -> nth_error (w :: vs) i = Some w' -> here g w' = true -> m <= f_id g <= 32767).
      { intros Hh H. destruct (IHvs fs H) as [I1|(m & I1 & I2 & I3 & I4)]; [left; exact I1|right].
        exists m. split; [exact I1|]. split; [exact I2|]. split; [lia|].
        intros [|i] g w' Hg Hw' Hh'; cbn [nth_error] in Hg, Hw'; [congruence|]. exact (I4 i g w' Hg Hw' Hh'). }
      unfold here in Hin, Hno |- *. destruct (f_req f); cbn [orb] in *; [right; apply Hin; auto|]. destruct w; try (right; apply Hin; auto; fail). apply Hno; auto. }
    destruct G as [[G1 G2]|(m & G1 & G2 & G3 & G4)].
    + rewrite G2. pose proof (lead_nonneg fs vs). pose proof (msize_nonneg E (VStruct vs) (TNamed name)).
      assert (0 <= msum (msize E) fs vs); [|lia]. clear. revert fs. induction vs as [|w vs IHvs]; intros [|f fs]; cbn [msum]; try lia.
      fold (msum (msize E)). specialize (IHvs fs). pose proof (psz_nonneg E w (field_ty f)). destruct (here f w); lia.
    + pose proof (lead_ge fs vs (way 0 m) G2 ltac:(intros i f w H1 H2 H3; destruct (G4 i f w H1 H2 H3); apply way_mono; lia)). lia.
  - destruct t; cbn [csize msize fits] in *; try lia. destruct (lookup E name) as [[fs|fs|]|]; try lia. destruct (nth_error fs i) as [f|]; [|lia].
    rewrite !andb_true_iff in Hf. destruct Hf as [[H1 _] H3]. unfold header_ok in H1. rewrite way_hsize by lia.
    unfold psz. specialize (IH _ H3). destruct (obool v); lia.
Qed.

(** * Filling *)
Lemma lsize_mono m n : 0 <= m <= n -> lsize m <= lsize n.
Proof. intros H. unfold lsize. pose proof (vsize_mono m n H). pose proof (vsize_pos n). destruct (m <? 15) eqn:?, (n <? 15) eqn:?; lia. Qed.
Lemma bits_lor m v : 0 <= v < 31 -> zlen (bits_from 32 0 (Z.lor m (wrapu 32 (Z.shiftl 1 v)))) <= zlen (bits_from 32 0 m) + 1.
Proof.
  intros Hv. assert (Hw : wrapu 32 (Z.shiftl 1 v) = 2 ^ v).
  { rewrite Z.shiftl_1_l. unfold wrapu. apply Z.mod_small. split; [apply Z.pow_nonneg; lia|]. apply Z.pow_lt_mono_r; lia. }
  rewrite Hw. unfold zlen. replace (Z.of_nat (List.length (bits_from 32 0 m)) + 1) with (Z.of_nat (List.length (v :: bits_from 32 0 m))) by (cbn [List.length]; lia).
  apply inj_le. apply NoDup_incl_length; [apply bits_from_NoDup|]. intros x Hx. apply bits_from_In in Hx as [H1 H2].
  rewrite Z.lor_spec, Z.pow2_bits_eqb in H2 by lia. destruct (v =? x) eqn:Hvx; [left; lia|right].
  apply bits_from_In. rewrite orb_false_r in H2. split; assumption.
Qed.

Fixpoint state_sum (E : env) (flags : list bool) (fs : list field) (vs : list value) : Z :=
  match flags, fs, vs with
  | b :: flags', f :: fs', w :: vs' =>
      (if b then 1 + psz (msize E) w (field_ty f)
       else if f_req f then bsize E w (field_ty f) else match w with VNone => 0 | _ => 1 + psz (msize E) w (field_ty f) end)
      + state_sum E flags' fs' vs'
  | _, _, _ => 0
  end.
Lemma state_start E fs : forall vs, state_sum E (map (fun _ => false) fs) fs vs = ksum (msize E) (bsize E) fs vs.
Proof. induction fs as [|f fs IH]; intros [|v vs]; cbn [map state_sum ksum]; try reflexivity. rewrite IH. reflexivity. Qed.
Lemma state_end E fs : forall flags vs, List.length flags = List.length fs -> first_missing fs flags = None -> msum (msize E) fs vs <= state_sum E flags fs vs.
Proof.
  induction fs as [|f fs IH]; intros [|b flags] [|v vs] Hl Hm; cbn [List.length] in Hl; try discriminate; cbn [msum state_sum first_missing] in *; try lia.
  fold (msum (msize E)). destruct (f_req f && negb b) eqn:Hq; [discriminate|]. specialize (IH flags vs ltac:(lia) Hm).
  pose proof (psz_nonneg E v (field_ty f)). unfold here. destruct (f_req f), b; cbn [orb andb negb] in *; try discriminate; destruct v; lia.
Qed.
Lemma state_set E fs : forall flags vs i f v v', List.length flags = List.length fs -> nth_error fs i = Some f -> nth_error vs i = Some v ->
  state_sum E (set_nth flags i true) fs (set_nth vs i v') + bsize E v (field_ty f) <= state_sum E flags fs vs + 1 + psz (msize E) v' (field_ty f).
Proof.
  induction fs as [|g fs IH]; intros [|b flags] [|w vs] [|i] f v v' Hl Hf Hv; cbn [List.length nth_error] in *; try discriminate; cbn [set_nth state_sum].
  - injection Hf as ->. injection Hv as ->. pose proof (bsize_psz E v (field_ty f)). pose proof (psz_nonneg E v (field_ty f)).
    destruct b; [lia|]. destruct (f_req f) eqn:Hq; [lia|].
    assert (bsize E v (field_ty f) = 0) as -> by (unfold field_ty; rewrite Hq; apply bsize_option). destruct v; lia.
  - specialize (IH flags vs i f v v' ltac:(lia) Hf Hv). lia.
Qed.
Lemma nth_set {A} (l : list A) : forall i j a b, nth_error l j = Some b -> nth_error (set_nth l i a) j = Some (if Nat.eqb i j then a else b).
Proof. induction l as [|x l IH]; intros [|i] [|j] a b H; cbn [nth_error set_nth] in *; try discriminate; auto; try exact H. rewrite (IH i j a b H). reflexivity. Qed.
Lemma closed_ksum E fs : existsb f_req fs = false -> forall vs, ksum (msize E) (bsize E) fs vs = msum (msize E) fs vs.
Proof.
  induction fs as [|f fs IH]; intros H [|v vs]; try reflexivity. cbn [existsb ksum msum] in *. fold (ksum (msize E) (bsize E)) (msum (msize E)).
  apply orb_false_iff in H as [H1 H2]. rewrite (IH H2). unfold here. rewrite H1. cbn [orb]. destruct v; reflexivity.
Qed.
Lemma missing_all fs : first_missing fs (map (fun _ => false) fs) = None -> existsb f_req fs = false.
Proof. induction fs as [|f fs IH]; cbn [map first_missing existsb]; [reflexivity|]. destruct (f_req f); cbn [andb negb orb]; [discriminate|exact IH]. Qed.

Section Rewrite.
  Context {S : Type}.
  Variables (c : cfg) (I : input S) (inv : S -> Prop) (le : S -> S -> Prop) (okp : panic -> Prop).
  Hypothesis L : lawful c I inv le okp.
  Hypothesis Hc : cfg_ok c.
  Notation left := (in_left I).
  Notation tm := (tame le okp).
  Notation O := (lw_order _ _ _ _ _ L).
  Notation took := (used left).
  Hypothesis Hdouble : forall s, inv s -> tm s (in_read_double I) (fun s' _ => 8 <= took s s').
  Hypothesis Hbinary : forall s, inv s -> tm s (in_read_binary I) (fun s' l => vsize (zlen l) + zlen l <= took s s').

  Lemma uleb_took s : inv s -> tm s (decode_uleb c (in_read_byte I) left) (fun s' n => in_u 64 n /\ vsize n <= took s s').
  Proof. intros Hi. apply (decode_used c inv); [exact O|apply (lw_byte _ _ _ _ _ L)|apply (lw_overflow _ _ _ _ _ L)|exact Hi]. Qed.
  Lemma zigzag_took b n k : 0 <= b -> in_u 64 n -> vsize n <= k -> vsize (zigzag (unzigzag (wrapu b n))) <= k.
  Proof.
    intros Hb Hn Hk. unfold in_u in Hn. pose proof (wrapu_le b n Hb ltac:(lia)) as [H1 H2]. rewrite zigzag_unzigzag by exact H1.
    pose proof (vsize_mono (wrapu b n) n ltac:(lia)). lia.
  Qed.
  Lemma i16_took s : inv s -> tm s (read_i16 c I) (fun s' z => vsize (zigzag z) <= took s s').
  Proof.
    intros Hi. eapply (tame_bind inv); [exact O|exact Hi|apply uleb_took; exact Hi|]. intros s1 n _ _ _ [H1 H2]. apply (tame_ret inv) with (1 := O).
    rewrite zigzag_decode16_spec by (apply wrapu_range; lia). apply zigzag_took; [lia|exact H1|exact H2].
  Qed.
  Lemma i32_took s : inv s -> tm s (read_i32 c I) (fun s' z => vsize (zigzag z) <= took s s').
  Proof.
    intros Hi. eapply (tame_bind inv); [exact O|exact Hi|apply uleb_took; exact Hi|]. intros s1 n _ _ _ [H1 H2]. apply (tame_ret inv) with (1 := O).
    rewrite zigzag_decode32_spec by (apply wrapu_range; lia). apply zigzag_took; [lia|exact H1|exact H2].
  Qed.
  Lemma i64_took s : inv s -> tm s (read_i64 c I) (fun s' z => vsize (zigzag z) <= took s s').
  Proof.
    intros Hi. eapply (tame_bind inv); [exact O|exact Hi|apply uleb_took; exact Hi|]. intros s1 n _ _ _ [H1 H2]. apply (tame_ret inv) with (1 := O).
    rewrite zigzag_decode64_spec by (apply wrapu_range; lia). apply zigzag_took; [lia|exact H1|exact H2].
  Qed.
  Lemma header_took s last : inv s -> in_s 16 last ->
    tm s (read_field_header c I last) (fun s' '(ft, id) => 1 <= took s s' /\ (ft <> 0 -> headed last id (took s s'))).
  Proof.
    intros Hi Hlast. unfold used. eapply (tame_bind inv); [exact O|exact Hi|apply (lw_byte _ _ _ _ _ L); exact Hi|].
    intros s1 b Hi1 Hle Hl [Hb Hlt]. cbv beta zeta.
    destruct (b =? 0) eqn:Hb0; [apply (tame_ret inv) with (1 := O); split; [lia|intros H; lia]|].
    assert (Hsh : 0 <= Z.shiftr b 4 <= 15).
    { rewrite Z.shiftr_div_pow2 by lia. unfold is_byte in Hb. change (2 ^ 4) with 16. lia. }
    destruct (negb (Z.shiftr b 4 =? 0)) eqn:Hd.
    - destruct (overflow_checks c && (32767 <? last + Z.shiftr b 4)) eqn:Hov.
      + apply (tame_crash inv) with (1 := O). apply (lw_overflow _ _ _ _ _ L). apply andb_true_iff in Hov as [Hov _]. exact Hov.
      + apply (tame_ret inv) with (1 := O). split; [lia|]. intros _. eapply headed_more; [apply headed_near; [exact Hlast|]|]; lia.
    - eapply (tame_bind inv) with (Q1 := fun s' id => in_s 16 id /\ vsize (zigzag id) <= Z.of_nat (left s1) - Z.of_nat (left s')); [exact O|exact Hi1| |].
      + unfold read_full_field_id. eapply (tame_bind inv); [exact O|exact Hi1|apply uleb_took; exact Hi1|].
        intros s2 n _ _ _ [H1 H2]. apply (tame_ret inv) with (1 := O). pose proof (wrapu_range 16 n ltac:(lia)) as Hr.
        rewrite zigzag_decode16_spec by exact Hr. split; [apply unzigzag_range; [lia|exact Hr]|].
        apply zigzag_took; [lia|exact H1|exact H2].
      + intros s2 id _ _ Hl2 [H1 H2]. apply (tame_ret inv) with (1 := O). split; [pose proof (vsize_pos (zigzag id)); lia|].
        intros _. eapply headed_more; [apply (headed_far last id _ H1 H2)|]. lia.
  Qed.
  Lemma collection_took s : inv s -> tm s (read_collection_len_and_type c I) (fun s' '(n, et) => 0 <= n /\ lsize n <= took s s').
  Proof.
    intros Hi. unfold used. eapply (tame_bind inv); [exact O|exact Hi|apply (lw_byte _ _ _ _ _ L); exact Hi|].
    intros s1 b Hi1 Hle Hl [Hb Hlt]. cbv beta zeta.
    eapply (tame_bind inv) with (Q1 := fun s' n => 0 <= n /\ lsize n <= Z.of_nat (left s) - Z.of_nat (left s')); [exact O|exact Hi1| |].
    - rewrite list_nibbles by exact Hb. destruct (negb (b / 16 =? 15)) eqn:Hn.
      + apply (tame_ret inv) with (1 := O). unfold is_byte in Hb. unfold lsize. destruct (b / 16 <? 15) eqn:?; lia.
      + eapply tame_weaken; [apply (len_used c inv le left okp); [exact O|apply (lw_byte _ _ _ _ _ L)|apply (lw_overflow _ _ _ _ _ L)|exact Hi1|]|].
        * destruct Hc as [[H|H] _]; rewrite H; lia.
        * cbn beta. unfold used. intros s2 n [H1 H2]. split; [exact H1|]. unfold lsize. pose proof (vsize_pos n). destruct (n <? 15); lia.
    - intros s2 n _ _ _ [H1 H2]. destruct (MAX_COLLECTION_LEN <? n).
      + apply (tame_fail inv) with (1 := O).
      + apply (tame_ret inv) with (1 := O). auto.
  Qed.

  Variables (E : env) (K : nat).
  Hypothesis HE : env_closed E K = true.
  Hypothesis Hpanic : okp PStack.

  Definition keeps (s : S) (r : S * value * outcome unit) (k : Z) (sz : value -> Z) : Prop :=
    match r with (s', v', Ok _) => le s' s /\ sz v' <= k + took s s' | _ => True end.
  Lemma keeps_assign {A} s v (m : M S A) (k : A -> value) n sz : 0 <= n ->
    tm s m (fun s' a => sz (k a) <= took s s') -> keeps s (assign m k v s) n sz.
  Proof. intros Hn [H1 H2]. unfold keeps, assign. destruct (m s) as [s' [a|e|p]]; cbn [fst snd] in *; auto. split; [exact H1|lia]. Qed.
  Lemma keeps_vec t dv fill1 s0 :
    (forall v, dv = Some v -> bsize E v t = 0) ->
    (forall v s, inv s -> le s s0 -> keeps s (fill1 v s) (bsize E v t) (fun w => msize E w t)) ->
    forall n s, inv s -> le s s0 ->
    match vec_loop dv fill1 n s with
    | (s', vs, Ok _) => le s' s /\ zlen vs = Z.of_nat n /\ zsum (map (fun w => msize E w t) vs) <= took s s'
    | _ => True
    end.
  Proof.
    intros Hdv Hf. unfold used. induction n as [|n IH]; intros s Hi Hle; cbn [vec_loop].
    - split; [apply (or_refl _ _ _ O)|]. split; [reflexivity|]. cbn. lia.
    - destruct dv as [dv'|]; [|exact Coq.Init.Logic.I]. specialize (Hf dv' s Hi Hle). unfold keeps, used in Hf. rewrite (Hdv dv' eq_refl) in Hf.
      destruct (fill1 dv' s) as [[s1 v1] [u|e|p]]; auto. destruct Hf as (H1 & H2).
      specialize (IH s1 (or_inv _ _ _ O _ _ H1 Hi) (or_trans _ _ _ O _ _ _ H1 Hle)).
      destruct (vec_loop (Some dv') fill1 n s1) as [[s2 vs] [u2|e|p]]; auto. destruct IH as (H4 & H5 & H6).
      split; [eapply (or_trans _ _ _ O); eassumption|]. unfold zlen in *. cbn [map List.length]. unfold zsum in *. cbn [fold_right]. split; lia.
  Qed.

  Lemma keeps_struct name fs ff sk s0 :
    (forall f ft v s, In f fs -> inv s -> le s s0 -> keeps s (ff (field_ty f) ft v s) (bsize E v (field_ty f)) (fun w => psz (msize E) w (field_ty f))) ->
    (forall f ft v s s' v' u, In f fs -> ff (field_ty f) ft v s = (s', v', Ok u) -> here f v' = true) ->
    (forall ft s, inv s -> le s s0 -> tm s (sk ft) (fun _ _ => True)) ->
    forall fuel last flags vs s, inv s -> le s s0 -> in_s 16 last -> List.length flags = List.length fs ->
    match struct_loop c I name fs ff sk fuel last flags vs s with
    | (s', vs', Ok _) => le s' s /\ exists flags', List.length flags' = List.length fs /\ first_missing fs flags' = None /\
        state_sum E flags' fs vs' + 1 <= state_sum E flags fs vs + took s s' /\
        (forall i f v, nth_error fs i = Some f -> nth_error vs i = Some v -> here f v = true -> exists v', nth_error vs' i = Some v' /\ here f v' = true) /\
        ((flags' = flags /\ vs' = vs) \/
         exists i f v, nth_error fs i = Some f /\ nth_error vs' i = Some v /\ here f v = true /\
           (0 < f_id f -> state_sum E flags' fs vs' + way last (f_id f) <= state_sum E flags fs vs + took s s') /\ f_id f <= 32767)
    | _ => True
    end.
  Proof.
    intros Hff Hhere Hsk. unfold used. induction fuel as [|fuel IH]; intros last flags vs s Hi Hle Hlast Hlen; cbn [struct_loop]; [exact Coq.Init.Logic.I|].
    pose proof (header_took s last Hi Hlast) as [H1 H2]. unfold used in H2.
    destruct (read_field_header c I last s) as [s1 [[ft last']|e|p]]; cbn [fst snd] in *; auto.
    destruct H2 as [Ht1 Hhead]. pose proof (or_inv _ _ _ O _ _ H1 Hi) as Hi1. pose proof (or_trans _ _ _ O _ _ _ H1 Hle) as Hle1.
    destruct (ft =? 0) eqn:Hft.
    { destruct (first_missing fs flags) eqn:Hm; [exact Coq.Init.Logic.I|]. split; [exact H1|]. exists flags. split; [exact Hlen|]. split; [exact Hm|].
      split; [lia|]. split; [intros i f v _ Hv Hh; exists v; auto|]. left. auto. }
    destruct (Hhead ltac:(lia)) as (Hh1 & Hh2 & Hh3 & Hh4). clear Hhead.
    destruct (find_field fs last') as [[i f]|] eqn:Hfind.
    - destruct (find_field_In _ _ _ _ Hfind) as [Hnth Hid]. pose proof (nth_error_In _ _ Hnth) as Hin.
      destruct (nth_error vs i) as [v|] eqn:Hv; [|exact Coq.Init.Logic.I].
      specialize (Hff f ft v s1 Hin Hi1 Hle1). unfold keeps, used in Hff. specialize (Hhere f ft v s1).
      destruct (ff (field_ty f) ft v s1) as [[s2 v'] [u|e|p]]; auto. destruct Hff as (H3 & H4). specialize (Hhere s2 v' u Hin eq_refl).
      specialize (IH last' (set_nth flags i true) (set_nth vs i v') s2 (or_inv _ _ _ O _ _ H3 Hi1) (or_trans _ _ _ O _ _ _ H3 Hle1) Hh2 ltac:(rewrite set_nth_length; exact Hlen)).
      destruct (struct_loop _ _ _ _ _ _ _ _ _ _ _) as [[s3 vs'] [u3|e|p]]; auto. destruct IH as (H5 & flags' & H6 & H7 & H8 & H9 & _).
      split; [eapply (or_trans _ _ _ O); [exact H5|]; eapply (or_trans _ _ _ O); eassumption|].
      pose proof (state_set E fs flags vs i f v v' Hlen Hnth Hv) as Hset.
      exists flags'. split; [exact H6|]. split; [exact H7|]. split; [lia|]. split.
      + intros j g w Hg Hw Hwh. pose proof (nth_set vs i j v' w Hw) as Hj. destruct (Nat.eqb i j) eqn:Hij.
        * apply Nat.eqb_eq in Hij. subst j. apply (H9 i g v' Hg Hj). rewrite Hnth in Hg. injection Hg as <-. exact Hhere.
        * exact (H9 j g w Hg Hj Hwh).
      + right. pose proof (nth_set vs i i v' v Hv) as Hj. rewrite Nat.eqb_refl in Hj. destruct (H9 i f v' Hnth Hj Hhere) as (w & Hw & Hwh).
        exists i, f, w. split; [exact Hnth|]. split; [exact Hw|]. split; [exact Hwh|]. rewrite Hid. split; [|unfold in_s in Hh2; lia].
        intros Hp. specialize (Hh3 Hp). lia.
    - pose proof (Hsk ft s1 Hi1 Hle1) as [H3 H4].
      destruct (sk ft s1) as [s2 [u|e|p]]; cbn [fst snd] in *; auto. pose proof (or_left _ _ _ O _ _ H3).
      specialize (IH last' flags vs s2 (or_inv _ _ _ O _ _ H3 Hi1) (or_trans _ _ _ O _ _ _ H3 Hle1) Hh2 Hlen).
      destruct (struct_loop _ _ _ _ _ _ _ _ _ _ _) as [[s3 vs'] [u3|e|p]]; auto. destruct IH as (H5 & flags' & H6 & H7 & H8 & H9 & H10).
      split; [eapply (or_trans _ _ _ O); [exact H5|]; eapply (or_trans _ _ _ O); eassumption|].
      exists flags'. split; [exact H6|]. split; [exact H7|]. split; [lia|]. split; [exact H9|].
      destruct H10 as [H10|(i & f & v & G1 & G2 & G3 & G4 & G5)]; [left; exact H10|right].
      exists i, f, v. split; [exact G1|]. split; [exact G2|]. split; [exact G3|]. split; [|exact G5].
      intros Hp. specialize (G4 Hp). specialize (Hh4 (f_id f) ltac:(lia)). lia.
  Qed.

  Lemma fill_keeps d :
    (forall t v s, inv s -> ty_closed E t = true -> keeps s (fill c I E d t v s) (bsize E v t) (fun w => msize E w t)) /\
    (forall t ft v s, inv s -> ty_closed E t = true -> keeps s (fill_field c I E d t ft v s) (bsize E v t) (fun w => psz (msize E) w t)).
  Proof.
    assert (Hb0 : forall v t, 0 <= bsize E v t).
    { intros v. induction v as [b|z|z|z|z|z|l|l|vs IH| |v IH|v IH|u v IH|m|vs IH|i v IH] using value_induction; intros t; try (cbn [bsize]; lia).
      - destruct t; cbn [bsize]; try lia; apply IH.
      - destruct t; cbn [bsize]; try lia; apply IH.
      - destruct t; cbn [bsize]; try lia. destruct (lookup E name) as [[fs|fs|]|]; try lia. pose proof (lead_nonneg fs vs).
        assert (0 <= ksum (msize E) (bsize E) fs vs); [|destruct (existsb f_req fs); lia]. clear H. revert fs.
        induction IH as [|w vs Hw _ IHvs]; intros [|f fs]; cbn [ksum]; try lia. fold (ksum (msize E) (bsize E)).
        specialize (IHvs fs). specialize (Hw (field_ty f)). pose proof (psz_nonneg E w (field_ty f)). destruct (f_req f); [lia|]. destruct w; lia. }
    induction d as [|d [IHf IHff]]; [split; intros; exact Coq.Init.Logic.I|]. split.
    - intros t v s Hi Hcl. cbn [fill]. destruct t.
      + apply keeps_assign; [apply Hb0|]. eapply tame_weaken; [apply (lw_byte _ _ _ _ _ L); exact Hi|]. unfold used. cbn. intros; lia.
      + apply keeps_assign; [apply Hb0|]. eapply tame_weaken; [apply (lw_byte _ _ _ _ _ L); exact Hi|]. unfold used. cbn. intros; lia.
      + apply keeps_assign; [apply Hb0|]. exact (i16_took s Hi).
      + apply keeps_assign; [apply Hb0|]. exact (i32_took s Hi).
      + apply keeps_assign; [apply Hb0|]. exact (i64_took s Hi).
      + apply keeps_assign; [apply Hb0|]. exact (Hdouble s Hi).
      + apply keeps_assign; [apply Hb0|]. exact (Hbinary s Hi).
      + apply keeps_assign; [apply Hb0|]. unfold read_string. eapply (tame_bind inv); [exact O|exact Hi|apply Hbinary; exact Hi|].
        intros s1 l Hi1 Hle1 Hl1 Hb. cbn beta in Hb. destruct (utf8_valid l); [|apply (tame_fail inv) with (1 := O)].
        apply (tame_ret inv) with (1 := O). exact Hb.
      + pose proof (collection_took s Hi) as [H1 H2].
        destruct (read_collection_len_and_type c I s) as [s1 [[n et]|e|p]]; cbn [fst snd] in *; try exact Coq.Init.Logic.I.
        destruct H2 as (Hn & Hlt). pose proof (or_inv _ _ _ O _ _ H1 Hi) as Hi1.
        destruct (negb (et =? field_type E t) && negb ((field_type E t =? 2) && (et =? 1))); [exact Coq.Init.Logic.I|].
        destruct (negb (reserve c n)); [exact Coq.Init.Logic.I|]. cbn [ty_closed] in Hcl.
        pose proof (keeps_vec t (default E d t) (fill c I E d t) s1 (default_bsize E d t)) as Hv.
        specialize (Hv ltac:(intros v' s' Hi' Hle'; apply IHf; assumption) (Z.to_nat n) s1 Hi1 (or_refl _ _ _ O s1)).
        destruct (vec_loop (default E d t) (fill c I E d t) (Z.to_nat n) s1) as [[s2 vs] [u|e|p]]; try exact Coq.Init.Logic.I.
        destruct Hv as (H3 & H4 & H5). cbn [keeps msize]. split; [eapply (or_trans _ _ _ O); eassumption|].
        rewrite H4, Z2Nat.id by exact Hn. unfold used in *. specialize (Hb0 v (TVec t)). lia.
      + cbn [ty_closed] in Hcl.
        assert (Hgen : keeps s (match default E d t with
                 | None => (s, v, Panic PStack)
                 | Some dv => match fill c I E d t dv s with (s', v', o) => (s', VSome v', o) end end) (bsize E v (TOption t)) (fun w => msize E w (TOption t))).
        { rewrite bsize_option. destruct (default E d t) as [dv|] eqn:Hdv; [|exact Coq.Init.Logic.I].
          specialize (IHf t dv s Hi Hcl). unfold keeps in IHf. rewrite (default_bsize E d t dv Hdv) in IHf.
          destruct (fill c I E d t dv s) as [[s' v'] [u|e|p]]; try exact Coq.Init.Logic.I. exact IHf. }
        destruct v; try exact Hgen. exact Coq.Init.Logic.I.
      + cbn [ty_closed] in Hcl. destruct v; try exact Coq.Init.Logic.I. specialize (IHf t v s Hi Hcl). unfold keeps in IHf.
        destruct (fill c I E d t v s) as [[s' v'] [u|e|p]]; try exact Coq.Init.Logic.I. exact IHf.
      + cbn [ty_closed] in Hcl. destruct v; try exact Coq.Init.Logic.I. destruct unique; [|exact Coq.Init.Logic.I].
        specialize (IHf t v s Hi Hcl). unfold keeps in IHf.
        destruct (fill c I E d t v s) as [[s' v'] [u|e|p]]; try exact Coq.Init.Logic.I. exact IHf.
      + apply keeps_assign; [apply Hb0|]. unfold encset_read. eapply (tame_bind inv); [exact O|exact Hi|apply collection_took; exact Hi|].
        intros s1 [n et] Hi1 _ Hl1 (Hn & Hlt). destruct (negb (et =? 5)); [apply (tame_fail inv) with (1 := O)|].
        assert (G : forall k mask s', inv s' ->
          tm s' (encset_read_loop c I k mask) (fun s'' m => zlen (bits_from 32 0 m) <= zlen (bits_from 32 0 mask) + Z.of_nat k /\ Z.of_nat k <= took s' s'')).
        { unfold used. induction k as [|k IH]; intros mask s' Hi'; cbn [encset_read_loop]; [apply (tame_ret inv) with (1 := O); lia|].
          eapply (tame_bind inv); [exact O|exact Hi'|apply i32_took; exact Hi'|]. unfold used.
          intros s2 z Hi2 _ _ Hz. destruct ((z <? 0) || (31 <=? z)) eqn:Hzr; [apply (tame_fail inv) with (1 := O)|].
          eapply tame_weaken; [apply IH; exact Hi2|]. cbn beta. intros s3 m [G1 G2]. pose proof (vsize_pos (zigzag z)).
          pose proof (bits_lor mask z ltac:(lia)). split; lia. }
        eapply tame_weaken; [apply (G (Z.to_nat n) 0 s1 Hi1)|]. unfold used in *. cbn beta. intros s2 m [G1 G2]. cbn [msize].
        assert (Z0 : zlen (bits_from 32 0 0) = 0) by reflexivity. rewrite Z2Nat.id in G1, G2 by exact Hn.
        pose proof (lsize_mono (zlen (bits_from 32 0 m)) n ltac:(pose proof (zlen_nonneg (bits_from 32 0 m)); lia)). lia.
      + cbn [ty_closed] in Hcl. destruct (lookup E name) as [[fs|fs|]|] eqn:Hl; [| | |discriminate].
        * destruct v; try exact Coq.Init.Logic.I.
          pose proof (keeps_struct name fs (fun t' ft w s' => fill_field c I E d t' ft w s') (fun ft => skip_field c I d ft false) s) as Hs.
          specialize (Hs ltac:(intros f ft w s1 Hin Hi1 Hle1; destruct (closed_struct E K HE _ _ Hl f Hin) as [Hc1 _];
                               apply IHff; [exact Hi1|exact Hc1])).
          specialize (Hs ltac:(intros f ft w s1 s2 w' u Hin Hw; unfold here; destruct (f_req f) eqn:Hq; [reflexivity|]; unfold field_ty in Hw; rewrite Hq in Hw;
                               destruct d as [|d']; [discriminate|]; cbn [fill_field] in Hw;
                               assert (Hx : match default E d' (f_ty f) with
                                            | None => (s1, w, Panic PStack)
                                            | Some dv => match fill_field c I E d' (f_ty f) ft dv s1 with (s', v', o) => (s', VSome v', o) end end = (s2, w', Ok u))
                                 by (destruct w; try exact Hw; discriminate);
                               destruct (default E d' (f_ty f)); [|discriminate]; destruct (fill_field c I E d' (f_ty f) ft v s1) as [[? ?] ?];
                               injection Hx as _ <- _; reflexivity)).
          specialize (Hs ltac:(intros ft s1 Hi1 Hle1; apply (proj1 (skip_tame c I inv le okp L Hc d)); [exact Hi1|left; exact Hpanic])).
          specialize (Hs (Datatypes.S (left s)) 0 (map (fun _ => false) fs) vs s Hi (or_refl _ _ _ O s) ltac:(unfold in_s; lia) ltac:(apply map_length)).
          destruct (struct_loop _ _ _ _ _ _ _ _ _ _ _) as [[s' vs'] [u|e|p]]; try exact Coq.Init.Logic.I. destruct Hs as (H1 & flags' & H2 & H3 & H4 & _ & H5).
          rewrite state_start in *. cbn [keeps msize bsize]. rewrite Hl. split; [exact H1|].
          pose proof (state_end E fs flags' vs' H2 H3) as H6.
          destruct H5 as [[-> ->]|(i & f & w & G1 & G2 & G3 & G4 & G5)].
          -- pose proof (missing_all fs H3) as Hreq. rewrite Hreq. rewrite state_start in H4. rewrite (closed_ksum E fs Hreq vs) in *. lia.
          -- pose proof (lead_le fs vs' i f w G1 G2 G3) as Hlead.
             assert (Hx : 0 <= (if existsb f_req fs then 0 else lead fs vs)) by (pose proof (lead_nonneg fs vs); destruct (existsb f_req fs); lia).
             destruct (Z.lt_ge_cases 0 (f_id f)) as [Hp|Hn]; [specialize (G4 Hp); lia|].
             assert (way 0 (f_id f) = 1) by (unfold way; destruct (f_id f <=? 0 + 15) eqn:?; [reflexivity|lia]). lia.
        * pose proof (header_took s 0 Hi ltac:(unfold in_s; lia)) as [H1 H2].
          destruct (read_field_header c I 0 s) as [s1 [[ft last]|e|p]]; cbn [fst snd] in *; try exact Coq.Init.Logic.I.
          destruct H2 as [Hlt Hh]. pose proof (or_inv _ _ _ O _ _ H1 Hi) as Hi1. destruct (ft =? 0) eqn:Hft; [exact Coq.Init.Logic.I|].
          destruct (Hh ltac:(lia)) as (_ & _ & Hh3 & _). clear Hh.
          destruct (find_field fs last) as [[i f]|] eqn:Hfind; [|exact Coq.Init.Logic.I].
          destruct (find_field_In _ _ _ _ Hfind) as [Hnth Hid]. pose proof (nth_error_In _ _ Hnth) as Hin.
          destruct (closed_union E K HE _ _ Hl f Hin) as [Hc1 _].
          destruct (default E d (f_ty f)) as [dv|] eqn:Hdv; [|exact Coq.Init.Logic.I].
          specialize (IHf (f_ty f) dv s1 Hi1 Hc1). unfold keeps in IHf. rewrite (default_bsize E d _ dv Hdv) in IHf.
          destruct (fill c I E d (f_ty f) dv s1) as [[s2 w] [u|e|p]]; try exact Coq.Init.Logic.I. destruct IHf as (H3 & H4).
          pose proof (lw_byte _ _ _ _ _ L s2 (or_inv _ _ _ O _ _ H3 Hi1)) as [H7 H8].
          destruct (in_read_byte I s2) as [s3 [b|e|p]]; cbn [fst snd failed] in *; try exact Coq.Init.Logic.I.
          destruct (b =? 0); [|exact Coq.Init.Logic.I]. cbn [keeps msize]. rewrite Hl, Hnth.
          split; [eapply (or_trans _ _ _ O); [exact H7|]; eapply (or_trans _ _ _ O); eassumption|].
          assert (Hw : way 0 (f_id f) <= took s s1).
          { rewrite Hid. destruct (Z.lt_ge_cases 0 last) as [Hp|Hn]; [apply Hh3; exact Hp|]. unfold way. destruct (last <=? 0 + 15) eqn:?; lia. }
          unfold used in *. specialize (Hb0 v (TNamed name)). unfold psz. pose proof (msize_nonneg E w (f_ty f)). destruct (obool w); lia.
        * apply keeps_assign; [apply Hb0|]. exact (i32_took s Hi).
    - intros t ft v s Hi Hcl. cbn [fill_field].
      assert (Hother : keeps s (if negb (ft =? field_type E t) then (s, v, Err InvalidType) else fill c I E d t v s) (bsize E v t) (fun w => psz (msize E) w t)).
      { destruct (negb (ft =? field_type E t)); [exact Coq.Init.Logic.I|]. specialize (IHf t v s Hi Hcl). unfold keeps in *.
        destruct (fill c I E d t v s) as [[s' v'] [u|e|p]]; try exact Coq.Init.Logic.I. destruct IHf as (H1 & H2). split; [exact H1|].
        unfold psz. pose proof (msize_nonneg E v' t). destruct (obool v'); lia. }
      destruct t; try exact Hother.
      + cbn [keeps]. unfold psz, used. cbn [obool]. split; [apply (or_refl _ _ _ O)|]. specialize (Hb0 v TBool). lia.
      + clear Hother. cbn [ty_closed] in *.
        assert (Hgen : keeps s (match default E d t with
                 | None => (s, v, Panic PStack)
                 | Some dv => match fill_field c I E d t ft dv s with (s', v', o) => (s', VSome v', o) end end) (bsize E v (TOption t)) (fun w => psz (msize E) w (TOption t))).
        { rewrite bsize_option. destruct (default E d t) as [dv|] eqn:Hdv; [|exact Coq.Init.Logic.I].
          specialize (IHff t ft dv s Hi Hcl). unfold keeps in IHff. rewrite (default_bsize E d t dv Hdv) in IHff.
          destruct (fill_field c I E d t ft dv s) as [[s' v'] [u|e|p]]; try exact Coq.Init.Logic.I. exact IHff. }
        destruct v; try exact Hgen. exact Coq.Init.Logic.I.
  Qed.
  Lemma read_keeps d t s s' v : inv s -> ty_closed E t = true -> read_thrift c I E d t s = (s', Ok v) -> msize E v t <= took s s'.
  Proof.
    intros Hi Hcl H. unfold read_thrift in H. destruct (default E d t) as [dv|] eqn:Hdv; [|discriminate].
    pose proof (proj1 (fill_keeps d) t dv s Hi Hcl) as G. unfold keeps in G. rewrite (default_bsize E d t dv Hdv) in G.
    destruct (fill c I E d t dv s) as [[s1 v1] [u|e|p]]; try discriminate. injection H as <- <-. destruct G as [_ G]. lia.
  Qed.
End Rewrite.

(** * The two inputs *)
Lemma slice_double_took c (okp : panic -> Prop) s : bytes s ->
  tame (@suffix Z) okp s (in_read_double (slice_input c)) (fun s' _ => 8 <= used (in_left (slice_input c)) s s').
Proof.
  intros Hb. cbn [slice_input in_read_double in_left]. unfold tame, slice_read_double, used. destruct (zlen s <? 8) eqn:Hl; cbn [fst snd].
  - split; [apply suffix_refl|exact I].
  - split; [apply suffix_skipn|]. unfold slice_left, zlen in *. rewrite skipn_length. lia.
Qed.
Lemma slice_binary_took c (Hc : cfg_ok c) (okp : panic -> Prop) (Hokp : forall p, slice_panic c p -> okp p) s : bytes s ->
  tame (@suffix Z) okp s (in_read_binary (slice_input c)) (fun s' l => vsize (zlen l) + zlen l <= used (in_left (slice_input c)) s s').
Proof.
  intros Hb. pose proof (slice_lawful c Hc okp Hokp) as L. cbn [slice_input in_read_binary in_left]. unfold slice_read_binary.
  eapply (tame_bind bytes); [exact slice_order|exact Hb| |].
  - apply (len_used c bytes (@suffix Z) slice_left okp); [exact slice_order|apply (lw_byte _ _ _ _ _ L)|apply (lw_overflow _ _ _ _ _ L)|exact Hb|].
    destruct Hc as [[H|H] _]; rewrite H; lia.
  - unfold used. intros s1 n Hi1 _ _ [Hn Hlt]. destruct (MAX_BINARY_LEN <? n); [apply (tame_fail bytes) with (1 := slice_order)|].
    unfold tame. destruct (zlen s1 <? n) eqn:Hl; cbn [fst snd]; [split; [apply suffix_refl|exact I]|].
    split; [apply suffix_skipn|]. unfold slice_left, zlen in *. rewrite skipn_length, firstn_length.
    replace (Z.of_nat (Nat.min (Z.to_nat n) (List.length s1))) with n by lia. lia.
Qed.
Lemma reader_double_took c (okp : panic -> Prop) r : reader_bytes r ->
  tame later okp r (in_read_double (reader_input c)) (fun r' _ => 8 <= used (in_left (reader_input c)) r r').
Proof.
  intros Hb. cbn [reader_input in_read_double in_left]. unfold reader_read_double.
  eapply (tame_bind reader_bytes); [exact reader_order|exact Hb|apply read_exact_tame; exact Hb|].
  intros r1 l _ _ _ (_ & _ & H). apply (tame_ret reader_bytes) with (1 := reader_order). unfold used. lia.
Qed.
Lemma reader_binary_took c (Hc : cfg_ok c) (okp : panic -> Prop) (Hokp : forall p, reader_panic c p -> okp p) r : reader_bytes r ->
  tame later okp r (in_read_binary (reader_input c)) (fun r' l => vsize (zlen l) + zlen l <= used (in_left (reader_input c)) r r').
Proof.
  intros Hb. pose proof (reader_lawful c Hc okp Hokp) as L. cbn [reader_input in_read_binary in_left]. unfold reader_read_binary.
  eapply (tame_bind reader_bytes); [exact reader_order|exact Hb| |].
  - apply (len_used c reader_bytes later reader_left okp); [exact reader_order|apply (lw_byte _ _ _ _ _ L)|apply (lw_overflow _ _ _ _ _ L)|exact Hb|].
    destruct Hc as [[H|H] _]; rewrite H; lia.
  - unfold used. intros r1 n Hb1 _ _ [Hn Hlt]. destruct (MAX_BINARY_LEN <? n); [apply (tame_fail reader_bytes) with (1 := reader_order)|].
    eapply tame_weaken; [apply (read_exact_tame okp); exact Hb1|]. cbn beta. intros r2 l (_ & H2 & H3).
    unfold zlen. rewrite H2. rewrite ?Z2Nat.id by exact Hn. lia.
Qed.

(** * Theorems *)
Lemma rewritten E K t v k : env_ok false E K = true -> fits E v t = true -> typed E t v -> unwritable false v = None -> unshare v = v ->
  msize E v t <= Z.of_nat k -> exists bs, write_thrift vec_write_all E t v [] = (bs, Ok tt) /\ (List.length bs <= k)%nat.
Proof.
  intros HE Hf Ht Hu Hs Hm. destruct (valid_writes E t v Ht Hu Hs) as (bs & Hw & _). specialize (Hw []). cbn [app] in Hw.
  exists bs. split; [exact Hw|]. destruct (write_sized E K true false t v bs Ht Hw) as (_ & _ & Hg). destruct (Hg HE Hf) as [_ Hz].
  rewrite Hs in Hz. pose proof (csize_msize E v t Hf). unfold zlen in Hz. lia.
Qed.
Theorem rewrite_slice : forall c E K d t s rest v,
  cfg_ok c -> env_ok false E K = true -> ty_closed E t = true -> bytes s ->
  read_thrift c (slice_input c) E d t s = (rest, Ok v) -> fits E v t = true ->
  exists bs, write_thrift vec_write_all E t v [] = (bs, Ok tt) /\ (List.length bs + List.length rest <= List.length s)%nat.
Proof.
  intros c E K d t s rest v Hc HE Ht Hb H Hf. pose proof (env_ok_closed false E K HE) as HEc.
  destruct (read_slice_valid c E K d t s rest v Hc HEc Ht Hb H) as (H1 & H2 & H3).
  pose proof (read_keeps c _ _ _ sane (slice_lawful c Hc _ (slice_panic_sane c)) Hc (slice_double_took c _)
    (slice_binary_took c Hc _ (slice_panic_sane c)) E K HEc stack_sane d t s rest v Hb Ht H) as Hk.
  unfold used in Hk. cbn [slice_input in_left] in Hk. unfold slice_left in Hk.
  pose proof (msize_nonneg E v t).
  destruct (rewritten E K t v (List.length s - List.length rest) HE Hf H1 H2 H3 ltac:(lia)) as (bs & Hw & Hl). exists bs. split; [exact Hw|lia].
Qed.
Theorem rewrite_reader : forall c E K d t r r' v,
  cfg_ok c -> env_ok false E K = true -> ty_closed E t = true -> reader_bytes r ->
  read_thrift c (reader_input c) E d t r = (r', Ok v) -> fits E v t = true ->
  exists bs, write_thrift vec_write_all E t v [] = (bs, Ok tt) /\ (List.length bs + reader_left r' <= reader_left r)%nat.
Proof.
  intros c E K d t r r' v Hc HE Ht Hb H Hf. pose proof (env_ok_closed false E K HE) as HEc.
  destruct (read_reader_valid c E K d t r r' v Hc HEc Ht Hb H) as (H1 & H2 & H3).
  pose proof (read_keeps c _ _ _ sane (reader_lawful c Hc _ (reader_panic_sane c)) Hc (reader_double_took c _)
    (reader_binary_took c Hc _ (reader_panic_sane c)) E K HEc stack_sane d t r r' v Hb Ht H) as Hk.
  unfold used in Hk. cbn [reader_input in_left] in Hk.
  pose proof (msize_nonneg E v t).
  destruct (rewritten E K t v (reader_left r - reader_left r') HE Hf H1 H2 H3 ltac:(lia)) as (bs & Hw & Hl). exists bs. split; [exact Hw|lia].
Qed.
Theorem rewrite_parquet : forall c d n s rest v,
  cfg_ok c -> ty_closed parquet_env (TNamed n) = true -> bytes s ->
  read_thrift c (slice_input c) parquet_env d (TNamed n) s = (rest, Ok v) ->
  exists bs, write_thrift vec_write_all parquet_env (TNamed n) v [] = (bs, Ok tt) /\ (List.length bs + List.length rest <= List.length s)%nat.
Proof.
  intros c d n s rest v Hc Ht Hb H. destruct parquet_ok as (_ & HE & HW).
  assert (HE' : env_ok false parquet_env 12 = true) by (vm_compute; reflexivity).
  destruct (read_slice_valid c parquet_env 12 d (TNamed n) s rest v Hc (env_ok_closed _ _ _ HE') Ht Hb H) as (H1 & _).
  exact (rewrite_slice c parquet_env 12 d (TNamed n) s rest v Hc HE' Ht Hb H (schema_fits _ _ _ HW H1)).
Qed.
