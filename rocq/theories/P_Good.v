(** Arbitrary input: progress, absence of panics, typing of results. *)
From Coq Require Import ZifyBool ZifyNat ZifyN.
From Verif Require Import Base Uleb Utf8 Protocol Encodings Types SpecUtf8 SpecCompact Schema Typing
  P_Arith P_Reads P_Utf8 P_Gen P_Fill.
Ltac Zify.zify_post_hook ::= Z.div_mod_to_equations.

(** * Environments *)
Lemma env_ok_closed strict E K : env_ok strict E K = true -> env_closed E K = true.
Proof.
  unfold env_ok, env_closed. rewrite !forallb_forall. intros H [n d] Hin. specialize (H _ Hin). cbn in H.
  apply andb_true_iff in H as [H1 H2]. apply andb_true_iff. split; [|exact H2].
  destruct d as [fs|fs|]; cbn [def_ok def_closed] in *; [| |reflexivity];
    apply andb_true_iff in H1 as [_ H1]; rewrite forallb_forall in *; intros f Hf; specialize (H1 f Hf).
  - unfold field_ok in H1. apply andb_true_iff in H1 as [H1 _]. exact H1.
  - unfold variant_ok in H1. apply andb_true_iff in H1 as [H1 _]. exact H1.
Qed.

Lemma zero_s n : 0 < n -> in_s n 0.
Proof. intros H. assert (0 < 2 ^ (n - 1)) by (apply Z.pow_pos_nonneg; lia). unfold in_s. lia. Qed.
Lemma zero_u n : 0 <= n -> in_u n 0.
Proof. intros H. assert (0 < 2 ^ n) by (apply Z.pow_pos_nonneg; lia). unfold in_u. lia. Qed.

Section Closed.
  Variables (E : env) (K : nat).
  Hypothesis HE : env_closed E K = true.

  Lemma closed_def n d : lookup E n = Some d ->
    def_closed E K d = true /\ exists v, default E K (TNamed n) = Some v.
  Proof.
    intros H. apply lookup_In in H. unfold env_closed in HE. rewrite forallb_forall in HE.
    specialize (HE _ H). cbn in HE. apply andb_true_iff in HE as [H1 H2]. split; [exact H1|].
    destruct (default E K (TNamed n)); [eauto|discriminate].
  Qed.

  Lemma closed_default t d : ty_closed E t = true -> (ty_depth t + K <= d)%nat -> exists v, default E d t = Some v.
  Proof.
    revert d. induction t; intros d Hc Hd; cbn [ty_depth ty_closed] in *;
      (destruct d as [|d]; [lia|]); try (cbn [default]; eauto; fail).
    - cbn [default]. destruct (IHt d Hc ltac:(lia)) as [v ->]. cbn [option_map]. eauto.
    - cbn [default]. destruct (IHt d Hc ltac:(lia)) as [v ->]. cbn [option_map]. eauto.
    - destruct (lookup E name) as [df|] eqn:Hl; [|discriminate].
      destruct (closed_def _ _ Hl) as [_ [v Hv]]. exists v. eapply default_mono; [|exact Hv]. lia.
  Qed.

  Lemma closed_struct n fs : lookup E n = Some (DStruct fs) ->
    forall f, In f fs -> ty_closed E (field_ty f) = true /\ (ty_depth (field_ty f) <= K)%nat.
  Proof.
    intros H f Hf. destruct (closed_def _ _ H) as [H1 _]. cbn [def_closed] in H1. rewrite forallb_forall in H1.
    specialize (H1 f Hf). apply andb_true_iff in H1 as [H1 H2]. apply Nat.leb_le in H2. split; [|exact H2].
    unfold field_ty. destruct (f_req f); exact H1.
  Qed.
  Lemma closed_union n fs : lookup E n = Some (DUnion fs) ->
    forall f, In f fs -> ty_closed E (f_ty f) = true /\ (ty_depth (f_ty f) <= K)%nat.
  Proof.
    intros H f Hf. destruct (closed_def _ _ H) as [H1 _]. cbn [def_closed] in H1. rewrite forallb_forall in H1.
    specialize (H1 f Hf). apply andb_true_iff in H1 as [H1 H2]. apply Nat.leb_le in H2. auto.
  Qed.

  Lemma default_typed d : forall t v, ty_closed E t = true -> default E d t = Some v -> typed E t v.
  Proof.
    induction d as [|d IH]; intros t v Hc H; [discriminate|]. cbn [default] in H.
    destruct t; cbn [ty_closed] in Hc; try (injection H as <-; constructor; try (apply zero_s; lia); try (apply zero_u; lia); assumption; fail); try (injection H as <-; constructor; first [apply zero_s; lia|apply zero_u; lia]); try (injection H as <-; constructor; fail).
    - injection H as <-. constructor. constructor.
    - injection H as <-. constructor; [constructor|]. exists []. split; [constructor|reflexivity].
    - injection H as <-. constructor; [exact Hc|constructor].
    - destruct (default E d t) as [w|] eqn:Hw; [|discriminate]. injection H as <-. constructor. eauto.
    - destruct (default E d t) as [w|] eqn:Hw; [|discriminate]. injection H as <-. constructor. eauto.
    - destruct (lookup E name) as [[fs|[|f fs]|]|] eqn:Hl; try discriminate.
      + destruct (sequence _) as [vs|] eqn:Hs; [|discriminate]. injection H as <-.
        eapply ty_struct; [exact Hl|]. pose proof (closed_struct _ _ Hl) as Hfs. clear Hl.
        revert vs Hs. induction fs as [|f fs IHf]; intros vs Hs; cbn [map sequence] in Hs.
        * injection Hs as <-. constructor.
        * destruct (default E d (field_ty f)) as [w|] eqn:Hw; [|discriminate].
          destruct (sequence (map _ fs)) as [r|] eqn:Hr; [|discriminate]. injection Hs as <-.
          constructor; [apply IH; [apply Hfs; left; reflexivity|exact Hw]|].
          apply IHf; [intros g Hg; apply Hfs; right; exact Hg|reflexivity].
      + destruct (default E d (f_ty f)) as [w|] eqn:Hw; [|discriminate]. injection H as <-.
        eapply ty_union; [exact Hl|reflexivity|]. apply IH; [|exact Hw].
        apply (closed_union _ _ Hl). left. reflexivity.
      + injection H as <-. apply ty_enum; [exact Hl|apply zero_s; lia].
  Qed.
End Closed.

(** * Lists of fields *)
Lemma typed_fields_nth E fs vs i f : typed_fields E fs vs -> nth_error fs i = Some f ->
  exists v, nth_error vs i = Some v /\ typed E (field_ty f) v.
Proof.
  intros H. revert i. induction H as [|g fs v vs Hv Hvs IH]; intros [|i] Hi; cbn [nth_error] in *; try discriminate.
  - injection Hi as <-. eauto.
  - apply IH. exact Hi.
Qed.
Lemma typed_fields_set E fs vs i f v : typed_fields E fs vs -> nth_error fs i = Some f -> typed E (field_ty f) v ->
  typed_fields E fs (set_nth vs i v).
Proof.
  intros H. revert i. induction H as [|g fs w vs Hw Hvs IH]; intros [|i] Hi Hv; cbn [nth_error set_nth] in *; try discriminate.
  - injection Hi as <-. constructor; assumption.
  - constructor; [assumption|]. apply IH; assumption.
Qed.

(** * Lawful inputs *)
Section Tame.
  Context {S : Type}.
  Variable inv : S -> Prop.          (* the input holds bytes *)
  Variable le : S -> S -> Prop.      (* is a later position of *)
  Variable left : S -> nat.
  Variable okp : panic -> Prop.      (* panics that can happen *)

  (** [m] started in [s] moves forward, satisfies [Q] if it succeeds, and only
      panics as allowed. *)
  Definition tame {A} (s : S) (m : M S A) (Q : S -> A -> Prop) : Prop :=
    le (fst (m s)) s /\
    match snd (m s) with Ok a => Q (fst (m s)) a | Err _ => True | Panic p => okp p end.

  Record order : Prop := {
    or_refl : forall s, le s s;
    or_trans : forall s1 s2 s3, le s1 s2 -> le s2 s3 -> le s1 s3;
    or_left : forall s' s, le s' s -> (left s' <= left s)%nat;
    or_inv : forall s' s, le s' s -> inv s -> inv s'
  }.
  Hypothesis O : order.

  Lemma tame_ret {A} s (a : A) (Q : S -> A -> Prop) : Q s a -> tame s (ret a) Q.
  Proof. intros H. split; [apply (or_refl O)|exact H]. Qed.
  Lemma tame_fail {A} s e (Q : S -> A -> Prop) : tame s (fail e) Q.
  Proof. split; [apply (or_refl O)|exact I]. Qed.
  Lemma tame_crash {A} s p (Q : S -> A -> Prop) : okp p -> tame s (crash p) Q.
  Proof. intros H. split; [apply (or_refl O)|exact H]. Qed.
  Lemma tame_bind {A B} s (m : M S A) (f : A -> M S B) (Q1 : S -> A -> Prop) (Q2 : S -> B -> Prop) :
    inv s -> tame s m Q1 ->
    (forall s' a, inv s' -> le s' s -> (left s' <= left s)%nat -> Q1 s' a -> tame s' (f a) Q2) ->
    tame s (bind m f) Q2.
  Proof.
    intros Hi [H1 H2] Hf. unfold tame, bind. destruct (m s) as [s1 [a|e|p]]; cbn [fst snd] in *.
    - specialize (Hf s1 a (or_inv O _ _ H1 Hi) H1 (or_left O _ _ H1) H2). destruct Hf as [H3 H4]. split; [|exact H4].
      eapply (or_trans O); eassumption.
    - auto.
    - auto.
  Qed.
  Lemma tame_weaken {A} s (m : M S A) (Q1 Q2 : S -> A -> Prop) :
    tame s m Q1 -> (forall s' a, Q1 s' a -> Q2 s' a) -> tame s m Q2.
  Proof. intros [H1 H2] H. split; [exact H1|]. destruct (snd (m s)); auto. Qed.
  Lemma tame_repeat s (m : M S unit) (Q : S -> Prop) n :
    inv s -> Q s -> (forall s', inv s' -> le s' s -> Q s' -> tame s' m (fun s'' _ => Q s'')) ->
    tame s (repeatM n m) (fun s' _ => Q s').
  Proof.
    intros Hi Hq H. assert (Hg : forall n s', inv s' -> le s' s -> Q s' -> tame s' (repeatM n m) (fun s'' _ => Q s'')).
    { clear n Hq. induction n as [|n IH]; intros s' Hi' Hle HQ; cbn [repeatM].
      - apply tame_ret. exact HQ.
      - eapply tame_bind; [exact Hi'|apply H; assumption|]. intros s'' u Hi'' Hle' Hl' HQ'.
        apply IH; [exact Hi''|eapply (or_trans O); eassumption|exact HQ']. }
    apply Hg; [exact Hi|apply (or_refl O)|exact Hq].
  Qed.

  Variable c : cfg.
  Variable rb : M S Z.
  Hypothesis Hrb : forall s, inv s -> tame s rb (fun s' b => is_byte b /\ (left s' < left s)%nat).
  Hypothesis Hov : overflow_checks c = true -> okp POverflow.

  Lemma lor_range a b : in_u 64 a -> in_u 64 b -> in_u 64 (Z.lor a b).
  Proof.
    unfold in_u. intros Ha Hb. split; [apply Z.lor_nonneg; lia|].
    destruct (Z.eq_dec (Z.lor a b) 0) as [->|Hn]; [lia|].
    assert (0 <= Z.lor a b) by (apply Z.lor_nonneg; lia).
    apply Z.log2_lt_pow2; [lia|]. rewrite Z.log2_lor by lia.
    apply Z.max_lub_lt; (destruct (Z.eq_dec a 0) as [->|]; [|]; destruct (Z.eq_dec b 0) as [->|]; cbn [Z.log2]; try lia;
      apply Z.log2_lt_pow2; lia).
  Qed.

  Lemma decode_loop_tame fuel : forall shift value s, inv s -> (left s < fuel)%nat -> in_u 64 value ->
    tame s (decode_uleb_loop c rb fuel shift value) (fun s' n => in_u 64 n /\ (left s' < left s)%nat).
  Proof.
    induction fuel as [|fuel IH]; intros shift value s Hi Hf Hv; [lia|]. cbn [decode_uleb_loop].
    eapply tame_bind; [exact Hi|apply Hrb; exact Hi|]. intros s1 b Hi1 Hle Hl [Hb Hlt].
    assert (Hv' : in_u 64 (Z.lor value (wrapu 64 (Z.shiftl (Z.land b 127) (shift mod 64))))).
    { apply lor_range; [exact Hv|]. apply wrapu_range. lia. }
    destruct (overflow_checks c && (2 ^ 32 <=? shift + 7)) eqn:Hc.
    { apply tame_crash. apply Hov. apply andb_true_iff in Hc as [Hc _]. exact Hc. }
    destruct (Z.land b 128 =? 0).
    - apply tame_ret. split; [exact Hv'|exact Hlt].
    - eapply tame_weaken; [apply IH; [exact Hi1|lia|exact Hv']|]. cbn. intros s2 n [H1 H2]. split; [exact H1|lia].
  Qed.
  Lemma decode_tame s : inv s ->
    tame s (decode_uleb c rb left) (fun s' n => in_u 64 n /\ (left s' < left s)%nat).
  Proof. intros Hi. unfold decode_uleb. change (tame s (decode_uleb_loop c rb (Datatypes.S (left s)) 0 0) (fun s' n => in_u 64 n /\ (left s' < left s)%nat)). apply decode_loop_tame; [exact Hi|lia|apply zero_u; lia]. Qed.

  Lemma read_len_with_tame s : inv s -> 0 <= usize_bits c ->
    tame s (read_len_with c rb left) (fun s' n => 0 <= n /\ (left s' < left s)%nat).
  Proof.
    intros Hi Hu. eapply tame_bind; [exact Hi|apply decode_tame; exact Hi|]. intros s1 n Hi1 Hle Hl [H1 H2].
    apply tame_ret. split; [|exact H2]. apply wrapu_range. exact Hu.
  Qed.
End Tame.

(** The laws of an input. *)
Record lawful {S} (c : cfg) (I : input S) (inv : S -> Prop) (le : S -> S -> Prop) (okp : panic -> Prop) : Prop := {
  lw_order : order inv le (in_left I);
  lw_byte : forall s, inv s -> tame le okp s (in_read_byte I) (fun s' b => is_byte b /\ (in_left I s' < in_left I s)%nat);
  lw_double : forall s, inv s -> tame le okp s (in_read_double I) (fun s' z => in_u 64 z);
  lw_binary : forall s, inv s -> tame le okp s (in_read_binary I) (fun s' l => bytes l /\ zlen l <= 16777216);
  lw_skip_int : forall s, inv s -> tame le okp s (in_skip_integer I) (fun s' _ => True);
  lw_skip_bin : forall s, inv s -> tame le okp s (in_skip_binary I) (fun s' _ => True);
  lw_overflow : overflow_checks c = true -> okp POverflow
}.

Section Good.
  Context {S : Type}.
  Variable c : cfg.
  Variable I : input S.
  Variable inv : S -> Prop.
  Variable le : S -> S -> Prop.
  Variable okp : panic -> Prop.
  Hypothesis L : lawful c I inv le okp.
  Hypothesis Hc : cfg_ok c.

  Notation tm := (tame le okp).
  Notation left := (in_left I).
  Let O := lw_order _ _ _ _ _ L.

  Lemma usize_nonneg : 0 <= usize_bits c.
  Proof. destruct Hc as [[H|H] _]; rewrite H; lia. Qed.

  Lemma uleb_tame s : inv s -> tm s (decode_uleb c (in_read_byte I) left) (fun s' n => in_u 64 n /\ (left s' < left s)%nat).
  Proof. intros Hi. apply (decode_tame inv); try assumption; [apply (lw_byte _ _ _ _ _ L)|apply (lw_overflow _ _ _ _ _ L)]. Qed.
  Lemma read_len_tame s : inv s -> tm s (read_len c I) (fun s' n => 0 <= n /\ (left s' < left s)%nat).
  Proof.
    intros Hi. apply (read_len_with_tame inv); try assumption;
      [apply (lw_byte _ _ _ _ _ L)|apply (lw_overflow _ _ _ _ _ L)|exact usize_nonneg].
  Qed.
  Lemma read_i16_tame s : inv s -> tm s (read_i16 c I) (fun s' n => in_s 16 n /\ (left s' < left s)%nat).
  Proof.
    intros Hi. eapply (tame_bind inv); [exact O|exact Hi|apply uleb_tame; exact Hi|]. intros s1 n _ _ _ [_ H].
    apply (tame_ret inv) with (1 := O). split; [|exact H]. pose proof (wrapu_range 16 n ltac:(lia)).
    rewrite zigzag_decode16_spec by assumption. apply unzigzag_range; [lia|assumption].
  Qed.
  Lemma read_i32_tame s : inv s -> tm s (read_i32 c I) (fun s' n => in_s 32 n /\ (left s' < left s)%nat).
  Proof.
    intros Hi. eapply (tame_bind inv); [exact O|exact Hi|apply uleb_tame; exact Hi|]. intros s1 n _ _ _ [_ H].
    apply (tame_ret inv) with (1 := O). split; [|exact H]. pose proof (wrapu_range 32 n ltac:(lia)).
    rewrite zigzag_decode32_spec by assumption. apply unzigzag_range; [lia|assumption].
  Qed.
  Lemma read_i64_tame s : inv s -> tm s (read_i64 c I) (fun s' n => in_s 64 n /\ (left s' < left s)%nat).
  Proof.
    intros Hi. eapply (tame_bind inv); [exact O|exact Hi|apply uleb_tame; exact Hi|]. intros s1 n _ _ _ [_ H].
    apply (tame_ret inv) with (1 := O). split; [|exact H]. pose proof (wrapu_range 64 n ltac:(lia)).
    rewrite zigzag_decode64_spec by assumption. apply unzigzag_range; [lia|assumption].
  Qed.
  Lemma read_string_tame s : inv s ->
    tm s (read_string I) (fun s' l => bytes l /\ zlen l <= 16777216 /\ well_formed_utf8 l).
  Proof.
    intros Hi. eapply (tame_bind inv); [exact O|exact Hi|apply (lw_binary _ _ _ _ _ L); exact Hi|].
    intros s1 l _ _ _ [H1 H2]. destruct (utf8_valid l) eqn:Hu.
    - apply (tame_ret inv) with (1 := O). split; [exact H1|]. split; [exact H2|]. apply utf8_valid_iff; assumption.
    - apply (tame_fail inv) with (1 := O).
  Qed.
  Lemma header_tame s last : inv s ->
    tm s (read_field_header c I last) (fun s' '(ft, _) => 0 <= ft < 16 /\ (left s' < left s)%nat).
  Proof.
    intros Hi. eapply (tame_bind inv); [exact O|exact Hi|apply (lw_byte _ _ _ _ _ L); exact Hi|].
    intros s1 b Hi1 Hle Hl [Hb Hlt]. cbv beta zeta.
    destruct (b =? 0); [apply (tame_ret inv) with (1 := O); split; [lia|exact Hlt]|].
    assert (Hft : 0 <= Z.land b 15 < 16) by (rewrite land_15; lia).
    destruct (negb (Z.shiftr b 4 =? 0)).
    - destruct (overflow_checks c && (32767 <? last + Z.shiftr b 4)) eqn:Hov.
      + apply (tame_crash inv) with (1 := O). apply (lw_overflow _ _ _ _ _ L). apply andb_true_iff in Hov as [Hov _]. exact Hov.
      + apply (tame_ret inv) with (1 := O). auto.
    - eapply (tame_bind inv) with (Q1 := fun s' _ => (left s' < left s)%nat); [exact O|exact Hi1| |].
      + unfold read_full_field_id. eapply (tame_bind inv); [exact O|exact Hi1|apply uleb_tame; exact Hi1|].
        intros s2 n _ _ _ [_ H]. apply (tame_ret inv) with (1 := O). lia.
      + intros s2 id _ _ _ H. apply (tame_ret inv) with (1 := O). auto.
  Qed.
  Lemma collection_tame s : inv s ->
    tm s (read_collection_len_and_type c I) (fun s' '(n, et) => 0 <= n <= 10000000 /\ 0 <= et < 16 /\ (left s' < left s)%nat).
  Proof.
    intros Hi. eapply (tame_bind inv); [exact O|exact Hi|apply (lw_byte _ _ _ _ _ L); exact Hi|].
    intros s1 b Hi1 Hle Hl [Hb Hlt]. cbv beta zeta.
    assert (Hft : 0 <= Z.land b 15 < 16) by (rewrite land_15; lia).
    eapply (tame_bind inv) with (Q1 := fun s' n => 0 <= n /\ (left s' < left s)%nat); [exact O|exact Hi1| |].
    - rewrite list_nibbles by exact Hb. destruct (negb (b / 16 =? 15)).
      + apply (tame_ret inv) with (1 := O). unfold is_byte in Hb. split; lia.
      + eapply tame_weaken; [apply read_len_tame; exact Hi1|]. cbn. intros s2 n [H1 H2]. split; lia.
    - intros s2 n _ _ _ [H1 H2]. unfold MAX_COLLECTION_LEN. destruct (10000000 <? n) eqn:Hn.
      + apply (tame_fail inv) with (1 := O).
      + apply (tame_ret inv) with (1 := O). lia.
  Qed.
  Lemma map_tame s : inv s ->
    tm s (read_map_len_and_types c I) (fun s' '(n, kt, vt) => 0 <= n <= 10000000 /\ (left s' < left s)%nat).
  Proof.
    intros Hi. eapply (tame_bind inv); [exact O|exact Hi|apply read_len_tame; exact Hi|].
    intros s1 n Hi1 Hle Hl [Hn Hlt]. destruct (n =? 0).
    - apply (tame_ret inv) with (1 := O). lia.
    - eapply (tame_bind inv); [exact O|exact Hi1|apply (lw_byte _ _ _ _ _ L); exact Hi1|].
      intros s2 b _ _ _ [_ H]. cbv beta zeta. unfold MAX_COLLECTION_LEN. destruct (10000000 <? n) eqn:Hm.
      + apply (tame_fail inv) with (1 := O).
      + apply (tame_ret inv) with (1 := O). lia.
  Qed.

  Lemma discard_tame {A} s (m : M S A) Q : inv s -> tm s m Q -> tm s (discard m) (fun _ _ => True).
  Proof.
    intros Hi H. eapply (tame_bind inv); [exact O|exact Hi|exact H|]. intros s1 a _ _ _ _. apply (tame_ret inv) with (1 := O). exact Coq.Init.Logic.I.
  Qed.

  Lemma skip_struct_loop_tame skip s0 :
    (forall s ft, inv s -> le s s0 -> (left s < left s0)%nat -> tm s (skip ft) (fun _ _ => True)) ->
    forall fuel last s, inv s -> le s s0 -> (left s < fuel)%nat ->
    tm s (skip_struct_loop c I skip fuel last) (fun _ _ => True).
  Proof.
    intros Hsk. induction fuel as [|fuel IH]; intros last s Hi Hle Hf; [lia|]. cbn [skip_struct_loop].
    eapply (tame_bind inv); [exact O|exact Hi|apply header_tame; exact Hi|].
    intros s1 [ft last'] Hi1 Hle1 Hl1 [Hft Hlt]. destruct (ft =? 0).
    - apply (tame_ret inv) with (1 := O). exact Coq.Init.Logic.I.
    - pose proof (or_left _ _ _ O _ _ Hle). pose proof (or_trans _ _ _ O _ _ _ Hle1 Hle) as Hle2.
      eapply (tame_bind inv); [exact O|exact Hi1|apply Hsk; [exact Hi1|exact Hle2|lia]|].
      intros s2 _ Hi2 Hle3 Hl2 _. apply IH; [exact Hi2|eapply (or_trans _ _ _ O); eassumption|lia].
  Qed.

  Definition deep (n d : nat) : Prop := okp PStack \/ (n <= d)%nat.

  Ltac tb := eapply (tame_bind inv); [exact O|assumption| |].
  Lemma skip_tame d :
    (forall s ft e, inv s -> deep (2 * left s + 2) d -> tm s (skip_field c I d ft e) (fun _ _ => True)) /\
    (forall s, inv s -> deep (2 * left s + 1) d -> tm s (skip_collection c I d) (fun _ _ => True)) /\
    (forall s, inv s -> deep (2 * left s + 1) d -> tm s (skip_map c I d) (fun _ _ => True)).
  Proof.
    induction d as [|d (IHf & IHc & IHm)].
    { repeat split; intros; (destruct H0 as [H0|H0]; [|lia]); try (apply (or_refl _ _ _ O)); exact H0. }
    assert (Hbyte : forall s, inv s -> tm s (discard (in_read_byte I)) (fun _ _ => True)).
    { intros s Hi. eapply discard_tame; [exact Hi|apply (lw_byte _ _ _ _ _ L); exact Hi]. }
    assert (Hdouble : forall s, inv s -> tm s (discard (in_read_double I)) (fun _ _ => True)).
    { intros s Hi. eapply discard_tame; [exact Hi|apply (lw_double _ _ _ _ _ L); exact Hi]. }
    assert (Hret : forall s, tm s (ret tt) (fun _ _ => True)).
    { intros s. apply (tame_ret inv) with (1 := O). exact Coq.Init.Logic.I. }
    pose proof (lw_skip_int _ _ _ _ _ L) as Hint. pose proof (lw_skip_bin _ _ _ _ _ L) as Hbin.
    assert (Hmono : forall n m d d', (n - d <= m - d')%nat -> (d <= n)%nat -> (d' <= m)%nat -> True) by auto. clear Hmono.
    assert (Hdeep : forall s s1 k k' , deep (2 * left s + k) (Datatypes.S d) -> (left s1 < left s)%nat ->
              (k' <= k + 1)%nat -> deep (2 * left s1 + k') d).
    { intros s s1 k k' [H|H] Hlt Hk; [left; exact H|right; lia]. }
    split; [|split].
    - intros s ft e Hi Hd. cbn [skip_field].
      destruct ((1 <=? ft) && (ft <=? 2)); [destruct e; auto|].
      destruct (ft =? 3); [auto|]. destruct ((4 <=? ft) && (ft <=? 6)); [auto|].
      destruct (ft =? 7); [auto|]. destruct (ft =? 8); [auto|].
      destruct ((ft =? 9) || (ft =? 10)); [apply IHc; [exact Hi|]|].
      { destruct Hd as [Hd|Hd]; [left; exact Hd|right; lia]. }
      destruct (ft =? 11); [apply IHm; [exact Hi|]|].
      { destruct Hd as [Hd|Hd]; [left; exact Hd|right; lia]. }
      destruct (ft =? 12); [|apply (tame_fail inv) with (1 := O)].
      apply (skip_struct_loop_tame (fun ft => skip_field c I d ft false) s);
        [|exact Hi|apply (or_refl _ _ _ O)|lia].
      intros s1 ft1 Hi1 Hle1 Hlt. apply IHf; [exact Hi1|]. eapply Hdeep; [exact Hd|exact Hlt|lia].
    - intros s Hi Hd. cbn [skip_collection]. tb; [apply collection_tame; exact Hi|].
      intros s1 [n et] Hi1 Hle1 _ (Hn & Het & Hlt). cbv beta zeta.
      assert (Hrep : forall m, (forall s', inv s' -> (left s' < left s)%nat -> tm s' m (fun _ _ => True)) ->
                tm s1 (repeatM (Z.to_nat n) m) (fun _ _ => True)).
      { intros m Hm. eapply tame_weaken; [apply (tame_repeat inv) with (Q := fun s' => True) (1 := O); [exact Hi1|exact Coq.Init.Logic.I|]|auto].
        intros s' Hi' Hle' _. pose proof (or_left _ _ _ O _ _ Hle'). apply Hm; [exact Hi'|lia]. }
      destruct ((1 <=? et) && (et <=? 3)); [apply Hrep; auto|].
      destruct ((4 <=? et) && (et <=? 6)); [apply Hrep; auto|].
      destruct (et =? 7); [apply Hrep; auto|]. destruct (et =? 8); [apply Hrep; auto|].
      destruct ((et =? 9) || (et =? 10)); [apply Hrep|].
      { intros s' Hi' Hl'. apply IHc; [exact Hi'|]. eapply Hdeep; [exact Hd|exact Hl'|lia]. }
      destruct (et =? 11); [apply Hrep|].
      { intros s' Hi' Hl'. apply IHm; [exact Hi'|]. eapply Hdeep; [exact Hd|exact Hl'|lia]. }
      destruct (et =? 12); [apply Hrep|apply (tame_fail inv) with (1 := O)].
      intros s' Hi' Hl'. apply IHf; [exact Hi'|]. eapply Hdeep; [exact Hd|exact Hl'|lia].
    - intros s Hi Hd. cbn [skip_map]. tb; [apply map_tame; exact Hi|].
      intros s1 [[n kt] vt] Hi1 Hle1 _ (Hn & Hlt). cbv beta zeta.
      eapply tame_weaken; [apply (tame_repeat inv) with (Q := fun s' => True) (1 := O); [exact Hi1|exact Coq.Init.Logic.I|]|auto].
      intros s' Hi' Hle' _. pose proof (or_left _ _ _ O _ _ Hle'). tb.
      + apply IHf; [exact Hi'|]. eapply Hdeep; [exact Hd| |]; lia.
      + intros s2 _ Hi2 Hle2 Hl2 _. apply IHf; [exact Hi2|]. eapply Hdeep; [exact Hd| |]; lia.
  Qed.

  (** * Filling *)
  Variable E : env.
  Variable K : nat.
  Hypothesis HE : env_closed E K = true.

  Definition fine (o : outcome unit) : Prop := match o with Panic p => okp p | _ => True end.
  Definition tameF (s : S) (t : ty) (r : S * value * outcome unit) : Prop :=
    le (fst (fst r)) s /\ typed E t (snd (fst r)) /\ fine (snd r).

  Lemma assign_tame {A} s t v (m : M S A) (k : A -> value) Q :
    tm s m Q -> typed E t v -> (forall s' a, Q s' a -> typed E t (k a)) -> tameF s t (assign m k v s).
  Proof.
    intros [H1 H2] Hv Hk. unfold tameF, assign. destruct (m s) as [s' [a|e|p]]; cbn [fst snd] in *;
      (split; [exact H1|]); (split; [|exact H2 || exact Coq.Init.Logic.I]); [eapply Hk; exact H2|exact Hv|exact Hv].
  Qed.

  Lemma vec_loop_tame t dv fill1 s0 : dv <> None \/ okp PStack ->
    (forall v, dv = Some v -> typed E t v) ->
    (forall v s, inv s -> le s s0 -> typed E t v -> tameF s t (fill1 v s)) ->
    forall n s, inv s -> le s s0 ->
    let '(s', vs, o) := vec_loop dv fill1 n s in le s' s /\ typed_seq E t vs /\ fine o.
  Proof.
    intros Hdv Hdt Hf. induction n as [|n IH]; intros s Hi Hle; cbn [vec_loop].
    - split; [apply (or_refl _ _ _ O)|]. split; [constructor|exact Coq.Init.Logic.I].
    - destruct dv as [dv'|].
      2: { split; [apply (or_refl _ _ _ O)|]. split; [constructor|]. destruct Hdv as [Hdv|Hdv]; [congruence|exact Hdv]. }
      destruct (fill1 dv' s) as [[s1 v1] o1] eqn:Hfill.
      pose proof (Hf dv' s Hi Hle (Hdt _ eq_refl)) as (H1 & H2 & H3). rewrite Hfill in H1, H2, H3. cbn [fst snd] in *.
      destruct o1 as [u|e|p].
      + specialize (IH s1 (or_inv _ _ _ O _ _ H1 Hi) (or_trans _ _ _ O _ _ _ H1 Hle)).
        destruct (vec_loop (Some dv') fill1 n s1) as [[s2 vs] o2]. destruct IH as (H4 & H5 & H6).
        split; [eapply (or_trans _ _ _ O); eassumption|]. split; [constructor; assumption|exact H6].
      + split; [exact H1|]. split; [constructor; [exact H2|constructor]|exact H3].
      + split; [exact H1|]. split; [constructor; [exact H2|constructor]|exact H3].
  Qed.

  Lemma struct_loop_tame name fs ff sk s0 :
    (forall f ft v s, In f fs -> inv s -> le s s0 -> (left s < left s0)%nat -> typed E (field_ty f) v ->
       tameF s (field_ty f) (ff (field_ty f) ft v s)) ->
    (forall ft s, inv s -> le s s0 -> (left s < left s0)%nat -> tm s (sk ft) (fun _ _ => True)) ->
    forall fuel last flags vs s, inv s -> le s s0 -> (left s < fuel)%nat -> typed_fields E fs vs ->
    let '(s', vs', o) := struct_loop c I name fs ff sk fuel last flags vs s in
    le s' s /\ typed_fields E fs vs' /\ fine o.
  Proof.
    intros Hff Hsk. induction fuel as [|fuel IH]; intros last flags vs s Hi Hle Hf Ht; [lia|]. cbn [struct_loop].
    pose proof (header_tame s last Hi) as [H1 H2].
    destruct (read_field_header c I last s) as [s1 [[ft last']|e|p]]; cbn [fst snd] in *; [|auto|auto].
    destruct H2 as [Hft Hlt]. pose proof (or_inv _ _ _ O _ _ H1 Hi) as Hi1.
    pose proof (or_trans _ _ _ O _ _ _ H1 Hle) as Hle1. pose proof (or_left _ _ _ O _ _ Hle).
    destruct (ft =? 0).
    { destruct (first_missing fs flags); (split; [exact H1|]; split; [exact Ht|exact Coq.Init.Logic.I]). }
    destruct (find_field fs last') as [[i f]|] eqn:Hfind.
    - destruct (find_field_In _ _ _ _ Hfind) as [Hnth _].
      destruct (typed_fields_nth _ _ _ _ _ Ht Hnth) as (v & Hv & Htv). rewrite Hv.
      pose proof (Hff f ft v s1 (nth_error_In _ _ Hnth) Hi1 Hle1 ltac:(lia) Htv) as (H3 & H4 & H5).
      destruct (ff (field_ty f) ft v s1) as [[s2 v'] o]. cbn [fst snd] in *.
      pose proof (typed_fields_set _ _ _ _ _ _ Ht Hnth H4) as Ht'. pose proof (or_left _ _ _ O _ _ H3).
      destruct o as [u|e|p].
      + specialize (IH last' (set_nth flags i true) (set_nth vs i v') s2 (or_inv _ _ _ O _ _ H3 Hi1)
                      (or_trans _ _ _ O _ _ _ H3 Hle1) ltac:(lia) Ht').
        destruct (struct_loop _ _ _ _ _ _ _ _ _ _ _) as [[s3 vs'] o3]. destruct IH as (H6 & H7 & H8).
        split; [|auto]. eapply (or_trans _ _ _ O); [exact H6|]. eapply (or_trans _ _ _ O); eassumption.
      + split; [eapply (or_trans _ _ _ O); eassumption|]. auto.
      + split; [eapply (or_trans _ _ _ O); eassumption|]. auto.
    - pose proof (Hsk ft s1 Hi1 Hle1 ltac:(lia)) as [H3 H4].
      destruct (sk ft s1) as [s2 [u|e|p]]; cbn [fst snd] in *.
      + pose proof (or_left _ _ _ O _ _ H3).
        specialize (IH last' flags vs s2 (or_inv _ _ _ O _ _ H3 Hi1)
                      (or_trans _ _ _ O _ _ _ H3 Hle1) ltac:(lia) Ht).
        destruct (struct_loop _ _ _ _ _ _ _ _ _ _ _) as [[s3 vs'] o3]. destruct IH as (H6 & H7 & H8).
        split; [|auto]. eapply (or_trans _ _ _ O); [exact H6|]. eapply (or_trans _ _ _ O); eassumption.
      + split; [eapply (or_trans _ _ _ O); eassumption|]. split; [exact Ht|exact Coq.Init.Logic.I].
      + split; [eapply (or_trans _ _ _ O); eassumption|]. split; [exact Ht|exact H4].
  Qed.

  Lemma encset_loop_tame n : forall mask s, inv s -> in_u 31 mask ->
    tm s (encset_read_loop c I n mask) (fun _ m => in_u 31 m).
  Proof.
    induction n as [|n IH]; intros mask s Hi Hm; cbn [encset_read_loop].
    - apply (tame_ret inv) with (1 := O). exact Hm.
    - eapply (tame_bind inv); [exact O|exact Hi|apply read_i32_tame; exact Hi|].
      intros s1 z Hi1 _ _ _. destruct ((z <? 0) || (31 <=? z)) eqn:Hz; [apply (tame_fail inv) with (1 := O)|].
      apply IH; [exact Hi1|].
      assert (Hs : Z.shiftl 1 z = 2 ^ z) by (rewrite Z.shiftl_1_l; reflexivity).
      assert (Hp : 2 ^ z < 2 ^ 31) by (apply Z.pow_lt_mono_r; lia).
      assert (Hp0 : 0 < 2 ^ z) by (apply Z.pow_pos_nonneg; lia).
      rewrite Hs, wrapu_id by lia. unfold in_u in *.
      split; [apply Z.lor_nonneg; lia|].
      assert (0 <= Z.lor mask (2 ^ z)) by (apply Z.lor_nonneg; lia).
      destruct (Z.eq_dec (Z.lor mask (2 ^ z)) 0) as [->|Hn]; [lia|].
      apply Z.log2_lt_pow2; [lia|]. rewrite Z.log2_lor by lia. apply Z.max_lub_lt.
      + destruct (Z.eq_dec mask 0) as [->|]; [cbn; lia|]. apply Z.log2_lt_pow2; lia.
      + rewrite Z.log2_pow2; lia.
  Qed.

  Lemma fill_tame d :
    (forall t v s, inv s -> ty_closed E t = true -> typed E t v -> deep (need K t (left s)) d ->
       tameF s t (fill c I E d t v s)) /\
    (forall t ft v s, inv s -> ty_closed E t = true -> typed E t v -> deep (need K t (left s) + 1) d ->
       tameF s t (fill_field c I E d t ft v s)).
  Proof.
    induction d as [|d [IHf IHff]].
    { split; intros; (match goal with H : deep _ _ |- _ => destruct H as [Hd|Hd] end; [|unfold need in Hd; lia]);
        (split; [apply (or_refl _ _ _ O)|]; split; [assumption|exact Hd]). }
    assert (Hdef : forall t n, ty_closed E t = true -> deep (ty_depth t + K + n) d -> default E d t <> None \/ okp PStack).
    { intros t n Hcl [Hd|Hd]; [right; exact Hd|left]. destruct (closed_default E K HE t d Hcl ltac:(lia)) as [v ->]. discriminate. }
    assert (Hdt : forall t v, ty_closed E t = true -> default E d t = Some v -> typed E t v).
    { intros t v. apply (default_typed E K HE). }
    assert (Hstop : forall t v s, typed E t v -> forall o, fine o -> tameF s t (s, v, o)).
    { intros t v s Hv o Ho. split; [apply (or_refl _ _ _ O)|]. split; assumption. }
    split.
    - intros t v s Hi Hcl Hv Hd. cbn [fill].
      destruct t.
      + eapply assign_tame; [apply (lw_byte _ _ _ _ _ L); exact Hi|exact Hv|]. intros; constructor.
      + eapply assign_tame; [apply (lw_byte _ _ _ _ _ L); exact Hi|exact Hv|]. intros; constructor. apply wraps_range. lia.
      + eapply assign_tame; [apply read_i16_tame; exact Hi|exact Hv|]. intros s' a [H _]; constructor; exact H.
      + eapply assign_tame; [apply read_i32_tame; exact Hi|exact Hv|]. intros s' a [H _]; constructor; exact H.
      + eapply assign_tame; [apply read_i64_tame; exact Hi|exact Hv|]. intros s' a [H _]; constructor; exact H.
      + eapply assign_tame; [apply (lw_double _ _ _ _ _ L); exact Hi|exact Hv|]. intros s' a H; constructor; exact H.
      + eapply assign_tame; [apply (lw_binary _ _ _ _ _ L); exact Hi|exact Hv|]. intros s' a [H _]; constructor; exact H.
      + eapply assign_tame; [apply read_string_tame; exact Hi|exact Hv|]. intros s' a (H & _ & H'); constructor; assumption.
      + (* Vec *)
        pose proof (collection_tame s Hi) as [H1 H2].
        destruct (read_collection_len_and_type c I s) as [s1 [[n et]|e|p]]; cbn [fst snd] in *;
          [|split; [exact H1|]; split; [exact Hv|exact Coq.Init.Logic.I]|split; [exact H1|]; split; [exact Hv|exact H2]].
        destruct H2 as (Hn & Het & Hlt). pose proof (or_inv _ _ _ O _ _ H1 Hi) as Hi1.
        destruct (negb (et =? field_type E t) && negb ((field_type E t =? 2) && (et =? 1)));
          [split; [exact H1|]; split; [exact Hv|exact Coq.Init.Logic.I]|].
        destruct (negb (reserve c n)).
        { split; [exact H1|]. split; [|exact Coq.Init.Logic.I]. constructor; [exact Hcl|constructor]. }
        cbn [ty_closed] in Hcl.
        assert (Hd' : forall s', (left s' <= left s)%nat -> deep (need K t (left s')) d).
        { intros s' Hl. destruct Hd as [Hd|Hd]; [left; exact Hd|right]. unfold need in *. cbn [ty_depth] in Hd. nia. }
        pose proof (vec_loop_tame t (default E d t) (fill c I E d t) s1) as Hvec.
        specialize (Hvec ltac:(apply (Hdef t 0%nat); [exact Hcl|]; destruct Hd as [Hd|Hd]; [left; exact Hd|right; unfold need in Hd; cbn [ty_depth] in Hd; lia])).
        specialize (Hvec (fun v => Hdt t v Hcl)).
        specialize (Hvec ltac:(intros v' s' Hi' Hle' Hv'; apply IHf; [exact Hi'|exact Hcl|exact Hv'|apply Hd'; pose proof (or_left _ _ _ O _ _ Hle'); lia])).
        specialize (Hvec (Z.to_nat n) s1 Hi1 (or_refl _ _ _ O s1)).
        destruct (vec_loop (default E d t) (fill c I E d t) (Z.to_nat n) s1) as [[s2 vs] o].
        destruct Hvec as (H4 & H5 & H6). split; [eapply (or_trans _ _ _ O); eassumption|].
        split; [constructor; assumption|exact H6].
      + (* Option *)
        cbn [ty_closed] in Hcl.
        assert (Hgen : tameF s (TOption t) match default E d t with
                 | None => (s, v, Panic PStack)
                 | Some dv => match fill c I E d t dv s with (s', v', o) => (s', VSome v', o) end end).
        { destruct (Hdef t 0%nat Hcl) as [Hne|Hp];
            [destruct Hd as [Hd|Hd]; [left; exact Hd|right; unfold need in Hd; cbn [ty_depth] in Hd; lia]| |];
          (destruct (default E d t) as [dv|] eqn:Hdv; [|try congruence; apply Hstop; assumption]);
          (pose proof (IHf t dv s Hi Hcl (Hdt _ _ Hcl Hdv)) as H;
           specialize (H ltac:(destruct Hd as [Hd|Hd]; [left; exact Hd|right; unfold need in *; cbn [ty_depth] in Hd; lia]));
           destruct (fill c I E d t dv s) as [[s' v'] o]; destruct H as (H1 & H2 & H3);
           split; [exact H1|]; split; [constructor; exact H2|exact H3]). }
        destruct v; try exact Hgen. apply Hstop; [exact Hv|exact Coq.Init.Logic.I].
      + (* Box *)
        inversion Hv; subst. cbn [ty_closed] in Hcl.
        match goal with H : typed E t ?w |- _ => pose proof (IHf t w s Hi Hcl H) as H' end.
        specialize (H' ltac:(destruct Hd as [Hd|Hd]; [left; exact Hd|right; unfold need in *; cbn [ty_depth] in Hd; lia])).
        destruct (fill _ _ _ _ _ _ _) as [[s' v'] o]; destruct H' as (G1 & G2 & G3).
        split; [exact G1|]; split; [constructor; exact G2|exact G3].
      + (* Shared *)
        inversion Hv; subst. cbn [ty_closed] in Hcl. destruct u; [|apply Hstop; [exact Hv|exact Coq.Init.Logic.I]].
        match goal with H : typed E t ?w |- _ => pose proof (IHf t w s Hi Hcl H) as H' end.
        specialize (H' ltac:(destruct Hd as [Hd|Hd]; [left; exact Hd|right; unfold need in *; cbn [ty_depth] in Hd; lia])).
        destruct (fill _ _ _ _ _ _ _) as [[s' v'] o]; destruct H' as (G1 & G2 & G3).
        split; [exact G1|]; split; [constructor; exact G2|exact G3].
      + (* EncodingSet *)
        eapply assign_tame with (Q := fun _ m => in_u 31 m); [|exact Hv|intros; constructor; assumption].
        unfold encset_read. eapply (tame_bind inv); [exact O|exact Hi|apply collection_tame; exact Hi|].
        intros s1 [n et] Hi1 _ _ _. destruct (negb (et =? 5)); [apply (tame_fail inv) with (1 := O)|].
        apply encset_loop_tame; [exact Hi1|apply zero_u; lia].
      + (* named *)
        cbn [ty_closed] in Hcl. destruct (lookup E name) as [[fs|fs|]|] eqn:Hl; [| | |discriminate].
        * inversion Hv; subst; try congruence. match goal with H : lookup E name = Some (DStruct ?g) |- _ => assert (g = fs) by congruence; subst g end.
          pose proof (struct_loop_tame name fs (fun t' ft w s' => fill_field c I E d t' ft w s')
                        (fun ft => skip_field c I d ft false) s) as Hs.
          specialize (Hs ltac:(intros f ft w s1 Hin Hi1 Hle1 Hlt Hw; destruct (closed_struct E K HE _ _ Hl f Hin) as [Hc1 Hc2];
                               apply IHff; [exact Hi1|exact Hc1|exact Hw|];
                               destruct Hd as [Hd|Hd]; [left; exact Hd|right; unfold need in *; cbn [ty_depth] in Hd; nia])).
          specialize (Hs ltac:(intros ft s1 Hi1 Hle1 Hlt; apply (proj1 (skip_tame d)); [exact Hi1|];
                               destruct Hd as [Hd|Hd]; [left; exact Hd|right; unfold need in *; cbn [ty_depth] in Hd; nia])).
          match goal with H : typed_fields E fs ?w |- _ =>
            specialize (Hs (Datatypes.S (left s)) 0 (map (fun _ => false) fs) w s Hi (or_refl _ _ _ O s) ltac:(lia) H) end.
          destruct (struct_loop _ _ _ _ _ _ _ _ _ _ _) as [[s' vs'] o]. destruct Hs as (G1 & G2 & G3).
          split; [exact G1|]. split; [eapply ty_struct; eassumption|exact G3].
        * pose proof (header_tame s 0 Hi) as [H1 H2].
          destruct (read_field_header c I 0 s) as [s1 [[ft last]|e|p]]; cbn [fst snd] in *;
            [|split; [exact H1|]; split; [exact Hv|exact Coq.Init.Logic.I]|split; [exact H1|]; split; [exact Hv|exact H2]].
          destruct H2 as [Hft Hlt]. pose proof (or_inv _ _ _ O _ _ H1 Hi) as Hi1.
          destruct (ft =? 0); [split; [exact H1|]; split; [exact Hv|exact Coq.Init.Logic.I]|].
          destruct (find_field fs last) as [[i f]|] eqn:Hfind; [|split; [exact H1|]; split; [exact Hv|exact Coq.Init.Logic.I]].
          destruct (find_field_In _ _ _ _ Hfind) as [Hnth _]. destruct (closed_union E K HE _ _ Hl f (nth_error_In _ _ Hnth)) as [Hc1 Hc2].
          assert (Hdd : deep (need K (f_ty f) (left s1)) d).
          { destruct Hd as [Hd|Hd]; [left; exact Hd|right; unfold need in *; cbn [ty_depth] in Hd; nia]. }
          destruct (default E d (f_ty f)) as [dv|] eqn:Hdv.
          2: { split; [exact H1|]. split; [exact Hv|]. cbn. destruct Hdd as [Hdd|Hdd]; [exact Hdd|].
               destruct (closed_default E K HE (f_ty f) d Hc1) as [v' Hv']; [unfold need in Hdd; lia|congruence]. }
          pose proof (IHf (f_ty f) dv s1 Hi1 Hc1 (Hdt _ _ Hc1 Hdv) Hdd) as H.
          destruct (fill c I E d (f_ty f) dv s1) as [[s2 w] o]. destruct H as (H3 & H4 & H5). cbn [fst snd] in *.
          pose proof (or_trans _ _ _ O _ _ _ H3 H1) as H6.
          assert (Hu : typed E (TNamed name) (VUnion i w)) by (eapply ty_union; eassumption).
          destruct o as [u|e|p]; [|split; [exact H6|]; split; [exact Hu|exact H5]|split; [exact H6|]; split; [exact Hu|exact H5]].
          pose proof (lw_byte _ _ _ _ _ L s2 (or_inv _ _ _ O _ _ H3 Hi1)) as [H7 H8].
          pose proof (or_trans _ _ _ O _ _ _ H7 H6) as H9.
          destruct (in_read_byte I s2) as [s3 [b|e|p]]; cbn [fst snd] in *;
            (split; [exact H9|]; split; [exact Hu|]); cbn [snd failed]; [|exact Coq.Init.Logic.I|exact H8].
          destruct (b =? 0); exact Coq.Init.Logic.I.
        * eapply assign_tame; [apply read_i32_tame; exact Hi|exact Hv|]. intros s' a [H _]. apply ty_enum; assumption.
    - intros t ft v s Hi Hcl Hv Hd. cbn [fill_field].
      assert (Hother : tameF s t (if negb (ft =? field_type E t) then (s, v, Err InvalidType) else fill c I E d t v s)).
      { destruct (negb (ft =? field_type E t)); [apply Hstop; [exact Hv|exact Coq.Init.Logic.I]|].
        apply IHf; [exact Hi|exact Hcl|exact Hv|]. destruct Hd as [Hd|Hd]; [left; exact Hd|right; lia]. }
      destruct t; try exact Hother.
      + apply Hstop; [constructor|exact Coq.Init.Logic.I].
      + clear Hother. cbn [ty_closed] in Hcl.
        assert (Hgen : tameF s (TOption t) match default E d t with
                 | None => (s, v, Panic PStack)
                 | Some dv => match fill_field c I E d t ft dv s with (s', v', o) => (s', VSome v', o) end end).
        { destruct (Hdef t 0%nat Hcl) as [Hne|Hp];
            [destruct Hd as [Hd|Hd]; [left; exact Hd|right; unfold need in Hd; cbn [ty_depth] in Hd; lia]| |];
          (destruct (default E d t) as [dv|] eqn:Hdv; [|try congruence; apply Hstop; assumption]);
          (pose proof (IHff t ft dv s Hi Hcl (Hdt _ _ Hcl Hdv)) as H;
           specialize (H ltac:(destruct Hd as [Hd|Hd]; [left; exact Hd|right; unfold need in *; cbn [ty_depth] in Hd; lia]));
           destruct (fill_field c I E d t ft dv s) as [[s' v'] o]; destruct H as (H1 & H2 & H3);
           split; [exact H1|]; split; [constructor; exact H2|exact H3]). }
        destruct v; try exact Hgen. apply Hstop; [exact Hv|exact Coq.Init.Logic.I].
  Qed.

  (** [read_thrift] on arbitrary input. *)
  Lemma read_tame d t s : inv s -> ty_closed E t = true -> deep (need K t (left s)) d ->
    tm s (read_thrift c I E d t) (fun _ v => typed E t v).
  Proof.
    intros Hi Hcl Hd. unfold read_thrift, tame.
    destruct (default E d t) as [dv|] eqn:Hdv.
    - pose proof (proj1 (fill_tame d) t dv s Hi Hcl (default_typed E K HE _ _ _ Hcl Hdv) Hd) as (H1 & H2 & H3).
      destruct (fill c I E d t dv s) as [[s' v] [u|e|p]]; cbn [fst snd] in *; auto.
    - split; [apply (or_refl _ _ _ O)|]. cbn. destruct Hd as [Hd|Hd]; [exact Hd|].
      destruct (closed_default E K HE t d Hcl) as [v Hv]; [unfold need in Hd; lia|congruence].
  Qed.
End Good.
