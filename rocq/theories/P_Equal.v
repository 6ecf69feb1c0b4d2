(** Equality of values compared with equality of encodings. *)
From Verif Require Import Base Protocol Types SpecInput SpecCompact Schema Typing Equality SpecEqual P_Sink P_Roundtrip P_Short.

(** * Doubles *)
Lemma nan_iff b : in_u 64 b -> (f64_nan b = true <-> nan_bits b).
Proof.
  unfold in_u, f64_nan, nan_bits, f64_bits. change (2 ^ 64) with 18446744073709551616. intros Hb. rewrite Z.ltb_lt.
  change (2 ^ 11 - 1) with 2047. change (2 ^ 11) with 2048. change (2 ^ 52) with 4503599627370496. change (2 ^ 63) with 9223372036854775808. split.
  - intros H. exists (b / 9223372036854775808), (b mod 9223372036854775808 - 9218868437227405312).
    pose proof (Z.div_mod b 9223372036854775808). pose proof (Z.mod_pos_bound b 9223372036854775808).
    assert (0 <= b / 9223372036854775808 <= 1) by (split; [apply Z.div_pos; lia|]; apply Z.lt_succ_r, Z.div_lt_upper_bound; lia). lia.
  - intros (s & f & Hf & Hs & _ & Hfr & ->). replace (s * 9223372036854775808 + 2047 * 4503599627370496 + f) with ((2047 * 4503599627370496 + f) + s * 9223372036854775808) by lia.
    rewrite Z.mod_add, Z.mod_small by lia. lia.
Qed.
Lemma zero_iff b : in_u 64 b -> (f64_zero b = true <-> zero_bits b).
Proof.
  unfold in_u, f64_zero, zero_bits, f64_bits. change (2 ^ 64) with 18446744073709551616. intros Hb. rewrite Z.eqb_eq.
  change (2 ^ 11) with 2048. change (2 ^ 52) with 4503599627370496. change (2 ^ 63) with 9223372036854775808. split.
  - intros H. exists (b / 9223372036854775808).
    pose proof (Z.div_mod b 9223372036854775808).
    assert (0 <= b / 9223372036854775808 <= 1) by (split; [apply Z.div_pos; lia|]; apply Z.lt_succ_r, Z.div_lt_upper_bound; lia). lia.
  - intros (s & _ & _ & _ & ->). replace (s * 9223372036854775808 + 0 * 4503599627370496 + 0) with (s * 9223372036854775808) by lia. apply Z_mod_mult.
Qed.
Definition doubles_ok (v : value) : Prop := forall b, has_double b v -> in_u 64 b.
Lemma typed_doubles E :
  (forall t v, typed E t v -> doubles_ok v) /\ (forall t vs, typed_seq E t vs -> Forall doubles_ok vs) /\ (forall fs vs, typed_fields E fs vs -> Forall doubles_ok vs).
Proof.
  apply typed_mutind; intros; lazymatch goal with
  | |- Forall _ [] => apply Forall_nil
  | |- Forall _ (_ :: _) => apply Forall_cons; assumption
  | |- doubles_ok _ => intros bits Hb; inversion Hb; subst; auto
  end.
  all: match goal with H : Forall doubles_ok ?l, I : In ?x ?l |- _ => rewrite Forall_forall in H; exact (H x I bits ltac:(assumption)) end.
Qed.
Lemma f64_eq_refl b : f64_eq b b = negb (f64_nan b).
Proof. unfold f64_eq. rewrite Z.eqb_refl. destruct (f64_nan b); reflexivity. Qed.
Lemma f64_eq_sym a b : f64_eq a b = f64_eq b a.
Proof. unfold f64_eq. rewrite (Z.eqb_sym a b). destruct (f64_nan a), (f64_nan b), (b =? a), (f64_zero a), (f64_zero b); reflexivity. Qed.
Lemma f64_eq_trans a b c : f64_eq a b = true -> f64_eq b c = true -> f64_eq a c = true.
Proof.
  unfold f64_eq. destruct (f64_nan a), (f64_nan b), (f64_nan c); cbn [negb andb]; try discriminate. rewrite !orb_true_iff, !andb_true_iff, !Z.eqb_eq.
  intros [->|[Ha Hb]] [->|[Hb' Hc]]; auto.
Qed.

(** * Lists *)
Lemma all_eq_sym {A B} (f : A -> B -> bool) (g : B -> A -> bool) l : Forall (fun a => forall b, f a b = g b a) l -> forall l', all_eq f l l' = all_eq g l' l.
Proof. induction 1 as [|a l Ha _ IH]; intros [|b l']; cbn [all_eq]; try reflexivity. rewrite Ha, IH. reflexivity. Qed.
Lemma all_eq_trans {A} (f : A -> A -> bool) l : Forall (fun a => forall b c, f a b = true -> f b c = true -> f a c = true) l ->
  forall l' l'', all_eq f l l' = true -> all_eq f l' l'' = true -> all_eq f l l'' = true.
Proof.
  induction 1 as [|a l Ha _ IH]; intros [|b l'] [|c l'']; cbn [all_eq]; try discriminate; auto. rewrite !andb_true_iff. intros [H1 H2] [H3 H4]. split; eauto.
Qed.
Lemma all_eqb l l' : all_eq Z.eqb l l' = true <-> l = l'.
Proof.
  revert l'. induction l as [|a l IH]; intros [|b l']; cbn [all_eq]; try (split; discriminate); [split; reflexivity|].
  rewrite andb_true_iff, Z.eqb_eq, IH. split; [intros [-> ->]; reflexivity|intros E; injection E; auto].
Qed.
Lemma bytes_sym l l' : all_eq Z.eqb l l' = all_eq Z.eqb l' l.
Proof. apply eq_true_iff_eq. rewrite !all_eqb. split; congruence. Qed.

(** * Values *)
Lemma partial_eq_sym v : forall w, partial_eq v w = partial_eq w v.
Proof.
  induction v using value_induction; intros [] ; cbn [partial_eq]; try reflexivity; auto using Z.eqb_sym, f64_eq_sym, bytes_sym.
  - destruct b, b0; reflexivity.
  - apply all_eq_sym. assumption.
  - apply all_eq_sym. assumption.
  - rewrite IHv, Nat.eqb_sym. reflexivity.
Qed.
Lemma partial_eq_trans v : forall w x, partial_eq v w = true -> partial_eq w x = true -> partial_eq v x = true.
Proof.
  induction v using value_induction; intros [] [] ; cbn [partial_eq]; try discriminate; auto; rewrite ?Z.eqb_eq, ?all_eqb; try congruence; eauto using f64_eq_trans.
  - destruct b, b0, b1; cbn; congruence.
  - apply all_eq_trans. assumption.
  - apply all_eq_trans. assumption.
  - rewrite !andb_true_iff, !Nat.eqb_eq. intros [-> H1] [-> H2]. split; eauto.
Qed.
(** Without zeros equal values are the same up to sharing. *)
Definition no_zero (v : value) : Prop := forall b, has_double b v -> f64_zero b = false.
Lemma partial_eq_same v : forall w, no_zero v -> partial_eq v w = true -> unshare v = unshare w.
Proof.
  assert (L : forall vs, Forall (fun v => forall w, no_zero v -> partial_eq v w = true -> unshare v = unshare w) vs -> (forall v, In v vs -> no_zero v) ->
    forall ws, all_eq partial_eq vs ws = true -> map unshare vs = map unshare ws).
  { clear v. induction 1 as [|v vs Hv _ IH]; intros Hz [|w ws]; cbn [all_eq]; try discriminate; [reflexivity|]. rewrite andb_true_iff. intros [H1 H2]. cbn [map].
    rewrite (Hv w (Hz v (or_introl eq_refl)) H1), (IH (fun x Hx => Hz x (or_intror Hx)) ws H2). reflexivity. }
  induction v using value_induction; intros [] Hz; cbn [partial_eq]; try discriminate; rewrite ?Z.eqb_eq, ?all_eqb; intros HE; cbn [unshare]; try (subst; reflexivity); try congruence.
  - destruct b, b0; discriminate || reflexivity.
  - unfold f64_eq in HE. rewrite (Hz z (H_here z)) in HE. cbn [andb] in HE. rewrite orb_false_r, !andb_true_iff, Z.eqb_eq in HE. destruct HE as [_ ->]. reflexivity.
  - f_equal. apply L; auto. intros x Hx b Hb. apply Hz. econstructor; eassumption.
  - f_equal. apply IHv; auto. intros b Hb. apply Hz. constructor. exact Hb.
  - f_equal. apply IHv; auto. intros b Hb. apply Hz. constructor. exact Hb.
  - f_equal. apply IHv; auto. intros b Hb. apply Hz. constructor. exact Hb.
  - f_equal. apply L; auto. intros x Hx b Hb. apply Hz. econstructor; eassumption.
  - rewrite andb_true_iff, Nat.eqb_eq in HE. destruct HE as [-> HE]. f_equal. apply IHv; auto. intros b Hb. apply Hz. constructor. exact Hb.
Qed.
(** A value equals its unshared copy unless it contains a NaN. *)
Lemma partial_eq_unshare v : partial_eq v (unshare v) = true <-> forall b, has_double b v -> f64_nan b = false.
Proof.
  assert (L : forall vs, Forall (fun v => partial_eq v (unshare v) = true <-> forall b, has_double b v -> f64_nan b = false) vs ->
    all_eq partial_eq vs (map unshare vs) = true <-> forall v b, In v vs -> has_double b v -> f64_nan b = false).
  { clear v. induction 1 as [|v vs Hv _ IH]; cbn [map all_eq]; [split; [intros _ v b []|reflexivity]|]. rewrite andb_true_iff, Hv, IH. split.
    - intros [H1 H2] x b [<-|Hx] Hb; eauto.
    - intros H. split; [intros b Hb; exact (H v b (or_introl eq_refl) Hb)|intros x b Hx Hb; exact (H x b (or_intror Hx) Hb)]. }
  induction v using value_induction; cbn [partial_eq unshare]; rewrite ?Z.eqb_refl; try (split; [intros _ b Hb; inversion Hb|reflexivity]; fail).
  - split; [intros _ x Hb; inversion Hb|destruct b; reflexivity].
  - rewrite f64_eq_refl. split; [intros H b Hb; inversion Hb; subst; destruct (f64_nan z); [discriminate|reflexivity]|].
    intros H. rewrite (H z (H_here z)). reflexivity.
  - rewrite (proj2 (all_eqb l l) eq_refl). split; [intros _ b Hb; inversion Hb|reflexivity].
  - rewrite (proj2 (all_eqb l l) eq_refl). split; [intros _ b Hb; inversion Hb|reflexivity].
  - rewrite L by assumption. split; [intros Hx b Hb; inversion Hb; subst; eauto|]. intros Hx v b Hv Hb. apply Hx. econstructor; eassumption.
  - rewrite IHv. split; intros Hx b Hb; [inversion Hb; subst; auto|apply Hx; constructor; exact Hb].
  - rewrite IHv. split; intros Hx b Hb; [inversion Hb; subst; auto|apply Hx; constructor; exact Hb].
  - rewrite IHv. split; intros Hx b Hb; [inversion Hb; subst; auto|apply Hx; constructor; exact Hb].
  - rewrite L by assumption. split; [intros Hx b Hb; inversion Hb; subst; eauto|]. intros Hx v b Hv Hb. apply Hx. econstructor; eassumption.
  - rewrite Nat.eqb_refl, andb_true_l, IHv. split; intros Hx b Hb; [inversion Hb; subst; auto|apply Hx; constructor; exact Hb].
Qed.
Lemma reflexive_iff E t v : typed E t v -> (partial_eq v (unshare v) = true <-> ~ has_nan v).
Proof.
  intros Hty. rewrite partial_eq_unshare. pose proof (proj1 (typed_doubles E) t v Hty) as Hd. split.
  - intros H (b & Hn & Hb). apply nan_iff in Hn; [|exact (Hd b Hb)]. rewrite (H b Hb) in Hn. discriminate.
  - intros H b Hb. destruct (f64_nan b) eqn:Eb; [|reflexivity]. destruct H. exists b. split; [|exact Hb]. apply nan_iff; [exact (Hd b Hb)|exact Eb].
Qed.

Theorem equal_after_reading : forall c E K t v bs d,
  cfg_ok c -> reserve_ok c -> env_ok false E K = true -> fits E v t = true -> typed E t v ->
  write_thrift vec_write_all E t v [] = (bs, Ok tt) -> (need K t (List.length bs) <= d)%nat ->
  exists w, both_read c (fun S I => read_thrift c I E d t) bs w /\ (partial_eq v w = true <-> ~ has_nan v).
Proof. intros. exists (unshare v). split; [eapply write_read; eassumption|eapply reflexive_iff; eassumption]. Qed.
Theorem equal_written_alike : forall W (wa : list Z -> M W unit) E t v w,
  typed E t v -> typed E t w -> partial_eq v w = true -> ~ has_zero v -> write_thrift wa E t v = write_thrift wa E t w.
Proof.
  intros W wa E t v w Hv Hw HE Hz. rewrite <- (write_unshare wa E t v Hv), <- (write_unshare wa E t w Hw). f_equal. apply partial_eq_same; [|exact HE].
  intros b Hb. pose proof (proj1 (typed_doubles E) t v Hv b Hb) as Hr. destruct (f64_zero b) eqn:Eb; [|reflexivity]. destruct Hz. exists b.
  split; [apply zero_iff; assumption|exact Hb].
Qed.
(** Values written alike are equal, unless they contain a NaN. *)
Theorem alike_equal : forall E K t v w bs r r' b',
  env_ok false E K = true -> fits E v t = true -> fits E w t = true -> typed E t v -> typed E t w ->
  write_thrift vec_write_all E t v [] = (bs, Ok tt) -> write_thrift vec_write_all E t w [] = (b', Ok tt) -> bs ++ r = b' ++ r' ->
  (partial_eq v w = true <-> ~ has_nan v).
Proof.
  intros E K t v w bs r r' b' HE Fv Fw Tv Tw Wv Ww Hb. destruct (write_unique E K t v w bs b' r r' HE Fv Fw Tv Tw Wv Ww Hb) as [_ Hu].
  rewrite <- (reflexive_iff E t v Tv), Hu.
  assert (S : forall a b, partial_eq a b = partial_eq a (unshare b)); [|rewrite (S v w); tauto].
  clear. intros a b. revert a. induction b using value_induction; intros []; cbn [partial_eq unshare]; auto.
  - assert (L : forall l, all_eq partial_eq l vs = all_eq partial_eq l (map unshare vs)); [|apply L].
    induction H as [|x vs Hx _ IH]; intros [|y l]; cbn [all_eq map]; auto. rewrite Hx, IH. reflexivity.
  - assert (L : forall l, all_eq partial_eq l vs = all_eq partial_eq l (map unshare vs)); [|apply L].
    induction H as [|x vs Hx _ IH]; intros [|y l]; cbn [all_eq map]; auto. rewrite Hx, IH. reflexivity.
  - rewrite IHb. reflexivity.
Qed.
Lemma zeros_differ : exists v w, typed [] TDouble v /\ typed [] TDouble w /\ partial_eq v w = true /\
  write_thrift vec_write_all [] TDouble v [] <> write_thrift vec_write_all [] TDouble w [].
Proof.
  exists (VDouble 0), (VDouble (2 ^ 63)). split; [constructor; split; vm_compute; congruence|]. split; [constructor; split; vm_compute; congruence|].
  split; [reflexivity|]. vm_compute. discriminate.
Qed.
