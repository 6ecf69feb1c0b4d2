(** The lexer of RustLex.v divides a text as SpecRust.v describes. *)
From Coq Require Import Ascii Sorted ZifyBool.
From Verif Require Import Base ErrorName P_ErrorName Types Macro RustLex SpecRust.
Open Scope Z_scope.
Open Scope list_scope.

(** * Characters *)
Ltac chars := unfold is_blank, is_cont, is_hex, is_start, is_digit, blank, word, letter, hexadecimal, decimal in *.
Lemma is_blank_ok c : is_blank c = true <-> blank c.
Proof. chars. lia. Qed.
Lemma is_digit_ok c : is_digit c = true <-> decimal c.
Proof. chars. lia. Qed.
Lemma is_hex_ok c : is_hex c = true <-> hexadecimal c.
Proof. chars. lia. Qed.
Lemma is_start_ok c : is_start c = true <-> letter c.
Proof. chars. lia. Qed.
Lemma is_cont_ok c : is_cont c = true <-> word c.
Proof. chars. lia. Qed.
Lemma cont_start c : is_start c = true -> is_cont c = true.
Proof. chars. lia. Qed.
Lemma cont_digit c : is_digit c = true -> is_cont c = true.
Proof. chars. lia. Qed.
Lemma digit_start c : is_digit c = true -> is_start c = false.
Proof. chars. lia. Qed.

Lemma span_ok p s w r : span p s = (w, r) -> s = w ++ r /\ forallb p w = true /\ (match r with [] => True | c :: _ => p c = false end).
Proof.
  revert w r. induction s as [|c s IH]; intros w r H; cbn [span] in H.
  - injection H as <- <-. auto.
  - destruct (p c) eqn:E.
    + destruct (span p s) as (w1, r1). injection H as <- <-. destruct (IH _ _ eq_refl) as (-> & A & B). cbn [app forallb]. rewrite E, A. auto.
    + injection H as <- <-. cbn. auto.
Qed.
Lemma span_app p w r : forallb p w = true -> (match r with [] => True | c :: _ => p c = false end) -> span p (w ++ r) = (w, r).
Proof.
  induction w as [|c w IH]; cbn [app forallb span]; intros H Hr.
  - destruct r; cbn [span]; [reflexivity|]. rewrite Hr. reflexivity.
  - apply andb_true_iff in H as [E H]. rewrite E, (IH H Hr). reflexivity.
Qed.
Lemma ends_false (p : Z -> bool) (q : Z -> Prop) s : (forall c, p c = true <-> q c) -> ends q s -> match s with [] => True | c :: _ => p c = false end.
Proof. intros H. destruct s; cbn; [trivial|]. intros N. destruct (p z) eqn:E; [|reflexivity]. exfalso. apply N. apply H. exact E. Qed.
Lemma false_ends (p : Z -> bool) (q : Z -> Prop) s : (forall c, p c = true <-> q c) -> match s with [] => True | c :: _ => p c = false end -> ends q s.
Proof. intros H. destruct s; cbn; [trivial|]. intros E N. apply H in N. congruence. Qed.
Lemma forallb_ok (p : Z -> bool) (q : Z -> Prop) w : (forall c, p c = true <-> q c) -> forallb p w = true <-> Forall q w.
Proof. intros H. rewrite forallb_forall, Forall_forall. split; intros K x Hx; apply H; apply K; exact Hx. Qed.

(** * Comments *)
Lemma starts_cons c w s : starts (c :: w) s <-> exists s', s = c :: s' /\ starts w s'.
Proof. split; [intros (r & ->); exists (w ++ r); split; [reflexivity|exists r; reflexivity]|intros (s' & -> & r & ->); exists r; reflexivity]. Qed.
Lemma starts_nil s : starts [] s.
Proof. exists s. reflexivity. Qed.
Lemma starts1 c s : starts [c] s <-> exists s', s = c :: s'.
Proof. rewrite starts_cons. split; [intros (s' & -> & _); eauto|intros (s' & ->); eexists; split; [reflexivity|apply starts_nil]]. Qed.
Lemma starts2 c d s : starts [c; d] s <-> exists s', s = c :: d :: s'.
Proof. rewrite starts_cons. setoid_rewrite starts1. split; [intros (s' & -> & s2 & ->); eauto|intros (s' & ->); eauto]. Qed.

Ltac ns := let H := fresh in intros H; try change (text "/") with [47] in H; try change (text "!") with [33] in H; try change (text "*") with [42] in H;
  apply starts1 in H as (? & H); first [discriminate H|congruence|injection H; congruence].
Lemma line_doc_ok w t : line_comment w t <-> t = match line_doc w with Some x => [x] | None => [] end.
Proof.
  split.
  - intros H. destruct H as [w|w H|w H1 H2].
    + reflexivity.
    + change (text "/") with [47] in *. cbn [app line_doc]. destruct w as [|c w]; [reflexivity|].
      assert (c <> 47). { intros ->. apply H. apply starts1. eauto. }
      destruct c as [|p|p]; try reflexivity. do 7 (try (destruct p as [p|p|]; try reflexivity)); exfalso; auto.
    + change (text "/") with [47] in *. change (text "!") with [33] in *. change (text "//") with [47;47] in *.
      destruct w as [|c w]; [reflexivity|].
      destruct (Z.eq_dec c 33) as [->|N1]; [exfalso; apply H1; apply starts1; eauto|].
      destruct (Z.eq_dec c 47) as [->|N2].
      { destruct (proj1 (starts2 _ _ _) (H2 (proj2 (starts1 _ _) (ex_intro _ w eq_refl)))) as (s' & E). injection E as ->. reflexivity. }
      destruct c as [|p|p]; try reflexivity. do 7 (try (destruct p as [p|p|]; try reflexivity)); exfalso; auto.
  - intros ->. destruct w as [|c w]; [apply Li_plain; ns|].
    destruct (Z.eq_dec c 33) as [->|N1]; [apply (Li_inner w)|].
    destruct (Z.eq_dec c 47) as [->|N2].
    { destruct w as [|d w]; [apply (Li_outer []); ns|].
      destruct (Z.eq_dec d 47) as [->|N3].
      - apply Li_plain; [ns|]. intros _. apply starts2. eauto.
      - replace (line_doc (47 :: d :: w)) with (Some (RDoc false (d :: w))); [apply (Li_outer (d :: w)); ns|].
        cbn [line_doc]. destruct d as [|p|p]; try reflexivity. do 7 (try (destruct p as [p|p|]; try reflexivity)); exfalso; auto. }
    replace (line_doc (c :: w)) with (@None rtok); [apply Li_plain; ns|].
    cbn [line_doc]. destruct c as [|p|p]; try reflexivity. do 7 (try (destruct p as [p|p|]; try reflexivity)); exfalso; auto.
Qed.
Lemma block_doc_ok w t : block_comment w t <-> t = match block_doc w with Some x => [x] | None => [] end.
Proof.
  split.
  - intros H. destruct H as [w|w H1 H|w H1 H2].
    + reflexivity.
    + change (text "*") with [42] in *. cbn [app block_doc]. destruct w as [|c w]; [congruence|].
      assert (c <> 42). { intros ->. apply H. apply starts1. eauto. }
      destruct c as [|p|p]; try reflexivity. do 7 (try (destruct p as [p|p|]; try reflexivity)); exfalso; auto.
    + change (text "*") with [42] in *. change (text "!") with [33] in *. change (text "**") with [42;42] in *.
      destruct w as [|c w]; [reflexivity|].
      destruct (Z.eq_dec c 33) as [->|N1]; [exfalso; apply H1; apply starts1; eauto|].
      destruct (Z.eq_dec c 42) as [->|N2].
      { destruct (H2 (proj2 (starts1 _ _) (ex_intro _ w eq_refl))) as [K|K]; [apply starts2 in K as (s' & E); injection E as ->; reflexivity|injection K as ->; reflexivity]. }
      destruct c as [|p|p]; try reflexivity. do 7 (try (destruct p as [p|p|]; try reflexivity)); exfalso; auto.
  - intros ->. destruct w as [|c w]; [apply Bl_plain; ns|].
    destruct (Z.eq_dec c 33) as [->|N1]; [apply (Bl_inner w)|].
    destruct (Z.eq_dec c 42) as [->|N2].
    { destruct w as [|d w]; [apply Bl_plain; [ns|auto]|].
      destruct (Z.eq_dec d 42) as [->|N3].
      - apply Bl_plain; [ns|]. intros _. left. apply starts2. eauto.
      - replace (block_doc (42 :: d :: w)) with (Some (RDoc false (d :: w))); [apply (Bl_outer (d :: w)); [discriminate|ns]|].
        cbn [block_doc]. destruct d as [|p|p]; try reflexivity. do 7 (try (destruct p as [p|p|]; try reflexivity)); exfalso; auto. }
    replace (block_doc (c :: w)) with (@None rtok); [apply Bl_plain; ns|].
    cbn [block_doc]. destruct c as [|p|p]; try reflexivity. do 7 (try (destruct p as [p|p|]; try reflexivity)); exfalso; auto.
Qed.

Definition prepend (u : list Z) (o : option (list Z * list Z)) : option (list Z * list Z) := match o with Some (w, r) => Some (u ++ w, r) | None => None end.
Lemma block_eq n s : block n s =
  match s with
  | [] => None
  | c :: s' =>
      match s' with
      | d :: r =>
          if (c =? 42) && (d =? 47) then match n with O => Some ([], r) | S n' => prepend [42; 47] (block n' r) end
          else if (c =? 47) && (d =? 42) then prepend [47; 42] (block (S n) r)
          else prepend [c] (block n s')
      | [] => prepend [c] (block n s')
      end
  end.
Proof.
  destruct s as [|c s']; [reflexivity|].
  destruct (Z.eqb_spec c 42) as [->|N1].
  { destruct s' as [|d r]; [reflexivity|]. destruct (Z.eqb_spec d 47) as [->|N2]; [reflexivity|].
    cbn [andb Z.eqb Pos.eqb]. cbn [block]. destruct d as [|p|p]; try reflexivity. do 7 (try (destruct p as [p|p|]; try reflexivity)); exfalso; auto. }
  destruct (Z.eqb_spec c 47) as [->|N2].
  { destruct s' as [|d r]; [reflexivity|]. destruct (Z.eqb_spec d 42) as [->|N3]; [reflexivity|].
    cbn [andb Z.eqb Pos.eqb]. cbn [block]. destruct d as [|p|p]; try reflexivity. do 7 (try (destruct p as [p|p|]; try reflexivity)); exfalso; auto. }
  cbn [andb]. destruct s' as [|d r]; destruct c as [|p|p]; try reflexivity; do 7 (try (destruct p as [p|p|]; try reflexivity)); exfalso; auto.
Qed.
Lemma prepend_app u v o : prepend u (prepend v o) = prepend (u ++ v) o.
Proof. destruct o as [(w, r)|]; cbn; [rewrite app_assoc|]; reflexivity. Qed.

Lemma block_nested w : nested w -> forall n r,
  block n (w ++ text "*/" ++ r) = match n with O => Some (w, r) | S n' => prepend (w ++ text "*/") (block n' r) end.
Proof.
  change (text "*/") with [42; 47]. change (text "/*") with [47; 42].
  induction 1 as [|c w H1 H2 H IH|u w Hu IHu Hw IHw]; intros n r; rewrite block_eq.
  - cbn [app Z.eqb Pos.eqb andb]. reflexivity.
  - change (text "*/") with [42; 47] in *. change (text "/*") with [47; 42] in *. cbn [app]. specialize (IH n r). cbn [app] in IH.
    destruct (w ++ [42; 47]) as [|d v] eqn:E; [destruct w; discriminate|].
    assert (Ew : w ++ 42 :: 47 :: r = d :: v ++ r). { change (42 :: 47 :: r) with ([42; 47] ++ r). rewrite app_assoc, E. reflexivity. }
    rewrite Ew in IH |- *.
    replace ((c =? 42) && (d =? 47)) with false.
    2:{ symmetry. apply not_true_iff_false. rewrite andb_true_iff, !Z.eqb_eq. intros [-> ->]. apply H2. apply starts2. eauto. }
    replace ((c =? 47) && (d =? 42)) with false.
    2:{ symmetry. apply not_true_iff_false. rewrite andb_true_iff, !Z.eqb_eq. intros [-> ->]. apply H1. apply starts2. eauto. }
    rewrite IH. destruct n; [reflexivity|]. rewrite prepend_app. reflexivity.
  - change (text "*/") with [42; 47]. change (text "/*") with [47; 42]. rewrite <- !app_assoc. cbn [app Z.eqb Pos.eqb andb].
    specialize (IHu (S n) (w ++ 42 :: 47 :: r)). cbn [app] in IHu. rewrite IHu. specialize (IHw n r). cbn [app] in IHw. rewrite IHw.
    rewrite prepend_app. destruct n.
    + cbn [prepend]. f_equal. f_equal. cbn [app]. f_equal. f_equal. rewrite <- app_assoc. reflexivity.
    + rewrite prepend_app. f_equal. cbn [app]. f_equal. f_equal. rewrite <- !app_assoc. reflexivity.
Qed.
Lemma nested_block m : forall n s w r, (List.length s <= m)%nat -> block n s = Some (w, r) ->
  exists u r', nested u /\ s = u ++ text "*/" ++ r' /\
    match n with O => w = u /\ r = r' | S n' => exists w', block n' r' = Some (w', r) /\ w = u ++ text "*/" ++ w' end.
Proof.
  change (text "*/") with [42; 47].
  induction m as [|m IH]; intros n s w r Hm H; rewrite block_eq in H; destruct s as [|c s']; try discriminate; cbn [List.length] in Hm; [lia|].
  assert (One : match s' with [] => True | d :: _ => (c =? 42) && (d =? 47) = false /\ (c =? 47) && (d =? 42) = false end -> prepend [c] (block n s') = Some (w, r) ->
    exists u r', nested u /\ c :: s' = u ++ [42; 47] ++ r' /\
    match n with O => w = u /\ r = r' | S n' => exists w', block n' r' = Some (w', r) /\ w = u ++ [42; 47] ++ w' end).
  { intros Hs Hp. destruct (block n s') as [(w1, r1)|] eqn:E; [|discriminate]. cbn [prepend app] in Hp. injection Hp as <- <-.
    destruct (IH n s' w1 r1 ltac:(lia) E) as (u & r' & Hu & -> & Hn). exists (c :: u), r'. split; [|split; [reflexivity|]].
    - apply N_char; [| |exact Hu].
      + change (text "*/") with [42; 47]. change (text "/*") with [47; 42]. intros K. apply starts2 in K as (v & K). injection K as -> K.
        destruct u as [|d u]; cbn [app] in *; [destruct Hs as [_ Hs]; discriminate|]. injection K as -> K. destruct Hs as [_ Hs]. discriminate.
      + change (text "*/") with [42; 47]. intros K. apply starts2 in K as (v & K). injection K as -> K.
        destruct u as [|d u]; cbn [app] in *; [discriminate K|]. injection K as -> K. destruct Hs as [Hs _]. discriminate.
    - destruct n; [destruct Hn as [-> ->]; auto|]. destruct Hn as (w' & E' & ->). exists w'. auto. }
  destruct s' as [|d s'']; [apply One; [exact I|exact H]|].
  destruct ((c =? 42) && (d =? 47)) eqn:E1.
  { apply andb_true_iff in E1 as [E1 E2]. apply Z.eqb_eq in E1, E2. subst c d. exists [], s''. split; [constructor|split; [reflexivity|]].
    destruct n; [injection H as <- <-; auto|]. destruct (block n s'') as [(w1, r1)|]; [|discriminate]. cbn [prepend app] in H. injection H as <- <-. exists w1. auto. }
  destruct ((c =? 47) && (d =? 42)) eqn:E2; [|apply One; auto].
  apply andb_true_iff in E2 as [E2 E3]. apply Z.eqb_eq in E2, E3. subst c d. cbn [List.length] in Hm.
  destruct (block (S n) s'') as [(w1, r1)|] eqn:E; [|discriminate]. cbn [prepend app] in H. injection H as <- <-.
  destruct (IH (S n) s'' w1 r1 ltac:(lia) E) as (u & r' & Hu & -> & w' & E' & ->). rewrite !app_length in Hm. cbn [List.length] in Hm.
  destruct (IH n r' w' r1 ltac:(lia) E') as (u2 & r2 & Hu2 & -> & Hn).
  exists (text "/*" ++ u ++ text "*/" ++ u2), r2. split; [apply N_comment; assumption|].
  change (text "*/") with [42; 47]. change (text "/*") with [47; 42]. split; [cbn [app]; do 2 f_equal; rewrite <- app_assoc; reflexivity|].
  destruct n.
  - destruct Hn as [-> ->]. split; reflexivity.
  - destruct Hn as (w2 & E2 & ->). exists w2. split; [exact E2|]. cbn [app]. do 2 f_equal. rewrite <- app_assoc. reflexivity.
Qed.
Lemma block_ok s w r : block 0 s = Some (w, r) <-> nested w /\ s = w ++ text "*/" ++ r.
Proof.
  split.
  - intros H. destruct (nested_block _ 0 s w r (Nat.le_refl _) H) as (u & r' & Hu & -> & -> & ->). auto.
  - intros [H ->]. rewrite block_nested by exact H. reflexivity.
Qed.

(** * Strings *)
Lemma quoted_eq s : quoted s =
  match s with
  | [] => None
  | c :: r =>
      if c =? 34 then Some ([34], r)
      else if c =? 92 then
        match r with
        | e :: r' => if existsb (Z.eqb e) (text "nrt0" ++ [92; 39; 34]) then prepend [92; e] (quoted r') else None
        | [] => None
        end
      else prepend [c] (quoted r)
  end.
Proof.
  destruct s as [|c s']; [reflexivity|].
  destruct (Z.eqb_spec c 34) as [->|N1]; [reflexivity|].
  destruct (Z.eqb_spec c 92) as [->|N2]; [destruct s'; reflexivity|].
  destruct c as [|p|p]; try reflexivity; do 7 (try (destruct p as [p|p|]; try reflexivity)); exfalso; auto.
Qed.
Lemma escapes_ok e : existsb (Z.eqb e) (text "nrt0" ++ [92; 39; 34]) = true <-> In e (text "nrt0" ++ [92; 39; 34]).
Proof.
  rewrite existsb_exists. split.
  - intros (x & H & E). apply Z.eqb_eq in E. subst. exact H.
  - intros H. exists e. split; [exact H|apply Z.eqb_refl].
Qed.
Lemma quoted_ok m : forall s w r, (List.length s <= m)%nat -> quoted s = Some (w, r) <-> exists v, in_quotes v /\ w = v ++ [34] /\ s = w ++ r.
Proof.
  induction m as [|m IH]; intros s w r Hm; rewrite quoted_eq; destruct s as [|c s']; cbn [List.length] in Hm; try lia.
  1,2: split; [discriminate|intros (v & _ & -> & E); destruct v; discriminate].
  destruct (Z.eqb_spec c 34) as [->|N1].
  { split.
    - intros H. injection H as <- <-. exists []. split; [constructor|split; reflexivity].
    - intros (v & Hv & -> & E). destruct Hv; cbn [app] in E; inversion E; subst; try congruence; reflexivity. }
  destruct (Z.eqb_spec c 92) as [->|N2].
  { destruct s' as [|e s''].
    - split; [discriminate|]. intros (v & Hv & -> & E). destruct Hv; cbn [app] in E; inversion E; subst; congruence.
    - cbn [List.length] in Hm. destruct (existsb (Z.eqb e) (text "nrt0" ++ [92; 39; 34])) eqn:Ee.
      + pose proof (proj1 (escapes_ok e) Ee) as He. specialize (IH s''). split.
        * intros H. destruct (quoted s'') as [(w1, r1)|] eqn:E; [|discriminate]. cbn [prepend app] in H. injection H as <- <-.
          destruct (proj1 (IH w1 r1 ltac:(lia)) eq_refl) as (v & Hv & -> & ->). exists (92 :: e :: v). split; [apply Q_escape; assumption|split; reflexivity].
        * intros (v & Hv & -> & E). destruct Hv as [|c v Hc1 Hc2 Hv|c v Hc Hv]; cbn [app] in E; try (exfalso; inversion E; congruence).
          injection E as -> ->. rewrite (proj2 (IH (v ++ [34]) r ltac:(lia))); [reflexivity|]. exists v. split; [exact Hv|split; reflexivity].
      + split; [discriminate|]. intros (v & Hv & -> & E). destruct Hv as [|c v Hc1 Hc2 Hv|c v Hc Hv]; cbn [app] in E; try (exfalso; inversion E; congruence).
        injection E as -> ->. apply escapes_ok in Hc. congruence. }
  split.
  - intros H. destruct (quoted s') as [(w1, r1)|] eqn:E; [|discriminate]. cbn [prepend app] in H. injection H as <- <-.
    destruct (proj1 (IH s' w1 r1 ltac:(lia)) E) as (v & Hv & -> & ->). exists (c :: v). split; [apply Q_plain; assumption|split; reflexivity].
  - intros (v & Hv & -> & E). destruct Hv as [|x v Hc1 Hc2 Hv|x v Hc Hv]; cbn [app] in E; try (exfalso; inversion E; congruence).
    injection E as -> ->. rewrite (proj2 (IH ((v ++ [34]) ++ r) (v ++ [34]) r ltac:(lia))); [reflexivity|]. exists v. split; [exact Hv|split; reflexivity].
Qed.

(** * Numbers *)
Definition decb (c : Z) : bool := is_digit c || (c =? 95).
Lemma decb_ok c : decb c = true <-> decimal c \/ c = 95.
Proof. unfold decb. chars. lia. Qed.
Lemma decb_cont c : decb c = true -> is_cont c = true.
Proof. unfold decb. chars. lia. Qed.
Lemma decimals_ok c v : decimals (c :: v) <-> is_digit c = true /\ forallb decb (c :: v) = true.
Proof.
  unfold decimals. split.
  - intros (x & w & E & Hx & Hw). injection E as <- <-. apply is_digit_ok in Hx. split; [exact Hx|]. cbn [forallb]. unfold decb at 1. rewrite Hx. cbn [orb andb].
    apply (forallb_ok decb _ v decb_ok). exact Hw.
  - intros [H1 H2]. exists c, v. split; [reflexivity|]. split; [apply is_digit_ok; exact H1|]. cbn [forallb] in H2. apply andb_true_iff in H2 as [_ H2].
    apply (forallb_ok decb _ v decb_ok). exact H2.
Qed.
Definition hexb (c : Z) : bool := is_hex c || (c =? 95).
Lemma hexb_ok c : hexb c = true <-> hexadecimal c \/ c = 95.
Proof. unfold hexb. chars. lia. Qed.
Lemma hexb_cont c : hexb c = true -> is_cont c = true.
Proof. unfold hexb. chars. lia. Qed.
Lemma is_number_ok c v : is_digit c = true -> is_number (c :: v) = true <-> decimals (c :: v) \/ hexadecimals (c :: v).
Proof.
  intros Hc. rewrite decimals_ok. change (is_number (c :: v)) with (forallb decb (c :: v) ||
    match c :: v with 48 :: 120 :: h => forallb hexb h && existsb is_hex h | _ => false end).
  rewrite orb_true_iff. split.
  - intros [H|H]; [auto|]. right.
    destruct c as [|p|p]; try discriminate; do 6 (destruct p as [p|p|]; try discriminate). destruct v as [|c v]; [discriminate|].
    destruct c as [|p|p]; try discriminate; do 7 (destruct p as [p|p|]; try discriminate). apply andb_true_iff in H as [H1 H2].
    exists v. split; [reflexivity|]. split; [apply (forallb_ok hexb _ v hexb_ok); exact H1|].
    apply existsb_exists in H2 as (x & Hx & H2). apply Exists_exists. exists x. split; [exact Hx|apply is_hex_ok; exact H2].
  - intros [[_ H]|(h & E & H1 & H2)]; [auto|]. right. change (text "0x") with [48; 120] in E. cbn [app] in E. injection E as -> ->.
    rewrite (proj2 (forallb_ok hexb _ h hexb_ok) H1). apply Exists_exists in H2 as (x & Hx & H2). cbn [andb]. apply existsb_exists. exists x.
    split; [exact Hx|apply is_hex_ok; exact H2].
Qed.
Lemma forallb_imp (p q : Z -> bool) w : (forall c, p c = true -> q c = true) -> forallb p w = true -> forallb q w = true.
Proof. rewrite !forallb_forall. auto. Qed.
Lemma number_cont c v : is_digit c = true -> decimals (c :: v) \/ hexadecimals (c :: v) -> forallb is_cont (c :: v) = true.
Proof.
  intros Hc [H|(h & E & H1 & H2)].
  - apply decimals_ok in H as [_ H]. exact (forallb_imp _ _ _ decb_cont H).
  - rewrite E. change (text "0x") with [48; 120]. cbn [app forallb]. apply (forallb_ok hexb _ h hexb_ok) in H1. rewrite (forallb_imp _ _ _ hexb_cont H1). reflexivity.
Qed.
Lemma word_ends s : ends word s <-> match s with [] => True | c :: _ => is_cont c = false end.
Proof. split; [apply ends_false; exact is_cont_ok|apply false_ends; exact is_cont_ok]. Qed.
Definition point (w : list Z) (r : list Z) : option (list Z * list Z) :=
  match r with
  | c :: _ =>
      if (c =? 46) || is_start c then Some (w, 46 :: r)
      else if negb (forallb decb w) then None
      else let (w', r'') := span is_cont r in if forallb decb w' then Some (w ++ 46 :: w', r'') else None
  | [] => if forallb decb w then Some (w ++ [46], []) else None
  end.
Lemma number_eq s : number s =
  let (w, r) := span is_cont s in
  if negb (is_number w) then None else match r with c :: r' => if c =? 46 then point w r' else Some (w, r) | [] => Some (w, r) end.
Proof.
  unfold number. destruct (span is_cont s) as (w, r). destruct (negb (is_number w)); [reflexivity|]. destruct r as [|c r]; [reflexivity|].
  destruct (Z.eqb_spec c 46) as [->|N]; [reflexivity|]. destruct c as [|p|p]; try reflexivity; do 6 (try (destruct p as [p|p|]; try reflexivity)); exfalso; auto.
Qed.
Lemma number_sound c s' w r : is_digit c = true -> number (c :: s') = Some (w, r) -> c :: s' = w ++ r /\ number_before w r.
Proof.
  intros Hc. rewrite number_eq. destruct (span is_cont (c :: s')) as (u, r0) eqn:E. apply span_ok in E as (E & Hu & Hr).
  destruct u as [|x u].
  { cbn [app] in E. subst r0. rewrite (cont_digit c Hc) in Hr. discriminate. }
  injection E as <- E. destruct (is_number (c :: u)) eqn:En; [|discriminate]. cbn [negb]. pose proof (proj1 (is_number_ok c u Hc) En) as Hn.
  assert (Plain : match r0 with c :: _ => c <> 46 | [] => True end -> Some (c :: u, r0) = Some (w, r) -> c :: s' = w ++ r /\ number_before w r).
  { intros Hd H. injection H as <- <-. split; [cbn [app]; f_equal; exact E|]. apply Nu_integer; [exact Hn|apply word_ends; exact Hr|].
    intros K. change (text ".") with [46] in K. apply starts1 in K as (? & ->). congruence. }
  destruct r0 as [|d r']; [apply Plain; exact I|]. destruct (Z.eqb_spec d 46) as [->|N]; [|apply Plain; exact N]. clear Plain.
  unfold point. destruct r' as [|e r'].
  { destruct (forallb decb (c :: u)) eqn:Ed; [|discriminate]. intros H. injection H as <- <-. split; [cbn [app]; rewrite app_nil_r; f_equal; exact E|].
    apply (Nu_point (c :: u)); [apply decimals_ok; auto|exact I]. }
  destruct ((e =? 46) || is_start e) eqn:Ee.
  { intros H. injection H as <- <-. split; [cbn [app]; f_equal; exact E|]. apply Nu_integer; [exact Hn|apply word_ends; exact Hr|].
    intros _. exists e. split; [|apply starts2; eauto]. apply orb_true_iff in Ee as [Ee|Ee]; [left; apply Z.eqb_eq; exact Ee|right; apply is_start_ok; exact Ee]. }
  apply orb_false_iff in Ee as [E1 E2]. destruct (forallb decb (c :: u)) eqn:Ed; [|discriminate]. cbn [negb].
  destruct (span is_cont (e :: r')) as (v, r2) eqn:Es. apply span_ok in Es as (Es & Hv & Hr2).
  destruct (forallb decb v) eqn:Ev; [|discriminate]. intros H. injection H as <- <-.
  assert (Hdec : decimals (c :: u)) by (apply decimals_ok; auto).
  destruct v as [|e' v].
  - cbn [app] in Es. subst r2. split; [cbn [app]; rewrite <- app_assoc; f_equal; exact E|]. apply (Nu_point (c :: u)); [exact Hdec|].
    cbn. intros [->|K]; [discriminate|]. apply is_cont_ok in K. congruence.
  - injection Es as <- Es. split.
    + cbn [app]. rewrite <- app_assoc. cbn [app]. rewrite <- Es. f_equal. exact E.
    + apply (Nu_fraction (c :: u)); [exact Hdec| |apply word_ends; exact Hr2]. apply decimals_ok. split; [|exact Ev].
      cbn [forallb] in Hv, Ev. apply andb_true_iff in Hv as [Hv _]. apply andb_true_iff in Ev as [Ev _]. clear - Hv Ev E2. unfold decb in *. chars. lia.
Qed.
Lemma number_complete w r : number_before w r -> exists c v, w = c :: v /\ is_digit c = true /\ number (w ++ r) = Some (w, r).
Proof.
  intros H.
  assert (D : forall w, decimals w \/ hexadecimals w -> exists c v, w = c :: v /\ is_digit c = true).
  { clear. intros w [(c & v & -> & H & _)|(h & -> & _)]; [exists c, v; split; [reflexivity|apply is_digit_ok; exact H]|exists 48, (120 :: h); split; reflexivity]. }
  destruct H as [w s Hn He Hp|w s Hd He|u w s Hu Hw He].
  - destruct (D w Hn) as (c & v & -> & Hc). exists c, v. split; [reflexivity|split; [exact Hc|]]. rewrite number_eq.
    rewrite (span_app _ _ _ (number_cont c v Hc Hn) (proj1 (word_ends s) He)). rewrite (proj2 (is_number_ok c v Hc) Hn). cbn [negb].
    destruct s as [|d s]; [reflexivity|]. destruct (Z.eqb_spec d 46) as [->|N]; [|reflexivity].
    destruct (Hp ltac:(apply starts1; eauto)) as (e & K & S). apply starts2 in S as (s2 & S). injection S as ->. unfold point.
    replace ((e =? 46) || is_start e) with true; [reflexivity|]. symmetry. apply orb_true_iff. destruct K as [->|K]; [left; reflexivity|right; apply is_start_ok; exact K].
  - destruct (D w (or_introl Hd)) as (c & v & -> & Hc). exists c, (v ++ [46]). split; [reflexivity|split; [exact Hc|]]. rewrite number_eq.
    rewrite <- app_assoc. change (text "." ++ s) with (46 :: s). rewrite (span_app _ (c :: v) (46 :: s) (number_cont c v Hc (or_introl Hd)) eq_refl).
    rewrite (proj2 (is_number_ok c v Hc) (or_introl Hd)). cbn [negb Z.eqb Pos.eqb]. unfold point. apply decimals_ok in Hd as [_ Hd]. rewrite Hd.
    destruct s as [|e s]; [reflexivity|]. cbn [ends] in He. replace ((e =? 46) || is_start e) with false.
    2:{ symmetry. apply orb_false_iff. split; [apply Z.eqb_neq; auto|]. destruct (is_start e) eqn:K; [|reflexivity]. exfalso. apply He. right. left. apply is_start_ok. exact K. }
    cbn [negb]. change (e :: s) with ([] ++ e :: s) at 1. rewrite (span_app is_cont [] (e :: s) eq_refl). 2:{ destruct (is_cont e) eqn:K; [|reflexivity]. exfalso. apply He. right. apply is_cont_ok. exact K. }
    reflexivity.
  - destruct (D u (or_introl Hu)) as (c & v & -> & Hc). destruct (D w (or_introl Hw)) as (e & x & -> & Hx). exists c, (v ++ text "." ++ e :: x).
    split; [reflexivity|split; [exact Hc|]]. rewrite number_eq. rewrite <- !app_assoc. change (text "." ++ (e :: x) ++ s) with (46 :: (e :: x) ++ s).
    rewrite (span_app _ (c :: v) (46 :: (e :: x) ++ s) (number_cont c v Hc (or_introl Hu)) eq_refl).
    rewrite (proj2 (is_number_ok c v Hc) (or_introl Hu)). cbn [negb Z.eqb Pos.eqb]. unfold point. apply decimals_ok in Hu as [_ Hu]. rewrite Hu. cbn [app].
    replace ((e =? 46) || is_start e) with false by (chars; lia). cbn [negb]. change (e :: x ++ s) with ((e :: x) ++ s).
    rewrite (span_app _ (e :: x) s (number_cont e x Hx (or_introl Hw)) (proj1 (word_ends s) He)). apply decimals_ok in Hw as [_ Hw]. rewrite Hw. reflexivity.
Qed.

(** * Punctuation *)
Lemma strip_ok p s r : strip p s = Some r <-> s = p ++ r.
Proof.
  revert s. induction p as [|a p IH]; intros s; cbn [strip app].
  - split; [intros H; injection H as ->; reflexivity|intros ->; reflexivity].
  - destruct s as [|b s]; [split; discriminate|]. destruct (Z.eqb_spec a b) as [->|N].
    + rewrite IH. split; [intros ->; reflexivity|intros H; injection H as ->; reflexivity].
    + split; [discriminate|]. intros H. injection H as H _. congruence.
Qed.
Lemma strip_none p s : strip p s = None <-> ~ starts p s.
Proof.
  split.
  - intros H (r & ->). rewrite (proj2 (strip_ok p (p ++ r) r) eq_refl) in H. discriminate.
  - intros H. destruct (strip p s) eqn:E; [|reflexivity]. apply strip_ok in E. exfalso. apply H. exists l. exact E.
Qed.
Fixpoint falling (n : nat) (ps : list string) : bool :=
  match ps with [] => true | p :: ps' => Nat.leb (String.length p) n && falling (String.length p) ps' end.
Lemma falling_le ps : forall n q, falling n ps = true -> In q ps -> (String.length q <= n)%nat.
Proof.
  induction ps as [|p ps IH]; intros n q H Hq; [destruct Hq|]. cbn [falling] in H. apply andb_true_iff in H as [H1 H2]. apply Nat.leb_le in H1.
  destruct Hq as [->|Hq]; [exact H1|]. specialize (IH _ _ H2 Hq). lia.
Qed.
Lemma punct_some ps : forall n s m r, falling n ps = true -> punct ps s = Some (m, r) ->
  In m ps /\ s = text m ++ r /\ forall q, In q ps -> starts (text q) s -> (String.length q <= String.length m)%nat.
Proof.
  induction ps as [|p ps IH]; intros n s m r Hf H; [discriminate|]. cbn [punct] in H. cbn [falling] in Hf. apply andb_true_iff in Hf as [_ Hf].
  destruct (strip (text p) s) as [r'|] eqn:E.
  - injection H as <- <-. apply strip_ok in E. split; [left; reflexivity|]. split; [exact E|]. intros q [->|Hq] _; [lia|]. exact (falling_le _ _ _ Hf Hq).
  - destruct (IH _ _ _ _ Hf H) as (H1 & H2 & H3). split; [right; exact H1|]. split; [exact H2|]. intros q [<-|Hq] Hs; [|exact (H3 q Hq Hs)].
    exfalso. exact (proj1 (strip_none _ _) E Hs).
Qed.
Lemma punct_none ps s : punct ps s = None -> forall q, In q ps -> ~ starts (text q) s.
Proof.
  induction ps as [|p ps IH]; intros H q Hq; [destruct Hq|]. cbn [punct] in H. destruct (strip (text p) s) eqn:E; [discriminate|].
  destruct Hq as [<-|Hq]; [apply strip_none; exact E|exact (IH H q Hq)].
Qed.
Lemma text_length n : List.length (text n) = String.length n.
Proof. unfold text. rewrite map_length. induction n; cbn; auto. Qed.
Lemma starts_same m n s : starts (text m) s -> starts (text n) s -> String.length m = String.length n -> m = n.
Proof.
  intros (r & E1) (r' & E2) H. apply text_inj. rewrite <- !text_length in H. rewrite E1 in E2. clear E1. revert H E2. generalize (text m) (text n).
  induction l as [|a l IH]; intros [|b l'] H E; cbn in *; try lia; [reflexivity|]. injection E as -> E. f_equal. exact (IH l' ltac:(lia) E).
Qed.
Lemma puncts_same n : In n puncts <-> In n punctuation.
Proof.
  assert (K : forall l l', forallb (fun x => existsb (String.eqb x) l') l = true -> In n l -> In n l').
  { clear. intros l l' H K. rewrite forallb_forall in H. specialize (H n K). apply existsb_exists in H as (x & Hx & E). apply String.eqb_eq in E. subst x. exact Hx. }
  split; apply K; vm_compute; reflexivity.
Qed.
Lemma punct_complete n s : In n punctuation -> (forall m, In m punctuation -> starts (text m) (text n ++ s) -> (String.length m <= String.length n)%nat) ->
  punct puncts (text n ++ s) = Some (n, s).
Proof.
  intros Hn Hm. assert (Hs : starts (text n) (text n ++ s)) by (exists s; reflexivity).
  destruct (punct puncts (text n ++ s)) as [(m, r)|] eqn:E.
  - destruct (punct_some puncts 3 _ _ _ eq_refl E) as (H1 & H2 & H3). assert (E2 : m = n).
    { apply (starts_same m n (text n ++ s)); [exists r; exact H2|exact Hs|]. specialize (Hm m (proj1 (puncts_same m) H1) (ex_intro _ r H2)).
      specialize (H3 n (proj2 (puncts_same n) Hn) Hs). lia. }
    subst m. apply app_inv_head in H2. subst r. reflexivity.
  - exfalso. exact (punct_none _ _ E n (proj2 (puncts_same n) Hn) Hs).
Qed.

(** * The next token *)
Lemma next_sound c s' o r : next c s' = Some (o, r) -> (List.length r <= List.length s')%nat /\
  forall ts, rust_text r ts -> rust_text (c :: s') (match o with Some t => [t] | None => [] end ++ ts).
Proof.
  unfold next. destruct (is_blank c) eqn:Eb.
  { intros H. injection H as <- <-. split; [lia|]. intros ts H. apply X_blank; [apply is_blank_ok; exact Eb|exact H]. }
  destruct (is_start c) eqn:Es.
  { destruct (span is_cont (c :: s')) as (w, r0) eqn:E. apply span_ok in E as (E & Hw & Hr). destruct w as [|x w].
    { cbn [app] in E. subst r0. rewrite (cont_start c Es) in Hr. discriminate. }
    injection E as <- ->. cbn [forallb] in Hw. apply andb_true_iff in Hw as [_ Hw]. apply (forallb_ok _ _ w is_cont_ok) in Hw. rewrite app_length.
    destruct r0 as [|q r0].
    - intros H. injection H as <- <-. split; [lia|]. intros ts H. apply (X_name c w []); [apply is_start_ok; exact Es|exact Hw|exact I|exact H].
    - destruct ((q =? 34) || (q =? 39) || (q =? 35)) eqn:Eq; [discriminate|]. intros H. injection H as <- <-. split; [lia|]. intros ts H.
      apply (X_name c w (q :: r0)); [apply is_start_ok; exact Es|exact Hw| |exact H]. cbn. intros [K|K]; [apply is_cont_ok in K; congruence|lia]. }
  destruct (is_digit c) eqn:Ed.
  { destruct (number (c :: s')) as [(w, r0)|] eqn:E; [|discriminate]. intros H. injection H as <- <-. destruct (number_sound c s' w r0 Ed E) as (Ew & Hn).
    destruct (number_complete w r0 Hn) as (d & v & -> & _). injection Ew as <- ->. rewrite app_length. split; [lia|]. intros ts H. apply (X_number (c :: v)); assumption. }
  destruct (Z.eqb_spec c 34) as [->|N].
  { destruct (quoted s') as [(w, r0)|] eqn:E; [|discriminate]. apply (quoted_ok _ s' w r0 (Nat.le_refl _)) in E as (v & Hv & -> & ->). rewrite !app_length. cbn [List.length].
    assert (K : ends letter r0 -> (List.length r0 <= List.length v + 1 + List.length r0)%nat /\ forall ts, rust_text r0 ts ->
      rust_text (34 :: (v ++ [34]) ++ r0) (RLit (34 :: v ++ [34]) :: ts)).
    { intros Hl. split; [lia|]. intros ts H. apply (X_string v r0 ts Hv Hl H). }
    destruct r0 as [|q r0]; [intros H; injection H as <- <-; apply K; exact I|].
    destruct (is_start q) eqn:Eq; [discriminate|]. intros H. injection H as <- <-. apply K. cbn. intros L. apply is_start_ok in L. congruence. }
  destruct (bracket c) as [t|] eqn:Et.
  { intros H. injection H as <- <-. split; [lia|]. intros ts H. unfold bracket in Et.
    repeat match type of Et with (if c =? ?k then _ else _) = _ => destruct (Z.eqb_spec c k) as [->|]; [injection Et as <-|] end; try discriminate.
    - apply (X_bracket "("%string); [cbn; tauto|exact H].
    - apply (X_bracket ")"%string); [cbn; tauto|exact H].
    - apply (X_bracket "["%string); [cbn; tauto|exact H].
    - apply (X_bracket "]"%string); [cbn; tauto|exact H].
    - apply (X_bracket "{"%string); [cbn; tauto|exact H].
    - apply (X_bracket "}"%string); [cbn; tauto|exact H]. }
  destruct (strip (text "//") (c :: s')) as [r1|] eqn:E1.
  { apply strip_ok in E1. destruct (span (fun c => negb (c =? 10)) r1) as (w, r2) eqn:E2. apply span_ok in E2 as (-> & Hw & Hr).
    intros H. injection H as <- <-. split.
    - change (text "//") with [47; 47] in E1. cbn [app] in E1. injection E1 as -> ->. cbn [List.length]. rewrite app_length. lia.
    - intros ts H. rewrite E1. apply X_line; [| |apply line_doc_ok; reflexivity|exact H].
      + intros K. rewrite forallb_forall in Hw. specialize (Hw _ K). discriminate.
      + destruct r2; cbn; [trivial|]. apply negb_false_iff in Hr. apply Z.eqb_eq in Hr. auto. }
  destruct (strip (text "/*") (c :: s')) as [r1|] eqn:E2.
  { apply strip_ok in E2. destruct (block 0 r1) as [(w, r2)|] eqn:E3; [|discriminate]. apply block_ok in E3 as (Hw & ->).
    intros H. injection H as <- <-. split.
    - change (text "/*") with [47; 42] in E2. cbn [app] in E2. injection E2 as -> ->. cbn [List.length]. rewrite !app_length. cbn [List.length]. lia.
    - intros ts H. rewrite E2. apply X_block; [exact Hw|apply block_doc_ok; reflexivity|exact H]. }
  destruct (punct puncts (c :: s')) as [(p, r1)|] eqn:E3; [|discriminate]. intros H. injection H as <- <-.
  destruct (punct_some puncts 3 _ _ _ eq_refl E3) as (H1 & H2 & H3). apply puncts_same in H1. split.
  - assert (L : (1 <= List.length (text p))%nat) by (rewrite text_length; repeat (destruct H1 as [<-|H1]; [cbn; lia|]); destruct H1).
    apply (f_equal (@List.length Z)) in H2. rewrite app_length in H2. cbn [List.length] in H2. lia.
  - intros ts H. apply strip_none in E1, E2. rewrite H2 in *. apply (X_punct p r1 ts H1); [|exact E1|exact E2|exact H]. intros m Hm. apply H3. apply puncts_same. exact Hm.
Qed.
Lemma tokens_sound n : forall s ts, rust_tokens n s = Some ts -> rust_text s ts.
Proof.
  induction n as [|n IH]; intros [|c s'] ts H; cbn [rust_tokens] in H; try discriminate; try (injection H as <-; constructor).
  destruct (next c s') as [(o, r)|] eqn:E; [|discriminate]. destruct (rust_tokens n r) as [ts'|] eqn:E2; [|discriminate].
  destruct (next_sound c s' o r E) as (_ & K). specialize (K ts' (IH _ _ E2)). destruct o; injection H as <-; exact K.
Qed.

Lemma quoted_next w s : in_quotes w -> ends letter s -> next 34 ((w ++ [34]) ++ s) = Some (Some (RLit (34 :: w ++ [34])), s).
Proof.
  intros Hw Hs. unfold next. cbn [is_blank is_start is_digit Z.leb Z.eqb Pos.eqb Z.compare Pos.compare Pos.compare_cont andb orb].
  change (is_blank 34) with false. change (is_start 34) with false. change (is_digit 34) with false. cbv iota.
  rewrite (proj2 (quoted_ok _ ((w ++ [34]) ++ s) (w ++ [34]) s (Nat.le_refl _))) by (exists w; auto).
  destruct s as [|q s]; [reflexivity|]. destruct (is_start q) eqn:E; [|reflexivity]. exfalso. apply Hs. apply is_start_ok. exact E.
Qed.
Lemma tokens_complete s ts : rust_text s ts -> forall n, (List.length s <= n)%nat -> rust_tokens n s = Some ts.
Proof.
  assert (Step : forall c s' o r ts n, next c s' = Some (o, r) -> (forall n, (List.length r <= n)%nat -> rust_tokens n r = Some ts) -> (List.length (c :: s') <= n)%nat ->
    rust_tokens n (c :: s') = Some (match o with Some t => [t] | None => [] end ++ ts)).
  { intros c s' o r ts0 n E K Hn. destruct n as [|n]; cbn [List.length] in Hn; [lia|]. cbn [rust_tokens]. rewrite E. destruct (next_sound c s' o r E) as (L & _).
    rewrite (K n) by lia. destruct o; reflexivity. }
  induction 1 as [|c s ts H _ IH|w s t ts H1 H2 H3 _ IH|w s t ts H1 H2 _ IH|c w s ts H1 H2 H3 _ IH|w s ts H _ IH|w s ts H1 H2 _ IH|n t s ts H _ IH|p s ts H1 H2 H3 H4 _ IH];
    intros k Hk.
  - destruct k; reflexivity.
  - apply (Step c s None s ts k); [|exact IH|exact Hk]. unfold next. apply is_blank_ok in H. rewrite H. reflexivity.
  - apply line_doc_ok in H3. subst t. change (text "//" ++ w ++ s) with (47 :: 47 :: w ++ s) in *.
    apply (Step 47 (47 :: w ++ s) (line_doc w) s ts k); [|exact IH|exact Hk].
    change (next 47 (47 :: w ++ s)) with (let (w, r) := span (fun c => negb (c =? 10)) (w ++ s) in Some (line_doc w, r)).
    rewrite span_app; [reflexivity| |].
    + apply forallb_forall. intros x Hx. apply negb_true_iff, Z.eqb_neq. intros ->. auto.
    + destruct s; [trivial|]. cbn in H2. apply negb_false_iff, Z.eqb_eq. destruct (Z.eq_dec z 10); [assumption|exfalso; auto].
  - apply block_doc_ok in H2. subst t. change (text "/*" ++ w ++ text "*/" ++ s) with (47 :: 42 :: w ++ text "*/" ++ s) in *.
    apply (Step 47 (42 :: w ++ text "*/" ++ s) (block_doc w) s ts k); [|exact IH|exact Hk].
    change (next 47 (42 :: w ++ text "*/" ++ s)) with (match block 0 (w ++ text "*/" ++ s) with Some (w, r) => Some (block_doc w, r) | None => None end).
    rewrite (proj2 (block_ok _ w s)) by auto. reflexivity.
  - cbn [app] in *. apply (Step c (w ++ s) (Some (RId (string_of (c :: w)))) s ts k); [|exact IH|exact Hk]. apply is_start_ok in H1. unfold next.
    replace (is_blank c) with false by (clear - H1; chars; lia). rewrite H1. change (c :: w ++ s) with ((c :: w) ++ s). rewrite span_app.
    + destruct s as [|q s]; [reflexivity|]. cbn in H3. replace ((q =? 34) || (q =? 39) || (q =? 35)) with false by lia. reflexivity.
    + cbn [forallb]. rewrite (cont_start c H1). cbn [andb]. apply (forallb_ok _ _ w is_cont_ok). exact H2.
    + destruct s as [|q s]; [trivial|]. cbn in H3. destruct (is_cont q) eqn:E; [|reflexivity]. exfalso. apply H3. left. apply is_cont_ok. exact E.
  - destruct (number_complete w s H) as (c & v & -> & Hc & E). cbn [app] in *. apply (Step c (v ++ s) (Some (RLit (c :: v))) s ts k); [|exact IH|exact Hk]. unfold next.
    replace (is_blank c) with false by (clear - Hc; chars; lia). rewrite (digit_start c Hc), Hc, E. reflexivity.
  - change ((34 :: w ++ [34]) ++ s) with (34 :: (w ++ [34]) ++ s) in *.
    apply (Step 34 ((w ++ [34]) ++ s) (Some (RLit (34 :: w ++ [34]))) s ts k); [|exact IH|exact Hk]. apply quoted_next; assumption.
  - assert (E : exists c, text n = [c] /\ next c s = Some (Some t, s)).
    { repeat (destruct H as [E|H]; [injection E as <- <-; eexists; split; reflexivity|]). destruct H. }
    destruct E as (c & E1 & E2). rewrite E1 in *. exact (Step c s (Some t) s ts k E2 IH Hk).
  - pose proof (punct_complete p s H1 H2) as Ep. apply strip_none in H3, H4.
    assert (E : exists c v, text p = c :: v /\ is_blank c = false /\ is_start c = false /\ is_digit c = false /\ (c =? 34) = false /\ bracket c = None).
    { clear - H1. repeat (destruct H1 as [<-|H1]; [eexists; eexists; split; [reflexivity|repeat split; reflexivity]|]). destruct H1. }
    destruct E as (c & v & Et & B1 & B2 & B3 & B4 & B5). rewrite Et in *. cbn [app] in *.
    apply (Step c (v ++ s) (Some (RPunct p)) s ts k); [|exact IH|exact Hk]. unfold next. rewrite B1, B2, B3, B4, B5, H3, H4, Ep. reflexivity.
Qed.
Lemma rust_lex_ok s ts : rust_lex s = Some ts <-> rust_text s ts.
Proof. split; [apply tokens_sound|]. intros H. exact (tokens_complete s ts H _ (Nat.le_refl _)). Qed.

(** * Groups *)
Lemma grouped_app g ts : grouped g ts -> forall g' ts', grouped g' ts' -> grouped (g ++ g') (ts ++ ts').
Proof.
  induction 1 as [|n g ts H IH|w g ts H IH|s g ts H IH|w g ts H IH|w g ts H IH|d i is g ts Hi IHi Hg IHg]; intros g' ts' K; cbn [app].
  - exact K.
  - apply U_name. auto.
  - apply U_literal. auto.
  - apply U_punct. auto.
  - apply (U_outer w (g ++ g')). auto.
  - apply (U_inner w (g ++ g')). auto.
  - rewrite <- app_assoc. cbn [app]. apply U_group; auto.
Qed.
Lemma trees_grouped g ts : grouped g ts -> forall rest acc st, trees (ts ++ rest) acc st = trees rest (rev g ++ acc) st.
Proof.
  induction 1 as [|n g ts H IH|w g ts H IH|s g ts H IH|w g ts H IH|w g ts H IH|d i is g ts Hi IHi Hg IHg]; intros rest acc st; cbn [app trees rev]; try reflexivity.
  1,2,3: rewrite IH, <- app_assoc; reflexivity.
  1,2: rewrite IH; cbn [doc rev app]; rewrite <- !app_assoc; reflexivity.
  rewrite <- app_assoc, IHi. cbn [app trees]. replace (delim_eqb d d) with true by (destruct d; reflexivity). rewrite app_nil_r, rev_involutive, IHg, <- app_assoc. reflexivity.
Qed.
(** The tokens of what is open *)
Inductive opened : list (delim * list tree) -> list rtok -> Prop :=
| Op_nil : opened [] []
| Op_cons d acc st ts ts' : grouped (rev acc) ts -> opened st ts' -> opened ((d, acc) :: st) (ts' ++ ts ++ [ROpen d]).
Lemma trees_sound ts : forall acc st g pre mid, grouped (rev acc) mid -> opened st pre -> trees ts acc st = Some g -> grouped g (pre ++ mid ++ ts).
Proof.
  induction ts as [|t ts IH]; intros acc st g pre mid Hm Ho H; cbn [trees] in H.
  - destruct Ho; [|discriminate]. injection H as <-. rewrite app_nil_r. exact Hm.
  - assert (One : forall x, grouped [x] [t] -> trees ts (x :: acc) st = Some g -> grouped g (pre ++ mid ++ t :: ts)).
    { intros x Hx K. replace (pre ++ mid ++ t :: ts) with (pre ++ (mid ++ [t]) ++ ts) by (rewrite <- app_assoc; reflexivity).
      apply (IH (x :: acc) st g pre (mid ++ [t])); [|exact Ho|exact K]. cbn [rev]. apply grouped_app; assumption. }
    destruct t as [n|w|s|d|d|i w].
    + apply (One (Lf (LId n))); [repeat constructor|exact H].
    + apply (One (Lf (LLit w))); [repeat constructor|exact H].
    + apply (One (Lf (LPunct s))); [repeat constructor|exact H].
    + replace (pre ++ mid ++ ROpen d :: ts) with ((pre ++ mid ++ [ROpen d]) ++ [] ++ ts) by (rewrite <- !app_assoc; reflexivity).
      apply (IH [] ((d, acc) :: st) g (pre ++ mid ++ [ROpen d]) []); [constructor|constructor; assumption|exact H].
    + destruct Ho as [|d' acc' st mid' pre' Hm' Ho]; [discriminate|]. destruct (delim_eqb d d') eqn:E; [|discriminate].
      assert (d' = d) by (destruct d, d'; try discriminate; reflexivity). subst d'.
      replace ((pre' ++ mid' ++ [ROpen d]) ++ mid ++ RClose d :: ts) with (pre' ++ (mid' ++ ROpen d :: mid ++ [RClose d]) ++ ts).
      2:{ rewrite <- !app_assoc. cbn [app]. rewrite <- !app_assoc. reflexivity. }
      apply (IH (Gr d (rev acc) :: acc') st g pre' (mid' ++ ROpen d :: mid ++ [RClose d])); [|exact Ho|exact H]. cbn [rev]. apply grouped_app; [exact Hm'|].
      apply (U_group d (rev acc) mid [] []); [exact Hm|constructor].
    + replace (pre ++ mid ++ RDoc i w :: ts) with (pre ++ (mid ++ [RDoc i w]) ++ ts) by (rewrite <- app_assoc; reflexivity).
      apply (IH (rev (doc i w) ++ acc) st g pre (mid ++ [RDoc i w])); [|exact Ho|exact H]. rewrite rev_app_distr, rev_involutive. apply grouped_app; [exact Hm|].
      destruct i; [apply (U_inner w [] []); constructor|apply (U_outer w [] []); constructor].
Qed.
Lemma trees_ok ts g : trees ts [] [] = Some g <-> grouped g ts.
Proof.
  split.
  - intros H. apply (trees_sound ts [] [] g [] []); [constructor|constructor|exact H].
  - intros H. pose proof (trees_grouped g ts H [] [] []) as K. rewrite !app_nil_r in K. rewrite K. cbn [trees]. rewrite rev_involutive. reflexivity.
Qed.
Lemma token_trees_ok s g : token_trees s = Some g <-> exists ts, rust_text s ts /\ grouped g ts.
Proof.
  unfold token_trees. split.
  - destruct (rust_lex s) as [ts|] eqn:E; [|discriminate]. intros H. exists ts. split; [apply rust_lex_ok; exact E|apply trees_ok; exact H].
  - intros (ts & H1 & H2). apply rust_lex_ok in H1. rewrite H1. apply trees_ok. exact H2.
Qed.
