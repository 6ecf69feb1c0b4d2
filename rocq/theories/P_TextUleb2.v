(** The text of uleb.rs, continued: writing and skipping. *)
From Verif Require Import Base Uleb Utf8 Protocol RustSyntax RustEval RustProgram SpecText P_Arith P_TextTable P_TextTac.
Open Scope Z_scope.
Open Scope list_scope.

Section Encode.
  Context {X W : Type}.
  Variable c : cfg.
  Variable w : world X W.
  Variable wb : Z -> M W unit.
  Hypothesis Hwb : forall b s, w_call w ["."; "write_byte"]%string [RObj; RInt U8 b] s = method 1 (fun _ => RUnit) (wb b s).

  Lemma encode_loop_more : forall n m v, 0 <= v < 2 ^ (7 * Z.of_nat n) -> (n <= m)%nat -> (0 < n)%nat ->
    forall s, encode_uleb_loop wb m v s = encode_uleb_loop wb n v s.
  Proof using Type.
    clear Hwb.
    intros n. induction n as [|n IH]; intros m v Hv Hm Hn s; [lia|]. destruct m as [|m]; [lia|].
    cbn [encode_uleb_loop]. destruct (127 <? v) eqn:E; [|reflexivity].
    apply Z.ltb_lt in E.
    destruct n as [|n].
    { exfalso. change (2 ^ (7 * Z.of_nat 1)) with 128 in Hv. lia. }
    unfold bind. destruct (wb (Z.lor (wrapu 8 v) 128) s) as [s1 [|e|p]]; try reflexivity.
    apply IH; try lia.
    rewrite Z.shiftr_div_pow2 by lia. split; [apply Z.div_pos; lia|].
    apply Z.div_lt_upper_bound; [lia|]. rewrite <- Z.pow_add_r by lia.
    replace (7 + 7 * Z.of_nat (Datatypes.S n)) with (7 * Z.of_nat (Datatypes.S (Datatypes.S n))) by lia. lia.
  Qed.

  Lemma encode_uleb_text : forall v s, 0 <= v < 2 ^ 64 -> (10 <= w_bound w s)%nat ->
    run_fn c w f_encode_uleb [RObj; RInt U64 v] s = method 1 (fun _ => RUnit) (encode_uleb wb v s).
  Proof using Hwb.
    intros v s Hv Hn. unfold run_fn, f_encode_uleb, encode_uleb.
    hide_loop B EB. text.
    match goal with |- context [iterate ?n ?b _ s] => set (body := b) end.
    assert (HB : forall v s,
       body [("output"%string, RObj); ("value"%string, RInt U64 v)] s =
       if 127 <? v then
         match wb (Z.lor (wrapu 8 v) 128) s with
         | (s', Ok _) => (s', [("output"%string, RObj); ("value"%string, RInt U64 (Z.shiftr v 7))], Val RUnit)
         | (s', Err e) => (s', [("output"%string, RObj); ("value"%string, RInt U64 v)], Rtn (RErr (RError e)))
         | (s', Panic p) => (s', [("output"%string, RObj); ("value"%string, RInt U64 v)], Pan p)
         end
       else (s, [("output"%string, RObj); ("value"%string, RInt U64 v)], Brk)).
    { intros v0 s0. subst body B. text. destruct (127 <? v0) eqn:E; text; [|reflexivity].
      rewrite Hwb. destruct (wb (Z.lor (wrapu 8 v0) 128) s0) as [s1 [|e|p]]; text; reflexivity. }
    clearbody body.
    assert (HL : forall n v s,
       match iterate n body [("output"%string, RObj); ("value"%string, RInt U64 v)] s with
       | (s1, r, Val _) => exists v', r = [("output"%string, RObj); ("value"%string, RInt U64 v')] /\ encode_uleb_loop wb n v s = wb (wrapu 8 v') s1
       | (s1, r, Rtn a) => (exists v', r = [("output"%string, RObj); ("value"%string, RInt U64 v')]) /\ exists e, a = RErr (RError e) /\ encode_uleb_loop wb n v s = (s1, Err e)
       | (s1, r, Pan p) => encode_uleb_loop wb n v s = (s1, Panic p)
       | _ => False
       end).
    { intros n. induction n as [|n IH]; intros v0 s0; cbn [iterate encode_uleb_loop]; [reflexivity|].
      rewrite (HB v0 s0). destruct (127 <? v0); [|eauto].
      unfold bind. destruct (wb (Z.lor (wrapu 8 v0) 128) s0) as [s1 [|e|p]]; eauto. apply IH. }
    specialize (HL (w_bound w s) v s).
    rewrite (encode_loop_more 10 (w_bound w s) v) in HL; [|split; [lia|]; apply Z.lt_le_trans with (2 ^ 64); [lia|apply Z.pow_le_mono_r; lia]|lia|lia].
    destruct (iterate (w_bound w s) body) as [[s1 r] [a| |a|p]]; try contradiction.
    - destruct HL as (v' & -> & ->). text. rewrite Hwb. destruct (wb (wrapu 8 v') s1) as [s2 [|e|p]]; text; reflexivity.
    - destruct HL as ((v' & ->) & e & -> & ->). text. reflexivity.
    - rewrite HL. text. reflexivity.
  Qed.
End Encode.

Section Skip.
  Context {X S : Type}.
  Variable c : cfg.
  Hypothesis Hc : cfg_ok c.
  Variable w : world X S.

  Lemma fits_usize z : 0 <= z < 2 ^ usize_bits c -> fits c Usize z = true.
  Proof using Type. intros H. unfold fits, in_ub. cbn [signed bits]. apply andb_true_iff. split; [apply Z.leb_le|apply Z.ltb_lt]; lia. Qed.
  Lemma zlen_cons (b : Z) l : zlen (b :: l) = 1 + zlen l.
  Proof using Type. unfold zlen. cbn [List.length]. lia. Qed.
  Lemma zlen_nonneg (l : list Z) : 0 <= zlen l.
  Proof using Type. unfold zlen. lia. Qed.
  Lemma run_le : forall l, (continuation_run l <= List.length l)%nat.
  Proof using Type. induction l as [|b l IH]; cbn [continuation_run List.length]; [lia|]. destruct (Z.land b 128 =? 0); lia. Qed.
  Lemma usize_half : 2 ^ (usize_bits c - 1) + 1 <= 2 ^ usize_bits c.
  Proof using Hc. destruct Hc as [[->| ->] _]; cbn; lia. Qed.

  Lemma skip_fallback_text : forall l s, zlen l < 2 ^ (usize_bits c - 1) -> (List.length l < w_bound w s)%nat ->
    run_fn c w f_skip_uleb_fallback [RBytes l] s =
    (s, match skip_uleb_fallback l with Ok l' => CRet [None] (RBytes l') | Err e => CRet [None] (RErr (RError e)) | Panic p => CPan p end).
  Proof using Hc.
    intros l s Hl Hn. unfold run_fn, f_skip_uleb_fallback, skip_uleb_fallback. pose proof usize_half as HU.
    hide_loop B EB. text.
    match goal with |- context [iterate ?n ?b _ s] => set (body := b) end.
    assert (HB : forall i, (i <= List.length l)%nat ->
       body [("i"%string, RInt Usize (Z.of_nat i)); ("input"%string, RBytes l)] s =
       match nth_error l i with
       | Some b => if Z.land b 128 =? 0 then (s, [("i"%string, RInt Usize (Z.of_nat i)); ("input"%string, RBytes l)], Brk)
                   else (s, [("i"%string, RInt Usize (Z.of_nat (Datatypes.S i))); ("input"%string, RBytes l)], Val RUnit)
       | None => (s, [("i"%string, RInt Usize (Z.of_nat i)); ("input"%string, RBytes l)], Brk)
       end).
    { intros i Hi. subst body B. text.
      destruct (nth_error l i) as [b|] eqn:E.
      - assert (i < List.length l)%nat by (apply nth_error_Some; congruence).
        replace (Z.of_nat i <? zlen l) with true by (symmetry; apply Z.ltb_lt; unfold zlen; lia). text.
        rewrite Nat2Z.id, E. replace (0 <=? Z.of_nat i) with true by (symmetry; apply Z.leb_le; lia). text.
        destruct (Z.land b 128 =? 0); text; [reflexivity|].
        unfold checked. rewrite fits_usize by (unfold zlen in Hl; lia). text.
        replace (Z.of_nat i + 1) with (Z.of_nat (Datatypes.S i)) by lia. reflexivity.
      - apply nth_error_None in E.
        replace (Z.of_nat i <? zlen l) with false by (symmetry; apply Z.ltb_ge; unfold zlen; lia). text. reflexivity. }
    clearbody body.
    assert (HL : forall n k i, l = firstn i l ++ k -> (i <= List.length l)%nat -> (List.length k < n)%nat ->
       iterate n body [("i"%string, RInt Usize (Z.of_nat i)); ("input"%string, RBytes l)] s =
       (s, [("i"%string, RInt Usize (Z.of_nat (i + continuation_run k))); ("input"%string, RBytes l)], Val RUnit)).
    { intros n. induction n as [|n IH]; intros k i Hk Hi Hlen; [lia|]. cbn [iterate].
      rewrite HB by lia.
      destruct k as [|b k].
      - rewrite (proj2 (nth_error_None l i)) by (rewrite Hk, app_nil_r, firstn_length; lia).
        cbn [continuation_run]. rewrite Nat.add_0_r. reflexivity.
      - assert (El : List.length l = (i + Datatypes.S (List.length k))%nat) by (rewrite Hk at 1; rewrite app_length, firstn_length; cbn [List.length]; apply (f_equal (@List.length Z)) in Hk; rewrite app_length, firstn_length in Hk; cbn [List.length] in Hk; lia).
        assert (En : nth_error l i = Some b).
        { rewrite Hk. rewrite nth_error_app2; rewrite firstn_length; [|lia]. replace (i - Nat.min i (List.length l))%nat with O by lia. reflexivity. }
        rewrite En. cbn [continuation_run]. destruct (Z.land b 128 =? 0); [rewrite Nat.add_0_r; reflexivity|].
        replace (i + Datatypes.S (continuation_run k))%nat with (Datatypes.S i + continuation_run k)%nat by lia.
        apply IH; [|lia|cbn [List.length] in Hlen; lia].
        assert (Es : forall (m : list Z) j x y, m = firstn j m ++ x :: y -> m = firstn (Datatypes.S j) m ++ y).
        { clear. induction m as [|z m IHm]; intros j x y Hm; destruct j; cbn [firstn app] in *; try discriminate.
          - inversion Hm; subst; reflexivity.
          - injection Hm as Hm. f_equal. eapply IHm. exact Hm. }
        eapply Es. exact Hk. }
    change 0 with (Z.of_nat 0).
    rewrite (HL (w_bound w s) l 0%nat eq_refl ltac:(lia) Hn). cbn [Nat.add]. text.
    unfold checked. pose proof (run_le l) as HR. rewrite fits_usize by (unfold zlen in Hl; lia). text.
    destruct (Nat.leb (continuation_run l + 1) (List.length l)) eqn:E.
    - apply Nat.leb_le in E.
      replace ((Z.of_nat (continuation_run l) + 1 <=? zlen l) && (zlen l <=? zlen l)) with true by (symmetry; apply andb_true_iff; split; apply Z.leb_le; unfold zlen; lia).
      text. rewrite firstn_all2; [|rewrite skipn_length; unfold zlen; lia].
      replace (Z.to_nat (Z.of_nat (continuation_run l) + 1)) with (continuation_run l + 1)%nat by lia. reflexivity.
    - apply Nat.leb_gt in E.
      replace ((Z.of_nat (continuation_run l) + 1 <=? zlen l) && (zlen l <=? zlen l)) with false by (symmetry; apply andb_false_iff; left; apply Z.leb_gt; unfold zlen; lia).
      text. reflexivity.
  Qed.
End Skip.

Section Sse2.
  Context {X S : Type}.
  Variable c : cfg.
  Hypothesis Hc : cfg_ok c.
  Variable w : world X S.

  Lemma trailing_le : forall n x, 0 <= trailing_zeros_from n x <= Z.of_nat n.
  Proof using Type.
    induction n as [|n IH]; intros x; cbn [trailing_zeros_from]; [lia|].
    destruct (Z.testbit x 0); [lia|]. specialize (IH (Z.shiftr x 1)). lia.
  Qed.
  Lemma wrapu_wraps x : wrapu 32 (wraps 32 x) = wrapu 32 x.
  Proof using Type. destruct (wraps_congr 32 x ltac:(lia)) as [k ->]. unfold wrapu. apply Z.mod_add. lia. Qed.
  Lemma wrapu_shift x : wrapu 32 (Z.shiftl (wrapu 32 x) 1) = wrapu 32 (Z.shiftl x 1).
  Proof using Type. unfold wrapu. rewrite !Z.shiftl_mul_pow2 by lia. apply Z.mul_mod_idemp_l. lia. Qed.

  Lemma skip_sse2_text : forall l s, 16 <= zlen l ->
    run_fn c w f_skip_uleb_sse2 [RBytes l] s =
    (s, match skip_uleb_sse2 l with Ok l' => CRet [None] (@RBytes X l') | Err e => CRet [None] (RErr (RError e)) | Panic p => CPan p end).
  Proof using Hc.
    intros l s Hl. unfold run_fn, f_skip_uleb_sse2, skip_uleb_sse2, skip_uleb_sse2_len.
    assert (E : (16 <=? zlen l) = true) by (apply Z.leb_le; lia).
    text. repeat (rewrite E; text).
    rewrite wrapu_wraps, wrapu_shift. rewrite (wrapu_id (usize_bits c)).
    2: { unfold trailing_zeros32. pose proof (trailing_le 32 (wrapu 32 (Z.shiftl (Z.lnot (movemask (firstn 16 l))) 1))).
         destruct Hc as [[->| ->] _]; cbn -[trailing_zeros_from wrapu Z.shiftl Z.lnot movemask firstn] in *; lia. }
    destruct (trailing_zeros32 _ <=? zlen l); text; reflexivity.
  Qed.
End Sse2.
