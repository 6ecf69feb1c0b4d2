(** The text of uleb.rs does what Uleb.v says. *)
From Verif Require Import Base Uleb Utf8 Protocol RustSyntax RustEval RustProgram SpecText P_Arith P_TextTable P_TextTac.
Open Scope Z_scope.
Open Scope list_scope.

Section Decode.
  Context {X S : Type}.
  Variable c : cfg.
  Variable w : world X S.
  Variable rb : M S Z.
  Variable left : S -> nat.
  Hypothesis Hrb : forall s, w_call w ["."; "read_byte"]%string [RObj] s = method 0 (RInt U8) (rb s).
  Hypothesis Hb : forall s, w_bound w s = Datatypes.S (left s).

  Lemma decode_uleb_text : forall s, run_fn c w f_decode_uleb [RObj] s = method 0 (RInt U64) (decode_uleb c rb left s).
  Proof using Hrb Hb.
    intros s. unfold run_fn, f_decode_uleb, decode_uleb.
    hide_loop B EB. text. rewrite Hb.
    match goal with |- context [iterate ?n ?b _ s] => set (body := b) end.
    assert (HB : forall sh v s, 0 <= sh < 2 ^ 32 ->
       body [("value"%string, RInt U64 v); ("shift"%string, RInt U32 sh); ("input"%string, RObj)] s =
       match rb s with
       | (s', Ok b) =>
           let v' := Z.lor v (wrapu 64 (Z.shiftl (Z.land b 127) (sh mod 64))) in
           if overflow_checks c && (2 ^ 32 <=? sh + 7) then (s', [("value"%string, RInt U64 v'); ("shift"%string, RInt U32 sh); ("input"%string, RObj)], Pan POverflow)
           else let r := [("value"%string, RInt U64 v'); ("shift"%string, RInt U32 (wrapu 32 (sh + 7))); ("input"%string, RObj)] in
                (s', r, if Z.land b 128 =? 0 then Rtn (ROk (RInt U64 v')) else Val RUnit)
       | (s', Err e) => (s', [("value"%string, RInt U64 v); ("shift"%string, RInt U32 sh); ("input"%string, RObj)], Rtn (RErr (RError e)))
       | (s', Panic p) => (s', [("value"%string, RInt U64 v); ("shift"%string, RInt U32 sh); ("input"%string, RObj)], Pan p)
       end).
    { intros sh v s0 Hs. subst body B. text. rewrite Hrb.
      destruct (rb s0) as [s1 [b|e|p]]; text; try reflexivity.
      rewrite (wrapu_id 64 (Z.land b 127)) by (pose proof (land127 b); change (2 ^ 64) with 18446744073709551616; lia).
      unfold checked. rewrite fits_u32.
      destruct (Z.leb_spec (2 ^ 32) (sh + 7)).
      - replace ((0 <=? sh + 7) && (sh + 7 <? 2 ^ 32)) with false by (symmetry; apply andb_false_iff; right; apply Z.ltb_ge; lia).
        destruct (overflow_checks c); text; [reflexivity|].
        destruct (Z.land b 128 =? 0); text; reflexivity.
      - replace ((0 <=? sh + 7) && (sh + 7 <? 2 ^ 32)) with true by (symmetry; apply andb_true_iff; split; [apply Z.leb_le|apply Z.ltb_lt]; lia).
        rewrite andb_false_r. text. rewrite (wrapu_id 32 (sh + 7)) by lia.
        destruct (Z.land b 128 =? 0); text; reflexivity. }
    clearbody body.
    assert (HL : forall n sh v s, 0 <= sh < 2 ^ 32 ->
       match iterate n body [("value"%string, RInt U64 v); ("shift"%string, RInt U32 sh); ("input"%string, RObj)] s, decode_uleb_loop c rb n sh v s with
       | (s1, r, Rtn a), (s2, Ok b) => s1 = s2 /\ a = ROk (RInt U64 b) /\ exists v sh, r = [("value"%string, RInt U64 v); ("shift"%string, RInt U32 sh); ("input"%string, RObj)]
       | (s1, r, Rtn a), (s2, Err e) => s1 = s2 /\ a = RErr (RError e) /\ exists v sh, r = [("value"%string, RInt U64 v); ("shift"%string, RInt U32 sh); ("input"%string, RObj)]
       | (s1, r, Pan p), (s2, Panic q) => s1 = s2 /\ p = q
       | _, _ => False
       end).
    { intros n. induction n as [|n IH]; intros sh v s0 Hs; cbn [iterate decode_uleb_loop]; [split; reflexivity|].
      rewrite (HB sh v s0 Hs). unfold bind. destruct (rb s0) as [s1 [b|e|p]]; [|repeat split; eauto|split; reflexivity].
      cbv zeta. destruct (overflow_checks c && (2 ^ 32 <=? sh + 7)) eqn:Eo; [split; reflexivity|].
      destruct (Z.land b 128 =? 0); [unfold ret; repeat split; eauto|].
      apply IH. apply wrapu_range. lia. }
    specialize (HL (Datatypes.S (left s)) 0 0 s ltac:(lia)).
    destruct (iterate (Datatypes.S (left s)) body) as [[s1 r] [a| |a|p]]; destruct (decode_uleb_loop c rb (Datatypes.S (left s)) 0 0 s) as [s2 [b|e|q]]; try contradiction.
    - destruct HL as (<- & -> & v & sh & ->). text. reflexivity.
    - destruct HL as (<- & -> & v & sh & ->). text. reflexivity.
    - destruct HL as (<- & ->). text. reflexivity.
  Qed.
End Decode.

Section Zigzag.
  Context {X S : Type}.
  Variable c : cfg.
  Variable w : world X S.
  Lemma zigzag_decode16_text : forall i (s : S), run_fn c w f_zigzag_decode16 [RInt U16 i] s = (s, CRet [None] (@RInt X I16 (zigzag_decode16 i))).
  Proof.
    intros. unfold run_fn, f_zigzag_decode16. text. pose proof (land1 i).
    rewrite (wraps_id 16 (Z.land i 1)) by lia. unfold checked.
    replace (fits c I16 (- Z.land i 1)) with true by (symmetry; unfold fits, in_sb; cbn [signed bits]; apply andb_true_iff; split; [apply Z.leb_le|apply Z.ltb_lt]; lia).
    text. reflexivity.
  Qed.
  Lemma zigzag_decode32_text : forall i (s : S), run_fn c w f_zigzag_decode32 [RInt U32 i] s = (s, CRet [None] (@RInt X I32 (zigzag_decode32 i))).
  Proof.
    intros. unfold run_fn, f_zigzag_decode32. text. pose proof (land1 i).
    rewrite (wraps_id 32 (Z.land i 1)) by lia. unfold checked.
    replace (fits c I32 (- Z.land i 1)) with true by (symmetry; unfold fits, in_sb; cbn [signed bits]; apply andb_true_iff; split; [apply Z.leb_le|apply Z.ltb_lt]; lia).
    text. reflexivity.
  Qed.
  Lemma zigzag_decode64_text : forall i (s : S), run_fn c w f_zigzag_decode64 [RInt U64 i] s = (s, CRet [None] (@RInt X I64 (zigzag_decode64 i))).
  Proof.
    intros. unfold run_fn, f_zigzag_decode64. text. pose proof (land1 i).
    rewrite (wraps_id 64 (Z.land i 1)) by lia. unfold checked.
    replace (fits c I64 (- Z.land i 1)) with true by (symmetry; unfold fits, in_sb; cbn [signed bits]; apply andb_true_iff; split; [apply Z.leb_le|apply Z.ltb_lt]; lia).
    text. reflexivity.
  Qed.
  Lemma zigzag_encode16_text : forall i (s : S), run_fn c w f_zigzag_encode16 [RInt I16 i] s = (s, CRet [None] (@RInt X U16 (zigzag_encode16 i))).
  Proof. intros. unfold run_fn, f_zigzag_encode16. text. unfold shift_op. text. reflexivity. Qed.
  Lemma zigzag_encode32_text : forall i (s : S), run_fn c w f_zigzag_encode32 [RInt I32 i] s = (s, CRet [None] (@RInt X U32 (zigzag_encode32 i))).
  Proof. intros. unfold run_fn, f_zigzag_encode32. text. unfold shift_op. text. reflexivity. Qed.
  Lemma zigzag_encode64_text : forall i (s : S), run_fn c w f_zigzag_encode64 [RInt I64 i] s = (s, CRet [None] (@RInt X U64 (zigzag_encode64 i))).
  Proof. intros. unfold run_fn, f_zigzag_encode64. text. unfold shift_op. text. reflexivity. Qed.
End Zigzag.
