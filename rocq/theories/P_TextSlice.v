(** The input for slices, protocol.rs:325-383, does what Protocol.v says. *)
From Verif Require Import Base Uleb Utf8 Protocol RustSyntax RustEval RustProgram SpecText P_Arith P_TextTable P_TextTac P_TextUleb2 P_TextInput.
Open Scope Z_scope.
Open Scope list_scope.

Lemma zlen_firstn (l : list Z) n : Z.of_nat n <= zlen l -> zlen (firstn n l) = Z.of_nat n.
Proof. unfold zlen. intros H. rewrite firstn_length. lia. Qed.
Lemma range_from (l : list Z) n : 0 <= n -> n <= zlen l -> firstn (Z.to_nat (zlen l - n)) (skipn (Z.to_nat n) l) = skipn (Z.to_nat n) l.
Proof. unfold zlen. intros H0 H. apply firstn_all2. rewrite skipn_length. lia. Qed.

Section Slice.
  Context {X : Type}.
  Variable c : cfg.
  Hypothesis Hc : cfg_ok c.
  Variable w : world X (list Z).
  Hypothesis Hg : forall s, w_get w s = Some (RBytes s).
  Hypothesis Hp : forall l s, w_set w (RBytes l) s = Some l.
  Ltac go := text; repeat (first [rewrite Hg|rewrite Hp]; text).

  Lemma slice_read_byte_text s : run_fn c w t_slice_read_byte [RObj] s = method 0 (RInt U8) (slice_read_byte s).
  Proof using Hg Hp.
    unfold run_fn, t_slice_read_byte, slice_read_byte. go. destruct s as [|b s]; go; reflexivity.
  Qed.
  Lemma slice_read_double_text s : run_fn c w t_slice_read_double [RObj] s = method 0 RDouble (slice_read_double s).
  Proof using Hg Hp.
    unfold run_fn, t_slice_read_double, slice_read_double. go.
    destruct (Z.ltb_spec (zlen s) 8) as [E|E]; go; [reflexivity|].
    assert (E8 : (8 <=? zlen s) = true) by (apply Z.leb_le; lia). rewrite !E8. change (0 <=? 8) with true. go.
    change (firstn (Z.to_nat (8 - 0)) (skipn (Z.to_nat 0) s)) with (firstn 8 s).
    assert (H8 : zlen (firstn 8 s) = 8) by (apply (zlen_firstn s 8); lia). rewrite !H8. go.
    rewrite Z.eqb_refl. go. rewrite !E8. go. rewrite Z.leb_refl. go.
    rewrite range_from by lia. reflexivity.
  Qed.
  Hypothesis Hl : forall s, w_call w ["."; "read_len"]%string [RObj] s = method 0 (RInt Usize) (read_len_with c slice_read_byte slice_left s).
  Hypothesis Hm : says_const w "MAX_BINARY_LEN" MAX_BINARY_LEN.
  Lemma slice_read_binary_text s : run_fn c w t_slice_read_binary [RObj] s = method 0 (RCow false) (slice_read_binary c s).
  Proof using Hg Hp Hl Hm.
    unfold run_fn, t_slice_read_binary, slice_read_binary. go. rewrite Hl.
    destruct (read_len_with c slice_read_byte slice_left s) as [s1 [n|e|p]]; go; try reflexivity.
    rewrite Hm. go. destruct (MAX_BINARY_LEN <? n); go; [reflexivity|].
    destruct (Z.ltb_spec (zlen s1) n) as [E|E]; go; [reflexivity|].
    assert (En : (n <=? zlen s1) = true) by (apply Z.leb_le; lia). rewrite !En. go. reflexivity.
  Qed.
  Lemma slice_skip_binary_text s : run_fn c w t_slice_skip_binary [RObj] s = method 0 (fun _ => RUnit) (slice_skip_binary c s).
  Proof using Hg Hp Hl Hm Hc.
    unfold run_fn, t_slice_skip_binary, slice_skip_binary. go. rewrite Hl.
    destruct (read_len_with c slice_read_byte slice_left s) as [s1 [n|e|p]] eqn:En; go; try reflexivity.
    apply (read_len_nonneg c Hc (slice_input c)) in En.
    rewrite Hm. go. destruct (MAX_BINARY_LEN <? n); go; [reflexivity|].
    destruct (Z.ltb_spec (zlen s1) n) as [E|E]; go; [reflexivity|].
    assert (Ez : (n <=? zlen s1) = true) by (apply Z.leb_le; lia). rewrite !Ez, Z.leb_refl. go.
    rewrite range_from by lia. reflexivity.
  Qed.
  Definition skips (r : outcome (list Z)) : cres X :=
    match r with Ok l => CRet [None] (RBytes l) | Err e => CRet [None] (RErr (RError e)) | Panic p => CPan p end.
  Lemma slice_skip_integer_text s :
    (16 <= zlen s -> w_call w ["skip_uleb_sse2"]%string [RBytes s] s = (s, skips (skip_uleb_sse2 s))) ->
    (zlen s < 16 -> w_call w ["skip_uleb_fallback"]%string [RBytes s] s = (s, skips (skip_uleb_fallback s))) ->
    sse2 c = true ->
    run_fn c w t_slice_skip_integer [RObj] s = method 0 (fun _ => RUnit) (slice_skip_integer c s).
  Proof using Hg Hp.
    intros H1 H2 Hs. unfold run_fn, t_slice_skip_integer, slice_skip_integer. rewrite Hs. go.
    destruct (Z.leb_spec 16 (zlen s)); go.
    - rewrite H1 by assumption. unfold skip_uleb_sse2, skips. destruct (skip_uleb_sse2_len s <=? zlen s); go; reflexivity.
    - rewrite H2 by assumption. unfold skip_uleb_fallback, skips. destruct (Nat.leb (continuation_run s + 1) (List.length s)); go; reflexivity.
  Qed.
End Slice.

Lemma read_exact_length n : forall r s l, read_exact n r = (s, Ok l) -> List.length l = n.
Proof.
  intros r. unfold read_exact. revert n. induction r as [|e r IH]; intros [|n] s l; cbn [read_exact_go]; intros H; try (inversion H; reflexivity); try discriminate H.
  destruct e as [[|b ch]| |k]; try discriminate H; try (apply IH in H; exact H).
  - destruct (Nat.leb_spec (List.length (b :: ch)) (Datatypes.S n)) as [L|L].
    + destruct (read_exact_go r (Datatypes.S n - List.length (b :: ch))) as [r' [l'|e|p]] eqn:E; inversion H; subst.
      apply IH in E. cbn [List.length] in *. rewrite app_length, E. lia.
    + inversion H; subst. cbn [List.length] in *. rewrite firstn_length. lia.
  - destruct k; try discriminate H; try (apply IH in H; exact H).
Qed.

(** ** Any reader, protocol.rs:274-304, with the methods that are not overridden, protocol.rs:83-90 *)
Section Reader.
  Context {X : Type}.
  Variable c : cfg.
  Hypothesis Hc : cfg_ok c.
  Variable w : world X reader.
  Hypothesis Hx : forall l s, w_call w ["."; "read_exact"]%string [RObj; RBytes l] s = fills (RBytes l) (read_exact (List.length l) s).
  Hypothesis Hu : forall n s, w_call w ["."; "read_exact"]%string [RObj; RUninit n] s = fills (RUninit n) (read_exact (Z.to_nat n) s).

  Lemma reader_read_byte_text s : run_fn c w t_reader_read_byte [RObj] s = method 0 (RInt U8) (reader_read_byte s).
  Proof using Hx.
    unfold run_fn, t_reader_read_byte, reader_read_byte. text. rewrite Hx. unfold fills.
    change (repeat 0 (Z.to_nat 1)) with [0]. cbn [List.length].
    pose proof (read_exact_length 1 s) as HL. destruct (read_exact 1 s) as [s1 [l|e|p]]; text; try reflexivity.
    specialize (HL _ _ eq_refl). destruct l as [|b [|? ?]]; try discriminate HL. cbn [nth_error nth]. text.
    change (0 <=? 0) with true. text. reflexivity.
  Qed.
  Lemma reader_read_double_text s : run_fn c w t_reader_read_double [RObj] s = method 0 RDouble (reader_read_double s).
  Proof using Hx.
    unfold run_fn, t_reader_read_double, reader_read_double. text. rewrite Hx. unfold fills.
    change (List.length (repeat 0 (Z.to_nat 8))) with 8%nat.
    pose proof (read_exact_length 8 s) as HL. destruct (read_exact 8 s) as [s1 [l|e|p]]; text; try reflexivity.
    specialize (HL _ _ eq_refl). unfold zlen. rewrite HL. change (Z.of_nat 8 =? 8) with true. text. reflexivity.
  Qed.
  Hypothesis Hl : forall s, w_call w ["."; "read_len"]%string [RObj] s = method 0 (RInt Usize) (read_len_with c reader_read_byte reader_left s).
  Hypothesis Hm : says_const w "MAX_BINARY_LEN" MAX_BINARY_LEN.
  Lemma reader_read_binary_text s : run_fn c w t_reader_read_binary [RObj] s = method 0 (RCow true) (reader_read_binary c s).
  Proof using Hx Hu Hl Hm.
    unfold run_fn, t_reader_read_binary, reader_read_binary. text. rewrite Hl.
    destruct (read_len_with c reader_read_byte reader_left s) as [s1 [n|e|p]]; text; try reflexivity.
    rewrite Hm. text. destruct (MAX_BINARY_LEN <? n); text; [reflexivity|].
    rewrite Z.leb_refl. text. rewrite Hu. unfold fills.
    destruct (read_exact (Z.to_nat n) s1) as [s2 [l|e|p]]; text; reflexivity.
  Qed.
End Reader.

(** ** The methods that are not overridden, protocol.rs:83-90 *)
Section Defaults.
  Context {X S : Type}.
  Variable c : cfg.
  Variable w : world X S.
  Lemma default_skip_integer_text rb left :
    (forall s, w_call w ["."; "read_i64"]%string [RObj] s = method 0 (RInt I64) ((let! i := decode_uleb c rb left in ret (zigzag_decode64 (wrapu 64 i))) s)) ->
    forall s, run_fn c w t_reader_skip_integer [RObj] s = method 0 (fun _ => RUnit) ((decode_uleb c rb left ;; ret tt) s).
  Proof using Type.
    intros H s. unfold run_fn, t_reader_skip_integer. text. rewrite H. unfold bind. destruct (decode_uleb c rb left s) as [s1 [v|e|p]]; text; reflexivity.
  Qed.
  Lemma default_skip_binary_text own (m : M S (list Z)) : (forall s, w_call w ["."; "read_binary"]%string [RObj] s = method 0 (RCow own) (m s)) ->
    forall s, run_fn c w t_reader_skip_binary [RObj] s = method 0 (fun _ => RUnit) ((m ;; ret tt) s).
  Proof using Type.
    intros H s. unfold run_fn, t_reader_skip_binary. text. rewrite H. destruct (m s) as [s1 [v|e|p]]; text; reflexivity.
  Qed.
End Defaults.
