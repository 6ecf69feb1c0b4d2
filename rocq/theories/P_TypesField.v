(** Writing fields: types.rs:46-49, 273-280 and protocol.rs:456-460, and the methods of EncodingSet,
    encodings.rs:12-31. *)
From Verif Require Import Base Uleb Utf8 Protocol Encodings Types RustSyntax RustEval RustProgram RustTypes SpecText SpecTypesText P_Arith P_Write P_TextTable P_TextTac P_TypesTable.
Open Scope Z_scope.
Open Scope list_scope.
Local Arguments ones : simpl never.
Local Arguments encset_len : simpl never.
Local Arguments encset_iter : simpl never.
Local Arguments collect_some : simpl never.

Section Field.
  Context {W : Type}.
  Variable c : cfg.
  Variable write_all : list Z -> M W unit.
  Variable e : writing W.
  Variable w : world value W.
  Hypothesis Hheader : forall t id last s, w_call w ["write_field_header"]%string [RObj; RInt U8 t; RInt I16 id; RInt I16 last] s =
    gives (fun id' => [Some RObj; None; None; Some (RInt I16 id')]) (fun _ => RTup []) (write_field_header write_all t id last s) [Some RObj; None; None; Some (RInt I16 last)].
  Hypothesis Hself : forall s, w_call w ["Self"; "FIELD_TYPE"]%string [] s = (s, CRet [] (RInt U8 (wr_type e))).
  Hypothesis Hplain : forall v s, w_call w ["."; "write_thrift"]%string [RElem v; RObj] s = written (wr_plain e v s).
  Hypothesis Hfield : forall v id last s, w_call w ["."; "write_thrift_field"]%string [RElem v; RObj; RInt I16 id; RInt I16 last] s = written_field (wr_field e v id last s).

  Lemma bool_wfield_text : exists f, impl_fn (YApp "bool" []) "write_thrift_field" = Some f /\
    forall b id last s, exists r, run_fn c w f [RBool b; RObj; RInt I16 id; RInt I16 last] s = written_field r /\
      tells r (write_field_header write_all (1 + (if b then 0 else 1)) id last s).
  Proof using Hheader.
    eexists. split; [rewrite impl_fn_eq; vm_compute; reflexivity|]. intros b id last s. unfold run_fn. text.
    destruct b; text; unfold checked; (replace (fits c U8 _) with true by reflexivity); text; rewrite Hheader; text;
      match goal with |- context [Protocol.write_field_header write_all ?t id last s] => destruct (Protocol.write_field_header write_all t id last s) as [s1 [l|er|p]] end; text.
    all: try (eexists (_, _, Ok tt); split; reflexivity).
    all: try (exists (s1, last, Err er); split; [reflexivity|eexists; reflexivity]).
    all: exists (s1, last, Panic p); split; [reflexivity|eexists; reflexivity].
  Qed.
  Lemma option_wfield_text : exists f, impl_fn (ypar "Option") "write_thrift_field" = Some f /\
    (forall id last s, run_fn c w f [RNone; RObj; RInt I16 id; RInt I16 last] s = written_field (s, last, Ok tt)) /\
    (forall v id last s, run_fn c w f [RSome (RElem v); RObj; RInt I16 id; RInt I16 last] s = written_field (wr_field e v id last s)).
  Proof using Hfield.
    eexists. split; [rewrite impl_fn_eq; vm_compute; reflexivity|]. split; intros; unfold run_fn; text; [reflexivity|].
    rewrite Hfield. unfold written_field. destruct (wr_field e v id last s) as [[s1 l] [[]|er|p]]; text; reflexivity.
  Qed.
  Lemma default_wfield_text : exists f, default_fn "write_thrift_field" = Some f /\
    forall v id last s, exists r, run_fn c w f [RElem v; RObj; RInt I16 id; RInt I16 last] s = written_field r /\
      tells r (bind (write_field_header write_all (wr_type e) id last) (fun id' => wr_plain e v ;; ret id') s).
  Proof using Hheader Hself Hplain.
    eexists. split; [rewrite default_eq; vm_compute; reflexivity|]. intros v id last s. unfold run_fn. text. rewrite Hself. text. rewrite Hheader. text.
    destruct (Protocol.write_field_header write_all (wr_type e) id last s) as [s1 [l|er|p]]; text.
    - rewrite Hplain. unfold written. destruct (wr_plain e v s1) as [s2 [[]|er|p]]; text.
      + eexists (_, _, Ok tt); split; reflexivity.
      + exists (s2, l, Err er); split; [reflexivity|eexists; reflexivity].
      + exists (s2, l, Panic p); split; [reflexivity|eexists; reflexivity].
    - exists (s1, last, Err er); split; [reflexivity|eexists; reflexivity].
    - exists (s1, last, Panic p); split; [reflexivity|eexists; reflexivity].
  Qed.
End Field.

(** ** EncodingSet *)
Lemma ones_count n : forall m, ones n m = count_ones_go n m.
Proof. induction n as [|n IH]; intros m; [reflexivity|]. cbn [count_ones_go]. unfold ones; fold ones. rewrite IH, Z.bit0_odd, <- Z.div2_spec, Z.div2_div. reflexivity. Qed.
Lemma len_bound m : 0 <= encset_len m <= 32.
Proof. rewrite encset_len_bits. pose proof (bits_from_length 32 0 m). unfold zlen. lia. Qed.
Lemma len_usize c m : cfg_ok c -> wrapu (usize_bits c) (encset_len m) = encset_len m.
Proof.
  intros Hc. apply wrapu_id. pose proof (len_bound m). unfold in_u. split; [lia|]. apply Z.le_lt_trans with 32; [lia|].
  unfold cfg_ok in Hc. destruct Hc as [[-> | ->] _]; reflexivity.
Qed.
(** One step of the iteration *)
Lemma lowest_step m k : 0 <= k <= 32 -> in_u 32 m -> (forall j, 0 <= j < k -> Z.testbit m j = false) -> m <> 0 ->
  let j := trailing_zeros32 m in
  k <= j < 32 /\ in_u 32 (Z.land m (m - 1)) /\ (forall i, 0 <= i < j + 1 -> Z.testbit (Z.land m (m - 1)) i = false).
Proof.
  intros Hk Hm Hlow H0. unfold in_u in *. destruct (tz_bits 32 m) as (H1 & H2 & H3); [lia|].
  fold (trailing_zeros32 m) in *. set (j := trailing_zeros32 m) in *.
  assert (Hkj : k <= j). { destruct (Z.lt_ge_cases j k) as [Hlt|]; [|assumption]. rewrite Hlow in H2 by lia. discriminate. }
  pose proof (clear_lowest m j ltac:(lia) ltac:(lia) H2 H3) as Hcl.
  split; [lia|]. split.
  - split; [apply Z.land_nonneg; lia|]. assert (Z.land m (m - 1) <= m); [|lia].
    assert (Hle : Z.ldiff m (Z.land m (m - 1)) = m - Z.land m (m - 1)).
    { symmetry. apply Z.sub_nocarry_ldiff. apply Z.bits_inj'. intros i Hi.
      rewrite Z.ldiff_spec, Z.land_spec, Z.bits_0. destruct (Z.testbit m i), (Z.testbit (m - 1) i); reflexivity. }
    assert (0 <= Z.ldiff m (Z.land m (m - 1))) by (apply Z.ldiff_nonneg; left; lia). lia.
  - intros i Hi. rewrite Hcl by lia. destruct (Z.eq_dec i j) as [->|Hne]; [rewrite Z.eqb_refl; apply andb_false_r|].
    rewrite H3 by lia. reflexivity.
Qed.
Lemma no_bits m : in_u 32 m -> (forall j, 0 <= j < 32 -> Z.testbit m j = false) -> m = 0.
Proof.
  intros Hm H. apply Z.bits_inj'. intros j Hj. rewrite Z.bits_0. destruct (Z.lt_ge_cases j 32); [apply H; lia|].
  unfold in_u in Hm. destruct (Z.eq_dec m 0) as [->|]; [apply Z.bits_0|]. apply Z.bits_above_log2; [lia|]. apply Z.lt_le_trans with 32; [|lia]. apply Z.log2_lt_pow2; lia.
Qed.
Lemma step_fits c m : in_u 32 m -> m <> 0 -> fits c U32 (m - 1) = true.
Proof. intros Hm H. unfold in_u in Hm. rewrite fits_u32. apply andb_true_iff. split; [apply Z.leb_le|apply Z.ltb_lt]; lia. Qed.
Lemma index_i32 j : 0 <= j < 32 -> wraps 32 j = j.
Proof. intros H. apply wraps_id; [lia|]. unfold in_s. change (2 ^ (32 - 1)) with 2147483648. lia. Qed.

Section EncSet.
  Context {W : Type}.
  Variable c : cfg.
  Variable w : world value W.
  Hypothesis Hc : cfg_ok c.
  Lemma set_len_text : exists f, find_fn encoding_set_fns ["."; "len"]%string = Some f /\
    forall m s, run_fn c w f [RTup [RInt U32 m]] s = (s, CRet [None] (RInt Usize (encset_len m))).
  Proof using Hc.
    eexists. split; [rewrite set_eq; vm_compute; reflexivity|]. intros m s. unfold run_fn. text.
    rewrite ones_count. change (count_ones_go 32 m) with (encset_len m). rewrite len_usize by exact Hc. reflexivity.
  Qed.
  Hypothesis Hencoding : forall z s, w_call w ["Encoding"]%string [RInt I32 z] s = (s, CRet [None] (RTup [RInt I32 z])).
  Hypothesis Hbound : forall s, w_bound w s = 33%nat.
  Lemma set_iter_text : exists f, find_fn encoding_set_fns ["."; "iter"]%string = Some f /\
    forall m s, in_u 32 m -> run_fn c w f [RTup [RInt U32 m]] s = (s, CRet [None] (RList (map (fun z => RTup [RInt I32 z]) (encset_iter m)))).
  Proof using Hencoding Hbound.
    eexists. split; [rewrite set_eq; vm_compute; reflexivity|]. intros m s Hm. unfold run_fn. cbn [fn_body fn_params fn_ret].
    match goal with |- context [XClosure PAny ?b] => remember b as B eqn:EB end. text. rewrite Hbound.
    assert (L : forall fuel k i s, 0 <= i <= 32 -> in_u 32 k -> (forall j, 0 <= j < i -> Z.testbit k j = false) -> 32 - i <= Z.of_nat fuel ->
      collect_some (Datatypes.S fuel) (eval c w B) [("mask"%string, RInt U32 k); ("self"%string, RTup [RInt U32 m])] s =
      (s, [("mask"%string, RInt U32 0); ("self"%string, RTup [RInt U32 m])], Val (map (fun z => RTup [RInt I32 z]) (encset_iter_go fuel k)))).
    { clear Hm. induction fuel as [|fuel IH]; intros k i s0 Hi Hk Hlow Hf.
      - assert (k = 0) as -> by (apply no_bits; [exact Hk|]; intros j Hj; apply Hlow; lia).
        unfold collect_some. rewrite EB. text. reflexivity.
      - destruct (Z.eq_dec k 0) as [->|Hne].
        + unfold collect_some. rewrite EB. text. reflexivity.
        + destruct (lowest_step k i Hi Hk Hlow Hne) as (H1 & H2 & H3). set (j := trailing_zeros32 k) in *.
          specialize (IH (Z.land k (k - 1)) (j + 1) s0 ltac:(lia) H2 H3 ltac:(lia)).
          cbn [encset_iter_go]. replace (k =? 0) with false by (symmetry; apply Z.eqb_neq; exact Hne). cbn [map].
          unfold collect_some in *; fold (@collect_some value W) in *.
          assert (Hbody : eval c w B [("mask"%string, RInt U32 k); ("self"%string, RTup [RInt U32 m])] s0 =
            (s0, [("mask"%string, RInt U32 (Z.land k (k - 1))); ("self"%string, RTup [RInt U32 m])], Val (RSome (RTup [RInt I32 j])))).
          { rewrite EB. text. replace (k =? 0) with false by (symmetry; apply Z.eqb_neq; exact Hne). text. fold j. rewrite index_i32 by lia.
            rewrite Hencoding. text. unfold checked. rewrite step_fits by assumption. text. reflexivity. }
          unfold bindE at 1. rewrite Hbody. unfold bindE at 1. rewrite IH. reflexivity. }
    pose proof (L 32%nat m 0 s ltac:(lia) Hm ltac:(lia) ltac:(lia)) as L0. clear L. unfold encset_iter. remember (encset_iter_go 32 m) as zs. clear Heqzs. rewrite L0. reflexivity.
  Qed.
End EncSet.
