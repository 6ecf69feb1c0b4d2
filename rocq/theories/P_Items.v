(** Lemmas for C93 and C94. *)
From Verif Require Import Base ErrorName Uleb Protocol Types Macro Items Equality Generator ParquetIdl FormatRs SpecCompact SpecInput SpecUtf8 SpecRust SpecBoth SpecEvolve SpecItems Schema Typing
  RustLex RustMacro P_RustMacro P_Laws2 P_Idl P_Roundtrip.
Open Scope Z_scope.

(** * Enums *)
Lemma find_named_in {A} n (l : list (string * A)) a : NoDup (map fst l) -> In (n, a) l -> find_named n l = Some a.
Proof.
  induction l as [|[m b] l IH]; cbn [map fst find_named In]; intros Hd Hi; [contradiction|].
  apply NoDup_cons_iff in Hd as [Hm Hd]. destruct Hi as [He|Hi].
  - injection He as -> ->. rewrite String.eqb_refl. reflexivity.
  - destruct (String.eqb_spec n m) as [->|_]; [|exact (IH Hd Hi)]. contradict Hm. exact (in_map fst _ _ Hi).
Qed.
Lemma find_named_some {A} n (l : list (string * A)) a : find_named n l = Some a -> In (n, a) l.
Proof.
  induction l as [|[m b] l IH]; cbn [find_named In]; intros H; [discriminate|].
  destruct (String.eqb_spec n m) as [->|_]; [injection H as ->; left; reflexivity|right; exact (IH H)].
Qed.
Lemma sequence_in {A} (p : A -> list tree -> Prop) l ts : sequence p l ts -> forall a, In a l -> exists t, p a t.
Proof. induction 1 as [|a t l ts Ha Hs IH]; cbn [In]; intros b Hb; [contradiction|]. destruct Hb as [<-|Hb]; [exists t; exact Ha|exact (IH b Hb)]. Qed.
Lemma somes_in {A} (l : list (option A)) a : In a (somes l) -> In (Some a) l.
Proof. unfold somes. rewrite in_flat_map. intros ([b|] & Hb & Hi); cbn [In] in Hi; [destruct Hi as [->|[]]; exact Hb|contradiction]. Qed.
Lemma declared_constant ds g n cs k z : declarations ds g -> In (n, MEnum cs) ds -> In (k, z) cs -> in_s 32 z.
Proof.
  intros (l & Hs & ->) Hn Hk. apply somes_in in Hn. destruct (sequence_in _ _ _ Hs _ Hn) as (t & Ht).
  inversion Ht as [ | |a n' cs' ts Ha Hu Hc E1 E2|]; subst. destruct (sequence_in _ _ _ Hc _ Hk) as (t & Ht').
  inversion Ht' as [a' k' z' i Ha' Hk' Hi Hz E1 E2]; subst. exact Hz.
Qed.
Lemma expand_lookup ds E n cs : expand_all ds = Some E -> NoDup (map fst ds) -> In (n, MEnum cs) ds -> lookup E n = Some DEnum.
Proof.
  revert E. induction ds as [|[m d] ds IH]; cbn [expand_all map fst In]; intros E He Hd Hi; [contradiction|].
  destruct (expand d) as [d'|] eqn:Ed; [|discriminate]. destruct (expand_all ds) as [E'|] eqn:Ee; [|discriminate]. injection He as <-.
  apply NoDup_cons_iff in Hd as [Hm Hd]. cbn [lookup]. destruct Hi as [He|Hi].
  - injection He as -> ->. cbn [expand] in Ed. injection Ed as <-. rewrite String.eqb_refl. reflexivity.
  - destruct (String.eqb_spec n m) as [->|_]; [contradict Hm; exact (in_map fst _ _ Hi)|exact (IH E' eq_refl Hd Hi)].
Qed.
Lemma constant_ok c ds g E n cs k z d : cfg_ok c -> declarations ds g -> distinct ds -> expand_all ds = Some E ->
  In (n, MEnum cs) ds -> In (k, z) cs -> (1 <= d)%nat ->
  constant_value ds n k = Some (VI32 z) /\ typed E (TNamed n) (VI32 z) /\
  exists bs, appends (write_thrift vec_write_all E (TNamed n) (VI32 z)) bs (Ok tt) /\ canonical (zigzag z) 5 bs /\
    both_read c (fun S I => read_thrift c I E d (TNamed n)) bs (VI32 z).
Proof.
  intros Hc Hds [Hn Hm] He Hi Hk Hd. pose proof (declared_constant _ _ _ _ _ _ Hds Hi Hk) as Hz.
  pose proof (expand_lookup _ _ _ _ He Hn Hi) as Hl. split; [|split].
  - unfold constant_value. rewrite (find_named_in _ _ _ Hn Hi). rewrite (find_named_in k cs z); [reflexivity| |exact Hk].
    rewrite Forall_forall in Hm. exact (Hm _ Hi).
  - apply ty_enum; assumption.
  - exact (enum_roundtrip c E n z d Hc Hl Hz Hd).
Qed.
Lemma constant_only ds n k v : constant_value ds n k = Some v -> exists cs z, In (n, MEnum cs) ds /\ In (k, z) cs /\ v = VI32 z.
Proof.
  unfold constant_value. destruct (find_named n ds) as [[fs|fs|cs]|] eqn:Hn; try discriminate.
  destruct (find_named k cs) as [z|] eqn:Hk; cbn [option_map]; [|discriminate]. intros H. injection H as <-.
  exists cs, z. split; [exact (find_named_some _ _ _ Hn)|]. split; [exact (find_named_some _ _ _ Hk)|reflexivity].
Qed.

Lemma enum_typed E n v : lookup E n = Some DEnum -> typed E (TNamed n) v -> exists z, v = VI32 z /\ in_s 32 z.
Proof. intros Hl H. inversion H; subst; try congruence. eauto. Qed.
Lemma four_bytes x y : x mod 256 = y mod 256 -> x / 256 mod 256 = y / 256 mod 256 -> x / 65536 mod 256 = y / 65536 mod 256 -> x / 16777216 = y / 16777216 -> x = y.
Proof.
  intros H1 H2 H3 H4. rewrite (Z.div_mod x 16777216), (Z.div_mod y 16777216) by lia. rewrite H4. f_equal.
  change 16777216 with (65536 * 256). rewrite !(Z.rem_mul_r _ 65536 256), H3 by lia. f_equal.
  change 65536 with (256 * 256). rewrite !(Z.rem_mul_r _ 256 256), H1, H2 by lia. reflexivity.
Qed.
Lemma enum_order E n u v w : lookup E n = Some DEnum -> typed E (TNamed n) u -> typed E (TNamed n) v -> typed E (TNamed n) w ->
  (exists a b, u = VI32 a /\ v = VI32 b /\ (enum_cmp u v = Some Lt <-> a < b) /\ (enum_cmp u v = Some Eq <-> a = b) /\ (enum_cmp u v = Some Gt <-> b < a)) /\
  (enum_cmp u v = Some Eq <-> partial_eq u v = true) /\
  (enum_cmp u v = Some Lt <-> enum_cmp v u = Some Gt) /\
  (enum_cmp u v = Some Lt -> enum_cmp v w = Some Lt -> enum_cmp u w = Some Lt) /\
  (enum_hash u = enum_hash v <-> partial_eq u v = true).
Proof.
  intros Hl Hu Hv Hw. destruct (enum_typed _ _ _ Hl Hu) as (a & -> & Ha). destruct (enum_typed _ _ _ Hl Hv) as (b & -> & Hb).
  destruct (enum_typed _ _ _ Hl Hw) as (d & -> & Hd). cbn [enum_cmp partial_eq].
  assert (HL : forall x y, Some (x ?= y) = Some Lt <-> x < y) by (intros x y; rewrite <- Z.compare_lt_iff; split; congruence).
  assert (HE : forall x y, Some (x ?= y) = Some Eq <-> x = y) by (intros x y; rewrite <- Z.compare_eq_iff; split; congruence).
  assert (HG : forall x y, Some (x ?= y) = Some Gt <-> y < x) by (intros x y; rewrite <- Z.compare_gt_iff; split; congruence).
  split; [exists a, b; rewrite HL, HE, HG; repeat split; auto|].
  rewrite HE, !HL, HG, Z.eqb_eq.
  split; [lia|]. split; [lia|]. split; [lia|]. split; [|intros ->; reflexivity].
  unfold enum_hash. change (2 ^ 32) with 4294967296. intros H. cbv zeta in H.
  assert (Hx : a mod 4294967296 = b mod 4294967296) by (apply four_bytes; congruence).
  unfold in_s in *. change (2 ^ (32 - 1)) with 2147483648 in *.
  pose proof (Z.div_mod a 4294967296 ltac:(lia)). pose proof (Z.div_mod b 4294967296 ltac:(lia)).
  rewrite Hx in *. pose proof (Z.mod_pos_bound b 4294967296 ltac:(lia)).
  assert (-1 <= a / 4294967296 <= 0) by (split; [apply Z.div_le_lower_bound|apply Z.lt_succ_r, Z.div_lt_upper_bound]; lia).
  assert (-1 <= b / 4294967296 <= 0) by (split; [apply Z.div_le_lower_bound|apply Z.lt_succ_r, Z.div_lt_upper_bound]; lia).
  lia.
Qed.

Definition enums_of (doc : document) : list (string * mdef) := flat_map (fun '(n, d) => match d with EnumDef cs => [(n, MEnum cs)] | _ => [] end) doc.
Definition is_enum (d : string * mdef) : bool := match snd d with MEnum _ => true | _ => false end.
Definition mdef_eq_dec (d e : string * mdef) : {d = e} + {d <> e}.
Proof. repeat decide equality. Defined.
Definition memberb (d : string * mdef) (l : list (string * mdef)) : bool := if in_dec mdef_eq_dec d l then true else false.
Definition constants_agree : bool :=
  match map_document parquet_thrift with
  | KOk doc => forallb (fun d => memberb d format_rs) (enums_of doc) &&
      forallb (fun d => memberb d (enums_of doc) || String.eqb (fst d) "EdgeInterpolationAlgorithm") (filter is_enum format_rs)
  | KThrow _ => false
  end.
Lemma constants_agree_true : constants_agree = true.
Proof. vm_compute. reflexivity. Qed.
Lemma memberb_in d l : memberb d l = true -> In d l.
Proof. unfold memberb. destruct (in_dec mdef_eq_dec d l); [auto|discriminate]. Qed.
Lemma parquet_constants : exists doc, map_document parquet_thrift = KOk doc /\
  (forall n cs, In (n, EnumDef cs) doc -> In (n, MEnum cs) format_rs) /\
  (forall n cs, In (n, MEnum cs) format_rs -> In (n, EnumDef cs) doc \/ n = "EdgeInterpolationAlgorithm"%string).
Proof.
  pose proof constants_agree_true as H. unfold constants_agree in H. destruct (map_document parquet_thrift) as [doc|]; [|discriminate].
  apply andb_true_iff in H as [H1 H2]. rewrite forallb_forall in H1, H2. exists doc. split; [reflexivity|].
  assert (Hin : forall n cs, In (n, EnumDef cs) doc <-> In (n, MEnum cs) (enums_of doc)).
  { intros n cs. unfold enums_of. rewrite in_flat_map. split.
    - intros H. exists (n, EnumDef cs). split; [exact H|left; reflexivity].
    - intros ([m d] & H & Hm). destruct d; cbn [In] in Hm; try contradiction. destruct Hm as [Hm|[]]. injection Hm as -> ->. exact H. }
  split; intros n cs H.
  - apply memberb_in, H1, Hin, H.
  - specialize (H2 (n, MEnum cs)). rewrite filter_In in H2. specialize (H2 (conj H eq_refl)). apply orb_true_iff in H2 as [H2|H2].
    + left. apply Hin, memberb_in, H2.
    + right. apply String.eqb_eq, H2.
Qed.

(** * Constructors *)
Lemma ty_eqb_true t u : ty_eqb t u = true -> t = u.
Proof. unfold ty_eqb. destruct (ty_eq_dec t u); [auto|discriminate]. Qed.
Lemma ty_eqb_same t : ty_eqb t t = true.
Proof. unfold ty_eqb. destruct (ty_eq_dec t t); [reflexivity|contradiction]. Qed.
Lemma into_ok E t v u w : typed E t v -> into E t v u = Some w -> typed E u w /\ carried v w.
Proof.
  intros Ht H. unfold into in H. destruct (ty_eqb t u) eqn:Eu; [apply ty_eqb_true in Eu; injection H as <-; subst u; split; [exact Ht|apply ca_same]|].
  assert (Hw : forall T : Prop, (if widens t u then match v with VBool b => Some (wide_value u (if b then 1 else 0)) | VI8 z | VI16 z | VI32 z => Some (wide_value u z) | _ => None end else None) = Some w ->
    T -> typed E u w /\ carried v w).
  { intros T Hi _. destruct (widens t u) eqn:Ew; [|discriminate].
    destruct t, u; cbn [widens] in Ew; try discriminate; inversion Ht; subst; cbn [wide_value] in Hi; injection Hi as <-;
      (split; [|first [apply ca_number with (z := z); reflexivity|apply ca_number with (z := if b then 1 else 0); reflexivity]]);
      (apply ty_i8 || apply ty_i16 || apply ty_i32 || apply ty_i64); unfold in_s in *; try (destruct b); cbn; try lia;
      change (2 ^ (8 - 1)) with 128 in *; change (2 ^ (16 - 1)) with 32768 in *; change (2 ^ (32 - 1)) with 2147483648 in *; change (2 ^ (64 - 1)) with 9223372036854775808 in *; lia. }
  destruct u; try (exact (Hw True H I)); clear Hw.
  - destruct t; try discriminate. destruct v; try discriminate. injection H as <-. inversion Ht; subst. split; [apply ty_bin; assumption|apply ca_bytes; reflexivity].
  - destruct (ty_eqb t u) eqn:E2; [|discriminate]. apply ty_eqb_true in E2. subst. injection H as <-. split; [apply ty_some; exact Ht|apply ca_option].
  - destruct (ty_eqb t u) eqn:E2; [|discriminate]. apply ty_eqb_true in E2. subst. injection H as <-. split; [apply ty_box; exact Ht|apply ca_box].
  - destruct (ty_eqb t u) eqn:E2; [|discriminate]. apply ty_eqb_true in E2. subst. injection H as <-. split; [apply ty_shared; exact Ht|apply ca_shared].
  - destruct t; try discriminate. destruct v; try discriminate. destruct (lookup E name) as [[| |]|] eqn:El; try discriminate. injection H as <-.
    inversion Ht; subst. split; [apply ty_enum; assumption|apply ca_same].
Qed.
Lemma new_fields_ok E fs args ws : Forall (fun a => typed E (fst a) (snd a)) args -> new_fields E fs args = Some ws ->
  typed_fields E fs ws /\ Forall2 (fun a w => carried (snd a) w) args ws.
Proof.
  revert fs ws. induction args as [|[t v] args IH]; intros [|f fs] ws Ha H; cbn [new_fields] in H; try discriminate.
  - injection H as <-. split; [apply tyf_nil|apply Forall2_nil].
  - apply Forall_cons_iff in Ha as [Hv Ha]. cbn [fst snd] in Hv. destruct (into E t v (field_ty f)) as [w|] eqn:Ei; [|discriminate].
    destruct (new_fields E fs args) as [ws'|] eqn:En; [|discriminate]. injection H as <-.
    destruct (IH fs ws' Ha En) as [H1 H2]. destruct (into_ok _ _ _ _ _ Hv Ei) as [H3 H4].
    split; [apply tyf_cons; assumption|apply Forall2_cons; assumption].
Qed.
Lemma new_ok E n args v : Forall (fun a => typed E (fst a) (snd a)) args -> new E n args = Some v ->
  typed E (TNamed n) v /\ exists ws, v = VStruct ws /\ Forall2 (fun a w => carried (snd a) w) args ws.
Proof.
  intros Ha H. unfold new in H. destruct (lookup E n) as [[fs| |]|] eqn:El; try discriminate.
  destruct (new_fields E fs args) as [ws|] eqn:En; cbn [option_map] in H; [|discriminate]. injection H as <-.
  destruct (new_fields_ok _ _ _ _ Ha En) as [H1 H2]. split; [apply (ty_struct E n fs); assumption|exists ws; auto].
Qed.
(** Every struct is what its constructor makes of its fields. *)
Lemma new_all E n fs vs : lookup E n = Some (DStruct fs) -> typed_fields E fs vs -> new E n (combine (map field_ty fs) vs) = Some (VStruct vs).
Proof.
  intros Hl Ht. unfold new. rewrite Hl. assert (H : new_fields E fs (combine (map field_ty fs) vs) = Some vs); [|rewrite H; reflexivity].
  clear Hl n. revert vs Ht. induction fs as [|f fs IH]; intros vs Ht; inversion Ht as [|f' fs' v vs' Hv Hvs E1 E2]; subst; cbn [map combine new_fields]; [reflexivity|].
  rewrite (IH vs' Hvs). unfold into. rewrite ty_eqb_same. reflexivity.
Qed.
(** An argument of the field's own type, without [Some], will do. *)
Lemma new_optional E n fs args ws i f v : lookup E n = Some (DStruct fs) -> new E n args = Some (VStruct ws) ->
  nth_error fs i = Some f -> f_req f = false -> nth_error args i = Some (f_ty f, v) -> nth_error ws i = Some (VSome v).
Proof.
  intros Hl H Hf Hr Ha. unfold new in H. rewrite Hl in H. destruct (new_fields E fs args) as [ws'|] eqn:En; cbn [option_map] in H; [|discriminate].
  injection H as ->. clear Hl n. revert i args ws En Hf Ha. induction fs as [|g fs IH]; intros [|i] [|[t' v'] args] ws En Hf Ha; cbn [nth_error] in Hf, Ha; try discriminate;
    cbn [new_fields] in En; (destruct (into E t' v' (field_ty g)) as [w|] eqn:Ei; [|discriminate]); (destruct (new_fields E fs args) as [ws'|] eqn:En'; [|discriminate]);
    injection En as <-; cbn [nth_error]; [|exact (IH i args ws' En' Hf Ha)].
  injection Hf as ->. injection Ha as -> ->.
  unfold field_ty in Ei. rewrite Hr in Ei. unfold into in Ei.
  destruct (ty_eqb (f_ty f) (TOption (f_ty f))) eqn:E1.
  { apply ty_eqb_true in E1. exfalso. revert E1. generalize (f_ty f). intros u. induction u; intros Hu; try discriminate. injection Hu as Hu. exact (IHu Hu). }
  rewrite ty_eqb_same in Ei. symmetry. exact Ei.
Qed.
Lemma new_sample : new [("S"%string, DStruct [{| f_id := 1; f_req := true; f_ty := TI64; f_name := "a" |}; {| f_id := 2; f_req := false; f_ty := TI64; f_name := "b" |};
    {| f_id := 3; f_req := true; f_ty := TNamed "E"; f_name := "c" |}]); ("E"%string, DEnum)] "S" [(TI32, VI32 7); (TI64, VI64 8); (TI32, VI32 9)] = Some (VStruct [VI64 7; VSome (VI64 8); VI32 9]).
Proof. vm_compute. reflexivity. Qed.
Lemma enum_sample : exists g, thrift_macro g = Some [("E"%string, MEnum [("A"%string, -1); ("B"%string, 2)])] /\ token_trees (text "enum E { A = -1; B = 2; }") = Some g.
Proof. eexists. split; [|vm_compute; reflexivity]. vm_compute. reflexivity. Qed.
