(** Witnesses for PropertiesData.v. *)
From Coq Require Import ZifyBool ZifyNat ZifyN.
From Verif Require Import Base Uleb Utf8 Protocol Encodings Types Parquet SampleFile SpecUtf8 SpecCompact SpecInput Schema Typing
  SampleSchema P_Arith P_Reads P_Inputs P_Write P_Roundtrip P_PrimRefuted.

Lemma zz_dec b n bs : in_sb b n = true -> in_ub 64 (zigzag n) = true -> digits128 bs = zigzag n ->
  (List.length bs <= 10)%nat -> terminated bs -> zz_int b n bs.
Proof.
  intros H1 H2 H3 H4 H5. split; [apply in_sb_ok; exact H1|]. apply varint_dec; [apply in_ub_ok; exact H2|exact H3|exact H4|exact H5].
Qed.

(** Fields out of order, long headers, an unknown field, a non-minimal varint. *)
Definition odd_leaf : list Z := [9; 6; 12; 40; 1; 99; 5; 2; 142; 0; 0].
Lemma odd_leaf_enc : enc sample_env (TNamed "Node") (leaf 7) odd_leaf.
Proof.
  eapply enc_struct; [reflexivity| |].
  - repeat (apply Forall2_cons; [unfold field_shape; cbn; auto|]). constructor.
  - cbn [present leaf f_req fld app].
    change odd_leaf with ([9; 6] ++ [12] ++ [40; 1; 99; 5; 2; 142; 0; 0]).
    apply (ef_known _ _ _ [(fld 1 true TI32 "key", VI32 7)] (fld 3 true (TVec (TNamed "Node")) "kids") (VVec []) []) with (ft := 9).
    + apply fh_long. apply zz_dec; try reflexivity; [cbn; lia|term].
    + change 9 with (wire_code sample_env (TVec (TNamed "Node"))). apply efl_other; [reflexivity|].
      change [12] with ([12] ++ @nil Z). apply enc_vec with (tag := 12); [left; reflexivity| |constructor].
      change 12 with (16 * zlen (@nil value) + 12) at 2. apply lh_short. cbn. lia.
    + cbn [app f_id fld]. change [40; 1; 99; 5; 2; 142; 0; 0] with ([40] ++ [1; 99] ++ [5; 2; 142; 0; 0]).
      apply ef_unknown with (id := 5) (t := 8).
      * intros f Hf. cbn in Hf. repeat (destruct Hf as [<-|Hf]; [cbn; lia|]). contradiction.
      * lia.
      * change 40 with (16 * (5 - 3) + 8). apply fh_short; lia.
      * apply w_binary with (payload := [99]). exists [1]. split; [reflexivity|].
        split; [apply varint_dec; [vm_compute; split; congruence|reflexivity|cbn; lia|term]|].
        split; [vm_compute; congruence|repeat constructor; vm_compute; congruence].
      * change [5; 2; 142; 0; 0] with ([5; 2] ++ [142; 0] ++ [0]).
        apply (ef_known _ _ _ [] (fld 1 true TI32 "key") (VI32 7) []) with (ft := 5).
        -- apply fh_long. apply zz_dec; try reflexivity; [cbn; lia|term].
        -- change 5 with (wire_code sample_env TI32). apply efl_other; [reflexivity|].
           apply enc_i32. apply zz_dec; try reflexivity; [cbn; lia|term].
        -- constructor.
Qed.

(** A map of one boolean to a list of structs, as unknown field. *)
Definition odd_wire : list Z := [1; 25; 1; 28; 21; 4; 0].
Lemma odd_wire_wire : wire 11 false odd_wire.
Proof.
  change odd_wire with ([1] ++ [16 * 1 + 9] ++ ([1] ++ ([28] ++ ([21; 4; 0] ++ [])) ++ [])).
  apply w_map with (n := 1%nat) (kt := 1) (vt := 9); [cbn; lia| |lia|lia|].
  { apply varint_dec; [vm_compute; split; congruence|reflexivity|cbn; lia|term]. }
  apply wp_cons; [|  |constructor].
  - apply w_bool_elem; [left; reflexivity|vm_compute; split; congruence].
  - apply w_list with (n := 1%nat) (et := 12); [left; reflexivity|lia| |].
    + change 28 with (16 * Z.of_nat 1 + 12). apply lh_short. cbn. lia.
    + apply ws_cons; [|constructor]. apply w_struct. change [21; 4; 0] with ([21] ++ [4] ++ [0]).
      apply wf_field with (id := 1) (t := 5); [lia| | |constructor].
      * change 21 with (16 * (1 - 0) + 5). apply fh_short; lia.
      * apply w_int with (n := 4); [lia|]. apply varint_dec; [vm_compute; split; congruence|reflexivity|cbn; lia|term].
Qed.

(** * Schemas outside the class *)
(** Ids more than 15 apart: the second field is read as another one. *)
Definition gap_env : env := [("Gap"%string, DStruct [fld 1 true TI32 "a"; fld 20 false TI32 "b"])].
Lemma gap_refuted : exists c E K t v bs,
  cfg_ok c /\ reserve_ok c /\ env_ok true E K = true /\ typed E t v /\
  write_thrift vec_write_all E t v [] = (bs, Ok tt) /\
  exists w, w <> unshare v /\ forall d, (20 <= d)%nat -> read_thrift c (slice_input c) E d t bs = ([], Ok w).
Proof.
  exists release64, gap_env, 3%nat, (TNamed "Gap"), (VStruct [VI32 1; VSome (VI32 2)]), [21; 2; 5; 38; 4; 0].
  split; [exact release64_ok|]. split; [intros n _; reflexivity|]. split; [reflexivity|].
  split; [apply typedb_ok; vm_compute; reflexivity|]. split; [vm_compute; reflexivity|].
  exists (VStruct [VI32 1; VNone]). split; [discriminate|].
  intros d Hd. do 20 (destruct d as [|d]; [lia|]). vm_compute. reflexivity.
Qed.

(** A boolean behind a pointer: what is written does not conform, and what
    conforms is rejected. *)
Definition boxed_env : env := [("B"%string, DStruct [fld 1 true (TBox TBool) "b"])].
Lemma boxed_bool_refuted :
  typed boxed_env (TNamed "B") (VStruct [VBox (VBool true)]) /\ wenv_ok boxed_env = true /\
  write_thrift vec_write_all boxed_env (TNamed "B") (VStruct [VBox (VBool true)]) [] = ([18; 1; 0], Ok tt) /\
  ~ enc boxed_env (TNamed "B") (VStruct [VBox (VBool true)]) [18; 1; 0] /\
  enc boxed_env (TNamed "B") (VStruct [VBox (VBool true)]) [17; 0] /\
  (forall d, (9 <= d)%nat ->
     snd (read_thrift release64 (slice_input release64) boxed_env d (TNamed "B") [17; 0]) = Err InvalidType).
Proof.
  split; [apply typedb_ok; vm_compute; reflexivity|]. split; [reflexivity|]. split; [vm_compute; reflexivity|].
  split; [|split].
  - intros H. inversion H as [| | | | | | | | | | | | | | |n fs vs bs Hl Hsh Hf|]; subst.
    injection Hl as <-. cbn [present f_req fld app] in Hf.
    remember [(fld 1 true (TBox TBool) "b", VBox (VBool true))] as pe eqn:Hpe.
    remember [fld 1 true (TBox TBool) "b"] as fs eqn:Hfs. remember [18; 1; 0] as bs eqn:Hbs. remember 0 as last eqn:Hlast.
    destruct Hf as [fs last|fs last p1 f v p2 ft hdr payload rest Hh Hp Hr|fs last pe id t hdr payload rest Hunk Ht Hh Hp Hr].
    + discriminate.
    + destruct p1 as [|x p1]; [|destruct p1; discriminate]. injection Hpe as -> -> ->.
      cbn [f_ty f_id fld] in *.
      assert (Hft : ft = 1 /\ payload = []).
      { inversion Hp; subst; [|discriminate].
        match goal with H : enc_field _ TBool _ _ _ |- _ => inversion H; subst; [|discriminate] end. auto. }
      destruct Hft as [-> ->]. inversion Hh; subst; cbn [app] in *; discriminate.
    + subst. inversion Hh; subst; cbn [app] in *;
        match goal with H : _ :: _ = [18; 1; 0] |- _ => rename H into Hbs end.
      * apply (f_equal (fun l => nth 0 l 0)) in Hbs. cbn [nth] in Hbs.
        assert (Hid : 1 = id) by lia. exact (Hunk _ (or_introl eq_refl) Hid).
      * apply (f_equal (fun l => nth 0 l 0)) in Hbs. cbn [nth] in Hbs. lia.
  - eapply enc_struct; [reflexivity|apply Forall2_cons; [left; reflexivity|constructor]|]. cbn [present f_req fld app].
    change [17; 0] with ([17] ++ [] ++ [0]). apply (ef_known _ _ _ [] (fld 1 true (TBox TBool) "b") _ []) with (ft := 1).
    + change 17 with (16 * (1 - 0) + 1). apply fh_short; cbn; lia.
    + apply efl_box; [reflexivity|]. apply (efl_bool _ true).
    + constructor.
  - intros d Hd. do 9 (destruct d as [|d]; [lia|]). vm_compute. reflexivity.
Qed.

(** A boolean union variant is written into the header but read as a byte. *)
Definition boolunion_env : env := [("U"%string, DUnion [fld 1 true TBool "b"])].
Lemma bool_union_refuted :
  typed boolunion_env (TNamed "U") (VUnion 0 (VBool true)) /\ wenv_ok boolunion_env = true /\
  write_thrift vec_write_all boolunion_env (TNamed "U") (VUnion 0 (VBool true)) [] = ([17; 0], Ok tt) /\
  enc boolunion_env (TNamed "U") (VUnion 0 (VBool true)) [17; 0] /\
  (forall d, (9 <= d)%nat ->
     snd (read_thrift release64 (slice_input release64) boolunion_env d (TNamed "U") [17; 0]) = Err (IO UnexpectedEof)).
Proof.
  split; [apply typedb_ok; vm_compute; reflexivity|]. split; [reflexivity|]. split; [vm_compute; reflexivity|]. split.
  - change [17; 0] with ([17] ++ [] ++ [0]). eapply enc_union; [reflexivity|reflexivity| |apply (efl_bool _ true)].
    change 17 with (16 * (1 - 0) + 1). apply fh_short; cbn; lia.
  - intros d Hd. do 9 (destruct d as [|d]; [lia|]). vm_compute. reflexivity.
Qed.

Lemma boxed_bool_nonconforming :
  exists E t v bs, wenv_ok E = true /\ typed E t v /\
    write_thrift vec_write_all E t v [] = (bs, Ok tt) /\ ~ enc E t (unshare v) bs.
Proof.
  exists boxed_env, (TNamed "B"), (VStruct [VBox (VBool true)]), [18; 1; 0].
  pose proof boxed_bool_refuted. tauto.
Qed.
Lemma boxed_bool_rejected :
  exists E t v bs, typed E t v /\ enc E t v bs /\
    forall d, (9 <= d)%nat -> snd (read_thrift release64 (slice_input release64) E d t bs) = Err InvalidType.
Proof.
  exists boxed_env, (TNamed "B"), (VStruct [VBox (VBool true)]), [17; 0].
  pose proof boxed_bool_refuted. tauto.
Qed.
Lemma bool_union_rejected :
  exists E t v bs, typed E t v /\ enc E t v bs /\
    write_thrift vec_write_all E t v [] = (bs, Ok tt) /\
    forall d, (9 <= d)%nat -> snd (read_thrift release64 (slice_input release64) E d t bs) = Err (IO UnexpectedEof).
Proof.
  exists boolunion_env, (TNamed "U"), (VUnion 0 (VBool true)), [17; 0].
  pose proof bool_union_refuted. tauto.
Qed.

(** The metadata of the repository's sample file. *)
Definition alltypes_value : value := Eval vm_compute in
  match snd (read_thrift debug64 (slice_input debug64) parquet_env 40 (TNamed "FileMetaData") alltypes_metadata) with
  | Ok v => v
  | _ => VNone
  end.
