(** Witnesses for C16, C17 and C36, and the final forms of C21 and C22. *)
From Coq Require Import ZifyBool ZifyNat ZifyN.
From Verif Require Import Base Uleb Utf8 Protocol Encodings Types Parquet SpecUtf8 SpecCompact SpecInput Schema Typing
  SampleSchema P_Arith P_Reads P_Inputs P_Gen P_Fill P_Write P_Good P_Sim P_SimInst P_Robust P_Roundtrip.

Lemma bytes_dec l : forallb (fun b => (0 <=? b) && (b <? 256)) l = true -> bytes l.
Proof. intros H. apply Forall_forall. rewrite forallb_forall in H. intros b Hb. specialize (H b Hb). unfold is_byte. lia. Qed.

(** A struct with one optional field, and its bytes with an unknown integer of
    eighteen bytes in front. *)
Definition one_env : env := [("One"%string, DStruct [fld 1 false TI32 "x"])].
Definition overlong : list Z := [37] ++ repeat 128 17 ++ [0; 5; 2; 14; 0].

Lemma slice_reader_disagree : exists E t s v1 v2 s1 r2,
  env_ok true E 3 = true /\ bytes s /\ v1 <> v2 /\
  read_thrift release64 (slice_input release64) E 100 t s = (s1, Ok v1) /\
  read_thrift release64 (reader_input release64) E 100 t [RData s] = (r2, Ok v2).
Proof.
  exists one_env, (TNamed "One"), overlong, (VStruct [VNone]), (VStruct [VSome (VI32 7)]), [5; 2; 14; 0], [].
  split; [reflexivity|]. split.
  { apply bytes_dec. reflexivity. }
  split; [discriminate|]. split; vm_compute; reflexivity.
Qed.

Lemma slice_skip_disagree : exists s1 s2 s3,
  bytes s1 /\ bytes s2 /\ bytes s3 /\
  snd (skip_field release64 (slice_input release64) 10 5 false s1) = Panic PSliceIndex /\
  snd (skip_field release64 (reader_input release64) 10 5 false [RData s1]) = Err (IO UnexpectedEof) /\
  snd (skip_field release64 (slice_input release64) 10 5 false s2) = Panic PUndefined /\
  snd (skip_field release64 (reader_input release64) 10 5 false [RData s2]) = Err (IO UnexpectedEof) /\
  skip_field release64 (slice_input release64) 10 5 false s3 = ([0; 1], Ok tt) /\
  skip_field release64 (reader_input release64) 10 5 false [RData s3] = ([RData [1]], Ok tt).
Proof.
  exists [128], (repeat 128 16), (repeat 128 17 ++ [0; 1]).
  repeat match goal with |- _ /\ _ => split end; try (apply bytes_dec; reflexivity); vm_compute; reflexivity.
Qed.

Lemma panics : exists s1 s2 s3, bytes s1 /\ bytes s2 /\ bytes s3 /\
  snd (read_thrift release64 (slice_input release64) parquet_env 1000 (TNamed "FileMetaData") s1) = Panic PSliceIndex /\
  snd (read_thrift release64 (slice_input release64) parquet_env 1000 (TNamed "FileMetaData") s2) = Panic PUndefined /\
  snd (read_thrift debug64 (slice_input debug64) parquet_env 1000 (TNamed "FileMetaData") s3) = Panic POverflow /\
  snd (read_thrift debug64 (reader_input debug64) parquet_env 1000 (TNamed "FileMetaData") [RData s3]) = Panic POverflow.
Proof.
  (* an unknown integer field cut off; the same with sixteen bytes; field id 32767 followed by a delta *)
  exists [245; 128], ([245] ++ repeat 128 16), [1; 254; 255; 3; 17].
  repeat match goal with |- _ /\ _ => split end; try (apply bytes_dec; reflexivity); vm_compute; reflexivity.
Qed.

(** Checked builds also panic on a varint of 2^32 / 7 bytes. *)
Lemma decode_shift_overflow c : overflow_checks c = true -> forall k fuel shift value rest,
  shift + 7 * Z.of_nat k < 2 ^ 32 <= shift + 7 * Z.of_nat k + 7 -> 0 <= shift -> (k < fuel)%nat ->
  snd (decode_uleb_loop c slice_read_byte fuel shift value (repeat 128 (Datatypes.S k) ++ rest)) = Panic POverflow.
Proof.
  intros Hov. induction k as [|k IH]; intros fuel shift value rest Hs H0 Hf; (destruct fuel as [|fuel]; [lia|]).
  - cbn [repeat app decode_uleb_loop]. unfold bind. cbn [slice_read_byte]. rewrite Hov. cbn [andb].
    replace (2 ^ 32 <=? shift + 7) with true by lia. reflexivity.
  - cbn [decode_uleb_loop]. unfold bind. cbn [repeat app slice_read_byte]. rewrite Hov. cbn [andb].
    replace (2 ^ 32 <=? shift + 7) with false by lia. change (Z.land 128 128 =? 0) with false. cbv beta iota zeta.
    apply (IH fuel (wrapu 32 (shift + 7)) _ rest); rewrite ?wrapu_id by lia; lia.
Qed.

(** * C36 *)
Lemma nest_collection c d : forall rest, snd (skip_collection c (slice_input c) d (repeat 25 d ++ rest)) = Panic PStack.
Proof.
  induction d as [|d IH]; intros rest; [reflexivity|]. cbn [repeat app].
  specialize (IH rest). cbn [skip_collection]. unfold bind at 1.
  change (read_collection_len_and_type c (slice_input c) (25 :: repeat 25 d ++ rest)) with ((repeat 25 d ++ rest), @Ok (Z * Z) (1, 9)).
  cbv beta iota zeta. change (Z.to_nat 1) with 1%nat.
  change ((1 <=? 9) && (9 <=? 3)) with false. change ((4 <=? 9) && (9 <=? 6)) with false.
  change (9 =? 7) with false. change (9 =? 8) with false. change ((9 =? 9) || (9 =? 10)) with true. cbv iota.
  cbn [repeatM]. unfold bind. destruct (skip_collection c (slice_input c) d (repeat 25 d ++ rest)) as [s' [u|e|p]]; cbn [snd] in *; try discriminate. exact IH.
Qed.
Lemma nest_skip c d : snd (skip_field c (slice_input c) d 9 false (repeat 25 d)) = Panic PStack.
Proof.
  destruct d as [|d]; [reflexivity|].
  cbn [skip_field]. change ((1 <=? 9) && (9 <=? 2)) with false. change (9 =? 3) with false. change ((4 <=? 9) && (9 <=? 6)) with false.
  change (9 =? 7) with false. change (9 =? 8) with false. change ((9 =? 9) || (9 =? 10)) with true. cbv iota.
  replace (repeat 25 (S d)) with (repeat 25 d ++ [25]); [apply nest_collection|]. symmetry. apply (repeat_cons d 25).
Qed.
Lemma nest_bytes d x : is_byte x -> bytes (repeat x d).
Proof. intros H. apply Forall_forall. intros y Hy. apply repeat_spec in Hy. subst y. exact H. Qed.
Lemma stack_struct c E n fs : lookup E n = Some (DStruct fs) -> find_field fs 15 = None -> forall d,
  snd (read_thrift c (slice_input c) E d (TNamed n) (249 :: repeat 25 d)) = Panic PStack.
Proof.
  intros Hl Hf d. unfold read_thrift. destruct d as [|d]; [reflexivity|].
  destruct (default E (S d) (TNamed n)) as [dv|] eqn:Hdv; [|reflexivity].
  assert (exists vs, dv = VStruct vs) as [vs ->].
  { cbn [default] in Hdv. rewrite Hl in Hdv. destruct (sequence _); [|discriminate]. injection Hdv as <-. eauto. }
  cbn [fill]. rewrite Hl.
  cbn [in_left slice_input slice_left List.length struct_loop].
  assert (Hh : read_field_header c (slice_input c) 0 (249 :: repeat 25 (S d)) = (repeat 25 (S d), Ok (9, 15))).
  { unfold read_field_header, bind. cbn [slice_input in_read_byte slice_read_byte].
    change (249 =? 0) with false. cbv iota. change (negb (Z.shiftr 249 4 =? 0)) with true. cbv iota.
    change (32767 <? 0 + Z.shiftr 249 4) with false. rewrite andb_false_r. reflexivity. }
  unfold slice_input in Hh |- *. rewrite Hh. change (9 =? 0) with false. cbv iota beta.
  rewrite Hf.
  assert (Hn2 : snd (skip_field c (slice_input c) d 9 false (repeat 25 (S d))) = Panic PStack).
  { destruct d as [|d']; [reflexivity|]. cbn [skip_field]. change ((1 <=? 9) && (9 <=? 2)) with false. change (9 =? 3) with false. change ((4 <=? 9) && (9 <=? 6)) with false.
    change (9 =? 7) with false. change (9 =? 8) with false. change ((9 =? 9) || (9 =? 10)) with true. cbv iota.
    replace (repeat 25 (S (S d'))) with (repeat 25 d' ++ [25; 25]); [apply nest_collection|].
    change [25; 25] with (repeat 25 2). rewrite <- repeat_app. f_equal. lia. }
  unfold slice_input in Hn2 |- *.
  destruct (skip_field c _ d 9 false (repeat 25 (S d))) as [s' [u|e|p]]; cbn [snd] in *; try discriminate.
  injection Hn2 as ->. reflexivity.
Qed.
Lemma stack_unbounded c : forall d,
  bytes (249 :: repeat 25 d) /\
  snd (read_thrift c (slice_input c) parquet_env d (TNamed "FileMetaData") (249 :: repeat 25 d)) = Panic PStack.
Proof.
  intros d. split; [constructor; [unfold is_byte; lia|apply nest_bytes; unfold is_byte; lia]|].
  eapply stack_struct; reflexivity.
Qed.

(** * C21, C22 *)
Lemma truncated_enc c E K t v p q d : cfg_ok c -> reserve_ok c -> env_ok true E K = true -> ty_closed E t = true ->
  enc E t v (p ++ q) -> q <> [] -> bytes (p ++ q) -> (need K t (List.length (p ++ q)) <= d)%nat ->
  (snd (read_thrift c (slice_input c) E d t p) = Err (IO UnexpectedEof) \/
   (sse2 c = true /\ snd (read_thrift c (slice_input c) E d t p) = Panic PSliceIndex)) /\
  forall r, content r = p -> reader_bytes r -> snd (read_thrift c (reader_input c) E d t r) = Err (ending r).
Proof.
  intros Hc Hr HE Ht He Hq Hb Hd. apply (proj1 (enc_genc E K HE)) in He; [|assumption..]. split.
  - eapply truncated_slice; eassumption.
  - intros r <- Hrb. eapply truncated_reader; try eassumption. apply bytes_app in Hb. apply Hb.
Qed.
Lemma truncated_write c E K t v p q d : cfg_ok c -> reserve_ok c -> env_ok false E K = true -> fits E v t = true -> typed E t v ->
  write_thrift vec_write_all E t v [] = (p ++ q, Ok tt) -> q <> [] -> (need K t (List.length (p ++ q)) <= d)%nat ->
  (snd (read_thrift c (slice_input c) E d t p) = Err (IO UnexpectedEof) \/
   (sse2 c = true /\ snd (read_thrift c (slice_input c) E d t p) = Panic PSliceIndex)) /\
  forall r, content r = p -> reader_bytes r -> snd (read_thrift c (reader_input c) E d t r) = Err (ending r).
Proof.
  intros Hc Hr HE HW Ht Hw Hq Hd. destruct (write_ok E t v _ Ht Hw) as (_ & Hb & Hg).
  specialize (Hg K true false HE HW). pose proof (proj1 (typed_closed E) _ _ Ht) as Hcl. split.
  - eapply truncated_slice; eassumption.
  - intros r <- Hrb. eapply truncated_reader; try eassumption. apply bytes_app in Hb. apply Hb.
Qed.

Lemma not_observed c E K d t r r2 a r' : cfg_ok c -> env_closed E K = true -> ty_closed E t = true ->
  reader_bytes r -> reader_bytes r2 -> content r2 = content r ->
  read_thrift c (reader_input c) E d t r = (r', Ok a) ->
  exists r2', read_thrift c (reader_input c) E d t r2 = (r2', Ok a) /\ content r2' = content r' /\ ending r2' = ending r2.
Proof.
  intros Hc HE Ht H1 H2 Hco He.
  destruct (read_reader_extends c E K d t r r2 [] a r' Hc HE Ht H1 H2) as (r2' & G1 & G2 & G3); [rewrite app_nil_r; exact Hco|exact He|].
  exists r2'. rewrite app_nil_r in G2. auto.
Qed.
