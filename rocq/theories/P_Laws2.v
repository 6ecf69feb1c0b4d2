(** Top-level forms of the field laws, element types, collection lengths,
    replacement, open enums and failed fills: C26-C35, C52, C54, C55. *)
From Coq Require Import ZifyBool ZifyNat ZifyN.
From Verif Require Import Base Uleb Utf8 Protocol Encodings Types Parquet SpecUtf8 SpecCompact SpecInput Schema Typing
  P_Arith P_Reads P_Utf8 P_Inputs P_Skip P_Gen P_Fill P_Write P_Prim P_Good P_SimInst P_Robust P_Valid SpecFields P_Laws SampleSchema.
Ltac Zify.zify_post_hook ::= Z.div_mod_to_equations.

(** * C26-C29 from both kinds of input *)
Section Both.
  Variables (c : cfg) (E : env) (K : nat) (name : string) (fs : list field) (d : nat).
  Hypothesis Hc : cfg_ok c.
  Hypothesis Hres : reserve_ok c.
  Hypothesis HE : env_ok true E K = true.
  Hypothesis Hlook : lookup E name = Some (DStruct fs).

  Lemma strict_fields : NoDup (map f_id fs) /\
    forall f, In f fs -> ty_closed E (f_ty f) = true /\ (ty_depth (field_ty f) <= K)%nat /\ bool_direct (f_ty f) = true.
  Proof.
    destruct (struct_fields true E K name fs HE Hlook) as (H1 & H2 & _). split; [exact H1|].
    intros f Hf. destruct (H2 f Hf) as (G1 & G2 & G3). auto.
  Qed.
  Lemma depth_succ n : (need K (TNamed name) n <= d)%nat -> exists d', d = Datatypes.S d'.
  Proof. unfold need. destruct d; [lia|eauto]. Qed.

  Lemma last_wins occs last' bs : run E fs 0 occs last' bs -> tidy E fs occs ->
    (need K (TNamed name) (Datatypes.S (List.length bs)) <= d)%nat ->
    (forall f, In f fs -> f_req f = true -> occurs occs f) ->
    exists vs, Forall2 (final_content occs) fs vs /\ both_read c (fun S I => read_thrift c I E d (TNamed name)) (bs ++ [0]) (VStruct vs).
  Proof.
    intros Hrun Ht Hd Ho. destruct strict_fields as [Hnd Hfs]. destruct (depth_succ _ Hd) as [d' ->].
    destruct (run_stop slice_holds c (slice_input c) E K (slice_delivers c Hc) Hc HE Hres name fs Hnd Hfs d' Hlook occs last' bs Hrun Ht Hd Ho) as (vs & H1 & _).
    exists vs. split; [exact H1|]. apply both_reads; [|exact Hc]. intros S I R D.
    destruct (run_stop R c I E K D Hc HE Hres name fs Hnd Hfs d' Hlook occs last' bs Hrun Ht Hd Ho) as (vs2 & H2 & H3).
    replace vs with vs2; [exact H3|].
    clear - H1 H2. revert vs H1. induction H2 as [|f x gs vs2 Hx H IH]; intros vs H1; inversion H1; subst; [reflexivity|].
    f_equal; [|auto]. unfold final_content in *. destruct (rev (contents (f_id f) occs)); [destruct Hx; match goal with H : _ /\ _ |- _ => destruct H end; congruence|congruence].
  Qed.
  Lemma missing_field occs last' bs fs1 f fs2 : run E fs 0 occs last' bs -> tidy E fs occs ->
    (need K (TNamed name) (Datatypes.S (List.length bs)) <= d)%nat ->
    fs = fs1 ++ f :: fs2 -> f_req f = true -> ~ occurs occs f -> (forall g, In g fs1 -> f_req g = true -> occurs occs g) ->
    both_fail c (fun S I => read_thrift c I E d (TNamed name)) (bs ++ [0]) (MissingField (name ++ "::" ++ f_name f)).
  Proof.
    intros Hrun Ht Hd Hfseq Hq Hno Ho. destruct strict_fields as [Hnd Hfs]. destruct (depth_succ _ Hd) as [d' ->].
    apply both_fails_gen; [|exact Hc]. intros S I R D.
    exact (run_missing R c I E K D Hc HE Hres name fs Hnd Hfs d' Hlook occs last' bs fs1 f fs2 Hrun Ht Hd Hfseq Hq Hno Ho).
  Qed.
  Lemma duplicate_field occs last' bs f ft hdr : run E fs 0 occs last' bs -> tidy E fs occs ->
    (need K (TNamed name) (Datatypes.S (List.length bs)) <= d)%nat ->
    In f fs -> f_req f = false -> occurs occs f -> 1 <= ft <= 15 -> field_header last' (f_id f) ft hdr ->
    both_fail c (fun S I => read_thrift c I E d (TNamed name)) (bs ++ hdr) DuplicateField.
  Proof.
    intros Hrun Ht Hd Hin Hq Ho Hft Hh. destruct strict_fields as [Hnd Hfs]. destruct (depth_succ _ Hd) as [d' ->].
    apply both_fails_gen; [|exact Hc]. intros S I R D.
    exact (run_duplicate R c I E K D Hc HE Hres name fs Hnd Hfs d' Hlook occs last' bs f ft hdr Hrun Ht Hd Hin Hq Ho Hft Hh).
  Qed.
  Lemma wrong_type_field occs last' bs f ft hdr : run E fs 0 occs last' bs -> tidy E fs occs ->
    (need K (TNamed name) (Datatypes.S (List.length bs)) <= d)%nat ->
    In f fs -> boolish (f_ty f) = false -> ~ occurs occs f \/ (f_req f = true /\ replaceable E (f_ty f) = true) ->
    1 <= ft <= 15 -> ft <> wire_code E (f_ty f) -> field_header last' (f_id f) ft hdr ->
    both_fail c (fun S I => read_thrift c I E d (TNamed name)) (bs ++ hdr) InvalidType.
  Proof.
    intros Hrun Ht Hd Hin Hb Ho Hft Hne Hh. destruct strict_fields as [Hnd Hfs]. destruct (depth_succ _ Hd) as [d' ->].
    apply both_fails_gen; [|exact Hc]. intros S I R D.
    exact (run_wrong_type R c I E K D Hc HE Hres name fs Hnd Hfs d' Hlook occs last' bs f ft hdr Hrun Ht Hd Hin Hb Ho Hft Hne Hh).
  Qed.
  Lemma set_refused occs last' bs f t hdr : run E fs 0 occs last' bs -> tidy E fs occs ->
    (need K (TNamed name) (Datatypes.S (List.length bs)) <= d)%nat ->
    In f fs -> f_ty f = TVec t -> ~ occurs occs f -> field_header last' (f_id f) 10 hdr ->
    both_fail c (fun S I => read_thrift c I E d (TNamed name)) (bs ++ hdr) InvalidType.
  Proof.
    intros Hrun Ht Hd Hin Hty Ho Hh. apply (wrong_type_field occs last' bs f 10 hdr Hrun Ht Hd Hin); try rewrite Hty; auto; try reflexivity; cbn; lia.
  Qed.
End Both.

(** C29 is false for booleans and union variants: any type is accepted. *)
Lemma union_any_type c E K n fs i f v ft hdr payload d : cfg_ok c -> reserve_ok c -> env_ok true E K = true ->
  lookup E n = Some (DUnion fs) -> nth_error fs i = Some f -> 1 <= ft <= 15 ->
  field_header 0 (f_id f) ft hdr -> enc E (f_ty f) v payload ->
  (need K (TNamed n) (List.length (hdr ++ payload ++ [0%Z])) <= d)%nat ->
  both_read c (fun S I => read_thrift c I E d (TNamed n)) (hdr ++ payload ++ [0]) (VUnion i v).
Proof.
  intros Hc Hres HE Hl Hi Hft Hh He Hd. destruct (union_fields true E K n fs HE Hl) as (Hnd & Hfs & dv & Hdv).
  assert (Hin : In f fs) by (eapply nth_error_In; exact Hi). destruct (Hfs f Hin) as (Hcl & Hdep & Hb).
  apply both_reads; [|exact Hc]. intros S I R D s rest HR.
  destruct d as [|d]; [unfold need in Hd; lia|].
  assert (Hdv' : default E (Datatypes.S d) (TNamed n) = Some dv) by (eapply default_mono; [|exact Hdv]; unfold need in Hd; lia).
  unfold read_thrift. rewrite Hdv'. cbn [fill]. rewrite Hl. rewrite <- !app_assoc in HR.
  destruct (read_field_header_reads R c I D 0 (f_id f) ft hdr ltac:(lia) Hft Hh s _ HR) as (s1 & E1 & R1). rewrite E1.
  replace (ft =? 0) with false by lia. rewrite (find_field_nth fs i f Hnd Hi).
  assert (Hdf : (ty_depth (f_ty f) + K <= d)%nat) by (unfold need in Hd; rewrite !app_length in Hd; cbn [List.length ty_depth] in Hd; nia).
  destruct (default_closed true E K (f_ty f) d HE Hcl Hdf) as [fv Hfv]. rewrite Hfv.
  assert (Hg : genc true E (f_ty f) v payload) by (apply (proj1 (enc_genc E K HE) _ _ _ He Hcl)).
  assert (Hn : (need K (f_ty f) (List.length payload) <= d)%nat).
  { pose proof (field_header_nonempty _ _ _ _ Hh). unfold need in *. rewrite !app_length in Hd; cbn [List.length ty_depth] in Hd; nia. }
  destruct (proj1 (fill_genc R c I E K true D Hc HE Hres) _ _ _ Hg d fv Hcl Hn (ex_intro _ _ Hfv) _ _ R1) as (s2 & E2 & R2). rewrite E2.
  destruct (del_byte _ _ D 0 s2 rest R2) as (s3 & E3 & R3). rewrite E3. exists s3. split; [reflexivity|exact R3].
Qed.

(** * C26, C35: arbitrary input *)
Section Trace.
  Context {S : Type}.
  Variables (c : cfg) (I : input S) (E : env).

  Lemma header_zero last s s' id : read_field_header c I last s = (s', Ok (0, id)) ->
    exists b, in_read_byte I s = (s', Ok b) /\ b mod 16 = 0.
  Proof.
    unfold read_field_header, bind. destruct (in_read_byte I s) as [s1 [b|e|p]]; try discriminate.
    destruct (b =? 0) eqn:Hb.
    { intros H. injection H as <- _. exists b. split; [reflexivity|]. replace b with 0 by lia. reflexivity. }
    rewrite land_15, shiftr_div by lia. change (2 ^ 4) with 16. destruct (negb (b / 16 =? 0)) eqn:Hd.
    - destruct (_ && _); [discriminate|]. intros H. injection H as <- H _. exists b. auto.
    - destruct (read_full_field_id c I s1) as [s2 [i|e|p]]; try discriminate. unfold ret. intros H. injection H as <- H _. lia.
  Qed.

  Lemma struct_loop_trace name fs d fuel : forall last flags vs s s' vs',
    List.length flags = List.length fs ->
    struct_loop c I name fs (fun t' ft w s' => fill_field c I E d t' ft w s') (fun ft => skip_field c I d ft false) fuel last flags vs s = (s', vs', Ok tt) ->
    exists ids s1 b, trace c I E d fs last ids s s1 /\ in_read_byte I s1 = (s', Ok b) /\ b mod 16 = 0 /\
      forall i f, nth_error fs i = Some f -> f_req f = true -> nth_error flags i = Some true \/ In (f_id f) ids.
  Proof.
    induction fuel as [|fuel IH]; intros last flags vs s s' vs' Hlen; [discriminate|]. cbn [struct_loop].
    destruct (read_field_header c I last s) as [s1 [[ft id]|e|p]] eqn:Hh; try discriminate.
    destruct (ft =? 0) eqn:Hft.
    - replace ft with 0 in Hh by lia. destruct (first_missing fs flags) eqn:Hm; [discriminate|]. intros H. injection H as <- <-.
      destruct (header_zero _ _ _ _ Hh) as (b & Hb1 & Hb2). exists [], s, b. split; [constructor|]. split; [exact Hb1|]. split; [exact Hb2|].
      clear - Hm Hlen. revert flags Hm Hlen. induction fs as [|g fs IHf]; intros flags Hm Hlen i f Hi Hq; [destruct i; discriminate|].
      destruct flags as [|b flags]; [discriminate|]. cbn [first_missing] in Hm. destruct (f_req g && negb b) eqn:Hg; [discriminate|].
      destruct i as [|i]; cbn [nth_error] in *.
      + injection Hi as ->. rewrite Hq in Hg. destruct b; [left; reflexivity|discriminate].
      + apply (IHf flags Hm ltac:(cbn in Hlen; lia) i f Hi Hq).
    - destruct (find_field fs id) as [[i f]|] eqn:Hfind.
      + destruct (find_field_In _ _ _ _ Hfind) as [Hi Hid]. destruct (nth_error vs i) as [v|] eqn:Hv; [|discriminate].
        destruct (fill_field c I E d (field_ty f) ft v s1) as [[s2 v'] [[]|e|p]] eqn:Hf; try discriminate.
        intros H. apply IH in H as (ids & s3 & b & H1 & H2 & H3 & H4); [|rewrite set_nth_length; exact Hlen].
        exists (id :: ids), s3, b. split; [|split; [exact H2|split; [exact H3|]]].
        * eapply trace_field; [exact Hh|lia|eapply nth_error_In; exact Hi|exact Hid|exact Hf|exact H1].
        * intros j g Hj Hq. destruct (Nat.eq_dec i j) as [<-|Hne].
          { right. left. congruence. }
          destruct (H4 j g Hj Hq) as [H5|H5]; [left; rewrite set_nth_other in H5 by exact Hne; exact H5|right; right; exact H5].
      + destruct (skip_field c I d ft false s1) as [s2 [[]|e|p]] eqn:Hf; try discriminate.
        intros H. apply IH in H as (ids & s3 & b & H1 & H2 & H3 & H4); [|exact Hlen].
        exists (id :: ids), s3, b. split; [|split; [exact H2|split; [exact H3|]]].
        * eapply trace_other; [exact Hh|lia| |exact Hf|exact H1].
          clear - Hfind. induction fs as [|g fs IHf]; [contradiction|]. cbn [find_field] in Hfind.
          destruct (f_id g =? id) eqn:Hg; [discriminate|]. destruct (find_field fs id) as [[? ?]|] eqn:Hff; [discriminate|].
          intros f [<-|Hin]; [lia|]. apply IHf; auto.
        * intros j g Hj Hq. destruct (H4 j g Hj Hq) as [H5|H5]; [left; exact H5|right; right; exact H5].
  Qed.

  Lemma read_trace n fs d s s' v : lookup E n = Some (DStruct fs) ->
    read_thrift c I E d (TNamed n) s = (s', Ok v) ->
    exists d' ids s1 b, d = Datatypes.S d' /\ trace c I E d' fs 0 ids s s1 /\ in_read_byte I s1 = (s', Ok b) /\ b mod 16 = 0 /\
      forall f, In f fs -> f_req f = true -> In (f_id f) ids.
  Proof.
    intros Hl. unfold read_thrift. destruct d as [|d]; [discriminate|].
    destruct (default E (Datatypes.S d) (TNamed n)) as [dv|]; [|discriminate]. cbn [fill]. rewrite Hl.
    destruct dv; try discriminate.
    destruct (struct_loop c I n fs _ _ _ _ _ _ s) as [[s1 vs1] [[]|e|p]] eqn:H; try discriminate. intros H1. injection H1 as <- <-.
    apply struct_loop_trace in H as (ids & s2 & b & H1 & H2 & H3 & H4); [|rewrite map_length; reflexivity].
    exists d, ids, s2, b. repeat (split; [assumption || reflexivity|]). intros f Hf Hq.
    apply In_nth_error in Hf as [i Hi]. destruct (H4 i f Hi Hq) as [H5|H5]; [|exact H5].
    exfalso. clear - H5. revert i H5. induction fs as [|g fs IHf]; intros [|i] H; cbn in H; try discriminate H. exact (IHf i H).
  Qed.

  Lemma read_union n fs d s s' v : lookup E n = Some (DUnion fs) -> read_thrift c I E d (TNamed n) s = (s', Ok v) ->
    exists d' ft i f w s1 s2, d = Datatypes.S d' /\ read_field_header c I 0 s = (s1, Ok (ft, f_id f)) /\ ft <> 0 /\ nth_error fs i = Some f /\
      read_thrift c I E d' (f_ty f) s1 = (s2, Ok w) /\ in_read_byte I s2 = (s', Ok 0) /\ v = VUnion i w.
  Proof.
    intros Hl. unfold read_thrift at 1. destruct d as [|d]; [discriminate|].
    destruct (default E (Datatypes.S d) (TNamed n)) as [dv|]; [|discriminate]. cbn [fill]. rewrite Hl.
    destruct (read_field_header c I 0 s) as [s1 [[ft id]|e|p]] eqn:Hh; try discriminate.
    destruct (ft =? 0) eqn:Hft; [discriminate|]. destruct (find_field fs id) as [[i f]|] eqn:Hf; [|discriminate].
    destruct (find_field_In _ _ _ _ Hf) as [Hi <-].
    destruct (default E d (f_ty f)) as [fv|] eqn:Hd; [|discriminate].
    destruct (fill c I E d (f_ty f) fv s1) as [[s2 w] [[]|e|p]] eqn:Hw; try discriminate.
    destruct (in_read_byte I s2) as [s3 [stop|e|p]] eqn:Hb; try discriminate.
    destruct (stop =? 0) eqn:Hz; [|discriminate]. intros H. injection H as <- <-. apply Z.eqb_eq in Hz. subst stop.
    exists d, ft, i, f, w, s1, s2. repeat (split; [auto; lia|]). split; [unfold read_thrift; rewrite Hd, Hw; reflexivity|]. split; [exact Hb|reflexivity].
  Qed.
End Trace.

(** * C30 *)
Lemma elem_wrong c E t n et hdr d K : cfg_ok c -> env_closed E K = true -> ty_closed E t = true ->
  0 <= et <= 15 -> ~ elem_tag E t et -> list_header n et hdr -> (1 <= d)%nat ->
  both_fail c (fun S I => read_thrift c I E d (TVec t)) hdr InvalidType.
Proof.
  intros Hc HE Ht Het Hne Hh Hd. apply both_fails_gen; [|exact Hc]. intros S I R D s rest HR.
  destruct (read_collection_len_and_type_reads R c I D Hc n et hdr Het Hh s rest HR) as (s1 & E1 & R1).
  exists s1. split; [|exact R1]. destruct d as [|d]; [lia|]. unfold read_thrift. cbn [default fill]. rewrite E1.
  rewrite wire_code_field_type by exact Ht. unfold elem_tag in Hne.
  replace (et =? wire_code E t) with false by (symmetry; apply Z.eqb_neq; tauto). cbn [negb andb].
  destruct (wire_code E t =? 2) eqn:H2; [|reflexivity]. replace (et =? 1) with false; [reflexivity|].
  symmetry. apply Z.eqb_neq. intros ->. apply Hne. right. split; [|reflexivity]. apply (wire_code_boolish E). lia.
Qed.
Lemma encset_wrong c E n et hdr d : cfg_ok c ->
  0 <= et <= 15 -> et <> 5 -> list_header n et hdr -> (1 <= d)%nat ->
  both_fail c (fun S I => read_thrift c I E d TEncSet) hdr InvalidType.
Proof.
  intros Hc Het Hne Hh Hd. apply both_fails_gen; [|exact Hc]. intros S I R D s rest HR.
  destruct (read_collection_len_and_type_reads R c I D Hc n et hdr Het Hh s rest HR) as (s1 & E1 & R1).
  exists s1. split; [|exact R1]. destruct d as [|d]; [lia|]. unfold read_thrift. cbn [default fill]. unfold assign, encset_read, bind. rewrite E1.
  replace (et =? 5) with false by lia. reflexivity.
Qed.
Lemma bool_tags_slice c E t n h1 h2 rest d : cfg_ok c -> ty_closed E t = true -> boolish t = true ->
  list_header n 1 h1 -> list_header n 2 h2 -> bytes (h1 ++ rest) -> bytes (h2 ++ rest) ->
  read_thrift c (slice_input c) E d (TVec t) (h1 ++ rest) = read_thrift c (slice_input c) E d (TVec t) (h2 ++ rest) \/ d = O.
Proof.
  intros Hc Ht Hb H1 H2 B1 B2. destruct d as [|d]; [right; reflexivity|left]. unfold read_thrift. cbn [default fill].
  destruct (read_collection_len_and_type_reads slice_holds c (slice_input c) (slice_delivers c Hc) Hc n 1 h1 ltac:(lia) H1 (h1 ++ rest) rest) as (s1 & E1 & R1 & _); [split; auto|].
  destruct (read_collection_len_and_type_reads slice_holds c (slice_input c) (slice_delivers c Hc) Hc n 2 h2 ltac:(lia) H2 (h2 ++ rest) rest) as (s2 & E2 & R2 & _); [split; auto|].
  rewrite E1, E2. subst s1 s2.
  rewrite wire_code_field_type by exact Ht. rewrite (boolish_wire_code E t Hb). reflexivity.
Qed.
Lemma bool_tags c E K t n h1 h2 rest d : cfg_ok c -> env_closed E K = true -> ty_closed E t = true -> boolish t = true -> (1 <= d)%nat ->
  list_header n 1 h1 -> list_header n 2 h2 -> bytes (h1 ++ rest) -> bytes (h2 ++ rest) ->
  read_thrift c (slice_input c) E d (TVec t) (h1 ++ rest) = read_thrift c (slice_input c) E d (TVec t) (h2 ++ rest) /\
  forall r1 r2, reader_bytes r1 -> reader_bytes r2 -> content r1 = h1 ++ rest -> content r2 = h2 ++ rest -> ending r1 = ending r2 ->
    same_reads (read_thrift c (reader_input c) E d (TVec t) r1) (read_thrift c (reader_input c) E d (TVec t) r2).
Proof.
  intros Hc HE Ht Hb Hd H1 H2 B1 B2. split.
  - destruct (bool_tags_slice c E t n h1 h2 rest d Hc Ht Hb H1 H2 B1 B2); [assumption|lia].
  - intros r1 r2 Hr1 Hr2 C1 C2 He.
    destruct (bool_tags_slice (portable c) E t n h1 h2 rest d (portable_ok _ Hc) Ht Hb H1 H2 B1 B2) as [Heq|]; [|lia].
    eapply same_reads_agree; [eapply (read_agrees c E K d (TVec t) r1); eauto; rewrite C1; exact B1| |exact He].
    rewrite C1, Heq, <- C2. eapply (read_agrees c E K d (TVec t) r2); eauto. rewrite C2. exact B2.
Qed.

(** Every byte is an element: 1 is true, all others are false. *)
Lemma bool_elements c E n et hdr bs d : cfg_ok c -> reserve_ok c -> (et = 1 \/ et = 2) -> list_header n et hdr -> zlen bs = n -> (2 <= d)%nat ->
  both_read c (fun S I => read_thrift c I E d (TVec TBool)) (hdr ++ bs) (VVec (map (fun b => VBool (b =? 1)) bs)).
Proof.
  intros Hc Hr Het Hh Hn Hd. apply both_reads; [|exact Hc]. intros S I R D s rest HR. rewrite <- app_assoc in HR.
  destruct (read_collection_len_and_type_reads R c I D Hc n et hdr ltac:(lia) Hh s (bs ++ rest) HR) as (s1 & E1 & R1).
  destruct d as [|[|d]]; try lia. unfold read_thrift.
  assert (U : fill c I E (Datatypes.S (Datatypes.S d)) (TVec TBool) (VVec []) s =
    match vec_loop (Some (VBool false)) (fun v s => assign (in_read_byte I) (fun b => VBool (b =? 1)) v s) (List.length bs) s1 with (s2, vs, o) => (s2, VVec vs, o) end).
  { cbn [fill]. rewrite E1. cbn [field_type]. assert (Hl : 0 <= n <= 10000000) by (inversion Hh; subst; unfold zlen in *; lia).
    rewrite (Hr n Hl). replace (Z.to_nat n) with (List.length bs) by (unfold zlen in Hn; lia). destruct Het as [-> | ->]; reflexivity. }
  assert (G : forall s1, R s1 (bs ++ rest) -> exists s2, vec_loop (Some (VBool false)) (fun v s => assign (in_read_byte I) (fun b => VBool (b =? 1)) v s) (List.length bs) s1
    = (s2, map (fun b => VBool (b =? 1)) bs, Ok tt) /\ R s2 rest).
  { clear - D. induction bs as [|b bs IH]; intros s1 HR; cbn [List.length vec_loop map app] in *; [eauto|].
    destruct (del_byte _ _ D b s1 (bs ++ rest) HR) as (s2 & E2 & R2). unfold assign at 1. rewrite E2. destruct (IH s2 R2) as (s3 & E3 & R3). rewrite E3. eauto. }
  destruct (G s1 R1) as (s2 & E2 & R2). rewrite E2 in U. exists s2. split; [|exact R2].
  change (default E (Datatypes.S (Datatypes.S d)) (TVec TBool)) with (Some (VVec [])). cbv iota beta. rewrite U. reflexivity.
Qed.

(** * C31 *)
Lemma writable_short_lists : forall v b, unwritable b v = None -> short_lists v.
Proof.
  fix IH 1. intros v b. destruct v; cbn [unwritable short_lists]; intros H; try exact I.
  - destruct (10000000 <? zlen vs) eqn:Hz; [discriminate|]. split; [lia|]. clear Hz. revert H.
    induction vs as [|w vs IHv]; [intros; exact I|]. cbn [first_some]. destruct (unwritable false w) eqn:Hw; [discriminate|]. cbn. intros H.
    split; [exact (IH w false Hw)|exact (IHv H)].
  - exact (IH _ _ H).
  - exact (IH _ _ H).
  - exact (IH _ _ H).
  - revert H. induction vs as [|w vs IHv]; [intros; exact I|]. destruct (unwritable true w) eqn:Hw; [discriminate|]. cbn. intros H.
    split; [exact (IH w true Hw)|exact (IHv H)].
  - exact (IH _ _ H).
Qed.
Lemma slice_short_lists c E K d t s s' v : cfg_ok c -> env_closed E K = true -> ty_closed E t = true -> bytes s ->
  read_thrift c (slice_input c) E d t s = (s', Ok v) -> short_lists v.
Proof. intros Hc HE Ht Hb H. destruct (read_slice_valid c E K d t s s' v Hc HE Ht Hb H) as (_ & Hw & _). exact (writable_short_lists v false Hw). Qed.
Lemma reader_short_lists c E K d t r r' v : cfg_ok c -> env_closed E K = true -> ty_closed E t = true -> reader_bytes r ->
  read_thrift c (reader_input c) E d t r = (r', Ok v) -> short_lists v.
Proof. intros Hc HE Ht Hb H. destruct (read_reader_valid c E K d t r r' v Hc HE Ht Hb H) as (_ & Hw & _). exact (writable_short_lists v false Hw). Qed.

Section Long.
  Context {S : Type} (R : S -> list Z -> Prop).
  Variables (c : cfg) (I : input S) (n : Z) (bs : list Z).
  Hypothesis D : delivers I R.
  Hypothesis Hn : in_u (usize_bits c) n.
  Hypothesis Hbig : 10000000 < n.
  Hypothesis Hv : varint n bs.

  Lemma long_len : reads R (read_len c I) bs n.
  Proof. apply read_len_usize with (n := n); [exact (del_byte _ _ D)|exact (del_left _ _ D)|exact Hn|exact Hv]. Qed.
  Lemma long_collection et : 0 <= et <= 15 -> fails R (read_collection_len_and_type c I) (240 + et :: bs) InvalidCollectionLen.
  Proof.
    intros Het s rest HR. change ((240 + et :: bs) ++ rest) with ([240 + et] ++ (bs ++ rest)) in HR.
    destruct (del_byte _ _ D _ _ _ HR) as (s1 & E1 & R1). destruct (long_len s1 rest R1) as (s2 & E2 & R2).
    exists s2. split; [|exact R2]. unfold read_collection_len_and_type, bind. rewrite E1.
    rewrite land_15, list_nibbles by (unfold is_byte; lia). replace ((240 + et) / 16) with 15 by lia. cbn [negb Z.eqb Pos.eqb].
    rewrite E2. unfold MAX_COLLECTION_LEN. replace (10000000 <? n) with true by lia. reflexivity.
  Qed.
  Lemma long_map b : fails R (read_map_len_and_types c I) (bs ++ [b]) InvalidCollectionLen.
  Proof.
    intros s rest HR. rewrite <- app_assoc in HR.
    destruct (long_len s _ HR) as (s1 & E1 & R1). destruct (del_byte _ _ D _ _ _ R1) as (s2 & E2 & R2).
    exists s2. split; [|exact R2]. unfold read_map_len_and_types, bind. rewrite E1. replace (n =? 0) with false by lia.
    rewrite E2. unfold MAX_COLLECTION_LEN. replace (10000000 <? n) with true by lia. reflexivity.
  Qed.
End Long.
Lemma too_long c E t n et bs d : cfg_ok c -> varint n bs -> in_u (usize_bits c) n -> 10000000 < n -> 0 <= et <= 15 -> (2 <= d)%nat ->
  both_fail c (fun S I => read_thrift c I E d (TVec t)) (240 + et :: bs) InvalidCollectionLen /\
  both_fail c (fun S I => read_thrift c I E d TEncSet) (240 + et :: bs) InvalidCollectionLen /\
  (forall ty inside, ty = 9 \/ ty = 10 -> both_fail c (fun S I => skip_field c I d ty inside) (240 + et :: bs) InvalidCollectionLen) /\
  (forall b inside, both_fail c (fun S I => skip_field c I d 11 inside) (bs ++ [b]) InvalidCollectionLen).
Proof.
  intros Hc Hv Hn Hbig Het Hd. destruct d as [|[|d]]; [lia|lia|].
  split; [|split; [|split]].
  - apply both_fails_gen; [|exact Hc]. intros S I R D s rest HR.
    destruct (long_collection R c I n bs D Hn Hbig Hv et Het s rest HR) as (s1 & E1 & R1). exists s1. split; [|exact R1].
    unfold read_thrift. cbn [default fill]. rewrite E1. reflexivity.
  - apply both_fails_gen; [|exact Hc]. intros S I R D s rest HR.
    destruct (long_collection R c I n bs D Hn Hbig Hv et Het s rest HR) as (s1 & E1 & R1). exists s1. split; [|exact R1].
    unfold read_thrift. cbn [default fill]. unfold assign, encset_read, bind. rewrite E1. reflexivity.
  - intros ty inside Hty. apply both_fails_gen; [|exact Hc]. intros S I R D s rest HR.
    destruct (long_collection R c I n bs D Hn Hbig Hv et Het s rest HR) as (s1 & E1 & R1). exists s1. split; [|exact R1].
    destruct Hty as [-> | ->]; cbn -[read_collection_len_and_type]; unfold bind; rewrite E1; reflexivity.
  - intros b inside. apply both_fails_gen; [|exact Hc]. intros S I R D s rest HR.
    destruct (long_map R c I n bs D Hn Hbig Hv b s rest HR) as (s1 & E1 & R1). exists s1. split; [|exact R1].
    cbn -[read_map_len_and_types]; unfold bind; rewrite E1; reflexivity.
Qed.

(** * C33, C55 *)
Lemma typed_fresh E t : replaceable E t = true -> forall v, typed E t v -> unshare v = v -> fresh E t v.
Proof.
  induction t; cbn [replaceable fresh]; intros Hr v Hty Hu; try exact I; try discriminate.
  - inversion Hty; subst. cbn [unshare] in Hu. injection Hu as Hu. auto.
  - inversion Hty; subst. cbn [unshare] in Hu. injection Hu as <- Hu. auto.
  - destruct (lookup E name) as [[| |]|]; try exact I. discriminate.
Qed.
Lemma replace_all {S} c (I : input S) E d t v1 v2 s : replaceable E t = true ->
  typed E t v1 -> unshare v1 = v1 -> typed E t v2 -> unshare v2 = v2 ->
  same_fill (fill c I E d t v1 s) (fill c I E d t v2 s) /\
  forall ft, same_fill (fill_field c I E d t ft v1 s) (fill_field c I E d t ft v2 s).
Proof.
  intros Hr H1 H2 H3 H4. split; [apply fill_replace; apply typed_fresh; assumption|].
  intros ft. apply fill_field_replace; apply typed_fresh; assumption.
Qed.
Lemma occupied {S} c (I : input S) E d t v s : (1 <= d)%nat ->
  fill c I E d (TOption t) (VSome v) s = (s, VSome v, Err DuplicateField) /\
  (forall ft, fill_field c I E d (TOption t) ft (VSome v) s = (s, VSome v, Err DuplicateField)) /\
  fill c I E d (TShared t) (VShared false v) s = (s, VShared false v, Err DuplicateField).
Proof. intros Hd. destruct d as [|d]; [lia|]. repeat split. Qed.

Lemma failed_option {S} c (I : input S) E K d t s s' v o : env_closed E K = true -> ty_closed E t = true -> (ty_depth t + K < d)%nat ->
  fill c I E d (TOption t) VNone s = (s', v, o) ->
  exists w, v = VSome w /\ forall c' S' (I' : input S') d' s'', (1 <= d')%nat ->
    fill c' I' E d' (TOption t) v s'' = (s'', v, Err DuplicateField).
Proof.
  intros HE Ht Hd. destruct d as [|d]; [lia|]. cbn [fill].
  destruct (closed_default E K HE t d Ht ltac:(lia)) as [dv Hdv]. rewrite Hdv.
  destruct (fill c I E d t dv s) as [[s1 w] o1]. intros H. injection H as <- <- <-.
  exists w. split; [reflexivity|]. intros c' S' I' d' s'' Hd'. destruct d'; [lia|]. reflexivity.
Qed.
Lemma failed_option_field {S} c (I : input S) E K d t ft s s' v o : env_closed E K = true -> ty_closed E t = true -> (ty_depth t + K < d)%nat ->
  fill_field c I E d (TOption t) ft VNone s = (s', v, o) ->
  exists w, v = VSome w /\ forall c' S' (I' : input S') d' ft' s'', (1 <= d')%nat ->
    fill_field c' I' E d' (TOption t) ft' v s'' = (s'', v, Err DuplicateField).
Proof.
  intros HE Ht Hd. destruct d as [|d]; [lia|]. cbn [fill_field].
  destruct (closed_default E K HE t d Ht ltac:(lia)) as [dv Hdv]. rewrite Hdv.
  destruct (fill_field c I E d t ft dv s) as [[s1 w] o1]. intros H. injection H as <- <- <-.
  exists w. split; [reflexivity|]. intros c' S' I' d' ft' s'' Hd'. destruct d'; [lia|]. reflexivity.
Qed.

(** * C54 *)
Lemma enum_roundtrip c E n z d : cfg_ok c -> lookup E n = Some DEnum -> in_s 32 z -> (1 <= d)%nat ->
  exists bs, appends (write_thrift vec_write_all E (TNamed n) (VI32 z)) bs (Ok tt) /\ canonical (zigzag z) 5 bs /\
    both_read c (fun S I => read_thrift c I E d (TNamed n)) bs (VI32 z).
Proof.
  intros Hc Hl Hz Hd. exists (leb 10 (zigzag z)). destruct (ints_canonical z) as (_ & H2 & _).
  split; [|split].
  - intros w. unfold write_thrift. cbn [writer]. rewrite ?Hl. cbn [wplain with_default]. apply write_i32_puts. exact Hz.
  - apply leb_canonical; [|change (128 ^ Z.of_nat 5) with (2 ^ 35)|lia]; unfold zigzag, in_s in *; destruct (0 <=? z) eqn:?; lia.
  - apply both_reads; [|exact Hc]. intros S I R D s rest HR.
    destruct (read_i32_reads R c I D z (leb 10 (zigzag z)) (zz_leb 32 z ltac:(lia) Hz) s rest HR) as (s1 & E1 & R1).
    exists s1. split; [|exact R1]. destruct d as [|d]; [lia|]. unfold read_thrift. cbn [default fill]. rewrite Hl. unfold assign. rewrite E1. reflexivity.
Qed.
