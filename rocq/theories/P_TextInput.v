(** The methods of inputs, protocol.rs:13-146, do what Protocol.v says. *)
From Verif Require Import Base Uleb Utf8 Protocol RustSyntax RustEval RustProgram SpecText P_Arith P_TextTable P_TextTac P_TextUleb2.
Open Scope Z_scope.
Open Scope list_scope.

(** Parameters are converted before anything else happens. *)
Lemma run_fn_same {X S} c (w : world X S) f vs vs' s :
  bind_params c (fn_params f) vs = bind_params c (fn_params f) vs' -> run_fn c w f vs s = run_fn c w f vs' s.
Proof. intros H. unfold run_fn. rewrite H. reflexivity. Qed.
Lemma is_int_int {X} c t z : @is_int X c t (RInt t z) z.
Proof. unfold is_int. cbn [coerce]. destruct t; reflexivity. Qed.
Lemma is_int_as {X} c t z : @is_int X c t (RAs z) (wrap c t z).
Proof. reflexivity. Qed.
Lemma is_int_fun {X} c t (v : rvalue X) z : is_int c t v z -> is_int c t v z /\ bind_params c [(PName "i", YInt t)] [v] = bind_params c [(PName "i", YInt t)] [RInt t z].
Proof. intros H. split; [exact H|]. unfold is_int in H. pose proof (@is_int_int X c t z) as H'. unfold is_int in H'. cbn [bind_params]. rewrite H, H'. reflexivity. Qed.

Section Input.
  Context {X S : Type}.
  Variable c : cfg.
  Hypothesis Hc : cfg_ok c.
  Variable w : world X S.
  Variable rb : M S Z.
  Variable left : S -> nat.
  Definition says_decode : Prop := forall s, w_call w ["decode_uleb"]%string [RObj] s = method 0 (RInt U64) (decode_uleb c rb left s).
  Definition says_byte : Prop := forall s, w_call w ["."; "read_byte"]%string [RObj] s = method 0 (RInt U8) (rb s).
  Definition says_int (n : string) (t t' : ity) (f : Z -> Z) : Prop :=
    forall v i s, is_int c t v i -> w_call w [n] [v] s = (s, CRet [None] (RInt t' (f i))).
  Definition says_const (n : string) (z : Z) : Prop := forall s, w_call w [n] [] s = (s, CRet [] (RInt Usize z)).

  Lemma read_len_text : says_decode -> forall s, run_fn c w m_read_len [RObj] s = method 0 (RInt Usize) (read_len_with c rb left s).
  Proof using Type.
    intros H s. unfold run_fn, m_read_len, read_len_with. text. rewrite H.
    destruct (decode_uleb c rb left s) as [s1 [v|e|p]]; text; reflexivity.
  Qed.
  Lemma read_i16_text : says_decode -> says_int "zigzag_decode16" U16 I16 zigzag_decode16 ->
    forall s, run_fn c w m_read_i16 [RObj] s = method 0 (RInt I16) ((let! i := decode_uleb c rb left in ret (zigzag_decode16 (wrapu 16 i))) s).
  Proof using Type.
    intros H Hz s. unfold run_fn, m_read_i16. text. rewrite H.
    destruct (decode_uleb c rb left s) as [s1 [v|e|p]]; text; try reflexivity.
    rewrite (Hz (RAs v) (wrapu 16 v)) by reflexivity. text. reflexivity.
  Qed.
  Lemma read_i32_text : says_decode -> says_int "zigzag_decode32" U32 I32 zigzag_decode32 ->
    forall s, run_fn c w m_read_i32 [RObj] s = method 0 (RInt I32) ((let! i := decode_uleb c rb left in ret (zigzag_decode32 (wrapu 32 i))) s).
  Proof using Type.
    intros H Hz s. unfold run_fn, m_read_i32. text. rewrite H.
    destruct (decode_uleb c rb left s) as [s1 [v|e|p]]; text; try reflexivity.
    rewrite (Hz (RAs v) (wrapu 32 v)) by reflexivity. text. reflexivity.
  Qed.
  Lemma read_i64_text : says_decode -> says_int "zigzag_decode64" U64 I64 zigzag_decode64 ->
    forall s, run_fn c w m_read_i64 [RObj] s = method 0 (RInt I64) ((let! i := decode_uleb c rb left in ret (zigzag_decode64 (wrapu 64 i))) s).
  Proof using Type.
    intros H Hz s. unfold run_fn, m_read_i64. text. rewrite H.
    destruct (decode_uleb c rb left s) as [s1 [v|e|p]]; text; try reflexivity.
    rewrite (Hz (RAs v) (wrapu 64 v)) by reflexivity. text. reflexivity.
  Qed.
  Lemma read_full_field_id_text : says_decode -> says_int "zigzag_decode16" U16 I16 zigzag_decode16 ->
    forall s, run_fn c w f_read_full_field_id [RObj] s = method 0 (RInt I16) ((let! i := decode_uleb c rb left in ret (zigzag_decode16 (wrapu 16 i))) s).
  Proof using Type.
    intros H Hz s. unfold run_fn, f_read_full_field_id. text. rewrite H.
    destruct (decode_uleb c rb left s) as [s1 [v|e|p]]; text; try reflexivity.
    rewrite (Hz (RInt U16 (wrapu 16 v)) (wrapu 16 v)) by reflexivity. text. reflexivity.
  Qed.
  Lemma max_collection_text : forall s, run_fn c w f_MAX_COLLECTION_LEN [] s = (s, CRet [] (RInt Usize MAX_COLLECTION_LEN)).
  Proof using Type. intros s. unfold run_fn, f_MAX_COLLECTION_LEN. text. reflexivity. Qed.
  Lemma max_binary_text : forall s, run_fn c w f_MAX_BINARY_LEN [] s = (s, CRet [] (RInt Usize MAX_BINARY_LEN)).
  Proof using Type. intros s. unfold run_fn, f_MAX_BINARY_LEN. text. reflexivity. Qed.
End Input.

Section Headers.
  Context {X S : Type}.
  Variable c : cfg.
  Hypothesis Hc : cfg_ok c.
  Variable w : world X S.
  Variable I : input S.
  Definition says_len : Prop := forall s, w_call w ["."; "read_len"]%string [RObj] s = method 0 (RInt Usize) (read_len c I s).
  Definition says_full_id : Prop := forall s, w_call w ["read_full_field_id"]%string [RObj] s = method 0 (RInt I16) (read_full_field_id c I s).

  Lemma shift_byte b : is_byte b -> 0 <= Z.shiftr b 4 < 16.
  Proof using Type. intros H. unfold is_byte in H. rewrite Z.shiftr_div_pow2 by lia. change (2 ^ 4) with 16. split; [apply Z.div_pos; lia|apply Z.div_lt_upper_bound; lia]. Qed.

  Lemma read_field_header_text : says_byte w (in_read_byte I) -> says_full_id ->
    forall last s, (forall s' b, in_read_byte I s = (s', Ok b) -> is_byte b) -> in_s 16 last ->
    run_fn c w m_read_field_header [RObj; RInt I16 last] s =
    gives (fun r => [Some RObj; Some (RInt I16 (snd r))]) (fun r => RInt U8 (fst r)) (read_field_header c I last s) [Some RObj; Some (RInt I16 last)].
  Proof using Type.
    intros Hb Hf last s Hby Hl. unfold run_fn, m_read_field_header. unfold read_field_header. text. rewrite Hb.
    destruct (in_read_byte I s) as [s1 [b|e|p]] eqn:Eb; text; try reflexivity.
    specialize (Hby _ _ eq_refl). rename Hby into Eb'. clear Eb. rename Eb' into Eb. pose proof (shift_byte b Eb) as Hs.
    destruct (b =? 0) eqn:E0; text; [reflexivity|].
    destruct (Z.shiftr b 4 =? 0) eqn:E4; text.
    - rewrite Hf. destruct (read_full_field_id c I s1) as [s2 [v|e|p]]; text; reflexivity.
    - rewrite (wraps_id 16 (Z.shiftr b 4)) by lia. unfold checked, fits, in_sb. cbn [signed bits].
      unfold in_s in Hl. change (16 - 1) with 15 in *. change (- 2 ^ 15) with (-32768) in *. change (2 ^ 15) with 32768 in *.
      destruct (Z.ltb_spec 32767 (last + Z.shiftr b 4)).
      + replace (last + Z.shiftr b 4 <? 32768) with false by (symmetry; apply Z.ltb_ge; lia). rewrite andb_false_r.
        destruct (overflow_checks c); text; reflexivity.
      + replace ((-32768 <=? last + Z.shiftr b 4) && (last + Z.shiftr b 4 <? 32768)) with true by (symmetry; apply andb_true_iff; split; [apply Z.leb_le|apply Z.ltb_lt]; lia).
        rewrite andb_false_r. text. rewrite (wraps_id 16 (last + Z.shiftr b 4)) by lia. reflexivity.
  Qed.

  Lemma land240 b : 0 <= Z.shiftr (Z.land b 240) 4 < 16.
  Proof using Type.
    rewrite Z.shiftr_land. change (Z.shiftr 240 4) with 15. apply land15.
  Qed.
  Lemma read_len_nonneg s s' n : read_len c I s = (s', Ok n) -> 0 <= n.
  Proof using Hc.
    unfold read_len, read_len_with, bind. destruct (decode_uleb c (in_read_byte I) (in_left I) s) as [s1 [v|e|p]]; unfold ret; intros H; inversion H; subst.
    apply wrapu_range. destruct Hc as [[->| ->] _]; lia.
  Qed.
  Lemma read_collection_text : says_byte w (in_read_byte I) -> says_len -> says_const w "MAX_COLLECTION_LEN" MAX_COLLECTION_LEN ->
    forall s, run_fn c w f_read_collection_len_and_type [RObj] s = method 0 (fun r => RTup [RInt U32 (fst r); RInt U8 (snd r)]) (read_collection_len_and_type c I s).
  Proof using Hc.
    intros Hb Hl Hm s. unfold run_fn, f_read_collection_len_and_type, read_collection_len_and_type. text. rewrite Hb.
    destruct (in_read_byte I s) as [s1 [b|e|p]]; text; try reflexivity.
    pose proof (land240 b) as Hr. pose proof (land15 b).
    destruct (Z.shiftr (Z.land b 240) 4 =? 15) eqn:E; text.
    - rewrite Hl. destruct (read_len c I s1) as [s2 [n|e|p]] eqn:En; text; try reflexivity.
      apply read_len_nonneg in En. rewrite Hm. text.
      destruct (Z.ltb_spec MAX_COLLECTION_LEN n); text; [reflexivity|].
      rewrite (wrapu_id 32 n); [reflexivity|]. split; [exact En|]. unfold MAX_COLLECTION_LEN in *. change (2 ^ 32) with 4294967296. lia.
    - rewrite Hm. text. rewrite (wrapu_id (usize_bits c)) by (destruct Hc as [[->| ->] _]; cbn -[Z.shiftr Z.land]; lia).
      destruct (Z.ltb_spec MAX_COLLECTION_LEN (Z.shiftr (Z.land b 240) 4)); text; [reflexivity|].
      rewrite (wrapu_id 32); [reflexivity|]. change (2 ^ 32) with 4294967296. lia.
  Qed.
  Lemma read_map_text : says_byte w (in_read_byte I) -> says_len -> says_const w "MAX_COLLECTION_LEN" MAX_COLLECTION_LEN ->
    forall s, run_fn c w f_read_map_len_and_types [RObj] s =
      method 0 (fun r => RTup [RInt U32 (fst (fst r)); RInt U8 (snd (fst r)); RInt U8 (snd r)]) (read_map_len_and_types c I s).
  Proof using Hc.
    intros Hb Hl Hm s. unfold run_fn, f_read_map_len_and_types, read_map_len_and_types. text. rewrite Hl.
    destruct (read_len c I s) as [s1 [n|e|p]] eqn:En; text; try reflexivity.
    apply read_len_nonneg in En. destruct (n =? 0) eqn:E; text; [reflexivity|].
    rewrite Hb. destruct (in_read_byte I s1) as [s2 [b|e|p]]; text; try reflexivity.
    rewrite Hm. text. destruct (Z.ltb_spec MAX_COLLECTION_LEN n); text; [reflexivity|].
    rewrite (wrapu_id 32 n); [reflexivity|]. split; [exact En|]. unfold MAX_COLLECTION_LEN in *. change (2 ^ 32) with 4294967296. lia.
  Qed.
  Lemma read_string_text : forall own, (forall s, w_call w ["."; "read_binary"]%string [RObj] s = method 0 (RCow own) (in_read_binary I s)) ->
    forall s, run_fn c w m_read_string [RObj] s = method 0 (RCow own) (read_string I s).
  Proof using Type.
    intros own H s. unfold run_fn, m_read_string, read_string. text. rewrite H.
    destruct (in_read_binary I s) as [s1 [l|e|p]]; text; try reflexivity.
    destruct (utf8_valid l) eqn:E; text; [|reflexivity].
    destruct own; text; rewrite E; text; reflexivity.
  Qed.
End Headers.
