(** The output, protocol.rs:259-271 and 385-433, does what Protocol.v says. *)
From Verif Require Import Base Uleb Utf8 Protocol RustSyntax RustEval RustProgram SpecText P_Arith P_TextTable P_TextTac P_TextUleb2 P_TextInput.
Open Scope Z_scope.
Open Scope list_scope.

Section Output.
  Context {X W : Type}.
  Variable c : cfg.
  Hypothesis Hc : cfg_ok c.
  Variable w : world X W.
  Variable write_all : list Z -> M W unit.
  Hypothesis Hw : forall l s, w_call w ["."; "write_all"]%string [RObj; RBytes l] s = method 1 (fun _ => RUnit) (write_all l s).
  Definition says_encode : Prop := forall v z s, is_int c U64 v z -> 0 <= z < 2 ^ 64 ->
    w_call w ["encode_uleb"]%string [RObj; v] s = method 1 (fun _ => RUnit) (encode_uleb (write_byte write_all) z s).

  Lemma write_byte_text v b s : is_int c U8 v b -> run_fn c w t_writer_write_byte [RObj; v] s = method 1 (fun _ => RUnit) (write_byte write_all b s).
  Proof using Hw.
    intros Hv. rewrite (run_fn_same c w t_writer_write_byte [RObj; v] [RObj; RInt U8 b]).
    2:{ unfold is_int in Hv. cbn [fn_params t_writer_write_byte bind_params]. rewrite Hv. reflexivity. }
    unfold run_fn, t_writer_write_byte, write_byte. text. rewrite Hw. destruct (write_all [b] s) as [s1 [[]|e|p]]; text; reflexivity.
  Qed.
  Lemma write_len_text n s : says_encode -> run_fn c w t_writer_write_len [RObj; RInt Usize n] s = method 1 (fun _ => RUnit) (write_len write_all n s).
  Proof using Hw.
    intros He. unfold run_fn, t_writer_write_len, write_len. text.
    rewrite (He (RAs n) (wrapu 64 n) s eq_refl) by (apply wrapu_range; lia).
    destruct (encode_uleb (write_byte write_all) (wrapu 64 n) s) as [s1 [[]|e|p]]; text; reflexivity.
  Qed.
  Lemma write_i16_text v i s : is_int c I16 v i -> says_encode -> says_int c w "zigzag_encode16" I16 U16 zigzag_encode16 ->
    run_fn c w t_writer_write_i16 [RObj; v] s = method 1 (fun _ => RUnit) (write_i16 write_all i s).
  Proof using Hw.
    intros Hv He Hz. rewrite (run_fn_same c w t_writer_write_i16 [RObj; v] [RObj; RInt I16 i]).
    2:{ unfold is_int in Hv. cbn [fn_params t_writer_write_i16 bind_params]. rewrite Hv. reflexivity. }
    unfold run_fn, t_writer_write_i16, write_i16. text. rewrite (Hz (RInt I16 i) i s eq_refl). text.
    assert (HR : 0 <= zigzag_encode16 i < 2 ^ 16) by (unfold zigzag_encode16; apply wrapu_range; lia).
    assert (HQ : 0 <= zigzag_encode16 i < 2 ^ 64) by (split; [lia|apply Z.lt_le_trans with (2 ^ 16); [lia|apply Z.pow_le_mono_r; lia]]).
    rewrite (He (RAs (zigzag_encode16 i)) (zigzag_encode16 i) s).
    2:{ unfold is_int. cbn [coerce wrap signed bits]. rewrite wrapu_id by exact HQ. reflexivity. }
    2: exact HQ.
    destruct (encode_uleb (write_byte write_all) (zigzag_encode16 i) s) as [s1 [[]|e|p]]; text; reflexivity.
  Qed.
  Lemma write_i32_text v i s : is_int c I32 v i -> says_encode -> says_int c w "zigzag_encode32" I32 U32 zigzag_encode32 ->
    run_fn c w t_writer_write_i32 [RObj; v] s = method 1 (fun _ => RUnit) (write_i32 write_all i s).
  Proof using Hw.
    intros Hv He Hz. rewrite (run_fn_same c w t_writer_write_i32 [RObj; v] [RObj; RInt I32 i]).
    2:{ unfold is_int in Hv. cbn [fn_params t_writer_write_i32 bind_params]. rewrite Hv. reflexivity. }
    unfold run_fn, t_writer_write_i32, write_i32. text. rewrite (Hz (RInt I32 i) i s eq_refl). text.
    assert (HR : 0 <= zigzag_encode32 i < 2 ^ 32) by (unfold zigzag_encode32; apply wrapu_range; lia).
    assert (HQ : 0 <= zigzag_encode32 i < 2 ^ 64) by (split; [lia|apply Z.lt_le_trans with (2 ^ 32); [lia|apply Z.pow_le_mono_r; lia]]).
    rewrite (He (RAs (zigzag_encode32 i)) (zigzag_encode32 i) s).
    2:{ unfold is_int. cbn [coerce wrap signed bits]. rewrite wrapu_id by exact HQ. reflexivity. }
    2: exact HQ.
    destruct (encode_uleb (write_byte write_all) (zigzag_encode32 i) s) as [s1 [[]|e|p]]; text; reflexivity.
  Qed.
  Lemma write_i64_text v i s : is_int c I64 v i -> says_encode -> says_int c w "zigzag_encode64" I64 U64 zigzag_encode64 ->
    run_fn c w t_writer_write_i64 [RObj; v] s = method 1 (fun _ => RUnit) (write_i64 write_all i s).
  Proof using Hw.
    intros Hv He Hz. rewrite (run_fn_same c w t_writer_write_i64 [RObj; v] [RObj; RInt I64 i]).
    2:{ unfold is_int in Hv. cbn [fn_params t_writer_write_i64 bind_params]. rewrite Hv. reflexivity. }
    unfold run_fn, t_writer_write_i64, write_i64. text. rewrite (Hz (RInt I64 i) i s eq_refl). text.
    assert (HR : 0 <= zigzag_encode64 i < 2 ^ 64) by (unfold zigzag_encode64; apply wrapu_range; lia).
    assert (HQ : 0 <= zigzag_encode64 i < 2 ^ 64) by (split; [lia|apply Z.lt_le_trans with (2 ^ 64); [lia|apply Z.pow_le_mono_r; lia]]).
    rewrite (He (RAs (zigzag_encode64 i)) (zigzag_encode64 i) s).
    2:{ unfold is_int. cbn [coerce wrap signed bits]. rewrite wrapu_id by exact HQ. reflexivity. }
    2: exact HQ.
    destruct (encode_uleb (write_byte write_all) (zigzag_encode64 i) s) as [s1 [[]|e|p]]; text; reflexivity.
  Qed.
  Lemma write_double_text z s : run_fn c w t_writer_write_double [RObj; RDouble z] s = method 1 (fun _ => RUnit) (write_double write_all z s).
  Proof using Hw.
    unfold run_fn, t_writer_write_double, write_double. text. rewrite Hw. destruct (write_all (le_bytes 8 z) s) as [s1 [[]|e|p]]; text; reflexivity.
  Qed.
  Lemma write_binary_text l s :
    (forall n s, w_call w ["."; "write_len"]%string [RObj; RInt Usize n] s = method 1 (fun _ => RUnit) (write_len write_all n s)) ->
    says_const w "MAX_BINARY_LEN" MAX_BINARY_LEN ->
    run_fn c w t_writer_write_binary [RObj; RBytes l] s = method 1 (fun _ => RUnit) (write_binary write_all l s).
  Proof using Hw.
    intros Hl Hm. unfold run_fn, t_writer_write_binary, write_binary. text. rewrite Hm. text.
    destruct (MAX_BINARY_LEN <? zlen l); text; [reflexivity|]. rewrite Hl.
    destruct (write_len write_all (zlen l) s) as [s1 [[]|e|p]]; text; try reflexivity.
    rewrite Hw. destruct (write_all l s1) as [s2 [[]|e|p]]; text; reflexivity.
  Qed.
  Lemma write_string_text l s :
    (forall l s, w_call w ["."; "write_binary"]%string [RObj; RBytes l] s = method 1 (fun _ => RUnit) (write_binary write_all l s)) ->
    run_fn c w t_writer_write_string [RObj; RBytes l] s = method 1 (fun _ => RUnit) (write_string write_all l s).
  Proof using Hw.
    intros H. unfold run_fn, t_writer_write_string, write_string. text. rewrite H. destruct (write_binary write_all l s) as [s1 [[]|e|p]]; text; reflexivity.
  Qed.
  Lemma write_field_header_text v t id last s : is_int c U8 v t ->
    (forall v b s, is_int c U8 v b -> w_call w ["."; "write_byte"]%string [RObj; v] s = method 1 (fun _ => RUnit) (write_byte write_all b s)) ->
    (forall v i s, is_int c I16 v i -> w_call w ["."; "write_i16"]%string [RObj; v] s = method 1 (fun _ => RUnit) (write_i16 write_all i s)) ->
    run_fn c w f_write_field_header [RObj; v; RInt I16 id; RInt I16 last] s =
    gives (fun id' => [Some RObj; None; None; Some (RInt I16 id')]) (fun _ => RUnit) (write_field_header write_all t id last s) [Some RObj; None; None; Some (RInt I16 last)].
  Proof using Hw.
    intros Hv Hb Hi. rewrite (run_fn_same c w f_write_field_header [RObj; v; RInt I16 id; RInt I16 last] [RObj; RInt U8 t; RInt I16 id; RInt I16 last]).
    2:{ unfold is_int in Hv. cbn [fn_params f_write_field_header bind_params]. rewrite Hv. reflexivity. }
    unfold run_fn, f_write_field_header, write_field_header. text.
    destruct (15 <? wraps 16 (id - last)); text.
    - rewrite (Hb (RInt U8 t) t s eq_refl). destruct (write_byte write_all t s) as [s1 [[]|e|p]]; text; try reflexivity.
      rewrite (Hi (RInt I16 (wraps 16 (id - last))) _ s1 eq_refl). destruct (write_i16 write_all (wraps 16 (id - last)) s1) as [s2 [[]|e|p]]; text; reflexivity.
    - unfold shift_op. text. rewrite (Hb (RInt U8 (Z.lor t (wrapu 8 (Z.shiftl (wrapu 8 (wraps 16 (id - last))) 4)))) _ s eq_refl).
      destruct (write_byte write_all (Z.lor t (wrapu 8 (Z.shiftl (wrapu 8 (wraps 16 (id - last))) 4))) s) as [s1 [[]|e|p]]; text; reflexivity.
  Qed.
End Output.
