(** Putting the functions together: what the whole text does. *)
From Verif Require Import Base Uleb Utf8 Protocol RustSyntax RustEval RustProgram SpecText P_Arith P_TextTable P_TextTac P_TextUleb P_TextUleb2 P_TextInput P_TextKeeps P_TextSkip P_TextSlice P_TextOutput.
Open Scope Z_scope.
Open Scope list_scope.

(** ** Which function a name stands for *)
Record free_shared (p : program) : Prop := {
  fs_decode_uleb : find_fn p ["decode_uleb"]%string = Some f_decode_uleb;
  fs_encode_uleb : find_fn p ["encode_uleb"]%string = Some f_encode_uleb;
  fs_skip_uleb_fallback : find_fn p ["skip_uleb_fallback"]%string = Some f_skip_uleb_fallback;
  fs_MAX_BINARY_LEN : find_fn p ["MAX_BINARY_LEN"]%string = Some f_MAX_BINARY_LEN;
  fs_MAX_COLLECTION_LEN : find_fn p ["MAX_COLLECTION_LEN"]%string = Some f_MAX_COLLECTION_LEN;
  fs_read_full_field_id : find_fn p ["read_full_field_id"]%string = Some f_read_full_field_id;
  fs_zigzag_decode16 : find_fn p ["zigzag_decode16"]%string = Some f_zigzag_decode16;
  fs_zigzag_decode32 : find_fn p ["zigzag_decode32"]%string = Some f_zigzag_decode32;
  fs_zigzag_decode64 : find_fn p ["zigzag_decode64"]%string = Some f_zigzag_decode64;
  fs_zigzag_encode16 : find_fn p ["zigzag_encode16"]%string = Some f_zigzag_encode16;
  fs_zigzag_encode32 : find_fn p ["zigzag_encode32"]%string = Some f_zigzag_encode32;
  fs_zigzag_encode64 : find_fn p ["zigzag_encode64"]%string = Some f_zigzag_encode64;
  fs_read_collection_len_and_type : find_fn p ["read_collection_len_and_type"]%string = Some f_read_collection_len_and_type;
  fs_read_map_len_and_types : find_fn p ["read_map_len_and_types"]%string = Some f_read_map_len_and_types;
  fs_skip_collection : find_fn p ["skip_collection"]%string = Some f_skip_collection;
  fs_skip_map : find_fn p ["skip_map"]%string = Some f_skip_map;
  fs_skip_field : find_fn p ["skip_field"]%string = Some f_skip_field;
  fs_write_field_header : find_fn p ["write_field_header"]%string = Some f_write_field_header
}.
Record input_shared (p : program) : Prop := {
  is_free : free_shared p;
  is_read_len : find_fn p ["."; "read_len"]%string = Some m_read_len;
  is_read_i16 : find_fn p ["."; "read_i16"]%string = Some m_read_i16;
  is_read_i32 : find_fn p ["."; "read_i32"]%string = Some m_read_i32;
  is_read_i64 : find_fn p ["."; "read_i64"]%string = Some m_read_i64;
  is_read_string : find_fn p ["."; "read_string"]%string = Some m_read_string;
  is_skip_field : find_fn p ["."; "skip_field"]%string = Some m_skip_field;
  is_read_field_header : find_fn p ["."; "read_field_header"]%string = Some m_read_field_header
}.
Lemma input_table_shared b : input_shared (input_table b).
Proof. destruct b; repeat split; vm_compute; reflexivity. Qed.
Lemma slice_table_shared b : input_shared (slice_table b).
Proof. destruct b; repeat split; vm_compute; reflexivity. Qed.
Lemma reader_table_shared b : input_shared (reader_table b).
Proof. destruct b; repeat split; vm_compute; reflexivity. Qed.
Lemma writer_table_shared b : free_shared (writer_table b).
Proof. destruct b; repeat split; vm_compute; reflexivity. Qed.

Section Link.
  Context {X S : Type}.
  Variable c : cfg.
  Variable p : program.
  Variable prim : world X S.
  Lemma link_bound d s : w_bound (link c p prim d) s = w_bound prim s.
  Proof using Type. destruct d; reflexivity. Qed.
  Lemma link_get d s : w_get (link c p prim d) s = w_get prim s.
  Proof using Type. destruct d; reflexivity. Qed.
  Lemma link_set d v s : w_set (link c p prim d) v s = w_set prim v s.
  Proof using Type. destruct d; reflexivity. Qed.
  Lemma link_fn n f d vs s : find_fn p n = Some f -> w_call (link c p prim (Datatypes.S d)) n vs s = run_fn c (link c p prim d) f vs s.
  Proof using Type. intros H. cbn [link w_call]. rewrite H. reflexivity. Qed.
  Lemma link_prim n d vs s : find_fn p n = None -> w_call (link c p prim (Datatypes.S d)) n vs s = w_call prim n vs s.
  Proof using Type. intros H. cbn [link w_call]. rewrite H. reflexivity. Qed.

  Hypothesis Hf : free_shared p.
  Lemma link_zigzag_decode16 d : says_int c (link c p prim (1 + d)) "zigzag_decode16" U16 I16 zigzag_decode16.
  Proof using Hf.
    intros v i s H. cbn [Nat.add]. rewrite (link_fn _ _ _ _ _ (fs_zigzag_decode16 p Hf)), (run_fn_same c _ _ [v] [RInt U16 i]); [apply zigzag_decode16_text|].
    cbn [fn_params f_zigzag_decode16 bind_params]. unfold is_int in H. rewrite H. reflexivity.
  Qed.
  Lemma link_zigzag_decode32 d : says_int c (link c p prim (1 + d)) "zigzag_decode32" U32 I32 zigzag_decode32.
  Proof using Hf.
    intros v i s H. cbn [Nat.add]. rewrite (link_fn _ _ _ _ _ (fs_zigzag_decode32 p Hf)), (run_fn_same c _ _ [v] [RInt U32 i]); [apply zigzag_decode32_text|].
    cbn [fn_params f_zigzag_decode32 bind_params]. unfold is_int in H. rewrite H. reflexivity.
  Qed.
  Lemma link_zigzag_decode64 d : says_int c (link c p prim (1 + d)) "zigzag_decode64" U64 I64 zigzag_decode64.
  Proof using Hf.
    intros v i s H. cbn [Nat.add]. rewrite (link_fn _ _ _ _ _ (fs_zigzag_decode64 p Hf)), (run_fn_same c _ _ [v] [RInt U64 i]); [apply zigzag_decode64_text|].
    cbn [fn_params f_zigzag_decode64 bind_params]. unfold is_int in H. rewrite H. reflexivity.
  Qed.
  Lemma link_zigzag_encode16 d : says_int c (link c p prim (1 + d)) "zigzag_encode16" I16 U16 zigzag_encode16.
  Proof using Hf.
    intros v i s H. cbn [Nat.add]. rewrite (link_fn _ _ _ _ _ (fs_zigzag_encode16 p Hf)), (run_fn_same c _ _ [v] [RInt I16 i]); [apply zigzag_encode16_text|].
    cbn [fn_params f_zigzag_encode16 bind_params]. unfold is_int in H. rewrite H. reflexivity.
  Qed.
  Lemma link_zigzag_encode32 d : says_int c (link c p prim (1 + d)) "zigzag_encode32" I32 U32 zigzag_encode32.
  Proof using Hf.
    intros v i s H. cbn [Nat.add]. rewrite (link_fn _ _ _ _ _ (fs_zigzag_encode32 p Hf)), (run_fn_same c _ _ [v] [RInt I32 i]); [apply zigzag_encode32_text|].
    cbn [fn_params f_zigzag_encode32 bind_params]. unfold is_int in H. rewrite H. reflexivity.
  Qed.
  Lemma link_zigzag_encode64 d : says_int c (link c p prim (1 + d)) "zigzag_encode64" I64 U64 zigzag_encode64.
  Proof using Hf.
    intros v i s H. cbn [Nat.add]. rewrite (link_fn _ _ _ _ _ (fs_zigzag_encode64 p Hf)), (run_fn_same c _ _ [v] [RInt I64 i]); [apply zigzag_encode64_text|].
    cbn [fn_params f_zigzag_encode64 bind_params]. unfold is_int in H. rewrite H. reflexivity.
  Qed.
  Lemma link_binary_len d : says_const (link c p prim (1 + d)) "MAX_BINARY_LEN" MAX_BINARY_LEN.
  Proof using Hf. intros s. cbn [Nat.add]. rewrite (link_fn _ _ _ _ _ (fs_MAX_BINARY_LEN p Hf)). apply max_binary_text. Qed.
  Lemma link_collection_len d : says_const (link c p prim (1 + d)) "MAX_COLLECTION_LEN" MAX_COLLECTION_LEN.
  Proof using Hf. intros s. cbn [Nat.add]. rewrite (link_fn _ _ _ _ _ (fs_MAX_COLLECTION_LEN p Hf)). apply max_collection_text. Qed.
End Link.

(** ** Reading *)
Section Input.
  Context {X S : Type}.
  Variable c : cfg.
  Hypothesis Hc : cfg_ok c.
  Variable p : program.
  Variable prim : world X S.
  Hypothesis Hp : input_shared p.
  Variable I : input S.
  Hypothesis Hn : forall s, w_bound prim s = Datatypes.S (in_left I s).
  Let L d := link c p prim d.
  Hypothesis Hb : forall d, says_byte (L (2 + d)) (in_read_byte I).
  Let Hf := is_free p Hp.

  Lemma link_decode d : says_decode c (L (3 + d)) (in_read_byte I) (in_left I).
  Proof using Hp Hn Hb.
    intros s. unfold L. cbn [Nat.add]. rewrite (link_fn _ _ _ _ _ _ _ _ (fs_decode_uleb p Hf)).
    apply decode_uleb_text; [apply (Hb d)|]. intros s1. rewrite link_bound. apply Hn.
  Qed.
  Lemma link_len d : says_len c (L (4 + d)) I.
  Proof using Hp Hn Hb. intros s. unfold L. cbn [Nat.add]. rewrite (link_fn _ _ _ _ _ _ _ _ (is_read_len p Hp)). apply read_len_text. apply (link_decode d). Qed.
  Lemma link_i16 d s : w_call (L (4 + d)) ["."; "read_i16"]%string [RObj] s = method 0 (RInt I16) (read_i16 c I s).
  Proof using Hp Hn Hb.
    unfold L. cbn [Nat.add]. rewrite (link_fn _ _ _ _ _ _ _ _ (is_read_i16 p Hp)). apply read_i16_text; [apply (link_decode d)|apply (link_zigzag_decode16 c p prim Hf (2 + d))].
  Qed.
  Lemma link_i32 d s : w_call (L (4 + d)) ["."; "read_i32"]%string [RObj] s = method 0 (RInt I32) (read_i32 c I s).
  Proof using Hp Hn Hb.
    unfold L. cbn [Nat.add]. rewrite (link_fn _ _ _ _ _ _ _ _ (is_read_i32 p Hp)). apply read_i32_text; [apply (link_decode d)|apply (link_zigzag_decode32 c p prim Hf (2 + d))].
  Qed.
  Lemma link_i64 d s : w_call (L (4 + d)) ["."; "read_i64"]%string [RObj] s = method 0 (RInt I64) (read_i64 c I s).
  Proof using Hp Hn Hb.
    unfold L. cbn [Nat.add]. rewrite (link_fn _ _ _ _ _ _ _ _ (is_read_i64 p Hp)). apply read_i64_text; [apply (link_decode d)|apply (link_zigzag_decode64 c p prim Hf (2 + d))].
  Qed.
  Lemma link_full_id d : says_full_id c (L (4 + d)) I.
  Proof using Hp Hn Hb.
    intros s. unfold L. cbn [Nat.add]. rewrite (link_fn _ _ _ _ _ _ _ _ (fs_read_full_field_id p Hf)).
    apply read_full_field_id_text; [apply (link_decode d)|apply (link_zigzag_decode16 c p prim Hf (2 + d))].
  Qed.
  Lemma link_header d last s : (forall s' b, in_read_byte I s = (s', Ok b) -> is_byte b) -> in_s 16 last ->
    w_call (L (5 + d)) ["."; "read_field_header"]%string [RObj; RInt I16 last] s =
    gives (fun r => [Some RObj; Some (RInt I16 (snd r))]) (fun r => RInt U8 (fst r)) (read_field_header c I last s) [Some RObj; Some (RInt I16 last)].
  Proof using Hp Hn Hb.
    intros H1 H2. unfold L. cbn [Nat.add]. rewrite (link_fn _ _ _ _ _ _ _ _ (is_read_field_header p Hp)).
    apply read_field_header_text; [apply (Hb (2 + d))|apply (link_full_id d)|exact H1|exact H2].
  Qed.
  Lemma link_collection d s : w_call (L (5 + d)) ["read_collection_len_and_type"]%string [RObj] s =
    method 0 (fun r => RTup [RInt U32 (fst r); RInt U8 (snd r)]) (read_collection_len_and_type c I s).
  Proof using Hc Hp Hn Hb.
    unfold L. cbn [Nat.add]. rewrite (link_fn _ _ _ _ _ _ _ _ (fs_read_collection_len_and_type p Hf)).
    apply read_collection_text; [exact Hc|apply (Hb (2 + d))|apply (link_len d)|apply (link_collection_len c p prim Hf (3 + d))].
  Qed.
  Lemma link_map d s : w_call (L (5 + d)) ["read_map_len_and_types"]%string [RObj] s =
    method 0 (fun r => RTup [RInt U32 (fst (fst r)); RInt U8 (snd (fst r)); RInt U8 (snd r)]) (read_map_len_and_types c I s).
  Proof using Hc Hp Hn Hb.
    unfold L. cbn [Nat.add]. rewrite (link_fn _ _ _ _ _ _ _ _ (fs_read_map_len_and_types p Hf)).
    apply read_map_text; [exact Hc|apply (Hb (2 + d))|apply (link_len d)|apply (link_collection_len c p prim Hf (3 + d))].
  Qed.

  Variable own : bool.
  Hypothesis Hd : forall d s, w_call (L (2 + d)) ["."; "read_double"]%string [RObj] s = method 0 RDouble (in_read_double I s).
  Hypothesis Hr : forall d s, w_call (L (5 + d)) ["."; "read_binary"]%string [RObj] s = method 0 (RCow own) (in_read_binary I s).
  Hypothesis Hi : forall d s, w_call (L (5 + d)) ["."; "skip_integer"]%string [RObj] s = method 0 (fun _ => RUnit) (in_skip_integer I s).
  Hypothesis Hs : forall d s, w_call (L (6 + d)) ["."; "skip_binary"]%string [RObj] s = method 0 (fun _ => RUnit) (in_skip_binary I s).
  Lemma link_string d s : w_call (L (6 + d)) ["."; "read_string"]%string [RObj] s = method 0 (RCow own) (read_string I s).
  Proof using Hp Hr.
    unfold L. cbn [Nat.add]. rewrite (link_fn _ _ _ _ _ _ _ _ (is_read_string p Hp)). apply read_string_text. apply (Hr d).
  Qed.

  Variable inv : S -> Prop.
  Hypothesis HI : byte_input inv I.
  Lemma link_skip d : forall s, inv s ->
    (forall v ft ic, is_int c U8 v ft -> agrees (method 2 (fun _ => RUnit) (skip_field c I d ft ic s)) (w_call (L (6 + d)) ["skip_field"]%string [RObj; v; RBool ic] s)) /\
    agrees (method 0 (fun _ => RUnit) (skip_collection c I d s)) (w_call (L (6 + d)) ["skip_collection"]%string [RObj] s) /\
    agrees (method 0 (fun _ => RUnit) (skip_map c I d s)) (w_call (L (6 + d)) ["skip_map"]%string [RObj] s).
  Proof using Hc Hp Hn Hb Hd Hi Hs HI.
    induction d as [|d IH]; intros s Is.
    { repeat split; intros; left; exists s; reflexivity. }
    assert (HH : forall last s, inv s -> in_s 16 last ->
      w_call (L (6 + d)) ["."; "read_field_header"]%string [RObj; RInt I16 last] s =
      gives (fun r => [Some RObj; Some (RInt I16 (snd r))]) (fun r => RInt U8 (fst r)) (read_field_header c I last s) [Some RObj; Some (RInt I16 last)]).
    { intros last s0 I0 H0. apply (link_header (1 + d)); [|exact H0]. intros s' b E. apply (bi_byte inv I HI s0 s' b I0 E). }
    assert (Rf : forall v ft ic s, inv s -> is_int c U8 v ft -> agrees (method 2 (fun _ => RUnit) (skip_field c I d ft ic s)) (w_call (L (6 + d)) ["skip_field"]%string [RObj; v; RBool ic] s)) by (intros; apply IH; assumption).
    assert (Rc : forall s, inv s -> agrees (method 0 (fun _ => RUnit) (skip_collection c I d s)) (w_call (L (6 + d)) ["skip_collection"]%string [RObj] s)) by (intros; apply IH; assumption).
    assert (Rm : forall s, inv s -> agrees (method 0 (fun _ => RUnit) (skip_map c I d s)) (w_call (L (6 + d)) ["skip_map"]%string [RObj] s)) by (intros; apply IH; assumption).
    assert (HB : forall s, w_bound (L (6 + d)) s = Datatypes.S (in_left I s)) by (intros s0; unfold L; rewrite link_bound; apply Hn).
    change (6 + Datatypes.S d)%nat with (Datatypes.S (6 + d)). unfold L. split; [|split].
    - intros v ft ic Hv. rewrite (link_fn _ _ _ _ _ _ _ _ (fs_skip_field p Hf)).
      apply (skip_field_text c (L (6 + d)) I inv HI (Hb (4 + d)) (Hd (4 + d)) (Hi (1 + d)) (Hs d) HH (link_collection (1 + d)) (link_map (1 + d)) HB d Rf Rc Rm); assumption.
    - rewrite (link_fn _ _ _ _ _ _ _ _ (fs_skip_collection p Hf)).
      apply (skip_collection_text c (L (6 + d)) I inv HI (Hb (4 + d)) (Hd (4 + d)) (Hi (1 + d)) (Hs d) (link_collection (1 + d)) d Rf Rc Rm); assumption.
    - rewrite (link_fn _ _ _ _ _ _ _ _ (fs_skip_map p Hf)).
      apply (skip_map_text c (L (6 + d)) I inv HI (link_map (1 + d)) d Rf); assumption.
  Qed.
  Lemma link_skip_method d v ft s : inv s -> is_int c U8 v ft ->
    agrees (method 1 (fun _ => RUnit) (skip_field c I d ft false s)) (w_call (L (7 + d)) ["."; "skip_field"]%string [RObj; v] s).
  Proof using Hc Hp Hn Hb Hd Hi Hs HI.
    intros Is Hv. change (7 + d)%nat with (Datatypes.S (6 + d)). unfold L. rewrite (link_fn _ _ _ _ _ _ _ _ (is_skip_field p Hp)).
    apply (skip_method_text c (L (6 + d)) I inv d); [|exact Is|exact Hv]. intros v' ft' ic s' Is' Hv'. apply (link_skip d s' Is'). exact Hv'.
  Qed.
End Input.
