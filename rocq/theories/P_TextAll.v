(** What the text of protocol.rs and uleb.rs does, for each of its implementations. *)
From Verif Require Import Base Uleb Utf8 Protocol SpecInput RustSyntax RustEval RustProgram SpecText SpecTextIO P_Arith P_Good P_Lawful P_Prim
  P_TextTable P_TextTac P_TextUleb P_TextUleb2 P_TextInput P_TextKeeps P_TextSkip P_TextSlice P_TextOutput P_TextLink.
Open Scope Z_scope.
Open Scope list_scope.

Lemma lawful_bytes {S} c (I : input S) inv le : lawful c I inv le (fun _ => True) -> byte_input inv I.
Proof.
  intros [HO H1 H2 H3 H4 H5 _].
  assert (HK : forall A (m : M S A) Q, (forall s, inv s -> tame le (fun _ => True) s m (Q s)) -> forall s s' a, inv s -> m s = (s', Ok a) -> inv s' /\ Q s s' a).
  { intros A m Q H s s' a Is E. destruct (H s Is) as [G1 G2]. rewrite E in *. cbn [fst snd] in *. split; [apply (or_inv _ _ _ HO _ _ G1 Is)|exact G2]. }
  split.
  - intros s s' b Is E. destruct (HK _ _ _ H1 s s' b Is E) as [G1 [G2 _]]. auto.
  - intros s s' b Is E. apply (HK _ _ _ H2 s s' b Is E).
  - intros s s' b Is E. apply (HK _ _ _ H3 s s' b Is E).
  - intros s s' b Is E. apply (HK _ _ _ H4 s s' b Is E).
  - intros s s' b Is E. apply (HK _ _ _ H5 s s' b Is E).
Qed.

Section All.
  Context {X S : Type}.
  Variable c : cfg.
  Hypothesis Hc : cfg_ok c.
  Variable p : program.
  Variable prim : world X S.
  Hypothesis Hp : input_shared p.
  Variable I : input S.
  Hypothesis Hn : forall s, w_bound prim s = Datatypes.S (in_left I s).
  Notation L d := (link c p prim d).
  Hypothesis Hb : forall d, says_byte (L (2 + d)) (in_read_byte I).
  Variable own : bool.
  Hypothesis Hd : forall d s, w_call (L (2 + d)) ["."; "read_double"]%string [RObj] s = method 0 RDouble (in_read_double I s).
  Hypothesis Hr : forall d s, w_call (L (5 + d)) ["."; "read_binary"]%string [RObj] s = method 0 (RCow own) (in_read_binary I s).
  Hypothesis Hi : forall d s, w_call (L (5 + d)) ["."; "skip_integer"]%string [RObj] s = method 0 (fun _ => RUnit) (in_skip_integer I s).
  Hypothesis Hs : forall d s, w_call (L (6 + d)) ["."; "skip_binary"]%string [RObj] s = method 0 (fun _ => RUnit) (in_skip_binary I s).
  Variable inv : S -> Prop.
  Hypothesis HI : byte_input inv I.
  Lemma text_reads_all : text_reads c I own inv (fun d => L d).
  Proof using Hc Hp Hn Hb Hd Hr Hi Hs HI.
    split; intros d; intros.
    - apply (Hb (5 + d)).
    - apply (Hd (5 + d)).
    - apply (Hr (2 + d)).
    - apply (Hi (2 + d)).
    - apply (Hs (1 + d)).
    - apply (link_decode c p prim Hp I Hn Hb (4 + d)).
    - apply (link_len c p prim Hp I Hn Hb (3 + d)).
    - apply (link_i16 c p prim Hp I Hn Hb (3 + d)).
    - apply (link_i32 c p prim Hp I Hn Hb (3 + d)).
    - apply (link_i64 c p prim Hp I Hn Hb (3 + d)).
    - apply (link_string c p prim Hp I own Hr (1 + d)).
    - apply (link_full_id c p prim Hp I Hn Hb (3 + d)).
    - apply (link_header c p prim Hp I Hn Hb (2 + d)); [|assumption]. intros s' b E. apply (bi_byte inv I HI s s' b H E).
    - apply (link_collection c Hc p prim Hp I Hn Hb (2 + d)).
    - apply (link_map c Hc p prim Hp I Hn Hb (2 + d)).
    - apply (link_skip c Hc p prim Hp I Hn Hb Hd Hi Hs inv HI d s H).
    - apply (link_skip c Hc p prim Hp I Hn Hb Hd Hi Hs inv HI d s H).
    - apply (link_skip c Hc p prim Hp I Hn Hb Hd Hi Hs inv HI d s H). reflexivity.
    - apply (link_skip_method c Hc p prim Hp I Hn Hb Hd Hi Hs inv HI d _ _ s H). reflexivity.
  Qed.
End All.

Lemma input_text {X S} c sse own (I : input S) inv : cfg_ok c -> byte_input inv I ->
  text_reads c I own inv (fun d => link c (input_program sse) (@input_world X S own I) d).
Proof.
  intros Hc HI. rewrite input_table_eq.
  apply text_reads_all; try exact Hc; try exact HI; [apply input_table_shared|reflexivity|..];
    intros d s; cbn [Nat.add]; rewrite link_prim by (destruct sse; vm_compute; reflexivity); reflexivity.
Qed.

Lemma slice_text {X} c : cfg_ok c ->
  text_reads c (slice_input c) false bytes (fun d => link c (slice_program (sse2 c)) (@slice_world X) d).
Proof.
  intros Hc. rewrite slice_table_eq.
  set (p := slice_table (sse2 c)). assert (Hp : input_shared p) by apply slice_table_shared.
  assert (F1 : find_fn p ["."; "read_byte"]%string = Some t_slice_read_byte) by (unfold p; destruct (sse2 c); vm_compute; reflexivity).
  assert (F2 : find_fn p ["."; "read_double"]%string = Some t_slice_read_double) by (unfold p; destruct (sse2 c); vm_compute; reflexivity).
  assert (F3 : find_fn p ["."; "read_binary"]%string = Some t_slice_read_binary) by (unfold p; destruct (sse2 c); vm_compute; reflexivity).
  assert (F4 : find_fn p ["."; "skip_binary"]%string = Some t_slice_skip_binary) by (unfold p; destruct (sse2 c); vm_compute; reflexivity).
  assert (F5 : find_fn p ["."; "skip_integer"]%string = Some (if sse2 c then t_slice_skip_integer else t_reader_skip_integer)) by (unfold p; destruct (sse2 c); vm_compute; reflexivity).
  assert (F6 : sse2 c = true -> find_fn p ["skip_uleb_sse2"]%string = Some f_skip_uleb_sse2) by (unfold p; intros ->; vm_compute; reflexivity).
  clearbody p.
  assert (Hg : forall d s, w_get (link c p (@slice_world X) d) s = Some (RBytes s)) by (intros; rewrite link_get; reflexivity).
  assert (Hq : forall d l s, w_set (link c p (@slice_world X) d) (RBytes l) s = Some l) by (intros; rewrite link_set; reflexivity).
  assert (Hn : forall s, w_bound (@slice_world X) s = Datatypes.S (in_left (slice_input c) s)) by reflexivity.
  assert (Hb : forall d, says_byte (link c p (@slice_world X) (2 + d)) (in_read_byte (slice_input c))).
  { intros d s. cbn [Nat.add]. rewrite (link_fn _ _ _ _ _ _ _ _ F1). apply slice_read_byte_text; auto. }
  apply text_reads_all; try assumption; try reflexivity.
  - intros d s. cbn [Nat.add]. rewrite (link_fn _ _ _ _ _ _ _ _ F2). apply slice_read_double_text; auto.
  - intros d s. cbn [Nat.add]. rewrite (link_fn _ _ _ _ _ _ _ _ F3). apply slice_read_binary_text; auto.
    + apply (link_len c p _ Hp _ Hn Hb d).
    + apply (link_binary_len c p _ (is_free p Hp) (3 + d)).
  - intros d s. cbn [Nat.add]. rewrite (link_fn _ _ _ _ _ _ _ _ F5). destruct (sse2 c) eqn:E.
    + apply slice_skip_integer_text; auto.
      * intros Hz. rewrite (link_fn _ _ _ _ _ _ _ _ (F6 eq_refl)). apply skip_sse2_text; auto.
      * intros Hz. rewrite (link_fn _ _ _ _ _ _ _ _ (fs_skip_uleb_fallback p (is_free p Hp))). apply skip_fallback_text; [exact Hc| |rewrite link_bound; cbn; lia].
        destruct Hc as [[->| ->] _]; cbn -[zlen]; lia.
    + rewrite (default_skip_integer_text c _ slice_read_byte slice_left).
      * cbn [slice_input in_skip_integer]. unfold slice_skip_integer. rewrite E. reflexivity.
      * apply (link_i64 c p _ Hp _ Hn Hb d).
  - intros d s. cbn [Nat.add]. rewrite (link_fn _ _ _ _ _ _ _ _ F4). apply slice_skip_binary_text; auto.
    + apply (link_len c p _ Hp _ Hn Hb (1 + d)).
    + apply (link_binary_len c p _ (is_free p Hp) (4 + d)).
  - apply (lawful_bytes c _ _ (@suffix Z)). apply slice_lawful; auto.
Qed.

Lemma reader_text {X} c sse : cfg_ok c ->
  text_reads c (reader_input c) true reader_bytes (fun d => link c (reader_program sse) (@reader_world X) d).
Proof.
  intros Hc. rewrite reader_table_eq.
  set (p := reader_table sse). assert (Hp : input_shared p) by apply reader_table_shared.
  assert (F1 : find_fn p ["."; "read_byte"]%string = Some t_reader_read_byte) by (unfold p; destruct sse; vm_compute; reflexivity).
  assert (F2 : find_fn p ["."; "read_double"]%string = Some t_reader_read_double) by (unfold p; destruct sse; vm_compute; reflexivity).
  assert (F3 : find_fn p ["."; "read_binary"]%string = Some t_reader_read_binary) by (unfold p; destruct sse; vm_compute; reflexivity).
  assert (F4 : find_fn p ["."; "skip_binary"]%string = Some t_reader_skip_binary) by (unfold p; destruct sse; vm_compute; reflexivity).
  assert (F5 : find_fn p ["."; "skip_integer"]%string = Some t_reader_skip_integer) by (unfold p; destruct sse; vm_compute; reflexivity).
  assert (F6 : find_fn p ["."; "read_exact"]%string = None) by (unfold p; destruct sse; vm_compute; reflexivity).
  clearbody p.
  assert (Hx : forall d l s, w_call (link c p (@reader_world X) (1 + d)) ["."; "read_exact"]%string [RObj; RBytes l] s = fills (RBytes l) (read_exact (List.length l) s))
    by (intros; cbn [Nat.add]; rewrite (link_prim _ _ _ _ _ _ _ F6); reflexivity).
  assert (Hu : forall d n s, w_call (link c p (@reader_world X) (1 + d)) ["."; "read_exact"]%string [RObj; RUninit n] s = fills (RUninit n) (read_exact (Z.to_nat n) s))
    by (intros; cbn [Nat.add]; rewrite (link_prim _ _ _ _ _ _ _ F6); reflexivity).
  assert (Hn : forall s, w_bound (@reader_world X) s = Datatypes.S (in_left (reader_input c) s)) by reflexivity.
  assert (Hb : forall d, says_byte (link c p (@reader_world X) (2 + d)) (in_read_byte (reader_input c))).
  { intros d s. cbn [Nat.add]. rewrite (link_fn _ _ _ _ _ _ _ _ F1). apply reader_read_byte_text. apply (Hx d). }
  assert (Hr : forall d s, w_call (link c p (@reader_world X) (5 + d)) ["."; "read_binary"]%string [RObj] s = method 0 (RCow true) (in_read_binary (reader_input c) s)).
  { intros d s. cbn [Nat.add]. rewrite (link_fn _ _ _ _ _ _ _ _ F3). apply reader_read_binary_text.
    - apply (Hx (3 + d)%nat).
    - apply (Hu (3 + d)%nat).
    - apply (link_len c p _ Hp _ Hn Hb d).
    - apply (link_binary_len c p _ (is_free p Hp) (3 + d)). }
  apply text_reads_all; try assumption; try reflexivity.
  - intros d s. cbn [Nat.add]. rewrite (link_fn _ _ _ _ _ _ _ _ F2). apply reader_read_double_text. apply (Hx d).
  - intros d s. cbn [Nat.add]. rewrite (link_fn _ _ _ _ _ _ _ _ F5). apply (default_skip_integer_text c _ reader_read_byte reader_left).
    apply (link_i64 c p _ Hp _ Hn Hb d).
  - intros d s. cbn [Nat.add]. rewrite (link_fn _ _ _ _ _ _ _ _ F4). apply (default_skip_binary_text c _ true (reader_read_binary c)). apply (Hr d).
  - apply (lawful_bytes c _ _ later). apply reader_lawful; auto.
Qed.

Lemma writer_text {X W} c sse (write_all : list Z -> M W unit) : cfg_ok c ->
  text_writes write_all (fun d => link c (writer_program sse) (@writer_world X W write_all) d).
Proof.
  intros Hc. rewrite writer_table_eq.
  set (p := writer_table sse). assert (Hf : free_shared p) by apply writer_table_shared.
  assert (F1 : find_fn p ["."; "write_byte"]%string = Some t_writer_write_byte) by (unfold p; destruct sse; vm_compute; reflexivity).
  assert (F2 : find_fn p ["."; "write_len"]%string = Some t_writer_write_len) by (unfold p; destruct sse; vm_compute; reflexivity).
  assert (F3 : find_fn p ["."; "write_i16"]%string = Some t_writer_write_i16) by (unfold p; destruct sse; vm_compute; reflexivity).
  assert (F4 : find_fn p ["."; "write_i32"]%string = Some t_writer_write_i32) by (unfold p; destruct sse; vm_compute; reflexivity).
  assert (F5 : find_fn p ["."; "write_i64"]%string = Some t_writer_write_i64) by (unfold p; destruct sse; vm_compute; reflexivity).
  assert (F6 : find_fn p ["."; "write_double"]%string = Some t_writer_write_double) by (unfold p; destruct sse; vm_compute; reflexivity).
  assert (F7 : find_fn p ["."; "write_binary"]%string = Some t_writer_write_binary) by (unfold p; destruct sse; vm_compute; reflexivity).
  assert (F8 : find_fn p ["."; "write_string"]%string = Some t_writer_write_string) by (unfold p; destruct sse; vm_compute; reflexivity).
  assert (F9 : find_fn p ["."; "write_all"]%string = None) by (unfold p; destruct sse; vm_compute; reflexivity).
  clearbody p. set (L := fun d => link c p (@writer_world X W write_all) d).
  assert (Hw : forall d l s, w_call (L (1 + d)%nat) ["."; "write_all"]%string [RObj; RBytes l] s = method 1 (fun _ => RUnit) (write_all l s))
    by (intros; unfold L; cbn [Nat.add]; rewrite (link_prim _ _ _ _ _ _ _ F9); reflexivity).
  assert (H1 : forall d v b s, is_int c U8 v b -> w_call (L (2 + d)%nat) ["."; "write_byte"]%string [RObj; v] s = method 1 (fun _ => RUnit) (write_byte write_all b s)).
  { intros d v b s Hv. unfold L. cbn [Nat.add]. rewrite (link_fn _ _ _ _ _ _ _ _ F1). apply write_byte_text; [apply (Hw d)|exact Hv]. }
  assert (He : forall d, says_encode c (L (3 + d)%nat) write_all).
  { intros d v z s Hv Hz. unfold L. cbn [Nat.add]. rewrite (link_fn _ _ _ _ _ _ _ _ (fs_encode_uleb p Hf)), (run_fn_same c _ _ [RObj; v] [RObj; RInt U64 z]).
    2:{ unfold is_int in Hv. cbn [fn_params f_encode_uleb bind_params]. rewrite Hv. reflexivity. }
    apply encode_uleb_text; [|exact Hz|rewrite link_bound; cbn; lia]. intros b s0. apply (H1 d). reflexivity. }
  assert (H2 : forall d n s, w_call (L (4 + d)%nat) ["."; "write_len"]%string [RObj; RInt Usize n] s = method 1 (fun _ => RUnit) (write_len write_all n s)).
  { intros d n s. unfold L. cbn [Nat.add]. rewrite (link_fn _ _ _ _ _ _ _ _ F2). apply (write_len_text c _ write_all (Hw (2 + d)%nat)). apply (He d). }
  assert (H3 : forall d v i s, is_int c I16 v i -> w_call (L (4 + d)%nat) ["."; "write_i16"]%string [RObj; v] s = method 1 (fun _ => RUnit) (write_i16 write_all i s)).
  { intros d v i s Hv. unfold L. cbn [Nat.add]. rewrite (link_fn _ _ _ _ _ _ _ _ F3). apply (write_i16_text c _ write_all (Hw (2 + d)%nat)); [exact Hv|apply (He d)|apply (link_zigzag_encode16 c p _ Hf (2 + d))]. }
  assert (H7 : forall d l s, w_call (L (5 + d)%nat) ["."; "write_binary"]%string [RObj; RBytes l] s = method 1 (fun _ => RUnit) (write_binary write_all l s)).
  { intros d l s. unfold L. cbn [Nat.add]. rewrite (link_fn _ _ _ _ _ _ _ _ F7). apply (write_binary_text c _ write_all (Hw (3 + d)%nat)); [apply (H2 d)|apply (link_binary_len c p _ Hf (3 + d))]. }
  split; intros d; intros.
  - apply (link_collection_len c p _ Hf (5 + d)).
  - apply (H1 (4 + d)%nat). reflexivity.
  - apply (He (3 + d)%nat); [reflexivity|assumption].
  - apply (H2 (2 + d)%nat).
  - apply (H3 (2 + d)%nat). reflexivity.
  - unfold L. cbn [Nat.add]. rewrite (link_fn _ _ _ _ _ _ _ _ F4). apply (write_i32_text c _ write_all (Hw (4 + d)%nat)); [reflexivity|apply (He (2 + d)%nat)|apply (link_zigzag_encode32 c p _ Hf (4 + d))].
  - unfold L. cbn [Nat.add]. rewrite (link_fn _ _ _ _ _ _ _ _ F5). apply (write_i64_text c _ write_all (Hw (4 + d)%nat)); [reflexivity|apply (He (2 + d)%nat)|apply (link_zigzag_encode64 c p _ Hf (4 + d))].
  - unfold L. cbn [Nat.add]. rewrite (link_fn _ _ _ _ _ _ _ _ F6). apply (write_double_text c _ write_all (Hw (4 + d)%nat)).
  - apply (H7 (1 + d)%nat).
  - unfold L. cbn [Nat.add]. rewrite (link_fn _ _ _ _ _ _ _ _ F8). apply (write_string_text c _ write_all (Hw (4 + d)%nat)). apply (H7 d).
  - unfold L. cbn [Nat.add]. rewrite (link_fn _ _ _ _ _ _ _ _ (fs_write_field_header p Hf)).
    apply (write_field_header_text c _ write_all (Hw (4 + d)%nat)); [reflexivity|intros v b s0; apply (H1 (3 + d)%nat)|intros v b s0; apply (H3 (1 + d)%nat)].
Qed.

(** ** The text of both sides: an integer that is written and read again *)
Lemma text_i64 {X} c n w : cfg_ok c -> in_s 64 n ->
  exists bs,
    w_call (link c (writer_program (sse2 c)) (@writer_world X _ vec_write_all) 6) ["."; "write_i64"]%string [RObj; RInt I64 n] w = (w ++ bs, CRet [Some RObj; None] (ROk (RTup []))) /\
    forall rest, bytes (bs ++ rest) ->
      w_call (link c (slice_program (sse2 c)) (@slice_world X) 7) ["."; "read_i64"]%string [RObj] (bs ++ rest) = (rest, CRet [Some RObj] (ROk (RInt I64 n))).
Proof.
  intros Hc Hn. destruct (i64_roundtrip c n Hc Hn) as [bs [H1 [H2 _]]]. exists bs. split.
  - refine (eq_trans (tw_i64 _ _ (writer_text (X := X) c (sse2 c) vec_write_all Hc) 0 n w) _). rewrite H1. reflexivity.
  - intros rest Hr. refine (eq_trans (tr_i64 _ _ _ _ _ (slice_text (X := X) c Hc) 0 (bs ++ rest)) _). rewrite (H2 rest Hr). reflexivity.
Qed.
