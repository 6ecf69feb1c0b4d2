(** The text of the runtime, for slices, readers and writers. *)
From Verif Require Import Base Uleb Utf8 Protocol Encodings Types RustSyntax RustEval RustProgram RustTypes RustCode SpecInput RustLex RustMacro MacrosText Macro MacroRules SpecRust SpecExpand SpecWhole SpecText SpecTextIO SpecTypesText
  TextRuntime SpecUtf8 SpecCompact Schema Typing Parquet P_Good P_Lawful P_Robust P_Inputs P_Roundtrip P_GenCode P_Whole P_TextLink P_TextAll P_TextRuntime P_TextRuntimeW.
Open Scope Z_scope.
Open Scope list_scope.

Lemma link_bound_in {S} c p (prim : world value S) (I : input S) : (forall s, w_bound prim s = Datatypes.S (in_left I s)) ->
  forall d s, w_bound (link c p prim d) s = Datatypes.S (in_left I s).
Proof. intros H d s. rewrite link_bound. apply H. Qed.

Lemma slice_runtime c rep E K t d s : cfg_ok c -> implemented rep -> env_closed E K = true -> different_names E -> ty_closed E t = true -> bytes s ->
  (need K t (List.length s) <= d)%nat ->
  text_read c (slice_text_of c) rep E d t s = read_thrift c (slice_input c) E d t s.
Proof.
  intros Hc Hrep HE Hn Ht Hs Hd.
  destruct (text_read_same c Hc (slice_input c) false bytes _ (slice_lawful c Hc (fun _ => True) (fun _ _ => Coq.Init.Logic.I)) (slice_text_of c) (slice_text c Hc)
    (link_bound_in c (slice_program (sse2 c)) slice_world (slice_input c) (fun _ => eq_refl)) rep Hrep E K HE Hn d t s Hs Ht) as [[s' H]|H]; [|exact H].
  exfalso. pose proof (read_slice_panic c E K d t s PStack Hc HE Ht Hs Hd) as P. rewrite H in P. specialize (P eq_refl). destruct P as [[_ P]|[_ [P|P]]]; discriminate P.
Qed.
Lemma reader_runtime c sse rep E K t d r : cfg_ok c -> implemented rep -> env_closed E K = true -> different_names E -> ty_closed E t = true -> reader_bytes r ->
  (need K t (reader_left r) <= d)%nat ->
  text_read c (reader_text_of c sse) rep E d t r = read_thrift c (reader_input c) E d t r.
Proof.
  intros Hc Hrep HE Hn Ht Hs Hd.
  destruct (text_read_same c Hc (reader_input c) true reader_bytes _ (reader_lawful c Hc (fun _ => True) (fun _ _ => Coq.Init.Logic.I)) (reader_text_of c sse) (reader_text c sse Hc)
    (link_bound_in c (reader_program sse) reader_world (reader_input c) (fun _ => eq_refl)) rep Hrep E K HE Hn d t r Hs Ht) as [[s' H]|H]; [|exact H].
  exfalso. pose proof (read_reader_panic c E K d t r PStack Hc HE Ht Hs Hd) as P. rewrite H in P. specialize (P eq_refl). destruct P as [_ P]; discriminate P.
Qed.
Lemma writer_runtime {W} c sse (write_all : list Z -> M W unit) rep E t v d s : cfg_ok c -> implemented rep -> different_names E -> typed E t v ->
  (2 * height v <= d + 1)%nat ->
  text_write c (writer_text_of c sse write_all) rep E d t v s = write_thrift write_all E t v s.
Proof.
  intros Hc Hrep Hn Ht Hd. exact (proj1 (text_write_same c Hc write_all (writer_text_of c sse write_all) (writer_text c sse write_all Hc) rep Hrep E Hn d) t v s Ht Hd).
Qed.
Lemma runtime_round c sse rep rep' E K t v bs d k : cfg_ok c -> reserve_ok c -> implemented rep -> implemented rep' -> different_names E ->
  env_ok false E K = true -> fits E v t = true -> typed E t v ->
  (2 * height v <= k + 1)%nat -> text_write c (writer_text_of c sse vec_write_all) rep E k t v [] = (bs, Ok tt) ->
  (forall rest, bytes (bs ++ rest) -> (need K t (List.length (bs ++ rest)) <= d)%nat ->
    text_read c (slice_text_of c) rep' E d t (bs ++ rest) = (rest, Ok (unshare v))) /\
  (forall r rest, content r = bs ++ rest -> reader_bytes r -> (need K t (reader_left r) <= d)%nat ->
    exists r', text_read c (reader_text_of c sse) rep' E d t r = (r', Ok (unshare v)) /\ content r' = rest /\ ending r' = ending r).
Proof.
  intros Hc Hr Hrep Hrep' Hn HE Hf Ht Hk Hw. rewrite writer_runtime in Hw by assumption.
  pose proof (env_ok_closed _ _ _ HE) as HE'. pose proof (proj1 (P_Write.typed_closed E) _ _ Ht) as Hcl. split.
  - intros rest Hb Hd. rewrite (slice_runtime c rep' E K) by assumption.
    assert (Hd' : (need K t (List.length bs) <= d)%nat) by (revert Hd; unfold need; rewrite app_length; intros; nia).
    exact (proj1 (write_read c E K t v bs d Hc Hr HE Hf Ht Hw Hd') rest Hb).
  - intros r rest Hcont Hb Hd.
    assert (Hd' : (need K t (List.length bs) <= d)%nat) by (pose proof (content_left r) as H; rewrite Hcont, app_length in H; revert Hd; unfold need; intros; nia).
    rewrite (reader_runtime c sse rep' E K) by assumption.
    exact (proj2 (write_read c E K t v bs d Hc Hr HE Hf Ht Hw Hd') r rest Hcont).
Qed.
Lemma parquet_names : different_names parquet_env.
Proof. eapply Forall_impl; [|exact parquet_field_names]. intros [n [fs|fs|]] H; cbn in *; [exact H|exact H|constructor]. Qed.
Lemma runtime_methods : forall ms ts ds E k out l,
  read_macros macros_rs_text = Some ms -> declarations ds ts -> expand_all ds = Some E -> Forall (fun d => suitable (snd d)) ds ->
  (List.length ts + 4 <= k)%nat -> names_differ E -> expansion ms k "thrift" ts = Some out -> items_read l out ->
  different_names E /\
  forall n z f w, In (Protocol n z f w) l -> exists df, lookup E n = Some df /\
    item_type (methods (n, df)) = z /\ item_fill (methods (n, df)) = f /\ item_write (methods (n, df)) = w.
Proof.
  intros ms ts ds E k out l H1 H2 H3 H4 H5 H6 H7 H8. split.
  - eapply Forall_impl; [|exact (proj2 H6)]. clear. intros [n [fs|fs|]] H; cbn in *; [exact H|exact H|constructor].
  - intros n z f w Hi. destruct (whole_in ms ts ds E k out l H1 H2 H3 H4 H5 H6 H7 H8 n z f w Hi) as (df & Hl & _ & Hm). exists df. split; [exact Hl|]. rewrite Hm. repeat split.
Qed.
(** A data page header with an unknown field; and back *)
Lemma runtime_page :
  text_read release64 (slice_text_of release64) (representation true) parquet_env 300 (TNamed "DataPageHeader") [21; 8; 21; 2; 21; 4; 21; 6; 67; 77; 0; 99] =
    ([99], Ok (VStruct [VI32 4; VI32 1; VI32 2; VI32 3; VNone])) /\
  text_write release64 (writer_text_of release64 true vec_write_all) (representation true) parquet_env 300 (TNamed "DataPageHeader") (VStruct [VI32 4; VI32 1; VI32 2; VI32 3; VNone]) [7] =
    ([7; 21; 8; 21; 2; 21; 4; 21; 6; 0], Ok tt).
Proof.
  assert (Hc : cfg_ok release64) by (vm_compute; auto). split.
  - rewrite (slice_runtime release64 (representation true) parquet_env 12); [|exact Hc|apply representation_ok|vm_compute; reflexivity|exact parquet_names|reflexivity|repeat constructor; unfold is_byte; lia|cbn; lia].
    vm_compute. reflexivity.
  - rewrite writer_runtime; [|exact Hc|apply representation_ok|exact parquet_names|apply typedb_ok; vm_compute; reflexivity|cbn; lia]. vm_compute. reflexivity.
Qed.
Lemma runtime_panics c rep E K t d s p : cfg_ok c -> implemented rep -> env_closed E K = true -> different_names E -> ty_closed E t = true -> bytes s ->
  (need K t (List.length s) <= d)%nat -> snd (text_read c (slice_text_of c) rep E d t s) = Panic p -> slice_panic c p.
Proof.
  intros Hc Hrep HE Hn Ht Hs Hd. rewrite (slice_runtime c rep E K) by assumption. exact (read_slice_panic c E K d t s p Hc HE Ht Hs Hd).
Qed.
