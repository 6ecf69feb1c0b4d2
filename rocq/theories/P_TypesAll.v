(** The worlds of SpecTypesText.v are as P_TypesFill.v, P_TypesWrite.v and P_TypesField.v expect. *)
From Verif Require Import Base Uleb Utf8 Protocol Encodings Types RustSyntax RustEval RustProgram RustTypes SpecText SpecTextIO SpecTypesText P_Arith P_TextTable P_TypesTable P_TypesFill P_TypesWrite P_TypesField.
Open Scope Z_scope.
Open Scope list_scope.

Lemma find_fn_app p q n : find_fn (p ++ q) n = match find_fn p n with Some f => Some f | None => find_fn q n end.
Proof. induction p as [|[m f] p IH]; [reflexivity|]. cbn [app find_fn]. destruct (path_is n m); [reflexivity|exact IH]. Qed.

Section Read.
  Context {S : Type}.
  Variable c : cfg.
  Hypothesis Hc : cfg_ok c.
  Variable I : input S.
  Variable own : bool.
  Variable inv : S -> Prop.
  Variable L : nat -> world value S.
  Hypothesis HL : text_reads c I own inv L.
  Variable k : nat.
  Variable e : reading S.
  Let w := reading_world c (L (7 + k)%nat) e.
  Ltac world := intros; unfold w, reading_world, w_call; cbn -[called w_call Nat.add]; unfold called; rewrite ?consts_eq; cbn -[w_call run_fn Nat.add].
  Lemma r_byte : forall s, w_call w ["."; "read_byte"]%string [RObj] s = method 0 (RInt U8) (in_read_byte I s).
  Proof using HL. world. apply (tr_byte _ _ _ _ _ HL). Qed.
  Lemma r_i16 : forall s, w_call w ["."; "read_i16"]%string [RObj] s = method 0 (RInt I16) (read_i16 c I s).
  Proof using HL. world. apply (tr_i16 _ _ _ _ _ HL). Qed.
  Lemma r_i32 : forall s, w_call w ["."; "read_i32"]%string [RObj] s = method 0 (RInt I32) (read_i32 c I s).
  Proof using HL. world. apply (tr_i32 _ _ _ _ _ HL). Qed.
  Lemma r_i64 : forall s, w_call w ["."; "read_i64"]%string [RObj] s = method 0 (RInt I64) (read_i64 c I s).
  Proof using HL. world. apply (tr_i64 _ _ _ _ _ HL). Qed.
  Lemma r_double : forall s, w_call w ["."; "read_double"]%string [RObj] s = method 0 RDouble (in_read_double I s).
  Proof using HL. world. apply (tr_double _ _ _ _ _ HL). Qed.
  Lemma r_binary : forall s, w_call w ["."; "read_binary"]%string [RObj] s = method 0 (RCow own) (in_read_binary I s).
  Proof using HL. world. apply (tr_binary _ _ _ _ _ HL). Qed.
  Lemma r_string : forall s, w_call w ["."; "read_string"]%string [RObj] s = method 0 (RCow own) (read_string I s).
  Proof using HL. world. apply (tr_string _ _ _ _ _ HL). Qed.
  Lemma r_coll : forall s, w_call w ["read_collection_len_and_type"]%string [RObj] s =
    method 0 (fun r => RTup [RInt U32 (fst r); RInt U8 (snd r)]) (read_collection_len_and_type c I s).
  Proof using HL. world. apply (tr_collection _ _ _ _ _ HL). Qed.
  Lemma r_type : forall s, w_call w ["P"; "FIELD_TYPE"]%string [] s = (s, CRet [] (RInt U8 (el_type e))).
  Proof using Type. reflexivity. Qed.
  Lemma r_self : forall s, w_call w ["Self"; "FIELD_TYPE"]%string [] s = (s, CRet [] (RInt U8 (el_type e))).
  Proof using Type. reflexivity. Qed.
  Lemma r_bool : forall s, w_call w ["bool"; "FIELD_TYPE"]%string [] s = (s, CRet [] (RInt U8 2)).
  Proof using Type. world. reflexivity. Qed.
  Lemma r_int : forall s, w_call w ["i32"; "FIELD_TYPE"]%string [] s = (s, CRet [] (RInt U8 5)).
  Proof using Type. world. reflexivity. Qed.
  Lemma r_str : forall s, w_call w ["String"; "FIELD_TYPE"]%string [] s = (s, CRet [] (RInt U8 8)).
  Proof using Type. world. reflexivity. Qed.
  Lemma r_default : forall n s, n = ["P"; "default"]%string \/ n = ["Self"; "default"]%string ->
    w_call w n [] s = match el_default e with Some v => (s, CRet [] (RElem v)) | None => (s, CPan PStack) end.
  Proof using Type. intros n s [-> | ->]; reflexivity. Qed.
  Lemma r_fill : forall n v s, n = ["."; "fill_thrift"]%string \/ n = ["Self"; "fill_thrift"]%string -> w_call w n [RElem v; RObj] s = filled_elem 0 (el_fill e v s).
  Proof using Type. intros n v s [-> | ->]; reflexivity. Qed.
  Lemma r_field : forall v ft s, w_call w ["."; "fill_thrift_field"]%string [RElem v; RObj; RInt U8 ft] s = filled_elem 1 (el_fill_field e ft v s).
  Proof using Type. reflexivity. Qed.
  Lemma by_text : forall R T, In (R, T) impl_types -> forall t, fills_as c I e w R (T t).
  Proof using Hc HL.
    pose proof (conj r_byte (conj r_i16 (conj r_i32 (conj r_i64 (conj r_double (conj r_binary (conj r_string (conj r_coll (conj r_type (conj r_bool (conj r_int (conj r_default r_fill)))))))))))) as K.
    clearbody w. destruct K as (? & ? & ? & ? & ? & ? & ? & ? & ? & ? & ? & ? & ?).
    intros R T HR t. unfold impl_types in HR. cbn [In] in HR.
    repeat (destruct HR as [HR|HR]; [injection HR as <- <-|]); [..|destruct HR].
    - eapply bool_fill_text; eassumption.
    - eapply i8_fill_text; eassumption.
    - eapply i16_fill_text; eassumption.
    - eapply i32_fill_text; eassumption.
    - eapply i64_fill_text; eassumption.
    - eapply double_fill_text; eassumption.
    - eapply bytes_fill_text; eassumption.
    - eapply string_fill_text; eassumption.
    - eapply cow_bytes_fill_text; eassumption.
    - eapply cow_str_fill_text; eassumption.
    - eapply vec_fill_text; eassumption.
    - eapply option_fill_text; eassumption.
    - eapply box_fill_text; eassumption.
    - eapply rc_fill_text; eassumption.
    - eapply arc_fill_text; eassumption.
    - eapply box_str_fill_text; eassumption.
    - eapply rc_str_fill_text; eassumption.
    - eapply arc_str_fill_text; eassumption.
    - eapply encset_fill_text; eassumption.
  Qed.
  Lemma const_by : forall E t, el_type e = field_type E t -> forall R T, In (R, T) impl_types ->
    exists f, impl_const R = Some f /\ forall s, run_fn c w f [] s = (s, CRet [] (RInt U8 (field_type E (T t)))).
  Proof using Type. intros E t H R T HR. apply (const_text c e w r_type r_str E t H R T HR). Qed.
End Read.
Section Model.
  Context {S : Type}.
  Variable c : cfg.
  Hypothesis Hc : cfg_ok c.
  Variable I : input S.
  Variable own : bool.
  Variable inv : S -> Prop.
  Variable L : nat -> world value S.
  Hypothesis HL : text_reads c I own inv L.
  Variable E : env.
  Let at_ k d t := reading_world c (L (7 + k)%nat) (elem c I E d t).
  Lemma types_fill : forall R T, In (R, T) impl_types -> forall k d t v rv s, held R v rv ->
    exists f, impl_fn R "fill_thrift" = Some f /\
    let '(s', v', o) := fill c I E (Datatypes.S d) (T t) v s in
    exists rv', held R v' rv' /\ run_fn c (at_ k d t) f [rv; RObj] s = filled 0 rv' (s', o).
  Proof using Hc HL.
    intros R T HR k d t v rv s Hv. pose proof (by_text c Hc I own inv L HL k (elem c I E d t) R T HR t v rv s Hv) as H.
    replace (fill c I E (Datatypes.S d) (T t) v s) with (fill_by c I (elem c I E d t) (T t) v s); [exact H|].
    clear H Hv. unfold impl_types in HR. cbn [In] in HR. repeat (destruct HR as [HR|HR]; [injection HR as <- <-; reflexivity|]). destruct HR.
  Qed.
  Lemma types_fill_field : forall R T, In (R, T) impl_types -> forall k d t v rv ft s, held R v rv ->
    if field_methods (T t) then
      exists f, impl_fn R "fill_thrift_field" = Some f /\
      let '(s', v', o) := fill_field c I E (Datatypes.S d) (T t) ft v s in
      exists rv', held R v' rv' /\ run_fn c (at_ k d t) f [rv; RObj; RInt U8 ft] s = filled 1 rv' (s', o)
    else impl_fn R "fill_thrift_field" = None.
  Proof using Type.
    intros R T HR k d t v rv ft s Hv. unfold impl_types in HR. cbn [In] in HR.
    repeat (destruct HR as [HR|HR]; [injection HR as <- <-; cbn [field_methods];
      lazymatch goal with
      | |- impl_fn _ _ = None => rewrite impl_fn_eq; vm_compute; reflexivity
      | |- context [impl_fn (YApp "bool" []) _] => exact (bool_field_text c (at_ k d t) v rv ft s Hv)
      | |- _ => exact (option_field_text c (elem c I E d t) (at_ k d t) (r_default c L k (elem c I E d t)) (r_field c L k (elem c I E d t)) v rv ft s Hv) end|]).
    destruct HR.
  Qed.
  Lemma default_fill_field : exists f, default_fn "fill_thrift_field" = Some f /\ forall k d t v ft s, field_methods t = false ->
    run_fn c (at_ k d t) f [RElem v; RObj; RInt U8 ft] s = filled_elem 1 (fill_field c I E (Datatypes.S d) t ft v s).
  Proof using Type.
    destruct (default_field_text c (elem c I E 0 TBool) (at_ 0 0 TBool) (r_self c L 0 (elem c I E 0 TBool)) (r_fill c L 0 (elem c I E 0 TBool))) as (f & Hf & _).
    exists f. split; [exact Hf|]. intros k d t v ft s Ht.
    destruct (default_field_text c (elem c I E d t) (at_ k d t) (r_self c L k (elem c I E d t)) (r_fill c L k (elem c I E d t))) as (f' & Hf' & H).
    rewrite Hf in Hf'. injection Hf' as <-. rewrite H. destruct t; try discriminate Ht; reflexivity.
  Qed.
  Lemma default_read : exists f, default_fn "read_thrift" = Some f /\ forall k d t s,
    run_fn c (at_ k d t) f [RObj] s = method 0 RElem (read_thrift c I E d t s).
  Proof using Type.
    destruct (default_read_text c (elem c I E 0 TBool) (at_ 0 0 TBool) (r_default c L 0 (elem c I E 0 TBool)) (r_fill c L 0 (elem c I E 0 TBool))) as (f & Hf & _).
    exists f. split; [exact Hf|]. intros k d t s.
    destruct (default_read_text c (elem c I E d t) (at_ k d t) (r_default c L k (elem c I E d t)) (r_fill c L k (elem c I E d t))) as (f' & Hf' & H).
    rewrite Hf in Hf'. injection Hf' as <-. apply H.
  Qed.
  Lemma types_const : forall R T, In (R, T) impl_types -> exists f, impl_const R = Some f /\ forall k d t s,
    run_fn c (at_ k d t) f [] s = (s, CRet [] (RInt U8 (field_type E (T t)))).
  Proof using Type.
    intros R T HR. destruct (const_by c L 0 (elem c I E 0 TBool) E TBool eq_refl R T HR) as (f & Hf & _). exists f. split; [exact Hf|].
    intros k d t s. destruct (const_by c L k (elem c I E d t) E t eq_refl R T HR) as (f' & Hf' & H). rewrite Hf in Hf'. injection Hf' as <-. apply H.
  Qed.
End Model.

Section Write.
  Context {W : Type}.
  Variable c : cfg.
  Hypothesis Hc : cfg_ok c.
  Variable write_all : list Z -> M W unit.
  Variable L : nat -> world value W.
  Hypothesis HL : text_writes write_all L.
  Variable k : nat.
  Variable e : writing W.
  Let w := writing_world c (L (6 + k)%nat) e.
  Ltac world := intros; unfold w, writing_world, w_call; cbn -[called w_call Nat.add app]; unfold called; rewrite ?consts_eq, ?set_eq; cbn -[w_call run_fn Nat.add].
  Lemma w_byte : forall b s, w_call w ["."; "write_byte"]%string [RObj; RInt U8 b] s = method 1 (fun _ => RTup []) (write_byte write_all b s).
  Proof using HL. world. apply (tw_byte _ _ HL). Qed.
  Lemma w_len : forall n s, w_call w ["."; "write_len"]%string [RObj; RInt Usize n] s = method 1 (fun _ => RTup []) (write_len write_all n s).
  Proof using HL. world. apply (tw_len _ _ HL). Qed.
  Lemma w_i16 : forall i s, w_call w ["."; "write_i16"]%string [RObj; RInt I16 i] s = method 1 (fun _ => RTup []) (write_i16 write_all i s).
  Proof using HL. world. apply (tw_i16 _ _ HL). Qed.
  Lemma w_i32 : forall i s, w_call w ["."; "write_i32"]%string [RObj; RInt I32 i] s = method 1 (fun _ => RTup []) (write_i32 write_all i s).
  Proof using HL. world. apply (tw_i32 _ _ HL). Qed.
  Lemma w_i64 : forall i s, w_call w ["."; "write_i64"]%string [RObj; RInt I64 i] s = method 1 (fun _ => RTup []) (write_i64 write_all i s).
  Proof using HL. world. apply (tw_i64 _ _ HL). Qed.
  Lemma w_double : forall z s, w_call w ["."; "write_double"]%string [RObj; RDouble z] s = method 1 (fun _ => RTup []) (write_double write_all z s).
  Proof using HL. world. apply (tw_double _ _ HL). Qed.
  Lemma w_binary : forall l s, w_call w ["."; "write_binary"]%string [RObj; RBytes l] s = method 1 (fun _ => RTup []) (write_binary write_all l s).
  Proof using HL. world. apply (tw_binary _ _ HL). Qed.
  Lemma w_string : forall l s, w_call w ["."; "write_string"]%string [RObj; RBytes l] s = method 1 (fun _ => RTup []) (write_string write_all l s).
  Proof using HL. world. apply (tw_string _ _ HL). Qed.
  Lemma w_header : forall t id last s, w_call w ["write_field_header"]%string [RObj; RInt U8 t; RInt I16 id; RInt I16 last] s =
    gives (fun id' => [Some RObj; None; None; Some (RInt I16 id')]) (fun _ => RTup []) (write_field_header write_all t id last s) [Some RObj; None; None; Some (RInt I16 last)].
  Proof using HL. world. apply (tw_header _ _ HL). Qed.
  Lemma w_max : forall s, w_call w ["MAX_COLLECTION_LEN"]%string [] s = (s, CRet [] (RInt Usize MAX_COLLECTION_LEN)).
  Proof using HL. world. apply (tw_max _ _ HL). Qed.
  Lemma w_type : forall s, w_call w ["P"; "FIELD_TYPE"]%string [] s = (s, CRet [] (RInt U8 (wr_type e))).
  Proof using Type. reflexivity. Qed.
  Lemma w_self : forall s, w_call w ["Self"; "FIELD_TYPE"]%string [] s = (s, CRet [] (RInt U8 (wr_type e))).
  Proof using Type. reflexivity. Qed.
  Lemma w_int : forall s, w_call w ["i32"; "FIELD_TYPE"]%string [] s = (s, CRet [] (RInt U8 5)).
  Proof using Type. world. reflexivity. Qed.
  Lemma w_plain : forall v s, w_call w ["."; "write_thrift"]%string [RElem v; RObj] s = written (wr_plain e v s).
  Proof using Type. reflexivity. Qed.
  Lemma w_field : forall v id last s, w_call w ["."; "write_thrift_field"]%string [RElem v; RObj; RInt I16 id; RInt I16 last] s = written_field (wr_field e v id last s).
  Proof using Type. reflexivity. Qed.
  Lemma set_called n f vs s : path_is ["."; n]%string ["."; "write_thrift"]%string = false -> path_is ["."; n]%string ["."; "write_thrift_field"]%string = false ->
    find_fn consts_read ["."; n]%string = None -> find_fn encoding_set_fns ["."; n]%string = Some f ->
    w_call w ["."; n]%string vs s = run_fn c (encoding_world (L (6 + k)%nat)) f vs s.
  Proof using Type.
    intros H1 H2 H3 Hf. unfold w, writing_world, w_call. rewrite H1, H2. cbn -[called Nat.add app]. unfold called. rewrite find_fn_app, consts_eq, H3, Hf. reflexivity.
  Qed.
  Lemma w_size : forall m s, w_call w ["."; "len"]%string [RTup [RInt U32 m]] s = (s, CRet [None] (RInt Usize (encset_len m))).
  Proof using Hc.
    intros m s. destruct (set_len_text c (encoding_world (L (6 + k)%nat)) Hc) as (f & Hf & H).
    rewrite (set_called _ f); [apply H|reflexivity|reflexivity|reflexivity|exact Hf].
  Qed.
  Lemma w_iter : forall m s, in_u 32 m -> w_call w ["."; "iter"]%string [RTup [RInt U32 m]] s = (s, CRet [None] (RList (map (fun z => RTup [RInt I32 z]) (encset_iter m)))).
  Proof using Type.
    intros m s Hm. destruct (set_iter_text c (encoding_world (L (6 + k)%nat)) (fun _ _ => eq_refl) (fun _ => eq_refl)) as (f & Hf & H).
    rewrite (set_called _ f); [apply H; exact Hm|reflexivity|reflexivity|reflexivity|exact Hf].
  Qed.
  Lemma by_write : forall R T, In (R, T) impl_types -> forall t, writes_as c write_all e w R (T t).
  Proof using Hc HL.
    pose proof (conj w_byte (conj w_i16 (conj w_i32 (conj w_i64 (conj w_double (conj w_binary (conj w_string (conj w_len (conj w_type (conj w_max (conj w_int (conj w_plain (conj w_size w_iter))))))))))))) as K.
    clearbody w. destruct K as (? & ? & ? & ? & ? & ? & ? & ? & ? & ? & ? & ? & ? & ?).
    intros R T HR t. unfold impl_types in HR. cbn [In] in HR.
    repeat (destruct HR as [HR|HR]; [injection HR as <- <-|]); [..|destruct HR].
    - eapply bool_write_text; eassumption.
    - eapply i8_write_text; eassumption.
    - eapply i16_write_text; eassumption.
    - eapply i32_write_text; eassumption.
    - eapply i64_write_text; eassumption.
    - eapply double_write_text; eassumption.
    - eapply bytes_write_text; eassumption.
    - eapply string_write_text; eassumption.
    - eapply cow_bytes_write_text; eassumption.
    - eapply cow_str_write_text; eassumption.
    - eapply vec_write_text; eassumption.
    - eapply option_write_text; eassumption.
    - eapply box_write_text; eassumption.
    - eapply rc_write_text; eassumption.
    - eapply arc_write_text; eassumption.
    - eapply box_str_write_text; eassumption.
    - eapply rc_str_write_text; eassumption.
    - eapply arc_str_write_text; eassumption.
    - eapply encset_write_text; eassumption.
  Qed.
End Write.

Section WriteModel.
  Context {W : Type}.
  Variable c : cfg.
  Hypothesis Hc : cfg_ok c.
  Variable write_all : list Z -> M W unit.
  Variable L : nat -> world value W.
  Hypothesis HL : text_writes write_all L.
  Variable E : env.
  Lemma each_items t e (He : writes_elem write_all E t e) vs : forall s, write_each (wr_plain e) vs s = write_items (map (fun v => writer write_all E v t) vs) s.
  Proof using Type.
    induction vs as [|v vs IH]; intros s; [reflexivity|]. cbn [write_each write_items map]. unfold bind. rewrite (we_plain _ _ _ _ He).
    destruct (wplain (writer write_all E v t) s) as [s1 [[]|er|p]]; [apply IH|reflexivity|reflexivity].
  Qed.
  Lemma by_writer R T : In (R, T) impl_types -> forall t e, writes_elem write_all E t e -> forall v rv s, held R v rv ->
    write_by write_all e (T t) v s = wplain (writer write_all E v (T t)) s.
  Proof using Type.
    intros HR t e He v rv s Hv. unfold impl_types in HR. cbn [In] in HR.
    repeat (destruct HR as [HR|HR]; [injection HR as <- <-; inversion Hv; subst; cbn [write_by writer wplain with_default]|]); [..|destruct HR]; try reflexivity; try apply (we_plain _ _ _ _ He).
    destruct (MAX_COLLECTION_LEN <? zlen vs); [reflexivity|]. rewrite (we_type _ _ _ _ He). unfold bind.
    destruct (write_list_header write_all (field_type E t) (zlen vs) s) as [s1 [[]|er|p]]; [apply (each_items t e He)|reflexivity|reflexivity].
  Qed.
  Lemma types_write : forall R T, In (R, T) impl_types -> forall k t e v rv s, writes_elem write_all E t e -> held R v rv -> mask_ok v ->
    exists f, impl_fn R "write_thrift" = Some f /\ run_fn c (writing_world c (L (6 + k)%nat) e) f [rv; RObj] s = written (wplain (writer write_all E v (T t)) s).
  Proof using Hc HL.
    intros R T HR k t e v rv s He Hv Hm. destruct (by_write c Hc write_all L HL k e R T HR t v rv s Hv Hm) as (f & Hf & H). exists f. split; [exact Hf|].
    rewrite H, (by_writer R T HR t e He v rv s Hv). reflexivity.
  Qed.
  Lemma types_write_field : forall R T, In (R, T) impl_types -> forall k t e v rv id last s, writes_elem write_all E t e -> held R v rv ->
    if field_methods (T t) then
      exists f, impl_fn R "write_thrift_field" = Some f /\
      exists r, run_fn c (writing_world c (L (6 + k)%nat) e) f [rv; RObj; RInt I16 id; RInt I16 last] s = written_field r /\ tells r (wfield (writer write_all E v (T t)) id last s)
    else impl_fn R "write_thrift_field" = None.
  Proof using HL.
    intros R T HR k t e v rv id last s He Hv. unfold impl_types in HR. cbn [In] in HR.
    repeat (destruct HR as [HR|HR]; [injection HR as <- <-; cbn [field_methods]; try (rewrite impl_fn_eq; reflexivity)|]); [| |destruct HR].
    - destruct (bool_wfield_text c write_all (writing_world c (L (6 + k)%nat) e) (w_header c write_all L HL k e)) as (f & Hf & H). exists f. split; [exact Hf|].
      inversion Hv; subst. apply H.
    - destruct (option_wfield_text c e (writing_world c (L (6 + k)%nat) e) (w_field c L k e)) as (f & Hf & H1 & H2). exists f. split; [exact Hf|].
      inversion Hv; subst; eexists; [split; [apply H1|reflexivity]|split; [apply H2|apply (we_field _ _ _ _ He)]].
  Qed.
  Lemma shaped_default t v : shaped E t v = true -> field_methods t = false -> forall id last,
    wfield (writer write_all E v t) id last = default_wfield write_all (field_type E t) (wplain (writer write_all E v t)) id last.
  Proof using Type.
    intros Hs Hf id last. destruct t; try discriminate Hf; destruct v; try discriminate Hs; try reflexivity; cbn [shaped] in Hs; cbn [writer];
      destruct (lookup E _) as [[?|?|]|]; try discriminate Hs; try reflexivity. destruct (nth_error _ _); [reflexivity|discriminate Hs].
  Qed.
  Lemma default_write_field : exists f, default_fn "write_thrift_field" = Some f /\ forall k t e v id last s, writes_elem write_all E t e ->
    shaped E t v = true -> field_methods t = false ->
    exists r, run_fn c (writing_world c (L (6 + k)%nat) e) f [RElem v; RObj; RInt I16 id; RInt I16 last] s = written_field r /\ tells r (wfield (writer write_all E v t) id last s).
  Proof using HL.
    assert (X : forall k e, exists f, default_fn "write_thrift_field" = Some f /\ forall v id last s, exists r,
      run_fn c (writing_world c (L (6 + k)%nat) e) f [RElem v; RObj; RInt I16 id; RInt I16 last] s = written_field r /\
      tells r (bind (write_field_header write_all (wr_type e) id last) (fun id' => wr_plain e v ;; ret id') s)).
    { intros k e. apply (default_wfield_text c write_all e _ (w_header c write_all L HL k e) (w_self c L k e) (w_plain c L k e)). }
    destruct (X 0%nat {| wr_type := 0; wr_plain := fun _ => ret tt; wr_field := fun _ _ last s => (s, last, Ok tt) |}) as (f & Hf & _). exists f. split; [exact Hf|].
    intros k t e v id last s He Hs Ht. destruct (X k e) as (f' & Hf' & H). rewrite Hf in Hf'. injection Hf' as <-.
    destruct (H v id last s) as (r & Hr & Htell). exists r. split; [exact Hr|]. rewrite (shaped_default t v Hs Ht). unfold default_wfield.
    rewrite (we_type _ _ _ _ He) in Htell. unfold bind in *. destruct (write_field_header write_all (field_type E t) id last s) as [s1 [l|er|p]]; try exact Htell.
    rewrite (we_plain _ _ _ _ He) in Htell. exact Htell.
  Qed.
End WriteModel.
