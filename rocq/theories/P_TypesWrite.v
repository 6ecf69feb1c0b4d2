(** Writing: types.rs and encodings.rs:12-31, 64-77 do what Types.v says. *)
From Verif Require Import Base Uleb Utf8 Protocol Encodings Types RustSyntax RustEval RustProgram RustTypes SpecText SpecTypesText P_Arith P_Write P_TextTable P_TextTac P_TypesTable.
Open Scope Z_scope.
Open Scope list_scope.

(** [writer] of the built-in types without the recursion *)
Fixpoint write_each {W} (m : value -> M W unit) (vs : list value) : M W unit :=
  match vs with [] => ret tt | v :: vs' => m v ;; write_each m vs' end.
Definition write_by {W} (write_all : list Z -> M W unit) (e : writing W) (t : ty) (v : value) : M W unit :=
  match v, t with
  | VBool b, TBool => write_byte write_all (1 + (if b then 0 else 1))
  | VI8 z, TI8 => write_byte write_all (wrapu 8 z)
  | VI16 z, TI16 => write_i16 write_all z
  | VI32 z, TI32 => write_i32 write_all z
  | VI64 z, TI64 => write_i64 write_all z
  | VDouble z, TDouble => write_double write_all z
  | VBin l, TBinary => write_binary write_all l
  | VStr l, TString => write_string write_all l
  | VVec vs, TVec _ =>
      if MAX_COLLECTION_LEN <? zlen vs then fail InvalidCollectionLen
      else write_list_header write_all (wr_type e) (zlen vs) ;; write_each (wr_plain e) vs
  | VNone, TOption _ => fail MissingValue
  | VSome w, TOption _ => wr_plain e w
  | VBox w, TBox _ => wr_plain e w
  | VShared _ w, TShared _ => wr_plain e w
  | VEncSet m, TEncSet => encset_write write_all m
  | _, _ => crash PIllTyped
  end.

Section Write.
  Context {W : Type}.
  Variable c : cfg.
  Variable write_all : list Z -> M W unit.
  Variable e : writing W.
  Variable w : world value W.
  Hypothesis Hbyte : forall b s, w_call w ["."; "write_byte"]%string [RObj; RInt U8 b] s = method 1 (fun _ => RTup []) (write_byte write_all b s).
  Hypothesis Hlen : forall n s, w_call w ["."; "write_len"]%string [RObj; RInt Usize n] s = method 1 (fun _ => RTup []) (write_len write_all n s).
  Hypothesis Hi16 : forall i s, w_call w ["."; "write_i16"]%string [RObj; RInt I16 i] s = method 1 (fun _ => RTup []) (write_i16 write_all i s).
  Hypothesis Hi32 : forall i s, w_call w ["."; "write_i32"]%string [RObj; RInt I32 i] s = method 1 (fun _ => RTup []) (write_i32 write_all i s).
  Hypothesis Hi64 : forall i s, w_call w ["."; "write_i64"]%string [RObj; RInt I64 i] s = method 1 (fun _ => RTup []) (write_i64 write_all i s).
  Hypothesis Hdouble : forall z s, w_call w ["."; "write_double"]%string [RObj; RDouble z] s = method 1 (fun _ => RTup []) (write_double write_all z s).
  Hypothesis Hbinary : forall l s, w_call w ["."; "write_binary"]%string [RObj; RBytes l] s = method 1 (fun _ => RTup []) (write_binary write_all l s).
  Hypothesis Hstring : forall l s, w_call w ["."; "write_string"]%string [RObj; RBytes l] s = method 1 (fun _ => RTup []) (write_string write_all l s).
  Hypothesis Hheader : forall t id last s, w_call w ["write_field_header"]%string [RObj; RInt U8 t; RInt I16 id; RInt I16 last] s =
    gives (fun id' => [Some RObj; None; None; Some (RInt I16 id')]) (fun _ => RTup []) (write_field_header write_all t id last s) [Some RObj; None; None; Some (RInt I16 last)].
  Hypothesis Hmax : forall s, w_call w ["MAX_COLLECTION_LEN"]%string [] s = (s, CRet [] (RInt Usize MAX_COLLECTION_LEN)).
  Hypothesis Htype : forall s, w_call w ["P"; "FIELD_TYPE"]%string [] s = (s, CRet [] (RInt U8 (wr_type e))).
  Hypothesis Hself : forall s, w_call w ["Self"; "FIELD_TYPE"]%string [] s = (s, CRet [] (RInt U8 (wr_type e))).
  Hypothesis Hint : forall s, w_call w ["i32"; "FIELD_TYPE"]%string [] s = (s, CRet [] (RInt U8 5)).
  Hypothesis Hplain : forall v s, w_call w ["."; "write_thrift"]%string [RElem v; RObj] s = written (wr_plain e v s).
  Hypothesis Hfield : forall v id last s, w_call w ["."; "write_thrift_field"]%string [RElem v; RObj; RInt I16 id; RInt I16 last] s = written_field (wr_field e v id last s).
  Hypothesis Hsize : forall m s, w_call w ["."; "len"]%string [RTup [RInt U32 m]] s = (s, CRet [None] (RInt Usize (encset_len m))).
  Hypothesis Hiter : forall m s, in_u 32 m -> w_call w ["."; "iter"]%string [RTup [RInt U32 m]] s = (s, CRet [None] (RList (map (fun z => RTup [RInt I32 z]) (encset_iter m)))).

  Definition writes_as (R : rtype) (t : ty) : Prop := forall v rv s, held R v rv -> mask_ok v ->
    exists f, impl_fn R "write_thrift" = Some f /\ run_fn c w f [rv; RObj] s = written (write_by write_all e t v s).
  Ltac start :=
    let v := fresh "v" in let rv := fresh "rv" in let s := fresh "s" in let H := fresh "H" in let Hm := fresh "Hm" in
    intros v rv s H Hm; inversion H; subst; eexists; (split; [rewrite impl_fn_eq; vm_compute; reflexivity|]);
    cbn [write_by]; unfold run_fn; text.
  Ltac scalar H := rewrite H; unfold written; match goal with |- context [?m ?s] => match type of m with M W unit => destruct (m s) as [s1 [[]|er|p]] end end; text; reflexivity.

  Lemma i8_write_text : writes_as (YInt I8) TI8.
  Proof using Hbyte. start. scalar Hbyte. Qed.
  Lemma i16_write_text : writes_as (YInt I16) TI16.
  Proof using Hi16. start. scalar Hi16. Qed.
  Lemma i32_write_text : writes_as (YInt I32) TI32.
  Proof using Hi32. start. scalar Hi32. Qed.
  Lemma i64_write_text : writes_as (YInt I64) TI64.
  Proof using Hi64. start. scalar Hi64. Qed.
  Lemma double_write_text : writes_as (YApp "f64" []) TDouble.
  Proof using Hdouble. start. scalar Hdouble. Qed.
  Lemma bytes_write_text : writes_as (YApp "Vec" [YInt U8]) TBinary.
  Proof using Hbinary. start. scalar Hbinary. Qed.
  Lemma string_write_text : writes_as (YApp "String" []) TString.
  Proof using Hstring. start. scalar Hstring. Qed.
  Lemma cow_bytes_write_text : writes_as (cow (YSlice (YInt U8))) TBinary.
  Proof using Hbinary. start. scalar Hbinary. Qed.
  Lemma cow_str_write_text : writes_as (cow (YApp "str" [])) TString.
  Proof using Hstring. start. scalar Hstring. Qed.
  Lemma box_str_write_text : writes_as (ystr "Box") TString.
  Proof using Hstring. start. scalar Hstring. Qed.
  Lemma rc_str_write_text : writes_as (ystr "Rc") TString.
  Proof using Hstring. start. scalar Hstring. Qed.
  Lemma arc_str_write_text : writes_as (ystr "Arc") TString.
  Proof using Hstring. start. scalar Hstring. Qed.
  Lemma bool_write_text : writes_as (YApp "bool" []) TBool.
  Proof using Hbyte.
    start. destruct b; text; unfold checked; (replace (fits c U8 _) with true by reflexivity); text; scalar Hbyte.
  Qed.
  Ltac plain := rewrite Hplain; unfold written; match goal with |- context [wr_plain e ?v ?s] => destruct (wr_plain e v s) as [s1 [[]|er|p]] end; text; reflexivity.
  Lemma box_write_text t : writes_as (ypar "Box") (TBox t).
  Proof using Hplain. start. plain. Qed.
  Lemma rc_write_text t : writes_as (ypar "Rc") (TShared t).
  Proof using Hplain. start. plain. Qed.
  Lemma arc_write_text t : writes_as (ypar "Arc") (TShared t).
  Proof using Hplain. start. plain. Qed.
  Lemma option_write_text t : writes_as (ypar "Option") (TOption t).
  Proof using Hplain. start; [reflexivity|plain]. Qed.

  Ltac hide_each B EB := match goal with |- context [XClosure (PName _) ?b] => remember b as B eqn:EB end.
  Lemma vec_write_text t : writes_as (ypar "Vec") (TVec t).
  Proof using Hbyte Hlen Hmax Htype Hplain.
    intros v rv s H Hm; inversion H; subst; eexists; (split; [rewrite impl_fn_eq; vm_compute; reflexivity|]).
    cbn [write_by]. unfold run_fn. cbn [fn_body fn_params fn_ret]. hide_each B EB. text.
    rewrite Hmax. text. replace (zlen (map RElem vs)) with (zlen vs) by (unfold zlen; rewrite map_length; reflexivity).
    destruct (MAX_COLLECTION_LEN <? zlen vs); text; [reflexivity|]. unfold write_list_header.
    assert (L : forall us r0 r1 s, let r := [("len"%string, r0); ("self"%string, r1); ("output"%string, RObj)] in
      each_ok (map RElem us) (fun v => with_pat (PName "value") v (eval c w B)) r s =
      match write_each (wr_plain e) us s with
      | (s', Ok _) => (s', r, Val (ROk RUnit))
      | (s', Err er) => (s', r, Val (RErr (RError er)))
      | (s', Panic p) => (s', r, Pan p)
      end).
    { clear - Hplain EB. induction us as [|u us IH]; intros r0 r1 s r; subst r; [reflexivity|]. cbn [map each_ok write_each].
      assert (Hbody : with_pat (PName "value") (RElem u) (eval c w B) [("len"%string, r0); ("self"%string, r1); ("output"%string, RObj)] s =
        match wr_plain e u s with
        | (s', Ok _) => (s', [("len"%string, r0); ("self"%string, r1); ("output"%string, RObj)], Val (ROk RUnit))
        | (s', Err er) => (s', [("len"%string, r0); ("self"%string, r1); ("output"%string, RObj)], Val (RErr (RError er)))
        | (s', Panic p) => (s', [("len"%string, r0); ("self"%string, r1); ("output"%string, RObj)], Pan p)
        end).
      { rewrite EB. unfold with_pat. text. rewrite Hplain. unfold written. destruct (wr_plain e u s) as [s1 [[]|er|p]]; text; reflexivity. }
      unfold bindE, bind. rewrite Hbody. destruct (wr_plain e u s) as [s1 [[]|er|p]]; try reflexivity. apply IH. }
    destruct (zlen vs <? 15); text; rewrite Htype; text.
    - rewrite Hbyte. text. destruct (write_byte write_all (Z.lor (wr_type e) (wrapu 8 (Z.shiftl (wrapu 8 (zlen vs)) 4))) s) as [s1 [[]|er|p]]; text; try reflexivity.
      rewrite L. destruct (write_each (wr_plain e) vs s1) as [s2 [[]|er|p]]; text; reflexivity.
    - rewrite Hbyte. text. destruct (write_byte write_all (Z.lor (wr_type e) 240) s) as [s1 [[]|er|p]]; text; try reflexivity.
      rewrite Hlen. text. destruct (write_len write_all (zlen vs) s1) as [s2 [[]|er|p]]; text; try reflexivity.
      rewrite L. destruct (write_each (wr_plain e) vs s2) as [s3 [[]|er|p]]; text; reflexivity.
  Qed.
  Ltac hide_for B EB := match goal with |- context [XFor _ _ ?b] => remember b as B eqn:EB end.
  Lemma encset_write_text : writes_as (YApp "EncodingSet" []) TEncSet.
  Proof using Hbyte Hlen Hi32 Hint Hsize Hiter.
    intros v rv s H Hm; inversion H; subst; eexists; (split; [rewrite impl_fn_eq; vm_compute; reflexivity|]).
    cbn [write_by]. unfold run_fn. cbn [fn_body fn_params fn_ret]. hide_for B EB. text.
    rewrite Hsize. unfold encset_write. pose proof (fun s => Hiter m s Hm) as Hit. remember (encset_len m) as n. remember (encset_iter m) as zm. text.
    assert (L : forall zs s, let r := [("len"%string, RInt Usize n); ("self"%string, RTup [RInt U32 m]); ("output"%string, RObj)] in
      each (map (fun z => RTup [RInt I32 z]) zs) (fun v => with_pat (PName "item") v (eval c w B)) r s =
      match write_i32s write_all zs s with
      | (s', Ok _) => (s', r, Val RUnit)
      | (s', Err er) => (s', r, Rtn (RErr (RError er)))
      | (s', Panic p) => (s', r, Pan p)
      end).
    { clear - Hi32 EB. induction zs as [|z zs IH]; intros s r; subst r; [reflexivity|]. cbn [map each write_i32s].
      assert (Hbody : with_pat (PName "item") (RTup [RInt I32 z]) (eval c w B) [("len"%string, RInt Usize n); ("self"%string, RTup [RInt U32 m]); ("output"%string, RObj)] s =
        match write_i32 write_all z s with
        | (s', Ok _) => (s', [("len"%string, RInt Usize n); ("self"%string, RTup [RInt U32 m]); ("output"%string, RObj)], Val RUnit)
        | (s', Err er) => (s', [("len"%string, RInt Usize n); ("self"%string, RTup [RInt U32 m]); ("output"%string, RObj)], Rtn (RErr (RError er)))
        | (s', Panic p) => (s', [("len"%string, RInt Usize n); ("self"%string, RTup [RInt U32 m]); ("output"%string, RObj)], Pan p)
        end).
      { rewrite EB. unfold with_pat. text. rewrite Hi32. destruct (write_i32 write_all z s) as [s1 [[]|er|p]]; text; reflexivity. }
      unfold bindE, bind. rewrite Hbody. destruct (write_i32 write_all z s) as [s1 [[]|er|p]]; try reflexivity. apply IH. }
    destruct (n <? 15); text; rewrite Hint; text.
    - rewrite Hbyte. text. destruct (write_byte write_all (Z.lor 5 (wrapu 8 (Z.shiftl (wrapu 8 n) 4))) s) as [s1 [[]|er|p]]; text; try reflexivity.
      rewrite Hit. text. unfold stop_loop. rewrite L. destruct (write_i32s write_all zm s1) as [s2 [[]|er|p]]; text; reflexivity.
    - rewrite Hbyte. text. destruct (write_byte write_all (Z.lor 5 240) s) as [s1 [[]|er|p]]; text; try reflexivity.
      rewrite Hlen. text. destruct (write_len write_all n s1) as [s2 [[]|er|p]]; text; try reflexivity.
      rewrite Hit. text. unfold stop_loop. rewrite L. destruct (write_i32s write_all zm s2) as [s3 [[]|er|p]]; text; reflexivity.
  Qed.
End Write.
