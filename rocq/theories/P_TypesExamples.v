(** Examples for C102. *)
From Verif Require Import Base Uleb Utf8 Protocol Encodings Types SpecInput TypesText EncodingsText RustSyntax RustEval RustProgram RustTypes SpecText SpecTextIO SpecTypesText P_TextAll P_TypesTable P_TypesWrite P_TypesAll.
Open Scope Z_scope.
Open Scope list_scope.

Lemma types_files :
  read_file types_rs_lines <> None /\ read_file encodings_rs_lines <> None /\
  map fst impls =
    [YApp "bool" []; YInt I8; YInt I16; YInt I32; YInt I64; YApp "f64" []; YApp "Vec" [YInt U8]; YApp "String" [];
     cow (YSlice (YInt U8)); cow (YApp "str" []); ypar "Vec"; ypar "Option"; ypar "Box"; ypar "Rc"; ypar "Arc";
     ystr "Box"; ystr "Rc"; ystr "Arc"; YApp "EncodingSet" []] /\
  map fst (filter (fun x => negb (Nat.eqb (List.length (fns_of true [] (snd x))) 2)) impls) = [YApp "bool" []; ypar "Option"].
Proof. rewrite types_file, encodings_file, impls_eq. split; [discriminate|]. split; [discriminate|]. split; vm_compute; reflexivity. Qed.

Lemma release_ok : cfg_ok release64.
Proof. split; [right; reflexivity|intros _; reflexivity]. Qed.
Lemma types_list :
  exists f, impl_fn (ypar "Vec") "fill_thrift" = Some f /\
    run_fn release64 (reading_world release64 (link release64 (slice_program true) (@slice_world value) 7) (elem release64 (slice_input release64) [] 1 TI32)) f [RList []; RObj] [37; 2; 4; 9] =
    ([9], CRet [Some (RList [RElem (VI32 1); RElem (VI32 2)]); Some RObj] (ROk (RTup []))).
Proof.
  destruct (types_fill release64 release_ok (slice_input release64) false bytes _ (slice_text release64 release_ok) [] (ypar "Vec") TVec ltac:(cbn; tauto) 0 1 TI32 (VVec []) (RList []) [37; 2; 4; 9] (held_vec [])) as (f & Hf & H).
  exists f. split; [exact Hf|].
  assert (K : fill release64 (slice_input release64) [] 2 (TVec TI32) (VVec []) [37; 2; 4; 9] = ([9], VVec [VI32 1; VI32 2], Ok tt)) by (vm_compute; reflexivity).
  rewrite K in H. destruct H as (rv & Hr & H). inversion Hr; subst. exact H.
Qed.
Lemma types_twice :
  exists f, impl_fn (ypar "Option") "fill_thrift" = Some f /\
    run_fn release64 (reading_world release64 (link release64 (slice_program true) (@slice_world value) 7) (elem release64 (slice_input release64) [] 1 TI32)) f [RSome (RElem (VI32 1)); RObj] [2] =
    ([2], CRet [Some (RSome (RElem (VI32 1))); Some RObj] (RErr (RError DuplicateField))).
Proof.
  destruct (types_fill release64 release_ok (slice_input release64) false bytes _ (slice_text release64 release_ok) [] (ypar "Option") TOption ltac:(cbn; tauto) 0 1 TI32 (VSome (VI32 1)) (RSome (RElem (VI32 1))) [2] (held_some _)) as (f & Hf & H).
  exists f. split; [exact Hf|]. cbn [fill] in H. destruct H as (rv & Hr & H). inversion Hr; subst. exact H.
Qed.
Lemma types_set :
  exists f, impl_fn (YApp "EncodingSet" []) "write_thrift" = Some f /\
    run_fn release64 (writing_world release64 (link release64 (writer_program true) (@writer_world value _ vec_write_all) 6)
      {| wr_type := 5; wr_plain := fun v => wplain (writer vec_write_all [] v TI32); wr_field := fun v id last s => (s, last, Panic PIllTyped) |}) f [RTup [RInt U32 9]; RObj] [] =
    ([37; 0; 6], CRet [None; Some RObj] (ROk (RTup []))).
Proof.
  set (e := {| wr_type := 5; wr_plain := fun v => wplain (writer vec_write_all [] v TI32); wr_field := fun (v : value) (id last : Z) s => (s, last, Panic PIllTyped) |}).
  destruct (by_write release64 release_ok vec_write_all _ (writer_text release64 true vec_write_all release_ok) 0 e (YApp "EncodingSet" []) (fun _ => TEncSet) ltac:(cbn; tauto) TI32 (VEncSet 9) _ [] (held_set 9)) as (f & Hf & H).
  { cbn. unfold in_u. lia. }
  exists f. split; [exact Hf|]. refine (eq_trans H _). vm_compute. reflexivity.
Qed.
