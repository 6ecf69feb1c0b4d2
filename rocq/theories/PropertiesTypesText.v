(** Property theorems C102: the text of types.rs and of encodings.rs does what Types.v and Encodings.v say. *)
From Verif Require Import Base Uleb Utf8 Protocol Encodings Types SpecInput TypesText EncodingsText RustSyntax RustEval RustProgram RustTypes SpecText SpecTextIO SpecTypesText P_TextAll P_TypesTable P_TypesAll P_TypesExamples.
Open Scope Z_scope.
Open Scope list_scope.

(** [fill_thrift] of every implementation, for elements of any type of the model *)
Theorem C102_fill : forall S c, cfg_ok c -> forall (I : input S) own inv (L : nat -> world value S), text_reads c I own inv L ->
  forall E R T, In (R, T) impl_types -> forall k d t v rv s, held R v rv ->
    exists f, impl_fn R "fill_thrift" = Some f /\
    let '(s', v', o) := fill c I E (Datatypes.S d) (T t) v s in
    exists rv', held R v' rv' /\ run_fn c (reading_world c (L (7 + k)%nat) (elem c I E d t)) f [rv; RObj] s = filled 0 rv' (s', o).
Proof. exact @types_fill. Qed.
Print Assumptions C102_fill.
(** [fill_thrift_field] of bool and Option; the others do not have it *)
Theorem C102_fill_field : forall S c (I : input S) (L : nat -> world value S) E R T, In (R, T) impl_types -> forall k d t v rv ft s, held R v rv ->
  if field_methods (T t) then
    exists f, impl_fn R "fill_thrift_field" = Some f /\
    let '(s', v', o) := fill_field c I E (Datatypes.S d) (T t) ft v s in
    exists rv', held R v' rv' /\ run_fn c (reading_world c (L (7 + k)%nat) (elem c I E d t)) f [rv; RObj; RInt U8 ft] s = filled 1 rv' (s', o)
  else impl_fn R "fill_thrift_field" = None.
Proof. exact @types_fill_field. Qed.
Print Assumptions C102_fill_field.
(** The methods the trait has a body for *)
Theorem C102_default_fill_field : forall S c (I : input S) (L : nat -> world value S) E,
  exists f, default_fn "fill_thrift_field" = Some f /\ forall k d t v ft s, field_methods t = false ->
    run_fn c (reading_world c (L (7 + k)%nat) (elem c I E d t)) f [RElem v; RObj; RInt U8 ft] s = filled_elem 1 (fill_field c I E (Datatypes.S d) t ft v s).
Proof. exact @default_fill_field. Qed.
Print Assumptions C102_default_fill_field.
Theorem C102_read : forall S c (I : input S) (L : nat -> world value S) E,
  exists f, default_fn "read_thrift" = Some f /\ forall k d t s,
    run_fn c (reading_world c (L (7 + k)%nat) (elem c I E d t)) f [RObj] s = method 0 RElem (read_thrift c I E d t s).
Proof. exact @default_read. Qed.
Print Assumptions C102_read.
(** [FIELD_TYPE] *)
Theorem C102_field_type : forall S c (I : input S) (L : nat -> world value S) E R T, In (R, T) impl_types ->
  exists f, impl_const R = Some f /\ forall k d t s,
    run_fn c (reading_world c (L (7 + k)%nat) (elem c I E d t)) f [] s = (s, CRet [] (RInt U8 (field_type E (T t)))).
Proof. exact @types_const. Qed.
Print Assumptions C102_field_type.
(** [write_thrift] of every implementation *)
Theorem C102_write : forall W c, cfg_ok c -> forall (write_all : list Z -> M W unit) (L : nat -> world value W), text_writes write_all L ->
  forall E R T, In (R, T) impl_types -> forall k t e v rv s, writes_elem write_all E t e -> held R v rv -> mask_ok v ->
    exists f, impl_fn R "write_thrift" = Some f /\
    run_fn c (writing_world c (L (6 + k)%nat) e) f [rv; RObj] s = written (wplain (writer write_all E v (T t)) s).
Proof. exact @types_write. Qed.
Print Assumptions C102_write.
(** [write_thrift_field] of bool and Option *)
Theorem C102_write_field : forall W c (write_all : list Z -> M W unit) (L : nat -> world value W), text_writes write_all L ->
  forall E R T, In (R, T) impl_types -> forall k t e v rv id last s, writes_elem write_all E t e -> held R v rv ->
  if field_methods (T t) then
    exists f, impl_fn R "write_thrift_field" = Some f /\
    exists r, run_fn c (writing_world c (L (6 + k)%nat) e) f [rv; RObj; RInt I16 id; RInt I16 last] s = written_field r /\
      tells r (wfield (writer write_all E v (T t)) id last s)
  else impl_fn R "write_thrift_field" = None.
Proof. exact @types_write_field. Qed.
Print Assumptions C102_write_field.
(** and that of the trait *)
Theorem C102_default_write_field : forall W c (write_all : list Z -> M W unit) (L : nat -> world value W), text_writes write_all L ->
  forall E, exists f, default_fn "write_thrift_field" = Some f /\ forall k t e v id last s, writes_elem write_all E t e ->
    shaped E t v = true -> field_methods t = false ->
    exists r, run_fn c (writing_world c (L (6 + k)%nat) e) f [RElem v; RObj; RInt I16 id; RInt I16 last] s = written_field r /\
      tells r (wfield (writer write_all E v t) id last s).
Proof. exact @default_write_field. Qed.
Print Assumptions C102_default_write_field.

(** The files can be read; these are the implementations, and those that have methods for fields. *)
Example C102_files :
  read_file types_rs_lines <> None /\ read_file encodings_rs_lines <> None /\
  map fst impls =
    [YApp "bool" []; YInt I8; YInt I16; YInt I32; YInt I64; YApp "f64" []; YApp "Vec" [YInt U8]; YApp "String" [];
     cow (YSlice (YInt U8)); cow (YApp "str" []); ypar "Vec"; ypar "Option"; ypar "Box"; ypar "Rc"; ypar "Arc";
     ystr "Box"; ystr "Rc"; ystr "Arc"; YApp "EncodingSet" []] /\
  map fst (filter (fun x => negb (Nat.eqb (List.length (fns_of true [] (snd x))) 2)) impls) = [YApp "bool" []; ypar "Option"].
Proof. exact types_files. Qed.
(** A list of two numbers from a slice; and an option that is there already *)
Example C102_list :
  exists f, impl_fn (ypar "Vec") "fill_thrift" = Some f /\
    run_fn release64 (reading_world release64 (link release64 (slice_program true) (@slice_world value) 7) (elem release64 (slice_input release64) [] 1 TI32)) f [RList []; RObj] [37; 2; 4; 9] =
    ([9], CRet [Some (RList [RElem (VI32 1); RElem (VI32 2)]); Some RObj] (ROk (RTup []))).
Proof. exact types_list. Qed.
Example C102_twice :
  exists f, impl_fn (ypar "Option") "fill_thrift" = Some f /\
    run_fn release64 (reading_world release64 (link release64 (slice_program true) (@slice_world value) 7) (elem release64 (slice_input release64) [] 1 TI32)) f [RSome (RElem (VI32 1)); RObj] [2] =
    ([2], CRet [Some (RSome (RElem (VI32 1))); Some RObj] (RErr (RError DuplicateField))).
Proof. exact types_twice. Qed.
(** A set of encodings to a vector *)
Example C102_set :
  exists f, impl_fn (YApp "EncodingSet" []) "write_thrift" = Some f /\
    run_fn release64 (writing_world release64 (link release64 (writer_program true) (@writer_world value _ vec_write_all) 6)
      {| wr_type := 5; wr_plain := fun v => wplain (writer vec_write_all [] v TI32); wr_field := fun v id last s => (s, last, Panic PIllTyped) |}) f [RTup [RInt U32 9]; RObj] [] =
    ([37; 0; 6], CRet [None; Some RObj] (ROk (RTup []))).
Proof. exact types_set. Qed.
