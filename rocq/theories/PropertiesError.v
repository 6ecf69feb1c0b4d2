(** Properties of error.rs, C53, C60, C85. *)
From Verif Require Import Base Utf8 Protocol Types Parquet SpecUtf8 ErrorName P_ErrorName SpecBlame P_Blame SpecErrorText P_ErrorText.

(** ** C53: names of missing fields. *)
Theorem C53_display : forall replaced s pre post, well_formed_utf8 (s ++ [0]) -> s ++ [0] = pre ++ 0 :: post -> ~ In 0 pre ->
  exists p, name_from_str (s ++ [0]) = Ok p /\ display_name replaced p = Ok pre.
Proof. exact display_str. Qed.
Print Assumptions C53_display.
Theorem C53_cstr : forall replaced s, ~ In 0 s -> display_name replaced (name_from_cstr s) = Ok (if utf8_valid s then s else replaced s).
Proof. exact display_cstr. Qed.
Print Assumptions C53_cstr.
Theorem C53_panics : forall s, (forall t, s <> t ++ [0]) -> name_from_str s = Panic PAssert.
Proof. exact from_str_panic. Qed.
Print Assumptions C53_panics.
(** No pointer that was constructed is read out of bounds. *)
Theorem C53_in_bounds : forall replaced p, (exists s, name_from_str s = Ok p) \/ (exists s, ~ In 0 s /\ p = name_from_cstr s) ->
  (exists t, display_name replaced p = Ok t) /\ (exists t, debug_name p = Ok t).
Proof. exact name_reads. Qed.
Print Assumptions C53_in_bounds.

Example C53_example : name_from_str (text "a::b") = Panic PAssert /\ name_from_str [] = Panic PAssert /\
  (exists p, name_from_str (text "a::b" ++ [0]) = Ok p /\ display_name (fun l => l) p = Ok (text "a::b")) /\
  (exists p, name_from_str [97; 0; 98; 0] = Ok p /\ display_name (fun l => l) p = Ok [97]) /\
  c_str (text "a::b") = Panic PUndefined /\ debug_name [97; 34; 200; 0] = Ok ([34; 97; 92; 34] ++ text "\xc8" ++ [34]).
Proof. repeat split; try reflexivity; eexists; split; reflexivity. Qed.

(** ** C60: errors print distinguishably. *)
Theorem C60_total : forall kind_name e, error_ok e -> exists s, display_error kind_name e = Ok s.
Proof. exact display_total. Qed.
Print Assumptions C60_total.
(** The text: [error_says] has one text for each error. *)
Theorem C60_text : forall kind_name e, error_ok e -> exists s, display_error kind_name e = Ok s /\ error_says kind_name e s.
Proof. exact display_says. Qed.
Print Assumptions C60_text.
Theorem C60_one_text : forall kind_name e a b, error_says kind_name e a -> error_says kind_name e b -> a = b.
Proof. exact says_one. Qed.
Print Assumptions C60_one_text.
Theorem C60_distinct : forall kind_name e1 e2, kinds_ok kind_name -> error_ok e1 -> error_ok e2 ->
  display_error kind_name e1 = display_error kind_name e2 -> e1 = e2.
Proof. exact display_inj. Qed.
Print Assumptions C60_distinct.
Theorem C60_parquet : forall kind_name n fs f, lookup parquet_env n = Some (DStruct fs) -> In f fs ->
  display_error kind_name (MissingField (n ++ "::" ++ f_name f)) = Ok (text "MissingField(" ++ [34] ++ text n ++ text "::" ++ text (f_name f) ++ [34; 41]).
Proof. exact parquet_names. Qed.
Print Assumptions C60_parquet.

Example C60_example : display_error (fun _ => []) (InvalidBinaryLen 16777217) = Ok (text "InvalidBinaryLen(16777217)") /\
  display_error (fun _ => []) (IO UnexpectedEof) = Ok (text "IO(UnexpectedEof)") /\
  display_error (fun _ => []) (MissingField "ColumnChunk::file_offset") = Ok (text "MissingField(" ++ [34] ++ text "ColumnChunk::file_offset" ++ [34; 41]) /\
  kinds_ok (fun n => repeat 65 n ++ [66]).
Proof. repeat (split; [vm_compute; reflexivity|]). exact sample_kinds. Qed.

(** ** C85: a decoding error says what it is about. *)
Theorem C85_slice : forall c E d t s s' e, read_thrift c (slice_input c) E d t s = (s', Err e) -> blamed E t e.
Proof. exact slice_blamed. Qed.
Print Assumptions C85_slice.
Theorem C85_reader : forall c E d t r r' e, read_thrift c (reader_input c) E d t r = (r', Err e) -> blamed E t e.
Proof. exact reader_blamed. Qed.
Print Assumptions C85_reader.
(** The claim is that a missing field names the struct and field, or the union; it holds for types without unions. *)
Theorem C85_names_partial : forall c E d t s s' m, ~ has_union E t ->
  read_thrift c (slice_input c) E d t s = (s', Err (MissingField m)) -> names_definition E t m.
Proof. exact slice_names. Qed.
Print Assumptions C85_names_partial.
Theorem C85_reader_names_partial : forall c E d t r r' m, ~ has_union E t ->
  read_thrift c (reader_input c) E d t r = (r', Err (MissingField m)) -> names_definition E t m.
Proof. exact reader_names. Qed.
Print Assumptions C85_reader_names_partial.
(** Every union reports an unknown variant under the same text, which is the name of no definition. *)
Theorem C85_union : forall S c (I : input S) E d n fs s s1 ft last dv, default E (Datatypes.S d) (TNamed n) = Some dv -> lookup E n = Some (DUnion fs) ->
  read_field_header c I 0 s = (s1, Ok (ft, last)) -> ft <> 0 -> find_field fs last = None ->
  read_thrift c I E (Datatypes.S d) (TNamed n) s = (s1, Err (MissingField "$struct_name")).
Proof. exact @union_blames. Qed.
Print Assumptions C85_union.
Theorem C85_names_refuted : forall c, exists s m, read_thrift c (slice_input c) parquet_env 20 (TNamed "LogicalType") s = ([], Err (MissingField m)) /\
  ~ names_definition parquet_env (TNamed "LogicalType") m.
Proof. exact logical_refuted. Qed.
Print Assumptions C85_names_refuted.
Theorem C85_parquet : forall c d t m, m <> "$struct_name" ->
  (exists s s', read_thrift c (slice_input c) parquet_env d t s = (s', Err (MissingField m))) \/ (exists r r', read_thrift c (reader_input c) parquet_env d t r = (r', Err (MissingField m))) ->
  exists n fs f, reaches parquet_env t n /\ lookup parquet_env n = Some (DStruct fs) /\ In f fs /\ f_req f = true /\ m = (n ++ "::" ++ f_name f)%string /\
    forall n' g, colonless n' -> m = (n' ++ "::" ++ g)%string -> n' = n /\ g = f_name f.
Proof. exact parquet_blame. Qed.
Print Assumptions C85_parquet.

Example C85_example : forall c, read_thrift c (slice_input c) parquet_env 20 (TNamed "KeyValue") [0] = ([], Err (MissingField "KeyValue::key")) /\
  ~ has_union parquet_env (TNamed "KeyValue") /\ has_union parquet_env (TNamed "SchemaElement") /\
  read_thrift c (slice_input c) parquet_env 20 (TNamed "LogicalType") [28; 0; 7] = ([], Err MissingStop).
Proof.
  intros c. split; [reflexivity|]. split; [exact key_value_plain|]. split; [|destruct c as [[] ? ? ?]; reflexivity].
  exists "LogicalType". eexists. split; [|reflexivity]. eapply (Rc_struct parquet_env "SchemaElement"); [reflexivity| |].
  - do 9 right. left. reflexivity.
  - constructor.
Qed.
