(** C97, C98: the methods as they are written, statement by statement. *)
From Verif Require Import Base ErrorName Parquet SpecInput Protocol Types SchemaPrint Generator SpecGenerator SpecPrint SpecGenText RustCode GenCode SpecCode P_RustCode P_GenCode.
Open Scope Z_scope.
Open Scope list_scope.

(** ** C97: the statements that the macros expand to, executed one after another, do what the modelled methods do:
    same input consumed, same value left in [self], same result, same output.  The names of the fields of a struct
    and of the variants of a union are different (the compiler demands it). *)
Theorem C97_struct_fill : forall S c (I : input S) E d n fs vs s, lookup E n = Some (DStruct fs) -> NoDup (map f_name fs) ->
  fill c I E (Datatypes.S d) (TNamed n) (VStruct vs) s =
  method fs (default E d) (run_read fs c I (fill c I E d) (fill_field c I E d) (fun ft => skip_field c I d ft false)) (Datatypes.S (in_left I s)) (struct_fill_code n fs) (VStruct vs) s.
Proof. exact (@fill_struct_code). Qed.
Print Assumptions C97_struct_fill.

Theorem C97_union_fill : forall S c (I : input S) E d n fs v s fuel, lookup E n = Some (DUnion fs) -> NoDup (map f_name fs) ->
  fill c I E (Datatypes.S d) (TNamed n) v s =
  method fs (default E d) (run_read fs c I (fill c I E d) (fill_field c I E d) (fun ft => skip_field c I d ft false)) fuel (union_fill_code fs) v s.
Proof. exact (@fill_union_code). Qed.
Print Assumptions C97_union_fill.

Theorem C97_enum_fill : forall S c (I : input S) E d n v s fuel default1 fill1 fill_field1 skip1, lookup E n = Some DEnum ->
  fill c I E (Datatypes.S d) (TNamed n) v s = method [] default1 (run_read [] c I fill1 fill_field1 skip1) fuel enum_fill_code v s.
Proof. exact (@fill_enum_code). Qed.
Print Assumptions C97_enum_fill.

Theorem C97_struct_write : forall W (write_all : list Z -> M W unit) E n fs vs s fuel default1,
  lookup E n = Some (DStruct fs) -> NoDup (map f_name fs) -> List.length vs = List.length fs ->
  method fs default1 (run_write fs write_all (write_thrift_field write_all E)) fuel (struct_write_code fs) (VStruct vs) s =
  match write_thrift write_all E (TNamed n) (VStruct vs) s with (s', o) => (s', VStruct vs, o) end.
Proof. exact (@write_struct_code). Qed.
Print Assumptions C97_struct_write.

Theorem C97_union_write : forall W (write_all : list Z -> M W unit) E n fs i w f s fuel default1,
  lookup E n = Some (DUnion fs) -> NoDup (map f_name fs) -> nth_error fs i = Some f ->
  method fs default1 (run_write fs write_all (write_thrift_field write_all E)) fuel (union_write_code fs) (VUnion i w) s =
  match write_thrift write_all E (TNamed n) (VUnion i w) s with (s', o) => (s', VUnion i w, o) end.
Proof. exact (@write_union_code). Qed.
Print Assumptions C97_union_write.

Theorem C97_enum_write : forall W (write_all : list Z -> M W unit) E n z s fuel default1 write_field1, lookup E n = Some DEnum ->
  method [] default1 (run_write [] write_all write_field1) fuel enum_write_code (VI32 z) s =
  match write_thrift write_all E (TNamed n) (VI32 z) s with (s', o) => (s', VI32 z, o) end.
Proof. exact (@write_enum_code). Qed.
Print Assumptions C97_enum_write.

(** Every definition of parquet/src/format.rs meets the conditions. *)
Example C97_parquet : Forall (fun nd => match snd nd with DStruct fs | DUnion fs => NoDup (map f_name fs) | DEnum => True end) parquet_env.
Proof. exact parquet_field_names. Qed.
(** The code run on the bytes of a data page header with an unknown field. *)
Example C97_runs : exists fs, lookup parquet_env "DataPageHeader" = Some (DStruct fs) /\
  method fs (default parquet_env 9) (run_read fs release64 (slice_input release64) (fill release64 (slice_input release64) parquet_env 9) (fill_field release64 (slice_input release64) parquet_env 9) (fun ft => skip_field release64 (slice_input release64) 9 ft false))
    20 (struct_fill_code "DataPageHeader" fs) (VStruct [VI32 0; VI32 0; VI32 0; VI32 0; VNone]) [21; 8; 21; 2; 21; 4; 21; 6; 67; 77; 0; 99] =
  ([99], VStruct [VI32 4; VI32 1; VI32 2; VI32 3; VNone], Ok tt).
Proof. eexists. split; [reflexivity|]. vm_compute. reflexivity. Qed.

(** ** C98: the statements that the generator writes do what the macros' do.  [num] writes numbers in decimal. *)
Theorem C98_struct_text : forall num, (forall z, signed_numeral z (num z)) -> forall doc n gs ls, prints doc (n, StructDef gs) ls ->
  exists before, ls = before ++ [fill_line] ++ body_lines num (gen_struct_fill n gs) ++ [text "}"; write_line] ++ body_lines num (gen_struct_write gs) ++ [text "}"; text "}"].
Proof. exact struct_prints. Qed.
Print Assumptions C98_struct_text.

Theorem C98_union_text : forall num, (forall z, signed_numeral z (num z)) -> forall doc n gs ls, prints doc (n, UnionDef gs) ls ->
  exists before w1 w2, gen_union_write gs = w1 ++ w2 /\
    ls = before ++ [fill_line] ++ body_lines num (gen_union_fill n gs) ++ [text "}"; write_line] ++ body_lines num w1 ++ [text "// STOP"] ++ body_lines num w2 ++ [text "}"; text "}"].
Proof. exact union_prints. Qed.
Print Assumptions C98_union_text.

Theorem C98_enum_text : forall num doc n cs ls, prints doc (n, EnumDef cs) ls ->
  exists before, ls = before ++ [fill_line] ++ body_lines num gen_enum_fill ++ [text "}"; text "#[inline]"; write_line] ++ body_lines num gen_enum_write ++ [text "}"; text "}"].
Proof. exact enum_prints. Qed.
Print Assumptions C98_enum_text.

Theorem C98_struct_fill : forall S c (I : input S) E d n gs fs vs s, lookup E n = Some (DStruct fs) -> Forall2 same_field gs fs -> NoDup (map g_name gs) ->
  method fs (default E d) (run_read fs c I (fill c I E d) (fill_field c I E d) (fun ft => skip_field c I d ft false)) (Datatypes.S (in_left I s)) (gen_struct_fill n gs) (VStruct vs) s =
  fill c I E (Datatypes.S d) (TNamed n) (VStruct vs) s.
Proof. exact (@gen_fill_struct). Qed.
Print Assumptions C98_struct_fill.

Theorem C98_struct_write : forall W (write_all : list Z -> M W unit) E n gs fs vs s fuel default1,
  lookup E n = Some (DStruct fs) -> Forall2 same_field gs fs -> NoDup (map g_name gs) -> List.length vs = List.length fs ->
  method fs default1 (run_write fs write_all (write_thrift_field write_all E)) fuel (gen_struct_write gs) (VStruct vs) s =
  match write_thrift write_all E (TNamed n) (VStruct vs) s with (s', o) => (s', VStruct vs, o) end.
Proof. exact (@gen_write_struct). Qed.
Print Assumptions C98_struct_write.

(** The full claim has the same outcome in all cases; the generator names the union where the macro says
    [$struct_name]. *)
Theorem C98_union_fill_partial : forall S c (I : input S) E d n gs fs v s fuel, lookup E n = Some (DUnion fs) -> Forall2 same_variant gs fs -> NoDup (map g_name gs) ->
  exists s' v' o o',
    method fs (default E d) (run_read fs c I (fill c I E d) (fill_field c I E d) (fun ft => skip_field c I d ft false)) fuel (gen_union_fill n gs) v s = (s', v', o) /\
    fill c I E (Datatypes.S d) (TNamed n) v s = (s', v', o') /\
    (o = o' \/ o = Err (MissingField n) /\ o' = Err (MissingField "$struct_name")).
Proof. exact (@gen_fill_union). Qed.
Print Assumptions C98_union_fill_partial.

Theorem C98_union_write : forall W (write_all : list Z -> M W unit) E n gs fs i w s fuel default1,
  lookup E n = Some (DUnion fs) -> Forall2 same_variant gs fs -> NoDup (map g_name gs) -> (i < List.length fs)%nat ->
  method fs default1 (run_write fs write_all (write_thrift_field write_all E)) fuel (gen_union_write gs) (VUnion i w) s =
  match write_thrift write_all E (TNamed n) (VUnion i w) s with (s', o) => (s', VUnion i w, o) end.
Proof. exact (@gen_write_union). Qed.
Print Assumptions C98_union_write.

Theorem C98_enum : gen_enum_fill = enum_fill_code /\ gen_enum_write = enum_write_code.
Proof. exact (conj eq_refl eq_refl). Qed.
Print Assumptions C98_enum.

Theorem C98_union_fill_refuted : exists fs gs s,
  lookup parquet_env "BloomFilterHash" = Some (DUnion fs) /\ Forall2 same_variant gs fs /\
  let skip1 := fun ft => skip_field release64 (slice_input release64) 9 ft false in
  let read := run_read fs release64 (slice_input release64) (fill release64 (slice_input release64) parquet_env 9) (fill_field release64 (slice_input release64) parquet_env 9) skip1 in
  snd (method fs (default parquet_env 9) read 9 (gen_union_fill "BloomFilterHash" gs) (VUnion 0 (VStruct [])) s) <>
  snd (method fs (default parquet_env 9) read 9 (union_fill_code fs) (VUnion 0 (VStruct [])) s).
Proof. exact union_name. Qed.
Print Assumptions C98_union_fill_refuted.

(** One required field with a name that is a keyword: the statements that read it, as text. *)
Example C98_small : body_lines signed (gen_struct_fill "S" [{| g_id := 3; g_req := REQUIRED; g_name := "type"; g_type := Generator.Base I32 |}]) = map text
  ["let mut r#type_set_: bool = false;"; "let mut last_field_id = 0_i16;"; "loop {"; "let field_type = input.read_field_header(&mut last_field_id)?;"; "if field_type == 0 {"; "break;"; "}";
   "match last_field_id {"; "3 => {"; "r#type_set_ = true;"; "self.r#type.fill_field(input, field_type)?;"; "}"; "_ => {"; "input.skip_field(field_type)?;"; "}"; "}"; "}";
   "if !r#type_set_ {"; "return Err(ThriftError::MissingField(c""S::type"".into()))"; "}"; "Ok(())"]%string.
Proof. reflexivity. Qed.
Example C98_numbers : forall z, signed_numeral z (signed z).
Proof. exact P_Print.signed_numeral_ok. Qed.
