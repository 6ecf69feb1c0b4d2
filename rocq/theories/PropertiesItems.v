(** Property theorems C93 and C94: enum constants and constructors. *)
From Verif Require Import Base ErrorName Uleb Protocol Types Macro Items Equality Generator ParquetIdl FormatRs SpecCompact SpecInput SpecRust SpecBoth SpecItems Schema Typing RustLex RustMacro P_Idl P_Items.
Open Scope Z_scope.

(** ** C93: the constant [n::k] of an enum declared with [thrift!] has the declared value, is
    written as the shortest encoding of that number and read back from it; there are no other
    constants. *)
Theorem C93_constant : forall c ds g E n cs k z d, cfg_ok c -> declarations ds g -> distinct ds -> expand_all ds = Some E ->
  In (n, MEnum cs) ds -> In (k, z) cs -> (1 <= d)%nat ->
  constant_value ds n k = Some (VI32 z) /\ typed E (TNamed n) (VI32 z) /\
  exists bs, appends (write_thrift vec_write_all E (TNamed n) (VI32 z)) bs (Ok tt) /\ canonical (zigzag z) 5 bs /\
    both_read c (fun S I => read_thrift c I E d (TNamed n)) bs (VI32 z).
Proof. exact constant_ok. Qed.
Print Assumptions C93_constant.

Theorem C93_only : forall ds n k v, constant_value ds n k = Some v -> exists cs z, In (n, MEnum cs) ds /\ In (k, z) cs /\ v = VI32 z.
Proof. exact constant_only. Qed.
Print Assumptions C93_only.

(** Enums are ordered like their numbers, equality and hashes agree with the order. *)
Theorem C93_order : forall E n u v w, lookup E n = Some DEnum -> typed E (TNamed n) u -> typed E (TNamed n) v -> typed E (TNamed n) w ->
  (exists a b, u = VI32 a /\ v = VI32 b /\ (enum_cmp u v = Some Lt <-> a < b) /\ (enum_cmp u v = Some Eq <-> a = b) /\ (enum_cmp u v = Some Gt <-> b < a)) /\
  (enum_cmp u v = Some Eq <-> partial_eq u v = true) /\
  (enum_cmp u v = Some Lt <-> enum_cmp v u = Some Gt) /\
  (enum_cmp u v = Some Lt -> enum_cmp v w = Some Lt -> enum_cmp u w = Some Lt) /\
  (enum_hash u = enum_hash v <-> partial_eq u v = true).
Proof. exact enum_order. Qed.
Print Assumptions C93_order.

(** The enums of format.rs have the names and values of parquet.thrift; one enum is newer. *)
Theorem C93_parquet : exists doc, map_document parquet_thrift = KOk doc /\
  (forall n cs, In (n, EnumDef cs) doc -> In (n, MEnum cs) format_rs) /\
  (forall n cs, In (n, MEnum cs) format_rs -> In (n, EnumDef cs) doc \/ n = "EdgeInterpolationAlgorithm"%string).
Proof. exact parquet_constants. Qed.
Print Assumptions C93_parquet.

Example C93_example : (exists g, thrift_macro g = Some [("E"%string, MEnum [("A"%string, -1); ("B"%string, 2)])] /\ token_trees (text "enum E { A = -1; B = 2; }") = Some g) /\
  constant_value format_rs "Encoding" "BYTE_STREAM_SPLIT" = Some (VI32 9) /\ constant_value format_rs "Encoding" "GROUP_VAR_INT" = None.
Proof. split; [exact enum_sample|split; vm_compute; reflexivity]. Qed.

(** ** C94: a constructor puts every argument into its field, wrapped or as a wider number but
    otherwise unchanged, and the result is a value of the struct; every value of the struct can be made. *)
Theorem C94_new : forall E n args v, Forall (fun a => typed E (fst a) (snd a)) args -> new E n args = Some v ->
  typed E (TNamed n) v /\ exists ws, v = VStruct ws /\ Forall2 (fun a w => carried (snd a) w) args ws.
Proof. exact new_ok. Qed.
Print Assumptions C94_new.

Theorem C94_all : forall E n fs vs, lookup E n = Some (DStruct fs) -> typed_fields E fs vs -> new E n (combine (map field_ty fs) vs) = Some (VStruct vs).
Proof. exact new_all. Qed.
Print Assumptions C94_all.

(** An optional field can be given without [Some]. *)
Theorem C94_optional : forall E n fs args ws i f v, lookup E n = Some (DStruct fs) -> new E n args = Some (VStruct ws) ->
  nth_error fs i = Some f -> f_req f = false -> nth_error args i = Some (f_ty f, v) -> nth_error ws i = Some (VSome v).
Proof. exact new_optional. Qed.
Print Assumptions C94_optional.

Example C94_example : new [("S"%string, DStruct [{| f_id := 1; f_req := true; f_ty := TI64; f_name := "a" |}; {| f_id := 2; f_req := false; f_ty := TI64; f_name := "b" |};
    {| f_id := 3; f_req := true; f_ty := TNamed "E"; f_name := "c" |}]); ("E"%string, DEnum)] "S" [(TI32, VI32 7); (TI64, VI64 8); (TI32, VI32 9)] = Some (VStruct [VI64 7; VSome (VI64 8); VI32 9]).
Proof. exact new_sample. Qed.
