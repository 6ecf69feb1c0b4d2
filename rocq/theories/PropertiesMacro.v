(** Property theorems C76 to C79: the text read by thrift!. *)
From Verif Require Import Base ErrorName Types Generator ParquetIdl ThriftLex ThriftParse ParquetThrift SpecThrift P_ThriftDoc
  Macro FormatRs Parquet RustLex RustMacro SpecRust P_RustLex P_RustMacro P_Idl P_RustDoc SpecBoth P_Both.
Open Scope Z_scope.
Open Scope list_scope.

(** ** C76: the text of format.rs is the list of declarations of which C61 speaks, hence the schema that the other
    theorems are about. *)
Theorem C76_format : exists g ts, rust_text format_rs_text ts /\
  grouped [sign "#"; sign "!"; Gr Bracket [name "allow"; Gr Paren [name "non_snake_case"]];
           name "use"; name "compact_thrift_runtime"; sign "::"; name "thrift"; sign ";";
           name "use"; name "crate"; sign "::"; name "encodings"; sign "::"; name "EncodingSet"; sign ";";
           name "thrift"; sign "!"; Gr Brace g] ts /\
  declarations format_rs g.
Proof. exact format_text. Qed.
Print Assumptions C76_format.
Theorem C76_schema : exists pre g, token_trees format_rs_text = Some (pre ++ [name "thrift"; sign "!"; Gr Brace g]) /\
  exists ds, thrift_macro g = Some ds /\ expand_all ds = Some parquet_env.
Proof. exact format_schema. Qed.
Print Assumptions C76_schema.
(** Nothing else can be read from the text. *)
Theorem C76_one_reading : forall s ts ts' g g', rust_text s ts -> rust_text s ts' -> grouped g ts -> grouped g' ts' -> ts = ts' /\ g = g'.
Proof. exact one_reading. Qed.
Print Assumptions C76_one_reading.
Example C76_size : zlen format_rs_text = 44034 /\ List.length format_rs = 66%nat.
Proof. vm_compute. split; reflexivity. Qed.

(** ** C77: thrift! accepts exactly the sequences of declarations, and understands them in one way. *)
Theorem C77_tokens : forall s g, token_trees s = Some g <-> exists ts, rust_text s ts /\ grouped g ts.
Proof. exact token_trees_ok. Qed.
Print Assumptions C77_tokens.
Theorem C77_accepts : forall ts ds, thrift_macro ts = Some ds <-> declarations ds ts.
Proof. exact thrift_macro_ok. Qed.
Print Assumptions C77_accepts.
Theorem C77_unique : forall a b ts, declarations a ts -> declarations b ts -> a = b.
Proof. exact declarations_unique. Qed.
Print Assumptions C77_unique.
(** No token fits two alternatives of a pattern, so the order in which the compiler tries them does not matter. *)
Theorem C77_one_way : forall t, ambiguous t = false.
Proof. exact ambiguous_ok. Qed.
Print Assumptions C77_one_way.
(** The first test of macros.rs (:303) *)
Example C77_example : option_map thrift_macro (token_trees (text "/// doc" ++ [10] ++ text "namespace rust test
    /** doc */ struct SomeStructure { /** doc */ 1: required i64 offset; 2: optional i64 length 3: optional list<i64> foobar = 0x1_0; } enum E { A = -1; }")) =
  Some (Some [("SomeStructure", MStruct [{| m_id := 1; m_req := Some true; m_type := "i64"; m_elem := None; m_name := "offset"; m_default := None |};
                                         {| m_id := 2; m_req := Some false; m_type := "i64"; m_elem := None; m_name := "length"; m_default := None |};
                                         {| m_id := 3; m_req := Some false; m_type := "list"; m_elem := Some "i64"; m_name := "foobar"; m_default := Some "0x1_0" |}]);
              ("E", MEnum [("A", -1)])])%string.
Proof. vm_compute. reflexivity. Qed.
(** Not accepted: commas, other declarations, nested element types, keywords as names, ids that are no i16, an enum without a final semicolon. *)
Example C77_rejected : map (fun s => option_map thrift_macro (token_trees (text s)))
    ["struct a { 1: required i64 b, }"; "typedef i64 a"; "const i64 a = 1"; "struct a { 1: required list<list<i64>> b; }"; "struct a { 1: required map<i64, i64> b; }";
     "struct a { 1: required i64 type; }"; "struct a { 32768: required i64 b; }"; "enum a { b = 0 }"; "enum a { b; }"; "struct a extends b {}"; "namespace rust a.b"]%string =
  repeat (Some None) 11.
Proof. vm_compute. reflexivity. Qed.
Example C77_shortest : map (fun s => option_map thrift_macro (token_trees (text s))) [""; "namespace rust a"; "enum a {}"]%string = [Some (Some []); Some (Some []); Some (Some [("a", MEnum [])])]%string.
Proof. vm_compute. reflexivity. Qed.

(** ** C78: the syntax documented at thrift_struct! and thrift_union! is accepted.
    False: the requirement, said to be optional, must be there in a struct and must not in a union. *)
Theorem C78_struct_partial : forall a n qs body, attrs a -> usable n -> sequence (documented_field true) qs body ->
  ((exists ds, thrift_macro (a ++ [name "struct"; name n; Gr Brace body]) = Some ds) <-> Forall (fun q => q <> None) qs).
Proof. exact struct_accepted. Qed.
Print Assumptions C78_struct_partial.
Theorem C78_union_partial : forall a n qs body, attrs a -> usable n -> sequence (documented_field false) qs body ->
  ((exists ds, thrift_macro (a ++ [name "union"; name n; Gr Brace body]) = Some ds) <-> Forall (fun q => q = None) qs).
Proof. exact union_accepted. Qed.
Print Assumptions C78_union_partial.
Theorem C78_refuted : exists s u : list tree, documented_field true None s /\ thrift_macro [name "struct"; name "a"; Gr Brace s] = None /\
  documented_field false (Some true) u /\ thrift_macro [name "union"; name "a"; Gr Brace u] = None.
Proof. exact documented_wrong. Qed.
Print Assumptions C78_refuted.

(** ** C79: the generator and the macro understand a text in the same way.
    False: # starts a comment in one and an attribute in the other; comments nest in one only.
    The parquet crate could not use parquet.thrift as it is.
    Apart from these two differences a text that both accept declares the same to both. *)
Theorem C79_partial : forall d s h doc ts g ds, load d s = KOk (h, doc) -> rust_text s ts -> grouped g ts -> declarations ds g ->
  no_attributes ts -> unnested s -> distinct ds -> Forall2 same_definition ds doc.
Proof. exact same_reading. Qed.
Print Assumptions C79_partial.
Example C79_applies : exists d h doc ts g ds, load d both_sample = KOk (h, doc) /\ rust_text both_sample ts /\ grouped g ts /\ declarations ds g /\
  no_attributes ts /\ unnested both_sample /\ distinct ds /\ List.length ds = 3%nat.
Proof. exact sample_reading. Qed.
Example C79_repeated_name : exists h doc g ds, load 100 (text "struct a { 1: required i32 x; 2: required i64 x }") = KOk (h, doc) /\
  token_trees (text "struct a { 1: required i32 x; 2: required i64 x }") = Some g /\ thrift_macro g = Some ds /\ ~ Forall2 same_definition ds doc.
Proof. exact repeated_name_differs. Qed.
Theorem C79_refuted : exists s h g ds, load 100 s = KOk (h, [("a", StructDef [])])%string /\
  token_trees s = Some g /\ thrift_macro g = Some ds /\
  ds = [("a", MStruct [{| m_id := 1; m_req := Some true; m_type := "i32"; m_elem := None; m_name := "x"; m_default := None |}])]%string.
Proof. exact hash_differs. Qed.
Print Assumptions C79_refuted.
Theorem C79_comment_refuted : exists s h, load 100 s = KOk (h, [("a", StructDef [])])%string /\ token_trees s = Some [] /\ thrift_macro [] = Some [].
Proof. exact comment_differs. Qed.
Print Assumptions C79_comment_refuted.
Theorem C79_parquet_refuted : (forall g, token_trees parquet_thrift_text = Some g -> thrift_macro g = None) /\
  exists x, load (List.length parquet_thrift_text) parquet_thrift_text = KOk x.
Proof. exact parquet_rejected. Qed.
Print Assumptions C79_parquet_refuted.
