(** Property theorems C67 to C71: the text of thrift documents. *)
From Verif Require Import Base ErrorName Generator ParquetIdl ThriftLex ThriftParse ParquetThrift SpecThrift P_ThriftLex P_ThriftParse P_ThriftDoc.
Open Scope list_scope.

(** ** C67: the text is divided into tokens, each as long as possible. *)
Theorem C67_tokens : forall s ts, lex s = Some ts <-> munch s ts.
Proof. exact lex_iff. Qed.
Print Assumptions C67_tokens.
(** Tokens may be written next to each other as long as words and numbers end before
    another character; comments and white space between them change nothing. *)
Theorem C67_layout : forall s ts, layout s ts -> lex s = Some ts.
Proof. exact layout_lex. Qed.
Print Assumptions C67_layout.
(** Every sequence of well-formed tokens has such a text. *)
Theorem C67_written : forall ts, Forall well_formed ts -> exists s, layout s ts.
Proof. exact (fun ts H => ex_intro _ (spaced ts) (spaced_layout ts H)). Qed.
Print Assumptions C67_written.

Example C67_example : lex (text "struct a.b{1:i32 x=-0xfF}/* * / **/ '\''") =
  Some [T "struct"; TId "a.b"; T "{"; TInteger (text "1"); T ":"; T "i32"; TId "x"; T "="; THex (text "-0xfF"); T "}"; TLiteral (text "'\''")]%string.
Proof. vm_compute. reflexivity. Qed.
(** A text that is none: the comment does not end with a line feed. *)
Example C67_comment : ~ exists ts, munch (text "struct a {} # end") ts.
Proof. intros (ts & H). apply lex_iff in H. revert H. vm_compute. discriminate. Qed.

(** ** C68: the parser accepts the documents of the grammar, and reads each in one way. *)
Theorem C68_grammar : forall s ts x, lex s = Some ts -> (exists d, parse d ts = KOk x) <-> gr_document x ts.
Proof. exact parse_iff. Qed.
Print Assumptions C68_grammar.
(** So many nested calls suffice as there are tokens; then all failures are syntax errors. *)
Theorem C68_complete : forall d ts x, gr_document x ts -> (List.length ts <= d)%nat -> parse d ts = KOk x.
Proof. exact parse_complete. Qed.
Print Assumptions C68_complete.
Theorem C68_rejects : forall d ts, Forall well_formed ts -> (List.length ts <= d)%nat ->
  parse d ts = KThrow Syntax <-> ~ exists x, gr_document x ts.
Proof. exact parse_rejects. Qed.
Print Assumptions C68_rejects.
Theorem C68_unambiguous : forall ts x y, Forall well_formed ts -> gr_document x ts -> gr_document y ts -> x = y.
Proof. exact unambiguous. Qed.
Print Assumptions C68_unambiguous.

Example C68_accepted :
  match lex (text "namespace * a.b typedef map<i8,set<string>> m enum e { A = 0x1F, B = +2 }") with Some ts => parse 30 ts | None => KThrow NotImplemented end =
  KOk ([Namespace "*" "a.b"], [("m", PTypeDef (MapOf (Named "i8") (SetOf (Base STRING)))); ("e", PEnum [("A", Hex false [1; 15]); ("B", Dec Plus [2])])])%string.
Proof. vm_compute. reflexivity. Qed.
Example C68_rejected : match lex (text "typedef map<i8,set<string>> m;") with Some ts => parse 30 ts | None => KThrow NotImplemented end = KThrow Syntax.
Proof. vm_compute. reflexivity. Qed.

(** ** C69: exactly the documents with valid names and digits have a text, and the texts
    of a document are loaded alike. *)
Theorem C69_expressible : forall x,
  valid_document x <-> exists s ts, lex s = Some ts /\ forall d, (List.length ts <= d)%nat -> parse d ts = KOk x.
Proof. exact text_iff. Qed.
Print Assumptions C69_expressible.
Theorem C69_layout : forall d s s' ts, layout s ts -> layout s' ts -> load d s = load d s'.
Proof. exact load_layout. Qed.
Print Assumptions C69_layout.
Theorem C69_load : forall d s h doc, (List.length s <= d)%nat ->
  load d s = KOk (h, doc) <-> exists ts hs ds, munch s ts /\ gr_document (hs, ds) ts /\ map_header hs = KOk h /\ map_document ds = KOk doc.
Proof. exact load_iff. Qed.
Print Assumptions C69_load.
Theorem C69_syntax : forall d s, (List.length s <= d)%nat ->
  load d s = KThrow Syntax <-> ~ exists ts x, munch s ts /\ gr_document x ts.
Proof. exact load_syntax. Qed.
Print Assumptions C69_syntax.

Example C69_example : load 40 (text "struct a { 1: required i32 x; optional a y }") =
  KOk (([], []), [("a", StructDef [{| g_id := 1; g_req := REQUIRED; g_name := "x"; g_type := Base I32 |};
                                   {| g_id := 2; g_req := OPTIONAL; g_name := "y"; g_type := Named "a" |}])])%string.
Proof. vm_compute. reflexivity. Qed.

(** ** C70: the text of parquet.thrift is the document of which C61 and C62 speak. *)
Theorem C70_parquet : exists ts, munch parquet_thrift_text ts /\ gr_document (parquet_headers, parquet_thrift) ts.
Proof. exact parquet_document. Qed.
Print Assumptions C70_parquet.
Theorem C70_loaded : exists doc, map_document parquet_thrift = KOk doc /\
  forall d, (List.length parquet_thrift_text <= d)%nat ->
  load d parquet_thrift_text = KOk (([("cpp", "parquet"); ("java", "org.apache.parquet.format")]%string, []), doc).
Proof. exact parquet_loaded. Qed.
Print Assumptions C70_loaded.
Example C70_size : zlen parquet_thrift_text = 39172 /\ List.length parquet_thrift = 60%nat.
Proof. vm_compute. split; reflexivity. Qed.

(** ** C71: headers.
    Full claim: the rust namespace is the last one declared for rust, or else for all
    languages, and every include becomes a use declaration.  The first part is proved;
    no include becomes a use declaration, because its quotes are kept. *)
Theorem C71_namespace_partial : forall hs ns is, map_header hs = KOk (ns, is) ->
  is = includes hs /\ rust_namespace hs (match get ns "rust" with Some n => Some n | None => get ns "*" end).
Proof. exact namespace_chosen. Qed.
Print Assumptions C71_namespace_partial.
Theorem C71_unique : forall hs o o', rust_namespace hs o -> rust_namespace hs o' -> o = o'.
Proof. exact rust_namespace_unique. Qed.
Print Assumptions C71_unique.
Theorem C71_accepts : forall hs, (forall w, ~ In (CppInclude w) hs) -> exists ns, map_header hs = KOk (ns, includes hs) /\ forall l, namespace_of l hs (get ns l).
Proof. exact map_header_ok. Qed.
Print Assumptions C71_accepts.
Theorem C71_refuted : forall now hs h w, literal_text w -> In (Include w) hs -> map_header hs = KOk h ->
  exists p, In (text "use crate::" ++ p ++ w ++ text ";") (header_lines now h) /\ ~ use_line (text "use crate::" ++ p ++ w ++ text ";").
Proof. exact include_line. Qed.
Print Assumptions C71_refuted.
Example C71_example : exists h, map_header [Namespace "*" "a"; Include (text "'b.thrift'"); Namespace "rust" "c.d"]%string = KOk h /\
  header_lines (text "now") h = [text "#[allow(non_snake_case)]"; text "// Generated on now"; text "// namepace=c.d"; text "use crate::c::d::'b.thrift';";
                                 text "use std::borrow::Cow;"; text "use compact_thrift_runtime::*;"].
Proof. eexists. vm_compute. split; reflexivity. Qed.
