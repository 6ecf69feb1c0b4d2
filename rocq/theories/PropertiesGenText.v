(** Property theorems C82 to C84: the text printed by the generator. *)
From Verif Require Import Base ErrorName Generator SpecGenerator ThriftLex ThriftParse ParquetThrift SpecThrift P_ThriftDoc SchemaPrint SpecRust Debug
  GenText SpecGenText P_GenText P_GenDoc GenDebug SpecGenNames P_GenNames.
Open Scope Z_scope.
Open Scope list_scope.

(** ** C82: the generator prints the header, the code of each definition in order, and an empty test; it fails
    exactly where reading the text or generating a definition fails. *)
Theorem C82_text : forall now d s out, main now d s = KOk out ->
  exists h doc body ls, load d s = KOk (h, doc) /\ out = List.concat (map (fun l => l ++ [10]) (header_lines now h)) ++ body /\
    Forall2 (prints doc) doc ls /\ code body = List.concat ls ++ tests_lines.
Proof. exact main_prints. Qed.
Print Assumptions C82_text.
Theorem C82_one_text : forall doc nd a b, prints doc nd a -> prints doc nd b -> a = b.
Proof. exact prints_unique. Qed.
Print Assumptions C82_one_text.
Theorem C82_fails : forall now d s e, main now d s = KThrow e <->
  load d s = KThrow e \/ exists h doc, load d s = KOk (h, doc) /\ generate_document doc d = KThrow e.
Proof. exact main_fails. Qed.
Print Assumptions C82_fails.
Example C82_parquet : exists out, main (text "now") 40 parquet_thrift_text = KOk out /\ 3000 < zlen (code out).
Proof. exact parquet_text. Qed.
Example C82_union : exists h doc, load 9 (text "union U { 1: string a; 2: binary b } enum E { B = 3, A = -1 }") = KOk (h, doc) /\
  prints doc ("E"%string, EnumDef [("B"%string, 3); ("A"%string, -1)])
    (enum_lines "E" [("B"%string, text "3"); ("A"%string, text "-1")] [("A"%string, text "-1"); ("B"%string, text "3")]).
Proof.
  eexists _, _. split; [vm_compute; reflexivity|]. apply (Pr_enum _ _ _ [("A"%string, -1); ("B"%string, 3)]).
  - exact (constants_shown [("B"%string, 3); ("A"%string, -1)]).
  - exact (sorted_by_value [("B"%string, 3); ("A"%string, -1)]).
  - exact (constants_shown [("A"%string, -1); ("B"%string, 3)]).
Qed.
Example C82_empty_union : main [] 9 (text "union U {}") = KThrow NoSuchElement.
Proof. vm_compute. reflexivity. Qed.

(** ** C83: not every name that the generator declares is a Rust identifier, and a reference to a type is not always
    spelled as its declaration: only [type] is escaped, and only in declarations. *)
Theorem C83_refuted : exists s out h doc nd w, main [] 9 s = KOk out /\ load 9 s = KOk (h, doc) /\ In nd doc /\ declares nd w /\ ~ rust_name w.
Proof. exact name_refuted. Qed.
Print Assumptions C83_refuted.
Theorem C83_reference_refuted : exists s out h doc nd l, main [] 9 s = KOk out /\ load 9 s = KOk (h, doc) /\ In nd doc /\
  lifetime doc (fst nd) l /\ ~ spelled doc (Named (fst nd)) (declared_as nd ++ l).
Proof. exact reference_refuted. Qed.
Print Assumptions C83_reference_refuted.
(** Every declaration stands on a line of its own; all declared names are identifiers exactly for definitions with
    plain names. *)
Theorem C83_names_partial : forall now d s out, main now d s = KOk out -> exists h doc body ls,
  load d s = KOk (h, doc) /\ out = List.concat (map (fun l => l ++ [10]) (header_lines now h)) ++ body /\ code body = List.concat ls ++ tests_lines /\
  Forall2 (fun nd l => (forall w, declares nd w -> exists x, In x l /\ introduces w x) /\
    ((forall w, declares nd w -> rust_name w) <-> plain_definition nd)) doc ls.
Proof. exact main_names. Qed.
Print Assumptions C83_names_partial.
Theorem C83_reference_partial : forall doc nd w l, In nd doc -> spelled doc (Named (fst nd)) (w ++ l) -> lifetime doc (fst nd) l ->
  (w = declared_as nd <-> fst nd <> "type"%string \/ exists fs, snd nd = UnionDef fs).
Proof. exact reference_ok. Qed.
Print Assumptions C83_reference_partial.
(** Names collide only with those that the generator adds. *)
Theorem C83_members : forall d s h doc nd, load d s = KOk (h, doc) -> In nd doc ->
  (NoDup (members nd) <-> match snd nd with EnumDef cs => ~ In "value"%string (map fst cs) /\ ~ In "__NAMES"%string (map fst cs) | _ => True end).
Proof. exact members_distinct. Qed.
Print Assumptions C83_members.
Theorem C83_items : forall d s h doc, load d s = KOk (h, doc) ->
  (NoDup (items doc) <-> ~ In "Cow"%string (map fst doc) /\ ~ In "tests"%string (map fst doc)).
Proof. exact items_distinct. Qed.
Print Assumptions C83_items.
Example C83_parquet : exists h doc, load 40 parquet_thrift_text = KOk (h, doc) /\ Forall plain_definition doc /\ NoDup (items doc) /\ Forall (fun nd => NoDup (members nd)) doc.
Proof. exact parquet_names. Qed.
Example C83_clash : exists h doc, load 9 (text "enum E { value = 1 }") = KOk (h, doc) /\ ~ NoDup (members ("E"%string, EnumDef [("value"%string, 1)])).
Proof. eexists _, _. split; [vm_compute; reflexivity|]. intros H. inversion H as [|? ? _ H']. inversion H' as [|? ? N _]. apply N. left. reflexivity. Qed.

(** ** C84: the debug output of a generated enum shows a name declared for the value, [__UNKNOWN] exactly if there
    is none, and tells the value.  It holds for every binary search that keeps the promise of the documentation. *)
Theorem C84_name : forall search cs v, searches search ->
  exists n, debug_name search cs v = Some n /\ (In (n, v) cs \/ (n = "__UNKNOWN"%string /\ ~ In v (map snd cs))).
Proof. exact debug_name_ok. Qed.
Print Assumptions C84_name.
Theorem C84_unique : forall search cs n v, searches search -> NoDup (map snd cs) -> In (n, v) cs -> debug_name search cs v = Some n.
Proof. exact debug_unique. Qed.
Print Assumptions C84_unique.
Theorem C84_tells : forall d s h doc n cs search alt v w out, load d s = KOk (h, doc) -> In (n, EnumDef cs) doc -> searches search ->
  enum_debug search alt cs v = Some out -> enum_debug search alt cs w = Some out -> v = w.
Proof. exact (fun d s h doc n cs search alt v w out L I H => debug_tells search alt cs v w out H (loaded_names d s h doc L n cs I)). Qed.
Print Assumptions C84_tells.
(** The table searched is the one in the text of C82. *)
Theorem C84_table : forall cs table, by_value cs table -> map (fun c => (snd c, fst c)) table = names_table cs.
Proof. exact table_ok. Qed.
Print Assumptions C84_table.
Example C84_linear : searches linear.
Proof. exact linear_searches. Qed.
Example C84_shown : enum_debug linear false [("B"%string, 3); ("A"%string, -1)] (-1) = Some (text "A(-1)") /\
  enum_debug linear false [("B"%string, 3); ("A"%string, -1)] 2 = Some (text "__UNKNOWN(2)").
Proof. vm_compute. split; reflexivity. Qed.
