(** Property theorems C99: the text of macros.rs. *)
From Verif Require Import Base ErrorName Types Macro FormatRs Parquet RustLex RustMacro MacrosText MacroRules SpecRust P_RustMacro P_RustDoc RustCode SpecExpand P_Expand P_ExpandAll P_ExpandFormat P_ExpandUnique.
Open Scope Z_scope.
Open Scope list_scope.

(** ** C99: the rules in the text of macros.rs expand every text that the model of the macros accepts to the items of
    SpecExpand.v, whose methods have the statements of RustCode.v, and the expansion reads in no other way. *)
Theorem C99_expands : forall ms ts l k, read_macros macros_rs_text = Some ms -> produces ts l -> (List.length ts + 4 <= k)%nat ->
  exists out, expansion ms k "thrift" ts = Some out /\ items_read l out.
Proof. exact text_expands. Qed.
Print Assumptions C99_expands.
Theorem C99_one_reading : forall l l' out, items_read l out -> items_read l' out -> l = l'.
Proof. exact (fun l l' out H K => items_unique l out H l' K). Qed.
Print Assumptions C99_one_reading.
Theorem C99_methods : forall ms ts ds E k, read_macros macros_rs_text = Some ms ->
  declarations ds ts -> expand_all ds = Some E -> Forall (fun d => suitable (snd d)) ds -> (List.length ts + 4 <= k)%nat ->
  exists l out, produces ts l /\ expansion ms k "thrift" ts = Some out /\ items_read l out /\ filter is_methods l = map methods E.
Proof. exact declared_expand. Qed.
Print Assumptions C99_methods.
(** The patterns that C77 is about are those of the text. *)
Theorem C99_patterns : forall ms, read_macros macros_rs_text = Some ms ->
  map (fun n => option_map (map (fun r => map erase (fst r))) (rules_of ms n)) ["thrift"; "thrift_struct"; "thrift_union"; "thrift_enum"]%string =
  [Some [p_struct; p_union; p_enum; p_namespace; []]; Some [p_thrift_struct]; Some [p_thrift_union]; Some [p_thrift_enum]].
Proof. exact text_patterns. Qed.
Print Assumptions C99_patterns.

(** format.rs expands to the methods of all its definitions. *)
Example C99_parquet : exists ms pre g l out, read_macros macros_rs_text = Some ms /\
  token_trees format_rs_text = Some (pre ++ [name "thrift"; sign "!"; Gr Brace g]) /\
  expansion ms (List.length g + 4) "thrift" g = Some out /\ items_read l out /\ filter is_methods l = map methods parquet_env.
Proof. exact format_expands. Qed.
Example C99_small : exists ms g out, read_macros macros_rs_text = Some ms /\
  token_trees (text "struct a { 1: required i32 x }") = Some g /\ expansion ms 9 "thrift" g = Some out /\
  items_read [Record [listed "derive" "Default , Clone , Debug , PartialEq"; no_camel; no_snake] "a" [("x", TI32)];
              Constructor "a" [("x", TI32)];
              Protocol "a" 12
                [Let last_field_id (Num 0); Let (given "x") (Flag false);
                 Loop [Let field_type_ (Result (ReadHeader last_field_id)); If (IsZero field_type_) [Break];
                       Match last_field_id [(1, [SetFlag (given "x"); Do (FillField "x" field_type_)])] [Do (SkipField field_type_)]];
                 If (NotSet (given "x")) [ReturnErr (MissingField "a::x") false]; Finish]
                [Let last_field_id (Num 0); Do (WriteField "x" 1 last_field_id); Do (WriteByte 0); Finish]]%string out.
Proof. exact small_expands. Qed.
(** Some of the smaller macros, token by token *)
Example C99_tokens : exists ms, read_macros macros_rs_text = Some ms /\
  expansion ms 5 "__thrift_union_default" (code "a ; b ;") = Some (code "Self :: a" ++ parens (code "Default :: default" ++ parens [])) /\
  expansion ms 5 "__thrift_union_default" [] = Some (code "Self") /\
  expansion ms 5 "__thrift_field_type" (code "list binary") = Some (code "Vec < Vec < u8 > >") /\
  expansion ms 5 "__thrift_required_or_optional" (code "optional Vec < Vec < u8 > >") = Some (code "Option < Vec < Vec < u8 > > >") /\
  expansion ms 5 "__thrift_required_or_optional" (code "repeated Vec < u8 >") = None.
Proof. exists macros. split; [exact macros_read|]. vm_compute. repeat split; reflexivity. Qed.
