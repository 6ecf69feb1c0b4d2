(** The expansion of format.rs and of a small struct *)
From Verif Require Import Base ErrorName Types Macro FormatRs Parquet RustLex RustMacro MacrosText MacroRules SpecRust P_RustMacro P_RustDoc RustCode SpecExpand P_Expand P_ExpandAll.
Open Scope Z_scope.
Open Scope list_scope.

Lemma text_patterns ms : read_macros macros_rs_text = Some ms ->
  map (fun n => option_map (map (fun r => map erase (fst r))) (rules_of ms n)) ["thrift"; "thrift_struct"; "thrift_union"; "thrift_enum"]%string =
  [Some [p_struct; p_union; p_enum; p_namespace; []]; Some [p_thrift_struct]; Some [p_thrift_union]; Some [p_thrift_enum]].
Proof. rewrite macros_read. intros H. injection H as <-. vm_compute. reflexivity. Qed.
Lemma format_suitable : Forall (fun d => suitable (snd d)) format_rs.
Proof. apply all_suitable. vm_compute. reflexivity. Qed.
Lemma format_expands : exists ms pre g l out, read_macros macros_rs_text = Some ms /\
  token_trees format_rs_text = Some (pre ++ [name "thrift"; sign "!"; Gr Brace g]) /\
  expansion ms (List.length g + 4) "thrift" g = Some out /\ items_read l out /\ filter is_methods l = map methods parquet_env.
Proof.
  destruct format_schema as (pre & g & Hg & ds & Hd & He). destruct format_text as (g' & ts & Ht & Hgr & Hd').
  assert (g' = g).
  { pose proof (proj2 (P_RustLex.token_trees_ok format_rs_text _) (ex_intro _ ts (conj Ht Hgr))) as K. rewrite Hg in K. injection K as K.
    match type of K with _ = ?l => change l with (removelast l ++ [Gr Brace g']) in K end.
    change (pre ++ [name "thrift"; sign "!"; Gr Brace g]) with (pre ++ [name "thrift"; sign "!"] ++ [Gr Brace g]) in K. rewrite app_assoc in K. apply app_inj_tail in K as (_ & K). injection K as ->. reflexivity. }
  subst g'. apply thrift_macro_ok in Hd. rewrite <- (declarations_unique _ _ _ Hd' Hd) in *. clear ds Hd.
  destruct (declared_expand macros g format_rs parquet_env _ macros_read Hd' He format_suitable (Nat.le_refl _)) as (l & out & _ & Ho & Hr & Hm).
  exists macros, pre, g, l, out. split; [exact macros_read|]. auto.
Qed.
Lemma small_expands : exists ms g out, read_macros macros_rs_text = Some ms /\
  token_trees (text "struct a { 1: required i32 x }") = Some g /\ expansion ms 9 "thrift" g = Some out /\
  items_read [Record [listed "derive" "Default , Clone , Debug , PartialEq"; no_camel; no_snake] "a" [("x", TI32)];
              Constructor "a" [("x", TI32)];
              Protocol "a" 12
                [Let last_field_id (Num 0); Let (given "x") (Flag false);
                 Loop [Let field_type_ (Result (ReadHeader last_field_id)); If (IsZero field_type_) [Break];
                       Match last_field_id [(1, [SetFlag (given "x"); Do (FillField "x" field_type_)])] [Do (SkipField field_type_)]];
                 If (NotSet (given "x")) [ReturnErr (MissingField "a::x") false]; Finish]
                [Let last_field_id (Num 0); Do (WriteField "x" 1 last_field_id); Do (WriteByte 0); Finish]]%string out.
Proof.
  set (mfs := [{| m_id := 1; m_req := Some true; m_type := "i32"; m_elem := None; m_name := "x"; m_default := None |}]).
  assert (T : exists b, token_trees (text "struct a { 1: required i32 x }") = Some [name "struct"; name "a"; Gr Brace b] /\ thrift_struct [name "struct"; name "a"; Gr Brace b] = Some (MStruct mfs)).
  { eexists. split; vm_compute; reflexivity. }
  destruct T as (b & Hg & Hd). apply thrift_struct_ok in Hd as (a & n & body & fs & Ha & Hn & E & Hs & Ef). injection Ef as <-.
  apply (P_ExpandAll.app_three []) in E as (<- & _ & En & Eb). injection En as <-. injection Eb as <-.
  assert (Hp : produces [name "struct"; name "a"; Gr Brace b] (struct_items [] "a" [{| f_id := 1; f_req := true; f_ty := TI32; f_name := "x" |}])).
  { rewrite <- (app_nil_r (struct_items _ _ _)). apply (Pr_cons (Some ("a"%string, MStruct mfs)) [name "struct"; name "a"; Gr Brace b] _ []); [| |constructor].
    - apply (De_struct [] "a" mfs b Ha); [|exact Hs]. split; [exact Hn|]. cbn. intuition discriminate.
    - apply (Be_struct [] "a" mfs); [reflexivity|]. repeat constructor. apply plain_check_ok. reflexivity. }
  destruct (text_expands macros _ _ 9 macros_read Hp) as (out & Ho & Hr); [cbn [List.length]; lia|].
  exists macros, [name "struct"; name "a"; Gr Brace b], out. split; [exact macros_read|]. split; [exact Hg|]. split; [exact Ho|]. exact Hr.
Qed.
