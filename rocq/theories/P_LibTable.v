(** The program [LibProgram], computed. *)
From Verif Require Import Base ErrorName RustLex RustMacro MacroRules RustSyntax RustEval LibText LibProgram P_TextLines.
Open Scope Z_scope.
Open Scope list_scope.
Definition lib_lines := Eval vm_compute in line_table lib_rs_lines.
Lemma lib_lines_ok : Forall line_read lib_lines.
Proof. apply lines_ok; [vm_cast_no_check (eq_refl true)|]. intros rest. vm_cast_no_check (eq_refl (all_read lib_lines rest)). Qed.
Definition lib_trees := Eval vm_compute in trees_of lib_lines.
Lemma lib_trees_ok : trees (tokens_of lib_lines) [] [] = Some lib_trees.
Proof. vm_cast_no_check (eq_refl (Some lib_trees)). Qed.
Definition lib_tidy := Eval vm_compute in flat_map tidy lib_trees.
Lemma lib_tidy_ok : flat_map tidy lib_trees = lib_tidy.
Proof. vm_cast_no_check (eq_refl lib_tidy). Qed.
Definition lib_read : list ritem := Eval vm_compute in match read_items (List.length (file_text lib_rs_lines)) [] lib_tidy with Some l => l | None => [] end.
Lemma lib_read_ok : read_items (List.length (file_text lib_rs_lines)) [] lib_tidy = Some lib_read.
Proof. vm_cast_no_check (eq_refl (Some lib_read)). Qed.
Lemma lib_lines_eq : map line_of lib_lines = lib_rs_lines.
Proof. vm_cast_no_check (eq_refl lib_rs_lines). Qed.
Lemma lib_items_eq : lib_items = lib_read.
Proof.
  unfold lib_items, lib_read_file, all_trees. rewrite <- lib_lines_eq. rewrite (lines_read lib_lines lib_lines_ok _ (le_n _)), lib_trees_ok.
  cbn [on]. rewrite lib_tidy_ok, lib_lines_eq, lib_read_ok. reflexivity.
Qed.
Definition lib_table : program := Eval vm_compute in flat_map (fun i => match i with GFn f => plain_fn f | _ => [] end) lib_read.
Lemma lib_eq : lib_program = lib_table.
Proof. unfold lib_program. rewrite lib_items_eq. vm_cast_no_check (eq_refl lib_table). Qed.
