(** The implementations of [RustTypes], computed. *)
From Verif Require Import Base RustLex RustMacro MacroRules RustSyntax RustEval TypesText EncodingsText RustProgram RustTypes P_TextLines P_TextTable.
Open Scope Z_scope.
Open Scope list_scope.
Definition types_table := Eval vm_compute in line_table types_rs_lines.
Lemma types_table_ok : Forall line_read types_table.
Proof. apply lines_ok; [vm_cast_no_check (eq_refl true)|]. intros rest. vm_cast_no_check (eq_refl (all_read types_table rest)). Qed.
Definition types_trees := Eval vm_compute in trees_of types_table.
Lemma types_trees_ok : trees (tokens_of types_table) [] [] = Some types_trees.
Proof. vm_cast_no_check (eq_refl (Some types_trees)). Qed.
Definition types_read : list ritem := Eval vm_compute in match read_items (List.length (file_text types_rs_lines)) [] types_trees with Some l => l | None => [] end.
Lemma types_read_ok : read_items (List.length (file_text types_rs_lines)) [] types_trees = Some types_read.
Proof. vm_cast_no_check (eq_refl (Some types_read)). Qed.
Lemma types_file : read_file types_rs_lines = Some types_read.
Proof. apply (file_read _ types_table types_trees); [vm_cast_no_check (eq_refl types_rs_lines)|exact types_table_ok|exact types_trees_ok|exact types_read_ok]. Qed.
Lemma types_read_eq : types_items = types_read.
Proof. unfold types_items, items_of. rewrite types_file. reflexivity. Qed.
Definition encodings_table := Eval vm_compute in line_table encodings_rs_lines.
Lemma encodings_table_ok : Forall line_read encodings_table.
Proof. apply lines_ok; [vm_cast_no_check (eq_refl true)|]. intros rest. vm_cast_no_check (eq_refl (all_read encodings_table rest)). Qed.
Definition encodings_trees := Eval vm_compute in trees_of encodings_table.
Lemma encodings_trees_ok : trees (tokens_of encodings_table) [] [] = Some encodings_trees.
Proof. vm_cast_no_check (eq_refl (Some encodings_trees)). Qed.
Definition encodings_read : list ritem := Eval vm_compute in match read_items (List.length (file_text encodings_rs_lines)) [] encodings_trees with Some l => l | None => [] end.
Lemma encodings_read_ok : read_items (List.length (file_text encodings_rs_lines)) [] encodings_trees = Some encodings_read.
Proof. vm_cast_no_check (eq_refl (Some encodings_read)). Qed.
Lemma encodings_file : read_file encodings_rs_lines = Some encodings_read.
Proof. apply (file_read _ encodings_table encodings_trees); [vm_cast_no_check (eq_refl encodings_rs_lines)|exact encodings_table_ok|exact encodings_trees_ok|exact encodings_read_ok]. Qed.
Lemma encodings_read_eq : encodings_items = encodings_read.
Proof. unfold encodings_items, items_of. rewrite encodings_file. reflexivity. Qed.
Definition impls_in (is : list ritem) : list (rtype * list ritem) :=
  flat_map (fun i => match i with GImpl h l => match impl_type h with Some t => [(t, l)] | None => [] end | _ => [] end) is.
Definition impls_read : list (rtype * list ritem) := Eval vm_compute in impls_in (types_read ++ encodings_read).
Lemma impls_eq : impls = impls_read.
Proof. unfold impls. rewrite types_read_eq, encodings_read_eq. vm_cast_no_check (eq_refl impls_read). Qed.
Definition consts_read : program := Eval vm_compute in
  flat_map (fun x => match type_name (fst x) with Some n => consts_of [n] (snd x) | None => [] end) impls_read.
Lemma consts_eq : type_consts = consts_read.
Proof. unfold type_consts. rewrite impls_eq. vm_cast_no_check (eq_refl consts_read). Qed.
Definition set_read : program := Eval vm_compute in own_methods encodings_read "EncodingSet".
Lemma set_eq : encoding_set_fns = set_read.
Proof. unfold encoding_set_fns. rewrite encodings_read_eq. vm_cast_no_check (eq_refl set_read). Qed.
Definition default_read (m : string) : option rfn := find_fn (fns_of true [] (trait_items protocol_read "CompactThriftProtocol")) [m].
Lemma default_eq m : default_fn m = default_read m.
Proof. unfold default_fn, default_read. rewrite protocol_read_eq. reflexivity. Qed.
Definition the (o : option rfn) : rfn := match o with Some f => f | None => dummy end.
Definition read_fn_of (t : rtype) (m : string) : option rfn := find_fn (fns_of true [] (impl_for impls_read t)) [m].
Lemma impl_fn_eq t m : impl_fn t m = read_fn_of t m.
Proof. unfold impl_fn, read_fn_of. rewrite impls_eq. reflexivity. Qed.
Definition read_const_of (t : rtype) : option rfn := find_fn (consts_of [] (impl_for impls_read t)) ["FIELD_TYPE"]%string.
Lemma impl_const_eq t : impl_const t = read_const_of t.
Proof. unfold impl_const, read_const_of. rewrite impls_eq. reflexivity. Qed.
