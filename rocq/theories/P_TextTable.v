(** The tables of [RustProgram], computed. *)
From Verif Require Import Base RustLex RustMacro MacroRules RustSyntax RustEval UlebText ProtocolText RustProgram P_TextLines.
Open Scope Z_scope.
Open Scope list_scope.
Definition uleb_table := Eval vm_compute in line_table uleb_rs_lines.
Lemma uleb_table_ok : Forall line_read uleb_table.
Proof. apply lines_ok; [vm_cast_no_check (eq_refl true)|]. intros rest. vm_cast_no_check (eq_refl (all_read uleb_table rest)). Qed.
Definition uleb_trees := Eval vm_compute in trees_of uleb_table.
Lemma uleb_trees_ok : trees (tokens_of uleb_table) [] [] = Some uleb_trees.
Proof. vm_cast_no_check (eq_refl (Some uleb_trees)). Qed.
Definition uleb_read : list ritem := Eval vm_compute in match read_items (List.length (file_text uleb_rs_lines)) [] uleb_trees with Some l => l | None => [] end.
Lemma uleb_read_ok : read_items (List.length (file_text uleb_rs_lines)) [] uleb_trees = Some uleb_read.
Proof. vm_cast_no_check (eq_refl (Some uleb_read)). Qed.
Lemma uleb_file : read_file uleb_rs_lines = Some uleb_read.
Proof. apply (file_read _ uleb_table uleb_trees); [vm_cast_no_check (eq_refl uleb_rs_lines)|exact uleb_table_ok|exact uleb_trees_ok|exact uleb_read_ok]. Qed.
Lemma uleb_read_eq : uleb_items = uleb_read.
Proof. unfold uleb_items, items_of. rewrite uleb_file. reflexivity. Qed.
Definition protocol_table := Eval vm_compute in line_table protocol_rs_lines.
Lemma protocol_table_ok : Forall line_read protocol_table.
Proof. apply lines_ok; [vm_cast_no_check (eq_refl true)|]. intros rest. vm_cast_no_check (eq_refl (all_read protocol_table rest)). Qed.
Definition protocol_trees := Eval vm_compute in trees_of protocol_table.
Lemma protocol_trees_ok : trees (tokens_of protocol_table) [] [] = Some protocol_trees.
Proof. vm_cast_no_check (eq_refl (Some protocol_trees)). Qed.
Definition protocol_read : list ritem := Eval vm_compute in match read_items (List.length (file_text protocol_rs_lines)) [] protocol_trees with Some l => l | None => [] end.
Lemma protocol_read_ok : read_items (List.length (file_text protocol_rs_lines)) [] protocol_trees = Some protocol_read.
Proof. vm_cast_no_check (eq_refl (Some protocol_read)). Qed.
Lemma protocol_file : read_file protocol_rs_lines = Some protocol_read.
Proof. apply (file_read _ protocol_table protocol_trees); [vm_cast_no_check (eq_refl protocol_rs_lines)|exact protocol_table_ok|exact protocol_trees_ok|exact protocol_read_ok]. Qed.
Lemma protocol_read_eq : protocol_items = protocol_read.
Proof. unfold protocol_items, items_of. rewrite protocol_file. reflexivity. Qed.

Ltac tabulate := unfold input_program, slice_program, reader_program, writer_program, default_methods, methods_of, free_fns; rewrite uleb_read_eq, protocol_read_eq.
Definition free_table (sse : bool) : program := fns_of sse [] uleb_read ++ consts_of [] protocol_read ++ fns_of sse [] protocol_read.
Definition methods_table (sse : bool) (tr t : string) : program :=
  fns_of sse ["."%string] (impl_items protocol_read tr t) ++ fns_of sse ["."%string] (trait_items protocol_read tr).
Definition defaults_table (sse : bool) : program :=
  filter (fun x => negb (existsb (String.eqb (fn_name (snd x))) ["skip_integer"; "skip_binary"]%string)) (methods_table sse "CompactThriftInput" "").
Definition input_table (sse : bool) : program := Eval vm_compute in if sse then defaults_table true ++ free_table true else defaults_table false ++ free_table false.
Definition slice_table (sse : bool) : program := Eval vm_compute in
  if sse then methods_table true "CompactThriftInput" "CompactThriftInputSlice" ++ free_table true else methods_table false "CompactThriftInput" "CompactThriftInputSlice" ++ free_table false.
Definition reader_table (sse : bool) : program := Eval vm_compute in
  if sse then methods_table true "CompactThriftInput" "R" ++ free_table true else methods_table false "CompactThriftInput" "R" ++ free_table false.
Definition writer_table (sse : bool) : program := Eval vm_compute in
  if sse then methods_table true "CompactThriftOutput" "W" ++ free_table true else methods_table false "CompactThriftOutput" "W" ++ free_table false.
Lemma input_table_eq : forall b, input_program b = input_table b.
Proof. tabulate. intros []; vm_compute; reflexivity. Qed.
Lemma slice_table_eq : forall b, slice_program b = slice_table b.
Proof. tabulate. intros []; vm_compute; reflexivity. Qed.
Lemma reader_table_eq : forall b, reader_program b = reader_table b.
Proof. tabulate. intros []; vm_compute; reflexivity. Qed.
Lemma writer_table_eq : forall b, writer_program b = writer_table b.
Proof. tabulate. intros []; vm_compute; reflexivity. Qed.
Definition dummy : rfn := {| fn_attrs := []; fn_name := ""; fn_params := []; fn_ret := YInfer; fn_body := None |}.
Definition pick (p : program) (n : list string) : rfn := match find_fn p n with Some f => f | None => dummy end.

(** ** The functions, by name *)
Definition m_read_len : rfn := Eval vm_compute in pick (input_table true) ["."; "read_len"]%string.
Definition m_read_i16 : rfn := Eval vm_compute in pick (input_table true) ["."; "read_i16"]%string.
Definition m_read_i32 : rfn := Eval vm_compute in pick (input_table true) ["."; "read_i32"]%string.
Definition m_read_i64 : rfn := Eval vm_compute in pick (input_table true) ["."; "read_i64"]%string.
Definition m_read_string : rfn := Eval vm_compute in pick (input_table true) ["."; "read_string"]%string.
Definition m_skip_field : rfn := Eval vm_compute in pick (input_table true) ["."; "skip_field"]%string.
Definition m_read_field_header : rfn := Eval vm_compute in pick (input_table true) ["."; "read_field_header"]%string.
Definition f_decode_uleb : rfn := Eval vm_compute in pick (input_table true) ["decode_uleb"]%string.
Definition f_encode_uleb : rfn := Eval vm_compute in pick (input_table true) ["encode_uleb"]%string.
Definition f_skip_uleb_fallback : rfn := Eval vm_compute in pick (input_table true) ["skip_uleb_fallback"]%string.
Definition f_skip_uleb_sse2 : rfn := Eval vm_compute in pick (input_table true) ["skip_uleb_sse2"]%string.
Definition f_MAX_BINARY_LEN : rfn := Eval vm_compute in pick (input_table true) ["MAX_BINARY_LEN"]%string.
Definition f_MAX_COLLECTION_LEN : rfn := Eval vm_compute in pick (input_table true) ["MAX_COLLECTION_LEN"]%string.
Definition f_read_full_field_id : rfn := Eval vm_compute in pick (input_table true) ["read_full_field_id"]%string.
Definition f_zigzag_decode16 : rfn := Eval vm_compute in pick (input_table true) ["zigzag_decode16"]%string.
Definition f_zigzag_decode32 : rfn := Eval vm_compute in pick (input_table true) ["zigzag_decode32"]%string.
Definition f_zigzag_decode64 : rfn := Eval vm_compute in pick (input_table true) ["zigzag_decode64"]%string.
Definition f_zigzag_encode16 : rfn := Eval vm_compute in pick (input_table true) ["zigzag_encode16"]%string.
Definition f_zigzag_encode32 : rfn := Eval vm_compute in pick (input_table true) ["zigzag_encode32"]%string.
Definition f_zigzag_encode64 : rfn := Eval vm_compute in pick (input_table true) ["zigzag_encode64"]%string.
Definition f_read_collection_len_and_type : rfn := Eval vm_compute in pick (input_table true) ["read_collection_len_and_type"]%string.
Definition f_read_map_len_and_types : rfn := Eval vm_compute in pick (input_table true) ["read_map_len_and_types"]%string.
Definition f_skip_collection : rfn := Eval vm_compute in pick (input_table true) ["skip_collection"]%string.
Definition f_skip_map : rfn := Eval vm_compute in pick (input_table true) ["skip_map"]%string.
Definition f_skip_field : rfn := Eval vm_compute in pick (input_table true) ["skip_field"]%string.
Definition f_write_field_header : rfn := Eval vm_compute in pick (input_table true) ["write_field_header"]%string.
Definition t_slice_read_byte : rfn := Eval vm_compute in pick (slice_table true) ["."; "read_byte"]%string.
Definition t_slice_read_double : rfn := Eval vm_compute in pick (slice_table true) ["."; "read_double"]%string.
Definition t_slice_read_binary : rfn := Eval vm_compute in pick (slice_table true) ["."; "read_binary"]%string.
Definition t_slice_skip_integer : rfn := Eval vm_compute in pick (slice_table true) ["."; "skip_integer"]%string.
Definition t_slice_skip_binary : rfn := Eval vm_compute in pick (slice_table true) ["."; "skip_binary"]%string.
Definition t_reader_read_byte : rfn := Eval vm_compute in pick (reader_table true) ["."; "read_byte"]%string.
Definition t_reader_read_double : rfn := Eval vm_compute in pick (reader_table true) ["."; "read_double"]%string.
Definition t_reader_read_binary : rfn := Eval vm_compute in pick (reader_table true) ["."; "read_binary"]%string.
Definition t_reader_skip_integer : rfn := Eval vm_compute in pick (reader_table true) ["."; "skip_integer"]%string.
Definition t_reader_skip_binary : rfn := Eval vm_compute in pick (reader_table true) ["."; "skip_binary"]%string.
Definition t_writer_write_byte : rfn := Eval vm_compute in pick (writer_table true) ["."; "write_byte"]%string.
Definition t_writer_write_len : rfn := Eval vm_compute in pick (writer_table true) ["."; "write_len"]%string.
Definition t_writer_write_i16 : rfn := Eval vm_compute in pick (writer_table true) ["."; "write_i16"]%string.
Definition t_writer_write_i32 : rfn := Eval vm_compute in pick (writer_table true) ["."; "write_i32"]%string.
Definition t_writer_write_i64 : rfn := Eval vm_compute in pick (writer_table true) ["."; "write_i64"]%string.
Definition t_writer_write_double : rfn := Eval vm_compute in pick (writer_table true) ["."; "write_double"]%string.
Definition t_writer_write_binary : rfn := Eval vm_compute in pick (writer_table true) ["."; "write_binary"]%string.
Definition t_writer_write_string : rfn := Eval vm_compute in pick (writer_table true) ["."; "write_string"]%string.
