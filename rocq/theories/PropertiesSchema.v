(** Properties of schema.rs, C43-C48, C58, C59. *)
From Verif Require Import Base Protocol Types Parquet Schema Typing Footer SchemaTree SpecSchema SpecInput P_Schema.

(** ** C43: the tree is exactly the list.
    [element_ok]: the ranges of the element's integer types, see C58. *)
Theorem C43_accepts : forall c little alloc d els, cfg_ok c ->
  Forall element_ok els -> zlen els < 2 ^ usize_bits c -> (128 <= d)%nat -> (forall n, n <= zlen els -> alloc n = true) ->
  (exists f, convert_schema c little alloc d els = POk f) <->
  (exists t, flatten t = els /\ everywhere announced t /\ everywhere acceptable t /\ (groups t <= 127)%nat /\ required (elem t)).
Proof. intros c little alloc d els Hc. exact (convert_iff c little alloc Hc d els). Qed.
Print Assumptions C43_accepts.
Theorem C43_represents : forall c little alloc d els f, cfg_ok c ->
  Forall element_ok els -> zlen els < 2 ^ usize_bits c -> convert_schema c little alloc d els = POk f ->
  exists t, flatten t = els /\ represents little t f.
Proof. intros c little alloc d els f Hc. exact (convert_represents c little alloc Hc d els f). Qed.
Print Assumptions C43_represents.
Theorem C43_unique : forall t1 t2, everywhere announced t1 -> everywhere announced t2 -> flatten t1 = flatten t2 -> t1 = t2.
Proof. exact flatten_unique. Qed.
Print Assumptions C43_unique.

Example C43_example : Forall element_ok (flatten sample_tree) /\
  convert_schema debug64 true (fun _ => true) 128 (flatten sample_tree) = POk sample_field /\
  convert_schema debug64 true (fun _ => true) 128 (tl (flatten sample_tree)) = PErr (PSchema "Trailing schema elements after root group") /\
  convert_schema debug64 true (fun _ => true) 128 (removelast (flatten sample_tree)) = PErr (PSchema "Missing schema elements") /\
  convert_schema debug64 true (fun _ => true) 128 [] = PErr (PSchema "Empty schema").
Proof. split; [exact sample_ok|]. vm_compute. auto. Qed.

(** ** C44: leaf numbers.
    Full statement: without the bound on the length.  The numbers are u32, which hold
    the index modulo 2^32 ([C44_modulo]). *)
Theorem C44_partial : forall c little alloc d els f, cfg_ok c ->
  Forall element_ok els -> zlen els < 2 ^ usize_bits c -> zlen els <= 2 ^ 32 -> convert_schema c little alloc d els = POk f ->
  forall k i, nth_error (leaf_indexes f) k = Some i -> i = Z.of_nat k.
Proof. intros c little alloc d els f Hc. exact (convert_leaves c little alloc Hc d els f). Qed.
Print Assumptions C44_partial.
Theorem C44_modulo : forall c little alloc d els f, cfg_ok c ->
  Forall element_ok els -> zlen els < 2 ^ usize_bits c -> convert_schema c little alloc d els = POk f ->
  forall k i, nth_error (leaf_indexes f) k = Some i -> i = Z.of_nat k mod 2 ^ 32.
Proof. intros c little alloc d els f Hc. exact (convert_leaves_mod c little alloc Hc d els f). Qed.
Print Assumptions C44_modulo.

Example C44_example : convert_schema debug64 true (fun _ => true) 128 (flatten sample_tree) = POk sample_field /\ leaf_indexes sample_field = [0; 1].
Proof. vm_compute. auto. Qed.

(** ** C45: levels.
    Full statement: rep_level is the number of repeated nodes on the path, def_level the
    number of optional or repeated nodes.  The definition level counts optional nodes
    only, so the second half is false ([C45_refuted]). *)
Theorem C45_partial : forall c little alloc d els f, cfg_ok c ->
  Forall element_ok els -> zlen els < 2 ^ usize_bits c -> convert_schema c little alloc d els = POk f ->
  forall p g, on_path f p g -> def_level (common_of g) = count (is_rep Optional) p /\ rep_level (common_of g) = count (is_rep Repeated) p.
Proof. intros c little alloc d els f Hc. exact (convert_levels c little alloc Hc d els f). Qed.
Print Assumptions C45_partial.
Theorem C45_refuted : forall c little alloc, cfg_ok c -> (forall n, alloc n = true) -> exists els f p g,
  Forall element_ok els /\ convert_schema c little alloc 128 els = POk f /\ on_path f p g /\
  def_level (common_of g) = 0 /\ count (fun f => is_rep Optional f || is_rep Repeated f) p = 1.
Proof. exact definition_level_refuted. Qed.
Print Assumptions C45_refuted.

Example C45_example : exists p g, on_path sample_field p g /\ zlen p = 4 /\ def_level (common_of g) = 2 /\ rep_level (common_of g) = 1.
Proof. exact sample_path. Qed.

(** ** C46: totality. *)
Theorem C46_no_panic : forall c little alloc d els p, cfg_ok c ->
  Forall element_ok els -> zlen els < 2 ^ usize_bits c -> (128 <= d)%nat -> (forall n, n <= zlen els -> alloc n = true) ->
  convert_schema c little alloc d els <> PPanic p.
Proof. intros c little alloc d els p Hc. exact (convert_no_panic c little alloc Hc d els p). Qed.
Print Assumptions C46_no_panic.
Theorem C46_too_deep : forall c little alloc d t, cfg_ok c ->
  Forall element_ok (flatten t) -> zlen (flatten t) < 2 ^ usize_bits c -> everywhere announced t -> (127 < groups t)%nat ->
  (128 <= d)%nat -> (forall n, n <= zlen (flatten t) -> alloc n = true) -> exists m, convert_schema c little alloc d (flatten t) = PErr m.
Proof. intros c little alloc d t Hc. exact (too_deep c little alloc Hc d t). Qed.
Print Assumptions C46_too_deep.

Example C46_example : (exists f, convert_schema debug64 true (fun _ => true) 128 (flatten (deep 127)) = POk f) /\
  convert_schema debug64 true (fun _ => true) 128 (flatten (deep 128)) = PErr (PSchema "Schema is too deeply nested") /\
  convert_schema debug64 true (fun _ => true) 128 [s_group [114] None 2147483647 None] = PErr (PSchema "Invalid number of children") /\
  convert_schema debug64 true (fun _ => true) 128 [s_group [114] None (-2147483648) None] = PErr (PSchema "Invalid number of children").
Proof. split; [eexists; vm_compute; reflexivity|]. vm_compute. auto. Qed.

(** ** C47: types. *)
Theorem C47_decimal : forall p s o, try_decimal p s = POk o <-> 1 <= p <= 127 /\ -128 <= s <= p /\ o = {| d_precision := p; d_scale := s |}.
Proof. exact decimal_iff. Qed.
Print Assumptions C47_decimal.
Theorem C47_integer : forall w b o, in_s 8 w -> try_integer w b = POk o <-> 1 <= w /\ o = {| bitwidth := w; is_signed := b |}.
Proof. exact integer_iff. Qed.
Print Assumptions C47_integer.
Theorem C47_physical : forall e t p, in_opt 32 (type_length e) -> type_ e = Some t -> try_physical t (type_length e) = POk p <-> means_physical e p.
Proof. exact physical_iff. Qed.
Print Assumptions C47_physical.
Theorem C47_logical : forall l p, logical_ok l -> try_logical l = POk p <-> means_logical l p.
Proof. exact logical_iff. Qed.
Print Assumptions C47_logical.
Theorem C47_converted : forall ct p s r, try_converted ct p s = POk r <-> means_converted p s ct r.
Proof. exact converted_iff. Qed.
Print Assumptions C47_converted.
Theorem C47_group : forall l ct g, (try_group_logical l = POk g <-> means_group_logical l g) /\ (try_group_converted ct = POk g <-> means_group_converted ct g).
Proof. exact group_types. Qed.
Print Assumptions C47_group.
Theorem C47_repetition : forall z r, try_repetition z = POk r <-> means_repetition (Some z) r.
Proof. exact (fun z => repetition_iff (Some z)). Qed.
Print Assumptions C47_repetition.
(** MAP_KEY_VALUE (2) is reported as unknown for a leaf; it is not a leaf's type. *)
Theorem C47_unknown : forall z len p s id,
  (try_physical z len = PErr (PUnknownType id) <-> id = z /\ (z < 0 \/ 7 < z)) /\
  (try_converted z p s = PErr (PUnknownType id) <-> id = z /\ (z = 2 \/ z < 0 \/ 21 < z)) /\
  (try_repetition z = PErr (PUnknownType id) <-> id = z /\ (z < 0 \/ 2 < z)).
Proof. exact unknown_types. Qed.
Print Assumptions C47_unknown.
Theorem C47_no_panic : forall z len p s l q,
  try_physical z len <> PPanic q /\ try_converted z p s <> PPanic q /\ try_logical l <> PPanic q.
Proof. exact types_no_panic. Qed.
Print Assumptions C47_no_panic.

Example C47_example : try_decimal 127 (-128) = POk {| d_precision := 127; d_scale := -128 |} /\
  (forall o, try_decimal 128 0 <> POk o) /\ (forall o, try_decimal 3 4 <> POk o) /\ (forall o, try_decimal 0 0 <> POk o) /\
  try_integer 127 true = POk {| bitwidth := 127; is_signed := true |} /\ try_physical 7 (Some 2147483647) = POk (PT_FIXED_LEN_BYTE_ARRAY 2147483647) /\
  try_physical (-1) None = PErr (PUnknownType (-1)) /\ try_converted 14 None None = POk (PL_Integer {| bitwidth := 64; is_signed := false |}).
Proof. repeat split; try discriminate. Qed.

(** ** C48: lookup. *)
Theorem C48_find : forall path f g, find_field_by_path f path = Some g <-> finds f path g.
Proof. exact find_iff. Qed.
Print Assumptions C48_find.
Theorem C48_none : forall path f, find_field_by_path f path = None <-> ~ exists g, finds f path g.
Proof. exact find_none. Qed.
Print Assumptions C48_none.

Example C48_example : find_field_by_path sample_field [] = Some sample_field /\
  (exists g, find_field_by_path sample_field [[97]; [98]; [99]] = Some g /\ name (common_of g) = [99]) /\
  find_field_by_path sample_field [[97]; [98]; [99]; [99]] = None /\ find_field_by_path sample_field [[98]] = None.
Proof. split; [reflexivity|]. split; [eexists; split; reflexivity|]. split; reflexivity. Qed.

(** ** C58: the schema of decoded metadata. *)
Theorem C58_decoded : forall c little alloc d d' s s' v, cfg_ok c -> bytes s -> (128 <= d')%nat -> (forall n, n <= 10000000 -> alloc n = true) ->
  read_thrift c (slice_input c) parquet_env d (TNamed "FileMetaData") s = (s', Ok v) ->
  exists es, schema_of v = Some es /\ (forall p, convert_schema c little alloc d' es <> PPanic p) /\
    forall f, convert_schema c little alloc d' es = POk f -> (exists t, flatten t = es /\ represents little t f) /\
      (forall k i, nth_error (leaf_indexes f) k = Some i -> i = Z.of_nat k).
Proof. exact decoded_converts. Qed.
Print Assumptions C58_decoded.
Theorem C58_ranges : forall v, typed parquet_env (TNamed "FileMetaData") v -> exists es, schema_of v = Some es /\ Forall element_ok es.
Proof. exact schema_of_ranges. Qed.
Print Assumptions C58_ranges.

Example C58_example : exists d s v f, read_thrift debug64 (slice_input debug64) parquet_env d (TNamed "FileMetaData") s = ([], Ok v) /\
  schema_of v = Some (flatten sample_tree) /\ convert_schema debug64 true (fun _ => true) 128 (flatten sample_tree) = POk f.
Proof. exact sample_decodes. Qed.

(** ** C59: field ids survive their storage as bytes. *)
Theorem C59_field_id : forall little z, in_s 32 z -> field_id_to little (field_id_from little z) = z.
Proof. exact field_id_roundtrip. Qed.
Print Assumptions C59_field_id.

Example C59_example : field_id_from true (-2) = [254; 255; 255; 255] /\ field_id_from false (-2) = [255; 255; 255; 254] /\ field_id_to false [0; 0; 1; 0] = 256.
Proof. vm_compute. auto. Qed.
