(** C58 and C66: what schema.rs shows is what the file says under these names. *)
From Verif Require Import Base Protocol Types Parquet Typing Footer SchemaTree SchemaPrint SpecInput SpecSchema P_Schema SpecSchemaNames P_SchemaNames.

(** ** C58: every element has the values that the fields of its names have in format.rs. *)
Theorem C58_names : forall v, typed parquet_env (TNamed "FileMetaData") v -> exists es, schema_of v = Some es /\ schema_says v es.
Proof. exact schema_named. Qed.
Print Assumptions C58_names.
Theorem C58_decoded_names : forall c d s s' v, cfg_ok c -> bytes s ->
  read_thrift c (slice_input c) parquet_env d (TNamed "FileMetaData") s = (s', Ok v) ->
  (exists es, schema_of v = Some es /\ schema_says v es) /\
  exists version rows created, summary_of v = Some (version, rows, created) /\ summary_says v version rows created.
Proof. exact decoded_named. Qed.
Print Assumptions C58_decoded_names.

Example C58_names_example : schema_of sample_meta = Some (flatten sample_tree) /\ schema_says sample_meta (flatten sample_tree).
Proof. exact sample_named. Qed.

(** ** C66: and so have the lines before the schema. *)
Theorem C66_names : forall v, typed parquet_env (TNamed "FileMetaData") v ->
  exists version rows created, summary_of v = Some (version, rows, created) /\ summary_says v version rows created.
Proof. exact summary_named. Qed.
Print Assumptions C66_names.

Example C66_names_example : exists version rows created, summary_of sample_meta = Some (version, rows, created) /\ summary_says sample_meta version rows created.
Proof. do 3 eexists. split; [vm_compute; reflexivity|]. repeat split. Qed.
