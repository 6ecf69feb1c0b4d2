(** Property theorems C14: reading with an older or newer schema. *)
From Verif Require Import Base Uleb Utf8 Protocol Encodings Types Parquet SpecUtf8 SpecCompact SpecInput Schema Typing SpecEvolve
  SampleSchema P_Roundtrip P_Evolve.

(** ** C14: unknown fields are ignored, missing optional ones are absent.
    Full claim: for every pair of schemas.  [C14_read_partial]: any conforming
    encoding of the writer's value, unknown fields and all, is read by a reader
    that knows fewer fields as the value without them.  [C14_written_partial]: the
    reader may also know additional optional fields.  Restricted to schemas without booleans
    behind pointers and, for the output of the writer, to ids that survive
    [write_field_header]; false without. *)
Theorem C14_read_partial : forall c E1 K1 E2 K2 t v w bs d,
  cfg_ok c -> reserve_ok c -> env_ok true E1 K1 = true -> env_ok true E2 K2 = true -> compatible false E1 E2 = true -> narrower E1 E2 ->
  ty_closed E1 t = true -> ty_closed E2 t = true -> enc E1 t v bs -> project E1 E2 t v = Some w -> (need K2 t (List.length bs) <= d)%nat ->
  both_read c (fun S I => read_thrift c I E2 d t) bs w.
Proof. exact evolve_conforming. Qed.
Print Assumptions C14_read_partial.
Theorem C14_written_partial : forall c E1 K1 E2 K2 t v w bs d,
  cfg_ok c -> reserve_ok c -> env_ok true E1 K1 = true -> fits E1 v t = true -> env_ok true E2 K2 = true -> compatible false E1 E2 = true ->
  ty_closed E2 t = true -> typed E1 t v -> write_thrift vec_write_all E1 t v [] = (bs, Ok tt) ->
  project E1 E2 t (unshare v) = Some w -> (need K2 t (List.length bs) <= d)%nat ->
  both_read c (fun S I => read_thrift c I E2 d t) bs w.
Proof. exact evolve_written. Qed.
Print Assumptions C14_written_partial.
(** Which values can be read: all, if the reader requires nothing that is optional or
    missing for the writer and knows all union variants. *)
Theorem C14_project : forall E1 E2 K2 t v,
  env_ok true E2 K2 = true -> compatible true E1 E2 = true -> ty_closed E2 t = true -> typed E1 t v ->
  exists w, project E1 E2 t v = Some w /\ typed E2 t w.
Proof. exact evolve_total. Qed.
Print Assumptions C14_project.
Theorem C14_refuted : exists E1 E2 v w bs,
  env_ok false E1 3 = true /\ wenv_ok E1 = true /\ env_ok true E2 3 = true /\ compatible true E1 E2 = true /\
  typed E1 (TNamed "S") v /\ write_thrift vec_write_all E1 (TNamed "S") v [] = (bs, Ok tt) /\ project E1 E2 (TNamed "S") v = Some w /\
  read_thrift release64 (slice_input release64) E2 50 (TNamed "S") bs = ([], Err (IO UnexpectedEof)).
Proof. exact boxed_bool_dropped. Qed.
Print Assumptions C14_refuted.

Example C14_example :
  env_ok true sample_env 6 = true /\ wenv_ok sample_env = true /\ env_ok true sample_env2 6 = true /\ compatible true sample_env sample_env2 = true /\
  typed sample_env (TNamed "Node") sample_node /\ project sample_env sample_env2 (TNamed "Node") (unshare sample_node) = Some sample_node2 /\
  read_thrift debug32 (reader_input debug32) sample_env2 431 (TNamed "Node")
    [RData (fst (write_thrift vec_write_all sample_env (TNamed "Node") sample_node [])); RData [7]] = ([RData [7]], Ok sample_node2).
Proof. repeat split; try (apply typedb_ok); vm_compute; reflexivity. Qed.
