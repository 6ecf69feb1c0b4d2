(** The schema is read from the fields of its names. *)
From Verif Require Import Base Types Parquet Typing Footer SchemaTree SchemaPrint Protocol SpecInput SpecSchema P_Schema SpecSchemaNames.
Open Scope list_scope.

Ltac struct n d H := apply (typed_struct parquet_env n (match d with DStruct l => l | _ => [] end)) in H; [|vm_compute; reflexivity];
  let vs := fresh "vs" in let Hf := fresh "Hf" in destruct H as (vs & -> & Hf); unfold d in Hf; fields Hf.
Lemma unit_named v : typed parquet_env (TNamed "TimeUnit") v -> exists u, unit_of v = Some u /\ unit_says v u.
Proof.
  intros H. apply (typed_union parquet_env "TimeUnit" (match def_TimeUnit with DUnion fs => fs | _ => [] end)) in H; [|vm_compute; reflexivity].
  destruct H as (i & f & w & -> & Hi & _). do 3 (destruct i as [|i]; [eexists; split; [reflexivity|exists w; vm_compute; reflexivity]|]). destruct i; discriminate.
Qed.
Ltac bare w := eexists; split; [reflexivity|exists w; split; [vm_compute; reflexivity|exact Coq.Init.Logic.I]].
Lemma logical_named v : typed parquet_env (TNamed "LogicalType") v -> exists l, logical_of v = Some l /\ logical_says v l.
Proof.
  intros H. apply (typed_union parquet_env "LogicalType" (match def_LogicalType with DUnion fs => fs | _ => [] end)) in H; [|vm_compute; reflexivity].
  destruct H as (i & f & w & -> & Hi & Hw).
  do 4 (destruct i as [|i]; [bare w|]).
  destruct i as [|i].
  { injection Hi as <-. cbn [f_ty] in Hw. struct "DecimalType"%string def_DecimalType Hw. inversion Hv; inversion Hv0; subst. eexists. split; [reflexivity|]. eexists. split; [vm_compute; reflexivity|]. split; vm_compute; reflexivity. }
  destruct i as [|i]; [bare w|].
  destruct i as [|i].
  { injection Hi as <-. cbn [f_ty] in Hw. struct "TimeType"%string def_TimeType Hw. inversion Hv; subst. apply unit_named in Hv0 as (u & Hu & Hn). cbn [logical_of]. rewrite Hu. eexists. split; [reflexivity|].
    eexists. split; [vm_compute; reflexivity|]. split; [vm_compute; reflexivity|]. eexists. split; [vm_compute; reflexivity|exact Hn]. }
  destruct i as [|i].
  { injection Hi as <-. cbn [f_ty] in Hw. struct "TimestampType"%string def_TimestampType Hw. inversion Hv; subst. apply unit_named in Hv0 as (u & Hu & Hn). cbn [logical_of]. rewrite Hu. eexists. split; [reflexivity|].
    eexists. split; [vm_compute; reflexivity|]. split; [vm_compute; reflexivity|]. eexists. split; [vm_compute; reflexivity|exact Hn]. }
  destruct i as [|i].
  { injection Hi as <-. cbn [f_ty] in Hw. struct "IntType"%string def_IntType Hw. inversion Hv; inversion Hv0; subst. eexists. split; [reflexivity|]. eexists. split; [vm_compute; reflexivity|]. split; vm_compute; reflexivity. }
  do 5 (destruct i as [|i]; [bare w|]).
  destruct i as [|i].
  { injection Hi as <-. cbn [f_ty] in Hw. struct "VariantType"%string def_VariantType Hw. apply typed_option in Hv as [-> | (w & -> & Hw)].
    - eexists. split; [reflexivity|]. eexists. split; vm_compute; reflexivity.
    - inversion Hw; subst. eexists. split; [reflexivity|]. eexists. split; vm_compute; reflexivity. }
  do 2 (destruct i as [|i]; [bare w|]). destruct i; discriminate.
Qed.
Lemma number_enum n v : lookup parquet_env n = Some DEnum -> typed parquet_env (TOption (TNamed n)) v -> number (i_field v) = v.
Proof. intros Hl H. apply typed_option in H as [-> | (w & -> & Hw)]; [reflexivity|]. apply typed_enum in Hw as (z & -> & _); [reflexivity|exact Hl]. Qed.
Lemma number_i32 v : typed parquet_env (TOption TI32) v -> number (i_field v) = v.
Proof. intros H. apply typed_option in H as [-> | (w & -> & Hw)]; [reflexivity|]. inversion Hw; subst. reflexivity. Qed.
Lemma element_named v : typed parquet_env (TNamed "SchemaElement") v -> exists e, element_of v = Some e /\ element_says v e.
Proof.
  intros H. struct "SchemaElement"%string def_SchemaElement H. inversion Hv2; subst. eexists. split; [reflexivity|].
  unfold element_says. cbn [type_ type_length repetition_type ename num_children converted_type scale precision field_id logicalType].
  repeat match goal with
         | H : typed parquet_env (TOption TI32) ?x |- _ => rewrite (number_i32 x H); clear H
         | H : typed parquet_env (TOption (TNamed ?n)) ?x |- context [i_field ?x] => rewrite (number_enum n x ltac:(vm_compute; reflexivity) H); clear H
         end.
  do 9 (split; [reflexivity|]). eexists. split; [reflexivity|].
  match goal with H : typed parquet_env (TOption (TNamed "LogicalType")) _ |- _ => apply typed_option in H as [-> | (w & -> & Hw)] end; [reflexivity|].
  apply logical_named in Hw as (lo & -> & Hlo). exists w. auto.
Qed.
Lemma elements_named vs : Forall (typed parquet_env (TNamed "SchemaElement")) vs -> exists es, elements_of vs = Some es /\ Forall2 element_says vs es.
Proof.
  induction 1 as [|v vs Hv _ (es & IH1 & IH2)]; [exists []; auto|]. apply element_named in Hv as (e & He & Hn). exists (e :: es). cbn [elements_of]. rewrite He, IH1. auto.
Qed.
Theorem schema_named v : typed parquet_env (TNamed "FileMetaData") v -> exists es, schema_of v = Some es /\ schema_says v es.
Proof.
  intros H. struct "FileMetaData"%string def_FileMetaData H. inversion Hv0; subst. cbn [schema_of nth].
  match goal with H : typed_seq _ _ _ |- _ => apply P_Footer.typed_seq_forall, elements_named in H as (es & He & Hn) end.
  exists es. split; [exact He|]. eexists. split; [reflexivity|exact Hn].
Qed.
Theorem summary_named v : typed parquet_env (TNamed "FileMetaData") v ->
  exists version rows created, summary_of v = Some (version, rows, created) /\ summary_says v version rows created.
Proof.
  intros H. struct "FileMetaData"%string def_FileMetaData H. inversion Hv; inversion Hv1; subst. cbn [summary_of].
  match goal with H : typed parquet_env (TOption TString) _ |- _ => apply typed_option in H as [-> | (w & -> & Hw)] end.
  - do 3 eexists. split; [reflexivity|]. repeat split.
  - inversion Hw; subst. do 3 eexists. split; [reflexivity|]. repeat split.
Qed.
Theorem decoded_named c d s s' v : cfg_ok c -> bytes s -> read_thrift c (slice_input c) parquet_env d (TNamed "FileMetaData") s = (s', Ok v) ->
  (exists es, schema_of v = Some es /\ schema_says v es) /\
  exists version rows created, summary_of v = Some (version, rows, created) /\ summary_says v version rows created.
Proof.
  intros Hc Hb H. assert (T : typed parquet_env (TNamed "FileMetaData") v) by (eapply (P_Valid.read_slice_valid c parquet_env 12); eauto).
  split; [exact (schema_named v T)|exact (summary_named v T)].
Qed.
Lemma sample_named : schema_of sample_meta = Some (flatten sample_tree) /\ schema_says sample_meta (flatten sample_tree).
Proof.
  assert (E : schema_of sample_meta = Some (flatten sample_tree)) by (vm_compute; reflexivity). split; [exact E|].
  assert (R : exists s', read_thrift debug64 (slice_input debug64) parquet_env 40 (TNamed "FileMetaData") sample_meta_bytes = (s', Ok sample_meta)) by (eexists; vm_compute; reflexivity).
  destruct R as [s' R]. destruct (decoded_named debug64 40 sample_meta_bytes s' sample_meta) as [(es & E' & S) _]; [vm_compute; auto| |exact R|].
  - unfold sample_meta_bytes. repeat constructor; cbn; try discriminate.
  - rewrite E in E'. injection E' as <-. exact S.
Qed.
