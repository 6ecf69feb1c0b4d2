(** Property theorems C100: from the text of macros.rs to the modelled behaviour. *)
From Verif Require Import Base Protocol Types Macro RustLex RustMacro MacrosText MacroRules SpecRust RustCode SpecExpand SpecWhole P_Whole Parquet.
Open Scope Z_scope.
Open Scope list_scope.

(** ** C100: the methods that a reading of the expansion of thrift! contains do what Types.v says. *)
Theorem C100_fill : forall ms ts ds E k out l,
  read_macros macros_rs_text = Some ms -> declarations ds ts -> expand_all ds = Some E -> Forall (fun d => suitable (snd d)) ds ->
  (List.length ts + 4 <= k)%nat -> names_differ E -> expansion ms k "thrift" ts = Some out -> items_read l out ->
  forall n z f w, In (Protocol n z f w) l ->
    z = field_type E (TNamed n) /\
    forall S c (I : input S) d v s, shaped E n v ->
      fill c I E (Datatypes.S d) (TNamed n) v s =
      method (members E n) (default E d)
        (run_read (members E n) c I (fill c I E d) (fill_field c I E d) (fun ft => skip_field c I d ft false))
        (Datatypes.S (in_left I s)) f v s.
Proof. exact whole_fill. Qed.
Print Assumptions C100_fill.
Theorem C100_write : forall ms ts ds E k out l,
  read_macros macros_rs_text = Some ms -> declarations ds ts -> expand_all ds = Some E -> Forall (fun d => suitable (snd d)) ds ->
  (List.length ts + 4 <= k)%nat -> names_differ E -> expansion ms k "thrift" ts = Some out -> items_read l out ->
  forall n z f w, In (Protocol n z f w) l ->
    forall W (write_all : list Z -> M W unit) v s fuel default1, shaped E n v ->
      method (members E n) default1 (run_write (members E n) write_all (write_thrift_field write_all E)) fuel w v s =
      match write_thrift write_all E (TNamed n) v s with (s', o) => (s', v, o) end.
Proof. exact whole_write. Qed.
Print Assumptions C100_write.
Theorem C100_all : forall ms ts ds E k out l,
  read_macros macros_rs_text = Some ms -> declarations ds ts -> expand_all ds = Some E -> Forall (fun d => suitable (snd d)) ds ->
  (List.length ts + 4 <= k)%nat -> expansion ms k "thrift" ts = Some out -> items_read l out ->
  forall n d, In (n, d) E -> exists z f w, In (Protocol n z f w) l.
Proof. exact whole_all. Qed.
Print Assumptions C100_all.

(** The definitions of format.rs (C99_parquet) have different names. *)
Example C100_parquet : names_differ parquet_env /\ shaped parquet_env "TimeUnit" (VUnion 2 (VStruct [])) /\ shaped parquet_env "Type" (VI32 3).
Proof. exact whole_parquet. Qed.
