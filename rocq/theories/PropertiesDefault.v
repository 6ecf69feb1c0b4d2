(** Properties of default values and of filling existing objects, C86, C87. *)
From Verif Require Import Base Protocol Types Parquet SpecInput SpecDefault P_Default.
Open Scope Z_scope.

(** ** C86: default values. *)
Theorem C86_value : forall E t v, standard E t v <-> exists d, default E d t = Some v.
Proof. exact default_iff. Qed.
Print Assumptions C86_value.
Theorem C86_unique : forall E t v w, standard E t v -> standard E t w -> v = w.
Proof. exact standard_unique. Qed.
Print Assumptions C86_unique.
(** Computing a default value terminates exactly if there is no endless chain of types that need each other. *)
Theorem C86_terminates : forall E t, acceptable E -> declared E t -> ((exists v, standard E t v) <-> Acc (fun a b => needs E b a) t).
Proof. exact terminates_iff. Qed.
Print Assumptions C86_terminates.
Theorem C86_cycle : forall E t v, needs_itself E t t -> ~ standard E t v.
Proof. exact cycle_none. Qed.
Print Assumptions C86_cycle.
(** Types without default overflow the stack whatever they are read from, before the first byte is read. *)
Theorem C86_overflows : forall S c (I : input S) E d t s, (forall v, ~ standard E t v) -> read_thrift c I E d t s = (s, Panic PStack).
Proof. exact @none_overflows. Qed.
Print Assumptions C86_overflows.
Theorem C86_parquet : acceptable parquet_env /\ forall t, declared parquet_env t -> exists v, standard parquet_env t v.
Proof. exact (conj parquet_acceptable parquet_default). Qed.
Print Assumptions C86_parquet.

Example C86_example :
  standard [("A", DUnion [{| f_id := 1; f_req := true; f_ty := TNamed "B"; f_name := "b" |}]); ("B", DStruct [{| f_id := 1; f_req := false; f_ty := TBox (TNamed "A"); f_name := "a" |}; {| f_id := 2; f_req := true; f_ty := TVec (TNamed "A"); f_name := "v" |}])]
    (TNamed "A") (VUnion 0 (VStruct [VNone; VVec []])) /\
  needs_itself [("N", DStruct [{| f_id := 1; f_req := true; f_ty := TBox (TNamed "N"); f_name := "next" |}])] (TNamed "N") (TNamed "N") /\
  acceptable [("N", DStruct [{| f_id := 1; f_req := true; f_ty := TBox (TNamed "N"); f_name := "next" |}])] /\
  declared parquet_env (TNamed "FileMetaData").
Proof.
  split; [|split; [|split]].
  - eapply St_union; [reflexivity|]. eapply St_struct; [reflexivity|]. repeat constructor.
  - eapply Nt_more; [apply Nt_one; eapply Ne_struct; [reflexivity|left; reflexivity|reflexivity]|apply Ne_box].
  - intros n d. cbn [lookup]. destruct (String.eqb n "N"); [|discriminate]. intros [= <-] f [<-|[]]. eexists. reflexivity.
  - eexists. reflexivity.
Qed.

(** ** C87: a cleared object is as good as a new one. *)
Theorem C87_fill : forall S c (I : input S) E d t v s, cleared E t v -> (exists dv, default E d t = Some dv) ->
  exists s' w o, fill c I E d t v s = (s', w, o) /\
    read_thrift c I E d t s = (s', match o with Ok _ => Ok w | Err e => Err e | Panic p => Panic p end).
Proof. exact @cleared_read. Qed.
Print Assumptions C87_fill.
Theorem C87_default : forall E t v, standard E t v -> cleared E t v.
Proof. exact (fun E => proj1 (standard_cleared E)). Qed.
Print Assumptions C87_default.

Example C87_example : cleared parquet_env (TNamed "SortingColumn") (VStruct [VI32 9; VBool true; VBool true]) /\
  fill release64 (slice_input release64) parquet_env 9 (TNamed "SortingColumn") (VStruct [VI32 9; VBool true; VBool true]) [21; 4; 18; 17; 0] = ([], VStruct [VI32 2; VBool false; VBool true], Ok tt) /\
  read_thrift release64 (slice_input release64) parquet_env 9 (TNamed "SortingColumn") [21; 4; 18; 17; 0] = ([], Ok (VStruct [VI32 2; VBool false; VBool true])) /\
  fill release64 (slice_input release64) parquet_env 9 (TNamed "KeyValue") (VStruct [VStr []; VSome (VStr [65])]) [24; 1; 66; 0] = ([], VStruct [VStr [66]; VSome (VStr [65])], Ok tt).
Proof.
  split; [eapply Cl_struct; [reflexivity|repeat constructor]|]. repeat split; vm_compute; reflexivity.
Qed.
