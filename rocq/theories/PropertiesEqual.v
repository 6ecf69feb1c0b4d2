(** Equality of the generated types: C72 and C73. *)
From Verif Require Import Base Protocol Types Parquet SpecInput SpecCompact Schema Typing Equality SpecEqual P_Equal.

(** C72. A value read back is equal to the one written unless it contains a NaN, and only then. *)
Theorem C72_roundtrip : forall c E K t v bs d,
  cfg_ok c -> reserve_ok c -> env_ok false E K = true -> fits E v t = true -> typed E t v ->
  write_thrift vec_write_all E t v [] = (bs, Ok tt) -> (need K t (List.length bs) <= d)%nat ->
  exists w, both_read c (fun S I => read_thrift c I E d t) bs w /\ (partial_eq v w = true <-> ~ has_nan v).
Proof. exact equal_after_reading. Qed.
Print Assumptions C72_roundtrip.
Theorem C72_alike : forall E K t v w bs r r' bs',
  env_ok false E K = true -> fits E v t = true -> fits E w t = true -> typed E t v -> typed E t w ->
  write_thrift vec_write_all E t v [] = (bs, Ok tt) -> write_thrift vec_write_all E t w [] = (bs', Ok tt) -> bs ++ r = bs' ++ r' ->
  (partial_eq v w = true <-> ~ has_nan v).
Proof. exact alike_equal. Qed.
Print Assumptions C72_alike.
Theorem C72_symmetric : forall v w, partial_eq v w = partial_eq w v.
Proof. exact partial_eq_sym. Qed.
Print Assumptions C72_symmetric.
Theorem C72_transitive : forall v w x, partial_eq v w = true -> partial_eq w x = true -> partial_eq v x = true.
Proof. exact partial_eq_trans. Qed.
Print Assumptions C72_transitive.
(** A NaN that comes back with the same bits and is not equal to itself *)
Example C72_example_nan : let nan := 9221120237041090560 in
  snd (read_thrift release64 (slice_input release64) [] 2 TDouble (fst (write_thrift vec_write_all [] TDouble (VDouble nan) []))) = Ok (VDouble nan) /\
  partial_eq (VDouble nan) (VDouble nan) = false /\ has_nan (VSome (VDouble nan)).
Proof.
  split; [vm_compute; reflexivity|]. split; [vm_compute; reflexivity|]. exists 9221120237041090560. split; [|repeat constructor].
  exists 0, 2251799813685248. repeat split; vm_compute; congruence.
Qed.
(** The key-value pair of the parquet schema, shared and read back as a box of its own *)
Example C72_example : partial_eq (VVec [VShared true (VI32 7); VShared true (VI32 7)]) (VVec [VShared false (VI32 7); VShared false (VI32 7)]) = true /\
  partial_eq (VStruct [VStr [107]; VNone]) (VStruct [VStr [107]; VSome (VStr [])]) = false.
Proof. split; reflexivity. Qed.

(** C73. Equal values are written as the same bytes, in any sink, if the first has no zero
    among its doubles; 0.0 and -0.0 are equal and written differently. *)
Theorem C73_partial : forall W (wa : list Z -> M W unit) E t v w,
  typed E t v -> typed E t w -> partial_eq v w = true -> ~ has_zero v -> write_thrift wa E t v = write_thrift wa E t w.
Proof. exact equal_written_alike. Qed.
Print Assumptions C73_partial.
Theorem C73_refuted : exists v w, typed [] TDouble v /\ typed [] TDouble w /\ partial_eq v w = true /\
  write_thrift vec_write_all [] TDouble v [] <> write_thrift vec_write_all [] TDouble w [].
Proof. exact zeros_differ. Qed.
Print Assumptions C73_refuted.
Example C73_example : partial_eq (VDouble 4607182418800017408) (VDouble 4607182418800017408) = true /\ ~ has_zero (VDouble 4607182418800017408).
Proof.
  split; [reflexivity|]. intros (b & (s & Hs & _ & _ & Hz) & Hb). assert (Eb : b = 4607182418800017408) by (inversion Hb; reflexivity). rewrite Eb in Hz.
  assert (s = 0 \/ s = 1) as [-> | ->] by lia; vm_compute in Hz; discriminate.
Qed.
