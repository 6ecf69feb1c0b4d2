(** Property theorem C92: exactly which input is refused with which error. *)
From Verif Require Import Base Uleb Utf8 Protocol Types Parquet SpecCompact SpecInput SpecDefault SpecAccept SpecReject Schema SampleSchema P_Default P_Reject.

(** ** C92: an error is returned, for some depth of the stack, exactly for the inputs that
    [refused] relates to that error; likewise for filling an object that has contents already,
    for panics and for skipping.  The relations of SpecReject.v say for every byte string what
    is wrong with it, first fault first, without mentioning the decoder. *)
Theorem C92_read : forall c E t s e, cfg_ok c -> acceptable E -> declared E t -> bytes s ->
  (exists d, snd (read_thrift c (slice_input c) E d t s) = Err e) <-> refused c E t s (Fails e).
Proof. exact read_error. Qed.
Print Assumptions C92_read.

Theorem C92_fill : forall c E t v s e, cfg_ok c -> acceptable E -> declared E t -> bytes s ->
  (exists d, snd (fill c (slice_input c) E d t v s) = Err e) <-> refuses c E t v s (Fails e).
Proof. exact fill_error. Qed.
Print Assumptions C92_fill.

(** Panics, other than those for want of stack or of an object of the right type. *)
Theorem C92_fill_panic : forall c E t v s p, cfg_ok c -> acceptable E -> declared E t -> bytes s -> p <> PStack -> p <> PIllTyped ->
  (exists d, snd (fill c (slice_input c) E d t v s) = Panic p) <-> refuses c E t v s (Dies p).
Proof. exact fill_panic. Qed.
Print Assumptions C92_fill_panic.

(** With enough stack every outcome is characterised. *)
Theorem C92_outcome : forall c E K d t s,
  cfg_ok c -> acceptable E -> env_closed E K = true -> declared E t -> ty_closed E t = true -> bytes s -> (need K t (List.length s) <= d)%nat ->
  (forall e, snd (read_thrift c (slice_input c) E d t s) = Err e <-> refused c E t s (Fails e)) /\
  (forall p, snd (read_thrift c (slice_input c) E d t s) = Panic p <-> refused c E t s (Dies p)) /\
  (forall v, snd (read_thrift c (slice_input c) E d t s) = Ok v <-> exists p rest, s = p ++ rest /\ accepted c E t p v).
Proof. exact read_outcome. Qed.
Print Assumptions C92_outcome.

(** A reader returns the same errors as a slice without SSE2, and the error it ends with
    where the slice is too short. *)
Theorem C92_reader : forall c E K d t r,
  cfg_ok c -> acceptable E -> env_closed E K = true -> declared E t -> ty_closed E t = true -> reader_bytes r -> (need K t (List.length (content r)) <= d)%nat ->
  (forall e, snd (read_thrift c (reader_input c) E d t r) = Err e <->
     (refused (portable c) E t (content r) (Fails e) /\ e <> IO UnexpectedEof) \/ (refused (portable c) E t (content r) too_short /\ e = ending r)) /\
  (forall p, snd (read_thrift c (reader_input c) E d t r) = Panic p <-> refused (portable c) E t (content r) (Dies p)).
Proof. exact read_reader_outcome. Qed.
Print Assumptions C92_reader.

Theorem C92_skip : forall c d ft e s, cfg_ok c -> bytes s -> (2 * List.length s + 2 <= d)%nat ->
  (forall x, snd (skip_field c (slice_input c) d ft e s) = Err x <-> stuck c ft e s (Fails x)) /\
  (forall p, snd (skip_field c (slice_input c) d ft e s) = Panic p <-> stuck c ft e s (Dies p)) /\
  (snd (skip_field c (slice_input c) d ft e s) = Ok tt <-> exists p rest, s = p ++ rest /\ passed c ft e p).
Proof. exact skip_outcome. Qed.
Print Assumptions C92_skip.

(** Every input is accepted or refused, not both, and refused for one reason. *)
Theorem C92_either : forall c E K t s, cfg_ok c -> acceptable E -> env_closed E K = true -> declared E t -> ty_closed E t = true -> bytes s ->
  ((exists v p rest, s = p ++ rest /\ accepted c E t p v) \/ (exists f, refused c E t s f)) /\
  ~ ((exists v p rest, s = p ++ rest /\ accepted c E t p v) /\ (exists f, refused c E t s f)).
Proof. exact accepted_or_refused. Qed.
Print Assumptions C92_either.

Theorem C92_one : forall c E t s f g, cfg_ok c -> acceptable E -> declared E t -> bytes s -> refused c E t s f -> refused c E t s g -> f = g.
Proof. exact refused_unique. Qed.
Print Assumptions C92_one.

Theorem C92_parquet : forall c n s e, cfg_ok c -> declared parquet_env (TNamed n) -> bytes s ->
  (exists d, snd (read_thrift c (slice_input c) parquet_env d (TNamed n) s) = Err e) <-> refused c parquet_env (TNamed n) s (Fails e).
Proof. exact (fun c n s e Hc => read_error c parquet_env (TNamed n) s e Hc parquet_acceptable). Qed.
Print Assumptions C92_parquet.

(** A required field that does not occur, and a number that goes on where the input ends. *)
Example C92_example :
  refused release64 [("S"%string, DStruct [fld 1 true TI32 "a"; fld 2 false TBool "b"])] (TNamed "S") [34; 0; 9] (Fails (MissingField "S::a")) /\
  refused release64 [("S"%string, DStruct [fld 1 true TI32 "a"; fld 2 false TBool "b"])] (TNamed "S") [21; 128; 200] (Fails (IO UnexpectedEof)).
Proof. exact refused_sample. Qed.
(** With SSE2, a number that fills the last bytes of the input. *)
Example C92_skip_example : stuck release64 5 false (repeat 128 16) (Dies PUndefined) /\ stuck release64 5 false (repeat 128 15) (Dies PSliceIndex) /\
  stuck portable64 5 false (repeat 128 16) (Fails (IO UnexpectedEof)).
Proof. exact stuck_sample. Qed.
