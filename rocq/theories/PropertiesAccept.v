(** Property theorem C90: exactly which bytes are read as which value. *)
From Verif Require Import Base Uleb Utf8 Protocol Types Parquet SpecCompact SpecInput SpecDefault SpecAccept Schema SampleSchema P_Default P_Accept.

(** ** C90: a value is read, for some depth of the stack, exactly if the input begins with
    bytes that [accepted] relates to it, and what is left is the remainder; likewise for
    filling an object that has contents already and for skipping.  The relations of
    SpecAccept.v are grammars and say for every byte string, conforming or not, whether it is
    taken and as what. *)
Theorem C90_read : forall c E t s rest v, cfg_ok c -> acceptable E -> declared E t -> bytes s ->
  (exists d, read_thrift c (slice_input c) E d t s = (rest, Ok v)) <-> (exists p, s = p ++ rest /\ accepted c E t p v).
Proof. exact read_iff. Qed.
Print Assumptions C90_read.

Theorem C90_fill : forall c E t v s rest w, cfg_ok c -> acceptable E -> declared E t -> bytes s ->
  (exists d, fill c (slice_input c) E d t v s = (rest, w, Ok tt)) <-> (exists p, s = p ++ rest /\ takes c E t v p w).
Proof. exact fill_iff. Qed.
Print Assumptions C90_fill.

Theorem C90_skip : forall c ft e s rest, cfg_ok c -> bytes s ->
  (exists d, skip_field c (slice_input c) d ft e s = (rest, Ok tt)) <-> (exists p, s = p ++ rest /\ passed c ft e p).
Proof. exact skip_iff. Qed.
Print Assumptions C90_skip.

(** A reader accepts what a slice accepts without SSE2, and stands after it. *)
Theorem C90_reader : forall c E K t r rest v,
  cfg_ok c -> acceptable E -> env_closed E K = true -> declared E t -> ty_closed E t = true -> reader_bytes r ->
  (exists d r', read_thrift c (reader_input c) E d t r = (r', Ok v) /\ content r' = rest /\ ending r' = ending r) <->
  (exists p, content r = p ++ rest /\ accepted (portable c) E t p v).
Proof. exact reader_iff. Qed.
Print Assumptions C90_reader.

Theorem C90_reader_skip : forall c ft e r rest, cfg_ok c -> reader_bytes r ->
  (exists d r', skip_field c (reader_input c) d ft e r = (r', Ok tt) /\ content r' = rest /\ ending r' = ending r) <->
  (exists p, content r = p ++ rest /\ passed (portable c) ft e p).
Proof. exact reader_skip_iff. Qed.
Print Assumptions C90_reader_skip.

(** No accepted byte string is the beginning of another or stands for two values. *)
Theorem C90_unambiguous : forall c E t p q r1 r2 v w, cfg_ok c -> acceptable E -> declared E t -> bytes (p ++ r1) ->
  accepted c E t p v -> accepted c E t q w -> p ++ r1 = q ++ r2 -> p = q /\ v = w.
Proof. exact accepted_unique. Qed.
Print Assumptions C90_unambiguous.

Theorem C90_parquet : forall c n s rest v, cfg_ok c -> declared parquet_env (TNamed n) -> bytes s ->
  (exists d, read_thrift c (slice_input c) parquet_env d (TNamed n) s = (rest, Ok v)) <->
  (exists p, s = p ++ rest /\ accepted c parquet_env (TNamed n) p v).
Proof. exact (fun c n s rest v Hc => read_iff c parquet_env (TNamed n) s rest v Hc parquet_acceptable). Qed.
Print Assumptions C90_parquet.

(** A struct with a field that occurs twice, the second time with a padded id, and a
    boolean with the wire type of an i32; 17 bytes skipped with SSE2, whatever the last. *)
Example C90_example :
  accepted release64 [("S"%string, DStruct [fld 1 true TI32 "a"; fld 2 false TBool "b"])] (TNamed "S") [21; 2; 5; 130; 128; 0; 4; 21; 0]
    (VStruct [VI32 2; VSome (VBool false)]) /\
  read_thrift release64 (slice_input release64) [("S"%string, DStruct [fld 1 true TI32 "a"; fld 2 false TBool "b"])] 5 (TNamed "S") [21; 2; 5; 130; 128; 0; 4; 21; 0; 7] =
    ([7], Ok (VStruct [VI32 2; VSome (VBool false)])).
Proof. split; [exact accepted_sample|vm_compute; reflexivity]. Qed.
Example C90_skip_example : passed release64 5 false (repeat 128 16 ++ [200]) /\ ~ passed portable64 5 false (repeat 128 16 ++ [200]).
Proof. exact passed_sample. Qed.
