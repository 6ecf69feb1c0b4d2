(** Property theorem C95: several values one after another. *)
From Verif Require Import Base Uleb Protocol Types Parquet SpecCompact SpecInput SpecDefault SpecAccept SpecStream Schema SampleSchema Typing P_Stream.

(** ** C95: byte strings that are each read to their end as some value can be put one after
    another, and reading repeatedly returns these values, whatever follows. *)
Theorem C95_slice : forall c E K d ts bss vs rest,
  cfg_ok c -> env_closed E K = true -> Forall (fun t => ty_closed E t = true) ts -> bytes (List.concat bss ++ rest) ->
  each (fun t bs v => read_thrift c (slice_input c) E d t bs = ([], Ok v)) ts bss vs ->
  read_stream c (slice_input c) E d ts (List.concat bss ++ rest) = (rest, Ok vs).
Proof. exact stream_slice. Qed.
Print Assumptions C95_slice.

Theorem C95_reader : forall c E K d ts bss vs r rest,
  cfg_ok c -> env_closed E K = true -> Forall (fun t => ty_closed E t = true) ts -> reader_bytes r -> content r = List.concat bss ++ rest ->
  each (fun t bs v => read_thrift (portable c) (slice_input (portable c)) E d t bs = ([], Ok v)) ts bss vs ->
  exists r', read_stream c (reader_input c) E d ts r = (r', Ok vs) /\ content r' = rest /\ ending r' = ending r.
Proof. exact stream_reader. Qed.
Print Assumptions C95_reader.

(** Conversely, whatever is read repeatedly is made of such byte strings, in one way. *)
Theorem C95_split : forall c E ts s rest vs, cfg_ok c -> acceptable E -> Forall (declared E) ts -> bytes s ->
  (exists d, read_stream c (slice_input c) E d ts s = (rest, Ok vs)) <->
  (exists ps, s = List.concat ps ++ rest /\ each (accepted c E) ts ps vs).
Proof. exact stream_iff. Qed.
Print Assumptions C95_split.

Theorem C95_unique : forall c E ts ps qs vs ws r1 r2, cfg_ok c -> acceptable E -> Forall (declared E) ts -> bytes (List.concat ps ++ r1) ->
  each (accepted c E) ts ps vs -> each (accepted c E) ts qs ws -> List.concat ps ++ r1 = List.concat qs ++ r2 -> ps = qs /\ vs = ws /\ r1 = r2.
Proof. exact stream_unique. Qed.
Print Assumptions C95_unique.

(** Writing repeatedly puts the encodings one after another, up to the first failure. *)
Theorem C95_write : forall E tvs w, exists bss, write_stream vec_write_all E tvs w = (w ++ List.concat bss, snd (write_stream vec_write_all E tvs w)) /\
  ((snd (write_stream vec_write_all E tvs w) = Ok tt /\ Forall2 (fun tv bs => write_thrift vec_write_all E (fst tv) (snd tv) [] = (bs, Ok tt)) tvs bss) \/
   (exists before tv after bss' b, tvs = before ++ tv :: after /\ bss = bss' ++ [b] /\
      Forall2 (fun tv bs => write_thrift vec_write_all E (fst tv) (snd tv) [] = (bs, Ok tt)) before bss' /\
      write_thrift vec_write_all E (fst tv) (snd tv) [] = (b, snd (write_stream vec_write_all E tvs w)) /\ snd (write_stream vec_write_all E tvs w) <> Ok tt)).
Proof. exact stream_write. Qed.
Print Assumptions C95_write.

Theorem C95_parquet : forall c tvs bs, cfg_ok c -> reserve_ok c -> Forall (fun tv => typed parquet_env (fst tv) (snd tv)) tvs ->
  write_stream vec_write_all parquet_env tvs [] = (bs, Ok tt) ->
  exists d0, forall d, (d0 <= d)%nat -> both_read c (fun S I => read_stream c I parquet_env d (map fst tvs)) bs (map (fun tv => unshare (snd tv)) tvs).
Proof. exact stream_parquet. Qed.
Print Assumptions C95_parquet.

Example C95_example :
  write_stream vec_write_all parquet_env [(TI32, VI32 (-1)); (TNamed "KeyValue", VStruct [VStr [107]; VNone]); (TString, VStr [])] [] = ([1; 24; 1; 107; 0; 0], Ok tt) /\
  read_stream release64 (slice_input release64) parquet_env 9 [TI32; TNamed "KeyValue"; TString] [1; 24; 1; 107; 0; 0; 5] = ([5], Ok [VI32 (-1); VStruct [VStr [107]; VNone]; VStr []]).
Proof. split; vm_compute; reflexivity. Qed.
