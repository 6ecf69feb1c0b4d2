(** Property theorem C91: binaries and strings are parts of the input. *)
From Coq Require Import Permutation.
From Verif Require Import Base Uleb Utf8 Protocol Types SpecCompact SpecInput SpecDefault SpecAccept SpecPieces Schema SampleSchema P_Pieces.

(** ** C91: the binaries and strings of a value that was read lie side by side in the bytes
    that were consumed, in some order; none is shared, altered, joined or invented.  Filling an
    object may also keep some it had before. *)
Theorem C91_slice : forall c E d t s rest v, cfg_ok c -> acceptable E -> declared E t -> bytes s ->
  read_thrift c (slice_input c) E d t s = (rest, Ok v) -> exists p ls, s = p ++ rest /\ Permutation (payloads v) ls /\ pieces ls p.
Proof. exact read_pieces. Qed.
Print Assumptions C91_slice.

Theorem C91_reader : forall c E K d t r r' v,
  cfg_ok c -> acceptable E -> env_closed E K = true -> declared E t -> ty_closed E t = true -> reader_bytes r ->
  read_thrift c (reader_input c) E d t r = (r', Ok v) -> exists p ls, content r = p ++ content r' /\ Permutation (payloads v) ls /\ pieces ls p.
Proof. exact reader_pieces. Qed.
Print Assumptions C91_reader.

Theorem C91_fill : forall c E d t v s rest w, cfg_ok c -> acceptable E -> declared E t -> bytes s ->
  fill c (slice_input c) E d t v s = (rest, w, Ok tt) ->
  exists p ls kept dropped, s = p ++ rest /\ Permutation (payloads w) (ls ++ kept) /\ Permutation (payloads v) (kept ++ dropped) /\ pieces ls p.
Proof. exact fill_pieces. Qed.
Print Assumptions C91_fill.

Theorem C91_volume : forall c E t p v, accepted c E t p v -> (List.length (List.concat (payloads v)) <= List.length p)%nat.
Proof. exact accepted_volume. Qed.
Print Assumptions C91_volume.

(** Two fields in the reverse of their order. *)
Example C91_example :
  read_thrift release64 (slice_input release64) [("S"%string, DStruct [fld 1 true TString "a"; fld 2 true TBinary "b"])] 5 (TNamed "S")
    [40; 1; 9; 8; 2; 2; 65; 66; 0; 7] = ([7], Ok (VStruct [VStr [65; 66]; VBin [9]])) /\
  payloads (VStruct [VStr [65; 66]; VBin [9]]) = [[65; 66]; [9]] /\ Permutation [[65; 66]; [9]] [[9]; [65; 66]] /\
  pieces [[9]; [65; 66]] [40; 1; 9; 8; 2; 2; 65; 66; 0].
Proof.
  split; [vm_compute; reflexivity|]. split; [reflexivity|]. split; [apply perm_swap|].
  exact (pieces_more [40; 1] [9] _ _ (pieces_more [8; 2; 2] [65; 66] [] [0] (pieces_none _))).
Qed.
