(** What the two kinds of input hold, and what it means that a decoding function
    reads given bytes from either of them.  Used in the statements of theorems. *)
From Verif Require Import Base Protocol.

(** The bytes a reader delivers before it first fails or reports the end. *)
Fixpoint content (r : reader) : list Z :=
  match r with
  | [] => []
  | RInterrupted :: r' => content r'
  | RFail Interrupted :: r' => content r'
  | RFail _ :: _ => []
  | RData [] :: _ => []
  | RData chunk :: r' => chunk ++ content r'
  end.

(** How a reader ends after its content: the error of the next read. *)
Fixpoint ending (r : reader) : error :=
  match r with
  | [] => IO UnexpectedEof
  | RInterrupted :: r' => ending r'
  | RFail Interrupted :: r' => ending r'
  | RFail k :: _ => IO k
  | RData [] :: _ => IO UnexpectedEof
  | RData chunk :: r' => ending r'
  end.

(** [m] reads exactly the bytes [bs] from a slice, returning [a], whatever bytes
    follow. *)
Definition slice_reads {A} (m : M (list Z) A) (bs : list Z) (a : A) : Prop :=
  forall rest, bytes (bs ++ rest) -> m (bs ++ rest) = (rest, Ok a).

(** The same for a reader, whatever its chunks, interruptions and later failures;
    its ending is neither observed nor changed. *)
Definition reader_reads {A} (m : M reader A) (bs : list Z) (a : A) : Prop :=
  forall r rest, content r = bs ++ rest ->
    exists r', m r = (r', Ok a) /\ content r' = rest /\ ending r' = ending r.

(** A decoding function, given for all inputs, reads [bs] as [a] from both. *)
Definition both_read {A} (c : cfg) (m : forall S, input S -> M S A) (bs : list Z) (a : A) : Prop :=
  slice_reads (m _ (slice_input c)) bs a /\ reader_reads (m _ (reader_input c)) bs a.

(** The same for failing calls: the error is returned after consuming exactly [bs]. *)
Definition slice_fails {A} (m : M (list Z) A) (bs : list Z) (e : error) : Prop :=
  forall rest, bytes (bs ++ rest) -> m (bs ++ rest) = (rest, Err e).
Definition reader_fails {A} (m : M reader A) (bs : list Z) (e : error) : Prop :=
  forall r rest, content r = bs ++ rest ->
    exists r', m r = (r', Err e) /\ content r' = rest /\ ending r' = ending r.
Definition both_fail {A} (c : cfg) (m : forall S, input S -> M S A) (bs : list Z) (e : error) : Prop :=
  slice_fails (m _ (slice_input c)) bs e /\ reader_fails (m _ (reader_input c)) bs e.

(** [m] appends exactly [bs] to a Vec<u8> and returns [o]. *)
Definition appends {A} (m : M (list Z) A) (bs : list Z) (o : outcome A) : Prop :=
  forall w, m w = (w ++ bs, o).

(** Events that make a sink fail, and how. *)
Definition wfatal (ev : wevent) : option io_kind :=
  match ev with
  | WAccept O => Some WriteZero
  | WFail Interrupted => None
  | WFail k => Some k
  | _ => None
  end.

(** What happened to a sink that was to receive [bs]: everything arrived, or the
    script was consumed up to its first fatal event and a prefix arrived. *)
Definition received (k k' : sink) (bs : list Z) : Prop :=
  exists used, script k = used ++ script k' /\ Forall (fun ev => wfatal ev = None) used /\
               delivered k' = delivered k ++ bs.
Definition broken (k k' : sink) (bs : list Z) (kind : io_kind) : Prop :=
  exists used ev p q, script k = used ++ ev :: script k' /\ Forall (fun ev => wfatal ev = None) used /\
    wfatal ev = Some kind /\ bs = p ++ q /\ q <> [] /\ delivered k' = delivered k ++ p.

(** The (previous id, id) pairs for which field headers survive: the id differs
    by 1..15 (modulo 2^16, unless that overflows in a checked build), or no field
    came before and the id is above 15. *)
Definition header_roundtrips (c : cfg) (last id : Z) : Prop :=
  (last = 0 /\ 15 < id) \/
  (1 <= wraps 16 (id - last) <= 15 /\ (overflow_checks c = true -> last + wraps 16 (id - last) <= 32767)).

(** * Positions
    A later position of a slice is a suffix.  A reader is unfolded into single
    bytes, ends, interruptions and failures; a later position is a suffix of that. *)
Definition suffix {A} (l' l : list A) : Prop := exists p, l = p ++ l'.

Inductive atom : Type :=
| AByte (b : Z)
| AEnd
| AInterrupted
| AFail (k : io_kind).
Fixpoint atoms (r : reader) : list atom :=
  match r with
  | [] => []
  | RData [] :: r' => AEnd :: atoms r'
  | RData chunk :: r' => map AByte chunk ++ atoms r'
  | RInterrupted :: r' => AInterrupted :: atoms r'
  | RFail k :: r' => AFail k :: atoms r'
  end.
Definition later (r' r : reader) : Prop := suffix (atoms r') (atoms r).

(** A reader delivers bytes. *)
Definition reader_bytes (r : reader) : Prop :=
  Forall (fun a => match a with AByte b => is_byte b | _ => True end) (atoms r).

(** * Panics that arbitrary input can cause *)
Definition reader_panic (c : cfg) (p : panic) : Prop := overflow_checks c = true /\ p = POverflow.
Definition slice_panic (c : cfg) (p : panic) : Prop :=
  reader_panic c p \/ (sse2 c = true /\ (p = PSliceIndex \/ p = PUndefined)).

(** The same build without the SSE2 code path. *)
Definition portable (c : cfg) : cfg :=
  {| overflow_checks := overflow_checks c; sse2 := false; usize_bits := usize_bits c; reserve := reserve c |}.

(** No sixteen consecutive bytes of 128 or more. *)
Definition short_runs (s : list Z) : Prop :=
  forall p m q, s = p ++ m ++ q -> Forall (fun b => 128 <= b) m -> (List.length m < 16)%nat.

(** What a reader ending with [e] makes of the outcome [o] on a slice. *)
Definition reader_outcome {A} (o : outcome A) (e : error) : outcome A :=
  match o with Err (IO UnexpectedEof) => Err e | _ => o end.
(** Outcomes after which the position is meaningful: a value, or an error that is
    not the end of the input. *)
Definition settled {A} (o : outcome A) : Prop :=
  match o with Ok _ => True | Err (IO UnexpectedEof) => False | Err _ => True | Panic _ => False end.

(** A reader agrees with a slice. *)
Definition agrees {A} (x : list Z * outcome A) (y : reader * outcome A) (r : reader) : Prop :=
  snd y = reader_outcome (snd x) (ending r) /\
  (settled (snd x) -> content (fst y) = fst x /\ ending (fst y) = ending r).

(** Two readers gave the same outcome and, if it is a value, stand at the same byte. *)
Definition same_reads {A} (y1 y2 : reader * outcome A) : Prop :=
  snd y1 = snd y2 /\
  forall a, snd y1 = Ok a -> content (fst y1) = content (fst y2) /\ ending (fst y1) = ending (fst y2).
(** Two slices gave the same outcome and position, or the second panicked at the end. *)
Definition same_or_index {A} (x y : list Z * outcome A) : Prop :=
  (snd y = snd x /\ (settled (snd x) -> fst y = fst x)) \/
  (snd x = Err (IO UnexpectedEof) /\ snd y = Panic PSliceIndex).
(** Panics that would stand for defects of the model. *)
Definition sane (p : panic) : Prop := p <> PNonTermination /\ p <> PIllTyped.

(** Sample configurations for the examples. *)
Definition release64 : cfg := {| overflow_checks := false; sse2 := true; usize_bits := 64; reserve := fun _ => true |}.
Definition debug64 : cfg := {| overflow_checks := true; sse2 := true; usize_bits := 64; reserve := fun _ => true |}.
Definition portable64 : cfg := {| overflow_checks := false; sse2 := false; usize_bits := 64; reserve := fun _ => true |}.
Definition debug32 : cfg := {| overflow_checks := true; sse2 := false; usize_bits := 32; reserve := fun _ => true |}.
Example release64_ok : cfg_ok release64. Proof. split; [right|]; reflexivity. Qed.
Example debug64_ok : cfg_ok debug64. Proof. split; [right|]; reflexivity. Qed.
Example portable64_ok : cfg_ok portable64. Proof. split; [right|]; reflexivity. Qed.
Example debug32_ok : cfg_ok debug32. Proof. split; [left; reflexivity|discriminate]. Qed.
