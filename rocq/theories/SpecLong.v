(** The number that a terminated sequence of bytes of any length is read as.
    Compare [digits128] of [SpecCompact], the number that it denotes. *)
From Verif Require Import Base Protocol.

(** Seven bits of each byte are laid over the bits of a 64-bit word, starting at
    seven times the position of the byte modulo 64.  What would lie above the
    word is lost. *)
Definition overlaid (bs : list Z) (v : Z) : Prop :=
  in_u 64 v /\
  forall k, 0 <= k < 64 ->
    (Z.testbit v k = true <->
     exists i b j, nth_error bs i = Some b /\ 0 <= j < 7 /\ Z.testbit b j = true /\
                   k = (7 * Z.of_nat i) mod 64 + j).

(** The bytes of a slice up to the first that ends a sequence: [p] is all of them
    or is followed by that byte. *)
Definition open_run (p rest : list Z) : Prop :=
  Forall (fun b => 128 <= b) p /\ match rest with [] => True | b :: _ => b < 128 end.

(** What skipping an integer with SSE2 does to a slice that starts with a run. *)
Definition sse2_skip (p rest : list Z) (result : list Z * outcome unit) : Prop :=
  (List.length (p ++ rest) < 16 /\ rest = [] /\ snd result = Panic PSliceIndex)%nat \/
  (List.length p < 16 /\ exists b q, rest = b :: q /\ result = (q, Ok tt))%nat \/
  (List.length p >= 16 /\ List.length (p ++ rest) = 16 /\ snd result = Panic PUndefined)%nat \/
  (List.length p >= 16 /\ exists p17 q, p ++ rest = p17 ++ q /\ List.length p17 = 17 /\ result = (q, Ok tt))%nat.
