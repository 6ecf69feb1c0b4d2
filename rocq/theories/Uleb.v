(** Model of runtime/src/uleb.rs. *)
From Verif Require Import Base.

Section Decode.
  Context {S : Type}.
  Variable c : cfg.
  (** [CompactThriftInput::read_byte] of the input the decoder is used with. *)
  Variable read_byte : M S Z.

  (** runtime/src/uleb.rs:8-18, the loop of [decode_uleb].
      [shift] is a u32: [shift += 7] panics on overflow in checked builds and
      wraps otherwise.  [wrapping_shl(shift)] masks the shift amount to six bits
      and drops bits above bit 63.  [fuel] bounds the number of iterations; it
      is an artefact of the model and its exhaustion a distinguished outcome. *)
  Fixpoint decode_uleb_loop (fuel : nat) (shift value : Z) : M S Z :=
    match fuel with
    | O => crash PNonTermination
    | Datatypes.S fuel' =>
        let! byte := read_byte in
        let value' := Z.lor value (wrapu 64 (Z.shiftl (Z.land byte 127) (shift mod 64))) in
        if overflow_checks c && (2 ^ 32 <=? shift + 7) then crash POverflow
        else
          let shift' := wrapu 32 (shift + 7) in
          if Z.land byte 128 =? 0 then ret value'
          else decode_uleb_loop fuel' shift' value'
    end.

  (** runtime/src/uleb.rs:5-19 [decode_uleb]. *)
  Definition decode_uleb (left : S -> nat) : M S Z :=
    fun s => decode_uleb_loop (Datatypes.S (left s)) 0 0 s.
End Decode.

(** [_mm_movemask_epi8] on the 16 bytes of the chunk: bit i is the top bit of byte i. *)
Fixpoint movemask (chunk : list Z) : Z :=
  match chunk with
  | [] => 0
  | b :: rest => Z.shiftr b 7 + 2 * movemask rest
  end.

(** [i32::trailing_zeros]: index of the lowest set bit, [n] if there is none. *)
Fixpoint trailing_zeros_from (n : nat) (x : Z) : Z :=
  match n with
  | O => 0
  | Datatypes.S n' => if Z.testbit x 0 then 0 else 1 + trailing_zeros_from n' (Z.shiftr x 1)
  end.
Definition trailing_zeros32 (x : Z) : Z := trailing_zeros_from 32 x.

(** runtime/src/uleb.rs:24-31 [skip_uleb_sse2]: number of bytes to drop.
    [!mask] and [mask << 1] are i32 operations, kept here as 32-bit patterns. *)
Definition skip_uleb_sse2_len (input : list Z) : Z :=
  let chunk := firstn 16 input in
  let mask := wrapu 32 (Z.lnot (movemask chunk)) in
  trailing_zeros32 (wrapu 32 (Z.shiftl mask 1)).

(** runtime/src/uleb.rs:24-31, including [get_unchecked(len..)], which is
    undefined behaviour when [len] exceeds the slice length.  The precondition
    "at least 16 bytes" (uleb.rs:21) is established by the only caller. *)
Definition skip_uleb_sse2 (input : list Z) : outcome (list Z) :=
  let len := skip_uleb_sse2_len input in
  if len <=? zlen input then Ok (skipn (Z.to_nat len) input) else Panic PUndefined.

(** runtime/src/uleb.rs:36-38: the index at which the while loop stops. *)
Fixpoint continuation_run (input : list Z) : nat :=
  match input with
  | [] => O
  | b :: rest => if Z.land b 128 =? 0 then O else Datatypes.S (continuation_run rest)
  end.

(** runtime/src/uleb.rs:34-40 [skip_uleb_fallback]; [&input[i+1..]] panics when
    [i + 1 > input.len()]. *)
Definition skip_uleb_fallback (input : list Z) : outcome (list Z) :=
  let i := continuation_run input in
  if (Nat.leb (i + 1) (List.length input)) then Ok (skipn (i + 1) input) else Panic PSliceIndex.

Section Encode.
  Context {W : Type}.
  (** [CompactThriftOutput::write_byte]. *)
  Variable write_byte : Z -> M W unit.

  (** runtime/src/uleb.rs:42-48 [encode_uleb], the value being a u64.
      A u64 needs at most ten iterations; [fuel] starts at ten.  *)
  Fixpoint encode_uleb_loop (fuel : nat) (value : Z) : M W unit :=
    match fuel with
    | O => crash PNonTermination
    | Datatypes.S fuel' =>
        if 127 <? value then
          write_byte (Z.lor (wrapu 8 value) 128) ;;
          encode_uleb_loop fuel' (Z.shiftr value 7)
        else write_byte (wrapu 8 value)
    end.
  Definition encode_uleb (value : Z) : M W unit := encode_uleb_loop 10 value.
End Encode.
