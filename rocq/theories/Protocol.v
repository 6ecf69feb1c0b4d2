(** Model of runtime/src/protocol.rs. *)
From Verif Require Import Base Uleb Utf8.

(** * Zigzag (protocol.rs:22-50) *)

(** protocol.rs:23-25 *)
Definition zigzag_decode16 (i : Z) : Z := Z.lxor (wraps 16 (Z.shiftr i 1)) (- (Z.land i 1)).
(** protocol.rs:28-30 *)
Definition zigzag_decode32 (i : Z) : Z := Z.lxor (wraps 32 (Z.shiftr i 1)) (- (Z.land i 1)).
(** protocol.rs:33-35 *)
Definition zigzag_decode64 (i : Z) : Z := Z.lxor (wraps 64 (Z.shiftr i 1)) (- (Z.land i 1)).
(** protocol.rs:38-40; [i << 1] drops the top bit, [i >> 15] is arithmetic *)
Definition zigzag_encode16 (i : Z) : Z := wrapu 16 (Z.lxor (wraps 16 (Z.shiftl i 1)) (Z.shiftr i 15)).
(** protocol.rs:43-45 *)
Definition zigzag_encode32 (i : Z) : Z := wrapu 32 (Z.lxor (wraps 32 (Z.shiftl i 1)) (Z.shiftr i 31)).
(** protocol.rs:48-50 *)
Definition zigzag_encode64 (i : Z) : Z := wrapu 64 (Z.lxor (wraps 64 (Z.shiftl i 1)) (Z.shiftr i 63)).

(** * Little-endian bytes ([to_le_bytes], [from_le_bytes]) *)
Fixpoint le_bytes (n : nat) (z : Z) : list Z :=
  match n with
  | O => []
  | Datatypes.S n' => z mod 256 :: le_bytes n' (z / 256)
  end.
Fixpoint from_le_bytes (l : list Z) : Z :=
  match l with
  | [] => 0
  | b :: l' => b + 256 * from_le_bytes l'
  end.

(** * The input trait (protocol.rs:52-111)
    The overridable methods are fields; the methods that neither implementation
    overrides are the definitions below.  [in_left] is not part of the trait: it
    bounds the bytes the input can still deliver and only serves as iteration
    bound for the loops. *)
Record input (S : Type) : Type := {
  in_read_byte : M S Z;
  in_read_double : M S Z;              (* the 64-bit pattern *)
  in_read_binary : M S (list Z);
  in_skip_integer : M S unit;
  in_skip_binary : M S unit;
  in_left : S -> nat
}.
Arguments in_read_byte {S} i.
Arguments in_read_double {S} i.
Arguments in_read_binary {S} i.
Arguments in_skip_integer {S} i.
Arguments in_skip_binary {S} i.
Arguments in_left {S} i.

(** protocol.rs:54-57 [read_len]: [len as usize]; as a function of [read_byte]
    because the implementations of [read_binary] call it. *)
Definition read_len_with {S} (c : cfg) (rb : M S Z) (left : S -> nat) : M S Z :=
  let! len := decode_uleb c rb left in ret (wrapu (usize_bits c) len).

Section Generic.
  Context {S : Type}.
  Variable c : cfg.
  Variable I : input S.

  (** protocol.rs:54-57 *)
  Definition read_len : M S Z := read_len_with c (in_read_byte I) (in_left I).
  (** protocol.rs:58-61 *)
  Definition read_i16 : M S Z :=
    let! i := decode_uleb c (in_read_byte I) (in_left I) in ret (zigzag_decode16 (wrapu 16 i)).
  (** protocol.rs:62-65 *)
  Definition read_i32 : M S Z :=
    let! i := decode_uleb c (in_read_byte I) (in_left I) in ret (zigzag_decode32 (wrapu 32 i)).
  (** protocol.rs:66-69 *)
  Definition read_i64 : M S Z :=
    let! i := decode_uleb c (in_read_byte I) (in_left I) in ret (zigzag_decode64 (wrapu 64 i)).

  (** protocol.rs:72-82 [read_string]: [read_binary] then UTF-8 validation. *)
  Definition read_string : M S (list Z) :=
    let! binary := in_read_binary I in
    if utf8_valid binary then ret binary else fail InvalidString.

  (** protocol.rs:17-20 *)
  Definition read_full_field_id : M S Z :=
    let! field_id := decode_uleb c (in_read_byte I) (in_left I) in
    ret (zigzag_decode16 (wrapu 16 field_id)).

  (** protocol.rs:94-110 [read_field_header].  [last] is [*last_field_id];
      the new content is returned along with the field type.  On failure the
      Rust code leaves [*last_field_id] unchanged. *)
  Definition read_field_header (last : Z) : M S (Z * Z) :=
    let! field_header := in_read_byte I in
    if field_header =? 0 then ret (0, last)
    else
      let field_type := Z.land field_header 15 in
      let field_delta := Z.shiftr field_header 4 in
      if negb (field_delta =? 0) then
        if overflow_checks c && (32767 <? last + field_delta) then crash POverflow
        else ret (field_type, wraps 16 (last + field_delta))
      else
        let! id := read_full_field_id in
        ret (field_type, id).

  (** protocol.rs:113-129 *)
  Definition read_collection_len_and_type : M S (Z * Z) :=
    let! header := in_read_byte I in
    let field_type := Z.land header 15 in
    let maybe_len := Z.shiftr (Z.land header 240) 4 in
    let! len := (if negb (maybe_len =? 15) then ret maybe_len else read_len) in
    if MAX_COLLECTION_LEN <? len then fail InvalidCollectionLen
    else ret (len, field_type).

  (** protocol.rs:131-146 *)
  Definition read_map_len_and_types : M S (Z * Z * Z) :=
    let! len := read_len in
    if len =? 0 then ret (0, 0, 0)
    else
      let! entry_type := in_read_byte I in
      let key_type := Z.shiftr entry_type 4 in
      let val_type := Z.land entry_type 15 in
      if MAX_COLLECTION_LEN <? len then fail InvalidCollectionLen
      else ret (len, key_type, val_type).

  (** protocol.rs:244-250, the loop skipping the fields of a struct;
      [skip] is the recursive call. *)
  Fixpoint skip_struct_loop (skip : Z -> M S unit) (fuel : nat) (last : Z) : M S unit :=
    match fuel with
    | O => crash PNonTermination
    | Datatypes.S fuel' =>
        let! (field_type, last') := read_field_header last in
        if field_type =? 0 then ret tt
        else skip field_type ;; skip_struct_loop skip fuel' last'
    end.

  Definition discard {A} (m : M S A) : M S unit := m ;; ret tt.

  (** protocol.rs:148-257 [skip_collection], [skip_map], [skip_field].
      [d] is the number of further nested calls the stack admits. *)
  Fixpoint skip_field (d : nat) (field_type : Z) (inside_collection : bool) {struct d} : M S unit :=
    match d with
    | O => crash PStack
    | Datatypes.S d' =>
        (* 211-216 *)
        if (1 <=? field_type) && (field_type <=? 2) then
          if inside_collection then discard (in_read_byte I) else ret tt
        (* 217-219 *)
        else if field_type =? 3 then discard (in_read_byte I)
        (* 220-224 *)
        else if (4 <=? field_type) && (field_type <=? 6) then in_skip_integer I
        (* 225-227 *)
        else if field_type =? 7 then discard (in_read_double I)
        (* 228-232 *)
        else if field_type =? 8 then in_skip_binary I
        (* 233-236 *)
        else if (field_type =? 9) || (field_type =? 10) then skip_collection d'
        (* 237-240 *)
        else if field_type =? 11 then skip_map d'
        (* 241-251 *)
        else if field_type =? 12 then
          fun s => skip_struct_loop (fun ft => skip_field d' ft false) (Datatypes.S (in_left I s)) 0 s
        (* 252-254 *)
        else fail InvalidType
    end
  with skip_collection (d : nat) {struct d} : M S unit :=
    match d with
    | O => crash PStack
    | Datatypes.S d' =>
        let! (len, element_type) := read_collection_len_and_type in
        let n := Z.to_nat len in
        (* 151-156 *)
        if (1 <=? element_type) && (element_type <=? 3) then repeatM n (discard (in_read_byte I))
        (* 157-163 *)
        else if (4 <=? element_type) && (element_type <=? 6) then repeatM n (in_skip_integer I)
        (* 164-168 *)
        else if element_type =? 7 then repeatM n (discard (in_read_double I))
        (* 169-175 *)
        else if element_type =? 8 then repeatM n (in_skip_binary I)
        (* 176-181 *)
        else if (element_type =? 9) || (element_type =? 10) then repeatM n (skip_collection d')
        (* 182-187 *)
        else if element_type =? 11 then repeatM n (skip_map d')
        (* 188-192 *)
        else if element_type =? 12 then repeatM n (skip_field d' 12 false)
        (* 193-195 *)
        else fail InvalidType
    end
  with skip_map (d : nat) {struct d} : M S unit :=
    match d with
    | O => crash PStack
    | Datatypes.S d' =>
        let! (len, key_type, val_type) := read_map_len_and_types in
        repeatM (Z.to_nat len) (skip_field d' key_type true ;; skip_field d' val_type true)
    end.
End Generic.

(** * The slice implementation (protocol.rs:325-383); the state is the slice *)

(** protocol.rs:327-334 *)
Definition slice_read_byte : M (list Z) Z :=
  fun s => match s with
           | first :: rest => (rest, Ok first)
           | [] => (s, Err (IO UnexpectedEof))
           end.

(** protocol.rs:337-344 *)
Definition slice_read_double : M (list Z) Z :=
  fun s => if zlen s <? 8 then (s, Err (IO UnexpectedEof))
           else (skipn 8 s, Ok (from_le_bytes (firstn 8 s))).

Definition slice_left (s : list Z) : nat := List.length s.

(** protocol.rs:347-358 *)
Definition slice_read_binary (c : cfg) : M (list Z) (list Z) :=
  let! len := read_len_with c slice_read_byte slice_left in
  if MAX_BINARY_LEN <? len then fail (InvalidBinaryLen len)
  else fun s =>
    if zlen s <? len then (s, Err (IO UnexpectedEof))
    else (skipn (Z.to_nat len) s, Ok (firstn (Z.to_nat len) s)).

(** protocol.rs:372-382 *)
Definition slice_skip_binary (c : cfg) : M (list Z) unit :=
  let! len := read_len_with c slice_read_byte slice_left in
  if MAX_BINARY_LEN <? len then fail (InvalidBinaryLen len)
  else fun s =>
    if zlen s <? len then (s, Err (IO UnexpectedEof))
    else (skipn (Z.to_nat len) s, Ok tt).

(** protocol.rs:362-370 (with SSE2) or the trait default protocol.rs:83-86. *)
Definition slice_skip_integer (c : cfg) : M (list Z) unit :=
  if sse2 c then
    fun s =>
      match (if 16 <=? zlen s then skip_uleb_sse2 s else skip_uleb_fallback s) with
      | Ok s' => (s', Ok tt)
      | Err e => (s, Err e)
      | Panic p => (s, Panic p)
      end
  else decode_uleb c slice_read_byte slice_left ;; ret tt.

Definition slice_input (c : cfg) : input (list Z) := {|
  in_read_byte := slice_read_byte;
  in_read_double := slice_read_double;
  in_read_binary := slice_read_binary c;
  in_skip_integer := slice_skip_integer c;
  in_skip_binary := slice_skip_binary c;
  in_left := slice_left
|}.

(** * [std::io::Read] and the blanket implementation (protocol.rs:274-304)
    A reader is a finite script of what its successive [read] calls do:
    deliver data (as much of the chunk as the buffer takes; an empty chunk is a
    [read] returning 0), report [Interrupted], or fail.  After the script, [read]
    returns 0 for ever. *)
Inductive revent : Type :=
| RData (chunk : list Z)
| RInterrupted
| RFail (k : io_kind).

Definition reader := list revent.

(** std's default [read_exact] (library/std/src/io/mod.rs, default_read_exact):
    loop on [read], stop on 0, retry on [Interrupted].  Returns the bytes read.
    [fun] of the script; the measure is the script itself, a chunk larger than
    the wanted count is split. *)
Fixpoint read_exact_go (r : reader) (want : nat) : reader * outcome (list Z) :=
  match want with
  | O => (r, Ok [])
  | _ =>
    match r with
    | [] => ([], Err (IO UnexpectedEof))
    | RInterrupted :: r' => read_exact_go r' want
    | RFail Interrupted :: r' => read_exact_go r' want
    | RFail k :: r' => (r', Err (IO k))
    | RData [] :: r' => (r', Err (IO UnexpectedEof))
    | RData chunk :: r' =>
        let n := List.length chunk in
        if Nat.leb n want then
          match read_exact_go r' (want - n) with
          | (r'', Ok l) => (r'', Ok (chunk ++ l))
          | (r'', Err e) => (r'', Err e)
          | (r'', Panic p) => (r'', Panic p)
          end
        else (RData (skipn want chunk) :: r', Ok (firstn want chunk))
    end
  end.
Definition read_exact (want : nat) : M reader (list Z) := fun r => read_exact_go r want.

(** protocol.rs:276-280 *)
Definition reader_read_byte : M reader Z :=
  let! buf := read_exact 1 in ret (nth 0 buf 0).

(** protocol.rs:282-286 *)
Definition reader_read_double : M reader Z :=
  let! buf := read_exact 8 in ret (from_le_bytes buf).

(** An upper bound for the bytes a script can deliver. *)
Fixpoint reader_left (r : reader) : nat :=
  match r with
  | [] => O
  | RData chunk :: r' => List.length chunk + reader_left r'
  | _ :: r' => reader_left r'
  end.

(** protocol.rs:289-302; the uninitialised buffer is filled entirely by
    [read_exact] or dropped on error, so its initial content is not modelled. *)
Definition reader_read_binary (c : cfg) : M reader (list Z) :=
  let! len := read_len_with c reader_read_byte reader_left in
  if MAX_BINARY_LEN <? len then fail (InvalidBinaryLen len)
  else read_exact (Z.to_nat len).

(** Trait defaults protocol.rs:83-90 apply for [skip_integer], [skip_binary]. *)
Definition reader_input (c : cfg) : input reader := {|
  in_read_byte := reader_read_byte;
  in_read_double := reader_read_double;
  in_read_binary := reader_read_binary c;
  in_skip_integer := decode_uleb c reader_read_byte reader_left ;; ret tt;
  in_skip_binary := reader_read_binary c ;; ret tt;
  in_left := reader_left
|}.

(** * Output (protocol.rs:385-433)
    [W: Write] is reached only through [write_all]. *)
Section Output.
  Context {W : Type}.
  Variable c : cfg.
  Variable write_all : list Z -> M W unit.

  (** protocol.rs:399-402 *)
  Definition write_byte (value : Z) : M W unit := write_all [value].
  (** protocol.rs:404-406 *)
  Definition write_len (value : Z) : M W unit := encode_uleb write_byte (wrapu 64 value).
  (** protocol.rs:408-410 *)
  Definition write_i16 (value : Z) : M W unit := encode_uleb write_byte (zigzag_encode16 value).
  (** protocol.rs:412-414 *)
  Definition write_i32 (value : Z) : M W unit := encode_uleb write_byte (zigzag_encode32 value).
  (** protocol.rs:416-418 *)
  Definition write_i64 (value : Z) : M W unit := encode_uleb write_byte (zigzag_encode64 value).
  (** protocol.rs:420-423, on the 64-bit pattern *)
  Definition write_double (value : Z) : M W unit := write_all (le_bytes 8 value).
  (** protocol.rs:425-432 *)
  Definition write_binary (value : list Z) : M W unit :=
    if MAX_BINARY_LEN <? zlen value then fail (InvalidBinaryLen (zlen value))
    else write_len (zlen value) ;; write_all value.
  (** protocol.rs:393-395 *)
  Definition write_string (value : list Z) : M W unit := write_binary value.

  (** protocol.rs:260-271 [write_field_header]; returns the new [*last_field_id]. *)
  Definition write_field_header (field_type field_id last : Z) : M W Z :=
    let field_delta := wraps 16 (field_id - last) in
    (if 15 <? field_delta then
       write_byte field_type ;; write_i16 field_delta
     else
       write_byte (Z.lor field_type (wrapu 8 (Z.shiftl (wrapu 8 field_delta) 4)))) ;;
    ret field_id.
End Output.

(** [Write for Vec<u8>]: [write_all] appends and never fails. *)
Definition vec_write_all (buf : list Z) : M (list Z) unit := fun w => (w ++ buf, Ok tt).

(** An arbitrary [Write]: what has been delivered so far and a script for the
    next [write] calls.  After the script every write is accepted in full. *)
Inductive wevent : Type :=
| WAccept (n : nat)      (* accept at most n bytes; 0 is a [write] returning 0 *)
| WInterrupted
| WFail (k : io_kind).
Record sink : Type := { delivered : list Z; script : list wevent }.

(** std's default [write_all] (library/std/src/io/mod.rs). *)
Fixpoint write_all_go (out : list Z) (ws : list wevent) (buf : list Z) : sink * outcome unit :=
  match buf with
  | [] => ({| delivered := out; script := ws |}, Ok tt)
  | _ =>
    match ws with
    | [] => ({| delivered := out ++ buf; script := [] |}, Ok tt)
    | WInterrupted :: ws' => write_all_go out ws' buf
    | WFail Interrupted :: ws' => write_all_go out ws' buf
    | WFail k :: ws' => ({| delivered := out; script := ws' |}, Err (IO k))
    | WAccept O :: ws' => ({| delivered := out; script := ws' |}, Err (IO WriteZero))
    | WAccept n :: ws' => write_all_go (out ++ firstn n buf) ws' (skipn n buf)
    end
  end.
Definition sink_write_all (buf : list Z) : M sink unit :=
  fun k => write_all_go (delivered k) (script k) buf.
