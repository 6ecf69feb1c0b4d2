(** Common vocabulary of the model: outcomes, errors, machine integers, build
    configuration.  Everything here is executable. *)
From Coq Require Export List ZArith Lia Bool String.
Export ListNotations.
Open Scope Z_scope.

(** runtime/src/error.rs:22 [IO(ErrorKind)].  [std::io::ErrorKind] is open-ended;
    the three kinds the code itself produces or treats specially are named, all
    others are [Other n]. *)
Inductive io_kind : Type :=
| UnexpectedEof
| WriteZero
| Interrupted
| InvalidInput
| OtherKind (n : nat).

(** runtime/src/error.rs:10-23 [enum ThriftError]. *)
Inductive error : Type :=
| InvalidNumber
| InvalidString
| InvalidBinaryLen (n : Z)
| InvalidCollectionLen
| MissingField (name : string)
| MissingValue
| MissingStop
| DuplicateField
| InvalidType
| ReserveError
| IO (k : io_kind).

(** Ways in which the Rust program does not return a [Result]. *)
Inductive panic : Type :=
| POverflow          (* arithmetic overflow with overflow checks enabled *)
| PSliceIndex        (* slice index out of range *)
| PAssert            (* failed assert! *)
| PUndefined         (* undefined behaviour: unchecked access out of bounds *)
| PStack             (* recursion deeper than the available stack *)
| PAlloc             (* capacity overflow or refused allocation in an infallible Vec operation *)
| PNonTermination    (* a loop of the model ran out of its iteration bound *)
| PIllTyped.         (* a state the Rust type system excludes *)

Inductive outcome (A : Type) : Type :=
| Ok (a : A)
| Err (e : error)
| Panic (p : panic).
Arguments Ok {A} a.
Arguments Err {A} e.
Arguments Panic {A} p.

(** A call through [&mut S] returning [Result<A, ThriftError>]: the state is
    returned in every case, because the caller can observe it after a failure. *)
Definition M (S A : Type) : Type := S -> S * outcome A.

Definition bind {S A B} (m : M S A) (f : A -> M S B) : M S B :=
  fun s => match m s with
           | (s', Ok a) => f a s'
           | (s', Err e) => (s', Err e)
           | (s', Panic p) => (s', Panic p)
           end.
Definition ret {S A} (a : A) : M S A := fun s => (s, Ok a).
Definition fail {S A} (e : error) : M S A := fun s => (s, Err e).
Definition crash {S A} (p : panic) : M S A := fun s => (s, Panic p).

Declare Scope monad_scope.
Delimit Scope monad_scope with monad.
Notation "'let!' x := m 'in' k" := (bind m (fun x => k))
  (at level 200, x pattern, m at level 100, k at level 200, right associativity) : monad_scope.
Notation "m ;; k" := (bind m (fun _ => k))
  (at level 100, k at level 200, right associativity) : monad_scope.
Open Scope monad_scope.

(** [for _ in 0..n { m?; }] *)
Fixpoint repeatM {S} (n : nat) (m : M S unit) : M S unit :=
  match n with
  | O => ret tt
  | Datatypes.S n' => m ;; repeatM n' m
  end.

(** Machine integers: [as uN] and [as iN] casts. *)
Definition wrapu (n z : Z) : Z := z mod 2 ^ n.
Definition wraps (n z : Z) : Z := (z + 2 ^ (n - 1)) mod 2 ^ n - 2 ^ (n - 1).

(** Ranges of the Rust integer types. *)
Definition in_u (n z : Z) : Prop := 0 <= z < 2 ^ n.
Definition in_s (n z : Z) : Prop := - 2 ^ (n - 1) <= z < 2 ^ (n - 1).
Definition in_ub (n z : Z) : bool := (0 <=? z) && (z <? 2 ^ n).
Definition in_sb (n z : Z) : bool := (- 2 ^ (n - 1) <=? z) && (z <? 2 ^ (n - 1)).

(** A byte. *)
Definition is_byte (b : Z) : Prop := 0 <= b < 256.
Definition is_byteb (b : Z) : bool := (0 <=? b) && (b <? 256).
Definition bytes (l : list Z) : Prop := Forall is_byte l.

(** Length of a slice, as the integer the code computes with. *)
Definition zlen {A} (l : list A) : Z := Z.of_nat (List.length l).

(** Build configuration.
    [overflow_checks]: debug (panic on overflow) or release (wrap) arithmetic.
    [sse2]: target feature guarding uleb.rs:22 and protocol.rs:361.
    [usize_bits]: pointer width.
    [reserve]: whether [Vec::try_reserve] (types.rs:200) succeeds for that many
    elements; the allocator is an oracle. *)
Record cfg : Type := {
  overflow_checks : bool;
  sse2 : bool;
  usize_bits : Z;
  reserve : Z -> bool
}.

(** runtime/src/protocol.rs:13-14 *)
Definition MAX_BINARY_LEN : Z := 16 * 1024 * 1024.
Definition MAX_COLLECTION_LEN : Z := 10000000.

(** Configurations the source compiles for: the SSE2 path uses
    [std::arch::x86_64] (uleb.rs:25), so it only exists with 64-bit pointers;
    [usize] is at least 32 bits wide on the std platforms considered. *)
Definition cfg_ok (c : cfg) : Prop :=
  (usize_bits c = 32 \/ usize_bits c = 64) /\ (sse2 c = true -> usize_bits c = 64).
