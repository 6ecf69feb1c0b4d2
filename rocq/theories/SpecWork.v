(** Counting the calls that decoding makes to its input. *)
From Verif Require Import Base Protocol.

(** The same input with a counter beside its state: every call of one of the methods of
    [CompactThriftInput] (protocol.rs:36-92), successful or not, adds one. *)
Definition tick {S A} (m : M S A) : M (S * nat) A :=
  fun '(s, n) => let '(s', o) := m s in ((s', Datatypes.S n), o).
Definition counting {S} (I : input S) : input (S * nat) := {|
  in_read_byte := tick (in_read_byte I);
  in_read_double := tick (in_read_double I);
  in_read_binary := tick (in_read_binary I);
  in_skip_integer := tick (in_skip_integer I);
  in_skip_binary := tick (in_skip_binary I);
  in_left := fun '(s, _) => in_left I s
|}.

(** One more call may be made than bytes are consumed, the one that fails. *)
Definition slack {A} (o : outcome A) : nat := match o with Ok _ => 0 | _ => 1 end.
