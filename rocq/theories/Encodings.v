(** Model of parquet/src/encodings.rs: [EncodingSet(u32)]; the state is the mask. *)
From Verif Require Import Base Uleb Protocol.

(** encodings.rs:22-33 [iter]: take the lowest set bit, clear it, until 0.
    A u32 has at most 32 set bits, the bound of the iteration. *)
Fixpoint encset_iter_go (fuel : nat) (mask : Z) : list Z :=
  match fuel with
  | O => []
  | Datatypes.S fuel' =>
      if mask =? 0 then []
      else trailing_zeros32 mask :: encset_iter_go fuel' (Z.land mask (mask - 1))
  end.
Definition encset_iter (mask : Z) : list Z := encset_iter_go 32 mask.

(** encodings.rs:13-15 [len]: [count_ones] of the mask. *)
Fixpoint count_ones_go (n : nat) (mask : Z) : Z :=
  match n with
  | O => 0
  | Datatypes.S n' => (if Z.testbit mask 0 then 1 else 0) + count_ones_go n' (Z.shiftr mask 1)
  end.
Definition encset_len (mask : Z) : Z := count_ones_go 32 mask.

(** encodings.rs:17-19 [is_empty]. *)
Definition encset_is_empty (mask : Z) : bool := mask =? 0.

Section Read.
  Context {S : Type}.
  Variable c : cfg.
  Variable I : input S.

  (** encodings.rs:52-58, the element loop. *)
  Fixpoint encset_read_loop (n : nat) (mask : Z) : M S Z :=
    match n with
    | O => ret mask
    | Datatypes.S n' =>
        let! value := read_i32 c I in
        if (value <? 0) || (31 <=? value) then fail InvalidNumber
        else encset_read_loop n' (Z.lor mask (wrapu 32 (Z.shiftl 1 value)))
    end.

  (** encodings.rs:45-62 [fill_thrift]: the new mask, assigned only on success. *)
  Definition encset_read : M S Z :=
    let! (len, element_type) := read_collection_len_and_type c I in
    if negb (element_type =? 5) then fail InvalidType
    else encset_read_loop (Z.to_nat len) 0.
End Read.

Section Write.
  Context {W : Type}.
  Variable write_all : list Z -> M W unit.

  Fixpoint write_i32s (items : list Z) : M W unit :=
    match items with
    | [] => ret tt
    | i :: items' => write_i32 write_all i ;; write_i32s items'
    end.

  (** encodings.rs:65-78 [write_thrift]. *)
  Definition encset_write (mask : Z) : M W unit :=
    let len := encset_len mask in
    (if len <? 15 then
       write_byte write_all (Z.lor 5 (wrapu 8 (Z.shiftl (wrapu 8 len) 4)))
     else
       write_byte write_all (Z.lor 5 240) ;; write_len write_all len) ;;
    write_i32s (encset_iter mask).
End Write.
