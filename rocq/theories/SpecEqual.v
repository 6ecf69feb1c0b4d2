(** Doubles that make equality of values differ from equality of encodings. *)
From Verif Require Import Base Types.

(** Sign, eleven bits of exponent, fifty-two bits of fraction *)
Definition f64_bits (sign exponent fraction bits : Z) : Prop :=
  0 <= sign <= 1 /\ 0 <= exponent < 2 ^ 11 /\ 0 <= fraction < 2 ^ 52 /\ bits = sign * 2 ^ 63 + exponent * 2 ^ 52 + fraction.
Definition nan_bits (bits : Z) : Prop := exists s f, f <> 0 /\ f64_bits s (2 ^ 11 - 1) f bits.
Definition zero_bits (bits : Z) : Prop := exists s, f64_bits s 0 0 bits.

(** [b] is the bit pattern of a double somewhere in the value. *)
Inductive has_double (b : Z) : value -> Prop :=
| H_here : has_double b (VDouble b)
| H_vec v vs : In v vs -> has_double b v -> has_double b (VVec vs)
| H_some v : has_double b v -> has_double b (VSome v)
| H_box v : has_double b v -> has_double b (VBox v)
| H_shared u v : has_double b v -> has_double b (VShared u v)
| H_struct v vs : In v vs -> has_double b v -> has_double b (VStruct vs)
| H_union i v : has_double b v -> has_double b (VUnion i v).
Definition has_nan (v : value) : Prop := exists b, nan_bits b /\ has_double b v.
Definition has_zero (v : value) : Prop := exists b, zero_bits b /\ has_double b v.
