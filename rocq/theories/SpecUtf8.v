(** Specification of UTF-8 (Unicode 15, section 3.9, D92): the encoding form of
    sequences of Unicode scalar values.  Independent of the model. *)
From Coq Require Import List ZArith.
Import ListNotations.
Open Scope Z_scope.

(** D76: any code point except the surrogates. *)
Definition scalar_value (u : Z) : Prop := 0 <= u <= 55295 \/ 57344 <= u <= 1114111.

(** Table 3-6. *)
Definition utf8_char (u : Z) : list Z :=
  if u <=? 127 then [u]
  else if u <=? 2047 then [192 + u / 64; 128 + u mod 64]
  else if u <=? 65535 then [224 + u / 4096; 128 + (u / 64) mod 64; 128 + u mod 64]
  else [240 + u / 262144; 128 + (u / 4096) mod 64; 128 + (u / 64) mod 64; 128 + u mod 64].

Definition utf8_text (us : list Z) : list Z := flat_map utf8_char us.

(** A byte string is well-formed UTF-8 iff it encodes some scalar values. *)
Definition well_formed_utf8 (bs : list Z) : Prop :=
  exists us, Forall scalar_value us /\ bs = utf8_text us.
