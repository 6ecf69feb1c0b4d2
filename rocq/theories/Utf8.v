(** Model of [std::str::from_utf8] as called at runtime/src/protocol.rs:74.
    Std code (core/src/str/validations.rs, run_utf8_validation): the first byte
    selects the width, the second byte has a restricted range for E0, ED, F0
    and F4. *)
From Verif Require Import Base.

Definition is_cont (b : Z) : bool := (128 <=? b) && (b <=? 191).

Fixpoint utf8_valid (l : list Z) : bool :=
  match l with
  | [] => true
  | b0 :: l0 =>
      if b0 <? 128 then utf8_valid l0
      else if (194 <=? b0) && (b0 <=? 223) then
        match l0 with
        | b1 :: l1 => is_cont b1 && utf8_valid l1
        | [] => false
        end
      else if (224 <=? b0) && (b0 <=? 239) then
        match l0 with
        | b1 :: b2 :: l2 =>
            (if b0 =? 224 then (160 <=? b1) && (b1 <=? 191)
             else if b0 =? 237 then (128 <=? b1) && (b1 <=? 159)
             else is_cont b1)
            && is_cont b2 && utf8_valid l2
        | _ => false
        end
      else if (240 <=? b0) && (b0 <=? 244) then
        match l0 with
        | b1 :: b2 :: b3 :: l3 =>
            (if b0 =? 240 then (144 <=? b1) && (b1 <=? 191)
             else if b0 =? 244 then (128 <=? b1) && (b1 <=? 143)
             else is_cont b1)
            && is_cont b2 && is_cont b3 && utf8_valid l3
        | _ => false
        end
      else false
  end.
