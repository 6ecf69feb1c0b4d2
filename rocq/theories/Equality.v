(** Equality of the generated types: [derive(PartialEq)] in macros.rs:56, 131, 205 and
    encodings.rs:8, with the implementations of std for the built-in types.  Values of
    different shape have different Rust types and are never compared; the answer is
    [false] for them. *)
From Verif Require Import Base Types.

(** [f64 == f64] on bit patterns (IEEE 754): exponent all ones and fraction not zero is NaN;
    the two zeros are equal. *)
Definition f64_nan (b : Z) : bool := 9218868437227405312 <? b mod 9223372036854775808.
Definition f64_zero (b : Z) : bool := b mod 9223372036854775808 =? 0.
Definition f64_eq (a b : Z) : bool := negb (f64_nan a) && negb (f64_nan b) && ((a =? b) || (f64_zero a && f64_zero b)).

(** Slices: the same length, and element by element *)
Definition all_eq {A B} (eq : A -> B -> bool) : list A -> list B -> bool :=
  fix go (l : list A) (l' : list B) {struct l} : bool :=
    match l, l' with
    | [], [] => true
    | a :: l, b :: l' => eq a b && go l l'
    | _, _ => false
    end.

Fixpoint partial_eq (v w : value) {struct v} : bool :=
  match v, w with
  | VBool a, VBool b => Bool.eqb a b
  | VI8 a, VI8 b | VI16 a, VI16 b | VI32 a, VI32 b | VI64 a, VI64 b => a =? b
  | VDouble a, VDouble b => f64_eq a b
  | VBin a, VBin b | VStr a, VStr b => all_eq Z.eqb a b
  | VVec a, VVec b => all_eq partial_eq a b
  | VNone, VNone => true
  | VSome a, VSome b => partial_eq a b
  | VBox a, VBox b => partial_eq a b
  | VShared _ a, VShared _ b => partial_eq a b      (* Rc and Arc compare what they point to *)
  | VEncSet a, VEncSet b => a =? b
  | VStruct a, VStruct b => all_eq partial_eq a b
  | VUnion i a, VUnion j b => Nat.eqb i j && partial_eq a b
  | _, _ => false
  end.
