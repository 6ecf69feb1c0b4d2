(** What a constructor may do to its arguments: wrap them, or change their representation.  No function of the model is used. *)
From Verif Require Import Base Types.

(** The number that a value stands for. *)
Definition number_in (v : value) : option Z :=
  match v with
  | VBool b => Some (if b then 1 else 0)
  | VI8 z | VI16 z | VI32 z | VI64 z => Some z
  | _ => None
  end.
(** [carried a v]: the argument [a] is what the field [v] contains. *)
Inductive carried (a : value) : value -> Prop :=
| ca_same : carried a a
| ca_option : carried a (VSome a)
| ca_box : carried a (VBox a)
| ca_shared : carried a (VShared true a)
| ca_number z v : number_in a = Some z -> number_in v = Some z -> carried a v
| ca_bytes l : a = VStr l -> carried a (VBin l).
