(** How large a value is, and how large a value a byte can bring about. *)
From Verif Require Import Base Types Schema.

Fixpoint nodes (v : value) : nat :=
  match v with
  | VBin l | VStr l => (1 + List.length l)%nat
  | VVec vs | VStruct vs => Datatypes.S (list_sum (map nodes vs))
  | VSome w | VBox w | VShared _ w | VUnion _ w => Datatypes.S (nodes w)
  | _ => 1%nat
  end.
(** Size of the default value of a type *)
Definition default_nodes (E : env) (K : nat) (t : ty) : nat :=
  match default E (ty_depth t + K) t with Some v => nodes v | None => 0%nat end.
(** The default values on the way to the innermost type *)
Fixpoint worst (E : env) (K : nat) (t : ty) : nat :=
  default_nodes E K t + match t with TVec t' | TOption t' | TBox t' | TShared t' => worst E K t' | _ => 0%nat end.
Definition worst_def (E : env) (K : nat) (d : def) : nat :=
  match d with
  | DStruct fs => list_max (map (fun f => worst E K (field_ty f)) fs)
  | DUnion fs => list_max (map (fun f => worst E K (f_ty f)) fs)
  | DEnum => 0%nat
  end.
(** What one byte of input can bring about at most: a constant of the schema *)
Definition per_byte (E : env) (K : nat) (t : ty) : nat := Nat.max (worst E K t) (list_max (map (fun nd => worst_def E K (snd nd)) E)).
