(** The binaries and strings of a value, and lying side by side in a byte string. *)
From Verif Require Import Base Types.

Fixpoint payloads (v : value) : list (list Z) :=
  match v with
  | VBin l | VStr l => [l]
  | VVec vs | VStruct vs => flat_map payloads vs
  | VSome w | VBox w | VShared _ w | VUnion _ w => payloads w
  | _ => []
  end.
(** [s] contains the byte strings one after another, without overlap. *)
Inductive pieces : list (list Z) -> list Z -> Prop :=
| pieces_none s : pieces [] s
| pieces_more a l ls b : pieces ls b -> pieces (l :: ls) (a ++ l ++ b).
