(** What it means that thrift! and the generator find the same declarations in a text. *)
From Verif Require Import Base ErrorName Types Generator ThriftLex ThriftParse SpecThrift Macro RustLex SpecRust.
Open Scope Z_scope.
Open Scope list_scope.

(** Between two openings of comments there is an end of a comment. *)
Definition unnested (s : list Z) : Prop :=
  forall a b c, s = a ++ text "/*" ++ b ++ text "/*" ++ c -> exists u v, b = u ++ text "*/" ++ v.
(** Doc comments are no attributes here. *)
Definition no_attributes (ts : list rtok) : Prop := ~ In (RPunct "#") ts.

Inductive same_type : string -> ftype -> Prop :=
| Y_base b : same_type (base_name b) (Base b)
| Y_named n : (forall b, n <> base_name b) -> same_type n (Named n).
Inductive same_field_type : string -> option string -> ftype -> Prop :=
| Y_single n t : same_type n t -> same_field_type n None t
| Y_list e t : same_type e t -> same_field_type "list" (Some e) (ListOf t)
| Y_set e t : same_type e t -> same_field_type "set" (Some e) (SetOf t).
Definition same_demand (m : option bool) (r : freq) : Prop :=
  m = match r with REQUIRED => Some true | OPTIONAL => Some false | DEFAULT => None end.
(** Default values are left out: the generator does not look at them (C52). *)
Definition same_field (m : mfield) (g : gfield) : Prop :=
  m_id m = g_id g /\ m_name m = g_name g /\ same_demand (m_req m) (g_req g) /\ same_field_type (m_type m) (m_elem m) (g_type g).
Inductive same_definition : string * mdef -> string * definition -> Prop :=
| Y_struct n ms gs : Forall2 same_field ms gs -> same_definition (n, MStruct ms) (n, StructDef gs)
| Y_union n ms gs : Forall2 same_field ms gs -> same_definition (n, MUnion ms) (n, UnionDef gs)
| Y_enum n cs : same_definition (n, MEnum cs) (n, EnumDef cs).

(** No name is given twice, which Rust would not accept. *)
Definition members (d : mdef) : list string :=
  match d with MStruct fs | MUnion fs => map m_name fs | MEnum cs => map fst cs end.
Definition distinct (ds : list (string * mdef)) : Prop :=
  NoDup (map fst ds) /\ Forall (fun nd => NoDup (members (snd nd))) ds.
