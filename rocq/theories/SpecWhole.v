(** C100: what is said of the methods in the expansion of a text. *)
From Verif Require Import Base Types.

(** The fields of a struct or the variants of a union *)
Definition members (E : env) (n : string) : list field :=
  match lookup E n with Some (DStruct fs) | Some (DUnion fs) => fs | _ => [] end.
(** The values that [self] can have *)
Definition shaped (E : env) (n : string) (v : value) : Prop :=
  match lookup E n, v with
  | Some (DStruct fs), VStruct vs => List.length vs = List.length fs
  | Some (DUnion fs), VUnion i _ => (i < List.length fs)%nat
  | Some DEnum, VI32 _ => True
  | _, _ => False
  end.
(** Rust requires that names are not declared twice. *)
Definition names_differ (E : env) : Prop :=
  NoDup (map fst E) /\
  Forall (fun nd => match snd nd with DStruct fs | DUnion fs => NoDup (map f_name fs) | DEnum => True end) E.
