(** Default values, and objects that are ready to be filled. *)
From Verif Require Import Base Types.
Open Scope Z_scope.

(** [standard E t v]: [v] is what [Default::default()] is documented to give for [t]: zero, empty, absent, the
    contents by default, all fields by default, the first variant. *)
Inductive standard (E : env) : ty -> value -> Prop :=
| St_bool : standard E TBool (VBool false)
| St_i8 : standard E TI8 (VI8 0)
| St_i16 : standard E TI16 (VI16 0)
| St_i32 : standard E TI32 (VI32 0)
| St_i64 : standard E TI64 (VI64 0)
| St_double : standard E TDouble (VDouble 0)
| St_binary : standard E TBinary (VBin [])
| St_string : standard E TString (VStr [])
| St_encset : standard E TEncSet (VEncSet 0)
| St_vec t : standard E (TVec t) (VVec [])
| St_option t : standard E (TOption t) VNone
| St_box t v : standard E t v -> standard E (TBox t) (VBox v)
| St_shared t v : standard E t v -> standard E (TShared t) (VShared true v)
| St_struct n fs vs : lookup E n = Some (DStruct fs) -> standard_fields E fs vs -> standard E (TNamed n) (VStruct vs)
| St_union n f fs v : lookup E n = Some (DUnion (f :: fs)) -> standard E (f_ty f) v -> standard E (TNamed n) (VUnion 0 v)
| St_enum n : lookup E n = Some DEnum -> standard E (TNamed n) (VI32 0)
with standard_fields (E : env) : list field -> list value -> Prop :=
| Sf_nil : standard_fields E [] []
| Sf_cons f fs v vs : standard E (if f_req f then f_ty f else TOption (f_ty f)) v -> standard_fields E fs vs -> standard_fields E (f :: fs) (v :: vs).

(** [needs E t t']: a default of [t] is made of one of [t']. *)
Inductive needs (E : env) : ty -> ty -> Prop :=
| Ne_box t : needs E (TBox t) t
| Ne_shared t : needs E (TShared t) t
| Ne_struct n fs f : lookup E n = Some (DStruct fs) -> In f fs -> f_req f = true -> needs E (TNamed n) (f_ty f)
| Ne_union n f fs : lookup E n = Some (DUnion (f :: fs)) -> needs E (TNamed n) (f_ty f).
Inductive needs_itself (E : env) (t : ty) : ty -> Prop :=
| Nt_one t' : needs E t t' -> needs_itself E t t'
| Nt_more t' t'' : needs_itself E t t' -> needs E t' t'' -> needs_itself E t t''.

(** A schema that Rust accepts: names are declared, unions have a variant. *)
Fixpoint declared (E : env) (t : ty) : Prop :=
  match t with
  | TVec t' | TOption t' | TBox t' | TShared t' => declared E t'
  | TNamed n => exists d, lookup E n = Some d
  | _ => True
  end.
Definition acceptable (E : env) : Prop := forall n d, lookup E n = Some d ->
  match d with
  | DStruct fs => forall f, In f fs -> declared E (f_ty f)
  | DUnion fs => fs <> [] /\ forall f, In f fs -> declared E (f_ty f)
  | DEnum => True
  end.

(** [cleared E t v]: an object of type [t] without optional contents, whatever its required parts hold. *)
Inductive cleared (E : env) : ty -> value -> Prop :=
| Cl_bool v : cleared E TBool v
| Cl_i8 v : cleared E TI8 v
| Cl_i16 v : cleared E TI16 v
| Cl_i32 v : cleared E TI32 v
| Cl_i64 v : cleared E TI64 v
| Cl_double v : cleared E TDouble v
| Cl_binary v : cleared E TBinary v
| Cl_string v : cleared E TString v
| Cl_encset v : cleared E TEncSet v
| Cl_vec t v : cleared E (TVec t) v
| Cl_option t : cleared E (TOption t) VNone
| Cl_box t v : cleared E t v -> cleared E (TBox t) (VBox v)
| Cl_shared t v : cleared E t v -> cleared E (TShared t) (VShared true v)
| Cl_struct n fs vs : lookup E n = Some (DStruct fs) -> cleared_fields E fs vs -> cleared E (TNamed n) (VStruct vs)
| Cl_union n fs v : lookup E n = Some (DUnion fs) -> cleared E (TNamed n) v
| Cl_enum n v : lookup E n = Some DEnum -> cleared E (TNamed n) v
with cleared_fields (E : env) : list field -> list value -> Prop :=
| Cf_nil : cleared_fields E [] []
| Cf_cons f fs v vs : cleared E (if f_req f then f_ty f else TOption (f_ty f)) v -> cleared_fields E fs vs -> cleared_fields E (f :: fs) (v :: vs).

Scheme standard_mind := Minimality for standard Sort Prop with standard_fields_mind := Minimality for standard_fields Sort Prop.
Combined Scheme standard_mutind from standard_mind, standard_fields_mind.
Scheme cleared_mind := Minimality for cleared Sort Prop with cleared_fields_mind := Minimality for cleared_fields Sort Prop.
Combined Scheme cleared_mutind from cleared_mind, cleared_fields_mind.
