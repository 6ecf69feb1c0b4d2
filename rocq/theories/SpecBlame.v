(** Which definition an error of decoding is about. *)
From Coq Require Import Ascii.
From Verif Require Import Base Types.
Open Scope Z_scope.

(** [reaches E t n]: the definition [n] occurs in values of type [t]. *)
Inductive reaches (E : env) : ty -> string -> Prop :=
| Rc_here n : reaches E (TNamed n) n
| Rc_vec t n : reaches E t n -> reaches E (TVec t) n
| Rc_option t n : reaches E t n -> reaches E (TOption t) n
| Rc_box t n : reaches E t n -> reaches E (TBox t) n
| Rc_shared t n : reaches E t n -> reaches E (TShared t) n
| Rc_struct m fs f n : lookup E m = Some (DStruct fs) -> In f fs -> reaches E (f_ty f) n -> reaches E (TNamed m) n
| Rc_union m fs f n : lookup E m = Some (DUnion fs) -> In f fs -> reaches E (f_ty f) n -> reaches E (TNamed m) n.

(** The name that an error should carry: that of a required field of a struct, or of a union. *)
Inductive names_definition (E : env) (t : ty) : string -> Prop :=
| Nd_field n fs f : reaches E t n -> lookup E n = Some (DStruct fs) -> In f fs -> f_req f = true ->
    names_definition E t (n ++ "::" ++ f_name f)
| Nd_union n fs : reaches E t n -> lookup E n = Some (DUnion fs) -> names_definition E t n.
Definition has_union (E : env) (t : ty) : Prop := exists n fs, reaches E t n /\ lookup E n = Some (DUnion fs).

(** [blamed E t e]: the error [e] of decoding a [t] *)
Inductive blamed (E : env) (t : ty) : error -> Prop :=
| Bl_field n fs f : reaches E t n -> lookup E n = Some (DStruct fs) -> In f fs -> f_req f = true ->
    blamed E t (MissingField (n ++ "::" ++ f_name f))
| Bl_union : has_union E t -> blamed E t (MissingField "$struct_name")
| Bl_stop : has_union E t -> blamed E t MissingStop
| Bl_number : blamed E t InvalidNumber
| Bl_string : blamed E t InvalidString
| Bl_binary n : MAX_BINARY_LEN < n -> blamed E t (InvalidBinaryLen n)
| Bl_collection : blamed E t InvalidCollectionLen
| Bl_duplicate : blamed E t DuplicateField
| Bl_type : blamed E t InvalidType
| Bl_reserve : blamed E t ReserveError
| Bl_io k : blamed E t (IO k).

(** A name without a colon. *)
Fixpoint colonless (s : string) : Prop := match s with EmptyString => True | String a r => a <> ":"%char /\ colonless r end.
