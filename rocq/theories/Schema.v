(** Computable conditions on schemas used as hypotheses of the theorems.
    Everything here is a boolean function, so that a concrete schema (the parquet
    one in particular) is checked by computation. *)
From Verif Require Import Base Types SpecCompact.

(** Nesting of type constructors before a named type or scalar. *)
Fixpoint ty_depth (t : ty) : nat :=
  match t with
  | TVec t' | TOption t' | TBox t' | TShared t' => Datatypes.S (ty_depth t')
  | _ => 1
  end.

(** Every name is defined. *)
Fixpoint ty_closed (E : env) (t : ty) : bool :=
  match t with
  | TVec t' | TOption t' | TBox t' | TShared t' => ty_closed E t'
  | TNamed n => match lookup E n with Some _ => true | None => false end
  | _ => true
  end.

(** A boolean field is declared as [bool] or [Option<bool>], not behind Box, Rc
    or Arc (those do not go into the field header, see C12). *)
Fixpoint bool_direct (t : ty) : bool :=
  match t with
  | TBool => true
  | TOption t' => bool_direct t'
  | _ => negb (boolish t)
  end.

Fixpoint nodupb (l : list Z) : bool :=
  match l with
  | [] => true
  | x :: l' => negb (existsb (Z.eqb x) l') && nodupb l'
  end.

(** [def_ok strict E K d]: names defined, ids distinct within a definition, no
    boolean union variants; [K] bounds the nesting of field types.  [strict]
    additionally excludes boolean fields behind pointers. *)
Definition field_ok (strict : bool) (E : env) (K : nat) (f : field) : bool :=
  ty_closed E (f_ty f) && Nat.leb (ty_depth (field_ty f)) K
  && (negb strict || bool_direct (f_ty f)).
Definition variant_ok (E : env) (K : nat) (f : field) : bool :=
  ty_closed E (f_ty f) && Nat.leb (ty_depth (f_ty f)) K && negb (boolish (f_ty f)).
Definition def_ok (strict : bool) (E : env) (K : nat) (d : def) : bool :=
  match d with
  | DStruct fs => nodupb (map f_id fs) && forallb (field_ok strict E K) fs
  | DUnion fs => nodupb (map f_id fs) && forallb (variant_ok E K) fs
  | DEnum => true
  end.
Definition is_some {A} (o : option A) : bool := match o with Some _ => true | None => false end.

(** A schema the reader handles: all definitions are fine and no type contains
    itself without an option or list in between ([Default] terminates). *)
Definition env_ok (strict : bool) (E : env) (K : nat) : bool :=
  forallb (fun '(n, d) => def_ok strict E K d && is_some (default E K (TNamed n))) E.

(** Stack that suffices for reading [n] bytes of a [t], linear in [n]. *)
Definition need (K : nat) (t : ty) (n : nat) : nat := (ty_depth t + K + 4 + (K + 4) * n)%nat.

(** The allocator never refuses a list of admissible length. *)
Definition reserve_ok (c : cfg) : Prop := forall n, 0 <= n <= 10000000 -> reserve c n = true.

(** The part of [env_ok] that the Rust compiler enforces (up to the bound [K]):
    every name is defined and every type has a default. *)
Definition def_closed (E : env) (K : nat) (d : def) : bool :=
  match d with
  | DStruct fs => forallb (fun f => ty_closed E (f_ty f) && Nat.leb (ty_depth (field_ty f)) K) fs
  | DUnion fs => forallb (fun f => ty_closed E (f_ty f) && Nat.leb (ty_depth (f_ty f)) K) fs
  | DEnum => true
  end.
Definition env_closed (E : env) (K : nat) : bool :=
  forallb (fun '(n, d) => def_closed E K d && is_some (default E K (TNamed n))) E.
