(** runtime/src/macros.rs: the other items that the macros generate, the constants and comparisons of enums
    and the constructors of structs. *)
From Verif Require Import Base Types Macro SpecEvolve.

(** * Enums *)
Fixpoint find_named {A} (n : string) (l : list (string * A)) : option A :=
  match l with
  | [] => None
  | (m, a) :: l' => if String.eqb n m then Some a else find_named n l'
  end.
(** macros.rs:216-218; [n::k], the constant [k] of the enum [n] *)
Definition constant_value (ds : list (string * mdef)) (n k : string) : option value :=
  match find_named n ds with
  | Some (MEnum cs) => option_map VI32 (find_named k cs)
  | _ => None
  end.
(** macros.rs:209-214, [From<i32>] *)
Definition enum_from (z : Z) : value := VI32 z.
(** macros.rs:205: the derived [Ord] compares the only field, as does [PartialOrd]. *)
Definition enum_cmp (v w : value) : option comparison :=
  match v, w with VI32 a, VI32 b => Some (Z.compare a b) | _, _ => None end.
(** macros.rs:205: the derived [Hash] hands the only field to the hasher, which is [write_i32]; its default implementation is
    [write] of the bytes in native order, little-endian here. *)
Definition enum_hash (v : value) : option (list Z) :=
  match v with
  | VI32 a => let u := a mod 2 ^ 32 in Some [u mod 256; u / 256 mod 256; u / 65536 mod 256; u / 16777216]
  | _ => None
  end.

(** * Constructors (macros.rs:63-70)
    An argument has its own type and is converted with [into].  Modelled are these implementations of [From] in std: every
    type to itself, to its [Option], to its [Box], [Rc] and [Arc], integers and booleans to wider integers, strings to
    [Vec<u8>]; and those of the enums.  Not modelled: conversions to [f64] and between collections. *)
Definition widens (t u : ty) : bool :=
  match t, u with
  | TBool, (TI8 | TI16 | TI32 | TI64) | TI8, (TI16 | TI32 | TI64) | TI16, (TI32 | TI64) | TI32, TI64 => true
  | _, _ => false
  end.
Definition wide_value (u : ty) (z : Z) : value :=
  match u with TI8 => VI8 z | TI16 => VI16 z | TI32 => VI32 z | _ => VI64 z end.
Definition into (E : env) (t : ty) (v : value) (u : ty) : option value :=
  if ty_eqb t u then Some v else
  match u with
  | TOption u' => if ty_eqb t u' then Some (VSome v) else None
  | TBox u' => if ty_eqb t u' then Some (VBox v) else None
  | TShared u' => if ty_eqb t u' then Some (VShared true v) else None
  | TNamed n => match t, v, lookup E n with TI32, VI32 z, Some DEnum => Some (enum_from z) | _, _, _ => None end
  | TBinary => match t, v with TString, VStr l => Some (VBin l) | _, _ => None end
  | _ =>
      if widens t u then
        match v with
        | VBool b => Some (wide_value u (if b then 1 else 0))
        | VI8 z | VI16 z | VI32 z => Some (wide_value u z)
        | _ => None
        end
      else None
  end.
(** [None]: does not compile. *)
Fixpoint new_fields (E : env) (fs : list field) (args : list (ty * value)) : option (list value) :=
  match fs, args with
  | [], [] => Some []
  | f :: fs', (t, v) :: args' =>
      match into E t v (field_ty f), new_fields E fs' args' with
      | Some w, Some ws => Some (w :: ws)
      | _, _ => None
      end
  | _, _ => None
  end.
Definition new (E : env) (n : string) (args : list (ty * value)) : option value :=
  match lookup E n with
  | Some (DStruct fs) => option_map VStruct (new_fields E fs args)
  | _ => None
  end.
