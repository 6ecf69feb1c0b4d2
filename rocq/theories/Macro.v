(** runtime/src/macros.rs: from the tokens of a declaration to the types of Types.v.
    What the generated code does is in Types.v; this file models which Rust type a
    declaration expands to.  [None]: the expansion does not compile.  Not modelled: syntax errors,
    attributes, duplicate names or ids. *)
From Verif Require Import Base Types.

(** One field: [id : required|optional type<element> name = default].  In a union there is no
    requirement (macros.rs:128).  All types are identifiers. *)
Record mfield : Type := { m_id : Z; m_req : option bool; m_type : string; m_elem : option string; m_name : string; m_default : option string }.
Inductive mdef : Type :=
| MStruct (fs : list mfield)
| MUnion (fs : list mfield)
| MEnum (names : list (string * Z)).

(** A Rust type: one with an impl of the trait, or one of the two without that occur inside others. *)
Inductive rust_ty : Type := RT (t : ty) | RU8 | RStr.

Definition is (a b : string) : bool := String.eqb a b.
(** The Rust type an identifier denotes.  EncodingSet is imported at format.rs:3. *)
Definition rust_named (n : string) : rust_ty :=
  if is n "bool" then RT TBool else if is n "i8" then RT TI8 else if is n "i16" then RT TI16 else if is n "i32" then RT TI32
  else if is n "i64" then RT TI64 else if is n "f64" then RT TDouble else if is n "String" then RT TString
  else if is n "u8" then RU8 else if is n "str" then RStr else if is n "EncodingSet" then RT TEncSet else RT (TNamed n).
(** macros.rs:253-257, [__thrift_field_type!] with one token *)
Definition simple_type (n : string) : rust_ty :=
  if is n "binary" then RT TBinary else if is n "string" then RT TString else if is n "byte" then RU8 else if is n "double" then RT TDouble
  else rust_named n.
(** macros.rs:251-252, 258-260, [__thrift_field_type!] with two tokens.  Vec<u8> has its own impl
    (types.rs:127), as have Box<str>, Rc<str> and Arc<str> (types.rs:325-398). *)
Definition compound_type (n e : string) : option rust_ty :=
  if is n "list" || is n "set" then
    match simple_type e with RT t => Some (RT (TVec t)) | RU8 => Some (RT TBinary) | RStr => None end
  else if is n "Box" then
    match simple_type e with RT t => Some (RT (TBox t)) | RStr => Some (RT TString) | RU8 => None end
  else if is n "Rc" || is n "Arc" then
    match simple_type e with RT t => Some (RT (TShared t)) | RStr => Some (RT TString) | RU8 => None end
  else None.
(** The type of a field must implement the trait. *)
Definition declared_type (n : string) (e : option string) : option ty :=
  match (match e with None => Some (simple_type n) | Some e => compound_type n e end) with
  | Some (RT t) => Some t
  | _ => None
  end.

Fixpoint expand_fields (union : bool) (fs : list mfield) : option (list field) :=
  match fs with
  | [] => Some []
  | f :: fs' =>
      match declared_type (m_type f) (m_elem f), (if union then Some true else m_req f), expand_fields union fs' with
      | Some t, Some r, Some rest => Some ({| f_id := m_id f; f_req := r; f_ty := t; f_name := m_name f |} :: rest)
      | _, _, _ => None
      end
  end.
(** macros.rs:53-111, 127-186, 202-234 *)
Definition expand (d : mdef) : option def :=
  match d with
  | MStruct fs => option_map DStruct (expand_fields false fs)
  | MUnion fs => option_map DUnion (expand_fields true fs)
  | MEnum _ => Some DEnum
  end.
(** macros.rs:20-38 *)
Fixpoint expand_all (ds : list (string * mdef)) : option env :=
  match ds with
  | [] => Some []
  | (n, d) :: ds' => match expand d, expand_all ds' with Some d, Some E => Some ((n, d) :: E) | _, _ => None end
  end.
