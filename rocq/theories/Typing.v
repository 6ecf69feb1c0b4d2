(** Which model values stand for values of the Rust types, which of them the
    writer refuses, and what schema the writer handles.  Independent of the
    reading and writing functions. *)
From Verif Require Import Base Types SpecUtf8 SpecCompact Schema.

(** [typed E t v]: [v] is a value of the Rust type [t].  An EncodingSet can only
    be obtained by [Default] or by decoding (its field is private), hence the
    bound on the mask. *)
Inductive typed (E : env) : ty -> value -> Prop :=
| ty_bool b : typed E TBool (VBool b)
| ty_i8 z : in_s 8 z -> typed E TI8 (VI8 z)
| ty_i16 z : in_s 16 z -> typed E TI16 (VI16 z)
| ty_i32 z : in_s 32 z -> typed E TI32 (VI32 z)
| ty_i64 z : in_s 64 z -> typed E TI64 (VI64 z)
| ty_double z : in_u 64 z -> typed E TDouble (VDouble z)
| ty_bin l : bytes l -> typed E TBinary (VBin l)
| ty_str l : bytes l -> well_formed_utf8 l -> typed E TString (VStr l)
| ty_vec t vs : ty_closed E t = true -> typed_seq E t vs -> typed E (TVec t) (VVec vs)
| ty_none t : ty_closed E t = true -> typed E (TOption t) VNone
| ty_some t v : typed E t v -> typed E (TOption t) (VSome v)
| ty_box t v : typed E t v -> typed E (TBox t) (VBox v)
| ty_shared t u v : typed E t v -> typed E (TShared t) (VShared u v)
| ty_encset m : in_u 31 m -> typed E TEncSet (VEncSet m)
| ty_enum n z : lookup E n = Some DEnum -> in_s 32 z -> typed E (TNamed n) (VI32 z)
| ty_struct n fs vs : lookup E n = Some (DStruct fs) -> typed_fields E fs vs -> typed E (TNamed n) (VStruct vs)
| ty_union n fs i f v :
    lookup E n = Some (DUnion fs) -> nth_error fs i = Some f -> typed E (f_ty f) v ->
    typed E (TNamed n) (VUnion i v)
with typed_seq (E : env) : ty -> list value -> Prop :=
| tys_nil t : typed_seq E t []
| tys_cons t v vs : typed E t v -> typed_seq E t vs -> typed_seq E t (v :: vs)
with typed_fields (E : env) : list field -> list value -> Prop :=
| tyf_nil : typed_fields E [] []
| tyf_cons f fs v vs : typed E (field_ty f) v -> typed_fields E fs vs -> typed_fields E (f :: fs) (v :: vs).

Scheme typed_mind := Minimality for typed Sort Prop
  with typed_seq_mind := Minimality for typed_seq Sort Prop
  with typed_fields_mind := Minimality for typed_fields Sort Prop.
Combined Scheme typed_mutind from typed_mind, typed_seq_mind, typed_fields_mind.

(** * What cannot be written
    The first obstacle in writing order: an oversized binary or string, an
    oversized list, an absent option in a place other than a field. *)
Definition first_some {A} (a b : option A) : option A := match a with Some _ => a | None => b end.

Fixpoint unwritable (in_field : bool) (v : value) {struct v} : option error :=
  match v with
  | VBin l | VStr l => if 16777216 <? zlen l then Some (InvalidBinaryLen (zlen l)) else None
  | VVec vs =>
      if 10000000 <? zlen vs then Some InvalidCollectionLen
      else (fix all (vs : list value) :=
              match vs with [] => None | w :: vs' => first_some (unwritable false w) (all vs') end) vs
  | VNone => if in_field then None else Some MissingValue
  | VSome w => unwritable in_field w
  | VBox w | VShared _ w => unwritable false w
  | VStruct vs =>
      (fix all (vs : list value) :=
         match vs with [] => None | w :: vs' => first_some (unwritable true w) (all vs') end) vs
  | VUnion _ w => unwritable true w
  | _ => None
  end.

Definition result_of (e : option error) : outcome unit :=
  match e with None => Ok tt | Some e => Err e end.

(** * Equality up to sharing
    Reading produces unshared Rc/Arc; Rust compares them by content. *)
Fixpoint unshare (v : value) : value :=
  match v with
  | VVec vs => VVec (map unshare vs)
  | VSome w => VSome (unshare w)
  | VBox w => VBox (unshare w)
  | VShared _ w => VShared true (unshare w)
  | VStruct vs => VStruct (map unshare vs)
  | VUnion i w => VUnion i (unshare w)
  | _ => v
  end.

(** * Schemas whose structs and unions survive the header encoding
    [write_field_header] writes the id difference even in its long form, so
    after field [l] it is correct for [id] iff the difference is 1..15 or no
    field was written before. *)
Definition header_ok (l id : Z) : bool :=
  ((l =? 0) && (1 <=? id) && (id <=? 32767))
  || ((1 <=? id - l) && (id - l <=? 15) && (id <=? 32767)).

(** [lasts]: the ids that can precede, depending on which options are absent. *)
Fixpoint headers_ok (lasts : list Z) (fs : list field) : bool :=
  match fs with
  | [] => true
  | f :: fs' =>
      forallb (fun l => header_ok l (f_id f)) lasts
      && headers_ok (if f_req f then [f_id f] else f_id f :: lasts) fs'
  end.

Definition not_option (t : ty) : bool := match t with TOption _ => false | _ => true end.

Definition wdef_ok (d : def) : bool :=
  match d with
  | DStruct fs => headers_ok [0] fs && forallb (fun f => not_option (f_ty f)) fs
  | DUnion fs => forallb (fun f => header_ok 0 (f_id f) && not_option (f_ty f)) fs
  | DEnum => true
  end.
Definition wenv_ok (E : env) : bool := forallb (fun '(_, d) => wdef_ok d) E.

(** * Values that survive the header encoding
    The same condition on a single value: every field that is present follows the
    previous present one within reach. *)
Definition fields_fit (fit : value -> ty -> bool) : Z -> list field -> list value -> bool :=
  fix go (last : Z) (fs : list field) (vs : list value) {struct vs} : bool :=
    match vs, fs with
    | w :: vs', f :: fs' =>
        match f_req f, w with
        | false, VNone => go last fs' vs'
        | _, _ => header_ok last (f_id f) && not_option (f_ty f) && fit w (field_ty f) && go (f_id f) fs' vs'
        end
    | _, _ => true
    end.

Fixpoint fits (E : env) (v : value) (t : ty) {struct v} : bool :=
  match v, t with
  | VVec vs, TVec t' => forallb (fun w => fits E w t') vs
  | VSome w, TOption t' | VBox w, TBox t' | VShared _ w, TShared t' => fits E w t'
  | VStruct vs, TNamed n =>
      match lookup E n with
      | Some (DStruct fs) => fields_fit (fits E) 0 fs vs
      | _ => true
      end
  | VUnion i w, TNamed n =>
      match lookup E n with
      | Some (DUnion fs) =>
          match nth_error fs i with
          | Some f => header_ok 0 (f_id f) && not_option (f_ty f) && fits E w (f_ty f)
          | None => true
          end
      | _ => true
      end
  | _, _ => true
  end.
