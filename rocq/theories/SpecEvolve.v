(** Two versions of a schema: the writer's [E1] and the reader's [E2].
    Which fields they share, and what a value of the writer's schema is in the
    reader's.  Independent of the reading and writing functions. *)
From Verif Require Import Base Types Schema.

Definition ty_eq_dec (t u : ty) : {t = u} + {t <> u}.
Proof. decide equality. apply string_dec. Defined.
Definition ty_eqb (t u : ty) : bool := if ty_eq_dec t u then true else false.

(** Index of and field with a given id. *)
Fixpoint locate (id : Z) (fs : list field) : option (nat * field) :=
  match fs with
  | [] => None
  | f :: fs' =>
      if f_id f =? id then Some (O, f)
      else option_map (fun '(i, g) => (Datatypes.S i, g)) (locate id fs')
  end.

(** [compatible total E1 E2]: everything the reader knows is defined by the writer
    as the same kind of thing, and fields with the same id have the same type.
    [total]: also, whatever the reader requires is required of the writer, and the
    reader knows all union variants. *)
Definition shared_ok (total : bool) (f1 f2 : field) : bool :=
  ty_eqb (f_ty f1) (f_ty f2) && (negb total || negb (f_req f2) || f_req f1).
Definition compatible_def (total : bool) (d1 d2 : def) : bool :=
  match d1, d2 with
  | DEnum, DEnum => true
  | DStruct fs1, DStruct fs2 =>
      nodupb (map f_id fs1) &&
      forallb (fun f2 => match locate (f_id f2) fs1 with
                         | Some (_, f1) => shared_ok total f1 f2
                         | None => negb total || negb (f_req f2)
                         end) fs2
  | DUnion fs1, DUnion fs2 =>
      forallb (fun f1 => match locate (f_id f1) fs2 with
                         | Some (_, f2) => ty_eqb (f_ty f1) (f_ty f2)
                         | None => negb total
                         end) fs1
  | _, _ => false
  end.
Definition compatible (total : bool) (E1 E2 : env) : bool :=
  forallb (fun '(n, d2) => match lookup E1 n with Some d1 => compatible_def total d1 d2 | None => false end) E2.

(** The value without the fields the reader does not know; fields only the reader
    knows are absent.  [None]: a field that the reader requires is absent, or a
    union variant is unknown to the reader. *)
Fixpoint assoc {A} (id : Z) (l : list (Z * A)) : option A :=
  match l with
  | [] => None
  | (k, a) :: l' => if k =? id then Some a else assoc id l'
  end.
(** [contents]: per id of the writer, the projected content if the field is present. *)
Definition restrict_field (contents : list (Z * option (option value))) (f2 : field) : option value :=
  match assoc (f_id f2) contents with
  | Some (Some (Some w)) => Some (if f_req f2 then w else VSome w)
  | Some (Some None) => None
  | _ => if f_req f2 then None else Some VNone
  end.
Fixpoint project (E1 E2 : env) (t : ty) (v : value) {struct v} : option value :=
  match v, t with
  | VVec vs, TVec t' => option_map VVec (sequence (map (project E1 E2 t') vs))
  | VNone, TOption _ => Some VNone
  | VSome w, TOption t' => option_map VSome (project E1 E2 t' w)
  | VBox w, TBox t' => option_map VBox (project E1 E2 t' w)
  | VShared u w, TShared t' => option_map (VShared u) (project E1 E2 t' w)
  | VStruct vs, TNamed n =>
      match lookup E1 n, lookup E2 n with
      | Some (DStruct fs1), Some (DStruct fs2) =>
          let contents :=
            (fix go (vs : list value) (fs : list field) {struct vs} :=
               match vs, fs with
               | v :: vs', f :: fs' =>
                   (f_id f, if f_req f then Some (project E1 E2 (f_ty f) v)
                            else match v with VSome w => Some (project E1 E2 (f_ty f) w) | _ => None end)
                   :: go vs' fs'
               | _, _ => []
               end) vs fs1 in
          option_map VStruct (sequence (map (restrict_field contents) fs2))
      | _, _ => None
      end
  | VUnion i w, TNamed n =>
      match lookup E1 n, lookup E2 n with
      | Some (DUnion fs1), Some (DUnion fs2) =>
          match nth_error fs1 i with
          | Some f1 =>
              match locate (f_id f1) fs2 with
              | Some (j, _) => option_map (VUnion j) (project E1 E2 (f_ty f1) w)
              | None => None
              end
          | None => None
          end
      | _, _ => None
      end
  | VBool _, _ | VI8 _, _ | VI16 _, _ | VI32 _, _ | VI64 _, _ | VDouble _, _ | VBin _, _ | VStr _, _ | VEncSet _, _ => Some v
  | _, _ => None
  end.

(** The reader knows no ids the writer does not know. *)
Definition narrower (E1 E2 : env) : Prop := forall n fs1 fs2, lookup E1 n = Some (DStruct fs1) -> lookup E2 n = Some (DStruct fs2) ->
  forall f2, In f2 fs2 -> exists f1, In f1 fs1 /\ f_id f1 = f_id f2.
