(** Sequences of field occurrences as they may arrive from another program:
    conforming fields in any order, repeated or missing, mixed with undeclared
    ones.  Used to state what a struct reader has to do with them. *)
From Verif Require Import Base Protocol Types SpecUtf8 SpecCompact.

Inductive occ : Type :=
| OField (f : field) (v : value)    (* a declared field with its content *)
| OOther (id : Z).                  (* an undeclared one *)

(** [run E fs last occs last' bs]: [bs] holds the occurrences [occs], the field
    before being [last]; [last'] is the id of the final one. *)
Inductive run (E : env) (fs : list field) : Z -> list occ -> Z -> list Z -> Prop :=
| run_nil last : run E fs last [] last []
| run_field last f v ft hdr payload occs last' rest :
    In f fs -> field_header last (f_id f) ft hdr -> enc_field E (f_ty f) v ft payload ->
    run E fs (f_id f) occs last' rest ->
    run E fs last (OField f v :: occs) last' (hdr ++ payload ++ rest)
| run_other last id t hdr payload occs last' rest :
    (forall f, In f fs -> f_id f <> id) -> 1 <= t <= 12 ->
    field_header last id t hdr -> wire t false payload ->
    run E fs id occs last' rest ->
    run E fs last (OOther id :: occs) last' (hdr ++ payload ++ rest).

(** The contents of the occurrences of field [id], in order. *)
Fixpoint contents (id : Z) (occs : list occ) : list value :=
  match occs with
  | [] => []
  | OField f v :: r => if f_id f =? id then v :: contents id r else contents id r
  | OOther _ :: r => contents id r
  end.

(** The field occurs once, at most once, or not at all. *)
Definition occurs (occs : list occ) (f : field) : Prop := contents (f_id f) occs <> [].
Definition once_at_most (occs : list occ) (f : field) : Prop := (List.length (contents (f_id f) occs) <= 1)%nat.

(** Types whose content is replaced as a whole: everything but structs and
    options. *)
Fixpoint replaceable (E : env) (t : ty) : bool :=
  match t with
  | TBox t' | TShared t' => replaceable E t'
  | TOption _ => false
  | TNamed n => match lookup E n with Some (DStruct _) => false | _ => true end
  | _ => true
  end.

(** Repetitions only of required fields that are replaced as a whole. *)
Definition tidy (E : env) (fs : list field) (occs : list occ) : Prop :=
  forall f, In f fs -> once_at_most occs f \/ (f_req f = true /\ replaceable E (f_ty f) = true).

(** What the struct's field holds in the end: the last occurrence. *)
Definition final_content (occs : list occ) (f : field) (v : value) : Prop :=
  match rev (contents (f_id f) occs) with
  | w :: _ => v = if f_req f then w else VSome w
  | [] => f_req f = false /\ v = VNone
  end.

(** Two calls of fill stopped at the same position with the same result; if they
    succeeded, with the same content. *)
Definition same_fill {S} (x y : S * value * outcome unit) : Prop :=
  fst (fst x) = fst (fst y) /\ snd x = snd y /\ (snd x = Ok tt -> x = y).

(** * What happens on arbitrary input
    [trace c I E d fs last ids s s']: starting after field [last], the fields
    [ids] were read or skipped one after the other, leading from [s] to [s']. *)
Inductive trace {S} (c : cfg) (I : input S) (E : env) (d : nat) (fs : list field) : Z -> list Z -> S -> S -> Prop :=
| trace_nil last s : trace c I E d fs last [] s s
| trace_field last ft id f v v' ids s s1 s2 s' :
    read_field_header c I last s = (s1, Ok (ft, id)) -> ft <> 0 -> In f fs -> f_id f = id ->
    fill_field c I E d (field_ty f) ft v s1 = (s2, v', Ok tt) ->
    trace c I E d fs id ids s2 s' -> trace c I E d fs last (id :: ids) s s'
| trace_other last ft id ids s s1 s2 s' :
    read_field_header c I last s = (s1, Ok (ft, id)) -> ft <> 0 -> (forall f, In f fs -> f_id f <> id) ->
    skip_field c I d ft false s1 = (s2, Ok tt) ->
    trace c I E d fs id ids s2 s' -> trace c I E d fs last (id :: ids) s s'.

(** No list anywhere in the value has more than ten million elements. *)
Fixpoint short_lists (v : value) : Prop :=
  match v with
  | VVec vs => zlen vs <= 10000000 /\
      (fix all (vs : list value) := match vs with [] => True | w :: vs' => short_lists w /\ all vs' end) vs
  | VStruct vs => (fix all (vs : list value) := match vs with [] => True | w :: vs' => short_lists w /\ all vs' end) vs
  | VSome w | VBox w | VShared _ w | VUnion _ w => short_lists w
  | _ => True
  end.
