(** Vocabulary for the statements about schema.rs. *)
From Verif Require Import Base Footer SchemaTree.

(** * Trees of schema elements *)
Inductive tree : Type := Node (e : selement) (children : list tree).
Definition elem (t : tree) : selement := let '(Node e _) := t in e.
Definition kids (t : tree) : list tree := let '(Node _ cs) := t in cs.
(** depth-first, parents first *)
Fixpoint flatten (t : tree) : list selement := let '(Node e cs) := t in e :: flat_map flatten cs.
(** Number of nested groups. *)
Fixpoint groups (t : tree) : nat :=
  match t with
  | Node _ [] => 0
  | Node _ cs => S (fold_right (fun t n => Nat.max (groups t) n) 0 cs)%nat
  end.
(** [P] holds at every node. *)
Inductive everywhere (P : tree -> Prop) : tree -> Prop :=
| ev e cs : P (Node e cs) -> Forall (everywhere P) cs -> everywhere P (Node e cs).

(** Each group announces the number of its children, a leaf none or zero. *)
Definition announced (t : tree) : Prop :=
  match kids t with
  | [] => num_children (elem t) = None \/ num_children (elem t) = Some 0
  | cs => num_children (elem t) = Some (zlen cs)
  end.

(** * Meaning of the element's codes (parquet.thrift) *)
Definition means_repetition (o : option Z) (r : repetition) : Prop :=
  (r = Required /\ (o = None \/ o = Some 0)) \/ (r = Optional /\ o = Some 1) \/ (r = Repeated /\ o = Some 2).
Definition means_physical (e : selement) (p : physical_type) : Prop :=
  match p with
  | PT_BOOLEAN => type_ e = Some 0
  | PT_INT32 => type_ e = Some 1
  | PT_INT64 => type_ e = Some 2
  | PT_INT96 => type_ e = Some 3
  | PT_FLOAT => type_ e = Some 4
  | PT_DOUBLE => type_ e = Some 5
  | PT_BYTE_ARRAY => type_ e = Some 6
  | PT_FIXED_LEN_BYTE_ARRAY n => type_ e = Some 7 /\ type_length e = Some n /\ 0 < n
  end.
Definition means_unit (u : time_unit) (u' : schema_time_unit) : Prop :=
  (u = MILLIS /\ u' = Millis) \/ (u = MICROS /\ u' = Micros) \/ (u = NANOS /\ u' = Nanos).
Inductive means_logical : logical -> primitive_logical -> Prop :=
| ml_string : means_logical LSTRING PL_String
| ml_enum : means_logical LENUM PL_Enum
| ml_decimal s p : 1 <= p <= 127 -> -128 <= s <= p -> means_logical (LDECIMAL s p) (PL_Decimal {| d_precision := p; d_scale := s |})
| ml_date : means_logical LDATE PL_Date
| ml_time b u u' : means_unit u u' -> means_logical (LTIME b u) (PL_Time {| is_adjusted_to_utc := b; unit_ := u' |})
| ml_timestamp b u u' : means_unit u u' -> means_logical (LTIMESTAMP b u) (PL_Timestamp {| is_adjusted_to_utc := b; unit_ := u' |})
| ml_integer w s : 1 <= w -> means_logical (LINTEGER w s) (PL_Integer {| bitwidth := w; is_signed := s |})
| ml_unknown : means_logical LUNKNOWN PL_Unknown
| ml_json : means_logical LJSON PL_Json
| ml_bson : means_logical LBSON PL_Bson
| ml_uuid : means_logical LUUID PL_UUID
| ml_float16 : means_logical LFLOAT16 PL_Float16
| ml_geometry : means_logical LGEOMETRY PL_Geometry
| ml_geography : means_logical LGEOGRAPHY PL_Geography.
(** The legacy converted types; [p] and [s] are precision and scale of the element. *)
Definition millis_utc : time_options := {| is_adjusted_to_utc := true; unit_ := Millis |}.
Definition micros_utc : time_options := {| is_adjusted_to_utc := true; unit_ := Micros |}.
Inductive means_converted (p s : option Z) : Z -> primitive_logical -> Prop :=
| mc_utf8 : means_converted p s 0 PL_String
| mc_enum : means_converted p s 4 PL_Enum
| mc_decimal p' s' : p = Some p' -> s = Some s' -> 1 <= p' <= 127 -> -128 <= s' <= p' ->
    means_converted p s 5 (PL_Decimal {| d_precision := p'; d_scale := s' |})
| mc_date : means_converted p s 6 PL_Date
| mc_time_millis : means_converted p s 7 (PL_Time millis_utc)
| mc_time_micros : means_converted p s 8 (PL_Time micros_utc)
| mc_timestamp_millis : means_converted p s 9 (PL_Timestamp millis_utc)
| mc_timestamp_micros : means_converted p s 10 (PL_Timestamp micros_utc)
| mc_uint ct k : ct = 11 + k -> 0 <= k <= 3 -> means_converted p s ct (PL_Integer {| bitwidth := 8 * 2 ^ k; is_signed := false |})
| mc_int ct k : ct = 15 + k -> 0 <= k <= 3 -> means_converted p s ct (PL_Integer {| bitwidth := 8 * 2 ^ k; is_signed := true |})
| mc_json : means_converted p s 19 PL_Json
| mc_bson : means_converted p s 20 PL_Bson
| mc_interval : means_converted p s 21 PL_Interval.
Definition means_group_logical (l : logical) (g : group_logical) : Prop :=
  (l = LMAP /\ g = GL_Map) \/ (l = LLIST /\ g = GL_List) \/ (exists v, l = LVARIANT v /\ g = GL_Variant v).
Definition means_group_converted (ct : Z) (g : group_logical) : Prop :=
  (ct = 1 /\ g = GL_Map) \/ (ct = 3 /\ g = GL_List) \/ (ct = 2 /\ g = GL_MapKeyValue).

(** The logical type if it is understood, otherwise the converted type if it is, otherwise none. *)
Definition prefers {A} (first second : A -> Prop) (o : option A) : Prop :=
  match o with
  | Some a => first a \/ ((forall b, ~ first b) /\ second a)
  | None => (forall b, ~ first b) /\ (forall b, ~ second b)
  end.
Definition leaf_logical (e : selement) : option primitive_logical -> Prop :=
  prefers (fun p => exists l, logicalType e = Some l /\ means_logical l p)
          (fun p => exists ct, converted_type e = Some ct /\ means_converted (precision e) (scale e) ct p).
Definition group_logical_of (e : selement) : option group_logical -> Prop :=
  prefers (fun g => exists l, logicalType e = Some l /\ means_group_logical l g)
          (fun g => exists ct, converted_type e = Some ct /\ means_group_converted ct g).

(** Elements that can be converted. *)
Definition acceptable (t : tree) : Prop :=
  (exists r, means_repetition (repetition_type (elem t)) r) /\
  (kids t = [] -> exists p, means_physical (elem t) p).
Definition required (e : selement) : Prop := repetition_type e = None \/ repetition_type e = Some 0.

(** [f] is the field for the tree, up to levels and leaf numbers. *)
Definition same_common (little : bool) (e : selement) (co : common) : Prop :=
  name co = ename e /\ means_repetition (repetition_type e) (rep_type co) /\
  (match fid co with None => field_id e = None | Some b => field_id e = Some (field_id_to little b) end).
Inductive represents (little : bool) : tree -> sfield -> Prop :=
| rep_leaf e co p l i : same_common little e co -> means_physical e p -> leaf_logical e l ->
    represents little (Node e []) (Primitive co p l i)
| rep_group e cs co fs l : cs <> [] -> same_common little e co -> group_logical_of e l -> Forall2 (represents little) cs fs ->
    represents little (Node e cs) (Group co fs l).

(** Leaf numbers, depth-first. *)
Fixpoint leaf_indexes (f : sfield) : list Z :=
  match f with
  | Group _ fs _ => flat_map leaf_indexes fs
  | Primitive _ _ _ i => [i]
  end.

(** [on_path f p g]: [g] is reached from [f] by the nodes [p], which include both. *)
Inductive on_path : sfield -> list sfield -> sfield -> Prop :=
| op_here f : on_path f [f] f
| op_child co fs l f p g : In f fs -> on_path f p g -> on_path (Group co fs l) (Group co fs l :: p) g.
Definition is_rep (r : repetition) (f : sfield) : bool :=
  match r, rep_type (common_of f) with
  | Required, Required | Optional, Optional | Repeated, Repeated => true
  | _, _ => false
  end.
Definition count (p : sfield -> bool) (l : list sfield) : Z := zlen (filter p l).

(** First child of that name, at each step. *)
Inductive finds : sfield -> list (list Z) -> sfield -> Prop :=
| finds_here f : finds f [] f
| finds_child co pre child post l n path g :
    Forall (fun f => name (common_of f) <> n) pre -> name (common_of child) = n -> finds child path g ->
    finds (Group co (pre ++ child :: post) l) (n :: path) g.

(** Elements hold i32 and i8 values. *)
Definition in_opt (n : Z) (o : option Z) : Prop := match o with Some z => in_s n z | None => True end.
Definition logical_ok (l : logical) : Prop :=
  match l with
  | LDECIMAL s p => in_s 32 s /\ in_s 32 p
  | LINTEGER w _ => in_s 8 w
  | _ => True
  end.
Definition element_ok (e : selement) : Prop :=
  in_opt 32 (type_ e) /\ in_opt 32 (type_length e) /\ in_opt 32 (repetition_type e) /\ in_opt 32 (num_children e) /\
  in_opt 32 (converted_type e) /\ in_opt 32 (scale e) /\ in_opt 32 (precision e) /\ in_opt 32 (field_id e) /\
  match logicalType e with Some l => logical_ok l | None => True end.
