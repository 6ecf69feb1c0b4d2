(** Model of parquet/src/bin/schema.rs: building the schema tree.  Printing
    and main are in SchemaPrint.v. *)
From Verif Require Import Base Types Parquet Footer.
Arguments PSchema msg%string.

(** * Input: the decoded SchemaElement (format.rs:504-558) *)
Inductive time_unit : Type := MILLIS | MICROS | NANOS.
(** format.rs:470-496.  Payloads that the conversion does not look at are left out. *)
Inductive logical : Type :=
| LSTRING | LMAP | LLIST | LENUM
| LDECIMAL (scale precision : Z)
| LDATE
| LTIME (utc : bool) (u : time_unit)
| LTIMESTAMP (utc : bool) (u : time_unit)
| LINTEGER (bitWidth : Z) (signed : bool)
| LUNKNOWN | LJSON | LBSON | LUUID | LFLOAT16
| LVARIANT (specification_version : option Z)
| LGEOMETRY | LGEOGRAPHY.
Record selement : Type := {
  type_ : option Z;
  type_length : option Z;
  repetition_type : option Z;
  ename : list Z;
  num_children : option Z;
  converted_type : option Z;
  scale : option Z;
  precision : option Z;
  field_id : option Z;
  logicalType : option logical
}.

(** * Output *)
(** schema.rs:9-18 *)
Inductive physical_type : Type :=
| PT_BOOLEAN | PT_INT32 | PT_INT64 | PT_INT96 | PT_FLOAT | PT_DOUBLE | PT_BYTE_ARRAY
| PT_FIXED_LEN_BYTE_ARRAY (len : Z).
(** schema.rs:50-54 *)
Inductive schema_time_unit : Type := Millis | Micros | Nanos.
(** schema.rs:77-80 *)
Record time_options : Type := { is_adjusted_to_utc : bool; unit_ : schema_time_unit }.
(** schema.rs:101-104 *)
Record decimal_options : Type := { d_precision : Z; d_scale : Z }.
(** schema.rs:129-132 *)
Record integer_options : Type := { bitwidth : Z; is_signed : bool }.
(** schema.rs:157-173 *)
Inductive primitive_logical : Type :=
| PL_String | PL_Enum | PL_Decimal (o : decimal_options) | PL_Date | PL_Time (o : time_options) | PL_Timestamp (o : time_options)
| PL_Interval | PL_Integer (o : integer_options) | PL_Unknown | PL_Json | PL_Bson | PL_UUID | PL_Float16 | PL_Geometry | PL_Geography.
(** schema.rs:309-316 *)
Inductive group_logical : Type := GL_List | GL_Map | GL_MapKeyValue | GL_Variant (specification_version : option Z).
(** schema.rs:345-349 *)
Inductive repetition : Type := Required | Optional | Repeated.
(** schema.rs:391-399 *)
Record common : Type := { name : list Z; fid : option (list Z); rep_type : repetition; def_level : Z; rep_level : Z }.
(** schema.rs:402-420 *)
Inductive sfield : Type :=
| Group (co : common) (children : list sfield) (l : option group_logical)
| Primitive (co : common) (p : physical_type) (l : option primitive_logical) (index : Z).

(** * Conversions *)
(** schema.rs:20-46 *)
Definition try_physical (t : Z) (type_length : option Z) : presult physical_type :=
  if t =? 0 then POk PT_BOOLEAN
  else if t =? 6 then POk PT_BYTE_ARRAY
  else if t =? 1 then POk PT_INT32
  else if t =? 2 then POk PT_INT64
  else if t =? 3 then POk PT_INT96
  else if t =? 4 then POk PT_FLOAT
  else if t =? 5 then POk PT_DOUBLE
  else if t =? 7 then
    match type_length with
    | None => PErr (PSchema "Missing length for FIXED_LEN_BYTE_ARRAY type")
    | Some len =>
        if len <=? 0 then PErr (PSchema "Invalid length for FIXED_LEN_BYTE_ARRAY type")
        else POk (PT_FIXED_LEN_BYTE_ARRAY (wrapu 32 len))
    end
  else PErr (PUnknownType t).
(** schema.rs:56-64 *)
Definition from_time_unit (u : time_unit) : schema_time_unit := match u with MILLIS => Millis | MICROS => Micros | NANOS => Nanos end.
(** schema.rs:66-74 *)
Definition to_time_unit (u : schema_time_unit) : time_unit := match u with Millis => MILLIS | Micros => MICROS | Nanos => NANOS end.
(** schema.rs:82-98 *)
Definition from_time (utc : bool) (u : time_unit) : time_options := {| is_adjusted_to_utc := utc; unit_ := from_time_unit u |}.
(** schema.rs:106-127 *)
Definition try_decimal (precision scale : Z) : presult decimal_options :=
  if (precision <=? 0) || (127 <? precision) then PErr (PSchema "Invalid precision for Decimal type")
  else if (scale <? -128) || (precision <? scale) then PErr (PSchema "Invalid scale for Decimal type")
  else POk {| d_precision := wrapu 8 precision; d_scale := wraps 8 scale |}.
(** schema.rs:141-155 *)
Definition try_integer (bitWidth : Z) (signed : bool) : presult integer_options :=
  if bitWidth <=? 0 then PErr (PSchema "Invalid bitwidth for Integer type")
  else POk {| bitwidth := wrapu 8 bitWidth; is_signed := signed |}.
Definition int_opts (n : Z) (signed : bool) : primitive_logical := PL_Integer {| bitwidth := n; is_signed := signed |}.
(** schema.rs:176-250 *)
Definition try_converted (ct : Z) (precision scale : option Z) : presult primitive_logical :=
  if ct =? 0 then POk PL_String
  else if ct =? 4 then POk PL_Enum
  else if ct =? 6 then POk PL_Date
  else if ct =? 19 then POk PL_Json
  else if ct =? 20 then POk PL_Bson
  else if ct =? 5 then
    match precision with
    | None => PErr (PSchema "Missing precision for decimal type")
    | Some p =>
        match scale with
        | None => PErr (PSchema "Missing scale for decimal type")
        | Some s => (let? o := try_decimal p s in POk (PL_Decimal o))
        end
    end
  else if ct =? 8 then POk (PL_Time {| unit_ := Micros; is_adjusted_to_utc := true |})
  else if ct =? 7 then POk (PL_Time {| unit_ := Millis; is_adjusted_to_utc := true |})
  else if ct =? 10 then POk (PL_Timestamp {| unit_ := Micros; is_adjusted_to_utc := true |})
  else if ct =? 9 then POk (PL_Timestamp {| unit_ := Millis; is_adjusted_to_utc := true |})
  else if ct =? 21 then POk PL_Interval
  else if ct =? 15 then POk (int_opts 8 true)
  else if ct =? 16 then POk (int_opts 16 true)
  else if ct =? 17 then POk (int_opts 32 true)
  else if ct =? 18 then POk (int_opts 64 true)
  else if ct =? 11 then POk (int_opts 8 false)
  else if ct =? 12 then POk (int_opts 16 false)
  else if ct =? 13 then POk (int_opts 32 false)
  else if ct =? 14 then POk (int_opts 64 false)
  else if (ct =? 1) || (ct =? 3) then PErr (PSchema "Unsupported map or list converted type for primitive")
  else PErr (PUnknownType ct).
(** schema.rs:252-254 and 273-306 *)
Definition try_logical (l : logical) : presult primitive_logical :=
  match l with
  | LSTRING => POk PL_String
  | LENUM => POk PL_Enum
  | LDECIMAL s p => (let? o := try_decimal p s in POk (PL_Decimal o))
  | LDATE => POk PL_Date
  | LTIME utc u => POk (PL_Time (from_time utc u))
  | LTIMESTAMP utc u => POk (PL_Timestamp (from_time utc u))
  | LINTEGER w s => (let? o := try_integer w s in POk (PL_Integer o))
  | LUNKNOWN => POk PL_Unknown
  | LJSON => POk PL_Json
  | LBSON => POk PL_Bson
  | LUUID => POk PL_UUID
  | LFLOAT16 => POk PL_Float16
  | LGEOMETRY => POk PL_Geometry
  | LGEOGRAPHY => POk PL_Geography
  | LMAP | LLIST => PErr (PSchema "Unsupported map or list logical type for primitive")
  | LVARIANT _ => PErr (PSchema "Unsupported variant logical type for primitive")
  end.
(** schema.rs:256-270 *)
Definition pl_precision (l : primitive_logical) : option Z := match l with PL_Decimal o => Some (d_precision o) | _ => None end.
Definition pl_scale (l : primitive_logical) : option Z := match l with PL_Decimal o => Some (d_scale o) | _ => None end.
(** schema.rs:318-329 *)
Definition try_group_logical (l : logical) : presult group_logical :=
  match l with
  | LMAP => POk GL_Map
  | LLIST => POk GL_List
  | LVARIANT v => POk (GL_Variant v)
  | _ => PErr (PSchema "Unsupported logical type for group")
  end.
(** schema.rs:331-342 *)
Definition try_group_converted (ct : Z) : presult group_logical :=
  if ct =? 1 then POk GL_Map
  else if ct =? 3 then POk GL_List
  else if ct =? 2 then POk GL_MapKeyValue
  else PErr (PSchema "Unsupported converted type for group").
(** schema.rs:361-372 *)
Definition try_repetition (r : Z) : presult repetition :=
  if r =? 0 then POk Required
  else if r =? 1 then POk Optional
  else if r =? 2 then POk Repeated
  else PErr (PUnknownType r).
(** [Result::ok] *)
Definition ok {A} (r : presult A) : option A := match r with POk a => Some a | _ => None end.

Section Tree.
  Variable c : cfg.
  (** Whether the target is little-endian ([to_ne_bytes]). *)
  Variable little : bool.
  (** Whether the allocator grants a vector of that many fields. *)
  Variable alloc : Z -> bool.

  (** schema.rs:376-388 FieldId *)
  Definition field_id_from (z : Z) : list Z :=
    let u := wrapu 32 z in
    let l := [u mod 256; u / 256 mod 256; u / 65536 mod 256; u / 16777216 mod 256] in
    if little then l else rev l.
  Definition field_id_to (l : list Z) : Z := wraps 32 (from_le (if little then l else rev l)).

  (** Addition of u8 and usize *)
  Definition u8_add (a b : Z) : presult Z :=
    if a + b <? 256 then POk (a + b) else if overflow_checks c then PPanic POverflow else POk (wrapu 8 (a + b)).

  (** schema.rs:465-539.  Returns the field and the new index. *)
  Definition field_from_schema_element (e : selement) (index def rep remaining : Z) : presult (sfield * Z) :=
    let? repetition := match repetition_type e with Some r => try_repetition r | None => POk Required end in
    let co := {| name := ename e; fid := option_map field_id_from (field_id e); rep_type := repetition; def_level := def; rep_level := rep |} in
    let n := match num_children e with Some n => n | None => 0 end in
    if n =? 0 then
      match type_ e with
      | None => PErr (PSchema "Missing physical type for SchemaElement without children")
      | Some t =>
          let? p := try_physical t (type_length e) in
          let l := match logicalType e with Some lt => ok (try_logical lt) | None => None end in
          let l := match l with
                   | Some x => Some x
                   | None => match converted_type e with Some ct => ok (try_converted ct (precision e) (scale e)) | None => None end
                   end in
          let? index' := uadd c index 1 in
          POk (Primitive co p l (wrapu 32 index), index')
      end
    else if (n <? 0) || (remaining <? usize c n) then PErr (PSchema "Invalid number of children")
    else
      let l := match logicalType e with Some lt => ok (try_group_logical lt) | None => None end in
      let l := match l with
               | Some x => Some x
               | None => match converted_type e with Some ct => ok (try_group_converted ct) | None => None end
               end in
      if alloc (usize c n) then POk (Group co [] l, index) else PPanic PAlloc.

  (** schema.rs:541-589.  [d]: admissible nesting of calls. *)
  Fixpoint convert_schema_inner (d : nat) (elements : list selement) (index def rep nesting : Z) {struct d}
    : presult (sfield * list selement * Z) :=
    match d with
    | O => PPanic PStack
    | S d' =>
        match elements with
        | [] => PErr (PSchema "Missing schema elements")
        | root :: rest =>
            let rt := match repetition_type root with Some r => r | None => 0 end in
            let? def := u8_add def (if rt =? 1 then 1 else 0) in
            let? rep := u8_add rep (if rt =? 2 then 1 else 0) in
            let? (current, index) := field_from_schema_element root index def rep (zlen rest) in
            match current with
            | Primitive _ _ _ _ => POk (current, rest, index)
            | Group co children l =>
                let? nesting := u8_add nesting 1 in
                if 128 <=? nesting then PErr (PSchema "Schema is too deeply nested")
                else
                  let n := match num_children root with Some n => n | None => 0 end in
                  let? (cs, rest, index) :=
                    (fix loop (i : nat) (rest : list selement) (index : Z) : presult (list sfield * list selement * Z) :=
                       match i with
                       | O => POk ([], rest, index)
                       | S i' =>
                           let? (child, rest, index) := convert_schema_inner d' rest index def rep nesting in
                           let? (cs, rest, index) := loop i' rest index in
                           POk (child :: cs, rest, index)
                       end) (Z.to_nat (usize c n)) rest index in
                  POk (Group co (children ++ cs) l, rest, index)
            end
        end
    end.

  (** schema.rs:441-446 *)
  Definition common_of (f : sfield) : common := match f with Group co _ _ => co | Primitive co _ _ _ => co end.
  (** schema.rs:591-611 *)
  Definition convert_schema (d : nat) (elements : list selement) : presult sfield :=
    match elements with
    | [] => PErr (PSchema "Empty schema")
    | _ =>
        let? (root, rest, _) := convert_schema_inner d elements 0 0 0 0 in
        match rest with
        | _ :: _ => PErr (PSchema "Trailing schema elements after root group")
        | [] =>
            match rep_type (common_of root) with
            | Required => POk root
            | _ => PErr (PSchema "Root element must have repetition type required")
            end
        end
    end.
End Tree.

(** schema.rs:423-439 *)
Fixpoint find_field_by_path (f : sfield) (path : list (list Z)) {struct path} : option sfield :=
  match path with
  | [] => Some f
  | n :: path' =>
      match f with
      | Group _ children _ =>
          match find (fun child => list_eqb (name (common_of child)) n) children with
          | Some child => find_field_by_path child path'
          | None => None
          end
      | Primitive _ _ _ _ => None
      end
  end.

(** * From decoded values
    By position in format.rs, cf. Parquet.v. *)
Definition unit_of (v : value) : option time_unit :=
  match v with VUnion 0 _ => Some MILLIS | VUnion 1 _ => Some MICROS | VUnion 2 _ => Some NANOS | _ => None end.
Definition logical_of (v : value) : option logical :=
  match v with
  | VUnion 0 _ => Some LSTRING
  | VUnion 1 _ => Some LMAP
  | VUnion 2 _ => Some LLIST
  | VUnion 3 _ => Some LENUM
  | VUnion 4 (VStruct [VI32 s; VI32 p]) => Some (LDECIMAL s p)
  | VUnion 5 _ => Some LDATE
  | VUnion 6 (VStruct [VBool utc; u]) => option_map (LTIME utc) (unit_of u)
  | VUnion 7 (VStruct [VBool utc; u]) => option_map (LTIMESTAMP utc) (unit_of u)
  | VUnion 8 (VStruct [VI8 w; VBool s]) => Some (LINTEGER w s)
  | VUnion 9 _ => Some LUNKNOWN
  | VUnion 10 _ => Some LJSON
  | VUnion 11 _ => Some LBSON
  | VUnion 12 _ => Some LUUID
  | VUnion 13 _ => Some LFLOAT16
  | VUnion 14 (VStruct [VNone]) => Some (LVARIANT None)
  | VUnion 14 (VStruct [VSome (VI8 n)]) => Some (LVARIANT (Some n))
  | VUnion 15 _ => Some LGEOMETRY
  | VUnion 16 _ => Some LGEOGRAPHY
  | _ => None
  end.
Definition element_of (v : value) : option selement :=
  match v with
  | VStruct [t; tl; rt; VStr n; nc; ct; sc; pr; fi; lt] =>
      Some {| type_ := i_field t; type_length := i_field tl; repetition_type := i_field rt; ename := n; num_children := i_field nc;
              converted_type := i_field ct; scale := i_field sc; precision := i_field pr; field_id := i_field fi;
              logicalType := match lt with VSome l => logical_of l | _ => None end |}
  | _ => None
  end.
Fixpoint elements_of (vs : list value) : option (list selement) :=
  match vs with
  | [] => Some []
  | v :: vs' => match element_of v, elements_of vs' with Some e, Some es => Some (e :: es) | _, _ => None end
  end.
Definition schema_of (v : value) : option (list selement) :=
  match v with
  | VStruct vs => match nth 1 vs VNone with VVec es => elements_of es | _ => None end
  | _ => None
  end.
