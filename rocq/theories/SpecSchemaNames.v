(** What a decoded schema says, by the names that format.rs gives to fields and variants; SchemaTree.v goes by position. *)
From Verif Require Import Base Types Parquet SchemaTree.
Open Scope list_scope.

Fixpoint named (f : string) (fs : list field) (vs : list value) : option value :=
  match fs, vs with
  | g :: fs', v :: vs' => if String.eqb (f_name g) f then Some v else named f fs' vs'
  | _, _ => None
  end.
(** The field [f] of a struct [n] *)
Definition part (n f : string) (v : value) : option value :=
  match lookup parquet_env n, v with
  | Some (DStruct fs), VStruct vs => named f fs vs
  | _, _ => None
  end.
(** The variant of a union [n] and what is in it *)
Definition variant (n : string) (v : value) : option (string * value) :=
  match lookup parquet_env n, v with
  | Some (DUnion fs), VUnion i w => match nth_error fs i with Some f => Some (f_name f, w) | None => None end
  | _, _ => None
  end.
Definition number (o : option Z) : value := match o with Some z => VSome (VI32 z) | None => VNone end.

Definition unit_name (u : time_unit) : string := match u with MILLIS => "MILLIS" | MICROS => "MICROS" | NANOS => "NANOS" end.
Definition unit_says (v : value) (u : time_unit) : Prop := exists w, variant "TimeUnit" v = Some (unit_name u, w).
Definition time_says (n : string) (v : value) (utc : bool) (u : time_unit) : Prop :=
  part n "isAdjustedToUTC" v = Some (VBool utc) /\ exists w, part n "unit" v = Some w /\ unit_says w u.
Definition logical_name (l : logical) : string :=
  match l with
  | LSTRING => "STRING" | LMAP => "MAP" | LLIST => "LIST" | LENUM => "ENUM" | LDECIMAL _ _ => "DECIMAL" | LDATE => "DATE"
  | LTIME _ _ => "TIME" | LTIMESTAMP _ _ => "TIMESTAMP" | LINTEGER _ _ => "INTEGER" | LUNKNOWN => "UNKNOWN" | LJSON => "JSON"
  | LBSON => "BSON" | LUUID => "UUID" | LFLOAT16 => "FLOAT16" | LVARIANT _ => "VARIANT" | LGEOMETRY => "GEOMETRY" | LGEOGRAPHY => "GEOGRAPHY"
  end.
Definition logical_says (v : value) (l : logical) : Prop :=
  exists w, variant "LogicalType" v = Some (logical_name l, w) /\
    match l with
    | LDECIMAL s p => part "DecimalType" "scale" w = Some (VI32 s) /\ part "DecimalType" "precision" w = Some (VI32 p)
    | LTIME utc u => time_says "TimeType" w utc u
    | LTIMESTAMP utc u => time_says "TimestampType" w utc u
    | LINTEGER b s => part "IntType" "bitWidth" w = Some (VI8 b) /\ part "IntType" "isSigned" w = Some (VBool s)
    | LVARIANT o => part "VariantType" "specification_version" w = Some (match o with Some z => VSome (VI8 z) | None => VNone end)
    | _ => True
    end.
Definition element_says (v : value) (e : selement) : Prop :=
  let p f := part "SchemaElement" f v in
  p "type_"%string = Some (number (type_ e)) /\ p "type_length"%string = Some (number (type_length e)) /\
  p "repetition_type"%string = Some (number (repetition_type e)) /\ p "name"%string = Some (VStr (ename e)) /\
  p "num_children"%string = Some (number (num_children e)) /\ p "converted_type"%string = Some (number (converted_type e)) /\
  p "scale"%string = Some (number (scale e)) /\ p "precision"%string = Some (number (precision e)) /\
  p "field_id"%string = Some (number (field_id e)) /\
  exists w, p "logicalType"%string = Some w /\
    match logicalType e with None => w = VNone | Some l => exists w', w = VSome w' /\ logical_says w' l end.
Definition schema_says (v : value) (es : list selement) : Prop :=
  exists vs, part "FileMetaData" "schema" v = Some (VVec vs) /\ Forall2 element_says vs es.
(** What is printed before the schema *)
Definition summary_says (v : value) (version rows : Z) (created : option (list Z)) : Prop :=
  part "FileMetaData" "version" v = Some (VI32 version) /\ part "FileMetaData" "num_rows" v = Some (VI64 rows) /\
  part "FileMetaData" "created_by" v = Some (match created with Some s => VSome (VStr s) | None => VNone end).
