(** Model of the printing part of parquet/src/bin/schema.rs and of its [main].

    Not modelled: opening the file, failures of the standard output (print! panics), the
    text that a failing [unwrap] prints to the standard error. *)
From Verif Require Import Base Protocol Encodings Types Parquet Footer SchemaTree ErrorName.

(** [{}] and [{:?}] of a signed integer and of a bool *)
Definition signed (n : Z) : list Z := if n <? 0 then 45 :: decimal (- n) else decimal n.
Definition show_bool (b : bool) : list Z := text (if b then "true" else "false").

(** schema.rs:351-359 [Display for RepetitionType] *)
Definition show_repetition (r : repetition) : list Z :=
  text match r with Required => "REQUIRED" | Optional => "OPTIONAL" | Repeated => "REPEATED" end.
(** schema.rs:7-18, derived Debug *)
Definition debug_physical (p : physical_type) : list Z :=
  match p with
  | PT_BOOLEAN => text "BOOLEAN"
  | PT_INT32 => text "INT32"
  | PT_INT64 => text "INT64"
  | PT_INT96 => text "INT96"
  | PT_FLOAT => text "FLOAT"
  | PT_DOUBLE => text "DOUBLE"
  | PT_BYTE_ARRAY => text "BYTE_ARRAY"
  | PT_FIXED_LEN_BYTE_ARRAY n => tuple "FIXED_LEN_BYTE_ARRAY" (decimal n)
  end.
(** schema.rs:49-54, 76-80, 100-104, derived Debug *)
Definition debug_unit (u : schema_time_unit) : list Z :=
  text match u with Millis => "Millis" | Micros => "Micros" | Nanos => "Nanos" end.
Definition debug_time (o : time_options) : list Z :=
  text "TimeOptions { is_adjusted_to_utc: " ++ show_bool (is_adjusted_to_utc o) ++ text ", time_unit: " ++ debug_unit (unit_ o) ++ text " }".
Definition debug_decimal (o : decimal_options) : list Z :=
  text "DecimalOptions { precision: " ++ decimal (d_precision o) ++ text ", scale: " ++ signed (d_scale o) ++ text " }".
(** schema.rs:134-139 [Debug for IntegerOptions] *)
Definition debug_integer (o : integer_options) : list Z :=
  text (if is_signed o then "i" else "u") ++ decimal (bitwidth o).
(** schema.rs:156-173, derived Debug *)
Definition debug_primitive (l : primitive_logical) : list Z :=
  match l with
  | PL_String => text "String"
  | PL_Enum => text "Enum"
  | PL_Decimal o => tuple "Decimal" (debug_decimal o)
  | PL_Date => text "Date"
  | PL_Time o => tuple "Time" (debug_time o)
  | PL_Timestamp o => tuple "Timestamp" (debug_time o)
  | PL_Interval => text "Interval"
  | PL_Integer o => tuple "Integer" (debug_integer o)
  | PL_Unknown => text "Unknown"
  | PL_Json => text "Json"
  | PL_Bson => text "Bson"
  | PL_UUID => text "UUID"
  | PL_Float16 => text "Float16"
  | PL_Geometry => text "Geometry"
  | PL_Geography => text "Geography"
  end.
(** schema.rs:308-316, derived Debug *)
Definition debug_group (l : group_logical) : list Z :=
  match l with
  | GL_List => text "List"
  | GL_Map => text "Map"
  | GL_MapKeyValue => text "MapKeyValue"
  | GL_Variant o =>
      text "Variant { specification_version: " ++ match o with Some n => tuple "Some" (signed n) | None => text "None" end ++ text " }"
  end.

(** schema.rs:613-617 *)
Fixpoint print_indent (indent : nat) : list Z :=
  match indent with
  | O => []
  | S n => text "  " ++ print_indent n
  end.
Definition newline : list Z := [10].
(** schema.rs:624-626 and 641-643 *)
Definition print_logical {A} (debug : A -> list Z) (l : option A) : list Z :=
  match l with
  | Some l => text " (" ++ debug l ++ text ")"
  | None => []
  end.
(** schema.rs:619-647.  What is printed, in order. *)
Fixpoint pretty_print_schema (f : sfield) (indent : nat) {struct f} : list Z :=
  print_indent indent ++
  match f with
  | Group co children l =>
      show_repetition (rep_type co) ++ text " group " ++ name co ++
      print_logical debug_group l ++
      text " {" ++ newline ++
      flat_map (fun child => pretty_print_schema child (S indent)) children ++
      print_indent indent ++ text "}" ++ newline
  | Primitive co p l _ =>
      show_repetition (rep_type co) ++ text " " ++ debug_physical p ++ text " " ++ name co ++
      print_logical debug_primitive l ++
      text ";" ++ newline
  end.

(** The fields of FileMetaData that main prints, by position in format.rs (cf. Parquet.v). *)
Definition summary_of (v : value) : option (Z * Z * option (list Z)) :=
  match v with
  | VStruct (VI32 version :: _ :: VI64 num_rows :: _ :: _ :: created_by :: _) =>
      Some (version, num_rows, match created_by with VSome (VStr s) => Some s | _ => None end)
  | _ => None
  end.
(** schema.rs:656-661 *)
Definition print_summary (s : Z * Z * option (list Z)) : list Z :=
  let '(version, num_rows, created_by) := s in
  text "version: " ++ signed version ++ newline ++
  text "num of rows: " ++ signed num_rows ++ newline ++
  match created_by with Some s => text "created by: " ++ s ++ newline | None => [] end.

(** schema.rs:649-666.  What was printed and how the program ended: [PErr e] stands for a
    panic by [unwrap] on that error.  The outer [None] does not occur ([C66_total]). *)
Definition main (c : cfg) (little : bool) (alloc : Z -> bool) (d : nat) (f : file) : option (list Z * presult unit) :=
  match snd (get_metadata_chunk c alloc f) with
  | PErr e => Some ([], PErr e)
  | PPanic p => Some ([], PPanic p)
  | POk data =>
      match snd (read_thrift c (slice_input c) parquet_env d (TNamed "FileMetaData") data) with
      | Err e => Some ([], PErr (PThrift e))
      | Panic p => Some ([], PPanic p)
      | Ok fmd =>
          match summary_of fmd, schema_of fmd with
          | Some s, Some elements =>
              match convert_schema c little alloc d elements with
              | POk schema => Some (print_summary s ++ pretty_print_schema schema 0, POk tt)
              | PErr e => Some (print_summary s, PErr e)
              | PPanic p => Some (print_summary s, PPanic p)
              end
          | _, _ => None
          end
      end
  end.
