(** Vocabulary for the statements about what schema.rs prints. *)
From Verif Require Import Base Types Footer SchemaTree ErrorName.

(** * Numbers *)
Definition digits_value (ds : list Z) : Z := fold_left (fun n d => 10 * n + (d - 48)) ds 0.
(** ASCII digits without leading zeros *)
Definition numeral (n : Z) (ds : list Z) : Prop :=
  ds <> [] /\ Forall (fun d => 48 <= d <= 57) ds /\ digits_value ds = n /\ (hd 0 ds = 48 -> ds = [48]).
Definition signed_numeral (n : Z) (ds : list Z) : Prop :=
  (0 <= n /\ numeral n ds) \/ (n < 0 /\ exists ds', ds = 45 :: ds' /\ numeral (- n) ds').

(** * Words *)
Inductive says_repetition : repetition -> list Z -> Prop :=
| sr_required : says_repetition Required (text "REQUIRED")
| sr_optional : says_repetition Optional (text "OPTIONAL")
| sr_repeated : says_repetition Repeated (text "REPEATED").
Inductive says_physical : physical_type -> list Z -> Prop :=
| sp_boolean : says_physical PT_BOOLEAN (text "BOOLEAN")
| sp_int32 : says_physical PT_INT32 (text "INT32")
| sp_int64 : says_physical PT_INT64 (text "INT64")
| sp_int96 : says_physical PT_INT96 (text "INT96")
| sp_float : says_physical PT_FLOAT (text "FLOAT")
| sp_double : says_physical PT_DOUBLE (text "DOUBLE")
| sp_byte_array : says_physical PT_BYTE_ARRAY (text "BYTE_ARRAY")
| sp_fixed n ds : numeral n ds -> says_physical (PT_FIXED_LEN_BYTE_ARRAY n) (text "FIXED_LEN_BYTE_ARRAY(" ++ ds ++ text ")").
Definition says_bool (b : bool) (s : list Z) : Prop := (b = true /\ s = text "true") \/ (b = false /\ s = text "false").
Inductive says_unit : schema_time_unit -> list Z -> Prop :=
| su_millis : says_unit Millis (text "Millis")
| su_micros : says_unit Micros (text "Micros")
| su_nanos : says_unit Nanos (text "Nanos").
Inductive says_primitive : primitive_logical -> list Z -> Prop :=
| sl_string : says_primitive PL_String (text "String")
| sl_enum : says_primitive PL_Enum (text "Enum")
| sl_decimal p s ps ss : numeral p ps -> signed_numeral s ss ->
    says_primitive (PL_Decimal {| d_precision := p; d_scale := s |})
      (text "Decimal(DecimalOptions { precision: " ++ ps ++ text ", scale: " ++ ss ++ text " })")
| sl_date : says_primitive PL_Date (text "Date")
| sl_time b u bs us : says_bool b bs -> says_unit u us ->
    says_primitive (PL_Time {| is_adjusted_to_utc := b; unit_ := u |})
      (text "Time(TimeOptions { is_adjusted_to_utc: " ++ bs ++ text ", time_unit: " ++ us ++ text " })")
| sl_timestamp b u bs us : says_bool b bs -> says_unit u us ->
    says_primitive (PL_Timestamp {| is_adjusted_to_utc := b; unit_ := u |})
      (text "Timestamp(TimeOptions { is_adjusted_to_utc: " ++ bs ++ text ", time_unit: " ++ us ++ text " })")
| sl_interval : says_primitive PL_Interval (text "Interval")
| sl_signed w ws : numeral w ws -> says_primitive (PL_Integer {| bitwidth := w; is_signed := true |}) (text "Integer(i" ++ ws ++ text ")")
| sl_unsigned w ws : numeral w ws -> says_primitive (PL_Integer {| bitwidth := w; is_signed := false |}) (text "Integer(u" ++ ws ++ text ")")
| sl_unknown : says_primitive PL_Unknown (text "Unknown")
| sl_json : says_primitive PL_Json (text "Json")
| sl_bson : says_primitive PL_Bson (text "Bson")
| sl_uuid : says_primitive PL_UUID (text "UUID")
| sl_float16 : says_primitive PL_Float16 (text "Float16")
| sl_geometry : says_primitive PL_Geometry (text "Geometry")
| sl_geography : says_primitive PL_Geography (text "Geography").
Inductive says_group : group_logical -> list Z -> Prop :=
| sg_list : says_group GL_List (text "List")
| sg_map : says_group GL_Map (text "Map")
| sg_map_key_value : says_group GL_MapKeyValue (text "MapKeyValue")
| sg_variant : says_group (GL_Variant None) (text "Variant { specification_version: None }")
| sg_version n ns : signed_numeral n ns -> says_group (GL_Variant (Some n)) (text "Variant { specification_version: Some(" ++ ns ++ text ") }").
(** In parentheses, if present. *)
Inductive says_logical {A} (says : A -> list Z -> Prop) : option A -> list Z -> Prop :=
| so_none : says_logical says None []
| so_some l s : says l s -> says_logical says (Some l) (text " (" ++ s ++ text ")").

(** * Lines
    [shows n f ls]: the lines for [f] at nesting [n].  Each level indents by two spaces. *)
Definition spaces (n : nat) : list Z := repeat 32 (2 * n).
Inductive shows : nat -> sfield -> list (list Z) -> Prop :=
| sh_leaf n co p l i r w s : says_repetition (rep_type co) r -> says_physical p w -> says_logical says_primitive l s ->
    shows n (Primitive co p l i) [spaces n ++ r ++ text " " ++ w ++ text " " ++ name co ++ s ++ text ";"]
| sh_group n co fs l r s ls : says_repetition (rep_type co) r -> says_logical says_group l s -> shows_all (S n) fs ls ->
    shows n (Group co fs l) ([spaces n ++ r ++ text " group " ++ name co ++ s ++ text " {"] ++ ls ++ [spaces n ++ text "}"])
with shows_all : nat -> list sfield -> list (list Z) -> Prop :=
| sa_nil n : shows_all n [] []
| sa_cons n f fs ls ls' : shows n f ls -> shows_all n fs ls' -> shows_all n (f :: fs) (ls ++ ls').
Definition lines (ls : list (list Z)) : list Z := flat_map (fun l => l ++ [10]) ls.

(** * What the text is meant to tell *)
Inductive shape : Type :=
| SGroup (r : repetition) (n : list Z) (l : option group_logical) (children : list shape)
| SLeaf (r : repetition) (p : physical_type) (n : list Z) (l : option primitive_logical).
Fixpoint shape_of (f : sfield) : shape :=
  match f with
  | Group co fs l => SGroup (rep_type co) (name co) l (map shape_of fs)
  | Primitive co p l _ => SLeaf (rep_type co) p (name co) l
  end.
Fixpoint names (f : sfield) : list (list Z) :=
  match f with
  | Group co fs _ => name co :: flat_map names fs
  | Primitive co _ _ _ => [name co]
  end.
(** No space and no line feed. *)
Definition plain_name (n : list Z) : Prop := Forall (fun b => b <> 32 /\ b <> 10) n.

(** The numbers are those of the Rust types: u32, u8, i8. *)
Definition primitive_ok (l : option primitive_logical) : Prop :=
  match l with
  | Some (PL_Decimal o) => in_u 8 (d_precision o) /\ in_s 8 (d_scale o)
  | Some (PL_Integer o) => in_u 8 (bitwidth o)
  | _ => True
  end.
Definition physical_ok (p : physical_type) : Prop :=
  match p with PT_FIXED_LEN_BYTE_ARRAY n => in_u 32 n | _ => True end.
Inductive field_ok : sfield -> Prop :=
| fo_group co fs l : Forall field_ok fs -> field_ok (Group co fs l)
| fo_leaf co p l i : physical_ok p -> primitive_ok l -> field_ok (Primitive co p l i).

(** * The summary before the schema, by position in format.rs (cf. Parquet.v) *)
Inductive says_created : value -> list (list Z) -> Prop :=
| sc_none : says_created VNone []
| sc_some s : says_created (VSome (VStr s)) [text "created by: " ++ s].
Inductive says_summary : value -> list (list Z) -> Prop :=
| ss_lines vs version rows created vt rt cl :
    nth_error vs 0 = Some (VI32 version) -> nth_error vs 2 = Some (VI64 rows) -> nth_error vs 5 = Some created ->
    signed_numeral version vt -> signed_numeral rows rt -> says_created created cl ->
    says_summary (VStruct vs) ([text "version: " ++ vt; text "num of rows: " ++ rt] ++ cl).
