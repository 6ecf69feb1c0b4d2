(** Specification of the Thrift compact protocol as relations between values and
    byte strings (thrift/doc/specs/thrift-compact-protocol.md), with the two
    implementation limits of this library.  Only the vocabulary of types and
    values is shared with the model; no model function is used. *)
From Verif Require Import Base Types.
From Verif Require Import SpecUtf8.

(** * Numbers *)

(** The number denoted by base-128 digits, least significant first. *)
Fixpoint digits128 (bs : list Z) : Z :=
  match bs with
  | [] => 0
  | b :: bs' => b mod 128 + 128 * digits128 bs'
  end.

(** All bytes but the last have the continuation bit. *)
Inductive terminated : list Z -> Prop :=
| term_last b : 0 <= b < 128 -> terminated [b]
| term_more b bs : 128 <= b < 256 -> terminated bs -> terminated (b :: bs).

(** [bs] is a varint for [n]: minimal or zero-padded, at most ten bytes. *)
Definition varint (n : Z) (bs : list Z) : Prop :=
  terminated bs /\ digits128 bs = n /\ (List.length bs <= 10)%nat /\ 0 <= n < 2 ^ 64.

(** The minimal form: terminated, denoting [n], at most [k] bytes, and no
    terminated sequence denoting [n] is shorter. *)
Definition canonical (n : Z) (k : nat) (bs : list Z) : Prop :=
  terminated bs /\ digits128 bs = n /\ (List.length bs <= k)%nat /\
  forall bs', terminated bs' -> digits128 bs' = n -> (List.length bs <= List.length bs')%nat.

Definition zigzag (n : Z) : Z := if 0 <=? n then 2 * n else - 2 * n - 1.

(** A signed integer of the given width. *)
Definition zz_int (bits n : Z) (bs : list Z) : Prop :=
  in_s bits n /\ varint (zigzag n) bs.

(** The number denoted by base-256 digits, least significant first. *)
Fixpoint digits256 (bs : list Z) : Z :=
  match bs with
  | [] => 0
  | b :: bs' => b + 256 * digits256 bs'
  end.

(** * Headers *)

(** Header of field [id] with wire type [t] following field [last]: delta form
    or absolute form. *)
Inductive field_header (last id t : Z) : list Z -> Prop :=
| fh_short : 1 <= id - last <= 15 -> id <= 32767 -> field_header last id t [16 * (id - last) + t]
| fh_long bs : zz_int 16 id bs -> field_header last id t (t :: bs).

(** Header of a list of [n] elements with element type tag [et]. *)
Inductive list_header (n et : Z) : list Z -> Prop :=
| lh_short : 0 <= n <= 14 -> list_header n et [16 * n + et]
| lh_long bs : 0 <= n <= 10000000 -> varint n bs -> list_header n et (240 + et :: bs).

(** A length-prefixed byte string. *)
Definition binary (payload bs : list Z) : Prop :=
  exists len, bs = len ++ payload /\ varint (zlen payload) len /\
              zlen payload <= 16777216 /\ bytes payload.

(** * Untyped wire values
    [wire t elem bs]: [bs] is a value of wire type [t], as a list, set or map
    element ([elem = true]) or as a struct field. *)
Inductive wire : Z -> bool -> list Z -> Prop :=
| w_bool_field t : t = 1 \/ t = 2 -> wire t false []
| w_bool_elem t b : t = 1 \/ t = 2 -> is_byte b -> wire t true [b]
| w_byte e b : is_byte b -> wire 3 e [b]
| w_int t e n bs : 4 <= t <= 6 -> varint n bs -> wire t e bs
| w_double e bs : List.length bs = 8%nat -> bytes bs -> wire 7 e bs
| w_binary e payload bs : binary payload bs -> wire 8 e bs
| w_list t e n et hdr body :
    t = 9 \/ t = 10 -> 1 <= et <= 12 -> list_header (Z.of_nat n) et hdr -> wire_seq et n body ->
    wire t e (hdr ++ body)
| w_map_empty e bs : varint 0 bs -> wire 11 e bs
| w_map e n kt vt len body :
    0 < Z.of_nat n <= 10000000 -> varint (Z.of_nat n) len -> 1 <= kt <= 12 -> 1 <= vt <= 12 ->
    wire_pairs kt vt n body ->
    wire 11 e (len ++ [16 * kt + vt] ++ body)
| w_struct e body : wire_fields 0 body -> wire 12 e body
with wire_seq : Z -> nat -> list Z -> Prop :=
| ws_nil et : wire_seq et 0 []
| ws_cons et n b1 b2 : wire et true b1 -> wire_seq et n b2 -> wire_seq et (S n) (b1 ++ b2)
with wire_pairs : Z -> Z -> nat -> list Z -> Prop :=
| wp_nil kt vt : wire_pairs kt vt 0 []
| wp_cons kt vt n b1 b2 b3 :
    wire kt true b1 -> wire vt true b2 -> wire_pairs kt vt n b3 ->
    wire_pairs kt vt (S n) (b1 ++ b2 ++ b3)
with wire_fields : Z -> list Z -> Prop :=
| wf_stop last : wire_fields last [0]
| wf_field last id t hdr payload rest :
    1 <= t <= 12 -> field_header last id t hdr -> wire t false payload -> wire_fields id rest ->
    wire_fields last (hdr ++ payload ++ rest).

(** * Typed values *)

(** Wire type of a Rust type; pointers and options are transparent. *)
Fixpoint wire_code (E : env) (t : ty) : Z :=
  match t with
  | TBool => 2
  | TI8 => 3
  | TI16 => 4
  | TI32 => 5
  | TI64 => 6
  | TDouble => 7
  | TBinary | TString => 8
  | TVec _ | TEncSet => 9
  | TOption t' | TBox t' | TShared t' => wire_code E t'
  | TNamed n => match lookup E n with Some DEnum => 5 | _ => 12 end
  end.

(** A boolean, possibly behind pointers or options. *)
Fixpoint boolish (t : ty) : bool :=
  match t with
  | TBool => true
  | TOption t' | TBox t' | TShared t' => boolish t'
  | _ => false
  end.

(** Element type tags: booleans may be announced as 1 or 2. *)
Definition elem_tag (E : env) (t : ty) (tag : Z) : Prop :=
  tag = wire_code E t \/ (boolish t = true /\ tag = 1).

(** The fields of a struct value that are present, with their contents. *)
Fixpoint present (fs : list field) (vs : list value) : list (field * value) :=
  match fs, vs with
  | f :: fs', v :: vs' =>
      (if f_req f then [(f, v)] else match v with VSome w => [(f, w)] | _ => [] end)
      ++ present fs' vs'
  | _, _ => []
  end.

(** Struct values have one entry per field; optional ones are options. *)
Definition field_shape (f : field) (v : value) : Prop :=
  f_req f = true \/ v = VNone \/ exists w, v = VSome w.

(** [enc E t v bs]: [bs] is a conforming encoding of the (freshly owned) value
    [v : t] outside of a field header. *)
Inductive enc (E : env) : ty -> value -> list Z -> Prop :=
| enc_true : enc E TBool (VBool true) [1]
| enc_false b : b = 2 \/ b = 0 -> enc E TBool (VBool false) [b]
| enc_i8 z : in_s 8 z -> enc E TI8 (VI8 z) [z mod 256]
| enc_i16 z bs : zz_int 16 z bs -> enc E TI16 (VI16 z) bs
| enc_i32 z bs : zz_int 32 z bs -> enc E TI32 (VI32 z) bs
| enc_i64 z bs : zz_int 64 z bs -> enc E TI64 (VI64 z) bs
| enc_double bs : List.length bs = 8%nat -> bytes bs -> enc E TDouble (VDouble (digits256 bs)) bs
| enc_bin payload bs : binary payload bs -> enc E TBinary (VBin payload) bs
| enc_str payload bs : binary payload bs -> well_formed_utf8 payload -> enc E TString (VStr payload) bs
| enc_vec t vs tag hdr body :
    elem_tag E t tag -> list_header (zlen vs) tag hdr -> enc_seq E t vs body ->
    enc E (TVec t) (VVec vs) (hdr ++ body)
| enc_some t v bs : enc E t v bs -> enc E (TOption t) (VSome v) bs
| enc_box t v bs : enc E t v bs -> enc E (TBox t) (VBox v) bs
| enc_shared t v bs : enc E t v bs -> enc E (TShared t) (VShared true v) bs
| enc_encset mask zs hdr body :
    Forall (fun z => 0 <= z <= 30) zs ->
    0 <= mask -> (forall k, 0 <= k -> Z.testbit mask k = true <-> In k zs) ->
    list_header (zlen zs) 5 hdr -> enc_seq E TI32 (map VI32 zs) body ->
    enc E TEncSet (VEncSet mask) (hdr ++ body)
| enc_enum n z bs : lookup E n = Some DEnum -> zz_int 32 z bs -> enc E (TNamed n) (VI32 z) bs
| enc_struct n fs vs bs :
    lookup E n = Some (DStruct fs) -> Forall2 field_shape fs vs ->
    enc_fields E fs 0 (present fs vs) bs ->
    enc E (TNamed n) (VStruct vs) bs
| enc_union n fs i f v ft hdr payload :
    lookup E n = Some (DUnion fs) -> nth_error fs i = Some f ->
    field_header 0 (f_id f) ft hdr -> enc_field E (f_ty f) v ft payload ->
    enc E (TNamed n) (VUnion i v) (hdr ++ payload ++ [0])
with enc_seq (E : env) : ty -> list value -> list Z -> Prop :=
| es_nil t : enc_seq E t [] []
| es_cons t v vs b1 b2 : enc E t v b1 -> enc_seq E t vs b2 -> enc_seq E t (v :: vs) (b1 ++ b2)
(** [enc_field E t v ft payload]: as a struct field; booleans live in the type
    nibble of the header. *)
with enc_field (E : env) : ty -> value -> Z -> list Z -> Prop :=
| efl_bool b : enc_field E TBool (VBool b) (if b then 1 else 2) []
| efl_some t v ft bs : boolish t = true -> enc_field E t v ft bs -> enc_field E (TOption t) (VSome v) ft bs
| efl_box t v ft bs : boolish t = true -> enc_field E t v ft bs -> enc_field E (TBox t) (VBox v) ft bs
| efl_shared t v ft bs : boolish t = true -> enc_field E t v ft bs -> enc_field E (TShared t) (VShared true v) ft bs
| efl_other t v bs : boolish t = false -> enc E t v bs -> enc_field E t v (wire_code E t) bs
(** [enc_fields E fs last pending bs]: the fields [pending], each exactly once and
    in any order, interleaved with fields whose ids are not declared in [fs],
    up to the stop byte. *)
with enc_fields (E : env) : list field -> Z -> list (field * value) -> list Z -> Prop :=
| ef_stop fs last : enc_fields E fs last [] [0]
| ef_known fs last p1 f v p2 ft hdr payload rest :
    field_header last (f_id f) ft hdr -> enc_field E (f_ty f) v ft payload ->
    enc_fields E fs (f_id f) (p1 ++ p2) rest ->
    enc_fields E fs last (p1 ++ (f, v) :: p2) (hdr ++ payload ++ rest)
| ef_unknown fs last pending id t hdr payload rest :
    (forall f, In f fs -> f_id f <> id) -> 1 <= t <= 12 ->
    field_header last id t hdr -> wire t false payload ->
    enc_fields E fs id pending rest ->
    enc_fields E fs last pending (hdr ++ payload ++ rest).
