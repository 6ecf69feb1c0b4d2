(** Exactly which bytes are read as which value: the encodings that this library accepts, including those that do
    not conform to the compact protocol.  No function of the model is used. *)
From Verif Require Import Base Types SpecUtf8 SpecCompact SpecDefault.

Section Accept.
  (** The platform: whether arithmetic is checked, whether integers are skipped with SSE2, the width of a pointer and
      which requests for memory are granted. *)
  Variable c : cfg.

  (** * Numbers
      Any number of base-128 digits, also more than ten: the digit at place [i] is shifted by [7 * i] modulo 64,
      bits beyond the 64th are lost and overlapping digits are joined. *)
  Fixpoint joined (i : Z) (bs : list Z) : Z :=
    match bs with
    | [] => 0
    | b :: bs' => Z.lor ((b mod 128) * 2 ^ ((7 * i) mod 64) mod 2 ^ 64) (joined (i + 1) bs')
    end.
  Definition number (n : Z) (bs : list Z) : Prop :=
    terminated bs /\ joined 0 bs = n /\ (overflow_checks c = true -> 7 * zlen bs < 2 ^ 32).
  (** The zigzag number in the lowest bits. *)
  Definition signed (bits n : Z) : Z :=
    let m := n mod 2 ^ bits in if Z.even m then m / 2 else - ((m + 1) / 2).
  (** A length, truncated to the width of a pointer. *)
  Definition length_of (n : Z) : Z := n mod 2 ^ usize_bits c.
  Definition chunk (payload bs : list Z) : Prop :=
    exists n len, bs = len ++ payload /\ number n len /\ length_of n = zlen payload /\ zlen payload <= 16777216 /\ bytes payload.

  (** * Headers *)
  (** [head last id t bs]: the header of field [id] with wire type [t] after field [last]; type 0 is the end. *)
  Inductive head (last : Z) : Z -> Z -> list Z -> Prop :=
  | hd_stop : head last last 0 [0]
  | hd_short b : 16 <= b < 256 -> (overflow_checks c = true -> last + b / 16 <= 32767) ->
      head last (wraps 16 (last + b / 16)) (b mod 16) [b]
  | hd_long t n bs : 1 <= t <= 15 -> number n bs -> head last (signed 16 n) t (t :: bs).
  (** [lhead n et bs]: the header of a list of [n] elements of wire type [et]. *)
  Inductive lhead : Z -> Z -> list Z -> Prop :=
  | lh_few b : 0 <= b < 240 -> lhead (b / 16) (b mod 16) [b]
  | lh_many b n bs : 240 <= b < 256 -> number n bs -> length_of n <= 10000000 -> lhead (length_of n) (b mod 16) (b :: bs).

  (** * Skipped values *)
  (** With SSE2, at most 17 bytes are passed, the last of them unseen. *)
  Definition passed_int (bs : list Z) : Prop :=
    if sse2 c then
      (terminated bs /\ (List.length bs <= 16)%nat) \/
      (exists l b, bs = l ++ [b] /\ List.length l = 16%nat /\ Forall (fun x => 128 <= x < 256) l /\ is_byte b)
    else exists n, number n bs.
  Inductive passed : Z -> bool -> list Z -> Prop :=
  | ps_bool t : 1 <= t <= 2 -> passed t false []
  | ps_bool_elem t b : 1 <= t <= 2 -> is_byte b -> passed t true [b]
  | ps_byte e b : is_byte b -> passed 3 e [b]
  | ps_int t e bs : 4 <= t <= 6 -> passed_int bs -> passed t e bs
  | ps_double e bs : List.length bs = 8%nat -> bytes bs -> passed 7 e bs
  | ps_binary e payload bs : chunk payload bs -> passed 8 e bs
  | ps_list t e n et hdr body :
      9 <= t <= 10 -> lhead n et hdr -> 1 <= et <= 12 -> passed_seq et (Z.to_nat n) body -> passed t e (hdr ++ body)
  | ps_map_empty e n bs : number n bs -> length_of n = 0 -> passed 11 e bs
  | ps_map e n len b body :
      number n len -> 0 < length_of n <= 10000000 -> is_byte b ->
      passed_pairs (b / 16) (b mod 16) (Z.to_nat (length_of n)) body -> passed 11 e (len ++ b :: body)
  | ps_struct e bs : passed_fields 0 bs -> passed 12 e bs
  with passed_seq : Z -> nat -> list Z -> Prop :=
  | pq_nil et : passed_seq et 0 []
  | pq_cons et n b1 b2 : passed et true b1 -> passed_seq et n b2 -> passed_seq et (Datatypes.S n) (b1 ++ b2)
  with passed_pairs : Z -> Z -> nat -> list Z -> Prop :=
  | pp_nil kt vt : passed_pairs kt vt 0 []
  | pp_cons kt vt n b1 b2 b3 :
      passed kt true b1 -> passed vt true b2 -> passed_pairs kt vt n b3 -> passed_pairs kt vt (Datatypes.S n) (b1 ++ b2 ++ b3)
  with passed_fields : Z -> list Z -> Prop :=
  | pf_stop last id hdr : head last id 0 hdr -> passed_fields last hdr
  | pf_field last id t hdr b1 b2 :
      head last id t hdr -> t <> 0 -> passed t false b1 -> passed_fields id b2 -> passed_fields last (hdr ++ b1 ++ b2).

  (** * Values
      [takes t v bs w]: an object of type [t] with contents [v], filled from [bs], contains [w]. *)
  Variable E : env.
  Definition empty (v : value) : Prop := forall w, v <> VSome w.
  (** [i] is the place of the first field with this id. *)
  Definition declared_at (fs : list field) (id : Z) (i : nat) (f : field) : Prop :=
    exists before after, fs = before ++ f :: after /\ List.length before = i /\ f_id f = id /\ Forall (fun g => f_id g <> id) before.
  Definition undeclared (fs : list field) (id : Z) : Prop := Forall (fun g => f_id g <> id) fs.
  Inductive ints32 : list Z -> list Z -> Prop :=
  | is_nil : ints32 [] []
  | is_cons n zs b1 b2 : number n b1 -> ints32 zs b2 -> ints32 (signed 32 n :: zs) (b1 ++ b2).

  Inductive takes : ty -> value -> list Z -> value -> Prop :=
  | tk_bool v b : is_byte b -> takes TBool v [b] (VBool (b =? 1))
  | tk_i8 v b : is_byte b -> takes TI8 v [b] (VI8 (wraps 8 b))
  | tk_i16 v n bs : number n bs -> takes TI16 v bs (VI16 (signed 16 n))
  | tk_i32 v n bs : number n bs -> takes TI32 v bs (VI32 (signed 32 n))
  | tk_i64 v n bs : number n bs -> takes TI64 v bs (VI64 (signed 64 n))
  | tk_double v bs : List.length bs = 8%nat -> bytes bs -> takes TDouble v bs (VDouble (digits256 bs))
  | tk_bin v payload bs : chunk payload bs -> takes TBinary v bs (VBin payload)
  | tk_str v payload bs : chunk payload bs -> well_formed_utf8 payload -> takes TString v bs (VStr payload)
  | tk_vec t v n et hdr ws body :
      lhead n et hdr -> et = wire_code E t \/ (wire_code E t = 2 /\ et = 1) -> reserve c n = true ->
      takes_seq t (Z.to_nat n) body ws -> takes (TVec t) v (hdr ++ body) (VVec ws)
  | tk_option t v dv bs w : empty v -> standard E t dv -> takes t dv bs w -> takes (TOption t) v bs (VSome w)
  | tk_box t v bs w : takes t v bs w -> takes (TBox t) (VBox v) bs (VBox w)
  | tk_shared t v bs w : takes t v bs w -> takes (TShared t) (VShared true v) bs (VShared true w)
  | tk_encset v n zs mask hdr body :
      lhead n 5 hdr -> n = zlen zs -> ints32 zs body -> Forall (fun z => 0 <= z <= 30) zs ->
      0 <= mask -> (forall k, 0 <= k -> Z.testbit mask k = true <-> In k zs) -> takes TEncSet v (hdr ++ body) (VEncSet mask)
  | tk_enum name v n bs : lookup E name = Some DEnum -> number n bs -> takes (TNamed name) v bs (VI32 (signed 32 n))
  | tk_struct name fs vs bs ws : lookup E name = Some (DStruct fs) -> takes_fields fs 0 [] vs bs ws -> takes (TNamed name) (VStruct vs) bs (VStruct ws)
  | tk_union name fs v id ft hdr i f dv bs w :
      lookup E name = Some (DUnion fs) -> head 0 id ft hdr -> ft <> 0 -> declared_at fs id i f ->
      standard E (f_ty f) dv -> takes (f_ty f) dv bs w -> takes (TNamed name) v (hdr ++ bs ++ [0]) (VUnion i w)
  with takes_seq : ty -> nat -> list Z -> list value -> Prop :=
  | tq_nil t : takes_seq t 0 [] []
  | tq_cons t n dv b1 w b2 ws : standard E t dv -> takes t dv b1 w -> takes_seq t n b2 ws -> takes_seq t (Datatypes.S n) (b1 ++ b2) (w :: ws)
  (** As a field with wire type [ft]; only the type of booleans is not compared. *)
  with takes_field : ty -> Z -> value -> list Z -> value -> Prop :=
  | tf_bool ft v : takes_field TBool ft v [] (VBool (ft =? 1))
  | tf_option t ft v dv bs w : empty v -> standard E t dv -> takes_field t ft dv bs w -> takes_field (TOption t) ft v bs (VSome w)
  | tf_other t v bs w : t <> TBool -> (forall t', t <> TOption t') -> takes t v bs w -> takes_field t (wire_code E t) v bs w
  (** The remaining fields of a struct after field [last]; [seen] are the places of those that occurred. *)
  with takes_fields : list field -> Z -> list nat -> list value -> list Z -> list value -> Prop :=
  | ts_stop fs last seen vs id hdr :
      head last id 0 hdr -> (forall i f, nth_error fs i = Some f -> f_req f = true -> In i seen) -> takes_fields fs last seen vs hdr vs
  | ts_known fs last seen l v r id ft hdr f b1 w b2 ws :
      head last id ft hdr -> ft <> 0 -> declared_at fs id (List.length l) f ->
      takes_field (if f_req f then f_ty f else TOption (f_ty f)) ft v b1 w ->
      takes_fields fs id (List.length l :: seen) (l ++ w :: r) b2 ws ->
      takes_fields fs last seen (l ++ v :: r) (hdr ++ b1 ++ b2) ws
  | ts_unknown fs last seen vs id ft hdr b1 b2 ws :
      head last id ft hdr -> ft <> 0 -> undeclared fs id -> passed ft false b1 -> takes_fields fs id seen vs b2 ws ->
      takes_fields fs last seen vs (hdr ++ b1 ++ b2) ws.
End Accept.
Scheme passed_mind := Minimality for passed Sort Prop with passed_seq_mind := Minimality for passed_seq Sort Prop
  with passed_pairs_mind := Minimality for passed_pairs Sort Prop with passed_fields_mind := Minimality for passed_fields Sort Prop.
Combined Scheme passed_mutind from passed_mind, passed_seq_mind, passed_pairs_mind, passed_fields_mind.
Scheme takes_mind := Minimality for takes Sort Prop with takes_seq_mind := Minimality for takes_seq Sort Prop
  with takes_field_mind := Minimality for takes_field Sort Prop with takes_fields_mind := Minimality for takes_fields Sort Prop.
Combined Scheme takes_mutind from takes_mind, takes_seq_mind, takes_field_mind, takes_fields_mind.

(** A new object of type [t] read from [bs] is [v]. *)
Definition accepted (c : cfg) (E : env) (t : ty) (bs : list Z) (v : value) : Prop :=
  exists dv, standard E t dv /\ takes c E t dv bs v.
