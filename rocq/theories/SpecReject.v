(** Exactly which input is refused with which error, or stopped by which panic.  Every relation is about all of the
    remaining input; no function of the model is used. *)
From Verif Require Import Base Types SpecUtf8 SpecCompact SpecDefault SpecAccept.

Inductive fault : Type :=
| Fails (e : error)
| Dies (p : panic).
Definition too_short : fault := Fails (IO UnexpectedEof).

Section Reject.
  Variable c : cfg.

  (** * Numbers and lengths *)
  Definition no_number (s : list Z) (f : fault) : Prop :=
    (Forall (fun b => 128 <= b < 256) s /\ (overflow_checks c = true -> 7 * zlen s < 2 ^ 32) /\ f = too_short) \/
    (exists l b r, s = l ++ b :: r /\ Forall (fun b => 128 <= b < 256) l /\ overflow_checks c = true /\
       7 * zlen l < 2 ^ 32 <= 7 * (zlen l + 1) /\ f = Dies POverflow).
  Definition no_chunk (s : list Z) (f : fault) : Prop :=
    no_number s f \/
    (exists n len r, s = len ++ r /\ number c n len /\ 16777216 < length_of c n /\ f = Fails (InvalidBinaryLen (length_of c n))) \/
    (exists n len r, s = len ++ r /\ number c n len /\ length_of c n <= 16777216 /\ zlen r < length_of c n /\ f = too_short).

  (** * Headers *)
  Definition no_head (last : Z) (s : list Z) (f : fault) : Prop :=
    (s = [] /\ f = too_short) \/
    (exists b r, s = b :: r /\ 16 <= b < 256 /\ overflow_checks c = true /\ 32767 < last + b / 16 /\ f = Dies POverflow) \/
    (exists t r, s = t :: r /\ 1 <= t <= 15 /\ no_number r f).
  Definition no_lhead (s : list Z) (f : fault) : Prop :=
    (s = [] /\ f = too_short) \/
    (exists b r, s = b :: r /\ 240 <= b < 256 /\ no_number r f) \/
    (exists b n len r, s = b :: len ++ r /\ 240 <= b < 256 /\ number c n len /\ 10000000 < length_of c n /\ f = Fails InvalidCollectionLen).

  (** * Skipped values *)
  (** With SSE2 a continued number at the end of the input is a panic if there are fewer than 16 bytes left and
      undefined behaviour if there are exactly 16. *)
  Definition no_int (s : list Z) (f : fault) : Prop :=
    if sse2 c then
      Forall (fun b => 128 <= b < 256) s /\ (((List.length s < 16)%nat /\ f = Dies PSliceIndex) \/ (List.length s = 16%nat /\ f = Dies PUndefined))
    else no_number s f.
  Inductive stuck : Z -> bool -> list Z -> fault -> Prop :=
  | sk_bool t : 1 <= t <= 2 -> stuck t true [] too_short
  | sk_byte e : stuck 3 e [] too_short
  | sk_int t e s f : 4 <= t <= 6 -> no_int s f -> stuck t e s f
  | sk_double e s : (List.length s < 8)%nat -> stuck 7 e s too_short
  | sk_binary e s f : no_chunk s f -> stuck 8 e s f
  | sk_list t e s f : 9 <= t <= 10 -> no_lhead s f -> stuck t e s f
  | sk_list_type t e n et hdr s : 9 <= t <= 10 -> lhead c n et hdr -> ~ 1 <= et <= 12 -> stuck t e (hdr ++ s) (Fails InvalidType)
  | sk_list_elem t e n et hdr s f : 9 <= t <= 10 -> lhead c n et hdr -> 1 <= et <= 12 -> stuck_seq et (Z.to_nat n) s f -> stuck t e (hdr ++ s) f
  | sk_map_len e s f : no_number s f -> stuck 11 e s f
  | sk_map_types e n len : number c n len -> length_of c n <> 0 -> stuck 11 e len too_short
  | sk_map_many e n len b s : number c n len -> is_byte b -> 10000000 < length_of c n -> stuck 11 e (len ++ b :: s) (Fails InvalidCollectionLen)
  | sk_map e n len b s f :
      number c n len -> 0 < length_of c n <= 10000000 -> is_byte b -> stuck_pairs (b / 16) (b mod 16) (Z.to_nat (length_of c n)) s f ->
      stuck 11 e (len ++ b :: s) f
  | sk_struct e s f : stuck_fields 0 s f -> stuck 12 e s f
  | sk_type t e s : ~ 1 <= t <= 12 -> stuck t e s (Fails InvalidType)
  with stuck_seq : Z -> nat -> list Z -> fault -> Prop :=
  | sq_here et n s f : stuck et true s f -> stuck_seq et (Datatypes.S n) s f
  | sq_later et n b s f : passed c et true b -> stuck_seq et n s f -> stuck_seq et (Datatypes.S n) (b ++ s) f
  with stuck_pairs : Z -> Z -> nat -> list Z -> fault -> Prop :=
  | sp_key kt vt n s f : stuck kt true s f -> stuck_pairs kt vt (Datatypes.S n) s f
  | sp_value kt vt n b s f : passed c kt true b -> stuck vt true s f -> stuck_pairs kt vt (Datatypes.S n) (b ++ s) f
  | sp_later kt vt n b1 b2 s f : passed c kt true b1 -> passed c vt true b2 -> stuck_pairs kt vt n s f -> stuck_pairs kt vt (Datatypes.S n) (b1 ++ b2 ++ s) f
  with stuck_fields : Z -> list Z -> fault -> Prop :=
  | sf_head last s f : no_head last s f -> stuck_fields last s f
  | sf_here last id t hdr s f : head c last id t hdr -> t <> 0 -> stuck t false s f -> stuck_fields last (hdr ++ s) f
  | sf_later last id t hdr b s f : head c last id t hdr -> t <> 0 -> passed c t false b -> stuck_fields id s f -> stuck_fields last (hdr ++ b ++ s) f.

  (** * Values
      [refuses t v s f]: an object of type [t] with contents [v] cannot be filled from [s] because of [f]. *)
  Variable E : env.
  (** [n] numbers from 0 to 30. *)
  Inductive no_ints : nat -> list Z -> fault -> Prop :=
  | ni_number n s f : no_number s f -> no_ints (Datatypes.S n) s f
  | ni_range n k b s : number c k b -> ~ 0 <= signed 32 k <= 30 -> no_ints (Datatypes.S n) (b ++ s) (Fails InvalidNumber)
  | ni_later n k b s f : number c k b -> 0 <= signed 32 k <= 30 -> no_ints n s f -> no_ints (Datatypes.S n) (b ++ s) f.
  (** The first required field that did not occur. *)
  Definition lacks (fs : list field) (seen : list nat) (g : field) : Prop :=
    exists before after, fs = before ++ g :: after /\ f_req g = true /\ ~ In (List.length before) seen /\
      forall i h, nth_error before i = Some h -> f_req h = true -> In i seen.

  Inductive refuses : ty -> value -> list Z -> fault -> Prop :=
  | rf_bool v : refuses TBool v [] too_short
  | rf_i8 v : refuses TI8 v [] too_short
  | rf_i16 v s f : no_number s f -> refuses TI16 v s f
  | rf_i32 v s f : no_number s f -> refuses TI32 v s f
  | rf_i64 v s f : no_number s f -> refuses TI64 v s f
  | rf_double v s : (List.length s < 8)%nat -> refuses TDouble v s too_short
  | rf_bin v s f : no_chunk s f -> refuses TBinary v s f
  | rf_str v s f : no_chunk s f -> refuses TString v s f
  | rf_utf8 v payload b s : chunk c payload b -> ~ well_formed_utf8 payload -> refuses TString v (b ++ s) (Fails InvalidString)
  | rf_vec t v s f : no_lhead s f -> refuses (TVec t) v s f
  | rf_vec_type t v n et hdr s : lhead c n et hdr -> et <> wire_code E t -> ~ (wire_code E t = 2 /\ et = 1) -> refuses (TVec t) v (hdr ++ s) (Fails InvalidType)
  | rf_vec_memory t v n et hdr s :
      lhead c n et hdr -> et = wire_code E t \/ (wire_code E t = 2 /\ et = 1) -> reserve c n = false -> refuses (TVec t) v (hdr ++ s) (Fails ReserveError)
  | rf_vec_elem t v n et hdr s f :
      lhead c n et hdr -> et = wire_code E t \/ (wire_code E t = 2 /\ et = 1) -> reserve c n = true ->
      refuses_seq t (Z.to_nat n) s f -> refuses (TVec t) v (hdr ++ s) f
  | rf_option_full t v s : refuses (TOption t) (VSome v) s (Fails DuplicateField)
  | rf_option t v dv s f : empty v -> standard E t dv -> refuses t dv s f -> refuses (TOption t) v s f
  | rf_box t v s f : refuses t v s f -> refuses (TBox t) (VBox v) s f
  | rf_shared t v s f : refuses t v s f -> refuses (TShared t) (VShared true v) s f
  | rf_shared_busy t v s : refuses (TShared t) (VShared false v) s (Fails DuplicateField)
  | rf_encset v s f : no_lhead s f -> refuses TEncSet v s f
  | rf_encset_type v n et hdr s : lhead c n et hdr -> et <> 5 -> refuses TEncSet v (hdr ++ s) (Fails InvalidType)
  | rf_encset_elem v n hdr s f : lhead c n 5 hdr -> no_ints (Z.to_nat n) s f -> refuses TEncSet v (hdr ++ s) f
  | rf_enum name v s f : lookup E name = Some DEnum -> no_number s f -> refuses (TNamed name) v s f
  | rf_struct name fs vs s f : lookup E name = Some (DStruct fs) -> refuses_fields name fs 0 [] vs s f -> refuses (TNamed name) (VStruct vs) s f
  | rf_union name fs v s f : lookup E name = Some (DUnion fs) -> no_head 0 s f -> refuses (TNamed name) v s f
  | rf_union_stop name fs v id hdr s : lookup E name = Some (DUnion fs) -> head c 0 id 0 hdr -> refuses (TNamed name) v (hdr ++ s) (Fails InvalidType)
  | rf_union_unknown name fs v id ft hdr s :
      lookup E name = Some (DUnion fs) -> head c 0 id ft hdr -> ft <> 0 -> undeclared fs id ->
      refuses (TNamed name) v (hdr ++ s) (Fails (MissingField "$struct_name"))
  | rf_union_inner name fs v id ft hdr i g dv s f :
      lookup E name = Some (DUnion fs) -> head c 0 id ft hdr -> ft <> 0 -> declared_at fs id i g -> standard E (f_ty g) dv ->
      refuses (f_ty g) dv s f -> refuses (TNamed name) v (hdr ++ s) f
  | rf_union_end name fs v id ft hdr i g dv b w s f :
      lookup E name = Some (DUnion fs) -> head c 0 id ft hdr -> ft <> 0 -> declared_at fs id i g -> standard E (f_ty g) dv ->
      takes c E (f_ty g) dv b w -> (s = [] /\ f = too_short) \/ (exists x r, s = x :: r /\ x <> 0 /\ f = Fails MissingStop) ->
      refuses (TNamed name) v (hdr ++ b ++ s) f
  with refuses_seq : ty -> nat -> list Z -> fault -> Prop :=
  | rq_here t n dv s f : standard E t dv -> refuses t dv s f -> refuses_seq t (Datatypes.S n) s f
  | rq_later t n dv b w s f : standard E t dv -> takes c E t dv b w -> refuses_seq t n s f -> refuses_seq t (Datatypes.S n) (b ++ s) f
  with refuses_field : ty -> Z -> value -> list Z -> fault -> Prop :=
  | rl_option_full t ft v s : refuses_field (TOption t) ft (VSome v) s (Fails DuplicateField)
  | rl_option t ft v dv s f : empty v -> standard E t dv -> refuses_field t ft dv s f -> refuses_field (TOption t) ft v s f
  | rl_type t ft v s : t <> TBool -> (forall t', t <> TOption t') -> ft <> wire_code E t -> refuses_field t ft v s (Fails InvalidType)
  | rl_other t v s f : t <> TBool -> (forall t', t <> TOption t') -> refuses t v s f -> refuses_field t (wire_code E t) v s f
  with refuses_fields : string -> list field -> Z -> list nat -> list value -> list Z -> fault -> Prop :=
  | rs_head name fs last seen vs s f : no_head last s f -> refuses_fields name fs last seen vs s f
  | rs_missing name fs last seen vs id hdr s g :
      head c last id 0 hdr -> lacks fs seen g -> refuses_fields name fs last seen vs (hdr ++ s) (Fails (MissingField (name ++ "::" ++ f_name g)))
  | rs_known name fs last seen l v r id ft hdr g s f :
      head c last id ft hdr -> ft <> 0 -> declared_at fs id (List.length l) g ->
      refuses_field (if f_req g then f_ty g else TOption (f_ty g)) ft v s f ->
      refuses_fields name fs last seen (l ++ v :: r) (hdr ++ s) f
  | rs_unknown name fs last seen vs id ft hdr s f :
      head c last id ft hdr -> ft <> 0 -> undeclared fs id -> stuck ft false s f -> refuses_fields name fs last seen vs (hdr ++ s) f
  | rs_known_later name fs last seen l v r id ft hdr g b w s f :
      head c last id ft hdr -> ft <> 0 -> declared_at fs id (List.length l) g ->
      takes_field c E (if f_req g then f_ty g else TOption (f_ty g)) ft v b w ->
      refuses_fields name fs id (List.length l :: seen) (l ++ w :: r) s f ->
      refuses_fields name fs last seen (l ++ v :: r) (hdr ++ b ++ s) f
  | rs_unknown_later name fs last seen vs id ft hdr b s f :
      head c last id ft hdr -> ft <> 0 -> undeclared fs id -> passed c ft false b ->
      refuses_fields name fs id seen vs s f -> refuses_fields name fs last seen vs (hdr ++ b ++ s) f.
End Reject.
Scheme stuck_mind := Minimality for stuck Sort Prop with stuck_seq_mind := Minimality for stuck_seq Sort Prop
  with stuck_pairs_mind := Minimality for stuck_pairs Sort Prop with stuck_fields_mind := Minimality for stuck_fields Sort Prop.
Combined Scheme stuck_mutind from stuck_mind, stuck_seq_mind, stuck_pairs_mind, stuck_fields_mind.
Scheme refuses_mind := Minimality for refuses Sort Prop with refuses_seq_mind := Minimality for refuses_seq Sort Prop
  with refuses_field_mind := Minimality for refuses_field Sort Prop with refuses_fields_mind := Minimality for refuses_fields Sort Prop.
Combined Scheme refuses_mutind from refuses_mind, refuses_seq_mind, refuses_field_mind, refuses_fields_mind.

(** Reading a new object of type [t] from [s] ends with [f]. *)
Definition refused (c : cfg) (E : env) (t : ty) (s : list Z) (f : fault) : Prop :=
  exists dv, standard E t dv /\ refuses c E t dv s f.
