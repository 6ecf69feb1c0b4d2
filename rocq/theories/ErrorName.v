(** runtime/src/error.rs: names of missing fields and how errors print.

    A FieldName is a pointer (error.rs:27-30).  It is modelled by the bytes from the
    address pointed to up to the end of the static object it points into; reading
    past them is undefined behaviour.  Formatting is modelled for the default options
    of [{}] and [{:?}], without width, precision or the alternate flag. *)
From Coq Require Import Ascii DecimalString.
From Verif Require Import Base Utf8.

Definition pointer := list Z.

(** error.rs:44-51 [From<&'static str>] *)
Definition name_from_str (value : list Z) : outcome pointer :=
  if negb (match value with [] => true | _ => false end) && (last value 0 =? 0) then Ok value else Panic PAssert.
(** error.rs:36-42 [From<&'static CStr>].  [contents]: the bytes of the CStr before its nul. *)
Definition name_from_cstr (contents : list Z) : pointer := contents ++ [0].

(** [CStr::from_ptr(p).to_bytes()] *)
Fixpoint c_str (p : pointer) : outcome (list Z) :=
  match p with
  | [] => Panic PUndefined
  | b :: p' => if b =? 0 then Ok [] else match c_str p' with Ok bs => Ok (b :: bs) | Err e => Err e | Panic q => Panic q end
  end.

(** Text as bytes. *)
Definition text (s : string) : list Z := map (fun a => Z.of_nat (nat_of_ascii a)) (list_ascii_of_string s).

Section Format.
  (** [String::from_utf8_lossy] on invalid UTF-8. *)
  Variable replaced : list Z -> list Z.
  (** The name of the other kinds of [std::io::ErrorKind]. *)
  Variable kind_name : nat -> list Z.

  (** error.rs:59-63 [Display for FieldName] *)
  Definition display_name (p : pointer) : outcome (list Z) :=
    match c_str p with
    | Ok bs => Ok (if utf8_valid bs then bs else replaced bs)
    | Err e => Err e
    | Panic q => Panic q
    end.

  (** [u8::escape_ascii] *)
  Definition hex_digit (n : Z) : Z := if n <? 10 then 48 + n else 87 + n.
  Definition escape (b : Z) : list Z :=
    if b =? 9 then [92; 116]
    else if b =? 13 then [92; 114]
    else if b =? 10 then [92; 110]
    else if b =? 39 then [92; 39]
    else if b =? 34 then [92; 34]
    else if b =? 92 then [92; 92]
    else if (32 <=? b) && (b <=? 126) then [b]
    else [92; 120; hex_digit (b / 16); hex_digit (b mod 16)].
  (** error.rs:53-57 [Debug for FieldName], which is [Debug for CStr] *)
  Definition debug_name (p : pointer) : outcome (list Z) :=
    match c_str p with
    | Ok bs => Ok ([34] ++ flat_map escape bs ++ [34])
    | Err e => Err e
    | Panic q => Panic q
    end.

  Definition decimal (n : Z) : list Z := text (NilZero.string_of_uint (N.to_uint (Z.to_N n))).
  Definition debug_kind (k : io_kind) : list Z :=
    match k with
    | UnexpectedEof => text "UnexpectedEof"
    | WriteZero => text "WriteZero"
    | Interrupted => text "Interrupted"
    | InvalidInput => text "InvalidInput"
    | OtherKind n => kind_name n
    end.
  Definition tuple (variant : string) (arg : list Z) : list Z := text variant ++ [40] ++ arg ++ [41].

  (** The name in the model's [MissingField] is the text of the literal without the nul
      that macros.rs:166,294 append. *)
  Definition literal (name : string) : list Z := text name ++ [0].

  (** error.rs:10 the derived [Debug], and 65-69 [Display for ThriftError] *)
  Definition display_error (e : error) : outcome (list Z) :=
    match e with
    | InvalidNumber => Ok (text "InvalidNumber")
    | InvalidString => Ok (text "InvalidString")
    | InvalidBinaryLen n => Ok (tuple "InvalidBinaryLen" (decimal n))
    | InvalidCollectionLen => Ok (text "InvalidCollectionLen")
    | MissingField name =>
        match name_from_str (literal name) with
        | Ok p => match debug_name p with Ok s => Ok (tuple "MissingField" s) | Err e => Err e | Panic q => Panic q end
        | Err e => Err e
        | Panic q => Panic q
        end
    | MissingValue => Ok (text "MissingValue")
    | MissingStop => Ok (text "MissingStop")
    | DuplicateField => Ok (text "DuplicateField")
    | InvalidType => Ok (text "InvalidType")
    | ReserveError => Ok (text "ReserveError")
    | IO k => Ok (tuple "IO" (debug_kind k))
    end.
End Format.
