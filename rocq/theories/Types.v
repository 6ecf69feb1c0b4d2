(** Model of runtime/src/types.rs (implementations for the built-in types) and of
    the code that the macros of runtime/src/macros.rs expand to. *)
From Verif Require Import Base Uleb Utf8 Protocol Encodings.

(** * Types
    Codes for the Rust types that implement [CompactThriftProtocol]. *)
Inductive ty : Type :=
| TBool                (* types.rs:24 *)
| TI8                  (* types.rs:52 *)
| TI16                 (* types.rs:67 *)
| TI32                 (* types.rs:82 *)
| TI64                 (* types.rs:97 *)
| TDouble              (* types.rs:112 *)
| TBinary              (* types.rs:127 Vec<u8>, types.rs:158 Cow<[u8]> *)
| TString              (* types.rs:142 String, 173 Cow<str>, 325 Box<str>, 340 Rc<str>, 358 Arc<str> *)
| TVec (t : ty)        (* types.rs:188 Vec<P>; also what macros.rs:251-252 map list and set to *)
| TOption (t : ty)     (* types.rs:234 Option<P> *)
| TBox (t : ty)        (* types.rs:283 Box<P> *)
| TShared (t : ty)     (* types.rs:297 Rc<P>, types.rs:311 Arc<P> *)
| TEncSet              (* parquet/src/encodings.rs:42 EncodingSet *)
| TNamed (name : string). (* a type defined with thrift!: macros.rs:53, 127, 202 *)

(** A field of a struct (macros.rs:54) or a variant of a union (macros.rs:128;
    [f_req] is meaningless there).  The default value the struct syntax admits
    is parsed and ignored by the macro, so it has no counterpart here. *)
Record field : Type := { f_id : Z; f_req : bool; f_ty : ty; f_name : string }.

Inductive def : Type :=
| DStruct (fs : list field)
| DUnion (fs : list field)
| DEnum.

Definition env := list (string * def).

Fixpoint lookup (E : env) (n : string) : option def :=
  match E with
  | [] => None
  | (m, d) :: E' => if String.eqb n m then Some d else lookup E' n
  end.

(** macros.rs:266-269 [__thrift_required_or_optional] *)
Definition field_ty (f : field) : ty := if f_req f then f_ty f else TOption (f_ty f).

(** * Values *)
Inductive value : Type :=
| VBool (b : bool)
| VI8 (z : Z)
| VI16 (z : Z)
| VI32 (z : Z)             (* also the enum newtype, macros.rs:207 *)
| VI64 (z : Z)
| VDouble (bits : Z)
| VBin (l : list Z)
| VStr (l : list Z)
| VVec (vs : list value)
| VNone
| VSome (v : value)
| VBox (v : value)
| VShared (unique : bool) (v : value)   (* Rc/Arc: is this the only reference? *)
| VEncSet (mask : Z)
| VStruct (vs : list value)             (* fields in declaration order *)
| VUnion (idx : nat) (v : value).       (* variant by position *)

(** * FIELD_TYPE constants
    types.rs:25,53,68,83,98,113,128,144,159,174,189,235,284,298,312,326,341,359;
    encodings.rs:43; macros.rs:74,145,221.  An undefined name has no type in
    Rust; 0 stands for it. *)
Fixpoint field_type (E : env) (t : ty) : Z :=
  match t with
  | TBool => 2
  | TI8 => 3
  | TI16 => 4
  | TI32 => 5
  | TI64 => 6
  | TDouble => 7
  | TBinary | TString => 8
  | TVec _ => 9
  | TOption t' | TBox t' | TShared t' => field_type E t'
  | TEncSet => 9
  | TNamed n => match lookup E n with
                | Some (DStruct _) | Some (DUnion _) => 12
                | Some DEnum => 5
                | None => 0
                end
  end.

(** * Default::default
    Derived for structs (macros.rs:56), first variant for unions
    (macros.rs:137-141, 239-246), 0 for enums (macros.rs:205), and the std
    implementations.  [None]: infinite recursion, i.e. stack exhaustion; a
    union without variants does not compile. *)
Fixpoint sequence {A} (l : list (option A)) : option (list A) :=
  match l with
  | [] => Some []
  | Some a :: l' => match sequence l' with Some r => Some (a :: r) | None => None end
  | None :: _ => None
  end.

Fixpoint default (E : env) (d : nat) (t : ty) {struct d} : option value :=
  match d with
  | O => None
  | Datatypes.S d' =>
    match t with
    | TBool => Some (VBool false)
    | TI8 => Some (VI8 0)
    | TI16 => Some (VI16 0)
    | TI32 => Some (VI32 0)
    | TI64 => Some (VI64 0)
    | TDouble => Some (VDouble 0)
    | TBinary => Some (VBin [])
    | TString => Some (VStr [])
    | TVec _ => Some (VVec [])
    | TOption _ => Some VNone
    | TBox t' => option_map VBox (default E d' t')
    | TShared t' => option_map (VShared true) (default E d' t')
    | TEncSet => Some (VEncSet 0)
    | TNamed n =>
      match lookup E n with
      | Some (DStruct fs) =>
          option_map VStruct (sequence (map (fun f => default E d' (field_ty f)) fs))
      | Some (DUnion (f :: _)) => option_map (VUnion 0) (default E d' (f_ty f))
      | Some (DUnion []) => None
      | Some DEnum => Some (VI32 0)
      | None => None
      end
    end
  end.

(** * Reading *)

(** Index of the first declared field with this id: the [match last_field_id]
    of macros.rs:86-91 and 156-164 takes the first matching arm. *)
Fixpoint find_field (fs : list field) (id : Z) : option (nat * field) :=
  match fs with
  | [] => None
  | f :: fs' =>
      if f_id f =? id then Some (O, f)
      else match find_field fs' id with
           | Some (i, g) => Some (Datatypes.S i, g)
           | None => None
           end
  end.

Fixpoint set_nth {A} (l : list A) (i : nat) (a : A) : list A :=
  match l, i with
  | [], _ => []
  | _ :: l', O => a :: l'
  | x :: l', Datatypes.S i' => x :: set_nth l' i' a
  end.

(** macros.rs:97 and 291-298: the first required field whose flag is not set, in
    declaration order. *)
Fixpoint first_missing (fs : list field) (flags : list bool) : option string :=
  match fs, flags with
  | f :: fs', b :: flags' =>
      if f_req f && negb b then Some (f_name f) else first_missing fs' flags'
  | _, _ => None
  end.

(** A call [self.fill...(input)]: input position, content of [self] and result. *)
Definition F (S : Type) : Type := value -> S -> S * value * outcome unit.

(** [*self = m?; Ok(())]: assigned only on success. *)
Definition assign {S A} (m : M S A) (k : A -> value) : F S :=
  fun v s => match m s with
             | (s', Ok a) => (s', k a, Ok tt)
             | (s', Err e) => (s', v, Err e)
             | (s', Panic p) => (s', v, Panic p)
             end.

(** Replace an outcome's (absent) payload type on failure. *)
Definition failed {A} (o : outcome A) : outcome unit :=
  match o with Ok _ => Ok tt | Err e => Err e | Panic p => Panic p end.

Section Fill.
  Context {S : Type}.
  Variable c : cfg.
  Variable I : input S.
  Variable E : env.

  (** types.rs:202-210, the element loop of [Vec<P>]; [dv] is [P::default()].
      Returns the elements pushed so far, including the one whose [fill_thrift]
      failed. *)
  Fixpoint vec_loop (dv : option value) (fill1 : F S) (n : nat) (s : S) : S * list value * outcome unit :=
    match n with
    | O => (s, [], Ok tt)
    | Datatypes.S n' =>
        match dv with
        | None => (s, [], Panic PStack)
        | Some dv' =>
            match fill1 dv' s with
            | (s', v', Ok _) =>
                match vec_loop dv fill1 n' s' with
                | (s'', vs, o) => (s'', v' :: vs, o)
                end
            | (s', v', o) => (s', [v'], o)
            end
        end
    end.

  (** macros.rs:80-99: the field loop of a struct's [fill_thrift].
      [vs]/[flags]: the struct's fields and the "required" flags so far. *)
  Fixpoint struct_loop (name : string) (fs : list field)
      (fill_field1 : ty -> Z -> F S) (skip1 : Z -> M S unit)
      (fuel : nat) (last : Z) (flags : list bool) (vs : list value) (s : S)
      : S * list value * outcome unit :=
    match fuel with
    | O => (s, vs, Panic PNonTermination)
    | Datatypes.S fuel' =>
      match read_field_header c I last s with
      | (s1, Err e) => (s1, vs, Err e)
      | (s1, Panic p) => (s1, vs, Panic p)
      | (s1, Ok (ft, last')) =>
          if ft =? 0 then
            match first_missing fs flags with
            | Some fname => (s1, vs, Err (MissingField (name ++ "::" ++ fname)%string))
            | None => (s1, vs, Ok tt)
            end
          else
            match find_field fs last' with
            | Some (i, f) =>
                match nth_error vs i with
                | None => (s1, vs, Panic PIllTyped)
                | Some v =>
                    match fill_field1 (field_ty f) ft v s1 with
                    | (s2, v', Ok _) =>
                        struct_loop name fs fill_field1 skip1 fuel' last'
                          (set_nth flags i true) (set_nth vs i v') s2
                    | (s2, v', o) => (s2, set_nth vs i v', o)
                    end
                end
            | None =>
                match skip1 ft s1 with
                | (s2, Ok _) => struct_loop name fs fill_field1 skip1 fuel' last' flags vs s2
                | (s2, o) => (s2, vs, o)
                end
            end
      end
    end.

  (** [fill_thrift] and [fill_thrift_field].  [d]: admissible nesting of calls. *)
  Fixpoint fill (d : nat) (t : ty) (v : value) (s : S) {struct d} : S * value * outcome unit :=
    match d with
    | O => (s, v, Panic PStack)
    | Datatypes.S d' =>
      match t with
      (* types.rs:28-32 *)
      | TBool => assign (in_read_byte I) (fun b => VBool (b =? 1)) v s
      (* types.rs:56-59 *)
      | TI8 => assign (in_read_byte I) (fun b => VI8 (wraps 8 b)) v s
      (* types.rs:71-74 *)
      | TI16 => assign (read_i16 c I) VI16 v s
      (* types.rs:86-89 *)
      | TI32 => assign (read_i32 c I) VI32 v s
      (* types.rs:101-104 *)
      | TI64 => assign (read_i64 c I) VI64 v s
      (* types.rs:116-119 *)
      | TDouble => assign (in_read_double I) VDouble v s
      (* types.rs:131-134, 162-165 *)
      | TBinary => assign (in_read_binary I) VBin v s
      (* types.rs:147-150, 177-180, 329-332, 344-350, 362-368 *)
      | TString => assign (read_string I) VStr v s
      (* types.rs:191-213 *)
      | TVec t' =>
          match read_collection_len_and_type c I s with
          | (s1, Err e) => (s1, v, Err e)
          | (s1, Panic p) => (s1, v, Panic p)
          | (s1, Ok (len, element_type)) =>
              if negb (element_type =? field_type E t')
                 && negb ((field_type E t' =? 2) && (element_type =? 1))
              then (s1, v, Err InvalidType)
              else if negb (reserve c len) then (s1, VVec [], Err ReserveError)
              else match vec_loop (default E d' t') (fill d' t') (Z.to_nat len) s1 with
                   | (s2, vs, o) => (s2, VVec vs, o)
                   end
          end
      (* types.rs:238-248 *)
      | TOption t' =>
          match v with
          | VSome _ => (s, v, Err DuplicateField)
          | _ => match default E d' t' with
                 | None => (s, v, Panic PStack)
                 | Some dv => match fill d' t' dv s with
                              | (s', v', o) => (s', VSome v', o)
                              end
                 end
          end
      (* types.rs:287-289 *)
      | TBox t' =>
          match v with
          | VBox w => match fill d' t' w s with (s', w', o) => (s', VBox w', o) end
          | _ => (s, v, Panic PIllTyped)
          end
      (* types.rs:301-303, 315-317: get_mut only succeeds on a unique reference *)
      | TShared t' =>
          match v with
          | VShared true w => match fill d' t' w s with (s', w', o) => (s', VShared true w', o) end
          | VShared false _ => (s, v, Err DuplicateField)
          | _ => (s, v, Panic PIllTyped)
          end
      (* encodings.rs:45-62 *)
      | TEncSet => assign (encset_read c I) VEncSet v s
      | TNamed n =>
        match lookup E n with
        (* macros.rs:77-100 *)
        | Some (DStruct fs) =>
            match v with
            | VStruct vs =>
                match struct_loop n fs (fun t' ft w s' => fill_field d' t' ft w s')
                        (fun ft => skip_field c I d' ft false)
                        (Datatypes.S (in_left I s)) 0 (map (fun _ => false) fs) vs s with
                | (s', vs', o) => (s', VStruct vs', o)
                end
            | _ => (s, v, Panic PIllTyped)
            end
        (* macros.rs:148-175 *)
        | Some (DUnion fs) =>
            match read_field_header c I 0 s with
            | (s1, Err e) => (s1, v, Err e)
            | (s1, Panic p) => (s1, v, Panic p)
            | (s1, Ok (ft, last)) =>
                if ft =? 0 then (s1, v, Err InvalidType)
                else
                  match find_field fs last with
                  | None => (s1, v, Err (MissingField "$struct_name"))
                  | Some (i, f) =>
                      match default E d' (f_ty f) with
                      | None => (s1, v, Panic PStack)
                      | Some dv =>
                          match fill d' (f_ty f) dv s1 with
                          | (s2, w, Ok _) =>
                              match in_read_byte I s2 with
                              | (s3, Ok stop) =>
                                  (s3, VUnion i w, if stop =? 0 then Ok tt else Err MissingStop)
                              | (s3, o) => (s3, VUnion i w, failed o)
                              end
                          | (s2, w, o) => (s2, VUnion i w, o)
                          end
                      end
                  end
            end
        (* macros.rs:224-227 *)
        | Some DEnum => assign (read_i32 c I) VI32 v s
        | None => (s, v, Panic PIllTyped)
        end
      end
    end
  with fill_field (d : nat) (t : ty) (ft : Z) (v : value) (s : S) {struct d} : S * value * outcome unit :=
    match d with
    | O => (s, v, Panic PStack)
    | Datatypes.S d' =>
      match t with
      (* types.rs:35-38 *)
      | TBool => (s, VBool (ft =? 1), Ok tt)
      (* types.rs:251-261 *)
      | TOption t' =>
          match v with
          | VSome _ => (s, v, Err DuplicateField)
          | _ => match default E d' t' with
                 | None => (s, v, Panic PStack)
                 | Some dv => match fill_field d' t' ft dv s with
                              | (s', v', o) => (s', VSome v', o)
                              end
                 end
          end
      (* protocol.rs:448-453 *)
      | _ => if negb (ft =? field_type E t) then (s, v, Err InvalidType)
             else fill d' t v s
      end
    end.

  (** protocol.rs:441-445 [read_thrift]. *)
  Definition read_thrift (d : nat) (t : ty) : M S value :=
    fun s => match default E d t with
             | None => (s, Panic PStack)
             | Some dv => match fill d t dv s with
                          | (s', v, Ok _) => (s', Ok v)
                          | (s', _, Err e) => (s', Err e)
                          | (s', _, Panic p) => (s', Panic p)
                          end
             end.
End Fill.

(** * Writing *)

(** The pair of methods [write_thrift] and [write_thrift_field] of one value;
    the latter returns the new [*last_field_id]. *)
Record wmethods (W : Type) : Type := {
  wplain : M W unit;
  wfield : Z -> Z -> M W Z          (* field_id, last_field_id *)
}.
Arguments wplain {W} w.
Arguments wfield {W} w.

Section Write.
  Context {W : Type}.
  Variable write_all : list Z -> M W unit.
  Variable E : env.

  (** protocol.rs:456-460: the default [write_thrift_field]. *)
  Definition default_wfield (ft : Z) (plain : M W unit) : Z -> Z -> M W Z :=
    fun id last =>
      let! last' := write_field_header write_all ft id last in
      plain ;; ret last'.

  Definition with_default (ft : Z) (plain : M W unit) : wmethods W :=
    {| wplain := plain; wfield := default_wfield ft plain |}.

  (** types.rs:216-227, the list header. *)
  Definition write_list_header (ft : Z) (len : Z) : M W unit :=
    if len <? 15 then write_byte write_all (Z.lor ft (wrapu 8 (Z.shiftl (wrapu 8 len) 4)))
    else write_byte write_all (Z.lor ft 240) ;; write_len write_all len.

  (** types.rs:228-230 *)
  Fixpoint write_items (ws : list (wmethods W)) : M W unit :=
    match ws with
    | [] => ret tt
    | w :: ws' => wplain w ;; write_items ws'
    end.

  (** macros.rs:106: one [write_thrift_field] per declared field. *)
  Fixpoint write_fields (ws : list (wmethods W)) (fs : list field) (last : Z) : M W unit :=
    match ws, fs with
    | [], [] => ret tt
    | w :: ws', f :: fs' =>
        let! last' := wfield w (f_id f) last in
        write_fields ws' fs' last'
    | _, _ => crash PIllTyped
    end.

  Definition ill_typed : wmethods W := {| wplain := crash PIllTyped; wfield := fun _ _ => crash PIllTyped |}.

  (** All [write_thrift]/[write_thrift_field] implementations.  The stack used by
      writing is not modelled: it is bounded by the nesting of the value. *)
  Fixpoint writer (v : value) (t : ty) {struct v} : wmethods W :=
    let plain m := with_default (field_type E t) m in
    match v, t with
    (* types.rs:41-49 *)
    | VBool b, TBool =>
        let code := 1 + (if b then 0 else 1) in
        {| wplain := write_byte write_all code;
           wfield := fun id last => write_field_header write_all code id last |}
    (* types.rs:62-64 *)
    | VI8 z, TI8 => plain (write_byte write_all (wrapu 8 z))
    (* types.rs:77-79 *)
    | VI16 z, TI16 => plain (write_i16 write_all z)
    (* types.rs:92-94 *)
    | VI32 z, TI32 => plain (write_i32 write_all z)
    (* types.rs:107-109 *)
    | VI64 z, TI64 => plain (write_i64 write_all z)
    (* types.rs:122-124 *)
    | VDouble z, TDouble => plain (write_double write_all z)
    (* types.rs:137-139, 168-170 *)
    | VBin l, TBinary => plain (write_binary write_all l)
    (* types.rs:153-155, 183-185, 335-337, 353-355, 371-373 *)
    | VStr l, TString => plain (write_string write_all l)
    (* types.rs:215-231 *)
    | VVec vs, TVec t' =>
        plain (let len := zlen vs in
               if MAX_COLLECTION_LEN <? len then fail InvalidCollectionLen
               else write_list_header (field_type E t') len ;;
                    write_items (map (fun w => writer w t') vs))
    (* types.rs:265-280 *)
    | VNone, TOption _ =>
        {| wplain := fail MissingValue; wfield := fun _ last => ret last |}
    | VSome w, TOption t' =>
        {| wplain := wplain (writer w t'); wfield := wfield (writer w t') |}
    (* types.rs:292-294 *)
    | VBox w, TBox t' => plain (wplain (writer w t'))
    (* types.rs:306-308, 320-322 *)
    | VShared _ w, TShared t' => plain (wplain (writer w t'))
    (* encodings.rs:65-78 *)
    | VEncSet m, TEncSet => plain (encset_write write_all m)
    (* macros.rs:102-109 *)
    | VStruct vs, TNamed n =>
        match lookup E n with
        | Some (DStruct fs) =>
            plain (write_fields
                     ((fix zip (vs : list value) (fs : list field) : list (wmethods W) :=
                         match vs, fs with
                         | w :: vs', f :: fs' => writer w (field_ty f) :: zip vs' fs'
                         | w :: vs', [] => ill_typed :: zip vs' []
                         | [], _ => []
                         end) vs fs)
                     fs 0 ;;
                   write_byte write_all 0)
        | _ => ill_typed
        end
    (* macros.rs:177-184 *)
    | VUnion i w, TNamed n =>
        match lookup E n with
        | Some (DUnion fs) =>
            match nth_error fs i with
            | Some f => plain (let! _ := wfield (writer w (f_ty f)) (f_id f) 0 in
                               write_byte write_all 0)
            | None => ill_typed
            end
        | _ => ill_typed
        end
    (* macros.rs:230-232 *)
    | VI32 z, TNamed n =>
        match lookup E n with
        | Some DEnum => plain (write_i32 write_all z)
        | _ => ill_typed
        end
    | _, _ => ill_typed
    end.

  (** [CompactThriftProtocol::write_thrift] *)
  Definition write_thrift (t : ty) (v : value) : M W unit := wplain (writer v t).
  (** [CompactThriftProtocol::write_thrift_field] *)
  Definition write_thrift_field (t : ty) (v : value) (id last : Z) : M W Z := wfield (writer v t) id last.
End Write.
