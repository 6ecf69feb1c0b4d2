(** The text of the whole runtime as one: the methods of types.rs and encodings.rs call those of their elements, the
    methods that macros.rs expands to call those of the fields, and all of them call those of protocol.rs.
    Nothing here is taken from Protocol.v or from [fill] and [writer] of Types.v.  [E]: the definitions, whose
    methods are those of SpecExpand.v, to which the text of macros.rs expands.  Simplified: Default of the types
    is that of Types.v, and values of the types of the fields are values of the model. *)
From Verif Require Import Base Types RustSyntax RustEval RustProgram RustTypes RustCode SpecExpand SpecText SpecTypesText.
Open Scope Z_scope.
Open Scope list_scope.

(** * The representation of values *)
Definition elt (t : ty) : ty := match t with TVec u | TOption u | TBox u | TShared u => u | _ => t end.
(** The implementation that is used for each of the types that are not declared *)
Definition implemented (rep : ty -> rtype) : Prop :=
  forall t, (forall n, t <> TNamed n) -> exists T, In (rep t, T) impl_types /\ T (elt t) = t.
(** [String] and [Vec<u8>], or borrowed ones *)
Definition representation (borrowed : bool) (t : ty) : rtype :=
  match t with
  | TBool => YApp "bool" [] | TI8 => YInt I8 | TI16 => YInt I16 | TI32 => YInt I32 | TI64 => YInt I64 | TDouble => YApp "f64" []
  | TBinary => if borrowed then cow (YSlice (YInt U8)) else YApp "Vec" [YInt U8]
  | TString => if borrowed then cow (YApp "str" []) else YApp "String" []
  | TVec _ => ypar "Vec" | TOption _ => ypar "Option" | TBox _ => ypar "Box" | TShared _ => ypar "Rc"
  | TEncSet => YApp "EncodingSet" []
  | TNamed n => YApp n []
  end.
Definition is_cow (R : rtype) : bool := match R with YApp n _ => String.eqb n "Cow" | _ => false end.
Definition hold (R : rtype) (v : value) : rvalue value :=
  match v with
  | VBool b => RBool b | VI8 z => RInt I8 z | VI16 z => RInt I16 z | VI32 z => RInt I32 z | VI64 z => RInt I64 z | VDouble z => RDouble z
  | VBin l | VStr l => if is_cow R then RCow false l else RBytes l
  | VVec vs => RList (map RElem vs)
  | VNone => RNone | VSome w => RSome (RElem w) | VBox w => RElem w | VShared u w => RShared u (RElem w)
  | VEncSet m => RTup [RInt U32 m]
  | _ => RElem v
  end.
Definition of_elem (rv : rvalue value) : option value := match rv with RElem v => Some v | _ => None end.
Definition unhold (t : ty) (rv : rvalue value) : option value :=
  match t, rv with
  | TBool, RBool b => Some (VBool b)
  | TI8, RInt I8 z => Some (VI8 z) | TI16, RInt I16 z => Some (VI16 z) | TI32, RInt I32 z => Some (VI32 z) | TI64, RInt I64 z => Some (VI64 z)
  | TDouble, RDouble z => Some (VDouble z)
  | TBinary, RBytes l | TBinary, RCow _ l => Some (VBin l)
  | TString, RBytes l | TString, RCow _ l => Some (VStr l)
  | TVec _, RList l => option_map VVec (sequence (map of_elem l))
  | TOption _, RNone => Some VNone
  | TOption _, RSome (RElem w) => Some (VSome w)
  | TBox _, RElem w => Some (VBox w)
  | TShared _, RShared u (RElem w) => Some (VShared u w)
  | TEncSet, RTup [RInt U32 m] => Some (VEncSet m)
  | _, _ => None
  end.

Definition on_fn {A} (o : option rfn) (k : rfn -> A) (a : A) : A := match o with Some f => k f | None => a end.
Definition fields_of (d : def) : list field := match d with DStruct fs | DUnion fs => fs | DEnum => [] end.
Definition item_type (i : item) : Z := match i with Protocol _ z _ _ => z | _ => -1 end.
Definition item_fill (i : item) : list stmt := match i with Protocol _ _ l _ => l | _ => [] end.
Definition item_write (i : item) : list stmt := match i with Protocol _ _ _ l => l | _ => [] end.

(** A method for fields of the type itself *)
Definition own_fn (rep : ty -> rtype) (t : ty) (m : string) : option rfn := match t with TNamed _ => None | _ => impl_fn (rep t) m end.

(** * Reading *)
Section Read.
  Context {S : Type}.
  Variable c : cfg.
  Variable L : nat -> world value S.
  Variable rep : ty -> rtype.
  Variable E : env.

  (** What is left in the receiver, the result *)
  Definition unfill (back : rvalue value -> option value) (v : value) (r : S * cres value) : S * value * outcome unit :=
    match r with
    | (s, CPan p) => (s, v, Panic p)
    | (s, CRet (Some rv :: _) res) =>
        match back rv, res with
        | Some v', ROk _ => (s, v', Ok tt)
        | Some v', RErr (RError e) => (s, v', Err e)
        | _, _ => (s, v, ill)
        end
    | (s, _) => (s, v, ill)
    end.
  (** [input.f(..)] in a method of macros.rs *)
  Definition asked {A} (k : list (option (rvalue value)) -> rvalue value -> option A) (r : S * cres value) : S * outcome A :=
    match r with
    | (s, CPan p) => (s, Panic p)
    | (s, CRet outs (ROk rv)) => match k outs rv with Some a => (s, Ok a) | None => (s, ill) end
    | (s, CRet _ (RErr (RError e))) => (s, Err e)
    | (s, _) => (s, ill)
    end.
  Definition header_of (outs : list (option (rvalue value))) (rv : rvalue value) : option (Z * Z) :=
    match outs, rv with [_; Some (RInt I16 last)], RInt U8 ft => Some (ft, last) | _, _ => None end.
  Definition number_of (i : ity) (outs : list (option (rvalue value))) (rv : rvalue value) : option Z :=
    match rv with RInt j z => if ity_eqb i j then Some z else None | _ => None end.
  Definition nothing_of (outs : list (option (rvalue value))) (rv : rvalue value) : option unit := Some tt.
  Section Calls.
    Variable w : world value S.
    Variable fs : list field.
    Variable fill1 : ty -> F S.
    Variable fill_field1 : ty -> Z -> F S.
    Definition text_calls (k : call) (s : S) (v : value) (ls : locals) : S * value * locals * outcome Z :=
      match k with
      | ReadHeader x =>
          match fetch ls x with
          | Some (HInt last) => match asked header_of (w_call w ["."; "read_field_header"]%string [RObj; RInt I16 last] s) with
                                | (s', Ok (ft, last')) => (s', v, store ls x (HInt last'), Ok ft)
                                | r => read_error v ls r
                                end
          | _ => (s, v, ls, ill)
          end
      | SkipField x =>
          match fetch ls x with
          | Some (HInt ft) => match asked nothing_of (w_call w ["."; "skip_field"]%string [RObj; RInt U8 ft] s) with (s', o) => (s', v, ls, result o) end
          | _ => (s, v, ls, ill)
          end
      | ReadByte => match asked (number_of U8) (w_call w ["."; "read_byte"]%string [RObj] s) with (s', o) => (s', v, ls, o) end
      | ReadI32 => match asked (number_of I32) (w_call w ["."; "read_i32"]%string [RObj] s) with (s', o) => (s', v, ls, o) end
      | FillField n x =>
          match fetch ls x, v, named fs n with
          | Some (HInt ft), VStruct vs, Some (i, f) =>
              match nth_error vs i with
              | Some w => match fill_field1 (field_ty f) ft w s with (s', w', o) => (s', VStruct (set_nth vs i w'), ls, result o) end
              | None => (s, v, ls, ill)
              end
          | _, _, _ => (s, v, ls, ill)
          end
      | FillInner =>
          match v with
          | VUnion i w => match nth_error fs i with
                          | Some f => match fill1 (f_ty f) w s with (s', w', o) => (s', VUnion i w', ls, result o) end
                          | None => (s, v, ls, ill)
                          end
          | _ => (s, v, ls, ill)
          end
      | _ => (s, v, ls, ill)
      end.
  End Calls.

  (** [FIELD_TYPE]; constants do not look at the input. *)
  Definition only_type (z : Z) : reading S :=
    {| el_type := z; el_default := None; el_fill := fun v s => (s, v, ill); el_fill_field := fun _ v s => (s, v, ill) |}.
  Fixpoint text_type (t : ty) (s : S) : Z :=
    let run z := on_fn (impl_const (rep t)) (fun f => match run_fn c (reading_world c (L 7) (only_type z)) f [] s with (_, CRet _ (RInt U8 y)) => y | _ => -1 end) (-1) in
    match t with
    | TNamed n => match lookup E n with Some d => item_type (methods (n, d)) | None => -1 end
    | TVec u | TOption u | TBox u | TShared u => run (text_type u s)
    | _ => run 2 (* there are no elements *)
    end.

  (** [d]: room for nested calls *)
  Fixpoint text_fill (d : nat) (t : ty) (v : value) (s : S) {struct d} : S * value * outcome unit :=
    match d with
    | O => (s, v, Panic PStack)
    | Datatypes.S d' =>
        let elements u := {| el_type := text_type u s; el_default := default E d' u; el_fill := text_fill d' u; el_fill_field := fun ft => text_fill_field d' u ft |} in
        match t with
        | TNamed n =>
            match lookup E n with
            | Some df => RustCode.method (fields_of df) (default E d') (text_calls (L (7 + d')) (fields_of df) (text_fill d') (text_fill_field d'))
                           (w_bound (L (7 + d')) s) (item_fill (methods (n, df))) v s
            | None => (s, v, ill)
            end
        | _ =>
            on_fn (impl_fn (rep t) "fill_thrift")
              (fun f => unfill (unhold t) v (run_fn c (reading_world c (L (7 + d')) (elements (elt t))) f [hold (rep t) v; RObj] s)) (s, v, ill)
        end
    end
  with text_fill_field (d : nat) (t : ty) (ft : Z) (v : value) (s : S) {struct d} : S * value * outcome unit :=
    match d with
    | O => (s, v, Panic PStack)
    | Datatypes.S d' =>
        let elements u := {| el_type := text_type u s; el_default := default E d' u; el_fill := text_fill d' u; el_fill_field := fun ft => text_fill_field d' u ft |} in
        on_fn (own_fn rep t "fill_thrift_field")
          (fun f => unfill (unhold t) v (run_fn c (reading_world c (L (7 + d')) (elements (elt t))) f [hold (rep t) v; RObj; RInt U8 ft] s))
          (on_fn (default_fn "fill_thrift_field")
             (fun f => unfill of_elem v (run_fn c (reading_world c (L (7 + d')) (elements t)) f [RElem v; RObj; RInt U8 ft] s)) (s, v, ill))
    end.
  Definition text_elements (d : nat) (t : ty) (s : S) : reading S :=
    {| el_type := text_type t s; el_default := default E d t; el_fill := text_fill d t; el_fill_field := text_fill_field d t |}.
  Definition text_read (d : nat) (t : ty) (s : S) : S * outcome value :=
    on_fn (default_fn "read_thrift") (fun f => asked (fun _ rv => of_elem rv) (run_fn c (reading_world c (L (7 + d)) (text_elements d t s)) f [RObj] s)) (s, ill).
End Read.

(** * Writing *)
(** How deep a value is nested *)
Fixpoint height (v : value) : nat :=
  match v with
  | VVec vs | VStruct vs => Datatypes.S (list_max (map height vs))
  | VSome u | VBox u | VShared _ u | VUnion _ u => Datatypes.S (height u)
  | _ => 1
  end%nat.
Section Write.
  Context {W : Type}.
  Variable c : cfg.
  Variable L : nat -> world value W.
  Variable rep : ty -> rtype.
  Variable E : env.
  Definition last_of (last : Z) (r : W * cres value) : W * Z * outcome unit :=
    match r with
    | (s, CPan p) => (s, last, Panic p)
    | (s, CRet [_; _; _; Some (RInt I16 l)] (ROk _)) => (s, l, Ok tt)
    | (s, CRet [_; _; _; Some (RInt I16 l)] (RErr (RError e))) => (s, l, Err e)
    | (s, _) => (s, last, ill)
    end.
  Section Calls.
    Variable w : world value W.
    Variable fs : list field.
    Variable write_field1 : ty -> value -> Z -> Z -> W -> W * Z * outcome unit.
    Definition kept (x : local) (v : value) (ls : locals) (r : W * Z * outcome unit) : W * value * locals * outcome Z :=
      match r with
      | (s, last, Ok _) => (s, v, store ls x (HInt last), Ok 0)
      | (s, _, Err e) => (s, v, ls, Err e)
      | (s, _, Panic p) => (s, v, ls, Panic p)
      end.
    Definition text_wcalls (k : call) (s : W) (v : value) (ls : locals) : W * value * locals * outcome Z :=
      match k with
      | WriteByte b => match asked nothing_of (w_call w ["."; "write_byte"]%string [RObj; RInt U8 b] s) with (s', o) => (s', v, ls, result o) end
      | WriteI32 =>
          match v with
          | VI32 z => match asked nothing_of (w_call w ["."; "write_i32"]%string [RObj; RInt I32 z] s) with (s', o) => (s', v, ls, result o) end
          | _ => (s, v, ls, ill)
          end
      | WriteField n id x =>
          match fetch ls x, v, named fs n with
          | Some (HInt last), VStruct vs, Some (i, f) =>
              match nth_error vs i with
              | Some u => kept x v ls (write_field1 (field_ty f) u id last s)
              | None => (s, v, ls, ill)
              end
          | _, _, _ => (s, v, ls, ill)
          end
      | WriteInner id x =>
          match fetch ls x, v with
          | Some (HInt last), VUnion i u =>
              match nth_error fs i with
              | Some f => kept x v ls (write_field1 (f_ty f) u id last s)
              | None => (s, v, ls, ill)
              end
          | _, _ => (s, v, ls, ill)
          end
      | _ => (s, v, ls, ill)
      end.
  End Calls.
  Definition only_wtype (z : Z) : writing W := {| wr_type := z; wr_plain := fun _ s => (s, ill); wr_field := fun _ _ last s => (s, last, ill) |}.
  Fixpoint text_wtype (t : ty) (s : W) : Z :=
    let run z := on_fn (impl_const (rep t)) (fun f => match run_fn c (writing_world c (L 6) (only_wtype z)) f [] s with (_, CRet _ (RInt U8 y)) => y | _ => -1 end) (-1) in
    match t with
    | TNamed n => match lookup E n with Some d => item_type (methods (n, d)) | None => -1 end
    | TVec u | TOption u | TBox u | TShared u => run (text_wtype u s)
    | _ => run 2 (* there are no elements *)
    end.
  Fixpoint text_write (d : nat) (t : ty) (v : value) (s : W) {struct d} : W * outcome unit :=
    match d with
    | O => (s, Panic PStack)
    | Datatypes.S d' =>
        let elements u := {| wr_type := text_wtype u s; wr_plain := text_write d' u; wr_field := text_write_field d' u |} in
        match t with
        | TNamed n =>
            match lookup E n with
            | Some df => match RustCode.method (fields_of df) (fun _ => None) (text_wcalls (L (6 + d')) (fields_of df) (text_write_field d'))
                                 (w_bound (L (6 + d')) s) (item_write (methods (n, df))) v s with (s', _, o) => (s', o) end
            | None => (s, ill)
            end
        | _ =>
            on_fn (impl_fn (rep t) "write_thrift")
              (fun f => asked nothing_of (run_fn c (writing_world c (L (6 + d')) (elements (elt t))) f [hold (rep t) v; RObj] s)) (s, ill)
        end
    end
  with text_write_field (d : nat) (t : ty) (v : value) (id last : Z) (s : W) {struct d} : W * Z * outcome unit :=
    match d with
    | O => (s, last, Panic PStack)
    | Datatypes.S d' =>
        let elements u := {| wr_type := text_wtype u s; wr_plain := text_write d' u; wr_field := text_write_field d' u |} in
        on_fn (own_fn rep t "write_thrift_field")
          (fun f => last_of last (run_fn c (writing_world c (L (6 + d')) (elements (elt t))) f [hold (rep t) v; RObj; RInt I16 id; RInt I16 last] s))
          (on_fn (default_fn "write_thrift_field")
             (fun f => last_of last (run_fn c (writing_world c (L (6 + d')) (elements t)) f [RElem v; RObj; RInt I16 id; RInt I16 last] s)) (s, last, ill))
    end.
  Definition text_welements (d : nat) (t : ty) (s : W) : writing W :=
    {| wr_type := text_wtype t s; wr_plain := text_write d t; wr_field := text_write_field d t |}.
End Write.

(** * The programs *)
Definition slice_text_of (c : cfg) (d : nat) := link c (slice_program (sse2 c)) (@slice_world value) d.
Definition reader_text_of (c : cfg) (sse : bool) (d : nat) := link c (reader_program sse) (@reader_world value) d.
Definition writer_text_of {W} (c : cfg) (sse : bool) (write_all : list Z -> M W unit) (d : nat) := link c (writer_program sse) (@writer_world value W write_all) d.
(** No declared type has two fields of one name. *)
Definition different_names (E : env) : Prop := Forall (fun nd => NoDup (map f_name (fields_of (snd nd)))) E.
