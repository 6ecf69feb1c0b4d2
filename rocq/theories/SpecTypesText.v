(** What the text of types.rs and encodings.rs is to do: what Types.v says. *)
From Verif Require Import Base Uleb Protocol Encodings Types RustSyntax RustEval RustTypes SpecText.
Open Scope Z_scope.
Open Scope list_scope.

(** * The implementations and the types of the model they stand for, as functions of the type of the elements *)
Definition cow (t : rtype) : rtype := YApp "Cow" [YApp "'i" []; t].
Definition ypar (n : string) : rtype := YApp n [YApp "P" []].
Definition ystr (n : string) : rtype := YApp n [YApp "str" []].
Definition impl_types : list (rtype * (ty -> ty)) :=
  [(YApp "bool" [], fun _ => TBool); (YInt I8, fun _ => TI8); (YInt I16, fun _ => TI16); (YInt I32, fun _ => TI32); (YInt I64, fun _ => TI64);
   (YApp "f64" [], fun _ => TDouble);
   (YApp "Vec" [YInt U8], fun _ => TBinary); (YApp "String" [], fun _ => TString);
   (cow (YSlice (YInt U8)), fun _ => TBinary); (cow (YApp "str" []), fun _ => TString);
   (ypar "Vec", TVec); (ypar "Option", TOption); (ypar "Box", TBox); (ypar "Rc", TShared); (ypar "Arc", TShared);
   (ystr "Box", fun _ => TString); (ystr "Rc", fun _ => TString); (ystr "Arc", fun _ => TString);
   (YApp "EncodingSet" [], fun _ => TEncSet)].

(** * How a value is represented: the elements are passed through *)
Inductive held : rtype -> value -> rvalue value -> Prop :=
| held_bool b : held (YApp "bool" []) (VBool b) (RBool b)
| held_i8 z : held (YInt I8) (VI8 z) (RInt I8 z)
| held_i16 z : held (YInt I16) (VI16 z) (RInt I16 z)
| held_i32 z : held (YInt I32) (VI32 z) (RInt I32 z)
| held_i64 z : held (YInt I64) (VI64 z) (RInt I64 z)
| held_double z : held (YApp "f64" []) (VDouble z) (RDouble z)
| held_bytes l : held (YApp "Vec" [YInt U8]) (VBin l) (RBytes l)
| held_string l : held (YApp "String" []) (VStr l) (RBytes l)
| held_cow_bytes o l : held (cow (YSlice (YInt U8))) (VBin l) (RCow o l)
| held_cow_str o l : held (cow (YApp "str" [])) (VStr l) (RCow o l)
| held_vec vs : held (ypar "Vec") (VVec vs) (RList (map RElem vs))
| held_none : held (ypar "Option") VNone RNone
| held_some v : held (ypar "Option") (VSome v) (RSome (RElem v))
| held_box v : held (ypar "Box") (VBox v) (RElem v)
| held_rc u v : held (ypar "Rc") (VShared u v) (RShared u (RElem v))
| held_arc u v : held (ypar "Arc") (VShared u v) (RShared u (RElem v))
| held_box_str l : held (ystr "Box") (VStr l) (RBytes l)
| held_rc_str l : held (ystr "Rc") (VStr l) (RBytes l)
| held_arc_str l : held (ystr "Arc") (VStr l) (RBytes l)
| held_set m : held (YApp "EncodingSet" []) (VEncSet m) (RTup [RInt U32 m]).

(** * What surrounds the methods
    The elements have a type [P]; in a method of the trait the value itself is the element. *)
Record reading (S : Type) : Type := { el_type : Z; el_default : option value; el_fill : F S; el_fill_field : Z -> F S }.
Arguments el_type {S}. Arguments el_default {S}. Arguments el_fill {S}. Arguments el_fill_field {S}.
(** What a method that fills its receiver leaves behind; [n]: how many further arguments there are *)
Definition filled {S} (n : nat) (v : rvalue value) (r : S * outcome unit) : S * cres value :=
  match r with
  | (s, Ok _) => (s, CRet (Some v :: Some RObj :: repeat None n) (ROk (RTup [])))
  | (s, Err e) => (s, CRet (Some v :: Some RObj :: repeat None n) (RErr (RError e)))
  | (s, Panic p) => (s, CPan p)
  end.
Definition filled_elem {S} (n : nat) (r : S * value * outcome unit) : S * cres value :=
  let '(s, v, o) := r in filled n (RElem v) (s, o).
(** A function of [p] in the world [w], or whatever [w'] says *)
Definition called {V S} (c : cfg) (w w' : world V S) (p : program) (n : list string) (vs : list (rvalue V)) (s : S) : S * cres V :=
  match find_fn p n with Some f => run_fn c w f vs s | None => w_call w' n vs s end.
Definition reading_world {S} (c : cfg) (w : world value S) (e : reading S) : world value S := {|
  w_call := fun n vs s =>
    if path_is n ["P"; "FIELD_TYPE"]%string || path_is n ["Self"; "FIELD_TYPE"]%string then (s, CRet [] (RInt U8 (el_type e)))
    else if path_is n ["P"; "default"]%string || path_is n ["Self"; "default"]%string then
      match el_default e with Some v => (s, CRet [] (RElem v)) | None => (s, CPan PStack) end
    else if path_is n ["."; "fill_thrift"]%string || path_is n ["Self"; "fill_thrift"]%string then
      match vs with [RElem v; RObj] => filled_elem 0 (el_fill e v s) | _ => (s, CPan PIllTyped) end
    else if path_is n ["."; "fill_thrift_field"]%string then
      match vs with [RElem v; RObj; RInt U8 ft] => filled_elem 1 (el_fill_field e ft v s) | _ => (s, CPan PIllTyped) end
    else called c w w type_consts n vs s;
  w_get := w_get w; w_set := w_set w; w_bound := w_bound w |}.

Record writing (W : Type) : Type := { wr_type : Z; wr_plain : value -> M W unit; wr_field : value -> Z -> Z -> W -> W * Z * outcome unit }.
Arguments wr_type {W}. Arguments wr_plain {W}. Arguments wr_field {W}.
Definition written {W} (r : W * outcome unit) : W * cres value :=
  match r with
  | (s, Ok _) => (s, CRet [None; Some RObj] (ROk (RTup [])))
  | (s, Err e) => (s, CRet [None; Some RObj] (RErr (RError e)))
  | (s, Panic p) => (s, CPan p)
  end.
Definition written_field {W} (r : W * Z * outcome unit) : W * cres value :=
  match r with
  | (s, last, Ok _) => (s, CRet [None; Some RObj; None; Some (RInt I16 last)] (ROk (RTup [])))
  | (s, last, Err e) => (s, CRet [None; Some RObj; None; Some (RInt I16 last)] (RErr (RError e)))
  | (s, _, Panic p) => (s, CPan p)
  end.
(** [Encoding] is a struct around an i32; a u32 has at most 32 bits. *)
Definition encoding_world {W} (w : world value W) : world value W := {|
  w_call := fun n vs s =>
    if path_is n ["Encoding"]%string then match vs with [RInt I32 z] => (s, CRet [None] (RTup [RInt I32 z])) | _ => (s, CPan PIllTyped) end
    else w_call w n vs s;
  w_get := w_get w; w_set := w_set w; w_bound := fun _ => 33%nat |}.
Definition writing_world {W} (c : cfg) (w : world value W) (e : writing W) : world value W := {|
  w_call := fun n vs s =>
    if path_is n ["P"; "FIELD_TYPE"]%string || path_is n ["Self"; "FIELD_TYPE"]%string then (s, CRet [] (RInt U8 (wr_type e)))
    else if path_is n ["."; "write_thrift"]%string then
      match vs with [RElem v; RObj] => written (wr_plain e v s) | _ => (s, CPan PIllTyped) end
    else if path_is n ["."; "write_thrift_field"]%string then
      match vs with [RElem v; RObj; RInt I16 id; RInt I16 last] => written_field (wr_field e v id last s) | _ => (s, CPan PIllTyped) end
    else called c (encoding_world w) w (type_consts ++ encoding_set_fns) n vs s;
  w_get := w_get w; w_set := w_set w; w_bound := w_bound w |}.
(** What is left in [last_field_id] after an error is not part of the model. *)
Definition tells {W} (t : W * Z * outcome unit) (m : W * outcome Z) : Prop :=
  match m with
  | (s, Ok last) => t = (s, last, Ok tt)
  | (s, Err e) => exists last, t = (s, last, Err e)
  | (s, Panic p) => exists last, t = (s, last, Panic p)
  end.

(** * The elements of the model: those of the type [t] *)
Definition elem {S} (c : cfg) (I : input S) (E : env) (d : nat) (t : ty) : reading S :=
  {| el_type := field_type E t; el_default := default E d t; el_fill := fill c I E d t; el_fill_field := fun ft => fill_field c I E d t ft |}.
Record writes_elem {W} (write_all : list Z -> M W unit) (E : env) (t : ty) (e : writing W) : Prop := {
  we_type : wr_type e = field_type E t;
  we_plain : forall v s, wr_plain e v s = wplain (writer write_all E v t) s;
  we_field : forall v id last s, tells (wr_field e v id last s) (wfield (writer write_all E v t) id last s)
}.
(** Masks of EncodingSet are u32. *)
Definition mask_ok (v : value) : Prop := match v with VEncSet m => in_u 32 m | _ => True end.
(** The types whose implementation has methods for fields *)
Definition field_methods (t : ty) : bool := match t with TBool | TOption _ => true | _ => false end.
(** A value that is made as those of the type are *)
Definition shaped (E : env) (t : ty) (v : value) : bool :=
  match t, v with
  | TBool, VBool _ | TI8, VI8 _ | TI16, VI16 _ | TI32, VI32 _ | TI64, VI64 _ | TDouble, VDouble _ | TBinary, VBin _ | TString, VStr _
  | TVec _, VVec _ | TOption _, VNone | TOption _, VSome _ | TBox _, VBox _ | TShared _, VShared _ _ | TEncSet, VEncSet _ => true
  | TNamed n, _ =>
      match lookup E n, v with
      | Some (DStruct _), VStruct _ | Some DEnum, VI32 _ => true
      | Some (DUnion fs), VUnion i _ => match nth_error fs i with Some _ => true | None => false end
      | _, _ => false
      end
  | _, _ => false
  end.
