(** The text that [{:?}] and [{:#?}] print for values of the generated types, and
    parquet/examples/dump.rs.

    The types derive Debug (runtime/src/macros.rs:56 structs, :131 unions, :205 enums);
    EncodingSet implements it as a list (parquet/src/encodings.rs:36-40).  The derived
    code calls the builders of core/src/fmt/builders.rs, modelled here for the default
    options, [alt] being the alternate flag.  Texts are lists of bytes. *)
From Coq Require Import Ascii HexadecimalString.
From Verif Require Import Base Protocol Utf8 ErrorName Encodings Types Parquet Footer SchemaTree SchemaPrint.
Open Scope list_scope.

(** ** core/src/fmt/builders.rs *)
(** [PadAdapter::write_str]: four spaces at the start of every line.  [on_newline] is the
    state of the adapter. *)
Fixpoint pad (on_newline : bool) (l : list Z) : list Z :=
  match l with
  | [] => []
  | x :: r => (if on_newline then [32; 32; 32; 32] else []) ++ x :: pad (x =? 10) r
  end.
(** One entry of a builder with the alternate flag. *)
Definition entry (l : list Z) : list Z := pad true (l ++ [44; 10]).
Fixpoint joined (ls : list (list Z)) : list Z :=
  match ls with
  | [] => []
  | [l] => l
  | l :: ls' => l ++ [44; 32] ++ joined ls'
  end.

(** [DebugList] *)
Definition debug_list (alt : bool) (ls : list (list Z)) : list Z :=
  [91] ++
  (if alt then match ls with [] => [] | _ => [10] ++ flat_map entry ls end else joined ls) ++
  [93].
(** [DebugTuple] with one field *)
Definition debug_tuple (alt : bool) (name : string) (l : list Z) : list Z :=
  text name ++ [40] ++ (if alt then [10] ++ entry l else l) ++ [41].
(** [DebugStruct]; without fields the derived code writes the name only. *)
Definition debug_struct (alt : bool) (name : string) (fs : list (string * list Z)) : list Z :=
  let named := map (fun '(n, l) => text n ++ [58; 32] ++ l) fs in
  text name ++
  match fs with
  | [] => []
  | _ => [32; 123] ++ (if alt then [10] ++ flat_map entry named else [32] ++ joined named ++ [32]) ++ [125]
  end.

(** ** [Debug for str], core/src/fmt/mod.rs and core/src/char/methods.rs *)
(** [next_code_point], core/src/str/validations.rs: the characters of a valid string,
    each with the bytes that encode it. *)
Fixpoint chars (l : list Z) : list (Z * list Z) :=
  match l with
  | [] => []
  | x :: l1 =>
      if x <? 128 then (x, [x]) :: chars l1
      else match l1 with
      | [] => []
      | y :: l2 =>
          if x <? 224 then (x mod 32 * 64 + y mod 64, [x; y]) :: chars l2
          else match l2 with
          | [] => []
          | z :: l3 =>
              if x <? 240 then (x mod 32 * 4096 + (y mod 64 * 64 + z mod 64), [x; y; z]) :: chars l3
              else match l3 with
              | [] => []
              | w :: l4 => (x mod 8 * 262144 + (y mod 64 * 4096 + z mod 64 * 64 + w mod 64), [x; y; z; w]) :: chars l4
              end
          end
      end
  end.
(** Hexadecimal digits without leading zeros *)
Definition hex (n : Z) : list Z := text (NilZero.string_of_uint (N.to_hex_uint (Z.to_N n))).

Section Show.
  (** The characters that [char::escape_debug] leaves alone apart from the ones below:
      [is_printable] and not [is_grapheme_extended], tables of the standard library. *)
  Variable printable : Z -> bool.
  (** [Debug for f64], of the bit pattern. *)
  Variable show_f64 : Z -> list Z.

  (** [escape_debug_ext] with the arguments of [Debug for str]: the single quote is not escaped. *)
  Definition escape_char (ch : Z * list Z) : list Z :=
    let '(u, bs) := ch in
    if u =? 0 then [92; 48]
    else if u =? 9 then [92; 116]
    else if u =? 13 then [92; 114]
    else if u =? 10 then [92; 110]
    else if u =? 92 then [92; 92]
    else if u =? 34 then [92; 34]
    else if printable u then bs
    else [92; 117; 123] ++ hex u ++ [125].
  Definition debug_str (l : list Z) : list Z := [34] ++ flat_map escape_char (chars l) ++ [34].

  (** Box, Rc and Arc print their contents.  Values of another type do not occur. *)
  Fixpoint debug (alt : bool) (E : env) (v : value) (t : ty) {struct v} : list Z :=
    match v, t with
    | VBool b, TBool => show_bool b
    | VI8 z, TI8 | VI16 z, TI16 | VI32 z, TI32 | VI64 z, TI64 => signed z
    | VI32 z, TNamed n => debug_tuple alt n (signed z)
    | VDouble z, TDouble => show_f64 z
    | VBin l, TBinary => debug_list alt (map signed l)
    | VStr l, TString => debug_str l
    | VVec vs, TVec t' => debug_list alt (map (fun w => debug alt E w t') vs)
    | VNone, TOption _ => text "None"
    | VSome w, TOption t' => debug_tuple alt "Some" (debug alt E w t')
    | VBox w, TBox t' => debug alt E w t'
    | VShared _ w, TShared t' => debug alt E w t'
    | VEncSet m, TEncSet => debug_list alt (map (fun e => debug_tuple alt "Encoding" (signed e)) (encset_iter m))
    | VStruct vs, TNamed n =>
        match lookup E n with
        | Some (DStruct fs) =>
            debug_struct alt n
              ((fix go (vs : list value) (fs : list field) : list (string * list Z) :=
                  match vs, fs with
                  | w :: vs', f :: fs' => (f_name f, debug alt E w (field_ty f)) :: go vs' fs'
                  | _, _ => []
                  end) vs fs)
        | _ => []
        end
    | VUnion i w, TNamed n =>
        match lookup E n with
        | Some (DUnion fs) =>
            match nth_error fs i with
            | Some f => debug_tuple alt (f_name f) (debug alt E w (f_ty f))
            | None => []
            end
        | _ => []
        end
    | _, _ => []
    end.

  (** examples/dump.rs:6-13, after opening the file; the errors are unwrapped. *)
  Definition dump (c : cfg) (alloc : Z -> bool) (d : nat) (f : file) : list Z * presult unit :=
    match snd (get_metadata_chunk c alloc f) with
    | PErr e => ([], PErr e)
    | PPanic p => ([], PPanic p)
    | POk data =>
        match snd (read_thrift c (slice_input c) parquet_env d (TNamed "FileMetaData") data) with
        | Err e => ([], PErr (PThrift e))
        | Panic p => ([], PPanic p)
        | Ok fmd => (debug true parquet_env fmd (TNamed "FileMetaData") ++ newline, POk tt)
        end
    end.
End Show.
