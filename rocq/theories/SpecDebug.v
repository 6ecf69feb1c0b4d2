(** When two values cannot be told apart by what is printed for them, and the lines that
    [{:#?}] prints for a value. *)
From Coq Require Import Sorted.
From Verif Require Import Base Types ErrorName SpecUtf8 SpecEqual SpecPrint.
Open Scope list_scope.

(** The same value, except that an Rc or Arc may be shared or not and that a NaN may be
    another NaN. *)
Inductive indistinct : value -> value -> Prop :=
| I_bool b : indistinct (VBool b) (VBool b)
| I_i8 z : indistinct (VI8 z) (VI8 z)
| I_i16 z : indistinct (VI16 z) (VI16 z)
| I_i32 z : indistinct (VI32 z) (VI32 z)
| I_i64 z : indistinct (VI64 z) (VI64 z)
| I_double z : indistinct (VDouble z) (VDouble z)
| I_nan a b : nan_bits a -> nan_bits b -> indistinct (VDouble a) (VDouble b)
| I_bin l : indistinct (VBin l) (VBin l)
| I_str l : indistinct (VStr l) (VStr l)
| I_vec vs ws : indistinct_all vs ws -> indistinct (VVec vs) (VVec ws)
| I_none : indistinct VNone VNone
| I_some v w : indistinct v w -> indistinct (VSome v) (VSome w)
| I_box v w : indistinct v w -> indistinct (VBox v) (VBox w)
| I_shared a b v w : indistinct v w -> indistinct (VShared a v) (VShared b w)
| I_encset m : indistinct (VEncSet m) (VEncSet m)
| I_struct vs ws : indistinct_all vs ws -> indistinct (VStruct vs) (VStruct ws)
| I_union i v w : indistinct v w -> indistinct (VUnion i v) (VUnion i w)
with indistinct_all : list value -> list value -> Prop :=
| IA_nil : indistinct_all [] []
| IA_cons v w vs ws : indistinct v w -> indistinct_all vs ws -> indistinct_all (v :: vs) (w :: ws).

(** Letters, digits and underscore *)
Definition word_byte (b : Z) : Prop := 48 <= b <= 57 \/ 65 <= b <= 90 \/ b = 95 \/ 97 <= b <= 122.
(** What is assumed of the printer of doubles: letters, digits, signs and points; one text for
    all NaNs and different texts for different numbers. *)
Definition number_byte (b : Z) : Prop := word_byte b \/ b = 43 \/ b = 45 \/ b = 46.
Definition prints_doubles (show : Z -> list Z) : Prop :=
  (forall a, in_u 64 a -> show a <> [] /\ Forall number_byte (show a)) /\
  (forall a b, in_u 64 a -> in_u 64 b -> show a = show b <-> a = b \/ nan_bits a /\ nan_bits b).

(** Schemas whose names are Rust identifiers and whose unions have different variants. *)
Definition plain_word (s : string) : Prop := s <> EmptyString /\ Forall word_byte (text s).
Definition names_ok (E : env) : Prop := forall n d, lookup E n = Some d ->
  plain_word n /\
  match d with
  | DStruct fs => Forall (fun f => plain_word (f_name f)) fs
  | DUnion fs => NoDup (map f_name fs) /\ Forall (fun f => plain_word (f_name f)) fs
  | DEnum => True
  end.

(** * Characters and strings *)
Definition hex_byte (b : Z) : Prop := 48 <= b <= 57 \/ 97 <= b <= 102.
Definition hex_value (b : Z) : Z := if b <? 97 then b - 48 else b - 87.
Definition hex_numeral (n : Z) (ds : list Z) : Prop :=
  ds <> [] /\ Forall hex_byte ds /\ fold_left (fun n d => 16 * n + hex_value d) ds 0 = n /\ (hd 0 ds = 48 -> ds = [48]).
(** NUL, tab, carriage return, line feed, backslash and the double quote *)
Definition specials : list (Z * Z) := [(0, 48); (9, 116); (13, 114); (10, 110); (92, 92); (34, 34)].
Section Lines.
  Variables (printable : Z -> bool) (show : Z -> list Z).

  Inductive says_char (u : Z) : list Z -> Prop :=
  | Ch_special k : In (u, k) specials -> says_char u [92; k]
  | Ch_itself : ~ In u (map fst specials) -> printable u = true -> says_char u (utf8_char u)
  | Ch_code ds : ~ In u (map fst specials) -> printable u = false -> hex_numeral u ds -> says_char u (text "\u{" ++ ds ++ text "}").
  Inductive says_string (bs : list Z) : list Z -> Prop :=
  | St us ls : Forall scalar_value us -> bs = utf8_text us -> Forall2 says_char us ls -> says_string bs ([34] ++ List.concat ls ++ [34]).

  (** * Lines *)
  (** The lines of an item of a struct, tuple or list: a comma after the last one, indented. *)
  Definition with_comma (ls : list (list Z)) : list (list Z) := removelast ls ++ [last ls [] ++ [44]].
  Definition indented (ls : list (list Z)) : list (list Z) := map (fun l => text "    " ++ l) ls.
  Definition labelled (label : list Z) (ls : list (list Z)) : list (list Z) :=
    match ls with l :: ls' => (label ++ l) :: ls' | [] => [] end.
  Definition item (label : list Z) (ls : list (list Z)) : list (list Z) := indented (with_comma (labelled label ls)).
  Definition in_brackets (items : list (list (list Z))) : list (list Z) :=
    match items with [] => [text "[]"] | _ => [text "["] ++ flat_map (item []) items ++ [text "]"] end.
  Definition in_parentheses (name : string) (ls : list (list Z)) : list (list Z) := [text name ++ text "("] ++ item [] ls ++ [text ")"].
  Definition in_braces (name : string) (items : list (list Z * list (list Z))) : list (list Z) :=
    match items with
    | [] => [text name]
    | _ => [text name ++ text " {"] ++ flat_map (fun '(label, ls) => item label ls) items ++ [text "}"]
    end.

  Variable E : env.
  Inductive pretty : ty -> value -> list (list Z) -> Prop :=
  | Pr_bool b l : says_bool b l -> pretty TBool (VBool b) [l]
  | Pr_i8 z l : signed_numeral z l -> pretty TI8 (VI8 z) [l]
  | Pr_i16 z l : signed_numeral z l -> pretty TI16 (VI16 z) [l]
  | Pr_i32 z l : signed_numeral z l -> pretty TI32 (VI32 z) [l]
  | Pr_i64 z l : signed_numeral z l -> pretty TI64 (VI64 z) [l]
  | Pr_double z : pretty TDouble (VDouble z) [show z]
  | Pr_bin l ls : Forall2 numeral l ls -> pretty TBinary (VBin l) (in_brackets (map (fun l => [l]) ls))
  | Pr_str bs l : says_string bs l -> pretty TString (VStr bs) [l]
  | Pr_vec t vs lss : pretty_all t vs lss -> pretty (TVec t) (VVec vs) (in_brackets lss)
  | Pr_none t : pretty (TOption t) VNone [text "None"]
  | Pr_some t v ls : pretty t v ls -> pretty (TOption t) (VSome v) (in_parentheses "Some" ls)
  | Pr_box t v ls : pretty t v ls -> pretty (TBox t) (VBox v) ls
  | Pr_shared t u v ls : pretty t v ls -> pretty (TShared t) (VShared u v) ls
  | Pr_encset m es ds : StronglySorted Z.lt es -> (forall k, In k es <-> 0 <= k /\ Z.testbit m k = true) -> Forall2 numeral es ds ->
      pretty TEncSet (VEncSet m) (in_brackets (map (fun d => in_parentheses "Encoding" [d]) ds))
  | Pr_enum n z l : lookup E n = Some DEnum -> signed_numeral z l -> pretty (TNamed n) (VI32 z) (in_parentheses n [l])
  | Pr_struct n fs vs items : lookup E n = Some (DStruct fs) -> pretty_fields fs vs items -> pretty (TNamed n) (VStruct vs) (in_braces n items)
  | Pr_union n fs i f v ls : lookup E n = Some (DUnion fs) -> nth_error fs i = Some f -> pretty (f_ty f) v ls ->
      pretty (TNamed n) (VUnion i v) (in_parentheses (f_name f) ls)
  with pretty_all : ty -> list value -> list (list (list Z)) -> Prop :=
  | Pa_nil t : pretty_all t [] []
  | Pa_cons t v vs ls lss : pretty t v ls -> pretty_all t vs lss -> pretty_all t (v :: vs) (ls :: lss)
  with pretty_fields : list field -> list value -> list (list Z * list (list Z)) -> Prop :=
  | Pf_nil : pretty_fields [] [] []
  | Pf_cons f fs v vs ls items : pretty (field_ty f) v ls -> pretty_fields fs vs items ->
      pretty_fields (f :: fs) (v :: vs) ((text (f_name f) ++ text ": ", ls) :: items).
End Lines.
