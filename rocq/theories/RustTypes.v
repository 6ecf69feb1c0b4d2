(** The implementations of [CompactThriftProtocol] in types.rs and encodings.rs, read from the text. *)
From Verif Require Import Base ErrorName RustLex MacroRules RustSyntax RustEval RustProgram TypesText EncodingsText.
Open Scope Z_scope.
Open Scope list_scope.

Definition types_items : list ritem := items_of types_rs_lines.
Definition encodings_items : list ritem := items_of encodings_rs_lines.

Fixpoint rtype_eqb (a b : rtype) {struct a} : bool :=
  match a, b with
  | YInt i, YInt j => ity_eqb i j
  | YTup l, YTup k =>
      (fix all l k := match l, k with [], [] => true | x :: l', y :: k' => rtype_eqb x y && all l' k' | _, _ => false end) l k
  | YApp n l, YApp m k =>
      String.eqb n m && (fix all l k := match l, k with [], [] => true | x :: l', y :: k' => rtype_eqb x y && all l' k' | _, _ => false end) l k
  | YRef m t, YRef n u => Bool.eqb m n && rtype_eqb t u
  | YSlice t, YSlice u => rtype_eqb t u
  | YPtr, YPtr | YInfer, YInfer => true
  | _, _ => false
  end.
(** [impl<..> CompactThriftProtocol<..> for t] *)
Definition impl_type (h : list tree) : option rtype :=
  match upto (fun x => is_name x "for") h with
  | (a, _ :: b) => if existsb (fun x => is_name x "CompactThriftProtocol") a then whole_type b else None
  | _ => None
  end.
Definition impls : list (rtype * list ritem) :=
  flat_map (fun i => match i with GImpl h l => match impl_type h with Some t => [(t, l)] | None => [] end | _ => [] end) (types_items ++ encodings_items).
Fixpoint impl_for (l : list (rtype * list ritem)) (t : rtype) : list ritem :=
  match l with [] => [] | (u, is) :: l' => if rtype_eqb t u then is else impl_for l' t end.
(** The method of that implementation; [None]: it has none *)
Definition impl_fn (t : rtype) (m : string) : option rfn := find_fn (fns_of true [] (impl_for impls t)) [m].
(** Its constant [FIELD_TYPE], as a function without parameters *)
Definition impl_const (t : rtype) : option rfn := find_fn (consts_of [] (impl_for impls t)) ["FIELD_TYPE"]%string.
(** The methods with a body in the trait *)
Definition default_fn (m : string) : option rfn := find_fn (fns_of true [] (trait_items protocol_items "CompactThriftProtocol")) [m].
(** [bool::FIELD_TYPE] and the like *)
Definition type_name (t : rtype) : option string :=
  match t with YInt i => fold_right (fun x r => if ity_eqb i (snd x) then Some (fst x) else r) None ity_names | YApp n [] => Some n | _ => None end.
Definition type_consts : program :=
  flat_map (fun x => match type_name (fst x) with Some n => consts_of [n] (snd x) | None => [] end) impls.
(** The methods of [EncodingSet] itself *)
Fixpoint own_methods (is : list ritem) (n : string) : program :=
  match is with
  | [] => []
  | GImpl [t] l :: is' => if is_name t n then fns_of true ["."%string] l else own_methods is' n
  | _ :: is' => own_methods is' n
  end.
Definition encoding_set_fns : program := own_methods encodings_items "EncodingSet".
