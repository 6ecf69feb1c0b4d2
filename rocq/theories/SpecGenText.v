(** The Rust text that the generator is to print for a thrift document, line by line.
    Indentation and empty lines are free. *)
From Verif Require Import Base ErrorName Generator SpecGenerator SpecPrint.
Open Scope Z_scope.
Open Scope list_scope.

(** * The lines of a text *)
Fixpoint lines (s : list Z) : list (list Z) :=
  match s with
  | [] => [[]]
  | c :: s' => if c =? 10 then [] :: lines s' else match lines s' with l :: ls => (c :: l) :: ls | [] => [[c]] end
  end.
Fixpoint lstrip (s : list Z) : list Z := match s with c :: s' => if c <=? 32 then lstrip s' else s | [] => [] end.
Definition strip (s : list Z) : list Z := rev (lstrip (rev (lstrip s))).
Definition code (s : list Z) : list (list Z) := filter (fun l => match l with [] => false | _ => true end) (map strip (lines s)).

(** * Words *)
Definition builtins : list (builtin * string) :=
  [(BOOL, "bool"); (BYTE, "u8"); (I16, "i16"); (I32, "i32"); (I64, "i64"); (DOUBLE, "f64"); (STRING, "Cow<'i, str>"); (BINARY, "Cow<'i, [u8]>")]%string.
(** [lifetime doc n l]: what the name [n] is followed by *)
Inductive lifetime (doc : document) (n : string) : list Z -> Prop :=
| Lt_borrows : borrows doc (Named n) -> lifetime doc n (text "<'i>")
| Lt_none : ~ borrows doc (Named n) -> lifetime doc n [].
Inductive spelled (doc : document) : ftype -> list Z -> Prop :=
| Sp_base b s : In (b, s) builtins -> spelled doc (Base b) (text s)
| Sp_list t w : spelled doc t w -> spelled doc (ListOf t) (text "Vec<" ++ w ++ text ">")
| Sp_set t w : spelled doc t w -> spelled doc (SetOf t) (text "HashSet<" ++ w ++ text ">")
| Sp_map k v w u : spelled doc k w -> spelled doc v u -> spelled doc (MapOf k v) (text "HashMap<" ++ w ++ text ", " ++ u ++ text ">")
| Sp_named n l : lifetime doc n l -> spelled doc (Named n) (text n ++ l).
(** The only keyword that is escaped *)
Definition escaped (n : string) : list Z := if String.eqb n "type" then text "r#type" else text n.
(** A field with its id and type as written; in structs what is not required is optional. *)
Record shown : Type := { s_field : gfield; s_id : list Z; s_type : list Z }.
Definition s_name (s : shown) : list Z := text (g_name (s_field s)).
Definition s_member (s : shown) : list Z := escaped (g_name (s_field s)).
Definition is_required (s : shown) : bool := match g_req (s_field s) with REQUIRED => true | _ => false end.
Inductive variant (doc : document) : gfield -> shown -> Prop :=
| Va_field f i t : signed_numeral (g_id f) i -> spelled doc (g_type f) t -> variant doc f {| s_field := f; s_id := i; s_type := t |}.
Inductive member (doc : document) : gfield -> shown -> Prop :=
| Mb_required f i t : signed_numeral (g_id f) i -> spelled doc (g_type f) t -> g_req f = REQUIRED -> member doc f {| s_field := f; s_id := i; s_type := t |}
| Mb_optional f i t : signed_numeral (g_id f) i -> spelled doc (g_type f) t -> g_req f <> REQUIRED ->
    member doc f {| s_field := f; s_id := i; s_type := text "Option<" ++ t ++ text ">" |}.
Fixpoint commas (ls : list (list Z)) : list Z :=
  match ls with [] => [] | [l] => l | l :: ls' => l ++ text ", " ++ commas ls' end.

(** * Definitions.  [n]: the name, [l]: its lifetime *)
Definition struct_lines (n : string) (l : list Z) (fs : list shown) : list (list Z) :=
  let r := escaped n ++ l in
  [text "#[derive(Default, Clone, Debug, PartialEq)]";
   text "#[allow(non_camel_case_types)]";
   text "#[allow(non_snake_case)]";
   text "pub struct " ++ r ++ text " {"] ++
     map (fun f => text "pub " ++ s_member f ++ text ": " ++ s_type f ++ text ",") fs ++
  [text "}";
   text "impl" ++ l ++ text " " ++ r ++ text " {";
     text "#[allow(non_camel_case_types)]";
     text "#[allow(non_snake_case)]";
     text "pub fn new(" ++ commas (map (fun f => s_member f ++ text ": impl Into<" ++ s_type f ++ text ">") fs) ++ text ") -> Self {";
       text "Self {"] ++
         map (fun f => s_member f ++ text ": " ++ s_member f ++ text ".into(),") fs ++
      [text "}";
     text "}";
   text "}";
   text "impl <'i> CompactThriftProtocol<'i> for " ++ r ++ text " {";
     text "const FIELD_TYPE: u8 = 12;";
     text "#[inline(never)]";
     text "#[allow(non_snake_case)]";
     text "fn fill<T: CompactThriftInput<'i>>(&mut self, input: &mut T) -> Result<(), ThriftError> {"] ++
       map (fun f => text "let mut " ++ s_member f ++ text "_set_: bool = false;") (filter is_required fs) ++
      [text "let mut last_field_id = 0_i16;";
       text "loop {";
         text "let field_type = input.read_field_header(&mut last_field_id)?;";
         text "if field_type == 0 {";
           text "break;";
         text "}";
         text "match last_field_id {"] ++
           flat_map (fun f =>
             [s_id f ++ text " => {"] ++
                (if is_required f then [s_member f ++ text "_set_ = true;"] else []) ++
               [text "self." ++ s_member f ++ text ".fill_field(input, field_type)?;";
              text "}"]) fs ++
          [text "_ => {";
             text "input.skip_field(field_type)?;";
           text "}";
         text "}";
       text "}"] ++
       flat_map (fun f =>
         [text "if !" ++ s_member f ++ text "_set_ {";
            text "return Err(ThriftError::MissingField(c""" ++ text n ++ text "::" ++ s_name f ++ text """.into()))";
          text "}"]) (filter is_required fs) ++
      [text "Ok(())";
     text "}";
     text "fn write<T: CompactThriftOutput>(&self, output: &mut T) -> Result<(), ThriftError> {"] ++
       (match fs with [] => [] | _ => [text "let mut last_field_id = 0_i16;"] end) ++
       map (fun f => text "self." ++ s_member f ++ text ".write_field(output, " ++ s_id f ++ text ", &mut last_field_id)?;") fs ++
      [text "output.write_byte(0)?;";
       text "Ok(())";
     text "}";
   text "}"].

Definition union_lines (n : string) (l : list Z) (first : shown) (fs : list shown) : list (list Z) :=
  let r := text n ++ l in
  [text "#[derive(Clone, Debug, PartialEq)]";
   text "#[allow(non_camel_case_types)]";
   text "#[allow(non_snake_case)]";
   text "pub enum " ++ r ++ text " {"] ++
     map (fun f => s_name f ++ text "(" ++ s_type f ++ text "),") fs ++
  [text "}";
   text "impl" ++ l ++ text " Default for " ++ r ++ text " {";
     text "fn default() -> Self {";
       text "Self::" ++ s_name first ++ text "(Default::default())";
     text "}";
   text "}";
   text "impl <'i> CompactThriftProtocol<'i> for " ++ r ++ text " {";
     text "const FIELD_TYPE: u8 = 12;";
     text "fn fill<T: CompactThriftInput<'i>>(&mut self, input: &mut T) -> Result<(), ThriftError> {";
       text "let mut last_field_id = 0_i16;";
       text "let field_type = input.read_field_header(&mut last_field_id)?;";
       text "if field_type == 0 {";
         text "return Err(ThriftError::InvalidType);";
       text "}";
       text "match last_field_id {"] ++
         flat_map (fun f =>
           [s_id f ++ text " => {";
              text "*self = Self::" ++ s_name f ++ text "(Default::default());";
              text "#[allow(unreachable_patterns)]";
              text "match self {";
                text "Self::" ++ s_name f ++ text "(inner) => inner.fill(input)?,";
                text "_ => unsafe { std::hint::unreachable_unchecked() },";
              text "}";
            text "}"]) fs ++
        [text "_ => {";
           text "return Err(ThriftError::MissingField(c""" ++ text n ++ text """.into()))";
         text "}";
       text "}";
       text "let stop = input.read_byte()?;";
       text "if stop != 0 {";
         text "return Err(ThriftError::MissingStop)";
       text "}";
       text "Ok(())";
     text "}";
     text "fn write<T: CompactThriftOutput>(&self, output: &mut T) -> Result<(), ThriftError> {";
       text "let mut last_field_id = 0_i16;";
       text "match self {"] ++
         map (fun f => text "Self::" ++ s_name f ++ text "(inner) => inner.write_field(output, " ++ s_id f ++ text ", &mut last_field_id)?,") fs ++
      [text "}";
       text "// STOP";
       text "output.write_byte(0)";
     text "}";
   text "}"].

(** [cs]: the constants with their values as written; [table]: the same by value *)
Definition enum_lines (n : string) (cs table : list (string * list Z)) : list (list Z) :=
  let r := escaped n in
  [text "#[derive(Default, Copy, Clone, Eq, Hash, Ord, PartialEq, PartialOrd)]";
   text "#[allow(non_camel_case_types)]";
   text "pub struct " ++ r ++ text "(pub i32);";
   text "impl " ++ r ++ text " {"] ++
     map (fun c => text "pub const " ++ escaped (fst c) ++ text ": Self = Self(" ++ snd c ++ text ");") cs ++
    [text "const __NAMES: &'static [(i32, &'static str)] = &["] ++
       map (fun c => text "(" ++ snd c ++ text ", """ ++ text (fst c) ++ text """),") table ++
    [text "];";
     text "#[inline]";
     text "pub fn value(&self) -> i32 {";
       text "self.0";
     text "}";
   text "}";
   text "impl From<i32> for " ++ r ++ text " {";
     text "#[inline]";
     text "fn from(value: i32) -> Self {";
       text "Self(value)";
     text "}";
   text "}";
   text "impl std::fmt::Debug for " ++ r ++ text " {";
     text "fn fmt(&self, f: &mut std::fmt::Formatter) -> Result<(), std::fmt::Error> {";
       text "let name = match Self::__NAMES.binary_search_by_key(&self.0, |(i, _)| *i) {";
         text "Ok(i) => &Self::__NAMES[i].1,";
         text "Err(_) => ""__UNKNOWN"",";
       text "};";
       text "f.debug_tuple(name).field(&self.0).finish()";
     text "}";
   text "}";
   text "impl <'i> CompactThriftProtocol<'i> for " ++ r ++ text " {";
     text "const FIELD_TYPE: u8 = 5; // i32";
     text "#[inline]";
     text "fn fill<T: CompactThriftInput<'i>>(&mut self, input: &mut T) -> Result<(), ThriftError> {";
       text "self.0 = input.read_i32()?;";
       text "Ok(())";
     text "}";
     text "#[inline]";
     text "fn write<T: CompactThriftOutput>(&self, output: &mut T) -> Result<(), ThriftError> {";
       text "output.write_i32(self.0)";
     text "}";
   text "}"].
Definition tests_lines : list (list Z) :=
  [text "#[cfg(test)]"; text "mod tests {"; text "#[test]"; text "fn test_compile() {"; text "}"; text "}"].

Definition constant_shown (c : string * Z) (s : string * list Z) : Prop := fst c = fst s /\ signed_numeral (snd c) (snd s).
(** [by_value cs table]: the same constants in the order of their values, those of equal value in the given order *)
Inductive ascending : list (string * Z) -> Prop :=
| As_nil : ascending []
| As_cons c cs : Forall (fun c' => snd c <= snd c') cs -> ascending cs -> ascending (c :: cs).
Definition by_value (cs table : list (string * Z)) : Prop :=
  ascending table /\ forall v, filter (fun c => snd c =? v) table = filter (fun c => snd c =? v) cs.

(** [prints doc nd ls]: the definition [nd] of [doc] is printed as the lines [ls]. *)
Inductive prints (doc : document) : string * definition -> list (list Z) -> Prop :=
| Pr_alias n t w : spelled doc t w -> prints doc (n, TypeDef t) [text "pub type " ++ escaped n ++ text " = " ++ w ++ text ";"]
| Pr_enum n cs table ss tt : Forall2 constant_shown cs ss -> by_value cs table -> Forall2 constant_shown table tt ->
    prints doc (n, EnumDef cs) (enum_lines n ss tt)
| Pr_struct n l gs fs : lifetime doc n l -> Forall2 (member doc) gs fs -> prints doc (n, StructDef gs) (struct_lines n l fs)
| Pr_union n l gs f fs : lifetime doc n l -> Forall2 (variant doc) gs (f :: fs) -> prints doc (n, UnionDef gs) (union_lines n l f (f :: fs)).
