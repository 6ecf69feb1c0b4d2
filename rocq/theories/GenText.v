(** generator/src/main/java/net/jhorstmann/compactthrift/Generator.kt: the text of the
    generated Rust code, from the document.  The raw strings of Kotlin were transcribed by
    a script, blanks included.
    Left out: constants, which the parser never delivers (Parser.kt:123-125). *)
From Verif Require Import Base ErrorName Generator ThriftParse SchemaPrint.
Open Scope Z_scope.
Open Scope list_scope.

(** * Kotlin's standard library *)
(** [Char.isWhitespace] *)
Definition is_whitespace (c : Z) : bool :=
  (9 <=? c) && (c <=? 13) || (28 <=? c) && (c <=? 32) || (c =? 160) || (c =? 5760) || (8192 <=? c) && (c <=? 8202) ||
  (c =? 8232) || (c =? 8233) || (c =? 8239) || (c =? 8287) || (c =? 12288).
Definition is_space (l : list Z) : bool := forallb is_whitespace l.
(** [String.lines]: divided at CR LF, LF and CR *)
Fixpoint kt_lines (s : list Z) : list (list Z) :=
  match s with
  | [] => [[]]
  | 10 :: s' => [] :: kt_lines s'
  | 13 :: 10 :: s' => [] :: kt_lines s'
  | 13 :: s' => [] :: kt_lines s'
  | c :: s' => match kt_lines s' with l :: ls => (c :: l) :: ls | [] => [[c]] end
  end.
Fixpoint indent_width (l : list Z) : nat :=
  match l with
  | c :: l' => if is_whitespace c then S (indent_width l') else O
  | [] => O
  end.
Definition min_of (ns : list nat) : nat := match ns with [] => O | n :: ns' => fold_left Nat.min ns' n end.
Definition joined_lines (ls : list (list Z)) : list Z :=
  match ls with [] => [] | l :: ls' => l ++ List.concat (map (fun l => 10 :: l) ls') end.
(** [String.trimIndent]: the first and the last line go if they are blank, then the least
    indentation of the lines that are not blank is taken from each. *)
Definition trim_indent (s : list Z) : list Z :=
  let ls := kt_lines s in
  let n := min_of (map indent_width (filter (fun l => negb (is_space l)) ls)) in
  let last := pred (List.length ls) in
  let kept := filter (fun '(i, l) => negb (((i =? 0)%nat || (i =? last)%nat) && is_space l)) (combine (seq 0 (List.length ls)) ls) in
  joined_lines (map (fun '(_, l) => skipn n l) kept).
(** [StringBuilder.appendln], with the line separator of Unix *)
Definition appendln (s : list Z) : list Z := s ++ [10].
(** [joinToString(", ")] *)
Definition comma_separated (ls : list (list Z)) : list Z :=
  match ls with [] => [] | l :: ls' => l ++ List.concat (map (fun l => text ", " ++ l) ls') end.
(** [sortedBy], which is stable *)
Fixpoint insert_by {A} (key : A -> Z) (a : A) (l : list A) : list A :=
  match l with
  | [] => [a]
  | b :: l' => if key a <=? key b then a :: l else b :: insert_by key a l'
  end.
Definition sorted_by {A} (key : A -> Z) (l : list A) : list A := fold_right (insert_by key) [] l.

(** * Types *)
(** Generator.kt:42-48 *)
Definition annotation (lifetime : bool) : list Z := if lifetime then text "<'i>" else [].
(** Generator.kt:54-76, 143-151 *)
Fixpoint type_text (t : rtype) : list Z :=
  match t with
  | RBool => text "bool"
  | RU8 => text "u8"
  | RI16 => text "i16"
  | RI32 => text "i32"
  | RI64 => text "i64"
  | RF64 => text "f64"
  | RCowStr => text "Cow<'i, str>"
  | RCowBytes => text "Cow<'i, [u8]>"
  | RVec t => text "Vec<" ++ type_text t ++ text ">"
  | RHashSet t => text "HashSet<" ++ type_text t ++ text ">"
  | RHashMap k v => text "HashMap<" ++ type_text k ++ text ", " ++ type_text v ++ text ">"
  | ROption t => text "Option<" ++ type_text t ++ text ">"
  | RNamed n lifetime => text n ++ annotation lifetime
  end.

(** * The templates
    [n]: the name of the definition, [r]: the same as Rust identifier, [l]: its lifetime
    annotation, [fields]: its fields, for structs and unions with the text of their types. *)
(** Generator.kt:161-163 *)
Definition alias_template (r t : list Z) : list Z := text "
            pub type " ++ r ++ text " = " ++ t ++ text ";
        ".

(** Generator.kt:169-186 *)
Definition enum_template (r : list Z) (fields : list (string * Z)) : list Z := text "
            #[derive(Default, Copy, Clone, Eq, Hash, Ord, PartialEq, PartialOrd)]
            #[allow(non_camel_case_types)]
            pub struct " ++ r ++ text "(pub i32);

            impl " ++ r ++ text " {" ++ List.concat (map (fun it => text "
                pub const " ++ text (rust_identifier (fst it)) ++ text ": Self = Self(" ++ signed (snd it) ++ text ");") fields) ++ text "
                
                const __NAMES: &'static [(i32, &'static str)] = &[" ++ List.concat (map (fun it => text "
                     (" ++ signed (snd it) ++ text ", """ ++ text (fst it) ++ text """),") (sorted_by snd fields)) ++ text "
                 ];
                
                #[inline]
                pub fn value(&self) -> i32 {
                    self.0
                }
            }".
(** Generator.kt:188-194 *)
Definition enum_from_template (r : list Z) : list Z := text "
            impl From<i32> for " ++ r ++ text " {
                #[inline]
                fn from(value: i32) -> Self {
                    Self(value)
                }
            }".
(** Generator.kt:196-205 *)
Definition enum_debug_template (r : list Z) : list Z := text "
            impl std::fmt::Debug for " ++ r ++ text " {
                fn fmt(&self, f: &mut std::fmt::Formatter) -> Result<(), std::fmt::Error> {
                    let name = match Self::__NAMES.binary_search_by_key(&self.0, |(i, _)| *i) {
                        Ok(i) => &Self::__NAMES[i].1,
                        Err(_) => ""__UNKNOWN"",
                    };
                    f.debug_tuple(name).field(&self.0).finish()
                }
            }".
(** Generator.kt:207-223 *)
Definition enum_impl_template (r : list Z) : list Z := text "
            impl <'i> CompactThriftProtocol<'i> for " ++ r ++ text " {
                const FIELD_TYPE: u8 = 5; // i32
                
                #[inline]
                fn fill<T: CompactThriftInput<'i>>(&mut self, input: &mut T) -> Result<(), ThriftError> {
                    self.0 = input.read_i32()?;
                    Ok(())
                }

                #[inline]
                fn write<T: CompactThriftOutput>(&self, output: &mut T) -> Result<(), ThriftError> {
                    output.write_i32(self.0)
                }
            }

        ".

(** Generator.kt:229-286 *)
Definition struct_template (n r l : list Z) (fields : list (gfield * list Z)) : list Z := text "
            #[derive(Default, Clone, Debug, PartialEq)]
            #[allow(non_camel_case_types)]
            #[allow(non_snake_case)]
            pub struct " ++ r ++ l ++ text " {" ++ List.concat (map (fun it => text "
                pub " ++ text (rust_identifier (g_name (fst it))) ++ text ": " ++ snd it ++ text ",") fields) ++ text "
            }
            
            impl" ++ l ++ text " " ++ r ++ l ++ text " {
                #[allow(non_camel_case_types)]
                #[allow(non_snake_case)]
                pub fn new(" ++ comma_separated (map (fun it => text (rust_identifier (g_name (fst it))) ++ text ": impl Into<" ++ snd it ++ text ">") fields) ++ text ") -> Self {
                    Self {" ++ List.concat (map (fun it => text "
                        " ++ text (rust_identifier (g_name (fst it))) ++ text ": " ++ text (rust_identifier (g_name (fst it))) ++ text ".into(),") fields) ++ text "
                    }
                }
            }
            
            impl <'i> CompactThriftProtocol<'i> for " ++ r ++ l ++ text " {
                const FIELD_TYPE: u8 = 12;
                
                #[inline(never)]
                #[allow(non_snake_case)]
                fn fill<T: CompactThriftInput<'i>>(&mut self, input: &mut T) -> Result<(), ThriftError> {" ++ List.concat (map (fun it => text "
                    let mut " ++ text (rust_identifier (g_name (fst it))) ++ text "_set_: bool = false;") (filter (fun it => required (fst it)) fields)) ++ text "
                    let mut last_field_id = 0_i16;
                    loop {
                        let field_type = input.read_field_header(&mut last_field_id)?;
                        if field_type == 0 {
                            break;
                        }
                        
                        match last_field_id {" ++ List.concat (map (fun it => text "
                            " ++ signed (g_id (fst it)) ++ text " => {
                                " ++ (if required (fst it) then text (rust_identifier (g_name (fst it))) ++ text "_set_ = true;" else []) ++ text "
                                self." ++ text (rust_identifier (g_name (fst it))) ++ text ".fill_field(input, field_type)?;
                            }") fields) ++ text "
                            _ => {
                                input.skip_field(field_type)?;
                            }
                        }
                    }
                    " ++ List.concat (map (fun it => text "
                    if !" ++ text (rust_identifier (g_name (fst it))) ++ text "_set_ {
                        return Err(ThriftError::MissingField(c""" ++ n ++ text "::" ++ text (g_name (fst it)) ++ text """.into()))
                    }
                    ") (filter (fun it => required (fst it)) fields)) ++ text "
                    
                    Ok(())
                }
                
                fn write<T: CompactThriftOutput>(&self, output: &mut T) -> Result<(), ThriftError> {
                    " ++ (match fields with [] => [] | _ => text "let mut last_field_id = 0_i16;" end) ++ List.concat (map (fun it => text "
                    self." ++ text (rust_identifier (g_name (fst it))) ++ text ".write_field(output, " ++ signed (g_id (fst it)) ++ text ", &mut last_field_id)?;") fields) ++ text "
                    output.write_byte(0)?;
                    Ok(())
                }
            }".

(** Generator.kt:295-303 *)
Definition union_template (r l : list Z) (fields : list (gfield * list Z)) : list Z := text "
            #[derive(Clone, Debug, PartialEq)]
            #[allow(non_camel_case_types)]
            #[allow(non_snake_case)]
            pub enum " ++ r ++ l ++ text " {" ++ List.concat (map (fun it => text "
                " ++ text (g_name (fst it)) ++ text "(" ++ snd it ++ text "),") fields) ++ text "
            }".
(** Generator.kt:305-311 *)
Definition union_default_template (r l first : list Z) : list Z := text "
            impl" ++ l ++ text " Default for " ++ r ++ l ++ text " {
                fn default() -> Self {
                    Self::" ++ first ++ text "(Default::default())
                }
            }
            ".
(** Generator.kt:313-354 *)
Definition union_impl_template (n r l : list Z) (fields : list (gfield * list Z)) : list Z := text "
            impl <'i> CompactThriftProtocol<'i> for " ++ r ++ l ++ text " {
                const FIELD_TYPE: u8 = 12;
                fn fill<T: CompactThriftInput<'i>>(&mut self, input: &mut T) -> Result<(), ThriftError> {
                    let mut last_field_id = 0_i16;
                    let field_type = input.read_field_header(&mut last_field_id)?;
                        
                    if field_type == 0 {
                        return Err(ThriftError::InvalidType);
                    }
                        
                    match last_field_id {" ++ List.concat (map (fun it => text "
                        " ++ signed (g_id (fst it)) ++ text " => {
                            *self = Self::" ++ text (g_name (fst it)) ++ text "(Default::default());
                            #[allow(unreachable_patterns)]
                            match self {
                                Self::" ++ text (g_name (fst it)) ++ text "(inner) => inner.fill(input)?,
                                _ => unsafe { std::hint::unreachable_unchecked() },
                            }
                        }") fields) ++ text "
                        _ => {
                            return Err(ThriftError::MissingField(c""" ++ n ++ text """.into()))
                        }
                    }
                    let stop = input.read_byte()?;
                    if stop != 0 {
                        return Err(ThriftError::MissingStop)
                    }
                    
                    Ok(())
                }
                
                fn write<T: CompactThriftOutput>(&self, output: &mut T) -> Result<(), ThriftError> {
                    let mut last_field_id = 0_i16;
                    match self {" ++ List.concat (map (fun it => text "
                        Self::" ++ text (g_name (fst it)) ++ text "(inner) => inner.write_field(output, " ++ signed (g_id (fst it)) ++ text ", &mut last_field_id)?, ") fields) ++ text "
                    }
                    // STOP
                    output.write_byte(0)
                }
            }
        ".

(** Generator.kt:109-117 *)
Definition finish_template : list Z := text "
            #[cfg(test)]
            mod tests {
                #[test]
                fn test_compile() {

                }
            }
        ".

(** * The generator *)
(** The fields with the text of their types *)
Definition typed (doc : document) (d : nat) (req : gfield -> freq) (fields : list gfield) : kotlin (list (gfield * list Z)) :=
  kmap (fun f => let! t := rust_type doc d (g_type f) (req f) in KOk (f, type_text t)) fields.
(** Generator.kt:160-164, 166-224, 226-288, 290-355 *)
Definition definition_text (doc : document) (d : nat) (nd : string * definition) : kotlin (list Z) :=
  let '(n, def) := nd in
  let r := text (rust_identifier n) in
  match def with
  | TypeDef t => let! t := rust_type doc d t REQUIRED in KOk (appendln (trim_indent (alias_template r (type_text t))))
  | EnumDef fields =>
      KOk (appendln (trim_indent (enum_template r fields)) ++ appendln (trim_indent (enum_from_template r)) ++
           appendln (trim_indent (enum_debug_template r)) ++ appendln (trim_indent (enum_impl_template r)))
  | StructDef fields =>
      let! l := definition_needs_lifetime doc d (Some def) in
      let! fields := typed doc d g_req fields in
      KOk (appendln (trim_indent (struct_template (text n) r (annotation l) fields)))
  | UnionDef fields =>
      let! l := definition_needs_lifetime doc d (Some def) in
      let! fields := typed doc d (fun _ => REQUIRED) fields in
      match fields with
      | [] => KThrow NoSuchElement
      | (first, _) :: _ =>
          KOk (appendln (trim_indent (union_template (text n) (annotation l) fields)) ++
               appendln (trim_indent (union_default_template (text n) (annotation l) (text (g_name first)))) ++
               appendln (trim_indent (union_impl_template (text n) (text n) (annotation l) fields)))
      end
  end.
(** Domain.kt:4-8, Generator.kt:94-137.  [now]: the time of generation *)
Definition generated_text (now : list Z) (d : nat) (h : header_map) (doc : document) : kotlin (list Z) :=
  let! ds := kmap (definition_text doc d) doc in
  KOk (List.concat (map appendln (header_lines now h)) ++ List.concat ds ++ appendln (trim_indent finish_template)).
(** Main.kt:7-20: what is printed for the text of a file *)
Definition main (now : list Z) (d : nat) (s : list Z) : kotlin (list Z) :=
  let! (h, doc) := load d s in
  let! s := generated_text now d h doc in
  KOk (appendln s).
