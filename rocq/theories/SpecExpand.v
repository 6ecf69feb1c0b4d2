(** The items that the macros of runtime/src/macros.rs produce, and how they are written in Rust:
    independently of the rules of macros.rs. *)
From Verif Require Import Base ErrorName Types Macro RustLex SpecRust RustCode.
Open Scope Z_scope.
Open Scope list_scope.

(** * Tokens *)
Definition token (s : string) : tree :=
  match text s with
  | c :: _ => if (65 <=? c) && (c <=? 90) || (97 <=? c) && (c <=? 122) || (c =? 95) || (c =? 39) then name s
              else if (48 <=? c) && (c <=? 57) then lit (text s) else sign s
  | [] => sign s
  end.
(** The words of a string *)
Fixpoint words (w : list Z) (s : list Z) : list (list Z) :=
  match s with
  | [] => match w with [] => [] | _ => [w] end
  | c :: s' => if c =? 32 then w :: words [] s' else words (w ++ [c]) s'
  end.
Definition code (s : string) : list tree := map (fun w => token (string_of w)) (words [] (text s)).
Definition parens (ts : list tree) : list tree := [Gr Paren ts].
Definition braces (ts : list tree) : list tree := [Gr Brace ts].
(** The local variables of a macro are marked with a prime. *)
Definition variable (x : local) : tree := name (if fst x then snd x else snd x ++ "'")%string.
Definition plain (n : string) : Prop := forall m, n <> (m ++ "'")%string.
Definition proper (x : local) : Prop := fst x = true -> plain (snd x).
(** Of several parts each but the last must be followed by a comma. *)
Definition comma (sep rest : list tree) : Prop := sep = [sign ","] \/ (sep = [] /\ rest = []).

(** * Types *)
Definition special : list string := ["bool"; "i8"; "i16"; "i32"; "i64"; "f64"; "String"; "u8"; "str"; "EncodingSet"]%string.
Inductive type_reads : ty -> list tree -> Prop :=
| Y_bool : type_reads TBool [name "bool"]
| Y_i8 : type_reads TI8 [name "i8"]
| Y_i16 : type_reads TI16 [name "i16"]
| Y_i32 : type_reads TI32 [name "i32"]
| Y_i64 : type_reads TI64 [name "i64"]
| Y_f64 : type_reads TDouble [name "f64"]
| Y_string : type_reads TString [name "String"]
| Y_set : type_reads TEncSet [name "EncodingSet"]
| Y_named n : ~ In n special -> type_reads (TNamed n) [name n]
| Y_binary : type_reads TBinary (code "Vec < u8 >")
| Y_vec t ts : type_reads t ts -> type_reads (TVec t) (code "Vec <" ++ ts ++ code ">")
| Y_option t ts : type_reads t ts -> type_reads (TOption t) (code "Option <" ++ ts ++ code ">")
| Y_box t ts : type_reads t ts -> type_reads (TBox t) (code "std :: boxed :: Box <" ++ ts ++ code ">")
| Y_rc t ts : type_reads t ts -> type_reads (TShared t) (code "std :: rc :: Rc <" ++ ts ++ code ">")
| Y_arc t ts : type_reads t ts -> type_reads (TShared t) (code "std :: sync :: Arc <" ++ ts ++ code ">")
| Y_box_str : type_reads TString (code "std :: boxed :: Box < str >")
| Y_rc_str : type_reads TString (code "std :: rc :: Rc < str >")
| Y_arc_str : type_reads TString (code "std :: sync :: Arc < str >").

(** * Statements *)
Inductive call_reads : call -> list tree -> Prop :=
| K_header x : proper x -> call_reads (ReadHeader x) (code "input' . read_field_header" ++ parens (code "& mut" ++ [variable x]))
| K_skip x : proper x -> call_reads (SkipField x) (code "input' . skip_field" ++ parens [variable x])
| K_read_byte : call_reads ReadByte (code "input' . read_byte" ++ parens [])
| K_read_i32 : call_reads ReadI32 (code "input' . read_i32" ++ parens [])
| K_fill f x : proper x -> call_reads (FillField f x)
    (code "self ." ++ [name f] ++ code ". fill_thrift_field" ++ parens (code "input' ," ++ [variable x]))
| K_fill_inner : call_reads FillInner (code "inner' . fill_thrift" ++ parens (code "input'"))
| K_write_byte z i : integer z i -> 0 <= z < 256 -> call_reads (WriteByte z) (code "output' . write_byte" ++ parens i)
| K_write_i32 : call_reads WriteI32 (code "output' . write_i32" ++ parens (code "self . 0"))
| K_write f z i x : proper x -> integer z i -> fits_bits 16 z -> call_reads (WriteField f z x)
    (code "self ." ++ [name f] ++ code ". write_thrift_field" ++ parens (code "output' ," ++ i ++ code ", & mut" ++ [variable x]))
| K_write_inner z i x : proper x -> integer z i -> fits_bits 16 z -> call_reads (WriteInner z x)
    (code "inner' . write_thrift_field" ++ parens (code "output' ," ++ i ++ code ", & mut" ++ [variable x])).
Inductive cond_reads : cond -> list tree -> Prop :=
| D_zero x i : proper x -> integer 0 i -> cond_reads (IsZero x) (variable x :: code "==" ++ i)
| D_not_zero x i : proper x -> integer 0 i -> cond_reads (NotZero x) (variable x :: code "!=" ++ i)
| D_not x : proper x -> cond_reads (NotSet x) (code "!" ++ [variable x]).
Inductive error_reads : error -> list tree -> Prop :=
| E_type : error_reads InvalidType (code "$ crate :: ThriftError :: InvalidType")
| E_stop : error_reads MissingStop (code "$ crate :: ThriftError :: MissingStop")
| E_field n : error_reads (MissingField n)
    (code "$ crate :: ThriftError :: MissingField" ++ parens (lit ([34] ++ text n ++ text "\0" ++ [34]) :: code ". into" ++ parens [])).
(** The arms of a match on self *)
Inductive variants_read : list (string * call) -> list tree -> Prop :=
| V_nil : variants_read [] []
| V_cons n k ts sep l r : call_reads k ts -> comma sep r -> variants_read l r ->
    variants_read ((n, k) :: l) (code "Self ::" ++ [name n] ++ parens (code "inner'") ++ code "=>" ++ ts ++ code "?" ++ sep ++ r).
Inductive stmt_reads : stmt -> list tree -> Prop :=
| T_num x z w : proper x -> natural w z -> fits_bits 16 z -> stmt_reads (Let x (Num z)) (code "let mut" ++ [variable x] ++ code "=" ++ [lit (w ++ text "_i16")] ++ code ";")
| T_flag x : proper x -> stmt_reads (Let x (Flag false)) (code "let mut" ++ [variable x] ++ code "= false ;")
| T_result x k ts : proper x -> call_reads k ts -> stmt_reads (Let x (Result k)) (code "let" ++ [variable x] ++ code "=" ++ ts ++ code "? ;")
| T_set x : proper x -> stmt_reads (SetFlag x) (variable x :: code "= true ;")
| T_self k ts : call_reads k ts -> stmt_reads (SetSelf k) (code "self . 0 =" ++ ts ++ code "? ;")
| T_do k ts : call_reads k ts -> stmt_reads (Do k) (ts ++ code "? ;")
| T_loop b ts : block_reads b ts -> stmt_reads (Loop b) (code "loop" ++ braces ts)
| T_if c cs b ts : cond_reads c cs -> block_reads b ts -> stmt_reads (If c b) (code "if" ++ cs ++ braces ts)
| T_break : stmt_reads Break (code "break ;")
| T_return e ts (s : bool) : error_reads e ts -> stmt_reads (ReturnErr e s) (code "return Err" ++ parens ts ++ if s then code ";" else [])
| T_match x arms ts b bs : proper x -> arms_read arms ts -> block_reads b bs ->
    stmt_reads (Match x arms b) (code "match" ++ [variable x] ++ braces (ts ++ code "_ =>" ++ braces bs))
| T_variant n : stmt_reads (SetVariant n) (code "* self = Self ::" ++ [name n] ++ parens (code "Default :: default" ++ parens []) ++ code ";")
| T_match_self l ts : variants_read l ts -> stmt_reads (MatchSelf l false) (code "match self" ++ braces ts)
| T_match_rest l ts : variants_read l ts ->
    stmt_reads (MatchSelf l true)
      (code "match self" ++
       braces (ts ++ code "_ => unsafe" ++ braces (code "std :: hint :: unreachable_unchecked" ++ parens []) ++ code ","))
| T_finish : stmt_reads Finish (code "Ok" ++ parens (parens []))
| T_tail k ts : call_reads k ts -> stmt_reads (Tail k) ts
(** Attributes that turn off warnings *)
with block_reads : list stmt -> list tree -> Prop :=
| B_nil : block_reads [] []
| B_allow g b ts : block_reads b ts -> block_reads b (sign "#" :: Gr Bracket (name "allow" :: g) :: ts)
| B_cons t ts b ts' : stmt_reads t ts -> block_reads b ts' -> block_reads (t :: b) (ts ++ ts')
with arms_read : list (Z * list stmt) -> list tree -> Prop :=
| A_nil : arms_read [] []
| A_cons z i b ts (sep : bool) l r : integer z i -> fits_bits 16 z -> block_reads b ts -> arms_read l r ->
    arms_read ((z, b) :: l) (i ++ code "=>" ++ braces ts ++ (if sep then code "," else []) ++ r).

(** * Items *)
Inductive item : Type :=
| Record (attributes : list (list tree)) (n : string) (fs : list (string * ty))     (* pub struct n { pub f: T, .. } *)
| Variants (attributes : list (list tree)) (n : string) (fs : list (string * ty))   (* pub enum n { F(T), .. } *)
| Number (attributes : list (list tree)) (n : string)                               (* pub struct n(pub i32); *)
| Constructor (n : string) (fs : list (string * ty))        (* pub fn new(f: impl Into<T>, ..) -> Self { Self { f: f.into(), .. } } *)
| FirstVariant (n : string) (f : string)                    (* fn default() -> Self { Self::f(Default::default()) } *)
| FromNumber (n : string)                                   (* fn from(value: i32) -> Self { Self(value) } *)
| Constants (n : string) (cs : list (string * Z))           (* pub const c: Self = Self(1); .. *)
| Protocol (n : string) (code : Z) (fill write : list stmt). (* impl CompactThriftProtocol for n *)

Definition attributes_text (l : list (list tree)) : list tree := flat_map (fun g => [sign "#"; Gr Bracket g]) l.
(** Attributes without effect on what a method does *)
Definition hint (ts : list tree) : Prop :=
  exists l, ts = attributes_text l /\ Forall (fun g => exists n v, g = name n :: v /\ (n = "allow" \/ n = "inline")%string) l.
Inductive fields_read : list (string * ty) -> list tree -> Prop :=
| Fs_nil : fields_read [] []
| Fs_cons a f t ts sep l r : type_reads t ts -> comma sep r -> fields_read l r ->
    fields_read ((f, t) :: l) (attributes_text a ++ code "pub" ++ [name f] ++ code ":" ++ ts ++ sep ++ r).
Inductive cases_read : list (string * ty) -> list tree -> Prop :=
| Cs_nil : cases_read [] []
| Cs_cons a f t ts sep l r : type_reads t ts -> comma sep r -> cases_read l r ->
    cases_read ((f, t) :: l) (attributes_text a ++ [name f] ++ parens ts ++ sep ++ r).
Inductive params_read : list (string * ty) -> list tree -> Prop :=
| Ps_nil : params_read [] []
| Ps_cons f t ts sep l r : type_reads t ts -> comma sep r -> params_read l r ->
    params_read ((f, t) :: l) ([name f] ++ code ": impl Into <" ++ ts ++ code ">" ++ sep ++ r).
Definition inits (fs : list (string * ty)) : list tree :=
  flat_map (fun f => [name (fst f)] ++ code ":" ++ [name (fst f)] ++ code ". into" ++ parens [] ++ code ",") fs.
Inductive constants_read : list (string * Z) -> list tree -> Prop :=
| Os_nil : constants_read [] []
| Os_cons c z i l r : integer z i -> fits_bits 32 z -> constants_read l r ->
    constants_read ((c, z) :: l) (code "pub const" ++ [name c] ++ code ": Self = Self" ++ parens i ++ code ";" ++ r).
Definition result_type : list tree :=
  code "-> std :: result :: Result <" ++ parens [] ++ code ", $ crate :: ThriftError >".
Inductive item_reads : item -> list tree -> Prop :=
| I_record a n fs ts : fields_read fs ts -> item_reads (Record a n fs) (attributes_text a ++ code "pub struct" ++ [name n] ++ braces ts)
| I_variants a n fs ts : cases_read fs ts -> item_reads (Variants a n fs) (attributes_text a ++ code "pub enum" ++ [name n] ++ braces ts)
| I_number a n : item_reads (Number a n) (attributes_text a ++ code "pub struct" ++ [name n] ++ parens (code "pub i32") ++ code ";")
| I_constructor n h fs ts : hint h -> params_read fs ts ->
    item_reads (Constructor n fs)
      (code "impl" ++ [name n] ++ braces (h ++ code "pub fn new" ++ parens ts ++ code "-> Self" ++ braces (code "Self" ++ braces (inits fs))))
| I_first n f :
    item_reads (FirstVariant n f)
      (code "impl Default for" ++ [name n] ++
       braces (code "fn default" ++ parens [] ++ code "-> Self" ++
         braces (code "Self ::" ++ [name f] ++ parens (code "Default :: default" ++ parens []))))
| I_from n h : hint h ->
    item_reads (FromNumber n)
      (code "impl From < i32 > for" ++ [name n] ++
       braces (h ++ code "fn from" ++ parens (code "value' : i32") ++ code "-> Self" ++ braces (code "Self" ++ parens (code "value'"))))
| I_constants n cs ts : constants_read cs ts -> item_reads (Constants n cs) (code "impl" ++ [name n] ++ braces ts)
| I_protocol n z i h1 h2 h3 fill fs write ws : integer z i -> 0 <= z < 256 -> hint h1 -> hint h2 -> hint h3 -> block_reads fill fs -> block_reads write ws ->
    item_reads (Protocol n z fill write)
      (h1 ++ code "impl < 'i > $ crate :: CompactThriftProtocol < 'i > for" ++ [name n] ++
       braces
         (code "const FIELD_TYPE : u8 =" ++ i ++ code ";" ++
          h2 ++ code "fn fill_thrift < T : $ crate :: CompactThriftInput < 'i >>" ++
          parens (code "& mut self , input' : & mut T") ++ result_type ++ braces fs ++
          h3 ++ code "fn write_thrift < T : $ crate :: CompactThriftOutput >" ++
          parens (code "& self , output' : & mut T") ++ result_type ++ braces ws)).
Inductive items_read : list item -> list tree -> Prop :=
| Is_nil : items_read [] []
| Is_cons i ts l r : item_reads i ts -> items_read l r -> items_read (i :: l) (ts ++ r).

(** * What a declaration becomes *)
(** #[cfg_attr(not(doctest), ..)], which hides doc comments with examples from the tests *)
Definition guarded (g : list tree) : list tree := code "cfg_attr" ++ parens (code "not" ++ parens (code "doctest") ++ code "," ++ g).
Definition listed (n : string) (l : string) : list tree := name n :: parens (code l).
Definition no_camel : list tree := listed "allow" "non_camel_case_types".
Definition no_snake : list tree := listed "allow" "non_snake_case".
Definition typed (fs : list field) : list (string * ty) := map (fun f => (f_name f, field_ty f)) fs.
Definition union_typed (fs : list field) : list (string * ty) := map (fun f => (f_name f, f_ty f)) fs.
(** [gs]: the attributes of the declaration *)
Definition struct_items (gs : list (list tree)) (n : string) (fs : list field) : list item :=
  [Record (map guarded gs ++ [listed "derive" "Default , Clone , Debug , PartialEq"; no_camel; no_snake]) n (typed fs);
   Constructor n (typed fs);
   Protocol n 12 (struct_fill_code n fs) (struct_write_code fs)].
Definition union_items (gs : list (list tree)) (n : string) (f : field) (fs : list field) : list item :=
  [Variants (map guarded gs ++ [listed "derive" "Clone , Debug , PartialEq"; no_camel; no_snake]) n (union_typed (f :: fs));
   FirstVariant n (f_name f);
   Protocol n 12 (union_fill_code (f :: fs)) (union_write_code (f :: fs))].
Definition enum_items (gs : list (list tree)) (n : string) (cs : list (string * Z)) : list item :=
  [Number (gs ++ [listed "derive" "Default , Debug , Copy , Clone , Eq , Hash , Ord , PartialEq , PartialOrd"; no_camel]) n;
   FromNumber n;
   Constants n cs;
   Protocol n 5 enum_fill_code enum_write_code].
(** Without variants default() of a union is [Self], which is not a value of an enum. *)
Definition suitable (d : mdef) : Prop :=
  match d with
  | MStruct fs => Forall (fun f => plain (m_name f)) fs
  | MUnion fs => fs <> [] /\ Forall (fun f => plain (m_name f)) fs
  | MEnum _ => True
  end.
(** Namespaces become nothing. *)
Inductive becomes : option (string * mdef) -> list tree -> list item -> Prop :=
| Be_namespace ts : becomes None ts []
| Be_struct gs n mfs fs body : expand_fields false mfs = Some fs -> Forall (fun f => plain (f_name f)) fs ->
    becomes (Some (n, MStruct mfs)) (attributes_text gs ++ [name "struct"; name n; Gr Brace body]) (struct_items gs n fs)
| Be_union gs n mfs f fs body : expand_fields true mfs = Some (f :: fs) -> Forall (fun f => plain (f_name f)) (f :: fs) ->
    becomes (Some (n, MUnion mfs)) (attributes_text gs ++ [name "union"; name n; Gr Brace body]) (union_items gs n f fs)
| Be_enum gs n cs body : becomes (Some (n, MEnum cs)) (attributes_text gs ++ [name "enum"; name n; Gr Brace body]) (enum_items gs n cs).
Inductive produces : list tree -> list item -> Prop :=
| Pr_nil : produces [] []
| Pr_cons o u l ts k : declared o u -> becomes o u l -> produces ts k -> produces (u ++ ts) (l ++ k).
(** The methods of a definition *)
Definition methods (nd : string * def) : item :=
  match nd with
  | (n, DStruct fs) => Protocol n 12 (struct_fill_code n fs) (struct_write_code fs)
  | (n, DUnion fs) => Protocol n 12 (union_fill_code fs) (union_write_code fs)
  | (n, DEnum) => Protocol n 5 enum_fill_code enum_write_code
  end.
Definition is_methods (i : item) : bool := match i with Protocol _ _ _ _ => true | _ => false end.
