(** The names in generated code, and the names that generated enums print. *)
From Verif Require Import Base ErrorName Generator SpecThrift SpecRust SpecGenText.
Open Scope Z_scope.
Open Scope list_scope.

(** * Rust identifiers *)
Definition rust_name (w : list Z) : Prop :=
  (rust_word w /\ w <> text "_" /\ ~ In w (map text keywords)) \/
  exists u, w = text "r#" ++ u /\ rust_word u /\ u <> text "_" /\ ~ In u (map text ["crate"; "self"; "super"; "Self"]%string).

(** [declares nd w]: the code for [nd] declares an item, a field, a constant or a variant [w]. *)
Inductive declares : string * definition -> list Z -> Prop :=
| De_alias n t : declares (n, TypeDef t) (escaped n)
| De_enum n cs : declares (n, EnumDef cs) (escaped n)
| De_constant n cs c : In c cs -> declares (n, EnumDef cs) (escaped (fst c))
| De_struct n fs : declares (n, StructDef fs) (escaped n)
| De_field n fs f : In f fs -> declares (n, StructDef fs) (escaped (g_name f))
| De_union n fs : declares (n, UnionDef fs) (text n)
| De_variant n fs f : In f fs -> declares (n, UnionDef fs) (text (g_name f)).
(** [introduces w l]: the line [l] is a declaration of [w]. *)
Inductive introduces (w : list Z) : list Z -> Prop :=
| In_alias r : introduces w (text "pub type " ++ w ++ text " = " ++ r)
| In_struct r : In r (map text [" {"; "<'i> {"; "(pub i32);"]%string) -> introduces w (text "pub struct " ++ w ++ r)
| In_enum r : In r (map text [" {"; "<'i> {"]%string) -> introduces w (text "pub enum " ++ w ++ r)
| In_constant r : introduces w (text "pub const " ++ w ++ text ": Self = Self(" ++ r ++ text ");")
| In_field r : introduces w (text "pub " ++ w ++ text ": " ++ r ++ text ",")
| In_variant r : introduces w (w ++ text "(" ++ r ++ text "),").
(** The name by which the definition can be referred to *)
Definition declared_as (nd : string * definition) : list Z := match snd nd with UnionDef _ => text (fst nd) | _ => escaped (fst nd) end.

(** * Names in the document *)
Definition dotless (n : string) : Prop := ~ In 46 (text n).
Definition plain_name (n : string) : Prop := dotless n /\ n <> "_"%string /\ ~ In n keywords.
Definition escapable (n : string) : Prop := n = "type"%string \/ plain_name n.
Definition plain_definition (nd : string * definition) : Prop :=
  match snd nd with
  | TypeDef _ => escapable (fst nd)
  | EnumDef cs => escapable (fst nd) /\ Forall (fun c => escapable (fst c)) cs
  | StructDef fs => escapable (fst nd) /\ Forall (fun f => escapable (g_name f)) fs
  | UnionDef fs => plain_name (fst nd) /\ Forall (fun f => plain_name (g_name f)) fs
  end.

(** * Searching *)
(** What the documentation of [binary_search_by_key] promises *)
Definition searches (search : list Z -> Z -> nat + nat) : Prop :=
  forall keys k, (forall i j a b, (i <= j)%nat -> nth_error keys i = Some a -> nth_error keys j = Some b -> a <= b) ->
  match search keys k with inl i => nth_error keys i = Some k | inr _ => ~ In k keys end.
Fixpoint position (keys : list Z) (k : Z) : option nat :=
  match keys with [] => None | a :: keys' => if a =? k then Some 0%nat else option_map S (position keys' k) end.
Definition linear (keys : list Z) (k : Z) : nat + nat := match position keys k with Some i => inl i | None => inr 0%nat end.

(** * Names that must differ *)
(** The associated items of an enum, the fields of a struct, the variants of a union *)
Definition members (nd : string * definition) : list (list Z) :=
  match snd nd with
  | TypeDef _ => []
  | EnumDef cs => [text "__NAMES"; text "value"] ++ map (fun c => escaped (fst c)) cs
  | StructDef fs => map (fun f => escaped (g_name f)) fs
  | UnionDef fs => map (fun f => text (g_name f)) fs
  end.
(** The types and modules of the file *)
Definition items (doc : document) : list (list Z) := [text "Cow"; text "tests"] ++ map declared_as doc.
