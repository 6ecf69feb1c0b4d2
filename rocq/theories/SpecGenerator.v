(** What the generator is asked to do, independent of how it does it. *)
From Coq Require Import Relations.
From Verif Require Import Base Generator.

(** The number a digit string stands for. *)
Fixpoint positional (radix : Z) (digits : list Z) : Z :=
  match digits with
  | [] => 0
  | d :: digits' => d * radix ^ zlen digits' + positional radix digits'
  end.
Definition integer_value (i : integer) : Z :=
  match i with
  | Dec NoSign ds | Dec Plus ds => positional 10 ds
  | Dec Minus ds => - positional 10 ds
  | Hex false ds => positional 16 ds
  | Hex true ds => - positional 16 ds
  end.
(** The lexer only delivers digits of the radix. *)
Definition lexed (i : integer) : Prop :=
  match i with
  | Dec _ ds => ds <> [] /\ Forall (fun d => 0 <= d < 10) ds
  | Hex _ ds => ds <> [] /\ Forall (fun d => 0 <= d < 16) ds
  end.
Definition lexed_field (p : pfield) : Prop := match p_id p with Some i => lexed i | None => True end.

(** [numbered prev ps fs]: [fs] are the declared fields [ps], in order, explicit ids kept and
    missing ones one more than the id of the field before; [prev] is the id before the first. *)
Inductive numbered : Z -> list pfield -> list gfield -> Prop :=
| numbered_nil prev : numbered prev [] []
| numbered_cons prev p ps f fs :
    g_id f = match p_id p with Some i => integer_value i | None => prev + 1 end ->
    g_name f = p_name p ->
    g_type f = p_type p ->
    p_req p = Some (g_req f) \/ p_req p = None /\ g_req f = DEFAULT ->
    numbered (g_id f) ps fs ->
    numbered prev (p :: ps) (f :: fs).

(** Field ids of thrift are 16 bit. *)
Definition short_id (f : gfield) : Prop := -32768 <= g_id f <= 32767.

(** [borrows doc t]: a string or binary is reachable from [t]. *)
Inductive borrows (doc : document) : ftype -> Prop :=
| borrows_string : borrows doc (Base STRING)
| borrows_binary : borrows doc (Base BINARY)
| borrows_list t : borrows doc t -> borrows doc (ListOf t)
| borrows_set t : borrows doc t -> borrows doc (SetOf t)
| borrows_key k v : borrows doc k -> borrows doc (MapOf k v)
| borrows_value k v : borrows doc v -> borrows doc (MapOf k v)
| borrows_struct n fs f : In (n, StructDef fs) doc -> In f fs -> borrows doc (g_type f) -> borrows doc (Named n)
| borrows_union n fs f : In (n, UnionDef fs) doc -> In f fs -> borrows doc (g_type f) -> borrows doc (Named n).

(** The names in a type. *)
Inductive mentions : ftype -> string -> Prop :=
| mentions_named n : mentions (Named n) n
| mentions_list t n : mentions t n -> mentions (ListOf t) n
| mentions_set t n : mentions t n -> mentions (SetOf t) n
| mentions_key k v n : mentions k n -> mentions (MapOf k v) n
| mentions_value k v n : mentions v n -> mentions (MapOf k v) n.
(** [uses doc n m]: the struct or union [n] has a field whose type mentions [m]. *)
Inductive uses (doc : document) : string -> string -> Prop :=
| uses_struct n fs f m : In (n, StructDef fs) doc -> In f fs -> mentions (g_type f) m -> uses doc n m
| uses_union n fs f m : In (n, UnionDef fs) doc -> In f fs -> mentions (g_type f) m -> uses doc n m.
(** No definition contains itself. *)
Definition acyclic (doc : document) : Prop := forall n, ~ clos_trans string (uses doc) n n.
(** Every definition has its own name, as in the LinkedHashMap of Domain.kt:3. *)
Definition distinct (doc : document) : Prop := NoDup (map fst doc).

(** The named types occurring in a generated type. *)
Inductive occurs : rtype -> string -> bool -> Prop :=
| occurs_named n l : occurs (RNamed n l) n l
| occurs_vec t n l : occurs t n l -> occurs (RVec t) n l
| occurs_set t n l : occurs t n l -> occurs (RHashSet t) n l
| occurs_key k v n l : occurs k n l -> occurs (RHashMap k v) n l
| occurs_value k v n l : occurs v n l -> occurs (RHashMap k v) n l
| occurs_option t n l : occurs t n l -> occurs (ROption t) n l.

Definition impl_of (i : ritem) : option rimpl :=
  match i with IAlias _ _ => None | IEnum _ _ i | IStruct _ _ _ i | IUnion _ _ _ _ i => Some i end.
(** An impl is accepted when it has every item without default and no item foreign to the trait. *)
Definition implements_trait (i : rimpl) : Prop :=
  (forall n, In (n, false) trait_items -> In n (i_items i)) /\
  (forall n, In n (i_items i) -> exists b, In (n, b) trait_items).
(** The lifetime of a generated definition, and its types. *)
Definition item_lifetime (i : ritem) : option bool := match i with IStruct _ l _ _ | IUnion _ l _ _ _ => Some l | _ => None end.
Definition item_types (i : ritem) : list (string * rtype) := match i with IStruct _ _ fs _ | IUnion _ _ fs _ _ => fs | IAlias n t => [(n, t)] | IEnum _ _ _ => [] end.
(** The generated item has each of the fields [fs] once, in declaration order, as a member, in
    the match on the field id and among the writes; a required one is checked after reading. *)
Definition emits (n : string) (fs : list gfield) (item : ritem) : Prop :=
  (exists l fields i, item = IStruct (rust_identifier n) l fields i /\
     map fst fields = map (fun f => rust_identifier (g_name f)) fs /\
     i_arms i = map (fun f => (g_id f, rust_identifier (g_name f))) fs /\
     i_writes i = map (fun f => (g_id f, rust_identifier (g_name f))) fs /\
     i_required i = map (fun f => rust_identifier (g_name f)) (filter required fs)) \/
  (exists l variants first i, item = IUnion n l variants first i /\ map fst variants = map g_name fs /\ In first (map g_name fs) /\
     i_arms i = map (fun f => (g_id f, g_name f)) fs /\
     i_writes i = map (fun f => (g_id f, g_name f)) fs).
