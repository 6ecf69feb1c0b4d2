(** Properties of the generator, C49-C51. *)
From Coq Require Import Relations.
From Verif Require Import Base Generator SpecGenerator P_Generator.

(** ** C49: field ids.
    Full statement: for every list of declared fields, the ids are as in [numbered] and every
    declared field is emitted exactly once.
    [C49_partial] has two premises more: the names differ and the ids are 16 bit.  Without the
    first it is false ([C49_refuted]). *)
Theorem C49_partial : forall ps fs, Forall lexed_field ps -> NoDup (map p_name ps) -> numbered (-1) ps fs -> Forall short_id fs ->
  map_definition (PStruct ps) = KOk (StructDef fs) /\ map_definition (PUnion ps) = KOk (UnionDef fs) /\
  forall doc d n item, generate doc d (n, StructDef fs) = KOk item \/ generate doc d (n, UnionDef fs) = KOk item -> emits n fs item.
Proof. exact generated_ids. Qed.
Print Assumptions C49_partial.
Theorem C49_sound : forall ps fs, Forall lexed_field ps -> NoDup (map p_name ps) -> map_fields ps = KOk fs -> Forall short_id fs -> numbered (-1) ps fs.
Proof. exact map_fields_sound. Qed.
Print Assumptions C49_sound.
(** The specification fixes the fields. *)
Theorem C49_specified : forall prev ps, exists fs, numbered prev ps fs /\ forall gs, numbered prev ps gs -> gs = fs.
Proof. exact (fun prev ps => match numbered_exists ps prev with ex_intro _ fs N => ex_intro _ fs (conj N (numbered_unique prev ps fs N)) end). Qed.
Print Assumptions C49_specified.
(** For every list of fields, repeated names or not: every declared name is kept once. *)
Theorem C49_names : forall ps fs, map_fields ps = KOk fs -> NoDup (map g_name fs) /\ (forall n, In n (map g_name fs) <-> In n (map p_name ps)).
Proof. exact map_fields_names. Qed.
Print Assumptions C49_names.
Theorem C49_refuted : exists ps gs fs, Forall lexed_field ps /\ numbered (-1) ps gs /\ Forall short_id gs /\ NoDup (map g_id gs) /\
  map_definition (PStruct ps) = KOk (StructDef fs) /\ List.length gs = 2%nat /\ List.length fs = 1%nat.
Proof. exact field_lost. Qed.
Print Assumptions C49_refuted.
(** Outside 16 bits: an id after 2147483647 wraps, and -0x80000000 is rejected although it is an Int. *)
Example C49_wide :
  map_fields [Build_pfield (Some (Dec NoSign [2;1;4;7;4;8;3;6;4;7])) None "a" (Base I32); Build_pfield None None "b" (Base I32)]
  = KOk [Build_gfield 2147483647 DEFAULT "a" (Base I32); Build_gfield (-2147483648) DEFAULT "b" (Base I32)] /\
  map_integer (Hex true [8;0;0;0;0;0;0;0]) = KThrow NumberFormat /\ integer_value (Hex true [8;0;0;0;0;0;0;0]) = -2147483648 /\
  map_integer (Dec Minus [2;1;4;7;4;8;3;6;4;8]) = KOk (-2147483648).
Proof. repeat split. Qed.
Example C49_example :
  let ps := [Build_pfield None (Some REQUIRED) "type" (Base I32); Build_pfield (Some (Hex false [1; 15])) None "b" (ListOf (Base STRING));
             Build_pfield None (Some OPTIONAL) "c" (Base BOOL); Build_pfield (Some (Dec Minus [5])) None "d" (Base BOOL); Build_pfield None None "e" (Base BOOL)] in
  exists fs, map_definition (PStruct ps) = KOk (StructDef fs) /\ map g_id fs = [0; 31; 32; -5; -4] /\
  generate [] 9 ("S"%string, StructDef fs) = KOk (IStruct "S" true
    [("r#type"%string, RI32); ("b"%string, ROption (RVec RCowStr)); ("c"%string, ROption RBool); ("d"%string, ROption RBool); ("e"%string, ROption RBool)]
    {| i_items := ["FIELD_TYPE"; "fill"; "write"]%string; i_field_type := 12;
       i_arms := [(0, "r#type"); (31, "b"); (32, "c"); (-5, "d"); (-4, "e")]%string;
       i_writes := [(0, "r#type"); (31, "b"); (32, "c"); (-5, "d"); (-4, "e")]%string; i_required := ["r#type"%string] |}).
Proof. cbv zeta. eexists. split; [reflexivity|]. split; reflexivity. Qed.
(** An empty union is accepted by the parser and rejected by the generator. *)
Example C49_empty_union : map_definition (PUnion []) = KOk (UnionDef []) /\ generate [] 9 ("U"%string, UnionDef []) = KThrow NoSuchElement.
Proof. split; reflexivity. Qed.

(** ** C50: lifetimes.
    Full statement: for every document a generated type carries the lifetime iff it borrows,
    and computing this terminates.  The first half holds whenever the computation terminates;
    the second holds for documents without recursive types and is false in general. *)
Theorem C50_lifetime : forall ds doc d n def item, map_document ds = KOk doc -> In (n, def) doc -> generate doc d (n, def) = KOk item ->
  (forall l, item_lifetime item = Some l -> (l = true <-> borrows doc (Named n))) /\
  (forall f t m l, In (f, t) (item_types item) -> occurs t m l -> In m (map fst doc) -> (l = true <-> borrows doc (Named m))).
Proof. exact (fun ds doc d n def item M => item_annotation doc d n def item (document_distinct ds doc M)). Qed.
Print Assumptions C50_lifetime.
Theorem C50_field : forall doc, distinct doc -> forall d t b, field_needs_lifetime doc d t = KOk b -> (b = true <-> borrows doc t).
Proof. exact needs_correct. Qed.
Print Assumptions C50_field.
Theorem C50_terminates_partial : forall doc, distinct doc -> acyclic doc -> forall t,
  exists d, forall d', (d <= d')%nat -> exists b, field_needs_lifetime doc d' t = KOk b.
Proof. exact acyclic_settles. Qed.
Print Assumptions C50_terminates_partial.
(** A type that borrows nothing and reaches a recursive definition exhausts every stack. *)
Theorem C50_terminates_refuted : forall doc, distinct doc -> forall t n m, ~ borrows doc t -> mentions t n -> clos_refl_trans string (uses doc) n m ->
  clos_trans string (uses doc) m m -> forall d, field_needs_lifetime doc d t = KThrow StackOverflow.
Proof. exact cyclic_overflows. Qed.
Print Assumptions C50_terminates_refuted.
Theorem C50_only_overflow : forall doc d t e, field_needs_lifetime doc d t = KThrow e -> e = StackOverflow.
Proof. exact needs_throw. Qed.
Print Assumptions C50_only_overflow.

(** The premises of the refutation are met by a linked list of numbers. *)
Example C50_refuted_witness : let doc := [("Node"%string, StructDef [Build_gfield 1 REQUIRED "v" (Base I32); Build_gfield 2 OPTIONAL "next" (Named "Node")])] in
  distinct doc /\ ~ borrows doc (Named "Node") /\ clos_trans string (uses doc) "Node"%string "Node"%string /\
  generate doc 1000 ("Node"%string, StructDef [Build_gfield 1 REQUIRED "v" (Base I32); Build_gfield 2 OPTIONAL "next" (Named "Node")]) = KThrow StackOverflow.
Proof.
  cbv zeta. split; [repeat constructor; cbn; auto|]. split; [|split; [|vm_compute; reflexivity]].
  - intros B. refine ((_ : forall t, borrows _ t -> t <> Named "Node") _ B eq_refl). clear B.
    induction 1 as [| | | | | |n fs f I J B IH|n fs f I J B IH]; try discriminate.
    + destruct I as [I|[]]. injection I as <- <-. destruct J as [<-|[<-|[]]]; cbn [g_type] in *; [inversion B|]. intros _. exact (IH eq_refl).
    + destruct I as [I|[]]. discriminate.
  - apply t_step. eapply uses_struct; [left; reflexivity|right; left; reflexivity|]. constructor.
Qed.
(** With a string before the recursive field it terminates, with the string after it not. *)
Example C50_order : let s := Build_gfield 1 REQUIRED "s" (Base STRING) in let r := Build_gfield 2 OPTIONAL "next" (ListOf (Named "Node")) in
  field_needs_lifetime [("Node"%string, StructDef [s; r])] 9 (Named "Node") = KOk true /\
  field_needs_lifetime [("Node"%string, StructDef [r; s])] 999 (Named "Node") = KThrow StackOverflow.
Proof. split; vm_compute; reflexivity. Qed.
Example C50_example :
  let doc := [("A"%string, StructDef [Build_gfield 1 REQUIRED "m" (MapOf (Base I32) (Named "B"))]);
              ("B"%string, UnionDef [Build_gfield 1 DEFAULT "x" (Base I64); Build_gfield 2 DEFAULT "y" (SetOf (Base BINARY))]);
              ("C"%string, StructDef [Build_gfield 1 REQUIRED "e" (Named "E")]); ("E"%string, EnumDef [("P"%string, 1)])] in
  field_needs_lifetime doc 9 (Named "A") = KOk true /\ field_needs_lifetime doc 9 (Named "C") = KOk false /\
  rust_type doc 9 (ListOf (Named "A")) OPTIONAL = KOk (ROption (RVec (RNamed "A" true))).
Proof. repeat split. Qed.
(** A name for a string gets no lifetime, nor does the struct that uses it, while the alias needs one. *)
Example C50_typedef :
  let doc := [("T"%string, TypeDef (Base STRING)); ("S"%string, StructDef [Build_gfield 1 REQUIRED "t" (Named "T")])] in
  generate doc 9 ("T"%string, TypeDef (Base STRING)) = KOk (IAlias "T" RCowStr) /\ field_needs_lifetime doc 9 (Named "S") = KOk false.
Proof. split; reflexivity. Qed.

(** ** C51: the generated impl.
    Full statement: every generated impl [implements_trait].  It is false for every definition:
    the trait asks for fill_thrift and write_thrift, the generator writes fill and write.
    What does hold is the constant. *)
Theorem C51_refuted : forall doc d nd item i, generate doc d nd = KOk item -> impl_of item = Some i ->
  In ("fill_thrift"%string, false) trait_items /\ ~ In "fill_thrift"%string (i_items i) /\
  In ("write_thrift"%string, false) trait_items /\ ~ In "write_thrift"%string (i_items i) /\
  ~ implements_trait i.
Proof. exact never_implements. Qed.
Print Assumptions C51_refuted.
Theorem C51_partial : forall doc d nd item i, generate doc d nd = KOk item -> impl_of item = Some i -> In "FIELD_TYPE"%string (i_items i).
Proof. exact has_field_type. Qed.
Print Assumptions C51_partial.
Theorem C51_field_type : forall doc d n def item i, generate doc d (n, def) = KOk item -> impl_of item = Some i ->
  i_field_type i = match def with EnumDef _ => 5 | _ => 12 end.
Proof. exact generated_field_type. Qed.
Print Assumptions C51_field_type.
Example C51_example : exists item i, generate [] 9 ("E"%string, EnumDef [("A"%string, 0)]) = KOk item /\ impl_of item = Some i /\
  implements_trait (Build_rimpl ["FIELD_TYPE"; "fill_thrift"; "write_thrift"]%string 5 [] [] []).
Proof.
  eexists. eexists. split; [reflexivity|]. split; [reflexivity|]. split; cbn; intros n H; intuition; try congruence; subst; eauto 10;
  repeat match goal with H : (_, _) = (_, _) |- _ => injection H as <- end; try congruence; auto.
Qed.
(** Bytes, sets and maps get types without an impl. *)
Example C51_types : forall k v, implements RU8 = false /\ implements (RHashSet k) = false /\ implements (RHashMap k v) = false /\
  rust_field_type [] 1 (Base BYTE) = KOk RU8 /\ rust_field_type [] 1 (SetOf (Base I32)) = KOk (RHashSet RI32) /\
  rust_field_type [] 1 (MapOf (Base I32) (Base I32)) = KOk (RHashMap RI32 RI32).
Proof. intros. repeat split. Qed.
