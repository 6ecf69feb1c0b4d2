(** The methods that the generator writes, in the language of RustCode.v.  Their text is that of
    GenText.v ([C98_text]).  The names of the trait's methods are those of the trait here; the
    generator calls them [fill], [write], [fill_field] and [write_field] (C51). *)
From Verif Require Import Base Types Generator RustCode.
Open Scope Z_scope.
Open Scope list_scope.

(** [${rustIdentifier(it.identifier)}_set_]; [r#type_set_] is the identifier [type_set_]. *)
Definition set_flag (g : gfield) : local := own (g_name g ++ "_set_").
(** Generator.kt:248-279 *)
Definition gen_struct_fill (n : string) (gs : list gfield) : list stmt :=
  map (fun g => Let (set_flag g) (Flag false)) (filter required gs) ++
  [Let last_field_id (Num 0);
   Loop
    [Let field_type_ (Result (ReadHeader last_field_id));
     If (IsZero field_type_) [Break];
     Match last_field_id
       (map (fun g => (g_id g, (if required g then [SetFlag (set_flag g)] else []) ++ [Do (FillField (g_name g) field_type_)])) gs)
       [Do (SkipField field_type_)]]] ++
  map (fun g => If (NotSet (set_flag g)) [ReturnErr (MissingField (n ++ "::" ++ g_name g)%string) false]) (filter required gs) ++
  [Finish].
(** Generator.kt:281-286 *)
Definition gen_struct_write (gs : list gfield) : list stmt :=
  match gs with [] => [] | _ => [Let last_field_id (Num 0)] end ++
  map (fun g => Do (WriteField (g_name g) (g_id g) last_field_id)) gs ++
  [Do (WriteByte 0); Finish].
(** Generator.kt:316-343 *)
Definition gen_union_fill (n : string) (gs : list gfield) : list stmt :=
  [Let last_field_id (Num 0);
   Let field_type_ (Result (ReadHeader last_field_id));
   If (IsZero field_type_) [ReturnErr InvalidType true];
   Match last_field_id
     (map (fun g => (g_id g, [SetVariant (g_name g); MatchSelf [(g_name g, FillInner)] true])) gs)
     [ReturnErr (MissingField n) false];
   Let stop_ (Result ReadByte);
   If (NotZero stop_) [ReturnErr MissingStop false];
   Finish].
(** Generator.kt:345-352 *)
Definition gen_union_write (gs : list gfield) : list stmt :=
  [Let last_field_id (Num 0);
   MatchSelf (map (fun g => (g_name g, WriteInner (g_id g) last_field_id)) gs) false;
   Tail (WriteByte 0)].
(** Generator.kt:211-220 *)
Definition gen_enum_fill : list stmt := [SetSelf ReadI32; Finish].
Definition gen_enum_write : list stmt := [Tail WriteI32].
