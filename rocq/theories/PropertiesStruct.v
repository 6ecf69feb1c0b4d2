(** Property theorems C26-C35, C52, C54, C55: struct fields, lists, validity and
    replacement of decoded values. *)
From Verif Require Import Base Uleb Utf8 Protocol Encodings Types Parquet SpecUtf8 SpecCompact SpecFields SpecInput Schema Typing
  SampleSchema P_Valid P_Laws2 P_LawExamples.

(** ** C26: required fields are enforced.
    On arbitrary input, [Ok] means that a header of every required field was met;
    a conforming sequence of fields lacking required ones fails with MissingField
    for the first of them in declaration order. *)
Theorem C26_occurred : forall S c (I : input S) E n fs d s s' v,
  lookup E n = Some (DStruct fs) ->
  read_thrift c I E d (TNamed n) s = (s', Ok v) ->
  exists d' ids s1 b, d = Datatypes.S d' /\ trace c I E d' fs 0 ids s s1 /\ in_read_byte I s1 = (s', Ok b) /\ b mod 16 = 0 /\
    forall f, In f fs -> f_req f = true -> In (f_id f) ids.
Proof. exact @read_trace. Qed.
Print Assumptions C26_occurred.
Theorem C26_missing : forall c E K name fs d,
  cfg_ok c -> reserve_ok c -> env_ok true E K = true -> lookup E name = Some (DStruct fs) ->
  forall occs last' bs fs1 f fs2,
  run E fs 0 occs last' bs -> tidy E fs occs -> (need K (TNamed name) (Datatypes.S (List.length bs)) <= d)%nat ->
  fs = fs1 ++ f :: fs2 -> f_req f = true -> ~ occurs occs f -> (forall g, In g fs1 -> f_req g = true -> occurs occs g) ->
  both_fail c (fun S I => read_thrift c I E d (TNamed name)) (bs ++ [0]) (MissingField (name ++ "::" ++ f_name f)).
Proof. exact missing_field. Qed.
Print Assumptions C26_missing.

Example C26_example :
  run sample_env node_fields 0 occs1 3 bytes1 /\ tidy sample_env node_fields occs1 /\ env_ok true sample_env 6 = true /\
  read_thrift release64 (slice_input release64) sample_env 200 (TNamed "Node") (bytes1 ++ [0; 99])
    = ([99], Ok (VStruct [VI32 (-3); VSome (VBool true); VVec []; VNone; VNone; VNone; VNone; VNone])) /\
  read_thrift release64 (slice_input release64) sample_env 200 (TNamed "Node") [21; 14; 17; 0; 99] = ([99], Err (MissingField "Node::kids")) /\
  read_thrift release64 (slice_input release64) sample_env 200 (TNamed "Node") [0; 99] = ([99], Err (MissingField "Node::key")).
Proof. split; [exact run1|]. split; [exact tidy1|]. repeat split; vm_compute; reflexivity. Qed.

(** ** C27: a repeated optional field is rejected, whatever its second wire type. *)
Theorem C27_duplicate : forall c E K name fs d,
  cfg_ok c -> reserve_ok c -> env_ok true E K = true -> lookup E name = Some (DStruct fs) ->
  forall occs last' bs f ft hdr,
  run E fs 0 occs last' bs -> tidy E fs occs -> (need K (TNamed name) (Datatypes.S (List.length bs)) <= d)%nat ->
  In f fs -> f_req f = false -> occurs occs f -> 1 <= ft <= 15 -> field_header last' (f_id f) ft hdr ->
  both_fail c (fun S I => read_thrift c I E d (TNamed name)) (bs ++ hdr) DuplicateField.
Proof. exact duplicate_field. Qed.
Print Assumptions C27_duplicate.

Example C27_example :
  occurs occs1 (fld 2 false TBool "flag") /\
  read_thrift release64 (slice_input release64) sample_env 200 (TNamed "Node") (bytes1 ++ [2; 4; 99]) = ([99], Err DuplicateField).
Proof. split; [discriminate|vm_compute; reflexivity]. Qed.

(** ** C28: the last occurrence of a required field wins; [final_content] also says
    that absent optional fields are None and that every other field has its only
    content. *)
Theorem C28_last_wins : forall c E K name fs d,
  cfg_ok c -> reserve_ok c -> env_ok true E K = true -> lookup E name = Some (DStruct fs) ->
  forall occs last' bs,
  run E fs 0 occs last' bs -> tidy E fs occs -> (need K (TNamed name) (Datatypes.S (List.length bs)) <= d)%nat ->
  (forall f, In f fs -> f_req f = true -> occurs occs f) ->
  exists vs, Forall2 (final_content occs) fs vs /\ both_read c (fun S I => read_thrift c I E d (TNamed name)) (bs ++ [0]) (VStruct vs).
Proof. exact last_wins. Qed.
Print Assumptions C28_last_wins.

Example C28_example :
  (forall f, In f node_fields -> f_req f = true -> occurs occs1 f) /\
  contents 1 occs1 = [VI32 7; VI32 (-3)] /\ final_content occs1 (fld 1 true TI32 "key") (VI32 (-3)) /\
  ~ final_content occs1 (fld 1 true TI32 "key") (VI32 7).
Proof.
  repeat split; try (vm_compute; reflexivity).
  - intros f Hf Hq. cbn in Hf. repeat (destruct Hf as [<-|Hf]; [discriminate|]). contradiction.
  - vm_compute. discriminate.
Qed.

(** ** C29: fields of the wrong wire type are rejected.
    Full claim: every declared field and variant.  Proved for struct fields that
    are not booleans; false for booleans and union variants, where every wire type
    is accepted. *)
Theorem C29_struct_partial : forall c E K name fs d,
  cfg_ok c -> reserve_ok c -> env_ok true E K = true -> lookup E name = Some (DStruct fs) ->
  forall occs last' bs f ft hdr,
  run E fs 0 occs last' bs -> tidy E fs occs -> (need K (TNamed name) (Datatypes.S (List.length bs)) <= d)%nat ->
  In f fs -> boolish (f_ty f) = false -> ~ occurs occs f \/ (f_req f = true /\ replaceable E (f_ty f) = true) ->
  1 <= ft <= 15 -> ft <> wire_code E (f_ty f) -> field_header last' (f_id f) ft hdr ->
  both_fail c (fun S I => read_thrift c I E d (TNamed name)) (bs ++ hdr) InvalidType.
Proof. exact wrong_type_field. Qed.
Print Assumptions C29_struct_partial.
Theorem C29_union_refuted : forall c E K n fs i f v ft hdr payload d,
  cfg_ok c -> reserve_ok c -> env_ok true E K = true ->
  lookup E n = Some (DUnion fs) -> nth_error fs i = Some f -> 1 <= ft <= 15 ->
  field_header 0 (f_id f) ft hdr -> enc E (f_ty f) v payload ->
  (need K (TNamed n) (List.length (hdr ++ payload ++ [0%Z])) <= d)%nat ->
  both_read c (fun S I => read_thrift c I E d (TNamed n)) (hdr ++ payload ++ [0]) (VUnion i v).
Proof. exact union_any_type. Qed.
Print Assumptions C29_union_refuted.
Theorem C29_refuted : exists s1 v1 s2 v2,
  bytes s1 /\ bytes s2 /\
  s1 = [21; 14; 24; 25; 12; 0] /\
  (forall c, In c [release64; debug64; portable64; debug32] ->
     read_thrift c (slice_input c) sample_env 100 (TNamed "Node") s1 = ([], Ok v1) /\
     read_thrift c (slice_input c) sample_env 100 (TNamed "Shape") s2 = ([], Ok v2)) /\
  v1 = VStruct [VI32 7; VSome (VBool false); VVec []; VNone; VNone; VNone; VNone; VNone] /\
  s2 = [25; 0; 0; 0; 0; 0; 0; 0; 0; 0] /\ v2 = VUnion 0 (VDouble 0).
Proof. exact wrong_types_accepted. Qed.
Print Assumptions C29_refuted.

Example C29_example :
  ~ occurs occs1 (fld 4 false (TNamed "Shape") "shape") /\ wire_code sample_env (TNamed "Shape") = 12 /\
  read_thrift release64 (slice_input release64) sample_env 200 (TNamed "Node") (bytes1 ++ [16 * 1 + 8; 99]) = ([99], Err InvalidType).
Proof. repeat split; try (vm_compute; reflexivity). intros H. apply H. reflexivity. Qed.

(** ** C30: list element types are checked; both boolean tags accepted. *)
Theorem C30_wrong_element : forall c E t n et hdr d K,
  cfg_ok c -> env_closed E K = true -> ty_closed E t = true ->
  0 <= et <= 15 -> ~ elem_tag E t et -> list_header n et hdr -> (1 <= d)%nat ->
  both_fail c (fun S I => read_thrift c I E d (TVec t)) hdr InvalidType.
Proof. exact elem_wrong. Qed.
Print Assumptions C30_wrong_element.
Theorem C30_wrong_encoding : forall c E n et hdr d,
  cfg_ok c -> 0 <= et <= 15 -> et <> 5 -> list_header n et hdr -> (1 <= d)%nat ->
  both_fail c (fun S I => read_thrift c I E d TEncSet) hdr InvalidType.
Proof. exact encset_wrong. Qed.
Print Assumptions C30_wrong_encoding.
Theorem C30_bool_tags : forall c E K t n h1 h2 rest d,
  cfg_ok c -> env_closed E K = true -> ty_closed E t = true -> boolish t = true -> (1 <= d)%nat ->
  list_header n 1 h1 -> list_header n 2 h2 -> bytes (h1 ++ rest) -> bytes (h2 ++ rest) ->
  read_thrift c (slice_input c) E d (TVec t) (h1 ++ rest) = read_thrift c (slice_input c) E d (TVec t) (h2 ++ rest) /\
  forall r1 r2, reader_bytes r1 -> reader_bytes r2 -> content r1 = h1 ++ rest -> content r2 = h2 ++ rest -> ending r1 = ending r2 ->
    same_reads (read_thrift c (reader_input c) E d (TVec t) r1) (read_thrift c (reader_input c) E d (TVec t) r2).
Proof. exact bool_tags. Qed.
Print Assumptions C30_bool_tags.
Theorem C30_bool_elements : forall c E n et hdr bs d,
  cfg_ok c -> reserve_ok c -> (et = 1 \/ et = 2) -> list_header n et hdr -> zlen bs = n -> (2 <= d)%nat ->
  both_read c (fun S I => read_thrift c I E d (TVec TBool)) (hdr ++ bs) (VVec (map (fun b => VBool (b =? 1)) bs)).
Proof. exact bool_elements. Qed.
Print Assumptions C30_bool_elements.

Example C30_example :
  list_header 2 1 [33] /\ list_header 2 2 [34] /\ list_header 2 5 [37] /\ ~ elem_tag [] TI64 5 /\
  read_thrift release64 (slice_input release64) [] 5 (TVec TBool) [33; 1; 0] = ([], Ok (VVec [VBool true; VBool false])) /\
  read_thrift release64 (slice_input release64) [] 5 (TVec TBool) [34; 1; 0] = ([], Ok (VVec [VBool true; VBool false])) /\
  read_thrift release64 (slice_input release64) [] 5 (TVec TBool) [50; 1; 2; 255] = ([], Ok (VVec [VBool true; VBool false; VBool false])) /\
  read_thrift release64 (slice_input release64) [] 5 (TVec TI64) [37; 1; 0] = ([1; 0], Err InvalidType).
Proof.
  split; [change 33 with (16 * 2 + 1); apply lh_short; split; discriminate|].
  split; [change 34 with (16 * 2 + 2); apply lh_short; split; discriminate|].
  split; [change 37 with (16 * 2 + 5); apply lh_short; split; discriminate|].
  repeat split; try (vm_compute; reflexivity). intros [H|[H _]]; discriminate.
Qed.

(** ** C31: collection lengths are bounded.
    Full claim: every declared length above ten million is refused.  Proved for
    lengths that fit [usize], hence for all on 64-bit targets, whatever the
    allocator does (it is not asked).  False with 32-bit pointers. *)
Theorem C31_refused_partial : forall c E t n et bs d,
  cfg_ok c -> varint n bs -> in_u (usize_bits c) n -> 10000000 < n -> 0 <= et <= 15 -> (2 <= d)%nat ->
  both_fail c (fun S I => read_thrift c I E d (TVec t)) (240 + et :: bs) InvalidCollectionLen /\
  both_fail c (fun S I => read_thrift c I E d TEncSet) (240 + et :: bs) InvalidCollectionLen /\
  (forall ty inside, ty = 9 \/ ty = 10 -> both_fail c (fun S I => skip_field c I d ty inside) (240 + et :: bs) InvalidCollectionLen) /\
  (forall b inside, both_fail c (fun S I => skip_field c I d 11 inside) (bs ++ [b]) InvalidCollectionLen).
Proof. exact too_long. Qed.
Print Assumptions C31_refused_partial.
Theorem C31_slice_bounded : forall c E K d t s s' v,
  cfg_ok c -> env_closed E K = true -> ty_closed E t = true -> bytes s ->
  read_thrift c (slice_input c) E d t s = (s', Ok v) -> short_lists v.
Proof. exact slice_short_lists. Qed.
Print Assumptions C31_slice_bounded.
Theorem C31_reader_bounded : forall c E K d t r r' v,
  cfg_ok c -> env_closed E K = true -> ty_closed E t = true -> reader_bytes r ->
  read_thrift c (reader_input c) E d t r = (r', Ok v) -> short_lists v.
Proof. exact reader_short_lists. Qed.
Print Assumptions C31_reader_bounded.
Theorem C31_32bit_refuted : exists n bs, varint n bs /\ 10000000 < n /\
  read_thrift debug32 (slice_input debug32) [] 10 (TVec TI8) (240 + 3 :: bs ++ [7]) = ([], Ok (VVec [VI8 7])) /\
  skip_field debug32 (slice_input debug32) 10 9 false (240 + 3 :: bs ++ [7]) = ([], Ok tt).
Proof. exact long_list_32bit. Qed.
Print Assumptions C31_32bit_refuted.

Example C31_example :
  read_thrift release64 (slice_input release64) [] 5 (TVec TI8) [243; 129; 173; 226; 4; 7] = ([7], Err InvalidCollectionLen) /\
  short_lists (VVec [VStruct [VVec []]]) /\ ~ short_lists (VSome (VVec (repeat VNone (Z.to_nat 10000001)))).
Proof.
  split; [vm_compute; reflexivity|]. split; [repeat split; discriminate|].
  cbn [short_lists]. intros [H _]. unfold zlen in H. rewrite repeat_length, Z2Nat.id in H by discriminate. apply H. reflexivity.
Qed.

(** ** C32: decoded values are valid and can be written again. *)
Theorem C32_slice_valid : forall c E K d t s s' v,
  cfg_ok c -> env_closed E K = true -> ty_closed E t = true -> bytes s ->
  read_thrift c (slice_input c) E d t s = (s', Ok v) -> typed E t v /\ unwritable false v = None /\ unshare v = v.
Proof. exact read_slice_valid. Qed.
Print Assumptions C32_slice_valid.
Theorem C32_reader_valid : forall c E K d t r r' v,
  cfg_ok c -> env_closed E K = true -> ty_closed E t = true -> reader_bytes r ->
  read_thrift c (reader_input c) E d t r = (r', Ok v) -> typed E t v /\ unwritable false v = None /\ unshare v = v.
Proof. exact read_reader_valid. Qed.
Print Assumptions C32_reader_valid.
Theorem C32_slice_rewritten : forall c E K d t s s' v,
  cfg_ok c -> env_closed E K = true -> ty_closed E t = true -> bytes s ->
  read_thrift c (slice_input c) E d t s = (s', Ok v) ->
  exists bs, appends (write_thrift vec_write_all E t v) bs (Ok tt) /\ bytes bs /\
  forall c' K' d', cfg_ok c' -> reserve_ok c' -> env_ok false E K' = true -> fits E v t = true ->
    (need K' t (List.length bs) <= d')%nat ->
    both_read c' (fun S I => read_thrift c' I E d' t) bs v.
Proof. exact read_write_read_slice. Qed.
Print Assumptions C32_slice_rewritten.
Theorem C32_reader_rewritten : forall c E K d t r r' v,
  cfg_ok c -> env_closed E K = true -> ty_closed E t = true -> reader_bytes r ->
  read_thrift c (reader_input c) E d t r = (r', Ok v) ->
  exists bs, appends (write_thrift vec_write_all E t v) bs (Ok tt) /\ bytes bs /\
  forall c' K' d', cfg_ok c' -> reserve_ok c' -> env_ok false E K' = true -> fits E v t = true ->
    (need K' t (List.length bs) <= d')%nat ->
    both_read c' (fun S I => read_thrift c' I E d' t) bs v.
Proof. exact read_write_read_reader. Qed.
Print Assumptions C32_reader_rewritten.

Example C32_example :
  env_closed sample_env 6 = true /\ env_ok false sample_env 6 = true /\ wenv_ok sample_env = true /\
  read_thrift release64 (slice_input release64) sample_env 200 (TNamed "Node") [48; 5; 2; 142; 0; 25; 12; 0]
    = ([5; 2; 142; 0; 25; 12; 0], Err (MissingField "Node::key")) /\
  read_thrift release64 (slice_input release64) sample_env 200 (TNamed "Node") [5; 2; 142; 0; 41; 12; 32] = ([], Ok (leaf 7)) /\
  write_thrift vec_write_all sample_env (TNamed "Node") (leaf 7) [] = ([21; 14; 41; 12; 0], Ok tt).
Proof. repeat split; vm_compute; reflexivity. Qed.

(** ** C33: filling an existing object never mixes old and new contents (scalars,
    lists, unions, behind Box and unshared Rc/Arc), and occupied options and shared
    pointers are left alone. *)
Theorem C33_replaced : forall S c (I : input S) E d t v1 v2 s,
  replaceable E t = true -> typed E t v1 -> unshare v1 = v1 -> typed E t v2 -> unshare v2 = v2 ->
  same_fill (fill c I E d t v1 s) (fill c I E d t v2 s) /\
  forall ft, same_fill (fill_field c I E d t ft v1 s) (fill_field c I E d t ft v2 s).
Proof. exact @replace_all. Qed.
Print Assumptions C33_replaced.
Theorem C33_occupied : forall S c (I : input S) E d t v s,
  (1 <= d)%nat ->
  fill c I E d (TOption t) (VSome v) s = (s, VSome v, Err DuplicateField) /\
  (forall ft, fill_field c I E d (TOption t) ft (VSome v) s = (s, VSome v, Err DuplicateField)) /\
  fill c I E d (TShared t) (VShared false v) s = (s, VShared false v, Err DuplicateField).
Proof. exact @occupied. Qed.
Print Assumptions C33_occupied.

(** Structs, outside the claim, do keep old contents. *)
Example C33_example :
  replaceable sample_env (TVec (TNamed "Node")) = true /\ replaceable sample_env (TNamed "Shape") = true /\
  fill release64 (slice_input release64) sample_env 100 (TVec TI32) (VVec [VI32 5; VI32 6]) [21; 2] = ([], VVec [VI32 1], Ok tt) /\
  fill release64 (slice_input release64) sample_env 100 (TVec TI32) (VVec []) [21; 2] = ([], VVec [VI32 1], Ok tt) /\
  replaceable sample_env (TNamed "Node") = false /\
  fill release64 (slice_input release64) sample_env 100 (TNamed "Node")
    (VStruct [VI32 1; VSome (VBool true); VVec []; VNone; VNone; VNone; VNone; VNone]) [21; 14; 41; 12; 0]
    = ([], VStruct [VI32 7; VSome (VBool true); VVec []; VNone; VNone; VNone; VNone; VNone], Ok tt).
Proof. repeat split; vm_compute; reflexivity. Qed.

(** ** C34: thrift sets interoperate.  False: in every schema the set wire type is
    refused for a set field (modelled as what the macro makes of it, a Vec), and
    sets are written with the list wire type. *)
Theorem C34_read_refuted : forall c E K name fs d,
  cfg_ok c -> reserve_ok c -> env_ok true E K = true -> lookup E name = Some (DStruct fs) ->
  forall occs last' bs f t hdr,
  run E fs 0 occs last' bs -> tidy E fs occs -> (need K (TNamed name) (Datatypes.S (List.length bs)) <= d)%nat ->
  In f fs -> f_ty f = TVec t -> ~ occurs occs f -> field_header last' (f_id f) 10 hdr ->
  both_fail c (fun S I => read_thrift c I E d (TNamed name)) (bs ++ hdr) InvalidType.
Proof. exact set_refused. Qed.
Print Assumptions C34_read_refuted.
Theorem C34_refuted :
  appends (write_thrift vec_write_all set_env (TNamed "S") (VStruct [VVec [VI32 3]])) [25; 21; 6; 0] (Ok tt) /\
  read_thrift release64 (slice_input release64) set_env 50 (TNamed "S") [26; 21; 6; 0] = ([21; 6; 0], Err InvalidType) /\
  read_thrift release64 (slice_input release64) set_env 50 (TNamed "S") [25; 21; 6; 0] = ([], Ok (VStruct [VVec [VI32 3]])).
Proof. exact sets_are_lists. Qed.
Print Assumptions C34_refuted.

(** ** C35: a struct ends only at a zero stop byte.
    False: any header byte with a zero type nibble ends it.  Proved: nothing else does. *)
Theorem C35_partial : forall S c (I : input S) E n fs d s s' v,
  lookup E n = Some (DStruct fs) ->
  read_thrift c I E d (TNamed n) s = (s', Ok v) ->
  exists d' ids s1 b, d = Datatypes.S d' /\ trace c I E d' fs 0 ids s s1 /\ in_read_byte I s1 = (s', Ok b) /\ b mod 16 = 0 /\
    forall f, In f fs -> f_req f = true -> In (f_id f) ids.
Proof. exact @read_trace. Qed.
Print Assumptions C35_partial.
(** A union consists of one field and a stop byte, which has to be zero. *)
Theorem C35_union : forall S c (I : input S) E n fs d s s' v,
  lookup E n = Some (DUnion fs) ->
  read_thrift c I E d (TNamed n) s = (s', Ok v) ->
  exists d' ft i f w s1 s2, d = Datatypes.S d' /\ read_field_header c I 0 s = (s1, Ok (ft, f_id f)) /\ ft <> 0 /\ nth_error fs i = Some f /\
    read_thrift c I E d' (f_ty f) s1 = (s2, Ok w) /\ in_read_byte I s2 = (s', Ok 0) /\ v = VUnion i w.
Proof. exact @read_union. Qed.
Print Assumptions C35_union.
Example C35_union_example :
  read_thrift release64 (slice_input release64) sample_env 100 (TNamed "Shape") [8; 80; 1; 5; 0; 9] = ([9], Ok (VUnion 2 (VBin [5]))) /\
  read_thrift release64 (slice_input release64) sample_env 100 (TNamed "Shape") [8; 80; 1; 5; 16; 9] = ([9], Err MissingStop).
Proof. split; vm_compute; reflexivity. Qed.
Theorem C35_refuted : exists s v, bytes s /\ ~ In 0 s /\
  (forall c, In c [release64; debug64; portable64; debug32] ->
     read_thrift c (slice_input c) sample_env 100 (TNamed "Node") s = ([], Ok v)) /\
  s = [21; 14; 41; 12; 48].
Proof. exact stop_not_zero. Qed.
Print Assumptions C35_refuted.

(** ** C52: declared default values are honoured.  False: an absent optional field
    is None (C28_last_wins) and an absent required one an error (C26_missing),
    whatever default is declared; two fields of the parquet schema declare one. *)
Theorem C52_refuted :
  read_thrift release64 (slice_input release64) parquet_env 100 (TNamed "DataPageHeaderV2")
    [21; 2; 21; 2; 21; 2; 21; 0; 21; 2; 21; 2; 0]
  = ([], Ok (VStruct [VI32 1; VI32 1; VI32 1; VI32 0; VI32 1; VI32 1; VNone; VNone])) /\
  read_thrift release64 (slice_input release64) parquet_env 100 (TNamed "ColumnChunk") [0]
  = ([], Err (MissingField "ColumnChunk::file_offset")).
Proof. exact defaults_ignored. Qed.
Print Assumptions C52_refuted.

(** ** C54: open enums preserve unknown values. *)
Theorem C54_enum : forall c E n z d,
  cfg_ok c -> lookup E n = Some DEnum -> in_s 32 z -> (1 <= d)%nat ->
  exists bs, appends (write_thrift vec_write_all E (TNamed n) (VI32 z)) bs (Ok tt) /\ canonical (zigzag z) 5 bs /\
    both_read c (fun S I => read_thrift c I E d (TNamed n)) bs (VI32 z).
Proof. exact enum_roundtrip. Qed.
Print Assumptions C54_enum.

Example C54_example :
  lookup sample_env "Color" = Some DEnum /\ in_s 32 (-2147483648) /\
  read_thrift release64 (slice_input release64) sample_env 9 (TNamed "Color") [255; 255; 255; 255; 15] = ([], Ok (VI32 (-2147483648))).
Proof. repeat split; vm_compute; congruence || reflexivity. Qed.

(** ** C55: a failed fill of an option is detectable: it is occupied afterwards, and
    every further fill is refused.  ([read_thrift] returns a value only with Ok by
    its type.) *)
Theorem C55_retry : forall S c (I : input S) E K d t s s' v o,
  env_closed E K = true -> ty_closed E t = true -> (ty_depth t + K < d)%nat ->
  fill c I E d (TOption t) VNone s = (s', v, o) ->
  exists w, v = VSome w /\ forall c' S' (I' : input S') d' s'', (1 <= d')%nat ->
    fill c' I' E d' (TOption t) v s'' = (s'', v, Err DuplicateField).
Proof. exact @failed_option. Qed.
Print Assumptions C55_retry.
Theorem C55_retry_field : forall S c (I : input S) E K d t ft s s' v o,
  env_closed E K = true -> ty_closed E t = true -> (ty_depth t + K < d)%nat ->
  fill_field c I E d (TOption t) ft VNone s = (s', v, o) ->
  exists w, v = VSome w /\ forall c' S' (I' : input S') d' ft' s'', (1 <= d')%nat ->
    fill_field c' I' E d' (TOption t) ft' v s'' = (s'', v, Err DuplicateField).
Proof. exact @failed_option_field. Qed.
Print Assumptions C55_retry_field.

Example C55_example :
  fill release64 (slice_input release64) sample_env 100 (TOption (TVec TI8)) VNone [35; 1] = ([], VSome (VVec [VI8 1; VI8 0]), Err (IO UnexpectedEof)) /\
  fill release64 (slice_input release64) sample_env 100 (TOption (TVec TI8)) (VSome (VVec [VI8 1; VI8 0])) [35; 1; 2]
    = ([35; 1; 2], VSome (VVec [VI8 1; VI8 0]), Err DuplicateField).
Proof. split; vm_compute; reflexivity. Qed.
