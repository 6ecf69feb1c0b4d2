(** Lemmas for C98: the code of the generator and the code of the macros. *)
From Verif Require Import Base ErrorName Parquet SpecInput Protocol Types Generator SpecGenerator SpecPrint SpecGenText RustCode GenCode SpecCode P_RustCode P_GenNames.
Open Scope Z_scope.
Open Scope list_scope.

Definition flag_of (a : string) : local := own (a ++ "_set_").
Lemma append_inj a b s : (a ++ s = b ++ s)%string -> a = b.
Proof.
  assert (L : forall a, String.length (a ++ s) = (String.length a + String.length s)%nat) by (clear; induction a as [|x a IH]; cbn [String.append String.length Nat.add]; congruence).
  revert b. induction a as [|x a IH]; intros [|y b] H; [reflexivity| | |].
  - exfalso. apply (f_equal String.length) in H. rewrite !L in H. cbn [String.length] in H. lia.
  - exfalso. apply (f_equal String.length) in H. rewrite !L in H. cbn [String.length] in H. lia.
  - cbn [String.append] in H. injection H as -> H. f_equal. exact (IH b H).
Qed.
Lemma flag_inj a b : flag_of a = flag_of b -> a = b.
Proof. intros H. apply (f_equal snd) in H. exact (append_inj a b _ H). Qed.
Ltac peel a H := repeat (destruct a as [|? a]; cbn [String.append] in H; [discriminate|injection H as _ H]).
Lemma flag_last a : flag_of a <> last_field_id.
Proof. intros H. apply (f_equal snd) in H. unfold flag_of, last_field_id, own in H. cbn [snd] in H. peel a H. destruct a; discriminate. Qed.
Lemma flag_ft a : flag_of a <> field_type_.
Proof. intros H. apply (f_equal snd) in H. unfold flag_of, field_type_, own in H. cbn [snd] in H. peel a H. destruct a; discriminate. Qed.

Lemma required_same g f : same_field g f -> required g = f_req f.
Proof. intros (_ & _ & H). unfold required. destruct (g_req g), (f_req f); try reflexivity; destruct H as [H1 H2]; try discriminate (H1 eq_refl); try discriminate (H2 eq_refl). Qed.
Lemma names_same {P : gfield -> field -> Prop} gs fs : (forall g f, P g f -> g_name g = f_name f) -> Forall2 P gs fs -> map g_name gs = map f_name fs.
Proof. intros HP. induction 1 as [|g f gs fs H _ IH]; cbn [map]; [reflexivity|]. rewrite (HP g f H), IH. reflexivity. Qed.
Lemma declare_same gs fs : Forall2 same_field gs fs -> map (fun g => Let (set_flag g) (Flag false)) (filter required gs) = flat_map (declare flag_of) fs.
Proof.
  induction 1 as [|g f gs fs H _ IH]; cbn [filter flat_map map]; [reflexivity|]. unfold declare at 1. rewrite (required_same g f H). destruct (f_req f); cbn [map app]; rewrite IH; [|reflexivity].
  unfold set_flag. destruct H as (_ & -> & _). reflexivity.
Qed.
Lemma demand_same n gs fs : Forall2 same_field gs fs ->
  map (fun g => If (NotSet (set_flag g)) [ReturnErr (MissingField (n ++ "::" ++ g_name g)%string) false]) (filter required gs) = flat_map (demand flag_of n) fs.
Proof.
  induction 1 as [|g f gs fs H _ IH]; cbn [filter flat_map map]; [reflexivity|]. unfold demand at 1. rewrite (required_same g f H). destruct (f_req f); cbn [map app]; rewrite IH; [|reflexivity].
  unfold set_flag. destruct H as (_ & -> & _). reflexivity.
Qed.
Lemma arms_same gs fs : Forall2 same_field gs fs ->
  map (fun g => (g_id g, (if required g then [SetFlag (set_flag g)] else []) ++ [Do (FillField (g_name g) field_type_)])) gs =
  map (fun f => (f_id f, set_of flag_of f ++ [Do (FillField (f_name f) field_type_)])) fs.
Proof.
  induction 1 as [|g f gs fs H _ IH]; cbn [map]; [reflexivity|]. rewrite IH, (required_same g f H). unfold set_of, set_flag. destruct H as (-> & -> & _). reflexivity.
Qed.
Lemma gen_struct_fill_ok {S} c (I : input S) gs fs default1 fill1 fill_field1 skip1 fuel n vs s : Forall2 same_field gs fs -> NoDup (map g_name gs) ->
  method fs default1 (run_read fs c I fill1 fill_field1 skip1) fuel (gen_struct_fill n gs) (VStruct vs) s =
  method fs default1 (run_read fs c I fill1 fill_field1 skip1) fuel (struct_fill_code n fs) (VStruct vs) s.
Proof.
  intros HF Hn. rewrite (names_same gs fs (fun g f H => proj1 (proj2 H)) HF) in Hn. rewrite struct_fill_ok by exact Hn.
  unfold gen_struct_fill. rewrite (declare_same gs fs HF), (demand_same n gs fs HF), (arms_same gs fs HF).
  pose proof (struct_body c I fs default1 fill1 fill_field1 skip1 flag_of last_field_id field_type_ Hn flag_inj flag_last flag_ft ltac:(discriminate) fuel n (flat_map (declare flag_of) fs ++ [Let last_field_id (Num 0)]) s vs) as B.
  rewrite <- app_assoc in B. apply B. clear B.
  destruct (declare_ok c I fs default1 fill1 fill_field1 skip1 flag_of fuel fs s (VStruct vs) []) as (ls & H1 & H2 & _).
  exists ((last_field_id, HInt 0) :: ls). split; [rewrite exec_app; match goal with |- context [exec_all _ _ _ _ (flat_map _ _) ?x] => change x with ((s, VStruct vs, @nil (local * held)) : @state S) end; unfold state, locals in *; rewrite H1; reflexivity|]. apply inv_start; [reflexivity|]. intros f Hf Hr. cbn [fetch].
  rewrite (local_eqb_neq _ _ (flag_last (f_name f))). exact (H2 f Hf Hr).
Qed.
Lemma gen_struct_write_ok {W} (write_all : list Z -> M W unit) E gs fs default1 fuel vs s : Forall2 same_field gs fs -> NoDup (map g_name gs) -> List.length vs = List.length fs ->
  method fs default1 (run_write fs write_all (write_thrift_field write_all E)) fuel (gen_struct_write gs) (VStruct vs) s =
  method fs default1 (run_write fs write_all (write_thrift_field write_all E)) fuel (struct_write_code fs) (VStruct vs) s.
Proof.
  intros HF Hn Hl. rewrite (names_same gs fs (fun g f H => proj1 (proj2 H)) HF) in Hn.
  assert (Hm : map (fun g => Do (WriteField (g_name g) (g_id g) last_field_id)) gs = map (fun f => Do (WriteField (f_name f) (f_id f) last_field_id)) fs).
  { clear - HF. induction HF as [|g f gs fs (H1 & H2 & _) _ IH]; cbn [map]; [reflexivity|]. rewrite IH, H1, H2. reflexivity. }
  unfold gen_struct_write, struct_write_code. rewrite Hm.
  rewrite (struct_write_body write_all E fs default1 last_field_id Hn fuel [Let last_field_id (Num 0)] vs s Hl (ex_intro _ _ (conj eq_refl (fun _ => eq_refl)))).
  apply (struct_write_body write_all E fs default1 last_field_id Hn fuel); [exact Hl|]. destruct HF as [|g f gs fs H HF].
  - exists []. split; [reflexivity|]. intros H. destruct (H eq_refl).
  - exists [(last_field_id, HInt 0)]. split; reflexivity.
Qed.
Lemma union_arms_same gs fs : Forall2 same_variant gs fs ->
  map (fun g => (g_id g, [SetVariant (g_name g); MatchSelf [(g_name g, FillInner)] true])) gs = map (fun f => (f_id f, [SetVariant (f_name f); MatchSelf [(f_name f, FillInner)] true])) fs.
Proof. induction 1 as [|g f gs fs (H1 & H2) _ IH]; cbn [map]; [reflexivity|]. rewrite IH, H1, H2. reflexivity. Qed.
(** The code of the generator names the union when no variant is known. *)
Lemma gen_union_fill_ok {S} c (I : input S) gs fs default1 fill1 fill_field1 skip1 fuel n v s : Forall2 same_variant gs fs -> NoDup (map g_name gs) ->
  let a := method fs default1 (run_read fs c I fill1 fill_field1 skip1) fuel (gen_union_fill n gs) v s in
  let b := method fs default1 (run_read fs c I fill1 fill_field1 skip1) fuel (union_fill_code fs) v s in
  fst a = fst b /\ (snd a = snd b \/ (snd a = Err (MissingField n) /\ snd b = Err (MissingField "$struct_name"))).
Proof.
  intros HF Hn. rewrite (names_same gs fs (fun g f H => proj2 H) HF) in Hn. unfold gen_union_fill. rewrite (union_arms_same gs fs HF).
  change (union_fill_code fs) with (union_body fs last_field_id field_type_ stop_ (MissingField "$struct_name")).
  match goal with |- context [method _ _ _ _ (?x :: ?y) _ _] => change (x :: y) with (union_body fs last_field_id field_type_ stop_ (MissingField n)) end.
  rewrite !union_body_ok by (try exact Hn; discriminate). unfold union_result. cbv zeta.
  destruct (read_field_header c I 0 s) as [s1 [[t z]|e|p]]; [|split; [reflexivity|left; reflexivity]|split; [reflexivity|left; reflexivity]].
  destruct (t =? 0); [split; [reflexivity|left; reflexivity]|]. destruct (find_field fs z) as [[i f]|]; [split; [reflexivity|left; reflexivity]|]. cbn [fst snd]. split; [reflexivity|right; split; reflexivity].
Qed.
Lemma gen_union_write_ok {W} (write_all : list Z -> M W unit) E gs fs default1 fuel i w s : Forall2 same_variant gs fs -> NoDup (map g_name gs) -> (i < List.length fs)%nat ->
  method fs default1 (run_write fs write_all (write_thrift_field write_all E)) fuel (gen_union_write gs) (VUnion i w) s =
  method fs default1 (run_write fs write_all (write_thrift_field write_all E)) fuel (union_write_code fs) (VUnion i w) s.
Proof.
  intros HF Hn Hi. rewrite (names_same gs fs (fun g f H => proj2 H) HF) in Hn.
  assert (Hm : map (fun g => (g_name g, WriteInner (g_id g) last_field_id)) gs = map (fun f => (f_name f, WriteInner (f_id f) last_field_id)) fs).
  { clear - HF. induction HF as [|g f gs fs (H1 & H2) _ IH]; cbn [map]; [reflexivity|]. rewrite IH, H1, H2. reflexivity. }
  destruct (nth_error fs i) as [f|] eqn:Hf; [|apply nth_error_None in Hf; lia].
  unfold gen_union_write. rewrite Hm. etransitivity; [exact (union_write_body write_all E fs default1 last_field_id Hn fuel i w f s _ Hf (or_intror eq_refl))|].
  symmetry. exact (union_write_body write_all E fs default1 last_field_id Hn fuel i w f s _ Hf (or_introl eq_refl)).
Qed.

(** * The text *)
Lemma text_append a b : text (a ++ b) = text a ++ text b.
Proof. induction a as [|x a IH]; [reflexivity|]. cbn [String.append]. rewrite !P_Print.text_cons, IH. reflexivity. Qed.
Section Text.
  Variable num : Z -> list Z.
  Hypothesis Hnum : forall z, signed_numeral z (num z).
  Definition lines_of : list stmt -> list (list Z) := fix block (ts : list stmt) : list (list Z) := match ts with [] => [] | t' :: ts' => stmt_lines num t' ++ block ts' end.
  Lemma lines_of_eq ts : lines_of ts = body_lines num ts.
  Proof. induction ts as [|t ts IH]; [reflexivity|]. cbn [lines_of body_lines flat_map]. rewrite IH. reflexivity. Qed.
  Lemma body_app a b : body_lines num (a ++ b) = body_lines num a ++ body_lines num b.
  Proof. unfold body_lines. apply flat_map_app. Qed.
  Lemma loop_lines body : stmt_lines num (Loop body) = [text "loop {"] ++ body_lines num body ++ [text "}"].
  Proof. rewrite <- lines_of_eq. reflexivity. Qed.
  Lemma if_lines b body : stmt_lines num (If b body) = [text "if " ++ cond_text b ++ text " {"] ++ body_lines num body ++ [text "}"].
  Proof. rewrite <- lines_of_eq. reflexivity. Qed.
  Lemma match_lines x arms other : stmt_lines num (Match x arms other) =
    [text "match " ++ local_text x ++ text " {"] ++ flat_map (fun '(y, body) => [num y ++ text " => {"] ++ body_lines num body ++ [text "}"]) arms ++ [text "_ => {"] ++ body_lines num other ++ [text "}"; text "}"].
  Proof.
    rewrite <- (lines_of_eq other). transitivity ([text "match " ++ local_text x ++ text " {"] ++ flat_map (fun '(y, body) => [num y ++ text " => {"] ++ lines_of body ++ [text "}"]) arms ++ [text "_ => {"] ++ lines_of other ++ [text "}"; text "}"]).
    - cbn [stmt_lines]. fold lines_of. do 2 f_equal. induction arms as [|[y body] arms IH]; [reflexivity|]. cbn [flat_map]. rewrite IH, <- !app_assoc. reflexivity.
    - reflexivity.
  Qed.
  Lemma cons_lines t ts : body_lines num (t :: ts) = stmt_lines num t ++ body_lines num ts.
  Proof. reflexivity. Qed.
  Lemma num_zero : num 0 = text "0".
  Proof. apply (signed_unique 0); [apply Hnum|]. exact (P_Print.signed_numeral_ok 0). Qed.
  Lemma flag_text g : local_text (set_flag g) = escaped (g_name g) ++ text "_set_".
  Proof.
    unfold local_text, set_flag, own, escaped. cbn [snd]. destruct (String.eqb (g_name g) "type") eqn:E.
    - apply String.eqb_eq in E. rewrite E. reflexivity.
    - destruct (String.eqb (g_name g ++ "_set_") "type_set_") eqn:E2; [|cbn [app]; apply text_append].
      apply String.eqb_eq in E2. change "type_set_"%string with ("type" ++ "_set_")%string in E2. apply append_inj in E2. rewrite E2 in E. discriminate.
  Qed.
  Lemma member_shown doc g s : member doc g s -> s_field s = g /\ s_id s = num (g_id g) /\ is_required s = required g.
  Proof. intros [f i t Hi _ Hr|f i t Hi _ Hr]; cbn [s_field s_id]; (split; [reflexivity|]); (split; [exact (signed_unique _ _ _ Hi (Hnum _))|]); reflexivity. Qed.
  Lemma variant_shown doc g s : variant doc g s -> s_field s = g /\ s_id s = num (g_id g).
  Proof. intros [f i t Hi _]; cbn [s_field s_id]; (split; [reflexivity|]); exact (signed_unique _ _ _ Hi (Hnum _)). Qed.
  Lemma members_shown doc gs fs : Forall2 (member doc) gs fs -> gs = map s_field fs /\ Forall (fun s => s_id s = num (g_id (s_field s)) /\ is_required s = required (s_field s)) fs.
  Proof. induction 1 as [|g s gs fs H _ [IH1 IH2]]; cbn [map]; [split; [reflexivity|constructor]|]. destruct (member_shown _ _ _ H) as (<- & H2 & H3). split; [f_equal; exact IH1|constructor; auto]. Qed.
  Lemma variants_shown doc gs fs : Forall2 (variant doc) gs fs -> gs = map s_field fs /\ Forall (fun s => s_id s = num (g_id (s_field s))) fs.
  Proof. induction 1 as [|g s gs fs H _ [IH1 IH2]]; cbn [map]; [split; [reflexivity|constructor]|]. destruct (variant_shown _ _ _ H) as (<- & H2). split; [f_equal; exact IH1|constructor; auto]. Qed.
  Lemma filter_shown fs : Forall (fun s => s_id s = num (g_id (s_field s)) /\ is_required s = required (s_field s)) fs -> filter required (map s_field fs) = map s_field (filter is_required fs).
  Proof. induction 1 as [|s fs [_ H] _ IH]; cbn [map filter]; [reflexivity|]. rewrite H. destruct (required (s_field s)); cbn [map]; rewrite IH; reflexivity. Qed.

  Lemma struct_text n l fs : Forall (fun s => s_id s = num (g_id (s_field s)) /\ is_required s = required (s_field s)) fs ->
    exists before, struct_lines n l fs = before ++ [fill_line] ++ body_lines num (gen_struct_fill n (map s_field fs)) ++ [text "}"; write_line] ++ body_lines num (gen_struct_write (map s_field fs)) ++ [text "}"; text "}"].
  Proof.
    intros HF. unfold struct_lines. cbv zeta.
    match goal with |- exists b, ?x1 ++ ?x2 ++ ?x3 ++ ?x4 ++ [?y1; ?y2; ?y3; ?y4; ?y5; ?y6; ?y7; ?y8] ++ ?r = _ => exists (x1 ++ x2 ++ x3 ++ x4 ++ [y1; y2; y3; y4; y5; y6; y7]); rewrite <- !app_assoc; do 4 f_equal end.
    cbn [app]. do 8 f_equal.
    unfold gen_struct_fill. rewrite (filter_shown fs HF), !body_app.
    assert (H1 : body_lines num (map (fun g => Let (set_flag g) (Flag false)) (map s_field (filter is_required fs))) = map (fun f => text "let mut " ++ s_member f ++ text "_set_: bool = false;") (filter is_required fs)).
    { induction (filter is_required fs) as [|s l' IH]; cbn [map]; [reflexivity|]. rewrite cons_lines, IH. cbn [stmt_lines]. rewrite flag_text, <- !app_assoc. reflexivity. }
    rewrite H1, <- !app_assoc. f_equal.
    rewrite !cons_lines, loop_lines. rewrite !cons_lines, if_lines, match_lines. cbn [stmt_lines body_lines flat_map]. rewrite num_zero. cbn [app].
    do 7 f_equal.
    assert (H2 : flat_map (fun '(y, body) => [num y ++ text " => {"] ++ body_lines num body ++ [text "}"])
       (map (fun g => (g_id g, (if required g then [SetFlag (set_flag g)] else []) ++ [Do (FillField (g_name g) field_type_)])) (map s_field fs)) =
       flat_map (fun f => (s_id f ++ text " => {") :: (if is_required f then [s_member f ++ text "_set_ = true;"] else []) ++
               [text "self." ++ s_member f ++ text ".fill_field(input, field_type)?;"; text "}"]) fs).
    { clear - HF Hnum. induction HF as [|s fs [Hi Hr] _ IH]; cbn [map flat_map]; [reflexivity|]. rewrite IH. f_equal. rewrite Hi, Hr, body_app. cbn [app]. f_equal.
      rewrite <- app_assoc. destruct (required (s_field s)).
      - rewrite cons_lines. cbn [stmt_lines body_lines flat_map app call_text]. rewrite flag_text, <- !app_assoc. reflexivity.
      - cbn [body_lines flat_map app stmt_lines]. cbn [call_text]. rewrite <- !app_assoc. reflexivity. }
    cbn [app] in H2. rewrite H2. clear H1 H2. rewrite !app_nil_r, <- !app_assoc. f_equal. cbn [app]. do 5 f_equal.
    assert (H3 : body_lines num (map (fun g => If (NotSet (set_flag g)) [ReturnErr (MissingField (n ++ "::" ++ g_name g)) false]) (map s_field (filter is_required fs))) =
      flat_map (fun f => [text "if !" ++ s_member f ++ text "_set_ {"; text "return Err(ThriftError::MissingField(c""" ++ text n ++ text "::" ++ s_name f ++ text """.into()))"; text "}"]) (filter is_required fs)).
    { induction (filter is_required fs) as [|s l' IH]; cbn [map flat_map]; [reflexivity|]. rewrite cons_lines, IH, if_lines, cons_lines. cbn [stmt_lines body_lines flat_map app cond_text error_text].
      rewrite flag_text, !text_append, <- !app_assoc. reflexivity. }
    rewrite H3. f_equal. do 3 f_equal. unfold gen_struct_write. rewrite !body_app, <- !app_assoc.
    assert (H4 : body_lines num (map (fun g => Do (WriteField (g_name g) (g_id g) last_field_id)) (map s_field fs)) =
      map (fun f => text "self." ++ s_member f ++ text ".write_field(output, " ++ s_id f ++ text ", &mut last_field_id)?;") fs).
    { clear - HF. induction HF as [|s fs [Hi _] _ IH]; cbn [map]; [reflexivity|]. rewrite cons_lines, IH, Hi. cbn [stmt_lines app call_text]. rewrite <- !app_assoc. reflexivity. }
    rewrite H4. f_equal; [destruct fs; [reflexivity|cbn [map body_lines flat_map stmt_lines]; rewrite num_zero; reflexivity]|]. f_equal. cbn [body_lines flat_map stmt_lines call_text app]. rewrite num_zero. reflexivity.
  Qed.

  Lemma union_text n l f fs : Forall (fun s => s_id s = num (g_id (s_field s))) fs ->
    exists before w1 w2, gen_union_write (map s_field fs) = w1 ++ w2 /\ 
      union_lines n l f fs = before ++ [fill_line] ++ body_lines num (gen_union_fill n (map s_field fs)) ++ [text "}"; write_line] ++ body_lines num w1 ++ [text "// STOP"] ++ body_lines num w2 ++ [text "}"; text "}"].
  Proof.
    intros HF.
    eexists _, [Let last_field_id (Num 0); MatchSelf (map (fun g => (g_name g, WriteInner (g_id g) last_field_id)) (map s_field fs)) false], [Tail (WriteByte 0)].
    split; [reflexivity|]. unfold union_lines. cbv zeta.
    match goal with |- ?x1 ++ ?x2 ++ [?y1; ?y2; ?y3; ?y4; ?y5; ?y6; ?y7; ?y8; ?y9; ?z1; ?z2; ?z3; ?z4; ?z5; ?z6] ++ ?r = _ =>
      transitivity ((x1 ++ x2 ++ [y1; y2; y3; y4; y5; y6; y7; y8]) ++ [y9; z1; z2; z3; z4; z5; z6] ++ r); [rewrite <- !app_assoc; reflexivity|f_equal] end.
    cbn [app]. f_equal. unfold gen_union_fill. rewrite !cons_lines, !if_lines, match_lines, !cons_lines. cbn [stmt_lines body_lines flat_map cond_text error_text call_text]. rewrite num_zero. cbn [app]. do 5 f_equal.
    assert (H2 : flat_map (fun '(y, body) => [num y ++ text " => {"] ++ body_lines num body ++ [text "}"])
       (map (fun g => (g_id g, [SetVariant (g_name g); MatchSelf [(g_name g, FillInner)] true])) (map s_field fs)) =
       flat_map (fun f =>
           [s_id f ++ text " => {";
              text "*self = Self::" ++ s_name f ++ text "(Default::default());";
              text "#[allow(unreachable_patterns)]";
              text "match self {";
                text "Self::" ++ s_name f ++ text "(inner) => inner.fill(input)?,";
                text "_ => unsafe { std::hint::unreachable_unchecked() },";
              text "}";
            text "}"]) fs).
    { clear - HF Hnum. induction HF as [|s fs Hi _ IH]; cbn [map flat_map]; [reflexivity|]. rewrite IH, Hi. reflexivity. }
    cbn [app] in H2. rewrite H2. clear H2. rewrite <- !app_assoc. cbn [app].
    assert (H5 : map (fun '(n0, k) => text "Self::" ++ text n0 ++ text "(inner) => " ++ call_text num k ++ text "?,") (map (fun g => (g_name g, WriteInner (g_id g) last_field_id)) (map s_field fs)) =
       map (fun f => text "Self::" ++ s_name f ++ text "(inner) => inner.write_field(output, " ++ s_id f ++ text ", &mut last_field_id)?,") fs).
    { clear - HF. induction HF as [|s fs Hi _ IH]; cbn [map]; [reflexivity|]. rewrite IH, Hi. cbn [call_text]. rewrite <- !app_assoc. reflexivity. }
    rewrite H5. reflexivity.
  Qed.

  Lemma enum_text n cs table : exists before,
    enum_lines n cs table = before ++ [fill_line] ++ body_lines num gen_enum_fill ++ [text "}"; text "#[inline]"; write_line] ++ body_lines num gen_enum_write ++ [text "}"; text "}"].
  Proof.
    unfold enum_lines. cbv zeta.
    match goal with |- exists b, ?x1 ++ ?x2 ++ ?x3 ++ ?x4 ++ ?r = _ => 
      exists (x1 ++ x2 ++ x3 ++ x4 ++ firstn 24 r) end. rewrite <- !app_assoc. reflexivity.
  Qed.

  Lemma struct_prints doc n gs ls : prints doc (n, StructDef gs) ls ->
    exists before, ls = before ++ [fill_line] ++ body_lines num (gen_struct_fill n gs) ++ [text "}"; write_line] ++ body_lines num (gen_struct_write gs) ++ [text "}"; text "}"].
  Proof. intros H. inversion H as [| |n0 l gs0 fs _ Hm|]; subst. destruct (members_shown _ _ _ Hm) as [-> HF]. exact (struct_text n l fs HF). Qed.
  Lemma union_prints doc n gs ls : prints doc (n, UnionDef gs) ls ->
    exists before w1 w2, gen_union_write gs = w1 ++ w2 /\
      ls = before ++ [fill_line] ++ body_lines num (gen_union_fill n gs) ++ [text "}"; write_line] ++ body_lines num w1 ++ [text "// STOP"] ++ body_lines num w2 ++ [text "}"; text "}"].
  Proof. intros H. inversion H as [| | |n0 l gs0 f fs _ Hm]; subst. destruct (variants_shown _ _ _ Hm) as [-> HF]. exact (union_text n l f (f :: fs) HF). Qed.
  Lemma enum_prints doc n cs ls : prints doc (n, EnumDef cs) ls ->
    exists before, ls = before ++ [fill_line] ++ body_lines num gen_enum_fill ++ [text "}"; text "#[inline]"; write_line] ++ body_lines num gen_enum_write ++ [text "}"; text "}"].
  Proof. intros H. inversion H as [|n0 cs0 table ss tt Hc Hb Ht| |]; subst. exact (enum_text n ss tt). Qed.
End Text.

(** * The methods of the library *)
Lemma gen_fill_struct {S} c (I : input S) E d n gs fs vs s : lookup E n = Some (DStruct fs) -> Forall2 same_field gs fs -> NoDup (map g_name gs) ->
  method fs (default E d) (run_read fs c I (fill c I E d) (fill_field c I E d) (fun ft => skip_field c I d ft false)) (Datatypes.S (in_left I s)) (gen_struct_fill n gs) (VStruct vs) s =
  fill c I E (Datatypes.S d) (TNamed n) (VStruct vs) s.
Proof.
  intros Hl HF Hn. rewrite (gen_struct_fill_ok c I gs fs) by assumption. symmetry. apply fill_struct_code; [exact Hl|].
  rewrite <- (names_same gs fs (fun g f H => proj1 (proj2 H)) HF). exact Hn.
Qed.
Lemma gen_write_struct {W} (write_all : list Z -> M W unit) E n gs fs vs s fuel default1 : lookup E n = Some (DStruct fs) -> Forall2 same_field gs fs -> NoDup (map g_name gs) -> List.length vs = List.length fs ->
  method fs default1 (run_write fs write_all (write_thrift_field write_all E)) fuel (gen_struct_write gs) (VStruct vs) s =
  match write_thrift write_all E (TNamed n) (VStruct vs) s with (s', o) => (s', VStruct vs, o) end.
Proof.
  intros Hl HF Hn Hlen. rewrite (gen_struct_write_ok write_all E gs fs) by assumption. apply write_struct_code; [exact Hl| |exact Hlen].
  rewrite <- (names_same gs fs (fun g f H => proj1 (proj2 H)) HF). exact Hn.
Qed.
Lemma gen_fill_union {S} c (I : input S) E d n gs fs v s fuel : lookup E n = Some (DUnion fs) -> Forall2 same_variant gs fs -> NoDup (map g_name gs) ->
  exists s' v' o o',
    method fs (default E d) (run_read fs c I (fill c I E d) (fill_field c I E d) (fun ft => skip_field c I d ft false)) fuel (gen_union_fill n gs) v s = (s', v', o) /\
    fill c I E (Datatypes.S d) (TNamed n) v s = (s', v', o') /\
    (o = o' \/ o = Err (MissingField n) /\ o' = Err (MissingField "$struct_name")).
Proof.
  intros Hl HF Hn. destruct (gen_union_fill_ok c I gs fs (default E d) (fill c I E d) (fill_field c I E d) (fun ft => skip_field c I d ft false) fuel n v s HF Hn) as [H1 H2].
  rewrite <- (fill_union_code c I E d n fs v s fuel Hl) in H1, H2 by (rewrite <- (names_same gs fs (fun g f H => proj2 H) HF); exact Hn).
  destruct (method _ _ _ _ _ _ _) as [[s1 v1] o1]. destruct (fill c I E (Datatypes.S d) (TNamed n) v s) as [[s2 v2] o2]. cbn [fst snd] in H1, H2. injection H1 as -> ->.
  exists s2, v2, o1, o2. repeat split. exact H2.
Qed.
Lemma gen_write_union {W} (write_all : list Z -> M W unit) E n gs fs i w s fuel default1 : lookup E n = Some (DUnion fs) -> Forall2 same_variant gs fs -> NoDup (map g_name gs) -> (i < List.length fs)%nat ->
  method fs default1 (run_write fs write_all (write_thrift_field write_all E)) fuel (gen_union_write gs) (VUnion i w) s =
  match write_thrift write_all E (TNamed n) (VUnion i w) s with (s', o) => (s', VUnion i w, o) end.
Proof.
  intros Hl HF Hn Hi. rewrite (gen_union_write_ok write_all E gs fs) by assumption. destruct (nth_error fs i) as [f|] eqn:Hf; [|apply nth_error_None in Hf; lia].
  apply (write_union_code write_all E n fs i w f); [exact Hl| |exact Hf]. rewrite <- (names_same gs fs (fun g f H => proj2 H) HF). exact Hn.
Qed.
Lemma union_name : exists fs gs s,
  lookup parquet_env "BloomFilterHash" = Some (DUnion fs) /\ Forall2 same_variant gs fs /\
  let skip1 := fun ft => skip_field release64 (slice_input release64) 9 ft false in
  let read := run_read fs release64 (slice_input release64) (fill release64 (slice_input release64) parquet_env 9) (fill_field release64 (slice_input release64) parquet_env 9) skip1 in
  snd (method fs (default parquet_env 9) read 9 (gen_union_fill "BloomFilterHash" gs) (VUnion 0 (VStruct [])) s) <>
  snd (method fs (default parquet_env 9) read 9 (union_fill_code fs) (VUnion 0 (VStruct [])) s).
Proof.
  eexists. exists [{| g_id := 1; g_req := DEFAULT; g_name := "XXHASH"; g_type := Named "XxHash" |}], [44; 0; 0].
  split; [reflexivity|]. split; [repeat constructor|]. vm_compute. discriminate.
Qed.
Fixpoint distinct (l : list string) : bool := match l with [] => true | a :: l' => negb (existsb (String.eqb a) l') && distinct l' end.
Lemma distinct_ok l : distinct l = true -> NoDup l.
Proof.
  induction l as [|a l IH]; cbn [distinct]; intros H; [constructor|]. apply andb_true_iff in H as [H1 H2]. constructor; [|exact (IH H2)].
  intros Hin. apply negb_true_iff in H1. assert (existsb (String.eqb a) l = true) by (apply existsb_exists; exists a; split; [exact Hin|apply String.eqb_refl]). congruence.
Qed.
Lemma parquet_field_names : Forall (fun nd => match snd nd with DStruct fs | DUnion fs => NoDup (map f_name fs) | DEnum => True end) parquet_env.
Proof.
  assert (H : forallb (fun nd => match snd nd with DStruct fs | DUnion fs => distinct (map f_name fs) | DEnum => true end) parquet_env = true) by (vm_compute; reflexivity).
  rewrite forallb_forall in H. apply Forall_forall. intros nd Hin. specialize (H nd Hin). destruct (snd nd); try exact Logic.I; exact (distinct_ok _ H).
Qed.
