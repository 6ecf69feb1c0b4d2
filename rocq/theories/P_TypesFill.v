(** Reading: types.rs and encodings.rs:44-61 do what Types.v says. *)
From Verif Require Import Base Uleb Utf8 Protocol Encodings Types RustSyntax RustEval RustProgram RustTypes SpecText SpecTypesText P_Arith P_TextTable P_TextTac P_TypesTable.
Open Scope Z_scope.
Open Scope list_scope.

(** [fill] of the built-in types without the recursion *)
Definition fill_by {S} (c : cfg) (I : input S) (e : reading S) (t : ty) (v : value) (s : S) : S * value * outcome unit :=
  match t with
  | TBool => assign (in_read_byte I) (fun b => VBool (b =? 1)) v s
  | TI8 => assign (in_read_byte I) (fun b => VI8 (wraps 8 b)) v s
  | TI16 => assign (read_i16 c I) VI16 v s
  | TI32 => assign (read_i32 c I) VI32 v s
  | TI64 => assign (read_i64 c I) VI64 v s
  | TDouble => assign (in_read_double I) VDouble v s
  | TBinary => assign (in_read_binary I) VBin v s
  | TString => assign (read_string I) VStr v s
  | TVec _ =>
      match read_collection_len_and_type c I s with
      | (s1, Err e) => (s1, v, Err e)
      | (s1, Panic p) => (s1, v, Panic p)
      | (s1, Ok (len, element_type)) =>
          if negb (element_type =? el_type e) && negb ((el_type e =? 2) && (element_type =? 1)) then (s1, v, Err InvalidType)
          else if negb (reserve c len) then (s1, VVec [], Err ReserveError)
          else match vec_loop (el_default e) (el_fill e) (Z.to_nat len) s1 with (s2, vs, o) => (s2, VVec vs, o) end
      end
  | TOption _ =>
      match v with
      | VSome _ => (s, v, Err DuplicateField)
      | _ => match el_default e with
             | None => (s, v, Panic PStack)
             | Some dv => match el_fill e dv s with (s', v', o) => (s', VSome v', o) end
             end
      end
  | TBox _ => match v with VBox w => match el_fill e w s with (s', w', o) => (s', VBox w', o) end | _ => (s, v, Panic PIllTyped) end
  | TShared _ =>
      match v with
      | VShared true w => match el_fill e w s with (s', w', o) => (s', VShared true w', o) end
      | VShared false _ => (s, v, Err DuplicateField)
      | _ => (s, v, Panic PIllTyped)
      end
  | TEncSet => assign (encset_read c I) VEncSet v s
  | TNamed _ => (s, v, Panic PIllTyped)
  end.

Lemma coll_len {S} c (I : input S) s s1 len et : cfg_ok c -> read_collection_len_and_type c I s = (s1, Ok (len, et)) -> 0 <= len < 2 ^ 32.
Proof.
  intros Hc. unfold read_collection_len_and_type, bind, ret, fail. destruct (in_read_byte I s) as [s0 [h|er|p]]; try discriminate.
  assert (Hr : 0 <= Z.shiftr (Z.land h 240) 4 < 16) by (rewrite Z.shiftr_land; change (Z.shiftr 240 4) with 15; apply land15).
  destruct (negb (Z.shiftr (Z.land h 240) 4 =? 15)).
  - destruct (MAX_COLLECTION_LEN <? _); intros H; inversion H; subst. change (2 ^ 32) with 4294967296. lia.
  - unfold read_len, read_len_with, bind, ret. destruct (decode_uleb c (in_read_byte I) (in_left I) s0) as [s2 [v|er|p]]; try discriminate.
    destruct (Z.ltb_spec MAX_COLLECTION_LEN (wrapu (usize_bits c) v)); intros H'; inversion H'; subst.
    assert (0 <= wrapu (usize_bits c) v) by (apply wrapu_range; destruct Hc as [[->| ->] _]; lia).
    unfold MAX_COLLECTION_LEN in *. change (2 ^ 32) with 4294967296. lia.
Qed.
Lemma usize_of_u32 c len : cfg_ok c -> 0 <= len < 2 ^ 32 -> wrapu (usize_bits c) len = len.
Proof.
  intros Hc H. apply wrapu_id. change (2 ^ 32) with 4294967296 in H. destruct Hc as [[->| ->] _]; [change (2 ^ 32) with 4294967296|change (2 ^ 64) with 18446744073709551616]; lia.
Qed.
Section Fill.
  Context {S : Type}.
  Variable c : cfg.
  Hypothesis Hc : cfg_ok c.
  Variable I : input S.
  Variable own : bool.
  Variable e : reading S.
  Variable w : world value S.
  Hypothesis Hbyte : forall s, w_call w ["."; "read_byte"]%string [RObj] s = method 0 (RInt U8) (in_read_byte I s).
  Hypothesis Hi16 : forall s, w_call w ["."; "read_i16"]%string [RObj] s = method 0 (RInt I16) (read_i16 c I s).
  Hypothesis Hi32 : forall s, w_call w ["."; "read_i32"]%string [RObj] s = method 0 (RInt I32) (read_i32 c I s).
  Hypothesis Hi64 : forall s, w_call w ["."; "read_i64"]%string [RObj] s = method 0 (RInt I64) (read_i64 c I s).
  Hypothesis Hdouble : forall s, w_call w ["."; "read_double"]%string [RObj] s = method 0 RDouble (in_read_double I s).
  Hypothesis Hbinary : forall s, w_call w ["."; "read_binary"]%string [RObj] s = method 0 (RCow own) (in_read_binary I s).
  Hypothesis Hstring : forall s, w_call w ["."; "read_string"]%string [RObj] s = method 0 (RCow own) (read_string I s).
  Hypothesis Hcoll : forall s, w_call w ["read_collection_len_and_type"]%string [RObj] s =
    method 0 (fun r => RTup [RInt U32 (fst r); RInt U8 (snd r)]) (read_collection_len_and_type c I s).
  Hypothesis Htype : forall s, w_call w ["P"; "FIELD_TYPE"]%string [] s = (s, CRet [] (RInt U8 (el_type e))).
  Hypothesis Hself : forall s, w_call w ["Self"; "FIELD_TYPE"]%string [] s = (s, CRet [] (RInt U8 (el_type e))).
  Hypothesis Hbool : forall s, w_call w ["bool"; "FIELD_TYPE"]%string [] s = (s, CRet [] (RInt U8 2)).
  Hypothesis Hint : forall s, w_call w ["i32"; "FIELD_TYPE"]%string [] s = (s, CRet [] (RInt U8 5)).
  Hypothesis Hstr : forall s, w_call w ["String"; "FIELD_TYPE"]%string [] s = (s, CRet [] (RInt U8 8)).
  Hypothesis Hdefault : forall n s, n = ["P"; "default"]%string \/ n = ["Self"; "default"]%string ->
    w_call w n [] s = match el_default e with Some v => (s, CRet [] (RElem v)) | None => (s, CPan PStack) end.
  Hypothesis Hfill : forall n v s, n = ["."; "fill_thrift"]%string \/ n = ["Self"; "fill_thrift"]%string -> w_call w n [RElem v; RObj] s = filled_elem 0 (el_fill e v s).
  Hypothesis Hfield : forall v ft s, w_call w ["."; "fill_thrift_field"]%string [RElem v; RObj; RInt U8 ft] s = filled_elem 1 (el_fill_field e ft v s).

  Definition fills_as (R : rtype) (t : ty) : Prop := forall v rv s, held R v rv ->
    exists f, impl_fn R "fill_thrift" = Some f /\
    let '(s', v', o) := fill_by c I e t v s in
    exists rv', held R v' rv' /\ run_fn c w f [rv; RObj] s = filled 0 rv' (s', o).

  Ltac start R :=
    let v := fresh "v" in let rv := fresh "rv" in let s := fresh "s" in let H := fresh "H" in
    intros v rv s H; inversion H; subst; eexists; (split; [rewrite impl_fn_eq; vm_compute; reflexivity|]);
    cbn [fill_by]; unfold run_fn; text.

  Ltac scalar H m := rewrite H; unfold assign; destruct m as [s1 [a|er|p]]; text; eexists; (split; [constructor|]); reflexivity.
  Lemma bool_fill_text : fills_as (YApp "bool" []) TBool.
  Proof using Hbyte. start tt. scalar Hbyte (in_read_byte I s). Qed.
  Lemma i8_fill_text : fills_as (YInt I8) TI8.
  Proof using Hbyte. start tt. scalar Hbyte (in_read_byte I s). Qed.
  Lemma i16_fill_text : fills_as (YInt I16) TI16.
  Proof using Hi16. start tt. scalar Hi16 (read_i16 c I s). Qed.
  Lemma i32_fill_text : fills_as (YInt I32) TI32.
  Proof using Hi32. start tt. scalar Hi32 (read_i32 c I s). Qed.
  Lemma i64_fill_text : fills_as (YInt I64) TI64.
  Proof using Hi64. start tt. scalar Hi64 (read_i64 c I s). Qed.
  Lemma double_fill_text : fills_as (YApp "f64" []) TDouble.
  Proof using Hdouble. start tt. scalar Hdouble (in_read_double I s). Qed.
  Lemma bytes_fill_text : fills_as (YApp "Vec" [YInt U8]) TBinary.
  Proof using Hbinary. start tt. scalar Hbinary (in_read_binary I s). Qed.
  Lemma string_fill_text : fills_as (YApp "String" []) TString.
  Proof using Hstring. start tt. scalar Hstring (read_string I s). Qed.
  Lemma cow_bytes_fill_text : fills_as (cow (YSlice (YInt U8))) TBinary.
  Proof using Hbinary. start tt. scalar Hbinary (in_read_binary I s). Unshelve. exact true. Qed.
  Lemma cow_str_fill_text : fills_as (cow (YApp "str" [])) TString.
  Proof using Hstring. start tt. scalar Hstring (read_string I s). Unshelve. exact true. Qed.
  Lemma box_str_fill_text : fills_as (ystr "Box") TString.
  Proof using Hstring. start tt. scalar Hstring (read_string I s). Qed.
  Ltac from_cow := rewrite Hstring; unfold assign; destruct (read_string I _) as [s1 [a|er|p]]; text; try (eexists; (split; [constructor|]); reflexivity);
    eexists; (split; [constructor|]); case own; text; reflexivity.
  Lemma rc_str_fill_text : fills_as (ystr "Rc") TString.
  Proof using Hstring. start tt. from_cow. Qed.
  Lemma arc_str_fill_text : fills_as (ystr "Arc") TString.
  Proof using Hstring. start tt. from_cow. Qed.
  Ltac after_fill := match goal with |- context [el_fill e ?v ?s] => destruct (el_fill e v s) as [[s1 v1] [[]|er|p]] end; text; eexists; (split; [constructor|]); reflexivity.
  Lemma box_fill_text t : fills_as (ypar "Box") (TBox t).
  Proof using Hfill. start tt. rewrite (Hfill _ _ _ (or_introl eq_refl)). unfold filled_elem, filled. after_fill. Qed.
  Lemma rc_fill_text t : fills_as (ypar "Rc") (TShared t).
  Proof using Hfill.
    start tt. destruct u; text; [|eexists; (split; [constructor|]); reflexivity].
    unfold method_at. rewrite (Hfill _ _ _ (or_introl eq_refl)). unfold filled_elem, filled. after_fill.
  Qed.
  Lemma arc_fill_text t : fills_as (ypar "Arc") (TShared t).
  Proof using Hfill.
    start tt. destruct u; text; [|eexists; (split; [constructor|]); reflexivity].
    unfold method_at. rewrite (Hfill _ _ _ (or_introl eq_refl)). unfold filled_elem, filled. after_fill.
  Qed.
  Lemma option_fill_text t : fills_as (ypar "Option") (TOption t).
  Proof using Hfill Hdefault.
    start tt.
    - rewrite (Hdefault _ _ (or_introl eq_refl)). destruct (el_default e) as [dv|]; text; [|eexists; (split; [constructor|]); reflexivity].
      rewrite (Hfill _ _ _ (or_introl eq_refl)). unfold filled_elem, filled. after_fill.
    - eexists; (split; [constructor|]); reflexivity.
  Qed.
  Ltac hide_for B EB := match goal with |- context [XFor _ _ ?b] => remember b as B eqn:EB end.
  Ltac start_for B EB :=
    let v := fresh "v" in let rv := fresh "rv" in let s := fresh "s" in let H := fresh "H" in
    intros v rv s H; inversion H; subst; eexists; (split; [rewrite impl_fn_eq; vm_compute; reflexivity|]);
    cbn [fill_by]; unfold run_fn; cbn [fn_body fn_params fn_ret]; hide_for B EB; text.
  Lemma vec_fill_text t : fills_as (ypar "Vec") (TVec t).
  Proof using Hc Hfill Hdefault Hcoll Htype Hbool.
    start_for B EB.
    rewrite Hcoll. destruct (read_collection_len_and_type c I s) as [s1 [[len et]|er|p]] eqn:El; text; try (eexists; (split; [constructor|]); reflexivity).
    apply (coll_len c I s s1 len et Hc) in El. rewrite Htype. text.
    assert (L : forall n i vs r0 r1 s, 
      let r vs := [("element_type"%string, r0); ("len"%string, r1); ("self"%string, RList (map RElem vs)); ("input"%string, RObj)] in
      match vec_loop (el_default e) (el_fill e) n s with
      | (s', vs', Ok _) => count_up n Usize i (fun v => with_pat PAny v (eval c w B)) (r vs) s = (s', r (vs ++ vs'), Val RUnit)
      | (s', vs', Err er) => count_up n Usize i (fun v => with_pat PAny v (eval c w B)) (r vs) s = (s', r (vs ++ vs'), Rtn (RErr (RError er)))
      | (s', vs', Panic p) => exists r', count_up n Usize i (fun v => with_pat PAny v (eval c w B)) (r vs) s = (s', r', Pan p)
      end).
    { clear - Hdefault Hfill EB. induction n as [|n IH]; intros i vs r0 r1 s r.
      - cbn [vec_loop count_up]. rewrite app_nil_r. reflexivity.
      - cbn [vec_loop count_up]. subst r.
        assert (Hbody : forall x, with_pat PAny x (eval c w B) [("element_type"%string, r0); ("len"%string, r1); ("self"%string, RList (map RElem vs)); ("input"%string, RObj)] s =
          match el_default e with
          | None => (s, [("element_type"%string, r0); ("len"%string, r1); ("self"%string, RList (map RElem vs)); ("input"%string, RObj)], Pan PStack)
          | Some dv =>
              match el_fill e dv s with
              | (s', v', Ok _) => (s', [("element_type"%string, r0); ("len"%string, r1); ("self"%string, RList (map RElem (vs ++ [v']))); ("input"%string, RObj)], Val RUnit)
              | (s', v', Err er) => (s', [("element_type"%string, r0); ("len"%string, r1); ("self"%string, RList (map RElem (vs ++ [v']))); ("input"%string, RObj)], Rtn (RErr (RError er)))
              | (s', v', Panic p) => (s', [("element_type"%string, r0); ("len"%string, r1); ("self"%string, RList (map RElem (vs ++ [dv]))); ("input"%string, RObj)], Pan p)
              end
          end).
        { intros x. rewrite EB. unfold with_pat. text. change (Z.to_nat (1 - 0)) with 1%nat. cbn [collect]. text.
          rewrite (Hdefault _ _ (or_introl eq_refl)). destruct (el_default e) as [dv|]; text; [|reflexivity].
          rewrite rev_unit. text. rewrite (Hfill _ _ _ (or_introl eq_refl)). unfold filled_elem, filled.
          destruct (el_fill e dv s) as [[s1 v1] [[]|er|p]]; text; rewrite ?removelast_last, ?map_app; reflexivity. }
        destruct (el_default e) as [dv|]; [|unfold bindE; rewrite Hbody; eexists; reflexivity].
        destruct (el_fill e dv s) as [[s1 v1] [[]|er|p]]; [|unfold bindE; rewrite Hbody; reflexivity|unfold bindE; rewrite Hbody; eexists; reflexivity].
        specialize (IH (i + 1) (vs ++ [v1]) r0 r1 s1). cbv zeta in IH.
        destruct (vec_loop (Some dv) (el_fill e) n s1) as [[s2 vs2] [[]|er|p]]; rewrite <- ?app_assoc in IH; unfold bindE; rewrite Hbody; exact IH. }
    destruct (et =? el_type e) eqn:E1; text.
    2: rewrite Htype; text; rewrite Hbool; text; destruct (el_type e =? 2) eqn:E2; text; [destruct (et =? 1) eqn:E3; text|].
    all: try (eexists; (split; [constructor|]); reflexivity).
    all: rewrite (usize_of_u32 c len Hc El).
    all: destruct (reserve c len); text; [|eexists; (split; [apply (held_vec [])|]); reflexivity].
    all: rewrite ?(usize_of_u32 c len Hc El); rewrite Z.sub_0_r; specialize (L (Z.to_nat len) 0 [] (RInt U8 et) (RInt U32 len) s1); cbv zeta in L; cbn [map] in L.
    all: unfold stop_loop; destruct (vec_loop (el_default e) (el_fill e) (Z.to_nat len) s1) as [[s2 vs2] [[]|er|p]]; [rewrite L|rewrite L|destruct L as [r' L]; rewrite L]; text; eexists; (split; [constructor|reflexivity]).
  Qed.

  Lemma encset_fill_text : fills_as (YApp "EncodingSet" []) TEncSet.
  Proof using Hc Hi32 Hcoll Hint.
    start_for B EB. unfold assign, encset_read, bind. rewrite Hcoll.
    destruct (read_collection_len_and_type c I s) as [s1 [[len et]|er|p]] eqn:El; text; try (eexists; (split; [constructor|]); reflexivity).
    apply (coll_len c I s s1 len et Hc) in El. rewrite Hint. text. destruct (et =? 5); text; [|eexists; (split; [constructor|]); reflexivity].
    rewrite (usize_of_u32 c len Hc El), Z.sub_0_r.
    assert (L : forall n i k s,
      let r := [("element_type"%string, RInt U8 et); ("len"%string, RInt U32 len); ("self"%string, RTup [RInt U32 m]); ("input"%string, RObj)] in
      match encset_read_loop c I n k s with
      | (s', Ok k') => count_up n Usize i (fun v => with_pat PAny v (eval c w B)) (("mask"%string, RInt U32 k) :: r) s = (s', ("mask"%string, RInt U32 k') :: r, Val RUnit)
      | (s', Err er) => exists k', count_up n Usize i (fun v => with_pat PAny v (eval c w B)) (("mask"%string, RInt U32 k) :: r) s = (s', ("mask"%string, RInt U32 k') :: r, Rtn (RErr (RError er)))
      | (s', Panic p) => exists r', count_up n Usize i (fun v => with_pat PAny v (eval c w B)) (("mask"%string, RInt U32 k) :: r) s = (s', r', Pan p)
      end).
    { clear - Hi32 EB. induction n as [|n IH]; intros i k s r; cbn [encset_read_loop count_up]; [reflexivity|].
      subst r. unfold bind.
      assert (Hbody : forall x, with_pat PAny x (eval c w B) [("mask"%string, RInt U32 k); ("element_type"%string, RInt U8 et); ("len"%string, RInt U32 len); ("self"%string, RTup [RInt U32 m]); ("input"%string, RObj)] s =
        match read_i32 c I s with
        | (s', Ok z) =>
            if (z <? 0) || (31 <=? z) then (s', [("mask"%string, RInt U32 k); ("element_type"%string, RInt U8 et); ("len"%string, RInt U32 len); ("self"%string, RTup [RInt U32 m]); ("input"%string, RObj)], Rtn (RErr (RError InvalidNumber)))
            else (s', [("mask"%string, RInt U32 (Z.lor k (wrapu 32 (Z.shiftl 1 z)))); ("element_type"%string, RInt U8 et); ("len"%string, RInt U32 len); ("self"%string, RTup [RInt U32 m]); ("input"%string, RObj)], Val RUnit)
        | (s', Err er) => (s', [("mask"%string, RInt U32 k); ("element_type"%string, RInt U8 et); ("len"%string, RInt U32 len); ("self"%string, RTup [RInt U32 m]); ("input"%string, RObj)], Rtn (RErr (RError er)))
        | (s', Panic p) => (s', [("mask"%string, RInt U32 k); ("element_type"%string, RInt U8 et); ("len"%string, RInt U32 len); ("self"%string, RTup [RInt U32 m]); ("input"%string, RObj)], Pan p)
        end).
      { intros x. rewrite EB. unfold with_pat. text. rewrite Hi32. destruct (read_i32 c I s) as [s1 [z|er|p]]; text; try reflexivity.
        destruct (Z.ltb_spec z 0) as [Hz|Hz]; text; [reflexivity|]. destruct (Z.leb_spec 31 z) as [Hz'|Hz']; text; [reflexivity|].
        replace ((0 <=? z) && (z <? 31)) with true by (symmetry; apply andb_true_iff; split; [apply Z.leb_le|apply Z.ltb_lt]; lia). text.
        assert (Hw : 0 <= Z.shiftl 1 z <= 4294967295).
        { rewrite Z.shiftl_mul_pow2, Z.mul_1_l by exact Hz. split; [apply Z.pow_nonneg; discriminate|]. transitivity (2 ^ 30); [apply Z.pow_le_mono_r; [reflexivity|]|discriminate].
          apply Z.lt_succ_r. exact Hz'. }
        replace (within 0 (Z.shiftl 1 z) 4294967295) with true.
        2:{ unfold within. destruct Hw as [Hw1 Hw2]. unfold Z.le in Hw1, Hw2. destruct (0 ?= Z.shiftl 1 z); [destruct (Z.shiftl 1 z ?= 4294967295); congruence| |congruence].
            destruct (Z.shiftl 1 z ?= 4294967295); congruence. }
        text. rewrite (wrapu_id 32); [reflexivity|]. change (2 ^ 32) with 4294967296. destruct Hw; split; [assumption|apply Z.le_lt_trans with 4294967295; [assumption|reflexivity]]. }
      destruct (read_i32 c I s) as [s1 [z|er|p]] eqn:Er.
      2: exists k; unfold bindE; rewrite Hbody; reflexivity.
      2: eexists; unfold bindE; rewrite Hbody; reflexivity.
      destruct ((z <? 0) || (31 <=? z)) eqn:Ez; unfold fail, ret.
      + exists k; unfold bindE; rewrite Hbody; reflexivity.
      + specialize (IH (i + 1) (Z.lor k (wrapu 32 (Z.shiftl 1 z))) s1). cbv zeta in IH.
        destruct (encset_read_loop c I n (Z.lor k (wrapu 32 (Z.shiftl 1 z))) s1) as [s2 [k2|er|p]]; unfold bindE; rewrite Hbody; exact IH. }
    specialize (L (Z.to_nat len) 0 0 s1). cbv zeta in L. unfold stop_loop.
    destruct (encset_read_loop c I (Z.to_nat len) 0 s1) as [s2 [k2|er|p]]; [rewrite L|destruct L as [k' L]; rewrite L|destruct L as [r' L]; rewrite L]; text; eexists; (split; [constructor|reflexivity]).
  Qed.

  (** ** Fields *)
  Definition fills_field_as (R : rtype) (g : Z -> value -> S -> S * value * outcome unit) : Prop := forall v rv ft s, held R v rv ->
    exists f, impl_fn R "fill_thrift_field" = Some f /\
    let '(s', v', o) := g ft v s in
    exists rv', held R v' rv' /\ run_fn c w f [rv; RObj; RInt U8 ft] s = filled 1 rv' (s', o).
  Ltac start_field :=
    let v := fresh "v" in let rv := fresh "rv" in let ft := fresh "ft" in let s := fresh "s" in let H := fresh "H" in
    intros v rv ft s H; inversion H; subst; eexists; (split; [rewrite impl_fn_eq; vm_compute; reflexivity|]); unfold run_fn; text.
  Lemma bool_field_text : fills_field_as (YApp "bool" []) (fun ft v s => (s, VBool (ft =? 1), Ok tt)).
  Proof using Type. start_field. eexists. split; [constructor|reflexivity]. Qed.
  Lemma option_field_text : fills_field_as (ypar "Option") (fun ft v s =>
    match v with
    | VSome _ => (s, v, Err DuplicateField)
    | _ => match el_default e with
           | None => (s, v, Panic PStack)
           | Some dv => match el_fill_field e ft dv s with (s', v', o) => (s', VSome v', o) end
           end
    end).
  Proof using Hfield Hdefault.
    start_field.
    - rewrite (Hdefault _ _ (or_introl eq_refl)). destruct (el_default e) as [dv|]; text; [|eexists; (split; [constructor|]); reflexivity].
      rewrite Hfield. unfold filled_elem, filled. destruct (el_fill_field e ft dv s) as [[s1 v1] [[]|er|p]]; text; eexists; (split; [constructor|]); reflexivity.
    - eexists; (split; [constructor|]); reflexivity.
  Qed.
  Lemma default_field_text : exists f, default_fn "fill_thrift_field" = Some f /\
    forall v ft s, run_fn c w f [RElem v; RObj; RInt U8 ft] s = filled_elem 1 (if negb (ft =? el_type e) then (s, v, Err InvalidType) else el_fill e v s).
  Proof using Hself Hfill.
    eexists. split; [rewrite default_eq; vm_compute; reflexivity|]. intros v ft s. unfold run_fn. text. rewrite Hself. text.
    destruct (ft =? el_type e); text; [|reflexivity]. rewrite (Hfill _ _ _ (or_introl eq_refl)). unfold filled_elem, filled.
    destruct (el_fill e v s) as [[s1 v1] [[]|er|p]]; text; reflexivity.
  Qed.
  Lemma default_read_text : exists f, default_fn "read_thrift" = Some f /\
    forall s, run_fn c w f [RObj] s = method 0 RElem
      (match el_default e with
       | None => (s, Panic PStack)
       | Some dv => match el_fill e dv s with (s', v, Ok _) => (s', Ok v) | (s', _, Err er) => (s', Err er) | (s', _, Panic p) => (s', Panic p) end
       end).
  Proof using Hdefault Hfill.
    eexists. split; [rewrite default_eq; vm_compute; reflexivity|]. intros s. unfold run_fn. text. rewrite (Hdefault _ _ (or_intror eq_refl)).
    destruct (el_default e) as [dv|]; text; [|reflexivity]. rewrite (Hfill _ _ _ (or_intror eq_refl)). unfold filled_elem, filled.
    destruct (el_fill e dv s) as [[s1 v1] [[]|er|p]]; text; reflexivity.
  Qed.
  (** ** [FIELD_TYPE] *)
  Lemma const_text E t' : el_type e = field_type E t' -> forall R T, In (R, T) impl_types ->
    exists f, impl_const R = Some f /\ forall s, run_fn c w f [] s = (s, CRet [] (RInt U8 (field_type E (T t')))).
  Proof using Htype Hstr.
    intros He R T Hin. unfold impl_types in Hin.
    repeat (destruct Hin as [Hin|Hin]; [injection Hin as <- <-; eexists; (split; [rewrite impl_const_eq; vm_compute; reflexivity|]);
      intros s; unfold run_fn; text; rewrite ?Htype, ?Hstr; text; rewrite ?He; reflexivity|]).
    destruct Hin.
  Qed.
End Fill.
