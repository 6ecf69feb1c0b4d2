(** The items that thrift_union!, thrift_enum! and thrift! expand to *)
From Coq Require Import Ascii.
From Verif Require Import Base ErrorName Types Macro RustLex RustMacro MacroRules SpecRust P_RustMacro RustCode SpecExpand P_Expand P_ExpandItems.
Open Scope Z_scope.
Open Scope list_scope.

(** * Unions *)
Definition found_variant (v : fview) : list found :=
  [Reps (found_attrs (v_at v)); Got (v_id v); Skip; Got [name (v_t v)]; Reps (found_elem (v_e v)); Got [name (v_n v)]; Reps (v_s v)].
Lemma view_variant k x mf t : Forall2 shaped p_variant x -> variant_of x = Some mf -> declared_type (m_type mf) (m_elem mf) = Some t -> plain (m_name mf) ->
  exists v, x = found_variant v /\ fits k v {| f_id := m_id mf; f_req := true; f_ty := t; f_name := m_name mf |}.
Proof.
  intros H Hf Ht Hp. uncons H x1 l1 H1 K1. uncons K1 x2 l2 H2 K2. uncons K2 x3 l3 H3 K3. uncons K3 x5 l5 H5 K5. uncons K5 x6 l6 H6 K6. uncons K6 x7 l7 H7 K7.
  uncons K7 x9 l9 H9 K9. inversion K9; subst. clear K9.
  destruct (attrs_shape _ H1) as (gss & ->). destruct (literal_shape _ H2) as (i & -> & Hi). inversion H3; subst. destruct (ident_shape _ H5) as (ft & -> & _).
  destruct (elem_shape _ H6) as (e & -> & He). destruct (ident_shape _ H7) as (m & -> & Hm). inversion H9 as [| | |opt ps s _ _]; subst.
  unfold variant_of in Hf. destruct (literal_int 16 i) as [z|] eqn:Ez; [|discriminate]. apply literal_int_ok in Ez as (Hz & Hz2); [|exact Hi].
  change (name_of (Got [name ft])) with (Some ft) in Hf. cbv beta iota in Hf.
  destruct (new_name (Got [name m])) as [m'|] eqn:Em; [|discriminate]. apply new_name_ok in Em as (-> & _). injection Hf as <-.
  cbn [m_req m_type m_elem m_id m_name] in *.
  assert (Ee : elem_of (found_elem e) = e) by (destruct e; reflexivity). rewrite Ee in Ht. destruct (type_call k ft e t He Ht) as (ts & Ec & Hts).
  exists {| v_at := gss; v_id := i; v_b := true; v_t := ft; v_e := e; v_n := m; v_d := []; v_s := s; v_ty := ts |}. split; [reflexivity|]. constructor; cbn; assumption || reflexivity.
Qed.
Lemma view_variants k : forall xs mfs fs, Forall (Forall2 shaped p_variant) xs -> all_of variant_of xs = Some mfs -> expand_fields true mfs = Some fs -> Forall (fun f => plain (f_name f)) fs ->
  exists vs, xs = map found_variant vs /\ Forall2 (fits k) vs fs.
Proof.
  induction xs as [|x xs IH]; intros mfs fs H E Ex Hp; cbn [all_of] in E.
  - injection E as <-. injection Ex as <-. exists []. split; [reflexivity|constructor].
  - inversion H as [|? ? Hx Hxs]; subst. destruct (variant_of x) as [mf|] eqn:Ef; [|discriminate]. destruct (all_of variant_of xs) as [mfs'|]; [|discriminate]. injection E as <-.
    cbn [expand_fields] in Ex. destruct (declared_type _ _) as [t|] eqn:Et; [|discriminate].
    destruct (expand_fields true mfs') as [fs'|] eqn:Ex'; [|discriminate]. injection Ex as <-.
    inversion Hp as [|? ? Hp1 Hp2]; subst.
    destruct (view_variant k x mf t Hx Ef Et Hp1) as (v & -> & Hv). destruct (IH mfs' fs' Hxs eq_refl Ex' Hp2) as (vs & -> & Hvs). exists (v :: vs). split; [reflexivity|constructor; assumption].
Qed.
Definition first_text (n : string) : list tree := code "Self ::" ++ [name n] ++ parens (code "Default :: default" ++ parens []).
Definition named_list (ns : list string) : list tree := List.concat (map (fun n => [name n; sign ";"]) ns).
Lemma default_call k n ns : Forall (fun m => m <> "_"%string) (n :: ns) -> expansion macros (S k) "__thrift_union_default" (named_list (n :: ns)) = Some (first_text n).
Proof.
  intros H. inversion H as [|? ? Hn Hns]; subst. rewrite (expands k "__thrift_union_default" _ _ eq_refl), by_eq. cbn [map erase named_list List.concat app].
  fold (named_list ns).
  destruct (repeated_complete (any_of begins is_rep [Var Ident; Tk (LPunct ";")]) (in_order matches [Var Ident; Tk (LPunct ";")])
    (fun (m : string) u => u = [name m; sign ";"] /\ m <> "_"%string) (fun _ _ => True) (fun _ => True)) with (l := ns) (u := named_list ns) (r := [] : list tree) (n := List.length (named_list ns)) as (xs & E & _).
  - intros m u r (-> & Hm) _. cbn [app]. rewrite in_cons, (ident_complete m _ Hm), in_cons. unfold sign. rewrite tk_complete. rewrite in_nil. eexists. split; [reflexivity|exact I].
  - auto.
  - intros m u (-> & Hm). eexists. eexists. split; [reflexivity|]. cbn [any_of begins may_start name is_rep]. destruct (String.eqb_spec m "_"); [contradiction|reflexivity].
  - clear H. induction Hns as [|m ns Hm _ IH]; [constructor|]. unfold named_list. cbn [map List.concat]. constructor; [auto|exact IH].
  - exact I.
  - exact I.
  - apply Nat.le_refl.
  - rewrite app_nil_r in E.
    assert (M : match_all [Var Ident; Tk (LPunct ";"); Rep false [Var Ident; Tk (LPunct ";")]] (name n :: sign ";" :: named_list ns) = Some [Got [name n]; Skip; Reps xs]).
    { unfold match_all. rewrite in_cons, (ident_complete n _ Hn), in_cons. unfold sign at 1. rewrite tk_complete, in_cons, rep_eq. cbv iota. rewrite E. reflexivity. }
    rewrite M. cbn [collect_all collect app]. match goal with |- transcription ?c ?env ?x = Some ?o => change (tr c env x o) end. eapply tr_eq; [go|]. unfold first_text. flat. reflexivity.
Qed.

Definition u_case (v : fview) : list tree := at_text v ++ [name (v_n v)] ++ parens (v_ty v).
Definition u_arm (v : fview) : list tree :=
  v_id v ++ code "=>" ++
  braces (code "* self = Self ::" ++ [name (v_n v)] ++ parens (code "Default :: default" ++ parens []) ++ code ";" ++
    attributes_text [listed "allow" "unreachable_patterns"] ++ code "match self" ++
    braces (code "Self ::" ++ [name (v_n v)] ++ parens (code "inner'") ++ code "=>" ++ code "inner' . fill_thrift" ++ parens (code "input'") ++ code "?" ++ code "," ++
      code "_ => unsafe" ++ braces (code "std :: hint :: unreachable_unchecked" ++ parens []) ++ code ",")).
Definition u_write (v : fview) : list tree :=
  code "Self ::" ++ [name (v_n v)] ++ parens (code "inner'") ++ code "=>" ++ code "inner' . write_thrift_field" ++ parens (code "output' ," ++ v_id v ++ code ", & mut last_field_id'") ++ code "?".
Definition union_text (gs : list (list tree)) (n : string) (w : string) (vs : list fview) : list tree :=
  attributes_text (map guarded gs ++ [listed "derive" "Clone , Debug , PartialEq"; no_camel; no_snake]) ++ code "pub enum" ++ [name n] ++
  braces (separated (Some (LPunct ",")) (map u_case vs)) ++
  code "impl Default for" ++ [name n] ++ braces (code "fn default" ++ parens [] ++ code "-> Self" ++ braces (first_text w)) ++
  attributes_text [no_snake] ++ code "impl < 'i > $ crate :: CompactThriftProtocol < 'i > for" ++ [name n] ++
  braces
    (code "const FIELD_TYPE : u8 = 12 ;" ++ attributes_text [listed "inline" "never"] ++
     code "fn fill_thrift < T : $ crate :: CompactThriftInput < 'i >>" ++ parens (code "& mut self , input' : & mut T") ++ result_type ++
     braces
       (code "let mut last_field_id' =" ++ [lit (text "0_i16")] ++ code ";" ++
        code "let field_type' = input' . read_field_header" ++ parens (code "& mut last_field_id'") ++ code "? ;" ++
        code "if field_type' == 0" ++ braces (code "return Err" ++ parens (code "$ crate :: ThriftError :: InvalidType") ++ code ";") ++
        code "match last_field_id'" ++
        braces (separated (Some (LPunct ",")) (map u_arm vs) ++ code "_ =>" ++
          braces (code "return Err" ++ parens (code "$ crate :: ThriftError :: MissingField" ++ parens (lit ([34] ++ text "$struct_name" ++ text "\0" ++ [34]) :: code ". into" ++ parens [])))) ++
        code "let stop' = input' . read_byte" ++ parens [] ++ code "? ;" ++
        code "if stop' != 0" ++ braces (code "return Err" ++ parens (code "$ crate :: ThriftError :: MissingStop")) ++
        code "Ok" ++ parens (parens [])) ++
     code "fn write_thrift < T : $ crate :: CompactThriftOutput >" ++ parens (code "& self , output' : & mut T") ++ result_type ++
     braces
       (code "let mut last_field_id' =" ++ [lit (text "0_i16")] ++ code ";" ++
        code "match self" ++ braces (separated (Some (LPunct ",")) (map u_write vs)) ++
        code "output' . write_byte" ++ parens (code "0") ++ code "? ;" ++ code "Ok" ++ parens (parens []))).
Definition union_pats := Eval vm_compute in match rules_of macros "thrift_union" with Some [(p, _)] => p | _ => [] end.
Definition union_template := Eval vm_compute in match rules_of macros "thrift_union" with Some [(_, x)] => x | _ => [] end.
Definition variant_pats := Eval vm_compute in match union_pats with [_; _; _; NGrp _ [NRep _ p]] => p | _ => [] end.
Definition variant_env (v : fview) : list entry := collect_all collect variant_pats (found_variant v).
Ltac rounds g vs := eapply (tr_rep variant_env g) with (l := vs); [reflexivity| |].
Lemma union_out k gs gss n v vs fs : Forall2 (fits k) (v :: vs) fs -> map (@List.concat tree) gss = gs ->
  tr (expansion macros (S (S k))) (collect_all collect union_pats [Reps (found_attrs gss); Skip; Got [name n]; Sub [Reps (map found_variant (v :: vs))]]) union_template
    (union_text gs n (v_n v) (v :: vs)).
Proof.
  intros Hv <-.
  assert (Hd : Forall (fun m => m <> "_"%string) (map v_n (v :: vs))).
  { clear -Hv. induction Hv as [|w f ws fs H _ IH]; cbn [map]; constructor; [exact (ft_new _ _ _ H)|exact IH]. }
  assert (Ef : first_text (v_n v) = first_text (hd ""%string (map v_n (v :: vs)))) by reflexivity.
  assert (Hc : exists m ms, map v_n (v :: vs) = m :: ms) by (eexists; eexists; reflexivity).
  set (w := v_n v) in *. clearbody w. remember (v :: vs) as ws eqn:Ews. clear v vs Ews. rename ws into vs.
  assert (Env : collect_all collect union_pats [Reps (found_attrs gss); Skip; Got [name n]; Sub [Reps (map found_variant vs)]] =
    [attr_env "def_attrs" gss; EOne "identifier" [name n]; EReps (flat_map variables variant_pats) (map variant_env vs)]).
  { unfold union_pats. unfold collect_all at 1. rewrite (collect_attrs "def_attrs" gss). cbn [app]. unfold variant_env. rewrite <- (map_map found_variant (collect_all collect variant_pats)). reflexivity. }
  rewrite Env. clear Env. set (env := [_; _; _]).
  assert (All : forall G g, (forall v f, fits k v f -> tr (expansion macros (S (S k))) (variant_env v ++ env) g (G v)) -> Forall (fun v => tr (expansion macros (S (S k))) (variant_env v ++ env) g (G v)) vs).
  { intros G g HG. clearbody env. clear -Hv HG. induction Hv as [|v f vs fs H _ IH]; constructor; [exact (HG v f H)|exact IH]. }
  unfold union_template. eapply tr_eq.
  - apply guarded_out; [reflexivity|]. go.
    + rounds u_case vs; [|apply tr_nil]. apply All. intros v f H. eapply tr_eq.
      * apply guarded_out with (gss := v_at v); [rewrite <- attr_rounds; reflexivity|]; go. apply type_out with (t := v_t v) (e := v_e v) (ts := v_ty v); [reflexivity| |exact (ft_call _ _ _ H)|apply tr_nil].
        rewrite <- elem_rounds. reflexivity.
      * unfold u_case, at_text. flat. rewrite app_nil_r. reflexivity.
    + eapply tr_call; [| |apply tr_nil].
      * eapply tr_eq; [rounds (fun v : fview => [name (v_n v); sign ";"]) vs; [|apply tr_nil]; apply All; intros v f H; eapply tr_eq; [go|reflexivity]|].
        rewrite app_nil_r, separated_none. rewrite <- (map_map v_n (fun m => [name m; sign ";"])). reflexivity.
      * destruct Hc as (m & ms & Em). instantiate (1 := first_text w). fold (named_list (map v_n vs)).
        rewrite Ef. rewrite Em in *. apply default_call. exact Hd.
    + rounds u_arm vs; [|go].
      * apply All. intros v f H. eapply tr_eq; [go|]. unfold u_arm, listed, attributes_text. cbn [flat_map]. flat. reflexivity.
      * eapply tr_concat; [go|reflexivity|go].
    + rounds u_write vs; [|go]. apply All. intros v f H. eapply tr_eq; [go|]. unfold u_write. flat. reflexivity.
  - unfold union_text. unfold attributes_text. rewrite !flat_map_app. unfold no_camel, no_snake, listed, result_type. cbn [flat_map]. flat. rewrite ?app_nil_r. reflexivity.
Qed.
Lemma union_typed_fits k vs fs : Forall2 (fits k) vs fs -> Forall2 (fun v a => exists f, fits k v f /\ a = (f_name f, f_ty f)) vs (union_typed fs).
Proof. induction 1 as [|v f vs fs H _ IH]; cbn [union_typed map]; constructor; [exists f; auto|exact IH]. Qed.
Lemma cases_ok k vs fs : Forall2 (fits k) vs fs -> cases_read (union_typed fs) (separated (Some (LPunct ",")) (map u_case vs)).
Proof.
  intros H. apply (separated_read cases_read u_case _) with (3 := union_typed_fits k vs fs H); [constructor|]. intros v a sep l r (f & Hf & ->) Hs Hl. rewrite (ft_name _ _ _ Hf).
  pose proof (Cs_cons (map guarded (map (@List.concat tree) (v_at v))) (v_n v) (f_ty f) (v_ty v) sep l r (ft_type _ _ _ Hf) Hs Hl) as K.
  unfold u_case, at_text. rewrite <- !app_assoc. exact K.
Qed.
Lemma union_arms_ok k vs fs : Forall2 (fits k) vs fs ->
  arms_read (map (fun f => (f_id f, [SetVariant (f_name f); MatchSelf [(f_name f, FillInner)] true])) fs) (separated (Some (LPunct ",")) (map u_arm vs)).
Proof.
  induction 1 as [|v f vs fs H _ IH]; [constructor|]. cbn [map]. destruct (separated_cons "," (u_arm v) (map u_arm vs)) as (sep & -> & Hs & _).
  assert (B : exists ts, u_arm v = v_id v ++ code "=>" ++ braces ts /\ block_reads [SetVariant (f_name f); MatchSelf [(f_name f, FillInner)] true] ts).
  { eexists. split; [reflexivity|]. rewrite (ft_name _ _ _ H). eapply block_eq.
    - eapply (B_cons _ _ [_]); [apply T_variant|]. apply (B_allow (parens (code "unreachable_patterns"))). apply block_one. apply T_match_rest.
      eapply (V_cons _ _ _ (code ",") [] []); [apply K_fill_inner|left; reflexivity|constructor].
    - flat. reflexivity. }
  destruct B as (ts & -> & B). destruct Hs as [->|(-> & _)].
  - pose proof (A_cons _ _ _ _ true _ _ (ft_id _ _ _ H) (ft_range _ _ _ H) B IH) as K. rewrite <- !app_assoc in *. exact K.
  - pose proof (A_cons _ _ _ _ false _ _ (ft_id _ _ _ H) (ft_range _ _ _ H) B IH) as K. rewrite <- !app_assoc in *. exact K.
Qed.
Lemma write_fits k vs fs : Forall2 (fits k) vs fs -> Forall2 (fun v a => exists f, fits k v f /\ a = (f_name f, WriteInner (f_id f) last_field_id)) vs (map (fun f => (f_name f, WriteInner (f_id f) last_field_id)) fs).
Proof. induction 1 as [|v f vs fs H _ IH]; cbn [map]; constructor; [exists f; auto|exact IH]. Qed.
Lemma union_writes_ok k vs fs : Forall2 (fits k) vs fs -> variants_read (map (fun f => (f_name f, WriteInner (f_id f) last_field_id)) fs) (separated (Some (LPunct ",")) (map u_write vs)).
Proof.
  intros H. apply (separated_read variants_read u_write _) with (3 := write_fits k vs fs H); [constructor|]. intros v a sep l r (f & Hf & ->) Hs Hl. rewrite (ft_name _ _ _ Hf).
  pose proof (V_cons (v_n v) _ _ sep l r (K_write_inner (f_id f) (v_id v) last_field_id (own_proper _) (ft_id _ _ _ Hf) (ft_range _ _ _ Hf)) Hs Hl) as K.
  unfold u_write. rewrite <- !app_assoc in *. exact K.
Qed.
Lemma union_reads k gs n v vs f fs : Forall2 (fits k) (v :: vs) (f :: fs) -> items_read (union_items gs n f fs) (union_text gs n (v_n v) (v :: vs)).
Proof.
  intros H. unfold union_items. assert (Ev : v_n v = f_name f) by (inversion H as [|? ? ? ? Hv _]; subst; symmetry; exact (ft_name _ _ _ Hv)). rewrite Ev. clear Ev.
  remember (v :: vs) as ws. remember (f :: fs) as gs'. clear Heqws.
  eapply items_cons; [apply I_variants; apply (cases_ok k _ _ H)| |].
  - eapply items_cons; [apply I_first| |].
    + eapply items_cons; [|constructor|].
      * eapply (I_protocol n 12 _ _ _ []); [exact (proj1 twelve)|exact (proj2 twelve)| | |exact hint_nil| |].
        -- apply (hint_of [no_snake]). constructor; [|constructor]. eexists; eexists; (split; [reflexivity|left; reflexivity]).
        -- apply (hint_of [listed "inline" "never"]). constructor; [|constructor]. eexists; eexists; (split; [reflexivity|right; reflexivity]).
        -- unfold union_fill_code. eapply (B_cons _ _ [_; _; _; _; _; _]); [apply let_zero|]. eapply (B_cons _ _ [_; _; _; _; _]); [apply read_type|].
           eapply (B_cons _ _ [_; _; _; _]); [apply (T_if _ _ _ _ (D_zero field_type_ _ (own_proper _) zero_lit) (block_one _ _ (T_return _ _ true E_type)))|].
           eapply (B_cons _ _ [_; _; _]); [apply T_match; [apply own_proper|apply (union_arms_ok k _ _ H)|apply block_one; apply (T_return _ _ false (E_field "$struct_name"))]|].
           eapply (B_cons _ _ [_; _]); [apply (T_result stop_ _ _ (own_proper _) K_read_byte)|].
           eapply (B_cons _ _ [_]); [apply (T_if _ _ _ _ (D_not_zero stop_ _ (own_proper _) zero_lit) (block_one _ _ (T_return _ _ false E_stop)))|].
           apply block_one. apply T_finish.
        -- unfold union_write_code. eapply (B_cons _ _ [_; _; _]); [apply let_zero|]. eapply (B_cons _ _ [_; _]); [apply T_match_self; apply (union_writes_ok k _ _ H)|].
           eapply (B_cons _ _ [_]); [apply write_stop|]. apply block_one. apply T_finish.
      * reflexivity.
    + reflexivity.
  - unfold union_text, first_text, result_type. flat. rewrite ?app_nil_r. reflexivity.
Qed.

(** * Enums *)
(** The attributes, the name and the value *)
Definition cview : Type := list (list (list tree)) * string * list tree.
Definition found_constant (c : cview) : list found := let '(gss, n, v) := c in [Reps (found_attrs gss); Got [name n]; Skip; Got v; Skip].
Definition cfits (c : cview) (x : string * Z) : Prop := let '(_, n, v) := c in fst x = n /\ integer (snd x) v /\ fits_bits 32 (snd x).
Lemma view_constants : forall xs cs, Forall (Forall2 shaped p_constant) xs -> all_of constant_of xs = Some cs -> exists vs, xs = map found_constant vs /\ Forall2 cfits vs cs.
Proof.
  induction xs as [|x xs IH]; intros cs H E; cbn [all_of] in E.
  - injection E as <-. exists []. split; [reflexivity|constructor].
  - inversion H as [|? ? Hx Hxs]; subst. destruct (constant_of x) as [c|] eqn:Ec; [|discriminate]. destruct (all_of constant_of xs) as [cs'|]; [|discriminate]. injection E as <-.
    destruct (IH cs' Hxs eq_refl) as (vs & -> & Hvs). clear IH Hxs H.
    uncons Hx x1 l1 H1 K1. uncons K1 x2 l2 H2 K2. uncons K2 x3 l3 H3 K3. uncons K3 x4 l4 H4 K4. uncons K4 x5 l5 H5 K5. inversion K5; subst. clear K5.
    destruct (attrs_shape _ H1) as (gss & ->). destruct (ident_shape _ H2) as (n & -> & _). inversion H3; subst. destruct (literal_shape _ H4) as (i & -> & Hi). inversion H5; subst.
    unfold constant_of in Ec. destruct (new_name (Got [name n])) as [m|] eqn:Em; [|discriminate]. apply new_name_ok in Em as (-> & _).
    destruct (literal_int 32 i) as [z|] eqn:Ez; [|discriminate]. apply literal_int_ok in Ez as (Hz & Hz2); [|exact Hi]. injection Ec as <-.
    exists ((gss, n, i) :: vs). split; [reflexivity|constructor; [cbn; auto|exact Hvs]].
Qed.
Definition c_const (c : cview) : list tree := let '(_, n, v) := c in code "pub const" ++ [name n] ++ code ": Self = Self" ++ parens v ++ code ";".
Definition in_line : list tree := [name "inline"].
Definition enum_text (gs : list (list tree)) (n : string) (vs : list cview) : list tree :=
  attributes_text (gs ++ [listed "derive" "Default , Debug , Copy , Clone , Eq , Hash , Ord , PartialEq , PartialOrd"; no_camel]) ++ code "pub struct" ++ [name n] ++ parens (code "pub i32") ++ code ";" ++
  code "impl From < i32 > for" ++ [name n] ++
  braces (attributes_text [in_line] ++ code "fn from" ++ parens (code "value' : i32") ++ code "-> Self" ++ braces (code "Self" ++ parens (code "value'"))) ++
  code "impl" ++ [name n] ++ braces (List.concat (map c_const vs)) ++
  code "impl < 'i > $ crate :: CompactThriftProtocol < 'i > for" ++ [name n] ++
  braces
    (code "const FIELD_TYPE : u8 = 5 ;" ++ attributes_text [in_line] ++
     code "fn fill_thrift < T : $ crate :: CompactThriftInput < 'i >>" ++ parens (code "& mut self , input' : & mut T") ++ result_type ++
     braces (code "self . 0 = input' . read_i32" ++ parens [] ++ code "? ;" ++ code "Ok" ++ parens (parens [])) ++
     attributes_text [in_line] ++
     code "fn write_thrift < T : $ crate :: CompactThriftOutput >" ++ parens (code "& self , output' : & mut T") ++ result_type ++
     braces (code "output' . write_i32" ++ parens (code "self . 0"))).
Definition enum_pats := Eval vm_compute in match rules_of macros "thrift_enum" with Some [(p, _)] => p | _ => [] end.
Definition enum_template := Eval vm_compute in match rules_of macros "thrift_enum" with Some [(_, x)] => x | _ => [] end.
Definition constant_pats := Eval vm_compute in match enum_pats with [_; _; _; NGrp _ [NRep _ p]] => p | _ => [] end.
Definition constant_env (c : cview) : list entry := collect_all collect constant_pats (found_constant c).
Lemma enum_out call gs gss n vs : map (@List.concat tree) gss = gs ->
  tr call (collect_all collect enum_pats [Reps (found_attrs gss); Skip; Got [name n]; Sub [Reps (map found_constant vs)]]) enum_template (enum_text gs n vs).
Proof.
  intros <-.
  assert (Env : collect_all collect enum_pats [Reps (found_attrs gss); Skip; Got [name n]; Sub [Reps (map found_constant vs)]] =
    [attr_env "def_attrs" gss; EOne "identifier" [name n]; EReps (flat_map variables constant_pats) (map constant_env vs)]).
  { unfold enum_pats. unfold collect_all at 1. rewrite (collect_attrs "def_attrs" gss). cbn [app]. unfold constant_env. rewrite <- (map_map found_constant (collect_all collect constant_pats)). reflexivity. }
  rewrite Env. clear Env. set (env := [_; _; _]).
  unfold enum_template. eapply tr_eq.
  - apply unguarded_out; [reflexivity|]. go.
    eapply (tr_rep constant_env c_const) with (l := vs); [reflexivity| |apply tr_nil]. apply Forall_forall. intros ((g & m) & v) _. eapply tr_eq; [go|]. unfold c_const. flat. rewrite ?app_nil_r. reflexivity.
  - rewrite separated_none. unfold enum_text. unfold attributes_text. rewrite !flat_map_app. unfold no_camel, listed, result_type, in_line. cbn [flat_map]. flat. rewrite ?app_nil_r. reflexivity.
Qed.
Lemma constants_ok vs cs : Forall2 cfits vs cs -> constants_read cs (List.concat (map c_const vs)).
Proof.
  induction 1 as [|((g & m) & v) (c & z) vs cs (E & H & K) _ IH]; [constructor|]. cbn [fst snd] in *. subst c. cbn [map List.concat].
  pose proof (Os_cons m z v cs _ H K IH) as P. unfold c_const. rewrite <- !app_assoc. exact P.
Qed.
Lemma five : integer 5 [lit [53]] /\ 0 <= 5 < 256.
Proof. split; [|lia]. constructor. apply (natural_of [53] 5 eq_refl). Qed.
Lemma in_line_hint : hint (attributes_text [in_line]).
Proof. apply hint_of. constructor; [|constructor]. exists "inline"%string, []. split; [reflexivity|right; reflexivity]. Qed.
Lemma enum_reads gs n vs cs : Forall2 cfits vs cs -> items_read (enum_items gs n cs) (enum_text gs n vs).
Proof.
  intros H. unfold enum_items. eapply items_cons; [apply I_number| |].
  - eapply items_cons; [apply (I_from _ _ in_line_hint)| |reflexivity].
    eapply items_cons; [apply I_constants; apply (constants_ok _ _ H)| |reflexivity].
    eapply items_cons; [|constructor|reflexivity].
    eapply (I_protocol n 5 _ []); [exact (proj1 five)|exact (proj2 five)|exact hint_nil|exact in_line_hint|exact in_line_hint| |].
    + unfold enum_fill_code. eapply (B_cons _ _ [_]); [apply T_self; apply K_read_i32|]. apply block_one. apply T_finish.
    + unfold enum_write_code. apply block_one. apply T_tail. apply K_write_i32.
  - unfold enum_text, result_type. flat. rewrite ?app_nil_r. reflexivity.
Qed.
