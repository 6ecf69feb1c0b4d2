(** The items that thrift_struct!, thrift_union!, thrift_enum! and thrift! expand to *)
From Coq Require Import Ascii.
From Verif Require Import Base ErrorName Types Macro RustLex RustMacro MacroRules SpecRust P_RustMacro RustCode SpecExpand P_Expand.
Open Scope Z_scope.
Open Scope list_scope.

Lemma text_app a b : text (a ++ b)%string = text a ++ text b.
Proof. induction a as [|c a IH]; [reflexivity|]. cbn [String.append]. unfold text in *. cbn [list_ascii_of_string map app]. f_equal. exact IH. Qed.
Lemma name_text n : literal_text [name n] = n.
Proof. cbn [literal_text fold_right leaf_text name]. apply append_nil_r. Qed.
Lemma quoted_contents w c r : is_punct c "," = true -> contents (quoted_literal w :: c :: r) = match contents r with Some v => Some (w ++ v) | None => None end.
Proof. intros H. unfold quoted_literal. cbn [contents]. rewrite H, removelast_last. reflexivity. Qed.
Lemma quoted_last w : contents [quoted_literal w] = Some w.
Proof. unfold quoted_literal. cbn [contents]. rewrite removelast_last. reflexivity. Qed.
Definition check_text (n f : string) : list tree :=
  code "if !" ++ [name f] ++
  braces (code "return Err" ++ parens (code "$ crate :: ThriftError :: MissingField" ++ parens (lit ([34] ++ text (n ++ "::" ++ f) ++ text "\0" ++ [34]) :: code ". into" ++ parens []))).
Lemma check_call k b n f : n <> "_"%string -> f <> "_"%string ->
  expansion macros (S k) "__thrift_required_check" [name (demand b); name n; name f] = Some (if b then check_text n f else []).
Proof.
  intros H K. rewrite (expands k "__thrift_required_check" _ _ eq_refl), !by_eq. cbn [map erase]. rewrite !word_then, (names2 n f H K). destruct b; [|reflexivity].
  cbn [demand String.eqb Ascii.eqb Bool.eqb collect_all collect app]. match goal with |- transcription ?c ?env ?x = Some ?o => change (tr c env x o) end.
  eapply tr_eq; [go|].
  - eapply tr_concat; [go| |go]. cbn [app]. rewrite !name_text. rewrite quoted_contents by reflexivity.
    change (Lf (LLit [34; 58; 58; 34])) with (quoted_literal (text "::")). rewrite quoted_contents, quoted_contents by reflexivity.
    change (Lf (LLit [34; 92; 48; 34])) with (quoted_literal (text "\0")). rewrite quoted_last. reflexivity.
  - unfold check_text. rewrite !text_app. codes. unfold quoted_literal, lit. rewrite <- !app_assoc. reflexivity.
Qed.

(** * Matching *)
Lemma single_match {A} word item (f : list found -> option A) a n body l : attrs a -> declaration (single word item) f (a ++ [name word; name n; Gr Brace body]) = Some l ->
  exists gss xs, match_all (single word item) (a ++ [name word; name n; Gr Brace body]) = Some [Reps (found_attrs gss); Skip; Got [name n]; Sub [Reps xs]] /\
    attributes_text (map (@List.concat tree) gss) = a /\ Forall (Forall2 shaped item) xs /\ all_of f xs = Some l.
Proof.
  intros Ha. unfold declaration. destruct (match_all (single word item) _) as [fs|] eqn:H; [|discriminate]. pose proof (match_all_shaped _ _ _ H) as Hs.
  unfold match_all in H. destruct (in_order matches (single word item) _) as [(fs', [|t r])|] eqn:H2; try discriminate. injection H as ->.
  unfold single in H2. step H2 E1. step H2 E2. step H2 E3. step H2 E4. done H2. intros El.
  apply attributes_sound in E1 as (al & u & -> & Eu & Hu & Eq). apply tk_sound in E2 as (-> & ->). apply ident_sound in E3 as (m & -> & Hn & ->). cbn [app] in Eu.
  destruct (attrs_unique _ _ _ _ _ _ Ha Hu Eu) as (-> & _ & E). injection E as <- <-.
  apply grp_sound in E4 as (b & fs & E & -> & Ef). step Ef E1. done Ef. unfold many in E1. rewrite rep_eq in E1. destruct (repeated _ _ _ _) as [(xs, r1)|]; [|discriminate]. injection E1 as <- ->.
  inversion Hs as [|p1 y1 ps1 ys1 H1 Hs1]; subst. destruct (attrs_shape _ H1) as (gss & E1). injection E1 as ->.
  inversion Hs1 as [|p2 y2 ps2 ys2 H2 Hs2]; subst. inversion Hs2 as [|p3 y3 ps3 ys3 H3 Hs3]; subst. inversion Hs3 as [|p4 y4 ps4 ys4 H4 _]; subst.
  inversion H4 as [| |d ps fs Hf|]; subst. inversion Hf as [|p5 y5 ps5 ys5 H5 _]; subst. inversion H5 as [| | |opt ps l1 _ Hl]; subst.
  exists gss, xs. split; [reflexivity|]. split; [symmetry; apply again_found|]. split; [exact Hl|exact El].
Qed.

Definition found_elem (e : option string) : list (list found) := match e with Some e => [[Skip; Got [name e]; Skip]] | None => [] end.
Lemma elem_shape x : shaped p_elem x -> exists e, x = Reps (found_elem e) /\ e <> Some "_"%string.
Proof.
  intros H. inversion H as [| | |opt ps l Hlen Hl]; subst. specialize (Hlen eq_refl). destruct Hl as [|y l Hy Hl]; [exists None; split; [reflexivity|discriminate]|].
  destruct Hl; [|cbn [List.length] in Hlen; lia]. inversion Hy as [|p1 y1 ps1 ys1 H1 Hy1]; subst. inversion Hy1 as [|p2 y2 ps2 ys2 H2 Hy2]; subst. inversion Hy2 as [|p3 y3 ps3 ys3 H3 Hy3]; subst.
  inversion Hy3; subst. inversion H1; subst. inversion H3; subst. inversion H2 as [|f ts r r' Ht| |]; subst. cbn [take] in Ht. destruct r as [|[[m|w|s]|d g] r]; try discriminate.
  destruct (String.eqb_spec m "_"); [discriminate|]. injection Ht as <- <-. exists (Some m). split; [reflexivity|congruence].
Qed.
Lemma ident_shape x : shaped (Var Ident) x -> exists n, x = Got [name n] /\ n <> "_"%string.
Proof.
  intros H. inversion H as [|f ts r r' Ht| |]; subst. cbn [take] in Ht. destruct r as [|[[m|w|s]|d g] r]; try discriminate.
  destruct (String.eqb_spec m "_"); [discriminate|]. injection Ht as <- <-. exists m. split; [reflexivity|assumption].
Qed.
Lemma literal_shape x : shaped (Var Literal) x -> exists u, x = Got u /\ literal u.
Proof. intros H. inversion H as [|f ts r r' Ht| |]; subst. cbn [take] in Ht. apply take_literal_sound in Ht as (Hl & _). exists ts. auto. Qed.

(** A field as written *)
Record fview : Type := { v_at : list (list (list tree)); v_id : list tree; v_b : bool; v_t : string; v_e : option string; v_n : string; v_d : list (list found); v_s : list (list found); v_ty : list tree }.
Definition found_field (v : fview) : list found :=
  [Reps (found_attrs (v_at v)); Got (v_id v); Skip; Got [name (demand (v_b v))]; Got [name (v_t v)]; Reps (found_elem (v_e v)); Got [name (v_n v)]; Reps (v_d v); Reps (v_s v)].
Record fits (k : nat) (v : fview) (f : field) : Prop := {
  ft_id : integer (f_id f) (v_id v);
  ft_range : fits_bits 16 (f_id f);
  ft_req : f_req f = v_b v;
  ft_name : f_name f = v_n v;
  ft_plain : plain (v_n v);
  ft_new : v_n v <> "_"%string;
  ft_call : expansion macros (S (S k)) "__thrift_field_type" (name (v_t v) :: optional_name (v_e v)) = Some (v_ty v);
  ft_type : type_reads (f_ty f) (v_ty v) }.
Ltac uncons H x y H1 H2 := inversion H as [|? x ? y H1 H2]; subst; clear H.
Lemma view_field k x mf t b : Forall2 shaped p_field x -> field_of x = Some mf -> declared_type (m_type mf) (m_elem mf) = Some t -> m_req mf = Some b -> plain (m_name mf) ->
  exists v, x = found_field v /\ fits k v {| f_id := m_id mf; f_req := b; f_ty := t; f_name := m_name mf |}.
Proof.
  intros H Hf Ht Hb Hp. uncons H x1 l1 H1 K1. uncons K1 x2 l2 H2 K2. uncons K2 x3 l3 H3 K3. uncons K3 x4 l4 H4 K4. uncons K4 x5 l5 H5 K5. uncons K5 x6 l6 H6 K6. uncons K6 x7 l7 H7 K7.
  uncons K7 x8 l8 H8 K8. uncons K8 x9 l9 H9 K9. inversion K9; subst. clear K9.
  destruct (attrs_shape _ H1) as (gss & ->). destruct (literal_shape _ H2) as (i & -> & Hi). inversion H3; subst. destruct (ident_shape _ H4) as (q & -> & _). destruct (ident_shape _ H5) as (ft & -> & _).
  destruct (elem_shape _ H6) as (e & -> & He). destruct (ident_shape _ H7) as (m & -> & Hm). inversion H8 as [| | |opt ps d _ _]; subst. inversion H9 as [| | |opt ps s _ _]; subst.
  unfold field_of in Hf. destruct (literal_int 16 i) as [z|] eqn:Ez; [|discriminate]. apply literal_int_ok in Ez as (Hz & Hz2); [|exact Hi].
  destruct (requirement (Got [name q])) as [b'|] eqn:Eq; [|discriminate]. apply requirement_ok in Eq. subst q. change (name_of (Got [name ft])) with (Some ft) in Hf. cbv beta iota in Hf.
  destruct (new_name (Got [name m])) as [m'|] eqn:Em; [|discriminate]. apply new_name_ok in Em as (-> & _). injection Hf as <-.
  cbn [m_req m_type m_elem m_id m_name] in *. injection Hb as ->.
  assert (Ee : elem_of (found_elem e) = e) by (destruct e; reflexivity). rewrite Ee in Ht. destruct (type_call k ft e t He Ht) as (ts & Ec & Hts).
  exists {| v_at := gss; v_id := i; v_b := b; v_t := ft; v_e := e; v_n := m; v_d := d; v_s := s; v_ty := ts |}. split; [reflexivity|]. constructor; cbn; assumption || reflexivity.
Qed.
Lemma view_fields k : forall xs mfs fs, Forall (Forall2 shaped p_field) xs -> all_of field_of xs = Some mfs -> expand_fields false mfs = Some fs -> Forall (fun f => plain (f_name f)) fs ->
  exists vs, xs = map found_field vs /\ Forall2 (fits k) vs fs.
Proof.
  induction xs as [|x xs IH]; intros mfs fs H E Ex Hp; cbn [all_of] in E.
  - injection E as <-. injection Ex as <-. exists []. split; [reflexivity|constructor].
  - inversion H as [|? ? Hx Hxs]; subst. destruct (field_of x) as [mf|] eqn:Ef; [|discriminate]. destruct (all_of field_of xs) as [mfs'|]; [|discriminate]. injection E as <-.
    cbn [expand_fields] in Ex. destruct (declared_type _ _) as [t|] eqn:Et; [|discriminate]. destruct (m_req mf) as [b|] eqn:Eb; [|discriminate].
    destruct (expand_fields false mfs') as [fs'|] eqn:Ex'; [|discriminate]. injection Ex as <-.
    inversion Hp as [|? ? Hp1 Hp2]; subst.
    destruct (view_field k x mf t b Hx Ef Et Eb Hp1) as (v & -> & Hv). destruct (IH mfs' fs' Hxs eq_refl Ex' Hp2) as (vs & -> & Hvs). exists (v :: vs). split; [reflexivity|constructor; assumption].
Qed.

(** * Parts of the transcription *)
Definition elem_env (e : option string) : list (list entry) := match e with Some e => [[EOne "element_type" [name e]]] | None => [] end.
Lemma elem_out call env e : the_rounds env ["element_type"%string] = Some (elem_env e) -> tr call env [XRep [XVar "element_type"] None] (optional_name e).
Proof.
  intros H. destruct e as [e|]; unfold tr, transcription; cbn [joined transcribe flat_map used app]; rewrite H; reflexivity.
Qed.
Lemma type_out k env t e ts xs o : the_one env "field_type" = Some [name t] -> the_rounds env ["element_type"%string] = Some (elem_env e) ->
  expansion macros (S (S k)) "__thrift_field_type" (name t :: optional_name e) = Some ts -> tr (expansion macros (S (S k))) env xs o ->
  tr (expansion macros (S (S k))) env (XCall "__thrift_field_type" [XVar "field_type"; XRep [XVar "element_type"] None] :: xs) (ts ++ o).
Proof.
  intros H1 H2 E. eapply tr_call; [|exact E]. change (name t :: optional_name e) with ([name t] ++ optional_name e). eapply tr_var; [exact H1|]. apply elem_out. exact H2.
Qed.
Lemma demanded_out k env b t e ty ts xs o : the_one env "required_or_optional" = Some [name (demand b)] -> the_one env "field_type" = Some [name t] ->
  the_rounds env ["element_type"%string] = Some (elem_env e) ->
  expansion macros (S (S k)) "__thrift_field_type" (name t :: optional_name e) = Some ts -> type_reads ty ts -> tr (expansion macros (S (S k))) env xs o ->
  tr (expansion macros (S (S k))) env
    (XCall "__thrift_required_or_optional" [XVar "required_or_optional"; XCall "__thrift_field_type" [XVar "field_type"; XRep [XVar "element_type"] None]] :: xs)
    (demanded_type b ts ++ o).
Proof.
  intros H0 H1 H2 E Ht. eapply tr_call; [|exact (proj1 (requirement_call (S k) b ty ts Ht))].
  eapply tr_eq; [eapply tr_var; [exact H0|]; eapply type_out; [exact H1|exact H2|exact E|apply tr_nil]|]. rewrite app_nil_r. reflexivity.
Qed.
Definition dt (v : fview) : list tree := demanded_type (v_b v) (v_ty v).
Definition at_text (v : fview) : list tree := attributes_text (map guarded (map (@List.concat tree) (v_at v))).
Definition g_field (v : fview) : list tree := at_text v ++ code "pub" ++ [name (v_n v)] ++ code ":" ++ dt v.
Definition g_param (v : fview) : list tree := [name (v_n v)] ++ code ": impl Into <" ++ dt v ++ code ">".
Definition g_init (v : fview) : list tree := [name (v_n v)] ++ code ":" ++ [name (v_n v)] ++ code ". into" ++ parens [] ++ code ",".
Definition g_flag (v : fview) : list tree := if v_b v then code "let mut" ++ [name (v_n v)] ++ code "= false ;" else [].
Definition g_arm (v : fview) : list tree :=
  v_id v ++ code "=>" ++ braces ((if v_b v then name (v_n v) :: code "= true ;" else []) ++ code "self ." ++ [name (v_n v)] ++ code ". fill_thrift_field" ++ parens (code "input' , field_type'") ++ code "? ;").
Definition g_check (n : string) (v : fview) : list tree := if v_b v then check_text n (v_n v) else [].
Definition g_write (v : fview) : list tree :=
  code "self ." ++ [name (v_n v)] ++ code ". write_thrift_field" ++ parens (code "output' ," ++ v_id v ++ code ", & mut last_field_id'") ++ code "? ;".
Definition struct_text (gs : list (list tree)) (n : string) (vs : list fview) : list tree :=
  attributes_text (map guarded gs ++ [listed "derive" "Default , Clone , Debug , PartialEq"; no_camel; no_snake]) ++ code "pub struct" ++ [name n] ++
  braces (separated (Some (LPunct ",")) (map g_field vs)) ++
  code "impl" ++ [name n] ++
  braces (attributes_text [name "allow" :: parens (code "clippy :: too_many_arguments")] ++ code "pub fn new" ++ parens (separated (Some (LPunct ",")) (map g_param vs)) ++ code "-> Self" ++
    braces (code "Self" ++ braces (List.concat (map g_init vs)))) ++
  attributes_text [no_snake] ++ code "impl < 'i > $ crate :: CompactThriftProtocol < 'i > for" ++ [name n] ++
  braces
    (code "const FIELD_TYPE : u8 = 12 ;" ++ attributes_text [listed "inline" "never"] ++
     code "fn fill_thrift < T : $ crate :: CompactThriftInput < 'i >>" ++ parens (code "& mut self , input' : & mut T") ++ result_type ++
     braces
       (code "let mut last_field_id' =" ++ [lit (text "0_i16")] ++ code ";" ++ List.concat (map g_flag vs) ++
        code "loop" ++
        braces
          (code "let field_type' = input' . read_field_header" ++ parens (code "& mut last_field_id'") ++ code "? ;" ++
           code "if field_type' == 0" ++ braces (code "break ;") ++
           code "match last_field_id'" ++
           braces (separated (Some (LPunct ",")) (map g_arm vs) ++ code "_ =>" ++ braces (code "input' . skip_field" ++ parens (code "field_type'") ++ code "? ;"))) ++
        List.concat (map (g_check n) vs) ++ code "Ok" ++ parens (parens [])) ++
     code "fn write_thrift < T : $ crate :: CompactThriftOutput >" ++ parens (code "& self , output' : & mut T") ++ result_type ++
     braces
       (attributes_text [listed "allow" "unused_variables"; listed "allow" "unused_mut"] ++ code "let mut last_field_id' =" ++ [lit (text "0_i16")] ++ code ";" ++
        List.concat (map g_write vs) ++ code "output' . write_byte" ++ parens (code "0") ++ code "? ;" ++ code "Ok" ++ parens (parens []))).

Definition struct_pats := Eval vm_compute in match rules_of macros "thrift_struct" with Some [(p, _)] => p | _ => [] end.
Definition struct_template := Eval vm_compute in match rules_of macros "thrift_struct" with Some [(_, x)] => x | _ => [] end.
Definition field_pats := Eval vm_compute in match struct_pats with [_; _; _; NGrp _ [NRep _ p]] => p | _ => [] end.
Definition field_env (v : fview) : list entry := collect_all collect field_pats (found_field v).
Lemma elem_rounds e : map (collect_all collect [NTk (LPunct "<"); NVar "element_type" Ident; NTk (LPunct ">")]) (found_elem e) = elem_env e.
Proof. destruct e; reflexivity. Qed.
Lemma attr_rounds x gss : map (collect_all collect [NTk (LPunct "#"); NGrp Bracket [NRep false [NVar x Meta]]]) (found_attrs gss) = map (fun ms => [EReps [x] (map (fun t => [EOne x t]) ms)]) gss.
Proof. pose proof (collect_attrs x gss) as H. cbn [collect flat_map variables app] in H. unfold attr_env in H. injection H as H. exact H. Qed.
Lemma fits_demanded k v f env xs o : fits k v f -> tr (expansion macros (S (S k))) (field_env v ++ env) xs o ->
  tr (expansion macros (S (S k))) (field_env v ++ env)
    (XCall "__thrift_required_or_optional" [XVar "required_or_optional"; XCall "__thrift_field_type" [XVar "field_type"; XRep [XVar "element_type"] None]] :: xs) (dt v ++ o).
Proof.
  intros H. apply (demanded_out k _ (v_b v) (v_t v) (v_e v) (f_ty f) (v_ty v)); [reflexivity|reflexivity| |exact (ft_call _ _ _ H)|exact (ft_type _ _ _ H)].
  rewrite <- elem_rounds. reflexivity.
Qed.
Ltac rounds g vs := eapply (tr_rep field_env g) with (l := vs); [reflexivity| |].
Lemma struct_out k gs gss n vs fs : n <> "_"%string -> Forall2 (fits k) vs fs -> map (@List.concat tree) gss = gs ->
  tr (expansion macros (S (S k))) (collect_all collect struct_pats [Reps (found_attrs gss); Skip; Got [name n]; Sub [Reps (map found_field vs)]]) struct_template (struct_text gs n vs).
Proof.
  intros Hn Hv <-.
  assert (Env : collect_all collect struct_pats [Reps (found_attrs gss); Skip; Got [name n]; Sub [Reps (map found_field vs)]] =
    [attr_env "def_attrs" gss; EOne "identifier" [name n]; EReps (flat_map variables field_pats) (map field_env vs)]).
  { unfold struct_pats. unfold collect_all at 1. rewrite (collect_attrs "def_attrs" gss). cbn [app]. unfold field_env. rewrite <- (map_map found_field (collect_all collect field_pats)). reflexivity. }
  rewrite Env. clear Env. set (env := [_; _; _]).
  assert (All : forall G g, (forall v f, fits k v f -> tr (expansion macros (S (S k))) (field_env v ++ env) g (G v)) -> Forall (fun v => tr (expansion macros (S (S k))) (field_env v ++ env) g (G v)) vs).
  { intros G g HG. clearbody env. clear -Hv HG. induction Hv as [|v f vs fs H _ IH]; constructor; [exact (HG v f H)|exact IH]. }
  unfold struct_template. eapply tr_eq.
  - apply guarded_out; [reflexivity|]. go.
    + rounds g_field vs; [|apply tr_nil]. apply All. intros v f H. eapply tr_eq; [apply guarded_out with (gss := v_at v); [rewrite <- attr_rounds; reflexivity|]; go; eapply fits_demanded; [exact H|go]|].
      unfold g_field, at_text. flat. rewrite app_nil_r. reflexivity.
    + rounds g_param vs; [|apply tr_nil]. apply All. intros v f H. eapply tr_eq; [go; eapply fits_demanded; [exact H|go]|]. unfold g_param. flat. reflexivity.
    + rounds g_init vs; [|apply tr_nil]. apply All. intros v f H. eapply tr_eq; [go|]. unfold g_init. flat. reflexivity.
    + rounds g_flag vs.
      * apply All. intros v f H. eapply tr_eq; [eapply tr_call; [go|cbn [app]; apply flag_call; exact (ft_new _ _ _ H)|go]|]. apply app_nil_r.
      * go.
        -- rounds g_arm vs; [|go]. apply All. intros v f H. eapply tr_eq; [go; eapply tr_call; [go|cbn [app]; apply set_call; exact (ft_new _ _ _ H)|go]|]. unfold g_arm. flat. reflexivity.
        -- rounds (g_check n) vs; [|go]. apply All. intros v f H. eapply tr_eq; [eapply tr_call; [go|cbn [app]; apply check_call; [exact Hn|exact (ft_new _ _ _ H)]|go]|]. apply app_nil_r.
    + rounds g_write vs; [|go]. apply All. intros v f H. eapply tr_eq; [go|]. unfold g_write. flat. reflexivity.
  - unfold struct_text. rewrite !separated_none. unfold attributes_text. rewrite !flat_map_app. unfold no_camel, no_snake, listed, result_type. cbn [flat_map]. flat. rewrite ?app_nil_r. reflexivity.
Qed.

(** * Reading the output *)
Lemma block_app a ts b us : block_reads a ts -> block_reads b us -> block_reads (a ++ b) (ts ++ us).
Proof.
  intros H K. induction H as [|g c ts _ IH|t ts c ts' Ht _ IH]; cbn [app]; [exact K|constructor; exact IH|]. rewrite <- app_assoc. constructor; [exact Ht|exact IH].
Qed.
Lemma block_one t ts : stmt_reads t ts -> block_reads [t] ts.
Proof. intros H. rewrite <- (app_nil_r ts). constructor; [exact H|constructor]. Qed.
Lemma block_eq b ts us : block_reads b ts -> ts = us -> block_reads b us.
Proof. intros H <-. exact H. Qed.
Lemma natural_of w z : int_value w = Some z -> natural w z.
Proof. apply int_value_ok. Qed.
Lemma zero_lit : integer 0 (code "0").
Proof. apply (In_plus [48] 0). apply natural_of. reflexivity. Qed.
Lemma fits_zero : fits_bits 16 0.
Proof. unfold fits_bits. cbn. lia. Qed.
Lemma hint_of l : Forall (fun g => exists n v, g = name n :: v /\ (n = "allow" \/ n = "inline")%string) l -> hint (attributes_text l).
Proof. intros H. exists l. auto. Qed.
Lemma hint_nil : hint [].
Proof. exists []. split; [reflexivity|constructor]. Qed.
Ltac hint1 := apply hint_of; repeat constructor; eexists; eexists; (split; [reflexivity|auto]).
Lemma separated_read {V A} (R : list A -> list tree -> Prop) (G : V -> list tree) (P : V -> A -> Prop) :
  R [] [] -> (forall v a sep l r, P v a -> comma sep r -> R l r -> R (a :: l) (G v ++ sep ++ r)) ->
  forall vs l, Forall2 P vs l -> R l (separated (Some (LPunct ",")) (map G vs)).
Proof.
  intros H0 H1 vs l. induction 1 as [|v a vs l Hv _ IH]; [exact H0|]. cbn [map]. destruct (separated_cons "," (G v) (map G vs)) as (sep & -> & Hs & _). apply H1; [exact Hv|exact Hs|exact IH].
Qed.
Lemma dt_reads k v f : fits k v f -> type_reads (field_ty f) (dt v).
Proof. intros H. unfold field_ty. rewrite (ft_req _ _ _ H). exact (proj2 (requirement_call k (v_b v) (f_ty f) (v_ty v) (ft_type _ _ _ H))). Qed.
Lemma typed_fits k vs fs : Forall2 (fits k) vs fs -> Forall2 (fun v a => exists f, fits k v f /\ a = (f_name f, field_ty f)) vs (typed fs).
Proof. induction 1 as [|v f vs fs H _ IH]; cbn [typed map]; constructor; [exists f; auto|exact IH]. Qed.
Lemma fields_ok k vs fs : Forall2 (fits k) vs fs -> fields_read (typed fs) (separated (Some (LPunct ",")) (map g_field vs)).
Proof.
  intros H. apply (separated_read fields_read g_field _) with (3 := typed_fits k vs fs H); [constructor|]. intros v a sep l r (f & Hf & ->) Hs Hl. rewrite (ft_name _ _ _ Hf).
  pose proof (Fs_cons (map guarded (map (@List.concat tree) (v_at v))) (v_n v) (field_ty f) (dt v) sep l r (dt_reads k v f Hf) Hs Hl) as K.
  unfold g_field, at_text. rewrite <- !app_assoc. exact K.
Qed.
Lemma params_ok k vs fs : Forall2 (fits k) vs fs -> params_read (typed fs) (separated (Some (LPunct ",")) (map g_param vs)).
Proof.
  intros H. apply (separated_read params_read g_param _) with (3 := typed_fits k vs fs H); [constructor|]. intros v a sep l r (f & Hf & ->) Hs Hl. rewrite (ft_name _ _ _ Hf).
  pose proof (Ps_cons (v_n v) (field_ty f) (dt v) sep l r (dt_reads k v f Hf) Hs Hl) as K. unfold g_param. rewrite <- !app_assoc. exact K.
Qed.
Lemma inits_ok k vs fs : Forall2 (fits k) vs fs -> inits (typed fs) = List.concat (map g_init vs).
Proof.
  induction 1 as [|v f vs fs H _ IH]; [reflexivity|]. cbn [typed map inits flat_map List.concat fst]. fold (typed fs). fold (inits (typed fs)). rewrite IH, (ft_name _ _ _ H). reflexivity.
Qed.
Lemma own_proper n : proper (own n).
Proof. discriminate. Qed.
Lemma flags_ok k vs fs : Forall2 (fits k) vs fs -> block_reads (flat_map required_flag fs) (List.concat (map g_flag vs)).
Proof.
  induction 1 as [|v f vs fs H _ IH]; [constructor|]. cbn [flat_map map List.concat]. apply block_app; [|exact IH]. unfold required_flag, g_flag. rewrite (ft_req _ _ _ H), (ft_name _ _ _ H).
  destruct (v_b v); [|constructor]. apply block_one. exact (T_flag (given (v_n v)) (fun _ => ft_plain _ _ _ H)).
Qed.
Lemma checks_ok k n vs fs : Forall2 (fits k) vs fs -> block_reads (flat_map (required_check n) fs) (List.concat (map (g_check n) vs)).
Proof.
  induction 1 as [|v f vs fs H _ IH]; [constructor|]. cbn [flat_map map List.concat]. apply block_app; [|exact IH]. unfold required_check, g_check. rewrite (ft_req _ _ _ H), (ft_name _ _ _ H).
  destruct (v_b v); [|constructor]. apply block_one.
  pose proof (T_if (NotSet (given (v_n v))) _ _ _ (D_not (given (v_n v)) (fun _ => ft_plain _ _ _ H)) (block_one _ _ (T_return _ _ false (E_field (n ++ "::" ++ v_n v)%string)))) as K. rewrite app_nil_r in K. exact K.
Qed.
Lemma writes_ok k vs fs : Forall2 (fits k) vs fs -> block_reads (map (fun f => Do (WriteField (f_name f) (f_id f) last_field_id)) fs) (List.concat (map g_write vs)).
Proof.
  induction 1 as [|v f vs fs H _ IH]; [constructor|]. cbn [map List.concat]. apply (block_app [_]); [|exact IH]. apply block_one. rewrite (ft_name _ _ _ H).
  pose proof (T_do _ _ (K_write (v_n v) (f_id f) (v_id v) last_field_id (own_proper _) (ft_id _ _ _ H) (ft_range _ _ _ H))) as K. unfold g_write. rewrite <- !app_assoc in *. exact K.
Qed.
Lemma arms_ok k vs fs : Forall2 (fits k) vs fs ->
  arms_read (map (fun f => (f_id f, required_set f ++ [Do (FillField (f_name f) field_type_)])) fs) (separated (Some (LPunct ",")) (map g_arm vs)).
Proof.
  induction 1 as [|v f vs fs H _ IH]; [constructor|]. cbn [map]. destruct (separated_cons "," (g_arm v) (map g_arm vs)) as (sep & -> & Hs & _).
  assert (B : block_reads (required_set f ++ [Do (FillField (f_name f) field_type_)])
    ((if v_b v then name (v_n v) :: code "= true ;" else []) ++ code "self ." ++ [name (v_n v)] ++ code ". fill_thrift_field" ++ parens (code "input' , field_type'") ++ code "? ;")).
  { unfold required_set. rewrite (ft_req _ _ _ H), (ft_name _ _ _ H). apply block_app.
    - destruct (v_b v); [|constructor]. apply block_one. exact (T_set (given (v_n v)) (fun _ => ft_plain _ _ _ H)).
    - apply block_one. pose proof (T_do _ _ (K_fill (v_n v) field_type_ (own_proper _))) as K. rewrite <- !app_assoc in K. exact K. }
  destruct Hs as [->|(-> & _)].
  - pose proof (A_cons _ _ _ _ true _ _ (ft_id _ _ _ H) (ft_range _ _ _ H) B IH) as K. unfold g_arm. rewrite <- !app_assoc in *. exact K.
  - pose proof (A_cons _ _ _ _ false _ _ (ft_id _ _ _ H) (ft_range _ _ _ H) B IH) as K. unfold g_arm. rewrite <- !app_assoc in *. exact K.
Qed.
Lemma let_zero : stmt_reads (Let last_field_id (Num 0)) (code "let mut last_field_id' =" ++ [lit (text "0_i16")] ++ code ";").
Proof. exact (T_num last_field_id 0 [48] (own_proper _) (natural_of [48] 0 eq_refl) fits_zero). Qed.
Lemma write_stop : stmt_reads (Do (WriteByte 0)) (code "output' . write_byte" ++ parens (code "0") ++ code "? ;").
Proof. pose proof (T_do _ _ (K_write_byte 0 _ zero_lit ltac:(lia))) as K. rewrite <- !app_assoc in K. exact K. Qed.
Lemma read_type : stmt_reads (Let field_type_ (Result (ReadHeader last_field_id))) (code "let field_type' = input' . read_field_header" ++ parens (code "& mut last_field_id'") ++ code "? ;").
Proof. exact (T_result field_type_ _ _ (own_proper _) (K_header last_field_id (own_proper _))). Qed.
Lemma struct_fill_ok k n vs fs : Forall2 (fits k) vs fs -> block_reads (struct_fill_code n fs)
  (code "let mut last_field_id' =" ++ [lit (text "0_i16")] ++ code ";" ++ List.concat (map g_flag vs) ++
        code "loop" ++
        braces
          (code "let field_type' = input' . read_field_header" ++ parens (code "& mut last_field_id'") ++ code "? ;" ++
           code "if field_type' == 0" ++ braces (code "break ;") ++
           code "match last_field_id'" ++
           braces (separated (Some (LPunct ",")) (map g_arm vs) ++ code "_ =>" ++ braces (code "input' . skip_field" ++ parens (code "field_type'") ++ code "? ;"))) ++
        List.concat (map (g_check n) vs) ++ code "Ok" ++ parens (parens [])).
Proof.
  intros H. unfold struct_fill_code. eapply block_eq.
  - apply block_app; [apply block_one; apply let_zero|]. apply block_app; [apply (flags_ok k vs fs H)|]. apply block_app; [apply block_one; apply T_loop|].
    + eapply (block_app [_]); [apply block_one; apply read_type|]. eapply (block_app [_]); [apply block_one; apply (T_if _ _ _ _ (D_zero field_type_ _ (own_proper _) zero_lit) (block_one _ _ T_break))|].
      apply block_one. apply T_match; [apply own_proper|apply (arms_ok k vs fs H)|]. apply block_one. apply (T_do _ _ (K_skip field_type_ (own_proper _))).
    + apply block_app; [apply (checks_ok k n vs fs H)|]. apply block_one. apply T_finish.
  - rewrite <- !app_assoc. reflexivity.
Qed.
Lemma struct_write_ok k vs fs : Forall2 (fits k) vs fs -> block_reads (struct_write_code fs)
  (attributes_text [listed "allow" "unused_variables"; listed "allow" "unused_mut"] ++ code "let mut last_field_id' =" ++ [lit (text "0_i16")] ++ code ";" ++
        List.concat (map g_write vs) ++ code "output' . write_byte" ++ parens (code "0") ++ code "? ;" ++ code "Ok" ++ parens (parens [])).
Proof.
  intros H. unfold struct_write_code. cbn [attributes_text flat_map app]. apply (B_allow (parens (code "unused_variables"))). apply (B_allow (parens (code "unused_mut"))). eapply block_eq.
  - eapply (block_app [_]); [apply block_one; apply let_zero|]. apply block_app; [apply (writes_ok k vs fs H)|]. eapply (block_app [_]); [apply block_one; apply write_stop|]. apply block_one. apply T_finish.
  - rewrite <- !app_assoc. reflexivity.
Qed.
Lemma items_cons i ts l r u : item_reads i ts -> items_read l r -> ts ++ r = u -> items_read (i :: l) u.
Proof. intros H K <-. constructor; assumption. Qed.
Lemma twelve : integer 12 (code "12") /\ 0 <= 12 < 256.
Proof. split; [|lia]. apply (In_plus (text "12") 12). apply natural_of. reflexivity. Qed.
Lemma struct_reads k gs n vs fs : Forall2 (fits k) vs fs -> items_read (struct_items gs n fs) (struct_text gs n vs).
Proof.
  intros H. unfold struct_items. eapply items_cons; [apply I_record; apply (fields_ok k vs fs H)| |].
  - eapply items_cons; [apply I_constructor; [apply hint_of; constructor; [|constructor]; eexists; eexists; (split; [reflexivity|left; reflexivity])|apply (params_ok k vs fs H)]| |].
    + eapply items_cons; [|constructor|].
      * eapply (I_protocol n 12 _ _ _ []); [exact (proj1 twelve)|exact (proj2 twelve)| | |exact hint_nil|apply (struct_fill_ok k n vs fs H)|apply (struct_write_ok k vs fs H)].
        -- apply (hint_of [no_snake]). constructor; [|constructor]. eexists; eexists; (split; [reflexivity|left; reflexivity]).
        -- apply (hint_of [listed "inline" "never"]). constructor; [|constructor]. eexists; eexists; (split; [reflexivity|right; reflexivity]).
      * reflexivity.
    + reflexivity.
  - unfold struct_text. rewrite (inits_ok k vs fs H). flat. rewrite ?app_nil_r. reflexivity.
Qed.
