(** Whole declarations, and thrift! *)
From Coq Require Import Ascii.
From Verif Require Import Base ErrorName Types Macro RustLex RustMacro MacrosText MacroRules SpecRust P_RustMacro RustCode SpecExpand P_Expand P_ExpandItems P_ExpandUnion.
Open Scope Z_scope.
Open Scope list_scope.

Lemma attrs_same gss gs : attributes_text (map (@List.concat tree) gss) = attributes_text gs -> map (@List.concat tree) gss = gs.
Proof. apply attributes_text_inj. Qed.
Lemma struct_expands k gs n mfs fs body : attrs (attributes_text gs) -> n <> "_"%string -> sequence struct_field mfs body -> expand_fields false mfs = Some fs -> Forall (fun f => plain (f_name f)) fs ->
  exists out, expansion macros (S (S (S k))) "thrift_struct" (attributes_text gs ++ [name "struct"; name n; Gr Brace body]) = Some out /\ items_read (struct_items gs n fs) out.
Proof.
  intros Ha Hn Hb Hf Hp.
  assert (D : thrift_struct (attributes_text gs ++ [name "struct"; name n; Gr Brace body]) = Some (MStruct mfs)) by (apply thrift_struct_ok; exists (attributes_text gs), n, body, mfs; auto 6).
  unfold thrift_struct in D. destruct (declaration p_thrift_struct field_of _) as [l|] eqn:E; [|discriminate]. injection D as ->.
  destruct (single_match "struct" p_field field_of _ _ _ _ Ha E) as (gss & xs & M & Eg & Hx & Ex). apply attrs_same in Eg.
  destruct (view_fields k xs mfs fs Hx Ex Hf Hp) as (vs & -> & Hv). exists (struct_text gs n vs). split; [|exact (struct_reads k gs n vs fs Hv)].
  rewrite (expands (S (S k)) "thrift_struct" [(struct_pats, struct_template)] _ eq_refl), by_eq. change (map erase struct_pats) with (single "struct" p_field). rewrite M.
  exact (struct_out k gs gss n vs fs Hn Hv Eg).
Qed.
Lemma union_expands k gs n mfs f fs body : attrs (attributes_text gs) -> n <> "_"%string -> sequence union_field mfs body -> expand_fields true mfs = Some (f :: fs) -> Forall (fun f => plain (f_name f)) (f :: fs) ->
  exists out, expansion macros (S (S (S k))) "thrift_union" (attributes_text gs ++ [name "union"; name n; Gr Brace body]) = Some out /\ items_read (union_items gs n f fs) out.
Proof.
  intros Ha Hn Hb Hf Hp.
  assert (D : thrift_union (attributes_text gs ++ [name "union"; name n; Gr Brace body]) = Some (MUnion mfs)) by (apply thrift_union_ok; exists (attributes_text gs), n, body, mfs; auto 6).
  unfold thrift_union in D. destruct (declaration p_thrift_union variant_of _) as [l|] eqn:E; [|discriminate]. injection D as ->.
  destruct (single_match "union" p_variant variant_of _ _ _ _ Ha E) as (gss & xs & M & Eg & Hx & Ex). apply attrs_same in Eg.
  destruct (view_variants k xs mfs _ Hx Ex Hf Hp) as (ws & -> & Hv). destruct ws as [|v vs]; [inversion Hv|].
  exists (union_text gs n (v_n v) (v :: vs)). split; [|exact (union_reads k gs n v vs f fs Hv)].
  rewrite (expands (S (S k)) "thrift_union" [(union_pats, union_template)] _ eq_refl), by_eq. change (map erase union_pats) with (single "union" p_variant). rewrite M.
  exact (union_out k gs gss n v vs _ Hv Eg).
Qed.
Lemma enum_expands k gs n cs body : attrs (attributes_text gs) -> n <> "_"%string -> sequence constant cs body ->
  exists out, expansion macros (S k) "thrift_enum" (attributes_text gs ++ [name "enum"; name n; Gr Brace body]) = Some out /\ items_read (enum_items gs n cs) out.
Proof.
  intros Ha Hn Hb.
  assert (D : thrift_enum (attributes_text gs ++ [name "enum"; name n; Gr Brace body]) = Some (MEnum cs)) by (apply thrift_enum_ok; exists (attributes_text gs), n, body, cs; auto 6).
  unfold thrift_enum in D. destruct (declaration p_thrift_enum constant_of _) as [l|] eqn:E; [|discriminate]. injection D as ->.
  destruct (single_match "enum" p_constant constant_of _ _ _ _ Ha E) as (gss & xs & M & Eg & Hx & Ex). apply attrs_same in Eg.
  destruct (view_constants xs cs Hx Ex) as (vs & -> & Hv). exists (enum_text gs n vs). split; [|exact (enum_reads gs n vs cs Hv)].
  rewrite (expands k "thrift_enum" [(enum_pats, enum_template)] _ eq_refl), by_eq. change (map erase enum_pats) with (single "enum" p_constant). rewrite M.
  exact (enum_out (expansion macros k) gs gss n vs Eg).
Qed.

(** * thrift! *)
Definition thrift_rules := Eval vm_compute in match rules_of macros "thrift" with Some l => l | None => [] end.
Definition several_pats (word : string) : list npat :=
  [NRep false [NTk (LPunct "#"); NGrp Bracket [NRep false [NVar "def_attrs" Meta]]]; NTk (LId word); NVar "identifier" Ident;
   NGrp Brace [NRep false [NVar "definitions" Tree]]; NRep false [NVar "remainder" Tree]].
Definition several_template (word m : string) : list template :=
  [XCall m [XRep [XTk (LPunct "#"); XGrp Bracket [XRep [XVar "def_attrs"] None]] None; XTk (LId word); XVar "identifier"; XGrp Brace [XRep [XVar "definitions"] None]];
   XCall "thrift" [XRep [XVar "remainder"] None]].
Definition namespace_pats : list npat :=
  [NRep false [NTk (LPunct "#"); NGrp Bracket [NRep false [NVar "def_attrs" Meta]]]; NTk (LId "namespace"); NVar "identifier" Ident; NVar "namespace" Ident; NRep false [NVar "remainder" Tree]].
Lemma thrift_rules_eq : thrift_rules =
  [(several_pats "struct", several_template "struct" "thrift_struct"); (several_pats "union", several_template "union" "thrift_union");
   (several_pats "enum", several_template "enum" "thrift_enum"); (namespace_pats, [XCall "thrift" [XRep [XVar "remainder"] None]]); ([], [])].
Proof. reflexivity. Qed.
Lemma trees_collect x ts : collect (NRep false [NVar x Tree]) (Reps (map (fun t => [Got [t]]) ts)) = [EReps [x] (map (fun t => [EOne x [t]]) ts)].
Proof. cbn [collect flat_map variables app]. rewrite map_map. reflexivity. Qed.
Lemma trees_collect_all x ts : collect_all collect [NRep false [NVar x Tree]] [Reps (map (fun t => [Got [t]]) ts)] = [EReps [x] (map (fun t => [EOne x [t]]) ts)].
Proof. cbn [collect_all]. rewrite trees_collect. reflexivity. Qed.
Lemma concat_single {A} (l : list A) : List.concat (map (fun a => [a]) l) = l.
Proof. induction l as [|a l IH]; [reflexivity|]. cbn [map List.concat app]. rewrite IH. reflexivity. Qed.
Lemma trees_out call env x ts xs o : the_rounds env [x] = Some (map (fun t => [EOne x [t]]) ts) -> tr call env xs o -> tr call env (XRep [XVar x] None :: xs) (ts ++ o).
Proof.
  intros H K. eapply tr_eq.
  - eapply (tr_rep (fun t => [EOne x [t]]) (fun t => [t])) with (l := ts); [exact H| |exact K].
    apply Forall_forall. intros t _. eapply tr_eq; [eapply tr_var; [cbn [app the_one]; rewrite String.eqb_refl; reflexivity|apply tr_nil]|]. reflexivity.
  - rewrite separated_none, concat_single. reflexivity.
Qed.
Lemma several_out call word m gs n body r o1 o2 : attrs (attributes_text gs) -> n <> "_"%string ->
  call m (attributes_text gs ++ [name word; name n; Gr Brace body]) = Some o1 -> call "thrift"%string r = Some o2 ->
  exists fs, match_all (several word) (attributes_text gs ++ name word :: name n :: Gr Brace body :: r) = Some fs /\
    transcription call (collect_all collect (several_pats word) fs) (several_template word m) = Some (o1 ++ o2).
Proof.
  intros Ha Hn H1 H2. destruct (several_complete word _ n body r Ha Hn) as (al & Eq & M). eexists. split; [exact M|].
  pose proof (match_all_shaped _ _ _ M) as Hs. inversion Hs as [|p1 y1 ps1 ys1 Hs1 _]; subst. destruct (attrs_shape _ Hs1) as (gss & E). injection E as ->.
  rewrite again_found in Eq. unfold several_pats. unfold collect_all. rewrite (collect_attrs "def_attrs" gss). rewrite !trees_collect. cbn [collect app].
  rewrite trees_collect_all. cbn [app]. unfold several_template. match goal with |- transcription ?c ?env ?x = Some ?o => change (tr c env x o) end. eapply tr_eq.
  - eapply tr_call; [| |eapply tr_call; [apply trees_out with (ts := r); [reflexivity|apply tr_nil]| |apply tr_nil]].
    + eapply tr_eq; [apply unguarded_out with (gss := gss); [reflexivity|]; go; apply trees_out with (ts := body); [reflexivity|apply tr_nil]|].
      rewrite Eq. rewrite app_nil_r. reflexivity.
    + exact H1.
    + rewrite app_nil_r. exact H2.
  - rewrite app_nil_r. reflexivity.
Qed.
Lemma namespace_out call a l n r o : attrs a -> l <> "_"%string -> n <> "_"%string -> call "thrift"%string r = Some o ->
  exists fs, match_all p_namespace ((a ++ [name "namespace"; name l; name n]) ++ r) = Some fs /\
    transcription call (collect_all collect namespace_pats fs) [XCall "thrift" [XRep [XVar "remainder"] None]] = Some o.
Proof.
  intros Ha Hl Hn H. destruct (namespace_complete a l n r Ha Hl Hn) as (x & y & z & w & M). eexists. split; [exact M|].
  pose proof (match_all_shaped _ _ _ M) as Hs. inversion Hs as [|p1 y1 ps1 ys1 Hs1 Hs']; subst. destruct (attrs_shape _ Hs1) as (gss & ->).
  inversion Hs' as [|p2 y2 ps2 ys2 Hs2 Hs'']; subst. inversion Hs2; subst. inversion Hs'' as [|p3 y3 ps3 ys3 Hs3 Hs''']; subst. inversion Hs3; subst. inversion Hs''' as [|p4 y4 ps4 ys4 Hs4 _]; subst. inversion Hs4; subst.
  unfold namespace_pats, collect_all. rewrite (collect_attrs "def_attrs" gss), trees_collect. cbn [collect app].
  match goal with |- transcription ?c ?env ?x = Some ?o => change (tr c env x o) end. eapply tr_eq.
  - eapply tr_call; [apply trees_out with (ts := r); [reflexivity|apply tr_nil]|rewrite app_nil_r; exact H|apply tr_nil].
  - apply app_nil_r.
Qed.
Lemma items_app l ts : items_read l ts -> forall k us, items_read k us -> items_read (l ++ k) (ts ++ us).
Proof. induction 1 as [|i ts l r Hi _ IH]; intros k us K; [exact K|]. cbn [app]. rewrite <- app_assoc. constructor; [exact Hi|exact (IH _ _ K)]. Qed.
Lemma app_three {A} (a b : list A) x y z x' y' z' : a ++ [x; y; z] = b ++ [x'; y'; z'] -> a = b /\ x = x' /\ y = y' /\ z = z'.
Proof.
  intros H. change [x; y; z] with ([x; y] ++ [z]) in H. change [x'; y'; z'] with ([x'; y'] ++ [z']) in H. rewrite !app_assoc in H. apply app_inj_tail in H as (H & ->).
  change [x; y] with ([x] ++ [y]) in H. change [x'; y'] with ([x'] ++ [y']) in H. rewrite !app_assoc in H. apply app_inj_tail in H as (H & ->). apply app_inj_tail in H as (-> & ->). auto.
Qed.
Lemma thrift_expands ts l : produces ts l -> forall k, (List.length ts + 4 <= k)%nat -> exists out, expansion macros k "thrift" ts = Some out /\ items_read l out.
Proof.
  induction 1 as [|o u l ts l' Hd Hb _ IH]; intros k Hk.
  - destruct k as [|k]; [cbn in Hk; lia|]. exists []. split; [|constructor]. rewrite (expands k "thrift" thrift_rules _ eq_refl), thrift_rules_eq. reflexivity.
  - pose proof (declared_length _ _ Hd) as Hu. rewrite app_length in Hk. destruct k as [|k]; [lia|]. destruct (IH k ltac:(lia)) as (o2 & E2 & R2). clear IH.
    rewrite (expands k "thrift" thrift_rules _ eq_refl), thrift_rules_eq, !by_eq.
    change (map erase (several_pats "struct")) with (several "struct"). change (map erase (several_pats "union")) with (several "union"). change (map erase (several_pats "enum")) with (several "enum").
    change (map erase namespace_pats) with p_namespace.
    assert (K : exists k0, k = S (S (S k0))) by (exists (k - 3)%nat; lia). destruct K as (k0 & ->). remember (expansion macros (S (S (S k0)))) as call eqn:Ec.
    destruct Hb as [u|gs n mfs fs body Hf Hpl|gs n mfs f fs body Hf Hpl|gs n cs body].
    + inversion Hd as [| | |a m n Ha Hm Hn]; subst u. exists o2. split; [|exact R2].
      destruct (namespace_out call a m n ts o2 Ha Hm Hn E2) as (fs & -> & ->). rewrite <- app_assoc. cbn [app]. rewrite (several_none "struct"), (several_none "union"), (several_none "enum") by (assumption || discriminate). reflexivity.
    + inversion Hd as [a m fs' b Ha Hm Hs E E'| | |]; subst fs' m. apply app_three in E' as (-> & _ & _ & Eb). injection Eb as ->.
      destruct (struct_expands k0 gs n mfs fs body Ha (proj1 Hm) Hs Hf Hpl) as (o1 & E1 & R1). rewrite <- Ec in E1. exists (o1 ++ o2). split; [|exact (items_app _ _ R1 _ _ R2)].
      rewrite <- app_assoc. cbn [app]. destruct (several_out call "struct" "thrift_struct" gs n body ts o1 o2 Ha (proj1 Hm) E1 E2) as (x & -> & ->). reflexivity.
    + inversion Hd as [|a m fs' b Ha Hm Hs E E'| |]; subst fs' m. apply app_three in E' as (-> & _ & _ & Eb). injection Eb as ->.
      destruct (union_expands k0 gs n mfs f fs body Ha (proj1 Hm) Hs Hf Hpl) as (o1 & E1 & R1). rewrite <- Ec in E1. exists (o1 ++ o2). split; [|exact (items_app _ _ R1 _ _ R2)].
      rewrite <- app_assoc. cbn [app]. destruct (several_out call "union" "thrift_union" gs n body ts o1 o2 Ha (proj1 Hm) E1 E2) as (x & -> & ->).
      rewrite (several_none "struct") by (assumption || discriminate). reflexivity.
    + inversion Hd as [| |a m fs' b Ha Hm Hs E E'|]; subst fs' m. apply app_three in E' as (-> & _ & _ & Eb). injection Eb as ->.
      destruct (enum_expands (S (S k0)) gs n cs body Ha (proj1 Hm) Hs) as (o1 & E1 & R1). rewrite <- Ec in E1. exists (o1 ++ o2). split; [|exact (items_app _ _ R1 _ _ R2)].
      rewrite <- app_assoc. cbn [app]. destruct (several_out call "enum" "thrift_enum" gs n body ts o1 o2 Ha (proj1 Hm) E1 E2) as (x & -> & ->).
      rewrite (several_none "struct"), (several_none "union") by (assumption || discriminate). reflexivity.
Qed.

(** What the model of the macros reads becomes something. *)
Lemma names_kept union mfs : forall fs, expand_fields union mfs = Some fs -> Forall (fun f => plain (m_name f)) mfs -> Forall (fun f => plain (f_name f)) fs.
Proof.
  induction mfs as [|m mfs IH]; intros fs H K; cbn [expand_fields] in H; [injection H as <-; constructor|]. inversion K; subst.
  destruct (declared_type _ _); [|discriminate]. destruct (if union then _ else _); [|discriminate]. destruct (expand_fields union mfs) as [fs'|]; [|discriminate]. injection H as <-.
  constructor; [assumption|]. apply IH; [reflexivity|assumption].
Qed.
Lemma produces_some ts ds E : declarations ds ts -> expand_all ds = Some E -> Forall (fun d => suitable (snd d)) ds -> exists l, produces ts l.
Proof.
  intros (os & Hs & ->). revert E. induction Hs as [|o u os us Hu Hs IH]; intros E H Hne; [exists []; constructor|].
  unfold somes in *. cbn [flat_map] in *. apply Forall_app in Hne as (Hn1 & Hn2).
  assert (K : exists E1 E2, expand_all (match o with Some a => [a] | None => [] end) = Some E1 /\ expand_all (flat_map (fun o => match o with Some a => [a] | None => [] end) os) = Some E2).
  { destruct o as [(n & d)|]; cbn [app expand_all] in *; [|exists [], E; auto]. destruct (expand d) as [d'|]; [|discriminate]. destruct (expand_all (flat_map _ os)) as [E'|]; [|discriminate]. eexists; eexists; auto. }
  destruct K as (E1 & E2 & H1 & H2). destruct (IH _ H2 Hn2) as (l' & Hl').
  assert (B : exists l, becomes o u l); [|destruct B as (l & B); exists (l ++ l'); econstructor; eassumption].
  destruct Hu as [a n mfs b Ha Hn Hb|a n mfs b Ha Hn Hb|a n cs b Ha Hn Hb|a l n Ha Hl Hn].
  - destruct (attrs_text a Ha) as (gs & ->). cbn [expand_all expand] in H1. destruct (expand_fields false mfs) as [fs|] eqn:Ef; [|discriminate].
    inversion Hn1 as [|? ? Hm _]; subst. eexists. constructor; [exact Ef|exact (names_kept _ _ _ Ef Hm)].
  - destruct (attrs_text a Ha) as (gs & ->). cbn [expand_all expand] in H1. pose proof (Forall_inv Hn1) as Hm. cbn [snd suitable] in Hm. destruct Hm as (Hm & Hm2).
    destruct (expand_fields true mfs) as [[|f fs]|] eqn:Ef; [|eexists; constructor; [exact Ef|exact (names_kept _ _ _ Ef Hm2)]|discriminate].
    exfalso. apply Hm. destruct mfs as [|m mfs]; [reflexivity|]. cbn [expand_fields] in Ef. destruct (declared_type _ _); [|discriminate]. destruct (expand_fields true mfs); discriminate.
  - destruct (attrs_text a Ha) as (gs & ->). eexists. constructor.
  - eexists. constructor.
Qed.

(** The methods in what a text produces are those of the definitions. *)
Lemma produces_declared ts l : produces ts l -> exists os, sequence declared os ts /\ forall E, expand_all (somes os) = Some E -> filter is_methods l = map methods E.
Proof.
  induction 1 as [|o u l ts l' Hd Hb _ (os & Hs & IH)].
  - exists []. split; [constructor|]. intros E H. injection H as <-. reflexivity.
  - exists (o :: os). split; [constructor; assumption|]. intros E H. rewrite filter_app. unfold somes in H. cbn [flat_map] in H. fold (somes os) in H.
    destruct Hb as [u|gs n mfs fs body Hf _|gs n mfs f fs body Hf _|gs n cs body]; cbn [app] in H; [exact (IH _ H)| | |]; cbn [expand_all expand] in H; rewrite ?Hf in H; cbn [option_map] in H;
      (destruct (expand_all (somes os)) as [E'|]; [|discriminate]); injection H as <-; rewrite (IH _ eq_refl); reflexivity.
Qed.
Lemma produced_methods ts l ds E : produces ts l -> declarations ds ts -> expand_all ds = Some E -> filter is_methods l = map methods E.
Proof.
  intros H K HE. destruct (produces_declared _ _ H) as (os & Hs & F). apply F. rewrite <- HE. f_equal. apply (declarations_unique (somes os) ds ts); [exists os; auto|exact K].
Qed.

(** Names without a prime *)
Definition plain_check (n : string) : bool := forallb (fun c => negb (Ascii.eqb c "'")) (list_ascii_of_string n).
Lemma plain_check_ok n : plain_check n = true -> plain n.
Proof.
  intros H m ->. unfold plain_check in H. induction m as [|c m IH]; cbn [append list_ascii_of_string forallb] in H; [discriminate|].
  apply andb_prop in H as (_ & H). exact (IH H).
Qed.
Definition suitable_check (d : mdef) : bool :=
  match d with
  | MStruct fs => forallb (fun f => plain_check (m_name f)) fs
  | MUnion fs => negb (Nat.eqb (List.length fs) 0) && forallb (fun f => plain_check (m_name f)) fs
  | MEnum _ => true
  end.
Lemma suitable_check_ok d : suitable_check d = true -> suitable d.
Proof.
  assert (F : forall fs, forallb (fun f => plain_check (m_name f)) fs = true -> Forall (fun f => plain (m_name f)) fs).
  { induction fs as [|f fs IH]; cbn [forallb]; intros H; constructor; apply andb_prop in H as (H & K); [exact (plain_check_ok _ H)|exact (IH K)]. }
  destruct d as [fs|fs|cs]; cbn [suitable_check suitable]; intros H; [exact (F _ H)| |exact I]. apply andb_prop in H as (H & K). split; [|exact (F _ K)]. intros ->. discriminate.
Qed.
Lemma all_suitable (ds : list (string * mdef)) : forallb (fun d => suitable_check (snd d)) ds = true -> Forall (fun d => suitable (snd d)) ds.
Proof.
  induction ds as [|d ds IH]; cbn [forallb]; intros H; constructor; apply andb_prop in H as (H & K); [exact (suitable_check_ok _ H)|exact (IH K)].
Qed.
Lemma text_expands ms ts l k : read_macros macros_rs_text = Some ms -> produces ts l -> (List.length ts + 4 <= k)%nat -> exists out, expansion ms k "thrift" ts = Some out /\ items_read l out.
Proof. rewrite macros_read. intros H. injection H as <-. intros K L. exact (thrift_expands _ _ K _ L). Qed.
Lemma declared_expand ms ts ds E k : read_macros macros_rs_text = Some ms -> declarations ds ts -> expand_all ds = Some E -> Forall (fun d => suitable (snd d)) ds -> (List.length ts + 4 <= k)%nat ->
  exists l out, produces ts l /\ expansion ms k "thrift" ts = Some out /\ items_read l out /\ filter is_methods l = map methods E.
Proof.
  intros Hm Hd He Hs Hk. destruct (produces_some _ _ _ Hd He Hs) as (l & Hl). destruct (text_expands _ _ _ _ Hm Hl Hk) as (out & Ho & Hr).
  exists l, out. split; [exact Hl|]. split; [exact Ho|]. split; [exact Hr|]. exact (produced_methods _ _ _ _ Hl Hd He).
Qed.
