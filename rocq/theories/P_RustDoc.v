(** The text of format.rs, and the documented syntax of the macros. *)
From Coq Require Import Ascii ZifyBool.
From Verif Require Import Base ErrorName Generator ParquetIdl ThriftLex ThriftParse ParquetThrift SpecThrift P_ThriftDoc
  Types Parquet Macro FormatRs P_Idl FormatText RustLex RustMacro SpecRust P_RustLex P_RustMacro.
Open Scope Z_scope.
Open Scope list_scope.

Definition format_rs_text : list Z := List.concat (map (fun l => text l ++ [10]) format_rs_lines).
Lemma some_eq {A} (a b : A) : Some a = Some b -> a = b.
Proof. congruence. Qed.
Lemma format_trees : exists g, token_trees format_rs_text =
  Some ([sign "#"; sign "!"; Gr Bracket [name "allow"; Gr Paren [name "non_snake_case"]];
         name "use"; name "compact_thrift_runtime"; sign "::"; name "thrift"; sign ";";
         name "use"; name "crate"; sign "::"; name "encodings"; sign "::"; name "EncodingSet"; sign ";";
         name "thrift"; sign "!"; Gr Brace g]) /\ thrift_macro g = Some format_rs.
Proof.
  assert (H : match token_trees format_rs_text with Some ts => match rev ts with Gr _ g :: _ => thrift_macro g | _ => None end | None => None end = Some format_rs) by (vm_compute; reflexivity).
  assert (K : option_map (fun ts => firstn 17 ts) (token_trees format_rs_text) = Some [sign "#"; sign "!"; Gr Bracket [name "allow"; Gr Paren [name "non_snake_case"]];
         name "use"; name "compact_thrift_runtime"; sign "::"; name "thrift"; sign ";";
         name "use"; name "crate"; sign "::"; name "encodings"; sign "::"; name "EncodingSet"; sign ";"; name "thrift"; sign "!"]) by (vm_compute; reflexivity).
  assert (L : match token_trees format_rs_text with Some ts => match skipn 17 ts with [Gr Brace _] => true | _ => false end | None => false end = true) by (vm_compute; reflexivity).
  destruct (token_trees format_rs_text) as [ts|]; [|discriminate]. apply some_eq in K.
  rewrite <- (firstn_skipn 17 ts). rewrite <- (firstn_skipn 17 ts) in H. rewrite K in H |- *. clear K. destruct (skipn 17 ts) as [|[l|[] g] [|u r]]; try discriminate.
  exists g. split; [reflexivity|]. rewrite rev_app_distr in H. exact H.
Qed.
Theorem format_text : exists g ts, rust_text format_rs_text ts /\
  grouped [sign "#"; sign "!"; Gr Bracket [name "allow"; Gr Paren [name "non_snake_case"]];
           name "use"; name "compact_thrift_runtime"; sign "::"; name "thrift"; sign ";";
           name "use"; name "crate"; sign "::"; name "encodings"; sign "::"; name "EncodingSet"; sign ";";
           name "thrift"; sign "!"; Gr Brace g] ts /\ declarations format_rs g.
Proof.
  destruct format_trees as (g & H & K). apply token_trees_ok in H as (ts & H & L). apply thrift_macro_ok in K. exists g, ts. auto.
Qed.

(** * The documented syntax *)
Lemma field_next f u r f' u' r' : struct_field f u -> struct_field f' u' -> u ++ r = u' ++ r' -> field_follow r -> field_follow r' -> f = f' /\ r = r'.
Proof.
  intros H H' E Hr Hr'. destruct (field_complete f u r H Hr) as (fs & E1 & F1). destruct (field_complete f' u' r' H' Hr') as (fs' & E2 & F2).
  rewrite E, E2 in E1. injection E1 as -> ->. split; [congruence|reflexivity].
Qed.
Lemma variant_next f u r f' u' r' : union_field f u -> union_field f' u' -> u ++ r = u' ++ r' -> field_follow r -> field_follow r' -> f = f' /\ r = r'.
Proof.
  intros H H' E Hr Hr'. destruct (variant_complete f u r H Hr) as (fs & E1 & F1). destruct (variant_complete f' u' r' H' Hr') as (fs' & E2 & F2).
  rewrite E, E2 in E1. injection E1 as -> ->. split; [congruence|reflexivity].
Qed.
Lemma sequence_follow {A} (g : A -> list tree -> Prop) l u : (forall a u, g a u -> exists t v, u = t :: v /\ (t = sign "#" \/ may_start Literal t = true)) ->
  sequence g l u -> field_follow u.
Proof. intros H [|a ts l' ts' Ha _]; [exact I|]. destruct (H _ _ Ha) as (t & v & -> & K). exact K. Qed.
Lemma documented_start b q u : documented_field b q u -> exists t v, u = t :: v /\ (t = sign "#" \/ may_start Literal t = true).
Proof. intros [a z i q' qs t e es n d ds s Ha Hi _ _ _ _ _ _ _ _]. exact (start_ok i _ a Ha (integer_begin z i Hi)). Qed.
Lemma documented_struct b u : documented_field true (Some b) u -> exists f, struct_field f u.
Proof.
  intros H. inversion H as [a z i q qs t e es n d ds s Ha Hi Hz Hq Ht He Hn Hd _ Hs]. subst. inversion Hq. subst. eexists. 
  cbn [app]. eapply (Fi_struct a z i b t e es n d ds s); eassumption.
Qed.
Lemma documented_union u : documented_field false None u -> exists f, union_field f u.
Proof.
  intros H. inversion H as [a z i q qs t e es n d ds s Ha Hi Hz Hq Ht He Hn Hd Hf Hs]. subst. inversion Hq. subst. rewrite (Hf eq_refl) in Hd. inversion Hd. subst. eexists.
  cbn [app]. eapply (Fi_union a z i t e es n s); eassumption.
Qed.
(** What cannot be the name of a field *)
Definition no_name (r : list tree) : Prop := match r with [] => True | t :: _ => t = sign "=" \/ t = sign ";" \/ t = sign "#" \/ t = sign "-" \/ exists w, t = lit w end.
Lemma integer_no_name z i r : integer z i -> no_name (i ++ r).
Proof. intros [w k _|w k _]; cbn; eauto 7. Qed.
Lemma documented_no_name b q u r : documented_field b q u -> no_name (u ++ r).
Proof.
  intros [a z i q' qs t e es n d ds s Ha Hi _ _ _ _ _ _ _ _]. destruct (attrs_start a Ha) as [->|(v & ->)]; [|cbn; auto].
  cbn [app]. rewrite <- app_assoc. exact (integer_no_name z i _ Hi).
Qed.
Lemma rest_no_name b d ds s qs us : default_value d ds -> semicolon s -> sequence (documented_field b) qs us -> no_name (ds ++ s ++ us).
Proof.
  intros [|v Hv] [|] Hl; cbn; auto. destruct Hl as [|q u l us Hu _]; [exact I|exact (documented_no_name b q u us Hu)].
Qed.
Lemma no_name_ident r : no_name r -> matches (Var Ident) r = None.
Proof. destruct r as [|t r]; [reflexivity|]. cbn. intros [->|[->|[->|[->|(w & ->)]]]]; reflexivity. Qed.
Lemma no_name_elem r : no_name r -> matches p_elem r = Some (Reps [], r).
Proof. intros H. apply opt_none. destruct r as [|t r]; [trivial|]. cbn in H. destruct H as [->|[->|[->|[->|(w & ->)]]]]; reflexivity. Qed.
Lemma struct_needs u qs us : documented_field true None u -> sequence (documented_field true) qs us -> in_order matches p_field (u ++ us) = None.
Proof.
  intros H Hl. inversion H as [a z i q qs' t e es n d ds s Ha Hi Hz Hq Ht He (Hn & Hk) Hd _ Hs]. subst. inversion Hq. subst. cbn [app].
  repeat (progress (rewrite <- ?app_assoc; cbn [app])).
  destruct (integer_start z i Hi) as (t0 & v0 & E0 & _ & Hh). pose proof (integer_literal z i Hi) as Hl'.
  destruct (attributes_complete a (i ++ sign ":" :: name t :: es ++ name n :: ds ++ s ++ us) Ha (not_hash_app _ _ _ _ E0 Hh)) as (l & E1).
  unfold p_field. rewrite in_cons, E1, in_cons, (literal_complete i _ Hl'), in_cons. unfold pu at 1, sign at 1. rewrite tk_complete, in_cons, (ident_complete _ _ Ht), in_cons.
  destruct He as [|e' He']; [|reflexivity]. cbn [app]. rewrite (ident_complete _ _ Hn), in_cons. fold p_elem. pose proof (rest_no_name _ _ _ _ _ _ Hd Hs Hl) as R.
  rewrite (no_name_elem _ R), in_cons, (no_name_ident _ R). reflexivity.
Qed.
Lemma maybe_none p ps l n r : p = Tk l -> l <> LId n -> matches (maybe (p :: ps)) (name n :: r) = Some (Reps [], name n :: r).
Proof.
  intros -> H. apply opt_none. cbn [any_of begins name is_rep andb]. rewrite orb_false_r.
  destruct (leaf_eqb l (LId n)) eqn:E; [apply leaf_eqb_ok in E; congruence|reflexivity].
Qed.
Lemma union_needs b u qs us : documented_field false (Some b) u -> sequence (documented_field false) qs us ->
  exists fs r, in_order matches p_variant (u ++ us) = Some (fs, r) /\ ~ field_follow r.
Proof.
  intros H Hl. inversion H as [a z i q qs' t e es n d ds s Ha Hi Hz Hq Ht He Hn Hd Hf Hs]. subst. rewrite (Hf eq_refl) in Hd. inversion Hd. inversion Hq. subst. cbn [app].
  repeat (progress (rewrite <- ?app_assoc; cbn [app])).
  destruct (integer_start z i Hi) as (t0 & v0 & E0 & _ & Hh). pose proof (integer_literal z i Hi) as Hl'.
  destruct (attributes_complete a (i ++ sign ":" :: name (demand b) :: name t :: es ++ name n :: s ++ us) Ha (not_hash_app _ _ _ _ E0 Hh)) as (l & E1).
  unfold p_variant. rewrite in_cons, E1, in_cons, (literal_complete i _ Hl'), in_cons. unfold pu at 1, sign at 1. rewrite tk_complete, in_cons, (ident_complete _ _ (demand_name b)), in_cons.
  rewrite (maybe_none _ _ (LPunct "<")) by (reflexivity || discriminate). rewrite in_cons, (ident_complete _ _ Ht), in_cons.
  destruct He as [|e' He']; cbn [app].
  - rewrite (maybe_none _ _ (LPunct ";")) by (reflexivity || discriminate). eexists _, _. split; [reflexivity|]. cbn. intros [K|K]; [discriminate|].
    apply bool_name_ok in K. destruct Hn as (_ & Hn). apply Hn. destruct K as [->| ->]; cbn; tauto.
  - rewrite (opt_none [pu ";"]) by reflexivity. eexists _, _. split; [reflexivity|]. cbn. intros [K|K]; discriminate.
Qed.

Lemma struct_documented qs us : sequence (documented_field true) qs us -> forall fs, sequence struct_field fs us -> Forall (fun q => q <> None) qs.
Proof.
  induction 1 as [|q u qs us Hu Hl IH]; intros fs Hf; [constructor|]. inversion Hf as [E|f v fs' vs Hv Hvs E1 E2].
  { destruct (documented_start _ _ _ Hu) as (t & w & -> & _). discriminate. }
  pose proof (sequence_follow _ _ _ field_start Hvs) as Fv. pose proof (sequence_follow _ _ _ (documented_start true) Hl) as Fu. destruct q as [b|].
  - constructor; [discriminate|]. destruct (documented_struct b u Hu) as (f' & Hf'). destruct (field_next _ _ _ _ _ _ Hv Hf' E2 Fv Fu) as (_ & ->). exact (IH _ Hvs).
  - pose proof (struct_needs _ _ _ Hu Hl) as K. destruct (field_complete f v vs Hv Fv) as (x & K2 & _). rewrite E2 in K2. congruence.
Qed.
Lemma union_documented qs us : sequence (documented_field false) qs us -> forall fs, sequence union_field fs us -> Forall (fun q => q = None) qs.
Proof.
  induction 1 as [|q u qs us Hu Hl IH]; intros fs Hf; [constructor|]. inversion Hf as [E|f v fs' vs Hv Hvs E1 E2].
  { destruct (documented_start _ _ _ Hu) as (t & w & -> & _). discriminate. }
  pose proof (sequence_follow _ _ _ variant_start Hvs) as Fv. pose proof (sequence_follow _ _ _ (documented_start false) Hl) as Fu. destruct q as [b|].
  - destruct (union_needs _ _ _ _ Hu Hl) as (x & r & K & Hr). destruct (variant_complete f v vs Hv Fv) as (y & K2 & _). rewrite E2, K in K2. injection K2 as _ ->. contradiction.
  - constructor; [reflexivity|]. destruct (documented_union u Hu) as (f' & Hf'). destruct (variant_next _ _ _ _ _ _ Hv Hf' E2 Fv Fu) as (_ & ->). exact (IH _ Hvs).
Qed.
Lemma struct_demanded qs us : sequence (documented_field true) qs us -> Forall (fun q => q <> None) qs -> exists fs, sequence struct_field fs us.
Proof.
  induction 1 as [|q u qs us Hu Hl IH]; intros F; [exists []; constructor|]. inversion F as [|x y Hq Hqs]. subst. destruct q as [b|]; [|congruence].
  destruct (documented_struct b u Hu) as (f & Hf). destruct (IH Hqs) as (fs & Hfs). exists (f :: fs). constructor; assumption.
Qed.
Lemma union_free qs us : sequence (documented_field false) qs us -> Forall (fun q => q = None) qs -> exists fs, sequence union_field fs us.
Proof.
  induction 1 as [|q u qs us Hu Hl IH]; intros F; [exists []; constructor|]. inversion F as [|x y Hq Hqs]. subst.
  destruct (documented_union u Hu) as (f & Hf). destruct (IH Hqs) as (fs & Hfs). exists (f :: fs). constructor; assumption.
Qed.
Lemma declarations_one ds a w n body : attrs a -> declarations ds (a ++ [name w; name n; Gr Brace body]) -> exists o, declared o (a ++ [name w; name n; Gr Brace body]).
Proof.
  intros Ha (l & H & _). inversion H as [E|o u l' us Hu Hl E1 E2]; [destruct a; discriminate|]. exists o.
  inversion Hu as [a' n' fs ts Ha' Hn Hs E3 E4|a' n' fs ts Ha' Hn Hs E3 E4|a' n' fs ts Ha' Hn Hs E3 E4|a' l0 n' Ha' H1 H2 E3 E4]; subst u;
    rewrite <- app_assoc in E2; cbn [app] in E2; destruct (attrs_unique _ _ _ _ _ _ Ha' Ha E2) as (-> & <- & E5); inversion E5; subst; rewrite ?app_nil_r; exact Hu.
Qed.
Theorem struct_accepted a n qs body : attrs a -> usable n -> sequence (documented_field true) qs body ->
  ((exists ds, thrift_macro (a ++ [name "struct"; name n; Gr Brace body]) = Some ds) <-> Forall (fun q => q <> None) qs).
Proof.
  intros Ha Hn Hq. split.
  - intros (ds & H). apply thrift_macro_ok in H. destruct (declarations_one _ _ _ _ _ Ha H) as (o & K).
    inversion K as [a' n' fs ts Ha' Hn' Hs E3 E4|a' n' fs ts Ha' Hn' Hs E3 E4|a' n' fs ts Ha' Hn' Hs E3 E4|a' l0 n' Ha' H1 H2 E3 E4];
      destruct (attrs_unique _ _ _ _ _ _ Ha' Ha E4) as (-> & E & E5); try discriminate E. injection E5 as -> ->. exact (struct_documented _ _ Hq _ Hs).
  - intros F. destruct (struct_demanded _ _ Hq F) as (fs & Hs). exists [(n, MStruct fs)]. apply thrift_macro_ok. exists [Some (n, MStruct fs)]. split; [|reflexivity].
    rewrite <- (app_nil_r (a ++ _)). constructor; [constructor; assumption|constructor].
Qed.
Theorem union_accepted a n qs body : attrs a -> usable n -> sequence (documented_field false) qs body ->
  ((exists ds, thrift_macro (a ++ [name "union"; name n; Gr Brace body]) = Some ds) <-> Forall (fun q => q = None) qs).
Proof.
  intros Ha Hn Hq. split.
  - intros (ds & H). apply thrift_macro_ok in H. destruct (declarations_one _ _ _ _ _ Ha H) as (o & K).
    inversion K as [a' n' fs ts Ha' Hn' Hs E3 E4|a' n' fs ts Ha' Hn' Hs E3 E4|a' n' fs ts Ha' Hn' Hs E3 E4|a' l0 n' Ha' H1 H2 E3 E4];
      destruct (attrs_unique _ _ _ _ _ _ Ha' Ha E4) as (-> & E & E5); try discriminate E. injection E5 as -> ->. exact (union_documented _ _ Hq _ Hs).
  - intros F. destruct (union_free _ _ Hq F) as (fs & Hs). exists [(n, MUnion fs)]. apply thrift_macro_ok. exists [Some (n, MUnion fs)]. split; [|reflexivity].
    rewrite <- (app_nil_r (a ++ _)). constructor; [constructor; assumption|constructor].
Qed.
Lemma documented_wrong : exists s u : list tree, documented_field true None s /\ thrift_macro [name "struct"; name "a"; Gr Brace s] = None /\
  documented_field false (Some true) u /\ thrift_macro [name "union"; name "a"; Gr Brace u] = None.
Proof.
  exists [lit [49]; sign ":"; name "i64"; name "b"], [lit [49]; sign ":"; name "required"; name "i64"; name "b"].
  assert (Ha : attrs []) by (exists []; constructor). assert (Hi : integer 1 [lit [49]]).
  { apply In_plus. apply (Nat_decimal 49 [] 1); [unfold decimal; lia|]. apply (Num_digit 10 [] 0 49 1); [constructor|lia|left; lia]. }
  assert (Hu : usable "b") by (split; [discriminate|cbn; intuition discriminate]).
  repeat split.
  - apply (Do_field true [] 1 [lit [49]] None [] "i64" None [] "b" None [] []); try assumption; try constructor; try discriminate; lia.
  - apply (Do_field false [] 1 [lit [49]] (Some true) [name "required"] "i64" None [] "b" None [] []); try assumption; try (constructor; fail); try discriminate; try reflexivity.
    split; reflexivity || lia.
Qed.
Lemma one_reading s ts ts' g g' : rust_text s ts -> rust_text s ts' -> grouped g ts -> grouped g' ts' -> ts = ts' /\ g = g'.
Proof.
  intros H H' K K'. apply rust_lex_ok in H, H'. assert (ts = ts') by congruence. subst ts'. apply trees_ok in K, K'. split; congruence.
Qed.

(** * Texts read by the generator and by the macro *)
Lemma hash_differs : exists s h g ds, load 100 s = KOk (h, [("a", StructDef [])])%string /\
  token_trees s = Some g /\ thrift_macro g = Some ds /\
  ds = [("a", MStruct [{| m_id := 1; m_req := Some true; m_type := "i32"; m_elem := None; m_name := "x"; m_default := None |}])]%string.
Proof.
  exists (text "struct a { #[b] 1: required i32 x;" ++ [10] ++ text "}").
  eexists _, _, _. split; [vm_compute; reflexivity|]. split; [vm_compute; reflexivity|]. split; [vm_compute; reflexivity|reflexivity].
Qed.
Lemma comment_differs : exists s h, load 100 s = KOk (h, [("a", StructDef [])])%string /\ token_trees s = Some [] /\ thrift_macro [] = Some [].
Proof. exists (text "/* /* */ struct a {} // */" ++ [10]). eexists. split; [vm_compute; reflexivity|]. split; vm_compute; reflexivity. Qed.
Lemma rejected_all o : match o with Some g => match thrift_macro g with None => true | _ => false end | None => false end = true -> forall g, o = Some g -> thrift_macro g = None.
Proof. intros H g ->. destruct (thrift_macro g); [discriminate|reflexivity]. Qed.
Lemma parquet_rejected : (forall g, token_trees parquet_thrift_text = Some g -> thrift_macro g = None) /\
  exists x, load (List.length parquet_thrift_text) parquet_thrift_text = KOk x.
Proof.
  split.
  - apply rejected_all. vm_compute. reflexivity.
  - destruct parquet_loaded as (doc & _ & H). eexists. apply H. apply Nat.le_refl.
Qed.
Lemma format_schema : exists pre g, token_trees format_rs_text = Some (pre ++ [name "thrift"; sign "!"; Gr Brace g]) /\
  exists ds, thrift_macro g = Some ds /\ expand_all ds = Some parquet_env.
Proof.
  destruct format_trees as (g & H & K). eexists (firstn 15 _), g. split; [rewrite H|exists format_rs; split; [exact K|exact (proj1 format_rs_expands)]].
  instantiate (1 := [sign "#"; sign "!"; Gr Bracket [name "allow"; Gr Paren [name "non_snake_case"]];
         name "use"; name "compact_thrift_runtime"; sign "::"; name "thrift"; sign ";";
         name "use"; name "crate"; sign "::"; name "encodings"; sign "::"; name "EncodingSet"; sign ";"]). reflexivity.
Qed.
