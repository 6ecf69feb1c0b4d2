(** The rules of macros.rs produce the items of SpecExpand.v. *)
From Coq Require Import Ascii.
From Verif Require Import Base ErrorName Types Macro RustLex RustMacro MacrosText MacroRules SpecRust P_RustMacro RustCode SpecExpand.
Open Scope Z_scope.
Open Scope list_scope.

Definition macros := Eval vm_compute in match read_macros macros_rs_text with Some m => m | None => [] end.
Lemma macros_read : read_macros macros_rs_text = Some macros.
Proof. vm_compute. reflexivity. Qed.

(** * What patterns find *)
Inductive shaped : pat -> found -> Prop :=
| Sh_tk l : shaped (Tk l) Skip
| Sh_var f ts r r' : take f r = Some (ts, r') -> shaped (Var f) (Got ts)
| Sh_grp d ps fs : Forall2 shaped ps fs -> shaped (Grp d ps) (Sub fs)
| Sh_rep opt ps l : (opt = true -> (List.length l <= 1)%nat) -> Forall (Forall2 shaped ps) l -> shaped (Rep opt ps) (Reps l).
Section PatInd.
  Variable P : pat -> Prop.
  Hypothesis Htk : forall l, P (Tk l).
  Hypothesis Hvar : forall f, P (Var f).
  Hypothesis Hgrp : forall d ps, Forall P ps -> P (Grp d ps).
  Hypothesis Hrep : forall o ps, Forall P ps -> P (Rep o ps).
  Fixpoint pat_all (p : pat) : P p :=
    match p with
    | Tk l => Htk l
    | Var f => Hvar f
    | Grp d ps => Hgrp d ps ((fix go ps : Forall P ps := match ps with [] => Forall_nil _ | p :: ps' => Forall_cons _ (pat_all p) (go ps') end) ps)
    | Rep o ps => Hrep o ps ((fix go ps : Forall P ps := match ps with [] => Forall_nil _ | p :: ps' => Forall_cons _ (pat_all p) (go ps') end) ps)
    end.
End PatInd.
Definition shapes (p : pat) : Prop := forall ts x r, matches p ts = Some (x, r) -> shaped p x.
Lemma in_order_shapes ps : Forall shapes ps -> forall ts fs r, in_order matches ps ts = Some (fs, r) -> Forall2 shaped ps fs.
Proof.
  induction 1 as [|p ps Hp _ IH]; intros ts fs r H; cbn [in_order] in H; [injection H as <- <-; constructor|].
  destruct (matches p ts) as [(x, r1)|] eqn:E; [|discriminate]. destruct (in_order matches ps r1) as [(xs, r2)|] eqn:E2; [|discriminate]. injection H as <- <-.
  constructor; [exact (Hp _ _ _ E)|exact (IH _ _ _ E2)].
Qed.
Lemma repeated_shapes {A} b (f : list tree -> option (A * list tree)) (P : A -> Prop) : (forall ts x r, f ts = Some (x, r) -> P x) ->
  forall n ts l r, repeated b f n ts = Some (l, r) -> Forall P l /\ (List.length l <= n)%nat.
Proof.
  intros Hf n. induction n as [|n IH]; intros ts l r H; destruct ts as [|t ts]; cbn [repeated] in H; try (injection H as <- <-; split; [constructor|cbn [List.length]; lia]).
  destruct (b t); [|injection H as <- <-; split; [constructor|cbn [List.length]; lia]].
  destruct (f (t :: ts)) as [(x, r1)|] eqn:E; [|discriminate].
  fold (repeated b f) in H. destruct (repeated b f n r1) as [(xs, r2)|] eqn:E2; [|discriminate]. injection H as <- <-.
  destruct (IH _ _ _ E2). split; [constructor; [exact (Hf _ _ _ E)|assumption]|cbn [List.length]; lia].
Qed.
Lemma matches_shaped p : shapes p.
Proof.
  induction p as [l|f|d ps IH|o ps IH] using pat_all; intros ts x r H.
  - apply tk_sound in H as (-> & _). constructor.
  - cbn [matches] in H. destruct (take f ts) as [(y, r1)|] eqn:E; [|discriminate]. injection H as <- <-. econstructor. exact E.
  - apply grp_sound in H as (g & fs & -> & -> & H). constructor. exact (in_order_shapes ps IH _ _ _ H).
  - rewrite rep_eq in H. destruct (repeated _ _ _ _) as [(l, r1)|] eqn:E; [|discriminate]. injection H as <- <-.
    apply (repeated_shapes _ _ (Forall2 shaped ps)) in E; [|intros ts' x' r' H; exact (in_order_shapes ps IH _ _ _ H)]. destruct E as (E1 & E2).
    constructor; [|exact E1]. intros ->. exact E2.
Qed.
Lemma in_order_shaped ps ts fs r : in_order matches ps ts = Some (fs, r) -> Forall2 shaped ps fs.
Proof. apply in_order_shapes. apply Forall_forall. intros p _. apply matches_shaped. Qed.
Lemma match_all_shaped ps ts fs : match_all ps ts = Some fs -> Forall2 shaped ps fs.
Proof. unfold match_all. destruct (in_order matches ps ts) as [(fs', [|t r])|] eqn:E; try discriminate. intros H. injection H as <-. exact (in_order_shaped _ _ _ _ E). Qed.

(** Attributes *)
Definition found_attrs (gss : list (list (list tree))) : list (list found) := map (fun ms => [Skip; Sub [Reps (map (fun t => [Got t]) ms)]]) gss.
Lemma rounds_of {A} (P : list found -> Prop) (f : A -> list found) l : (forall x, P x -> exists a, x = f a) -> Forall P l -> exists xs, l = map f xs.
Proof.
  intros H. induction 1 as [|x l Hx _ (xs & IH)]; [exists []; reflexivity|]. destruct (H x Hx) as (a & ->). exists (a :: xs). cbn [map]. rewrite <- IH. reflexivity.
Qed.
Lemma attrs_shape x : shaped attributes x -> exists gss, x = Reps (found_attrs gss).
Proof.
  intros H. inversion H as [| | |opt ps l _ Hl]; subst. assert (K : exists gss, l = found_attrs gss); [|destruct K as (gss & ->); exists gss; reflexivity].
  apply (rounds_of _ (fun ms => [Skip; Sub [Reps (map (fun t => [Got t]) ms)]])) with (2 := Hl).
  intros y Hy. inversion Hy as [|p1 y1 ps1 ys1 H1 Hy1]; subst. inversion Hy1 as [|p2 y2 ps2 ys2 H2 Hy2]; subst. inversion Hy2; subst.
  inversion H1; subst. inversion H2 as [| |d ps fs Hf|]; subst. inversion Hf as [|p3 y3 ps3 ys3 H3 Hf1]; subst. inversion Hf1; subst.
  inversion H3 as [| | |opt ps l1 _ Hl1]; subst. assert (K : exists ms, l1 = map (fun t => [Got t]) ms); [|destruct K as (ms & ->); exists ms; reflexivity].
  apply (rounds_of _ (fun t => [Got t])) with (2 := Hl1). intros z Hz. inversion Hz as [|p4 y4 ps4 ys4 H4 Hz1]; subst. inversion Hz1; subst. inversion H4; subst. eexists. reflexivity.
Qed.
Lemma again_metas ms : again (map (fun t => [Got t]) ms) = List.concat ms.
Proof. induction ms as [|m ms IH]; cbn [map again flat_map got List.concat app]; [reflexivity|]. rewrite app_nil_r. f_equal. exact IH. Qed.
Lemma again_found gss : attributes_again (found_attrs gss) = attributes_text (map (@List.concat tree) gss).
Proof. induction gss as [|g gss IH]; [reflexivity|]. cbn [found_attrs map attributes_again flat_map attributes_text app]. rewrite again_metas. f_equal. f_equal. exact IH. Qed.
Lemma attributes_text_inj l : forall k, attributes_text l = attributes_text k -> l = k.
Proof.
  induction l as [|g l IH]; intros [|h k]; cbn [attributes_text flat_map app]; intros H; try discriminate; [reflexivity|]. injection H as <- H. f_equal. apply IH. exact H.
Qed.
Lemma attrs_text a : attrs a -> exists gs, a = attributes_text gs.
Proof.
  intros (l & H). induction H as [|x ts l ts' Hx _ (gs & ->)]; [exists []; reflexivity|]. destruct Hx as [ms g _]. exists (g :: gs). reflexivity.
Qed.

(** * Transcription *)
Definition tr (call : string -> list tree -> option (list tree)) (env : list entry) (xs : list template) (o : list tree) : Prop := transcription call env xs = Some o.
Section Tr.
  Variable call : string -> list tree -> option (list tree).
  Variable env : list entry.
  Lemma tr_nil : tr call env [] [].
  Proof. reflexivity. Qed.
  Lemma tr_cons x xs a o : transcribe call env x = Some a -> tr call env xs o -> tr call env (x :: xs) (a ++ o).
  Proof. unfold tr, transcription. intros H K. cbn [joined]. rewrite H. fold (joined (transcribe call env)). rewrite K. reflexivity. Qed.
  Lemma tr_tk l xs o : tr call env xs o -> tr call env (XTk l :: xs) (Lf l :: o).
  Proof. apply (tr_cons (XTk l) xs [Lf l] o). reflexivity. Qed.
  Lemma tr_var x ts xs o : the_one env x = Some ts -> tr call env xs o -> tr call env (XVar x :: xs) (ts ++ o).
  Proof. intros H. apply tr_cons. exact H. Qed.
  Lemma tr_grp d g o1 xs o : tr call env g o1 -> tr call env xs o -> tr call env (XGrp d g :: xs) (Gr d o1 :: o).
  Proof. intros H. apply (tr_cons (XGrp d g) xs [Gr d o1] o). cbn [transcribe]. unfold tr, transcription in H. rewrite H. reflexivity. Qed.
  Lemma tr_call m g ts o1 xs o : tr call env g ts -> call m ts = Some o1 -> tr call env xs o -> tr call env (XCall m g :: xs) (o1 ++ o).
  Proof. intros H K. apply tr_cons. cbn [transcribe]. unfold tr, transcription in H. rewrite H. exact K. Qed.
  Lemma tr_stringify g ts xs o : tr call env g ts -> tr call env xs o -> tr call env (XStringify g :: xs) (quoted_literal (text (literal_text ts)) :: o).
  Proof. intros H. apply (tr_cons (XStringify g) xs [quoted_literal (text (literal_text ts))] o). cbn [transcribe]. unfold tr, transcription in H. rewrite H. reflexivity. Qed.
  Lemma tr_concat g ts w xs o : tr call env g ts -> contents ts = Some w -> tr call env xs o -> tr call env (XConcat g :: xs) (quoted_literal w :: o).
  Proof. intros H K. apply (tr_cons (XConcat g) xs [quoted_literal w] o). cbn [transcribe]. unfold tr, transcription in H. rewrite H, K. reflexivity. Qed.
End Tr.
Lemma tr_rep {V} (C : V -> list entry) (G : V -> list tree) call env g sep l xs o :
  the_rounds env (flat_map used g) = Some (map C l) -> Forall (fun v => tr call (C v ++ env) g (G v)) l -> tr call env xs o ->
  tr call env (XRep g sep :: xs) (separated sep (map G l) ++ o).
Proof.
  intros H HF. apply tr_cons. cbn [transcribe]. rewrite H. clear H xs o.
  assert (K : all_of (fun round => joined (transcribe call (round ++ env)) g) (map C l) = Some (map G l)); [|rewrite K; reflexivity].
  induction HF as [|v l Hv _ IH]; [reflexivity|]. cbn [map all_of]. unfold tr, transcription in Hv. rewrite Hv, IH. reflexivity.
Qed.
Lemma tr_eq call env xs o o' : tr call env xs o -> o = o' -> tr call env xs o'.
Proof. intros H <-. exact H. Qed.
Lemma separated_none l : separated None l = List.concat l.
Proof. induction l as [|a [|b l] IH]; [reflexivity|cbn [separated List.concat]; rewrite app_nil_r; reflexivity|]. change (separated None (a :: b :: l)) with (a ++ [] ++ separated None (b :: l)). rewrite IH. reflexivity. Qed.
Lemma separated_cons s a l : exists sep, separated (Some (LPunct s)) (a :: l) = a ++ sep ++ separated (Some (LPunct s)) l /\ (sep = [sign s] \/ (sep = [] /\ separated (Some (LPunct s)) l = [])) /\ (l <> [] -> sep = [sign s]).
Proof.
  destruct l as [|b l].
  - exists []. cbn [separated app]. rewrite app_nil_r. split; [reflexivity|]. split; [right; auto|congruence].
  - exists [sign s]. split; [reflexivity|]. split; [left; reflexivity|reflexivity].
Qed.

Ltac codes := repeat match goal with |- context [code ?s] => let v := eval vm_compute in (code s) in change (code s) with v end.
Ltac flat := codes; unfold parens, braces; repeat (rewrite <- ?app_assoc; cbn [app]).
Ltac go := repeat match goal with
  | |- tr _ _ [] _ => apply tr_nil
  | |- tr _ _ (XTk _ :: _) _ => eapply tr_tk
  | |- tr _ _ (XVar _ :: _) _ => eapply tr_var; [reflexivity|]
  | |- tr _ _ (XGrp _ _ :: _) _ => eapply tr_grp
  | |- tr _ _ (XStringify _ :: _) _ => eapply tr_stringify
  end.

(** Attributes, hidden from doctest and as they are *)
Definition attr_env (x : string) (gss : list (list (list tree))) : entry :=
  EReps [x] (map (fun ms => [EReps [x] (map (fun t => [EOne x t]) ms)]) gss).
Lemma collect_attrs x gss : collect (NRep false [NTk (LPunct "#"); NGrp Bracket [NRep false [NVar x Meta]]]) (Reps (found_attrs gss)) = [attr_env x gss].
Proof.
  cbn [collect flat_map variables app]. unfold found_attrs, attr_env. rewrite map_map. do 2 f_equal. apply map_ext. intros ms. cbn [collect_all collect app flat_map variables]. rewrite map_map. reflexivity.
Qed.
Lemma metas_out call env x ms : the_rounds env [x] = Some (map (fun t => [EOne x t]) ms) -> tr call env [XRep [XVar x] None] (List.concat ms).
Proof.
  intros H. eapply tr_eq.
  - eapply (tr_rep (fun t => [EOne x t]) (fun t => t)) with (l := ms); [exact H| |apply tr_nil].
    apply Forall_forall. intros t _. eapply tr_eq; [eapply tr_var; [cbn [app the_one]; rewrite String.eqb_refl; reflexivity|apply tr_nil]|]. apply app_nil_r.
  - rewrite map_id, separated_none. apply app_nil_r.
Qed.
Lemma concat_attrs (f : list tree -> list tree) gss : List.concat (map (fun ms : list (list tree) => [sign "#"; Gr Bracket (f (List.concat ms))]) gss) = attributes_text (map f (map (@List.concat tree) gss)).
Proof. induction gss as [|g gss IH]; [reflexivity|]. cbn [map List.concat attributes_text flat_map app]. f_equal. f_equal. exact IH. Qed.
Lemma guarded_out call env x gss xs o : the_rounds env [x] = Some (map (fun ms => [EReps [x] (map (fun t => [EOne x t]) ms)]) gss) ->
  tr call env xs o ->
  tr call env (XRep [XTk (LPunct "#"); XGrp Bracket [XTk (LId "cfg_attr"); XGrp Paren [XTk (LId "not"); XGrp Paren [XTk (LId "doctest")]; XTk (LPunct ","); XRep [XVar x] None]]] None :: xs)
    (attributes_text (map guarded (map (@List.concat tree) gss)) ++ o).
Proof.
  intros H K. eapply tr_eq.
  - eapply (tr_rep (fun ms => [EReps [x] (map (fun t => [EOne x t]) ms)]) (fun ms => [sign "#"; Gr Bracket (guarded (List.concat ms))])) with (l := gss); [exact H| |exact K].
    apply Forall_forall. intros ms _. eapply tr_eq; [go|].
    + apply (metas_out _ _ x ms). cbn [app the_rounds existsb]. rewrite String.eqb_refl. reflexivity.
    + unfold guarded. flat. reflexivity.
  - rewrite separated_none, concat_attrs. reflexivity.
Qed.
Lemma unguarded_out call env x gss xs o : the_rounds env [x] = Some (map (fun ms => [EReps [x] (map (fun t => [EOne x t]) ms)]) gss) ->
  tr call env xs o ->
  tr call env (XRep [XTk (LPunct "#"); XGrp Bracket [XRep [XVar x] None]] None :: xs) (attributes_text (map (@List.concat tree) gss) ++ o).
Proof.
  intros H K. eapply tr_eq.
  - eapply (tr_rep (fun ms => [EReps [x] (map (fun t => [EOne x t]) ms)]) (fun ms => [sign "#"; Gr Bracket (List.concat ms)])) with (l := gss); [exact H| |exact K].
    apply Forall_forall. intros ms _. eapply tr_eq; [go|].
    + apply (metas_out _ _ x ms). cbn [app the_rounds existsb]. rewrite String.eqb_refl. reflexivity.
    + reflexivity.
  - rewrite separated_none, (concat_attrs (fun g => g)), map_id. reflexivity.
Qed.

(** * The small macros *)
Lemma expands k m rs ts : rules_of macros m = Some rs -> expansion macros (S k) m ts = by_rules (expansion macros k) rs ts.
Proof. intros H. cbn [expansion]. rewrite H. reflexivity. Qed.
Lemma by_eq call ps x rs ts : by_rules call ((ps, x) :: rs) ts =
  match match_all (map erase ps) ts with Some fs => transcription call (collect_all collect ps fs) x | None => by_rules call rs ts end.
Proof. reflexivity. Qed.
Lemma one_word w t : match_all [Tk (LId w)] [name t] = if String.eqb t w then Some [Skip] else None.
Proof. unfold match_all, name. cbn [in_order matches leaf_eqb]. rewrite String.eqb_sym. destruct (String.eqb t w); reflexivity. Qed.
Lemma two_words w t : match_all [Tk (LId w); Var Ident] [name t] = None.
Proof. unfold match_all, name. cbn [in_order matches leaf_eqb]. destruct (String.eqb w t); reflexivity. Qed.
Lemma one_word_two w t e : match_all [Tk (LId w)] [name t; name e] = None.
Proof. unfold match_all, name. cbn [in_order matches leaf_eqb]. destruct (String.eqb w t); reflexivity. Qed.
Lemma two_words_two w t e : e <> "_"%string -> match_all [Tk (LId w); Var Ident] [name t; name e] = if String.eqb t w then Some [Skip; Got [name e]] else None.
Proof.
  intros H. unfold match_all, name. cbn [in_order matches leaf_eqb]. rewrite String.eqb_sym. destruct (String.eqb t w); [|reflexivity]. cbn [in_order matches take].
  destruct (String.eqb_spec e "_"); [contradiction|reflexivity].
Qed.
Lemma ty_one t : match_all [Var Ty] [name t] = Some [Got [name t]].
Proof. reflexivity. Qed.
Lemma ty_two t e : match_all [Var Ty] [name t; name e] = None.
Proof. reflexivity. Qed.
Definition same_type (r : rust_ty) (ts : list tree) : Prop :=
  match r with RT t => type_reads t ts | RU8 => ts = [name "u8"] | RStr => ts = [name "str"] end.
Lemma named_type t : same_type (rust_named t) [name t].
Proof.
  unfold rust_named, is.
  repeat match goal with |- context [if String.eqb t ?s then _ else _] => destruct (String.eqb_spec t s) as [->|?]; [constructor|] end.
  cbn [same_type]. constructor. unfold special. cbn [In]. intuition congruence.
Qed.
Lemma simple_call k t : exists ts, expansion macros (S k) "__thrift_field_type" [name t] = Some ts /\ same_type (simple_type t) ts.
Proof.
  rewrite (expands k "__thrift_field_type" _ _ eq_refl). rewrite !by_eq. cbn [map erase]. rewrite !two_words, !one_word, !ty_one. unfold simple_type, is.
  destruct (String.eqb_spec t "binary"); [eexists; split; [reflexivity|]; apply Y_binary|].
  destruct (String.eqb_spec t "string"); [eexists; split; [reflexivity|]; apply Y_string|].
  destruct (String.eqb_spec t "byte"); [eexists; split; [reflexivity|]; reflexivity|].
  destruct (String.eqb_spec t "double"); [eexists; split; [reflexivity|]; apply Y_f64|].
  eexists. split; [reflexivity|]. apply named_type.
Qed.
Definition optional_name (e : option string) : list tree := match e with Some e => [name e] | None => [] end.
Lemma type_call k t e ty : e <> Some "_"%string -> declared_type t e = Some ty ->
  exists ts, expansion macros (S (S k)) "__thrift_field_type" (name t :: optional_name e) = Some ts /\ type_reads ty ts.
Proof.
  intros He H. unfold declared_type in H. destruct e as [e|]; cbn [optional_name].
  - assert (He' : e <> "_"%string) by congruence. clear He.
    rewrite (expands (S k) "__thrift_field_type" _ _ eq_refl). rewrite !by_eq. cbn [map erase]. rewrite !(two_words_two _ _ _ He'), !one_word_two, !ty_two.
    destruct (simple_call k e) as (ts & E & Hs). unfold compound_type, is in H.
    destruct (String.eqb_spec t "list") as [->|N1]; [|destruct (String.eqb_spec t "set") as [->|N2]; [|destruct (String.eqb_spec t "Box") as [->|N3];
      [|destruct (String.eqb_spec t "Rc") as [->|N4]; [|destruct (String.eqb_spec t "Arc") as [->|N5]]]]]; cbn [orb] in H; try discriminate.
    all: eexists; (split; [cbn [collect_all collect app]; match goal with |- transcription ?c ?env ?x = Some ?o => change (tr c env x o) end; go; eapply tr_call; [go|exact E|go]|]).
    all: destruct (simple_type e) as [t'| |]; cbn [same_type] in Hs; try discriminate; injection H as <-; try subst ts.
    all: first [exact (Y_vec _ _ Hs)|exact Y_binary|exact (Y_box _ _ Hs)|exact Y_box_str|exact (Y_rc _ _ Hs)|exact Y_rc_str|exact (Y_arc _ _ Hs)|exact Y_arc_str].
  - destruct (simple_call (S k) t) as (ts & E & Hs). exists ts. split; [exact E|]. destruct (simple_type t) as [t'| |]; try discriminate. injection H as <-. exact Hs.
Qed.

(** A written type is taken as a whole. *)
Definition type_end (r : list tree) : Prop := match r with Lf (LPunct s) :: _ => s <> "::"%string /\ s <> "<"%string | _ => True end.
Lemma end_tail r : type_end r -> path_tail r = ([], r).
Proof.
  destruct r as [|[[n|w|s]|d g] r]; try reflexivity. intros (H & _). cbn [path_tail]. destruct r as [|[[n|w|s']|d g] r]; try reflexivity.
  destruct (String.eqb_spec s "::"); [contradiction|reflexivity].
Qed.
Lemma take_name n m r : type_end r -> take_type (S n) (name m :: r) = Some ([name m], r).
Proof.
  intros H. unfold name. cbn [take_type]. rewrite (end_tail r H). destruct r as [|[[x|w|s]|d g] r]; try reflexivity. destruct H as (_ & H).
  destruct (String.eqb_spec s "<"); [contradiction|reflexivity].
Qed.
Lemma take_arg n m p ts r : colons p -> (forall r, type_end r -> take_type n (ts ++ r) = Some (ts, r)) ->
  take_type (S n) ((name m :: p ++ sign "<" :: ts ++ [sign ">"]) ++ r) = Some (name m :: p ++ sign "<" :: ts ++ [sign ">"], r).
Proof.
  intros Hp H. cbn [app]. rewrite <- app_assoc. cbn [app]. rewrite <- app_assoc. unfold name. cbn [take_type].
  rewrite (path_tail_complete p (sign "<" :: ts ++ [sign ">"] ++ r) Hp) by discriminate. unfold sign at 1. cbn [String.eqb Ascii.eqb Bool.eqb].
  rewrite (H ([sign ">"] ++ r)) by (split; discriminate). reflexivity.
Qed.
Ltac codes_in H := repeat match type of H with context [code ?s] => let v := eval vm_compute in (code s) in change (code s) with v in H end.
Lemma take_more n m p ts r : colons p -> (forall n r, (List.length ts <= n)%nat -> type_end r -> take_type n (ts ++ r) = Some (ts, r)) ->
  (List.length (name m :: p ++ sign "<" :: ts ++ [sign ">"]) <= n)%nat -> take_type n ((name m :: p ++ sign "<" :: ts ++ [sign ">"]) ++ r) = Some (name m :: p ++ sign "<" :: ts ++ [sign ">"], r).
Proof.
  intros Hp H Hn. cbn [List.length] in Hn. rewrite app_length in Hn. cbn [List.length] in Hn. rewrite app_length in Hn. cbn [List.length] in Hn. destruct n as [|n]; [lia|].
  apply take_arg; [exact Hp|]. intros r' Hr. apply H; [lia|exact Hr].
Qed.
Lemma take_reads ty ts : type_reads ty ts -> forall n r, (List.length ts <= n)%nat -> type_end r -> take_type n (ts ++ r) = Some (ts, r).
Proof.
  assert (N : forall x n r, (List.length [name x] <= n)%nat -> type_end r -> take_type n ([name x] ++ r) = Some ([name x], r)).
  { intros x n r Hn Hr. destruct n as [|n]; [cbn [List.length] in Hn; lia|]. exact (take_name n x r Hr). }
  assert (C : forall a b, colons [sign "::"; name a; sign "::"; name b]) by (intros; repeat constructor).
  induction 1 as [| | | | | | | |x _| |t ts _ IH|t ts _ IH|t ts _ IH|t ts _ IH|t ts _ IH| | |]; intros n r Hn Hr; try exact (N _ _ _ Hn Hr); codes_in Hn; codes; cbn [app] in Hn |- *.
  - apply (take_more n "Vec" [] [name "u8"]); [constructor|apply N|exact Hn].
  - apply (take_more n "Vec" [] ts); [constructor|exact IH|exact Hn].
  - apply (take_more n "Option" [] ts); [constructor|exact IH|exact Hn].
  - apply (take_more n "std" [sign "::"; name "boxed"; sign "::"; name "Box"] ts); [apply C|exact IH|exact Hn].
  - apply (take_more n "std" [sign "::"; name "rc"; sign "::"; name "Rc"] ts); [apply C|exact IH|exact Hn].
  - apply (take_more n "std" [sign "::"; name "sync"; sign "::"; name "Arc"] ts); [apply C|exact IH|exact Hn].
  - apply (take_more n "std" [sign "::"; name "boxed"; sign "::"; name "Box"] [name "str"]); [apply C|apply N|exact Hn].
  - apply (take_more n "std" [sign "::"; name "rc"; sign "::"; name "Rc"] [name "str"]); [apply C|apply N|exact Hn].
  - apply (take_more n "std" [sign "::"; name "sync"; sign "::"; name "Arc"] [name "str"]); [apply C|apply N|exact Hn].
Qed.
Lemma ty_whole ty ts : type_reads ty ts -> take Ty ts = Some (ts, []).
Proof. intros H. cbn [take]. rewrite <- (app_nil_r ts) at 2. apply (take_reads ty); [exact H|apply Nat.le_refl|exact I]. Qed.

Definition demanded_type (b : bool) (ts : list tree) : list tree := if b then ts else code "Option <" ++ ts ++ code ">".
Lemma requirement_call k b ty ts : type_reads ty ts ->
  expansion macros (S k) "__thrift_required_or_optional" (name (demand b) :: ts) = Some (demanded_type b ts) /\
  type_reads (if b then ty else TOption ty) (demanded_type b ts).
Proof.
  intros H. split; [|destruct b; [exact H|exact (Y_option _ _ H)]].
  rewrite (expands k "__thrift_required_or_optional" _ _ eq_refl), !by_eq. cbn [map erase]. unfold match_all. destruct b; unfold demand, name; cbn [in_order matches leaf_eqb String.eqb Ascii.eqb Bool.eqb]; rewrite (ty_whole ty ts H).
  - cbn [collect_all collect app demanded_type]. change (tr (expansion macros k) [EOne "field_type" ts] [XVar "field_type"] ts). eapply tr_eq; [go|apply app_nil_r].
  - cbn [collect_all collect app demanded_type]. match goal with |- transcription ?c ?env ?x = Some ?o => change (tr c env x o) end. eapply tr_eq; [go|reflexivity].
Qed.
Lemma word_then w t ps ts : match_all (Tk (LId w) :: ps) (name t :: ts) = if String.eqb t w then match match_all ps ts with Some fs => Some (Skip :: fs) | None => None end else None.
Proof.
  unfold match_all, name. rewrite in_cons. cbn [matches leaf_eqb]. rewrite String.eqb_sym. destruct (String.eqb t w); [|reflexivity].
  destruct (in_order matches ps ts) as [(fs, [|x r])|]; reflexivity.
Qed.
Lemma names1 n : n <> "_"%string -> match_all [Var Ident] [name n] = Some [Got [name n]].
Proof. intros H. unfold match_all. rewrite in_cons, (ident_complete n [] H). reflexivity. Qed.
Lemma names2 m n : m <> "_"%string -> n <> "_"%string -> match_all [Var Ident; Var Ident] [name m; name n] = Some [Got [name m]; Got [name n]].
Proof. intros H K. unfold match_all. rewrite in_cons, (ident_complete m _ H), in_cons, (ident_complete n [] K). reflexivity. Qed.
Lemma flag_call k b n : n <> "_"%string ->
  expansion macros (S k) "__thrift_required_flag" [name (demand b); name n] = Some (if b then code "let mut" ++ [name n] ++ code "= false ;" else []).
Proof.
  intros H. rewrite (expands k "__thrift_required_flag" _ _ eq_refl), !by_eq. cbn [map erase]. rewrite !word_then, (names1 n H). destruct b; [|reflexivity].
  match goal with |- _ = Some ?o => change (tr (expansion macros k) [EOne "field_name" [name n]] [XTk (LId "let"); XTk (LId "mut"); XVar "field_name"; XTk (LPunct "="); XTk (LId "false"); XTk (LPunct ";")] o) end.
  eapply tr_eq; [go|reflexivity].
Qed.
Lemma set_call k b n : n <> "_"%string ->
  expansion macros (S k) "__thrift_required_set" [name (demand b); name n] = Some (if b then name n :: code "= true ;" else []).
Proof.
  intros H. rewrite (expands k "__thrift_required_set" _ _ eq_refl), !by_eq. cbn [map erase]. rewrite !word_then, (names1 n H). destruct b; [|reflexivity].
  match goal with |- _ = Some ?o => change (tr (expansion macros k) [EOne "field_name" [name n]] [XVar "field_name"; XTk (LPunct "="); XTk (LId "true"); XTk (LPunct ";")] o) end.
  eapply tr_eq; [go|reflexivity].
Qed.
