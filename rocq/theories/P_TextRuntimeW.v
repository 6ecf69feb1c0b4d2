(** Writing with the text of the whole runtime is writing with the model. *)
From Coq Require Import ZifyBool ZifyNat ZifyN.
From Verif Require Import Base Uleb Utf8 Protocol Encodings Types RustSyntax RustEval RustProgram RustTypes RustCode SpecExpand SpecText SpecTextIO SpecTypesText
  TextRuntime SpecUtf8 SpecCompact Schema Typing P_Arith P_Gen P_Fill P_Write P_Good P_RustCode P_RunAgree P_TypesTable P_TypesFill P_TypesWrite P_TypesField P_TypesAll P_TextRuntime.
Open Scope Z_scope.
Open Scope list_scope.

Lemma height_in u vs : In u vs -> (height u <= list_max (map height vs))%nat.
Proof.
  intros H. apply (in_map height) in H. pose proof (proj1 (list_max_le (map height vs) (list_max (map height vs))) (Nat.le_refl _)) as F.
  rewrite Forall_forall in F. exact (F _ H).
Qed.
Lemma height_pos v : (1 <= height v)%nat.
Proof. destruct v; cbn [height]; lia. Qed.
Lemma typed_seq_in E t vs : typed_seq E t vs -> forall u, In u vs -> typed E t u.
Proof. induction 1 as [|t v vs H1 H2 IH]; intros u [].  - subst. exact H1. - apply IH. assumption. Qed.
Lemma typed_fields_length E fs vs : typed_fields E fs vs -> List.length vs = List.length fs.
Proof. induction 1; cbn; [reflexivity|]. f_equal. assumption. Qed.
Lemma typed_mask E t v : typed E t v -> mask_ok v.
Proof. intros []; cbn; auto. unfold in_u in *. change (2 ^ 31) with 2147483648 in *. change (2 ^ 32) with 4294967296. lia. Qed.

Lemma no_wfield_fn t R T : In (R, T) impl_types -> T (elt t) = t -> field_methods t = false -> impl_fn R "write_thrift_field" = None.
Proof.
  intros HR HT Hm. unfold impl_types in HR. cbn [In] in HR.
  repeat (destruct HR as [HR|HR]; [injection HR as <- <-; rewrite <- HT in Hm; cbn [field_methods] in Hm; try discriminate Hm; rewrite impl_fn_eq; vm_compute; reflexivity|]). destruct HR.
Qed.
Lemma typed_shaped E t v : typed E t v -> shaped E t v = true.
Proof. intros []; cbn [shaped]; try reflexivity; rewrite ?H; try reflexivity. rewrite H0. reflexivity. Qed.

Section Write.
  Context {W : Type}.
  Variable c : cfg.
  Hypothesis Hc : cfg_ok c.
  Variable write_all : list Z -> M W unit.
  Variable L : nat -> world value W.
  Hypothesis HL : text_writes write_all L.
  Variable rep : ty -> rtype.
  Hypothesis Hrep : forall t, (forall n, t <> TNamed n) -> exists T, In (rep t, T) impl_types /\ T (elt t) = t.
  Variable E : env.
  Hypothesis Hnames : Forall (fun nd => NoDup (map f_name (fields_of (snd nd)))) E.

  Lemma wconst_at t u z s : (forall n, t <> TNamed n) -> z = field_type E u -> (elt t = u \/ elt t = t) ->
    on_fn (impl_const (rep t)) (fun f => match run_fn c (writing_world c (L 6) (only_wtype z)) f [] s with (_, CRet _ (RInt U8 y)) => y | _ => -1 end) (-1) = field_type E t.
  Proof using Hrep.
    intros Hn Hz Hu. destruct (Hrep t Hn) as (T & HR & HT).
    assert (X : T u = t).
    { destruct Hu as [Hu|Hu]; [rewrite <- Hu; exact HT|]. clear - HR HT Hu. rewrite Hu in HT. unfold impl_types in HR. cbn [In] in HR.
      repeat (destruct HR as [HR|HR]; [injection HR as _ <-; first [exact HT|exfalso; clear - HT; induction t; try discriminate HT; injection HT as HT; apply IHt; exact HT]|]). destruct HR. }
    assert (Hs : forall s, w_call (writing_world c (L 6) (only_wtype z)) ["String"; "FIELD_TYPE"]%string [] s = (s, CRet [] (RInt U8 8))).
    { intros s0. unfold writing_world, w_call. cbn -[called w_call Nat.add app]. unfold called. rewrite ?consts_eq, ?set_eq. cbn -[w_call run_fn Nat.add]. reflexivity. }
    destruct (const_text c (only_type z) (writing_world c (L 6) (only_wtype z)) (fun _ => eq_refl) Hs E u Hz (rep t) T HR) as (f & Hf & H).
    rewrite Hf. cbn [on_fn]. rewrite H, X. reflexivity.
  Qed.
  Lemma text_wtype_eq : forall t s, ty_closed E t = true -> text_wtype c L rep E t s = field_type E t.
  Proof using Hrep.
    induction t; intros s Hcl; cbn [text_wtype];
      lazymatch goal with
      | |- context [run_fn c (writing_world c (L 6) (only_wtype 2))] => apply (wconst_at _ TBool); [discriminate|reflexivity|right; reflexivity]
      | |- context [run_fn c (writing_world c (L 6) (only_wtype _))] => apply (wconst_at _ t); [discriminate|apply IHt; exact Hcl|left; reflexivity]
      | |- _ => idtac
      end.
    cbn [ty_closed] in Hcl. cbn [field_type]. destruct (lookup E name) as [[fs|fs|]|]; try reflexivity. discriminate Hcl.
  Qed.

  (** What is written for agreeing elements agrees. *)
  Lemma each_agree e t vs : (forall u s, In u vs -> wr_plain e u s = wplain (writer write_all E u t) s) ->
    forall s, write_each (wr_plain e) vs s = write_items (map (fun v => writer write_all E v t) vs) s.
  Proof using Type.
    induction vs as [|v vs IH]; intros H s; [reflexivity|]. cbn [write_each write_items map]. unfold bind. rewrite (H v s (or_introl eq_refl)).
    destruct (wplain (writer write_all E v t) s) as [s1 [[]|er|p]]; [|reflexivity|reflexivity]. apply IH. intros u s' Hu. apply H. right. exact Hu.
  Qed.
  Lemma by_agree e t v s : typed E t v -> (forall n, t <> TNamed n) -> wr_type e = field_type E (elt t) ->
    (forall u s, (height u < height v)%nat -> typed E (elt t) u -> wr_plain e u s = wplain (writer write_all E u (elt t)) s) ->
    write_by write_all e t v s = wplain (writer write_all E v t) s.
  Proof using Type.
    intros Hv Hn Ht He. inversion Hv; subst; try (exfalso; eapply Hn; reflexivity); cbn [write_by writer wplain with_default elt height] in *; try reflexivity;
      try (apply He; [apply Nat.lt_succ_diag_r|assumption]).
    destruct (MAX_COLLECTION_LEN <? zlen vs); [reflexivity|]. rewrite Ht. unfold bind.
    destruct (write_list_header write_all (field_type E t0) (zlen vs) s) as [s1 [[]|er|p]]; [|reflexivity|reflexivity].
    apply each_agree. intros u s' Hu. apply He; [apply Nat.lt_succ_r, height_in; exact Hu|]. eapply typed_seq_in; eassumption.
  Qed.
  Lemma asked_written (r : W * outcome unit) : asked nothing_of (written r) = r.
  Proof using Type. destruct r as [s [[]|e|p]]; reflexivity. Qed.
  Lemma last_tells last (r : W * Z * outcome unit) m : tells r m -> tells (last_of last (written_field r)) m.
  Proof using Type.
    destruct m as [s [l|e|p]]; cbn [tells].
    - intros ->. reflexivity.
    - intros [l ->]. exists l. reflexivity.
    - intros [l ->]. exists last. reflexivity.
  Qed.

  Definition any (z : Z) : Prop := True.
  Section Named.
    Variable d : nat.
    Hypothesis IHff : forall t v id last s, typed E t v -> (2 * height v <= d)%nat ->
      tells (text_write_field c L rep E d t v id last s) (wfield (writer write_all E v t) id last s).
    Variable n : string.
    Variable df : def.
    Hypothesis Hdf : lookup E n = Some df.
    Variable v : value.
    Hypothesis Hv : typed E (TNamed n) v.
    Hypothesis Hd : (2 * height v <= d + 2)%nat.
    Notation fs := (fields_of df).
    Notation run := (run_write fs write_all (write_thrift_field write_all E)).
    Notation run' := (text_wcalls (L (6 + d)) fs (text_write_field c L rep E d)).
    Notation none := (fun _ : panic => False).
    Notation that := (fun (_ : W) (u : value) => u = v).
    Lemma any_small ls : Forall (small any) ls.
    Proof using Type. apply Forall_forall. intros [x [z|b]] _; exact Coq.Init.Logic.I. Qed.
    Ltac keep H m :=
      unfold write_thrift_field; destruct m as [s' [l|e|p]]; cbn [tells] in H;
        [rewrite H; cbn; repeat split; apply any_small|destruct H as [l ->]; reflexivity|destruct H as [l ->]; right; split; reflexivity].
    Lemma wcalls_same k s u ls : True -> u = v -> Forall (small any) ls -> same_call none that any (run k s u ls) (run' k s u ls).
    Proof using HL IHff Hdf Hv Hd.
      intros _ -> _. destruct k; cbn [run_write text_wcalls]; try (right; split; reflexivity).
      - rewrite (tw_byte _ _ HL d). rewrite asked_method by (intros ? []; reflexivity). destruct (write_byte write_all b s) as [s1 [[]|e|p]]; cbn.
        + repeat split. apply any_small.
        + reflexivity.
        + right. split; reflexivity.
      - destruct v; try (right; split; reflexivity). rewrite (tw_i32 _ _ HL d). rewrite asked_method by (intros ? []; reflexivity). destruct (write_i32 write_all z s) as [s1 [[]|e|p]]; cbn.
        + repeat split. apply any_small.
        + reflexivity.
        + right. split; reflexivity.
      - destruct (fetch ls last) as [[z|b]|]; try (right; split; reflexivity).
        destruct v as [| | | | | | | | | | | | | |vs|]; try (right; split; reflexivity).
        destruct (named fs f) as [[i g]|] eqn:En; [|right; split; reflexivity].
        destruct (nth_error vs i) as [u|] eqn:Eu; [|right; split; reflexivity].
        inversion Hv as [| | | | | | | | | | | | | | |n0 fs0 vs0 Hl0 Hty|]; subst. rewrite Hdf in Hl0. injection Hl0 as ->. cbn [fields_of] in *.
        pose proof (named_nth_error _ _ _ _ En) as Hg.
        destruct (typed_fields_nth _ _ _ _ _ Hty Hg) as (u' & Hu' & Htu). rewrite Eu in Hu'. injection Hu' as <-.
        assert (Hu : (2 * height u <= d)%nat) by (pose proof (height_in u vs (nth_error_In _ _ Eu)) as H; cbn [height] in Hd; clear - H Hd; lia).
        pose proof (IHff (field_ty g) u id z s Htu Hu) as H. keep H (wfield (writer write_all E u (field_ty g)) id z s).
      - destruct (fetch ls last) as [[z|b]|]; try (right; split; reflexivity).
        destruct v as [| | | | | | | | | | | | | | |i u]; try (right; split; reflexivity).
        destruct (nth_error fs i) as [g|] eqn:Hg; [|right; split; reflexivity].
        inversion Hv as [| | | | | | | | | | | | | | | |n0 fs0 i0 f0 v0 Hl0 Hn0 Hty]; subst. rewrite Hdf in Hl0. injection Hl0 as ->. cbn [fields_of] in *.
        rewrite Hg in Hn0. injection Hn0 as <-.
        assert (Hu : (2 * height u <= d)%nat) by (cbn [height] in Hd; clear - Hd; lia).
        pose proof (IHff (f_ty g) u id z s Hty Hu) as H. keep H (wfield (writer write_all E u (f_ty g)) id z s).
    Qed.
  End Named.

  Lemma struct_wallowed fs : allowed_all (fun _ => True) False (struct_write_code fs).
  Proof using Type.
    unfold struct_write_code. apply allowed_app. split; [cbn; auto|]. apply allowed_app. split; [|cbn; auto].
    induction fs as [|f fs IH]; cbn; auto.
  Qed.
  Lemma union_wallowed fs : allowed_all (fun _ => True) False (union_write_code fs).
  Proof using Type. cbn. repeat split. apply Forall_forall. auto. Qed.
  Lemma wnodup n df : lookup E n = Some df -> NoDup (map f_name (fields_of df)).
  Proof using Hnames. intros H. apply lookup_In in H. rewrite Forall_forall in Hnames. exact (Hnames _ H). Qed.
  Lemma write_step d t v s : (forall n, t <> TNamed n) -> text_write c L rep E (Datatypes.S d) t v s =
    on_fn (impl_fn (rep t) "write_thrift")
      (fun f => asked nothing_of (run_fn c (writing_world c (L (6 + d)) (text_welements c L rep E d (elt t) s)) f [hold (rep t) v; RObj] s)) (s, ill).
  Proof using Type. intros Hn. destruct t; try reflexivity. exfalso. eapply Hn. reflexivity. Qed.
  Lemma write_named d n df v s : lookup E n = Some df -> text_write c L rep E (Datatypes.S d) (TNamed n) v s =
    match RustCode.method (fields_of df) (fun _ => None) (text_wcalls (L (6 + d)) (fields_of df) (text_write_field c L rep E d))
            (w_bound (L (6 + d)) s) (item_write (methods (n, df))) v s with (s', _, o) => (s', o) end.
  Proof using Type. intros H. cbn [text_write]. rewrite H. reflexivity. Qed.
  Lemma write_field_step d t v id last s : text_write_field c L rep E (Datatypes.S d) t v id last s =
    on_fn (own_fn rep t "write_thrift_field")
      (fun f => last_of last (run_fn c (writing_world c (L (6 + d)) (text_welements c L rep E d (elt t) s)) f [hold (rep t) v; RObj; RInt I16 id; RInt I16 last] s))
      (on_fn (default_fn "write_thrift_field")
         (fun f => last_of last (run_fn c (writing_world c (L (6 + d)) (text_welements c L rep E d t s)) f [RElem v; RObj; RInt I16 id; RInt I16 last] s)) (s, last, ill)).
  Proof using Type. reflexivity. Qed.
  Lemma same_drop (none := fun _ : panic => False) (r r' : W * value * outcome unit) : same_fill none r r' -> match r' with (s, _, o) => (s, o) end = match r with (s, _, o) => (s, o) end.
  Proof using Type.
    destruct r as [[s u] [[]|e|p]]; cbn [same_fill]; intros H; try (rewrite H; reflexivity). destruct H as [[]|[H1 H2]]. destruct r' as [[s' u'] o']. cbn in *. subst. reflexivity.
  Qed.

  Theorem text_write_same d :
    (forall t v s, typed E t v -> (2 * height v <= d + 1)%nat -> text_write c L rep E d t v s = wplain (writer write_all E v t) s) /\
    (forall t v id last s, typed E t v -> (2 * height v <= d)%nat -> tells (text_write_field c L rep E d t v id last s) (wfield (writer write_all E v t) id last s)).
  Proof using Hc HL Hrep Hnames.
    induction d as [|d [IHf IHff]]; [split; intros; pose proof (height_pos v); exfalso; clear - H0 H1; lia|]. split.
    - intros t v s Hv Hd. destruct (built_in t) as [[n ->]|Hn].
      + assert (Hd' : (2 * height v <= d + 2)%nat) by (clear - Hd; lia).
        inversion Hv as [| | | | | | | | | | | | | |n0 z Hl0 Hz|n0 fs0 vs Hl0 Hty|n0 fs0 i f v0 Hl0 Hn0 Hty]; subst.
        * rewrite (write_named d n _ _ s Hl0). cbn [fields_of methods item_write].
          unfold RustCode.method, enum_write_code. cbn [exec_all exec ask text_wcalls]. rewrite (tw_i32 _ _ HL d), asked_method by (intros ? []; reflexivity).
          cbn [writer]. rewrite Hl0. cbn [wplain with_default]. destruct (write_i32 write_all z s) as [s1 [[]|e|p]]; reflexivity.
        * rewrite (write_named d n _ _ s Hl0). pose proof (wnodup n _ Hl0) as Hnd. cbn [fields_of methods item_write] in *.
          pose proof (wcalls_same d IHff n _ Hl0 (VStruct vs) Hv Hd') as Hcalls. cbn [fields_of] in Hcalls.
          pose proof (method_same fs0 (fun _ => None) _ _ (fun _ => False) (fun _ u => u = VStruct vs) (fun _ => True) False any Coq.Init.Logic.I Hcalls (fun H => match H with end)
            (w_bound (L (6 + d)) s) _ (VStruct vs) s (struct_wallowed fs0) eq_refl) as H.
          rewrite (same_drop _ _ H), (write_struct_code write_all E n fs0 vs s _ _ Hl0 Hnd (typed_fields_length _ _ _ Hty)).
          unfold write_thrift. destruct (wplain _ s) as [s1 o1]. reflexivity.
        * rewrite (write_named d n _ _ s Hl0). pose proof (wnodup n _ Hl0) as Hnd. cbn [fields_of methods item_write] in *.
          pose proof (wcalls_same d IHff n _ Hl0 (VUnion i v0) Hv Hd') as Hcalls. cbn [fields_of] in Hcalls.
          pose proof (method_same fs0 (fun _ => None) _ _ (fun _ => False) (fun _ u => u = VUnion i v0) (fun _ => True) False any Coq.Init.Logic.I Hcalls (fun H => match H with end)
            (w_bound (L (6 + d)) s) _ (VUnion i v0) s (union_wallowed fs0) eq_refl) as H.
          rewrite (same_drop _ _ H), (write_union_code write_all E n fs0 i v0 f s _ _ Hl0 Hnd Hn0).
          unfold write_thrift. destruct (wplain _ s) as [s1 o1]. reflexivity.
      + destruct (Hrep t Hn) as (T & HR & HT). pose proof Hv as Hv'. rewrite <- HT in Hv'. pose proof (hold_held E (rep t) T (elt t) v HR Hv') as Hh.
        set (e := text_welements c L rep E d (elt t) s).
        destruct (by_write c Hc write_all L HL d e (rep t) T HR (elt t) v (hold (rep t) v) s Hh (typed_mask _ _ _ Hv)) as (f & Hf & Hrun).
        rewrite HT in Hrun. rewrite (write_step d t v s Hn), Hf. cbn [on_fn]. fold e. rewrite Hrun, asked_written.
        apply by_agree; [exact Hv|exact Hn| |].
        * apply text_wtype_eq. apply (elt_closed E t Hn). exact (proj1 (typed_closed E) _ _ Hv).
        * intros u s' Hu Htu. apply IHf; [exact Htu|]. clear - Hu Hd. lia.
    - intros t v id last s Hv Hd. pose proof (proj1 (typed_closed E) _ _ Hv) as Hcl.
      assert (D : own_fn rep t "write_thrift_field" = None -> field_methods t = false ->
        tells (text_write_field c L rep E (Datatypes.S d) t v id last s) (wfield (writer write_all E v t) id last s)).
      { intros Ho Hm. set (e := text_welements c L rep E d t s).
        destruct (default_wfield_text c write_all e (writing_world c (L (6 + d)) e) (w_header c write_all L HL d e) (w_self c L d e) (w_plain c L d e)) as (f & Hf & Hrun).
        rewrite write_field_step, Ho, Hf. cbn [on_fn]. fold e. destruct (Hrun v id last s) as (r & -> & H). apply last_tells.
        rewrite (shaped_default write_all E t v (typed_shaped E t v Hv) Hm). unfold default_wfield. subst e. cbn [wr_type wr_plain text_welements] in H.
        rewrite (text_wtype_eq t s Hcl) in H. unfold bind in *. destruct (write_field_header write_all (field_type E t) id last s) as [s1 [l|er|p]]; try exact H.
        rewrite (IHf t v s1 Hv) in H by (clear - Hd; lia). exact H. }
      destruct (built_in t) as [[n ->]|Hn]; [apply D; reflexivity|].
      destruct (Hrep t Hn) as (T & HR & HT). pose proof Hv as Hv'. rewrite <- HT in Hv'. pose proof (hold_held E (rep t) T (elt t) v HR Hv') as Hh.
      assert (Ho : own_fn rep t "write_thrift_field" = impl_fn (rep t) "write_thrift_field") by (clear - Hn; destruct t; lazymatch goal with |- context [TNamed ?n] => exfalso; exact (Hn n eq_refl) | |- _ => reflexivity end).
      destruct (field_methods t) eqn:Hm.
      + set (e := text_welements c L rep E d (elt t) s). rewrite write_field_step, Ho. fold e.
        destruct (field_rep t (rep t) T HR HT Hm) as [[-> Hr]|[[u ->] Hr]]; rewrite Hr in *.
        * destruct (bool_wfield_text c write_all (writing_world c (L (6 + d)) e) (w_header c write_all L HL d e)) as (f & -> & Hrun). cbn [on_fn].
          inversion Hv; subst. destruct (Hrun b id last s) as (r & Hrr & H). cbn [hold]. rewrite Hrr. apply last_tells. exact H.
        * destruct (option_wfield_text c e (writing_world c (L (6 + d)) e) (w_field c L d e)) as (f & -> & H1 & H2). cbn [on_fn].
          inversion Hv as [| | | | | | | | |t0 Ht0|t0 u0 Hu| | | | | |]; subst; cbn [hold].
          -- rewrite H1. reflexivity.
          -- rewrite H2. apply last_tells. apply (IHff u u0 id last s Hu). cbn [height] in Hd. clear - Hd. lia.
      + apply D; [|reflexivity]. rewrite Ho. exact (no_wfield_fn t (rep t) T HR HT Hm).
  Qed.
End Write.
