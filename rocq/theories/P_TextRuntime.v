(** Reading with the text of the whole runtime is reading with the model. *)
From Coq Require Import ZifyBool ZifyNat ZifyN.
From Verif Require Import Base Uleb Utf8 Protocol Encodings Types RustSyntax RustEval RustProgram RustTypes RustCode SpecExpand SpecText SpecTextIO SpecTypesText
  TextRuntime SpecUtf8 SpecCompact Schema Typing P_Arith P_Reads P_Gen P_Fill P_Good P_RustCode P_RunAgree P_TypesTable P_TypesFill P_TypesAll.
Open Scope Z_scope.
Open Scope list_scope.

Lemma elems_back vs : sequence (map of_elem (map RElem vs)) = Some vs.
Proof. induction vs as [|v vs IH]; [reflexivity|]. cbn [map of_elem sequence] in *. rewrite IH. reflexivity. Qed.
Lemma held_back R T t v rv : In (R, T) impl_types -> held R v rv -> unhold (T t) rv = Some v.
Proof.
  intros HR Hv. unfold impl_types in HR. cbn [In] in HR.
  repeat (destruct HR as [HR|HR]; [injection HR as <- <-; inversion Hv; subst; cbn [unhold]; try reflexivity|]); [|destruct HR].
  rewrite elems_back. reflexivity.
Qed.
Lemma hold_held E R T t v : In (R, T) impl_types -> typed E (T t) v -> held R v (hold R v).
Proof.
  intros HR Hv. unfold impl_types in HR. cbn [In] in HR.
  repeat (destruct HR as [HR|HR]; [injection HR as <- <-; inversion Hv; subst; constructor|]). destruct HR.
Qed.
Lemma representation_ok b : implemented (representation b).
Proof.
  intros t Ht. destruct t; cbn [representation elt]; try (exfalso; eapply Ht; reflexivity); try destruct b;
    unfold impl_types; cbn [In]; eexists; (split; [|]);
    try (match goal with |- _ \/ _ => idtac end; repeat (first [left; reflexivity|right])); reflexivity.
Qed.

Lemma field_rep t R T : In (R, T) impl_types -> T (elt t) = t -> field_methods t = true ->
  (t = TBool /\ R = YApp "bool" []) \/ ((exists u, t = TOption u) /\ R = ypar "Option").
Proof.
  intros HR HT Hm. unfold impl_types in HR. cbn [In] in HR.
  repeat (destruct HR as [HR|HR]; [injection HR as <- <-; rewrite <- HT in Hm; cbn [field_methods] in Hm; try discriminate Hm; try (left; split; [symmetry; exact HT|reflexivity]);
    try (right; split; [eexists; symmetry; exact HT|reflexivity])|]). destruct HR.
Qed.
Lemma no_field_fn t R T : In (R, T) impl_types -> T (elt t) = t -> field_methods t = false -> impl_fn R "fill_thrift_field" = None.
Proof.
  intros HR HT Hm. unfold impl_types in HR. cbn [In] in HR.
  repeat (destruct HR as [HR|HR]; [injection HR as <- <-; rewrite <- HT in Hm; cbn [field_methods] in Hm; try discriminate Hm; rewrite impl_fn_eq; vm_compute; reflexivity|]). destruct HR.
Qed.
Section Read.
  Context {S : Type}.
  Variable c : cfg.
  Hypothesis Hc : cfg_ok c.
  Variable I : input S.
  Variable own : bool.
  Variable inv : S -> Prop.
  Variable le : S -> S -> Prop.
  Hypothesis Hlaw : lawful c I inv le (fun _ => True).
  Variable L : nat -> world value S.
  Hypothesis HL : text_reads c I own inv L.
  Hypothesis Hbound : forall d s, w_bound (L d) s = Datatypes.S (in_left I s).
  Variable rep : ty -> rtype.
  Hypothesis Hrep : implemented rep.
  Variable E : env.
  Variable K : nat.
  Hypothesis HE : env_closed E K = true.
  Hypothesis Hnames : Forall (fun nd => NoDup (map f_name (fields_of (snd nd)))) E.
  Definition stack (p : panic) : Prop := p = PStack.
  Notation same := (same_fill stack).
  Let O := lw_order _ _ _ _ _ Hlaw.

  Lemma const_at t u z s : (forall n, t <> TNamed n) -> z = field_type E u -> (elt t = u \/ elt t = t) ->
    on_fn (impl_const (rep t)) (fun f => match run_fn c (reading_world c (L 7) (only_type z)) f [] s with (_, CRet _ (RInt U8 y)) => y | _ => -1 end) (-1) = field_type E t.
  Proof using HL Hrep.
    intros Hn Hz Hu. destruct (Hrep t Hn) as (T & HR & HT).
    assert (X : T u = t).
    { destruct Hu as [Hu|Hu]; [rewrite <- Hu; exact HT|]. clear - HR HT Hu. rewrite Hu in HT. unfold impl_types in HR. cbn [In] in HR.
      repeat (destruct HR as [HR|HR]; [injection HR as _ <-; first [exact HT|exfalso; clear - HT; induction t; try discriminate HT; injection HT as HT; apply IHt; exact HT]|]). destruct HR. }
    destruct (const_by c L 0 (only_type z) E u Hz (rep t) T HR) as (f & Hf & H). rewrite Hf. cbn [on_fn]. change (L 7) with (L (7 + 0)%nat). rewrite H, X. reflexivity.
  Qed.
  Lemma text_type_eq : forall t s, ty_closed E t = true -> text_type c L rep E t s = field_type E t.
  Proof using HL Hrep.
    induction t; intros s Hcl; cbn [text_type];
      lazymatch goal with
      | |- context [run_fn c (reading_world c (L 7) (only_type 2))] => apply (const_at _ TBool); [discriminate|reflexivity|right; reflexivity]
      | |- context [run_fn c (reading_world c (L 7) (only_type _))] => apply (const_at _ t); [discriminate|apply IHt; exact Hcl|left; reflexivity]
      | |- _ => idtac
      end.
    cbn [ty_closed] in Hcl. cbn [field_type]. destruct (lookup E name) as [[fs|fs|]|]; try reflexivity. discriminate Hcl.
  Qed.

  (** What is read from agreeing elements agrees. *)
  Definition same_vec (r r' : S * list value * outcome unit) : Prop :=
    match r with
    | (s, v, Panic p) => stack p \/ (fst (fst r') = s /\ snd r' = Panic p)
    | _ => r' = r
    end.
  Lemma vec_same t dv f g s0 : (forall v s, inv s -> le s s0 -> typed E t v -> same (f v s) (g v s) /\ tameF le (fun _ => True) E s t (f v s)) ->
    (forall v, dv = Some v -> typed E t v) -> forall n s, inv s -> le s s0 -> same_vec (vec_loop dv f n s) (vec_loop dv g n s).
  Proof using Hlaw.
    intros Hf Hd. induction n as [|n IH]; intros s Hi Hle; cbn [vec_loop]; [reflexivity|].
    destruct dv as [v|]; [|left; reflexivity]. destruct (Hf v s Hi Hle (Hd v eq_refl)) as [H (H1 & H2 & _)].
    destruct (f v s) as [[s1 v1] [u|e|p]]; cbn [fst snd same_fill] in *.
    - rewrite H. specialize (IH s1 (or_inv _ _ _ O _ _ H1 Hi) (or_trans _ _ _ O _ _ _ H1 Hle)).
      destruct (vec_loop (Some v) f n s1) as [[s2 vs] [u2|e|p]]; cbn [same_vec] in IH |- *.
      + rewrite IH. reflexivity.
      + rewrite IH. reflexivity.
      + destruct IH as [IH|[IH1 IH2]]; [left; exact IH|]. right. destruct (vec_loop (Some v) g n s1) as [[s3 vs3] o3]. cbn in *. auto.
    - rewrite H. reflexivity.
    - destruct H as [H|[Ha Hb]]; [left; exact H|]. right. destruct (g v s) as [[s2 v2] o2]. cbn in *. subst. split; reflexivity.
  Qed.
  Definition good_elements (t : ty) (s0 : S) (e e' : reading S) : Prop :=
    el_type e = el_type e' /\ el_default e = el_default e' /\ (forall v, el_default e = Some v -> typed E t v) /\
    (forall v s, inv s -> le s s0 -> typed E t v -> same (el_fill e v s) (el_fill e' v s) /\ tameF le (fun _ => True) E s t (el_fill e v s)).
  Lemma same_map (k : value -> value) (r r' : S * value * outcome unit) : same r r' ->
    same (match r with (s, v, o) => (s, k v, o) end) (match r' with (s, v, o) => (s, k v, o) end).
  Proof using Type.
    destruct r as [[s v] [u|e|p]]; cbn [same_fill]; intros H; [rewrite H; reflexivity|rewrite H; reflexivity|].
    destruct H as [H|[H1 H2]]; [left; exact H|]. right. destruct r' as [[s' v'] o']. cbn in *. auto.
  Qed.
  Lemma same_refl (r : S * value * outcome unit) : same r r.
  Proof using Type. destruct r as [[s v] [u|e|p]]; cbn; auto. Qed.
  Lemma by_same t v s e e' : inv s -> typed E t v -> (forall n, t <> TNamed n) -> good_elements (elt t) s e e' ->
    same (fill_by c I e t v s) (fill_by c I e' t v s).
  Proof using Hlaw Hc.
    intros Hi Hv Hn (Ht & Hd & Hdt & He). destruct t; cbn [fill_by elt] in *; try apply same_refl.
    - pose proof (collection_tame c I inv le (fun _ => True) Hlaw Hc s Hi) as [Hle _].
      destruct (read_collection_len_and_type c I s) as [s1 [[len et]|er|p]]; try apply same_refl. cbn [fst snd] in Hle.
      rewrite <- Ht, <- Hd. destruct (negb (et =? el_type e) && _); [apply same_refl|]. destruct (negb (reserve c len)); [apply same_refl|].
      pose proof (vec_same t (el_default e) (el_fill e) (el_fill e') s He Hdt (Z.to_nat len) s1 (or_inv _ _ _ O _ _ Hle Hi) Hle) as H.
      destruct (vec_loop (el_default e) (el_fill e) (Z.to_nat len) s1) as [[s2 vs] [u2|e2|p]]; cbn [same_vec same_fill] in H |- *.
      + rewrite H. reflexivity.
      + rewrite H. reflexivity.
      + destruct H as [H|[H1 H2]]; [left; exact H|]. right. destruct (vec_loop (el_default e) (el_fill e') (Z.to_nat len) s1) as [[s3 vs3] o3]. cbn in *. auto.
    - rewrite <- Hd.
      assert (G : same match el_default e with None => (s, v, Panic PStack) | Some dv => match el_fill e dv s with (s', v', o) => (s', VSome v', o) end end
                       match el_default e with None => (s, v, Panic PStack) | Some dv => match el_fill e' dv s with (s', v', o) => (s', VSome v', o) end end).
      { destruct (el_default e) as [dv|]; [|left; reflexivity]. apply (same_map VSome). apply He; [exact Hi|apply (or_refl _ _ _ O)|apply Hdt; reflexivity]. }
      destruct v; try exact G. apply same_refl.
    - inversion Hv; subst. apply (same_map VBox). apply He; [exact Hi|apply (or_refl _ _ _ O)|assumption].
    - inversion Hv; subst. destruct u; [|apply same_refl]. apply (same_map (VShared true)). apply He; [exact Hi|apply (or_refl _ _ _ O)|assumption].
  Qed.
  (** What is seen of a panicking method is its state. *)
  Lemma unfill_same back v n (r : S * value * outcome unit) rv r' : back rv = Some (snd (fst r')) -> same r r' ->
    same r (unfill back v (filled n rv (fst (fst r'), snd r'))).
  Proof using Type.
    intros Hb H. destruct r' as [[s' v'] o']. cbn [fst snd] in *. destruct r as [[s0 v0] [u|e|p]]; cbn [same_fill] in *.
    - injection H as -> -> ->. cbn. rewrite Hb. destruct u. reflexivity.
    - injection H as -> -> ->. cbn. rewrite Hb. reflexivity.
    - destruct H as [H|[H1 H2]]; [left; exact H|]. right. cbn in *. subst. cbn. auto.
  Qed.
  Lemma tr_full d t v s : inv s -> ty_closed E t = true -> typed E t v -> tameF le (fun _ => True) E s t (fill c I E d t v s).
  Proof using Hlaw Hc HE. intros Hi Hcl Hv. apply (proj1 (fill_tame c I inv le (fun _ => True) Hlaw Hc E K HE d)); try assumption. left. exact Coq.Init.Logic.I. Qed.
  Lemma tr_full_field d t ft v s : inv s -> ty_closed E t = true -> typed E t v -> tameF le (fun _ => True) E s t (fill_field c I E d t ft v s).
  Proof using Hlaw Hc HE. intros Hi Hcl Hv. apply (proj2 (fill_tame c I inv le (fun _ => True) Hlaw Hc E K HE d)); try assumption. left. exact Coq.Init.Logic.I. Qed.
  Lemma zero_small : in_s 16 0.
  Proof using Type. unfold in_s. change (2 ^ (16 - 1)) with 32768. clear. lia. Qed.
  Lemma header_small last s s' ft last' : inv s -> in_s 16 last -> read_field_header c I last s = (s', Ok (ft, last')) -> in_s 16 ft /\ in_s 16 last'.
  Proof using Hlaw Hc.
    intros Hi Hl H. split.
    - pose proof (header_tame c I inv le (fun _ => True) Hlaw s last Hi) as [_ H2]. rewrite H in H2. cbn in H2. destruct H2 as [H2 _]. unfold in_s. change (2 ^ (16 - 1)) with 32768. clear - H2. lia.
    - unfold read_field_header, bind, ret in H. destruct (in_read_byte I s) as [s1 [b|e|p]]; try discriminate H.
      destruct (b =? 0); [injection H as _ _ <-; exact Hl|]. destruct (negb (Z.shiftr b 4 =? 0)).
      + destruct (overflow_checks c && (32767 <? last + Z.shiftr b 4)); [discriminate H|]. injection H as _ _ <-. apply wraps_range. reflexivity.
      + unfold read_full_field_id, bind, ret in H. destruct (decode_uleb c (in_read_byte I) (in_left I) s1) as [s2 [n|e|p]]; try discriminate H. injection H as _ _ <-.
        pose proof (wrapu_range 16 n ltac:(discriminate)). rewrite zigzag_decode16_spec by assumption. apply unzigzag_range; [reflexivity|assumption].
  Qed.
  Lemma asked_method {A} n (k : A -> rvalue value) back (m : S * outcome A) : (forall outs a, back outs (k a) = Some a) -> asked back (method n k m) = m.
  Proof using Type. intros H. destruct m as [s [a|e|p]]; cbn; [rewrite H|..]; reflexivity. Qed.

  (** The calls of the methods of macros.rs *)
  Section Named.
    Variable d : nat.
    Hypothesis IHf : forall t v s, inv s -> ty_closed E t = true -> typed E t v -> same (fill c I E d t v s) (text_fill c L rep E d t v s).
    Hypothesis IHff : forall t ft v s, inv s -> ty_closed E t = true -> typed E t v -> same (fill_field c I E d t ft v s) (text_fill_field c L rep E d t ft v s).
    Variable n : string.
    Variable df : def.
    Hypothesis Hdf : lookup E n = Some df.
    Notation fs := (fields_of df).
    Definition J (s : S) (v : value) : Prop := inv s /\ typed E (TNamed n) v.
    Notation run := (run_read fs c I (fill c I E d) (fill_field c I E d) (fun ft => skip_field c I d ft false)).
    Notation run' := (text_calls (L (7 + d)) fs (text_fill c L rep E d) (text_fill_field c L rep E d)).
    Lemma named_nth_error l m i f : named l m = Some (i, f) -> nth_error l i = Some f.
    Proof using Type.
      revert i. induction l as [|g l IH]; intros i; cbn [named]; [discriminate|]. destruct (String.eqb m (f_name g)); [intros E0; injection E0 as <- <-; reflexivity|].
      destruct (named l m) as [[j h]|] eqn:En; [|discriminate]. intros E0. injection E0 as <- <-. cbn [nth_error]. apply IH. reflexivity.
    Qed.
    Lemma calls_same k s v ls : k <> ReadI32 -> J s v -> Forall (small (in_s 16)) ls -> same_call stack J (in_s 16) (run k s v ls) (run' k s v ls).
    Proof using Hlaw Hc HL HE IHf IHff Hdf.
      intros Hk [Hi Hv] Hls. destruct k; cbn [run_read text_calls]; try congruence; try (right; split; reflexivity).
      - destruct (fetch ls last) as [[z|b]|] eqn:Ef; try (right; split; reflexivity).
        pose proof (fetch_small (in_s 16) ls last z Hls Ef) as Hz.
        rewrite (tr_header _ _ _ _ _ HL d z s Hi Hz).
        pose proof (header_tame c I inv le (fun _ => True) Hlaw s z Hi) as [Hle _].
        destruct (read_field_header c I z s) as [s1 [[ft l]|e|p]] eqn:Eh; cbn [gives asked header_of fst snd read_error same_call] in *.
        + destruct (header_small z s s1 ft l Hi Hz Eh) as [H1 H2]. split; [reflexivity|]. split; [split; [exact (or_inv _ _ _ O _ _ Hle Hi)|exact Hv]|]. split; [apply store_small; assumption|exact H1].
        + reflexivity.
        + right. split; reflexivity.
      - destruct (fetch ls ft) as [[z|b]|] eqn:Ef; try (right; split; reflexivity).
        pose proof (proj1 (skip_tame c I inv le (fun _ => True) Hlaw Hc d) s z false Hi (or_introl Coq.Init.Logic.I)) as [Hle _].
        destruct (tr_skip _ _ _ _ _ HL d z s Hi) as [[s2 H]|H].
        + destruct (skip_field c I d z false s) as [s1 [u|e|p]]; cbn in H; try discriminate H. injection H as -> ->. left. reflexivity.
        + rewrite H. destruct (skip_field c I d z false s) as [s1 [u|e|p]]; cbn [fst snd] in Hle; cbn.
          * split; [reflexivity|]. split; [split; [exact (or_inv _ _ _ O _ _ Hle Hi)|exact Hv]|]. split; [exact Hls|exact zero_small].
          * reflexivity.
          * right. split; reflexivity.
      - rewrite (tr_byte _ _ _ _ _ HL d s). rewrite asked_method by reflexivity.
        pose proof (lw_byte _ _ _ _ _ Hlaw s Hi) as [Hle Hb]. destruct (in_read_byte I s) as [s1 [b|e|p]]; cbn [fst snd same_call] in *.
        + split; [reflexivity|]. split; [split; [exact (or_inv _ _ _ O _ _ Hle Hi)|exact Hv]|]. split; [exact Hls|]. destruct Hb as [Hb _]. unfold is_byte in Hb. unfold in_s. change (2 ^ (16 - 1)) with 32768. clear - Hb. lia.
        + reflexivity.
        + right. split; reflexivity.
      - destruct (fetch ls ft) as [[z|b]|] eqn:Ef; try (right; split; reflexivity).
        destruct v; try (right; split; reflexivity). destruct (named fs f) as [[i g]|] eqn:En; [|right; split; reflexivity].
        destruct (nth_error vs i) as [w|] eqn:Ew; [|right; split; reflexivity].
        inversion Hv as [| | | | | | | | | | | | | | |n0 fs0 vs0 Hl0 Hty|]; subst. rewrite Hdf in Hl0. injection Hl0 as ->. cbn [fields_of] in *.
        pose proof (named_nth_error _ _ _ _ En) as Hg.
        destruct (typed_fields_nth _ _ _ _ _ Hty Hg) as (w' & Hw' & Htw). rewrite Ew in Hw'. injection Hw' as <-.
        destruct (closed_struct E K HE _ _ Hdf g (nth_error_In _ _ Hg)) as [Hcl _].
        pose proof (IHff (field_ty g) z w s Hi Hcl Htw) as H. pose proof (tr_full_field d (field_ty g) z w s Hi Hcl Htw) as (H1 & H2 & _).
        destruct (fill_field c I E d (field_ty g) z w s) as [[s1 w1] [u|e|p]]; cbn [fst snd same_fill result same_call] in *.
        + rewrite H. split; [reflexivity|]. split; [split; [exact (or_inv _ _ _ O _ _ H1 Hi)|]|split; [exact Hls|exact zero_small]].
          eapply ty_struct; [exact Hdf|]. eapply typed_fields_set; eassumption.
        + rewrite H. reflexivity.
        + destruct H as [H|[Ha Hb]]; [left; exact H|]. right. destruct (text_fill_field c L rep E d (field_ty g) z w s) as [[s2 w2] o2]. cbn in *. subst. split; reflexivity.
      - destruct v; try (right; split; reflexivity). destruct (nth_error fs idx) as [g|] eqn:Hg; [|right; split; reflexivity].
        inversion Hv as [| | | | | | | | | | | | | | | |n0 fs0 i0 f0 v0 Hl0 Hn0 Hty]; subst. rewrite Hdf in Hl0. injection Hl0 as ->. cbn [fields_of] in *.
        rewrite Hg in Hn0. injection Hn0 as <-. destruct (closed_union E K HE _ _ Hdf g (nth_error_In _ _ Hg)) as [Hcl _].
        pose proof (IHf (f_ty g) v s Hi Hcl Hty) as H. pose proof (tr_full d (f_ty g) v s Hi Hcl Hty) as (H1 & H2 & _).
        destruct (fill c I E d (f_ty g) v s) as [[s1 w1] [u|e|p]]; cbn [fst snd same_fill result same_call] in *.
        + rewrite H. split; [reflexivity|]. split; [split; [exact (or_inv _ _ _ O _ _ H1 Hi)|]|split; [exact Hls|exact zero_small]].
          eapply ty_union; eassumption.
        + rewrite H. reflexivity.
        + destruct H as [H|[Ha Hb]]; [left; exact H|]. right. destruct (text_fill c L rep E d (f_ty g) v s) as [[s2 w2] o2]. cbn in *. subst. split; reflexivity.
    Qed.
  End Named.

  Definition no_i32 (k : call) : Prop := k <> ReadI32.
  Lemma allowed_flat {A} callable variants (g : A -> list stmt) l : (forall a, allowed_all callable variants (g a)) -> allowed_all callable variants (flat_map g l).
  Proof using Type. intros H. induction l as [|a l IH]; cbn [flat_map]; [exact Coq.Init.Logic.I|]. apply allowed_app. split; [apply H|exact IH]. Qed.
  Lemma struct_allowed n fs : allowed_all no_i32 False (struct_fill_code n fs).
  Proof using Type.
    unfold struct_fill_code. repeat (apply allowed_app; split).
    - cbn. auto.
    - apply allowed_flat. intros f. unfold required_flag. destruct (f_req f); cbn; auto.
    - assert (X : allowed_arms no_i32 False (map (fun f => (f_id f, required_set f ++ [Do (FillField (f_name f) field_type_)])) fs)).
      { induction fs as [|f fs IH]; cbn [map allowed_arms]; [exact Coq.Init.Logic.I|]. split; [|exact IH]. apply allowed_app. unfold required_set. destruct (f_req f); cbn; (split; [auto|split; [discriminate|auto]]). }
      cbn. unfold no_i32 in *. repeat split; try discriminate. exact X.
    - apply allowed_flat. intros f. unfold required_check. destruct (f_req f); cbn; auto.
    - cbn. auto.
  Qed.
  Lemma union_allowed fs : allowed_all no_i32 True (union_fill_code fs).
  Proof using Type.
    assert (X : allowed_arms no_i32 True (map (fun f => (f_id f, [SetVariant (f_name f); MatchSelf [(f_name f, FillInner)] true])) fs)).
    { induction fs as [|f fs IH]; cbn [map allowed_arms]; [exact Coq.Init.Logic.I|]. split; [|exact IH]. cbn. repeat split. constructor; [discriminate|constructor]. }
    cbn. unfold no_i32 in *. repeat split; try discriminate. exact X.
  Qed.
  Lemma nodup_fields n df : lookup E n = Some df -> NoDup (map f_name (fields_of df)).
  Proof using Hnames. intros H. apply lookup_In in H. rewrite Forall_forall in Hnames. exact (Hnames _ H). Qed.
  Lemma variant_kept d n df (Hdf : lookup E n = Some df) m i f dv s v : named (fields_of df) m = Some (i, f) -> default E d (f_ty f) = Some dv ->
    J n s v -> J n s (VUnion i dv) \/ (exists fs, df = DStruct fs).
  Proof using HE.
    intros Hm Hd [Hi Hv]. destruct df as [fs|fs|]; [right; eauto| |discriminate Hm]. left. split; [exact Hi|]. apply named_nth_error in Hm. cbn [fields_of] in Hm.
    eapply ty_union; [exact Hdf|exact Hm|]. eapply (default_typed E K HE); [|exact Hd]. apply (closed_union E K HE _ _ Hdf f (nth_error_In _ _ Hm)).
  Qed.
  Lemma elements_good d t s
    (IHf : forall t v s, inv s -> ty_closed E t = true -> typed E t v -> same (fill c I E d t v s) (text_fill c L rep E d t v s)) :
    ty_closed E t = true -> good_elements t s (elem c I E d t) (text_elements c L rep E d t s).
  Proof using Hlaw Hc HL Hrep HE.
    intros Hcl. split; [symmetry; apply text_type_eq; exact Hcl|]. split; [reflexivity|]. split.
    - intros v Hv. eapply (default_typed E K HE); [exact Hcl|exact Hv].
    - intros v s' Hi _ Hv. split; [apply IHf|apply tr_full]; assumption.
  Qed.
  Lemma elt_closed t : (forall n, t <> TNamed n) -> ty_closed E t = true -> ty_closed E (elt t) = true.
  Proof using Type. intros _ H. destruct t; exact H. Qed.
  Lemma built_in t : {n | t = TNamed n} + {forall n, t <> TNamed n}.
  Proof using Type. destruct t; try (right; discriminate). left. eexists. reflexivity. Qed.

  Lemma field_step d t ft v s : text_fill_field c L rep E (Datatypes.S d) t ft v s =
    on_fn (own_fn rep t "fill_thrift_field")
      (fun f => unfill (unhold t) v (run_fn c (reading_world c (L (7 + d)) (text_elements c L rep E d (elt t) s)) f [hold (rep t) v; RObj; RInt U8 ft] s))
      (on_fn (default_fn "fill_thrift_field")
         (fun f => unfill of_elem v (run_fn c (reading_world c (L (7 + d)) (text_elements c L rep E d t s)) f [RElem v; RObj; RInt U8 ft] s)) (s, v, ill)).
  Proof using Type. reflexivity. Qed.

  Theorem text_fill_same d :
    (forall t v s, inv s -> ty_closed E t = true -> typed E t v -> same (fill c I E d t v s) (text_fill c L rep E d t v s)) /\
    (forall t ft v s, inv s -> ty_closed E t = true -> typed E t v -> same (fill_field c I E d t ft v s) (text_fill_field c L rep E d t ft v s)).
  Proof using Hlaw Hc HL Hrep HE Hnames Hbound.
    induction d as [|d [IHf IHff]]; [split; intros; left; reflexivity|]. split.
    - intros t v s Hi Hcl Hv. destruct (built_in t) as [[n ->]|Hn].
      + pose proof Hcl as Hcl'. cbn [ty_closed] in Hcl'. destruct (lookup E n) as [df|] eqn:Hdf; [|discriminate Hcl'].
        assert (R : text_fill c L rep E (Datatypes.S d) (TNamed n) v s =
          RustCode.method (fields_of df) (default E d) (text_calls (L (7 + d)) (fields_of df) (text_fill c L rep E d) (text_fill_field c L rep E d))
            (Datatypes.S (in_left I s)) (item_fill (methods (n, df))) v s).
        { rewrite <- (Hbound (7 + d)). cbn [text_fill]. rewrite Hdf. reflexivity. }
        rewrite R. clear R. pose proof (nodup_fields n df Hdf) as Hnd.
        pose proof (variant_kept d n df Hdf) as Hvar.
        pose proof (calls_same d IHf IHff n df Hdf) as Hcalls.
        destruct df as [fs|fs|]; cbn [fields_of methods item_fill] in *.
        * inversion Hv as [| | | | | | | | | | | | | | |n0 fs0 vs Hl0 Hty|]; subst; try congruence.
          rewrite (fill_struct_code c I E d n fs vs s Hdf Hnd).
          eapply (method_same fs (default E d) _ _ stack (J n) no_i32 False (in_s 16) zero_small); [exact Hcalls|intros []|apply struct_allowed|split; assumption].
        * rewrite (fill_union_code c I E d n fs v s (Datatypes.S (in_left I s)) Hdf Hnd).
          eapply (method_same fs (default E d) _ _ stack (J n) no_i32 True (in_s 16) zero_small); [exact Hcalls| |apply union_allowed|split; assumption].
          intros _ m i f dv s' v' H1 H2 H3. destruct (Hvar m i f dv s' v' H1 H2 H3) as [H|[gs H]]; [exact H|discriminate H].
        * rewrite (fill_enum_code c I E d n v s 1 (default E d) (fill c I E d) (fill_field c I E d) (fun ft => skip_field c I d ft false) Hdf).
          unfold RustCode.method, enum_fill_code. cbn [exec_all exec ask run_read text_calls].
          rewrite (tr_i32 _ _ _ _ _ HL d s), asked_method by reflexivity.
          destruct (read_i32 c I s) as [s1 [z|e|p]]; [reflexivity|reflexivity|right; split; reflexivity].
      + destruct (Hrep t Hn) as (T & HR & HT). rewrite <- HT in Hv. pose proof (hold_held E (rep t) T (elt t) v HR Hv) as Hh. rewrite HT in Hv.
        destruct (by_text c Hc I own inv L HL d (text_elements c L rep E d (elt t) s) (rep t) T HR (elt t) v (hold (rep t) v) s Hh) as (f & Hf & Hrun).
        rewrite HT in Hrun.
        assert (R : text_fill c L rep E (Datatypes.S d) t v s = unfill (unhold t) v (run_fn c (reading_world c (L (7 + d)) (text_elements c L rep E d (elt t) s)) f [hold (rep t) v; RObj] s)).
        { cbn [text_fill]. rewrite Hf. destruct t; try reflexivity. exfalso. eapply Hn. reflexivity. }
        rewrite R. clear R.
        assert (M : fill c I E (Datatypes.S d) t v s = fill_by c I (elem c I E d (elt t)) t v s).
        { destruct t; try reflexivity. exfalso. eapply Hn. reflexivity. }
        rewrite M. clear M. pose proof (by_same t v s _ _ Hi Hv Hn (elements_good d (elt t) s IHf (elt_closed t Hn Hcl))) as H.
        destruct (fill_by c I (text_elements c L rep E d (elt t) s) t v s) as [[s' v'] o] eqn:Eb. destruct Hrun as (rv' & Hh' & Hrun). rewrite Hrun.
        apply (unfill_same (unhold t) v 0 _ rv' (s', v', o)); [|exact H]. rewrite <- HT. eapply held_back; eassumption.
    - intros t ft v s Hi Hcl Hv. pose proof (elements_good d (elt t) s IHf) as Hge.
      assert (D : own_fn rep t "fill_thrift_field" = None -> field_methods t = false ->
        same (fill_field c I E (Datatypes.S d) t ft v s) (text_fill_field c L rep E (Datatypes.S d) t ft v s)).
      { intros Ho Hm.
        destruct (default_field_text c (text_elements c L rep E d t s) (reading_world c (L (7 + d)) (text_elements c L rep E d t s))
          (r_self c L d (text_elements c L rep E d t s)) (r_fill c L d (text_elements c L rep E d t s))) as (f & Hf & Hrun).
        assert (R : text_fill_field c L rep E (Datatypes.S d) t ft v s =
          unfill of_elem v (run_fn c (reading_world c (L (7 + d)) (text_elements c L rep E d t s)) f [RElem v; RObj; RInt U8 ft] s)).
        { rewrite field_step, Ho, Hf. reflexivity. }
        rewrite R, Hrun. clear R Hrun. cbn [el_type el_fill text_elements].
        assert (M : fill_field c I E (Datatypes.S d) t ft v s = if negb (ft =? field_type E t) then (s, v, Err InvalidType) else fill c I E d t v s).
        { destruct t; try reflexivity; discriminate Hm. }
        rewrite M, (text_type_eq t s Hcl). destruct (negb (ft =? field_type E t)); [reflexivity|].
        pose proof (IHf t v s Hi Hcl Hv) as H. unfold filled_elem.
        destruct (text_fill c L rep E d t v s) as [[s' v'] o'] eqn:Et.
        exact (unfill_same of_elem v 1 (fill c I E d t v s) (RElem v') (s', v', o') eq_refl H). }
      destruct (built_in t) as [[n ->]|Hn]; [apply D; reflexivity|].
      destruct (Hrep t Hn) as (T & HR & HT). pose proof Hv as Hv'. rewrite <- HT in Hv'. pose proof (hold_held E (rep t) T (elt t) v HR Hv') as Hh.
      assert (Ho : own_fn rep t "fill_thrift_field" = impl_fn (rep t) "fill_thrift_field") by (clear - Hn; destruct t; lazymatch goal with |- context [TNamed ?n] => exfalso; exact (Hn n eq_refl) | |- _ => reflexivity end).
      destruct (field_methods t) eqn:Hm.
      + set (e' := text_elements c L rep E d (elt t) s) in *. set (w := reading_world c (L (7 + d)) e').
        pose (r' := match t with
            | TBool => (s, VBool (ft =? 1), Ok tt)
            | _ => match v with
                   | VSome _ => (s, v, Err DuplicateField)
                   | _ => match el_default e' with None => (s, v, Panic PStack) | Some dv => match el_fill_field e' ft dv s with (s', v', o) => (s', VSome v', o) end end
                   end
            end).
        assert (G : exists f, impl_fn (rep t) "fill_thrift_field" = Some f /\
          let '(s', v', o) := r' in
          exists rv', held (rep t) v' rv' /\ run_fn c w f [hold (rep t) v; RObj; RInt U8 ft] s = filled 1 rv' (s', o)).
        { destruct (field_rep t (rep t) T HR HT Hm) as [[-> Hr]|[[u ->] Hr]]; rewrite Hr in *.
          - exact (bool_field_text c w v _ ft s Hh).
          - exact (option_field_text c e' w (r_default c L d e') (r_field c L d e') v _ ft s Hh). }
        destruct G as (f & Hf & G).
        assert (R : text_fill_field c L rep E (Datatypes.S d) t ft v s = unfill (unhold t) v (run_fn c w f [hold (rep t) v; RObj; RInt U8 ft] s)).
        { rewrite field_step, Ho, Hf. reflexivity. }
        rewrite R. clear R.
        assert (H : same (fill_field c I E (Datatypes.S d) t ft v s) r').
        { destruct t; try discriminate Hm; subst r'; cbn [fill_field elt] in *; [reflexivity|].
          assert (X : same match default E d t with None => (s, v, Panic PStack) | Some dv => match fill_field c I E d t ft dv s with (s', v', o) => (s', VSome v', o) end end
                      match el_default e' with None => (s, v, Panic PStack) | Some dv => match el_fill_field e' ft dv s with (s', v', o) => (s', VSome v', o) end end).
          { subst e'. cbn [text_elements el_default el_fill_field]. destruct (default E d t) as [dv|] eqn:Ed; [|left; reflexivity]. apply (same_map VSome). apply IHff; [exact Hi|exact Hcl|].
            eapply (default_typed E K HE); [exact Hcl|exact Ed]. }
          destruct v; try exact X. reflexivity. }
        clearbody r'. destruct r' as [[s' v'] o]. destruct G as (rv' & Hh' & Hrun). rewrite Hrun.
        apply (unfill_same (unhold t) v 1 _ rv' (s', v', o)); [|exact H]. rewrite <- HT. eapply held_back; eassumption.
      + apply D; [|reflexivity]. rewrite Ho. exact (no_field_fn t (rep t) T HR HT Hm).
  Qed.

  Theorem text_read_same d t s : inv s -> ty_closed E t = true -> (exists s', read_thrift c I E d t s = (s', Panic PStack)) \/ text_read c L rep E d t s = read_thrift c I E d t s.
  Proof using Hlaw Hc HL Hrep HE Hnames Hbound.
    intros Hi Hcl. set (e := text_elements c L rep E d t s).
    destruct (default_read_text c e (reading_world c (L (7 + d)) e) (r_default c L d e) (r_fill c L d e)) as (f & Hf & Hrun).
    assert (R : text_read c L rep E d t s = asked (fun _ rv => of_elem rv) (run_fn c (reading_world c (L (7 + d)) e) f [RObj] s)).
    { unfold text_read. rewrite Hf. reflexivity. }
    rewrite R, Hrun, asked_method by reflexivity. clear R Hrun. unfold read_thrift. subst e. cbn [el_default el_fill text_elements].
    destruct (default E d t) as [dv|] eqn:Ed; [|left; eexists; reflexivity].
    assert (Hdv : typed E t dv) by (eapply (default_typed E K HE); [exact Hcl|exact Ed]).
    pose proof (proj1 (text_fill_same d) t dv s Hi Hcl Hdv) as H.
    destruct (fill c I E d t dv s) as [[s1 v1] [u|er|p]]; cbn [same_fill] in H.
    - right. rewrite H. reflexivity.
    - right. rewrite H. reflexivity.
    - destruct H as [->|[H1 H2]]; [left; eexists; reflexivity|]. right. destruct (text_fill c L rep E d t dv s) as [[s2 v2] o2]. cbn in *. subst. reflexivity.
  Qed.
End Read.
