(** Whatever is decoded can be written again (C32). *)
From Coq Require Import ZifyBool ZifyNat ZifyN.
From Verif Require Import Base Uleb Utf8 Protocol Encodings Types SpecUtf8 SpecCompact SpecInput Schema Typing
  P_Arith P_Reads P_Utf8 P_Gen P_Fill P_Write P_Good P_Lawful P_Roundtrip P_Robust.
Ltac Zify.zify_post_hook ::= Z.div_mod_to_equations.

Definition good (b : bool) (v : value) : Prop := unwritable b v = None /\ unshare v = v.

Lemma seq_unwritable_Forall b vs : seq_unwritable b vs = None <-> Forall (fun v => unwritable b v = None) vs.
Proof.
  induction vs as [|v vs IH]; cbn; [split; [constructor|reflexivity]|].
  destruct (unwritable b v) as [e|] eqn:Hu; cbn [first_some].
  - split; [discriminate|]. intros H. inversion H; congruence.
  - fold (seq_unwritable b vs). rewrite IH. split; [intros H; constructor; assumption|intros H; inversion H; assumption].
Qed.
Lemma map_unshare_Forall vs : map unshare vs = vs <-> Forall (fun v => unshare v = v) vs.
Proof.
  induction vs as [|v vs IH]; cbn [map]; [split; [constructor|reflexivity]|]. split.
  - intros H. injection H as H1 H2. constructor; [exact H1|]. apply IH. exact H2.
  - intros H. inversion H; subst. f_equal; [assumption|]. apply IH. assumption.
Qed.
Lemma Forall_good b vs : Forall (good b) vs <-> seq_unwritable b vs = None /\ map unshare vs = vs.
Proof.
  rewrite seq_unwritable_Forall, map_unshare_Forall. split.
  - intros H. split; eapply Forall_impl; try exact H; intros v [H1 H2]; assumption.
  - intros [H1 H2]. rewrite Forall_forall in *. intros v Hv. split; auto.
Qed.
Lemma good_struct b vs : good b (VStruct vs) <-> Forall (good true) vs.
Proof.
  rewrite Forall_good. unfold good. cbn [unshare]. change (unwritable b (VStruct vs)) with (seq_unwritable true vs).
  split; intros [H1 H2]; (split; [exact H1|]); [injection H2 as H2; exact H2|f_equal; exact H2].
Qed.
Lemma good_vec b vs : good b (VVec vs) <-> zlen vs <= 10000000 /\ Forall (good false) vs.
Proof.
  rewrite Forall_good. unfold good. cbn [unshare].
  change (unwritable b (VVec vs)) with (if 10000000 <? zlen vs then Some InvalidCollectionLen else seq_unwritable false vs).
  destruct (10000000 <? zlen vs) eqn:Hz.
  - split; [intros [H _]; discriminate|lia].
  - split; [intros [H1 H2]; injection H2 as H2; split; [lia|auto]|intros (_ & H1 & H2); split; [exact H1|f_equal; exact H2]].
Qed.
Lemma good_some b v : good b (VSome v) <-> good b v.
Proof. unfold good. cbn [unshare unwritable]. split; intros [H1 H2]; (split; [exact H1|]); [injection H2 as H2; exact H2|f_equal; exact H2]. Qed.
Lemma good_box b v : good b (VBox v) <-> good false v.
Proof. unfold good. cbn [unshare unwritable]. split; intros [H1 H2]; (split; [exact H1|]); [injection H2 as H2; exact H2|f_equal; exact H2]. Qed.
Lemma good_shared b v : good b (VShared true v) <-> good false v.
Proof. unfold good. cbn [unshare unwritable]. split; intros [H1 H2]; (split; [exact H1|]); [injection H2 as H2; exact H2|f_equal; exact H2]. Qed.
Lemma good_union b i v : good b (VUnion i v) <-> good true v.
Proof. unfold good. cbn [unshare unwritable]. split; intros [H1 H2]; (split; [exact H1|]); [injection H2 as H2; exact H2|f_equal; exact H2]. Qed.
Lemma unwritable_field v : unwritable false v = None -> unwritable true v = None.
Proof.
  induction v; try reflexivity; try (intros H; exact H). exact IHv.
Qed.
Lemma good_field v : good false v -> good true v.
Proof. intros [H1 H2]. split; [apply unwritable_field; exact H1|exact H2]. Qed.

(** Targets a field is filled into: a default value or an earlier result. *)
Definition flat (E : env) (t : ty) : bool :=
  match t with
  | TBox _ | TShared _ => false
  | TNamed n => match lookup E n with Some (DStruct _) => false | _ => true end
  | _ => true
  end.
Inductive pre (E : env) : ty -> value -> Prop :=
| pre_flat t v : flat E t = true -> pre E t v
| pre_box t v : pre E t v -> pre E (TBox t) (VBox v)
| pre_shared t u v : pre E t v -> pre E (TShared t) (VShared u v)
| pre_struct n fs vs : lookup E n = Some (DStruct fs) -> pre_fields E fs vs -> pre E (TNamed n) (VStruct vs)
with pre_fields (E : env) : list field -> list value -> Prop :=
| pf_nil : pre_fields E [] []
| pf_cons f fs v vs : pre E (field_ty f) v -> (f_req f = false -> good true v) -> pre_fields E fs vs ->
    pre_fields E (f :: fs) (v :: vs).

Lemma pre_fields_nth E fs vs i f : pre_fields E fs vs -> nth_error fs i = Some f ->
  exists v, nth_error vs i = Some v /\ pre E (field_ty f) v /\ (f_req f = false -> good true v).
Proof.
  intros H. revert i. induction H as [|g fs v vs Hv Hg Hvs IH]; intros [|i] Hi; cbn [nth_error] in *; try discriminate.
  - injection Hi as <-. eauto.
  - apply IH. exact Hi.
Qed.
Lemma pre_fields_set E fs vs i f v : pre_fields E fs vs -> nth_error fs i = Some f -> pre E (field_ty f) v -> good true v ->
  pre_fields E fs (set_nth vs i v).
Proof.
  intros H. revert i. induction H as [|g fs w vs Hw Hg Hvs IH]; intros [|i] Hi Hv Hgv; cbn [nth_error set_nth] in *; try discriminate.
  - injection Hi as <-. constructor; auto.
  - constructor; auto.
Qed.
Lemma pre_fields_length E fs vs : pre_fields E fs vs -> List.length vs = List.length fs.
Proof. induction 1; cbn; congruence. Qed.

Lemma good_pre E :
  (forall t v, typed E t v -> forall b, good b v -> pre E t v) /\
  (forall t vs, typed_seq E t vs -> True) /\
  (forall fs vs, typed_fields E fs vs -> Forall (good true) vs -> pre_fields E fs vs).
Proof.
  apply typed_mutind; intros; try (apply pre_flat; reflexivity); try exact I.
  - apply pre_box. apply good_box in H1. eauto.
  - apply pre_shared. destruct u; [apply good_shared in H1; eauto|].
    unfold good in H1. cbn [unshare] in H1. destruct H1 as [_ H1]. discriminate.
  - apply pre_flat. cbn [flat]. rewrite H. reflexivity.
  - eapply pre_struct; [exact H|]. apply H1. apply good_struct in H2. exact H2.
  - apply pre_flat. cbn [flat]. rewrite H. reflexivity.
  - constructor.
  - inversion H3; subst. constructor; eauto.
Qed.

Lemma default_pre E d : forall t v, default E d t = Some v -> pre E t v.
Proof.
  induction d as [|d IH]; intros t v H; [discriminate|]. cbn [default] in H.
  destruct t; try (apply pre_flat; reflexivity).
  - destruct (default E d t) as [w|] eqn:Hw; [|discriminate]. injection H as <-. apply pre_box. eauto.
  - destruct (default E d t) as [w|] eqn:Hw; [|discriminate]. injection H as <-. apply pre_shared. eauto.
  - destruct (lookup E name) as [[fs|fs|]|] eqn:Hl; try (apply pre_flat; cbn [flat]; rewrite Hl; reflexivity).
    destruct (sequence _) as [vs|] eqn:Hs; [|discriminate]. injection H as <-.
    eapply pre_struct; [exact Hl|]. clear Hl. revert vs Hs.
    induction fs as [|f fs IHf]; intros vs Hs; cbn [map sequence] in Hs.
    + injection Hs as <-. constructor.
    + destruct (default E d (field_ty f)) as [w|] eqn:Hw; [|discriminate].
      destruct (sequence (map _ fs)) as [r|] eqn:Hr; [|discriminate]. injection Hs as <-.
      constructor; [eauto| |apply IHf; reflexivity].
      intros Hq. unfold field_ty in Hw. rewrite Hq in Hw. destruct d; [discriminate|]. injection Hw as <-. split; reflexivity.
Qed.

Lemma set_nth_length {A} (l : list A) i a : List.length (set_nth l i a) = List.length l.
Proof. revert i. induction l; intros [|i]; cbn; congruence. Qed.
Lemma nth_set_eq {A} (l : list A) i a x : nth_error (set_nth l i a) i = Some x -> x = a.
Proof. revert i. induction l as [|y l IH]; intros [|i]; cbn; try discriminate; [intros H; injection H as <-; reflexivity|apply IH]. Qed.
Lemma nth_set_neq {A} (l : list A) i j a : i <> j -> nth_error (set_nth l i a) j = nth_error l j.
Proof. revert i j. induction l as [|y l IH]; intros [|i] [|j] H; cbn; try reflexivity; [congruence|]. apply IH. congruence. Qed.

Lemma first_missing_none fs flags : List.length flags = List.length fs -> first_missing fs flags = None ->
  forall i f, nth_error fs i = Some f -> f_req f = true -> nth_error flags i = Some true.
Proof.
  revert flags. induction fs as [|g fs IH]; intros [|b flags] Hl Hm [|i] f Hf Hq; cbn in *; try discriminate.
  - injection Hf as ->. rewrite Hq in Hm. destruct b; [reflexivity|discriminate].
  - destruct (f_req g && negb b); [discriminate|]. eapply IH; eauto.
Qed.

Section Valid.
  Context {S : Type}.
  Variable c : cfg.
  Variable I : input S.
  Variable inv : S -> Prop.
  Variable le : S -> S -> Prop.
  Variable okp : panic -> Prop.
  Hypothesis L : lawful c I inv le okp.
  Hypothesis Hc : cfg_ok c.
  Hypothesis Hst : okp PStack.
  Variables (E : env) (K : nat).
  Hypothesis HE : env_closed E K = true.

  Notation left := (in_left I).
  Let O := lw_order _ _ _ _ _ L.

  Lemma tame_ok {A} s (m : M S A) Q s' a : tame le okp s m Q -> m s = (s', Ok a) -> le s' s /\ Q s' a.
  Proof. intros [H1 H2] H. rewrite H in H1, H2. split; assumption. Qed.
  Lemma assign_ok {A} s (m : M S A) k v s' v' u Q : tame le okp s m Q -> assign m k v s = (s', v', Ok u) ->
    exists a, Q s' a /\ v' = k a.
  Proof.
    intros Hm H. unfold assign in H. destruct (m s) as [s1 [a|e|p]] eqn:Hs; try discriminate.
    injection H as <- <- <-. exists a. split; [apply (tame_ok _ _ _ _ _ Hm Hs)|reflexivity].
  Qed.
  Lemma fill_ok d t v s s' v' o : inv s -> ty_closed E t = true -> typed E t v ->
    fill c I E d t v s = (s', v', o) -> inv s' /\ le s' s /\ typed E t v'.
  Proof.
    intros Hi Hcl Hv H. pose proof (proj1 (fill_tame c I inv le okp L Hc E K HE d) t v s Hi Hcl Hv (or_introl Hst)) as (H1 & H2 & _).
    rewrite H in *. cbn [fst snd] in *. split; [eapply (or_inv _ _ _ O); eassumption|]. split; assumption.
  Qed.
  Lemma fill_field_ok d t ft v s s' v' o : inv s -> ty_closed E t = true -> typed E t v ->
    fill_field c I E d t ft v s = (s', v', o) -> inv s' /\ le s' s /\ typed E t v'.
  Proof.
    intros Hi Hcl Hv H. pose proof (proj2 (fill_tame c I inv le okp L Hc E K HE d) t ft v s Hi Hcl Hv (or_introl Hst)) as (H1 & H2 & _).
    rewrite H in *. cbn [fst snd] in *. split; [eapply (or_inv _ _ _ O); eassumption|]. split; assumption.
  Qed.

  Lemma vec_loop_valid t d : ty_closed E t = true ->
    (forall v s s' v' u, inv s -> typed E t v -> pre E t v -> fill c I E d t v s = (s', v', Ok u) -> good false v') ->
    forall n s s' vs u, inv s -> vec_loop (default E d t) (fill c I E d t) n s = (s', vs, Ok u) ->
    List.length vs = n /\ Forall (good false) vs.
  Proof.
    intros Hcl Hf. induction n as [|n IH]; intros s s' vs u Hi H; cbn [vec_loop] in H.
    - injection H as <- <- <-. split; [reflexivity|constructor].
    - destruct (default E d t) as [dv|] eqn:Hdv; [|discriminate].
      destruct (fill c I E d t dv s) as [[s1 v1] [u1|e|p]] eqn:H1; try discriminate.
      destruct (vec_loop (Some dv) (fill c I E d t) n s1) as [[s2 vs'] o] eqn:H2. injection H as <- <- ->.
      pose proof (default_typed E K HE _ _ _ Hcl Hdv) as Ht.
      destruct (fill_ok _ _ _ _ _ _ _ Hi Hcl Ht H1) as (Hi1 & _ & _).
      destruct (IH s1 s2 vs' u Hi1 H2) as [Hlen Hall]. split; [cbn; congruence|].
      constructor; [|exact Hall]. eapply Hf; [exact Hi|exact Ht|eapply default_pre; exact Hdv|exact H1].
  Qed.

  Lemma struct_loop_valid d name fs : (forall f, In f fs -> ty_closed E (field_ty f) = true) ->
    (forall f ft v s s' v' u, In f fs -> inv s -> typed E (field_ty f) v -> pre E (field_ty f) v ->
       fill_field c I E d (field_ty f) ft v s = (s', v', Ok u) -> good true v') ->
    forall fuel last flags vs s s' vs' u, inv s -> typed_fields E fs vs -> pre_fields E fs vs ->
    List.length flags = List.length fs ->
    (forall i v, nth_error flags i = Some true -> nth_error vs i = Some v -> good true v) ->
    struct_loop c I name fs (fun t ft w s => fill_field c I E d t ft w s) (fun ft => skip_field c I d ft false)
      fuel last flags vs s = (s', vs', Ok u) ->
    Forall (good true) vs'.
  Proof.
    intros Hcl Hff. induction fuel as [|fuel IH]; intros last flags vs s s' vs' u Hi Ht Hp Hlen Hfl H; [discriminate|].
    cbn [struct_loop] in H.
    destruct (read_field_header c I last s) as [s1 [[ft last']|e|p]] eqn:Hh; try discriminate.
    destruct (tame_ok _ _ _ _ _ (header_tame c I inv le okp L s last Hi) Hh) as [Hle1 _].
    pose proof (or_inv _ _ _ O _ _ Hle1 Hi) as Hi1.
    destruct (ft =? 0).
    { destruct (first_missing fs flags) eqn:Hm; [discriminate|]. injection H as <- <- <-.
      rewrite Forall_forall. intros v Hin. destruct (In_nth_error _ _ Hin) as [i Hv].
      destruct (nth_error fs i) as [f|] eqn:Hf.
      - destruct (pre_fields_nth _ _ _ _ _ Hp Hf) as (v0 & Hv0 & _ & Hopt). rewrite Hv in Hv0. injection Hv0 as <-.
        destruct (f_req f) eqn:Hq; [|auto]. eapply Hfl; [|exact Hv]. eapply first_missing_none; eassumption.
      - apply nth_error_None in Hf. pose proof (pre_fields_length _ _ _ Hp).
        assert (nth_error vs i = None) by (apply nth_error_None; lia). congruence. }
    destruct (find_field fs last') as [[i f]|] eqn:Hfind.
    - destruct (find_field_In _ _ _ _ Hfind) as [Hnth _]. pose proof (nth_error_In _ _ Hnth) as Hin.
      destruct (pre_fields_nth _ _ _ _ _ Hp Hnth) as (v & Hv & Hpv & _). rewrite Hv in H.
      destruct (typed_fields_nth _ _ _ _ _ Ht Hnth) as (v0 & Hv0 & Htv). rewrite Hv in Hv0. injection Hv0 as <-.
      destruct (fill_field c I E d (field_ty f) ft v s1) as [[s2 v'] [u2|e|p]] eqn:Hfill; try discriminate.
      destruct (fill_field_ok _ _ _ _ _ _ _ _ Hi1 (Hcl _ Hin) Htv Hfill) as (Hi2 & _ & Htv').
      pose proof (Hff f ft v s1 s2 v' u2 Hin Hi1 Htv Hpv Hfill) as Hg.
      eapply IH; [exact Hi2| | | | |exact H].
      + eapply typed_fields_set; eassumption.
      + eapply pre_fields_set; try eassumption. eapply (proj1 (good_pre E)); eassumption.
      + rewrite set_nth_length. exact Hlen.
      + intros j w Hj Hw. destruct (Nat.eq_dec i j) as [->|Hij].
        * apply nth_set_eq in Hw. subst w. exact Hg.
        * rewrite nth_set_neq in Hj by exact Hij; rewrite nth_set_neq in Hw by exact Hij. eauto.
    - destruct (skip_field c I d ft false s1) as [s2 [u2|e|p]] eqn:Hsk; try discriminate.
      destruct (tame_ok _ _ _ _ _ (proj1 (skip_tame c I inv le okp L Hc d) s1 ft false Hi1 (or_introl Hst)) Hsk) as [Hle2 _].
      eapply IH; [eapply (or_inv _ _ _ O); eassumption|eassumption|eassumption|eassumption|eassumption|exact H].
  Qed.

  Lemma fill_valid d :
    (forall t v s s' v' u, inv s -> ty_closed E t = true -> typed E t v -> pre E t v ->
       fill c I E d t v s = (s', v', Ok u) -> good false v') /\
    (forall t ft v s s' v' u, inv s -> ty_closed E t = true -> typed E t v -> pre E t v ->
       fill_field c I E d t ft v s = (s', v', Ok u) -> good true v').
  Proof.
    induction d as [|d [IHf IHff]]; [split; intros; discriminate|]. split.
    - intros t v s s' v' u Hi Hcl Ht Hp H. cbn [fill] in H.
      destruct t; cbn [ty_closed] in Hcl.
      + eapply assign_ok in H; [|apply (lw_byte _ _ _ _ _ L); exact Hi]. destruct H as (a & _ & ->). split; reflexivity.
      + eapply assign_ok in H; [|apply (lw_byte _ _ _ _ _ L); exact Hi]. destruct H as (a & _ & ->). split; reflexivity.
      + eapply assign_ok in H; [|eapply read_i16_tame; eassumption]. destruct H as (a & _ & ->). split; reflexivity.
      + eapply assign_ok in H; [|eapply read_i32_tame; eassumption]. destruct H as (a & _ & ->). split; reflexivity.
      + eapply assign_ok in H; [|eapply read_i64_tame; eassumption]. destruct H as (a & _ & ->). split; reflexivity.
      + eapply assign_ok in H; [|apply (lw_double _ _ _ _ _ L); exact Hi]. destruct H as (a & _ & ->). split; reflexivity.
      + eapply assign_ok in H; [|apply (lw_binary _ _ _ _ _ L); exact Hi]. destruct H as (a & [_ Ha] & ->).
        split; [|reflexivity]. cbn [unwritable]. destruct (16777216 <? zlen a) eqn:Hz; [lia|reflexivity].
      + eapply assign_ok in H; [|eapply read_string_tame; eassumption]. destruct H as (a & (_ & Ha & _) & ->).
        split; [|reflexivity]. cbn [unwritable]. destruct (16777216 <? zlen a) eqn:Hz; [lia|reflexivity].
      + destruct (read_collection_len_and_type c I s) as [s1 [[n et]|e|p]] eqn:Hh; try discriminate.
        destruct (tame_ok _ _ _ _ _ (collection_tame c I inv le okp L Hc s Hi) Hh) as [Hle1 (Hn & _)].
        destruct (_ && _); [discriminate|]. destruct (negb (reserve c n)); [discriminate|].
        destruct (vec_loop (default E d t) (fill c I E d t) (Z.to_nat n) s1) as [[s2 vs] o] eqn:Hv. injection H as <- <- ->.
        eapply vec_loop_valid in Hv; [|exact Hcl| |eapply (or_inv _ _ _ O); eassumption].
        * destruct Hv as [Hl Hg]. apply good_vec. split; [unfold zlen; lia|exact Hg].
        * intros. eapply IHf; eassumption.
      + assert (Hgen : forall dv s'' w o, default E d t = Some dv -> fill c I E d t dv s = (s'', w, o) -> (s'', VSome w, o) = (s', v', Ok u) -> good false v').
        { intros dv s'' w o Hdv Hw Heq. injection Heq as <- <- ->. apply good_some.
          eapply IHf; [exact Hi|exact Hcl|eapply default_typed; eassumption|eapply default_pre; eassumption|exact Hw]. }
        destruct v; try discriminate; (destruct (default E d t) as [dv|] eqn:Hdv; [|discriminate]);
          (destruct (fill c I E d t dv s) as [[s'' w] o] eqn:Hw; eapply Hgen; [reflexivity|exact Hw|exact H]).
      + inversion Ht; subst. destruct (fill c I E d t v0 s) as [[s'' w] o] eqn:Hw. injection H as <- <- ->.
        apply good_box. eapply IHf; [exact Hi|exact Hcl|eassumption| |exact Hw].
        inversion Hp; subst; [discriminate|assumption].
      + inversion Ht; subst. destruct u0; [|discriminate].
        destruct (fill c I E d t v0 s) as [[s'' w] o] eqn:Hw. injection H as <- <- ->.
        apply good_shared. eapply IHf; [exact Hi|exact Hcl|eassumption| |exact Hw].
        inversion Hp; subst; [discriminate|assumption].
      + unfold assign in H. destruct (encset_read c I s) as [s1 [m|e|p]]; try discriminate. injection H as <- <- <-. split; reflexivity.
      + destruct (lookup E name) as [[fs|fs|]|] eqn:Hl; [| | |discriminate].
        * inversion Ht; subst; try congruence. match goal with H : lookup E name = Some (DStruct ?g) |- _ => assert (g = fs) by congruence; subst g end.
          destruct (struct_loop _ _ _ _ _ _ _ _ _ _ _) as [[s'' vs'] o] eqn:Hs. injection H as <- <- ->.
          apply good_struct. inversion Hp; subst; [match goal with H : flat E _ = true |- _ => cbn [flat] in H; rewrite Hl in H; discriminate end|].
          match goal with H : lookup E name = Some (DStruct ?g), H' : pre_fields E ?g _ |- _ => assert (g = fs) by congruence; subst g end.
          eapply struct_loop_valid; [| |exact Hi|eassumption|eassumption| | |exact Hs].
          -- intros f Hf. apply (closed_struct E K HE _ _ Hl f Hf).
          -- intros. eapply IHff; try eassumption. eapply (closed_struct E K HE _ _ Hl). assumption.
          -- rewrite map_length. reflexivity.
          -- intros i w Hi'. apply nth_error_In in Hi'. apply in_map_iff in Hi' as (? & Hx & _). discriminate.
        * destruct (read_field_header c I 0 s) as [s1 [[ft last]|e|p]] eqn:Hh; try discriminate.
          destruct (tame_ok _ _ _ _ _ (header_tame c I inv le okp L s 0 Hi) Hh) as [Hle1 _].
          pose proof (or_inv _ _ _ O _ _ Hle1 Hi) as Hi1.
          destruct (ft =? 0); [discriminate|]. destruct (find_field fs last) as [[i f]|] eqn:Hfind; [|discriminate].
          destruct (find_field_In _ _ _ _ Hfind) as [Hnth _]. destruct (closed_union E K HE _ _ Hl f (nth_error_In _ _ Hnth)) as [Hc1 _].
          destruct (default E d (f_ty f)) as [dv|] eqn:Hdv; [|discriminate].
          destruct (fill c I E d (f_ty f) dv s1) as [[s2 w] [u2|e|p]] eqn:Hw; try discriminate.
          destruct (in_read_byte I s2) as [s3 [b|e|p]]; cbn [failed] in H; try discriminate.
          destruct (b =? 0); [|discriminate]. injection H as <- <- <-. apply good_union. apply good_field.
          eapply IHf; [exact Hi1|exact Hc1|eapply default_typed; eassumption|eapply default_pre; eassumption|exact Hw].
        * eapply assign_ok in H; [|eapply read_i32_tame; eassumption]. destruct H as (a & _ & ->). split; reflexivity.
    - intros t ft v s s' v' u Hi Hcl Ht Hp H. cbn [fill_field] in H.
      assert (Hother : (if negb (ft =? field_type E t) then (s, v, Err InvalidType) else fill c I E d t v s) = (s', v', Ok u) -> good true v').
      { destruct (negb (ft =? field_type E t)); [discriminate|]. intros Hw. apply good_field. eapply IHf; eassumption. }
      destruct t; try (apply Hother; exact H).
      + injection H as <- <- <-. split; reflexivity.
      + clear Hother. cbn [ty_closed] in Hcl.
        assert (Hgen : forall dv s'' w o, default E d t = Some dv -> fill_field c I E d t ft dv s = (s'', w, o) -> (s'', VSome w, o) = (s', v', Ok u) -> good true v').
        { intros dv s'' w o Hdv Hw Heq. injection Heq as <- <- ->. apply good_some.
          eapply IHff; [exact Hi|exact Hcl|eapply default_typed; eassumption|eapply default_pre; eassumption|exact Hw]. }
        destruct v; try discriminate; (destruct (default E d t) as [dv|] eqn:Hdv; [|discriminate]);
          (destruct (fill_field c I E d t ft dv s) as [[s'' w] o] eqn:Hw; eapply Hgen; [reflexivity|exact Hw|exact H]).
  Qed.

  Lemma read_valid d t s s' v : inv s -> ty_closed E t = true -> read_thrift c I E d t s = (s', Ok v) ->
    typed E t v /\ good false v.
  Proof.
    intros Hi Hcl H. unfold read_thrift in H. destruct (default E d t) as [dv|] eqn:Hdv; [|discriminate].
    destruct (fill c I E d t dv s) as [[s1 w] [u|e|p]] eqn:Hw; try discriminate. injection H as <- <-.
    pose proof (default_typed E K HE _ _ _ Hcl Hdv) as Ht. split; [eapply fill_ok; eassumption|].
    eapply (proj1 (fill_valid d)); [exact Hi|exact Hcl|exact Ht|eapply default_pre; exact Hdv|exact Hw].
  Qed.
End Valid.

Lemma read_slice_valid c E K d t s s' v : cfg_ok c -> env_closed E K = true -> ty_closed E t = true -> bytes s ->
  read_thrift c (slice_input c) E d t s = (s', Ok v) -> typed E t v /\ unwritable false v = None /\ unshare v = v.
Proof.
  intros Hc HE Ht Hb H.
  exact (read_valid c _ _ _ sane (slice_lawful c Hc _ (slice_panic_sane c)) Hc stack_sane E K HE d t s s' v Hb Ht H).
Qed.
Lemma read_reader_valid c E K d t r r' v : cfg_ok c -> env_closed E K = true -> ty_closed E t = true -> reader_bytes r ->
  read_thrift c (reader_input c) E d t r = (r', Ok v) -> typed E t v /\ unwritable false v = None /\ unshare v = v.
Proof.
  intros Hc HE Ht Hb H.
  exact (read_valid c _ _ _ sane (reader_lawful c Hc _ (reader_panic_sane c)) Hc stack_sane E K HE d t r r' v Hb Ht H).
Qed.

(** Decoded values are written without error, and round-trip. *)
Lemma valid_writes E t v : typed E t v -> unwritable false v = None -> unshare v = v ->
  exists bs, appends (write_thrift vec_write_all E t v) bs (Ok tt) /\ bytes bs.
Proof.
  intros Ht Hu _. destruct (write_outcome E t v Ht) as (bs & H1 & H2). rewrite Hu in H1. eauto.
Qed.
Lemma read_write_read_slice c E K d t s s' v : cfg_ok c -> env_closed E K = true -> ty_closed E t = true -> bytes s ->
  read_thrift c (slice_input c) E d t s = (s', Ok v) ->
  exists bs, appends (write_thrift vec_write_all E t v) bs (Ok tt) /\ bytes bs /\
  forall c' K' d', cfg_ok c' -> reserve_ok c' -> env_ok false E K' = true -> fits E v t = true ->
    (need K' t (List.length bs) <= d')%nat ->
    both_read c' (fun S I => read_thrift c' I E d' t) bs v.
Proof.
  intros Hc HE Ht Hb H. destruct (read_slice_valid _ _ _ _ _ _ _ _ Hc HE Ht Hb H) as (H1 & H2 & H3).
  destruct (valid_writes E t v H1 H2 H3) as (bs & Hw & Hbs). exists bs. split; [exact Hw|]. split; [exact Hbs|].
  intros c' K' d' Hc' Hr HE' HW Hd. rewrite <- H3 at 1. eapply write_read; try eassumption.
  apply (Hw []).
Qed.
Lemma read_write_read_reader c E K d t r r' v : cfg_ok c -> env_closed E K = true -> ty_closed E t = true -> reader_bytes r ->
  read_thrift c (reader_input c) E d t r = (r', Ok v) ->
  exists bs, appends (write_thrift vec_write_all E t v) bs (Ok tt) /\ bytes bs /\
  forall c' K' d', cfg_ok c' -> reserve_ok c' -> env_ok false E K' = true -> fits E v t = true ->
    (need K' t (List.length bs) <= d')%nat ->
    both_read c' (fun S I => read_thrift c' I E d' t) bs v.
Proof.
  intros Hc HE Ht Hb H. destruct (read_reader_valid _ _ _ _ _ _ _ _ Hc HE Ht Hb H) as (H1 & H2 & H3).
  destruct (valid_writes E t v H1 H2 H3) as (bs & Hw & Hbs). exists bs. split; [exact Hw|]. split; [exact Hbs|].
  intros c' K' d' Hc' Hr HE' HW Hd. rewrite <- H3 at 1. eapply write_read; try eassumption.
  apply (Hw []).
Qed.
