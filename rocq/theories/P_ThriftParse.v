(** The parser accepts exactly the documents of the grammar. *)
From Verif Require Import Base ErrorName P_ErrorName Generator ThriftLex ThriftParse SpecThrift P_ThriftLex.
Open Scope Z_scope.

Lemma kbind_ok {A B} (m : kotlin A) (k : A -> kotlin B) r : kbind m k = KOk r -> exists a, m = KOk a /\ k a = KOk r.
Proof. destruct m; [eauto|discriminate]. Qed.
Notation wf := (Forall well_formed).
Lemma wf_app a b : wf (a ++ b) <-> wf a /\ wf b.
Proof. apply Forall_app. Qed.
Definition sound {A} (p : P A) (g : A -> list token -> Prop) : Prop :=
  forall ts a rest, wf ts -> p ts = KOk (a, rest) -> exists pre, ts = pre ++ rest /\ g a pre.
Definition complete {A} (p : P A) (g : A -> list token -> Prop) (follow : list token -> Prop) (d : nat) : Prop :=
  forall a pre rest, g a pre -> (List.length pre <= d)%nat -> follow rest -> p (pre ++ rest) = KOk (a, rest).
Definition anything (ts : list token) : Prop := True.
Definition no (f : token -> bool) (ts : list token) : Prop := next f ts = false.

(** * Single tokens *)
Lemma is_text_ok s t : is_text s t = true <-> t = T s.
Proof.
  destruct t; cbn; try (split; discriminate). rewrite String.eqb_eq. split; [intros ->; reflexivity|intros E; injection E; auto].
Qed.
Lemma next_text s ts : next (is_text s) ts = true <-> exists r, ts = T s :: r.
Proof.
  destruct ts as [|t ts]; cbn; [split; [discriminate|intros (r & E); discriminate]|]. rewrite is_text_ok. split.
  - intros ->. eauto.
  - intros (r & E). injection E; auto.
Qed.
Lemma is_text_self s : is_text s (T s) = true.
Proof. apply is_text_ok. reflexivity. Qed.
Lemma expect_ok s ts u rest : expect s ts = KOk (u, rest) <-> ts = T s :: rest.
Proof.
  unfold expect. destruct ts as [|t ts]; [split; discriminate|]. destruct (is_text s t) eqn:E.
  - apply is_text_ok in E as ->. destruct u. split; intros H; injection H as <-; reflexivity.
  - split; [discriminate|]. intros H. injection H as -> _. rewrite is_text_self in E. discriminate.
Qed.
Lemma expect_app s rest : expect s ([T s] ++ rest) = KOk (tt, rest).
Proof. apply expect_ok. reflexivity. Qed.
Lemma comma_ok ts u rest : comma ts = KOk (u, rest) <-> ts = TComma :: rest.
Proof.
  destruct u. split.
  - destruct ts as [|[] ts]; try discriminate. intros H. injection H as ->. reflexivity.
  - intros ->. reflexivity.
Qed.
Lemma identifier_ok ts n rest : identifier ts = KOk (n, rest) <-> ts = TId n :: rest.
Proof.
  split.
  - destruct ts as [|[] ts]; try discriminate. intros H. injection H as -> ->. reflexivity.
  - intros ->. reflexivity.
Qed.
Lemma literal_ok ts w rest : literal ts = KOk (w, rest) <-> ts = TLiteral w :: rest.
Proof.
  split.
  - destruct ts as [|[] ts]; try discriminate. intros H. injection H as -> ->. reflexivity.
  - intros ->. reflexivity.
Qed.
Lemma separator_sound ts : exists s, opt_sep s /\ ts = s ++ separator ts.
Proof.
  unfold separator. destruct ts as [|t ts]; [exists []; split; [constructor|reflexivity]|]. cbn [next tl]. destruct (is_separator t) eqn:E.
  - destruct t; cbn [is_separator] in E; try discriminate.
    + apply is_text_ok in E. injection E as ->. exists [T ";"]. split; [constructor|reflexivity].
    + exists [TComma]. split; [constructor|reflexivity].
  - exists []. split; [constructor|reflexivity].
Qed.
Lemma separator_complete s rest : opt_sep s -> no is_separator rest -> separator (s ++ rest) = rest.
Proof. intros [] H; cbn [app]; [|reflexivity|reflexivity]. unfold separator. rewrite H. reflexivity. Qed.
Lemma sep_no f s rest : opt_sep s -> f TComma = false -> f (T ";") = false -> no f rest -> no f (s ++ rest).
Proof. intros []; cbn; auto. Qed.

(** * Repetition *)
Lemma many_sound {A} starts (p : P A) g : sound p g -> forall n ts l rest, wf ts -> many starts p n ts = KOk (l, rest) ->
  exists pre, ts = pre ++ rest /\ gr_many g l pre.
Proof.
  intros Hp. induction n as [|n IH]; intros ts l rest Hw H; cbn [many] in H; destruct (next starts ts) eqn:E.
  - discriminate.
  - injection H as <- <-. exists []. split; [reflexivity|constructor].
  - apply kbind_ok in H as ([a ts1] & H1 & H). apply kbind_ok in H as ([l1 ts2] & H2 & H). injection H as <- <-.
    apply Hp in H1 as (pre1 & -> & G1); [|exact Hw]. apply wf_app in Hw as [_ Hw]. apply IH in H2 as (pre2 & -> & G2); [|exact Hw].
    exists (pre1 ++ pre2). split; [apply app_assoc|]. constructor; assumption.
  - injection H as <- <-. exists []. split; [reflexivity|constructor].
Qed.
Lemma many_complete {A} starts (p : P A) g follow d n l pre rest :
  complete p g follow d -> (forall a pre, g a pre -> next starts pre = true) -> (forall ts, next starts ts = true -> follow ts) ->
  gr_many g l pre -> (List.length pre <= d)%nat -> (List.length pre <= n)%nat -> follow rest -> no starts rest ->
  many starts p n (pre ++ rest) = KOk (l, rest).
Proof.
  intros Hp Hs Hf G Hd Hn Hr Hno. revert n Hn. induction G as [|a ts l ts' Ha G IH]; intros n Hn.
  - cbn [app]. destruct n; cbn [many]; rewrite Hno; reflexivity.
  - rewrite app_length in *. pose proof (Hs _ _ Ha) as Hst.
    assert (Hne : exists t ts0, ts = t :: ts0) by (destruct ts; [discriminate|eauto]). destruct Hne as (t & ts0 & ->). cbn [List.length] in *.
    destruct n as [|n]; [lia|]. cbn [many app next]. change (next starts (t :: ts0)) with (starts t) in Hst. rewrite Hst.
    rewrite !app_comm_cons, <- app_assoc. rewrite (Hp a (t :: ts0) (ts' ++ rest) Ha); [|cbn; lia|].
    + cbn [kbind]. rewrite IH by lia. reflexivity.
    + destruct G as [|b ts1 l1 ts2 Hb G]; [exact Hr|]. apply Hf. pose proof (Hs _ _ Hb) as H. destruct ts1; [discriminate|]. exact H.
Qed.

(** * Integers *)
Lemma digits_of_dec ds : Forall digit_char ds -> map (Z.add 48) (digits_of ds) = ds /\ Forall (fun d => 0 <= d <= 9) (digits_of ds).
Proof.
  induction 1 as [|c ds Hc _ [IH1 IH2]]; [split; [reflexivity|constructor]|]. unfold digit_char in Hc. cbn [digits_of map] in *.
  fold (digits_of ds). destruct (Z.leb_spec c 57); [|lia]. split; [unfold digits_of in *; rewrite IH1; f_equal; lia|]. constructor; [lia|exact IH2].
Qed.
Lemma digits_of_map ds : Forall (fun d => 0 <= d <= 9) ds -> digits_of (map (Z.add 48) ds) = ds.
Proof.
  unfold digits_of. induction 1 as [|d ds Hd _ IH]; [reflexivity|]. cbn [map]. rewrite IH. destruct (Z.leb_spec (48 + d) 57); [|lia]. f_equal. lia.
Qed.
Lemma digits_of_hex hs : Forall hex_char hs -> Forall2 hex_value (digits_of hs) hs.
Proof.
  unfold digits_of. induction 1 as [|c hs Hc _ IH]; [constructor|]. cbn [map]. constructor; [|exact IH]. unfold hex_char, digit_char in Hc. unfold hex_value.
  destruct (Z.leb_spec c 57); [lia|]. destruct (Z.leb_spec c 70); lia.
Qed.
Lemma hex_digits_of vs cs : Forall2 hex_value vs cs -> digits_of cs = vs.
Proof.
  unfold digits_of. induction 1 as [|v c vs cs Hv _ IH]; [reflexivity|]. cbn [map]. rewrite IH. f_equal. unfold hex_value in Hv.
  destruct (Z.leb_spec c 57); [lia|]. destruct (Z.leb_spec c 70); lia.
Qed.
Lemma dec_of_digits ds : ds <> [] -> Forall digit_char ds -> dec_of ds = Dec NoSign (digits_of ds).
Proof.
  intros Hne H. destruct H as [|c ds Hc _]; [congruence|]. unfold digit_char in Hc. unfold dec_of.
  destruct c as [|c|c]; try lia. do 6 (destruct c as [c|c|]; try lia; try reflexivity).
Qed.
Lemma parse_integer_sound : sound parse_integer gr_integer.
Proof.
  intros ts i rest Hw H. destruct ts as [|t ts]; [discriminate|]. inversion Hw; subst. destruct t; try discriminate; cbn in H; injection H as <- <-.
  - exists [TInteger w]. split; [reflexivity|]. destruct H2 as (s & ds & -> & Hs & Hne & Hds). destruct (digits_of_dec ds Hds) as [E1 E2].
    assert (Hne' : digits_of ds <> []) by (destruct ds; [congruence|discriminate]).
    destruct Hs as [->|[->| ->]].
    + cbn [app]. rewrite dec_of_digits by assumption. pose proof (G_dec NoSign _ Hne' E2) as G. rewrite E1 in G. exact G.
    + pose proof (G_dec Plus _ Hne' E2) as G. rewrite E1 in G. exact G.
    + pose proof (G_dec Minus _ Hne' E2) as G. rewrite E1 in G. exact G.
  - exists [THex w]. split; [reflexivity|]. destruct H2 as (s & hs & -> & Hs & Hne & Hhs).
    assert (Hne' : digits_of hs <> []) by (destruct hs; [congruence|discriminate]).
    destruct Hs as [-> | ->].
    + exact (G_hex false _ _ Hne' (digits_of_hex hs Hhs)).
    + exact (G_hex true _ _ Hne' (digits_of_hex hs Hhs)).
Qed.
Lemma parse_integer_complete i pre rest : gr_integer i pre -> parse_integer (pre ++ rest) = KOk (i, rest).
Proof.
  intros [s ds Hne H|neg vs cs Hne H]; cbn [app parse_integer].
  - f_equal. f_equal. pose proof (digits_of_map ds H) as E. destruct s.
    + cbn [app]. rewrite dec_of_digits.
      * rewrite E. reflexivity.
      * destruct ds; [congruence|discriminate].
      * rewrite Forall_map. eapply Forall_impl; [|exact H]. intros d Hd. cbn beta in Hd. unfold digit_char. lia.
    + exact (f_equal (Dec Plus) E).
    + exact (f_equal (Dec Minus) E).
  - f_equal. f_equal. pose proof (hex_digits_of vs cs H) as E. destruct neg; [exact (f_equal (Hex true) E)|exact (f_equal (Hex false) E)].
Qed.
Lemma integer_starts i pre : gr_integer i pre -> exists t, pre = [t] /\ starts_integer t = true.
Proof. intros []; eexists; split; reflexivity. Qed.

(** * Types *)
Lemma base_type_ok s b : base_type s = Some b <-> s = base_name b.
Proof.
  split.
  - unfold base_type. destruct (find _ base_types) as [[s' b']|] eqn:E; [|discriminate]. intros H. injection H as <-. apply find_some in E as [Hin E].
    cbn [fst] in E. apply String.eqb_eq in E as <-. cbn in Hin. repeat (destruct Hin as [E|Hin]; [injection E as <- <-; reflexivity|]). destruct Hin.
  - intros ->. destruct b; reflexivity.
Qed.
Lemma cpp_sound ts u rest : parse_cpp_type ts = KOk (u, rest) -> exists pre, ts = pre ++ rest /\ opt_cpp pre.
Proof.
  unfold parse_cpp_type. destruct (next (is_text "cpp_type") ts) eqn:E; intros H.
  - apply next_text in E as (r & ->). apply kbind_ok in H as ([w ts1] & H1 & H). injection H as _ <-. cbn [tl] in H1. apply literal_ok in H1 as ->.
    exists [T "cpp_type"; TLiteral w]. split; [reflexivity|constructor].
  - injection H as _ <-. exists []. split; [reflexivity|constructor].
Qed.
Lemma cpp_complete pre rest : opt_cpp pre -> no (is_text "cpp_type") rest -> parse_cpp_type (pre ++ rest) = KOk (tt, rest).
Proof. intros [] H; cbn [app]; unfold parse_cpp_type; [rewrite H|]; reflexivity. Qed.
Ltac kinv H := match type of H with kbind _ _ = KOk _ => let a := fresh "a" in let ts := fresh "ts" in let E := fresh "E" in
  apply kbind_ok in H as ([a ts] & E & H) end.
Ltac wfs := repeat match goal with
  | H : wf (_ ++ _) |- _ => apply wf_app in H as [? ?]
  | H : wf (_ :: _) |- _ => inversion H; subst; clear H
  end.
Lemma parse_type_sound d : sound (parse_type d) gr_type.
Proof.
  induction d as [|d IH]; intros ts t rest Hw H; [discriminate|]. cbn [parse_type] in H. destruct ts as [|tk ts]; [discriminate|].
  destruct tk; try discriminate.
  - destruct (base_type s) as [b|] eqn:Eb.
    + injection H as <- <-. apply base_type_ok in Eb as ->. exists [T (base_name b)]. split; [reflexivity|constructor].
    + inversion Hw; subst. destruct (String.eqb_spec s "map") as [->|_]; [|destruct (String.eqb_spec s "set") as [->|_]; [|destruct (String.eqb_spec s "list") as [->|_]; [|discriminate]]].
      * kinv H. kinv H. kinv H. kinv H. kinv H. kinv H. injection H as <- <-.
        apply cpp_sound in E as (cpp & -> & Hc). apply expect_ok in E0 as ->. wfs. apply IH in E1 as (ks & -> & Gk); [|assumption].
        apply comma_ok in E2 as ->. wfs. apply IH in E3 as (vs & -> & Gv); [|assumption]. apply expect_ok in E4 as ->.
        exists ([T "map"] ++ cpp ++ [T "<"] ++ ks ++ [TComma] ++ vs ++ [T ">"]). split; [cbn; rewrite <- !app_assoc; cbn; rewrite <- !app_assoc; cbn; rewrite <- !app_assoc; reflexivity|].
        constructor; assumption.
      * kinv H. kinv H. kinv H. kinv H. injection H as <- <-.
        apply cpp_sound in E as (cpp & -> & Hc). apply expect_ok in E0 as ->. wfs. apply IH in E1 as (ks & -> & Gk); [|assumption]. apply expect_ok in E2 as ->.
        exists ([T "set"] ++ cpp ++ [T "<"] ++ ks ++ [T ">"]). split; [cbn; rewrite <- !app_assoc; cbn; rewrite <- !app_assoc; reflexivity|]. constructor; assumption.
      * kinv H. kinv H. kinv H. kinv H. injection H as <- <-.
        apply cpp_sound in E as (cpp & -> & Hc). apply expect_ok in E0 as ->. wfs. apply IH in E1 as (ks & -> & Gk); [|assumption]. apply expect_ok in E2 as ->.
        exists ([T "list"] ++ cpp ++ [T "<"] ++ ks ++ [T ">"]). split; [cbn; rewrite <- !app_assoc; cbn; rewrite <- !app_assoc; reflexivity|]. constructor; assumption.
  - injection H as <- <-. exists [TId n]. split; [reflexivity|constructor].
Qed.
Lemma parse_type_complete d : complete (parse_type d) gr_type anything d.
Proof.
  induction d as [|d IH]; intros t pre rest G Hd Hf.
  - destruct G; cbn in Hd; lia.
  - destruct G as [b|n|cpp k v ks vs Hc Gk Gv|cpp e es Hc Ge|cpp e es Hc Ge].
    + cbn [app parse_type]. rewrite (proj2 (base_type_ok (base_name b) b) eq_refl). reflexivity.
    + reflexivity.
    + rewrite !app_length in Hd. cbn [List.length] in Hd. rewrite <- !app_assoc. cbn [app parse_type base_type find base_types fst option_map String.eqb Ascii.eqb Bool.eqb].
      rewrite cpp_complete by (exact Hc || reflexivity). cbn [kbind]. rewrite (proj2 (expect_ok "<" _ tt _) eq_refl). cbn [kbind].
      rewrite (IH k ks _ Gk) by (lia || exact I). cbn [kbind comma]. rewrite (IH v vs _ Gv) by (lia || exact I). cbn [kbind].
      rewrite (proj2 (expect_ok ">" _ tt _) eq_refl). reflexivity.
    + rewrite !app_length in Hd. cbn [List.length] in Hd. rewrite <- !app_assoc. cbn [app parse_type base_type find base_types fst option_map String.eqb Ascii.eqb Bool.eqb].
      rewrite cpp_complete by (exact Hc || reflexivity). cbn [kbind]. rewrite (proj2 (expect_ok "<" _ tt _) eq_refl). cbn [kbind].
      rewrite (IH e es _ Ge) by (lia || exact I). cbn [kbind]. rewrite (proj2 (expect_ok ">" _ tt _) eq_refl). reflexivity.
    + rewrite !app_length in Hd. cbn [List.length] in Hd. rewrite <- !app_assoc. cbn [app parse_type base_type find base_types fst option_map String.eqb Ascii.eqb Bool.eqb].
      rewrite cpp_complete by (exact Hc || reflexivity). cbn [kbind]. rewrite (proj2 (expect_ok "<" _ tt _) eq_refl). cbn [kbind].
      rewrite (IH e es _ Ge) by (lia || exact I). cbn [kbind]. rewrite (proj2 (expect_ok ">" _ tt _) eq_refl). reflexivity.
Qed.
Lemma type_starts t pre : gr_type t pre -> exists x pre', pre = x :: pre' /\ starts_type x = true /\ starts_integer x = false /\
  is_text "required" x = false /\ is_text "optional" x = false /\ is_text "oneway" x = false /\ is_text "void" x = false.
Proof. intros [[]| | | |]; eexists _, _; (split; [reflexivity|]); repeat split. Qed.

(** * Constant values *)
Definition val (_ : unit) (ts : list token) : Prop := gr_value ts.
Definition item (_ : unit) (ts : list token) : Prop := exists v s, ts = v ++ s /\ gr_value v /\ opt_sep s.
Definition entry (_ : unit) (ts : list token) : Prop := exists k v s, ts = k ++ [T ":"] ++ v ++ s /\ gr_value k /\ gr_value v /\ opt_sep s.
Lemma values_many vs : gr_values vs <-> exists l, gr_many item l vs.
Proof.
  split.
  - induction 1 as [|v s vs Hv Hs _ (l & IH)]; [exists []; constructor|]. exists (tt :: l). rewrite app_assoc. constructor; [|exact IH]. exists v, s. auto.
  - intros (l & H). induction H as [|a ts l ts' Ha _ IH]; [constructor|]. destruct Ha as (v & s & -> & Hv & Hs). rewrite <- app_assoc. constructor; assumption.
Qed.
Lemma entries_many es : gr_entries es <-> exists l, gr_many entry l es.
Proof.
  split.
  - induction 1 as [|k v s es Hk Hv Hs _ (l & IH)]; [exists []; constructor|]. exists (tt :: l).
    replace (k ++ [T ":"] ++ v ++ s ++ es) with ((k ++ [T ":"] ++ v ++ s) ++ es) by (rewrite <- !app_assoc; reflexivity).
    constructor; [|exact IH]. exists k, v, s. auto.
  - intros (l & H). induction H as [|a ts l ts' Ha _ IH]; [constructor|]. destruct Ha as (k & v & s & -> & Hk & Hv & Hs). rewrite <- !app_assoc.
    constructor; assumption.
Qed.
Lemma parse_value_sound d : sound (parse_value d) val.
Proof.
  induction d as [|d IH]; intros ts u rest Hw H; [discriminate|]. cbn [parse_value] in H. destruct ts as [|tk ts]; [discriminate|].
  inversion Hw; subst. unfold val. destruct tk; try discriminate.
  - destruct (String.eqb_spec s "[") as [->|_]; [|destruct (String.eqb_spec s "{") as [->|_]; [|discriminate]].
    + kinv H. apply expect_ok in H as ->. eapply (many_sound _ _ item) in E as (pre & -> & G); [|clear - IH|assumption].
      * exists ([T "["] ++ pre ++ [T "]"]). split; [cbn; rewrite <- app_assoc; reflexivity|]. constructor. apply values_many. eauto.
      * intros ts b rest Hw H. kinv H. injection H as <- <-. apply IH in E as (v & -> & Gv); [|exact Hw].
        destruct (separator_sound ts0) as (s & Hs & E). exists (v ++ s). split; [rewrite <- app_assoc, <- E; reflexivity|]. exists v, s. auto.
    + kinv H. apply expect_ok in H as ->. eapply (many_sound _ _ entry) in E as (pre & -> & G); [|clear - IH|assumption].
      * exists ([T "{"] ++ pre ++ [T "}"]). split; [cbn; rewrite <- app_assoc; reflexivity|]. constructor. apply entries_many. eauto.
      * intros ts b rest Hw H. kinv H. kinv H. kinv H. injection H as <- <-. apply IH in E as (k & -> & Gk); [|exact Hw].
        apply expect_ok in E0 as ->. wfs. apply IH in E1 as (v & -> & Gv); [|assumption].
        destruct (separator_sound ts2) as (s & Hs & E). exists (k ++ [T ":"] ++ v ++ s). split; [cbn [app]; rewrite <- ?app_assoc; cbn [app]; rewrite <- ?app_assoc, <- E; reflexivity|].
        exists k, v, s. auto.
  - injection H as <- <-. exists [TInteger w]. split; [reflexivity|constructor].
  - injection H as <- <-. exists [THex w]. split; [reflexivity|constructor].
  - injection H as <- <-. exists [TDouble w]. split; [reflexivity|constructor].
  - injection H as <- <-. exists [TLiteral w]. split; [reflexivity|constructor].
  - injection H as <- <-. exists [TId n]. split; [reflexivity|constructor].
Qed.
Lemma value_starts v : gr_value v -> exists t v', v = t :: v' /\ starts_value t = true.
Proof. intros []; eexists _, _; split; reflexivity. Qed.
Lemma starts_value_no t f : starts_value t = true -> (f = is_separator \/ f = is_text ":") -> f t = false.
Proof.
  destruct t; cbn [starts_value]; try discriminate; intros H [-> | ->]; try reflexivity;
    apply orb_true_iff in H as [H|H]; apply is_text_ok in H; injection H as ->; reflexivity.
Qed.
Lemma parse_value_complete d : complete (parse_value d) val anything d.
Proof.
  induction d as [|d IH]; intros u pre rest G Hd Hf.
  - destruct (value_starts _ G) as (t & v' & -> & _). cbn in Hd. lia.
  - destruct u, G as [w|w|w|w|n|vs G|es G]; try reflexivity.
    + apply values_many in G as (l & G). rewrite !app_length in Hd. cbn [List.length] in Hd. rewrite <- !app_assoc. cbn [app parse_value String.eqb Ascii.eqb Bool.eqb].
      rewrite (many_complete _ _ item (no is_separator) d _ l vs); cbn [kbind].
      * rewrite (proj2 (expect_ok "]" _ tt _) eq_refl). reflexivity.
      * intros a pre r (v & s & -> & Gv & Hs) Hl Hr. rewrite app_length in Hl. rewrite <- app_assoc.
        destruct a. rewrite (IH tt v (s ++ r) Gv) by (lia || exact I). cbn [kbind]. rewrite separator_complete by assumption. reflexivity.
      * intros a pre (v & s & -> & Gv & _). destruct (value_starts v Gv) as (t & v' & -> & Ht). exact Ht.
      * intros [|t ts] Ht; [discriminate|]. apply (starts_value_no t is_separator); auto.
      * exact G.
      * lia.
      * rewrite app_length. lia.
      * reflexivity.
      * reflexivity.
    + apply entries_many in G as (l & G). rewrite !app_length in Hd. cbn [List.length] in Hd. rewrite <- !app_assoc. cbn [app parse_value String.eqb Ascii.eqb Bool.eqb].
      rewrite (many_complete _ _ entry (no is_separator) d _ l es); cbn [kbind].
      * rewrite (proj2 (expect_ok "}" _ tt _) eq_refl). reflexivity.
      * intros a pre r (k & v & s & -> & Gk & Gv & Hs) Hl Hr. rewrite !app_length in Hl. rewrite <- !app_assoc.
        destruct a. rewrite (IH tt k _ Gk) by (lia || exact I). cbn [kbind app]. rewrite (proj2 (expect_ok ":" _ tt _) eq_refl). cbn [kbind].
        rewrite (IH tt v _ Gv) by (lia || exact I). cbn [kbind]. rewrite separator_complete by assumption. reflexivity.
      * intros a pre (k & v & s & -> & Gk & _). destruct (value_starts k Gk) as (t & v' & -> & Ht). exact Ht.
      * intros [|t ts] Ht; [discriminate|]. apply (starts_value_no t is_separator); auto.
      * exact G.
      * lia.
      * rewrite app_length. lia.
      * reflexivity.
      * reflexivity.
Qed.

(** * Fields *)
Lemma requirement_sound : sound parse_requirement gr_req.
Proof.
  intros ts r rest _ H. unfold parse_requirement in H. destruct (next (is_text "required") ts) eqn:E1.
  - apply next_text in E1 as (x & ->). injection H as <- <-. exists [T "required"]. split; [reflexivity|constructor].
  - destruct (next (is_text "optional") ts) eqn:E2.
    + apply next_text in E2 as (x & ->). injection H as <- <-. exists [T "optional"]. split; [reflexivity|constructor].
    + injection H as <- <-. exists []. split; [reflexivity|constructor].
Qed.
Lemma parse_field_sound d : sound (parse_field d) gr_field.
Proof.
  intros ts f rest Hw H. unfold parse_field in H. kinv H. kinv H. kinv H. kinv H. kinv H. injection H as <- <-.
  assert (Hid : exists is, ts = is ++ ts0 /\ gr_id a is).
  { destruct (next starts_integer ts).
    - kinv E. kinv E. injection E as <- <-. apply parse_integer_sound in E4 as (is & -> & G); [|exact Hw]. apply expect_ok in E5 as ->.
      exists (is ++ [T ":"]). split; [rewrite <- app_assoc; reflexivity|constructor; exact G].
    - injection E as <- <-. exists []. split; [reflexivity|constructor]. }
  destruct Hid as (is & -> & Gid). wfs. apply requirement_sound in E0 as (rs & -> & Gr); [|assumption]. wfs.
  apply parse_type_sound in E1 as (tys & -> & Gt); [|assumption]. wfs. apply identifier_ok in E2 as ->. wfs.
  assert (Hdef : exists ds, ts3 = ds ++ ts4 /\ opt_default ds).
  { destruct (next (is_text "=") ts3) eqn:En.
    - apply next_text in En as (r & ->). cbn [tl] in E3. wfs. apply parse_value_sound in E3 as (v & -> & Gv); [|assumption].
      exists ([T "="] ++ v). split; [reflexivity|constructor; exact Gv].
    - injection E3 as _ <-. exists []. split; [reflexivity|constructor]. }
  destruct Hdef as (ds & -> & Gd). destruct (separator_sound ts4) as (s & Hs & Es).
  exists (is ++ rs ++ tys ++ [TId a2] ++ ds ++ s). split; [cbn [app]; rewrite <- ?app_assoc; cbn [app]; rewrite <- ?app_assoc, <- Es; reflexivity|]. constructor; assumption.
Qed.
Definition after_field (ts : list token) : Prop := no is_separator ts /\ no (is_text "=") ts.
Lemma parse_field_complete d : complete (parse_field d) gr_field after_field d.
Proof.
  intros f pre rest G Hd [Hf1 Hf2]. destruct G as [id req n t is rs ts ds s Gid Gr Gt Gd Gs]. rewrite !app_length in Hd. rewrite <- !app_assoc.
  destruct (type_starts t ts Gt) as (x & ts' & Ets & Hx & Hxi & Hxr & Hxo & _).
  assert (Hreq : forall r, parse_requirement (rs ++ ts ++ r) = KOk (req, ts ++ r)).
  { intros r. destruct Gr; try reflexivity. rewrite Ets. cbn [app]. unfold parse_requirement. cbn [next]. rewrite Hxr, Hxo. reflexivity. }
  unfold parse_field.
  assert (Hid : forall r, (if next starts_integer (is ++ rs ++ ts ++ r)
      then let! (i, ts) := parse_integer (is ++ rs ++ ts ++ r) in let! (_, ts) := expect ":" ts in KOk (Some i, ts)
      else KOk (None, is ++ rs ++ ts ++ r)) = KOk (id, rs ++ ts ++ r)).
  { intros r. destruct Gid as [|i is Gi].
    - cbn [app]. assert (Hno : next starts_integer (rs ++ ts ++ r) = false) by (destruct Gr; try reflexivity; rewrite Ets; exact Hxi). rewrite Hno. reflexivity.
    - rewrite <- app_assoc. destruct (integer_starts i is Gi) as (y & -> & Hy). cbn [app next]. rewrite Hy.
      rewrite (parse_integer_complete i [y] _ Gi : parse_integer (y :: _) = _). cbn [kbind app]. rewrite (proj2 (expect_ok ":" _ tt _) eq_refl). reflexivity. }
  rewrite Hid. cbn [kbind]. rewrite Hreq. cbn [kbind]. rewrite (parse_type_complete d t ts _ Gt) by (lia || exact I). cbn [kbind app identifier].
  assert (Hdef : (if next (is_text "=") (ds ++ s ++ rest) then parse_value d (tl (ds ++ s ++ rest)) else KOk (tt, ds ++ s ++ rest)) = KOk (tt, s ++ rest)).
  { destruct Gd as [|v Gv].
    - cbn [app]. rewrite (sep_no (is_text "=") s rest Gs eq_refl eq_refl Hf2). reflexivity.
    - rewrite app_length in Hd. cbn [List.length] in Hd. cbn [app next tl]. rewrite is_text_self. apply (parse_value_complete d tt v _ Gv); [lia|exact I]. }
  rewrite Hdef. cbn [kbind]. rewrite separator_complete by assumption. reflexivity.
Qed.
Lemma field_starts f pre : gr_field f pre -> next starts_field pre = true.
Proof.
  intros [id req n t is rs ts ds s Gid Gr Gt Gd Gs]. destruct (type_starts t ts Gt) as (x & ts' & -> & Hx & _).
  destruct Gid as [|i is Gi].
  - destruct Gr; cbn [app next]; unfold starts_field; rewrite ?Hx, ?orb_true_r; reflexivity.
  - destruct (integer_starts i is Gi) as (y & -> & Hy). cbn [app next]. unfold starts_field. rewrite Hy. reflexivity.
Qed.
Lemma starts_type_no t : starts_type t = true -> forall s, base_type s = None -> s <> "map"%string -> s <> "set"%string -> s <> "list"%string -> is_text s t = false.
Proof.
  intros H s Hb H1 H2 H3. destruct (is_text s t) eqn:E; [|reflexivity]. apply is_text_ok in E as ->. cbn [starts_type] in H. rewrite Hb in H.
  rewrite !orb_true_iff in H. destruct H as [[H|H]|H]; apply is_text_ok in H; injection H; congruence.
Qed.
Lemma starts_field_no t : starts_field t = true -> t <> TComma /\ is_text ";" t = false /\ is_text "=" t = false.
Proof.
  unfold starts_field. rewrite !orb_true_iff. intros [[[H|H]|H]|H].
  - destruct t; try discriminate; repeat split; discriminate.
  - apply is_text_ok in H as ->. repeat split; discriminate.
  - apply is_text_ok in H as ->. repeat split; discriminate.
  - split; [intros ->; discriminate|]. split; apply starts_type_no; auto; discriminate.
Qed.
Lemma not_separator t : t <> TComma -> is_text ";" t = false -> is_separator t = false.
Proof. destruct t; cbn [is_separator]; auto; congruence. Qed.
Lemma parse_fields_sound d : sound (parse_fields d) (gr_many gr_field).
Proof. intros ts l rest Hw H. exact (many_sound _ _ _ (parse_field_sound d) _ _ _ _ Hw H). Qed.
Lemma parse_fields_complete d l pre rest : gr_many gr_field l pre -> (List.length pre <= d)%nat -> after_field rest -> no starts_field rest ->
  parse_fields d (pre ++ rest) = KOk (l, rest).
Proof.
  intros G Hd Hr Hn. unfold parse_fields. apply (many_complete _ _ gr_field after_field d); auto; try exact (parse_field_complete d); try exact field_starts.
  - intros [|t ts] Ht; [discriminate|]. apply starts_field_no in Ht as (H1 & H2 & H3). split; [apply not_separator; assumption|exact H3].
  - rewrite app_length. lia.
Qed.

(** * Enums *)
Lemma parse_enum_field_sound : sound parse_enum_field gr_enum_field.
Proof.
  intros ts f rest Hw H. unfold parse_enum_field in H. kinv H. kinv H. kinv H. injection H as <- <-. apply identifier_ok in E as ->. apply expect_ok in E0 as ->.
  wfs. apply parse_integer_sound in E1 as (is & -> & G); [|assumption]. destruct (separator_sound ts2) as (s & Hs & Es).
  exists ([TId a] ++ [T "="] ++ is ++ s). split; [cbn [app]; rewrite <- ?app_assoc, <- Es; reflexivity|]. constructor; assumption.
Qed.
Lemma parse_enum_field_complete d : complete parse_enum_field gr_enum_field (no is_separator) d.
Proof.
  intros f pre rest [n i is s G Hs] _ Hf. rewrite <- !app_assoc. unfold parse_enum_field. cbn [app identifier kbind].
  rewrite (proj2 (expect_ok "=" _ tt _) eq_refl). cbn [kbind]. rewrite (parse_integer_complete i is _ G). cbn [kbind]. rewrite separator_complete by assumption. reflexivity.
Qed.

(** * Services *)
Lemma parse_function_sound d : sound (parse_function d) gr_function.
Proof.
  intros ts f rest Hw H. unfold parse_function in H.
  assert (How : exists ow, ts = ow ++ (if next (is_text "oneway") ts then tl ts else ts) /\ opt_oneway ow).
  { destruct (next (is_text "oneway") ts) eqn:E; [apply next_text in E as (r & ->); exists [T "oneway"]|exists []]; split; try reflexivity; constructor. }
  destruct How as (ow & Ets & How). remember (if next (is_text "oneway") ts then tl ts else ts) as ts1. clear Heqts1. subst ts. wfs.
  kinv H. kinv H. kinv H. kinv H. kinv H. kinv H. injection H as <- <-.
  assert (Hr : exists rs, ts1 = rs ++ ts /\ gr_result rs).
  { destruct (next (is_text "void") ts1) eqn:En.
    - apply next_text in En as (r & ->). injection E as _ <-. exists [T "void"]. split; [reflexivity|constructor].
    - kinv E. injection E as _ <-. apply parse_type_sound in E5 as (tys & -> & Gt); [|assumption]. exists tys. split; [reflexivity|econstructor; exact Gt]. }
  clear E. destruct Hr as (rs & -> & Gr). wfs. apply identifier_ok in E0 as ->. apply expect_ok in E1 as ->. wfs.
  apply parse_fields_sound in E2 as (ps & -> & Gp); [|assumption]. apply expect_ok in E3 as ->. wfs.
  assert (Ht : exists th, ts4 = th ++ ts5 /\ opt_throws th).
  { destruct (next (is_text "throws") ts4) eqn:En.
    - apply next_text in En as (r & ->). cbn [tl] in E4. kinv E4. kinv E4. apply expect_ok in E as ->. wfs.
      apply parse_fields_sound in E0 as (xs & -> & Gx); [|assumption]. apply expect_ok in E4 as ->.
      exists ([T "throws"; T "("] ++ xs ++ [T ")"]). split; [cbn [app]; rewrite <- app_assoc; reflexivity|econstructor; exact Gx].
    - injection E4 as _ <-. exists []. split; [reflexivity|constructor]. }
  destruct Ht as (th & -> & Gth). destruct (separator_sound ts5) as (s & Hs & Es).
  exists (ow ++ rs ++ [TId a0; T "("] ++ ps ++ [T ")"] ++ th ++ s). split; [|econstructor; eassumption].
  rewrite <- ?app_assoc. cbn [app]. rewrite <- ?app_assoc. cbn [app]. rewrite <- ?app_assoc, <- Es. reflexivity.
Qed.
Definition after_function (ts : list token) : Prop := no is_separator ts /\ no (is_text "throws") ts.
Lemma closing s rest : In s [")"; "}"]%string -> after_field (T s :: rest) /\ no starts_field (T s :: rest).
Proof. intros [<-|[<-|[]]]; repeat split. Qed.
Lemma parse_function_complete d : complete (parse_function d) gr_function after_function d.
Proof.
  intros f pre rest G Hd [Hf1 Hf2]. destruct G as [ow rs n fs ps th s How Gr Gp Gth Gs]. rewrite !app_length in Hd. cbn [List.length] in Hd. rewrite <- !app_assoc.
  assert (Hfirst : exists x rs', rs = x :: rs' /\ is_text "oneway" x = false).
  { destruct Gr as [|t ts Gt]; [exists (T "void"), []; split; reflexivity|]. destruct (type_starts t ts Gt) as (x & ts' & -> & _ & _ & _ & _ & Hx & _). eauto. }
  assert (Hres : forall r, (if next (is_text "void") (rs ++ r) then KOk (tt, tl (rs ++ r)) else let! (_, ts) := parse_type d (rs ++ r) in KOk (tt, ts)) = KOk (tt, r)).
  { intros r. destruct Gr as [|t ts Gt]; [reflexivity|]. rewrite (parse_type_complete d t ts _ Gt) by (lia || exact I).
    destruct (type_starts t ts Gt) as (x & ts' & -> & _ & _ & _ & _ & _ & Hv). cbn [app next]. rewrite Hv. reflexivity. }
  unfold parse_function.
  assert (How' : forall r, (if next (is_text "oneway") (ow ++ rs ++ r) then tl (ow ++ rs ++ r) else ow ++ rs ++ r) = rs ++ r).
  { intros r. destruct How; [|reflexivity]. destruct Hfirst as (x & rs' & -> & Hx). cbn [app next]. rewrite Hx. reflexivity. }
  cbv zeta. rewrite How', Hres. cbn [kbind app identifier]. rewrite (proj2 (expect_ok "(" _ tt _) eq_refl). cbn [kbind].
  rewrite (parse_fields_complete d fs ps _ Gp); [|lia|apply closing; cbn; auto|apply closing; cbn; auto]. cbn [kbind].
  rewrite (proj2 (expect_ok ")" _ tt _) eq_refl). cbn [kbind].
  assert (Hth : (if next (is_text "throws") (th ++ s ++ rest) then
                    let! (_, ts) := expect "(" (tl (th ++ s ++ rest)) in let! (_, ts) := parse_fields d ts in expect ")" ts
                  else KOk (tt, th ++ s ++ rest)) = KOk (tt, s ++ rest)).
  { destruct Gth as [|xs ts Gx].
    - cbn [app]. rewrite (sep_no (is_text "throws") s rest Gs eq_refl eq_refl Hf2). reflexivity.
    - rewrite !app_length in Hd. cbn [List.length] in Hd. rewrite <- !app_assoc. cbn [app next tl]. rewrite is_text_self.
      rewrite (proj2 (expect_ok "(" _ tt _) eq_refl). cbn [kbind].
      rewrite (parse_fields_complete d xs ts _ Gx); [|lia|apply closing; cbn; auto|apply closing; cbn; auto]. cbn [kbind].
      apply (proj2 (expect_ok ")" _ tt _) eq_refl). }
  rewrite Hth. cbn [kbind]. rewrite separator_complete by assumption. reflexivity.
Qed.
Lemma function_starts f pre : gr_function f pre -> next starts_function pre = true.
Proof.
  intros [ow rs n fs ps th s How Gr _ _ _]. destruct How; [|reflexivity]. destruct Gr as [|t ts Gt]; [reflexivity|].
  destruct (type_starts t ts Gt) as (x & ts' & -> & Hx & _). cbn [app next]. unfold starts_function. rewrite Hx, !orb_true_r. reflexivity.
Qed.
Lemma starts_function_after ts : next starts_function ts = true -> after_function ts.
Proof.
  destruct ts as [|t ts]; [discriminate|]. cbn [next]. unfold starts_function. rewrite !orb_true_iff. intros [[H|H]|H].
  - apply is_text_ok in H as ->. split; reflexivity.
  - apply is_text_ok in H as ->. split; reflexivity.
  - split.
    + apply not_separator; [intros ->; discriminate|apply starts_type_no; auto; discriminate].
    + apply starts_type_no; auto; discriminate.
Qed.

(** * Definitions *)
Lemma braces_sound {A} (p : P A) g ts a rest : sound p g -> wf ts -> braces p ts = KOk (a, rest) -> exists pre, ts = ([T "{"] ++ pre ++ [T "}"]) ++ rest /\ g a pre.
Proof.
  intros Hp Hw H. unfold braces in H. kinv H. kinv H. kinv H. injection H as <- <-. apply expect_ok in E as ->. wfs.
  apply Hp in E0 as (pre & -> & G); [|assumption]. apply expect_ok in E1 as ->. exists pre. split; [|exact G]. cbn [app]. rewrite <- app_assoc. reflexivity.
Qed.
Lemma braces_complete {A} (p : P A) pre rest a : p (pre ++ T "}" :: rest) = KOk (a, T "}" :: rest) -> braces p (T "{" :: pre ++ T "}" :: rest) = KOk (a, rest).
Proof.
  intros H. unfold braces. rewrite (proj2 (expect_ok "{" _ tt _) eq_refl). cbn [kbind]. rewrite H. cbn [kbind]. rewrite (proj2 (expect_ok "}" _ tt _) eq_refl). reflexivity.
Qed.
Lemma many_sound' {A} starts (p : P A) g : sound p g -> sound (fun ts => many starts p (List.length ts) ts) (gr_many g).
Proof. intros Hp ts l rest Hw H. exact (many_sound starts p g Hp _ _ _ _ Hw H). Qed.
Ltac done pre := exists pre; split; [repeat (cbn [app]; rewrite <- ?app_assoc); try reflexivity|].
Lemma parse_definition_sound d : sound (parse_definition d) gr_definition.
Proof.
  intros ts f rest Hw H. unfold parse_definition in H. destruct ts as [|[s| | | | | |] ts]; try discriminate. wfs.
  destruct (String.eqb_spec s "const") as [->|_].
  { kinv H. kinv H. kinv H. kinv H. injection H as <- <-. apply parse_type_sound in E as (tys & -> & Gt); [|assumption]. wfs.
    apply identifier_ok in E0 as ->. apply expect_ok in E1 as ->. wfs. apply parse_value_sound in E2 as (v & -> & Gv); [|assumption].
    destruct (separator_sound ts3) as (s & Hs & Es). exists ([T "const"] ++ tys ++ [TId a0; T "="] ++ v ++ s). split; [|econstructor; eassumption].
    cbn [app]. rewrite <- ?app_assoc. cbn [app]. rewrite <- ?app_assoc, <- Es. reflexivity. }
  destruct (String.eqb_spec s "typedef") as [->|_].
  { kinv H. kinv H. injection H as <- <-. apply parse_type_sound in E as (tys & -> & Gt); [|assumption]. apply identifier_ok in E0 as ->.
    exists ([T "typedef"] ++ tys ++ [TId a0]). split; [|constructor; exact Gt]. cbn [app]. rewrite <- ?app_assoc. reflexivity. }
  destruct (String.eqb_spec s "enum") as [->|_].
  { kinv H. kinv H. injection H as <- <-. apply identifier_ok in E as ->. wfs.
    apply (braces_sound _ (gr_many gr_enum_field)) in E0 as (pre & -> & G); [|apply many_sound', parse_enum_field_sound|assumption].
    exists ([T "enum"; TId a; T "{"] ++ pre ++ [T "}"]). split; [reflexivity|constructor; exact G]. }
  destruct (String.eqb_spec s "struct") as [->|_].
  { kinv H. kinv H. injection H as <- <-. apply identifier_ok in E as ->. wfs.
    apply (braces_sound _ (gr_many gr_field)) in E0 as (pre & -> & G); [|apply parse_fields_sound|assumption].
    exists ([T "struct"; TId a; T "{"] ++ pre ++ [T "}"]). split; [reflexivity|constructor; exact G]. }
  destruct (String.eqb_spec s "union") as [->|_].
  { kinv H. kinv H. injection H as <- <-. apply identifier_ok in E as ->. wfs.
    apply (braces_sound _ (gr_many gr_field)) in E0 as (pre & -> & G); [|apply parse_fields_sound|assumption].
    exists ([T "union"; TId a; T "{"] ++ pre ++ [T "}"]). split; [reflexivity|constructor; exact G]. }
  destruct (String.eqb_spec s "exception") as [->|_].
  { kinv H. kinv H. injection H as <- <-. apply identifier_ok in E as ->. wfs.
    apply (braces_sound _ (gr_many gr_field)) in E0 as (pre & -> & G); [|apply parse_fields_sound|assumption].
    exists ([T "exception"; TId a; T "{"] ++ pre ++ [T "}"]). split; [reflexivity|econstructor; exact G]. }
  destruct (String.eqb_spec s "service") as [->|_]; [|discriminate].
  kinv H. kinv H. kinv H. injection H as <- <-. apply identifier_ok in E as ->. wfs.
  assert (Hx : exists x, ts0 = x ++ ts1 /\ opt_extends x).
  { destruct (next (is_text "extends") ts0) eqn:En.
    - apply next_text in En as (r & ->). cbn [tl] in E0. apply identifier_ok in E0 as ->. exists [T "extends"; TId a0]. split; [reflexivity|constructor].
    - injection E0 as _ <-. exists []. split; [reflexivity|constructor]. }
  destruct Hx as (x & -> & Hx). wfs.
  apply (braces_sound _ (gr_many gr_function)) in E1 as (pre & -> & G); [|apply many_sound', parse_function_sound|assumption].
  exists ([T "service"; TId a] ++ x ++ [T "{"] ++ pre ++ [T "}"]). split; [|econstructor; eassumption]. rewrite <- !app_assoc. reflexivity.
Qed.
Lemma parse_definition_complete d : complete (parse_definition d) gr_definition (no is_separator) d.
Proof.
  intros f pre rest G Hd Hf. destruct G as [n t ts vs s Gt Gv Gs|n t ts Gt|n fs ts G|n fs ts G|n fs ts G|n fs ts G|n x fs ts Hx G];
    rewrite !app_length in Hd; cbn [List.length] in Hd; rewrite <- !app_assoc; cbn [app parse_definition String.eqb Ascii.eqb Bool.eqb].
  - rewrite (parse_type_complete d t ts _ Gt) by (lia || exact I). cbn [kbind identifier]. rewrite (proj2 (expect_ok "=" _ tt _) eq_refl). cbn [kbind].
    rewrite (parse_value_complete d tt vs _ Gv) by (lia || exact I). cbn [kbind]. rewrite separator_complete by assumption. reflexivity.
  - rewrite (parse_type_complete d t ts _ Gt) by (lia || exact I). reflexivity.
  - cbn [identifier kbind]. rewrite (braces_complete _ ts rest fs); [reflexivity|].
    apply (many_complete _ _ gr_enum_field (no is_separator) d); auto; try exact (parse_enum_field_complete d); try reflexivity; try lia.
    + intros a pre [m i is s _ _]. reflexivity.
    + intros [|[] r] H; try discriminate. reflexivity.
    + rewrite app_length. lia.
  - cbn [identifier kbind]. rewrite (braces_complete _ ts rest fs); [reflexivity|]. apply parse_fields_complete; [exact G|lia|apply closing; cbn; auto|apply closing; cbn; auto].
  - cbn [identifier kbind]. rewrite (braces_complete _ ts rest fs); [reflexivity|]. apply parse_fields_complete; [exact G|lia|apply closing; cbn; auto|apply closing; cbn; auto].
  - cbn [identifier kbind]. rewrite (braces_complete _ ts rest fs); [reflexivity|]. apply parse_fields_complete; [exact G|lia|apply closing; cbn; auto|apply closing; cbn; auto].
  - cbn [identifier kbind].
    assert (Hn : forall r, exists y, (if next (is_text "extends") (x ++ T "{" :: r) then identifier (tl (x ++ T "{" :: r)) else KOk (""%string, x ++ T "{" :: r)) = KOk (y, T "{" :: r))
      by (intros r; destruct Hx; eexists; reflexivity).
    destruct (Hn (ts ++ T "}" :: rest)) as (y & ->). cbn [kbind]. rewrite (braces_complete _ ts rest fs); [reflexivity|].
    apply (many_complete _ _ gr_function after_function d); auto; try exact (parse_function_complete d); try exact function_starts; try exact starts_function_after; try lia.
    + rewrite app_length. lia.
    + split; reflexivity.
    + reflexivity.
Qed.
Lemma definition_starts f pre : gr_definition f pre -> next starts_definition pre = true.
Proof. intros []; reflexivity. Qed.
Lemma starts_definition_word t : starts_definition t = true -> exists s, t = T s /\ In s definition_words.
Proof. unfold starts_definition. rewrite existsb_exists. intros (s & Hin & H). apply is_text_ok in H as ->. eauto. Qed.
Lemma starts_definition_after ts : next starts_definition ts = true -> no is_separator ts /\ no starts_header ts.
Proof.
  destruct ts as [|t ts]; [discriminate|]. cbn [next]. intros H. apply starts_definition_word in H as (s & -> & Hin). cbn in Hin.
  repeat (destruct Hin as [<-|Hin]; [split; reflexivity|]). destruct Hin.
Qed.

(** * Documents *)
Lemma parse_header_sound : sound parse_header gr_header.
Proof.
  intros ts h rest _ H. unfold parse_header in H. destruct ts as [|[s| | | | | |] ts]; try discriminate.
  destruct (String.eqb_spec s "include") as [->|_].
  { kinv H. injection H as <- <-. apply literal_ok in E as ->. exists [T "include"; TLiteral a]. split; [reflexivity|constructor]. }
  destruct (String.eqb_spec s "cpp_include") as [->|_].
  { kinv H. injection H as <- <-. apply literal_ok in E as ->. exists [T "cpp_include"; TLiteral a]. split; [reflexivity|constructor]. }
  destruct (String.eqb_spec s "namespace") as [->|_]; [|discriminate].
  kinv H. kinv H. injection H as <- <-. apply identifier_ok in E0 as ->. destruct (next (is_text "*") ts) eqn:En.
  - apply next_text in En as (r & ->). injection E as <- ->. exists [T "namespace"; T "*"; TId a0]. split; [reflexivity|constructor].
  - apply identifier_ok in E as ->. exists [T "namespace"; TId a; TId a0]. split; [reflexivity|constructor].
Qed.
Lemma parse_header_complete d : complete parse_header gr_header anything d.
Proof. intros h pre rest [] _ _; reflexivity. Qed.
Lemma header_starts h pre : gr_header h pre -> next starts_header pre = true.
Proof. intros []; reflexivity. Qed.

Theorem parse_sound d ts x : wf ts -> parse d ts = KOk x -> gr_document x ts.
Proof.
  intros Hw H. unfold parse in H. kinv H. kinv H. apply (many_sound _ _ gr_header parse_header_sound) in E as (h & -> & Gh); [|exact Hw]. wfs.
  apply (many_sound _ _ gr_definition (parse_definition_sound d)) in E0 as (ds & -> & Gd); [|assumption].
  destruct ts1; [|discriminate]. injection H as <-. rewrite app_nil_r. constructor; assumption.
Qed.
Theorem parse_complete d ts x : gr_document x ts -> (List.length ts <= d)%nat -> parse d ts = KOk x.
Proof.
  intros [hs ds h defs Gh Gd] Hd. rewrite app_length in Hd. unfold parse.
  assert (Hn : no starts_header defs).
  { destruct Gd as [|a tsa l tsl Ga _]; [reflexivity|]. apply definition_starts in Ga. destruct tsa; [discriminate|]. exact (proj2 (starts_definition_after _ Ga)). }
  rewrite (many_complete starts_header parse_header gr_header anything d _ hs h defs); auto; try exact (parse_header_complete d); try exact header_starts; try exact I; try lia.
  2: { intros; exact I. }
  2: { rewrite app_length. lia. }
  cbn [kbind]. pose proof (many_complete starts_definition (parse_definition d) gr_definition (no is_separator) d (List.length defs) ds defs []) as H.
  rewrite app_nil_r in H. rewrite H; auto; try exact (parse_definition_complete d); try exact definition_starts; try lia; try reflexivity.
  intros r Hr. apply starts_definition_after. exact Hr.
Qed.

(** * Rejection: with enough nesting every failure is a syntax error. *)
Definition decides {A} (p : P A) (n : nat) : Prop :=
  forall ts, (List.length ts < n)%nat -> p ts = KThrow Syntax \/ exists a rest, p ts = KOk (a, rest) /\ (List.length rest < List.length ts)%nat.
(** The same for parts that may be empty *)
Definition decides0 {A} (p : P A) (n : nat) : Prop :=
  forall ts, (List.length ts < n)%nat -> p ts = KThrow Syntax \/ exists a rest, p ts = KOk (a, rest) /\ (List.length rest <= List.length ts)%nat.
Lemma weaken {A} (p : P A) n : decides p n -> decides0 p n.
Proof. intros H ts Hn. destruct (H ts Hn) as [E|(a & r & E & Hl)]; [auto|]. right. exists a, r. split; [exact E|lia]. Qed.
Lemma expect_decides s n : decides (expect s) n.
Proof. intros [|t ts] _; [left; reflexivity|]. cbn [expect]. destruct (is_text s t); [right; exists tt, ts; cbn; auto|left; reflexivity]. Qed.
Lemma comma_decides n : decides comma n.
Proof. intros [|[] ts] _; try (left; reflexivity). right. exists tt, ts. cbn; auto. Qed.
Lemma identifier_decides n : decides identifier n.
Proof. intros [|[] ts] _; try (left; reflexivity). right. eexists _, ts. cbn; auto. Qed.
Lemma literal_decides n : decides literal n.
Proof. intros [|[] ts] _; try (left; reflexivity). right. eexists _, ts. cbn; auto. Qed.
Lemma integer_decides n : decides parse_integer n.
Proof. intros [|[] ts] _; try (left; reflexivity); right; eexists _, ts; cbn; auto. Qed.
Lemma separator_length ts : (List.length (separator ts) <= List.length ts)%nat.
Proof. unfold separator. destruct ts as [|t ts]; [cbn; lia|]. cbn [next tl]. destruct (is_separator t); cbn [List.length]; lia. Qed.
Lemma cpp_decides n : decides0 parse_cpp_type n.
Proof.
  intros ts Hn. unfold parse_cpp_type. destruct (next (is_text "cpp_type") ts) eqn:E.
  - apply next_text in E as (r & ->). cbn [tl]. destruct r as [|[] r]; try (left; reflexivity). right. eexists _, r. cbn; auto.
  - right. eexists _, ts. auto.
Qed.
(** One step: [p] is run, and the rest of the goal is about what follows. *)
Ltac step L := match goal with |- context [kbind (?p ?ts) _] =>
  let E := fresh "E" in let a := fresh "a" in let r := fresh "r" in let Hl := fresh "Hl" in
  destruct (L ts) as [E|(a & r & E & Hl)]; [cbn [List.length] in *; lia|rewrite E; left; reflexivity|rewrite E; clear E; cbn [kbind]; cbn beta iota] end.
Ltac stepi L ts :=
  let E := fresh "E" in let a := fresh "a" in let r := fresh "r" in let Hl := fresh "Hl" in
  destruct (L ts) as [E|(a & r & E & Hl)]; [cbn [List.length] in *; lia|cbn beta in E; rewrite E; left; reflexivity|cbn beta in E; rewrite E; clear E; cbn [kbind]; cbn beta iota].
Ltac finish := right; eexists _, _; split; [reflexivity|]; cbn [List.length] in *; try lia.
Lemma many_decides {A} starts (p : P A) n m : decides p m -> forall ts, (List.length ts < m)%nat -> (List.length ts <= n)%nat ->
  many starts p n ts = KThrow Syntax \/ exists l rest, many starts p n ts = KOk (l, rest) /\ (List.length rest <= List.length ts)%nat.
Proof.
  intros Hp. induction n as [|n IH]; intros ts Hm Hn; cbn [many]; destruct (next starts ts) eqn:E.
  - destruct ts; [discriminate|cbn in Hn; lia].
  - finish.
  - step Hp. destruct (IH r) as [E'|(l & r' & E' & Hl')]; [lia|lia|rewrite E'; left; reflexivity|]. rewrite E'. cbn [kbind]. finish.
  - finish.
Qed.
Lemma type_decides d : decides (parse_type d) d.
Proof.
  induction d as [|d IH]; intros ts Hn; [lia|]. cbn [parse_type]. destruct ts as [|[] ts]; try (left; reflexivity); [|finish].
  cbn [List.length] in Hn. destruct (base_type s); [finish|].
  destruct (String.eqb s "map"); [|destruct (String.eqb s "set"); [|destruct (String.eqb s "list"); [|left; reflexivity]]].
  - step (cpp_decides d). step (expect_decides "<" d). step IH. step (comma_decides d). step IH. step (expect_decides ">" d). finish.
  - step (cpp_decides d). step (expect_decides "<" d). step IH. step (expect_decides ">" d). finish.
  - step (cpp_decides d). step (expect_decides "<" d). step IH. step (expect_decides ">" d). finish.
Qed.
Ltac many_step L := match goal with |- context [kbind (many ?s ?p ?n ?ts) _] =>
  let E := fresh "E" in let a := fresh "a" in let r := fresh "r" in let Hl := fresh "Hl" in
  destruct (many_decides s p n _ L ts) as [E|(a & r & E & Hl)];
    [cbn [List.length] in *; lia|cbn [List.length] in *; lia|rewrite E; left; reflexivity|rewrite E; clear E; cbn [kbind]; cbn beta iota] end.
Ltac last L := match goal with |- ?p ?ts = _ \/ _ =>
  let E := fresh "E" in let a := fresh "a" in let r := fresh "r" in let Hl := fresh "Hl" in
  destruct (L ts) as [E|(a & r & E & Hl)]; [cbn [List.length] in *; lia|left; exact E|right; exists a, r; split; [exact E|cbn [List.length] in *; lia]] end.
Lemma value_decides d : decides (parse_value d) d.
Proof.
  induction d as [|d IH]; intros ts Hn; [lia|]. cbn [parse_value]. destruct ts as [|[] ts]; try (left; reflexivity); try finish.
  cbn [List.length] in Hn. destruct (String.eqb s "["); [|destruct (String.eqb s "{"); [|left; reflexivity]].
  - assert (Hp : decides (fun ts => let! (_, ts) := parse_value d ts in KOk (tt, separator ts)) d).
    { intros us Hu. step IH. finish. pose proof (separator_length r). lia. }
    many_step Hp. last (expect_decides "]" d).
  - assert (Hp : decides (fun ts => let! (_, ts) := parse_value d ts in let! (_, ts) := expect ":" ts in let! (_, ts) := parse_value d ts in KOk (tt, separator ts)) d).
    { intros us Hu. step IH. step (expect_decides ":" d). step IH. finish. pose proof (separator_length r1). lia. }
    many_step Hp. last (expect_decides "}" d).
Qed.
Lemma requirement_decides n : decides0 parse_requirement n.
Proof.
  intros ts _. unfold parse_requirement. destruct ts as [|t ts]; [finish|]. cbn [next tl]. destruct (is_text "required" t); [finish|]. destruct (is_text "optional" t); finish.
Qed.
Lemma field_decides d : decides (parse_field d) d.
Proof.
  intros ts Hn. unfold parse_field.
  assert (Hid : decides0 (fun ts => if next starts_integer ts then let! (i, ts) := parse_integer ts in let! (_, ts) := expect ":" ts in KOk (Some i, ts) else KOk (None, ts)) d).
  { intros us Hu. destruct (next starts_integer us); [|finish]. step (integer_decides d). step (expect_decides ":" d). finish. }
  stepi Hid ts. step (requirement_decides d). step (type_decides d). step (identifier_decides d).
  assert (Hdef : decides0 (fun ts => if next (is_text "=") ts then parse_value d (tl ts) else KOk (tt, ts)) d).
  { intros us Hu. destruct us as [|u us]; [finish|]. cbn [next tl]. destruct (is_text "=" u); [last (value_decides d)|finish]. }
  stepi Hdef r2. finish. pose proof (separator_length r3). lia.
Qed.
Lemma fields_decides d : decides0 (parse_fields d) d.
Proof. intros ts Hn. unfold parse_fields. exact (many_decides _ _ _ d (field_decides d) ts Hn (le_n _)). Qed.
Lemma enum_field_decides n : decides parse_enum_field n.
Proof.
  intros ts Hn. unfold parse_enum_field. step (identifier_decides n). step (expect_decides "=" n). step (integer_decides n). finish. pose proof (separator_length r1). lia.
Qed.
Lemma function_decides d : decides (parse_function d) d.
Proof.
  intros ts Hn. unfold parse_function. cbv zeta. remember (if next (is_text "oneway") ts then tl ts else ts) as us.
  assert (Hu : (List.length us <= List.length ts)%nat) by (subst us; destruct ts as [|t ts]; [cbn; lia|]; cbn [next tl]; destruct (is_text "oneway" t); cbn [List.length]; lia).
  clear Hequs.
  assert (Hr : decides (fun ts => if next (is_text "void") ts then KOk (tt, tl ts) else let! (_, ts) := parse_type d ts in KOk (tt, ts)) d).
  { intros vs Hv. destruct (next (is_text "void") vs) eqn:E; [apply next_text in E as (r & ->); cbn [tl]; finish|]. step (type_decides d). finish. }
  stepi Hr us. step (identifier_decides d). step (expect_decides "(" d). step (fields_decides d). step (expect_decides ")" d).
  assert (Ht : decides0 (fun ts => if next (is_text "throws") ts then let! (_, ts) := expect "(" (tl ts) in let! (_, ts) := parse_fields d ts in expect ")" ts else KOk (tt, ts)) d).
  { intros vs Hv. destruct (next (is_text "throws") vs) eqn:E; [|finish]. apply next_text in E as (q & ->). cbn [tl List.length] in *.
    step (expect_decides "(" d). step (fields_decides d). last (expect_decides ")" d). }
  stepi Ht r3. finish. pose proof (separator_length r4). lia.
Qed.
Lemma braces_decides {A} (p : P A) n : decides0 p n -> decides (braces p) n.
Proof. intros Hp ts Hn. unfold braces. step (expect_decides "{" n). step Hp. step (expect_decides "}" n). finish. Qed.
Lemma definition_decides d : decides (parse_definition d) (S d).
Proof.
  intros ts Hn. unfold parse_definition. destruct ts as [|[] ts]; try (left; reflexivity). cbn [List.length] in Hn.
  destruct (String.eqb s "const").
  { step (type_decides d). step (identifier_decides d). step (expect_decides "=" d). step (value_decides d). finish. pose proof (separator_length r2). lia. }
  destruct (String.eqb s "typedef"). { step (type_decides d). step (identifier_decides d). finish. }
  destruct (String.eqb s "enum").
  { step (identifier_decides d).
    assert (He : decides0 (fun ts => many starts_enum_field parse_enum_field (List.length ts) ts) d)
      by (intros us Hu; exact (many_decides _ _ _ d (enum_field_decides d) us Hu (le_n _))).
    step (braces_decides _ d He). finish. }
  destruct (String.eqb s "struct"). { step (identifier_decides d). step (braces_decides _ d (fields_decides d)). finish. }
  destruct (String.eqb s "union"). { step (identifier_decides d). step (braces_decides _ d (fields_decides d)). finish. }
  destruct (String.eqb s "exception"). { step (identifier_decides d). step (braces_decides _ d (fields_decides d)). finish. }
  destruct (String.eqb s "service"); [|left; reflexivity].
  step (identifier_decides d).
  assert (Hx : decides0 (fun ts => if next (is_text "extends") ts then identifier (tl ts) else KOk (""%string, ts)) d).
  { intros us Hu. destruct us as [|u us]; [finish|]. cbn [next tl]. destruct (is_text "extends" u); [last (identifier_decides d)|finish]. }
  stepi Hx r.
  assert (Hs : decides0 (fun ts => many starts_function (parse_function d) (List.length ts) ts) d)
    by (intros us Hu; exact (many_decides _ _ _ d (function_decides d) us Hu (le_n _))).
  step (braces_decides _ d Hs). finish.
Qed.
Lemma header_decides n : decides parse_header n.
Proof.
  intros ts Hn. unfold parse_header. destruct ts as [|[] ts]; try (left; reflexivity). cbn [List.length] in Hn.
  destruct (String.eqb s "include"). { step (literal_decides n). finish. }
  destruct (String.eqb s "cpp_include"). { step (literal_decides n). finish. }
  destruct (String.eqb s "namespace"); [|left; reflexivity].
  assert (Hl : decides (fun ts => if next (is_text "*") ts then KOk ("*"%string, tl ts) else identifier ts) n).
  { intros us Hu. destruct (next (is_text "*") us) eqn:E; [apply next_text in E as (q & ->); cbn [tl]; finish|last (identifier_decides n)]. }
  stepi Hl ts. step (identifier_decides n). finish.
Qed.
Theorem parse_decides d ts : (List.length ts <= d)%nat -> parse d ts = KThrow Syntax \/ exists x, parse d ts = KOk x.
Proof.
  intros Hd. unfold parse. many_step (header_decides (S d)). many_step (definition_decides d). destruct r0; [right; eauto|left; reflexivity].
Qed.
Theorem parse_rejects d ts : wf ts -> (List.length ts <= d)%nat -> (parse d ts = KThrow Syntax <-> ~ exists x, gr_document x ts).
Proof.
  intros Hw Hd. split.
  - intros H (x & G). rewrite (parse_complete d ts x G Hd) in H. discriminate.
  - intros H. destruct (parse_decides d ts Hd) as [E|(x & E)]; [exact E|]. destruct H. exists x. exact (parse_sound d ts x Hw E).
Qed.
