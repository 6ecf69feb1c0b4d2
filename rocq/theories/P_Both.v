(** Where thrift! and the generator accept a text without attributes and nested comments, they find the same declarations. *)
From Verif Require Import Base ErrorName Types Generator ThriftLex ThriftParse SpecThrift P_Arith P_ThriftLex P_Generator Macro RustLex RustMacro SpecRust P_RustLex P_RustMacro
  SpecBoth P_BothLex.
From Verif Require Import ThriftParse SpecRust.
Open Scope Z_scope.
Open Scope list_scope.

(** * Token trees without attributes *)
Definition sees (g : list tree) (k : list rtok) (ts : list token) : Prop := exists rs, grouped g rs /\ no_attributes rs /\ agree (rs ++ k) ts.

Lemma no_tail t rs : no_attributes (t :: rs) -> no_attributes rs.
Proof. intros H I. apply H. right. exact I. Qed.
Lemma sees_nil k ts : sees [] k ts -> agree k ts.
Proof. intros (rs & G & _ & A). inversion G; subst. exact A. Qed.
Lemma sees_name n g k ts : sees (name n :: g) k ts -> exists ts', ts = word_token n :: ts' /\ sees g k ts'.
Proof.
  intros (rs & G & N & A). inversion G; subst. cbn in A. inversion A; subst. eexists. split; [reflexivity|]. exists ts0. eauto using no_tail.
Qed.
Lemma sees_sign p g k ts : p <> "#"%string -> p <> "-"%string -> sees (sign p :: g) k ts -> exists ts', ts = T p :: ts' /\ sees g k ts'.
Proof.
  intros Ne Nm (rs & G & N & A). inversion G; subst; try congruence. cbn in A. inversion A; subst; try congruence. eexists. split; [reflexivity|]. exists ts0. eauto using no_tail.
Qed.
Lemma sees_attrs a g k ts : attrs a -> sees (a ++ g) k ts -> sees g k ts.
Proof.
  intros [l H]. induction H as [|u t l ts' H _ IH]; intros S; [exact S|].
  apply IH. destruct H as [ms b _]. destruct S as (rs & G & N & A). cbn in G.
  inversion G; subst.
  - exfalso. apply N. left. reflexivity.
  - cbn in A. inversion A; subst. exists ts0. eauto using no_tail.
Qed.
Definition odd (ts : list token) : Prop := exists n ts', ts = TId n :: ts'.
Lemma sees_lit w g k ts : sees (lit w :: g) k ts ->
  exists t ts', ts = t :: ts' /\
  ((exists v, t = TLiteral v) /\ sees g k ts' \/
   numeric t = true /\ (well_formed t /\ spelling t = w /\ (exists c v, w = c :: v /\ digit_char c) /\ sees g k ts' \/
                        exists n ts'', ts' = TId n :: ts'' /\ sees g k ts'')).
Proof.
  intros (rs & G & N & A). inversion G; subst. cbn in A. inversion A; subst.
  - do 2 eexists. split; [reflexivity|]. left. split; [eauto|]. exists ts0. eauto using no_tail.
  - do 2 eexists. split; [reflexivity|]. right. split; [assumption|]. left. split; [assumption|]. split; [reflexivity|]. split; [assumption|]. exists ts0. eauto using no_tail.
  - do 2 eexists. split; [reflexivity|]. right. split; [assumption|]. right. do 2 eexists. split; [reflexivity|]. exists ts0. eauto using no_tail.
Qed.
Lemma sees_minus w g k ts : sees (sign "-" :: lit w :: g) k ts ->
  exists t ts', ts = negate t :: ts' /\ numeric t = true /\
    (well_formed t /\ spelling t = w /\ (exists c v, w = c :: v /\ digit_char c) /\ sees g k ts' \/ exists n ts'', ts' = TId n :: ts'' /\ sees g k ts'').
Proof.
  intros (rs & G & N & A). inversion G as [| | |? ? rs' G'| | |]; subst. cbn in A. inversion A as [| | |? ? ? I| | | | | |t ? ts' Nu A']; subst.
  { exfalso. cbn in I. intuition discriminate. }
  assert (S : sees (lit w :: g) k (t :: ts')) by (exists rs'; eauto using no_tail).
  destruct (sees_lit _ _ _ _ S) as (t2 & ts2 & E & [[(v & Ev) _]|(Nu' & H)]); injection E as <- <-; [subst t; discriminate Nu|].
  exists t, ts'. auto.
Qed.
Lemma sees_group i g k ts : sees (Gr Brace i :: g) k ts ->
  exists ts' rg, ts = T "{" :: ts' /\ grouped g rg /\ no_attributes rg /\ sees i (RClose Brace :: rg ++ k) ts'.
Proof.
  intros (rs & G & N & A). inversion G as [| | | | | |? ? is ? rg Gi Gg]; subst. cbn in A. inversion A as [| | | |? ts' A'| | | | |]; subst.
  rewrite <- app_assoc in A'. exists ts', rg. split; [reflexivity|]. split; [exact Gg|]. split.
  - intros I. apply N. right. apply in_or_app. right. right. exact I.
  - exists is. split; [exact Gi|]. split; [|exact A']. intros I. apply N. right. apply in_or_app. left. exact I.
Qed.
Lemma close_brace k ts : agree (RClose Brace :: k) ts -> exists ts', ts = T "}" :: ts' /\ agree k ts'.
Proof. intros A. inversion A; subst. eauto. Qed.

(** * Numbers *)
Definition int_token (z : Z) (t : token) : Prop :=
  exists i, (forall ts, parse_integer (t :: ts) = KOk (i, ts)) /\ starts_integer t = true /\ forall z', map_integer i = KOk z' -> z' = z.
Lemma numeral_magnitude b w z : b <= 16 -> numeral b w z -> ~ In 95 w -> magnitude b (digits_of w) = z.
Proof.
  intros Hb H. induction H as [|w z H IH|w z c d H IH R C]; intros N.
  - reflexivity.
  - exfalso. apply N. apply in_or_app. right. left. reflexivity.
  - unfold magnitude, digits_of in *. rewrite map_app, fold_left_app, IH; [|intros I; apply N; apply in_or_app; auto].
    cbn [map fold_left]. destruct C as [[D ->]|[D [-> | ->]]].
    + destruct (48 + d <=? 57) eqn:K; lia.
    + destruct (55 + d <=? 57) eqn:K; [lia|]. destruct (55 + d <=? 70) eqn:K2; lia.
    + destruct (87 + d <=? 57) eqn:K; [lia|]. destruct (87 + d <=? 70) eqn:K2; lia.
Qed.
Lemma numeral_nonneg b w z : 0 <= b -> numeral b w z -> 0 <= z.
Proof. intros Hb H. induction H; lia. Qed.
Lemma numeral10_chars w z : numeral 10 w z -> Forall low_dash w.
Proof.
  intros H. induction H as [|w z H IH|w z c d H IH R C]; [constructor|apply Forall_app; split; [exact IH|]..].
  - constructor; [right; reflexivity|constructor].
  - constructor; [|constructor]. left. unfold digit_char. lia.
Qed.
Lemma digits_no_dash (P : Z -> Prop) w : (forall c, P c -> c <> 95) -> Forall P w -> ~ In 95 w.
Proof. intros H F I. rewrite Forall_forall in F. exact (H _ (F _ I) eq_refl). Qed.
Definition is_double (t : token) : bool := match t with TDouble _ => true | _ => false end.
Lemma int_of_ok z z' : int_of z = KOk z' -> z' = z /\ -2147483648 <= z <= 2147483647.
Proof. unfold int_of. destruct (_ && _) eqn:K; [|discriminate]. intros E. injection E as <-. split; [reflexivity|lia]. Qed.
Lemma number_value t w z : numeric t = true -> well_formed t -> spelling t = w -> (exists c v, w = c :: v /\ digit_char c) -> natural w z ->
  is_double t = true \/ int_token z t /\ int_token (- z) (negate t).
Proof.
  intros N W E (c & v & Ew & D) Na. subst w. destruct (unsigned _ _ _ W Ew D) as [_ U].
  destruct U as [w U|hs Hn U|m e _ _ _]; [right|right|left; reflexivity]; cbn [spelling negate] in *.
  - assert (M : magnitude 10 (digits_of w) = z).
    { destruct Na as [c' w z Hc H|h z H].
      - apply numeral_magnitude; [lia|exact H|]. apply (digits_no_dash digit_char); [unfold digit_char; lia|apply U].
      - exfalso. destruct U as [_ U]. inversion U as [|? ? _ U']; subst. inversion U' as [|? ? U2 _]; subst. vm_compute in U2. intuition congruence. }
    subst w. unfold digit_char in D. split.
    + exists (Dec NoSign (digits_of (c :: v))). split; [|split; [reflexivity|]].
      * intros ts. cbn [parse_integer]. f_equal. f_equal. unfold dec_of. destruct c as [|p|p]; try lia.
        do 6 (destruct p as [p|p|]; try reflexivity; try lia).
      * intros z' H. cbn [map_integer] in H. apply int_of_ok in H. lia.
    + exists (Dec Minus (digits_of (c :: v))). split; [|split; [reflexivity|]].
      * intros ts. reflexivity.
      * intros z' H. cbn [map_integer] in H. apply int_of_ok in H. lia.
  - assert (M : magnitude 16 (digits_of hs) = z /\ 0 <= z).
    { remember (48 :: 120 :: hs) as w eqn:Eh. destruct Na as [c' w z Hc H|h z H].
      - exfalso. injection Eh as -> ->. apply numeral10_chars in H. inversion H as [|? ? _ H']; subst. inversion H' as [|? ? H2 _]; subst. vm_compute in H2. intuition congruence.
      - injection Eh as ->. split; [|apply (numeral_nonneg 16) in H; lia]. apply numeral_magnitude; [lia|exact H|]. apply (digits_no_dash hex_char); [unfold hex_char, digit_char; lia|exact U]. }
    destruct M as [M Z0]. split.
    + exists (Hex false (digits_of hs)). split; [reflexivity|]. split; [reflexivity|]. intros z' H. cbn [map_integer kbind] in H.
      destruct (int_of (magnitude 16 (digits_of hs))) as [a|a] eqn:K; [|discriminate]. apply int_of_ok in K. cbn in H. injection H as <-. lia.
    + exists (Hex true (digits_of hs)). split; [reflexivity|]. split; [reflexivity|]. intros z' H. cbn [map_integer kbind] in H.
      destruct (int_of (magnitude 16 (digits_of hs))) as [a|a] eqn:K; [|discriminate]. apply int_of_ok in K. cbn [kbind] in H. injection H as <-.
      destruct K as [-> K]. rewrite M in *. apply wraps_id; [lia|]. change (2 ^ (32 - 1)) with 2147483648. lia.
Qed.
Lemma numeric_negate t : numeric (negate t) = numeric t.
Proof. destruct t; reflexivity. Qed.
Lemma double_negate t : is_double (negate t) = is_double t.
Proof. destruct t; reflexivity. Qed.
Lemma sees_int z i g k ts : SpecRust.integer z i -> sees (i ++ g) k ts ->
  exists t ts', ts = t :: ts' /\ numeric t = true /\
    (is_double t = true \/ int_token z t /\ sees g k ts' \/ exists n ts'', ts' = TId n :: ts'' /\ sees g k ts'').
Proof.
  intros I S. destruct I as [w z Na|w z Na]; cbn [app] in S.
  - destruct (sees_lit _ _ _ _ S) as (t & ts' & -> & [[(v & ->) S']|(N & [(W & E & D & S')|H])]).
    + (* a string is no number *)
      exfalso. destruct S as (rs & G & _ & A). inversion G; subst. cbn in A. inversion A; subst; try discriminate.
      inversion Na as [c w' z' Hc H|h z' H]; subst. unfold decimal in Hc. lia.
    + exists t, ts'. split; [reflexivity|]. split; [exact N|]. destruct (number_value t w z N W E D Na) as [H|[H _]]; auto.
    + exists t, ts'. auto.
  - destruct (sees_minus _ _ _ _ S) as (t & ts' & -> & N & [(W & E & D & S')|H]).
    + exists (negate t), ts'. rewrite numeric_negate, double_negate. split; [reflexivity|]. split; [exact N|]. destruct (number_value t w z N W E D Na) as [H|[_ H]]; auto.
    + exists (negate t), ts'. rewrite numeric_negate. auto.
Qed.
(** Values: [true] and [false] are names for the generator. *)
Lemma sees_value v g k ts : literal v -> sees (v ++ g) k ts ->
  exists t ts', ts = t :: ts' /\ (forall d r, parse_value d ts = KOk (tt, r) -> r = ts') /\
    (sees g k ts' \/ exists n ts'', ts' = TId n :: ts'' /\ sees g k ts'').
Proof.
  intros L S. destruct L as [w|w|n H]; cbn [app] in S.
  - destruct (sees_lit _ _ _ _ S) as (t & ts' & -> & [[(v & ->) S']|(N & H)]).
    + do 2 eexists. split; [reflexivity|]. split; [|auto]. intros [|d] r P; [discriminate|]. cbn in P. congruence.
    + exists t, ts'. split; [reflexivity|]. split; [|intuition]. intros [|d] r P; [discriminate|]. destruct t; try discriminate N; cbn in P; congruence.
  - destruct (sees_minus _ _ _ _ S) as (t & ts' & -> & N & H).
    exists (negate t), ts'. split; [reflexivity|]. split; [|intuition]. intros [|d] r P; [discriminate|]. destruct t; try discriminate N; cbn in P; congruence.
  - destruct (sees_name _ _ _ _ S) as (ts' & -> & S').
    assert (E : word_token n = TId n) by (destruct H as [-> | ->]; reflexivity). rewrite E.
    do 2 eexists. split; [reflexivity|]. split; [|auto]. intros [|d] r P; [discriminate|]. cbn in P. congruence.
Qed.

(** * Types and names *)
Lemma word_cases n : word_token n = T n /\ In n words \/ word_token n = TId n /\ ~ In n words.
Proof.
  unfold word_token. destruct (in_words n) eqn:K.
  - left. split; [reflexivity|apply in_words_iff; exact K].
  - right. split; [reflexivity|]. intros H. apply in_words_iff in H. congruence.
Qed.
Lemma base_in_words b : In (base_name b) words.
Proof. apply in_words_iff. destruct b; reflexivity. Qed.
Lemma base_type_name n b : base_type n = Some b -> n = base_name b.
Proof.
  unfold base_type, base_types. cbn [find fst].
  repeat match goal with |- context[String.eqb n ?s] => destruct (String.eqb_spec n s) as [-> |_]; [intros H; injection H as <-; reflexivity|] end.
  discriminate.
Qed.
Lemma same_named n : ~ In n words -> same_type n (Named n).
Proof. intros H. constructor. intros b ->. apply H, base_in_words. Qed.
Lemma kbind_ok {A B} (m : kotlin A) (f : A -> kotlin B) b : kbind m f = KOk b -> exists a, m = KOk a /\ f a = KOk b.
Proof. destruct m as [a|e]; [|discriminate]. intros H. exists a. auto. Qed.
Ltac kstep H := let x := fresh "x" in let E := fresh "E" in apply kbind_ok in H; destruct H as (x & E & H).
(** A type of one word *)
Lemma one_word_type d n x ts t r : x <> T "<" -> x <> T "cpp_type" -> parse_type d (word_token n :: x :: ts) = KOk (t, r) -> same_type n t /\ r = x :: ts.
Proof.
  intros N1 N2. destruct d as [|d]; [discriminate|]. cbn [parse_type].
  destruct (word_cases n) as [[-> I]|[-> I]].
  - destruct (base_type n) as [b|] eqn:K.
    + intros H. injection H as <- <-. apply base_type_name in K. subst n. split; [constructor|reflexivity].
    + assert (C : parse_cpp_type (x :: ts) = KOk (tt, x :: ts)).
      { unfold parse_cpp_type. cbn [ThriftParse.next]. destruct (is_text "cpp_type" x) eqn:J; [|reflexivity]. destruct x; try discriminate. apply String.eqb_eq in J. subst. congruence. }
      assert (L : expect "<" (x :: ts) = KThrow Syntax).
      { unfold expect. destruct (is_text "<" x) eqn:J; [|reflexivity]. destruct x; try discriminate. apply String.eqb_eq in J. subst. congruence. }
      destruct (String.eqb n "map"); [rewrite C; cbn [kbind]; rewrite L; discriminate|].
      destruct (String.eqb n "set"); [rewrite C; cbn [kbind]; rewrite L; discriminate|].
      destruct (String.eqb n "list"); [rewrite C; cbn [kbind]; rewrite L; discriminate|]. discriminate.
  - intros H. injection H as <- <-. split; [apply same_named; exact I|reflexivity].
Qed.
(** What comes after the name of a field *)
Definition calm (ts : list token) : Prop :=
  match ts with t :: _ => t = T "=" \/ t = T ";" \/ t = T "}" \/ numeric t = true | [] => False end.
Lemma calm_no_identifier ts n r : calm ts -> identifier ts <> KOk (n, r).
Proof. destruct ts as [|t ts]; [contradiction|]. intros [-> |[-> |[-> |H]]]; try discriminate. destruct t; discriminate. Qed.
Lemma calm_no_literal ts n r : calm ts -> ThriftParse.literal ts <> KOk (n, r).
Proof. destruct ts as [|t ts]; [contradiction|]. intros [-> |[-> |[-> |H]]]; try discriminate. destruct t; discriminate. Qed.
Lemma calm_type d n ts t r m r' : calm ts -> parse_type d (word_token n :: ts) = KOk (t, r) -> identifier r <> KOk (m, r').
Proof.
  intros C P. destruct ts as [|x ts]; [contradiction|]. apply one_word_type in P.
  - destruct P as [_ ->]. apply calm_no_identifier. exact C.
  - cbn in C. intros ->. intuition discriminate.
  - cbn in C. intros ->. intuition discriminate.
Qed.
Lemma type_and_name d t e es n g k ts ft r m r' : element e es -> sees ([name t] ++ es ++ [name n] ++ g) k ts -> (forall ts', sees g k ts' -> calm ts') ->
  parse_type d ts = KOk (ft, r) -> identifier r = KOk (m, r') -> same_field_type t e ft /\ m = n /\ sees g k r'.
Proof.
  intros El S C P I. destruct (sees_name _ _ _ _ S) as (ts1 & -> & S1). clear S. destruct El as [|e _].
  - cbn [app] in S1. destruct (sees_name _ _ _ _ S1) as (ts2 & -> & S2).
    destruct (word_cases n) as [[Ew Iw]|[Ew Iw]]; rewrite Ew in *.
    + exfalso. destruct (String.eqb_spec n "cpp_type") as [-> |N].
      * destruct d as [|d]; [discriminate P|]. cbn [parse_type] in P. destruct (word_cases t) as [[Et _]|[Et _]]; rewrite Et in P.
        -- destruct (base_type t); [injection P as <- <-; discriminate I|].
           assert (X : forall A (f : unit * list token -> kotlin A) a, kbind (parse_cpp_type (T "cpp_type" :: ts2)) f <> KOk a).
           { intros A f a H. kstep H. unfold parse_cpp_type in E. cbn [ThriftParse.next is_text String.eqb tl] in E. change (String.eqb "cpp_type" "cpp_type") with true in E. cbn match in E.
             kstep E. destruct x0. exact (calm_no_literal _ _ _ (C _ S2) E0). }
           destruct (String.eqb t "map"); [exact (X _ _ _ P)|]. destruct (String.eqb t "set"); [exact (X _ _ _ P)|]. destruct (String.eqb t "list"); [exact (X _ _ _ P)|]. discriminate.
        -- injection P as <- <-. discriminate I.
      * apply one_word_type in P; [|intros H; injection H as ->; vm_compute in Iw; intuition discriminate|congruence]. destruct P as [_ ->]. discriminate I.
    + apply one_word_type in P; [|discriminate..]. destruct P as [Y ->]. injection I as <- <-. split; [constructor; exact Y|]. auto.
  - cbn [app] in S1. destruct (sees_sign "<" _ _ _ ltac:(discriminate) ltac:(discriminate) S1) as (ts2 & -> & S2).
    destruct (sees_name _ _ _ _ S2) as (ts3 & -> & S3).
    destruct (sees_sign ">" _ _ _ ltac:(discriminate) ltac:(discriminate) S3) as (ts4 & -> & S4).
    destruct (sees_name _ _ _ _ S4) as (ts5 & -> & S5).
    destruct d as [|d]; [discriminate P|]. cbn [parse_type] in P. destruct (word_cases t) as [[Et _]|[Et _]]; rewrite Et in P.
    + destruct (base_type t); [injection P as <- <-; discriminate I|].
      change (parse_cpp_type (T "<" :: word_token e :: T ">" :: word_token n :: ts5)) with (@KOk (unit * list token) (tt, T "<" :: word_token e :: T ">" :: word_token n :: ts5)) in P.
      cbn [kbind] in P. change (expect "<" (T "<" :: word_token e :: T ">" :: word_token n :: ts5)) with (@KOk (unit * list token) (tt, word_token e :: T ">" :: word_token n :: ts5)) in P.
      cbn [kbind] in P.
      destruct (String.eqb_spec t "map") as [-> |_].
      { kstep P. destruct x as [kt r0]. apply one_word_type in E; [|discriminate..]. destruct E as [_ ->]. discriminate P. }
      destruct (String.eqb_spec t "set") as [-> |_].
      { kstep P. destruct x as [kt r0]. apply one_word_type in E; [|discriminate..]. destruct E as [Y ->]. cbn in P. injection P as <- <-.
        destruct (word_cases n) as [[Ew Iw]|[Ew Iw]]; rewrite Ew in I; [discriminate I|]. injection I as <- <-. split; [constructor; exact Y|]. auto. }
      destruct (String.eqb_spec t "list") as [-> |_]; [|discriminate].
      { kstep P. destruct x as [kt r0]. apply one_word_type in E; [|discriminate..]. destruct E as [Y ->]. cbn in P. injection P as <- <-.
        destruct (word_cases n) as [[Ew Iw]|[Ew Iw]]; rewrite Ew in I; [discriminate I|]. injection I as <- <-. split; [constructor; exact Y|]. auto. }
    + injection P as <- <-. discriminate I.
Qed.

(** * Fields *)
Definition matches_field (m : mfield) (p : pfield) : Prop :=
  (exists i, p_id p = Some i /\ forall z, map_integer i = KOk z -> z = m_id m) /\
  p_name p = m_name m /\ same_demand (m_req m) (match p_req p with Some r => r | None => DEFAULT end) /\ same_field_type (m_type m) (m_elem m) (p_type p).
Definition ready (ts : list token) : Prop := match ts with t :: _ => t = T "}" \/ numeric t = true | [] => False end.
Lemma ready_calm ts : ready ts -> calm ts.
Proof. destruct ts; cbn; tauto. Qed.
Lemma ready_separator ts : ready ts -> separator ts = ts /\ next (is_text "=") ts = false.
Proof. destruct ts as [|t ts]; [contradiction|]. intros [-> |H]; [split; reflexivity|]. destruct t; try discriminate H; split; reflexivity. Qed.
(** After a default value a name may be left over from the number. *)
Definition rest_of (g : list tree) (k : list rtok) (ts : list token) : Prop :=
  sees g k ts \/ exists n ts', ts = TId n :: ts' /\ calm ts'.
Lemma semicolon_calm s g k ts : semicolon s -> (forall ts', sees g k ts' -> ready ts') -> sees (s ++ g) k ts -> calm ts /\ next (is_text "=") ts = false.
Proof.
  intros H R S. destruct H; cbn [app] in S.
  - apply R in S. split; [apply ready_calm|apply ready_separator]; exact S.
  - destruct (sees_sign ";" _ _ _ ltac:(discriminate) ltac:(discriminate) S) as (ts' & -> & _). cbn. auto.
Qed.
Lemma semicolon_separator s g k ts : semicolon s -> (forall ts', sees g k ts' -> ready ts') -> sees (s ++ g) k ts -> sees g k (separator ts).
Proof.
  intros H R S. destruct H; cbn [app] in S.
  - destruct (ready_separator _ (R _ S)) as [-> _]. exact S.
  - destruct (sees_sign ";" _ _ _ ltac:(discriminate) ltac:(discriminate) S) as (ts' & -> & S'). exact S'.
Qed.
Lemma default_calm d ds s g k ts : default_value d ds -> semicolon s -> (forall ts', sees g k ts' -> ready ts') -> sees (ds ++ s ++ g) k ts -> calm ts.
Proof.
  intros D H R S. destruct D as [|v L]; cbn [app] in S.
  - exact (proj1 (semicolon_calm _ _ _ _ H R S)).
  - destruct (sees_sign "=" _ _ _ ltac:(discriminate) ltac:(discriminate) S) as (ts' & -> & _). cbn. auto.
Qed.
Lemma after_field d dv ds s g k ts r : default_value dv ds -> semicolon s -> (forall ts', sees g k ts' -> ready ts') -> sees (ds ++ s ++ g) k ts ->
  (if next (is_text "=") ts then parse_value d (tl ts) else KOk (tt, ts)) = KOk (tt, r) -> rest_of g k (separator r).
Proof.
  intros D H R S P. destruct D as [|v L]; cbn [app] in S.
  - destruct (semicolon_calm _ _ _ _ H R S) as [_ E]. rewrite E in P. injection P as <-. left. exact (semicolon_separator _ _ _ _ H R S).
  - destruct (sees_sign "=" _ _ _ ltac:(discriminate) ltac:(discriminate) S) as (ts' & -> & S'). cbn [next is_text String.eqb tl] in P. change (String.eqb "=" "=") with true in P. cbn match in P.
    destruct (sees_value _ _ _ _ L S') as (t & ts2 & -> & V & [S2|(n & ts3 & -> & S3)]); apply V in P; subst r.
    + left. exact (semicolon_separator _ _ _ _ H R S2).
    + right. exists n, ts3. split; [reflexivity|]. exact (proj1 (semicolon_calm _ _ _ _ H R S3)).
Qed.
Definition field_grammar (u : bool) : mfield -> list tree -> Prop := if u then union_field else struct_field.
(** Both kinds of fields *)
Lemma field_parts u f gs : field_grammar u f gs ->
  exists a i qs es ds s, gs = a ++ i ++ [sign ":"] ++ qs ++ [name (m_type f)] ++ es ++ [name (m_name f)] ++ ds ++ s /\
    attrs a /\ SpecRust.integer (m_id f) i /\ demanded (m_req f) qs /\ (m_req f = None <-> u = true) /\ element (m_elem f) es /\ default_value (m_default f) ds /\ semicolon s.
Proof.
  intros H. destruct u; destruct H.
  - exists a, i, [], es, [], s. cbn [m_id m_req m_type m_elem m_name m_default]. repeat split; auto; constructor.
  - exists a, i, [name (demand b)], es, ds, s. cbn [m_id m_req m_type m_elem m_name m_default]. repeat split; auto; try constructor; discriminate.
Qed.
Lemma fields_ready u fs gs k ts : sequence (field_grammar u) fs gs -> sees gs (RClose Brace :: k) ts -> ready ts.
Proof.
  intros H S. destruct H as [|f g fs gs F _].
  - apply sees_nil, close_brace in S. destruct S as (ts' & -> & _). left. reflexivity.
  - destruct (field_parts _ _ _ F) as (a & i & qs & es & ds & s & -> & A & I & _). rewrite <- !app_assoc in S.
    apply (sees_attrs _ _ _ _ A) in S. destruct (sees_int _ _ _ _ _ I S) as (t & ts' & -> & N & _). right. exact N.
Qed.
Lemma field_ok d u f gs g k ts p r : field_grammar u f gs -> (forall ts', sees g k ts' -> ready ts') -> sees (gs ++ g) k ts ->
  parse_field d ts = KOk (p, r) -> matches_field f p /\ rest_of g k r.
Proof.
  intros F R S P. destruct (field_parts _ _ _ F) as (a & i & qs & es & ds & s & -> & A & I & Q & Qu & El & D & Se). clear F.
  rewrite <- !app_assoc in S. apply (sees_attrs _ _ _ _ A) in S.
  destruct (sees_int _ _ _ _ _ I S) as (t & ts1 & -> & N & C). clear S. unfold parse_field in P.
  kstep P. destruct x as [id ts2].
  destruct C as [Db|[[(j & Pj & Sj & Vj) S1]|(n & ts3 & -> & _)]].
  - (* a fraction *) destruct t; try discriminate Db. cbn in E. injection E as <- <-. cbn in P. kstep P. destruct x. unfold parse_type in E. destruct d; discriminate E.
  - cbn [next] in E. rewrite Sj in E. kstep E. destruct x as [j' ts3]. rewrite Pj in E0. injection E0 as <- <-.
    cbn [app] in S1. destruct (sees_sign ":" _ _ _ ltac:(discriminate) ltac:(discriminate) S1) as (ts4 & -> & S2). cbn in E. injection E as <- <-.
    kstep P. destruct x as [req ts5]. kstep P. destruct x as [ft ts6]. kstep P. destruct x as [m ts7]. kstep P. destruct x as [[] ts8]. injection P as <- <-.
    assert (Ca : forall ts', sees (ds ++ s ++ g) k ts' -> calm ts') by (intros ts'; exact (default_calm _ _ _ _ _ _ D Se R)).
    assert (G : same_demand (m_req f) (match req with Some q => q | None => DEFAULT end) /\ same_field_type (m_type f) (m_elem f) ft /\ m = m_name f /\ sees (ds ++ s ++ g) k ts7).
    { destruct Q as [|b]; cbn [app] in S2.
      - destruct (sees_name _ _ _ _ S2) as (ts9 & -> & S3).
        assert (Nr : forall q, In q ["required"; "optional"]%string -> word_token (m_type f) <> T q).
        { intros q Hq Eq. rewrite Eq in *.
          assert (ts5 = ts9) as -> by (destruct Hq as [<-|[<-|[]]]; cbn in E; injection E as _ <-; reflexivity).
          destruct El as [|e _]; cbn [app] in S3.
          - destruct (sees_name _ _ _ _ S3) as (ts10 & -> & S4). exact (calm_type _ _ _ _ _ _ _ (Ca _ S4) E0 E1).
          - destruct (sees_sign "<" _ _ _ ltac:(discriminate) ltac:(discriminate) S3) as (ts10 & -> & _). destruct d; discriminate E0. }
        assert (parse_requirement (word_token (m_type f) :: ts9) = KOk (None, word_token (m_type f) :: ts9)) as Er.
        { unfold parse_requirement. cbn [next]. destruct (word_cases (m_type f)) as [[Ew _]|[Ew _]]; rewrite Ew in *; [|reflexivity].
          unfold is_text. destruct (String.eqb_spec "required" (m_type f)) as [Eq|_]; [exfalso; apply (Nr "required"%string); [cbn; tauto|congruence]|].
          destruct (String.eqb_spec "optional" (m_type f)) as [Eq|_]; [exfalso; apply (Nr "optional"%string); [cbn; tauto|congruence]|]. reflexivity. }
        rewrite Er in E. injection E as <- <-. split; [reflexivity|].
        exact (type_and_name _ _ _ _ _ _ _ _ _ _ _ _ El S2 Ca E0 E1).
      - destruct (sees_name _ _ _ _ S2) as (ts9 & -> & S3).
        assert (req = Some (if b then REQUIRED else OPTIONAL) /\ ts5 = ts9) as [-> ->] by (destruct b; cbn in E; injection E as <- <-; auto).
        split; [destruct b; reflexivity|]. exact (type_and_name _ _ _ _ _ _ _ _ _ _ _ _ El S3 Ca E0 E1). }
    destruct G as (G1 & G2 & G3 & G4). split.
    + split; [exists j; auto|]. cbn [p_name p_req p_type]. auto.
    + exact (after_field _ _ _ _ _ _ _ _ D Se R G4 E2).
  - exfalso. destruct t; try discriminate N; cbn in E; try discriminate E. injection E as <- <-. cbn in P. kstep P. destruct x. destruct d; discriminate E.
Qed.
Lemma fields_ok d u fs gs : sequence (field_grammar u) fs gs -> forall k n ts ps r r',
  sees gs (RClose Brace :: k) ts -> ThriftParse.many starts_field (parse_field d) n ts = KOk (ps, r) -> expect "}" r = KOk (tt, r') ->
  Forall2 matches_field fs ps /\ agree k r'.
Proof.
  intros H. induction H as [|f g fs gs F H IH]; intros k n ts ps r r' S M X.
  - apply sees_nil, close_brace in S. destruct S as (ts' & -> & A). destruct n; cbn in M; injection M as <- <-; cbn in X; injection X as <-; auto.
  - assert (Rd : ready ts) by (exact (fields_ready u (f :: fs) (g ++ gs) k ts (S_cons _ _ _ _ _ F H) S)).
    assert (R : forall ts', sees gs (RClose Brace :: k) ts' -> ready ts') by (intros ts'; exact (fields_ready u fs gs k ts' H)).
    assert (St : next starts_field ts = true).
    { destruct (next starts_field ts) eqn:K; [reflexivity|]. exfalso.
      assert (r = ts) as -> by (destruct n; cbn [ThriftParse.many] in M; rewrite K in M; injection M as _ <-; reflexivity).
      destruct (field_parts _ _ _ F) as (a & i & qs & es & ds & s & -> & A & I & _). rewrite <- !app_assoc in S.
      apply (sees_attrs _ _ _ _ A) in S. destruct (sees_int _ _ _ _ _ I S) as (t & ts' & -> & N & _). destruct t; try discriminate N; discriminate X. }
    destruct n as [|n]; cbn [ThriftParse.many] in M; rewrite St in M; [discriminate|].
    kstep M. destruct x as [p ts1]. kstep M. destruct x as [ps' ts2]. injection M as <- <-.
    destruct (field_ok _ _ _ _ _ _ _ _ _ F R S E) as [Mf [S1|(m & ts3 & -> & C)]].
    + destruct (IH _ _ _ _ _ _ S1 E0 X) as [Mfs A]. auto.
    + exfalso. destruct n as [|n]; cbn [ThriftParse.many] in E0; change (next starts_field (TId m :: ts3)) with true in E0; cbn match in E0; [discriminate|].
      kstep E0. destruct x as [p' ts4]. unfold parse_field in E1. cbn in E1. kstep E1. destruct x as [ty ts5]. destruct d; [discriminate E2|]. cbn in E2. injection E2 as <- <-.
      kstep E1. destruct x. exact (calm_no_identifier _ _ _ C E2).
Qed.

(** * Enums *)
Definition matches_constant (c : string * Z) (p : string * Generator.integer) : Prop := fst p = fst c /\ forall z, map_integer (snd p) = KOk z -> z = snd c.
Lemma constants_ok cs gs : sequence constant cs gs -> forall k n ts ps r r',
  sees gs (RClose Brace :: k) ts -> ThriftParse.many starts_enum_field parse_enum_field n ts = KOk (ps, r) -> expect "}" r = KOk (tt, r') ->
  Forall2 matches_constant cs ps /\ agree k r'.
Proof.
  intros H. induction H as [|c g cs gs F H IH]; intros k n ts ps r r' S M X.
  - apply sees_nil, close_brace in S. destruct S as (ts' & -> & A). destruct n; cbn in M; injection M as <- <-; cbn in X; injection X as <-; auto.
  - destruct F as [a m z i A _ I _]. rewrite <- !app_assoc in S. apply (sees_attrs _ _ _ _ A) in S. cbn [app] in S.
    destruct (sees_name _ _ _ _ S) as (ts1 & -> & S1). clear S.
    destruct (word_cases m) as [[Ew Iw]|[Ew Iw]]; rewrite Ew in *.
    { exfalso. assert (r = T m :: ts1) as -> by (destruct n; cbn in M; injection M as _ <-; reflexivity). unfold expect, is_text in X.
      destruct (String.eqb "}" m) eqn:K; [|discriminate]. apply String.eqb_eq in K. subst m. vm_compute in Iw. intuition discriminate. }
    destruct (sees_sign "=" _ _ _ ltac:(discriminate) ltac:(discriminate) S1) as (ts2 & -> & S2).
    destruct (sees_int _ _ _ _ _ I S2) as (t & ts3 & -> & N & C).
    destruct n as [|n]; [discriminate|]. cbn [ThriftParse.many] in M. change (next starts_enum_field (TId m :: T "=" :: t :: ts3)) with true in M. cbn match in M.
    kstep M. destruct x as [p ts4]. kstep M. destruct x as [ps' ts5]. injection M as <- <-.
    unfold parse_enum_field in E. cbn [identifier kbind] in E. change (expect "=" (T "=" :: t :: ts3)) with (@KOk (unit * list token) (tt, t :: ts3)) in E. cbn [kbind] in E. kstep E. destruct x as [j ts6].
    destruct C as [Db|[[(j' & Pj & Sj & Vj) S3]|(q & ts7 & -> & S4)]].
    + destruct t; try discriminate Db. discriminate E1.
    + rewrite Pj in E1. injection E1 as <- <-. injection E as <- <-. cbn [app] in S3.
      destruct (sees_sign ";" _ _ _ ltac:(discriminate) ltac:(discriminate) S3) as (ts8 & -> & S5).
      destruct (IH _ _ _ _ _ _ S5 E0 X) as [Mc Ag]. split; [|exact Ag]. constructor; [split; [reflexivity|exact Vj]|exact Mc].
    + exfalso. cbn [app] in S4. destruct (sees_sign ";" _ _ _ ltac:(discriminate) ltac:(discriminate) S4) as (ts8 & -> & S5).
      assert (ts4 = TId q :: T ";" :: ts8) as -> by (destruct t; try discriminate; cbn in E1; injection E1 as <- <-; injection E as _ <-; reflexivity).
      destruct n as [|n]; [discriminate|]. cbn [ThriftParse.many] in E0. change (next starts_enum_field (TId q :: T ";" :: ts8)) with true in E0. discriminate E0.
Qed.

(** * Definitions *)
Inductive matches_definition : string * mdef -> string * pdefinition -> Prop :=
| Ma_struct n ms ps : Forall2 matches_field ms ps -> matches_definition (n, MStruct ms) (n, PStruct ps)
| Ma_union n ms ps : Forall2 matches_field ms ps -> matches_definition (n, MUnion ms) (n, PUnion ps)
| Ma_enum n cs ps : Forall2 matches_constant cs ps -> matches_definition (n, MEnum cs) (n, PEnum ps).
Lemma definition_ok d x gs g ts p r : declared (Some x) gs -> sees (gs ++ g) [] ts -> parse_definition d ts = KOk (p, r) ->
  matches_definition x p /\ sees g [] r.
Proof.
  intros D S P.
  assert (K : forall a w n body, attrs a -> sees ((a ++ [name w; name n; Gr Brace body]) ++ g) [] ts -> In w words ->
            exists ts' rg, ts = T w :: word_token n :: T "{" :: ts' /\ grouped g rg /\ no_attributes rg /\ sees body (RClose Brace :: rg ++ []) ts').
  { intros a w n body A S' Iw. rewrite <- app_assoc in S'. apply (sees_attrs _ _ _ _ A) in S'. cbn [app] in S'.
    destruct (sees_name _ _ _ _ S') as (ts1 & -> & S1). destruct (sees_name _ _ _ _ S1) as (ts2 & -> & S2).
    destruct (sees_group _ _ _ _ S2) as (ts3 & rg & -> & G & Na & S3). exists ts3, rg. split; [|auto].
    unfold word_token at 1. apply in_words_iff in Iw. rewrite Iw. reflexivity. }
  assert (Z : forall rg r', grouped g rg -> no_attributes rg -> agree (rg ++ []) r' -> sees g [] r') by (intros rg r' G Na Ag; exists rg; auto).
  inversion D as [a n fs body A _ Sq|a n fs body A _ Sq|a n cs body A _ Sq|]; subst.
  - destruct (K _ _ _ _ A S) as (ts' & rg & -> & G & Na & Sb); [vm_compute; tauto|].
    cbn in P. destruct (word_cases n) as [[Ew _]|[Ew _]]; rewrite Ew in P; [discriminate|]. cbn in P. kstep P. destruct x as [fs' ts1]. injection P as <- <-.
    unfold braces in E. cbn in E. kstep E. destruct x as [ps ts2]. kstep E. destruct x as [[] ts3]. injection E as <- <-.
    destruct (fields_ok d false fs body Sq _ _ _ _ _ _ Sb E0 E1) as [Mf Ag]. split; [constructor; exact Mf|eauto].
  - destruct (K _ _ _ _ A S) as (ts' & rg & -> & G & Na & Sb); [vm_compute; tauto|].
    cbn in P. destruct (word_cases n) as [[Ew _]|[Ew _]]; rewrite Ew in P; [discriminate|]. cbn in P. kstep P. destruct x as [fs' ts1]. injection P as <- <-.
    unfold braces in E. cbn in E. kstep E. destruct x as [ps ts2]. kstep E. destruct x as [[] ts3]. injection E as <- <-.
    destruct (fields_ok d true fs body Sq _ _ _ _ _ _ Sb E0 E1) as [Mf Ag]. split; [constructor; exact Mf|eauto].
  - destruct (K _ _ _ _ A S) as (ts' & rg & -> & G & Na & Sb); [vm_compute; tauto|].
    cbn in P. destruct (word_cases n) as [[Ew _]|[Ew _]]; rewrite Ew in P; [discriminate|]. cbn in P. kstep P. destruct x as [fs' ts1]. injection P as <- <-.
    unfold braces in E. cbn in E. kstep E. destruct x as [ps ts2]. kstep E. destruct x as [[] ts3]. injection E as <- <-.
    destruct (constants_ok cs body Sq _ _ _ _ _ _ Sb E0 E1) as [Mf Ag]. split; [constructor; exact Mf|eauto].
Qed.
Lemma declared_head x gs g ts : declared (Some x) gs -> sees (gs ++ g) [] ts -> exists w ts', ts = T w :: ts' /\ In w ["struct"; "union"; "enum"]%string.
Proof.
  intros D S. inversion D as [a n fs body A _ _|a n fs body A _ _|a n cs body A _ _|]; subst; rewrite <- app_assoc in S; apply (sees_attrs _ _ _ _ A) in S; cbn [app] in S;
    destruct (sees_name _ _ _ _ S) as (ts1 & -> & _); do 2 eexists; (split; [reflexivity|cbn; tauto]).
Qed.
Lemma namespace_head gs g ts : declared None gs -> sees (gs ++ g) [] ts -> exists l n ts', ts = T "namespace" :: word_token l :: word_token n :: ts' /\ sees g [] ts'.
Proof.
  intros D S. inversion D as [| | |a l n A _ _]; subst; rewrite <- app_assoc in S; apply (sees_attrs _ _ _ _ A) in S; cbn [app] in S.
  destruct (sees_name _ _ _ _ S) as (ts1 & -> & S1). destruct (sees_name _ _ _ _ S1) as (ts2 & -> & S2). destruct (sees_name _ _ _ _ S2) as (ts3 & -> & S3).
  exists l, n, ts3. auto.
Qed.
Lemma definitions_ok d l gs : sequence declared l gs -> forall n ts ds, sees gs [] ts ->
  ThriftParse.many starts_definition (parse_definition d) n ts = KOk (ds, []) -> Forall2 matches_definition (somes l) ds.
Proof.
  intros H. induction H as [|o g l gs D H IH]; intros n ts ds S M.
  - apply sees_nil in S. inversion S; subst. destruct n; cbn in M; injection M as <-; constructor.
  - destruct o as [x|].
    + destruct (declared_head _ _ _ _ D S) as (w & ts' & -> & Iw).
      assert (St : next starts_definition (T w :: ts') = true) by (destruct Iw as [<-|[<-|[<-|[]]]]; reflexivity).
      destruct n as [|n]; cbn [ThriftParse.many] in M; rewrite St in M; [discriminate|]. kstep M. destruct x0 as [p ts1]. kstep M. destruct x0 as [ds' ts2]. injection M as <- ->.
      destruct (definition_ok _ _ _ _ _ _ _ D S E) as [Md S']. cbn [somes flat_map app]. constructor; [exact Md|exact (IH _ _ _ S' E0)].
    + destruct (namespace_head _ _ _ D S) as (la & na & ts' & -> & _). destruct n; cbn in M; discriminate M.
Qed.
Lemma document_ok d l gs : sequence declared l gs -> forall n n' ts hs ts1 ds, sees gs [] ts ->
  ThriftParse.many starts_header parse_header n ts = KOk (hs, ts1) -> ThriftParse.many starts_definition (parse_definition d) n' ts1 = KOk (ds, []) ->
  Forall2 matches_definition (somes l) ds.
Proof.
  intros H. induction H as [|o g l gs D H IH]; intros n n' ts hs ts1 ds S M M'.
  - apply sees_nil in S. inversion S; subst. destruct n; cbn in M; injection M as <- <-; destruct n'; cbn in M'; injection M' as <-; constructor.
  - destruct o as [x|].
    + destruct (declared_head _ _ _ _ D S) as (w & ts' & -> & Iw).
      assert (St : next starts_header (T w :: ts') = false) by (destruct Iw as [<-|[<-|[<-|[]]]]; reflexivity).
      assert (ts1 = T w :: ts') as -> by (destruct n; cbn [ThriftParse.many] in M; rewrite St in M; injection M as _ <-; reflexivity).
      exact (definitions_ok d (Some x :: l) (g ++ gs) (S_cons _ _ _ _ _ D H) _ _ _ S M').
    + destruct (namespace_head _ _ _ D S) as (la & na & ts' & -> & S').
      destruct n as [|n]; [discriminate|]. cbn [ThriftParse.many] in M. change (next starts_header (T "namespace" :: word_token la :: word_token na :: ts')) with true in M. cbn match in M.
      kstep M. destruct x as [h ts2]. kstep M. destruct x as [hs' ts3]. injection M as <- <-.
      assert (ts2 = ts') as ->.
      { unfold parse_header in E. cbn in E. destruct (word_cases la) as [[El Il]|[El Il]]; rewrite El in E; cbn [next] in E.
        - destruct (is_text "*" (T la)) eqn:K; [|discriminate E]. exfalso. apply String.eqb_eq in K. subst la. vm_compute in Il. intuition discriminate.
        - cbn in E. destruct (word_cases na) as [[En In_]|[En In_]]; rewrite En in E; cbn in E; [discriminate E|]. injection E as _ <-. reflexivity. }
      exact (IH _ _ _ _ _ _ S' E0 M').
Qed.

(** * Numbering and repeated names *)
Lemma number_matches fs : forall cur ps gs, Forall2 matches_field fs ps -> number_fields cur ps = KOk gs -> Forall2 same_field fs gs.
Proof.
  intros cur ps gs H. revert cur gs. induction H as [|f p fs ps M H IH]; intros cur gs K; cbn [number_fields] in K.
  - injection K as <-. constructor.
  - destruct M as ((i & Ei & Vi) & Nm & Rq & Ty). rewrite Ei in K. kstep K. kstep K. injection K as <-. constructor; [|exact (IH _ _ E0)].
    split; [symmetry; auto|]. auto.
Qed.
Lemma same_names fs gs : Forall2 same_field fs gs -> map g_name gs = map m_name fs.
Proof. intros H. induction H as [|f g fs gs M H IH]; [reflexivity|]. cbn. destruct M as (_ & <- & _). congruence. Qed.
Lemma map_snd_pair {A B} (f : A -> B) l : map snd (map (fun x => (f x, x)) l) = l.
Proof. rewrite map_map. cbn. apply map_id. Qed.
Lemma fields_same fs ps gs : NoDup (map m_name fs) -> Forall2 matches_field fs ps -> map_fields ps = KOk gs -> Forall2 same_field fs gs.
Proof.
  intros N M K. unfold map_fields in K. kstep K. injection K as <-. pose proof (number_matches _ _ _ _ M E) as S.
  rewrite associate_distinct, map_snd_pair; [exact S|]. rewrite map_map. change (NoDup (map g_name x)). rewrite (same_names _ _ S). exact N.
Qed.
Lemma constants_same cs ps gs : NoDup (map fst cs) -> Forall2 matches_constant cs ps -> map_enum_fields ps = KOk gs -> gs = cs.
Proof.
  intros N M K. unfold map_enum_fields in K. kstep K. injection K as <-.
  assert (x = cs) as ->; [|apply associate_distinct; exact N]. clear N. revert x E. induction M as [|c p cs ps Mc M IH]; intros x E; cbn [kmap] in E.
  - injection E as <-. reflexivity.
  - destruct p as [n i]. kstep E. kstep E0. injection E0 as <-. kstep E. injection E as <-. rewrite (IH _ E0). f_equal. destruct c as [m z]. destruct Mc as [Mn Mv]. cbn in *. subst. f_equal. auto.
Qed.
Lemma document_same ds ps doc : distinct ds -> Forall2 matches_definition ds ps -> map_document ps = KOk doc -> Forall2 same_definition ds doc.
Proof.
  intros [N F] M K. unfold map_document in K. kstep K. injection K as <-.
  assert (S : Forall2 same_definition ds x).
  { clear N. revert F x E. induction M as [|y p ds ps My M IH]; intros F x E; cbn [kmap] in E.
    - injection E as <-. constructor.
    - inversion F as [|? ? F1 F2]; subst. destruct p as [n pd]. kstep E. kstep E0. injection E0 as <-. kstep E. injection E as <-. constructor; [|exact (IH F2 _ E0)].
      inversion My; subst; cbn [map_definition members snd] in *; kstep E1; injection E1 as <-.
      + constructor. eapply fields_same; eauto.
      + constructor. eapply fields_same; eauto.
      + rewrite (constants_same _ _ _ F1 ltac:(eassumption) E). constructor. }
  rewrite associate_distinct; [exact S|].
  assert (map fst x = map fst ds) as ->; [|exact N]. clear -S. induction S as [|a b l m H S IH]; [reflexivity|]. cbn. rewrite IH. f_equal. destruct H; reflexivity.
Qed.

(** * All tokens are tame *)
Inductive tame : list tree -> Prop :=
| Ta_nil : tame []
| Ta_leaf l g : (match l with LPunct p => In p [":"; ";"; "<"; ">"; "="; "-"]%string | _ => True end) -> tame g -> tame (Lf l :: g)
| Ta_group i g : tame i -> tame g -> tame (Gr Brace i :: g)
| Ta_attribute i g : tame g -> tame (sign "#" :: Gr Bracket i :: g).
Lemma tame_app a b : tame a -> tame b -> tame (a ++ b).
Proof. intros H B. induction H; cbn [app]; [exact B|apply Ta_leaf; auto|apply Ta_group; auto|apply Ta_attribute; auto]. Qed.
Lemma tame_plain g : tame g -> forall rs, grouped g rs -> no_attributes rs -> Forall plain rs.
Proof.
  intros H. induction H as [|l g L H IH|i g Hi IHi H IH|i g H IH]; intros rs G N.
  - inversion G. constructor.
  - inversion G; subst; try (cbn in L; intuition discriminate); (constructor; [cbn; auto|apply IH; eauto using no_tail]).
  - inversion G as [| | | | | |? ? is ? rg Gi Gg]; subst. constructor; [reflexivity|]. apply Forall_app. split.
    + apply IHi; [exact Gi|]. intros I. apply N. right. apply in_or_app. auto.
    + constructor; [reflexivity|]. apply IH; [exact Gg|]. intros I. apply N. right. apply in_or_app. right. right. exact I.
  - inversion G; subst.
    + exfalso. apply N. left. reflexivity.
    + constructor; [exact I|]. apply IH; eauto using no_tail.
Qed.
Lemma tame_attrs a : attrs a -> tame a.
Proof. intros [l H]. induction H as [|u t l ts A H IH]; [constructor|]. destruct A. cbn. apply Ta_attribute. exact IH. Qed.
Lemma tame_sequence {A} (G : A -> list tree -> Prop) l g : (forall a t, G a t -> tame t) -> sequence G l g -> tame g.
Proof. intros K H. induction H; [constructor|]. apply tame_app; eauto. Qed.
Ltac tame := repeat (apply tame_app || apply Ta_leaf || apply Ta_group || apply Ta_nil); try (cbn; tauto).
Lemma tame_integer z i : SpecRust.integer z i -> tame i.
Proof. intros []; tame. Qed.
Lemma tame_literal v : literal v -> tame v.
Proof. intros []; tame. Qed.
Lemma tame_field u f g : field_grammar u f g -> tame g.
Proof.
  intros F. destruct (field_parts _ _ _ F) as (a & i & qs & es & ds & s & -> & A & I & Q & _ & El & D & Se).
  repeat apply tame_app; try (tame; fail); [apply tame_attrs; exact A|eapply tame_integer; exact I|destruct Q; tame|destruct El; tame|destruct D as [|v L]; tame; apply tame_literal; exact L|destruct Se; tame].
Qed.
Lemma tame_declared o g : declared o g -> tame g.
Proof.
  intros D. destruct D as [a n fs ts A _ S|a n fs ts A _ S|a n cs ts A _ S|a l n A _ _]; (apply tame_app; [apply tame_attrs; exact A|]); tame.
  - exact (tame_sequence _ _ _ (fun f t H => tame_field false f t H) S).
  - exact (tame_sequence _ _ _ (fun f t H => tame_field true f t H) S).
  - refine (tame_sequence _ _ _ _ S). intros c t H. destruct H. apply tame_app; [apply tame_attrs; assumption|]. tame. eapply tame_integer; eassumption.
Qed.

(** * The whole text *)
Lemma same_reading d s h doc rs g ds : load d s = KOk (h, doc) -> rust_text s rs -> grouped g rs -> declarations ds g ->
  no_attributes rs -> unnested s -> distinct ds -> Forall2 same_definition ds doc.
Proof.
  intros L R G (l & Sq & ->) N U Di. unfold load in L. destruct (lex s) as [ts|] eqn:K; [|discriminate]. apply lex_iff in K.
  kstep L. destruct x as [hs ps]. kstep L. rename x into hm. kstep L. rename x into dc. injection L as <- <-.
  unfold parse in E. kstep E. destruct x as [hs' ts1]. kstep E. destruct x as [ps' ts2]. destruct ts2; [|discriminate]. injection E as <- <-.
  assert (P : Forall plain rs) by (exact (tame_plain g (tame_sequence _ _ _ tame_declared Sq) rs G N)).
  pose proof (lex_agree s rs R ts K U P) as A.
  assert (S : sees g [] ts) by (exists rs; rewrite app_nil_r; auto).
  exact (document_same _ _ _ Di (document_ok d l g Sq _ _ _ _ _ _ S E2 E3) E1).
Qed.

(** * A text to which this applies *)
Definition both_sample : list Z := text "namespace rust test
/// The outer doc # comment
struct A { 1: required i32 x = -0x1F; -2: optional list<binary> y // a comment
  0x10: required B z }
union B { 1: set<i8> p 2: string q; }
enum C { D = -1; E = 2; }
".
Lemma sample_reading : exists d h doc ts g ds, load d both_sample = KOk (h, doc) /\ rust_text both_sample ts /\ grouped g ts /\ declarations ds g /\
  no_attributes ts /\ unnested both_sample /\ distinct ds /\ List.length ds = 3%nat.
Proof.
  exists 100%nat.
  destruct (load 100 both_sample) as [[h doc]|] eqn:L; [|vm_compute in L; discriminate]. exists h, doc.
  destruct (rust_lex both_sample) as [ts|] eqn:R; [|vm_compute in R; discriminate]. exists ts.
  destruct (trees ts [] []) as [g|] eqn:G; [|vm_compute in R; injection R as <-; vm_compute in G; discriminate]. exists g.
  destruct (thrift_macro g) as [ds|] eqn:D; [|vm_compute in R; injection R as <-; vm_compute in G; injection G as <-; vm_compute in D; discriminate]. exists ds.
  split; [reflexivity|]. split; [apply rust_lex_ok; exact R|]. split; [apply trees_ok; exact G|]. split; [apply thrift_macro_ok; exact D|].
  assert (N : existsb (fun t => match t with RPunct s => String.eqb s "#" | _ => false end) ts = false) by (vm_compute in R; injection R as <-; reflexivity).
  split.
  { intros I. assert (K : existsb (fun t => match t with RPunct s => String.eqb s "#" | _ => false end) ts = true); [|congruence].
    apply existsb_exists. exists (RPunct "#"). split; [exact I|reflexivity]. }
  split.
  { intros a b c E. exfalso. assert (K : existsb (Z.eqb 42) both_sample = true); [|vm_compute in K; discriminate].
    rewrite E. apply existsb_exists. exists 42. split; [|reflexivity]. apply in_or_app. right. right. left. reflexivity. }
  vm_compute in R. injection R as <-. vm_compute in G. injection G as <-. vm_compute in D. injection D as <-.
  split; [|reflexivity]. split; repeat constructor; cbn; intuition discriminate.
Qed.
Lemma repeated_name_differs : exists h doc g ds, load 100 (text "struct a { 1: required i32 x; 2: required i64 x }") = KOk (h, doc) /\
  token_trees (text "struct a { 1: required i32 x; 2: required i64 x }") = Some g /\ thrift_macro g = Some ds /\ ~ Forall2 same_definition ds doc.
Proof.
  do 4 eexists. split; [vm_compute; reflexivity|]. split; [vm_compute; reflexivity|]. split; [vm_compute; reflexivity|].
  intros F. inversion F as [|? ? ? ? S _]; subst. inversion S; subst;
  repeat match goal with H : Forall2 _ (_ :: _) _ |- _ => inversion H; clear H; subst end.
Qed.
