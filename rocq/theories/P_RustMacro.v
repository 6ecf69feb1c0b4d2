(** The macros accept the declarations of SpecRust.v and nothing else. *)
From Coq Require Import Ascii ZifyBool.
From Verif Require Import Base ErrorName P_ErrorName Types Macro RustLex RustMacro SpecRust.
Open Scope Z_scope.
Open Scope list_scope.

Lemma in_cons {A} (f : pat -> list tree -> option (A * list tree)) p ps ts : in_order f (p :: ps) ts =
  match f p ts with None => None | Some (x, r) => match in_order f ps r with Some (xs, r') => Some (x :: xs, r') | None => None end end.
Proof. reflexivity. Qed.
Lemma in_nil {A} (f : pat -> list tree -> option (A * list tree)) ts : in_order f [] ts = Some ([], ts).
Proof. reflexivity. Qed.

(** * Fragments *)
Lemma bool_name_ok n : bool_name n = true <-> n = "true"%string \/ n = "false"%string.
Proof. unfold bool_name. rewrite orb_true_iff, !String.eqb_eq. reflexivity. Qed.
Lemma take_literal_sound ts x r : take_literal ts = Some (x, r) -> literal x /\ ts = x ++ r.
Proof.
  destruct ts as [|[[n|w|s]|d g] ts]; cbn [take_literal]; try discriminate.
  - destruct (bool_name n) eqn:E; [|discriminate]. intros H. injection H as <- <-. split; [apply T_bool; apply bool_name_ok; exact E|reflexivity].
  - intros H. injection H as <- <-. split; [apply T_plain|reflexivity].
  - destruct ts as [|[[m|w|u]|d g] ts]; try discriminate. destruct (String.eqb_spec s "-") as [->|]; [|discriminate]. intros H. injection H as <- <-.
    split; [apply T_minus|reflexivity].
Qed.
Lemma take_literal_complete x r : literal x -> take_literal (x ++ r) = Some (x, r).
Proof. intros []; try reflexivity. cbn [app take_literal]. unfold name. rewrite (proj2 (bool_name_ok n) H). reflexivity. Qed.

Inductive colons : list tree -> Prop :=
| Cn_nil : colons []
| Cn_cons n p : colons p -> colons (sign "::" :: name n :: p).
Lemma colons_snoc p n : colons p -> colons (p ++ [sign "::"; name n]).
Proof. induction 1; cbn [app]; repeat constructor; auto. Qed.
Lemma path_colons q : path q <-> exists n p, q = name n :: p /\ colons p.
Proof.
  split.
  - induction 1 as [n|n p H (m & q & -> & Hq)]; [exists n, []; repeat constructor|]. exists m, (q ++ [sign "::"; name n]). split; [reflexivity|apply colons_snoc; exact Hq].
  - intros (n & p & -> & H). revert p H. assert (K : forall q, path q -> forall p, colons p -> path (q ++ p)).
    { intros q Hq p H. revert q Hq. induction H as [|m p H IH]; intros q Hq; [rewrite app_nil_r; exact Hq|].
      replace (q ++ sign "::" :: name m :: p) with ((q ++ [sign "::"; name m]) ++ p) by (rewrite <- app_assoc; reflexivity). apply IH. apply Pa_more. exact Hq. }
    intros p H. exact (K [name n] (Pa_name n) p H).
Qed.
Lemma path_tail_sound m : forall ts p r, (List.length ts <= m)%nat -> path_tail ts = (p, r) -> colons p /\ ts = p ++ r.
Proof.
  induction m as [|m IH]; intros ts p r Hm H; destruct ts as [|[[n|w|s]|d g] ts]; cbn [List.length] in Hm; try lia;
    try (injection H as <- <-; split; [constructor|reflexivity]).
  cbn [path_tail] in H. destruct ts as [|[[n|w|u]|d g] ts]; try (injection H as <- <-; split; [constructor|reflexivity]).
  destruct (String.eqb_spec s "::") as [->|]; [|injection H as <- <-; split; [constructor|reflexivity]].
  destruct (path_tail ts) as (p1, r1) eqn:E. injection H as <- <-. cbn [List.length] in Hm. destruct (IH ts p1 r1 ltac:(lia) E) as (K & ->).
  split; [constructor; exact K|reflexivity].
Qed.
Lemma path_tail_complete p r : colons p -> (match r with Lf (LPunct s) :: _ => s <> "::"%string | _ => True end) -> path_tail (p ++ r) = (p, r).
Proof.
  induction 1 as [|n p H IH]; intros Hr.
  - destruct r as [|[[n|w|s]|d g] r]; try reflexivity. cbn [app path_tail]. destruct r as [|[[n|w|u]|d g] r]; try reflexivity.
    destruct (String.eqb_spec s "::"); [congruence|reflexivity].
  - cbn [app path_tail sign name String.eqb Ascii.eqb Bool.eqb]. rewrite (IH Hr). reflexivity.
Qed.
Lemma take_meta_sound ts x r : take_meta ts = Some (x, r) -> meta x /\ ts = x ++ r /\ exists n v, x = name n :: v.
Proof.
  destruct ts as [|[[n|w|s]|d g] ts]; cbn [take_meta]; try discriminate. destruct (path_tail ts) as (p, q) eqn:E.
  apply (path_tail_sound _ ts p q (Nat.le_refl _)) in E as (Hp & ->). assert (Pn : path (name n :: p)) by (apply path_colons; exists n, p; auto).
  assert (Stop : Some (Lf (LId n) :: p, q) = Some (x, r) -> meta x /\ Lf (LId n) :: p ++ q = x ++ r /\ exists n v, x = name n :: v).
  { intros H. injection H as <- <-. split; [apply Me_path; exact Pn|]. split; [reflexivity|exists n, p; reflexivity]. }
  destruct q as [|[[m|w|s]|d g] q]; try exact Stop.
  - destruct (String.eqb_spec s "=") as [->|]; [|exact Stop]. destruct (take_literal q) as [(l, q')|] eqn:E; [|discriminate].
    apply take_literal_sound in E as (Hl & ->). intros H. injection H as <- <-. split; [apply (Me_value (name n :: p)); assumption|].
    split; [cbn [app]; rewrite <- app_assoc; reflexivity|exists n, (p ++ sign "=" :: l); reflexivity].
  - intros H. injection H as <- <-. split; [apply (Me_group (name n :: p)); exact Pn|]. split; [cbn [app]; rewrite <- app_assoc; reflexivity|eexists; eexists; reflexivity].
Qed.
Lemma take_meta_complete x r : meta x -> (match r with [] => True | t :: _ => exists n, t = name n end) -> take_meta (x ++ r) = Some (x, r).
Proof.
  intros H Hr. destruct H as [p H|p v H Hv|p d g H]; apply path_colons in H as (n & q & -> & Hq); cbn [app].
  - cbn [take_meta name]. rewrite path_tail_complete; [|exact Hq|destruct r as [|t r]; [trivial|destruct Hr as (m & ->); exact I]].
    destruct r as [|t r]; [reflexivity|]. destruct Hr as (m & ->). reflexivity.
  - rewrite <- app_assoc. cbn [take_meta name app]. rewrite path_tail_complete; [|exact Hq|discriminate]. cbn [sign String.eqb Ascii.eqb Bool.eqb].
    rewrite (take_literal_complete v r Hv). reflexivity.
  - rewrite <- app_assoc. cbn [take_meta name app]. rewrite path_tail_complete; [reflexivity|exact Hq|exact I].
Qed.
Lemma meta_name x : meta x -> exists n v, x = name n :: v.
Proof. intros H. pose proof (take_meta_complete x [] H I) as K. rewrite app_nil_r in K. apply take_meta_sound in K as (_ & _ & K). exact K. Qed.

(** * Repetitions *)
Lemma repeated_sound {A} (b : tree -> bool) (f : list tree -> option (A * list tree)) (P : A -> list tree -> Prop) :
  (forall ts x r, f ts = Some (x, r) -> exists u, ts = u ++ r /\ P x u) ->
  forall n ts l r, repeated b f n ts = Some (l, r) -> exists u, ts = u ++ r /\ sequence P l u.
Proof.
  intros Hf. induction n as [|n IH]; intros ts l r H.
  - exists []. destruct ts; cbn in H; injection H as <- <-; split; auto; constructor.
  - destruct ts as [|t ts]; cbn [repeated] in H; [injection H as <- <-; exists []; split; auto; constructor|].
    destruct (b t); [|injection H as <- <-; exists []; split; auto; constructor].
    destruct (f (t :: ts)) as [(x, r1)|] eqn:E; [|discriminate]. destruct (repeated b f n r1) as [(xs, r2)|] eqn:E2; [|discriminate]. injection H as <- <-.
    destruct (Hf _ _ _ E) as (u & Eu & Hu). destruct (IH _ _ _ E2) as (v & -> & Hv). exists (u ++ v). split; [rewrite <- app_assoc; exact Eu|].
    constructor; assumption.
Qed.
Lemma repeated_complete {A B} (b : tree -> bool) (f : list tree -> option (B * list tree)) (g : A -> list tree -> Prop) (R : A -> B -> Prop) (F : list tree -> Prop) :
  (forall a u r, g a u -> F r -> exists x, f (u ++ r) = Some (x, r) /\ R a x) ->
  (forall a u r, g a u -> F (u ++ r)) ->
  (forall a u, g a u -> exists t v, u = t :: v /\ b t = true) ->
  forall l u r, sequence g l u -> F r -> (match r with [] => True | t :: _ => b t = false end) ->
  forall n, (List.length u <= n)%nat -> exists xs, repeated b f n (u ++ r) = Some (xs, r) /\ Forall2 R l xs.
Proof.
  intros Hf HF Hb l u r H Hr Hs. induction H as [|a ts l ts' Ha Hl IH]; intros n Hn.
  - exists []. split; [|constructor]. cbn [app]. destruct n, r; cbn [repeated]; try reflexivity. rewrite Hs. reflexivity.
  - destruct (Hb a ts Ha) as (t & v & -> & Ht). rewrite app_length in Hn. cbn [List.length] in Hn. destruct n as [|n]; [lia|].
    destruct (IH n ltac:(lia)) as (xs & E & Hxs).
    assert (HFr : F (ts' ++ r)). { destruct Hl as [|a' ts1 l' ts2 Ha' _]; [exact Hr|]. rewrite <- app_assoc. apply (HF _ _ _ Ha'). }
    destruct (Hf a (t :: v) _ Ha HFr) as (x & Ex & Hx). exists (x :: xs). split; [|constructor; assumption].
    rewrite <- app_assoc. cbn [app repeated] in *. rewrite Ht, Ex, E. reflexivity.
Qed.

(** * Patterns *)
Lemma leaf_eqb_ok a b : leaf_eqb a b = true <-> a = b.
Proof.
  destruct a, b; cbn [leaf_eqb]; try (split; [discriminate|congruence]).
  - rewrite String.eqb_eq. split; congruence.
  - destruct (list_eq_dec Z.eq_dec w w0); split; congruence.
  - rewrite String.eqb_eq. split; congruence.
Qed.
Lemma tk_sound l ts x r : matches (Tk l) ts = Some (x, r) -> x = Skip /\ ts = Lf l :: r.
Proof.
  cbn [matches]. destruct ts as [|[l'|d g] ts]; try discriminate. destruct (leaf_eqb l l') eqn:E; [|discriminate]. apply leaf_eqb_ok in E. subst l'.
  intros H. injection H as <- <-. auto.
Qed.
Lemma tk_complete l r : matches (Tk l) (Lf l :: r) = Some (Skip, r).
Proof. cbn [matches]. rewrite (proj2 (leaf_eqb_ok l l) eq_refl). reflexivity. Qed.
Lemma ident_sound ts x r : matches (Var Ident) ts = Some (x, r) -> exists n, x = Got [name n] /\ n <> "_"%string /\ ts = name n :: r.
Proof.
  cbn [matches take]. destruct ts as [|[[n|w|s]|d g] ts]; try discriminate. destruct (String.eqb_spec n "_"); [discriminate|].
  intros H. injection H as <- <-. exists n. auto.
Qed.
Lemma ident_complete n r : n <> "_"%string -> matches (Var Ident) (name n :: r) = Some (Got [name n], r).
Proof. intros H. cbn [matches take name]. apply String.eqb_neq in H. rewrite H. reflexivity. Qed.
Lemma literal_sound ts x r : matches (Var Literal) ts = Some (x, r) -> exists u, x = Got u /\ literal u /\ ts = u ++ r.
Proof.
  cbn [matches take]. destruct (take_literal ts) as [(u, r')|] eqn:E; [|discriminate]. apply take_literal_sound in E as (Hu & ->).
  intros H. injection H as <- <-. exists u. auto.
Qed.
Lemma literal_complete u r : literal u -> matches (Var Literal) (u ++ r) = Some (Got u, r).
Proof. intros H. cbn [matches take]. rewrite (take_literal_complete u r H). reflexivity. Qed.
Lemma grp_sound d ps ts x r : matches (Grp d ps) ts = Some (x, r) -> exists g fs, ts = Gr d g :: r /\ x = Sub fs /\ in_order matches ps g = Some (fs, []).
Proof.
  cbn [matches]. destruct ts as [|[l|d' g] ts]; try discriminate. destruct (delim_eqb d d') eqn:E; [|discriminate].
  assert (d' = d) by (destruct d, d'; try discriminate; reflexivity). subst d'. destruct (in_order matches ps g) as [(fs, [|t r'])|] eqn:E2; try discriminate.
  intros H. injection H as <- <-. exists g, fs. auto.
Qed.
Lemma grp_complete d ps g fs r : in_order matches ps g = Some (fs, []) -> matches (Grp d ps) (Gr d g :: r) = Some (Sub fs, r).
Proof. intros H. cbn [matches]. replace (delim_eqb d d) with true by (destruct d; reflexivity). rewrite H. reflexivity. Qed.
Lemma rep_eq opt ps ts : matches (Rep opt ps) ts =
  match repeated (any_of begins is_rep ps) (in_order matches ps) (if opt then 1%nat else List.length ts) ts with Some (l, r) => Some (Reps l, r) | None => None end.
Proof. reflexivity. Qed.
(** The steps of a successful match *)
Ltac step H E := rewrite in_cons in H; match type of H with match ?m with _ => _ end = _ => destruct m as [(?x, ?r)|] eqn:E; [|discriminate H] end;
  let R := fresh in match type of H with match ?m with _ => _ end = _ => destruct m as [(?xs, ?r)|] eqn:R; [|discriminate H] end; injection H as ? ?; subst; rename R into H.
Ltac done H := rewrite in_nil in H; injection H as ? ?; subst.

(** * Attributes *)
Lemma metas_sound g l r : repeated (any_of begins is_rep [Var Meta]) (in_order matches [Var Meta]) (List.length g) g = Some (l, r) ->
  r = [] -> again l = g /\ exists ms, sequence (fun (_ : unit) => meta) ms g.
Proof.
  intros H ->. apply (repeated_sound _ _ (fun x u => meta u /\ flat_map got x = u)) in H.
  - destruct H as (u & -> & H). rewrite app_nil_r. induction H as [|x ts l ts' (Hm & Hg) H (IH & ms & Hms)]; [split; [reflexivity|exists []; constructor]|].
    split; [cbn; rewrite Hg; f_equal; exact IH|]. exists (tt :: ms). constructor; assumption.
  - intros ts x r' K. step K E. done K. cbn [matches take] in E. destruct (take_meta ts) as [(y, r2)|] eqn:E2; [|discriminate].
    injection E as <- <-. apply take_meta_sound in E2 as (Hm & -> & _). exists y. split; [reflexivity|]. split; [exact Hm|]. cbn. apply app_nil_r.
Qed.
Lemma metas_complete ms g : sequence (fun (_ : unit) => meta) ms g ->
  exists l, repeated (any_of begins is_rep [Var Meta]) (in_order matches [Var Meta]) (List.length g) g = Some (l, []).
Proof.
  intros H. destruct (repeated_complete (any_of begins is_rep [Var Meta]) (in_order matches [Var Meta]) (fun (_ : unit) => meta) (fun _ _ => True)
    (fun r => match r with [] => True | t :: _ => exists n, t = name n end)) with (l := ms) (u := g) (r := @nil tree) (n := List.length g) as (xs & E & _); auto.
  - intros a u r Hu Hr. rewrite in_cons. cbn [matches take]. rewrite (take_meta_complete u r Hu Hr). eexists. split; reflexivity || exact I.
  - intros a u r Hu. destruct (meta_name u Hu) as (n & v & ->). cbn. eauto.
  - intros a u Hu. destruct (meta_name u Hu) as (n & v & ->). exists (name n), v. auto.
  - rewrite app_nil_r in E. eauto.
Qed.
Lemma attributes_sound ts x r : matches attributes ts = Some (x, r) -> exists l u, x = Reps l /\ ts = u ++ r /\ attrs u /\ attributes_again l = u.
Proof.
  unfold attributes, many. rewrite rep_eq. match goal with |- match ?m with _ => _ end = _ -> _ => destruct m as [(l, r')|] eqn:E end; [|discriminate].
  intros H. injection H as <- <-. cbv iota in E.
  apply (repeated_sound _ _ (fun x u => attribute tt u /\ match x with [_; Sub [Reps ms]] => [Lf (LPunct "#"); Gr Bracket (again ms)] | _ => [] end = u)) in E.
  - destruct E as (u & -> & H). exists l, u. split; [reflexivity|]. split; [reflexivity|]. clear - H.
    induction H as [|x ts l ts' (Hm & Hg) H ((us & IH1) & IH2)]; [split; [exists []; constructor|reflexivity]|].
    split; [exists (tt :: us); constructor; assumption|]. cbn [attributes_again flat_map]. rewrite Hg. f_equal. exact IH2.
  - clear. intros ts x r H. step H E. step H E2. done H. apply tk_sound in E as (-> & ->). apply grp_sound in E2 as (g & fs & -> & -> & E).
    step E E2. done E. unfold many in E2. rewrite rep_eq in E2.
    match type of E2 with match ?m with _ => _ end = _ => destruct m as [(l, r')|] eqn:E3; [|discriminate] end. injection E2 as <- ->. cbv iota in E3.
    apply metas_sound in E3 as (E4 & ms & Hms); [|reflexivity]. exists [sign "#"; Gr Bracket g]. split; [reflexivity|]. split; [econstructor; exact Hms|]. rewrite E4. reflexivity.
Qed.
Definition not_hash (r : list tree) : Prop := match r with Lf (LPunct s) :: _ => s <> "#"%string | _ => True end.
Lemma attributes_complete u r : attrs u -> not_hash r -> exists l, matches attributes (u ++ r) = Some (Reps l, r).
Proof.
  intros (us & H) Hr. unfold attributes, many. rewrite rep_eq. cbv iota.
  destruct (repeated_complete (any_of begins is_rep [pu "#"; Grp Bracket [Rep false [Var Meta]]]) (in_order matches [pu "#"; Grp Bracket [Rep false [Var Meta]]]) attribute (fun _ _ => True)
    (fun _ => True)) with (l := us) (u := u) (r := r) (n := List.length (u ++ r)) as (xs & E & _); auto.
  - intros a v r' Hv _. destruct Hv as [ms g Hg]. destruct (metas_complete ms g Hg) as (l & E). cbn [app]. rewrite in_cons. unfold sign, pu. rewrite tk_complete.
    rewrite in_cons. rewrite (grp_complete _ _ g [Reps l]); [eexists; split; [reflexivity|exact I]|]. rewrite in_cons, rep_eq. cbv iota. rewrite E. reflexivity.
  - intros a v Hv. destruct Hv. eexists. eexists. split; reflexivity.
  - destruct r as [|[[n|w|s]|d g] r]; try exact I; try reflexivity. cbn in Hr. cbn [any_of begins pu leaf_eqb is_rep andb]. rewrite orb_false_r.
    destruct (String.eqb_spec "#" s); [congruence|reflexivity].
  - rewrite app_length. lia.
  - rewrite E. eauto.
Qed.

(** * Numbers *)
Definition dval (c : Z) : Z := if c <=? 57 then c - 48 else if c <=? 70 then c - 55 else c - 87.
Lemma digits_snoc b w : forall acc c, digits_value b acc (w ++ [c]) = if c =? 95 then digits_value b acc w else b * digits_value b acc w + dval c.
Proof. induction w as [|x w IH]; intros acc c; cbn [app digits_value]; [reflexivity|]. destruct (x =? 95); apply IH. Qed.
Definition in_base (b c : Z) : Prop := c = 95 \/ exists d, 0 <= d < b /\ (0 <= d <= 9 /\ c = 48 + d \/ 10 <= d /\ (c = 55 + d \/ c = 87 + d)).
Lemma numeral_ok b w z : b <= 16 -> numeral b w z <-> Forall (in_base b) w /\ z = digits_value b 0 w.
Proof.
  intros Hb. split.
  - induction 1 as [|w z H (IH1 & ->)|w z c d H (IH1 & ->) Hd Hc].
    + split; [constructor|reflexivity].
    + rewrite digits_snoc. split; [|reflexivity]. apply Forall_app. split; [exact IH1|]. constructor; [left; reflexivity|constructor].
    + rewrite digits_snoc. split; [apply Forall_app; split; [exact IH1|constructor; [right; eauto|constructor]]|].
      replace (c =? 95) with false by lia. f_equal. unfold dval. destruct (c <=? 57) eqn:E1; [lia|]. destruct (c <=? 70) eqn:E2; lia.
  - intros [H ->]. induction w as [|c w IH] using rev_ind; [constructor|]. apply Forall_app in H as [H1 H2]. inversion H2 as [|x l Hc _]; subst. specialize (IH H1). rewrite digits_snoc.
    destruct Hc as [->|(d & Hd & Hc)]; [apply Num_skip; exact IH|].
    replace (c =? 95) with false by lia. replace (dval c) with d; [exact (Num_digit b w _ c d IH Hd Hc)|]. unfold dval. destruct (c <=? 57) eqn:E1; [lia|]. destruct (c <=? 70) eqn:E2; lia.
Qed.
Lemma dec_base c : is_digit c || (c =? 95) = true <-> in_base 10 c.
Proof.
  unfold in_base, is_digit. split.
  - intros H. destruct (Z.eq_dec c 95) as [->|N]; [left; reflexivity|]. right. exists (c - 48). lia.
  - intros [->|(d & Hd & Hc)]; [reflexivity|]. lia.
Qed.
Lemma hex_base c : is_hex c || (c =? 95) = true <-> in_base 16 c.
Proof.
  unfold in_base, is_hex, is_digit. split.
  - intros H. destruct (Z.eq_dec c 95) as [->|N]; [left; reflexivity|]. right.
    destruct (c <=? 57) eqn:E1; [exists (c - 48); lia|]. destruct (c <=? 70) eqn:E2; [exists (c - 55); lia|exists (c - 87); lia].
  - intros [->|(d & Hd & Hc)]; [reflexivity|]. lia.
Qed.
Lemma forallb_base (p : Z -> bool) b w : (forall c, p c = true <-> in_base b c) -> forallb p w = true <-> Forall (in_base b) w.
Proof. intros H. rewrite forallb_forall, Forall_forall. split; intros K x Hx; apply H; apply K; exact Hx. Qed.
Lemma int_eq w : int_value w =
  match w with
  | c :: w' =>
      match w' with
      | d :: h =>
          if (c =? 48) && (d =? 120) then (if forallb (fun c => is_hex c || (c =? 95)) h then Some (digits_value 16 0 h) else None)
          else if is_digit c && forallb (fun c => is_digit c || (c =? 95)) w then Some (digits_value 10 0 w) else None
      | [] => if is_digit c && forallb (fun c => is_digit c || (c =? 95)) w then Some (digits_value 10 0 w) else None
      end
  | [] => None
  end.
Proof.
  destruct w as [|c w]; [reflexivity|]. destruct (Z.eqb_spec c 48) as [->|N].
  - destruct w as [|d w]; [reflexivity|]. destruct (Z.eqb_spec d 120) as [->|N2]; [reflexivity|]. cbn [andb].
    unfold int_value. destruct d as [|p|p]; try reflexivity; do 7 (try (destruct p as [p|p|]; try reflexivity)); exfalso; auto.
  - cbn [andb]. unfold int_value. destruct c as [|p|p]; [destruct w; reflexivity| |destruct w; reflexivity].
    do 6 (try (destruct p as [p|p|]; try (destruct w; reflexivity))); exfalso; auto.
Qed.
Lemma int_value_ok w z : int_value w = Some z <-> natural w z.
Proof.
  rewrite int_eq. split.
  - assert (D : forall c w, (if is_digit c && forallb (fun c => is_digit c || (c =? 95)) (c :: w) then Some (digits_value 10 0 (c :: w)) else None) = Some z -> natural (c :: w) z).
    { intros c v. destruct (is_digit c) eqn:E; [|discriminate]. cbn [andb]. destruct (forallb _ (c :: v)) eqn:E2; [|discriminate]. intros H. injection H as <-.
      apply Nat_decimal; [unfold is_digit in E; unfold decimal; lia|]. apply numeral_ok; [lia|]. split; [|reflexivity]. apply (forallb_base _ 10 _ dec_base). exact E2. }
    destruct w as [|c [|d w]]; [discriminate|apply D|]. destruct ((c =? 48) && (d =? 120)) eqn:E; [|apply D].
    apply andb_true_iff in E as [E1 E2]. apply Z.eqb_eq in E1, E2. subst. destruct (forallb _ w) eqn:E; [|discriminate]. intros H. injection H as <-.
    apply (Nat_hexadecimal w). apply numeral_ok; [lia|]. split; [|reflexivity]. apply (forallb_base _ 16 _ hex_base). exact E.
  - intros [c v k Hc H|v k H]; apply numeral_ok in H as (H & ->); try lia.
    + assert (E : is_digit c && forallb (fun c => is_digit c || (c =? 95)) (c :: v) = true).
      { rewrite (proj2 (forallb_base _ 10 _ dec_base) H). unfold is_digit. unfold decimal in Hc. lia. }
      rewrite E. destruct v as [|d v]; [reflexivity|]. replace ((c =? 48) && (d =? 120)) with false; [reflexivity|].
      symmetry. apply andb_false_iff. right. apply Z.eqb_neq. intros ->. inversion H as [|? ? _ H2]; subst. inversion H2 as [|? ? H3 _]; subst.
      destruct H3 as [H3|(d & Hd & H3)]; lia.
    + change (text "0x" ++ v) with (48 :: 120 :: v). cbn [Z.eqb Pos.eqb andb]. rewrite (proj2 (forallb_base _ 16 _ hex_base) H). reflexivity.
Qed.
Lemma literal_int_ok n u z : literal u -> literal_int n u = Some z <-> integer z u /\ fits_bits n z.
Proof.
  intros Hu. unfold literal_int, fits_bits.
  assert (R : forall k, (if (- 2 ^ (n - 1) <=? k) && (k <? 2 ^ (n - 1)) then Some k else None) = Some z <-> k = z /\ - 2 ^ (n - 1) <= z < 2 ^ (n - 1)).
  { intros k. destruct ((- 2 ^ (n - 1) <=? k) && (k <? 2 ^ (n - 1))) eqn:E.
    - split; [intros H; injection H as <-; lia|intros [-> _]; reflexivity].
    - split; [discriminate|]. intros [-> H]. lia. }
  destruct Hu as [w|w|m Hm]; unfold lit, sign, name.
  - split.
    + destruct (int_value w) as [k|] eqn:E; [|discriminate]. intros H. apply R in H as (<- & H). split; [|exact H]. apply In_plus. apply int_value_ok. exact E.
    + intros [H F]. inversion H as [w' z' Hn|]; subst. apply int_value_ok in Hn. rewrite Hn. apply R. auto.
  - split.
    + destruct (int_value w) as [k|] eqn:E; [|discriminate]. intros H. apply R in H as (<- & H). split; [|exact H]. apply In_minus. apply int_value_ok. exact E.
    + intros [H F]. inversion H as [|w' z' Hn]; subst. apply int_value_ok in Hn. rewrite Hn. apply R. auto.
  - split; [discriminate|]. intros [H _]. inversion H.
Qed.
Lemma integer_literal z u : integer z u -> literal u.
Proof. intros []; constructor. Qed.

(** * Optional parts *)
Lemma opt_sound ps ts x r : matches (maybe ps) ts = Some (x, r) ->
  (x = Reps [] /\ r = ts) \/ exists fs, x = Reps [fs] /\ in_order matches ps ts = Some (fs, r).
Proof.
  unfold maybe. rewrite rep_eq. cbv iota. destruct ts as [|t ts]; cbn [repeated]; [intros H; injection H as <- <-; auto|].
  destruct (any_of begins is_rep ps t); [|intros H; injection H as <- <-; auto].
  destruct (in_order matches ps (t :: ts)) as [(fs, r1)|]; [|discriminate]. intros H. right. exists fs. destruct r1; injection H as <- <-; auto.
Qed.
Lemma opt_none ps ts : (match ts with [] => True | t :: _ => any_of begins is_rep ps t = false end) -> matches (maybe ps) ts = Some (Reps [], ts).
Proof. intros H. unfold maybe. rewrite rep_eq. destruct ts as [|t ts]; cbn [repeated]; [reflexivity|]. rewrite H. reflexivity. Qed.
Lemma opt_some ps t ts fs r : any_of begins is_rep ps t = true -> in_order matches ps (t :: ts) = Some (fs, r) -> matches (maybe ps) (t :: ts) = Some (Reps [fs], r).
Proof. intros H E. unfold maybe. rewrite rep_eq. cbn [repeated]. rewrite H, E. destruct r; reflexivity. Qed.

Definition p_elem : pat := maybe [pu "<"; Var Ident; pu ">"].
Definition p_default : pat := maybe [pu "="; Var Literal].
Definition p_semi : pat := maybe [pu ";"].
Lemma elem_sound ts x r : matches p_elem ts = Some (x, r) -> exists l u, x = Reps l /\ ts = u ++ r /\ element (elem_of l) u.
Proof.
  intros H. apply opt_sound in H as [(-> & ->)|(fs & -> & H)]; [exists [], []; repeat constructor|]. step H E1. step H E2. step H E3. done H.
  apply tk_sound in E1 as (-> & ->). apply ident_sound in E2 as (n & -> & Hn & ->). apply tk_sound in E3 as (-> & ->).
  eexists. exists [sign "<"; name n; sign ">"]. split; [reflexivity|]. split; [reflexivity|]. constructor. exact Hn.
Qed.
Lemma elem_complete e u n r : element e u -> exists l, matches p_elem (u ++ name n :: r) = Some (Reps l, name n :: r) /\ elem_of l = e.
Proof.
  intros [|m Hm]; [exists []; split; [apply opt_none; reflexivity|reflexivity]|]. eexists. split.
  - cbn [app]. apply opt_some; [reflexivity|]. rewrite in_cons. unfold pu, sign. rewrite tk_complete, in_cons, (ident_complete m _ Hm), in_cons, tk_complete. reflexivity.
  - reflexivity.
Qed.
Lemma append_nil_r s : (s ++ "")%string = s.
Proof. induction s; cbn; congruence. Qed.
Lemma literal_written v : literal v -> String.concat "" (map written v) = literal_text v.
Proof. intros [w|w|n Hn]; cbn; rewrite append_nil_r; reflexivity. Qed.
Lemma default_sound ts x r : matches p_default ts = Some (x, r) -> exists l u, x = Reps l /\ ts = u ++ r /\ default_value (default_of l) u.
Proof.
  intros H. apply opt_sound in H as [(-> & ->)|(fs & -> & H)]; [exists [], []; repeat constructor|]. step H E1. step H E2. done H.
  apply tk_sound in E1 as (-> & ->). apply literal_sound in E2 as (v & -> & Hv & ->).
  eexists. exists (sign "=" :: v). split; [reflexivity|]. split; [reflexivity|]. cbn [default_of].
  replace (literal_text v) with (String.concat "" (map written v)); [constructor; exact Hv|]. apply literal_written. exact Hv.
Qed.
Definition field_follow (r : list tree) : Prop := match r with [] => True | t :: _ => t = sign "#" \/ may_start Literal t = true end.
Lemma follow_not s r : field_follow r -> s <> "#"%string -> s <> "-"%string -> match r with [] => True | t :: _ => begins (pu s) t = false end.
Proof.
  destruct r as [|t r]; [trivial|]. cbn. intros [->|H] N1 N2; [apply String.eqb_neq; exact N1|].
  destruct t as [[n|w|u]|d g]; try reflexivity. cbn in *. apply String.eqb_eq in H. subst u. apply String.eqb_neq. exact N2.
Qed.
Lemma semi_sound ts x r : matches p_semi ts = Some (x, r) -> exists l u, x = Reps l /\ ts = u ++ r /\ semicolon u.
Proof.
  intros H. apply opt_sound in H as [(-> & ->)|(fs & -> & H)]; [exists [], []; repeat constructor|]. step H E1. done H.
  apply tk_sound in E1 as (-> & ->). eexists. exists [sign ";"]. repeat constructor.
Qed.
Lemma semi_complete u r : semicolon u -> field_follow r -> exists l, matches p_semi (u ++ r) = Some (Reps l, r).
Proof.
  intros [|] Hr.
  - exists []. apply opt_none. cbn [app]. pose proof (follow_not ";" r Hr ltac:(discriminate) ltac:(discriminate)) as K. destruct r as [|t r]; [trivial|].
    change (any_of begins is_rep [pu ";"] t) with (begins (pu ";") t || false). rewrite K. reflexivity.
  - eexists. cbn [app]. apply opt_some; [reflexivity|]. rewrite in_cons. unfold pu, sign. rewrite tk_complete. reflexivity.
Qed.
Lemma default_complete d u s r : default_value d u -> semicolon s -> field_follow r ->
  exists l, matches p_default (u ++ s ++ r) = Some (Reps l, s ++ r) /\ default_of l = d.
Proof.
  intros [|v Hv] Hs Hr.
  - exists []. split; [|reflexivity]. apply opt_none. cbn [app]. destruct Hs; cbn [app]; [|reflexivity].
    pose proof (follow_not "=" r Hr ltac:(discriminate) ltac:(discriminate)) as K. destruct r as [|t r]; [trivial|]. 
    change (any_of begins is_rep [pu "="; Var Literal] t) with (begins (pu "=") t || false). rewrite K. reflexivity.
  - eexists. split; [cbn [app]; apply opt_some; [reflexivity|]; rewrite in_cons; unfold pu, sign; rewrite tk_complete, in_cons, (literal_complete v _ Hv); reflexivity|].
    cbn [default_of]. f_equal. symmetry. apply literal_written. exact Hv.
Qed.

(** * Names *)
Lemma reserved_ok n : existsb (String.eqb n) reserved = true <-> In n keywords.
Proof.
  assert (S : In n reserved <-> In n keywords).
  { assert (K : forall l l', forallb (fun x => existsb (String.eqb x) l') l = true -> In n l -> In n l').
    { clear. intros l l' H K. rewrite forallb_forall in H. specialize (H n K). apply existsb_exists in H as (x & Hx & E). apply String.eqb_eq in E. subst x. exact Hx. }
    split; apply K; vm_compute; reflexivity. }
  rewrite <- S, existsb_exists. split.
  - intros (x & Hx & E). apply String.eqb_eq in E. subst. exact Hx.
  - intros H. exists n. split; [exact H|apply String.eqb_refl].
Qed.
Lemma new_name_ok n m : new_name (Got [name n]) = Some m <-> m = n /\ ~ In n keywords.
Proof.
  cbn [new_name name_of name]. destruct (existsb (String.eqb n) reserved) eqn:E.
  - apply reserved_ok in E. split; [discriminate|intros [_ H]; contradiction].
  - split; [intros H; injection H as <-; split; [reflexivity|intros K; apply reserved_ok in K; congruence]|intros [-> _]; reflexivity].
Qed.
Lemma requirement_ok n b : requirement (Got [name n]) = Some b <-> n = demand b.
Proof.
  cbn [requirement name_of name]. unfold is. destruct (String.eqb_spec n "required") as [->|N1].
  - destruct b; split; cbn; congruence.
  - destruct (String.eqb_spec n "optional") as [->|N2]; [destruct b; split; cbn; congruence|]. destruct b; split; cbn; congruence.
Qed.
Lemma demand_name b : demand b <> "_"%string.
Proof. destruct b; discriminate. Qed.

(** * Fields *)
Lemma integer_start z u : integer z u -> exists t v, u = t :: v /\ may_start Literal t = true /\ not_hash u.
Proof. intros [w k H|w k H]; eexists; eexists; split; try reflexivity; split; try reflexivity; cbn; trivial; discriminate. Qed.
Lemma not_hash_app u r t v : u = t :: v -> not_hash u -> not_hash (u ++ r).
Proof. intros ->. exact (fun H => H). Qed.
Lemma attrs_start a : attrs a -> a = [] \/ exists v, a = sign "#" :: v.
Proof. intros (l & H). destruct H as [|x ts l ts' Hx _]; [left; reflexivity|right]. destruct Hx. eexists. reflexivity. Qed.

Lemma field_sound ts fs r : in_order matches p_field ts = Some (fs, r) -> exists u, ts = u ++ r /\ forall f, field_of fs = Some f -> struct_field f u.
Proof.
  intros H. unfold p_field in H. step H E1. step H E2. step H E3. step H E4. step H E5. step H E6. step H E7. step H E8. step H E9. done H.
  apply attributes_sound in E1 as (l & a & -> & -> & Ha & _). apply literal_sound in E2 as (i & -> & Hi & ->). apply tk_sound in E3 as (-> & ->).
  apply ident_sound in E4 as (q & -> & Hq & ->). apply ident_sound in E5 as (t & -> & Ht & ->). apply elem_sound in E6 as (el & es & -> & -> & He).
  apply ident_sound in E7 as (n & -> & Hn & ->). apply default_sound in E8 as (dl & ds & -> & -> & Hd). apply semi_sound in E9 as (sl & s & -> & -> & Hs).
  exists (a ++ i ++ [sign ":"; name q; name t] ++ es ++ [name n] ++ ds ++ s). split; [rewrite <- ?app_assoc; cbn [app]; rewrite <- ?app_assoc; reflexivity|]. intros f Hf.
  cbn [field_of] in Hf. destruct (literal_int 16 i) as [z|] eqn:Ez; [|discriminate]. destruct (requirement (Got [name q])) as [b|] eqn:Eb; [|discriminate].
  change (name_of (Got [name t])) with (Some t) in Hf. cbv iota in Hf. destruct (new_name (Got [name n])) as [m|] eqn:Em; [|discriminate]. injection Hf as <-.
  apply literal_int_ok in Ez as (Hz & Hz2); [|exact Hi]. apply requirement_ok in Eb. subst q. apply new_name_ok in Em as (-> & Hk).
  constructor; try assumption. split; assumption.
Qed.
Lemma field_complete f u r : struct_field f u -> field_follow r -> exists fs, in_order matches p_field (u ++ r) = Some (fs, r) /\ field_of fs = Some f.
Proof.
  intros H Hr. destruct H as [a z i b t e es n d ds s Ha Hi Hz Ht He (Hn & Hk) Hd Hs]. rewrite <- ?app_assoc. cbn [app]. rewrite <- ?app_assoc. cbn [app].
  destruct (integer_start z i Hi) as (t0 & v0 & E0 & _ & Hh).
  destruct (attributes_complete a (i ++ sign ":" :: name (demand b) :: name t :: es ++ name n :: ds ++ s ++ r) Ha (not_hash_app _ _ _ _ E0 Hh)) as (l & E1).
  destruct (elem_complete e es n (ds ++ s ++ r) He) as (el & E6 & Ee). destruct (default_complete d ds s r Hd Hs Hr) as (dl & E8 & Ed).
  destruct (semi_complete s r Hs Hr) as (sl & E9). pose proof (integer_literal z i Hi) as Hl.
  exists [Reps l; Got i; Skip; Got [name (demand b)]; Got [name t]; Reps el; Got [name n]; Reps dl; Reps sl]. split.
  - unfold p_field. rewrite in_cons, E1, in_cons, (literal_complete i _ Hl), in_cons. unfold pu at 1, sign at 1. rewrite tk_complete, in_cons, (ident_complete _ _ (demand_name b)), in_cons, (ident_complete t _ Ht).
    rewrite in_cons. fold p_elem. rewrite E6, in_cons, (ident_complete n _ Hn), in_cons. fold p_default. rewrite E8, in_cons. fold p_semi. rewrite E9. reflexivity.
  - cbn [field_of]. rewrite (proj2 (literal_int_ok 16 i z Hl) (conj Hi Hz)), (proj2 (requirement_ok _ b) eq_refl).
    change (name_of (Got [name t])) with (Some t). cbv iota. rewrite (proj2 (new_name_ok n n) (conj eq_refl Hk)), Ee, Ed. reflexivity.
Qed.
Lemma variant_sound ts fs r : in_order matches p_variant ts = Some (fs, r) -> exists u, ts = u ++ r /\ forall f, variant_of fs = Some f -> union_field f u.
Proof.
  intros H. unfold p_variant in H. step H E1. step H E2. step H E3. step H E5. step H E6. step H E7. step H E9. done H.
  apply attributes_sound in E1 as (l & a & -> & -> & Ha & _). apply literal_sound in E2 as (i & -> & Hi & ->). apply tk_sound in E3 as (-> & ->).
  apply ident_sound in E5 as (t & -> & Ht & ->). apply elem_sound in E6 as (el & es & -> & -> & He).
  apply ident_sound in E7 as (n & -> & Hn & ->). apply semi_sound in E9 as (sl & s & -> & -> & Hs).
  exists (a ++ i ++ [sign ":"; name t] ++ es ++ [name n] ++ s). split; [rewrite <- ?app_assoc; cbn [app]; rewrite <- ?app_assoc; reflexivity|]. intros f Hf.
  cbn [variant_of] in Hf. destruct (literal_int 16 i) as [z|] eqn:Ez; [|discriminate].
  change (name_of (Got [name t])) with (Some t) in Hf. cbv iota in Hf. destruct (new_name (Got [name n])) as [m|] eqn:Em; [|discriminate]. injection Hf as <-.
  apply literal_int_ok in Ez as (Hz & Hz2); [|exact Hi]. apply new_name_ok in Em as (-> & Hk).
  constructor; try assumption. split; assumption.
Qed.
Lemma variant_complete f u r : union_field f u -> field_follow r -> exists fs, in_order matches p_variant (u ++ r) = Some (fs, r) /\ variant_of fs = Some f.
Proof.
  intros H Hr. destruct H as [a z i t e es n s Ha Hi Hz Ht He (Hn & Hk) Hs]. rewrite <- ?app_assoc. cbn [app]. rewrite <- ?app_assoc. cbn [app].
  destruct (integer_start z i Hi) as (t0 & v0 & E0 & _ & Hh).
  destruct (attributes_complete a (i ++ sign ":" :: name t :: es ++ name n :: s ++ r) Ha (not_hash_app _ _ _ _ E0 Hh)) as (l & E1).
  destruct (elem_complete e es n (s ++ r) He) as (el & E6 & Ee).
  destruct (semi_complete s r Hs Hr) as (sl & E9). pose proof (integer_literal z i Hi) as Hl.
  exists [Reps l; Got i; Skip; Got [name t]; Reps el; Got [name n]; Reps sl]. split.
  - unfold p_variant. rewrite in_cons, E1, in_cons, (literal_complete i _ Hl), in_cons. unfold pu at 1, sign at 1. rewrite tk_complete, in_cons, (ident_complete t _ Ht).
    rewrite in_cons. fold p_elem. rewrite E6, in_cons, (ident_complete n _ Hn), in_cons. fold p_semi. rewrite E9. reflexivity.
  - cbn [variant_of]. rewrite (proj2 (literal_int_ok 16 i z Hl) (conj Hi Hz)).
    change (name_of (Got [name t])) with (Some t). cbv iota. rewrite (proj2 (new_name_ok n n) (conj eq_refl Hk)), Ee. reflexivity.
Qed.
Lemma constant_sound ts fs r : in_order matches p_constant ts = Some (fs, r) -> exists u, ts = u ++ r /\ forall f, constant_of fs = Some f -> constant f u.
Proof.
  intros H. unfold p_constant in H. step H E1. step H E2. step H E3. step H E4. step H E5. done H.
  apply attributes_sound in E1 as (l & a & -> & -> & Ha & _). apply ident_sound in E2 as (n & -> & Hn & ->). apply tk_sound in E3 as (-> & ->).
  apply literal_sound in E4 as (i & -> & Hi & ->). apply tk_sound in E5 as (-> & ->).
  exists (a ++ [name n; sign "="] ++ i ++ [sign ";"]). split; [rewrite <- ?app_assoc; cbn [app]; rewrite <- ?app_assoc; reflexivity|]. intros f Hf.
  cbn [constant_of] in Hf. destruct (new_name (Got [name n])) as [m|] eqn:Em; [|discriminate]. destruct (literal_int 32 i) as [z|] eqn:Ez; [|discriminate]. injection Hf as <-.
  apply literal_int_ok in Ez as (Hz & Hz2); [|exact Hi]. apply new_name_ok in Em as (-> & Hk).
  constructor; try assumption. split; assumption.
Qed.
Lemma constant_complete f u r : constant f u -> exists fs, in_order matches p_constant (u ++ r) = Some (fs, r) /\ constant_of fs = Some f.
Proof.
  intros H. destruct H as [a n z i Ha (Hn & Hk) Hi Hz]. rewrite <- ?app_assoc. cbn [app]. rewrite <- ?app_assoc. cbn [app].
  destruct (attributes_complete a (name n :: sign "=" :: i ++ sign ";" :: r) Ha I) as (l & E1). pose proof (integer_literal z i Hi) as Hl.
  exists [Reps l; Got [name n]; Skip; Got i; Skip]. split.
  - unfold p_constant. rewrite in_cons, E1, in_cons, (ident_complete n _ Hn), in_cons. unfold pu at 1, sign at 1. rewrite tk_complete, in_cons, (literal_complete i _ Hl), in_cons.
    unfold pu, sign. rewrite tk_complete. reflexivity.
  - cbn [constant_of]. rewrite (proj2 (literal_int_ok 32 i z Hl) (conj Hi Hz)), (proj2 (new_name_ok n n) (conj eq_refl Hk)). reflexivity.
Qed.

(** * Declarations *)
Lemma all_of_sound {A B} (f : A -> option B) (P : A -> list tree -> Prop) (g : B -> list tree -> Prop) :
  (forall x u b, P x u -> f x = Some b -> g b u) -> forall l u bs, sequence P l u -> all_of f l = Some bs -> sequence g bs u.
Proof.
  intros H l u bs Hl. revert bs. induction Hl as [|x ts l ts' Hx Hl IH]; intros bs E; cbn [all_of] in E; [injection E as <-; constructor|].
  destruct (f x) as [b|] eqn:Eb; [|discriminate]. destruct (all_of f l) as [bs'|]; [|discriminate]. injection E as <-. constructor; [exact (H _ _ _ Hx Eb)|apply IH; reflexivity].
Qed.
Lemma all_of_complete {A B} (f : A -> option B) l xs : Forall2 (fun b x => f x = Some b) l xs -> all_of f xs = Some l.
Proof. induction 1 as [|b x l xs H _ IH]; cbn [all_of]; [reflexivity|]. rewrite H, IH. reflexivity. Qed.


Lemma sequence_mono {A} (g h : A -> list tree -> Prop) : (forall a u, g a u -> h a u) -> forall l u, sequence g l u -> sequence h l u.
Proof. intros H l u. induction 1; constructor; auto. Qed.
Definition single (word : string) (item : list pat) : list pat := [attributes; kw word; Var Ident; Grp Brace [many item]].
Lemma single_sound {A} word item (f : list found -> option A) (g : A -> list tree -> Prop) :
  (forall ts fs r, in_order matches item ts = Some (fs, r) -> exists u, ts = u ++ r /\ forall a, f fs = Some a -> g a u) ->
  forall ts l, declaration (single word item) f ts = Some l ->
  exists a n body, attrs a /\ n <> "_"%string /\ ts = a ++ [name word; name n; Gr Brace body] /\ sequence g l body.
Proof.
  intros Hf ts l. unfold declaration, match_all. destruct (in_order matches (single word item) ts) as [(fs, [|t r])|] eqn:H; try discriminate.
  unfold single in H. step H E1. step H E2. step H E3. step H E4. done H.
  apply attributes_sound in E1 as (al & a & -> & -> & Ha & _). apply tk_sound in E2 as (-> & ->). apply ident_sound in E3 as (n & -> & Hn & ->).
  apply grp_sound in E4 as (body & fs & -> & -> & E). step E E1. done E. unfold many in E1. rewrite rep_eq in E1. cbv iota in E1.
  destruct (repeated (any_of begins is_rep item) (in_order matches item) (List.length body) body) as [(xs, r)|] eqn:E2; [|discriminate]. injection E1 as <- ->. intros El.
  exists a, n, body. split; [exact Ha|]. split; [exact Hn|]. split; [reflexivity|].
  apply (repeated_sound _ _ (fun x u => forall b, f x = Some b -> g b u)) in E2; [|exact Hf].
  destruct E2 as (u & -> & H). rewrite app_nil_r. apply (all_of_sound f _ g) with (2 := H) (3 := El). intros x v b Hx Hb. exact (Hx b Hb).
Qed.
Lemma single_complete {A} word item (f : list found -> option A) (g : A -> list tree -> Prop) (F : list tree -> Prop) :
  F [] -> (forall a u r, g a u -> F r -> exists fs, in_order matches item (u ++ r) = Some (fs, r) /\ f fs = Some a) ->
  (forall a u r, g a u -> F (u ++ r)) -> (forall a u, g a u -> exists t v, u = t :: v /\ any_of begins is_rep item t = true) ->
  forall a n body l, attrs a -> n <> "_"%string -> sequence g l body -> declaration (single word item) f (a ++ [name word; name n; Gr Brace body]) = Some l.
Proof.
  intros F0 Hf HF Hb a n body l Ha Hn Hl. unfold declaration, match_all, single.
  destruct (attributes_complete a [name word; name n; Gr Brace body] Ha I) as (al & E1).
  destruct (repeated_complete _ _ g (fun b x => f x = Some b) F Hf HF Hb l body [] Hl F0 I (List.length body) (Nat.le_refl _)) as (xs & E2 & Hx). rewrite app_nil_r in E2.
  rewrite in_cons, E1, in_cons. unfold kw, name at 1. rewrite tk_complete, in_cons, (ident_complete n _ Hn), in_cons.
  rewrite (grp_complete Brace [many item] body [Reps xs] []).
  - cbn [in_order]. apply all_of_complete. exact Hx.
  - rewrite in_cons. unfold many. rewrite rep_eq. cbv iota. rewrite E2. reflexivity.
Qed.
Lemma start_ok u r a : attrs a -> (exists t v, u = t :: v /\ may_start Literal t = true) -> exists t v, a ++ u ++ r = t :: v /\ (t = sign "#" \/ may_start Literal t = true).
Proof.
  intros Ha (t & v & -> & Ht). destruct (attrs_start a Ha) as [->|(w & ->)]; cbn [app]; eexists; eexists; split; try reflexivity; [right; exact Ht|left; reflexivity].
Qed.
Lemma integer_begin z i : integer z i -> exists t v, i = t :: v /\ may_start Literal t = true.
Proof. intros H. destruct (integer_start z i H) as (t & v & E & K & _). exists t, v. auto. Qed.
Lemma field_start f u : struct_field f u -> exists t v, u = t :: v /\ (t = sign "#" \/ may_start Literal t = true).
Proof. intros [a z i b t e es n d ds s Ha Hi _ _ _ _ _ _]. exact (start_ok i _ a Ha (integer_begin z i Hi)). Qed.
Lemma variant_start f u : union_field f u -> exists t v, u = t :: v /\ (t = sign "#" \/ may_start Literal t = true).
Proof. intros [a z i t e es n s Ha Hi _ _ _ _ _]. exact (start_ok i _ a Ha (integer_begin z i Hi)). Qed.
Lemma constant_start f u : constant f u -> exists t v, u = t :: v /\ any_of begins is_rep p_constant t = true.
Proof.
  intros [a n z i Ha (Hn & _) _ _]. destruct (attrs_start a Ha) as [->|(w & ->)]; cbn [app]; eexists; eexists; split; try reflexivity.
  cbn. destruct (String.eqb_spec n "_"); [congruence|reflexivity].
Qed.
Lemma field_begins t : t = sign "#" \/ may_start Literal t = true -> any_of begins is_rep p_field t = true.
Proof. intros [->|H]; [reflexivity|]. unfold p_field. cbn [any_of]. change (begins (Var Literal) t) with (may_start Literal t). rewrite H. cbn [orb is_rep attributes many andb]. apply orb_true_r. Qed.
Lemma variant_begins t : t = sign "#" \/ may_start Literal t = true -> any_of begins is_rep p_variant t = true.
Proof. exact (field_begins t). Qed.

Lemma thrift_struct_ok ts d : thrift_struct ts = Some d <->
  exists a n body fs, attrs a /\ n <> "_"%string /\ ts = a ++ [name "struct"; name n; Gr Brace body] /\ sequence struct_field fs body /\ d = MStruct fs.
Proof.
  unfold thrift_struct. split.
  - destruct (declaration p_thrift_struct field_of ts) as [l|] eqn:E; [|discriminate]. intros H. injection H as <-.
    destruct (single_sound "struct" p_field field_of struct_field field_sound _ _ E) as (a & n & body & Ha & Hn & Et & Hl). exists a, n, body, l. auto 6.
  - intros (a & n & body & l & Ha & Hn & -> & Hl & ->).
    rewrite (single_complete "struct" p_field field_of struct_field field_follow I field_complete) with (l := l); try assumption; [reflexivity| |].
    + intros f u r H. destruct (field_start f u H) as (t & v & -> & K). exact K.
    + intros f u H. destruct (field_start f u H) as (t & v & -> & K). exists t, v. split; [reflexivity|apply field_begins; exact K].
Qed.
Lemma thrift_union_ok ts d : thrift_union ts = Some d <->
  exists a n body fs, attrs a /\ n <> "_"%string /\ ts = a ++ [name "union"; name n; Gr Brace body] /\ sequence union_field fs body /\ d = MUnion fs.
Proof.
  unfold thrift_union. split.
  - destruct (declaration p_thrift_union variant_of ts) as [l|] eqn:E; [|discriminate]. intros H. injection H as <-.
    destruct (single_sound "union" p_variant variant_of union_field variant_sound _ _ E) as (a & n & body & Ha & Hn & Et & Hl). exists a, n, body, l. auto 6.
  - intros (a & n & body & l & Ha & Hn & -> & Hl & ->).
    rewrite (single_complete "union" p_variant variant_of union_field field_follow I variant_complete) with (l := l); try assumption; [reflexivity| |].
    + intros f u r H. destruct (variant_start f u H) as (t & v & -> & K). exact K.
    + intros f u H. destruct (variant_start f u H) as (t & v & -> & K). exists t, v. split; [reflexivity|apply variant_begins; exact K].
Qed.
Lemma thrift_enum_ok ts d : thrift_enum ts = Some d <->
  exists a n body cs, attrs a /\ n <> "_"%string /\ ts = a ++ [name "enum"; name n; Gr Brace body] /\ sequence constant cs body /\ d = MEnum cs.
Proof.
  unfold thrift_enum. split.
  - destruct (declaration p_thrift_enum constant_of ts) as [l|] eqn:E; [|discriminate]. intros H. injection H as <-.
    destruct (single_sound "enum" p_constant constant_of constant constant_sound _ _ E) as (a & n & body & Ha & Hn & Et & Hl). exists a, n, body, l. auto 6.
  - intros (a & n & body & l & Ha & Hn & -> & Hl & ->).
    rewrite (single_complete "enum" p_constant constant_of constant (fun _ => True) I (fun a u r H _ => constant_complete a u r H) (fun _ _ _ _ => I) constant_start) with (l := l);
      try assumption; reflexivity.
Qed.

(** * thrift! *)
Lemma trees_eq ts : matches (many [Var Tree]) ts = Some (Reps (map (fun t => [Got [t]]) ts), []).
Proof.
  unfold many. rewrite rep_eq. cbv iota. assert (H : forall n ts, (List.length ts <= n)%nat ->
    repeated (any_of begins is_rep [Var Tree]) (in_order matches [Var Tree]) n ts = Some (map (fun t => [Got [t]]) ts, [])).
  { induction n as [|n IH]; intros [|t r] Hn; cbn [List.length] in Hn; try lia; try reflexivity.
    specialize (IH r ltac:(lia)). set (b := any_of begins is_rep [Var Tree]) in *. set (f := in_order matches [Var Tree]) in *.
    cbn [repeated]. change (b t) with true. change (f (t :: r)) with (Some ([Got [t]], r)). cbv iota. rewrite IH. reflexivity. }
  rewrite H; [reflexivity|apply Nat.le_refl].
Qed.
Lemma again_eq ts : again (map (fun t => [Got [t]]) ts) = ts.
Proof. unfold again. induction ts as [|t ts IH]; [reflexivity|]. cbn [map flat_map got app]. rewrite IH. reflexivity. Qed.
Lemma attrs_unique a b m n r s : attrs a -> attrs b -> a ++ name m :: r = b ++ name n :: s -> a = b /\ m = n /\ r = s.
Proof.
  intros (l & Ha) (k & Hb). revert b k Hb. induction Ha as [|x u l us Hu Hl IH]; intros b k Hb E.
  - destruct Hb as [|y v k vs Hv _]; [injection E as -> ->; auto|]. destruct Hv. discriminate.
  - destruct Hu as [ms g Hg]. destruct Hb as [|y v k vs Hv Hk]; [discriminate|]. destruct Hv as [ms' g' Hg']. injection E as -> E.
    destruct (IH _ _ Hk E) as (-> & -> & ->). auto.
Qed.
Definition several (word : string) : list pat := [attributes; kw word; Var Ident; Grp Brace [many [Var Tree]]; many [Var Tree]].
Lemma several_sound word ts fs : match_all (several word) ts = Some fs ->
  exists a n b r al, attrs a /\ n <> "_"%string /\ ts = a ++ name word :: name n :: Gr Brace b :: r /\ attributes_again al = a /\
    fs = [Reps al; Skip; Got [name n]; Sub [Reps (map (fun t => [Got [t]]) b)]; Reps (map (fun t => [Got [t]]) r)].
Proof.
  unfold match_all. destruct (in_order matches (several word) ts) as [(fs', [|t r])|] eqn:H; try discriminate. intros E. injection E as ->.
  unfold several in H. step H E1. step H E2. step H E3. step H E4. rewrite in_cons, trees_eq, in_nil in H. injection H as <-.
  apply attributes_sound in E1 as (al & a & -> & -> & Ha & Eq). apply tk_sound in E2 as (-> & ->). apply ident_sound in E3 as (n & -> & Hn & ->).
  apply grp_sound in E4 as (b & fs' & -> & -> & E). rewrite in_cons, trees_eq, in_nil in E. injection E as <-.
  eexists a, n, b, _, al. auto 6.
Qed.
Lemma several_complete word a n b r : attrs a -> n <> "_"%string -> exists al, attributes_again al = a /\ match_all (several word) (a ++ name word :: name n :: Gr Brace b :: r) =
    Some [Reps al; Skip; Got [name n]; Sub [Reps (map (fun t => [Got [t]]) b)]; Reps (map (fun t => [Got [t]]) r)].
Proof.
  intros Ha Hn. set (ts := a ++ name word :: name n :: Gr Brace b :: r).
  assert (H : exists fs, match_all (several word) ts = Some fs).
  { destruct (attributes_complete a (name word :: name n :: Gr Brace b :: r) Ha I) as (al & E1). unfold match_all, several, ts.
    rewrite in_cons, E1, in_cons. unfold kw, name at 1. rewrite tk_complete, in_cons, (ident_complete n _ Hn), in_cons.
    rewrite (grp_complete Brace [many [Var Tree]] b [Reps (map (fun t => [Got [t]]) b)]); [|rewrite in_cons, trees_eq; reflexivity].
    rewrite in_cons, trees_eq. eexists. reflexivity. }
  destruct H as (fs & H). destruct (several_sound _ _ _ H) as (a' & n' & b' & r' & al & Ha' & _ & E & Eq & ->).
  destruct (attrs_unique _ _ _ _ _ _ Ha Ha' E) as (-> & _ & E2). injection E2 as -> -> ->. exists al. auto.
Qed.
Lemma several_none word other a X : attrs a -> word <> other -> match_all (several word) (a ++ name other :: X) = None.
Proof.
  intros Ha Hn. destruct (match_all _ _) as [fs|] eqn:H; [|reflexivity]. destruct (several_sound _ _ _ H) as (a' & n' & b' & r' & al & Ha' & _ & E & _).
  destruct (attrs_unique _ _ _ _ _ _ Ha Ha' E) as (_ & K & _). congruence.
Qed.
Lemma rule_sound word f (D : mdef -> list tree -> Prop) ts o r :
  (forall ts d, f ts = Some d -> exists a n body, attrs a /\ ts = a ++ [name word; name n; Gr Brace body] /\ D d body) ->
  rule (several word) word f ts = Some (o, r) ->
  exists a n body d, attrs a /\ usable n /\ ts = (a ++ [name word; name n; Gr Brace body]) ++ r /\ o = Some (n, d) /\ D d body.
Proof.
  intros Hf. unfold rule. destruct (match_all (several word) ts) as [fs|] eqn:H; [|discriminate].
  destruct (several_sound _ _ _ H) as (a & n & b & r' & al & Ha & Hn & -> & Eq & ->). rewrite Eq, !again_eq. cbn [got app].
  destruct (new_name (Got [name n])) as [m|] eqn:Em; [|discriminate]. apply new_name_ok in Em as (-> & Hk).
  destruct (f _) as [d|] eqn:Ed; [|discriminate]. intros K. injection K as <- <-. destruct (Hf _ _ Ed) as (a' & n' & body & Ha' & E & Hd).
  destruct (attrs_unique _ _ _ _ _ _ Ha Ha' E) as (-> & _ & E2). injection E2 as -> ->.
  exists a', n', body, d. split; [exact Ha|]. split; [split; assumption|]. split; [rewrite <- app_assoc; reflexivity|auto].
Qed.
Lemma rule_complete word f a n body d r : attrs a -> usable n -> f (a ++ [name word; name n; Gr Brace body]) = Some d ->
  rule (several word) word f ((a ++ [name word; name n; Gr Brace body]) ++ r) = Some (Some (n, d), r).
Proof.
  intros Ha (Hn & Hk) Hf. rewrite <- app_assoc. cbn [app]. unfold rule. destruct (several_complete word a n body r Ha Hn) as (al & Eq & ->).
  rewrite Eq, !again_eq, (proj2 (new_name_ok n n) (conj eq_refl Hk)). cbn [got app]. fold (name word). rewrite Hf. reflexivity.
Qed.
Lemma namespace_sound ts fs : match_all p_namespace ts = Some fs ->
  exists a l n r x y z, attrs a /\ l <> "_"%string /\ n <> "_"%string /\ ts = (a ++ [name "namespace"; name l; name n]) ++ r /\ fs = [x; y; z; Got [name n]; Reps (map (fun t => [Got [t]]) r)].
Proof.
  unfold match_all. destruct (in_order matches p_namespace ts) as [(fs', [|t r])|] eqn:H; try discriminate. intros E. injection E as ->.
  unfold p_namespace in H. step H E1. step H E2. step H E3. step H E4. rewrite in_cons, trees_eq, in_nil in H. injection H as <-.
  apply attributes_sound in E1 as (al & a & -> & -> & Ha & _). apply tk_sound in E2 as (-> & ->). apply ident_sound in E3 as (l & -> & Hl & ->). apply ident_sound in E4 as (n & -> & Hn & ->).
  eexists a, l, n, _, _, _, _. rewrite <- app_assoc. cbn [app]. auto 6.
Qed.
Lemma namespace_complete a l n r : attrs a -> l <> "_"%string -> n <> "_"%string ->
  exists x y z w, match_all p_namespace ((a ++ [name "namespace"; name l; name n]) ++ r) = Some [x; y; z; w; Reps (map (fun t => [Got [t]]) r)].
Proof.
  intros Ha Hl Hn. rewrite <- app_assoc. cbn [app]. unfold match_all, p_namespace.
  destruct (attributes_complete a (name "namespace" :: name l :: name n :: r) Ha I) as (al & E1).
  rewrite in_cons, E1, in_cons. unfold kw, name at 1. rewrite tk_complete, in_cons, (ident_complete l _ Hl), in_cons, (ident_complete n _ Hn), in_cons, trees_eq, in_nil.
  eexists _, _, _, _. reflexivity.
Qed.
Lemma one_sound ts o r : one ts = Some (o, r) -> exists u, ts = u ++ r /\ declared o u.
Proof.
  unfold one. change p_struct with (several "struct"). change p_union with (several "union"). change p_enum with (several "enum").
  destruct (match_all (several "struct") ts).
  { intros H. apply (rule_sound _ _ (fun d b => exists fs, sequence struct_field fs b /\ d = MStruct fs)) in H.
    - destruct H as (a & n & b & d & Ha & Hn & -> & -> & fs & Hs & ->). eexists. split; [reflexivity|]. constructor; assumption.
    - intros ts' d K. apply thrift_struct_ok in K as (a & n & body & fs & Ha & _ & E & Hs & ->). exists a, n, body. eauto. }
  destruct (match_all (several "union") ts).
  { intros H. apply (rule_sound _ _ (fun d b => exists fs, sequence union_field fs b /\ d = MUnion fs)) in H.
    - destruct H as (a & n & b & d & Ha & Hn & -> & -> & fs & Hs & ->). eexists. split; [reflexivity|]. constructor; assumption.
    - intros ts' d K. apply thrift_union_ok in K as (a & n & body & fs & Ha & _ & E & Hs & ->). exists a, n, body. eauto. }
  destruct (match_all (several "enum") ts).
  { intros H. apply (rule_sound _ _ (fun d b => exists fs, sequence constant fs b /\ d = MEnum fs)) in H.
    - destruct H as (a & n & b & d & Ha & Hn & -> & -> & fs & Hs & ->). eexists. split; [reflexivity|]. constructor; assumption.
    - intros ts' d K. apply thrift_enum_ok in K as (a & n & body & fs & Ha & _ & E & Hs & ->). exists a, n, body. eauto. }
  destruct (match_all p_namespace ts) as [fs|] eqn:H; [|discriminate]. destruct (namespace_sound _ _ H) as (a & l & n & r' & x & y & z & Ha & Hl & Hn & -> & ->).
  rewrite again_eq. intros K. injection K as <- <-. eexists. split; [reflexivity|]. constructor; assumption.
Qed.
Lemma one_complete o u r : declared o u -> one (u ++ r) = Some (o, r).
Proof.
  unfold one. change p_struct with (several "struct"). change p_union with (several "union"). change p_enum with (several "enum").
  intros [a n fs ts Ha Hn Hs|a n fs ts Ha Hn Hs|a n fs ts Ha Hn Hs|a l n Ha Hl Hn].
  - rewrite (rule_complete _ _ a n ts (MStruct fs) r Ha Hn); [|apply thrift_struct_ok; exists a, n, ts, fs; destruct Hn; auto 6].
    rewrite <- app_assoc. cbn [app]. destruct (several_complete "struct" a n ts r Ha (proj1 Hn)) as (al & _ & ->). reflexivity.
  - rewrite (rule_complete _ _ a n ts (MUnion fs) r Ha Hn); [|apply thrift_union_ok; exists a, n, ts, fs; destruct Hn; auto 6].
    rewrite <- app_assoc. cbn [app]. rewrite (several_none "struct") by (assumption || discriminate).
    destruct (several_complete "union" a n ts r Ha (proj1 Hn)) as (al & _ & ->). reflexivity.
  - rewrite (rule_complete _ _ a n ts (MEnum fs) r Ha Hn); [|apply thrift_enum_ok; exists a, n, ts, fs; destruct Hn; auto 6].
    rewrite <- app_assoc. cbn [app]. rewrite (several_none "struct"), (several_none "union") by (assumption || discriminate).
    destruct (several_complete "enum" a n ts r Ha (proj1 Hn)) as (al & _ & ->). reflexivity.
  - destruct (namespace_complete a l n r Ha Hl Hn) as (x & y & z & w & ->). rewrite again_eq.
    rewrite <- app_assoc. cbn [app]. rewrite (several_none "struct"), (several_none "union"), (several_none "enum") by (assumption || discriminate). reflexivity.
Qed.
Lemma declared_length o u : declared o u -> (0 < List.length u)%nat.
Proof. intros []; rewrite app_length; cbn [List.length]; lia. Qed.
Lemma thrift_sound n : forall ts ds, thrift n ts = Some ds -> exists l, sequence declared l ts /\ ds = somes l.
Proof.
  induction n as [|n IH]; intros [|t ts] ds H; cbn [thrift] in H; try discriminate; try (injection H as <-; exists []; split; [constructor|reflexivity]).
  destruct (one (t :: ts)) as [(o, r)|] eqn:E; [|discriminate]. destruct (thrift n r) as [ds'|] eqn:E2; [|discriminate]. injection H as <-.
  destruct (one_sound _ _ _ E) as (u & Eu & Hu). destruct (IH _ _ E2) as (l & Hl & ->). rewrite Eu. exists (o :: l). split; [constructor; assumption|]. destruct o; reflexivity.
Qed.
Lemma thrift_complete l ts : sequence declared l ts -> forall n, (List.length ts <= n)%nat -> thrift n ts = Some (somes l).
Proof.
  induction 1 as [|o u l us Hu Hl IH]; intros n Hn; [destruct n; reflexivity|]. rewrite app_length in Hn. pose proof (declared_length _ _ Hu) as Hp.
  destruct u as [|t u]; [cbn in Hp; lia|]. cbn [List.length] in Hn. destruct n as [|n]; [lia|].
  pose proof (one_complete _ _ us Hu) as E. cbn [app] in *. cbn [thrift]. rewrite E, (IH n ltac:(lia)). destruct o; reflexivity.
Qed.
Lemma thrift_macro_ok ts ds : thrift_macro ts = Some ds <-> declarations ds ts.
Proof.
  split; [apply thrift_sound|]. intros (l & H & ->). apply thrift_complete; [exact H|apply Nat.le_refl].
Qed.
Lemma declarations_unique a b ts : declarations a ts -> declarations b ts -> a = b.
Proof. intros H K. apply thrift_macro_ok in H, K. congruence. Qed.

Lemma ambiguous_ok t : ambiguous t = false.
Proof.
  destruct t as [[n|w|s]|d g]; [|reflexivity| |destruct d; reflexivity].
  - unfold ambiguous. cbn -[String.eqb bool_name]. destruct (bool_name n), (String.eqb n "_"); reflexivity.
  - destruct (String.eqb_spec "#" s) as [<-|N1]; [reflexivity|]. destruct (String.eqb_spec "<" s) as [<-|N2]; [reflexivity|].
    destruct (String.eqb_spec "=" s) as [<-|N3]; [reflexivity|]. destruct (String.eqb_spec ";" s) as [<-|N4]; [reflexivity|].
    apply String.eqb_neq in N1, N2, N3, N4. unfold ambiguous. cbn -[String.eqb]. rewrite N1, N2, N3, N4. cbn [orb andb]. destruct (String.eqb s "-"); reflexivity.
Qed.
