(** Rust text reads as at most one list of items of SpecExpand.v. *)
From Coq Require Import Ascii.
From Verif Require Import Base ErrorName Types Macro RustLex RustMacro MacroRules SpecRust P_RustMacro RustCode SpecExpand P_Expand.
Open Scope Z_scope.
Open Scope list_scope.

Lemma text_inj a : forall b, text a = text b -> a = b.
Proof.
  unfold text. induction a as [|c a IH]; intros [|d b] H; cbn [list_ascii_of_string map] in H; try discriminate; [reflexivity|].
  injection H as Hc H. apply Nat2Z.inj in Hc. f_equal; [|exact (IH _ H)]. rewrite <- (ascii_nat_embedding c), <- (ascii_nat_embedding d), Hc. reflexivity.
Qed.
Lemma prime_inj a : forall b, (a ++ "'" = b ++ "'")%string -> a = b.
Proof.
  induction a as [|c a IH]; intros [|d b] H; cbn [append] in H; [reflexivity| | |injection H as -> H; f_equal; exact (IH _ H)].
  - destruct b; discriminate.
  - destruct a; discriminate.
Qed.
Lemma variable_inj x y : proper x -> proper y -> variable x = variable y -> x = y.
Proof.
  destruct x as ([|] & x), y as ([|] & y); unfold proper, variable; cbn [fst snd]; intros Hx Hy H; injection H as H.
  - congruence.
  - destruct (Hx eq_refl _ H).
  - destruct (Hy eq_refl _ (eq_sym H)).
  - rewrite (prime_inj _ _ H). reflexivity.
Qed.
Lemma natural_unique w z z' : natural w z -> natural w z' -> z = z'.
Proof. intros H K. apply int_value_ok in H, K. congruence. Qed.
Lemma integer_prefix z z' i i' r r' : integer z i -> integer z' i' -> i ++ r = i' ++ r' -> z = z' /\ i = i' /\ r = r'.
Proof.
  intros [w n H|w n H] [w' n' H'|w' n' H'] E; cbn [app] in E; try discriminate; injection E as -> ->; rewrite (natural_unique _ _ _ H H'); auto.
Qed.
Lemma integer_unique z z' i : integer z i -> integer z' i -> z = z'.
Proof. intros H K. apply (integer_prefix z z' i i [] [] H K eq_refl). Qed.

(** * Types *)
Lemma named_special n t : In n special -> type_reads t [name n] -> ~ In n ["u8"; "str"]%string.
Proof. intros H K. inversion K; subst; cbn; try intuition discriminate; contradiction. Qed.
Lemma no_u8 t : ~ type_reads t [name "u8"].
Proof. intros H. apply named_special in H; [|cbn; tauto]. apply H. cbn. auto. Qed.
Lemma no_str t : ~ type_reads t [name "str"].
Proof. intros H. apply named_special in H; [|cbn; tauto]. apply H. cbn. auto. Qed.
Lemma last_one {A} (l : list A) x y z : l ++ [x] = [y; z] -> l = [y] /\ x = z.
Proof. intros H. change [y; z] with ([y] ++ [z]) in H. apply app_inj_tail in H. exact H. Qed.
Lemma type_unique t ts : type_reads t ts -> forall t', type_reads t' ts -> t = t'.
Proof.
  assert (Named : forall n t', ~ In n special -> type_reads t' [name n] -> TNamed n = t').
  { intros n t' Hn K. remember [name n] as u eqn:E. destruct K; codes_in E; cbn [app] in E; try discriminate; injection E as E; subst; try reflexivity; exfalso; apply Hn; cbn; tauto. }
  assert (Simple : forall n t t', In n special -> type_reads t [name n] -> type_reads t' [name n] -> t = t').
  { intros n a b Hn H K. remember [name n] as u eqn:E. destruct H; codes_in E; cbn [app] in E; try discriminate; injection E as E; subst;
      remember [name _] as u eqn:E; destruct K; codes_in E; cbn [app] in E; try discriminate; try reflexivity; injection E as E; subst; try reflexivity; try contradiction;
      exfalso; match goal with H : ~ In _ special |- _ => apply H; cbn; tauto end. }
  induction 1 as [| | | | | | | |x Hx| |t ts Ht IH|t ts Ht IH|t ts Ht IH|t ts Ht IH|t ts Ht IH| | |]; intros t' K;
    try (exact (Named _ _ Hx K)); try (eapply Simple; [|constructor|exact K]; cbn; tauto).
  all: match type of K with type_reads _ ?v => remember v as u eqn:E end; codes_in E; cbn [app] in E; destruct K; codes_in E; cbn [app] in E; try discriminate E; try reflexivity; injection E as E;
    repeat match goal with
    | H : _ ++ [_] = _ ++ [_] |- _ => apply app_inj_tail in H as (H & _)
    | H : _ ++ [_] = [_; _] |- _ => apply last_one in H as (H & _)
    | H : [_; _] = _ ++ [_] |- _ => symmetry in H; apply last_one in H as (H & _)
    end; subst; try (f_equal; auto; fail).
  all: exfalso; match goal with H : type_reads _ [_] |- _ => first [exact (no_u8 _ H)|exact (no_str _ H)] end.
Qed.
Lemma type_prefix t t' ts ts' r r' : type_reads t ts -> type_reads t' ts' -> type_end r -> type_end r' -> ts ++ r = ts' ++ r' -> t = t' /\ ts = ts' /\ r = r'.
Proof.
  intros H K Hr Hr' E. pose proof (take_reads t ts H (List.length ts + List.length ts')%nat r ltac:(lia) Hr) as E1.
  pose proof (take_reads t' ts' K (List.length ts + List.length ts')%nat r' ltac:(lia) Hr') as E2. rewrite E in E1. rewrite E1 in E2. injection E2 as -> ->.
  split; [|auto]. exact (type_unique _ _ H _ K).
Qed.

(** * Calls, conditions and errors *)
Ltac flat_in H := codes_in H; unfold parens, braces in H; repeat (rewrite <- ?app_assoc in H; cbn [app] in H).
Lemma list_tail {A} (l l' : list A) r : l ++ r = l' ++ r -> l = l'.
Proof. apply app_inv_tail. Qed.
Lemma call_shape k ts : call_reads k ts -> exists n m u, ts = name n :: sign "." :: name m :: u.
Proof. intros []; codes; eexists; eexists; eexists; reflexivity. Qed.
Lemma arguments_unique z z' i i' x x' : integer z i -> integer z' i' -> proper x -> proper x' ->
  i ++ [sign ","; sign "&"; name "mut"; variable x] = i' ++ [sign ","; sign "&"; name "mut"; variable x'] -> z = z' /\ i = i' /\ x = x'.
Proof.
  intros H H' Hx Hx' E. destruct (integer_prefix _ _ _ _ _ _ H H' E) as (-> & -> & E2).
  assert (variable x = variable x') as Ev by (change (last [sign ","; sign "&"; name "mut"; variable x] (sign ",") = variable x'); rewrite E2; reflexivity).
  apply variable_inj in Ev; auto.
Qed.
Lemma call_prefix k k' ts ts' r r' : call_reads k ts -> call_reads k' ts' -> ts ++ r = ts' ++ r' -> k = k' /\ ts = ts' /\ r = r'.
Proof.
  assert (V : forall x y (P : Prop), proper x -> proper y -> (x = y -> P) -> variable x = variable y -> P) by (intros; auto using variable_inj).
  intros H K E. destruct H; destruct K; flat_in E; try discriminate E.
  - assert (Ev : variable x = variable x0) by congruence. assert (Er : r = r') by congruence. apply variable_inj in Ev; [|assumption..]. subst. auto.
  - assert (Ev : variable x = variable x0) by congruence. assert (Er : r = r') by congruence. apply variable_inj in Ev; [|assumption..]. subst. auto.
  - assert (Er : r = r') by congruence. subst. auto.
  - assert (Er : r = r') by congruence. subst. auto.
  - assert (Ev : variable x = variable x0) by congruence. assert (Er : r = r') by congruence. assert (Ef : f = f0) by (unfold name in E; congruence). apply variable_inj in Ev; [|assumption..]. subst. auto.
  - assert (Er : r = r') by congruence. subst. auto.
  - assert (Ei : i = i0) by congruence. assert (Er : r = r') by congruence. subst. rewrite (integer_unique _ _ _ H H1). auto.
  - assert (Er : r = r') by congruence. subst. auto.
  - assert (Er : r = r') by congruence. assert (Ef : f = f0) by (unfold name in E; congruence).
    assert (Ea : i ++ [sign ","; sign "&"; name "mut"; variable x] = i0 ++ [sign ","; sign "&"; name "mut"; variable x0]) by (unfold sign, name in *; congruence).
    destruct (arguments_unique _ _ _ _ _ _ H0 H3 H H2 Ea) as (-> & -> & ->). subst. auto.
  - assert (Er : r = r') by congruence.
    assert (Ea : i ++ [sign ","; sign "&"; name "mut"; variable x] = i0 ++ [sign ","; sign "&"; name "mut"; variable x0]) by (unfold sign, name in *; congruence).
    destruct (arguments_unique _ _ _ _ _ _ H0 H3 H H2 Ea) as (-> & -> & ->). subst. auto.
Qed.
Lemma cond_prefix c c' ts ts' g g' r r' : cond_reads c ts -> cond_reads c' ts' -> ts ++ Gr Brace g :: r = ts' ++ Gr Brace g' :: r' -> c = c' /\ ts = ts' /\ g = g' /\ r = r'.
Proof.
  intros H K E. destruct H as [x i Hx Hi|x i Hx Hi|x Hx]; destruct K as [y j Hy Hj|y j Hy Hj|y Hy]; flat_in E; try discriminate E.
  - assert (Ev : variable x = variable y) by congruence. apply variable_inj in Ev; [|assumption..]. subst y. assert (E2 : i ++ Gr Brace g :: r = j ++ Gr Brace g' :: r') by congruence.
    destruct (integer_prefix _ _ _ _ _ _ Hi Hj E2) as (_ & -> & E3). injection E3 as -> ->. auto.
  - assert (Ev : variable x = variable y) by congruence. apply variable_inj in Ev; [|assumption..]. subst y. assert (E2 : i ++ Gr Brace g :: r = j ++ Gr Brace g' :: r') by congruence.
    destruct (integer_prefix _ _ _ _ _ _ Hi Hj E2) as (_ & -> & E3). injection E3 as -> ->. auto.
  - assert (Ev : variable x = variable y) by congruence. apply variable_inj in Ev; [|assumption..]. subst y. assert (g = g') by congruence. assert (r = r') by congruence. subst. auto.
Qed.
Lemma error_unique e e' ts : error_reads e ts -> error_reads e' ts -> e = e'.
Proof.
  intros H K. remember ts as u eqn:E in H. destruct H; destruct K; codes_in E; try discriminate E; try reflexivity.
  flat_in E. injection E as E. apply (app_inv_tail (text "\0" ++ [34])) in E. apply text_inj in E. congruence.
Qed.

(** * Statements *)
Definition follow (r : list tree) : Prop := match r with Lf (LPunct s) :: _ => s <> "?"%string /\ s <> ";"%string | _ => True end.
Definition variants_end (q : list tree) : Prop := match q with Lf (LPunct s) :: _ => False | Lf (LId n) :: _ => n <> "Self"%string | _ => True end.
Lemma variants_start l r : variants_read l r -> r = [] \/ exists u, r = name "Self" :: u.
Proof. intros []; [auto|right]. codes. eexists. reflexivity. Qed.
Lemma variants_prefix l ts : variants_read l ts -> forall l' ts' q q', variants_read l' ts' -> variants_end q -> variants_end q' -> ts ++ q = ts' ++ q' -> l = l' /\ ts = ts' /\ q = q'.
Proof.
  induction 1 as [|n k ts sep l r Hk Hs Hl IH]; intros l' ts' q q' K Hq Hq' E; destruct K as [|n' k' us sep' l' r' Hk' Hs' Hl']; flat_in E.
  - auto.
  - subst q. cbn in Hq. congruence.
  - subst q'. cbn in Hq'. congruence.
  - assert (n = n') by (unfold name in E; congruence). subst n'.
    assert (E2 : ts ++ sign "?" :: sep ++ r ++ q = us ++ sign "?" :: sep' ++ r' ++ q') by (unfold sign, name in *; congruence). clear E.
    destruct (call_prefix _ _ _ _ _ _ Hk Hk' E2) as (-> & -> & E3). assert (E4 : sep ++ r ++ q = sep' ++ r' ++ q') by congruence. clear E2 E3.
    assert (S : sep = sep' /\ r ++ q = r' ++ q').
    { destruct Hs as [->|(-> & ->)], Hs' as [->|(-> & ->)]; cbn [app] in E4; [split; [reflexivity|congruence]| | |auto]; exfalso.
      - rewrite <- E4 in Hq'. exact Hq'.
      - rewrite E4 in Hq. exact Hq. }
    destruct S as (-> & E5). destruct (IH _ _ _ _ Hl' Hq Hq' E5) as (-> & -> & ->). auto.
Qed.
Scheme stmt_all := Minimality for stmt_reads Sort Prop with block_all := Minimality for block_reads Sort Prop with arms_all := Minimality for arms_read Sort Prop.
Combined Scheme readings from stmt_all, block_all, arms_all.
Lemma stmt_start s ts : stmt_reads s ts -> exists t u, ts = t :: u /\ t <> sign "#" /\ follow ts.
Proof.
  intros H. destruct H; codes; try (eexists; eexists; (split; [reflexivity|]); split; [discriminate|cbn; auto; split; discriminate]).
  all: destruct (call_shape _ _ H) as (a & b & u & ->); eexists; eexists; (split; [reflexivity|]); split; [discriminate|exact I].
Qed.
Lemma block_start b ts : block_reads b ts -> follow ts.
Proof.
  intros [|g b' us _|t us b' us' H _]; [exact I|split; discriminate|]. destruct (stmt_start _ _ H) as (x & u & -> & _ & K). exact K.
Qed.
Definition rest_end (q : list tree) : Prop := exists u, q = name "_" :: u.
Lemma arms_start l ts q : arms_read l ts -> rest_end q -> forall u, ts ++ q <> sign "," :: u.
Proof. intros [|z i b us sep l' r' [w n Hi|w n Hi] _ _ _] (v & ->) u; discriminate. Qed.
Lemma arms_comma (s s' : bool) r r' : (forall u, r <> sign "," :: u) -> (forall u, r' <> sign "," :: u) -> (if s then [sign ","] else []) ++ r = (if s' then [sign ","] else []) ++ r' -> s = s' /\ r = r'.
Proof.
  intros H H' E. destruct s, s'; cbn [app] in E; [split; congruence| | |auto]; exfalso; [exact (H' _ (eq_sym E))|exact (H _ E)].
Qed.
Definition one_stmt (s : stmt) (ts : list tree) : Prop := forall s' ts' r r', stmt_reads s' ts' -> follow r -> follow r' -> ts ++ r = ts' ++ r' -> s = s' /\ ts = ts' /\ r = r'.
Definition one_block (b : list stmt) (ts : list tree) : Prop := forall b', block_reads b' ts -> b = b'.
Definition one_arms (l : list (Z * list stmt)) (ts : list tree) : Prop :=
  forall l' ts' q q', arms_read l' ts' -> rest_end q -> rest_end q' -> ts ++ q = ts' ++ q' -> l = l' /\ ts = ts' /\ q = q'.
Ltac tokens := unfold sign, name, lit in *; congruence.
Ltac a_call H := destruct (call_shape _ _ H) as (?n & ?m & ?u & ->).
Ltac off E := flat_in E; try discriminate E;
  try match goal with Hk : call_reads _ ?us |- _ => match type of E with context [us] => a_call Hk; flat_in E; discriminate E end end;
  try match goal with Hc : cond_reads _ ?us |- _ => match type of E with context [us] => destruct Hc; flat_in E; discriminate E end end;
  try match goal with Hc : cond_reads _ _, Hk : call_reads _ _ |- _ => destruct Hc; a_call Hk; flat_in E; discriminate E end.
Ltac cases K := destruct K as [y z' w' Hy Hw' Hz'|y Hy|y k' us Hy Hk'|y Hy|k' us Hk'|k' us Hk'|b' us Hb'|c' cs' b' us Hc' Hb'| |e' us s'' He'|y arms' us b' bs' Hy Ha' Hb'|n'|l' us Hl'|l' us Hl'| |k' us Hk'].
Lemma match_differs a ts bs l us q : arms_read a ts -> variants_read l us -> q = [] \/ (exists u, q = name "_" :: sign "=>" :: name "unsafe" :: u) ->
  ts ++ name "_" :: sign "=>" :: [Gr Brace bs] <> us ++ q.
Proof.
  intros Ha Hl Hq E. destruct Hl as [|n k vs sep l r _ _ _]; [|codes_in E; destruct Ha as [|z i b ws sp l' r' [w n' _|w n' _] _ _ _]; discriminate E].
  destruct Hq as [->|(u & ->)]; destruct Ha as [|z i b ws sp l' r' [w n' _|w n' _] _ _ _]; discriminate E.
Qed.
Lemma stmts_unique : (forall s ts, stmt_reads s ts -> one_stmt s ts) /\ (forall b ts, block_reads b ts -> one_block b ts) /\ (forall l ts, arms_read l ts -> one_arms l ts).
Proof.
  apply readings; unfold one_stmt, one_block, one_arms.
  - (* T_num *) intros x z w Hx Hw Hz s' ts' r r' K Hr Hr' E. cases K; off E.
    assert (Ev : variable x = variable y) by tokens. apply variable_inj in Ev; [|assumption..]. subst y. assert (Ew : w ++ text "_i16" = w' ++ text "_i16") by tokens. apply app_inv_tail in Ew. subst w'.
    rewrite (natural_unique _ _ _ Hw Hw'). assert (r = r') by tokens. subst. auto.
  - (* T_flag *) intros x Hx s' ts' r r' K Hr Hr' E. cases K; off E.
    assert (Ev : variable x = variable y) by tokens. apply variable_inj in Ev; [|assumption..]. subst y. assert (r = r') by tokens. subst. auto.
  - (* T_result *) intros x k ts Hx Hk s' ts' r r' K Hr Hr' E. cases K; off E.
    assert (Ev : variable x = variable y) by tokens. apply variable_inj in Ev; [|assumption..]. subst y. assert (E2 : ts ++ sign "?" :: sign ";" :: r = us ++ sign "?" :: sign ";" :: r') by tokens.
    destruct (call_prefix _ _ _ _ _ _ Hk Hk' E2) as (-> & -> & E3). assert (r = r') by tokens. subst. auto.
  - (* T_set *) intros x Hx s' ts' r r' K Hr Hr' E. cases K; off E.
    assert (Ev : variable x = variable y) by tokens. apply variable_inj in Ev; [|assumption..]. subst y. assert (r = r') by tokens. subst. auto.
  - (* T_self *) intros k ts Hk s' ts' r r' K Hr Hr' E. cases K; off E.
    assert (E2 : ts ++ sign "?" :: sign ";" :: r = us ++ sign "?" :: sign ";" :: r') by tokens.
    destruct (call_prefix _ _ _ _ _ _ Hk Hk' E2) as (-> & -> & E3). assert (r = r') by tokens. subst. auto.
  - (* T_do *) intros k ts Hk s' ts' r r' K Hr Hr' E. cases K; try (off E; fail).
    + flat_in E. destruct (call_prefix _ _ _ _ _ _ Hk Hk' E) as (-> & -> & E3). assert (r = r') by tokens. subst. auto.
    + flat_in E. destruct (call_prefix _ _ _ _ _ _ Hk Hk' E) as (-> & -> & E3). exfalso. rewrite <- E3 in Hr'. destruct Hr'. congruence.
  - (* T_loop *) intros b ts Hb IH s' ts' r r' K Hr Hr' E. cases K; off E. assert (us = ts) by tokens. assert (r = r') by tokens. subst. rewrite (IH _ Hb'). auto.
  - (* T_if *) intros c cs b ts Hc Hb IH s' ts' r r' K Hr Hr' E. cases K; off E. assert (E2 : cs ++ Gr Brace ts :: r = cs' ++ Gr Brace us :: r') by tokens.
    destruct (cond_prefix _ _ _ _ _ _ _ _ Hc Hc' E2) as (-> & -> & -> & ->). rewrite (IH _ Hb'). auto.
  - (* T_break *) intros s' ts' r r' K Hr Hr' E. cases K; off E. assert (r = r') by tokens. subst. auto.
  - (* T_return *) intros e ts s0 He s' ts' r r' K Hr Hr' E. cases K; off E. assert (ts = us) by tokens. subst us. rewrite (error_unique _ _ _ He He').
    assert (E2 : (if s0 then [sign ";"] else []) ++ r = (if s'' then [sign ";"] else []) ++ r') by tokens.
    destruct s0, s''; flat_in E2.
    + assert (r = r') by tokens. subst. auto.
    + exfalso. subst r'. destruct Hr'. congruence.
    + exfalso. subst r. destruct Hr. congruence.
    + subst. auto.
  - (* T_match *) intros x arms ts b bs Hx Ha IHa Hb IHb s' ts' r r' K Hr Hr' E. cases K; off E.
    + assert (Ev : variable x = variable y) by tokens. apply variable_inj in Ev; [|assumption..]. subst y. assert (r = r') by tokens. subst r'.
      assert (E2 : ts ++ name "_" :: sign "=>" :: [Gr Brace bs] = us ++ name "_" :: sign "=>" :: [Gr Brace bs']) by tokens.
      destruct (IHa _ _ _ _ Ha' (ex_intro _ _ eq_refl) (ex_intro _ _ eq_refl) E2) as (-> & -> & E3). assert (bs = bs') by tokens. subst bs'. rewrite (IHb _ Hb'). auto.
    + exfalso. apply (match_differs arms ts bs l' us [] Ha Hl'); [auto|]. rewrite app_nil_r. tokens.
    + exfalso. match type of E with _ = _ :: _ :: Gr Brace (_ ++ ?q) :: _ => apply (match_differs arms ts bs l' us q Ha Hl'); [right; eexists; reflexivity|tokens] end.
  - (* T_variant *) intros n s' ts' r r' K Hr Hr' E. cases K; off E. assert (n = n') by tokens. assert (r = r') by tokens. subst. auto.
  - (* T_match_self *) intros l ts Hl s' ts' r r' K Hr Hr' E. cases K; off E.
    + exfalso. apply (match_differs arms' us bs' l ts [] Ha' Hl); [auto|]. rewrite app_nil_r. tokens.
    + assert (ts = us) by tokens. assert (r = r') by tokens. subst. assert (E2 : us ++ [] = us ++ []) by reflexivity. destruct (variants_prefix _ _ Hl _ _ [] [] Hl' I I E2) as (-> & _). auto.
    + match type of E with _ = _ :: _ :: Gr Brace (_ ++ ?q) :: _ => assert (E2 : ts ++ [] = us ++ q) by (rewrite app_nil_r; tokens); assert (Hq : variants_end q) by discriminate;
        destruct (variants_prefix _ _ Hl _ _ [] q Hl' I Hq E2) as (_ & _ & E3); discriminate E3 end.
  - (* T_match_rest *) intros l ts Hl s' ts' r r' K Hr Hr' E. cases K; off E.
    + exfalso. match type of E with _ :: _ :: Gr Brace (_ ++ ?q) :: _ = _ => apply (match_differs arms' us bs' l ts q Ha' Hl); [right; eexists; reflexivity|tokens] end.
    + match type of E with _ :: _ :: Gr Brace (_ ++ ?q) :: _ = _ => assert (E2 : ts ++ q = us ++ []) by (rewrite app_nil_r; tokens); assert (Hq : variants_end q) by discriminate;
        destruct (variants_prefix _ _ Hl _ _ q [] Hl' Hq I E2) as (_ & _ & E3); discriminate E3 end.
    + match type of E with _ :: _ :: Gr Brace (_ ++ ?q) :: _ = _ => assert (E2 : ts ++ q = us ++ q) by tokens; assert (Hq : variants_end q) by discriminate;
        destruct (variants_prefix _ _ Hl _ _ q q Hl' Hq Hq E2) as (-> & -> & _) end. assert (r = r') by tokens. subst. auto.
  - (* T_finish *) intros s' ts' r r' K Hr Hr' E. cases K; off E. assert (r = r') by tokens. subst. auto.
  - (* T_tail *) intros k ts Hk s' ts' r r' K Hr Hr' E. cases K; try (off E; fail).
    + flat_in E. destruct (call_prefix _ _ _ _ _ _ Hk Hk' E) as (-> & -> & E3). exfalso. rewrite E3 in Hr. destruct Hr. congruence.
    + destruct (call_prefix _ _ _ _ _ _ Hk Hk' E) as (-> & -> & ->). auto.
  - (* B_nil *) intros b' K. inversion K as [|g b us H|t us b us' H Hb E1 E2]; [reflexivity|]. destruct (stmt_start _ _ H) as (x & u & -> & _). discriminate.
  - (* B_allow *) intros g b ts Hb IH b' K. remember (sign "#" :: Gr Bracket (name "allow" :: g) :: ts) as v eqn:E in K. destruct K as [|g' b' us Hb'|t us b' us' H Hb'].
    + discriminate.
    + injection E as -> ->. exact (IH _ Hb').
    + destruct (stmt_start _ _ H) as (x & u & -> & Hx & _). cbn [app] in E. exfalso. apply Hx. congruence.
  - (* B_cons *) intros t ts b ts' Ht IHt Hb IHb b' K. remember (ts ++ ts') as v eqn:E in K. destruct K as [|g' b' us Hb'|t' us b' us' H Hb'].
    + destruct (stmt_start _ _ Ht) as (x & u & -> & _). discriminate.
    + destruct (stmt_start _ _ Ht) as (x & u & -> & Hx & _). cbn [app] in E. exfalso. apply Hx. congruence.
    + destruct (IHt _ _ _ _ H (block_start _ _ Hb) (block_start _ _ Hb') (eq_sym E)) as (-> & -> & ->). rewrite (IHb _ Hb'). reflexivity.
  - (* A_nil *) intros l' ts' q q' K Hq Hq' E. destruct K as [|z i b us sep l r Hi Hf Hb Hl]; [auto|]. exfalso. destruct Hq as (u & ->). destruct Hi; discriminate.
  - (* A_cons *) intros z i b ts sep l r Hi Hf Hb IHb Hl IHl l' ts' q q' K Hq Hq' E. destruct K as [|z' i' b' us sep' l' r' Hi' Hf' Hb' Hl'].
    + exfalso. destruct Hq' as (u & ->). destruct Hi; discriminate.
    + rewrite <- !app_assoc in E. destruct (integer_prefix _ _ _ _ _ _ Hi Hi' E) as (-> & -> & E2). flat_in E2. assert (ts = us) by tokens. subst us. rewrite (IHb _ Hb').
      assert (E3 : (if sep then [sign ","] else []) ++ r ++ q = (if sep' then [sign ","] else []) ++ r' ++ q') by tokens.
      apply arms_comma in E3 as (-> & E3); [|exact (arms_start _ _ _ Hl Hq)|exact (arms_start _ _ _ Hl' Hq')]. destruct (IHl _ _ _ _ Hl' Hq Hq' E3) as (-> & -> & ->). auto.
Qed.
Lemma block_unique b b' ts : block_reads b ts -> block_reads b' ts -> b = b'.
Proof. intros H. exact (proj1 (proj2 stmts_unique) b ts H b'). Qed.

(** * Items *)
Definition no_hash (r : list tree) : Prop := match r with Lf (LPunct s) :: _ => s <> "#"%string | _ => True end.
Lemma attributes_prefix a : forall b r s, no_hash r -> no_hash s -> attributes_text a ++ r = attributes_text b ++ s -> a = b /\ r = s.
Proof.
  induction a as [|g a IH]; intros [|h b] r s Hr Hs E; cbn [attributes_text flat_map app] in E.
  - auto.
  - subst r. cbn in Hr. congruence.
  - subst s. cbn in Hs. congruence.
  - injection E as -> E. destruct (IH b r s Hr Hs E) as (-> & ->). auto.
Qed.
Lemma comma_same sep sep' r r' : comma sep r -> comma sep' r' -> (forall u, r <> sign "," :: u) -> (forall u, r' <> sign "," :: u) -> sep ++ r = sep' ++ r' -> sep = sep' /\ r = r'.
Proof.
  intros [->|(-> & ->)] [->|(-> & ->)] H H' E; cbn [app] in E; try discriminate; [split; congruence|auto].
Qed.
Lemma comma_end sep r : comma sep r -> type_end (sep ++ r).
Proof. intros [->|(-> & ->)]; [split; discriminate|exact I]. Qed.
Lemma fields_start l r : fields_read l r -> forall u, r <> sign "," :: u.
Proof. intros [|a f t ts sep l' r' _ _ _] u; [discriminate|]. destruct a; codes; discriminate. Qed.
Lemma fields_unique l ts : fields_read l ts -> forall l', fields_read l' ts -> l = l'.
Proof.
  induction 1 as [|a f t ts sep l r Ht Hs Hl IH]; intros l' K.
  - remember [] as v eqn:E in K. destruct K as [|a f t ts sep l r _ _ _]; [reflexivity|]. destruct a; flat_in E; discriminate.
  - match type of K with fields_read _ ?w => remember w as v eqn:E end. destruct K as [|a' f' t' ts' sep' l' r' Ht' Hs' Hl']; [destruct a; flat_in E; discriminate|].
    apply attributes_prefix in E as (-> & E); [|codes; exact I|codes; exact I]. flat_in E. assert (f = f') by tokens. subst f'.
    assert (E2 : ts' ++ sep' ++ r' = ts ++ sep ++ r) by tokens. destruct (type_prefix _ _ _ _ _ _ Ht' Ht (comma_end _ _ Hs') (comma_end _ _ Hs) E2) as (-> & -> & E3).
    destruct (comma_same _ _ _ _ Hs' Hs (fields_start _ _ Hl') (fields_start _ _ Hl) E3) as (-> & ->). rewrite (IH _ Hl'). reflexivity.
Qed.
Lemma cases_start l r : cases_read l r -> forall u, r <> sign "," :: u.
Proof. intros [|a f t ts sep l' r' _ _ _] u; [discriminate|]. destruct a; discriminate. Qed.
Lemma cases_unique l ts : cases_read l ts -> forall l', cases_read l' ts -> l = l'.
Proof.
  induction 1 as [|a f t ts sep l r Ht Hs Hl IH]; intros l' K.
  - remember [] as v eqn:E in K. destruct K as [|a f t ts sep l r _ _ _]; [reflexivity|]. destruct a; discriminate.
  - match type of K with cases_read _ ?w => remember w as v eqn:E end. destruct K as [|a' f' t' ts' sep' l' r' Ht' Hs' Hl']; [destruct a; discriminate|].
    apply attributes_prefix in E as (-> & E); [|exact I|exact I]. flat_in E. assert (f = f') by tokens. subst f'.
    assert (ts' = ts) by tokens. subst ts'. assert (E3 : sep' ++ r' = sep ++ r) by tokens. rewrite (type_unique _ _ Ht _ Ht').
    destruct (comma_same _ _ _ _ Hs' Hs (cases_start _ _ Hl') (cases_start _ _ Hl) E3) as (-> & ->). rewrite (IH _ Hl'). reflexivity.
Qed.
Lemma params_start l r : params_read l r -> forall u, r <> sign "," :: u.
Proof. intros [|f t ts sep l' r' _ _ _] u; discriminate. Qed.
Lemma params_unique l ts : params_read l ts -> forall l', params_read l' ts -> l = l'.
Proof.
  induction 1 as [|f t ts sep l r Ht Hs Hl IH]; intros l' K.
  - remember [] as v eqn:E in K. destruct K as [|f t ts sep l r _ _ _]; [reflexivity|]. discriminate.
  - match type of K with params_read _ ?w => remember w as v eqn:E end. destruct K as [|f' t' ts' sep' l' r' Ht' Hs' Hl']; [discriminate|].
    flat_in E. assert (f = f') by tokens. subst f'.
    assert (E2 : ts' ++ sign ">" :: sep' ++ r' = ts ++ sign ">" :: sep ++ r) by tokens. assert (Te : forall u, type_end (sign ">" :: u)) by (split; discriminate).
    destruct (type_prefix _ _ _ _ _ _ Ht' Ht (Te _) (Te _) E2) as (-> & -> & E3). assert (E4 : sep' ++ r' = sep ++ r) by tokens.
    destruct (comma_same _ _ _ _ Hs' Hs (params_start _ _ Hl') (params_start _ _ Hl) E4) as (-> & ->). rewrite (IH _ Hl'). reflexivity.
Qed.
Lemma constants_unique l ts : constants_read l ts -> forall l', constants_read l' ts -> l = l'.
Proof.
  induction 1 as [|c z i l r Hi Hf Hl IH]; intros l' K.
  - remember [] as v eqn:E in K. destruct K; [reflexivity|]. codes_in E. discriminate.
  - match type of K with constants_read _ ?w => remember w as v eqn:E end. destruct K as [|c' z' i' l' r' Hi' Hf' Hl']; flat_in E; [discriminate|].
    assert (c' = c) by tokens. assert (i' = i) by tokens. assert (r' = r) by tokens. subst. rewrite (integer_unique _ _ _ Hi Hi'), (IH _ Hl'). reflexivity.
Qed.
Lemma hint_prefix h h' r r' : hint h -> hint h' -> no_hash r -> no_hash r' -> h ++ r = h' ++ r' -> h = h' /\ r = r'.
Proof. intros (a & -> & _) (b & -> & _) Hr Hr' E. apply attributes_prefix in E as (-> & ->); auto. Qed.
(** An item: attributes, then its own text *)
Inductive headed : item -> list (list tree) -> list tree -> Prop :=
| Hd_record a n fs ts : fields_read fs ts -> headed (Record a n fs) a (code "pub struct" ++ [name n] ++ braces ts)
| Hd_variants a n fs ts : cases_read fs ts -> headed (Variants a n fs) a (code "pub enum" ++ [name n] ++ braces ts)
| Hd_number a n : headed (Number a n) a (code "pub struct" ++ [name n] ++ parens (code "pub i32") ++ code ";")
| Hd_constructor n a fs ts : params_read fs ts ->
    headed (Constructor n fs) [] (code "impl" ++ [name n] ++ braces (attributes_text a ++ code "pub fn new" ++ parens ts ++ code "-> Self" ++ braces (code "Self" ++ braces (inits fs))))
| Hd_first n f : headed (FirstVariant n f) []
    (code "impl Default for" ++ [name n] ++ braces (code "fn default" ++ parens [] ++ code "-> Self" ++ braces (code "Self ::" ++ [name f] ++ parens (code "Default :: default" ++ parens []))))
| Hd_from n a : headed (FromNumber n) []
    (code "impl From < i32 > for" ++ [name n] ++ braces (attributes_text a ++ code "fn from" ++ parens (code "value' : i32") ++ code "-> Self" ++ braces (code "Self" ++ parens (code "value'"))))
| Hd_constants n cs ts : constants_read cs ts -> headed (Constants n cs) [] (code "impl" ++ [name n] ++ braces ts)
| Hd_protocol a n z i a2 a3 fill fs write ws : integer z i -> block_reads fill fs -> block_reads write ws ->
    headed (Protocol n z fill write) a
      (code "impl < 'i > $ crate :: CompactThriftProtocol < 'i > for" ++ [name n] ++
       braces
         (code "const FIELD_TYPE : u8 =" ++ i ++ code ";" ++
          attributes_text a2 ++ code "fn fill_thrift < T : $ crate :: CompactThriftInput < 'i >>" ++
          parens (code "& mut self , input' : & mut T") ++ result_type ++ braces fs ++
          attributes_text a3 ++ code "fn write_thrift < T : $ crate :: CompactThriftOutput >" ++
          parens (code "& self , output' : & mut T") ++ result_type ++ braces ws)).
Lemma item_headed i ts : item_reads i ts -> exists a u, ts = attributes_text a ++ u /\ headed i a u.
Proof.
  intros [a n fs us H|a n fs us H|a n|n h fs us (l & -> & _) H|n f|n h (l & -> & _)|n cs us H|n z x h1 h2 h3 fill fs write ws Hi _ (a1 & -> & _) (a2 & -> & _) (a3 & -> & _) Hf Hw].
  - eexists a, _. split; [reflexivity|constructor; exact H].
  - eexists a, _. split; [reflexivity|constructor; exact H].
  - eexists a, _. split; [reflexivity|constructor].
  - eexists [], _. split; [reflexivity|constructor; exact H].
  - eexists [], _. split; [reflexivity|constructor].
  - eexists [], _. split; [reflexivity|constructor].
  - eexists [], _. split; [reflexivity|constructor; exact H].
  - eexists a1, _. split; [reflexivity|constructor; assumption].
Qed.
Lemma headed_hash i a u r : headed i a u -> no_hash (u ++ r).
Proof. intros []; codes; exact I. Qed.
Lemma constants_body cs ts : constants_read cs ts -> forall a u, ts <> attributes_text a ++ name "pub" :: name "fn" :: u.
Proof. intros [|c z i l r _ _ _] a u E; destruct a; flat_in E; discriminate. Qed.
Lemma headed_prefix i j a u v r r' : headed i a u -> headed j a v -> u ++ r = v ++ r' -> i = j /\ r = r'.
Proof.
  intros H K E. remember a as b eqn:Eb in K.
  destruct H as [a n fs us H|a n fs us H|a n|n a1 fs us H|n f|n a1|n cs us H|a n z x a2 a3 fill fs write ws Hi Hf Hw];
  destruct K as [b n' fs' us' H'|b n' fs' us' H'|b n'|n' b1 fs' us' H'|n' f'|n' b1|n' cs' us' H'|b n' z' x' b2 b3 fill' fs' write' ws' Hi' Hf' Hw'].
  all: codes_in E; unfold parens, braces in E; rewrite <- ?app_assoc in E; cbn [app] in E; try discriminate E; subst.
  - assert (n = n') by tokens. assert (us = us') by tokens. assert (r = r') by tokens. subst. rewrite (fields_unique _ _ H _ H'). auto.
  - assert (n = n') by tokens. assert (us = us') by tokens. assert (r = r') by tokens. subst. rewrite (cases_unique _ _ H _ H'). auto.
  - assert (n = n') by tokens. assert (r = r') by tokens. subst. auto.
  - assert (n = n') by tokens. assert (r = r') by tokens. subst.
    match type of E with _ :: _ :: Gr Brace ?g :: _ = _ :: _ :: Gr Brace ?g' :: _ => assert (E2 : g = g') by tokens end.
    apply attributes_prefix in E2 as (-> & E2); [|exact I|exact I]. assert (us = us') by tokens. subst. rewrite (params_unique _ _ H _ H'). auto.
  - exfalso. match type of E with _ :: _ :: Gr Brace ?g :: _ = _ => assert (E2 : us' = g) by tokens end. exact (constants_body _ _ H' _ _ E2).
  - assert (n = n') by tokens. assert (f = f') by tokens. assert (r = r') by tokens. subst. auto.
  - assert (n = n') by tokens. assert (r = r') by tokens. subst. auto.
  - exfalso. match type of E with _ = _ :: _ :: Gr Brace ?g :: _ => assert (E2 : us = g) by tokens end. exact (constants_body _ _ H _ _ E2).
  - assert (n = n') by tokens. assert (us = us') by tokens. assert (r = r') by tokens. subst. rewrite (constants_unique _ _ H _ H'). auto.
  - assert (n = n') by tokens. assert (r = r') by tokens. subst.
    match type of E with context [Gr Brace (Lf (LId "const") :: ?a :: ?b :: ?c :: ?d :: x ++ ?g)] => match type of E with context [Gr Brace (Lf (LId "const") :: a :: b :: c :: d :: x' ++ ?g')] => assert (E2 : x ++ g = x' ++ g') by tokens end end.
    apply (integer_prefix _ _ _ _ _ _ Hi Hi') in E2 as (-> & -> & E2). unfold result_type in E2. flat_in E2. injection E2 as E2.
    apply attributes_prefix in E2 as (-> & E2); [|exact I|exact I]. injection E2 as E2 E3. apply attributes_prefix in E3 as (-> & E3); [|exact I|exact I]. injection E3 as E3. subst.
    rewrite (block_unique _ _ _ Hf Hf'), (block_unique _ _ _ Hw Hw'). auto.
Qed.
Lemma items_unique l ts : items_read l ts -> forall l', items_read l' ts -> l = l'.
Proof.
  assert (N : forall i ts, item_reads i ts -> ts <> []).
  { intros i us H E. destruct (item_headed _ _ H) as (a & u & -> & K). destruct a; [|discriminate]. cbn [attributes_text flat_map app] in E. subst u. remember (@nil tree) as u eqn:E in K. destruct K; codes_in E; discriminate. }
  induction 1 as [|i us l r Hi Hl IH]; intros l' K.
  - remember [] as v eqn:E in K. destruct K as [|j us l' r Hj _]; [reflexivity|]. apply app_eq_nil in E as (-> & _). destruct (N _ _ Hj eq_refl).
  - remember (us ++ r) as v eqn:E in K. destruct K as [|j vs l' r' Hj Hl']; [symmetry in E; apply app_eq_nil in E as (-> & _); destruct (N _ _ Hi eq_refl)|].
    destruct (item_headed _ _ Hi) as (a & u & -> & H1). destruct (item_headed _ _ Hj) as (b & v & -> & H2). rewrite <- !app_assoc in E.
    apply attributes_prefix in E as (-> & E); [|exact (headed_hash _ _ _ _ H2)|exact (headed_hash _ _ _ _ H1)].
    destruct (headed_prefix _ _ _ _ _ _ _ H2 H1 E) as (-> & ->). rewrite (IH _ Hl'). reflexivity.
Qed.
