(** The generated text consists of the lines of SpecGenText.v. *)
From Coq Require Import Ascii Sorted ZifyBool.
From Verif Require Import Base ErrorName P_ErrorName Generator SpecGenerator P_Generator ThriftParse SchemaPrint SpecPrint P_Print GenText SpecGenText.
Open Scope Z_scope.
Open Scope list_scope.

(** * Lines *)
Definition glue (a b : list (list Z)) : list (list Z) :=
  match b with
  | [] => a
  | l :: ls => removelast a ++ (last a [] ++ l) :: ls
  end.
Lemma lines_cons s : exists l ls, lines s = l :: ls.
Proof. destruct s as [|c s]; cbn; eauto. destruct (c =? 10); eauto. destruct (lines s); eauto. Qed.
Lemma lines_newline a b : lines (a ++ 10 :: b) = lines a ++ lines b.
Proof.
  induction a as [|c a IH]; cbn [app lines]; [reflexivity|]. destruct (c =? 10); [rewrite IH; reflexivity|].
  rewrite IH. destruct (lines_cons a) as (l & ls & ->). reflexivity.
Qed.
Lemma lines_word w : ~ In 10 w -> lines w = [w].
Proof.
  induction w as [|c w IH]; cbn [lines]; intros H; [reflexivity|]. destruct (Z.eqb_spec c 10) as [->|N]; [destruct H; left; reflexivity|].
  rewrite IH; [reflexivity|]. intros I. apply H. right. exact I.
Qed.
Lemma lines_word_app w s l ls : ~ In 10 w -> lines s = l :: ls -> lines (w ++ s) = (w ++ l) :: ls.
Proof.
  intros N E. induction w as [|c w IH]; cbn [app lines]; [exact E|]. destruct (Z.eqb_spec c 10) as [->|Nc]; [destruct N; left; reflexivity|].
  rewrite IH; [reflexivity|]. intros I. apply N. right. exact I.
Qed.
Lemma code_newline a b : code (a ++ 10 :: b) = code a ++ code b.
Proof. unfold code. rewrite lines_newline, map_app, filter_app. reflexivity. Qed.
Lemma code_nil : code [] = [].
Proof. reflexivity. Qed.
Lemma code_last a : code (a ++ [10]) = code a.
Proof. rewrite code_newline, code_nil, app_nil_r. reflexivity. Qed.
Lemma code_loop a ls b : Forall (fun l => exists l', l = 10 :: l') ls -> code (a ++ List.concat ls ++ 10 :: b) = code a ++ flat_map code ls ++ code b.
Proof.
  intros F. revert a. induction F as [|l ls (l' & ->) F IH]; intros a; cbn [List.concat flat_map].
  - cbn [app]. apply code_newline.
  - cbn [app]. rewrite <- app_assoc, code_newline, IH. change (10 :: l') with ([] ++ 10 :: l'). rewrite (code_newline [] l'), code_nil. cbn [app].
    rewrite <- !app_assoc. reflexivity.
Qed.

(** * Templates *)
Inductive part : Type :=
| C (c : Z)
| V (w : list Z)    (* a word *)
| W (w : list Z).   (* perhaps empty *)
Definition content (p : part) : list Z := match p with C c => [c] | V w | W w => w end.
Definition flat (ps : list part) : list Z := List.concat (map content ps).
Definition solid (w : list Z) : Prop := (exists c v, w = c :: v /\ 32 < c) /\ (exists c v, rev w = c :: v /\ 32 < c) /\ ~ In 10 w.
Definition fine (p : part) : Prop := match p with C _ => True | V w => solid w | W w => ~ In 10 w end.
Fixpoint cut (ps : list part) : list (list part) :=
  match ps with
  | [] => [[]]
  | C 10 :: ps' => [] :: cut ps'
  | p :: ps' => match cut ps' with l :: ls => (p :: l) :: ls | [] => [[p]] end
  end.
Fixpoint ltrim (ps : list part) : option (list part) :=
  match ps with
  | [] => Some []
  | C c :: ps' => if c <=? 32 then ltrim ps' else Some ps
  | V _ :: _ => Some ps
  | W _ :: _ => None
  end.
Definition trim (ps : list part) : option (list part) :=
  match ltrim ps with
  | Some l => match ltrim (rev l) with Some r => Some (rev r) | None => None end
  | None => None
  end.
Fixpoint trims (ls : list (list part)) : option (list (list part)) :=
  match ls with
  | [] => Some []
  | l :: ls' => match trim l, trims ls' with Some [], Some r => Some r | Some l, Some r => Some (l :: r) | _, _ => None end
  end.

Lemma flat_app a b : flat (a ++ b) = flat a ++ flat b.
Proof. unfold flat. rewrite map_app, concat_app. reflexivity. Qed.
Lemma cut_cons ps : exists l ls, cut ps = l :: ls.
Proof. destruct ps as [|p ps]; cbn; eauto. destruct p as [c| |]; try (destruct (cut ps); eauto; fail). destruct c as [|q|q]; try (destruct (cut ps); eauto; fail).
  do 5 (try (destruct q as [q|q|]; try (destruct (cut ps); eauto; fail))). all: eauto. Qed.
Lemma cut_C c ps : cut (C c :: ps) = if c =? 10 then [] :: cut ps else match cut ps with l :: ls => (C c :: l) :: ls | [] => [[C c]] end.
Proof. destruct (Z.eqb_spec c 10) as [->|N]; [reflexivity|]. cbn [cut]. destruct c as [|q|q]; try reflexivity. do 5 (try (destruct q as [q|q|]; try reflexivity)). congruence. Qed.
Lemma cut_ok ps : Forall fine ps -> lines (flat ps) = map flat (cut ps) /\ Forall (Forall fine) (cut ps).
Proof.
  induction 1 as [|p ps Hp F (IH & G)]; [split; [reflexivity|repeat constructor]|].
  destruct (cut_cons ps) as (l & ls & E). rewrite E in *. cbn [map] in IH. pose proof (Forall_inv G) as G1. pose proof (Forall_inv_tail G) as G2.
  destruct p as [c|w|w]; [rewrite cut_C, E; destruct (Z.eqb_spec c 10) as [->|N]|cbn [cut]; rewrite E|cbn [cut]; rewrite E];
    change (flat (?p :: ps)) with (content p ++ flat ps); cbn [content].
  - cbn [app lines]. rewrite Z.eqb_refl, IH. split; [reflexivity|constructor; [constructor|exact G]].
  - rewrite (lines_word_app [c] _ _ _ ltac:(intros [->|[]]; congruence) IH). split; [reflexivity|]. constructor; [constructor; [exact I|exact G1]|exact G2].
  - rewrite (lines_word_app w _ _ _ (proj2 (proj2 Hp)) IH). split; [reflexivity|]. constructor; [constructor; [exact Hp|exact G1]|exact G2].
  - rewrite (lines_word_app w _ _ _ Hp IH). split; [reflexivity|]. constructor; [constructor; [exact Hp|exact G1]|exact G2].
Qed.
Lemma ltrim_ok ps l : ltrim ps = Some l -> Forall fine ps -> lstrip (flat ps) = flat l /\ Forall fine l /\ (flat l = [] -> l = []).
Proof.
  intros E F. revert E. induction F as [|p ps Hp F IH]; cbn [ltrim]; intros E.
  - injection E as <-. repeat constructor.
  - destruct p as [c|w|w]; [destruct (c <=? 32) eqn:L|..]; try discriminate; change (flat (?p :: ps)) with (content p ++ flat ps); cbn [content].
    + cbn [app lstrip]. rewrite L. apply IH. exact E.
    + injection E as <-. cbn [app lstrip]. rewrite L. split; [reflexivity|]. split; [constructor; assumption|]. intros X. discriminate X.
    + injection E as <-. destruct Hp as ((c & v & -> & L) & B & N). cbn [app lstrip]. rewrite (proj2 (Z.leb_gt _ _) L). split; [reflexivity|].
      split; [constructor; [|exact F]; split; [|split; [exact B|exact N]]; eauto|]. intros X. discriminate X.
Qed.
Definition turn (p : part) : part := match p with C c => C c | V w => V (rev w) | W w => W (rev w) end.
Lemma flat_turn ps : rev (flat ps) = flat (map turn (rev ps)).
Proof.
  induction ps as [|p ps IH]; [reflexivity|]. change (flat (p :: ps)) with (content p ++ flat ps). cbn [rev]. rewrite rev_app_distr, IH, map_app, flat_app. f_equal.
  destruct p; cbn; rewrite ?app_nil_r; reflexivity.
Qed.
Lemma turn_turn ps : map turn (map turn ps) = ps.
Proof. rewrite map_map. rewrite <- (map_id ps) at 2. apply map_ext. intros [|w|w]; cbn; rewrite ?rev_involutive; reflexivity. Qed.
Lemma fine_turn p : fine p -> fine (turn p).
Proof.
  destruct p as [c|w|w]; cbn; [trivial| |].
  - intros (A & B & N). split; [exact B|]. split; [rewrite rev_involutive; exact A|]. intros I. apply N. apply in_rev. exact I.
  - intros N I. apply N. apply in_rev. exact I.
Qed.
Lemma ltrim_turn ps : ltrim (map turn ps) = option_map (map turn) (ltrim ps).
Proof. induction ps as [|[c|w|w] ps IH]; cbn; try reflexivity. destruct (c <=? 32); [exact IH|reflexivity]. Qed.
Lemma trim_ok ps l : trim ps = Some l -> Forall fine ps -> strip (flat ps) = flat l /\ (flat l = [] -> l = []).
Proof.
  unfold trim, strip. intros E F. destruct (ltrim ps) as [m|] eqn:L; [|discriminate]. destruct (ltrim_ok _ _ L F) as (-> & Fm & _).
  destruct (ltrim (rev m)) as [r|] eqn:R; [|discriminate]. injection E as <-.
  rewrite flat_turn. assert (Ft : Forall fine (map turn (rev m))).
  { apply Forall_forall. intros p I. apply in_map_iff in I as (q & <- & I). apply fine_turn. apply in_rev in I. rewrite Forall_forall in Fm. auto. }
  assert (Lt : ltrim (map turn (rev m)) = Some (map turn r)) by (rewrite ltrim_turn, R; reflexivity).
  destruct (ltrim_ok _ _ Lt Ft) as (-> & Fr & Z). rewrite flat_turn, <- map_rev, turn_turn. split; [reflexivity|].
  intros X. rewrite (map_eq_nil turn r); [reflexivity|]. apply Z. rewrite <- (rev_involutive (flat (map turn r))), flat_turn, <- map_rev, turn_turn, X. reflexivity.
Qed.
Definition template_code (ps : list part) : option (list (list part)) := trims (cut ps).
Lemma template_ok ps ls : template_code ps = Some ls -> Forall fine ps -> code (flat ps) = map flat ls.
Proof.
  unfold template_code, code. intros E F. destruct (cut_ok ps F) as (-> & G). clear F. revert ls E. induction G as [|l r Hl G IH]; cbn [trims map]; intros ls E.
  - injection E as <-. reflexivity.
  - destruct (trim l) as [m|] eqn:T; [|discriminate]. destruct (trims r) as [q|]; [|destruct m; discriminate].
    destruct (trim_ok _ _ T Hl) as (S & N). cbn [filter]. rewrite S. specialize (IH q eq_refl). destruct m as [|p m].
    + injection E as <-. exact IH.
    + injection E as <-. cbn [map]. destruct (flat (p :: m)) eqn:Z; [discriminate (N eq_refl)|]. rewrite IH. reflexivity.
Qed.

(** The characters of a literal are parts. *)
Lemma flat_C s r : s ++ flat r = flat (map C s ++ r).
Proof. rewrite flat_app. f_equal. induction s as [|c s IH]; [reflexivity|]. cbn. f_equal. exact IH. Qed.
Ltac reify t :=
  lazymatch t with
  | ?a ++ ?b => let x := reify a in let y := reify b in constr:(x ++ y)
  | text (String ?c ?s) => constr:(map C (text (String c s)))
  | @nil Z => constr:(@nil part)
  | ?w => match goal with
          | H : solid w |- _ => constr:([V w])
          | _ => constr:([W w])
          end
  end.
Lemma flat_map_C s : flat (map C s) = s.
Proof. induction s as [|c s IH]; [reflexivity|]. cbn. f_equal. exact IH. Qed.
Lemma flat_V w : flat [V w] = w.
Proof. cbn. apply app_nil_r. Qed.
Lemma flat_W w : flat [W w] = w.
Proof. cbn. apply app_nil_r. Qed.
Lemma fine_C s : Forall fine (map C s).
Proof. induction s; repeat constructor; assumption. Qed.
(** Computes the lines of a template whose variables are words (in the context). *)
Ltac template :=
  match goal with |- code ?t = _ =>
    let ps := reify t in
    replace t with (flat ps) by (rewrite ?flat_app, ?flat_map_C, ?flat_V, ?flat_W; reflexivity);
    erewrite template_ok; [|vm_compute; reflexivity|repeat (apply Forall_app; split); first [apply fine_C|apply Forall_nil|apply Forall_cons; [assumption|apply Forall_nil]]]
  end; rewrite <- ?app_assoc; vm_compute; reflexivity.

(** * trimIndent *)
Definition ascii (c : Z) : Prop := 0 <= c < 128 /\ c <> 13.
Lemma kt_lines_ok s : Forall ascii s -> kt_lines s = lines s.
Proof.
  induction 1 as [|c s (A & N) F IH]; [reflexivity|]. cbn [lines]. rewrite <- IH. clear IH F. destruct (Z.eqb_spec c 10) as [->|N10]; [reflexivity|].
  cbn [kt_lines]. destruct c as [|q|q]; try reflexivity. do 5 (try (destruct q as [q|q|]; try reflexivity)); congruence.
Qed.
Lemma lines_ascii s : Forall ascii s -> Forall (fun l => Forall ascii l /\ ~ In 10 l) (lines s).
Proof.
  induction 1 as [|c s A F IH]; cbn [lines]; [repeat constructor; intros []|]. destruct (Z.eqb_spec c 10) as [->|N].
  - constructor; [split; [constructor|intros []]|exact IH].
  - destruct (lines s) as [|l ls]; [repeat constructor; [apply A..|intros [->|[]]; congruence]|]. inversion IH as [|? ? (P & Q) R]; subst.
    constructor; [|exact R]. split; [constructor; assumption|]. intros [->|I]; [congruence|exact (Q I)].
Qed.
Lemma whitespace_low c : ascii c -> is_whitespace c = true -> c <=? 32 = true.
Proof. unfold ascii, is_whitespace. lia. Qed.
Lemma lstrip_skip n l : Forall ascii l -> (n <= indent_width l)%nat -> lstrip (skipn n l) = lstrip l.
Proof.
  intros F. revert n. induction F as [|c l A F IH]; intros n H; [destruct n; reflexivity|]. destruct n as [|n]; [reflexivity|]. cbn [indent_width] in H.
  destruct (is_whitespace c) eqn:W; [|lia]. cbn [skipn lstrip]. rewrite (whitespace_low c A W). apply IH. lia.
Qed.
Lemma space_strip l : Forall ascii l -> is_space l = true -> lstrip l = [].
Proof.
  unfold is_space. induction 1 as [|c l A F IH]; cbn [forallb lstrip]; [reflexivity|]. intros H. apply andb_true_iff in H as (W & H).
  rewrite (whitespace_low c A W). exact (IH H).
Qed.
Lemma skipn_in {A} n (l : list A) a : In a (skipn n l) -> In a l.
Proof. revert l. induction n as [|n IH]; intros [|b l]; cbn [skipn]; trivial. intros I. right. exact (IH l I). Qed.
Lemma space_skip n l : is_space l = true -> is_space (skipn n l) = true.
Proof. unfold is_space. rewrite !forallb_forall. intros H c I. apply H. exact (skipn_in n l c I). Qed.
Lemma min_ok ns n : In n ns -> (min_of ns <= n)%nat.
Proof.
  destruct ns as [|m ns]; [intros []|]. cbn [min_of]. assert (G : forall ns m, (fold_left Nat.min ns m <= m)%nat /\ forall n, In n ns -> (fold_left Nat.min ns m <= n)%nat).
  { clear. induction ns as [|k ns IH]; intros m; cbn [fold_left]; [split; [lia|intros n []]|]. destruct (IH (Nat.min m k)) as (A & B). split; [lia|].
    intros n [->|I]; [lia|exact (B n I)]. }
  destruct (G ns m) as (A & B). intros [->|I]; [exact A|exact (B n I)].
Qed.
Definition solids (ls : list (list Z)) : list (list Z) := filter (fun l => match l with [] => false | _ => true end) (map strip ls).
Lemma code_joined ls : Forall (fun l => ~ In 10 l) ls -> code (joined_lines ls) = solids ls.
Proof.
  unfold code. intros F. destruct ls as [|l ls]; [reflexivity|]. cbn [joined_lines].
  assert (E : lines (l ++ List.concat (map (fun l => 10 :: l) ls)) = l :: ls); [|rewrite E; reflexivity].
  revert l F. induction ls as [|m ls IH]; intros l F; cbn [map List.concat].
  - rewrite app_nil_r. apply lines_word. exact (Forall_inv F).
  - cbn [app]. rewrite lines_newline, (lines_word l (Forall_inv F)), IH; [reflexivity|]. exact (Forall_inv_tail F).
Qed.
Lemma strip_strip l m : lstrip l = lstrip m -> strip l = strip m.
Proof. unfold strip. intros ->. reflexivity. Qed.
Theorem code_trim s : Forall ascii s -> code (trim_indent s) = code s.
Proof.
  intros F. unfold trim_indent. rewrite (kt_lines_ok s F). change (code s) with (solids (lines s)). pose proof (lines_ascii s F) as G. revert G. generalize (lines s). intros ls G.
  set (n := min_of _). assert (N : forall l, In l ls -> is_space l = false -> (n <= indent_width l)%nat).
  { intros l I S. apply min_ok. apply in_map. apply filter_In. rewrite S. auto. }
  clearbody n. generalize (pred (List.length ls)) as z. intros z. generalize (seq 0 (List.length ls)) (seq_length (List.length ls) 0). intros is Len.
  rewrite code_joined.
  - revert is Len N. induction G as [|l ls (A & X) G IH]; intros is Len N; [destruct is; reflexivity|]. destruct is as [|i is]; [discriminate|]. cbn [combine filter].
    specialize (IH is ltac:(injection Len; auto) (fun l I => N l (or_intror I))).
    assert (E : strip (skipn n l) = strip l).
    { apply strip_strip. destruct (is_space l) eqn:S; [|apply lstrip_skip; [exact A|apply N; [left; reflexivity|exact S]]].
      rewrite (space_strip l A S). apply space_strip; [|apply space_skip; exact S]. apply Forall_forall. intros c I. rewrite Forall_forall in A. apply A. exact (skipn_in n l c I). }
    destruct (negb _) eqn:K.
    + unfold solids in *. cbn [map filter]. rewrite E, IH. reflexivity.
    + rewrite IH. unfold solids. cbn [map filter]. apply negb_false_iff, andb_true_iff in K as (_ & S). unfold strip at 2. rewrite (space_strip l A S). reflexivity.
  - apply Forall_forall. intros l I. apply in_map_iff in I as ((i & m) & <- & I). apply filter_In in I as (I & _). apply in_combine_r in I.
    rewrite Forall_forall in G. intros J. apply (proj2 (G m I)). exact (skipn_in n m 10 J).
Qed.

(** * Words *)
Definition dense (w : list Z) : Prop := solid w /\ Forall ascii w.
Definition thin (w : list Z) : Prop := ~ In 10 w /\ Forall ascii w.
Lemma dense_thin w : dense w -> thin w.
Proof. intros ((_ & _ & N) & A). split; assumption. Qed.
Lemma thin_app a b : thin a -> thin b -> thin (a ++ b).
Proof. intros (A & B) (X & Y). split; [|apply Forall_app; auto]. intros I. apply in_app_or in I as [I|I]; auto. Qed.
Lemma thin_chars w : Forall (fun c => 32 <= c < 128) w -> thin w.
Proof.
  intros F. split.
  - intros I. rewrite Forall_forall in F. specialize (F _ I). lia.
  - apply Forall_forall. intros c I. rewrite Forall_forall in F. specialize (F _ I). unfold ascii. lia.
Qed.
Lemma dense_chars w : w <> [] -> Forall (fun c => 33 <= c < 128) w -> dense w.
Proof.
  intros N F. split.
  - split; [|split].
    + destruct w as [|c w]; [congruence|]. exists c, w. split; [reflexivity|]. pose proof (Forall_inv F). cbn in *. lia.
    + destruct (rev w) as [|c v] eqn:R; [rewrite <- (rev_involutive w), R in N; cbn in N; congruence|]. exists c, v. split; [reflexivity|].
      assert (I : In c w) by (apply in_rev; rewrite R; left; reflexivity). rewrite Forall_forall in F. specialize (F _ I). lia.
    + intros I. rewrite Forall_forall in F. specialize (F _ I). lia.
  - apply Forall_forall. intros c I. rewrite Forall_forall in F. specialize (F _ I). unfold ascii. lia.
Qed.
Lemma dense_signed z : dense (signed z).
Proof.
  destruct (signed_numeral_ok z) as [(_ & N & F & _)|(_ & ds & -> & N & F & _)].
  - apply dense_chars; [exact N|]. apply Forall_impl with (2 := F). intros; cbn in *; lia.
  - apply dense_chars; [discriminate|]. constructor; [lia|]. apply Forall_impl with (2 := F). intros; cbn in *; lia.
Qed.
Lemma ascii_thin w : thin w -> Forall ascii w. Proof. intros (_ & A). exact A. Qed.
Definition asciib (c : Z) : bool := (0 <=? c) && (c <? 128) && negb (c =? 13).
Lemma ascii_check s : forallb asciib s = true -> Forall ascii s.
Proof. intros H. apply Forall_forall. intros c I. rewrite forallb_forall in H. specialize (H c I). unfold asciib in H. unfold ascii. lia. Qed.
Lemma ascii_concat ls : Forall (Forall ascii) ls -> Forall ascii (List.concat ls).
Proof. induction 1 as [|l ls A F IH]; cbn [List.concat]; [constructor|]. apply Forall_app. auto. Qed.
Lemma ascii_map {A} (f : A -> list Z) l : (forall a, In a l -> Forall ascii (f a)) -> Forall ascii (List.concat (map f l)).
Proof. intros H. apply ascii_concat. apply Forall_forall. intros x I. apply in_map_iff in I as (a & <- & I). exact (H a I). Qed.
Ltac ascii_solve :=
  repeat (apply Forall_app; split);
  first [assumption | apply ascii_check; vm_compute; reflexivity | apply ascii_thin, dense_thin; assumption | apply ascii_thin; assumption | idtac].

(** * Loops *)
Lemma code_loop_nl a ls b b' : Forall (fun l => exists l', l = 10 :: l') ls -> b = 10 :: b' -> code (a ++ List.concat ls ++ b) = code a ++ flat_map code ls ++ code b.
Proof. intros F ->. rewrite (code_loop a ls b' F). change (10 :: b') with ([] ++ 10 :: b'). rewrite (code_newline [] b'). reflexivity. Qed.
Lemma loop_starts {A} (f : A -> list Z) l : (forall a, exists r, f a = 10 :: r) -> Forall (fun l => exists l', l = 10 :: l') (map f l).
Proof. intros H. apply Forall_forall. intros x I. apply in_map_iff in I as (a & <- & _). apply H. Qed.
Ltac prefix_of t :=
  lazymatch t with
  | List.concat ?ls ++ ?b => constr:((@nil Z, ls, b))
  | ?a ++ ?r => let x := prefix_of r in lazymatch x with (?p, ?ls, ?b) => constr:((a ++ p, ls, b)) end
  end.
(** Splits the code of a text at its first loop. *)
Ltac split_loop :=
  match goal with |- code ?t = _ =>
    let x := prefix_of t in
    lazymatch x with (?p, ?ls, ?b) =>
      replace t with (p ++ List.concat ls ++ b) by (rewrite <- ?app_assoc; reflexivity);
      erewrite (code_loop_nl p ls b); [|apply loop_starts; intros ?; eexists; reflexivity|reflexivity]
    end
  end.
Lemma flat_map_map {A B} (f : B -> list (list Z)) (g : A -> B) l : flat_map f (map g l) = flat_map (fun a => f (g a)) l.
Proof. induction l as [|a l IH]; cbn; [reflexivity|]. rewrite IH. reflexivity. Qed.
Lemma loop_flat {A B} (f : A -> list Z) (g : B -> list (list Z)) (h : A -> B) l : (forall a, In a l -> code (f a) = g (h a)) -> flat_map code (map f l) = flat_map g (map h l).
Proof. intros H. rewrite !flat_map_map. induction l as [|a l IH]; cbn; [reflexivity|]. rewrite (H a (or_introl eq_refl)), IH; [reflexivity|]. intros b I. apply H. right. exact I. Qed.
Lemma loop_map {A B} (f : A -> list Z) (g : B -> list Z) (h : A -> B) l : (forall a, In a l -> code (f a) = [g (h a)]) -> flat_map code (map f l) = map g (map h l).
Proof.
  intros H. rewrite flat_map_map, map_map. induction l as [|a l IH]; cbn; [reflexivity|]. rewrite (H a (or_introl eq_refl)), IH; [reflexivity|]. intros b I. apply H. right. exact I.
Qed.

(** * Templates *)
Definition shows (it : gfield * list Z) : shown := {| s_field := fst it; s_id := signed (g_id (fst it)); s_type := snd it |}.
Definition clean (fields : list (gfield * list Z)) : Prop :=
  forall it, In it fields -> dense (text (g_name (fst it))) /\ thin (snd it).
Lemma escaped_ok n : escaped n = text (rust_identifier n).
Proof. unfold escaped, rust_identifier. destruct (String.eqb n "type"); reflexivity. Qed.
Lemma dense_escaped n : dense (text n) -> dense (escaped n).
Proof. unfold escaped. destruct (String.eqb n "type"); [|trivial]. intros _. apply dense_chars; [discriminate|]. repeat constructor; vm_compute; intuition discriminate. Qed.
Lemma commas_ok ls : comma_separated ls = commas ls.
Proof.
  destruct ls as [|l ls]; [reflexivity|]. cbn [comma_separated]. revert l. induction ls as [|m ls IH]; intros l; cbn [map List.concat]; [apply app_nil_r|].
  rewrite <- app_assoc, IH. reflexivity.
Qed.
Lemma thin_commas ls : (forall l, In l ls -> thin l) -> thin (comma_separated ls).
Proof.
  destruct ls as [|l ls]; intros H; cbn [comma_separated]; [split; [intros []|constructor]|]. apply thin_app; [apply H; left; reflexivity|].
  assert (G : forall m, In m ls -> thin m) by (intros m I; apply H; right; exact I). clear H. induction ls as [|m ls IH]; cbn [map List.concat]; [split; [intros []|constructor]|].
  apply thin_app; [apply thin_app; [apply thin_chars; repeat constructor; vm_compute; intuition discriminate|apply G; left; reflexivity]|]. apply IH. intros x I. apply G. right. exact I.
Qed.

Lemma alias_code r t : dense r -> thin t -> code (trim_indent (alias_template r t)) = [text "pub type " ++ r ++ text " = " ++ t ++ text ";"].
Proof.
  intros R T. rewrite code_trim; [|unfold alias_template; ascii_solve]. destruct R as (R & _), T as (T & _). unfold alias_template. template.
Qed.
Lemma finish_code : code (trim_indent finish_template) = tests_lines.
Proof. vm_compute. reflexivity. Qed.
Ltac computed :=
  match goal with |- context [code ?t] =>
    lazymatch t with context [List.concat] => fail | _ => idtac end;
    let H := fresh in eassert (H : code t = _) by template; rewrite H; clear H
  end.
(** As [split_loop], anywhere in the goal. *)
Ltac split_loops :=
  repeat match goal with |- context [code ?t] =>
    lazymatch t with context [List.concat] => idtac end;
    let H := fresh in eassert (H : code t = _) by (split_loop; reflexivity); rewrite H; clear H
  end.
Lemma insert_in {A} (key : A -> Z) a l b : In b (insert_by key a l) <-> b = a \/ In b l.
Proof. induction l as [|c l IH]; cbn [insert_by]; [cbn; intuition|]. destruct (key a <=? key c); cbn; [intuition|]. rewrite IH. intuition. Qed.
Lemma sorted_in {A} (key : A -> Z) l b : In b (sorted_by key l) <-> In b l.
Proof. induction l as [|a l IH]; cbn [sorted_by fold_right]; [reflexivity|]. rewrite insert_in. change (fold_right (insert_by key) [] l) with (sorted_by key l). rewrite IH. cbn. intuition. Qed.
Lemma enum_code n fields : dense (text n) -> (forall it, In it fields -> dense (text (fst it))) ->
  code (trim_indent (enum_template (text (rust_identifier n)) fields)) ++ code (trim_indent (enum_from_template (text (rust_identifier n)))) ++
  code (trim_indent (enum_debug_template (text (rust_identifier n)))) ++ code (trim_indent (enum_impl_template (text (rust_identifier n)))) =
  enum_lines n (map (fun c => (fst c, signed (snd c))) fields) (map (fun c => (fst c, signed (snd c))) (sorted_by snd fields)).
Proof.
  intros D F. pose proof (dense_escaped n D) as E. unfold enum_lines. cbv zeta. rewrite escaped_ok in *. revert E. generalize (text (rust_identifier n)). clear D n. intros r R.
  rewrite !code_trim.
  2-4: unfold enum_from_template, enum_debug_template, enum_impl_template; ascii_solve.
  2: { unfold enum_template. ascii_solve; apply ascii_map; intros it I; [|apply sorted_in in I]; specialize (F it I); apply dense_escaped in F as G; rewrite escaped_ok in G;
       pose proof (dense_signed (snd it)); ascii_solve. }
  destruct R as (R & _). unfold enum_template, enum_from_template, enum_debug_template, enum_impl_template.
  split_loops. repeat computed.
  erewrite (loop_map _ (fun c => text "pub const " ++ escaped (fst c) ++ text ": Self = Self(" ++ snd c ++ text ");") (fun c => (fst c, signed (snd c)))).
  2: { intros it I. cbn [fst snd]. rewrite escaped_ok. pose proof (dense_escaped _ (F it I)) as G. rewrite escaped_ok in G. revert G.
       generalize (dense_signed (snd it)). generalize (text (rust_identifier (fst it))) (signed (snd it)). intros a b (B & _) (A & _). template. }
  erewrite (loop_map _ (fun c => text "(" ++ snd c ++ text ", """ ++ text (fst c) ++ text """),") (fun c => (fst c, signed (snd c)))).
  2: { intros it I. apply sorted_in in I. cbn [fst snd]. pose proof (F it I) as G. revert G.
       generalize (dense_signed (snd it)). generalize (text (fst it)) (signed (snd it)). intros a b (B & _) (A & _). template. }
  rewrite <- !app_assoc. reflexivity.
Qed.
Lemma filter_shows fields : filter is_required (map shows fields) = map shows (filter (fun it => required (fst it)) fields).
Proof. induction fields as [|it fields IH]; cbn [map filter]; [reflexivity|]. unfold is_required at 1, required at 1. cbn [shows s_field]. destruct (g_req (fst it)); cbn [map]; rewrite IH; reflexivity. Qed.
Ltac field_words F it I :=
  let D := fresh in let T := fresh in let E := fresh in
  destruct (F it I) as (D & T); pose proof (dense_escaped _ D) as E; rewrite escaped_ok in E; pose proof (dense_signed (g_id (fst it))).
Ltac member_words F it I :=
  let D := fresh in let T := fresh in let E := fresh in
  destruct (F it I) as (D & T); pose proof (dense_escaped _ D) as E; unfold s_member, s_name; cbn [shows s_field s_id s_type]; rewrite ?escaped_ok in *;
  generalize dependent (text (rust_identifier (g_name (fst it)))); generalize (dense_signed (g_id (fst it))); generalize dependent (text (g_name (fst it)));
  generalize (signed (g_id (fst it))); generalize dependent (snd it); intros ?t (? & _) ?i ?a (? & _) (? & _) ?m (? & _).
Lemma struct_code n l fields : dense (text n) -> thin l -> clean fields ->
  code (trim_indent (struct_template (text n) (text (rust_identifier n)) l fields)) = struct_lines n l (map shows fields).
Proof.
  intros D L F. pose proof (dense_escaped n D) as E. unfold struct_lines. cbv zeta. rewrite escaped_ok in *. revert E. generalize (text (rust_identifier n)). intros r R.
  revert D. generalize (text n). clear n. intros n N.
  assert (Fr : forall it, In it (filter (fun it => required (fst it)) fields) -> In it fields) by (intros it I; apply filter_In in I; tauto).
  assert (Nw : thin (comma_separated (map (fun it => text (rust_identifier (g_name (fst it))) ++ text ": impl Into<" ++ snd it ++ text ">") fields))).
  { apply thin_commas. intros w I. apply in_map_iff in I as (it & <- & I). field_words F it I. repeat apply thin_app; try assumption; try (apply dense_thin; assumption);
    apply thin_chars; repeat constructor; vm_compute; intuition discriminate. }
  rewrite code_trim.
  2: { unfold struct_template. ascii_solve; try (apply ascii_map; intros it I; try apply Fr in I; field_words F it I; ascii_solve).
       - destruct (required (fst it)); ascii_solve.
       - destruct fields; ascii_solve. }
  unfold struct_template. rewrite !filter_shows.
  replace (commas _) with (comma_separated (map (fun it => text (rust_identifier (g_name (fst it))) ++ text ": impl Into<" ++ snd it ++ text ">") fields)).
  2: { rewrite commas_ok, map_map. f_equal. apply map_ext. intros it. unfold s_member. cbn [shows s_field s_type]. rewrite escaped_ok. reflexivity. }
  revert Nw. generalize (comma_separated (map (fun it => text (rust_identifier (g_name (fst it))) ++ text ": impl Into<" ++ snd it ++ text ">") fields)). intros w (W & _).
  destruct R as (R & _), L as (L & _), N as (N & _).
  split_loops.
  match goal with |- context [code (?t ++ match fields with [] => _ | _ => _ end ++ [])] =>
    assert (M : code (t ++ match fields with [] => [] | _ => text "let mut last_field_id = 0_i16;" end ++ []) =
      [text "Ok(())"; text "}"; text "fn write<T: CompactThriftOutput>(&self, output: &mut T) -> Result<(), ThriftError> {"] ++
      match map shows fields with [] => [] | _ => [text "let mut last_field_id = 0_i16;"] end) by (destruct fields; vm_compute; reflexivity);
    rewrite M; clear M
  end.
  repeat computed.
  erewrite (loop_map _ (fun f => text "pub " ++ s_member f ++ text ": " ++ s_type f ++ text ",") shows).
  2: { intros it I. member_words F it I. template. }
  erewrite (loop_map _ (fun f => s_member f ++ text ": " ++ s_member f ++ text ".into(),") shows).
  2: { intros it I. member_words F it I. template. }
  erewrite (loop_map _ (fun f => text "let mut " ++ s_member f ++ text "_set_: bool = false;") shows).
  2: { intros it I. apply Fr in I. member_words F it I. template. }
  erewrite (loop_flat _ (fun f => [s_id f ++ text " => {"] ++ (if is_required f then [s_member f ++ text "_set_ = true;"] else []) ++
    [text "self." ++ s_member f ++ text ".fill_field(input, field_type)?;"; text "}"]) shows).
  2: { intros it I. assert (Q : is_required (shows it) = required (fst it)) by reflexivity. rewrite Q. clear Q. destruct (required (fst it)); member_words F it I; template. }
  erewrite (loop_flat _ (fun f => [text "if !" ++ s_member f ++ text "_set_ {"; text "return Err(ThriftError::MissingField(c""" ++ n ++ text "::" ++ s_name f ++ text """.into()))"; text "}"]) shows).
  2: { intros it I. apply Fr in I. member_words F it I. template. }
  erewrite (loop_map _ (fun f => text "self." ++ s_member f ++ text ".write_field(output, " ++ s_id f ++ text ", &mut last_field_id)?;") shows).
  2: { intros it I. member_words F it I. template. }
  rewrite <- !app_assoc. reflexivity.
Qed.
Lemma union_code n l f fields : dense (text n) -> thin l -> clean (f :: fields) ->
  code (trim_indent (union_template (text n) l (f :: fields))) ++ code (trim_indent (union_default_template (text n) l (text (g_name (fst f))))) ++
  code (trim_indent (union_impl_template (text n) (text n) l (f :: fields))) = union_lines n l (shows f) (map shows (f :: fields)).
Proof.
  intros D L F. unfold union_lines. cbv zeta. pose proof (proj1 (F f (or_introl eq_refl))) as Df. change (s_name (shows f)) with (text (g_name (fst f))).
  revert Df. generalize (text (g_name (fst f))). intros a A. generalize dependent (f :: fields). clear f fields. intros fields F.
  revert D. generalize (text n). clear n. intros n N.
  rewrite !code_trim.
  2: { unfold union_impl_template. ascii_solve; apply ascii_map; intros it I; field_words F it I; ascii_solve. }
  2: { unfold union_default_template. ascii_solve. }
  2: { unfold union_template. ascii_solve; apply ascii_map; intros it I; field_words F it I; ascii_solve. }
  destruct L as (L & _), N as (N & _), A as (A & _).
  unfold union_template, union_default_template, union_impl_template.
  split_loops. repeat computed.
  erewrite (loop_map _ (fun f => s_name f ++ text "(" ++ s_type f ++ text "),") shows).
  2: { intros it I. member_words F it I. template. }
  erewrite (loop_flat _ (fun f => [s_id f ++ text " => {"; text "*self = Self::" ++ s_name f ++ text "(Default::default());"; text "#[allow(unreachable_patterns)]"; text "match self {";
     text "Self::" ++ s_name f ++ text "(inner) => inner.fill(input)?,"; text "_ => unsafe { std::hint::unreachable_unchecked() },"; text "}"; text "}"]) shows).
  2: { intros it I. member_words F it I. template. }
  erewrite (loop_map _ (fun f => text "Self::" ++ s_name f ++ text "(inner) => inner.write_field(output, " ++ s_id f ++ text ", &mut last_field_id)?,") shows).
  2: { intros it I. member_words F it I. template. }
  rewrite <- !app_assoc. reflexivity.
Qed.
