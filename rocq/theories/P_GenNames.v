(** The names in generated code, and the names that generated enums print. *)
From Verif Require Import Base ErrorName P_ErrorName Generator SpecGenerator P_Generator ThriftLex ThriftParse SpecThrift P_ThriftLex P_ThriftParse P_ThriftDoc SchemaPrint
  SpecRust P_BothLex Debug SpecPrint P_Print GenText SpecGenText P_GenText P_GenDoc GenDebug SpecGenNames.
Open Scope Z_scope.
Open Scope list_scope.

(** * The lines are determined by the document *)
Lemma digits_snoc l d : digits_value (l ++ [d]) = 10 * digits_value l + (d - 48).
Proof. unfold digits_value. rewrite fold_left_app. reflexivity. Qed.
Lemma digits_positive l : Forall (fun d => 48 <= d <= 57) l -> l <> [] -> hd 0 l <> 48 -> 1 <= digits_value l.
Proof.
  induction l as [|d l IH] using rev_ind; [congruence|]. intros F _ H. apply Forall_app in F as (F & Fd). inversion Fd; subst. rewrite digits_snoc.
  destruct l as [|a l]; [cbn in *; lia|]. specialize (IH F ltac:(discriminate) H). lia.
Qed.
Lemma digits_inj a : forall b, Forall (fun d => 48 <= d <= 57) a -> Forall (fun d => 48 <= d <= 57) b -> a <> [] -> b <> [] ->
  (hd 0 a = 48 -> a = [48]) -> (hd 0 b = 48 -> b = [48]) -> digits_value a = digits_value b -> a = b.
Proof.
  induction a as [|x a IH] using rev_ind; [congruence|]. intros b. destruct b as [|y b _] using rev_ind; [congruence|]. intros Fa Fb _ _ Za Zb E.
  apply Forall_app in Fa as (Fa & Fx). apply Forall_app in Fb as (Fb & Fy). inversion Fx; inversion Fy; subst. rewrite !digits_snoc in E.
  assert (x = y) as <- by lia. assert (digits_value a = digits_value b) as V by lia. f_equal.
  assert (Ha : a <> [] -> hd 0 a <> 48) by (intros Ne Z; destruct a as [|? [|? ?]]; [congruence|discriminate (Za Z)|discriminate (Za Z)]).
  assert (Hb : b <> [] -> hd 0 b <> 48) by (intros Ne Z; destruct b as [|? [|? ?]]; [congruence|discriminate (Zb Z)|discriminate (Zb Z)]).
  destruct a as [|p a].
  - destruct b as [|q b]; [reflexivity|]. pose proof (digits_positive _ Fb ltac:(discriminate) (Hb ltac:(discriminate))). change (digits_value []) with 0 in V. lia.
  - destruct b as [|q b]; [pose proof (digits_positive _ Fa ltac:(discriminate) (Ha ltac:(discriminate))); change (digits_value []) with 0 in V; lia|].
    apply IH; trivial; try discriminate; intros Z; exfalso; [exact (Ha ltac:(discriminate) Z)|exact (Hb ltac:(discriminate) Z)].
Qed.
Lemma numeral_unique n a b : numeral n a -> numeral n b -> a = b.
Proof. intros (N1 & F1 & V1 & Z1) (N2 & F2 & V2 & Z2). apply digits_inj; trivial. congruence. Qed.
Lemma signed_unique n a b : signed_numeral n a -> signed_numeral n b -> a = b.
Proof.
  intros [(P & A)|(P & a' & -> & A)] [(Q & B)|(Q & b' & -> & B)]; try lia; [exact (numeral_unique _ _ _ A B)|f_equal; exact (numeral_unique _ _ _ A B)].
Qed.
Lemma lifetime_unique doc n a b : lifetime doc n a -> lifetime doc n b -> a = b.
Proof. intros [] []; congruence || contradiction. Qed.
Lemma spelled_unique doc t a : spelled doc t a -> forall b, spelled doc t b -> a = b.
Proof.
  induction 1 as [x s I|t w H IH|t w H IH|k v w u H IH H' IH'|n l L]; intros b B; inversion B; subst.
  - f_equal. match goal with J : In (x, _) builtins |- _ => cbn [builtins In] in I, J; intuition congruence end.
  - f_equal. f_equal. auto.
  - f_equal. f_equal. auto.
  - rewrite (IH w0), (IH' u0); trivial.
  - f_equal. exact (lifetime_unique _ _ _ _ L H0).
Qed.
Lemma Forall2_unique {A B} (P : A -> B -> Prop) l : (forall x a b, P x a -> P x b -> a = b) -> forall m m', Forall2 P l m -> Forall2 P l m' -> m = m'.
Proof. intros U m m' F. revert m'. induction F as [|x a l m H F IH]; intros m' F'; inversion F'; subst; [reflexivity|]. f_equal; [exact (U _ _ _ H H2)|auto]. Qed.
Lemma member_unique doc f a b : member doc f a -> member doc f b -> a = b.
Proof.
  intros A B. destruct A as [f i t I T R|f i t I T R]; inversion B; subst; try contradiction; rewrite (signed_unique _ _ _ I H), (spelled_unique _ _ _ T _ H0); reflexivity.
Qed.
Lemma variant_unique doc f a b : variant doc f a -> variant doc f b -> a = b.
Proof. intros A B. destruct A as [f i t I T]; inversion B; subst. rewrite (signed_unique _ _ _ I H), (spelled_unique _ _ _ T _ H0); reflexivity. Qed.
Lemma constant_unique c a b : constant_shown c a -> constant_shown c b -> a = b.
Proof. intros (A1 & A2) (B1 & B2). destruct a, b. cbn [fst snd] in *. f_equal; [congruence|exact (signed_unique _ _ _ A2 B2)]. Qed.
Lemma filter_in {A} (f : A -> bool) l m a : filter f l = filter f m -> f a = true -> In a l -> In a m.
Proof. intros E H I. assert (J : In a (filter f l)) by (apply filter_In; auto). rewrite E in J. apply filter_In in J. tauto. Qed.
Lemma ascending_unique a : ascending a -> forall b, ascending b -> (forall v, filter (fun c => snd c =? v) a = filter (fun c => snd c =? v) b) -> a = b.
Proof.
  induction 1 as [|x a Fx A IH]; intros b B E.
  - destruct b as [|y b]; [reflexivity|]. specialize (E (snd y)). cbn [filter] in E. rewrite Z.eqb_refl in E. discriminate.
  - destruct B as [|y b Fy B]; [specialize (E (snd x)); cbn [filter] in E; rewrite Z.eqb_refl in E; discriminate|].
    assert (Ix : snd y <= snd x).
    { assert (J : In x (y :: b)) by (apply (filter_in (fun c => snd c =? snd x) (x :: a)); [apply E|apply Z.eqb_refl|left; reflexivity]).
      destruct J as [<-|J]; [lia|]. rewrite Forall_forall in Fy. exact (Fy x J). }
    assert (Iy : snd x <= snd y).
    { assert (J : In y (x :: a)) by (apply (filter_in (fun c => snd c =? snd y) (y :: b)); [symmetry; apply E|apply Z.eqb_refl|left; reflexivity]).
      destruct J as [<-|J]; [lia|]. rewrite Forall_forall in Fx. exact (Fx y J). }
    assert (x = y) as <-. { specialize (E (snd x)). cbn [filter] in E. rewrite Z.eqb_refl in E. replace (snd y =? snd x) with true in E by lia. congruence. }
    f_equal. apply IH; [exact B|]. intros v. specialize (E v). cbn [filter] in E. destruct (snd x =? v); congruence.
Qed.
Lemma by_value_unique cs a b : by_value cs a -> by_value cs b -> a = b.
Proof. intros (A & EA) (B & EB). apply ascending_unique; trivial. intros v. rewrite EA, EB. reflexivity. Qed.
Theorem prints_unique doc nd a b : prints doc nd a -> prints doc nd b -> a = b.
Proof.
  intros A B. destruct A as [n t w T|n cs table ss tt S V T|n l gs fs L F|n l gs f fs L F]; inversion B; subst.
  - match goal with H : spelled doc t _ |- _ => rewrite (spelled_unique _ _ _ T _ H) end. reflexivity.
  - match goal with H : by_value cs ?u, H' : Forall2 constant_shown cs ?v, H'' : Forall2 constant_shown ?u ?w |- enum_lines n ss tt = enum_lines n ?v ?w =>
      pose proof (Forall2_unique _ _ constant_unique _ _ S H') as <-; pose proof (by_value_unique _ _ _ V H) as <-; pose proof (Forall2_unique _ _ constant_unique _ _ T H'') as <- end.
    reflexivity.
  - match goal with |- struct_lines n l fs = struct_lines n ?k ?g => assert (l = k) as <- by (eapply lifetime_unique; eassumption); assert (fs = g) as <- end; [|reflexivity].
    eapply Forall2_unique; [exact (member_unique doc)|eassumption..].
  - match goal with |- union_lines n l f (f :: fs) = union_lines n ?k ?g (?g :: ?gs) => assert (l = k) as <- by (eapply lifetime_unique; eassumption); assert (f :: fs = g :: gs) as E end.
    { eapply Forall2_unique; [exact (variant_unique doc)|eassumption..]. }
    injection E as <- <-. reflexivity.
Qed.

(** * Names *)
Lemma word_dotless n : identifier_text (text n) -> (rust_word (text n) <-> dotless n).
Proof.
  intros (c & v & E & Hc & Hv). unfold dotless. rewrite E. split.
  - intros (c' & v' & [= <- <-] & _ & Hv'). intros [->|I]; [unfold letter_char in Hc; lia|]. rewrite Forall_forall in Hv'. specialize (Hv' 46 I). unfold letter_char, digit_char in Hv'. lia.
  - intros D. exists c, v. split; [reflexivity|]. split; [exact Hc|]. apply Forall_forall. intros x I. rewrite Forall_forall in Hv. destruct (Hv x I) as [H|[H|[->|H]]]; auto. destruct D. right. exact I.
Qed.
Lemma in_texts n l : In (text n) (map text l) <-> In n l.
Proof. split; [|apply in_map]. intros I. apply in_map_iff in I as (m & E & I). apply text_inj in E. congruence. Qed.
Lemma plain_ok n : identifier_text (text n) -> (rust_name (text n) <-> plain_name n).
Proof.
  intros H. unfold rust_name, plain_name. rewrite in_texts, (word_dotless n H). split.
  - intros [(D & U & K)|(u & E & _)]; [split; [exact D|]; split; [congruence|exact K]|]. exfalso. destruct H as (c & v & E' & _ & Hv). rewrite E in E'. injection E' as <- <-.
    inversion Hv as [|? ? Hx]; subst. unfold letter_char, digit_char in Hx. lia.
  - intros (D & U & K). left. split; [exact D|]. split; [|exact K]. intros E. apply U, text_inj, E.
Qed.
Lemma escaped_name n : identifier_text (text n) -> (rust_name (escaped n) <-> escapable n).
Proof.
  intros H. unfold escaped, escapable. destruct (String.eqb_spec n "type") as [->|N].
  - split; [left; reflexivity|]. intros _. right. exists (text "type"). split; [reflexivity|]. split; [|split; [discriminate|rewrite in_texts; cbn; intuition discriminate]].
    apply (word_dotless "type" H). unfold dotless. cbn. intuition discriminate.
  - rewrite (plain_ok n H). intuition.
Qed.
Lemma names_ok nd : neat nd -> ((forall w, declares nd w -> rust_name w) <-> plain_definition nd).
Proof.
  destruct nd as (n, def). intros ((Vn & _) & V). unfold plain_definition. cbn [fst snd] in *. split.
  - intros H. destruct def as [t|cs|fs|fs].
    + apply (escaped_name n Vn), H. constructor.
    + split; [apply (escaped_name n Vn), H; constructor|]. apply Forall_forall. intros c I. rewrite Forall_forall in V. apply (escaped_name _ (proj1 (V c I))), H. constructor. exact I.
    + split; [apply (escaped_name n Vn), H; constructor|]. apply Forall_forall. intros f I. rewrite Forall_forall in V. apply (escaped_name _ (proj1 (proj1 (V f I)))), H. constructor. exact I.
    + split; [apply (plain_ok n Vn), H; constructor|]. apply Forall_forall. intros f I. rewrite Forall_forall in V. apply (plain_ok _ (proj1 (proj1 (V f I)))), H. constructor. exact I.
  - intros P w D. inversion D as [| |? ? c I| |? ? f I| |? ? f I]; subst; try (apply escaped_name; [exact Vn|]; tauto); try (apply plain_ok; [exact Vn|]; tauto); destruct P as (_ & P); rewrite Forall_forall in P, V.
    + apply escaped_name; [exact (proj1 (V c I))|exact (P c I)].
    + apply escaped_name; [exact (proj1 (proj1 (V f I)))|exact (P f I)].
    + apply plain_ok; [exact (proj1 (proj1 (V f I)))|exact (P f I)].
Qed.
Lemma Forall2_find {A B} (P : A -> B -> Prop) l m a : Forall2 P l m -> In a l -> exists b, In b m /\ P a b.
Proof. induction 1 as [|x y l m H F IH]; [intros []|]. intros [->|I]; [exists y; split; [left; reflexivity|exact H]|]. destruct (IH I) as (b & J & Q). exists b. split; [right; exact J|exact Q]. Qed.
Lemma declared_line doc nd ls w : prints doc nd ls -> declares nd w -> exists l, In l ls /\ introduces w l.
Proof.
  intros P D. destruct P as [n t u T|n cs table ss tt S V T|n l gs fs L F|n l gs f fs L F]; inversion D as [| |? ? c I| |? ? g I| |? ? g I]; subst.
  - eexists. split; [left; reflexivity|]. constructor.
  - eexists. split; [unfold enum_lines; cbn [app In]; right; right; left; reflexivity|]. apply In_struct. cbn. auto.
  - destruct (Forall2_find _ _ _ _ S I) as (s & J & E & _). exists (text "pub const " ++ escaped (fst s) ++ text ": Self = Self(" ++ snd s ++ text ");"). rewrite E. split; [|apply In_constant].
    unfold enum_lines. apply in_or_app. right. apply in_or_app. left. apply in_map_iff. exists s. auto.
  - eexists. split; [unfold struct_lines; cbn [app In]; right; right; right; left; reflexivity|]. rewrite <- app_assoc. apply In_struct. destruct L; cbn; auto.
  - destruct (Forall2_find _ _ _ _ F I) as (s & J & E). exists (text "pub " ++ escaped (g_name g) ++ text ": " ++ s_type s ++ text ","). split; [|apply In_field].
    unfold struct_lines. apply in_or_app. right. apply in_or_app. left. apply in_map_iff. exists s. split; [|exact J]. destruct E; reflexivity.
  - eexists. split; [unfold union_lines; cbn [app In]; right; right; right; left; reflexivity|]. rewrite <- app_assoc. apply In_enum. destruct L; cbn; auto.
  - destruct (Forall2_find _ _ _ _ F I) as (s & J & E). exists (text (g_name g) ++ text "(" ++ s_type s ++ text "),"). split; [|apply In_variant].
    unfold union_lines. apply in_or_app. right. apply in_or_app. left. apply in_map_iff. exists s. split; [|exact J]. destruct E; reflexivity.
Qed.
Theorem main_names now d s out : main now d s = KOk out -> exists h doc body ls,
  load d s = KOk (h, doc) /\ out = List.concat (map (fun l => l ++ [10]) (header_lines now h)) ++ body /\ code body = List.concat ls ++ tests_lines /\
  Forall2 (fun nd l => (forall w, declares nd w -> exists x, In x l /\ introduces w x) /\ ((forall w, declares nd w -> rust_name w) <-> plain_definition nd)) doc ls.
Proof.
  intros H. destruct (main_prints _ _ _ _ H) as (h & doc & body & ls & L & O & F & C). exists h, doc, body, ls. split; [exact L|]. split; [exact O|]. split; [exact C|].
  destruct (load_neat _ _ _ _ L) as (_ & N). clear - F N. revert N F.
  generalize doc at 1 3 4. intros nds N F. induction F as [|nd l nds ls P F IH]; constructor; [|exact (IH (Forall_inv_tail N))].
  split; [intros w D; exact (declared_line doc nd l w P D)|exact (names_ok nd (Forall_inv N))].
Qed.
Theorem reference_ok doc nd w l : In nd doc -> spelled doc (Named (fst nd)) (w ++ l) -> lifetime doc (fst nd) l -> (w = declared_as nd <-> fst nd <> "type"%string \/ exists fs, snd nd = UnionDef fs).
Proof.
  intros _ S L. inversion S as [| | | |? l' L' Hl E]; subst. assert (l = l') as <- by (eapply lifetime_unique; eassumption). match goal with H : _ ++ l = _ ++ l |- _ => apply app_inv_tail in H; subst w end. destruct nd as (n, def). unfold declared_as, escaped. cbn [fst snd] in *.
  destruct def; destruct (String.eqb_spec n "type") as [->|N]; split; intros; trivial; try (left; exact N); try (right; eexists; reflexivity); try discriminate.
  all: match goal with H : _ \/ _ |- _ => destruct H as [X|(? & X)]; [congruence|discriminate] end.
Qed.

(** * Debug *)
Lemma table_sorted cs i : forall j a b, (i <= j)%nat -> nth_error (map fst (names_table cs)) i = Some a -> nth_error (map fst (names_table cs)) j = Some b -> a <= b.
Proof.
  unfold names_table. rewrite map_map. cbn [fst]. destruct (sorted_by_value cs) as (A & _). revert i. induction A as [|c l F A IH]; intros i j a b L; [destruct i; discriminate|].
  destruct i as [|i]; destruct j as [|j]; cbn [map nth_error]; try lia.
  - intros [= <-] [= <-]. lia.
  - intros [= <-] E. apply nth_error_In in E. apply in_map_iff in E as (x & <- & I). rewrite Forall_forall in F. exact (F x I).
  - apply IH. lia.
Qed.
Lemma names_in cs n v : In (v, n) (names_table cs) <-> In (n, v) cs.
Proof.
  unfold names_table. rewrite in_map_iff. split.
  - intros ((m, x) & [= <- <-] & I). apply sorted_in in I. exact I.
  - intros I. exists (n, v). split; [reflexivity|]. apply sorted_in. exact I.
Qed.
Theorem debug_name_ok search cs v : searches search -> exists n, debug_name search cs v = Some n /\ (In (n, v) cs \/ (n = "__UNKNOWN"%string /\ ~ In v (map snd cs))).
Proof.
  intros H. specialize (H (map fst (names_table cs)) v (table_sorted cs)). unfold debug_name. destruct (search _ v) as [i|i].
  - rewrite nth_error_map in H. destruct (nth_error (names_table cs) i) as [(x, n)|] eqn:E; cbn [option_map fst] in H; [|discriminate]. injection H as ->. exists n. split; [reflexivity|]. left.
    apply names_in. exact (nth_error_In _ _ E).
  - exists "__UNKNOWN"%string. split; [reflexivity|]. right. split; [reflexivity|]. intros I. apply H. apply in_map_iff in I as ((n, x) & <- & I). apply in_map_iff. exists (x, n). split; [reflexivity|]. apply names_in. exact I.
Qed.
Theorem debug_unique search cs n v : searches search -> NoDup (map snd cs) -> In (n, v) cs -> debug_name search cs v = Some n.
Proof.
  intros H D I. destruct (debug_name_ok search cs v H) as (m & E & [J|(_ & J)]).
  - rewrite E. f_equal. clear - D I J. induction cs as [|(k, x) cs IH]; [destruct I|]. inversion D as [|? ? N D']; subst. cbn [snd] in N.
    destruct I as [I|I], J as [J|J]; [congruence| | |exact (IH D' I J)].
    + injection I as -> ->. destruct N. exact (in_map snd _ _ J).
    + injection J as -> ->. destruct N. exact (in_map snd _ _ I).
  - destruct J. apply in_map_iff. exists (n, v). auto.
Qed.
Lemma linear_searches : searches linear.
Proof.
  intros keys k _. unfold linear. assert (H : match position keys k with Some i => nth_error keys i = Some k | None => ~ In k keys end).
  { induction keys as [|a keys IH]; cbn [position]; [intros []|]. destruct (Z.eqb_spec a k) as [->|N]; [reflexivity|]. destruct (position keys k); cbn [option_map nth_error]; [exact IH|]. intros [?|?]; auto. }
  destruct (position keys k); exact H.
Qed.

(** ** The printed value *)
Lemma pad_line l r : without 10 l -> pad false (l ++ r) = l ++ pad false r.
Proof. induction 1 as [|x l N F IH]; [reflexivity|]. cbn [app pad]. replace (x =? 10) with false by lia. rewrite IH. reflexivity. Qed.
Lemma entry_line x l : without 10 (x :: l) -> entry (x :: l) = [32; 32; 32; 32] ++ (x :: l) ++ [44; 10].
Proof.
  intros H. inversion H as [|? ? N F]; subst. unfold entry. cbn [app pad]. replace (x =? 10) with false by lia. rewrite (pad_line l [44; 10] F). reflexivity.
Qed.
Lemma name_without n : identifier_text (text n) -> without 40 (text n).
Proof. intros (c & v & -> & Hc & Hv). constructor; [unfold letter_char in Hc; lia|]. apply Forall_impl with (2 := Hv). unfold letter_char, digit_char. intros; lia. Qed.
Lemma tuple_value alt n m v w : without 40 (text n) -> without 40 (text m) -> debug_tuple alt n (signed v) = debug_tuple alt m (signed w) -> text n = text m /\ v = w.
Proof.
  intros Hn Hm. unfold debug_tuple. cbn [app]. intros E. apply sep_split in E as (E1 & E2); trivial. split; [exact E1|]. apply app_inv_tail in E2.
  apply (signed_value v w (signed v)); [apply signed_numeral_ok|]. replace (signed v) with (signed w); [apply signed_numeral_ok|].
  destruct alt; [|congruence]. injection E2 as E2. pose proof (signed_without 10 _ _ (signed_numeral_ok v) ltac:(lia) ltac:(lia)) as Sv. pose proof (signed_without 10 _ _ (signed_numeral_ok w) ltac:(lia) ltac:(lia)) as Sw.
  destruct (proj1 (dense_signed v)) as ((c & a & Ev & _) & _). destruct (proj1 (dense_signed w)) as ((c' & b & Ew & _) & _). rewrite Ev, Ew in *.
  rewrite (entry_line _ _ Sv), (entry_line _ _ Sw) in E2. apply app_inv_head in E2. apply app_inv_tail in E2. congruence.
Qed.
Theorem debug_tells search alt cs v w out : searches search -> Forall (fun c => valid_name (fst c)) cs ->
  enum_debug search alt cs v = Some out -> enum_debug search alt cs w = Some out -> v = w.
Proof.
  intros H N. unfold enum_debug. destruct (debug_name_ok search cs v H) as (n & En & Hn). destruct (debug_name_ok search cs w H) as (m & Em & Hm). rewrite En, Em. cbn [option_map].
  intros [= A] [= B]. assert (W : forall k x, In (k, x) cs \/ (k = "__UNKNOWN"%string /\ ~ In x (map snd cs)) -> without 40 (text k)).
  { intros k x [I|(-> & _)]; [|apply withoutb_ok; reflexivity]. rewrite Forall_forall in N. exact (name_without _ (proj1 (N _ I))). }
  apply (tuple_value alt n m); [exact (W _ _ Hn)|exact (W _ _ Hm)|congruence].
Qed.
Theorem table_ok cs table : by_value cs table -> map (fun c => (snd c, fst c)) table = names_table cs.
Proof. intros H. rewrite (by_value_unique _ _ _ H (sorted_by_value cs)). reflexivity. Qed.
Lemma loaded_names d s h doc : load d s = KOk (h, doc) -> forall n cs, In (n, EnumDef cs) doc -> Forall (fun c => valid_name (fst c)) cs.
Proof. intros L n cs I. destruct (load_neat _ _ _ _ L) as (_ & N). rewrite Forall_forall in N. exact (proj2 (N _ I)). Qed.

(** * Distinct names *)
Definition separate (def : definition) : Prop :=
  match def with TypeDef _ => True | EnumDef cs => NoDup (map fst cs) | StructDef fs | UnionDef fs => NoDup (map g_name fs) end.
Lemma definition_separate p def : map_definition p = KOk def -> separate def.
Proof.
  destruct p as [|t|cs|fs|fs| |]; cbn [map_definition]; intros E; try discriminate.
  - injection E as <-. exact I.
  - unfold map_enum_fields in E. destruct (kmap _ cs) as [l|]; cbn [kbind] in E; [|discriminate]. injection E as <-. apply associate_nodup.
  - destruct (map_fields fs) as [l|] eqn:K; cbn [kbind] in E; [|discriminate]. injection E as <-. exact (proj1 (map_fields_names _ _ K)).
  - destruct (map_fields fs) as [l|] eqn:K; cbn [kbind] in E; [|discriminate]. injection E as <-. exact (proj1 (map_fields_names _ _ K)).
Qed.
Lemma load_separate d s h doc : load d s = KOk (h, doc) -> forall nd, In nd doc -> separate (snd nd).
Proof.
  unfold load. destruct (lex s) as [ts|]; [|discriminate]. intros H. apply kbind_ok in H as ((hs, ds) & _ & H).
  apply kbind_ok in H as (h' & _ & H). apply kbind_ok in H as (doc' & E & H). injection H as -> ->. intros nd J.
  unfold map_document in E. destruct (kmap _ ds) as [l|] eqn:K; cbn [kbind] in E; [|discriminate]. injection E as <-. apply associate_incl in J. apply kmap_ok in K. revert J.
  induction K as [|[m p] b ds l Q K IH]; [intros []|]. intros [->|J]; [|exact (IH J)]. destruct (map_definition p) as [def|] eqn:D; cbn [kbind] in Q; [|discriminate]. injection Q as <-. exact (definition_separate _ _ D).
Qed.
Lemma escaped_inj a b : identifier_text (text a) -> identifier_text (text b) -> escaped a = escaped b -> a = b.
Proof.
  intros A B. rewrite !escaped_ok. intros E. apply text_inj in E. apply rust_identifier_inj; trivial; intros ->; [destruct A as (c & v & E' & _ & F)|destruct B as (c & v & E' & _ & F)];
    injection E' as <- <-; inversion F as [|? ? Hx]; subst; unfold letter_char, digit_char in Hx; lia.
Qed.
Lemma escaped_fixed n m : identifier_text (text n) -> m <> "type"%string -> m <> "r#type"%string -> escaped n = text m -> n = m.
Proof. intros _ T R. rewrite escaped_ok. intros E. apply text_inj in E. unfold rust_identifier in E. destruct (String.eqb_spec n "type"); congruence. Qed.
Lemma NoDup_map_in {A B C} (f : A -> B) (g : A -> C) l : (forall a b, In a l -> In b l -> g a = g b -> f a = f b) -> NoDup (map f l) -> NoDup (map g l).
Proof.
  induction l as [|a l IH]; cbn [map]; intros H N; [constructor|]. inversion N as [|? ? Na Nl]; subst. constructor; [|apply IH; [|exact Nl]; intros; apply H; trivial; right; trivial].
  intros J. apply in_map_iff in J as (b & E & J). apply Na. rewrite (H a b); [apply in_map; exact J|left; reflexivity|right; exact J|congruence].
Qed.
Theorem members_distinct d s h doc nd : load d s = KOk (h, doc) -> In nd doc ->
  (NoDup (members nd) <-> match snd nd with EnumDef cs => ~ In "value"%string (map fst cs) /\ ~ In "__NAMES"%string (map fst cs) | _ => True end).
Proof.
  intros L J. pose proof (load_separate _ _ _ _ L nd J) as S. destruct (load_neat _ _ _ _ L) as (_ & N). rewrite Forall_forall in N. destruct (N nd J) as (_ & V). destruct nd as (n, def).
  unfold members. cbn [fst snd] in *. clear J N L. destruct def as [t|cs|fs|fs]; cbn [separate] in S.
  - split; [trivial|constructor].
  - assert (M : forall m, m <> "type"%string -> m <> "r#type"%string -> In (text m) (map (fun c : string * Z => escaped (fst c)) cs) <-> In m (map fst cs)).
    { intros m T R. split; intros K.
      - apply in_map_iff in K as (c & E & K). apply in_map_iff. exists c. split; [|exact K]. rewrite Forall_forall in V. exact (escaped_fixed _ _ (proj1 (V c K)) T R E).
      - apply in_map_iff in K as (c & <- & K). apply in_map_iff. exists c. split; [|exact K]. unfold escaped. destruct (String.eqb_spec (fst c) "type"); [congruence|reflexivity]. }
    assert (D : NoDup (map (fun c : string * Z => escaped (fst c)) cs)).
    { apply NoDup_map_in with (2 := S). intros a b Ia Ib. rewrite Forall_forall in V. exact (escaped_inj _ _ (proj1 (V a Ia)) (proj1 (V b Ib))). }
    cbn [app]. split.
    + intros K. inversion K as [|? ? K1 K']; subst. inversion K' as [|? ? K2 _]; subst. split; intros Q; apply M in Q; try discriminate; [exact (K2 Q)|exact (K1 (or_intror Q))].
    + intros (K1 & K2). constructor; [intros [Q|Q]; [discriminate|apply M in Q; try discriminate; exact (K2 Q)]|]. constructor; [intros Q; apply M in Q; try discriminate; exact (K1 Q)|exact D].
  - split; [trivial|]. intros _. apply NoDup_map_in with (2 := S). intros a b Ia Ib. rewrite Forall_forall in V. exact (escaped_inj _ _ (proj1 (proj1 (V a Ia))) (proj1 (proj1 (V b Ib)))).
  - split; [trivial|]. intros _. apply NoDup_map_in with (2 := S). intros a b _ _. apply text_inj.
Qed.
Lemma declared_inj a b : neat a -> neat b -> declared_as a = declared_as b -> fst a = fst b.
Proof.
  intros ((A & _) & _) ((B & _) & _). destruct a as (n, x), b as (m, y). unfold declared_as. cbn [fst snd] in *.
  assert (H : forall n m, identifier_text (text n) -> identifier_text (text m) -> escaped n = text m -> n = m).
  { clear. intros n m A B. rewrite escaped_ok. intros E. apply text_inj in E. unfold rust_identifier in E. destruct (String.eqb_spec n "type"); [|exact E]. subst m.
    destruct B as (c & v & E' & _ & F). injection E' as <- <-. inversion F as [|? ? Hx]; subst. unfold letter_char, digit_char in Hx. lia. }
  destruct x, y; intros E; try exact (escaped_inj _ _ A B E); try exact (H _ _ A B E); try (symmetry; exact (H _ _ B A (eq_sym E))). exact (text_inj _ _ E).
Qed.
Theorem items_distinct d s h doc : load d s = KOk (h, doc) -> (NoDup (items doc) <-> ~ In "Cow"%string (map fst doc) /\ ~ In "tests"%string (map fst doc)).
Proof.
  intros L. destruct (load_neat _ _ _ _ L) as (D & N). rewrite Forall_forall in N.
  assert (M : forall m, m <> "type"%string -> m <> "r#type"%string -> In (text m) (map declared_as doc) <-> In m (map fst doc)).
  { intros m T R. split; intros K.
    - apply in_map_iff in K as (c & E & K). apply in_map_iff. exists c. split; [|exact K]. pose proof (proj1 (proj1 (N c K))) as V. unfold declared_as in E.
      destruct (snd c); try exact (escaped_fixed _ _ V T R E). exact (text_inj _ _ E).
    - apply in_map_iff in K as (c & <- & K). apply in_map_iff. exists c. split; [|exact K]. unfold declared_as, escaped. destruct (snd c), (String.eqb_spec (fst c) "type"); try congruence; reflexivity. }
  assert (U : NoDup (map declared_as doc)) by (apply NoDup_map_in with (2 := D); intros a b Ia Ib; exact (declared_inj _ _ (N a Ia) (N b Ib))).
  unfold items. cbn [app]. split.
  - intros K. inversion K as [|? ? K1 K']; subst. inversion K' as [|? ? K2 _]; subst. split; intros Q; apply M in Q; try discriminate; [exact (K1 (or_intror Q))|exact (K2 Q)].
  - intros (K1 & K2). constructor; [intros [Q|Q]; [discriminate|apply M in Q; try discriminate; exact (K1 Q)]|]. constructor; [intros Q; apply M in Q; try discriminate; exact (K2 Q)|exact U].
Qed.

(** * Witnesses *)
Lemma name_refuted : exists s out h doc nd w, main [] 9 s = KOk out /\ load 9 s = KOk (h, doc) /\ In nd doc /\ declares nd w /\ ~ rust_name w.
Proof.
  exists (text "struct S { 1: required i32 match }"). do 3 eexists.
  exists ("S"%string, StructDef [{| g_id := 1; g_req := REQUIRED; g_name := "match"; g_type := Base I32 |}]), (text "match").
  split; [vm_compute; reflexivity|]. split; [vm_compute; reflexivity|]. split; [left; reflexivity|]. split.
  - apply (De_field "S" _ {| g_id := 1; g_req := REQUIRED; g_name := "match"; g_type := Base I32 |}). left. reflexivity.
  - intros H. apply plain_ok in H as (_ & _ & H); [apply H; cbn; tauto|]. exists 109, [97; 116; 99; 104]. split; [reflexivity|]. split; [unfold letter_char; lia|]. repeat (apply Forall_cons; [left; unfold letter_char; lia|]). apply Forall_nil.
Qed.
Lemma reference_refuted : exists s out h doc nd l, main [] 9 s = KOk out /\ load 9 s = KOk (h, doc) /\ In nd doc /\
  lifetime doc (fst nd) l /\ ~ spelled doc (Named (fst nd)) (declared_as nd ++ l).
Proof.
  exists (text "struct type { 1: required i32 a } struct S { 1: required type b }"). do 3 eexists.
  exists ("type"%string, StructDef [{| g_id := 1; g_req := REQUIRED; g_name := "a"; g_type := Base I32 |}]), [].
  split; [vm_compute; reflexivity|]. split; [vm_compute; reflexivity|]. split; [left; reflexivity|].
  match goal with |- lifetime ?doc _ _ /\ _ => assert (L : lifetime doc "type" (annotation false)) end.
  { apply (annotation_ok _ 9%nat "type" (StructDef [{| g_id := 1; g_req := REQUIRED; g_name := "a"; g_type := Base I32 |}]) false).
    - repeat constructor; cbn; intuition discriminate.
    - left. reflexivity.
    - vm_compute. reflexivity. }
  split; [exact L|]. intros S. apply reference_ok in S; [|left; reflexivity|exact L]. destruct (proj1 S eq_refl) as [N|(fs & N)]; [apply N; reflexivity|discriminate].
Qed.
Fixpoint memb (n : string) (l : list string) : bool := match l with [] => false | m :: l' => String.eqb n m || memb n l' end.
Definition plainb (n : string) : bool := negb (existsb (Z.eqb 46) (text n)) && negb (memb n ("_"%string :: keywords)).
Lemma memb_ok n l : memb n l = false -> ~ In n l.
Proof. induction l as [|m l IH]; cbn [memb]; [intros _ []|]. destruct (String.eqb_spec n m) as [->|N]; [discriminate|]. intros H [E|J]; [congruence|exact (IH H J)]. Qed.
Lemma plainb_ok n : plainb n = true -> plain_name n.
Proof.
  unfold plainb. intros H. apply andb_prop in H as (A & B). apply negb_true_iff in A, B. apply memb_ok in B. split; [|split].
  - intros J. apply Bool.not_true_iff_false in A. apply A. apply existsb_exists. exists 46. split; [exact J|reflexivity].
  - intros ->. apply B. left. reflexivity.
  - intros J. apply B. right. exact J.
Qed.
Definition escapableb (n : string) : bool := String.eqb n "type" || plainb n.
Lemma escapableb_ok n : escapableb n = true -> escapable n.
Proof. unfold escapableb. intros H. apply orb_prop in H as [H|H]; [left; apply String.eqb_eq, H|right; apply plainb_ok, H]. Qed.
Definition definitionb (nd : string * definition) : bool :=
  match snd nd with
  | TypeDef _ => escapableb (fst nd)
  | EnumDef cs => escapableb (fst nd) && forallb (fun c => escapableb (fst c)) cs && negb (memb "value" (map fst cs)) && negb (memb "__NAMES" (map fst cs))
  | StructDef fs => escapableb (fst nd) && forallb (fun f => escapableb (g_name f)) fs
  | UnionDef fs => plainb (fst nd) && forallb (fun f => plainb (g_name f)) fs
  end.
Lemma forallb_ok {A} (p : A -> bool) (P : A -> Prop) l : (forall a, p a = true -> P a) -> forallb p l = true -> Forall P l.
Proof. intros H B. apply Forall_forall. intros a J. rewrite forallb_forall in B. exact (H a (B a J)). Qed.
Lemma definitionb_ok nd : definitionb nd = true -> plain_definition nd /\ match snd nd with EnumDef cs => ~ In "value"%string (map fst cs) /\ ~ In "__NAMES"%string (map fst cs) | _ => True end.
Proof.
  destruct nd as (n, [t|cs|fs|fs]); unfold definitionb, plain_definition; cbn [fst snd]; intros H.
  - split; [apply escapableb_ok, H|trivial].
  - apply andb_prop in H as (H & B). apply andb_prop in H as (H & C). apply andb_prop in H as (H & F). apply negb_true_iff in B, C.
    split; [split; [apply escapableb_ok, H|eapply forallb_ok; [|exact F]; intros c; apply escapableb_ok]|]. split; apply memb_ok; assumption.
  - apply andb_prop in H as (H & F). split; [split; [apply escapableb_ok, H|eapply forallb_ok; [|exact F]; intros c; apply escapableb_ok]|trivial].
  - apply andb_prop in H as (H & F). split; [split; [apply plainb_ok, H|eapply forallb_ok; [|exact F]; intros c; apply plainb_ok]|trivial].
Qed.
Lemma parquet_names : exists h doc, load 40 parquet_thrift_text = KOk (h, doc) /\ Forall plain_definition doc /\ NoDup (items doc) /\ Forall (fun nd => NoDup (members nd)) doc.
Proof.
  assert (H : match load 40 parquet_thrift_text with KOk (_, doc) => forallb definitionb doc && negb (memb "Cow" (map fst doc)) && negb (memb "tests" (map fst doc)) | KThrow _ => false end = true)
    by (vm_compute; reflexivity).
  destruct (load 40 parquet_thrift_text) as [(h, doc)|e] eqn:L; [|discriminate]. exists h, doc. split; [reflexivity|]. apply andb_prop in H as (H & T). apply andb_prop in H as (H & C).
  rewrite forallb_forall in H. apply negb_true_iff in C, T. split; [|split].
  - apply Forall_forall. intros nd J. exact (proj1 (definitionb_ok nd (H nd J))).
  - apply (items_distinct _ _ _ _ L). split; apply memb_ok; assumption.
  - apply Forall_forall. intros nd J. apply (members_distinct _ _ _ _ _ L J). exact (proj2 (definitionb_ok nd (H nd J))).
Qed.
Lemma parquet_text : exists out, main (text "now") 40 parquet_thrift_text = KOk out /\ 3000 < zlen (code out).
Proof.
  assert (H : match main (text "now") 40 parquet_thrift_text with KOk out => 3000 <? zlen (code out) | KThrow _ => false end = true) by (vm_compute; reflexivity).
  destruct (main (text "now") 40 parquet_thrift_text) as [out|]; [|discriminate]. exists out. split; [reflexivity|]. lia.
Qed.
