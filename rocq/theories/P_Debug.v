(** Proofs about the printing of values: the text determines the value. *)
From Coq Require Import Ascii HexadecimalString HexadecimalFacts HexadecimalPos HexadecimalN ZifyBool ZifyNat ZifyN.
From Verif Require Import Base Protocol Utf8 Encodings Types Parquet Footer SchemaTree ErrorName SpecUtf8 SpecCompact SpecInput Schema Typing SpecFooter SpecSchema SchemaPrint SpecPrint
  SpecEqual Debug SpecDebug P_ErrorName P_Utf8 P_EncSet P_Roundtrip P_Footer P_Schema P_Print.
Open Scope list_scope.

(** * Splitting texts *)
Lemma span_split (p : Z -> Prop) a : forall b s s', Forall p a -> Forall p b ->
  (forall x r, s = x :: r -> ~ p x) -> (forall x r, s' = x :: r -> ~ p x) -> a ++ s = b ++ s' -> a = b /\ s = s'.
Proof.
  induction a as [|x a IH]; intros [|y b] s s' Ha Hb Hs Hs' H; cbn [app] in H; [auto| | |].
  - inversion Hb; subst. destruct (Hs y (b ++ s') eq_refl). assumption.
  - inversion Ha; subst. destruct (Hs' x (a ++ s) eq_refl). assumption.
  - injection H as -> H. inversion Ha; inversion Hb; subst. destruct (IH b s s') as (-> & ->); auto.
Qed.
Definition stop (s : list Z) : Prop := match s with [] => True | x :: _ => In x [10; 32; 41; 44; 93] end.
Lemma number_split a b s s' : Forall number_byte a -> Forall number_byte b -> stop s -> stop s' -> a ++ s = b ++ s' -> a = b /\ s = s'.
Proof.
  assert (N : forall s x r, stop s -> s = x :: r -> ~ number_byte x).
  { intros ? x r Hs -> [Hw|Hw]; cbn [stop In] in Hs; unfold word_byte in *; lia. }
  intros Ha Hb Hs Hs'. apply span_split with (p := number_byte); eauto.
Qed.

(** ** Indentation *)
Fixpoint line_start (b : bool) (l : list Z) : bool := match l with [] => b | x :: r => line_start (x =? 10) r end.
Lemma pad_app x : forall b y, pad b (x ++ y) = pad b x ++ pad (line_start b x) y.
Proof. induction x as [|c x IH]; intros b y; cbn [app pad line_start]; [reflexivity|]. rewrite IH, <- app_assoc. reflexivity. Qed.
Lemma line_start_app x : forall b y, line_start b (x ++ y) = line_start (line_start b x) y.
Proof. induction x as [|c x IH]; intros b y; cbn [app line_start]; auto. Qed.
Lemma pad_split x : forall b y c c' s s', line_start b x = true -> line_start b y = true -> c <> 32 -> c' <> 32 ->
  pad b x ++ c :: s = pad b y ++ c' :: s' -> x = y /\ c :: s = c' :: s'.
Proof.
  induction x as [|a x IH]; intros b [|e y] c c' s s' Hx Hy Hc Hc' H; cbn [pad line_start app] in *.
  - auto.
  - subst b. cbn [app] in H. injection H as E _. lia.
  - subst b. cbn [app] in H. injection H as E _. lia.
  - assert (E : a :: pad (a =? 10) x ++ c :: s = e :: pad (e =? 10) y ++ c' :: s').
    { destruct b; cbn [app] in H; [injection H as -> H|injection H as -> H]; congruence. }
    injection E as -> E. destruct (IH (e =? 10) y c c' s s') as (-> & ?); auto.
Qed.
Definition ended (l : list Z) : list Z := l ++ [44; 10].
Lemma ended_start l b : line_start b (ended l) = true.
Proof. unfold ended. rewrite line_start_app. reflexivity. Qed.
Lemma ended_all ls : line_start true (flat_map ended ls) = true.
Proof. induction ls as [|l ls IH]; [reflexivity|]. cbn [flat_map]. rewrite line_start_app, ended_start. exact IH. Qed.
Lemma entries_pad ls : flat_map entry ls = pad true (flat_map ended ls).
Proof.
  induction ls as [|l ls IH]; [reflexivity|]. cbn [flat_map]. rewrite pad_app, ended_start, IH. reflexivity.
Qed.
Lemma entries_split ls ls' c s s' : c <> 32 -> flat_map entry ls ++ c :: s = flat_map entry ls' ++ c :: s' ->
  flat_map ended ls = flat_map ended ls' /\ s = s'.
Proof.
  intros Hc H. rewrite !entries_pad in H. apply pad_split in H; auto using ended_all.
  destruct H as (H & E). split; [exact H|]. congruence.
Qed.
Lemma joined_cons l ls : joined (l :: ls) = l ++ flat_map (fun l => [44; 32] ++ l) ls.
Proof.
  revert l. induction ls as [|m ls IH]; intros l; [cbn; now rewrite app_nil_r|].
  change (joined (l :: m :: ls)) with (l ++ [44; 32] ++ joined (m :: ls)). rewrite IH. cbn [flat_map app]. reflexivity.
Qed.

(** ** Builders *)
Definition decodes {A} (R : A -> A -> Prop) (P : A -> Prop) (r : A -> list Z) (x : A) : Prop :=
  forall y s s', P y -> stop s -> stop s' -> r x ++ s = r y ++ s' -> R x y /\ s = s'.
Definition opens (l : list Z) : Prop := exists x r, l = x :: r /\ x <> 93.

(** What is inside the parentheses of a tuple. *)
Lemma tuple_split {A} (R : A -> A -> Prop) P r (alt : bool) (x y : A) s s' : decodes R P r x -> P y ->
  ([40] ++ (if alt then [10] ++ entry (r x) else r x) ++ [41]) ++ s = ([40] ++ (if alt then [10] ++ entry (r y) else r y) ++ [41]) ++ s' ->
  R x y /\ s = s'.
Proof.
  intros D Hy H. cbn [app] in H. injection H as H. rewrite <- !app_assoc in H. destruct alt; cbn [app] in H.
  - injection H as H. pose proof (entries_split [r x] [r y] 41 s s') as E. cbn [flat_map] in E. rewrite !app_nil_r in E.
    destruct E as (E & ->); [lia|exact H|]. unfold ended in E. destruct (D y [44; 10] [44; 10] Hy) as (? & ?); [cbn; tauto|cbn; tauto|exact E|]. auto.
  - destruct (D y (41 :: s) (41 :: s') Hy) as (? & E); [cbn; tauto|cbn; tauto|exact H|]. split; [assumption|congruence].
Qed.
Lemma named_split n n' s s' : plain_word n -> plain_word n' -> text n ++ 40 :: s = text n' ++ 40 :: s' -> n = n' /\ s = s'.
Proof.
  intros (_ & Hn) (_ & Hn') H.
  assert (N : forall s x r, 40 :: s = x :: r -> ~ word_byte x) by (intros ? x r [= <- _]; unfold word_byte; lia).
  destruct (span_split word_byte (text n) (text n') (40 :: s) (40 :: s')) as (E & E'); eauto.
  split; [apply text_inj; exact E|congruence].
Qed.

Lemma ended_decodes {A} (R : A -> A -> Prop) P r (xs : list A) : Forall (decodes R P r) xs ->
  forall ys, Forall P ys -> flat_map ended (map r xs) = flat_map ended (map r ys) -> Forall2 R xs ys.
Proof.
  assert (N : forall l (k : list Z), ended l ++ k <> []) by (intros [|? ?] k; discriminate).
  induction 1 as [|x xs Hx Hxs IH]; intros [|y ys] Hy H; cbn [map flat_map] in H.
  - constructor.
  - symmetry in H. destruct (N _ _ H).
  - destruct (N _ _ H).
  - unfold ended at 1 3 in H. rewrite <- !app_assoc in H. inversion Hy; subst.
    edestruct (Hx y) as (? & E); [exact H2| | |exact H|]; [cbn; tauto..|]. cbn [app] in E. injection E as E. constructor; auto.
Qed.
Lemma tail_decodes {A} (R : A -> A -> Prop) P r (xs : list A) : Forall (decodes R P r) xs ->
  forall ys s s', Forall P ys ->
  flat_map (fun l => [44; 32] ++ l) (map r xs) ++ 93 :: s = flat_map (fun l => [44; 32] ++ l) (map r ys) ++ 93 :: s' -> Forall2 R xs ys /\ s = s'.
Proof.
  assert (St : forall ls s, stop (flat_map (fun l => [44; 32] ++ l) ls ++ 93 :: s)) by (intros [|l ls] s; cbn; tauto).
  induction 1 as [|x xs Hx Hxs IH]; intros [|y ys] s s' Hy H; cbn [map flat_map app] in H; try discriminate.
  - injection H as ->. auto.
  - injection H as H. rewrite <- !app_assoc in H. inversion Hy; subst.
    edestruct (Hx y) as (? & E); [exact H2| | |exact H|]; auto. destruct (IH ys s s' H3 E). auto.
Qed.
Lemma list_decodes {A} (R : A -> A -> Prop) P r alt (xs ys : list A) s s' : Forall (decodes R P r) xs -> Forall P ys -> (forall x, In x xs \/ In x ys -> opens (r x)) ->
  debug_list alt (map r xs) ++ s = debug_list alt (map r ys) ++ s' -> Forall2 R xs ys /\ s = s'.
Proof.
  assert (St : forall ls s, stop (flat_map (fun l => [44; 32] ++ l) ls ++ 93 :: s)) by (intros [|l ls] ?; cbn; tauto).
  intros D Hy Ho H. unfold debug_list in H. rewrite <- !app_assoc in H. cbn [app] in H. injection H as H. destruct alt.
  - destruct xs as [|x xs], ys as [|y ys].
    + cbn [map app] in H. injection H as ->. auto.
    + cbn [map app] in H. discriminate.
    + cbn [map app] in H. discriminate.
    + change (map r (x :: xs)) with (r x :: map r xs) in H. change (map r (y :: ys)) with (r y :: map r ys) in H. cbv iota in H.
      cbn [app] in H. injection H as H.
      destruct (entries_split (map r (x :: xs)) (map r (y :: ys)) 93 s s' ltac:(lia) H) as (E & ->). split; [|reflexivity]. eapply ended_decodes; eauto.
  - destruct xs as [|x xs], ys as [|y ys].
    + cbn [map joined app] in H. injection H as ->. auto.
    + cbn [map] in H. rewrite joined_cons in H. destruct (Ho y ltac:(right; left; reflexivity)) as (a & b & E & Ha).
      rewrite E in H. cbn [joined app] in H. injection H as ? _. congruence.
    + cbn [map] in H. rewrite joined_cons in H. destruct (Ho x ltac:(left; left; reflexivity)) as (a & b & E & Ha).
      rewrite E in H. cbn [joined app] in H. injection H as ? _. congruence.
    + cbn [map] in H. rewrite !joined_cons, <- !app_assoc in H. inversion D; inversion Hy; subst.
      match goal with Hd : decodes R P r x, Hp : P y |- _ => destruct (Hd y _ _ Hp (St _ _) (St _ _) H) as (? & E) end.
      eapply tail_decodes in E; eauto. destruct E. auto.
Qed.

(** * Numbers and strings *)
Lemma signed_bytes z : Forall number_byte (signed z) /\ signed z <> [].
Proof.
  assert (D : forall ds, Forall digit_code ds -> Forall number_byte ds).
  { apply Forall_impl. unfold digit_code, number_byte, word_byte. lia. }
  assert (N : forall n, 0 <= n -> Forall digit_code (decimal n) /\ decimal n <> []).
  { intros n Hn. pose proof (decimal_numeral n Hn) as H. split; [eapply numeral_digits; exact H|]. intros E. rewrite E in H. inversion H; congruence. }
  unfold signed. destruct (z <? 0) eqn:E.
  - split; [|discriminate]. constructor; [unfold number_byte; lia|]. apply D, N. lia.
  - split; [apply D|]; apply N; lia.
Qed.
Lemma signed_inj a b : signed a = signed b -> a = b.
Proof. intros H. eapply signed_value; [apply signed_numeral_ok|]. rewrite H. apply signed_numeral_ok. Qed.
Lemma signed_split a b s s' : stop s -> stop s' -> signed a ++ s = signed b ++ s' -> a = b /\ s = s'.
Proof. intros Hs Hs' H. apply number_split in H; auto using (fun z => proj1 (signed_bytes z)). destruct H as (H & ->). split; [apply signed_inj; exact H|reflexivity]. Qed.
Lemma bytes_open l : Forall number_byte l -> l <> [] -> opens l.
Proof. destruct l as [|x l]; intros H N; [congruence|]. inversion H; subst. exists x, l. split; [reflexivity|]. intros ->. destruct H2 as [H2|H2]; unfold word_byte in *; lia. Qed.
Lemma word_opens n s : plain_word n -> opens (text n ++ s).
Proof.
  intros (Hn & Hw). destruct n as [|a n]; [congruence|]. rewrite text_cons in *. inversion Hw; subst. eexists _, _. split; [reflexivity|].
  unfold word_byte in *. lia.
Qed.

Lemma chars_app u l : scalar_value u -> chars (utf8_char u ++ l) = (u, utf8_char u) :: chars l.
Proof.
  intros Hu. unfold scalar_value in Hu. unfold utf8_char.
  destruct (u <=? 127) eqn:E1; [cbn [app chars]; replace (u <? 128) with true by lia; reflexivity|].
  destruct (u <=? 2047) eqn:E2.
  { cbn [app chars]. replace (192 + u / 64 <? 128) with false by lia. replace (192 + u / 64 <? 224) with true by lia. do 2 f_equal. lia. }
  destruct (u <=? 65535) eqn:E3.
  { cbn [app chars]. replace (224 + u / 4096 <? 128) with false by lia. replace (224 + u / 4096 <? 224) with false by lia. replace (224 + u / 4096 <? 240) with true by lia.
    do 2 f_equal. lia. }
  cbn [app chars]. replace (240 + u / 262144 <? 128) with false by lia. replace (240 + u / 262144 <? 224) with false by lia. replace (240 + u / 262144 <? 240) with false by lia.
  do 2 f_equal. lia.
Qed.
Lemma chars_text us : Forall scalar_value us -> chars (utf8_text us) = map (fun u => (u, utf8_char u)) us.
Proof. induction 1 as [|u us Hu _ IH]; [reflexivity|]. cbn [utf8_text flat_map map]. rewrite chars_app by assumption. f_equal. exact IH. Qed.
Lemma utf8_first u : scalar_value u -> exists x r, utf8_char u = x :: r /\ (x = u \/ 192 <= x).
Proof.
  unfold scalar_value, utf8_char. intros Hu.
  repeat match goal with |- context [if ?b then _ else _] => destruct b eqn:? end; eexists _, _; (split; [reflexivity|]); lia.
Qed.
Lemma utf8_split u u' r r' : scalar_value u -> scalar_value u' -> utf8_char u ++ r = utf8_char u' ++ r' -> u = u' /\ r = r'.
Proof.
  intros Hu Hu' H. assert (E : chars (utf8_char u ++ r) = chars (utf8_char u' ++ r')) by congruence.
  rewrite !chars_app in E by assumption. injection E as -> _ _. split; [reflexivity|]. eapply app_inv_head; exact H.
Qed.

Lemma hex_digits u : Forall (fun b => b <> 125) (hex u).
Proof.
  unfold hex. generalize (N.to_hex_uint (Z.to_N u)). intros d.
  assert (H : forall d, Forall (fun b => b <> 125) (text (NilEmpty.string_of_uint d))).
  { clear. induction d; cbn [NilEmpty.string_of_uint]; rewrite ?text_cons; constructor; auto; cbn; lia. }
  destruct d; [repeat constructor; cbn; lia|..]; apply H.
Qed.
Lemma to_hex_nonnil n : N.to_hex_uint n <> Hexadecimal.Nil.
Proof. destruct n; [discriminate|]. apply HexadecimalPos.Unsigned.to_uint_nonnil. Qed.
Lemma hex_inj a b : 0 <= a -> 0 <= b -> hex a = hex b -> a = b.
Proof.
  intros Ha Hb H. unfold hex in H. apply text_inj in H.
  assert (E : NilZero.uint_of_string (NilZero.string_of_uint (N.to_hex_uint (Z.to_N a))) = NilZero.uint_of_string (NilZero.string_of_uint (N.to_hex_uint (Z.to_N b)))) by congruence.
  rewrite !NilZero.usu in E by apply to_hex_nonnil. injection E as E. apply HexadecimalN.Unsigned.to_uint_inj in E. lia.
Qed.
Definition short_escapes : list (Z * Z) := [(0, 48); (9, 116); (13, 114); (10, 110); (92, 92); (34, 34)].
Lemma escape_cases printable u : 
  (exists k, escape_char printable (u, utf8_char u) = [92; k] /\ In (u, k) short_escapes) \/
  (escape_char printable (u, utf8_char u) = utf8_char u /\ u <> 92 /\ u <> 34) \/
  escape_char printable (u, utf8_char u) = [92; 117; 123] ++ hex u ++ [125].
Proof.
  unfold escape_char, short_escapes.
  repeat match goal with |- context [if u =? ?k then _ else _] => destruct (u =? k) eqn:?; [left; eexists; split; [reflexivity|]; replace u with k by lia; cbn; tauto|] end.
  right. destruct (printable u); [left|right; reflexivity]. repeat split; lia.
Qed.
Lemma short_unique u u' k : In (u, k) short_escapes -> In (u', k) short_escapes -> u = u'.
Proof. cbn. intros H H'. repeat match goal with H : _ \/ _ |- _ => destruct H as [H|H] | H : False |- _ => destruct H end; congruence. Qed.
Lemma short_not_u u : ~ In (u, 117) short_escapes.
Proof. cbn. intros H. repeat match goal with H : _ \/ _ |- _ => destruct H as [H|H] | H : False |- _ => destruct H end; congruence. Qed.
Lemma escape_split printable u u' r r' : scalar_value u -> scalar_value u' ->
  escape_char printable (u, utf8_char u) ++ r = escape_char printable (u', utf8_char u') ++ r' -> u = u' /\ r = r'.
Proof.
  intros Hu Hu' H.
  destruct (utf8_first u Hu) as (x & q & Ex & Nx). destruct (utf8_first u' Hu') as (x' & q' & Ex' & Nx').
  destruct (escape_cases printable u) as [(k & E & I)|[(E & N1 & N2)|E]]; destruct (escape_cases printable u') as [(k' & E' & I')|[(E' & N1' & N2')|E']]; rewrite E, E' in H.
  - cbn [app] in H. injection H as <- <-. split; [eapply short_unique; eauto|reflexivity].
  - rewrite Ex' in H. cbn [app] in H. injection H as H _. lia.
  - cbn [app] in H. injection H as -> _. destruct (short_not_u _ I).
  - rewrite Ex in H. cbn [app] in H. injection H as H _. lia.
  - apply utf8_split; assumption.
  - rewrite Ex in H. cbn [app] in H. injection H as H _. lia.
  - cbn [app] in H. injection H as <- _. destruct (short_not_u _ I').
  - rewrite Ex' in H. cbn [app] in H. injection H as H _. lia.
  - cbn [app] in H. injection H as H. rewrite <- !app_assoc in H. cbn [app] in H. apply sep_split in H; [|apply hex_digits..].
    destruct H as (H & ->). split; [|reflexivity]. unfold scalar_value in *. apply hex_inj; [lia..|exact H].
Qed.
Lemma escape_first printable u r : scalar_value u -> exists x q, escape_char printable (u, utf8_char u) ++ r = x :: q /\ x <> 34.
Proof.
  intros Hu. destruct (utf8_first u Hu) as (x & q & Ex & Nx).
  destruct (escape_cases printable u) as [(k & E & I)|[(E & N1 & N2)|E]]; rewrite E.
  - eexists _, _. split; [reflexivity|lia].
  - rewrite Ex. eexists _, _. split; [reflexivity|lia].
  - eexists _, _. split; [reflexivity|lia].
Qed.
Lemma quoted_split printable us : forall us' s s', Forall scalar_value us -> Forall scalar_value us' ->
  flat_map (escape_char printable) (map (fun u => (u, utf8_char u)) us) ++ 34 :: s = flat_map (escape_char printable) (map (fun u => (u, utf8_char u)) us') ++ 34 :: s' ->
  us = us' /\ s = s'.
Proof.
  induction us as [|u us IH]; intros [|u' us'] s s' Hu Hu' H; cbn [map flat_map] in H; rewrite <- ?app_assoc in H.
  - cbn [app] in H. injection H as ->. auto.
  - inversion Hu'; subst. edestruct (escape_first printable u') as (x & q & E & N); [assumption|]. rewrite E in H. cbn [app] in H. injection H as H _. lia.
  - inversion Hu; subst. edestruct (escape_first printable u) as (x & q & E & N); [assumption|]. rewrite E in H. cbn [app] in H. injection H as H _. lia.
  - inversion Hu; inversion Hu'; subst. apply escape_split in H; auto. destruct H as (-> & H). destruct (IH us' s s') as (-> & ->); auto.
Qed.
Lemma str_split printable l l' s s' : well_formed_utf8 l -> well_formed_utf8 l' -> debug_str printable l ++ s = debug_str printable l' ++ s' -> l = l' /\ s = s'.
Proof.
  intros (us & Hu & ->) (us' & Hu' & ->) H. unfold debug_str in H. rewrite !chars_text in H by assumption. cbn [app] in H. injection H as H.
  rewrite <- !app_assoc in H. apply quoted_split in H; auto. destruct H as (-> & ->). auto.
Qed.

(** * Values *)
Section Values.
  Variables (printable : Z -> bool) (show : Z -> list Z) (alt : bool) (E : env).
  Hypothesis Show : prints_doubles show.
  Hypothesis Names : names_ok E.

  Notation dbg := (debug printable show alt E).
  Fixpoint named_fields (vs : list value) (fs : list field) : list (string * list Z) :=
    match vs, fs with
    | w :: vs', f :: fs' => (f_name f, dbg w (field_ty f)) :: named_fields vs' fs'
    | _, _ => []
    end.
  Lemma debug_struct_eq n fs vs : lookup E n = Some (DStruct fs) -> dbg (VStruct vs) (TNamed n) = debug_struct alt n (named_fields vs fs).
  Proof. intros H. cbn [debug]. rewrite H. reflexivity. Qed.

  Lemma tuple_opens n l : plain_word n -> opens (debug_tuple alt n l).
  Proof. apply word_opens. Qed.
  Lemma some_word : plain_word "Some".
  Proof. split; [discriminate|]. cbn. repeat (constructor; [unfold word_byte; lia|]). constructor. Qed.
  Lemma encoding_word : plain_word "Encoding".
  Proof. split; [discriminate|]. cbn. repeat (constructor; [unfold word_byte; lia|]). constructor. Qed.
  Lemma union_word n fs i f : lookup E n = Some (DUnion fs) -> nth_error fs i = Some f -> plain_word (f_name f).
  Proof.
    intros H N. destruct (Names _ _ H) as (_ & _ & W). rewrite Forall_forall in W. apply W. eapply nth_error_In; exact N.
  Qed.
  Lemma debug_opens t v : typed E t v -> opens (dbg v t).
  Proof.
    induction 1 using typed_mind with (P0 := fun _ _ => True) (P1 := fun _ _ => True); auto.
    - destruct b; eexists _, _; (split; [reflexivity|cbn; lia]).
    - apply bytes_open; apply signed_bytes.
    - apply bytes_open; apply signed_bytes.
    - apply bytes_open; apply signed_bytes.
    - apply bytes_open; apply signed_bytes.
    - destruct (proj1 Show z H). apply bytes_open; assumption.
    - eexists _, _; (split; [reflexivity|lia]).
    - eexists _, _; (split; [reflexivity|lia]).
    - eexists _, _; (split; [reflexivity|lia]).
    - eexists _, _; (split; [reflexivity|cbn; lia]).
    - apply tuple_opens, some_word.
    - eexists _, _; (split; [reflexivity|lia]).
    - apply tuple_opens. exact (proj1 (Names _ _ H)).
    - rewrite debug_struct_eq with (1 := H). apply word_opens. exact (proj1 (Names _ _ H)).
    - cbn [debug]. rewrite H, H0. apply tuple_opens. eapply union_word; eauto.
  Qed.

  Lemma shared_pieces pre post : post = [44; 10] \/ post = [] /\ pre = [44; 32] -> forall fs vs s, stop s ->
    stop (post ++ flat_map (fun '(n, l) => pre ++ text n ++ [58; 32] ++ l ++ post) (named_fields vs fs) ++ s).
  Proof. intros [->|(-> & ->)] fs vs s Hs; [cbn; tauto|]. destruct vs, fs; cbn; auto 8. Qed.

  Lemma struct_split n fs vs ws s s' : plain_word n -> List.length vs = List.length fs -> List.length ws = List.length fs ->
    (forall pre post, post = [44; 10] \/ post = [] /\ pre = [44; 32] -> forall s s', stop s -> stop s' ->
       flat_map (fun '(n, l) => pre ++ text n ++ [58; 32] ++ l ++ post) (named_fields vs fs) ++ s =
       flat_map (fun '(n, l) => pre ++ text n ++ [58; 32] ++ l ++ post) (named_fields ws fs) ++ s' -> indistinct_all vs ws /\ s = s') ->
    debug_struct alt n (named_fields vs fs) ++ s = debug_struct alt n (named_fields ws fs) ++ s' -> indistinct_all vs ws /\ s = s'.
  Proof.
    intros _ Lv Lw D H. unfold debug_struct in H. rewrite <- !app_assoc in H. apply app_inv_head in H.
    destruct fs as [|f fs], vs as [|v vs], ws as [|w ws]; try discriminate.
    { cbn [named_fields app] in H. subst. split; [constructor|reflexivity]. }
    set (a := named_fields (v :: vs) (f :: fs)) in *. set (b := named_fields (w :: ws) (f :: fs)) in *.
    assert (Ha : a = (f_name f, dbg v (field_ty f)) :: named_fields vs fs) by reflexivity.
    assert (Hb : b = (f_name f, dbg w (field_ty f)) :: named_fields ws fs) by reflexivity.
    assert (H' : ([32; 123] ++ (if alt then [10] ++ flat_map entry (map (fun '(n0, l) => text n0 ++ [58; 32] ++ l) a) else [32] ++ joined (map (fun '(n0, l) => text n0 ++ [58; 32] ++ l) a) ++ [32]) ++ [125]) ++ s =
                 ([32; 123] ++ (if alt then [10] ++ flat_map entry (map (fun '(n0, l) => text n0 ++ [58; 32] ++ l) b) else [32] ++ joined (map (fun '(n0, l) => text n0 ++ [58; 32] ++ l) b) ++ [32]) ++ [125]) ++ s').
    { rewrite Ha, Hb in H |- *. exact H. }
    clear H. rename H' into H. rewrite <- !app_assoc in H. apply app_inv_head in H.
    assert (M : forall pre post l, flat_map (fun '(n0, l) => pre ++ text n0 ++ [58; 32] ++ l ++ post) l = flat_map (fun l => pre ++ l ++ post) (map (fun '(n0, l) => text n0 ++ [58; 32] ++ l) l)).
    { clear. induction l as [|(m, l) r IH]; [reflexivity|]. cbn [flat_map map]. rewrite IH. rewrite <- !app_assoc. reflexivity. }
    destruct alt.
    - rewrite <- !app_assoc in H. apply app_inv_head in H. cbn [app] in H. apply entries_split in H; [|lia]. destruct H as (H & ->).
      destruct (D [] [44; 10] (or_introl eq_refl) [] []) as (? & _); [exact I|exact I| |auto].
      rewrite !app_nil_r, !(M [] [44; 10]). exact H.
    - rewrite <- !app_assoc in H. apply app_inv_head in H.
      destruct (D [44; 32] [] (or_intror (conj eq_refl eq_refl)) (32 :: 125 :: s) (32 :: 125 :: s')) as (? & Es); [cbn; tauto..| |split; [assumption|congruence]].
      rewrite !(M [44; 32] []).
      assert (J : forall x l, [44; 32] ++ joined (map (fun '(n0, l) => text n0 ++ [58; 32] ++ l) (x :: l)) = flat_map (fun l => [44; 32] ++ l ++ []) (map (fun '(n0, l) => text n0 ++ [58; 32] ++ l) (x :: l))).
      { intros x l. cbn [map]. rewrite joined_cons. cbn [flat_map]. rewrite app_nil_r, <- app_assoc. do 2 f_equal. apply flat_map_ext. intros k. rewrite app_nil_r. reflexivity. }
      rewrite Ha, Hb in H |- *. rewrite <- !J, <- !app_assoc. f_equal. exact H.
  Qed.

  Lemma typed_length fs vs : typed_fields E fs vs -> List.length vs = List.length fs.
  Proof. induction 1; cbn [List.length]; auto. Qed.
  Lemma seq_Forall t vs : typed_seq E t vs -> Forall (typed E t) vs.
  Proof. induction 1; constructor; auto. Qed.
  Lemma indistinct_Forall2 vs ws : Forall2 indistinct vs ws -> indistinct_all vs ws.
  Proof. induction 1; constructor; auto. Qed.
  Lemma Forall2_eq {A} (a b : list A) : Forall2 eq a b -> a = b.
  Proof. induction 1; congruence. Qed.

  Lemma debug_decodes : (forall t v, typed E t v -> decodes indistinct (typed E t) (fun w => dbg w t) v) /\
    (forall t vs, typed_seq E t vs -> Forall (decodes indistinct (typed E t) (fun w => dbg w t)) vs) /\
    (forall fs vs, typed_fields E fs vs -> forall ws, typed_fields E fs ws -> 
       forall pre post, post = [44; 10] \/ post = [] /\ pre = [44; 32] -> forall s s', stop s -> stop s' ->
       flat_map (fun '(n, l) => pre ++ text n ++ [58; 32] ++ l ++ post) (named_fields vs fs) ++ s =
       flat_map (fun '(n, l) => pre ++ text n ++ [58; 32] ++ l ++ post) (named_fields ws fs) ++ s' -> indistinct_all vs ws /\ s = s').
  Proof.
    apply typed_mutind; unfold decodes.
    - intros b y s s' Hy Hs Hs' H. inversion Hy; subst. cbn [debug] in H.
      assert (B : forall b, Forall number_byte (show_bool b)).
      { intros []; cbn; repeat (constructor; [unfold number_byte, word_byte; lia|]); constructor. }
      apply number_split in H; auto. destruct H as (H & ->). destruct b, b0; try discriminate; split; constructor.
    - intros z Hz y s s' Hy Hs Hs' H. inversion Hy; subst. apply signed_split in H; auto. destruct H as (-> & ->). split; constructor.
    - intros z Hz y s s' Hy Hs Hs' H. inversion Hy; subst. apply signed_split in H; auto. destruct H as (-> & ->). split; constructor.
    - intros z Hz y s s' Hy Hs Hs' H. inversion Hy; subst. apply signed_split in H; auto. destruct H as (-> & ->). split; constructor.
    - intros z Hz y s s' Hy Hs Hs' H. inversion Hy; subst. apply signed_split in H; auto. destruct H as (-> & ->). split; constructor.
    - intros z Hz y s s' Hy Hs Hs' H. inversion Hy; subst. destruct Show as (S1 & S2). cbn [debug] in H.
      apply number_split in H; auto; [|apply S1; assumption..]. destruct H as (H & ->). split; [|reflexivity].
      apply S2 in H; auto. destruct H as [->|(? & ?)]; constructor; auto.
    - intros l Hl y s s' Hy Hs Hs' H. inversion Hy; subst. cbn [debug] in H.
      apply list_decodes with (R := eq) (P := fun _ => True) in H.
      + destruct H as (H & ->). apply Forall2_eq in H. subst. split; constructor.
      + apply Forall_forall. intros x _ z u u' _ Hu Hu' Ex. apply signed_split; assumption.
      + apply Forall_forall. auto.
      + intros x _. apply bytes_open; apply signed_bytes.
    - intros l Hb Hl y s s' Hy Hs Hs' H. inversion Hy; subst. cbn [debug] in H. apply str_split in H; auto. destruct H as (-> & ->). split; constructor.
    - intros t vs Ht Hvs IH y s s' Hy Hs Hs' H. inversion Hy; subst. cbn [debug] in H.
      apply list_decodes with (R := indistinct) (P := typed E t) in H; auto.
      + destruct H as (H & ->). split; [|reflexivity]. constructor. apply indistinct_Forall2; assumption.
      + apply seq_Forall; assumption.
      + intros x [I|I]; apply debug_opens; eapply Forall_forall; try exact I; apply seq_Forall; assumption.
    - intros t Ht y s s' Hy Hs Hs' H. inversion Hy; subst; cbn [debug] in H.
      + apply app_inv_head in H. subst. split; constructor.
      + unfold debug_tuple in H. cbn in H. discriminate.
    - intros t v Hv IH y s s' Hy Hs Hs' H. inversion Hy; subst; cbn [debug] in H.
      + unfold debug_tuple in H. cbn in H. discriminate.
      + unfold debug_tuple in H. rewrite <- !(app_assoc (text "Some")) in H. apply app_inv_head in H.
        apply (tuple_split indistinct (typed E t) (fun w => dbg w t)) in H; auto. destruct H as (H & ->). split; [constructor; assumption|reflexivity].
    - intros t v Hv IH y s s' Hy Hs Hs' H. inversion Hy; subst; cbn [debug] in H. edestruct IH as (I & ->); [| | |exact H|]; auto. split; constructor; assumption.
    - intros t u v Hv IH y s s' Hy Hs Hs' H. inversion Hy; subst; cbn [debug] in H. edestruct IH as (I & ->); [| | |exact H|]; auto. split; constructor; assumption.
    - intros m Hm y s s' Hy Hs Hs' H. inversion Hy; subst. cbn [debug] in H.
      apply list_decodes with (R := eq) (P := fun _ => True) in H.
      + destruct H as (H & ->). apply Forall2_eq in H. split; [|reflexivity].
        rewrite <- (set_of_iter m), <- (set_of_iter m0), H by assumption. constructor.
      + apply Forall_forall. intros x _ z u u' _ Hu Hu' Ex. unfold debug_tuple in Ex. rewrite <- !(app_assoc (text "Encoding")) in Ex. apply app_inv_head in Ex.
        apply (tuple_split eq (fun _ => True) signed) in Ex; auto. intros p q q' _ Hq Hq' Ep. apply signed_split; assumption.
      + apply Forall_forall. auto.
      + intros x _. apply tuple_opens, encoding_word.
    - intros n z Hn Hz y s s' Hy Hs Hs' H. inversion Hy; subst; try congruence. cbn [debug] in H.
      unfold debug_tuple in H. rewrite <- !(app_assoc (text n)) in H. apply app_inv_head in H.
      apply (tuple_split eq (fun _ => True) signed) in H; auto. { destruct H as (-> & ->). split; constructor. } intros p q q' _ Hq Hq' Ep. apply signed_split; assumption.
    - intros n fs vs Hn Hvs IH y s s' Hy Hs Hs' H. inversion Hy; subst; try congruence.
      match goal with H1 : lookup E n = Some (DStruct ?a) |- _ => assert (a = fs) by congruence; subst a end.
      rewrite !(debug_struct_eq n fs) in H by assumption. apply struct_split in H; eauto using typed_length.
      + destruct H as (H & ->). split; [constructor; assumption|reflexivity].
      + exact (proj1 (Names _ _ Hn)).
    - intros n fs i f v Hn Hi Hv IH y s s' Hy Hs Hs' H. inversion Hy; subst; try congruence.
      match goal with H1 : lookup E n = Some (DUnion ?a) |- _ => assert (a = fs) by congruence; subst a end.
      cbn [debug] in H. rewrite Hn, Hi, H2 in H. unfold debug_tuple in H. rewrite <- !app_assoc in H. cbn [app] in H.
      assert (En : f_name f = f_name f0).
      { eapply named_split; [| |exact H]; eapply union_word; eauto. }
      destruct (Names _ _ Hn) as (_ & Nd & _).
      assert (i = i0).
      { rewrite NoDup_nth_error in Nd. apply Nd; [rewrite map_length; apply nth_error_Some; congruence|]. rewrite !nth_error_map, Hi, H2. cbn. congruence. }
      subst i0. assert (f0 = f) by congruence. subst f0. apply app_inv_head in H.
      destruct (tuple_split indistinct (typed E (f_ty f)) (fun w => dbg w (f_ty f)) alt v v0 s s') as (I & ->); auto.
      { cbn [app]. rewrite <- !app_assoc. exact H. }
      split; [constructor; assumption|reflexivity].
    - constructor.
    - intros. constructor; auto.
    - intros ws Hws pre post Hp s s' Hs Hs' H. inversion Hws; subst. cbn [named_fields flat_map app] in H. split; [constructor|assumption].
    - intros f fs v vs Hv IHv Hvs IHvs ws Hws pre post Hp s s' Hs Hs' H. inversion Hws; subst.
      cbn [named_fields flat_map] in H. rewrite <- !app_assoc in H. do 3 apply app_inv_head in H.
      edestruct IHv as (I & K); [| | |exact H|]; [assumption|apply shared_pieces; assumption..|].
      apply app_inv_head in K. edestruct IHvs as (Is & Es); [| | | |exact K|]; eauto. split; [constructor; assumption|exact Es].
  Qed.

  Lemma debug_same : (forall t v, typed E t v -> forall w, typed E t w -> indistinct v w -> dbg v t = dbg w t) /\
    (forall t vs, typed_seq E t vs -> forall ws, typed_seq E t ws -> indistinct_all vs ws -> map (fun w => dbg w t) vs = map (fun w => dbg w t) ws) /\
    (forall fs vs, typed_fields E fs vs -> forall ws, typed_fields E fs ws -> indistinct_all vs ws -> named_fields vs fs = named_fields ws fs).
  Proof.
    apply typed_mutind; intros;
      try (match goal with I : indistinct _ _ |- _ => inversion I; subst; reflexivity end).
    - match goal with I : indistinct _ _ |- _ => inversion I; subst; [reflexivity|] end.
      match goal with T : typed _ _ _ |- _ => inversion T; subst end. cbn [debug]. apply (proj2 Show); auto.
    - match goal with I : indistinct _ _ |- _ => inversion I; subst end. match goal with T : typed _ (TVec _) _ |- _ => inversion T; subst end. cbn [debug]. f_equal. auto.
    - match goal with I : indistinct _ _ |- _ => inversion I; subst end. match goal with T : typed _ (TOption _) (VSome _) |- _ => inversion T; subst end. cbn [debug]. f_equal. auto.
    - match goal with I : indistinct _ _ |- _ => inversion I; subst end. match goal with T : typed _ (TBox _) _ |- _ => inversion T; subst end. cbn [debug]. auto.
    - match goal with I : indistinct _ _ |- _ => inversion I; subst end. match goal with T : typed _ (TShared _) _ |- _ => inversion T; subst end. cbn [debug]. auto.
    - match goal with I : indistinct _ _ |- _ => inversion I; subst end. match goal with T : typed _ (TNamed _) (VStruct _) |- _ => inversion T; subst end.
      match goal with H1 : lookup E n = Some (DStruct ?a), H2 : lookup E n = Some (DStruct fs) |- _ => assert (a = fs) by congruence; subst a end.
      rewrite !(debug_struct_eq n fs) by assumption. f_equal. auto.
    - match goal with I : indistinct _ _ |- _ => inversion I; subst end. match goal with T : typed _ (TNamed _) (VUnion _ _) |- _ => inversion T; subst end.
      match goal with H1 : lookup E n = Some (DUnion ?a), H2 : lookup E n = Some (DUnion fs) |- _ => assert (a = fs) by congruence; subst a end.
      match goal with H1 : nth_error fs i = Some ?a, H2 : nth_error fs i = Some f |- _ => assert (a = f) by congruence; subst a end.
      cbn [debug]. rewrite H, H0. f_equal. auto.
    - match goal with I : indistinct_all _ _ |- _ => inversion I; subst; reflexivity end.
    - match goal with I : indistinct_all _ _ |- _ => inversion I; subst end. match goal with T : typed_seq _ _ (_ :: _) |- _ => inversion T; subst end. cbn [map]. f_equal; auto.
    - match goal with I : indistinct_all _ _ |- _ => inversion I; subst; reflexivity end.
    - match goal with I : indistinct_all _ _ |- _ => inversion I; subst end. match goal with T : typed_fields _ _ (_ :: _) |- _ => inversion T; subst end. cbn [named_fields]. f_equal; [f_equal|]; auto.
  Qed.
  Lemma debug_iff t v w : typed E t v -> typed E t w -> dbg v t = dbg w t <-> indistinct v w.
  Proof.
    intros Hv Hw. split; [|apply debug_same; assumption]. intros H.
    destruct (proj1 debug_decodes t v Hv w [] [] Hw I I) as (R & _); [rewrite !app_nil_r; exact H|exact R].
  Qed.
  Lemma debug_line t v w s s' : typed E t v -> typed E t w -> dbg v t ++ newline ++ s = dbg w t ++ newline ++ s' -> indistinct v w /\ s = s'.
  Proof.
    intros Hv Hw H. destruct (proj1 debug_decodes t v Hv w (newline ++ s) (newline ++ s') Hw) as (R & Es); [cbn; tauto..|exact H|].
    split; [exact R|]. apply app_inv_head in Es. exact Es.
  Qed.
End Values.

(** * A printer of doubles and the names of Parquet *)
From Verif Require Import Equality P_Equal P_Gen.
Definition show_bits (z : Z) : list Z := if f64_nan z then text "NaN" else decimal z.
Lemma show_bits_ok : prints_doubles show_bits.
Proof.
  assert (D : forall z, 0 <= z -> Forall digit_code (decimal z) /\ decimal z <> []).
  { intros n Hn. pose proof (decimal_numeral n Hn) as H. split; [eapply numeral_digits; exact H|]. intros E. rewrite E in H. inversion H; congruence. }
  assert (X : forall z, 0 <= z -> text "NaN" = decimal z -> False).
  { intros z Hz E. destruct (D z Hz) as (F & _). rewrite <- E in F. inversion F; subst. unfold digit_code in *. cbn in *. lia. }
  split.
  - intros a Ha. unfold show_bits. destruct (f64_nan a).
    + split; [discriminate|]. cbn. repeat (constructor; [unfold number_byte, word_byte; lia|]). constructor.
    + destruct (D a ltac:(unfold in_u in Ha; lia)) as (F & N). split; [exact N|]. revert F. apply Forall_impl. unfold digit_code, number_byte, word_byte. lia.
  - intros a b Ha Hb. rewrite <- (nan_iff a Ha), <- (nan_iff b Hb). unfold show_bits. unfold in_u in Ha, Hb. destruct (f64_nan a) eqn:Ea, (f64_nan b) eqn:Eb.
    + tauto.
    + split; [intros H; exfalso; eapply X; [|exact H]; lia|]. intros [->|(_ & ?)]; congruence.
    + split; [intros H; exfalso; eapply X; [|symmetry; exact H]; lia|]. intros [->|(? & _)]; congruence.
    + split; [intros H; left; apply decimal_inj; [lia..|exact H]|]. intros [->|(? & _)]; [reflexivity|congruence].
Qed.

Definition word_byteb (b : Z) : bool := (48 <=? b) && (b <=? 57) || (65 <=? b) && (b <=? 90) || (b =? 95) || (97 <=? b) && (b <=? 122).
Definition plain_wordb (s : string) : bool := negb (String.eqb s EmptyString) && forallb word_byteb (text s).
Lemma plain_wordb_ok s : plain_wordb s = true -> plain_word s.
Proof.
  unfold plain_wordb. intros H. apply andb_true_iff in H as [H1 H2]. split; [intros ->; discriminate|].
  apply Forall_forall. intros x Hx. rewrite forallb_forall in H2. specialize (H2 x Hx). unfold word_byteb in H2. unfold word_byte. lia.
Qed.
Fixpoint distinctb (l : list string) : bool := match l with [] => true | x :: l' => negb (existsb (String.eqb x) l') && distinctb l' end.
Lemma distinctb_ok l : distinctb l = true -> NoDup l.
Proof.
  induction l as [|x l IH]; intros H; [constructor|]. cbn [distinctb] in H. apply andb_true_iff in H as [H1 H2]. constructor; auto.
  intros I. apply negb_true_iff in H1. assert (existsb (String.eqb x) l = true) by (apply existsb_exists; exists x; split; [exact I|apply String.eqb_refl]). congruence.
Qed.
Lemma parquet_names : names_ok parquet_env.
Proof.
  intros n d H. apply lookup_In in H.
  assert (G : forallb (fun '(n, d) => plain_wordb n && match d with DUnion fs => distinctb (map f_name fs) && forallb (fun f => plain_wordb (f_name f)) fs | DStruct fs => forallb (fun f => plain_wordb (f_name f)) fs | DEnum => true end) parquet_env = true) by (vm_compute; reflexivity).
  rewrite forallb_forall in G. specialize (G _ H). cbv beta iota in G. apply andb_true_iff in G as [G1 G2]. split; [apply plain_wordb_ok; exact G1|].
  destruct d; [| |exact I]. { apply Forall_forall. intros f Hf. rewrite forallb_forall in G2. apply plain_wordb_ok. auto. }
  apply andb_true_iff in G2 as [G2 G3]. split; [apply distinctb_ok; exact G2|].
  apply Forall_forall. intros f Hf. rewrite forallb_forall in G3. apply plain_wordb_ok. auto.
Qed.

(** * dump.rs *)
Section Dump.
  Variables (printable : Z -> bool) (show : Z -> list Z) (c : cfg) (alloc : Z -> bool) (f : file).
  Hypothesis Hc : cfg_ok c.
  Hypothesis Hh : healthy f.
  Hypothesis Hb : bytes (data f).
  Hypothesis Ha : forall n, alloc n = true.
  Hypothesis Hsz : zlen (data f) < 2 ^ (usize_bits c - 1).

  Lemma dump_prints d m v : reserve_ok c -> parquet_file (data f) m -> enc parquet_env (TNamed "FileMetaData") v m ->
    (need 12 (TNamed "FileMetaData") (List.length m) <= d)%nat ->
    dump printable show c alloc d f = (debug printable show true parquet_env v (TNamed "FileMetaData") ++ newline, POk tt).
  Proof.
    intros Hres Hm He Hd. pose proof (chunk_bytes f m Hb Hm) as Hbm. destruct parquet_ok as (_ & HE & _).
    destruct (read_conforming c parquet_env 12 (TNamed "FileMetaData") v m d Hc Hres HE eq_refl He Hd) as [Hr _].
    specialize (Hr []). rewrite app_nil_r in Hr. specialize (Hr Hbm).
    unfold dump. rewrite (proj2 (metadata_ok_iff c alloc Hc f m Hh Hb Ha Hsz) Hm), Hr. reflexivity.
  Qed.
  Lemma dump_finished d out : dump printable show c alloc d f = (out, POk tt) ->
    exists m s' v, parquet_file (data f) m /\ read_thrift c (slice_input c) parquet_env d (TNamed "FileMetaData") m = (s', Ok v) /\
      typed parquet_env (TNamed "FileMetaData") v /\ out = debug printable show true parquet_env v (TNamed "FileMetaData") ++ newline.
  Proof.
    unfold dump. intros H. destruct (snd (get_metadata_chunk c alloc f)) as [m|e|p] eqn:E; [|discriminate..].
    pose proof (proj1 (metadata_ok_iff c alloc Hc f m Hh Hb Ha Hsz) E) as Hm. pose proof (chunk_bytes f m Hb Hm) as Hbm.
    destruct (read_thrift c (slice_input c) parquet_env d (TNamed "FileMetaData") m) as [s' [v|e|p]] eqn:Hr; [|discriminate..].
    cbn [snd] in H. injection H as <-. exists m, s', v. repeat (split; [auto|]); [|reflexivity].
    eapply (P_Valid.read_slice_valid c parquet_env 12); eauto.
  Qed.
  Lemma dump_panics d out p : (need 12 (TNamed "FileMetaData") (List.length (data f)) <= d)%nat ->
    dump printable show c alloc d f = (out, PPanic p) -> slice_panic c p.
  Proof.
    intros Hd H. unfold dump in H. destruct (metadata_otherwise c alloc Hc f Hh Hb (fun n _ => Ha n) Hsz) as [[m E]|[E|E]]; [|rewrite E in H; discriminate..].
    pose proof (proj1 (metadata_ok_iff c alloc Hc f m Hh Hb Ha Hsz) E) as Hm. pose proof (chunk_bytes f m Hb Hm) as Hbm.
    assert (Hlen : (List.length m <= List.length (data f))%nat) by (destruct Hm as (_ & pre & ->); rewrite !app_length; lia).
    assert (Hdm : (need 12 (TNamed "FileMetaData") (List.length m) <= d)%nat) by (unfold need in *; lia).
    rewrite E in H. destruct (read_thrift c (slice_input c) parquet_env d (TNamed "FileMetaData") m) as [s' [v|e|q]] eqn:Hr; cbn [snd] in H; [discriminate..|].
    injection H as <- <-.
    apply (P_Robust.read_slice_panic c parquet_env 12 d (TNamed "FileMetaData") m q Hc eq_refl eq_refl Hbm Hdm). rewrite Hr. reflexivity.
  Qed.
End Dump.
Lemma dump_silent printable show c alloc d f out r : dump printable show c alloc d f = (out, r) -> r <> POk tt -> out = [].
Proof.
  unfold dump. destruct (snd (get_metadata_chunk c alloc f)) as [m|e|p]; [|intros [= <- <-]; reflexivity..].
  destruct (snd (read_thrift c (slice_input c) parquet_env d (TNamed "FileMetaData") m)) as [v|e|p]; [|intros [= <- <-]; reflexivity..].
  intros [= <- <-] H. congruence.
Qed.
Lemma dump_determines printable show c alloc d f g out : prints_doubles show -> cfg_ok c -> healthy f -> healthy g -> bytes (data f) -> bytes (data g) ->
  (forall n, alloc n = true) -> zlen (data f) < 2 ^ (usize_bits c - 1) -> zlen (data g) < 2 ^ (usize_bits c - 1) ->
  dump printable show c alloc d f = (out, POk tt) -> dump printable show c alloc d g = (out, POk tt) ->
  exists m n s s' v w, parquet_file (data f) m /\ parquet_file (data g) n /\
    read_thrift c (slice_input c) parquet_env d (TNamed "FileMetaData") m = (s, Ok v) /\
    read_thrift c (slice_input c) parquet_env d (TNamed "FileMetaData") n = (s', Ok w) /\ indistinct v w.
Proof.
  intros Hs Hc Hf Hg Bf Bg Ha Lf Lg H1 H2.
  destruct (dump_finished printable show c alloc f Hc Hf Bf Ha Lf d out H1) as (m & s & v & M1 & R1 & T1 & E1).
  destruct (dump_finished printable show c alloc g Hc Hg Bg Ha Lg d out H2) as (n & s' & w & M2 & R2 & T2 & E2).
  exists m, n, s, s', v, w. repeat (split; [assumption|]). 
  apply (debug_iff printable show true parquet_env Hs parquet_names _ _ _ T1 T2). rewrite E1 in E2. eapply app_inv_tail; exact E2.
Qed.
