(** error.rs: proofs of C53, C60. *)
From Coq Require Import Ascii DecimalString DecimalPos DecimalN ZifyBool.
From Verif Require Import Base Utf8 Types Parquet SpecUtf8 P_Utf8 ErrorName.
Ltac Zify.zify_post_hook ::= Z.div_mod_to_equations.

Lemma c_str_ok pre post : ~ In 0 pre -> c_str (pre ++ 0 :: post) = Ok pre.
Proof.
  induction pre as [|b pre IH]; intros H; cbn [app c_str]; [reflexivity|]. destruct (b =? 0) eqn:E; [destruct H; left; lia|].
  rewrite IH by (intros Hi; apply H; right; exact Hi). reflexivity.
Qed.
Lemma first_nul (l : list Z) : In 0 l -> exists pre post, l = pre ++ 0 :: post /\ ~ In 0 pre.
Proof.
  induction l as [|b l IH]; intros []; [subst; exists [], l; split; [reflexivity|intros []]|]. destruct (Z.eq_dec b 0) as [-> | Hb]; [exists [], l; split; [reflexivity|intros []]|].
  destruct (IH H) as (pre & post & -> & Hn). exists (b :: pre), post. split; [reflexivity|]. intros [?|?]; congruence || tauto.
Qed.
Lemma from_str_ok s : name_from_str (s ++ [0]) = Ok (s ++ [0]).
Proof. unfold name_from_str. rewrite last_last. destruct s; reflexivity. Qed.
Lemma from_str_iff s p : name_from_str s = Ok p <-> p = s /\ exists t, s = t ++ [0].
Proof.
  split.
  - destruct s as [|b s] using rev_ind; [discriminate|]. unfold name_from_str. rewrite last_last. destruct (b =? 0) eqn:E; [|rewrite andb_false_r; discriminate].
    assert (b = 0) by lia. subst b. destruct (_ && _); intros [= <-]. eauto.
  - intros (-> & t & ->). apply from_str_ok.
Qed.
Lemma from_str_panic s : (forall t, s <> t ++ [0]) -> name_from_str s = Panic PAssert.
Proof.
  intros H. destruct s as [|b s] using rev_ind; [reflexivity|]. unfold name_from_str. rewrite last_last. destruct (b =? 0) eqn:E; [destruct (H s); f_equal; f_equal; lia|].
  rewrite andb_false_r. reflexivity.
Qed.

Lemma char_nul u : scalar_value u -> u <> 0 -> ~ In 0 (utf8_char u).
Proof.
  intros Hu H0. unfold scalar_value in Hu. unfold utf8_char.
  destruct (u <=? 127) eqn:E1; [intros [?|[]]; lia|]. destruct (u <=? 2047) eqn:E2; [intros [?|[?|[]]]; lia|].
  destruct (u <=? 65535) eqn:E3; [intros [?|[?|[?|[]]]]; lia|intros [?|[?|[?|[?|[]]]]]; lia].
Qed.
Lemma split_nul (a b pre post : list Z) : ~ In 0 a -> a ++ b = pre ++ 0 :: post -> exists pre', pre = a ++ pre' /\ b = pre' ++ 0 :: post.
Proof.
  revert pre. induction a as [|x a IH]; intros pre Ha H; [exists pre; auto|]. destruct pre as [|y pre]; cbn [app] in H; injection H as -> H.
  - destruct Ha. left. reflexivity.
  - apply IH in H as (pre' & -> & ->); [|intros Hi; apply Ha; right; exact Hi]. exists pre'. auto.
Qed.
Lemma text_before us : forall pre post, Forall scalar_value us -> utf8_text us = pre ++ 0 :: post -> ~ In 0 pre -> well_formed_utf8 pre.
Proof.
  induction us as [|u us IH]; intros pre post Hus H Hpre; [destruct pre; discriminate|]. inversion Hus as [|? ? Hu Hus']; subst. unfold utf8_text in H. cbn [flat_map] in H.
  destruct (Z.eq_dec u 0) as [-> | Hu0].
  - cbn in H. destruct pre as [|b pre]; [apply well_formed_nil|]. injection H as <- _. destruct Hpre. left. reflexivity.
  - apply split_nul in H as (pre' & -> & H); [|apply char_nul; auto]. apply well_formed_cons; [exact Hu|]. eapply IH; eauto. intros Hi. apply Hpre, in_or_app. auto.
Qed.
Lemma display_str replaced s pre post : well_formed_utf8 (s ++ [0]) -> s ++ [0] = pre ++ 0 :: post -> ~ In 0 pre ->
  exists p, name_from_str (s ++ [0]) = Ok p /\ display_name replaced p = Ok pre.
Proof.
  intros (us & Hus & Hs) H Hpre. exists (s ++ [0]). split; [apply from_str_ok|]. unfold display_name. rewrite H, c_str_ok by exact Hpre.
  rewrite utf8_valid_complete; [reflexivity|]. apply (text_before us pre post Hus); [congruence|exact Hpre].
Qed.
Lemma display_cstr replaced s : ~ In 0 s -> display_name replaced (name_from_cstr s) = Ok (if utf8_valid s then s else replaced s).
Proof. intros H. unfold display_name, name_from_cstr. rewrite c_str_ok by exact H. reflexivity. Qed.
Lemma name_reads replaced p : (exists s, name_from_str s = Ok p) \/ (exists s, ~ In 0 s /\ p = name_from_cstr s) ->
  (exists t, display_name replaced p = Ok t) /\ (exists t, debug_name p = Ok t).
Proof.
  intros H. assert (Hp : In 0 p).
  { destruct H as [(s & H)|(s & _ & ->)]; [apply from_str_iff in H as (-> & t & ->)|]; unfold name_from_cstr; apply in_or_app; right; left; reflexivity. }
  apply first_nul in Hp as (pre & post & -> & Hn). unfold display_name, debug_name. rewrite c_str_ok by exact Hn. eauto.
Qed.

(** * Errors *)
Lemma text_inj a b : text a = text b -> a = b.
Proof.
  unfold text. intros H. assert (Hl : list_ascii_of_string a = list_ascii_of_string b).
  { revert H. generalize (list_ascii_of_string a) (list_ascii_of_string b). induction l as [|x l IH]; intros [|y l'] H; try discriminate; [reflexivity|].
    cbn [map] in H. injection H as Hx H. apply IH in H. subst l'. f_equal. apply Nat2Z.inj in Hx. rewrite <- (ascii_nat_embedding x), <- (ascii_nat_embedding y). congruence. }
  rewrite <- (string_of_list_ascii_of_string a), <- (string_of_list_ascii_of_string b). congruence.
Qed.
Lemma text_bytes a : Forall is_byte (text a).
Proof.
  unfold text. apply Forall_map, Forall_forall. intros x _. pose proof (nat_ascii_bounded x). unfold is_byte. lia.
Qed.

Definition unhex (n : Z) : Z := if n <? 58 then n - 48 else n - 87.
Definition unescape (l : list Z) : option (Z * list Z) :=
  match l with
  | [] => None
  | b :: r =>
      if b =? 92 then
        match r with
        | [] => None
        | k :: r =>
            if k =? 116 then Some (9, r) else if k =? 114 then Some (13, r) else if k =? 110 then Some (10, r)
            else if k =? 120 then match r with h :: l :: r => Some (16 * unhex h + unhex l, r) | _ => None end
            else Some (k, r)
        end
      else Some (b, r)
  end.
Lemma unhex_digit n : 0 <= n < 16 -> unhex (hex_digit n) = n.
Proof. unfold unhex, hex_digit. intros H. destruct (n <? 10) eqn:E; [replace (48 + n <? 58) with true by lia|replace (87 + n <? 58) with false by lia]; lia. Qed.
Lemma unescape_escape b r : is_byte b -> unescape (escape b ++ r) = Some (b, r).
Proof.
  unfold is_byte. intros Hb. unfold escape.
  repeat match goal with |- context [if ?x =? ?k then _ else _] => destruct (x =? k) eqn:?; [replace b with k by lia; reflexivity|] end.
  destruct ((32 <=? b) && (b <=? 126)) eqn:E.
  - cbn [app unescape]. replace (b =? 92) with false by lia. reflexivity.
  - cbn [app unescape]. change (92 =? 92) with true. change (120 =? 116) with false. change (120 =? 114) with false. change (120 =? 110) with false. change (120 =? 120) with true. cbv iota.
    rewrite !unhex_digit by lia. do 2 f_equal. lia.
Qed.
Lemma escape_nonempty b : exists x r, escape b = x :: r.
Proof. unfold escape. repeat match goal with |- context [if ?x then _ else _] => destruct x end; eauto. Qed.
Lemma escapes_inj a : forall b, Forall is_byte a -> Forall is_byte b -> flat_map escape a = flat_map escape b -> a = b.
Proof.
  induction a as [|x a IH]; intros [|y b] Ha Hb H; [reflexivity| | |].
  - cbn [flat_map] in H. destruct (escape_nonempty y) as (? & ? & E). rewrite E in H. discriminate.
  - cbn [flat_map] in H. destruct (escape_nonempty x) as (? & ? & E). rewrite E in H. discriminate.
  - cbn [flat_map] in H. inversion Ha; inversion Hb; subst. assert (E : unescape (escape x ++ flat_map escape a) = unescape (escape y ++ flat_map escape b)) by congruence.
    rewrite !unescape_escape in E by assumption. injection E as -> E. f_equal. apply IH; auto.
Qed.
Lemma to_uint_nonnil n : N.to_uint n <> Decimal.Nil.
Proof. destruct n; [discriminate|]. apply DecimalPos.Unsigned.to_uint_nonnil. Qed.
Lemma decimal_inj a b : 0 <= a -> 0 <= b -> decimal a = decimal b -> a = b.
Proof.
  intros Ha Hb H. unfold decimal in H. apply text_inj in H.
  assert (E : NilZero.uint_of_string (NilZero.string_of_uint (N.to_uint (Z.to_N a))) = NilZero.uint_of_string (NilZero.string_of_uint (N.to_uint (Z.to_N b)))) by congruence.
  rewrite !NilZero.usu in E by apply to_uint_nonnil. injection E as E. apply DecimalN.Unsigned.to_uint_inj in E. lia.
Qed.

(** An error with a name that occurs in the source, or a length that is a usize. *)
Definition error_ok (e : error) : Prop :=
  match e with
  | MissingField n => ~ In 0 (text n)
  | InvalidBinaryLen n => 0 <= n
  | _ => True
  end.
(** The names of the other kinds are different from each other and from the four above. *)
Definition kinds_ok (kind_name : nat -> list Z) : Prop := forall j k, debug_kind kind_name j = debug_kind kind_name k -> j = k.

Lemma display_missing kind_name n : ~ In 0 (text n) -> display_error kind_name (MissingField n) = Ok (tuple "MissingField" ([34] ++ flat_map escape (text n) ++ [34])).
Proof. intros H. unfold display_error, literal. rewrite from_str_ok. unfold debug_name. rewrite c_str_ok by exact H. reflexivity. Qed.
Lemma display_total kind_name e : error_ok e -> exists s, display_error kind_name e = Ok s.
Proof. intros H. destruct e; try (eexists; reflexivity). rewrite display_missing by exact H. eauto. Qed.
Lemma tuple_inj v a b : tuple v a = tuple v b -> a = b.
Proof. unfold tuple. intros H. do 2 apply app_inv_head in H. apply app_inv_tail in H. exact H. Qed.
Lemma display_inj kind_name e1 e2 : kinds_ok kind_name -> error_ok e1 -> error_ok e2 -> display_error kind_name e1 = display_error kind_name e2 -> e1 = e2.
Proof.
  intros Hk H1 H2 H.
  destruct e1, e2; try reflexivity; try (exfalso; discriminate H);
    try (rewrite display_missing in H by exact H1); try (rewrite display_missing in H by exact H2);
    try (exfalso; discriminate H).
  - injection H as H. apply (app_inv_tail [41]) in H. f_equal. apply decimal_inj; auto.
  - injection H as H. apply (app_inv_tail [41]), (app_inv_tail [34]) in H. f_equal. apply text_inj, escapes_inj; auto using text_bytes.
  - injection H as H. apply (app_inv_tail [41]) in H. f_equal. apply Hk. exact H.
Qed.

(** A name of printable characters is printed unchanged. *)
Definition plain (b : Z) : Prop := 32 <= b <= 126 /\ b <> 34 /\ b <> 39 /\ b <> 92.
Lemma escape_plain l : Forall plain l -> flat_map escape l = l.
Proof.
  induction 1 as [|b l Hb _ IH]; [reflexivity|]. cbn [flat_map]. rewrite IH. unfold plain in Hb. unfold escape.
  replace (b =? 9) with false by lia. replace (b =? 13) with false by lia. replace (b =? 10) with false by lia. replace (b =? 39) with false by lia.
  replace (b =? 34) with false by lia. replace (b =? 92) with false by lia. replace ((32 <=? b) && (b <=? 126)) with true by lia. reflexivity.
Qed.
Lemma display_plain kind_name n : Forall plain (text n) -> display_error kind_name (MissingField n) = Ok (text "MissingField(" ++ [34] ++ text n ++ [34; 41]).
Proof.
  intros H. rewrite display_missing.
  - rewrite escape_plain by exact H. unfold tuple. f_equal. cbn [app text]. rewrite <- app_assoc. reflexivity.
  - intros Hi. rewrite Forall_forall in H. apply H in Hi. unfold plain in Hi. lia.
Qed.

(** * The names of the parquet types *)
Definition plainb (b : Z) : bool := (32 <=? b) && (b <=? 126) && negb (b =? 34) && negb (b =? 39) && negb (b =? 92).
Lemma plainb_ok b : plainb b = true -> plain b.
Proof. unfold plainb, plain. lia. Qed.
Lemma lookup_in E n d : lookup E n = Some d -> In (n, d) E.
Proof.
  induction E as [|[m e] E IH]; cbn [lookup]; [discriminate|]. destruct (String.eqb n m) eqn:Em.
  - apply String.eqb_eq in Em. intros [= <-]. left. congruence.
  - intros H. right. auto.
Qed.
Definition names_plain (E : env) : bool :=
  forallb (fun '(n, d) => match d with DStruct fs => forallb (fun f => forallb plainb (text (n ++ "::" ++ f_name f))) fs | _ => true end) E.
Lemma names_plain_ok E n fs f : names_plain E = true -> lookup E n = Some (DStruct fs) -> In f fs -> Forall plain (text (n ++ "::" ++ f_name f)).
Proof.
  intros H Hl Hf. apply lookup_in in Hl. unfold names_plain in H. rewrite forallb_forall in H. apply H in Hl. cbv beta iota in Hl.
  rewrite forallb_forall in Hl. apply Hl in Hf. apply Forall_forall. intros b Hb. rewrite forallb_forall in Hf. apply plainb_ok, Hf, Hb.
Qed.
Lemma parquet_names kind_name n fs f : lookup parquet_env n = Some (DStruct fs) -> In f fs ->
  display_error kind_name (MissingField (n ++ "::" ++ f_name f)) = Ok (text "MissingField(" ++ [34] ++ text n ++ text "::" ++ text (f_name f) ++ [34; 41]).
Proof.
  intros Hl Hf. rewrite display_plain by (eapply names_plain_ok; eauto; vm_compute; reflexivity).
  assert (text_app : forall a b, text (a ++ b) = text a ++ text b).
  { intros a b. unfold text. induction a as [|x a IH]; [reflexivity|]. cbn. rewrite IH. reflexivity. }
  rewrite !text_app, <- !app_assoc. reflexivity.
Qed.
Lemma sample_kinds : kinds_ok (fun n => repeat 65 n ++ [66]).
Proof.
  intros j k H. assert (Hn : forall n, nth n (repeat 65 n ++ [66]) 0 = 66) by (induction n; cbn; auto).
  assert (Hl : forall n, List.length (repeat 65 n ++ [66]) = S n) by (intros n; rewrite app_length, repeat_length; cbn; lia).
  destruct j as [| | | |j], k as [| | | |k]; cbn [debug_kind] in H; try reflexivity; try discriminate H;
    try (destruct j; discriminate H); try (destruct k; discriminate H).
  f_equal. apply (f_equal (@List.length Z)) in H. rewrite !Hl in H. lia.
Qed.
