(** Proofs about printing schemas. *)
From Coq Require Import Ascii DecimalString DecimalFacts DecimalPos DecimalN ZifyBool ZifyNat ZifyN.
From Verif Require Import Base Protocol Encodings Types Parquet Footer SchemaTree ErrorName SpecCompact SpecInput Schema Typing SpecFooter SpecSchema SchemaPrint SpecPrint
  P_ErrorName P_Roundtrip P_Footer P_Schema.

(** * Numbers *)
Definition digit_code (d : Z) : Prop := 48 <= d <= 57.
Fixpoint uint_value (acc : Z) (d : Decimal.uint) : Z :=
  match d with
  | Decimal.Nil => acc
  | Decimal.D0 d => uint_value (10 * acc) d
  | Decimal.D1 d => uint_value (10 * acc + 1) d
  | Decimal.D2 d => uint_value (10 * acc + 2) d
  | Decimal.D3 d => uint_value (10 * acc + 3) d
  | Decimal.D4 d => uint_value (10 * acc + 4) d
  | Decimal.D5 d => uint_value (10 * acc + 5) d
  | Decimal.D6 d => uint_value (10 * acc + 6) d
  | Decimal.D7 d => uint_value (10 * acc + 7) d
  | Decimal.D8 d => uint_value (10 * acc + 8) d
  | Decimal.D9 d => uint_value (10 * acc + 9) d
  end.
Lemma acc_value d : forall acc, Zpos (Pos.of_uint_acc d acc) = uint_value (Zpos acc) d.
Proof. induction d; intros acc; cbn [Pos.of_uint_acc uint_value]; rewrite ?IHd; f_equal; lia. Qed.
Lemma of_uint_value d : Z.of_N (N.of_uint d) = uint_value 0 d.
Proof.
  unfold N.of_uint. induction d; cbn [Pos.of_uint uint_value]; try (cbn [Z.of_N]; rewrite acc_value; reflexivity).
  - reflexivity.
  - exact IHd.
Qed.
Lemma text_cons a s : text (String a s) = Z.of_nat (nat_of_ascii a) :: text s.
Proof. reflexivity. Qed.
Lemma string_value d : forall acc, fold_left (fun n d => 10 * n + (d - 48)) (text (NilEmpty.string_of_uint d)) acc = uint_value acc d.
Proof.
  induction d; intros acc; cbn [NilEmpty.string_of_uint]; rewrite ?text_cons; cbn [fold_left uint_value]; rewrite ?IHd; try reflexivity;
    match goal with |- uint_value ?a _ = uint_value ?b _ => change a with (10 * acc + (Z.of_nat (nat_of_ascii "0"%char) - 48)) || idtac end;
    match goal with |- uint_value ?a _ = uint_value ?b _ => replace a with b by (cbv [nat_of_ascii N_of_ascii N_of_digits]; lia); reflexivity end.
Qed.
Lemma string_digits d : Forall digit_code (text (NilEmpty.string_of_uint d)).
Proof.
  induction d; cbn [NilEmpty.string_of_uint]; rewrite ?text_cons; [constructor|..]; (constructor; [|exact IHd]); unfold digit_code; vm_compute; split; discriminate.
Qed.
Lemma nz_string d : d <> Decimal.Nil -> NilZero.string_of_uint d = NilEmpty.string_of_uint d.
Proof. destruct d; [congruence|reflexivity..]. Qed.
Lemma unorm_head d : hd 0 (text (NilEmpty.string_of_uint (Decimal.unorm d))) = 48 -> text (NilEmpty.string_of_uint (Decimal.unorm d)) = [48].
Proof.
  unfold Decimal.unorm. destruct (Decimal.nzhead d) eqn:E; intros H; [reflexivity| |vm_compute in H; discriminate..].
  exfalso. exact (nzhead_nonzero d u E).
Qed.
Lemma decimal_numeral n : 0 <= n -> numeral n (decimal n).
Proof.
  intros Hn. unfold decimal. rewrite nz_string by apply to_uint_nonnil.
  assert (Hu : N.to_uint (Z.to_N n) = Decimal.unorm (N.to_uint (Z.to_N n))).
  { rewrite <- (DecimalN.Unsigned.to_of (N.to_uint (Z.to_N n))), DecimalN.Unsigned.of_to. reflexivity. }
  split; [|split; [|split]].
  - pose proof (to_uint_nonnil (Z.to_N n)) as H. destruct (N.to_uint (Z.to_N n)); [congruence|discriminate..].
  - apply string_digits.
  - unfold digits_value. rewrite string_value, <- of_uint_value, DecimalN.Unsigned.of_to. lia.
  - rewrite Hu. apply unorm_head.
Qed.
Lemma signed_numeral_ok n : signed_numeral n (signed n).
Proof.
  unfold signed. destruct (n <? 0) eqn:E.
  - right. split; [lia|]. eexists. split; [reflexivity|]. apply decimal_numeral. lia.
  - left. split; [lia|]. apply decimal_numeral. lia.
Qed.
Lemma numeral_value n m ds : numeral n ds -> numeral m ds -> n = m.
Proof. intros (_ & _ & H1 & _) (_ & _ & H2 & _). congruence. Qed.
Lemma numeral_digits n ds : numeral n ds -> Forall digit_code ds.
Proof. intros (_ & H & _). exact H. Qed.
Lemma signed_value n m ds : signed_numeral n ds -> signed_numeral m ds -> n = m.
Proof.
  intros [[Hn H1]|[Hn (a & -> & H1)]] [[Hm H2]|[Hm (b & E & H2)]].
  - exact (numeral_value _ _ _ H1 H2).
  - subst. pose proof (numeral_digits _ _ H1) as H. inversion H; subst. unfold digit_code in *. lia.
  - pose proof (numeral_digits _ _ H2) as H. inversion H; subst. unfold digit_code in *. lia.
  - injection E as <-. pose proof (numeral_value _ _ _ H1 H2). lia.
Qed.

(** * The words printed are the words meant *)
Lemma says_repetition_ok r : says_repetition r (show_repetition r).
Proof. destruct r; constructor. Qed.
Lemma says_physical_ok p : physical_ok p -> says_physical p (debug_physical p).
Proof.
  destruct p; cbn [physical_ok debug_physical]; intros H; try solve [constructor].
  change (tuple "FIXED_LEN_BYTE_ARRAY" (decimal len)) with (text "FIXED_LEN_BYTE_ARRAY(" ++ decimal len ++ text ")").
  constructor. apply decimal_numeral. unfold in_u in H. lia.
Qed.
Lemma says_bool_ok b : says_bool b (show_bool b).
Proof. destruct b; [left|right]; auto. Qed.
Lemma says_unit_ok u : says_unit u (debug_unit u).
Proof. destruct u; constructor. Qed.
Lemma app_text a b x : text (a ++ b) ++ x = text a ++ text b ++ x.
Proof. unfold text. rewrite app_assoc. f_equal. induction a as [|c a IH]; [reflexivity|]. cbn [append list_ascii_of_string map app]. rewrite IH. reflexivity. Qed.
Lemma says_primitive_ok l : primitive_ok (Some l) -> says_primitive l (debug_primitive l).
Proof.
  destruct l as [| | [p s] | | [b u] | [b u] | | [w s] | | | | | | | ]; cbn [primitive_ok debug_primitive d_precision d_scale bitwidth]; intros H; try solve [constructor].
  - replace (tuple "Decimal" _) with (text "Decimal(DecimalOptions { precision: " ++ decimal p ++ text ", scale: " ++ signed s ++ text " })").
    + constructor; [apply decimal_numeral; unfold in_u in H; lia|apply signed_numeral_ok].
    + unfold tuple, debug_decimal. cbn [d_precision d_scale]. rewrite <- !app_assoc. reflexivity.
  - replace (tuple "Time" _) with (text "Time(TimeOptions { is_adjusted_to_utc: " ++ show_bool b ++ text ", time_unit: " ++ debug_unit u ++ text " })").
    + constructor; [apply says_bool_ok|apply says_unit_ok].
    + unfold tuple, debug_time. cbn [is_adjusted_to_utc unit_]. rewrite <- !app_assoc. reflexivity.
  - replace (tuple "Timestamp" _) with (text "Timestamp(TimeOptions { is_adjusted_to_utc: " ++ show_bool b ++ text ", time_unit: " ++ debug_unit u ++ text " })").
    + constructor; [apply says_bool_ok|apply says_unit_ok].
    + unfold tuple, debug_time. cbn [is_adjusted_to_utc unit_]. rewrite <- !app_assoc. reflexivity.
  - assert (Hw : numeral w (decimal w)) by (apply decimal_numeral; unfold in_u in H; lia).
    unfold tuple, debug_integer. cbn [is_signed bitwidth]. rewrite <- !app_assoc. destruct s; [exact (sl_signed w _ Hw)|exact (sl_unsigned w _ Hw)].
Qed.
Lemma says_group_ok l : says_group l (debug_group l).
Proof.
  destruct l as [| | |[n|]]; cbn [debug_group]; try solve [constructor].
  unfold tuple. rewrite <- !app_assoc. exact (sg_version n _ (signed_numeral_ok n)).
Qed.
Lemma indent_spaces n : print_indent n = spaces n.
Proof. induction n as [|n IH]; [reflexivity|]. cbn [print_indent]. rewrite IH. unfold spaces. replace (2 * S n)%nat with (S (S (2 * n))) by lia. reflexivity. Qed.

Definition all_children (children : list sfield) (n : nat) : list Z := flat_map (fun child => pretty_print_schema child n) children.
Lemma lines_app a b : lines (a ++ b) = lines a ++ lines b.
Proof. unfold lines. apply flat_map_app. Qed.
Lemma pretty_lines f : field_ok f -> forall n, exists ls, shows n f ls /\ pretty_print_schema f n = lines ls.
Proof.
  induction f as [co fs l IH|co p l i] using sfield_rect'; intros Hf n; inversion Hf as [? ? ? Hfs|? ? ? ? Hp Hl]; subst.
  - assert (Hk : forall m, exists ls, shows_all m fs ls /\ all_children fs m = lines ls).
    { clear Hf. intros m. induction fs as [|f fs IHfs].
      - exists []. split; [constructor|reflexivity].
      - inversion IH as [|? ? IHf IHl]; subst. inversion Hfs as [|? ? Hf' Hfs']; subst.
        destruct (IHf Hf' m) as (ls1 & H1 & E1). destruct (IHfs IHl Hfs') as (ls2 & H2 & E2).
        exists (ls1 ++ ls2). split; [constructor; assumption|]. unfold all_children in *. cbn [flat_map]. rewrite lines_app, E1, E2. reflexivity. }
    destruct (Hk (S n)) as (ls & Hs & E).
    assert (Hlog : says_logical says_group l (print_logical debug_group l)).
    { destruct l as [l|]; cbn [print_logical]; [|constructor]. constructor. apply says_group_ok. }
    eexists. split; [exact (sh_group n co fs l _ _ ls (says_repetition_ok _) Hlog Hs)|].
    cbn [pretty_print_schema]. fold (all_children fs (S n)). rewrite E, indent_spaces, !lines_app. cbn [lines flat_map]. unfold newline. rewrite <- !app_assoc. cbn [app]. rewrite ?app_nil_r. reflexivity.
  - assert (Hlog : says_logical says_primitive l (print_logical debug_primitive l)).
    { destruct l as [l|]; cbn [print_logical]; [|constructor]. constructor. apply says_primitive_ok, Hl. }
    eexists. split; [exact (sh_leaf n co p l i _ _ _ (says_repetition_ok _) (says_physical_ok p Hp) Hlog)|].
    cbn [pretty_print_schema]. rewrite indent_spaces. cbn [lines flat_map]. unfold newline. rewrite <- !app_assoc. cbn [app]. reflexivity.
Qed.

(** * The text determines the schema *)
Definition without (x : Z) (l : list Z) : Prop := Forall (fun b => b <> x) l.
Lemma sep_split x a : forall b r r', without x a -> without x b -> a ++ x :: r = b ++ x :: r' -> a = b /\ r = r'.
Proof.
  induction a as [|y a IH]; intros [|z b] r r' Ha Hb H; cbn [app] in H; inversion H; subst; clear H.
  - auto.
  - inversion Hb; subst. congruence.
  - inversion Ha; subst. congruence.
  - inversion Ha; inversion Hb; subst. destruct (IH b r r') as [-> ->]; auto.
Qed.
Lemma without_app x a b : without x (a ++ b) <-> without x a /\ without x b.
Proof. apply Forall_app. Qed.
Fixpoint withoutb (x : Z) (l : list Z) : bool := match l with [] => true | b :: l => negb (b =? x) && withoutb x l end.
Lemma withoutb_ok x l : withoutb x l = true -> without x l.
Proof. induction l as [|b l IH]; cbn [withoutb]; intros H; [constructor|]. apply andb_prop in H as [H1 H2]. constructor; [cbv beta; lia|exact (IH H2)]. Qed.
Ltac const := apply withoutb_ok; vm_compute; reflexivity.
Lemma digits_without x ds : Forall digit_code ds -> (x < 48 \/ 57 < x) -> without x ds.
Proof. intros H Hx. eapply Forall_impl; [|exact H]. unfold digit_code. cbn. intros. lia. Qed.
Lemma numeral_without x n ds : numeral n ds -> (x < 48 \/ 57 < x) -> without x ds.
Proof. intros H. apply digits_without. exact (numeral_digits _ _ H). Qed.
Lemma signed_without x n ds : signed_numeral n ds -> (x < 48 \/ 57 < x) -> x <> 45 -> without x ds.
Proof. intros [[_ H]|[_ (a & -> & H)]] Hx Hx'; [|constructor; [lia|]]; exact (numeral_without _ _ _ H Hx). Qed.

Lemma repetition_without r w x : says_repetition r w -> x = 10 \/ x = 32 -> without x w.
Proof. intros H [->| ->]; inversion H; const. Qed.
Lemma physical_without p w x : says_physical p w -> x = 10 \/ x = 32 -> without x w.
Proof.
  intros H Hx; inversion H; subst; try (destruct Hx as [->| ->]; const).
  apply without_app; split; [destruct Hx as [->| ->]; const|]. apply without_app; split; [eapply numeral_without; [eassumption|lia]|destruct Hx as [->| ->]; const].
Qed.
Lemma bool_without b w : says_bool b w -> without 10 w.
Proof. intros [[_ ->]|[_ ->]]; const. Qed.
Lemma unit_without u w : says_unit u w -> without 10 w.
Proof. inversion 1; const. Qed.
Ltac without_tac :=
  repeat (apply without_app; split);
  first [const | eapply numeral_without; [eassumption|lia] | eapply signed_without; [eassumption|lia|lia] | eapply bool_without; eassumption | eapply unit_without; eassumption].
Lemma primitive_without l w : says_primitive l w -> without 10 w.
Proof. inversion 1; subst; without_tac. Qed.
Lemma group_without l w : says_group l w -> without 10 w.
Proof. inversion 1; subst; without_tac. Qed.
Lemma logical_without {A} (says : A -> list Z -> Prop) o w : (forall l s, says l s -> without 10 s) -> says_logical says o w -> without 10 w.
Proof. intros Hs H. inversion H; subst; [constructor|]. apply without_app; split; [const|]. apply without_app; split; [eauto|const]. Qed.
Lemma spaces_without n : without 10 (spaces n).
Proof. unfold spaces. induction (2 * n)%nat; cbn [repeat]; constructor; [lia|assumption]. Qed.

Lemma repetition_same r r' w : says_repetition r w -> says_repetition r' w -> r = r'.
Proof. intros H1 H2. inversion H1; inversion H2; subst; try reflexivity; discriminate. Qed.
Lemma physical_same' p p' w w' : says_physical p w -> says_physical p' w' -> w = w' -> p = p'.
Proof.
  intros [] [] E; try reflexivity; try (vm_compute in E; discriminate E).
  apply app_inv_head, app_inv_tail in E. subst. f_equal. eapply numeral_value; eassumption.
Qed.
Lemma physical_same p p' w : says_physical p w -> says_physical p' w -> p = p'.
Proof. intros H1 H2. exact (physical_same' p p' w w H1 H2 eq_refl). Qed.
Lemma physical_not_group p : ~ says_physical p (text "group").
Proof. inversion 1. Qed.
Lemma bool_same b b' s : says_bool b s -> says_bool b' s -> b = b'.
Proof. intros [[-> ->]|[-> ->]] [[-> E]|[-> E]]; try reflexivity; discriminate. Qed.
Lemma unit_same u u' s : says_unit u s -> says_unit u' s -> u = u'.
Proof. intros H1 H2. inversion H1; subst; inversion H2; subst; try reflexivity; discriminate. Qed.
Lemma primitive_same' l l' w w' : says_primitive l w -> says_primitive l' w' -> w = w' -> l = l'.
Proof.
  intros [] [] E; try reflexivity; try (vm_compute in E; discriminate E).
  - apply app_inv_head in E.
    change (text ", scale: ") with (44 :: text " scale: ") in E. rewrite <- !app_comm_cons in E.
    apply sep_split in E as [-> E]; [|eapply numeral_without; [eassumption|lia]..].
    apply app_inv_head, app_inv_tail in E. subst. do 2 f_equal; [eapply numeral_value; eassumption|eapply signed_value; eassumption].
  - apply app_inv_head in E. change (text ", time_unit: ") with (44 :: text " time_unit: ") in E. rewrite <- !app_comm_cons in E.
    assert (Hb : forall b bs, says_bool b bs -> without 44 bs) by (intros ? ? [[_ ->]|[_ ->]]; const).
    apply sep_split in E as [-> E]; [|eauto..]. apply app_inv_head, app_inv_tail in E. subst. do 2 f_equal; [eapply bool_same; eassumption|eapply unit_same; eassumption].
  - apply app_inv_head in E. change (text ", time_unit: ") with (44 :: text " time_unit: ") in E. rewrite <- !app_comm_cons in E.
    assert (Hb : forall b bs, says_bool b bs -> without 44 bs) by (intros ? ? [[_ ->]|[_ ->]]; const).
    apply sep_split in E as [-> E]; [|eauto..]. apply app_inv_head, app_inv_tail in E. subst. do 2 f_equal; [eapply bool_same; eassumption|eapply unit_same; eassumption].
  - apply app_inv_head, app_inv_tail in E. subst. do 2 f_equal. eapply numeral_value; eassumption.
  - apply app_inv_head, app_inv_tail in E. subst. do 2 f_equal. eapply numeral_value; eassumption.
Qed.
Lemma group_same' l l' w w' : says_group l w -> says_group l' w' -> w = w' -> l = l'.
Proof.
  intros [] [] E; try reflexivity; try (vm_compute in E; discriminate E).
  apply app_inv_head, app_inv_tail in E. subst. do 2 f_equal. eapply signed_value; eassumption.
Qed.

(** A name followed by an optional remark. *)
Lemma remark_same {A} (says : A -> list Z -> Prop) n n' o o' s s' :
  (forall l l' w w', says l w -> says l' w' -> w = w' -> l = l') ->
  without 32 n -> without 32 n' -> says_logical says o s -> says_logical says o' s' -> n ++ s = n' ++ s' -> n = n' /\ o = o'.
Proof.
  intros Hs Hn Hn' H1 H2 E. destruct H1 as [|l w Hw]; destruct H2 as [|l' w' Hw'].
  - rewrite !app_nil_r in E. auto.
  - exfalso. rewrite app_nil_r in E. subst n. apply without_app in Hn as [_ Hn]. inversion Hn; subst. congruence.
  - exfalso. rewrite app_nil_r in E. subst n'. apply without_app in Hn' as [_ Hn']. inversion Hn'; subst. congruence.
  - change (text " (" ++ w ++ text ")") with (32 :: (text "(" ++ w ++ text ")")) in E.
    change (text " (" ++ w' ++ text ")") with (32 :: (text "(" ++ w' ++ text ")")) in E.
    apply sep_split in E as [-> E]; [|assumption..]. apply app_inv_head, app_inv_tail in E. split; [reflexivity|]. f_equal. eauto.
Qed.
Lemma plain_without (x : Z) (n : list Z) : plain_name n -> x = 10 \/ x = 32 -> without x n.
Proof. intros H Hx. eapply Forall_impl; [|exact H]. cbn. intros a [? ?]. destruct Hx as [->| ->]; assumption. Qed.

(** The first line of a field *)
Definition leaf_line (n : nat) (r w nm s : list Z) : list Z := spaces n ++ r ++ text " " ++ w ++ text " " ++ nm ++ s ++ text ";".
Definition group_line (n : nat) (r nm s : list Z) : list Z := spaces n ++ r ++ text " group " ++ nm ++ s ++ text " {".
Lemma leaf_line_same n r r' w w' nm nm' s s' k k' p p' l l' :
  says_repetition k r -> says_repetition k' r' -> says_physical p w -> says_physical p' w' -> plain_name nm -> plain_name nm' ->
  says_logical says_primitive l s -> says_logical says_primitive l' s' -> leaf_line n r w nm s = leaf_line n r' w' nm' s' ->
  k = k' /\ p = p' /\ nm = nm' /\ l = l'.
Proof.
  intros Hr Hr' Hw Hw' Hn Hn' Hl Hl' E. unfold leaf_line in E. apply app_inv_head in E. change (text " ") with [32] in E. cbn [app] in E.
  apply sep_split in E as [-> E]; [|eapply repetition_without; [eassumption|lia]..].
  apply sep_split in E as [-> E]; [|eapply physical_without; [eassumption|lia]..].
  rewrite !app_assoc in E. apply app_inv_tail in E.
  apply (remark_same says_primitive _ _ _ _ _ _ primitive_same' (plain_without 32 _ Hn (or_intror eq_refl)) (plain_without 32 _ Hn' (or_intror eq_refl)) Hl Hl') in E as [-> ->].
  split; [eapply repetition_same; eassumption|]. split; [eapply physical_same; eassumption|]. auto.
Qed.
Lemma group_line_same n r r' nm nm' s s' k k' l l' :
  says_repetition k r -> says_repetition k' r' -> plain_name nm -> plain_name nm' ->
  says_logical says_group l s -> says_logical says_group l' s' -> group_line n r nm s = group_line n r' nm' s' ->
  k = k' /\ nm = nm' /\ l = l'.
Proof.
  intros Hr Hr' Hn Hn' Hl Hl' E. unfold group_line in E. apply app_inv_head in E. change (text " group ") with (32 :: text "group ") in E. rewrite <- !app_comm_cons in E.
  apply sep_split in E as [-> E]; [|eapply repetition_without; [eassumption|lia]..]. apply app_inv_head in E.
  rewrite !app_assoc in E. apply app_inv_tail in E.
  apply (remark_same says_group _ _ _ _ _ _ group_same' (plain_without 32 _ Hn (or_intror eq_refl)) (plain_without 32 _ Hn' (or_intror eq_refl)) Hl Hl') in E as [-> ->].
  split; [eapply repetition_same; eassumption|]. auto.
Qed.
Lemma leaf_not_group n r r' w nm nm' s s' k k' p :
  says_repetition k r -> says_repetition k' r' -> says_physical p w -> leaf_line n r w nm s = group_line n r' nm' s' -> False.
Proof.
  intros Hr Hr' Hw E. unfold leaf_line, group_line in E. apply app_inv_head in E.
  change (text " ") with [32] in E. cbn [app] in E. change (text " group ") with (32 :: text "group" ++ [32]) in E. rewrite <- !app_comm_cons, <- !app_assoc in E. cbn [app] in E.
  apply sep_split in E as [-> E]; [|eapply repetition_without; [eassumption|lia]..].
  apply sep_split in E as [-> E]; [exact (physical_not_group p Hw)|eapply physical_without; [eassumption|lia]|const].
Qed.
Lemma closing n l : spaces n ++ text "}" = spaces (S n) ++ l -> False.
Proof.
  intros E. unfold spaces in E. replace (2 * S n)%nat with (2 * n + 2)%nat in E by lia. rewrite repeat_app, <- app_assoc in E.
  apply app_inv_head in E. discriminate.
Qed.
Lemma shows_first n f ls : shows n f ls -> exists l ls', ls = (spaces n ++ l) :: ls'.
Proof. inversion 1; subst; cbn [app]; eauto. Qed.
Scheme shows_mut := Minimality for shows Sort Prop with shows_all_mut := Minimality for shows_all Sort Prop.
Combined Scheme shows_mutind from shows_mut, shows_all_mut.
Lemma shows_unique :
  (forall n f ls, shows n f ls -> Forall plain_name (names f) -> forall g ls' r r', shows n g ls' -> Forall plain_name (names g) ->
     ls ++ r = ls' ++ r' -> shape_of f = shape_of g /\ r = r') /\
  (forall n fs ls, shows_all n fs ls -> Forall plain_name (flat_map names fs) -> forall m gs ls' r r', n = S m -> shows_all n gs ls' -> Forall plain_name (flat_map names gs) ->
     ls ++ [spaces m ++ text "}"] ++ r = ls' ++ [spaces m ++ text "}"] ++ r' -> map shape_of fs = map shape_of gs /\ r = r').
Proof.
  apply shows_mutind.
  - intros n co p l i r w s Hr Hw Hs Hn g ls' r1 r2 Hg Hn' E. cbn [names] in Hn. inversion Hn as [|? ? Hco _]; subst.
    inversion Hg as [? co' p' l' i' r' w' s' Hr' Hw' Hs'|? co' fs' l' r' s' ls2 Hr' Hs' Hfs']; subst.
    + cbn [names] in Hn'. inversion Hn' as [|? ? Hco' _]; subst. cbn [app] in E. injection E as E ->.
      destruct (leaf_line_same n _ _ _ _ _ _ _ _ _ _ _ _ _ _ Hr Hr' Hw Hw' Hco Hco' Hs Hs' E) as (E1 & E2 & E3 & E4).
      split; [cbn [shape_of]; congruence|reflexivity].
    + cbn [app] in E. injection E as E _. exfalso. exact (leaf_not_group n _ _ _ _ _ _ _ _ _ _ Hr Hr' Hw E).
  - intros n co fs l r s ls Hr Hs Hfs IH Hn g ls' r1 r2 Hg Hn' E. cbn [names] in Hn. inversion Hn as [|? ? Hco Hns]; subst.
    inversion Hg as [? co' p' l' i' r' w' s' Hr' Hw' Hs'|? co' fs' l' r' s' ls2 Hr' Hs' Hfs']; subst.
    + cbn [app] in E. injection E as E _. exfalso. exact (leaf_not_group n _ _ _ _ _ _ _ _ _ _ Hr' Hr Hw' (eq_sym E)).
    + cbn [names] in Hn'. inversion Hn' as [|? ? Hco' Hns']; subst. cbn [app] in E. injection E as E E'.
      destruct (group_line_same n _ _ _ _ _ _ _ _ _ _ Hr Hr' Hco Hco' Hs Hs' E) as (E1 & E2 & E3).
      rewrite <- !app_assoc in E'. destruct (IH Hns n fs' ls2 r1 r2 eq_refl Hfs' Hns' E') as [E4 ->].
      split; [cbn [shape_of]; congruence|reflexivity].
  - intros n Hn m gs ls' r1 r2 -> Hg Hn' E. inversion Hg as [|? g gs' l1 l2 Hg1 Hgs]; subst.
    + cbn [app] in E. injection E as ->. auto.
    + destruct (shows_first _ _ _ Hg1) as (l & l' & ->). cbn [app] in E. injection E as E _. exfalso. exact (closing m l E).
  - intros n f fs ls ls2 Hf IHf Hfs IHfs Hn m gs ls' r1 r2 -> Hg Hn' E. cbn [flat_map] in Hn. apply Forall_app in Hn as [Hn1 Hn2].
    inversion Hg as [|? g gs' l1 l2 Hg1 Hgs]; subst.
    + destruct (shows_first _ _ _ Hf) as (l & l' & ->). cbn [app] in E. injection E as E _. exfalso. exact (closing m l (eq_sym E)).
    + cbn [flat_map] in Hn'. apply Forall_app in Hn' as [Hn1' Hn2']. rewrite <- !app_assoc in E.
      destruct (IHf Hn1 g l1 _ _ Hg1 Hn1' E) as [E1 E2]. destruct (IHfs Hn2 m gs' l2 r1 r2 eq_refl Hgs Hn2' E2) as [E3 ->].
      split; [cbn [map]; congruence|reflexivity].
Qed.
Lemma shows_without :
  (forall n f ls, shows n f ls -> Forall plain_name (names f) -> Forall (without 10) ls) /\
  (forall n fs ls, shows_all n fs ls -> Forall plain_name (flat_map names fs) -> Forall (without 10) ls).
Proof.
  apply shows_mutind.
  - intros n co p l i r w s Hr Hw Hs Hn. cbn [names] in Hn. inversion Hn as [|? ? Hco _]; subst. constructor; [|constructor].
    apply without_app; split; [apply spaces_without|]. apply without_app; split; [eapply repetition_without; [eassumption|lia]|].
    apply without_app; split; [const|]. apply without_app; split; [eapply physical_without; [eassumption|lia]|].
    apply without_app; split; [const|]. apply without_app; split; [apply (plain_without 10 _ Hco); auto|].
    apply without_app; split; [exact (logical_without _ _ _ primitive_without Hs)|const].
  - intros n co fs l r s ls Hr Hs Hfs IH Hn. cbn [names] in Hn. inversion Hn as [|? ? Hco Hns]; subst.
    apply Forall_app; split; [constructor; [|constructor]|apply Forall_app; split; [exact (IH Hns)|constructor; [|constructor]]].
    + apply without_app; split; [apply spaces_without|]. apply without_app; split; [eapply repetition_without; [eassumption|lia]|].
      apply without_app; split; [const|]. apply without_app; split; [apply (plain_without 10 _ Hco); auto|].
      apply without_app; split; [exact (logical_without _ _ _ group_without Hs)|const].
    + apply without_app; split; [apply spaces_without|const].
  - constructor.
  - intros n f fs ls ls' Hf IHf Hfs IHfs Hn. cbn [flat_map] in Hn. apply Forall_app in Hn as [Hn1 Hn2]. apply Forall_app; auto.
Qed.
Lemma lines_inj a : forall b, Forall (without 10) a -> Forall (without 10) b -> lines a = lines b -> a = b.
Proof.
  induction a as [|x a IH]; intros [|y b] Ha Hb E; cbn [lines flat_map] in E; [reflexivity| | |].
  - destruct y; discriminate.
  - destruct x; discriminate.
  - inversion Ha; inversion Hb; subst. rewrite <- !app_assoc in E. cbn [app] in E. apply sep_split in E as [-> E]; [|assumption..].
    f_equal. apply IH; assumption.
Qed.
Lemma shape_pretty f : forall g n, shape_of f = shape_of g -> pretty_print_schema f n = pretty_print_schema g n.
Proof.
  induction f as [co fs l IH|co p l i] using sfield_rect'; intros [co' fs' l'|co' p' l' i'] n E; cbn [shape_of] in E; try discriminate.
  - injection E as E1 E2 -> E3. cbn [pretty_print_schema]. rewrite E1, E2.
    assert (Hk : flat_map (fun child => pretty_print_schema child (S n)) fs = flat_map (fun child => pretty_print_schema child (S n)) fs').
    { clear E1 E2. revert fs' E3. induction IH as [|f fs IHf _ IHfs]; intros [|g gs] E3; cbn [map] in E3; try discriminate; [reflexivity|].
      injection E3 as E1 E2. cbn [flat_map]. rewrite (IHf g (S n) E1), (IHfs gs E2). reflexivity. }
    rewrite Hk. reflexivity.
  - injection E as E1 -> E2 ->. cbn [pretty_print_schema]. rewrite E1, E2. reflexivity.
Qed.
Lemma unambiguous f g : field_ok f -> field_ok g -> Forall plain_name (names f) -> Forall plain_name (names g) ->
  pretty_print_schema f 0 = pretty_print_schema g 0 <-> shape_of f = shape_of g.
Proof.
  intros Hf Hg Hn Hn'. split; [|apply shape_pretty].
  destruct (pretty_lines f Hf 0) as (ls & Hs & ->). destruct (pretty_lines g Hg 0) as (ls' & Hs' & ->). intros E.
  apply lines_inj in E; [|eapply (proj1 shows_without); eassumption..]. subst ls'.
  apply (proj1 shows_unique 0%nat f ls Hs Hn g ls [] [] Hs' Hn' eq_refl).
Qed.

(** Two columns, or one whose name contains a line feed. *)
Definition root_common : common := {| name := text "root"; fid := None; rep_type := Required; def_level := 0; rep_level := 0 |}.
Definition column_named (s : list Z) (i : Z) : sfield :=
  Primitive {| name := s; fid := None; rep_type := Required; def_level := 0; rep_level := 0 |} PT_INT32 None i.
Definition two_columns : sfield := Group root_common [column_named (text "a") 0; column_named (text "b") 1] None.
Definition one_column : sfield := Group root_common [column_named (text "a;" ++ [10] ++ text "  REQUIRED INT32 b") 0] None.
(** A logical type, or a name that looks like one. *)
Definition string_column : sfield := Primitive root_common PT_BYTE_ARRAY (Some PL_String) 0.
Definition odd_column : sfield := column_named (text "root (String)") 0.
Lemma ambiguous : field_ok one_column /\ field_ok two_columns /\ pretty_print_schema one_column 0 = pretty_print_schema two_columns 0 /\
  shape_of one_column <> shape_of two_columns.
Proof.
  split; [repeat constructor|]. split; [repeat constructor|]. split; [vm_compute; reflexivity|]. cbn. discriminate.
Qed.

(** * Converted schemas print numbers in range *)
Lemma converted_field_ok little t f : represents little t f -> Forall element_ok (flatten t) -> field_ok f.
Proof.
  revert f. induction t as [e cs IH] using tree_rect'; intros f Hr He. cbn [flatten] in He. inversion He as [|? ? He1 He2]; subst.
  inversion Hr as [? co p l i Hc Hp Hl|? ? co fs l Hne Hc Hl Hfs]; subst.
  - destruct He1 as (_ & Htl & _ & _ & _ & _ & _ & _ & Hlt). constructor.
    + destruct p; cbn [physical_ok]; auto. destruct Hp as (_ & E & Hn). rewrite E in Htl. cbn [in_opt] in Htl. unfold in_s, in_u in *. lia.
    + destruct l as [l|]; [|exact I]. destruct Hl as [(lt & E & Hm)|[_ (ct & E & Hm)]].
      * rewrite E in Hlt. inversion Hm; subst; cbn [primitive_ok d_precision d_scale bitwidth]; auto; cbn [logical_ok] in Hlt; unfold in_s, in_u in *; lia.
      * inversion Hm as [| |p' s' ? ? ? ?| | | | | |? k ? Hk|? k ? Hk| | |]; subst; cbn [primitive_ok d_precision d_scale bitwidth]; auto; try (unfold in_s, in_u; lia);
          assert (k = 0 \/ k = 1 \/ k = 2 \/ k = 3) as [->|[->|[->| ->]]] by lia; unfold in_u; vm_compute; split; congruence.
  - constructor. clear Hr Hc Hl Hne He. induction Hfs as [|t f ts fs Ht _ IHfs]; constructor.
    + inversion IH as [|? ? IHt IHl]; subst. cbn [flat_map] in He2. apply Forall_app in He2 as [He3 He4]. exact (IHt f Ht He3).
    + inversion IH as [|? ? IHt IHl]; subst. cbn [flat_map] in He2. apply Forall_app in He2 as [He3 He4]. exact (IHfs IHl He4).
Qed.
Lemma convert_field_ok c little alloc d els f : cfg_ok c -> Forall element_ok els -> zlen els < 2 ^ usize_bits c ->
  convert_schema c little alloc d els = POk f -> field_ok f.
Proof.
  intros Hc He Hl H. destruct (convert_represents c little alloc Hc d els f He Hl H) as (t & E & Hr). subst els. exact (converted_field_ok little t f Hr He).
Qed.

(** * main *)
Lemma summary_ok v : typed parquet_env (TNamed "FileMetaData") v ->
  exists s ls, summary_of v = Some s /\ says_summary v ls /\ print_summary s = lines ls.
Proof.
  intros Ht. apply (typed_struct parquet_env "FileMetaData") with (fs := match def_FileMetaData with DStruct fs => fs | _ => [] end) in Ht as (vs & -> & Hf); [|reflexivity].
  cbn [def_FileMetaData] in Hf.
  repeat match goal with H : typed_fields _ (_ :: _) _ |- _ => apply typed_fields_cons in H as (? & ? & -> & ? & H) end.
  cbn [field_ty f_req f_ty] in *.
  repeat match goal with H : typed _ TI32 _ |- _ => inversion H; subst; clear H | H : typed _ TI64 _ |- _ => inversion H; subst; clear H end.
  match goal with H : typed _ (TOption TString) ?x |- _ => apply typed_option in H as [->|(w & -> & H)]; [|inversion H; subst] end.
  - do 2 eexists. split; [reflexivity|]. split.
    + econstructor; [reflexivity|reflexivity|reflexivity|apply signed_numeral_ok|apply signed_numeral_ok|constructor].
    + cbn [print_summary lines flat_map app]. unfold newline. rewrite <- !app_assoc. cbn [app]. reflexivity.
  - do 2 eexists. split; [reflexivity|]. split.
    + econstructor; [reflexivity|reflexivity|reflexivity|apply signed_numeral_ok|apply signed_numeral_ok|constructor].
    + cbn [print_summary lines flat_map app]. unfold newline. rewrite <- !app_assoc. cbn [app]. reflexivity.
Qed.
Lemma chunk_bytes f m : bytes (data f) -> parquet_file (data f) m -> bytes m.
Proof. intros Hb (_ & pre & E). rewrite E in Hb. apply bytes_app_inv in Hb as [_ Hb]. apply bytes_app_inv in Hb as [Hb _]. exact Hb. Qed.
Lemma small_usize c n : cfg_ok c -> n <= 10000000 -> n < 2 ^ usize_bits c.
Proof. intros [[-> | ->] _] H; [change (2 ^ 32) with 4294967296|change (2 ^ 64) with 18446744073709551616]; lia. Qed.

Lemma well_announced t : everywhere well t -> everywhere announced t.
Proof.
  induction t as [e cs IH] using tree_rect'. intros H. inversion H as [? ? Hw Hcs]; subst. constructor; [exact (proj1 Hw)|].
  rewrite Forall_forall in *. intros t Ht. apply IH; auto.
Qed.
Lemma convert_tree c little alloc d t f : cfg_ok c -> Forall element_ok (flatten t) -> zlen (flatten t) < 2 ^ usize_bits c -> everywhere announced t ->
  convert_schema c little alloc d (flatten t) = POk f -> represents little t f.
Proof.
  intros Hc Hok Hl Ha H. destruct (convert_forward c little alloc Hc d (flatten t) f Hok Hl H) as (t' & idx & E & Hb & _).
  rewrite <- E in Hok. destruct (proj1 (built_represents little) _ _ _ _ _ _ Hb Hok) as [Hr Hw].
  rewrite <- (flatten_unique t' t (well_announced t' Hw) Ha E). exact Hr.
Qed.

Section Main.
  Variables (c : cfg) (little : bool) (alloc : Z -> bool) (f : file).
  Hypothesis Hc : cfg_ok c.
  Hypothesis Hh : healthy f.
  Hypothesis Hb : bytes (data f).
  Hypothesis Ha : forall n, alloc n = true.
  Hypothesis Hsz : zlen (data f) < 2 ^ (usize_bits c - 1).

  (** after decoding *)
  Lemma main_decoded d m s' v : parquet_file (data f) m -> read_thrift c (slice_input c) parquet_env d (TNamed "FileMetaData") m = (s', Ok v) ->
    exists sl es, says_summary v sl /\ schema_of v = Some es /\ Forall element_ok es /\ zlen es < 2 ^ usize_bits c /\
      match convert_schema c little alloc d es with
      | POk schema => exists ls, shows 0 schema ls /\ main c little alloc d f = Some (lines (sl ++ ls), POk tt)
      | PErr e => main c little alloc d f = Some (lines sl, PErr e)
      | PPanic p => main c little alloc d f = Some (lines sl, PPanic p)
      end.
  Proof.
    intros Hm Hr. pose proof (chunk_bytes f m Hb Hm) as Hbm.
    destruct (schema_decoded c d m s' v Hc Hbm Hr) as (es & He & Hok & Hlen).
    destruct (summary_ok v) as (s & sl & Hs & Hsl & Es); [eapply (P_Valid.read_slice_valid c parquet_env 12); eauto|].
    pose proof (small_usize c _ Hc Hlen) as Hl. exists sl, es. split; [exact Hsl|]. split; [exact He|]. split; [exact Hok|]. split; [exact Hl|].
    unfold main. rewrite (proj2 (metadata_ok_iff c alloc Hc f m Hh Hb Ha Hsz) Hm), Hr. cbn [snd]. rewrite Hs, He.
    destruct (convert_schema c little alloc d es) as [schema|e|p] eqn:E.
    - destruct (pretty_lines schema (convert_field_ok c little alloc d es schema Hc Hok Hl E) 0) as (ls & Hls & ->).
      exists ls. split; [exact Hls|]. rewrite lines_app, Es. reflexivity.
    - rewrite Es. reflexivity.
    - rewrite Es. reflexivity.
  Qed.

  Lemma main_total d : main c little alloc d f <> None.
  Proof.
    destruct (snd (get_metadata_chunk c alloc f)) as [m|e|p] eqn:E; [|unfold main; rewrite E; discriminate..].
    pose proof (proj1 (metadata_ok_iff c alloc Hc f m Hh Hb Ha Hsz) E) as Hm.
    destruct (read_thrift c (slice_input c) parquet_env d (TNamed "FileMetaData") m) as [s' [v|e|p]] eqn:Hr; [|unfold main; rewrite E, Hr; discriminate..].
    destruct (main_decoded d m s' v Hm Hr) as (sl & es & _ & _ & _ & _ & H). destruct (convert_schema c little alloc d es); [destruct H as (ls & _ & H)| |]; rewrite H; discriminate.
  Qed.

  Lemma main_prints d m v t : reserve_ok c -> parquet_file (data f) m -> enc parquet_env (TNamed "FileMetaData") v m ->
    (need 12 (TNamed "FileMetaData") (List.length m) <= d)%nat -> (128 <= d)%nat ->
    schema_of v = Some (flatten t) -> everywhere announced t -> everywhere acceptable t -> (groups t <= 127)%nat -> required (elem t) ->
    exists fld sl ls, represents little t fld /\ says_summary v sl /\ shows 0 fld ls /\ main c little alloc d f = Some (lines (sl ++ ls), POk tt).
  Proof.
    intros Hres Hm He Hd Hd' Hs H1 H2 H3 H4. pose proof (chunk_bytes f m Hb Hm) as Hbm. destruct parquet_ok as (_ & HE & _).
    destruct (read_conforming c parquet_env 12 (TNamed "FileMetaData") v m d Hc Hres HE eq_refl He Hd) as [Hr _].
    specialize (Hr []). rewrite app_nil_r in Hr. specialize (Hr Hbm).
    destruct (main_decoded d m [] v Hm Hr) as (sl & es & Hsl & Hes & Hok & Hlen & H).
    assert (es = flatten t) by congruence. subst es.
    destruct (proj2 (convert_iff c little alloc Hc d (flatten t) Hok Hlen Hd' (fun n _ => Ha n))) as (fld & Hf); [exists t; auto|].
    rewrite Hf in H. destruct H as (ls & Hls & H).
    exists fld, sl, ls. split; [|auto]. exact (convert_tree c little alloc d t fld Hc Hok Hlen H1 Hf).
  Qed.
  Lemma main_finished d out : main c little alloc d f = Some (out, POk tt) ->
    exists m s' v es fld sl ls, parquet_file (data f) m /\ read_thrift c (slice_input c) parquet_env d (TNamed "FileMetaData") m = (s', Ok v) /\
      schema_of v = Some es /\ convert_schema c little alloc d es = POk fld /\ says_summary v sl /\ shows 0 fld ls /\ out = lines (sl ++ ls).
  Proof.
    intros H. destruct (snd (get_metadata_chunk c alloc f)) as [m|e|p] eqn:E; [|unfold main in H; rewrite E in H; discriminate..].
    pose proof (proj1 (metadata_ok_iff c alloc Hc f m Hh Hb Ha Hsz) E) as Hm.
    destruct (read_thrift c (slice_input c) parquet_env d (TNamed "FileMetaData") m) as [s' [v|e|p]] eqn:Hr; [|unfold main in H; rewrite E, Hr in H; discriminate..].
    destruct (main_decoded d m s' v Hm Hr) as (sl & es & Hsl & Hes & _ & _ & H'). destruct (convert_schema c little alloc d es) as [fld|e|p] eqn:Ec; [|congruence..].
    destruct H' as (ls & Hls & H'). exists m, s', v, es, fld, sl, ls. repeat (split; [assumption|]). congruence.
  Qed.
  Lemma main_panics d out p : (need 12 (TNamed "FileMetaData") (List.length (data f)) <= d)%nat -> (128 <= d)%nat ->
    main c little alloc d f = Some (out, PPanic p) -> out = [] /\ slice_panic c p.
  Proof.
    intros Hd Hd' H. destruct (metadata_otherwise c alloc Hc f Hh Hb (fun n _ => Ha n) Hsz) as [[m E]|[E|E]]; [|unfold main in H; rewrite E in H; discriminate..].
    pose proof (proj1 (metadata_ok_iff c alloc Hc f m Hh Hb Ha Hsz) E) as Hm. pose proof (chunk_bytes f m Hb Hm) as Hbm.
    assert (Hlen : (List.length m <= List.length (data f))%nat) by (destruct Hm as (_ & pre & ->); rewrite !app_length; lia).
    assert (Hdm : (need 12 (TNamed "FileMetaData") (List.length m) <= d)%nat) by (unfold need in *; lia).
    destruct (read_thrift c (slice_input c) parquet_env d (TNamed "FileMetaData") m) as [s' [v|e|q]] eqn:Hr.
    - destruct (main_decoded d m s' v Hm Hr) as (sl & es & Hsl & Hes & Hok & Hl & H'). destruct (convert_schema c little alloc d es) as [fld|e|q] eqn:Ec.
      + destruct H' as (ls & _ & H'). congruence.
      + congruence.
      + exfalso. revert Ec. apply convert_no_panic; auto.
    - unfold main in H. rewrite E, Hr in H. discriminate.
    - unfold main in H. rewrite E, Hr in H. injection H as <- <-. split; [reflexivity|].
      apply (P_Robust.read_slice_panic c parquet_env 12 d (TNamed "FileMetaData") m q Hc eq_refl eq_refl Hbm Hdm). rewrite Hr. reflexivity.
  Qed.
End Main.

(** * Samples *)
Definition sample_meta_file : file := cursor (sample_meta_bytes ++ le4 (zlen sample_meta_bytes) ++ [80; 65; 82; 49]).
Lemma sample_meta_enc : enc parquet_env (TNamed "FileMetaData") sample_meta sample_meta_bytes.
Proof.
  destruct (parquet_write_read debug64 (TNamed "FileMetaData") sample_meta sample_meta_bytes 5000) as [H _].
  - vm_compute. auto.
  - intros n H. reflexivity.
  - apply typedb_ok. vm_compute. reflexivity.
  - vm_compute. reflexivity.
  - apply Nat.leb_le. vm_compute. reflexivity.
  - exact H.
Qed.
Lemma sample_meta_ok : healthy sample_meta_file /\ parquet_file (data sample_meta_file) sample_meta_bytes /\
  enc parquet_env (TNamed "FileMetaData") sample_meta sample_meta_bytes /\ schema_of sample_meta = Some (flatten sample_tree) /\
  everywhere announced sample_tree /\ everywhere acceptable sample_tree /\ (groups sample_tree <= 127)%nat /\ required (elem sample_tree).
Proof.
  split; [constructor|]. split; [split; [reflexivity|exists []; reflexivity]|]. split; [exact sample_meta_enc|]. split; [reflexivity|].
  destruct (proj1 (convert_iff debug64 true (fun _ => true) ltac:(vm_compute; auto) 128 (flatten sample_tree) sample_ok eq_refl ltac:(lia) (fun _ _ => eq_refl)))
    as (t & E & H1 & H2 & H3 & H4); [exists sample_field; vm_compute; reflexivity|].
  assert (Ha : everywhere announced sample_tree).
  { unfold sample_tree. repeat (constructor; try (cbn; auto)). }
  rewrite <- (flatten_unique t sample_tree H1 Ha E). auto.
Qed.
Lemma file_printed c little alloc f d m v t :
  cfg_ok c -> reserve_ok c -> healthy f -> bytes (data f) -> (forall n, alloc n = true) -> zlen (data f) < 2 ^ (usize_bits c - 1) ->
  parquet_file (data f) m -> enc parquet_env (TNamed "FileMetaData") v m ->
  (need 12 (TNamed "FileMetaData") (List.length m) <= d)%nat -> (128 <= d)%nat ->
  schema_of v = Some (flatten t) -> everywhere announced t -> everywhere acceptable t -> (groups t <= 127)%nat -> required (elem t) ->
  exists fld sl ls, represents little t fld /\ says_summary v sl /\ shows 0 fld ls /\
    main c little alloc d f = Some (lines (sl ++ ls), POk tt).
Proof. intros H1 H2 H3 H4 H5 H6. exact (main_prints c little alloc f H1 H3 H4 H5 H6 d m v t H2). Qed.
