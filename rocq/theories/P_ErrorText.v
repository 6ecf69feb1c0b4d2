(** Lemmas for C60: the text of an error. *)
From Verif Require Import Base ErrorName SpecPrint P_Print P_ErrorName P_GenNames SpecErrorText.
Open Scope Z_scope.
Open Scope list_scope.

Lemma hex_ok n : 0 <= n < 16 -> nth_error hex (Z.to_nat n) = Some (hex_digit n).
Proof.
  intros H. assert (n = 0 \/ n = 1 \/ n = 2 \/ n = 3 \/ n = 4 \/ n = 5 \/ n = 6 \/ n = 7 \/ n = 8 \/ n = 9 \/ n = 10 \/ n = 11 \/ n = 12 \/ n = 13 \/ n = 14 \/ n = 15) as E by lia.
  repeat destruct E as [->|E]; try reflexivity. subst. reflexivity.
Qed.
Lemma escape_says b : 0 <= b < 256 -> byte_escape b (escape b).
Proof.
  intros H. unfold escape. destruct (Z.eqb_spec b 9) as [->|H9]; [exact be_tab|]. destruct (Z.eqb_spec b 13) as [->|H13]; [exact be_return|].
  destruct (Z.eqb_spec b 10) as [->|H10]; [exact be_newline|]. destruct (Z.eqb_spec b 39) as [->|H39]; [apply be_quote; auto|].
  destruct (Z.eqb_spec b 34) as [->|H34]; [apply be_quote; auto|]. destruct (Z.eqb_spec b 92) as [->|H92]; [apply be_quote; auto|].
  destruct ((32 <=? b) && (b <=? 126)) eqn:E; [apply be_plain; lia|].
  pose proof (Z.div_mod b 16 ltac:(lia)). pose proof (Z.mod_pos_bound b 16 ltac:(lia)).
  assert (0 <= b / 16 < 16) by (split; [apply Z.div_pos; lia|apply Z.div_lt_upper_bound; lia]).
  apply (be_hex b (Z.to_nat (b / 16)) (Z.to_nat (b mod 16))); try lia; apply hex_ok; lia.
Qed.
Lemma escapes_say l : Forall (fun b => 0 <= b < 256) l -> exists es, Forall2 byte_escape l es /\ flat_map escape l = List.concat es.
Proof. intros H. exists (map escape l). split; [|apply flat_map_concat_map]. induction H as [|b l Hb _ IH]; constructor; [exact (escape_says b Hb)|exact IH]. Qed.
Lemma display_says other e : error_ok e -> exists s, display_error other e = Ok s /\ error_says other e s.
Proof.
  intros H. destruct e; try (eexists; split; [reflexivity|constructor]; fail).
  - eexists. split; [reflexivity|]. apply es_binary. apply decimal_numeral. exact H.
  - rewrite display_missing by exact H. destruct (escapes_say (text name)) as (es & H1 & H2); [exact (text_bytes name)|].
    eexists. split; [reflexivity|]. rewrite H2. change (tuple "MissingField" ([34] ++ List.concat es ++ [34])) with (text "MissingField(""" ++ (List.concat es ++ [34]) ++ [41]).
    rewrite <- app_assoc. apply es_missing. exact H1.
  - eexists. split; [reflexivity|]. apply es_io. destruct k; constructor.
Qed.
Lemma escape_same b c x y : byte_escape b x -> byte_escape c y -> b = c -> x = y.
Proof.
  intros H1 H2 E. destruct H1, H2; try reflexivity; try lia; try (subst; reflexivity).
  assert (L : forall n a, nth_error hex n = Some a -> (n < 16)%nat) by (intros n a E9; change 16%nat with (List.length hex); apply nth_error_Some; rewrite E9; discriminate).
  match goal with E1 : nth_error hex ?a = Some ?x, E2 : nth_error hex ?b = Some ?y, E3 : nth_error hex ?a' = Some ?x', E4 : nth_error hex ?b' = Some ?y' |- text "\x" ++ [?x; ?y] = text "\x" ++ [?x'; ?y'] =>
    pose proof (L _ _ E1); pose proof (L _ _ E2); pose proof (L _ _ E3); pose proof (L _ _ E4); assert (a' = a) by lia; assert (b' = b) by lia; subst a' b'; congruence end.
Qed.
Lemma escape_one b x y : byte_escape b x -> byte_escape b y -> x = y.
Proof. intros H1 H2. exact (escape_same b b x y H1 H2 eq_refl). Qed.
Lemma escapes_one l xs ys : Forall2 byte_escape l xs -> Forall2 byte_escape l ys -> xs = ys.
Proof. intros H. revert ys. induction H as [|b x l xs Hb _ IH]; intros ys H2; inversion H2; subst; [reflexivity|]. f_equal; [eapply escape_one; eassumption|auto]. Qed.
Lemma says_one other e a b : error_says other e a -> error_says other e b -> a = b.
Proof.
  intros H1 H2. destruct H1; inversion H2; subst; try reflexivity.
  - match goal with E1 : numeral n ?x, E2 : numeral n ?y |- _ => rewrite (numeral_unique n x y E1 E2) end. reflexivity.
  - match goal with E1 : Forall2 _ _ ?x, E2 : Forall2 _ _ ?y |- _ => rewrite (escapes_one _ x y E1 E2) end. reflexivity.
  - match goal with E1 : kind_text _ _ ?x, E2 : kind_text _ _ ?y |- _ => assert (x = y) as -> by (destruct E1; inversion E2; reflexivity) end. reflexivity.
Qed.
