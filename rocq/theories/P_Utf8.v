(** [utf8_valid] (std's from_utf8) decides well-formed UTF-8. *)
From Coq Require Import ZifyBool ZifyNat.
From Verif Require Import Base Utf8 SpecUtf8.
Ltac Zify.zify_post_hook ::= Z.div_mod_to_equations.

Lemma utf8_valid_char u rest : scalar_value u -> utf8_valid (utf8_char u ++ rest) = utf8_valid rest.
Proof.
  intros Hu. unfold scalar_value in Hu. unfold utf8_char.
  destruct (u <=? 127) eqn:H1; [|destruct (u <=? 2047) eqn:H2; [|destruct (u <=? 65535) eqn:H3]];
    cbn [app utf8_valid].
  - replace (u <? 128) with true by lia. reflexivity.
  - replace (192 + u / 64 <? 128) with false by lia.
    replace (194 <=? 192 + u / 64) with true by lia.
    replace (192 + u / 64 <=? 223) with true by lia.
    cbn [andb]. unfold is_cont.
    replace (128 <=? 128 + u mod 64) with true by lia.
    replace (128 + u mod 64 <=? 191) with true by lia. reflexivity.
  - replace (224 + u / 4096 <? 128) with false by lia.
    replace (224 + u / 4096 <=? 223) with false by lia. rewrite andb_false_r.
    replace (224 <=? 224 + u / 4096) with true by lia.
    replace (224 + u / 4096 <=? 239) with true by lia. cbn [andb].
    unfold is_cont.
    replace (128 <=? 128 + u mod 64) with true by lia.
    replace (128 + u mod 64 <=? 191) with true by lia.
    replace (128 <=? 128 + (u / 64) mod 64) with true by lia.
    replace (128 + (u / 64) mod 64 <=? 191) with true by lia.
    destruct (224 + u / 4096 =? 224) eqn:Ha.
    { replace (160 <=? 128 + (u / 64) mod 64) with true by lia. reflexivity. }
    destruct (224 + u / 4096 =? 237) eqn:Hb; [|reflexivity].
    replace (128 + (u / 64) mod 64 <=? 159) with true by lia. reflexivity.
  - replace (240 + u / 262144 <? 128) with false by lia.
    replace (240 + u / 262144 <=? 223) with false by lia. rewrite andb_false_r.
    replace (240 + u / 262144 <=? 239) with false by lia. rewrite andb_false_r.
    replace (240 <=? 240 + u / 262144) with true by lia.
    replace (240 + u / 262144 <=? 244) with true by lia. cbn [andb].
    unfold is_cont.
    replace (128 <=? 128 + u mod 64) with true by lia.
    replace (128 + u mod 64 <=? 191) with true by lia.
    replace (128 <=? 128 + (u / 64) mod 64) with true by lia.
    replace (128 + (u / 64) mod 64 <=? 191) with true by lia.
    replace (128 <=? 128 + (u / 4096) mod 64) with true by lia.
    replace (128 + (u / 4096) mod 64 <=? 191) with true by lia.
    destruct (240 + u / 262144 =? 240) eqn:Ha.
    { replace (144 <=? 128 + (u / 4096) mod 64) with true by lia. reflexivity. }
    destruct (240 + u / 262144 =? 244) eqn:Hb; [|reflexivity].
    replace (128 + (u / 4096) mod 64 <=? 143) with true by lia. reflexivity.
Qed.

Lemma well_formed_nil : well_formed_utf8 [].
Proof. exists []. split; [constructor|reflexivity]. Qed.

Lemma well_formed_cons u l : scalar_value u -> well_formed_utf8 l -> well_formed_utf8 (utf8_char u ++ l).
Proof.
  intros Hu (us & Hus & ->). exists (u :: us). split; [constructor; assumption|reflexivity].
Qed.

Lemma utf8_char1 b : 0 <= b <= 127 -> utf8_char b = [b].
Proof. intros. unfold utf8_char. replace (b <=? 127) with true by lia. reflexivity. Qed.
Lemma utf8_char2 b0 b1 : 194 <= b0 <= 223 -> 128 <= b1 <= 191 ->
  utf8_char ((b0 - 192) * 64 + (b1 - 128)) = [b0; b1].
Proof.
  intros. unfold utf8_char. set (u := (b0 - 192) * 64 + (b1 - 128)).
  replace (u <=? 127) with false by lia. replace (u <=? 2047) with true by lia.
  repeat (apply (f_equal2 (@cons Z)); [lia|]); reflexivity.
Qed.
Lemma utf8_char3 b0 b1 b2 : 224 <= b0 <= 239 -> 128 <= b1 <= 191 -> 128 <= b2 <= 191 ->
  (b0 = 224 -> 160 <= b1) ->
  utf8_char ((b0 - 224) * 4096 + (b1 - 128) * 64 + (b2 - 128)) = [b0; b1; b2].
Proof.
  intros. unfold utf8_char. set (u := (b0 - 224) * 4096 + (b1 - 128) * 64 + (b2 - 128)).
  replace (u <=? 127) with false by lia. replace (u <=? 2047) with false by lia.
  replace (u <=? 65535) with true by lia.
  repeat (apply (f_equal2 (@cons Z)); [lia|]); reflexivity.
Qed.
Lemma utf8_char4 b0 b1 b2 b3 : 240 <= b0 <= 244 -> 128 <= b1 <= 191 -> 128 <= b2 <= 191 -> 128 <= b3 <= 191 ->
  (b0 = 240 -> 144 <= b1) ->
  utf8_char ((b0 - 240) * 262144 + (b1 - 128) * 4096 + (b2 - 128) * 64 + (b3 - 128)) = [b0; b1; b2; b3].
Proof.
  intros. unfold utf8_char. set (u := (b0 - 240) * 262144 + (b1 - 128) * 4096 + (b2 - 128) * 64 + (b3 - 128)).
  replace (u <=? 127) with false by lia. replace (u <=? 2047) with false by lia.
  replace (u <=? 65535) with false by lia.
  repeat (apply (f_equal2 (@cons Z)); [lia|]); reflexivity.
Qed.

Lemma utf8_valid_sound n : forall l, (List.length l <= n)%nat -> bytes l ->
  utf8_valid l = true -> well_formed_utf8 l.
Proof.
  induction n as [|n IH]; intros l Hlen Hb Hv.
  { destruct l; [apply well_formed_nil|cbn in Hlen; lia]. }
  destruct l as [|b0 l0]; [apply well_formed_nil|].
  cbn [List.length] in Hlen. inversion Hb as [|? ? Hb0 Hl0]; subst. clear Hb.
  cbn [utf8_valid] in Hv. unfold is_byte in Hb0.
  destruct (b0 <? 128) eqn:H0.
  { change (b0 :: l0) with ([b0] ++ l0). rewrite <- (utf8_char1 b0) by lia.
    apply well_formed_cons; [unfold scalar_value; lia|]. apply IH; [lia|assumption|assumption]. }
  destruct ((194 <=? b0) && (b0 <=? 223)) eqn:H2.
  { destruct l0 as [|b1 l1]; [discriminate|].
    apply andb_true_iff in Hv as [Hc1 Hv]. unfold is_cont in Hc1.
    change (b0 :: b1 :: l1) with ([b0; b1] ++ l1). rewrite <- (utf8_char2 b0 b1) by lia.
    inversion Hl0; subst. cbn [List.length] in Hlen.
    apply well_formed_cons; [unfold scalar_value; lia|]. apply IH; [lia|assumption|assumption]. }
  destruct ((224 <=? b0) && (b0 <=? 239)) eqn:H3.
  { destruct l0 as [|b1 [|b2 l2]]; try discriminate.
    apply andb_true_iff in Hv as [Hv0 Hv]. apply andb_true_iff in Hv0 as [Hc1 Hc2].
    unfold is_cont in *. cbn [List.length] in Hlen.
    inversion Hl0 as [|? ? _ Hl1]; subst. inversion Hl1 as [|? ? _ Hl2]; subst.
    change (b0 :: b1 :: b2 :: l2) with ([b0; b1; b2] ++ l2).
    destruct (b0 =? 224) eqn:Ha; [|destruct (b0 =? 237) eqn:Hbb];
    (rewrite <- (utf8_char3 b0 b1 b2) by lia;
     apply well_formed_cons; [unfold scalar_value; lia|]; apply IH; [lia|assumption|assumption]). }
  destruct ((240 <=? b0) && (b0 <=? 244)) eqn:H4; [|discriminate].
  destruct l0 as [|b1 [|b2 [|b3 l3]]]; try discriminate.
  apply andb_true_iff in Hv as [Hv0 Hv]. apply andb_true_iff in Hv0 as [Hv1 Hc3].
  apply andb_true_iff in Hv1 as [Hc1 Hc2].
  unfold is_cont in *. cbn [List.length] in Hlen.
  inversion Hl0 as [|? ? _ Hl1]; subst. inversion Hl1 as [|? ? _ Hl2]; subst. inversion Hl2 as [|? ? _ Hl3]; subst.
  change (b0 :: b1 :: b2 :: b3 :: l3) with ([b0; b1; b2; b3] ++ l3).
  destruct (b0 =? 240) eqn:Ha; [|destruct (b0 =? 244) eqn:Hbb];
    (rewrite <- (utf8_char4 b0 b1 b2 b3) by lia;
     apply well_formed_cons; [unfold scalar_value; lia|]; apply IH; [lia|assumption|assumption]).
Qed.

Lemma utf8_valid_complete l : well_formed_utf8 l -> utf8_valid l = true.
Proof.
  intros (us & Hus & ->). induction Hus as [|u us Hu Hus IH]; [reflexivity|].
  unfold utf8_text in *. cbn [flat_map]. rewrite utf8_valid_char by exact Hu. exact IH.
Qed.

Lemma utf8_valid_iff l : bytes l -> (utf8_valid l = true <-> well_formed_utf8 l).
Proof.
  intros Hb. split; [apply (utf8_valid_sound (List.length l)); [lia|exact Hb]|apply utf8_valid_complete].
Qed.
