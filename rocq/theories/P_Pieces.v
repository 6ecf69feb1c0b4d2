(** Binaries and strings are parts of the input: the lemmas behind C91. *)
From Coq Require Import Permutation.
From Verif Require Import Base Uleb Utf8 Protocol Types SpecCompact SpecInput SpecDefault SpecAccept SpecPieces P_Default P_Accept Schema P_Robust P_SimInst.

Lemma pieces_before ls a s : pieces ls s -> pieces ls (a ++ s).
Proof. intros H. inversion H; subst; [constructor|]. rewrite app_assoc. constructor. assumption. Qed.
Lemma pieces_app l1 l2 s1 s2 : pieces l1 s1 -> pieces l2 s2 -> pieces (l1 ++ l2) (s1 ++ s2).
Proof.
  intros H1 H2. induction H1; cbn [app]; [apply pieces_before; exact H2|]. rewrite <- !app_assoc. constructor. exact IHpieces.
Qed.
Lemma pieces_after ls s b : pieces ls s -> pieces ls (s ++ b).
Proof. intros H. rewrite <- (app_nil_r ls). apply pieces_app; [exact H|constructor]. Qed.
Lemma pieces_nils ls s : Forall (fun l => l = []) ls -> pieces ls s.
Proof. intros H. induction H as [|l ls -> H IH]; [constructor|]. change s with ([] ++ [] ++ s). constructor. exact IH. Qed.

(** The contents after filling with [p] are parts of [p] or were there before. *)
Definition from (old : list (list Z)) (p : list Z) (new : list (list Z)) : Prop :=
  exists ls kept dropped, Permutation new (ls ++ kept) /\ Permutation old (kept ++ dropped) /\ pieces ls p.
Lemma from_new old p new : pieces new p -> from old p new.
Proof. intros H. exists new, [], old. rewrite app_nil_r. repeat split; auto. Qed.
Lemma from_nothing old p : from old p [].
Proof. apply from_new. constructor. Qed.
Lemma from_same old p : from old p old.
Proof. exists [], old, []. rewrite app_nil_r. repeat split; auto. constructor. Qed.
Lemma from_trans o1 p1 n1 p2 n2 : from o1 p1 n1 -> from n1 p2 n2 -> from o1 (p1 ++ p2) n2.
Proof.
  intros (l1 & k1 & d1 & H1 & H2 & H3) (l2 & k2 & d2 & H4 & H5 & H6).
  (* n1 = l1 ++ k1 = k2 ++ d2: divide k2 into its parts in l1 and k1 *)
  assert (G : forall k l k' d : list (list Z), Permutation (k ++ d) (l ++ k') -> exists ka kb da db, Permutation k (ka ++ kb) /\ Permutation l (ka ++ da) /\ Permutation k' (kb ++ db)).
  { induction k as [|x k IH]; intros l k' d H.
    - exists [], [], l, k'. auto.
    - cbn [app] in H. assert (Hx : In x (l ++ k')) by (apply (Permutation_in _ H); left; reflexivity). apply in_app_or in Hx as [Hx|Hx].
      + apply in_split in Hx as (a & b & ->). destruct (IH (a ++ b) k' d) as (ka & kb & da & db & Hk & Hl & Hk').
        { rewrite <- app_assoc in H. cbn [app] in H. apply Permutation_cons_app_inv in H. rewrite <- app_assoc. exact H. }
        exists (x :: ka), kb, da, db. split; [cbn [app]; constructor; exact Hk|]. split; [|exact Hk']. rewrite <- Permutation_middle. cbn [app]. constructor. exact Hl.
      + apply in_split in Hx as (a & b & ->). destruct (IH l (a ++ b) d) as (ka & kb & da & db & Hk & Hl & Hk').
        { rewrite app_assoc in H. apply Permutation_cons_app_inv in H. rewrite <- app_assoc in H. exact H. }
        exists ka, (x :: kb), da, db. split; [rewrite <- Permutation_middle; constructor; exact Hk|]. split; [exact Hl|]. rewrite <- Permutation_middle. cbn [app]. constructor. exact Hk'. }
  assert (P : forall ls s, pieces ls s -> forall ka da, Permutation ls (ka ++ da) -> exists ka', Permutation ka ka' /\ pieces ka' s).
  { intros ls s H. induction H as [s|a l ls b H IH]; intros ka da Hp.
    - apply Permutation_nil in Hp. apply app_eq_nil in Hp as [-> ->]. exists []. split; [constructor|constructor].
    - assert (Hl : In l (ka ++ da)) by (apply (Permutation_in _ Hp); left; reflexivity). apply in_app_or in Hl as [Hl|Hl].
      + apply in_split in Hl as (x & y & ->). destruct (IH (x ++ y) da) as (k' & Hk & Hpk).
        { rewrite <- app_assoc in Hp. cbn [app] in Hp. apply Permutation_cons_app_inv in Hp. rewrite <- app_assoc. exact Hp. }
        exists (l :: k'). split; [rewrite <- Permutation_middle; constructor; exact Hk|constructor; exact Hpk].
      + apply in_split in Hl as (x & y & ->). destruct (IH ka (x ++ y)) as (k' & Hk & Hpk).
        { rewrite app_assoc in Hp. apply Permutation_cons_app_inv in Hp. rewrite <- app_assoc in Hp. exact Hp. }
        exists k'. split; [exact Hk|]. apply pieces_before. apply pieces_before. exact Hpk. }
  destruct (G k2 l1 k1 d2) as (ka & kb & da & db & Hk2 & Hl1 & Hk1); [rewrite <- H5; exact H1|].
  destruct (P l1 p1 H3 ka da Hl1) as (ka' & Hka & Hpka). exists (ka' ++ l2), kb, (db ++ d1).
  split; [|split; [|apply pieces_app; assumption]].
  - rewrite H4, Hk2, Hka. rewrite (Permutation_app_comm ka' l2). rewrite <- app_assoc. reflexivity.
  - rewrite H2, Hk1. rewrite <- !app_assoc. reflexivity.
Qed.
Lemma from_frame l r old p new : from old p new -> from (l ++ old ++ r) p (l ++ new ++ r).
Proof.
  intros (ls & k & d & H1 & H2 & H3). exists ls, (l ++ k ++ r), d. split; [|split; [|exact H3]].
  - rewrite H1. rewrite <- !app_assoc. rewrite !app_assoc. rewrite (Permutation_app_comm l ls). reflexivity.
  - rewrite H2. rewrite <- !app_assoc. do 2 apply Permutation_app_head. apply Permutation_app_comm.
Qed.
Lemma from_later old p1 p2 new : from old p2 new -> from old (p1 ++ p2) new.
Proof. intros (ls & k & d & H1 & H2 & H3). exists ls, k, d. split; [exact H1|]. split; [exact H2|]. apply pieces_before. exact H3. Qed.
Lemma from_earlier old p1 p2 new : from old p1 new -> from old (p1 ++ p2) new.
Proof. intros (ls & k & d & H1 & H2 & H3). exists ls, k, d. split; [exact H1|]. split; [exact H2|]. apply pieces_after. exact H3. Qed.

Lemma standard_empty E : (forall t v, standard E t v -> Forall (fun l => l = []) (payloads v)) /\
  (forall fs vs, standard_fields E fs vs -> Forall (fun l => l = []) (flat_map payloads vs)).
Proof.
  apply standard_mutind; cbn [payloads flat_map]; intros; try constructor; try assumption; try reflexivity; try constructor. apply Forall_app. split; assumption.
Qed.
(** What starts from a default consists of parts of the input. *)
Lemma from_standard old p new : Forall (fun l => l = []) old -> from old p new -> exists ls, Permutation new ls /\ pieces ls p.
Proof.
  intros H (ls & k & d & H1 & H2 & H3). exists (ls ++ k). split; [exact H1|]. assert (Hk : Forall (fun l => l = []) k).
  { rewrite Forall_forall in *. intros x Hx. apply H. apply Permutation_sym in H2. apply (Permutation_in _ H2). apply in_or_app. left. exact Hx. }
  rewrite <- (app_nil_r p). apply pieces_app; [exact H3|apply pieces_nils; exact Hk].
Qed.
Lemma from_fresh E t dv old p new : standard E t dv -> from (payloads dv) p new -> from old p new.
Proof.
  intros Hs H. destruct (from_standard _ _ _ (proj1 (standard_empty E) _ _ Hs) H) as (ls & Hp & Hq). exists ls, [], old. rewrite app_nil_r. split; [exact Hp|]. split; [reflexivity|exact Hq].
Qed.
Lemma chunk_piece c l p : chunk c l p -> pieces [l] p.
Proof. intros (n & len & -> & _). rewrite <- (app_nil_r l) at 2. constructor. constructor. Qed.

Lemma takes_from c E :
  (forall t v p w, takes c E t v p w -> from (payloads v) p (payloads w)) /\
  (forall t n p ws, takes_seq c E t n p ws -> exists ls, Permutation (flat_map payloads ws) ls /\ pieces ls p) /\
  (forall t ft v p w, takes_field c E t ft v p w -> from (payloads v) p (payloads w)) /\
  (forall fs last seen vs p ws, takes_fields c E fs last seen vs p ws -> from (flat_map payloads vs) p (flat_map payloads ws)).
Proof.
  apply takes_mutind; cbn [payloads]; intros.
  - apply from_nothing.
  - apply from_nothing.
  - apply from_nothing.
  - apply from_nothing.
  - apply from_nothing.
  - apply from_nothing.
  - apply from_new. eapply chunk_piece. eassumption.
  - apply from_new. eapply chunk_piece. eassumption.
  - destruct H3 as (ls & Hp & Hq). exists ls, [], (payloads v). rewrite app_nil_r. split; [exact Hp|]. split; [reflexivity|]. apply pieces_before. exact Hq.
  - eapply from_fresh; eassumption.
  - assumption.
  - assumption.
  - apply from_nothing.
  - apply from_nothing.
  - assumption.
  - apply from_later. apply from_earlier. eapply from_fresh; eassumption.
  - exists []. split; [constructor|constructor].
  - destruct H3 as (ls & Hp & Hq). cbn [flat_map]. destruct (from_standard _ _ _ (proj1 (standard_empty E) _ _ H) H1) as (l1 & Hp1 & Hq1).
    exists (l1 ++ ls). split; [apply Permutation_app; assumption|apply pieces_app; assumption].
  - apply from_nothing.
  - eapply from_fresh; eassumption.
  - assumption.
  - apply from_same.
  - apply from_later. rewrite !flat_map_app in *. cbn [flat_map] in *. eapply from_trans; [apply from_frame; exact H3|]. exact H5.
  - do 2 apply from_later. assumption.
Qed.

(** * The statements *)
Lemma fill_pieces c E d t v s rest w : cfg_ok c -> acceptable E -> declared E t -> bytes s ->
  fill c (slice_input c) E d t v s = (rest, w, Ok tt) ->
  exists p ls kept dropped, s = p ++ rest /\ Permutation (payloads w) (ls ++ kept) /\ Permutation (payloads v) (kept ++ dropped) /\ pieces ls p.
Proof.
  intros Hc HE Ht Hb H. destruct (proj1 (fill_iff c E t v s rest w Hc HE Ht Hb) (ex_intro _ d H)) as (p & -> & Hp).
  destruct (proj1 (takes_from c E) t v p w Hp) as (ls & k & dr & H1 & H2 & H3). exists p, ls, k, dr. auto.
Qed.
Lemma accepted_pieces c E t p v : accepted c E t p v -> exists ls, Permutation (payloads v) ls /\ pieces ls p.
Proof.
  intros (dv & Hs & Hp). exact (from_standard _ _ _ (proj1 (standard_empty E) _ _ Hs) (proj1 (takes_from c E) t dv p v Hp)).
Qed.
Lemma read_pieces c E d t s rest v : cfg_ok c -> acceptable E -> declared E t -> bytes s ->
  read_thrift c (slice_input c) E d t s = (rest, Ok v) -> exists p ls, s = p ++ rest /\ Permutation (payloads v) ls /\ pieces ls p.
Proof.
  intros Hc HE Ht Hb H. destruct (proj1 (read_iff c E t s rest v Hc HE Ht Hb) (ex_intro _ d H)) as (p & -> & Hp).
  destruct (accepted_pieces c E t p v Hp) as (ls & H1 & H2). exists p, ls. auto.
Qed.
Lemma reader_pieces c E K d t r r' v : cfg_ok c -> acceptable E -> env_closed E K = true -> declared E t -> ty_closed E t = true -> reader_bytes r ->
  read_thrift c (reader_input c) E d t r = (r', Ok v) -> exists p ls, content r = p ++ content r' /\ Permutation (payloads v) ls /\ pieces ls p.
Proof.
  intros Hc HE HK Ht Hty Hr H. pose proof (content_bytes r Hr) as Hb. pose proof (read_agrees c E K d t r Hc HK Hty Hb Hr) as Ha.
  assert (exists rest, read_thrift (portable c) (slice_input (portable c)) E d t (content r) = (rest, Ok v) /\ content r' = rest) as (rest & H1 & <-).
  { rewrite H in Ha. destruct (read_thrift (portable c) (slice_input (portable c)) E d t (content r)) as [s1 o] eqn:H1. destruct Ha as [Ha1 Ha2]. cbn [fst snd] in *.
    assert (o = Ok v) by (destruct o as [a'|e|p]; [|destruct e; try match goal with k : io_kind |- _ => destruct k end|]; cbn in Ha1; congruence). subst o. destruct (Ha2 I) as [-> _]. eauto. }
  exact (read_pieces (portable c) E d t _ _ v (portable_ok c Hc) HE Ht Hb H1).
Qed.

Lemma pieces_length ls s : pieces ls s -> (List.length (List.concat ls) <= List.length s)%nat.
Proof. intros H. induction H; cbn [List.concat]; [cbn; lia|]. rewrite !app_length. lia. Qed.
Lemma concat_permutation (a b : list (list Z)) : Permutation a b -> List.length (List.concat a) = List.length (List.concat b).
Proof. intros H. induction H; cbn [List.concat]; rewrite ?app_length; lia. Qed.
Lemma accepted_volume c E t p v : accepted c E t p v -> (List.length (List.concat (payloads v)) <= List.length p)%nat.
Proof. intros H. destruct (accepted_pieces c E t p v H) as (ls & H1 & H2). rewrite (concat_permutation _ _ H1). exact (pieces_length _ _ H2). Qed.
