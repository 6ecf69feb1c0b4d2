(** C100: from the text of macros.rs to the modelled behaviour. *)
From Verif Require Import Base Protocol Types Macro RustLex RustMacro MacrosText MacroRules SpecRust RustCode SpecExpand
  Parquet P_RustCode P_GenCode P_ExpandAll P_ExpandUnique SpecWhole.
Open Scope Z_scope.
Open Scope list_scope.

Lemma in_lookup E n d : NoDup (map fst E) -> In (n, d) E -> lookup E n = Some d.
Proof.
  induction E as [|[m e] E IH]; intros Hn Hi; [destruct Hi|]. cbn [map fst] in Hn. apply NoDup_cons_iff in Hn as [Hm Hn].
  cbn [lookup]. destruct Hi as [H|H].
  - injection H as -> ->. rewrite String.eqb_refl. reflexivity.
  - destruct (String.eqb n m) eqn:He; [|apply IH; assumption].
    apply String.eqb_eq in He. subst m. exfalso. apply Hm. apply (in_map fst) in H. exact H.
Qed.

Lemma named_methods E n z f w : In (Protocol n z f w) (map methods E) ->
  exists d, In (n, d) E /\ methods (n, d) = Protocol n z f w.
Proof.
  intros H. apply in_map_iff in H as ([m d] & Em & Hi). exists d.
  assert (m = n) by (destruct d; cbn in Em; injection Em; congruence). subst m. auto.
Qed.

Section Whole.
  Variables (ms : list (string * list rule)) (ts : list tree) (ds : list (string * mdef)) (E : env) (k : nat) (out : list tree) (l : list item).
  Hypothesis Hm : read_macros macros_rs_text = Some ms.
  Hypothesis Hd : declarations ds ts.
  Hypothesis He : expand_all ds = Some E.
  Hypothesis Hs : Forall (fun d => suitable (snd d)) ds.
  Hypothesis Hk : (List.length ts + 4 <= k)%nat.
  Hypothesis Hn : names_differ E.
  Hypothesis Ho : expansion ms k "thrift" ts = Some out.
  Hypothesis Hl : items_read l out.

  Lemma whole_methods : filter is_methods l = map methods E.
  Proof.
    destruct (declared_expand ms ts ds E k Hm Hd He Hs Hk) as (l' & out' & _ & Ho' & Hr' & Hf).
    rewrite Ho in Ho'. injection Ho' as <-. rewrite (items_unique l out Hl l' Hr'). exact Hf.
  Qed.
  Lemma whole_in n z f w : In (Protocol n z f w) l -> exists d, lookup E n = Some d /\ In (n, d) E /\ methods (n, d) = Protocol n z f w.
  Proof.
    intros Hi. assert (Hj : In (Protocol n z f w) (filter is_methods l)) by (apply filter_In; auto).
    rewrite whole_methods in Hj. destruct (named_methods _ _ _ _ _ Hj) as (d & H1 & H2). exists d.
    split; [apply in_lookup; [apply Hn|exact H1]|auto].
  Qed.
  Lemma whole_fields n d : In (n, d) E -> match d with DStruct fs | DUnion fs => NoDup (map f_name fs) | DEnum => True end.
  Proof. intros Hi. destruct Hn as [_ Hf]. rewrite Forall_forall in Hf. exact (Hf _ Hi). Qed.

  Lemma whole_fill n z f w : In (Protocol n z f w) l ->
    z = field_type E (TNamed n) /\
    forall S c (I : input S) d v s, shaped E n v ->
      fill c I E (Datatypes.S d) (TNamed n) v s =
      method (members E n) (default E d)
        (run_read (members E n) c I (fill c I E d) (fill_field c I E d) (fun ft => skip_field c I d ft false))
        (Datatypes.S (in_left I s)) f v s.
  Proof.
    intros Hi. destruct (whole_in _ _ _ _ Hi) as (d & Hlk & HE & Em). pose proof (whole_fields _ _ HE) as Hf.
    cbn [field_type]. unfold members, shaped. rewrite Hlk.
    destruct d as [fs|fs|]; cbn [methods] in Em; injection Em as <- <- <-; (split; [reflexivity|]); intros S c I d v s Hv.
    - destruct v; try contradiction. apply fill_struct_code; assumption.
    - apply fill_union_code; assumption.
    - apply (fill_enum_code c I E d n v s _ (default E d) (fill c I E d) (fill_field c I E d) (fun ft => skip_field c I d ft false)). exact Hlk.
  Qed.

  Lemma whole_write n z f w : In (Protocol n z f w) l ->
    forall W (write_all : list Z -> M W unit) v s fuel default1, shaped E n v ->
      method (members E n) default1 (run_write (members E n) write_all (write_thrift_field write_all E)) fuel w v s =
      match write_thrift write_all E (TNamed n) v s with (s', o) => (s', v, o) end.
  Proof.
    intros Hi. destruct (whole_in _ _ _ _ Hi) as (d & Hlk & HE & Em). pose proof (whole_fields _ _ HE) as Hf.
    unfold members, shaped. rewrite Hlk.
    destruct d as [fs|fs|]; cbn [methods] in Em; injection Em as <- <- <-; intros W wa v s fuel default1 Hv; destruct v; try contradiction.
    - apply write_struct_code; assumption.
    - destruct (nth_error fs idx) as [g|] eqn:Hg; [|apply nth_error_None in Hg; lia]. eapply write_union_code; eassumption.
    - apply write_enum_code. exact Hlk.
  Qed.

  Lemma whole_all n d : In (n, d) E -> exists z f w, In (Protocol n z f w) l.
  Proof.
    intros Hi. apply (in_map methods) in Hi. rewrite <- whole_methods in Hi. apply filter_In in Hi as [Hi _].
    destruct d; cbn [methods] in Hi; eauto.
  Qed.
End Whole.

Fixpoint differ (l : list string) : bool := match l with [] => true | a :: l' => negb (existsb (String.eqb a) l') && differ l' end.
Lemma differ_ok l : differ l = true -> NoDup l.
Proof.
  induction l as [|a l IH]; intros H; [constructor|]. cbn [differ] in H.
  apply andb_true_iff in H as [H1 H2]. constructor; [|apply IH; exact H2].
  intros Hi. apply negb_true_iff in H1. assert (existsb (String.eqb a) l = true) by (apply existsb_exists; exists a; split; [exact Hi|apply String.eqb_refl]). congruence.
Qed.
Lemma whole_parquet : names_differ parquet_env /\ shaped parquet_env "TimeUnit" (VUnion 2 (VStruct [])) /\ shaped parquet_env "Type" (VI32 3).
Proof.
  split; [|split; vm_compute; [lia|exact I]]. split; [apply differ_ok; vm_compute; reflexivity|exact parquet_field_names].
Qed.
