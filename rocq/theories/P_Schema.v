(** schema.rs: proofs of C43-C48. *)
From Coq Require Import ZifyBool ZifyNat ZifyN.
From Verif Require Import Base Protocol Types Parquet Schema Typing Footer SchemaTree SpecSchema SpecInput SpecFields.
From Verif Require P_Footer P_Valid P_Laws2.
Ltac Zify.zify_post_hook ::= Z.div_mod_to_equations.

(** * Conversions *)
Lemma decimal_iff p s o : try_decimal p s = POk o <-> 1 <= p <= 127 /\ -128 <= s <= p /\ o = {| d_precision := p; d_scale := s |}.
Proof.
  unfold try_decimal. destruct ((p <=? 0) || (127 <? p)) eqn:H1; [split; [discriminate|intros (? & ? & ?); lia]|].
  destruct ((s <? -128) || (p <? s)) eqn:H2; [split; [discriminate|intros (? & ? & ?); lia]|].
  assert (Hp : wrapu 8 p = p) by (unfold wrapu; apply Z.mod_small; lia).
  assert (Hs : wraps 8 s = s) by (unfold wraps; cbv zeta; change (2 ^ 8) with 256; change (2 ^ (8 - 1)) with 128; lia).
  rewrite Hp, Hs. split; [intros [= <-]; repeat split; lia|]. intros (_ & _ & ->). reflexivity.
Qed.
Lemma integer_iff w b o : in_s 8 w -> try_integer w b = POk o <-> 1 <= w /\ o = {| bitwidth := w; is_signed := b |}.
Proof.
  intros Hw. unfold in_s in Hw. change (2 ^ (8 - 1)) with 128 in Hw. unfold try_integer. destruct (w <=? 0) eqn:H; [split; [discriminate|intros [? _]; lia]|].
  assert (Hp : wrapu 8 w = w) by (unfold wrapu; apply Z.mod_small; lia). rewrite Hp.
  split; [intros [= <-]; split; [lia|reflexivity]|]. intros (_ & ->). reflexivity.
Qed.
Lemma unit_iff u u' : means_unit u u' <-> u' = from_time_unit u.
Proof. unfold means_unit. destruct u, u'; cbn; split; intros H; try discriminate; try tauto; destruct H as [[? ?]|[[? ?]|[? ?]]]; congruence. Qed.
Lemma logical_iff l p : logical_ok l -> try_logical l = POk p <-> means_logical l p.
Proof.
  intros Hl. destruct l as [| | | |scale0 precision0| | | |bitWidth signed| | | | | | | |]; cbn [try_logical logical_ok] in *.
  all: try (split; [intros [= <-]; constructor|inversion 1; reflexivity]).
  all: try (split; [discriminate|inversion 1]).
  - destruct (try_decimal precision0 scale0) as [o|e|q] eqn:E; cbn [pbind].
    + apply decimal_iff in E as (H1 & H2 & ->). split; [intros [= <-]; constructor; assumption|inversion 1; reflexivity].
    + split; [discriminate|]. inversion 1; subst. assert (E' : try_decimal precision0 scale0 = POk {| d_precision := precision0; d_scale := scale0 |}) by (apply decimal_iff; auto). congruence.
    + split; [discriminate|]. inversion 1; subst. assert (E' : try_decimal precision0 scale0 = POk {| d_precision := precision0; d_scale := scale0 |}) by (apply decimal_iff; auto). congruence.
  - split; [intros [= <-]; constructor; apply unit_iff; reflexivity|]. inversion 1; subst. unfold from_time. match goal with H : means_unit _ _ |- _ => apply unit_iff in H as -> end. reflexivity.
  - split; [intros [= <-]; constructor; apply unit_iff; reflexivity|]. inversion 1; subst. unfold from_time. match goal with H : means_unit _ _ |- _ => apply unit_iff in H as -> end. reflexivity.
  - destruct (try_integer bitWidth signed) as [o|e|q] eqn:E; cbn [pbind].
    + apply (integer_iff _ _ _ Hl) in E as (H1 & ->). split; [intros [= <-]; constructor; assumption|inversion 1; reflexivity].
    + split; [discriminate|]. inversion 1; subst. assert (E' : try_integer bitWidth signed = POk {| bitwidth := bitWidth; is_signed := signed |}) by (apply integer_iff; auto). congruence.
    + split; [discriminate|]. inversion 1; subst. assert (E' : try_integer bitWidth signed = POk {| bitwidth := bitWidth; is_signed := signed |}) by (apply integer_iff; auto). congruence.
Qed.
Lemma logical_never_panics l p : try_logical l <> PPanic p.
Proof.
  destruct l; cbn [try_logical]; try discriminate.
  - unfold try_decimal. do 2 (destruct (_ || _); [discriminate|]). discriminate.
  - unfold try_integer. destruct (_ <=? _); discriminate.
Qed.

Ltac zcase H := match goal with |- context [?x =? ?k] => destruct (x =? k) eqn:H; [apply Z.eqb_eq in H; subst x|apply Z.eqb_neq in H] end.
Lemma converted_iff ct p s r : try_converted ct p s = POk r <-> means_converted p s ct r.
Proof.
  unfold try_converted.
  zcase E0; [split; [intros [= <-]; constructor|inversion 1; subst; try reflexivity; lia]|].
  zcase E4; [split; [intros [= <-]; constructor|inversion 1; subst; try reflexivity; lia]|].
  zcase E6; [split; [intros [= <-]; constructor|inversion 1; subst; try reflexivity; lia]|].
  zcase E19; [split; [intros [= <-]; constructor|inversion 1; subst; try reflexivity; lia]|].
  zcase E20; [split; [intros [= <-]; constructor|inversion 1; subst; try reflexivity; lia]|].
  zcase E5.
  { destruct p as [p|]; [|split; [discriminate|inversion 1; subst; try lia; discriminate]].
    destruct s as [s|]; [|split; [discriminate|inversion 1; subst; try lia; discriminate]].
    assert (Hno : means_converted (Some p) (Some s) 5 r -> try_decimal p s = POk {| d_precision := p; d_scale := s |} /\ r = PL_Decimal {| d_precision := p; d_scale := s |}).
    { inversion 1; subst; try lia. match goal with H1 : Some p = Some _, H2 : Some s = Some _ |- _ => injection H1 as <-; injection H2 as <- end.
      split; [apply decimal_iff; auto|reflexivity]. }
    destruct (try_decimal p s) as [o|e|q] eqn:E; cbn [pbind].
    + apply decimal_iff in E as (H1 & H2 & ->). split; [intros [= <-]; apply mc_decimal; auto|]. intros H. apply Hno in H as [_ ->]. reflexivity.
    + split; [discriminate|]. intros H. apply Hno in H as [H _]. congruence.
    + split; [discriminate|]. intros H. apply Hno in H as [H _]. congruence. }
  zcase E8; [split; [intros [= <-]; apply mc_time_micros|inversion 1; subst; try reflexivity; lia]|].
  zcase E7; [split; [intros [= <-]; apply mc_time_millis|inversion 1; subst; try reflexivity; lia]|].
  zcase E10; [split; [intros [= <-]; apply mc_timestamp_micros|inversion 1; subst; try reflexivity; lia]|].
  zcase E9; [split; [intros [= <-]; apply mc_timestamp_millis|inversion 1; subst; try reflexivity; lia]|].
  zcase E21; [split; [intros [= <-]; constructor|inversion 1; subst; try reflexivity; lia]|].
  assert (K : forall k, 11 + k = 11 \/ 11 + k = 12 \/ 11 + k = 13 \/ 11 + k = 14 -> k = 0 \/ k = 1 \/ k = 2 \/ k = 3) by lia.
  zcase E15; [split; [intros [= <-]; apply (mc_int p s 15 0); lia|inversion 1; subst; try lia; replace k with 0 by lia; reflexivity]|].
  zcase E16; [split; [intros [= <-]; apply (mc_int p s 16 1); lia|inversion 1; subst; try lia; replace k with 1 by lia; reflexivity]|].
  zcase E17; [split; [intros [= <-]; apply (mc_int p s 17 2); lia|inversion 1; subst; try lia; replace k with 2 by lia; reflexivity]|].
  zcase E18; [split; [intros [= <-]; apply (mc_int p s 18 3); lia|inversion 1; subst; try lia; replace k with 3 by lia; reflexivity]|].
  zcase E11; [split; [intros [= <-]; apply (mc_uint p s 11 0); lia|inversion 1; subst; try lia; replace k with 0 by lia; reflexivity]|].
  zcase E12; [split; [intros [= <-]; apply (mc_uint p s 12 1); lia|inversion 1; subst; try lia; replace k with 1 by lia; reflexivity]|].
  zcase E13; [split; [intros [= <-]; apply (mc_uint p s 13 2); lia|inversion 1; subst; try lia; replace k with 2 by lia; reflexivity]|].
  zcase E14; [split; [intros [= <-]; apply (mc_uint p s 14 3); lia|inversion 1; subst; try lia; replace k with 3 by lia; reflexivity]|].
  destruct (_ || _); (split; [discriminate|]); inversion 1; subst; lia.
Qed.
Lemma converted_unknown ct p s id : try_converted ct p s = PErr (PUnknownType id) <-> id = ct /\ (ct = 2 \/ ct < 0 \/ 21 < ct).
Proof.
  unfold try_converted.
  zcase E0; [split; [discriminate|lia]|]. zcase E4; [split; [discriminate|lia]|]. zcase E6; [split; [discriminate|lia]|].
  zcase E19; [split; [discriminate|lia]|]. zcase E20; [split; [discriminate|lia]|].
  zcase E5.
  { split; [|lia]. destruct p as [p|]; [|discriminate]. destruct s as [s|]; [|discriminate]. unfold try_decimal.
    do 2 (destruct (_ || _); [discriminate|]). discriminate. }
  zcase E8; [split; [discriminate|lia]|]. zcase E7; [split; [discriminate|lia]|]. zcase E10; [split; [discriminate|lia]|].
  zcase E9; [split; [discriminate|lia]|]. zcase E21; [split; [discriminate|lia]|].
  zcase E15; [split; [discriminate|lia]|]. zcase E16; [split; [discriminate|lia]|]. zcase E17; [split; [discriminate|lia]|]. zcase E18; [split; [discriminate|lia]|].
  zcase E11; [split; [discriminate|lia]|]. zcase E12; [split; [discriminate|lia]|]. zcase E13; [split; [discriminate|lia]|]. zcase E14; [split; [discriminate|lia]|].
  destruct (_ || _) eqn:E; [split; [discriminate|lia]|]. split; [intros [= <-]; lia|]. intros [-> _]. reflexivity.
Qed.
Lemma converted_never_panics ct p s q : try_converted ct p s <> PPanic q.
Proof.
  unfold try_converted. repeat match goal with |- context [if ?b then _ else _] => destruct b end; try discriminate.
  destruct p as [p|]; [|discriminate]. destruct s as [s|]; [|discriminate]. unfold try_decimal. do 2 (destruct (_ || _); [discriminate|]). discriminate.
Qed.
Lemma physical_iff e t p : in_opt 32 (type_length e) -> type_ e = Some t -> try_physical t (type_length e) = POk p <-> means_physical e p.
Proof.
  intros Hl Ht. unfold try_physical, means_physical. rewrite Ht.
  zcase E0; [destruct p; split; intros H; try congruence; destruct H; congruence|]. zcase E6; [destruct p; split; intros H; try congruence; destruct H; congruence|].
  zcase E1; [destruct p; split; intros H; try congruence; destruct H; congruence|]. zcase E2; [destruct p; split; intros H; try congruence; destruct H; congruence|].
  zcase E3; [destruct p; split; intros H; try congruence; destruct H; congruence|]. zcase E4; [destruct p; split; intros H; try congruence; destruct H; congruence|].
  zcase E5; [destruct p; split; intros H; try congruence; destruct H; congruence|].
  zcase E7.
  - destruct (type_length e) as [n|].
    + cbn [in_opt] in Hl. unfold in_s in Hl. change (2 ^ (32 - 1)) with 2147483648 in Hl.
      destruct (n <=? 0) eqn:Hn.
      * split; [discriminate|]. destruct p; try discriminate. intros (_ & [= <-] & ?). lia.
      * assert (Hw : wrapu 32 n = n) by (unfold wrapu; apply Z.mod_small; change (2 ^ 32) with 4294967296; lia). rewrite Hw.
        destruct p; split; intros H; try congruence; [injection H as <-; repeat split; lia|destruct H as (_ & [= <-] & _); reflexivity].
    + split; [discriminate|]. destruct p; try discriminate. intros (_ & ? & _). discriminate.
  - split; [discriminate|]. destruct p; intros H; try (injection H; lia). destruct H as (H & _). injection H. lia.
Qed.
Lemma physical_unknown t len id : try_physical t len = PErr (PUnknownType id) <-> id = t /\ (t < 0 \/ 7 < t).
Proof.
  unfold try_physical.
  zcase E0; [split; [discriminate|lia]|]. zcase E6; [split; [discriminate|lia]|]. zcase E1; [split; [discriminate|lia]|]. zcase E2; [split; [discriminate|lia]|].
  zcase E3; [split; [discriminate|lia]|]. zcase E4; [split; [discriminate|lia]|]. zcase E5; [split; [discriminate|lia]|].
  zcase E7; [split; [destruct len; [destruct (_ <=? _); discriminate|discriminate]|lia]|]. split; [intros [= <-]; lia|]. intros [-> _]. reflexivity.
Qed.
Lemma physical_never_panics t len p : try_physical t len <> PPanic p.
Proof. unfold try_physical. repeat match goal with |- context [if ?b then _ else _] => destruct b end; try discriminate. destruct len; [|discriminate]. destruct (_ <=? _); discriminate. Qed.
Definition try_rep (o : option Z) : presult repetition := match o with Some r => try_repetition r | None => POk Required end.
Lemma repetition_iff o r : try_rep o = POk r <-> means_repetition o r.
Proof.
  unfold try_rep, means_repetition. destruct o as [z|].
  - unfold try_repetition. zcase E0; [split; [intros [= <-]; auto|intros [[-> _]|[[_ ?]|[_ ?]]]; [reflexivity|discriminate|discriminate]]|].
    zcase E1; [split; [intros [= <-]; auto|intros [[-> [?|?]]|[[-> ?]|[_ ?]]]; try discriminate; reflexivity]|].
    zcase E2; [split; [intros [= <-]; auto|intros [[-> [?|?]]|[[-> ?]|[-> ?]]]; try discriminate; reflexivity]|].
    split; [discriminate|]. intros [[-> [?|?]]|[[-> ?]|[-> ?]]]; congruence.
  - split; [intros [= <-]; auto|intros [[-> _]|[[_ ?]|[_ ?]]]; [reflexivity|discriminate|discriminate]].
Qed.
Lemma repetition_unknown z id : try_repetition z = PErr (PUnknownType id) <-> id = z /\ (z < 0 \/ 2 < z).
Proof.
  unfold try_repetition. zcase E0; [split; [discriminate|lia]|]. zcase E1; [split; [discriminate|lia]|]. zcase E2; [split; [discriminate|lia]|].
  split; [intros [= <-]; lia|]. intros [-> _]. reflexivity.
Qed.
Lemma try_rep_never_panics o p : try_rep o <> PPanic p.
Proof. unfold try_rep, try_repetition. destruct o; [|discriminate]. repeat match goal with |- context [if ?b then _ else _] => destruct b end; discriminate. Qed.
Lemma group_logical_iff l g : try_group_logical l = POk g <-> means_group_logical l g.
Proof.
  unfold means_group_logical. destruct l; cbn [try_group_logical]; split; intros H; try discriminate H;
    try (injection H as <-; eauto); destruct H as [[? ?]|[[? ?]|(? & ? & ?)]]; try discriminate; congruence.
Qed.
Lemma group_converted_iff ct g : try_group_converted ct = POk g <-> means_group_converted ct g.
Proof.
  unfold means_group_converted, try_group_converted. zcase E1; [split; [intros [= <-]; auto|intros [[? ->]|[[? ->]|[? ->]]]; try lia; reflexivity]|].
  zcase E3; [split; [intros [= <-]; auto|intros [[? ->]|[[? ->]|[? ->]]]; try lia; reflexivity]|].
  zcase E2; [split; [intros [= <-]; auto|intros [[? ->]|[[? ->]|[? ->]]]; try lia; reflexivity]|].
  split; [discriminate|]. lia.
Qed.
Lemma ok_iff {A} (r : presult A) a : ok r = Some a <-> r = POk a.
Proof. destruct r; cbn; split; intros H; congruence. Qed.

Definition leaf_l (e : selement) : option primitive_logical :=
  match (match logicalType e with Some lt => ok (try_logical lt) | None => None end) with
  | Some x => Some x
  | None => match converted_type e with Some ct => ok (try_converted ct (precision e) (scale e)) | None => None end
  end.
Definition group_l (e : selement) : option group_logical :=
  match (match logicalType e with Some lt => ok (try_group_logical lt) | None => None end) with
  | Some x => Some x
  | None => match converted_type e with Some ct => ok (try_group_converted ct) | None => None end
  end.
Lemma prefers_ok {A} (P Q : A -> Prop) (a b : option A) :
  (forall x, a = Some x <-> P x) -> (forall x, b = Some x <-> Q x) -> prefers P Q (match a with Some x => Some x | None => b end).
Proof.
  intros HP HQ. unfold prefers. destruct a as [x|]; [left; apply HP; reflexivity|].
  assert (Hn : forall y, ~ P y) by (intros y Hy; apply HP in Hy; discriminate).
  destruct b as [x|]; [right; split; [exact Hn|apply HQ; reflexivity]|]. split; [exact Hn|]. intros y Hy. apply HQ in Hy. discriminate.
Qed.
Lemma leaf_l_ok e : element_ok e -> leaf_logical e (leaf_l e).
Proof.
  intros He. destruct He as (_ & _ & _ & _ & _ & _ & _ & _ & Hl). apply prefers_ok.
  - intros x. destruct (logicalType e) as [l|]; [|split; [discriminate|intros (? & [=] & _)]]. rewrite ok_iff, (logical_iff l x Hl). split; [eauto|]. intros (l' & [= <-] & H). exact H.
  - intros x. destruct (converted_type e) as [l|]; [|split; [discriminate|intros (? & [=] & _)]]. rewrite ok_iff, converted_iff. split; [eauto|]. intros (l' & [= <-] & H). exact H.
Qed.
Lemma group_l_ok e : group_logical_of e (group_l e).
Proof.
  apply prefers_ok.
  - intros x. destruct (logicalType e) as [l|]; [|split; [discriminate|intros (? & [=] & _)]]. rewrite ok_iff, group_logical_iff. split; [eauto|]. intros (l' & [= <-] & H). exact H.
  - intros x. destruct (converted_type e) as [l|]; [|split; [discriminate|intros (? & [=] & _)]]. rewrite ok_iff, group_converted_iff. split; [eauto|]. intros (l' & [= <-] & H). exact H.
Qed.

Lemma field_id_roundtrip little z : in_s 32 z -> field_id_to little (field_id_from little z) = z.
Proof.
  intros H. unfold in_s in H. change (2 ^ (32 - 1)) with 2147483648 in H. unfold field_id_to, field_id_from. cbv zeta.
  assert (Hl : from_le [wrapu 32 z mod 256; wrapu 32 z / 256 mod 256; wrapu 32 z / 65536 mod 256; wrapu 32 z / 16777216 mod 256] = wrapu 32 z).
  { apply P_Footer.from_le4. unfold wrapu. apply Z.mod_pos_bound. reflexivity. }
  assert (Hw : wraps 32 (wrapu 32 z) = z).
  { unfold wraps, wrapu. cbv zeta. change (2 ^ 32) with 4294967296. change (2 ^ (32 - 1)) with 2147483648. lia. }
  destruct little; [|rewrite rev_involutive]; rewrite Hl; exact Hw.
Qed.

(** * The tree *)
Lemma tree_rect' (P : tree -> Prop) : (forall e cs, Forall P cs -> P (Node e cs)) -> forall t, P t.
Proof.
  intros H. fix IH 1. intros [e cs]. apply H. induction cs as [|x cs IHcs]; constructor; [apply IH|exact IHcs].
Qed.
Lemma sfield_rect' (P : sfield -> Prop) : (forall co fs l, Forall P fs -> P (Group co fs l)) -> (forall co p l i, P (Primitive co p l i)) -> forall f, P f.
Proof.
  intros HG HP. fix IH 1. intros [co fs l|co p l i]; [|apply HP]. apply HG. induction fs as [|x fs IHfs]; constructor; [apply IH|exact IHfs].
Qed.

Definition code (e : selement) : Z := match repetition_type e with Some r => r | None => 0 end.
Definition bump (b : bool) : Z := if b then 1 else 0.
Definition deeper_def (e : selement) (def : Z) : Z := def + bump (code e =? 1).
Definition deeper_rep (e : selement) (rep : Z) : Z := rep + bump (code e =? 2).
Definition mk (little : bool) (e : selement) (r : repetition) (def rep : Z) : common :=
  {| name := ename e; fid := option_map (field_id_from little) (field_id e); rep_type := r; def_level := def; rep_level := rep |}.

Section Tree.
  Variables (c : cfg) (little : bool) (alloc : Z -> bool).
  Hypothesis Hc : cfg_ok c.

  Inductive built : tree -> Z -> Z -> Z -> sfield -> Z -> Prop :=
  | b_leaf e r t p idx def rep :
      (num_children e = None \/ num_children e = Some 0) -> try_rep (repetition_type e) = POk r -> type_ e = Some t -> try_physical t (type_length e) = POk p ->
      built (Node e []) idx def rep (Primitive (mk little e r (deeper_def e def) (deeper_rep e rep)) p (leaf_l e) (wrapu 32 idx)) (idx + 1)
  | b_group e cs r fs idx idx' def rep :
      cs <> [] -> num_children e = Some (zlen cs) -> try_rep (repetition_type e) = POk r ->
      built_all cs idx (deeper_def e def) (deeper_rep e rep) fs idx' ->
      built (Node e cs) idx def rep (Group (mk little e r (deeper_def e def) (deeper_rep e rep)) fs (group_l e)) idx'
  with built_all : list tree -> Z -> Z -> Z -> list sfield -> Z -> Prop :=
  | ba_nil idx def rep : built_all [] idx def rep [] idx
  | ba_cons t ts idx idx1 idx2 def rep f fs :
      built t idx def rep f idx1 -> built_all ts idx1 def rep fs idx2 -> built_all (t :: ts) idx def rep (f :: fs) idx2.
  Scheme built_mind := Minimality for built Sort Prop
    with built_all_mind := Minimality for built_all Sort Prop.
  Combined Scheme built_mutind from built_mind, built_all_mind.

  Definition loop (inner : list selement -> Z -> presult (sfield * list selement * Z)) :=
    fix loop (i : nat) (rest : list selement) (index : Z) : presult (list sfield * list selement * Z) :=
    match i with
    | O => POk ([], rest, index)
    | S i' =>
        let? (child, rest, index) := inner rest index in
        let? (cs, rest, index) := loop i' rest index in
        POk (child :: cs, rest, index)
    end.
  Lemma inner_S d root rest index def rep nesting :
    convert_schema_inner c little alloc (S d) (root :: rest) index def rep nesting =
      (let? def := u8_add c def (bump (code root =? 1)) in
       let? rep := u8_add c rep (bump (code root =? 2)) in
       let? (current, index) := field_from_schema_element c little alloc root index def rep (zlen rest) in
       match current with
       | Primitive _ _ _ _ => POk (current, rest, index)
       | Group co children l =>
           let? nesting := u8_add c nesting 1 in
           if 128 <=? nesting then PErr (PSchema "Schema is too deeply nested")
           else
             let? (cs, rest, index) :=
               loop (fun rest index => convert_schema_inner c little alloc d rest index def rep nesting)
                 (Z.to_nat (usize c (match num_children root with Some n => n | None => 0 end))) rest index in
             POk (Group co (children ++ cs) l, rest, index)
       end).
  Proof. reflexivity. Qed.

  Lemma u8_add_ok a b : 0 <= a -> 0 <= b -> a + b < 256 -> u8_add c a b = POk (a + b).
  Proof. intros. unfold u8_add. replace (a + b <? 256) with true by lia. reflexivity. Qed.
  Lemma bump_range b : 0 <= bump b <= 1.
  Proof. destruct b; cbn; lia. Qed.
  Lemma usize_i32 z : 0 <= z -> in_s 32 z -> usize c z = z.
  Proof.
    intros H Hs. unfold in_s in Hs. change (2 ^ (32 - 1)) with 2147483648 in Hs. apply P_Footer.usize_id.
    destruct Hc as [[-> | ->] _]; [change (2 ^ 32) with 4294967296|change (2 ^ 64) with 18446744073709551616]; lia.
  Qed.
  Lemma elem_i32 e n : element_ok e -> num_children e = Some n -> in_s 32 n.
  Proof. intros (_ & _ & _ & H & _) He. rewrite He in H. exact H. Qed.

  (** the outcome for a single element *)
  Inductive leafy (e : selement) : Prop := leafy_intro : (num_children e = None \/ num_children e = Some 0) -> leafy e.
  Lemma from_element e idx def rep remaining : element_ok e -> 0 <= idx -> idx + 1 < 2 ^ usize_bits c ->
    let r := field_from_schema_element c little alloc e idx def rep remaining in
    (exists m, r = PErr m) \/
    (leafy e /\ exists rr t p, try_rep (repetition_type e) = POk rr /\ type_ e = Some t /\ try_physical t (type_length e) = POk p /\
       r = POk (Primitive (mk little e rr def rep) p (leaf_l e) (wrapu 32 idx), idx + 1)) \/
    (exists n rr, num_children e = Some n /\ 0 < n <= remaining /\ try_rep (repetition_type e) = POk rr /\
       r = if alloc n then POk (Group (mk little e rr def rep) [] (group_l e), idx) else PPanic PAlloc).
  Proof.
    intros He Hi Hi2. cbv zeta. unfold field_from_schema_element. fold (try_rep (repetition_type e)).
    destruct (try_rep (repetition_type e)) as [rr|m|p] eqn:Hr; cbn [pbind]; [|eauto|destruct (try_rep_never_panics _ _ Hr)].
    fold (mk little e rr def rep). fold (leaf_l e). fold (group_l e).
    destruct (num_children e) as [n|] eqn:Hn; cbv zeta.
    - pose proof (elem_i32 e n He Hn) as H32. destruct (n =? 0) eqn:H0.
      + assert (n = 0) by lia. subst n. destruct (type_ e) as [t|] eqn:Ht; [|eauto].
        destruct (try_physical t (type_length e)) as [p|m|p] eqn:Hp; cbn [pbind]; [|eauto|destruct (physical_never_panics _ _ _ Hp)].
        right. left. split; [constructor; auto|]. exists rr, t, p. repeat split; auto.
        unfold uadd. replace (idx + 1 <? 2 ^ usize_bits c) with true by lia. reflexivity.
      + destruct (n <? 0) eqn:Hneg; [cbn [orb]; eauto|]. rewrite (usize_i32 n) by (auto; lia). cbn [orb]. destruct (remaining <? n) eqn:Hrem; [eauto|].
        right. right. exists n, rr. repeat split; auto; lia.
    - change (0 =? 0) with true. cbv iota. destruct (type_ e) as [t|] eqn:Ht; [|eauto].
      destruct (try_physical t (type_length e)) as [p|m|p] eqn:Hp; cbn [pbind]; [|eauto|destruct (physical_never_panics _ _ _ Hp)].
      right. left. split; [constructor; auto|]. exists rr, t, p. repeat split; auto.
      unfold uadd. replace (idx + 1 <? 2 ^ usize_bits c) with true by lia. reflexivity.
  Qed.

  Lemma groups_max cs : forall n, Forall (fun t => groups t <= n)%nat cs -> (fold_right (fun t n => Nat.max (groups t) n) 0 cs <= n)%nat.
  Proof. induction cs as [|x cs IH]; intros n H; cbn; [lia|]. inversion H; subst. specialize (IH n ltac:(assumption)). lia. Qed.
  Lemma groups_max_in cs x : In x cs -> (groups x <= fold_right (fun t n => Nat.max (groups t) n) 0 cs)%nat.
  Proof. induction cs as [|y cs IH]; intros []; cbn; [subst; lia|]. specialize (IH H). lia. Qed.
  Lemma groups_node e cs : cs <> [] -> groups (Node e cs) = S (fold_right (fun t n => Nat.max (groups t) n) 0 cs)%nat.
  Proof. destruct cs; [congruence|reflexivity]. Qed.

  Definition small (idx : Z) (els : list selement) : Prop := 0 <= idx /\ idx + zlen els < 2 ^ usize_bits c.

  Lemma zlen_cons {A} (x : A) l : zlen (x :: l) = 1 + zlen l.
  Proof. unfold zlen. cbn [List.length]. lia. Qed.
  Lemma zlen_ge {A} (l : list A) : 0 <= zlen l.
  Proof. unfold zlen. lia. Qed.
  Lemma Forall_suffix {A} (P : A -> Prop) a b : Forall P (a ++ b) -> Forall P b.
  Proof. intros H. apply Forall_app in H. tauto. Qed.

  (** sizes *)
  Definition shrinks (r : presult (sfield * list selement * Z)) (els : list selement) (idx : Z) : Prop :=
    match r with
    | POk (f, rest, idx') => exists pre, els = pre ++ rest /\ pre <> [] /\ idx <= idx' <= idx + zlen pre
    | _ => True
    end.
  Definition shrinks_all (r : presult (list sfield * list selement * Z)) (els : list selement) (idx : Z) : Prop :=
    match r with
    | POk (fs, rest, idx') => exists pre, els = pre ++ rest /\ idx <= idx' <= idx + zlen pre
    | _ => True
    end.
  Lemma loop_shrinks inner : (forall els idx, Forall element_ok els -> small idx els -> shrinks (inner els idx) els idx) ->
    forall i els idx, Forall element_ok els -> small idx els -> shrinks_all (loop inner i els idx) els idx.
  Proof.
    intros IH. induction i as [|i IHi]; intros els idx Hels Hs; cbn [loop].
    - exists []. split; [reflexivity|]. unfold zlen. cbn. lia.
    - specialize (IH els idx Hels Hs). destruct (inner els idx) as [[[f rest] idx1]|e|p]; cbn [pbind]; try exact Coq.Init.Logic.I.
      destruct IH as (pre & -> & Hne & Hb). assert (Hs1 : small idx1 rest). { unfold small in *. rewrite P_Footer.zlen_app in Hs. pose proof (zlen_ge pre). lia. }
      specialize (IHi rest idx1 (Forall_suffix _ _ _ Hels) Hs1). destruct (loop inner i rest idx1) as [[[fs rest2] idx2]|e|p]; cbn [pbind]; try exact Coq.Init.Logic.I.
      destruct IHi as (pre2 & -> & Hb2). exists (pre ++ pre2). rewrite app_assoc. split; [reflexivity|]. rewrite P_Footer.zlen_app. lia.
  Qed.
  Lemma inner_shrinks d : forall els idx def rep nest, Forall element_ok els -> small idx els ->
    shrinks (convert_schema_inner c little alloc d els idx def rep nest) els idx.
  Proof.
    induction d as [|d IH]; intros els idx def rep nest Hels Hs; [exact Coq.Init.Logic.I|]. destruct els as [|e rest]; [exact Coq.Init.Logic.I|].
    rewrite inner_S. inversion Hels as [|? ? He Hrest]; subst. unfold small in Hs. rewrite zlen_cons in Hs. pose proof (zlen_ge rest).
    destruct (u8_add c def _) as [def'| |]; cbn [pbind]; try exact Coq.Init.Logic.I. destruct (u8_add c rep _) as [rep'| |]; cbn [pbind]; try exact Coq.Init.Logic.I.
    destruct (from_element e idx def' rep' (zlen rest) He ltac:(lia) ltac:(lia)) as [(m & ->)|[(_ & rr & t & p & _ & _ & _ & ->)|(n & rr & Hn & Hn2 & _ & ->)]]; cbn [pbind].
    - exact Coq.Init.Logic.I.
    - exists [e]. split; [reflexivity|]. split; [discriminate|]. unfold zlen. cbn. lia.
    - destruct (alloc n); cbn [pbind]; [|exact Coq.Init.Logic.I]. destruct (u8_add c nest 1) as [nest'| |]; cbn [pbind]; try exact Coq.Init.Logic.I.
      destruct (128 <=? nest'); [exact Coq.Init.Logic.I|].
      assert (Hs' : small idx rest) by (unfold small; lia).
      pose proof (loop_shrinks (fun rest index => convert_schema_inner c little alloc d rest index def' rep' nest') (fun els i H1 H2 => IH els i def' rep' nest' H1 H2)
        (Z.to_nat (usize c match num_children e with Some n => n | None => 0 end)) rest idx Hrest Hs') as HL.
      destruct (loop _ _ _ _) as [[[fs rest2] idx2]|m|p]; cbn [pbind]; try exact Coq.Init.Logic.I.
      destruct HL as (pre & -> & Hb). exists (e :: pre). split; [reflexivity|]. split; [discriminate|]. rewrite zlen_cons. lia.
  Qed.

  (** panics *)
  Lemma inner_no_panic d : forall els idx def rep nest p, Forall element_ok els -> small idx els -> 0 <= def <= nest -> 0 <= rep <= nest -> nest <= 127 ->
    128 <= Z.of_nat d + nest -> (forall n, n <= zlen els -> alloc n = true) ->
    convert_schema_inner c little alloc d els idx def rep nest <> PPanic p.
  Proof.
    induction d as [|d IH]; intros els idx def rep nest p Hels Hs Hdef Hrep Hnest Hd Hal; [lia|]. destruct els as [|e rest]; [discriminate|].
    rewrite inner_S. inversion Hels as [|? ? He Hrest]; subst. pose proof Hs as Hs0. unfold small in Hs0. rewrite zlen_cons in Hs0. pose proof (zlen_ge rest).
    pose proof (bump_range (code e =? 1)). pose proof (bump_range (code e =? 2)).
    rewrite u8_add_ok by lia. cbn [pbind]. rewrite u8_add_ok by lia. cbn [pbind].
    destruct (from_element e idx (def + bump (code e =? 1)) (rep + bump (code e =? 2)) (zlen rest) He ltac:(lia) ltac:(lia)) as [(m & ->)|[(_ & rr & t & q & _ & _ & _ & ->)|(n & rr & Hn & Hn2 & _ & ->)]]; cbn [pbind]; [discriminate|discriminate|].
    rewrite zlen_cons in Hal. rewrite Hal by lia. cbn [pbind]. rewrite u8_add_ok by lia. cbn [pbind]. destruct (128 <=? nest + 1) eqn:H128; [discriminate|].
    set (inner := fun rest index => convert_schema_inner c little alloc d rest index (def + bump (code e =? 1)) (rep + bump (code e =? 2)) (nest + 1)).
    assert (HL : forall i els idx p, Forall element_ok els -> small idx els -> zlen els <= zlen rest -> loop inner i els idx <> PPanic p).
    { induction i as [|i IHi]; intros els idx' q Hels' Hs' Hle; cbn [loop]; [discriminate|].
      destruct (inner els idx') as [[[f r1] i1]|m|q'] eqn:E; cbn [pbind]; [|discriminate|].
      - pose proof (inner_shrinks d els idx' (def + bump (code e =? 1)) (rep + bump (code e =? 2)) (nest + 1) Hels' Hs') as Hsh. fold inner in Hsh. unfold inner in E. rewrite E in Hsh.
        destruct Hsh as (pre & -> & Hne & Hb). assert (Hs1 : small i1 r1). { unfold small in *. rewrite P_Footer.zlen_app in *. pose proof (zlen_ge pre). lia. }
        rewrite P_Footer.zlen_app in Hle. pose proof (zlen_ge pre).
        pose proof (IHi r1 i1 q (Forall_suffix _ _ _ Hels') Hs1 ltac:(lia)) as Hq. destruct (loop inner i r1 i1) as [[[fs r2] i2]|m|q']; cbn [pbind]; congruence.
      - exfalso. revert E. apply IH; auto; try lia. intros k Hk. apply Hal. lia. }
    match goal with |- context [loop inner ?i rest idx] => pose proof (HL i rest idx p Hrest ltac:(unfold small; lia) ltac:(lia)) as Hq; destruct (loop inner i rest idx) as [[[fs r2] i2]|m|q'] end; cbn [pbind]; congruence.
  Qed.

  (** from the result to the tree *)
  Lemma inner_forward d : forall els idx def rep nest f rest idx', Forall element_ok els -> small idx els -> 0 <= def <= nest -> 0 <= rep <= nest -> nest <= 127 ->
    convert_schema_inner c little alloc d els idx def rep nest = POk (f, rest, idx') ->
    exists t, els = flatten t ++ rest /\ built t idx def rep f idx' /\ Z.of_nat (groups t) + nest <= 127.
  Proof.
    induction d as [|d IH]; intros els idx def rep nest f rest0 idx0 Hels Hs Hdef Hrep Hnest H; [discriminate|]. destruct els as [|e rest]; [discriminate|].
    rewrite inner_S in H. inversion Hels as [|? ? He Hrest]; subst. pose proof Hs as Hs0. unfold small in Hs0. rewrite zlen_cons in Hs0. pose proof (zlen_ge rest).
    pose proof (bump_range (code e =? 1)). pose proof (bump_range (code e =? 2)).
    rewrite u8_add_ok in H by lia. cbn [pbind] in H. rewrite u8_add_ok in H by lia. cbn [pbind] in H.
    destruct (from_element e idx (def + bump (code e =? 1)) (rep + bump (code e =? 2)) (zlen rest) He ltac:(lia) ltac:(lia)) as [(m & E)|[(Hleaf & rr & t & q & R1 & R2 & R3 & E)|(n & rr & Hn & Hn2 & R1 & E)]]; rewrite E in H; cbn [pbind] in H; [discriminate| |].
    - injection H as <- <- <-. exists (Node e []). split; [reflexivity|]. split; [destruct Hleaf; eapply b_leaf; eauto|]. cbn [groups]. lia.
    - destruct (alloc n); cbn [pbind] in H; [|discriminate]. rewrite u8_add_ok in H by lia. cbn [pbind] in H. destruct (128 <=? nest + 1) eqn:H128; [discriminate|].
      set (inner := fun rest index => convert_schema_inner c little alloc d rest index (def + bump (code e =? 1)) (rep + bump (code e =? 2)) (nest + 1)) in H.
      assert (HL : forall i els idx fs r2 i2, Forall element_ok els -> small idx els -> loop inner i els idx = POk (fs, r2, i2) ->
        exists ts, List.length ts = i /\ els = flat_map flatten ts ++ r2 /\ built_all ts idx (deeper_def e def) (deeper_rep e rep) fs i2 /\ Forall (fun t => (Z.of_nat (groups t) + (nest + 1) <= 127)) ts).
      { induction i as [|i IHi]; intros els idx' fs r2 i2 Hels' Hs' HL; cbn [loop] in HL.
        - injection HL as <- <- <-. exists []. repeat split; constructor.
        - destruct (inner els idx') as [[[f1 r1] i1]|m|q'] eqn:E1; cbn [pbind] in HL; try discriminate.
          pose proof (inner_shrinks d els idx' (def + bump (code e =? 1)) (rep + bump (code e =? 2)) (nest + 1) Hels' Hs') as Hsh. unfold inner in E1. rewrite E1 in Hsh.
          destruct Hsh as (pre & Hpre & Hne & Hb). assert (Hs1 : small i1 r1). { unfold small in *. rewrite Hpre, P_Footer.zlen_app in Hs'. pose proof (zlen_ge pre). lia. }
          apply IH in E1; auto; try lia. destruct E1 as (t & -> & Hbt & Hgt).
          destruct (loop inner i r1 i1) as [[[fs1 r3] i3]|m|q'] eqn:E2; cbn [pbind] in HL; try discriminate. injection HL as <- <- <-.
          apply IHi in E2; [|apply (Forall_suffix _ (flatten t)); exact Hels'|exact Hs1]. destruct E2 as (ts & Hlen & -> & Hbts & Hgts).
          exists (t :: ts). cbn [List.length flat_map]. rewrite <- app_assoc. split; [congruence|]. split; [reflexivity|]. split; [|constructor; auto].
          eapply ba_cons; [exact Hbt|exact Hbts]. }
      destruct (loop inner _ rest idx) as [[[fs r2] i2]|m|q'] eqn:E2; cbn [pbind] in H; try discriminate. injection H as <- <- <-.
      apply HL in E2; [|exact Hrest|unfold small; lia]. destruct E2 as (ts & Hlen & -> & Hbts & Hgts).
      rewrite Hn in Hlen. rewrite usize_i32 in Hlen; [|lia|eapply elem_i32; eauto].
      assert (Hne : ts <> []) by (destruct ts; [cbn in Hlen; lia|discriminate]).
      exists (Node e ts). split; [reflexivity|]. split.
      + apply b_group; auto. rewrite Hn. f_equal. unfold zlen. lia.
      + rewrite groups_node by exact Hne. assert (fold_right (fun t n => Nat.max (groups t) n) 0 ts <= Z.to_nat (126 - nest))%nat; [|lia].
        apply groups_max. eapply Forall_impl; [|exact Hgts]. cbv beta. intros. lia.
  Qed.

  Lemma flatten_length t : 1 <= zlen (flatten t).
  Proof. destruct t as [e cs]. cbn [flatten]. rewrite zlen_cons. pose proof (zlen_ge (flat_map flatten cs)). lia. Qed.
  Lemma children_fit cs : zlen cs <= zlen (flat_map flatten cs).
  Proof.
    induction cs as [|t cs IH]; [reflexivity|]. cbn [flat_map]. rewrite P_Footer.zlen_app, zlen_cons. pose proof (flatten_length t). lia.
  Qed.
  Lemma built_idx : (forall t idx def rep f idx', built t idx def rep f idx' -> idx <= idx' <= idx + zlen (flatten t)) /\
    (forall ts idx def rep fs idx', built_all ts idx def rep fs idx' -> idx <= idx' <= idx + zlen (flat_map flatten ts)).
  Proof.
    apply built_mutind.
    - intros. cbn. unfold zlen. cbn. lia.
    - intros e cs r fs idx idx' def rep _ _ _ _ IH. cbn [flatten]. rewrite zlen_cons. lia.
    - intros. cbn. unfold zlen. cbn. lia.
    - intros t ts idx idx1 idx2 def rep f fs _ IH1 _ IH2. cbn [flat_map]. rewrite P_Footer.zlen_app. lia.
  Qed.

  (** from the tree to the result *)
  Lemma built_backward :
    (forall t idx def rep f idx', built t idx def rep f idx' -> forall d nest rest, Forall element_ok (flatten t) -> small idx (flatten t ++ rest) ->
       0 <= def <= nest -> 0 <= rep <= nest -> Z.of_nat (groups t) + nest <= 127 -> (groups t < d)%nat -> (forall n, n <= zlen (flatten t) -> alloc n = true) ->
       convert_schema_inner c little alloc d (flatten t ++ rest) idx def rep nest = POk (f, rest, idx')) /\
    (forall ts idx def rep fs idx', built_all ts idx def rep fs idx' -> forall d nest rest, Forall element_ok (flat_map flatten ts) -> small idx (flat_map flatten ts ++ rest) ->
       0 <= def <= nest -> 0 <= rep <= nest -> Forall (fun t => Z.of_nat (groups t) + nest <= 127 /\ (groups t < d)%nat) ts -> (forall n, n <= zlen (flat_map flatten ts) -> alloc n = true) ->
       loop (fun rest index => convert_schema_inner c little alloc d rest index def rep nest) (List.length ts) (flat_map flatten ts ++ rest) idx = POk (fs, rest, idx')).
  Proof.
    apply built_mutind.
    - intros e r t p idx def rep Hn Hr Ht Hp d nest rest Hels Hs Hdef Hrep Hg Hd Hal. destruct d as [|d]; [lia|].
      cbn [flatten flat_map app] in *. rewrite inner_S. pose proof (bump_range (code e =? 1)). pose proof (bump_range (code e =? 2)).
      rewrite u8_add_ok by lia. cbn [pbind]. rewrite u8_add_ok by lia. cbn [pbind]. inversion Hels as [|? ? He _]; subst.
      unfold small in Hs. rewrite zlen_cons in Hs. pose proof (zlen_ge rest).
      unfold field_from_schema_element. fold (try_rep (repetition_type e)). rewrite Hr. cbn [pbind]. rewrite Ht.
      assert (Hz : (match num_children e with Some n => n | None => 0 end) = 0) by (destruct Hn as [-> | ->]; reflexivity). rewrite Hz.
      change (0 =? 0) with true. cbv iota zeta. rewrite Hp. cbn [pbind]. unfold uadd. replace (idx + 1 <? 2 ^ usize_bits c) with true by lia. reflexivity.
    - intros e cs r fs idx idx' def rep Hne Hn Hr Hall IH d nest rest Hels Hs Hdef Hrep Hg Hd Hal. destruct d as [|d]; [lia|].
      cbn [flatten app] in *. rewrite inner_S. pose proof (bump_range (code e =? 1)). pose proof (bump_range (code e =? 2)).
      rewrite u8_add_ok by lia. cbn [pbind]. rewrite u8_add_ok by lia. cbn [pbind]. inversion Hels as [|? ? He Hels']; subst.
      unfold small in Hs. rewrite zlen_cons in Hs, Hal. pose proof (zlen_ge rest). pose proof (children_fit cs).
      assert (Hpos : 0 < zlen cs). { destruct cs; [congruence|]. rewrite zlen_cons. pose proof (zlen_ge cs). lia. }
      assert (Hu : usize c (zlen cs) = zlen cs) by (apply usize_i32; [lia|eapply elem_i32; eauto]).
      unfold field_from_schema_element. fold (try_rep (repetition_type e)). rewrite Hr. cbn [pbind]. rewrite Hn, Hu. cbv zeta.
      replace (zlen cs =? 0) with false by lia. replace (zlen cs <? 0) with false by lia.
      replace (zlen (flat_map flatten cs ++ rest) <? zlen cs) with false by (rewrite P_Footer.zlen_app; lia). cbn [orb].
      rewrite Hal by lia. cbn [pbind]. rewrite u8_add_ok by lia. cbn [pbind].
      rewrite groups_node in Hg, Hd by exact Hne. replace (128 <=? nest + 1) with false by lia.
      replace (Z.to_nat (zlen cs)) with (List.length cs) by (unfold zlen; lia).
      unfold deeper_def, deeper_rep in *. rewrite IH; [reflexivity|exact Hels'|unfold small; lia|lia|lia| |intros k Hk; apply Hal; lia].
      apply Forall_forall. intros t Ht. apply groups_max_in in Ht. lia.
    - intros. reflexivity.
    - intros t ts idx idx1 idx2 def rep f fs Hb IH1 Hbs IH2 d nest rest Hels Hs Hdef Hrep Hg Hal. cbn [flat_map List.length loop] in *. rewrite <- app_assoc in *.
      apply Forall_app in Hels as [He1 He2]. inversion Hg as [|? ? [Hg1 Hg1'] Hg2]; subst. pose proof (zlen_ge (flatten t)). pose proof (zlen_ge (flat_map flatten ts)).
      rewrite IH1; auto; [|intros k Hk; apply Hal; rewrite P_Footer.zlen_app; lia]. cbn [pbind].
      apply built_idx in Hb. rewrite IH2; auto.
      + unfold small in *. rewrite P_Footer.zlen_app in Hs. lia.
      + intros k Hk. apply Hal. rewrite P_Footer.zlen_app. lia.
  Qed.
End Tree.

Scheme built_mind2 := Minimality for built Sort Prop
  with built_all_mind2 := Minimality for built_all Sort Prop.
Combined Scheme built_mutind2 from built_mind2, built_all_mind2.

Fixpoint upto (n : nat) (i : Z) : list Z := match n with O => [] | S n' => i :: upto n' (i + 1) end.
Lemma upto_app a : forall b i, upto (a + b) i = upto a i ++ upto b (i + Z.of_nat a).
Proof.
  induction a as [|a IH]; intros b i; cbn [Nat.add upto app]; [f_equal; lia|]. rewrite IH. do 3 f_equal. lia.
Qed.
Lemma map_wrap n : forall i, 0 <= i -> i + Z.of_nat n <= 2 ^ 32 -> map (wrapu 32) (upto n i) = upto n i.
Proof.
  induction n as [|n IH]; intros i Hi Hn; cbn [upto map]; [reflexivity|]. rewrite IH by lia. f_equal. unfold wrapu. apply Z.mod_small. lia.
Qed.
Lemma upto_length n : forall i, List.length (upto n i) = n.
Proof. induction n as [|n IH]; intros i; cbn; [reflexivity|]. rewrite IH. reflexivity. Qed.
Lemma upto_nth n : forall i k z, nth_error (upto n i) k = Some z -> z = i + Z.of_nat k.
Proof.
  induction n as [|n IH]; intros i k z H; [destruct k; discriminate|]. destruct k as [|k]; cbn in H; [injection H as <-; lia|]. apply IH in H. lia.
Qed.

(** a list has at most one tree *)
Lemma some_eq {A} (x y : A) : Some x = Some y -> x = y.
Proof. congruence. Qed.
Lemma tree_unique t1 : forall t2 r1 r2, everywhere announced t1 -> everywhere announced t2 -> flatten t1 ++ r1 = flatten t2 ++ r2 -> t1 = t2 /\ r1 = r2.
Proof.
  induction t1 as [e cs IH] using tree_rect'. intros [e2 cs2] r1 r2 H1 H2 E. cbn [flatten app] in E. injection E as <- E.
  inversion H1 as [? ? Ha1 Hc1]; inversion H2 as [? ? Ha2 Hc2]; subst.
  assert (Hlen : List.length cs = List.length cs2).
  { unfold announced in Ha1, Ha2. cbn [kids elem] in *. destruct cs as [|x cs], cs2 as [|y cs2]; [reflexivity| | |].
    - destruct Ha1 as [Ha1|Ha1]; rewrite Ha1 in Ha2; [discriminate|]. apply some_eq in Ha2. rewrite zlen_cons in Ha2. pose proof (zlen_ge cs2). lia.
    - destruct Ha2 as [Ha2|Ha2]; rewrite Ha2 in Ha1; [discriminate|]. apply some_eq in Ha1. rewrite zlen_cons in Ha1. pose proof (zlen_ge cs). lia.
    - rewrite Ha1 in Ha2. apply some_eq in Ha2. unfold zlen in Ha2. lia. }
  clear Ha1 Ha2 H1 H2. revert cs2 Hlen E Hc2. induction cs as [|t cs IHcs]; intros [|t2 cs2] Hlen E Hc2; try discriminate; [auto|].
  cbn [flat_map] in E. rewrite <- !app_assoc in E. inversion IH as [|? ? IHt IHts]; subst. inversion Hc1; inversion Hc2; subst.
  apply IHt in E as [-> E]; auto. injection Hlen as Hlen. destruct (IHcs IHts ltac:(assumption) cs2 Hlen E ltac:(assumption)) as [[= ->] ->]. auto.
Qed.
Lemma count_cons p f l : count p (f :: l) = zlen (filter p [f]) + count p l.
Proof. unfold count, zlen. cbn [filter]. destruct (p f); cbn [List.length]; lia. Qed.
Lemma on_path_inv f p g : on_path f p g -> (p = [f] /\ g = f) \/ (exists co fs l f' p', f = Group co fs l /\ p = f :: p' /\ In f' fs /\ on_path f' p' g).
Proof. destruct 1; [left; auto|right]. do 5 eexists. split; [reflexivity|]. split; [reflexivity|]. split; eauto. Qed.

Section Result.
  Variables (c : cfg) (little : bool) (alloc : Z -> bool).
  Hypothesis Hc : cfg_ok c.
  Notation built := (built little).
  Notation built_all := (built_all little).

  Definition well (t : tree) : Prop := announced t /\ acceptable t.

  Lemma mk_same e r def rep : element_ok e -> try_rep (repetition_type e) = POk r -> same_common little e (mk little e r def rep).
  Proof.
    intros He Hr. unfold same_common, mk. cbn [name rep_type fid]. split; [reflexivity|]. split; [apply repetition_iff; exact Hr|].
    destruct He as (_ & _ & _ & _ & _ & _ & _ & Hf & _). destruct (field_id e) as [z|]; cbn [option_map]; [|reflexivity].
    rewrite field_id_roundtrip by exact Hf. reflexivity.
  Qed.
  Lemma type_length_ok e : element_ok e -> in_opt 32 (type_length e).
  Proof. intros (_ & H & _). exact H. Qed.
  Lemma means_physical_type e p : means_physical e p -> exists t, type_ e = Some t.
  Proof. destruct p; cbn [means_physical]; eauto. intros [H _]. eauto. Qed.

  Lemma built_represents :
    (forall t idx def rep f idx', built t idx def rep f idx' -> Forall element_ok (flatten t) -> represents little t f /\ everywhere well t) /\
    (forall ts idx def rep fs idx', built_all ts idx def rep fs idx' -> Forall element_ok (flat_map flatten ts) ->
       Forall2 (represents little) ts fs /\ Forall (everywhere well) ts).
  Proof.
    apply built_mutind2.
    - intros e r t p idx def rep Hn Hr Ht Hp Hok. cbn [flatten flat_map] in Hok. inversion Hok as [|? ? He _]; subst.
      assert (Hph : means_physical e p) by (eapply physical_iff; eauto using type_length_ok). split.
      + apply rep_leaf; [apply mk_same; auto|exact Hph|apply leaf_l_ok; exact He].
      + constructor; [|constructor]. split; [exact Hn|]. split; cbn [elem kids]; [exists r; apply repetition_iff; exact Hr|eauto].
    - intros e cs r fs idx idx' def rep Hne Hn Hr _ IH Hok. cbn [flatten] in Hok. inversion Hok as [|? ? He Hcs]; subst. destruct (IH Hcs) as [H1 H2]. split.
      + apply rep_group; [exact Hne|apply mk_same; auto|apply group_l_ok|exact H1].
      + constructor; [|exact H2]. split; [|split; cbn [elem kids]; [exists r; apply repetition_iff; exact Hr|congruence]].
        unfold announced. cbn [kids elem]. destruct cs; [congruence|exact Hn].
    - intros. split; constructor.
    - intros t ts idx idx1 idx2 def rep f fs _ IH1 _ IH2 Hok. cbn [flat_map] in Hok. apply Forall_app in Hok as [Hk1 Hk2].
      destruct (IH1 Hk1), (IH2 Hk2). split; constructor; auto.
  Qed.

  Lemma built_exists t : everywhere well t -> Forall element_ok (flatten t) -> forall idx def rep, exists f idx', built t idx def rep f idx'.
  Proof.
    induction t as [e cs IH] using tree_rect'. intros Hev Hok idx def rep. inversion Hev as [? ? [Han [[r Hr] Hph]] Hcs]; subst. cbn [elem kids] in *.
    cbn [flatten] in Hok. inversion Hok as [|? ? He Hoks]; subst. apply repetition_iff in Hr. destruct cs as [|t0 cs0] eqn:Ecs.
    - destruct (Hph eq_refl) as [p Hp]. destruct (means_physical_type e p Hp) as [ty Hty]. eexists _, _. eapply b_leaf; eauto.
      eapply physical_iff; eauto using type_length_ok.
    - rewrite <- Ecs in *. assert (Hne : cs <> []) by (rewrite Ecs; discriminate).
      assert (Hn : num_children e = Some (zlen cs)). { unfold announced in Han. cbn [elem kids] in Han. rewrite Ecs in *. exact Han. }
      assert (Hall : forall idx def rep, exists fs idx', built_all cs idx def rep fs idx').
      { clear Hne Hn Hph Han Hev Hok Ecs t0 cs0. induction cs as [|t cs IHcs]; intros i de re; [eexists _, _; constructor|].
        inversion IH as [|? ? IHt IHts]; subst. inversion Hcs as [|? ? Ht Hts]; subst. cbn [flat_map] in Hoks. apply Forall_app in Hoks as [Hk1 Hk2].
        destruct (IHt Ht Hk1 i de re) as (f & i1 & Hf). destruct (IHcs IHts Hts Hk2 i1 de re) as (fs & i2 & Hfs). exists (f :: fs), i2. econstructor; eauto. }
      destruct (Hall idx (deeper_def e def) (deeper_rep e rep)) as (fs & idx' & Hfs). eexists _, _. eapply b_group; eauto.
  Qed.

  Lemma built_fun : (forall t idx def rep f idx', built t idx def rep f idx' -> forall g idx2, built t idx def rep g idx2 -> f = g /\ idx' = idx2) /\
    (forall ts idx def rep fs idx', built_all ts idx def rep fs idx' -> forall gs idx2, built_all ts idx def rep gs idx2 -> fs = gs /\ idx' = idx2).
  Proof.
    apply built_mutind2.
    - intros e r t p idx def rep Hn Hr Ht Hp g idx2 H. inversion H; subst; [|congruence]. split; [|reflexivity]. congruence.
    - intros e cs r fs idx idx' def rep Hne Hn Hr _ IH g idx2 H. inversion H; subst; [congruence|].
      match goal with H : P_Schema.built_all _ cs _ _ _ _ _ |- _ => apply IH in H as [-> ->] end. split; [|reflexivity]. congruence.
    - intros idx def rep gs idx2 H. inversion H; subst. auto.
    - intros t ts idx idx1 idx2 def rep f fs _ IH1 _ IH2 gs idx3 H. inversion H; subst.
      match goal with H : P_Schema.built _ t _ _ _ _ _ |- _ => apply IH1 in H as [-> <-] end.
      match goal with H : P_Schema.built_all _ ts _ _ _ _ _ |- _ => apply IH2 in H as [-> ->] end. auto.
  Qed.

  Lemma built_leaves : (forall t idx def rep f idx', built t idx def rep f idx' ->
       idx <= idx' /\ leaf_indexes f = map (wrapu 32) (upto (Z.to_nat (idx' - idx)) idx)) /\
    (forall ts idx def rep fs idx', built_all ts idx def rep fs idx' ->
       idx <= idx' /\ flat_map leaf_indexes fs = map (wrapu 32) (upto (Z.to_nat (idx' - idx)) idx)).
  Proof.
    apply built_mutind2.
    - intros. split; [lia|]. replace (Z.to_nat (idx + 1 - idx)) with 1%nat by lia. reflexivity.
    - intros e cs r fs idx idx' def rep _ _ _ _ IH. exact IH.
    - intros. split; [lia|]. replace (Z.to_nat (idx - idx)) with 0%nat by lia. reflexivity.
    - intros t ts idx idx1 idx2 def rep f fs _ [H1 IH1] _ [H2 IH2]. split; [lia|]. cbn [flat_map]. rewrite IH1, IH2, <- map_app.
      replace (Z.to_nat (idx2 - idx)) with (Z.to_nat (idx1 - idx) + Z.to_nat (idx2 - idx1))%nat by lia. rewrite upto_app. do 3 f_equal. lia.
  Qed.
  (** the levels *)
  Lemma is_rep_code e r (want : repetition) (n : Z) f : try_rep (repetition_type e) = POk r -> rep_type (common_of f) = r ->
    (want = Optional /\ n = 1) \/ (want = Repeated /\ n = 2) -> zlen (filter (is_rep want) [f]) = bump (code e =? n).
  Proof.
    intros Hr Hco Hw. apply repetition_iff in Hr. cbn [filter]. unfold is_rep. rewrite Hco. unfold code.
    destruct Hr as [[-> [-> | ->]]|[[-> ->]|[-> ->]]]; destruct Hw as [[-> ->]|[-> ->]]; reflexivity.
  Qed.
  Lemma built_levels :
    (forall t idx def rep f idx', built t idx def rep f idx' -> forall p g, on_path f p g ->
       def_level (common_of g) = def + count (is_rep Optional) p /\ rep_level (common_of g) = rep + count (is_rep Repeated) p) /\
    (forall ts idx def rep fs idx', built_all ts idx def rep fs idx' -> forall f, In f fs -> forall p g, on_path f p g ->
       def_level (common_of g) = def + count (is_rep Optional) p /\ rep_level (common_of g) = rep + count (is_rep Repeated) p).
  Proof.
    apply built_mutind2.
    - intros e r t q idx def rep Hn Hr Ht Hp p g H. apply on_path_inv in H as [[-> ->]|(co & fs & l & f' & p' & [=] & _)].
      rewrite !count_cons. rewrite (is_rep_code e r Optional 1) by (cbn; auto). rewrite (is_rep_code e r Repeated 2) by (cbn; auto).
      cbn [common_of mk def_level rep_level]. unfold deeper_def, deeper_rep, count, zlen. cbn. lia.
    - intros e cs r fs idx idx' def rep Hne Hn Hr _ IH p g H. apply on_path_inv in H as [[-> ->]|(co & fs' & l & f' & p' & [= <- <- <-] & -> & Hin & H)].
      + rewrite !count_cons. rewrite (is_rep_code e r Optional 1) by (cbn; auto). rewrite (is_rep_code e r Repeated 2) by (cbn; auto).
        cbn [common_of mk def_level rep_level]. unfold deeper_def, deeper_rep, count, zlen. cbn. lia.
      + destruct (IH f' Hin p' g H) as [-> ->]. rewrite !count_cons. rewrite (is_rep_code e r Optional 1) by (cbn; auto).
        rewrite (is_rep_code e r Repeated 2) by (cbn; auto). unfold deeper_def, deeper_rep. lia.
    - intros idx def rep f [].
    - intros t ts idx idx1 idx2 def rep f fs _ IH1 _ IH2 f' [<-|Hin] p g H; eauto.
  Qed.

  (** * convert_schema *)
  Lemma convert_forward d els f : Forall element_ok els -> zlen els < 2 ^ usize_bits c ->
    convert_schema c little alloc d els = POk f ->
    exists t idx, flatten t = els /\ built t 0 0 0 f idx /\ (groups t <= 127)%nat /\ rep_type (common_of f) = Required.
  Proof.
    intros Hok Hlen H. unfold convert_schema in H. destruct els as [|e els]; [discriminate|].
    destruct (convert_schema_inner c little alloc d (e :: els) 0 0 0 0) as [[[root rest] idx]|m|p] eqn:E; cbn [pbind] in H; try discriminate.
    destruct rest as [|x rest]; [|discriminate]. apply (inner_forward c little alloc Hc) in E; auto; try lia; [|unfold small; split; lia].
    destruct E as (t & E & Hb & Hg). rewrite app_nil_r in E. destruct (rep_type (common_of root)) eqn:Er; try discriminate. injection H as <-.
    exists t, idx. repeat split; auto. lia.
  Qed.
  Lemma convert_backward d t f idx : Forall element_ok (flatten t) -> zlen (flatten t) < 2 ^ usize_bits c -> (forall n, n <= zlen (flatten t) -> alloc n = true) ->
    built t 0 0 0 f idx -> (groups t <= 127)%nat -> (groups t < d)%nat -> rep_type (common_of f) = Required ->
    convert_schema c little alloc d (flatten t) = POk f.
  Proof.
    intros Hok Hlen Hal Hb Hg Hd Hr. pose proof (proj1 (built_backward c little alloc Hc) t 0 0 0 f idx Hb d 0 [] Hok) as H. rewrite app_nil_r in H.
    unfold convert_schema. pose proof (flatten_length t) as Hl. destruct (flatten t) as [|e els] eqn:Ef; [unfold zlen in Hl; cbn in Hl; lia|].
    rewrite H; [|unfold small; split; lia|lia|lia|lia|exact Hd|exact Hal]. cbn [pbind]. rewrite Hr. reflexivity.
  Qed.

  Lemma represents_required t f : represents little t f -> (rep_type (common_of f) = Required <-> required (elem t)).
  Proof.
    intros H. assert (Hs : same_common little (elem t) (common_of f)) by (destruct H; cbn; assumption). destruct Hs as (_ & Hm & _).
    unfold required. destruct Hm as [[-> H1]|[[-> ->]|[-> ->]]]; split; intros Hq; try discriminate; auto; destruct Hq; discriminate.
  Qed.

  Lemma convert_iff d els : Forall element_ok els -> zlen els < 2 ^ usize_bits c -> (128 <= d)%nat -> (forall n, n <= zlen els -> alloc n = true) ->
    ((exists f, convert_schema c little alloc d els = POk f) <->
     (exists t, flatten t = els /\ everywhere announced t /\ everywhere acceptable t /\ (groups t <= 127)%nat /\ required (elem t))).
  Proof.
    intros Hok Hlen Hd Hal. split.
    - intros [f H]. apply convert_forward in H; auto. destruct H as (t & idx & Ef & Hb & Hg & Hr). exists t. subst els.
      destruct (proj1 built_represents _ _ _ _ _ _ Hb Hok) as [H1 H2].
      assert (Hw : forall (P : tree -> Prop), (forall t, well t -> P t) -> everywhere P t).
      { intros P HP. clear -H2 HP. induction t as [e cs IH] using tree_rect'. inversion H2; subst. constructor; [apply HP; assumption|].
        rewrite Forall_forall in *. intros t Ht. apply IH; auto. }
      split; [reflexivity|]. split; [apply Hw; unfold well; tauto|]. split; [apply Hw; unfold well; tauto|]. split; [exact Hg|].
      apply (represents_required t f H1). exact Hr.
    - intros (t & Ef & Ha & Hb & Hg & Hr). subst els.
      assert (Hw : everywhere well t).
      { clear -Ha Hb. induction t as [e cs IH] using tree_rect'. inversion Ha; inversion Hb; subst. constructor; [split; assumption|].
        rewrite Forall_forall in *. intros t Ht. apply IH; auto. }
      destruct (built_exists t Hw Hok 0 0 0) as (f & idx & Hbt). destruct (proj1 built_represents _ _ _ _ _ _ Hbt Hok) as [H1 _].
      exists f. eapply convert_backward; eauto; [lia|]. apply (represents_required t f H1). exact Hr.
  Qed.
  Lemma convert_represents d els f : Forall element_ok els -> zlen els < 2 ^ usize_bits c -> convert_schema c little alloc d els = POk f ->
    exists t, flatten t = els /\ represents little t f.
  Proof.
    intros Hok Hlen H. apply convert_forward in H; auto. destruct H as (t & idx & Ef & Hb & _). exists t. subst els. split; [reflexivity|].
    apply (proj1 built_represents _ _ _ _ _ _ Hb Hok).
  Qed.
  Lemma convert_leaves d els f : Forall element_ok els -> zlen els < 2 ^ usize_bits c -> zlen els <= 2 ^ 32 -> convert_schema c little alloc d els = POk f ->
    forall k i, nth_error (leaf_indexes f) k = Some i -> i = Z.of_nat k.
  Proof.
    intros Hok Hlen Hlen2 H. apply convert_forward in H; auto. destruct H as (t & idx & Ef & Hb & _). intros k i Hk. subst els.
    pose proof (proj1 (built_idx little alloc) _ _ _ _ _ _ Hb) as Hi. destruct (proj1 built_leaves _ _ _ _ _ _ Hb) as [_ Hl]. rewrite Hl, map_wrap in Hk by lia.
    apply upto_nth in Hk. lia.
  Qed.
  Lemma convert_levels d els f : Forall element_ok els -> zlen els < 2 ^ usize_bits c -> convert_schema c little alloc d els = POk f ->
    forall p g, on_path f p g -> def_level (common_of g) = count (is_rep Optional) p /\ rep_level (common_of g) = count (is_rep Repeated) p.
  Proof.
    intros Hok Hlen H. apply convert_forward in H; auto. destruct H as (t & idx & Ef & Hb & _). intros p g Hp.
    destruct (proj1 built_levels _ _ _ _ _ _ Hb p g Hp) as [H1 H2]. lia.
  Qed.
  Lemma convert_no_panic d els p : Forall element_ok els -> zlen els < 2 ^ usize_bits c -> (128 <= d)%nat -> (forall n, n <= zlen els -> alloc n = true) ->
    convert_schema c little alloc d els <> PPanic p.
  Proof.
    intros Hok Hlen Hd Hal. unfold convert_schema. destruct els as [|e els]; [discriminate|].
    destruct (convert_schema_inner c little alloc d (e :: els) 0 0 0 0) as [[[root rest] idx]|m|q] eqn:E; cbn [pbind]; [|discriminate|].
    - destruct rest; [|discriminate]. destruct (rep_type _); discriminate.
    - exfalso. revert E. apply inner_no_panic; auto; try lia. unfold small. lia.
  Qed.

  Lemma too_deep d t : Forall element_ok (flatten t) -> zlen (flatten t) < 2 ^ usize_bits c -> everywhere announced t -> (127 < groups t)%nat ->
    (128 <= d)%nat -> (forall n, n <= zlen (flatten t) -> alloc n = true) -> exists m, convert_schema c little alloc d (flatten t) = PErr m.
  Proof.
    intros Hok Hlen Ha Hg Hd Hal. destruct (convert_schema c little alloc d (flatten t)) as [f|m|p] eqn:E; [exfalso|eauto|destruct (convert_no_panic d _ p Hok Hlen Hd Hal E)].
    assert (H : exists f, convert_schema c little alloc d (flatten t) = POk f) by eauto. apply convert_iff in H; auto.
    destruct H as (t' & Ef & Ha' & _ & Hg' & _). destruct (tree_unique t' t [] [] Ha' Ha) as [<- _]; [rewrite Ef; reflexivity|]. lia.
  Qed.
End Result.

(** * Lookup *)
Lemma find_split {A} (p : A -> bool) l x : find p l = Some x <-> exists pre post, l = pre ++ x :: post /\ Forall (fun y => p y = false) pre /\ p x = true.
Proof.
  induction l as [|y l IH]; cbn [find].
  - split; [discriminate|]. intros ([|? ?] & ? & [=] & _).
  - destruct (p y) eqn:Hy.
    + split; [intros [= <-]; exists [], l; repeat split; auto|]. intros ([|z pre] & post & E & Hf & Hx); cbn [app] in E; injection E as -> _; [reflexivity|inversion Hf; congruence].
    + rewrite IH. split; intros (pre & post & E & Hf & Hx).
      * exists (y :: pre), post. subst l. repeat split; auto.
      * destruct pre as [|z pre]; cbn [app] in E; injection E as -> ->; [congruence|]. inversion Hf; subst. exists pre, post. repeat split; auto.
Qed.
Lemma find_iff path : forall f g, find_field_by_path f path = Some g <-> finds f path g.
Proof.
  induction path as [|n path IH]; intros f g; cbn [find_field_by_path].
  - split; [intros [= <-]; constructor|]. intros H. inversion H. reflexivity.
  - destruct f as [co fs l|co p l i]; [|split; [discriminate|intros H; inversion H]]. split.
    + destruct (find _ fs) as [child|] eqn:E; [|discriminate]. apply find_split in E as (pre & post & -> & Hf & Hx). intros H. apply IH in H.
      constructor; auto; [|apply P_Footer.list_eqb_eq; exact Hx]. eapply Forall_impl; [|exact Hf]. cbv beta. intros a Ha Hb. apply P_Footer.list_eqb_eq in Hb. congruence.
    + intros H. inversion H as [|? pre child post ? ? ? ? Hf Hx Hg]; subst.
      assert (E : find (fun child0 => list_eqb (name (common_of child0)) (name (common_of child))) (pre ++ child :: post) = Some child).
      { apply find_split. exists pre, post. split; [reflexivity|]. split; [|apply P_Footer.list_eqb_eq; reflexivity].
        eapply Forall_impl; [|exact Hf]. cbv beta. intros a Ha. destruct (list_eqb _ _) eqn:Hb; [|reflexivity]. apply P_Footer.list_eqb_eq in Hb. congruence. }
      rewrite E. apply IH. exact Hg.
Qed.

(** * Decoded elements *)
Lemma typed_struct E n fs v : lookup E n = Some (DStruct fs) -> typed E (TNamed n) v -> exists vs, v = VStruct vs /\ typed_fields E fs vs.
Proof.
  intros Hl H. inversion H as [| | | | | | | | | | | | | |? ? Hl'|? fs' vs Hl' Hf|? ? ? ? ? Hl']; subst; rewrite Hl in Hl'; try discriminate.
  injection Hl' as <-. eauto.
Qed.
Lemma typed_union E n fs v : lookup E n = Some (DUnion fs) -> typed E (TNamed n) v -> exists i f w, v = VUnion i w /\ nth_error fs i = Some f /\ typed E (f_ty f) w.
Proof.
  intros Hl H. inversion H as [| | | | | | | | | | | | | |? ? Hl'|? fs' vs Hl' Hf|? ? i f w Hl']; subst; rewrite Hl in Hl'; try discriminate.
  injection Hl' as <-. eauto 6.
Qed.
Lemma typed_enum E n v : lookup E n = Some DEnum -> typed E (TNamed n) v -> exists z, v = VI32 z /\ in_s 32 z.
Proof.
  intros Hl H. inversion H as [| | | | | | | | | | | | | |? z Hl' Hz|? fs' vs Hl' Hf|? ? i f w Hl']; subst; rewrite Hl in Hl'; try discriminate. eauto.
Qed.
Lemma typed_fields_cons E f fs vs : typed_fields E (f :: fs) vs -> exists v vs', vs = v :: vs' /\ typed E (field_ty f) v /\ typed_fields E fs vs'.
Proof. intros H. inversion H; subst. eauto. Qed.
Lemma typed_fields_nil E vs : typed_fields E [] vs -> vs = [].
Proof. intros H. inversion H. reflexivity. Qed.
Lemma typed_option E t v : typed E (TOption t) v -> v = VNone \/ exists w, v = VSome w /\ typed E t w.
Proof. intros H. inversion H; subst; eauto. Qed.
Ltac fields H := repeat (apply typed_fields_cons in H; let v := fresh "v" in let vs := fresh "vs" in let Hv := fresh "Hv" in destruct H as (v & vs & -> & Hv & H));
  apply typed_fields_nil in H; subst; cbn [field_ty f_ty f_req] in *.

Lemma unit_of_ok v : typed parquet_env (TNamed "TimeUnit") v -> exists u, unit_of v = Some u.
Proof.
  intros H. apply (typed_union parquet_env "TimeUnit" (match def_TimeUnit with DUnion fs => fs | _ => [] end)) in H; [|vm_compute; reflexivity].
  destruct H as (i & f & w & -> & Hi & _). do 3 (destruct i as [|i]; [eexists; reflexivity|]). destruct i; discriminate.
Qed.
Lemma logical_of_ok v : typed parquet_env (TNamed "LogicalType") v -> exists l, logical_of v = Some l /\ logical_ok l.
Proof.
  intros H. apply (typed_union parquet_env "LogicalType" (match def_LogicalType with DUnion fs => fs | _ => [] end)) in H; [|vm_compute; reflexivity].
  destruct H as (i & f & w & -> & Hi & Hw).
  do 4 (destruct i as [|i]; [eexists; split; [reflexivity|exact Coq.Init.Logic.I]|]).
  destruct i as [|i].
  { injection Hi as <-. cbn [f_ty] in Hw. apply (typed_struct parquet_env "DecimalType" (match def_DecimalType with DStruct fs => fs | _ => [] end)) in Hw; [|vm_compute; reflexivity].
    destruct Hw as (vs & -> & Hf). unfold def_DecimalType in Hf. fields Hf. inversion Hv; inversion Hv0; subst. eexists. split; [reflexivity|]. split; assumption. }
  destruct i as [|i]; [eexists; split; [reflexivity|exact Coq.Init.Logic.I]|].
  destruct i as [|i].
  { injection Hi as <-. cbn [f_ty] in Hw. apply (typed_struct parquet_env "TimeType" (match def_TimeType with DStruct fs => fs | _ => [] end)) in Hw; [|vm_compute; reflexivity].
    destruct Hw as (vs & -> & Hf). unfold def_TimeType in Hf. fields Hf. inversion Hv; subst. apply unit_of_ok in Hv0 as [u Hu]. cbn [logical_of]. rewrite Hu. eexists. split; [reflexivity|exact Coq.Init.Logic.I]. }
  destruct i as [|i].
  { injection Hi as <-. cbn [f_ty] in Hw. apply (typed_struct parquet_env "TimestampType" (match def_TimestampType with DStruct fs => fs | _ => [] end)) in Hw; [|vm_compute; reflexivity].
    destruct Hw as (vs & -> & Hf). unfold def_TimestampType in Hf. fields Hf. inversion Hv; subst. apply unit_of_ok in Hv0 as [u Hu]. cbn [logical_of]. rewrite Hu. eexists. split; [reflexivity|exact Coq.Init.Logic.I]. }
  destruct i as [|i].
  { injection Hi as <-. cbn [f_ty] in Hw. apply (typed_struct parquet_env "IntType" (match def_IntType with DStruct fs => fs | _ => [] end)) in Hw; [|vm_compute; reflexivity].
    destruct Hw as (vs & -> & Hf). unfold def_IntType in Hf. fields Hf. inversion Hv; inversion Hv0; subst. eexists. split; [reflexivity|assumption]. }
  do 5 (destruct i as [|i]; [eexists; split; [reflexivity|exact Coq.Init.Logic.I]|]).
  destruct i as [|i].
  { injection Hi as <-. cbn [f_ty] in Hw. apply (typed_struct parquet_env "VariantType" (match def_VariantType with DStruct fs => fs | _ => [] end)) in Hw; [|vm_compute; reflexivity].
    destruct Hw as (vs & -> & Hf). unfold def_VariantType in Hf. fields Hf. apply typed_option in Hv as [-> | (w & -> & Hw)]; [eexists; split; [reflexivity|exact Coq.Init.Logic.I]|].
    inversion Hw; subst. eexists. split; [reflexivity|exact Coq.Init.Logic.I]. }
  do 2 (destruct i as [|i]; [eexists; split; [reflexivity|exact Coq.Init.Logic.I]|]). destruct i; discriminate.
Qed.
Lemma opt_enum n v : lookup parquet_env n = Some DEnum -> typed parquet_env (TOption (TNamed n)) v -> in_opt 32 (i_field v).
Proof. intros Hl H. apply typed_option in H as [-> | (w & -> & Hw)]; [exact Coq.Init.Logic.I|]. apply typed_enum in Hw as (z & -> & Hz); auto. Qed.
Lemma element_of_ok v : typed parquet_env (TNamed "SchemaElement") v -> exists e, element_of v = Some e /\ element_ok e.
Proof.
  intros H. apply (typed_struct parquet_env "SchemaElement" (match def_SchemaElement with DStruct fs => fs | _ => [] end)) in H; [|vm_compute; reflexivity].
  destruct H as (vs & -> & Hf). unfold def_SchemaElement in Hf. fields Hf. inversion Hv2; subst. eexists. split; [reflexivity|].
  unfold element_ok. cbn [type_ type_length repetition_type num_children converted_type scale precision field_id logicalType].
  repeat split; try (apply P_Footer.opt_i32; assumption); try (eapply opt_enum; [|eassumption]; vm_compute; reflexivity).
  match goal with H : typed parquet_env (TOption (TNamed "LogicalType")) _ |- _ => apply typed_option in H as [-> | (w & -> & Hw)] end; [exact Coq.Init.Logic.I|].
  apply logical_of_ok in Hw as (lo & -> & Hlo). exact Hlo.
Qed.
Lemma elements_of_ok vs : Forall (typed parquet_env (TNamed "SchemaElement")) vs -> exists es, elements_of vs = Some es /\ Forall element_ok es /\ List.length es = List.length vs.
Proof.
  induction 1 as [|v vs Hv _ (es & IH1 & IH2 & IH3)]; [exists []; auto|]. apply element_of_ok in Hv as (e & He & Hok). exists (e :: es). cbn [elements_of]. rewrite He, IH1.
  cbn [List.length]. auto.
Qed.
Lemma schema_of_ok v : typed parquet_env (TNamed "FileMetaData") v -> exists es, schema_of v = Some es /\ Forall element_ok es /\ (short_lists v -> zlen es <= 10000000).
Proof.
  intros H. apply (typed_struct parquet_env "FileMetaData" (match def_FileMetaData with DStruct fs => fs | _ => [] end)) in H; [|vm_compute; reflexivity].
  destruct H as (vs & -> & Hf). unfold def_FileMetaData in Hf. fields Hf. inversion Hv0; subst. cbn [schema_of nth].
  match goal with H : typed_seq _ _ _ |- _ => apply P_Footer.typed_seq_forall, elements_of_ok in H as (es & He & Hok & Hlen) end. exists es. split; [exact He|]. split; [exact Hok|].
  cbn [short_lists]. unfold zlen. rewrite Hlen. intros (_ & (Hz & _) & _). exact Hz.
Qed.
Lemma schema_decoded c d s s' v : cfg_ok c -> bytes s ->
  read_thrift c (slice_input c) parquet_env d (TNamed "FileMetaData") s = (s', Ok v) -> exists es, schema_of v = Some es /\ Forall element_ok es /\ zlen es <= 10000000.
Proof.
  intros Hc Hb H. destruct (schema_of_ok v) as (es & H1 & H2 & H3); [eapply (P_Valid.read_slice_valid c parquet_env 12); eauto|].
  exists es. split; [exact H1|]. split; [exact H2|]. apply H3.
  apply (P_Laws2.slice_short_lists c parquet_env 12 d (TNamed "FileMetaData") s s' v); auto; vm_compute; reflexivity.
Qed.
(** from the bytes to the tree *)
Lemma decoded_converts c little alloc d d' s s' v : cfg_ok c -> bytes s -> (128 <= d')%nat -> (forall n, n <= 10000000 -> alloc n = true) ->
  read_thrift c (slice_input c) parquet_env d (TNamed "FileMetaData") s = (s', Ok v) ->
  exists es, schema_of v = Some es /\ (forall p, convert_schema c little alloc d' es <> PPanic p) /\
    forall f, convert_schema c little alloc d' es = POk f -> (exists t, flatten t = es /\ represents little t f) /\
      (forall k i, nth_error (leaf_indexes f) k = Some i -> i = Z.of_nat k).
Proof.
  intros Hc Hb Hd Ha H. destruct (schema_decoded c d s s' v Hc Hb H) as (es & He & Hok & Hlen). exists es. split; [exact He|].
  assert (Hl : zlen es < 2 ^ usize_bits c). { destruct Hc as [[-> | ->] _]; [change (2 ^ 32) with 4294967296|change (2 ^ 64) with 18446744073709551616]; lia. }
  split; [intros p; apply convert_no_panic; auto; intros n Hn; apply Ha; lia|]. intros f Hf. split; [eapply convert_represents; eauto|].
  eapply convert_leaves; eauto. change (2 ^ 32) with 4294967296. lia.
Qed.

(** * Samples *)
Definition blank (n : list Z) : selement :=
  {| type_ := None; type_length := None; repetition_type := None; ename := n; num_children := None; converted_type := None;
     scale := None; precision := None; field_id := None; logicalType := None |}.
Definition s_group (n : list Z) (r : option Z) (k : Z) (ct : option Z) : selement :=
  {| type_ := None; type_length := None; repetition_type := r; ename := n; num_children := Some k; converted_type := ct;
     scale := None; precision := None; field_id := Some (-2); logicalType := None |}.
Definition s_leaf (n : list Z) (r : option Z) (t : Z) (l : option logical) : selement :=
  {| type_ := Some t; type_length := Some 4; repetition_type := r; ename := n; num_children := None; converted_type := Some 5;
     scale := Some 1; precision := Some 9; field_id := None; logicalType := l |}.
(** r { optional group a (LIST) { repeated group b { optional fixed(4) c (DECIMAL) } } required int32 d (DATE) } *)
Definition sample_tree : tree :=
  Node (s_group [114] None 2 None)
    [Node (s_group [97] (Some 1) 1 (Some 3)) [Node (s_group [98] (Some 2) 1 None) [Node (s_leaf [99] (Some 1) 7 (Some (LDECIMAL 5 4))) []]];
     Node (s_leaf [100] (Some 0) 1 (Some LDATE)) []].
Definition sample_field : sfield :=
  Group {| name := [114]; fid := Some [254; 255; 255; 255]; rep_type := Required; def_level := 0; rep_level := 0 |}
    [Group {| name := [97]; fid := Some [254; 255; 255; 255]; rep_type := Optional; def_level := 1; rep_level := 0 |}
       [Group {| name := [98]; fid := Some [254; 255; 255; 255]; rep_type := Repeated; def_level := 1; rep_level := 1 |}
          [Primitive {| name := [99]; fid := None; rep_type := Optional; def_level := 2; rep_level := 1 |} (PT_FIXED_LEN_BYTE_ARRAY 4)
             (Some (PL_Decimal {| d_precision := 9; d_scale := 1 |})) 0]
          None] (Some GL_List);
     Primitive {| name := [100]; fid := None; rep_type := Required; def_level := 0; rep_level := 0 |} PT_INT32 (Some PL_Date) 1] None.
(** nested groups *)
Fixpoint deep (n : nat) : tree :=
  match n with O => Node (s_leaf [99] (Some 1) 1 None) [] | S n' => Node (s_group [103] (Some 0) 1 None) [deep n'] end.

Lemma sample_ok : Forall element_ok (flatten sample_tree).
Proof. repeat constructor; cbn; unfold in_s; lia. Qed.
Lemma deep_ok n : Forall element_ok (flatten (deep n)).
Proof. induction n as [|n IH]; cbn [deep flatten flat_map]; [|rewrite app_nil_r; constructor; [|exact IH]]; repeat constructor; cbn; unfold in_s; lia. Qed.
Lemma deep_announced n : everywhere announced (deep n).
Proof. induction n as [|n IH]; cbn [deep]; constructor; try constructor; auto; constructor. Qed.
Lemma deep_groups n : groups (deep n) = n.
Proof. induction n as [|n IH]; cbn [deep groups]; [reflexivity|]. cbn [fold_right]. rewrite IH. lia. Qed.

Definition repeated_tree : tree := Node (s_group [114] None 1 None) [Node (s_leaf [108] (Some 2) 1 None) []].
Definition nullable (f : sfield) : bool := negb (is_rep Required f).
Lemma definition_level_refuted : forall c little alloc, cfg_ok c -> (forall n, alloc n = true) -> exists els f p g,
  Forall element_ok els /\ convert_schema c little alloc 128 els = POk f /\ on_path f p g /\
  def_level (common_of g) = 0 /\ count (fun f => is_rep Optional f || is_rep Repeated f) p = 1.
Proof.
  intros c little alloc Hc Ha.
  set (g := Primitive {| name := [108]; fid := None; rep_type := Repeated; def_level := 0; rep_level := 1 |} PT_INT32 (Some (PL_Decimal {| d_precision := 9; d_scale := 1 |})) 0).
  set (r := Group {| name := [114]; fid := Some (field_id_from little (-2)); rep_type := Required; def_level := 0; rep_level := 0 |} [g] None).
  exists (flatten repeated_tree), r, [r; g], g. split; [repeat constructor; cbn; unfold in_s; lia|]. split.
  { destruct Hc as [Hu _]. unfold convert_schema. cbn [repeated_tree flatten flat_map app convert_schema_inner s_group s_leaf repetition_type num_children type_].
    unfold field_from_schema_element. cbn [s_group s_leaf repetition_type num_children type_ pbind try_repetition]. unfold usize, uadd, u8_add. rewrite !Ha.
    destruct Hu as [-> | ->]; vm_compute; reflexivity. }
  split; [apply op_child with (f := g); [left; reflexivity|constructor]|]. split; reflexivity.
Qed.

Lemma flatten_unique t1 t2 : everywhere announced t1 -> everywhere announced t2 -> flatten t1 = flatten t2 -> t1 = t2.
Proof. intros H1 H2 H. apply (tree_unique t1 t2 [] []); auto. rewrite H. reflexivity. Qed.
Lemma convert_leaves_mod c little alloc : cfg_ok c -> forall d els f, Forall element_ok els -> zlen els < 2 ^ usize_bits c -> convert_schema c little alloc d els = POk f ->
  forall k i, nth_error (leaf_indexes f) k = Some i -> i = Z.of_nat k mod 2 ^ 32.
Proof.
  intros Hc d els f Hok Hlen H. apply convert_forward in H; auto. destruct H as (t & idx & Ef & Hb & _). intros k i Hk. subst els.
  destruct (proj1 (built_leaves little alloc) _ _ _ _ _ _ Hb) as [_ Hl]. rewrite Hl, nth_error_map in Hk.
  destruct (nth_error (upto _ _) k) as [z|] eqn:E; [|discriminate]. apply upto_nth in E. injection Hk as <-. subst z. reflexivity.
Qed.
Lemma group_types l ct g : (try_group_logical l = POk g <-> means_group_logical l g) /\ (try_group_converted ct = POk g <-> means_group_converted ct g).
Proof. split; [apply group_logical_iff|apply group_converted_iff]. Qed.
Lemma unknown_types z len p s id :
  (try_physical z len = PErr (PUnknownType id) <-> id = z /\ (z < 0 \/ 7 < z)) /\
  (try_converted z p s = PErr (PUnknownType id) <-> id = z /\ (z = 2 \/ z < 0 \/ 21 < z)) /\
  (try_repetition z = PErr (PUnknownType id) <-> id = z /\ (z < 0 \/ 2 < z)).
Proof. split; [apply physical_unknown|]. split; [apply converted_unknown|apply repetition_unknown]. Qed.
Lemma types_no_panic z len p s l q : try_physical z len <> PPanic q /\ try_converted z p s <> PPanic q /\ try_logical l <> PPanic q.
Proof. split; [apply physical_never_panics|]. split; [apply converted_never_panics|apply logical_never_panics]. Qed.
Lemma find_none path f : find_field_by_path f path = None <-> ~ exists g, finds f path g.
Proof.
  destruct (find_field_by_path f path) as [g|] eqn:E; split; intros H; try discriminate.
  - destruct H. exists g. apply find_iff. exact E.
  - intros [g Hg]. apply find_iff in Hg. congruence.
  - reflexivity.
Qed.
Lemma schema_of_ranges v : typed parquet_env (TNamed "FileMetaData") v -> exists es, schema_of v = Some es /\ Forall element_ok es.
Proof. intros H. destruct (schema_of_ok v H) as (es & H1 & H2 & _). eauto. Qed.
Lemma sample_path : exists p g, on_path sample_field p g /\ zlen p = 4 /\ def_level (common_of g) = 2 /\ rep_level (common_of g) = 1.
Proof.
  eexists _, _. split.
  - unfold sample_field. eapply op_child; [left; reflexivity|]. eapply op_child; [left; reflexivity|]. eapply op_child; [left; reflexivity|]. apply op_here.
  - repeat split.
Qed.
Definition opt_v (o : option Z) : value := match o with Some z => VSome (VI32 z) | None => VNone end.
Definition element_v (e : selement) : value :=
  VStruct [opt_v (type_ e); opt_v (type_length e); opt_v (repetition_type e); VStr (ename e); opt_v (num_children e); opt_v (converted_type e); opt_v (scale e);
           opt_v (precision e); opt_v (field_id e);
           match logicalType e with Some (LDECIMAL s p) => VSome (VUnion 4 (VStruct [VI32 s; VI32 p])) | Some LDATE => VSome (VUnion 5 (VStruct [])) | _ => VNone end].
Definition sample_meta : value :=
  VStruct [VI32 1; VVec (map element_v (flatten sample_tree)); VI64 0; VVec []; VNone; VNone; VNone; VNone; VNone].
Definition sample_meta_bytes : list Z := Eval vm_compute in fst (write_thrift vec_write_all parquet_env (TNamed "FileMetaData") sample_meta []).
Lemma sample_decodes : exists d s v f, read_thrift debug64 (slice_input debug64) parquet_env d (TNamed "FileMetaData") s = ([], Ok v) /\
  schema_of v = Some (flatten sample_tree) /\ convert_schema debug64 true (fun _ => true) 128 (flatten sample_tree) = POk f.
Proof. exists 40%nat, sample_meta_bytes, sample_meta, sample_field. split; [vm_compute; reflexivity|]. split; vm_compute; reflexivity. Qed.
