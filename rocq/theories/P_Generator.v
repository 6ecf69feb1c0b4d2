(** Proofs about the generator. *)
From Coq Require Import Relations.
From Verif Require Import Base P_Arith Generator SpecGenerator.

(** * Numbers *)
Lemma magnitude_acc radix ds : forall n, fold_left (fun n d => radix * n + d) ds n = n * radix ^ zlen ds + positional radix ds.
Proof.
  induction ds as [|d ds IH]; intros n; cbn [fold_left positional].
  - change (zlen (@nil Z)) with 0. rewrite Z.pow_0_r. lia.
  - rewrite IH. unfold zlen. cbn [List.length]. rewrite Nat2Z.inj_succ, Z.pow_succ_r by lia. ring.
Qed.
Lemma magnitude_positional radix ds : magnitude radix ds = positional radix ds.
Proof. unfold magnitude. rewrite magnitude_acc. lia. Qed.
Lemma positional_nonneg radix ds : 0 < radix -> Forall (fun d => 0 <= d < radix) ds -> 0 <= positional radix ds.
Proof.
  intros R F. induction F as [|d ds D F IH]; cbn [positional]; [lia|].
  assert (0 < radix ^ zlen ds) by (apply Z.pow_pos_nonneg; [lia|unfold zlen; lia]). nia.
Qed.
Lemma int_of_in z : -2147483648 <= z <= 2147483647 -> int_of z = KOk z.
Proof. intros H. unfold int_of. rewrite (proj2 (Z.leb_le _ _)), (proj2 (Z.leb_le _ _)) by lia. reflexivity. Qed.
Lemma int_of_ok z y : int_of z = KOk y -> y = z /\ -2147483648 <= z <= 2147483647.
Proof. unfold int_of. destruct (Z.leb_spec (-2147483648) z), (Z.leb_spec z 2147483647); cbn [andb]; try discriminate. intros [= <-]. lia. Qed.
Lemma map_integer_in i : lexed i -> -2147483648 < integer_value i <= 2147483647 -> map_integer i = KOk (integer_value i).
Proof.
  intros L R. destruct i as [s ds|neg ds]; cbn [map_integer integer_value] in *; rewrite magnitude_positional.
  - destruct s; apply int_of_in; lia.
  - destruct L as [_ L]. pose proof (positional_nonneg 16 ds ltac:(lia) L).
    destruct neg; rewrite int_of_in by lia; cbn [kbind]; [|reflexivity].
    f_equal. apply wraps_id; [lia|]. change (2 ^ (32 - 1)) with 2147483648. lia.
Qed.
Lemma map_integer_ok i z : lexed i -> map_integer i = KOk z -> z = integer_value i /\ -2147483648 <= z <= 2147483647.
Proof.
  intros L H. destruct i as [s ds|neg ds]; cbn [map_integer integer_value] in *; rewrite magnitude_positional in H.
  - destruct s; apply int_of_ok in H; lia.
  - destruct L as [_ L]. pose proof (positional_nonneg 16 ds ltac:(lia) L).
    destruct (int_of (positional 16 ds)) as [v|] eqn:E; cbn [kbind] in H; [|discriminate].
    apply int_of_ok in E. destruct neg; injection H as <-; [|lia].
    rewrite wraps_id; [lia|lia|]. change (2 ^ (32 - 1)) with 2147483648. lia.
Qed.

(** * LinkedHashMap *)
Lemma put_in {V} (m : list (string * V)) k v : forall k' v', In (k', v') (put m k v) -> (k', v') = (k, v) \/ In (k', v') m.
Proof.
  induction m as [|[a b] m IH]; cbn [put]; intros k' v' H.
  - destruct H as [<-|[]]. auto.
  - destruct (String.eqb_spec k a).
    + destruct H as [<-|H]; [auto|right; right; exact H].
    + destruct H as [<-|H]; [right; left; reflexivity|]. destruct (IH _ _ H); [auto|right; right; assumption].
Qed.
Lemma put_keys {V} (m : list (string * V)) k v x : In x (map fst (put m k v)) <-> x = k \/ In x (map fst m).
Proof.
  induction m as [|[a b] m IH]; cbn [put map fst In].
  - intuition.
  - destruct (String.eqb_spec k a) as [->|N]; cbn [map fst In]; [intuition|]. rewrite IH. intuition.
Qed.
Lemma put_nodup {V} (m : list (string * V)) k v : NoDup (map fst m) -> NoDup (map fst (put m k v)).
Proof.
  induction m as [|[a b] m IH]; cbn [put map fst]; intros H.
  - constructor; [intros []|constructor].
  - inversion H; subst. destruct (String.eqb_spec k a) as [->|N]; cbn [map fst]; [constructor; assumption|].
    constructor; [|auto]. rewrite put_keys. intros [E|E]; congruence.
Qed.
Lemma put_fresh {V} (m : list (string * V)) k v : ~ In k (map fst m) -> put m k v = m ++ [(k, v)].
Proof.
  induction m as [|[a b] m IH]; cbn [put map fst In]; intros H; [reflexivity|].
  destruct (String.eqb_spec k a) as [->|N]; [exfalso; auto|]. cbn [app]. rewrite IH by auto. reflexivity.
Qed.
Lemma associate_acc {V} (l : list (string * V)) : forall m,
  NoDup (map fst m) -> 
  NoDup (map fst (fold_left (fun m '(k, v) => put m k v) l m)) /\
  (forall x, In x (map fst (fold_left (fun m '(k, v) => put m k v) l m)) <-> In x (map fst m) \/ In x (map fst l)) /\
  (forall kv, In kv (fold_left (fun m '(k, v) => put m k v) l m) -> In kv m \/ In kv l).
Proof.
  induction l as [|[k v] l IH]; cbn [fold_left map fst In]; intros m N.
  - intuition.
  - destruct (IH (put m k v) (put_nodup m k v N)) as (A & B & C). split; [exact A|]. split.
    + intros x. rewrite B, put_keys. intuition.
    + intros [k' v'] H. destruct (C _ H) as [H'|H']; [|auto]. destruct (put_in _ _ _ _ _ H') as [E|E]; [right; left; congruence|auto].
Qed.
Lemma associate_nodup {V} (l : list (string * V)) : NoDup (map fst (associate l)).
Proof. apply (associate_acc l []). constructor. Qed.
Lemma associate_keys {V} (l : list (string * V)) x : In x (map fst (associate l)) <-> In x (map fst l).
Proof. unfold associate. rewrite (proj1 (proj2 (associate_acc l [] (NoDup_nil _)))). cbn. intuition. Qed.
Lemma associate_incl {V} (l : list (string * V)) kv : In kv (associate l) -> In kv l.
Proof. intros H. destruct (proj2 (proj2 (associate_acc l [] (NoDup_nil _))) kv H) as [[]|]; assumption. Qed.
Lemma associate_distinct_acc {V} (l : list (string * V)) : forall m,
  NoDup (map fst (m ++ l)) -> fold_left (fun m '(k, v) => put m k v) l m = m ++ l.
Proof.
  induction l as [|[k v] l IH]; cbn [fold_left]; intros m N; [symmetry; apply app_nil_r|].
  rewrite put_fresh.
  - rewrite IH; rewrite <- app_assoc; [reflexivity|exact N].
  - rewrite map_app in N. cbn [map fst] in N. apply NoDup_remove_2 in N. rewrite in_app_iff in N. auto.
Qed.
Lemma associate_distinct {V} (l : list (string * V)) : NoDup (map fst l) -> associate l = l.
Proof. apply (associate_distinct_acc l []). Qed.

(** * Field ids *)
Lemma numbered_names prev ps fs : numbered prev ps fs -> map g_name fs = map p_name ps.
Proof. induction 1; cbn [map]; congruence. Qed.
Lemma number_fields_spec prev ps fs :
  numbered prev ps fs -> Forall lexed_field ps -> -2147483648 <= prev -> Forall (fun f => -2147483648 < g_id f <= 2147483647) fs ->
  number_fields prev ps = KOk fs.
Proof.
  induction 1 as [|prev p ps f fs I N T R Rest IH]; intros L P F; cbn [number_fields]; [reflexivity|].
  inversion L as [|? ? L1 L2]; subst. inversion F as [|? ? F1 F2]; subst.
  assert (E : match p_id p with Some i => map_integer i | None => KOk (wraps 32 (prev + 1)) end = KOk (g_id f)).
  { unfold lexed_field in L1. destruct (p_id p) as [i|].
    - rewrite I in F1 |- *. apply map_integer_in; assumption.
    - f_equal. rewrite I in F1 |- *. apply wraps_id; [lia|]. change (2 ^ (32 - 1)) with 2147483648. lia. }
  rewrite E. cbn [kbind]. rewrite IH by (assumption || lia). cbn [kbind]. f_equal. f_equal.
  destruct f as [a b c e]; cbn in *. subst. f_equal. destruct R as [->|[-> ->]]; reflexivity.
Qed.
Lemma number_fields_ok ps : forall prev fs,
  number_fields prev ps = KOk fs -> Forall lexed_field ps -> -2147483648 <= prev <= 2147483647 ->
  Forall short_id fs -> numbered prev ps fs.
Proof.
  induction ps as [|p ps IH]; cbn [number_fields]; intros prev fs H L P F.
  - injection H as <-. constructor.
  - inversion L as [|? ? L1 L2]; subst. unfold lexed_field in L1.
    destruct (match p_id p with Some i => map_integer i | None => KOk (wraps 32 (prev + 1)) end) as [cur|] eqn:E; cbn [kbind] in H; [|discriminate].
    destruct (number_fields cur ps) as [rest|] eqn:R; cbn [kbind] in H; [|discriminate].
    injection H as <-. inversion F as [|? ? F1 F2]; subst. unfold short_id in F1. cbn [g_id] in F1.
    constructor; cbn [g_id g_name g_type g_req]; try reflexivity.
    + destruct (p_id p) as [i|].
      * apply map_integer_ok in E; [lia|assumption].
      * injection E as <-. destruct (Z.eq_dec prev 2147483647) as [->|N]; [exfalso; apply (proj1 F1); reflexivity|].
        apply wraps_id; [lia|]. change (2 ^ (32 - 1)) with 2147483648. lia.
    + destruct (p_req p); auto.
    + apply IH; try assumption. lia.
Qed.
Lemma number_names prev ps : forall fs, number_fields prev ps = KOk fs -> map g_name fs = map p_name ps.
Proof.
  revert prev; induction ps as [|p ps IH]; cbn [number_fields]; intros prev fs H; [injection H as <-; reflexivity|].
  destruct (match p_id p with Some i => map_integer i | None => KOk (wraps 32 (prev + 1)) end) as [cur|]; cbn [kbind] in H; [|discriminate].
  destruct (number_fields cur ps) as [rest|] eqn:R; cbn [kbind] in H; [|discriminate].
  injection H as <-. cbn [map g_name]. f_equal. eauto.
Qed.
Lemma keyed_names (l : list gfield) : map fst (map (fun f => (g_name f, f)) l) = map g_name l.
Proof. rewrite map_map. reflexivity. Qed.
Lemma keyed_snd (l : list gfield) : map snd (map (fun f => (g_name f, f)) l) = l.
Proof. rewrite map_map. apply map_id. Qed.

Lemma map_fields_complete ps fs :
  Forall lexed_field ps -> NoDup (map p_name ps) -> numbered (-1) ps fs -> Forall (fun f => -2147483648 < g_id f <= 2147483647) fs ->
  map_fields ps = KOk fs.
Proof.
  intros L N Nu F. unfold map_fields. rewrite (number_fields_spec _ _ _ Nu L) by (assumption || lia). cbn [kbind].
  rewrite associate_distinct by (rewrite keyed_names, (numbered_names _ _ _ Nu); exact N). rewrite keyed_snd. reflexivity.
Qed.
Lemma map_fields_sound ps fs :
  Forall lexed_field ps -> NoDup (map p_name ps) -> map_fields ps = KOk fs -> Forall short_id fs -> numbered (-1) ps fs.
Proof.
  intros L N H F. unfold map_fields in H.
  destruct (number_fields (-1) ps) as [l|] eqn:E; cbn [kbind] in H; [|discriminate]. injection H as <-.
  rewrite associate_distinct in F |- * by (rewrite keyed_names, (number_names _ _ _ E); exact N). rewrite keyed_snd in F |- *.
  apply number_fields_ok; try assumption. lia.
Qed.
Lemma map_fields_names ps fs : map_fields ps = KOk fs -> NoDup (map g_name fs) /\ (forall n, In n (map g_name fs) <-> In n (map p_name ps)).
Proof.
  unfold map_fields. intros H. destruct (number_fields (-1) ps) as [l|] eqn:E; cbn [kbind] in H; [|discriminate]. injection H as <-.
  assert (K : map g_name (map snd (associate (map (fun f => (g_name f, f)) l))) = map fst (associate (map (fun f => (g_name f, f)) l))).
  { rewrite map_map. apply map_ext_in. intros [k f] I. apply associate_incl in I. apply in_map_iff in I. destruct I as (g & [= <- <-] & _). reflexivity. }
  rewrite K. split; [apply associate_nodup|]. intros n. rewrite associate_keys, keyed_names, (number_names _ _ _ E). reflexivity.
Qed.

(** * Emission *)
Lemma kmap_ok {A B} (f : A -> kotlin B) l bs : kmap f l = KOk bs -> Forall2 (fun a b => f a = KOk b) l bs.
Proof.
  revert bs; induction l as [|a l IH]; cbn [kmap]; intros bs H; [injection H as <-; constructor|].
  destruct (f a) as [b|] eqn:E; cbn [kbind] in H; [|discriminate]. destruct (kmap f l) as [bs'|]; cbn [kbind] in H; [|discriminate].
  injection H as <-. constructor; auto.
Qed.
Lemma rust_fields_names doc d (g : gfield -> freq) (h : string -> string) fs out :
  kmap (fun f => let! t := rust_type doc d (g_type f) (g f) in KOk (h (g_name f), t)) fs = KOk out ->
  map fst out = map (fun f => h (g_name f)) fs.
Proof.
  intros H. apply kmap_ok in H. induction H as [|f o fs out E H IH]; cbn [map]; [reflexivity|]. rewrite IH. f_equal.
  destruct (rust_type doc d (g_type f) (g f)); cbn [kbind] in E; [|discriminate]. injection E as <-. reflexivity.
Qed.
Lemma rust_identifier_inj a b : a <> "r#type"%string -> b <> "r#type"%string -> rust_identifier a = rust_identifier b -> a = b.
Proof. unfold rust_identifier. intros A B. destruct (String.eqb_spec a "type"), (String.eqb_spec b "type"); subst; congruence. Qed.
Lemma generate_struct doc d n ps fs item :
  map_fields ps = KOk fs -> generate doc d (n, StructDef fs) = KOk item ->
  exists l fields i, item = IStruct (rust_identifier n) l fields i /\
    map fst fields = map (fun f => rust_identifier (g_name f)) fs /\
    i_arms i = map (fun f => (g_id f, rust_identifier (g_name f))) fs /\
    i_writes i = map (fun f => (g_id f, rust_identifier (g_name f))) fs /\
    i_required i = map (fun f => rust_identifier (g_name f)) (filter required fs).
Proof.
  intros _ H. cbn [generate] in H.
  destruct (definition_needs_lifetime doc d (Some (StructDef fs))) as [l|]; cbn [kbind] in H; [|discriminate].
  destruct (kmap _ fs) as [out|] eqn:E; cbn [kbind] in H; [|discriminate]. injection H as <-.
  exists l, out. eexists. split; [reflexivity|]. split; [apply (rust_fields_names _ _ _ _ _ _ E)|]. cbn. auto.
Qed.
Lemma generate_union doc d n fs item :
  generate doc d (n, UnionDef fs) = KOk item ->
  exists l variants first i, item = IUnion n l variants first i /\ map fst variants = map g_name fs /\ In first (map g_name fs) /\
    i_arms i = map (fun f => (g_id f, g_name f)) fs /\
    i_writes i = map (fun f => (g_id f, g_name f)) fs.
Proof.
  intros H. cbn [generate] in H.
  destruct (definition_needs_lifetime doc d (Some (UnionDef fs))) as [l|]; cbn [kbind] in H; [|discriminate].
  destruct (kmap _ fs) as [out|] eqn:E; cbn [kbind] in H; [|discriminate].
  destruct fs as [|f fs]; [discriminate|]. injection H as <-.
  exists l, out. eexists. eexists. split; [reflexivity|]. split; [apply (rust_fields_names _ _ (fun _ => REQUIRED) (fun s => s) _ _ E)|]. cbn. auto.
Qed.

(** * Lifetimes *)
Lemma find_in doc n def : find_definition doc n = Some def -> In (n, def) doc.
Proof.
  induction doc as [|[m e] doc IH]; cbn [find_definition]; [discriminate|].
  destruct (String.eqb_spec n m) as [->|N]; [intros [= ->]; left; reflexivity|right; auto].
Qed.
Lemma in_find doc n def : distinct doc -> In (n, def) doc -> find_definition doc n = Some def.
Proof.
  unfold distinct. induction doc as [|[m e] doc IH]; cbn [find_definition map fst]; intros D H; [destruct H|].
  inversion D; subst. destruct H as [[= -> ->]|H]; [rewrite String.eqb_refl; reflexivity|].
  destruct (String.eqb_spec n m) as [->|N]; [|auto]. exfalso. apply (in_map fst) in H. cbn [fst] in H. auto.
Qed.
Lemma kany_ok {A} (f : A -> kotlin bool) l b : kany f l = KOk b ->
  (b = true /\ exists a, In a l /\ f a = KOk true) \/ (b = false /\ forall a, In a l -> f a = KOk false).
Proof.
  induction l as [|a l IH]; cbn [kany]; intros H; [injection H as <-; right; split; [reflexivity|intros a []]|].
  destruct (f a) as [[]|] eqn:E; cbn [kbind] in H; [| |discriminate].
  - injection H as <-. left. split; [reflexivity|]. exists a. split; [left; reflexivity|exact E].
  - destruct (IH H) as [[-> (a' & I & E')]|[-> All]].
    + left. split; [reflexivity|]. exists a'. split; [right; exact I|exact E'].
    + right. split; [reflexivity|]. intros a' [<-|I]; auto.
Qed.
Lemma kany_total {A} (f : A -> kotlin bool) l : (forall a, In a l -> exists b, f a = KOk b) -> exists b, kany f l = KOk b.
Proof.
  induction l as [|a l IH]; cbn [kany]; intros H; [eauto|].
  destruct (H a (or_introl eq_refl)) as [b ->]. cbn [kbind]. destruct b; [eauto|]. apply IH. intros a' I. apply H. right. exact I.
Qed.
(** One step of reachability through a name. *)
Lemma borrows_named doc n : distinct doc ->
  (borrows doc (Named n) <-> exists f, In f (lifetime_fields (find_definition doc n)) /\ borrows doc (g_type f)).
Proof.
  intros D. split.
  - inversion 1 as [| | | | | |? fs f I J B|? fs f I J B]; subst; rewrite (in_find _ _ _ D I); exists f; auto.
  - intros (f & J & B). destruct (find_definition doc n) as [[| |fs|fs]|] eqn:E; try (destruct J; fail); apply find_in in E.
    + eapply borrows_struct; [exact E|exact J|exact B].
    + eapply borrows_union; [exact E|exact J|exact B].
Qed.
Lemma uses_named doc n m : distinct doc ->
  (uses doc n m <-> exists f, In f (lifetime_fields (find_definition doc n)) /\ mentions (g_type f) m).
Proof.
  intros D. split.
  - inversion 1 as [? fs f ? I J B|? fs f ? I J B]; subst; rewrite (in_find _ _ _ D I); exists f; auto.
  - intros (f & J & B). destruct (find_definition doc n) as [[| |fs|fs]|] eqn:E; try (destruct J; fail); apply find_in in E.
    + eapply uses_struct; [exact E|exact J|exact B].
    + eapply uses_union; [exact E|exact J|exact B].
Qed.
Lemma needs_correct doc : distinct doc -> forall d t b, field_needs_lifetime doc d t = KOk b -> (b = true <-> borrows doc t).
Proof.
  intros D. induction d as [|d IH]; intros t b H; cbn [field_needs_lifetime] in H; [discriminate|]. destruct t as [k|n|t|t|k v].
  - injection H as <-. destruct k; (split; [discriminate || constructor|reflexivity || inversion 1]).
  - rewrite borrows_named by exact D. apply kany_ok in H. destruct H as [[-> (f & I & E)]|[-> All]].
    + split; [intros _; exists f; split; [exact I|apply (IH _ _ E); reflexivity]|reflexivity].
    + split; [discriminate|]. intros (f & I & B). apply (IH _ _ (All f I)) in B. discriminate.
  - rewrite (IH _ _ H). split; [apply borrows_set|inversion 1; assumption].
  - rewrite (IH _ _ H). split; [apply borrows_list|inversion 1; assumption].
  - destruct (field_needs_lifetime doc d k) as [[]|] eqn:E; cbn [kbind] in H; [| |discriminate].
    + injection H as <-. split; [intros _; apply borrows_key; apply (IH _ _ E); reflexivity|reflexivity].
    + rewrite (IH _ _ H). split; [apply borrows_value|]. inversion 1 as [| | | |? ? B|? ? B| |]; subst; [|exact B]. apply (IH _ _ E) in B. discriminate.
Qed.
Lemma definition_needs_correct doc : distinct doc -> forall d n def b, In (n, def) doc ->
  definition_needs_lifetime doc d (Some def) = KOk b -> (b = true <-> borrows doc (Named n)).
Proof.
  intros D d n def b I H. apply (needs_correct doc D (S d)). cbn [field_needs_lifetime]. rewrite (in_find _ _ _ D I). exact H.
Qed.
Lemma kany_throw {A} (f : A -> kotlin bool) l e : kany f l = KThrow e -> exists a, In a l /\ f a = KThrow e.
Proof.
  induction l as [|a l IH]; cbn [kany]; intros H; [discriminate|].
  destruct (f a) as [[]|] eqn:E; cbn [kbind] in H; [discriminate| |].
  - destruct (IH H) as (a' & I & E'). exists a'. split; [right; exact I|exact E'].
  - exists a. split; [left; reflexivity|congruence].
Qed.
(** The only way to fail is to run out of stack. *)
Lemma needs_throw doc : forall d t e, field_needs_lifetime doc d t = KThrow e -> e = StackOverflow.
Proof.
  induction d as [|d IH]; intros t e H; cbn [field_needs_lifetime] in H; [congruence|]. destruct t as [k|n|t|t|k v]; eauto.
  - discriminate.
  - apply kany_throw in H. destruct H as (a & _ & H). eauto.
  - destruct (field_needs_lifetime doc d k) as [[]|] eqn:E; cbn [kbind] in H; [discriminate| |]; eauto. injection H as <-. eauto.
Qed.
(** More stack does not change the answer. *)
Lemma kany_mono {A} (f g : A -> kotlin bool) l b : (forall a b, In a l -> f a = KOk b -> g a = KOk b) -> kany f l = KOk b -> kany g l = KOk b.
Proof.
  induction l as [|a l IH]; cbn [kany]; intros F H; [exact H|].
  destruct (f a) as [b'|] eqn:E; cbn [kbind] in H; [|discriminate]. rewrite (F a b' (or_introl eq_refl) E). cbn [kbind].
  destruct b'; [exact H|]. apply IH; [|exact H]. intros a' b' I. apply F. right. exact I.
Qed.
Lemma needs_mono doc : forall d t b, field_needs_lifetime doc d t = KOk b -> forall d', (d <= d')%nat -> field_needs_lifetime doc d' t = KOk b.
Proof.
  induction d as [|d IH]; intros t b H d' L; cbn [field_needs_lifetime] in H; [discriminate|].
  destruct d' as [|d']; [lia|]. cbn [field_needs_lifetime]. assert (L' : (d <= d')%nat) by lia. destruct t as [k|n|t|t|k v]; eauto.
  - revert H. apply kany_mono. intros f b' _ E. eapply IH; eassumption.
  - destruct (field_needs_lifetime doc d k) as [b'|] eqn:E; cbn [kbind] in H; [|discriminate].
    rewrite (IH _ _ E d' L'). cbn [kbind]. destruct b'; eauto.
Qed.

(** ** Acyclic documents *)
Definition settles doc t := exists d, forall d', (d <= d')%nat -> exists b, field_needs_lifetime doc d' t = KOk b.
Lemma settles_from doc t d b : field_needs_lifetime doc d t = KOk b -> settles doc t.
Proof. intros H. exists d. intros d' L. exists b. eapply needs_mono; eassumption. Qed.
Lemma common_bound doc (l : list gfield) : (forall f, In f l -> settles doc (g_type f)) ->
  exists d, forall f, In f l -> exists b, field_needs_lifetime doc d (g_type f) = KOk b.
Proof.
  induction l as [|f l IH]; intros H; [exists O; intros f []|].
  destruct IH as [d1 D1]; [intros g I; apply H; right; exact I|].
  destruct (H f (or_introl eq_refl)) as [d2 D2]. exists (d1 + d2)%nat. intros g [<-|I]; [apply D2; lia|].
  destruct (D1 g I) as [b E]. exists b. eapply needs_mono; [exact E|lia].
Qed.
Lemma settles_type doc t : (forall n, mentions t n -> settles doc (Named n)) -> settles doc t.
Proof.
  induction t as [k|n|t IH|t IH|k IHk v IHv]; intros H.
  - apply (settles_from doc (Base k) 1 _ eq_refl).
  - apply H. constructor.
  - destruct IH as [d D]; [intros n M; apply H; constructor; exact M|]. exists (S d). intros d' L. destruct d' as [|d']; [lia|]. cbn [field_needs_lifetime]. apply D. lia.
  - destruct IH as [d D]; [intros n M; apply H; constructor; exact M|]. exists (S d). intros d' L. destruct d' as [|d']; [lia|]. cbn [field_needs_lifetime]. apply D. lia.
  - destruct IHk as [d D]; [intros n M; apply H; constructor; exact M|]. destruct IHv as [e E]; [intros n M; apply H; apply mentions_value; exact M|].
    exists (S (d + e)). intros d' L. destruct d' as [|d']; [lia|]. cbn [field_needs_lifetime].
    destruct (D d' ltac:(lia)) as [b ->]. cbn [kbind]. destruct b; [eauto|]. apply E. lia.
Qed.
Lemma settles_name doc n : (forall f, In f (lifetime_fields (find_definition doc n)) -> settles doc (g_type f)) -> settles doc (Named n).
Proof.
  intros H. destruct (common_bound doc _ H) as [d D].
  destruct (kany_total (fun f => field_needs_lifetime doc d (g_type f)) _ D) as [b E]. apply (settles_from doc (Named n) (S d) b). exact E.
Qed.
Lemma acyclic_settles doc : distinct doc -> acyclic doc -> forall t, settles doc t.
Proof.
  intros D A t. apply settles_type. intros n _.
  (* [seen]: the path that led to [n] *)
  enough (G : forall k seen n, (List.length doc - List.length seen <= k)%nat -> NoDup seen -> incl seen (map fst doc) ->
             (forall s, In s seen -> clos_trans string (uses doc) s n) -> settles doc (Named n)).
  { apply (G (List.length doc) [] n); [cbn; lia|constructor|intros x []|intros x []]. }
  clear n. induction k as [|k IH]; intros seen n K N Inc P.
  - assert (Fresh : ~ In n seen) by (intros I; exact (A n (P n I))).
    apply settles_name. intros f F. exfalso.
    assert (InDoc : In n (map fst doc)).
    { destruct (find_definition doc n) as [def|] eqn:E; [|destruct F]. apply find_in in E. apply (in_map fst) in E. exact E. }
    assert (Len : (List.length (n :: seen) <= List.length (map fst doc))%nat).
    { apply NoDup_incl_length; [constructor; assumption|]. intros x [<-|X]; auto. }
    rewrite map_length in Len. cbn [List.length] in Len. lia.
  - assert (Fresh : ~ In n seen) by (intros I; exact (A n (P n I))).
    apply settles_name. intros f F. apply settles_type. intros m M.
    assert (U : uses doc n m) by (apply uses_named; [exact D|exists f; auto]).
    assert (InDoc : In n (map fst doc)).
    { destruct (find_definition doc n) as [def|] eqn:E; [|destruct F]. apply find_in in E. apply (in_map fst) in E. exact E. }
    apply (IH (n :: seen)).
    + cbn [List.length]. lia.
    + constructor; assumption.
    + intros x [<-|X]; auto.
    + intros s [<-|S]; [apply t_step; exact U|]. eapply t_trans; [apply P; exact S|apply t_step; exact U].
Qed.

(** ** Cyclic documents *)
Lemma needs_false_mentions doc : forall d t, field_needs_lifetime doc d t = KOk false -> forall n, mentions t n ->
  exists d', (d' <= d)%nat /\ field_needs_lifetime doc d' (Named n) = KOk false.
Proof.
  induction d as [|d IH]; intros t H n M; [discriminate|].
  destruct M as [n|t n M|t n M|k v n M|k v n M]; [exists (S d); auto| | | |]; cbn [field_needs_lifetime] in H.
  - destruct (IH _ H _ M) as (d' & L & E). exists d'. split; [lia|exact E].
  - destruct (IH _ H _ M) as (d' & L & E). exists d'. split; [lia|exact E].
  - destruct (field_needs_lifetime doc d k) as [[]|] eqn:E; cbn [kbind] in H; try discriminate.
    destruct (IH _ E _ M) as (d' & L & E'). exists d'. split; [lia|exact E'].
  - destruct (field_needs_lifetime doc d k) as [[]|] eqn:E; cbn [kbind] in H; try discriminate.
    destruct (IH _ H _ M) as (d' & L & E'). exists d'. split; [lia|exact E'].
Qed.
Lemma needs_false_uses doc : distinct doc -> forall d n m, field_needs_lifetime doc d (Named n) = KOk false -> uses doc n m ->
  exists d', (d' < d)%nat /\ field_needs_lifetime doc d' (Named m) = KOk false.
Proof.
  intros D [|d] n m H U; [discriminate|]. cbn [field_needs_lifetime] in H. apply (uses_named _ _ _ D) in U. destruct U as (f & I & M).
  apply kany_ok in H. destruct H as [[X _]|[_ All]]; [discriminate|].
  destruct (needs_false_mentions _ _ _ (All f I) _ M) as (d' & L & E). exists d'. split; [lia|exact E].
Qed.
Lemma needs_false_trans doc : distinct doc -> forall n m, clos_trans string (uses doc) n m -> forall d, field_needs_lifetime doc d (Named n) = KOk false ->
  exists d', (d' < d)%nat /\ field_needs_lifetime doc d' (Named m) = KOk false.
Proof.
  intros D n m P. induction P as [n m U|n k m P1 IH1 P2 IH2]; intros d H.
  - eapply needs_false_uses; eassumption.
  - destruct (IH1 _ H) as (d1 & L1 & H1). destruct (IH2 _ H1) as (d2 & L2 & H2). exists d2. split; [lia|exact H2].
Qed.
Lemma cycle_never_false doc : distinct doc -> forall m, clos_trans string (uses doc) m m -> forall d, field_needs_lifetime doc d (Named m) <> KOk false.
Proof.
  intros D m C d. induction d as [d IH] using lt_wf_ind. intros H.
  destruct (needs_false_trans doc D m m C d H) as (d' & L & H'). exact (IH d' L H').
Qed.
Lemma cyclic_overflows doc : distinct doc -> forall t n m, ~ borrows doc t -> mentions t n -> clos_refl_trans string (uses doc) n m ->
  clos_trans string (uses doc) m m -> forall d, field_needs_lifetime doc d t = KThrow StackOverflow.
Proof.
  intros D t n m B M P C d. destruct (field_needs_lifetime doc d t) as [b|e] eqn:E.
  - exfalso. destruct b; [apply B, (needs_correct doc D _ _ _ E); reflexivity|].
    destruct (needs_false_mentions _ _ _ E _ M) as (d1 & _ & E1). clear M. apply clos_rt_rt1n in P.
    revert d1 E1. induction P as [|n k m U P IH]; intros d1 E1; [exact (cycle_never_false doc D _ C d1 E1)|].
    destruct (needs_false_uses doc D _ _ _ E1 U) as (d2 & _ & E2). exact (IH C d2 E2).
  - rewrite (needs_throw _ _ _ _ E). reflexivity.
Qed.

(** ** Annotations in generated types *)
Lemma annotation doc : distinct doc -> forall d t r n l, rust_field_type doc d t = KOk r -> occurs r n l -> In n (map fst doc) -> (l = true <-> borrows doc (Named n)).
Proof.
  intros D d. induction t as [k|m|t IH|t IH|k IHk v IHv]; cbn [rust_field_type]; intros r n l H O I.
  - injection H as <-. destruct k; inversion O.
  - destruct (find_definition doc m) as [def|] eqn:F.
    + destruct (definition_needs_lifetime doc d (Some def)) as [b|] eqn:E; cbn [kbind] in H; [|discriminate]. injection H as <-. inversion O; subst.
      eapply definition_needs_correct; [exact D|apply find_in; exact F|exact E].
    + injection H as <-. inversion O; subst. exfalso. apply in_map_iff in I. destruct I as ([n' def] & <- & I). cbn [fst] in F. rewrite (in_find _ _ _ D I) in F. discriminate.
  - destruct (rust_field_type doc d t) as [r'|] eqn:E; cbn [kbind] in H; [|discriminate]. injection H as <-. inversion O; subst. eauto.
  - destruct (rust_field_type doc d t) as [r'|] eqn:E; cbn [kbind] in H; [|discriminate]. injection H as <-. inversion O; subst. eauto.
  - destruct (rust_field_type doc d k) as [k'|] eqn:Ek; cbn [kbind] in H; [|discriminate]. destruct (rust_field_type doc d v) as [v'|] eqn:Ev; cbn [kbind] in H; [|discriminate].
    injection H as <-. inversion O; subst; eauto.
Qed.
Lemma rust_type_annotation doc d t q r n l : distinct doc -> rust_type doc d t q = KOk r -> occurs r n l -> In n (map fst doc) -> (l = true <-> borrows doc (Named n)).
Proof.
  intros D H O I. unfold rust_type in H. destruct (rust_field_type doc d t) as [r'|] eqn:E; cbn [kbind] in H; [|discriminate]. injection H as <-.
  eapply annotation; [exact D|exact E| |exact I]. destruct q; [inversion O; assumption|inversion O; assumption|exact O].
Qed.
Lemma rust_fields_in doc d (g : gfield -> freq) (h : string -> string) fs out f t :
  kmap (fun f => let! t := rust_type doc d (g_type f) (g f) in KOk (h (g_name f), t)) fs = KOk out -> In (f, t) out ->
  exists x, rust_type doc d (g_type x) (g x) = KOk t.
Proof.
  intros K J. apply kmap_ok in K. induction K as [|x o fs' out' G K IH]; [destruct J|].
  destruct J as [->|J]; [|auto]. exists x. destruct (rust_type doc d (g_type x) (g x)) eqn:R; cbn [kbind] in G; [|discriminate]. congruence.
Qed.
Lemma item_annotation doc d n def item : distinct doc -> In (n, def) doc -> generate doc d (n, def) = KOk item ->
  (forall l, item_lifetime item = Some l -> (l = true <-> borrows doc (Named n))) /\
  (forall f t m l, In (f, t) (item_types item) -> occurs t m l -> In m (map fst doc) -> (l = true <-> borrows doc (Named m))).
Proof.
  intros D I H. cbn [generate] in H. destruct def as [t|cs|fs|fs].
  - destruct (rust_type doc d t REQUIRED) as [r|] eqn:E; cbn [kbind] in H; [|discriminate]. injection H as <-. split; [discriminate|].
    intros f t' m l [[= <- <-]|[]] O J. eapply rust_type_annotation; eassumption.
  - injection H as <-. split; [discriminate|intros ? ? ? ? []].
  - destruct (definition_needs_lifetime doc d (Some (StructDef fs))) as [l|] eqn:E; cbn [kbind] in H; [|discriminate].
    destruct (kmap _ fs) as [out|] eqn:K; cbn [kbind] in H; [|discriminate]. injection H as <-. split.
    + intros l' [= <-]. eapply definition_needs_correct; eassumption.
    + cbn [item_types]. intros f t m l' J O Jm. destruct (rust_fields_in _ _ _ _ _ _ _ _ K J) as (g & R). eapply rust_type_annotation; eassumption.
  - destruct (definition_needs_lifetime doc d (Some (UnionDef fs))) as [l|] eqn:E; cbn [kbind] in H; [|discriminate].
    destruct (kmap _ fs) as [out|] eqn:K; cbn [kbind] in H; [|discriminate]. destruct fs as [|f0 fs0]; [discriminate|]. injection H as <-. split.
    + intros l' [= <-]. eapply definition_needs_correct; eassumption.
    + cbn [item_types]. intros f t m l' J O Jm. destruct (rust_fields_in _ _ (fun _ => REQUIRED) (fun s => s) _ _ _ _ K J) as (g & R). eapply rust_type_annotation; eassumption.
Qed.
Lemma document_distinct ds doc : map_document ds = KOk doc -> distinct doc.
Proof. unfold map_document. destruct (kmap _ ds) as [l|]; cbn [kbind]; [|discriminate]. intros [= <-]. apply associate_nodup. Qed.

(** * Items of the impl *)
Lemma generated_items doc d nd item i : generate doc d nd = KOk item -> impl_of item = Some i -> i_items i = protocol_items.
Proof.
  destruct nd as [n [t|cs|fs|fs]]; cbn [generate]; intros H I.
  - destruct (rust_type doc d t REQUIRED); cbn [kbind] in H; [|discriminate]. injection H as <-. discriminate.
  - injection H as <-. injection I as <-. reflexivity.
  - destruct (definition_needs_lifetime doc d (Some (StructDef fs))); cbn [kbind] in H; [|discriminate].
    destruct (kmap _ fs); cbn [kbind] in H; [|discriminate]. injection H as <-. injection I as <-. reflexivity.
  - destruct (definition_needs_lifetime doc d (Some (UnionDef fs))); cbn [kbind] in H; [|discriminate].
    destruct (kmap _ fs); cbn [kbind] in H; [|discriminate]. destruct fs; [discriminate|]. injection H as <-. injection I as <-. reflexivity.
Qed.
Lemma generated_field_type doc d n def item i : generate doc d (n, def) = KOk item -> impl_of item = Some i ->
  i_field_type i = match def with EnumDef _ => 5 | _ => 12 end.
Proof.
  destruct def as [t|cs|fs|fs]; cbn [generate]; intros H I.
  - destruct (rust_type doc d t REQUIRED); cbn [kbind] in H; [|discriminate]. injection H as <-. discriminate.
  - injection H as <-. injection I as <-. reflexivity.
  - destruct (definition_needs_lifetime doc d (Some (StructDef fs))); cbn [kbind] in H; [|discriminate].
    destruct (kmap _ fs); cbn [kbind] in H; [|discriminate]. injection H as <-. injection I as <-. reflexivity.
  - destruct (definition_needs_lifetime doc d (Some (UnionDef fs))); cbn [kbind] in H; [|discriminate].
    destruct (kmap _ fs); cbn [kbind] in H; [|discriminate]. destruct fs; [discriminate|]. injection H as <-. injection I as <-. reflexivity.
Qed.
Lemma never_implements doc d nd item i : generate doc d nd = KOk item -> impl_of item = Some i ->
  In ("fill_thrift"%string, false) trait_items /\ ~ In "fill_thrift"%string (i_items i) /\
  In ("write_thrift"%string, false) trait_items /\ ~ In "write_thrift"%string (i_items i) /\
  ~ implements_trait i.
Proof.
  intros H I. pose proof (generated_items _ _ _ _ _ H I) as E.
  assert (A : ~ In "fill_thrift"%string (i_items i)) by (rewrite E; cbn; intuition discriminate).
  assert (B : ~ In "write_thrift"%string (i_items i)) by (rewrite E; cbn; intuition discriminate).
  split; [cbn; auto 10|]. split; [exact A|]. split; [cbn; auto 10|]. split; [exact B|].
  intros [All _]. apply A, All. cbn. auto 10.
Qed.
Lemma has_field_type doc d nd item i : generate doc d nd = KOk item -> impl_of item = Some i -> In "FIELD_TYPE"%string (i_items i).
Proof. intros H I. rewrite (generated_items _ _ _ _ _ H I). left. reflexivity. Qed.
(** * Statements *)
Lemma generated_ids ps fs :
  Forall lexed_field ps -> NoDup (map p_name ps) -> numbered (-1) ps fs -> Forall short_id fs ->
  map_definition (PStruct ps) = KOk (StructDef fs) /\ map_definition (PUnion ps) = KOk (UnionDef fs) /\
  forall doc d n item, generate doc d (n, StructDef fs) = KOk item \/ generate doc d (n, UnionDef fs) = KOk item -> emits n fs item.
Proof.
  intros L N Nu F.
  assert (M : map_fields ps = KOk fs).
  { apply map_fields_complete; try assumption. eapply Forall_impl; [|exact F]. unfold short_id. intros. lia. }
  cbn [map_definition]. rewrite M. split; [reflexivity|]. split; [reflexivity|]. intros doc d n item [H|H].
  - left. eapply generate_struct; eassumption.
  - right. eapply generate_union; eassumption.
Qed.
Lemma numbered_exists ps : forall prev, exists fs, numbered prev ps fs.
Proof.
  induction ps as [|p ps IH]; intros prev; [exists []; constructor|].
  set (z := match p_id p with Some i => integer_value i | None => prev + 1 end).
  destruct (IH z) as [fs N].
  exists ({| g_id := z; g_req := match p_req p with Some r => r | None => DEFAULT end; g_name := p_name p; g_type := p_type p |} :: fs).
  constructor; cbn [g_id g_name g_type g_req]; try reflexivity; [destruct (p_req p); auto|exact N].
Qed.
Lemma numbered_unique prev ps fs : numbered prev ps fs -> forall gs, numbered prev ps gs -> gs = fs.
Proof.
  induction 1 as [|prev p ps f fs I N T R Rest IH]; intros gs G; inversion G as [|? ? ? g gs' I' N' T' R' Rest']; subst; [reflexivity|].
  assert (Eid : g_id g = g_id f) by congruence. rewrite Eid in Rest'. rewrite (IH _ Rest'). f_equal.
  destruct f, g; cbn in *. subst. f_equal. destruct R as [R|[R1 R2]], R' as [R'|[R1' R2']]; congruence.
Qed.
Lemma field_lost : exists ps gs fs, Forall lexed_field ps /\ numbered (-1) ps gs /\ Forall short_id gs /\ NoDup (map g_id gs) /\
  map_definition (PStruct ps) = KOk (StructDef fs) /\ List.length gs = 2%nat /\ List.length fs = 1%nat.
Proof.
  exists [Build_pfield None None "a" (Base I32); Build_pfield None None "a" (Base STRING)].
  exists [Build_gfield 0 DEFAULT "a" (Base I32); Build_gfield 1 DEFAULT "a" (Base STRING)].
  exists [Build_gfield 1 DEFAULT "a" (Base STRING)].
  split; [repeat constructor|]. split; [repeat (constructor; cbn; auto)|]. split; [repeat constructor; cbn; lia|].
  split; [repeat constructor; cbn; intuition lia|]. repeat split.
Qed.
