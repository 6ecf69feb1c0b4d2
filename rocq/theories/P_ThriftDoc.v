(** Which documents have a text, and what their texts have in common. *)
From Verif Require Import Base ErrorName P_ErrorName Generator ParquetIdl ThriftLex ThriftParse ParquetThrift SpecThrift P_ThriftLex P_ThriftParse.
Open Scope Z_scope.
Open Scope list_scope.

(** * What is read is valid *)
Lemma dec_valid i ts : gr_integer i ts -> valid_integer i.
Proof.
  intros [s ds Hne H|neg vs cs Hne H]; (split; [exact Hne|]); [exact H|]. clear Hne. induction H as [|v c vs cs Hv _ IH]; constructor; [|exact IH]. unfold hex_value in Hv. lia.
Qed.
Lemma type_valid t ts : gr_type t ts -> wf ts -> valid_type t.
Proof. induction 1; intros Hw; cbn [app] in Hw; wfs; cbn [valid_type]; auto. Qed.
Lemma field_valid f ts : gr_field f ts -> wf ts -> valid_field f.
Proof.
  intros [id req n t is rs tys ds s Gid Gr Gt _ _] Hw. wfs. repeat split; cbn [p_id p_req p_name p_type].
  - intros i ->. inversion Gid; subst. eapply dec_valid; eassumption.
  - destruct Gr; discriminate.
  - match goal with H : well_formed (TId _) |- _ => apply H end.
  - match goal with H : well_formed (TId _) |- _ => apply H end.
  - eapply type_valid; eassumption.
Qed.
Lemma many_valid {A} (g : A -> list token -> Prop) (v : A -> Prop) : (forall a ts, g a ts -> wf ts -> v a) -> forall l ts, gr_many g l ts -> wf ts -> Forall v l.
Proof. intros Hg l ts. induction 1; intros Hw; constructor; wfs; eauto. Qed.
Lemma definition_valid nd ts : gr_definition nd ts -> wf ts -> valid_definition nd.
Proof.
  intros G Hw. destruct G; cbn [app] in Hw; wfs; (split; [cbn [fst]; match goal with H : well_formed (TId _) |- _ => exact H end|]); cbn [snd]; auto.
  - eapply type_valid; eassumption.
  - eapply many_valid; [|eassumption|assumption]. intros [m i] us Hg Hu. inversion Hg; subst. cbn [app] in Hu. wfs. split; [assumption|eapply dec_valid; eassumption].
  - eapply many_valid; [|eassumption|assumption]. exact field_valid.
  - eapply many_valid; [|eassumption|assumption]. exact field_valid.
Qed.
Lemma header_valid h ts : gr_header h ts -> wf ts -> valid_header h.
Proof. intros [] Hw; wfs; cbn; auto. Qed.
Lemma document_valid x ts : gr_document x ts -> wf ts -> valid_document x.
Proof.
  intros [hs ds h d Gh Gd] Hw. wfs. split; cbn [fst snd]; eapply many_valid; try eassumption; [exact header_valid|exact definition_valid].
Qed.

(** * What is valid can be written *)
Lemma integer_text_of i : valid_integer i -> exists ts, gr_integer i ts /\ wf ts.
Proof.
  destruct i as [s ds|neg ds]; intros [Hne H].
  - exists [TInteger (match s with NoSign => [] | Plus => text "+" | Minus => text "-" end ++ map (Z.add 48) ds)]. split; [constructor; assumption|].
    constructor; [|constructor]. eexists _, _. split; [reflexivity|]. split; [|split].
    + destruct s; cbv [sign_text]; auto.
    + destruct ds; [congruence|discriminate].
    + rewrite Forall_map. eapply Forall_impl; [|exact H]. intros d Hd. cbn beta in Hd. unfold digit_char. lia.
  - assert (Hc : exists cs, Forall2 hex_value ds cs /\ Forall hex_char cs).
    { clear Hne. induction H as [|d ds Hd _ (cs & IH1 & IH2)]; [exists []; split; constructor|].
      exists ((if d <=? 9 then 48 + d else 87 + d) :: cs). split; constructor; auto; unfold hex_value, hex_char, digit_char; destruct (Z.leb_spec d 9); lia. }
    destruct Hc as (cs & Hv & Hc). exists [THex ((if neg then text "-" else []) ++ text "0x" ++ cs)]. split; [constructor; assumption|].
    constructor; [|constructor]. eexists _, cs. split; [reflexivity|]. split; [destruct neg; auto|]. split; [|exact Hc].
    destruct Hv; [congruence|discriminate].
Qed.
Lemma wf_word s : In s words -> well_formed (T s).
Proof. intros H. left. exact H. Qed.
Ltac wfgoal := repeat (rewrite ?wf_app; cbn [app]); repeat first [assumption | apply Forall_nil | apply Forall_cons | apply conj];
  try assumption; try exact I; try (cbn; auto 30; fail).
Lemma type_text_of t : valid_type t -> exists ts, gr_type t ts /\ wf ts.
Proof.
  induction t as [b|n|e IH|e IH|k IHk v IHv]; cbn [valid_type]; intros H.
  - exists [T (base_name b)]. split; [constructor|]. constructor; [|constructor]. left. destruct b; cbn; auto 30.
  - exists [TId n]. split; [constructor|]. constructor; [exact H|constructor].
  - destruct (IH H) as (ts & G & Hw). exists ([T "set"] ++ [] ++ [T "<"] ++ ts ++ [T ">"]). split; [constructor; [constructor|exact G]|]. wfgoal.
  - destruct (IH H) as (ts & G & Hw). exists ([T "list"] ++ [] ++ [T "<"] ++ ts ++ [T ">"]). split; [constructor; [constructor|exact G]|]. wfgoal.
  - destruct H as [Hk Hv]. destruct (IHk Hk) as (ks & Gk & Hwk). destruct (IHv Hv) as (vs & Gv & Hwv).
    exists ([T "map"] ++ [] ++ [T "<"] ++ ks ++ [TComma] ++ vs ++ [T ">"]). split; [constructor; [constructor|exact Gk|exact Gv]|]. wfgoal.
Qed.
Lemma field_text_of f : valid_field f -> exists ts, gr_field f ts /\ wf ts.
Proof.
  destruct f as [id req n t]. intros (Hid & Hreq & Hn & Ht). cbn [p_id p_req p_name p_type] in *.
  destruct (type_text_of t Ht) as (tys & Gt & Hwt).
  assert (Hi : exists is, gr_id id is /\ wf is).
  { destruct id as [i|]; [|exists []; split; constructor]. destruct (integer_text_of i (Hid i eq_refl)) as (is & G & Hw).
    exists (is ++ [T ":"]). split; [constructor; exact G|]. wfgoal. }
  assert (Hr : exists rs, gr_req req rs /\ wf rs).
  { destruct req as [[]|]; [congruence|exists [T "optional"]|exists [T "required"]|exists []]; (split; [constructor|wfgoal]). }
  destruct Hi as (is & Gi & Hwi), Hr as (rs & Gr & Hwr). exists (is ++ rs ++ tys ++ [TId n] ++ [] ++ []). split; [constructor; auto; constructor|]. wfgoal.
Qed.
Lemma many_text_of {A} (g : A -> list token -> Prop) (v : A -> Prop) : (forall a, v a -> exists ts, g a ts /\ wf ts) -> forall l, Forall v l -> exists ts, gr_many g l ts /\ wf ts.
Proof.
  intros Hg l. induction 1 as [|a l Ha _ (ts & G & Hw)]; [exists []; split; constructor|]. destruct (Hg a Ha) as (us & Ga & Hu). exists (us ++ ts).
  split; [constructor; assumption|]. apply wf_app. auto.
Qed.
Lemma definition_text_of nd : valid_definition nd -> exists ts, gr_definition nd ts /\ wf ts.
Proof.
  destruct nd as [n d]. intros [Hn Hd]. cbn [fst snd] in *. destruct d as [|t|fs|fs|fs| |].
  - exists ([T "const"] ++ [TId n] ++ [TId n; T "="] ++ [TId n] ++ []). split; [apply (G_const n (Named n)); constructor|]. wfgoal.
  - destruct (type_text_of t Hd) as (ts & G & Hw). exists ([T "typedef"] ++ ts ++ [TId n]). split; [constructor; exact G|]. wfgoal.
  - destruct (many_text_of gr_enum_field (fun '(n, i) => valid_name n /\ valid_integer i)) with (l := fs) as (ts & G & Hw); [|exact Hd|].
    + intros [m i] [Hm Hi]. destruct (integer_text_of i Hi) as (is & G & Hw). exists ([TId m] ++ [T "="] ++ is ++ []). split; [constructor; [exact G|constructor]|]. wfgoal.
    + exists ([T "enum"; TId n; T "{"] ++ ts ++ [T "}"]). split; [constructor; exact G|]. wfgoal.
  - destruct (many_text_of gr_field valid_field field_text_of fs Hd) as (ts & G & Hw). exists ([T "struct"; TId n; T "{"] ++ ts ++ [T "}"]). split; [constructor; exact G|]. wfgoal.
  - destruct (many_text_of gr_field valid_field field_text_of fs Hd) as (ts & G & Hw). exists ([T "union"; TId n; T "{"] ++ ts ++ [T "}"]). split; [constructor; exact G|]. wfgoal.
  - exists ([T "exception"; TId n; T "{"] ++ [] ++ [T "}"]). split; [apply (G_exception n []); constructor|]. wfgoal.
  - exists ([T "service"; TId n] ++ [] ++ [T "{"] ++ [] ++ [T "}"]). split; [apply (G_service n [] []); constructor|]. wfgoal.
Qed.
Lemma header_text_of h : valid_header h -> exists ts, gr_header h ts /\ wf ts.
Proof.
  destruct h as [w|w|l n]; cbn [valid_header]; intros H.
  - exists [T "include"; TLiteral w]. split; [constructor|]. wfgoal.
  - exists [T "cpp_include"; TLiteral w]. split; [constructor|]. wfgoal.
  - destruct H as [[->|Hl] Hn].
    + exists [T "namespace"; T "*"; TId n]. split; [constructor|]. wfgoal.
    + exists [T "namespace"; TId l; TId n]. split; [constructor|]. wfgoal.
Qed.
Lemma document_text_of x : valid_document x -> exists ts, gr_document x ts /\ wf ts.
Proof.
  destruct x as [hs ds]. intros [Hh Hd]. cbn [fst snd] in *. destruct (many_text_of gr_header valid_header header_text_of hs Hh) as (h & Gh & Hwh).
  destruct (many_text_of gr_definition valid_definition definition_text_of ds Hd) as (d & Gd & Hwd). exists (h ++ d). split; [constructor; assumption|].
  apply wf_app. auto.
Qed.

(** * Texts *)
Theorem parse_iff s ts x : lex s = Some ts -> ((exists d, parse d ts = KOk x) <-> gr_document x ts).
Proof.
  intros H. apply lex_iff, munch_well_formed in H. split; [intros (d & E); exact (parse_sound d ts x H E)|]. intros G. exists (List.length ts). exact (parse_complete _ ts x G (le_n _)).
Qed.
Theorem unambiguous ts x y : wf ts -> gr_document x ts -> gr_document y ts -> x = y.
Proof.
  intros Hw Hx Hy. apply (parse_complete (List.length ts)) in Hx, Hy; auto. congruence.
Qed.
Theorem text_iff x : valid_document x <-> exists s ts, lex s = Some ts /\ forall d, (List.length ts <= d)%nat -> parse d ts = KOk x.
Proof.
  split.
  - intros H. destruct (document_text_of x H) as (ts & G & Hw). exists (spaced ts), ts. split; [apply layout_lex, spaced_layout, Hw|].
    intros d Hd. exact (parse_complete d ts x G Hd).
  - intros (s & ts & Hs & Hp). apply lex_iff, munch_well_formed in Hs. exact (document_valid x ts (parse_sound _ ts x Hs (Hp _ (le_n _))) Hs).
Qed.

(** * Headers *)
Lemma get_put {V} (m : list (string * V)) k v l : get (put m k v) l = if String.eqb l k then Some v else get m l.
Proof.
  induction m as [|[k' v'] m IH]; cbn [put get]; [reflexivity|]. destruct (String.eqb_spec k k') as [->|Hk]; cbn [get].
  - destruct (String.eqb l k'); reflexivity.
  - rewrite IH. destruct (String.eqb_spec l k') as [->|Hl]; [|reflexivity]. destruct (String.eqb_spec k' k); [congruence|reflexivity].
Qed.
Lemma map_header_snoc hs h : map_header (hs ++ [h]) = let! (ns, is) := map_header hs in
  match h with Namespace l n => KOk (put ns l n, is) | Include w => KOk (ns, is ++ [w]) | CppInclude _ => KThrow NotImplemented end.
Proof. unfold map_header. rewrite fold_left_app. reflexivity. Qed.
Lemma namespace_of_snoc l hs h o : namespace_of l hs o ->
  namespace_of l (hs ++ [h]) (match h with Namespace l' n => if String.eqb l l' then Some n else o | _ => o end).
Proof.
  intros H.
  assert (Hother : (forall n, h <> Namespace l n) -> namespace_of l (hs ++ [h]) o).
  { intros Hh. destruct H as [hs H|hs n hs' H].
    - constructor. intros n Hin. apply in_app_or in Hin as [Hin|[Hin|[]]]; [exact (H n Hin)|exact (Hh n Hin)].
    - rewrite <- app_assoc. cbn [app]. constructor. intros m Hin. apply in_app_or in Hin as [Hin|[Hin|[]]]; [exact (H m Hin)|exact (Hh m Hin)]. }
  destruct h as [w|w|l' n]; try (apply Hother; discriminate). destruct (String.eqb_spec l l') as [<-|Hl]; [constructor; intros m []|].
  apply Hother. intros m E. injection E as E _. congruence.
Qed.
Theorem map_header_ok hs : (forall w, ~ In (CppInclude w) hs) ->
  exists ns, map_header hs = KOk (ns, includes hs) /\ forall l, namespace_of l hs (get ns l).
Proof.
  induction hs as [|h hs IH] using rev_ind; intros Hc; [exists []; split; [reflexivity|]; intros l; constructor; intros n []|].
  destruct IH as (ns & E & Hn); [intros w Hin; apply (Hc w), in_or_app; auto|]. rewrite map_header_snoc, E. cbn [kbind].
  unfold includes. rewrite flat_map_app. fold (includes hs). destruct h as [w|w|l n]; cbn [flat_map app].
  - exists ns. split; [reflexivity|]. intros l. exact (namespace_of_snoc l hs (Include w) _ (Hn l)).
  - destruct (Hc w). apply in_or_app. right. left. reflexivity.
  - exists (put ns l n). rewrite app_nil_r. split; [reflexivity|]. intros m. rewrite get_put. exact (namespace_of_snoc m hs (Namespace l n) _ (Hn m)).
Qed.
Lemma map_header_throws hs e : map_header hs = KThrow e -> e = NotImplemented.
Proof.
  revert e. induction hs as [|h hs IH] using rev_ind; intros e; [discriminate|]. rewrite map_header_snoc. destruct (map_header hs) as [[ns is]|e']; cbn [kbind].
  - destruct h; try discriminate. congruence.
  - intros E. injection E as ->. apply IH. reflexivity.
Qed.
Theorem map_header_cpp hs w : In (CppInclude w) hs -> map_header hs = KThrow NotImplemented.
Proof.
  induction hs as [|h hs IH] using rev_ind; intros Hin; [destruct Hin|]. rewrite map_header_snoc. apply in_app_or in Hin as [Hin|[Hin|[]]]; [rewrite (IH Hin); reflexivity|].
  subst h. destruct (map_header hs) as [[ns is]|e] eqn:E; [reflexivity|]. apply map_header_throws in E as ->. reflexivity.
Qed.
Lemma map_header_no_cpp hs h : map_header hs = KOk h -> forall w, ~ In (CppInclude w) hs.
Proof. intros E w Hin. rewrite (map_header_cpp hs w Hin) in E. discriminate. Qed.
(** Which namespace is chosen *)
Theorem namespace_chosen hs ns is : map_header hs = KOk (ns, is) ->
  is = includes hs /\ rust_namespace hs (match get ns "rust" with Some n => Some n | None => get ns "*" end).
Proof.
  intros E. destruct (map_header_ok hs (map_header_no_cpp hs _ E)) as (ns' & E' & Hn). rewrite E in E'. injection E' as <- ->. split; [reflexivity|].
  pose proof (Hn "rust"%string) as H. destruct (get ns "rust"); [apply R_rust; exact H|apply R_any; [exact H|apply Hn]].
Qed.
Lemma namespace_of_unique l hs o o' : namespace_of l hs o -> namespace_of l hs o' -> o = o'.
Proof.
  assert (G : forall hs o, namespace_of l hs o -> o = fold_left (fun o h => match h with Namespace l' n => if String.eqb l l' then Some n else o | _ => o end) hs None).
  { clear. intros hs o [hs0 H|hs0 n hs' H].
    - induction hs0 as [|h hs0 IH] using rev_ind; [reflexivity|]. rewrite fold_left_app. cbn [fold_left]. rewrite <- IH by (intros n Hin; apply (H n), in_or_app; auto).
      destruct h as [w|w|l' n]; try reflexivity. destruct (String.eqb_spec l l') as [<-|]; [|reflexivity]. destruct (H n). apply in_or_app. right. left. reflexivity.
    - induction hs' as [|h hs' IH] using rev_ind.
      + rewrite fold_left_app. cbn [fold_left]. rewrite String.eqb_refl. reflexivity.
      + change (hs0 ++ Namespace l n :: hs' ++ [h]) with (hs0 ++ (Namespace l n :: hs') ++ [h]). rewrite app_assoc, fold_left_app. cbn [fold_left].
        rewrite <- IH by (intros m Hin; apply (H m), in_or_app; auto). destruct h as [w|w|l' m]; try reflexivity.
        destruct (String.eqb_spec l l') as [<-|]; [|reflexivity]. destruct (H m). apply in_or_app. right. left. reflexivity. }
  intros H1 H2. rewrite (G _ _ H1), (G _ _ H2). reflexivity.
Qed.
Theorem rust_namespace_unique hs o o' : rust_namespace hs o -> rust_namespace hs o' -> o = o'.
Proof.
  intros [hs1 n H1|hs1 o1 H1 H1'] H2; inversion H2; subst.
  - exact (namespace_of_unique "rust" _ _ _ H1 H).
  - pose proof (namespace_of_unique "rust" _ _ _ H1 H). discriminate.
  - pose proof (namespace_of_unique "rust" _ _ _ H1 H). discriminate.
  - exact (namespace_of_unique "*" _ _ _ H1' H0).
Qed.

(** An include becomes a use declaration of its quoted text. *)
Definition quote (c : Z) : Prop := c = 34 \/ c = 39.
Lemma text_unquoted s : forallb (fun c => negb ((c =? 34) || (c =? 39))) (text s) = true -> forall c, In c (text s) -> ~ quote c.
Proof. intros H c Hin Hq. rewrite forallb_forall in H. specialize (H c Hin). destruct Hq as [-> | ->]; discriminate. Qed.
Lemma use_line_unquoted l c : use_line l -> In c l -> ~ quote c.
Proof.
  intros (ps & _ & Hp & ->) Hin. apply in_app_or in Hin as [Hin|Hin]; [revert c Hin; apply text_unquoted; reflexivity|].
  apply in_app_or in Hin as [Hin|Hin]; [|revert c Hin; apply text_unquoted; reflexivity].
  apply in_flat_map in Hin as (p & Hip & Hin). apply in_app_or in Hin as [Hin|Hin]; [revert c Hin; apply text_unquoted; reflexivity|].
  rewrite Forall_forall in Hp. destruct (Hp p Hip) as (c0 & v & -> & Hc & Hv). rewrite Forall_forall in Hv. unfold quote, letter_char, digit_char in *.
  destruct Hin as [<-|Hin]; [lia|]. specialize (Hv c Hin). cbn beta in Hv. lia.
Qed.
Theorem include_line now hs h w : literal_text w -> In (Include w) hs -> map_header hs = KOk h ->
  exists p, In (text "use crate::" ++ p ++ w ++ text ";") (header_lines now h) /\ ~ use_line (text "use crate::" ++ p ++ w ++ text ";").
Proof.
  intros Hw Hin E. destruct h as [ns is]. destruct (namespace_chosen hs ns is E) as [-> _].
  exists (match (match get ns "rust" with Some n => Some n | None => get ns "*" end) with Some n => dots (text n) ++ text "::" | None => [] end). split.
  - unfold header_lines. apply in_or_app. right. apply in_or_app. right. apply in_or_app. left. apply in_map_iff. exists w. split; [reflexivity|].
    unfold includes. apply in_flat_map. exists (Include w). split; [exact Hin|left; reflexivity].
  - intros Hu. destruct Hw as (q & v & Hq & _ & ->). apply (use_line_unquoted _ q Hu); [|exact Hq].
    apply in_or_app. right. apply in_or_app. right. left. reflexivity.
Qed.
(** Loading depends on the tokens only. *)
Theorem load_layout d s s' ts : layout s ts -> layout s' ts -> load d s = load d s'.
Proof. intros H H'. unfold load. rewrite (layout_lex s ts H), (layout_lex s' ts H'). reflexivity. Qed.
(** * From the text to the document *)
Lemma kmap_throws {A B} (f : A -> kotlin B) l e : kmap f l = KThrow e -> exists a, In a l /\ f a = KThrow e.
Proof.
  induction l as [|a l IH]; [discriminate|]. cbn [kmap]. destruct (f a) as [b|e'] eqn:E; cbn [kbind].
  - destruct (kmap f l) as [bs|e']; [discriminate|]. intros H. injection H as ->. destruct (IH eq_refl) as (x & Hx & Ex). exists x. split; [right; exact Hx|exact Ex].
  - intros H. injection H as ->. exists a. split; [left; reflexivity|exact E].
Qed.
Lemma int_of_syntax z : int_of z <> KThrow Syntax.
Proof. unfold int_of. destruct (_ && _); discriminate. Qed.
Lemma map_integer_syntax i : map_integer i <> KThrow Syntax.
Proof.
  destruct i as [s ds|neg ds]; cbn [map_integer]; [apply int_of_syntax|]. pose proof (int_of_syntax (magnitude 16 ds)) as H.
  destruct (int_of (magnitude 16 ds)); cbn [kbind]; congruence.
Qed.
Lemma number_fields_syntax fs : forall c, number_fields c fs <> KThrow Syntax.
Proof.
  induction fs as [|f fs IH]; intros c; cbn [number_fields]; [discriminate|]. destruct (p_id f) as [i|].
  - pose proof (map_integer_syntax i) as H. destruct (map_integer i) as [c'|e]; cbn [kbind]; [|congruence].
    specialize (IH c'). destruct (number_fields c' fs); cbn [kbind]; congruence.
  - cbn [kbind]. specialize (IH (wraps 32 (c + 1))). destruct (number_fields _ fs); cbn [kbind]; congruence.
Qed.
Lemma map_definition_syntax d : map_definition d <> KThrow Syntax.
Proof.
  destruct d as [|t|fs|fs|fs| |]; cbn [map_definition]; try discriminate.
  - intros H. unfold map_enum_fields in H. destruct (kmap _ fs) as [l|e] eqn:E; [discriminate|]. injection H as ->.
    apply kmap_throws in E as ([n i] & _ & E). pose proof (map_integer_syntax i). destruct (map_integer i); cbn [kbind] in E; congruence.
  - unfold map_fields. pose proof (number_fields_syntax fs (-1)) as H. destruct (number_fields (-1) fs); cbn [kbind]; congruence.
  - unfold map_fields. pose proof (number_fields_syntax fs (-1)) as H. destruct (number_fields (-1) fs); cbn [kbind]; congruence.
Qed.
Lemma munch_length s ts : munch s ts -> (List.length ts <= List.length s)%nat.
Proof.
  induction 1 as [|g t rest ts _ Ht _ _ IH]; [cbn [List.length]; lia|]. rewrite !app_length. cbn [List.length].
  pose proof (spelling_nonempty t Ht) as Hne. destruct (spelling t); [congruence|]. cbn [List.length]. lia.
Qed.
Theorem load_iff d s h doc : (List.length s <= d)%nat ->
  load d s = KOk (h, doc) <-> exists ts hs ds, munch s ts /\ gr_document (hs, ds) ts /\ map_header hs = KOk h /\ map_document ds = KOk doc.
Proof.
  intros Hd. unfold load. split.
  - destruct (lex s) as [ts|] eqn:E; [|discriminate]. apply lex_iff in E. intros H. apply kbind_ok in H as ([hs ds] & Hp & H).
    apply kbind_ok in H as (h' & Hh & H). apply kbind_ok in H as (doc' & Hdoc & H). injection H as -> ->.
    exists ts, hs, ds. split; [exact E|]. split; [exact (parse_sound d ts _ (munch_well_formed s ts E) Hp)|]. auto.
  - intros (ts & hs & ds & Hm & G & Hh & Hdoc). rewrite (proj2 (lex_iff s ts) Hm). pose proof (munch_length s ts Hm).
    rewrite (parse_complete d ts _ G) by lia. cbn [kbind]. rewrite Hh. cbn [kbind]. rewrite Hdoc. reflexivity.
Qed.
Theorem load_syntax d s : (List.length s <= d)%nat ->
  load d s = KThrow Syntax <-> ~ exists ts x, munch s ts /\ gr_document x ts.
Proof.
  intros Hd. unfold load. destruct (lex s) as [ts|] eqn:E.
  - apply lex_iff in E. pose proof (munch_length s ts E) as Hlen. pose proof (munch_well_formed s ts E) as Hw.
    destruct (parse_decides d ts ltac:(lia)) as [Hp|((hs, ds) & Hp)]; rewrite Hp; cbn [kbind].
    + split; [intros _|reflexivity]. intros (ts' & x & Hm & G). apply lex_iff in Hm, E. rewrite E in Hm. injection Hm as <-.
      rewrite (parse_complete d ts x G) in Hp by lia. discriminate.
    + split.
      * intros H. exfalso. destruct (map_header hs) as [hm|e] eqn:Eh; cbn [kbind] in H; [|apply map_header_throws in Eh; congruence].
        destruct (map_document ds) as [doc|e] eqn:Ed; cbn [kbind] in H; [discriminate|]. injection H as ->. clear - Ed.
        unfold map_document in Ed. destruct (kmap _ ds) as [l|e] eqn:Ek; [discriminate|]. injection Ed as ->.
        apply kmap_throws in Ek as ([n df] & _ & Ek). destruct (map_definition df) eqn:Em; [discriminate|]. injection Ek as ->.
        exact (map_definition_syntax df Em).
      * intros H. destruct H. exists ts, (hs, ds). split; [exact E|]. exact (parse_sound d ts _ Hw Hp).
  - split; [|reflexivity]. intros _ (ts & x & Hm & _). apply lex_iff in Hm. congruence.
Qed.

(** * parquet.thrift *)
Definition parquet_thrift_text : list Z := List.concat (map (fun l => text l ++ [10]) parquet_thrift_lines).
Definition parquet_headers : list header := [Namespace "cpp" "parquet"; Namespace "java" "org.apache.parquet.format"].
Definition parsed (s : list Z) : kotlin (list header * list (string * pdefinition)) := match lex s with Some ts => parse 10 ts | None => syntax end.
Lemma parsed_ok s x : parsed s = KOk x -> exists ts, munch s ts /\ gr_document x ts.
Proof.
  unfold parsed. destruct (lex s) as [ts|] eqn:E; [|discriminate]. apply lex_iff in E. intros H. exists ts. split; [exact E|].
  exact (parse_sound 10 ts x (munch_well_formed s ts E) H).
Qed.
Lemma parquet_parsed : parsed parquet_thrift_text = KOk (parquet_headers, parquet_thrift).
Proof. vm_compute. reflexivity. Qed.
Theorem parquet_document : exists ts, munch parquet_thrift_text ts /\ gr_document (parquet_headers, parquet_thrift) ts.
Proof. exact (parsed_ok _ _ parquet_parsed). Qed.
Lemma parquet_mapped : exists doc, map_document parquet_thrift = KOk doc.
Proof. eexists. vm_compute. reflexivity. Qed.
Theorem parquet_loaded : exists doc, map_document parquet_thrift = KOk doc /\
  forall d, (List.length parquet_thrift_text <= d)%nat ->
  load d parquet_thrift_text = KOk (([("cpp", "parquet"); ("java", "org.apache.parquet.format")]%string, []), doc).
Proof.
  destruct parquet_mapped as (doc & E). exists doc. split; [exact E|]. intros d Hd. apply load_iff; [exact Hd|].
  destruct parquet_document as (ts & Hm & G). exists ts, parquet_headers, parquet_thrift. split; [exact Hm|]. split; [exact G|]. split; [reflexivity|exact E].
Qed.
