(** From documents to the generated text. *)
From Coq Require Import Ascii Sorted.
From Verif Require Import Base ErrorName P_ErrorName Generator SpecGenerator P_Generator ThriftLex ThriftParse SpecThrift P_ThriftLex P_ThriftParse P_ThriftDoc SchemaPrint SpecPrint P_Print GenText SpecGenText P_GenText.
From Verif Require Import Generator.
Open Scope Z_scope.
Open Scope list_scope.

(** * Names *)
Lemma identifier_dense n : identifier_text (text n) -> dense (text n).
Proof.
  intros (c & v & E & Hc & Hv). rewrite E. apply dense_chars; [discriminate|]. constructor.
  - unfold letter_char in Hc. lia.
  - apply Forall_impl with (2 := Hv). unfold letter_char, digit_char. intros; lia.
Qed.
Definition neat_field (f : gfield) : Prop := valid_name (g_name f) /\ valid_type (g_type f).
Definition neat (nd : string * definition) : Prop :=
  valid_name (fst nd) /\
  match snd nd with
  | TypeDef t => valid_type t
  | EnumDef cs => Forall (fun c => valid_name (fst c)) cs
  | StructDef fs | UnionDef fs => Forall neat_field fs
  end.
Lemma number_neat prev ps fs : number_fields prev ps = KOk fs -> Forall valid_field ps -> Forall neat_field fs.
Proof.
  intros E F. revert prev fs E. induction F as [|p ps (_ & _ & Vn & Vt) F IH]; cbn [number_fields]; intros prev fs E.
  - injection E as <-. constructor.
  - destruct (match p_id p with Some i => map_integer i | None => KOk (wraps 32 (prev + 1)) end) as [c|]; cbn [kbind] in E; [|discriminate].
    destruct (number_fields c ps) as [r|] eqn:R; cbn [kbind] in E; [|discriminate]. injection E as <-. constructor; [split; assumption|exact (IH _ _ R)].
Qed.
Lemma fields_neat ps fs : map_fields ps = KOk fs -> Forall valid_field ps -> Forall neat_field fs.
Proof.
  unfold map_fields. intros E F. destruct (number_fields (-1) ps) as [l|] eqn:N; cbn [kbind] in E; [|discriminate]. injection E as <-.
  pose proof (number_neat _ _ _ N F) as G. apply Forall_forall. intros f I. apply in_map_iff in I as ((k & f') & <- & I). apply associate_incl in I.
  apply in_map_iff in I as (x & [= <- <-] & I). rewrite Forall_forall in G. exact (G x I).
Qed.
Lemma definition_neat n p def : map_definition p = KOk def -> valid_definition (n, p) -> neat (n, def).
Proof.
  intros E (Vn & V). split; [exact Vn|]. cbn [snd fst] in *. destruct p as [|t|cs|fs|fs| |]; cbn [map_definition] in E; try discriminate.
  - injection E as <-. exact V.
  - unfold map_enum_fields in E. destruct (kmap _ cs) as [l|] eqn:K; cbn [kbind] in E; [|discriminate]. injection E as <-. apply Forall_forall. intros c I. apply associate_incl in I.
    apply kmap_ok in K. clear Vn. revert I. induction K as [|[m i] b cs l Q K IH]; [intros []|]. inversion V as [|? ? Vm Vr]; subst. cbv beta iota in Vm. destruct Vm as (Vm & _). intros [->|I]; [|exact (IH Vr I)].
    destruct (map_integer i); cbn [kbind] in Q; [|discriminate]. injection Q as <-. exact Vm.
  - destruct (map_fields fs) as [l|] eqn:K; cbn [kbind] in E; [|discriminate]. injection E as <-. exact (fields_neat _ _ K V).
  - destruct (map_fields fs) as [l|] eqn:K; cbn [kbind] in E; [|discriminate]. injection E as <-. exact (fields_neat _ _ K V).
Qed.
Lemma document_neat ds doc : map_document ds = KOk doc -> Forall valid_definition ds -> Forall neat doc.
Proof.
  unfold map_document. intros E V. destruct (kmap _ ds) as [l|] eqn:K; cbn [kbind] in E; [|discriminate]. injection E as <-. apply Forall_forall. intros nd I. apply associate_incl in I.
  apply kmap_ok in K. revert I. induction K as [|[m p] b ds l Q K IH]; [intros []|]. inversion V as [|? ? Vm Vr]; subst. intros [->|I]; [|exact (IH Vr I)].
  destruct (map_definition p) as [def|] eqn:D; cbn [kbind] in Q; [|discriminate]. injection Q as <-. exact (definition_neat _ _ _ D Vm).
Qed.

(** * Types *)
Lemma find_none doc n : find_definition doc n = None -> ~ In n (map fst doc).
Proof.
  induction doc as [|(m, def) doc IH]; cbn [find_definition map fst]; [intros _ []|]. destruct (String.eqb_spec n m) as [->|N]; [discriminate|].
  intros E [->|I]; [congruence|exact (IH E I)].
Qed.
Lemma borrows_declared doc n : borrows doc (Named n) -> In n (map fst doc).
Proof. intros B. inversion B as [| | | | | |? fs f I|? fs f I]; subst; apply (in_map fst) in I; exact I. Qed.
Lemma annotation_ok doc d n def b : distinct doc -> In (n, def) doc -> definition_needs_lifetime doc d (Some def) = KOk b -> lifetime doc n (annotation b).
Proof.
  intros D I E. pose proof (definition_needs_correct doc D d n def b I E) as H. destruct b; cbn [annotation]; constructor; [apply H; reflexivity|].
  intros B. apply H in B. discriminate.
Qed.
Lemma annotation_thin b : thin (annotation b).
Proof. destruct b; [|split; [intros []|constructor]]. apply thin_chars. repeat constructor; vm_compute; intuition discriminate. Qed.
Lemma type_spelled doc d : distinct doc -> forall t r, rust_field_type doc d t = KOk r -> spelled doc t (type_text r).
Proof.
  intros D. induction t as [b|n|t IH|t IH|k IHk v IHv]; cbn [rust_field_type]; intros r E.
  - injection E as <-. destruct b; cbn [type_text]; apply Sp_base; cbn; auto 9.
  - destruct (find_definition doc n) as [def|] eqn:F.
    + destruct (definition_needs_lifetime doc d (Some def)) as [l|] eqn:L; cbn [kbind] in E; [|discriminate]. injection E as <-. cbn [type_text]. constructor.
      exact (annotation_ok doc d n def l D (find_in _ _ _ F) L).
    + injection E as <-. cbn [type_text annotation]. constructor. constructor. intros B. exact (find_none _ _ F (borrows_declared _ _ B)).
  - destruct (rust_field_type doc d t); cbn [kbind] in E; [|discriminate]. injection E as <-. constructor. auto.
  - destruct (rust_field_type doc d t); cbn [kbind] in E; [|discriminate]. injection E as <-. constructor. auto.
  - destruct (rust_field_type doc d k); cbn [kbind] in E; [|discriminate]. destruct (rust_field_type doc d v); cbn [kbind] in E; [|discriminate]. injection E as <-. constructor; auto.
Qed.
Ltac thin_text := apply thin_chars; repeat constructor; vm_compute; intuition discriminate.
Lemma type_thin doc d t : valid_type t -> forall r, rust_field_type doc d t = KOk r -> thin (type_text r).
Proof.
  induction t as [b|n|t IH|t IH|k IHk v IHv]; cbn [rust_field_type valid_type]; intros V r E.
  - injection E as <-. destruct b; cbn [type_text]; thin_text.
  - assert (N : thin (text n)) by (apply dense_thin, identifier_dense, V). destruct (find_definition doc n) as [def|].
    + destruct (definition_needs_lifetime doc d (Some def)); cbn [kbind] in E; [|discriminate]. injection E as <-. cbn [type_text]. apply thin_app; [exact N|apply annotation_thin].
    + injection E as <-. cbn [type_text]. apply thin_app; [exact N|apply annotation_thin].
  - destruct (rust_field_type doc d t); cbn [kbind] in E; [|discriminate]. injection E as <-. cbn [type_text]. repeat apply thin_app; auto; thin_text.
  - destruct (rust_field_type doc d t); cbn [kbind] in E; [|discriminate]. injection E as <-. cbn [type_text]. repeat apply thin_app; auto; thin_text.
  - destruct V as (Vk & Vv). destruct (rust_field_type doc d k); cbn [kbind] in E; [|discriminate]. destruct (rust_field_type doc d v); cbn [kbind] in E; [|discriminate].
    injection E as <-. cbn [type_text]. repeat apply thin_app; auto; thin_text.
Qed.
Lemma typed_ok doc d q fs out : distinct doc -> typed doc d q fs = KOk out -> Forall neat_field fs ->
  clean out /\ map fst out = fs /\
  Forall2 (fun f s => exists t, spelled doc (g_type f) t /\ s = {| s_field := f; s_id := signed (g_id f); s_type := match q f with REQUIRED => t | _ => text "Option<" ++ t ++ text ">" end |})
    fs (map shows out).
Proof.
  intros D K F. apply kmap_ok in K. induction K as [|f b fs out E K IH]; [split; [intros it []|split; [reflexivity|constructor]]|].
  inversion F as [|? ? (Vn & Vt) Fr]; subst. destruct (IH Fr) as (C1 & C2 & C3).
  unfold rust_type in E. destruct (rust_field_type doc d (g_type f)) as [r|] eqn:R; cbn [kbind] in E; [|discriminate]. injection E as <-.
  pose proof (type_thin doc d (g_type f) Vt r R) as T. split; [|split].
  - intros it [<-|I]; [|exact (C1 it I)]. cbn [fst snd]. split; [apply identifier_dense, Vn|]. destruct (q f); cbn [type_text]; try exact T; repeat apply thin_app; trivial; thin_text.
  - cbn [map fst]. f_equal. exact C2.
  - cbn [map]. constructor; [|exact C3]. exists (type_text r). split; [exact (type_spelled doc d D _ _ R)|]. unfold shows. cbn [fst snd]. destruct (q f); reflexivity.
Qed.

Lemma Forall2_impl {A B} {P Q : A -> B -> Prop} {l m} : (forall a b, P a b -> Q a b) -> Forall2 P l m -> Forall2 Q l m.
Proof. intros H F. induction F; constructor; auto. Qed.

(** * Enums *)
Lemma sorted_by_value cs : by_value cs (sorted_by snd cs).
Proof.
  split.
  - induction cs as [|c cs IH]; cbn [sorted_by fold_right]; [constructor|]. change (fold_right (insert_by snd) [] cs) with (sorted_by snd cs). revert IH.
    generalize (sorted_by snd cs). clear cs. intros l A. induction A as [|b l F A IH]; cbn [insert_by]; [repeat constructor|].
    destruct (Z.leb_spec (snd c) (snd b)) as [L|L].
    + constructor; [|constructor; assumption]. constructor; [exact L|]. apply Forall_impl with (2 := F). intros; lia.
    + constructor; [|exact IH]. apply Forall_forall. intros x I. apply insert_in in I as [->|I]; [lia|]. rewrite Forall_forall in F. exact (F x I).
  - intros v. induction cs as [|c cs IH]; cbn [sorted_by fold_right]; [reflexivity|]. change (fold_right (insert_by snd) [] cs) with (sorted_by snd cs). cbn [filter]. rewrite <- IH. clear IH.
    generalize (sorted_by snd cs). clear cs. intros l. induction l as [|b l IH]; cbn [insert_by filter]; [reflexivity|].
    destruct (Z.leb_spec (snd c) (snd b)) as [L|L]; cbn [filter]; [reflexivity|]. rewrite IH.
    destruct (Z.eqb_spec (snd c) v), (Z.eqb_spec (snd b) v); try reflexivity. lia.
Qed.
Lemma constants_shown cs : Forall2 constant_shown cs (map (fun c : string * Z => (fst c, signed (snd c))) cs).
Proof. induction cs as [|c cs IH]; cbn [map]; constructor; [|exact IH]. split; [reflexivity|]. cbn [snd]. apply signed_numeral_ok. Qed.

(** * Definitions *)
Lemma code_appendln s r : code (appendln s ++ r) = code s ++ code r.
Proof. unfold appendln. rewrite <- app_assoc. cbn [app]. apply code_newline. Qed.
Lemma code_appendln_end s : code (appendln s) = code s.
Proof. apply code_last. Qed.
Theorem definition_prints doc d nd s : distinct doc -> In nd doc -> neat nd -> definition_text doc d nd = KOk s -> exists s', s = s' ++ [10] /\ prints doc nd (code s).
Proof.
  intros D I (Vn & V) E. destruct nd as (n, def). cbn [fst snd] in *. pose proof (identifier_dense n (proj1 Vn)) as Dn. pose proof (dense_escaped n Dn) as De. rewrite escaped_ok in De.
  unfold definition_text in E. destruct def as [t|cs|fs|fs].
  - unfold rust_type in E. destruct (rust_field_type doc d t) as [r|] eqn:R; cbn [kbind] in E; [|discriminate]. injection E as <-. eexists. split; [reflexivity|].
    rewrite code_appendln_end, (alias_code _ _ De (type_thin doc d t V r R)), <- escaped_ok. constructor. exact (type_spelled doc d D t r R).
  - injection E as <-. eexists. split; [unfold appendln; rewrite !app_assoc; reflexivity|]. rewrite !code_appendln, code_appendln_end. rewrite (enum_code n cs Dn).
    + econstructor; [apply constants_shown|apply sorted_by_value|apply constants_shown].
    + intros it J. rewrite Forall_forall in V. apply identifier_dense. exact (proj1 (V it J)).
  - destruct (definition_needs_lifetime doc d (Some (StructDef fs))) as [l|] eqn:L; cbn [kbind] in E; [|discriminate].
    destruct (typed doc d g_req fs) as [out|] eqn:T; cbn [kbind] in E; [|discriminate]. injection E as <-. eexists. split; [reflexivity|]. rewrite code_appendln_end.
    destruct (typed_ok _ _ _ _ _ D T V) as (C1 & _ & C3). rewrite (struct_code n _ _ Dn (annotation_thin l) C1). constructor; [exact (annotation_ok doc d n _ l D I L)|].
    clear - C3. revert C3. generalize (map shows out). intros ss C3. induction C3 as [|f s fs ss (t & S & ->) C3 IH]; constructor; [|exact IH]. destruct (g_req f) eqn:Q; [apply Mb_optional|apply Mb_optional|apply Mb_required];
      try apply signed_numeral_ok; try exact S; congruence.
  - destruct (definition_needs_lifetime doc d (Some (UnionDef fs))) as [l|] eqn:L; cbn [kbind] in E; [|discriminate].
    destruct (typed doc d (fun _ => REQUIRED) fs) as [out|] eqn:T; cbn [kbind] in E; [|discriminate]. destruct out as [|(f, t) out]; [discriminate|]. injection E as <-.
    eexists. split; [unfold appendln; rewrite !app_assoc; reflexivity|]. rewrite !code_appendln, code_appendln_end.
    destruct (typed_ok _ _ _ _ _ D T V) as (C1 & _ & C3). change (g_name f) with (g_name (fst (f, t))). rewrite (union_code n _ (f, t) out Dn (annotation_thin l) C1).
    apply Pr_union; [exact (annotation_ok doc d n _ l D I L)|]. refine (Forall2_impl _ C3).
    intros g s (u & S & ->). constructor; [apply signed_numeral_ok|exact S].
Qed.

(** * Documents *)
Lemma texts_print doc d : distinct doc -> forall nds ss, kmap (definition_text doc d) nds = KOk ss -> (forall nd, In nd nds -> In nd doc /\ neat nd) -> forall r,
  exists ls, Forall2 (prints doc) nds ls /\ code (List.concat ss ++ r) = List.concat ls ++ code r.
Proof.
  intros D nds ss K. apply kmap_ok in K. induction K as [|nd s nds ss E K IH]; intros H r.
  - exists []. split; [constructor|reflexivity].
  - destruct (H nd (or_introl eq_refl)) as (I & N). destruct (definition_prints doc d nd s D I N E) as (s' & -> & P).
    destruct (IH (fun nd' J => H nd' (or_intror J)) r) as (ls & F & C). exists (code (s' ++ [10]) :: ls). split; [constructor; assumption|].
    cbn [List.concat]. rewrite <- !app_assoc. cbn [app]. rewrite code_newline, C, code_last. reflexivity.
Qed.
Lemma load_neat d s h doc : load d s = KOk (h, doc) -> distinct doc /\ Forall neat doc.
Proof.
  unfold load. destruct (lex s) as [ts|] eqn:E; [|discriminate]. apply lex_iff in E. intros H. apply kbind_ok in H as ((hs, ds) & Hp & H).
  apply kbind_ok in H as (h' & Hh & H). apply kbind_ok in H as (doc' & Hdoc & H). injection H as -> ->. split; [exact (document_distinct _ _ Hdoc)|].
  apply (document_neat _ _ Hdoc). pose proof (munch_well_formed s ts E) as W. exact (proj2 (document_valid _ ts (parse_sound d ts _ W Hp) W)).
Qed.
Theorem main_prints now d s out : main now d s = KOk out ->
  exists h doc body ls, load d s = KOk (h, doc) /\ out = List.concat (map (fun l => l ++ [10]) (header_lines now h)) ++ body /\
    Forall2 (prints doc) doc ls /\ code body = List.concat ls ++ tests_lines.
Proof.
  unfold main. intros H. apply kbind_ok in H as ((h, doc) & L & H). apply kbind_ok in H as (u & G & H). injection H as <-.
  unfold generated_text in G. apply kbind_ok in G as (ss & K & G). injection G as <-. destruct (load_neat d s h doc L) as (D & N).
  destruct (texts_print doc d D doc ss K ltac:(intros nd I; split; [exact I|rewrite Forall_forall in N; exact (N nd I)]) (appendln (appendln (trim_indent finish_template)))) as (ls & F & C).
  exists h, doc, (List.concat ss ++ appendln (appendln (trim_indent finish_template))), ls. split; [exact L|]. split; [|split; [exact F|]].
  - unfold appendln. rewrite <- !app_assoc. reflexivity.
  - rewrite C, !code_appendln_end, finish_code. reflexivity.
Qed.
(** What is printed fails as [generate] does. *)
Definition failure {A} (r : kotlin A) : option exn := match r with KOk _ => None | KThrow e => Some e end.
Lemma failure_kmap {A B C} (f : A -> kotlin B) (g : A -> kotlin C) l : (forall a, In a l -> failure (f a) = failure (g a)) -> failure (kmap f l) = failure (kmap g l).
Proof.
  induction l as [|a l IH]; intros H; [reflexivity|]. pose proof (H a (or_introl eq_refl)) as Ha. specialize (IH (fun b J => H b (or_intror J))). cbn [kmap].
  destruct (f a), (g a); cbn [failure kbind] in *; try discriminate; [|exact Ha]. destruct (kmap f l), (kmap g l); cbn [failure kbind] in *; congruence.
Qed.
Lemma failure_bind {A B C} (r : kotlin A) (f : A -> B) (g : A -> C) : failure (let! a := r in KOk (f a)) = failure (let! a := r in KOk (g a)).
Proof. destruct r; reflexivity. Qed.
Lemma failure_definition doc d nd : failure (definition_text doc d nd) = failure (generate doc d nd).
Proof.
  destruct nd as (n, [t|cs|fs|fs]); cbn [definition_text generate].
  - destruct (rust_type doc d t REQUIRED); reflexivity.
  - reflexivity.
  - destruct (definition_needs_lifetime doc d (Some (StructDef fs))); cbn [kbind]; [|reflexivity]. unfold typed.
    assert (E := failure_kmap (fun f => let! t := rust_type doc d (g_type f) (g_req f) in KOk (f, type_text t))
      (fun f => let! t := rust_type doc d (g_type f) (g_req f) in KOk (rust_identifier (g_name f), t)) fs (fun f _ => failure_bind _ _ _)).
    destruct (kmap _ fs), (kmap _ fs); cbn [failure kbind] in *; congruence.
  - destruct (definition_needs_lifetime doc d (Some (UnionDef fs))); cbn [kbind]; [|reflexivity]. unfold typed.
    assert (E := failure_kmap (fun f => let! t := rust_type doc d (g_type f) REQUIRED in KOk (f, type_text t))
      (fun f => let! t := rust_type doc d (g_type f) REQUIRED in KOk (g_name f, t)) fs (fun f _ => failure_bind _ _ _)).
    destruct (kmap (fun f => let! t := rust_type doc d (g_type f) REQUIRED in KOk (f, type_text t)) fs) as [l|] eqn:K; destruct (kmap (fun f => let! t := rust_type doc d (g_type f) REQUIRED in KOk (g_name f, t)) fs); cbn [failure kbind] in *; try congruence.
    destruct (kmap_ok _ _ _ K) as [|f [g t] fs' l' Q]; [reflexivity|]. destruct (rust_type doc d (g_type f) REQUIRED); reflexivity.
Qed.
Theorem main_fails now d s e : main now d s = KThrow e <-> load d s = KThrow e \/ exists h doc, load d s = KOk (h, doc) /\ generate_document doc d = KThrow e.
Proof.
  unfold main, generated_text, generate_document. destruct (load d s) as [(h, doc)|e'] eqn:L; cbn [kbind].
  - assert (E := failure_kmap (definition_text doc d) (generate doc d) doc (fun nd _ => failure_definition doc d nd)).
    destruct (kmap (definition_text doc d) doc), (kmap (generate doc d) doc) as [|e''] eqn:G; cbn [failure kbind] in *; try discriminate.
    + split; [discriminate|]. intros [?|(h' & doc' & [= <- <-] & ?)]; congruence.
    + injection E as ->. split.
      * intros [= ->]. right. exists h, doc. auto.
      * intros [?|(h' & doc' & [= <- <-] & ?)]; congruence.
  - split; [intros [= ->]; left; reflexivity|]. intros [[= ->]|(h' & doc' & ? & _)]; [reflexivity|discriminate].
Qed.
