(** The lines that [{:#?}] prints. *)
From Coq Require Import Ascii HexadecimalString HexadecimalFacts HexadecimalPos HexadecimalN ZifyBool ZifyNat ZifyN Sorted.
From Verif Require Import Base Protocol Utf8 Encodings Types Parquet Footer SchemaTree ErrorName SpecUtf8 SpecCompact SpecInput Schema Typing SpecFooter SpecSchema SchemaPrint SpecPrint
  SpecEqual Debug SpecDebug P_ErrorName P_Utf8 P_EncSet P_Roundtrip P_Footer P_Schema P_Print P_Debug.
Open Scope list_scope.

(** * Hexadecimal numbers *)
Fixpoint hexuint_value (acc : Z) (d : Hexadecimal.uint) : Z :=
  match d with
  | Hexadecimal.Nil => acc
  | Hexadecimal.D0 d => hexuint_value (16 * acc) d
  | Hexadecimal.D1 d => hexuint_value (16 * acc + 1) d
  | Hexadecimal.D2 d => hexuint_value (16 * acc + 2) d
  | Hexadecimal.D3 d => hexuint_value (16 * acc + 3) d
  | Hexadecimal.D4 d => hexuint_value (16 * acc + 4) d
  | Hexadecimal.D5 d => hexuint_value (16 * acc + 5) d
  | Hexadecimal.D6 d => hexuint_value (16 * acc + 6) d
  | Hexadecimal.D7 d => hexuint_value (16 * acc + 7) d
  | Hexadecimal.D8 d => hexuint_value (16 * acc + 8) d
  | Hexadecimal.D9 d => hexuint_value (16 * acc + 9) d
  | Hexadecimal.Da d => hexuint_value (16 * acc + 10) d
  | Hexadecimal.Db d => hexuint_value (16 * acc + 11) d
  | Hexadecimal.Dc d => hexuint_value (16 * acc + 12) d
  | Hexadecimal.Dd d => hexuint_value (16 * acc + 13) d
  | Hexadecimal.De d => hexuint_value (16 * acc + 14) d
  | Hexadecimal.Df d => hexuint_value (16 * acc + 15) d
  end.
Lemma hexacc_value d : forall acc, Zpos (Pos.of_hex_uint_acc d acc) = hexuint_value (Zpos acc) d.
Proof. induction d; intros acc; cbn [Pos.of_hex_uint_acc hexuint_value]; rewrite ?IHd; f_equal; lia. Qed.
Lemma of_hexuint_value d : Z.of_N (N.of_hex_uint d) = hexuint_value 0 d.
Proof.
  unfold N.of_hex_uint. induction d; cbn [Pos.of_hex_uint hexuint_value]; try (cbn [Z.of_N]; rewrite hexacc_value; reflexivity).
  - reflexivity.
  - exact IHd.
Qed.
Lemma hexstring_value d : forall acc, fold_left (fun n d => 16 * n + hex_value d) (text (NilEmpty.string_of_uint d)) acc = hexuint_value acc d.
Proof.
  induction d; intros acc; cbn [NilEmpty.string_of_uint]; rewrite ?text_cons; cbn [fold_left hexuint_value]; rewrite ?IHd; try reflexivity;
    match goal with |- context [hex_value ?x] => let k := eval vm_compute in (hex_value x) in change (hex_value x) with k end;
    f_equal; lia.
Qed.
Lemma hexstring_digits d : Forall hex_byte (text (NilEmpty.string_of_uint d)).
Proof.
  induction d; cbn [NilEmpty.string_of_uint]; rewrite ?text_cons; [constructor|..]; (constructor; [|exact IHd]); unfold hex_byte; cbn; lia.
Qed.
Lemma hexunorm_head d : hd 0 (text (NilEmpty.string_of_uint (Hexadecimal.unorm d))) = 48 -> text (NilEmpty.string_of_uint (Hexadecimal.unorm d)) = [48].
Proof.
  unfold Hexadecimal.unorm. destruct (Hexadecimal.nzhead d) eqn:E; intros H; [reflexivity| |vm_compute in H; discriminate..].
  exfalso. exact (HexadecimalFacts.nzhead_nonzero d u E).
Qed.
Lemma hex_numeral_ok n : 0 <= n -> hex_numeral n (hex n).
Proof.
  intros Hn. unfold hex. assert (Nz : forall d, d <> Hexadecimal.Nil -> NilZero.string_of_uint d = NilEmpty.string_of_uint d) by (destruct d; [congruence|reflexivity..]).
  rewrite Nz by apply to_hex_nonnil.
  assert (Hu : N.to_hex_uint (Z.to_N n) = Hexadecimal.unorm (N.to_hex_uint (Z.to_N n))).
  { rewrite <- (HexadecimalN.Unsigned.to_of (N.to_hex_uint (Z.to_N n))), HexadecimalN.Unsigned.of_to. reflexivity. }
  split; [|split; [|split]].
  - pose proof (to_hex_nonnil (Z.to_N n)) as H. destruct (N.to_hex_uint (Z.to_N n)); [congruence|discriminate..].
  - apply hexstring_digits.
  - rewrite hexstring_value, <- of_hexuint_value, HexadecimalN.Unsigned.of_to. lia.
  - rewrite Hu. apply hexunorm_head.
Qed.

(** * Strings *)
Lemma says_char_ok printable u : scalar_value u -> says_char printable u (escape_char printable (u, utf8_char u)) /\ without 10 (escape_char printable (u, utf8_char u)).
Proof.
  intros Hu. unfold escape_char.
  repeat match goal with |- context [if u =? ?k then _ else _] => destruct (u =? k) eqn:?; [split; [constructor; replace u with k by lia; cbn; tauto|repeat constructor; lia]|] end.
  assert (N : ~ In u (map fst specials)) by (cbn; lia).
  destruct (printable u) eqn:P.
  - split; [apply Ch_itself; assumption|]. unfold utf8_char, scalar_value in *.
    repeat match goal with |- context [if ?b then _ else _] => destruct b eqn:? end; repeat constructor; lia.
  - split; [apply Ch_code; auto; apply hex_numeral_ok; unfold scalar_value in Hu; lia|].
    pose proof (hex_numeral_ok u ltac:(unfold scalar_value in Hu; lia)) as (_ & F & _).
    repeat (constructor; [lia|]). apply Forall_app. split; [|repeat constructor; lia]. revert F. apply Forall_impl. unfold hex_byte. lia.
Qed.
Lemma says_string_ok printable l : well_formed_utf8 l -> says_string printable l (debug_str printable l) /\ without 10 (debug_str printable l).
Proof.
  intros (us & Hu & ->). unfold debug_str. rewrite chars_text by assumption. rewrite flat_map_concat_map, map_map. split.
  - econstructor; [exact Hu|reflexivity|]. induction Hu; cbn [map]; constructor; auto. apply says_char_ok; assumption.
  - constructor; [lia|]. apply Forall_app. split; [|repeat constructor; lia]. induction Hu; cbn [map List.concat]; [constructor|]. apply Forall_app. split; [|assumption].
    apply says_char_ok; assumption.
Qed.

(** * Lines *)
Definition single (ls : list (list Z)) : Prop := Forall (without 10) ls.
Lemma pad_line l : forall b r, without 10 l -> pad b (l ++ 10 :: r) = (if b then [32; 32; 32; 32] else []) ++ l ++ 10 :: pad true r.
Proof.
  induction l as [|x l IH]; intros b r H; cbn [app pad]; [reflexivity|]. inversion H; subst. replace (x =? 10) with false by lia. rewrite IH by assumption. reflexivity.
Qed.
Lemma pad_lines ls : single ls -> pad true (lines ls) = lines (indented ls).
Proof.
  induction 1 as [|l ls Hl _ IH]; [reflexivity|]. unfold lines in *. cbn [flat_map indented map]. rewrite <- app_assoc. cbn [app]. rewrite pad_line by assumption.
  fold (indented ls). rewrite IH. change (text "    ") with [32; 32; 32; 32]. rewrite <- !app_assoc. reflexivity.
Qed.
Lemma comma_lines ls x : ls <> [] -> lines ls = x ++ [10] -> lines (with_comma ls) = x ++ [44; 10].
Proof.
  intros N H. unfold with_comma. rewrite (app_removelast_last [] N), lines_app in H. unfold lines at 2 in H. cbn [flat_map] in H. rewrite app_nil_r, app_assoc in H.
  apply app_inj_tail in H as (H & _). rewrite lines_app. unfold lines at 2. cbn [flat_map]. rewrite app_nil_r, <- H, <- !app_assoc. reflexivity.
Qed.
Lemma label_lines label ls x : ls <> [] -> lines ls = x ++ [10] -> lines (labelled label ls) = (label ++ x) ++ [10].
Proof. destruct ls as [|l ls]; [congruence|]. intros _ H. unfold lines in *. cbn [labelled flat_map] in *. rewrite <- !app_assoc in *. rewrite H. reflexivity. Qed.
Lemma single_comma ls : ls <> [] -> single ls -> single (with_comma ls).
Proof.
  intros N H. unfold with_comma, single in *. rewrite (app_removelast_last [] N) in H. apply Forall_app in H as (H1 & H2). apply Forall_app. split; [exact H1|].
  inversion H2; subst. repeat constructor. apply Forall_app. split; [assumption|repeat constructor; lia].
Qed.
Lemma single_label label ls : without 10 label -> single ls -> single (labelled label ls).
Proof. intros Hl H. destruct ls as [|l ls]; [constructor|]. inversion H; subst. constructor; [apply Forall_app; auto|assumption]. Qed.
Lemma single_indented ls : single ls -> single (indented ls).
Proof. intros H. apply Forall_map. revert H. apply Forall_impl. intros l Hl. apply Forall_app. split; [change (text "    ") with [32; 32; 32; 32]; repeat constructor; lia|exact Hl]. Qed.
(** [prints ls x]: [x] consists of the lines [ls], with no line feed after the last. *)
Definition prints (ls : list (list Z)) (x : list Z) : Prop := ls <> [] /\ single ls /\ lines ls = x ++ [10].
Lemma item_ok label ls x : without 10 label -> prints ls x -> single (item label ls) /\ lines (item label ls) = entry (label ++ x).
Proof.
  intros Hl (N & S & H). unfold item, entry.
  assert (N' : labelled label ls <> []) by (destruct ls; [congruence|discriminate]).
  pose proof (label_lines label ls x N H) as H'. pose proof (single_label label ls Hl S) as S'.
  split; [apply single_indented, single_comma; assumption|]. rewrite <- (comma_lines _ _ N' H'). symmetry. apply pad_lines. apply single_comma; assumption.
Qed.
Lemma prints_line l : without 10 l -> prints [l] l.
Proof. intros H. split; [discriminate|]. split; [repeat constructor; exact H|]. unfold lines. cbn [flat_map]. apply app_nil_r. Qed.
Lemma prints_block o items c : without 10 o -> without 10 c -> single items -> prints ([o] ++ items ++ [c]) (o ++ [10] ++ lines items ++ c).
Proof.
  intros Ho Hc Hi. split; [discriminate|]. split.
  - constructor; [exact Ho|]. apply Forall_app. split; [exact Hi|]. repeat constructor; exact Hc.
  - rewrite !lines_app. unfold lines at 1 3. cbn [flat_map]. rewrite !app_nil_r, <- !app_assoc. reflexivity.
Qed.
Lemma text_without x s : forallb (fun b => negb (b =? x)) (text s) = true -> without x (text s).
Proof. intros H. apply Forall_forall. intros b Hb. rewrite forallb_forall in H. specialize (H b Hb). lia. Qed.
Lemma word_without n : plain_word n -> without 10 (text n).
Proof. intros (_ & H). revert H. apply Forall_impl. unfold word_byte. lia. Qed.

Lemma brackets_ok lss xs : Forall2 prints lss xs -> prints (in_brackets lss) (debug_list true xs).
Proof.
  intros H. assert (G : single (flat_map (item []) lss) /\ lines (flat_map (item []) lss) = flat_map entry xs).
  { induction H as [|ls x lss xs Hp _ (IS & IL)]; [split; constructor|]. cbn [flat_map]. destruct (item_ok [] ls x ltac:(constructor) Hp) as (S & L).
    split; [apply Forall_app; auto|]. rewrite lines_app, L, IL. reflexivity. }
  destruct G as (S & L). destruct H as [|ls x lss xs Hp H]; [apply (prints_line [91; 93]); repeat constructor; lia|].
  unfold in_brackets, debug_list. change (text "[") with [91]. change (text "]") with [93]. rewrite <- L.
  pose proof (prints_block [91] (flat_map (item []) (ls :: lss)) [93]) as P. cbn [app] in P |- *. apply P; [repeat constructor; lia..|exact S].
Qed.
Lemma parentheses_ok n ls x : plain_word n -> prints ls x -> prints (in_parentheses n ls) (debug_tuple true n x).
Proof.
  intros Hn Hp. destruct (item_ok [] ls x ltac:(constructor) Hp) as (S & L). unfold in_parentheses, debug_tuple. cbn [app] in L. rewrite <- L.
  change (text "(") with [40]. change (text ")") with [41].
  pose proof (prints_block (text n ++ [40]) (item [] ls) [41]) as P. rewrite <- !app_assoc in P |- *. apply P; [|repeat constructor; lia|exact S].
  apply Forall_app. split; [apply word_without; exact Hn|repeat constructor; lia].
Qed.
Lemma braces_ok n items xs : plain_word n ->
  Forall2 (fun '(label, ls) '(m, x) => label = text m ++ text ": " /\ plain_word m /\ prints ls x) items xs -> prints (in_braces n items) (debug_struct true n xs).
Proof.
  intros Hn H.
  assert (G : single (flat_map (fun '(label, ls) => item label ls) items) /\
              lines (flat_map (fun '(label, ls) => item label ls) items) = flat_map entry (map (fun '(m, l) => text m ++ [58; 32] ++ l) xs)).
  { induction H as [|(label, ls) (m, x) items xs (-> & Hm & Hp) _ (IS & IL)]; [split; constructor|]. cbn [flat_map map].
    destruct (item_ok (text m ++ text ": ") ls x) as (S & L); [|exact Hp|].
    - apply Forall_app. split; [apply word_without; exact Hm|apply text_without; reflexivity].
    - split; [apply Forall_app; auto|]. rewrite lines_app, L, IL. rewrite <- app_assoc. reflexivity. }
  destruct G as (S & L). unfold in_braces, debug_struct. destruct H as [|i x items xs Hp H]; [cbn [map]; rewrite app_nil_r; apply prints_line, word_without; exact Hn|].
  rewrite <- L. pose proof (prints_block (text n ++ [32; 123]) (flat_map (fun '(label, ls) => item label ls) (i :: items)) [125]) as P.
  change (text " {") with [32; 123]. change (text "}") with [125]. rewrite <- !app_assoc in P |- *. apply P; [|repeat constructor; lia|exact S].
  apply Forall_app. split; [apply word_without; exact Hn|repeat constructor; lia].
Qed.

(** * Values *)
Lemma number_line l : Forall number_byte l -> without 10 l.
Proof. apply Forall_impl. unfold number_byte, word_byte. lia. Qed.
Lemma signed_line z : prints [signed z] (signed z).
Proof. apply prints_line, number_line, signed_bytes. Qed.
Lemma signed_decimal z : 0 <= z -> numeral z (signed z).
Proof. intros H. unfold signed. replace (z <? 0) with false by lia. apply decimal_numeral; exact H. Qed.
Section Values.
  Variables (printable : Z -> bool) (show : Z -> list Z) (E : env).
  Hypothesis Show : prints_doubles show.
  Hypothesis Names : names_ok E.
  Notation dbg := (debug printable show true E).

  Lemma debug_lines : (forall t v, typed E t v -> exists ls, pretty printable show E t v ls /\ prints ls (dbg v t)) /\
    (forall t vs, typed_seq E t vs -> exists lss, pretty_all printable show E t vs lss /\ Forall2 prints lss (map (fun w => dbg w t) vs)) /\
    (forall fs vs, typed_fields E fs vs -> Forall (fun f => plain_word (f_name f)) fs -> exists items, pretty_fields printable show E fs vs items /\
       Forall2 (fun '(label, ls) '(m, x) => label = text m ++ text ": " /\ plain_word m /\ prints ls x) items (named_fields printable show true E vs fs)).
  Proof.
    apply typed_mutind.
    - intros b. exists [show_bool b]. split; [constructor; apply says_bool_ok|]. apply prints_line. destruct b; apply text_without; reflexivity.
    - intros z _. exists [signed z]. split; [constructor; apply signed_numeral_ok|apply signed_line].
    - intros z _. exists [signed z]. split; [constructor; apply signed_numeral_ok|apply signed_line].
    - intros z _. exists [signed z]. split; [constructor; apply signed_numeral_ok|apply signed_line].
    - intros z _. exists [signed z]. split; [constructor; apply signed_numeral_ok|apply signed_line].
    - intros z Hz. exists [show z]. split; [constructor|]. apply prints_line, number_line, Show; exact Hz.
    - intros l Hl. exists (in_brackets (map (fun l => [l]) (map signed l))). split.
      + constructor. induction Hl as [|x l Hx _ IH]; cbn [map]; constructor; auto. apply signed_decimal. unfold is_byte in Hx. lia.
      + cbn [debug]. apply brackets_ok. clear Hl. induction l; cbn [map]; constructor; auto. apply signed_line.
    - intros l Hb Hl. destruct (says_string_ok printable l Hl) as (S & N). exists [debug_str printable l]. split; [constructor; exact S|apply prints_line; exact N].
    - intros t vs _ _ (lss & P & F). exists (in_brackets lss). split; [constructor; exact P|]. cbn [debug]. apply brackets_ok; exact F.
    - intros t _. exists [text "None"]. split; [constructor|]. apply prints_line, text_without. reflexivity.
    - intros t v _ (ls & P & F). eexists. split; [constructor; exact P|]. apply parentheses_ok; [apply some_word|exact F].
    - intros t v _ (ls & P & F). exists ls. split; [constructor; exact P|exact F].
    - intros t u v _ (ls & P & F). exists ls. split; [constructor; exact P|exact F].
    - intros m Hm. assert (Hm' : in_u 32 m) by (unfold in_u in *; change (2 ^ 32) with 4294967296; change (2 ^ 31) with 2147483648 in Hm; lia).
      destruct (iter_spec m Hm') as (Hs & Hi & _). exists (in_brackets (map (fun d => in_parentheses "Encoding" [d]) (map signed (encset_iter m)))). split.
      + apply Pr_encset with (es := encset_iter m); [exact Hs|exact Hi|].
        assert (F : Forall (fun k => 0 <= k) (encset_iter m)) by (apply Forall_forall; intros k Hk; apply Hi in Hk; tauto).
        clear -F. induction F; cbn [map]; constructor; auto. apply signed_decimal; assumption.
      + cbn [debug]. apply brackets_ok. clear. induction (encset_iter m) as [|k l IH]; cbn [map]; constructor; auto. apply parentheses_ok; [apply encoding_word|apply signed_line].
    - intros n z Hn _. eexists. split; [apply Pr_enum; [exact Hn|apply signed_numeral_ok]|]. apply parentheses_ok; [exact (proj1 (Names _ _ Hn))|apply signed_line].
    - intros n fs vs Hn _ IH. destruct (Names _ _ Hn) as (Hw & Hf). destruct (IH Hf) as (items & P & F). eexists. split; [eapply Pr_struct; eauto|].
      rewrite debug_struct_eq with (1 := Hn). apply braces_ok; assumption.
    - intros n fs i f v Hn Hi _ (ls & P & F). eexists. split; [eapply Pr_union; eauto|]. cbn [debug]. rewrite Hn, Hi. apply parentheses_ok; [|exact F].
      eapply union_word; eauto.
    - intros t. exists []. split; constructor.
    - intros t v vs _ (ls & P & F) _ (lss & Ps & Fs). exists (ls :: lss). split; [constructor; assumption|]. cbn [map]. constructor; assumption.
    - intros _. exists []. split; constructor.
    - intros f fs v vs _ (ls & P & F) _ IH Hf. inversion Hf; subst. destruct IH as (items & Ps & Fs); [assumption|].
      eexists. split; [constructor; [exact P|exact Ps]|]. cbn [named_fields]. constructor; [|exact Fs]. auto.
  Qed.
  Lemma debug_pretty t v : typed E t v -> exists ls, pretty printable show E t v ls /\ dbg v t ++ newline = lines ls.
  Proof. intros H. destruct (proj1 debug_lines t v H) as (ls & P & _ & _ & L). exists ls. split; [exact P|]. symmetry. exact L. Qed.
End Values.

(** * dump.rs *)
Lemma dump_finished_lines printable show c alloc f d out :
  cfg_ok c -> prints_doubles show -> healthy f -> bytes (data f) -> (forall n, alloc n = true) -> zlen (data f) < 2 ^ (usize_bits c - 1) ->
  dump printable show c alloc d f = (out, POk tt) ->
  exists m s' v ls, parquet_file (data f) m /\ read_thrift c (slice_input c) parquet_env d (TNamed "FileMetaData") m = (s', Ok v) /\
    pretty printable show parquet_env (TNamed "FileMetaData") v ls /\ out = lines ls.
Proof.
  intros Hc Hs Hf Hb Ha Hl H. destruct (dump_finished printable show c alloc f Hc Hf Hb Ha Hl d out H) as (m & s' & v & Hm & Hr & Ht & ->).
  destruct (debug_pretty printable show parquet_env Hs parquet_names _ _ Ht) as (ls & P & L). exists m, s', v, ls. auto.
Qed.
Lemma dump_lines printable show c alloc f d m v :
  cfg_ok c -> reserve_ok c -> prints_doubles show -> healthy f -> bytes (data f) -> (forall n, alloc n = true) -> zlen (data f) < 2 ^ (usize_bits c - 1) ->
  parquet_file (data f) m -> enc parquet_env (TNamed "FileMetaData") v m ->
  (need 12 (TNamed "FileMetaData") (List.length m) <= d)%nat ->
  exists ls, pretty printable show parquet_env (TNamed "FileMetaData") v ls /\ dump printable show c alloc d f = (lines ls, POk tt).
Proof.
  intros Hc Hres Hs Hf Hb Ha Hl Hm He Hd. pose proof (dump_prints printable show c alloc f Hc Hf Hb Ha Hl d m v Hres Hm He Hd) as H.
  destruct (dump_finished printable show c alloc f Hc Hf Hb Ha Hl d _ H) as (m' & s' & v' & Hm' & Hr & Ht & E).
  assert (v' = v).
  { pose proof (proj2 (metadata_ok_iff c alloc Hc f m Hf Hb Ha Hl) Hm) as G. pose proof (proj2 (metadata_ok_iff c alloc Hc f m' Hf Hb Ha Hl) Hm') as G'.
    assert (m' = m) by congruence. subst m'. pose proof (chunk_bytes f m Hb Hm) as Hbm. destruct parquet_ok as (_ & HE & _).
    destruct (read_conforming c parquet_env 12 (TNamed "FileMetaData") v m d Hc Hres HE eq_refl He Hd) as [Hr' _].
    specialize (Hr' []). rewrite app_nil_r in Hr'. specialize (Hr' Hbm). congruence. }
  subst v'. destruct (debug_pretty printable show parquet_env Hs parquet_names _ _ Ht) as (ls & P & L). exists ls. rewrite H, <- L. auto.
Qed.

(** * Samples *)
Definition ascii (u : Z) : bool := (32 <=? u) && (u <=? 126).
Definition sample_debug_env : env :=
  [("Sample", DStruct [
      {| f_id := 1; f_req := true; f_ty := TEncSet; f_name := "set" |};
      {| f_id := 2; f_req := true; f_ty := TBinary; f_name := "bytes" |};
      {| f_id := 3; f_req := true; f_ty := TNamed "Kind"; f_name := "kind" |};
      {| f_id := 4; f_req := true; f_ty := TNamed "Unit"; f_name := "unit" |};
      {| f_id := 5; f_req := true; f_ty := TVec TI32; f_name := "list" |};
      {| f_id := 6; f_req := true; f_ty := TNamed "Either"; f_name := "either" |}]);
   ("Kind", DEnum); ("Unit", DStruct []);
   ("Either", DUnion [{| f_id := 1; f_req := true; f_ty := TBool; f_name := "left" |}; {| f_id := 2; f_req := true; f_ty := TI64; f_name := "right" |}])]%string.
Lemma sample_meta_typed : typed parquet_env (TNamed "FileMetaData") sample_meta.
Proof. apply P_Roundtrip.typedb_ok. vm_compute. reflexivity. Qed.
Lemma nans_alike : indistinct (VDouble 9221120237041090560) (VDouble 9221120237041090561) /\
  debug ascii show_bits true parquet_env (VDouble 9221120237041090560) TDouble = debug ascii show_bits true parquet_env (VDouble 9221120237041090561) TDouble.
Proof.
  split; [|vm_compute; reflexivity]. apply I_nan.
  - exists 0, (2 ^ 51). unfold f64_bits. repeat split; lia || reflexivity.
  - exists 0, (2 ^ 51 + 1). unfold f64_bits. repeat split; lia || reflexivity.
Qed.
Fixpoint split_lines (l : list Z) : list (list Z) :=
  match l with
  | [] => []
  | x :: r => if x =? 10 then [] :: split_lines r else match split_lines r with [] => [[x]] | a :: ls => (x :: a) :: ls end
  end.
