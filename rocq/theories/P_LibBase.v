(** Running the text of parquet/src/lib.rs: the fields of metadata, and one statement at a time. *)
From Verif Require Import Base Uleb Utf8 Protocol Encodings Types Parquet RustSyntax RustEval SpecText Footer Schema Typing SpecFooter LibProgram SpecLib P_Arith P_TextTac P_Footer P_LibTable.
Open Scope Z_scope.
Open Scope list_scope.

Lemma firstn_In' {A} n (l : list A) x : In x (firstn n l) -> In x l.
Proof. intros H. rewrite <- (firstn_skipn n l). apply in_or_app. left. exact H. Qed.
Lemma skipn_In' {A} n (l : list A) x : In x (skipn n l) -> In x l.
Proof. intros H. rewrite <- (firstn_skipn n l). apply in_or_app. right. exact H. Qed.
Lemma checked_s {X} c t z : signed t = true -> - 2 ^ (bits c t - 1) <= z < 2 ^ (bits c t - 1) -> @checked X c t z = VOk (RInt t z).
Proof.
  intros Ht H. unfold checked, RustEval.fits. rewrite Ht. unfold in_sb.
  replace (- 2 ^ (bits c t - 1) <=? z) with true by (symmetry; apply Z.leb_le; lia). replace (z <? 2 ^ (bits c t - 1)) with true by (symmetry; apply Z.ltb_lt; lia). reflexivity.
Qed.
(** * Fields *)
Lemma typed_file v : typed parquet_env (TNamed "FileMetaData") v -> exists rgs,
  read_field "row_groups" "FileMetaData" v = Some (RList (map (fun w => RElem (OVal "RowGroup" w)) rgs)) /\ metadata_of v = map columns_of rgs /\
  Forall (typed parquet_env (TNamed "RowGroup")) rgs.
Proof.
  intros H. inversion H as [| | | | | | | | | | | | | |? ? Hl|? fs vs Hl Hf|? ? ? ? ? Hl]; subst; try (vm_compute in Hl; discriminate Hl).
  unfold read_field. rewrite Hl.
  assert (fs = match def_FileMetaData with DStruct fs => fs | _ => [] end) by (vm_compute in Hl; injection Hl as <-; reflexivity). subst fs. clear Hl.
  unfold def_FileMetaData in *. tfields Hf. match goal with H : typed _ (field_ty {| f_id := 4; f_req := _; f_ty := _; f_name := _ |}) _ |- _ => inversion H; subst end.
  eexists. split; [reflexivity|]. split; [reflexivity|]. apply typed_seq_forall. assumption.
Qed.
Lemma typed_group v : typed parquet_env (TNamed "RowGroup") v -> exists cols,
  read_field "columns" "RowGroup" v = Some (RList (map (fun w => RElem (OVal "ColumnChunk" w)) cols)) /\ columns_of v = map column_of cols /\
  Forall (typed parquet_env (TNamed "ColumnChunk")) cols.
Proof.
  intros H. inversion H as [| | | | | | | | | | | | | |? ? Hl|? fs vs Hl Hf|? ? ? ? ? Hl]; subst; try (vm_compute in Hl; discriminate Hl).
  unfold read_field. rewrite Hl.
  assert (fs = match def_RowGroup with DStruct fs => fs | _ => [] end) by (vm_compute in Hl; injection Hl as <-; reflexivity). subst fs. clear Hl.
  unfold def_RowGroup in *. tfields Hf. match goal with H : typed _ (field_ty {| f_id := 1; f_req := _; f_ty := _; f_name := _ |}) _ |- _ => inversion H; subst end.
  eexists. split; [reflexivity|]. split; [reflexivity|]. apply typed_seq_forall. assumption.
Qed.
Lemma shown64 v : typed parquet_env (TOption TI64) v -> shown (TOption TI64) v = opt_value (RInt I64) (i_field v).
Proof. intros H. inversion H as [| | | | | | | | |? ?|? w Hw| | | | | |]; subst; [reflexivity|]. inversion Hw; subst. reflexivity. Qed.
Lemma shown32 v : typed parquet_env (TOption TI32) v -> shown (TOption TI32) v = opt_value (RInt I32) (i_field v).
Proof. intros H. inversion H as [| | | | | | | | |? ?|? w Hw| | | | | |]; subst; [reflexivity|]. inversion Hw; subst. reflexivity. Qed.
Lemma typed_column v : typed parquet_env (TNamed "ColumnChunk") v ->
  read_field "offset_index_offset" "ColumnChunk" v = Some (opt_value (RInt I64) (offset_index_offset (column_of v))) /\
  read_field "offset_index_length" "ColumnChunk" v = Some (opt_value (RInt I32) (offset_index_length (column_of v))) /\
  read_field "column_index_offset" "ColumnChunk" v = Some (opt_value (RInt I64) (column_index_offset (column_of v))) /\
  read_field "column_index_length" "ColumnChunk" v = Some (opt_value (RInt I32) (column_index_length (column_of v))).
Proof.
  intros H. inversion H as [| | | | | | | | | | | | | |? ? Hl|? fs vs Hl Hf|? ? ? ? ? Hl]; subst; try (vm_compute in Hl; discriminate Hl).
  unfold read_field. rewrite Hl.
  assert (fs = match def_ColumnChunk with DStruct fs => fs | _ => [] end) by (vm_compute in Hl; injection Hl as <-; reflexivity). subst fs. clear Hl.
  unfold def_ColumnChunk in *. tfields Hf. unfold column_of. cbn [nth offset_index_offset offset_index_length column_index_offset column_index_length].
  repeat split; (rewrite <- shown64 by assumption) || (rewrite <- shown32 by assumption); reflexivity.
Qed.
Fixpoint loop_body (e : rexpr) : rexpr :=
  match e with
  | BLet _ _ b => loop_body b
  | BDo (XFor _ _ b) _ _ => b
  | BDo _ _ b => loop_body b
  | _ => BNil
  end.

Section Lib.
  Variable c : cfg.
  Variable alloc : Z -> bool.
  Variable D : nat.
  Notation prim := (lib_world c alloc D).

  Definition linked (L : world item file) : Prop :=
    forall p args s, find_fn lib_table p = None -> w_call L p args s = w_call prim p args s.
  Lemma link_linked d : linked (link c lib_table prim (Datatypes.S d)).
  Proof using Type. intros p args s H. cbn [link w_call]. rewrite H. reflexivity. Qed.
  Definition fn_in (n : list string) : rfn := match find_fn lib_table n with Some f => f | None => {| fn_attrs := []; fn_name := ""; fn_params := []; fn_ret := YPtr; fn_body := None |} end.

  Lemma rx z n s s1 s2 l : bytes (data s) -> 0 <= n -> seek_end z s = (s1, POk tt) -> read_exact n s1 = (s2, POk l) -> zlen l = n /\ bytes l.
  Proof using Type.
    clear. intros Hb Hn. unfold seek_end, read_exact, faulty.
    destruct (faults s) as [|[k|] fs]; cbn [tl data pos faults]; [|discriminate|].
    all: destruct (_ <? 0) eqn:E; [discriminate|]; intros H; injection H as <-; unfold at_pos; cbn [data pos faults tl].
    2: destruct fs as [|[k|] fs]; cbn [tl]; [|discriminate|].
    all: destruct (_ <=? _) eqn:E2; [|discriminate]; intros H; injection H as _ <-.
    all: apply Z.leb_le in E2; apply Z.ltb_ge in E; (split; [unfold zlen in *; rewrite firstn_length, skipn_length; lia|]).
    all: unfold bytes in *; apply Forall_forall; intros x Hx; apply firstn_In', skipn_In' in Hx; revert x Hx; apply Forall_forall; exact Hb.
  Qed.

  Lemma eval_seq (L : world item file) e m b r s : b <> BNil -> eval c L (BDo e m b) r s = bindE (eval c L e) (fun _ => eval c L b) r s.
  Proof using Type. intros H. destruct b; try reflexivity. contradiction. Qed.
  Lemma eval_let (L : world item file) p e b r s : eval c L (BLet p e b) r s =
    bindE (eval c L e) (fun v r s => match bind_pat p v r with Some r' => eval c L b r' s | None => (s, r, Pan PIllTyped) end) r s.
  Proof using Type. reflexivity. Qed.
  Lemma scoped_eq {A} (m : E A) r s : @scoped item file A m r s = let '(s', r', a) := m r s in (s', drop (List.length r' - List.length r) r', a).
  Proof using Type. unfold scoped. destruct (m r s) as [[? ?] ?]. reflexivity. Qed.
End Lib.
(** What the functions called do *)
Ltac calls HL := repeat (match goal with |- context [w_call ?L ?p ?args ?s] => is_var L; rewrite (HL p args s eq_refl);
  match goal with |- context [w_call (lib_world ?c ?al ?D) p args s] =>
    let t := eval cbv beta iota delta [lib_world w_call lib_call0 lib_call1 lib_call2 answer value_or path_is String.eqb Ascii.eqb Bool.eqb andb] in (w_call (lib_world c al D) p args s) in
    change (w_call (lib_world c al D) p args s) with t end end; text).
(** The first of the statements [T] *)
Ltac stmt HL T :=
  match goal with
  | |- context [eval ?c ?L ?e0 ?r ?s] =>
      match e0 with
      | BLet ?p ?e ?b => rewrite (eval_let c L p e b r s); remember b as T
      | BDo ?e ?m BNil => idtac
      | BDo ?e ?m ?b => rewrite (eval_seq c L e m b r s) by discriminate; remember b as T
      end
  end; text; calls HL.
(** A call of a function *)
Ltac start T :=
  match goal with |- context [fn_in ?n] => let f := eval vm_compute in (fn_in n) in change (fn_in n) with f end;
  match goal with |- context [{| fn_attrs := _; fn_name := _; fn_params := _; fn_ret := _; fn_body := Some ?b |}] => remember b as T end;
  unfold run_fn; text.
