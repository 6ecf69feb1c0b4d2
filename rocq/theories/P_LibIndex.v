(** Reading the page index, run by the interpreter, is that of Footer.v. *)
From Verif Require Import Base Uleb Utf8 Protocol Encodings Types Parquet RustSyntax RustEval SpecText Footer Schema Typing SpecFooter LibProgram SpecLib P_Arith P_TextTac P_Footer P_LibTable P_LibBase P_Lib.
Open Scope Z_scope.
Open Scope list_scope.
#[local] Arguments read_field : simpl never.
#[local] Arguments default : simpl never.
#[local] Arguments fill : simpl never.
#[local] Arguments usize : simpl never.
#[local] Arguments uadd : simpl never.
Lemma default_offset D : (4 <= D)%nat -> exists v, default parquet_env D (TNamed "OffsetIndex") = Some v.
Proof. intros H. do 4 (destruct D as [|D]; [lia|]). eexists. vm_compute. reflexivity. Qed.
Lemma default_column D : (4 <= D)%nat -> exists v, default parquet_env D (TNamed "ColumnIndex") = Some v.
Proof. intros H. do 4 (destruct D as [|D]; [lia|]). eexists. vm_compute. reflexivity. Qed.
Section Index.
  Variable c : cfg.
  Variable alloc : Z -> bool.
  Variable D : nat.
  Hypothesis Hc : cfg_ok c.
  Hypothesis HD : (4 <= D)%nat.
  Notation linked := (linked c alloc D).
  Lemma checked_usub a b : 0 <= b -> b <= usize c a -> @checked item c Usize (usize c a - b) = VOk (RInt Usize (usize c a - b)).
  Proof using Hc.
    clear - Hc. intros H0 H. unfold checked, RustEval.fits, in_ub. cbn [signed bits]. pose proof (wrapu_range (usize_bits c) a ltac:(destruct Hc as [[-> | ->] _]; lia)) as Hw. fold (usize c a) in Hw.
    replace (0 <=? usize c a - b) with true by (symmetry; apply Z.leb_le; lia). replace (usize c a - b <? 2 ^ usize_bits c) with true by (symmetry; apply Z.ltb_lt; lia). reflexivity.
  Qed.
  Lemma column_text L v all chunk off s : linked L -> typed parquet_env (TNamed "ColumnChunk") v -> 0 <= off ->
    run_fn c L (fn_in ["read_page_index_for_column_chunk"; "closure"]%string) [RBytes chunk; RInt Usize off; all; RElem (OVal "ColumnChunk" v)] s =
    answer [None; None; None; None] (opt_value index_value) (s, read_page_index_column c D chunk off (column_of v)).
  Proof using Hc HD.
    intros HL Hv Hoff. destruct (typed_column v Hv) as (F1 & F2 & F3 & F4). remember (column_of v) as col eqn:Ecol. clear Ecol Hv.
    remember (read_page_index_column c D chunk off col) as R eqn:HR. unfold read_page_index_column in HR.
    destruct (default_offset D HD) as [do Hdo]. destruct (default_column D HD) as [dc Hdc].
    start T. subst T.
    match goal with |- context [XBlock ?b] => remember b as T end. text. subst T.
    stmt HL T. rewrite F1. text. calls HL. rewrite F2. text. calls HL.
    destruct (offset_index_offset col) as [oo|]; [|text; subst R; reflexivity].
    destruct (offset_index_length col) as [ol|]; [|text; subst R; reflexivity].
    try unfold Footer.index_range in HR. rewrite (Z.ltb_antisym off (usize c oo)), (Z.leb_antisym 0 ol) in HR.
    cbn [opt_value] in *. text. fold (usize c oo).
    destruct (off <=? usize c oo) eqn:Eo; cbn [negb pbind] in HR; text; [|calls HL; subst R; reflexivity].
    destruct (0 <? ol) eqn:El; cbn [negb pbind] in HR; text; [|calls HL; subst R; reflexivity].
    apply Z.leb_le in Eo. fold (usize c oo). rewrite (checked_usub oo off Hoff Eo). text. fold (usize c ol).
    rewrite (checked_uadd c (usize c oo - off) (usize c ol)) by (try apply usize_nonneg; try exact Hc; lia).
    destruct (uadd_cases c (usize c oo - off) (usize c ol)) as [[oe E1]|E1]; rewrite E1 in *; cbn [pbind] in HR; text; [|subst R; reflexivity]. calls HL.
    clear E1 El Eo. remember (usize c oo - off) as os eqn:Eos. clear Eos oo ol F1 F2.
    subst T. stmt HL T. rewrite F3. text. calls HL. rewrite F4. text. calls HL.
    destruct (column_index_offset col) as [oo|]; [|text; subst R; reflexivity].
    destruct (column_index_length col) as [ol|]; [|text; subst R; reflexivity].
    try unfold Footer.index_range in HR. rewrite (Z.ltb_antisym off (usize c oo)), (Z.leb_antisym 0 ol) in HR.
    cbn [opt_value] in *. text. fold (usize c oo).
    destruct (off <=? usize c oo) eqn:Eo; cbn [negb pbind] in HR; text; [|calls HL; subst R; reflexivity].
    destruct (0 <? ol) eqn:El; cbn [negb pbind] in HR; text; [|calls HL; subst R; reflexivity].
    apply Z.leb_le in Eo. fold (usize c oo). rewrite (checked_usub oo off Hoff Eo). text. fold (usize c ol).
    rewrite (checked_uadd c (usize c oo - off) (usize c ol)) by (try apply usize_nonneg; try exact Hc; lia).
    destruct (uadd_cases c (usize c oo - off) (usize c ol)) as [[ce E1]|E1]; rewrite E1 in *; cbn [pbind] in HR; text; [|subst R; reflexivity]. calls HL.
    clear E1 El Eo. remember (usize c oo - off) as cs eqn:Ecs. clear Ecs oo ol F3 F4.
    subst T. stmt HL T. rewrite Hdo. text. calls HL. rewrite Hdc. text.
    unfold read_index, read_thrift in HR. rewrite Hdo, Hdc in HR. unfold slice_range in HR.
    subst T. match goal with |- context [XIfLet _ _ ?b _] => remember b as B eqn:EB end. stmt HL T. subst B. stmt HL K.
    destruct ((os <=? oe) && (oe <=? zlen chunk)); cbn [pbind] in HR; text; [|subst R; reflexivity]. calls HL. unfold fill_item.
    destruct (fill c (slice_input c) parquet_env D (TNamed "OffsetIndex") do _) as [[l1 v1] [[]|e|q]]; cbn [snd pbind] in HR; text; [|subst R; reflexivity|subst R; reflexivity]. calls HL.
    destruct ((cs <=? ce) && (ce <=? zlen chunk)); cbn [pbind] in HR; text; [|subst R; reflexivity]. calls HL. unfold fill_item.
    destruct (fill c (slice_input c) parquet_env D (TNamed "ColumnIndex") dc _) as [[l2 v2] [[]|e|q]]; cbn [snd pbind] in HR; text; [|subst R; reflexivity|subst R; reflexivity].
    subst K T R. text. reflexivity.
  Qed.

  (** * Loops that collect *)
  Definition collected {A} (s : file) (k : A -> rvalue item) (pre : list (rvalue item)) (env : renv item) (o : presult (list A)) (m : file * renv item * res item (rvalue item)) : Prop :=
    match o with
    | POk l => exists v, m = (s, ("collected"%string, RList (pre ++ map k l)) :: env, Val v)
    | PErr e => exists r, m = (s, r, Rtn (RErr (RElem (OError e))))
    | PPanic p => exists r, m = (s, r, Pan p)
    end.
  (** The body of such a loop *)
  Definition gathers (fn x : string) (ps : list string) : rexpr :=
    BDo (XMethod (XPath ["collected"]%string) "extend" [XCall ["once"]%string [XTry (XCall [fn; "closure"]%string (map (fun p => XPath [p]) ps ++ [XPath [x]]))]]) true BNil.
  Lemma column_gather L v chunk off all s pre : linked L ->
    w_call L ["read_page_index_for_column_chunk"; "closure"]%string [RBytes chunk; RInt Usize off; all; RElem (OVal "ColumnChunk" v)] s = answer [None; None; None; None] (opt_value index_value) (s, read_page_index_column c D chunk off (column_of v)) ->
    collected s (opt_value index_value) pre [("chunk"%string, RBytes chunk); ("chunk_offset"%string, RInt Usize off); ("column_chunks"%string, all)] (let? a := read_page_index_column c D chunk off (column_of v) in POk [a])
      (with_pat (PName "cc") (RElem (OVal "ColumnChunk" v)) (eval c L (gathers "read_page_index_for_column_chunk" "cc" ["chunk"; "chunk_offset"; "column_chunks"]%string)) (("collected"%string, RList pre) :: [("chunk"%string, RBytes chunk); ("chunk_offset"%string, RInt Usize off); ("column_chunks"%string, all)]) s).
  Proof using Type.
    intros HL Hv. unfold with_pat, gathers. cbn [map app]. text. rewrite Hv.
    destruct (read_page_index_column c D chunk off (column_of v)) as [a|e|q]; cbn [pbind collected]; text; [|eexists; reflexivity|eexists; reflexivity]. calls HL. eexists. reflexivity.
  Qed.
  Lemma columns_collect L cols chunk off all s : linked L ->
    (forall v s, In v cols -> w_call L ["read_page_index_for_column_chunk"; "closure"]%string [RBytes chunk; RInt Usize off; all; RElem (OVal "ColumnChunk" v)] s =
       answer [None; None; None; None] (opt_value index_value) (s, read_page_index_column c D chunk off (column_of v))) ->
    forall pre, let env := [("chunk"%string, RBytes chunk); ("chunk_offset"%string, RInt Usize off); ("column_chunks"%string, all)] in
    collected s (opt_value index_value) pre env (read_page_index_for_column_chunk c D chunk off (map column_of cols))
      (each (map (fun w => RElem (OVal "ColumnChunk" w)) cols)
         (fun v => with_pat (PName "cc") v (eval c L (gathers "read_page_index_for_column_chunk" "cc" ["chunk"; "chunk_offset"; "column_chunks"]%string)))
         (("collected"%string, RList pre) :: env) s).
  Proof using Type.
    intros HL. unfold read_page_index_for_column_chunk. induction cols as [|v cols IH]; intros Hv pre; set (env := [("chunk"%string, RBytes chunk); ("chunk_offset"%string, RInt Usize off); ("column_chunks"%string, all)]); cbn [map pcollect each collected]; [rewrite app_nil_r; eexists; reflexivity|].
    unfold bindE at 1. pose proof (column_gather L v chunk off all s pre HL (Hv v s (or_introl eq_refl))) as Hs. fold env in Hs.
    destruct (read_page_index_column c D chunk off (column_of v)) as [a|e|q]; cbn [pbind collected] in *; [|destruct Hs as [u ->]; eexists; reflexivity..]. destruct Hs as [u0 ->]. cbn [map].
    specialize (IH (fun w s' Hw => Hv w s' (or_intror Hw)) (pre ++ [opt_value index_value a])). cbv zeta in IH. fold env in IH. fold env.
    destruct (pcollect _ (map column_of cols)) as [l|e|q]; cbn [collected pbind] in *; destruct IH as [u ->]; eexists; [|reflexivity|reflexivity].
    cbn [map]. rewrite <- app_assoc. reflexivity.
  Qed.
  Lemma for_columns_text L cols chunk off s : linked L -> 0 <= off ->
    (forall v s, In v cols -> w_call L ["read_page_index_for_column_chunk"; "closure"]%string [RBytes chunk; RInt Usize off; RList (map (fun w => RElem (OVal "ColumnChunk" w)) cols); RElem (OVal "ColumnChunk" v)] s =
       answer [None; None; None; None] (opt_value index_value) (s, read_page_index_column c D chunk off (column_of v))) ->
    run_fn c L (fn_in ["read_page_index_for_column_chunk"]%string) [RBytes chunk; RInt Usize off; RList (map (fun w => RElem (OVal "ColumnChunk" w)) cols)] s =
    answer [None; None; None] (fun l => RList (map (opt_value index_value) l)) (s, read_page_index_for_column_chunk c D chunk off (map column_of cols)).
  Proof using Type.
    intros HL Hoff Hv. pose proof (columns_collect L cols chunk off _ s HL Hv []) as Hs. cbv zeta in Hs.
    remember (gathers "read_page_index_for_column_chunk" "cc" ["chunk"; "chunk_offset"; "column_chunks"]%string) as B eqn:EB.
    start T. subst T. stmt HL T. subst T.
    match goal with |- context [XFor _ _ ?b] => replace b with B by (subst B; reflexivity) end. clear EB.
    stmt HL T. unfold stop_loop.
    destruct (read_page_index_for_column_chunk c D chunk off (map column_of cols)) as [l|e|q]; cbn [collected app] in Hs; destruct Hs as [u ->]; text; [|reflexivity|reflexivity].
    subst T. text. reflexivity.
  Qed.
  Lemma group_gather L v chunk off fm s pre : linked L ->
    w_call L ["read_page_index"; "closure"]%string [RBytes chunk; RInt Usize off; fm; RElem (OVal "RowGroup" v)] s = answer [None; None; None; None] (fun l => RList (map (opt_value index_value) l)) (s, read_page_index_for_column_chunk c D chunk off (columns_of v)) ->
    collected s (fun l => RList (map (opt_value index_value) l)) pre [("chunk"%string, RBytes chunk); ("chunk_offset"%string, RInt Usize off); ("file_metadata"%string, fm)] (let? a := read_page_index_for_column_chunk c D chunk off (columns_of v) in POk [a])
      (with_pat (PName "rg") (RElem (OVal "RowGroup" v)) (eval c L (gathers "read_page_index" "rg" ["chunk"; "chunk_offset"; "file_metadata"]%string)) (("collected"%string, RList pre) :: [("chunk"%string, RBytes chunk); ("chunk_offset"%string, RInt Usize off); ("file_metadata"%string, fm)]) s).
  Proof using Type.
    intros HL Hv. unfold with_pat, gathers. cbn [map app]. text. rewrite Hv.
    destruct (read_page_index_for_column_chunk c D chunk off (columns_of v)) as [a|e|q]; cbn [pbind collected]; text; [|eexists; reflexivity|eexists; reflexivity]. calls HL. eexists. reflexivity.
  Qed.
  Lemma groups_collect L rgs chunk off fm s : linked L ->
    (forall v s, In v rgs -> w_call L ["read_page_index"; "closure"]%string [RBytes chunk; RInt Usize off; fm; RElem (OVal "RowGroup" v)] s =
       answer [None; None; None; None] (fun l => RList (map (opt_value index_value) l)) (s, read_page_index_for_column_chunk c D chunk off (columns_of v))) ->
    forall pre, let env := [("chunk"%string, RBytes chunk); ("chunk_offset"%string, RInt Usize off); ("file_metadata"%string, fm)] in
    collected s (fun l => RList (map (opt_value index_value) l)) pre env (read_page_index c D chunk off (map columns_of rgs))
      (each (map (fun w => RElem (OVal "RowGroup" w)) rgs)
         (fun v => with_pat (PName "rg") v (eval c L (gathers "read_page_index" "rg" ["chunk"; "chunk_offset"; "file_metadata"]%string)))
         (("collected"%string, RList pre) :: env) s).
  Proof using Type.
    intros HL. unfold read_page_index. induction rgs as [|v cols IH]; intros Hv pre; set (env := [("chunk"%string, RBytes chunk); ("chunk_offset"%string, RInt Usize off); ("file_metadata"%string, fm)]); cbn [map pcollect each collected]; [rewrite app_nil_r; eexists; reflexivity|].
    unfold bindE at 1. pose proof (group_gather L v chunk off fm s pre HL (Hv v s (or_introl eq_refl))) as Hs. fold env in Hs.
    destruct (read_page_index_for_column_chunk c D chunk off (columns_of v)) as [a|e|q]; cbn [pbind collected] in *; [|destruct Hs as [u ->]; eexists; reflexivity..]. destruct Hs as [u0 ->]. cbn [map].
    specialize (IH (fun w s' Hw => Hv w s' (or_intror Hw)) (pre ++ [RList (map (opt_value index_value) a)])). cbv zeta in IH. fold env in IH. fold env.
    destruct (pcollect _ (map columns_of cols)) as [l|e|q]; cbn [collected pbind] in *; destruct IH as [u ->]; eexists; [|reflexivity|reflexivity].
    cbn [map]. rewrite <- app_assoc. reflexivity.
  Qed.
  Lemma group_text L v chunk off fm s : linked L -> typed parquet_env (TNamed "RowGroup") v ->
    (forall cols s, Forall (typed parquet_env (TNamed "ColumnChunk")) cols ->
       w_call L ["read_page_index_for_column_chunk"]%string [RBytes chunk; RInt Usize off; RList (map (fun w => RElem (OVal "ColumnChunk" w)) cols)] s =
       answer [None; None; None] (fun l => RList (map (opt_value index_value) l)) (s, read_page_index_for_column_chunk c D chunk off (map column_of cols))) ->
    run_fn c L (fn_in ["read_page_index"; "closure"]%string) [RBytes chunk; RInt Usize off; fm; RElem (OVal "RowGroup" v)] s =
    answer [None; None; None; None] (fun l => RList (map (opt_value index_value) l)) (s, read_page_index_for_column_chunk c D chunk off (columns_of v)).
  Proof using Type.
    intros HL Hv Hf. destruct (typed_group v Hv) as (cols & F & -> & Hcols). start T. subst T. text. calls HL. rewrite F. text. rewrite (Hf cols s Hcols).
    destruct (read_page_index_for_column_chunk c D chunk off (map column_of cols)) as [l|e|q]; text; reflexivity.
  Qed.
  Lemma index_text L v chunk off s : linked L -> typed parquet_env (TNamed "FileMetaData") v ->
    (forall fm w s, typed parquet_env (TNamed "RowGroup") w -> w_call L ["read_page_index"; "closure"]%string [RBytes chunk; RInt Usize off; fm; RElem (OVal "RowGroup" w)] s =
       answer [None; None; None; None] (fun l => RList (map (opt_value index_value) l)) (s, read_page_index_for_column_chunk c D chunk off (columns_of w))) ->
    run_fn c L (fn_in ["read_page_index"]%string) [RBytes chunk; RInt Usize off; RElem (OVal "FileMetaData" v)] s =
    answer [None; None; None] indexes_value (s, read_page_index c D chunk off (metadata_of v)).
  Proof using Type.
    intros HL Hv Hf. destruct (typed_file v Hv) as (rgs & F & -> & Hrgs).
    pose proof (groups_collect L rgs chunk off (RElem (OVal "FileMetaData" v)) s HL (fun w s' Hw => Hf _ w s' (proj1 (Forall_forall _ _) Hrgs w Hw)) []) as Hs. cbv zeta in Hs.
    remember (gathers "read_page_index" "rg" ["chunk"; "chunk_offset"; "file_metadata"]%string) as B eqn:EB.
    start T. subst T. stmt HL T. subst T.
    match goal with |- context [XFor _ _ ?b] => replace b with B by (subst B; reflexivity) end. clear EB.
    stmt HL T. rewrite F. text. unfold stop_loop.
    destruct (read_page_index c D chunk off (map columns_of rgs)) as [l|e|q]; cbn [collected app] in Hs; destruct Hs as [u ->]; text; [|reflexivity|reflexivity].
    subst T. text. reflexivity.
  Qed.
End Index.

(** * The program *)
Section Program.
  Variable c : cfg.
  Variable alloc : Z -> bool.
  Variable D : nat.
  Hypothesis Hc : cfg_ok c.
  Lemma lib_metadata d s : bytes (data s) ->
    lib_fn c alloc D (2 + d) "get_metadata_chunk" [RObj] s = answer [Some RObj] RBytes (get_metadata_chunk c alloc s).
  Proof using Hc. intros Hb. unfold lib_fn. rewrite lib_eq. exact (metadata_text c alloc D Hc _ s (link_linked c alloc D d) Hb). Qed.
  Lemma lib_range d v s : typed parquet_env (TNamed "FileMetaData") v ->
    lib_fn c alloc D (2 + d) "get_page_index_range" [RElem (OVal "FileMetaData" v)] s =
    answer [None] (opt_value range_value) (s, get_page_index_range c (metadata_of v)).
  Proof using Hc. intros Hv. unfold lib_fn. rewrite lib_eq. exact (range_text c alloc D Hc _ v s (link_linked c alloc D d) Hv). Qed.
  Lemma lib_chunk d v s : typed parquet_env (TNamed "FileMetaData") v ->
    lib_fn c alloc D (3 + d) "get_page_index_chunk" [RObj; RElem (OVal "FileMetaData" v)] s =
    answer [Some RObj; None] (opt_value chunk_value) (get_page_index_chunk c alloc (metadata_of v) s).
  Proof using Hc.
    intros Hv. pose proof (fun s => lib_range d v s Hv) as Hr. unfold lib_fn in *. rewrite lib_eq in *.
    exact (chunk_text c alloc D Hc _ v s (link_linked c alloc D (1 + d)) Hv Hr).
  Qed.
  Hypothesis HD : (4 <= D)%nat.
  Lemma lib_index d v chunk off s : typed parquet_env (TNamed "FileMetaData") v -> 0 <= off ->
    lib_fn c alloc D (5 + d) "read_page_index" [RBytes chunk; RInt Usize off; RElem (OVal "FileMetaData" v)] s =
    answer [None; None; None] indexes_value (s, read_page_index c D chunk off (metadata_of v)).
  Proof using Hc HD.
    intros Hv Hoff. unfold lib_fn. rewrite lib_eq.
    refine (index_text c alloc D _ v chunk off s (link_linked c alloc D (3 + d)) Hv _). intros fm w s1 Hw.
    refine (group_text c alloc D _ w chunk off fm s1 (link_linked c alloc D (2 + d)) Hw _). intros cols s2 Hcols.
    refine (for_columns_text c alloc D _ cols chunk off s2 (link_linked c alloc D (1 + d)) Hoff _). intros u s3 Hu.
    exact (column_text c alloc D Hc HD _ u _ chunk off s3 (link_linked c alloc D d) (proj1 (Forall_forall _ _) Hcols u Hu) Hoff).
  Qed.
End Program.
