(** The functions of parquet/src/lib.rs, run by the interpreter, are those of Footer.v. *)
From Verif Require Import Base Uleb Utf8 Protocol Encodings Types Parquet RustSyntax RustEval SpecText Footer Schema Typing SpecFooter LibProgram SpecLib P_Arith P_TextTac P_Footer P_LibTable P_LibBase.
Open Scope Z_scope.
Open Scope list_scope.
#[local] Arguments read_field : simpl never.
#[local] Arguments list_eqb : simpl never.
#[local] Arguments from_le : simpl never.
#[local] Arguments default : simpl never.
#[local] Arguments fill : simpl never.
#[local] Arguments usize : simpl never.
#[local] Arguments uadd : simpl never.
Section Lib.
  Variable c : cfg.
  Variable alloc : Z -> bool.
  Variable D : nat.
  Hypothesis Hc : cfg_ok c.
  Notation linked := (linked c alloc D).
  Lemma metadata_text L s : linked L -> bytes (data s) ->
    run_fn c L (fn_in ["get_metadata_chunk"]%string) [RObj] s = answer [Some RObj] RBytes (get_metadata_chunk c alloc s).
  Proof using Hc.
    intros HL Hb.
    remember (get_metadata_chunk c alloc s) as R eqn:HR. unfold get_metadata_chunk, fbind, fret in HR.
    start T. subst T. stmt HL T.
    destruct (seek_end (-8) s) as [s1 [[]|e|q]] eqn:E1; text; [|subst R; reflexivity|subst R; reflexivity]. subst T. stmt HL T. subst T. stmt HL T.
    change (zlen (repeat 0 (Z.to_nat 8))) with 8.
    destruct (read_exact 8 s1) as [s2 [l|e|q]] eqn:E2; text; [|subst R; reflexivity|subst R; reflexivity].
    destruct (rx (-8) 8 s s1 s2 l Hb ltac:(lia) E1 E2) as [Hl Hbl].
    assert (H4 : firstn (Z.to_nat (8 - 4)) (skipn (Z.to_nat 4) l) = skipn 4 l).
    { apply firstn_all2. rewrite skipn_length. unfold zlen in Hl. lia. }
    assert (H0 : zlen (firstn 4 l) = 4) by (unfold zlen in *; rewrite firstn_length; lia).
    subst T. stmt HL T. rewrite Hl, H4. change (4 <=? 8) with true. change (8 <=? 8) with true. cbn [andb]. text. calls HL.
    destruct (list_eqb (skipn 4 l) PARQUET_MAGIC) eqn:Em; cbn [negb] in HR |- *; text; [|calls HL; subst R; reflexivity].
    subst T. stmt HL T. rewrite Hl. change (0 <=? 4) with true. change (4 <=? 8) with true. change (Z.to_nat (4 - 0)) with 4%nat. change (skipn (Z.to_nat 0) l) with l. cbn [andb]. text. calls HL.
    rewrite H0. change (4 =? 4) with true. text.
    assert (Hn : 0 <= from_le (firstn 4 l) < 2 ^ 32).
    { unfold zlen in Hl. do 4 (destruct l as [|? l]; [cbn in Hl; lia|]). cbn [firstn]. inversion_clear Hbl as [|? ? B0 Hb1]. inversion_clear Hb1 as [|? ? B1 Hb2].
      inversion_clear Hb2 as [|? ? B2 Hb3]. inversion_clear Hb3 as [|? ? B3 _]. apply from_le_range; assumption. }
    assert (Hw : wrapu (usize_bits c) (from_le (firstn 4 l)) = from_le (firstn 4 l)).
    { apply wrapu_id. destruct Hc as [[-> | ->] _]; lia. }
    change (wrap c Usize (from_le (firstn 4 l))) with (wrapu (usize_bits c) (from_le (firstn 4 l))). rewrite Hw in *.
    remember (from_le (firstn 4 l)) as n eqn:En. clear En Hw H0 H4.
    subst T. stmt HL T. change (wrap c I64 n) with (wraps 64 n). rewrite (wraps_id 64 n) by lia.
    rewrite (checked_s c I64 (- n) eq_refl) by (cbn [bits]; lia). text.
    rewrite (checked_s c I64 (- n - 8) eq_refl) by (cbn [bits]; lia). text. calls HL.
    destruct (seek_end (- n - 8) s2) as [s3 [[]|e|q]] eqn:E3; text; [|subst R; reflexivity|subst R; reflexivity]. subst T. stmt HL T.
    destruct (with_capacity c alloc n) as [[]|e|q] eqn:Ec; text; [|unfold with_capacity in Ec; destruct (_ && _) in Ec; discriminate Ec|subst R; reflexivity].
    subst T. stmt HL T. rewrite Z.leb_refl. text. subst T. stmt HL T.
    destruct (read_exact n s3) as [s4 [b|e|q]] eqn:E4; text; [|subst R; reflexivity|subst R; reflexivity]. subst T R. text. reflexivity.
  Qed.

  (** * The page index range *)
  Definition body_of (n : string) : rexpr := match fn_body (fn_in [n]) with Some b => b | None => BNil end.
  Definition groups_body : rexpr := loop_body (body_of "get_page_index_range").
  Definition columns_body : rexpr := loop_body groups_body.
  (** What a loop over the columns has done: [pre] and [fm] are the other variables *)
  Definition range_env (pre : renv item) (mn mx : Z) (fm : rvalue item) : renv item :=
    pre ++ [("max"%string, RInt Usize mx); ("min"%string, RInt Usize mn); ("file_metadata"%string, fm)].
  Definition ranged (s : file) (pre : renv item) (fm : rvalue item) (o : presult (Z * Z)) (m : file * renv item * res item (rvalue item)) : Prop :=
    match o with
    | POk (mn, mx) => exists v, m = (s, range_env pre mn mx fm, Val v)
    | PErr e => exists r, m = (s, r, Rtn (RErr (RElem (OError e))))
    | PPanic p => exists r, m = (s, r, Pan p)
    end.
  Lemma checked_uadd a b : 0 <= a -> 0 <= b ->
    @checked item c Usize (a + b) = match uadd c a b with POk z => VOk (RInt Usize z) | PErr _ => VPan PIllTyped | PPanic p => VPan p end.
  Proof using Type.
    clear. intros Ha Hb. unfold checked, RustEval.fits, uadd, in_ub. cbn [signed bits]. replace (0 <=? a + b) with true by (symmetry; apply Z.leb_le; lia).
    cbn [andb]. destruct (_ <? _); [reflexivity|]. destruct (overflow_checks c); reflexivity.
  Qed.
  Lemma usize_nonneg z : 0 <= usize c z.
  Proof using Hc. clear - Hc. apply wrapu_range. destruct Hc as [[-> | ->] _]; lia. Qed.
  Lemma uadd_cases a b : (exists z, uadd c a b = POk z) \/ uadd c a b = PPanic POverflow.
  Proof using Type. unfold uadd. destruct (_ <? _); [eauto|]. destruct (overflow_checks c); eauto. Qed.
  Lemma column_step L v g fm mn mx s : linked L -> typed parquet_env (TNamed "ColumnChunk") v ->
    ranged s [("rg"%string, g)] fm (range_step c (mn, mx) (column_of v))
      (with_pat (PName "c") (RElem (OVal "ColumnChunk" v)) (eval c L columns_body) (range_env [("rg"%string, g)] mn mx fm) s).
  Proof using Hc.
    intros HL Hv. destruct (typed_column v Hv) as (F1 & F2 & F3 & F4). remember (column_of v) as col eqn:Ecol. clear Ecol Hv.
    match goal with |- context [columns_body] => let f := eval vm_compute in columns_body in change columns_body with f end.
    unfold range_env. cbn [app]. remember (range_step c (mn, mx) col) as R eqn:HR. unfold range_step in HR.
    match goal with |- context [XIfLet _ _ ?b _] => remember b as B eqn:EB end.
    unfold with_pat. text. calls HL. rewrite F1. text. calls HL. rewrite F2. text. calls HL. rewrite F3. text. calls HL. rewrite F4. text.
    clear F1 F2 F3 F4.
    destruct (offset_index_offset col) as [oo|]; [|subst R; eexists; reflexivity].
    destruct (offset_index_length col) as [ol|]; [|subst R; eexists; reflexivity].
    destruct (column_index_offset col) as [co|]; [|subst R; eexists; reflexivity].
    destruct (column_index_length col) as [cl|]; [|subst R; eexists; reflexivity].
    cbn [opt_value] in *. text. subst B. stmt HL T.
    assert (Hbad : (oo <? 0) || (ol <? 0) || (co <? 0) || (cl <? 0) = true -> R = PErr PInvalidOffset) by (intros E; rewrite E in HR; exact HR).
    destruct (oo <? 0); cbn [orb] in *; text; [calls HL; rewrite Hbad by reflexivity; eexists; reflexivity|].
    destruct (ol <? 0); cbn [orb] in *; text; [calls HL; rewrite Hbad by reflexivity; eexists; reflexivity|].
    destruct (co <? 0); cbn [orb] in *; text; [calls HL; rewrite Hbad by reflexivity; eexists; reflexivity|].
    destruct (cl <? 0); cbn [orb] in *; text; [calls HL; rewrite Hbad by reflexivity; eexists; reflexivity|]. clear Hbad.
    subst T. stmt HL T.
    subst T. stmt HL T. fold (usize c oo) (usize c ol). rewrite (checked_uadd _ _ (usize_nonneg oo) (usize_nonneg ol)).
    destruct (uadd_cases (usize c oo) (usize c ol)) as [[z1 E1]|E1]; rewrite E1 in *; cbn [pbind] in HR; text; [|subst R; eexists; reflexivity]. calls HL.
    subst T. stmt HL T. subst T. stmt HL T. fold (usize c co) (usize c cl). rewrite (checked_uadd _ _ (usize_nonneg co) (usize_nonneg cl)).
    destruct (uadd_cases (usize c co) (usize c cl)) as [[z2 E2]|E2]; rewrite E2 in *; cbn [pbind] in HR; text; [|subst R; eexists; reflexivity].
    calls HL. subst R. eexists. reflexivity.
  Qed.

  Lemma columns_loop L cols g fm : forall mn mx s, linked L -> Forall (typed parquet_env (TNamed "ColumnChunk")) cols ->
    ranged s [("rg"%string, g)] fm (range_columns c (mn, mx) (map column_of cols))
      (each (map (fun w => RElem (OVal "ColumnChunk" w)) cols) (fun v => with_pat (PName "c") v (eval c L columns_body)) (range_env [("rg"%string, g)] mn mx fm) s).
  Proof using Hc.
    induction cols as [|v cols IH]; intros mn mx s HL Hv; cbn [map range_columns each]; [eexists; reflexivity|].
    inversion_clear Hv as [|? ? H1 H2]. pose proof (column_step L v g fm mn mx s HL H1) as Hs. unfold bindE.
    destruct (range_step c (mn, mx) (column_of v)) as [[mn' mx']|e|q]; cbn [ranged pbind] in *.
    - destruct Hs as [u ->]. apply IH; assumption.
    - destruct Hs as [r ->]. eexists. reflexivity.
    - destruct Hs as [r ->]. eexists. reflexivity.
  Qed.
  Lemma group_step L v fm mn mx s : linked L -> typed parquet_env (TNamed "RowGroup") v ->
    ranged s [] fm (range_columns c (mn, mx) (columns_of v))
      (with_pat (PName "rg") (RElem (OVal "RowGroup" v)) (eval c L groups_body) (range_env [] mn mx fm) s).
  Proof using Hc.
    intros HL Hv. destruct (typed_group v Hv) as (cols & F & -> & Hcols).
    pose proof (columns_loop L cols (RElem (OVal "RowGroup" v)) fm mn mx s HL Hcols) as Hs.
    remember columns_body as B eqn:EB.
    assert (Hg : groups_body = BDo (XFor (PName "c") (XUn "&" (XCall [".field"; "columns"]%string [XPath ["rg"]%string])) B) false BNil) by (subst B; vm_compute; reflexivity).
    rewrite Hg. clear Hg EB. unfold range_env in *. cbn [app] in *. unfold with_pat at 1. text. calls HL. rewrite F. text. unfold stop_loop.
    destruct (range_columns c (mn, mx) (map column_of cols)) as [[mn' mx']|e|q]; cbn [ranged] in *.
    - destruct Hs as [u ->]. unfold range_env. cbn [app]. text. eexists. reflexivity.
    - destruct Hs as [r ->]. text. eexists. reflexivity.
    - destruct Hs as [r ->]. text. eexists. reflexivity.
  Qed.
  Lemma groups_loop L rgs fm : forall mn mx s, linked L -> Forall (typed parquet_env (TNamed "RowGroup")) rgs ->
    ranged s [] fm (range_groups c (mn, mx) (map columns_of rgs))
      (each (map (fun w => RElem (OVal "RowGroup" w)) rgs) (fun v => with_pat (PName "rg") v (eval c L groups_body)) (range_env [] mn mx fm) s).
  Proof using Hc.
    induction rgs as [|v rgs IH]; intros mn mx s HL Hv; cbn [map range_groups each]; [eexists; reflexivity|].
    inversion_clear Hv as [|? ? H1 H2]. pose proof (group_step L v fm mn mx s HL H1) as Hs. unfold bindE.
    destruct (range_columns c (mn, mx) (columns_of v)) as [[mn' mx']|e|q]; cbn [ranged pbind] in *.
    - destruct Hs as [u ->]. apply IH; assumption.
    - destruct Hs as [r ->]. eexists. reflexivity.
    - destruct Hs as [r ->]. eexists. reflexivity.
  Qed.
  Lemma range_text L v s : linked L -> typed parquet_env (TNamed "FileMetaData") v ->
    run_fn c L (fn_in ["get_page_index_range"]%string) [RElem (OVal "FileMetaData" v)] s =
    answer [None] (opt_value range_value) (s, get_page_index_range c (metadata_of v)).
  Proof using Hc.
    intros HL Hv. destruct (typed_file v Hv) as (rgs & F & -> & Hrgs).
    pose proof (groups_loop L rgs (RElem (OVal "FileMetaData" v)) (2 ^ usize_bits c - 1) 0 s HL Hrgs) as Hs.
    remember (get_page_index_range c (map columns_of rgs)) as R eqn:HR. unfold get_page_index_range in HR.
    remember groups_body as B eqn:EB.
    start T. subst T. stmt HL T. subst T. stmt HL T. subst T.
    match goal with |- context [XFor _ _ ?b] => change b with groups_body end. rewrite <- EB. clear EB.
    stmt HL T. rewrite F. text. unfold stop_loop. unfold range_env in Hs. cbn [app] in Hs.
    destruct (range_groups c (2 ^ usize_bits c - 1, 0) (map columns_of rgs)) as [[mn mx]|e|q]; cbn [ranged pbind] in *.
    - destruct Hs as [u ->]. unfold range_env. cbn [app]. text. subst T. text. destruct (mn <? mx); text; calls HL; subst R; reflexivity.
    - destruct Hs as [r ->]. text. subst R. reflexivity.
    - destruct Hs as [r ->]. text. subst R. reflexivity.
  Qed.

  (** * The page index chunk *)
  Lemma range_nonneg md : forall a b, get_page_index_range c md = POk (Some (a, b)) -> 0 <= a < 2 ^ 64 /\ a < b.
  Proof using Hc.
    clear - Hc. intros a b. unfold get_page_index_range.
    assert (Hg : forall cols mn mx mn' mx', 0 <= mn < 2 ^ 64 -> range_columns c (mn, mx) cols = POk (mn', mx') -> 0 <= mn' < 2 ^ 64).
    { induction cols as [|col cols IH]; intros mn mx mn' mx' Hm H; cbn [range_columns] in H; [injection H as <- _; exact Hm|].
      unfold pbind in H. destruct (range_step c (mn, mx) col) as [[m1 m2]| |] eqn:E; try discriminate H. apply (IH m1 m2 mn' mx'); [|exact H].
      unfold range_step in E. destruct (offset_index_offset col) as [oo|]; [|injection E as <- _; exact Hm]. destruct (offset_index_length col) as [ol|]; [|injection E as <- _; exact Hm].
      destruct (column_index_offset col) as [co|]; [|injection E as <- _; exact Hm]. destruct (column_index_length col) as [cl|]; [|injection E as <- _; exact Hm].
      destruct (_ || _); [discriminate E|]. unfold pbind in E. destruct (uadd c (usize c oo) _); try discriminate E. destruct (uadd c (usize c co) _); try discriminate E.
      injection E as <- _. assert (U : forall z, 0 <= usize c z) by (intros z; apply wrapu_range; destruct Hc as [[-> | ->] _]; lia).
      pose proof (U oo). pose proof (U co). lia. }
    rewrite range_groups_concat. unfold pbind. destruct (range_columns c (2 ^ usize_bits c - 1, 0) (List.concat md)) as [[mn mx]| |] eqn:E; intros H; try discriminate H.
    assert (Hmn : 0 <= mn < 2 ^ 64) by (eapply Hg; [|exact E]; destruct Hc as [[-> | ->] _]; lia).
    destruct (mn <? mx) eqn:El; [|discriminate H]. injection H as <- <-. apply Z.ltb_lt in El. lia.
  Qed.
  Lemma chunk_text L v s : linked L -> typed parquet_env (TNamed "FileMetaData") v ->
    (forall s, w_call L ["get_page_index_range"]%string [RElem (OVal "FileMetaData" v)] s = answer [None] (opt_value range_value) (s, get_page_index_range c (metadata_of v))) ->
    run_fn c L (fn_in ["get_page_index_chunk"]%string) [RObj; RElem (OVal "FileMetaData" v)] s =
    answer [Some RObj; None] (opt_value chunk_value) (get_page_index_chunk c alloc (metadata_of v) s).
  Proof using Hc.
    intros HL Hv Hr. remember (metadata_of v) as md eqn:Emd. clear Emd Hv.
    remember (get_page_index_chunk c alloc md s) as R eqn:HR. unfold get_page_index_chunk, fbind, fret in HR.
    start T. subst T. match goal with |- context [XIfLet _ _ ?b _] => remember b as B eqn:EB end. text. rewrite Hr. 
    destruct (get_page_index_range c md) as [[[a b]|]|e|q] eqn:Er; text; [|subst R; reflexivity..].
    destruct (range_nonneg md a b Er) as [Ha Hab]. replace (Z.max 0 (b - a)) with (b - a) in * by lia.
    subst B. stmt HL T. change (wrap c U64 a) with (wrapu 64 a). rewrite (wrapu_id 64 a Ha).
    destruct (seek_start a s) as [s1 [[]|e|q]] eqn:E1; text; [|subst R; reflexivity|subst R; reflexivity].
    subst T. stmt HL T. replace (Z.max 0 (b - a)) with (b - a) by lia.
    destruct (with_capacity c alloc (b - a)) as [[]|e|q] eqn:Ec; text; [|unfold with_capacity in Ec; destruct (_ && _) in Ec; discriminate Ec|subst R; reflexivity].
    subst T. stmt HL T. replace (Z.max 0 (b - a)) with (b - a) by lia. rewrite Z.leb_refl. text.
    subst T. stmt HL T. destruct (read_exact (b - a) s1) as [s2 [l|e|q]] eqn:E2; text; [|subst R; reflexivity|subst R; reflexivity].
    subst T R. text. reflexivity.
  Qed.
End Lib.
