(** The methods of RustCode.v compute the functions of Types.v. *)
From Verif Require Import Base Protocol Types RustCode.
Open Scope Z_scope.
Open Scope list_scope.

(** * Local variables *)
Lemma local_eqb_eq x y : local_eqb x y = true <-> x = y.
Proof.
  destruct x as [a m], y as [b n]. unfold local_eqb. cbn [fst snd]. rewrite Bool.andb_true_iff, Bool.eqb_true_iff, String.eqb_eq. split; [intros [-> ->]; reflexivity|intros E; injection E; auto].
Qed.
Lemma local_eqb_refl x : local_eqb x x = true.
Proof. apply local_eqb_eq. reflexivity. Qed.
Lemma local_eqb_neq x y : x <> y -> local_eqb x y = false.
Proof. intros H. destruct (local_eqb x y) eqn:E; [|reflexivity]. apply local_eqb_eq in E. contradiction. Qed.
Lemma fetch_store ls x y h : fetch ls x <> None -> fetch (store ls x h) y = if local_eqb y x then Some h else fetch ls y.
Proof.
  induction ls as [|[z g] ls IH]; cbn [fetch store]; intros H; [contradiction|]. destruct (local_eqb x z) eqn:E.
  - apply local_eqb_eq in E as <-. cbn [fetch]. destruct (local_eqb y x) eqn:E; reflexivity.
  - cbn [fetch]. destruct (local_eqb y z) eqn:E2; [apply local_eqb_eq in E2 as ->|exact (IH H)]. destruct (local_eqb z x) eqn:E3; [|reflexivity].
    apply local_eqb_eq in E3 as ->. rewrite local_eqb_refl in E. discriminate.
Qed.
Lemma store_length ls x h : List.length (store ls x h) = List.length ls.
Proof. induction ls as [|[z g] ls IH]; cbn [store List.length]; [reflexivity|]. destruct (local_eqb x z); cbn [List.length]; congruence. Qed.
Lemma leave_same ls : leave (List.length ls) ls = ls.
Proof. unfold leave. rewrite Nat.sub_diag. reflexivity. Qed.
Lemma leave_len n ls : List.length ls = n -> leave n ls = ls.
Proof. intros <-. apply leave_same. Qed.
Lemma leave_cons n a ls : List.length ls = n -> leave n (a :: ls) = ls.
Proof. intros <-. unfold leave. cbn [List.length]. replace (Datatypes.S (List.length ls) - List.length ls)%nat with 1%nat by lia. reflexivity. Qed.

(** * Equations for the interpreter *)
Section Equations.
  Context {X : Type}.
  Variable fs : list field.
  Variable default1 : ty -> option value.
  Variable run : call -> X -> value -> locals -> X * value * locals * outcome Z.
  Notation exec := (exec fs default1 run).
  Notation exec_all := (exec_all fs default1 run).
  Definition scoped (fuel : nat) (ts : list stmt) (st : state) : state * flow :=
    match exec_all fuel ts st with ((s, v, ls), w) => ((s, v, leave (List.length (snd st)) ls), w) end.
  Fixpoint rounds (fuel : nat) (body : list stmt) (n : nat) (st : state) : state * flow :=
    match n with
    | O => (st, Done (Panic PNonTermination))
    | Datatypes.S n' => match scoped fuel body st with
                        | (st', Next) => rounds fuel body n' st'
                        | (st', Broke) => (st', Next)
                        | r => r
                        end
    end.
  Fixpoint arms_of (fuel : nat) (z : Z) (other : list stmt) (st : state) (arms : list (Z * list stmt)) : state * flow :=
    match arms with
    | [] => scoped fuel other st
    | (y, body) :: arms' => if y =? z then scoped fuel body st else arms_of fuel z other st arms'
    end.
  Definition block_of (fuel : nat) := fix block (ts : list stmt) (st : @state X) : state * flow :=
      match ts with
      | [] => (st, Next)
      | t' :: ts' => match exec fuel t' st with (st', Next) => block ts' st' | r => r end
      end.
  Lemma block_eq fuel ts st : block_of fuel ts st = exec_all fuel ts st.
  Proof. revert st. induction ts as [|t ts IH]; intros st; [reflexivity|]. cbn [block_of RustCode.exec_all]. destruct (exec fuel t st) as [st' [| |o]]; [apply IH|reflexivity|reflexivity]. Qed.
  Lemma exec_if fuel b body s v ls : exec fuel (If b body) (s, v, ls) =
    match holds b ls with Some true => scoped fuel body (s, v, ls) | Some false => ((s, v, ls), Next) | None => ((s, v, ls), Done ill) end.
  Proof. unfold scoped. rewrite <- block_eq. reflexivity. Qed.
  Lemma exec_match fuel x arms other s v ls z : fetch ls x = Some (HInt z) -> exec fuel (Match x arms other) (s, v, ls) = arms_of fuel z other (s, v, ls) arms.
  Proof.
    intros H. cbn [RustCode.exec]. rewrite H. induction arms as [|[y body] arms IH]; cbn [arms_of]; unfold scoped; rewrite <- block_eq; [reflexivity|].
    destruct (y =? z); [reflexivity|exact IH].
  Qed.
  Lemma exec_loop fuel body st : exec fuel (Loop body) st = rounds fuel body fuel st.
  Proof.
    destruct st as [[s v] ls]. cbn [RustCode.exec]. generalize fuel at 2 4 as n. intros n. generalize (s, v, ls) as st. clear s v ls. induction n as [|n IH]; intros st; [reflexivity|].
    cbn [rounds]. unfold scoped at 1. rewrite <- block_eq.
    change (block_of fuel body st) with (block_of fuel body st). fold (block_of fuel).
    destruct (block_of fuel body st) as [[[s v] ls] [| |o]]; [apply IH|reflexivity|reflexivity].
  Qed.
  Lemma exec_cons fuel t ts st : exec_all fuel (t :: ts) st = match exec fuel t st with (st', Next) => exec_all fuel ts st' | r => r end.
  Proof. reflexivity. Qed.
  Lemma exec_let fuel x k st : exec fuel (Let x (Result k)) st = ask run k st (fun '(s', v', ls') z => ((s', v', (x, HInt z) :: ls'), Next)).
  Proof. destruct st as [[s v] ls]. reflexivity. Qed.
  Lemma exec_do fuel k st : exec fuel (Do k) st = ask run k st (fun st' _ => (st', Next)).
  Proof. destruct st as [[s v] ls]. reflexivity. Qed.
  Lemma exec_app fuel a b st : exec_all fuel (a ++ b) st = match exec_all fuel a st with (st', Next) => exec_all fuel b st' | r => r end.
  Proof. revert st. induction a as [|t a IH]; intros st; [reflexivity|]. cbn [app RustCode.exec_all]. destruct (exec fuel t st) as [st' [| |o]]; [apply IH|reflexivity|reflexivity]. Qed.
End Equations.

(** * Names *)
Lemma named_find fs id i f : NoDup (map f_name fs) -> find_field fs id = Some (i, f) -> named fs (f_name f) = Some (i, f).
Proof.
  revert i. induction fs as [|g fs IH]; cbn [map find_field named]; intros i Hn H; [discriminate|]. apply NoDup_cons_iff in Hn as [Hi Hn]. destruct (f_id g =? id) eqn:E.
  - injection H as <- <-. rewrite String.eqb_refl. reflexivity.
  - destruct (find_field fs id) as [[j h]|] eqn:Ef; [|discriminate]. injection H as <- <-. specialize (IH j Hn eq_refl). rewrite IH.
    destruct (String.eqb (f_name h) (f_name g)) eqn:E2; [|reflexivity]. apply String.eqb_eq in E2. exfalso. apply Hi. rewrite <- E2.
    apply in_map. clear - Ef. revert j Ef. induction fs as [|k fs IH]; cbn [find_field]; intros j Ef; [discriminate|]. destruct (f_id k =? id); [injection Ef as _ ->; left; reflexivity|].
    destruct (find_field fs id) as [[j' h']|]; [|discriminate]. injection Ef as _ ->. right. exact (IH j' eq_refl).
Qed.
Lemma named_nth fs i f : NoDup (map f_name fs) -> nth_error fs i = Some f -> named fs (f_name f) = Some (i, f).
Proof.
  revert i. induction fs as [|g fs IH]; cbn [map named]; intros i Hn H; [destruct i; discriminate|]. apply NoDup_cons_iff in Hn as [Hi Hn]. destruct i as [|i]; cbn [nth_error] in H.
  - injection H as <-. rewrite String.eqb_refl. reflexivity.
  - rewrite (IH i Hn H). destruct (String.eqb (f_name f) (f_name g)) eqn:E; [|reflexivity]. apply String.eqb_eq in E. exfalso. apply Hi. rewrite <- E. apply in_map. exact (nth_error_In _ _ H).
Qed.
Lemma find_nth fs id i f : find_field fs id = Some (i, f) -> nth_error fs i = Some f.
Proof.
  revert i. induction fs as [|g fs IH]; cbn [find_field]; intros i H; [discriminate|]. destruct (f_id g =? id); [injection H as <- <-; reflexivity|].
  destruct (find_field fs id) as [[j h]|]; [|discriminate]. injection H as <- <-. exact (IH j eq_refl).
Qed.

(** * Structs *)
Section Struct.
  Context {S : Type}.
  Variable c : cfg.
  Variable I : input S.
  Variable fs : list field.
  Variable default1 : ty -> option value.
  Variable fill1 : ty -> F S.
  Variable fill_field1 : ty -> Z -> F S.
  Variable skip1 : Z -> M S unit.
  Variable flag : string -> local.
  Variables last ft : local.
  Hypothesis Hnames : NoDup (map f_name fs).
  Hypothesis Hflag : forall a b, flag a = flag b -> a = b.
  Hypothesis Hfl : forall a, flag a <> last.
  Hypothesis Hff : forall a, flag a <> ft.
  Hypothesis Hlf : last <> ft.
  Notation run := (run_read fs c I fill1 fill_field1 skip1).
  Notation exec := (exec fs default1 run).
  Notation exec_all := (exec_all fs default1 run).
  Definition set_of (f : field) : list stmt := if f_req f then [SetFlag (flag (f_name f))] else [].
  Definition round_code : list stmt :=
    [Let ft (Result (ReadHeader last)); If (IsZero ft) [Break];
     Match last (map (fun f => (f_id f, set_of f ++ [Do (FillField (f_name f) ft)])) fs) [Do (SkipField ft)]].
  Definition good_flags (ls : locals) (flags : list bool) : Prop :=
    List.length flags = List.length fs /\ forall i f b, nth_error fs i = Some f -> nth_error flags i = Some b -> f_req f = true -> fetch ls (flag (f_name f)) = Some (HFlag b).
  Definition inv (ls : locals) (z : Z) (flags : list bool) : Prop := fetch ls last = Some (HInt z) /\ good_flags ls flags.

  Lemma arms_find fuel z other st arms l : arms_of fs default1 run fuel z other st (map (fun f => (f_id f, arms f)) l) =
    scoped fs default1 run fuel (match find_field l z with Some (_, f) => arms f | None => other end) st.
  Proof.
    induction l as [|f l IH]; cbn [map arms_of find_field]; [reflexivity|]. destruct (f_id f =? z); [reflexivity|]. rewrite IH. destruct (find_field l z) as [[j g]|]; reflexivity.
  Qed.
  Lemma inv_last ls z z' flags : inv ls z flags -> inv (store ls last (HInt z')) z' flags.
  Proof.
    intros [H [Hl Hg]]. assert (fetch ls last <> None) by congruence. split; [rewrite fetch_store by assumption; rewrite local_eqb_refl; reflexivity|]. split; [exact Hl|].
    intros i f b H1 H2 H3. rewrite fetch_store by assumption. rewrite local_eqb_neq by apply Hfl. exact (Hg i f b H1 H2 H3).
  Qed.
  Lemma nth_set {A} (l : list A) i j a b : nth_error l i = Some b -> nth_error (set_nth l i a) j = if Nat.eqb j i then Some a else nth_error l j.
  Proof.
    revert i j. induction l as [|x l IH]; intros [|i] [|j] H; try discriminate; cbn [set_nth nth_error Nat.eqb]; try reflexivity. apply IH. exact H.
  Qed.
  Lemma set_nth_length {A} (l : list A) i a : List.length (set_nth l i a) = List.length l.
  Proof. revert i. induction l as [|x l IH]; intros [|i]; cbn [set_nth List.length]; congruence. Qed.
  Lemma inv_flag ls z flags i f : inv ls z flags -> nth_error fs i = Some f -> f_req f = true -> inv (store ls (flag (f_name f)) (HFlag true)) z (set_nth flags i true).
  Proof.
    intros [H [Hl Hg]] Hf Hr. assert (exists b, nth_error flags i = Some b) as [b Hb].
    { destruct (nth_error flags i) eqn:E; [eauto|]. apply nth_error_None in E. assert (i < List.length fs)%nat by (apply nth_error_Some; congruence). lia. }
    assert (fetch ls (flag (f_name f)) <> None) as Hn by (rewrite (Hg i f b Hf Hb Hr); discriminate).
    split; [rewrite fetch_store by exact Hn; rewrite local_eqb_neq by (intros E; exact (Hfl _ (eq_sym E))); exact H|]. split; [rewrite set_nth_length; exact Hl|].
    intros j g b' H1 H2 H3. rewrite fetch_store by exact Hn. rewrite (nth_set flags i j true b Hb) in H2. destruct (Nat.eqb j i) eqn:Ej.
    - apply Nat.eqb_eq in Ej as ->. assert (g = f) as -> by congruence. rewrite local_eqb_refl. congruence.
    - rewrite local_eqb_neq; [exact (Hg j g b' H1 H2 H3)|]. intros E. apply Hflag in E. apply Nat.eqb_neq in Ej. apply Ej.
      pose proof (named_nth fs j g Hnames H1) as N1. pose proof (named_nth fs i f Hnames Hf) as N2. rewrite E in N1. congruence.
  Qed.
  (** A flag that is not required plays no role. *)
  Lemma inv_other ls z flags i f : inv ls z flags -> nth_error fs i = Some f -> f_req f = false -> inv ls z (set_nth flags i true).
  Proof.
    intros [H [Hl Hg]] Hf Hr. split; [exact H|]. split; [rewrite set_nth_length; exact Hl|]. intros j g b' H1 H2 H3. apply (Hg j g b' H1); [|exact H3].
    destruct (nth_error flags i) as [b|] eqn:E.
    - rewrite (nth_set flags i j true b E) in H2. destruct (Nat.eqb j i) eqn:Ej; [|exact H2]. apply Nat.eqb_eq in Ej as ->. congruence.
    - apply nth_error_None in E. assert (i < List.length fs)%nat by (apply nth_error_Some; congruence). lia.
  Qed.

  Lemma round_eq fuel st : scoped fs default1 run fuel round_code st =
    match exec_all fuel [Let ft (Result (ReadHeader last)); If (IsZero ft) [Break];
     Match last (map (fun f => (f_id f, set_of f ++ [Do (FillField (f_name f) ft)])) fs) [Do (SkipField ft)]] st with ((s, v, ls), w) => ((s, v, leave (List.length (snd st)) ls), w) end.
  Proof. reflexivity. Qed.
  Lemma rounds_ok fuel n ls z flags vs s name : inv ls z flags ->
    let r := rounds fs default1 run fuel round_code n (s, VStruct vs, ls) in
    (exists s' vs' ls' z' flags', r = ((s', VStruct vs', ls'), Next) /\ inv ls' z' flags' /\ List.length ls' = List.length ls /\
       struct_loop c I name fs fill_field1 skip1 n z flags vs s =
         (s', vs', match first_missing fs flags' with Some f => Err (MissingField (name ++ "::" ++ f)%string) | None => Ok tt end)) \/
    (exists s' vs' ls' o, r = ((s', VStruct vs', ls'), Done o) /\ struct_loop c I name fs fill_field1 skip1 n z flags vs s = (s', vs', o)).
  Proof.
    revert ls z flags vs s. induction n as [|n IH]; intros ls z flags vs s Hi; cbn [rounds struct_loop].
    { right. eexists _, _, _, _. split; reflexivity. }
    rewrite !round_eq, !exec_cons, !exec_let. cbn [ask run_read snd]. destruct Hi as [Hlast Hg]. rewrite Hlast.
    destruct (read_field_header c I z s) as [s1 [[t z']|e|p]]; cbn [read_error]; [|right; eexists _, _, _, _; split; reflexivity|right; eexists _, _, _, _; split; reflexivity].
    pose proof (inv_last ls z z' flags (conj Hlast Hg)) as Hi. set (ls1 := store ls last (HInt z')) in *.
    assert (Hlen : List.length ls1 = List.length ls) by apply store_length.
    rewrite exec_cons, exec_if. cbn [holds fetch]. rewrite local_eqb_refl. destruct (t =? 0) eqn:Et.
    { cbn [scoped exec_all exec]. unfold scoped. cbn [exec_all exec snd]. rewrite leave_same. rewrite (leave_cons _ _ _ Hlen). left. eexists _, _, _, _, _. split; [reflexivity|]. split; [exact Hi|]. split; [exact Hlen|].
      destruct (first_missing fs flags); reflexivity. }
    rewrite exec_cons, (exec_match _ _ _ _ _ _ _ _ _ _ z') by (cbn [fetch]; rewrite (local_eqb_neq _ _ Hlf); exact (proj1 Hi)). rewrite arms_find. unfold scoped.
    destruct (find_field fs z') as [[i f]|] eqn:Ef.
    - pose proof (find_nth _ _ _ _ Ef) as Hf. pose proof (named_find _ _ _ _ Hnames Ef) as Hnm. rewrite exec_app.
      match goal with |- context [RustCode.exec_all _ _ _ _ (set_of f) ?x] => set (st1 := x) end.
      assert (exists ls2, inv ls2 z' (set_nth flags i true) /\ List.length ls2 = List.length ls /\ exec_all fuel (set_of f) st1 = ((s1, VStruct vs, (ft, HInt t) :: ls2), Next)) as (ls2 & Hi2 & Hl2 & ->).
      { subst st1. unfold set_of. destruct (f_req f) eqn:Er.
        - exists (store ls1 (flag (f_name f)) (HFlag true)). split; [exact (inv_flag _ _ _ _ _ Hi Hf Er)|]. split; [rewrite store_length; exact Hlen|].
          cbn [exec_all exec fetch store]. rewrite (local_eqb_neq _ _ (Hff _)).
          destruct (nth_error flags i) as [b|] eqn:Eb; [rewrite (proj2 (proj2 Hi) i f b Hf Eb Er); reflexivity|].
          apply nth_error_None in Eb. assert (i < List.length fs)%nat by (apply nth_error_Some; congruence). destruct Hg as [Hg _]. lia.
        - exists ls1. split; [exact (inv_other _ _ _ _ _ Hi Hf Er)|]. split; [exact Hlen|]. reflexivity. }
      subst st1. rewrite exec_cons, exec_do. cbn [ask run_read fetch snd exec_all]. rewrite local_eqb_refl, Hnm. destruct (nth_error vs i) as [w|] eqn:Ev.
      + destruct (fill_field1 (field_ty f) t w s1) as [[s2 w'] [[]|e|p]]; cbn [result].
        * rewrite (leave_len (List.length ((ft, HInt t) :: ls1)) ((ft, HInt t) :: ls2)) by (cbn [List.length]; congruence). rewrite (leave_cons (List.length ls) _ ls2 Hl2). destruct (IH ls2 z' (set_nth flags i true) (set_nth vs i w') s2 Hi2) as [(s' & vs' & ls' & z2 & fl & H1 & H2 & H3 & H4)|H]; [left|right; exact H].
          exists s', vs', ls', z2, fl. split; [exact H1|]. split; [exact H2|]. split; [congruence|exact H4].
        * right. eexists _, _, _, _. split; reflexivity.
        * right. eexists _, _, _, _. split; reflexivity.
      + right. eexists _, _, _, _. split; reflexivity.
    - rewrite exec_cons, exec_do. cbn [ask run_read fetch snd exec_all]. rewrite local_eqb_refl. destruct (skip1 t s1) as [s2 [[]|e|p]]; cbn [result].
      + rewrite leave_same. rewrite (leave_cons (List.length ls) _ ls1 Hlen).
        destruct (IH ls1 z' flags vs s2 Hi) as [(s' & vs' & ls' & z2 & fl & H1 & H2 & H3 & H4)|H]; [left|right; exact H].
        exists s', vs', ls', z2, fl. split; [exact H1|]. split; [exact H2|]. split; [congruence|exact H4].
      + right. eexists _, _, _, _. split; reflexivity.
      + right. eexists _, _, _, _. split; reflexivity.
  Qed.

  Definition declare (f : field) : list stmt := if f_req f then [Let (flag (f_name f)) (Flag false)] else [].
  Definition demand (name : string) (f : field) : list stmt :=
    if f_req f then [If (NotSet (flag (f_name f))) [ReturnErr (MissingField (name ++ "::" ++ f_name f)%string) false]] else [].
  Lemma declare_ok fuel l s v ls : exists ls', exec_all fuel (flat_map declare l) (s, v, ls) = ((s, v, ls'), Next) /\
    (forall f, In f l -> f_req f = true -> fetch ls' (flag (f_name f)) = Some (HFlag false)) /\
    (forall x, (forall a, x <> flag a) -> fetch ls' x = fetch ls x).
  Proof.
    assert (G : forall l ls, exists ls', exec_all fuel (flat_map declare l) (s, v, ls) = ((s, v, ls'), Next) /\
      (forall x, fetch ls x = Some (HFlag false) -> fetch ls' x = Some (HFlag false)) /\
      (forall f, In f l -> f_req f = true -> fetch ls' (flag (f_name f)) = Some (HFlag false)) /\ (forall x, (forall a, x <> flag a) -> fetch ls' x = fetch ls x)).
    { clear l ls. induction l as [|f l IH]; intros ls; cbn [flat_map].
      { exists ls. split; [reflexivity|]. split; [auto|]. split; [intros f []|reflexivity]. }
      unfold declare at 1. destruct (f_req f) eqn:Er.
      - cbn [app]. rewrite exec_cons. cbn [exec]. destruct (IH ((flag (f_name f), HFlag false) :: ls)) as (ls' & H1 & H2 & H3 & H4). exists ls'. split; [exact H1|]. split; [|split].
        + intros x Hx. apply H2. cbn [fetch]. destruct (local_eqb x _); [reflexivity|exact Hx].
        + intros g [<-|Hg] Hr; [|exact (H3 g Hg Hr)]. apply H2. cbn [fetch]. rewrite local_eqb_refl. reflexivity.
        + intros x Hx. rewrite (H4 x Hx). cbn [fetch]. rewrite (local_eqb_neq _ _ (Hx _)). reflexivity.
      - cbn [app]. destruct (IH ls) as (ls' & H1 & H2 & H3 & H4). exists ls'. split; [exact H1|]. split; [exact H2|]. split; [|exact H4].
        intros g [<-|Hg] Hr; [congruence|exact (H3 g Hg Hr)]. }
    destruct (G l ls) as (ls' & H1 & _ & H3 & H4). exists ls'. auto.
  Qed.
  Lemma demand_ok fuel name l flags s v ls : List.length flags = List.length l ->
    (forall i f b, nth_error l i = Some f -> nth_error flags i = Some b -> f_req f = true -> fetch ls (flag (f_name f)) = Some (HFlag b)) ->
    exists ls', exec_all fuel (flat_map (demand name) l ++ [Finish]) (s, v, ls) =
      ((s, v, ls'), Done (match first_missing l flags with Some f => Err (MissingField (name ++ "::" ++ f)%string) | None => Ok tt end)).
  Proof.
    revert flags. induction l as [|f l IH]; intros [|b flags] Hl H; try discriminate; cbn [flat_map app first_missing].
    { exists ls. reflexivity. }
    assert (Hrest : forall i g b', nth_error l i = Some g -> nth_error flags i = Some b' -> f_req g = true -> fetch ls (flag (f_name g)) = Some (HFlag b')) by (intros i; exact (H (Datatypes.S i))).
    injection Hl as Hl. destruct (IH flags Hl Hrest) as (ls' & E). unfold demand at 1. destruct (f_req f) eqn:Er; cbn [andb app]; [|exists ls'; exact E].
    rewrite exec_cons, exec_if. cbn [holds]. rewrite (H O f b eq_refl eq_refl Er). destruct b; cbn [negb]; [exists ls'; exact E|].
    unfold scoped. cbn [exec_all exec snd]. eexists. reflexivity.
  Qed.
  Lemma struct_body fuel name pre s vs : (exists ls, exec_all fuel pre (s, VStruct vs, []) = ((s, VStruct vs, ls), Next) /\ inv ls 0 (map (fun _ => false) fs)) ->
    method fs default1 run fuel (pre ++ [Loop round_code] ++ flat_map (demand name) fs ++ [Finish]) (VStruct vs) s =
    match struct_loop c I name fs fill_field1 skip1 fuel 0 (map (fun _ => false) fs) vs s with (s', vs', o) => (s', VStruct vs', o) end.
  Proof.
    intros (ls & Hp & Hi). unfold method. rewrite exec_app, Hp. cbn [app]. rewrite exec_cons, exec_loop.
    destruct (rounds_ok fuel fuel ls 0 _ vs s name Hi) as [(s' & vs' & ls' & z & fl & H1 & H2 & _ & H4)|(s' & vs' & ls' & o & H1 & H2)].
    - rewrite H1, H4. destruct (demand_ok fuel name fs fl s' (VStruct vs') ls' (proj1 (proj2 H2)) (proj2 (proj2 H2))) as (ls2 & E). rewrite E. reflexivity.
    - rewrite H1, H2. reflexivity.
  Qed.
  Lemma inv_start ls : fetch ls last = Some (HInt 0) -> (forall f, In f fs -> f_req f = true -> fetch ls (flag (f_name f)) = Some (HFlag false)) -> inv ls 0 (map (fun _ => false) fs).
  Proof.
    intros H1 H2. split; [exact H1|]. split; [apply map_length|]. intros i f b Hf Hb Hr. rewrite (H2 f (nth_error_In _ _ Hf) Hr). rewrite nth_error_map, Hf in Hb. cbn in Hb. congruence.
  Qed.
End Struct.

(** * Structs *)
Lemma struct_fill_ok {S} c (I : input S) fs default1 fill1 fill_field1 skip1 fuel name vs s : NoDup (map f_name fs) ->
  method fs default1 (run_read fs c I fill1 fill_field1 skip1) fuel (struct_fill_code name fs) (VStruct vs) s =
  match struct_loop c I name fs fill_field1 skip1 fuel 0 (map (fun _ => false) fs) vs s with (s', vs', o) => (s', VStruct vs', o) end.
Proof.
  intros Hn. unfold struct_fill_code. rewrite app_assoc.
  apply (struct_body c I fs default1 fill1 fill_field1 skip1 given last_field_id field_type_); try exact Hn; try (intros; discriminate).
  - intros a b H. injection H. auto.
  - destruct (declare_ok c I fs default1 fill1 fill_field1 skip1 given fuel fs s (VStruct vs) [(last_field_id, HInt 0)]) as (ls & H1 & H2 & H3).
    exists ls. split; [exact H1|]. apply inv_start; [|exact H2]. rewrite H3; [reflexivity|discriminate].
Qed.
Lemma fill_struct_code {S} c (I : input S) E d n fs vs s : lookup E n = Some (DStruct fs) -> NoDup (map f_name fs) ->
  fill c I E (Datatypes.S d) (TNamed n) (VStruct vs) s =
  method fs (default E d) (run_read fs c I (fill c I E d) (fill_field c I E d) (fun ft => skip_field c I d ft false)) (Datatypes.S (in_left I s)) (struct_fill_code n fs) (VStruct vs) s.
Proof. intros Hl Hn. rewrite struct_fill_ok by exact Hn. cbn [fill]. rewrite Hl. reflexivity. Qed.

(** * Unions *)
Definition union_result {S} c (I : input S) (default1 : ty -> option value) (fill1 : ty -> F S) (unknown : error) (fs : list field) (v : value) (s : S) : S * value * outcome unit :=
  match read_field_header c I 0 s with
  | (s1, Err e) => (s1, v, Err e)
  | (s1, Panic p) => (s1, v, Panic p)
  | (s1, Ok (ft, last)) =>
      if ft =? 0 then (s1, v, Err InvalidType)
      else match find_field fs last with
           | None => (s1, v, Err unknown)
           | Some (i, f) =>
               match default1 (f_ty f) with
               | None => (s1, v, Panic PStack)
               | Some dv => match fill1 (f_ty f) dv s1 with
                            | (s2, w, Ok _) => match in_read_byte I s2 with
                                               | (s3, Ok stop) => (s3, VUnion i w, if stop =? 0 then Ok tt else Err MissingStop)
                                               | (s3, o) => (s3, VUnion i w, failed o)
                                               end
                            | (s2, w, o) => (s2, VUnion i w, o)
                            end
               end
           end
  end.
Section Union.
  Context {S : Type}.
  Variable c : cfg.
  Variable I : input S.
  Variable fs : list field.
  Variable default1 : ty -> option value.
  Variable fill1 : ty -> F S.
  Variable fill_field1 : ty -> Z -> F S.
  Variable skip1 : Z -> M S unit.
  Variables last ft stop : local.
  Variable unknown : error.
  Hypothesis Hnames : NoDup (map f_name fs).
  Hypothesis Hlf : last <> ft.
  Notation run := (run_read fs c I fill1 fill_field1 skip1).
  Definition union_body : list stmt :=
    [Let last (Num 0); Let ft (Result (ReadHeader last)); If (IsZero ft) [ReturnErr InvalidType true];
     Match last (map (fun f => (f_id f, [SetVariant (f_name f); MatchSelf [(f_name f, FillInner)] true])) fs) [ReturnErr unknown false];
     Let stop (Result ReadByte); If (NotZero stop) [ReturnErr MissingStop false]; Finish].
  Lemma exec_variant fuel f s v ls : exec fs default1 run fuel (SetVariant (f_name f)) (s, v, ls) =
    match named fs (f_name f) with
    | Some (i, g) => match default1 (f_ty g) with Some dv => ((s, VUnion i dv, ls), Next) | None => ((s, v, ls), Done (Panic PStack)) end
    | None => ((s, v, ls), Done ill)
    end.
  Proof. reflexivity. Qed.
  Lemma union_body_ok fuel v s : method fs default1 run fuel union_body v s = union_result c I default1 fill1 unknown fs v s.
  Proof.
    unfold method, union_body, union_result. rewrite exec_cons. cbn [exec]. rewrite exec_cons, exec_let. cbn [ask run_read fetch]. rewrite local_eqb_refl.
    destruct (read_field_header c I 0 s) as [s1 [[t z]|e|p]]; cbn [read_error]; [|reflexivity|reflexivity]. cbn [store]. rewrite local_eqb_refl.
    rewrite exec_cons, exec_if. cbn [holds fetch]. rewrite local_eqb_refl. destruct (t =? 0); [reflexivity|].
    rewrite exec_cons, (exec_match _ _ _ _ _ _ _ _ _ _ z) by (cbn [fetch]; rewrite (local_eqb_neq _ _ Hlf), local_eqb_refl; reflexivity). rewrite arms_find. unfold scoped.
    destruct (find_field fs z) as [[i f]|] eqn:Ef; [|reflexivity]. rewrite exec_cons, exec_variant, (named_find _ _ _ _ Hnames Ef).
    destruct (default1 (f_ty f)) as [dv|]; [|reflexivity]. rewrite exec_cons. cbn [exec]. rewrite (find_nth _ _ _ _ Ef). cbn [variant_arm]. rewrite String.eqb_refl. cbn [ask run_read].
    rewrite (find_nth _ _ _ _ Ef). destruct (fill1 (f_ty f) dv s1) as [[s2 w] [[]|e|p]]; cbn [result]; [|reflexivity|reflexivity]. cbn [exec_all snd]. rewrite leave_same.
    rewrite exec_let. cbn [ask run_read]. destruct (in_read_byte I s2) as [s3 [b|e|p]]; [|reflexivity|reflexivity].
    rewrite exec_if. cbn [holds fetch]. rewrite local_eqb_refl. destruct (b =? 0); reflexivity.
  Qed.
End Union.
Lemma fill_union_code {S} c (I : input S) E d n fs v s fuel : lookup E n = Some (DUnion fs) -> NoDup (map f_name fs) ->
  fill c I E (Datatypes.S d) (TNamed n) v s =
  method fs (default E d) (run_read fs c I (fill c I E d) (fill_field c I E d) (fun ft => skip_field c I d ft false)) fuel (union_fill_code fs) v s.
Proof.
  intros Hl Hn. change (union_fill_code fs) with (union_body fs last_field_id field_type_ stop_ (MissingField "$struct_name")).
  rewrite union_body_ok; [|exact Hn|discriminate]. cbn [fill]. rewrite Hl. reflexivity.
Qed.
Lemma fill_enum_code {S} c (I : input S) E d n v s fuel default1 fill1 fill_field1 skip1 : lookup E n = Some DEnum ->
  fill c I E (Datatypes.S d) (TNamed n) v s = method [] default1 (run_read [] c I fill1 fill_field1 skip1) fuel enum_fill_code v s.
Proof.
  intros Hl. cbn [fill]. rewrite Hl. unfold assign, method. cbn [enum_fill_code exec_all exec ask run_read]. destruct (read_i32 c I s) as [s1 [z|e|p]]; reflexivity.
Qed.

(** * Writing *)
Section Write.
  Context {W : Type}.
  Variable write_all : list Z -> M W unit.
  Variable E : env.
  Variable fs : list field.
  Variable default1 : ty -> option value.
  Variable last : local.
  Notation run := (run_write fs write_all (write_thrift_field write_all E)).
  Hypothesis Hnames : NoDup (map f_name fs).
  Definition zipped (vs : list value) (fs : list field) : list (wmethods W) :=
    (fix zip (vs : list value) (fs : list field) : list (wmethods W) :=
                         match vs, fs with
                         | w :: vs', f :: fs' => writer write_all E w (field_ty f) :: zip vs' fs'
                         | w :: vs', [] => ill_typed :: zip vs' []
                         | [], _ => []
                         end) vs fs.
  Lemma write_rest fuel done todo vs1 vs2 s z ls : fs = done ++ todo -> List.length vs1 = List.length done -> List.length vs2 = List.length todo -> fetch ls last = Some (HInt z) ->
    exists ls', exec_all fs default1 run fuel (map (fun f => Do (WriteField (f_name f) (f_id f) last)) todo) (s, VStruct (vs1 ++ vs2), ls) =
      match write_fields (zipped vs2 todo) todo z s with (s', Ok _) => ((s', VStruct (vs1 ++ vs2), ls'), Next) | (s', o) => ((s', VStruct (vs1 ++ vs2), ls'), Done o) end.
  Proof.
    revert done vs1 vs2 s z ls. induction todo as [|f todo IH]; intros done vs1 [|v vs2] s z ls Hfs H1 H2 Hz; try discriminate; cbn [map zipped write_fields].
    { exists ls. reflexivity. }
    rewrite exec_cons, exec_do. cbn [ask run_write]. rewrite Hz.
    assert (Hf : nth_error fs (List.length done) = Some f) by (rewrite Hfs, nth_error_app2, Nat.sub_diag by lia; reflexivity).
    rewrite (named_nth fs _ f Hnames Hf). rewrite <- H1, nth_error_app2, Nat.sub_diag by lia. cbn [nth_error].
    unfold write_thrift_field, bind. destruct (wfield (writer write_all E v (field_ty f)) (f_id f) z s) as [s1 [z'|e|p]]; cbn [read_error]; [|eexists; reflexivity|eexists; reflexivity].
    destruct (IH (done ++ [f]) (vs1 ++ [v]) vs2 s1 z' (store ls last (HInt z'))) as (ls' & H).
    - rewrite <- app_assoc. exact Hfs.
    - rewrite !app_length, H1. reflexivity.
    - injection H2 as H2. exact H2.
    - rewrite fetch_store, local_eqb_refl by congruence. reflexivity.
    - exists ls'. rewrite <- !app_assoc in H. exact H.
  Qed.
  Lemma struct_write_body fuel pre vs s : List.length vs = List.length fs ->
    (exists ls, exec_all fs default1 run fuel pre (s, VStruct vs, []) = ((s, VStruct vs, ls), Next) /\ (fs <> [] -> fetch ls last = Some (HInt 0))) ->
    method fs default1 run fuel (pre ++ map (fun f => Do (WriteField (f_name f) (f_id f) last)) fs ++ [Do (WriteByte 0); Finish]) (VStruct vs) s =
    match (write_fields (zipped vs fs) fs 0 ;; write_byte write_all 0) s with (s', o) => (s', VStruct vs, o) end.
  Proof.
    intros Hl (ls & Hp & Hz). unfold method. rewrite exec_app, Hp, exec_app.
    assert (exists ls', exec_all fs default1 run fuel (map (fun f => Do (WriteField (f_name f) (f_id f) last)) fs) (s, VStruct vs, ls) =
      match write_fields (zipped vs fs) fs 0 s with (s', Ok _) => ((s', VStruct vs, ls'), Next) | (s', o) => ((s', VStruct vs, ls'), Done o) end) as (ls' & H).
    { assert (Hd : fs = [] \/ fs <> []) by (destruct fs; [left; reflexivity|right; discriminate]). destruct Hd as [Hd|Hd].
      - rewrite Hd in *. destruct vs; [|discriminate]. exists ls. reflexivity.
      - exact (write_rest fuel [] fs [] vs s 0 ls eq_refl eq_refl Hl (Hz Hd)). }
    rewrite H. unfold bind. destruct (write_fields (zipped vs fs) fs 0 s) as [s1 [[]|e|p]]; [|reflexivity|reflexivity].
    rewrite exec_cons, exec_do. cbn [ask run_write]. destruct (write_byte write_all 0 s1) as [s2 [[]|e|p]]; reflexivity.
  Qed.
End Write.
Lemma write_struct_code {W} (write_all : list Z -> M W unit) E n fs vs s fuel default1 : lookup E n = Some (DStruct fs) -> NoDup (map f_name fs) -> List.length vs = List.length fs ->
  method fs default1 (run_write fs write_all (write_thrift_field write_all E)) fuel (struct_write_code fs) (VStruct vs) s =
  match write_thrift write_all E (TNamed n) (VStruct vs) s with (s', o) => (s', VStruct vs, o) end.
Proof.
  intros Hl Hn Hlen. unfold struct_write_code.
  etransitivity; [exact (struct_write_body write_all E fs default1 last_field_id Hn fuel [Let last_field_id (Num 0)] vs s Hlen (ex_intro _ _ (conj eq_refl (fun _ => eq_refl))))|].
  unfold write_thrift. cbn [writer]. rewrite Hl. reflexivity.
Qed.
Section WriteUnion.
  Context {W : Type}.
  Variable write_all : list Z -> M W unit.
  Variable E : env.
  Variable fs : list field.
  Variable default1 : ty -> option value.
  Variable last : local.
  Hypothesis Hnames : NoDup (map f_name fs).
  Lemma variant_arm_nth {A} (g : field -> A) i f : nth_error fs i = Some f -> variant_arm (map (fun f => (f_name f, g f)) fs) (f_name f) = Some (g f).
  Proof.
    revert i Hnames. induction fs as [|h l IH]; intros [|i] Hn H; try discriminate; cbn [map] in Hn; apply NoDup_cons_iff in Hn as [Hi Hn]; cbn [map variant_arm]; cbn [nth_error] in H.
    - injection H as <-. rewrite String.eqb_refl. reflexivity.
    - destruct (String.eqb (f_name f) (f_name h)) eqn:Ee; [|exact (IH i Hn H)]. apply String.eqb_eq in Ee. exfalso. apply Hi. rewrite <- Ee. apply in_map. exact (nth_error_In _ _ H).
  Qed.
  Lemma union_write_body fuel i w f s (tail : list stmt) : nth_error fs i = Some f -> tail = [Do (WriteByte 0); Finish] \/ tail = [Tail (WriteByte 0)] ->
    method fs default1 (run_write fs write_all (write_thrift_field write_all E)) fuel
      ([Let last (Num 0); MatchSelf (map (fun f => (f_name f, WriteInner (f_id f) last)) fs) false] ++ tail) (VUnion i w) s =
    match (let! _ := wfield (writer write_all E w (f_ty f)) (f_id f) 0 in write_byte write_all 0) s with (s', o) => (s', VUnion i w, o) end.
  Proof.
    intros Hf Ht. unfold method. cbn [app]. rewrite exec_cons. cbn [exec]. rewrite exec_cons. cbn [exec]. rewrite Hf, (variant_arm_nth _ i f Hf). cbn [ask run_write fetch]. rewrite local_eqb_refl, Hf.
    unfold write_thrift_field, bind. destruct (wfield (writer write_all E w (f_ty f)) (f_id f) 0 s) as [s1 [z|e|p]]; [|reflexivity|reflexivity].
    destruct Ht as [-> | ->]; rewrite exec_cons; cbn [exec ask run_write]; destruct (write_byte write_all 0 s1) as [s2 [[]|e|p]]; reflexivity.
  Qed.
End WriteUnion.
Lemma write_union_code {W} (write_all : list Z -> M W unit) E n fs i w f s fuel default1 : lookup E n = Some (DUnion fs) -> NoDup (map f_name fs) -> nth_error fs i = Some f ->
  method fs default1 (run_write fs write_all (write_thrift_field write_all E)) fuel (union_write_code fs) (VUnion i w) s =
  match write_thrift write_all E (TNamed n) (VUnion i w) s with (s', o) => (s', VUnion i w, o) end.
Proof.
  intros Hl Hn Hf. etransitivity; [exact (union_write_body write_all E fs default1 last_field_id Hn fuel i w f s _ Hf (or_introl eq_refl))|].
  unfold write_thrift. cbn [writer]. rewrite Hl, Hf. reflexivity.
Qed.
Lemma write_enum_code {W} (write_all : list Z -> M W unit) E n z s fuel default1 write_field1 : lookup E n = Some DEnum ->
  method [] default1 (run_write [] write_all write_field1) fuel enum_write_code (VI32 z) s =
  match write_thrift write_all E (TNamed n) (VI32 z) s with (s', o) => (s', VI32 z, o) end.
Proof. intros Hl. unfold write_thrift. cbn [writer]. rewrite Hl. unfold method. cbn [enum_write_code exec_all exec ask run_write with_default wplain]. destruct (write_i32 write_all z s) as [s1 [[]|e|p]]; reflexivity. Qed.
