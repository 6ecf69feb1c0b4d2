(** Which definition an error of decoding is about. *)
From Coq Require Import Ascii.
From Verif Require Import Base Uleb Utf8 Protocol Encodings Types Parquet SpecBlame.
Open Scope Z_scope.

(** [tells P m]: the errors of [m] are in [P]. *)
Definition tells {S A} (P : error -> Prop) (m : M S A) : Prop := forall s s' e, m s = (s', Err e) -> P e.
Definition tells_f {S} (P : error -> Prop) (m : F S) : Prop := forall v s s' v' e, m v s = (s', v', Err e) -> P e.
Inductive plain : error -> Prop :=
| Pl_number : plain InvalidNumber
| Pl_string : plain InvalidString
| Pl_binary n : MAX_BINARY_LEN < n -> plain (InvalidBinaryLen n)
| Pl_collection : plain InvalidCollectionLen
| Pl_duplicate : plain DuplicateField
| Pl_type : plain InvalidType
| Pl_reserve : plain ReserveError
| Pl_io k : plain (IO k).
#[local] Hint Constructors plain : core.

Lemma tells_ret {S A} P (a : A) : tells P (@ret S A a). Proof. intros s s' e [= ]. Qed.
Lemma tells_crash {S A} P p : tells P (@crash S A p). Proof. intros s s' e [= ]. Qed.
Lemma tells_fail {S A} (P : error -> Prop) e : P e -> tells P (@fail S A e). Proof. intros H s s' e' [= _ <-]. exact H. Qed.
Lemma tells_bind {S A B} P (m : M S A) (f : A -> M S B) : tells P m -> (forall a, tells P (f a)) -> tells P (bind m f).
Proof. intros H K s s' e. unfold bind. destruct (m s) as (s1, [a|x|p]) eqn:Em; intros Eq; [exact (K a _ _ _ Eq)|injection Eq as _ <-; exact (H _ _ _ Em)|discriminate]. Qed.
Lemma tells_repeat {S} P n (m : M S unit) : tells P m -> tells P (repeatM n m).
Proof. intros H. induction n as [|n IH]; cbn [repeatM]; [apply tells_ret|]. apply tells_bind; [exact H|]. intros _. exact IH. Qed.
Lemma tells_if {S A} P (b : bool) (m n : M S A) : tells P m -> tells P n -> tells P (if b then m else n).
Proof. destruct b; auto. Qed.
Lemma tells_uleb {S} P c (rb : M S Z) left : tells P rb -> tells P (decode_uleb c rb left).
Proof.
  intros H. assert (L : forall n shift value, tells P (decode_uleb_loop c rb n shift value)).
  { induction n as [|n IH]; intros shift value; cbn [decode_uleb_loop]; [apply tells_crash|]. apply tells_bind; [exact H|]. intros b. cbv zeta.
    apply tells_if; [apply tells_crash|]. apply tells_if; [apply tells_ret|apply IH]. }
  intros s s' e. unfold decode_uleb. apply L.
Qed.

Record honest {S} (I : input S) : Prop := {
  h_byte : tells plain (in_read_byte I);
  h_double : tells plain (in_read_double I);
  h_binary : tells plain (in_read_binary I);
  h_skip_integer : tells plain (in_skip_integer I);
  h_skip_binary : tells plain (in_skip_binary I)
}.
Lemma slice_byte_tells : tells plain slice_read_byte. Proof. intros [|b s] s' e [= ]; subst; auto. Qed.
Lemma slice_honest c : honest (slice_input c).
Proof.
  constructor; cbn [slice_input in_read_byte in_read_double in_read_binary in_skip_integer in_skip_binary].
  - exact slice_byte_tells.
  - intros s s' e. unfold slice_read_double. destruct (zlen s <? 8); intros [= ]; subst; auto.
  - unfold slice_read_binary, read_len_with. apply tells_bind; [apply tells_bind; [apply tells_uleb, slice_byte_tells|intros; apply tells_ret]|]. intros n.
    destruct (MAX_BINARY_LEN <? n) eqn:L; [apply tells_fail; constructor; lia|]. intros s s' e. destruct (zlen s <? n); intros [= ]; subst; auto.
  - unfold slice_skip_integer. apply tells_if.
    + intros s s' e. unfold skip_uleb_sse2, skip_uleb_fallback. cbv zeta.
      repeat match goal with |- context [if ?x then _ else _] => destruct x end; discriminate.
    + apply tells_bind; [apply tells_uleb, slice_byte_tells|intros; apply tells_ret].
  - unfold slice_skip_binary, read_len_with. apply tells_bind; [apply tells_bind; [apply tells_uleb, slice_byte_tells|intros; apply tells_ret]|]. intros n.
    destruct (MAX_BINARY_LEN <? n) eqn:L; [apply tells_fail; constructor; lia|]. intros s s' e. destruct (zlen s <? n); intros [= ]; subst; auto.
Qed.
Lemma exact_tells n : tells plain (read_exact n).
Proof.
  intros r. unfold read_exact. revert n. induction r as [|ev r IH]; intros [|n] r' e; cbn [read_exact_go]; try discriminate.
  - intros [= _ <-]. auto.
  - destruct ev as [[|b ch]| |k].
    + intros [= _ <-]. auto.
    + destruct (Nat.leb _ _); [|discriminate]. destruct (read_exact_go r _) as (r2, [l|x|p]) eqn:G; try discriminate. intros [= _ <-]. exact (IH _ _ _ G).
    + apply IH.
    + destruct k; first [apply IH|intros [= _ <-]; auto].
Qed.
Lemma reader_byte_tells : tells plain reader_read_byte. Proof. apply tells_bind; [apply exact_tells|intros; apply tells_ret]. Qed.
Lemma reader_binary_tells c : tells plain (reader_read_binary c).
Proof.
  unfold reader_read_binary, read_len_with. apply tells_bind; [apply tells_bind; [apply tells_uleb, reader_byte_tells|intros; apply tells_ret]|]. intros n.
  destruct (MAX_BINARY_LEN <? n) eqn:L; [apply tells_fail; constructor; lia|apply exact_tells].
Qed.
Lemma reader_honest c : honest (reader_input c).
Proof.
  constructor; cbn [reader_input in_read_byte in_read_double in_read_binary in_skip_integer in_skip_binary].
  - exact reader_byte_tells.
  - apply tells_bind; [apply exact_tells|intros; apply tells_ret].
  - apply reader_binary_tells.
  - apply tells_bind; [apply tells_uleb, reader_byte_tells|intros; apply tells_ret].
  - apply tells_bind; [apply reader_binary_tells|intros; apply tells_ret].
Qed.

Section Blame.
  Context {S : Type} (c : cfg) (I : input S) (H : honest I) (E : env).
  Lemma uleb_tells : tells plain (decode_uleb c (in_read_byte I) (in_left I)).
  Proof. apply tells_uleb, H. Qed.
  Lemma len_tells : tells plain (read_len c I).
  Proof. apply tells_bind; [apply uleb_tells|intros; apply tells_ret]. Qed.
  Lemma header_tells last : tells plain (read_field_header c I last).
  Proof.
    apply tells_bind; [apply H|]. intros b. apply tells_if; [apply tells_ret|]. cbv zeta. apply tells_if; [apply tells_if; [apply tells_crash|apply tells_ret]|].
    apply tells_bind; [apply tells_bind; [apply uleb_tells|intros; apply tells_ret]|intros; apply tells_ret].
  Qed.
  Lemma collection_tells : tells plain (read_collection_len_and_type c I).
  Proof.
    apply tells_bind; [apply H|]. intros b. cbv zeta. apply tells_bind; [apply tells_if; [apply tells_ret|apply len_tells]|]. intros n. apply tells_if; [apply tells_fail; auto|apply tells_ret].
  Qed.
  Lemma map_tells : tells plain (read_map_len_and_types c I).
  Proof.
    apply tells_bind; [apply len_tells|]. intros n. apply tells_if; [apply tells_ret|]. apply tells_bind; [apply H|]. intros b. cbv zeta. apply tells_if; [apply tells_fail; auto|apply tells_ret].
  Qed.
  Lemma discard_tells {A} (m : M S A) : tells plain m -> tells plain (discard m).
  Proof. intros K. apply tells_bind; [exact K|intros; apply tells_ret]. Qed.
  Lemma skip_tells d : (forall ft b, tells plain (skip_field c I d ft b)) /\ tells plain (skip_collection c I d) /\ tells plain (skip_map c I d).
  Proof.
    induction d as [|d (IH1 & IH2 & IH3)]; [repeat split; intros; apply tells_crash|]. split; [|split].
    - intros ft b. cbn [skip_field]. repeat first [apply tells_if | apply tells_ret | apply discard_tells | apply IH1 | apply IH2 | apply IH3 | apply H | apply tells_fail; constructor].
      intros s. generalize (Datatypes.S (in_left I s)) as fuel. intros fuel. generalize 0 as last. revert s. induction fuel as [|fuel IH]; intros s last; cbn [skip_struct_loop]; [apply tells_crash|].
      revert s. change (tells plain (let! x := read_field_header c I last in (let '(field_type, last') := x in if field_type =? 0 then ret tt else skip_field c I d field_type false ;; skip_struct_loop c I (fun ft0 => skip_field c I d ft0 false) fuel last'))).
      apply tells_bind; [apply header_tells|]. intros (t, l). apply tells_if; [apply tells_ret|]. apply tells_bind; [apply IH1|]. intros _ s. apply IH.
    - cbn [skip_collection]. apply tells_bind; [apply collection_tells|]. intros (n, t). cbv zeta.
      repeat first [apply tells_if | apply tells_repeat | apply discard_tells | apply IH1 | apply IH2 | apply IH3 | apply H | apply tells_fail; constructor].
    - cbn [skip_map]. apply tells_bind; [apply map_tells|]. intros ((n, k), v). apply tells_repeat. apply tells_bind; [apply IH1|intros; apply IH1].
  Qed.
  Lemma encset_tells : tells plain (encset_read c I).
  Proof.
    apply tells_bind; [apply collection_tells|]. intros (n, t). apply tells_if; [apply tells_fail; auto|]. generalize (Z.to_nat n) as k. intros k. generalize 0 as mask. induction k as [|k IH]; intros mask; cbn [encset_read_loop]; [apply tells_ret|].
    apply tells_bind; [apply tells_bind; [apply uleb_tells|intros; apply tells_ret]|]. intros v. apply tells_if; [apply tells_fail; auto|apply IH].
  Qed.
  Lemma plain_blamed t e : plain e -> blamed E t e.
  Proof. intros []; constructor; assumption. Qed.
  Lemma blamed_under t t' e : (forall n, reaches E t n -> reaches E t' n) -> blamed E t e -> blamed E t' e.
  Proof.
    intros K B. destruct B; try (econstructor; eauto; fail).
    - apply Bl_union. destruct H0 as (n & fs & R & L). exists n, fs. auto.
    - apply Bl_stop. destruct H0 as (n & fs & R & L). exists n, fs. auto.
  Qed.
  Lemma assign_tells {A} P (m : M S A) k : tells P m -> tells_f P (assign m k).
  Proof. intros K v s s' v' e. unfold assign. destruct (m s) as (s1, [a|x|p]) eqn:Em; try discriminate. intros [= _ _ <-]. exact (K _ _ _ Em). Qed.
  Lemma find_field_in fs id i f : find_field fs id = Some (i, f) -> In f fs.
  Proof.
    revert i. induction fs as [|g fs IH]; cbn [find_field]; [discriminate|]. intros i. destruct (f_id g =? id); [intros [= _ <-]; left; reflexivity|].
    destruct (find_field fs id) as [(j, h)|]; [|discriminate]. intros [= _ <-]. right. exact (IH _ eq_refl).
  Qed.
  Lemma first_missing_in fs : forall flags n, first_missing fs flags = Some n -> exists f, In f fs /\ f_req f = true /\ f_name f = n.
  Proof.
    induction fs as [|f fs IH]; intros [|b flags] n; cbn [first_missing]; try discriminate. destruct (f_req f && negb b) eqn:R.
    - intros [= <-]. apply andb_prop in R as (R & _). exists f. split; [left; reflexivity|auto].
    - intros Q. destruct (IH _ _ Q) as (g & J & K). exists g. split; [right; exact J|exact K].
  Qed.
  Lemma field_reaches f n : reaches E (field_ty f) n -> reaches E (f_ty f) n.
  Proof. unfold field_ty. destruct (f_req f); [trivial|]. intros R. inversion R; assumption. Qed.
  Lemma loop_blamed n fs ff sk : lookup E n = Some (DStruct fs) ->
    (forall t ft, tells_f (blamed E t) (ff t ft)) -> (forall ft, tells plain (sk ft)) ->
    forall fuel last flags ws s s1 ws' e, struct_loop c I n fs ff sk fuel last flags ws s = (s1, ws', Err e) -> blamed E (TNamed n) e.
  Proof.
    intros L IHf Hs. induction fuel as [|fuel IHn]; intros last flags ws s s1 ws' e; cbn [struct_loop]; [discriminate|].
    destruct (read_field_header c I last s) as (s2, [(ft, last')|x|p]) eqn:R; [|intros [= _ _ <-]; apply plain_blamed; exact (header_tells last _ _ _ R)|discriminate].
    destruct (ft =? 0).
    { destruct (first_missing fs flags) as [m|] eqn:Fm; [|discriminate]. intros [= _ _ <-]. destruct (first_missing_in _ _ _ Fm) as (f & J & Rq & <-). econstructor; eauto. constructor. }
    destruct (find_field fs last') as [(i, f)|] eqn:Ff.
    - destruct (nth_error ws i) as [w|]; [|discriminate]. destruct (ff (field_ty f) ft w s2) as ((s3, w'), [u|x|p]) eqn:Fl; [apply IHn| |discriminate].
      intros [= _ _ <-]. apply (blamed_under (field_ty f)); [|exact (IHf _ _ _ _ _ _ _ Fl)]. intros k K. apply field_reaches in K. exact (Rc_struct E n fs f k L (find_field_in _ _ _ _ Ff) K).
    - destruct (sk ft s2) as (s3, [u|x|p]) eqn:Sk; [apply IHn| |discriminate]. intros [= _ _ <-]. apply plain_blamed. exact (Hs _ _ _ _ Sk).
  Qed.
  Lemma fill_blamed d : (forall t, tells_f (blamed E t) (fill c I E d t)) /\ (forall t ft, tells_f (blamed E t) (fill_field c I E d t ft)).
  Proof.
    induction d as [|d (IH & IHf)]; [split; intros; intros v s s' v' e; discriminate|].
    assert (P : forall t {A} (m : M S A) k, tells plain m -> tells_f (blamed E t) (assign m k)).
    { intros t A m k K. apply assign_tells. intros s s' e Q. apply plain_blamed. exact (K _ _ _ Q). }
    assert (G : forall t, tells_f (blamed E t) (fill c I E (Datatypes.S d) t)).
    { intros t. destruct t as [| | | | | | | |t|t|t|t| |n]; cbn [fill]; try (apply P; first [apply H | apply encset_tells | apply tells_bind; [apply uleb_tells|intros; apply tells_ret]]).
      - apply P. apply tells_bind; [apply H|]. intros b. apply tells_if; [apply tells_ret|apply tells_fail; auto].
      - intros v s s' v' e. destruct (read_collection_len_and_type c I s) as (s1, [(len, et)|x|p]) eqn:R; [|intros [= _ _ <-]; apply plain_blamed; exact (collection_tells _ _ _ R)|discriminate].
        destruct (_ && _); [intros [= _ _ <-]; constructor|]. destruct (negb (reserve c len)); [intros [= _ _ <-]; constructor|].
        destruct (vec_loop _ _ _ s1) as ((s2, vs), o) eqn:L. intros [= _ _ ->]. clear R v s. revert s1 s2 vs L. generalize (default E d t) as dv. intros dv. induction (Z.to_nat len) as [|n IHn]; intros s1 s2 vs; cbn [vec_loop]; [discriminate|].
        destruct dv as [dv|]; [|discriminate]. destruct (fill c I E d t dv s1) as ((s3, w), [u|x|p]) eqn:Fl.
        + destruct (vec_loop (Some dv) (fill c I E d t) n s3) as ((s4, ws), o) eqn:L. intros [= <- <- ->]. exact (IHn _ _ _ L).
        + intros [= _ _ <-]. apply (blamed_under t); [intros; constructor; assumption|]. exact (IH t _ _ _ _ _ Fl).
        + discriminate.
      - intros v s s' v' e. assert (Q : match default E d t with None => (s, v, Panic PStack) | Some dv => match fill c I E d t dv s with (s', v', o) => (s', VSome v', o) end end = (s', v', Err e) -> blamed E (TOption t) e).
        { destruct (default E d t) as [dv|]; [|discriminate]. destruct (fill c I E d t dv s) as ((s1, w), o) eqn:Fl. intros [= _ _ ->]. apply (blamed_under t); [intros; constructor; assumption|]. exact (IH t _ _ _ _ _ Fl). }
        destruct v; try exact Q. intros [= _ _ <-]. constructor.
      - intros v s s' v' e. destruct v; try discriminate. destruct (fill c I E d t v s) as ((s1, w), o) eqn:Fl. intros [= _ _ ->]. apply (blamed_under t); [intros; constructor; assumption|]. exact (IH t _ _ _ _ _ Fl).
      - intros v s s' v' e. destruct v as [ | | | | | | | | | | | |u v| | | ]; try discriminate. destruct u; [|intros [= _ _ <-]; constructor].
        destruct (fill c I E d t v s) as ((s1, w), o) eqn:Fl. intros [= _ _ ->]. apply (blamed_under t); [intros; constructor; assumption|]. exact (IH t _ _ _ _ _ Fl).
      - intros v s s' v' e. destruct (lookup E n) as [[fs|fs|]|] eqn:L; [| | |discriminate].
        + destruct v; try discriminate. match goal with |- context [struct_loop c I n fs ?ff ?sk ?fu 0 ?fl ?vs s] => destruct (struct_loop c I n fs ff sk fu 0 fl vs s) as ((s1, ws), o) eqn:Q end.
          intros [= _ _ ->]. refine (loop_blamed n fs _ _ L _ _ _ _ _ _ _ _ _ _ Q); [intros t ft; exact (IHf t ft)|intros ft; exact (proj1 (skip_tells d) ft false)].
        + destruct (read_field_header c I 0 s) as (s2, [(ft, last')|x|p]) eqn:R; [|intros [= _ _ <-]; apply plain_blamed; exact (header_tells 0 _ _ _ R)|discriminate].
          assert (U : has_union E (TNamed n)) by (exists n, fs; split; [constructor|exact L]).
          destruct (ft =? 0); [intros [= _ _ <-]; constructor|]. destruct (find_field fs last') as [(i, f)|] eqn:Ff; [|intros [= _ _ <-]; constructor; exact U].
          destruct (default E d (f_ty f)) as [dv|]; [|discriminate]. destruct (fill c I E d (f_ty f) dv s2) as ((s3, w), [u|x|p]) eqn:Fl; [| |discriminate].
          * destruct (in_read_byte I s3) as (s4, [b|x|p]) eqn:Rb; [| |discriminate].
            { destruct (b =? 0); [discriminate|]. intros [= _ _ <-]. constructor. exact U. }
            { cbn [failed]. intros [= _ _ <-]. apply plain_blamed. exact (h_byte I H _ _ _ Rb). }
          * intros [= _ _ <-]. apply (blamed_under (f_ty f)); [|exact (IH _ _ _ _ _ _ Fl)]. intros k K. exact (Rc_union E n fs f k L (find_field_in _ _ _ _ Ff) K).
        + apply P. apply tells_bind; [apply uleb_tells|intros; apply tells_ret]. }
    split; [exact G|]. intros t ft v s s' v' e. cbn [fill_field].
    assert (D : (if negb (ft =? field_type E t) then (s, v, Err InvalidType) else fill c I E d t v s) = (s', v', Err e) -> blamed E t e).
    { destruct (negb _); [intros [= _ _ <-]; constructor|]. apply IH. }
    destruct t; try exact D; [discriminate|].
    assert (Q : match default E d t with None => (s, v, Panic PStack) | Some dv => match fill_field c I E d t ft dv s with (s', v', o) => (s', VSome v', o) end end = (s', v', Err e) -> blamed E (TOption t) e).
    { destruct (default E d t) as [dv|]; [|discriminate]. destruct (fill_field c I E d t ft dv s) as ((s1, w), o) eqn:Fl. intros [= _ _ ->]. apply (blamed_under t); [intros; constructor; assumption|]. exact (IHf t _ _ _ _ _ _ Fl). }
    destruct v; try exact Q. intros [= _ _ <-]. constructor.
  Qed.
  Theorem read_blamed d t s s' e : read_thrift c I E d t s = (s', Err e) -> blamed E t e.
  Proof.
    unfold read_thrift. destruct (default E d t) as [dv|]; [|discriminate]. destruct (fill c I E d t dv s) as ((s1, v), [u|x|p]) eqn:Fl; try discriminate.
    intros [= _ <-]. exact (proj1 (fill_blamed d) t _ _ _ _ _ Fl).
  Qed.
End Blame.

Theorem slice_blamed c E d t s s' e : read_thrift c (slice_input c) E d t s = (s', Err e) -> blamed E t e.
Proof. exact (read_blamed c _ (slice_honest c) E d t s s' e). Qed.
Theorem reader_blamed c E d t s s' e : read_thrift c (reader_input c) E d t s = (s', Err e) -> blamed E t e.
Proof. exact (read_blamed c _ (reader_honest c) E d t s s' e). Qed.
Lemma blamed_names E t m : ~ has_union E t -> blamed E t (MissingField m) -> names_definition E t m.
Proof. intros U B. inversion B; subst; [econstructor; eauto|contradiction]. Qed.
Theorem slice_names c E d t s s' m : ~ has_union E t -> read_thrift c (slice_input c) E d t s = (s', Err (MissingField m)) -> names_definition E t m.
Proof. intros U R. apply (blamed_names _ _ _ U). exact (slice_blamed _ _ _ _ _ _ _ R). Qed.
Theorem reader_names c E d t s s' m : ~ has_union E t -> read_thrift c (reader_input c) E d t s = (s', Err (MissingField m)) -> names_definition E t m.
Proof. intros U R. apply (blamed_names _ _ _ U). exact (reader_blamed _ _ _ _ _ _ _ R). Qed.

Lemma colon_split a : forall b x y, colonless a -> colonless b -> (a ++ "::" ++ x = b ++ "::" ++ y)%string -> a = b /\ x = y.
Proof.
  induction a as [|h a IH]; intros [|k b] x y A B; cbn [append].
  - intros [= ->]. auto.
  - intros [= <- _]. destruct B as (B & _). congruence.
  - intros [= -> _]. destruct A as (A & _). congruence.
  - intros [= <- Q]. destruct A as (_ & A), B as (_ & B). destruct (IH b x y A B Q) as (-> & ->). auto.
Qed.

Theorem union_blames {S} c (I : input S) E d n fs s s1 ft last dv : default E (Datatypes.S d) (TNamed n) = Some dv -> lookup E n = Some (DUnion fs) ->
  read_field_header c I 0 s = (s1, Ok (ft, last)) -> ft <> 0 -> find_field fs last = None ->
  read_thrift c I E (Datatypes.S d) (TNamed n) s = (s1, Err (MissingField "$struct_name")).
Proof.
  intros D L R N Ff. unfold read_thrift. rewrite D. cbn [fill]. rewrite L, R. destruct (ft =? 0) eqn:Z; [lia|]. rewrite Ff. reflexivity.
Qed.

Lemma parquet_colonless n df : lookup parquet_env n = Some df -> colonless n.
Proof.
  assert (A : forall E, Forall (fun nd => colonless (fst nd)) E -> forall n df, lookup E n = Some df -> colonless n).
  { induction 1 as [|(m, x) E Hm _ IH]; cbn [lookup]; [discriminate|]. intros k y. destruct (String.eqb_spec k m) as [->|_]; [intros _; exact Hm|apply IH]. }
  apply A. unfold parquet_env. repeat (constructor; [cbn [fst colonless]; repeat split; discriminate|]). constructor.
Qed.
Lemma parquet_unique t m : blamed parquet_env t (MissingField m) -> m <> "$struct_name" ->
  exists n fs f, reaches parquet_env t n /\ lookup parquet_env n = Some (DStruct fs) /\ In f fs /\ f_req f = true /\ m = (n ++ "::" ++ f_name f)%string /\
    forall n' g, colonless n' -> m = (n' ++ "::" ++ g)%string -> n' = n /\ g = f_name f.
Proof.
  intros B N. inversion B as [n fs f R L J Q Em|U Em| | | | | | | | |]; [|congruence]. exists n, fs, f. repeat (split; [assumption || reflexivity|]).
  intros n' g C K. destruct (colon_split n n' _ _ (parquet_colonless _ _ L) C K) as (-> & ->). auto.
Qed.
Theorem parquet_blame c d t m : m <> "$struct_name" ->
  (exists s s', read_thrift c (slice_input c) parquet_env d t s = (s', Err (MissingField m))) \/ (exists r r', read_thrift c (reader_input c) parquet_env d t r = (r', Err (MissingField m))) ->
  exists n fs f, reaches parquet_env t n /\ lookup parquet_env n = Some (DStruct fs) /\ In f fs /\ f_req f = true /\ m = (n ++ "::" ++ f_name f)%string /\
    forall n' g, colonless n' -> m = (n' ++ "::" ++ g)%string -> n' = n /\ g = f_name f.
Proof. intros N [(s & s' & R)|(s & s' & R)]; apply parquet_unique; [exact (slice_blamed _ _ _ _ _ _ _ R)|exact N|exact (reader_blamed _ _ _ _ _ _ _ R)|exact N]. Qed.
Lemma names_parquet t m : names_definition parquet_env t m -> m <> "$struct_name".
Proof.
  intros N ->. inversion N as [n fs f R L J Q Em|n fs R L Em].
  - assert (X : forall n, (n ++ "::" ++ f_name f = "$struct_name")%string -> False); [|exact (X _ Em)].
    clear. intros n. do 13 (destruct n as [|? n]; [discriminate|cbn [append]; intros [= _ K]; revert K]).
  - discriminate L.
Qed.
Lemma logical_refuted c : exists s m, read_thrift c (slice_input c) parquet_env 20 (TNamed "LogicalType") s = ([], Err (MissingField m)) /\
  ~ names_definition parquet_env (TNamed "LogicalType") m.
Proof. exists [156], "$struct_name". split; [destruct c as [[] ? ? ?]; reflexivity|intros N; exact (names_parquet _ _ N eq_refl)]. Qed.
Lemma key_value_plain : ~ has_union parquet_env (TNamed "KeyValue").
Proof.
  intros (n & fs & R & L). inversion R as [k|t k Q|t k Q|t k Q|t k Q|k gs f n1 L1 J Q|k gs f n1 L1 J Q]; subst; [discriminate L| |discriminate L1].
  cbn in L1. injection L1 as <-. destruct J as [<-|[<-|[]]]; inversion Q.
Qed.
