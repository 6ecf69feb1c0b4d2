(** Writing is a sequence of [write_all] calls determined by the value alone;
    consequences for arbitrary sinks. *)
From Coq Require Import ZifyBool ZifyNat ZifyN.
From Verif Require Import SpecInput Base Uleb Protocol Encodings Types P_Arith P_Inputs.

(** * Induction over values *)
Section ValueInd.
  Variable P : value -> Prop.
  Hypothesis Hbool : forall b, P (VBool b).
  Hypothesis Hi8 : forall z, P (VI8 z).
  Hypothesis Hi16 : forall z, P (VI16 z).
  Hypothesis Hi32 : forall z, P (VI32 z).
  Hypothesis Hi64 : forall z, P (VI64 z).
  Hypothesis Hdouble : forall z, P (VDouble z).
  Hypothesis Hbin : forall l, P (VBin l).
  Hypothesis Hstr : forall l, P (VStr l).
  Hypothesis Hvec : forall vs, Forall P vs -> P (VVec vs).
  Hypothesis Hnone : P VNone.
  Hypothesis Hsome : forall v, P v -> P (VSome v).
  Hypothesis Hbox : forall v, P v -> P (VBox v).
  Hypothesis Hshared : forall u v, P v -> P (VShared u v).
  Hypothesis Henc : forall m, P (VEncSet m).
  Hypothesis Hstruct : forall vs, Forall P vs -> P (VStruct vs).
  Hypothesis Hunion : forall i v, P v -> P (VUnion i v).

  Fixpoint value_induction (v : value) : P v :=
    let all := fix all (vs : list value) : Forall P vs :=
      match vs with [] => Forall_nil P | w :: vs' => Forall_cons w (value_induction w) (all vs') end in
    match v with
    | VBool b => Hbool b
    | VI8 z => Hi8 z
    | VI16 z => Hi16 z
    | VI32 z => Hi32 z
    | VI64 z => Hi64 z
    | VDouble z => Hdouble z
    | VBin l => Hbin l
    | VStr l => Hstr l
    | VVec vs => Hvec vs (all vs)
    | VNone => Hnone
    | VSome w => Hsome w (value_induction w)
    | VBox w => Hbox w (value_induction w)
    | VShared u w => Hshared u w (value_induction w)
    | VEncSet m => Henc m
    | VStruct vs => Hstruct vs (all vs)
    | VUnion i w => Hunion i w (value_induction w)
    end.
End ValueInd.

(** * Programs that only write *)
Fixpoint run_chunks {W A} (wa : list Z -> M W unit) (chunks : list (list Z)) (fin : outcome A) : M W A :=
  match chunks with
  | [] => fun w => (w, fin)
  | ch :: chunks' => wa ch ;; run_chunks wa chunks' fin
  end.

Definition program (A : Type) : Type := forall W, (list Z -> M W unit) -> M W A.
Definition emits {A} (p : program A) (chunks : list (list Z)) (fin : outcome A) : Prop :=
  forall W (wa : list Z -> M W unit) w, p W wa w = run_chunks wa chunks fin w.
Definition emitting {A} (p : program A) : Prop := exists chunks fin, emits p chunks fin.

Lemma run_chunks_app {W A B} (wa : list Z -> M W unit) c1 c2 (a : A) (f : A -> M W B) (fin : outcome B) :
  (forall w, f a w = run_chunks wa c2 fin w) ->
  forall w, bind (run_chunks wa c1 (Ok a)) f w = run_chunks wa (c1 ++ c2) fin w.
Proof.
  intros Hf. induction c1 as [|ch c1 IH]; intros w; cbn [run_chunks app].
  - unfold bind. apply Hf.
  - unfold bind at 1 2 3. destruct (wa ch w) as [w' [u|e|p]]; [|reflexivity|reflexivity].
    specialize (IH w'). unfold bind in IH at 1. exact IH.
Qed.
Lemma run_chunks_err {W A B} (wa : list Z -> M W unit) c1 e (f : A -> M W B) w :
  bind (run_chunks wa c1 (Err e)) f w = run_chunks wa c1 (Err e) w.
Proof.
  revert w. induction c1 as [|ch c1 IH]; intros w; cbn [run_chunks]; [reflexivity|].
  unfold bind at 1 2 3. destruct (wa ch w) as [w' [u|e'|p]]; [|reflexivity|reflexivity].
  specialize (IH w'). unfold bind in IH at 1. exact IH.
Qed.
Lemma run_chunks_panic {W A B} (wa : list Z -> M W unit) c1 p (f : A -> M W B) w :
  bind (run_chunks wa c1 (Panic p)) f w = run_chunks wa c1 (Panic p) w.
Proof.
  revert w. induction c1 as [|ch c1 IH]; intros w; cbn [run_chunks]; [reflexivity|].
  unfold bind at 1 2 3. destruct (wa ch w) as [w' [u|e'|p']]; [|reflexivity|reflexivity].
  specialize (IH w'). unfold bind in IH at 1. exact IH.
Qed.

Lemma emitting_ret {A} (a : A) : emitting (fun W wa => ret a).
Proof. exists [], (Ok a). intros W wa w. reflexivity. Qed.
Lemma emitting_fail {A} e : emitting (fun W wa => @fail W A e).
Proof. exists [], (Err e). intros W wa w. reflexivity. Qed.
Lemma emitting_crash {A} p : emitting (fun W wa => @crash W A p).
Proof. exists [], (Panic p). intros W wa w. reflexivity. Qed.
Lemma emitting_all l : emitting (fun W wa => wa l).
Proof.
  exists [l], (Ok tt). intros W wa w. cbn [run_chunks]. unfold bind.
  destruct (wa l w) as [w' [[]|e|p]]; reflexivity.
Qed.
Lemma emitting_bind {A B} (m : program A) (f : A -> program B) :
  emitting m -> (forall a, emitting (f a)) -> emitting (fun W wa => bind (m W wa) (fun a => f a W wa)).
Proof.
  intros (c1 & [a|e|p] & H1) Hf.
  - destruct (Hf a) as (c2 & fin & H2). exists (c1 ++ c2), fin. intros W wa w.
    rewrite <- (run_chunks_app wa c1 c2 a (fun a => f a W wa)) by (intros; apply H2).
    unfold bind at 1 2. rewrite H1. reflexivity.
  - exists c1, (Err e). intros W wa w. rewrite <- (run_chunks_err wa c1 e (fun a => f a W wa)).
    unfold bind. rewrite H1. reflexivity.
  - exists c1, (Panic p). intros W wa w. rewrite <- (run_chunks_panic wa c1 p (fun a => f a W wa)).
    unfold bind. rewrite H1. reflexivity.
Qed.
Lemma emitting_seq {A B} (m : program A) (f : program B) :
  emitting m -> emitting f -> emitting (fun W wa => m W wa ;; f W wa).
Proof. intros H1 H2. apply (emitting_bind m (fun _ => f)); [exact H1|intros; exact H2]. Qed.

Lemma emitting_byte b : emitting (fun W wa => write_byte wa b).
Proof. apply emitting_all. Qed.
Lemma emitting_uleb_loop fuel n : emitting (fun W wa => encode_uleb_loop (write_byte wa) fuel n).
Proof.
  revert n. induction fuel as [|fuel IH]; intros n; cbn [encode_uleb_loop]; [apply emitting_crash|].
  destruct (127 <? n); [|apply emitting_byte].
  apply (emitting_seq (fun W wa => write_byte wa _) (fun W wa => encode_uleb_loop (write_byte wa) fuel _));
    [apply emitting_byte|apply IH].
Qed.
Lemma emitting_uleb n : emitting (fun W wa => encode_uleb (write_byte wa) n).
Proof. apply emitting_uleb_loop. Qed.
Lemma emitting_binary l : emitting (fun W wa => write_binary wa l).
Proof.
  unfold write_binary. destruct (MAX_BINARY_LEN <? zlen l); [apply emitting_fail|].
  apply (emitting_seq (fun W wa => write_len wa _) (fun W wa => wa l)); [apply emitting_uleb|apply emitting_all].
Qed.
Lemma emitting_header ft id last : emitting (fun W wa => write_field_header wa ft id last).
Proof.
  unfold write_field_header. destruct (15 <? wraps 16 (id - last)).
  - apply (emitting_seq (fun W wa => write_byte wa ft ;; write_i16 wa (wraps 16 (id - last))) (fun W wa => ret id));
      [|apply emitting_ret].
    apply (emitting_seq (fun W wa => write_byte wa ft) (fun W wa => write_i16 wa _)); [apply emitting_byte|apply emitting_uleb].
  - apply (emitting_seq (fun W wa => write_byte wa _) (fun W wa => ret id)); [apply emitting_byte|apply emitting_ret].
Qed.
Lemma emitting_list_header ft len : emitting (fun W wa => write_list_header wa ft len).
Proof.
  unfold write_list_header. destruct (len <? 15); [apply emitting_byte|].
  apply (emitting_seq (fun W wa => write_byte wa _) (fun W wa => write_len wa _)); [apply emitting_byte|apply emitting_uleb].
Qed.
Lemma emitting_i32s zs : emitting (fun W wa => write_i32s wa zs).
Proof.
  induction zs as [|z zs IH]; cbn [write_i32s]; [apply emitting_ret|].
  apply (emitting_seq (fun W wa => write_i32 wa z) (fun W wa => write_i32s wa zs)); [apply emitting_uleb|exact IH].
Qed.
Lemma emitting_encset m : emitting (fun W wa => encset_write wa m).
Proof.
  unfold encset_write.
  apply (emitting_seq (fun W wa => write_list_header wa 5 (encset_len m)) (fun W wa => write_i32s wa _));
    [apply emitting_list_header|apply emitting_i32s].
Qed.

Section Writer.
  Variable E : env.

  Definition emitting_v (v : value) : Prop := forall t,
    emitting (fun W wa => wplain (writer wa E v t)) /\
    forall id last, emitting (fun W wa => wfield (writer wa E v t) id last).

  Lemma emitting_default ft (p : program unit) :
    emitting p ->
    emitting (fun W wa => wplain (with_default wa ft (p W wa))) /\
    forall id last, emitting (fun W wa => wfield (with_default wa ft (p W wa)) id last).
  Proof.
    intros Hp. split; [exact Hp|]. intros id last. cbn [wfield with_default]. unfold default_wfield.
    apply (emitting_bind (fun W wa => write_field_header wa ft id last) (fun l W wa => p W wa ;; ret l)).
    - apply emitting_header.
    - intros l. apply (emitting_seq p (fun W wa => ret l)); [exact Hp|apply emitting_ret].
  Qed.
  Lemma emitting_ill :
    emitting (fun W wa => wplain (@ill_typed W)) /\
    forall id last, emitting (fun W (wa : list Z -> M W unit) => wfield (@ill_typed W) id last).
  Proof. split; [apply emitting_crash|intros; apply emitting_crash]. Qed.

  Lemma emitting_items t vs : Forall emitting_v vs ->
    emitting (fun W wa => write_items (map (fun w => writer wa E w t) vs)).
  Proof.
    induction 1 as [|v vs Hv HF IH]; cbn [map write_items]; [apply emitting_ret|].
    apply (emitting_seq (fun W wa => wplain (writer wa E v t))
                        (fun W wa => write_items (map (fun w => writer wa E w t) vs))); [apply Hv|exact IH].
  Qed.

  Definition zip_writers {W} (wa : list Z -> M W unit) : list value -> list field -> list (wmethods W) :=
    fix zip (vs : list value) (fs : list field) : list (wmethods W) :=
      match vs, fs with
      | w :: vs', f :: fs' => writer wa E w (field_ty f) :: zip vs' fs'
      | w :: vs', [] => ill_typed :: zip vs' []
      | [], _ => []
      end.

  Lemma emitting_fields vs : Forall emitting_v vs -> forall fs last,
    emitting (fun W wa => write_fields (zip_writers wa vs fs) fs last).
  Proof.
    induction 1 as [|v vs Hv HF IH]; intros fs last; destruct fs as [|f fs]; cbn [zip_writers write_fields].
    - apply emitting_ret.
    - apply emitting_crash.
    - apply emitting_crash.
    - apply (emitting_bind (fun W wa => wfield (writer wa E v (field_ty f)) (f_id f) last)
               (fun l W wa => write_fields (zip_writers wa vs fs) fs l)); [apply Hv|intros; apply IH].
  Qed.

  Local Ltac ill t := destruct t; try exact emitting_ill.

  Lemma emitting_writer v : emitting_v v.
  Proof.
    induction v using value_induction; intros t.
    - ill t. split; [apply emitting_byte|intros; apply emitting_header].
    - ill t. apply (emitting_default _ (fun W wa => write_byte wa _)), emitting_byte.
    - ill t. apply (emitting_default _ (fun W wa => write_i16 wa _)), emitting_uleb.
    - ill t; cbn [writer]; [|destruct (lookup E name) as [[| |]|]; try exact emitting_ill];
        apply (emitting_default _ (fun W wa => write_i32 wa _)), emitting_uleb.
    - ill t. apply (emitting_default _ (fun W wa => write_i64 wa _)), emitting_uleb.
    - ill t. apply (emitting_default _ (fun W wa => write_double wa _)), emitting_all.
    - ill t. apply (emitting_default _ (fun W wa => write_binary wa _)), emitting_binary.
    - ill t. apply (emitting_default _ (fun W wa => write_string wa _)), emitting_binary.
    - ill t. cbn [writer].
      apply (emitting_default _ (fun W wa => if MAX_COLLECTION_LEN <? zlen vs then fail InvalidCollectionLen
               else write_list_header wa (field_type E t) (zlen vs) ;; write_items (map (fun w => writer wa E w t) vs))).
      destruct (MAX_COLLECTION_LEN <? zlen vs); [apply emitting_fail|].
      apply (emitting_seq (fun W wa => write_list_header wa _ _) (fun W wa => write_items (map (fun w => writer wa E w t) vs)));
        [apply emitting_list_header|apply emitting_items; assumption].
    - ill t. split; [apply emitting_fail|intros; apply emitting_ret].
    - ill t. apply (IHv t).
    - ill t. apply (emitting_default _ (fun W wa => wplain (writer wa E v t))), IHv.
    - ill t. apply (emitting_default _ (fun W wa => wplain (writer wa E v t))), IHv.
    - ill t. apply (emitting_default _ (fun W wa => encset_write wa m)), emitting_encset.
    - ill t. cbn [writer]. destruct (lookup E name) as [[fs|fs|]|]; try exact emitting_ill.
      apply (emitting_default _ (fun W wa => write_fields (zip_writers wa vs fs) fs 0 ;; write_byte wa 0)).
      apply (emitting_seq (fun W wa => write_fields (zip_writers wa vs fs) fs 0) (fun W wa => write_byte wa 0));
        [apply emitting_fields; assumption|apply emitting_byte].
    - ill t. cbn [writer]. destruct (lookup E name) as [[fs|fs|]|]; try exact emitting_ill.
      destruct (nth_error fs i) as [f|]; [|exact emitting_ill].
      apply (emitting_default _ (fun W wa => let! _ := wfield (writer wa E v (f_ty f)) (f_id f) 0 in write_byte wa 0)).
      apply (emitting_seq (fun W wa => wfield (writer wa E v (f_ty f)) (f_id f) 0) (fun W wa => write_byte wa 0));
        [apply IHv|apply emitting_byte].
  Qed.
End Writer.

(** * Sinks *)
Lemma vec_chunks {A} chunks (fin : outcome A) w :
  run_chunks vec_write_all chunks fin w = (w ++ List.concat chunks, fin).
Proof.
  revert w. induction chunks as [|ch chunks IH]; intros w; cbn [run_chunks List.concat].
  - now rewrite app_nil_r.
  - unfold bind, vec_write_all. rewrite IH, app_assoc. reflexivity.
Qed.

Lemma write_all_go_spec ws : forall out buf k' o,
  write_all_go out ws buf = (k', o) ->
  (o = Ok tt /\ received {| delivered := out; script := ws |} k' buf) \/
  (exists kind, o = Err (IO kind) /\ broken {| delivered := out; script := ws |} k' buf kind).
Proof.
  induction ws as [|ev ws IH]; intros out buf k' o H; cbn [write_all_go] in H;
    (destruct buf as [|b buf];
     [injection H as <- <-; left; split; [reflexivity|]; exists []; split; [reflexivity|];
      split; [constructor|cbn; now rewrite app_nil_r]|]).
  - injection H as <- <-. left. split; [reflexivity|]. exists []. split; [reflexivity|]. split; [constructor|reflexivity].
  - assert (Hstep : forall out' buf' pre, wfatal ev = None -> write_all_go out' ws buf' = (k', o) ->
              out' = out ++ pre -> b :: buf = pre ++ buf' ->
              (o = Ok tt /\ received {| delivered := out; script := ev :: ws |} k' (b :: buf)) \/
              (exists kind, o = Err (IO kind) /\ broken {| delivered := out; script := ev :: ws |} k' (b :: buf) kind)).
    { intros out' buf' pre Hev Hgo -> Hb.
      destruct (IH _ _ _ _ Hgo) as [[-> (used & H1 & H2 & H3)]|(kind & -> & used & ev' & p & q & H1 & H2 & H3 & H4 & H5 & H6)];
        cbn [script delivered] in *.
      - left. split; [reflexivity|]. exists (ev :: used). cbn [script delivered].
        split; [cbn [app]; now rewrite H1|]. split; [constructor; assumption|]. rewrite H3, Hb, app_assoc. reflexivity.
      - right. exists kind. split; [reflexivity|]. exists (ev :: used), ev', (pre ++ p), q. cbn [script delivered].
        split; [cbn [app]; now rewrite H1|]. split; [constructor; assumption|]. split; [exact H3|].
        split; [rewrite Hb, H4, app_assoc; reflexivity|]. split; [exact H5|]. rewrite H6, app_assoc. reflexivity. }
    assert (Hfatal : forall kind, wfatal ev = Some kind ->
              ({| delivered := out; script := ws |}, Err (IO kind)) = (k', o) ->
              (exists kind, o = Err (IO kind) /\ broken {| delivered := out; script := ev :: ws |} k' (b :: buf) kind)).
    { intros kind Hk Heq. injection Heq as <- <-. exists kind. split; [reflexivity|].
      exists [], ev, [], (b :: buf). cbn [script delivered app]. rewrite app_nil_r.
      repeat split; try assumption; [constructor|discriminate]. }
    destruct ev as [[|n]| |k].
    + right. eapply Hfatal; [reflexivity|exact H].
    + eapply (Hstep _ _ (firstn (Datatypes.S n) (b :: buf))); [reflexivity|exact H|reflexivity|].
      symmetry. apply firstn_skipn.
    + eapply (Hstep _ _ []); [reflexivity|exact H|now rewrite app_nil_r|reflexivity].
    + destruct k.
      3: { eapply (Hstep _ _ []); [reflexivity|exact H|now rewrite app_nil_r|reflexivity]. }
      all: right; eapply Hfatal; [reflexivity|exact H].
Qed.

Lemma run_chunks_sink {A} chunks (fin : outcome A) : forall k k' o,
  run_chunks sink_write_all chunks fin k = (k', o) ->
  (o = fin /\ received k k' (List.concat chunks)) \/
  (exists kind, o = Err (IO kind) /\ broken k k' (List.concat chunks) kind).
Proof.
  induction chunks as [|ch chunks IH]; intros k k' o H; cbn [run_chunks List.concat] in *.
  - injection H as <- <-. left. split; [reflexivity|]. exists []. split; [reflexivity|]. split; [constructor|].
    now rewrite app_nil_r.
  - unfold bind in H. destruct (sink_write_all ch k) as [k1 o1] eqn:H1. unfold sink_write_all in H1.
    assert (Hk : k = {| delivered := delivered k; script := script k |}) by (destruct k; reflexivity).
    apply write_all_go_spec in H1. rewrite <- Hk in H1.
    destruct H1 as [[-> (u1 & Ha & Hb & Hc)]|(kind & -> & u1 & ev & p & q & Ha & Hb & Hc & Hd & He & Hf)].
    + destruct (IH _ _ _ H) as [[-> (u2 & H2a & H2b & H2c)]|(kind & -> & u2 & ev & p & q & H2a & H2b & H2c & H2d & H2e & H2f)].
      * left. split; [reflexivity|]. exists (u1 ++ u2). split; [rewrite Ha, H2a, app_assoc; reflexivity|].
        split; [apply Forall_app; split; assumption|]. rewrite H2c, Hc, app_assoc. reflexivity.
      * right. exists kind. split; [reflexivity|]. exists (u1 ++ u2), ev, (ch ++ p), q.
        split; [rewrite Ha, H2a, <- app_assoc; reflexivity|]. split; [apply Forall_app; split; assumption|].
        split; [exact H2c|]. split; [rewrite H2d, app_assoc; reflexivity|]. split; [exact H2e|].
        rewrite H2f, Hc, app_assoc. reflexivity.
    + injection H as <- <-. right. exists kind. split; [reflexivity|]. exists u1, ev, p, (q ++ List.concat chunks).
      split; [exact Ha|]. split; [exact Hb|]. split; [exact Hc|]. split; [rewrite Hd, app_assoc; reflexivity|].
      split; [intros Hn; apply app_eq_nil in Hn as [Hn _]; auto|exact Hf].
Qed.

(** The relation between writing into a Vec and into a sink. *)
Theorem sink_vs_vec E t v bs o k k' o' :
  write_thrift vec_write_all E t v [] = (bs, o) ->
  write_thrift sink_write_all E t v k = (k', o') ->
  (o' = o /\ received k k' bs) \/ (exists kind, o' = Err (IO kind) /\ broken k k' bs kind).
Proof.
  intros Hv Hk. destruct (emitting_writer E v t) as [(chunks & fin & He) _].
  unfold write_thrift in *. rewrite He in Hv, Hk. rewrite vec_chunks in Hv. injection Hv as <- <-.
  cbn [app]. apply run_chunks_sink. exact Hk.
Qed.

(** Writing appends: what the Vec held before does not matter. *)
Theorem vec_append E t v w bs o :
  write_thrift vec_write_all E t v [] = (bs, o) -> write_thrift vec_write_all E t v w = (w ++ bs, o).
Proof.
  intros Hv. destruct (emitting_writer E v t) as [(chunks & fin & He) _].
  unfold write_thrift in *. rewrite He in *. rewrite vec_chunks in *. injection Hv as <- <-. reflexivity.
Qed.

(** A sink without fatal events behaves like a Vec. *)
Lemma sink_healthy E t v bs o k k' o' :
  write_thrift vec_write_all E t v [] = (bs, o) ->
  write_thrift sink_write_all E t v k = (k', o') ->
  Forall (fun ev => wfatal ev = None) (script k) ->
  o' = o /\ delivered k' = delivered k ++ bs.
Proof.
  intros Hv Hk Hh. destruct (sink_vs_vec _ _ _ _ _ _ _ _ Hv Hk) as [[-> (used & H1 & H2 & H3)]|(kind & -> & used & ev & p & q & H1 & H2 & H3 & _)].
  - auto.
  - rewrite H1 in Hh. apply Forall_app in Hh as [_ Hh]. apply Forall_cons_iff in Hh as [Hh _]. congruence.
Qed.

(** A successful write delivered everything. *)
Lemma sink_ok E t v k k' :
  write_thrift sink_write_all E t v k = (k', Ok tt) ->
  exists bs, write_thrift vec_write_all E t v [] = (bs, Ok tt) /\ received k k' bs.
Proof.
  intros Hk. destruct (write_thrift vec_write_all E t v []) as [bs o] eqn:Hv.
  destruct (sink_vs_vec _ _ _ _ _ _ _ _ Hv Hk) as [[<- H]|(kind & H & _)]; [|discriminate]. exists bs. auto.
Qed.
