(** Reading a conforming encoding returns the value and stops at its end. *)
From Coq Require Import ZifyBool ZifyNat ZifyN.
From Verif Require Import Base Uleb Utf8 Protocol Encodings Types SpecUtf8 SpecCompact Schema
  P_Arith P_Reads P_Utf8 P_Skip P_Gen.
Ltac Zify.zify_post_hook ::= Z.div_mod_to_equations.

Lemma Forall2_length {A B} (P : A -> B -> Prop) l l' : Forall2 P l l' -> List.length l = List.length l'.
Proof. induction 1; cbn [List.length]; congruence. Qed.

(** * Defaults *)
Lemma sequence_mono {A} (l l' : list (option A)) r :
  Forall2 (fun a b => forall x, a = Some x -> b = Some x) l l' -> sequence l = Some r -> sequence l' = Some r.
Proof.
  intros HF. revert r. induction HF as [|a b l l' Hab HF IH]; intros r; cbn [sequence]; [auto|].
  destruct a as [x|]; [|discriminate]. rewrite (Hab x eq_refl).
  destruct (sequence l) as [r0|]; [|discriminate]. rewrite (IH r0 eq_refl). auto.
Qed.

Lemma default_step E d : forall t v, default E d t = Some v -> default E (Datatypes.S d) t = Some v.
Proof.
  induction d as [|d IH]; intros t v H; [discriminate|].
  change (default E (Datatypes.S d) t) with
    (match t with
    | TBool => Some (VBool false)
    | TI8 => Some (VI8 0)
    | TI16 => Some (VI16 0)
    | TI32 => Some (VI32 0)
    | TI64 => Some (VI64 0)
    | TDouble => Some (VDouble 0)
    | TBinary => Some (VBin [])
    | TString => Some (VStr [])
    | TVec _ => Some (VVec [])
    | TOption _ => Some VNone
    | TBox t' => option_map VBox (default E d t')
    | TShared t' => option_map (VShared true) (default E d t')
    | TEncSet => Some (VEncSet 0)
    | TNamed n =>
      match lookup E n with
      | Some (DStruct fs) =>
          option_map VStruct (sequence (map (fun f => default E d (field_ty f)) fs))
      | Some (DUnion (f :: _)) => option_map (VUnion 0) (default E d (f_ty f))
      | Some (DUnion []) => None
      | Some DEnum => Some (VI32 0)
      | None => None
      end
    end) in H.
  remember (Datatypes.S d) as d1. cbn [default]. subst d1.
  destruct t; try exact H.
  - destruct (default E d t) as [w|] eqn:Hw; [|discriminate]. rewrite (IH _ _ Hw). exact H.
  - destruct (default E d t) as [w|] eqn:Hw; [|discriminate]. rewrite (IH _ _ Hw). exact H.
  - destruct (lookup E name) as [[fs|[|f fs]|]|]; try exact H.
    + destruct (sequence (map (fun f => default E d (field_ty f)) fs)) as [r|] eqn:Hs; [|discriminate].
      rewrite (sequence_mono (map (fun f => default E d (field_ty f)) fs) (map (fun f => default E (Datatypes.S d) (field_ty f)) fs) r); [exact H| |exact Hs].
      clear -IH. induction fs as [|f fs IHf]; constructor; [apply IH|exact IHf].
    + destruct (default E d (f_ty f)) as [w|] eqn:Hw; [|discriminate]. rewrite (IH _ _ Hw). exact H.
Qed.

Lemma default_mono E d d' t v : (d <= d')%nat -> default E d t = Some v -> default E d' t = Some v.
Proof. induction 1 as [|d' Hle IH]; [auto|]. intros H. apply default_step. auto. Qed.

(** [v] is the default of [t]. *)
Definition dflt (E : env) (t : ty) (v : value) : Prop := exists d, default E d t = Some v.

Lemma dflt_det E t v v' : dflt E t v -> dflt E t v' -> v = v'.
Proof.
  intros [d Hd] [d' Hd']. apply (default_mono E d (Nat.max d d')) in Hd; [|lia].
  apply (default_mono E d' (Nat.max d d')) in Hd'; [|lia]. congruence.
Qed.

Lemma default_closed strict E K t d :
  env_ok strict E K = true -> ty_closed E t = true -> (ty_depth t + K <= d)%nat ->
  exists v, default E d t = Some v.
Proof.
  intros HE. revert d. induction t; intros d Hc Hd; cbn [ty_depth ty_closed] in *;
    (destruct d as [|d]; [lia|]);
    try (cbn [default]; eauto; fail).
  - cbn [default]. destruct (IHt d Hc ltac:(lia)) as [v ->]. cbn [option_map]. eauto.
  - cbn [default]. destruct (IHt d Hc ltac:(lia)) as [v ->]. cbn [option_map]. eauto.
  - destruct (lookup E name) as [df|] eqn:Hl; [|discriminate].
    destruct (env_ok_def _ _ _ _ _ HE Hl) as [_ [v Hv]]. exists v.
    eapply default_mono; [|exact Hv]. lia.
Qed.

Lemma default_dflt strict E K t d v :
  env_ok strict E K = true -> ty_closed E t = true -> (ty_depth t + K <= d)%nat ->
  dflt E t v -> default E d t = Some v.
Proof.
  intros HE Hc Hd Hv. destruct (default_closed _ _ _ _ _ HE Hc Hd) as [w Hw]. rewrite Hw. f_equal.
  eapply dflt_det; [exists d; exact Hw|exact Hv].
Qed.

Lemma dflt_struct E n fs v :
  lookup E n = Some (DStruct fs) -> dflt E (TNamed n) v ->
  exists vs, v = VStruct vs /\ Forall2 (fun f w => dflt E (field_ty f) w) fs vs.
Proof.
  intros Hl [d Hd]. destruct d as [|d]; [discriminate|]. cbn [default] in Hd. rewrite Hl in Hd.
  destruct (sequence _) as [vs|] eqn:Hs; [|discriminate]. injection Hd as <-. exists vs. split; [reflexivity|].
  clear Hl. revert vs Hs. induction fs as [|f fs IH]; intros vs Hs; cbn [map sequence] in Hs.
  - injection Hs as <-. constructor.
  - destruct (default E d (field_ty f)) as [w|] eqn:Hw; [|discriminate].
    destruct (sequence (map _ fs)) as [r|] eqn:Hr; [|discriminate]. injection Hs as <-.
    constructor; [exists d; exact Hw|apply IH; reflexivity].
Qed.

Lemma dflt_option E t v : dflt E (TOption t) v -> v = VNone.
Proof. intros [[|d] Hd]; [discriminate|]. cbn [default] in Hd. congruence. Qed.
Lemma dflt_box E t v : dflt E (TBox t) v -> exists w, v = VBox w /\ dflt E t w.
Proof.
  intros [[|d] Hd]; [discriminate|]. cbn [default] in Hd.
  destruct (default E d t) as [w|] eqn:Hw; [|discriminate]. cbn in Hd. injection Hd as <-.
  exists w. split; [reflexivity|exists d; exact Hw].
Qed.
Lemma dflt_shared E t v : dflt E (TShared t) v -> exists w, v = VShared true w /\ dflt E t w.
Proof.
  intros [[|d] Hd]; [discriminate|]. cbn [default] in Hd.
  destruct (default E d t) as [w|] eqn:Hw; [|discriminate]. cbn in Hd. injection Hd as <-.
  exists w. split; [reflexivity|exists d; exact Hw].
Qed.

(** * Wire codes *)
Lemma wire_code_field_type E t : ty_closed E t = true -> field_type E t = wire_code E t.
Proof.
  induction t; cbn [ty_closed field_type wire_code]; auto.
  destruct (lookup E name) as [[| |]|]; intros; try reflexivity. discriminate.
Qed.
Lemma wire_code_range E t : 2 <= wire_code E t <= 12.
Proof. induction t; cbn [wire_code]; try lia. destruct (lookup E name) as [[| |]|]; lia. Qed.
Lemma boolish_wire_code E t : boolish t = true -> wire_code E t = 2.
Proof. induction t; cbn [boolish wire_code]; auto; discriminate. Qed.
Lemma wire_code_boolish E t : wire_code E t = 2 -> boolish t = true.
Proof.
  induction t; cbn [boolish wire_code]; auto; try discriminate.
  destruct (lookup E name) as [[| |]|]; discriminate.
Qed.

(** * Field tables *)
Lemma find_field_nth fs i f :
  NoDup (map f_id fs) -> nth_error fs i = Some f -> find_field fs (f_id f) = Some (i, f).
Proof.
  revert i. induction fs as [|g fs IH]; intros i Hnd Hi; [destruct i; discriminate|].
  cbn [map] in Hnd. inversion Hnd as [|? ? Hnin Hnd']; subst. cbn [find_field].
  destruct i as [|i]; cbn [nth_error] in Hi.
  - injection Hi as ->. rewrite Z.eqb_refl. reflexivity.
  - destruct (f_id g =? f_id f) eqn:He.
    + exfalso. apply Hnin. apply Z.eqb_eq in He. rewrite He. apply in_map. eapply nth_error_In; exact Hi.
    + rewrite (IH i Hnd' Hi). reflexivity.
Qed.

Lemma find_field_none fs id : (forall f, In f fs -> f_id f <> id) -> find_field fs id = None.
Proof.
  induction fs as [|g fs IH]; intros H; cbn [find_field]; [reflexivity|].
  assert (f_id g <> id) by (apply H; now left).
  replace (f_id g =? id) with false by lia. rewrite IH; [reflexivity|]. intros f Hf. apply H. now right.
Qed.

Lemma find_field_In fs id i f : find_field fs id = Some (i, f) -> nth_error fs i = Some f /\ f_id f = id.
Proof.
  revert i. induction fs as [|g fs IH]; intros i; cbn [find_field]; [discriminate|].
  destruct (f_id g =? id) eqn:He.
  - intros H. injection H as <- ->. split; [reflexivity|lia].
  - destruct (find_field fs id) as [[j h]|]; [|discriminate]. intros H. injection H as <- ->.
    destruct (IH j eq_refl) as [H1 H2]. split; assumption.
Qed.

Lemma set_nth_length {A} (l : list A) i a : List.length (set_nth l i a) = List.length l.
Proof. revert i. induction l as [|x l IH]; intros [|i]; cbn [set_nth List.length]; auto. Qed.
Lemma set_nth_same {A} (l : list A) i a : (i < List.length l)%nat -> nth_error (set_nth l i a) i = Some a.
Proof. revert i. induction l as [|x l IH]; intros [|i] H; cbn in *; try lia; auto. apply IH. lia. Qed.
Lemma set_nth_other {A} (l : list A) i j a : i <> j -> nth_error (set_nth l i a) j = nth_error l j.
Proof. revert i j. induction l as [|x l IH]; intros [|i] [|j] H; cbn; auto; try lia. Qed.

(** What a struct holds after the pending fields have been read. *)
Definition wrap_field (f : field) (v : value) : value := if f_req f then v else VSome v.
Fixpoint pending_value (id : Z) (p : list (field * value)) : option value :=
  match p with
  | [] => None
  | (f, v) :: p' => if f_id f =? id then Some v else pending_value id p'
  end.
Fixpoint final (fs : list field) (cur : list value) (p : list (field * value)) : list value :=
  match fs, cur with
  | f :: fs', x :: cur' =>
      (match pending_value (f_id f) p with Some v => wrap_field f v | None => x end) :: final fs' cur' p
  | _, _ => []
  end.

Lemma pending_value_app id p1 p2 :
  pending_value id (p1 ++ p2) = match pending_value id p1 with Some v => Some v | None => pending_value id p2 end.
Proof.
  induction p1 as [|[f v] p1 IH]; cbn [app pending_value]; [reflexivity|].
  destruct (f_id f =? id); [reflexivity|exact IH].
Qed.

Definition pending_ids (p : list (field * value)) : list Z := map (fun fv => f_id (fst fv)) p.

Lemma pending_value_none id p : ~ In id (pending_ids p) -> pending_value id p = None.
Proof.
  induction p as [|[f v] p IH]; cbn [pending_value pending_ids map]; intros H; [reflexivity|].
  destruct (f_id f =? id) eqn:He; [exfalso; apply H; left; cbn; lia|]. apply IH. intros Hin. apply H. right. exact Hin.
Qed.

Lemma pending_ids_app p1 p2 : pending_ids (p1 ++ p2) = pending_ids p1 ++ pending_ids p2.
Proof. apply map_app. Qed.

Lemma pending_value_in id p v : pending_value id p = Some v -> exists f, In (f, v) p /\ f_id f = id.
Proof.
  induction p as [|[f w] p IH]; cbn [pending_value]; [discriminate|].
  destruct (f_id f =? id) eqn:He.
  - intros H. injection H as ->. exists f. split; [now left|lia].
  - intros H. destruct (IH H) as (g & Hg & Hid). exists g. split; [now right|exact Hid].
Qed.

Lemma final_step fs cur i f v p1 p2 :
  NoDup (map f_id fs) -> nth_error fs i = Some f -> List.length cur = List.length fs ->
  NoDup (pending_ids (p1 ++ (f, v) :: p2)) ->
  final fs (set_nth cur i (wrap_field f v)) (p1 ++ p2) = final fs cur (p1 ++ (f, v) :: p2).
Proof.
  intros Hnd Hi Hlen Hp.
  assert (Hnone : pending_value (f_id f) (p1 ++ p2) = None).
  { apply pending_value_none. rewrite pending_ids_app in *. cbn [pending_ids map fst] in Hp.
    apply NoDup_remove_2 in Hp. exact Hp. }
  assert (Hother : forall id, id <> f_id f ->
            pending_value id (p1 ++ (f, v) :: p2) = pending_value id (p1 ++ p2)).
  { intros id Hid. rewrite !pending_value_app. cbn [pending_value].
    replace (f_id f =? id) with false by lia. reflexivity. }
  assert (Hself : pending_value (f_id f) (p1 ++ (f, v) :: p2) = Some v).
  { rewrite pending_value_app. rewrite pending_value_app in Hnone.
    destruct (pending_value (f_id f) p1); [discriminate|]. cbn [pending_value]. rewrite Z.eqb_refl. reflexivity. }
  clear Hp. revert cur i Hi Hlen. induction fs as [|g fs IH]; intros cur i Hi Hlen; [destruct i; discriminate|].
  destruct cur as [|x cur]; [discriminate|].
  cbn [map] in Hnd. inversion Hnd as [|? ? Hnin Hnd']; subst.
  destruct i as [|i]; cbn [nth_error set_nth] in *.
  - injection Hi as ->. cbn [final]. rewrite Hnone, Hself. f_equal.
    cbn [List.length] in Hlen. assert (List.length cur = List.length fs) as Hl by lia. clear -Hnin Hother Hl.
    revert cur Hl. induction fs as [|h fs IH]; intros [|y cur] Hl; cbn in *; try lia; auto.
    rewrite Hother by (intros He; apply Hnin; left; exact He). f_equal. apply IH; [|lia].
    intros Hin. apply Hnin. right. exact Hin.
  - assert (Hne : f_id g <> f_id f).
    { intros He. apply Hnin. rewrite He. apply in_map. eapply nth_error_In. exact Hi. }
    cbn [final]. rewrite Hother by exact Hne. f_equal. apply IH; [exact Hnd'|exact Hi|cbn in Hlen; lia].
Qed.

Lemma present_ids fs vs id : In id (pending_ids (present fs vs)) -> In id (map f_id fs).
Proof.
  unfold pending_ids. intros H. apply in_map_iff in H as ([f v] & He & Hin). cbn in He. subst id.
  apply in_map. eapply present_In. exact Hin.
Qed.

Lemma present_nodup fs vs : NoDup (map f_id fs) -> NoDup (pending_ids (present fs vs)).
Proof.
  revert vs. induction fs as [|f fs IH]; intros vs Hnd; [destruct vs; constructor|].
  destruct vs as [|v vs]; [constructor|]. cbn [map] in Hnd. inversion Hnd as [|? ? Hnin Hnd']; subst.
  cbn [present]. rewrite pending_ids_app.
  assert (Hcons : NoDup (f_id f :: pending_ids (present fs vs))).
  { constructor; [|apply IH; exact Hnd']. intros Hin. apply Hnin. eapply present_ids. exact Hin. }
  destruct (f_req f); [exact Hcons|]. destruct v; cbn [pending_ids map app]; try (inversion Hcons; assumption).
Qed.

Lemma final_cons fs cur f v p :
  ~ In (f_id f) (map f_id fs) -> final fs cur ((f, v) :: p) = final fs cur p.
Proof.
  revert cur. induction fs as [|g fs IH]; intros [|x cur] H; cbn [final]; try reflexivity.
  cbn [pending_value]. assert (f_id f <> f_id g) by (intros He; apply H; left; auto).
  replace (f_id f =? f_id g) with false by lia. f_equal. apply IH. intros Hin. apply H. right. exact Hin.
Qed.

Lemma final_present E fs vs dvs :
  NoDup (map f_id fs) -> Forall2 field_shape fs vs -> Forall2 (fun f w => dflt E (field_ty f) w) fs dvs ->
  final fs dvs (present fs vs) = vs.
Proof.
  intros Hnd HF. revert dvs. induction HF as [|f v fs vs Hs HF IH]; intros dvs Hd; inversion Hd; subst; [reflexivity|].
  cbn [map] in Hnd. inversion Hnd as [|? ? Hnin Hnd']; subst.
  assert (Hnone : pending_value (f_id f) (present fs vs) = None).
  { apply pending_value_none. intros Hin. apply Hnin. eapply present_ids. exact Hin. }
  cbn [present final]. destruct (f_req f) eqn:Hr; cbn [app].
  - cbn [pending_value]. rewrite Z.eqb_refl. rewrite final_cons by exact Hnin.
    rewrite IH by assumption. unfold wrap_field. rewrite Hr. reflexivity.
  - destruct Hs as [Hs|[->|[w ->]]]; [congruence| |]; cbn [app].
    + rewrite Hnone. rewrite IH by assumption. f_equal.
      unfold field_ty in H1. rewrite Hr in H1. apply dflt_option in H1. exact H1.
    + cbn [pending_value]. rewrite Z.eqb_refl. rewrite final_cons by exact Hnin.
      rewrite IH by assumption. unfold wrap_field. rewrite Hr. reflexivity.
Qed.

(** Required fields that are not yet read are pending. *)
Definition flags_ok (fs : list field) (flags : list bool) (p : list (field * value)) : Prop :=
  List.length flags = List.length fs /\
  forall i f, nth_error fs i = Some f -> f_req f = true ->
    nth_error flags i = Some true \/ In (f_id f) (pending_ids p).

Lemma flags_ok_missing fs flags : flags_ok fs flags [] -> first_missing fs flags = None.
Proof.
  intros [Hl H]. revert flags Hl H. induction fs as [|f fs IH]; intros [|b flags] Hl H; cbn in *; auto.
  destruct (f_req f) eqn:Hr.
  - destruct (H O f eq_refl Hr) as [Hb|[]]. cbn in Hb. injection Hb as ->. cbn.
    apply IH; [lia|]. intros i g Hi Hg. exact (H (Datatypes.S i) g Hi Hg).
  - cbn. apply IH; [lia|]. intros i g Hi Hg. exact (H (Datatypes.S i) g Hi Hg).
Qed.

Lemma flags_ok_step fs flags i f v p1 p2 :
  NoDup (map f_id fs) -> nth_error fs i = Some f ->
  flags_ok fs flags (p1 ++ (f, v) :: p2) -> flags_ok fs (set_nth flags i true) (p1 ++ p2).
Proof.
  intros Hnd Hi [Hl H]. split; [rewrite set_nth_length; exact Hl|].
  intros j g Hj Hg. destruct (Nat.eq_dec i j) as [<-|Hne].
  - left. apply set_nth_same. rewrite Hl. apply nth_error_Some. congruence.
  - rewrite set_nth_other by exact Hne. destruct (H j g Hj Hg) as [Hb|Hin]; [left; exact Hb|right].
    rewrite pending_ids_app in *. cbn [pending_ids map fst] in Hin. apply in_app_or in Hin as [Hin|[He|Hin]];
      apply in_or_app; auto.
    exfalso. apply Hne. 
    apply (proj1 (NoDup_nth_error (map f_id fs)) Hnd i j).
    + rewrite map_length. apply nth_error_Some. congruence.
    + rewrite !nth_error_map, Hi, Hj. cbn. congruence.
Qed.

Lemma flags_ok_init fs vs :
  Forall2 field_shape fs vs -> flags_ok fs (map (fun _ => false) fs) (present fs vs).
Proof.
  intros HF. split; [apply map_length|].
  intros i f Hi Hr. right. revert i Hi. induction HF as [|g v fs vs Hs HF IH]; intros i Hi; [destruct i; discriminate|].
  cbn [present]. rewrite pending_ids_app. apply in_or_app. destruct i as [|i]; cbn [nth_error] in Hi.
  - injection Hi as ->. left. rewrite Hr. left. reflexivity.
  - right. apply (IH i Hi).
Qed.

(** Fields not yet read hold their default. *)
Definition cur_ok (E : env) (fs : list field) (cur : list value) (p : list (field * value)) : Prop :=
  List.length cur = List.length fs /\
  forall i f, nth_error fs i = Some f -> In (f_id f) (pending_ids p) ->
    exists x, nth_error cur i = Some x /\ dflt E (field_ty f) x.

Lemma cur_ok_step E fs cur i f v x p1 p2 :
  NoDup (map f_id fs) -> nth_error fs i = Some f ->
  NoDup (pending_ids (p1 ++ (f, v) :: p2)) ->
  cur_ok E fs cur (p1 ++ (f, v) :: p2) -> cur_ok E fs (set_nth cur i x) (p1 ++ p2).
Proof.
  intros Hnd Hi Hp [Hl H]. split; [rewrite set_nth_length; exact Hl|].
  intros j g Hj Hin. destruct (Nat.eq_dec i j) as [<-|Hne].
  - exfalso. rewrite pending_ids_app in *. cbn [pending_ids map fst] in Hp. apply NoDup_remove_2 in Hp. apply Hp.
    replace g with f in Hin by congruence. exact Hin.
  - rewrite set_nth_other by exact Hne. apply (H j g Hj). rewrite pending_ids_app in *.
    cbn [pending_ids map fst]. apply in_app_or in Hin as [Hin|Hin]; apply in_or_app; [left|right; right]; exact Hin.
Qed.

(** * The theorem *)
Section Fill.
  Context {S : Type} (R : S -> list Z -> Prop).
  Variable c : cfg.
  Variable I : input S.
  Variable E : env.
  Variable K : nat.
  Variable strict : bool.
  Hypothesis D : delivers I R.
  Hypothesis Hc : cfg_ok c.
  Hypothesis HE : env_ok strict E K = true.
  Hypothesis Hres : reserve_ok c.

  Definition fills {A} (m : S -> S * A * outcome unit) (bs : list Z) (v : A) : Prop :=
    forall s rest, R s (bs ++ rest) -> exists s', m s = (s', v, Ok tt) /\ R s' rest.

  Lemma fills_assign {A} (m : M S A) k v0 bs a :
    reads R m bs a -> fills (assign m k v0) bs (k a).
  Proof.
    intros H s rest HR. destruct (H s rest HR) as (s1 & E1 & R1).
    exists s1. unfold assign. rewrite E1. auto.
  Qed.

  Lemma genc_seq_i32 zs body :
    genc_seq strict E TI32 (map VI32 zs) body ->
    exists bss, body = List.concat bss /\ Forall2 (fun z bs => zz_int 32 z bs) zs bss.
  Proof.
    revert body. induction zs as [|z zs IH]; intros body H; cbn [map] in H; inversion H; subst.
    - exists []. split; [reflexivity|constructor].
    - match goal with H1 : genc _ _ TI32 _ _ |- _ => inversion H1; subst end.
      match goal with H2 : genc_seq _ _ _ _ _ |- _ => destruct (IH _ H2) as (bss & -> & HF) end.
      eexists (_ :: bss). split; [reflexivity|]. constructor; eassumption.
  Qed.

  Lemma encset_loop_reads zs bss :
    Forall2 (fun z bs => zz_int 32 z bs) zs bss -> Forall (fun z => 0 <= z <= 30) zs ->
    forall m0, reads R (encset_read_loop c I (List.length zs) m0) (List.concat bss)
                 (fold_left (fun m z => Z.lor m (2 ^ z)) zs m0).
  Proof.
    induction 1 as [|z bs zs bss Hz HF IH]; intros Hr m0; cbn [List.length encset_read_loop List.concat fold_left].
    - apply reads_ret.
    - inversion Hr as [|? ? Hz30 Hr']; subst.
      eapply reads_bind; [apply (read_i32_reads R c I D); exact Hz|].
      replace ((z <? 0) || (31 <=? z)) with false by lia.
      replace (wrapu 32 (Z.shiftl 1 z)) with (2 ^ z).
      + apply IH. exact Hr'.
      + rewrite shiftl_mul by lia. rewrite Z.mul_1_l. symmetry. apply wrapu_id.
        split; [apply Z.pow_nonneg; lia|apply Z.pow_lt_mono_r; lia].
  Qed.

  Lemma fold_lor_bits zs m0 k :
    Forall (fun z => 0 <= z <= 30) zs -> 0 <= k ->
    Z.testbit (fold_left (fun m z => Z.lor m (2 ^ z)) zs m0) k = Z.testbit m0 k || existsb (Z.eqb k) zs.
  Proof.
    intros Hr Hk. revert m0. induction Hr as [|z zs Hz Hr IH]; intros m0; cbn [fold_left existsb].
    - now rewrite orb_false_r.
    - rewrite IH, Z.lor_spec, Z.pow2_bits_eqb by lia.
      rewrite <- orb_assoc. f_equal. f_equal. apply Z.eqb_sym.
  Qed.

  Lemma need_le t t' n n' d :
    (need K t n <= d)%nat -> (n' <= n)%nat -> (ty_depth t' <= ty_depth t)%nat -> (need K t' n' <= d)%nat.
  Proof. unfold need. intros. assert ((K + 4) * n' <= (K + 4) * n)%nat by (apply Nat.mul_le_mono_l; lia). lia. Qed.

  Lemma need_inner t t' n n' d :
    (need K t n <= Datatypes.S d)%nat -> (n' <= n)%nat -> (Datatypes.S (ty_depth t') <= ty_depth t)%nat ->
    (need K t' n' <= d)%nat.
  Proof. unfold need. intros. assert ((K + 4) * n' <= (K + 4) * n)%nat by (apply Nat.mul_le_mono_l; lia). lia. Qed.

  Lemma need_field t t' n n' d :
    (need K t n <= Datatypes.S d)%nat -> (n' < n)%nat -> (ty_depth t' <= K)%nat ->
    (need K t' n' + 2 <= d)%nat.
  Proof.
    unfold need. intros H Hn Ht. assert ((K + 4) * (Datatypes.S n') <= (K + 4) * n)%nat by (apply Nat.mul_le_mono_l; lia).
    rewrite Nat.mul_succ_r in H0. lia.
  Qed.

  Lemma need_skip t n n' d : (need K t n <= Datatypes.S d)%nat -> (n' < n)%nat -> (2 * n' < d)%nat.
  Proof.
    unfold need. intros H Hn. assert (4 * n <= (K + 4) * n)%nat by (apply Nat.mul_le_mono_r; lia). lia.
  Qed.

  Lemma depth_pos t : (1 <= ty_depth t)%nat.
  Proof. destruct t; cbn [ty_depth]; lia. Qed.

  Lemma wire_code_nonzero t : (wire_code E t =? 0) = false.
  Proof. pose proof (wire_code_range E t). lia. Qed.

  (** The statement for [fill] and, for types that use the default
      [fill_thrift_field], that too. *)
  Definition P_enc (t : ty) (v : value) (bs : list Z) : Prop :=
    forall d dv, ty_closed E t = true -> (need K t (List.length bs) <= d)%nat -> dflt E t dv ->
      fills (fill c I E d t dv) bs v.
  Definition P_field (t : ty) (v : value) (ft : Z) (bs : list Z) : Prop :=
    forall d dv, ty_closed E t = true -> (need K t (List.length bs) + 1 <= d)%nat -> dflt E t dv ->
      1 <= ft <= 12 /\ fills (fill_field c I E d t ft dv) bs v.
  Definition P_seq (t : ty) (vs : list value) (bs : list Z) : Prop :=
    forall d dv, ty_closed E t = true -> (need K t (List.length bs) <= d)%nat -> dflt E t dv ->
      fills (vec_loop (Some dv) (fill c I E d t) (List.length vs)) bs vs.
  Definition P_fields (fs : list field) (last : Z) (p : list (field * value)) (bs : list Z) : Prop :=
    forall name d fuel flags cur,
      -32768 <= last ->
      NoDup (map f_id fs) ->
      (forall f, In f fs -> ty_closed E (f_ty f) = true /\ (ty_depth (field_ty f) <= K)%nat) ->
      NoDup (pending_ids p) -> (forall f v, In (f, v) p -> In f fs) ->
      flags_ok fs flags p -> cur_ok E fs cur p ->
      (need K TBool (List.length bs) <= Datatypes.S d)%nat -> (List.length bs <= fuel)%nat ->
      fills (struct_loop c I name fs (fun t' ft w s' => fill_field c I E d t' ft w s')
               (fun ft => skip_field c I d ft false) fuel last flags cur) bs (final fs cur p).

  Lemma fill_struct d n fs vs s :
    lookup E n = Some (DStruct fs) ->
    fill c I E (Datatypes.S d) (TNamed n) (VStruct vs) s =
    match struct_loop c I n fs (fun t' ft w s' => fill_field c I E d t' ft w s')
            (fun ft => skip_field c I d ft false)
            (Datatypes.S (in_left I s)) 0 (map (fun _ => false) fs) vs s with
    | (s', vs', o) => (s', VStruct vs', o)
    end.
  Proof. intros H. cbn [fill]. rewrite H. reflexivity. Qed.

  Lemma final_nil fs cur : List.length cur = List.length fs -> final fs cur [] = cur.
  Proof.
    revert cur. induction fs as [|f fs IH]; intros [|x cur] H; cbn in *; try lia; auto. f_equal. apply IH. lia.
  Qed.

  Lemma field_of_plain t v bs :
    P_enc t v bs -> bool_or_option t = false -> P_field t v (wire_code E t) bs.
  Proof.
    intros H Hb d dv Hcl Hd Hdv. pose proof (wire_code_range E t). split; [lia|].
    destruct d as [|d]; [lia|].
    assert (Heq : forall s, fill_field c I E (Datatypes.S d) t (wire_code E t) dv s = fill c I E d t dv s).
    { intros s. cbn [fill fill_field].
      assert (Ht : (if negb (wire_code E t =? field_type E t) then (s, dv, Err InvalidType)
                    else fill c I E d t dv s) = fill c I E d t dv s).
      { rewrite wire_code_field_type by exact Hcl. rewrite Z.eqb_refl. reflexivity. }
      destruct t; try discriminate; exact Ht. }
    intros s rest HR. rewrite Heq. apply (H d dv Hcl); [lia|exact Hdv|exact HR].
  Qed.

  Lemma P_stop fs last : P_fields fs last [] [0].
  Proof.
    intros name d fuel flags cur Hl Hnd Hcl Hp Hin Hfl Hcur Hd Hfuel s rest HR.
    destruct fuel as [|fuel]; [cbn in Hfuel; lia|]. cbn [struct_loop].
    destruct (read_field_header_stop R c I D last s rest HR) as (s1 & E1 & R1).
    rewrite E1. cbn [Z.eqb]. rewrite (flags_ok_missing _ _ Hfl). exists s1.
    rewrite final_nil by apply Hcur. auto.
  Qed.

  Lemma P_known fs last p1 f v p2 ft hdr payload rest :
    field_header last (f_id f) ft hdr -> P_field (f_ty f) v ft payload ->
    P_fields fs (f_id f) (p1 ++ p2) rest ->
    P_fields fs last (p1 ++ (f, v) :: p2) (hdr ++ payload ++ rest).
  Proof.
    intros Hh Hf IHf name d fuel flags cur Hl Hnd Hcl Hp Hin Hfl Hcur Hd Hfuel s rest' HR.
    assert (Hinf : In f fs) by (apply (Hin f v); apply in_or_app; right; left; reflexivity).
    destruct (Hcl f Hinf) as [Hfc Hfd].
    apply In_nth_error in Hinf as [i Hi].
    pose proof (field_header_nonempty _ _ _ _ Hh) as Hne.
    pose proof (field_header_id _ _ _ _ Hl Hh) as Hid.
    destruct (proj2 Hcur i f Hi) as (x & Hx & Hdx).
    { rewrite pending_ids_app. apply in_or_app. right. left. reflexivity. }
    rewrite !app_length in Hd, Hfuel. rewrite <- !app_assoc in HR.
    destruct fuel as [|fuel]; [lia|].
    assert (Hfill : 1 <= ft <= 12 /\ fills (fill_field c I E d (field_ty f) ft x) payload (wrap_field f v)).
    { unfold field_ty, wrap_field in *. destruct (f_req f) eqn:Hr.
      - apply Hf; [exact Hfc| |exact Hdx].
        pose proof (need_field TBool (f_ty f) _ (List.length payload) d Hd ltac:(lia) Hfd). lia.
      - cbn [ty_depth] in Hfd. pose proof (need_field TBool (f_ty f) _ (List.length payload) d Hd ltac:(lia) ltac:(lia)) as Hn.
        destruct (default_closed strict E K (f_ty f) (d - 1) HE Hfc) as [dv Hdv].
        { unfold need in Hn. lia. }
        destruct (Hf (d - 1)%nat dv Hfc ltac:(lia) (ex_intro _ _ Hdv)) as [Hft Hfi].
        split; [exact Hft|]. intros s0 rest0 HR0.
        destruct (Hfi _ _ HR0) as (s1 & E1 & R1). exists s1. split; [|exact R1].
        apply dflt_option in Hdx. subst x. destruct d as [|d]; [lia|]. cbn [fill fill_field].
        replace (Datatypes.S d - 1)%nat with d in * by lia. rewrite Hdv, E1. reflexivity. }
    destruct Hfill as [Hft Hfill]. cbn [struct_loop].
    destruct (read_field_header_reads R c I D last (f_id f) ft hdr Hl ltac:(lia) Hh s _ HR) as (s1 & E1 & R1).
    rewrite E1. replace (ft =? 0) with false by lia.
    rewrite (find_field_nth fs i f Hnd Hi), Hx.
    destruct (Hfill _ _ R1) as (s2 & E2 & R2). rewrite E2.
    rewrite <- (final_step fs cur i f v p1 p2 Hnd Hi (proj1 Hcur) Hp).
    apply IHf with (rest := rest'); try assumption.
    - lia.
    - rewrite pending_ids_app in *. cbn [pending_ids map fst] in Hp. apply NoDup_remove_1 in Hp. exact Hp.
    - intros f' v' Hin'. apply (Hin f' v'). apply in_app_or in Hin' as [|]; apply in_or_app; [left|right; right]; assumption.
    - eapply flags_ok_step; eassumption.
    - eapply cur_ok_step; eassumption.
    - eapply need_le; [exact Hd|lia|lia].
    - lia.
  Qed.

  Lemma P_unknown fs last pending id t hdr payload rest :
    (forall f, In f fs -> f_id f <> id) -> 1 <= t <= 12 ->
    field_header last id t hdr -> wire t false payload ->
    P_fields fs id pending rest ->
    P_fields fs last pending (hdr ++ payload ++ rest).
  Proof.
    intros Hunk Ht Hh Hw IHf name d fuel flags cur Hl Hnd Hcl Hp Hin Hfl Hcur Hd Hfuel s rest' HR.
    pose proof (field_header_nonempty _ _ _ _ Hh) as Hne.
    pose proof (field_header_id _ _ _ _ Hl Hh) as Hid.
    rewrite !app_length in Hd, Hfuel. rewrite <- !app_assoc in HR.
    destruct fuel as [|fuel]; [lia|]. cbn [struct_loop].
    destruct (read_field_header_reads R c I D last id t hdr Hl ltac:(lia) Hh s _ HR) as (s1 & E1 & R1).
    rewrite E1. replace (t =? 0) with false by lia.
    rewrite (find_field_none fs id Hunk).
    destruct (skip_field_wire R c I D Hc t false payload d Hw) with (s := s1) (rest := rest ++ rest') as (s2 & E2 & R2);
      [eapply need_skip; [exact Hd|lia]|exact R1|].
    rewrite E2. apply IHf with (rest := rest'); try assumption; [lia|eapply need_le; [exact Hd|lia|lia]|lia].
  Qed.

  Theorem fill_genc :
    (forall t v bs, genc strict E t v bs -> P_enc t v bs) /\
    (forall t vs bs, genc_seq strict E t vs bs -> P_seq t vs bs) /\
    (forall t v ft bs, genc_field strict E t v ft bs -> P_field t v ft bs) /\
    (forall fs last p bs, genc_fields strict E fs last p bs -> P_fields fs last p bs).
  Proof.
    apply genc_mutind.
    - intros d dv Hcl Hd Hdv. destruct d as [|d]; [unfold need in Hd; lia|]. cbn [fill fill_field].
      apply (fills_assign (in_read_byte I) (fun b => VBool (b =? 1)) dv [1] 1). apply (del_byte _ _ D).
    - intros b Hb d dv Hcl Hd Hdv. destruct d as [|d]; [unfold need in Hd; lia|]. cbn [fill fill_field].
      replace false with (b =? 1) by lia.
      apply (fills_assign (in_read_byte I) (fun b => VBool (b =? 1)) dv [b] b). apply (del_byte _ _ D).
    - intros z Hz d dv Hcl Hd Hdv. destruct d as [|d]; [unfold need in Hd; lia|]. cbn [fill fill_field].
      replace (VI8 z) with (VI8 (wraps 8 (z mod 256))).
      + apply (fills_assign (in_read_byte I) (fun b => VI8 (wraps 8 b)) dv [z mod 256]). apply (del_byte _ _ D).
      + f_equal. unfold in_s in Hz. unfold wraps. change (2 ^ (8 - 1)) with 128 in *. change (2 ^ 8) with 256. lia.
    - intros z bs Hz d dv Hcl Hd Hdv. destruct d as [|d]; [unfold need in Hd; lia|]. cbn [fill fill_field].
      apply fills_assign. apply (read_i16_reads R c I D). exact Hz.
    - intros z bs Hz d dv Hcl Hd Hdv. destruct d as [|d]; [unfold need in Hd; lia|]. cbn [fill fill_field].
      apply fills_assign. apply (read_i32_reads R c I D). exact Hz.
    - intros z bs Hz d dv Hcl Hd Hdv. destruct d as [|d]; [unfold need in Hd; lia|]. cbn [fill fill_field].
      apply fills_assign. apply (read_i64_reads R c I D). exact Hz.
    - intros bs Hl Hb d dv Hcl Hd Hdv. destruct d as [|d]; [unfold need in Hd; lia|]. cbn [fill fill_field].
      apply fills_assign. apply (del_double _ _ D). exact Hl.
    - intros payload bs Hb d dv Hcl Hd Hdv. destruct d as [|d]; [unfold need in Hd; lia|]. cbn [fill fill_field].
      apply fills_assign. apply (del_binary _ _ D). exact Hb.
    - intros payload bs Hb Hu d dv Hcl Hd Hdv. destruct d as [|d]; [unfold need in Hd; lia|]. cbn [fill fill_field].
      apply fills_assign. unfold read_string. rewrite <- (app_nil_r bs).
      eapply reads_bind; [apply (del_binary _ _ D); exact Hb|].
      rewrite utf8_valid_complete by exact Hu. apply reads_ret.
    - (* vec *)
      intros t vs tag hdr body Hclt Htag Hh Hseq IH d dv Hcl Hd Hdv.
      destruct d as [|d]; [unfold need in Hd; lia|].
      intros s rest HR. rewrite <- app_assoc in HR.
      pose proof (wire_code_range E t) as Hwc.
      assert (Htr : 0 <= tag <= 15) by (destruct Htag as [->|[_ ->]]; lia).
      destruct (read_collection_len_and_type_reads R c I D Hc (zlen vs) tag hdr Htr Hh _ _ HR) as (s1 & E1 & R1).
      cbn [fill fill_field]. rewrite E1.
      assert (Hchk : negb (tag =? field_type E t) && negb ((field_type E t =? 2) && (tag =? 1)) = false).
      { rewrite wire_code_field_type by exact Hclt. destruct Htag as [->|[Hb ->]].
        - rewrite Z.eqb_refl. reflexivity.
        - rewrite (boolish_wire_code E t Hb). reflexivity. }
      rewrite Hchk.
      assert (Hlen : 0 <= zlen vs <= 10000000) by (destruct Hh; lia).
      rewrite (Hres _ Hlen). cbn [negb].
      rewrite app_length in Hd.
      assert (Hd' : (need K t (List.length body) <= d)%nat).
      { eapply need_inner; [exact Hd|lia|cbn [ty_depth]; lia]. }
      destruct (default_closed strict E K t d HE Hclt) as [dv' Hdv']; [unfold need in Hd'; lia|].
      rewrite Hdv'.
      destruct (IH d dv' Hclt Hd' (ex_intro _ _ Hdv') _ _ R1) as (s2 & E2 & R2).
      replace (Z.to_nat (zlen vs)) with (List.length vs) by (unfold zlen; lia).
      rewrite E2. exists s2. auto.
    - (* some *)
      intros t v bs Hg IH d dv Hcl Hd Hdv. destruct d as [|d]; [unfold need in Hd; lia|].
      apply dflt_option in Hdv. subst dv. cbn [ty_closed] in Hcl.
      assert (Hd' : (need K t (List.length bs) <= d)%nat).
      { eapply need_inner; [exact Hd|lia|cbn [ty_depth]; lia]. }
      destruct (default_closed strict E K t d HE Hcl) as [dv' Hdv']; [unfold need in Hd'; lia|].
      intros s rest HR. cbn [fill fill_field]. rewrite Hdv'.
      destruct (IH d dv' Hcl Hd' (ex_intro _ _ Hdv') _ _ HR) as (s2 & E2 & R2). rewrite E2. exists s2. auto.
    - (* box *)
      intros t v bs Hg IH d dv Hcl Hd Hdv. destruct d as [|d]; [unfold need in Hd; lia|].
      apply dflt_box in Hdv as (w & -> & Hw). cbn [ty_closed] in Hcl.
      intros s rest HR. cbn [fill fill_field].
      destruct (IH d w Hcl) with (s := s) (rest := rest) as (s2 & E2 & R2); auto.
      { eapply need_inner; [exact Hd|lia|cbn [ty_depth]; lia]. }
      rewrite E2. exists s2. auto.
    - (* shared *)
      intros t v bs Hg IH d dv Hcl Hd Hdv. destruct d as [|d]; [unfold need in Hd; lia|].
      apply dflt_shared in Hdv as (w & -> & Hw). cbn [ty_closed] in Hcl.
      intros s rest HR. cbn [fill fill_field].
      destruct (IH d w Hcl) with (s := s) (rest := rest) as (s2 & E2 & R2); auto.
      { eapply need_inner; [exact Hd|lia|cbn [ty_depth]; lia]. }
      rewrite E2. exists s2. auto.
    - (* encset *)
      intros mask zs hdr body Hz Hm Hbits Hh Hseq _ d dv Hcl Hd Hdv.
      destruct d as [|d]; [unfold need in Hd; lia|]. cbn [fill fill_field].
      apply fills_assign. unfold encset_read.
      eapply reads_bind; [apply (read_collection_len_and_type_reads R c I D Hc (zlen zs) 5 hdr ltac:(lia) Hh)|].
      cbv beta iota. cbn [Z.eqb Pos.eqb negb].
      destruct (genc_seq_i32 _ _ Hseq) as (bss & -> & HF).
      replace (Z.to_nat (zlen zs)) with (List.length zs) by (unfold zlen; lia).
      replace mask with (fold_left (fun m z => Z.lor m (2 ^ z)) zs 0).
      + apply encset_loop_reads; assumption.
      + apply Z.bits_inj'. intros k Hk. rewrite fold_lor_bits by assumption.
        rewrite Z.bits_0. cbn [orb]. apply eq_true_iff_eq. rewrite (Hbits k Hk).
        rewrite existsb_exists. split.
        * intros (x & Hx & He). apply Z.eqb_eq in He. subst x. exact Hx.
        * intros Hx. exists k. split; [exact Hx|apply Z.eqb_refl].
    - (* enum *)
      intros n z bs Hl Hz d dv Hcl Hd Hdv. destruct d as [|d]; [unfold need in Hd; lia|]. cbn [fill fill_field]. rewrite Hl.
      apply fills_assign. apply (read_i32_reads R c I D). exact Hz.
    - (* struct *)
      intros n fs vs bs Hl Hshape Hg IH d dv Hcl Hd Hdv. destruct d as [|d]; [unfold need in Hd; lia|].
      destruct (dflt_struct E n fs dv Hl Hdv) as (dvs & -> & Hdvs).
      destruct (struct_fields strict E K n fs HE Hl) as (Hnd & Hfs & _).
      intros s rest HR. rewrite (fill_struct d n fs dvs s Hl).
      pose proof (del_left _ _ D _ _ HR) as Hleft. rewrite app_length in Hleft.
      destruct (IH n d (Datatypes.S (in_left I s)) (map (fun _ => false) fs) dvs) with (s := s) (rest := rest)
        as (s2 & E2 & R2).
      + lia.
      + exact Hnd.
      + intros f Hf. destruct (Hfs f Hf) as (H1 & H2 & _). auto.
      + apply present_nodup. exact Hnd.
      + intros f v. apply present_In.
      + apply flags_ok_init. exact Hshape.
      + split; [symmetry; eapply Forall2_length; exact Hdvs|].
        intros i f Hi _. clear -Hdvs Hi. revert i Hi.
        induction Hdvs as [|g w fs dvs Hw HF IH]; intros [|i] Hi; cbn in *; try discriminate.
        * injection Hi as ->. eauto.
        * apply IH. exact Hi.
      + exact Hd.
      + lia.
      + exact HR.
      + rewrite E2. exists s2. rewrite (final_present E fs vs dvs Hnd Hshape Hdvs). auto.
    - (* union *)
      intros n fs i f v hdr payload Hl Hi Hb Hclf Hh Hg IH d dv Hcl Hd Hdv.
      destruct d as [|d]; [unfold need in Hd; lia|].
      destruct (union_fields strict E K n fs HE Hl) as (Hnd & Hfs & _).
      assert (Hinf : In f fs) by (eapply nth_error_In; exact Hi).
      destruct (Hfs f Hinf) as (_ & Hfd & _).
      intros s rest HR. rewrite <- !app_assoc in HR.
      pose proof (wire_code_range E (f_ty f)) as Hwc.
      pose proof (field_header_nonempty _ _ _ _ Hh) as Hne.
      destruct (read_field_header_reads R c I D 0 (f_id f) (wire_code E (f_ty f)) hdr ltac:(lia) ltac:(lia) Hh s _ HR) as (s1 & E1 & R1).
      cbn [fill fill_field]. rewrite Hl, E1, wire_code_nonzero, (find_field_nth fs i f Hnd Hi).
      rewrite !app_length in Hd.
      assert (Hn : (need K (f_ty f) (List.length payload) + 2 <= d)%nat)
        by (eapply need_field; [exact Hd|lia|exact Hfd]).
      destruct (default_closed strict E K (f_ty f) d HE Hclf) as [dv' Hdv']; [unfold need in Hn; lia|].
      rewrite Hdv'.
      destruct (IH d dv' Hclf ltac:(lia) (ex_intro _ _ Hdv') _ _ R1) as (s2 & E2 & R2). rewrite E2.
      destruct (del_byte _ _ D 0 s2 rest R2) as (s3 & E3 & R3). rewrite E3.
      exists s3. auto.
    - (* seq nil *)
      intros t d dv Hcl Hd Hdv s rest HR. exists s. cbn. auto.
    - intros t v vs b1 b2 Hg IH1 Hs IH2 d dv Hcl Hd Hdv s rest HR.
      rewrite app_length in Hd. rewrite <- app_assoc in HR. cbn [List.length vec_loop].
      destruct (IH1 d dv Hcl) with (s := s) (rest := b2 ++ rest) as (s1 & E1 & R1); auto.
      { eapply need_le; [exact Hd|lia|lia]. }
      rewrite E1.
      destruct (IH2 d dv Hcl) with (s := s1) (rest := rest) as (s2 & E2 & R2); auto.
      { eapply need_le; [exact Hd|lia|lia]. }
      rewrite E2. exists s2. auto.
    - (* field: bool *)
      intros b d dv Hcl Hd Hdv. split; [destruct b; lia|].
      destruct d as [|d]; [lia|]. intros s rest HR. exists s. cbn [fill fill_field].
      split; [|exact HR]. destruct b; reflexivity.
    - (* field: option *)
      intros t v ft bs Hg IH d dv Hcl Hd Hdv. destruct d as [|d]; [lia|].
      apply dflt_option in Hdv. subst dv. cbn [ty_closed] in Hcl.
      assert (Hd' : (need K t (List.length bs) + 1 <= d)%nat).
      { unfold need in *. cbn [ty_depth] in Hd. lia. }
      destruct (default_closed strict E K t d HE Hcl) as [dv' Hdv']; [unfold need in Hd'; lia|].
      destruct (IH d dv' Hcl Hd' (ex_intro _ _ Hdv')) as [Hft Hfi]. split; [exact Hft|].
      intros s rest HR. cbn [fill fill_field]. rewrite Hdv'.
      destruct (Hfi _ _ HR) as (s2 & E2 & R2). rewrite E2. exists s2. auto.
    - (* field: other *)
      intros t v bs Hb Hst Hclt Hg IH. apply field_of_plain; assumption.
    - apply P_stop.
    - intros fs last p1 f v p2 ft hdr payload rest Hh Hg IHg Hgs IHgs. apply P_known with (ft := ft); assumption.
    - intros fs last pending id t hdr payload rest Hunk Ht Hh Hw Hg IH. apply P_unknown with (id := id) (t := t); assumption.
  Qed.

  (** [read_thrift] *)
  Theorem read_thrift_genc t v bs d :
    genc strict E t v bs -> ty_closed E t = true -> (need K t (List.length bs) <= d)%nat ->
    reads R (read_thrift c I E d t) bs v.
  Proof.
    intros Hg Hcl Hd s rest HR. unfold read_thrift.
    destruct (default_closed strict E K t d HE Hcl) as [dv Hdv]; [unfold need in Hd; lia|].
    rewrite Hdv.
    destruct (proj1 fill_genc t v bs Hg d dv Hcl Hd (ex_intro _ _ Hdv) _ _ HR) as (s' & E1 & R1).
    rewrite E1. exists s'. auto.
  Qed.
End Fill.
