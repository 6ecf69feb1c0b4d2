(** Writing, conformance and reading back: the lemmas behind C10-C13, C15, C25. *)
From Coq Require Import ZifyBool ZifyNat ZifyN.
From Verif Require Import Base Uleb Utf8 Protocol Encodings Types SpecUtf8 SpecCompact SpecInput Schema Typing
  Parquet P_Arith P_Reads P_Utf8 P_Inputs P_Skip P_Gen P_Fill P_Write P_Sink.

(** * Deciding [typed] *)
Definition bytesb (l : list Z) : bool := forallb is_byteb l.
Lemma bytesb_ok l : bytesb l = true -> bytes l.
Proof.
  unfold bytesb, bytes. rewrite forallb_forall, Forall_forall. intros H x Hx. specialize (H x Hx).
  unfold is_byteb in H. unfold is_byte. lia.
Qed.

Fixpoint typedb (E : env) (v : value) (t : ty) {struct v} : bool :=
  match v, t with
  | VBool _, TBool => true
  | VI8 z, TI8 => in_sb 8 z
  | VI16 z, TI16 => in_sb 16 z
  | VI32 z, TI32 => in_sb 32 z
  | VI64 z, TI64 => in_sb 64 z
  | VDouble z, TDouble => in_ub 64 z
  | VBin l, TBinary => bytesb l
  | VStr l, TString => bytesb l && utf8_valid l
  | VVec vs, TVec t' => ty_closed E t' && forallb (fun w => typedb E w t') vs
  | VNone, TOption t' => ty_closed E t'
  | VSome w, TOption t' => typedb E w t'
  | VBox w, TBox t' => typedb E w t'
  | VShared _ w, TShared t' => typedb E w t'
  | VEncSet m, TEncSet => in_ub 31 m
  | VI32 z, TNamed n => match lookup E n with Some DEnum => in_sb 32 z | _ => false end
  | VStruct vs, TNamed n =>
      match lookup E n with
      | Some (DStruct fs) =>
          (fix zip (vs : list value) (fs : list field) : bool :=
             match vs, fs with
             | [], [] => true
             | w :: vs', f :: fs' => typedb E w (field_ty f) && zip vs' fs'
             | _, _ => false
             end) vs fs
      | _ => false
      end
  | VUnion i w, TNamed n =>
      match lookup E n with
      | Some (DUnion fs) => match nth_error fs i with Some f => typedb E w (f_ty f) | None => false end
      | _ => false
      end
  | _, _ => false
  end.

Lemma in_sb_ok n z : in_sb n z = true -> in_s n z.
Proof. unfold in_sb, in_s. lia. Qed.
Lemma in_ub_ok n z : in_ub n z = true -> in_u n z.
Proof. unfold in_ub, in_u. lia. Qed.

Lemma typedb_ok E v : forall t, typedb E v t = true -> typed E t v.
Proof.
  induction v using value_induction; intros t H0; destruct t; cbn [typedb] in H0; try discriminate.
  - constructor.
  - constructor. apply in_sb_ok. exact H0.
  - constructor. apply in_sb_ok. exact H0.
  - constructor. apply in_sb_ok. exact H0.
  - destruct (lookup E name) as [[| |]|] eqn:Hl; try discriminate. apply ty_enum; [exact Hl|apply in_sb_ok; exact H0].
  - constructor. apply in_sb_ok. exact H0.
  - constructor. apply in_ub_ok. exact H0.
  - constructor. apply bytesb_ok. exact H0.
  - apply andb_true_iff in H0 as [H1 H2]. apply bytesb_ok in H1. constructor; [exact H1|].
    apply utf8_valid_iff; assumption.
  - apply andb_true_iff in H0 as [H1 H2]. constructor; [exact H1|].
    clear H1. induction H as [|w vs Hw HF IH]; cbn [forallb] in H2; [constructor|].
    apply andb_true_iff in H2 as [H2 H3]. constructor; [apply Hw; exact H2|apply IH; exact H3].
  - constructor. exact H0.
  - constructor. apply IHv. exact H0.
  - constructor. apply IHv. exact H0.
  - constructor. apply IHv. exact H0.
  - constructor. apply in_ub_ok. exact H0.
  - destruct (lookup E name) as [[fs| |]|] eqn:Hl; try discriminate.
    apply ty_struct with fs; [exact Hl|]. clear Hl.
    revert fs H0. induction H as [|w vs Hw HF IH]; intros [|f fs] H0; try discriminate; [constructor|].
    apply andb_true_iff in H0 as [H1 H2]. constructor; [apply Hw; exact H1|apply IH; exact H2].
  - destruct (lookup E name) as [[|fs|]|] eqn:Hl; try discriminate.
    destruct (nth_error fs i) as [f|] eqn:Hn; [|discriminate].
    eapply ty_union; [exact Hl|exact Hn|apply IHv; exact H0].
Qed.

(** * Outcome of writing (C25) *)
Lemma write_outcome E t v : typed E t v ->
  exists bs, appends (write_thrift vec_write_all E t v) bs (result_of (unwritable false v)) /\ bytes bs.
Proof.
  intros Ht. destruct (proj1 (write_typed E 0 true true) t v Ht) as [(bs & Hp & Hb & _) _].
  exists bs. split; [exact Hp|exact Hb].
Qed.

Lemma write_sized E K unk strict t v bs : typed E t v -> write_thrift vec_write_all E t v [] = (bs, Ok tt) ->
  unwritable false v = None /\ bytes bs /\
  (env_ok strict E K = true -> fits E v t = true -> gencu unk strict E t (unshare v) bs /\ zlen bs = csize E (unshare v) t).
Proof.
  intros Ht Hw. destruct (proj1 (write_typed E K unk strict) t v Ht) as [(bs' & Hp & Hb & Hg) _].
  unfold write_thrift in Hw. rewrite Hp in Hw. cbn [app] in Hw. injection Hw as <- Ho.
  destruct (unwritable false v) as [e|]; [discriminate|].
  split; [reflexivity|]. split; [exact Hb|]. intros H1 H2. apply Hg; [reflexivity|assumption|assumption].
Qed.
Lemma write_ok E t v bs : typed E t v -> write_thrift vec_write_all E t v [] = (bs, Ok tt) ->
  unwritable false v = None /\ bytes bs /\
  forall K unk strict, env_ok strict E K = true -> fits E v t = true -> gencu unk strict E t (unshare v) bs.
Proof.
  intros Ht Hw.
  destruct (write_sized E 0 true true t v bs Ht Hw) as (H1 & H2 & _). split; [exact H1|]. split; [exact H2|].
  intros K unk strict HE HW. apply (write_sized E K unk strict t v bs Ht Hw); assumption.
Qed.

(** * C10 *)
Lemma schema_fits E t v : wenv_ok E = true -> typed E t v -> fits E v t = true.
Proof. intros HW Ht. apply (proj1 (headers_fit E HW)). exact Ht. Qed.
Lemma write_conforms E K t v bs :
  env_ok true E K = true -> fits E v t = true -> typed E t v ->
  write_thrift vec_write_all E t v [] = (bs, Ok tt) -> enc E t (unshare v) bs.
Proof.
  intros HE HW Ht Hw. destruct (write_ok E t v bs Ht Hw) as (_ & _ & Hg).
  apply (proj1 (genc_enc E)). apply (Hg K); assumption.
Qed.

(** * C11 *)
Lemma read_conforming c E K t v bs d :
  cfg_ok c -> reserve_ok c -> env_ok true E K = true -> ty_closed E t = true ->
  enc E t v bs -> (need K t (List.length bs) <= d)%nat ->
  both_read c (fun S I => read_thrift c I E d t) bs v.
Proof.
  intros Hc Hr HE Hcl He Hd. apply both_reads; [|exact Hc]. intros S I R D.
  apply (read_thrift_genc R c I E K true D Hc HE Hr); [apply (proj1 (enc_genc E K HE)); assumption|exact Hcl|exact Hd].
Qed.

(** * C12 *)
Lemma write_read c E K t v bs d :
  cfg_ok c -> reserve_ok c -> env_ok false E K = true -> fits E v t = true -> typed E t v ->
  write_thrift vec_write_all E t v [] = (bs, Ok tt) -> (need K t (List.length bs) <= d)%nat ->
  both_read c (fun S I => read_thrift c I E d t) bs (unshare v).
Proof.
  intros Hc Hr HE HW Ht Hw Hd. destruct (write_ok E t v bs Ht Hw) as (_ & _ & Hg).
  apply both_reads; [|exact Hc]. intros S I R D.
  apply (read_thrift_genc R c I E K false D Hc HE Hr); [apply (Hg K); assumption| |exact Hd].
  eapply (proj1 (typed_closed E)). exact Ht.
Qed.

(** * C13 *)
Lemma parquet_ok : env_ok false parquet_env 12 = true /\ env_ok true parquet_env 12 = true /\ wenv_ok parquet_env = true.
Proof. vm_compute. auto. Qed.
Lemma parquet_write_read c t v bs d :
  cfg_ok c -> reserve_ok c -> typed parquet_env t v ->
  write_thrift vec_write_all parquet_env t v [] = (bs, Ok tt) -> (need 12 t (List.length bs) <= d)%nat ->
  enc parquet_env t (unshare v) bs /\
  both_read c (fun S I => read_thrift c I parquet_env d t) bs (unshare v).
Proof.
  intros. destruct parquet_ok as (H1' & H2' & H3').
  assert (fits parquet_env v t = true) by (apply (proj1 (headers_fit parquet_env H3')); assumption). split.
  - eapply write_conforms; eassumption.
  - eapply write_read; eassumption.
Qed.

(** * C15 *)
Lemma skip_exact c t e bs d : cfg_ok c -> wire t e bs -> (2 * List.length bs < d)%nat ->
  both_read c (fun S I => skip_field c I d t e) bs tt.
Proof.
  intros Hc Hw Hd. apply both_reads; [|exact Hc]. intros S I R D. eapply skip_field_wire; eassumption.
Qed.
