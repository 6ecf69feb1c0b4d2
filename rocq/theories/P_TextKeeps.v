(** What reading and skipping lead to. *)
From Verif Require Import Base Uleb Utf8 Protocol RustSyntax RustEval SpecText.
Open Scope Z_scope.
Open Scope list_scope.

Section Unfold.
  Context {S : Type}.
  Variable c : cfg.
  Variable I : input S.
  Variable d : nat.
  Lemma skip_field_S ft ic : skip_field c I (Datatypes.S d) ft ic =
    if (1 <=? ft) && (ft <=? 2) then if ic then discard (in_read_byte I) else ret tt
    else if ft =? 3 then discard (in_read_byte I)
    else if (4 <=? ft) && (ft <=? 6) then in_skip_integer I
    else if ft =? 7 then discard (in_read_double I)
    else if ft =? 8 then in_skip_binary I
    else if (ft =? 9) || (ft =? 10) then skip_collection c I d
    else if ft =? 11 then skip_map c I d
    else if ft =? 12 then fun s => skip_struct_loop c I (fun ft => skip_field c I d ft false) (Datatypes.S (in_left I s)) 0 s
    else fail InvalidType.
  Proof using Type. reflexivity. Qed.
  Lemma skip_collection_S : skip_collection c I (Datatypes.S d) =
    let! (len, ty) := read_collection_len_and_type c I in
    let n := Z.to_nat len in
    if (1 <=? ty) && (ty <=? 3) then repeatM n (discard (in_read_byte I))
    else if (4 <=? ty) && (ty <=? 6) then repeatM n (in_skip_integer I)
    else if ty =? 7 then repeatM n (discard (in_read_double I))
    else if ty =? 8 then repeatM n (in_skip_binary I)
    else if (ty =? 9) || (ty =? 10) then repeatM n (skip_collection c I d)
    else if ty =? 11 then repeatM n (skip_map c I d)
    else if ty =? 12 then repeatM n (skip_field c I d 12 false)
    else fail InvalidType.
  Proof using Type. reflexivity. Qed.
  Lemma skip_map_S : skip_map c I (Datatypes.S d) =
    let! (len, key_type, val_type) := read_map_len_and_types c I in
    repeatM (Z.to_nat len) (skip_field c I d key_type true ;; skip_field c I d val_type true).
  Proof using Type. reflexivity. Qed.
End Unfold.

Section Keeps.
  Context {S : Type}.
  Variable inv : S -> Prop.
  Lemma keeps_ret {A} (a : A) : keeps inv (ret a).
  Proof using Type. intros s s' b H E. inversion E. subst. exact H. Qed.
  Lemma keeps_fail {A} e : keeps inv (@fail S A e).
  Proof using Type. intros s s' b H E. inversion E. Qed.
  Lemma keeps_crash {A} p : keeps inv (@crash S A p).
  Proof using Type. intros s s' b H E. inversion E. Qed.
  Lemma keeps_bind {A B} (m : M S A) (f : A -> M S B) : keeps inv m -> (forall a, keeps inv (f a)) -> keeps inv (bind m f).
  Proof using Type.
    intros Hm Hf s s' b H. unfold bind. destruct (m s) as [s1 [a|e|p]] eqn:E; intros Hb; try discriminate Hb.
    apply (Hf a s1 s' b); [apply (Hm s s1 a H E)|exact Hb].
  Qed.
  Lemma keeps_if {A} (b : bool) (m n : M S A) : keeps inv m -> keeps inv n -> keeps inv (if b then m else n).
  Proof using Type. destruct b; auto. Qed.
  Lemma keeps_repeat (m : M S unit) n : keeps inv m -> keeps inv (repeatM n m).
  Proof using Type. intros H. induction n as [|n IH]; cbn [repeatM]; [apply keeps_ret|]. apply keeps_bind; [exact H|intros _; exact IH]. Qed.

  Variable c : cfg.
  Variable I : input S.
  Hypothesis HI : byte_input inv I.
  Lemma keeps_byte : keeps inv (in_read_byte I).
  Proof using HI. intros s s' b H E. apply (bi_byte inv I HI s s' b H E). Qed.
  Lemma keeps_loop fuel : forall shift value, keeps inv (decode_uleb_loop c (in_read_byte I) fuel shift value).
  Proof using HI.
    induction fuel as [|fuel IH]; intros shift value; cbn [decode_uleb_loop]; [apply keeps_crash|].
    apply keeps_bind; [apply keeps_byte|]. intros b. apply keeps_if; [apply keeps_crash|]. apply keeps_if; [apply keeps_ret|apply IH].
  Qed.
  Lemma keeps_decode : keeps inv (decode_uleb c (in_read_byte I) (in_left I)).
  Proof using HI. intros s. apply (keeps_loop (Datatypes.S (in_left I s)) 0 0 s). Qed.
  Lemma keeps_len : keeps inv (read_len c I).
  Proof using HI. apply keeps_bind; [apply keeps_decode|]. intros. apply keeps_ret. Qed.
  Lemma keeps_header last : keeps inv (read_field_header c I last).
  Proof using HI.
    apply keeps_bind; [apply keeps_byte|]. intros b. apply keeps_if; [apply keeps_ret|]. apply keeps_if.
    - apply keeps_if; [apply keeps_crash|apply keeps_ret].
    - apply keeps_bind; [|intros; apply keeps_ret]. apply keeps_bind; [apply keeps_decode|]. intros. apply keeps_ret.
  Qed.
  Lemma keeps_collection : keeps inv (read_collection_len_and_type c I).
  Proof using HI.
    apply keeps_bind; [apply keeps_byte|]. intros b. apply keeps_bind; [apply keeps_if; [apply keeps_ret|apply keeps_len]|].
    intros n. apply keeps_if; [apply keeps_fail|apply keeps_ret].
  Qed.
  Lemma keeps_map : keeps inv (read_map_len_and_types c I).
  Proof using HI.
    apply keeps_bind; [apply keeps_len|]. intros n. apply keeps_if; [apply keeps_ret|]. apply keeps_bind; [apply keeps_byte|].
    intros b. apply keeps_if; [apply keeps_fail|apply keeps_ret].
  Qed.
  Lemma keeps_discard {A} (m : M S A) : keeps inv m -> keeps inv (discard m).
  Proof using Type. intros H. apply keeps_bind; [exact H|intros; apply keeps_ret]. Qed.
  Lemma keeps_struct skip : (forall t, keeps inv (skip t)) -> forall n last, keeps inv (skip_struct_loop c I skip n last).
  Proof using HI.
    intros H n. induction n as [|n IH]; intros last; cbn [skip_struct_loop]; [apply keeps_crash|].
    apply keeps_bind; [apply keeps_header|]. intros [t last']. apply keeps_if; [apply keeps_ret|]. apply keeps_bind; [apply H|intros; apply IH].
  Qed.
  Lemma keeps_skip d : (forall ft ic, keeps inv (skip_field c I d ft ic)) /\ keeps inv (skip_collection c I d) /\ keeps inv (skip_map c I d).
  Proof using HI.
    induction d as [|d [IF [IC IM]]]; [repeat split; intros; apply keeps_crash|]. repeat split.
    - intros ft ic. rewrite skip_field_S.
      repeat (apply keeps_if; [first [apply keeps_discard; apply keeps_byte|apply keeps_discard; apply HI|apply HI|apply IC|apply IM|apply keeps_if; [apply keeps_discard; apply keeps_byte|apply keeps_ret]|idtac]|]).
      + intros s. apply (keeps_struct (fun ft => skip_field c I d ft false)). intros. apply IF.
      + apply keeps_fail.
    - rewrite skip_collection_S. apply keeps_bind; [apply keeps_collection|]. intros [n ty]. cbv zeta.
      repeat (apply keeps_if; [apply keeps_repeat; first [apply keeps_discard; apply keeps_byte|apply keeps_discard; apply HI|apply HI|apply IC|apply IM|apply IF]|]).
      apply keeps_fail.
    - rewrite skip_map_S. apply keeps_bind; [apply keeps_map|]. intros [[n k] v]. apply keeps_repeat. apply keeps_bind; [apply IF|intros; apply IF].
  Qed.
End Keeps.
