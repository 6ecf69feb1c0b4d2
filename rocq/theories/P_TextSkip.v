(** Skipping, protocol.rs:91-93 and 148-257, does what Protocol.v says. *)
From Verif Require Import Base Uleb Utf8 Protocol RustSyntax RustEval RustProgram SpecText P_Arith P_TextTable P_TextTac P_TextInput P_TextKeeps.
Open Scope Z_scope.
Open Scope list_scope.

Lemma range1 a z : (a <=? z) && (z <=? a) = (z =? a).
Proof. destruct (Z.leb_spec a z), (Z.leb_spec z a), (Z.eqb_spec z a); cbn; lia. Qed.

Section Loops.
  Context {X S : Type}.
  Implicit Type r : renv X.
  (** A statement that leaves the variables alone *)
  Definition does r (m : S * outcome unit) (t : S * renv X * res X (rvalue X)) : Prop :=
    (exists s, m = (s, Panic PStack)) \/
    match m with
    | (s, Ok _) => exists v, t = (s, r, Val v)
    | (s, Err e) => t = (s, r, Rtn (RErr (RError e)))
    | (s, Panic p) => t = (s, r, Pan p)
    end.
  Variable inv : S -> Prop.
  Lemma count_up_does r (m : M S unit) body : keeps inv m -> (forall v s, inv s -> does r (m s) (body v r s)) ->
    forall n t i s, inv s -> does r (repeatM n m s) (count_up n t i body r s).
  Proof.
    intros HK H n. induction n as [|n IH]; intros t i s Hs; cbn [repeatM count_up].
    { right. unfold ret, retE. eauto. }
    unfold bind, bindE. destruct (H (RInt t i) s Hs) as [[s' E]|E].
    { left. exists s'. rewrite E. reflexivity. }
    destruct (m s) as [s1 [[]|e|p]] eqn:Em.
    - destruct E as [v ->]. apply IH. apply (HK s s1 tt Hs Em).
    - rewrite E. right. reflexivity.
    - rewrite E. right. reflexivity.
  Qed.
  Lemma does_for r (m : M S unit) p body : (forall v, bind_pat p v r = Some r) -> keeps inv m -> (forall s, inv s -> does r (m s) (scoped body r s)) ->
    forall n t i s, inv s -> does r (repeatM n m s) (stop_loop (count_up n t i (fun v => with_pat p v body)) r s).
  Proof.
    intros Hp HK H n t i s Hs. pose proof (count_up_does r m (fun v => with_pat p v body) HK) as HC.
    assert (H' : forall v s, inv s -> does r (m s) (with_pat p v body r s)) by (intros v s0 Hs0; unfold with_pat; rewrite Hp; apply H; exact Hs0).
    specialize (HC H' n t i s Hs). unfold stop_loop.
    destruct HC as [E|E]; [left; exact E|right].
    destruct (repeatM n m s) as [s1 [[]|e|q]]; [destruct E as [v E]; exists v|..]; rewrite E; reflexivity.
  Qed.
End Loops.

Lemma header_range {S} c (I : input S) last s s' ft last' : in_s 16 last -> read_field_header c I last s = (s', Ok (ft, last')) -> in_s 16 last'.
Proof.
  intros H0. unfold read_field_header, bind. destruct (in_read_byte I s) as [s1 [b|e|p]]; try discriminate.
  destruct (b =? 0); [unfold ret; intros E; inversion E; subst; exact H0|].
  destruct (negb (Z.shiftr b 4 =? 0)).
  - destruct (overflow_checks c && (32767 <? last + Z.shiftr b 4)); unfold ret, crash; intros E; inversion E; subst.
    unfold in_s. apply wraps_range. lia.
  - unfold read_full_field_id, bind. destruct (decode_uleb c (in_read_byte I) (in_left I) s1) as [s2 [v|e|p]]; unfold ret; intros E; inversion E; subst.
    rewrite zigzag_decode16_spec by (apply wrapu_range; lia). apply unzigzag_range; [lia|apply wrapu_range; lia].
Qed.


Lemma agrees_method {X S A} n (k : A -> rvalue X) (m : S * outcome A) t : agrees (method n k m) t -> (exists s, m = (s, Panic PStack)) \/ t = method n k m.
Proof. intros [[s H]|H]; [left|right; exact H]. exists s. destruct m as [s' [a|e|p]]; cbn in H; inversion H; reflexivity. Qed.
Ltac hide_for := repeat match goal with |- context [XFor _ _ ?b] => tryif is_var b then fail else (let B := fresh "B" in remember b as B) end.
Ltac hide_arms := repeat match goal with |- context [@cons (rpat * rexpr) (_, ?b) _] => tryif is_var b then fail else (let B := fresh "B" in remember b as B) end.
Ltac show_arm := repeat match goal with H : ?B = ?e |- _ => is_var B; match type of B with rexpr => subst B end end.
(** A call of which it is known what it does *)
Ltac step_call H :=
  let s' := fresh "s" in let E := fresh "E" in let e := fresh "e" in let q := fresh "q" in
  destruct (agrees_method _ _ _ _ H) as [[s' E]|E];
  [left; exists s'; rewrite E; reflexivity
  |rewrite E; clear E; match type of H with agrees (method _ _ ?m) _ => destruct m as [s' [?|e|q]] end; text].
(** A loop over a range, given what its body does and that it keeps [inv] *)
Ltac for_loop inv K Hs :=
  match goal with
  | |- agrees (match repeatM _ ?m _ with _ => _ end) ?g =>
  match g with
  | context [stop_loop (count_up ?n ?t ?i (fun v => with_pat ?p v ?b)) ?r ?s] =>
      let HF := fresh "HF" in let s' := fresh "s" in let E := fresh "E" in let v := fresh "v" in let e := fresh "e" in let q := fresh "q" in
      assert (HF : forall s, inv s -> does r (m s) (scoped b r s));
      [|destruct (does_for inv r m p b (fun _ => eq_refl) K HF n t i s Hs) as [[s' E]|E];
        [left; exists s'; rewrite E; reflexivity|];
        destruct (repeatM n m s) as [s' [[]|e|q]]; [destruct E as [v E]|..]; rewrite E; text; right; reflexivity]
  end
  end.
Ltac done := right; first [reflexivity|eexists; reflexivity].


Section Skip.
  Context {X S : Type}.
  Variable c : cfg.
  Hypothesis Hc : cfg_ok c.
  Variable w : world X S.
  Variable I : input S.
  Variable inv : S -> Prop.
  Hypothesis HI : byte_input inv I.
  Hypothesis Hb : says_byte w (in_read_byte I).
  Hypothesis Hd : forall s, w_call w ["."; "read_double"]%string [RObj] s = method 0 RDouble (in_read_double I s).
  Hypothesis Hi : forall s, w_call w ["."; "skip_integer"]%string [RObj] s = method 0 (fun _ => RUnit) (in_skip_integer I s).
  Hypothesis Hs : forall s, w_call w ["."; "skip_binary"]%string [RObj] s = method 0 (fun _ => RUnit) (in_skip_binary I s).
  Hypothesis Hh : forall last s, inv s -> in_s 16 last ->
    w_call w ["."; "read_field_header"]%string [RObj; RInt I16 last] s =
    gives (fun r => [Some RObj; Some (RInt I16 (snd r))]) (fun r => RInt U8 (fst r)) (read_field_header c I last s) [Some RObj; Some (RInt I16 last)].
  Hypothesis Hl : forall s, w_call w ["read_collection_len_and_type"]%string [RObj] s =
    method 0 (fun r => RTup [RInt U32 (fst r); RInt U8 (snd r)]) (read_collection_len_and_type c I s).
  Hypothesis Hm : forall s, w_call w ["read_map_len_and_types"]%string [RObj] s =
    method 0 (fun r => RTup [RInt U32 (fst (fst r)); RInt U8 (snd (fst r)); RInt U8 (snd r)]) (read_map_len_and_types c I s).
  Hypothesis Hn : forall s, w_bound w s = Datatypes.S (in_left I s).
  Variable d : nat.
  Hypothesis Rf : forall v ft ic s, inv s -> is_int c U8 v ft -> agrees (method 2 (fun _ => RUnit) (skip_field c I d ft ic s)) (w_call w ["skip_field"]%string [RObj; v; RBool ic] s).
  Hypothesis Rc : forall s, inv s -> agrees (method 0 (fun _ => RUnit) (skip_collection c I d s)) (w_call w ["skip_collection"]%string [RObj] s).
  Hypothesis Rm : forall s, inv s -> agrees (method 0 (fun _ => RUnit) (skip_map c I d s)) (w_call w ["skip_map"]%string [RObj] s).

  Let Kf ft ic := proj1 (keeps_skip inv c I HI d) ft ic.
  Let Kc := proj1 (proj2 (keeps_skip inv c I HI d)).
  Let Km := proj2 (proj2 (keeps_skip inv c I HI d)).

  Lemma skip_map_text : forall s, inv s -> agrees (method 0 (fun _ => RUnit) (skip_map c I (Datatypes.S d) s)) (run_fn c w f_skip_map [RObj] s).
  Proof using HI Hm Rf.
    intros s Is. unfold run_fn, f_skip_map. rewrite skip_map_S. hide_for. text.
    rewrite Hm. destruct (read_map_len_and_types c I s) as [s1 [[[len kt] vt]|e|p]] eqn:Er; text; [|done|done].
    apply (keeps_map inv c I HI s s1 _ Is) in Er.
    rewrite Z.sub_0_r. for_loop inv (keeps_bind inv _ (fun _ => _) (Kf kt true) (fun _ => Kf vt true)) Er.
    intros s2 I2. subst. text.
    pose proof (Kf kt true s2) as K2.
    step_call (Rf (RInt U8 kt) kt true s2 I2 eq_refl); [|done|done]. step_call (Rf (RInt U8 vt) vt true s0 (K2 _ _ I2 eq_refl) eq_refl); done.
  Qed.

  Lemma skip_collection_text : forall s, inv s -> agrees (method 0 (fun _ => RUnit) (skip_collection c I (Datatypes.S d) s)) (run_fn c w f_skip_collection [RObj] s).
  Proof using HI Hb Hd Hi Hs Hl Rf Rc Rm.
    intros s Is. unfold run_fn, f_skip_collection. rewrite skip_collection_S. hide_arms. text.
    rewrite Hl. destruct (read_collection_len_and_type c I s) as [s1 [[len ty]|e|p]] eqn:Er; text; [|done|done].
    apply (keeps_collection inv c I HI s s1 _ Is) in Er.
    rewrite !range1.
    destruct ((1 <=? ty) && (ty <=? 3)); text; [show_arm; hide_for; text; rewrite Z.sub_0_r; for_loop inv (keeps_discard inv _ (keeps_byte inv I HI)) Er; intros s2 I2; show_arm; text; rewrite Hb; destruct (in_read_byte I s2) as [s3 [b|e|q]]; text; done|].
    destruct ((4 <=? ty) && (ty <=? 6)); text; [show_arm; hide_for; text; rewrite Z.sub_0_r; for_loop inv (bi_integer inv I HI) Er; intros s2 I2; show_arm; text; rewrite Hi; destruct (in_skip_integer I s2) as [s3 [b|e|q]]; text; done|].
    destruct (ty =? 7); text; [show_arm; hide_for; text; rewrite Z.sub_0_r; for_loop inv (keeps_discard inv _ (bi_double inv I HI)) Er; intros s2 I2; show_arm; text; rewrite Hd; destruct (in_read_double I s2) as [s3 [b|e|q]]; text; done|].
    destruct (ty =? 8); text; [show_arm; hide_for; text; rewrite Z.sub_0_r; for_loop inv (bi_skip inv I HI) Er; intros s2 I2; show_arm; text; rewrite Hs; destruct (in_skip_binary I s2) as [s3 [b|e|q]]; text; done|].
    destruct (ty =? 9); text; [show_arm; hide_for; text; rewrite Z.sub_0_r; for_loop inv Kc Er; intros s2 I2; show_arm; text; step_call (Rc s2 I2); done|].
    destruct (ty =? 10); text; [show_arm; hide_for; text; rewrite Z.sub_0_r; for_loop inv Kc Er; intros s2 I2; show_arm; text; step_call (Rc s2 I2); done|].
    destruct (ty =? 11); text; [show_arm; hide_for; text; rewrite Z.sub_0_r; for_loop inv Km Er; intros s2 I2; show_arm; text; step_call (Rm s2 I2); done|].
    destruct (ty =? 12); text; [show_arm; hide_for; text; rewrite Z.sub_0_r; for_loop inv (Kf 12 false) Er; intros s2 I2; show_arm; text; step_call (Rf (RLit 12) 12 false s2 I2 eq_refl); done|].
    show_arm; text; done.
  Qed.

  Lemma skip_field_text : forall v ft ic s, inv s -> is_int c U8 v ft ->
    agrees (method 2 (fun _ => RUnit) (skip_field c I (Datatypes.S d) ft ic s)) (run_fn c w f_skip_field [RObj; v; RBool ic] s).
  Proof using HI Hb Hd Hi Hs Hh Hl Hm Hn Rf Rc Rm.
    intros v ft ic s Is Hv. rewrite (run_fn_same c w f_skip_field [RObj; v; RBool ic] [RObj; RInt U8 ft; RBool ic]).
    2:{ unfold is_int in Hv. cbn [fn_params f_skip_field bind_params]. rewrite Hv. reflexivity. }
    unfold run_fn, f_skip_field. rewrite skip_field_S. hide_arms. text.
    rewrite !range1.
    destruct ((1 <=? ft) && (ft <=? 2)); text; [show_arm; text; destruct ic; text; [rewrite Hb; destruct (in_read_byte I s) as [s3 [b|e|q]]; text; done|done]|].
    destruct (ft =? 3); text; [show_arm; text; rewrite Hb; destruct (in_read_byte I s) as [s3 [b|e|q]]; text; done|].
    destruct ((4 <=? ft) && (ft <=? 6)); text; [show_arm; text; rewrite Hi; destruct (in_skip_integer I s) as [s3 [b|e|q]]; text; done|].
    destruct (ft =? 7); text; [show_arm; text; rewrite Hd; destruct (in_read_double I s) as [s3 [b|e|q]]; text; done|].
    destruct (ft =? 8); text; [show_arm; text; rewrite Hs; destruct (in_skip_binary I s) as [s3 [b|e|q]]; text; done|].
    destruct (ft =? 9); text; [show_arm; text; step_call (Rc s Is); done|].
    destruct (ft =? 10); text; [show_arm; text; step_call (Rc s Is); done|].
    destruct (ft =? 11); text; [show_arm; text; step_call (Rm s Is); done|].
    destruct (ft =? 12); text; [|show_arm; text; done].
    show_arm. hide_loop B EB. text.
    rewrite Hn. match goal with |- context [iterate _ ?b _ _] => set (body := b) end.
    pose (env := fun last : Z => [("last_field_id"%string, RInt I16 last); ("input"%string, RObj); ("field_type"%string, RInt U8 ft); ("inside_collection"%string, RBool ic)] : renv X).
    assert (HB : forall last s, inv s -> in_s 16 last ->
      match read_field_header c I last s with
      | (s1, Ok (t, last')) =>
          if t =? 0 then body (env last) s = (s1, env last', Brk)
          else (exists s2, skip_field c I d t false s1 = (s2, Panic PStack)) \/
               match skip_field c I d t false s1 with
               | (s2, Ok _) => body (env last) s = (s2, env last', Val RUnit)
               | (s2, Err e) => body (env last) s = (s2, env last', Rtn (RErr (RError e)))
               | (s2, Panic p) => body (env last) s = (s2, env last', Pan p)
               end
      | (s1, Err e) => body (env last) s = (s1, env last, Rtn (RErr (RError e)))
      | (s1, Panic p) => body (env last) s = (s1, env last, Pan p)
      end).
    { intros last s0 I0 Hr. pose proof (Hh last s0 I0 Hr) as HH. destruct (read_field_header c I last s0) as [s1 [[t last']|e|q]] eqn:Eh.
      2,3: subst body env B; text; rewrite HH; text; reflexivity.
      destruct (t =? 0) eqn:Et.
      - subst body env B; text; rewrite HH; text. rewrite Et. text. reflexivity.
      - destruct (agrees_method _ _ _ _ (Rf (RInt U8 t) t false s1 (keeps_header inv c I HI last s0 s1 _ I0 Eh) eq_refl)) as [E|E]; [left; exact E|right].
        destruct (skip_field c I d t false s1) as [s2 [[]|e|q]]; subst body env B; text; rewrite HH; text; rewrite Et; text; rewrite E; text; reflexivity. }
    clearbody body.
    assert (HL : forall n last s, inv s -> in_s 16 last ->
      (exists s', skip_struct_loop c I (fun ft => skip_field c I d ft false) n last s = (s', Panic PStack)) \/
      match skip_struct_loop c I (fun ft => skip_field c I d ft false) n last s with
      | (s', Ok _) => exists last', iterate n body (env last) s = (s', env last', Val RUnit)
      | (s', Err e) => exists last', iterate n body (env last) s = (s', env last', Rtn (RErr (RError e)))
      | (s', Panic p) => exists last', iterate n body (env last) s = (s', env last', Pan p)
      end).
    { clear s Is. intros n. induction n as [|n IH]; intros last s Is Hr; cbn [skip_struct_loop iterate]; [right; unfold crash; eauto|].
      unfold bind. specialize (HB last s Is Hr). destruct (read_field_header c I last s) as [s1 [[t last']|e|q]] eqn:Eh; [|right; rewrite HB; eauto..].
      pose proof (keeps_header inv c I HI last s s1 _ Is Eh) as I1. apply header_range in Eh; [|exact Hr]. destruct (t =? 0); [right; rewrite HB; unfold ret; eauto|].
      destruct HB as [[s2 HB]|HB]; [left; exists s2; rewrite HB; reflexivity|].
      pose proof (Kf t false s1) as K1.
      destruct (skip_field c I d t false s1) as [s2 [[]|e|q]]; rewrite HB; [apply IH; [apply (K1 s2 tt I1 eq_refl)|exact Eh]|right; eauto..]. }
    destruct (HL (Datatypes.S (in_left I s)) 0 s Is ltac:(unfold in_s; lia)) as [[s' E]|E]; [left; exists s'; rewrite E; reflexivity|].
    change [("last_field_id"%string, RInt I16 0); ("input"%string, RObj); ("field_type"%string, RInt U8 ft); ("inside_collection"%string, RBool ic)] with (env 0).
    destruct (skip_struct_loop c I (fun ft => skip_field c I d ft false) (Datatypes.S (in_left I s)) 0 s) as [s1 [[]|e|q]]; destruct E as [last' E]; rewrite E; subst env; text; done.
  Qed.

  Lemma skip_method_text : forall v ft s, inv s -> is_int c U8 v ft ->
    agrees (method 1 (fun _ => RUnit) (skip_field c I d ft false s)) (run_fn c w m_skip_field [RObj; v] s).
  Proof using Rf.
    intros v ft s Is Hv. rewrite (run_fn_same c w m_skip_field [RObj; v] [RObj; RInt U8 ft]).
    2:{ unfold is_int in Hv. cbn [fn_params m_skip_field bind_params]. rewrite Hv. reflexivity. }
    unfold run_fn, m_skip_field. text. step_call (Rf (RInt U8 ft) ft false s Is eq_refl); done.
  Qed.
End Skip.
