(** Two ways to run the calls of a method of macros.rs that agree on the states that occur. *)
From Verif Require Import Base Types RustCode P_RustCode.
Open Scope Z_scope.
Open Scope list_scope.

Section Agree.
  Context {X : Type}.
  Variable fs : list field.
  Variable default1 : ty -> option value.
  Variables run run' : call -> X -> value -> locals -> X * value * locals * outcome Z.
  (** Panics after which nothing is claimed; invariants of the state and of the receiver; the calls that occur. *)
  Variable free : panic -> Prop.
  Variable J : X -> value -> Prop.
  Variable callable : call -> Prop.
  Variable variants : Prop.
  (** the numbers that occur *)
  Variable fine : Z -> Prop.
  Hypothesis zero_small : fine 0.
  Definition small (x : local * held) : Prop := match snd x with HInt z => fine z | HFlag _ => True end.
  Definition same_call (r r' : X * value * locals * outcome Z) : Prop :=
    match r with
    | (s, v, ls, Ok z) => r' = r /\ J s v /\ Forall small ls /\ fine z
    | (s, v, ls, Err e) => r' = r
    | (s, v, ls, Panic p) => free p \/ (fst (fst (fst r')) = s /\ snd r' = Panic p)
    end.
  Hypothesis Hrun : forall k s v ls, callable k -> J s v -> Forall small ls -> same_call (run k s v ls) (run' k s v ls).
  Hypothesis Hvariant : variants -> forall n i f dv s v, named fs n = Some (i, f) -> default1 (f_ty f) = Some dv -> J s v -> J s (VUnion i dv).

  Fixpoint allowed (t : stmt) : Prop :=
    let all := fix all (l : list stmt) : Prop := match l with [] => True | t :: l' => allowed t /\ all l' end in
    match t with
    | Let _ (Num z) => z = 0
    | Let _ (Flag _) | SetFlag _ | Break | ReturnErr _ _ | Finish => True
    | SetVariant _ => variants
    | Let _ (Result k) | Do k | Tail k => callable k
    | SetSelf _ => False
    | Loop body => all body
    | If _ body => all body
    | Match _ arms other => (fix arms_all (l : list (Z * list stmt)) : Prop := match l with [] => True | (_, b) :: l' => all b /\ arms_all l' end) arms /\ all other
    | MatchSelf arms _ => Forall (fun a => callable (snd a)) arms
    end.
  Definition allowed_all := fix all (l : list stmt) : Prop := match l with [] => True | t :: l' => allowed t /\ all l' end.
  Definition allowed_arms := fix arms_all (l : list (Z * list stmt)) : Prop := match l with [] => True | (_, b) :: l' => allowed_all b /\ arms_all l' end.

  Definition same_flow (r r' : @state X * flow) : Prop :=
    match r with
    | ((s, v, ls), Done (Panic p)) => free p \/ (fst (fst (fst r')) = s /\ snd r' = Done (Panic p))
    | ((s, v, ls), Done _) => r' = r
    | ((s, v, ls), _) => r' = r /\ J s v /\ Forall small ls
    end.
  Notation ex := (exec fs default1 run).
  Notation ex' := (exec fs default1 run').
  Lemma store_small ls x h : Forall small ls -> small (x, h) -> Forall small (store ls x h).
  Proof using Type.
    intros H Hh. induction H as [|[y g] ls Hy H IH]; cbn [store]; [constructor|].
    destruct (local_eqb x y); constructor; assumption.
  Qed.
  Lemma leave_small n ls : Forall small ls -> Forall small (leave n ls).
  Proof using Type.
    intros H. unfold leave. generalize (List.length ls - n)%nat as k. induction H as [|y ls Hy H IH]; intros [|k]; cbn [skipn]; try constructor; auto.
  Qed.
  Lemma fetch_small ls x z : Forall small ls -> fetch ls x = Some (HInt z) -> fine z.
  Proof using Type.
    intros H. induction H as [|[y g] ls Hy H IH]; cbn [fetch]; [discriminate|]. destruct (local_eqb x y); [|exact IH].
    intros E. injection E as ->. exact Hy.
  Qed.
  Lemma ask_same k s v ls go : callable k -> J s v -> Forall small ls ->
    (forall s' v' ls' z, J s' v' -> Forall small ls' -> fine z -> same_flow (go (s', v', ls') z) (go (s', v', ls') z)) ->
    same_flow (ask run k (s, v, ls) go) (ask run' k (s, v, ls) go).
  Proof using Hrun.
    intros Hk HJ Hls Hgo. unfold ask. pose proof (Hrun k s v ls Hk HJ Hls) as H.
    destruct (run k s v ls) as [[[s1 v1] ls1] [z|e|p]]; cbn [same_call] in H.
    - destruct H as (-> & H1 & H2 & H3). apply Hgo; assumption.
    - rewrite H. reflexivity.
    - destruct H as [H|[H1 H2]]; [left; exact H|]. right. destruct (run' k s v ls) as [[[s2 v2] ls2] o2]. cbn in *. subst. split; reflexivity.
  Qed.

  Section Block.
    Variable fuel : nat.
    Variable P : stmt -> Prop.
    Hypothesis HP : forall t, P t -> forall s v ls, allowed t -> J s v -> Forall small ls -> same_flow (ex fuel t (s, v, ls)) (ex' fuel t (s, v, ls)).
    Lemma block_same l : Forall P l -> forall s v ls, allowed_all l -> J s v -> Forall small ls ->
      same_flow (exec_all fs default1 run fuel l (s, v, ls)) (exec_all fs default1 run' fuel l (s, v, ls)).
    Proof using HP.
      induction 1 as [|t l Ht Hl IH]; intros s v ls Ha HJ Hls; cbn [exec_all].
      - cbn. auto.
      - destruct Ha as [Ha Hb]. pose proof (HP t Ht s v ls Ha HJ Hls) as H.
        destruct (ex fuel t (s, v, ls)) as [[[s1 v1] ls1] [| |[u|e|p]]]; cbn [same_flow] in H.
        + destruct H as (-> & H1 & H2). apply IH; assumption.
        + destruct H as (-> & H1 & H2). cbn. auto.
        + rewrite H. reflexivity.
        + rewrite H. reflexivity.
        + destruct H as [H|[H1 H2]]; [left; exact H|]. right. destruct (ex' fuel t (s, v, ls)) as [[[s2 v2] ls2] w2]. cbn in *. subst. split; reflexivity.
    Qed.
    Lemma scope_same l : Forall P l -> forall s v ls, allowed_all l -> J s v -> Forall small ls ->
      same_flow (scoped fs default1 run fuel l (s, v, ls)) (scoped fs default1 run' fuel l (s, v, ls)).
    Proof using HP.
      intros Hl s v ls Ha HJ Hls. unfold scoped. pose proof (block_same l Hl s v ls Ha HJ Hls) as H.
      destruct (exec_all fs default1 run fuel l (s, v, ls)) as [[[s1 v1] ls1] [| |[u|e|p]]]; cbn [same_flow] in H.
      - destruct H as (-> & H1 & H2). cbn [same_flow]. auto using leave_small.
      - destruct H as (-> & H1 & H2). cbn [same_flow]. auto using leave_small.
      - rewrite H. reflexivity.
      - rewrite H. reflexivity.
      - destruct H as [H|[H1 H2]]; [left; exact H|]. right. destruct (exec_all fs default1 run' fuel l (s, v, ls)) as [[[s2 v2] ls2] w2]. cbn in *. subst. split; reflexivity.
    Qed.
    Lemma rounds_same l : Forall P l -> allowed_all l -> forall n s v ls, J s v -> Forall small ls ->
      same_flow (rounds fs default1 run fuel l n (s, v, ls)) (rounds fs default1 run' fuel l n (s, v, ls)).
    Proof using HP.
      intros Hl Ha. induction n as [|n IH]; intros s v ls HJ Hls; cbn [rounds].
      - right. split; reflexivity.
      - pose proof (scope_same l Hl s v ls Ha HJ Hls) as H.
        destruct (scoped fs default1 run fuel l (s, v, ls)) as [[[s1 v1] ls1] [| |[u|e|p]]]; cbn [same_flow] in H.
        + destruct H as (-> & H1 & H2). apply IH; assumption.
        + destruct H as (-> & H1 & H2). cbn. auto.
        + rewrite H. reflexivity.
        + rewrite H. reflexivity.
        + destruct H as [H|[H1 H2]]; [left; exact H|]. right. destruct (scoped fs default1 run' fuel l (s, v, ls)) as [[[s2 v2] ls2] w2]. cbn in *. subst. split; reflexivity.
    Qed.
    Lemma arms_same z other arms : Forall P other -> Forall (fun a => Forall P (snd a)) arms -> allowed_arms arms -> allowed_all other -> forall s v ls, J s v -> Forall small ls ->
      same_flow (arms_of fs default1 run fuel z other (s, v, ls) arms) (arms_of fs default1 run' fuel z other (s, v, ls) arms).
    Proof using HP.
      intros Ho Harms Ha Hb s v ls HJ Hls. induction Harms as [|[y b] arms Hy Harms IH]; cbn [arms_of]; [apply scope_same; assumption|].
      destruct Ha as [Ha1 Ha2]. destruct (y =? z); [apply scope_same; assumption|apply IH; assumption].
    Qed.
  End Block.
  Lemma exec_same fuel : forall t s v ls, allowed t -> J s v -> Forall small ls -> same_flow (ex fuel t (s, v, ls)) (ex' fuel t (s, v, ls)).
  Proof using Hrun Hvariant zero_small.
    set (P := fun t => forall s v ls, allowed t -> J s v -> Forall small ls -> same_flow (ex fuel t (s, v, ls)) (ex' fuel t (s, v, ls))).
    change (forall t, P t). fix IH 1.
    assert (HP : forall t, P t -> forall s v ls, allowed t -> J s v -> Forall small ls -> same_flow (ex fuel t (s, v, ls)) (ex' fuel t (s, v, ls))) by (intros t H; exact H).
    intros [x [z|b|k]|x|k|k|body|b body| |e sc|x arms other|n|arms rest| |k]; intros s v ls Ha HJ Hls.
    - cbn in *. subst z. split; [reflexivity|]. split; [exact HJ|]. constructor; [exact zero_small|exact Hls].
    - cbn in *. split; [reflexivity|]. split; [exact HJ|]. constructor; [exact I|exact Hls].
    - rewrite !exec_let. apply ask_same; [exact Ha|exact HJ|exact Hls|]. intros s' v' ls' z H1 H2 H3. cbn. split; [reflexivity|]. split; [exact H1|]. constructor; assumption.
    - cbn [exec]. destruct (fetch ls x) as [[z|b]|]; try (right; split; reflexivity). cbn. split; [reflexivity|]. split; [exact HJ|]. apply store_small; [exact Hls|exact I].
    - destruct Ha.
    - rewrite !exec_do. apply ask_same; [exact Ha|exact HJ|exact Hls|]. intros s' v' ls' z H1 H2 H3. cbn. auto.
    - rewrite !exec_loop. apply (rounds_same fuel P HP body); try assumption.
      clear - IH. induction body as [|t body IHb]; constructor; [apply IH|exact IHb].
    - rewrite !exec_if. destruct (holds b ls) as [[]|]; [|cbn; auto|right; split; reflexivity].
      apply (scope_same fuel P HP body); try assumption. clear - IH. induction body as [|t body IHb]; constructor; [apply IH|exact IHb].
    - cbn. auto.
    - cbn. reflexivity.
    - destruct (fetch ls x) as [[z|b]|] eqn:Ef.
      + rewrite !(exec_match fs default1 _ fuel x arms other s v ls z Ef). destruct Ha as [Ha1 Ha2].
        apply (arms_same fuel P HP z other arms); try assumption.
        * clear - IH. induction other as [|t body IHb]; constructor; [apply IH|exact IHb].
        * clear - IH. induction arms as [|[y body] arms IHa]; constructor; [|exact IHa]. cbn [snd]. induction body as [|t body IHb]; constructor; [apply IH|exact IHb].
      + cbn [exec]. rewrite Ef. right. split; reflexivity.
      + cbn [exec]. rewrite Ef. right. split; reflexivity.
    - cbn [exec]. destruct (named fs n) as [[i f]|] eqn:En; [|right; split; reflexivity].
      destruct (default1 (f_ty f)) as [dv|] eqn:Ed; [|right; split; reflexivity]. cbn. split; [reflexivity|]. split; [eapply Hvariant; eassumption|exact Hls].
    - cbn [exec]. destruct v; try (right; split; reflexivity). destruct (nth_error fs _) as [f|]; [|right; split; reflexivity].
      destruct (variant_arm arms (f_name f)) as [k|] eqn:Ek; [|destruct rest; right; split; reflexivity].
      apply ask_same; [|exact HJ|exact Hls|intros s' v' ls' z H1 H2 H3; cbn; auto].
      cbn [allowed] in Ha. clear - Ha Ek. induction Ha as [|[m a] arms Hm Ha IHa]; cbn [variant_arm] in Ek; [discriminate|].
      destruct (String.eqb (f_name f) m); [injection Ek as <-; exact Hm|exact (IHa Ek)].
    - cbn. reflexivity.
    - cbn [exec]. apply ask_same; [exact Ha|exact HJ|exact Hls|]. intros s' v' ls' z H1 H2 H3. reflexivity.
  Qed.
  Definition same_fill (r r' : X * value * outcome unit) : Prop :=
    match r with
    | (s, v, Panic p) => free p \/ (fst (fst r') = s /\ snd r' = Panic p)
    | _ => r' = r
    end.
  Lemma allowed_app a b : allowed_all (a ++ b) <-> allowed_all a /\ allowed_all b.
  Proof using Type. induction a as [|t a IH]; cbn [app allowed_all]; [tauto|]. rewrite IH. tauto. Qed.
  Lemma method_same fuel l v s : allowed_all l -> J s v -> same_fill (method fs default1 run fuel l v s) (method fs default1 run' fuel l v s).
  Proof using Hrun Hvariant zero_small.
    intros Ha HJ. unfold method.
    assert (H : same_flow (exec_all fs default1 run fuel l (s, v, [])) (exec_all fs default1 run' fuel l (s, v, []))).
    { apply (block_same fuel (fun _ => True)); [intros t _; apply exec_same|apply Forall_forall; auto|exact Ha|exact HJ|constructor]. }
    destruct (exec_all fs default1 run fuel l (s, v, [])) as [[[s1 v1] ls1] [| |[u|e|p]]]; cbn [same_flow] in H.
    - destruct H as (-> & _). right. split; reflexivity.
    - destruct H as (-> & _). right. split; reflexivity.
    - rewrite H. reflexivity.
    - rewrite H. reflexivity.
    - destruct H as [H|[H1 H2]]; [left; exact H|]. right. destruct (exec_all fs default1 run' fuel l (s, v, [])) as [[[s2 v2] ls2] w2]. cbn in *. subst. split; reflexivity.
  Qed.
End Agree.
