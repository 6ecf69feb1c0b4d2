(** The lexer divides a text into its longest tokens. *)
From Coq Require Import Ascii.
From Verif Require Import Base ErrorName P_ErrorName ThriftLex SpecThrift.
Open Scope Z_scope.

(** * Regular expressions *)
Fixpoint den (r : re) (w : list Z) : Prop :=
  match r with
  | Empty => False
  | Eps => w = []
  | Chr p => exists c, w = [c] /\ p c = true
  | Seq a b => exists u v, w = u ++ v /\ den a u /\ den b v
  | Alt a b => den a w \/ den b w
  | Star a => exists ws, w = List.concat ws /\ Forall (den a) ws
  end.
Lemma den_seq a b w : den (seq a b) w <-> den (Seq a b) w.
Proof.
  destruct a; destruct b; cbn; split; try tauto;
    try (intros (u & v & _ & Hu & Hv); destruct Hu; fail); try (intros (u & v & _ & Hu & Hv); destruct Hv; fail);
    try (intros (u & v & -> & -> & Hv); exact Hv); try (intros H; exists [], w; auto).
Qed.
Lemma den_alt a b w : den (alt a b) w <-> den a w \/ den b w.
Proof. destruct a; destruct b; cbn; tauto. Qed.
Lemma nullable_ok r : nullable r = true <-> den r [].
Proof.
  induction r; cbn.
  - split; [discriminate|tauto].
  - tauto.
  - split; [discriminate|intros (c & E & _); discriminate].
  - rewrite andb_true_iff, IHr1, IHr2. split.
    + intros []. exists [], []. auto.
    + intros (u & v & E & Hu & Hv). symmetry in E. apply app_eq_nil in E as [-> ->]. auto.
  - rewrite orb_true_iff. tauto.
  - split; [|trivial]. intros _. exists []. auto.
Qed.
Lemma deriv_ok c r : forall w, den (deriv c r) w <-> den r (c :: w).
Proof.
  induction r; intros w; cbn [deriv].
  - cbn. tauto.
  - cbn. split; [tauto|discriminate].
  - cbn. destruct (p c) eqn:E; cbn.
    + split; [intros ->; exists c; auto|]. intros (x & H & _). injection H as <- ->. reflexivity.
    + split; [tauto|]. intros (x & H & Hx). injection H as <- ->. congruence.
  - assert (Hs : den (Seq r1 r2) (c :: w) <-> den (Seq (deriv c r1) r2) w \/ nullable r1 = true /\ den (deriv c r2) w).
    { cbn. split.
      - intros (u & v & E & Hu & Hv). destruct u as [|x u].
        + right. cbn in E. subst v. rewrite nullable_ok, IHr2. auto.
        + left. injection E as <- ->. exists u, v. rewrite IHr1. auto.
      - intros [(u & v & -> & Hu & Hv)|[Hn Hv]].
        + exists (c :: u), v. rewrite <- IHr1. auto.
        + exists [], (c :: w). rewrite <- IHr2, <- nullable_ok. auto. }
    rewrite Hs. destruct (nullable r1).
    + rewrite den_alt, den_seq. intuition congruence.
    + rewrite den_seq. intuition congruence.
  - rewrite den_alt, IHr1, IHr2. cbn. tauto.
  - rewrite den_seq. cbn. split.
    + intros (u & v & -> & Hu & ws & -> & Hws). exists ((c :: u) :: ws). split; [reflexivity|]. constructor; [apply IHr; exact Hu|exact Hws].
    + intros (ws & E & Hws). revert E. induction Hws as [|x ws Hx Hws IH]; [discriminate|]. intros E. destruct x as [|y x].
      * apply IH. exact E.
      * cbn in E. injection E as <- ->. exists x, (List.concat ws). split; [reflexivity|]. split; [apply IHr; exact Hx|]. exists ws. auto.
Qed.

(** Matching by derivatives *)
Definition matchb (r : re) (w : list Z) : bool := nullable (fold_left (fun r c => deriv c r) w r).
Lemma matchb_ok w : forall r, matchb r w = true <-> den r w.
Proof.
  induction w as [|c w IH]; intros r; [apply nullable_ok|].
  unfold matchb in *. cbn [fold_left]. rewrite IH. apply deriv_ok.
Qed.
Lemma matchb_no r w : matchb r w = false <-> ~ den r w.
Proof. rewrite <- matchb_ok. destruct (matchb r w); intuition congruence. Qed.

(** * The longest match *)
Definition pick (rs : list (kind * re)) (w : list Z) : option kind := option_map fst (find (fun r => matchb (snd r) w) rs).
Lemma pick_step c rs w : pick (step c rs) w = pick rs (c :: w).
Proof.
  unfold pick, step. induction rs as [|[k r] rs IH]; [reflexivity|].
  cbn [map filter find fst snd]. change (matchb r (c :: w)) with (matchb (deriv c r) w).
  destruct (is_empty (deriv c r)) eqn:E; cbn [negb].
  - destruct (deriv c r); try discriminate. rewrite IH.
    assert (H : matchb Empty w = false) by (apply matchb_no; cbn; tauto). rewrite H. reflexivity.
  - cbn [find snd]. destruct (matchb (deriv c r) w); [reflexivity|exact IH].
Qed.
Lemma pick_nil w : pick [] w = None.
Proof. reflexivity. Qed.
Lemma scan_spec : forall s rs n best k m, scan rs s n best = Some (k, m) ->
  (exists j, m = (n + j)%nat /\ (j <= List.length s)%nat /\ pick rs (firstn j s) = Some k /\
     forall i, (j < i <= List.length s)%nat -> pick rs (firstn i s) = None) \/
  (best = Some (k, m) /\ forall i, (i <= List.length s)%nat -> pick rs (firstn i s) = None).
Proof.
  induction s as [|c s IH]; intros rs n best k m H; cbn [scan] in H.
  - change (accepts rs) with (pick rs []) in H. destruct (pick rs []) as [k'|] eqn:E.
    + injection H as <- <-. left. exists O. repeat split; cbn; auto with arith; try lia.
    + right. split; [exact H|]. intros [|i] Hi; [exact E|cbn in Hi; lia].
  - change (accepts rs) with (pick rs []) in H.
    assert (Hnext : forall i, pick rs (firstn (S i) (c :: s)) = pick (step c rs) (firstn i s)) by (intros i; rewrite pick_step; reflexivity).
    assert (Hstep : (step c rs = [] /\ match pick rs [] with Some k' => Some (k', n) | None => best end = Some (k, m)) \/
                    scan (step c rs) s (S n) (match pick rs [] with Some k' => Some (k', n) | None => best end) = Some (k, m)).
    { destruct (step c rs) eqn:E; [left; auto|right; exact H]. }
    clear H. destruct Hstep as [[Hs H]|H].
    + assert (Hno : forall i, (0 < i <= List.length (c :: s))%nat -> pick rs (firstn i (c :: s)) = None).
      { intros [|i] Hi; [lia|]. rewrite Hnext, Hs. apply pick_nil. }
      destruct (pick rs []) eqn:E.
      * injection H as <- <-. left. exists O. repeat split; try lia; [exact E|]. exact Hno.
      * right. split; [exact H|]. intros [|i] Hi; [exact E|]. apply Hno. lia.
    + apply IH in H. destruct H as [(j & -> & Hj & Hp & Hno)|[Hb Hno]].
      * left. exists (S j). split; [lia|]. cbn [List.length]. split; [lia|]. split; [rewrite Hnext; exact Hp|].
        intros [|i] Hi; [lia|]. rewrite Hnext. apply Hno. lia.
      * destruct (pick rs []) eqn:E.
        -- injection Hb as <- <-. left. exists O. split; [lia|]. split; [lia|]. split; [exact E|].
           intros [|i] Hi; [lia|]. rewrite Hnext. apply Hno. cbn in Hi. lia.
        -- right. split; [exact Hb|]. intros [|i] Hi; [exact E|]. rewrite Hnext. apply Hno. cbn in Hi. lia.
Qed.
Lemma scan_none : forall s rs n best, scan rs s n best = None -> forall i, (i <= List.length s)%nat -> pick rs (firstn i s) = None.
Proof.
  induction s as [|c s IH]; intros rs n best H; cbn [scan] in H.
  - change (accepts rs) with (pick rs []) in H. intros [|i] Hi; [|cbn in Hi; lia]. cbn. destruct (pick rs []); [discriminate|reflexivity].
  - change (accepts rs) with (pick rs []) in H.
    assert (Hnext : forall i, pick rs (firstn (S i) (c :: s)) = pick (step c rs) (firstn i s)) by (intros i; rewrite pick_step; reflexivity).
    destruct (step c rs) eqn:E.
    + intros [|i] Hi; [cbn; destruct (pick rs []); [discriminate|reflexivity]|]. rewrite Hnext. apply pick_nil.
    + intros [|i] Hi.
      * cbn. assert (Hb : forall s rs n b, scan rs s n (Some b) <> None).
        { clear. induction s as [|c s IH]; intros rs n b; cbn [scan]; destruct (accepts rs); try discriminate;
            destruct (step c rs); try discriminate; apply IH. }
        destruct (pick rs []); [|reflexivity]. exfalso. exact (Hb _ _ _ _ H).
      * rewrite Hnext. apply (IH _ _ _ H). cbn in Hi. lia.
Qed.
(** A word of the rules that no longer prefix is. *)
Lemma scan_is rs k w rest :
  w <> [] -> pick rs [] = None -> pick rs w = Some k -> (forall u v, u <> [] -> rest = u ++ v -> pick rs (w ++ u) = None) ->
  scan rs (w ++ rest) 0 None = Some (k, List.length w).
Proof.
  intros Hw Hnil Hk Hno.
  assert (Hlong : forall i, (List.length w < i <= List.length (w ++ rest))%nat -> pick rs (firstn i (w ++ rest)) = None).
  { intros i Hi. rewrite app_length in Hi. rewrite firstn_app, firstn_all2 by lia.
    apply (Hno _ (skipn (i - List.length w) rest)).
    - intros E. apply (f_equal (@List.length _)) in E. rewrite firstn_length in E. cbn in E. lia.
    - symmetry. apply firstn_skipn. }
  assert (Hself : firstn (List.length w) (w ++ rest) = w) by (rewrite firstn_app, Nat.sub_diag, firstn_all; cbn; apply app_nil_r).
  destruct (scan rs (w ++ rest) 0 None) as [[k' m]|] eqn:E.
  - apply scan_spec in E. destruct E as [(j & -> & Hj & Hp & Hmax)|[Hb _]]; [|discriminate].
    destruct (lt_eq_lt_dec j (List.length w)) as [[Hlt|Heq]|Hgt].
    + specialize (Hmax (List.length w)). rewrite Hself, Hk in Hmax. rewrite app_length in Hmax. specialize (Hmax ltac:(lia)). discriminate.
    + subst j. rewrite Hself, Hk in Hp. injection Hp as <-. reflexivity.
    + rewrite Hlong in Hp by lia. discriminate.
  - pose proof (scan_none _ _ _ _ E (List.length w) ltac:(rewrite app_length; lia)) as H. rewrite Hself, Hk in H. discriminate.
Qed.
Lemma scan_inv rs s k m : pick rs [] = None -> scan rs s 0 None = Some (k, m) ->
  exists w rest, s = w ++ rest /\ List.length w = m /\ w <> [] /\ pick rs w = Some k /\
    forall u v, u <> [] -> rest = u ++ v -> pick rs (w ++ u) = None.
Proof.
  intros Hnil H. apply scan_spec in H. destruct H as [(j & -> & Hj & Hp & Hmax)|[Hb _]]; [|discriminate].
  exists (firstn j s), (skipn j s). cbn [Nat.add]. rewrite firstn_skipn. split; [reflexivity|]. split; [rewrite firstn_length; lia|].
  split; [intros E; rewrite E in Hp; congruence|]. split; [exact Hp|]. intros u v Hu Hr.
  assert (Hl : (List.length u <= List.length s - j)%nat) by (apply (f_equal (@List.length _)) in Hr; rewrite skipn_length, app_length in Hr; lia).
  assert (Hl0 : (0 < List.length u)%nat) by (destruct u; [congruence|cbn; lia]).
  specialize (Hmax (j + List.length u)%nat ltac:(lia)).
  replace (firstn j s ++ u) with (firstn (j + List.length u) s); [exact Hmax|].
  rewrite <- (firstn_skipn j s) at 1. rewrite Hr, firstn_app, firstn_firstn, firstn_length, Nat.min_r, Nat.min_l by lia.
  replace (j + List.length u - j)%nat with (List.length u) by lia. rewrite firstn_app, firstn_all, Nat.sub_diag. cbn. rewrite app_nil_r. reflexivity.
Qed.

(** * What the rules match *)
Definition chars (r : re) (p : Z -> Prop) : Prop := forall w, den r w <-> exists c, w = [c] /\ p c.
Lemma chars_chr p q : (forall c, p c = true <-> q c) -> chars (Chr p) q.
Proof. intros H w. cbn. split; intros (c & -> & Hc); exists c; split; auto; apply H; exact Hc. Qed.
Lemma chars_alt a b p q : chars a p -> chars b q -> chars (Alt a b) (fun c => p c \/ q c).
Proof.
  intros Ha Hb w. cbn. rewrite (Ha w), (Hb w). split.
  - intros [(c & -> & Hc)|(c & -> & Hc)]; exists c; auto.
  - intros (c & -> & [Hc|Hc]); [left|right]; exists c; auto.
Qed.
Lemma den_star r p w : chars r p -> den (Star r) w <-> Forall p w.
Proof.
  intros Hr. cbn. split.
  - intros (ws & -> & H). induction H as [|x ws Hx _ IH]; [constructor|]. cbn. apply Forall_app. split; [|exact IH].
    apply Hr in Hx as (c & -> & Hc). auto.
  - intros H. induction H as [|c w Hc _ (ws & -> & Hws)]; [exists []; auto|]. exists ([c] :: ws). split; [reflexivity|].
    constructor; [apply Hr; exists c; auto|exact Hws].
Qed.
Lemma den_plus r p w : chars r p -> den (plus r) w <-> w <> [] /\ Forall p w.
Proof.
  intros Hr. unfold plus. change (den (Seq r (Star r)) w) with (exists u v, w = u ++ v /\ den r u /\ den (Star r) v). split.
  - intros (u & v & -> & Hu & Hv). apply Hr in Hu as (c & -> & Hc). split; [discriminate|]. constructor; [exact Hc|]. apply (den_star r p); assumption.
  - intros [Hw H]. destruct H as [|c w Hc H]; [congruence|]. exists [c], w. split; [reflexivity|]. split; [apply Hr; exists c; auto|].
    apply (den_star r p); assumption.
Qed.
Lemma den_opt r w : den (opt r) w <-> w = [] \/ den r w.
Proof. cbn. tauto. Qed.
Lemma den_lit s : forall w, den (lit s) w <-> w = s.
Proof.
  induction s as [|x s IH]; intros w; cbn; [tauto|]. split.
  - intros (u & v & -> & (c & -> & Hc) & Hv). apply Z.eqb_eq in Hc as <-. apply IH in Hv as ->. reflexivity.
  - intros ->. exists [x], s. split; [reflexivity|]. split; [exists x; rewrite Z.eqb_refl; auto|]. apply IH. reflexivity.
Qed.
Lemma den_Seq a b w : den (Seq a b) w <-> exists u v, w = u ++ v /\ den a u /\ den b v.
Proof. reflexivity. Qed.
Lemma den_Alt a b w : den (Alt a b) w <-> den a w \/ den b w.
Proof. reflexivity. Qed.
Lemma existsb_in c l : existsb (Z.eqb c) l = true <-> In c l.
Proof.
  rewrite existsb_exists. split.
  - intros (x & Hx & E). apply Z.eqb_eq in E as ->. exact Hx.
  - intros H. exists c. rewrite Z.eqb_refl. auto.
Qed.
Lemma chars_oneof s : chars (oneof s) (fun c => In c (text s)).
Proof. apply chars_chr. intros c. apply existsb_in. Qed.
Lemma chars_noneof s : chars (noneof s) (fun c => ~ In c (text s)).
Proof. apply chars_chr. intros c. rewrite negb_true_iff, <- existsb_in. destruct existsb; intuition congruence. Qed.
Lemma chars_one x : chars (chr x) (fun c => c = x).
Proof. apply chars_chr. intros c. rewrite Z.eqb_eq. intuition congruence. Qed.
Lemma den_one x w : den (chr x) w <-> w = [x].
Proof. rewrite (chars_one x w). split; [intros (c & -> & ->); reflexivity|intros ->; exists x; auto]. Qed.
Lemma chars_digit : chars digit digit_char.
Proof. apply chars_chr. intros c. unfold digit_char. rewrite andb_true_iff, !Z.leb_le. lia. Qed.
Lemma chars_letter : chars letter letter_char.
Proof. apply chars_chr. intros c. unfold letter_char. rewrite orb_true_iff, !andb_true_iff, !Z.leb_le. lia. Qed.
Lemma chars_hex : chars hex_digit hex_char.
Proof.
  apply (chars_alt digit _ digit_char (fun c => 65 <= c <= 70 \/ 97 <= c <= 102)); [exact chars_digit|].
  apply chars_chr. intros c. rewrite orb_true_iff, !andb_true_iff, !Z.leb_le. lia.
Qed.
Lemma den_sign w : den (opt (oneof "+-")) w <-> sign_text w.
Proof.
  rewrite den_opt, (chars_oneof "+-" w). unfold sign_text. change (text "+-") with [43; 45]. change (text "+") with [43]. change (text "-") with [45].
  cbn. split.
  - intros [->|(c & -> & [<-|[<-|[]]])]; auto.
  - intros [->|[->| ->]]; [auto| |]; right; eexists; split; try reflexivity; auto.
Qed.
Lemma den_digits w : den (plus digit) w <-> digits_text w.
Proof. apply den_plus. exact chars_digit. Qed.
Lemma den_integer w : den r_integer w <-> integer_text w.
Proof.
  unfold r_integer, integer_text. rewrite den_Seq. split.
  - intros (u & v & -> & Hu & Hv). exists u, v. rewrite <- den_sign, <- den_digits. auto.
  - intros (u & v & -> & Hu & Hv). exists u, v. rewrite den_sign, den_digits. auto.
Qed.
Lemma den_hex w : den r_hex w <-> hex_text w.
Proof.
  assert (Hs : forall u, den (opt (oneof "-")) u <-> u = [] \/ u = text "-").
  { intros u. rewrite den_opt, (chars_oneof "-" u). cbn. split.
    - intros [->|(c & -> & [<-|[]])]; auto.
    - intros [->| ->]; [auto|]. right. exists 45. auto. }
  unfold r_hex, hex_text. rewrite den_Seq. split.
  - intros (u & v & -> & Hu & x & y & -> & Hx & Hy). apply den_lit in Hx as ->. apply (den_plus _ _ _ chars_hex) in Hy. apply Hs in Hu.
    exists u, y. tauto.
  - intros (u & v & -> & Hu & Hv). exists u, (text "0x" ++ v). split; [reflexivity|]. split; [apply Hs; exact Hu|].
    exists (text "0x"), v. split; [reflexivity|]. split; [apply den_lit; reflexivity|]. apply (den_plus _ _ _ chars_hex). exact Hv.
Qed.
Lemma den_oneof1 x w : den (oneof (String x EmptyString)) w <-> w = text (String x EmptyString).
Proof.
  rewrite (chars_oneof _ w). cbn. split.
  - intros (c & -> & [<-|[]]). reflexivity.
  - intros ->. eexists. split; [reflexivity|]. left. reflexivity.
Qed.
Lemma den_mantissa w : den (Alt (Seq (plus digit) (opt (Seq (oneof ".") (plus digit)))) (Seq (oneof ".") (plus digit))) w <-> mantissa_text w.
Proof.
  unfold mantissa_text. rewrite den_Alt, !den_Seq. split.
  - intros [(u & v & -> & Hu & Hv)|(u & v & -> & Hu & Hv)].
    + apply den_digits in Hu. apply den_opt in Hv as [->|(x & y & -> & Hx & Hy)]; [rewrite app_nil_r; auto|].
      apply den_oneof1 in Hx as ->. apply den_digits in Hy. right. exists u, y. auto.
    + apply den_oneof1 in Hu as ->. apply den_digits in Hv. right. exists [], v. auto.
  - intros [H|(a & b & -> & [->|Ha] & Hb)].
    + left. exists w, []. rewrite app_nil_r, den_digits. split; [reflexivity|]. split; [exact H|]. apply den_opt. auto.
    + right. exists (text "."), b. rewrite den_oneof1, den_digits. auto.
    + left. exists a, (text "." ++ b). split; [reflexivity|]. rewrite den_digits. split; [exact Ha|]. apply den_opt. right.
      exists (text "."), b. rewrite den_oneof1, den_digits. auto.
Qed.
Lemma den_exponent w : den (opt (Seq (oneof "Ee") (Seq (opt (oneof "+-")) (plus digit)))) w <-> exponent_text w.
Proof.
  rewrite den_opt. unfold exponent_text. rewrite den_Seq. split.
  - intros [->|(u & v & -> & Hu & x & y & -> & Hx & Hy)]; [auto|]. right. exists u, x, y. split; [reflexivity|].
    rewrite <- den_sign, <- den_digits. split; [|auto]. apply chars_oneof in Hu as (c & -> & [<-|[<-|[]]]); auto.
  - intros [->|(e & s & ds & -> & He & Hs & Hd)]; [auto|]. right. exists e, (s ++ ds). split; [reflexivity|]. split.
    + apply chars_oneof. destruct He as [-> | ->]; eexists; (split; [reflexivity|]); cbn; auto.
    + exists s, ds. rewrite den_sign, den_digits. auto.
Qed.
Lemma den_double w : den r_double w <-> double_text w.
Proof.
  unfold r_double, double_text. rewrite den_Seq. split.
  - intros (u & v & -> & Hu & x & y & -> & Hx & Hy). exists u, x, y. rewrite <- den_sign, <- den_mantissa, <- den_exponent. auto.
  - intros (s & m & e & -> & Hs & Hm & He). exists s, (m ++ e). split; [reflexivity|]. rewrite den_sign. split; [exact Hs|].
    exists m, e. rewrite den_mantissa, den_exponent. auto.
Qed.
Lemma den_quotable q v : den (Star (Alt esc_seq (Chr (fun c => negb ((c =? 92) || (c =? q)))))) v <-> quotable q v.
Proof.
  assert (Hesc : forall x, den esc_seq x <-> exists c, x = [92; c] /\ In c (text "rnt" ++ [34; 39; 92])).
  { intros x. unfold esc_seq. rewrite den_Seq. split.
    - intros (u & w & -> & Hu & c & -> & Hc). apply den_one in Hu as ->. exists c. rewrite <- existsb_in. auto.
    - intros (c & -> & Hc). exists [92], [c]. split; [reflexivity|]. rewrite den_one. split; [reflexivity|]. exists c. rewrite existsb_in. auto. }
  cbn [den]. split.
  - intros (ws & -> & H). induction H as [|x ws Hx _ IH]; [constructor|]. cbn [List.concat]. destruct Hx as [Hx|(c & -> & Hc)].
    + change (den esc_seq x) in Hx. apply Hesc in Hx as (c & -> & Hc). cbn. constructor; assumption.
    + rewrite negb_true_iff, orb_false_iff, !Z.eqb_neq in Hc. cbn. constructor; tauto.
  - intros H. induction H as [|c w H1 H2 _ (ws & -> & Hws)|c w Hc _ (ws & -> & Hws)].
    + exists []. auto.
    + exists ([c] :: ws). split; [reflexivity|]. constructor; [|exact Hws]. right. exists c. rewrite negb_true_iff, orb_false_iff, !Z.eqb_neq. auto.
    + exists ([92; c] :: ws). split; [reflexivity|]. constructor; [|exact Hws]. left. change (den esc_seq [92; c]). apply Hesc. exists c. auto.
Qed.
Lemma den_quoted q w : den (quoted q) w <-> exists v, quotable q v /\ w = q :: v ++ [q].
Proof.
  unfold quoted. rewrite den_Seq. split.
  - intros (u & v & -> & Hu & Hv). apply den_one in Hu as ->. apply den_Seq in Hv as (x & y & -> & Hx & Hy).
    apply den_one in Hy as ->. apply den_quotable in Hx. exists x. auto.
  - intros (v & Hv & ->). exists [q], (v ++ [q]). split; [reflexivity|]. rewrite den_one. split; [reflexivity|]. apply den_Seq.
    exists v, [q]. rewrite den_one, den_quotable. auto.
Qed.
Lemma den_literal w : den r_literal w <-> literal_text w.
Proof.
  unfold r_literal, literal_text. rewrite den_Alt, !den_quoted. split.
  - intros [(v & Hv & ->)|(v & Hv & ->)]; eexists _, v; (split; [|split; [exact Hv|reflexivity]]); auto.
  - intros (q & v & [-> | ->] & Hv & ->); [left|right]; exists v; auto.
Qed.
Lemma den_identifier w : den r_identifier w <-> identifier_text w.
Proof.
  assert (Hh : chars (Alt letter (oneof "_")) (fun c => letter_char c \/ c = 95)).
  { intros x. rewrite (chars_alt _ _ _ _ chars_letter (chars_oneof "_") x). cbn. split; intros (c & -> & Hc); exists c; intuition. }
  assert (Ht : chars (Alt letter (Alt digit (oneof "._"))) (fun c => letter_char c \/ digit_char c \/ c = 46 \/ c = 95)).
  { intros x. rewrite (chars_alt _ _ _ _ chars_letter (chars_alt _ _ _ _ chars_digit (chars_oneof "._")) x). cbn. split; intros (c & -> & Hc); exists c; intuition. }
  unfold r_identifier, identifier_text. rewrite den_Seq. split.
  - intros (u & v & -> & Hu & Hv). apply Hh in Hu as (c & -> & Hc). apply (den_star _ _ _ Ht) in Hv. exists c, v. auto.
  - intros (c & v & -> & Hc & Hv). exists [c], v. split; [reflexivity|]. rewrite (Hh [c]). split; [exists c; auto|]. apply (den_star _ _ _ Ht). exact Hv.
Qed.

(** ** Block comments *)
Definition block_item : re := Alt (noneof "*") (Seq (plus (oneof "*")) (noneof "*/")).
Definition block_rest : re := Seq (Star block_item) (Seq (plus (oneof "*")) (oneof "/")).
(** After asterisks *)
Definition block_star : re :=
  Alt (Seq (Seq (Seq (Star (oneof "*")) (noneof "*/")) (Star block_item)) (Seq (plus (oneof "*")) (oneof "/"))) (Seq (Star (oneof "*")) (oneof "/")).
Lemma in_star c : existsb (Z.eqb c) (text "*") = (c =? 42).
Proof. cbn. apply orb_false_r. Qed.
Lemma in_slash c : existsb (Z.eqb c) (text "/") = (c =? 47).
Proof. cbn. apply orb_false_r. Qed.
Lemma in_both c : existsb (Z.eqb c) (text "*/") = (c =? 42) || (c =? 47).
Proof. cbn. rewrite orb_false_r. reflexivity. Qed.
Lemma block_rest_step c : deriv c block_rest = if c =? 42 then block_star else block_rest.
Proof.
  unfold block_rest, block_star, block_item, noneof, oneof, plus. cbn [deriv nullable andb orb]. rewrite ?in_star, ?in_both, ?in_slash.
  destruct (c =? 42); reflexivity.
Qed.
Lemma block_star_step c : deriv c block_star = if c =? 42 then block_star else if c =? 47 then Eps else block_rest.
Proof.
  unfold block_rest, block_star, block_item, noneof, oneof, plus. cbn [deriv nullable andb orb]. rewrite ?in_star, ?in_both, ?in_slash.
  destruct (c =? 42) eqn:E.
  - apply Z.eqb_eq in E as ->. reflexivity.
  - destruct (c =? 47); reflexivity.
Qed.
(** The end of the first comment, read in two states *)
Fixpoint closes (star : bool) (w : list Z) : Prop :=
  match w with
  | [] => False
  | c :: w => if c =? 42 then closes true w else if star && (c =? 47) then w = [] else closes false w
  end.
Lemma closes_den w : forall star, closes star w <-> den (if star then block_star else block_rest) w.
Proof.
  induction w as [|c w IH]; intros star.
  - rewrite <- nullable_ok. destruct star; cbn; intuition discriminate.
  - cbn [closes]. rewrite <- deriv_ok. destruct star.
    + rewrite block_star_step. destruct (c =? 42); [apply (IH true)|]. cbn [andb]. destruct (c =? 47); [reflexivity|apply (IH false)].
    + rewrite block_rest_step. destruct (c =? 42); [apply (IH true)|apply (IH false)].
Qed.
Lemma closes_body w : forall star, closes star w <->
  (exists b, w = b ++ [42; 47] /\ (forall u v, (if star then [42] else []) ++ b ++ [42; 47] = u ++ [42; 47] ++ v -> v = [])) \/ star = true /\ w = [47].
Proof.
  induction w as [|c w IH]; intros star.
  - cbn. split; [tauto|]. intros [(b & E & _)|[_ E]]; [destruct b; discriminate|discriminate].
  - cbn [closes]. destruct (Z.eqb_spec c 42) as [->|Hc].
    + rewrite IH. split.
      * intros [(b & -> & Hb)|[_ ->]].
        -- left. exists (42 :: b). split; [reflexivity|]. intros u v E. destruct star; [|exact (Hb u v E)].
           destruct u as [|x u]; [cbn in E; injection E; discriminate|]. injection E as <- E. exact (Hb u v E).
        -- left. exists []. split; [reflexivity|]. intros u v E. destruct star; cbn in E.
           ++ destruct u as [|x [|y u]]; cbn in E; [discriminate|injection E; intros; congruence|].
              apply (f_equal (@List.length _)) in E. cbn in E. rewrite app_length in E. cbn in E. lia.
           ++ destruct u as [|x u]; cbn in E; [injection E; intros; congruence|].
              apply (f_equal (@List.length _)) in E. cbn in E. rewrite app_length in E. cbn in E. lia.
      * intros [(b & E & Hb)|[_ E]]; [|discriminate]. destruct b as [|x b].
        -- cbn in E. injection E as ->. right. auto.
        -- cbn in E. injection E as <- ->. left. exists b. split; [reflexivity|]. intros u v E. destruct star.
           ++ apply (Hb (42 :: u) v). cbn in *. rewrite E. reflexivity.
           ++ apply (Hb u v). exact E.
    + destruct (star && (c =? 47)) eqn:Hs.
      * apply andb_true_iff in Hs as [-> Hs]. apply Z.eqb_eq in Hs as ->. split.
        -- intros ->. right. auto.
        -- intros [(b & E & Hb)|[_ E]]; [|injection E; auto]. destruct b as [|x b]; [discriminate|]. injection E as <- ->.
           specialize (Hb [] (b ++ [42; 47]) eq_refl). destruct b; discriminate.
      * rewrite IH. split.
        -- intros [(b & -> & Hb)|[E _]]; [|discriminate]. left. exists (c :: b). split; [reflexivity|]. intros u v E. destruct star.
           ++ destruct u as [|x u]; [cbn in E; injection E as -> _; discriminate|]. injection E as <- E.
              destruct u as [|x u]; [cbn in E; injection E; intros; congruence|]. injection E as <- E. exact (Hb u v E).
           ++ destruct u as [|x u]; [cbn in E; injection E; intros; congruence|]. injection E as <- E. exact (Hb u v E).
        -- intros [(b & E & Hb)|[-> E]].
           ++ destruct b as [|x b]; [injection E; intros; congruence|]. injection E as <- ->. left. exists b. split; [reflexivity|].
              intros u v E. destruct star; [apply (Hb (42 :: c :: u) v)|apply (Hb (c :: u) v)]; cbn in *; rewrite E; reflexivity.
           ++ injection E as -> ->. discriminate.
Qed.
Lemma den_block w : den r_block w <-> exists b, comment_body b /\ w = text "/*" ++ b ++ text "*/".
Proof.
  change r_block with (Seq (lit (text "/*")) block_rest). rewrite den_Seq. change (text "*/") with [42; 47]. split.
  - intros (u & v & -> & Hu & Hv). apply den_lit in Hu as ->. apply (closes_den v false), closes_body in Hv.
    destruct Hv as [(b & -> & Hb)|[E _]]; [|discriminate]. exists b. split; [exact Hb|reflexivity].
  - intros (b & Hb & ->). exists (text "/*"), (b ++ [42; 47]). split; [reflexivity|]. split; [apply den_lit; reflexivity|].
    apply (closes_den _ false), closes_body. left. exists b. split; [reflexivity|exact Hb].
Qed.
(** ** Line comments and white space *)
Lemma den_line w : den r_line w <-> exists s b, (s = text "//" \/ s = text "#") /\ ~ In 10 b /\ w = s ++ b ++ [10].
Proof.
  assert (Hc : chars (Chr (fun c => negb (c =? 10))) (fun c => c <> 10)).
  { apply chars_chr. intros c. rewrite negb_true_iff, Z.eqb_neq. reflexivity. }
  unfold r_line. rewrite den_Seq. split.
  - intros (u & v & -> & Hu & Hv). rewrite den_Alt, den_lit, den_oneof1 in Hu. apply den_Seq in Hv as (x & y & -> & Hx & Hy).
    apply (den_star _ _ _ Hc) in Hx. apply den_Seq in Hy as (r & n & -> & Hr & Hn). apply den_one in Hn as ->. apply den_opt in Hr. rewrite den_one in Hr.
    exists u, (x ++ r). split; [exact Hu|]. split; [|rewrite <- app_assoc; reflexivity]. intros Hi. apply in_app_or in Hi as [Hi|Hi].
    + rewrite Forall_forall in Hx. exact (Hx _ Hi eq_refl).
    + destruct Hr as [-> | ->]; [destruct Hi|]. destruct Hi as [E|[]]. discriminate.
  - intros (s & b & Hs & Hb & ->). exists s, (b ++ [10]). split; [reflexivity|]. split; [apply den_Alt; rewrite den_lit, den_oneof1; exact Hs|].
    apply den_Seq. exists b, [10]. split; [reflexivity|]. split.
    + apply (den_star _ _ _ Hc). apply Forall_forall. intros c Hi ->. contradiction.
    + apply den_Seq. exists [], [10]. split; [reflexivity|]. split; [apply den_opt; auto|apply den_one; reflexivity].
Qed.
Definition space (p : list Z) : Prop := p = [32] \/ p = [9] \/ p = [13; 10] \/ p = [10].
Lemma den_ws w : den r_ws w <-> exists ps, ps <> [] /\ w = List.concat ps /\ Forall space ps.
Proof.
  assert (Hp : forall p, den (Alt (chr 32) (Alt (chr 9) (Alt (Seq (chr 13) (chr 10)) (chr 10)))) p <-> space p).
  { intros p. rewrite !den_Alt, !den_one, den_Seq. unfold space.
    assert (H : (exists u v, p = u ++ v /\ den (chr 13) u /\ den (chr 10) v) <-> p = [13; 10]).
    { split; [intros (u & v & -> & Hu & Hv); apply den_one in Hu as ->; apply den_one in Hv as ->; reflexivity|].
      intros ->. exists [13], [10]. rewrite !den_one. auto. }
    rewrite H. tauto. }
  unfold r_ws, plus. set (r := Alt (chr 32) _) in *. rewrite den_Seq. split.
  - intros (u & v & -> & Hu & ps & -> & Hps). apply Hp in Hu. exists (u :: ps). split; [discriminate|]. split; [reflexivity|].
    constructor; [exact Hu|]. eapply Forall_impl; [|exact Hps]. intros a. apply Hp.
  - intros (ps & Hne & -> & H). destruct H as [|p ps Hx H]; [congruence|]. exists p, (List.concat ps). split; [reflexivity|].
    split; [apply Hp; exact Hx|]. exists ps. split; [reflexivity|]. eapply Forall_impl; [|exact H]. intros a. apply Hp.
Qed.

(** * First characters and characters of tokens *)
Definition punct_chars : list Z := [42; 61; 123; 125; 58; 40; 41; 60; 62; 91; 93; 59].
Definition name_char (c : Z) : Prop := letter_char c \/ digit_char c \/ c = 46 \/ c = 95.
Lemma implicit_in s : In s implicit <-> In s words \/ In s punctuation.
Proof.
  rewrite <- in_app_iff. split; intros H.
  - assert (C : forallb (fun s => existsb (String.eqb s) (words ++ punctuation)) implicit = true) by (vm_compute; reflexivity).
    rewrite forallb_forall in C. specialize (C s H). apply existsb_exists in C as (x & Hx & E). apply String.eqb_eq in E as ->. exact Hx.
  - assert (C : forallb (fun s => existsb (String.eqb s) implicit) (words ++ punctuation) = true) by (vm_compute; reflexivity).
    rewrite forallb_forall in C. specialize (C s H). apply existsb_exists in C as (x & Hx & E). apply String.eqb_eq in E as ->. exact Hx.
Qed.
Definition lower (c : Z) : bool := (97 <=? c) && (c <=? 122).
Lemma word_head s : In s words -> exists c v, text s = c :: v /\ 97 <= c <= 122 /\ Forall name_char (c :: v).
Proof.
  intros H.
  assert (C : forallb (fun s => match text s with c :: v => lower c && forallb (fun c => lower c || (48 <=? c) && (c <=? 57) || (c =? 95)) (c :: v) | [] => false end)
                words = true) by (vm_compute; reflexivity).
  rewrite forallb_forall in C. specialize (C s H). destruct (text s) as [|c v]; [discriminate|]. apply andb_true_iff in C as [Hc Hv].
  exists c, v. split; [reflexivity|]. unfold lower in Hc. apply andb_true_iff in Hc. rewrite !Z.leb_le in Hc. split; [exact Hc|].
  rewrite forallb_forall in Hv. apply Forall_forall. intros x Hx. specialize (Hv x Hx). unfold lower in Hv.
  rewrite !orb_true_iff, !andb_true_iff, !Z.leb_le, Z.eqb_eq in Hv. unfold name_char, letter_char, digit_char. lia.
Qed.
Lemma punct_head s : In s punctuation -> exists c, text s = [c] /\ In c punct_chars.
Proof. intros H. repeat (destruct H as [<-|H]; [eexists; split; [reflexivity|vm_compute; tauto]|]). destruct H. Qed.
Lemma digits_head w : digits_text w -> exists c v, w = c :: v /\ digit_char c.
Proof. intros [Hw H]. destruct H as [|c v Hc _]; [congruence|]. exists c, v. auto. Qed.
Definition num_start (c : Z) : Prop := digit_char c \/ c = 43 \/ c = 45 \/ c = 46.
Lemma sign_head s w : sign_text s -> (exists c v, w = c :: v /\ num_start c) -> exists c v, s ++ w = c :: v /\ num_start c.
Proof.
  intros [->|[->| ->]] H; [exact H| |]; eexists _, _; (split; [reflexivity|]); unfold num_start; auto.
Qed.
Lemma integer_head w : integer_text w -> exists c v, w = c :: v /\ num_start c.
Proof.
  intros (s & ds & -> & Hs & Hd). apply sign_head; [exact Hs|]. apply digits_head in Hd as (c & v & -> & Hc). exists c, v. split; [reflexivity|left; exact Hc].
Qed.
Lemma hex_head w : hex_text w -> exists c v, w = c :: v /\ num_start c.
Proof.
  intros (s & hs & -> & Hs & _). apply sign_head; [destruct Hs; unfold sign_text; auto|]. exists 48, (120 :: hs). split; [reflexivity|]. left. unfold digit_char. lia.
Qed.
Lemma mantissa_head w : mantissa_text w -> exists c v, w = c :: v /\ num_start c.
Proof.
  intros [H|(a & b & -> & [->|Ha] & Hb)].
  - apply digits_head in H as (c & v & -> & Hc). exists c, v. split; [reflexivity|left; exact Hc].
  - eexists _, _. split; [reflexivity|]. unfold num_start. auto.
  - apply digits_head in Ha as (c & v & -> & Hc). eexists _, _. split; [reflexivity|left; exact Hc].
Qed.
Lemma double_head w : double_text w -> exists c v, w = c :: v /\ num_start c.
Proof.
  intros (s & m & e & -> & Hs & Hm & He). apply sign_head; [exact Hs|]. apply mantissa_head in Hm as (c & v & -> & Hc). exists c, (v ++ e). auto.
Qed.
Lemma literal_head w : literal_text w -> exists c v, w = c :: v /\ (c = 34 \/ c = 39).
Proof. intros (q & v & Hq & _ & ->). exists q, (v ++ [q]). auto. Qed.
Lemma identifier_head w : identifier_text w -> exists c v, w = c :: v /\ (letter_char c \/ c = 95).
Proof. intros (c & v & -> & Hc & _). exists c, v. auto. Qed.
Lemma ws_head w : den r_ws w -> exists c v, w = c :: v /\ In c [32; 9; 13; 10].
Proof.
  rewrite den_ws. intros (ps & Hne & -> & H). destruct H as [|p ps Hp _]; [congruence|].
  destruct Hp as [->|[->|[->| ->]]]; eexists _, _; (split; [reflexivity|]); vm_compute; tauto.
Qed.
Lemma line_head w : den r_line w -> exists c v, w = c :: v /\ (c = 35 \/ c = 47 /\ exists v', v = 47 :: v').
Proof.
  rewrite den_line. intros (s & b & [-> | ->] & _ & ->); eexists _, _; (split; [reflexivity|]); [right; eauto|left; reflexivity].
Qed.
Lemma block_head w : den r_block w -> exists v, w = 47 :: 42 :: v.
Proof. rewrite den_block. intros (b & _ & ->). eexists. reflexivity. Qed.

Definition int_char (c : Z) : Prop := digit_char c \/ c = 43 \/ c = 45.
Definition dbl_char (c : Z) : Prop := int_char c \/ c = 46 \/ c = 69 \/ c = 101.
Lemma sign_chars s : sign_text s -> Forall int_char s.
Proof. intros [->|[->| ->]]; [constructor| |]; (constructor; [unfold int_char; auto|constructor]). Qed.
Lemma digits_chars w : digits_text w -> Forall int_char w.
Proof. intros [_ H]. eapply Forall_impl; [|exact H]. intros c Hc. left. exact Hc. Qed.
Lemma integer_chars w : integer_text w -> Forall int_char w.
Proof. intros (s & ds & -> & Hs & Hd). apply Forall_app. split; [apply sign_chars; exact Hs|apply digits_chars; exact Hd]. Qed.
Lemma int_dbl w : Forall int_char w -> Forall dbl_char w.
Proof. apply Forall_impl. intros c Hc. left. exact Hc. Qed.
Lemma double_chars w : double_text w -> Forall dbl_char w.
Proof.
  intros (s & m & e & -> & Hs & Hm & He). rewrite !Forall_app. split; [apply int_dbl, sign_chars; exact Hs|]. split.
  - destruct Hm as [Hm|(a & b & -> & Ha & Hb)]; [apply int_dbl, digits_chars; exact Hm|]. rewrite !Forall_app. split; [|split].
    + destruct Ha as [->|Ha]; [constructor|apply int_dbl, digits_chars; exact Ha].
    + constructor; [unfold dbl_char; auto|constructor].
    + apply int_dbl, digits_chars. exact Hb.
  - destruct He as [->|(x & y & z & -> & Hx & Hy & Hz)]; [constructor|]. rewrite !Forall_app. split; [|split].
    + destruct Hx as [-> | ->]; (constructor; [unfold dbl_char; auto|constructor]).
    + apply int_dbl, sign_chars. exact Hy.
    + apply int_dbl, digits_chars. exact Hz.
Qed.
Lemma hex_x w : hex_text w -> In 120 w.
Proof. intros (s & hs & -> & _ & _). apply in_or_app. right. apply in_or_app. left. vm_compute. auto. Qed.
Lemma hex_not_double w : hex_text w -> ~ double_text w.
Proof.
  intros H H'. apply hex_x in H. apply double_chars in H'. rewrite Forall_forall in H'. specialize (H' _ H). unfold dbl_char, int_char, digit_char in H'. lia.
Qed.
Lemma integer_double w : integer_text w -> double_text w.
Proof.
  intros (s & ds & -> & Hs & Hd). exists s, ds, []. rewrite app_nil_r. split; [reflexivity|]. split; [exact Hs|]. split; [left; exact Hd|left; reflexivity].
Qed.

(** * Which rule a text belongs to *)
Definition explicit : list (kind * re) :=
  [(KInteger, r_integer); (KHex, r_hex); (KDouble, r_double); (KLiteral, r_literal); (KIdentifier, r_identifier); (KComma, oneof ",");
   (KWs, r_ws); (KLine, r_line); (KBlock, r_block)].
Lemma pick_text s : In s implicit -> pick rules (text s) = Some (KText s).
Proof.
  intros H.
  assert (C : forallb (fun s => match pick rules (text s) with Some (KText s') => String.eqb s s' | _ => false end) implicit = true) by (vm_compute; reflexivity).
  rewrite forallb_forall in C. specialize (C s H). destruct (pick rules (text s)) as [[]|]; try discriminate. apply String.eqb_eq in C as ->. reflexivity.
Qed.
Lemma find_app_none {A} (f : A -> bool) l1 l2 : (forall x, In x l1 -> f x = false) -> find f (l1 ++ l2) = find f l2.
Proof.
  induction l1 as [|x l1 IH]; intros H; [reflexivity|]. cbn. rewrite (H x) by (left; reflexivity). apply IH. intros y Hy. apply H. right. exact Hy.
Qed.
Lemma pick_explicit w : (forall s, In s implicit -> text s <> w) -> pick rules w = pick explicit w.
Proof.
  intros H. unfold pick, rules. fold explicit. rewrite find_app_none; [reflexivity|]. intros x Hx. apply in_map_iff in Hx as (s & <- & Hs). cbn [snd].
  apply matchb_no. rewrite den_lit. intros E. exact (H s Hs (eq_sym E)).
Qed.
(** Not a literal of the parser rules *)
Lemma not_implicit c v : (num_start c \/ In c [34; 39; 32; 9; 13; 10; 35; 47]) -> forall s, In s implicit -> text s <> c :: v.
Proof.
  intros Hc s Hs E. apply implicit_in in Hs as [Hs|Hs].
  - apply word_head in Hs as (c' & v' & E' & Hl & _). rewrite E in E'. injection E' as <- <-. unfold num_start, digit_char in Hc. cbn in Hc. lia.
  - apply punct_head in Hs as (c' & E' & Hl). rewrite E in E'. injection E' as <- _. unfold num_start, digit_char in Hc. cbn in Hc, Hl. lia.
Qed.
Ltac refute_head :=
  match goal with
  | |- ~ den _ _ => let H := fresh in intros H;
      (apply den_integer, integer_head in H || apply den_hex, hex_head in H || apply den_double, double_head in H || apply den_literal, literal_head in H
       || apply den_identifier, identifier_head in H || apply ws_head in H || apply line_head in H || apply block_head in H
       || apply (chars_oneof ",") in H);
      cbn in H; decompose [ex and or] H; subst; repeat match goal with E : _ :: _ = _ :: _ |- _ => injection E as E; subst end;
      unfold num_start, letter_char, digit_char in *; lia
  end.
Ltac skip_rule := match goal with |- context [if matchb ?r ?w then _ else _] => let H := fresh in
  assert (H : matchb r w = false) by (apply matchb_no; assumption || refute_head); rewrite H; clear H end.
Ltac this_rule := match goal with |- context [if matchb ?r ?w then _ else _] => let H := fresh in
  assert (H : matchb r w = true) by (apply matchb_ok; assumption); rewrite H; reflexivity end.
Ltac explicit_rules := rewrite pick_explicit; [unfold pick, explicit; cbn [find snd]; repeat (this_rule || skip_rule)|].
Lemma pick_integer w : integer_text w -> pick rules w = Some KInteger.
Proof.
  intros H. pose proof (proj2 (den_integer w) H) as D. destruct (integer_head w H) as (c & v & -> & Hc).
  explicit_rules. apply not_implicit. auto.
Qed.
Lemma pick_hex w : hex_text w -> pick rules w = Some KHex.
Proof.
  intros H. pose proof (proj2 (den_hex w) H) as D.
  assert (Hi : ~ den r_integer w) by (rewrite den_integer; intros Hi; exact (hex_not_double w H (integer_double w Hi))).
  destruct (hex_head w H) as (c & v & -> & Hc). explicit_rules. apply not_implicit. auto.
Qed.
Lemma pick_double w : double_text w -> ~ integer_text w -> pick rules w = Some KDouble.
Proof.
  intros H Hi. pose proof (proj2 (den_double w) H) as D. rewrite <- den_integer in Hi.
  assert (Hh : ~ den r_hex w) by (rewrite den_hex; intros Hh; exact (hex_not_double w Hh H)).
  destruct (double_head w H) as (c & v & -> & Hc). explicit_rules. apply not_implicit. auto.
Qed.
Lemma pick_literal w : literal_text w -> pick rules w = Some KLiteral.
Proof.
  intros H. pose proof (proj2 (den_literal w) H) as D. destruct (literal_head w H) as (c & v & -> & Hc).
  explicit_rules. apply not_implicit. right. cbn. lia.
Qed.
Lemma pick_ws w : den r_ws w -> pick rules w = Some KWs.
Proof.
  intros H. destruct (ws_head w H) as (c & v & -> & Hc). cbn in Hc. explicit_rules. apply not_implicit. right. cbn in *. lia.
Qed.
Lemma pick_line w : den r_line w -> pick rules w = Some KLine.
Proof.
  intros H. destruct (line_head w H) as (c & v & -> & Hc). explicit_rules. apply not_implicit. right. cbn. destruct Hc as [Hc|[Hc _]]; lia.
Qed.
Lemma pick_block w : den r_block w -> pick rules w = Some KBlock.
Proof.
  intros H. destruct (block_head w H) as (v & ->). explicit_rules. apply not_implicit. right. cbn. lia.
Qed.
Lemma pick_identifier n : identifier_text (text n) -> ~ In n words -> pick rules (text n) = Some KIdentifier.
Proof.
  intros H Hn. pose proof (proj2 (den_identifier _) H) as D. pose proof (identifier_head _ H) as Hh.
  explicit_rules; [destruct Hh as (c & v & E & Hc); rewrite E in *; repeat (this_rule || skip_rule)|].
  intros s Hs E. apply text_inj in E as ->. apply implicit_in in Hs as [Hs|Hs]; [contradiction|].
  apply punct_head in Hs as (c' & E' & Hl). destruct Hh as (c & v & E & Hc). rewrite E in E'. injection E' as <- _.
  unfold letter_char in Hc. cbn in Hl. lia.
Qed.
Lemma text_string_of w : Forall (fun c => 0 <= c < 256) w -> text (string_of w) = w.
Proof.
  intros H. unfold text, string_of. rewrite list_ascii_of_string_of_list_ascii, map_map. induction H as [|c w Hc _ IH]; [reflexivity|].
  cbn [map]. rewrite IH, nat_ascii_embedding by lia. rewrite Z2Nat.id by lia. reflexivity.
Qed.
Lemma string_of_text n : string_of (text n) = n.
Proof.
  unfold text, string_of. rewrite map_map. erewrite map_ext; [rewrite map_id; apply string_of_list_ascii_of_string|].
  intros a. cbn. rewrite Nat2Z.id. apply ascii_nat_embedding.
Qed.
Lemma identifier_bytes w : identifier_text w -> Forall (fun c => 0 <= c < 256) w.
Proof.
  intros (c & v & -> & Hc & Hv). constructor; [unfold letter_char in Hc; lia|]. eapply Forall_impl; [|exact Hv].
  intros x. unfold letter_char, digit_char. lia.
Qed.
Lemma pick_token t : well_formed t -> exists k, pick rules (spelling t) = Some k /\ token_of k (spelling t) = Some t.
Proof.
  destruct t; cbn [well_formed spelling]; intros H.
  - exists (KText s). split; [|reflexivity]. apply pick_text, implicit_in. exact H.
  - exists KInteger. split; [|reflexivity]. apply pick_integer. exact H.
  - exists KHex. split; [|reflexivity]. apply pick_hex. exact H.
  - exists KDouble. split; [|reflexivity]. apply pick_double; tauto.
  - exists KLiteral. split; [|reflexivity]. apply pick_literal. exact H.
  - exists KIdentifier. split; [apply pick_identifier; tauto|]. cbn [token_of]. rewrite string_of_text. reflexivity.
  - exists KComma. split; [vm_compute; reflexivity|reflexivity].
Qed.
Lemma pick_inv w k : pick rules w = Some k ->
  (exists t, well_formed t /\ spelling t = w /\ token_of k w = Some t) \/
  (token_of k w = None /\ (k = KWs /\ den r_ws w \/ k = KLine /\ den r_line w \/ k = KBlock /\ den r_block w)).
Proof.
  intros Hk. assert (H := Hk). unfold pick in H. destruct (find _ rules) as [[k' r]|] eqn:E; [|discriminate]. injection H as <-.
  apply find_some in E as [Hin Hm]. cbn [snd] in Hm. apply matchb_ok in Hm. unfold rules in Hin. apply in_app_or in Hin as [Hin|Hin].
  - apply in_map_iff in Hin as (s & E & Hs). injection E as <- <-. apply den_lit in Hm as ->. left. exists (T s). split; [apply implicit_in; exact Hs|]. auto.
  - destruct Hin as [E|[E|[E|[E|[E|[E|[E|[E|[E|[]]]]]]]]]]; injection E as <- <-.
    + left. exists (TInteger w). apply den_integer in Hm. auto.
    + left. exists (THex w). apply den_hex in Hm. auto.
    + left. exists (TDouble w). apply den_double in Hm. split; [|auto]. split; [exact Hm|]. intros Hi. rewrite (pick_integer w Hi) in Hk. discriminate.
    + left. exists (TLiteral w). apply den_literal in Hm. auto.
    + apply den_identifier in Hm. left. exists (TId (string_of w)). cbn [well_formed spelling token_of].
      rewrite (text_string_of w (identifier_bytes w Hm)). split; [|auto]. split; [exact Hm|]. intros Hw.
      assert (Ht : pick rules (text (string_of w)) = Some (KText (string_of w))) by (apply pick_text, implicit_in; auto).
      rewrite (text_string_of w (identifier_bytes w Hm)), Hk in Ht. discriminate.
    + apply (den_oneof1 (ascii_of_nat 44)) in Hm. left. exists TComma. split; [exact I|]. split; [symmetry; exact Hm|reflexivity].
    + right. auto.
    + right. auto.
    + right. auto 6.
Qed.
Lemma pick_empty : pick rules [] = None.
Proof. vm_compute. reflexivity. Qed.
Lemma spelling_nonempty t : well_formed t -> spelling t <> [].
Proof. intros H E. destruct (pick_token t H) as (k & Hk & _). rewrite E, pick_empty in Hk. discriminate. Qed.
(** Tokens begin differently from what is skipped. *)
Definition gap_start (c : Z) : Prop := In c [32; 9; 13; 10; 35; 47].
Lemma token_head t : well_formed t -> exists c v, spelling t = c :: v /\ ~ gap_start c /\
  (delimited t -> ~ word_char c) /\ (~ delimited t -> Forall word_char (c :: v)).
Proof.
  assert (W : forall w, Forall name_char w -> Forall word_char w).
  { apply Forall_impl. intros c. unfold name_char, word_char. cbn. intuition. }
  assert (D : forall w, Forall dbl_char w -> Forall word_char w).
  { apply Forall_impl. intros c. unfold dbl_char, int_char, word_char, letter_char, digit_char. cbn. lia. }
  destruct t; cbn [well_formed spelling delimited]; intros H.
  - destruct H as [H|H].
    + destruct (word_head s H) as (c & v & E & Hc & Hv). exists c, v. split; [exact E|]. split; [unfold gap_start; cbn; lia|]. split; [|intros _; auto].
      intros Hp. apply punct_head in Hp as (c' & E' & Hl). rewrite E in E'. injection E' as <- _. cbn in Hl. lia.
    + destruct (punct_head s H) as (c & E & Hc). exists c, []. split; [exact E|]. split; [unfold gap_start; cbn in *; lia|]. split; [|tauto].
      intros _. unfold word_char, letter_char, digit_char. cbn in *. lia.
  - destruct (integer_head w H) as (c & v & E & Hc). exists c, v. split; [exact E|]. split; [unfold gap_start, num_start, digit_char in *; cbn; lia|].
    split; [tauto|]. intros _. rewrite <- E. apply D, int_dbl, integer_chars. exact H.
  - destruct (hex_head w H) as (c & v & E & Hc). exists c, v. split; [exact E|]. split; [unfold gap_start, num_start, digit_char in *; cbn; lia|].
    split; [tauto|]. intros _. rewrite <- E. destruct H as (s & hs & -> & Hs & _ & Hh). rewrite !Forall_app. split; [|split].
    + apply D, int_dbl, sign_chars. unfold sign_text. tauto.
    + change (text "0x") with [48; 120]. constructor; [|constructor; [|constructor]]; unfold word_char, letter_char, digit_char; lia.
    + eapply Forall_impl; [|exact Hh]. intros x. unfold hex_char, word_char, letter_char, digit_char. lia.
  - destruct (double_head w (proj1 H)) as (c & v & E & Hc). exists c, v. split; [exact E|]. split; [unfold gap_start, num_start, digit_char in *; cbn; lia|].
    split; [tauto|]. intros _. rewrite <- E. apply D, double_chars. tauto.
  - destruct (literal_head w H) as (c & v & E & Hc). exists c, v. split; [exact E|]. split; [unfold gap_start; cbn; lia|]. split; [|tauto].
    intros _. unfold word_char, letter_char, digit_char. cbn. lia.
  - destruct H as [H Hn]. destruct H as (c & v & E & Hc & Hv). exists c, v. split; [exact E|]. split; [unfold gap_start, letter_char in *; cbn; lia|].
    split; [tauto|]. intros _. apply W. constructor; [unfold name_char; tauto|exact Hv].
  - exists 44, []. split; [reflexivity|]. split; [unfold gap_start; cbn; lia|]. split; [|tauto]. intros _. unfold word_char, letter_char, digit_char. cbn. lia.
Qed.
Lemma skip_head w : den r_ws w \/ den r_line w \/ den r_block w -> exists c v, w = c :: v /\ gap_start c.
Proof.
  intros [H|[H|H]].
  - destruct (ws_head w H) as (c & v & -> & Hc). exists c, v. split; [reflexivity|]. unfold gap_start. cbn in *. lia.
  - destruct (line_head w H) as (c & v & -> & Hc). exists c, v. split; [reflexivity|]. unfold gap_start. cbn. destruct Hc as [Hc|[Hc _]]; lia.
  - destruct (block_head w H) as (v & ->). eexists _, _. split; [reflexivity|]. unfold gap_start. cbn. lia.
Qed.

(** * Dividing the text *)
Lemma scan_pos s k m : scan rules s 0 None = Some (k, m) -> (0 < m)%nat.
Proof. intros H. apply scan_inv in H; [|exact pick_empty]. destruct H as (w & rest & -> & <- & Hw & _). destruct w; [congruence|cbn; lia]. Qed.
Lemma tokens_fuel : forall n s, (List.length s <= n)%nat -> tokens n s = lex s.
Proof.
  induction n as [n IH] using lt_wf_ind. intros s Hs. unfold lex.
  destruct s as [|c s]; [destruct n; reflexivity|]. destruct n as [|n]; [cbn in Hs; lia|]. cbn [tokens List.length].
  destruct (scan rules (c :: s) 0 None) as [[k m]|] eqn:E; [|reflexivity]. apply scan_pos in E. cbn in Hs.
  assert (Hl : (List.length (skipn m (c :: s)) <= List.length s)%nat) by (rewrite skipn_length; cbn [List.length]; lia).
  rewrite (IH n) by lia. rewrite (IH (List.length s)) by lia. reflexivity.
Qed.
Lemma lex_step w rest k : w <> [] -> scan rules (w ++ rest) 0 None = Some (k, List.length w) ->
  lex (w ++ rest) = match lex rest with None => None | Some ts => Some (match token_of k w with Some t => t :: ts | None => ts end) end.
Proof.
  intros Hw H. unfold lex at 1. destruct (w ++ rest) as [|c s] eqn:E; [destruct w; [congruence|discriminate]|].
  cbn [tokens List.length]. rewrite H. rewrite <- E. rewrite firstn_app, Nat.sub_diag, firstn_all, skipn_app, Nat.sub_diag, skipn_all. cbn [skipn firstn app].
  rewrite app_nil_r. rewrite tokens_fuel; [reflexivity|].
  apply (f_equal (@List.length _)) in E. rewrite app_length in E. cbn in E. destruct w; [congruence|]. cbn in E. lia.
Qed.

Lemma first_newline a : forall a' x x', ~ In 10 a -> ~ In 10 a' -> a ++ 10 :: x = a' ++ 10 :: x' -> x = x'.
Proof.
  induction a as [|c a IH]; intros a' x x' Ha Ha' E.
  - destruct a' as [|c' a']; [injection E; auto|]. injection E as <- _. exfalso. apply Ha'. left. reflexivity.
  - destruct a' as [|c' a']; [injection E as -> _; exfalso; apply Ha; left; reflexivity|]. injection E as -> E.
    apply (IH a' x x'); [intros H; apply Ha; right; exact H|intros H; apply Ha'; right; exact H|exact E].
Qed.
Lemma line_free p u : den r_line p -> den r_line (p ++ u) -> u = [].
Proof.
  rewrite !den_line. intros (s & b & Hs & Hb & ->) (s' & b' & Hs' & Hb' & E).
  assert (N : forall s b, s = text "//" \/ s = text "#" -> ~ In 10 b -> ~ In 10 (s ++ b)).
  { clear. intros s b Hs Hb H. apply in_app_or in H as [H|H]; [|contradiction]. destruct Hs as [-> | ->]; cbn in H; lia. }
  rewrite <- !app_assoc in E. cbn in E. rewrite !(app_assoc s), !(app_assoc s') in E.
  exact (first_newline _ _ _ _ (N _ _ Hs Hb) (N _ _ Hs' Hb') E).
Qed.
Lemma block_free p u : den r_block p -> den r_block (p ++ u) -> u = [].
Proof.
  rewrite !den_block. intros (b & Hb & ->) (b' & Hb' & E). rewrite <- !app_assoc in E. apply app_inv_head in E.
  apply (Hb' b u). symmetry. exact E.
Qed.
Lemma ws_chars w : den r_ws w -> Forall (fun c => In c [32; 9; 13; 10]) w.
Proof.
  rewrite den_ws. intros (ps & _ & -> & H). induction H as [|p ps Hp _ IH]; [constructor|]. cbn [List.concat]. apply Forall_app. split; [|exact IH].
  destruct Hp as [->|[->|[->| ->]]]; repeat (constructor; [cbn; lia|]); constructor.
Qed.
Lemma skip_scan k w rest : w <> [] -> pick rules w = Some k ->
  (k = KWs /\ den r_ws w /\ match rest with c :: _ => ~ In c [32; 9; 13; 10] | [] => True end \/ k = KLine /\ den r_line w \/ k = KBlock /\ den r_block w) ->
  lex (w ++ rest) = lex rest.
Proof.
  intros Hw Hk Hc.
  assert (Hh : exists c v, w = c :: v /\ gap_start c) by (apply skip_head; tauto).
  assert (Ht : token_of k w = None) by (destruct Hc as [(-> & _)|[(-> & _)|(-> & _)]]; reflexivity).
  rewrite (lex_step w rest k Hw); [rewrite Ht; destruct (lex rest); reflexivity|].
  apply scan_is; [exact Hw|exact pick_empty|exact Hk|]. intros u v Hu ->.
  destruct (pick rules (w ++ u)) as [k'|] eqn:E; [|reflexivity]. exfalso. apply pick_inv in E. destruct Hh as (c & x & -> & Hg).
  destruct E as [(t & Hwf & Hsp & _)|[_ E]].
  - destruct (token_head t Hwf) as (c' & v' & E' & Hn & _). rewrite Hsp in E'. injection E' as <- _. contradiction.
  - destruct u as [|y u]; [congruence|]. destruct Hc as [(_ & Hd & Hr)|[(_ & Hd)|(_ & Hd)]].
    + cbn in Hr. apply ws_head in Hd as (c' & v' & E' & Hc'). injection E' as <- <-. destruct E as [(_ & E)|[(_ & E)|(_ & E)]].
      * apply ws_chars in E. apply Forall_app in E as [_ E]. inversion E; subst. cbn in *. lia.
      * apply line_head in E as (c' & v' & E' & Hc2). injection E' as <- _. cbn in Hc'. destruct Hc2 as [Hc2|[Hc2 _]]; lia.
      * apply block_head in E as (v' & E'). injection E' as -> _. cbn in Hc'. lia.
    + destruct E as [(_ & E)|[(_ & E)|(_ & E)]].
      * apply line_head in Hd as (c' & v' & E' & Hc2). injection E' as <- _. apply ws_head in E as (c' & v'' & E' & Hc'). injection E' as <- _.
        cbn in Hc'. destruct Hc2 as [Hc2|[Hc2 _]]; lia.
      * exact (Hu (line_free _ _ Hd E)).
      * apply line_head in Hd as (c' & v' & E' & Hc2). injection E' as <- <-. apply block_head in E as (v'' & E').
        destruct Hc2 as [->|[-> (v3 & ->)]]; discriminate.
    + destruct E as [(_ & E)|[(_ & E)|(_ & E)]].
      * apply block_head in Hd as (v' & E'). injection E' as -> _. apply ws_head in E as (c' & v'' & E' & Hc'). injection E' as <- _. cbn in Hc'. lia.
      * apply block_head in Hd as (v' & E'). injection E' as -> ->. apply line_head in E as (c' & v'' & E' & Hc2). injection E' as <- <-.
        destruct Hc2 as [Hc2|[_ (v3 & E3)]]; discriminate.
      * exact (Hu (block_free _ _ Hd E)).
Qed.
Lemma piece_cases p : piece p -> space p \/ den r_line p \/ den r_block p.
Proof.
  intros []; unfold space; auto 6.
  - right. left. apply den_line. exists s, b. auto.
  - right. right. apply den_block. exists b. auto.
Qed.
Lemma split_spaces ps : Forall piece ps -> exists a b, ps = a ++ b /\ Forall space a /\ Forall piece b /\
  (b = [] \/ exists p b', b = p :: b' /\ (den r_line p \/ den r_block p)).
Proof.
  induction 1 as [|p ps Hp Hps (a & b & -> & Ha & Hb & Hc)].
  - exists [], []. auto.
  - destruct (piece_cases p Hp) as [Hs|Hs].
    + exists (p :: a), b. auto.
    + exists [], (p :: a ++ b). split; [reflexivity|]. split; [constructor|]. split; [constructor; assumption|]. right. exists p, (a ++ b). auto.
Qed.
Lemma gap_skip g rest : gap g -> match rest with c :: _ => ~ gap_start c | [] => True end -> lex (g ++ rest) = lex rest.
Proof.
  intros (ps & -> & Hps) Hr. remember (List.length ps) as n eqn:Hn. revert ps Hn Hps. induction n as [n IH] using lt_wf_ind. intros ps -> Hps.
  destruct (split_spaces ps Hps) as (a & b & -> & Ha & Hb & Hc). rewrite concat_app, <- app_assoc.
  assert (IHb : forall b, (List.length b < List.length (a ++ b))%nat -> Forall piece b -> True) by auto. clear IHb.
  destruct a as [|p a].
  - destruct Hc as [->|(p & b' & -> & Hp)]; [reflexivity|]. cbn [List.concat app]. rewrite <- app_assoc.
    assert (Hne : p <> []).
    { destruct (skip_head p) as (c & v & -> & _); [tauto|discriminate]. }
    inversion Hb; subst. transitivity (lex (List.concat b' ++ rest)).
    + destruct Hp as [Hp|Hp].
      * apply (skip_scan KLine); auto using pick_line.
      * apply (skip_scan KBlock); auto using pick_block.
    + apply (IH (List.length b')); [cbn; lia|reflexivity|assumption].
  - assert (Hw : den r_ws (List.concat (p :: a))) by (apply den_ws; exists (p :: a); split; [discriminate|auto]).
    transitivity (lex (List.concat b ++ rest)).
    + apply (skip_scan KWs); [|apply pick_ws; exact Hw|].
      * destruct (ws_head _ Hw) as (c & v & -> & _). discriminate.
      * left. split; [reflexivity|]. split; [exact Hw|]. destruct Hc as [->|(q & b' & -> & Hq)].
        -- cbn. destruct rest as [|c rest]; [exact I|]. unfold gap_start in Hr. cbn in Hr |- *. clear - Hr. lia.
        -- destruct Hq as [Hq|Hq].
           ++ apply line_head in Hq as (c & v & -> & Hc). cbn. clear - Hc. destruct Hc as [Hc|[Hc _]]; lia.
           ++ apply block_head in Hq as (v & ->). clear. cbn. lia.
    + apply (IH (List.length b)); [rewrite app_length; cbn; lia|reflexivity|exact Hb].
Qed.
Lemma token_scan t rest : well_formed t -> longest t rest ->
  lex (spelling t ++ rest) = match lex rest with None => None | Some ts => Some (t :: ts) end.
Proof.
  intros Ht Hl. destruct (pick_token t Ht) as (k & Hk & Hto). rewrite (lex_step _ rest k (spelling_nonempty t Ht)); [rewrite Hto; reflexivity|].
  apply scan_is; [exact (spelling_nonempty t Ht)|exact pick_empty|exact Hk|]. intros u v Hu ->.
  destruct (pick rules (spelling t ++ u)) as [k'|] eqn:E; [|reflexivity]. exfalso. apply pick_inv in E as [(t' & Ht' & Hs & _)|[_ E]].
  - specialize (Hl t' v Ht'). rewrite Hs, <- app_assoc in Hl. specialize (Hl eq_refl). rewrite app_length in Hl. destruct u; [congruence|cbn in Hl; lia].
  - destruct (token_head t Ht) as (c & x & Ec & Hn & _). destruct (skip_head (spelling t ++ u)) as (c' & x' & E' & Hg); [tauto|].
    rewrite Ec in E'. injection E' as <- _. contradiction.
Qed.
Lemma munch_lex s ts : munch s ts -> lex s = Some ts.
Proof.
  induction 1 as [g Hg|g t rest ts Hg Ht Hl H IH].
  - rewrite <- (app_nil_r g). rewrite (gap_skip g [] Hg I). reflexivity.
  - rewrite gap_skip; [rewrite (token_scan t rest Ht Hl), IH; reflexivity|exact Hg|].
    destruct (token_head t Ht) as (c & v & -> & Hn & _). exact Hn.
Qed.
Lemma gap_app g g' : gap g -> gap g' -> gap (g ++ g').
Proof. intros (ps & -> & H) (ps' & -> & H'). exists (ps ++ ps'). rewrite concat_app, Forall_app. auto. Qed.
Lemma gap_nil : gap [].
Proof. exists []. auto. Qed.
Lemma munch_gap g s ts : gap g -> munch s ts -> munch (g ++ s) ts.
Proof.
  intros Hg H. destruct H as [g' Hg'|g' t rest ts Hg' Ht Hl H].
  - constructor. apply gap_app; assumption.
  - rewrite app_assoc. constructor; auto using gap_app.
Qed.
Lemma skip_gap w : den r_ws w \/ den r_line w \/ den r_block w -> gap w.
Proof.
  intros [H|[H|H]].
  - apply den_ws in H as (ps & _ & -> & H). exists ps. split; [reflexivity|]. eapply Forall_impl; [|exact H]. intros p [->|[->|[->| ->]]]; constructor.
  - apply den_line in H as (s & b & Hs & Hb & ->). exists [s ++ b ++ [10]]. cbn. rewrite app_nil_r. split; [reflexivity|]. constructor; [|constructor].
    constructor; assumption.
  - apply den_block in H as (b & Hb & ->). exists [text "/*" ++ b ++ text "*/"]. cbn [List.concat]. rewrite app_nil_r. split; [reflexivity|].
    constructor; [|constructor]. constructor. exact Hb.
Qed.
Lemma lex_scan s ts : s <> [] -> lex s = Some ts -> exists k m, scan rules s 0 None = Some (k, m).
Proof.
  intros Hs H. destruct (scan rules s 0 None) as [[k m]|] eqn:E; [eauto|]. exfalso. revert H. unfold lex.
  destruct s as [|c s]; [congruence|]. cbn [tokens List.length]. rewrite E. discriminate.
Qed.
Lemma lex_munch s : forall ts, lex s = Some ts -> munch s ts.
Proof.
  remember (List.length s) as n eqn:Hn. revert s Hn. induction n as [n IH] using lt_wf_ind. intros s -> ts H.
  destruct s as [|c s].
  - injection H as <-. constructor. exact gap_nil.
  - assert (Hne : c :: s <> []) by discriminate. pose proof (lex_scan _ _ Hne H) as E. remember (c :: s) as s0 eqn:E0. clear E0.
    destruct E as (k & m & E). pose proof E as E'. apply scan_inv in E; [|exact pick_empty]. destruct E as (w & rest & Es & <- & Hw & Hk & Hno).
    rewrite Es in H, E'. rewrite (lex_step w rest k Hw E') in H. destruct (lex rest) as [ts'|] eqn:Er; [|discriminate].
    assert (Hm : munch rest ts').
    { apply (IH (List.length rest)); [|reflexivity|exact Er]. rewrite Es, app_length. destruct w; [congruence|cbn; lia]. }
    rewrite Es. apply pick_inv in Hk as [(t & Ht & Hs & Hto)|[Hto Hk]]; rewrite Hto in H; injection H as <-.
    + rewrite <- Hs. apply (M_token []); auto using gap_nil. intros t' r Ht' E.
      destruct (le_lt_dec (List.length (spelling t')) (List.length (spelling t))) as [Hle|Hlt]; [exact Hle|]. exfalso.
      assert (Hsplit : exists u, spelling t' = spelling t ++ u /\ rest = u ++ r).
      { exists (skipn (List.length (spelling t)) (spelling t')). apply (f_equal (fun l => (firstn (List.length (spelling t)) l, skipn (List.length (spelling t)) l))) in E.
        rewrite !firstn_app, !skipn_app, Nat.sub_diag, firstn_all, skipn_all in E. cbn [firstn skipn app] in E. rewrite app_nil_r in E.
        replace (List.length (spelling t) - List.length (spelling t'))%nat with O in E by lia. cbn [firstn skipn] in E. rewrite app_nil_r in E.
        injection E as E1 E2. split; [|symmetry; exact E2]. rewrite <- E1 at 1. symmetry. apply firstn_skipn. }
      destruct Hsplit as (u & Hu & Hr). destruct (pick_token t' Ht') as (k' & Hk' & _). rewrite Hu, Hs in Hk'.
      rewrite (Hno u r) in Hk'; [discriminate| |exact Hr]. intros ->. rewrite app_nil_r in Hu. rewrite Hu in Hlt. lia.
    + apply munch_gap; [|exact Hm]. apply skip_gap. tauto.
Qed.
Lemma lex_iff s ts : lex s = Some ts <-> munch s ts.
Proof. split; [apply lex_munch|apply munch_lex]. Qed.

(** * Layouts *)
Lemma quotable_free q v : q <> 92 -> quotable q v -> forall v' x x', quotable q v' -> v ++ q :: x = v' ++ q :: x' -> x = x'.
Proof.
  intros Hq. induction 1 as [|c w H1 H2 _ IH|c w Hc _ IH]; intros v' x x' Hv' E.
  - destruct Hv' as [|c' w' H1' H2' Hw'|c' w' Hc' Hw'].
    + injection E; auto.
    + injection E as E _. congruence.
    + injection E as E _. congruence.
  - destruct Hv' as [|c' w' H1' H2' Hw'|c' w' Hc' Hw'].
    + injection E as E _. congruence.
    + injection E as _ E. exact (IH _ _ _ Hw' E).
    + injection E as E _. congruence.
  - destruct Hv' as [|c' w' H1' H2' Hw'|c' w' Hc' Hw'].
    + injection E as E _. congruence.
    + injection E as E _. congruence.
    + injection E as _ E. exact (IH _ _ _ Hw' E).
Qed.
Lemma literal_free w u : literal_text w -> literal_text (w ++ u) -> u = [].
Proof.
  intros (q & v & Hq & Hv & ->) (q' & v' & Hq' & Hv' & E). cbn in E. injection E as -> E. rewrite <- app_assoc in E.
  exact (quotable_free q' v ltac:(lia) Hv v' u [] Hv' E).
Qed.
Lemma apart_longest t rest : well_formed t -> apart t rest -> longest t rest.
Proof.
  intros Ht Ha t' r Ht' E.
  destruct (le_lt_dec (List.length (spelling t')) (List.length (spelling t))) as [Hle|Hlt]; [exact Hle|]. exfalso.
  assert (Hsplit : exists u, spelling t' = spelling t ++ u /\ rest = u ++ r).
  { exists (skipn (List.length (spelling t)) (spelling t')). apply (f_equal (fun l => (firstn (List.length (spelling t)) l, skipn (List.length (spelling t)) l))) in E.
    rewrite !firstn_app, !skipn_app, Nat.sub_diag, firstn_all, skipn_all in E. cbn [firstn skipn app] in E. rewrite app_nil_r in E.
    replace (List.length (spelling t) - List.length (spelling t'))%nat with O in E by lia. cbn [firstn skipn] in E. rewrite app_nil_r in E.
    injection E as E1 E2. split; [|symmetry; exact E2]. rewrite <- E1 at 1. symmetry. apply firstn_skipn. }
  destruct Hsplit as (u & Hu & ->). clear E.
  destruct (token_head t Ht) as (c & v & Ec & _ & Hd & Hw). destruct (token_head t' Ht') as (c' & v' & Ec' & _ & Hd' & Hw').
  assert (Ecc : c' = c /\ v' = v ++ u) by (rewrite Ec, Ec' in Hu; injection Hu; auto). destruct Ecc as [-> ->].
  assert (Hune : u <> []) by (intros ->; rewrite app_nil_r in Hu; rewrite Hu in Hlt; lia).
  assert (D : forall x, delimited x \/ ~ delimited x).
  { intros []; cbn; auto. destruct (in_dec string_dec s punctuation); auto. }
  destruct (D t) as [Dt|Dt].
  - destruct (D t') as [Dt'|Dt'].
    + assert (Hone : forall x y, well_formed x -> delimited x -> spelling x = c :: y -> c <> 34 /\ c <> 39 -> y = []).
      { intros x y Hx Dx Ex Hc. destruct x; cbn [delimited spelling well_formed] in *; try contradiction.
        - apply punct_head in Dx as (c1 & E1 & _). rewrite Ex in E1. injection E1; auto.
        - apply literal_head in Hx as (c1 & y1 & -> & H1). injection Ex as -> ->. lia.
        - cbn in Ex. injection Ex; auto. }
      assert (Hq : forall x y, well_formed x -> delimited x -> spelling x = c :: y -> c = 34 \/ c = 39 -> literal_text (spelling x)).
      { intros x y Hx Dx Ex Hc. destruct x; cbn [delimited spelling well_formed] in *; try contradiction.
        - apply punct_head in Dx as (c1 & E1 & H1). rewrite Ex in E1. injection E1 as <- _. cbn in H1. lia.
        - exact Hx.
        - cbn in Ex. injection Ex as <- _. lia. }
      assert (Hcase : c <> 34 /\ c <> 39 \/ (c = 34 \/ c = 39)) by lia. destruct Hcase as [Hc|Hc].
      * specialize (Hone t' (v ++ u) Ht' Dt' Ec' Hc). destruct v, u; try discriminate. congruence.
      * pose proof (Hq t v Ht Dt Ec Hc) as L1. pose proof (Hq t' _ Ht' Dt' Ec' Hc) as L2. rewrite Hu in L2. exact (Hune (literal_free _ _ L1 L2)).
    + specialize (Hw' Dt'). inversion Hw'; subst. exact (Hd Dt H1).
  - destruct Ha as [Ha|Ha]; [contradiction|]. destruct (D t') as [Dt'|Dt'].
    + specialize (Hw Dt). inversion Hw; subst. exact (Hd' Dt' H1).
    + specialize (Hw' Dt'). destruct u as [|y u]; [congruence|]. cbn in Ha. apply Ha. rewrite app_comm_cons in Hw'. apply Forall_app in Hw' as [_ Hw'].
      inversion Hw'; assumption.
Qed.
Lemma layout_munch s ts : layout s ts -> munch s ts.
Proof. induction 1; constructor; auto using apart_longest. Qed.
Lemma layout_lex s ts : layout s ts -> lex s = Some ts.
Proof. intros H. apply munch_lex, layout_munch. exact H. Qed.
(** Tokens come out of the lexer well-formed. *)
Lemma munch_well_formed s ts : munch s ts -> Forall well_formed ts.
Proof. induction 1; constructor; assumption. Qed.
(** One layout of every sequence of tokens: a space after each. *)
Definition spaced (ts : list token) : list Z := List.concat (map (fun t => spelling t ++ [32]) ts).
Lemma spaced_layout ts : Forall well_formed ts -> layout (spaced ts) ts.
Proof.
  assert (G : gap [32]) by (exists [[32]]; split; [reflexivity|]; repeat constructor).
  assert (W : ~ word_char 32) by (unfold word_char, letter_char, digit_char; cbn; lia).
  assert (H : forall g ts, gap g -> (g = [] \/ g = [32]) -> Forall well_formed ts -> layout (g ++ spaced ts) ts).
  { intros g ts' Hg Hg' H. revert g Hg Hg'. induction H as [|t ts' Ht _ IH]; intros g Hg Hg'.
    - cbn. rewrite app_nil_r. constructor. exact Hg.
    - change (spaced (t :: ts')) with ((spelling t ++ [32]) ++ spaced ts'). rewrite <- app_assoc. constructor; auto.
      right. exact W. }
  intros Hts. apply (H []); auto using gap_nil.
Qed.
