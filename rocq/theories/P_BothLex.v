(** The tokens that thrift! and the generator see in the same text. *)
From Verif Require Import Base ErrorName Types Generator ThriftLex ThriftParse SpecThrift P_ThriftLex Macro RustLex SpecRust SpecBoth.
Open Scope Z_scope.
Open Scope list_scope.

Definition plain (t : rtok) : Prop :=
  match t with
  | RPunct p => In p [":"; ";"; "<"; ">"; "="; "-"]%string
  | ROpen d | RClose d => d = Brace
  | _ => True
  end.
Definition numeric (t : token) : bool := match t with TInteger _ | THex _ | TDouble _ => true | _ => false end.
Definition negate (t : token) : token :=
  match t with TInteger w => TInteger (45 :: w) | THex w => THex (45 :: w) | TDouble w => TDouble (45 :: w) | t => t end.
Definition in_words (n : string) : bool := existsb (String.eqb n) words.
Definition word_token (n : string) : token := if in_words n then T n else TId n.

Inductive agree : list rtok -> list token -> Prop :=
| A_nil : agree [] []
| A_doc i w rs ts : agree rs ts -> agree (RDoc i w :: rs) ts
| A_name n rs ts : agree rs ts -> agree (RId n :: rs) (word_token n :: ts)
| A_punct p rs ts : In p [":"; ";"; "<"; ">"; "="]%string -> agree rs ts -> agree (RPunct p :: rs) (T p :: ts)
| A_open rs ts : agree rs ts -> agree (ROpen Brace :: rs) (T "{" :: ts)
| A_close rs ts : agree rs ts -> agree (RClose Brace :: rs) (T "}" :: ts)
| A_string w rs ts : agree rs ts -> agree (RLit (34 :: w) :: rs) (TLiteral (34 :: w) :: ts)
| A_number t rs ts : numeric t = true -> well_formed t -> (exists c v, spelling t = c :: v /\ digit_char c) -> agree rs ts -> agree (RLit (spelling t) :: rs) (t :: ts)
| A_odd t n rs ts : numeric t = true -> agree rs ts -> agree (RLit (spelling t ++ text n) :: rs) (t :: TId n :: ts)
| A_minus t rs ts : numeric t = true -> agree rs (t :: ts) -> agree (RPunct "-" :: rs) (negate t :: ts).

(** * One step of [munch] *)
Lemma munch_inv s ts : munch s ts ->
  (s = [] /\ ts = []) \/ (exists p s', s = p ++ s' /\ piece p /\ munch s' ts) \/
  (exists t rest ts', ts = t :: ts' /\ s = spelling t ++ rest /\ well_formed t /\ longest t rest /\ munch rest ts').
Proof.
  intros H. destruct H as [g [ps [-> Hp]]|g t rest ts [ps [-> Hp]] Hw Hl Hm]; destruct ps as [|p ps].
  - left. split; reflexivity.
  - right. left. exists p, (List.concat ps). inversion Hp; subst. repeat split; auto. constructor. exists ps. split; auto.
  - right. right. exists t, rest, ts. repeat split; auto.
  - right. left. exists p, (List.concat ps ++ spelling t ++ rest). inversion Hp; subst. cbn [List.concat]. rewrite <- app_assoc. repeat split; auto.
    constructor; auto. exists ps. split; auto.
Qed.
Lemma munch_piece p s ts : piece p -> munch s ts -> munch (p ++ s) ts.
Proof.
  intros Hp H. destruct H as [g [ps [-> Hps]]|g t rest ts [ps [-> Hps]] Hw Hl Hm].
  - constructor. exists (p :: ps). split; [reflexivity|constructor; auto].
  - rewrite app_assoc. constructor; auto. exists (p :: ps). split; [reflexivity|constructor; auto].
Qed.
Lemma piece_head p : piece p -> exists c r, p = c :: r /\ In c [32; 9; 10; 13; 47; 35].
Proof.
  intros H. destruct H as [| | | |s b [-> | ->] _|b _]; do 2 eexists; (split; [reflexivity|cbn; tauto]).
Qed.

(** * First characters *)
Lemma head_word n : In n words -> exists c v, text n = c :: v /\ 97 <= c <= 122 /\ c <> 120.
Proof.
  intros H. assert (G : forallb (fun n => match text n with c :: _ => (97 <=? c) && (c <=? 122) && negb (c =? 120) | [] => false end) words = true) by (vm_compute; reflexivity).
  rewrite forallb_forall in G. specialize (G n H). destruct (text n) as [|c v]; [discriminate|]. exists c, v. split; [reflexivity|]. lia.
Qed.
Lemma head_punct n : In n SpecThrift.punctuation -> exists c, text n = [c] /\ In c [42; 61; 123; 125; 58; 40; 41; 60; 62; 91; 93; 59].
Proof.
  intros H. repeat (destruct H as [<-|H]; [eexists; split; [reflexivity|cbn; tauto]|]). destruct H.
Qed.
Inductive head_kind : token -> Z -> Prop :=
| H_punct n c : text n = [c] -> In c [42; 61; 123; 125; 58; 40; 41; 60; 62; 91; 93; 59] -> head_kind (T n) c
| H_word n c : In n words -> 97 <= c <= 122 -> c <> 120 -> head_kind (T n) c
| H_id n c : letter_char c \/ c = 95 -> head_kind (TId n) c
| H_quote w c : c = 34 \/ c = 39 -> head_kind (TLiteral w) c
| H_number t c : numeric t = true -> digit_char c \/ c = 43 \/ c = 45 \/ c = 46 -> head_kind t c
| H_comma c : c = 44 -> head_kind TComma c.
Lemma digits_head w : digits_text w -> exists c v, w = c :: v /\ digit_char c.
Proof. intros [H G]. destruct w as [|c v]; [congruence|]. inversion G; subst. eauto. Qed.
Lemma signed_head s w : sign_text s -> (exists c v, w = c :: v /\ (digit_char c \/ c = 46)) -> exists c v, s ++ w = c :: v /\ (digit_char c \/ c = 43 \/ c = 45 \/ c = 46).
Proof.
  intros [-> | [-> | ->]] (c & v & -> & H); do 2 eexists; (split; [reflexivity|]); tauto.
Qed.
Lemma token_head t : well_formed t -> exists c v, spelling t = c :: v /\ head_kind t c.
Proof.
  destruct t as [s|w|w|w|w|n|]; cbn [well_formed spelling].
  - intros [H|H].
    + destruct (head_word _ H) as (c & v & E & A & B). exists c, v. split; [exact E|]. apply H_word; auto.
    + destruct (head_punct _ H) as (c & E & A). exists c, []. split; [exact E|]. apply H_punct; auto.
  - intros (s & ds & -> & Hs & Hd). destruct (digits_head _ Hd) as (c & v & E & A).
    destruct (signed_head s ds Hs) as (c' & v' & E' & A'); [exists c, v; auto|]. exists c', v'. split; [exact E'|]. apply H_number; auto.
  - intros (s & hs & -> & [-> | ->] & _); do 2 eexists; (split; [reflexivity|]); apply H_number; auto. left. split; vm_compute; discriminate.
  - intros [(s & m & e & -> & Hs & Hm & _) _]. destruct (signed_head s (m ++ e) Hs) as (c' & v' & E' & A').
    { destruct Hm as [Hm|(a & b & -> & [-> | Ha] & Hb)].
      - destruct (digits_head _ Hm) as (c & v & -> & A). do 2 eexists. split; [reflexivity|auto].
      - do 2 eexists. split; [reflexivity|auto].
      - destruct (digits_head _ Ha) as (c & v & -> & A). do 2 eexists. split; [reflexivity|auto]. }
    exists c', v'. split; [exact E'|]. apply H_number; auto.
  - intros (q & v & Hq & _ & ->). do 2 eexists. split; [reflexivity|]. apply H_quote; auto.
  - intros [(c & v & E & Hc & _) _]. exists c, v. split; [exact E|]. apply H_id; auto.
  - intros _. do 2 eexists. split; [reflexivity|]. apply H_comma. reflexivity.
Qed.

(** * Numbers *)
Lemma no_point s rs : rust_text s rs -> Forall plain rs -> ends (fun c => c = 46) s.
Proof.
  intros H Hp. destruct s as [|c s']; cbn [ends]; [exact I|]. intros ->.
  remember (46 :: s') as x eqn:E.
  destruct H as [|c s ts B R|w s t ts _ _ _ R|w s t ts _ _ R|c w s ts L F En R|w s ts N R|w s ts Q En R|n t s ts B R|n s ts B _ _ _ R]; try discriminate E.
  - injection E as -> _. unfold blank in B. lia.
  - injection E as -> _. unfold letter in L. lia.
  - assert (exists c v, w = c :: v /\ decimal c) as (c & v & -> & D).
    { destruct N as [w s [(c & v & -> & D & _)|(v & -> & _)] _ _|w s (c & v & -> & D & _) _|u w s (c & v & -> & D & _) _ _];
        do 2 eexists; (split; [reflexivity|]); try exact D. split; vm_compute; discriminate. }
    injection E as -> _. unfold decimal in D. lia.
  - cbn in B. repeat (destruct B as [B|B]; [injection B as <- <-; discriminate E|]). destruct B.
  - inversion Hp as [|? ? P _]; subst. cbn in P. cbn in B.
    repeat (destruct P as [<-|P]; [discriminate E|]). destruct P.
Qed.
Definition stop (s : list Z) : Prop := ends (fun c => word c \/ c = 46) s.
Lemma number_stop w s rs : number_before w s -> rust_text s rs -> Forall plain rs -> stop s.
Proof.
  intros N R P. pose proof (no_point _ _ R P) as H.
  assert (G : ends word s) by (destruct N as [? ? _ ? _|? ? _ G|? ? ? _ _ ?]; auto; destruct s; cbn in *; tauto).
  destruct s; cbn in *; tauto.
Qed.
Lemma number_head w s : number_before w s -> exists c v, w = c :: v /\ digit_char c.
Proof.
  intros N. destruct N as [w s [(c & v & -> & D & _)|(v & -> & _)] _ _|w s (c & v & -> & D & _) _|u w s (c & v & -> & D & _) _ _];
    do 2 eexists; (split; [reflexivity|]); try exact D. split; vm_compute; discriminate.
Qed.
Lemma split_at (P : Z -> Prop) c v m : Forall P m -> ~ P c -> forall w x, w ++ c :: v = m ++ x -> exists w', w = m ++ w' /\ x = w' ++ c :: v.
Proof.
  intros F N. induction F as [|a m Ha F IH]; intros w x E.
  - exists w. split; auto.
  - destruct w as [|b w]; cbn in E; injection E as -> E; [contradiction|].
    destruct (IH _ _ E) as (w' & -> & ->). exists w'. split; reflexivity.
Qed.
Definition low_dash (c : Z) : Prop := digit_char c \/ c = 95.
Lemma decimals_chars w : decimals w -> Forall low_dash w.
Proof. intros (c & v & -> & D & F). constructor; [left; exact D|]. exact F. Qed.
(** What a number of Rust consists of *)
Lemma number_chars w s : number_before w s -> Forall (fun c => low_dash c \/ c = 46) w \/ hexadecimals w.
Proof.
  intros N. destruct N as [w s [D|D] _ _|w s D _|u w s D D' _]; auto; left.
  - eapply Forall_impl; [|apply decimals_chars; exact D]. cbn. tauto.
  - apply Forall_app. split; [|repeat constructor; right; reflexivity]. eapply Forall_impl; [|apply decimals_chars; exact D]. cbn. tauto.
  - apply Forall_app. split; [eapply Forall_impl; [|apply decimals_chars; exact D]; cbn; tauto|].
    apply Forall_app. split; [repeat constructor; right; reflexivity|]. eapply Forall_impl; [|apply decimals_chars; exact D']. cbn. tauto.
Qed.
Inductive unsigned_number : token -> Prop :=
| Un_integer w : digits_text w -> unsigned_number (TInteger w)
| Un_hex hs : hs <> [] -> Forall hex_char hs -> unsigned_number (THex (48 :: 120 :: hs))
| Un_double m e : mantissa_text m -> exponent_text e -> ~ integer_text (m ++ e) -> unsigned_number (TDouble (m ++ e)).
Lemma unsigned t c v : well_formed t -> spelling t = c :: v -> digit_char c -> numeric t = true /\ unsigned_number t.
Proof.
  intros W E D. unfold digit_char in D.
  destruct (token_head _ W) as (c' & v' & E' & K). rewrite E in E'. injection E' as <- <-.
  assert (N : numeric t = true).
  { destruct K as [n c _ I|n c _ A _|n c [A|A]|w c A|t c N _|c A]; auto; exfalso; unfold letter_char in *; cbn in *; lia. }
  split; [exact N|]. destruct t; try discriminate; cbn [spelling well_formed] in *; subst.
  - destruct W as (s & ds & E & S & W). destruct S as [-> | [-> | ->]]; [|injection E as -> _; lia..]. cbn in E. subst. constructor. exact W.
  - destruct W as (s & hs & E & [-> | ->] & A & B); [|injection E as -> _; lia]. cbn in E. rewrite E. constructor; auto.
  - destruct W as ((s & m & e & E & S & A & B) & N'). destruct S as [-> | [-> | ->]]; [|injection E as -> _; lia..]. cbn in E. rewrite E. constructor; auto. rewrite <- E. exact N'.
Qed.
Definition pointed (c : Z) : Prop := digit_char c \/ c = 46.
Lemma mantissa_chars m : mantissa_text m -> Forall pointed m /\ m <> [].
Proof.
  assert (D : forall w, digits_text w -> Forall pointed w) by (intros w [_ F]; eapply Forall_impl; [|exact F]; unfold pointed; tauto).
  intros [H|(a & b & -> & A & B)].
  - split; [auto|destruct H; auto].
  - split.
    + apply Forall_app. split; [destruct A as [-> |A]; auto|]. apply Forall_app. split; [|auto]. constructor; [right; reflexivity|constructor].
    + destruct a; discriminate.
Qed.
Lemma digit_word c : digit_char c -> word c.
Proof. intros H. right. exact H. Qed.
Lemma hex_word c : hex_char c -> word c.
Proof. unfold hex_char, word, letter, decimal, digit_char. lia. Qed.
(** The generator's token is no longer than Rust's. *)
Lemma number_short w s t rest : number_before w s -> stop s -> well_formed t -> spelling t ++ rest = w ++ s ->
  exists u, w = spelling t ++ u /\ rest = u ++ s.
Proof.
  intros N St W E. apply app_eq_app in E. destruct E as (x & [[E1 E2]|[E1 E2]]).
  2:{ exists x. split; auto. }
  destruct x as [|c x]. { exists []. rewrite app_nil_r in *. cbn in E2. split; auto. }
  exfalso. destruct (number_head _ _ N) as (d & v & Ew & D). subst w.
  destruct (unsigned t d (v ++ c :: x) W E1 D) as [_ U].
  rewrite E2 in St. cbn in St. apply Decidable.not_or in St. destruct St as [Nw Np].
  destruct U as [w' U|hs _ U|m e M X _]; cbn [spelling] in E1.
  - destruct U as [_ U]. rewrite E1 in U. rewrite Forall_forall in U. apply Nw, digit_word, U. apply in_or_app. right. left. reflexivity.
  - assert (G : Forall word (48 :: 120 :: hs)).
    { constructor; [right; split; vm_compute; discriminate|]. constructor; [unfold word, letter; lia|]. eapply Forall_impl; [|exact U]. intros a. apply hex_word. }
    rewrite E1 in G. rewrite Forall_forall in G. apply Nw, G. apply in_or_app. right. left. reflexivity.
  - destruct (mantissa_chars _ M) as [F Nm].
    symmetry in E1. destruct (split_at pointed c x m F) with (w := d :: v) (x := e) as (w' & Ew & Ee); [|exact E1|].
    { intros [H|H]; [apply Nw, digit_word; exact H|contradiction]. }
    destruct X as [-> |(e0 & sg & ds & -> & He & Hs & Hd)]; [destruct w'; discriminate|].
    assert (exists z, e0 = [z] /\ (z = 101 \/ z = 69)) as (z & -> & Hz) by (destruct He as [-> | ->]; eexists; (split; [reflexivity|]); cbn; auto).
    destruct w' as [|z' w'].
    { cbn in Ee. injection Ee as Ez _. apply Nw. left. unfold letter. lia. }
    injection Ee as <- _. clear -N Ew Hz F Nm.
    destruct (number_chars _ _ N) as [G|(h & Eh & _)].
    + rewrite Ew in G. rewrite Forall_forall in G. specialize (G z). unfold low_dash, digit_char in G.
      assert (In z (m ++ z :: w')) by (apply in_or_app; right; left; reflexivity). apply G in H. lia.
    + rewrite Ew in Eh. destruct m as [|m0 m]; [congruence|]. cbn in Eh. injection Eh as _ Eh.
      destruct m as [|m1 m]; cbn in Eh; injection Eh as E _; [lia|]. inversion F as [|? ? _ F']; subst. inversion F' as [|? ? P _]; subst. unfold pointed, digit_char in P. lia.
Qed.
(** A digit belongs to the number before it. *)
Lemma extend_digit t c : unsigned_number t -> digit_char c -> exists t', well_formed t' /\ spelling t' = spelling t ++ [c].
Proof.
  intros U D. destruct U as [w [A B]|hs A B|m e M X N].
  - exists (TInteger (w ++ [c])). split; [|reflexivity]. exists [], (w ++ [c]). split; [reflexivity|]. split; [left; reflexivity|].
    split; [destruct w; discriminate|]. apply Forall_app. auto.
  - exists (THex ((48 :: 120 :: hs) ++ [c])). split; [|reflexivity]. exists [], (hs ++ [c]). split; [reflexivity|]. split; [auto|].
    split; [destruct hs; discriminate|]. apply Forall_app. split; auto. constructor; auto. left. exact D.
  - exists (TDouble ((m ++ e) ++ [c])). split; [|reflexivity].
    destruct (mantissa_chars _ M) as [F Nm]. split.
    + assert (S : forall w, digits_text w -> digits_text (w ++ [c])) by (intros w [A B]; split; [destruct w; discriminate|apply Forall_app; auto]).
      destruct X as [-> |(e0 & sg & ds & -> & He & Hs & Hd)].
      * exists [], (m ++ [c]), []. rewrite !app_nil_r. split; [reflexivity|]. split; [left; reflexivity|]. split; [|left; reflexivity].
        destruct M as [M|(a & b & -> & A & B)]; [left; auto|]. right. exists a, (b ++ [c]). rewrite <- !app_assoc. auto.
      * exists [], m, (e0 ++ sg ++ ds ++ [c]). rewrite <- !app_assoc. split; [reflexivity|]. split; [left; reflexivity|]. split; [exact M|].
        right. exists e0, sg, (ds ++ [c]). auto.
    + intros (s & ds & E & Hs & [Nd Fd]). apply N.
      destruct (exists_last Nd) as (ds' & z & ->). rewrite app_assoc in E. apply app_inj_tail in E. destruct E as [E ->].
      exists s, ds'. split; [exact E|]. split; [exact Hs|]. apply Forall_app in Fd. split; [|tauto]. intros ->. rewrite app_nil_r in E.
      destruct m as [|m0 m]; [congruence|]. assert (P : pointed m0) by (inversion F; auto). destruct Hs as [-> | [-> | ->]]; cbn in E; [discriminate|injection E as -> E..].
      all: unfold pointed, digit_char in P; lia.
Qed.
Lemma longest_not t t' c rest : longest t (c :: rest) -> well_formed t' -> spelling t' = spelling t ++ [c] -> False.
Proof.
  intros L W E. specialize (L t' rest W). rewrite E, <- app_assoc in L. specialize (L eq_refl). rewrite app_length in L. cbn in L. lia.
Qed.
Lemma text_inj m n : text m = text n -> m = n.
Proof. intros H. rewrite <- (string_of_text m), H. apply string_of_text. Qed.
Lemma in_words_iff n : in_words n = true <-> In n words.
Proof.
  unfold in_words. rewrite existsb_exists. split.
  - intros (x & H & E). apply String.eqb_eq in E. subst. exact H.
  - intros H. exists n. split; [exact H|apply String.eqb_refl].
Qed.
Definition dotted (c : Z) : Prop := word c \/ c = 46.
Lemma words_chars n : In n words -> Forall dotted (text n).
Proof.
  intros H. assert (G : forallb (fun n => forallb is_cont (text n)) words = true) by (vm_compute; reflexivity).
  rewrite forallb_forall in G. specialize (G n H). rewrite forallb_forall in G. apply Forall_forall. intros c Hc. specialize (G c Hc).
  left. unfold is_cont, is_start, is_digit in G. unfold word, letter, decimal. lia.
Qed.
Lemma identifier_chars u : identifier_text u -> Forall dotted u /\ Forall (fun c => 0 <= c < 256) u.
Proof.
  intros (c & v & -> & Hc & Hv). unfold letter_char, digit_char in *. split; (constructor; [unfold dotted, word, letter; lia|]).
  - eapply Forall_impl; [|exact Hv]. unfold dotted, word, letter, decimal. cbn. lia.
  - eapply Forall_impl; [|exact Hv]. cbn. lia.
Qed.
Lemma identifier_token u s t rest : identifier_text u -> stop s -> well_formed t -> longest t rest -> spelling t ++ rest = u ++ s ->
  t = word_token (string_of u) /\ rest = s.
Proof.
  intros I St W L E. destruct (identifier_chars _ I) as [Cu Bu].
  assert (Et : text (string_of u) = u) by exact (text_string_of u Bu).
  set (n := string_of u) in *.
  assert (W0 : well_formed (word_token n) /\ spelling (word_token n) = u).
  { unfold word_token. destruct (in_words n) eqn:K.
    - split; [left; apply in_words_iff; exact K|exact Et].
    - split; [|exact Et]. cbn. rewrite Et. split; [exact I|]. intros H. apply in_words_iff in H. congruence. }
  destruct W0 as [W0 E0]. pose proof (L _ s W0) as Le. rewrite E0 in Le. specialize (Le (eq_sym E)).
  destruct I as (c & v & Eu & Hc & Hv).
  assert (K : exists m, spelling t = text m /\ (t = T m /\ In m words \/ t = TId m /\ ~ In m words) /\ Forall dotted (text m)).
  { destruct (token_head _ W) as (c' & v' & Es & K).
    assert (c' = c) as -> by (rewrite Es, Eu in E; injection E as -> _; reflexivity).
    unfold letter_char in Hc. destruct K as [m c _ K|m c Hm _ _|m c _|w c K|t c N K|c K]; try (exfalso; unfold digit_char in *; cbn in *; lia).
    - exists m. split; [reflexivity|]. split; [auto|]. apply words_chars, Hm.
    - exists m. destruct W as [W1 W2]. split; [reflexivity|]. split; [auto|]. apply identifier_chars, W1. }
  destruct K as (m & Es & K & Cm). rewrite Es in *.
  apply app_eq_app in E. destruct E as (x & [[E1 E2]|[E1 E2]]).
  2:{ assert (x = []) as -> by (destruct x; [reflexivity|]; rewrite E1, app_length in Le; cbn in Le; lia).
      rewrite app_nil_r in E1. cbn in E2. split; [|auto]. assert (n = m) as <- by (apply text_inj; congruence).
      unfold word_token. destruct K as [[-> K]|[-> K]].
      - apply in_words_iff in K. rewrite K. reflexivity.
      - destruct (in_words n) eqn:J; [|reflexivity]. apply in_words_iff in J. contradiction. }
  destruct x as [|z x].
  { rewrite app_nil_r in E1. cbn in E2. split; [|auto]. assert (n = m) as <- by (apply text_inj; congruence).
    unfold word_token. destruct K as [[-> K]|[-> K]].
    - apply in_words_iff in K. rewrite K. reflexivity.
    - destruct (in_words n) eqn:J; [|reflexivity]. apply in_words_iff in J. contradiction. }
  exfalso. rewrite E1 in Cm. apply Forall_app in Cm. destruct Cm as [_ Cm]. inversion Cm; subst. exact (St ltac:(assumption)).
Qed.

(** What the generator makes of a number of Rust *)
Lemma munch_token c s ts : munch (c :: s) ts -> ~ In c [32; 9; 10; 13; 47; 35] ->
  exists t rest ts', ts = t :: ts' /\ c :: s = spelling t ++ rest /\ well_formed t /\ longest t rest /\ munch rest ts'.
Proof.
  intros M N. destruct (munch_inv _ _ M) as [[H _]|[(p & s' & E & P & _)|H]]; [discriminate| |exact H].
  destruct (piece_head _ P) as (c' & r & -> & I). injection E as -> _. contradiction.
Qed.
Lemma number_token w s ts : number_before w s -> stop s -> munch (w ++ s) ts ->
  exists t ts', numeric t = true /\ well_formed t /\ (exists c v, spelling t = c :: v /\ digit_char c) /\
    (ts = t :: ts' /\ spelling t = w /\ munch s ts' \/ exists n, ts = t :: TId n :: ts' /\ spelling t ++ text n = w /\ munch s ts').
Proof.
  intros N St M. destruct (number_head _ _ N) as (d & v & Ew & D).
  destruct (munch_token d (v ++ s) ts) as (t & rest & ts' & -> & E & W & L & M').
  { rewrite Ew in M. exact M. } { unfold digit_char in D. cbn. lia. }
  assert (E' : spelling t ++ rest = w ++ s) by (rewrite Ew; auto).
  destruct (number_short _ _ _ _ N St W E') as (u & Eu & ->).
  destruct (token_head _ W) as (d' & v' & Es & K).
  assert (d' = d) as -> by (rewrite Es in E; injection E as -> _; reflexivity).
  destruct (unsigned _ _ _ W Es D) as [Nu U].
  destruct u as [|c u].
  { rewrite app_nil_r in Eu. exists t, ts'. split; [exact Nu|]. split; [exact W|]. split; [eauto|]. left. auto. }
  assert (C : c = 95 \/ c = 120).
  { assert (Nd : ~ digit_char c).
    { intros H. destruct (extend_digit _ _ U H) as (t2 & W2 & E2). exact (longest_not _ _ _ _ L W2 E2). }
    assert (Np : c <> 46).
    { intros ->. destruct u as [|z u].
      - (* nothing follows the point *)
        cbn in M'. destruct (munch_token _ _ _ M') as (t2 & r2 & ts2 & -> & E2 & W2 & _ & _); [cbn; lia|].
        destruct (token_head _ W2) as (c2 & v2 & Es2 & K2). rewrite Es2 in E2. injection E2 as <- E2.
        inversion K2 as [? ? ? I|? ? ? I ?|? ? [I|I]|? ? I|t0 ? Nu2 _|? I]; subst; try (exfalso; unfold letter_char in *; cbn in *; lia).
        destruct t2; try discriminate Nu2; cbn in Es2; subst.
        + destruct W2 as (sg & ds & E3 & [-> | [-> | ->]] & H3); try discriminate E3. cbn in E3. subst ds. destruct H3 as [_ H3]. inversion H3. unfold digit_char in *. lia.
        + destruct W2 as (sg & ds & E3 & [-> | ->] & H3); discriminate E3.
        + destruct W2 as [(sg & m & e & E3 & [-> | [-> | ->]] & Hm & _) _]; try discriminate E3. cbn in E3.
          destruct Hm as [Hm|(a & b & -> & [-> |Ha] & Hb)].
          * destruct (digits_head _ Hm) as (q & m' & -> & Q). injection E3 as <- _. unfold digit_char in Q. lia.
          * destruct (digits_head _ Hb) as (q & m' & -> & Q). injection E3 as ->. cbn in St. apply St. left. right. exact Q.
          * destruct (digits_head _ Ha) as (q & m' & -> & Q). injection E3 as <- _. unfold digit_char in Q. lia.
      - assert (F : exists a b, w = a ++ 46 :: b /\ decimals a /\ decimals b).
        { destruct N as [w s [H|(h & -> & H & _)] _ _|w s H _|a b s H H' _].
          - apply decimals_chars in H. rewrite Eu in H. apply Forall_app in H. destruct H as [_ H]. inversion H. unfold low_dash, digit_char in *. lia.
          - assert (G : Forall (fun c => c <> 46) (text "0x" ++ h)).
            { constructor; [vm_compute; discriminate|]. constructor; [vm_compute; discriminate|]. eapply Forall_impl; [|exact H]. unfold hexadecimal, decimal. cbn. lia. }
            rewrite Eu in G. apply Forall_app in G. destruct G as [_ G]. inversion G. congruence.
          - exfalso. apply decimals_chars in H.
            destruct (split_at low_dash 46 (z :: u) w H) with (w := spelling t) (x := text ".") as (w' & E3 & E4); [unfold low_dash, digit_char; lia|congruence|].
            destruct w' as [|? [|]]; discriminate E4.
          - exists a, b. auto. }
        destruct F as (a & b & Ew' & A & B).
        destruct (split_at low_dash 46 (z :: u) a (decimals_chars _ A)) with (w := spelling t) (x := 46 :: b) as (w' & E3 & E4); [unfold low_dash, digit_char; lia|congruence|].
        destruct w' as [|q w'].
        + injection E4 as ->. rewrite app_nil_r in E3. destruct B as (z' & b' & E5 & Z & _). injection E5 as -> ->.
          assert (I : digits_text (spelling t)).
          { apply decimals_chars in A. rewrite <- E3 in A. destruct U as [x U|hs _ _|m e Hm X _]; cbn [spelling] in A.
            - exact U.
            - inversion A as [|? ? _ A']; subst. inversion A' as [|? ? A2 _]; subst. unfold low_dash, digit_char in A2. lia.
            - exfalso. apply Forall_app in A. destruct A as [Am Ae]. destruct X as [-> |(e0 & sg & ds & -> & [-> | ->] & _)].
              + rewrite app_nil_r in *. cbn [well_formed] in W. destruct W as [_ W]. apply W. exists [], m. split; [reflexivity|]. split; [left; reflexivity|].
                destruct (mantissa_chars _ Hm) as [P Q]. split; [exact Q|]. rewrite Forall_forall in *. intros k Hk. specialize (P k Hk). specialize (Am k Hk).
                unfold low_dash, pointed, digit_char in *. lia.
              + inversion Ae as [|? ? A2 _]; subst. unfold low_dash, digit_char in A2. vm_compute in A2. intuition discriminate.
              + inversion Ae as [|? ? A2 _]; subst. unfold low_dash, digit_char in A2. vm_compute in A2. intuition discriminate. }
          specialize (L (TDouble (spelling t ++ [46; z'])) (b' ++ s)).
          cbn [well_formed spelling] in L. rewrite <- app_assoc in L. cbn [app] in L. specialize (fun H => L H eq_refl). rewrite app_length in L. cbn in L.
          assert (H : double_text (spelling t ++ [46; z']) /\ ~ integer_text (spelling t ++ [46; z'])); [|specialize (L H); lia].
          split.
          * exists [], (spelling t ++ [46; z']), []. rewrite app_nil_r. split; [reflexivity|]. split; [left; reflexivity|]. split; [|left; reflexivity].
            right. exists (spelling t), [z']. split; [reflexivity|]. split; [right; exact I|]. split; [discriminate|]. constructor; [exact Z|constructor].
          * intros (sg & ds & E5 & S5 & [_ F5]). assert (In 46 (sg ++ ds)) as J by (rewrite <- E5; apply in_or_app; right; left; reflexivity).
            apply in_app_or in J. destruct J as [J|J].
            -- destruct S5 as [-> | [-> | ->]]; cbn in J; lia.
            -- rewrite Forall_forall in F5. specialize (F5 _ J). unfold digit_char in F5. lia.
        + cbn in E4. injection E4 as <- E4. apply decimals_chars in B. rewrite E4 in B. apply Forall_app in B. destruct B as [_ B]. inversion B. unfold low_dash, digit_char in *. lia. }
    destruct (number_chars _ _ N) as [F|(h & Eh & F & _)].
    - rewrite Eu in F. apply Forall_app in F. destruct F as [_ F]. inversion F. unfold low_dash in *. tauto.
    - rewrite Eh in Eu. destruct U as [x [Q U]|hs Q U|m e Hm X Hn]; cbn [spelling] in *.
      + destruct x as [|x0 [|x1 x]]; [congruence| |].
        * injection Eu as _ <- _. right. reflexivity.
        * exfalso. injection Eu as _ <- _. inversion U as [|? ? _ U']; subst. inversion U' as [|? ? U2 _]; subst. vm_compute in U2. intuition congruence.
      + cbn in Eu. injection Eu as ->. apply Forall_app in F. destruct F as [_ F]. inversion F as [|? ? [F1|F1] _]; subst; [|left; reflexivity].
        exfalso. apply (longest_not _ (THex ((48 :: 120 :: hs) ++ [c])) _ _ L); [|reflexivity]. exists [], (hs ++ [c]). split; [reflexivity|]. split; [auto|].
        split; [destruct hs; discriminate|]. apply Forall_app. split; [exact U|]. constructor; [|constructor]. exact F1.
      + exfalso. destruct (mantissa_chars _ Hm) as [P Q]. destruct m as [|m0 [|m1 m]]; [congruence| |].
        * destruct X as [-> |(e0 & sg & ds & -> & [-> | ->] & _)]; [|discriminate Eu..]. apply Hn. exists [], [m0]. split; [reflexivity|]. split; [left; reflexivity|].
          split; [discriminate|]. constructor; [|constructor]. cbn in Es. injection Es as -> _. exact D.
        * injection Eu as _ <- _. inversion P as [|? ? _ P']; subst. inversion P' as [|? ? P2 _]; subst. vm_compute in P2. intuition congruence. }
  assert (I : identifier_text (c :: u)).
  { exists c, u. split; [reflexivity|]. split; [unfold letter_char; lia|].
    assert (F : Forall dotted w).
    { destruct (number_chars _ _ N) as [F|(h & -> & F & _)].
      - eapply Forall_impl; [|exact F]. unfold low_dash, dotted, word, letter, decimal, digit_char. cbn. lia.
      - constructor; [left; right; split; vm_compute; discriminate|]. constructor; [left; left; right; left; split; vm_compute; discriminate|].
        eapply Forall_impl; [|exact F]. unfold hexadecimal, dotted, word, letter, decimal. cbn. lia. }
    rewrite Eu in F. apply Forall_app in F. destruct F as [_ F]. inversion F as [|? ? _ F']; subst. eapply Forall_impl; [|exact F'].
    unfold dotted, word, letter, decimal, letter_char, digit_char. cbn. lia. }
  destruct (munch_token _ _ _ M') as (t2 & r2 & ts2 & -> & E2 & W2 & L2 & M2); [cbn; lia|].
  destruct (identifier_token (c :: u) s t2 r2 I St W2 L2 (eq_sym E2)) as [-> ->].
  destruct (identifier_chars _ I) as [_ B]. pose proof (text_string_of _ B) as Et.
  exists t, ts2. split; [exact Nu|]. split; [exact W|]. split; [eauto|]. right. exists (string_of (c :: u)).
  split; [|split; [|exact M2]].
  - unfold word_token. destruct (in_words (string_of (c :: u))) eqn:J; [|reflexivity]. exfalso. apply in_words_iff in J.
    destruct (head_word _ J) as (c3 & v3 & E3 & H3 & H4).
    assert (c :: u = c3 :: v3) as E5 by (rewrite <- E3; symmetry; exact Et). injection E5 as <- _. lia.
  - rewrite Eu. f_equal. exact Et.
Qed.

(** * Signs *)
Definition pointed_head (w : list Z) : Prop := exists c v, w = c :: v /\ pointed c.
Lemma pointed_integer w : pointed_head w -> integer_text (45 :: w) <-> integer_text w.
Proof.
  intros (c & v & -> & H). unfold pointed, digit_char in H. split.
  - intros (s & ds & E & [-> | [-> | ->]] & D).
    + cbn in E. subst ds. destruct D as [_ D]. inversion D. unfold digit_char in *. lia.
    + discriminate E.
    + injection E as E. exists [], ds. split; [exact E|]. split; [left; reflexivity|exact D].
  - intros (s & ds & E & [-> | [-> | ->]] & D); [|injection E as -> _; lia..].
    exists (text "-"), ds. split; [cbn in E; rewrite E; reflexivity|]. split; [right; right; reflexivity|exact D].
Qed.
Lemma mantissa_head m e : mantissa_text m -> pointed_head (m ++ e).
Proof.
  intros H. destruct (mantissa_chars _ H) as [F N]. destruct m as [|c m]; [congruence|]. inversion F; subst. exists c, (m ++ e). auto.
Qed.
Lemma unsign t v : well_formed t -> spelling t = 45 :: v ->
  exists t', t = negate t' /\ numeric t' = true /\ well_formed t' /\ spelling t' = v /\ pointed_head v.
Proof.
  intros W E. destruct (token_head _ W) as (c & v' & E' & K). rewrite E in E'. injection E' as <- <-.
  inversion K as [? ? ? I|? ? ? I ?|? ? [I|I]|? ? I|t0 ? Nu _|? I]; subst; try (exfalso; unfold letter_char in *; cbn in *; lia).
  destruct t as [|w|w|w| | |]; try discriminate Nu; cbn [spelling well_formed] in *; subst w.
  - exists (TInteger v). destruct W as (s & ds & E & S & D). destruct S as [-> | [-> | ->]].
    + cbn in E. subst ds. destruct D as [_ D]. inversion D. unfold digit_char in *. lia.
    + discriminate E.
    + injection E as ->. repeat split; auto.
      * exists [], ds. split; [reflexivity|]. split; [left; reflexivity|exact D].
      * destruct (digits_head _ D) as (c & u & -> & H). exists c, u. split; [reflexivity|left; exact H].
  - exists (THex v). destruct W as (s & hs & E & S & A & B). destruct S as [-> | ->]; [discriminate E|]. injection E as ->. repeat split; auto.
    + exists [], hs. repeat split; auto.
    + do 2 eexists. split; [reflexivity|]. left. split; vm_compute; discriminate.
  - exists (TDouble v). destruct W as [(s & m & e & E & S & A & B) N]. destruct S as [-> | [-> | ->]].
    + cbn in E. destruct (mantissa_head m e A) as (c & u & E2 & P). rewrite E2 in E. injection E as <- _. unfold pointed, digit_char in P. lia.
    + discriminate E.
    + injection E as ->. pose proof (mantissa_head m e A) as P. repeat split; auto.
      * exists [], m, e. repeat split; auto. left. reflexivity.
      * intros H. apply N. apply pointed_integer; auto.
Qed.
Lemma with_sign t : well_formed t -> pointed_head (spelling t) -> well_formed (negate t) /\ spelling (negate t) = 45 :: spelling t.
Proof.
  intros W P. destruct (token_head _ W) as (c & v & E & K). destruct P as (c' & v' & E' & P). rewrite E in E'. injection E' as <- <-.
  unfold pointed, digit_char in P. pose proof P as P'.
  destruct K as [m c _ K|m c Hm K _|m c [K|K]|w c K|t c N K|c K]; try (exfalso; unfold letter_char in *; cbn in *; lia).
  destruct t as [|w|w|w| | |]; try discriminate N; cbn [negate spelling well_formed] in *; subst w; (split; [|reflexivity]).
  - apply pointed_integer; [|exact W]. exists c, v. auto.
  - destruct W as (s & hs & E & [-> | ->] & A & B); [|injection E as -> _; lia]. exists (text "-"), hs. rewrite E. repeat split; auto.
  - assert (H : pointed_head (c :: v)) by (exists c, v; auto). destruct W as [(s & m & e & E & S & A & B) W]. split.
    + destruct S as [-> | [-> | ->]]; [|injection E as -> _; lia..]. exists (text "-"), m, e. rewrite E. repeat split; auto. right. right. reflexivity.
    + intros I. apply W. apply pointed_integer; auto.
Qed.

(** * Comments and strings *)
Lemma unnested_tail a s : unnested (a ++ s) -> unnested s.
Proof. intros H x y z E. apply (H (a ++ x) y z). rewrite E, <- app_assoc. reflexivity. Qed.
(** The first end of a comment *)
Lemma first_end w b s s' : comment_body w -> comment_body b -> w ++ text "*/" ++ s = b ++ text "*/" ++ s' -> w = b /\ s = s'.
Proof.
  assert (G : forall w b s s', comment_body b -> w ++ text "*/" ++ s = b ++ text "*/" ++ s' -> (List.length w < List.length b)%nat -> False).
  { clear. intros w b s s' B E L. apply app_eq_app in E. destruct E as (x & [[E1 E2]|[E1 E2]]).
    - rewrite E1, app_length in L. lia.
    - destruct x as [|x0 x]; [rewrite E1, app_nil_r in L; lia|].
      destruct x as [|x1 x].
      + injection E2 as <- E2. unfold comment_body in B. rewrite E1 in B. specialize (B (w ++ []) (text "/")).
        vm_compute in E2. discriminate E2.
      + injection E2 as <- <- E2. specialize (B w (x ++ text "*/")). rewrite E1, <- app_assoc in B. specialize (B eq_refl). destruct x; discriminate B. }
  intros W B E. destruct (Nat.lt_trichotomy (List.length w) (List.length b)) as [L|[L|L]].
  - exfalso. exact (G _ _ _ _ B E L).
  - apply app_eq_app in E. destruct E as (x & [[E1 E2]|[E1 E2]]);
      (assert (x = []) as -> by (destruct x; [reflexivity|]; rewrite E1, app_length in L; cbn in L; lia)); rewrite app_nil_r in E1; cbn in E2; injection E2 as ->; auto.
  - exfalso. exact (G _ _ _ _ W (eq_sym E) L).
Qed.
Lemma nested_body w : nested w -> forall p, (forall a b, p ++ w = a ++ text "/*" ++ b -> (List.length p <= List.length a)%nat -> exists u v, a = u ++ text "*/" ++ v) ->
  (forall u v, p <> u ++ text "*/" ++ v) -> (forall p' v, p = p' ++ text "*" -> w ++ text "*/" <> text "/" ++ v) -> comment_body w.
Proof.
  intros H. induction H as [|c w N1 N2 H IH|u w _ _ _ _]; intros p U P Q.
  - intros [|a [|b [|d u]]] v E; cbn in E; try discriminate E. injection E as <-. reflexivity.
  - assert (C : comment_body w).
    { apply (IH (p ++ [c])).
      - intros a b E L. apply (U a b); [rewrite <- E, <- app_assoc; reflexivity|]. rewrite app_length in L. lia.
      - intros a b E. destruct b as [|z b _] using rev_ind.
        + rewrite app_nil_r in E. assert (E2 : p ++ [c] = (a ++ text "*") ++ text "/") by (rewrite <- app_assoc; exact E). apply app_inj_tail in E2. destruct E2 as [-> ->].
          exact (Q a (w ++ text "*/") eq_refl eq_refl).
        + rewrite !app_assoc in E. apply app_inj_tail in E. destruct E as [E _]. rewrite <- app_assoc in E. exact (P _ _ E).
      - intros p' v E E2. apply app_inj_tail in E. destruct E as [_ ->]. apply N2. exists v. transitivity (text "*" ++ (w ++ text "*/")); [reflexivity|]. rewrite E2. reflexivity. }
    intros u v E. destruct u as [|z u].
    + exfalso. apply N2. exists v. exact E.
    + injection E as <- E. exact (C _ _ E).
  - exfalso. destruct (U p (u ++ text "*/" ++ w) eq_refl) as (a & b & E); [lia|]. exact (P _ _ E).
Qed.
Lemma block_end w s b s' : nested w -> unnested (text "/*" ++ w ++ text "*/" ++ s) -> comment_body b ->
  w ++ text "*/" ++ s = b ++ text "*/" ++ s' -> w = b /\ s = s'.
Proof.
  intros N U B E. apply first_end; auto. apply (nested_body w N []).
  - intros a c E2 _. cbn in E2. apply (U [] a (c ++ text "*/" ++ s)). rewrite E2, <- !app_assoc. reflexivity.
  - intros u v E2. destruct u; discriminate E2.
  - intros p' v E2. destruct p'; discriminate E2.
Qed.
Lemma string_end w : in_quotes w -> forall v s s', quotable 34 v -> w ++ 34 :: s = v ++ 34 :: s' -> w = v /\ s = s'.
Proof.
  intros H. induction H as [|c w N1 N2 H IH|c w I H IH]; intros v s s' Q E; inversion Q as [|d u M1 M2 Q' E2|d u J Q' E2]; subst v; cbn in E.
  - injection E as ->. auto.
  - injection E as <- _. congruence.
  - discriminate E.
  - injection E as -> _. congruence.
  - injection E as <- E. destruct (IH _ _ _ Q' E) as [-> ->]. auto.
  - injection E as -> _. congruence.
  - discriminate E.
  - injection E as <- _. congruence.
  - injection E as <- E. destruct (IH _ _ _ Q' E) as [-> ->]. auto.
Qed.

(** * All tokens *)
Lemma agree_doc t rs ts : (t = [] \/ exists i w, t = [RDoc i w]) -> agree rs ts -> agree (t ++ rs) ts.
Proof. intros [-> |(i & w & ->)] H; [exact H|]. constructor. exact H. Qed.
Lemma punct_token c p rest ts : text p = [c] -> In c [123; 125; 58; 60; 62; 61; 59] -> munch (text p ++ rest) ts -> exists ts', ts = T p :: ts' /\ munch rest ts'.
Proof.
  intros E I M. rewrite E in M. cbn [app] in M.
  destruct (munch_token _ _ _ M) as (t & r & ts' & -> & E2 & W & L & M'); [cbn in *; lia|].
  destruct (token_head _ W) as (c' & v & Es & K). rewrite Es in E2. injection E2 as <- E2.
  destruct K as [m c Em _|m c _ K _|m c [K|K]|w c K|t c N K|c K]; try (exfalso; unfold letter_char, digit_char in *; cbn in *; lia).
  cbn [spelling] in Es. rewrite Em in Es. injection Es as <-. cbn in E2. subst r.
  exists ts'. split; [|exact M']. f_equal. f_equal. apply text_inj. congruence.
Qed.
Lemma lex_agree s rs : rust_text s rs -> forall ts, munch s ts -> unnested s -> Forall plain rs -> agree rs ts.
Proof.
  intros H. induction H as [|c s rs B R IH|w s t rs N En C R IH|w s t rs N C R IH|c w s rs L F En R IH|w s rs N R IH|w s rs Q En R IH|n t s rs B R IH|n s rs B Lo N1 N2 R IH];
    intros ts M U P.
  - destruct (munch_inv _ _ M) as [[_ ->]|[(p & s' & E & Pp & _)|(t & rest & ts' & -> & E & W & _)]].
    + constructor.
    + destruct (piece_head _ Pp) as (c & r & -> & _). discriminate E.
    + destruct (token_head _ W) as (c & r & E2 & _). rewrite E2 in E. discriminate E.
  - destruct (munch_inv _ _ M) as [[E _]|[(p & s' & E & Pp & M')|(t & rest & ts' & -> & E & W & _)]]; [discriminate E| |].
    + apply IH; [|exact (unnested_tail [c] s U)|exact P]. unfold blank in B.
      destruct Pp as [| | | |s0 b [-> | ->] _|b _]; injection E as Ec E; try (exfalso; vm_compute in Ec; subst c; lia); subst s; try exact M'.
      apply (munch_piece [10]); [constructor|exact M'].
    + destruct (token_head _ W) as (c' & r & E2 & K). rewrite E2 in E. injection E as <- _. exfalso. unfold blank in B.
      destruct K as [m c Em K|m c _ K _|m c [K|K]|w c K|t c N K|c K]; unfold letter_char, digit_char in *; cbn in *; lia.
  - apply agree_doc. { destruct C; eauto. }
    assert (P' : Forall plain rs) by (apply Forall_app in P; tauto). rewrite app_assoc in U.
    apply IH; [|exact (unnested_tail _ _ U)|exact P'].
    destruct (munch_inv _ _ M) as [[E _]|[(p & s' & E & Pp & M')|(t' & rest & ts' & -> & E & W & _)]]; [discriminate E| |].
    + destruct Pp as [| | | |s0 b [-> | ->] Nb|b _]; try discriminate E.
      rewrite <- !app_assoc in E. apply app_inv_head in E.
      assert (Fw : Forall (fun c => c <> 10) w) by (apply Forall_forall; intros x Hx ->; contradiction).
      assert (Fb : Forall (fun c => c <> 10) b) by (apply Forall_forall; intros x Hx ->; contradiction).
      destruct s as [|c s].
      { exfalso. apply N. rewrite app_nil_r in E. rewrite E. apply in_or_app. right. left. reflexivity. }
      cbn in En. assert (c = 10) as -> by lia.
      destruct (split_at (fun c => c <> 10) 10 s' w Fw (fun K => K eq_refl) b (10 :: s)) as (b' & -> & E2); [symmetry; exact E|].
      destruct b' as [|z b']; [|exfalso; apply Nb; apply in_or_app; right; injection E2 as <- _; left; reflexivity].
      injection E2 as ->. apply (munch_piece [10]); [constructor|exact M'].
    + exfalso. destruct (token_head _ W) as (c' & r & E2 & K). rewrite E2 in E. injection E as E _. vm_compute in E. subst c'.
      inversion K as [m c Em K'|m c _ K' _|m c [K'|K']|w' c K'|t0 c _ K'|c K']; subst; unfold letter_char, digit_char in *; cbn in *; lia.
  - apply agree_doc. { destruct C; eauto. }
    assert (P' : Forall plain rs) by (apply Forall_app in P; tauto).
    assert (U' : unnested s) by (apply (unnested_tail (text "/*" ++ w ++ text "*/")); rewrite <- !app_assoc; exact U).
    apply IH; [|exact U'|exact P'].
    destruct (munch_inv _ _ M) as [[E _]|[(p & s' & E & Pp & M')|(t' & rest & ts' & -> & E & W & _)]]; [discriminate E| |].
    + destruct Pp as [| | | |s0 b [-> | ->] Nb|b Cb]; try discriminate E.
      rewrite <- !app_assoc in E. apply app_inv_head in E.
      destruct (block_end w s b s' N U Cb E) as [_ ->]. exact M'.
    + exfalso. destruct (token_head _ W) as (c' & r & E2 & K). rewrite E2 in E. injection E as E _. vm_compute in E. subst c'.
      inversion K as [m c Em K'|m c _ K' _|m c [K'|K']|w' c K'|t0 c _ K'|c K']; subst; unfold letter_char, digit_char in *; cbn in *; lia.
  - inversion P as [|? ? _ P']; subst. pose proof (no_point _ _ R P') as Np.
    assert (St : stop s) by (destruct s; cbn in *; tauto).
    destruct (munch_token c (w ++ s) ts M) as (t & rest & ts' & -> & E & W & Lg & M'); [unfold letter in L; cbn; lia|].
    destruct (identifier_token (c :: w) s t rest) as [-> ->]; auto.
    { exists c, w. split; [reflexivity|]. unfold letter in L. split; [unfold letter_char; lia|]. eapply Forall_impl; [|exact F].
      unfold word, letter, decimal, letter_char, digit_char. cbn. lia. }
    apply A_name. apply IH; [exact M'|exact (unnested_tail _ _ U)|exact P'].
  - inversion P as [|? ? _ P']; subst. pose proof (number_stop _ _ _ N R P') as St.
    destruct (number_token _ _ _ N St M) as (t & ts' & Nu & W & Hd & [(-> & <- & M')|(n & -> & <- & M')]).
    + apply A_number; auto. apply IH; [exact M'|exact (unnested_tail _ _ U)|exact P'].
    + apply A_odd; auto. apply IH; [exact M'|exact (unnested_tail _ _ U)|exact P'].
  - inversion P as [|? ? _ P']; subst.
    destruct (munch_token 34 ((w ++ [34]) ++ s) ts M) as (t & rest & ts' & -> & E & W & Lg & M'); [cbn; lia|].
    destruct (token_head _ W) as (c' & r & E2 & K). rewrite E2 in E. injection E as <- E.
    inversion K as [m c Em K'|m c _ K' _|m c [K'|K']|w' c K'|t0 c _ K'|c K']; subst; try (exfalso; unfold letter_char, digit_char in *; cbn in *; lia).
    cbn [spelling] in E2. subst w'. destruct W as (q & v & _ & Hq & E2). injection E2 as <- ->.
    rewrite <- !app_assoc in E. cbn [app] in E. destruct (string_end w Q v s rest Hq E) as [-> ->].
    apply A_string. apply IH; [exact M'|exact (unnested_tail _ _ U)|exact P'].
  - inversion P as [|? ? P1 P']; subst. pose proof (unnested_tail _ _ U) as U'. cbn in B.
    destruct B as [B|[B|[B|[B|[B|[B|[]]]]]]]; injection B as <- <-; try discriminate P1.
    + destruct (punct_token 123 "{" s ts) as (ts' & -> & M'); [reflexivity|cbn; tauto|exact M|]. apply A_open. apply IH; auto.
    + destruct (punct_token 125 "}" s ts) as (ts' & -> & M'); [reflexivity|cbn; tauto|exact M|]. apply A_close. apply IH; auto.
  - inversion P as [|? ? P1 P']; subst. pose proof (unnested_tail _ _ U) as U'. cbn in P1.
    destruct P1 as [<-|[<-|[<-|[<-|[<-|[<-|[]]]]]]].
    1-5: eapply punct_token in M; [|reflexivity|cbn; tauto]; destruct M as (ts' & -> & M'); apply A_punct; [cbn; tauto|apply IH; auto].
    destruct (munch_token 45 s ts M) as (t & rest & ts' & -> & E & W & Lg & M'); [cbn; lia|].
    destruct (token_head _ W) as (c' & r & E2 & K). rewrite E2 in E. injection E as <- ->.
    destruct (unsign _ _ W E2) as (t' & -> & Nu & W' & Es & Hd).
    apply A_minus; [exact Nu|]. apply IH; auto. rewrite <- Es. apply (M_token [] t'); auto.
    + exists []. split; [reflexivity|constructor].
    + intros t2 r2 W2 E3. assert (H2 : pointed_head (spelling t2)).
      { destruct (token_head _ W2) as (c2 & v2 & E4 & _). rewrite E4 in *. destruct Hd as (c & v & -> & Hc). rewrite Es in E3. injection E3 as -> _. exists c, v2. auto. }
      destruct (with_sign _ W2 H2) as [W3 E5]. specialize (Lg (negate t2) r2 W3). rewrite E5 in Lg.
      assert (H' : spelling (negate t') = 45 :: spelling t') by (rewrite Es; exact E2). rewrite H' in Lg. cbn in Lg. rewrite E3 in Lg. specialize (Lg eq_refl). lia.
Qed.
