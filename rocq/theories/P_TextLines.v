(** Reading a file line by line: what the kernel computes to compare a text with its tokens stays
    small when no token crosses the end of a line. *)
From Verif Require Import Base ErrorName RustLex RustMacro MacroRules RustSyntax.
Open Scope Z_scope.
Open Scope list_scope.

(** [k] tokens, blanks and comments, and what follows them *)
Fixpoint lex_to (k : nat) (s : list Z) : option (list rtok * list Z) :=
  match k, s with
  | O, _ => Some ([], s)
  | _, [] => None
  | Datatypes.S k', c :: s' =>
      match next_token c s' with
      | None => None
      | Some (o, r) => match lex_to k' r with Some (ts, r') => Some (match o with Some t => t :: ts | None => ts end, r') | None => None end
      end
  end.
Lemma lex_to_all k : forall s ts r n, lex_to k s = Some (ts, r) ->
  all_tokens (k + n) s = match all_tokens n r with Some us => Some (ts ++ us) | None => None end.
Proof.
  induction k as [|k IH]; intros s ts r n H.
  - cbn [lex_to] in H. injection H as <- <-. cbn [Nat.add app]. destruct (all_tokens n s); reflexivity.
  - destruct s as [|c s]; [discriminate H|]. cbn [lex_to Nat.add all_tokens] in *.
    destruct (next_token c s) as [[o u]|]; [|discriminate H]. destruct (lex_to k u) as [[ts' r']|] eqn:E; [|discriminate H].
    injection H as <- <-. rewrite (IH u ts' r' n E). destruct (all_tokens n r') as [us|]; [|reflexivity]. destruct o; reflexivity.
Qed.
(** A line, how many tokens, blanks and comments are in it, and the tokens *)
Definition line_read (x : string * nat * list rtok) : Prop :=
  let '(l, k, ts) := x in (k <= Datatypes.S (List.length (text l)))%nat /\ forall rest, lex_to k (text l ++ 10 :: rest) = Some (ts, rest).
Definition line_of (x : string * nat * list rtok) : string := fst (fst x).
Definition tokens_of (tbl : list (string * nat * list rtok)) : list rtok := List.concat (map snd tbl).
Lemma lines_read tbl : Forall line_read tbl -> forall n, (List.length (file_text (map line_of tbl)) <= n)%nat ->
  all_tokens n (file_text (map line_of tbl)) = Some (tokens_of tbl).
Proof.
  induction 1 as [|[[l k] ts] tbl [Hk Hl] _ IH]; intros n Hn; [destruct n; reflexivity|].
  unfold file_text, tokens_of in *. cbn [map List.concat line_of fst snd] in *. rewrite <- app_assoc in *. cbn [app] in *.
  rewrite app_length in Hn. cbn [List.length] in Hn. replace n with (k + (n - k))%nat by lia.
  rewrite (lex_to_all k _ _ _ (n - k) (Hl _)), IH by lia. reflexivity.
Qed.
Definition trees_of (tbl : list (string * nat * list rtok)) : list tree := match trees (tokens_of tbl) [] [] with Some ts => ts | None => [] end.
Lemma file_read ls tbl ts its : map line_of tbl = ls -> Forall line_read tbl -> trees (tokens_of tbl) [] [] = Some ts ->
  read_items (List.length (file_text ls)) [] ts = Some its -> read_file ls = Some its.
Proof.
  intros <- H Ht Hi. unfold read_file, all_trees. rewrite (lines_read tbl H _ (le_n _)), Ht. exact Hi.
Qed.
(** Every line at once *)
Lemma lines_ok tbl : forallb (fun x => Nat.leb (snd (fst x)) (Datatypes.S (String.length (line_of x)))) tbl = true ->
  (forall rest, map (fun x => lex_to (snd (fst x)) (text (line_of x) ++ 10 :: rest)) tbl = map (fun x => Some (snd x, rest)) tbl) -> Forall line_read tbl.
Proof.
  induction tbl as [|[[l k] ts] tbl IH]; intros Hk Hl; constructor.
  - cbn [forallb line_of fst snd map] in *. apply andb_true_iff in Hk. destruct Hk as [Hk _]. apply Nat.leb_le in Hk. split.
    + unfold text. rewrite map_length. clear - Hk. replace (List.length (list_ascii_of_string l)) with (String.length l); [exact Hk|]. clear. induction l; cbn; [reflexivity|f_equal; assumption].
    + intros rest. specialize (Hl rest). injection Hl as Hl _. exact Hl.
  - cbn [forallb map] in *. apply IH; [apply andb_true_iff in Hk; apply Hk|]. intros rest. specialize (Hl rest). injection Hl as _ Hl. exact Hl.
Qed.
(** The table, computed *)
Fixpoint steps (n : nat) (s : list Z) : nat :=
  match n, s with
  | Datatypes.S n', c :: s' => match next_token c s' with Some (_, r) => Datatypes.S (steps n' r) | None => O end
  | _, _ => O
  end.
Definition line_table (ls : list string) : list (string * nat * list rtok) :=
  map (fun l => let s := text l ++ [10] in (l, steps (List.length s) s, match all_tokens (List.length s) s with Some ts => ts | None => [] end)) ls.
Definition all_read (tbl : list (string * nat * list rtok)) (rest : list Z) : list (option (list rtok * list Z)) := map (fun x => Some (snd x, rest)) tbl.
