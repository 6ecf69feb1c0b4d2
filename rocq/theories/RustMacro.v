(** runtime/src/macros.rs: which tokens the macros accept and what they read from them.
    The patterns of macros.rs are data here.  [None]: the macro or what it expands to does not compile.
    What a declaration expands to is in Macro.v. *)
From Verif Require Import Base ErrorName Types Macro RustLex.
Open Scope Z_scope.

(** * Patterns of macro_rules! *)
Inductive fragment : Type := Ident | Literal | Meta | Tree | Ty.
Inductive pat : Type :=
| Tk (l : leaf)
| Var (f : fragment)
| Grp (d : delim) (ps : list pat)
| Rep (opt : bool) (ps : list pat).     (* $(..)? or $(..)* *)
(** What a pattern matched *)
Inductive found : Type :=
| Skip
| Got (ts : list tree)
| Sub (fs : list found)
| Reps (l : list (list found)).

Definition leaf_eqb (a b : leaf) : bool :=
  match a, b with
  | LId m, LId n => String.eqb m n
  | LPunct m, LPunct n => String.eqb m n
  | LLit u, LLit v => if list_eq_dec Z.eq_dec u v then true else false
  | _, _ => false
  end.
Definition bool_name (n : string) : bool := String.eqb n "true" || String.eqb n "false".
(** An identifier or path *)
Fixpoint path_tail (ts : list tree) : list tree * list tree :=
  match ts with
  | Lf (LPunct s) :: Lf (LId n) :: ts' =>
      if String.eqb s "::" then let (p, r) := path_tail ts' in (Lf (LPunct s) :: Lf (LId n) :: p, r) else ([], ts)
  | _ => ([], ts)
  end.
Definition take_literal (ts : list tree) : option (list tree * list tree) :=
  match ts with
  | Lf (LLit w) :: r => Some ([Lf (LLit w)], r)
  | Lf (LPunct s) :: Lf (LLit w) :: r => if String.eqb s "-" then Some ([Lf (LPunct s); Lf (LLit w)], r) else None
  | Lf (LId n) :: r => if bool_name n then Some ([Lf (LId n)], r) else None
  | _ => None
  end.
(** The contents of an attribute.  Values other than literals are not modelled. *)
Definition take_meta (ts : list tree) : option (list tree * list tree) :=
  match ts with
  | Lf (LId n) :: ts' =>
      let (p, r) := path_tail ts' in
      match r with
      | Gr d g :: r' => Some (Lf (LId n) :: p ++ [Gr d g], r')
      | Lf (LPunct s) :: r' =>
          if String.eqb s "=" then match take_literal r' with Some (l, r'') => Some (Lf (LId n) :: p ++ Lf (LPunct s) :: l, r'') | None => None end
          else Some (Lf (LId n) :: p, r)
      | _ => Some (Lf (LId n) :: p, r)
      end
  | _ => None
  end.
(** A path with at most one argument.  Other types are not modelled.  [n]: at least the nesting *)
Fixpoint take_type (n : nat) (ts : list tree) : option (list tree * list tree) :=
  match ts, n with
  | Lf (LId m) :: ts', S n' =>
      let (p, r) := path_tail ts' in
      match r with
      | Lf (LPunct s) :: r' =>
          if String.eqb s "<" then
            match take_type n' r' with
            | Some (t, Lf (LPunct s') :: r'') => if String.eqb s' ">" then Some (Lf (LId m) :: p ++ Lf (LPunct s) :: t ++ [Lf (LPunct s')], r'') else None
            | _ => None
            end
          else Some (Lf (LId m) :: p, r)
      | _ => Some (Lf (LId m) :: p, r)
      end
  | _, _ => None
  end.
Definition take (f : fragment) (ts : list tree) : option (list tree * list tree) :=
  match f with
  | Ident => match ts with Lf (LId n) :: r => if String.eqb n "_" then None else Some ([Lf (LId n)], r) | _ => None end
  | Literal => take_literal ts
  | Meta => take_meta ts
  | Tree => match ts with t :: r => Some ([t], r) | [] => None end
  | Ty => take_type (List.length ts) ts
  end.
(** Whether the compiler tries the fragment at this token. *)
Definition may_start (f : fragment) (t : tree) : bool :=
  match f, t with
  | Ident, Lf (LId n) => negb (String.eqb n "_")
  | Literal, Lf (LLit _) => true
  | Literal, Lf (LPunct s) => String.eqb s "-"
  | Literal, Lf (LId n) => bool_name n
  | Meta, Lf (LId _) | Ty, Lf (LId _) => true
  | Tree, _ => true
  | _, _ => false
  end.
Definition any_of (f : pat -> tree -> bool) (stop : pat -> bool) : list pat -> tree -> bool :=
  fix go ps t := match ps with [] => false | p :: ps' => f p t || (stop p && go ps' t) end.
Definition is_rep (p : pat) : bool := match p with Rep _ _ => true | _ => false end.
Fixpoint begins (p : pat) (t : tree) : bool :=
  match p, t with
  | Tk l, Lf l' => leaf_eqb l l'
  | Tk _, _ => false
  | Var f, _ => may_start f t
  | Grp d _, Gr d' _ => delim_eqb d d'
  | Grp _ _, _ => false
  | Rep _ ps, _ => any_of begins is_rep ps t
  end.
Definition in_order {A} (f : pat -> list tree -> option (A * list tree)) : list pat -> list tree -> option (list A * list tree) :=
  fix go ps ts :=
    match ps with
    | [] => Some ([], ts)
    | p :: ps' =>
        match f p ts with
        | None => None
        | Some (x, r) => match go ps' r with Some (xs, r') => Some (x :: xs, r') | None => None end
        end
    end.
Definition repeated {A} (b : tree -> bool) (f : list tree -> option (A * list tree)) : nat -> list tree -> option (list A * list tree) :=
  fix go n ts :=
    match ts, n with
    | t :: _, S n' =>
        if b t then
          match f ts with
          | None => None
          | Some (x, r) => match go n' r with Some (xs, r') => Some (x :: xs, r') | None => None end
          end
        else Some ([], ts)
    | _, _ => Some ([], ts)
    end.
(** A repetition goes on while its next token starts it.  (The compiler follows all alternatives at once and
    gives up if the next token fits several; for the patterns below it never does, see [C77_one_way].) *)
Fixpoint matches (p : pat) (ts : list tree) : option (found * list tree) :=
  match p with
  | Tk l => match ts with Lf l' :: r => if leaf_eqb l l' then Some (Skip, r) else None | _ => None end
  | Var f => match take f ts with Some (x, r) => Some (Got x, r) | None => None end
  | Grp d ps =>
      match ts with
      | Gr d' g :: r => if delim_eqb d d' then match in_order matches ps g with Some (fs, []) => Some (Sub fs, r) | _ => None end else None
      | _ => None
      end
  | Rep opt ps =>
      match repeated (any_of begins is_rep ps) (in_order matches ps) (if opt then 1%nat else List.length ts) ts with
      | Some (l, r) => Some (Reps l, r)
      | None => None
      end
  end.
(** The whole input *)
Definition match_all (ps : list pat) (ts : list tree) : option (list found) :=
  match in_order matches ps ts with Some (fs, []) => Some fs | _ => None end.

(** * The patterns of macros.rs *)
Definition kw (s : string) : pat := Tk (LId s).
Definition pu (s : string) : pat := Tk (LPunct s).
Definition many (ps : list pat) : pat := Rep false ps.
Definition maybe (ps : list pat) : pat := Rep true ps.
Definition attributes : pat := many [pu "#"; Grp Bracket [many [Var Meta]]].
(** macros.rs:21 *)
Definition p_struct : list pat := [attributes; kw "struct"; Var Ident; Grp Brace [many [Var Tree]]; many [Var Tree]].
(** macros.rs:25 *)
Definition p_union : list pat := [attributes; kw "union"; Var Ident; Grp Brace [many [Var Tree]]; many [Var Tree]].
(** macros.rs:29 *)
Definition p_enum : list pat := [attributes; kw "enum"; Var Ident; Grp Brace [many [Var Tree]]; many [Var Tree]].
(** macros.rs:33 *)
Definition p_namespace : list pat := [attributes; kw "namespace"; Var Ident; Var Ident; many [Var Tree]].
(** macros.rs:54 *)
Definition p_field : list pat :=
  [attributes; Var Literal; pu ":"; Var Ident; Var Ident; maybe [pu "<"; Var Ident; pu ">"]; Var Ident; maybe [pu "="; Var Literal]; maybe [pu ";"]].
Definition p_thrift_struct : list pat := [attributes; kw "struct"; Var Ident; Grp Brace [many p_field]].
(** macros.rs:128 *)
Definition p_variant : list pat :=
  [attributes; Var Literal; pu ":"; Var Ident; maybe [pu "<"; Var Ident; pu ">"]; Var Ident; maybe [pu ";"]].
Definition p_thrift_union : list pat := [attributes; kw "union"; Var Ident; Grp Brace [many p_variant]].
(** macros.rs:203 *)
Definition p_constant : list pat := [attributes; Var Ident; pu "="; Var Literal; pu ";"].
Definition p_thrift_enum : list pat := [attributes; kw "enum"; Var Ident; Grp Brace [many p_constant]].

(** The next token [t] fits both another round of a repetition and what comes after it.
    [k]: what comes after [p] *)
Definition after (ps : list pat) (k : tree -> bool) (t : tree) : bool := any_of begins is_rep ps t || (forallb is_rep ps && k t).
Definition any_ways (f : pat -> (tree -> bool) -> tree -> bool) : list pat -> (tree -> bool) -> tree -> bool :=
  fix go ps k t := match ps with [] => false | p :: ps' => f p (after ps' k) t || go ps' k t end.
Fixpoint two_ways (p : pat) (k : tree -> bool) (t : tree) : bool :=
  match p with
  | Tk _ | Var _ => false
  | Grp _ ps => any_ways two_ways ps (fun _ => false) t
  | Rep opt ps =>
      (any_of begins is_rep ps t && k t) ||
      any_ways two_ways ps (fun t => (negb opt && any_of begins is_rep ps t) || k t) t
  end.
(** In any of the patterns *)
Definition ambiguous (t : tree) : bool :=
  existsb (fun ps => any_ways two_ways ps (fun _ => false) t) [p_struct; p_union; p_enum; p_namespace; p_thrift_struct; p_thrift_union; p_thrift_enum].

(** * What they read *)
Fixpoint digits_value (base : Z) (acc : Z) (w : list Z) : Z :=
  match w with
  | [] => acc
  | c :: w' =>
      if c =? 95 then digits_value base acc w'
      else digits_value base (base * acc + (if c <=? 57 then c - 48 else if c <=? 70 then c - 55 else c - 87)) w'
  end.
(** The value of a number without fraction *)
Definition int_value (w : list Z) : option Z :=
  match w with
  | 48 :: 120 :: h => if forallb (fun c => is_hex c || (c =? 95)) h then Some (digits_value 16 0 h) else None
  | c :: _ => if is_digit c && forallb (fun c => is_digit c || (c =? 95)) w then Some (digits_value 10 0 w) else None
  | [] => None
  end.
(** A literal where a signed number of [n] bits is expected; overflow is an error. *)
Definition literal_int (n : Z) (ts : list tree) : option Z :=
  let ranged z := if (- 2 ^ (n - 1) <=? z) && (z <? 2 ^ (n - 1)) then Some z else None in
  match ts with
  | [Lf (LLit w)] => match int_value w with Some z => ranged z | None => None end
  | [Lf (LPunct _); Lf (LLit w)] => match int_value w with Some z => ranged (- z) | None => None end
  | _ => None
  end.
Definition leaf_text (t : tree) : string :=
  match t with Lf (LId n) => n | Lf (LLit w) => string_of w | Lf (LPunct s) => s | Gr _ _ => "" end.
Definition literal_text (ts : list tree) : string := fold_right (fun t s => (leaf_text t ++ s)%string) ""%string ts.
Definition name_of (f : found) : option string := match f with Got [Lf (LId n)] => Some n | _ => None end.
(** Words that cannot be used as names *)
Definition reserved : list string :=
  ["as"; "break"; "const"; "continue"; "crate"; "else"; "enum"; "extern"; "false"; "fn"; "for"; "if"; "impl"; "in"; "let"; "loop"; "match"; "mod"; "move";
   "mut"; "pub"; "ref"; "return"; "self"; "Self"; "static"; "struct"; "super"; "trait"; "true"; "type"; "unsafe"; "use"; "where"; "while"; "async"; "await";
   "dyn"; "abstract"; "become"; "box"; "do"; "final"; "macro"; "override"; "priv"; "try"; "typeof"; "unsized"; "virtual"; "yield"]%string.
Definition new_name (f : found) : option string :=
  match name_of f with Some n => if existsb (String.eqb n) reserved then None else Some n | None => None end.
(** What the optional part consists of *)
Definition elem_of (l : list (list found)) : option string := match l with [[_; e; _]] => name_of e | _ => None end.
Definition default_of (l : list (list found)) : option string := match l with [[_; Got v]] => Some (literal_text v) | _ => None end.
(** macros.rs:266-298: only these two words expand. *)
Definition requirement (f : found) : option bool :=
  match name_of f with
  | Some n => if is n "required" then Some true else if is n "optional" then Some false else None
  | None => None
  end.
(** The id is matched against last_field_id and written as an i16 (macros.rs:87, 106). *)
Definition field_of (fs : list found) : option mfield :=
  match fs with
  | [_; Got id; _; r; t; Reps e; n; Reps d; _] =>
      match literal_int 16 id, requirement r, name_of t, new_name n with
      | Some id, Some r, Some t, Some n => Some {| m_id := id; m_req := Some r; m_type := t; m_elem := elem_of e; m_name := n; m_default := default_of d |}
      | _, _, _, _ => None
      end
  | _ => None
  end.
Definition variant_of (fs : list found) : option mfield :=
  match fs with
  | [_; Got id; _; t; Reps e; n; _] =>
      match literal_int 16 id, name_of t, new_name n with
      | Some id, Some t, Some n => Some {| m_id := id; m_req := None; m_type := t; m_elem := elem_of e; m_name := n; m_default := None |}
      | _, _, _ => None
      end
  | _ => None
  end.
(** macros.rs:217 *)
Definition constant_of (fs : list found) : option (string * Z) :=
  match fs with
  | [_; n; _; Got v; _] => match new_name n, literal_int 32 v with Some n, Some z => Some (n, z) | _, _ => None end
  | _ => None
  end.
Fixpoint all_of {A B} (f : A -> option B) (l : list A) : option (list B) :=
  match l with
  | [] => Some []
  | a :: l' => match f a, all_of f l' with Some b, Some bs => Some (b :: bs) | _, _ => None end
  end.
(** Matching one of the macros for a single declaration *)
Definition declaration {A} (p : list pat) (f : list found -> option A) (ts : list tree) : option (list A) :=
  match match_all p ts with
  | Some [_; _; _; Sub [Reps l]] => all_of f l
  | _ => None
  end.
Definition thrift_struct (ts : list tree) : option mdef := option_map MStruct (declaration p_thrift_struct field_of ts).
Definition thrift_union (ts : list tree) : option mdef := option_map MUnion (declaration p_thrift_union variant_of ts).
Definition thrift_enum (ts : list tree) : option mdef := option_map MEnum (declaration p_thrift_enum constant_of ts).

(** * thrift! (macros.rs:20-38) *)
Definition got (f : found) : list tree := match f with Got ts => ts | _ => [] end.
(** [$(#[$($def_attrs)*])*], [$($definitions)*] and [$($remainder)*] *)
Definition again (l : list (list found)) : list tree := flat_map (flat_map got) l.
Definition attributes_again (l : list (list found)) : list tree :=
  flat_map (fun a => match a with [_; Sub [Reps ms]] => [Lf (LPunct "#"); Gr Bracket (again ms)] | _ => [] end) l.
Definition rule (p : list pat) (word : string) (f : list tree -> option mdef) (ts : list tree) : option (option (string * mdef) * list tree) :=
  match match_all p ts with
  | Some [Reps a; _; n; Sub [Reps b]; Reps r] =>
      match new_name n, f (attributes_again a ++ [Lf (LId word)] ++ got n ++ [Gr Brace (again b)]) with
      | Some n, Some d => Some (Some (n, d), again r)
      | _, _ => None
      end
  | _ => None
  end.
(** The rules in order.  A declaration matched by one is not tried with the next. *)
Definition one (ts : list tree) : option (option (string * mdef) * list tree) :=
  match match_all p_struct ts with
  | Some _ => rule p_struct "struct" thrift_struct ts
  | None =>
  match match_all p_union ts with
  | Some _ => rule p_union "union" thrift_union ts
  | None =>
  match match_all p_enum ts with
  | Some _ => rule p_enum "enum" thrift_enum ts
  | None =>
  match match_all p_namespace ts with
  | Some [_; _; _; _; Reps r] => Some (None, again r)
  | _ => None
  end end end end.
(** [n]: at least the number of trees.  The compiler's recursion limit is not modelled. *)
Fixpoint thrift (n : nat) (ts : list tree) : option (list (string * mdef)) :=
  match ts, n with
  | [], _ => Some []
  | _, O => None
  | _, S n' =>
      match one ts with
      | None => None
      | Some (o, r) =>
          match thrift n' r with
          | Some ds => Some (match o with Some d => d :: ds | None => ds end)
          | None => None
          end
      end
  end.
Definition thrift_macro (ts : list tree) : option (list (string * mdef)) := thrift (List.length ts) ts.
