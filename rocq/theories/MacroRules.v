(** How the compiler reads the definitions of macros (macro_rules!), matches and transcribes them,
    applied to the text of runtime/src/macros.rs.
    Simplifications: a macro called in the text of another one is expanded where it stands, and the
    semicolon after the call goes with it; a repetition in a transcription takes its variables from one
    repetition of the pattern; repetitions in patterns have no separator. *)
From Coq Require Import Ascii.
From Verif Require Import Base ErrorName RustLex RustMacro MacrosText.
Open Scope Z_scope.
Open Scope list_scope.

(** * Tokens
    Those of RustLex.v, and lifetimes and numbers with suffixes, which macros.rs contains. *)
Definition next_token (c : Z) (s' : list Z) : option (option rtok * list Z) :=
  if c =? 39 then let (w, r) := span is_cont s' in
    match w, r with
    | _ :: _, [] => Some (Some (RId (string_of (39 :: w))), r)
    | _ :: _, q :: _ => if q =? 39 then None else Some (Some (RId (string_of (39 :: w))), r)
    | [], _ => None
    end
  else if is_digit c then let (w, r) := span is_cont (c :: s') in Some (Some (RLit w), r)
  else next c s'.
Fixpoint all_tokens (n : nat) (s : list Z) : option (list rtok) :=
  match s, n with
  | [], _ => Some []
  | _, O => None
  | c :: s', S n' =>
      match next_token c s' with
      | None => None
      | Some (o, r) =>
          match all_tokens n' r with
          | None => None
          | Some ts => Some (match o with Some t => t :: ts | None => ts end)
          end
      end
  end.
Definition macros_rs_text : list Z := List.concat (map (fun l => text l ++ [10]) macros_rs_lines).
Definition all_trees (s : list Z) : option (list tree) := match all_tokens (List.length s) s with Some ts => trees ts [] [] | None => None end.

(** * Definitions *)
(** Patterns with the names of the variables *)
Inductive npat : Type :=
| NTk (l : leaf)
| NVar (x : string) (f : fragment)
| NGrp (d : delim) (ps : list npat)
| NRep (opt : bool) (ps : list npat).
Fixpoint erase (p : npat) : pat :=
  match p with
  | NTk l => Tk l
  | NVar _ f => Var f
  | NGrp d ps => Grp d (map erase ps)
  | NRep opt ps => Rep opt (map erase ps)
  end.
Fixpoint variables (p : npat) : list string :=
  match p with
  | NTk _ => []
  | NVar x _ => [x]
  | NGrp _ ps | NRep _ ps => flat_map variables ps
  end.
Inductive template : Type :=
| XTk (l : leaf)
| XVar (x : string)
| XGrp (d : delim) (xs : list template)
| XRep (xs : list template) (sep : option leaf)
| XCall (m : string) (xs : list template)     (* $crate::m!(..) *)
| XStringify (xs : list template)
| XConcat (xs : list template).
Definition rule : Type := list npat * list template.

Definition fragment_named (n : string) : option fragment :=
  if String.eqb n "ident" then Some Ident else if String.eqb n "literal" then Some Literal else if String.eqb n "meta" then Some Meta
  else if String.eqb n "tt" then Some Tree else if String.eqb n "ty" then Some Ty else None.
Definition is_punct (t : tree) (s : string) : bool := match t with Lf (LPunct p) => String.eqb p s | _ => false end.
(** [n]: at least the depth plus the length *)
Fixpoint read_pattern (n : nat) (ts : list tree) : option (list npat) :=
  match n with
  | O => None
  | S n' =>
      match ts with
      | [] => Some []
      | Lf l :: r =>
          if is_punct (Lf l) "$" then
            match r with
            | Gr Paren g :: Lf o :: r' =>
                if is_punct (Lf o) "*" || is_punct (Lf o) "?"
                then match read_pattern n' g, read_pattern n' r' with Some p, Some ps => Some (NRep (is_punct (Lf o) "?") p :: ps) | _, _ => None end
                else None
            | Lf (LId x) :: c :: Lf (LId f) :: r' =>
                if is_punct c ":" then match fragment_named f, read_pattern n' r' with Some f, Some ps => Some (NVar x f :: ps) | _, _ => None end else None
            | _ => None
            end
          else match read_pattern n' r with Some ps => Some (NTk l :: ps) | None => None end
      | Gr d g :: r => match read_pattern n' g, read_pattern n' r with Some p, Some ps => Some (NGrp d p :: ps) | _, _ => None end
      end
  end.
(** The local variables in macros.rs.  Hygiene: they are not those of the same name in a declaration,
    from which the prime distinguishes them. *)
Definition macro_locals : list string := ["last_field_id"; "field_type"; "stop"; "input"; "output"; "inner"; "value"]%string.
Definition marked (l : leaf) : leaf :=
  match l with LId n => if existsb (String.eqb n) macro_locals then LId (n ++ "'") else l | _ => l end.
Definition drop_semicolon (ts : list tree) : list tree :=
  match ts with t :: r => if is_punct t ";" then r else ts | [] => [] end.
(** [xs]: the variables; [ms]: the macros of the file *)
Fixpoint read_template (ms xs : list string) (n : nat) (ts : list tree) : option (list template) :=
  match n with
  | O => None
  | S n' =>
      let go := read_template ms xs n' in
      let and_then (t : template) (r : list tree) := match go r with Some l => Some (t :: l) | None => None end in
      match ts with
      | [] => Some []
      | Lf (LId "stringify") :: b :: Gr Paren g :: r =>
          if is_punct b "!" then match go g with Some x => and_then (XStringify x) r | None => None end else None
      | Lf (LId "concat") :: b :: Gr Paren g :: r =>
          if is_punct b "!" then match go g with Some x => and_then (XConcat x) r | None => None end else None
      | Lf (LPunct "$") :: Gr Paren g :: o :: r =>
          match go g with
          | None => None
          | Some x =>
              if is_punct o "*" || is_punct o "?" then and_then (XRep x None) r
              else match o, r with
                   | Lf l, t :: r' => if is_punct t "*" then and_then (XRep x (Some l)) r' else None
                   | _, _ => None
                   end
          end
      | Lf (LPunct "$") :: Lf (LId "crate") :: c :: Lf (LId m) :: b :: Gr d g :: r =>
          if is_punct c "::" && is_punct b "!" && existsb (String.eqb m) ms
          then match go g with Some x => and_then (XCall m x) (drop_semicolon r) | None => None end
          else and_then (XTk (LPunct "$")) (tl ts)
      | Lf (LPunct "$") :: Lf (LId x) :: r =>
          if existsb (String.eqb x) xs then and_then (XVar x) r else and_then (XTk (LPunct "$")) (tl ts)
      | Lf l :: r => and_then (XTk (marked l)) r
      | Gr d g :: r => match go g with Some x => and_then (XGrp d x) r | None => None end
      end
  end.
(** The rules between the braces of macro_rules! *)
Fixpoint read_rules (ms : list string) (n : nat) (ts : list tree) : option (list rule) :=
  match ts, n with
  | [], _ => Some []
  | Gr Paren p :: a :: Gr Brace b :: r, S n' =>
      if is_punct a "=>" then
        match read_pattern 200 p with
        | Some ps =>
            match read_template ms (flat_map variables ps) 200 b, read_rules ms n' (drop_semicolon r) with
            | Some x, Some l => Some ((ps, x) :: l)
            | _, _ => None
            end
        | None => None
        end
      else None
  | _, _ => None
  end.
(** The definitions of the file: name and rules; attributes are passed over. *)
Fixpoint definitions (n : nat) (ts : list tree) : option (list (string * list tree)) :=
  match ts, n with
  | [], _ => Some []
  | h :: Gr Bracket _ :: r, S n' => if is_punct h "#" then definitions n' r else None
  | Lf (LId "macro_rules") :: b :: Lf (LId m) :: Gr Brace g :: r, S n' =>
      if is_punct b "!" then match definitions n' r with Some l => Some ((m, g) :: l) | None => None end else None
  | _, _ => None
  end.
Definition read_macros (s : list Z) : option (list (string * list rule)) :=
  match all_trees s with
  | None => None
  | Some ts =>
      match definitions (List.length ts) ts with
      | None => None
      | Some ds => all_of (fun d => match read_rules (map fst ds) 20 (snd d) with Some l => Some (fst d, l) | None => None end) ds
      end
  end.

(** * Expansion *)
Inductive entry : Type :=
| EOne (x : string) (ts : list tree)
| EReps (xs : list string) (rounds : list (list entry)).
Definition collect_all (f : npat -> found -> list entry) : list npat -> list found -> list entry :=
  fix go ps fs := match ps, fs with p :: ps', x :: fs' => f p x ++ go ps' fs' | _, _ => [] end.
(** What the variables of a pattern stand for *)
Fixpoint collect (p : npat) (x : found) : list entry :=
  match p, x with
  | NVar v _, Got ts => [EOne v ts]
  | NGrp _ ps, Sub fs => collect_all collect ps fs
  | NRep _ ps, Reps l => [EReps (flat_map variables ps) (map (collect_all collect ps) l)]
  | _, _ => []
  end.
Fixpoint the_one (env : list entry) (x : string) : option (list tree) :=
  match env with
  | EOne y ts :: env' => if String.eqb x y then Some ts else the_one env' x
  | _ :: env' => the_one env' x
  | [] => None
  end.
Fixpoint used (t : template) : list string :=
  match t with
  | XTk _ => []
  | XVar x => [x]
  | XGrp _ xs | XRep xs _ | XCall _ xs | XStringify xs | XConcat xs => flat_map used xs
  end.
Fixpoint the_rounds (env : list entry) (xs : list string) : option (list (list entry)) :=
  match env with
  | EReps ys l :: env' => if existsb (fun x => existsb (String.eqb x) ys) xs then Some l else the_rounds env' xs
  | _ :: env' => the_rounds env' xs
  | [] => None
  end.
Definition joined (f : template -> option (list tree)) : list template -> option (list tree) :=
  fix go xs :=
    match xs with
    | [] => Some []
    | x :: xs' => match f x, go xs' with Some a, Some b => Some (a ++ b) | _, _ => None end
    end.
Fixpoint separated (sep : option leaf) (l : list (list tree)) : list tree :=
  match l with
  | [] => []
  | [a] => a
  | a :: l' => a ++ match sep with Some s => [Lf s] | None => [] end ++ separated sep l'
  end.
Definition quoted_literal (w : list Z) : tree := Lf (LLit (34 :: w ++ [34])).
(** The contents of string literals separated by commas *)
Fixpoint contents (ts : list tree) : option (list Z) :=
  match ts with
  | [] => Some []
  | Lf (LLit (34 :: w)) :: [] => Some (removelast w)
  | Lf (LLit (34 :: w)) :: c :: r => if is_punct c "," then match contents r with Some v => Some (removelast w ++ v) | None => None end else None
  | _ => None
  end.
(** [call]: the other macros of the file *)
Fixpoint transcribe (call : string -> list tree -> option (list tree)) (env : list entry) (t : template) : option (list tree) :=
  match t with
  | XTk l => Some [Lf l]
  | XVar x => the_one env x
  | XGrp d xs => match joined (transcribe call env) xs with Some g => Some [Gr d g] | None => None end
  | XRep xs sep =>
      match the_rounds env (flat_map used xs) with
      | Some l => match all_of (fun round => joined (transcribe call (round ++ env)) xs) l with Some r => Some (separated sep r) | None => None end
      | None => None
      end
  | XCall m xs => match joined (transcribe call env) xs with Some ts => call m ts | None => None end
  | XStringify xs => match joined (transcribe call env) xs with Some ts => Some [quoted_literal (text (literal_text ts))] | None => None end
  | XConcat xs => match joined (transcribe call env) xs with Some ts => match contents ts with Some w => Some [quoted_literal w] | None => None end | None => None end
  end.
Definition transcription (call : string -> list tree -> option (list tree)) (env : list entry) (xs : list template) : option (list tree) := joined (transcribe call env) xs.
(** The first rule that matches *)
Fixpoint by_rules (call : string -> list tree -> option (list tree)) (rs : list rule) (ts : list tree) : option (list tree) :=
  match rs with
  | [] => None
  | (ps, x) :: rs' =>
      match match_all (map erase ps) ts with
      | Some fs => transcription call (collect_all collect ps fs) x
      | None => by_rules call rs' ts
      end
  end.
Fixpoint rules_of (ms : list (string * list rule)) (m : string) : option (list rule) :=
  match ms with
  | [] => None
  | (n, rs) :: ms' => if String.eqb m n then Some rs else rules_of ms' m
  end.
(** [n]: how deep macros call macros *)
Fixpoint expansion (ms : list (string * list rule)) (n : nat) (m : string) (ts : list tree) : option (list tree) :=
  match n with
  | O => None
  | S n' => match rules_of ms m with Some rs => by_rules (expansion ms n') rs ts | None => None end
  end.
