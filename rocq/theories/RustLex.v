(** The tokens of a Rust source text, as the compiler hands them to a macro.  The lexical rules
    are those of the Rust reference for edition 2021 (parquet/Cargo.toml:11).
    [None]: not a Rust text, or not modelled: raw and byte strings, raw identifiers, characters and
    lifetimes, escapes other than of one character, suffixes and exponents of numbers, octal and
    binary numbers, characters outside of ASCII other than in comments and strings.
    Carriage returns are blanks. *)
From Coq Require Import Ascii.
From Verif Require Import Base ErrorName.
Open Scope Z_scope.

Inductive delim : Type := Paren | Bracket | Brace.
Inductive rtok : Type :=
| RId (n : string)             (* identifier or keyword *)
| RLit (w : list Z)            (* number or string as written *)
| RPunct (s : string)
| ROpen (d : delim)
| RClose (d : delim)
| RDoc (inner : bool) (w : list Z).   (* doc comment; inner: documents what encloses it *)

Definition is_blank (c : Z) : bool := (9 <=? c) && (c <=? 13) || (c =? 32).
Definition is_digit (c : Z) : bool := (48 <=? c) && (c <=? 57).
Definition is_hex (c : Z) : bool := is_digit c || (65 <=? c) && (c <=? 70) || (97 <=? c) && (c <=? 102).
Definition is_start (c : Z) : bool := (65 <=? c) && (c <=? 90) || (97 <=? c) && (c <=? 122) || (c =? 95).
Definition is_cont (c : Z) : bool := is_start c || is_digit c.
Definition string_of (w : list Z) : string := string_of_list_ascii (map (fun c => ascii_of_nat (Z.to_nat c)) w).

Fixpoint span (p : Z -> bool) (s : list Z) : list Z * list Z :=
  match s with
  | c :: s' => if p c then let (w, r) := span p s' in (c :: w, r) else ([], s)
  | [] => ([], [])
  end.

(** The rest of a block comment with [n] more open around it. *)
Fixpoint block (n : nat) (s : list Z) : option (list Z * list Z) :=
  match s with
  | [] => None
  | 42 :: ((47 :: r) as s') =>
      match n with
      | O => Some ([], r)
      | S n' => match block n' r with Some (w, r) => Some (42 :: 47 :: w, r) | None => None end
      end
  | 47 :: ((42 :: r) as s') => match block (S n) r with Some (w, r) => Some (47 :: 42 :: w, r) | None => None end
  | c :: s' => match block n s' with Some (w, r) => Some (c :: w, r) | None => None end
  end.
Definition line_doc (w : list Z) : option rtok :=
  match w with
  | 33 :: w' => Some (RDoc true w')
  | 47 :: 47 :: _ => None
  | 47 :: w' => Some (RDoc false w')
  | _ => None
  end.
Definition block_doc (w : list Z) : option rtok :=
  match w with
  | 33 :: w' => Some (RDoc true w')
  | 42 :: 42 :: _ => None
  | 42 :: (_ :: _) as w' => Some (RDoc false w')
  | _ => None
  end.

(** The rest of a string. *)
Fixpoint quoted (s : list Z) : option (list Z * list Z) :=
  match s with
  | [] => None
  | 34 :: r => Some ([34], r)
  | 92 :: e :: r => if existsb (Z.eqb e) (text "nrt0" ++ [92; 39; 34]) then match quoted r with Some (w, r) => Some (92 :: e :: w, r) | None => None end else None
  | 92 :: [] => None
  | c :: r => match quoted r with Some (w, r) => Some (c :: w, r) | None => None end
  end.

Definition is_number (w : list Z) : bool :=
  forallb (fun c => is_digit c || (c =? 95)) w ||
  match w with
  | 48 :: 120 :: h => forallb (fun c => is_hex c || (c =? 95)) h && existsb is_hex h
  | _ => false
  end.
(** [s] starts with a digit. *)
Definition number (s : list Z) : option (list Z * list Z) :=
  let (w, r) := span is_cont s in
  if negb (is_number w) then None
  else match r with
       | 46 :: r' =>
           match r' with
           | c :: _ =>
               if (c =? 46) || is_start c then Some (w, r)
               else if negb (forallb (fun c => is_digit c || (c =? 95)) w) then None
               else let (w', r'') := span is_cont r' in
                    if forallb (fun c => is_digit c || (c =? 95)) w' then Some (w ++ 46 :: w', r'') else None
           | [] => if forallb (fun c => is_digit c || (c =? 95)) w then Some (w ++ [46], []) else None
           end
       | _ => Some (w, r)
       end.

Definition puncts : list string :=
  ["<<="; ">>="; "..."; "..="; "::"; "->"; "=>"; "=="; "<="; ">="; "!="; "&&"; "||"; "<<"; ">>"; "+="; "-="; "*="; "/="; "%="; "^="; "&="; "|=";
   ".."; "<-"; "+"; "-"; "*"; "/"; "%"; "^"; "!"; "&"; "|"; "="; ">"; "<"; "@"; "."; ","; ";"; ":"; "#"; "$"; "?"; "~"]%string.
Fixpoint strip (p s : list Z) : option (list Z) :=
  match p, s with
  | [], _ => Some s
  | a :: p', b :: s' => if a =? b then strip p' s' else None
  | _, [] => None
  end.
(** The first, and so longest, that matches *)
Fixpoint punct (ps : list string) (s : list Z) : option (string * list Z) :=
  match ps with
  | [] => None
  | p :: ps' => match strip (text p) s with Some r => Some (p, r) | None => punct ps' s end
  end.

Definition bracket (c : Z) : option rtok :=
  if c =? 40 then Some (ROpen Paren) else if c =? 41 then Some (RClose Paren)
  else if c =? 91 then Some (ROpen Bracket) else if c =? 93 then Some (RClose Bracket)
  else if c =? 123 then Some (ROpen Brace) else if c =? 125 then Some (RClose Brace) else None.

(** The first token, blank or comment ([None]: nothing for the macro), and what follows.  [s] is [c :: s']. *)
Definition next (c : Z) (s' : list Z) : option (option rtok * list Z) :=
  let s := c :: s' in
  if is_blank c then Some (None, s')
  else if is_start c then
    let (w, r) := span is_cont s in
    match r with
    | q :: _ => if (q =? 34) || (q =? 39) || (q =? 35) then None else Some (Some (RId (string_of w)), r)
    | [] => Some (Some (RId (string_of w)), r)
    end
  else if is_digit c then match number s with Some (w, r) => Some (Some (RLit w), r) | None => None end
  else if c =? 34 then
    match quoted s' with
    | Some (w, r) => match r with q :: _ => if is_start q then None else Some (Some (RLit (34 :: w)), r) | [] => Some (Some (RLit (34 :: w)), r) end
    | None => None
    end
  else match bracket c with
  | Some t => Some (Some t, s')
  | None =>
  match strip (text "//") s with
  | Some r => let (w, r) := span (fun c => negb (c =? 10)) r in Some (line_doc w, r)
  | None =>
  match strip (text "/*") s with
  | Some r => match block 0 r with Some (w, r) => Some (block_doc w, r) | None => None end
  | None => match punct puncts s with Some (p, r) => Some (Some (RPunct p), r) | None => None end
  end end end.
(** [n]: at least the length of [s] *)
Fixpoint rust_tokens (n : nat) (s : list Z) : option (list rtok) :=
  match s, n with
  | [], _ => Some []
  | _, O => None
  | c :: s', S n' =>
      match next c s' with
      | None => None
      | Some (o, r) =>
          match rust_tokens n' r with
          | None => None
          | Some ts => Some (match o with Some t => t :: ts | None => ts end)
          end
      end
  end.
Definition rust_lex (s : list Z) : option (list rtok) := rust_tokens (List.length s) s.

(** * Token trees *)
Inductive leaf : Type := LId (n : string) | LLit (w : list Z) | LPunct (s : string).
Inductive tree : Type := Lf (l : leaf) | Gr (d : delim) (ts : list tree).
(** A doc comment is an attribute. *)
Definition doc (inner : bool) (w : list Z) : list tree :=
  Lf (LPunct "#") :: (if inner then [Lf (LPunct "!")] else []) ++ [Gr Bracket [Lf (LId "doc"); Lf (LPunct "="); Lf (LLit (34 :: w ++ [34]))]].
Definition delim_eqb (a b : delim) : bool := match a, b with Paren, Paren | Bracket, Bracket | Brace, Brace => true | _, _ => false end.
(** [acc]: the trees of the open group in reverse; [st]: the groups around it *)
Fixpoint trees (ts : list rtok) (acc : list tree) (st : list (delim * list tree)) : option (list tree) :=
  match ts with
  | [] => match st with [] => Some (rev acc) | _ => None end
  | RId n :: ts' => trees ts' (Lf (LId n) :: acc) st
  | RLit w :: ts' => trees ts' (Lf (LLit w) :: acc) st
  | RPunct s :: ts' => trees ts' (Lf (LPunct s) :: acc) st
  | RDoc i w :: ts' => trees ts' (rev (doc i w) ++ acc) st
  | ROpen d :: ts' => trees ts' [] ((d, acc) :: st)
  | RClose d :: ts' =>
      match st with
      | (d', acc') :: st' => if delim_eqb d d' then trees ts' (Gr d (rev acc) :: acc') st' else None
      | [] => None
      end
  end.
Definition token_trees (s : list Z) : option (list tree) := match rust_lex s with Some ts => trees ts [] [] | None => None end.

Example rust_lex_1 : rust_lex (text "a::b<<=1..2 1.5 0xF_f 1. // c
  /* /* */ */ /** d */ /*** e */ /**/ ""\""x""({!>})") =
  Some [RId "a"; RPunct "::"; RId "b"; RPunct "<<="; RLit (text "1"); RPunct ".."; RLit (text "2"); RLit (text "1.5"); RLit (text "0xF_f"); RLit (text "1.");
    RDoc false (text " d "); RLit (text """\""x"""); ROpen Paren; ROpen Brace; RPunct "!"; RPunct ">"; RClose Brace; RClose Paren].
Proof. vm_compute. reflexivity. Qed.
