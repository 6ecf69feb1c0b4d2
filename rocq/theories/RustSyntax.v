(** The part of the syntax of Rust in which the runtime is written: items, statements, expressions,
    patterns and types, and how they are read from tokens.
    [None]: not Rust, or not in this part. *)
From Verif Require Import Base ErrorName RustLex RustMacro MacroRules.
Open Scope Z_scope.
Open Scope list_scope.

(** * Syntax *)
Inductive ity : Type := U8 | U16 | U32 | U64 | Usize | I8 | I16 | I32 | I64.
Inductive rtype : Type :=
| YInt (t : ity)
| YTup (ts : list rtype)                 (* (A, B); () *)
| YApp (n : string) (ts : list rtype)    (* a path, by its last name, with its arguments *)
| YRef (mut : bool) (t : rtype)
| YSlice (t : rtype)
| YPtr
| YInfer.                                (* _ *)
Inductive rpat : Type :=
| PAny                                   (* _ *)
| PName (x : string)                     (* x, mut x *)
| PRange (a b : Z)                       (* a, a..=b *)
| POr (p q : rpat)
| PTup (ps : list rpat)
| PCtor (path : list string) (p : rpat)  (* A::B(p) *)
| PCons (x y : string).                  (* [x, y @ ..] *)
Inductive rexpr : Type :=
| XNum (z : Z) (t : option ity)
| XBool (b : bool)
| XPath (p : list string)
| XTup (es : list rexpr)
| XArray (es : list rexpr)               (* [a, b] *)
| XFilled (e n : rexpr)                  (* [e; n] *)
| XField (e : rexpr) (f : string)
| XIndex (e i : rexpr)
| XRange (a b : option rexpr)            (* a..b *)
| XUn (op : string) (e : rexpr)
| XBin (op : string) (a b : rexpr)
| XAs (e : rexpr) (t : rtype)
| XTry (e : rexpr)
| XCall (p : list string) (es : list rexpr)
| XMethod (e : rexpr) (m : string) (es : list rexpr)
| XMacro (n : string) (e : rexpr)        (* n!(e) *)
| XClosure (p : rpat) (e : rexpr)
| XBlock (b : rexpr)
| XIf (c : rexpr) (b : rexpr) (o : option rexpr)
| XIfLet (p : rpat) (e : rexpr) (b : rexpr) (o : option rexpr)
| XMatch (e : rexpr) (arms : list (rpat * rexpr))
| XLoop (b : rexpr)
| XWhile (c : rexpr) (b : rexpr)
| XFor (p : rpat) (e : rexpr) (b : rexpr)
| XBreak
| XReturn (e : rexpr)
| XAssign (op : string) (e v : rexpr)    (* e = v, e += v *)
(* what is between the braces of a block *)
| BNil
| BLet (p : rpat) (e b : rexpr)          (* let p = e; b *)
| BDo (e : rexpr) (semi : bool) (b : rexpr).   (* e; b, or e b *)
Definition rblock : Type := rexpr.
Record rfn : Type := { fn_attrs : list (list tree); fn_name : string; fn_params : list (rpat * rtype); fn_ret : rtype; fn_body : option rblock }.
Inductive ritem : Type :=
| GFn (f : rfn)
| GConst (n : string) (t : rtype) (e : option rexpr)
| GTrait (n : string) (is : list ritem)
| GImpl (head : list tree) (is : list ritem)
| GOther (n : string).                   (* use, struct *)

(** * Types *)
Definition ity_names : list (string * ity) :=
  [("u8", U8); ("u16", U16); ("u32", U32); ("u64", U64); ("usize", Usize); ("i8", I8); ("i16", I16); ("i32", I32); ("i64", I64)]%string.
Fixpoint assoc {A} (l : list (string * A)) (n : string) : option A :=
  match l with [] => None | (m, a) :: l' => if String.eqb n m then Some a else assoc l' n end.
Definition on {A B} (o : option A) (f : A -> option B) : option B := match o with Some a => f a | None => None end.
Definition is_name (t : tree) (s : string) : bool := match t with Lf (LId n) => String.eqb n s | _ => false end.
(** The trees between separators, angle brackets taken as plain tokens *)
Fixpoint split (sep : string) (ts acc : list tree) : list (list tree) :=
  match ts with
  | [] => match acc with [] => [] | _ => [rev acc] end
  | t :: r => if is_punct t sep then rev acc :: split sep r [] else split sep r (t :: acc)
  end.
(** [n]: at least the number of trees.  The rest is what follows the type. *)
Fixpoint read_type (n : nat) (ts : list tree) : option (rtype * list tree) :=
  match n with
  | O => None
  | S n' =>
      match ts with
      | Gr Paren g :: r =>
          on ((fix all l := match l with [] => Some [] | t :: l' => on (read_type n' t) (fun u => on (all l') (fun us => match snd u with [] => Some (fst u :: us) | _ => None end)) end)
                (split "," g [])) (fun us => Some (YTup us, r))
      | Gr Bracket g :: r => on (read_type n' g) (fun u => match snd u with [] => Some (YSlice (fst u), r) | _ => None end)
      | Lf (LPunct p) :: r =>
          if String.eqb p "&" then
            let r := match r with Lf (LId l) :: r' => if Z.eqb (hd 0 (text l)) 39 then r' else r | _ => r end in
            match r with
            | t :: r' => if is_name t "mut" then on (read_type n' r') (fun u => Some (YRef true (fst u), snd u)) else on (read_type n' r) (fun u => Some (YRef false (fst u), snd u))
            | [] => None
            end
          else if String.eqb p "*" then match r with _ :: r' => on (read_type n' r') (fun u => Some (YPtr, snd u)) | [] => None end
          else None
      | Lf (LId x) :: r =>
          match r with
          | t :: r' =>
              if is_punct t "::" then read_type n' r'
              else if is_punct t "<" then
                (fix args k l := match k with
                                 | O => None
                                 | S k' => on (read_type n' l) (fun u =>
                                     match snd u with
                                     | t :: l' => if is_punct t "," then on (args k' l') (fun us => match us with (YApp x ts, r) => Some (YApp x (fst u :: ts), r) | _ => None end)
                                                  else if is_punct t ">" then Some (YApp x [fst u], l') else None
                                     | [] => None
                                     end)
                                 end) n' r'
              else Some (match assoc ity_names x with Some i => YInt i | None => if String.eqb x "_" then YInfer else YApp x [] end, r)
          | [] => Some (match assoc ity_names x with Some i => YInt i | None => if String.eqb x "_" then YInfer else YApp x [] end, [])
          end
      | _ => None
      end
  end.
Definition whole_type (ts : list tree) : option rtype :=
  on (read_type (S (List.length ts)) ts) (fun u => match snd u with [] => Some (fst u) | _ => None end).

(** * Numbers *)
Definition without_suffix (w : list Z) (n : string) : option (list Z) :=
  let k := List.length (text n) in
  let l := List.length w in
  if Nat.ltb k l && (fix eqs a b := match a, b with [], [] => true | x :: a', y :: b' => Z.eqb x y && eqs a' b' | _, _ => false end) (skipn (l - k) w) (text n)
  then Some (firstn (l - k) w) else None.
Fixpoint read_suffix (l : list (string * ity)) (w : list Z) : option (Z * option ity) :=
  match l with
  | [] => on (int_value w) (fun z => Some (z, None))
  | (n, t) :: l' => match without_suffix w n with Some w' => on (int_value w') (fun z => Some (z, Some t)) | None => read_suffix l' w end
  end.
Definition read_number (w : list Z) : option (Z * option ity) := read_suffix ity_names w.

(** * Patterns *)
Fixpoint read_path (n : nat) (ts : list tree) : option (list string * list tree) :=
  match n, ts with
  | S n', Lf (LId x) :: r =>
      match r with
      | t :: r' => if is_punct t "::" then on (read_path n' r') (fun u => Some (x :: fst u, snd u)) else Some ([x], r)
      | [] => Some ([x], r)
      end
  | _, _ => None
  end.
Fixpoint read_pat (n : nat) (ts : list tree) : option (rpat * list tree) :=
  match n with
  | O => None
  | S n' =>
      let alternative (p : rpat) (r : list tree) :=
        match r with
        | t :: r' => if is_punct t "|" then on (read_pat n' r') (fun u => Some (POr p (fst u), snd u)) else Some (p, r)
        | [] => Some (p, r)
        end in
      match ts with
      | Lf (LLit w) :: r =>
          on (read_number w) (fun a =>
            match r with
            | t :: Lf (LLit w') :: r' => if is_punct t "..=" then on (read_number w') (fun b => alternative (PRange (fst a) (fst b)) r') else alternative (PRange (fst a) (fst a)) r
            | _ => alternative (PRange (fst a) (fst a)) r
            end)
      | Gr Paren g :: r =>
          on ((fix all l := match l with [] => Some [] | t :: l' => on (read_pat n' t) (fun u => on (all l') (fun us => match snd u with [] => Some (fst u :: us) | _ => None end)) end)
                (split "," g [])) (fun us => Some (PTup us, r))
      | Gr Bracket [Lf (LId x); c; Lf (LId y); a; d] :: r =>
          if is_punct c "," && is_punct a "@" && is_punct d ".." then Some (PCons x y, r) else None
      | Lf (LId x) :: r =>
          if String.eqb x "_" then alternative PAny r
          else if String.eqb x "mut" then match r with Lf (LId y) :: r' => Some (PName y, r') | _ => None end
          else on (read_path n' ts) (fun u =>
            match snd u with
            | Gr Paren g :: r' => on (read_pat n' g) (fun v => match snd v with [] => Some (PCtor (fst u) (fst v), r') | _ => None end)
            | r' => match fst u with [y] => Some (PName y, r') | _ => None end
            end)
      | _ => None
      end
  end.

(** * Expressions *)
(** How strongly an operator binds *)
Definition binding : list (string * nat) :=
  [("*", 10); ("/", 10); ("%", 10); ("+", 9); ("-", 9); ("<<", 8); (">>", 8); ("&", 7); ("^", 6); ("|", 5);
   ("==", 4); ("!=", 4); ("<", 4); (">", 4); ("<=", 4); (">=", 4); ("&&", 3); ("||", 2)]%string%nat.
Definition assigning : list string := ["="; "+="; "-="; "*="; "/="; "%="; "^="; "&="; "|="; "<<="; ">>="]%string.
(** A statement that starts with one of these words ends with its block. *)
Definition block_words : list string := ["if"; "match"; "loop"; "while"; "for"; "unsafe"]%string.
Definition starts_block (ts : list tree) : bool :=
  match ts with
  | Lf (LId x) :: _ => existsb (String.eqb x) block_words
  | Gr Brace _ :: _ => true
  | _ => false
  end.

(** [n]: bound on the nesting of calls *)
Fixpoint read_expr (n : nat) (ts : list tree) {struct n} : option (rexpr * list tree) :=
  match n with
  | O => None
  | S n' =>
      match ts with
      | t :: r =>
          if is_name t "return" then
            match r with
            | [] => Some (XReturn (XTup []), r)
            | t' :: _ => if is_punct t' ";" then Some (XReturn (XTup []), r) else on (read_expr n' r) (fun u => Some (XReturn (fst u), snd u))
            end
          else if is_name t "break" then Some (XBreak, r)
          else if is_name t "move" then
            match r with
            | t' :: r' => if is_punct t' "||" then on (read_expr n' r') (fun v => Some (XClosure PAny (fst v), snd v)) else None
            | [] => None
            end
          else if is_punct t "|" then
            match r with
            | Lf (LId x) :: t' :: r' =>
                if is_punct t' "|" then on (read_expr n' r') (fun v => Some (XClosure (if String.eqb x "_" then PAny else PName x) (fst v), snd v)) else None
            | _ => None
            end
          else if is_punct t ".." then
            match r with
            | [] => Some (XRange None None, [])
            | _ => on (read_level n' 0 r) (fun u => Some (XRange None (Some (fst u)), snd u))
            end
          else
            on (read_level n' 0 ts) (fun u =>
              match snd u with
              | Lf (LPunct p) :: r' =>
                  if existsb (String.eqb p) assigning then on (read_expr n' r') (fun v => Some (XAssign p (fst u) (fst v), snd v))
                  else if String.eqb p ".." then
                    match r' with
                    | [] => Some (XRange (Some (fst u)) None, [])
                    | _ => on (read_level n' 0 r') (fun v => Some (XRange (Some (fst u)) (Some (fst v)), snd v))
                    end
                  else Some u
              | _ => Some u
              end)
      | [] => None
      end
  end
(** Operators that bind at least as strongly as [l] *)
with read_level (n : nat) (l : nat) (ts : list tree) {struct n} : option (rexpr * list tree) :=
  match n with
  | O => None
  | S n' => on (read_unary n' ts) (fun u => read_rest n' l (fst u) (snd u))
  end
with read_rest (n : nat) (l : nat) (e : rexpr) (ts : list tree) {struct n} : option (rexpr * list tree) :=
  match n with
  | O => None
  | S n' =>
      match ts with
      | Lf (LPunct p) :: r =>
          match assoc binding p with
          | Some k => if Nat.leb l k then on (read_level n' (S k) r) (fun u => read_rest n' l (XBin p e (fst u)) (snd u)) else Some (e, ts)
          | None => Some (e, ts)
          end
      | Lf (LId x) :: r =>
          if String.eqb x "as" then on (read_type n' r) (fun u => read_rest n' l (XAs e (fst u)) (snd u)) else Some (e, ts)
      | _ => Some (e, ts)
      end
  end
with read_unary (n : nat) (ts : list tree) {struct n} : option (rexpr * list tree) :=
  match n with
  | O => None
  | S n' =>
      match ts with
      | Lf (LPunct p) :: r =>
          if String.eqb p "&" then
            match r with
            | t :: r' => if is_name t "mut" then on (read_unary n' r') (fun u => Some (XUn "&mut" (fst u), snd u)) else on (read_unary n' r) (fun u => Some (XUn "&" (fst u), snd u))
            | [] => None
            end
          else if existsb (String.eqb p) ["!"; "-"; "*"]%string then on (read_unary n' r) (fun u => Some (XUn p (fst u), snd u))
          else None
      | _ => on (read_atom n' ts) (fun u => read_postfix n' (fst u) (snd u))
      end
  end
with read_postfix (n : nat) (e : rexpr) (ts : list tree) {struct n} : option (rexpr * list tree) :=
  match n with
  | O => None
  | S n' =>
      match ts with
      | Lf (LPunct p) :: r =>
          if String.eqb p "?" then read_postfix n' (XTry e) r
          else if String.eqb p "." then
            match r with
            | Lf (LId m) :: Gr Paren g :: r' => on (read_exprs n' (split "," g [])) (fun es => read_postfix n' (XMethod e m es) r')
            | Lf (LId f) :: r' => read_postfix n' (XField e f) r'
            | Lf (LLit w) :: r' => read_postfix n' (XField e (string_of w)) r'
            | _ => None
            end
          else Some (e, ts)
      | Gr Bracket g :: r => on (read_expr n' g) (fun u => match snd u with [] => read_postfix n' (XIndex e (fst u)) r | _ => None end)
      | Gr Paren g :: r =>
          match e with
          | XPath p => on (read_exprs n' (split "," g [])) (fun es => read_postfix n' (XCall p es) r)
          | _ => None
          end
      | _ => Some (e, ts)
      end
  end
with read_exprs (n : nat) (l : list (list tree)) {struct n} : option (list rexpr) :=
  match n with
  | O => None
  | S n' =>
      match l with
      | [] => Some []
      | ts :: l' => on (read_expr n' ts) (fun u => match snd u with [] => on (read_exprs n' l') (fun es => Some (fst u :: es)) | _ => None end)
      end
  end
with read_atom (n : nat) (ts : list tree) {struct n} : option (rexpr * list tree) :=
  match n with
  | O => None
  | S n' =>
      let conditional (r : list tree) (k : rexpr -> rblock -> option rexpr -> option rexpr) (e : rexpr) : option (rexpr * list tree) :=
        match r with
        | Gr Brace g :: r' =>
            on (read_block n' g) (fun b =>
              match r' with
              | t :: r'' =>
                  if is_name t "else" then on (read_atom n' r'') (fun v => on (k e b (Some (fst v))) (fun x => Some (x, snd v)))
                  else on (k e b None) (fun x => Some (x, r'))
              | [] => on (k e b None) (fun x => Some (x, r'))
              end)
        | _ => None
        end in
      match ts with
      | Lf (LLit w) :: r => on (read_number w) (fun u => Some (XNum (fst u) (snd u), r))
      | Gr Paren g :: r =>
          match split "," g [] with
          | [ts'] => on (read_expr n' ts') (fun u => match snd u with [] => Some (fst u, r) | _ => None end)
          | l => on (read_exprs n' l) (fun es => Some (XTup es, r))
          end
      | Gr Bracket g :: r =>
          match split ";" g [] with
          | [a; b] => on (read_exprs n' [a; b]) (fun es => match es with [x; y] => Some (XFilled x y, r) | _ => None end)
          | _ => on (read_exprs n' (split "," g [])) (fun es => Some (XArray es, r))
          end
      | Gr Brace g :: r => on (read_block n' g) (fun b => Some (XBlock b, r))
      | Lf (LId x) :: r =>
          if String.eqb x "true" then Some (XBool true, r)
          else if String.eqb x "false" then Some (XBool false, r)
          else if String.eqb x "unsafe" then match r with Gr Brace g :: r' => on (read_block n' g) (fun b => Some (XBlock b, r')) | _ => None end
          else if String.eqb x "loop" then match r with Gr Brace g :: r' => on (read_block n' g) (fun b => Some (XLoop b, r')) | _ => None end
          else if String.eqb x "while" then
            on (read_level n' 0 r) (fun u => match snd u with Gr Brace g :: r' => on (read_block n' g) (fun b => Some (XWhile (fst u) b, r')) | _ => None end)
          else if String.eqb x "for" then
            on (read_pat n' r) (fun u =>
              match snd u with
              | t :: r' =>
                  if is_name t "in" then on (read_expr n' r') (fun v => match snd v with Gr Brace g :: r'' => on (read_block n' g) (fun b => Some (XFor (fst u) (fst v) b, r'')) | _ => None end)
                  else None
              | [] => None
              end)
          else if String.eqb x "if" then
            match r with
            | t :: r' =>
                if is_name t "let" then
                  on (read_pat n' r') (fun u =>
                    match snd u with
                    | q :: r'' => if is_punct q "=" then on (read_level n' 0 r'') (fun v => conditional (snd v) (fun e b o => Some (XIfLet (fst u) e b o)) (fst v)) else None
                    | [] => None
                    end)
                else on (read_level n' 0 r) (fun u => conditional (snd u) (fun e b o => Some (XIf e b o)) (fst u))
            | [] => None
            end
          else if String.eqb x "match" then
            on (read_level n' 0 r) (fun u => match snd u with Gr Brace g :: r' => on (read_arms n' g) (fun l => Some (XMatch (fst u) l, r')) | _ => None end)
          else
            on (read_path n' ts) (fun u =>
              match snd u with
              | t :: Gr Paren g :: r' =>
                  if is_punct t "!" then
                    match fst u with
                    | [m] => on (read_expr n' g) (fun v => match snd v with [] => Some (XMacro m (fst v), r') | _ => None end)
                    | _ => None
                    end
                  else Some (XPath (fst u), snd u)
              | _ => Some (XPath (fst u), snd u)
              end)
      | _ => None
      end
  end
with read_arms (n : nat) (ts : list tree) {struct n} : option (list (rpat * rexpr)) :=
  match n with
  | O => None
  | S n' =>
      match ts with
      | [] => Some []
      | _ =>
          on (read_pat n' ts) (fun u =>
            match snd u with
            | t :: r =>
                if is_punct t "=>" then
                  on (if starts_block r then read_atom n' r else read_expr n' r) (fun v =>
                    match snd v with
                    | q :: r' => on (read_arms n' (if is_punct q "," then r' else snd v)) (fun l => Some ((fst u, fst v) :: l))
                    | [] => Some [(fst u, fst v)]
                    end)
                else None
            | [] => None
            end)
      end
  end
with read_block (n : nat) (ts : list tree) {struct n} : option rblock :=
  match n with
  | O => None
  | S n' =>
      match ts with
      | [] => Some BNil
      | t :: r =>
          if is_punct t ";" then read_block n' r
          else if is_name t "use" then
            (fix skip l := match l with [] => None | q :: l' => if is_punct q ";" then read_block n' l' else skip l' end) r
          else if is_name t "let" then
            on (read_pat n' r) (fun u =>
              match snd u with
              | q :: r' =>
                  if is_punct q "=" then
                    on (read_expr n' r') (fun v =>
                      match snd v with
                      | s :: r'' => if is_punct s ";" then on (read_block n' r'') (fun b => Some (BLet (fst u) (fst v) b)) else None
                      | [] => None
                      end)
                  else None
              | [] => None
              end)
          else if starts_block ts then
            on (read_atom n' ts) (fun u =>
              match snd u with
              | [] => Some (BDo (fst u) false BNil)
              | q :: r' => if is_punct q ";" then on (read_block n' r') (fun b => Some (BDo (fst u) true b))
                           else on (read_block n' (snd u)) (fun b => Some (BDo (fst u) false b))
              end)
          else
            on (read_expr n' ts) (fun u =>
              match snd u with
              | [] => Some (BDo (fst u) false BNil)
              | q :: r' => if is_punct q ";" then on (read_block n' r') (fun b => Some (BDo (fst u) true b)) else None
              end)
      end
  end.

(** * Items *)
Fixpoint upto (p : tree -> bool) (ts : list tree) : list tree * list tree :=
  match ts with
  | t :: r => if p t then ([], ts) else let (a, b) := upto p r in (t :: a, b)
  | [] => ([], [])
  end.
Definition is_group (d : delim) (t : tree) : bool := match t with Gr d' _ => delim_eqb d d' | _ => false end.
Definition read_param (ts : list tree) : option (rpat * rtype) :=
  let m := filter (fun t => negb (is_name t "mut")) ts in
  match rev m with
  | s :: _ =>
      if is_name s "self" then
        match ts with t :: _ => if is_punct t "&" then Some (PName "self", YRef (existsb (fun t => is_name t "mut") ts) (YApp "Self" [])) else None | [] => None end
      else on (read_pat (S (List.length ts)) ts) (fun u =>
        match snd u with c :: r => if is_punct c ":" then on (whole_type r) (fun t => Some (fst u, t)) else None | [] => None end)
  | [] => None
  end.
Fixpoint all_some {A} (l : list (option A)) : option (list A) :=
  match l with [] => Some [] | o :: l' => on o (fun a => on (all_some l') (fun r => Some (a :: r))) end.
(** After the word [fn] *)
Definition read_fn (n : nat) (attrs : list (list tree)) (ts : list tree) : option (ritem * list tree) :=
  match ts with
  | Lf (LId name) :: r =>
      match upto (is_group Paren) r with
      | (_, Gr Paren g :: r1) =>
          on (all_some (map read_param (split "," g []))) (fun ps =>
            match upto (fun t => is_group Brace t || is_punct t ";") r1 with
            | (sig, e :: r2) =>
                let (ret, _) := upto (fun t => is_name t "where") sig in
                on (match ret with [] => Some (YTup []) | a :: t => if is_punct a "->" then match t with x :: _ => if is_name x "impl" then Some (YApp "impl" []) else whole_type t | [] => None end else None end) (fun ty =>
                match e with
                | Gr Brace b => on (read_block n b) (fun b => Some (GFn {| fn_attrs := attrs; fn_name := name; fn_params := ps; fn_ret := ty; fn_body := Some b |}, r2))
                | _ => Some (GFn {| fn_attrs := attrs; fn_name := name; fn_params := ps; fn_ret := ty; fn_body := None |}, r2)
                end)
            | _ => None
            end)
      | _ => None
      end
  | _ => None
  end.
Fixpoint read_items (n : nat) (attrs : list (list tree)) (ts : list tree) {struct n} : option (list ritem) :=
  match n with
  | O => None
  | S n' =>
      match ts with
      | [] => Some []
      | Lf (LPunct p) :: Gr Bracket g :: r => if String.eqb p "#" then read_items n' (attrs ++ [g]) r else None
      | Lf (LId x) :: r =>
          let go (u : ritem * list tree) := on (read_items n' [] (snd u)) (fun l => Some (fst u :: l)) in
          if String.eqb x "pub" || String.eqb x "unsafe" then read_items n' attrs (match r with Gr Paren _ :: r' => r' | _ => r end)
          else if String.eqb x "use" || String.eqb x "struct" then
            match upto (fun t => is_punct t ";") r with (_, _ :: r') => go (GOther x, r') | _ => None end
          else if String.eqb x "fn" then on (read_fn n' attrs r) go
          else if String.eqb x "const" then
            match r with
            | Lf (LId c) :: q :: r1 =>
                match upto (fun t => is_punct t ";") r1 with
                | (d, _ :: r2) =>
                    let (t, e) := upto (fun t => is_punct t "=") d in
                    on (whole_type t) (fun t =>
                      match e with
                      | [] => go (GConst c t None, r2)
                      | _ :: e => on (read_expr n' e) (fun u => match snd u with [] => go (GConst c t (Some (fst u)), r2) | _ => None end)
                      end)
                | _ => None
                end
            | _ => None
            end
          else if String.eqb x "trait" then
            match r with
            | Lf (LId c) :: r1 =>
                match upto (is_group Brace) r1 with
                | (_, Gr Brace g :: r2) => on (read_items n' [] g) (fun l => go (GTrait c l, r2))
                | _ => None
                end
            | _ => None
            end
          else if String.eqb x "impl" then
            match upto (is_group Brace) r with
            | (h, Gr Brace g :: r2) => on (read_items n' [] g) (fun l => go (GImpl h l, r2))
            | _ => None
            end
          else None
      | _ => None
      end
  end.
Definition file_text (ls : list string) : list Z := List.concat (map (fun l => text l ++ [10]) ls).
Definition read_file (ls : list string) : option (list ritem) :=
  on (all_trees (file_text ls)) (fun ts => read_items (List.length (file_text ls)) [] ts).
