(** What the code read by [RustSyntax] does.
    Integers have a type and a range, arithmetic is checked or wraps as the build says, casts wrap,
    indices are checked, [?] returns, a block's variables end with it, and an argument given by [&mut]
    has the value the callee left in it afterwards.
    The one input or output of a function is an object the state of which is passed through.
    What is not in the text - the methods of the standard library - is listed below.
    [PIllTyped]: what the type checker of Rust excludes, or what is not listed. *)
From Verif Require Import Base Uleb Utf8 Protocol RustSyntax.
Open Scope Z_scope.
Open Scope list_scope.

(** * Integers *)
Definition bits (c : cfg) (t : ity) : Z :=
  match t with U8 | I8 => 8 | U16 | I16 => 16 | U32 | I32 => 32 | U64 | I64 => 64 | Usize => usize_bits c end.
Definition signed (t : ity) : bool := match t with I8 | I16 | I32 | I64 => true | _ => false end.
Definition fits (c : cfg) (t : ity) (z : Z) : bool := if signed t then in_sb (bits c t) z else in_ub (bits c t) z.
Definition wrap (c : cfg) (t : ity) (z : Z) : Z := if signed t then wraps (bits c t) z else wrapu (bits c t) z.
(** Whether a number may be written where one of the type is expected *)
Definition within (a z b : Z) : bool := match a ?= z, z ?= b with Gt, _ | _, Gt => false | _, _ => true end.
Definition below (z b : Z) : bool := match 0 ?= z, z ?= b with Gt, _ => false | _, Lt => true | _, _ => false end.
Definition lit_fits (t : ity) (z : Z) : bool :=
  match t with
  | U8 => within 0 z 255 | U16 => within 0 z 65535 | U32 | Usize => within 0 z 4294967295 | U64 => within 0 z 18446744073709551615
  | I8 => within (-128) z 127 | I16 => within (-32768) z 32767 | I32 => within (-2147483648) z 2147483647
  | I64 => within (-9223372036854775808) z 9223372036854775807
  end.
Definition ity_eqb (a b : ity) : bool :=
  match a, b with
  | U8, U8 | U16, U16 | U32, U32 | U64, U64 | Usize, Usize | I8, I8 | I16, I16 | I32, I32 | I64, I64 => true
  | _, _ => false
  end.

(** * Values; [X]: values the code only passes on *)
Inductive rvalue (X : Type) : Type :=
| RInt (t : ity) (z : Z)
| RLit (z : Z)                 (* a number the type of which follows from its use *)
| RAs (z : Z)                  (* [e as _]: the type follows from the use *)
| RBool (b : bool)
| RDouble (z : Z)              (* the 64-bit pattern *)
| RTup (vs : list (rvalue X))
| RBytes (l : list Z)          (* a slice, an array or a vector of bytes *)
| RCow (owned : bool) (l : list Z)
| RInto (l : list Z)           (* [e.into()], [e.try_into()]: the type follows from the use *)
| RSpace (n : Z)               (* an empty vector with that capacity *)
| RUninit (n : Z)              (* a vector of that length which nobody has written *)
| RChunk (l : list Z)          (* a 128 bit register *)
| RPtr (l : list Z)            (* a pointer to the first of these bytes *)
| ROk (v : rvalue X)
| RErr (v : rvalue X)
| RSome (v : rvalue X)
| RNone
| RError (e : error)
| RKind (k : io_kind)
| RList (vs : list (rvalue X))
| RShared (unique : bool) (v : rvalue X)   (* [Rc], [Arc]: whether this is the only reference *)
| RObj                         (* the input or the output *)
| RElem (x : X).
Arguments RInt {X}. Arguments RLit {X}. Arguments RAs {X}. Arguments RBool {X}. Arguments RDouble {X}. Arguments RTup {X}.
Arguments RBytes {X}. Arguments RCow {X}. Arguments RInto {X}. Arguments RSpace {X}. Arguments RUninit {X}. Arguments RChunk {X}.
Arguments RPtr {X}. Arguments ROk {X}. Arguments RErr {X}. Arguments RSome {X}. Arguments RNone {X}. Arguments RError {X}.
Arguments RKind {X}. Arguments RList {X}. Arguments RShared {X}. Arguments RObj {X}. Arguments RElem {X}.

Section Values.
  Context {X : Type}.
  Notation rvalue := (rvalue X).
  Variable c : cfg.

  Definition RUnit : rvalue := RTup [].

  (** A value or a panic *)
  Inductive vres : Type := VOk (v : rvalue) | VPan (p : panic).

  (** ** Where the type follows from the use *)
  Fixpoint coerce (t : rtype) (v : rvalue) {struct t} : option rvalue :=
    match t with
    | YInt i =>
        match v with
        | RInt i' z => if ity_eqb i i' then Some v else None
        | RLit z => if lit_fits i z then Some (RInt i z) else None
        | RAs z => Some (RInt i (wrap c i z))
        | _ => None
        end
    | YTup ts =>
        match v with
        | RTup vs =>
            on ((fix all ts vs := match ts, vs with
                                  | [], [] => Some []
                                  | t :: ts', v :: vs' => on (coerce t v) (fun v' => on (all ts' vs') (fun r => Some (v' :: r)))
                                  | _, _ => None
                                  end) ts vs) (fun vs' => Some (RTup vs'))
        | _ => None
        end
    | YRef _ t' => coerce t' v
    | YApp n ts =>
        if String.eqb n "Result" then
          match v with
          | ROk a => match ts with t' :: _ => on (coerce t' a) (fun a' => Some (ROk a')) | [] => None end
          | RErr _ => Some v
          | _ => None
          end
        else if String.eqb n "bool" then match v with RBool _ => Some v | _ => None end
        else if String.eqb n "f64" then match v with RDouble _ => Some v | _ => None end
        else if String.eqb n "Cow" then match v with RCow _ _ => Some v | RInto l => Some (RCow true l) | _ => None end
        else Some v
    | YSlice _ => match v with RBytes _ => Some v | _ => None end
    | YPtr | YInfer => None
    end.

  (** ** Operators *)
  Definition checked (t : ity) (z : Z) : vres :=
    if fits c t z then VOk (RInt t z) else if overflow_checks c then VPan POverflow else VOk (RInt t (wrap c t z)).
  Definition int_op (op : string) (t : ity) (a b : Z) : vres :=
    if String.eqb op "+" then checked t (a + b)
    else if String.eqb op "-" then checked t (a - b)
    else if String.eqb op "*" then checked t (a * b)
    else if String.eqb op "&" then VOk (RInt t (Z.land a b))
    else if String.eqb op "|" then VOk (RInt t (Z.lor a b))
    else if String.eqb op "^" then VOk (RInt t (Z.lxor a b))
    else if String.eqb op "==" then VOk (RBool (a =? b))
    else if String.eqb op "!=" then VOk (RBool (negb (a =? b)))
    else if String.eqb op "<" then VOk (RBool (a <? b))
    else if String.eqb op ">" then VOk (RBool (b <? a))
    else if String.eqb op "<=" then VOk (RBool (a <=? b))
    else if String.eqb op ">=" then VOk (RBool (b <=? a))
    else VPan PIllTyped.
  (** A shift by at least the width is an overflow; unchecked, the amount is taken modulo the width. *)
  Definition shift_op (op : string) (t : ity) (a n : Z) : vres :=
    let shifted (n : Z) := VOk (RInt t (if String.eqb op "<<" then wrap c t (Z.shiftl a n) else Z.shiftr a n)) in
    if below n (bits c t) then shifted n
    else if overflow_checks c then VPan POverflow else shifted (n mod bits c t).
  Definition is_shift (op : string) : bool := String.eqb op "<<" || String.eqb op ">>".
  Definition binop (op : string) (a b : rvalue) : vres :=
    match a, b with
    | RInt t x, RInt t' y => if is_shift op then shift_op op t x y else if ity_eqb t t' then int_op op t x y else VPan PIllTyped
    | RInt t x, RLit y => if is_shift op then shift_op op t x y else if lit_fits t y then int_op op t x y else VPan PIllTyped
    | RLit x, RInt t y =>
        if is_shift op then if (0 <=? y) && (y <? 31) && String.eqb op "<<" then VOk (RLit (Z.shiftl x y)) else VPan PIllTyped
        else if lit_fits t x then int_op op t x y else VPan PIllTyped
    | RLit x, RLit y =>
        if String.eqb op "*" then VOk (RLit (x * y)) else if String.eqb op "+" then VOk (RLit (x + y)) else VPan PIllTyped
    | _, _ => VPan PIllTyped
    end.
  Definition unop (op : string) (a : rvalue) : vres :=
    if String.eqb op "!" then
      match a with
      | RBool b => VOk (RBool (negb b))
      | RInt t z => VOk (RInt t (if signed t then Z.lnot z else wrap c t (Z.lnot z)))
      | _ => VPan PIllTyped
      end
    else if String.eqb op "-" then match a with RInt t z => if signed t then checked t (- z) else VPan PIllTyped | _ => VPan PIllTyped end
    else if String.eqb op "*" || String.eqb op "&" || String.eqb op "&mut" then VOk a
    else VPan PIllTyped.
  (** [e as t] *)
  Definition cast (t : rtype) (a : rvalue) : vres :=
    match t, a with
    | YInt i, RInt _ z => VOk (RInt i (wrap c i z))
    | YInt i, RLit z => VOk (RInt i (wrap c i z))
    | YInt i, RBool b => VOk (RInt i (if b then 1 else 0))
    | YInfer, RInt _ z => VOk (RAs z)
    | _, _ => VPan PIllTyped
    end.
  (** The operator of a compound assignment *)
  Definition compound (op : string) : option string :=
    assoc [("+=", "+"); ("-=", "-"); ("*=", "*"); ("&=", "&"); ("|=", "|"); ("^=", "^"); ("<<=", "<<"); (">>=", ">>")]%string op.

  (** ** Indices *)
  Definition usize_of (v : rvalue) : option Z :=
    match v with RInt Usize z => Some z | RLit z => if lit_fits Usize z then Some z else None | _ => None end.
  Definition index (a i : rvalue) : vres :=
    match a, usize_of i with
    | RBytes l, Some z => match nth_error l (Z.to_nat z) with Some b => if 0 <=? z then VOk (RInt U8 b) else VPan PIllTyped | None => VPan PSliceIndex end
    | _, _ => VPan PIllTyped
    end.
  Definition index_range (a : rvalue) (i j : option rvalue) : vres :=
    match a with
    | RBytes l =>
        match match i with None => Some 0 | Some v => usize_of v end, match j with None => Some (zlen l) | Some v => usize_of v end with
        | Some x, Some y =>
            if (x <=? y) && (y <=? zlen l) then VOk (RBytes (firstn (Z.to_nat (y - x)) (skipn (Z.to_nat x) l))) else VPan PSliceIndex
        | _, _ => VPan PIllTyped
        end
    | _ => VPan PIllTyped
    end.

  (** ** The standard library *)
  (** How many of the lowest [n] bits are set *)
  Fixpoint ones (n : nat) (z : Z) : Z :=
    match n with O => 0 | Datatypes.S n' => (if Z.odd z then 1 else 0) + ones n' (z / 2) end.
  Definition bytes_of (v : rvalue) : option (list Z) :=
    match v with RBytes l | RCow _ l | RInto l => Some l | _ => None end.
  (** Methods of values; [None]: not one of these *)
  Definition std_method (m : string) (v : rvalue) (args : list rvalue) : option vres :=
    match args with
    | [] =>
        match v with
        | RBytes l =>
            if String.eqb m "len" then Some (VOk (RInt Usize (zlen l)))
            else if String.eqb m "as_ptr" then Some (VOk (RPtr l))
            else if String.eqb m "into" || String.eqb m "try_into" then Some (VOk (RInto l))
            else if existsb (String.eqb m) ["as_bytes"; "as_slice"; "as_mut_slice"; "as_str"; "as_ref"; "into_boxed_str"]%string then Some (VOk (RBytes l))
            else None
        | RPtr l => if String.eqb m "cast" then Some (VOk v) else None
        | RInto l => if String.eqb m "unwrap" then Some (VOk v) else None
        | RCow _ l => if String.eqb m "as_ref" || String.eqb m "into_owned" then Some (VOk (RBytes l)) else None
        | RUninit _ => if String.eqb m "as_mut_slice" then Some (VOk v) else None
        | RDouble z => if String.eqb m "to_le_bytes" then Some (VOk (RBytes (le_bytes 8 z))) else None
        | RInt I32 z => if String.eqb m "trailing_zeros" then Some (VOk (RInt U32 (trailing_zeros32 (wrapu 32 z)))) else None
        | RInt U32 z =>
            if String.eqb m "trailing_zeros" then Some (VOk (RInt U32 (trailing_zeros32 z)))
            else if String.eqb m "count_ones" then Some (VOk (RInt U32 (ones 32 z))) else None
        | RList l =>
            if String.eqb m "len" then Some (VOk (RInt Usize (zlen l)))
            else if String.eqb m "iter" then Some (VOk v) else None
        | RSome w => if String.eqb m "is_some" then Some (VOk (RBool true)) else if String.eqb m "as_ref" then Some (VOk v) else None
        | RNone => if String.eqb m "is_some" then Some (VOk (RBool false)) else if String.eqb m "as_ref" then Some (VOk v) else None
        | _ => None
        end
    | [a] =>
        match v, a with
        | RInt t x, RInt t' y =>
            if String.eqb m "wrapping_shl" then
              match t' with U32 => Some (VOk (RInt t (wrap c t (Z.shiftl x (y mod bits c t))))) | _ => Some (VPan PIllTyped) end
            else if String.eqb m "wrapping_sub" then
              if ity_eqb t t' then Some (VOk (RInt t (wrap c t (x - y)))) else Some (VPan PIllTyped)
            else None
        | RBytes l, RInt Usize n =>
            if String.eqb m "split_at" then
              if n <=? zlen l then Some (VOk (RTup [RBytes (firstn (Z.to_nat n) l); RBytes (skipn (Z.to_nat n) l)])) else Some (VPan PSliceIndex)
            else None
        | _, _ => None
        end
    | _ => None
    end.
  (** [v.get_unchecked(i..)] *)
  Definition unchecked_from (v i : rvalue) : vres :=
    match v, usize_of i with
    | RBytes l, Some n => if n <=? zlen l then VOk (RBytes (skipn (Z.to_nat n) l)) else VPan PUndefined
    | _, _ => VPan PIllTyped
    end.
  Definition errors : list (string * error) :=
    [("InvalidNumber", InvalidNumber); ("InvalidString", InvalidString); ("InvalidCollectionLen", InvalidCollectionLen); ("MissingValue", MissingValue);
     ("MissingStop", MissingStop); ("DuplicateField", DuplicateField); ("InvalidType", InvalidType); ("ReserveError", ReserveError)]%string.
  Fixpoint path_is (p : list string) (q : list string) : bool :=
    match p, q with [], [] => true | a :: p', b :: q' => String.eqb a b && path_is p' q' | _, _ => false end.
  (** Constants of enums; [None]: not one of these *)
  Definition std_path (p : list string) : option rvalue :=
    match p with
    | [a; b] =>
        if String.eqb a "ThriftError" then on (assoc errors b) (fun e => Some (RError e))
        else if String.eqb a "ErrorKind" && String.eqb b "UnexpectedEof" then Some (RKind UnexpectedEof) else None
    | [a] => if String.eqb a "None" then Some RNone else None
    | _ => None
    end.
  (** Functions and constructors; [None]: not one of these *)
  Definition std_call (p : list string) (args : list rvalue) : option vres :=
    match args with
    | [a] =>
        if path_is p ["Ok"]%string then Some (VOk (ROk a))
        else if path_is p ["Err"]%string then Some (match a with RError _ => VOk (RErr a) | _ => VPan PIllTyped end)
        else if path_is p ["Some"]%string then Some (VOk (RSome a))
        else if path_is p ["ThriftError"; "InvalidBinaryLen"]%string then Some (match a with RInt Usize n => VOk (RError (InvalidBinaryLen n)) | _ => VPan PIllTyped end)
        else if path_is p ["ThriftError"; "from"]%string then Some (match a with RKind k => VOk (RError (IO k)) | _ => VPan PIllTyped end)
        else if path_is p ["Cow"; "Owned"]%string then Some (match a with RBytes l => VOk (RCow true l) | _ => VPan PIllTyped end)
        else if path_is p ["Cow"; "Borrowed"]%string then Some (match a with RBytes l => VOk (RCow false l) | _ => VPan PIllTyped end)
        else if path_is p ["from_utf8"]%string then
          Some (match a with RBytes l => if utf8_valid l then VOk (ROk a) else VOk (RErr RUnit) | _ => VPan PIllTyped end)
        else if path_is p ["from_utf8_unchecked"]%string || path_is p ["String"; "from_utf8_unchecked"]%string then
          Some (match a with RBytes l => if utf8_valid l then VOk a else VPan PUndefined | _ => VPan PIllTyped end)
        else if path_is p ["Rc"; "from"]%string || path_is p ["Arc"; "from"]%string then Some (match a with RBytes _ => VOk a | _ => VPan PIllTyped end)
        else if path_is p ["Box"; "as_ref"]%string || path_is p ["Rc"; "as_ref"]%string || path_is p ["Arc"; "as_ref"]%string then
          Some (match a with RShared _ v => VOk v | _ => VOk a end)
        else if path_is p ["f64"; "from_le_bytes"]%string then
          Some (match a with
                | RBytes l => if zlen l =? 8 then VOk (RDouble (from_le_bytes l)) else VPan PIllTyped
                | RInto l => if zlen l =? 8 then VOk (RDouble (from_le_bytes l)) else VPan PAssert   (* the [unwrap] of [try_into] *)
                | _ => VPan PIllTyped
                end)
        else if path_is p ["Vec"; "with_capacity"]%string then Some (match a with RInt Usize n => VOk (RSpace n) | _ => VPan PIllTyped end)
        else if path_is p ["_mm_loadu_si128"]%string then
          Some (match a with RPtr l => if 16 <=? zlen l then VOk (RChunk (firstn 16 l)) else VPan PUndefined | _ => VPan PIllTyped end)
        else if path_is p ["_mm_movemask_epi8"]%string then Some (match a with RChunk l => VOk (RInt I32 (movemask l)) | _ => VPan PIllTyped end)
        else None
    | _ => None
    end.
  (** Methods that change their receiver: its new value and the result *)
  Definition std_change (m : string) (v : rvalue) (args : list rvalue) : option (rvalue * vres) :=
    match v, args with
    | RSpace k, [RInt Usize n] =>
        if String.eqb m "set_len" then Some (if n <=? k then (RUninit n, VOk RUnit) else (v, VPan PUndefined)) else None
    | RList l, [] => if String.eqb m "clear" then Some (RList [], VOk RUnit) else None
    | RList l, [RList k] => if String.eqb m "extend" then Some (RList (l ++ k), VOk RUnit) else None
    | RList l, [RInt Usize n] =>
        if String.eqb m "try_reserve" then Some (v, if reserve c n then VOk (ROk RUnit) else VOk (RErr RUnit)) else None
    | _, _ => None
    end.
End Values.
Arguments vres X : clear implicits.

(** * Variables *)
Section Env.
  Context {X : Type}.
  Notation rvalue := (rvalue X).
  Definition renv : Type := list (string * rvalue).
  Fixpoint set_var (x : string) (v : rvalue) (r : renv) : option renv :=
    match r with
    | [] => None
    | (y, w) :: r' => if String.eqb x y then Some ((y, v) :: r') else on (set_var x v r') (fun r'' => Some ((y, w) :: r''))
    end.
  (** [None]: the pattern does not match *)
  Fixpoint bind_pat (p : rpat) (v : rvalue) (r : renv) {struct p} : option renv :=
    match p with
    | PAny => Some r
    | PName x => Some ((x, v) :: r)
    | PRange a b => match v with RInt _ z => if (a <=? z) && (z <=? b) then Some r else None | _ => None end
    | POr p q => match bind_pat p v r with Some r' => Some r' | None => bind_pat q v r end
    | PTup ps =>
        match v with
        | RTup vs =>
            (fix all ps vs r := match ps, vs with
                                | [], [] => Some r
                                | p :: ps', v :: vs' => on (bind_pat p v r) (fun r' => all ps' vs' r')
                                | _, _ => None
                                end) ps vs r
        | _ => None
        end
    | PCtor q p =>
        match v with
        | RCow o l => if path_is q ["Cow"; if o then "Owned" else "Borrowed"]%string then bind_pat p (RBytes l) r else None
        | RSome w => if path_is q ["Some"]%string then bind_pat p w r else None
        | _ => None
        end
    | PCons x y =>
        match v with
        | RBytes (b :: l) => Some ((y, RBytes l) :: (x, RInt U8 b) :: r)
        | _ => None
        end
    end.
End Env.
Arguments renv X : clear implicits.

(** * What surrounds a function
    [w_call]: functions and constants by their path, methods of the object or of passed on values as [["."; name]],
    with what they leave in their arguments given by [&mut]; [w_get], [w_set]: the field [0] of the object;
    [w_bound]: how often a loop runs before it counts as endless. *)
Inductive cres (X : Type) : Type := CRet (outs : list (option (rvalue X))) (v : rvalue X) | CPan (p : panic).
Arguments CRet {X}. Arguments CPan {X}.
Record world (X S : Type) : Type := {
  w_call : list string -> list (rvalue X) -> S -> S * cres X;
  w_get : S -> option (rvalue X);
  w_set : rvalue X -> S -> option S;
  w_bound : S -> nat
}.
Arguments w_call {X S}. Arguments w_get {X S}. Arguments w_set {X S}. Arguments w_bound {X S}.

(** * Places *)
Inductive place : Type := LVar (x : string) | LField (p : place) (f : string) | LLast (p : place) | LSome (p : place) | LShared (p : place).
Fixpoint place_of (e : rexpr) : option place :=
  match e with
  | XPath [x] => Some (LVar x)
  | XUn _ e' => place_of e'
  | XField e' f => on (place_of e') (fun p => Some (LField p f))
  | XMethod e' m [] =>
      if String.eqb m "as_mut_slice" then place_of e'
      else if String.eqb m "unwrap_unchecked" then
        match e' with
        | XMethod e'' m' [] => on (place_of e'') (fun p => if String.eqb m' "last_mut" then Some (LLast p) else if String.eqb m' "as_mut" then Some (LSome p) else None)
        | _ => None
        end
      else None
  | XCall p [e'] => if path_is p ["Box"; "as_mut"]%string then place_of e' else None
  | _ => None
  end.
(** [Rc::get_mut(e).ok_or(x)?]: a place, or the error [x] *)
Definition shared_of {X} (e : rexpr) : option (place * rvalue X) :=
  match e with
  | XTry (XMethod (XCall p [e']) m [XPath q]) =>
      if String.eqb m "ok_or" && (path_is p ["Rc"; "get_mut"]%string || path_is p ["Arc"; "get_mut"]%string)
      then on (place_of e') (fun p => on (std_path q) (fun x => Some (p, x))) else None
  | _ => None
  end.

(** * Evaluation *)
Inductive res (X A : Type) : Type := Val (a : A) | Brk | Rtn (v : rvalue X) | Pan (p : panic).
Arguments Val {X A}. Arguments Brk {X A}. Arguments Rtn {X A}. Arguments Pan {X A}.

Section Eval.
  Context {X S : Type}.
  Notation rvalue := (rvalue X).
  Notation renv := (renv X).
  Variable c : cfg.
  Variable w : world X S.
  Definition E (A : Type) : Type := renv -> S -> S * renv * res X A.
  Definition bindE {A B} (m : E A) (f : A -> E B) : E B :=
    fun r s => match m r s with
               | (s', r', Val a) => f a r' s'
               | (s', r', Brk) => (s', r', Brk)
               | (s', r', Rtn v) => (s', r', Rtn v)
               | (s', r', Pan p) => (s', r', Pan p)
               end.
  Definition retE {A} (a : A) : E A := fun r s => (s, r, Val a).
  Definition panE {A} (p : panic) : E A := fun r s => (s, r, Pan p).
  Definition ill {A} : E A := panE PIllTyped.
  Definition vresE (v : vres X) : E rvalue := match v with VOk v => retE v | VPan p => panE p end.
  Definition optE (o : option rvalue) : E rvalue := match o with Some v => retE v | None => ill end.

  (** Reading and writing a place *)
  Fixpoint get_place (p : place) (r : renv) (s : S) : option rvalue :=
    match p with
    | LVar x => assoc r x
    | LField p f =>
        match get_place p r s with
        | Some RObj => if String.eqb f "0" then w_get w s else None
        | Some (RTup [v]) => if String.eqb f "0" then Some v else None
        | _ => None
        end
    | LLast p => match get_place p r s with Some (RList l) => match rev l with v :: _ => Some v | [] => None end | _ => None end
    | LSome p => match get_place p r s with Some (RSome v) => Some v | _ => None end
    | LShared p => match get_place p r s with Some (RShared _ v) => Some v | _ => None end
    end.
  Fixpoint set_place (p : place) (v : rvalue) (r : renv) (s : S) : option (renv * S) :=
    match p with
    | LVar x => on (set_var x v r) (fun r' => Some (r', s))
    | LField p f =>
        match get_place p r s with
        | Some RObj => if String.eqb f "0" then on (w_set w v s) (fun s' => Some (r, s')) else None
        | Some (RTup [_]) => if String.eqb f "0" then set_place p (RTup [v]) r s else None
        | _ => None
        end
    | LLast p => match get_place p r s with Some (RList l) => set_place p (RList (removelast l ++ [v])) r s | _ => None end
    | LSome p => match get_place p r s with Some (RSome _) => set_place p (RSome v) r s | _ => None end
    | LShared p => match get_place p r s with Some (RShared u _) => set_place p (RShared u v) r s | _ => None end
    end.
  Definition put (o : option place) (v : rvalue) : E unit :=
    fun r s => match o with
               | Some p => match set_place p v r s with Some (r', s') => (s', r', Val tt) | None => (s, r, Pan PIllTyped) end
               | None => (s, r, Pan PIllTyped)
               end.
  (** What the callee left in the arguments given by [&mut]; an argument that is no place is a temporary. *)
  Fixpoint write_back (args : list rexpr) (outs : list (option rvalue)) : E unit :=
    match args, outs with
    | a :: args', o :: outs' =>
        bindE (match o, place_of a with Some v, Some p => put (Some p) v | _, _ => retE tt end) (fun _ => write_back args' outs')
    | _, _ => retE tt
    end.
  Definition callE (p : list string) (es : list rexpr) (vs : list rvalue) : E rvalue :=
    fun r s => match w_call w p vs s with
               | (s', CRet outs v) => bindE (write_back es outs) (fun _ => retE v) r s'
               | (s', CPan q) => (s', r, Pan q)
               end.
  Fixpoint drop (n : nat) (r : renv) : renv :=
    match n, r with Datatypes.S n', _ :: r' => drop n' r' | _, _ => r end.
  (** The variables of [m] end with it. *)
  Definition scoped {A} (m : E A) : E A :=
    fun r s => match m r s with (s', r', a) => (s', drop (List.length r' - List.length r) r', a) end.

  (** ** Loops *)
  Fixpoint iterate (n : nat) (body : E rvalue) : E rvalue :=
    fun r s => match n with
               | O => (s, r, Pan PNonTermination)
               | Datatypes.S n' =>
                   match body r s with
                   | (s', r', Val _) => iterate n' body r' s'
                   | (s', r', Brk) => (s', r', Val RUnit)
                   | (s', r', Rtn v) => (s', r', Rtn v)
                   | (s', r', Pan p) => (s', r', Pan p)
                   end
               end.
  Definition stop_loop (m : E rvalue) : E rvalue :=
    fun r s => match m r s with (s', r', Brk) => (s', r', Val RUnit) | x => x end.
  (** [for p in a..b] *)
  Fixpoint count_up (n : nat) (t : ity) (i : Z) (body : rvalue -> E rvalue) : E rvalue :=
    match n with
    | O => retE RUnit
    | Datatypes.S n' => bindE (body (RInt t i)) (fun _ => count_up n' t (i + 1) body)
    end.
  Fixpoint each (vs : list rvalue) (body : rvalue -> E rvalue) : E rvalue :=
    match vs with
    | [] => retE RUnit
    | v :: vs' => bindE (body v) (fun _ => each vs' body)
    end.
  (** [try_for_each]: until the first error *)
  Fixpoint each_ok (vs : list rvalue) (body : rvalue -> E rvalue) : E rvalue :=
    match vs with
    | [] => retE (ROk RUnit)
    | v :: vs' => bindE (body v) (fun o => match o with ROk _ => each_ok vs' body | RErr _ => retE o | _ => ill end)
    end.
  Fixpoint collect (n : nat) (body : E rvalue) : E (list rvalue) :=
    match n with
    | O => retE []
    | Datatypes.S n' => bindE body (fun v => bindE (collect n' body) (fun vs => retE (v :: vs)))
    end.
  (** [from_fn]: until the first [None] *)
  Fixpoint collect_some (n : nat) (body : E rvalue) : E (list rvalue) :=
    match n with
    | O => panE PNonTermination
    | Datatypes.S n' => bindE body (fun o => match o with
                                             | RSome v => bindE (collect_some n' body) (fun vs => retE (v :: vs))
                                             | RNone => retE []
                                             | _ => ill
                                             end)
    end.
  (** What the callee of a method leaves in its receiver, which is at a place of its own *)
  Definition method_at (p : place) (m : string) (es : list rexpr) (v : rvalue) (vs : list rvalue) : E rvalue :=
    fun r s => match w_call w ["."%string; m] (v :: vs) s with
               | (s', CRet (o :: outs) a) =>
                   bindE (match o with Some v' => put (Some p) v' | None => retE tt end) (fun _ => bindE (write_back es outs) (fun _ => retE a)) r s'
               | (s', CRet [] a) => (s', r, Pan PIllTyped)
               | (s', CPan q) => (s', r, Pan q)
               end.
  (** The integers of a range *)
  Definition bounds (a b : rvalue) : option (ity * Z * Z) :=
    match a, b with
    | RInt t x, RInt t' y => if ity_eqb t t' then Some (t, x, y) else None
    | RLit x, RInt t y => if lit_fits t x then Some (t, x, y) else None
    | RLit x, RLit y => if lit_fits I32 x && lit_fits I32 y then Some (I32, x, y) else None
    | _, _ => None
    end.

  Definition with_pat (p : rpat) (v : rvalue) (m : E rvalue) : E rvalue :=
    fun r s => match bind_pat p v r with Some r' => scoped (fun r0 s => m r' s) r s | None => (s, r, Pan PIllTyped) end.

  Definition lift_opt {A} (m : option (E A)) : E (option A) :=
    match m with Some m' => bindE m' (fun a => retE (Some a)) | None => retE None end.

  (** Arguments, from left to right *)
  Definition evals (ev : rexpr -> E rvalue) : list rexpr -> E (list rvalue) :=
    fix evals (es : list rexpr) : E (list rvalue) :=
      match es with
      | [] => retE []
      | e :: es' => bindE (ev e) (fun v => bindE (evals es') (fun vs => retE (v :: vs)))
      end.
  (** The first arm the pattern of which matches *)
  Definition pick_arm (ev : rexpr -> E rvalue) (v : rvalue) : list (rpat * rexpr) -> E rvalue :=
    fix pick (l : list (rpat * rexpr)) : E rvalue :=
      match l with
      | [] => ill
      | (p, b) :: l' => fun r s => match bind_pat p v r with Some r' => scoped (fun _ s => ev b r' s) r s | None => pick l' r s end
      end.
  Fixpoint eval (e : rexpr) {struct e} : E rvalue :=
    match e with
    | XNum z t =>
        match t with
        | Some t => if lit_fits t z then retE (RInt t z) else ill
        | None => retE (RLit z)
        end
    | XBool b => retE (RBool b)
    | XPath p =>
        fun r s =>
          match p with
          | [x] => match assoc r x with
                   | Some v => (s, r, Val v)
                   | None => match std_path p with Some v => (s, r, Val v) | None => callE p [] [] r s end
                   end
          | _ => match std_path p with Some v => (s, r, Val v) | None => callE p [] [] r s end
          end
    | XTup es => bindE (evals eval es) (fun vs => retE (RTup vs))
    | XArray es =>
        bindE (evals eval es) (fun vs =>
          match all_some (map (fun v => match v with RInt U8 z => Some z | _ => None end) vs) with Some l => retE (RBytes l) | None => ill end)
    | XFilled e n =>
        bindE (eval e) (fun v => bindE (eval n) (fun k =>
          match v, k with RInt U8 z, RLit n => retE (RBytes (repeat z (Z.to_nat n))) | _, _ => ill end))
    | XField e f =>
        bindE (eval e) (fun v =>
          match v with
          | RObj => if String.eqb f "0" then (fun r s => optE (w_get w s) r s) else ill
          | RTup [a] => if String.eqb f "0" then retE a else ill
          | _ => ill
          end)
    | XIndex e i =>
        bindE (eval e) (fun v =>
          match i with
          | XRange a b =>
              bindE (match a with Some a => lift_opt (Some (eval a)) | None => lift_opt None end) (fun x =>
              bindE (match b with Some b => lift_opt (Some (eval b)) | None => lift_opt None end) (fun y =>
                vresE (index_range v x y)))
          | _ => bindE (eval i) (fun k => vresE (index v k))
          end)
    | XRange _ _ => ill
    | XUn op e => bindE (eval e) (fun v => vresE (unop c op v))
    | XBin op a b =>
        if String.eqb op "&&" then
          bindE (eval a) (fun x => match x with RBool true => eval b | RBool false => retE (RBool false) | _ => ill end)
        else if String.eqb op "||" then
          bindE (eval a) (fun x => match x with RBool true => retE (RBool true) | RBool false => eval b | _ => ill end)
        else bindE (eval a) (fun x => bindE (eval b) (fun y => vresE (binop c op x y)))
    | XAs e t => bindE (eval e) (fun v => vresE (cast c t v))
    | XTry e =>
        bindE (eval e) (fun v => match v with
                                 | ROk a => retE a
                                 | RErr _ => fun r s => (s, r, Rtn v)
                                 | _ => ill
                                 end)
    | XCall p es =>
        if path_is p ["std"; "mem"; "take"]%string then
          match es with
          | [e] => bindE (eval e) (fun v => match v with RBytes _ => bindE (put (place_of e) (RBytes [])) (fun _ => retE v) | _ => ill end)
          | _ => ill
          end
        else if path_is p ["std"; "ptr"; "write"]%string then
          match es with
          | [XAs e YPtr; a] => bindE (eval a) (fun v => bindE (put (place_of e) v) (fun _ => retE RUnit))
          | _ => ill
          end
        else if path_is p ["std"; "iter"; "from_fn"]%string then
          match es with
          | [XClosure PAny b] => fun r s => bindE (collect_some (w_bound w s) (eval b)) (fun vs => retE (RList vs)) r s
          | _ => ill
          end
        else bindE (evals eval es) (fun vs =>
          match std_call p vs with Some v => vresE v | None => callE p es vs end)
    | XMethod e m es =>
        if String.eqb m "map_err" then
          match es with
          | [XClosure PAny b] => bindE (eval e) (fun v => match v with ROk _ => retE v | RErr _ => bindE (eval b) (fun x => retE (RErr x)) | _ => ill end)
          | _ => ill
          end
        else if String.eqb m "get_unchecked" then
          match es with
          | [XRange (Some i) None] => bindE (eval e) (fun v => bindE (eval i) (fun k => vresE (unchecked_from v k)))
          | _ => ill
          end
        else if String.eqb m "map" then
          match e, es with
          | XRange (Some i) (Some j), [XClosure PAny b] =>
              bindE (eval i) (fun x => bindE (eval j) (fun y =>
                match bounds x y with
                | Some (_, x, y) => bindE (collect (Z.to_nat (y - x)) (eval b)) (fun vs => retE (RList vs))
                | None => ill
                end))
          | _, _ => ill
          end
        else if String.eqb m "try_for_each" then
          match es with
          | [XClosure p b] => bindE (eval e) (fun v => match v with RList vs => each_ok vs (fun v => with_pat p v (eval b)) | _ => ill end)
          | _ => ill
          end
        else
          match place_of e with
          | Some p =>
              fun r s =>
                match get_place p r s with
                | Some v =>
                    bindE (evals eval es) (fun vs =>
                      match v with
                      | RObj => callE ["."%string; m] (e :: es) (v :: vs)
                      | _ =>
                          match std_change c m v vs with
                          | Some (v', a) => bindE (put (Some p) v') (fun _ => vresE a)
                          | None => match std_method c m v vs with Some a => vresE a | None => callE ["."%string; m] (e :: es) (v :: vs) end
                          end
                      end) r s
                | None => (s, r, Pan PIllTyped)
                end
          | None =>
              match shared_of e with
              | Some (p, x) =>
                  fun r s =>
                    match get_place p r s with
                    | Some (RShared true v) => bindE (evals eval es) (fun vs => method_at (LShared p) m es v vs) r s
                    | Some (RShared false _) => (s, r, Rtn (RErr x))
                    | _ => (s, r, Pan PIllTyped)
                    end
              | None =>
                  bindE (eval e) (fun v => bindE (evals eval es) (fun vs =>
                    match std_method c m v vs with Some a => vresE a | None => callE ["."%string; m] (e :: es) (v :: vs) end))
              end
          end
    | XMacro m e =>
        if String.eqb m "debug_assert" then
          bindE (eval e) (fun v => match v with RBool true => retE RUnit | RBool false => panE PAssert | _ => ill end)
        else ill
    | XClosure _ _ => ill
    | XBlock b => scoped (eval b)
    | XIf d b o =>
        bindE (eval d) (fun v => match v with
                                 | RBool true => scoped (eval b)
                                 | RBool false => match o with Some e' => eval e' | None => retE RUnit end
                                 | _ => ill
                                 end)
    | XIfLet p e b o =>
        bindE (eval e) (fun v r s => match bind_pat p v r with
                                     | Some r' => scoped (fun _ s => eval b r' s) r s
                                     | None => match o with Some e' => eval e' r s | None => retE RUnit r s end
                                     end)
    | XMatch e arms =>
        bindE (eval e) (fun v => pick_arm eval v arms)
    | XLoop b => fun r s => iterate (w_bound w s) (scoped (eval b)) r s
    | XWhile d b =>
        fun r s => iterate (w_bound w s) (bindE (eval d) (fun v => match v with
                                                                   | RBool true => scoped (eval b)
                                                                   | RBool false => fun r s => (s, r, Brk)
                                                                   | _ => ill
                                                                   end)) r s
    | XFor p e b =>
        match e with
        | XRange (Some i) (Some j) =>
            bindE (eval i) (fun x => bindE (eval j) (fun y =>
              match bounds x y with
              | Some (t, x, y) => stop_loop (count_up (Z.to_nat (y - x)) t x (fun v => with_pat p v (eval b)))
              | None => ill
              end))
        | _ => bindE (eval e) (fun v => match v with RList vs => stop_loop (each vs (fun v => with_pat p v (eval b))) | _ => ill end)
        end
    | XBreak => fun r s => (s, r, Brk)
    | XReturn e => bindE (eval e) (fun v r s => (s, r, Rtn v))
    | XAssign op e v =>
        bindE (eval v) (fun a =>
          if String.eqb op "=" then bindE (put (place_of e) a) (fun _ => retE RUnit)
          else match compound op, place_of e with
               | Some o, Some p =>
                   fun r s => match get_place p r s with
                              | Some b => bindE (vresE (binop c o b a)) (fun x => bindE (put (Some p) x) (fun _ => retE RUnit)) r s
                              | None => (s, r, Pan PIllTyped)
                              end
               | _, _ => ill
               end)
    | BNil => retE RUnit
    | BLet p e b' =>
        bindE (eval e) (fun v r s => match bind_pat p v r with Some r' => eval b' r' s | None => (s, r, Pan PIllTyped) end)
    | BDo e semi b' =>
        match b' with
        | BNil => if semi then bindE (eval e) (fun _ => retE RUnit) else eval e
        | _ => bindE (eval e) (fun _ => eval b')
        end
    end.

  (** ** Functions *)
  Definition is_mut (t : rtype) : bool := match t with YRef true _ => true | _ => false end.
  Fixpoint bind_params (ps : list (rpat * rtype)) (vs : list rvalue) : option renv :=
    match ps, vs with
    | [], [] => Some []
    | (PName x, t) :: ps', v :: vs' => on (coerce c t v) (fun v' => on (bind_params ps' vs') (fun r => Some ((x, v') :: r)))
    | _, _ => None
    end.
  Definition left_over (ps : list (rpat * rtype)) (r : renv) : list (option rvalue) :=
    map (fun p => match p with (PName x, t) => if is_mut t then assoc r x else None | _ => None end) ps.
  (** The body runs in a block of its own, so that the parameters are what is left of the variables. *)
  Definition run_fn (f : rfn) (vs : list rvalue) (s : S) : S * cres X :=
    match fn_body f, bind_params (fn_params f) vs with
    | Some b, Some r =>
        let done (v : rvalue) (r' : renv) :=
          match coerce c (fn_ret f) v with Some v' => CRet (left_over (fn_params f) r') v' | None => CPan PIllTyped end in
        match scoped (eval b) r s with
        | (s', r', Val v) => (s', done v r')
        | (s', r', Rtn v) => (s', done v r')
        | (s', r', Brk) => (s', CPan PIllTyped)
        | (s', r', Pan p) => (s', CPan p)
        end
    | _, _ => (s, CPan PIllTyped)
    end.
End Eval.

(** * Programs *)
Definition program : Type := list (list string * rfn).
Fixpoint find_fn (p : program) (n : list string) : option rfn :=
  match p with [] => None | (m, f) :: p' => if path_is n m then Some f else find_fn p' n end.
(** [d]: how many further nested calls the stack admits; [prim]: what is not in the program *)
Fixpoint link {X S : Type} (c : cfg) (p : program) (prim : world X S) (d : nat) : world X S :=
  match d with
  | O => {| w_call := fun _ _ s => (s, CPan PStack); w_get := w_get prim; w_set := w_set prim; w_bound := w_bound prim |}
  | Datatypes.S d' =>
      {| w_call := fun n vs s => match find_fn p n with Some f => run_fn c (link c p prim d') f vs s | None => w_call prim n vs s end;
         w_get := w_get prim; w_set := w_set prim; w_bound := w_bound prim |}
  end.
