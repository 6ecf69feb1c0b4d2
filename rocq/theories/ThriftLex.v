(** generator/src/main/antlr4/net/jhorstmann/compactthrift/Thrift.g4: the lexer that ANTLR
    generates.  At every position the longest match of all rules is taken, among rules
    matching the same text the first; the literals of the parser rules come before the
    lexer rules.  Characters are code points. *)
From Coq Require Import Ascii.
From Verif Require Import Base ErrorName.
Open Scope Z_scope.

(** * Regular expressions *)
Inductive re : Type :=
| Empty
| Eps
| Chr (p : Z -> bool)
| Seq (a b : re)
| Alt (a b : re)
| Star (a : re).
Definition seq (a b : re) : re :=
  match a, b with
  | Empty, _ | _, Empty => Empty
  | Eps, b => b
  | a, b => Seq a b
  end.
Definition alt (a b : re) : re :=
  match a, b with
  | Empty, b => b
  | a, Empty => a
  | a, b => Alt a b
  end.
(** Whether the empty text matches. *)
Fixpoint nullable (r : re) : bool :=
  match r with
  | Empty | Chr _ => false
  | Eps | Star _ => true
  | Seq a b => nullable a && nullable b
  | Alt a b => nullable a || nullable b
  end.
(** What has to match after [c]. *)
Fixpoint deriv (c : Z) (r : re) : re :=
  match r with
  | Empty | Eps => Empty
  | Chr p => if p c then Eps else Empty
  | Seq a b => if nullable a then alt (seq (deriv c a) b) (deriv c b) else seq (deriv c a) b
  | Alt a b => alt (deriv c a) (deriv c b)
  | Star a => seq (deriv c a) (Star a)
  end.
Definition is_empty (r : re) : bool := match r with Empty => true | _ => false end.

Definition opt (r : re) : re := Alt r Eps.
Definition plus (r : re) : re := Seq r (Star r).
Definition chr (x : Z) : re := Chr (Z.eqb x).
Definition lit (s : list Z) : re := fold_right (fun x r => Seq (chr x) r) Eps s.
Definition oneof (s : string) : re := Chr (fun c => existsb (Z.eqb c) (text s)).
Definition noneof (s : string) : re := Chr (fun c => negb (existsb (Z.eqb c) (text s))).

(** * The rules *)
Inductive kind : Type :=
| KText (s : string)
| KInteger | KHex | KDouble | KLiteral | KIdentifier | KComma
| KWs | KLine | KBlock.

(** Thrift.g4:12-96, in the order of appearance *)
Definition implicit : list string :=
  ["include"; "cpp_include"; "namespace"; "*"; "const"; "="; "typedef"; "enum"; "{"; "}"; "struct"; "union"; "exception"; "service";
   "extends"; ":"; "required"; "optional"; "oneway"; "("; ")"; "void"; "throws"; "map"; "<"; ">"; "set"; "list"; "cpp_type"; "["; "]"; ";";
   "bool"; "byte"; "i16"; "i32"; "i64"; "double"; "string"; "binary"]%string.
(** Thrift.g4:128-131, 133-135, 137-141 *)
Definition letter : re := Chr (fun c => (65 <=? c) && (c <=? 90) || (97 <=? c) && (c <=? 122)).
Definition digit : re := Chr (fun c => (48 <=? c) && (c <=? 57)).
Definition hex_digit : re := Alt digit (Chr (fun c => (65 <=? c) && (c <=? 70) || (97 <=? c) && (c <=? 102))).
(** Thrift.g4:99-101 *)
Definition r_integer : re := Seq (opt (oneof "+-")) (plus digit).
(** Thrift.g4:103-105 *)
Definition r_hex : re := Seq (opt (oneof "-")) (Seq (lit (text "0x")) (plus hex_digit)).
(** Thrift.g4:107-109 *)
Definition r_double : re :=
  Seq (opt (oneof "+-"))
   (Seq (Alt (Seq (plus digit) (opt (Seq (oneof ".") (plus digit)))) (Seq (oneof ".") (plus digit)))
        (opt (Seq (oneof "Ee") (Seq (opt (oneof "+-")) (plus digit))))).
(** Thrift.g4:116-118, backslash 92, quotes 34 and 39 *)
Definition esc_seq : re := Seq (chr 92) (Chr (fun c => existsb (Z.eqb c) (text "rnt" ++ [34; 39; 92]))).
(** Thrift.g4:111-114 *)
Definition quoted (q : Z) : re := Seq (chr q) (Seq (Star (Alt esc_seq (Chr (fun c => negb ((c =? 92) || (c =? q)))))) (chr q)).
Definition r_literal : re := Alt (quoted 34) (quoted 39).
(** Thrift.g4:120-122 *)
Definition r_identifier : re := Seq (Alt letter (oneof "_")) (Star (Alt letter (Alt digit (oneof "._")))).
(** Thrift.g4:143-145: space 32, tab 9, carriage return 13, line feed 10 *)
Definition r_ws : re := plus (Alt (chr 32) (Alt (chr 9) (Alt (Seq (chr 13) (chr 10)) (chr 10)))).
(** Thrift.g4:147-149 *)
Definition r_line : re :=
  Seq (Alt (lit (text "//")) (oneof "#")) (Seq (Star (Chr (fun c => negb (c =? 10)))) (Seq (opt (chr 13)) (chr 10))).
(** Thrift.g4:151-153.  [.*?] ends at the first "*/", so that what precedes consists of other
    characters and of asterisks followed by something else. *)
Definition r_block : re :=
  Seq (lit (text "/*")) (Seq (Star (Alt (noneof "*") (Seq (plus (oneof "*")) (noneof "*/")))) (Seq (plus (oneof "*")) (oneof "/"))).

Definition rules : list (kind * re) :=
  map (fun s => (KText s, lit (text s))) implicit ++
  [(KInteger, r_integer); (KHex, r_hex); (KDouble, r_double); (KLiteral, r_literal); (KIdentifier, r_identifier); (KComma, oneof ",");
   (KWs, r_ws); (KLine, r_line); (KBlock, r_block)].

(** * The longest match *)
Definition accepts (rs : list (kind * re)) : option kind := option_map fst (find (fun r => nullable (snd r)) rs).
Definition step (c : Z) (rs : list (kind * re)) : list (kind * re) :=
  filter (fun r => negb (is_empty (snd r))) (map (fun r => (fst r, deriv c (snd r))) rs).
(** [n]: characters read so far; [best]: the last match and its length *)
Fixpoint scan (rs : list (kind * re)) (s : list Z) (n : nat) (best : option (kind * nat)) : option (kind * nat) :=
  let best := match accepts rs with Some k => Some (k, n) | None => best end in
  match s with
  | [] => best
  | c :: s' =>
      match step c rs with
      | [] => best
      | rs' => scan rs' s' (S n) best
      end
  end.

(** * Tokens *)
Inductive token : Type :=
| T (s : string)
| TInteger (w : list Z)
| THex (w : list Z)
| TDouble (w : list Z)
| TLiteral (w : list Z)
| TId (n : string)
| TComma.
Definition string_of (w : list Z) : string := string_of_list_ascii (map (fun c => ascii_of_nat (Z.to_nat c)) w).
(** [None]: skipped *)
Definition token_of (k : kind) (w : list Z) : option token :=
  match k with
  | KText s => Some (T s)
  | KInteger => Some (TInteger w)
  | KHex => Some (THex w)
  | KDouble => Some (TDouble w)
  | KLiteral => Some (TLiteral w)
  | KIdentifier => Some (TId (string_of w))
  | KComma => Some TComma
  | KWs | KLine | KBlock => None
  end.
(** All tokens up to the end of the input.  [None]: token recognition error, which the error
    listener throws (Parser.kt:17-29). [n]: at least the length of [s]. *)
Fixpoint tokens (n : nat) (s : list Z) : option (list token) :=
  match s, n with
  | [], _ => Some []
  | _, O => None
  | _, S n' =>
      match scan rules s 0 None with
      | None => None
      | Some (k, m) =>
          match tokens n' (skipn m s) with
          | None => None
          | Some ts => Some (match token_of k (firstn m s) with Some t => t :: ts | None => ts end)
          end
      end
  end.
Definition lex (s : list Z) : option (list token) := tokens (List.length s) s.

Example lex_1 : lex (text "struct a.b { 1: required list<i8> x = -0xfF; } // +0x10 1.5e3
  +0x10 1.5e3 0X1 "" /**/"" /* * / **/ '\''") =
  Some [T "struct"; TId "a.b"; T "{"; TInteger (text "1"); T ":"; T "required"; T "list"; T "<"; TId "i8"; T ">"; TId "x"; T "=";
        THex (text "-0xfF"); T ";"; T "}"; TInteger (text "+0"); TId "x10"; TDouble (text "1.5e3"); TInteger (text "0"); TId "X1";
        TLiteral (text """ /**/"""); TLiteral (text "'\''")]%string.
Proof. vm_compute. reflexivity. Qed.
(** A comment at the end of the input must end with a line feed; a carriage return must be followed by one. *)
Example lex_2 : lex (text "struct a {} # end") = None.
Proof. vm_compute. reflexivity. Qed.
Example lex_3 : lex (text "struct" ++ [13] ++ text "a {}") = None.
Proof. vm_compute. reflexivity. Qed.
