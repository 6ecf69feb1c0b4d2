(** The functions of parquet/src/lib.rs, read from the text and written with the forms that the
    interpreter RustEval.v has. *)
From Verif Require Import Base ErrorName RustLex RustMacro MacroRules RustSyntax RustEval LibText.
Open Scope Z_scope.
Open Scope list_scope.

(** In a type [>>] closes two lists of arguments; the text has no shifts. *)
Fixpoint tidy (t : tree) : list tree :=
  match t with
  | Lf (LPunct p) => if String.eqb p ">>" then [Lf (LPunct ">"); Lf (LPunct ">")] else [t]
  | Gr d ts => [Gr d ((fix all l := match l with [] => [] | t :: l' => tidy t ++ all l' end) ts)]
  | _ => [t]
  end.
Definition lib_read_file (ls : list string) : option (list ritem) :=
  on (all_trees (file_text ls)) (fun ts => read_items (List.length (file_text ls)) [] (flat_map tidy ts)).
Definition lib_items : list ritem := match lib_read_file lib_rs_lines with Some l => l | None => [] end.

(** * Forms
    [e.f] is a function of [e], as are ranges [a..b] outside of indices, indices that are no written ranges, comparisons of
    slices, errors and [with_capacity], which needs memory.  [assert!] panics if its condition fails.
    [match &mut x { Ok(p) => b, _ => o }]: the variables of [p] are parts of [x]; after [b] they are put back. *)
Fixpoint expr_of (p : rpat) : rexpr :=
  match p with
  | PName x => XPath [x]
  | PTup ps => XTup (map expr_of ps)
  | PCtor q p => XCall q [expr_of p]
  | _ => XTup []
  end.
Definition is_slice (e : rexpr) : bool := match e with XIndex _ (XRange _ _) => true | _ => false end.
Fixpoint plain (e : rexpr) : rexpr :=
  match e with
  | XNum _ _ | XBool _ | XPath _ | XBreak | BNil => e
  | XTup es => XTup (map plain es)
  | XArray es => XArray (map plain es)
  | XFilled a n => XFilled (plain a) (plain n)
  | XField a f => XCall [".field"; f]%string [plain a]
  | XIndex a i =>
      match i with
      | XRange x y => XIndex (plain a) (XRange (match x with Some x => Some (plain x) | None => None end) (match y with Some y => Some (plain y) | None => None end))
      | _ => XCall ["Index"; "index"]%string [plain a; plain i]
      end
  | XRange (Some a) (Some b) => XCall ["Range"; "new"]%string [plain a; plain b]
  | XRange _ _ => e
  | XUn op a => match a with
                | XNum z None => if String.eqb op "-" then XNum (- z) None else XUn op a
                | _ => XUn op (plain a)
                end
  | XBin op a b => if is_slice a && String.eqb op "!=" then XCall ["PartialEq"; "ne"]%string [plain a; plain b] else XBin op (plain a) (plain b)
  | XAs a t => XAs (plain a) t
  | XTry a => XTry (plain a)
  | XCall p es =>
      if path_is p ["Err"]%string then XCall ["Result"; "Err"]%string (map plain es)
      else if path_is p ["Vec"; "with_capacity"]%string then XCall ["Vec"; "with_memory"]%string (map plain es)
      else XCall p (map plain es)
  | XMethod a m es => XMethod (plain a) m (map plain es)
  | XMacro n a => if String.eqb n "assert" then XIf (plain a) BNil (Some (XCall ["panic"]%string [])) else XMacro n (plain a)
  | XClosure p a => XClosure p (plain a)
  | XBlock b => XBlock (plain b)
  | XIf d b o => XIf (plain d) (plain b) (match o with Some x => Some (plain x) | None => None end)
  | XIfLet p a b o => XIfLet p (plain a) (plain b) (match o with Some x => Some (plain x) | None => None end)
  | XMatch a arms =>
      match a, arms with
      | XUn op (XPath [x]), [(PCtor q p, b); (PAny, o)] =>
          if String.eqb op "&mut" && path_is q ["Ok"]%string then
            XIfLet (PCtor ["Some"]%string p) (XMethod (XPath [x]) "ok" [])
              (BDo (plain b) true (BDo (XAssign "=" (XPath [x]) (XCall ["Ok"]%string [expr_of p])) true BNil)) (Some (plain o))
          else XMatch (plain a) (map (fun pb => (fst pb, plain (snd pb))) arms)
      | _, _ => XMatch (plain a) (map (fun pb => (fst pb, plain (snd pb))) arms)
      end
  | XLoop b => XLoop (plain b)
  | XWhile d b => XWhile (plain d) (plain b)
  | XFor p a b => XFor p (plain a) (plain b)
  | XReturn a => XReturn (plain a)
  | XAssign op a v => XAssign op (plain a) (plain v)
  | BLet p a b => BLet p (plain a) (plain b)
  | BDo a semi b => BDo (plain a) semi (plain b)
  end.
(** Slices of other things than bytes are lists. *)
Fixpoint plain_type (t : rtype) : rtype :=
  match t with
  | YRef m u => YRef m (plain_type u)
  | YSlice u => match u with YInt U8 => t | _ => YApp "Vec" [u] end
  | _ => t
  end.
Definition param_name (p : rpat * rtype) : rexpr := match fst p with PName x => XPath [x] | _ => XTup [] end.
(** A function that ends with [e.map(|x| b).collect()] is a loop that stops at the first error; the closure is a function of
    [x] and the parameters around it. *)
Definition plain_fn (f : rfn) : program :=
  let ps := map (fun p => (fst p, plain_type (snd p))) (fn_params f) in
  match fn_body f with
  | Some (BDo (XMethod (XMethod e m [XClosure (PName x) b]) k []) false BNil) =>
      if String.eqb m "map" && String.eqb k "collect" then
        [([fn_name f],
          {| fn_attrs := fn_attrs f; fn_name := fn_name f; fn_params := ps; fn_ret := fn_ret f;
             fn_body := Some
               (BLet (PName "collected") (XCall ["Vec"; "new"]%string [])
                 (BDo (XFor (PName x) (plain e)
                        (BDo (XMethod (XPath ["collected"]%string) "extend"
                               [XCall ["once"]%string [XTry (XCall [fn_name f; "closure"]%string (map param_name ps ++ [XPath [x]]))]]) true BNil)) false
                   (BDo (XCall ["Ok"]%string [XPath ["collected"]%string]) false BNil))) |});
         ([fn_name f; "closure"]%string,
          {| fn_attrs := []; fn_name := "closure"; fn_params := ps ++ [(PName x, YApp "Item" [])]; fn_ret := YApp "Result" [YApp "Item" []];
             fn_body := Some (BDo (plain b) false BNil) |})]
      else []
  | Some b => [([fn_name f], {| fn_attrs := fn_attrs f; fn_name := fn_name f; fn_params := ps; fn_ret := fn_ret f; fn_body := Some (plain b) |})]
  | None => []
  end.
Definition lib_program : program := flat_map (fun i => match i with GFn f => plain_fn f | _ => [] end) lib_items.
