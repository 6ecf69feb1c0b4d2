(** What the functions of parquet/src/lib.rs call, and how their results are values of the model Footer.v. *)
From Verif Require Import Base Uleb Protocol Types Parquet Footer RustSyntax RustEval LibProgram.
Open Scope Z_scope.
Open Scope list_scope.

(** Values the code only passes on: those of the generated types, positions to seek, errors *)
Inductive item : Type :=
| OVal (n : string) (v : value)
| OFromEnd (z : Z)
| OFromStart (z : Z)
| OError (e : perror).

(** A value of a type of format.rs *)
Fixpoint shown (t : ty) (v : value) {struct t} : rvalue item :=
  match t, v with
  | TI32, VI32 z => RInt I32 z
  | TI64, VI64 z => RInt I64 z
  | TOption t', VSome w => RSome (shown t' w)
  | TOption _, VNone => RNone
  | TVec t', VVec vs => RList (map (shown t') vs)
  | TNamed n, _ => RElem (OVal n v)
  | _, _ => RElem (OVal "" v)
  end.
(** The field [f] of a struct *)
Fixpoint field_of (f : string) (fs : list field) (vs : list value) : option (rvalue item) :=
  match fs, vs with
  | g :: fs', v :: vs' => if String.eqb (f_name g) f then Some (shown (field_ty g) v) else field_of f fs' vs'
  | _, _ => None
  end.
Definition read_field (f n : string) (v : value) : option (rvalue item) :=
  match lookup parquet_env n, v with
  | Some (DStruct fs), VStruct vs => field_of f fs vs
  | _, _ => None
  end.

Definition answer {A} (outs : list (option (rvalue item))) (k : A -> rvalue item) (m : file * presult A) : file * cres item :=
  match m with
  | (s, POk a) => (s, CRet outs (ROk (k a)))
  | (s, PErr e) => (s, CRet outs (RErr (RElem (OError e))))
  | (s, PPanic p) => (s, CPan p)
  end.
Definition value_or (o : option (rvalue item)) (p : panic) (s : file) : file * cres item :=
  match o with Some v => (s, CRet [] v) | None => (s, CPan p) end.
(** [fill_thrift] from a slice: what it leaves in the value and of the slice *)
Definition fill_item (c : cfg) (D : nat) (n : string) (v : value) (l : list Z) (s : file) : file * cres item :=
  match fill c (slice_input c) parquet_env D (TNamed n) v l with
  | (l', v', Ok _) => (s, CRet [Some (RElem (OVal n v')); Some (RBytes l')] (ROk (RTup [])))
  | (l', v', Err e) => (s, CRet [Some (RElem (OVal n v')); Some (RBytes l')] (RErr (RElem (OError (PThrift e)))))
  | (_, _, Panic p) => (s, CPan p)
  end.

(** Functions with no, one and two arguments; [PIllTyped]: not one of these *)
Definition lib_call0 (c : cfg) (D : nat) (p : list string) (s : file) : file * cres item :=
  if path_is p ["usize"; "MAX"]%string then (s, CRet [] (RInt Usize (2 ^ usize_bits c - 1)))
  else if path_is p ["PARQUET_MAGIC"]%string then (s, CRet [] (RBytes PARQUET_MAGIC))
  else if path_is p ["ParquetError"; "InvalidMagic"]%string then (s, CRet [] (RElem (OError PInvalidMagic)))
  else if path_is p ["ParquetError"; "InvalidOffset"]%string then (s, CRet [] (RElem (OError PInvalidOffset)))
  else if path_is p ["unreachable_unchecked"]%string then (s, CPan PUndefined)
  else if path_is p ["panic"]%string then (s, CPan PAssert)
  else if path_is p ["Vec"; "new"]%string then (s, CRet [] (RList []))
  else match p with
       | [n; m] => if String.eqb m "default" then value_or (match default parquet_env D (TNamed n) with Some v => Some (RElem (OVal n v)) | None => None end) PStack s
                   else (s, CPan PIllTyped)
       | _ => (s, CPan PIllTyped)
       end.
Definition lib_call1 (c : cfg) (alloc : Z -> bool) (p : list string) (a : rvalue item) (s : file) : file * cres item :=
  if path_is p ["SeekFrom"; "End"]%string then value_or (match coerce c (YInt I64) a with Some (RInt _ z) => Some (RElem (OFromEnd z)) | _ => None end) PIllTyped s
  else if path_is p ["SeekFrom"; "Start"]%string then value_or (match coerce c (YInt U64) a with Some (RInt _ z) => Some (RElem (OFromStart z)) | _ => None end) PIllTyped s
  else if path_is p ["u32"; "from_le_bytes"]%string then
    match a with
    | RInto l => if zlen l =? 4 then (s, CRet [] (RInt U32 (from_le l))) else (s, CPan PAssert)   (* the [unwrap] of [try_into] *)
    | _ => (s, CPan PIllTyped)
    end
  else if path_is p ["Vec"; "with_memory"]%string then
    match a with
    | RInt Usize n => match with_capacity c alloc n with POk _ => (s, CRet [] (RSpace n)) | PErr _ => (s, CPan PIllTyped) | PPanic q => (s, CPan q) end
    | _ => (s, CPan PIllTyped)
    end
  else if path_is p ["Result"; "Err"]%string then (s, CRet [] (RErr a))
  else if path_is p ["once"]%string then (s, CRet [] (RList [a]))
  else if path_is p ["CompactThriftInputSlice"; "new"]%string then match a with RBytes _ => (s, CRet [] a) | _ => (s, CPan PIllTyped) end
  else if path_is p ["."; "ok"]%string then match a with ROk v => (s, CRet [] (RSome v)) | RErr _ => (s, CRet [] RNone) | _ => (s, CPan PIllTyped) end
  else if path_is p ["."; "len"]%string then match a with RTup [RInt Usize x; RInt Usize y] => (s, CRet [] (RInt Usize (Z.max 0 (y - x)))) | _ => (s, CPan PIllTyped) end
  else match p with
       | [m; f] =>
           if String.eqb m ".field" then
             match a with
             | RTup [RInt Usize x; RInt Usize y] =>
                 value_or (if String.eqb f "start" then Some (RInt Usize x) else if String.eqb f "end" then Some (RInt Usize y) else None) PIllTyped s
             | RElem (OVal n v) => value_or (read_field f n v) PIllTyped s
             | _ => (s, CPan PIllTyped)
             end
           else (s, CPan PIllTyped)
       | _ => (s, CPan PIllTyped)
       end.
Definition lib_call2 (c : cfg) (D : nat) (p : list string) (a b : rvalue item) (s : file) : file * cres item :=
  if path_is p ["."; "seek"]%string then
    match a, b with
    | RObj, RElem (OFromEnd z) => answer [Some RObj; None] (fun _ => RTup []) (seek_end z s)
    | RObj, RElem (OFromStart z) => answer [Some RObj; None] (fun _ => RTup []) (seek_start z s)
    | _, _ => (s, CPan PIllTyped)
    end
  else if path_is p ["."; "read_exact"]%string then
    match a, match b with RBytes l => Some (zlen l) | RUninit n => Some n | _ => None end with
    | RObj, Some n =>
        match read_exact n s with
        | (s', POk l) => (s', CRet [Some RObj; Some (RBytes l)] (ROk (RTup [])))
        | (s', PErr e) => (s', CRet [Some RObj; None] (RErr (RElem (OError e))))
        | (s', PPanic q) => (s', CPan q)
        end
    | _, _ => (s, CPan PIllTyped)
    end
  else if path_is p ["PartialEq"; "ne"]%string then
    match a, b with RBytes l, RBytes k => (s, CRet [] (RBool (negb (list_eqb l k)))) | _, _ => (s, CPan PIllTyped) end
  else if path_is p ["Range"; "new"]%string then
    match a, b with RInt Usize _, RInt Usize _ => (s, CRet [] (RTup [a; b])) | _, _ => (s, CPan PIllTyped) end
  else if path_is p ["Index"; "index"]%string then
    match b with
    | RTup [x; y] => match RustEval.index_range a (Some x) (Some y) with VOk v => (s, CRet [] v) | VPan q => (s, CPan q) end
    | _ => (s, CPan PIllTyped)
    end
  else if path_is p ["."; "min"]%string then
    match a, b with RInt Usize x, RInt Usize y => (s, CRet [] (RInt Usize (Z.min x y))) | _, _ => (s, CPan PIllTyped) end
  else if path_is p ["."; "max"]%string then
    match a, b with RInt Usize x, RInt Usize y => (s, CRet [] (RInt Usize (Z.max x y))) | _, _ => (s, CPan PIllTyped) end
  else if path_is p ["."; "fill_thrift"]%string then
    match a, b with RElem (OVal n v), RBytes l => fill_item c D n v l s | _, _ => (s, CPan PIllTyped) end
  else (s, CPan PIllTyped).
(** [D]: the stack that is left for [default] and [fill_thrift] *)
Definition lib_world (c : cfg) (alloc : Z -> bool) (D : nat) : world item file := {|
  w_call := fun p args s =>
    match args with
    | [] => lib_call0 c D p s
    | [a] => lib_call1 c alloc p a s
    | [a; b] => lib_call2 c D p a b s
    | _ => (s, CPan PIllTyped)
    end;
  w_get := fun _ => None;
  w_set := fun _ _ => None;
  w_bound := fun _ => O
|}.
(** A function of the text; [d]: nested calls *)
Definition lib_fn (c : cfg) (alloc : Z -> bool) (D d : nat) (f : string) (args : list (rvalue item)) (s : file) : file * cres item :=
  w_call (link c lib_program (lib_world c alloc D) d) [f] args s.

(** * Results of the model as values of the code *)
Definition range_value (r : Z * Z) : rvalue item := RTup [RInt Usize (fst r); RInt Usize (snd r)].
Definition opt_value {A} (k : A -> rvalue item) (o : option A) : rvalue item := match o with Some a => RSome (k a) | None => RNone end.
Definition chunk_value (r : list Z * (Z * Z)) : rvalue item := RTup [RBytes (fst r); range_value (snd r)].
Definition index_value (r : value * value) : rvalue item := RTup [RElem (OVal "OffsetIndex" (fst r)); RElem (OVal "ColumnIndex" (snd r))].
Definition indexes_value (l : list (list (option (value * value)))) : rvalue item :=
  RList (map (fun r => RList (map (opt_value index_value) r)) l).
