(** The part of Rust in which the methods of [CompactThriftProtocol] are written by the macros of
    runtime/src/macros.rs and by the generator, its meaning, and the methods themselves. *)
From Verif Require Import Base Protocol Types.
Open Scope Z_scope.
Open Scope list_scope.

(** * Syntax *)

(** A local variable.  The names in the text of a macro are different from those it is given
    (macro hygiene); [true] marks the latter. *)
Definition local : Type := bool * string.
(** The calls; each is followed by [?] except in [Tail]. *)
Inductive call : Type :=
| ReadHeader (last : local)                        (* input.read_field_header(&mut last) *)
| SkipField (ft : local)                           (* input.skip_field(ft) *)
| ReadByte                                         (* input.read_byte() *)
| ReadI32                                          (* input.read_i32() *)
| FillField (f : string) (ft : local)              (* self.f.fill_thrift_field(input, ft) *)
| FillInner                                        (* inner.fill_thrift(input) *)
| WriteByte (b : Z)                                (* output.write_byte(b) *)
| WriteI32                                         (* output.write_i32(self.0) *)
| WriteField (f : string) (id : Z) (last : local)  (* self.f.write_thrift_field(output, id, &mut last) *)
| WriteInner (id : Z) (last : local).              (* inner.write_thrift_field(output, id, &mut last) *)
Inductive init : Type := Num (z : Z) | Flag (b : bool) | Result (k : call).
Inductive cond : Type := IsZero (x : local) | NotZero (x : local) | NotSet (x : local).
Inductive stmt : Type :=
| Let (x : local) (i : init)                       (* let mut x = i; *)
| SetFlag (x : local)                              (* x = true; *)
| SetSelf (k : call)                               (* self.0 = k?; *)
| Do (k : call)                                    (* k?; *)
| Loop (body : list stmt)                          (* loop { body } *)
| If (b : cond) (body : list stmt)                 (* if b { body } *)
| Break                                            (* break; *)
| ReturnErr (e : error) (semicolon : bool)         (* return Err(e) *)
| Match (x : local) (arms : list (Z * list stmt)) (other : list stmt) (* match x { id => { body } ... _ => { other } } *)
| SetVariant (n : string)                          (* *self = Self::n(Default::default()); *)
| MatchSelf (arms : list (string * call)) (rest : bool) (* match self { Self::n(inner) => k?, ... [_ => unsafe { unreachable_unchecked() }] } *)
| Finish                                           (* Ok(()) *)
| Tail (k : call).                                 (* k *)

(** * Meaning *)
Inductive held : Type := HInt (z : Z) | HFlag (b : bool).
Definition locals : Type := list (local * held).
Definition local_eqb (x y : local) : bool := Bool.eqb (fst x) (fst y) && String.eqb (snd x) (snd y).
Fixpoint fetch (ls : locals) (x : local) : option held :=
  match ls with
  | [] => None
  | (y, h) :: ls' => if local_eqb x y then Some h else fetch ls' x
  end.
Fixpoint store (ls : locals) (x : local) (h : held) : locals :=
  match ls with
  | [] => []
  | (y, g) :: ls' => if local_eqb x y then (y, h) :: ls' else (y, g) :: store ls' x h
  end.
(** The variables of a block end with it. *)
Definition leave (n : nat) (ls : locals) : locals := skipn (List.length ls - n) ls.
(** [self.n] and [Self::n] *)
Fixpoint named (fs : list field) (n : string) : option (nat * field) :=
  match fs with
  | [] => None
  | f :: fs' => if String.eqb n (f_name f) then Some (O, f) else match named fs' n with Some (i, g) => Some (Datatypes.S i, g) | None => None end
  end.
Fixpoint variant_arm {A} (arms : list (string * A)) (n : string) : option A :=
  match arms with
  | [] => None
  | (m, a) :: arms' => if String.eqb n m then Some a else variant_arm arms' n
  end.

Inductive flow : Type := Next | Broke | Done (o : outcome unit).
Definition ill {A} : outcome A := Panic PIllTyped.

Section Exec.
  Context {X : Type}.
  (** The fields of the struct or the variants of the union, the default of a type, the calls. *)
  Variable fs : list field.
  Variable default1 : ty -> option value.
  Variable run : call -> X -> value -> locals -> X * value * locals * outcome Z.
  Definition state : Type := X * value * locals.

  (** [k?]: what follows happens only after success. *)
  Definition ask (k : call) (st : state) (go : state -> Z -> state * flow) : state * flow :=
    let '(s, v, ls) := st in
    match run k s v ls with
    | (s', v', ls', Ok z) => go (s', v', ls') z
    | (s', v', ls', Err e) => ((s', v', ls'), Done (Err e))
    | (s', v', ls', Panic p) => ((s', v', ls'), Done (Panic p))
    end.
  Definition holds (b : cond) (ls : locals) : option bool :=
    match b with
    | IsZero x => match fetch ls x with Some (HInt z) => Some (z =? 0) | _ => None end
    | NotZero x => match fetch ls x with Some (HInt z) => Some (negb (z =? 0)) | _ => None end
    | NotSet x => match fetch ls x with Some (HFlag f) => Some (negb f) | _ => None end
    end.
  (** [fuel]: bound on the rounds of a loop. *)
  Fixpoint exec (fuel : nat) (t : stmt) (st : state) {struct t} : state * flow :=
    let block := fix block (ts : list stmt) (st : state) : state * flow :=
      match ts with
      | [] => (st, Next)
      | t' :: ts' => match exec fuel t' st with (st', Next) => block ts' st' | r => r end
      end in
    let scope ts st := match block ts st with ((s, v, ls), w) => ((s, v, leave (List.length (snd st)) ls), w) end in
    let '(s, v, ls) := st in
    match t with
    | Let x (Num z) => ((s, v, (x, HInt z) :: ls), Next)
    | Let x (Flag b) => ((s, v, (x, HFlag b) :: ls), Next)
    | Let x (Result k) => ask k st (fun '(s', v', ls') z => ((s', v', (x, HInt z) :: ls'), Next))
    | SetFlag x => match fetch ls x with Some (HFlag _) => ((s, v, store ls x (HFlag true)), Next) | _ => (st, Done ill) end
    | SetSelf k => ask k st (fun '(s', _, ls') z => ((s', VI32 z, ls'), Next))
    | Do k => ask k st (fun st' _ => (st', Next))
    | Loop body =>
        (fix loop (n : nat) (st : state) : state * flow :=
           match n with
           | O => (st, Done (Panic PNonTermination))
           | Datatypes.S n' => match scope body st with
                               | (st', Next) => loop n' st'
                               | (st', Broke) => (st', Next)
                               | r => r
                               end
           end) fuel st
    | If b body => match holds b ls with Some true => scope body st | Some false => (st, Next) | None => (st, Done ill) end
    | Break => (st, Broke)
    | ReturnErr e _ => (st, Done (Err e))
    | Match x arms other =>
        match fetch ls x with
        | Some (HInt z) =>
            (fix arm_of (arms : list (Z * list stmt)) : state * flow :=
               match arms with
               | [] => scope other st
               | (y, body) :: arms' => if y =? z then scope body st else arm_of arms'
               end) arms
        | _ => (st, Done ill)
        end
    | SetVariant n =>
        match named fs n with
        | Some (i, f) => match default1 (f_ty f) with Some dv => ((s, VUnion i dv, ls), Next) | None => (st, Done (Panic PStack)) end
        | None => (st, Done ill)
        end
    | MatchSelf arms rest =>
        match v with
        | VUnion i _ =>
            match nth_error fs i with
            | Some f => match variant_arm arms (f_name f) with
                        | Some k => ask k st (fun st' _ => (st', Next))
                        | None => (st, Done (if rest then Panic PUndefined else ill))
                        end
            | None => (st, Done ill)
            end
        | _ => (st, Done ill)
        end
    | Finish => (st, Done (Ok tt))
    | Tail k => ask k st (fun st' _ => (st', Done (Ok tt)))
    end.
  (** A method body; [self] and the result. *)
  Fixpoint exec_all (fuel : nat) (ts : list stmt) (st : state) : state * flow :=
    match ts with
    | [] => (st, Next)
    | t :: ts' => match exec fuel t st with (st', Next) => exec_all fuel ts' st' | r => r end
    end.
  Definition method (fuel : nat) (ts : list stmt) (v : value) (s : X) : X * value * outcome unit :=
    match exec_all fuel ts (s, v, []) with
    | ((s', v', _), Done o) => (s', v', o)
    | ((s', v', _), _) => (s', v', ill)
    end.
End Exec.

(** * The calls *)
Section Calls.
  Variable fs : list field.
  Definition read_error {S A} (v : value) (ls : locals) (r : S * outcome A) : S * value * locals * outcome Z :=
    match r with (s, Ok _) => (s, v, ls, ill) | (s, Err e) => (s, v, ls, Err e) | (s, Panic p) => (s, v, ls, Panic p) end.
  Definition result (o : outcome unit) : outcome Z := match o with Ok _ => Ok 0 | Err e => Err e | Panic p => Panic p end.

  Section Reading.
    Context {S : Type}.
    Variable c : cfg.
    Variable I : input S.
    (** [fill_thrift], [fill_thrift_field] of the types of the fields and [skip_field] *)
    Variable fill1 : ty -> F S.
    Variable fill_field1 : ty -> Z -> F S.
    Variable skip1 : Z -> M S unit.
    Definition run_read (k : call) (s : S) (v : value) (ls : locals) : S * value * locals * outcome Z :=
      match k with
      | ReadHeader x =>
          match fetch ls x with
          | Some (HInt last) => match read_field_header c I last s with
                                | (s', Ok (ft, last')) => (s', v, store ls x (HInt last'), Ok ft)
                                | r => read_error v ls r
                                end
          | _ => (s, v, ls, ill)
          end
      | SkipField x =>
          match fetch ls x with
          | Some (HInt ft) => match skip1 ft s with (s', o) => (s', v, ls, result o) end
          | _ => (s, v, ls, ill)
          end
      | ReadByte => match in_read_byte I s with (s', o) => (s', v, ls, o) end
      | ReadI32 => match read_i32 c I s with (s', o) => (s', v, ls, o) end
      | FillField n x =>
          match fetch ls x, v, named fs n with
          | Some (HInt ft), VStruct vs, Some (i, f) =>
              match nth_error vs i with
              | Some w => match fill_field1 (field_ty f) ft w s with (s', w', o) => (s', VStruct (set_nth vs i w'), ls, result o) end
              | None => (s, v, ls, ill)
              end
          | _, _, _ => (s, v, ls, ill)
          end
      | FillInner =>
          match v with
          | VUnion i w => match nth_error fs i with
                          | Some f => match fill1 (f_ty f) w s with (s', w', o) => (s', VUnion i w', ls, result o) end
                          | None => (s, v, ls, ill)
                          end
          | _ => (s, v, ls, ill)
          end
      | _ => (s, v, ls, ill)
      end.
  End Reading.

  Section Writing.
    Context {W : Type}.
    Variable write_all : list Z -> M W unit.
    (** [write_thrift_field] of the types of the fields *)
    Variable write_field1 : ty -> value -> Z -> Z -> M W Z.
    Definition run_write (k : call) (s : W) (v : value) (ls : locals) : W * value * locals * outcome Z :=
      match k with
      | WriteByte b => match write_byte write_all b s with (s', o) => (s', v, ls, result o) end
      | WriteI32 => match v with VI32 z => match write_i32 write_all z s with (s', o) => (s', v, ls, result o) end | _ => (s, v, ls, ill) end
      | WriteField n id x =>
          match fetch ls x, v, named fs n with
          | Some (HInt last), VStruct vs, Some (i, f) =>
              match nth_error vs i with
              | Some w => match write_field1 (field_ty f) w id last s with
                          | (s', Ok last') => (s', v, store ls x (HInt last'), Ok 0)
                          | r => read_error v ls r
                          end
              | None => (s, v, ls, ill)
              end
          | _, _, _ => (s, v, ls, ill)
          end
      | WriteInner id x =>
          match fetch ls x, v with
          | Some (HInt last), VUnion i w =>
              match nth_error fs i with
              | Some f => match write_field1 (f_ty f) w id last s with
                          | (s', Ok last') => (s', v, store ls x (HInt last'), Ok 0)
                          | r => read_error v ls r
                          end
              | None => (s, v, ls, ill)
              end
          | _, _ => (s, v, ls, ill)
          end
      | _ => (s, v, ls, ill)
      end.
  End Writing.
End Calls.

(** * What the macros expand to *)
Definition own (n : string) : local := (false, n).
Definition given (n : string) : local := (true, n).
Definition last_field_id : local := own "last_field_id".
Definition field_type_ : local := own "field_type".
Definition stop_ : local := own "stop".
(** macros.rs:275-278, 283-286, 291-298 *)
Definition required_flag (f : field) : list stmt := if f_req f then [Let (given (f_name f)) (Flag false)] else [].
Definition required_set (f : field) : list stmt := if f_req f then [SetFlag (given (f_name f))] else [].
Definition required_check (n : string) (f : field) : list stmt :=
  if f_req f then [If (NotSet (given (f_name f))) [ReturnErr (MissingField (n ++ "::" ++ f_name f)%string) false]] else [].
(** macros.rs:77-100 *)
Definition struct_fill_code (n : string) (fs : list field) : list stmt :=
  [Let last_field_id (Num 0)] ++ flat_map required_flag fs ++
  [Loop
    [Let field_type_ (Result (ReadHeader last_field_id));
     If (IsZero field_type_) [Break];
     Match last_field_id
       (map (fun f => (f_id f, required_set f ++ [Do (FillField (f_name f) field_type_)])) fs)
       [Do (SkipField field_type_)]]] ++
  flat_map (required_check n) fs ++
  [Finish].
(** macros.rs:102-109 *)
Definition struct_write_code (fs : list field) : list stmt :=
  [Let last_field_id (Num 0)] ++
  map (fun f => Do (WriteField (f_name f) (f_id f) last_field_id)) fs ++
  [Do (WriteByte 0); Finish].
(** macros.rs:148-175 *)
Definition union_fill_code (fs : list field) : list stmt :=
  [Let last_field_id (Num 0);
   Let field_type_ (Result (ReadHeader last_field_id));
   If (IsZero field_type_) [ReturnErr InvalidType true];
   Match last_field_id
     (map (fun f => (f_id f, [SetVariant (f_name f); MatchSelf [(f_name f, FillInner)] true])) fs)
     [ReturnErr (MissingField "$struct_name") false];
   Let stop_ (Result ReadByte);
   If (NotZero stop_) [ReturnErr MissingStop false];
   Finish].
(** macros.rs:177-184 *)
Definition union_write_code (fs : list field) : list stmt :=
  [Let last_field_id (Num 0);
   MatchSelf (map (fun f => (f_name f, WriteInner (f_id f) last_field_id)) fs) false;
   Do (WriteByte 0);
   Finish].
(** macros.rs:224-227 *)
Definition enum_fill_code : list stmt := [SetSelf ReadI32; Finish].
(** macros.rs:230-232 *)
Definition enum_write_code : list stmt := [Tail WriteI32].
