(** How what the interpreted text does is compared with what the model does. *)
From Verif Require Import Base Protocol RustSyntax RustEval.
Open Scope Z_scope.
Open Scope list_scope.

(** A [Result] of the model as a value of the interpreter; [outs]: what is left in the arguments *)
Definition gives {X S A} (outs : A -> list (option (rvalue X))) (k : A -> rvalue X) (r : S * outcome A) (outs' : list (option (rvalue X))) : S * cres X :=
  match r with
  | (s, Ok a) => (s, CRet (outs a) (ROk (k a)))
  | (s, Err e) => (s, CRet outs' (RErr (RError e)))
  | (s, Panic p) => (s, CPan p)
  end.
(** A method of the object with arguments that are not changed *)
Definition method {X S A} (n : nat) (k : A -> rvalue X) (r : S * outcome A) : S * cres X :=
  gives (fun _ => Some RObj :: repeat None n) k r (Some RObj :: repeat None n).

(** An arbitrary input: its five methods; [own]: whether its binaries are owned *)
Definition input_world {X S} (own : bool) (I : input S) : world X S := {|
  w_call := fun n vs s =>
    match vs with
    | [RObj] =>
        if path_is n ["."; "read_byte"]%string then method 0 (RInt U8) (in_read_byte I s)
        else if path_is n ["."; "read_double"]%string then method 0 RDouble (in_read_double I s)
        else if path_is n ["."; "read_binary"]%string then method 0 (RCow own) (in_read_binary I s)
        else if path_is n ["."; "skip_integer"]%string then method 0 (fun _ => RTup []) (in_skip_integer I s)
        else if path_is n ["."; "skip_binary"]%string then method 0 (fun _ => RTup []) (in_skip_binary I s)
        else (s, CPan PIllTyped)
    | _ => (s, CPan PIllTyped)
    end;
  w_get := fun _ => None;
  w_set := fun _ _ => None;
  w_bound := fun s => Datatypes.S (in_left I s)
|}.

(** [&[u8]]: the slice itself is the field [0] *)
Definition slice_world {X} : world X (list Z) := {|
  w_call := fun _ _ s => (s, CPan PIllTyped);
  w_get := fun s => Some (RBytes s);
  w_set := fun v s => match v with RBytes l => Some l | _ => None end;
  w_bound := fun s => Datatypes.S (List.length s)
|}.
(** [std::io::Read]: [read_exact] fills the buffer or fails *)
Definition fills {X} (b : rvalue X) (r : reader * outcome (list Z)) : reader * cres X :=
  match r with
  | (s, Ok l) => (s, CRet [Some RObj; Some (RBytes l)] (ROk (RTup [])))
  | (s, Err e) => (s, CRet [Some RObj; Some b] (RErr (RError e)))
  | (s, Panic p) => (s, CPan p)
  end.
Definition reader_world {X} : world X reader := {|
  w_call := fun n vs s =>
    if path_is n ["."; "read_exact"]%string then
      match vs with
      | [RObj; RBytes l] => fills (RBytes l) (read_exact (List.length l) s)
      | [RObj; RUninit n] => fills (RUninit n) (read_exact (Z.to_nat n) s)
      | _ => (s, CPan PIllTyped)
      end
    else (s, CPan PIllTyped);
  w_get := fun _ => None;
  w_set := fun _ _ => None;
  w_bound := fun s => Datatypes.S (reader_left s)
|}.
(** [std::io::Write] with this [write_all] *)
Definition writer_world {X W} (write_all : list Z -> M W unit) : world X W := {|
  w_call := fun n vs s =>
    if path_is n ["."; "write_all"]%string then
      match vs with
      | [RObj; RBytes l] => method 1 (fun _ => RTup []) (write_all l s)
      | _ => (s, CPan PIllTyped)
      end
    else (s, CPan PIllTyped);
  w_get := fun _ => None;
  w_set := fun _ _ => None;
  w_bound := fun _ => 10%nat
|}.

(** A value that is an integer of that type where one is expected *)
Definition is_int {X} (c : cfg) (t : ity) (v : rvalue X) (z : Z) : Prop := coerce c (YInt t) v = Some (RInt t z).

(** The text agrees with the model as long as the model does not run out of stack: both count the nested calls,
    but the text counts all of them and the model only those of the three functions that call each other. *)
Definition agrees {X S} (m t : S * cres X) : Prop := (exists s, m = (s, CPan PStack)) \/ t = m.

(** States the operations of an input lead to: what is read from them are bytes. *)
Definition keeps {S A} (inv : S -> Prop) (m : M S A) : Prop := forall s s' a, inv s -> m s = (s', Ok a) -> inv s'.
Record byte_input {S} (inv : S -> Prop) (I : input S) : Prop := {
  bi_byte : forall s s' b, inv s -> in_read_byte I s = (s', Ok b) -> is_byte b /\ inv s';
  bi_double : keeps inv (in_read_double I);
  bi_binary : keeps inv (in_read_binary I);
  bi_integer : keeps inv (in_skip_integer I);
  bi_skip : keeps inv (in_skip_binary I)
}.
