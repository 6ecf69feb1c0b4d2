(** Clients that call [read_thrift] or [write_thrift] several times on the same input or output (protocol.rs:435-461). *)
From Verif Require Import Base Protocol Types.

Fixpoint read_stream {S} (c : cfg) (I : input S) (E : env) (d : nat) (ts : list ty) : M S (list value) :=
  match ts with
  | [] => ret []
  | t :: ts' => bind (read_thrift c I E d t) (fun v => bind (read_stream c I E d ts') (fun vs => ret (v :: vs)))
  end.
Fixpoint write_stream {W} (wa : list Z -> M W unit) (E : env) (tvs : list (ty * value)) : M W unit :=
  match tvs with
  | [] => ret tt
  | (t, v) :: tvs' => bind (write_thrift wa E t v) (fun _ => write_stream wa E tvs')
  end.
(** [each R ts bss vs]: the three lists are equally long and related element by element. *)
Inductive each {A B C} (R : A -> B -> C -> Prop) : list A -> list B -> list C -> Prop :=
| ea_nil : each R [] [] []
| ea_cons a b d la lb ld : R a b d -> each R la lb ld -> each R (a :: la) (b :: lb) (d :: ld).
