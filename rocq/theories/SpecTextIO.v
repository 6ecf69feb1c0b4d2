(** What the text of uleb.rs and protocol.rs is to do: what Uleb.v and Protocol.v say. *)
From Verif Require Import Base Uleb Protocol RustSyntax RustEval SpecText.
Open Scope Z_scope.
Open Scope list_scope.

(** What the methods and functions of the text do with an input; [L d]: the text with room for [d] nested calls.
    None of the functions that do not call themselves needs more than seven. *)
Record text_reads {X S} (c : cfg) (I : input S) (own : bool) (inv : S -> Prop) (L : nat -> world X S) : Prop := {
  tr_byte : forall d s, w_call (L (7 + d)%nat) ["."; "read_byte"]%string [RObj] s = method 0 (RInt U8) (in_read_byte I s);
  tr_double : forall d s, w_call (L (7 + d)%nat) ["."; "read_double"]%string [RObj] s = method 0 RDouble (in_read_double I s);
  tr_binary : forall d s, w_call (L (7 + d)%nat) ["."; "read_binary"]%string [RObj] s = method 0 (RCow own) (in_read_binary I s);
  tr_skip_integer : forall d s, w_call (L (7 + d)%nat) ["."; "skip_integer"]%string [RObj] s = method 0 (fun _ => RTup []) (in_skip_integer I s);
  tr_skip_binary : forall d s, w_call (L (7 + d)%nat) ["."; "skip_binary"]%string [RObj] s = method 0 (fun _ => RTup []) (in_skip_binary I s);
  tr_uleb : forall d s, w_call (L (7 + d)%nat) ["decode_uleb"]%string [RObj] s = method 0 (RInt U64) (decode_uleb c (in_read_byte I) (in_left I) s);
  tr_len : forall d s, w_call (L (7 + d)%nat) ["."; "read_len"]%string [RObj] s = method 0 (RInt Usize) (read_len c I s);
  tr_i16 : forall d s, w_call (L (7 + d)%nat) ["."; "read_i16"]%string [RObj] s = method 0 (RInt I16) (read_i16 c I s);
  tr_i32 : forall d s, w_call (L (7 + d)%nat) ["."; "read_i32"]%string [RObj] s = method 0 (RInt I32) (read_i32 c I s);
  tr_i64 : forall d s, w_call (L (7 + d)%nat) ["."; "read_i64"]%string [RObj] s = method 0 (RInt I64) (read_i64 c I s);
  tr_string : forall d s, w_call (L (7 + d)%nat) ["."; "read_string"]%string [RObj] s = method 0 (RCow own) (read_string I s);
  tr_field_id : forall d s, w_call (L (7 + d)%nat) ["read_full_field_id"]%string [RObj] s = method 0 (RInt I16) (read_full_field_id c I s);
  (* the id of the field before it is an [&mut] argument *)
  tr_header : forall d last s, inv s -> in_s 16 last ->
    w_call (L (7 + d)%nat) ["."; "read_field_header"]%string [RObj; RInt I16 last] s =
    gives (fun r => [Some RObj; Some (RInt I16 (snd r))]) (fun r => RInt U8 (fst r)) (read_field_header c I last s) [Some RObj; Some (RInt I16 last)];
  tr_collection : forall d s, w_call (L (7 + d)%nat) ["read_collection_len_and_type"]%string [RObj] s =
    method 0 (fun r => RTup [RInt U32 (fst r); RInt U8 (snd r)]) (read_collection_len_and_type c I s);
  tr_map : forall d s, w_call (L (7 + d)%nat) ["read_map_len_and_types"]%string [RObj] s =
    method 0 (fun r => RTup [RInt U32 (fst (fst r)); RInt U8 (snd (fst r)); RInt U8 (snd r)]) (read_map_len_and_types c I s);
  (* the three functions that call each other *)
  tr_skip_collection : forall d s, inv s -> agrees (method 0 (fun _ => RTup []) (skip_collection c I d s)) (w_call (L (6 + d)%nat) ["skip_collection"]%string [RObj] s);
  tr_skip_map : forall d s, inv s -> agrees (method 0 (fun _ => RTup []) (skip_map c I d s)) (w_call (L (6 + d)%nat) ["skip_map"]%string [RObj] s);
  tr_skip_field : forall d t ic s, inv s ->
    agrees (method 2 (fun _ => RTup []) (skip_field c I d t ic s)) (w_call (L (6 + d)%nat) ["skip_field"]%string [RObj; RInt U8 t; RBool ic] s);
  tr_skip : forall d t s, inv s -> agrees (method 1 (fun _ => RTup []) (skip_field c I d t false s)) (w_call (L (7 + d)%nat) ["."; "skip_field"]%string [RObj; RInt U8 t] s)
}.

(** What they do with an output *)
Record text_writes {X W} (write_all : list Z -> M W unit) (L : nat -> world X W) : Prop := {
  tw_max : forall d s, w_call (L (6 + d)%nat) ["MAX_COLLECTION_LEN"]%string [] s = (s, CRet [] (RInt Usize MAX_COLLECTION_LEN));
  tw_byte : forall d b s, w_call (L (6 + d)%nat) ["."; "write_byte"]%string [RObj; RInt U8 b] s = method 1 (fun _ => RTup []) (write_byte write_all b s);
  tw_uleb : forall d v s, 0 <= v < 2 ^ 64 -> w_call (L (6 + d)%nat) ["encode_uleb"]%string [RObj; RInt U64 v] s = method 1 (fun _ => RTup []) (encode_uleb (write_byte write_all) v s);
  tw_len : forall d n s, w_call (L (6 + d)%nat) ["."; "write_len"]%string [RObj; RInt Usize n] s = method 1 (fun _ => RTup []) (write_len write_all n s);
  tw_i16 : forall d i s, w_call (L (6 + d)%nat) ["."; "write_i16"]%string [RObj; RInt I16 i] s = method 1 (fun _ => RTup []) (write_i16 write_all i s);
  tw_i32 : forall d i s, w_call (L (6 + d)%nat) ["."; "write_i32"]%string [RObj; RInt I32 i] s = method 1 (fun _ => RTup []) (write_i32 write_all i s);
  tw_i64 : forall d i s, w_call (L (6 + d)%nat) ["."; "write_i64"]%string [RObj; RInt I64 i] s = method 1 (fun _ => RTup []) (write_i64 write_all i s);
  tw_double : forall d z s, w_call (L (6 + d)%nat) ["."; "write_double"]%string [RObj; RDouble z] s = method 1 (fun _ => RTup []) (write_double write_all z s);
  tw_binary : forall d l s, w_call (L (6 + d)%nat) ["."; "write_binary"]%string [RObj; RBytes l] s = method 1 (fun _ => RTup []) (write_binary write_all l s);
  tw_string : forall d l s, w_call (L (6 + d)%nat) ["."; "write_string"]%string [RObj; RBytes l] s = method 1 (fun _ => RTup []) (write_string write_all l s);
  tw_header : forall d t id last s, w_call (L (6 + d)%nat) ["write_field_header"]%string [RObj; RInt U8 t; RInt I16 id; RInt I16 last] s =
    gives (fun id' => [Some RObj; None; None; Some (RInt I16 id')]) (fun _ => RTup []) (write_field_header write_all t id last s) [Some RObj; None; None; Some (RInt I16 last)]
}.
