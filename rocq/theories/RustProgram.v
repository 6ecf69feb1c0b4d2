(** The functions of uleb.rs and protocol.rs, read from the text. *)
From Verif Require Import Base ErrorName RustLex MacroRules RustSyntax RustEval UlebText ProtocolText.
Open Scope Z_scope.
Open Scope list_scope.

Definition items_of (ls : list string) : list ritem := match read_file ls with Some l => l | None => [] end.
Definition uleb_items : list ritem := items_of uleb_rs_lines.
Definition protocol_items : list ritem := items_of protocol_rs_lines.

(** [#[cfg(test)]] is off, [#[cfg(target_feature = "sse2")]] as the build says. *)
Definition cfg_attr (sse : bool) (a : list tree) : bool :=
  match a with
  | [t; Gr Paren [u]] => if is_name t "cfg" then negb (is_name u "test") else true
  | [t; Gr Paren [u; e; Lf (LLit v)]] => if is_name t "cfg" && is_name u "target_feature" && is_punct e "=" then sse else true
  | _ => true
  end.
Definition enabled (sse : bool) (f : rfn) : bool := forallb (cfg_attr sse) (fn_attrs f).
(** The functions and constants among the items, each under the given prefix *)
Definition fns_of (sse : bool) (pre : list string) (is : list ritem) : program :=
  flat_map (fun i => match i with
                     | GFn f => match fn_body f with
                                | Some _ => if enabled sse f then [((pre ++ [fn_name f])%list, f)] else []
                                | None => []
                                end
                     | _ => []
                     end) is.
Definition consts_of (pre : list string) (is : list ritem) : program :=
  flat_map (fun i => match i with
                     | GConst n t (Some e) => [((pre ++ [n])%list, {| fn_attrs := []; fn_name := n; fn_params := []; fn_ret := t; fn_body := Some (BDo e false BNil) |})]
                     | _ => []
                     end) is.
Fixpoint trait_items (is : list ritem) (n : string) : list ritem :=
  match is with [] => [] | GTrait m l :: is' => if String.eqb n m then l else trait_items is' n | _ :: is' => trait_items is' n end.
(** [impl<..> tr<..> for t ..] *)
Definition is_impl (tr t : string) (h : list tree) : bool :=
  match upto (fun x => is_name x "for") h with
  | (a, _ :: b :: _) => existsb (fun x => is_name x tr) a && is_name b t
  | _ => false
  end.
Fixpoint impl_items (is : list ritem) (tr t : string) : list ritem :=
  match is with [] => [] | GImpl h l :: is' => if is_impl tr t h then l else impl_items is' tr t | _ :: is' => impl_items is' tr t end.

(** Functions and constants outside of traits *)
Definition free_fns (sse : bool) : program :=
  fns_of sse [] uleb_items ++ consts_of [] protocol_items ++ fns_of sse [] protocol_items.
Definition methods_of (sse : bool) (tr t : string) : program :=
  fns_of sse ["."%string] (impl_items protocol_items tr t) ++ fns_of sse ["."%string] (trait_items protocol_items tr).
(** The methods of an input that overrides what can be overridden *)
Definition default_methods (sse : bool) : program :=
  filter (fun x => negb (existsb (String.eqb (fn_name (snd x))) ["skip_integer"; "skip_binary"]%string)) (methods_of sse "CompactThriftInput" "").

Definition input_program (sse : bool) : program := default_methods sse ++ free_fns sse.
Definition slice_program (sse : bool) : program := methods_of sse "CompactThriftInput" "CompactThriftInputSlice" ++ free_fns sse.
Definition reader_program (sse : bool) : program := methods_of sse "CompactThriftInput" "R" ++ free_fns sse.
Definition writer_program (sse : bool) : program := methods_of sse "CompactThriftOutput" "W" ++ free_fns sse.
