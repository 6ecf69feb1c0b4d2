(** Property theorems C103: the text of the whole runtime, run as one program, reads and writes what the model does. *)
From Verif Require Import Base Uleb Utf8 Protocol Encodings Types RustSyntax RustEval RustProgram RustTypes RustLex RustMacro MacrosText Macro MacroRules RustCode SpecInput SpecRust
  SpecExpand SpecWhole SpecText SpecTextIO SpecTypesText TextRuntime SpecCompact Schema Typing Parquet P_Good P_Robust P_TextRuntime P_TextRuntimeW P_TextRuntimeAll.
Open Scope Z_scope.
Open Scope list_scope.

(** Any input whose methods do what those of the model do: the same value or error and the same rest, unless the model runs out of stack *)
Theorem C103_input : forall S c, cfg_ok c -> forall (I : input S) own inv le, lawful c I inv le (fun _ => True) ->
  forall L : nat -> world value S, text_reads c I own inv L -> (forall d s, w_bound (L d) s = Datatypes.S (in_left I s)) ->
  forall rep, implemented rep -> forall E K, env_closed E K = true -> different_names E ->
  forall d t s, inv s -> ty_closed E t = true ->
    (exists s', read_thrift c I E d t s = (s', Panic PStack)) \/ text_read c L rep E d t s = read_thrift c I E d t s.
Proof. exact @text_read_same. Qed.
Print Assumptions C103_input.
Theorem C103_slice : forall c rep E K t d s,
  cfg_ok c -> implemented rep -> env_closed E K = true -> different_names E -> ty_closed E t = true -> bytes s -> (need K t (List.length s) <= d)%nat ->
  text_read c (slice_text_of c) rep E d t s = read_thrift c (slice_input c) E d t s.
Proof. exact slice_runtime. Qed.
Print Assumptions C103_slice.
Theorem C103_reader : forall c sse rep E K t d r,
  cfg_ok c -> implemented rep -> env_closed E K = true -> different_names E -> ty_closed E t = true -> reader_bytes r -> (need K t (reader_left r) <= d)%nat ->
  text_read c (reader_text_of c sse) rep E d t r = read_thrift c (reader_input c) E d t r.
Proof. exact reader_runtime. Qed.
Print Assumptions C103_reader.
Theorem C103_write : forall W c sse (write_all : list Z -> M W unit) rep E t v d s,
  cfg_ok c -> implemented rep -> different_names E -> typed E t v -> (2 * height v <= d + 1)%nat ->
  text_write c (writer_text_of c sse write_all) rep E d t v s = write_thrift write_all E t v s.
Proof. exact @writer_runtime. Qed.
Print Assumptions C103_write.
(** What the text writes, the text reads, from a slice and from any reader, under the conditions of C12. *)
Theorem C103_round : forall c sse rep rep' E K t v bs d k,
  cfg_ok c -> reserve_ok c -> implemented rep -> implemented rep' -> different_names E -> env_ok false E K = true -> fits E v t = true -> typed E t v ->
  (2 * height v <= k + 1)%nat -> text_write c (writer_text_of c sse vec_write_all) rep E k t v [] = (bs, Ok tt) ->
  (forall rest, bytes (bs ++ rest) -> (need K t (List.length (bs ++ rest)) <= d)%nat ->
    text_read c (slice_text_of c) rep' E d t (bs ++ rest) = (rest, Ok (unshare v))) /\
  (forall r rest, content r = bs ++ rest -> reader_bytes r -> (need K t (reader_left r) <= d)%nat ->
    exists r', text_read c (reader_text_of c sse) rep' E d t r = (r', Ok (unshare v)) /\ content r' = rest /\ ending r' = ending r).
Proof. exact runtime_round. Qed.
Print Assumptions C103_round.
(** The panics of the text are those of C17. *)
Theorem C103_panics : forall c rep E K t d s p,
  cfg_ok c -> implemented rep -> env_closed E K = true -> different_names E -> ty_closed E t = true -> bytes s -> (need K t (List.length s) <= d)%nat ->
  snd (text_read c (slice_text_of c) rep E d t s) = Panic p -> slice_panic c p.
Proof. exact runtime_panics. Qed.
Print Assumptions C103_panics.
(** The methods of the declared types are those to which the text of macros.rs expands. *)
Theorem C103_methods : forall ms ts ds E k out l,
  read_macros macros_rs_text = Some ms -> declarations ds ts -> expand_all ds = Some E -> Forall (fun d => suitable (snd d)) ds ->
  (List.length ts + 4 <= k)%nat -> names_differ E -> expansion ms k "thrift" ts = Some out -> items_read l out ->
  different_names E /\
  forall n z f w, In (Protocol n z f w) l -> exists df, lookup E n = Some df /\
    item_type (methods (n, df)) = z /\ item_fill (methods (n, df)) = f /\ item_write (methods (n, df)) = w.
Proof. exact runtime_methods. Qed.
Print Assumptions C103_methods.

Example C103_representation : forall borrowed, implemented (representation borrowed).
Proof. exact representation_ok. Qed.
Example C103_parquet : different_names parquet_env /\ env_closed parquet_env 12 = true.
Proof. split; [exact parquet_names|vm_compute; reflexivity]. Qed.
(** A data page header with an unknown field is read by the text, and written without it. *)
Example C103_page :
  text_read release64 (slice_text_of release64) (representation true) parquet_env 300 (TNamed "DataPageHeader") [21; 8; 21; 2; 21; 4; 21; 6; 67; 77; 0; 99] =
    ([99], Ok (VStruct [VI32 4; VI32 1; VI32 2; VI32 3; VNone])) /\
  text_write release64 (writer_text_of release64 true vec_write_all) (representation true) parquet_env 300 (TNamed "DataPageHeader") (VStruct [VI32 4; VI32 1; VI32 2; VI32 3; VNone]) [7] =
    ([7; 21; 8; 21; 2; 21; 4; 21; 6; 0], Ok tt).
Proof. exact runtime_page. Qed.
