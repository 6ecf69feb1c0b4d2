(** Property theorems C101: the text of uleb.rs and protocol.rs does what Uleb.v and Protocol.v say. *)
From Verif Require Import Base Uleb Utf8 Protocol SpecInput UlebText ProtocolText RustSyntax RustEval RustProgram SpecText SpecTextIO P_TextAll.
Open Scope Z_scope.
Open Scope list_scope.

(** Whatever implements the five methods without a body, and whatever is passed through *)
Theorem C101_input : forall X S c sse own (I : input S) inv, cfg_ok c -> byte_input inv I ->
  text_reads c I own inv (fun d => link c (input_program sse) (@input_world X S own I) d).
Proof. exact @input_text. Qed.
Print Assumptions C101_input.
(** The implementation for slices *)
Theorem C101_slice : forall X c, cfg_ok c ->
  text_reads c (slice_input c) false bytes (fun d => link c (slice_program (sse2 c)) (@slice_world X) d).
Proof. exact @slice_text. Qed.
Print Assumptions C101_slice.
(** The implementation for readers *)
Theorem C101_reader : forall X c sse, cfg_ok c ->
  text_reads c (reader_input c) true reader_bytes (fun d => link c (reader_program sse) (@reader_world X) d).
Proof. exact @reader_text. Qed.
Print Assumptions C101_reader.
(** The implementation for writers *)
Theorem C101_writer : forall X W c sse (write_all : list Z -> M W unit), cfg_ok c ->
  text_writes write_all (fun d => link c (writer_program sse) (@writer_world X W write_all) d).
Proof. exact @writer_text. Qed.
Print Assumptions C101_writer.
(** What the text writes, the text reads. *)
Theorem C101_i64 : forall X c n w, cfg_ok c -> in_s 64 n ->
  exists bs,
    w_call (link c (writer_program (sse2 c)) (@writer_world X _ vec_write_all) 6) ["."; "write_i64"]%string [RObj; RInt I64 n] w = (w ++ bs, CRet [Some RObj; None] (ROk (RTup []))) /\
    forall rest, bytes (bs ++ rest) ->
      w_call (link c (slice_program (sse2 c)) (@slice_world X) 7) ["."; "read_i64"]%string [RObj] (bs ++ rest) = (rest, CRet [Some RObj] (ROk (RInt I64 n))).
Proof. exact @text_i64. Qed.
Print Assumptions C101_i64.

(** Both files can be read, and these are the functions in them. *)
Example C101_files :
  read_file uleb_rs_lines <> None /\ read_file protocol_rs_lines <> None /\
  map fst (free_fns true) =
    [["decode_uleb"]; ["skip_uleb_sse2"]; ["skip_uleb_fallback"]; ["encode_uleb"]; ["MAX_BINARY_LEN"]; ["MAX_COLLECTION_LEN"]; ["read_full_field_id"];
     ["zigzag_decode16"]; ["zigzag_decode32"]; ["zigzag_decode64"]; ["zigzag_encode16"]; ["zigzag_encode32"]; ["zigzag_encode64"];
     ["read_collection_len_and_type"]; ["read_map_len_and_types"]; ["skip_collection"]; ["skip_map"]; ["skip_field"]; ["write_field_header"]]%string.
Proof. vm_compute. repeat split; discriminate. Qed.
(** A struct with a list of two numbers in field 1 and a double in field 3 is skipped; the next byte is not. *)
Example C101_skip :
  w_call (link debug64 (slice_program true) (@slice_world unit) 11) ["."; "skip_field"]%string [RObj; RInt U8 12]
    [25; 37; 129; 1; 4; 39; 1; 2; 3; 4; 5; 6; 7; 8; 0; 99] = ([99], CRet [Some RObj; None] (ROk (RTup []))) /\
  w_call (link debug64 (slice_program true) (@slice_world unit) 11) ["."; "read_string"]%string [RObj] [2; 195; 188; 7] = ([7], CRet [Some RObj] (ROk (RCow false [195; 188]))) /\
  w_call (link debug64 (slice_program true) (@slice_world unit) 11) ["."; "read_string"]%string [RObj] [2; 188; 195; 7] = ([7], CRet [Some RObj] (RErr (RError InvalidString))).
Proof. vm_compute. repeat split. Qed.
Example C101_write :
  w_call (link debug64 (writer_program true) (@writer_world unit _ vec_write_all) 7) ["write_field_header"]%string [RObj; RInt U8 5; RInt I16 300; RInt I16 20] [1] =
    ([1; 5; 176; 4], CRet [Some RObj; None; None; Some (RInt I16 300)] (ROk (RTup []))).
Proof. vm_compute. reflexivity. Qed.
