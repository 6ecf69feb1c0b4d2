(** Model of parquet/src/lib.rs: reading the footer and the page index of a file. *)
From Verif Require Import Base Utf8 Uleb Protocol Encodings Types Parquet.

(** lib.rs:13-21 [enum ParquetError].  The io::Error is represented by its kind. *)
Inductive perror : Type :=
| PThrift (e : error)
| PInvalidMagic
| PIo (k : io_kind)
| PInvalidOffset
| PSchema (msg : string)
| PUnknownType (id : Z).

Inductive presult (A : Type) : Type :=
| POk (a : A)
| PErr (e : perror)
| PPanic (p : panic).
Arguments POk {A} a.
Arguments PErr {A} e.
Arguments PPanic {A} p.

Definition pbind {A B} (r : presult A) (f : A -> presult B) : presult B :=
  match r with
  | POk a => f a
  | PErr e => PErr e
  | PPanic p => PPanic p
  end.
Notation "'let?' x := m 'in' k" := (pbind m (fun x => k))
  (at level 200, x pattern, m at level 100, k at level 200, right associativity) : monad_scope.

(** [iter().map(f).collect::<Result<Vec<_>, _>>()]: stops at the first failure. *)
Fixpoint pcollect {A B} (f : A -> presult B) (l : list A) : presult (list B) :=
  match l with
  | [] => POk []
  | a :: l' => let? b := f a in let? r := pcollect f l' in POk (b :: r)
  end.

(** * R: Read + Seek
    A file or a [Cursor]: contents and position.  [faults]: what the operating
    system answers to the next operations, [Some k] a failure; after the end of
    the list all succeed. *)
Record file : Type := { data : list Z; pos : Z; faults : list (option io_kind) }.
Definition F (A : Type) : Type := file -> file * presult A.
Definition fbind {A B} (m : F A) (f : A -> F B) : F B :=
  fun s => match m s with
           | (s', POk a) => f a s'
           | (s', PErr e) => (s', PErr e)
           | (s', PPanic p) => (s', PPanic p)
           end.
Definition fret {A} (r : presult A) : F A := fun s => (s, r).
Notation "'let*' x := m 'in' k" := (fbind m (fun x => k))
  (at level 200, x pattern, m at level 100, k at level 200, right associativity) : monad_scope.

Definition faulty {A} (m : F A) : F A := fun s =>
  let s' := {| data := data s; pos := pos s; faults := tl (faults s) |} in
  match faults s with
  | Some k :: _ => (s', PErr (PIo k))
  | _ => m s'
  end.
Definition at_pos (s : file) (p : Z) : file := {| data := data s; pos := p; faults := faults s |}.

(** [Seek::seek(SeekFrom::End(off))]: a position before the start is an error
    (std::io::Cursor and lseek(2)), one after the end is not. *)
Definition seek_end (off : Z) : F unit := faulty (fun s =>
  let p := zlen (data s) + off in
  if p <? 0 then (s, PErr (PIo InvalidInput)) else (at_pos s p, POk tt)).
(** [Seek::seek(SeekFrom::Start(p))] with [p as u64].  Beyond [i64::MAX] lseek fails; such
    positions do not occur with offsets read from i64. *)
Definition seek_start (p : Z) : F unit := faulty (fun s => (at_pos s p, POk tt)).
(** [Read::read_exact] into a buffer of [n] bytes; a retried or partial [read] is
    invisible (cf. the reader model in Protocol.v).  At a premature end the
    position is left at the end. *)
Definition read_exact (n : Z) : F (list Z) := faulty (fun s =>
  if pos s + n <=? zlen (data s)
  then (at_pos s (pos s + n), POk (firstn (Z.to_nat n) (skipn (Z.to_nat (pos s)) (data s))))
  else (at_pos s (Z.max (pos s) (zlen (data s))), PErr (PIo UnexpectedEof))).

Section Footer.
  Variable c : cfg.
  (** Whether the allocator grants that many bytes; otherwise
      [Vec::with_capacity] aborts. *)
  Variable alloc : Z -> bool.

  (** [Vec::<u8>::with_capacity(n)]: panics with "capacity overflow" beyond [isize::MAX]. *)
  Definition with_capacity (n : Z) : presult unit :=
    if (n <? 2 ^ (usize_bits c - 1)) && alloc n then POk tt else PPanic PAlloc.

  (** lib.rs:35 *)
  Definition PARQUET_MAGIC : list Z := [80; 65; 82; 49].
  Fixpoint list_eqb (a b : list Z) : bool :=
    match a, b with
    | [], [] => true
    | x :: a', y :: b' => (x =? y) && list_eqb a' b'
    | _, _ => false
    end.
  (** [u32::from_le_bytes] *)
  Fixpoint from_le (l : list Z) : Z := match l with [] => 0 | b :: l' => b + 256 * from_le l' end.

  (** lib.rs:38-57.  [-(metadata_len as i64) - 8] cannot overflow. *)
  Definition get_metadata_chunk : F (list Z) :=
    let* _ := seek_end (-8) in
    let* footer := read_exact 8 in
    if negb (list_eqb (skipn 4 footer) PARQUET_MAGIC) then fret (PErr PInvalidMagic)
    else
      let metadata_len := wrapu (usize_bits c) (from_le (firstn 4 footer)) in
      let* _ := seek_end (- metadata_len - 8) in
      let* _ := fret (with_capacity metadata_len) in
      read_exact metadata_len.

  (** * The parts of FileMetaData used here
      format.rs ColumnChunk: fields 4 to 7. *)
  Record column : Type := {
    offset_index_offset : option Z;
    offset_index_length : option Z;
    column_index_offset : option Z;
    column_index_length : option Z
  }.
  (** row groups, each a list of columns *)
  Definition metadata : Type := list (list column).

  Definition usize (z : Z) : Z := wrapu (usize_bits c) z.
  Definition uadd (a b : Z) : presult Z :=
    if a + b <? 2 ^ usize_bits c then POk (a + b)
    else if overflow_checks c then PPanic POverflow else POk (usize (a + b)).

  (** lib.rs:65-75, the body of the inner loop. *)
  Definition range_step (acc : Z * Z) (col : column) : presult (Z * Z) :=
    let '(min, max) := acc in
    match offset_index_offset col, offset_index_length col, column_index_offset col, column_index_length col with
    | Some oo, Some ol, Some co, Some cl =>
        if (oo <? 0) || (ol <? 0) || (co <? 0) || (cl <? 0) then PErr PInvalidOffset
        else
          let min := Z.min min (usize oo) in
          let? oe := uadd (usize oo) (usize ol) in
          let max := Z.max max oe in
          let min := Z.min min (usize co) in
          let? ce := uadd (usize co) (usize cl) in
          let max := Z.max max ce in
          POk (min, max)
    | _, _, _, _ => POk (min, max)
    end.
  Fixpoint range_columns (acc : Z * Z) (cols : list column) : presult (Z * Z) :=
    match cols with
    | [] => POk acc
    | col :: cols' => let? acc' := range_step acc col in range_columns acc' cols'
    end.
  Fixpoint range_groups (acc : Z * Z) (md : metadata) : presult (Z * Z) :=
    match md with
    | [] => POk acc
    | cols :: md' => let? acc' := range_columns acc cols in range_groups acc' md'
    end.
  (** lib.rs:59-84 *)
  Definition get_page_index_range (md : metadata) : presult (option (Z * Z)) :=
    let? (min, max) := range_groups (2 ^ usize_bits c - 1, 0) md in
    POk (if min <? max then Some (min, max) else None).

  (** lib.rs:88-104 *)
  Definition get_page_index_chunk (md : metadata) : F (option (list Z * (Z * Z))) :=
    let* range := fret (get_page_index_range md) in
    match range with
    | Some (start, end_) =>
        let* _ := seek_start start in
        let* _ := fret (with_capacity (end_ - start)) in
        let* buf := read_exact (end_ - start) in
        fret (POk (Some (buf, (start, end_))))
    | None => fret (POk None)
    end.

  (** [&chunk[start..end]] *)
  Definition slice_range (chunk : list Z) (r : Z * Z) : presult (list Z) :=
    let '(a, b) := r in
    if (a <=? b) && (b <=? zlen chunk) then POk (firstn (Z.to_nat (b - a)) (skipn (Z.to_nat a) chunk))
    else PPanic PSliceIndex.

  (** lib.rs:108-112 and 116-120 *)
  Definition index_range (chunk_offset offset length : Z) : presult (Z * Z) :=
    if usize offset <? chunk_offset then PPanic PAssert
    else if length <=? 0 then PPanic PAssert
    else
      let start := usize offset - chunk_offset in
      let? end_ := uadd start (usize length) in
      POk (start, end_).

  (** lib.rs:125-133: [default()] followed by [fill_thrift] is what
      [read_thrift] does; the input is dropped afterwards. *)
  Definition read_index (d : nat) (name : string) (bytes : list Z) : presult value :=
    match snd (read_thrift c (slice_input c) parquet_env d (TNamed name) bytes) with
    | Ok v => POk v
    | Err e => PErr (PThrift e)
    | Panic p => PPanic p
    end.

  (** lib.rs:107-136, the closure. *)
  Definition read_page_index_column (d : nat) (chunk : list Z) (chunk_offset : Z) (col : column) : presult (option (value * value)) :=
    match offset_index_offset col, offset_index_length col with
    | Some oo, Some ol =>
        let? orange := index_range chunk_offset oo ol in
        match column_index_offset col, column_index_length col with
        | Some co, Some cl =>
            let? crange := index_range chunk_offset co cl in
            let? obytes := slice_range chunk orange in
            let? oi := read_index d "OffsetIndex" obytes in
            let? cbytes := slice_range chunk crange in
            let? ci := read_index d "ColumnIndex" cbytes in
            POk (Some (oi, ci))
        | _, _ => POk None
        end
    | _, _ => POk None
    end.
  (** lib.rs:106-137 *)
  Definition read_page_index_for_column_chunk (d : nat) (chunk : list Z) (chunk_offset : Z) (cols : list column)
    : presult (list (option (value * value))) :=
    pcollect (read_page_index_column d chunk chunk_offset) cols.
  (** lib.rs:140-144 *)
  Definition read_page_index (d : nat) (chunk : list Z) (chunk_offset : Z) (md : metadata)
    : presult (list (list (option (value * value)))) :=
    pcollect (read_page_index_for_column_chunk d chunk chunk_offset) md.
End Footer.

(** * From decoded values
    The fields of a decoded [FileMetaData] that the functions above look at, by
    position in format.rs (cf. Parquet.v). *)
Definition i_field (v : value) : option Z :=
  match v with
  | VSome (VI64 z) | VSome (VI32 z) => Some z
  | _ => None
  end.
Definition column_of (v : value) : column :=
  match v with
  | VStruct vs => {|
      offset_index_offset := i_field (nth 3 vs VNone);
      offset_index_length := i_field (nth 4 vs VNone);
      column_index_offset := i_field (nth 5 vs VNone);
      column_index_length := i_field (nth 6 vs VNone) |}
  | _ => {| offset_index_offset := None; offset_index_length := None; column_index_offset := None; column_index_length := None |}
  end.
Definition columns_of (v : value) : list column :=
  match v with
  | VStruct (VVec cols :: _) => map column_of cols
  | _ => []
  end.
Definition metadata_of (v : value) : metadata :=
  match v with
  | VStruct vs => match nth 3 vs VNone with VVec rgs => map columns_of rgs | _ => [] end
  | _ => []
  end.
