(** Vocabulary for the statements about parquet/src/lib.rs: what a Parquet file
    looks like at its end, where page indexes lie. *)
From Verif Require Import Base Types Footer.

(** [s] are the bytes of [bs] from offset [a] on. *)
Definition at_offset (bs : list Z) (a : Z) (s : list Z) : Prop :=
  exists pre post, bs = pre ++ s ++ post /\ zlen pre = a.

(** Four little-endian bytes. *)
Definition le4 (n : Z) : list Z := [n mod 256; n / 256 mod 256; n / 65536 mod 256; n / 16777216 mod 256].

(** A file ending with the metadata [m], its length and "PAR1". *)
Definition parquet_file (bs m : list Z) : Prop :=
  zlen m < 2 ^ 32 /\ exists pre, bs = pre ++ m ++ le4 (zlen m) ++ [80; 65; 82; 49].

(** No operation on the file fails. *)
Definition healthy (f : file) : Prop := Forall (fun x => x = None) (faults f).
Definition without_faults (f : file) : file := {| data := data f; pos := pos f; faults := [] |}.

(** The machine integers of ColumnChunk: i64 offsets, i32 lengths. *)
Definition opt_in (n : Z) (o : option Z) : Prop := match o with Some z => in_s n z | None => True end.
Definition column_ok (col : column) : Prop :=
  opt_in 64 (offset_index_offset col) /\ opt_in 32 (offset_index_length col) /\
  opt_in 64 (column_index_offset col) /\ opt_in 32 (column_index_length col).
Definition metadata_ok (md : metadata) : Prop := Forall (Forall column_ok) md.

(** Both indexes of a column: offset and length of its OffsetIndex and ColumnIndex. *)
Definition indexes (col : column) : option ((Z * Z) * (Z * Z)) :=
  match offset_index_offset col, offset_index_length col, column_index_offset col, column_index_length col with
  | Some oo, Some ol, Some co, Some cl => Some ((oo, ol), (co, cl))
  | _, _, _, _ => None
  end.
Definition has_indexes (md : metadata) (oo ol co cl : Z) : Prop :=
  exists cols col, In cols md /\ In col cols /\ indexes col = Some ((oo, ol), (co, cl)).
(** [extent md a b]: some index of a column with both indexes occupies the bytes a..b. *)
Definition extent (md : metadata) (a b : Z) : Prop :=
  exists oo ol co cl, has_indexes md oo ol co cl /\ ((a = oo /\ b = oo + ol) \/ (a = co /\ b = co + cl)).
Definition negative (md : metadata) : Prop :=
  exists oo ol co cl, has_indexes md oo ol co cl /\ (oo < 0 \/ ol < 0 \/ co < 0 \/ cl < 0).

(** What read_page_index has to return for a column of a file. *)
Definition column_result (decode : string -> list Z -> presult value) (bs : list Z) (col : column) (r : option (value * value)) : Prop :=
  match indexes col with
  | Some ((oo, ol), (co, cl)) =>
      exists ob cb oi ci, r = Some (oi, ci) /\
        at_offset bs oo ob /\ zlen ob = ol /\ decode "OffsetIndex"%string ob = POk oi /\
        at_offset bs co cb /\ zlen cb = cl /\ decode "ColumnIndex"%string cb = POk ci
  | None => r = None
  end.
(** No index is empty, and no offset index lies before all indexes of columns that
    have both. *)
Definition regular (md : metadata) : Prop :=
  forall cols col oo ol, In cols md -> In col cols -> offset_index_offset col = Some oo -> offset_index_length col = Some ol ->
    0 < ol /\ (exists s e, extent md s e /\ s <= oo) /\
    (forall co cl, column_index_offset col = Some co -> column_index_length col = Some cl -> 0 < cl).
