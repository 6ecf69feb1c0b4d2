(** Types for which the extent of a value on the wire does not depend on the schema.  No function of the model is used. *)
From Verif Require Import Base Types SpecCompact.

Fixpoint steady_type (good : list string) (t : ty) : bool :=
  match t with
  | TVec t' | TOption t' | TBox t' | TShared t' => steady_type good t'
  | TNamed n => if in_dec string_dec n good then true else false
  | _ => true
  end.
(** The named types in [good] are enums, and structs that contain only such types and no boolean field. *)
Definition steady (E : env) (good : list string) : Prop :=
  forall n, In n good ->
    match lookup E n with
    | Some (DStruct fs) => Forall (fun f => boolish (f_ty f) = false /\ steady_type good (f_ty f) = true) fs
    | Some DEnum => True
    | _ => False
    end.
(** Those of format.rs. *)
Definition steady_parquet : list string := [
  "Type"; "ConvertedType"; "FieldRepetitionType"; "EdgeInterpolationAlgorithm"; "Encoding"; "CompressionCodec"; "PageType"; "BoundaryOrder";
  "SizeStatistics"; "BoundingBox"; "GeospatialStatistics"; "StringType"; "UUIDType"; "MapType"; "ListType"; "EnumType"; "DateType"; "Float16Type"; "NullType";
  "DecimalType"; "MilliSeconds"; "MicroSeconds"; "NanoSeconds"; "JsonType"; "BsonType"; "VariantType"; "GeometryType"; "GeographyType"; "IndexPageHeader";
  "SplitBlockAlgorithm"; "XxHash"; "Uncompressed"; "KeyValue"; "PageEncodingStats"; "EncryptionWithFooterKey"; "EncryptionWithColumnKey";
  "TypeDefinedOrder"; "PageLocation"; "OffsetIndex"; "ColumnIndex" ]%string.
