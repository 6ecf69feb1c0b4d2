(** Model of parquet/src/format.rs: the definitions passed to [thrift!], in
    source order.  Field ids, requiredness, types and names are copied literally. *)
From Verif Require Import Base Types.
Open Scope string_scope.
Open Scope list_scope.
Open Scope Z_scope.

(** format.rs:31-40 *)
Definition def_Type : def := DEnum.
Definition names_Type : list (string * Z) := [("BOOLEAN", 0); ("INT32", 1); ("INT64", 2); ("INT96", 3); ("FLOAT", 4); ("DOUBLE", 5); ("BYTE_ARRAY", 6); ("FIXED_LEN_BYTE_ARRAY", 7)].
(** format.rs:48-177 *)
Definition def_ConvertedType : def := DEnum.
Definition names_ConvertedType : list (string * Z) := [("UTF8", 0); ("MAP", 1); ("MAP_KEY_VALUE", 2); ("LIST", 3); ("ENUM", 4); ("DECIMAL", 5); ("DATE", 6); ("TIME_MILLIS", 7); ("TIME_MICROS", 8); ("TIMESTAMP_MILLIS", 9); ("TIMESTAMP_MICROS", 10); ("UINT_8", 11); ("UINT_16", 12); ("UINT_32", 13); ("UINT_64", 14); ("INT_8", 15); ("INT_16", 16); ("INT_32", 17); ("INT_64", 18); ("JSON", 19); ("BSON", 20); ("INTERVAL", 21)].
(** format.rs:182-191 *)
Definition def_FieldRepetitionType : def := DEnum.
Definition names_FieldRepetitionType : list (string * Z) := [("REQUIRED", 0); ("OPTIONAL", 1); ("REPEATED", 2)].
(** format.rs:201-237 *)
Definition def_SizeStatistics : def := DStruct [
  {| f_id := 1; f_req := false; f_ty := TI64; f_name := "unencoded_byte_array_data_bytes" |};
  {| f_id := 2; f_req := false; f_ty := (TVec TI64); f_name := "repetition_level_histogram" |};
  {| f_id := 3; f_req := false; f_ty := (TVec TI64); f_name := "definition_level_histogram" |}
].
(** format.rs:243-252 *)
Definition def_BoundingBox : def := DStruct [
  {| f_id := 1; f_req := true; f_ty := TDouble; f_name := "xmin" |};
  {| f_id := 2; f_req := true; f_ty := TDouble; f_name := "xmax" |};
  {| f_id := 3; f_req := true; f_ty := TDouble; f_name := "ymin" |};
  {| f_id := 4; f_req := true; f_ty := TDouble; f_name := "ymax" |};
  {| f_id := 5; f_req := false; f_ty := TDouble; f_name := "zmin" |};
  {| f_id := 6; f_req := false; f_ty := TDouble; f_name := "zmax" |};
  {| f_id := 7; f_req := false; f_ty := TDouble; f_name := "mmin" |};
  {| f_id := 8; f_req := false; f_ty := TDouble; f_name := "mmax" |}
].
(** format.rs:255-260 *)
Definition def_GeospatialStatistics : def := DStruct [
  {| f_id := 1; f_req := false; f_ty := (TNamed "BoundingBox"); f_name := "bbox" |};
  {| f_id := 2; f_req := false; f_ty := (TVec TI32); f_name := "geospatial_types" |}
].
(** format.rs:266-311 *)
Definition def_Statistics : def := DStruct [
  {| f_id := 1; f_req := false; f_ty := TBinary; f_name := "max" |};
  {| f_id := 2; f_req := false; f_ty := TBinary; f_name := "min" |};
  {| f_id := 3; f_req := false; f_ty := TI64; f_name := "null_count" |};
  {| f_id := 4; f_req := false; f_ty := TI64; f_name := "distinct_count" |};
  {| f_id := 5; f_req := false; f_ty := TBinary; f_name := "max_value" |};
  {| f_id := 6; f_req := false; f_ty := TBinary; f_name := "min_value" |};
  {| f_id := 7; f_req := false; f_ty := TBool; f_name := "is_max_value_exact" |};
  {| f_id := 8; f_req := false; f_ty := TBool; f_name := "is_min_value_exact" |}
].
(** format.rs:314-314 *)
Definition def_StringType : def := DStruct [].
(** format.rs:315-315 *)
Definition def_UUIDType : def := DStruct [].
(** format.rs:316-316 *)
Definition def_MapType : def := DStruct [].
(** format.rs:317-317 *)
Definition def_ListType : def := DStruct [].
(** format.rs:318-318 *)
Definition def_EnumType : def := DStruct [].
(** format.rs:319-319 *)
Definition def_DateType : def := DStruct [].
(** format.rs:320-320 *)
Definition def_Float16Type : def := DStruct [].
(** format.rs:329-329 *)
Definition def_NullType : def := DStruct [].
(** format.rs:342-345 *)
Definition def_DecimalType : def := DStruct [
  {| f_id := 1; f_req := true; f_ty := TI32; f_name := "scale" |};
  {| f_id := 2; f_req := true; f_ty := TI32; f_name := "precision" |}
].
(** format.rs:348-348 *)
Definition def_MilliSeconds : def := DStruct [].
(** format.rs:349-349 *)
Definition def_MicroSeconds : def := DStruct [].
(** format.rs:350-350 *)
Definition def_NanoSeconds : def := DStruct [].
(** format.rs:351-355 *)
Definition def_TimeUnit : def := DUnion [
  {| f_id := 1; f_req := true; f_ty := (TNamed "MilliSeconds"); f_name := "MILLIS" |};
  {| f_id := 2; f_req := true; f_ty := (TNamed "MicroSeconds"); f_name := "MICROS" |};
  {| f_id := 3; f_req := true; f_ty := (TNamed "NanoSeconds"); f_name := "NANOS" |}
].
(** format.rs:362-365 *)
Definition def_TimestampType : def := DStruct [
  {| f_id := 1; f_req := true; f_ty := TBool; f_name := "isAdjustedToUTC" |};
  {| f_id := 2; f_req := true; f_ty := (TNamed "TimeUnit"); f_name := "unit" |}
].
(** format.rs:372-375 *)
Definition def_TimeType : def := DStruct [
  {| f_id := 1; f_req := true; f_ty := TBool; f_name := "isAdjustedToUTC" |};
  {| f_id := 2; f_req := true; f_ty := (TNamed "TimeUnit"); f_name := "unit" |}
].
(** format.rs:384-387 *)
Definition def_IntType : def := DStruct [
  {| f_id := 1; f_req := true; f_ty := TI8; f_name := "bitWidth" |};
  {| f_id := 2; f_req := true; f_ty := TBool; f_name := "isSigned" |}
].
(** format.rs:394-395 *)
Definition def_JsonType : def := DStruct [].
(** format.rs:402-403 *)
Definition def_BsonType : def := DStruct [].
(** format.rs:408-412 *)
Definition def_VariantType : def := DStruct [
  {| f_id := 1; f_req := false; f_ty := TI8; f_name := "specification_version" |}
].
(** format.rs:415-421 *)
Definition def_EdgeInterpolationAlgorithm : def := DEnum.
Definition names_EdgeInterpolationAlgorithm : list (string * Z) := [("SPHERICAL", 0); ("VINCENTY", 1); ("THOMAS", 2); ("ANDOYER", 3); ("KARNEY", 4)].
(** format.rs:437-439 *)
Definition def_GeometryType : def := DStruct [
  {| f_id := 1; f_req := false; f_ty := TString; f_name := "crs" |}
].
(** format.rs:458-461 *)
Definition def_GeographyType : def := DStruct [
  {| f_id := 1; f_req := false; f_ty := TString; f_name := "crs" |};
  {| f_id := 2; f_req := false; f_ty := (TNamed "EdgeInterpolationAlgorithm"); f_name := "algorithm" |}
].
(** format.rs:470-496 *)
Definition def_LogicalType : def := DUnion [
  {| f_id := 1; f_req := true; f_ty := (TNamed "StringType"); f_name := "STRING" |};
  {| f_id := 2; f_req := true; f_ty := (TNamed "MapType"); f_name := "MAP" |};
  {| f_id := 3; f_req := true; f_ty := (TNamed "ListType"); f_name := "LIST" |};
  {| f_id := 4; f_req := true; f_ty := (TNamed "EnumType"); f_name := "ENUM" |};
  {| f_id := 5; f_req := true; f_ty := (TNamed "DecimalType"); f_name := "DECIMAL" |};
  {| f_id := 6; f_req := true; f_ty := (TNamed "DateType"); f_name := "DATE" |};
  {| f_id := 7; f_req := true; f_ty := (TNamed "TimeType"); f_name := "TIME" |};
  {| f_id := 8; f_req := true; f_ty := (TNamed "TimestampType"); f_name := "TIMESTAMP" |};
  {| f_id := 10; f_req := true; f_ty := (TNamed "IntType"); f_name := "INTEGER" |};
  {| f_id := 11; f_req := true; f_ty := (TNamed "NullType"); f_name := "UNKNOWN" |};
  {| f_id := 12; f_req := true; f_ty := (TNamed "JsonType"); f_name := "JSON" |};
  {| f_id := 13; f_req := true; f_ty := (TNamed "BsonType"); f_name := "BSON" |};
  {| f_id := 14; f_req := true; f_ty := (TNamed "UUIDType"); f_name := "UUID" |};
  {| f_id := 15; f_req := true; f_ty := (TNamed "Float16Type"); f_name := "FLOAT16" |};
  {| f_id := 16; f_req := true; f_ty := (TNamed "VariantType"); f_name := "VARIANT" |};
  {| f_id := 17; f_req := true; f_ty := (TNamed "GeometryType"); f_name := "GEOMETRY" |};
  {| f_id := 18; f_req := true; f_ty := (TNamed "GeographyType"); f_name := "GEOGRAPHY" |}
].
(** format.rs:504-558 *)
Definition def_SchemaElement : def := DStruct [
  {| f_id := 1; f_req := false; f_ty := (TNamed "Type"); f_name := "type_" |};
  {| f_id := 2; f_req := false; f_ty := TI32; f_name := "type_length" |};
  {| f_id := 3; f_req := false; f_ty := (TNamed "FieldRepetitionType"); f_name := "repetition_type" |};
  {| f_id := 4; f_req := true; f_ty := TString; f_name := "name" |};
  {| f_id := 5; f_req := false; f_ty := TI32; f_name := "num_children" |};
  {| f_id := 6; f_req := false; f_ty := (TNamed "ConvertedType"); f_name := "converted_type" |};
  {| f_id := 7; f_req := false; f_ty := TI32; f_name := "scale" |};
  {| f_id := 8; f_req := false; f_ty := TI32; f_name := "precision" |};
  {| f_id := 9; f_req := false; f_ty := TI32; f_name := "field_id" |};
  {| f_id := 10; f_req := false; f_ty := (TNamed "LogicalType"); f_name := "logicalType" |}
].
(** format.rs:565-630 *)
Definition def_Encoding : def := DEnum.
Definition names_Encoding : list (string * Z) := [("PLAIN", 0); ("PLAIN_DICTIONARY", 2); ("RLE", 3); ("BIT_PACKED", 4); ("DELTA_BINARY_PACKED", 5); ("DELTA_LENGTH_BYTE_ARRAY", 6); ("DELTA_BYTE_ARRAY", 7); ("RLE_DICTIONARY", 8); ("BYTE_STREAM_SPLIT", 9)].
(** format.rs:641-650 *)
Definition def_CompressionCodec : def := DEnum.
Definition names_CompressionCodec : list (string * Z) := [("UNCOMPRESSED", 0); ("SNAPPY", 1); ("GZIP", 2); ("LZO", 3); ("BROTLI", 4); ("LZ4", 5); ("ZSTD", 6); ("LZ4_RAW", 7)].
(** format.rs:652-657 *)
Definition def_PageType : def := DEnum.
Definition names_PageType : list (string * Z) := [("DATA_PAGE", 0); ("INDEX_PAGE", 1); ("DICTIONARY_PAGE", 2); ("DATA_PAGE_V2", 3)].
(** format.rs:663-667 *)
Definition def_BoundaryOrder : def := DEnum.
Definition names_BoundaryOrder : list (string * Z) := [("UNORDERED", 0); ("ASCENDING", 1); ("DESCENDING", 2)].
(** format.rs:670-691 *)
Definition def_DataPageHeader : def := DStruct [
  {| f_id := 1; f_req := true; f_ty := TI32; f_name := "num_values" |};
  {| f_id := 2; f_req := true; f_ty := (TNamed "Encoding"); f_name := "encoding" |};
  {| f_id := 3; f_req := true; f_ty := (TNamed "Encoding"); f_name := "definition_level_encoding" |};
  {| f_id := 4; f_req := true; f_ty := (TNamed "Encoding"); f_name := "repetition_level_encoding" |};
  {| f_id := 5; f_req := false; f_ty := (TNamed "Statistics"); f_name := "statistics" |}
].
(** format.rs:693-695 *)
Definition def_IndexPageHeader : def := DStruct [].
(** format.rs:702-711 *)
Definition def_DictionaryPageHeader : def := DStruct [
  {| f_id := 1; f_req := true; f_ty := TI32; f_name := "num_values" |};
  {| f_id := 2; f_req := true; f_ty := (TNamed "Encoding"); f_name := "encoding" |};
  {| f_id := 3; f_req := false; f_ty := TBool; f_name := "is_sorted" |}
].
(** format.rs:718-749 *)
Definition def_DataPageHeaderV2 : def := DStruct [
  {| f_id := 1; f_req := true; f_ty := TI32; f_name := "num_values" |};
  {| f_id := 2; f_req := true; f_ty := TI32; f_name := "num_nulls" |};
  {| f_id := 3; f_req := true; f_ty := TI32; f_name := "num_rows" |};
  {| f_id := 4; f_req := true; f_ty := (TNamed "Encoding"); f_name := "encoding" |};
  {| f_id := 5; f_req := true; f_ty := TI32; f_name := "definition_levels_byte_length" |};
  {| f_id := 6; f_req := true; f_ty := TI32; f_name := "repetition_levels_byte_length" |};
  {| f_id := 7; f_req := false; f_ty := TBool; f_name := "is_compressed" |} (* declared default = true is ignored by the macro *);
  {| f_id := 8; f_req := false; f_ty := (TNamed "Statistics"); f_name := "statistics" |}
].
(** format.rs:752-752 *)
Definition def_SplitBlockAlgorithm : def := DStruct [].
(** format.rs:754-757 *)
Definition def_BloomFilterAlgorithm : def := DUnion [
  {| f_id := 1; f_req := true; f_ty := (TNamed "SplitBlockAlgorithm"); f_name := "BLOCK" |}
].
(** format.rs:762-762 *)
Definition def_XxHash : def := DStruct [].
(** format.rs:768-771 *)
Definition def_BloomFilterHash : def := DUnion [
  {| f_id := 1; f_req := true; f_ty := (TNamed "XxHash"); f_name := "XXHASH" |}
].
(** format.rs:776-776 *)
Definition def_Uncompressed : def := DStruct [].
(** format.rs:777-779 *)
Definition def_BloomFilterCompression : def := DUnion [
  {| f_id := 1; f_req := true; f_ty := (TNamed "Uncompressed"); f_name := "UNCOMPRESSED" |}
].
(** format.rs:785-794 *)
Definition def_BloomFilterHeader : def := DStruct [
  {| f_id := 1; f_req := true; f_ty := TI32; f_name := "numBytes" |};
  {| f_id := 2; f_req := true; f_ty := (TNamed "BloomFilterAlgorithm"); f_name := "algorithm" |};
  {| f_id := 3; f_req := true; f_ty := (TNamed "BloomFilterHash"); f_name := "hash" |};
  {| f_id := 4; f_req := true; f_ty := (TNamed "BloomFilterCompression"); f_name := "compression" |}
].
(** format.rs:796-830 *)
Definition def_PageHeader : def := DStruct [
  {| f_id := 1; f_req := true; f_ty := (TNamed "PageType"); f_name := "type_" |};
  {| f_id := 2; f_req := true; f_ty := TI32; f_name := "uncompressed_page_size" |};
  {| f_id := 3; f_req := true; f_ty := TI32; f_name := "compressed_page_size" |};
  {| f_id := 4; f_req := false; f_ty := TI32; f_name := "crc" |};
  {| f_id := 5; f_req := false; f_ty := (TNamed "DataPageHeader"); f_name := "data_page_header" |};
  {| f_id := 6; f_req := false; f_ty := (TNamed "IndexPageHeader"); f_name := "index_page_header" |};
  {| f_id := 7; f_req := false; f_ty := (TNamed "DictionaryPageHeader"); f_name := "dictionary_page_header" |};
  {| f_id := 8; f_req := false; f_ty := (TNamed "DataPageHeaderV2"); f_name := "data_page_header_v2" |}
].
(** format.rs:835-838 *)
Definition def_KeyValue : def := DStruct [
  {| f_id := 1; f_req := true; f_ty := TString; f_name := "key" |};
  {| f_id := 2; f_req := false; f_ty := TString; f_name := "value" |}
].
(** format.rs:843-853 *)
Definition def_SortingColumn : def := DStruct [
  {| f_id := 1; f_req := true; f_ty := TI32; f_name := "column_idx" |};
  {| f_id := 2; f_req := true; f_ty := TBool; f_name := "descending" |};
  {| f_id := 3; f_req := true; f_ty := TBool; f_name := "nulls_first" |}
].
(** format.rs:858-869 *)
Definition def_PageEncodingStats : def := DStruct [
  {| f_id := 1; f_req := true; f_ty := (TNamed "PageType"); f_name := "page_type" |};
  {| f_id := 2; f_req := true; f_ty := (TNamed "Encoding"); f_name := "encoding" |};
  {| f_id := 3; f_req := true; f_ty := TI32; f_name := "count" |}
].
(** format.rs:874-941 *)
Definition def_ColumnMetaData : def := DStruct [
  {| f_id := 1; f_req := true; f_ty := (TNamed "Type"); f_name := "type_" |};
  {| f_id := 2; f_req := true; f_ty := TEncSet; f_name := "encodings" |};
  {| f_id := 4; f_req := true; f_ty := (TNamed "CompressionCodec"); f_name := "codec" |};
  {| f_id := 5; f_req := true; f_ty := TI64; f_name := "num_values" |};
  {| f_id := 6; f_req := true; f_ty := TI64; f_name := "total_uncompressed_size" |};
  {| f_id := 7; f_req := true; f_ty := TI64; f_name := "total_compressed_size" |};
  {| f_id := 8; f_req := false; f_ty := (TVec (TNamed "KeyValue")); f_name := "key_value_metadata" |};
  {| f_id := 9; f_req := true; f_ty := TI64; f_name := "data_page_offset" |};
  {| f_id := 11; f_req := false; f_ty := TI64; f_name := "dictionary_page_offset" |};
  {| f_id := 12; f_req := false; f_ty := (TNamed "Statistics"); f_name := "statistics" |};
  {| f_id := 13; f_req := false; f_ty := (TVec (TNamed "PageEncodingStats")); f_name := "encoding_stats" |};
  {| f_id := 14; f_req := false; f_ty := TI64; f_name := "bloom_filter_offset" |};
  {| f_id := 15; f_req := false; f_ty := TI32; f_name := "bloom_filter_length" |};
  {| f_id := 16; f_req := false; f_ty := (TNamed "SizeStatistics"); f_name := "size_statistics" |};
  {| f_id := 17; f_req := false; f_ty := (TBox (TNamed "GeospatialStatistics")); f_name := "geospatial_statistics" |}
].
(** format.rs:943-944 *)
Definition def_EncryptionWithFooterKey : def := DStruct [].
(** format.rs:946-952 *)
Definition def_EncryptionWithColumnKey : def := DStruct [
  {| f_id := 1; f_req := true; f_ty := (TVec TString); f_name := "path_in_schema" |};
  {| f_id := 2; f_req := false; f_ty := TBinary; f_name := "key_metadata" |}
].
(** format.rs:954-957 *)
Definition def_ColumnCryptoMetaData : def := DUnion [
  {| f_id := 1; f_req := true; f_ty := (TNamed "EncryptionWithFooterKey"); f_name := "ENCRYPTION_WITH_FOOTER_KEY" |};
  {| f_id := 2; f_req := true; f_ty := (TNamed "EncryptionWithColumnKey"); f_name := "ENCRYPTION_WITH_COLUMN_KEY" |}
].
(** format.rs:959-1000 *)
Definition def_ColumnChunk : def := DStruct [
  {| f_id := 1; f_req := false; f_ty := TString; f_name := "file_path" |};
  {| f_id := 2; f_req := true; f_ty := TI64; f_name := "file_offset" |} (* declared default = 0 is ignored by the macro *);
  {| f_id := 3; f_req := false; f_ty := (TNamed "ColumnMetaData"); f_name := "meta_data" |};
  {| f_id := 4; f_req := false; f_ty := TI64; f_name := "offset_index_offset" |};
  {| f_id := 5; f_req := false; f_ty := TI32; f_name := "offset_index_length" |};
  {| f_id := 6; f_req := false; f_ty := TI64; f_name := "column_index_offset" |};
  {| f_id := 7; f_req := false; f_ty := TI32; f_name := "column_index_length" |};
  {| f_id := 8; f_req := false; f_ty := (TBox (TNamed "ColumnCryptoMetaData")); f_name := "crypto_metadata" |};
  {| f_id := 9; f_req := false; f_ty := TBinary; f_name := "encrypted_column_metadata" |}
].
(** format.rs:1002-1029 *)
Definition def_RowGroup : def := DStruct [
  {| f_id := 1; f_req := true; f_ty := (TVec (TNamed "ColumnChunk")); f_name := "columns" |};
  {| f_id := 2; f_req := true; f_ty := TI64; f_name := "total_byte_size" |};
  {| f_id := 3; f_req := true; f_ty := TI64; f_name := "num_rows" |};
  {| f_id := 4; f_req := false; f_ty := (TVec (TNamed "SortingColumn")); f_name := "sorting_columns" |};
  {| f_id := 5; f_req := false; f_ty := TI64; f_name := "file_offset" |};
  {| f_id := 6; f_req := false; f_ty := TI64; f_name := "total_compressed_size" |};
  {| f_id := 7; f_req := false; f_ty := TI16; f_name := "ordinal" |}
].
(** format.rs:1032-1032 *)
Definition def_TypeDefinedOrder : def := DStruct [].
(** format.rs:1046-1103 *)
Definition def_ColumnOrder : def := DUnion [
  {| f_id := 1; f_req := true; f_ty := (TNamed "TypeDefinedOrder"); f_name := "TYPE_ORDER" |}
].
(** format.rs:1105-1121 *)
Definition def_PageLocation : def := DStruct [
  {| f_id := 1; f_req := true; f_ty := TI64; f_name := "offset" |};
  {| f_id := 2; f_req := true; f_ty := TI32; f_name := "compressed_page_size" |};
  {| f_id := 3; f_req := true; f_ty := TI64; f_name := "first_row_index" |}
].
(** format.rs:1130-1143 *)
Definition def_OffsetIndex : def := DStruct [
  {| f_id := 1; f_req := true; f_ty := (TVec (TNamed "PageLocation")); f_name := "page_locations" |};
  {| f_id := 2; f_req := false; f_ty := (TVec TI64); f_name := "unencoded_byte_array_data_bytes" |}
].
(** format.rs:1155-1215 *)
Definition def_ColumnIndex : def := DStruct [
  {| f_id := 1; f_req := true; f_ty := (TVec TBool); f_name := "null_pages" |};
  {| f_id := 2; f_req := true; f_ty := (TVec TBinary); f_name := "min_values" |};
  {| f_id := 3; f_req := true; f_ty := (TVec TBinary); f_name := "max_values" |};
  {| f_id := 4; f_req := true; f_ty := (TNamed "BoundaryOrder"); f_name := "boundary_order" |};
  {| f_id := 5; f_req := false; f_ty := (TVec TI64); f_name := "null_counts" |};
  {| f_id := 6; f_req := false; f_ty := (TVec TI64); f_name := "repetition_level_histograms" |};
  {| f_id := 7; f_req := false; f_ty := (TVec TI64); f_name := "definition_level_histograms" |}
].
(** format.rs:1217-1227 *)
Definition def_AesGcmV1 : def := DStruct [
  {| f_id := 1; f_req := false; f_ty := TBinary; f_name := "aad_prefix" |};
  {| f_id := 2; f_req := false; f_ty := TBinary; f_name := "aad_file_unique" |};
  {| f_id := 3; f_req := false; f_ty := TBool; f_name := "supply_aad_prefix" |}
].
(** format.rs:1229-1239 *)
Definition def_AesGcmCtrV1 : def := DStruct [
  {| f_id := 1; f_req := false; f_ty := TBinary; f_name := "aad_prefix" |};
  {| f_id := 2; f_req := false; f_ty := TBinary; f_name := "aad_file_unique" |};
  {| f_id := 3; f_req := false; f_ty := TBool; f_name := "supply_aad_prefix" |}
].
(** format.rs:1241-1244 *)
Definition def_EncryptionAlgorithm : def := DUnion [
  {| f_id := 1; f_req := true; f_ty := (TNamed "AesGcmV1"); f_name := "AES_GCM_V1" |};
  {| f_id := 2; f_req := true; f_ty := (TNamed "AesGcmCtrV1"); f_name := "AES_GCM_CTR_V1" |}
].
(** format.rs:1249-1306 *)
Definition def_FileMetaData : def := DStruct [
  {| f_id := 1; f_req := true; f_ty := TI32; f_name := "version" |};
  {| f_id := 2; f_req := true; f_ty := (TVec (TNamed "SchemaElement")); f_name := "schema" |};
  {| f_id := 3; f_req := true; f_ty := TI64; f_name := "num_rows" |};
  {| f_id := 4; f_req := true; f_ty := (TVec (TNamed "RowGroup")); f_name := "row_groups" |};
  {| f_id := 5; f_req := false; f_ty := (TVec (TNamed "KeyValue")); f_name := "key_value_metadata" |};
  {| f_id := 6; f_req := false; f_ty := TString; f_name := "created_by" |};
  {| f_id := 7; f_req := false; f_ty := (TVec (TNamed "ColumnOrder")); f_name := "column_orders" |};
  {| f_id := 8; f_req := false; f_ty := (TNamed "EncryptionAlgorithm"); f_name := "encryption_algorithm" |};
  {| f_id := 9; f_req := false; f_ty := TBinary; f_name := "footer_signing_key_metadata" |}
].
(** format.rs:1309-1320 *)
Definition def_FileCryptoMetaData : def := DStruct [
  {| f_id := 1; f_req := true; f_ty := (TNamed "EncryptionAlgorithm"); f_name := "encryption_algorithm" |};
  {| f_id := 2; f_req := false; f_ty := TBinary; f_name := "key_metadata" |}
].

(** The environment of all parquet types. *)
Definition parquet_env : env := [
  ("Type", def_Type);
  ("ConvertedType", def_ConvertedType);
  ("FieldRepetitionType", def_FieldRepetitionType);
  ("SizeStatistics", def_SizeStatistics);
  ("BoundingBox", def_BoundingBox);
  ("GeospatialStatistics", def_GeospatialStatistics);
  ("Statistics", def_Statistics);
  ("StringType", def_StringType);
  ("UUIDType", def_UUIDType);
  ("MapType", def_MapType);
  ("ListType", def_ListType);
  ("EnumType", def_EnumType);
  ("DateType", def_DateType);
  ("Float16Type", def_Float16Type);
  ("NullType", def_NullType);
  ("DecimalType", def_DecimalType);
  ("MilliSeconds", def_MilliSeconds);
  ("MicroSeconds", def_MicroSeconds);
  ("NanoSeconds", def_NanoSeconds);
  ("TimeUnit", def_TimeUnit);
  ("TimestampType", def_TimestampType);
  ("TimeType", def_TimeType);
  ("IntType", def_IntType);
  ("JsonType", def_JsonType);
  ("BsonType", def_BsonType);
  ("VariantType", def_VariantType);
  ("EdgeInterpolationAlgorithm", def_EdgeInterpolationAlgorithm);
  ("GeometryType", def_GeometryType);
  ("GeographyType", def_GeographyType);
  ("LogicalType", def_LogicalType);
  ("SchemaElement", def_SchemaElement);
  ("Encoding", def_Encoding);
  ("CompressionCodec", def_CompressionCodec);
  ("PageType", def_PageType);
  ("BoundaryOrder", def_BoundaryOrder);
  ("DataPageHeader", def_DataPageHeader);
  ("IndexPageHeader", def_IndexPageHeader);
  ("DictionaryPageHeader", def_DictionaryPageHeader);
  ("DataPageHeaderV2", def_DataPageHeaderV2);
  ("SplitBlockAlgorithm", def_SplitBlockAlgorithm);
  ("BloomFilterAlgorithm", def_BloomFilterAlgorithm);
  ("XxHash", def_XxHash);
  ("BloomFilterHash", def_BloomFilterHash);
  ("Uncompressed", def_Uncompressed);
  ("BloomFilterCompression", def_BloomFilterCompression);
  ("BloomFilterHeader", def_BloomFilterHeader);
  ("PageHeader", def_PageHeader);
  ("KeyValue", def_KeyValue);
  ("SortingColumn", def_SortingColumn);
  ("PageEncodingStats", def_PageEncodingStats);
  ("ColumnMetaData", def_ColumnMetaData);
  ("EncryptionWithFooterKey", def_EncryptionWithFooterKey);
  ("EncryptionWithColumnKey", def_EncryptionWithColumnKey);
  ("ColumnCryptoMetaData", def_ColumnCryptoMetaData);
  ("ColumnChunk", def_ColumnChunk);
  ("RowGroup", def_RowGroup);
  ("TypeDefinedOrder", def_TypeDefinedOrder);
  ("ColumnOrder", def_ColumnOrder);
  ("PageLocation", def_PageLocation);
  ("OffsetIndex", def_OffsetIndex);
  ("ColumnIndex", def_ColumnIndex);
  ("AesGcmV1", def_AesGcmV1);
  ("AesGcmCtrV1", def_AesGcmCtrV1);
  ("EncryptionAlgorithm", def_EncryptionAlgorithm);
  ("FileMetaData", def_FileMetaData);
  ("FileCryptoMetaData", def_FileCryptoMetaData)
].
