(** parquet/src/format.rs, the tokens inside [thrift!]: every declaration as written, with doc
    comments left out.  Transcribed independently of Parquet.v. *)
From Verif Require Import Base Types Macro.
Open Scope string_scope.
Open Scope list_scope.
Open Scope Z_scope.

(** format.rs:31-40 *)
Definition rs_Type : mdef := MEnum [("BOOLEAN", 0); ("INT32", 1); ("INT64", 2); ("INT96", 3); ("FLOAT", 4); ("DOUBLE", 5); ("BYTE_ARRAY", 6); ("FIXED_LEN_BYTE_ARRAY", 7)].
(** format.rs:48-177 *)
Definition rs_ConvertedType : mdef := MEnum [("UTF8", 0); ("MAP", 1); ("MAP_KEY_VALUE", 2); ("LIST", 3); ("ENUM", 4); ("DECIMAL", 5); ("DATE", 6); ("TIME_MILLIS", 7); ("TIME_MICROS", 8); ("TIMESTAMP_MILLIS", 9); ("TIMESTAMP_MICROS", 10); ("UINT_8", 11); ("UINT_16", 12); ("UINT_32", 13); ("UINT_64", 14); ("INT_8", 15); ("INT_16", 16); ("INT_32", 17); ("INT_64", 18); ("JSON", 19); ("BSON", 20); ("INTERVAL", 21)].
(** format.rs:182-191 *)
Definition rs_FieldRepetitionType : mdef := MEnum [("REQUIRED", 0); ("OPTIONAL", 1); ("REPEATED", 2)].
(** format.rs:201-237 *)
Definition rs_SizeStatistics : mdef := MStruct [
  Build_mfield 1 (Some false) "i64" None "unencoded_byte_array_data_bytes" None;
  Build_mfield 2 (Some false) "list" (Some "i64") "repetition_level_histogram" None;
  Build_mfield 3 (Some false) "list" (Some "i64") "definition_level_histogram" None
].
(** format.rs:243-252 *)
Definition rs_BoundingBox : mdef := MStruct [
  Build_mfield 1 (Some true) "double" None "xmin" None;
  Build_mfield 2 (Some true) "double" None "xmax" None;
  Build_mfield 3 (Some true) "double" None "ymin" None;
  Build_mfield 4 (Some true) "double" None "ymax" None;
  Build_mfield 5 (Some false) "double" None "zmin" None;
  Build_mfield 6 (Some false) "double" None "zmax" None;
  Build_mfield 7 (Some false) "double" None "mmin" None;
  Build_mfield 8 (Some false) "double" None "mmax" None
].
(** format.rs:255-260 *)
Definition rs_GeospatialStatistics : mdef := MStruct [
  Build_mfield 1 (Some false) "BoundingBox" None "bbox" None;
  Build_mfield 2 (Some false) "list" (Some "i32") "geospatial_types" None
].
(** format.rs:266-311 *)
Definition rs_Statistics : mdef := MStruct [
  Build_mfield 1 (Some false) "binary" None "max" None;
  Build_mfield 2 (Some false) "binary" None "min" None;
  Build_mfield 3 (Some false) "i64" None "null_count" None;
  Build_mfield 4 (Some false) "i64" None "distinct_count" None;
  Build_mfield 5 (Some false) "binary" None "max_value" None;
  Build_mfield 6 (Some false) "binary" None "min_value" None;
  Build_mfield 7 (Some false) "bool" None "is_max_value_exact" None;
  Build_mfield 8 (Some false) "bool" None "is_min_value_exact" None
].
(** format.rs:314-314 *)
Definition rs_StringType : mdef := MStruct [].
(** format.rs:315-315 *)
Definition rs_UUIDType : mdef := MStruct [].
(** format.rs:316-316 *)
Definition rs_MapType : mdef := MStruct [].
(** format.rs:317-317 *)
Definition rs_ListType : mdef := MStruct [].
(** format.rs:318-318 *)
Definition rs_EnumType : mdef := MStruct [].
(** format.rs:319-319 *)
Definition rs_DateType : mdef := MStruct [].
(** format.rs:320-320 *)
Definition rs_Float16Type : mdef := MStruct [].
(** format.rs:329-329 *)
Definition rs_NullType : mdef := MStruct [].
(** format.rs:342-345 *)
Definition rs_DecimalType : mdef := MStruct [
  Build_mfield 1 (Some true) "i32" None "scale" None;
  Build_mfield 2 (Some true) "i32" None "precision" None
].
(** format.rs:348-348 *)
Definition rs_MilliSeconds : mdef := MStruct [].
(** format.rs:349-349 *)
Definition rs_MicroSeconds : mdef := MStruct [].
(** format.rs:350-350 *)
Definition rs_NanoSeconds : mdef := MStruct [].
(** format.rs:351-355 *)
Definition rs_TimeUnit : mdef := MUnion [
  Build_mfield 1 None "MilliSeconds" None "MILLIS" None;
  Build_mfield 2 None "MicroSeconds" None "MICROS" None;
  Build_mfield 3 None "NanoSeconds" None "NANOS" None
].
(** format.rs:362-365 *)
Definition rs_TimestampType : mdef := MStruct [
  Build_mfield 1 (Some true) "bool" None "isAdjustedToUTC" None;
  Build_mfield 2 (Some true) "TimeUnit" None "unit" None
].
(** format.rs:372-375 *)
Definition rs_TimeType : mdef := MStruct [
  Build_mfield 1 (Some true) "bool" None "isAdjustedToUTC" None;
  Build_mfield 2 (Some true) "TimeUnit" None "unit" None
].
(** format.rs:384-387 *)
Definition rs_IntType : mdef := MStruct [
  Build_mfield 1 (Some true) "i8" None "bitWidth" None;
  Build_mfield 2 (Some true) "bool" None "isSigned" None
].
(** format.rs:394-395 *)
Definition rs_JsonType : mdef := MStruct [].
(** format.rs:402-403 *)
Definition rs_BsonType : mdef := MStruct [].
(** format.rs:408-412 *)
Definition rs_VariantType : mdef := MStruct [
  Build_mfield 1 (Some false) "i8" None "specification_version" None
].
(** format.rs:415-421 *)
Definition rs_EdgeInterpolationAlgorithm : mdef := MEnum [("SPHERICAL", 0); ("VINCENTY", 1); ("THOMAS", 2); ("ANDOYER", 3); ("KARNEY", 4)].
(** format.rs:437-439 *)
Definition rs_GeometryType : mdef := MStruct [
  Build_mfield 1 (Some false) "string" None "crs" None
].
(** format.rs:458-461 *)
Definition rs_GeographyType : mdef := MStruct [
  Build_mfield 1 (Some false) "string" None "crs" None;
  Build_mfield 2 (Some false) "EdgeInterpolationAlgorithm" None "algorithm" None
].
(** format.rs:470-496 *)
Definition rs_LogicalType : mdef := MUnion [
  Build_mfield 1 None "StringType" None "STRING" None;
  Build_mfield 2 None "MapType" None "MAP" None;
  Build_mfield 3 None "ListType" None "LIST" None;
  Build_mfield 4 None "EnumType" None "ENUM" None;
  Build_mfield 5 None "DecimalType" None "DECIMAL" None;
  Build_mfield 6 None "DateType" None "DATE" None;
  Build_mfield 7 None "TimeType" None "TIME" None;
  Build_mfield 8 None "TimestampType" None "TIMESTAMP" None;
  Build_mfield 10 None "IntType" None "INTEGER" None;
  Build_mfield 11 None "NullType" None "UNKNOWN" None;
  Build_mfield 12 None "JsonType" None "JSON" None;
  Build_mfield 13 None "BsonType" None "BSON" None;
  Build_mfield 14 None "UUIDType" None "UUID" None;
  Build_mfield 15 None "Float16Type" None "FLOAT16" None;
  Build_mfield 16 None "VariantType" None "VARIANT" None;
  Build_mfield 17 None "GeometryType" None "GEOMETRY" None;
  Build_mfield 18 None "GeographyType" None "GEOGRAPHY" None
].
(** format.rs:504-558 *)
Definition rs_SchemaElement : mdef := MStruct [
  Build_mfield 1 (Some false) "Type" None "type_" None;
  Build_mfield 2 (Some false) "i32" None "type_length" None;
  Build_mfield 3 (Some false) "FieldRepetitionType" None "repetition_type" None;
  Build_mfield 4 (Some true) "string" None "name" None;
  Build_mfield 5 (Some false) "i32" None "num_children" None;
  Build_mfield 6 (Some false) "ConvertedType" None "converted_type" None;
  Build_mfield 7 (Some false) "i32" None "scale" None;
  Build_mfield 8 (Some false) "i32" None "precision" None;
  Build_mfield 9 (Some false) "i32" None "field_id" None;
  Build_mfield 10 (Some false) "LogicalType" None "logicalType" None
].
(** format.rs:565-630 *)
Definition rs_Encoding : mdef := MEnum [("PLAIN", 0); ("PLAIN_DICTIONARY", 2); ("RLE", 3); ("BIT_PACKED", 4); ("DELTA_BINARY_PACKED", 5); ("DELTA_LENGTH_BYTE_ARRAY", 6); ("DELTA_BYTE_ARRAY", 7); ("RLE_DICTIONARY", 8); ("BYTE_STREAM_SPLIT", 9)].
(** format.rs:641-650 *)
Definition rs_CompressionCodec : mdef := MEnum [("UNCOMPRESSED", 0); ("SNAPPY", 1); ("GZIP", 2); ("LZO", 3); ("BROTLI", 4); ("LZ4", 5); ("ZSTD", 6); ("LZ4_RAW", 7)].
(** format.rs:652-657 *)
Definition rs_PageType : mdef := MEnum [("DATA_PAGE", 0); ("INDEX_PAGE", 1); ("DICTIONARY_PAGE", 2); ("DATA_PAGE_V2", 3)].
(** format.rs:663-667 *)
Definition rs_BoundaryOrder : mdef := MEnum [("UNORDERED", 0); ("ASCENDING", 1); ("DESCENDING", 2)].
(** format.rs:670-691 *)
Definition rs_DataPageHeader : mdef := MStruct [
  Build_mfield 1 (Some true) "i32" None "num_values" None;
  Build_mfield 2 (Some true) "Encoding" None "encoding" None;
  Build_mfield 3 (Some true) "Encoding" None "definition_level_encoding" None;
  Build_mfield 4 (Some true) "Encoding" None "repetition_level_encoding" None;
  Build_mfield 5 (Some false) "Statistics" None "statistics" None
].
(** format.rs:693-695 *)
Definition rs_IndexPageHeader : mdef := MStruct [].
(** format.rs:702-711 *)
Definition rs_DictionaryPageHeader : mdef := MStruct [
  Build_mfield 1 (Some true) "i32" None "num_values" None;
  Build_mfield 2 (Some true) "Encoding" None "encoding" None;
  Build_mfield 3 (Some false) "bool" None "is_sorted" None
].
(** format.rs:718-749 *)
Definition rs_DataPageHeaderV2 : mdef := MStruct [
  Build_mfield 1 (Some true) "i32" None "num_values" None;
  Build_mfield 2 (Some true) "i32" None "num_nulls" None;
  Build_mfield 3 (Some true) "i32" None "num_rows" None;
  Build_mfield 4 (Some true) "Encoding" None "encoding" None;
  Build_mfield 5 (Some true) "i32" None "definition_levels_byte_length" None;
  Build_mfield 6 (Some true) "i32" None "repetition_levels_byte_length" None;
  Build_mfield 7 (Some false) "bool" None "is_compressed" (Some "true");
  Build_mfield 8 (Some false) "Statistics" None "statistics" None
].
(** format.rs:752-752 *)
Definition rs_SplitBlockAlgorithm : mdef := MStruct [].
(** format.rs:754-757 *)
Definition rs_BloomFilterAlgorithm : mdef := MUnion [
  Build_mfield 1 None "SplitBlockAlgorithm" None "BLOCK" None
].
(** format.rs:762-762 *)
Definition rs_XxHash : mdef := MStruct [].
(** format.rs:768-771 *)
Definition rs_BloomFilterHash : mdef := MUnion [
  Build_mfield 1 None "XxHash" None "XXHASH" None
].
(** format.rs:776-776 *)
Definition rs_Uncompressed : mdef := MStruct [].
(** format.rs:777-779 *)
Definition rs_BloomFilterCompression : mdef := MUnion [
  Build_mfield 1 None "Uncompressed" None "UNCOMPRESSED" None
].
(** format.rs:785-794 *)
Definition rs_BloomFilterHeader : mdef := MStruct [
  Build_mfield 1 (Some true) "i32" None "numBytes" None;
  Build_mfield 2 (Some true) "BloomFilterAlgorithm" None "algorithm" None;
  Build_mfield 3 (Some true) "BloomFilterHash" None "hash" None;
  Build_mfield 4 (Some true) "BloomFilterCompression" None "compression" None
].
(** format.rs:796-830 *)
Definition rs_PageHeader : mdef := MStruct [
  Build_mfield 1 (Some true) "PageType" None "type_" None;
  Build_mfield 2 (Some true) "i32" None "uncompressed_page_size" None;
  Build_mfield 3 (Some true) "i32" None "compressed_page_size" None;
  Build_mfield 4 (Some false) "i32" None "crc" None;
  Build_mfield 5 (Some false) "DataPageHeader" None "data_page_header" None;
  Build_mfield 6 (Some false) "IndexPageHeader" None "index_page_header" None;
  Build_mfield 7 (Some false) "DictionaryPageHeader" None "dictionary_page_header" None;
  Build_mfield 8 (Some false) "DataPageHeaderV2" None "data_page_header_v2" None
].
(** format.rs:835-838 *)
Definition rs_KeyValue : mdef := MStruct [
  Build_mfield 1 (Some true) "string" None "key" None;
  Build_mfield 2 (Some false) "string" None "value" None
].
(** format.rs:843-853 *)
Definition rs_SortingColumn : mdef := MStruct [
  Build_mfield 1 (Some true) "i32" None "column_idx" None;
  Build_mfield 2 (Some true) "bool" None "descending" None;
  Build_mfield 3 (Some true) "bool" None "nulls_first" None
].
(** format.rs:858-869 *)
Definition rs_PageEncodingStats : mdef := MStruct [
  Build_mfield 1 (Some true) "PageType" None "page_type" None;
  Build_mfield 2 (Some true) "Encoding" None "encoding" None;
  Build_mfield 3 (Some true) "i32" None "count" None
].
(** format.rs:874-941 *)
Definition rs_ColumnMetaData : mdef := MStruct [
  Build_mfield 1 (Some true) "Type" None "type_" None;
  Build_mfield 2 (Some true) "EncodingSet" None "encodings" None;
  Build_mfield 4 (Some true) "CompressionCodec" None "codec" None;
  Build_mfield 5 (Some true) "i64" None "num_values" None;
  Build_mfield 6 (Some true) "i64" None "total_uncompressed_size" None;
  Build_mfield 7 (Some true) "i64" None "total_compressed_size" None;
  Build_mfield 8 (Some false) "list" (Some "KeyValue") "key_value_metadata" None;
  Build_mfield 9 (Some true) "i64" None "data_page_offset" None;
  Build_mfield 11 (Some false) "i64" None "dictionary_page_offset" None;
  Build_mfield 12 (Some false) "Statistics" None "statistics" None;
  Build_mfield 13 (Some false) "list" (Some "PageEncodingStats") "encoding_stats" None;
  Build_mfield 14 (Some false) "i64" None "bloom_filter_offset" None;
  Build_mfield 15 (Some false) "i32" None "bloom_filter_length" None;
  Build_mfield 16 (Some false) "SizeStatistics" None "size_statistics" None;
  Build_mfield 17 (Some false) "Box" (Some "GeospatialStatistics") "geospatial_statistics" None
].
(** format.rs:943-944 *)
Definition rs_EncryptionWithFooterKey : mdef := MStruct [].
(** format.rs:946-952 *)
Definition rs_EncryptionWithColumnKey : mdef := MStruct [
  Build_mfield 1 (Some true) "list" (Some "string") "path_in_schema" None;
  Build_mfield 2 (Some false) "binary" None "key_metadata" None
].
(** format.rs:954-957 *)
Definition rs_ColumnCryptoMetaData : mdef := MUnion [
  Build_mfield 1 None "EncryptionWithFooterKey" None "ENCRYPTION_WITH_FOOTER_KEY" None;
  Build_mfield 2 None "EncryptionWithColumnKey" None "ENCRYPTION_WITH_COLUMN_KEY" None
].
(** format.rs:959-1000 *)
Definition rs_ColumnChunk : mdef := MStruct [
  Build_mfield 1 (Some false) "string" None "file_path" None;
  Build_mfield 2 (Some true) "i64" None "file_offset" (Some "0");
  Build_mfield 3 (Some false) "ColumnMetaData" None "meta_data" None;
  Build_mfield 4 (Some false) "i64" None "offset_index_offset" None;
  Build_mfield 5 (Some false) "i32" None "offset_index_length" None;
  Build_mfield 6 (Some false) "i64" None "column_index_offset" None;
  Build_mfield 7 (Some false) "i32" None "column_index_length" None;
  Build_mfield 8 (Some false) "Box" (Some "ColumnCryptoMetaData") "crypto_metadata" None;
  Build_mfield 9 (Some false) "binary" None "encrypted_column_metadata" None
].
(** format.rs:1002-1029 *)
Definition rs_RowGroup : mdef := MStruct [
  Build_mfield 1 (Some true) "list" (Some "ColumnChunk") "columns" None;
  Build_mfield 2 (Some true) "i64" None "total_byte_size" None;
  Build_mfield 3 (Some true) "i64" None "num_rows" None;
  Build_mfield 4 (Some false) "list" (Some "SortingColumn") "sorting_columns" None;
  Build_mfield 5 (Some false) "i64" None "file_offset" None;
  Build_mfield 6 (Some false) "i64" None "total_compressed_size" None;
  Build_mfield 7 (Some false) "i16" None "ordinal" None
].
(** format.rs:1032-1032 *)
Definition rs_TypeDefinedOrder : mdef := MStruct [].
(** format.rs:1046-1103 *)
Definition rs_ColumnOrder : mdef := MUnion [
  Build_mfield 1 None "TypeDefinedOrder" None "TYPE_ORDER" None
].
(** format.rs:1105-1121 *)
Definition rs_PageLocation : mdef := MStruct [
  Build_mfield 1 (Some true) "i64" None "offset" None;
  Build_mfield 2 (Some true) "i32" None "compressed_page_size" None;
  Build_mfield 3 (Some true) "i64" None "first_row_index" None
].
(** format.rs:1130-1143 *)
Definition rs_OffsetIndex : mdef := MStruct [
  Build_mfield 1 (Some true) "list" (Some "PageLocation") "page_locations" None;
  Build_mfield 2 (Some false) "list" (Some "i64") "unencoded_byte_array_data_bytes" None
].
(** format.rs:1155-1215 *)
Definition rs_ColumnIndex : mdef := MStruct [
  Build_mfield 1 (Some true) "list" (Some "bool") "null_pages" None;
  Build_mfield 2 (Some true) "list" (Some "binary") "min_values" None;
  Build_mfield 3 (Some true) "list" (Some "binary") "max_values" None;
  Build_mfield 4 (Some true) "BoundaryOrder" None "boundary_order" None;
  Build_mfield 5 (Some false) "list" (Some "i64") "null_counts" None;
  Build_mfield 6 (Some false) "list" (Some "i64") "repetition_level_histograms" None;
  Build_mfield 7 (Some false) "list" (Some "i64") "definition_level_histograms" None
].
(** format.rs:1217-1227 *)
Definition rs_AesGcmV1 : mdef := MStruct [
  Build_mfield 1 (Some false) "binary" None "aad_prefix" None;
  Build_mfield 2 (Some false) "binary" None "aad_file_unique" None;
  Build_mfield 3 (Some false) "bool" None "supply_aad_prefix" None
].
(** format.rs:1229-1239 *)
Definition rs_AesGcmCtrV1 : mdef := MStruct [
  Build_mfield 1 (Some false) "binary" None "aad_prefix" None;
  Build_mfield 2 (Some false) "binary" None "aad_file_unique" None;
  Build_mfield 3 (Some false) "bool" None "supply_aad_prefix" None
].
(** format.rs:1241-1244 *)
Definition rs_EncryptionAlgorithm : mdef := MUnion [
  Build_mfield 1 None "AesGcmV1" None "AES_GCM_V1" None;
  Build_mfield 2 None "AesGcmCtrV1" None "AES_GCM_CTR_V1" None
].
(** format.rs:1249-1306 *)
Definition rs_FileMetaData : mdef := MStruct [
  Build_mfield 1 (Some true) "i32" None "version" None;
  Build_mfield 2 (Some true) "list" (Some "SchemaElement") "schema" None;
  Build_mfield 3 (Some true) "i64" None "num_rows" None;
  Build_mfield 4 (Some true) "list" (Some "RowGroup") "row_groups" None;
  Build_mfield 5 (Some false) "list" (Some "KeyValue") "key_value_metadata" None;
  Build_mfield 6 (Some false) "string" None "created_by" None;
  Build_mfield 7 (Some false) "list" (Some "ColumnOrder") "column_orders" None;
  Build_mfield 8 (Some false) "EncryptionAlgorithm" None "encryption_algorithm" None;
  Build_mfield 9 (Some false) "binary" None "footer_signing_key_metadata" None
].
(** format.rs:1309-1320 *)
Definition rs_FileCryptoMetaData : mdef := MStruct [
  Build_mfield 1 (Some true) "EncryptionAlgorithm" None "encryption_algorithm" None;
  Build_mfield 2 (Some false) "binary" None "key_metadata" None
].
(** The whole file, in source order. *)
Definition format_rs : list (string * mdef) := [("Type", rs_Type); ("ConvertedType", rs_ConvertedType); ("FieldRepetitionType", rs_FieldRepetitionType); ("SizeStatistics", rs_SizeStatistics); ("BoundingBox", rs_BoundingBox); ("GeospatialStatistics", rs_GeospatialStatistics); ("Statistics", rs_Statistics); ("StringType", rs_StringType); ("UUIDType", rs_UUIDType); ("MapType", rs_MapType); ("ListType", rs_ListType); ("EnumType", rs_EnumType); ("DateType", rs_DateType); ("Float16Type", rs_Float16Type); ("NullType", rs_NullType); ("DecimalType", rs_DecimalType); ("MilliSeconds", rs_MilliSeconds); ("MicroSeconds", rs_MicroSeconds); ("NanoSeconds", rs_NanoSeconds); ("TimeUnit", rs_TimeUnit); ("TimestampType", rs_TimestampType); ("TimeType", rs_TimeType); ("IntType", rs_IntType); ("JsonType", rs_JsonType); ("BsonType", rs_BsonType); ("VariantType", rs_VariantType); ("EdgeInterpolationAlgorithm", rs_EdgeInterpolationAlgorithm); ("GeometryType", rs_GeometryType); ("GeographyType", rs_GeographyType); ("LogicalType", rs_LogicalType); ("SchemaElement", rs_SchemaElement); ("Encoding", rs_Encoding); ("CompressionCodec", rs_CompressionCodec); ("PageType", rs_PageType); ("BoundaryOrder", rs_BoundaryOrder); ("DataPageHeader", rs_DataPageHeader); ("IndexPageHeader", rs_IndexPageHeader); ("DictionaryPageHeader", rs_DictionaryPageHeader); ("DataPageHeaderV2", rs_DataPageHeaderV2); ("SplitBlockAlgorithm", rs_SplitBlockAlgorithm); ("BloomFilterAlgorithm", rs_BloomFilterAlgorithm); ("XxHash", rs_XxHash); ("BloomFilterHash", rs_BloomFilterHash); ("Uncompressed", rs_Uncompressed); ("BloomFilterCompression", rs_BloomFilterCompression); ("BloomFilterHeader", rs_BloomFilterHeader); ("PageHeader", rs_PageHeader); ("KeyValue", rs_KeyValue); ("SortingColumn", rs_SortingColumn); ("PageEncodingStats", rs_PageEncodingStats); ("ColumnMetaData", rs_ColumnMetaData); ("EncryptionWithFooterKey", rs_EncryptionWithFooterKey); ("EncryptionWithColumnKey", rs_EncryptionWithColumnKey); ("ColumnCryptoMetaData", rs_ColumnCryptoMetaData); ("ColumnChunk", rs_ColumnChunk); ("RowGroup", rs_RowGroup); ("TypeDefinedOrder", rs_TypeDefinedOrder); ("ColumnOrder", rs_ColumnOrder); ("PageLocation", rs_PageLocation); ("OffsetIndex", rs_OffsetIndex); ("ColumnIndex", rs_ColumnIndex); ("AesGcmV1", rs_AesGcmV1); ("AesGcmCtrV1", rs_AesGcmCtrV1); ("EncryptionAlgorithm", rs_EncryptionAlgorithm); ("FileMetaData", rs_FileMetaData); ("FileCryptoMetaData", rs_FileCryptoMetaData)].
