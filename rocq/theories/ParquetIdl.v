(** generator/src/test/resources/parquet.thrift as parse tree (cf. Generator.v): the Parquet IDL
    shipped with the repository. *)
From Verif Require Import Base Generator.
Open Scope string_scope.
Open Scope list_scope.
Open Scope Z_scope.

(** Integer literals without sign *)
Definition dec (ds : list Z) : integer := Dec NoSign ds.

(** parquet.thrift:32-41 *)
Definition idl_Type : pdefinition := PEnum [("BOOLEAN", dec [0]); ("INT32", dec [1]); ("INT64", dec [2]); ("INT96", dec [3]); ("FLOAT", dec [4]); ("DOUBLE", dec [5]); ("BYTE_ARRAY", dec [6]); ("FIXED_LEN_BYTE_ARRAY", dec [7])].
(** parquet.thrift:49-178 *)
Definition idl_ConvertedType : pdefinition := PEnum [("UTF8", dec [0]); ("MAP", dec [1]); ("MAP_KEY_VALUE", dec [2]); ("LIST", dec [3]); ("ENUM", dec [4]); ("DECIMAL", dec [5]); ("DATE", dec [6]); ("TIME_MILLIS", dec [7]); ("TIME_MICROS", dec [8]); ("TIMESTAMP_MILLIS", dec [9]); ("TIMESTAMP_MICROS", dec [1; 0]); ("UINT_8", dec [1; 1]); ("UINT_16", dec [1; 2]); ("UINT_32", dec [1; 3]); ("UINT_64", dec [1; 4]); ("INT_8", dec [1; 5]); ("INT_16", dec [1; 6]); ("INT_32", dec [1; 7]); ("INT_64", dec [1; 8]); ("JSON", dec [1; 9]); ("BSON", dec [2; 0]); ("INTERVAL", dec [2; 1])].
(** parquet.thrift:183-192 *)
Definition idl_FieldRepetitionType : pdefinition := PEnum [("REQUIRED", dec [0]); ("OPTIONAL", dec [1]); ("REPEATED", dec [2])].
(** parquet.thrift:202-238 *)
Definition idl_SizeStatistics : pdefinition := PStruct [
  Build_pfield (Some (dec [1])) (Some OPTIONAL) "unencoded_byte_array_data_bytes" (Base I64);
  Build_pfield (Some (dec [2])) (Some OPTIONAL) "repetition_level_histogram" (ListOf (Base I64));
  Build_pfield (Some (dec [3])) (Some OPTIONAL) "definition_level_histogram" (ListOf (Base I64))
].
(** parquet.thrift:244-282 *)
Definition idl_Statistics : pdefinition := PStruct [
  Build_pfield (Some (dec [1])) (Some OPTIONAL) "max" (Base BINARY);
  Build_pfield (Some (dec [2])) (Some OPTIONAL) "min" (Base BINARY);
  Build_pfield (Some (dec [3])) (Some OPTIONAL) "null_count" (Base I64);
  Build_pfield (Some (dec [4])) (Some OPTIONAL) "distinct_count" (Base I64);
  Build_pfield (Some (dec [5])) (Some OPTIONAL) "max_value" (Base BINARY);
  Build_pfield (Some (dec [6])) (Some OPTIONAL) "min_value" (Base BINARY);
  Build_pfield (Some (dec [7])) (Some OPTIONAL) "is_max_value_exact" (Base BOOL);
  Build_pfield (Some (dec [8])) (Some OPTIONAL) "is_min_value_exact" (Base BOOL)
].
(** parquet.thrift:285-285 *)
Definition idl_StringType : pdefinition := PStruct [].
(** parquet.thrift:286-286 *)
Definition idl_UUIDType : pdefinition := PStruct [].
(** parquet.thrift:287-287 *)
Definition idl_MapType : pdefinition := PStruct [].
(** parquet.thrift:288-288 *)
Definition idl_ListType : pdefinition := PStruct [].
(** parquet.thrift:289-289 *)
Definition idl_EnumType : pdefinition := PStruct [].
(** parquet.thrift:290-290 *)
Definition idl_DateType : pdefinition := PStruct [].
(** parquet.thrift:291-291 *)
Definition idl_Float16Type : pdefinition := PStruct [].
(** parquet.thrift:300-300 *)
Definition idl_NullType : pdefinition := PStruct [].
(** parquet.thrift:313-316 *)
Definition idl_DecimalType : pdefinition := PStruct [
  Build_pfield (Some (dec [1])) (Some REQUIRED) "scale" (Base I32);
  Build_pfield (Some (dec [2])) (Some REQUIRED) "precision" (Base I32)
].
(** parquet.thrift:319-319 *)
Definition idl_MilliSeconds : pdefinition := PStruct [].
(** parquet.thrift:320-320 *)
Definition idl_MicroSeconds : pdefinition := PStruct [].
(** parquet.thrift:321-321 *)
Definition idl_NanoSeconds : pdefinition := PStruct [].
(** parquet.thrift:322-326 *)
Definition idl_TimeUnit : pdefinition := PUnion [
  Build_pfield (Some (dec [1])) None "MILLIS" (Named "MilliSeconds");
  Build_pfield (Some (dec [2])) None "MICROS" (Named "MicroSeconds");
  Build_pfield (Some (dec [3])) None "NANOS" (Named "NanoSeconds")
].
(** parquet.thrift:333-336 *)
Definition idl_TimestampType : pdefinition := PStruct [
  Build_pfield (Some (dec [1])) (Some REQUIRED) "isAdjustedToUTC" (Base BOOL);
  Build_pfield (Some (dec [2])) (Some REQUIRED) "unit" (Named "TimeUnit")
].
(** parquet.thrift:343-346 *)
Definition idl_TimeType : pdefinition := PStruct [
  Build_pfield (Some (dec [1])) (Some REQUIRED) "isAdjustedToUTC" (Base BOOL);
  Build_pfield (Some (dec [2])) (Some REQUIRED) "unit" (Named "TimeUnit")
].
(** parquet.thrift:355-358 *)
Definition idl_IntType : pdefinition := PStruct [
  Build_pfield (Some (dec [1])) (Some REQUIRED) "bitWidth" (Named "i8");
  Build_pfield (Some (dec [2])) (Some REQUIRED) "isSigned" (Base BOOL)
].
(** parquet.thrift:365-366 *)
Definition idl_JsonType : pdefinition := PStruct [].
(** parquet.thrift:373-374 *)
Definition idl_BsonType : pdefinition := PStruct [].
(** parquet.thrift:383-406 *)
Definition idl_LogicalType : pdefinition := PUnion [
  Build_pfield (Some (dec [1])) None "STRING" (Named "StringType");
  Build_pfield (Some (dec [2])) None "MAP" (Named "MapType");
  Build_pfield (Some (dec [3])) None "LIST" (Named "ListType");
  Build_pfield (Some (dec [4])) None "ENUM" (Named "EnumType");
  Build_pfield (Some (dec [5])) None "DECIMAL" (Named "DecimalType");
  Build_pfield (Some (dec [6])) None "DATE" (Named "DateType");
  Build_pfield (Some (dec [7])) None "TIME" (Named "TimeType");
  Build_pfield (Some (dec [8])) None "TIMESTAMP" (Named "TimestampType");
  Build_pfield (Some (dec [1; 0])) None "INTEGER" (Named "IntType");
  Build_pfield (Some (dec [1; 1])) None "UNKNOWN" (Named "NullType");
  Build_pfield (Some (dec [1; 2])) None "JSON" (Named "JsonType");
  Build_pfield (Some (dec [1; 3])) None "BSON" (Named "BsonType");
  Build_pfield (Some (dec [1; 4])) None "UUID" (Named "UUIDType");
  Build_pfield (Some (dec [1; 5])) None "FLOAT16" (Named "Float16Type")
].
(** parquet.thrift:414-468 *)
Definition idl_SchemaElement : pdefinition := PStruct [
  Build_pfield (Some (dec [1])) (Some OPTIONAL) "type" (Named "Type");
  Build_pfield (Some (dec [2])) (Some OPTIONAL) "type_length" (Base I32);
  Build_pfield (Some (dec [3])) (Some OPTIONAL) "repetition_type" (Named "FieldRepetitionType");
  Build_pfield (Some (dec [4])) (Some REQUIRED) "name" (Base STRING);
  Build_pfield (Some (dec [5])) (Some OPTIONAL) "num_children" (Base I32);
  Build_pfield (Some (dec [6])) (Some OPTIONAL) "converted_type" (Named "ConvertedType");
  Build_pfield (Some (dec [7])) (Some OPTIONAL) "scale" (Base I32);
  Build_pfield (Some (dec [8])) (Some OPTIONAL) "precision" (Base I32);
  Build_pfield (Some (dec [9])) (Some OPTIONAL) "field_id" (Base I32);
  Build_pfield (Some (dec [1; 0])) (Some OPTIONAL) "logicalType" (Named "LogicalType")
].
(** parquet.thrift:475-540 *)
Definition idl_Encoding : pdefinition := PEnum [("PLAIN", dec [0]); ("PLAIN_DICTIONARY", dec [2]); ("RLE", dec [3]); ("BIT_PACKED", dec [4]); ("DELTA_BINARY_PACKED", dec [5]); ("DELTA_LENGTH_BYTE_ARRAY", dec [6]); ("DELTA_BYTE_ARRAY", dec [7]); ("RLE_DICTIONARY", dec [8]); ("BYTE_STREAM_SPLIT", dec [9])].
(** parquet.thrift:551-560 *)
Definition idl_CompressionCodec : pdefinition := PEnum [("UNCOMPRESSED", dec [0]); ("SNAPPY", dec [1]); ("GZIP", dec [2]); ("LZO", dec [3]); ("BROTLI", dec [4]); ("LZ4", dec [5]); ("ZSTD", dec [6]); ("LZ4_RAW", dec [7])].
(** parquet.thrift:562-567 *)
Definition idl_PageType : pdefinition := PEnum [("DATA_PAGE", dec [0]); ("INDEX_PAGE", dec [1]); ("DICTIONARY_PAGE", dec [2]); ("DATA_PAGE_V2", dec [3])].
(** parquet.thrift:573-577 *)
Definition idl_BoundaryOrder : pdefinition := PEnum [("UNORDERED", dec [0]); ("ASCENDING", dec [1]); ("DESCENDING", dec [2])].
(** parquet.thrift:580-595 *)
Definition idl_DataPageHeader : pdefinition := PStruct [
  Build_pfield (Some (dec [1])) (Some REQUIRED) "num_values" (Base I32);
  Build_pfield (Some (dec [2])) (Some REQUIRED) "encoding" (Named "Encoding");
  Build_pfield (Some (dec [3])) (Some REQUIRED) "definition_level_encoding" (Named "Encoding");
  Build_pfield (Some (dec [4])) (Some REQUIRED) "repetition_level_encoding" (Named "Encoding");
  Build_pfield (Some (dec [5])) (Some OPTIONAL) "statistics" (Named "Statistics")
].
(** parquet.thrift:597-599 *)
Definition idl_IndexPageHeader : pdefinition := PStruct [].
(** parquet.thrift:606-615 *)
Definition idl_DictionaryPageHeader : pdefinition := PStruct [
  Build_pfield (Some (dec [1])) (Some REQUIRED) "num_values" (Base I32);
  Build_pfield (Some (dec [2])) (Some REQUIRED) "encoding" (Named "Encoding");
  Build_pfield (Some (dec [3])) (Some OPTIONAL) "is_sorted" (Base BOOL)
].
(** parquet.thrift:622-649 *)
Definition idl_DataPageHeaderV2 : pdefinition := PStruct [
  Build_pfield (Some (dec [1])) (Some REQUIRED) "num_values" (Base I32);
  Build_pfield (Some (dec [2])) (Some REQUIRED) "num_nulls" (Base I32);
  Build_pfield (Some (dec [3])) (Some REQUIRED) "num_rows" (Base I32);
  Build_pfield (Some (dec [4])) (Some REQUIRED) "encoding" (Named "Encoding");
  Build_pfield (Some (dec [5])) (Some REQUIRED) "definition_levels_byte_length" (Base I32);
  Build_pfield (Some (dec [6])) (Some REQUIRED) "repetition_levels_byte_length" (Base I32);
  Build_pfield (Some (dec [7])) (Some OPTIONAL) "is_compressed" (Base BOOL);
  Build_pfield (Some (dec [8])) (Some OPTIONAL) "statistics" (Named "Statistics")
].
(** parquet.thrift:652-652 *)
Definition idl_SplitBlockAlgorithm : pdefinition := PStruct [].
(** parquet.thrift:654-657 *)
Definition idl_BloomFilterAlgorithm : pdefinition := PUnion [
  Build_pfield (Some (dec [1])) None "BLOCK" (Named "SplitBlockAlgorithm")
].
(** parquet.thrift:662-662 *)
Definition idl_XxHash : pdefinition := PStruct [].
(** parquet.thrift:668-671 *)
Definition idl_BloomFilterHash : pdefinition := PUnion [
  Build_pfield (Some (dec [1])) None "XXHASH" (Named "XxHash")
].
(** parquet.thrift:676-676 *)
Definition idl_Uncompressed : pdefinition := PStruct [].
(** parquet.thrift:677-679 *)
Definition idl_BloomFilterCompression : pdefinition := PUnion [
  Build_pfield (Some (dec [1])) None "UNCOMPRESSED" (Named "Uncompressed")
].
(** parquet.thrift:685-694 *)
Definition idl_BloomFilterHeader : pdefinition := PStruct [
  Build_pfield (Some (dec [1])) (Some REQUIRED) "numBytes" (Base I32);
  Build_pfield (Some (dec [2])) (Some REQUIRED) "algorithm" (Named "BloomFilterAlgorithm");
  Build_pfield (Some (dec [3])) (Some REQUIRED) "hash" (Named "BloomFilterHash");
  Build_pfield (Some (dec [4])) (Some REQUIRED) "compression" (Named "BloomFilterCompression")
].
(** parquet.thrift:696-730 *)
Definition idl_PageHeader : pdefinition := PStruct [
  Build_pfield (Some (dec [1])) (Some REQUIRED) "type" (Named "PageType");
  Build_pfield (Some (dec [2])) (Some REQUIRED) "uncompressed_page_size" (Base I32);
  Build_pfield (Some (dec [3])) (Some REQUIRED) "compressed_page_size" (Base I32);
  Build_pfield (Some (dec [4])) (Some OPTIONAL) "crc" (Base I32);
  Build_pfield (Some (dec [5])) (Some OPTIONAL) "data_page_header" (Named "DataPageHeader");
  Build_pfield (Some (dec [6])) (Some OPTIONAL) "index_page_header" (Named "IndexPageHeader");
  Build_pfield (Some (dec [7])) (Some OPTIONAL) "dictionary_page_header" (Named "DictionaryPageHeader");
  Build_pfield (Some (dec [8])) (Some OPTIONAL) "data_page_header_v2" (Named "DataPageHeaderV2")
].
(** parquet.thrift:735-738 *)
Definition idl_KeyValue : pdefinition := PStruct [
  Build_pfield (Some (dec [1])) (Some REQUIRED) "key" (Base STRING);
  Build_pfield (Some (dec [2])) (Some OPTIONAL) "value" (Base STRING)
].
(** parquet.thrift:743-753 *)
Definition idl_SortingColumn : pdefinition := PStruct [
  Build_pfield (Some (dec [1])) (Some REQUIRED) "column_idx" (Base I32);
  Build_pfield (Some (dec [2])) (Some REQUIRED) "descending" (Base BOOL);
  Build_pfield (Some (dec [3])) (Some REQUIRED) "nulls_first" (Base BOOL)
].
(** parquet.thrift:758-769 *)
Definition idl_PageEncodingStats : pdefinition := PStruct [
  Build_pfield (Some (dec [1])) (Some REQUIRED) "page_type" (Named "PageType");
  Build_pfield (Some (dec [2])) (Some REQUIRED) "encoding" (Named "Encoding");
  Build_pfield (Some (dec [3])) (Some REQUIRED) "count" (Base I32)
].
(** parquet.thrift:774-836 *)
Definition idl_ColumnMetaData : pdefinition := PStruct [
  Build_pfield (Some (dec [1])) (Some REQUIRED) "type" (Named "Type");
  Build_pfield (Some (dec [2])) (Some REQUIRED) "encodings" (ListOf (Named "Encoding"));
  Build_pfield (Some (dec [3])) (Some REQUIRED) "path_in_schema" (ListOf (Base STRING));
  Build_pfield (Some (dec [4])) (Some REQUIRED) "codec" (Named "CompressionCodec");
  Build_pfield (Some (dec [5])) (Some REQUIRED) "num_values" (Base I64);
  Build_pfield (Some (dec [6])) (Some REQUIRED) "total_uncompressed_size" (Base I64);
  Build_pfield (Some (dec [7])) (Some REQUIRED) "total_compressed_size" (Base I64);
  Build_pfield (Some (dec [8])) (Some OPTIONAL) "key_value_metadata" (ListOf (Named "KeyValue"));
  Build_pfield (Some (dec [9])) (Some REQUIRED) "data_page_offset" (Base I64);
  Build_pfield (Some (dec [1; 0])) (Some OPTIONAL) "index_page_offset" (Base I64);
  Build_pfield (Some (dec [1; 1])) (Some OPTIONAL) "dictionary_page_offset" (Base I64);
  Build_pfield (Some (dec [1; 2])) (Some OPTIONAL) "statistics" (Named "Statistics");
  Build_pfield (Some (dec [1; 3])) (Some OPTIONAL) "encoding_stats" (ListOf (Named "PageEncodingStats"));
  Build_pfield (Some (dec [1; 4])) (Some OPTIONAL) "bloom_filter_offset" (Base I64);
  Build_pfield (Some (dec [1; 5])) (Some OPTIONAL) "bloom_filter_length" (Base I32);
  Build_pfield (Some (dec [1; 6])) (Some OPTIONAL) "size_statistics" (Named "SizeStatistics")
].
(** parquet.thrift:838-839 *)
Definition idl_EncryptionWithFooterKey : pdefinition := PStruct [].
(** parquet.thrift:841-847 *)
Definition idl_EncryptionWithColumnKey : pdefinition := PStruct [
  Build_pfield (Some (dec [1])) (Some REQUIRED) "path_in_schema" (ListOf (Base STRING));
  Build_pfield (Some (dec [2])) (Some OPTIONAL) "key_metadata" (Base BINARY)
].
(** parquet.thrift:849-852 *)
Definition idl_ColumnCryptoMetaData : pdefinition := PUnion [
  Build_pfield (Some (dec [1])) None "ENCRYPTION_WITH_FOOTER_KEY" (Named "EncryptionWithFooterKey");
  Build_pfield (Some (dec [2])) None "ENCRYPTION_WITH_COLUMN_KEY" (Named "EncryptionWithColumnKey")
].
(** parquet.thrift:854-886 *)
Definition idl_ColumnChunk : pdefinition := PStruct [
  Build_pfield (Some (dec [1])) (Some OPTIONAL) "file_path" (Base STRING);
  Build_pfield (Some (dec [2])) (Some REQUIRED) "file_offset" (Base I64);
  Build_pfield (Some (dec [3])) (Some OPTIONAL) "meta_data" (Named "ColumnMetaData");
  Build_pfield (Some (dec [4])) (Some OPTIONAL) "offset_index_offset" (Base I64);
  Build_pfield (Some (dec [5])) (Some OPTIONAL) "offset_index_length" (Base I32);
  Build_pfield (Some (dec [6])) (Some OPTIONAL) "column_index_offset" (Base I64);
  Build_pfield (Some (dec [7])) (Some OPTIONAL) "column_index_length" (Base I32);
  Build_pfield (Some (dec [8])) (Some OPTIONAL) "crypto_metadata" (Named "ColumnCryptoMetaData");
  Build_pfield (Some (dec [9])) (Some OPTIONAL) "encrypted_column_metadata" (Base BINARY)
].
(** parquet.thrift:888-915 *)
Definition idl_RowGroup : pdefinition := PStruct [
  Build_pfield (Some (dec [1])) (Some REQUIRED) "columns" (ListOf (Named "ColumnChunk"));
  Build_pfield (Some (dec [2])) (Some REQUIRED) "total_byte_size" (Base I64);
  Build_pfield (Some (dec [3])) (Some REQUIRED) "num_rows" (Base I64);
  Build_pfield (Some (dec [4])) (Some OPTIONAL) "sorting_columns" (ListOf (Named "SortingColumn"));
  Build_pfield (Some (dec [5])) (Some OPTIONAL) "file_offset" (Base I64);
  Build_pfield (Some (dec [6])) (Some OPTIONAL) "total_compressed_size" (Base I64);
  Build_pfield (Some (dec [7])) (Some OPTIONAL) "ordinal" (Base I16)
].
(** parquet.thrift:918-918 *)
Definition idl_TypeDefinedOrder : pdefinition := PStruct [].
(** parquet.thrift:932-985 *)
Definition idl_ColumnOrder : pdefinition := PUnion [
  Build_pfield (Some (dec [1])) None "TYPE_ORDER" (Named "TypeDefinedOrder")
].
(** parquet.thrift:987-1002 *)
Definition idl_PageLocation : pdefinition := PStruct [
  Build_pfield (Some (dec [1])) (Some REQUIRED) "offset" (Base I64);
  Build_pfield (Some (dec [2])) (Some REQUIRED) "compressed_page_size" (Base I32);
  Build_pfield (Some (dec [3])) (Some REQUIRED) "first_row_index" (Base I64)
].
(** parquet.thrift:1004-1017 *)
Definition idl_OffsetIndex : pdefinition := PStruct [
  Build_pfield (Some (dec [1])) (Some REQUIRED) "page_locations" (ListOf (Named "PageLocation"));
  Build_pfield (Some (dec [2])) (Some OPTIONAL) "unencoded_byte_array_data_bytes" (ListOf (Base I64))
].
(** parquet.thrift:1023-1075 *)
Definition idl_ColumnIndex : pdefinition := PStruct [
  Build_pfield (Some (dec [1])) (Some REQUIRED) "null_pages" (ListOf (Base BOOL));
  Build_pfield (Some (dec [2])) (Some REQUIRED) "min_values" (ListOf (Base BINARY));
  Build_pfield (Some (dec [3])) (Some REQUIRED) "max_values" (ListOf (Base BINARY));
  Build_pfield (Some (dec [4])) (Some REQUIRED) "boundary_order" (Named "BoundaryOrder");
  Build_pfield (Some (dec [5])) (Some OPTIONAL) "null_counts" (ListOf (Base I64));
  Build_pfield (Some (dec [6])) (Some OPTIONAL) "repetition_level_histograms" (ListOf (Base I64));
  Build_pfield (Some (dec [7])) (Some OPTIONAL) "definition_level_histograms" (ListOf (Base I64))
].
(** parquet.thrift:1077-1087 *)
Definition idl_AesGcmV1 : pdefinition := PStruct [
  Build_pfield (Some (dec [1])) (Some OPTIONAL) "aad_prefix" (Base BINARY);
  Build_pfield (Some (dec [2])) (Some OPTIONAL) "aad_file_unique" (Base BINARY);
  Build_pfield (Some (dec [3])) (Some OPTIONAL) "supply_aad_prefix" (Base BOOL)
].
(** parquet.thrift:1089-1099 *)
Definition idl_AesGcmCtrV1 : pdefinition := PStruct [
  Build_pfield (Some (dec [1])) (Some OPTIONAL) "aad_prefix" (Base BINARY);
  Build_pfield (Some (dec [2])) (Some OPTIONAL) "aad_file_unique" (Base BINARY);
  Build_pfield (Some (dec [3])) (Some OPTIONAL) "supply_aad_prefix" (Base BOOL)
].
(** parquet.thrift:1101-1104 *)
Definition idl_EncryptionAlgorithm : pdefinition := PUnion [
  Build_pfield (Some (dec [1])) None "AES_GCM_V1" (Named "AesGcmV1");
  Build_pfield (Some (dec [2])) None "AES_GCM_CTR_V1" (Named "AesGcmCtrV1")
].
(** parquet.thrift:1109-1166 *)
Definition idl_FileMetaData : pdefinition := PStruct [
  Build_pfield (Some (dec [1])) (Some REQUIRED) "version" (Base I32);
  Build_pfield (Some (dec [2])) (Some REQUIRED) "schema" (ListOf (Named "SchemaElement"));
  Build_pfield (Some (dec [3])) (Some REQUIRED) "num_rows" (Base I64);
  Build_pfield (Some (dec [4])) (Some REQUIRED) "row_groups" (ListOf (Named "RowGroup"));
  Build_pfield (Some (dec [5])) (Some OPTIONAL) "key_value_metadata" (ListOf (Named "KeyValue"));
  Build_pfield (Some (dec [6])) (Some OPTIONAL) "created_by" (Base STRING);
  Build_pfield (Some (dec [7])) (Some OPTIONAL) "column_orders" (ListOf (Named "ColumnOrder"));
  Build_pfield (Some (dec [8])) (Some OPTIONAL) "encryption_algorithm" (Named "EncryptionAlgorithm");
  Build_pfield (Some (dec [9])) (Some OPTIONAL) "footer_signing_key_metadata" (Base BINARY)
].
(** parquet.thrift:1169-1180 *)
Definition idl_FileCryptoMetaData : pdefinition := PStruct [
  Build_pfield (Some (dec [1])) (Some REQUIRED) "encryption_algorithm" (Named "EncryptionAlgorithm");
  Build_pfield (Some (dec [2])) (Some OPTIONAL) "key_metadata" (Base BINARY)
].
(** The whole file, in source order. *)
Definition parquet_thrift : list (string * pdefinition) := [("Type", idl_Type); ("ConvertedType", idl_ConvertedType); ("FieldRepetitionType", idl_FieldRepetitionType); ("SizeStatistics", idl_SizeStatistics); ("Statistics", idl_Statistics); ("StringType", idl_StringType); ("UUIDType", idl_UUIDType); ("MapType", idl_MapType); ("ListType", idl_ListType); ("EnumType", idl_EnumType); ("DateType", idl_DateType); ("Float16Type", idl_Float16Type); ("NullType", idl_NullType); ("DecimalType", idl_DecimalType); ("MilliSeconds", idl_MilliSeconds); ("MicroSeconds", idl_MicroSeconds); ("NanoSeconds", idl_NanoSeconds); ("TimeUnit", idl_TimeUnit); ("TimestampType", idl_TimestampType); ("TimeType", idl_TimeType); ("IntType", idl_IntType); ("JsonType", idl_JsonType); ("BsonType", idl_BsonType); ("LogicalType", idl_LogicalType); ("SchemaElement", idl_SchemaElement); ("Encoding", idl_Encoding); ("CompressionCodec", idl_CompressionCodec); ("PageType", idl_PageType); ("BoundaryOrder", idl_BoundaryOrder); ("DataPageHeader", idl_DataPageHeader); ("IndexPageHeader", idl_IndexPageHeader); ("DictionaryPageHeader", idl_DictionaryPageHeader); ("DataPageHeaderV2", idl_DataPageHeaderV2); ("SplitBlockAlgorithm", idl_SplitBlockAlgorithm); ("BloomFilterAlgorithm", idl_BloomFilterAlgorithm); ("XxHash", idl_XxHash); ("BloomFilterHash", idl_BloomFilterHash); ("Uncompressed", idl_Uncompressed); ("BloomFilterCompression", idl_BloomFilterCompression); ("BloomFilterHeader", idl_BloomFilterHeader); ("PageHeader", idl_PageHeader); ("KeyValue", idl_KeyValue); ("SortingColumn", idl_SortingColumn); ("PageEncodingStats", idl_PageEncodingStats); ("ColumnMetaData", idl_ColumnMetaData); ("EncryptionWithFooterKey", idl_EncryptionWithFooterKey); ("EncryptionWithColumnKey", idl_EncryptionWithColumnKey); ("ColumnCryptoMetaData", idl_ColumnCryptoMetaData); ("ColumnChunk", idl_ColumnChunk); ("RowGroup", idl_RowGroup); ("TypeDefinedOrder", idl_TypeDefinedOrder); ("ColumnOrder", idl_ColumnOrder); ("PageLocation", idl_PageLocation); ("OffsetIndex", idl_OffsetIndex); ("ColumnIndex", idl_ColumnIndex); ("AesGcmV1", idl_AesGcmV1); ("AesGcmCtrV1", idl_AesGcmCtrV1); ("EncryptionAlgorithm", idl_EncryptionAlgorithm); ("FileMetaData", idl_FileMetaData); ("FileCryptoMetaData", idl_FileCryptoMetaData)].
