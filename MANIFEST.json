{
 "claims": [
  {
   "property": "C01",
   "status": "proved",
   "theorems": [
    "C01_len_roundtrip"
   ],
   "note": "usize of the target; both input implementations"
  },
  {
   "property": "C02",
   "status": "proved",
   "theorems": [
    "C02_i16_roundtrip",
    "C02_i32_roundtrip",
    "C02_i64_roundtrip"
   ],
   "note": ""
  },
  {
   "property": "C03",
   "status": "proved",
   "theorems": [
    "C03_canonical"
   ],
   "note": ""
  },
  {
   "property": "C04",
   "status": "partial",
   "theorems": [
    "C04_varint_partial",
    "C04_padded_partial",
    "C04_refuted",
    "C04_any_length",
    "C04_overlaid",
    "C04_overflow"
   ],
   "note": "proved up to ten bytes, and for any length when the number fits; false for longer sequences (C04_refuted), for which C04_any_length states the number that is read"
  },
  {
   "property": "C05",
   "status": "partial",
   "theorems": [
    "C05_i16_truncates",
    "C05_i32_truncates",
    "C05_refuted"
   ],
   "note": "false of the code: values are truncated (exact behaviour proved, witness in C05_refuted)"
  },
  {
   "property": "C06",
   "status": "proved",
   "theorems": [
    "C06_double_roundtrip"
   ],
   "note": ""
  },
  {
   "property": "C07",
   "status": "partial",
   "theorems": [
    "C07_binary_roundtrip",
    "C07_write_limit",
    "C07_read_limit",
    "C07_read_limit_32bit_refuted"
   ],
   "note": "full on 64-bit targets; on 32-bit targets the read limit is false for lengths above 2^32 (witness)"
  },
  {
   "property": "C08",
   "status": "proved",
   "theorems": [
    "C08_read_string",
    "C08_string_roundtrip"
   ],
   "note": ""
  },
  {
   "property": "C09",
   "status": "partial",
   "theorems": [
    "C09_header_exact",
    "C09_refuted"
   ],
   "note": "exact characterisation proved; the unrestricted claim is false (witness)"
  },
  {
   "property": "C10",
   "status": "partial",
   "theorems": [
    "C10_write_conforms_partial",
    "C10_schema_partial",
    "C10_refuted"
   ],
   "note": "schemas without boolean union variants or pointers to booleans, values whose present fields are within header reach of each other; false outside"
  },
  {
   "property": "C11",
   "status": "partial",
   "theorems": [
    "C11_read_conforming_partial",
    "C11_pointer_refuted",
    "C11_union_refuted"
   ],
   "note": "schemas without boolean union variants or pointers to booleans; false outside"
  },
  {
   "property": "C12",
   "status": "partial",
   "theorems": [
    "C12_write_read_partial",
    "C12_gap_refuted"
   ],
   "note": "schemas without boolean union variants, values whose present fields are within header reach of each other; false outside"
  },
  {
   "property": "C13",
   "status": "proved",
   "theorems": [
    "C13_parquet_write_read"
   ],
   "note": "all parquet types of the crate, conformance included"
  },
  {
   "property": "C15",
   "status": "proved",
   "theorems": [
    "C15_skip_exact"
   ],
   "note": ""
  },
  {
   "property": "C23",
   "status": "proved",
   "theorems": [
    "C23_write_success",
    "C23_write_healthy",
    "C23_vec_appends"
   ],
   "note": ""
  },
  {
   "property": "C24",
   "status": "proved",
   "theorems": [
    "C24_sink_failure"
   ],
   "note": ""
  },
  {
   "property": "C25",
   "status": "proved",
   "theorems": [
    "C25_write_outcome"
   ],
   "note": ""
  },
  {
   "property": "C16",
   "status": "partial",
   "theorems": [
    "C16_read_partial",
    "C16_skip_partial",
    "C16_read_sse2_partial",
    "C16_skip_sse2_partial",
    "C16_read_refuted",
    "C16_skip_refuted",
    "C16_integer_sse2",
    "C16_integer_plain"
   ],
   "note": "full for targets without the SSE2 skip, and with it for inputs without long continuation runs; false outside (witnesses); C16_integer_sse2 states what the SSE2 skip does to every slice"
  },
  {
   "property": "C17",
   "status": "partial",
   "theorems": [
    "C17_read_slice_partial",
    "C17_read_reader_partial",
    "C17_skip_slice_partial",
    "C17_skip_reader_partial",
    "C17_refuted",
    "C17_varint_refuted"
   ],
   "note": "the exact panics that remain possible are proved; witnesses that each of them happens"
  },
  {
   "property": "C18",
   "status": "proved",
   "theorems": [
    "C18_read_slice",
    "C18_read_reader",
    "C18_skip_slice",
    "C18_skip_reader"
   ],
   "note": ""
  },
  {
   "property": "C19",
   "status": "proved",
   "theorems": [
    "C19_read_slice",
    "C19_skip_slice",
    "C19_read_reader"
   ],
   "note": ""
  },
  {
   "property": "C20",
   "status": "proved",
   "theorems": [
    "C20_read",
    "C20_skip"
   ],
   "note": ""
  },
  {
   "property": "C21",
   "status": "proved",
   "theorems": [
    "C21_truncated",
    "C21_not_observed"
   ],
   "note": ""
  },
  {
   "property": "C22",
   "status": "proved",
   "theorems": [
    "C22_truncated_write",
    "C21_truncated"
   ],
   "note": ""
  },
  {
   "property": "C36",
   "status": "partial",
   "theorems": [
    "C36_refuted",
    "C36_skip_refuted"
   ],
   "note": "false of the code: every depth is exceeded by some input"
  },
  {
   "property": "C26",
   "status": "proved",
   "theorems": [
    "C26_occurred",
    "C26_missing"
   ],
   "note": ""
  },
  {
   "property": "C27",
   "status": "proved",
   "theorems": [
    "C27_duplicate"
   ],
   "note": "schemas without boolean union variants or pointers to booleans"
  },
  {
   "property": "C28",
   "status": "proved",
   "theorems": [
    "C28_last_wins"
   ],
   "note": "schemas without boolean union variants or pointers to booleans; also unions"
  },
  {
   "property": "C29",
   "status": "partial",
   "theorems": [
    "C29_struct_partial",
    "C29_union_refuted",
    "C29_refuted"
   ],
   "note": "proved for struct fields other than booleans; false for booleans and union variants"
  },
  {
   "property": "C30",
   "status": "proved",
   "theorems": [
    "C30_wrong_element",
    "C30_wrong_encoding",
    "C30_bool_tags",
    "C30_bool_elements"
   ],
   "note": ""
  },
  {
   "property": "C31",
   "status": "partial",
   "theorems": [
    "C31_refused_partial",
    "C31_slice_bounded",
    "C31_reader_bounded",
    "C31_32bit_refuted"
   ],
   "note": "full on 64-bit targets; with 32-bit pointers lengths above 2^32 are truncated (witness)"
  },
  {
   "property": "C32",
   "status": "proved",
   "theorems": [
    "C32_slice_valid",
    "C32_reader_valid",
    "C32_slice_rewritten",
    "C32_reader_rewritten"
   ],
   "note": ""
  },
  {
   "property": "C33",
   "status": "proved",
   "theorems": [
    "C33_replaced",
    "C33_occupied"
   ],
   "note": ""
  },
  {
   "property": "C34",
   "status": "partial",
   "theorems": [
    "C34_read_refuted",
    "C34_refuted"
   ],
   "note": "false of the code: sets are treated as lists"
  },
  {
   "property": "C35",
   "status": "partial",
   "theorems": [
    "C35_partial",
    "C35_union",
    "C35_refuted"
   ],
   "note": "false of the code: any byte with a zero type nibble ends a struct, and nothing else (both proved)"
  },
  {
   "property": "C52",
   "status": "partial",
   "theorems": [
    "C52_refuted"
   ],
   "note": "false of the code: declared defaults are ignored"
  },
  {
   "property": "C54",
   "status": "proved",
   "theorems": [
    "C54_enum"
   ],
   "note": ""
  },
  {
   "property": "C55",
   "status": "proved",
   "theorems": [
    "C55_retry",
    "C55_retry_field"
   ],
   "note": ""
  },
  {
   "property": "C14",
   "status": "partial",
   "theorems": [
    "C14_read_partial",
    "C14_written_partial",
    "C14_project",
    "C14_refuted"
   ],
   "note": "every pair of compatible schemas without booleans behind pointers; false with them (refuted), as C10/C12"
  },
  {
   "property": "C37",
   "status": "proved",
   "theorems": [
    "C37_iter",
    "C37_read",
    "C37_reject",
    "C37_reject_type",
    "C37_kept",
    "C37_roundtrip"
   ],
   "note": ""
  },
  {
   "property": "C38",
   "status": "proved",
   "theorems": [
    "C38_vec_to_set",
    "C38_set_to_vec"
   ],
   "note": ""
  },
  {
   "property": "C39",
   "status": "partial",
   "theorems": [
    "C39_ok",
    "C39_magic_partial",
    "C39_otherwise",
    "C39_refuted"
   ],
   "note": "Ok iff proved for all files; InvalidMagic iff proved for files of at least 8 bytes, false for 4 to 7 bytes (witness)"
  },
  {
   "property": "C40",
   "status": "partial",
   "theorems": [
    "C40_some_partial",
    "C40_none_partial",
    "C40_error_partial",
    "C40_no_panic_partial",
    "C40_decoded",
    "C40_typed",
    "C40_refuted",
    "C40_overflow_refuted"
   ],
   "note": "full on 64-bit targets; false with 32-bit pointers (witnesses)"
  },
  {
   "property": "C41",
   "status": "proved",
   "theorems": [
    "C41_chunk",
    "C41_indexes",
    "C41_complete"
   ],
   "note": "64-bit targets"
  },
  {
   "property": "C42",
   "status": "partial",
   "theorems": [
    "C42_partial",
    "C42_refuted",
    "C42_before_refuted"
   ],
   "note": "false of the code: assertions fail for empty indexes and for offset indexes before the chunk; otherwise only the decoding panics of C17"
  },
  {
   "property": "C56",
   "status": "proved",
   "theorems": [
    "C56_metadata",
    "C56_page_index"
   ],
   "note": ""
  },
  {
   "property": "C57",
   "status": "partial",
   "theorems": [
    "C57_metadata",
    "C57_refuted",
    "C57_capacity_refuted"
   ],
   "note": "proved for get_metadata_chunk, false for get_page_index_chunk"
  },
  {
   "property": "C43",
   "status": "proved",
   "theorems": [
    "C43_accepts",
    "C43_represents",
    "C43_unique"
   ],
   "note": ""
  },
  {
   "property": "C44",
   "status": "partial",
   "theorems": [
    "C44_partial",
    "C44_modulo",
    "C58_decoded"
   ],
   "note": "full for every decoded schema and every list of at most 2^32 elements; longer lists number modulo 2^32"
  },
  {
   "property": "C45",
   "status": "partial",
   "theorems": [
    "C45_partial",
    "C45_refuted"
   ],
   "note": "repetition levels proved; definition levels count optional nodes only, which contradicts the Parquet definition (witness)"
  },
  {
   "property": "C46",
   "status": "proved",
   "theorems": [
    "C46_no_panic",
    "C46_too_deep"
   ],
   "note": "given stack for 128 calls and memory for as many fields as there are elements"
  },
  {
   "property": "C47",
   "status": "proved",
   "theorems": [
    "C47_decimal",
    "C47_integer",
    "C47_physical",
    "C47_logical",
    "C47_converted",
    "C47_group",
    "C47_repetition",
    "C47_unknown",
    "C47_no_panic"
   ],
   "note": ""
  },
  {
   "property": "C48",
   "status": "proved",
   "theorems": [
    "C48_find",
    "C48_none"
   ],
   "note": ""
  },
  {
   "property": "C58",
   "status": "proved",
   "theorems": [
    "C58_decoded",
    "C58_ranges",
    "C58_names",
    "C58_decoded_names"
   ],
   "note": ""
  },
  {
   "property": "C59",
   "status": "proved",
   "theorems": [
    "C59_field_id"
   ],
   "note": ""
  },
  {
   "property": "C53",
   "status": "proved",
   "theorems": [
    "C53_display",
    "C53_cstr",
    "C53_panics",
    "C53_in_bounds"
   ],
   "note": ""
  },
  {
   "property": "C60",
   "status": "proved",
   "theorems": [
    "C60_total",
    "C60_text",
    "C60_one_text",
    "C60_distinct",
    "C60_parquet"
   ],
   "note": "given that std's ErrorKind variants have different names"
  },
  {
   "property": "C49",
   "status": "partial",
   "theorems": [
    "C49_partial",
    "C49_sound",
    "C49_specified",
    "C49_names",
    "C49_refuted"
   ],
   "note": "for distinct field names and 16 bit ids; a repeated name drops a declared field"
  },
  {
   "property": "C50",
   "status": "partial",
   "theorems": [
    "C50_lifetime",
    "C50_field",
    "C50_terminates_partial",
    "C50_terminates_refuted",
    "C50_only_overflow"
   ],
   "note": "terminates for documents without recursive types; a recursive type that borrows nothing overflows every stack"
  },
  {
   "property": "C51",
   "status": "partial",
   "theorems": [
    "C51_refuted",
    "C51_partial",
    "C51_field_type"
   ],
   "note": "false for every definition: fill and write are generated, fill_thrift and write_thrift required; only FIELD_TYPE is right"
  },
  {
   "property": "C61",
   "status": "partial",
   "theorems": [
    "C61_partial",
    "C61_refuted",
    "C61_format"
   ],
   "note": "sets are sent as lists, lists of bytes as binary, and byte does not compile"
  },
  {
   "property": "C62",
   "status": "partial",
   "theorems": [
    "C62_read_partial",
    "C62_write_partial",
    "C62_write_refuted",
    "C62_read_any",
    "C62_write_any"
   ],
   "note": "reading: lists of encodings within 0..=30; writing: types that reach ColumnMetaData do not conform because path_in_schema is left out (witness)"
  },
  {
   "property": "C63",
   "status": "proved",
   "theorems": [
    "C63_shortest",
    "C63_parquet"
   ],
   "note": "for schemas and values of which C10 holds"
  },
  {
   "property": "C64",
   "status": "proved",
   "theorems": [
    "C64_conforming",
    "C64_written",
    "C64_sharing"
   ],
   "note": "for the schemas of C10 and C12"
  },
  {
   "property": "C65",
   "status": "partial",
   "theorems": [
    "C65_partial",
    "C65_lines",
    "C65_converted",
    "C65_refuted"
   ],
   "note": "holds for names without space and line feed; false otherwise (witness)"
  },
  {
   "property": "C66",
   "status": "proved",
   "theorems": [
    "C66_prints",
    "C66_finished",
    "C66_panics",
    "C66_total",
    "C66_names"
   ],
   "note": "a failing unwrap is the outcome PErr, not one of the panics of C66_panics"
  },
  {
   "property": "C67",
   "status": "proved",
   "theorems": [
    "C67_tokens",
    "C67_layout",
    "C67_written"
   ],
   "note": ""
  },
  {
   "property": "C68",
   "status": "proved",
   "theorems": [
    "C68_grammar",
    "C68_complete",
    "C68_rejects",
    "C68_unambiguous"
   ],
   "note": ""
  },
  {
   "property": "C69",
   "status": "proved",
   "theorems": [
    "C69_expressible",
    "C69_layout",
    "C69_load",
    "C69_syntax"
   ],
   "note": ""
  },
  {
   "property": "C70",
   "status": "proved",
   "theorems": [
    "C70_parquet",
    "C70_loaded"
   ],
   "note": ""
  },
  {
   "property": "C71",
   "status": "partial",
   "theorems": [
    "C71_namespace_partial",
    "C71_unique",
    "C71_accepts",
    "C71_refuted"
   ],
   "note": "namespaces proved; every include yields an invalid use declaration, and cpp_include is not implemented"
  },
  {
   "property": "C72",
   "status": "proved",
   "theorems": [
    "C72_roundtrip",
    "C72_alike",
    "C72_symmetric",
    "C72_transitive"
   ],
   "note": "for the schemas and values of C12"
  },
  {
   "property": "C73",
   "status": "partial",
   "theorems": [
    "C73_partial",
    "C73_refuted"
   ],
   "note": "holds for values without zeros among their doubles; 0.0 and -0.0 are equal and written differently"
  },
  {
   "property": "C74",
   "status": "proved",
   "theorems": [
    "C74_slice",
    "C74_reader",
    "C74_parquet"
   ],
   "note": ""
  },
  {
   "property": "C75",
   "status": "partial",
   "theorems": [
    "C75_partial",
    "C75_refuted"
   ],
   "note": "bounded by ten million elements per list; not by the length of the input (witness)"
  },
  {
   "property": "C76",
   "status": "proved",
   "theorems": [
    "C76_format",
    "C76_schema",
    "C76_one_reading"
   ],
   "note": ""
  },
  {
   "property": "C77",
   "status": "proved",
   "theorems": [
    "C77_tokens",
    "C77_accepts",
    "C77_unique",
    "C77_one_way"
   ],
   "note": "for texts made of the tokens listed in DESIGN.md; the recursion limit of the compiler is not modelled"
  },
  {
   "property": "C78",
   "status": "partial",
   "theorems": [
    "C78_struct_partial",
    "C78_union_partial",
    "C78_refuted"
   ],
   "note": "accepted exactly if every struct field has a requirement and no union field has one"
  },
  {
   "property": "C79",
   "status": "partial",
   "theorems": [
    "C79_partial",
    "C79_refuted",
    "C79_comment_refuted",
    "C79_parquet_refuted"
   ],
   "note": "holds for texts without attributes, nested comments and repeated names, whatever else they contain; refuted by witnesses in general; default values are not compared as the generator ignores them (C52)"
  },
  {
   "property": "C80",
   "status": "proved",
   "theorems": [
    "C80_text",
    "C80_line",
    "C80_pretty"
   ],
   "note": "given that the standard library prints all NaNs alike and other doubles differently, in letters, digits, signs and points"
  },
  {
   "property": "C81",
   "status": "proved",
   "theorems": [
    "C81_prints",
    "C81_finished",
    "C81_determines",
    "C81_silent",
    "C81_panics"
   ],
   "note": "given memory for the metadata; a failing unwrap is the outcome PErr"
  },
  {
   "property": "C82",
   "status": "proved",
   "theorems": [
    "C82_text",
    "C82_one_text",
    "C82_fails"
   ],
   "note": "up to indentation and empty lines"
  },
  {
   "property": "C83",
   "status": "partial",
   "theorems": [
    "C83_names_partial",
    "C83_reference_partial",
    "C83_members",
    "C83_items",
    "C83_refuted",
    "C83_reference_refuted"
   ],
   "note": "names are identifiers exactly if they are not _, contain no dot and are no keyword other than type, which is escaped except in unions; references agree unless the name is type; collisions only with value, __NAMES, Cow and tests; collisions with names imported by a glob or from the prelude are not considered"
  },
  {
   "property": "C84",
   "status": "proved",
   "theorems": [
    "C84_name",
    "C84_unique",
    "C84_tells",
    "C84_table"
   ],
   "note": "given the documented promise of binary_search_by_key"
  },
  {
   "property": "C85",
   "status": "partial",
   "theorems": [
    "C85_slice",
    "C85_reader",
    "C85_names_partial",
    "C85_reader_names_partial",
    "C85_union",
    "C85_names_refuted",
    "C85_parquet"
   ],
   "note": "unions report an unknown variant as $struct_name, whatever their name; everything else is proved"
  },
  {
   "property": "C86",
   "status": "proved",
   "theorems": [
    "C86_value",
    "C86_unique",
    "C86_terminates",
    "C86_cycle",
    "C86_overflows",
    "C86_parquet"
   ],
   "note": ""
  },
  {
   "property": "C87",
   "status": "proved",
   "theorems": [
    "C87_fill",
    "C87_default"
   ],
   "note": ""
  },
  {
   "property": "C88",
   "status": "proved",
   "theorems": [
    "C88_slice",
    "C88_reader",
    "C88_parquet"
   ],
   "note": "for values whose fields are declared in ascending order with gaps the writer can express (fits); for parquet without condition"
  },
  {
   "property": "C89",
   "status": "proved",
   "theorems": [
    "C89_slice",
    "C89_reader",
    "C89_skip",
    "C89_list",
    "C89_skipped_list",
    "C89_skipped_map"
   ],
   "note": "calls of the five methods of the input are counted, one call of skip_integer may look at several bytes"
  },
  {
   "property": "C90",
   "status": "proved",
   "theorems": [
    "C90_read",
    "C90_fill",
    "C90_skip",
    "C90_reader",
    "C90_reader_skip",
    "C90_unambiguous",
    "C90_parquet"
   ],
   "note": "for some depth of the stack, that is apart from stack overflow"
  },
  {
   "property": "C91",
   "status": "proved",
   "theorems": [
    "C91_slice",
    "C91_reader",
    "C91_fill",
    "C91_volume"
   ],
   "note": ""
  },
  {
   "property": "C92",
   "status": "proved",
   "theorems": [
    "C92_read",
    "C92_fill",
    "C92_fill_panic",
    "C92_outcome",
    "C92_reader",
    "C92_skip",
    "C92_either",
    "C92_one",
    "C92_parquet"
   ],
   "note": "C92_outcome, C92_reader, C92_skip and C92_either assume a closed schema and enough stack; the others hold for some depth of the stack"
  },
  {
   "property": "C93",
   "status": "proved",
   "theorems": [
    "C93_constant",
    "C93_only",
    "C93_order",
    "C93_parquet"
   ],
   "note": "format.rs has one enum more than parquet.thrift (EdgeInterpolationAlgorithm)"
  },
  {
   "property": "C94",
   "status": "proved",
   "theorems": [
    "C94_new",
    "C94_all",
    "C94_optional"
   ],
   "note": "conversions to f64 and between collections are not modelled"
  },
  {
   "property": "C95",
   "status": "proved",
   "theorems": [
    "C95_slice",
    "C95_reader",
    "C95_split",
    "C95_unique",
    "C95_write",
    "C95_parquet"
   ],
   "note": ""
  },
  {
   "property": "C96",
   "status": "partial",
   "theorems": [
    "C96_slice_partial",
    "C96_reader_partial",
    "C96_parquet",
    "C96_bool_refuted",
    "C96_union_refuted",
    "C96_overlong_refuted"
   ],
   "note": "proved for types without unions and without boolean struct fields (40 of the types of format.rs); false for unions and boolean fields, whose wire type is not compared, and for integers over 17 bytes with the vector instructions"
  },
  {
   "property": "C97",
   "status": "proved",
   "theorems": [
    "C97_struct_fill",
    "C97_union_fill",
    "C97_enum_fill",
    "C97_struct_write",
    "C97_union_write",
    "C97_enum_write"
   ],
   "note": "the statements are the expansion of the text of macros.rs (C99)"
  },
  {
   "property": "C98",
   "status": "partial",
   "theorems": [
    "C98_struct_text",
    "C98_union_text",
    "C98_enum_text",
    "C98_struct_fill",
    "C98_struct_write",
    "C98_union_fill_partial",
    "C98_union_write",
    "C98_enum",
    "C98_union_fill_refuted"
   ],
   "note": "true except that the error for an unknown variant of a union names the union in generated code and is the text $struct_name in macro code; the generated code calls the methods by the names fill, write, fill_field and write_field, which the trait does not have (C51)"
  },
  {
   "property": "C99",
   "status": "proved",
   "theorems": [
    "C99_expands",
    "C99_one_reading",
    "C99_methods",
    "C99_patterns"
   ],
   "note": "by MacroRules.v on the verbatim text; what rustc does with the items is not modelled, except that C97 interprets the statements"
  },
  {
   "property": "C100",
   "status": "proved",
   "theorems": [
    "C100_fill",
    "C100_write",
    "C100_all"
   ],
   "note": "C97 and C99 together"
  },
  {
   "property": "C101",
   "status": "proved",
   "theorems": [
    "C101_input",
    "C101_slice",
    "C101_reader",
    "C101_writer",
    "C101_i64"
   ],
   "note": "by the interpreter RustEval.v on the verbatim text; the functions of the standard library and the SSE2 intrinsics are a table in it; the three default methods of CompactThriftProtocol are in C102"
  },
  {
   "property": "C102",
   "status": "proved",
   "theorems": [
    "C102_fill",
    "C102_fill_field",
    "C102_default_fill_field",
    "C102_read",
    "C102_field_type",
    "C102_write",
    "C102_write_field",
    "C102_default_write_field"
   ],
   "note": "the methods of the elements are those of the model (C103 ties the recursion through element types); an EncodingSet has a mask below 2^32; after an error what is left in last_field_id is not compared"
  },
  {
   "property": "C103",
   "status": "proved",
   "theorems": [
    "C103_input",
    "C103_slice",
    "C103_reader",
    "C103_write",
    "C103_round",
    "C103_panics",
    "C103_methods"
   ],
   "note": "Default of the types is that of Types.v; values of element and field types are values of the model; the stack is bounded by need (reading) and by the height of the value (writing); C103_input holds for any input unless the model runs out of stack; after an error what is left in last_field_id is not compared"
  },
  {
   "property": "C104",
   "status": "proved",
   "theorems": [
    "C104_metadata",
    "C104_range",
    "C104_chunk",
    "C104_index",
    "C104_footer",
    "C104_no_panic"
   ],
   "note": "the text is rewritten before it is interpreted (LibProgram.v: fields, ranges, collect, match on &mut); seek, read_exact, with_capacity, min, max, default and fill_thrift are those of Footer.v and Types.v (C103 is about the text of the latter); conversions of errors by ? happen where the error arises; the stack for default is at least 4"
  }
 ]
}