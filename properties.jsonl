{"id": "C01", "title": "Varint lengths round-trip and are self-delimiting", "statement": "Writing any length with write_len and reading it back with read_len from any input source (slice or Read) returns the same length, consumes exactly the bytes that were written, and leaves whatever follows untouched.", "quantifier": "every u64 length, every following byte string, every input implementation that delivers those bytes", "why_tests_cant": "the value space (2^64 values, and any byte string after it) cannot be enumerated", "anchors": ["runtime/src/uleb.rs: encode_uleb, decode_uleb", "runtime/src/protocol.rs: read_len, write_len"]}
{"id": "C02", "title": "i16, i32 and i64 round-trip exactly", "statement": "write_i16/write_i32/write_i64 followed by the matching read returns the original integer, consumes exactly the written bytes, and leaves the remainder untouched.", "quantifier": "every i16, every i32, every i64, every following byte string", "why_tests_cant": "the value space (2^64 values, and any byte string after it) cannot be enumerated", "anchors": ["runtime/src/protocol.rs: zigzag_encode16/32/64, zigzag_decode16/32/64, read_i16/i32/i64, write_i16/i32/i64"]}
{"id": "C03", "title": "Integers are written in the canonical, minimal compact-protocol form", "statement": "The bytes written for an integer n are the base-128 little-endian digits of 2n (n>=0) or -2n-1 (n<0), with continuation bits on all but the last byte; no shorter terminated byte sequence denotes the same number, and at most 3/5/10 bytes are written for i16/i32/i64.", "quantifier": "every i16, i32, i64 and every competing byte sequence", "why_tests_cant": "minimality quantifies over all competing encodings", "anchors": ["runtime/src/uleb.rs: encode_uleb", "runtime/src/protocol.rs: zigzag_encode*"]}
{"id": "C04", "title": "Any well-formed varint of up to ten bytes decodes to the number it denotes", "statement": "Reading a terminated base-128 sequence of at most 10 bytes returns the number it denotes modulo 2^64 (zero-padded, non-minimal sequences of any length included); full claim: longer sequences also return the denoted number modulo 2^64.", "quantifier": "every terminated varint byte sequence, minimal or not, of any length", "why_tests_cant": "sequences of unbounded length; 128^10 sequences already at ten bytes", "anchors": ["runtime/src/uleb.rs: decode_uleb"]}
{"id": "C05", "title": "Out-of-range integers are not silently changed", "statement": "Reading an i16 or i32 whose varint denotes a number outside that type returns an error rather than a different number.", "quantifier": "every varint denoting a number outside the target type", "why_tests_cant": "covers all 2^64 varint values", "anchors": ["runtime/src/protocol.rs: read_i16, read_i32, read_full_field_id"]}
{"id": "C06", "title": "Doubles round-trip bit for bit", "statement": "write_double then read_double returns the same 64 bits (NaN payloads, signed zeros included), as 8 little-endian bytes.", "quantifier": "every 64-bit pattern, every following byte string", "why_tests_cant": "2^64 patterns", "anchors": ["runtime/src/protocol.rs: write_double, read_double"]}
{"id": "C07", "title": "Binaries round-trip up to the limit and are rejected above it", "statement": "write_binary of at most 16 MiB then read_binary returns the same bytes, consuming exactly what was written; longer binaries are refused on write before any byte is emitted, and on read a declared length above 16 MiB is refused without reading payload.", "quantifier": "every byte string, every declared length, every following input", "why_tests_cant": "byte strings of every length up to and beyond 16 MiB", "anchors": ["runtime/src/protocol.rs: MAX_BINARY_LEN, read_binary, write_binary, skip_binary"]}
{"id": "C08", "title": "read_string accepts exactly the valid UTF-8 strings", "statement": "read_string returns the payload bytes iff they are the UTF-8 encoding of a sequence of Unicode scalar values, and InvalidString otherwise; writing any string and reading it back returns it.", "quantifier": "every payload byte string up to the limit", "why_tests_cant": "all byte strings; needs the Unicode definition of well-formedness", "anchors": ["runtime/src/protocol.rs: read_string, write_string"]}
{"id": "C09", "title": "Field headers round-trip", "statement": "Writing a field header for a field id after any previous field id and reading it back with the same previous id yields the same field id and type. (Exact set of (previous,id) pairs for which it holds is characterised.)", "quantifier": "every pair of i16 previous id and i16 field id, every wire type 1..15, every following byte string", "why_tests_cant": "2^32 pairs of ids times all continuations", "anchors": ["runtime/src/protocol.rs: write_field_header, read_field_header, read_full_field_id"]}
{"id": "C10", "title": "The writer emits bytes that conform to the compact protocol", "statement": "Every successful write_thrift produces a byte string that the compact-protocol specification assigns to that value (headers, zigzag varints, lengths, booleans, list headers, stop bytes).", "quantifier": "every schema in the stated class and every value of every type in it", "why_tests_cant": "unbounded values and schemas; conformance is to an external specification", "anchors": ["runtime/src/types.rs: write_thrift, write_thrift_field", "runtime/src/macros.rs: thrift_struct, thrift_union, thrift_enum", "runtime/src/protocol.rs: write_field_header"]}
{"id": "C11", "title": "The reader accepts every conforming encoding of a value", "statement": "For every byte string that the compact-protocol specification allows as an encoding of a value - short or long field headers, fields in any order, unknown fields interleaved, non-minimal varints, either boolean element tag - read_thrift returns that value and stops exactly at its end.", "quantifier": "every schema, value, conforming encoding, input implementation and following byte string", "why_tests_cant": "infinitely many encodings of each value; other implementations choose them", "anchors": ["runtime/src/types.rs: fill_thrift, fill_thrift_field", "runtime/src/macros.rs: thrift_struct, thrift_union", "runtime/src/protocol.rs"]}
{"id": "C12", "title": "Write then read returns the same value", "statement": "For every type built from the supported types, writing a value and reading it with read_thrift returns an equal value and leaves the following bytes untouched.", "quantifier": "every schema, every value, every following byte string, slice and Read inputs", "why_tests_cant": "unbounded nested values and user-defined schemas", "anchors": ["runtime/src/types.rs", "runtime/src/macros.rs"]}
{"id": "C13", "title": "Parquet metadata round-trips", "statement": "Every value of every struct and union declared in the parquet crate (FileMetaData, PageHeader, ColumnIndex, OffsetIndex, BloomFilterHeader, FileCryptoMetaData, ...) that write_thrift accepts reads back equal.", "quantifier": "every value of all parquet metadata types", "why_tests_cant": "unbounded metadata values", "anchors": ["parquet/src/format.rs", "parquet/src/encodings.rs"]}
{"id": "C14", "title": "Unknown fields are ignored (schema evolution)", "statement": "Reading bytes written with a newer schema that has additional fields gives the same value as if those fields had never been written; fields dropped from a schema are skipped.", "quantifier": "every pair of schemas where the reader's is a restriction of the writer's, every value, every nesting of unknown fields", "why_tests_cant": "all values of all unknown types at every position", "anchors": ["runtime/src/macros.rs: thrift_struct fill_thrift", "runtime/src/protocol.rs: skip_field, skip_collection, skip_map"]}
{"id": "C15", "title": "Skipping consumes exactly one value", "statement": "skip_field on a conforming encoding of a value of any wire type leaves the input exactly after that value, for every input implementation.", "quantifier": "every wire value of arbitrary nesting, every conforming encoding, every following byte string", "why_tests_cant": "unbounded nesting of lists, maps and structs", "anchors": ["runtime/src/protocol.rs: skip_field, skip_collection, skip_map, skip_integer, skip_binary"]}
{"id": "C16", "title": "Slice and Read inputs agree on every input", "statement": "For arbitrary bytes, decoding (including skipping) from CompactThriftInputSlice gives the same result as decoding from a std::io::Read delivering the same bytes.", "quantifier": "every byte string, every schema, every wire type skipped", "why_tests_cant": "differences only show on malformed inputs of particular lengths", "anchors": ["runtime/src/protocol.rs: CompactThriftInputSlice::skip_integer", "runtime/src/uleb.rs: skip_uleb_sse2, skip_uleb_fallback"]}
{"id": "C17", "title": "Malformed input never panics or causes undefined behaviour", "statement": "For arbitrary bytes, read_thrift and skip_field return Ok or Err: no panic, no out-of-bounds access.", "quantifier": "every byte string, every schema, both build profiles, both input implementations", "why_tests_cant": "absence of failure over all byte strings", "anchors": ["runtime/src/protocol.rs", "runtime/src/uleb.rs", "runtime/src/types.rs"]}
{"id": "C18", "title": "Decoding terminates and only moves forward", "statement": "Decoding or skipping arbitrary finite input always terminates, and the unread remainder is a suffix of the input.", "quantifier": "every byte string, schema and wire type", "why_tests_cant": "termination over all inputs", "anchors": ["runtime/src/protocol.rs: skip_field", "runtime/src/macros.rs: fill_thrift loop", "runtime/src/uleb.rs: decode_uleb"]}
{"id": "C19", "title": "Decoding does not depend on bytes after the value", "statement": "If decoding succeeds on some input, then with arbitrary bytes appended it succeeds with the same value and the remainder is the old remainder followed by the appended bytes.", "quantifier": "every input, every appended byte string, every schema", "why_tests_cant": "all continuations; the 16-byte SIMD skip looks ahead", "anchors": ["runtime/src/uleb.rs: skip_uleb_sse2", "runtime/src/protocol.rs"]}
{"id": "C20", "title": "Read chunking and interruptions are invisible", "statement": "Decoding from a std::io::Read yields the same result and stops at the same byte no matter how the reader splits its data into short reads and no matter how many times it reports Interrupted.", "quantifier": "every schedule of short reads and interruptions, every byte string, every schema", "why_tests_cant": "all schedules", "anchors": ["runtime/src/protocol.rs: impl CompactThriftInput for R: Read"]}
{"id": "C21", "title": "Reader I/O failures are reported, never turned into values", "statement": "If the reader fails with some error kind before the value is complete, decoding returns IO of that kind; a failure after the value's last byte is never observed (no over-reading).", "quantifier": "every failure point, error kind, schedule, schema and value", "why_tests_cant": "all crash points", "anchors": ["runtime/src/protocol.rs: impl CompactThriftInput for R: Read", "runtime/src/error.rs: From<IOError>"]}
{"id": "C22", "title": "Truncated encodings are never accepted", "statement": "No proper prefix of a conforming encoding is decoded successfully; from a Read the result is the end-of-input error.", "quantifier": "every value, every encoding, every truncation point", "why_tests_cant": "all truncation points of all encodings", "anchors": ["runtime/src/protocol.rs", "runtime/src/types.rs"]}
{"id": "C23", "title": "Write chunking and interruptions are invisible", "statement": "If write_thrift succeeds on any std::io::Write, the bytes delivered are exactly those it writes into a Vec<u8>, regardless of short writes and interruptions.", "quantifier": "every schedule of short writes and interruptions, every value", "why_tests_cant": "all schedules", "anchors": ["runtime/src/protocol.rs: impl CompactThriftOutput for W: Write"]}
{"id": "C24", "title": "A failing writer receives a prefix and its error is returned", "statement": "If the sink fails during write_thrift, the bytes it accepted are a prefix of the complete encoding and the sink's error kind (or WriteZero) is returned.", "quantifier": "every failure point and schedule, every value", "why_tests_cant": "all crash points", "anchors": ["runtime/src/protocol.rs: impl CompactThriftOutput for W: Write", "runtime/src/types.rs: write_thrift"]}
{"id": "C25", "title": "Writing fails exactly on oversized or missing values", "statement": "write_thrift into a Vec<u8> succeeds iff no binary or string exceeds 16 MiB, no list exceeds 10,000,000 elements and no absent option stands where a value is mandatory; the error names which of these happened first.", "quantifier": "every schema and value", "why_tests_cant": "all values", "anchors": ["runtime/src/types.rs: write_thrift", "runtime/src/protocol.rs: write_binary"]}
{"id": "C26", "title": "Required fields are enforced", "statement": "read_thrift of a struct returns Ok only if every required field occurred in the input; an otherwise conforming encoding lacking required fields fails with MissingField naming the first missing one in declaration order.", "quantifier": "every struct schema, every input", "why_tests_cant": "all inputs and subsets of missing fields", "anchors": ["runtime/src/macros.rs: __thrift_required_flag, __thrift_required_set, __thrift_required_check"]}
{"id": "C27", "title": "A repeated optional field is rejected", "statement": "If an optional field occurs a second time in a struct, decoding fails with DuplicateField.", "quantifier": "every struct schema, every encoding with a repeated optional field", "why_tests_cant": "all positions and values", "anchors": ["runtime/src/types.rs: Option fill_thrift_field"]}
{"id": "C28", "title": "For a repeated required field the last occurrence wins", "statement": "When a required field of scalar or list type occurs several times, the decoded value is that of the last occurrence.", "quantifier": "every schema, every number and position of repetitions", "why_tests_cant": "all repetition patterns", "anchors": ["runtime/src/types.rs", "runtime/src/macros.rs: thrift_struct fill_thrift"]}
{"id": "C29", "title": "Fields of the wrong wire type are rejected", "statement": "If a declared field arrives with a wire type different from its declared one, decoding fails with InvalidType instead of misinterpreting the payload.", "quantifier": "every schema, field, wrong wire type, payload; struct fields and union variants", "why_tests_cant": "all payloads", "anchors": ["runtime/src/protocol.rs: fill_thrift_field", "runtime/src/types.rs: bool fill_thrift_field", "runtime/src/macros.rs: thrift_union fill_thrift"]}
{"id": "C30", "title": "List element types are checked; both boolean tags accepted", "statement": "A list whose header names another element type than the declared one is rejected with InvalidType before any element is read, except that boolean lists accept tags 1 and 2 with identical results.", "quantifier": "every element type, header, length and payload", "why_tests_cant": "all headers and payloads", "anchors": ["runtime/src/types.rs: Vec<P> fill_thrift"]}
{"id": "C31", "title": "Collection lengths are bounded", "statement": "No decoded list has more than 10,000,000 elements; a larger declared length is refused with InvalidCollectionLen before any element is read or space reserved, and likewise when skipping lists and maps.", "quantifier": "every declared length, every input", "why_tests_cant": "all u64 lengths", "anchors": ["runtime/src/protocol.rs: read_collection_len_and_type, read_map_len_and_types, MAX_COLLECTION_LEN"]}
{"id": "C32", "title": "Decoded values are always valid and can be written again", "statement": "Whatever bytes are accepted, the decoded value is in range for its type (integers in range, strings valid UTF-8, lists and binaries within limits, required fields populated), write_thrift accepts it, and (for round-trip-safe schemas) decoding that output gives the same value.", "quantifier": "every accepted byte string, every schema", "why_tests_cant": "all inputs", "anchors": ["runtime/src/types.rs", "runtime/src/protocol.rs"]}
{"id": "C33", "title": "Filling an existing object never mixes old and new contents", "statement": "fill_thrift into a Vec or scalar gives the same result whatever it held before; into an already present Option, or a shared Rc/Arc, it fails with DuplicateField, consumes nothing and changes nothing.", "quantifier": "every previous content, every input", "why_tests_cant": "all previous contents", "anchors": ["runtime/src/types.rs: Vec, Option, Rc, Arc fill_thrift"]}
{"id": "C34", "title": "Thrift sets interoperate", "statement": "A struct field declared as set is written with the set wire type and accepted when another implementation writes it with the set wire type.", "quantifier": "every set field and content", "why_tests_cant": "all set contents", "anchors": ["runtime/src/macros.rs: __thrift_field_type", "runtime/src/types.rs: Vec<P>::FIELD_TYPE"]}
{"id": "C35", "title": "A struct ends only at a zero stop byte", "statement": "Decoding a struct finishes only when a 0x00 byte is read in field-header position.", "quantifier": "every input", "why_tests_cant": "all header bytes at all positions", "anchors": ["runtime/src/protocol.rs: read_field_header"]}
{"id": "C36", "title": "Decoding needs bounded stack", "statement": "The recursion depth of skipping and decoding is bounded by a constant independent of the input.", "quantifier": "every input", "why_tests_cant": "depth grows with adversarial inputs of any size", "anchors": ["runtime/src/protocol.rs: skip_field, skip_collection, skip_map"]}
{"id": "C37", "title": "EncodingSet holds exactly the encodings of the list it was read from", "statement": "Reading a list<Encoding> as EncodingSet succeeds iff all values are in 0..=30, iterating yields exactly the distinct values in ascending order, len is their number; write then read returns the same set.", "quantifier": "every list of i32 values, every set", "why_tests_cant": "all lists and 2^31 sets", "anchors": ["parquet/src/encodings.rs: EncodingSet"]}
{"id": "C38", "title": "EncodingSet and Vec<Encoding> are wire compatible", "statement": "Bytes written from a Vec<Encoding> with values in 0..=30 read as the EncodingSet of its elements, and bytes written from an EncodingSet read as the Vec of its elements in ascending order.", "quantifier": "every list and every set", "why_tests_cant": "all lists and sets", "anchors": ["parquet/src/encodings.rs", "runtime/src/types.rs: Vec<P>"]}
{"id": "C39", "title": "get_metadata_chunk returns exactly the footer", "statement": "For a file, get_metadata_chunk returns Ok(m) iff the file ends with m, its length as 4 little-endian bytes, and PAR1; otherwise an error (InvalidMagic iff the last four bytes exist and are not PAR1).", "quantifier": "every file content", "why_tests_cant": "all files", "anchors": ["parquet/src/lib.rs: get_metadata_chunk"]}
{"id": "C40", "title": "The page index range is the tightest cover", "statement": "get_page_index_range returns the smallest byte range containing the offset and column indexes of every column that has both, None if there are none (or all are empty at one point), InvalidOffset iff such a column has a negative offset or length, and never overflows.", "quantifier": "every FileMetaData", "why_tests_cant": "all offsets and lengths", "anchors": ["parquet/src/lib.rs: get_page_index_range"]}
{"id": "C41", "title": "Page indexes are read from the right place", "statement": "For every column with both indexes, read_page_index on the chunk obtained by get_page_index_chunk returns the OffsetIndex and ColumnIndex decoded from exactly the bytes of the file at the recorded absolute offset and length, in row group and column order.", "quantifier": "every file and FileMetaData", "why_tests_cant": "all files and offsets", "anchors": ["parquet/src/lib.rs: get_page_index_chunk, read_page_index, read_page_index_for_column_chunk"]}
{"id": "C42", "title": "read_page_index does not panic on metadata accepted by get_page_index_range", "statement": "If get_page_index_chunk succeeds, read_page_index returns Ok or Err for the same metadata.", "quantifier": "every file and FileMetaData", "why_tests_cant": "all metadata", "anchors": ["parquet/src/lib.rs: read_page_index_for_column_chunk"]}
{"id": "C43", "title": "The schema tree is exactly the flattened element list", "statement": "convert_schema succeeds on a list of elements iff it is the pre-order flattening of a well-formed tree (each group announces its number of children), and the resulting tree flattens back to the list; nothing is dropped or reordered.", "quantifier": "every list of schema elements, every tree", "why_tests_cant": "all trees and malformed lists", "anchors": ["parquet/src/bin/schema.rs: convert_schema, convert_schema_inner, field_from_schema_element"]}
{"id": "C44", "title": "Leaf columns are numbered in order", "statement": "In a converted schema, the leaves in pre-order carry the indexes 0,1,2,...", "quantifier": "every accepted schema", "why_tests_cant": "all trees", "anchors": ["parquet/src/bin/schema.rs: field_from_schema_element"]}
{"id": "C45", "title": "Definition and repetition levels match the Parquet definition", "statement": "In a converted schema the repetition level of a node is the number of repeated nodes on its path, and its definition level is the number of optional or repeated nodes on its path (the level at which a value is non-null).", "quantifier": "every accepted schema and node", "why_tests_cant": "all trees", "anchors": ["parquet/src/bin/schema.rs: convert_schema_inner, CommonField"]}
{"id": "C46", "title": "Schema conversion is total and depth-limited", "statement": "convert_schema never panics or overflows, and rejects every schema nested deeper than its limit.", "quantifier": "every element list", "why_tests_cant": "all lists, including adversarial child counts", "anchors": ["parquet/src/bin/schema.rs: convert_schema_inner"]}
{"id": "C47", "title": "Physical and logical type conversion loses nothing", "statement": "DecimalOptions, IntegerOptions and FIXED_LEN_BYTE_ARRAY lengths hold exactly the accepted precision/scale/width/length; everything else is rejected, and unknown type ids are reported with their id.", "quantifier": "every i32 precision, scale, length, type id", "why_tests_cant": "all i32 pairs", "anchors": ["parquet/src/bin/schema.rs: DecimalOptions::try_new, IntegerOptions, PhysicalType::try_from_schema_element"]}
{"id": "C48", "title": "Path lookup finds the first matching field", "statement": "find_field_by_path follows, at each step, the first child with that name, returns the node itself for the empty path and None as soon as a step does not exist.", "quantifier": "every tree and path", "why_tests_cant": "all trees and paths", "anchors": ["parquet/src/bin/schema.rs: SchemaField::find_field_by_path"]}
{"id": "C49", "title": "Generator field ids", "statement": "The generator keeps every explicit field id, gives a field without id the previous field's id plus one, and emits every declared field exactly once.", "quantifier": "every field list of a struct or union", "why_tests_cant": "all field lists", "anchors": ["generator/src/main/java/net/jhorstmann/compactthrift/Parser.kt: mapStructOrUnionFields, mapInteger"]}
{"id": "C50", "title": "Generator lifetime annotations", "statement": "A generated type carries the borrow lifetime iff a string or binary is reachable from it through fields, lists, sets, maps, structs and unions, and computing this terminates.", "quantifier": "every document", "why_tests_cant": "all type graphs, including recursive ones", "anchors": ["generator/src/main/java/net/jhorstmann/compactthrift/Generator.kt: fieldNeedsLifeTime, definitionNeedsLifeTime"]}
{"id": "C51", "title": "Generated code implements the runtime trait", "statement": "For every struct, union and enum definition the generated impl provides the methods that the runtime trait requires.", "quantifier": "every definition", "why_tests_cant": "every document", "anchors": ["generator/src/main/java/net/jhorstmann/compactthrift/Generator.kt: visitStruct, visitUnion, visitEnum", "runtime/src/protocol.rs: CompactThriftProtocol"]}
{"id": "C52", "title": "Declared default values are honoured", "statement": "A field declared with a default value takes that value when it is absent from the input.", "quantifier": "every struct schema with defaults, every input lacking the field", "why_tests_cant": "all inputs", "anchors": ["runtime/src/macros.rs: thrift_struct default_value", "parquet/src/format.rs: DataPageHeaderV2.is_compressed, ColumnChunk.file_offset"]}
{"id": "C53", "title": "Error field names print as declared", "statement": "A FieldName built from a static nul-terminated string prints exactly the text before the first nul, and construction from a string not ending in nul panics instead of reading out of bounds.", "quantifier": "every static string", "why_tests_cant": "all strings", "anchors": ["runtime/src/error.rs: FieldName"]}
{"id": "C54", "title": "Open enums preserve unknown values", "statement": "Reading an enum field keeps any i32, including values the schema does not name, and writes it back unchanged.", "quantifier": "every i32, every enum", "why_tests_cant": "2^32 values", "anchors": ["runtime/src/macros.rs: thrift_enum"]}
{"id": "C55", "title": "A failed read yields no value and a failed fill is detectable", "statement": "read_thrift returns a value only on complete success; after a failed fill of an optional field a retry on the same object is refused with DuplicateField rather than silently merged.", "quantifier": "every failing input, every schema", "why_tests_cant": "all failing inputs", "anchors": ["runtime/src/protocol.rs: read_thrift", "runtime/src/types.rs: Option fill_thrift"]}
{"id": "C56", "title": "File failures are reported", "statement": "If the operating system fails a seek or read, get_metadata_chunk and get_page_index_chunk return either exactly what they return without failures or an Io error with the kind of one of the failures; never wrong data.", "quantifier": "every file, every sequence of failing operations", "why_tests_cant": "Tests use files that never fail; the sequence of failures is unbounded.", "anchors": ["parquet/src/lib.rs:38-57", "parquet/src/lib.rs:88-104"]}
{"id": "C57", "title": "Buffers are bounded by the file", "statement": "get_metadata_chunk and get_page_index_chunk never request more memory than the size of the file, so they never abort or panic if the allocator grants that much.", "quantifier": "every file, FileMetaData and allocator", "why_tests_cant": "Needs offsets and lengths near the integer limits; tests use one well-formed file.", "anchors": ["parquet/src/lib.rs:47-56", "parquet/src/lib.rs:92-98"]}
{"id": "C58", "title": "Decoded schemas convert without panics", "statement": "The schema of every FileMetaData that decodes from bytes converts to an error or to a tree of exactly the decoded elements, with leaves numbered in order, and never panics.", "quantifier": "every byte string that decodes as FileMetaData", "why_tests_cant": "all byte strings", "anchors": ["parquet/src/bin/schema.rs: convert_schema", "parquet/src/format.rs: FileMetaData, SchemaElement"]}
{"id": "C59", "title": "Field ids survive their byte representation", "statement": "FieldId stores an i32 field id as native-endian bytes and gives back the same id on little- and big-endian targets.", "quantifier": "every i32 and both byte orders", "why_tests_cant": "2^32 values and targets that tests do not run on", "anchors": ["parquet/src/bin/schema.rs: FieldId"]}
{"id": "C60", "title": "Errors print distinguishably", "statement": "Printing a ThriftError never panics or reads out of bounds, two different errors never print the same text, and a missing field of a parquet type prints as MissingField(\"Type::field\").", "quantifier": "every error value", "why_tests_cant": "all names and lengths", "anchors": ["runtime/src/error.rs: Display for ThriftError, Debug for FieldName", "runtime/src/macros.rs: MissingField"]}
{"id": "C61", "title": "Declarations get the right wire type", "statement": "A field declared in the macros with a type of the Thrift interface definition language gets the compact protocol's type code for that type and a Rust type with its wire format; format.rs expands to exactly the Parquet schema of the model.", "quantifier": "every field declaration and every schema", "why_tests_cant": "Tests only declare a handful of types; set, list<byte> and byte are never declared.", "anchors": ["runtime/src/macros.rs:251-260", "parquet/src/format.rs"]}
{"id": "C62", "title": "format.rs implements parquet.thrift", "statement": "Every encoding that conforms to the Parquet interface definition is read by the types of format.rs as the value it stands for, and whatever these types write conforms to the definition.", "quantifier": "every value of every type of parquet.thrift, every conforming encoding of it, every value of the Rust types", "why_tests_cant": "Tests read one file and never check what is written against the interface definition.", "anchors": ["parquet/src/format.rs", "generator/src/test/resources/parquet.thrift"]}
{"id": "C63", "title": "What is written is shortest", "statement": "No encoding that conforms to the compact protocol and stands for the same value is shorter than the one written.", "quantifier": "every schema whose booleans are not behind pointers nor union variants, every value whose field headers fit and every conforming encoding of it; every value of the Parquet types", "why_tests_cant": "The other encodings of a value (long field headers, padded varints, long list headers, unknown fields, other field orders) are unboundedly many.", "anchors": ["runtime/src/protocol.rs", "runtime/src/uleb.rs"]}
{"id": "C64", "title": "Encodings determine their values", "statement": "Two encodings with the same type of which one is a prefix of the other are equal and stand for the same value, both for conforming encodings and for what the writer produces; conversely values that differ only in being shared are written alike.", "quantifier": "every schema, every two values and every continuation of their encodings", "why_tests_cant": "A claim about every pair of values; tests compare a few encodings.", "anchors": ["runtime/src/protocol.rs", "runtime/src/macros.rs"]}
{"id": "C65", "title": "The printed schema determines the schema", "statement": "Two schemas are printed alike by schema.rs only if they have the same groups, columns, names, repetition and types. This holds when no name contains a space or a line feed, and is false in general: names are printed unquoted, so that one column can print like two.", "quantifier": "every two schema trees, in particular every two that schema.rs builds", "why_tests_cant": "A claim about all pairs of trees of any size, and about every name.", "anchors": ["parquet/src/bin/schema.rs"]}
{"id": "C66", "title": "schema.rs summarises the file", "statement": "For a Parquet file with conforming metadata and a well-formed schema schema.rs prints version, number of rows, creator and the schema of the file and ends normally; whenever it ends normally this is what it printed; it panics only by a failing unwrap or where decoding panics, the latter before anything is printed.", "quantifier": "every file content, every file metadata value, every well-formed schema tree", "why_tests_cant": "The program is run on one file only; the claim covers every byte string the file may hold.", "anchors": ["parquet/src/bin/schema.rs", "parquet/src/lib.rs"]}
{"id": "C67", "title": "The lexer divides the text into longest tokens", "statement": "The lexer produces exactly the division of the text into tokens in which every token is as long as possible; white space and comments between tokens change nothing, and every sequence of well-formed tokens has a text.", "quantifier": "every text, every sequence of tokens, every layout", "why_tests_cant": "Texts, comments and layouts are unboundedly many; the tests parse three documents.", "anchors": ["generator/src/main/antlr4/net/jhorstmann/compactthrift/Thrift.g4"]}
{"id": "C68", "title": "The parser accepts the grammar and is unambiguous", "statement": "The parser accepts exactly the token sequences that are documents of the grammar, reads each in the only possible way, and rejects everything else with a syntax error.", "quantifier": "every sequence of tokens, every document", "why_tests_cant": "Rejection and uniqueness concern every text, not the accepted examples.", "anchors": ["generator/src/main/antlr4/net/jhorstmann/compactthrift/Thrift.g4", "generator/src/main/java/net/jhorstmann/compactthrift/Parser.kt"]}
{"id": "C69", "title": "Documents and their texts", "statement": "A document has a text exactly if its names are identifiers that are no keywords and its numbers have digits; two layouts of the same tokens load as the same document; loading succeeds exactly for texts of the grammar whose headers and definitions are supported.", "quantifier": "every document tree and every text", "why_tests_cant": "A claim about all documents and all of their texts.", "anchors": ["generator/src/main/java/net/jhorstmann/compactthrift/Parser.kt"]}
{"id": "C70", "title": "The text of parquet.thrift", "statement": "The file parquet.thrift is a text of the grammar and loads as the document about which C61 and C62 speak.", "quantifier": "one file, character by character", "why_tests_cant": "The test only prints what the generator makes of the file.", "anchors": ["generator/src/test/resources/parquet.thrift"]}
{"id": "C71", "title": "Headers of thrift documents", "statement": "The Rust namespace is the last one declared for rust, or else the last one declared for all languages; every include becomes a use declaration. The second part is false: the quotes of the include are kept, so that no include becomes a valid declaration.", "quantifier": "every list of headers", "why_tests_cant": "The test documents contain no includes.", "anchors": ["generator/src/main/java/net/jhorstmann/compactthrift/Parser.kt", "generator/src/main/java/net/jhorstmann/compactthrift/Generator.kt"]}
{"id": "C72", "title": "Equality after a round trip", "statement": "A value that is written and read back compares equal (==, the derived PartialEq) to the original exactly if it contains no NaN; the same holds for two values with the same encoding. Equality is symmetric and transitive.", "quantifier": "every schema, every value, both inputs", "why_tests_cant": "The tests compare a few values and none contains a NaN.", "anchors": ["runtime/src/macros.rs:56", "runtime/src/macros.rs:131", "runtime/src/macros.rs:205", "parquet/src/encodings.rs:8"]}
{"id": "C73", "title": "Equal values have equal encodings", "statement": "Two values of a type that compare equal (==) are written as the same bytes. False: 0.0 and -0.0 are equal and have different encodings; it holds for all values without zeros among their doubles.", "quantifier": "every schema, every pair of values, every sink", "why_tests_cant": "The set of pairs is infinite and the exception is one pair of doubles.", "anchors": ["runtime/src/macros.rs:56", "runtime/src/types.rs"]}
{"id": "C74", "title": "Decoded values are no larger than their input", "statement": "The size of a decoded value (its parts, and the bytes of its strings and binaries) is at most a constant of the schema times the number of bytes it was decoded from; 17 for every type of the parquet crate.", "quantifier": "every schema, every input, both input implementations", "why_tests_cant": "No test feeds input made to blow up in memory.", "anchors": ["runtime/src/types.rs:188", "runtime/src/macros.rs:77", "runtime/src/macros.rs:148"]}
{"id": "C75", "title": "Space is requested in proportion to the input", "statement": "While decoding, the allocator is asked only for space in proportion to the length of the input. False: six bytes of metadata make try_reserve ask for ten million schema elements; no request exceeds that number.", "quantifier": "every input, every schema, every allocator", "why_tests_cant": "The tests decode well-formed files only.", "anchors": ["runtime/src/types.rs:200"]}
{"id": "C76", "title": "The text of format.rs is the modelled schema", "statement": "The file parquet/src/format.rs, divided into Rust tokens, is two use declarations and one call of thrift!, whose contents are exactly the declarations the model of the parquet types is made of.", "quantifier": "the one file; every way of reading it", "why_tests_cant": "The declarations are 1000 lines; the tests use a part of them.", "anchors": ["parquet/src/format.rs", "runtime/src/macros.rs:20"]}
{"id": "C77", "title": "thrift! accepts exactly its grammar", "statement": "A sequence of token trees is accepted by thrift! and the macros it calls if and only if it is a sequence of struct, union, enum and namespace declarations of the grammar, and its meaning is unique; no token fits two alternatives of a pattern.", "quantifier": "every text and every sequence of token trees", "why_tests_cant": "Tests of macros only contain input that is accepted.", "anchors": ["runtime/src/macros.rs:20", "runtime/src/macros.rs:53", "runtime/src/macros.rs:127", "runtime/src/macros.rs:202", "runtime/src/macros.rs:264"]}
{"id": "C78", "title": "The documented macro syntax is accepted", "statement": "Every struct and union of the documented syntax (requirement, element type, default, semicolon optional) is accepted. False: a struct field without requirement and a union field with one are rejected, and these are the only exceptions.", "quantifier": "every declaration of the documented syntax", "why_tests_cant": "A test with a rejected macro call does not compile.", "anchors": ["runtime/src/macros.rs:46", "runtime/src/macros.rs:118", "runtime/src/macros.rs:264"]}
{"id": "C79", "title": "The macro and the generator read the same text in the same way", "statement": "A text accepted by both the generator and thrift! declares the same structures. False: # starts a comment in one and an attribute in the other, comments nest in one only; and parquet.thrift itself is accepted by the generator only. True for every text without attributes and nested comments that gives no name twice.", "quantifier": "every text", "why_tests_cant": "The generator has no test that compares it with the macro.", "anchors": ["README.md:44", "generator/src/main/antlr4/net/jhorstmann/compactthrift/Thrift.g4", "runtime/src/macros.rs:20"]}
{"id": "C80", "title": "The debug output of a value tells the value", "statement": "Two values of a generated type are printed alike by {:?} or by {:#?} if and only if they are the same up to the sharing of Rc and Arc and the bits of NaNs; printed values can be separated again; {:#?} prints the lines of the indented notation.", "quantifier": "every schema with Rust identifiers as names, every type, every pair of values", "why_tests_cant": "No test looks at debug output; ambiguities of the notation need adversarial strings and names.", "anchors": ["runtime/src/macros.rs:56", "runtime/src/macros.rs:129", "runtime/src/macros.rs:204", "parquet/src/encodings.rs:35"]}
{"id": "C81", "title": "dump.rs prints the metadata of the file", "statement": "For a file with conforming metadata the program prints the lines of that metadata; whatever it prints without failing is the metadata obtained by decoding, files with the same output have the same metadata, and it prints nothing if it fails.", "quantifier": "every file below 2^(usize bits - 1) bytes", "why_tests_cant": "The example opens one file and is not run by tests.", "anchors": ["parquet/examples/dump.rs:6"]}
{"id": "C82", "title": "The text of the generated code", "statement": "For every thrift text that it accepts the generator prints the header, then for each definition, in order, exactly the code lines for that kind of definition with its names, ids, types, lifetimes and values filled in, then an empty test; the lines are determined by the document. It fails exactly where reading the text or generating a definition fails.", "quantifier": "every text, time of generation and stack depth", "why_tests_cant": "The generator has no test that looks at its output.", "anchors": ["generator/src/main/java/net/jhorstmann/compactthrift/Generator.kt:94", "generator/src/main/java/net/jhorstmann/compactthrift/Generator.kt:160", "generator/src/main/java/net/jhorstmann/compactthrift/Main.kt:7"]}
{"id": "C83", "title": "The names in generated code are usable", "statement": "Every item, field, constant and variant that generated code declares is named by a Rust identifier, a reference to a definition is spelled as its declaration, and no two names in one scope collide.", "quantifier": "every text that the generator accepts", "why_tests_cant": "Depends on arbitrary names; the generated code is never compiled by tests.", "anchors": ["generator/src/main/java/net/jhorstmann/compactthrift/Generator.kt:143", "generator/src/main/java/net/jhorstmann/compactthrift/Generator.kt:166", "generator/src/main/java/net/jhorstmann/compactthrift/Generator.kt:290"]}
{"id": "C84", "title": "The debug output of generated enums", "statement": "The Debug implementation of a generated enum never indexes out of bounds, shows a name declared for the value (the only one if values are distinct), __UNKNOWN exactly for undeclared values, and different values print differently.", "quantifier": "every enum, every value, every binary search that keeps its documented promise", "why_tests_cant": "The generated code is never run by tests; the choice of the binary search among equal keys is unspecified.", "anchors": ["generator/src/main/java/net/jhorstmann/compactthrift/Generator.kt:178", "generator/src/main/java/net/jhorstmann/compactthrift/Generator.kt:196"]}
{"id": "C85", "title": "Decoding errors say what they are about", "statement": "A MissingField error names a required field of a struct that occurs in the type being read, or a union that does; MissingStop only concerns types that contain a union, MissingValue is never returned by reading, and an InvalidBinaryLen carries a length above the limit.", "quantifier": "every schema, every type, every input, slices and readers", "why_tests_cant": "Tests do not look at the names in errors; the error of unions mentions a macro variable that is not bound, which the compiler accepts.", "anchors": ["runtime/src/macros.rs:166", "runtime/src/macros.rs:294", "runtime/src/error.rs:11"]}
{"id": "C86", "title": "Default values", "statement": "The default value of a type is unique and consists of zeros, empty lists and strings, absent options, default contents, default fields and the first variant of a union; it exists exactly if no endless chain of types need each other, which holds for every parquet type; reading a type without default overflows the stack before reading a byte.", "quantifier": "every schema, every type, every input", "why_tests_cant": "Tests only use types whose default exists.", "anchors": ["runtime/src/macros.rs:56", "runtime/src/macros.rs:138", "runtime/src/macros.rs:239", "runtime/src/protocol.rs:441"]}
{"id": "C87", "title": "A cleared object is as good as a new one", "statement": "Filling an object without optional contents, whatever its required parts hold, gives the same value or error and stops at the same place as reading a new one.", "quantifier": "every schema, every type, every such object, every input", "why_tests_cant": "Infinitely many old contents; tests always start from default values.", "anchors": ["runtime/src/macros.rs:77", "runtime/src/protocol.rs:441", "runtime/src/types.rs:191"]}
{"id": "C88", "title": "Rewriting never makes data longer", "statement": "A value read from any accepted bytes, whether or not they are a conforming encoding, is written successfully in at most as many bytes as were consumed.", "quantifier": "every input, every schema whose field ids can be written from the value, every parquet type", "why_tests_cant": "Infinitely many accepted inputs, including padded numbers, long headers, repeated required fields and unknown fields.", "anchors": ["runtime/src/protocol.rs:94", "runtime/src/protocol.rs:260", "runtime/src/uleb.rs:1", "runtime/src/macros.rs:77", "parquet/src/encodings.rs:45"]}
{"id": "C89", "title": "Work is paid for by input", "statement": "Decoding or skipping a value calls its input at most once per byte consumed, plus one call if it fails; every element of a decoded or skipped list consumes at least one byte and every entry of a skipped map at least two, so announced lengths alone never cause work.", "quantifier": "every schema, type, value, configuration and input, slice and reader", "why_tests_cant": "Crafted lengths and nestings are unbounded; a timing test only sees the inputs it tries.", "anchors": ["runtime/src/protocol.rs:36", "runtime/src/protocol.rs:94", "runtime/src/protocol.rs:143", "runtime/src/uleb.rs:1", "runtime/src/macros.rs:77"]}
{"id": "C90", "title": "Exactly which bytes are read as which value", "statement": "For every schema that Rust accepts there is a grammar that relates byte strings to values, such that reading succeeds with a value and a remainder exactly if the input is a related byte string followed by that remainder; the grammar covers all deviations from the compact protocol that are tolerated (overlong numbers, repeated and reordered fields, booleans under any wire type, unseen last bytes of skipped integers with SSE2), and no byte string stands for two values or is a prefix of another.", "quantifier": "every acceptable schema, type, configuration and input; slices, readers, filling and skipping", "why_tests_cant": "Both directions of an equivalence over all byte strings; tests can neither enumerate what must be accepted nor what must be rejected.", "anchors": ["runtime/src/protocol.rs:36", "runtime/src/protocol.rs:94", "runtime/src/protocol.rs:143", "runtime/src/protocol.rs:300", "runtime/src/macros.rs:77", "runtime/src/uleb.rs:1"]}
{"id": "C91", "title": "Binaries and strings are parts of the input", "statement": "The binaries and strings of a decoded value lie one after another, without overlap, in the bytes that were consumed: none is invented, altered, joined or used twice. Filling an existing object may in addition keep some that it had before.", "quantifier": "every acceptable schema, type, configuration and input, slice and reader", "why_tests_cant": "A misplaced or doubly used range shows up only for particular combinations of lengths, nesting and field order.", "anchors": ["runtime/src/protocol.rs:36", "runtime/src/protocol.rs:300", "runtime/src/types.rs:140", "runtime/src/macros.rs:77"]}
{"id": "C92", "title": "Exactly which input is refused with which error", "statement": "For every schema that Rust accepts there is a relation between byte strings and faults (an error or a panic), defined without the decoder, such that decoding ends with an error or a panic exactly if the relation holds between the input and that fault. Every input is either accepted or refused, and refused for exactly one reason: the first fault counts.", "quantifier": "every acceptable schema, type, configuration and input; slices, readers, filling and skipping", "why_tests_cant": "Both directions of an equivalence over all byte strings and all errors; tests check that some malformed inputs fail, not which error each malformed input gives.", "anchors": ["runtime/src/protocol.rs:36", "runtime/src/protocol.rs:94", "runtime/src/protocol.rs:143", "runtime/src/protocol.rs:300", "runtime/src/macros.rs:77", "runtime/src/types.rs:191", "runtime/src/uleb.rs:1"]}
{"id": "C93", "title": "Enum constants and their order", "statement": "The constants that thrift! defines for an enum have the declared values and no others exist; each is written as the shortest encoding of its number and read back from it; the derived order, equality and hash are those of the numbers; the enums of format.rs have the constants of parquet.thrift.", "quantifier": "every text accepted by thrift!, every enum and constant in it, every value of an enum including undeclared ones; all enums of the two files", "why_tests_cant": "a test lists some constants of some enums; the theorem covers every declaration that the macro accepts and every i32", "anchors": ["runtime/src/macros.rs:202-222", "parquet/src/format.rs", "generator/src/test/resources/parquet.thrift"]}
{"id": "C94", "title": "Constructors keep their arguments", "statement": "The constructor of a struct puts every argument into the field of the same position, wrapped in an option or pointer or as a wider number but otherwise unchanged; the result is a value of the struct, every value of the struct can be made, and an optional field can be given without Some.", "quantifier": "every struct, every list of arguments for which the call compiles by the modelled conversions", "why_tests_cant": "the one test calls one constructor and does not look at the result", "anchors": ["runtime/src/macros.rs:63-70"]}
{"id": "C95", "title": "Values one after another", "statement": "Byte strings that are each read to their end as a value can be put one after another: reading repeatedly from one slice or reader returns these values in order and stops after the last, whatever follows. Conversely everything that is read repeatedly is made of such byte strings, in one way. Writing repeatedly appends the encodings up to the first failure.", "quantifier": "all lists of types, values and byte strings, all schemas, all platforms, all chunkings of the reader", "why_tests_cant": "the tests read one value from one slice; that no value looks at the bytes of the next is a statement about all pairs of encodings", "anchors": ["runtime/src/protocol.rs:435-461"]}
{"id": "C96", "title": "Reading and skipping stay in step", "statement": "A value that is read from an input leaves the input at the place where skipping the value by its wire type would have left it, so a reader that knows the type and a reader that does not stay in step on the same bytes.", "quantifier": "all byte strings that are read, all types, all schemas, all platforms, all chunkings of the reader", "why_tests_cant": "the tests skip two lists that were written by the library itself; the agreement is about every input that is read, including those no writer produces", "anchors": ["runtime/src/protocol.rs:83-93", "runtime/src/protocol.rs:148-255", "runtime/src/macros.rs:78-104", "runtime/src/uleb.rs:24-45"]}
{"id": "C97", "title": "The macros' statements compute the modelled methods", "statement": "The bodies of fill_thrift and write_thrift that thrift_struct!, thrift_union! and thrift_enum! expand to, executed statement by statement (variables, blocks, loop, match with fallback, early return by ?), leave the same input or output, the same value in self and the same result as the modelled methods, for every declaration with distinct names.", "quantifier": "all declarations, all inputs and outputs, all values of self, all platforms", "why_tests_cant": "the tests run a handful of declarations; the correspondence of the expansion and its meaning is about every declaration and every state", "anchors": ["runtime/src/macros.rs:77-109", "runtime/src/macros.rs:148-184", "runtime/src/macros.rs:224-232", "runtime/src/macros.rs:275-298"]}
{"id": "C98", "title": "The generator's code does what the macros' code does", "statement": "The lines that the generator prints for the methods fill and write of a struct, union or enum are the text of statements which, executed, leave the same input or output, the same value and the same result as the methods that the macros produce from a declaration with the same ids, names and required fields.", "quantifier": "all documents, all declarations, all inputs and outputs, all values of self, all platforms", "why_tests_cant": "no test of the repository runs generated code against macro code; the agreement is about every document and every input", "anchors": ["generator/src/main/java/net/jhorstmann/compactthrift/Generator.kt:248-352", "runtime/src/macros.rs:77-184"]}
{"id": "C99", "title": "The text of macros.rs expands to the modelled items and methods", "statement": "The rules that stand in the text of macros.rs, applied to any text that the model of thrift! accepts, expand to Rust items of which there is exactly one reading: for a struct its fields with their types, the constructor and the methods; for a union its variants, the default and the methods; for an enum the number, the conversion, the constants and the methods; in the order of the declarations, with the statements that C97 interprets, and with the attributes of the declaration.", "quantifier": "all sequences of declarations (unions with at least one variant)", "why_tests_cant": "a test expands a few declarations; that the expansion has the intended parts for every number and kind of fields, ids and attributes is about all of them", "anchors": ["runtime/src/macros.rs:20-38", "runtime/src/macros.rs:53-111", "runtime/src/macros.rs:127-186", "runtime/src/macros.rs:202-234", "runtime/src/macros.rs:236-298"]}
{"id": "C100", "title": "The text of macros.rs expands to methods that behave as modelled", "statement": "For every text of declarations and whatever its expansion by the rules in the text of macros.rs is read as, the statements of the methods in it compute fill_thrift and write_thrift of Types.v, FIELD_TYPE is the modelled number, and every declared type has these methods.", "quantifier": "all sequences of declarations with different names, all values of the declared types, all inputs and outputs", "why_tests_cant": "tests run a few expanded types on a few inputs; the link from the text of the macros to the behaviour is for all of both", "anchors": ["runtime/src/macros.rs:53-111", "runtime/src/macros.rs:127-186", "runtime/src/macros.rs:202-234"]}
{"id": "C101", "title": "The text of uleb.rs and protocol.rs does what the model says", "statement": "The functions that stand in the text of uleb.rs and protocol.rs, read and interpreted statement by statement, compute the functions of the model: for any implementation of CompactThriftInput with the five required methods, for the one for slices, for the one for io::Read and for the one for io::Write, every method and every free function returns the same value or error, leaves the same input or output and the same &mut arguments, and panics in the same cases; the three functions that skip values agree at every depth of nesting. What the text of write_i64 writes, the text of read_i64 reads.", "quantifier": "all states of all inputs and outputs, all arguments of the right types, both settings of overflow checks, both targets (with and without SSE2), 32 and 64 bit usize", "why_tests_cant": "tests run the compiled code on a few inputs; that no line of the text differs from the model on any input is about all of them", "anchors": ["runtime/src/uleb.rs:5-93", "runtime/src/protocol.rs:30-530"]}
{"id": "C102", "title": "The text of types.rs and encodings.rs does what the model says", "statement": "The implementations of CompactThriftProtocol in the text of types.rs and for EncodingSet in encodings.rs, and the three methods with a body in the trait, read and interpreted statement by statement, compute fill, fill_field, read_thrift and the writers of Types.v: same value left in the receiver, same input or output, same result or panic, for elements of any type. FIELD_TYPE of every implementation is the number of the model, and bool and Option are the only implementations with methods for fields of their own.", "quantifier": "all 19 implementations, all values, all element types, all inputs and outputs, both settings of overflow checks, 32 and 64 bit usize", "why_tests_cant": "tests run the compiled code on a few values; that no statement of the text differs from the model is about all values, element types and failing inputs", "anchors": ["runtime/src/types.rs:24-374", "parquet/src/encodings.rs:12-78", "runtime/src/protocol.rs:430-461"]}
{"id": "C103", "title": "The text of the whole runtime, run as one program, reads and writes what the model does", "statement": "With the methods of types.rs and encodings.rs calling those of their element types, the methods that macros.rs expands to calling those of the fields, and all of them calling the functions of protocol.rs and uleb.rs, each interpreted from its text, read_thrift and write_thrift of every type return the same value or error as the model, leave the same rest of the input or the same output and panic in the same cases; hence, under the conditions of C12, what the text writes the text reads back, and its panics on slices are those of C17. The methods used for the declared types are those to which the text of macros.rs expands.", "quantifier": "all closed sets of definitions without two fields of one name in a type, all types, all slices and readers, all typed values, any output, owned and borrowed representations, all configurations", "why_tests_cant": "a test runs the compiled program on some inputs; that the recursion through all element and field types keeps the text and the model together is an induction over nesting and input", "anchors": ["runtime/src/types.rs:24-374", "runtime/src/protocol.rs:20-461", "runtime/src/uleb.rs", "runtime/src/macros.rs:60-240", "parquet/src/encodings.rs:12-78"]}
{"id": "C104", "title": "The text of the footer and page index functions does what the model says", "statement": "The five functions of parquet/src/lib.rs, interpreted from their text (get_metadata_chunk, get_page_index_range, get_page_index_chunk, read_page_index and the function it calls), return the same results and errors as the functions of Footer.v, leave the file in the same state and panic in the same cases; hence the text of get_metadata_chunk returns m exactly for the files that end with m, its length and PAR1, and the text of get_page_index_range does not panic with 64-bit usize.", "quantifier": "all files, contents and I/O faults, all values of type FileMetaData, all chunks and offsets, any allocator, all configurations", "why_tests_cant": "a test runs the compiled functions on a few files; agreement of the text with the model for every file, fault and metadata is an induction over row groups and columns and a case analysis over every early return", "anchors": ["parquet/src/lib.rs:37-144"]}
