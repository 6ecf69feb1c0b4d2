# Formal model of compact-thrift in Rocq (Coq 8.16.1)

Sources: `/repo` (Rust runtime crate, Rust parquet crate, Kotlin generator), read as text, never built or run.
Everything lives in `rocq/theories/`, logical name `Verif`.

## Layers

| layer | files | content |
|---|---|---|
| model | `Base.v`, `Uleb.v`, `Utf8.v`, `Protocol.v`, `Types.v`, `Encodings.v`, `Parquet.v`, `Footer.v`, `SchemaTree.v`, `ErrorName.v`, `Macro.v`, `FormatRs.v`, `Generator.v`, `ParquetIdl.v`, `SchemaPrint.v`, `Debug.v`, `ThriftLex.v`, `ThriftParse.v`, `ParquetThrift.v`, `Equality.v`, `RustLex.v`, `RustMacro.v`, `FormatText.v`, `GenText.v`, `GenDebug.v`, `Items.v`, `RustCode.v`, `GenCode.v` | executable Gallina, one definition per Rust/Kotlin function, each citing file and lines |
| specification | `Spec*.v`, `Schema.v`, `Typing.v` | the compact protocol as relations on byte lists, UTF-8, the thrift language, parquet notions, side conditions on schemas; mentions no reading, writing or generating function |
| sample data | `SampleFile.v`, `SampleSchema.v`, `ModelTests.v` | concrete inputs for the non-vacuity examples, and the unit tests of `/repo` replayed on the model |
| proofs | `P_*.v` | lemmas |
| theorems | `Properties*.v` | one theorem per claim, closed by `exact`, with `Print Assumptions`, plus non-vacuity `Example`s |

Naming: `Cnn_…` states property Cnn of `properties.jsonl`. A theorem with suffix `_partial` has extra hypotheses, the
property itself being false or open without them; `_refuted` gives a witness against the property as stated.

## Trusted base

* Coq's kernel, including `vm_compute` (used to evaluate the model on concrete schemas and inputs).
* Axioms: none. `Print Assumptions` answers `Closed under the global context` beneath every theorem in `Properties*.v`.
  No file declares an axiom, parameter or section-less variable. `lia`, `ring` and the other tactics of the standard
  library produce ordinary proof terms. Seven axioms named `Coq.ssr.ssrunder.Under_rel.*` are loaded with the standard
  library by `coqchk`; no theorem depends on them.
* That the model describes the code. It was written by reading the source; nothing is extracted from or compared with a
  running program. `FormatRs.v` and `ParquetIdl.v` were transcribed from the source text by a script, `Parquet.v`
  independently by hand; `C61_format` proves that the two views of `format.rs` agree, `C76_format` that `FormatRs.v` is what
  `thrift!` reads from the text of `format.rs` (`FormatText.v`, a copy of the file). That
  ANTLR's adaptive LL(*) parser decides as one token of lookahead does is taken from the grammar being LL(1) (the proof of
  C68 shows that it is).
* That the specification files say what is meant. They are short and can be read on their own.

## Modelling decisions

* A `Result<T, ThriftError>` of a function that takes `&mut` state becomes `state * outcome T`, the state being returned
  also on failure (the position of the input and the half-filled target are observable). `outcome` is
  `Ok | Err error | Panic reason`. Panics (index out of range, arithmetic overflow in checked builds, failed asserts),
  undefined behaviour (`get_unchecked` out of range), stack exhaustion, failed allocation and non-termination are
  explicit `Panic` reasons. `PIllTyped` marks uses of the untyped value representation that Rust's type checker excludes;
  theorems about typed values show it does not occur.
* Machine integers are `Z` with explicit wrap-around (`wrapu`, `wraps`). A configuration record `cfg` carries the build
  profile (`overflow_checks`), the `sse2` target feature, the pointer width (32 or 64) and an allocator oracle for
  `try_reserve`. Theorems quantify over `cfg` unless they name one.
* The trait `CompactThriftInput` is a record of operations over an abstract state; the slice and the blanket `Read`
  implementations are two instances. A `Read` is an arbitrary finite script of short reads, interruptions and failures,
  with the default `read_exact` of std on top. A `Write` is an arbitrary script of short writes, interruptions, failures,
  with the default `write_all` of std on top.
* Rust types are codes (`ty`) over an environment of named definitions (what the `thrift!` macro expands to), so that
  `fill_thrift`, `fill_thrift_field`, `write_thrift`, `write_thrift_field`, `Default::default` are each one function over
  type codes. Environments may be recursive; recursion depth is an explicit parameter whose exhaustion is the
  `PStack` outcome (stack overflow). One unit of depth is one call of a trait method.
* f64 is its 64-bit pattern. Strings are their UTF-8 bytes. An `io::Error` is its kind.
* A file (`Footer.v`) is a byte list plus a script of failures for `seek` and `read`.
* Kotlin: `kotlin A` is a result or an exception; ANTLR's lexer is longest match over regular expressions (derivatives), its parser a recursive descent with one token of
  lookahead; recursion limited by a depth
  parameter whose exhaustion is `StackOverflowError`.
* Rust's tokens (`RustLex.v`): names, decimal and hexadecimal numbers, fractions, plain strings, punctuation, brackets,
  nested comments, doc comments as attributes. Texts with anything else (character literals, lifetimes, raw or byte strings, raw
  identifiers, number suffixes, exponents, octal and binary numbers, characters outside ASCII other than in comments and strings) count as
  rejected, so C77 speaks about texts without them. The patterns of `macro_rules!` are data (`RustMacro.v`); a repetition continues while its
  next token can start it, which is what the compiler does as long as no token fits two alternatives (`C77_one_way`). A
  declaration counts as accepted if the pattern matches and the expansion finds a rule for each part; whether the named
  types exist and the expanded items type-check is the business of `Macro.v` and the rest.

## What is modelled

| source | modelled in | left out |
|---|---|---|
| `runtime/src/uleb.rs` | `Uleb.v` | |
| `runtime/src/protocol.rs` | `Protocol.v` | |
| `runtime/src/types.rs` | `Types.v` | `Rc` and `Arc` are one type former (shared pointer); reference counts |
| `runtime/src/macros.rs` | `Types.v` (behaviour), `Macro.v` (which type a declaration expands to), `RustMacro.v` (the patterns and which tokens they accept), `Equality.v` (`PartialEq`), `Debug.v` (`Debug`), `Items.v` (constants and order of enums, `new`), `RustCode.v` (the method bodies as statements), `MacrosText.v` (the text), `MacroRules.v` (how the rules in the text match and transcribe) | the effect of attributes, the recursion limit of the compiler (`MacroRules.v` expands to any depth), macros called in the text of others in steps (they are expanded where they stand), names of local variables (those of the text are marked with a prime), `Clone`, conversions to `f64` and between collections in calls of `new`; `stringify!` of the unbound `$struct_name` in unions is taken to be that text |
| `runtime/src/error.rs` | `Base.v`, `ErrorName.v` | formatter options (width, precision, `#`); the replacement text of lossy UTF-8 conversion is abstract; the `Error` trait (empty implementation) |
| `runtime/src/lib.rs` | examples in `ModelTests.v` | documentation, tests as such |
| `parquet/src/encodings.rs` | `Encodings.v`, `Debug.v` (`Debug`) | |
| `parquet/src/format.rs` | `Parquet.v`, `FormatRs.v`, `FormatText.v` (the text) | |
| `parquet/src/lib.rs` | `Footer.v`; text of lines 37-144 in `LibText.v` (C104) | contents of the uninitialised part of a buffer between `set_len`/`with_capacity` and the read that fills it |
| `parquet/src/bin/schema.rs` | `SchemaTree.v`, `SchemaPrint.v` (printing, `main`) | opening the file, failures of the standard output, the message of a failing `unwrap` |
| `generator/…/Parser.kt`, `Visitor.kt`, `Domain.kt`, `Generator.kt` | `Generator.v` (items), `GenText.v` (text), `GenDebug.v` (what the `Debug` of a generated enum prints), `GenCode.v` (the method bodies as statements) | constants; the time of generation is a parameter; the line separator is that of Unix; whether the generated text compiles, beyond C51 and C83 |
| `Parser.kt` headers, `visitHeader` | `ThriftParse.v` | |
| `generator/…/Thrift.g4` | `ThriftLex.v`, `ThriftParse.v`, parse trees in `Generator.v` | the values of constants and defaults; positions and messages of syntax errors |
| `generator/…/parquet.thrift` | `ParquetThrift.v` (the text), `ParquetIdl.v` (the parse tree; C70 proves that they agree) | |
| `parquet/examples/dump.rs` | `Debug.v` | opening the file, failures of the standard output, the message of a failing `unwrap` |
| `generator/…/Main.kt` | `GenText.v` (`main`) | reading the file |
| benches | – | everything |

Of the Rust standard library the model contains `from_utf8` (checked against Unicode's definition, `SpecUtf8.v`),
the builders behind derived `Debug` and the escapes of `Debug for str` (which characters are printable and how a double
prints are parameters), `read_exact`, `write_all`, `Vec::extend`, `try_reserve` (as an oracle), `zip`, integer operations, `binary_search_by_key` by its documented promise only (C84), and the names of
`ErrorKind` variants as an abstract function. SSE2 intrinsics are modelled by their documented lane-wise meaning.
Of Kotlin's standard library it contains `trimIndent`, `lines`, `isWhitespace`, `appendln`, `joinToString`, `sortedBy` and
`toInt`. The raw strings of `Generator.kt` were transcribed by a script.

## Properties

All in `Properties*.v`. The same list is in `MANIFEST.json`.

| id | claim | status | theorems | remarks |
|---|---|---|---|---|
| C01 | Varint lengths round-trip and are self-delimiting | proved | `C01_len_roundtrip` | usize of the target; both input implementations |
| C02 | i16, i32 and i64 round-trip exactly | proved | `C02_i16_roundtrip`, `C02_i32_roundtrip`, `C02_i64_roundtrip` |  |
| C03 | Integers are written in the canonical, minimal compact-protocol form | proved | `C03_canonical` |  |
| C04 | Any well-formed varint of up to ten bytes decodes to the number it denotes | partial | `C04_varint_partial`, `C04_padded_partial`, `C04_refuted`, `C04_any_length`, `C04_overlaid`, `C04_overflow` | proved up to ten bytes, and for any length when the number fits; false for longer sequences (C04_refuted), for which C04_any_length states the number that is read |
| C05 | Out-of-range integers are not silently changed | partial | `C05_i16_truncates`, `C05_i32_truncates`, `C05_refuted` | false of the code: values are truncated (exact behaviour proved, witness in C05_refuted) |
| C06 | Doubles round-trip bit for bit | proved | `C06_double_roundtrip` |  |
| C07 | Binaries round-trip up to the limit and are rejected above it | partial | `C07_binary_roundtrip`, `C07_write_limit`, `C07_read_limit`, `C07_read_limit_32bit_refuted` | full on 64-bit targets; on 32-bit targets the read limit is false for lengths above 2^32 (witness) |
| C08 | read_string accepts exactly the valid UTF-8 strings | proved | `C08_read_string`, `C08_string_roundtrip` |  |
| C09 | Field headers round-trip | partial | `C09_header_exact`, `C09_refuted` | exact characterisation proved; the unrestricted claim is false (witness) |
| C10 | The writer emits bytes that conform to the compact protocol | partial | `C10_write_conforms_partial`, `C10_schema_partial`, `C10_refuted` | schemas without boolean union variants or pointers to booleans, values whose present fields are within header reach of each other; false outside |
| C11 | The reader accepts every conforming encoding of a value | partial | `C11_read_conforming_partial`, `C11_pointer_refuted`, `C11_union_refuted` | schemas without boolean union variants or pointers to booleans; false outside |
| C12 | Write then read returns the same value | partial | `C12_write_read_partial`, `C12_gap_refuted` | schemas without boolean union variants, values whose present fields are within header reach of each other; false outside |
| C13 | Parquet metadata round-trips | proved | `C13_parquet_write_read` | all parquet types of the crate, conformance included |
| C14 | Unknown fields are ignored (schema evolution) | partial | `C14_read_partial`, `C14_written_partial`, `C14_project`, `C14_refuted` | every pair of compatible schemas without booleans behind pointers; false with them (refuted), as C10/C12 |
| C15 | Skipping consumes exactly one value | proved | `C15_skip_exact` |  |
| C16 | Slice and Read inputs agree on every input | partial | `C16_read_partial`, `C16_skip_partial`, `C16_read_sse2_partial`, `C16_skip_sse2_partial`, `C16_read_refuted`, `C16_skip_refuted`, `C16_integer_sse2`, `C16_integer_plain` | full for targets without the SSE2 skip, and with it for inputs without long continuation runs; false outside (witnesses); C16_integer_sse2 states what the SSE2 skip does to every slice |
| C17 | Malformed input never panics or causes undefined behaviour | partial | `C17_read_slice_partial`, `C17_read_reader_partial`, `C17_skip_slice_partial`, `C17_skip_reader_partial`, `C17_refuted`, `C17_varint_refuted` | the exact panics that remain possible are proved; witnesses that each of them happens |
| C18 | Decoding terminates and only moves forward | proved | `C18_read_slice`, `C18_read_reader`, `C18_skip_slice`, `C18_skip_reader` |  |
| C19 | Decoding does not depend on bytes after the value | proved | `C19_read_slice`, `C19_skip_slice`, `C19_read_reader` |  |
| C20 | Read chunking and interruptions are invisible | proved | `C20_read`, `C20_skip` |  |
| C21 | Reader I/O failures are reported, never turned into values | proved | `C21_truncated`, `C21_not_observed` |  |
| C22 | Truncated encodings are never accepted | proved | `C22_truncated_write`, `C21_truncated` |  |
| C23 | Write chunking and interruptions are invisible | proved | `C23_write_success`, `C23_write_healthy`, `C23_vec_appends` |  |
| C24 | A failing writer receives a prefix and its error is returned | proved | `C24_sink_failure` |  |
| C25 | Writing fails exactly on oversized or missing values | proved | `C25_write_outcome` |  |
| C26 | Required fields are enforced | proved | `C26_occurred`, `C26_missing` |  |
| C27 | A repeated optional field is rejected | proved | `C27_duplicate` | schemas without boolean union variants or pointers to booleans |
| C28 | For a repeated required field the last occurrence wins | proved | `C28_last_wins` | schemas without boolean union variants or pointers to booleans; also unions |
| C29 | Fields of the wrong wire type are rejected | partial | `C29_struct_partial`, `C29_union_refuted`, `C29_refuted` | proved for struct fields other than booleans; false for booleans and union variants |
| C30 | List element types are checked; both boolean tags accepted | proved | `C30_wrong_element`, `C30_wrong_encoding`, `C30_bool_tags`, `C30_bool_elements` |  |
| C31 | Collection lengths are bounded | partial | `C31_refused_partial`, `C31_slice_bounded`, `C31_reader_bounded`, `C31_32bit_refuted` | full on 64-bit targets; with 32-bit pointers lengths above 2^32 are truncated (witness) |
| C32 | Decoded values are always valid and can be written again | proved | `C32_slice_valid`, `C32_reader_valid`, `C32_slice_rewritten`, `C32_reader_rewritten` |  |
| C33 | Filling an existing object never mixes old and new contents | proved | `C33_replaced`, `C33_occupied` |  |
| C34 | Thrift sets interoperate | partial | `C34_read_refuted`, `C34_refuted` | false of the code: sets are treated as lists |
| C35 | A struct ends only at a zero stop byte | partial | `C35_partial`, `C35_union`, `C35_refuted` | false of the code: any byte with a zero type nibble ends a struct, and nothing else (both proved) |
| C36 | Decoding needs bounded stack | partial | `C36_refuted`, `C36_skip_refuted` | false of the code: every depth is exceeded by some input |
| C37 | EncodingSet holds exactly the encodings of the list it was read from | proved | `C37_iter`, `C37_read`, `C37_reject`, `C37_reject_type`, `C37_kept`, `C37_roundtrip` |  |
| C38 | EncodingSet and Vec<Encoding> are wire compatible | proved | `C38_vec_to_set`, `C38_set_to_vec` |  |
| C39 | get_metadata_chunk returns exactly the footer | partial | `C39_ok`, `C39_magic_partial`, `C39_otherwise`, `C39_refuted` | Ok iff proved for all files; InvalidMagic iff proved for files of at least 8 bytes, false for 4 to 7 bytes (witness) |
| C40 | The page index range is the tightest cover | partial | `C40_some_partial`, `C40_none_partial`, `C40_error_partial`, `C40_no_panic_partial`, `C40_decoded`, `C40_typed`, `C40_refuted`, `C40_overflow_refuted` | full on 64-bit targets; false with 32-bit pointers (witnesses) |
| C41 | Page indexes are read from the right place | proved | `C41_chunk`, `C41_indexes`, `C41_complete` | 64-bit targets |
| C42 | read_page_index does not panic on metadata accepted by get_page_index_range | partial | `C42_partial`, `C42_refuted`, `C42_before_refuted` | false of the code: assertions fail for empty indexes and for offset indexes before the chunk; otherwise only the decoding panics of C17 |
| C43 | The schema tree is exactly the flattened element list | proved | `C43_accepts`, `C43_represents`, `C43_unique` |  |
| C44 | Leaf columns are numbered in order | partial | `C44_partial`, `C44_modulo`, `C58_decoded` | full for every decoded schema and every list of at most 2^32 elements; longer lists number modulo 2^32 |
| C45 | Definition and repetition levels match the Parquet definition | partial | `C45_partial`, `C45_refuted` | repetition levels proved; definition levels count optional nodes only, which contradicts the Parquet definition (witness) |
| C46 | Schema conversion is total and depth-limited | proved | `C46_no_panic`, `C46_too_deep` | given stack for 128 calls and memory for as many fields as there are elements |
| C47 | Physical and logical type conversion loses nothing | proved | `C47_decimal`, `C47_integer`, `C47_physical`, `C47_logical`, `C47_converted`, `C47_group`, `C47_repetition`, `C47_unknown`, `C47_no_panic` |  |
| C48 | Path lookup finds the first matching field | proved | `C48_find`, `C48_none` |  |
| C49 | Generator field ids | partial | `C49_partial`, `C49_sound`, `C49_specified`, `C49_names`, `C49_refuted` | for distinct field names and 16 bit ids; a repeated name drops a declared field |
| C50 | Generator lifetime annotations | partial | `C50_lifetime`, `C50_field`, `C50_terminates_partial`, `C50_terminates_refuted`, `C50_only_overflow` | terminates for documents without recursive types; a recursive type that borrows nothing overflows every stack |
| C51 | Generated code implements the runtime trait | partial | `C51_refuted`, `C51_partial`, `C51_field_type` | false for every definition: fill and write are generated, fill_thrift and write_thrift required; only FIELD_TYPE is right |
| C52 | Declared default values are honoured | partial | `C52_refuted` | false of the code: declared defaults are ignored |
| C53 | Error field names print as declared | proved | `C53_display`, `C53_cstr`, `C53_panics`, `C53_in_bounds` |  |
| C54 | Open enums preserve unknown values | proved | `C54_enum` |  |
| C55 | A failed read yields no value and a failed fill is detectable | proved | `C55_retry`, `C55_retry_field` |  |
| C56 | File failures are reported | proved | `C56_metadata`, `C56_page_index` |  |
| C57 | Buffers are bounded by the file | partial | `C57_metadata`, `C57_refuted`, `C57_capacity_refuted` | proved for get_metadata_chunk, false for get_page_index_chunk |
| C58 | Decoded schemas convert without panics | proved | `C58_decoded`, `C58_ranges`, `C58_names`, `C58_decoded_names` |  |
| C59 | Field ids survive their byte representation | proved | `C59_field_id` |  |
| C60 | Errors print distinguishably | proved | `C60_total`, `C60_text`, `C60_one_text`, `C60_distinct`, `C60_parquet` | given that std's ErrorKind variants have different names |
| C61 | Declarations get the right wire type | partial | `C61_partial`, `C61_refuted`, `C61_format` | sets are sent as lists, lists of bytes as binary, and byte does not compile |
| C62 | format.rs implements parquet.thrift | partial | `C62_read_partial`, `C62_write_partial`, `C62_write_refuted`, `C62_read_any`, `C62_write_any` | reading: lists of encodings within 0..=30; writing: types that reach ColumnMetaData do not conform because path_in_schema is left out (witness) |
| C63 | What is written is shortest | proved | `C63_shortest`, `C63_parquet` | for schemas and values of which C10 holds |
| C64 | Encodings determine their values | proved | `C64_conforming`, `C64_written`, `C64_sharing` | for the schemas of C10 and C12 |
| C65 | The printed schema determines the schema | partial | `C65_partial`, `C65_lines`, `C65_converted`, `C65_refuted` | holds for names without space and line feed; false otherwise (witness) |
| C66 | schema.rs summarises the file | proved | `C66_prints`, `C66_finished`, `C66_panics`, `C66_total`, `C66_names` | a failing unwrap is the outcome PErr, not one of the panics of C66_panics |
| C67 | The lexer divides the text into longest tokens | proved | `C67_tokens`, `C67_layout`, `C67_written` |  |
| C68 | The parser accepts the grammar and is unambiguous | proved | `C68_grammar`, `C68_complete`, `C68_rejects`, `C68_unambiguous` |  |
| C69 | Documents and their texts | proved | `C69_expressible`, `C69_layout`, `C69_load`, `C69_syntax` |  |
| C70 | The text of parquet.thrift | proved | `C70_parquet`, `C70_loaded` |  |
| C71 | Headers of thrift documents | partial | `C71_namespace_partial`, `C71_unique`, `C71_accepts`, `C71_refuted` | namespaces proved; every include yields an invalid use declaration, and cpp_include is not implemented |
| C72 | Equality after a round trip | proved | `C72_roundtrip`, `C72_alike`, `C72_symmetric`, `C72_transitive` | for the schemas and values of C12 |
| C73 | Equal values have equal encodings | partial | `C73_partial`, `C73_refuted` | holds for values without zeros among their doubles; 0.0 and -0.0 are equal and written differently |
| C74 | Decoded values are no larger than their input | proved | `C74_slice`, `C74_reader`, `C74_parquet` |  |
| C75 | Space is requested in proportion to the input | partial | `C75_partial`, `C75_refuted` | bounded by ten million elements per list; not by the length of the input (witness) |
| C76 | The text of format.rs is the modelled schema | proved | `C76_format`, `C76_schema`, `C76_one_reading` |  |
| C77 | thrift! accepts exactly its grammar | proved | `C77_tokens`, `C77_accepts`, `C77_unique`, `C77_one_way` | for texts made of the tokens listed in DESIGN.md; the recursion limit of the compiler is not modelled |
| C78 | The documented macro syntax is accepted | partial | `C78_struct_partial`, `C78_union_partial`, `C78_refuted` | accepted exactly if every struct field has a requirement and no union field has one |
| C79 | The macro and the generator read the same text in the same way | partial | `C79_partial`, `C79_refuted`, `C79_comment_refuted`, `C79_parquet_refuted` | holds for texts without attributes, nested comments and repeated names, whatever else they contain; refuted by witnesses in general; default values are not compared as the generator ignores them (C52) |
| C80 | The debug output of a value tells the value | proved | `C80_text`, `C80_line`, `C80_pretty` | given that the standard library prints all NaNs alike and other doubles differently, in letters, digits, signs and points |
| C81 | dump.rs prints the metadata of the file | proved | `C81_prints`, `C81_finished`, `C81_determines`, `C81_silent`, `C81_panics` | given memory for the metadata; a failing unwrap is the outcome PErr |
| C82 | The text of the generated code | proved | `C82_text`, `C82_one_text`, `C82_fails` | up to indentation and empty lines |
| C83 | The names in generated code are usable | partial | `C83_names_partial`, `C83_reference_partial`, `C83_members`, `C83_items`, `C83_refuted`, `C83_reference_refuted` | names are identifiers exactly if they are not _, contain no dot and are no keyword other than type, which is escaped except in unions; references agree unless the name is type; collisions only with value, __NAMES, Cow and tests; collisions with names imported by a glob or from the prelude are not considered |
| C84 | The debug output of generated enums | proved | `C84_name`, `C84_unique`, `C84_tells`, `C84_table` | given the documented promise of binary_search_by_key |
| C85 | Decoding errors say what they are about | partial | `C85_slice`, `C85_reader`, `C85_names_partial`, `C85_reader_names_partial`, `C85_union`, `C85_names_refuted`, `C85_parquet` | unions report an unknown variant as $struct_name, whatever their name; everything else is proved |
| C86 | Default values | proved | `C86_value`, `C86_unique`, `C86_terminates`, `C86_cycle`, `C86_overflows`, `C86_parquet` |  |
| C87 | A cleared object is as good as a new one | proved | `C87_fill`, `C87_default` |  |
| C88 | Rewriting never makes data longer | proved | `C88_slice`, `C88_reader`, `C88_parquet` | for values whose fields are declared in ascending order with gaps the writer can express (fits); for parquet without condition |
| C89 | Work is paid for by input | proved | `C89_slice`, `C89_reader`, `C89_skip`, `C89_list`, `C89_skipped_list`, `C89_skipped_map` | calls of the five methods of the input are counted, one call of skip_integer may look at several bytes |
| C90 | Exactly which bytes are read as which value | proved | `C90_read`, `C90_fill`, `C90_skip`, `C90_reader`, `C90_reader_skip`, `C90_unambiguous`, `C90_parquet` | for some depth of the stack, that is apart from stack overflow |
| C91 | Binaries and strings are parts of the input | proved | `C91_slice`, `C91_reader`, `C91_fill`, `C91_volume` |  |
| C92 | Exactly which input is refused with which error | proved | `C92_read`, `C92_fill`, `C92_fill_panic`, `C92_outcome`, `C92_reader`, `C92_skip`, `C92_either`, `C92_one`, `C92_parquet` | C92_outcome, C92_reader, C92_skip and C92_either assume a closed schema and enough stack; the others hold for some depth of the stack |
| C93 | Enum constants and their order | proved | `C93_constant`, `C93_only`, `C93_order`, `C93_parquet` | format.rs has one enum more than parquet.thrift (EdgeInterpolationAlgorithm) |
| C94 | Constructors keep their arguments | proved | `C94_new`, `C94_all`, `C94_optional` | conversions to f64 and between collections are not modelled |
| C95 | Values one after another | proved | `C95_slice`, `C95_reader`, `C95_split`, `C95_unique`, `C95_write`, `C95_parquet` |  |
| C96 | Reading and skipping stay in step | partial | `C96_slice_partial`, `C96_reader_partial`, `C96_parquet`, `C96_bool_refuted`, `C96_union_refuted`, `C96_overlong_refuted` | proved for types without unions and without boolean struct fields (40 of the types of format.rs); false for unions and boolean fields, whose wire type is not compared, and for integers over 17 bytes with the vector instructions |
| C97 | The macros' statements compute the modelled methods | proved | `C97_struct_fill`, `C97_union_fill`, `C97_enum_fill`, `C97_struct_write`, `C97_union_write`, `C97_enum_write` | the statements are the expansion of the text of macros.rs (C99) |
| C98 | The generator's code does what the macros' code does | partial | `C98_struct_text`, `C98_union_text`, `C98_enum_text`, `C98_struct_fill`, `C98_struct_write`, `C98_union_fill_partial`, `C98_union_write`, `C98_enum`, `C98_union_fill_refuted` | true except that the error for an unknown variant of a union names the union in generated code and is the text $struct_name in macro code; the generated code calls the methods by the names fill, write, fill_field and write_field, which the trait does not have (C51) |
| C99 | The text of macros.rs expands to the modelled items and methods | proved | `C99_expands`, `C99_one_reading`, `C99_methods`, `C99_patterns` | by MacroRules.v on the verbatim text; what rustc does with the items is not modelled, except that C97 interprets the statements |
| C100 | The text of macros.rs expands to methods that behave as modelled | proved | `C100_fill`, `C100_write`, `C100_all` | C97 and C99 together |
| C101 | The text of uleb.rs and protocol.rs does what the model says | proved | `C101_input`, `C101_slice`, `C101_reader`, `C101_writer`, `C101_i64` | by the interpreter RustEval.v on the verbatim text; the functions of the standard library and the SSE2 intrinsics are a table in it; the three default methods of CompactThriftProtocol are in C102 |
| C102 | The text of types.rs and encodings.rs does what the model says | proved | `C102_fill`, `C102_fill_field`, `C102_default_fill_field`, `C102_read`, `C102_field_type`, `C102_write`, `C102_write_field`, `C102_default_write_field` | the methods of the elements are those of the model (C103 ties the recursion through element types); an EncodingSet has a mask below 2^32; after an error what is left in last_field_id is not compared |
| C103 | The text of the whole runtime, run as one program, reads and writes what the model does | proved | `C103_input`, `C103_slice`, `C103_reader`, `C103_write`, `C103_round`, `C103_panics`, `C103_methods` | Default of the types is that of Types.v; values of element and field types are values of the model; the stack is bounded by need (reading) and by the height of the value (writing); C103_input holds for any input unless the model runs out of stack; after an error what is left in last_field_id is not compared |
| C104 | The text of the footer and page index functions does what the model says | proved | `C104_metadata`, `C104_range`, `C104_chunk`, `C104_index`, `C104_footer`, `C104_no_panic` | the text is rewritten before it is interpreted (LibProgram.v: fields, ranges, collect, match on &mut); seek, read_exact, with_capacity, min, max, default and fill_thrift are those of Footer.v and Types.v (C103 is about the text of the latter); conversions of errors by ? happen where the error arises; the stack for default is at least 4 |

## Proof structure

* Primitives (C01–C09): direct proofs on the varint, zigzag and header functions against `SpecCompact.v`.
* Conformance (C10–C14, C22): `P_Gen.v` defines one generalised encoding relation (`gencu`) that covers strict
  encodings, unknown fields and values of another schema version; reading is proved once by induction over it
  (`P_Reads.v`, `P_Roundtrip.v`), writing by induction over values (`P_Write.v`). C13 checks the side conditions of
  C12 on the concrete parquet environment by computation.
* Inputs (C16–C21): one simulation theorem between two input implementations (`P_Sim.v`), instantiated with slice,
  reader and extended slice. Writers (C23–C25): the same for sinks (`P_Sink.v`).
* Invariants (C17, C18, C32): `P_Lawful.v`, `P_Robust.v`, `P_Valid.v` – which panics remain, progress, validity.
* Parquet (C37–C48, C56–C58): bit sets, list arithmetic on file contents, induction over schema trees.
* Errors (C85): which errors each reading function can return, composed over `bind` and then by induction over `fill` (`P_Blame.v`).
* Defaults (C86, C87): `standard` as a relation, well-foundedness of `needs`; two runs of `fill` on cleared objects agree field by field (`P_Default.v`).
* Rewriting (C88): induction over `fill` with what a value costs when written (`msize`) and what of it survives being filled again (`bsize`); the headers read are compared with the shortest way to the first field present (`way`, `headed`) (`P_Rewrite.v`).
* Work (C89): the same functions run with a counting input (`SpecWork.v`); `paid` says that the counted run mirrors the plain one and that the calls are at most the bytes consumed, plus one if it fails; every read consumes at least one byte (`spends`, `P_Work.v`).
* Acceptance (C90): every reading function is shown to succeed on exactly the byte strings of a relation (`exactly`, closed under `bind`, `P_Accept.v`); `fill` by induction on the depth one way and by induction over the grammar of `SpecAccept.v` the other way.
* Pieces (C91): induction over the grammar of C90; `from` relates the payloads before and after filling (`P_Pieces.v`).
* Refused input (C92): SpecReject.v relates input to the error or panic it causes, with the grammar of SpecAccept.v for what precedes the fault; P_Reject.v proves both directions and that every input is accepted or refused, not both.
* Items (C93, C94): constants are found by name (`P_Items.v`), the enums of the two Parquet files are compared by computation; `into` by cases on the two types.

* Streams (C95): induction over the list of values with C19, C90 and C23 (`P_Stream.v`).
* Reading and skipping in step (C96): the grammar of C90 is contained in the grammar of C91 for types without unions and boolean fields (`P_Step.v`); three refutations for the rest.
* Code (C97, C98): `RustCode.v` contains the statements that the macros expand to and an interpreter for them; C97 proves that the methods of `Types.v` are their meaning. `GenCode.v` contains the statements that the generator writes. C98 proves that the generator's text (`SpecGenText.v`, C82) is these statements written down, and that they do what the macros' statements do.

* The text of the macros (C99): `MacroRules.v` reads the definitions of macros from the text of macros.rs (`MacrosText.v`) and applies them to tokens. `SpecExpand.v` says what items are and how they are written. C99 proves that thrift! turns every text that `RustMacro.v` accepts into the items and statements of the other files.
* C100 joins C99 and C97: the statements in the expansion compute the functions of `Types.v`.
* The text of uleb.rs and protocol.rs (C101): `UlebText.v` and `ProtocolText.v` are the two files line by line. `RustSyntax.v` reads them into items, statements and expressions (it rejects what it does not know), `RustProgram.v` picks the functions that `cfg` selects and `RustEval.v` interprets them; `SpecTextIO.v` lists what they are to compute. What the interpreter assumes: integers are checked or wrap as `overflow_checks` says; `debug_assert!` is always checked (C101 proves that none fails); a call costs one level of the stack and nothing else does; the functions of the standard library and the SSE2 intrinsics that are used are tables in `RustEval.v`; `try_into().unwrap()` for arrays is checked where the array is used; conversion of an io error by `?` gives the error itself; `Vec::with_capacity` does not fail and `try_reserve` fails as the parameter says; a failing `read_exact` leaves the buffer as it was; types, lifetimes, borrow checking and the choice of trait implementations are rustc's and not modelled.
* The text of types.rs and encodings.rs (C102): `TypesText.v` and `EncodingsText.v` are the two files, `RustTypes.v` finds the implementations and their methods, `SpecTypesText.v` says how values are held (`Rc` and `Arc` with whether the reference is unique) and what surrounds a method: the functions of protocol.rs as in C101 and the methods of the elements, which are those of the model. `std::iter::from_fn`, `count_ones`, `try_reserve` (as `reserve` in the configuration) and `get_mut` are in the table of `RustEval.v`.
* How the texts are compared with what is read from them: `P_TextLines.v` splits them into lines, since the checker (coqchk, which has no virtual machine) takes time quadratic in the length of what is read at once.
* The text of the whole runtime (C103): `TextRuntime.v` ties the interpreted texts together. A method of types.rs runs in a world whose element methods are again interpreted text, the statements that macros.rs expands to (C99, C100; `C103_methods`) call interpreted methods of the fields and of protocol.rs. Nothing in it is taken from `Protocol.v` or from `fill` and `writer` of `Types.v`; `default` is.
* The text of parquet/src/lib.rs (C104): `LibText.v` is lines 37 to 144 of the file. `LibProgram.v` reads them (`>>` in a type is split first) and rewrites the forms that the interpreter `RustEval.v` does not have: field access, ranges as values, comparison of slices and `with_capacity` become calls, `assert!` becomes a condition, `match &mut x { Ok(p) => .. }` writes its variables back into `x`, and a function ending with `.map(|x| ..).collect()` becomes a loop that returns the first error, with the closure as a function of its own. This rewriting is part of what is trusted about the reading of the text. `SpecLib.v` says what surrounds the functions: the operations on the file, the allocator, `default` and `fill_thrift` as in Footer.v and Types.v, the fields of a value by their names in `Parquet.v`. The `From` implementations of lib.rs:22-34 are not in the text; an error is a `ParquetError` from where it arises. `P_Lib.v` and `P_LibIndex.v` run the functions one statement at a time.
* Names of the schema (C58, C66): `SchemaTree.v` and `SchemaPrint.v` take the fields of decoded metadata by position. `SpecSchemaNames.v` says by the names in format.rs what an element, a logical type and the summary are; `P_SchemaNames.v` proves that both agree for every value of the type. Added because exchanging scale and precision in `element_of` was noticed by samples only.
* Size (C74, C75): induction over `fill` with the laws of inputs (`P_Size.v`). Equality (C72, C73): induction over values.
* Debug output (C80, C81): printed values form a prefix code (`P_Debug.v`): induction over typed values, with a lemma that
  indentation is reversible; the lines of the alternate form by induction against `pretty` of `SpecDebug.v` (`P_DebugLines.v`).
* Text of thrift documents (C67–C71): regular expressions with derivatives (`P_ThriftLex.v`); soundness, completeness and
  totality of each parsing function against the grammar as a relation (`P_ThriftParse.v`).
* Text read by the macros (C76–C79): soundness and completeness of the lexer and of every pattern against the relations of
  `SpecRust.v` (`P_RustLex.v`, `P_RustMacro.v`, `P_RustDoc.v`); format.rs by computation. C79 by
  induction over the Rust tokens: `P_BothLex.v` relates them to the tokens of the generator, `P_Both.v` the declarations.
* Text written by the generator (C82–C84): a template is a list of characters and opaque words; its lines are computed once for
  all words by reflection (`P_GenText.v`), loops are split off, `trimIndent` does not change the stripped lines of ASCII
  text. `P_GenDoc.v` goes from definitions to documents, `P_GenNames.v` is about the names.
* Generator and macros (C49–C52, C61, C62): induction over documents; `genc_rep`/`rep_written` (`P_Idl.v`) relate the
  encodings of a thrift document to those of the Rust schema representing it.

## Testing the theorems

`seeded/LOG.jsonl` records deliberate bugs introduced into a scratch copy of the model, with the property theorems whose
proofs depended on a lemma that no longer held. A lemma counts as failed if its proof script fails after the edit; a
property theorem counts if it depends on such a lemma.
