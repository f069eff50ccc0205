{"id": "C01", "title": "Unsigned LEB128 round trip", "statement": "Every u32/u64 that wasm-encoder writes as unsigned LEB128 is read back by BinaryReader::read_var_u32/read_var_u64 as exactly the same value, consuming exactly the bytes written, whatever bytes precede or follow them.", "quantifier": "all 32-bit and 64-bit unsigned values, all surrounding bytes and reader positions", "why_tests_cant": "2^64 values times arbitrary contexts; boundary continuation-bit bugs hide between tested values", "anchors": ["crates/wasmparser/src/binary_reader.rs:read_var_u32", "crates/wasmparser/src/binary_reader.rs:read_var_u64", "crates/wasm-encoder/src/lib.rs:Encode for u32/u64"]}
{"id": "C02", "title": "Signed LEB128 round trip", "statement": "Every i32/i64 (and every s33 used for heap/block types) that wasm-encoder writes as signed LEB128 is read back by read_var_i32/read_var_i64/read_var_s33 as the same value, consuming exactly the bytes written.", "quantifier": "all 32-, 64- and 33-bit signed values, all contexts", "why_tests_cant": "sign-extension errors affect only particular length/sign combinations", "anchors": ["crates/wasmparser/src/binary_reader.rs:read_var_i32", "crates/wasmparser/src/binary_reader.rs:read_var_i64", "crates/wasmparser/src/binary_reader.rs:read_var_s33", "crates/wasm-encoder/src/lib.rs:Encode for i32/i64"]}
{"id": "C03", "title": "LEB128 readers accept exactly the spec's encodings", "statement": "read_var_u32/u64/i32/i64/s33 succeed on a byte string exactly when some prefix of it is a (possibly non-minimal) LEB128 encoding, of at most ceil(N/7) bytes, of a value in the N-bit range; the value returned is the mathematical value of that encoding and the reader advances by its length. Overlong or out-of-range encodings are rejected.", "quantifier": "all byte strings and reader positions", "why_tests_cant": "the set of malformed encodings is infinite; accepting one malformed encoding makes two tools disagree about a module", "anchors": ["crates/wasmparser/src/binary_reader.rs:read_var_u32", "crates/wasmparser/src/binary_reader.rs:read_var_i32", "crates/wasmparser/src/binary_reader.rs:read_var_s33", "crates/wasmparser/src/binary_reader.rs:read_var_i64", "crates/wasmparser/src/binary_reader.rs:read_var_u64"]}
{"id": "C04", "title": "LEB128 encodings are minimal", "statement": "The bytes wasm-encoder emits for an integer are the shortest LEB128 encoding of that integer (at most 5 bytes for 32-bit, 10 for 64-bit), and encoding_size reports exactly that length.", "quantifier": "all integers", "why_tests_cant": "needs a comparison with every alternative encoding", "anchors": ["crates/wasm-encoder/src/lib.rs:encoding_size", "crates/wasm-encoder/src/lib.rs:Encode"]}
{"id": "C05", "title": "Reader failures for lack of bytes are honest", "statement": "If a BinaryReader operation fails with an end-of-file error on some bytes, it would not have failed differently on a longer input having more bytes; if it succeeds or fails for any other reason, appending bytes never changes its result. The reader never moves past the end of its buffer.", "quantifier": "all byte strings, all extensions, all reader operations in the model", "why_tests_cant": "relates two runs on arbitrary inputs; tests cannot cover all split points", "anchors": ["crates/wasmparser/src/binary_reader.rs:BinaryReader", "crates/wasmparser/src/binary_reader.rs:eof_err"]}
{"id": "C06", "title": "Incremental parsing is chunk-invariant", "statement": "Feeding a wasm binary to Parser::parse in any sequence of chunks (retrying with more data on NeedMoreData) yields the same sequence of payloads and the same final outcome as parsing the whole binary at once.", "quantifier": "all binaries, all ways of splitting them into chunks", "why_tests_cant": "the number of chunkings is exponential in the input size", "anchors": ["crates/wasmparser/src/parser.rs:Parser::parse", "crates/wasmparser/src/parser.rs:Parser::parse_reader"]}
{"id": "C07", "title": "Parser chunk protocol", "statement": "Parser::parse never asks for more data when told the input is at its end; it never reports consuming more bytes than it was given; every parsed payload consumes at least one byte except the final End; NeedMoreData hints are positive.", "quantifier": "all parser states reachable, all data buffers, eof flags", "why_tests_cant": "must hold in every state of an incremental machine", "anchors": ["crates/wasmparser/src/parser.rs:Parser::parse", "crates/wasmparser/src/parser.rs:Chunk"]}
{"id": "C08", "title": "parse_all terminates and tiles the input", "statement": "Iterating Parser::parse_all over a module either yields an error or ends after a End payload whose offset is the input length; the byte ranges of the yielded payloads are in increasing order, and together with the section headers cover the input with no gap or overlap.", "quantifier": "all byte strings taken as a core module (termination: all byte strings)", "why_tests_cant": "termination and coverage on arbitrary untrusted input", "anchors": ["crates/wasmparser/src/parser.rs:Parser::parse_all"]}
{"id": "C09", "title": "Module section order and uniqueness", "statement": "The parser accepts a module's section sequence exactly when the non-custom sections appear in the order of the spec with no duplicates (custom sections anywhere).", "quantifier": "all sequences of sections", "why_tests_cant": "all permutations of sections with repetition", "anchors": ["crates/wasmparser/src/parser.rs:update_order", "crates/wasmparser/src/parser.rs:Order"]}
{"id": "C10", "title": "Code, function and data counts agree", "statement": "A module for which the parser reaches End has as many code-section entries as function-section entries, and if a data count section is present its value equals the data section's count.", "quantifier": "all core module binaries and chunkings", "why_tests_cant": "the counts are checked at different moments of a streaming parse", "anchors": ["crates/wasmparser/src/parser.rs:check_function_code_counts", "crates/wasmparser/src/parser.rs:check_data_count"]}
{"id": "C11", "title": "Encoded modules parse back to the same sections", "statement": "A module assembled with wasm-encoder from arbitrary raw sections parses into exactly that sequence of section ids and contents with correct file offsets.", "quantifier": "all sequences of (id, contents)", "why_tests_cant": "all contents and lengths including length-prefix boundaries", "anchors": ["crates/wasm-encoder/src/core.rs:Module::section", "crates/wasm-encoder/src/lib.rs:encode_section", "crates/wasmparser/src/parser.rs:parse_reader"]}
{"id": "C12", "title": "Skipping the code section equals parsing it", "statement": "After CodeSectionStart, calling skip_section (and skipping its bytes) leaves the parser in a state from which all later payloads are the same as if the function bodies had been parsed one by one.", "quantifier": "all modules with well-framed code sections", "why_tests_cant": "all continuations after the skip", "anchors": ["crates/wasmparser/src/parser.rs:skip_section"]}
{"id": "C13", "title": "Value and reference type codec round trip", "statement": "Every HeapType, RefType, ValType, StorageType, FieldType, SubType, recursion group, GlobalType, TableType, MemoryType, TagType, import and export written by wasm-encoder and within wasmparser's published limits is read back by wasmparser as the same type, and conversely whatever type wasmparser accepts can be written again and reads as the same type.", "quantifier": "all types within the limits, all index values, all bytes that may follow", "why_tests_cant": "type indices range over 2^32 and combine with nullability, sharedness and limits", "anchors": ["crates/wasm-encoder/src/core/types.rs", "crates/wasmparser/src/readers/core/types.rs"]}
{"id": "C14", "title": "Packed reference types are lossless", "statement": "RefType::new packs nullability and heap type into 24 bits such that is_nullable and heap_type recover exactly what was packed, two RefTypes are equal iff their components are, and construction fails exactly when the index does not fit.", "quantifier": "all heap types and indices", "why_tests_cant": "bit-packing collisions depend on specific index values", "anchors": ["crates/wasmparser/src/readers/core/types.rs:RefType"]}
{"id": "C15", "title": "Instruction codec round trip", "statement": "Every instruction emitted by wasm-encoder is decoded by wasmparser's operator reader to the corresponding operator with the same immediates, consuming exactly its bytes. Whole expressions, constant expressions and function bodies are read back the same way, and the reader accepts only well-nested ones; whatever it accepts converts and is written as bytes that read the same. The natural alignment reported with a memory immediate is the size of the access.", "quantifier": "all 627 instructions, all values of their immediates in range for any set of enabled proposals, any following bytes and position; all instruction sequences", "why_tests_cant": "hundreds of opcodes each with unbounded immediates", "anchors": ["crates/wasm-encoder/src/core/code.rs", "crates/wasmparser/src/binary_reader.rs:visit_operator"]}
{"id": "C16", "title": "Operator validation is type-sound and complete", "statement": "The function validator accepts a body exactly when the body is typable by the declarative typing rules of the WebAssembly specification, including stack-polymorphic code after unreachable.", "quantifier": "all instruction sequences of the modelled fragment, all contexts", "why_tests_cant": "typing is a property of all programs of unbounded size and nesting", "anchors": ["crates/wasmparser/src/validator/operators.rs"]}
{"id": "C17", "title": "Fast-path operand pop agrees with the slow path", "statement": "Popping an operand through the validator's fast path gives the same result, same error and same remaining state as the general path, for every operand stack and control stack.", "quantifier": "all operand stacks, control stacks and expected types", "why_tests_cant": "the fast path's guard must be right in every state", "anchors": ["crates/wasmparser/src/validator/operators.rs:pop_operand"]}
{"id": "C18", "title": "Failed try-validation is undone exactly", "statement": "When validating an operator speculatively fails, the validator is restored to the state it had before that operator.", "quantifier": "all validator states and operators", "why_tests_cant": "needs equality of whole states for every failure point inside an operator", "anchors": ["crates/wasmparser/src/validator/operators/transaction.rs"]}
{"id": "C19", "title": "Compressed local lookup equals the flat list of locals", "statement": "After any sequence of local declarations, looking up local i returns the type of the i-th declared local counting every group's repetitions, or nothing when out of range; definitions are rejected exactly when the total exceeds the limit.", "quantifier": "all declaration sequences and indices", "why_tests_cant": "binary search over run-length groups with a cached prefix; boundary cases are everywhere", "anchors": ["crates/wasmparser/src/validator/operators.rs:Locals"]}
{"id": "C20", "title": "Local initialisation tracking is exact", "statement": "A non-defaultable local is reported uninitialised at a point exactly when no enclosing still-open block (or earlier code in the same block) has set it.", "quantifier": "all sequences of set/enter-block/leave-block", "why_tests_cant": "depends on the history of an unbounded nesting", "anchors": ["crates/wasmparser/src/validator/operators.rs:LocalInits"]}
{"id": "C21", "title": "Subtyping is a preorder compatible with the spec hierarchy", "statement": "The validator's subtype test on value/reference/heap types is reflexive, transitive, antisymmetric up to nullability encoding, agrees with the spec's heap type hierarchy, and every type is below its computed top type.", "quantifier": "all heap types, all declared supertype chains", "why_tests_cant": "infinite families of concrete types", "anchors": ["crates/wasmparser/src/validator/types.rs:TypeList::valtype_is_subtype"]}
{"id": "C22", "title": "Snapshotted type lists behave like plain lists", "statement": "A SnapshotList with any history of push, commit, truncate and snapshotting returns the same element for every index as an ordinary append-only list, and snapshots are unaffected by later pushes.", "quantifier": "all operation histories", "why_tests_cant": "histories of unbounded length and interleaving", "anchors": ["crates/wasmparser/src/validator/types.rs:SnapshotList"]}
{"id": "C23", "title": "Insertion-ordered map refines its abstract specification", "statement": "wasmparser's no-hash IndexMap behaves as an insertion-ordered association list under every sequence of inserts, removals, lookups and iteration; index and key views always agree.", "quantifier": "all operation sequences", "why_tests_cant": "invariants between the tree and the slot vector across arbitrary histories", "anchors": ["crates/wasmparser/src/collections/index_map/detail.rs"]}
{"id": "C24", "title": "Kebab-case names", "statement": "KebabStr::new accepts exactly the words of the component-model label grammar, and equality, ordering and hashing of names are mutually consistent.", "quantifier": "all strings", "why_tests_cant": "all strings", "anchors": ["crates/wasmparser/src/validator/names.rs:KebabStr"]}
{"id": "C25", "title": "Component names form an order", "statement": "Comparing parsed component import/export names is a total order consistent with equality and hashing, so name-uniqueness checks do not depend on insertion order.", "quantifier": "all triples of names", "why_tests_cant": "transitivity is about all triples", "anchors": ["crates/wasmparser/src/validator/names.rs:ComponentNameKind"]}
{"id": "C26", "title": "Strings survive printing and re-lexing", "statement": "Any byte string printed by wasmprinter as a quoted string is lexed by wast to the same bytes.", "quantifier": "all byte strings / UTF-8 strings", "why_tests_cant": "all strings with escapes", "anchors": ["crates/wasmprinter/src/lib.rs:print_str", "crates/wast/src/lexer.rs:parse_str"]}
{"id": "C27", "title": "Text integers parse exactly", "statement": "Parsing an integer literal in the text format yields the value denoted by its digits modulo 2^N for in-range literals, and is rejected exactly when out of range.", "quantifier": "all literals (sign, hex, underscores)", "why_tests_cant": "all digit strings", "anchors": ["crates/wast/src/token.rs:integers", "crates/wast/src/lexer.rs:number"]}
{"id": "C28", "title": "Text floats round trip", "statement": "Printing any f32/f64 bit pattern (incl. NaN payloads and signed zero) and parsing it back yields the same bits.", "quantifier": "all 2^32 and 2^64 bit patterns", "why_tests_cant": "2^64 values", "anchors": ["crates/wasmprinter/src/operator.rs", "crates/wast/src/token.rs:strtof"]}
{"id": "C29", "title": "Size and alignment match the canonical ABI", "statement": "SizeAlign computes for every WIT type the size and alignment prescribed by the canonical ABI when pointers are 4 bytes, and the same formulas with 8-byte pointers for wasm64.", "quantifier": "all type definitions", "why_tests_cant": "types nest without bound; the pointer-symbolic size must be right for both architectures", "anchors": ["crates/wit-parser/src/sizealign.rs"]}
{"id": "C30", "title": "Record layout is aligned, disjoint and in bounds", "statement": "Field offsets of every record/tuple are aligned, in declaration order, non-overlapping and within the size; variant payload offset is past the discriminant and aligned for every case.", "quantifier": "all lists of field types", "why_tests_cant": "all field sequences", "anchors": ["crates/wit-parser/src/sizealign.rs:field_offsets"]}
{"id": "C31", "title": "Flattening matches the canonical ABI", "statement": "wasm_signature/push_flat produce the core types prescribed by the canonical ABI's flattening, spill to memory exactly beyond the limits, and never panic.", "quantifier": "all function types", "why_tests_cant": "unbounded nesting of types", "anchors": ["crates/wit-parser/src/abi.rs"]}
{"id": "C32", "title": "Joining flat types is a semilattice", "statement": "The join of core types used for variants is commutative, associative and idempotent, and the joined type is wide enough to carry each input.", "quantifier": "all pairs/triples of flat types and all case lists", "why_tests_cant": "order-independence over arbitrary many cases", "anchors": ["crates/wit-parser/src/abi.rs:join"]}
{"id": "C33", "title": "Peephole mutations preserve semantics when asked to", "statement": "With preserve_semantics on, every peephole rewrite rule replaces an expression by one with the same value for all operand values.", "quantifier": "all operand values, all rules", "why_tests_cant": "2^64 operands", "anchors": ["crates/wasm-mutate/src/mutators/peephole/rules.rs"]}
{"id": "C34", "title": "Trap-free code generation never traps", "statement": "With disallow_traps, the instruction sequences wasm-smith emits around division, remainder, float truncation, load and store never trap and agree with the plain instruction whenever that would not trap.", "quantifier": "all operand values, memory sizes, offsets", "why_tests_cant": "all operand values", "anchors": ["crates/wasm-smith/src/core/code_builder/no_traps.rs"]}
{"id": "C35", "title": "Shrinking keeps the property and never grows", "statement": "wasm-shrink returns a module for which the predicate holds and that is no larger than the input, whatever the predicate and the mutator do, and it stops within its attempt budget.", "quantifier": "all predicates, mutators, seeds", "why_tests_cant": "adversarial predicates and mutations", "anchors": ["crates/wasm-shrink/src/lib.rs"]}
{"id": "C36", "title": "Composition graphs stay consistent and are encoded in order", "statement": "After any sequence of calls that add and remove components and instances and connect and disconnect imports, no call panics, every connection joins two different existing instances, every import has at most one source, and encoding makes every instance exactly once, after the instances that feed it, giving each import exactly one argument; with a cycle of connections there is no such order.", "quantifier": "all sequences of graph edits", "why_tests_cant": "all histories", "anchors": ["crates/wasm-compose/src/graph.rs", "crates/wasm-compose/src/encoding.rs"]}
{"id": "C37", "title": "WIT packages are resolved in dependency order", "statement": "Topologically sorting interfaces/types/packages yields every item after its dependencies and reports an error exactly when a cycle exists.", "quantifier": "all dependency graphs", "why_tests_cant": "all graphs", "anchors": ["crates/wit-parser/src/ast/toposort.rs"]}
{"id": "C38", "title": "WAVE values round trip", "statement": "Writing any WAVE value of a type as text and parsing the text with that type yields the same value, whatever follows a comma or closing bracket after it. Every text that parses gives a value of the type asked for (numbers in range, flags once each, every field present). Parsing ends on every text.", "quantifier": "all types, all values of them, all texts", "why_tests_cant": "types nest without bound, strings and texts are arbitrary, and names may be keywords", "anchors": ["crates/wasm-wave/src/writer.rs", "crates/wasm-wave/src/parser.rs", "crates/wasm-wave/src/lex.rs", "crates/wasm-wave/src/ast.rs", "crates/wasm-wave/src/strings.rs"]}
{"id": "C39", "title": "Metadata editing preserves everything else", "statement": "Adding metadata to a module or component leaves every other section byte-for-byte unchanged and in order, and merges fields by name.", "quantifier": "all modules and edits", "why_tests_cant": "all modules", "anchors": ["crates/wasm-metadata/src/rewrite.rs", "crates/wasm-metadata/src/producers.rs"]}
{"id": "C40", "title": "Structural type interning", "statement": "Two recursion groups receive the same canonical ids exactly when they are structurally equal after canonicalisation.", "quantifier": "all histories of rec groups", "why_tests_cant": "depends on histories and isorecursive structure", "anchors": ["crates/wasmparser/src/validator/types.rs:intern_canonical_rec_group", "crates/wasmparser/src/validator/core/canonical.rs"]}
{"id": "C41", "title": "Interning a recursion group never panics", "statement": "Adding a valid recursion group to a validator that has accepted any sequence of modules and components is answered with acceptance or a validation error, never with a panic.", "quantifier": "all histories of groups, aliases and function types, in any number of scopes", "why_tests_cant": "needs more than a million types spread over several modules", "anchors": ["crates/wasmparser/src/validator/types.rs:TypeList::intern_canonical_rec_group", "crates/wasmparser/src/validator/core/canonical.rs:InternRecGroup::canonicalize_and_intern_rec_group"]}
{"id": "C42", "title": "A successful read depends only on the bytes it consumes", "statement": "When a reader operation of wasmparser (integers, strings, types, imports, exports, operators) succeeds, the same bytes at any other offset and followed by any other bytes give the same value and are consumed exactly.", "quantifier": "all byte strings, offsets, positions and following bytes", "why_tests_cant": "The claim compares infinitely many contexts for each of infinitely many byte strings.", "anchors": ["crates/wasmparser/src/binary_reader.rs", "crates/wasmparser/src/readers/core/types.rs", "crates/wasmparser/src/readers/core/operators.rs"]}
{"id": "C43", "title": "Re-encoding keeps everything in a module", "statement": "Running the default re-encoder of wasm-encoder over a parsed core module gives a module with the same types, imports, functions, tables, memories, tags, globals, exports, start function, elements, code, data, names and custom sections, in the same order.", "quantifier": "all core modules whose contents can be read, under any set of enabled proposals", "why_tests_cant": "The claim is about every module; the translation has a case for every instruction, type and section.", "anchors": ["crates/wasm-encoder/src/reencode.rs:Reencode::parse_core_module", "crates/wasm-encoder/src/core.rs"]}
{"id": "C44", "title": "Re-encoding is idempotent", "statement": "Re-encoding a module that was produced by re-encoding gives the same bytes.", "quantifier": "all core modules whose contents can be read", "why_tests_cant": "Needs agreement of writer, reader and translation on everything they produce.", "anchors": ["crates/wasm-encoder/src/reencode.rs", "crates/wasmparser/src/parser.rs"]}
{"id": "C45", "title": "Name sections round trip", "statement": "Names written with NameSection are read back by NameSectionReader as they were given, and re-encoding a readable name section keeps all of it.", "quantifier": "all name sections", "why_tests_cant": "All names, indices and lengths.", "anchors": ["crates/wasm-encoder/src/core/names.rs", "crates/wasmparser/src/readers/core/names.rs", "crates/wasm-encoder/src/reencode.rs:custom_name_section"]}
{"id": "C46", "title": "Tables, globals, element and data segments round trip", "statement": "Tables and globals with their initial values and element and data segments written with wasm-encoder are read back by wasmparser with the same contents, and every such section that wasmparser accepts is translated to values with the same contents that can be written again.", "quantifier": "all values and all byte strings, under any set of enabled proposals", "why_tests_cant": "All instructions inside expressions, all index and flag combinations.", "anchors": ["crates/wasmparser/src/readers/core/elements.rs", "crates/wasmparser/src/readers/core/data.rs", "crates/wasmparser/src/readers/core/tables.rs", "crates/wasmparser/src/readers/core/globals.rs", "crates/wasm-encoder/src/core/elements.rs", "crates/wasm-encoder/src/core/data.rs", "crates/wasm-encoder/src/reencode.rs"]}
{"id": "C47", "title": "Enabling features only widens what is accepted", "statement": "A function body the validator accepts under a set of features is accepted under every larger set that agrees on custom descriptors.", "quantifier": "all modules, feature sets and body bytes", "why_tests_cant": "the feature lattice has millions of points and each must be compared with all above it", "anchors": ["crates/wasmparser/src/validator/operators.rs", "crates/wasmparser/src/features.rs"]}
{"id": "C48", "title": "What is validated is what is read", "statement": "When the validator accepts a function body, reading the body's operators succeeds to its end, and the operators read are the ones that were validated, in order, ending with every block closed.", "quantifier": "all modules, feature sets and body bytes", "why_tests_cant": "validation and reading track block nesting separately; they must agree on every byte string", "anchors": ["crates/wasmparser/src/validator/func.rs:validate", "crates/wasmparser/src/readers/core/operators.rs:OperatorsReader"]}
{"id": "C49", "title": "Component names parse by the grammar and come apart", "statement": "ComponentName::new accepts exactly the strings of the component-model name grammar and finds their kind, and the accessors of a parsed name (resource, method, namespace, package, interface, projection) return the parts it is made of, without panicking.", "quantifier": "all strings, features", "why_tests_cant": "all strings", "anchors": ["crates/wasmparser/src/validator/names.rs:ComponentNameParser", "crates/wasmparser/src/validator/names.rs:InterfaceName"]}
{"id": "C50", "title": "Printed identifiers read back and are unambiguous", "statement": "Every identifier the printer writes is lexed by wast as one identifier token of exactly that text, whatever the name, and within an index space no two different indices are printed with the same identifier, so a printed reference resolves to the index it was printed for.", "quantifier": "all names (any Unicode string), all name sections, all indices, with or without naming unnamed items", "why_tests_cant": "all strings and all collisions between given and generated names", "anchors": ["crates/wasmprinter/src/lib.rs:Naming::new", "crates/wasmprinter/src/lib.rs:write_identifier", "crates/wasmprinter/src/lib.rs:name_map", "crates/wast/src/lexer.rs:parse_name"]}
{"id": "C51", "title": "Tokens tile the source", "statement": "Lexing terminates on every text; when it succeeds the texts of the tokens (comments and whitespace included), in order, concatenate to the source and none is empty.", "quantifier": "all texts", "why_tests_cant": "all texts", "anchors": ["crates/wast/src/lexer.rs:Lexer::parse"]}
{"id": "C52", "title": "Hexadecimal float literals are correctly rounded", "statement": "A hexadecimal float literal parsed as f32 or f64 gives the bit pattern nearest to the number it denotes, ties to even, and is rejected exactly when that is infinite.", "quantifier": "all hexadecimal float literals", "why_tests_cant": "unbounded digit strings; rounding boundaries", "anchors": ["crates/wast/src/token.rs:strtof", "crates/wast/src/lexer.rs:number"]}
{"id": "C53", "title": "A module is accepted exactly when it is valid", "statement": "Given the sections of a module whose operators can be decoded, Validator::validate_all accepts it exactly when it is valid: its types, imports, index spaces, limits of tables and memories, constant expressions, exports, start function, element and data segments and function bodies obey the rules of the specification, within the documented implementation limits; and what is accepted with any feature set is valid.", "quantifier": "all modules, all feature sets for soundness, all histories of the validator's type store", "why_tests_cant": "modules are unbounded, and each section's check depends on all sections before it", "anchors": ["crates/wasmparser/src/validator/core.rs:ModuleState", "crates/wasmparser/src/validator/core.rs:Module", "crates/wasmparser/src/validator.rs:Validator::validate_all", "crates/wasmparser/src/validator.rs:code_section_entry"]}
{"id": "C54", "title": "Validating a function body never panics", "statement": "FuncValidator::validate on any bytes, with any features and any function type index, in a module whose types a validator has accepted, returns Ok or an error: none of the unwraps, expects, index operations or unreachable!s of the operator validator is ever hit, whatever modules the same validator has seen before.", "quantifier": "all bodies as byte strings, all feature sets, all modules, all histories of the validator's type store", "why_tests_cant": "the panicking sites depend on the whole state of the operator validator, which no finite set of bodies covers, and on the history of the type store, which reaches the failing state only after a million types", "anchors": ["crates/wasmparser/src/validator/func.rs:FuncValidator::validate", "crates/wasmparser/src/validator/operators.rs:OperatorValidator", "crates/wasmparser/src/validator/core.rs:check_ref_type", "crates/wasmparser/src/validator.rs:Validator::reset"]}
{"id": "C55", "title": "The verdict on a module does not depend on earlier modules", "statement": "A Validator that has successfully validated other modules and was reset gives the same verdict on a module as a fresh one: reusing the canonicalised types changes type identifiers only, never acceptance.", "quantifier": "all modules, all feature sets, all sequences of modules validated before", "why_tests_cant": "the numbering of types depends on every module seen before, and tests validate one module per validator", "anchors": ["crates/wasmparser/src/validator.rs:Validator::reset", "crates/wasmparser/src/validator/core/canonical.rs:canonicalize_and_intern_rec_group", "crates/wasmparser/src/validator/operators.rs:check_descriptor"]}
{"id": "C56", "title": "Validating a module never panics", "statement": "Validator::validate_all on a core module whose sections the parser hands over returns Ok or an error, with any features and whatever modules the same validator has seen before: no unwrap, expect, assert or index operation of the section handlers, of the type store, of constant expressions or of the function bodies is hit. In particular the assert that a constant expression checked after the code section has named no new function never fails.", "quantifier": "all lists of sections read from bytes in the order of modules with no more bodies than functions, all bytes of bodies and constant expressions, all feature sets, all histories of the validator's type store", "why_tests_cant": "the panicking sites depend on the whole state of the validator after an arbitrary sequence of sections; the assert about constant expressions rests on an argument about every expression, and the failing state of the store needs a million types", "anchors": ["crates/wasmparser/src/validator.rs:Validator::validate_all", "crates/wasmparser/src/validator/core.rs:ModuleState::check_const_expr", "crates/wasmparser/src/validator/core.rs:ModuleState::next_code_index_and_type", "crates/wasmparser/src/validator/core.rs:MaybeOwned::assert_mut", "crates/wasmparser/src/validator/func.rs:FuncToValidate::into_validator"]}
{"id": "C57", "title": "Live types are the reachable ones in dependency order", "statement": "After any sequence of LiveTypes::add_interface, add_world, add_world_item, add_func, add_type_id and add_type on a Resolve, iter() gives exactly the types reachable from what was added, each once and each after all the types it is made of; the calls never panic and end when no type is made of itself. The set does not depend on the order or repetition of the calls, and the resource of a method is in it.", "quantifier": "all Resolves with existing ids and no unknown types, all sequences of calls", "why_tests_cant": "the tests look at three small interfaces; sharing between types, the order of a walk that meets a type on several paths and sequences of calls on one set are unbounded", "anchors": ["crates/wit-parser/src/live.rs:LiveTypes", "crates/wit-parser/src/live.rs:TypeIdVisitor"]}
{"id": "C58", "title": "Inline function types of the text format", "statement": "When a text module is resolved, every use of a function type written without an index (imports, functions, tags, indirect calls, blocks with parameters or several results) gets the first type defined outside a group with exactly the written parameters and results, or, if there is none, one new type of that signature; uses with an index and all the other fields stay as they are. The new types come after all the types of the source, so that no index of the source changes its meaning; they are pairwise different, each is needed by some use, and they are plain: final, without supertypes, not shared. What an inline signature stands for is always such a plain type.", "quantifier": "all modules whose types have distinct identifiers", "why_tests_cant": "which type a use gets depends on all the types of the module and on all the uses before it", "anchors": ["crates/wast/src/core/resolve/types.rs:Expander", "crates/wast/src/core/resolve/types.rs:expand", "crates/wast/src/gensym.rs:fill"]}
{"id": "C59", "title": "Labels and locals of the text format have lexical scope", "statement": "Resolving a function body of a text module succeeds, as far as labels and locals go, exactly when the names of its parameters and locals are distinct, every label name belongs to an enclosing block (for the catches of a try_table and the target of a delegate: to a block enclosing that block), every local name is declared, and labels repeated at else and end are those of their block. Each label name becomes the number of blocks between it and the innermost block of that name, each local name its position, numbers stay, and nothing else changes. Afterwards no names are left, resolving again changes nothing, and consistently renaming labels and locals changes neither the verdict nor any number.", "quantifier": "all structured bodies (acceptance and meaning), all lists of instructions (numbers, renaming), all lists of locals, all injective renamings", "why_tests_cant": "nesting and shadowing are unbounded", "anchors": ["crates/wast/src/core/resolve/names.rs:ExprResolver::resolve_instr", "crates/wast/src/core/resolve/names.rs:ExprResolver::resolve_label", "crates/wast/src/names.rs:Namespace"]}
{"id": "C60", "title": "Index spaces of the text format are those of the binary", "statement": "When a text module is resolved and encoded, every export (inline or not), start function and active segment refers in the binary to the item meant in the text: an inline export or segment to the item it is written at, a name to the only item of its kind called so, a number to the item of that number counting imports and definitions in the order of the text. For this the items of each kind come in the same order in the text and in the binary's index space (all imports first); a text with an import after a definition is rejected.", "quantifier": "all lists of module fields without generated names", "why_tests_cant": "the number of an item depends on all the fields before it and on the order in which sections are written", "anchors": ["crates/wast/src/core/resolve/mod.rs:resolve", "crates/wast/src/core/resolve/deinline_import_export.rs:run", "crates/wast/src/core/resolve/names.rs:Resolver::register", "crates/wast/src/core/binary.rs:encode"]}
{"id": "C61", "title": "Memories with inline data hold exactly their data", "statement": "A text memory with inline data gets the least number of pages that hold the data, as its minimum and its maximum, without overflow, for every page size the parser accepts (the powers of two that fit 32 bits; 65536 if none is written); its segment holds the data at address 0, with an offset of the type of the memory's addresses. In the bytes of a segment every string is found as its bytes, and every number as its little-endian bytes, right after everything written before it.", "quantifier": "all page sizes, all lists of strings and numbers of less than 2^63 bytes in all", "why_tests_cant": "the number of pages is rounded from the sum of all the lengths, and the place of a number depends on everything before it", "anchors": ["crates/wast/src/core/resolve/deinline_import_export.rs:run", "crates/wast/src/core/memory.rs:DataVal", "crates/wast/src/core/types.rs:page_size", "crates/wast/src/core/binary.rs:Data::encode"]}
{"id": "C62", "title": "Folded expressions of the text format mean their flat form", "statement": "Every expression of the text format, flat or folded and however deep, is read as its flat form: operands and conditions before their instruction, the bodies of folded blocks closed by `end`, the arms of a folded `if` separated by `else`. A branch hint goes to the instruction or folded instruction it is written before; hints come in the order of their instructions, at most one for each. In the binary each hint has the offset of its instruction. An offset written as one folded instruction is read in the same way, and nothing after it is taken. Only expressions of the grammar are accepted.", "quantifier": "all token sequences; all trees of folded and flat instructions with branch hints", "why_tests_cant": "the parser is a loop with a stack of its own and a pending hint; nesting is unbounded", "anchors": ["crates/wast/src/core/expr.rs:ExpressionParser::parse", "crates/wast/src/core/expr.rs:handle_if_lparen", "crates/wast/src/core/expr.rs:parse_branch_hint", "crates/wast/src/core/expr.rs:push_instr_with_hint", "crates/wast/src/core/binary.rs:Expression::encode", "crates/wast/src/core/expr.rs:parse_folded_instruction"]}
{"id": "C63", "title": "Folded printing keeps the instructions", "statement": "A function body or constant expression printed with folded instructions is read back by the text parser as the same instructions in the same order with the same branch hints, whatever the arities of the instructions. Every body with its blocks nested, and hints only at `if` and at instructions that open or close nothing, is printed. An instruction is folded with the instructions before it that yield exactly its operands if there are such, and with none otherwise. So text that is encoded and printed again with folded instructions keeps its instructions and hints.", "quantifier": "all lists of operators with any arities and hints", "why_tests_cant": "folding rearranges the text by counting operands over an unbounded list of earlier instructions and over nested blocks", "anchors": ["crates/wasmprinter/src/operator.rs:PrintOperatorFolded", "crates/wasmprinter/src/operator.rs:handle_plain", "crates/wasmprinter/src/operator.rs:handle_end", "crates/wast/src/core/expr.rs:ExpressionParser::parse", "crates/wasmprinter/src/lib.rs:print_operators"]}
{"id": "C64", "title": "Branch hint sections round trip", "statement": "A section of branch hints written with the encoder is read back by the reader as the same functions in the same order, each with the same hints: same offsets, taken exactly if the value is 1.", "quantifier": "all lists of functions with all lists of hints of 32-bit offsets and values 0 and 1, fewer than 2^32 each", "why_tests_cant": "every count, index and offset is a variable-length number; hints are first skipped and then read again from the skipped bytes", "anchors": ["crates/wasm-encoder/src/core/branch_hints.rs:BranchHints", "crates/wasmparser/src/readers/core/branch_hinting.rs:BranchHintFunction", "crates/wasmparser/src/readers/core/branch_hinting.rs:BranchHint"]}
{"id": "C65", "title": "Sections of the text come where they are placed", "statement": "In the binary made from a text module every custom section is written once and where it is asked to be: before the first known section, just before or after a named known section (or where that section would be), or after the last; those of one place keep their order. Known sections come in the order of the binary format, each once if it has items; branch hints come just before the code and names after all known sections.", "quantifier": "all modules: all numbers of items of every kind, all lists of custom sections with all places, with and without data count, branch hints, names and debugging information", "why_tests_cant": "custom sections may be placed around sections that are absent, and any number of them at any of 26 places", "anchors": ["crates/wast/src/core/binary.rs:encode", "crates/wast/src/core/binary.rs:custom_sections", "crates/wast/src/core/binary.rs:typed_section", "crates/wast/src/core/binary.rs:code_section", "crates/wast/src/core/custom.rs:Custom::place"]}
