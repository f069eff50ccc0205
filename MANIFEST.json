{
 "claims": [
  {
   "property": "C01",
   "status": "proved",
   "theorems": [
    "C01_u32_roundtrip",
    "C01_u64_roundtrip"
   ],
   "note": "u32 and u64, all values, all contexts."
  },
  {
   "property": "C02",
   "status": "partial",
   "theorems": [
    "C02_i32_roundtrip",
    "C02_i64_roundtrip",
    "C02_s33_index_roundtrip",
    "C02_s33_roundtrip_partial"
   ],
   "note": "i32, i64 and all indices written as s33: proved. General negative s33 values: proved down to -2^27; below that read_var_s33 returns a wrong value (C03_s33_exact_refuted)."
  },
  {
   "property": "C03",
   "status": "partial",
   "theorems": [
    "C03_u32_exact",
    "C03_u64_exact",
    "C03_i32_exact",
    "C03_i64_exact",
    "C03_s33_exact_refuted",
    "C03_s33_exact_partial"
   ],
   "note": "u32, u64, i32, i64: exact. read_var_s33 does not sign-extend five-byte negative encodings: refuted with a witness, exact behaviour proved."
  },
  {
   "property": "C04",
   "status": "proved",
   "theorems": [
    "C04_u32_minimal",
    "C04_u64_minimal",
    "C04_s32_minimal",
    "C04_s64_minimal"
   ],
   "note": "Writers are minimal; unsigned encodings are the unique shortest."
  },
  {
   "property": "C05",
   "status": "proved",
   "theorems": [
    "C05_operators",
    "C05_varints_honest",
    "C05_fixed_honest",
    "C05_type_readers",
    "C05_entity_readers"
   ],
   "note": "Stability under extension, positive and sound needed-bytes hints, for every modelled primitive."
  },
  {
   "property": "C06",
   "status": "partial",
   "theorems": [
    "C06_chunk_invariance",
    "C06_runs_exist",
    "C06_component_partial",
    "C06_component_refuted"
   ],
   "note": "Exact for every input that is not a component (C06_chunk_invariance). Components: same payloads and verdict unless a component start section is delivered (C06_component_partial); with one the claim is false of the code (C06_component_refuted)."
  },
  {
   "property": "C07",
   "status": "proved",
   "theorems": [
    "C07_protocol"
   ],
   "note": "In every situation a caller feeding any pieces can reach."
  },
  {
   "property": "C08",
   "status": "proved",
   "theorems": [
    "C08_terminates",
    "C08_tiles_module",
    "C08_tiles_any_partial",
    "C08_component_end_refuted"
   ],
   "note": "Termination for all byte strings; tiling and final offset for all byte strings that are not components. For components a weaker tiling is proved and the final offset is refuted."
  },
  {
   "property": "C09",
   "status": "proved",
   "theorems": [
    "C09_accepts_exactly",
    "C09_order_decides"
   ],
   "note": "Acceptance characterised exactly by a separate section grammar."
  },
  {
   "property": "C10",
   "status": "proved",
   "theorems": [
    "C10_counts_agree"
   ],
   "note": "For modules, under every chunking."
  },
  {
   "property": "C11",
   "status": "proved",
   "theorems": [
    "C11_built_modules_parse",
    "C11_raw_sections_reported"
   ],
   "note": "Typed builders and raw sections."
  },
  {
   "property": "C12",
   "status": "proved",
   "theorems": [
    "C12_skip_section"
   ],
   "note": "skip_section and reading the bodies give parsers that answer every later call alike."
  },
  {
   "property": "C13",
   "status": "proved",
   "theorems": [
    "C13_types",
    "C13_entities",
    "C13_imports",
    "C13_sections",
    "C13_types_rewrite",
    "C13_entities_rewrite",
    "C13_field_strict",
    "C13_imports_strict"
   ],
   "note": "All types within the published limits (type indices below 2^20 and so on), in both directions; with and without the memory64 proposal; imports (single and compact), exports and whole sections. Initial values of tables and globals are under C15."
  },
  {
   "property": "C14",
   "status": "proved",
   "theorems": [
    "C14_total",
    "C14_faithful",
    "C14_injective",
    "C14_queries",
    "C14_difference"
   ],
   "note": "All heap types and all u32 indices."
  },
  {
   "property": "C15",
   "status": "proved",
   "theorems": [
    "C15_instructions_read",
    "C15_instructions_rewrite",
    "C15_alignment",
    "C15_expressions_read",
    "C15_expressions_accepted",
    "C15_constants_read",
    "C15_constants_rewrite",
    "C15_bodies_read",
    "C15_bodies_rewrite",
    "C15_locals_grouped"
   ],
   "note": "All instructions, expressions, constant expressions and bodies, under any set of enabled proposals; reader, writer and conversion tables are transcribed from the sources by tools/gen_instr.py."
  },
  {
   "property": "C16",
   "status": "partial",
   "theorems": [
    "C16_descriptor_refuted",
    "C16_sound_partial",
    "C16_complete_partial",
    "C16_any_module_partial",
    "C16_subtyping",
    "C16_top_type",
    "C16_br_table_refuted"
   ],
   "note": "Both directions, for every body, every module over every reachable type store (and any implementation of WasmModuleResources that answers consistently), soundness under every feature set. Missing: legacy exceptions, stack switching, descriptor operators and the atomic accesses to globals, tables, structs and arrays. The rules differ from the specification in one point, refuted with a witness (C16_br_table_refuted). For the casts by descriptor it fails (C16_descriptor_refuted, see C55)."
  },
  {
   "property": "C17",
   "status": "proved",
   "theorems": [
    "C17_fast_path"
   ],
   "note": "Every state and expected type; the module's subtype test being reflexive is C21_order."
  },
  {
   "property": "C18",
   "status": "proved",
   "theorems": [
    "C18_try_op",
    "C18_undo_any"
   ],
   "note": "All 627 operators, every state reachable through new_func, new_const_expr, define_locals, op and try_op in any module; success too is exactly op, and a panic of op is the only panic of try_op. debug_assert!s and the debug-build log of pushes and pops are left out."
  },
  {
   "property": "C19",
   "status": "proved",
   "theorems": [
    "C19_locals"
   ],
   "note": "All declaration sequences and indices."
  },
  {
   "property": "C20",
   "status": "proved",
   "theorems": [
    "C20_inits"
   ],
   "note": "All histories of sets and blocks with declared locals."
  },
  {
   "property": "C21",
   "status": "proved",
   "theorems": [
    "C21_correct",
    "C21_order",
    "C21_top",
    "C21_valid",
    "C21_declared"
   ],
   "note": "Histories of groups in any number of scopes; the test is shown to decide the specification's declarative subtype relation, to be a partial order, and declared subtypes to match structurally. All proposals enabled."
  },
  {
   "property": "C22",
   "status": "proved",
   "theorems": [
    "C22_snapshots"
   ],
   "note": "All histories of push, truncate, commit, including every snapshot handed out."
  },
  {
   "property": "C23",
   "status": "partial",
   "theorems": [
    "C23_map",
    "C23_exact",
    "C23_from_iter",
    "C23_key_kept_refuted"
   ],
   "note": "All call sequences, for every order: values, positions and by-key views exact, keys up to the order's equality (exact when equal keys are identical). Identical keys for equal-but-different ones: refuted (C23_key_kept_refuted), insert replaces the slot's key against its documentation."
  },
  {
   "property": "C24",
   "status": "proved",
   "theorems": [
    "C24_grammar",
    "C24_equality",
    "C24_order"
   ],
   "note": "is_kebab_case is exactly the component model's label grammar; equality, order and hash agree on accepted strings."
  },
  {
   "property": "C25",
   "status": "partial",
   "theorems": [
    "C25_comparison",
    "C25_hash",
    "C25_order_partial",
    "C25_uniqueness",
    "C25_any_order",
    "C25_order_refuted",
    "C25_equality_refuted",
    "C25_partial_cmp_refuted",
    "C25_btree_refuted"
   ],
   "note": "Comparison never panics, is reflexive and antisymmetric; equal names hash alike; uniqueness through hash sets is pairwise and independent of insertion order; transitive for names other than [method]l.l. Refuted: transitivity of the order and of equality, PartialOrd agreeing with Ord, and order independence with the B-tree sets used without hash-collections."
  },
  {
   "property": "C26",
   "status": "proved",
   "theorems": [
    "C26_str",
    "C26_bytes",
    "C26_grammar"
   ],
   "note": "Printed names and data bytes are read back as one token with the same bytes; the string grammar is characterised exactly (repeated underscores in \\u{} are accepted by the code)."
  },
  {
   "property": "C27",
   "status": "proved",
   "theorems": [
    "C27_grammar",
    "C27_value",
    "C27_reject"
   ],
   "note": "Widths 8, 16, 32 and 64, signed and unsigned: value and rejection exact; the token grammar is exact. from_str_radix is modelled after the standard library."
  },
  {
   "property": "C28",
   "status": "proved",
   "theorems": [
    "C28_roundtrip",
    "C28_distinct"
   ],
   "note": "Printer's float output re-read by the lexer and float parser, every bit pattern of both widths; comments after the number are not modelled."
  },
  {
   "property": "C29",
   "status": "proved",
   "theorems": [
    "C29_size_and_alignment",
    "C29_never_panics"
   ],
   "note": "Every definable type whose size is below 2^60 bytes; both pointer widths; no panic."
  },
  {
   "property": "C30",
   "status": "proved",
   "theorems": [
    "C30_field_offsets",
    "C30_payload_offset"
   ],
   "note": "Records, tuples and variants, both pointer widths."
  },
  {
   "property": "C31",
   "status": "proved",
   "theorems": [
    "C31_push_flat",
    "C31_wasm_signature"
   ],
   "note": "push_flat and wasm_signature for all five ABI variants, both pointer widths. Exported methods with 64-bit pointers are left out (the code documents the first parameter as a pointer there)."
  },
  {
   "property": "C32",
   "status": "proved",
   "theorems": [
    "C32_semilattice",
    "C32_join_meaning",
    "C32_cases_fit",
    "C32_case_order"
   ],
   "note": "Semilattice, meaning per pointer width, width of every case, order of cases."
  },
  {
   "property": "C33",
   "status": "partial",
   "theorems": [
    "C33_preserved_partial",
    "C33_preserved_with_traps_partial",
    "C33_rule_partial",
    "C33_eq_associates_refuted",
    "C33_float_add_zero_refuted",
    "C33_trap_dropped_refuted",
    "C33_memory_grow_refuted"
   ],
   "note": "The e-graph abstraction, the rule set used with preserve_semantics, and code generation are modelled over integers, float add/mul, select, locals, globals and memory.size/grow. Proved: everything the e-graph can put in the class of a well-typed expression compiles to code with the same outcome, for all rules but six (trap-free expressions) or nine (all expressions). The full statement is false: i32.eq-associates, f32/f64 add-x-0 on -0.0, or--1 and select-same-branches on a trapping operand, and memory.grow reordered; each is refuted. Loads, stores, calls and vectors are not modelled."
  },
  {
   "property": "C34",
   "status": "partial",
   "theorems": [
    "C34_div_rem",
    "C34_trunc_partial",
    "C34_trunc_f64_i32_s",
    "C34_load_partial",
    "C34_store_partial",
    "C34_agreement_refuted"
   ],
   "note": "no_traps.rs modelled over a structured machine with integers, IEEE floats, locals and memories of any page size and index type. Proved: the emitted code never traps for div/rem, trunc, loads and stores of every width, for every operand, memory size and every offset memory_offset can draw; div/rem give the plain result whenever it exists; trunc agrees between the literal bounds (f64 to i32 signed: always); loads and stores agree strictly inside memory. Full agreement is refuted: address 0, the last bytes, and floats beyond the bounds. Not modelled: SIMD and atomic accesses, table accesses."
  },
  {
   "property": "C35",
   "status": "proved",
   "theorems": [
    "C35_result",
    "C35_stops",
    "C35_assertions_partial",
    "C35_one_attempt",
    "C35_debug_refuted"
   ],
   "note": "For every predicate, mutator, random source and callback (all may keep state): the result was found interesting, is no larger, the predicate was called at most attempts times per saved byte plus attempts plus two, the search stops, and the callback saw ever smaller modules ending with the result. No assertion fails except one debug assertion on the empty component (C35_debug_refuted); with one attempt no candidate is tried (C35_one_attempt). Validation of the input is a parameter."
  },
  {
   "property": "C36",
   "status": "partial",
   "theorems": [
    "C36_consistent_partial",
    "C36_edits",
    "C36_encode_partial",
    "C36_cycle",
    "C36_refuted"
   ],
   "note": "crates/wasm-compose/src/graph.rs edits and encoding.rs instantiations. Proved for every history whose disconnect calls name the source of the import (C36_consistent_partial, C36_encode_partial); C36_edits says what each call does to the connections, C36_cycle that a cycle leaves no order. For arbitrary histories the property is false of the code: C36_refuted (disconnect of a pair that is not connected opens an import which another instance feeds; it is then given twice and a further connect panics). petgraph's toposort is used by its contract; type compatibility is an input."
  },
  {
   "property": "C37",
   "status": "proved",
   "theorems": [
    "C37_sorted",
    "C37_answers",
    "C37_reported",
    "C37_stable"
   ],
   "note": "crates/wit-parser/src/ast/toposort.rs, whole function: the order is a permutation with every item after its dependencies and always the first ready one in source order; missing name / cycle / order exactly when the graph says so, never a panic; the reported place is the first missing dependency, or one that leads to a cycle; the order does not depend on how dependencies are listed. IndexMap and BinaryHeap are std models. Distinct keys is IndexMap's invariant."
  },
  {
   "property": "C38",
   "status": "partial",
   "theorems": [
    "C38_roundtrip_partial",
    "C38_char",
    "C38_string",
    "C38_typed",
    "C38_total",
    "C38_read_again_partial",
    "C38_delimited_partial",
    "C38_deep_refuted",
    "C38_read_again_refuted",
    "C38_flags_refuted",
    "C38_unknown_field_refuted",
    "C38_percent_flags_refuted"
   ],
   "note": "Chars and strings: all of them. All types and values nested no deeper than the parser's limit of 100: proved, under the contract that the standard library reads back the floats it writes. Typing and termination of reading: all texts. Refuted beyond the limit, also for values that were themselves read (C38_read_again_refuted), for flags made with a repeated name; unknown record fields are silently dropped."
  },
  {
   "property": "C39",
   "status": "partial",
   "theorems": [
    "C39_document",
    "C39_preserves_partial",
    "C39_unchanged",
    "C39_merged",
    "C39_producers_read_back",
    "C39_clear_refuted",
    "C39_set_refuted",
    "C39_field_refuted",
    "C39_unknown_names_refuted",
    "C39_duplicates_refuted",
    "C39_kind_refuted",
    "C39_bytes_refuted"
   ],
   "note": "Every item of the edited file that is not metadata is the same and in the same order, metadata keeps its place and name, what is appended is named (C39_preserves_partial), the file is byte for byte the same when nothing is to be edited and lengths are minimal (C39_unchanged), producers are merged by name as read back (C39_merged). Refuted: 'byte for byte' when lengths are not minimal, a component in a module section, Clear dropping all names, Set not replacing an annotation, unknown name subsections and duplicate producers fields lost, unknown producers fields unreadable. SPDX and URL parsers are parameters."
  },
  {
   "property": "C40",
   "status": "proved",
   "theorems": [
    "C40_ids",
    "C40_accepts",
    "C40_known"
   ],
   "note": "Ids agree exactly when the unrolled meanings agree; a new group is accepted exactly when in scope, valid and within the limit (while at most 2^20 types exist in all)."
  },
  {
   "property": "C41",
   "status": "partial",
   "theorems": [
    "C41_refuted",
    "C41_partial"
   ],
   "note": "False of the code: C41_refuted gives a history of two modules after which a valid self-referential type panics (pack().unwrap(), validator/types.rs:971-973). C41_partial: no panic while all scopes together hold at most 2^20 types."
  },
  {
   "property": "C42",
   "status": "proved",
   "theorems": [
    "C42_readers_local"
   ],
   "note": "Every modelled reader of core types, entities and operators."
  },
  {
   "property": "C43",
   "status": "proved",
   "theorems": [
    "C43_contents_kept"
   ],
   "note": "Core modules, default methods of the Reencode trait (RoundtripReencoder). The input must be fully readable; the output must not exceed the 32-bit lengths of the format."
  },
  {
   "property": "C44",
   "status": "proved",
   "theorems": [
    "C44_idempotent"
   ],
   "note": "Same setting as C43; the second pass gives the same section builders and hence the same bytes."
  },
  {
   "property": "C45",
   "status": "partial",
   "theorems": [
    "C45_names_read_partial",
    "C45_names_kept",
    "C45_refuted"
   ],
   "note": "False as stated: C45_refuted writes a 100001-byte name of a local, which the reader rejects although it accepts it for a function. C45_names_read_partial: true for names of at most 100000 bytes in indirect maps. C45_names_kept: re-encoding direction in full."
  },
  {
   "property": "C46",
   "status": "proved",
   "theorems": [
    "C46_segments_read",
    "C46_segments_translate"
   ],
   "note": "Both directions; segments for an unnamed table hold functions or funcref expressions (wasm-encoder writes table 0 otherwise)."
  },
  {
   "property": "C47",
   "status": "proved",
   "theorems": [
    "C47_more_features"
   ],
   "note": "All operators, all modules, all bytes."
  },
  {
   "property": "C48",
   "status": "proved",
   "theorems": [
    "C48_validated_is_read"
   ],
   "note": "All operators, all modules, all bytes."
  },
  {
   "property": "C49",
   "status": "partial",
   "theorems": [
    "C49_grammar",
    "C49_other_kinds",
    "C49_resource_func",
    "C49_interface_partial",
    "C49_package_refuted"
   ],
   "note": "Parsing plain and interface names is exactly the grammar; parts recompose. Refuted: InterfaceName::package panics on accepted names with a colon in the (unchecked) version. Grammar of dependency, url and integrity names modelled but only their prefixes specified; semver::Version::parse is a parameter."
  },
  {
   "property": "C50",
   "status": "partial",
   "theorems": [
    "C50_identifier",
    "C50_distinct_partial",
    "C50_refuted"
   ],
   "note": "Reading back: all names. Distinctness: one name subsection of each kind; with two subsections of one kind it is false (C50_refuted)."
  },
  {
   "property": "C51",
   "status": "proved",
   "theorems": [
    "C51_terminates",
    "C51_tile"
   ],
   "note": "All texts, with and without allowing confusing Unicode."
  },
  {
   "property": "C52",
   "status": "partial",
   "theorems": [
    "C52_partial",
    "C52_nearest_unique",
    "C52_refuted"
   ],
   "note": "Correct rounding proved for all hexadecimal literals below 2^28 characters and exponents below 2^30 except those whose deciding digit is the one the code drops; for these C52_refuted gives literals which are misrounded. Base-10 literals are read by Rust's standard library."
  },
  {
   "property": "C53",
   "status": "partial",
   "theorems": [
    "C53_exact_partial",
    "C53_sound_partial"
   ],
   "note": "Acceptance is equivalent to validity (Modval/Spec.v) for every module, after every history of the type store, with all features on; with any features what is accepted is valid. Missing: the operators without a rule (see C16). The order of sections and the number of bodies are given, since the parser checks them."
  },
  {
   "property": "C54",
   "status": "partial",
   "theorems": [
    "C54_body_partial",
    "C54_resources_partial",
    "C54_refuted"
   ],
   "note": "Refuted without a bound on the number of types (C54_refuted): types outlive modules (Validator::reset, or the modules of one component), a reference holds 20 bits of its type's number, and RefType::new(..).unwrap() of ref.null panics on the type numbered 2^20, in a module a fresh validator accepts. Proved for every body, feature set and module while the validator holds at most 2^20 types, and for every implementation of the resources with known types. Missing: debug checks, panics of the store in subtype questions, operators given by a client instead of read."
  },
  {
   "property": "C55",
   "status": "partial",
   "theorems": [
    "C55_again_partial",
    "C55_refuted"
   ],
   "note": "Refuted (C55_refuted): check_descriptor uses the number of a type among all the types of the validator as an index into the types of the module, so that a module with ref.cast_desc_eq, accepted by a fresh validator, is rejected after another module; by the same mistake a fresh validator accepts a wrong cast (C16_descriptor_refuted). Proved for every module validated twice in a row. Missing: other modules in between."
  },
  {
   "property": "C56",
   "status": "partial",
   "theorems": [
    "C56_module_partial",
    "C56_refuted"
   ],
   "note": "Refuted without a bound on the number of types (C56_refuted, the module-level form of C54_refuted). Proved for every list of sections read from bytes, every feature set and every history while the types held and those of the module are at most 2^20 (C56_module_partial), which covers the assert of check_const_expr on data offsets after the code section: a ref.func in an expression of a number type is always rejected first. Missing: debug checks, panics of the store in subtype questions of operators, components, more bodies than functions (an error of the parser-facing checks, C02)."
  },
  {
   "property": "C57",
   "status": "proved",
   "theorems": [
    "C57_live",
    "C57_answer",
    "C57_cycle",
    "C57_order",
    "C57_method"
   ],
   "note": "All of live.rs. Acyclic: some rank falls along references; termination is for every large enough depth of the stack (fuel). With a cycle among what is reached no call ends (C57_cycle); whatever the Resolve, an answer is right (C57_answer)."
  },
  {
   "property": "C58",
   "status": "partial",
   "theorems": [
    "C58_uses",
    "C58_rest",
    "C58_names",
    "C58_plain_partial",
    "C58_plain_refuted"
   ],
   "note": "All but the last sentence is proved (C58_uses, C58_rest, C58_names). The last is refuted: the key of the map is the parameters and results alone, so (type (sub (func))) or (type (shared (func))) answers an inline (func) (C58_plain_refuted), where the text format asks for a final type without supertypes; it holds if all function types defined on their own are plain (C58_plain_partial). Signatures are compared as written: $t and the number of $t are different, as in the code."
  },
  {
   "property": "C59",
   "status": "proved",
   "theorems": [
    "C59_scopes",
    "C59_numbers",
    "C59_renaming"
   ],
   "note": "Module-level names are not part of it. Depths and positions are taken to fit 32 bits."
  },
  {
   "property": "C60",
   "status": "partial",
   "theorems": [
    "C60_references",
    "C60_spaces_partial",
    "C60_order",
    "C60_accepts",
    "C60_tags_refuted"
   ],
   "note": "Proved for functions, tables, memories and globals. Refuted for tags (C60_tags_refuted): the check that imports come first does not look at tag definitions, so (module (tag $a (param i32)) (import \"m\" \"n\" (tag $b)) (export \"e\" (tag $a))) is accepted and exports the imported tag; with the tag imports first in the text it holds (C60_spaces_partial). Which texts are accepted is C60_accepts, where tags are left out of the order as in the code. References inside of bodies are not part of it, and neither are types and the numbering of segments."
  },
  {
   "property": "C61",
   "status": "proved",
   "theorems": [
    "C61_memory",
    "C61_page_size",
    "C61_numbers",
    "C61_strings"
   ],
   "note": "C61_memory, C61_page_size, C61_numbers, C61_strings. Numbers are taken after their parsing: floats and vectors by their bits."
  },
  {
   "property": "C62",
   "status": "partial",
   "theorems": [
    "C62_meaning",
    "C62_accepted_partial",
    "C62_unambiguous",
    "C62_accepted_refuted",
    "C62_hints",
    "C62_offsets",
    "C62_folded_instruction"
   ],
   "note": "C62_meaning, C62_unambiguous, C62_hints, C62_offsets and C62_folded_instruction are in full. The last sentence is refuted: after its string, a branch hint annotation may hold instructions, and they are compiled into the body (C62_accepted_refuted, e.g. (@metadata.code.branch_hint \"\\00\" unreachable)); it holds if annotations are closed after their string (C62_accepted_partial)."
  },
  {
   "property": "C63",
   "status": "proved",
   "theorems": [
    "C63_read_back",
    "C63_prints",
    "C63_operands",
    "C63_text_binary_text"
   ],
   "note": "C63_read_back (through C62_meaning, the model of the text parser), C63_prints, C63_operands, C63_text_binary_text (for any encoding of instructions). An instruction with its immediates is one token; white space, comments and labels are not modelled."
  },
  {
   "property": "C64",
   "status": "proved",
   "theorems": [
    "C64_roundtrip"
   ],
   "note": "C64_roundtrip, over the reader and number codecs of C01 and C45."
  },
  {
   "property": "C65",
   "status": "proved",
   "theorems": [
    "C65_places",
    "C65_all",
    "C65_order",
    "C65_once",
    "C65_made"
   ],
   "note": "C65_places, C65_all, C65_order, C65_once and C65_made. The contents of sections are numbers here."
  }
 ]
}