{
 "C01": [
  "proved",
  "u32 and u64, all values, all contexts."
 ],
 "C02": [
  "partial",
  "i32, i64 and all indices written as s33: proved. General negative s33 values: proved down to -2^27; below that read_var_s33 returns a wrong value (C03_s33_exact_refuted)."
 ],
 "C03": [
  "partial",
  "u32, u64, i32, i64: exact. read_var_s33 does not sign-extend five-byte negative encodings: refuted with a witness, exact behaviour proved."
 ],
 "C04": [
  "proved",
  "Writers are minimal; unsigned encodings are the unique shortest."
 ],
 "C05": [
  "proved",
  "Stability under extension, positive and sound needed-bytes hints, for every modelled primitive."
 ],
 "C06": [
  "partial",
  "Exact for every input that is not a component (C06_chunk_invariance). Components: same payloads and verdict unless a component start section is delivered (C06_component_partial); with one the claim is false of the code (C06_component_refuted)."
 ],
 "C07": [
  "proved",
  "In every situation a caller feeding any pieces can reach."
 ],
 "C08": [
  "proved",
  "Termination for all byte strings; tiling and final offset for all byte strings that are not components. For components a weaker tiling is proved and the final offset is refuted."
 ],
 "C09": [
  "proved",
  "Acceptance characterised exactly by a separate section grammar."
 ],
 "C10": [
  "proved",
  "For modules, under every chunking."
 ],
 "C11": [
  "proved",
  "Typed builders and raw sections."
 ],
 "C12": [
  "proved",
  "skip_section and reading the bodies give parsers that answer every later call alike."
 ],
 "C29": [
  "proved",
  "Every definable type whose size is below 2^60 bytes; both pointer widths; no panic."
 ],
 "C30": [
  "proved",
  "Records, tuples and variants, both pointer widths."
 ],
 "C31": [
  "proved",
  "push_flat and wasm_signature for all five ABI variants, both pointer widths. Exported methods with 64-bit pointers are left out (the code documents the first parameter as a pointer there)."
 ],
 "C32": [
  "proved",
  "Semilattice, meaning per pointer width, width of every case, order of cases."
 ],
 "C19": [
  "proved",
  "All declaration sequences and indices."
 ],
 "C20": [
  "proved",
  "All histories of sets and blocks with declared locals."
 ],
 "C22": [
  "proved",
  "All histories of push, truncate, commit, including every snapshot handed out."
 ],
 "C23": [
  "partial",
  "All call sequences, for every order: values, positions and by-key views exact, keys up to the order's equality (exact when equal keys are identical). Identical keys for equal-but-different ones: refuted (C23_key_kept_refuted), insert replaces the slot's key against its documentation."
 ],
 "C13": [
  "proved",
  "All types within the published limits (type indices below 2^20 and so on), in both directions; with and without the memory64 proposal; imports (single and compact), exports and whole sections. Initial values of tables and globals are under C15."
 ],
 "C14": [
  "proved",
  "All heap types and all u32 indices."
 ],
 "C21": [
  "proved",
  "Histories of groups in any number of scopes; the test is shown to decide the specification's declarative subtype relation, to be a partial order, and declared subtypes to match structurally. All proposals enabled."
 ],
 "C40": [
  "proved",
  "Ids agree exactly when the unrolled meanings agree; a new group is accepted exactly when in scope, valid and within the limit (while at most 2^20 types exist in all)."
 ],
 "C41": [
  "partial",
  "False of the code: C41_refuted gives a history of two modules after which a valid self-referential type panics (pack().unwrap(), validator/types.rs:971-973). C41_partial: no panic while all scopes together hold at most 2^20 types."
 ],
 "C15": [
  "proved",
  "All instructions, expressions, constant expressions and bodies, under any set of enabled proposals; reader, writer and conversion tables are transcribed from the sources by tools/gen_instr.py."
 ],
 "C42": [
  "proved",
  "Every modelled reader of core types, entities and operators."
 ],
 "C43": [
  "proved",
  "Core modules, default methods of the Reencode trait (RoundtripReencoder). The input must be fully readable; the output must not exceed the 32-bit lengths of the format."
 ],
 "C44": [
  "proved",
  "Same setting as C43; the second pass gives the same section builders and hence the same bytes."
 ],
 "C45": [
  "partial",
  "False as stated: C45_refuted writes a 100001-byte name of a local, which the reader rejects although it accepts it for a function. C45_names_read_partial: true for names of at most 100000 bytes in indirect maps. C45_names_kept: re-encoding direction in full."
 ],
 "C46": [
  "proved",
  "Both directions; segments for an unnamed table hold functions or funcref expressions (wasm-encoder writes table 0 otherwise)."
 ],
 "C17": [
  "proved",
  "Every state and expected type; the module's subtype test being reflexive is C21_order."
 ],
 "C18": [
  "proved",
  "All 627 operators, every state reachable through new_func, new_const_expr, define_locals, op and try_op in any module; success too is exactly op, and a panic of op is the only panic of try_op. debug_assert!s and the debug-build log of pushes and pops are left out."
 ],
 "C16": [
  "partial",
  "Both directions, for every body, every module over every reachable type store (and any implementation of WasmModuleResources that answers consistently), soundness under every feature set. Missing: legacy exceptions, stack switching, descriptor operators and the atomic accesses to globals, tables, structs and arrays. The rules differ from the specification in one point, refuted with a witness (C16_br_table_refuted). For the casts by descriptor it fails (C16_descriptor_refuted, see C55)."
 ],
 "C47": [
  "proved",
  "All operators, all modules, all bytes."
 ],
 "C48": [
  "proved",
  "All operators, all modules, all bytes."
 ],
 "C33": [
  "partial",
  "The e-graph abstraction, the rule set used with preserve_semantics, and code generation are modelled over integers, float add/mul, select, locals, globals and memory.size/grow. Proved: everything the e-graph can put in the class of a well-typed expression compiles to code with the same outcome, for all rules but six (trap-free expressions) or nine (all expressions). The full statement is false: i32.eq-associates, f32/f64 add-x-0 on -0.0, or--1 and select-same-branches on a trapping operand, and memory.grow reordered; each is refuted. Loads, stores, calls and vectors are not modelled."
 ],
 "C34": [
  "partial",
  "no_traps.rs modelled over a structured machine with integers, IEEE floats, locals and memories of any page size and index type. Proved: the emitted code never traps for div/rem, trunc, loads and stores of every width, for every operand, memory size and every offset memory_offset can draw; div/rem give the plain result whenever it exists; trunc agrees between the literal bounds (f64 to i32 signed: always); loads and stores agree strictly inside memory. Full agreement is refuted: address 0, the last bytes, and floats beyond the bounds. Not modelled: SIMD and atomic accesses, table accesses."
 ],
 "C24": [
  "proved",
  "is_kebab_case is exactly the component model's label grammar; equality, order and hash agree on accepted strings."
 ],
 "C25": [
  "partial",
  "Comparison never panics, is reflexive and antisymmetric; equal names hash alike; uniqueness through hash sets is pairwise and independent of insertion order; transitive for names other than [method]l.l. Refuted: transitivity of the order and of equality, PartialOrd agreeing with Ord, and order independence with the B-tree sets used without hash-collections."
 ],
 "C49": [
  "partial",
  "Parsing plain and interface names is exactly the grammar; parts recompose. Refuted: InterfaceName::package panics on accepted names with a colon in the (unchecked) version. Grammar of dependency, url and integrity names modelled but only their prefixes specified; semver::Version::parse is a parameter."
 ],
 "C26": [
  "proved",
  "Printed names and data bytes are read back as one token with the same bytes; the string grammar is characterised exactly (repeated underscores in \\u{} are accepted by the code)."
 ],
 "C27": [
  "proved",
  "Widths 8, 16, 32 and 64, signed and unsigned: value and rejection exact; the token grammar is exact. from_str_radix is modelled after the standard library."
 ],
 "C50": [
  "partial",
  "Reading back: all names. Distinctness: one name subsection of each kind; with two subsections of one kind it is false (C50_refuted)."
 ],
 "C51": [
  "proved",
  "All texts, with and without allowing confusing Unicode."
 ],
 "C28": [
  "proved",
  "Printer's float output re-read by the lexer and float parser, every bit pattern of both widths; comments after the number are not modelled."
 ],
 "C52": [
  "partial",
  "Correct rounding proved for all hexadecimal literals below 2^28 characters and exponents below 2^30 except those whose deciding digit is the one the code drops; for these C52_refuted gives literals which are misrounded. Base-10 literals are read by Rust's standard library."
 ],
 "C37": [
  "proved",
  "crates/wit-parser/src/ast/toposort.rs, whole function: the order is a permutation with every item after its dependencies and always the first ready one in source order; missing name / cycle / order exactly when the graph says so, never a panic; the reported place is the first missing dependency, or one that leads to a cycle; the order does not depend on how dependencies are listed. IndexMap and BinaryHeap are std models. Distinct keys is IndexMap's invariant."
 ],
 "C36": [
  "partial",
  "crates/wasm-compose/src/graph.rs edits and encoding.rs instantiations. Proved for every history whose disconnect calls name the source of the import (C36_consistent_partial, C36_encode_partial); C36_edits says what each call does to the connections, C36_cycle that a cycle leaves no order. For arbitrary histories the property is false of the code: C36_refuted (disconnect of a pair that is not connected opens an import which another instance feeds; it is then given twice and a further connect panics). petgraph's toposort is used by its contract; type compatibility is an input."
 ],
 "C35": [
  "proved",
  "For every predicate, mutator, random source and callback (all may keep state): the result was found interesting, is no larger, the predicate was called at most attempts times per saved byte plus attempts plus two, the search stops, and the callback saw ever smaller modules ending with the result. No assertion fails except one debug assertion on the empty component (C35_debug_refuted); with one attempt no candidate is tried (C35_one_attempt). Validation of the input is a parameter."
 ],
 "C38": [
  "partial",
  "Chars and strings: all of them. All types and values nested no deeper than the parser's limit of 100: proved, under the contract that the standard library reads back the floats it writes. Typing and termination of reading: all texts. Refuted beyond the limit, also for values that were themselves read (C38_read_again_refuted), for flags made with a repeated name; unknown record fields are silently dropped."
 ],
 "C39": [
  "partial",
  "Every item of the edited file that is not metadata is the same and in the same order, metadata keeps its place and name, what is appended is named (C39_preserves_partial), the file is byte for byte the same when nothing is to be edited and lengths are minimal (C39_unchanged), producers are merged by name as read back (C39_merged). Refuted: 'byte for byte' when lengths are not minimal, a component in a module section, Clear dropping all names, Set not replacing an annotation, unknown name subsections and duplicate producers fields lost, unknown producers fields unreadable. SPDX and URL parsers are parameters."
 ],
 "C53": [
  "partial",
  "Acceptance is equivalent to validity (Modval/Spec.v) for every module, after every history of the type store, with all features on; with any features what is accepted is valid. Missing: the operators without a rule (see C16). The order of sections and the number of bodies are given, since the parser checks them."
 ],
 "C54": [
  "partial",
  "Refuted without a bound on the number of types (C54_refuted): types outlive modules (Validator::reset, or the modules of one component), a reference holds 20 bits of its type's number, and RefType::new(..).unwrap() of ref.null panics on the type numbered 2^20, in a module a fresh validator accepts. Proved for every body, feature set and module while the validator holds at most 2^20 types, and for every implementation of the resources with known types. Missing: debug checks, panics of the store in subtype questions, operators given by a client instead of read."
 ],
 "C55": [
  "partial",
  "Refuted (C55_refuted): check_descriptor uses the number of a type among all the types of the validator as an index into the types of the module, so that a module with ref.cast_desc_eq, accepted by a fresh validator, is rejected after another module; by the same mistake a fresh validator accepts a wrong cast (C16_descriptor_refuted). Proved for every module validated twice in a row. Missing: other modules in between."
 ],
 "C56": [
  "partial",
  "Refuted without a bound on the number of types (C56_refuted, the module-level form of C54_refuted). Proved for every list of sections read from bytes, every feature set and every history while the types held and those of the module are at most 2^20 (C56_module_partial), which covers the assert of check_const_expr on data offsets after the code section: a ref.func in an expression of a number type is always rejected first. Missing: debug checks, panics of the store in subtype questions of operators, components, more bodies than functions (an error of the parser-facing checks, C02)."
 ],
 "C57": [
  "proved",
  "All of live.rs. Acyclic: some rank falls along references; termination is for every large enough depth of the stack (fuel). With a cycle among what is reached no call ends (C57_cycle); whatever the Resolve, an answer is right (C57_answer)."
 ],
 "C58": [
  "partial",
  "All but the last sentence is proved (C58_uses, C58_rest, C58_names). The last is refuted: the key of the map is the parameters and results alone, so (type (sub (func))) or (type (shared (func))) answers an inline (func) (C58_plain_refuted), where the text format asks for a final type without supertypes; it holds if all function types defined on their own are plain (C58_plain_partial). Signatures are compared as written: $t and the number of $t are different, as in the code."
 ],
 "C59": [
  "proved",
  "Module-level names are not part of it. Depths and positions are taken to fit 32 bits."
 ],
 "C60": [
  "partial",
  "Proved for functions, tables, memories and globals. Refuted for tags (C60_tags_refuted): the check that imports come first does not look at tag definitions, so (module (tag $a (param i32)) (import \"m\" \"n\" (tag $b)) (export \"e\" (tag $a))) is accepted and exports the imported tag; with the tag imports first in the text it holds (C60_spaces_partial). Which texts are accepted is C60_accepts, where tags are left out of the order as in the code. References inside of bodies are not part of it, and neither are types and the numbering of segments."
 ],
 "C61": [
  "proved",
  "C61_memory, C61_page_size, C61_numbers, C61_strings. Numbers are taken after their parsing: floats and vectors by their bits."
 ],
 "C62": [
  "partial",
  "C62_meaning, C62_unambiguous, C62_hints, C62_offsets and C62_folded_instruction are in full. The last sentence is refuted: after its string, a branch hint annotation may hold instructions, and they are compiled into the body (C62_accepted_refuted, e.g. (@metadata.code.branch_hint \"\\00\" unreachable)); it holds if annotations are closed after their string (C62_accepted_partial)."
 ],
 "C63": [
  "proved",
  "C63_read_back (through C62_meaning, the model of the text parser), C63_prints, C63_operands, C63_text_binary_text (for any encoding of instructions). An instruction with its immediates is one token; white space, comments and labels are not modelled."
 ],
 "C64": [
  "proved",
  "C64_roundtrip, over the reader and number codecs of C01 and C45."
 ],
 "C65": [
  "proved",
  "C65_places, C65_all, C65_order, C65_once and C65_made. The contents of sections are numbers here."
 ]
}