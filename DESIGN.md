# Formal model of wasm-tools in Coq: design

Source: `/repo` (bytecodealliance/wasm-tools, pinned commit). Nothing is built or
executed from it; the Coq model was written by reading the text.

## Layout

`rocq/theories/<Area>/` holds one directory per area:

* `Model.v`, `*Model.v` or files named after the Rust file: Gallina transcription of the
  Rust, one definition per function, each with a `file:lines` citation and a note where
  it simplifies;
* `Spec.v`, `*Spec.v`: the specification a property is stated against, written without
  using the model's helpers (mathematical LEB value, flat list of locals, declarative
  typing relation, canonical-ABI formulas, execution semantics, ...);
* `*Proofs.v`, `*Facts.v` and others: lemmas;
* `Properties*.v`: the property theorems only (`C01_...`), each with `Print Assumptions`
  below it and an `Example` showing that its hypotheses are met by a concrete case.

Where the faithful model violates a property, the violation is proved as
`..._refuted` with a concrete witness, and the strongest true version found is proved next
to it, as `..._partial` if part of the claim is missing.

## Properties: what is modelled, how it is proved

| id | modelled | how it is proved |
|----|----------|------------------|
| C01-C02 | LEB writers, `read_var_*` loops with explicit shifts and wraps | round trip by induction on the number of groups |
| C03 | same | readers characterised by the relations `uN`, `sN`, both directions; the missing sign extension of `read_var_s33` as `_refuted` |
| C04 | `encoding_size` and the writers | any encoding of the same value is at least as long |
| C05, C42 | every reader operation | extension and locality lemma per operation, composed through the reader monad |
| C06, C07, C08, C10, C12 | `Parser` state machine (`parse`, `parse_all`, `skip_section`, counts, nested parsers) | simulation between runs in pieces and whole runs, built on C05; the component start flag is a `_refuted` |
| C09 | `update_order` | acceptance characterised by a section grammar, both directions |
| C11 | `Module::section`, `encode_section`, `Parser` | induction on the section list |
| C13, C14 | type encoders and readers, `RefType` bit packing | case analysis plus LEB round trip; packing by arithmetic |
| C15 | all instructions: writer, reader and conversion tables (transcribed by `tools/gen_instr.py`), bodies and constant expressions | one round-trip lemma per immediate, per-opcode computation |
| C16 | `OperatorValidator`, all `visit_*` methods (527 of them by `tools/gen_valid.py`), `WasmModuleResources` of a module | simulation between control/operand stacks and a declarative type system (`TypeSpec.v`), both directions, by induction on bodies |
| C17, C18 | `pop_operand`, transaction log and rollback | case analysis; undo invariant kept by every primitive, lifted to every operator |
| C19, C20 | `Locals`, `LocalInits` | refinement to a flat list, to a scoped set |
| C21, C40, C41 | canonicalisation and interning of recursion groups, `TypeList` subtype tests | invariant over all histories of groups and scopes; agreement with a declarative relation; the panic as `_refuted` |
| C22, C23 | `SnapshotList`, b-tree `IndexMap` | refinement to list, to an ordered association list |
| C24, C25, C49 | `KebabStr`, `ComponentName` and its order, hash and accessors | grammar equivalence; order laws; refutations by witness |
| C26, C27, C50, C51 | lexer of `wast`, string/identifier printing of `wasmprinter`, integer tokens | round trips and exact grammar by induction on the text |
| C28, C52 | float printing, `strtof`-like parsing of hexadecimal floats | exact rounding against a rational-number specification; misrounding as `_refuted` |
| C29-C32 | `SizeAlign`, `abi.rs` | induction on types against the canonical ABI formulas |
| C33 | terms, rule set and code generation of the peephole mutator, over a machine semantics | each rule equates terms with one meaning; the e-graph is the congruence closure; unsound rules refuted |
| C34 | `no_traps.rs`, over a structured machine with traps | symbolic execution for all operands |
| C35 | `ShrinkRun::run` | invariant for arbitrary stateful predicate, mutator, random source and callback |
| C36 | `CompositionGraph` edits, instantiation order of the encoder | invariant over all call histories; the bad history as `_refuted` |
| C37 | `toposort` of wit-parser | invariant of the work list; exact characterisation of the three outcomes |
| C38 | wasm-wave lexer, parser, writer, values | round trip by induction on values; typing and termination of reading |
| C39 | `rewrite_wasm`, producers, names, annotations | structure of a parsed file as a tree of items (parser theory above), simulation of the rewriting loop, re-reading of what is written |
| C43, C44, C45, C46 | `Reencode` default methods over whole core modules | what a reader sees before and after is the same; second pass gives the same builders |
| C53 | `validate_all` over the sections of a module: `ModuleState`, `Module`, constant expressions, bodies | every section's check as an equivalence with its rule (Modval/Spec.v), composed along the order of sections; fewer features by monotonicity |
| C47, C48 | as C16 | monotonicity of every primitive in the feature set; what is validated is what is read |
| C54 | as C16, with every `unwrap`, `expect`, index and `unreachable!` of the visitor an outcome of its own | triples over the visitor: an invariant of stacks, frames and locals that every operator read from bytes keeps and that no panic meets; the types beyond 2^20 as `_refuted` |
| C55 | as C53, on the types an earlier module leaves in the validator | the types of the same module are found again and every other section keeps the list of types; the cast by descriptor, which mixes the two numberings of types, as `_refuted` |
| C56 | as C53 and C54: the section handlers over the type store, with each `unwrap`, `expect`, `assert!` and `assert_mut` an outcome | an invariant of the module state kept by every item of every section; a `ref.func` in a constant expression of a number type leaves a reference on the stack that no constant operator takes, so the expression is rejected before the assert; `_refuted` beyond 2^20 types |
| C57 | live.rs whole: the visitor over the arenas of a `Resolve`, with fuel for the depth of the stack, index panics and the assert of `after_visit_type_id` | an invariant of the set (no repetitions, each type after its parts) kept by every visit; a rank for termination |
| C58 | types.rs of `wast/core/resolve` whole: the two passes over the fields, the map from signatures to identifiers, the counter of generated names | the map is always that of the first definitions (invariant over both passes); each use keeps its answer as the map grows; the text format's meaning of inline types is refuted for open and shared types |
| C59 | `ExprResolver` of names.rs for labels and locals, `Namespace` of wast/src/names.rs | structured bodies with a relation for lexical scope; induction on the body in both directions; renaming by equations through every step |
| C60 | `resolve` of mod.rs, deinline_import_export.rs, the registration of names.rs and the order of sections of binary.rs | a request by request simulation through the two passes; namespaces hold exactly the items in order; the check of the order makes the binary's space the text's; refuted for tags |
| C61 | the inline case of memories in deinline_import_export.rs with its 64-bit arithmetic, `DataVal`, `page_size` | the bytes are a concatenation; rounding up is the least number of pages; little-endian bytes read back by induction over the width |
| C62 | `ExpressionParser` of expr.rs: the loop, its stack of levels, the states of `if`, pending branch hints | each tree's text takes the loop from a state to the same state with the tree's flat form pushed (induction over trees); accepted inputs are cut into trees by induction over their length; refuted for instructions inside annotations |
| C63 | `PrintOperatorFolded` of wasmprinter's operator.rs, over the parser of C62 | invariant: the open blocks stand for the operators seen so far; each folded instruction prints as the text of a tree; then C62 |
| C64 | branch_hints.rs of wasm-encoder, branch_hinting.rs of wasmparser | with the combinators of `Codec/Kit.v`: each part decodes what it encodes, skipped bytes are read again |
| C65 | encode of wast's core/binary.rs, places of core/custom.rs | a key for every section that grows along the output; counting and filtering distribute over the pieces |

The status of each, with what is missing or refuted, is in `MANIFEST.json`.

## What is modelled and what is not, by area

* **Base, Reader, Leb, Encoder, Codec** — `wasmparser/src/binary_reader.rs` (all primitives
  used by the readers below), `limits.rs`, the integer and section writers of
  `wasm-encoder/src/lib.rs`. The crate `leb128fmt` is not in `/repo`; its standard loop is
  modelled. Byte buffers are lists of integers, the position is what remains of them.
* **Parser** — `wasmparser/src/parser.rs` in full, modules and components. Contents of
  sections are not read by the parser and not here either. Payloads keep id, range and count.
* **Types, Instr, Sections** — the readers of `wasmparser/src/readers/core`, the writers of
  `wasm-encoder/src/core`, `reencode.rs` for core modules with the default methods. Not
  modelled: component-level readers and writers, `reencode.rs` with user-defined hooks,
  linking / reloc / dylink / coredump custom sections.
  `Instr/{Ops,Sink,Visit,Convert}.v` are generated from the Rust by `tools/gen_instr.py`.
* **Validator** — `validator/operators.rs`, `operators/simd.rs`, `operators/transaction.rs`,
  `func.rs`, and the answers of `validator/core.rs` to the function validator. Not modelled:
  validation of module-level sections other than types, component validation,
  `debug_assert!` and the debug-only log. `Validator/Visit.v` is generated by
  `tools/gen_valid.py`; `Validator/Sig.v` (specification) by `tools/gen_sig.py` from the
  naming rules of the specification.
  The type system leaves out legacy exceptions, stack switching, custom-descriptor operators and
  atomic accesses to globals, tables, structs and arrays.
* **Types/CanonModel** — `validator/core/canonical.rs`, interning and subtyping of
  `validator/types.rs`, `readers/core/types/matches.rs`. The hash map of groups is an
  association list by structural equality (the contract of `HashMap` with `Eq`).
* **Locals, Coll** — `Locals`, `LocalInits`, `SnapshotList`, `IndexMap` (b-tree variant). The
  inner `BTreeMap` is used by its contract. An `Arc` is its content.
* **Names** — `validator/names.rs`. Parameter: `semver::Version::parse` (any function). The
  refutation about b-tree sets assumes std's node search order.
* **Text** — `wast/src/lexer.rs`, the literal part of `wast/src/token.rs`, string, identifier
  and float printing of `wasmprinter/src/lib.rs`. Modelled after the standard library:
  `from_str_radix`, integer formatting. Parameter: decimal float parsing.
  The rest of the text parser and printer is not modelled.
* **Wit** — `sizealign.rs`, `abi.rs` with `usize` of 64 bits wrapping as in a release build.
* **Live** — `wit-parser/src/live.rs`, over the arenas of a `Resolve` without names and documentation. `IndexSet` is a list.
* **Inline** — `wast/src/core/resolve/types.rs`, over fields in which only types and uses of function types are kept; value types are compared as written. The resolution of names that follows is not part of it.
* **Label** — the labels and locals of `wast/src/core/resolve/names.rs`, over instructions by what is done with their names. Module-level names, block types and struct fields are not part of it.
* **Space** — `wast/src/core/resolve/{mod,deinline_import_export}.rs`, the module-level names of `names.rs` and the order of sections in `binary.rs`, over fields whose contents are numbers. The limits computed for inline data and elements are not part of it.
* **Inldata** — `DataVal` of `wast/src/core/memory.rs`, `page_size` of types.rs and the inline case of memories of deinline_import_export.rs; the parsing of the numbers themselves and inline elements of tables are not part of it.
* **Folded** — `ExpressionParser` of `wast/src/core/expr.rs`, over tokens in which an instruction has its immediates; with `parse_folded_instruction`, and `Expression::encode` of binary.rs for any encoding of instructions; spans, DWARF and repeated labels at `else` are not part of it.
* **Foldprint** — `PrintOperatorFolded` of `wasmprinter/src/operator.rs` and the loop of `print_operators`, over the tokens of **Folded**; arities are an input, white space and comments are left out.
* **Hints** — the data of the branch hint section, writer and reader; its name and frame are those of custom sections (C11).
* **Place** — which sections the text encoder writes, in which order; contents are numbers, the sections of debugging information are one.
* **Peephole, Smith** — `wasm-mutate/src/mutators/peephole` (language, rules and code
  generation; the e-graph by the congruence it may build, whatever the schedule), and
  `wasm-smith/src/core/code_builder/no_traps.rs`. Machine semantics follow the WebAssembly
  specification; floats are Coq's `SpecFloat`. Not modelled: loads, stores, calls, vectors in the
  mutator; SIMD, atomic and table accesses in smith.
* **Graph** — `wasm-compose/src/graph.rs` (edits), instantiation order of `encoding.rs`,
  `wit-parser/src/ast/toposort.rs`. By contract: `IndexMap`, `BinaryHeap`, `HashMap`, petgraph's
  graph map and `toposort`. Type compatibility of a connection is an input.
* **Shrink** — `wasm-shrink/src/lib.rs` `ShrinkRun::run`. Parameters: validator, hash, predicate,
  mutator, random numbers, callback, all stateful.
* **Wave** — `wasm-wave` lexer, parser, writer and the concrete `value` module. The `logos`
  lexer is written by hand from its patterns. Parameters with contracts: formatting and parsing of
  floats by the standard library, the tables behind `escape_debug`.
* **Meta** — `wasm-metadata` `rewrite.rs`, `producers.rs`, `names/*.rs`, annotations. `IndexMap` is
  an association list. Parameters: the SPDX and URL parsers. Not modelled: `dependencies`
  section, `Payload` summary and JSON/text display.
* **Modval** — `validator/core.rs` and the section functions of `validator.rs` for core modules,
  over the stores of Types and the function bodies of Validator. Not modelled: the order of
  sections and the number of bodies (checked in the parser, see Parser), offsets in errors of entities.

Not modelled at all: the component model beyond parsing, names and the ABI; `wit-component`,
`wit-parser` resolution other than the topological sort and the live types, `wasm-smith` module generation,
`wasm-mutate` beyond the peephole mutator, the command-line tools, the C API.

## Trusted base

* Coq 8.16.1's kernel (and `vm_compute` for concrete examples and table computations).
* The reading of Rust into Gallina; each definition cites its lines. For generated files the
  transcribing scripts in `tools/`.
* The specification files named above, including the machine semantics and `TypeSpec.v`.
* The contracts and parameters listed per area.
* `Print Assumptions` below every property theorem prints `Closed under the global context`: no
  axiom is used, not even of the standard library. The gate's list of "library axioms"
  names seven items of `Coq.ssr.ssrunder` (`Under_rel` and companions): these are fields of a module type
  of the standard library that is loaded with ssreflect by imported stdlib files; no theorem
  depends on them.
* No axioms, functors, module types, admitted proofs or unchecked definitions are used.

## Wrong programs

`seeded/LOG.jsonl` lists the edits of the model that were tried, with the theorems that failed.
`tools/mutate.py` applies an edit in a scratch copy and rebuilds what depends on it; edits that
leave every theorem provable are either harmless for the claim (noted) or led to a stronger
theorem (`theorems_tightened`).
