# Formal model of spacemeshos/svm in Rocq (Coq 8.16.1)

## Layout

* `properties.jsonl` - the properties, in English (C01...).
* `rocq/theories/` - the model, the specifications and the proofs.
  * `*Model.v`   - transcription of the Rust code, function by function; every
    definition carries a comment citing the file and lines in /repo.
  * `*Spec.v`    - small independent specifications (what a reader of the English
    property expects).
  * `*Proofs.v`  - lemmas (also `SectionCanon.v`, `CacheProofs.v`, `CfgProofs.v`,
    `PricingTotal.v`, `PricingExact.v`).
  * `*Props.v`   - only the property theorems, their satisfiability examples and
    `Print Assumptions`.
* `MANIFEST.json` - which theorems discharge which property, with status.
* `seeded/LOG.jsonl` - mutation experiments against the theorems: the model is
  edited as a realistic bug would change the program, and the theorems that stop
  proving are recorded.  Each survivor led to a tightened theorem, or has a note
  saying why the edit does not make any claim false.

## Conventions

* Machine integers are `N`/`Z` with explicit ranges; a byte is an `N` below 256
  and byte strings are `list N`.  Overflow follows a debug build (panic) unless a
  definition says otherwise.
* `Result`/`Option` stay data.  A Rust panic (failed `assert!`, `unwrap`,
  out-of-bounds, `todo!`) is an explicit outcome `Panic`, never hidden.
* `&mut self` methods return the new value.
* Hash functions, SQLite, wasmer, parity-wasm, serde_json's text syntax, the
  system allocator and the iteration order of Rust hash maps are not modelled
  internally.  Each is a function argument, an arbitrary list or an oracle of the
  model; assumptions on it, where needed, are explicit hypotheses of the theorem
  and an example beside the theorem meets them.
* SQLite tables are lists of rows with the semantics of the statements the code
  issues.  A wasm execution is an arbitrary finite sequence of host calls, chosen
  as a function of everything the contract can observe, with an arbitrary result.
* A property that the code violates is recorded as a `..._refuted` theorem (a
  concrete reachable counterexample), next to the strongest true variant, whose
  name ends in `_partial` when it does not cover the whole English statement.
  In `MANIFEST.json` such a property is `partial`.

## Plan per property

| Property | What is modelled | How it is proved |
|---|---|---|
| C01-C04 | `codec.rs` readers/writers over `list N` | equational round-trip lemmas composed field by field |
| C05 | same | inversion of each reader: accepted bytes = encoding of result |
| C06 | same, with an explicit Panic outcome | structural: no reader returns Panic, remainder is a suffix |
| C07 | same | prefix-freeness from C01/C05 |
| C08-C11 | `codec/src/receipt/*.rs` | round trip per receipt kind, with normalisation function in the spec |
| C12-C13 | `codec/src/section/*`, `sections/*` | induction over the section list |
| C14 | `layout/src/fixed.rs` | induction over the size list |
| C15-C20 | `state/src/storage.rs` as a state machine over table contents | refinement to an abstract versioned map; induction over operation lists; crash = prefix of the database writes of a commit |
| C21 | same, with the xor fingerprint and a hash parameter | determinism proved; data dependence refuted |
| C22-C23 | `account_storage.rs` segments | list-splicing lemmas over 32-byte segments |
| C24 | `Runtime::transfer` over the account table | sum invariant by induction |
| C25, C28-C30 | `runtime.rs` transactions with execution as an arbitrary host-call strategy | case analysis + induction over the execution |
| C26-C27 | `template_storage.rs`, `compute_account_addr` | map lemmas; refutation of C27 |
| C31 | `gas_tank.rs`, `types/src/gas` | arithmetic, induction over requests |
| C32-C33, C37 | `gas/src/graph`, `validation.rs` | Kahn invariant, induction on the residual graph |
| C34 | `graph/weight.rs` | invariant of relaxation over processed nodes; the end is processed exactly when every fed node it waits for is reachable |
| C35 | `cfg/builder.rs`, `pricing` | simulation between structured execution and CFG paths |
| C36 | same | refuted by concrete programs; true variant with reachability hypothesis |
| C38 | `gas/src/gas.rs` | interval arithmetic |
| C39-C40 | `program` crate | case analysis; refutations |
| C41-C43 | `abi-encoder`, `abi-decoder` | round trip by cases on the marker, induction over lists |
| C44-C47 | `sdk-types`, `sdk-std` | arithmetic, induction |
| C48 | `sdk-macros` storage layout, `sdk-storage` | induction over fields |
| C49 | `api/wasm/buffer.rs` | refinement of a heap of blocks to a store of byte strings |
| C50 | `resource_tracker.rs` | induction over operation lists |
| C51-C52 | `api/json` | digit-wise round trip; refutation |
| C53 | `codec.rs` | offsets computed from the encoders |
| C54-C56 | receipt and section codecs with Panic | exact abort condition by case analysis (C55, C56: ReceiptAbortSpec and AbortSpec give the grammar of what is read and what aborts; composed from the parts of each decoder); refutations by crafted bytes |
| C57-C58 | `account_storage.rs`, `global_state.rs` | refinement of reads to the storage log |
| C59-C60, C63-C66 | `runtime.rs`, `vmcalls/*` | frame lemmas over every execution of the host-call strategy |
| C61-C62 | `runtime.rs: verify`, `vmcalls/alloc.rs` | case analysis, counterexamples |
| C67-C70 | `codec.rs` primitives, `section/decode.rs` | independent UTF-8 specification; induction over lists |
| C71 | `program`, `gas/validation.rs` | termination measure over a small-step semantics of control flow |
| C72-C73 | `program` crate | case analysis over parsed modules |
| C74 | `pricing`, `graph/weight.rs`, `cfg/builder.rs` | converse simulation: every walk through the blocks is followed by a path of the program, callees first; refuted with a trapping callee |
| C75 | `sdk-types/amount.rs` | arithmetic with and without overflow checks |
| C76-C77 | `abi-decoder` | inversion of the decoder |
| C78-C80 | `func_env.rs`, `runtime.rs` | history variables of the execution: logs, return data, touched accounts |
| C81-C82 | `runtime.rs` queries, template price cache | induction over API histories, simulation with and without the cache |
| C83-C87 | `runtime-ffi/c_api.rs`, `resource_tracker.rs` | state machine of all handles; simulation, invariants |
| C88-C93 | `api/json/*.rs` over JSON trees | exact characterisation of accepted documents; refutations |
| C94, C95 | generated accessors as programs run by the runtime's host functions and by the mock | refinement of a store of typed values; refutation for raw calls |
| C96 | the layer calls of the C interface on one runtime | invariant over histories of calls, C23; refutation for the first layer |
| C97 | the template macro's description, the deploy command and the section encoder, with the hash-map order and the compiler as parameters | composition: macro output, JSON round trip, section round trip (C12), layout agreement (C48) |
| C98 | annotation parsing and validation, expansion of functions and structs | equivalence with declarative rules, by induction over attributes and functions; refutations for three gaps |
| C99 | generated entry code (arguments, body, answer) on the runtime's call path, byte by byte in the contract's memory; the body is a parameter | memory framing for the answer's encoder, composed with the codec round trip; refutations where the allocator's regions overlap |
| C100 | the import object the runtime registers, the `extern` blocks of the SDK, the imports a compiled contract has | inclusion of the imports in the import object; instantiation failure followed through call and spawn; refutations for the functions the runtime does not provide |
| C101 | the mock host with its hash map keyed by pointers, searches as an oracle | refinement to a map from address bytes, by induction over the history; refutations for equal addresses, self-transfers, resets and arrays |
| C102 | schema, query and JSON renderer; the storage read from is a function, and the account storage of the model | rendering proved equivalent to a relation between types, bytes and documents; induction over queries; composition with the account storage; refutations for integers and balances |
| C103 | `svm-cli tx`: files as a function from names to contents, a disk that may refuse or cut a write, the text parser of serde_json as argument | the encoding proved equivalent to a description of the document; functional correctness of the writes; refutations for hexadecimal inputs, reports and atomicity |
| C104 | `svm-cli validate` with the example price resolver; parsers of the text and the binary format are arguments | case analysis of the verdict; prices compared with those of the node; bound from the execution theorem of C35; refutations for status, deployability and prices of transfers |
| C105 | the runtime and the C interface, as they are; prices are those of the engine | spawn: case analysis of the tank; calls: equality for any two envelopes; refutation by a call on a limit of one |
| C106 | the runtime of C24-C31 driven by arbitrary lists of API calls; supply is the sum over a complete list of accounts | induction over the history: each call adds what it issues (exact without rewinds and respawns); at-most invariant over the present and all layers for histories with rewinds; a new runtime has no accounts; the balance sheet with coins made by self-transfers and lost in respawns, by induction with the exact loss of each call |
| C107 | `Template`, `Sections` and their builders as lists of sections; the message builders of runtime-testing | refinement of the edits to a table (section kind to section), induction over the edits; C66 and the round trips of C03-C05 for the built messages |
| C108 | `GlobalState::new` with any genesis, `GenesisConfig::mainnet` with its wasm as a parameter | effect of each template write on the keys it owns; storage history from the genesis layer on; the mainnet genesis is byte for byte the one of a canonical template |
| C109 | nothing new: runtime, receipt codec and C interface together | invariants of the function environment while code runs (logs are bytes, touched accounts are distinct addresses), of the storage (state roots are 32 bytes) and of the engine's texts; then exactly which receipts encode |
| C110 | nothing new | decoding succeeds exactly on encodings (C04-C06); case analysis of the entry points |
| C111 | `V0PriceResolver` | the charge of every instruction split over the tariff; induction over executions; C35 for the bound |
| C112 | `string/mod.rs`, `string/builder.rs` over the vector of C45 | case analysis on the bytes; induction over the strings pushed |
| C113 | `result.rs` over a memory of allocated blocks, undefined behaviour explicit | refinement to a table of contents; ownership invariant: blocks in use are exactly those of the results not yet given back, each owned once |
| C114 | the ABI decoder on a buffer and on its continuation | simulation: on a cut buffer every decoder does what it does on the whole one, or lacks bytes; with C41 the first is excluded |
| C115 | no new code: the models of the JSON codec, the C interface, the runtime and the SDK's endpoints together | composition of C90, C84, C109, C99, C121, C92 and the decoding of shown values; a receipt has a document only if its logs are text |
| C116 | no new code: the models of the JSON codec, the C interface, the runtime and the SDK's endpoints together | composition of C91, C84, C109, C27, C60, C99, C121 and C115 |
| C117 | no new code: the runtime's execution of calls, verifications and spawns | a relational specification of running, failing and returning, written without the model's execution functions; equivalence by walking through the stages in both directions; success by the invariant that what a run leaves can be committed |
| C118 | no new code: reading modules, the fixed-gas rules, deployment validation | a specification of acceptance and of each refusal over the module alone; each reason forces its answer, and some reason applies to every module that is not accepted, so both directions hold |
| C119 | price registry, lookup of exports, the exports and prices of a code computed from the parsed module instead of taken from the engine | C117 gives the price compared with the limit, C82/C78's history invariant that the code was known and hence valid, C111 that the price pays for every execution, C74 that it is that of a path |
| C120 | the decoder as a state (pending preview, sections read, sections announced, bytes left), its four operations, the encoder in portions, the checks of craft-deploy | induction over the sections with the round trip of one section (C12); refinement to the whole decoder; induction over the operations for the order |
| C121 | the decoder of arguments working in the contract's memory: each array allocates a vector through the host and writes its values there while the arguments are still being read | memory framing (the vectors stand behind the arguments), induction over the parameters, composed with C41 and the answer's encoder of C99 |
| C122 | the SDK functions with debug assertions or built-in arithmetic, with the checks as a parameter | the builds agree step by step (digits are below ten, nibbles below sixteen, variables below 2^32), composed with C46, C47, C48 and C112 |
| C123 | the transactions of the runtime with its debug assertions, the build being a parameter | both interpreters of contract code are compared by induction over the interaction tree; contracts giving one answer at most never meet the assertion that can fail; for all contracts the checked node gives the same result or panics |
| C124 | The decoder of AbiModel on arbitrary bytes. A separate relation `says b v` lists, per marker, the contents that may follow; decoding is shown equivalent to it by cases on the marker and induction on the elements, and errors equivalent to being a proper beginning of such bytes. |
| C125 | The runtime model of C24-C31. An invariant over the layered store, shown for every prefix of layers, the staged and the pending writes: the immutable and the mutable half of each record are present together and a record's template is present. From it the exact outcome of each call; restoring after rewind through the refinement to a log of writes. |
| C126 | The host calls answered during a call are the session of C78-C80; its payments are read off them. By induction over the contract's behaviour each host call changes the balances by its payment, if any; then composed over start function, `svm_alloc` and the function itself, and carried through the commit. The sums per account follow from the order-sensitive statement. |
| C127 | As C126, with the stores read off the session. A relation that holds for every host call and composes holds for whole calls and spawns (`TraceProofs.v`, shared with C126); here: each variable has the last value stored. Per host call this is C22 and C23. |
| C128 | A relation between two runs: every function on the global state, run in two states that read the same, answers the same and leaves states that read the same. It is closed under sequencing, so it holds of each host call, by induction on the interaction tree of contract code, and up to whole calls and spawns; the final commit keeps it and succeeds in both. Histories by induction on the list of operations. |
| C129 | As C128, with a relation that compares only the keys a call may read: templates, account records, the balances of a list of accounts, the variables of the called one. Every host call that touches listed accounts keeps it and answers the same. The touched set only grows during a call, so the list in the final receipt serves for every step; by induction on the interaction tree. |
| C130 | From C129 and the frame of a successful call: the first call changes only balances of accounts it lists and variables of its target, so the state it leaves agrees with the first one on all the second call depends on, and the other way round. Entry by entry, the two final states read the same. |

## Trusted base

* Coq 8.16.1's kernel.  No kernel check is switched off; `native_compute` is not
  used; `vm_compute` is, so the VM is part of the kernel that is trusted.
* Axioms: `Print Assumptions` under every theorem of every `*Props.v` prints
  "Closed under the global context", that is, no axiom of any kind, neither of
  the standard library nor of another library.  (`vcheck` lists seven constants
  of `Coq.ssr.ssrunder` as library axioms of the loaded environment; they come
  with the standard library's `ssreflect` module type and no theorem depends on
  them.)
* Libraries used: the Coq standard library only.
* The transcription from Rust to Gallina, reviewed by hand against the cited
  lines.
* The English reading of the `*Spec.v` files.

## What is modelled

| Rust | Model |
|---|---|
| `codec/src/codec.rs`, `ext.rs`, `field.rs`, `types/src/{transaction,spawn_account,...}` | `CodecModel.v` |
| `codec/src/receipt/*`, `types/src/receipt/*`, `types/src/error.rs` | `ReceiptModel.v` |
| `codec/src/section/*`, `codec/src/template.rs`, `types/src/template/*` | `SectionModel.v` |
| `layout/src/*` | `LayoutModel.v` |
| `state/src/storage.rs` | `StorageModel.v` |
| `state/src/{global_state,account_storage,template_storage}.rs` | `GlobalModel.v` |
| `runtime/src/{runtime/runtime,func_env,vmcalls/*}.rs`, `types/src/gas`, `gas_tank.rs` | `RuntimeModel.v` |
| `gas/src/graph/*`, `gas/src/call_graph` | `GraphModel.v` |
| `gas/src/{cfg,pricing}/*`, `gas/src/gas.rs` | `PricingModel.v` |
| `program/src/*`, `gas/src/validation.rs` | `ProgramModel.v` |
| `sdk-types`, `sdk-std`, `sdk-storage`, the layout part of `sdk-macros` | `SdkModel.v` |
| `abi-encoder`, `abi-decoder`, `abi-layout` | `AbiModel.v` |
| `runtime-ffi/src/*` | `FfiModel.v` |
| `codec/src/api/wasm/*` | `BufferModel.v` |
| `codec/src/api/json/*` | `JsonModel.v` |
| `wasm/sdk-macros/src/struct/storage.rs` (accessors), `wasm/sdk-storage`, `wasm/sdk-storage-ffi`, `wasm/sdk-storage-mock` | `TypedModel.v` |
| `wasm/sdk-macros/src/{template,meta,json,type}.rs`, `function/*`, `struct/mod.rs`, `cli/src/subcmd_craft_deploy/*` | `MacroModel.v` |
| `wasm/sdk-macros/src/function/endpoint.rs` (generated code), `wasm/sdk-host-ffi/src/ext.rs`, `wasm/sdk-std/src/vec.rs` (`Node`, vectors in the contract's memory) | `EndpointModel.v` |
| `host/runtime/src/vmcalls/mod.rs` (registration), `wasm/sdk-{host-ffi,storage-ffi,alloc,std}` (`extern` blocks) | `LinkModel.v` |
| `wasm/sdk-host-mock/src/lib.rs`, `wasm/sdk-types/src/blob.rs` (equality and hash of addresses) | `HostModel.v` |
| `host/query/src/{query,render,schema}.rs` | `QueryModel.v` |
| `host/cli/src/{subcmd_tx,subcmd_validate}.rs`, `host/gas/src/pricing/resolvers/example.rs`, printing in `func_price.rs` | `CliModel.v` |
| `types/src/template/mod.rs` accessors and builders, `sections.rs`, `genesis-config/src/lib.rs`, `runtime-testing/src/lib.rs` | `TemplateModel.v` |
| `runtime-ffi/src/result.rs` (memory of results) | `ResultModel.v` |
| `runtime/src/price_registry.rs`, `runtime/src/runtime/price_cache.rs:32-46`, `program/src/exports.rs:46-48` | `ChargeModel.v` |
| `codec/src/section/decode.rs` (step by step), `codec/src/section/encode.rs:13-66`, `cli/src/subcmd_craft_deploy/mod.rs:85-118` | `StepModel.v` |
| `wasm/abi-decoder/src/decoder.rs:75-120,263-294`, `wasm/abi-decoder/src/calldata.rs`, `wasm/sdk-macros/src/function/endpoint.rs:57-96`, `wasm/sdk-types/src/value.rs:124-208` in the contract's memory | `ParamModel.v` |
| `wasm/sdk-std/src/string`, `wasm/sdk-types/src/{amount,layer_id,blob}.rs`, `wasm/sdk-storage/src/lib.rs:173-182`, `wasm/sdk-std/src/vec.rs:158-163`, in both builds | `BuildModel.v` |
| `host/runtime/src/func_env.rs:199-226`, `host/runtime/src/runtime/runtime.rs:161-185, 375-389, 823-856` with debug assertions | `CheckedModel.v` |
| `runtime/runtime.rs`, `account_storage.rs`, `storage.rs` over histories | `RuntimeModel.v`, `SupplySpec.v` |

## What is not modelled

* The texts of error replies of the C interface and of validation errors (the texts
  inside receipts are modelled), `tracing`/log output, `Debug` and `Display` of host
  types (except the address, amount and layer rendering of the SDK).
* `wasmer`, compilation and wasm data: the execution of a contract is an arbitrary
  strategy over host calls.  Control flow of wasm is modelled for C35 and C71 with
  the data abstracted, so that every real execution is one of the modelled ones.
* parity-wasm: theorems about programs start from a parsed module.
* serde_json's text syntax: JSON values are trees; objects with repeated keys do
  not occur in a tree (`serde_json` keeps the last).
* SQLite beyond the statements issued by `storage.rs`, file locking, and threads:
  the storage is used by one runtime, C API calls are a sequence (the library is
  documented as single-threaded); the async database calls are awaited in order.
* How `cli` parses its arguments (clap) and reads files (its subcommands are modelled,
  over a file system given as a function); how `sdk-macros` parses Rust tokens
  (contracts are trees of functions, attributes and structs) and the Rust compiler,
  which is a parameter; the wasm of the genesis template (a parameter); the `*-testing`
  and mock crates other than the builders of messages, the mock storage and the mock
  host; the tests and the examples.
* Memory safety of `unsafe` Rust, other than the wasm buffers (C49) and the handle
  table of the C interface (C50).

## Findings

Places where the code does not do what its interface promises, each with a
machine-checked counterexample:

| Theorem | Finding |
|---|---|
| `C02_envelope_zero_gas_refuted` | an explicit gas limit of zero decodes as "no limit" |
| `C12_empty_layout_refuted`, `C12_large_variable_refuted` | layouts that are encoded but not decoded back |
| `C13_announced_size_trusted_refuted` | a section's announced size is used only when skipping |
| `C14_try_get_total_refuted` | looking up an undeclared id below the first one aborts |
| `C17_rewind_to_root_refuted`, `C17_rewind_below_root_refuted` | rewinding to the root layer or below damages the storage |
| `C19_failed_commit_refuted` | a database failure inside commit leaves half a commit |
| `C20_reopen_refuted`, `C86_reopen_refuted` | a database that was used before cannot be opened again |
| `C21_fingerprint_refuted` | the state root does not depend on the data |
| `C24_self_transfer_refuted`, `C24_overflow_refuted` | a transfer to oneself mints coins; an overflowing receiver destroys them |
| `C25_failed_call_refuted` | writes of a failed call are kept and later committed |
| `C26_templates_permanent_refuted` | deploying the same code again replaces the template's other sections |
| `C27_own_address_refuted` | the account address depends on the template only; a second spawn takes over the first account |
| `C31_exact_gas_refuted` | spawning with exactly the needed gas is out of gas |
| `C34_every_dag_refuted`, `C36_*_refuted` | the price computation aborts on valid programs |
| `C35_executions_bounded_refuted` | control instructions are never charged |
| `C37_*_refuted` | the reported call cycle need not be one; the search may abort |
| `C39_no_floats_refuted` | ten floating-point instructions are accepted |
| `C40_function_limit_refuted` | imports and definitions are limited separately |
| `C41_eight_refuted`, `C42_eight_refuted` | an array of eight elements is encoded but cannot be decoded |
| `C43_byte_size_refuted` | asking an array for its size aborts |
| `C47_layer_refuted` | rendering a layer from 10^18 on aborts |
| `C48_wide_index_refuted` | a 64-bit index is cut to 32 bits before the bound check |
| `C52_gas_refuted` | the largest gas is shown as "no gas", gas from 2^63 as negative |
| `C54_*_refuted`, `C55_*_refuted`, `C56_*_refuted` | receipt and template codecs abort on crafted input |
| `C58_variables_refuted` | variables ignore the layer parameter |
| `C59_touched_covers_failures_refuted` | a failed call changes balances of accounts that its receipt does not list |
| `C61_accepting_contract_refuted` | verification never reports success |
| `C62_regions_from_offset_refuted` | the static allocator returns the end of the region |
| `C63_every_variable_refuted` | integers are truncated silently to the variable's size |
| `C64_commit_refuted` | commit after a deploy, transfer or balance increase returns an error |
| `C65_spends_own_coins_refuted` | a contract can spend the coins of any account |
| `C66_accepted_messages_deploy_refuted` | an accepted message with 255 constructors aborts deploy |
| `C73_validation_answers_refuted` | an exported import named `svm_alloc` aborts validation |
| `C74_dearest_execution_refuted` | a price counts what follows a call that always traps |
| `C75_unchecked_*_refuted` | amounts wrap around in the profile of the example contract |
| `C77_unique_encoding_refuted` | numbers are accepted with leading zero bytes |
| `C78_all_logs_refuted` | logs written while arguments are allocated are lost |
| `C85_address_refuted` | the address of a returned account record is never written |
| `C86_lockout` | one failed runtime creation locks the library |
| `C87_error_harmless_refuted`, `C87_validated_harmless_refuted` | a rewind to a missing layer, or deploying a validated message, makes a runtime useless |
| `C88_reports_refuted`, `C93_reports_refuted` | the JSON interface aborts on ill-typed values and undecodable bytes |
| `C89_round_trip_refuted`, `C90_round_trip_refuted` | empty arrays and arrays of eight do not survive the JSON interface |
| `C91_round_trip_refuted` | a spawn whose call data was given as arbitrary bytes is encoded, and aborts the decoder |
| `C90_complete_refuted` | surplus types or values of a call are dropped silently |
| `C92_shows_refuted` | a log that is not UTF-8 aborts the receipt decoder |
| `C95_raw_calls_refuted` | the mock storage keeps 32 bits of a one-byte variable, the chain keeps 8 |
| `C96_first_layer_refuted` | a new runtime cannot tell its layer: the genesis layer is -1, which does not fit the answer |
| `C97_type_names_refuted` | the type names in a contract's description are not the names the JSON interface takes |
| `C98_ctor_hook_refuted` | a constructor that is also a fundable hook is accepted and the hook dropped |
| `C98_default_word_refuted` | any word behind `fundable_hook` makes the hook the default |
| `C98_plain_struct_refuted` | a struct that is not the storage aborts the macro |
| `C99_arguments_kept_refuted` | an address argument is overwritten by the next address read from storage |
| `C99_pick_refuted` | a function that returns some of its address arguments returns wrong bytes |
| `C100_sdk_functions_refuted` | SDK functions for coins, addresses, layers and logs are imported under names the runtime does not register |
| `C100_accepted_contracts_refuted` | every accepted contract with an entry that takes funds fails at instantiation |
| `C100_validation_ignores_imports` | deploy-time validation does not look at imports, so it accepts templates that can never run |
| `C101_equal_addresses_refuted` | addresses are hashed by pointer and compared by bytes: on the mock host coins given to an address are not seen at an equal address |
| `C101_self_transfer_refuted` | on the mock host a transfer to oneself creates coins |
| `C101_reset_refuted` | resetting the mock host leaves the balances of the previous test |
| `C101_array_arguments_refuted` | arrays cannot be set as calldata of a test (asking their size aborts) |
| `C102_integers_refuted` | the storage keeps integers little endian, the client shows them read big endian: 1 is shown as 72057594037927936 |
| `C102_answers_refuted` | looking at a variable of type balance aborts (`todo!`), so does a truth value that is not one byte long |
| `C103_hexadecimal_refuted` | the tool aborts on inputs in hexadecimal, which the JSON interface takes |
| `C103_reports_refuted` | mistakes in documents abort the tool instead of being reported |
| `C103_atomic_refuted` | an error of the disk leaves a file with a part of the message |
| `C104_status_refuted` | the tool ends with success although it refused the file |
| `C104_deployable_refuted` | modules with indirect calls, or without the exports a node wants, are called valid and priced |
| `C104_priced_refuted` | the tool aborts (`unreachable!`) on templates that nodes take, such as those that transfer coins |
| `C105_call_limit_refuted`, `C105_calls_ignore_limit` | calls and verifications run whatever the gas limit is |
| `C105_nothing_reported` | receipts of spawns and calls never report gas |
| `C106_self_transfer_refuted` | a transfer from an account to itself makes coins: the accounts own more than was ever issued |
| `C106_respawn_refuted` | spawning a template a second time destroys the coins of the account spawned first |
| `C107_documented_refuted` | `Template::from_sections` does not panic without the mandatory sections, and `with_header(None)` / `with_deploy(None)` do not remove the section, against their documentation |
| `C108_mainnet` (last part) | the genesis template of the main network names no constructor, so every spawn of it is refused (`FuncNotCtor`) while it stays as written |
| `C109_error_undone_refuted` | a call that succeeds but logs 256 times (or returns or touches too much) is answered with an error while its payments are kept |
| `C110_refused_deploy_refuted` | a deployment whose code validation refuses is deployed all the same when it is submitted |
| `C110_accepted_refuted` | a call that passes validation is answered with an internal error when its account does not exist |
| `C111_transfer_unlisted` | `svm_transfer` is missing from the price list: moving coins costs 1000, setting a variable of 4 bytes 1000000 |
| `C113_unwrap_refuted`, `C113_unwrap_dangles` | `svm_result_t::unwrap` of a receipt returns a vector whose bytes it has freed: every use of it is undefined, dropping it frees them twice |
| `C113_clone_refuted` | a clone of an `svm_result_t` shares its bytes, which both free |
| `C120_twice_refuted` | handing the encoder a section of a kind it already has appends its bytes to the earlier one, and the message is misread |
| `C121_long_arguments_refuted` | with an array among the parameters and more than 22 values' worth of argument bytes, decoding the array overwrites arguments that are still to be read (the vector's capacity is the marker byte and the allocator's region starts right behind it) |
| `C122_long_short_string_refuted` | without debug assertions a short string of more than eight bytes is made; it aborts only when it is used |
| `C122_digit_refuted` | without debug assertions a number above nine shows a character as if it were a digit |
| `C122_vector_room_refuted` | without overflow checks a vector of 2^28 items of 16 bytes asks for no memory, and its items are written outside |
| `C123_builds_agree_refuted` | a contract that sets its returndata twice gets a receipt from a node without debug assertions and stops a node with them |
| `C125_queries_answer_refuted` | The address of a template depends on its code alone. Deploying the same code again without a data layout makes every later query of, payment to and payment from the accounts of that template abort the node (`template_layout` unwraps the first layout). |
| `C127_fresh_refuted` | an account spawned at the address of an earlier one starts with the earlier account's variables, not with zeros |
| `C128_state_refuted` | two nodes with the same contents, one with an empty commit more, report different state fingerprints for the same call |

## Assumptions of each theorem

`Print Assumptions` answers "Closed under the global context" for each of:

* C01: `C01_transaction_round_trip`
* C02: `C02_envelope_round_trip`, `C02_envelope_zero_gas_refuted`
* C03: `C03_context_round_trip`
* C04: `C04_spawn_round_trip`
* C05: `C05_context_canonical`, `C05_envelope_canonical`, `C05_spawn_canonical`, `C05_transaction_canonical`
* C06: `C06_decoders_total`
* C07: `C07_context_truncation`, `C07_envelope_truncation`, `C07_spawn_truncation`, `C07_transaction_truncation`
* C08: `C08_call_receipt_round_trip`
* C09: `C09_spawn_receipt_round_trip`
* C10: `C10_deploy_receipt_round_trip`
* C11: `C11_receipt_kind_preserved`, `C11_receipt_round_trip`
* C12: `C12_empty_layout_refuted`, `C12_large_variable_refuted`, `C12_mandatory_sections`, `C12_template_round_trip`
* C13: `C13_announced_size_trusted_refuted`, `C13_selective_decoding`
* C14: `C14_layout_defined_iff`, `C14_layout_offsets`, `C14_layout_partitions_storage`, `C14_try_get_total_refuted`
* C15: `C15_checkpoint_keeps_reads`, `C15_storage_refines_log`, `C15_upsert_then_get`, `C15_upsert_then_get_key`
* C16: `C16_committed_layers_immutable`
* C17: `C17_rewind_below_root_refuted`, `C17_rewind_restores`, `C17_rewind_to_root_refuted`
* C18: `C18_boundaries`, `C18_rollback_exact`
* C19: `C19_commit_exact`, `C19_failed_commit_refuted`, `C19_guarded`
* C20: `C20_crash_commit_partial`, `C20_reopen_refuted`
* C21: `C21_fingerprint_deterministic_partial`, `C21_fingerprint_refuted`
* C22: `C22_inaccessible`, `C22_set_then_get`, `C22_widths`
* C23: `C23_isolation`
* C24: `C24_call_conserves`, `C24_overdraft_refused`, `C24_overflow_refuted`, `C24_self_transfer_refuted`, `C24_sum_invariant`, `C24_transfer_moves`, `C24_transfer_succeeds`
* C25: `C25_failed_call_partial`, `C25_failed_call_refuted`, `C25_failed_deploy`, `C25_failed_spawn_partial`
* C26: `C26_deploy`, `C26_templates_permanent_refuted`
* C27: `C27_own_address_refuted`, `C27_spawn_partial`
* C28: `C28_verify_reads_only`
* C29: `C29_call_of_constructor_refused`, `C29_spawn_of_other_refused`, `C29_spawn_runs_constructor`
* C30: `C30_deploy_price`
* C31: `C31_consume`, `C31_exact_gas_refuted`, `C31_never_refills`, `C31_spawn_out_of_gas`
* C32: `C32_accepts_exactly`, `C32_chains_bounded`, `C32_loops`, `C32_same_with_cycles`, `C32_stack_bounded`
* C33: `C33_cycle_detection_exact`, `C33_self_edge_aborts`, `C33_sort_exact`
* C34: `C34_every_dag_refuted`, `C34_path_exact`, `C34_path_found_exactly`
* C35: `C35_executions_bounded_partial`, `C35_executions_bounded_refuted`, `C35_instruction_count`
* C36: `C36_both_arms_return_refuted`, `C36_dead_code_refuted`, `C36_missing_function_refuted`, `C36_overflow_refuted`, `C36_priced_partial`
* C37: `C37_report_aborts_refuted`, `C37_report_exists_partial`, `C37_reported_chain_partial`, `C37_reported_cycle_refuted`
* C38: `C38_choice`, `C38_laws`, `C38_sequence`
* C39: `C39_floats_refused_partial`, `C39_no_floats_partial`, `C39_no_floats_refuted`
* C40: `C40_function_limit_partial`, `C40_function_limit_refuted`
* C41: `C41_eight`, `C41_eight_refuted`, `C41_format`, `C41_prefix_free`, `C41_round_trip_partial`
* C42: `C42_eight`, `C42_eight_refuted`, `C42_injective`, `C42_iterate_partial`, `C42_typed_partial`
* C43: `C43_array_size_aborts`, `C43_byte_size_partial`, `C43_byte_size_refuted`, `C43_max_byte_size`, `C43_max_byte_size_least`
* C44: `C44_subtraction`
* C45: `C45_bounded_stack`, `C45_from_items`
* C46: `C46_numeral_unique`, `C46_signed`, `C46_unsigned`
* C47: `C47_address`, `C47_amount`, `C47_layer_aborts`, `C47_layer_partial`, `C47_layer_refuted`
* C48: `C48_agrees_with_layout`, `C48_array_access`, `C48_array_cell`, `C48_disjoint`, `C48_wide_index_refuted`
* C49: `C49_defined`, `C49_header`, `C49_store`
* C50: `C50_count`, `C50_handles`
* C51: `C51_hex`
* C52: `C52_ambiguous`, `C52_gas_refuted`, `C52_shown_partial`
* C53: `C53_context_layout`, `C53_envelope_layout`, `C53_transaction_layout`
* C54: `C54_encodes_exactly`, `C54_receipt_encoding_aborts_exactly_partial`, `C54_receipt_encoding_refuted`
* C55: `C55_aborts_exactly`, `C55_reads_exactly`, `C55_receipt_decoding_refuted`, `C55_successful_receipt_decoding_total_partial`
* C56: `C56_aborts_exactly`, `C56_reads_exactly`, `C56_selective_decoding_total_partial`, `C56_template_decoding_refuted`
* C57: `C57_create`, `C57_create_stub`, `C57_set_balance`, `C57_set_counter`
* C58: `C58_records_at_layer_partial`, `C58_variables_refuted`
* C59: `C59_any_outcome`, `C59_call_isolated`, `C59_touched_covers_failures_refuted`
* C60: `C60_call_commits`, `C60_spawn_commits`
* C61: `C61_accepting_contract_refuted`, `C61_verify_never_succeeds`, `C61_verify_runs_svm_verify`
* C62: `C62_regions_from_offset_refuted`, `C62_static_alloc_partial`
* C63: `C63_any_size`, `C63_every_variable_refuted`, `C63_set32_get32`, `C63_set64_get64`, `C63_short_variables`
* C64: `C64_commit_exactly`, `C64_commit_partial`, `C64_commit_refuted`
* C65: `C65_spends_asked_partial`, `C65_spends_own_coins_refuted`
* C66: `C66_accepted_messages_deploy_refuted`, `C66_deploy_succeeds`, `C66_deploys_exactly`
* C67: `C67_text_is_utf8`, `C67_text_round_trip`
* C68: `C68_sequence_canonical`, `C68_sequence_limit`, `C68_sequence_round_trip`
* C69: `C69_success_flag`
* C70: `C70_last_section_wins`
* C71: `C71_terminates`
* C72: `C72_required_exports`
* C73: `C73_aborts_exactly`, `C73_errors_exactly`, `C73_validation_answers_partial`, `C73_validation_answers_refuted`
* C74: `C74_dearest_execution_partial`, `C74_dearest_execution_refuted`, `C74_dearest_path`
* C75: `C75_checked_partial`, `C75_unchecked_mul_refuted`, `C75_unchecked_refuted`
* C76: `C76_decoded_value`, `C76_iteration_ends`
* C77: `C77_encoder_is_minimal_partial`, `C77_unique_encoding_refuted`
* C78: `C78_all_logs_refuted`, `C78_logs_partial`, `C78_spawn_logs_partial`
* C79: `C79_returndata`, `C79_spawn_returndata`
* C80: `C80_spawn_touched_exact`, `C80_touched_exact`
* C81: `C81_created`, `C81_increased`, `C81_only_existing`, `C81_transferred`
* C82: `C82_cache_transparent`
* C83: `C83_isolated`
* C84: `C84_behind_handles`, `C84_transparent`
* C85: `C85_address_refuted`, `C85_genesis_account`
* C86: `C86_create_exactly`, `C86_create_partial`, `C86_lockout`, `C86_reopen_refuted`, `C86_uninitialised`
* C87: `C87_bricked_by`, `C87_bricked_exactly`, `C87_bricked_forever`, `C87_error_harmless_refuted`, `C87_looking`, `C87_validated_harmless_refuted`
* C88: `C88_encode`, `C88_reports_refuted`
* C89: `C89_decodes_exactly`, `C89_identity_partial`, `C89_round_trip_partial`, `C89_round_trip_refuted`
* C90: `C90_complete_refuted`, `C90_decodes_exactly`, `C90_encode`, `C90_only`, `C90_round_trip_partial`, `C90_round_trip_refuted`
* C91: `C91_decode`, `C91_decodes_exactly`, `C91_encode`, `C91_only`, `C91_round_trip_partial`, `C91_round_trip_refuted`
* C92: `C92_decodes_exactly`, `C92_faithful_partial`, `C92_order`, `C92_shows_partial`, `C92_shows_refuted`
* C93: `C93_aborts_exactly`, `C93_blame`, `C93_reports_partial`, `C93_reports_refuted`
* C94: `C94_fresh`, `C94_typed_storage`
* C95: `C95_mock_agrees_partial`, `C95_raw_calls_refuted`
* C96: `C96_before_first_commit`, `C96_first_layer_refuted`, `C96_layers`
* C97: `C97_description`, `C97_limits`, `C97_message`, `C97_type_names_refuted`
* C98: `C98_accepts`, `C98_ctor_hook_refuted`, `C98_default_word_refuted`, `C98_exports`, `C98_functions`, `C98_implicit_hook`, `C98_plain_struct_refuted`
* C99: `C99_arguments_kept_refuted`, `C99_call_partial`, `C99_completes_partial`, `C99_echo`, `C99_no_result`, `C99_other_arguments`, `C99_pick_refuted`
* C100: `C100_accepted_contracts_refuted`, `C100_call_fails`, `C100_links`, `C100_other_imports`, `C100_sdk_functions_refuted`, `C100_spawn_fails`, `C100_validation_ignores_imports`
* C101: `C101_agrees_partial`, `C101_arguments`, `C101_array_arguments_refuted`, `C101_equal_addresses_refuted`, `C101_no_trace`, `C101_reset_partial`, `C101_reset_refuted`, `C101_self_transfer_refuted`, `C101_transfer`
* C102: `C102_aborts`, `C102_account`, `C102_answers_refuted`, `C102_distinguishes`, `C102_integers_partial`, `C102_integers_refuted`, `C102_query`, `C102_renders`, `C102_session`
* C103: `C103_atomic_refuted`, `C103_call`, `C103_exact`, `C103_hexadecimal_refuted`, `C103_other_files`, `C103_reports_refuted`, `C103_same_as_interface`, `C103_spawn`, `C103_system_errors`
* C104: `C104_aborts`, `C104_bound_partial`, `C104_deployable`, `C104_deployable_refuted`, `C104_priced_refuted`, `C104_prices`, `C104_status_refuted`, `C104_unreadable`, `C104_valid`
* C105: `C105_call_limit_refuted`, `C105_calls_ignore_limit`, `C105_gas_amounts`, `C105_nothing_reported`, `C105_spawn`
* C106: `C106_accounted_partial`, `C106_balance_sheet_partial`, `C106_never_more`, `C106_never_more_than_made_partial`, `C106_respawn_refuted`, `C106_rewound`, `C106_self_transfer_refuted`, `C106_start`
* C107: `C107_built_messages`, `C107_built_template_deploys`, `C107_documented_refuted`, `C107_edits`, `C107_executable`, `C107_readers`
* C108: `C108_deployer`, `C108_genesis_kept`, `C108_genesis_starts`, `C108_library`, `C108_mainnet`
* C109: `C109_answered`, `C109_error_undone_refuted`, `C109_receipts`
* C110: `C110_accepted_refuted`, `C110_refused`, `C110_refused_deploy_refuted`, `C110_validation`
* C111: `C111_executions_cost`, `C111_price_pays`, `C111_transfer_unlisted`
* C112: `C112_builder`, `C112_short`, `C112_unchecked`
* C113: `C113_clone_refuted`, `C113_flags`, `C113_ownership_partial`, `C113_unwrap_dangles`, `C113_unwrap_refuted`
* C114: `C114_truncated_arguments`, `C114_truncated_value`
* C115: `C115_call_any_partial`, `C115_call_partial`, `C115_echo_any_partial`, `C115_echo_partial`, `C115_primitive_documents`, `C115_results`
* C116: `C116_spawn_any_partial`, `C116_spawn_partial`, `C116_then_call_any_partial`, `C116_then_call_partial`
* C117: `C117_call`, `C117_call_succeeds`, `C117_spawn`, `C117_spawn_succeeds`, `C117_verify`
* C118: `C118_aborts`, `C118_accepts`, `C118_deploy`, `C118_refuses`, `C118_rules`
* C119: `C119_limit_covers`, `C119_price_known`, `C119_refused_exactly`, `C119_registry`
* C120: `C120_craft_checks`, `C120_leaving_total`, `C120_order`, `C120_portions`, `C120_same`, `C120_twice_refuted`, `C120_walk`
* C121: `C121_call_partial`, `C121_completes_partial`, `C121_echo_partial`, `C121_eight_partial`, `C121_long_arguments_refuted`, `C121_no_result_partial`, `C121_other_arguments_partial`, `C121_primitive_parameters`
* C122: `C122_address`, `C122_amount`, `C122_array_cells`, `C122_digit_refuted`, `C122_digits`, `C122_layer`, `C122_long_short_string_refuted`, `C122_no_digits`, `C122_short`, `C122_signed`, `C122_unsigned`, `C122_vector_room`, `C122_vector_room_refuted`
* C123: `C123_builds_agree_refuted`, `C123_no_other_receipt_partial`, `C123_one_answer_partial`, `C123_release`
* C124: `C124_arguments_exactly`, `C124_encoder_says`, `C124_errors_exactly`, `C124_unambiguous`, `C124_value_exactly`, `C124_values_exactly`
* C125: `C125_create_exactly`, `C125_increase_exactly`, `C125_queries_answer_refuted`, `C125_query_exactly`, `C125_record_whole`, `C125_rewind_exactly`, `C125_transfer_exactly`
* C126: `C126_call_pays`, `C126_call_sums`, `C126_spawn_pays`
* C127: `C127_call_stores`, `C127_fresh_refuted`, `C127_spawn_stores`
* C128: `C128_answers_alike`, `C128_call_alike`, `C128_history_alike`, `C128_spawn_alike`, `C128_state_refuted`
* C129: `C129_call_local`, `C129_call_local_values`
* C130: `C130_balances_commute`, `C130_calls_commute`
