{"id": "C01", "title": "Transaction codec round trip", "statement": "Encoding any Transaction whose strings/inputs fit their length prefixes succeeds, and decoding the bytes followed by any trailing data returns exactly the same Transaction and leaves exactly the trailing data.", "quantifier": "every Transaction (version, target, function name, verifydata, calldata) and every trailing byte string", "why_tests_cant": "The value space (lengths, integers, byte contents) is unbounded for practical purposes; tests sample a handful of values.", "anchors": ["crates/host/codec/src/codec.rs: impl Codec for Transaction, String, DataWithPrefix"]}
{"id": "C02", "title": "Envelope codec round trip", "statement": "Decoding an encoded Envelope followed by any trailing data gives back the Envelope and the trailing data, for every gas limit except an explicit limit of zero, and the encoding is always exactly 60 bytes.", "quantifier": "every Envelope and trailing data", "why_tests_cant": "The value space (lengths, integers, byte contents) is unbounded for practical purposes; tests sample a handful of values.", "anchors": ["crates/host/codec/src/codec.rs: impl Codec for Envelope, Gas"]}
{"id": "C03", "title": "Context codec round trip", "statement": "Decoding an encoded Context followed by any trailing data gives back the Context and the trailing data; the encoding is always 72 bytes.", "quantifier": "every Context and trailing data", "why_tests_cant": "The value space (lengths, integers, byte contents) is unbounded for practical purposes; tests sample a handful of values.", "anchors": ["crates/host/codec/src/codec.rs: impl Codec for Context"]}
{"id": "C04", "title": "Spawn message codec round trip", "statement": "Decoding an encoded spawn message followed by any trailing data gives back the message and the trailing data.", "quantifier": "every SpawnAccount whose strings and calldata fit one-byte lengths", "why_tests_cant": "The value space (lengths, integers, byte contents) is unbounded for practical purposes; tests sample a handful of values.", "anchors": ["crates/host/codec/src/codec.rs: impl Codec for SpawnAccount"]}
{"id": "C05", "title": "No malleability of messages", "statement": "If a byte string is accepted as a Transaction, Envelope, Context or spawn message then the consumed bytes are exactly the encoding of the value returned: no two different accepted byte strings denote the same message.", "quantifier": "every byte string", "why_tests_cant": "The value space (lengths, integers, byte contents) is unbounded for practical purposes; tests sample a handful of values.", "anchors": ["crates/host/codec/src/codec.rs"]}
{"id": "C06", "title": "Message decoders never crash", "statement": "For every byte string the Transaction, Envelope, Context and spawn decoders return either a value or an error; they never panic and never consume bytes beyond the input.", "quantifier": "every byte string", "why_tests_cant": "Fuzzing samples; the claim is for all inputs.", "anchors": ["crates/host/codec/src/codec.rs", "crates/host/codec/src/ext.rs"]}
{"id": "C07", "title": "Truncated messages are rejected", "statement": "Every strict prefix of a valid encoding of a Transaction, Envelope, Context or spawn message is rejected with an error.", "quantifier": "every message and every truncation point", "why_tests_cant": "The value space (lengths, integers, byte contents) is unbounded for practical purposes; tests sample a handful of values.", "anchors": ["crates/host/codec/src/codec.rs"]}
{"id": "C08", "title": "Call receipt round trip", "statement": "A call receipt, successful or failed, survives encode/decode up to the documented representation (a failed receipt carries only its error and logs).", "quantifier": "every well-formed call receipt", "why_tests_cant": "The value space (lengths, integers, byte contents) is unbounded for practical purposes; tests sample a handful of values.", "anchors": ["crates/host/codec/src/receipt/call.rs", "crates/host/codec/src/receipt/error.rs"]}
{"id": "C09", "title": "Spawn receipt round trip", "statement": "As C08 for spawn receipts.", "quantifier": "every well-formed spawn receipt", "why_tests_cant": "The value space (lengths, integers, byte contents) is unbounded for practical purposes; tests sample a handful of values.", "anchors": ["crates/host/codec/src/receipt/spawn.rs"]}
{"id": "C10", "title": "Deploy receipt round trip", "statement": "As C08 for deploy receipts; a failed deploy receipt does not carry its logs.", "quantifier": "every well-formed deploy receipt", "why_tests_cant": "The value space (lengths, integers, byte contents) is unbounded for practical purposes; tests sample a handful of values.", "anchors": ["crates/host/codec/src/receipt/deploy.rs"]}
{"id": "C11", "title": "Receipt kinds cannot be confused", "statement": "Decoding an encoded receipt through the generic receipt decoder returns a receipt of the same kind that was encoded.", "quantifier": "every receipt of the three kinds", "why_tests_cant": "The value space (lengths, integers, byte contents) is unbounded for practical purposes; tests sample a handful of values.", "anchors": ["crates/host/codec/src/receipt/mod.rs"]}
{"id": "C12", "title": "Template sections round trip", "statement": "Encoding a set of template sections (code, data, constructors, header, deploy) and decoding it gives back the same sections in the same order.", "quantifier": "every sequence of distinct-kind sections within the size limits", "why_tests_cant": "The value space (lengths, integers, byte contents) is unbounded for practical purposes; tests sample a handful of values.", "anchors": ["crates/host/codec/src/section", "crates/host/codec/src/template.rs"]}
{"id": "C13", "title": "Selective section decoding is sound", "statement": "Decoding only the section kinds of interest from an encoded template returns exactly those sections of the full decoding, in order, skipping the rest correctly.", "quantifier": "every section sequence and every set of interests", "why_tests_cant": "The value space (lengths, integers, byte contents) is unbounded for practical purposes; tests sample a handful of values.", "anchors": ["crates/host/codec/src/section/decode.rs", "crates/host/codec/src/section/preview.rs"]}
{"id": "C14", "title": "Storage layout partitions the byte space", "statement": "For every fixed layout, distinct variable ids occupy disjoint byte ranges, ranges are contiguous from 0, and lookup of a declared id returns its declared size.", "quantifier": "every first id and list of sizes", "why_tests_cant": "The value space (lengths, integers, byte contents) is unbounded for practical purposes; tests sample a handful of values.", "anchors": ["crates/host/layout/src/fixed.rs: FixedLayout::from_byte_sizes, get"]}
{"id": "C15", "title": "Read your own writes", "statement": "After any history, a read of the current layer returns the last value written since the last rollback/rewind on top of the committed state, independent of checkpoints and commits in between.", "quantifier": "every history of upsert/checkpoint/rollback/commit/rewind", "why_tests_cant": "It ranges over every finite history of operations; tests fix one short history.", "anchors": ["crates/host/state/src/storage.rs"]}
{"id": "C16", "title": "Committed layers are immutable", "statement": "The value read for a key at a committed layer never changes as later layers are written, checkpointed, rolled back or committed, as long as the storage is not rewound below that layer.", "quantifier": "every history and every key", "why_tests_cant": "It ranges over every finite history of operations; tests fix one short history.", "anchors": ["crates/host/state/src/storage.rs: get_with_layer / commit"]}
{"id": "C17", "title": "Rewind restores the past", "statement": "After rewinding to a committed layer, every read (current or historical) and the last-layer report equal what they were immediately after that layer was committed.", "quantifier": "every history, every target layer", "why_tests_cant": "It ranges over every finite history of operations; tests fix one short history.", "anchors": ["crates/host/state/src/storage.rs: rewind"]}
{"id": "C18", "title": "Rollback discards exactly the uncommitted-transaction writes", "statement": "rollback returns every key to its value at the last checkpoint/commit and changes nothing else.", "quantifier": "every history and every set of dirty writes", "why_tests_cant": "It ranges over every finite history of operations; tests fix one short history.", "anchors": ["crates/host/state/src/storage.rs: rollback"]}
{"id": "C19", "title": "Commit is guarded and all-or-nothing", "statement": "commit and rewind with pending dirty writes fail and change nothing; a successful commit makes all checkpointed writes of the layer, and only those, the layer's contents.", "quantifier": "every history", "why_tests_cant": "It ranges over every finite history of operations; tests fix one short history.", "anchors": ["crates/host/state/src/storage.rs: commit, rewind"]}
{"id": "C20", "title": "Crash during commit", "statement": "If the process stops between any two database statements of a commit, re-opening the database shows either the state before or after the commit.", "quantifier": "every history and every crash point inside commit", "why_tests_cant": "Crash points x histories are unbounded.", "anchors": ["crates/host/state/src/storage.rs: commit, new_with_pool, delete_bad_layers"]}
{"id": "C21", "title": "State fingerprint commits to the data", "statement": "The fingerprint reported for a layer is a deterministic function of the history; two histories writing different data get different fingerprints (up to hash collisions).", "quantifier": "every pair of histories", "why_tests_cant": "It ranges over every finite history of operations; tests fix one short history.", "anchors": ["crates/host/state/src/storage.rs: checkpoint, commit, fingerprint"]}
{"id": "C22", "title": "Account variables: write then read", "statement": "Writing a variable of a declared size and reading it back returns the bytes written, whatever segments it spans.", "quantifier": "every layout, variable, value and prior storage content", "why_tests_cant": "The value space (lengths, integers, byte contents) is unbounded for practical purposes; tests sample a handful of values.", "anchors": ["crates/host/state/src/account_storage.rs: get_var, set_var"]}
{"id": "C23", "title": "Account variables: isolation", "statement": "Writing one variable changes no other variable of the account, no variable of another account and none of the account's balance, counter, name or template.", "quantifier": "every layout, pair of variables, pair of accounts", "why_tests_cant": "The value space (lengths, integers, byte contents) is unbounded for practical purposes; tests sample a handful of values.", "anchors": ["crates/host/state/src/account_storage.rs"]}
{"id": "C24", "title": "Transfers conserve coins", "statement": "A successful transfer between two distinct accounts moves exactly the amount, never overdraws or overflows, leaves every other balance unchanged, so the sum of balances is invariant under any sequence of transfers.", "quantifier": "every state and every sequence of transfers", "why_tests_cant": "It ranges over every finite history of operations; tests fix one short history.", "anchors": ["crates/host/runtime/src/runtime/runtime.rs: transfer", "crates/host/runtime/src/vmcalls/transfer.rs"]}
{"id": "C25", "title": "Failed transactions leave no trace", "statement": "A transaction whose receipt reports failure does not alter the state observed afterwards.", "quantifier": "every history of transactions", "why_tests_cant": "It ranges over every finite history of operations; tests fix one short history.", "anchors": ["crates/host/runtime/src/runtime/runtime.rs: call, spawn"]}
{"id": "C26", "title": "Deployed templates are retrievable", "statement": "After a successful deploy, the sections retrievable at the template's address are the deployed ones, and other templates and accounts are unaffected.", "quantifier": "every template and prior state", "why_tests_cant": "The value space (lengths, integers, byte contents) is unbounded for practical purposes; tests sample a handful of values.", "anchors": ["crates/host/state/src/template_storage.rs", "crates/host/runtime/src/runtime/runtime.rs: deploy"]}
{"id": "C27", "title": "Spawned accounts get their own address", "statement": "Two different spawn messages yield different account addresses (up to hash collisions), so a spawn never overwrites an existing account.", "quantifier": "every pair of spawn messages", "why_tests_cant": "The value space (lengths, integers, byte contents) is unbounded for practical purposes; tests sample a handful of values.", "anchors": ["crates/host/runtime/src/runtime/runtime.rs: compute_account_addr, spawn"]}
{"id": "C28", "title": "verify cannot modify storage", "statement": "During verification no storage write takes effect, whatever the contract does.", "quantifier": "every contract behaviour", "why_tests_cant": "It ranges over every finite history of operations; tests fix one short history.", "anchors": ["crates/host/runtime/src/func_env.rs: AccessMode", "crates/host/runtime/src/vmcalls"]}
{"id": "C29", "title": "Constructors only through spawn", "statement": "A function listed as constructor is reachable only by spawn and a non-constructor never by spawn.", "quantifier": "every template, function name and message", "why_tests_cant": "The value space (lengths, integers, byte contents) is unbounded for practical purposes; tests sample a handful of values.", "anchors": ["crates/host/runtime/src/runtime/runtime.rs: call, spawn, is_ctor"]}
{"id": "C30", "title": "Deploy charges exactly its price", "statement": "Deploy succeeds only if the gas limit covers the price, charges exactly the price, and a transaction without enough gas changes nothing.", "quantifier": "every message length and gas limit", "why_tests_cant": "The value space (lengths, integers, byte contents) is unbounded for practical purposes; tests sample a handful of values.", "anchors": ["crates/host/runtime/src/runtime/runtime.rs: deploy", "crates/host/gas/src/lib.rs"]}
{"id": "C31", "title": "Gas tank never underflows", "statement": "Consuming gas from a tank never underflows, never increases the tank and becomes empty exactly when the request is at least what is left.", "quantifier": "every tank and sequence of requests", "why_tests_cant": "It ranges over every finite history of operations; tests fix one short history.", "anchors": ["crates/host/runtime/src/runtime/gas_tank.rs", "crates/host/types/src/gas/mod.rs"]}
{"id": "C32", "title": "Accepted fixed-gas code terminates structurally", "statement": "A module accepted by fixed-gas validation has no loop, no indirect call and no cycle among its local calls, so every call chain is bounded by the number of functions.", "quantifier": "every program", "why_tests_cant": "The value space (lengths, integers, byte contents) is unbounded for practical purposes; tests sample a handful of values.", "anchors": ["crates/host/gas/src/validation.rs", "crates/host/gas/src/graph/sort.rs"]}
{"id": "C33", "title": "Cycle detection is exact", "statement": "The topological sort succeeds iff the graph is acyclic, and when it succeeds the result lists every node once with every edge going forward.", "quantifier": "every finite graph", "why_tests_cant": "The value space (lengths, integers, byte contents) is unbounded for practical purposes; tests sample a handful of values.", "anchors": ["crates/host/gas/src/graph/sort.rs"]}
{"id": "C34", "title": "Longest path is exact", "statement": "When the maximum-weight path computation returns, the weight is the maximum over all start-to-end paths and the returned path is one that attains it. When no path weight overflows, it returns exactly if the start is a node, the end is reachable from it, and so is every node that has an incoming edge and from which the end can be reached without coming through the start.", "quantifier": "every weighted acyclic graph", "why_tests_cant": "The value space (lengths, integers, byte contents) is unbounded for practical purposes; tests sample a handful of values.", "anchors": ["crates/host/gas/src/graph/weight.rs"]}
{"id": "C35", "title": "Function price bounds every execution", "statement": "For loop-free code, the price computed for a function is an upper bound of the cost of every execution of it, including all the calls it makes.", "quantifier": "every loop-free well-formed function body and every execution", "why_tests_cant": "The value space (lengths, integers, byte contents) is unbounded for practical purposes; tests sample a handful of values.", "anchors": ["crates/host/gas/src/cfg", "crates/host/gas/src/pricing"]}
{"id": "C36", "title": "Pricing accepts every validated program", "statement": "Every program that passes validation can be priced.", "quantifier": "every validated program", "why_tests_cant": "The value space (lengths, integers, byte contents) is unbounded for practical purposes; tests sample a handful of values.", "anchors": ["crates/host/gas/src/pricing", "crates/host/gas/src/graph/weight.rs: prune_unreachable_nodes"]}
{"id": "C37", "title": "Reported call cycles are cycles", "statement": "When a call cycle is reported, the reported function list is a closed chain of calls of the program.", "quantifier": "every program with a call cycle", "why_tests_cant": "The value space (lengths, integers, byte contents) is unbounded for practical purposes; tests sample a handful of values.", "anchors": ["crates/host/gas/src/graph/sort.rs: derive_cycle"]}
{"id": "C38", "title": "Gas interval algebra is sound", "statement": "Sequential composition and choice of gas estimates enclose the cost of every execution.", "quantifier": "every pair of estimates", "why_tests_cant": "The value space (lengths, integers, byte contents) is unbounded for practical purposes; tests sample a handful of values.", "anchors": ["crates/host/gas/src/gas.rs"]}
{"id": "C39", "title": "No floating point in accepted programs", "statement": "A program accepted by the loader contains no floating-point instruction.", "quantifier": "every program", "why_tests_cant": "The value space (lengths, integers, byte contents) is unbounded for practical purposes; tests sample a handful of values.", "anchors": ["crates/host/program/src/lib.rs: validate_no_floats"]}
{"id": "C40", "title": "Function indexing limit", "statement": "An accepted program has at most 65535 functions, imported and defined together.", "quantifier": "every program", "why_tests_cant": "The value space (lengths, integers, byte contents) is unbounded for practical purposes; tests sample a handful of values.", "anchors": ["crates/host/program/src/program.rs: Program::new"]}
{"id": "C41", "title": "ABI value round trip", "statement": "Decoding the ABI encoding of any value (primitive or array of at most ten primitives) returns the value and consumes exactly its encoding.", "quantifier": "every ABI value and trailing data", "why_tests_cant": "The value space (lengths, integers, byte contents) is unbounded for practical purposes; tests sample a handful of values.", "anchors": ["crates/wasm/abi-encoder/src/types", "crates/wasm/abi-decoder/src/decoder.rs"]}
{"id": "C42", "title": "ABI calldata sequences", "statement": "Iterating over the concatenated encodings of a list of values yields exactly those values and then stops.", "quantifier": "every list of values", "why_tests_cant": "The value space (lengths, integers, byte contents) is unbounded for practical purposes; tests sample a handful of values.", "anchors": ["crates/wasm/abi-decoder/src/calldata.rs"]}
{"id": "C43", "title": "ABI size announcements are exact", "statement": "byte_size equals the length of the encoding and never exceeds max_byte_size.", "quantifier": "every value of every encodable type", "why_tests_cant": "The value space (lengths, integers, byte contents) is unbounded for practical purposes; tests sample a handful of values.", "anchors": ["crates/wasm/abi-encoder/src/types/numeric.rs", "crates/wasm/abi-encoder/src/types/small_array.rs"]}
{"id": "C44", "title": "Amount arithmetic", "statement": "Amount subtraction never wraps: it aborts iff the subtrahend is larger, otherwise it is exact.", "quantifier": "every pair of amounts", "why_tests_cant": "The value space (lengths, integers, byte contents) is unbounded for practical purposes; tests sample a handful of values.", "anchors": ["crates/wasm/sdk-types/src/amount.rs"]}
{"id": "C45", "title": "Fixed-capacity vector", "statement": "The SDK vector behaves as a bounded stack: never exceeds capacity, pop returns the last pushed element, iteration yields the pushed elements in order.", "quantifier": "every sequence of operations", "why_tests_cant": "It ranges over every finite history of operations; tests fix one short history.", "anchors": ["crates/wasm/sdk-std/src/vec.rs"]}
{"id": "C46", "title": "Decimal rendering", "statement": "Rendering an integer gives its unique decimal numeral for the whole 64-bit range, and never aborts.", "quantifier": "every i64/u64", "why_tests_cant": "The value space (lengths, integers, byte contents) is unbounded for practical purposes; tests sample a handful of values.", "anchors": ["crates/wasm/sdk-std/src/string/traits.rs"]}
{"id": "C47", "title": "Rendering layers and amounts never aborts", "statement": "Rendering any amount or layer number yields the text and never aborts.", "quantifier": "every u64", "why_tests_cant": "The value space (lengths, integers, byte contents) is unbounded for practical purposes; tests sample a handful of values.", "anchors": ["crates/wasm/sdk-types/src/amount.rs", "crates/wasm/sdk-types/src/layer_id.rs"]}
{"id": "C48", "title": "SDK storage variables do not overlap", "statement": "The variable ids and byte ranges the storage macro assigns to the fields of a contract are pairwise disjoint, and array access never leaves its field.", "quantifier": "every list of fields, every index", "why_tests_cant": "The value space (lengths, integers, byte contents) is unbounded for practical purposes; tests sample a handful of values.", "anchors": ["crates/wasm/sdk-macros/src/struct/storage.rs", "crates/wasm/sdk-storage/src/lib.rs: cell_offset"]}
{"id": "C49", "title": "Wasm buffer header invariants", "statement": "A codec buffer always satisfies len <= capacity <= allocated size and loading it by pointer recovers its contents.", "quantifier": "every data and marker", "why_tests_cant": "The value space (lengths, integers, byte contents) is unbounded for practical purposes; tests sample a handful of values.", "anchors": ["crates/host/codec/src/api/wasm/buffer.rs"]}
{"id": "C50", "title": "FFI resource accounting", "statement": "The reported number of live resources of a type equals allocations minus frees after any sequence of operations.", "quantifier": "every sequence of allocations and frees", "why_tests_cant": "It ranges over every finite history of operations; tests fix one short history.", "anchors": ["crates/host/runtime-ffi/src/resource_tracker.rs"]}
{"id": "C51", "title": "JSON hex fields round trip", "statement": "Bytes rendered as hexadecimal in JSON are parsed back to the same bytes, and only strings of the exact length are accepted as addresses.", "quantifier": "every byte string", "why_tests_cant": "The value space (lengths, integers, byte contents) is unbounded for practical purposes; tests sample a handful of values.", "anchors": ["crates/host/codec/src/api/json/serde_types.rs"]}
{"id": "C52", "title": "JSON gas is unambiguous", "statement": "The JSON gas field distinguishes 'no gas recorded' from every amount of gas.", "quantifier": "every gas value", "why_tests_cant": "The value space (lengths, integers, byte contents) is unbounded for practical purposes; tests sample a handful of values.", "anchors": ["crates/host/codec/src/api/json/mod.rs: gas_to_json"]}
{"id": "C53", "title": "Documented wire layout", "statement": "Envelopes are 60 bytes, contexts 72 bytes, transactions 25 bytes plus their three variable fields, with every field big-endian at the documented offset, so an independent client can build and read messages.", "quantifier": "every well-formed envelope, context and transaction", "why_tests_cant": "The value space (lengths, integers, byte contents) is unbounded for practical purposes; tests sample a handful of values.", "anchors": ["crates/host/codec/src/codec.rs: Codec for Envelope, Context, Transaction"]}
{"id": "C54", "title": "Receipt encoding never aborts", "statement": "Encoding a receipt produced by the runtime never aborts; it aborts exactly when a string field exceeds its one-byte length, a list exceeds its prefix, or a successful receipt lacks a mandatory field.", "quantifier": "every receipt value", "why_tests_cant": "The value space (lengths, integers, byte contents) is unbounded for practical purposes; tests sample a handful of values.", "anchors": ["crates/host/codec/src/receipt"]}
{"id": "C55", "title": "Receipt decoding never crashes", "statement": "For every byte string the receipt decoder returns a receipt or an error.", "quantifier": "every byte string", "why_tests_cant": "Fuzzing samples; the claim is for all inputs.", "anchors": ["crates/host/codec/src/receipt"]}
{"id": "C56", "title": "Template decoding never crashes", "statement": "For every byte string the template decoder returns a template or an error, whatever sections are selected.", "quantifier": "every byte string and every selection of sections", "why_tests_cant": "Fuzzing samples; the claim is for all inputs.", "anchors": ["crates/host/codec/src/section", "crates/host/codec/src/template.rs"]}
{"id": "C57", "title": "Account records: create, update, read", "statement": "A created account has exactly the name, template, balance and counter it was created with; setting a balance or a counter changes that field of that account only, and fails without effect on a missing account; no other record, variable or template is affected.", "quantifier": "every reachable state, address and value", "why_tests_cant": "The value space (lengths, integers, byte contents) is unbounded for practical purposes; tests sample a handful of values.", "anchors": ["crates/host/state/src/account_storage.rs: create, create_stub, load, set_balance, set_counter"]}
{"id": "C58", "title": "Historical reads through the layer parameter", "statement": "With the layer query parameter set to a committed layer, every read through the typed API returns what was current when that layer was committed, whatever was written since.", "quantifier": "every history of client calls that does not rewind below the layer", "why_tests_cant": "The value space (lengths, integers, byte contents) is unbounded for practical purposes; tests sample a handful of values.", "anchors": ["crates/host/state/src/global_state.rs: layer_query_parameter_mut, read_and_decode", "crates/host/state/src/account_storage.rs: get_var"]}
{"id": "C59", "title": "A call affects only its target and the balances it lists", "statement": "A successful call changes only the called account's variables and the balances of the accounts its receipt lists; every other balance, every name, template and counter, every other account's variables and every template stay as they were. Whatever the outcome, nothing but balances and the called account's variables can change.", "quantifier": "every reachable state, contract behaviour and message", "why_tests_cant": "The value space (lengths, integers, byte contents) is unbounded for practical purposes; tests sample a handful of values.", "anchors": ["crates/host/runtime/src/runtime/runtime.rs: call, exec", "crates/host/runtime/src/vmcalls"]}
{"id": "C60", "title": "Receipts report the state that was committed", "statement": "After a successful call or spawn the state hash in its receipt is that of the current layer.", "quantifier": "every reachable state, contract behaviour and message", "why_tests_cant": "The value space (lengths, integers, byte contents) is unbounded for practical purposes; tests sample a handful of values.", "anchors": ["crates/host/runtime/src/runtime/runtime.rs: outcome_to_receipt, commit_changes"]}
{"id": "C61", "title": "Verification reports acceptance", "statement": "A contract whose verification function returns normally is reported as verified.", "quantifier": "every contract, state and message", "why_tests_cant": "The value space (lengths, integers, byte contents) is unbounded for practical purposes; tests sample a handful of values.", "anchors": ["crates/host/runtime/src/runtime/runtime.rs: verify, commit_changes"]}
{"id": "C62", "title": "Static allocations do not overlap", "statement": "The regions a running contract obtains from the host's static allocator, of the requested size from the returned offset, lie inside its memory and do not overlap.", "quantifier": "every sequence of allocations", "why_tests_cant": "It ranges over every finite history of operations; tests fix one short history.", "anchors": ["crates/host/runtime/src/vmcalls/alloc.rs: static_alloc", "crates/wasm/sdk-alloc/src/lib.rs"]}
{"id": "C63", "title": "Integer variables through the host functions", "statement": "A 32- or 64-bit value stored by a contract in a variable of that size is read back unchanged by the corresponding host function.", "quantifier": "every value, variable and reachable state", "why_tests_cant": "The value space (lengths, integers, byte contents) is unbounded for practical purposes; tests sample a handful of values.", "anchors": ["crates/host/runtime/src/vmcalls/storage.rs"]}
{"id": "C64", "title": "Committing a layer from the API", "statement": "Committing creates a layer with the pending changes and never fails.", "quantifier": "every reachable state", "why_tests_cant": "It ranges over every finite history of operations; tests fix one short history.", "anchors": ["crates/host/runtime/src/runtime/runtime.rs: commit"]}
{"id": "C65", "title": "A contract spends only its own coins", "statement": "Running a contract never decreases the balance of an account other than the called one.", "quantifier": "every contract behaviour", "why_tests_cant": "The value space (lengths, integers, byte contents) is unbounded for practical purposes; tests sample a handful of values.", "anchors": ["crates/host/runtime/src/vmcalls/transfer.rs"]}
{"id": "C66", "title": "Accepted templates deploy", "statement": "Every message accepted by the template decoder can be deployed given enough gas, and the deployed template is exactly the one encoded.", "quantifier": "every template", "why_tests_cant": "The value space (lengths, integers, byte contents) is unbounded for practical purposes; tests sample a handful of values.", "anchors": ["crates/host/runtime/src/runtime/runtime.rs: deploy, validate_deploy", "crates/host/codec/src/section"]}
{"id": "C67", "title": "Text fields hold exactly UTF-8", "statement": "The content of a text field (function name, constructor name, template name, account name, error message) is accepted by the decoder exactly when it is the UTF-8 form of a sequence of Unicode scalar values, and every text of at most 255 bytes round-trips; overlong forms and surrogates are refused as bad strings.", "quantifier": "all byte strings of at most 255 bytes and all sequences of scalar values", "why_tests_cant": "The value space (lengths, integers, byte contents) is unbounded for practical purposes; tests sample a handful of values.", "anchors": ["crates/host/codec/src/codec.rs: impl Codec for String"]}
{"id": "C68", "title": "Sequences of any codec", "statement": "A sequence of at most 65535 elements round-trips whenever its elements do, a longer one is refused by the encoder, and sequence decoding is canonical whenever element decoding is.", "quantifier": "all element codecs and all sequences", "why_tests_cant": "The value space (lengths, integers, byte contents) is unbounded for practical purposes; tests sample a handful of values.", "anchors": ["crates/host/codec/src/codec.rs: impl Codec for Vec<T>"]}
{"id": "C69", "title": "Receipt success flag is strict", "statement": "A receipt that decodes carries flag byte 1 if it reports success and 0 if it reports failure; any other flag byte is never read as a receipt.", "quantifier": "all byte strings", "why_tests_cant": "The value space (lengths, integers, byte contents) is unbounded for practical purposes; tests sample a handful of values.", "anchors": ["crates/host/codec/src/codec.rs: impl Codec for bool", "crates/host/codec/src/receipt/mod.rs: decode"]}
{"id": "C70", "title": "Repeated sections: the last one wins", "statement": "When a template message frames several sections of the same kind, decoding keeps exactly one of each kind, the last one framed.", "quantifier": "all lists of valid sections, with repetitions", "why_tests_cant": "The value space (lengths, integers, byte contents) is unbounded for practical purposes; tests sample a handful of values.", "anchors": ["crates/host/codec/src/section/decode.rs: decode_sections", "crates/host/types/src/template/section.rs: Sections::insert"]}
{"id": "C71", "title": "Accepted programs terminate", "statement": "Every execution of a function of a program accepted by fixed-gas validation stops: for each function there is a number of instructions that no execution of it, including the calls it makes, ever exceeds.", "quantifier": "every accepted program, every execution, whatever the data and the outcome of the host calls", "why_tests_cant": "The value space (lengths, integers, byte contents) is unbounded for practical purposes; tests sample a handful of values.", "anchors": ["crates/host/gas/src/validation.rs: validate_wasm"]}
{"id": "C72", "title": "Required exports have the right types", "statement": "A template accepted for deployment exports svm_alloc of type (i32) -> i32 and svm_verify of type () -> i32, both defined in the module.", "quantifier": "every module", "why_tests_cant": "The value space (lengths, integers, byte contents) is unbounded for practical purposes; tests sample a handful of values.", "anchors": ["crates/host/program/src/program.rs: Program::new, module_validate_exports"]}
{"id": "C73", "title": "Template validation always answers", "statement": "Validating a deployment message accepts or refuses it; it never aborts the node.", "quantifier": "every message and every module", "why_tests_cant": "Fuzzing samples; the claim is for all inputs.", "anchors": ["crates/host/runtime/src/runtime/runtime.rs: validate_deploy", "crates/host/program/src/program.rs: export_func_signature"]}
{"id": "C74", "title": "The price of a function is the price of an execution", "statement": "The price a template's function is given is the cost of one of its executions, counting what it calls: it is the cost of the dearest execution, not an over-estimate.", "quantifier": "every function with a price", "why_tests_cant": "The value space (lengths, integers, byte contents) is unbounded for practical purposes; tests sample a handful of values.", "anchors": ["crates/host/gas/src/pricing/mod.rs", "crates/host/gas/src/pricing/cfg.rs", "crates/host/gas/src/graph/weight.rs", "crates/host/gas/src/cfg/builder.rs"]}
{"id": "C75", "title": "Amounts added or multiplied are exact", "statement": "Adding or multiplying amounts gives the exact amount or aborts; it never silently wraps around.", "quantifier": "every pair of amounts", "why_tests_cant": "The value space (lengths, integers, byte contents) is unbounded for practical purposes; tests sample a handful of values.", "anchors": ["crates/wasm/sdk-types/src/amount.rs: Add, AddAssign, Mul, MulAssign", "crates/host/cli/examples/craft-deploy/Cargo.toml: overflow-checks"]}
{"id": "C76", "title": "Decoding arbitrary calldata", "statement": "Whatever bytes a call carries, every value the contract decodes from them exists (numbers in the range of their type, addresses of 20 bytes, arrays of at most ten primitives), the decoder never leaves the buffer, and iterating over the calldata yields at most as many values as there are bytes.", "quantifier": "every byte string and cursor position", "why_tests_cant": "The value space (lengths, integers, byte contents) is unbounded for practical purposes; tests sample a handful of values.", "anchors": ["crates/wasm/abi-decoder/src/decoder.rs: Decoder", "crates/wasm/abi-decoder/src/cursor.rs: Cursor", "crates/wasm/abi-decoder/src/calldata.rs: CallData"]}
{"id": "C77", "title": "A value has one calldata encoding", "statement": "No two different byte strings are accepted as the encoding of the same value; in particular the encoder writes the shortest one.", "quantifier": "every value and every byte string", "why_tests_cant": "The value space (lengths, integers, byte contents) is unbounded for practical purposes; tests sample a handful of values.", "anchors": ["crates/wasm/abi-decoder/src/decoder.rs: read_num", "crates/wasm/abi-encoder/src/types/numeric.rs"]}
{"id": "C78", "title": "A receipt reports the logs in order", "statement": "The logs in the receipt of a call or spawn are exactly the byte strings the contract's main function logged, in the order it logged them, whether it succeeded or failed.", "quantifier": "every engine, contract, input, gas limit and reachable state", "why_tests_cant": "The value space (lengths, integers, byte contents) is unbounded for practical purposes; tests sample a handful of values.", "anchors": ["crates/host/runtime/src/func_env.rs", "crates/host/runtime/src/vmcalls/logs.rs", "crates/host/runtime/src/runtime/runtime.rs: exec_call"]}
{"id": "C79", "title": "Return data is what the contract last set", "statement": "The return data in a successful receipt is the slice of the contract's final memory at the offset and length it last passed to set_returndata, and empty if it never did.", "quantifier": "every engine, contract, input and reachable state", "why_tests_cant": "The value space (lengths, integers, byte contents) is unbounded for practical purposes; tests sample a handful of values.", "anchors": ["crates/host/runtime/src/vmcalls/returndata.rs", "crates/host/runtime/src/runtime/runtime.rs: take_returndata"]}
{"id": "C80", "title": "Touched accounts are exactly the parties", "statement": "The set of touched accounts in a successful call receipt is exactly the target and both ends of each transfer the contract made; a successful spawn receipt lists exactly the new account, the principal of the envelope and both ends of each transfer the constructor made.", "quantifier": "every engine, contract, input and reachable state", "why_tests_cant": "The value space (lengths, integers, byte contents) is unbounded for practical purposes; tests sample a handful of values.", "anchors": ["crates/host/runtime/src/func_env.rs: touched_accounts", "crates/host/runtime/src/vmcalls/transfer.rs"]}
{"id": "C81", "title": "Account queries report what was written", "statement": "After an account is created, credited or debited, a query of that account gives the balance, nonce and template that were written; queries of accounts never created give nothing.", "quantifier": "every reachable state, address and amount", "why_tests_cant": "The value space (lengths, integers, byte contents) is unbounded for practical purposes; tests sample a handful of values.", "anchors": ["crates/host/runtime/src/runtime/runtime.rs: get_account, increase_balance, transfer", "crates/host/state/src/account_storage.rs"]}
{"id": "C82", "title": "The price cache is invisible", "statement": "Keeping or clearing the cache of function prices between operations never changes a receipt or a state, as long as known templates have different addresses.", "quantifier": "every engine and history of operations", "why_tests_cant": "It ranges over every finite history of operations; tests fix one short history.", "anchors": ["crates/host/runtime/src/runtime/runtime.rs: spawn, check_gas_for_payload", "crates/host/runtime/src/price_registry.rs"]}
{"id": "C83", "title": "Runtimes do not see each other", "statement": "Whatever is done to other runtimes of the process, the answers one runtime gives and the state it reaches are those of a runtime asked the same things alone.", "quantifier": "every sequence of C API calls", "why_tests_cant": "It ranges over every finite history of operations; tests fix one short history.", "anchors": ["crates/host/runtime-ffi/src/c_api.rs", "crates/host/runtime-ffi/src/resource_tracker.rs"]}
{"id": "C84", "title": "The C interface is transparent", "statement": "Submitting a deploy, spawn, verify or call through the C interface with the encodings of an envelope and a context does to the runtime exactly what executing the transaction does, and the returned bytes decode to its receipt.", "quantifier": "every live runtime, transaction, envelope, context and message", "why_tests_cant": "The value space (lengths, integers, byte contents) is unbounded for practical purposes; tests sample a handful of values.", "anchors": ["crates/host/runtime-ffi/src/c_api.rs: svm_deploy, svm_spawn, svm_verify, svm_call, svm_runtime_action", "crates/host/runtime-ffi/src/result.rs"]}
{"id": "C85", "title": "Genesis accounts through the C interface", "statement": "Querying an account created through the C interface returns the address, balance and template it was created with and both halves of its 128-bit counter.", "quantifier": "every history, address, balance and counter", "why_tests_cant": "The value space (lengths, integers, byte contents) is unbounded for practical purposes; tests sample a handful of values.", "anchors": ["crates/host/runtime-ffi/src/c_api.rs: svm_create_genesis_account, svm_get_account"]}
{"id": "C86", "title": "Runtimes can always be created", "statement": "Once the library is initialised a runtime can be created, in memory or on a database file made by the library, whatever was attempted before.", "quantifier": "every sequence of C API calls", "why_tests_cant": "It ranges over every finite history of operations; tests fix one short history.", "anchors": ["crates/host/runtime-ffi/src/c_api.rs: svm_init, svm_runtime_create"]}
{"id": "C87", "title": "An error reply is harmless", "statement": "A C API call that replies with an error leaves the runtime usable: what could be asked before can still be asked; calls that only look change nothing.", "quantifier": "every runtime state, call and later call", "why_tests_cant": "It ranges over every finite history of operations; tests fix one short history.", "anchors": ["crates/host/runtime-ffi/src/c_api.rs", "crates/host/state/src/global_state.rs: storage, encode_and_write, rewind"]}
{"id": "C88", "title": "Encoding JSON input data", "statement": "Encoding a JSON list of types and values as input data answers with the encodings of the values in order exactly when there are as many types as values and every value is one of its type; any other document is reported as an error.", "quantifier": "every JSON document", "why_tests_cant": "The value space (lengths, integers, byte contents) is unbounded for practical purposes; tests sample a handful of values.", "anchors": ["crates/host/codec/src/api/json/inputdata.rs: encode_inputdata, EncodedOrDecodedCalldata"]}
{"id": "C89", "title": "JSON input data round trip", "statement": "Decoding encoded input data gives back the types and the values; for a document in the usual spelling it gives back the document.", "quantifier": "every list of types and values", "why_tests_cant": "The value space (lengths, integers, byte contents) is unbounded for practical purposes; tests sample a handful of values.", "anchors": ["crates/host/codec/src/api/json/inputdata.rs: encode_inputdata, decode_inputdata, decode_raw_input"]}
{"id": "C90", "title": "JSON calls", "statement": "A JSON call document is encoded as the binary transaction with the version, target, function, verify data and call data that the document gives; decoding it gives back these parts.", "quantifier": "every JSON document and transaction", "why_tests_cant": "The value space (lengths, integers, byte contents) is unbounded for practical purposes; tests sample a handful of values.", "anchors": ["crates/host/codec/src/api/json/call.rs: encode_call, encode_call_raw, decode_call", "crates/host/codec/src/codec.rs: Codec for Transaction"]}
{"id": "C91", "title": "JSON spawns", "statement": "A JSON spawn document is encoded as the binary spawn message with the version, template, name, constructor and call data that the document gives; decoding it gives back these parts.", "quantifier": "every JSON document and spawn message", "why_tests_cant": "The value space (lengths, integers, byte contents) is unbounded for practical purposes; tests sample a handful of values.", "anchors": ["crates/host/codec/src/api/json/spawn.rs: encode_spawn, decode_spawn", "crates/host/codec/src/codec.rs: Codec for SpawnAccount"]}
{"id": "C92", "title": "JSON receipts", "statement": "The JSON document made from an encoded receipt shows its kind, outcome, every field of the success or error, gas, touched accounts and logs, so that two different receipts never give the same document; the names in a decoded document are in the order of their bytes, each once.", "quantifier": "every receipt", "why_tests_cant": "The value space (lengths, integers, byte contents) is unbounded for practical purposes; tests sample a handful of values.", "anchors": ["crates/host/codec/src/api/json/receipt.rs: decode_receipt", "crates/host/codec/src/api/json/mod.rs: gas_to_json, logs_to_json, AddressWrapper"]}
{"id": "C93", "title": "JSON decoders report bad documents", "statement": "The JSON decoders of input data, calls, spawns and receipts report documents they cannot decode as errors and never abort; a complaint of the encoders and decoders is true: a field called missing is missing, and one called invalid is there and cannot be read.", "quantifier": "every JSON document", "why_tests_cant": "Fuzzing samples; the claim is for all documents.", "anchors": ["crates/host/codec/src/api/json/inputdata.rs", "crates/host/codec/src/api/json/call.rs", "crates/host/codec/src/api/json/spawn.rs", "crates/host/codec/src/api/json/receipt.rs", "crates/host/codec/src/api/json/mod.rs: JsonSerdeUtils"]}
{"id": "C94", "title": "Storage fields behave as typed variables", "statement": "The generated getters and setters of a contract's storage struct behave as independent typed variables, one per field and one per array cell: reading gives the value last written, with its sign and type, an index beyond the end of an array aborts, nothing else in the account or in other accounts changes, and a field never written is zero.", "quantifier": "every storage struct, every sequence of generated reads and writes, every state of the ledger", "why_tests_cant": "It ranges over every finite history of operations; tests fix one short history.", "anchors": ["crates/wasm/sdk-macros/src/struct/storage.rs", "crates/wasm/sdk-storage/src/lib.rs", "crates/wasm/sdk-storage-ffi/src/ext.rs", "crates/host/runtime/src/vmcalls/storage.rs", "crates/host/state/src/account_storage.rs"]}
{"id": "C95", "title": "Contract tests on the mock storage agree with the chain", "statement": "Code run against the mock storage of the SDK sees the same values, and aborts at the same point, as on the chain.", "quantifier": "every storage struct and every sequence of reads and writes, starting from an unwritten account", "why_tests_cant": "It ranges over every finite history of operations; tests fix one short history.", "anchors": ["crates/wasm/sdk-storage-mock/src/lib.rs", "crates/wasm/sdk-storage/src/lib.rs", "crates/host/runtime/src/vmcalls/storage.rs"]}
{"id": "C96", "title": "The C interface tells and moves the layer", "statement": "svm_uncommitted_changes reports success exactly when no change is unfinished. Then svm_commit succeeds and svm_layer_info tells the next layer, and svm_rewind to any earlier layer succeeds and svm_layer_info tells that layer. With unfinished changes both are refused and change nothing. svm_layer_info of a live runtime tells its last layer.", "quantifier": "every history of interface calls, runtime and layer", "why_tests_cant": "The value space (lengths, integers, byte contents) is unbounded for practical purposes; tests sample a handful of values.", "anchors": ["crates/host/runtime-ffi/src/c_api.rs: svm_uncommitted_changes, svm_layer_info, svm_commit, svm_rewind", "crates/host/state/src/global_state.rs: current_layer, commit, rewind", "crates/host/state/src/storage.rs: last_layer, commit, rewind"]}
{"id": "C97", "title": "The deploy message carries the contract that was written", "statement": "For a contract the template macro accepts, the message the deploy command crafts decodes to the compiled code, the functions annotated as constructors, each once and exported by the code, and a layout in which every variable of the storage struct sits where the generated accessors use it; crafting succeeds exactly within the limits of the message; the description lists every entry with its parameter and result types and every field with its type.", "quantifier": "every contract source the macro's types can express, every order of the export map, every compiled code", "why_tests_cant": "The value space (lengths, integers, byte contents) is unbounded for practical purposes; tests sample a handful of values.", "anchors": ["crates/wasm/sdk-macros/src/lib.rs", "crates/wasm/sdk-macros/src/template.rs", "crates/wasm/sdk-macros/src/meta.rs", "crates/wasm/sdk-macros/src/json.rs", "crates/host/cli/src/subcmd_craft_deploy/mod.rs", "crates/host/cli/src/subcmd_craft_deploy/meta.rs"]}
{"id": "C98", "title": "The template macro accepts exactly the legal contracts", "statement": "The macro accepts a contract exactly when its annotations, signatures and storage follow the documented rules; each function becomes what its annotations say, an entry that receives funds calls the hook it names, else the default, else the implicit one, and callers can reach the entries and nothing else.", "quantifier": "every contract source the macro's types can express", "why_tests_cant": "The value space (lengths, integers, byte contents) is unbounded for practical purposes; tests sample a handful of values.", "anchors": ["crates/wasm/sdk-macros/src/template.rs", "crates/wasm/sdk-macros/src/function/attr.rs", "crates/wasm/sdk-macros/src/function/mod.rs", "crates/wasm/sdk-macros/src/function/endpoint.rs", "crates/wasm/sdk-macros/src/function/fundable.rs", "crates/wasm/sdk-macros/src/function/fundable_hook.rs", "crates/wasm/sdk-macros/src/struct/mod.rs"]}
{"id": "C99", "title": "A template's function gets its arguments, and the caller gets what it returns", "statement": "A function of a template made with the SDK, called with encoded arguments of its parameter types, runs its body with exactly these arguments; if the receipt is successful its bytes decode to the values the body returned (nothing, for a function without result); the call completes if the body does and the memory has room; bytes that are not arguments of these types make the call fail.", "quantifier": "every function signature over the primitive types, every body, all arguments, all states", "why_tests_cant": "The value space (lengths, integers, byte contents) is unbounded for practical purposes; tests sample a handful of values.", "anchors": ["crates/wasm/sdk-macros/src/function/endpoint.rs", "crates/wasm/sdk-host-ffi/src/ext.rs", "crates/wasm/sdk-std/src/vec.rs", "crates/host/runtime/src/runtime/runtime.rs", "crates/host/runtime/src/vmcalls/mod.rs"]}
{"id": "C100", "title": "A contract finds the functions it imports", "statement": "The module compiled from a contract the macro accepts can be instantiated by the runtime exactly when every SDK function it imports is provided there with the type it is imported with; a deployed template for which this fails never runs: no call and no spawn of it gives a successful receipt; deploy-time validation tells these apart; a module links exactly when it imports nothing but functions of the documented host interface with their types.", "quantifier": "every contract the macro accepts, every selection of SDK functions its bodies use, all reachable states, every call and spawn", "why_tests_cant": "The value space (lengths, integers, byte contents) is unbounded for practical purposes; tests sample a handful of values.", "anchors": ["crates/wasm/sdk-host-ffi/src/ext.rs", "crates/wasm/sdk-storage-ffi/src/ext.rs", "crates/wasm/sdk-alloc/src/lib.rs", "crates/host/runtime/src/vmcalls/mod.rs", "crates/host/runtime/src/runtime/runtime.rs"]}
{"id": "C101", "title": "The test host answers what the test set up", "statement": "A contract test that sets calldata, value, principal, target, layer and balances on the mock host sees exactly these values, as last set since the last reset; equal addresses are one account; a transfer moves its amount from the target to the other account or is refused without effect; a reset gives a new host; the contract decodes exactly the arguments the test has set.", "quantifier": "every history of calls of the mock host, all addresses (also equal ones at different places), all amounts, every behaviour of the hash map's random seeds", "why_tests_cant": "The value space (lengths, integers, byte contents) is unbounded for practical purposes; tests sample a handful of values.", "anchors": ["crates/wasm/sdk-host-mock/src/lib.rs", "crates/wasm/sdk-types/src/blob.rs", "crates/wasm/sdk-host/src/lib.rs"]}
{"id": "C102", "title": "Clients see the variables of an account", "statement": "A query with a schema answers its requests in order, each with the content of the variable described last under the requested id: integers as the number the contract stored, truth values, and bytes as hexadecimal; nothing for unknown variables; different contents are never shown alike; looking never aborts.", "quantifier": "every schema, every query, every storage content and every variable length", "why_tests_cant": "The value space (lengths, integers, byte contents) is unbounded for practical purposes; tests sample a handful of values.", "anchors": ["crates/host/query/src/query.rs", "crates/host/query/src/render.rs", "crates/host/query/src/schema.rs", "crates/host/state/src/account_storage.rs"]}
{"id": "C103", "title": "The command line tool writes the message the document describes", "statement": "Crafting a transaction from a document writes, into the output file and no other, exactly the message of the call or the account that the document describes; documents that describe nothing leave all files as they were; the bytes are those that the interface for documents gives; after an error nothing but a beginning of the message is in the output file; files that cannot be read or written are reported.", "quantifier": "every document, every file system content and every behaviour of the disk", "why_tests_cant": "It ranges over every finite history of operations; tests fix one short history.", "anchors": ["crates/host/cli/src/subcmd_tx.rs", "crates/host/codec/src/api/json/call.rs", "crates/host/codec/src/api/json/spawn.rs", "crates/host/codec/src/api/json/inputdata.rs"]}
{"id": "C104", "title": "The command line tool tells valid modules and their prices", "statement": "A file is called valid exactly when it contains, in the format its name tells, a module whose code obeys the rules; templates that a node takes are called valid; the prices shown are one for each function, are those a node computes, and no execution without indirect calls costs more; a module with a loop, a call cycle, no functions or a call of an import without price gets no prices; a file that is missing, has another name or is not text is reported.", "quantifier": "every module, every file and every execution", "why_tests_cant": "The value space (lengths, integers, byte contents) is unbounded for practical purposes; tests sample a handful of values.", "anchors": ["crates/host/cli/src/subcmd_validate.rs", "crates/host/gas/src/pricing/resolvers/example.rs", "crates/host/gas/src/pricing/func_price.rs", "crates/host/program/src/program.rs"]}
{"id": "C105", "title": "No transaction runs on less gas than it costs", "statement": "A spawn or call whose gas limit does not cover the node's price of its message and its function is refused as out of gas without effect, and receipts report the gas that was used.", "quantifier": "every limit, message, template, account and every price a template can have", "why_tests_cant": "The value space (lengths, integers, byte contents) is unbounded for practical purposes; tests sample a handful of values.", "anchors": ["crates/host/runtime/src/runtime/runtime.rs", "crates/host/runtime/src/runtime/gas_tank.rs", "crates/host/runtime-ffi/src/c_api.rs"]}
{"id": "C106", "title": "The money supply is accounted for over whole histories", "statement": "In every history of a runtime, all accounts together own exactly the coins brought in by balance increases and account creations: deployments, spawns, calls, transfers, commits and rewinds neither make nor destroy coins, and at no layer do the accounts own more than was ever issued.", "quantifier": "every history of API calls with any contracts, including failed, aborted and rewound ones", "why_tests_cant": "The value space (lengths, integers, byte contents) is unbounded for practical purposes; tests sample a handful of values.", "anchors": ["crates/host/runtime/src/runtime/runtime.rs", "crates/host/state/src/account_storage.rs", "crates/host/state/src/storage.rs"]}
{"id": "C107", "title": "Templates in memory behave like a table of sections", "statement": "Whatever sections are inserted, taken out or set, in any order, a template answers like a table with one entry per kind: each section read, each accessor and each section taken is what was last put there and not taken since. A template built from code, data, constructors and header deploys at the address computed from its code with exactly these sections, and built spawn and call messages decode to the fields asked for.", "quantifier": "all sequences of edits; all sections; all reachable states", "why_tests_cant": "The value space (lengths, integers, byte contents) is unbounded for practical purposes; tests sample a handful of values.", "anchors": ["crates/host/types/src/template/mod.rs Template", "crates/host/types/src/template/sections.rs Sections", "crates/host/runtime-testing/src/lib.rs build_deploy"]}
{"id": "C108", "title": "Genesis is written once and kept", "statement": "A new database started with genesis templates holds each of them with all its sections and no other template, its mandatory sections apart from the rest; applying genesis again changes nothing whatever templates it names; the genesis layer shows the start for ever, whatever is done, committed or rewound. The genesis of the main network starts, shows the coin transfer template and lets accounts of it be created.", "quantifier": "all genesis templates and all histories of client calls", "why_tests_cant": "The value space (lengths, integers, byte contents) is unbounded for practical purposes; tests sample a handful of values.", "anchors": ["crates/host/state/src/global_state.rs GlobalState::new", "crates/host/genesis-config/src/lib.rs GenesisConfig::mainnet", "crates/host/state/src/template_storage.rs"]}
{"id": "C109", "title": "Receipts reach the client", "statement": "Every receipt of the runtime has version 0. A transaction submitted through the C interface is answered with bytes that decode to its receipt exactly when the receipt has at most 255 logs of at most 65535 bytes, at most 65535 bytes of return data, at most 65535 touched accounts, and an error text that fits (a trap message is cut after 255 bytes, between characters); receipts of deployments always do. Otherwise the reply is an error although the effects of the transaction are kept.", "quantifier": "all transactions, contracts, states and histories", "why_tests_cant": "The value space (lengths, integers, byte contents) is unbounded for practical purposes; tests sample a handful of values.", "anchors": ["crates/host/runtime-ffi/src/c_api.rs svm_runtime_action", "crates/host/codec/src/receipt", "crates/host/runtime/src/runtime/runtime.rs outcome_to_receipt"]}
{"id": "C110", "title": "Validation of spawns and calls", "statement": "A message passes validation as a spawn or a call exactly when it begins with the encoding of a well-formed one; validating changes nothing. A message refused by it is refused when submitted, and nothing changes.", "quantifier": "all messages and runtimes", "why_tests_cant": "The value space (lengths, integers, byte contents) is unbounded for practical purposes; tests sample a handful of values.", "anchors": ["crates/host/runtime-ffi/src/c_api.rs svm_validate_spawn", "crates/host/runtime-ffi/src/c_api.rs svm_validate_call", "crates/host/runtime/src/runtime/runtime.rs validate_spawn"]}
{"id": "C111", "title": "The price list", "statement": "With the price list of version 0 an execution costs one for every instruction other than control and calls, a fixed tariff for every call of a listed host function (10 for the calldata queries up to 5000000 for storing an address), and 1000 for every other call of an imported function; the price of a function is at least that sum for every execution of it.", "quantifier": "all programs and executions", "why_tests_cant": "The value space (lengths, integers, byte contents) is unbounded for practical purposes; tests sample a handful of values.", "anchors": ["crates/host/gas/src/pricing/resolvers/v0.rs V0PriceResolver", "crates/host/gas/src/pricing/cfg.rs resolve_op"]}
{"id": "C112", "title": "Strings of the SDK", "statement": "A short string made of bytes shows exactly these bytes when there are at most 8 and all are ASCII, and making it aborts otherwise. A string builder makes the concatenation of the strings given to it, and aborts exactly when one is not ASCII or has 256 bytes or more, or its room is exceeded. The unchecked constructor shows the bytes it was given, whatever they are.", "quantifier": "all byte strings, all capacities and all sequences of strings", "why_tests_cant": "The value space (lengths, integers, byte contents) is unbounded for practical purposes; tests sample a handful of values.", "anchors": ["crates/wasm/sdk-std/src/string/mod.rs String", "crates/wasm/sdk-std/src/string/builder.rs StringBuilder"]}
{"id": "C113", "title": "Results own their bytes", "statement": "Whatever results of the C interface are returned, looked at, unwrapped and freed, in any order: the client sees exactly the bytes they were made of, nothing is freed twice or read after it was freed, and when every result has been given back nothing stays allocated.", "quantifier": "all sequences of results, contents and allocator addresses", "why_tests_cant": "The value space (lengths, integers, byte contents) is unbounded for practical purposes; tests sample a handful of values.", "anchors": ["crates/host/runtime-ffi/src/result.rs svm_result_t", "crates/host/runtime-ffi/src/c_api.rs svm_free_result"]}
{"id": "C114", "title": "Truncated calldata is noticed", "statement": "Decoding the encoding of a value whose last bytes are missing is an error, never a value and never an abort; and a contract that takes its arguments off calldata whose end is missing aborts instead of running on other arguments.", "quantifier": "all values, lists of arguments and points at which the bytes were cut", "why_tests_cant": "The value space (lengths, integers, byte contents) is unbounded for practical purposes; tests sample a handful of values.", "anchors": ["crates/wasm/abi-decoder/src/decoder.rs Decoder", "crates/wasm/abi-decoder/src/cursor.rs Cursor", "crates/wasm/abi-decoder/src/calldata.rs CallData::next"]}
{"id": "C115", "title": "From the document of a call to the document of its receipt", "statement": "A client that speaks only JSON writes a document that names an account, a function and typed arguments, has it encoded, submits the bytes through the C interface and decodes the receipt. If the receipt's document says success, its returned bytes decode to the document of the values that the function's body, entered with exactly those arguments, returned; a function that returns its arguments gives back the document that was sent.", "quantifier": "all earlier uses of the C interface, accounts of templates made with the SDK, documents of calls with primitive arguments, function bodies and returned types that can be shown", "why_tests_cant": "The value space (lengths, integers, byte contents) is unbounded for practical purposes; tests sample a handful of values.", "anchors": ["crates/host/codec/src/api/json/call.rs encode_call", "crates/host/codec/src/api/json/receipt.rs decode_receipt", "crates/host/codec/src/api/json/inputdata.rs decode_inputdata", "crates/host/runtime-ffi/src/c_api.rs svm_call", "crates/wasm/sdk-macros/src/function/endpoint.rs"]}
{"id": "C116", "title": "From the document of a spawn to the document of its receipt, and on to a call", "statement": "A client that speaks only JSON writes a document that names a template, a name, a constructor and typed arguments, has it encoded and submits it through the C interface. If the receipt's document says success, it shows an account which now has that name and template, and the fingerprint of the state that is now current; values which the constructor returned decode to their document. A document that calls the account shown in the receipt then reaches the code of the same template, with the result described in C115.", "quantifier": "all earlier uses of the C interface, templates made with the SDK, documents of spawns and calls with primitive arguments, constructor and function bodies and returned types that can be shown", "why_tests_cant": "The value space (lengths, integers, byte contents) is unbounded for practical purposes; tests sample a handful of values.", "anchors": ["crates/host/codec/src/api/json/spawn.rs encode_spawn", "crates/host/codec/src/api/json/receipt.rs decode_receipt", "crates/host/codec/src/api/json/inputdata.rs decode_inputdata", "crates/host/runtime-ffi/src/c_api.rs svm_spawn", "crates/host/runtime/src/runtime/runtime.rs spawn", "crates/wasm/sdk-macros/src/function/endpoint.rs"]}
{"id": "C117", "title": "Every receipt has its cause, and every cause its receipt", "statement": "A call is answered by a receipt exactly when its message decodes and its account and template exist, and then the receipt is determined by the first thing that went wrong: calling a constructor, code that does not compile, an instantiation that traps, a missing function or one with another signature, a missing or trapping allocator, a trap of the function itself, each with its own error and with the logs of the part that ran; if nothing went wrong it reports success with the bytes the function set as its answer. In every reachable state a function that returns suffices for a receipt of success. The same holds of spawns, where not being a constructor and a limit that the message or the constructor exhausts come first. A verification is answered only when it fails.", "quantifier": "all environments, engines, messages and states for calls and verifications; all histories of a node for spawns and for success", "why_tests_cant": "The value space (lengths, integers, byte contents) is unbounded for practical purposes; tests sample a handful of values.", "anchors": ["crates/host/runtime/src/runtime/runtime.rs exec, run, call_with_alloc, func, instantiate, compile_template, validate_func_usage, outcome_to_receipt, spawn, verify, call"]}
{"id": "C118", "title": "Which modules are accepted, and why others are not", "statement": "A module is accepted exactly when it has a code section, at most 65535 imported functions, at most 65535 functions of its own, no instruction that produces a float or takes one of two float operands and, where templates are deployed, exports svm_alloc and svm_verify as functions of its own of the required types. The program is then what the module says: its imports in order, its functions numbered after them, and under each name the function exported last. Every other module is refused with the first of the reasons that applies. The fixed-gas rules report the first offending instruction, and a circle of calls only when there is none. A deployment is valid exactly when its message decodes to a template whose code is such a module, without loops, indirect calls, far call targets or circles of calls.", "quantifier": "all modules, programs and deployment messages, and all parsers", "why_tests_cant": "The value space (lengths, integers, byte contents) is unbounded for practical purposes; tests sample a handful of values.", "anchors": ["crates/host/program/src/program.rs Program::new, module_validate_exports", "crates/host/program/src/exports.rs Exports::read", "crates/host/program/src/import.rs Imports::read", "crates/host/gas/src/validation.rs validate_wasm", "crates/host/runtime/src/runtime/runtime.rs validate_deploy"]}
{"id": "C119", "title": "The gas limit of a spawn covers every execution of its constructor", "statement": "If all code a node was given passed the validation of deployments, a spawn that reaches the constructor has a gas limit above 1000 per byte of its message plus the cost, by the price list of version 0, of every execution of the constructor: one per plain instruction, the tariff for each host function called, and 1000 for other imports. It is refused as out of gas exactly when the limit is not above the price of the message, or not above that of the message and of some path through the constructor. The price the node compares with the limit is that of the dearest path, and it exists for tidy code whose costs fit in 64 bits. A price registry answers for each version with the price list added last under it, and the default one knows version 0 only.", "quantifier": "all node histories, templates, spawn messages, gas limits and executions of the constructor, all parsers, engines and registries", "why_tests_cant": "The value space (lengths, integers, byte contents) is unbounded for practical purposes; tests sample a handful of values.", "anchors": ["crates/host/runtime/src/runtime/runtime.rs check_gas_for_func, check_gas_for_payload, spawn", "crates/host/runtime/src/runtime/price_cache.rs price_of", "crates/host/runtime/src/price_registry.rs PriceResolverRegistry", "crates/host/gas/src/pricing/mod.rs ProgramPricing", "crates/host/program/src/exports.rs Exports::get"]}
{"id": "C120", "title": "Sections one by one", "statement": "Walking through the sections of an encoded template, taking some and leaving others, announces each section with its kind and size in the order it was encoded, takes it as it was encoded, and comes to the end after the last one, in front of whatever follows; asking for more there is an error. Decoding all sections, or those of some kinds, is such a walk. The decoder insists on the order: asking for the next section before the announced one is taken or left, or taking or leaving when none is announced, aborts; looking through any bytes without taking anything never does. Sections can be handed to the encoder in several portions as long as no kind comes twice. The checks that craft-deploy makes on the message it wrote succeed.", "quantifier": "all lists of sections, trailing bytes, choices, sequences of operations and byte strings; all templates the macros accept for the checks", "why_tests_cant": "The value space (lengths, integers, byte contents) is unbounded for practical purposes; tests sample a handful of values.", "anchors": ["crates/host/codec/src/section/decode.rs SectionsDecoder", "crates/host/codec/src/section/encode.rs SectionsEncoder", "crates/host/cli/src/subcmd_craft_deploy/mod.rs test_sections_encoding, assert_section, test_decode_as_template"]}
{"id": "C121", "title": "Parameters of every type", "statement": "A function of a template made with the SDK, called with encoded arguments of its parameter types, units, options and arrays among them, runs its body with exactly these arguments, and a successful receipt decodes to what the body returned; the call completes if the body does and the memory has room also for the vectors made while decoding; a function that returns its arguments gives them back; other bytes make the call fail; primitive parameters are read as in C99.", "quantifier": "every function signature over all types that can be encoded, every body, all arguments, all states, every layout of a decoded value in the contract memory", "why_tests_cant": "The value space (lengths, integers, byte contents) is unbounded for practical purposes; tests sample a handful of values.", "anchors": ["crates/wasm/sdk-macros/src/function/endpoint.rs", "crates/wasm/abi-decoder/src/decoder.rs decode_array", "crates/wasm/abi-decoder/src/calldata.rs CallData::next_1", "crates/wasm/sdk-std/src/vec.rs Vec::push", "crates/wasm/sdk-types/src/value.rs Value"]}
{"id": "C122", "title": "The SDK without run-time checks", "statement": "Templates are built without debug assertions and overflow checks. Numbers, amounts, layers and addresses are shown as in the checked build, the cells of the arrays of a storage are found alike, and short strings of at most eight bytes and digits are the same; the items of a vector stand in the memory asked for as long as its bytes fit 32 bits.", "quantifier": "both builds; all numbers, addresses, byte strings, storages, indices, item sizes and capacities", "why_tests_cant": "The value space (lengths, integers, byte contents) is unbounded for practical purposes; tests sample a handful of values.", "anchors": ["crates/wasm/sdk-std/src/string/mod.rs String::new_short", "crates/wasm/sdk-std/src/string/digit.rs HexDigit, DecDigit", "crates/wasm/sdk-std/src/string/traits.rs ToString", "crates/wasm/sdk-types/src/amount.rs", "crates/wasm/sdk-types/src/layer_id.rs", "crates/wasm/sdk-types/src/blob.rs", "crates/wasm/sdk-storage/src/lib.rs cell_offset", "crates/wasm/sdk-std/src/vec.rs Vec::alloc"]}
{"id": "C123", "title": "Nodes with and without debug assertions", "statement": "Nodes built with and without debug assertions treat every call, verification and spawn alike: same receipt, same state, same cached prices.", "quantifier": "all contracts, messages, envelopes, caches and states", "why_tests_cant": "The value space (lengths, integers, byte contents) is unbounded for practical purposes; tests sample a handful of values.", "anchors": ["crates/host/runtime/src/func_env.rs Inner::set_returndata, Inner::calldata, Inner::memory", "crates/host/runtime/src/runtime/runtime.rs call_with_alloc, ensure_ctor, set_calldata"]}
{"id": "C124", "title": "Which calldata a contract accepts", "statement": "A value is read off calldata exactly when the bytes at hand begin with bytes that say it: a marker, then its content, numbers big-endian and possibly with leading zero bytes, arrays of up to ten values one after the other, except eight. Decoding is an error exactly when the end is missing, and aborts on every other bytes. Bytes say at most one value, and nothing an encoding begins with says another. A contract that asks for arguments of some types gets them exactly when the calldata begins with bytes that say values of these types, and then gets these; the encoder's own output says the value in the fewest bytes.", "quantifier": "all byte strings, positions in them, values and lists of argument types", "why_tests_cant": "The value space (lengths, integers, byte contents) is unbounded for practical purposes; tests sample a handful of values.", "anchors": ["crates/wasm/abi-decoder/src/decoder.rs Decoder", "crates/wasm/abi-decoder/src/calldata.rs CallData", "crates/wasm/abi-layout/src/lib.rs", "crates/wasm/sdk-types/src/value.rs Value"]}
{"id": "C125", "title": "What the operator's calls need", "statement": "After any history an account is either not recorded at all or recorded with name, template, balance and counter, and its template is recorded too (the stub template aside). A query reports an account exactly if its template declares a layout; a balance is increased exactly if the account is reported and the sum fits; money moves exactly if both accounts are reported, the sender can pay and the receiver's sum fits; an account is created exactly if its template declares a layout; the state goes back to a layer exactly if it was committed and nothing is pending, and then shows every account and template as of that layer. In every other case nothing changes, except that a sender is debited when the receiver's sum does not fit.", "quantifier": "every engine, history of calls, crash of a call, account, amount and layer", "why_tests_cant": "It ranges over every finite history of operations; tests fix one short history.", "anchors": ["crates/host/runtime/src/runtime/runtime.rs: get_account, increase_balance, transfer, rewind", "crates/host/state/src/account_storage.rs: create, load, balance, template_layout", "crates/host/state/src/global_state.rs: rewind"]}
{"id": "C126", "title": "A call moves exactly the coins the contract asks to move", "statement": "When a call succeeds, or traps in the called function, the balances afterwards are the balances before with the transfers of at least one coin the contract asked for carried out in order, and no other change. Each of them was covered by the payer's balance when it was made and fitted the receiver's. For a spawn the same holds starting from balances where the new account has 0. A transfer from an account to itself adds the amount.", "quantifier": "every contract behaviour, history of calls, transaction, account and amount", "why_tests_cant": "The value space (lengths, integers, byte contents) is unbounded for practical purposes; tests sample a handful of values.", "anchors": ["crates/host/runtime/src/vmcalls/transfer.rs", "crates/host/runtime/src/runtime/runtime.rs: call, spawn, exec, transfer_between"]}
{"id": "C127", "title": "A call leaves in the variables what the contract stored last", "statement": "When a call succeeds, or traps in the called function, every variable of the called account has afterwards the bytes of the last value the contract stored in it, cut to the variable's size, or the bytes it had before if nothing was stored. Only declared variables no wider than the value are stored to. For the constructor run by a spawn the same holds of the new account, starting from whatever the variables at its address had before.", "quantifier": "every contract behaviour, layout, history of calls, transaction and variable", "why_tests_cant": "The value space (lengths, integers, byte contents) is unbounded for practical purposes; tests sample a handful of values.", "anchors": ["crates/host/runtime/src/vmcalls/storage.rs", "crates/host/runtime/src/runtime/runtime.rs: call, spawn, exec", "crates/host/state/src/account_storage.rs: set_var_bytes, get_var_vec"]}
{"id": "C128", "title": "What the API answers depends on the current contents only", "statement": "In two reachable states in which every key reads the same, the same call gives the same receipt but for the new state fingerprint, or aborts in both, and leaves states in which every key again reads the same. The same holds of a spawn if the prices already computed are the same. Deploys, transfers, balance increases, account creations, verifications and queries of accounts, variables and templates answer the same. Any further history without rewinds, run in both, keeps the contents the same. How the contents came about, in how many layers and in what order, does not matter. The fingerprint in the receipt is not decided by the contents.", "quantifier": "every two histories, contract behaviour, transaction and further list of API calls", "why_tests_cant": "The value space (lengths, integers, byte contents) is unbounded for practical purposes; tests sample a handful of values.", "anchors": ["crates/host/runtime/src/runtime/runtime.rs: call, spawn, deploy, verify, transfer, increase_balance", "crates/host/state/src/global_state.rs", "crates/host/state/src/storage.rs: get, upsert, checkpoint, commit"]}
{"id": "C129", "title": "A successful call depends only on the accounts its receipt lists", "statement": "If a call succeeds, take any other reachable state with the same templates and the same names and templates of accounts, the same balances and counters of the accounts listed as touched in the receipt, and the same variables of the called account; the balances of other accounts, the variables of other accounts, the layers and the history may differ. There the call succeeds too, with the same receipt but for the state fingerprint, and leaves the listed balances and the variables of the called account as in the first state.", "quantifier": "every two histories, contract behaviour and transaction", "why_tests_cant": "The value space (lengths, integers, byte contents) is unbounded for practical purposes; tests sample a handful of values.", "anchors": ["crates/host/runtime/src/runtime/runtime.rs: call, exec, outcome_to_receipt", "crates/host/runtime/src/func_env.rs: touch_account", "crates/host/runtime/src/vmcalls/transfer.rs", "crates/host/runtime/src/vmcalls/storage.rs"]}
{"id": "C130", "title": "Calls that touch no common account can be made in either order", "statement": "If two calls each succeed in a state and their receipts list no common account as touched, then made one after the other, in either order, both succeed with the receipts they have alone, but for the state fingerprint, and all balances, counters, variables, accounts and templates are the same after the one order as after the other.", "quantifier": "every history, contract behaviour and pair of transactions", "why_tests_cant": "The value space (lengths, integers, byte contents) is unbounded for practical purposes; tests sample a handful of values.", "anchors": ["crates/host/runtime/src/runtime/runtime.rs: call, exec, outcome_to_receipt", "crates/host/runtime/src/func_env.rs: touch_account", "crates/host/runtime/src/vmcalls/transfer.rs", "crates/host/runtime/src/vmcalls/storage.rs"]}
