{
 "claims": [
  {
   "property": "C01",
   "status": "proved",
   "theorems": [
    "C01_transaction_round_trip"
   ],
   "note": "Round trip with arbitrary trailing bytes, for every well-formed transaction."
  },
  {
   "property": "C02",
   "status": "proved",
   "theorems": [
    "C02_envelope_round_trip",
    "C02_envelope_zero_gas_refuted"
   ],
   "note": "Round trip for every envelope whose gas limit is absent or non-zero; an explicit zero limit is decoded as no limit (C02_envelope_zero_gas_refuted)."
  },
  {
   "property": "C03",
   "status": "proved",
   "theorems": [
    "C03_context_round_trip"
   ],
   "note": "Round trip with arbitrary trailing bytes."
  },
  {
   "property": "C04",
   "status": "proved",
   "theorems": [
    "C04_spawn_round_trip"
   ],
   "note": "Round trip with arbitrary trailing bytes."
  },
  {
   "property": "C05",
   "status": "proved",
   "theorems": [
    "C05_context_canonical",
    "C05_envelope_canonical",
    "C05_spawn_canonical",
    "C05_transaction_canonical"
   ],
   "note": "Whatever bytes are accepted are exactly the encoding of the decoded message, for all four message types."
  },
  {
   "property": "C06",
   "status": "proved",
   "theorems": [
    "C06_decoders_total"
   ],
   "note": "Never the Panic outcome, and the unread remainder is a suffix of the input."
  },
  {
   "property": "C07",
   "status": "proved",
   "theorems": [
    "C07_context_truncation",
    "C07_envelope_truncation",
    "C07_spawn_truncation",
    "C07_transaction_truncation"
   ],
   "note": "Every strict prefix of an encoding is rejected with an error."
  },
  {
   "property": "C08",
   "status": "proved",
   "theorems": [
    "C08_call_receipt_round_trip"
   ],
   "note": "Round trip for successful and failed call receipts with trailing bytes."
  },
  {
   "property": "C09",
   "status": "proved",
   "theorems": [
    "C09_spawn_receipt_round_trip"
   ],
   "note": "As C08 for spawn receipts."
  },
  {
   "property": "C10",
   "status": "proved",
   "theorems": [
    "C10_deploy_receipt_round_trip"
   ],
   "note": "As C08; failed deploy receipts come back without their logs."
  },
  {
   "property": "C11",
   "status": "proved",
   "theorems": [
    "C11_receipt_kind_preserved",
    "C11_receipt_round_trip"
   ],
   "note": "Kind preserved and full round trip through the generic decoder."
  },
  {
   "property": "C12",
   "status": "proved",
   "theorems": [
    "C12_empty_layout_refuted",
    "C12_large_variable_refuted",
    "C12_mandatory_sections",
    "C12_template_round_trip"
   ],
   "note": "Round trip for all well-formed section lists; the layouts excluded by well-formedness (empty layout with no first id, variables above 65535 bytes) are shown not to round trip (refuted theorems)."
  },
  {
   "property": "C13",
   "status": "proved",
   "theorems": [
    "C13_announced_size_trusted_refuted",
    "C13_selective_decoding"
   ],
   "note": "For encoder output, selective decoding is the filter of full decoding. For crafted bytes the announced size is trusted only when skipping, so the two can disagree (refuted theorem)."
  },
  {
   "property": "C14",
   "status": "proved",
   "theorems": [
    "C14_layout_defined_iff",
    "C14_layout_offsets",
    "C14_layout_partitions_storage",
    "C14_try_get_total_refuted"
   ],
   "note": "Exact definedness, offsets and partition; try_get panics on undeclared ids below the first id (refuted theorem)."
  },
  {
   "property": "C15",
   "status": "proved",
   "theorems": [
    "C15_checkpoint_keeps_reads",
    "C15_storage_refines_log",
    "C15_upsert_then_get",
    "C15_upsert_then_get_key"
   ],
   "note": "Refinement of the SQL-table model to a log of writes for every history; plus step laws for upsert and checkpoint."
  },
  {
   "property": "C16",
   "status": "proved",
   "theorems": [
    "C16_committed_layers_immutable"
   ],
   "note": "For every reachable storage and every later history that does not rewind below the layer."
  },
  {
   "property": "C17",
   "status": "proved",
   "theorems": [
    "C17_rewind_below_root_refuted",
    "C17_rewind_restores",
    "C17_rewind_to_root_refuted"
   ],
   "note": "Full observational equivalence with the storage right after the commit, including all future behaviour. Rewinding to the root or below it is outside 'a committed layer' and is shown to misbehave (refuted theorems)."
  },
  {
   "property": "C18",
   "status": "proved",
   "theorems": [
    "C18_boundaries",
    "C18_rollback_exact"
   ],
   "note": "Rollback returns the very same state; every checkpoint, commit, rewind, rollback is a boundary."
  },
  {
   "property": "C19",
   "status": "proved",
   "theorems": [
    "C19_commit_exact",
    "C19_failed_commit_refuted",
    "C19_guarded"
   ],
   "note": "Guards and exact effect of a successful commit. Under a database failure in the middle of commit all-or-nothing does not hold (C19_failed_commit_refuted)."
  },
  {
   "property": "C20",
   "status": "partial",
   "theorems": [
    "C20_crash_commit_partial",
    "C20_reopen_refuted"
   ],
   "note": "Reads after crash plus clean-up are before-or-after, but opening any used database always fails (C20_reopen_refuted), so the property as stated is false."
  },
  {
   "property": "C21",
   "status": "partial",
   "theorems": [
    "C21_fingerprint_deterministic_partial",
    "C21_fingerprint_refuted"
   ],
   "note": "The fingerprint is a function of the history (of the layer number alone); that it commits to the data is refuted for every hash function."
  },
  {
   "property": "C22",
   "status": "proved",
   "theorems": [
    "C22_inaccessible",
    "C22_set_then_get",
    "C22_widths"
   ],
   "note": "For every declared layout and every reachable global state; hash collisions between storage keys excluded by hypothesis. C22_inaccessible: variables of no bytes and undeclared ones can be neither read nor written, every access aborts."
  },
  {
   "property": "C23",
   "status": "proved",
   "theorems": [
    "C23_isolation"
   ],
   "note": "Other variables, other accounts, account records and templates unchanged."
  },
  {
   "property": "C24",
   "status": "partial",
   "theorems": [
    "C24_call_conserves",
    "C24_overdraft_refused",
    "C24_overflow_refuted",
    "C24_self_transfer_refuted",
    "C24_sum_invariant",
    "C24_transfer_moves",
    "C24_transfer_succeeds"
   ],
   "note": "Exact movement, totality, refusal of overdrafts, sum invariance for any sequence of transfers between distinct accounts and for any call of contracts that ask for no self-transfer (when the total fits u64). Refuted as stated for src = dst (mints coins) and for an overflowing receiver (sender debited, coins destroyed)."
  },
  {
   "property": "C25",
   "status": "partial",
   "theorems": [
    "C25_failed_call_partial",
    "C25_failed_call_refuted",
    "C25_failed_deploy",
    "C25_failed_spawn_partial"
   ],
   "note": "Failed deploys leave the state identical; refusals before execution too (C29, C31). For failed calls: committed history, current layer, other accounts' variables, records and templates unchanged. For failed spawns the same of all accounts but the one spawned (C25_failed_spawn_partial), and nothing at all changes if the function is no constructor or the limit is exhausted. Refuted as stated: uncommitted writes of a trapped call stay and the next success commits them; a failed spawn leaves its account."
  },
  {
   "property": "C26",
   "status": "proved",
   "theorems": [
    "C26_deploy",
    "C26_templates_permanent_refuted"
   ],
   "note": "Also recorded: deploying the same code with other sections replaces an existing template (C26_templates_permanent_refuted)."
  },
  {
   "property": "C27",
   "status": "partial",
   "theorems": [
    "C27_own_address_refuted",
    "C27_spawn_partial"
   ],
   "note": "A successful spawn creates the named account and leaves every other account alone. Refuted as stated: the address depends on the template only, so a second spawn takes over the first account and zeroes its balance."
  },
  {
   "property": "C28",
   "status": "proved",
   "theorems": [
    "C28_verify_reads_only"
   ],
   "note": "For every engine, i.e. every contract behaviour, with no hypothesis."
  },
  {
   "property": "C29",
   "status": "proved",
   "theorems": [
    "C29_call_of_constructor_refused",
    "C29_spawn_of_other_refused",
    "C29_spawn_runs_constructor"
   ],
   "note": ""
  },
  {
   "property": "C30",
   "status": "proved",
   "theorems": [
    "C30_deploy_price"
   ],
   "note": "Whenever deploy produces a receipt; it aborts on undecodable messages and missing Code sections, leaving the state unchanged (C25_failed_deploy)."
  },
  {
   "property": "C31",
   "status": "proved",
   "theorems": [
    "C31_consume",
    "C31_exact_gas_refuted",
    "C31_never_refills",
    "C31_spawn_out_of_gas"
   ],
   "note": "Also the out-of-gas refusal of spawn; and as a finding that an exact limit counts as out of gas, unlike deploy."
  },
  {
   "property": "C32",
   "status": "proved",
   "theorems": [
    "C32_accepts_exactly",
    "C32_chains_bounded",
    "C32_loops",
    "C32_same_with_cycles",
    "C32_stack_bounded"
   ],
   "note": "Acceptance is characterised exactly; chains of calls and the activation stack of every execution are bounded."
  },
  {
   "property": "C33",
   "status": "proved",
   "theorems": [
    "C33_cycle_detection_exact",
    "C33_self_edge_aborts",
    "C33_sort_exact"
   ],
   "note": "For call graphs built by any sequence of builder calls: detection and sort are exact. A self edge aborts the builder (C33_self_edge_aborts); validation refuses self calls first."
  },
  {
   "property": "C34",
   "status": "proved",
   "theorems": [
    "C34_every_dag_refuted",
    "C34_path_exact",
    "C34_path_found_exactly"
   ],
   "note": "Whatever is returned is an exact maximum, and C34_path_found_exactly says exactly when a path is returned (no overflow). Finding: C34_every_dag_refuted, pruning only removes sources once, so a chain of two unreachable nodes feeding the end makes the computation abort although the end is reachable."
  },
  {
   "property": "C35",
   "status": "partial",
   "theorems": [
    "C35_executions_bounded_partial",
    "C35_executions_bounded_refuted",
    "C35_instruction_count"
   ],
   "note": "Proved: the price bounds the cost of every execution of a validated program (any data, any prefix), with calls, blocks, imports and ordinary instructions charged; with the version 0 list it also bounds the number of instructions. Refuted when control instructions (if/else/end/br/return) count at their listed price: the code never charges them."
  },
  {
   "property": "C36",
   "status": "partial",
   "theorems": [
    "C36_both_arms_return_refuted",
    "C36_dead_code_refuted",
    "C36_missing_function_refuted",
    "C36_overflow_refuted",
    "C36_priced_partial"
   ],
   "note": "Proved for validated programs with existing call targets, WebAssembly nesting, no if/jump in dead code and instruction sums below 2^64; every function then has a price bounded by its instruction sum. Refuted in general: both arms of an if return; dead code after return; missing call target; 65 small functions whose price overflows."
  },
  {
   "property": "C37",
   "status": "partial",
   "theorems": [
    "C37_report_aborts_refuted",
    "C37_report_exists_partial",
    "C37_reported_chain_partial",
    "C37_reported_cycle_refuted"
   ],
   "note": "The reported list is a chain of calls ending in a closed chain, and a report is produced when everything fed by a cycle leads to a cycle. Refuted: the list need not be closed, and the search may abort."
  },
  {
   "property": "C38",
   "status": "proved",
   "theorems": [
    "C38_choice",
    "C38_laws",
    "C38_sequence"
   ],
   "note": "Choice is the smallest enclosing interval, sequence is exactly the set of sums, failure exactly on 64-bit overflow; commutative, associative, idempotent."
  },
  {
   "property": "C39",
   "status": "partial",
   "theorems": [
    "C39_floats_refused_partial",
    "C39_no_floats_partial",
    "C39_no_floats_refuted"
   ],
   "note": "Only conversions from one float to an integer are let through; the full claim is refuted: the eight truncations and two reinterpretations to integer are accepted."
  },
  {
   "property": "C40",
   "status": "partial",
   "theorems": [
    "C40_function_limit_partial",
    "C40_function_limit_refuted"
   ],
   "note": "Imports and definitions are each limited to 65535; the joint limit that the documentation states is refuted."
  },
  {
   "property": "C41",
   "status": "partial",
   "theorems": [
    "C41_eight",
    "C41_eight_refuted",
    "C41_format",
    "C41_prefix_free",
    "C41_round_trip_partial"
   ],
   "note": "Proved for every value and every position in a buffer, except arrays of exactly eight elements: these are encoded but decoding them aborts (C41_eight_refuted). The encoder is proved equal to the documented format for all values. C41_eight: decoding aborts on exactly these arrays; C41_prefix_free has no such exception."
  },
  {
   "property": "C42",
   "status": "partial",
   "theorems": [
    "C42_eight",
    "C42_eight_refuted",
    "C42_injective",
    "C42_iterate_partial",
    "C42_typed_partial"
   ],
   "note": "Proved for sequences of values and for typed argument tuples, without arrays of eight elements, whose decoding aborts (C42_eight_refuted). C42_eight: iteration aborts exactly if there is such an array; C42_injective has no such exception."
  },
  {
   "property": "C43",
   "status": "partial",
   "theorems": [
    "C43_array_size_aborts",
    "C43_byte_size_partial",
    "C43_byte_size_refuted",
    "C43_max_byte_size",
    "C43_max_byte_size_least"
   ],
   "note": "The maximal size is a bound for all types and leaves enough room; the size of a value is exact for everything but arrays, for which asking the size always aborts (C43_byte_size_refuted, C43_array_size_aborts)."
  },
  {
   "property": "C44",
   "status": "proved",
   "theorems": [
    "C44_subtraction"
   ],
   "note": "Abort iff the subtrahend is larger, exact otherwise."
  },
  {
   "property": "C45",
   "status": "proved",
   "theorems": [
    "C45_bounded_stack",
    "C45_from_items"
   ],
   "note": "Refinement to a bounded stack for every operation sequence; also for vectors made from existing items. Allocation failure and aliasing of raw memory are not modelled."
  },
  {
   "property": "C46",
   "status": "proved",
   "theorems": [
    "C46_numeral_unique",
    "C46_signed",
    "C46_unsigned"
   ],
   "note": "Whole i64 and u64 ranges, with uniqueness of the numeral."
  },
  {
   "property": "C47",
   "status": "partial",
   "theorems": [
    "C47_address",
    "C47_amount",
    "C47_layer_aborts",
    "C47_layer_partial",
    "C47_layer_refuted"
   ],
   "note": "Proved for every amount, every address and every layer below 10^18. Refuted for layers from 10^18 on: the text does not fit the 26-byte buffer and rendering aborts."
  },
  {
   "property": "C48",
   "status": "proved",
   "theorems": [
    "C48_agrees_with_layout",
    "C48_array_access",
    "C48_array_cell",
    "C48_disjoint",
    "C48_wide_index_refuted"
   ],
   "note": "Disjointness, coverage, agreement with the host layout; array access stays in its field for every index, and names the right cell for 32-bit indexes, those of the wasm target. Finding: where an index has 64 bits it is cut before the bound check, so an access beyond the end can answer an element (C48_wide_index_refuted)."
  },
  {
   "property": "C49",
   "status": "proved",
   "theorems": [
    "C49_defined",
    "C49_header",
    "C49_store"
   ],
   "note": "Refinement for every client history on wasm32 with any correct allocator: replies are those of a store of byte strings (C49_store), nothing undefined happens (C49_defined), and each live buffer has length = capacity = size of its block minus the header and is recovered from its pointer (C49_header)."
  },
  {
   "property": "C50",
   "status": "proved",
   "theorems": [
    "C50_count",
    "C50_handles"
   ],
   "note": "After any history answered by the library with an allocator that never returns an address in use, the reported count is creations minus destructions (C50_count); destroy succeeds exactly on open handles and requests on closed ones are refused without effect (C50_handles)."
  },
  {
   "property": "C51",
   "status": "proved",
   "theorems": [
    "C51_hex"
   ],
   "note": "Exact set of accepted strings, either case; addresses exactly twenty bytes."
  },
  {
   "property": "C52",
   "status": "partial",
   "theorems": [
    "C52_ambiguous",
    "C52_gas_refuted",
    "C52_shown_partial"
   ],
   "note": "Holds below 2^63 (C52_shown_partial); C52_ambiguous gives the exact set of values shown alike. Finding: gas is cast to i64, so the largest u64 is shown as -1, which means no gas (C52_gas_refuted)."
  },
  {
   "property": "C53",
   "status": "proved",
   "theorems": [
    "C53_context_layout",
    "C53_envelope_layout",
    "C53_transaction_layout"
   ],
   "note": "Offsets, widths, endianness and total length."
  },
  {
   "property": "C54",
   "status": "partial",
   "theorems": [
    "C54_encodes_exactly",
    "C54_receipt_encoding_aborts_exactly_partial",
    "C54_receipt_encoding_refuted"
   ],
   "note": "The first half is false (refuted theorem: a failed call with a long message); the exact condition under which a receipt of any kind is encoded is proved (C54_encodes_exactly)."
  },
  {
   "property": "C55",
   "status": "partial",
   "theorems": [
    "C55_aborts_exactly",
    "C55_reads_exactly",
    "C55_receipt_decoding_refuted",
    "C55_successful_receipt_decoding_total_partial"
   ],
   "note": "As stated the claim is false (refuted theorem: crafted bytes panic); proved for receipts flagged successful, and exactly: the set of byte strings on which decoding aborts and the set that is read (C55_aborts_exactly, C55_reads_exactly)."
  },
  {
   "property": "C56",
   "status": "partial",
   "theorems": [
    "C56_aborts_exactly",
    "C56_reads_exactly",
    "C56_selective_decoding_total_partial",
    "C56_template_decoding_refuted"
   ],
   "note": "As stated the claim is false (refuted theorem: four crafted inputs panic). Proved instead: the exact set of byte strings on which decoding aborts and the exact set that is read, for every selection of kinds; decoding that selects only header, constructor and deploy sections never aborts."
  },
  {
   "property": "C57",
   "status": "proved",
   "theorems": [
    "C57_create",
    "C57_create_stub",
    "C57_set_balance",
    "C57_set_counter"
   ],
   "note": "create_stub, create+load, set_balance, set_counter on reachable states, current reads."
  },
  {
   "property": "C58",
   "status": "partial",
   "theorems": [
    "C58_records_at_layer_partial",
    "C58_variables_refuted"
   ],
   "note": "Holds for account records and templates (C58_records_at_layer_partial); false for variables: the getters ignore the layer parameter (C58_variables_refuted)."
  },
  {
   "property": "C59",
   "status": "proved",
   "theorems": [
    "C59_any_outcome",
    "C59_call_isolated",
    "C59_touched_covers_failures_refuted"
   ],
   "note": "Successful calls, and the bound for any outcome. Extra finding: the touched accounts of a failed call's receipt do not cover the balances that changed (refuted)."
  },
  {
   "property": "C60",
   "status": "proved",
   "theorems": [
    "C60_call_commits",
    "C60_spawn_commits"
   ],
   "note": ""
  },
  {
   "property": "C61",
   "status": "partial",
   "theorems": [
    "C61_accepting_contract_refuted",
    "C61_verify_never_succeeds",
    "C61_verify_runs_svm_verify"
   ],
   "note": "Refuted: verification never produces a successful receipt, a normally returning verification function aborts the transaction."
  },
  {
   "property": "C62",
   "status": "partial",
   "theorems": [
    "C62_regions_from_offset_refuted",
    "C62_static_alloc_partial"
   ],
   "note": "The regions ending at the returned offsets are disjoint and in bounds; refuted for regions starting at the returned offset."
  },
  {
   "property": "C63",
   "status": "proved",
   "theorems": [
    "C63_any_size",
    "C63_every_variable_refuted",
    "C63_set32_get32",
    "C63_set64_get64",
    "C63_short_variables"
   ],
   "note": "With the variable's size equal to the access; shorter variables truncate (C63_short_variables), so the claim for every variable is refuted. C63_any_size says what happens for every size: reads back modulo the variable's size, aborts for a wider variable."
  },
  {
   "property": "C64",
   "status": "partial",
   "theorems": [
    "C64_commit_exactly",
    "C64_commit_partial",
    "C64_commit_refuted"
   ],
   "note": "Without pending writes commit does not fail and changes nothing visible. Refuted as stated: after a deploy, transfer or balance increase commit returns an error. C64_commit_exactly: it succeeds exactly when nothing is pending."
  },
  {
   "property": "C65",
   "status": "partial",
   "theorems": [
    "C65_spends_asked_partial",
    "C65_spends_own_coins_refuted"
   ],
   "note": "Refuted: a contract can move coins out of any account (C65_spends_own_coins_refuted). What holds (C65_spends_asked_partial): an account has less after a call only if the contract asked to move coins from it to another account. C126 gives all balances exactly."
  },
  {
   "property": "C66",
   "status": "partial",
   "theorems": [
    "C66_accepted_messages_deploy_refuted",
    "C66_deploy_succeeds",
    "C66_deploys_exactly"
   ],
   "note": "Proved for every well-formed template; refuted for messages with 255 constructors, which decode but abort deploy. C66_deploys_exactly gives the exact condition for arbitrary bytes."
  },
  {
   "property": "C67",
   "status": "proved",
   "theorems": [
    "C67_text_is_utf8",
    "C67_text_round_trip"
   ],
   "note": "UTF-8 is specified independently by the encoding of scalar values."
  },
  {
   "property": "C68",
   "status": "proved",
   "theorems": [
    "C68_sequence_canonical",
    "C68_sequence_limit",
    "C68_sequence_round_trip"
   ],
   "note": "Generic in the element codec."
  },
  {
   "property": "C69",
   "status": "proved",
   "theorems": [
    "C69_success_flag"
   ],
   "note": ""
  },
  {
   "property": "C70",
   "status": "proved",
   "theorems": [
    "C70_last_section_wins"
   ],
   "note": "Stated for the frame grammar written by finish, with repetitions allowed."
  },
  {
   "property": "C71",
   "status": "proved",
   "theorems": [
    "C71_terminates"
   ],
   "note": "Over a small-step semantics of WebAssembly control flow with calls; values are abstracted, so every real execution is covered."
  },
  {
   "property": "C72",
   "status": "proved",
   "theorems": [
    "C72_required_exports"
   ],
   "note": "Over parsed modules; the parser is an input."
  },
  {
   "property": "C73",
   "status": "partial",
   "theorems": [
    "C73_aborts_exactly",
    "C73_errors_exactly",
    "C73_validation_answers_partial",
    "C73_validation_answers_refuted"
   ],
   "note": "Proved for decodable messages whose module exports only its own functions; refuted otherwise (an svm_alloc export of an imported function aborts). C73_aborts_exactly and C73_errors_exactly give the exact conditions on arbitrary bytes."
  },
  {
   "property": "C74",
   "status": "partial",
   "theorems": [
    "C74_dearest_execution_partial",
    "C74_dearest_execution_refuted",
    "C74_dearest_path"
   ],
   "note": "The price is exactly the greatest cost over all complete paths, where a path goes on in the caller after an unreachable; it is the cost of a genuine execution when no called function contains an unreachable. Refuted otherwise: with a callee that always traps the price counts what follows the call. Control instructions are free, as in C35."
  },
  {
   "property": "C75",
   "status": "partial",
   "theorems": [
    "C75_checked_partial",
    "C75_unchecked_mul_refuted",
    "C75_unchecked_refuted"
   ],
   "note": "Proved with the compiler's overflow checks on; refuted with them off, the profile of the example contract."
  },
  {
   "property": "C76",
   "status": "proved",
   "theorems": [
    "C76_decoded_value",
    "C76_iteration_ends"
   ],
   "note": ""
  },
  {
   "property": "C77",
   "status": "partial",
   "theorems": [
    "C77_encoder_is_minimal_partial",
    "C77_unique_encoding_refuted"
   ],
   "note": "Refuted: numbers are also accepted with leading zero bytes. What holds: the encoder is deterministic and no accepted encoding is shorter than its."
  },
  {
   "property": "C78",
   "status": "partial",
   "theorems": [
    "C78_all_logs_refuted",
    "C78_logs_partial",
    "C78_spawn_logs_partial"
   ],
   "note": "Proved for the logs of the main function (the only code that can log with memory attached, apart from the allocator). The unrestricted statement is refuted: what svm_alloc logs is lost (C78_all_logs_refuted)."
  },
  {
   "property": "C79",
   "status": "proved",
   "theorems": [
    "C79_returndata",
    "C79_spawn_returndata"
   ],
   "note": "Return data of calls and spawns is the slice of the final memory last designated by set_returndata."
  },
  {
   "property": "C80",
   "status": "proved",
   "theorems": [
    "C80_spawn_touched_exact",
    "C80_touched_exact"
   ],
   "note": "Touched accounts are exactly target, principal and transfer parties, for calls and spawns."
  },
  {
   "property": "C81",
   "status": "proved",
   "theorems": [
    "C81_created",
    "C81_increased",
    "C81_only_existing",
    "C81_transferred"
   ],
   "note": "Queries after creation, credit and transfer; only existing accounts answer."
  },
  {
   "property": "C82",
   "status": "proved",
   "theorems": [
    "C82_cache_transparent"
   ],
   "note": "Any history gives the same replies and state whether the price cache is kept or cleared, assuming templates in play have different addresses."
  },
  {
   "property": "C83",
   "status": "proved",
   "theorems": [
    "C83_isolated"
   ],
   "note": "The replies to one handle and the runtime behind it equal those of the same requests served alone."
  },
  {
   "property": "C84",
   "status": "proved",
   "theorems": [
    "C84_behind_handles",
    "C84_transparent"
   ],
   "note": "C84_transparent: reply and successor state for all four transaction kinds, receipts through the wire format of C08-C11. C84_behind_handles: every runtime behind a handle is in a reachable runtime state, so the other theorems apply."
  },
  {
   "property": "C85",
   "status": "partial",
   "theorems": [
    "C85_address_refuted",
    "C85_genesis_account"
   ],
   "note": "Balance, template and both counter halves are returned as written (C85_genesis_account). The address field of the returned record is never written (C85_address_refuted)."
  },
  {
   "property": "C86",
   "status": "partial",
   "theorems": [
    "C86_create_exactly",
    "C86_create_partial",
    "C86_lockout",
    "C86_reopen_refuted",
    "C86_uninitialised"
   ],
   "note": "False as stated: one failed creation locks the library for good (C86_lockout) and opening a database that was used before always fails (C86_reopen_refuted). C86_create_exactly says exactly when a runtime is made, after any sequence of calls: the library was initialised, no creation failed since, and the place is memory or a new database at a path of characters; otherwise the answer is an error. It subsumes C86_create_partial."
  },
  {
   "property": "C87",
   "status": "partial",
   "theorems": [
    "C87_bricked_by",
    "C87_bricked_exactly",
    "C87_bricked_forever",
    "C87_error_harmless_refuted",
    "C87_looking",
    "C87_validated_harmless_refuted"
   ],
   "note": "False as stated. Read-only requests and closed handles change nothing (C87_looking). C87_bricked_exactly says exactly which requests make a runtime in any reachable state useless: rewinding to a layer that was never committed, and deploying an affordable message with a code section whose template was read but cannot be written again; then for good (C87_bricked_forever). Both happen: C87_error_harmless_refuted, C87_validated_harmless_refuted (a message accepted by validation)."
  },
  {
   "property": "C88",
   "status": "partial",
   "theorems": [
    "C88_encode",
    "C88_reports_refuted"
   ],
   "note": "C88_encode is exact for all documents. The full claim is false: values that are not of their type abort instead of being reported (C88_reports_refuted)."
  },
  {
   "property": "C89",
   "status": "partial",
   "theorems": [
    "C89_decodes_exactly",
    "C89_identity_partial",
    "C89_round_trip_partial",
    "C89_round_trip_refuted"
   ],
   "note": "C89_decodes_exactly: for any bytes, the answer is the document of the values they say, and everything else aborts. The round trip is proved for flat types and arrays of 1 to 7 or 9 to 10 elements. False in general: an empty array decodes with type null, an array of eight aborts (C89_round_trip_refuted)."
  },
  {
   "property": "C90",
   "status": "partial",
   "theorems": [
    "C90_complete_refuted",
    "C90_decodes_exactly",
    "C90_encode",
    "C90_only",
    "C90_round_trip_partial",
    "C90_round_trip_refuted"
   ],
   "note": "Encoding exact (C90_encode, C90_only); decoding exact for any bytes (C90_decodes_exactly); round trip proved when the inputs are encodings of readable values. Findings: surplus types or values are dropped silently (C90_complete_refuted); decoding an encoded call can abort (C90_round_trip_refuted), also for an empty array, which decode_inputdata shows."
  },
  {
   "property": "C91",
   "status": "partial",
   "theorems": [
    "C91_decode",
    "C91_decodes_exactly",
    "C91_encode",
    "C91_only",
    "C91_round_trip_partial",
    "C91_round_trip_refuted"
   ],
   "note": "Encoding exact (C91_encode, C91_only); decoding exact for any bytes (C91_decodes_exactly). Decoding gives back every part for call data of any bytes that decode_inputdata can show, and aborts exactly when that does (C91_decode); hence not every encoded spawn can be decoded (C91_round_trip_refuted). C91_round_trip_partial: the document shown for call data written as values."
  },
  {
   "property": "C92",
   "status": "partial",
   "theorems": [
    "C92_decodes_exactly",
    "C92_faithful_partial",
    "C92_order",
    "C92_shows_partial",
    "C92_shows_refuted"
   ],
   "note": "C92_decodes_exactly: for any bytes, exactly which are answered, with the document of the receipt they begin with. Round trip proved for receipts with text logs and gas below 2^63. Finding: a log that is not UTF-8 aborts the decoder (C92_shows_refuted)."
  },
  {
   "property": "C93",
   "status": "partial",
   "theorems": [
    "C93_aborts_exactly",
    "C93_blame",
    "C93_reports_partial",
    "C93_reports_refuted"
   ],
   "note": "Documents without bytes, and bytes that are not a transaction, are reported. False in general (C93_reports_refuted): each decoder aborts on some bytes; C93_aborts_exactly says on which."
  },
  {
   "property": "C94",
   "status": "proved",
   "theorems": [
    "C94_fresh",
    "C94_typed_storage"
   ],
   "note": "Refinement: the accessors the macro generates, run by the runtime's host functions, implement a store of typed values for any struct and any sequence of reads and writes; an unwritten account is the zero store."
  },
  {
   "property": "C95",
   "status": "partial",
   "theorems": [
    "C95_mock_agrees_partial",
    "C95_raw_calls_refuted"
   ],
   "note": "Proved for all code that uses the generated accessors. Refuted for direct calls of set32/get32: the mock does not cut values to the size of the variable."
  },
  {
   "property": "C96",
   "status": "partial",
   "theorems": [
    "C96_before_first_commit",
    "C96_first_layer_refuted",
    "C96_layers"
   ],
   "note": "C96_layers: the answers and effects of the four functions after any history, as long as the last layer is numbered from 0. C96_before_first_commit: what holds otherwise: an error when asked for the layer, nothing to go back to, and layer 0 after the first commit. C96_first_layer_refuted: a new runtime (last layer: genesis, number -1) cannot tell its layer, the conversion to u64 panics and an error is returned."
  },
  {
   "property": "C97",
   "status": "partial",
   "theorems": [
    "C97_description",
    "C97_limits",
    "C97_message",
    "C97_type_names_refuted"
   ],
   "note": "The message, the limits and the description hold for every contract; refuted: the type names in the description are accepted by the JSON interface."
  },
  {
   "property": "C98",
   "status": "partial",
   "theorems": [
    "C98_accepts",
    "C98_ctor_hook_refuted",
    "C98_default_word_refuted",
    "C98_exports",
    "C98_functions",
    "C98_implicit_hook",
    "C98_plain_struct_refuted"
   ],
   "note": "Acceptance is characterised exactly, every function becomes what its annotations say. Refuted as documented: a constructor that is also a hook is accepted, any word makes a hook the default, and a struct other than the storage aborts the macro."
  },
  {
   "property": "C99",
   "status": "partial",
   "theorems": [
    "C99_arguments_kept_refuted",
    "C99_call_partial",
    "C99_completes_partial",
    "C99_echo",
    "C99_no_result",
    "C99_other_arguments",
    "C99_pick_refuted"
   ],
   "note": "Proved for primitive parameters and all result types but arrays of eight, when returned addresses do not stand where the answer is written. Refuted: an address argument survives reading an address from storage; a function may return only some of its address arguments."
  },
  {
   "property": "C100",
   "status": "partial",
   "theorems": [
    "C100_accepted_contracts_refuted",
    "C100_call_fails",
    "C100_links",
    "C100_other_imports",
    "C100_sdk_functions_refuted",
    "C100_spawn_fails",
    "C100_validation_ignores_imports"
   ],
   "note": "Which contracts link is characterised exactly, and those that do not link never run; the property that validation tells them apart, and that every SDK function is provided, is false and refuted."
  },
  {
   "property": "C101",
   "status": "partial",
   "theorems": [
    "C101_agrees_partial",
    "C101_arguments",
    "C101_array_arguments_refuted",
    "C101_equal_addresses_refuted",
    "C101_no_trace",
    "C101_reset_partial",
    "C101_reset_refuted",
    "C101_self_transfer_refuted",
    "C101_transfer"
   ],
   "note": "Refinement for every history with one object per address, arguments without arrays, no self-transfers and no reset after coins were given out; each exception is refuted."
  },
  {
   "property": "C102",
   "status": "partial",
   "theorems": [
    "C102_aborts",
    "C102_account",
    "C102_answers_refuted",
    "C102_distinguishes",
    "C102_integers_partial",
    "C102_integers_refuted",
    "C102_query",
    "C102_renders",
    "C102_session"
   ],
   "note": "Rendering, order and choice of the variable are exact for every schema and query. Refuted: integers stored by the runtime (little endian) are shown big endian, so only those with the same bytes in both directions are right; balances abort."
  },
  {
   "property": "C103",
   "status": "partial",
   "theorems": [
    "C103_atomic_refuted",
    "C103_call",
    "C103_exact",
    "C103_hexadecimal_refuted",
    "C103_other_files",
    "C103_reports_refuted",
    "C103_same_as_interface",
    "C103_spawn",
    "C103_system_errors"
   ],
   "note": "exact; three natural strengthenings are false of the code and refuted"
  },
  {
   "property": "C104",
   "status": "partial",
   "theorems": [
    "C104_aborts",
    "C104_bound_partial",
    "C104_deployable",
    "C104_deployable_refuted",
    "C104_priced_refuted",
    "C104_prices",
    "C104_status_refuted",
    "C104_unreadable",
    "C104_valid"
   ],
   "note": "verdict and prices exact; bound without control instructions and indirect calls; three natural strengthenings are false of the code and refuted"
  },
  {
   "property": "C105",
   "status": "partial",
   "theorems": [
    "C105_call_limit_refuted",
    "C105_calls_ignore_limit",
    "C105_gas_amounts",
    "C105_nothing_reported",
    "C105_spawn"
   ],
   "note": "Proved for spawns (C105_spawn) and deployments (C30). Refuted for calls and verifications: the limit is not looked at, and no receipt reports gas."
  },
  {
   "property": "C106",
   "status": "partial",
   "theorems": [
    "C106_accounted_partial",
    "C106_balance_sheet_partial",
    "C106_never_more",
    "C106_never_more_than_made_partial",
    "C106_respawn_refuted",
    "C106_rewound",
    "C106_self_transfer_refuted",
    "C106_start"
   ],
   "note": "Exact accounting is proved without rewinds, self-transfers and respawns (C106_accounted_partial); with self-transfers and respawns, for every history without rewinds, every coin made and every coin lost is accounted for (C106_balance_sheet_partial); with rewinds and respawns the supply never exceeds what was issued, now and at every layer (C106_never_more), nor with self-transfers what was made (C106_never_more_than_made_partial), and a rewind leaves exactly what the accounts owned at its layer (C106_rewound). Self-transfers and respawns refute the full claim. Left out of the exact accounting: rewinds, and contracts that pay an account from itself."
  },
  {
   "property": "C107",
   "status": "partial",
   "theorems": [
    "C107_built_messages",
    "C107_built_template_deploys",
    "C107_documented_refuted",
    "C107_edits",
    "C107_executable",
    "C107_readers"
   ],
   "note": "proved; three documented panics or removals do not happen (C107_documented_refuted)"
  },
  {
   "property": "C108",
   "status": "proved",
   "theorems": [
    "C108_deployer",
    "C108_genesis_kept",
    "C108_genesis_starts",
    "C108_library",
    "C108_mainnet"
   ],
   "note": "mainnet wasm bytes are a parameter: the file is not in the repository"
  },
  {
   "property": "C109",
   "status": "proved",
   "theorems": [
    "C109_answered",
    "C109_error_undone_refuted",
    "C109_receipts"
   ],
   "note": "Which receipts reach the client is stated exactly; that an error reply leaves no effects is refuted by C109_error_undone_refuted."
  },
  {
   "property": "C110",
   "status": "proved",
   "theorems": [
    "C110_accepted_refuted",
    "C110_refused",
    "C110_refused_deploy_refuted",
    "C110_validation"
   ],
   "note": "For spawns and calls. The same does not hold of deployments (C110_refused_deploy_refuted), and passing validation does not promise a receipt (C110_accepted_refuted)."
  },
  {
   "property": "C111",
   "status": "proved",
   "theorems": [
    "C111_executions_cost",
    "C111_price_pays",
    "C111_transfer_unlisted"
   ],
   "note": ""
  },
  {
   "property": "C112",
   "status": "proved",
   "theorems": [
    "C112_builder",
    "C112_short",
    "C112_unchecked"
   ],
   "note": ""
  },
  {
   "property": "C113",
   "status": "partial",
   "theorems": [
    "C113_clone_refuted",
    "C113_flags",
    "C113_ownership_partial",
    "C113_unwrap_dangles",
    "C113_unwrap_refuted"
   ],
   "note": "Proved for clients that never unwrap a receipt and never clone a result; unwrapping a receipt and cloning are refuted."
  },
  {
   "property": "C114",
   "status": "proved",
   "theorems": [
    "C114_truncated_arguments",
    "C114_truncated_value"
   ],
   "note": "Every proper prefix of an encoding is refused, arrays of eight included; truncated argument lists abort the contract."
  },
  {
   "property": "C115",
   "status": "partial",
   "theorems": [
    "C115_call_any_partial",
    "C115_call_partial",
    "C115_echo_any_partial",
    "C115_echo_partial",
    "C115_primitive_documents",
    "C115_results"
   ],
   "note": "The _any theorems cover parameters and results of every type; C115_results says which results have no document. Missing: returned addresses that stand where the answer is written (false there, see C99)."
  },
  {
   "property": "C116",
   "status": "partial",
   "theorems": [
    "C116_spawn_any_partial",
    "C116_spawn_partial",
    "C116_then_call_any_partial",
    "C116_then_call_partial"
   ],
   "note": "The _any theorems cover parameters and results of every type. Missing: returned addresses that stand where the answer is written (false there, see C99)."
  },
  {
   "property": "C117",
   "status": "proved",
   "theorems": [
    "C117_call",
    "C117_call_succeeds",
    "C117_spawn",
    "C117_spawn_succeeds",
    "C117_verify"
   ],
   "note": "Calls and verifications in every state; spawns for every history of a node in which distinct codes have distinct template addresses (C82). An engine is any table of behaviours; aborts of host functions give no receipt."
  },
  {
   "property": "C118",
   "status": "proved",
   "theorems": [
    "C118_aborts",
    "C118_accepts",
    "C118_deploy",
    "C118_refuses",
    "C118_rules"
   ],
   "note": "The parity-wasm parser is any function from bytes to modules."
  },
  {
   "property": "C119",
   "status": "proved",
   "theorems": [
    "C119_limit_covers",
    "C119_price_known",
    "C119_refused_exactly",
    "C119_registry"
   ],
   "note": "Parsing wasm is a function argument; executions are those of the small-step semantics of C35. Bodies are well nested, as parity-wasm guarantees. Existence of the price carries the conditions of C36."
  },
  {
   "property": "C120",
   "status": "proved",
   "theorems": [
    "C120_craft_checks",
    "C120_leaving_total",
    "C120_order",
    "C120_portions",
    "C120_same",
    "C120_twice_refuted",
    "C120_walk"
   ],
   "note": "Unconditional for well-formed lists of sections; a kind handed to the encoder twice is refuted by C120_twice_refuted, which the statement excludes."
  },
  {
   "property": "C121",
   "status": "partial",
   "theorems": [
    "C121_call_partial",
    "C121_completes_partial",
    "C121_echo_partial",
    "C121_eight_partial",
    "C121_long_arguments_refuted",
    "C121_no_result_partial",
    "C121_other_arguments_partial",
    "C121_primitive_parameters"
   ],
   "note": "Refuted for arguments longer than 22 decoded values when there is an array among the parameters: decoding the array overwrites them. Proved below that bound. Arrays of eight elements (see C41) and returned addresses that stand where the answer is written (see C99) are not covered. C121_eight_partial: a call with an array of eight elements does not succeed."
  },
  {
   "property": "C122",
   "status": "partial",
   "theorems": [
    "C122_address",
    "C122_amount",
    "C122_array_cells",
    "C122_digit_refuted",
    "C122_digits",
    "C122_layer",
    "C122_long_short_string_refuted",
    "C122_no_digits",
    "C122_short",
    "C122_signed",
    "C122_unsigned",
    "C122_vector_room",
    "C122_vector_room_refuted"
   ],
   "note": "Proved that both builds agree where the property holds; refuted: short strings of more than eight bytes, numbers that are no digits, and vectors whose bytes do not fit 32 bits behave differently without the checks."
  },
  {
   "property": "C123",
   "status": "partial",
   "theorems": [
    "C123_builds_agree_refuted",
    "C123_no_other_receipt_partial",
    "C123_one_answer_partial",
    "C123_release"
   ],
   "note": "False for contracts that set their returndata twice (C123_builds_agree_refuted). Proved: equality for contracts that answer at most once, for every contract the checked node gives the same result or panics, and the build without assertions is the one modelled elsewhere."
  },
  {
   "property": "C124",
   "status": "proved",
   "theorems": [
    "C124_arguments_exactly",
    "C124_encoder_says",
    "C124_errors_exactly",
    "C124_unambiguous",
    "C124_value_exactly",
    "C124_values_exactly"
   ],
   "note": "Arrays of eight elements are the only values that bytes can say and that the decoder does not read (C42_eight)."
  },
  {
   "property": "C125",
   "status": "proved",
   "theorems": [
    "C125_create_exactly",
    "C125_increase_exactly",
    "C125_queries_answer_refuted",
    "C125_query_exactly",
    "C125_record_whole",
    "C125_rewind_exactly",
    "C125_transfer_exactly"
   ],
   "note": "C125_record_whole is the invariant; the other theorems give the exact outcome of each call. That queries always answer is refuted (C125_queries_answer_refuted)."
  },
  {
   "property": "C126",
   "status": "proved",
   "theorems": [
    "C126_call_pays",
    "C126_call_sums",
    "C126_spawn_pays"
   ],
   "note": "For calls and spawns whose receipt reports success or a trap in the called function. Calls that abort the node give no receipt; C59_any_outcome bounds what they may change."
  },
  {
   "property": "C127",
   "status": "proved",
   "theorems": [
    "C127_call_stores",
    "C127_fresh_refuted",
    "C127_spawn_stores"
   ],
   "note": "For calls and spawns whose receipt reports success or a trap in the called function. That a spawned account starts with zero variables is refuted (C127_fresh_refuted)."
  },
  {
   "property": "C128",
   "status": "proved",
   "theorems": [
    "C128_answers_alike",
    "C128_call_alike",
    "C128_history_alike",
    "C128_spawn_alike",
    "C128_state_refuted"
   ],
   "note": "Rewinds are left out of the further history: what they restore is not part of the current contents. That the receipt's state fingerprint is decided by the contents is refuted (C128_state_refuted)."
  },
  {
   "property": "C129",
   "status": "proved",
   "theorems": [
    "C129_call_local",
    "C129_call_local_values"
   ],
   "note": "For calls that succeed; the touched list of a failed call is not complete (C59_touched_covers_failures_refuted)."
  },
  {
   "property": "C130",
   "status": "proved",
   "theorems": [
    "C130_balances_commute",
    "C130_calls_commute"
   ],
   "note": "For calls that succeed and receipts with no common touched account. Fingerprints and layers depend on the order and are left out."
  }
 ]
}