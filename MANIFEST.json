{
 "claims": [
  {
   "property": "C01",
   "status": "proved",
   "theorems": [
    "C01_round_trip",
    "C01_injective",
    "C01_parse_sound",
    "C01_parse_rejects",
    "C01_reads",
    "C01_writes",
    "C01_canonical"
   ],
   "note": "codec of the external crate fast32 modelled from its documented behaviour; reading and writing are characterised exactly (C01_reads, C01_writes)"
  },
  {
   "property": "C02",
   "status": "proved",
   "theorems": [
    "C02_checked",
    "C02_assign",
    "C02_saturating",
    "C02_sum",
    "C02_sum_order",
    "C02_convert",
    "C02_with_precision",
    "C02_fraction"
   ],
   "note": ""
  },
  {
   "property": "C03",
   "status": "proved",
   "theorems": [
    "C03_split",
    "C03_rounding",
    "C03_precisions",
    "C03_precisions_all"
   ],
   "note": ""
  },
  {
   "property": "C04",
   "status": "partial",
   "theorems": [
    "C04_new_recombines",
    "C04_with",
    "C04_to_amount_partial",
    "C04_no_panic_refuted"
   ],
   "note": "new/with proved in full; the conversion of an accepted coin amount that does not fit u64 panics instead of failing (C04_no_panic_refuted), reachable through RgbInvoiceBuilder::set_amount"
  },
  {
   "property": "C05",
   "status": "partial",
   "theorems": [
    "C05_alternate_round_trip_partial",
    "C05_plain_denotes",
    "C05_plain_round_trip_partial",
    "C05_parse_never_panics",
    "C05_round_trip_refuted",
    "C05_display_no_panic_refuted",
    "C05_reads"
   ],
   "note": "full property refuted: plain form loses trailing zeros or does not parse, alternate form panics for indivisible amounts; exact condition under which it round trips is proved Reading is characterised exactly (C05_reads)."
  },
  {
   "property": "C06",
   "status": "proved",
   "theorems": [
    "C06_round_trip",
    "C06_decode_exact",
    "C06_decode_no_panic"
   ],
   "note": ""
  },
  {
   "property": "C07",
   "status": "partial",
   "theorems": [
    "C07_round_trip_partial",
    "C07_parse_exact",
    "C07_production_separate",
    "C07_round_trip_refuted",
    "C07_wrapper"
   ],
   "note": "full property refuted for Liquid mainnet, whose code is read back as Bitcoin mainnet; all other codes round-trip, parser characterised exactly"
  },
  {
   "property": "C08",
   "status": "proved",
   "theorems": [
    "C08_round_trip",
    "C08_parse_exact",
    "C08_injective",
    "C08_no_panic",
    "C08_data"
   ],
   "note": "text round trip and exact acceptance; also allocations as contract data (C08_data)"
  },
  {
   "property": "C09",
   "status": "proved",
   "theorems": [
    "C09_round_trip",
    "C09_parse_exact",
    "C09_no_panic"
   ],
   "note": ""
  },
  {
   "property": "C10",
   "status": "partial",
   "theorems": [
    "C10_round_trip_partial",
    "C10_parse_never_panics",
    "C10_refuting_well_typed",
    "C10_round_trip_refuted",
    "C10_reprint_refuted"
   ],
   "note": "proved for every invoice meeting `printable`; each non-typing condition of it is shown necessary (C10_round_trip_refuted); URI parser, percent coding and identifier codecs of other crates are modelled/assumed as stated in codecs_ok"
  },
  {
   "property": "C11",
   "status": "partial",
   "theorems": [
    "C11_failure_unchanged",
    "C11_failure_exact",
    "C11_fields",
    "C11_state",
    "C11_transports_partial",
    "C11_transports_total",
    "C11_sane_partial",
    "C11_sane_refuted",
    "C11_no_panic_refuted",
    "C11_panics",
    "C11_start"
   ],
   "note": "fails-cleanly, frame, ordering, the exact calls which fail or panic, and the starting points proved; full list invariant refuted when the caller adds the placeholder itself"
  },
  {
   "property": "C12",
   "status": "proved",
   "theorems": [
    "C12_merge_assign_most_revealed",
    "C12_merge_assign_idempotent",
    "C12_merge_assign_commutative",
    "C12_merge_assign_associative"
   ],
   "note": "commitments modelled as a hash record; laws need only that the two compared commitments do not collide"
  },
  {
   "property": "C13",
   "status": "proved",
   "theorems": [
    "C13_merge_op_mismatch",
    "C13_merge_op_join",
    "C13_merge_op_idempotent",
    "C13_merge_op_commutative"
   ],
   "note": ""
  },
  {
   "property": "C14",
   "status": "partial",
   "theorems": [
    "C14_merge_bundle_refuted",
    "C14_merge_bundle_partial"
   ],
   "note": "full property refuted: a transition known only to the second view is dropped; the exact result of the merge is proved"
  },
  {
   "property": "C15",
   "status": "partial",
   "theorems": [
    "C15_merge_refuted",
    "C15_merge_partial",
    "C15_errors"
   ],
   "note": "full property refuted: a full transaction followed by a bare id is rejected; result and errors characterised in all cases"
  },
  {
   "property": "C16",
   "status": "partial",
   "theorems": [
    "C16_merge_succeeds_iff",
    "C16_merge_keeps_methods",
    "C16_merge_keeps_messages",
    "C16_merge_idempotent",
    "C16_known_bundle_ids_partial",
    "C16_known_bundle_ids_refuted",
    "C16_known_bundle_ids_kept_partial"
   ],
   "note": "success condition, kept methods and messages, idempotence proved; containment of reported bundle ids refuted when a contract has different bundles under the two methods, exact reported set proved"
  },
  {
   "property": "C17",
   "status": "proved",
   "theorems": [
    "C17_witness_bundle",
    "C17_consignment",
    "C17_consignment_total",
    "C17_reveal_op",
    "C17_reveal_determined",
    "C17_reveal_keeps_id",
    "C17_reveal_idempotent",
    "C17_reveal_bundle",
    "C17_filter_revealed_seals"
   ],
   "note": "operations, bundles, witness bundles and consignments"
  },
  {
   "property": "C18",
   "status": "partial",
   "theorems": [
    "C18_bundle_and_anchor",
    "C18_bundle_ids",
    "C18_pub_witness",
    "C18_op_witness_id",
    "C18_operation_sound",
    "C18_operation_id",
    "C18_operation_complete_refuted",
    "C18_operation_complete_partial"
   ],
   "note": "all lookups proved sound, bundle/anchor/witness lookups complete; completeness of operation lookup refuted for two copies of one bundle with different known transitions, proved when copies agree"
  },
  {
   "property": "C19",
   "status": "partial",
   "theorems": [
    "C19_close_method_set",
    "C19_iterate",
    "C19_set_priority",
    "C19_ids_synced_partial",
    "C19_ids_synced_refuted",
    "C19_transition_info",
    "C19_dichotomy",
    "C19_fascia_bundles"
   ],
   "note": "union, iteration and set_priority frame proved; `ids in sync` refuted: set_priority leaves the recorded ids stale"
  },
  {
   "property": "C20",
   "status": "partial",
   "theorems": [
    "C20_annotate_ok",
    "C20_annotate_succeeds_iff",
    "C20_failed_annotate_partial",
    "C20_failed_annotate_refuted",
    "C20_defaults",
    "C20_new"
   ],
   "note": "success case proved in full; `failed writes lose nothing` refuted: all annotations of the subject are dropped; encoder/decoder are arguments"
  },
  {
   "property": "C21",
   "status": "partial",
   "theorems": [
    "C21_load_exact",
    "C21_round_trip",
    "C21_header",
    "C21_other_kind",
    "C21_truncated",
    "C21_universal_load",
    "C21_universal_save",
    "C21_universal_round_trip",
    "C21_armored_kind",
    "C21_file_kind_refuted"
   ],
   "note": "exact accepted set, round trip, kinds, truncation proved for any strict codec; refuted: load does not check the transfer flag inside a file (only the armored text parser does)"
  },
  {
   "property": "C22",
   "status": "proved",
   "theorems": [
    "C22_order",
    "C22_upward_closed",
    "C22_thresholds"
   ],
   "note": ""
  },
  {
   "property": "C23",
   "status": "partial",
   "theorems": [
    "C23_operations_found",
    "C23_bundle_info",
    "C23_facts_kept",
    "C23_only_announced",
    "C23_outputs_partial",
    "C23_terminals_partial",
    "C23_outputs_refuted",
    "C23_terminals_refuted"
   ],
   "note": "Operations, bundles, witnesses and contracts of a successfully indexed call are found in every later index (full). Refuted in full for outputs: opouts_by_outputs looks up only the first seal of an outpoint, so with two closing methods at one outpoint the other outputs are not found; proved when the contract has one seal per outpoint. Refuted for secret seals: the 256th output on one seal drops the whole entry; proved while the entries stay below 255 outputs."
  },
  {
   "property": "C24",
   "status": "proved",
   "theorems": [
    "C24_bundle_of_other_contract",
    "C24_operation_of_other_bundle",
    "C24_register_operation",
    "C24_answers_never_change"
   ],
   "note": "Both relations are functional in every history; re-registration under another bundle/contract is rejected."
  },
  {
   "property": "C25",
   "status": "partial",
   "theorems": [
    "C25_allocations_found",
    "C25_contracts_sound_complete",
    "C25_contracts_of_history",
    "C25_contracts_once_partial",
    "C25_contracts_once_refuted",
    "C25_outputs_exact_partial",
    "C25_outputs_exact_refuted",
    "C25_outputs_answered",
    "C25_terminals_exact",
    "C25_public_outputs_empty"
   ],
   "note": "Membership is exact for contracts_assigning and for secret seals; refuted: a contract with two of the outpoints is listed twice, and opouts_by_outputs misses the second seal at an outpoint (exact when seals are unique per outpoint). Every allocation in the state of a contract is in the index, for stocks made by successful calls."
  },
  {
   "property": "C26",
   "status": "partial",
   "theorems": [
    "C26_new_stored",
    "C26_new_implementation",
    "C26_new_seal",
    "C26_new_indexed",
    "C26_index_again_partial",
    "C26_index_again_refuted",
    "C26_stash_again_partial",
    "C26_state_again_partial",
    "C26_accept_again_partial"
   ],
   "note": "Index, state and stash part proved for a repeated call while the collections have room (stash: otherwise the only possible failure is a full collection); C26_accept_again_partial joins them for accepting a consignment twice. Refuted for a full index entry (C26_index_again_refuted). C26_new_*: the calls which store say exactly whether what they stored was new."
  },
  {
   "property": "C27",
   "status": "partial",
   "theorems": [
    "C27_known_contracts",
    "C27_only_imported",
    "C27_allocations_partial",
    "C27_queries",
    "C27_import_status",
    "C27_archived_and_back",
    "C27_allocations_refuted"
   ],
   "note": "Exact for histories in which every call succeeds and no operation is imported under two witnesses with explicit seals; refuted otherwise: an allocation with an explicit seal stays tied to the witness it was first imported with."
  },
  {
   "property": "C28",
   "status": "partial",
   "theorems": [
    "C28_last",
    "C28_global_state_partial",
    "C28_global_state_refuted"
   ],
   "note": "Values come from imported operations, are limited by the schema, and are complete within the limit; beyond the limit those with the highest places in the order of GlobalOut are kept (C28_last). Refuted: values with an archived witness are still reported."
  },
  {
   "property": "C29",
   "status": "partial",
   "theorems": [
    "C29_iterator_partial",
    "C29_size_refuted",
    "C29_size_position_refuted",
    "C29_reset_forward_refuted",
    "C29_reset_back_refuted",
    "C29_reset_effect"
   ],
   "note": "Holds for a new iterator (prev, last, size, reset to the current depth). Refuted in general: size counts what is left and starts over, reset never skips forward, and skips from the old position going back. C29_reset_effect states what they do."
  },
  {
   "property": "C30",
   "status": "partial",
   "theorems": [
    "C30_statuses",
    "C30_counter_partial",
    "C30_counter_refuted"
   ],
   "note": "Statuses, known witnesses and failures are exact; the counter counts every witness which was due, including failures (C30_counter_refuted)."
  },
  {
   "property": "C31",
   "status": "partial",
   "theorems": [
    "C31_exact",
    "C31_selected_partial",
    "C31_selected_refuted"
   ],
   "note": "A witness returned is the first valid one, and when all given are known failure means all are archived; C31_exact says which result is returned in every case. Refuted: an unknown witness before a valid one makes it fail."
  },
  {
   "property": "C32",
   "status": "partial",
   "theorems": [
    "C32_reload_partial",
    "C32_kept_partial",
    "C32_only_offered",
    "C32_no_trace_refuted",
    "C32_write_error_panics"
   ],
   "note": "C32_reload_partial: after a failed call the files still hold the stock from before. C32_kept_partial, C32_only_offered: in memory nothing known is lost and nothing is added that the call did not bring. Missing: the memory of the process is not restored (C32_no_trace_refuted: a consignment rejected for its witness leaves its contract registered); a write error during a transaction panics (C32_write_error_panics). Terminal entries may be lost on overflow, see C23."
  },
  {
   "property": "C33",
   "status": "partial",
   "theorems": [
    "C33_open",
    "C33_store",
    "C33_reload",
    "C33_crash_partial",
    "C33_recover_partial",
    "C33_mixture_refuted",
    "C33_torn_file_refuted"
   ],
   "note": "C33_reload: files follow every history of successful calls. C33_crash_partial: the exact list of stocks which can be loaded after a stop at any byte of any of the files. C33_recover_partial: accepting the same consignment again from any of them gives the stock after the call. Missing, because false: atomicity (C33_mixture_refuted, C33_torn_file_refuted). Assumes an encoding which cannot be read from a strict prefix; std_codecs_ok shows one. Autosave on drop and make_persistent are not modelled. C33_open: a stock is opened exactly if its three files are there and readable, otherwise an error; C33_store: what storing returns."
  },
  {
   "property": "C34",
   "status": "partial",
   "theorems": [
    "C34_found_complete",
    "C34_found_bundles",
    "C34_found_exact",
    "C34_found_terminals",
    "C34_definitions",
    "C34_history_complete_partial",
    "C34_only_bundles_of_history",
    "C34_history_exact_partial",
    "C34_terminals_partial",
    "C34_only_ancestors_refuted",
    "C34_all_ancestors_refuted",
    "C34_two_seals_refuted"
   ],
   "note": "Proved for every stock reachable by well-formed calls: the export contains every transition of the history of the outputs asked for (no gaps), every bundle in it belongs to a history transition and is the stock's with a live witness and its anchor, terminals exactly, definitions exactly; exact history where the history's bundles reveal nothing else. Refuted in full: a bundle is exported with all known transitions, so unrelated sibling transitions go along (only_ancestors_refuted), without their ancestors (all_ancestors_refuted). C34_found_* hold without condition for what the index finds (of two seals at one outpoint, one per closing method, the opret one, see C25); C34_*_partial for all that was asked for under one_seal, without which the claim is refuted (C34_two_seals_refuted). Rust lines 737-902 are modelled; of a type system only the ids asked for."
  },
  {
   "property": "C35",
   "status": "partial",
   "theorems": [
    "C35_no_panic_partial",
    "C35_no_panic_by_outputs",
    "C35_ends",
    "C35_same_result",
    "C35_never_panics_refuted"
   ],
   "note": "No panic by outputs for every reachable stock and request; with a secret seal under one_terminal (at most one assignment per bundle to the seal). Refuted in general: two assignments of one transition to the same secret seal hit the assert_eq! (never_panics_refuted). Termination proved for commitments without cycles (no_cycles, satisfied by the concrete commitments bit_hashes); the loop has no visited set, so its number of rounds is that of paths, not of operations."
  },
  {
   "property": "C36",
   "status": "partial",
   "theorems": [
    "C36_passed_on_partial",
    "C36_all_passed_on_refuted",
    "C36_new_passed_on_partial"
   ],
   "note": "Proved for bundles new to the stock, or known already with the transition and with no witness which is neither in the consignment nor archived (agreeable), whose copies in the consignment reveal the transition under an anchor for their closing method, with one witness not archived, given that Merkle proofs exist for known protocols (proves_known). Refuted in general: a transition newly revealed in a bundle the stock already has is dropped by the merge (all_passed_on_refuted)."
  },
  {
   "property": "C37",
   "status": "partial",
   "theorems": [
    "C37_paid_partial",
    "C37_balanced_partial",
    "C37_blank_balanced_partial",
    "C37_enough_partial",
    "C37_expired_partial",
    "C37_change_output_refuted",
    "C37_no_change_refuted",
    "C37_wrapped_refuted",
    "C37_two_witnesses_refuted",
    "C37_other_state_refuted"
   ],
   "note": "Proved for every stock, invoice for an amount, set of spent outputs, closing method and order of the hash maps, when composing succeeds: the beneficiary gets the invoiced amount, every transition (also of other contracts) balances per type, success needs enough inputs, InsufficientState only with too few. Conditions (predicate `paying`): the payer's allocator/blinder separate inputs of one type and the change, no assignment seen under two witnesses, no sum beyond u64 in wrapping builds. Each condition is needed: refutations show change overwriting the payment, wrapped sums losing amounts, an assignment counted twice, refusal for a missing change output without change, panics for invoices without amount or allocation. Missing: that composing succeeds whenever the inputs suffice (false, see refutations)."
  },
  {
   "property": "C38",
   "status": "partial",
   "theorems": [
    "C38_amount_partial",
    "C38_data_partial",
    "C38_blanks_partial",
    "C38_velocity_partial",
    "C38_same_output_refuted",
    "C38_blank_same_output_refuted",
    "C38_data_refuted",
    "C38_concealed_state_refuted",
    "C38_others_partial"
   ],
   "note": "Proved: all inputs of the contract are spent in one transition per closing method, state of other types is re-assigned to the payer's outputs, the rest of the amount is change, state of other contracts found by the index is moved by blank transitions. Refuted: two states of one type given one output and blinding (main and blank), other allocations of the paid data type, concealed state of another contract (panic). For stocks made by successful calls the index finds every contract with state on the outputs (C25_allocations_found, C38_others_partial)."
  },
  {
   "property": "C39",
   "status": "partial",
   "theorems": [
    "C39_accepts_iff_partial",
    "C39_reports",
    "C39_reflexive",
    "C39_transitive",
    "C39_antisymmetric",
    "C39_metadata_refuted"
   ],
   "note": "Exact characterisation, reports, reflexivity, transitivity and antisymmetry proved. Refuted part: metadata types and metadata of operations are not compared at all (C39_metadata_refuted). Different ways of writing one range of occurrences are one value in the model."
  },
  {
   "property": "C40",
   "status": "partial",
   "theorems": [
    "C40_child_partial",
    "C40_succeeds_iff",
    "C40_stands_in_partial",
    "C40_chain_partial",
    "C40_no_panic",
    "C40_all_operations_refuted",
    "C40_metadata_refuted",
    "C40_required_operation_refuted",
    "C40_multiple_refuted",
    "C40_final_refuted",
    "C40_consistent_refuted",
    "C40_single"
   ],
   "note": "Proved: the exact child, success iff the interfaces are compatible (given room), the child stands in for the first interface and for all required parts of the second, for chains of any length, and lists all parents and ancestors. Refuted as stated in full: optional operations of the extension are dropped, metadata types are overwritten, a required operation becomes optional, `multiple` may be withdrawn, a final operation of the extension is not final in the child, and the child of two consistent interfaces may be inconsistent."
  },
  {
   "property": "C41",
   "status": "partial",
   "theorems": [
    "C41_accepts_iff_partial",
    "C41_reports",
    "C41_multiple_refuted",
    "C41_types"
   ],
   "note": "Exact characterisation of acceptance and of every report. Partial because only the least number of uses is compared with multiplicity (C41_multiple_refuted)."
  },
  {
   "property": "C42",
   "status": "partial",
   "theorems": [
    "C42_reports",
    "C42_resolves_partial",
    "C42_lookups",
    "C42_accepts",
    "C42_one_to_one_refuted",
    "C42_kinds_refuted"
   ],
   "note": "Every report is characterised; success means every name resolves to an existing schema type, at most two fields share a name. One-to-one correspondence refuted (names are counted from zero and types not at all), and the kind of state is not compared (C42_kinds_refuted)."
  },
  {
   "property": "C43",
   "status": "partial",
   "theorems": [
    "C43_kept_partial",
    "C43_possible",
    "C43_still_fits_partial",
    "C43_valencies_refuted",
    "C43_still_fits_refuted",
    "C43_found"
   ],
   "note": "Exact for all tables but valencies, where the code looks through the names of assignments (C43_valencies_refuted); errors unknown to the parent are kept, so the result may fail the check against the parent (C43_still_fits_refuted)."
  },
  {
   "property": "C44",
   "status": "partial",
   "theorems": [
    "C44_call",
    "C44_contract_call",
    "C44_transition_partial",
    "C44_exactly_once",
    "C44_completes",
    "C44_contract_partial",
    "C44_issue_fails",
    "C44_no_panic",
    "C44_contract_no_panic",
    "C44_metadata_refuted",
    "C44_same_seal_refuted",
    "C44_no_panic_refuted"
   ],
   "note": "Every call of both builders is accepted iff what it asks for may be put in, and then the builder holds exactly this item more (C44_call, C44_contract_call); the completed transition and genesis show all global values, inputs, tags and state (C44_transition_partial, C44_contract_partial), exactly once when no type+seal pair is repeated (C44_exactly_once). Refuted for metadata, which is checked and then lost, and for a second state put to the same seal and type, which replaces the first. Calls with a type unknown to the schema and the default of a blank transition panic. Not shown: valencies (the builders cannot put any)."
  },
  {
   "property": "C45",
   "status": "proved",
   "theorems": [
    "C45_transition",
    "C45_genesis"
   ],
   "note": "Under the hypothesis that rgb-core's zero_balanced balances sums in the scalar field (balances q P). With no inputs of the type the sum is that of rgb-core's EMPTY constant, as the code does."
  },
  {
   "property": "C46",
   "status": "partial",
   "theorems": [
    "C46_each",
    "C46_sums",
    "C46_one_side",
    "C46_panics",
    "C46_history_partial",
    "C46_history",
    "C46_types_refuted",
    "C46_include_all_refuted"
   ],
   "note": "Every reported operation is exactly one group of our allocations and its amount is the saturated sum (C46_each, C46_sums, C46_one_side); exact condition of a panic (C46_panics). Over reachable contract states (C46_history_partial, C46_history) the report lists every payment as long as a witness group has one fungible type and the witness filter refuses what has no witness. Refuted otherwise: history panics with two fungible types under one witness (C46_types_refuted) and with the include-all witness filter (C46_include_all_refuted)."
  },
  {
   "property": "C47",
   "status": "proved",
   "theorems": [
    "C47_filters",
    "C47_named",
    "C47_allocations",
    "C47_outpoint",
    "C47_global"
   ],
   "note": "Combinators of filters (C47_filters), named queries (C47_named), all allocations (C47_allocations), by outpoint (C47_outpoint), global state (C47_global): exact results and errors. Panics stand for a contract whose stored state contradicts its schema."
  },
  {
   "property": "C48",
   "status": "partial",
   "theorems": [
    "C48_exported_kit_partial",
    "C48_export_importable_partial",
    "C48_export_importable_refuted",
    "C48_definitions_kept",
    "C48_lookup",
    "C48_import_exact",
    "C48_no_panic_partial",
    "C48_panics",
    "C48_no_panic_refuted",
    "C48_impl_kept_refuted"
   ],
   "note": "Known schemata and interfaces are kept and looked up by their ids over every history; the import is exact; no panic is proved for self-contained kits only: importing a kit whose implementation names an unknown schema or interface panics (C48_no_panic_refuted). Exported kits: C48_export_importable_partial for interfaces with different names; with two interfaces of one name the exported kit has the wrong one and importing it panics (C48_export_importable_refuted)."
  },
  {
   "property": "C49",
   "status": "proved",
   "theorems": [
    "C49_only_acceptable",
    "C49_history",
    "C49_levels",
    "C49_exact",
    "C49_all_stored_refuted"
   ],
   "note": "Over every call and history. With room the stored signatures are exactly the acceptable ones; without room they are dropped silently (C49_all_stored_refuted)."
  },
  {
   "property": "C50",
   "status": "proved",
   "theorems": [
    "C50_remembered",
    "C50_only_stored",
    "C50_resolved",
    "C50_resolve_total",
    "C50_store"
   ],
   "note": "Over every history after storing, under binding of the seal commitment. Storing into a full set panics (C50_store)."
  },
  {
   "property": "C51",
   "status": "partial",
   "theorems": [
    "C51_equal",
    "C51_equivalence",
    "C51_hash",
    "C51_order",
    "C51_coherent_partial",
    "C51_refuted"
   ],
   "note": "Equality is the same text up to case, an equivalence, and agrees with hashing (C51_equal, C51_equivalence, C51_hash); the order is total (C51_order) but compares the spelled text: coherent with equality without small letters (C51_coherent_partial), refuted in general (C51_refuted: USDT and usdt)."
  },
  {
   "property": "C52",
   "status": "proved",
   "theorems": [
    "C52_read",
    "C52_round_trip",
    "C52_distinct",
    "C52_charset_refuted"
   ],
   "note": "Texts read are exactly those printed (C52_read); type and subtype survive (C52_round_trip). The character set is lost (C52_charset_refuted)."
  },
  {
   "property": "C53",
   "status": "partial",
   "theorems": [
    "C53_approx_truncates",
    "C53_approx_close_refuted",
    "C53_nan_refuted",
    "C53_special"
   ],
   "note": "refuted: the fraction is always dropped, and NaN is taken as amount zero instead of being refused; exact result proved for every f64"
  },
  {
   "property": "C54",
   "status": "proved",
   "theorems": [
    "C54_reveal_transition"
   ],
   "note": ""
  },
  {
   "property": "C55",
   "status": "proved",
   "theorems": [
    "C55_into_double",
    "C55_with",
    "C55_method_mismatch"
   ],
   "note": ""
  },
  {
   "property": "C56",
   "status": "proved",
   "theorems": [
    "C56_velocity",
    "C56_velocity_round_trip"
   ],
   "note": ""
  },
  {
   "property": "C57",
   "status": "partial",
   "theorems": [
    "C57_exact",
    "C57_indexed",
    "C57_state",
    "C57_stored_partial",
    "C57_merged",
    "C57_refused",
    "C57_error_sound",
    "C57_error_complete",
    "C57_stored_refuted"
   ],
   "note": "Exact conditions of success and of the refusal, the facts added to index and state, what is stored: a new bundle exactly (C57_stored_partial), a known one joined (C57_merged). Refuted: a transition shown in a bundle which was known without it is not stored and not found (C57_stored_refuted, see C14, C36)."
  },
  {
   "property": "C58",
   "status": "proved",
   "theorems": [
    "C58_asset",
    "C58_contract",
    "C58_read",
    "C58_unique"
   ],
   "note": "Texts as bytes; RString's different errors are one. A value of another shape, or holding invalid text, panics."
  },
  {
   "property": "C59",
   "status": "partial",
   "theorems": [
    "C59_witnesses",
    "C59_witness_bundles",
    "C59_transitions",
    "C59_ifaces",
    "C59_allocations_partial",
    "C59_allocations_refuted",
    "C59_names_refuted",
    "C59_names_partial",
    "C59_impls_partial"
   ],
   "note": "Coherent for witnesses, bundles under a witness, transition infos and interfaces (equality of interfaces is identity where ids bind). Allocations are equal and ordered by output and seal but hashed with state and witness (C59_allocations_refuted). Named fields are called equal if id or name agree: not an equivalence, disagrees with the order, different implementations compare equal (C59_names_refuted); coherent where ids and names are one to one (C59_names_partial)."
  },
  {
   "property": "C60",
   "status": "partial",
   "theorems": [
    "C60_listed_known",
    "C60_stated_listed_refuted",
    "C60_contracts",
    "C60_open",
    "C60_open_class",
    "C60_not_implemented",
    "C60_schema",
    "C60_by_class",
    "C60_accepted",
    "C60_interfaces",
    "C60_schemata",
    "C60_inherits_refuted"
   ],
   "note": "Exact for all lists and for opening contracts; a schema agrees with its genesis under the validator's check (schemas_fit) and binding ids. An ancestor is shown by a name under which another interface may be found (C60_inherits_refuted). C60_listed_known: every listed contract has a state and public outputs in the index, at every reachable stock; C60_stated_listed_refuted: not the converse."
  },
  {
   "property": "C61",
   "status": "partial",
   "theorems": [
    "C61_contract",
    "C61_transition",
    "C61_no_panic_refuted",
    "C61_blank_partial",
    "C61_blank_iface_refuted",
    "C61_blank_types_refuted"
   ],
   "note": "Exact for contract and transition builders. An unknown transition name or a missing default operation panics instead of being an error (C61_no_panic_refuted). A blank builder falls back to the first implementation: its interface is found by name and may be another one (C61_blank_iface_refuted), and its types are those of the interface asked for (C61_blank_types_refuted)."
  },
  {
   "property": "C62",
   "status": "proved",
   "theorems": [
    "C62_secret",
    "C62_revealed",
    "C62_genesis",
    "C62_only",
    "C62_well_formed",
    "C62_paid"
   ],
   "note": "End to end: export by the sender, acceptance by the receiver, both stocks made by calls; for all outputs which the index finds (of two seals at one outpoint, one per closing method, the opret one; the other is refuted under C34). Outputs at other blinded seals than the one asked for are not revealed by that export. Validation before acceptance is not modelled: the theorems are on accept_transfer of what the sender exports."
  },
  {
   "property": "C63",
   "status": "proved",
   "theorems": [
    "C63_export",
    "C63_failed",
    "C63_otherwise"
   ],
   "note": "Necessary and sufficient condition for the export loop, terminals, grouping by witness, definitions and limits together (C63_export); the result does not depend on the kind of consignment (C63_failed); otherwise an error or the panic of C35 (C63_otherwise). Which of several errors is returned is not stated."
  },
  {
   "property": "C64",
   "status": "partial",
   "theorems": [
    "C64_consignment_id",
    "C64_consignment_partial",
    "C64_not_committed",
    "C64_revealed",
    "C64_into_contract",
    "C64_kit_id",
    "C64_kit",
    "C64_identifies_refuted"
   ],
   "note": "Two consignments (kits) have one id exactly if they agree in all that is committed to (C64_consignment_id, C64_kit_id); kits are then the same (C64_kit). Refuted for consignments: schema, interfaces and contents of attachments are not committed to (C64_not_committed, C64_identifies_refuted); the same if the schema is that of the genesis and implementations are of their interfaces (C64_consignment_partial). The version of containers, which has one value, is left out."
  },
  {
   "property": "C65",
   "status": "partial",
   "theorems": [
    "C65_verdict",
    "C65_checked_refuted",
    "C65_seen_partial",
    "C65_alike_partial",
    "C65_seen_refuted"
   ],
   "note": "Verdict, failures and each warning are exact (C65_verdict). The validator of rgb-core is an argument. Refuted: kind, interfaces and terminals are only warned about (C65_checked_refuted); a second copy of a bundle under another witness is not seen by the validator but imported, with allocations at outputs of that witness (C65_seen_refuted). Proved when each bundle is in the consignment once (C65_seen_partial, C65_alike_partial)."
  },
  {
   "property": "C66",
   "status": "partial",
   "theorems": [
    "C66_never_refuses",
    "C66_evolves_iff",
    "C66_allocations_partial",
    "C66_globals",
    "C66_order_partial",
    "C66_validated_is_imported_partial",
    "C66_imported_as_evolved",
    "C66_order_refuted"
   ],
   "note": "Order independence, allocations and the agreement with an import are proved when each operation comes under one witness, or has its seals on the witness transaction, and each witness with one status. Refuted without: an operation under two witnesses shows its allocation or not depending on which comes first (C66_order_refuted). That an import is evolving in the order of the consignment, the global state, and when evolving panics need no such hypothesis. Which operations the validator of rgb-core gives to the state is not part of this code base; they are taken to be those of the consignment, extensions under the first witness spending them."
  },
  {
   "property": "C67",
   "status": "partial",
   "theorems": [
    "C67_passed_on_partial",
    "C67_prior_partial",
    "C67_among_partial",
    "C67_whole_partial",
    "C67_chain_partial",
    "C67_prior_refuted",
    "C67_everything_refuted"
   ],
   "note": "Proved for receivers who had nothing but blinded seals, for requests within the received history (C67_passed_on_partial), and so for all requests where the consignment shows nothing else (C67_whole_partial). C67_chain_partial: so for any number of receivers one after the other. Refuted for what is shown beside the history: a bundle shows a transition of the sender whose own history is not included, and the receiver cannot export its outputs (C67_everything_refuted). C67_prior_partial and C67_among_partial: the same for receivers who had other data (other contracts, or parts of this one), provided that what they knew of the bundles received agrees with them; without that it is refuted, since a bundle known without a transition of the history stays so, and what was paid cannot be passed on (C67_prior_refuted)."
  },
  {
   "property": "C68",
   "status": "partial",
   "theorems": [
    "C68_data_blinded_partial",
    "C68_data_witness_partial",
    "C68_data_kept_partial",
    "C68_rest_refuted",
    "C68_blinded_partial",
    "C68_witness_partial",
    "C68_change_partial",
    "C68_kept_partial",
    "C68_blanks_partial",
    "C68_balance"
   ],
   "note": "Proved for payments of amounts and of allocations of data under the conditions of C37 and C38 ([paying]): to blinded seals (C68_blinded_partial), to addresses by opret, or where no other seal of the contract is at the exported outputs (C68_witness_partial), with the change (C68_change_partial), other types (C68_kept_partial), other contracts (C68_blanks_partial) and the balance (C68_balance). The making of the transaction from the batch is the wallet's and enters as the condition that the transaction commits to the transitions. Payments of an allocation of data are proved the same way (C68_data_blinded_partial, C68_data_witness_partial, C68_data_kept_partial); the other allocations of the paid type are lost: neither the payer nor the payee has them at an unspent output (C68_rest_refuted). Missing: what is refuted under C37, C38 and C34 (choices which do not keep outputs apart, wrapped sums, two seals at one output)."
  },
  {
   "property": "C69",
   "status": "partial",
   "theorems": [
    "C69_consignment",
    "C69_kit",
    "C69_load",
    "C69_read",
    "C69_round_trip",
    "C69_kit_round_trip",
    "C69_headers_refuted",
    "C69_file_kind_refuted",
    "C69_no_panic_refuted"
   ],
   "note": "Headers of consignments and kits exact (C69_consignment, C69_kit); what is read exactly (C69_load, C69_read); round trips. The text format and the comparison of ids are the crate's and enter as arguments. Refuted: headers are not compared with the content (C69_headers_refuted), loading an armored file does not look at the kind (C69_file_kind_refuted), and a type header without value makes reading a transfer panic (C69_no_panic_refuted; C69_read shows that this needs a header without value)."
  },
  {
   "property": "C70",
   "status": "partial",
   "theorems": [
    "C70_stock_no_inflation_partial",
    "C70_stock_supply_partial",
    "C70_no_inflation_partial",
    "C70_supply_partial",
    "C70_spent_reported_refuted",
    "C70_two_witnesses_refuted"
   ],
   "note": "Bound and equality proved for histories in which no operation has two witnesses held possible (C70_no_inflation_partial, C70_supply_partial), and the same for every list of successful calls on a whole stock, with seals opened by those stored before (C70_stock_no_inflation_partial, C70_stock_supply_partial). What validation establishes (balance of each operation, spent outputs known and spent once) are hypotheses, since the validator is rgb-core's. Refuted: spent allocations are still reported, so the allocations reported add up to more (C70_spent_reported_refuted; the code to remove them is commented out), and an operation under two possible witnesses counts twice (C70_two_witnesses_refuted)."
  },
  {
   "property": "C71",
   "status": "partial",
   "theorems": [
    "C71_state",
    "C71_outputs",
    "C71_bundles",
    "C71_export_partial",
    "C71_export_refuted",
    "C71_iface_refuted"
   ],
   "note": "State, outputs, genesis, bundles and witnesses of a contract are kept by every list of calls not about it, failing ones included (C71_state, C71_outputs, C71_bundles). Exports keep their content where the stored anchors, seals and interfaces used are the same (C71_export_partial). Refuted: another contract with an allocation at the same blinded seal makes the export for that seal fail (C71_export_refuted), and another contract's interface with the same name is exported instead of the contract's own (C71_iface_refuted)."
  },
  {
   "property": "C72",
   "status": "partial",
   "theorems": [
    "C72_shows_partial",
    "C72_description_refuted",
    "C72_parents_refuted",
    "C72_default_refuted"
   ],
   "note": "Proved for interfaces whose error descriptions are within one line, whose default operation exists and whose parents' known names are distinct (C72_shows_partial), for any texts of ids (so not by the commitment in the printed id). Refuted otherwise: an error description is printed as it is and can pass for other declarations (C72_description_refuted), parents are shown by name (C72_parents_refuted), a default operation which does not exist is not shown (C72_default_refuted)."
  },
  {
   "property": "C73",
   "status": "partial",
   "theorems": [
    "C73_contracts",
    "C73_status",
    "C73_only_told",
    "C73_nothing_invented",
    "C73_ledger_partial",
    "C73_globals_partial",
    "C73_ledger_refuted"
   ],
   "note": "Contracts and statuses in full (C73_contracts, C73_status); every allocation reported was told and its witness is not archived (C73_only_told); nothing else is reported if calls failed half-way (C73_nothing_invented). Conversely all of these are reported where no operation came under two witnesses (C73_ledger_partial); global state likewise (C73_globals_partial). Refuted without that condition: an operation which came under two witnesses keeps the first, and its outputs vanish when the first is archived though the second is mined (C73_ledger_refuted)."
  },
  {
   "property": "C74",
   "status": "partial",
   "theorems": [
    "C74_agree_partial",
    "C74_order_partial",
    "C74_seal_order_refuted",
    "C74_witness_order_refuted"
   ],
   "note": "Proved for stocks told the same and with the same news of witnesses (C74_agree_partial), and for the same calls in any order and multiplicity followed by an update of all witnesses, if secret seals are stored first and no operation comes under two witnesses (C74_order_partial). Without the first condition the order matters: a seal stored after the consignment which pays to it does not open it (C74_seal_order_refuted). Without the second it matters too: of two witnesses the first is kept, also when it is archived and the second mined (C74_witness_order_refuted)."
  },
  {
   "property": "C75",
   "status": "partial",
   "theorems": [
    "C75_latest_refuted",
    "C75_order_partial"
   ],
   "note": "Refuted: values are in the order of the identifiers of their operations, so a value mined in block 100 is reported and one mined in block 200 left out if one is allowed, and reported in the wrong order if both are (C75_latest_refuted). Proved: the values of one operation are in order, the last first, and the order of all of them is that of the identifiers, numbers and witnesses (C75_order_partial)."
  },
  {
   "property": "C76",
   "status": "partial",
   "theorems": [
    "C76_found_partial",
    "C76_history_partial",
    "C76_witnesses_partial",
    "C76_exports_partial",
    "C76_parts_refuted",
    "C76_txs_refuted"
   ],
   "note": "Proved: what is found is the same in whichever order and however often the calls were made, with no assumption but that seals are stored first (C76_found_partial); geneses, extensions, bundles and transitions are the same if hashes do not collide and no bundle comes with different sets of revealed transitions, revealed to whichever degree (C76_history_partial); transactions and anchors are the same if transactions of one id are the same and a witness commits to one bundle per contract and method (C76_witnesses_partial); then whatever both stocks export, with the same news of witnesses, is the same (C76_exports_partial). Refuted without the conditions: the transition missing from the view of a bundle which came first is dropped (C76_parts_refuted), of two transactions with one id the first stays (C76_txs_refuted). Not covered: order of storing seals (C74_seal_order_refuted), kits (the last implementation wins), attachments."
  },
  {
   "property": "C77",
   "status": "partial",
   "theorems": [
    "C77_transition_partial",
    "C77_one_right_partial",
    "C77_contract_partial",
    "C77_reordered_partial",
    "C77_again_partial",
    "C77_runs",
    "C77_rights_refuted",
    "C77_tag_refuted"
   ],
   "note": "Proved: transition builders with the same content complete to the same transition or fail in the same way, where only rights of one type may be in another order (C77_transition_partial), and to exactly the same when no type has rights on two seals (C77_one_right_partial); the same for issued contracts (C77_contract_partial). Calls in another order give the same content if none replaces what another one put in (C77_reordered_partial). The same deterministic calls made again give the same builder or the same failure when the tag of an asset is given before its amounts (C77_again_partial). Refuted in full: rights are kept in a hash set, so two rights of one type are listed in the order of the hash set and the contract id changes between runs (C77_rights_refuted); add_fungible_state_det draws a random asset tag when there is none (C77_tag_refuted)."
  },
  {
   "property": "C78",
   "status": "partial",
   "theorems": [
    "C78_compose_partial",
    "C78_seals_refuted",
    "C78_rights_refuted",
    "C78_blanks_refuted"
   ],
   "note": "Proved: under any two orders of the hash maps and sets (orders_ok: each is a permutation) composing succeeds in both or in none, with the same transitions of the paid contract and the same blank transitions, when state which goes back to the payer goes to different seals and no two rights of a type are moved at once (C78_compose_partial). Refuted in full: when the payer's functions depend only on contract and type, two data of a type go to one seal and which of them is lost depends on the order (C78_seals_refuted); two rights of a type are listed in the order of a hash set, which changes the id of the transition (C78_rights_refuted); the order of the blank transitions is that of a hash map (C78_blanks_refuted)."
  },
  {
   "property": "C79",
   "status": "partial",
   "theorems": [
    "C79_stock_partial",
    "C79_compose_partial",
    "C79_overflow_refuted",
    "C79_merge_refuted",
    "C79_merge_partial",
    "C79_operations_partial"
   ],
   "note": "All calls on a stock give the same with and without debug assertions (C79_stock_partial, for any list of calls from the empty stock, failing ones included). Composing gives the same when the sum of the amounts fits 64 bits (C79_compose_partial); with greater sums a debug build panics and a release build loses amounts (C79_overflow_refuted). The public merge of two bundles of different ids panics in debug builds only (C79_merge_refuted); with the same id it is the same. Not covered: assertions about locks (locks are not modelled) and those of builders which were misused (deterministic calls on a non-deterministic builder)."
  },
  {
   "property": "C80",
   "status": "partial",
   "theorems": [
    "C80_export_partial",
    "C80_refuted",
    "C80_failed_refuted"
   ],
   "note": "Proved for every history and continuation of successful calls (C80_export_partial): the export stays possible and shows as much, if each bundle comes with an anchor of its own closing method which commits to it, a witness commits to one bundle per contract and method, no witness became archived and the status of every stored one is known, and the history lies in bundles of the contract. Refuted without these: a bundle of another contract's consignment under a lower witness makes it impossible (C80_refuted). A call which fails can as well: the state and the index keep a witness which the stash never stored (C80_failed_refuted)."
  },
  {
   "property": "C81",
   "status": "proved",
   "theorems": [
    "C81_reads",
    "C81_one",
    "C81_rejected",
    "C81_segments_ignored",
    "C81_fragment_ignored"
   ],
   "note": "Exact characterisation of the parser by a separate grammar (C81_reads). The texts of identifiers (contract ids, seals, attachments, baid64 payloads), names and the decoding of UTF-8 are parameters; amounts are those of the grammar of C01. Only assumption: payloads are 34 bytes. URI syntax is that of RFC 3986 for texts of the scheme rgb."
  },
  {
   "property": "C82",
   "status": "partial",
   "theorems": [
    "C82_chain_partial",
    "C82_consumed_partial",
    "C82_takes",
    "C82_network_refuted",
    "C82_address_refuted",
    "C82_other_chain_refuted",
    "C82_consume_panics_refuted"
   ],
   "note": "Proved without conditions on the payer's choices: all assignments of a batch are on the chain of the invoice, to the payer or the beneficiary (C82_chain_partial); consuming such a transaction succeeds only on that chain (C82_consumed_partial); two invoices with the same request give the same result (C82_takes). Refuted: the network and the address of the invoice are not looked at (C82_network_refuted, C82_address_refuted: C82_takes gives equal batches), and an invoice of another chain than the spent outputs is paid (C82_other_chain_refuted), after which consuming the transaction panics (C82_consume_panics_refuted)."
  },
  {
   "property": "C83",
   "status": "proved",
   "theorems": [
    "C83_transition",
    "C83_contract",
    "C83_one_reason",
    "C83_default",
    "C83_named",
    "C83_blank"
   ],
   "note": "For every call of both builders after any accepted calls: the call gives the error e if and only if e is the reason in RefuseSpec (C83_transition, C83_contract); making a builder: C83_default, C83_named, C83_blank. Calls which panic (raw calls with types unknown to the schema) are those of C44_no_panic_refuted."
  },
  {
   "property": "C84",
   "status": "proved",
   "theorems": [
    "C84_payable",
    "C84_order",
    "C84_reason",
    "C84_little",
    "C84_answers"
   ],
   "note": "C84_payable: for a stock which knows the contracts (ready, ready_beside: builders can be had, state fits the schemata), compose succeeds iff payable. C84_answers: with that, a payment which cannot be made is refused with an error and no panic. C84_reason holds for every stock and invoice: an error which is reported has its reason. C84_order: the order of the first checks. C84_little: too little is reported as that. Panics on void state and attachments, and on contracts which the index names but which have no state there, are C41's findings and hypotheses here."
  },
  {
   "property": "C85",
   "status": "partial",
   "theorems": [
    "C85_true_partial",
    "C85_all_partial",
    "C85_apart",
    "C85_overflow",
    "C85_chain_partial",
    "C85_again",
    "C85_name_refuted",
    "C85_overflow_refuted",
    "C85_metadata_refuted"
   ],
   "note": "C85_true_partial: every reported error is so, for all interfaces; C85_all_partial: with room for both the reports are all that is wrong. Missing: state extensions are called transitions in the reports (C85_name_refuted, C85_overflow_refuted); C85_apart has the full statement for interfaces without state extensions in common. A full table of metadata refuses names which it has (C85_metadata_refuted); C85_overflow: for global state, assignments and valencies the report is exact. C85_chain_partial: inherit reports on the first interface which cannot be added. C85_again: a child is kept sorted."
  },
  {
   "property": "C86",
   "status": "partial",
   "theorems": [
    "C86_reasons",
    "C86_accepted_partial",
    "C86_accepted_refuted"
   ],
   "note": "C86_reasons: for every history, an error of accepting a consignment states a fact about stock and consignment (AcceptSpec.refused), and a panic has one of the causes in AcceptSpec.breaks; C86_accepted_partial: no reason, no refusal. Missing: a consignment in order may be refused for disagreeing with what is known, e.g. naming a witness by its id after the transaction was seen (C86_accepted_refuted). facts_spec ties the counted facts to those of PIndexSpec. Validation by rgb-core is not modelled; room is counted without regard to entries which are already there."
  },
  {
   "property": "C87",
   "status": "proved",
   "theorems": [
    "C87_announced",
    "C87_listed",
    "C87_once",
    "C87_ids"
   ],
   "note": "C87_announced (soundness), C87_listed (completeness and persistence), C87_once, C87_ids, for all histories from the empty stock. The root stands for the commitment id of the Merkle block and the proof for the tapret proof of which the nonce is read."
  },
  {
   "property": "C88",
   "status": "partial",
   "theorems": [
    "C88_composed",
    "C88_reasons",
    "C88_recorded_partial",
    "C88_kit",
    "C88_kit_taken",
    "C88_seal",
    "C88_update",
    "C88_recorded_refuted"
   ],
   "note": "C88_reasons: every refusal and panic of consume_fascia has a reason at the stock before the call, for any number of bundles and contracts. C88_recorded_partial: with agreement with what is known; C88_recorded_refuted: without it a fascia in order is refused, if the stash has the whole witness transaction and the fascia its id. C88_kit, C88_kit_taken, C88_seal, C88_update for the other calls; C88_seal also says that a full store of seals panics. C88_composed: a payment made by compose, put into an unseen transaction of the chain of the invoice which the resolver knows, is recorded when there is room: its contracts are known, it has no global state, and all seals it shows say outputs."
  },
  {
   "property": "C89",
   "status": "proved",
   "theorems": [
    "C89_export",
    "C89_refuses",
    "C89_kit"
   ],
   "note": "C89_export: every error of consign has a reason in the stock (export_reason, by error); two errors of the index and the missing interface have none, so they are never returned by reachable stocks. C89_refuses: where such a reason holds, no export succeeds. C89_kit: the same for export_schema. Panics are C35."
  },
  {
   "property": "C90",
   "status": "proved",
   "theorems": [
    "C90_invoice_to_consignment",
    "C90_composed",
    "C90_composed_data",
    "C90_secret",
    "C90_outputs",
    "C90_twice_refuted"
   ],
   "note": "C90_secret and C90_outputs are the statement (pays_once: the seal is assigned to at most once in each bundle). C90_twice_refuted shows that this condition is needed: a payment with two outputs to one secret seal in one bundle is recorded but can not be exported. C90_composed and C90_composed_data show that what compose makes for an invoice meets the conditions about what is spent and moved (pa_spends, pa_moves), if the contract has one seal at each outpoint. C90_invoice_to_consignment puts both together: compose, record, export for the blinded seal."
  }
 ]
}