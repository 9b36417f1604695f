{"id": "C01", "title": "Amount text round trip", "statement": "Formatting an Amount and parsing the text gives back the same Amount; different amounts never print the same text; whatever the parser accepts is a 64-bit value and texts outside the 32-letter alphabet or longer than eight decoded bytes are rejected.", "quantifier": "every 64-bit amount and every input string", "why_tests_cant": "2^64 amounts and unboundedly many strings", "anchors": ["invoice/src/amount.rs: Display for Amount, FromStr for Amount, ENC_BASE32_NODIGIT"]}
{"id": "C02", "title": "Amount arithmetic never silently wraps", "statement": "checked_add/checked_sub return the exact mathematical result or None precisely when it does not fit u64; saturating_add/saturating_sub clamp at the nearest bound; the *_assign variants leave the value untouched on failure; summing any sequence gives min(true sum, u64::MAX) whatever the order. The same operations on fractions of tokens behave alike.", "quantifier": "all pairs of 64-bit values and all finite sequences of amounts", "why_tests_cant": "the overflow boundary moves with both operands and sequences are unbounded", "anchors": ["invoice/src/amount.rs: Amount::{checked_add,checked_sub,saturating_add,saturating_sub,checked_add_assign,checked_sub_assign}, Sum for Amount"]}
{"id": "C03", "title": "Splitting by precision is exact", "statement": "For every amount and precision, split gives int*10^d+fract == amount with fract < 10^d; floor/ceil/round are the mathematical floor, ceiling and round-half-up of amount/10^d; no arithmetic step overflows.", "quantifier": "every 64-bit amount and each of the 19 precisions", "why_tests_cant": "exhaustive over 2^64 x 19 values", "anchors": ["invoice/src/amount.rs: Amount::{split,round,ceil,floor,rem}, Precision::multiplier"]}
{"id": "C04", "title": "Coin amounts recombine to the original amount", "statement": "CoinAmount::new(a,p) recombines to a; CoinAmount::with accepts exactly the fractions below 10^d, and converting an accepted coin amount to Amount either yields int*10^d+fract or (when that exceeds u64) must be an error rather than a panic.", "quantifier": "every amount, integer part, fraction and precision", "why_tests_cant": "overflow boundary depends on three operands", "anchors": ["invoice/src/amount.rs: CoinAmount::{new,with,to_amount_unchecked}", "invoice/src/builder.rs: RgbInvoiceBuilder::{set_amount,set_amount_approx}"]}
{"id": "C05", "title": "Coin amount text round trip", "statement": "Parsing the text produced by formatting a CoinAmount gives back the same coin amount, and formatting never panics on a value the API can construct.", "quantifier": "every constructible CoinAmount, both the plain and the alternate form", "why_tests_cant": "infinitely many shapes of leading/trailing zeros", "anchors": ["invoice/src/amount.rs: Display for CoinAmount, FromStr for CoinAmount"]}
{"id": "C06", "title": "Beneficiary payload round trip", "statement": "Encoding a pay-to-vout beneficiary into its 34-byte payload and decoding gives the same beneficiary (address kind, script hash and closing method); decoding accepts only known method and address-type bytes and rejects invalid taproot keys.", "quantifier": "every beneficiary and every 34-byte payload", "why_tests_cant": "256^34 payloads", "anchors": ["invoice/src/parse.rs: Pay2Vout payload", "invoice/src/invoice.rs: Pay2Vout"]}
{"id": "C07", "title": "Chain-network code round trip", "statement": "Printing a chain-network and parsing the code gives back the same network, so an invoice never migrates to another chain; production networks are never parsed from test codes and vice versa.", "quantifier": "all chain-networks and all strings", "why_tests_cant": "strings are unbounded; property is about each code being inverse", "anchors": ["invoice/src/parse.rs: FromStr for ChainNet", "invoice/src/invoice.rs: ChainNet, XChainNet"]}
{"id": "C08", "title": "Allocation text round trip", "statement": "Printing a token allocation as fraction@index and parsing it yields the same allocation; the parser rejects values that do not fit and never yields anything that prints to a different value.", "quantifier": "every (index, fraction) pair and every string", "why_tests_cant": "2^96 pairs and unbounded strings", "anchors": ["invoice/src/data.rs: Allocation, OwnedFraction, TokenIndex"]}
{"id": "C09", "title": "Transport endpoint text round trip", "statement": "Printing a transport endpoint with a non-empty host and parsing it yields the same endpoint and TLS flag; unknown protocols and empty hosts are rejected.", "quantifier": "every endpoint and host string", "why_tests_cant": "hosts are arbitrary strings", "anchors": ["invoice/src/parse.rs: Display for RgbTransport, FromStr for RgbTransport"]}
{"id": "C10", "title": "Invoice URI round trip", "statement": "Printing an invoice and parsing the URI yields the same invoice: contract, interface, operation, assignment, amount, beneficiary, expiry, transports and extra query parameters.", "quantifier": "every invoice that can be constructed", "why_tests_cant": "the space of optional parts and free-form query strings is unbounded", "anchors": ["invoice/src/parse.rs: Display for RgbInvoice, FromStr for RgbInvoice, query_params, map_query_params"]}
{"id": "C11", "title": "Invoice builder keeps the transport list sane and fails cleanly", "statement": "After any sequence of builder calls the invoice has either exactly the single unspecified transport or a list without the placeholder, each successful add appends exactly the given endpoint in order, and a call that fails returns the builder unchanged.", "quantifier": "every sequence of builder calls", "why_tests_cant": "call sequences are unbounded", "anchors": ["invoice/src/builder.rs: RgbInvoiceBuilder"]}
{"id": "C12", "title": "Merging two views of an assignment never hides anything", "statement": "Merging two views of the same assignment yields a view of the same assignment (same concealed form) that reveals the seal if either does and the state if either does; merging is idempotent, and commutative and associative in what is revealed.", "quantifier": "all pairs/triples of views of the same assignment", "why_tests_cant": "all combinations of partially revealed views with arbitrary payloads", "anchors": ["src/contract/merge_reveal.rs: MergeReveal for Assign"]}
{"id": "C13", "title": "Merging two views of an operation keeps its identity", "statement": "Merging genesis/transition/extension views fails exactly when their ids differ; otherwise the result has the same id and in every assignment slot the most revealed view of the two.", "quantifier": "all pairs of operation views, with any number of assignments of any types", "why_tests_cant": "number and type of assignments unbounded", "anchors": ["src/contract/merge_reveal.rs: MergeReveal for TypedAssigns, Assignments, Genesis, Transition, Extension"]}
{"id": "C14", "title": "Merging two views of a bundle keeps every known transition", "statement": "Merging two views of one bundle yields a view in which every transition known to either side is known.", "quantifier": "all pairs of views of the same bundle", "why_tests_cant": "any subset of transitions may be revealed on either side", "anchors": ["src/contract/merge_reveal.rs: MergeReveal for TransitionBundle", "src/persistence/stash.rs: consume_bundle"]}
{"id": "C15", "title": "Merging two views of a witness keeps the full transaction", "statement": "Merging two views of a witness with the same transaction id succeeds whatever the order and keeps the full transaction if either view has it; views with different ids or chains are rejected.", "quantifier": "all pairs of witness views", "why_tests_cant": "all orders and combinations of bare id and full transaction", "anchors": ["src/containers/anchors.rs: PubWitness::merge_reveal, XPubWitness"]}
{"id": "C16", "title": "Merging anchors keeps both closing methods", "statement": "Merging two anchor sets of one witness keeps the tapret anchor if either side has it and the opret anchor if either side has it; it is idempotent; the set of bundle ids reported for a merged set contains the ids reported for each side.", "quantifier": "all pairs of anchor sets", "why_tests_cant": "all combinations of single and double anchors with arbitrary protocol maps", "anchors": ["src/containers/anchors.rs: AnchorSet::merge_reveal, known_bundle_ids"]}
{"id": "C17", "title": "Revealing a seal touches only the matching assignments", "statement": "Revealing a seal in an operation reveals exactly the assignments concealed with that seal's hash, changes no other assignment, preserves every commitment, and applying it twice equals applying it once.", "quantifier": "every operation, bundle and seal", "why_tests_cant": "any number of assignments, any mix of revealed states", "anchors": ["src/contract/assignments.rs: TypedAssignsExt::reveal_seal", "src/containers/anchors.rs: WitnessBundle::reveal_seal", "src/containers/consignment.rs: reveal_terminal_seals"]}
{"id": "C18", "title": "Consignment index finds every operation and nothing else", "statement": "For an indexed consignment, looking up an operation, bundle, anchor or witness by id returns an item iff the consignment contains one with this id, and the witness returned for an operation is one whose bundle contains it.", "quantifier": "every consignment", "why_tests_cant": "any number of witness bundles, bundles and transitions", "anchors": ["src/containers/indexed.rs: IndexedConsignment"]}
{"id": "C19", "title": "Closing methods and batches are combined losslessly", "statement": "The closing method set of a batch is exactly the union of the closing methods of all its transitions; iterating a batch yields each blank and main transition exactly once; setting a priority changes only nonces and keeps recorded ids in sync with the transitions.", "quantifier": "every batch", "why_tests_cant": "any number of blank transitions", "anchors": ["src/containers/partials.rs: Batch, CloseMethodSet, Dichotomy, TransitionInfo"]}
{"id": "C20", "title": "Annotations can be read back and failed writes lose nothing", "statement": "After annotate(sub,name,value) succeeds, get(sub,name) returns the value and every other annotation is unchanged; if annotate fails, no annotation changes.", "quantifier": "every supplement, key and value, up to the capacity limits", "why_tests_cant": "capacity boundaries and all histories of annotations", "anchors": ["src/containers/suppl.rs: Supplement::{annotate,get,get_default}"]}
{"id": "C21", "title": "Container files are recognised by kind", "statement": "Loading a saved container returns the same container; loading a file of another kind, with a damaged prefix or truncated prefix is rejected and never yields a value of the wrong kind.", "quantifier": "every container and every byte string", "why_tests_cant": "byte strings are unbounded", "anchors": ["src/containers/file.rs: FileContent, UniversalFile"]}
{"id": "C22", "title": "Trust thresholds are monotone", "statement": "should_accept, should_use and must_use are upward closed in the trust order and each implies the weaker ones; anything below Unknown is never accepted.", "quantifier": "all trust levels", "why_tests_cant": "relation over all pairs of levels, exhaustively", "anchors": ["src/containers/util.rs: TrustLevel"]}
{"id": "C23", "title": "Indexed operations stay findable", "statement": "After a bundle is indexed successfully, every operation it knows is resolved to that bundle, the bundle to its contract and to each witness it was ever seen with, every output with a revealed seal is listed for its outpoint and every concealed seal is found as a terminal; indexing anything else later never removes or changes these answers.", "quantifier": "every history of index operations", "why_tests_cant": "all interleavings of contracts, bundles and witnesses", "anchors": ["src/persistence/index.rs: Index::{index_consignment,index_genesis,index_extension,index_bundle}", "src/persistence/memory.rs: MemIndex"]}
{"id": "C24", "title": "Index relations are functional", "statement": "In every reachable index an operation belongs to at most one bundle and a bundle to at most one contract; an attempt to re-register under another one is rejected and changes neither relation.", "quantifier": "every history of index operations", "why_tests_cant": "all histories", "anchors": ["src/persistence/memory.rs: register_bundle, register_operation"]}
{"id": "C25", "title": "Outpoint queries are exact", "statement": "Asking for the operation outputs at a set of outpoints returns exactly those assigned to one of the outpoints, and the list of contracts assigning state to given outpoints contains exactly the contracts having one, each once.", "quantifier": "every reachable index and outpoint set", "why_tests_cant": "any number of contracts, seals, methods per outpoint", "anchors": ["src/persistence/memory.rs: contracts_assigning, opouts_by_outputs, opouts_by_terminals, public_opouts"]}
{"id": "C26", "title": "Importing the same data twice changes nothing", "statement": "Indexing or registering the same bundle/genesis/extension/transition again leaves the index and the contract state unchanged.", "quantifier": "every reachable state and every import", "why_tests_cant": "idempotence over all states", "anchors": ["src/persistence/memory.rs: MemIndex, MemContractState", "src/persistence/index.rs", "src/persistence/state.rs"]}
{"id": "C27", "title": "Contract state shows exactly the state with a live witness", "statement": "The allocations reported for a contract are exactly those which some imported operation reveals and whose witness is not archived (or which need no witness); allocations with an archived witness disappear and re-appear when the witness is re-mined.", "quantifier": "every history of imports and witness updates", "why_tests_cant": "all histories of re-orgs and replaced transactions", "anchors": ["src/persistence/memory.rs: MemContractState::{add_operation,add_assignments}, MemContract::{fungible_all,data_all,rights_all,attach_all}", "src/contract/assignments.rs: check_witness"]}
{"id": "C28", "title": "Global state shows exactly the state with a live witness", "statement": "The global state values reported for a contract come only from genesis or operations with a non-archived witness, at most the schema limit, and every such value is reported when within the limit.", "quantifier": "every history of imports and witness updates", "why_tests_cant": "all histories", "anchors": ["src/persistence/memory.rs: MemContract::global"]}
{"id": "C29", "title": "Global state iterator is positional", "statement": "After reset(d) the next value is the d-th one from the end, size always reports the total number of values and does not disturb the position.", "quantifier": "every sequence of prev/last/reset/size calls", "why_tests_cant": "unbounded call sequences", "anchors": ["src/persistence/memory.rs: GlobalStateIter for Iter in MemContract::global"]}
{"id": "C30", "title": "Witness synchronisation reports faithfully and loses nothing", "statement": "After update_witnesses, every known witness which was due for a check and resolved has the resolved status, every other witness keeps its status, no witness is added or lost, failures are reported, and the success counter counts exactly the successful resolutions.", "quantifier": "every witness set, height and resolver behaviour", "why_tests_cant": "all resolver outcomes on any number of witnesses", "anchors": ["src/persistence/memory.rs: MemState::update_witnesses"]}
{"id": "C31", "title": "A valid witness is chosen for a bundle whenever there is one", "statement": "select_valid_witness returns a witness from the given set which is valid, the first such in order, and fails only if none is valid.", "quantifier": "every witness set and state", "why_tests_cant": "any number of witnesses in any state", "anchors": ["src/persistence/state.rs: select_valid_witness"]}
{"id": "C32", "title": "Failed imports leave no trace", "statement": "If accepting a consignment, importing a kit or consuming a fascia fails, the stock behaves as before the call.", "quantifier": "every stock, input and failure point", "why_tests_cant": "all failure points", "anchors": ["src/persistence/stock.rs: store_transaction, import_kit, accept_transfer, consume_fascia"]}
{"id": "C33", "title": "Persisting survives a crash between files", "statement": "If the process stops at any point while the stock is stored, reloading gives a stock equal to the state before or after the operation.", "quantifier": "every stock change and crash point", "why_tests_cant": "all crash points", "anchors": ["src/persistence/stock.rs: Stock::store, store_transaction", "src/persistence/fs.rs"]}
{"id": "C34", "title": "Consigned history is complete", "statement": "A consignment exported for a contract contains, for every transition it includes, every ancestor transition up to genesis, and each terminal bundle is included; it contains no transition that is not an ancestor of the requested outputs.", "quantifier": "every reachable stock, and every requested set of outputs and seals", "why_tests_cant": "history graphs are unbounded", "anchors": ["src/persistence/stock.rs: consign, export_contract, transfer"]}
{"id": "C35", "title": "Exporting never panics", "statement": "export_contract and transfer return a consignment or an error for every request on every reachable stock.", "quantifier": "every reachable stock and request", "why_tests_cant": "all requests", "anchors": ["src/persistence/stock.rs: consign"]}
{"id": "C36", "title": "What was accepted can be passed on", "statement": "After a consignment is accepted, every transition it revealed can be read back from the stock together with its bundle, anchor and witness.", "quantifier": "every sequence of accepted consignments", "why_tests_cant": "all sequences of overlapping consignments", "anchors": ["src/persistence/stash.rs: consume_consignment, consume_bundle, consume_witness", "src/persistence/stock.rs: transition, client_bundle"]}
{"id": "C37", "title": "Composed payments conserve amounts", "statement": "When a payment is composed for an amount, the beneficiary receives exactly the invoiced amount, and for each composed transition the total of its fungible outputs equals the total of its fungible inputs per assignment type; payment fails iff inputs are insufficient.", "quantifier": "every set of inputs, closing methods and invoice amount", "why_tests_cant": "any number of inputs on either closing method", "anchors": ["src/persistence/stock.rs: compose_deterministic"]}
{"id": "C38", "title": "Composed payments lose no other state", "statement": "Every input state which is not paid to the beneficiary is re-assigned to an output controlled by the payer: other assignment types, other allocations of the same type, and the state of other contracts on the same outputs.", "quantifier": "every set of inputs and invoices", "why_tests_cant": "any mix of state types and contracts", "anchors": ["src/persistence/stock.rs: compose_deterministic", "src/interface/builder.rs: TransitionBuilder"]}
{"id": "C39", "title": "Schema inheritance is a partial order", "statement": "check_inheritance succeeds iff every type, operation and occurrence requirement of the schema is present and equal in the root; it is reflexive and transitive.", "quantifier": "all pairs and triples of schemas", "why_tests_cant": "schemas are unbounded", "anchors": ["src/interface/inheritance.rs: CheckInheritance for Schema"]}
{"id": "C40", "title": "Extended interfaces can stand in for both parents", "statement": "If extending an interface succeeds, the result contains every field and operation of both parents, with compatible types, no requirement or visibility weakened, and lists both parents and all their ancestors as inherited.", "quantifier": "all pairs of interfaces, and inheritance chains of any length", "why_tests_cant": "interfaces are unbounded", "anchors": ["src/interface/inheritance.rs: Iface::extended, inherit, OwnedIface::is_superset, Modifier"]}
{"id": "C41", "title": "Interface self-check is exact", "statement": "Iface::check succeeds iff every name referenced by an operation is declared, multiplicities fit, defaults exist, operation names do not clash, and all required state is in genesis.", "quantifier": "all interfaces", "why_tests_cant": "interfaces are unbounded", "anchors": ["src/interface/iface.rs: Iface::check"]}
{"id": "C42", "title": "Checked implementations resolve without panics", "statement": "If IfaceImpl::check succeeds then every interface name resolves to a schema type which exists, names and type ids are in one-to-one correspondence, so the builder and contract API never hit an internal inconsistency.", "quantifier": "all interfaces, schemas and implementations", "why_tests_cant": "unbounded", "anchors": ["src/interface/iimpl.rs: IfaceImpl::check", "src/interface/builder.rs: state_schema, transition_iface"]}
{"id": "C43", "title": "Abstracted implementations keep exactly the parent's names", "statement": "Abstracting an implementation to a parent interface keeps exactly the mappings for names defined by the parent, unchanged, in every category.", "quantifier": "all implementations and interface pairs", "why_tests_cant": "unbounded", "anchors": ["src/interface/inheritance.rs: IfaceImpl::abstracted"]}
{"id": "C44", "title": "Built operations contain everything that was added", "statement": "Each accepted call to the builder (global state, metadata, asset tag, rights, fungible, data, attachment, input) is reflected in the completed operation exactly once, and a rejected call leaves the builder without the item.", "quantifier": "every sequence of builder calls", "why_tests_cant": "unbounded sequences", "anchors": ["src/interface/builder.rs: OperationBuilder, TransitionBuilder::complete_transition, ContractBuilder::issue_contract_raw"]}
{"id": "C45", "title": "Built fungible state is balanced", "statement": "For every fungible type in a completed operation, blinding factors of the outputs add up to those of the inputs of that type, changing only the last assignment's blinding.", "quantifier": "every operation", "why_tests_cant": "any number of inputs and outputs", "anchors": ["src/interface/builder.rs: OperationBuilder::complete"]}
{"id": "C46", "title": "Payment history adds up", "statement": "history reports genesis allocations of ours as issued, allocations made by our witnesses to others as sent, allocations to us made by others as received, each exactly once, with amounts equal to the (saturating) sum; it never panics.", "quantifier": "every contract state and wallet filter", "why_tests_cant": "any number of allocations, witnesses and types", "anchors": ["src/interface/contract.rs: ContractIface::operations, ContractOp"]}
{"id": "C47", "title": "Assignment filters compose as predicates", "statement": "Include-all accepts everything, exclude negates, optional filters accept everything when absent, collection filters accept exactly the listed outpoints; name queries return exactly the allocations of the named type passing the filter.", "quantifier": "all filters, outpoints and witnesses", "why_tests_cant": "unbounded", "anchors": ["src/interface/filter.rs: AssignmentsFilter", "src/interface/contract.rs: extract_state, allocations"]}
{"id": "C48", "title": "Stored definitions are never replaced by an import", "statement": "Importing a schema or interface which is already known never changes the stored one; lookup by id always returns the definition with this id; importing a kit never panics.", "quantifier": "every stash and kit", "why_tests_cant": "all histories of imports", "anchors": ["src/persistence/memory.rs: MemStash::{replace_schema,replace_iface,replace_iimpl,iface,schema,impl_for}", "src/persistence/stash.rs: consume_kit"]}
{"id": "C49", "title": "Signatures of distrusted identities are never stored", "statement": "Importing signatures stores only those by identities whose trust level is acceptable at that moment, and unknown identities get the default level.", "quantifier": "every history of trust changes and imports", "why_tests_cant": "all histories", "anchors": ["src/persistence/memory.rs: import_sigs, set_trust"]}
{"id": "C50", "title": "Secret seals are remembered and resolved", "statement": "After a secret seal is stored, its hash resolves to it forever, and a received consignment addressed to it gets the seal revealed.", "quantifier": "every history", "why_tests_cant": "all histories", "anchors": ["src/persistence/stash.rs: store_secret_seal, resolve_secrets", "src/persistence/memory.rs: seal_secret, add_secret_seal"]}
{"id": "C51", "title": "Ticker comparison is coherent", "statement": "Tickers which compare equal are not ordered before or after each other, and equal tickers have equal hashes.", "quantifier": "all tickers", "why_tests_cant": "all strings", "anchors": ["src/stl/specs.rs: Ticker"]}
{"id": "C52", "title": "Media type text round trip", "statement": "Printing a media type and reading it yields the same type and subtype.", "quantifier": "all media types", "why_tests_cant": "all strings", "anchors": ["src/stl/mime.rs: MediaType"]}
{"id": "C53", "title": "Approximate invoice amounts stay close", "statement": "Setting an invoice amount from a floating-point number of coins yields an amount within one indivisible unit of the number asked for, or fails.", "quantifier": "every positive floating-point amount and precision", "why_tests_cant": "all floating-point values", "anchors": ["invoice/src/builder.rs: RgbInvoiceBuilder::set_amount_approx"]}
{"id": "C54", "title": "Revealing a transition in a client bundle", "statement": "Adding a transition to a bundle under a witness succeeds exactly if the bundle's input map lists the transition's id; it never panics, reports whether the transition was new, and neither replaces nor removes any known transition.", "quantifier": "every client bundle whose known transitions are listed in its input map, every transition", "why_tests_cant": "all bundles and transitions, up to the capacity limits", "anchors": ["src/containers/anchors.rs: ClientBundle::reveal_transition"]}
{"id": "C55", "title": "A witness carries at most one bundle per closing method", "statement": "A witness bundle takes a second bundle exactly if it carries one of the other closing method; afterwards it carries both, and nothing it carried before is replaced; otherwise it is refused.", "quantifier": "every witness bundle and client bundle", "why_tests_cant": "all combinations of methods and contents", "anchors": ["src/containers/anchors.rs: WitnessBundle::{with,into_double}, AnchoredBundles::from, ClientBundle::new"]}
{"id": "C56", "title": "Velocity hints", "statement": "The hint for a byte is the slowest hint whose value is at least the byte; hints are read back from their own values.", "quantifier": "all bytes", "why_tests_cant": "boundaries of all ranges", "anchors": ["src/containers/suppl.rs: VelocityHint::with_value"]}
{"id": "C57", "title": "Consuming a fascia", "statement": "If consuming a fascia succeeds, every known transition of each of its bundles is found by its id, every bundle is recorded for its contract and witness, the witness is stored, and the revealed state of the bundles' transitions is in the state of their contracts. A bundle with a known transition missing from its input map is refused by an error naming the contract and the bundle, and nothing of it or of the bundles after it is recorded.", "quantifier": "every stock made by calls, every fascia", "why_tests_cant": "all histories of the stock and all fascias, including invalid ones", "anchors": ["src/persistence/stock.rs: Stock::consume_fascia", "src/persistence/index.rs: Index::index_bundle", "src/persistence/state.rs: State::update_from_bundle", "src/persistence/stash.rs: Stash::{consume_witness,consume_bundle}"]}
{"id": "C58", "title": "Standard contract data", "statement": "A specification of an asset or a contract is made exactly of valid texts and holds the texts given, otherwise an error results. Reading a specification, contract terms, a media type or a proof of reserves from a contract's state gives exactly the data held in the value, and only valid data.", "quantifier": "all texts, all strict values", "why_tests_cant": "all texts up to the length limits, all values of any shape", "anchors": ["src/stl/specs.rs: AssetSpec, ContractSpec, ContractTerms, Attachment, Details, RicardianContract", "src/stl/mime.rs: MediaType::from_strict_val_unchecked", "src/stl/chain.rs: ProofOfReserves::from_strict_val_unchecked"]}
{"id": "C59", "title": "Equality, order and hashes of containers agree", "statement": "Comparing public witnesses, bundles under a witness, transition infos, interfaces, allocations and named fields is an equivalence; ordering them is total and agrees with equality; equal values feed a hasher the same data.", "quantifier": "all pairs and triples of values", "why_tests_cant": "all combinations of values that agree in some parts and differ in others", "anchors": ["src/containers/anchors.rs: PubWitness, WitnessBundle", "src/containers/partials.rs: TransitionInfo", "src/interface/iface.rs: Iface", "src/interface/iimpl.rs: NamedField, NamedVariant, NamedType, IfaceImpl", "src/contract/assignments.rs: OutputAssignment"]}
{"id": "C60", "title": "Listing and opening contracts", "statement": "The list of contracts, interfaces and schemata has exactly the known ones, each once, and says what their definitions say. Opening a contract with an interface succeeds exactly if contract, schema, interface and types are known and the interface or one of its ancestors is implemented, and gives the state, schema, info and types of that contract. The contracts listed for a class of interfaces are exactly those which can be opened with it. An accepted contract is listed from then on.", "quantifier": "every stock made by calls, every contract, interface reference and class", "why_tests_cant": "all histories of the stock, all combinations of schemata, interfaces and implementations", "anchors": ["src/persistence/stock.rs: Stock::{ifaces,schemata,contracts,contracts_by,contract_info,contract_raw,contract_iface,contract_iface_class}", "src/persistence/memory.rs: MemStash::{impl_for,schemata_by,geneses_by}", "src/interface/iface.rs: Iface::find_abstractable_impl", "src/info.rs"]}
{"id": "C61", "title": "Builders opened from the stock", "statement": "A builder opened for a contract, a transition or a blank transition is made for the definitions of the contract and the interface asked for, is empty, and carries the asset tags of the genesis. It is opened exactly if these definitions are known, otherwise an error is returned; it does not panic.", "quantifier": "every stock made by calls, every contract, interface reference and transition name", "why_tests_cant": "all histories of the stock, all definitions", "anchors": ["src/persistence/stash.rs: Stash::{contract_builder,transition_builder,blank_builder,extract}", "src/persistence/stock.rs: Stock::{contract_builder,transition_builder,blank_builder}"]}
{"id": "C62", "title": "A payment reaches the receiver", "statement": "If a sender exports a contract for a blinded seal or for transaction outputs and the receiver accepts the consignment, then every output which the export finds at the blinded seal, if the receiver has stored that seal, and every output which the sender knows in revealed form in the exported history or in the genesis, is indexed by the receiver under the contract and its transaction output, and is in the contract's state with the same data. Its witness has the status which the receiver's resolver gives, and it is reported exactly if the witness is not archived. Nothing else is added to the owned state.", "quantifier": "every two stocks made by calls, every contract, set of outputs, secret seal and resolver", "why_tests_cant": "all histories of both parties and all contract graphs", "anchors": ["src/persistence/stock.rs: Stock::{consume_fascia,transfer,consign,accept_transfer,consume_consignment}", "src/persistence/stash.rs: Stash::resolve_secrets", "src/containers/consignment.rs: Consignment::reveal_terminal_seals", "src/persistence/state.rs: State::update_from_consignment"]}
{"id": "C63", "title": "When a contract can be exported", "statement": "An export of a contract for transaction outputs and a secret seal returns a consignment if and only if: the contract is known and has state at each output; every operation of the history of what is found at these outputs and the secret seal (of two seals of the contract at one output, the one closed by opret) is known, in a bundle which is anchored in a witness that is not archived and, where its outputs are spent, is listed in it; no witness has two bundles with one closing method; no bundle has two of the found outputs on the secret seal; all definitions are known; and the size limits of a consignment are kept. Otherwise it ends without a consignment: with an error, or, if a bundle has two of the found outputs on the secret seal, with a panic.", "quantifier": "every stock made by calls, every contract, set of outputs and secret seal", "why_tests_cant": "all histories of the stock, including forks, archived witnesses and partly known bundles", "anchors": ["src/persistence/stock.rs: Stock::{export_contract,transfer,consign,transition,client_bundle}", "src/persistence/state.rs: State::select_valid_witness", "src/containers/anchors.rs: ClientBundle::reveal_transition, WitnessBundle::into_double", "src/persistence/stash.rs: Stash::extract"]}
{"id": "C64", "title": "Ids of consignments and kits", "statement": "Two consignments have the same id if and only if they are the same consignment, and so for kits: an id stands for the kind, the genesis and all operations with what they reveal, bundles with their witnesses and anchors, terminals, definitions, types, scripts, attachments, supplements and signatures. Revealing a seal or changing a transfer into a contract changes the id.", "quantifier": "all pairs of consignments, all pairs of kits", "why_tests_cant": "all ways in which two containers can differ", "anchors": ["src/containers/consignment.rs: Consignment::consignment_id, CommitEncode for Consignment", "src/containers/kit.rs: Kit::kit_id, CommitEncode for Kit"]}
{"id": "C65", "title": "What a validated consignment is", "statement": "A consignment is reported valid exactly if the validator finds it valid, and is then of the kind asked for, has the implementations of its interfaces, and contains the bundles of its terminals. Validation returns the consignment unchanged, with all failures and warnings. Everything which is imported from a valid consignment has been seen by the validator: each bundle with each of its witnesses and anchors, and each operation.", "quantifier": "all consignments, every answer of the validator", "why_tests_cant": "all consignments, including those made to be valid on the surface", "anchors": ["src/containers/consignment.rs: Consignment::validate", "src/containers/indexed.rs: IndexedConsignment", "src/persistence/stock.rs: Stock::accept_transfer"]}
{"id": "C66", "title": "The validated state is the imported state", "statement": "The state against which a consignment is validated, made by giving the operations of the consignment to an empty state one after the other, does not depend on the order in which they are given, shows the allocations of all operations whose witness is not archived and their global state, and is the state which the stock reports after importing the consignment. Giving operations never fails, and panics exactly for an operation which does not fit the schema.", "quantifier": "all schemas, all lists of operations with witnesses and statuses, all consignments with a contract not known before, all resolvers", "why_tests_cant": "all orders in which a validator can go through the operations", "anchors": ["src/persistence/memory.rs: ContractStateEvolve for MemContract, MemContractState::add_operation, MemContractWriter", "src/persistence/state.rs: State::update_from_consignment"]}
{"id": "C67", "title": "Passing on what was received", "statement": "Whoever holds nothing but blinded seals and accepts an exported consignment can themselves export the contract for any outputs or secret seal which belong to the history they were sent: that export succeeds, and every bundle in it is one of the received bundles under the same witness and with the same anchor, with the same genesis and schema. The receiver can export whatever output of the contract they know and the sender could export.", "quantifier": "every sender stock made by calls, every contract, set of outputs, secret seal and resolver, every receiver with any number of blinded seals, every further request", "why_tests_cant": "all contract graphs and all histories of the sender; all chains of receivers", "anchors": ["src/persistence/stock.rs: Stock::{export_contract,transfer,consign,accept_transfer,consume_consignment}", "src/persistence/index.rs: Index::index_consignment", "src/persistence/stash.rs: Stash::{consume_consignment,extract}", "src/persistence/state.rs: State::{update_from_consignment,select_valid_witness}"]}
{"id": "C68", "title": "An invoice is paid, from the composition to the balance", "statement": "When a payer composes the payment of an invoice, takes the transaction committing to it into its stock and exports the contract for the seal of the invoice (or, for an address, for the output of the transaction), and the payee accepts the consignment, then the payee has outputs of the composed transitions, of the invoiced type and under that seal, whose amounts are the invoiced amount in total, and the balance of the seal's output is no less. The payer has the rest of what was spent as change, and all state of other types and of other contracts, each at an output of the payer's choice.", "quantifier": "every payer and payee stock made by calls, every invoice for an amount, every choice of inputs, outputs and blindings which keeps them apart, every transaction committing to the transitions, every resolver", "why_tests_cant": "all stocks, allocations, closing methods and resolvers, through four calls on two stocks", "anchors": ["src/persistence/stock.rs: Stock::{compose,compose_deterministic,consume_fascia,transfer,consign,accept_transfer}", "src/interface/builder.rs: TransitionBuilder", "src/containers/partials.rs: Batch, Fascia", "src/persistence/state.rs: State", "src/persistence/memory.rs: MemContract"]}
{"id": "C69", "title": "Armored texts tell what they contain", "statement": "The headers in front of an armored consignment or kit are those of its content: kind, contract, schema, interfaces and terminals of a consignment; every schema, interface, implementation and library of a kit with ids, developers and annotations; each once, and nothing else. Reading such a text gives back the same container, fails for a consignment of the other kind, never panics, and a text is read only if its headers agree with what follows them.", "quantifier": "all consignments and kits, all texts", "why_tests_cant": "all containers and all texts, including edited ones", "anchors": ["src/containers/consignment.rs: StrictArmor for Consignment, FromStr for Consignment", "src/containers/kit.rs: StrictArmor for Kit, FromStr for Kit", "src/containers/file.rs: FileContent::{load_armored,save_armored}"]}
{"id": "C70", "title": "Nothing is counted beyond the supply", "statement": "For a validated contract, the amounts of one type reported by the stock and not spent by any known operation whose witness is not archived add up to no more than these operations were allowed to issue, and to exactly that where all is revealed and nothing burnt. The stock does not report what has been spent.", "quantifier": "all histories of imports, fascias and updates of witness statuses, all contracts, all types, all true amounts of hidden outputs", "why_tests_cant": "all contract graphs, all orders of imports, reorganisations", "anchors": ["src/persistence/memory.rs: MemContractState::{add_operation,add_assignments}, MemContract::fungible_all", "src/persistence/state.rs: State::{update_from_consignment,update_from_bundle}"]}
{"id": "C71", "title": "Contracts do not disturb each other", "statement": "Whatever is done with other contracts in the same stock (importing and accepting consignments, consuming transactions with their bundles, importing kits, storing seals, updating the statuses of witnesses, successfully or not), the record of a contract stays as it was: the state of its operations, the outputs found for transaction outputs, its genesis, its bundles with their transitions and witnesses. What is reported about it changes only with the statuses of its witnesses, and what could be exported of it can still be exported, with the same content.", "quantifier": "every stock made by calls, every list of further calls which are not about the contract, every output, secret seal and bundle of the contract", "why_tests_cant": "all mixtures of contracts, all orders of calls, failing calls with their partial writes", "anchors": ["src/persistence/stock.rs: Stock::{consume_consignment,consume_fascia,import_kit,store_secret_seal,update_witnesses,consign}", "src/persistence/memory.rs: IndexWriteProvider::{register_bundle,index_transition_assignment}, IndexReadProvider::opouts_by_terminals, StashReadProvider::iface, StateWriteProvider::update_contract"]}
{"id": "C72", "title": "The source of an interface shows what it declares", "statement": "The text printed for an interface shows everything it declares: two interfaces which differ in anything (name, version, parents, time, developer, metadata, state with types and requirements, valencies, errors with descriptions, operations with arguments, modifiers and defaults) have different texts, apart from the printed id. Ways of writing the same number of occurrences are the same.", "quantifier": "all pairs of interfaces, all names known for interfaces and types", "why_tests_cant": "all interfaces, including those with texts made to deceive", "anchors": ["src/interface/contractum.rs: ArgMapDisplay, OpIfaceDisplay, IfaceDisplay", "src/interface/iface.rs: Iface::display"]}
{"id": "C73", "title": "The stock reports what it was told", "statement": "After any successful calls, a stock knows exactly the contracts of the consignments it accepted. For each it reports exactly the outputs of the operations which these calls brought (genesis, transitions and extensions of consignments, transitions of consumed transactions), where the seal of the output is in the open or is a seal stored before and listed as terminal, with the state given there, and unless the witness of the operation is archived by what was last heard about it. Statuses are those of the last consignment, transaction or update which asked for them.", "quantifier": "every list of successful calls on a stock (accepting, consuming, storing seals, importing kits, updating witnesses) from the empty stock, every contract, kind of state and allocation", "why_tests_cant": "all histories, all orders of storing seals and accepting, all answers of resolvers", "anchors": ["src/persistence/stock.rs: Stock::{accept_transfer,import_contract,consume_fascia,store_secret_seal,update_witnesses,import_kit}", "src/persistence/stash.rs: Stash::resolve_secrets", "src/persistence/state.rs: State", "src/persistence/memory.rs: MemContract::{rights_all,fungible_all,data_all,attach_all}"]}
{"id": "C74", "title": "Stocks told the same report the same", "statement": "Two stocks on which the same calls were made (storing seals, accepting consignments, consuming transactions, importing kits), in different orders or some of them repeatedly, report the same about every contract once both have updated the statuses of all witnesses from the same source. More generally, what a stock reports of a contract depends only on what it was told of the contract and what it last heard of the witnesses.", "quantifier": "every two lists of successful calls from the empty stock, every contract, every query of its state", "why_tests_cant": "all orders and repetitions of calls, all answers of resolvers on the way", "anchors": ["src/persistence/stock.rs: Stock::{accept_transfer,import_contract,consume_fascia,store_secret_seal,update_witnesses}", "src/persistence/stash.rs: Stash::resolve_secrets", "src/persistence/memory.rs: MemContractState, MemState::contract_state"]}
{"id": "C75", "title": "Global state is in the order of the blockchain", "statement": "The values of a global state type of a contract are reported from the last to the first: those of an operation whose witness was mined later come before those of one mined earlier, and when the schema allows fewer values than there are, the earliest are left out. The values of one operation are reported from the last to the first as well.", "quantifier": "every history of imports and updates of witness statuses, every contract and global state type, every pair of values", "why_tests_cant": "all operations, all identifiers they may get, all statuses of witnesses", "anchors": ["src/persistence/memory.rs: MemContract::global, MemGlobalState", "src/contract/mod.rs: GlobalOut"]}
{"id": "C76", "title": "Stocks store the same, whatever the order of imports", "statement": "Two stocks on which the same calls were made (accepting consignments, consuming transactions, importing kits, with the secret seals stored first), in different orders or some of them repeatedly, find the same: the same contracts assigning to outputs, the same operation outputs for outputs and secret seals, the same bundle for each operation, the same contract and witnesses for each bundle. They have the same geneses, extensions and bundles, revealed to the same degree, return the same transitions, and have the same witness transactions and anchors. With the same news of the witnesses they export the same.", "quantifier": "every two lists of successful calls from the empty stock, every query of the index, every genesis, extension, bundle and transition", "why_tests_cant": "all orders and repetitions of calls, all ways in which operations are concealed in them", "anchors": ["src/persistence/index.rs: Index::{index_consignment,index_bundle}", "src/persistence/memory.rs: MemIndex, MemStash", "src/persistence/stash.rs: Stash::{consume_consignment,consume_bundle}", "src/contract/merge_reveal.rs: MergeReveal", "src/containers/anchors.rs: MergeReveal for XPubWitness, AnchorSet"]}
{"id": "C77", "title": "Deterministic building gives the same operation", "statement": "Builders which were given the same (the same global values in order, the same state at each seal, the same inputs, nonce, chains and asset tags), in whatever order of calls and by whichever methods, complete to the same operation or fail in the same way. Making the same deterministic calls (the methods *_det) again issues the same contract with the same id.", "quantifier": "every two histories of calls on transition and contract builders, every order in which hash sets list their elements, every tag drawn at random", "why_tests_cant": "all sequences of calls, all orders of hash sets (which change between runs of the program), all random draws", "anchors": ["src/interface/builder.rs: ContractBuilder::{deterministic,add_fungible_state_det,issue_contract_det}, TransitionBuilder::{deterministic_transition,complete_transition}, OperationBuilder::{init_asset_tag,complete}"]}
{"id": "C78", "title": "Paying an invoice does not depend on hash maps", "statement": "Composing a payment again, from the same stock, invoice, outputs to spend and choices of the payer, gives the same transitions of the paid contract and the same blank transitions of the other contracts, or fails again, whatever the order in which hash maps and hash sets are listed (it changes between runs).", "quantifier": "every stock, invoice, outputs, choices of outputs and blinding factors, and any two orders in which each hash map and set is listed", "why_tests_cant": "the order of std hash maps is random in each run of the program: a test sees one of them", "anchors": ["src/persistence/stock.rs: Stock::compose, Stock::compose_deterministic", "src/interface/builder.rs: OperationBuilder"]}
{"id": "C79", "title": "A debug build behaves as a release build", "statement": "No debug assertion fails in any calls on a stock (accepting consignments, consuming transactions, importing kits, storing seals, updating witnesses): each call returns the same and leaves the same stock as in a release build, where the assertions are absent. Composing a payment gives the same, unless the amounts on the spent outputs have a sum which does not fit 64 bits. Merging two containers of one id gives the same.", "quantifier": "every list of calls from the empty stock, every payment, every pair of operations or bundles which are merged", "why_tests_cant": "an assertion which never fired in tests may fire for another history of imports", "anchors": ["src/contract/merge_reveal.rs: MergeReveal", "src/contract/assignments.rs: OutputAssignment::{check_witness,cmp}", "src/persistence/memory.rs: MemContractState::add_operation", "src/persistence/stock.rs: Stock::compose_deterministic"]}
{"id": "C80", "title": "What can be exported stays exportable", "statement": "A stock which can export a contract to some outputs or a secret seal can do so after any further successful calls, unless a witness of its history was archived meanwhile, or new outputs are found for what is asked. The later consignment has the same genesis and the same terminals, and shows each transition of the earlier one with nothing concealed which was revealed in it.", "quantifier": "every history of successful calls from the empty stock, every continuation of it, every contract, outputs and secret seal", "why_tests_cant": "the further calls may bring any other contracts, other views of the same bundles, and the same bundles under other witnesses", "anchors": ["src/persistence/stock.rs: Stock::{consign,export_contract,transfer,accept_transfer,import_contract,consume_fascia}", "src/persistence/stash.rs: Stash::consume_consignment", "src/contract/merge_reveal.rs: MergeReveal", "src/persistence/index.rs: Index::bundle_info"]}
{"id": "C81", "title": "The text of an invoice says what it is read as", "statement": "A text parses as an invoice exactly if it is rgb:contract/interface/[state+]beneficiary with optional parameters of the form name=value, made of the characters of URIs and of escapes. The contract, interface, state and beneficiary are those of the respective parts; of a parameter given more than once the last value counts; the endpoints are those listed, separated by commas, the expiry is the number given, and the other parameters are kept decoded, each once, in the order in which they come first. Segments after the third and the fragment are ignored. Each text has one reading, any other text is an error.", "quantifier": "every text, every invoice", "why_tests_cant": "texts are arbitrary strings with any number of parameters, escapes and repetitions", "anchors": ["invoice/src/parse.rs: FromStr for RgbInvoice, map_query_params, percent_decode, FromStr for XChainNet<Beneficiary>", "invoice/src/invoice.rs: FromStr for InvoiceState"]}
{"id": "C82", "title": "A payment stays on the chain and network of the invoice", "statement": "A payment composed for an invoice assigns everything on the chain of the invoice: to the beneficiary as the invoice says, all else to outputs of the paying transaction with the closing method of the payer, and nothing to the beneficiary in blank transitions of other contracts. A transaction with it is consumed only if it is of that chain. An invoice for another network than that of the contract, for another chain than that of the spent outputs, or for another address is not paid by the same batch. The endpoints and unknown parameters of an invoice have no influence.", "quantifier": "every stock, invoice, outputs to spend, choices of the payer, and transaction which is consumed", "why_tests_cant": "all invoices and stocks, all combinations of networks, chains and closing methods of inputs and beneficiary", "anchors": ["src/persistence/stock.rs: Stock::{compose,compose_deterministic,consume_fascia}", "invoice/src/invoice.rs: ChainNet, XChainNet, Beneficiary, Pay2Vout", "src/persistence/memory.rs: index_transition_assignments"]}
{"id": "C83", "title": "A builder says why it refuses", "statement": "When a call on a transition or contract builder fails with an error, the error is the reason of the failure, and there is exactly one: the name of an assignment, of metadata or of global state which the implementation does not have; a value too long to be serialized or not of the type of the schema; metadata which is already there; state of another kind than that of the schema; an amount whose type has no tag or another tag, a tag for a type which has amounts; a seal on a chain which the contract does not have; a transition without a default assignment; a full collection. Conversely, each of these reasons makes the call fail with its error. A builder for the default or a named transition is made exactly when the implementation has it.", "quantifier": "every builder after any sequence of accepted calls, every next call", "why_tests_cant": "the error depends on everything which was put in before, and on the order of all checks of a call", "anchors": ["src/interface/builder.rs: BuilderError, OperationBuilder, TransitionBuilder, ContractBuilder"]}
{"id": "C84", "title": "A payment which can be made is made", "statement": "compose answers with a payment exactly when the invoice is not expired, an output is given for the beneficiary if and only if the invoice leaves it open, the given outputs hold enough of the state which is asked for, and the payer names outputs for the change and for all other state on them, of this contract and of others, within the limits on inputs and contracts. Otherwise it reports an error, and what the error says is so: the invoice is expired, names no contract or interface, something which the contract needs is not known, state does not fit, no output is named for a type, or there is too little.", "quantifier": "every stock, invoice, list of outputs, closing method, choice of outputs by the payer, order of hash maps, and number of contracts on the outputs", "why_tests_cant": "whether some combination of state, closing methods and contracts is refused without need or panics depends on all contents of a stock and all choices of the payer", "anchors": ["src/persistence/stock.rs: Stock::compose, compose_deterministic, ComposeError", "src/persistence/stash.rs: transition_builder, blank_builder"]}
{"id": "C85", "title": "A refused extension of an interface reports what is wrong", "statement": "When an interface cannot be extended with another, every error in the report is so: the state, operation or default which it names is in both interfaces and does not fit in the way the error says, or a table would have too many entries. If there is room for both interfaces, the report has everything which is wrong, and it is empty exactly when they fit. When many interfaces are put together the report is about the first which cannot be added.", "quantifier": "every pair and list of interfaces", "why_tests_cant": "interfaces have any number of entries, and any combination of errors can occur together", "anchors": ["src/interface/inheritance.rs: Iface::extended, Iface::inherit, GenesisIface::extended, TransitionIface::extended, ExtensionIface::extended, ExtensionError"]}
{"id": "C86", "title": "A consignment which can be accepted is accepted", "statement": "Accepting a consignment or importing a contract is refused only for a reason, and the error names it: the resolver does not know a witness; a bundle is known under another contract or a transition in another bundle; the proof of an anchor does not hold the bundle, or the witness is known with another anchor; or a collection has no room for what the consignment brings. A panic has one of five causes. A consignment which is in order, for which there is room and whose witnesses can be resolved is accepted.", "quantifier": "every history of calls, every consignment, resolver and proof system", "why_tests_cant": "refusals depend on all that was accepted before and on the interplay of three stores; no test can try every combination of known and new data", "anchors": ["src/persistence/stock.rs: consume_consignment", "src/persistence/state.rs: update_from_consignment", "src/persistence/index.rs: index_consignment", "src/persistence/stash.rs: consume_consignment, consume_witness, consume_bundle", "src/persistence/memory.rs: MemStash, MemState, MemIndex, MemContract::add_operation"]}
{"id": "C87", "title": "The tapret commitments a wallet has to know are listed", "statement": "The listing of tapret commitments has, for each witness transaction and at most once, the root and proof of its commitment: everything listed was said by a consignment or payment given to the stock, and everything said by one which was accepted is listed from then on, whatever is called after. The listings of the ids of witnesses, bundles and extensions name exactly those which can be looked up, each once.", "quantifier": "every history of calls, successful or not, every consignment, payment, resolver and proof system", "why_tests_cant": "the commitments of one witness come in several consignments and by two methods and are merged; a lost one makes an output unspendable, and only some order of calls loses it", "anchors": ["src/persistence/memory.rs: MemStash::taprets, witness_ids, bundle_ids, extension_ids", "src/persistence/stash.rs: consume_witness, consume_witness_bundle", "src/containers/seal.rs, anchors.rs: AnchorSet::merge_reveal"]}
{"id": "C88", "title": "A payment which can be recorded is recorded", "statement": "Handing a composed payment (a fascia) to the stock succeeds whenever its bundles show only transitions their input maps name, its contracts are known, the resolver knows its witness, every shown seal says an output, and there is room; if it is refused, the error names a reason which holds of the stock before the call. Importing a kit is refused only for lack of room, remembering a seal and updating witnesses never return an error.", "quantifier": "every history of calls before, every fascia over any number of contracts, every resolver, every kit and seal", "why_tests_cant": "the refusals depend on how much earlier calls and earlier bundles of the same fascia left in some twenty bounded collections and on what they said about the same witness, bundle or transition", "anchors": ["src/persistence/stock.rs: consume_fascia, import_kit, store_secret_seal, update_witnesses", "src/persistence/index.rs: index_bundle", "src/persistence/state.rs: update_from_bundle", "src/persistence/stash.rs: consume_witness, consume_bundle, consume_kit, store_secret_seal"]}
{"id": "C89", "title": "A refused export says why", "statement": "Whenever exporting a contract or composing a transfer consignment returns an error, the error names something which is the case: the contract, output, operation, bundle, witness, anchor, library or type it blames is one the export needs and is missing, archived, concealed or too many as it says; and where any of these is the case, the export cannot succeed. The same for exporting a schema. Errors which blame an unknown contract or witness of a bundle, or a missing interface, are never returned.", "quantifier": "every history of calls before, every contract, list of outputs and secret seal, every history graph reached from them", "why_tests_cant": "which of two dozen errors is returned depends on the whole ancestor graph, on which of several witnesses is archived and on what refused calls left behind in only some parts of the stock", "anchors": ["src/persistence/stock.rs: export_contract, transfer, consign, transition, client_bundle, export_schema", "src/persistence/state.rs: select_valid_witness", "src/persistence/stash.rs: extract", "src/containers/anchors.rs: into_double, reveal_transition"]}
{"id": "C90", "title": "A recorded payment can be handed over", "statement": "If a stock can export the history of the outputs which a payment spends, then after the fascia of the payment was recorded the transfer consignment for its beneficiary can be exported: for a secret seal to which it assigns at most once in each bundle, and for outputs to which it assigns openly. What composing a payment for an invoice gives spends only what is found at the outputs it is paid from. What is exported for a secret seal shows the transition of the payment and names the seal as a terminal.", "quantifier": "every history of successful calls with well anchored bundles, every fascia, contract, list of spent outputs, secret seal and list of outputs; the transaction of the payment is known and not archived, its bundles are new, the bundles of the stock name the transitions they show, and the history of what is spent is in bundles of the contract", "why_tests_cant": "the consignment is put together from the whole graph of ancestors over index, stash and state, with a choice of witnesses for each bundle; an example says nothing of other graphs", "anchors": ["src/persistence/stock.rs: consume_fascia, transfer, consign", "src/persistence/index.rs: index_bundle", "src/persistence/stash.rs: consume_witness, consume_bundle", "src/persistence/state.rs: select_valid_witness"]}
