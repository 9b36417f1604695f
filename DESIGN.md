# Formal model of rgb-std in Rocq: design

Contents: layout and conventions, plan per property, trusted base, what is modelled and what is
not, assumptions about other crates, findings.

## Layout

All Coq code is in `rocq/theories` (logical name `Verif`), standard library only.

| file | content |
|------|---------|
| `Base.v`        | `result` (Ok / Err / Panic), ordered maps and sets (BTreeMap/BTreeSet), confined insertion |
| `Str.v`         | text as byte lists, decimal numbers, splitting and joining |
| `StM.v`         | state monad of the stores; a failing call keeps the writes made before |
| `Core.v`        | the data of rgb-core which rgb-std handles: seals, state, assignments, operations, bundles, witnesses; commitments as a record of functions `Hashes` |
| `HashExists.v`, `Ser.v` | only for examples: injective encodings, so that hypotheses about commitments and codecs can be met |
| `*Model.v`      | definitions only, each with a comment citing the file and lines in `/repo` |
| `*Spec.v`       | small specifications written without the model's helpers |
| `*Props.v`      | property theorems with `Print Assumptions` and `Example`s that the hypotheses can be met |
| all other `*.v` | lemmas |

| area | files | code |
|------|-------|------|
| Amount   | `AmountModel/Spec/Proofs/Props`   | `invoice/src/amount.rs` |
| Invoice  | `InvoiceModel/Spec/Proofs/Props`  | `invoice/src/{invoice,parse,data,builder}.rs` |
| Merge    | `MergeModel/Spec/Proofs/Props`    | `src/contract/{merge_reveal,assignments}.rs` |
| Container| `ContainerModel/Spec/Proofs/Props`| `src/containers/{anchors,indexed,partials,consignment,seal}.rs` |
| Suppl    | `SupplModel/Spec/Proofs/Props`    | `src/containers/{suppl,file,util}.rs` |
| PIndex   | `PIndexModel/Spec/Proofs/Props`   | `src/persistence/index.rs`, index of `memory.rs` |
| State    | `StateModel/Spec/Proofs/Props`    | `src/persistence/state.rs`, state of `memory.rs` |
| Stash    | `StashModel/Spec/Proofs/Again/Props` | `src/persistence/stash.rs`, stash of `memory.rs` |
| Stock    | `StockModel/Spec/Codec/Proofs/Again/Props`, `FasciaProps`, `FoundProps` | `src/persistence/{stock,fs,mod}.rs`: transactions, files, crashes, accepting, fascia |
| Consign  | `ConsignModel/Spec/Proofs/Accept/Props` | `src/persistence/stock.rs`: exporting |
| Transfer | `TransferSpec/Proofs/Props` | exporting and accepting composed: no model of its own |
| Export | `ExportSpec/Proofs/Props` | when exporting succeeds: no model of its own |
| Ident | `IdentModel/Spec/Proofs/Props` | ids of consignments and kits, what validation adds to the validator |
| Evolve | `EvolveModel/Spec/Proofs/Props` | the state a validation works on (`evolve_state`), compared with the imported state |
| Relay | `RelaySpec/Proofs/Props` | exporting what was received: no model of its own |
| Pay | `PaySpec/Proofs/Props`, `PayDataProps` (payments of data) | from the invoice to the balance of the payee: no model of its own |
| Armor | `ArmorModel/Spec/Props` | armored texts of consignments and kits: headers and reading |
| Supply | `SupplySpec/Props` | amounts reported against what was issued |
| Isolation | `IsolationSpec/Proofs/Props` | calls about other contracts keep the record of a contract |
| Source | `SourceModel/Spec/Proofs/Props` | the source text printed for an interface |
| Ledger | `LedgerSpec/Proofs/Props` | what a stock reports, from the calls made on it |
| Agreement | `AgreeSpec/Proofs/Props` | stocks told the same in different orders |
| Compose  | `ComposeModel/Spec/Proofs/Main/Paid/Blank/Err/Props` | `src/persistence/stock.rs`: composing payments |
| Iface    | `IfaceModel/Spec/Proofs/Ext/Refine/Props` | `src/interface/{iface,iimpl,inheritance}.rs` |
| Builder  | `BuilderModel/Spec/Proofs/Calls/Complete/Props` | `src/interface/builder.rs` |
| Global   | `GlobalSpec/Props`  | `src/persistence/memory.rs`, `src/contract/mod.rs`: order of global state (C28, C75), choice of a witness (C31) |
| Replica  | `ReplicaSpec/Proofs/More/Props` | `src/persistence/{index,stash,stock,memory}.rs`: order and repetition of imports (C76) |
| Det      | `DetSpec/Proofs/Props` | `src/interface/builder.rs`: builders given the same content, deterministic calls made again (C77) |
| HashOrd  | `HashOrdSpec/Items/Proofs/Main/Props` | `src/persistence/stock.rs` 932-1240: composing under two orders of the hash maps and sets (C78) |
| Debug    | `DebugModel/Proofs/Compose/Props` | the functions with `debug_assert!`s: `merge_reveal.rs` 94-235, `assignments.rs` 101-114, `memory.rs` 814-859, `stock.rs` 1207-1233, and their callers, as a debug build runs them (C79) |
| Grow     | `GrowSpec/Proofs/Main/Props` | `src/persistence/{stock,stash,index}.rs`: exports before and after further calls (C80) |
| Read     | `ReadSpec/Proofs/Main/Props` | `invoice/src/parse.rs` 351-470: the grammar of invoices (C81) |
| Letters  | `LettersSpec/Proofs/Props` | `invoice/src/amount.rs` 178-202, 428-451: what the texts of amounts mean (C01, C05, used by C81) |
| PayLost  | `PayLostProps` | end to end: what a payment of data loses (C68) |
| Where    | `WhereSpec/Proofs/Props` | `src/persistence/stock.rs` 932-1240: the chain on which a payment is made (C82) |
| Refuse   | `RefuseSpec/Proofs/Props` | `src/interface/builder.rs` 48-1325: errors of builders (C83) |
| Payable  | `PayableSpec/Proofs/Main/Blank/Err/Panic/Props` | `src/persistence/stock.rs` 906-1260: when a payment can be made, and why it is refused (C84) |
| Report   | `ReportSpec/Proofs/Main/Props` | `src/interface/inheritance.rs` 223-678: what is reported when an interface cannot be extended (C85); `iface.rs` 432-442: types of an interface (C41) |
| Accept   | `AcceptSpec/Proofs/State/Stash/Props` | `src/persistence/stock.rs` 1302-1315 and what it calls: for what a consignment is refused (C86) |
| Tapret   | `TapretSpec/Proofs/Props` | `src/persistence/memory.rs` 290-341: listings of the stash (C87) |
| Record   | `RecordSpec/Index/State/Proofs/Props` | refusals of `consume_fascia` and of the calls with kits, seals and updates (C88) |
| Denied   | `DeniedSpec/Proofs/Props` | why exports are refused (C89) |
| Hand     | `HandSpec/Proofs/Main/Props`, `HandPayProps`, `HandEndProps` | recorded payments can be handed over (C90), composed ones in particular |
| Own      | `OwnProps` | composed payments can be recorded: `compose` joined with `consume_fascia` (C88) |
| Load     | `LoadProps` | opening and storing: `Stock::load`, `Stock::store` (C33) |
| Flag     | `FlagProps` | what the storing calls answer: new or not (C26) |
| Listed   | `ListedProps` | listed contracts are known to state and index (C60) |
| History  | `HistoryModel/Spec/Proofs/Props`  | `src/interface/{filter,contract}.rs` |
| Stl      | `StlModel/Spec/Proofs/Props`      | `src/stl/{specs,mime,chain}.rs` |
| Query    | `QueryModel/Spec/Proofs/More/Props` | lists, opening contracts and builders: `src/persistence/stock.rs` 477-701, `stash.rs` 320-434, `memory.rs` 186-290, `src/info.rs` |
| Cmp      | `CmpModel/Spec/Props`             | comparisons of `src/containers/{anchors,partials}.rs`, `src/interface/{iface,iimpl}.rs`, `src/contract/assignments.rs` |

Conventions.  A `&mut self` function returns the new value.  `Result`/`Option` stay data.  A panic
(`expect`, `unwrap`, `assert!`, `todo!`, `unreachable!`, arithmetic overflow in checked builds) is the
separate constructor `Panic`.  64-bit integers are `N` with explicit bounds.  Identifiers that
are hashes in the code (operation, contract, bundle, transaction ids) are `N`; collision freedom is
never assumed globally: when a theorem needs that equal ids mean equal contents this is a hypothesis
of the theorem.  External functions (hashes, strict encoding, taproot key validity, the witness
resolver, the blinding-factor group) are function arguments or section variables.

If the faithful model violates a property, the property is kept at full strength, a theorem with the suffix
`_refuted` exhibits a witness, and the strongest true part is proved with the suffix `_partial`.

## Plan per property

| id | model | proof |
|----|-------|-------|
| C01 | base-32 codec over byte lists, little-endian bytes, trimming | bit-list algebra; round trip by induction, injectivity as corollary |
| C02 | u64 arithmetic on `N` | arithmetic; sum by induction, permutation invariance |
| C03 | `multiplier` table, split/floor/ceil/round | division lemmas, all 19 precisions |
| C04 | `CoinAmount::{new,with,to_amount_unchecked}` | arithmetic; panic on overflow refutes the "no panic" half |
| C05 | Display / FromStr of coin amounts over character lists | refuted by witness; positive part for the alternate of trailing/leading-zero-free fractions |
| C06 | 34-byte payload codec, key validity as argument | case analysis on the payload |
| C07 | code tables | finite case analysis; the "lq" code refutes the round trip |
| C08 | decimal printing/parsing, first-'@' split | decimal round-trip lemma |
| C09 | `split_once("://")`, protocol table | list lemmas |
| C10 | URI printing and parsing with abstract id codecs | round trip for the class of invoices for which it holds, refutations for the others |
| C11 | builder as a state machine over call lists | invariant by induction |
| C12-C14 | four-constructor assignment views, typed assignment lists, operations, bundles | lattice laws by case analysis, lists by induction; the bundle law is refuted |
| C15, C16 | witness and anchor merging | case analysis; refuted where the code has a duplicated pattern |
| C17 | reveal_seal on typed assignments, bundles, consignments | list induction, idempotence |
| C18 | six maps built by folding over the consignment | invariant over the fold |
| C19 | batches | list algebra |
| C20 | nested map with removal-before-insert | map lemmas, refuted on the error path |
| C21 | prefix/magic bytes, payload codec as argument | list lemmas |
| C22 | five levels | finite case analysis |
| C23-C26 | `MemIndex` + `Index` as a state machine over op lists | invariants by induction over histories |
| C27, C28, C30 | `MemState`/`MemContractState` as a state machine | refinement to the set of (operation, witness) pairs seen |
| C29 | iterator object of `MemContract::global` | refuted by witnesses, positive part for fresh iterators |
| C31 | `select_valid_witness` | list induction |
| C32, C33 | transactional skeleton over abstract components with begin/commit/rollback and crash points | refuted by witness; positive parts |
| C34, C35 | `consign` traversal with fuel over an acyclic history | closure invariant of the depth-first search |
| C36 | stash state machine | invariant over accepted consignments |
| C37, C38 | `compose_deterministic` on fungible/data inputs | arithmetic and permutation lemmas |
| C39 | schema comparison | iff specification, order laws |
| C40-C43 | interface extension, checks, implementation, abstraction | map lemmas, induction over the extension's entries |
| C44, C45 | operation builder as a state machine | invariants over call sequences; group law for blindings as a hypothesis |
| C46, C47 | wallet history and filters | list/multiset lemmas |
| C48-C50 | `MemStash` | map lemmas, invariants |
| C51, C52 | string level definitions | list lemmas |
| C53 | `set_amount_approx` with the float as a rational | refuted: the fraction is dropped; exact result |
| C54, C55 | client and witness bundles | case analysis, map lemmas |
| C56 | velocity hints | all bytes by case analysis |
| C57 | `consume_fascia` over index, state and stash | induction over the bundles |
| C58 | restricted strings, strict values as trees | exact conditions of reading and making |
| C59 | hand-written comparisons as functions, what the hasher is fed as a value | laws of `Eq`, `Ord`, `Hash` by key; refuted for allocations (hash) and named fields |
| C60 | lookups and lists over the stash and the state; heads of definitions and the clock as parameters | exact: `In` and `NoDup` for lists, iff for opening, with invariants of stash (`filed`) and state; refuted for names of ancestors |
| C61 | opening builders as lookups followed by the builder model of C44 | iff for success and panic; refuted: no panics, blank builders |
| C62 | two stocks: export of one (C34) accepted by the other (C36), after a fascia (C57) | composition of the exactness theorems of export, resolution of secrets, state and index; exported consignments are well formed by an invariant of the stash |
| C63 | the export of C34, step by step, against a declarative condition on the stock | each step succeeds if and only if its condition holds: first live witness in order, terminals at most once per bundle, every visited operation listed, one slot per closing method; limits by counting the keys of sorted maps |
| C64 | the parts fed to the commitments of consignments and kits, with binding commitments | each part is injective: sets of ids as sorted lists, disclosures by what is concealed and shown; an exact list of what one id means, from which sameness follows under two conditions; refuted without them |
| C65 | `validate` with rgb-core's validator as an argument, the lookups of C18, acceptance of C34 | warnings as a filter of the lists; what can be looked up covers what is imported if bundles are not repeated; otherwise a forged copy, computed |
| C66 | `evolve_state` over the state model of C27 | a state is determined by the set of operations given, by induction over the list; an import is a fold of `evolve_state` over the operations of the consignment; success by counting |
| C67 | the export of C34 and C63 at a stock which accepted an export | the index, witnesses, bundles, definitions and signatures of the receiver are those of the consignment; the history of the request is then within the exported one, and each condition of C63 follows from that of the sender; for a receiver with other data the definitions stay complete by induction over how the stock was collected |
| C68 | C37/C38 (compose), C57 (fascia), C62 (export and acceptance) in sequence; the batch becomes a fascia in the wallet, so that the fascia commits to the transitions of the batch is a hypothesis (`commits_to`) | composed assignments are in vectors of their kind, transitions of a batch spend disjoint inputs and so have different ids; the outputs to a seal are a list of distinct outputs with the amounts of C37, each of which C62 shows at the payee and `fascia_receives` at the payer |
| C69 | `armor_headers` of both containers, `parse_armor_headers`, `from_str`, `load_armored`; printing of ids and names and the text format are arguments | headers filtered by title; reading by cases; witnesses computed with an armor knowing one text |
| C70 | the state after any history of calls (as for C27); the balance of operations, known and single spending are hypotheses on the operations | allocations are outputs, each once; sums over disjoint lists of outputs; witnesses computed with `bit_hashes` |
| C71 | any list of calls on a stock of which none brings an operation, bundle or consignment of the contract | each writing function keeps a view of the index, state and stash (a frame), lifted through the call monad, failing calls included; witnesses computed with `bit_hashes` |
| C72 | the text printed for an interface, byte by byte; names known for interfaces and types and texts of ids are parameters | the text is a list of lines; lines are told apart by their texts, sections and operations are read back out of the lines |
| C73 | the whole stock of C32; what calls bring, which seals were stored before and what was last heard of witnesses are read off the list of calls | every list of successful calls has a list of state calls with the same operations, those with opened seals resolved; then C27, C28, C30 and C70 |
| C74 | the lists of calls of C73; what queries read of a contract is one record, compared as a whole | two states made by calls which hold the same operations under the same witnesses with the same statuses have the same entries; sorted maps with the same entries are equal |
| C75 | `global_values` of C28 with the order `GlobalOut` has in the code; the order of the blockchain in `GlobalSpec.v` | values reported as the first of the sorted map read backwards; refuted on two computed transitions |
| C76 | index and stash of stocks after the same calls in other orders | index: both are well-formed and have the same facts, so they are equal; stash: merging is a least upper bound, each stash is an upper bound of all that was brought and the least one, so they are equal; witnesses: what is stored is the least sum of all that came; exports read only these; refuted on two computed views of a bundle and two transactions of one id |
| C77 | builders of BuilderModel, hash sets of rights with any order | a builder is determined by the latest values of what it was given (invariant `repr` of BuilderProofs), completing it reads only these; calls made again by induction with the invariant that given tags stay; refuted on two computed runs |
| C78 | `compose` of ComposeModel with two records `Orders` | the builder after any order of the calls has the same content (`repr`); inputs, sums and calls are compared up to permutation, capacity errors by counting; blank transitions one contract at a time; refuted on computed runs |
| C79 | a second model of the functions with debug assertions and of everything which calls them, with `Panic` where an assertion fails | same result and same state by invariants (bundles are filed under their id; stored state opens a commitment of the operation it is filed under) through each call; induction over calls |
| C80 | `consign` on the stock after calls, and after these and more | invariant through successful calls: each witness in the index has its bundle, transaction and anchor committing to it in the stash; index facts grow and stored bundles are only revealed further; with these the conditions of C63 for exporting carry over; content compared by C18/C63 characterisations of `consign`; refuted on computed stocks |
| C81 | `invoice_from_str` (C10) against a grammar of invoice texts with relations for escapes, parameters, values and segments | each function of the parser is equivalent to the relation for its part; the map of parameters by induction from the end; uniqueness of the order of parameters |
| C82 | `compose` of ComposeModel; `fascia_body` | every call made on a builder during composing has a seal of the payer or the beneficiary (invariant over the loops), completing keeps the seals; congruence of `compose` in the invoice; examples for the refuted parts |
| C83 | `t_call`, `c_call` of BuilderModel | the abstraction relation of C44 between a builder and the list of what was put in; each failing branch of each call is one of the reasons of a separate list, and conversely |
| C84 | `compose` of ComposeModel | `C84_payable` (completeness): every call on the builders is shown to succeed under the counting limits; converse from the invariants of C41. `C84_reason`: by cases on where `compose` stops, each error is related to `refusal`, a relation which names no helper of `compose`. `C84_answers`: no step panics. |
| C85 | `extended`, `inherit` of IfaceModel | The error list is split into parts; each part is shown to have exactly the errors of `extension_fails` by induction over the entries of the extension (sorted, so each name is compared with the first interface's own entry); a counting argument for the errors on too many entries. |
| C86 | `accept_body` of StockModel with `update_from_consignment`, `pindex_consignment`, `consume_consignment` | One invariant per store, relating the collections to the starting ones plus what was brought so far; every early exit is shown to imply its reason at the start. Merging operations and bundles cannot fail by collision freedom; merging witnesses can. |
| C87 | `stash_taprets`, `stash_witness_ids`, `stash_bundle_ids`, `stash_extension_ids` of StashModel | The witness map after any call, failed or not, is the old one with some of the brought witnesses put into it; putting keeps root and proof. |
| C88 | `fascia_body`, `consume_kit`, `store_secret_seal`, `update_witnesses` | As C86, with invariants over all contracts of the fascia at once; the reasons are stated at the stock before the call. |
| C89 | `consign`, `export_schema` | Case analysis along the code; invariants of the loop (what is on the stack is of the history) and of the grouping (what is carried by a witness); an invariant of the index (operations have a bundle with a contract and a witness). |
| C90 | `fascia_body` followed by `consign` | The history of what is asked for splits into transitions of the fascia and the history of what was spent; the latter persists as in C80, the former by what recording leaves (C57); then C63. That composed payments spend only what is found: C38 and C25; so from an invoice to a consignment. |

No property is considered inexpressible.

## Trusted base

* Coq 8.16.1's kernel, and `vm_compute` (part of it) in the examples and some refutations.
* Axioms: `Print Assumptions` says "Closed under the global context" for every property theorem; it is
  printed beneath each of them.  `coqchk` lists seven names in the standard library's
  `Coq.ssr.ssrunder.Under_rel` (`Under_rel`, `Under_rel_from_rel`, `Under_relE`, `over_rel`, `Over_rel`,
  `over_rel_done`, `under_rel_done`): they are the fields of an opaque module of the standard library which is loaded with
  `lia`/`zify`.  No theorem uses them.
* No axioms, parameters, functors, module types, plugins or switched off checks of our own.
* The model itself: that the definitions say what the cited lines of Rust do.  This is by reading; the code was neither run nor
  translated by a tool.
* The mutation log `seeded/LOG.jsonl` shows which wrong programs the theorems tell apart from the right one.

## What is modelled

Function by function, in the order of the Rust files, in the `*Model.v` files.  In short:

| code | modelled | not modelled |
|------|----------|--------------|
| `invoice/src/amount.rs` | all arithmetic, splitting, both text forms of `Amount` and `CoinAmount` | serde, formatter width and alignment |
| `invoice/src/invoice.rs`, `parse.rs`, `data.rs`, `builder.rs` | beneficiaries, networks, transports, allocations and their fractions, invoice state, the whole printer and parser of invoices, the builder | serde |
| `src/contract/merge_reveal.rs`, `assignments.rs` | all | derived traits |
| `src/containers/anchors.rs`, `partials.rs`, `indexed.rs`, `seal.rs` | merging, revealing, splitting and joining bundles, lookups, batches, fascia | strict encoding |
| `src/containers/consignment.rs`, `kit.rs`, `suppl.rs`, `file.rs`, `util.rs` | reveal of terminals, conversion to a contract, annotations, container files and their flags, headers of armored texts, trust levels | the text format of armor; of `validate` rgb-core's validator is an argument |
| `src/persistence/index.rs`, `state.rs`, `stash.rs`, `stock.rs`, `fs.rs`, `memory.rs` | the three in-memory stores and the stock over them: registering, indexing, state, witnesses, trust, signatures, kits, consignments, fascia, secret seals, exporting, composing, transactions, the three files, crash points | `make_persistent`, autosave on drop, printing of infos |
| `src/interface/iface.rs`, `iimpl.rs`, `inheritance.rs`, `builder.rs`, `filter.rs`, `contract.rs`, `contractum.rs` | all checks, extension, abstraction, both builders, filters, queries, history, the printed source of interfaces | ids |
| `src/stl` | texts, tickers, media types, specifications, terms, reserves | type libraries (`stl.rs`) |

### Simplifications

* Debug assertions are modelled in `DebugModel` only (C79, which compares both builds): all other theorems are about release builds.  Plain integer operators panic on overflow (checked profile) in
  the Amount area; in composing payments an argument chooses between wrapping and panicking.
* Ids which are hashes are numbers.  Equal ids mean equal contents only under explicit hypotheses of theorems (`binds`, `collision_free`).
* Names of fields, errors and interfaces are numbers in Iface, Builder and History; the code compares and sorts text.
* Order of hash sets and maps is an argument (any order), e.g. `ord` in History, `paying` in Compose.
* What the code draws at random (blindings, salts, asset tags) are arguments.
* The witness resolver is a function, the same during one call.
* On a panic, writes to contract state made in the same call are dropped.
* A process which is stopped while writing is the error `ProcessStopped`; a file may then hold any prefix of its bytes.
* Occurrences are ranges; different ways to write one range are one value.  The schema id of a genesis is kept in its type field.
* `u24` depths of iterators are unbounded.  The order of `GlobalOut` is an argument `OG`; the one the code has is `OrdGlobalOut` (C75).

## Assumptions about other crates

They are hypotheses of theorems or definitions that model documented behaviour; none is an axiom.

| crate | assumption | where |
|-------|------------|-------|
| rgb-core | commitments are functions; where needed, without collisions | `Hashes`, `collision_free` |
| rgb-core | operations do not contain their own descendants | `no_cycles` (C35), met by `bit_hashes` |
| rgb-core | `Metadata::add_value` refuses a second value, `GlobalState::add_state` appends, `BlindingFactor::zero_balanced` balances modulo the group order | `BuilderModel`, `balances` (C45) |
| commit_verify | a multi-protocol proof exists for each known protocol | `Merkle`, `proves_known` (C36) |
| bp-dbc | merging of anchors | `ContainerModel` |
| amplify | confined collections refuse insertion when full, even of a key present | `Base` (`cinsert`, `cpush`) |
| strict_encoding | decoding what was encoded gives it back; a strict prefix does not decode | `codec_ok`, `codecs_ok` (C21, C33); `std_codecs_ok` shows one |
| strict_encoding | `RString` checks first character, other characters and length | `StlModel` |
| strict_types | `StrictVal` accessors panic on other shapes; `TypeSystem` extend/extract; deserialisation is a partial function | `StlModel`, `StashModel`, `HistoryModel` |
| fast32, baid64, percent-encoding, fluent-uri | printing and parsing are inverse, character sets of the printed text | `AmountModel`, `codecs_ok` of `InvoiceSpec` (C10) |
| nonasync | `Persisting` stores the whole value at commit | `StockModel` |

## Findings

Where the faithful model violates a property as stated, the counterexample is a theorem.  Each is read off the
code at the pinned commit.

| id | finding | theorem |
|----|---------|---------|
| C04 | turning an accepted coin amount beyond 64 bits into an amount panics, also through the invoice builder | `C04_no_panic_refuted`, `C11_no_panic_refuted` |
| C05 | the text of coin amounts loses trailing zeros or does not parse; the alternate form panics for indivisible amounts | `C05_round_trip_refuted`, `C05_display_no_panic_refuted` |
| C05 | a text without a fraction such as `7` is read with a precision of one decimal, and `7~2` is not read at all; the digits of a fraction are not checked against the precision, so `1.500~1` is read as 1 and 500 tenths | `C05_reads`, `C05_reads_example` |
| C07 | the code of Liquid mainnet is read back as Bitcoin mainnet | `C07_round_trip_refuted` |
| C10 | invoices whose text does not read back | `C10_round_trip_refuted`, `C10_reprint_refuted` |
| C11 | adding the placeholder transport by hand breaks the list of transports | `C11_sane_refuted` |
| C14 | merging bundles drops transitions known only to the second | `C14_merge_bundle_refuted` |
| C15 | a full transaction merged with a bare id of it is rejected | `C15_merge_refuted` |
| C16 | with both closing methods the ids of the tapret bundles are hidden | `C16_known_bundle_ids_refuted` |
| C18 | a later copy of a bundle hides operations known to an earlier one | `C18_operation_complete_refuted` |
| C19 | `set_priority` leaves the recorded ids of transitions stale | `C19_ids_synced_refuted` |
| C20 | an annotation which fails drops all annotations of its subject | `C20_failed_annotate_refuted` |
| C21 | loading a file does not compare the transfer flag with the kind asked for | `C21_file_kind_refuted` |
| C23, C25 | the index finds only the first of two seals at one outpoint; a contract with two outpoints is listed twice | `C23_outputs_refuted`, `C25_outputs_exact_refuted`, `C25_contracts_once_refuted` |
| C23, C26 | the 256th output on one secret seal drops the whole entry | `C23_terminals_refuted`, `C26_index_again_refuted` |
| C27 | an allocation with an explicit seal stays tied to the witness it was first imported with | `C27_allocations_refuted` |
| C28 | global state of archived witnesses is still reported | `C28_global_state_refuted` |
| C29 | the iterator over global state: `size` counts what is left and starts over, `reset` never goes forward | `C29_size_refuted`, `C29_size_position_refuted`, `C29_reset_forward_refuted`, `C29_reset_back_refuted` |
| C30 | failed witness updates are counted as succeeded | `C30_counter_refuted` |
| C31 | an unknown witness before a valid one makes the selection fail | `C31_selected_refuted` |
| C32 | a rejected consignment leaves its contract registered in memory; a write error at commit panics | `C32_no_trace_refuted`, `C32_write_error_panics` |
| C33 | a stop between the three files leaves a mixture; a stop within a file leaves it unreadable | `C33_mixture_refuted`, `C33_torn_file_refuted` |
| C34 | unrelated transitions of the same bundle are exported, without their ancestors | `C34_only_ancestors_refuted`, `C34_all_ancestors_refuted` |
| C34 | where a contract has two seals at one output, one per closing method, only the history of one is exported | `C34_two_seals_refuted` |
| C35 | two assignments of a transition to one secret seal make exporting panic | `C35_never_panics_refuted` |
| C36 | transitions newly revealed in a bundle already known are dropped | `C36_all_passed_on_refuted` |
| C37 | change may overwrite the payment; wrapped sums lose amounts; an assignment under two witnesses is counted twice; a change output is required without change; other invoices panic | `C37_change_output_refuted`, `C37_wrapped_refuted`, `C37_two_witnesses_refuted`, `C37_no_change_refuted`, `C37_other_state_refuted` |
| C38 | states of one type at one output collapse; other data of the paid type is lost; concealed state of another contract panics | `C38_same_output_refuted`, `C38_blank_same_output_refuted`, `C38_data_refuted`, `C38_concealed_state_refuted` |
| C39 | metadata is not compared in schema inheritance | `C39_metadata_refuted` |
| C40 | extension of interfaces drops optional operations, overwrites metadata types, makes required operations optional, withdraws `multiple`, loses finality, may give an inconsistent child | `C40_*_refuted` |
| C85 | reports on a state extension name a transition; too many state extensions are reported as too many transitions (`ExtensionError::ExtensionOverflow` is never used); metadata and errors are reported as too many when the table is full although the name is already there | `C85_name_refuted`, `C85_overflow_refuted`, `C85_metadata_refuted` |
| C86 | once a witness is known by its whole transaction, every consignment naming it by its id is refused, however valid, with `TxidMismatch` of an id with itself | `C86_accepted_refuted` |
| C88 | the same for own payments: once a witness is known by its whole transaction, a fascia naming it by its id is refused; remembering a seal in a full store panics instead of returning an error | `C88_recorded_refuted`, `C88_seal` |
| C89 | after a consignment was refused by the stash, its operations are in the index but not their bundles: an export which finds them reports a missing bundle for a contract never accepted | `C89_torn` |
| C90 | a payment with two outputs to one secret seal in one bundle is recorded, but its transfer can never be exported | `C90_twice_refuted` |
| C41, C42, C43 | only the least occurrence is compared with multiplicity; duplicates counted from zero, types never; valencies are looked up among assignments | `C41_multiple_refuted`, `C42_one_to_one_refuted`, `C42_kinds_refuted`, `C43_valencies_refuted`, `C43_still_fits_refuted` |
| C44 | metadata put into a transition is lost; a second state at one seal replaces the first; some calls panic | `C44_metadata_refuted`, `C44_same_seal_refuted`, `C44_no_panic_refuted` |
| C46 | history panics with two fungible types under one witness and with a witness filter that takes allocations without witness | `C46_types_refuted`, `C46_include_all_refuted` |
| C48 | importing a kit may panic; an implementation is overwritten by that of another interface of the same name; an exported kit may hold the wrong interface | `C48_no_panic_refuted`, `C48_impl_kept_refuted`, `C48_export_importable_refuted` |
| C49 | signatures beyond the tenth are dropped without notice | `C49_all_stored_refuted` |
| C51 | equal tickers are ordered before and after each other | `C51_refuted` |
| C52 | the text of a media type loses the character set | `C52_charset_refuted` |
| C53 | approximate amounts lose their fraction | `C53_approx_close_refuted` |
| C53 | an approximate amount which is NaN is accepted as amount zero; infinity panics unless indivisible | `C53_nan_refuted`, `C53_special` |
| C59 | equal allocations may hash differently; named fields with one id or one name are equal, so different implementations are | `C59_allocations_refuted`, `C59_names_refuted` |
| C60 | the list of interfaces shows ancestors by name, which may lead to another interface of that name | `C60_inherits_refuted` |
| C60 | a contract which has a state need not be in the list of contracts: its consignment was refused after the state took it | `C60_stated_listed_refuted` |
| C61 | opening a builder for an unknown transition name, or without a default operation, panics | `C61_no_panic_refuted` |
| C61 | a blank builder for an interface which is not implemented takes the first implementation with the interface found under its name, which may be another one, and checks data with the types of the interface asked for | `C61_blank_iface_refuted`, `C61_blank_types_refuted` |
| C64 | the id of a consignment does not commit to its schema, its interfaces and the contents of attachments | `C64_not_committed`, `C64_identifies_refuted` |
| C65 | a consignment of the wrong kind, with implementations of other interfaces or terminals which are not there, is valid | `C65_checked_refuted` |
| C65 | a second copy of a bundle, under another transaction, is hidden from the validator and imported: the receiver sees an allocation at an output of that transaction | `C65_seen_refuted` |
| C66 | an operation given under two witnesses, one of them archived, shows its allocation or not depending on the order | `C66_order_refuted` |
| C57 | a fascia with a bundle known before does not add its transitions to it: they are indexed and in the state, but cannot be read or exported | `C57_stored_refuted` |
| C67 | a receiver who knew a bundle without a transition of the history accepts a payment and can never pass it on, since the merge drops the transition | `C67_prior_refuted` |
| C67 | an exported bundle shows transitions of the sender which are not in the exported history; the receiver indexes their outputs but cannot export them, while the sender could | `C67_everything_refuted` |
| C69 | headers of armored texts are not compared with the content; loading an armored file does not look at the kind; a type header without value would panic | `C69_headers_refuted`, `C69_file_kind_refuted`, `C69_no_panic_refuted` |
| C70 | spent allocations stay in the state (memory.rs 770-801 is commented out), so reported amounts add up to more than the supply; an operation under two possible witnesses counts twice | `C70_spent_reported_refuted`, `C70_two_witnesses_refuted` |
| C71 | an allocation of another contract at the same blinded seal makes the export for that seal fail (memory.rs 1329-1341 looks for the seal in all contracts); interfaces are looked up by name (memory.rs 192-199), so an interface of another contract with the same name and a smaller id is exported in place of the contract's own | `C71_export_refuted`, `C71_iface_refuted` |
| C72 | error descriptions are printed without escaping (contractum.rs 293-296), so a description over several lines passes for other declarations; parents are printed by name where one is known, and an unknown parent is followed by a line break in the middle of the list (contractum.rs 230-231) | `C72_description_refuted`, `C72_parents_refuted`, `C72_default_refuted` |
| C73 | an operation accepted under a second witness keeps the first (memory.rs, `MemContractState::add_operation` does not overwrite entries); when the first is archived its outputs vanish, though the second is mined | `C73_ledger_refuted` |
| C74 | a secret seal stored after the consignment which pays to it is not applied to it, so the payment is reported or not depending on the order of the two calls (stash.rs, `resolve_secrets` runs only on what is being accepted); of two witnesses of an operation the first is kept | `C74_seal_order_refuted`, `C74_witness_order_refuted` |
| C75 | global state is kept in a map ordered by `GlobalOut`, whose first field is the identifier of the operation (contract/mod.rs 72-86), and read backwards (memory.rs 936-957): the order of operations is that of their hashes, though the documentation speaks of consensus ordering (memory.rs 701); with a limit of one a value mined in block 100 hides one mined in block 200 | `C75_latest_refuted` |
| C76 | a transition which comes with a bundle already stored without it is dropped by the merge (merge_reveal.rs 217-235 only merges transitions which the stored view has), while in the other order it is kept: two stocks which accepted the same two consignments differ, one returns the transition and the other says it is concealed | `C76_parts_refuted` |
| C76 | a witness which came with its transaction keeps the first of them: a transaction of the same id with other data (signatures are not in the id) is not stored, so two stocks keep different ones (anchors.rs 154-167) | `C76_txs_refuted` |
| C77 | rights are kept in a `HashSet` (builder.rs 836, listed in 1397-1412): with two rights of one type the order of the assignments, hence the contract id, differs between runs, also with the deterministic methods | `C77_rights_refuted` |
| C77 | `add_fungible_state_det` draws a random asset tag when the type has none (`init_asset_tag`, builder.rs 985-1001), without an error, so a deterministic builder is not deterministic | `C77_tag_refuted` |
| C78 | `compose` lists hash maps (stock.rs 1038-1045, 1170-1183): with allocators which depend only on contract and type, two data of one type get one seal and which of them is lost depends on the order, from run to run | `C78_seals_refuted` |
| C78 | two rights of a type are put in the transition in the order of a `HashSet`; blank transitions come in the order of a `HashMap`: the ids of transition and batch differ from run to run, although it is called deterministic | `C78_rights_refuted`, `C78_blanks_refuted` |
| C79 | amounts with a sum over 2^64: a debug build panics in `compose`, a release build wraps around | `C79_overflow_refuted` |
| C79 | `TransitionBundle::merge_reveal` of two bundles of different ids panics in a debug build (219) and returns the first in a release build, where operations return an error | `C79_merge_refuted` |
| C80 | accepting a consignment which fails in the stash (an anchor whose proof is wrong for its contract) leaves its witness in the state and in the index: a payment which could be exported cannot be any more, since the lower new witness is chosen and is not in the stash (stock.rs 1310-1314: state, index, stash in this order). The wrong proof stands for any error of the stash before the witness is stored; the validator rejects this one, but not a full collection | `C80_failed_refuted` |
| C80 | a successful import can make an export impossible: a bundle of the history comes under another witness with an anchor for another contract | `C80_refuted`, `C71_export_refuted` |
| C81 | segments of an invoice after the third are ignored, so a text with an operation or an assignment name after the beneficiary loses it silently; of repeated `endpoints` or `expiry` parameters all but the last are dropped | `C81_segments_ignored`, `C81_reads` |
| C68 | paying one allocation of data loses the payer's other allocations of that type on the spent outputs: after the whole payment neither side has them at an unspent output | `C68_rest_refuted` |
| C82 | `compose` compares neither the network nor the address of an invoice with anything: test and main network invoices are paid alike | `C82_network_refuted`, `C82_address_refuted` |
| C82 | an invoice of another chain than the spent outputs is paid: the change and the state of other contracts get seals on outputs of the other chain, and `consume_fascia` panics on the transaction ("chain mismatch") | `C82_other_chain_refuted`, `C82_consume_panics_refuted` |

The forged copy of C65 rests on how rgb-core's validator goes through a consignment: by `bundle_ids`, `bundle`,
`anchor` and `operation`, which all answer for one copy of a bundle.

Seen while reading, without a theorem: `Kit::validate` always succeeds,
`public_opouts` is never written, trailing bytes of container files are ignored.
