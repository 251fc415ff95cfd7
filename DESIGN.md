# Formal model of RGB-WG/rgb-core in Rocq (Coq 8.16.1)

## What is modelled

| Code in /repo | Model |
|---|---|
| `src/verify.rs:55-62` `OperationSeals` | `Deps.v` |
| `src/verify.rs:79-86` trait `ReadOperation` | `Deps.v` (arbitrary state machine) |
| `src/verify.rs:92-138` trait `ContractApi` | `Deps.v` (record of functions, no laws) |
| `src/verify.rs:148-261` `ContractVerify::evaluate` | `Evaluate.v`, statement by statement |
| `src/verify.rs:266-306` `VerificationError` | `Api.v` |
| `src/verify.rs:43` derived strict encoding of `OperationSeals` | `StrictCodec.v` |
| `src/verify.rs:45-54` derived serde form of `OperationSeals` | `Serde.v` |
| `src/verify.rs:330-500` test ledger, test reader | `TestLedger.v` |
| `src/verify.rs:470-500` `run`, the common part of the tests | `TestRun.v` |
| `src/verify.rs:385-723` test scenarios | `Concrete.v` (the tests as computations) |
| reading a stream of bytes with the derived decoding | `ByteReader.v` |
| `src/seals.rs:39-78` traits `RgbSealDef`, `RgbSeal` | `Deps.v` |
| `src/seals.rs:83-128` bitcoin seals | `BitcoinSeals.v` |

`Spec.v` is the specification vocabulary. It does not import the model of `evaluate`.

| File | Content |
|---|---|
| `Types.v`, `Deps.v`, `Api.v` | data, interfaces, errors, calls |
| `Evaluate.v` | the model of `evaluate` |
| `Spec.v` | specification: history, live seals, validity of entries, outcome, laws |
| `EvalFacts.v`, `Runs.v`, `Refine.v` | one pass of the loop; runs; `evaluate` refines `outcome` |
| `Effects.v`, `Readers.v`, `ByteReader.v` | logs of calls; arbitrary readers; byte streams |
| `Simulate.v`, `Laws.v`, `Transform.v`, `Derived.v`, `DoubleSpend.v` | two evaluations compared; consequences |
| `BitcoinSeals.v`, `StrictCodec.v`, `TestLedger.v` | the other code |
| `TestRun.v` | the assertions of the tests |
| `Split.v` | specification: validity of seals without a contract, validity of operations without seals |
| `Replay.v` | proofs for C69 and C70: the records in a log, made again and in other orders |
| `Disclosure.v` | definitions (`reduces`, `least`) and proofs for C71: consignments that report less |
| `Reorg.v` | proofs for C67: operations with valid seals on one chain, sessions on any chain |
| `Ledger16.v` | the test ledger with positions converted to 16 bits |
| `BitcoinChain.v` | bitcoin seals on a chain of transactions: premises and consequences |
| `Protocols.v` | the same with commitments for several protocols |
| `Accounting.v` | counting seals and calls |
| `Fallback.v` | the same with closings that may spend the fallback outpoint of a seal |
| `Consensus.v` | sessions with the consignments received; no conflicts on a chain |
| `Merge.v` | specification of the merge of consignments; why it is accepted |
| `Guard.v` | a reader that checks the entries of another one (not code of /repo) |
| `Messages.v` | the texts of errors: `Display`, `Debug`, `{:#?}` of sets and maps; how to decode them |
| `Ordered.v` | `evaluate` with sorted collections in place of maps and sets |
| `Cells.v` | specification: contracts whose memory consists of cells |
| `CellFacts.v`, `Sharing.v`, `LedgerCells.v` | runs on such contracts; several parties; the test ledger is one, and so is a ledger dropping consumed cells |
| `Concrete.v`, `Scenario.v`, `Counterexamples.v` | a concrete world, the tests, examples |
| `Stock.v` | definitions (`keeps_stock`, `export`) and lemmas for C74: consignments made of what a contract has recorded |
| `Properties1.v` ... `Properties36.v` | THE THEOREMS C01..., each with a concrete case (`C.._case`) |

## Findings: what is false of the code

Each has a machine-checked counterexample (theorem `..._refuted`) and a theorem
`..._partial` with what does hold.

* C28, C32. `evaluate` compares the auth tokens of reported definitions and of outputs as
  sets (src/verify.rs:172-193), not position by position. A consignment can report the
  definition of output 1 for output 0, and then spend output 0 by closing the seal of
  output 1. Two verifiers can so accept two different operations which spend one cell,
  although no seal is closed twice. (On the ledger of the example the thief owns the seal
  of output 1.)
* C32, C35, C43. An operation without destructible inputs may be delivered with any
  published witness: `verify_seals_closing` is called with an empty list of seals. Its
  witness-relative definitions then resolve with the chosen witness, so its cells can have
  any number of different seals - even within one consignment, by delivering the operation
  twice - and be spent by different operations. (Whether an empty list of seals passes is
  up to the seal protocol; in the concrete world of `Concrete.v` it does if the anchor is
  that of the transaction.)
* C29. A first operation which is not the genesis of the contract is accepted if the codex
  verifies it as an ordinary operation. It is never applied (C13, C29_partial, C30), so
  this does no harm to the state; but `Ok` does not mean that the genesis was right.
* C34. `apply_witness` is called for genesis and for operations without destroyed state if
  they come with a witness, contrary to its documentation (src/verify.rs:132-137).
* C63. All of these are repaired by three checks of each entry, which do not need a change of
  `evaluate`: the reader can make them. None of the three is superfluous (`C63_each_needed`).
* C55. The message of `SealsDefinitionMismatch` says that seals "do match the assignments"
  where "do not" is meant (src/verify.rs:286); `C55_text_explains` states what the text means.
* C56. `evaluate` tells the seal protocol the seals and the operation id, nothing about the
  contract (src/verify.rs:225-229). If an input can commit to one message per protocol and the
  anchor names the protocol, one transaction can serve two operations of one contract that
  consume the same cell. So single use (premise of C31, C32, C35, C43, C53, C54) depends on
  anchors being tied to the contract, by the seal protocol or by its caller. Whether the real
  anchor is tied is outside of /repo.
* C57. A seal may have a fallback outpoint, which `resolve` and `to_src` copy
  (src/seals.rs:118, 126). If a closing may spend either outpoint, a chain without double
  spends of outpoints does not exclude that both are spent, each for another operation that
  consumes the same cell. `evaluate` asks for one closing and cannot know of the other. Single
  use then needs that of each seal at most one outpoint is spent (`exclusive`). What the real
  protocol accepts as a closing is decided in `bp-core`, outside of /repo.
* C64. The assertions of `run` (src/verify.rs:470-500) take the operation with the first id in
  the order of bytes for the genesis, on both sides, and expect a record of seals and of
  witnesses for each entry, while `evaluate` makes none for an entry without. So they fail for
  honest consignments: if the ids are ordered otherwise, or if an operation has no outputs, as
  the one operation of the tests (449-468) has none. The two tests that reach them have at
  most one entry, and then they hold for any contents of the records (`C64_blind`).
* C65. "Require state transitions to have at least 1 input" (CHANGELOG.md:31) is not checked by
  `evaluate`: `C65_inputs_refuted` has an operation without inputs that is accepted, applied and
  spent. It can only be enforced by the codex. If it is, the gaps of C32, C35 and C43 are closed
  up to the genesis (`C65_closes_gaps`; `C65_known_needed` shows that a genesis with a seal at
  an output of its witness must still be excluded).
* C67. What was applied with a witness that is later dropped from the chain is never undone by
  `evaluate`, and `ContractApi` has no method to undo it. With a ledger that drops consumed cells
  such a party disagrees with all others for ever (`C67_reorg_refuted`); with one that keeps them
  both operations are applied (`C67_both_applied`). Callers have to start again from the genesis,
  or keep the state of each chain.
* C69. "idempotent contract validation?" (CHANGELOG.md:14): evaluating a consignment again applies
  no operation again (C25), but makes all its records again. The contract of the tests pushes a
  witness to a list at each record, so the list grows with each evaluation (`C69_whole_refuted`,
  and `C69_test_ledger`: exactly if some entry has a witness). Whether the whole contract is left
  as it was is up to `apply_witness` and `apply_seals` (`C69_exact`, `C69_whole_partial`).
* C72. Contracts are kept apart by the codex, not by `evaluate`: after the first entry `evaluate`
  does not look at contract ids (`C72_codex_needed`), and the first entry names the codex only,
  so it is accepted by every contract with that codex (`C72_case_other`). Operations already
  known are not looked at either (`C72_known_needed`).
* C73. Entries already known are not verified again, so cells they only read need not be in the
  consignment (`C73_fresh_needed`); the premise that the entries are new to the contract is needed.
* C74. If two consignments report different definitions for one output (C28), a party that accepted
  both keeps the later one, and what it has recorded is refused by others (`C74_chain_needed`).
* C77. A codex that bounds the amounts created by the amounts of the inputs is not enough for
  the supply to be bounded: the contract must drop consumed cells (the ledger of the test-suite does not,
  `C77_spending_needed`), and a double spend in one operation is refused by `evaluate` only
  (`C77_refused`: the codex counts an input named twice as two).
* C33. `codex()` and `repo()` are called once per verified operation (and `codex()` once
  more), which fits the documentation only if "operation verification" means the
  verification of one operation.
* C48. Parties agree only on consignments that deliver the operations whose immutable cells
  are named. `evaluate` does not check that: a consignment that omits such an operation is
  accepted by a party that has seen it before, and rejected by others
  (`C48_self_contained_needed`). Destructible cells have no such gap, since their seals must
  be revealed in the same consignment (C05).
* C48. For contracts that drop consumed cells, the verdict on an operation that spends a cell
  a second time depends on which spending a party has seen first (`C48_no_conflict_needed`):
  within `evaluate` nothing but the seals excludes double spends (C32). If the seals do, the
  parties agree (C53), though the error they report may differ (`C53_case_rejected`).

## What is not modelled

* The dependency crates, whose source is not in /repo. `Codex::verify`, `Operation::opid`,
  `SealWitness::verify_seals_closing`, `pub_id`, `commit_id` are universally quantified
  functions: theorems hold for every choice of them. A law about them that a theorem needs
  is a visible premise of that theorem.
* `Clone`, feature flags, WASM; the serde forms of the fields of `OperationSeals` and the text of
  formats such as JSON (the form of the struct is modelled, C68; the rules of `serde_derive` are
  taken from its documentation). `Display`/`Debug` of errors are modelled (C55); the rules of
  the derive macro are taken from the texts expected by the tests.
* Panics: the modelled code has no panicking path of its own (`copy_from_slice` is on
  slices of equal constant length). Panics inside dependencies are not modelled.
* Interior mutability of `&self` methods: these are functions of the contract state.
* Sizes: `u16` positions and `SmallOrdMap`/`SmallVec` bounds are dropped, except in the
  strict encoding, where they matter, and in `Ledger16.v`, where C59 shows when they do not. Byte array lengths are dropped, except for auth tokens.
* `Evaluate.v` has maps and sets without order. `Ordered.v` has the same procedure with
  sorted lists and comparison functions, and C50 proves that they agree. B-trees are not
  modelled, only the sorted sequence of their keys.
* An endless stream: the loop has fuel, and running out of it is a separate outcome. The
  theorem on readers (C18) covers endless readers.

## Trusted base

* Coq's kernel (and `coqchk`).
* `Print Assumptions` of each property theorem (they are printed in the build, under each
  theorem): the section "Assumptions" below.
* Faithfulness of the model to the code, by reading: each definition cites its lines.
* The semantics of Rust's `BTreeMap`/`BTreeSet`/`Vec`, taken as those of finite maps, sets
  and lists (for the first two: of sorted lists in `Ordered.v`, from which maps and sets are
  derived by C50).

## Properties: what is modelled, how it is proved

The central results are two: a closed form of one pass of the loop (`EvalFacts.v`) and
the refinement of `evaluate` to the declarative `outcome` of `Spec.v` (C17, C21), by
induction over the consignment with the invariant "the map of seals is exactly the
`live` relation of the history". Most others are corollaries or inductions on `valid_run`.

| Property | Plan |
|---|---|
| C01 codex commitment | from the refinement; both directions |
| C02 id substitution | effects and validity are stated with `seen`, which differs from the raw entry only for the first one |
| C03 first operation has no inputs | history of the first entry is empty, nothing is live |
| C04 reported seals committed | refinement, with the exact error payload |
| C05 provenance | the `live` relation; refinement |
| C06 no double consumption | from `live` at two indices |
| C07 at most once | C06 with distinct ids |
| C08 no replay | least repeated operation argument |
| C09 witness mandatory | refinement |
| C10 closing verified | refinement |
| C11 nothing unverified applied | each `CallApplyOperation` in the log is justified at its position |
| C12 known ones skipped | two contracts/codexes compared |
| C13 first is never applied | call log |
| C14 applied at most once over evaluations | invariant over sequences of evaluations, law: known set grows by applied operations |
| C15 exact effects | call log equals concatenation of `block_effects` |
| C16 failure atomicity | refinement |
| C17 first violated check | `evaluate` <-> `outcome`, and `outcome` deterministic |
| C18 reader protocol | every reader state machine vs. the list of entries it delivers |
| C19 prefixes | induction |
| C20 compositionality | induction |
| C21 declarative acceptance | refinement |
| C22 witness-relative without witness | `live` |
| C23 bound to own witness | `live` |
| C24 concealment | simulation between two runs; law: seal/witness records do not influence verification |
| C25 idempotence | simulation; laws on `is_known` |
| C26 crash recovery | simulation; laws on the view of the contract |
| C27 reordering | commutation of two steps on the seal map |
| C28 positional binding | false of the code: `_refuted` with a concrete consignment, and a `_partial` with what does hold |
| C29 wrong genesis rejected | false of the code: `_refuted`; `_partial` |
| C30 wrong genesis cannot inject state | invariant; laws on memory |
| C31 one seal, one operation | from C10 and the single-use law |
| C32 no double spend | false without positional binding (`_refuted`), proved with it as premise |
| C33 callback protocol | call log; the number of each query |
| C34 witness recorded only for state-consuming | false of the code: `_refuted`; exact condition proved |
| C35 seal determined by operation | false of the code for operations without inputs: `_refuted`; proved for the others |
| C36-C38 bitcoin seals | case analysis over all definitions |
| C39 auth tokens | little-endian numbers of 30 bytes |
| C40 strict encoding | round trip and canonicity for the derived codec |
| C41 test ledger | induction over runs |
| C42 determinism | simulation between two contracts |
| C43 one operation per cell within a consignment | false of the code: `_refuted`; `_partial` from C07 and C32 |
| C44 byte streams | the reader is characterised by what it delivers; lawful codecs |
| C45 parts of a consignment | induction over the part: each kept entry finds the seals and cells it found before |
| C46 knowing more | simulation between two runs, cells of known operations agree unless consumed |
| C47 any order | C46 repeated: what was evaluated before only adds knowledge |
| C48 consensus | two sessions hold the same cells of commonly known operations; an operation known to one party verifies for the other |
| C49 cells are outputs | invariant over sessions |
| C50 orders | the procedure on sorted lists (`Ordered.v`) simulates `evaluate`; invariant: the sorted list represents the map |
| C51 consumption spends | C10 with `reveals` unfolded for bitcoin definitions; law on `bp-core` as premise |
| C52 one outpoint | C51 and the chain |
| C53 consensus on a chain | each applied operation is in an accepted prefix of a consignment; C32 for all pairs of prefixes gives the premise of C48 |
| C54 merging | the entries of the first consignment find at least the seals they found before; an entry of the second finds its seals since no entry of the first consumes them (C32); the cells agree by C53 |
| C55 texts of errors | texts are decoded from left to right: fixed texts differ in the first two characters, ids end at a separator, token texts have a fixed length, no escape is a prefix of another (by computation over all characters) |
| C56 several protocols | the input which spends the outpoint is unique on the chain; its commitments for one protocol agree; witnesses (not transactions) are what is on the chain in `single_use`, so that the anchor can be restricted |
| C57 fallback outpoints | the closings of a seal spend outpoints of it; if these are equal, the chain gives one input and one message, otherwise they are the two outpoints; `single_use` is required only of seals which the entries denote (`denoted`), so that `exclusive` is too |
| C58 accounting and work | the map of seals kept by the loop tracks the live seals; each entry removes one binding for each input and adds at most one for each definition which denotes a seal, all new if ids are distinct; calls are counted for each kind of entry |
| C59 positions in 16 bits | below the bound `mod` is the identity, so that the two ledgers simulate each other (`sim_evaluate_all` with equality); beyond it, by computing the last insertion |
| C60 bytes bound the work and the seals | C44 splits the bytes into entries; length of the encoding of an entry from below; then C58 |
| C61 a transfer cannot be blocked | merging two continuations of the same history (C54) is appending them: definitions of the common entries are the same, new entries are kept in order |
| C62 parties which read bytes agree | the entries at the front of a string of bytes are unique (lawful encodings are prefix-free), so a run over bytes is a run over entries; then C53 |
| C63 a reader that checks | the guarded evaluation is the evaluation of the consignment cut at the first refused entry; what passes meets the premises of C28, C32, C34, C35, C43 and C53 |
| C64 assertions of the tests | the records of the ledger after a run with distinct ids, by induction; then each of the three comparisons of maps, key by key, with the first keys characterised by the order |
| C65 at least one input | one step of a run for an entry without inputs; by induction, what is known was known before or was verified; descent by well-founded induction on positions with C05; then C32 and C35 |
| C66 seals and state | induction over the run in both directions; the contract without records has the same view, by the laws on records |
| C67 re-organisations | operations with valid seals are accepted by the contract that knows everything (C66), so C32 holds for them; then C48. The exact condition: forward, the destroyed cell is missing in each later state; backward, C46 with a weaker premise |
| C68 serde form | loop over keys specified by the list of values of each key; everything else follows from that exact characterisation |
| C69 idempotent validation | the second evaluation is accepted and makes the same records (C25, C27); its effect is that of the records alone. With the law that the last of equal records counts, dropping repetitions one by one |
| C70 same records in any order | the records of all consignments as a fold over one list; folds of commuting, idempotent steps depend on the set of elements only. Definitions commute if they agree, which they do on one chain (positions and collisions of C53) |
| C71 what has to be disclosed | the check of the state depends on the operations only (C66), so only `sealed` matters; entry by entry, a live seal of the reduced history is a live seal of the full one whose definition (and witness, if it needs one) was kept. Needs operations that do not repeat (`C71_ids_needed`) |
| C72 contracts are separate | invariant along valid runs: everything known, and everything in the history, carries the id of the contract; consumed cells belong to the history |
| C73 which operations have to be included | necessary: cells named by a verified operation exist, and cells of unknown operations do not (invariant `intact`); sufficient: C45; the least part is the closure `required`, an inductive definition on names of cells only |
| C74 passing on what was received | the merge of all consignments (C54) is accepted and leads to the same state; the consignment made of the records reduces it and is reduced by its least part (C71); other selections and orders by C73; the state by C49 |
| C75 the least consignment for given operations | C73 and C71 together; an accepted reduced consignment has its entries in order (same invariant as C73), so that the unreduced part is accepted too; `least` is monotone in the kept entries |
| C76 consignments which are passed on and on | induction on how a consignment came into circulation: its entries are made of entries of the issued ones (witnesses may be left out), so all that circulates is on one chain; acceptance by C74, evaluation of many by C53, the state by what was applied in a session |
| C77 no inflation | a log invariant: each applied operation was verified against the cells held when it is applied, and names each input once (C06); so the sum over the cells falls by at least what the operation creates; with equality if its own cells were not held before |
| C78 no inflation among all parties | counting: the cells of all parties together are those of the start and the outputs of all applied operations (ids do not collide); the inputs of all applied operations are pairwise distinct (C06 in one operation, C53 between operations), and each operation creates no more than its inputs hold, since what a party held when it applied the operation is among these cells |
| C79 a token has one owner | C78 with the amount that is one for a cell carrying the token and zero for any other: two open cells with the token would hold two, but at the start there is at most one |
| C80 nothing is lost among all parties | as C78 with equalities: the cells of the start and the outputs of the applied operations are at different addresses (an applied operation is not known at the start, C14); what a party held at the inputs when it applied an operation is all there is at these addresses, as the codex demands that the inputs are held |
| C81 what is received is safe until its outpoint is spent | the operation consuming the cell is in a part accepted by some party, hence an on-chain witness closes the seal live there over it (C32's `consumption`); this seal is the one received, as all accepted parts agree on seals (C35); `closing_spends` turns closing into spending |
| C82 careful parties need not trust consignments | a session through the checking reader is a session on the parts before the first refused entries (`evaluate_guarded_by_cut`); all entries of these parts have passed the checks, which gives the premises of C78, C80 and C81 on positions, witnesses and the chain |
| C83 a payment valid for the payer is valid for everyone | one more entry is accepted by the payer iff it is valid in the state reached (`evaluate_ok_iff`, `valid_run_snoc`); consensus on a chain (C53) carries the acceptance over to the payee |
| C84 careful parties agree | the premises of C53 on positions, witnesses and the chain hold for the parts of the consignments before the first refused entries, as in C82; an accepted consignment has passed the checks of one party, and so those of the other, since these differ only in what is found on the chain |
| C85 only immutable cells can be missing | induction on the valid run: the seal of an input is live, so an earlier entry reveals it, whose operation is the one that created the cell |
| C86 what a payer has to check | C84 carries acceptance between payer and payee, the premise that the consignment is self-contained comes from C85; acceptance of one entry more by the payer is one step of the valid run, as in C83 |

## Assumptions

The build prints `Print Assumptions` for each theorem `C.._...` of `Properties*.v`. For each
of them the answer is "Closed under the global context": no axioms at all.

The gate's list of axioms in scope contains seven entries
`Coq.ssr.ssrunder.Under_rel.*`. They are parameters of a module type of Coq's own
ssreflect library (`Coq.ssr.ssrunder`), loaded by std++; no theorem here depends on them.
