{"id": "C01", "title": "Genesis commits to the codex", "statement": "If `evaluate` is given a consignment whose first operation's contract id bytes differ from the bytes of the codex id of the contract, it returns `NoCodexCommitment`, applies nothing to the contract, and reads nothing further. Conversely any accepted non-empty consignment starts with an operation whose contract id bytes are the codex id.", "quantifier": "every contract, codex, consignment and reader", "why_tests_cant": "tests try one wrong codex id and one right one", "anchors": ["src/verify.rs: ContractVerify::evaluate (lines 152-169)", "VerificationError::NoCodexCommitment"]}
{"id": "C02", "title": "Contract id substitution is confined to the first operation", "statement": "The first operation of a consignment is identified, checked and recorded under the operation id it has after its contract id is replaced by the id of the contract; every later operation is identified, checked and recorded exactly as read from the stream.", "quantifier": "every consignment and every position in it", "why_tests_cant": "needs all operations and positions; the unit tests use at most two operations", "anchors": ["src/verify.rs: ContractVerify::evaluate (lines 162-170)"]}
{"id": "C03", "title": "The first operation cannot consume state", "statement": "A consignment whose first operation (with the right codex commitment and acceptable seal definitions) has any destructible input is rejected with `SealUnknown` of its first input, and no effect reaches the contract.", "quantifier": "every first operation, whatever its inputs, witness and contract", "why_tests_cant": "no test feeds a genesis with inputs", "anchors": ["src/verify.rs: ContractVerify::evaluate (lines 155-156, 195-202)"]}
{"id": "C04", "title": "Reported seals are committed by the operation", "statement": "For every accepted operation each seal definition reported next to it has an auth token found among the auth tokens of that operation's destructible outputs. If some reported definition fails this, `evaluate` returns `SealsDefinitionMismatch` carrying the operation id, the exact set of reported tokens, the exact set of committed tokens and the position-to-text map of the reported definitions, and the operation has no effect.", "quantifier": "every operation, every map of reported definitions", "why_tests_cant": "the set of token multisets, sizes and overlaps is unbounded; tests use one entry", "anchors": ["src/verify.rs: ContractVerify::evaluate (lines 172-193)", "OperationSeals::defined_seals", "VerificationError::SealsDefinitionMismatch"]}
{"id": "C05", "title": "Seal provenance", "statement": "Whenever an accepted operation consumes a cell, the single-use seal that is checked for it is the one most recently revealed, earlier in the same consignment, by an operation with the id in the cell address, at the position in the cell address, and not consumed in between. A cell with no such seal makes the operation fail with `SealUnknown` of the first such input.", "quantifier": "every consignment, every history of revealing and consuming", "why_tests_cant": "depends on arbitrary histories of definitions, spends and re-definitions", "anchors": ["src/verify.rs: ContractVerify::evaluate (lines 156, 195-202, 219-223, 233-238, 245)"]}
{"id": "C06", "title": "No double consumption without re-definition", "statement": "Between two consumptions of one cell address in an accepted consignment there is always an operation which reveals a seal for that address again; in particular one operation never consumes the same cell twice.", "quantifier": "every pair of positions in every accepted consignment", "why_tests_cant": "a global property of arbitrary long histories", "anchors": ["src/verify.rs: ContractVerify::evaluate (lines 197-202)"]}
{"id": "C07", "title": "Each cell is consumed at most once", "statement": "In an accepted consignment in which no operation id repeats, each cell address is consumed by at most one input of at most one operation.", "quantifier": "every accepted consignment without repeated operation ids", "why_tests_cant": "quantifies over all pairs of inputs in all consignments", "anchors": ["src/verify.rs: ContractVerify::evaluate (lines 197-202, 245)"]}
{"id": "C08", "title": "Operations with inputs cannot be replayed within a consignment", "statement": "If the first operation's id does not occur again and every other operation has at least one destructible input, then in an accepted consignment all operation ids are distinct (assuming operations with equal ids have equal inputs).", "quantifier": "every accepted consignment", "why_tests_cant": "needs an argument over the whole history, by the least repeated operation", "anchors": ["src/verify.rs: ContractVerify::evaluate (lines 197-202, 219-245)"]}
{"id": "C09", "title": "A witness is mandatory for every state-consuming operation", "statement": "No operation with a destructible input is accepted without a seal witness, whether or not the contract already knows it; the attempt returns `NoWitness` with its operation id and has no effect.", "quantifier": "every operation, known or not, in every history", "why_tests_cant": "tests check one unknown operation", "anchors": ["src/verify.rs: ContractVerify::evaluate (lines 225, 241-243)", "VerificationError::NoWitness"]}
{"id": "C10", "title": "Seal closing is verified over exactly the consumed seals and the operation id", "statement": "For every accepted operation with a witness, known or not, the witness has been verified to close the seals of the operation's inputs - all of them, in input order, and nothing else - over the 32 bytes of the operation id. If verification fails, `SealsNotClosed` is returned with the witness id, the operation id and the underlying error, and the operation has no effect.", "quantifier": "every operation, every number of inputs, every witness", "why_tests_cant": "any number of inputs and any seal protocol", "anchors": ["src/verify.rs: ContractVerify::evaluate (lines 225-229)", "VerificationError::SealsNotClosed"]}
{"id": "C11", "title": "Nothing unverified is applied", "statement": "Every operation handed to the contract for application has just been verified successfully by the contract's codex, for the contract's id, against the memory and the library repository the contract had at that moment; if verification fails, the script error is returned and the operation has no effect.", "quantifier": "every consignment, contract, codex and point of the history", "why_tests_cant": "has to hold at every step of every history", "anchors": ["src/verify.rs: ContractVerify::evaluate (lines 204-214, 246-250)", "ContractApi::apply_operation", "VerificationError::Vm"]}
{"id": "C12", "title": "Known operations are not re-verified and not re-applied", "statement": "An operation which the contract reports as known is neither verified by the codex nor applied, and whether it is accepted does not depend on the codex verifier, the memory or the repository at all.", "quantifier": "every operation known at the moment it is reached", "why_tests_cant": "requires comparing runs under all codexes and memories", "anchors": ["src/verify.rs: ContractVerify::evaluate (lines 204-214)", "ContractApi::is_known"]}
{"id": "C13", "title": "The first operation is never applied as an operation", "statement": "The first operation of a consignment is never handed to the contract for application, known or not, although its seals and its witness (if any) are.", "quantifier": "every consignment", "why_tests_cant": "tests use a contract that already knows genesis", "anchors": ["src/verify.rs: ContractVerify::evaluate (lines 246-250)", "ContractApi::apply_operation"]}
{"id": "C14", "title": "At most one application per operation id, over any number of evaluations", "statement": "For a contract whose known set grows exactly by applied operations, across any sequence of evaluations - succeeding or failing - each operation id is applied at most once, and never if it was known at the start.", "quantifier": "every finite sequence of consignments evaluated against one contract", "why_tests_cant": "arbitrary histories of evaluations", "anchors": ["src/verify.rs: ContractVerify::evaluate", "ContractApi::is_known", "ContractApi::apply_operation"]}
{"id": "C15", "title": "Exact effects of an evaluation", "statement": "The calls that change the contract are, in order, for each accepted operation: the witness if one is present, then the operation if it is not the first and was not known, then the seal definitions if there is at least one; with exactly the data of the consignment and under the operation's id; and nothing else.", "quantifier": "every consignment, accepted or not", "why_tests_cant": "exact sequences for every consignment shape", "anchors": ["src/verify.rs: ContractVerify::evaluate (lines 240, 246-254)", "ContractApi::apply_witness", "ContractApi::apply_seals", "ContractApi::apply_operation"]}
{"id": "C16", "title": "A failing evaluation leaves the contract as after its accepted prefix", "statement": "If `evaluate` returns an error, there is a longest accepted prefix of the delivered operations, and the contract is exactly in the state in which evaluating just this prefix (which returns success) leaves it: the failing operation has no partial effect.", "quantifier": "every consignment and every error", "why_tests_cant": "every failing point of every history", "anchors": ["src/verify.rs: ContractVerify::evaluate"]}
{"id": "C17", "title": "The error reported is the first violated check of the first bad operation", "statement": "The result is determined as follows: the first operation violating a check decides the outcome, and the error is that of the first check it violates in the order: codex commitment (first operation only), reported seals, known seals for inputs in input order, codex verification (if not known), witness closing or missing witness. A stream error or end of stream decides only if no delivered operation violates a check.", "quantifier": "every consignment", "why_tests_cant": "combinations of simultaneous violations are unbounded", "anchors": ["src/verify.rs: ContractVerify::evaluate", "VerificationError"]}
{"id": "C18", "title": "Reader protocol", "statement": "`evaluate` reads operations one by one, makes no further read after an error or the end of the stream, processes each operation completely before reading the next one, and its result on any reader is a function of the operations that reader delivers: reading n operations takes exactly n reads plus one if the end or a stream error is reached. A stream error is returned as `Stream` with all previously delivered operations applied.", "quantifier": "every stateful reader, including endless ones", "why_tests_cant": "readers are arbitrary state machines", "anchors": ["src/verify.rs: ContractVerify::evaluate (lines 158-161)", "ReadOperation::read_operation", "VerificationError::Stream"]}
{"id": "C19", "title": "Prefixes of valid consignments are valid", "statement": "Every prefix of an accepted consignment is accepted, and its calls on the contract are a prefix of those of the whole consignment.", "quantifier": "every accepted consignment and cut point", "why_tests_cant": "all cut points of all consignments", "anchors": ["src/verify.rs: ContractVerify::evaluate"]}
{"id": "C20", "title": "Compositionality", "statement": "Evaluating a non-empty consignment followed by more operations is the same as evaluating the first part and then continuing with the second from the contract and seals reached.", "quantifier": "every split of every consignment", "why_tests_cant": "all splits of all consignments", "anchors": ["src/verify.rs: ContractVerify::evaluate"]}
{"id": "C21", "title": "Acceptance is equivalent to a declarative validity notion", "statement": "`evaluate` returns success with resulting contract C exactly if every operation satisfies the declarative validity conditions - codex commitment for the first, reported tokens committed, inputs pairwise distinct and each with a live seal in the history so far, witness closing those seals or no inputs, codex verification unless known - relative to the contract state produced by its predecessors, and C is the result of their effects.", "quantifier": "every contract and consignment", "why_tests_cant": "an if-and-only-if over all inputs", "anchors": ["src/verify.rs: ContractVerify::evaluate"]}
{"id": "C22", "title": "Witness-relative seals without a witness stay unspendable", "statement": "A cell whose reported definition needs a witness id, defined by an operation that comes without a witness, cannot be consumed by a later operation in the consignment unless some other entry with the same operation id reveals a seal for it.", "quantifier": "every consignment and position", "why_tests_cant": "one genesis case is tested", "anchors": ["src/verify.rs: ContractVerify::evaluate (lines 219-238)", "RgbSealDef::to_src"]}
{"id": "C23", "title": "Witness-relative seals are bound to the witness of their own operation", "statement": "The seal of a consumed cell is the definition's own complete seal if it has one, whatever the witness; otherwise it is the definition resolved with the published id of the witness of the very operation that defines the cell - never another operation's witness.", "quantifier": "every consignment, cell and witness", "why_tests_cant": "all histories with all witnesses", "anchors": ["src/verify.rs: ContractVerify::evaluate (lines 219-238)", "RgbSealDef::resolve", "RgbSealDef::to_src"]}
{"id": "C24", "title": "Concealed seals", "statement": "Removing from an accepted consignment without repeated operation ids any reported seal definitions of cells which are not consumed later in it leaves it accepted, with the same operations applied in the same order and the same witnesses (for contracts whose seal and witness records do not influence verification).", "quantifier": "every accepted consignment and every choice of concealed definitions", "why_tests_cant": "every subset of definitions of every consignment", "anchors": ["src/verify.rs: ContractVerify::evaluate (lines 184-186)"]}
{"id": "C25", "title": "Re-evaluation is idempotent on operations", "statement": "Evaluating an accepted consignment again on the resulting contract succeeds and applies no operation (for contracts that remember applied operations and know the genesis).", "quantifier": "every accepted consignment and lawful contract", "why_tests_cant": "every consignment", "anchors": ["src/verify.rs: ContractVerify::evaluate (lines 204-214)", "ContractApi::is_known"]}
{"id": "C26", "title": "Crash recovery", "statement": "If an accepted evaluation is interrupted between any two contract calls, evaluating the same consignment from the start on the contract as left by the interruption succeeds, and in total each operation is applied exactly as in the uninterrupted run (for contracts whose verification-relevant view is determined by applied operations).", "quantifier": "every accepted consignment and every interruption point", "why_tests_cant": "every crash point of every history", "anchors": ["src/verify.rs: ContractVerify::evaluate", "ContractApi"]}
{"id": "C27", "title": "Independent operations may be delivered in any order", "statement": "Swapping two adjacent operations (not the first) that do not share operation ids, consume no common cell and do not consume each other's outputs does not change acceptance or the seals known afterwards, if both are already known to the contract.", "quantifier": "every consignment, every adjacent independent pair", "why_tests_cant": "all orders of all consignments", "anchors": ["src/verify.rs: ContractVerify::evaluate"]}
{"id": "C28", "title": "Positional binding of seals to cells", "statement": "A cell can be consumed only by closing a seal whose definition has the auth token stored in that very cell (the operation output at the position in the cell address).", "quantifier": "every accepted consignment and consumed cell", "why_tests_cant": "an adversarial consignment is needed to violate it; tests have a single output", "anchors": ["src/verify.rs: ContractVerify::evaluate (lines 172-193, 219-223)"]}
{"id": "C29", "title": "A wrong genesis is rejected", "statement": "A consignment whose first operation is not the genesis of the contract is rejected.", "quantifier": "every contract and consignment", "why_tests_cant": "any other operation with the right codex id is a candidate", "anchors": ["src/verify.rs: ContractVerify::evaluate (lines 162-170)", "VerificationError::NoCodexCommitment"]}
{"id": "C30", "title": "A wrong genesis cannot inject state", "statement": "If verification of an operation requires each destructible input to be present in the contract's memory and memory holds only cells of known operations, then no operation consuming an output of a first operation unknown to the contract is ever applied by the evaluation, unless that very operation is delivered again later in the consignment and so itself verified and applied.", "quantifier": "every contract, consignment and history", "why_tests_cant": "adversarial first operations", "anchors": ["src/verify.rs: ContractVerify::evaluate (lines 204-214, 246-250)"]}
{"id": "C31", "title": "One seal, one operation", "statement": "Under the single-use seal assumption (no seal is verified as closed over two messages), two operations accepted in any two evaluations - of different consignments, contracts or verifiers - that consume cells protected by one seal have the same operation id.", "quantifier": "every two evaluations and two accepted operations", "why_tests_cant": "an inter-verifier property", "anchors": ["src/verify.rs: ContractVerify::evaluate (lines 225-229)"]}
{"id": "C32", "title": "No double spend of a cell across verifiers", "statement": "Under the single-use seal assumption and absence of hash collisions among the operations and definitions involved, a cell consumed by accepted operations in two evaluations for one contract id is consumed by the same operation in both.", "quantifier": "every two evaluations of any consignments", "why_tests_cant": "an inter-verifier property over all histories", "anchors": ["src/verify.rs: ContractVerify::evaluate", "src/seals.rs: RgbSealDef"]}
{"id": "C33", "title": "Documented callback protocol", "statement": "During one evaluation the contract id is queried once, the codex once plus once per verified operation, memory and repository once per verified operation, `is_known` once per operation which passes the seal checks, and the witness of an operation is always applied before the operation itself.", "quantifier": "every evaluation", "why_tests_cant": "call sequences on every consignment", "anchors": ["src/verify.rs: ContractApi (doc comments, lines 88-138)", "src/verify.rs: ContractVerify::evaluate"]}
{"id": "C34", "title": "Witness recorded only for state-consuming operations", "statement": "`apply_witness` is never called for genesis or for operations with no destroyed state (as its documentation says).", "quantifier": "every evaluation", "why_tests_cant": "tests never attach a witness to genesis", "anchors": ["src/verify.rs: ContractApi::apply_witness (lines 133-137)", "src/verify.rs: ContractVerify::evaluate (lines 225-240)"]}
{"id": "C35", "title": "A cell's seal is determined by its operation", "statement": "Two accepted consignments never assign two different seals to the same cell of the same operation.", "quantifier": "every two accepted consignments", "why_tests_cant": "adversarial witnesses", "anchors": ["src/verify.rs: ContractVerify::evaluate (lines 231-238)"]}
{"id": "C36", "title": "Bitcoin: complete definitions resolve to themselves", "statement": "For bitcoin seals, whenever a definition converts to a complete seal without a witness, resolving it with any witness id gives that same seal; and a definition converts without a witness exactly if its primary outpoint is external.", "quantifier": "every definition and txid", "why_tests_cant": "all outpoints, txids and secondary seals", "anchors": ["src/seals.rs: bitcoin (lines 97-128)"]}
{"id": "C37", "title": "Bitcoin: witness-output definitions resolve into the witness transaction", "statement": "Resolving a witness-output definition with a txid gives a seal whose primary outpoint is that output of that transaction and whose secondary part is unchanged; different txids, outputs or secondary parts give different seals.", "quantifier": "every output index, secondary seal and txid", "why_tests_cant": "one literal is tested", "anchors": ["src/seals.rs: bitcoin (lines 110-119)"]}
{"id": "C38", "title": "Bitcoin: when two definitions denote the same seal", "statement": "Two definitions resolve to the same seal under a witness id exactly if they have the same secondary part and the same primary, or one is the witness output n and the other the external outpoint (txid, n) of that very witness.", "quantifier": "every two definitions and txid", "why_tests_cant": "all pairs", "anchors": ["src/seals.rs: bitcoin (lines 110-127)"]}
{"id": "C39", "title": "Auth tokens are 240-bit truncations of the seal commitment", "statement": "The auth token of a bitcoin seal definition depends only on the first 30 bytes of its 32-byte commitment id, two definitions have the same token exactly if these 30 bytes agree, and the token as a number is below 2^240, hence below the field order of the VM.", "quantifier": "every seal definition and every 32-byte commitment", "why_tests_cant": "2^256 commitments", "anchors": ["src/seals.rs: bitcoin::WTxoSeal::auth_token (lines 100-108)"]}
{"id": "C40", "title": "Consignment entries survive serialization", "statement": "Strict encoding of an operation with its seals is decoded back to the same value with the rest of the stream untouched, is prefix-free, and each decodable byte string is the encoding of the value it decodes to - provided that holds for the component types.", "quantifier": "every operation-with-seals value and every trailing data", "why_tests_cant": "all maps of all sizes", "anchors": ["src/verify.rs: OperationSeals (lines 43-62)"]}
{"id": "C41", "title": "Test ledger: state after evaluation", "statement": "For the reference ledger of the test-suite, after any accepted evaluation the known operations are the initial ones plus all operations of the consignment except the first, each cell of memory is an initial one or an output of an applied operation, all reported seals and all witnesses are recorded under their operation ids.", "quantifier": "every accepted consignment on every ledger state", "why_tests_cant": "tests compare maps for two consignments", "anchors": ["src/verify.rs: test::TestContract (lines 342-383)", "src/verify.rs: test::run (lines 470-500)"]}
{"id": "C42", "title": "Determinism of verdicts between verifiers", "statement": "Two contracts which agree on id, codex, repository and memory, and on which operations are known, give the same result for the same consignment (including the error) and receive the same calls, whatever else their states hold.", "quantifier": "every two contracts and consignment", "why_tests_cant": "all pairs of states", "anchors": ["src/verify.rs: ContractVerify::evaluate"]}
{"id": "C43", "title": "Within one consignment a cell is spent by one operation", "statement": "In an accepted consignment, under the single-use seal assumption and absence of hash collisions, two entries which consume the same cell contain the same operation.", "quantifier": "every accepted consignment, including ones that deliver an operation more than once", "why_tests_cant": "adversarial repetitions of entries with different witnesses; no test repeats an operation", "anchors": ["src/verify.rs: ContractVerify::evaluate (lines 195-202, 219-245)"]}
{"id": "C44", "title": "A consignment stream of bytes is evaluated as its entries", "statement": "With a reader that strict-decodes entries one after the other, evaluating the encoding of a list of entries gives the result, state and calls of evaluating the list; a stream cut in the middle of an entry is evaluated as the whole entries before the cut followed by a stream error; and any bytes at all are evaluated, in finitely many steps, as some entries followed by the end or a stream error.", "quantifier": "every contract, list of entries, cut position and byte string", "why_tests_cant": "every byte string and cut position; tests read from a vector", "anchors": ["src/verify.rs: OperationSeals (lines 43-62)", "src/verify.rs: ReadOperation (lines 78-86)", "src/verify.rs: ContractVerify::evaluate (lines 158-161)"]}
{"id": "C45", "title": "Any part of a consignment with the cells it needs is valid", "statement": "Take an accepted consignment with distinct operation ids. Keep its first entry and any of the others, in any order in which each kept operation still comes after exactly those operations, whose cells it names, that it came after before. The result is accepted, each kept operation receives the same calls, and the state cells of the operations known afterwards are the same as after the whole consignment, except those consumed by an operation left out. This holds for contracts that keep consumed cells and for contracts that drop them.", "quantifier": "every accepted consignment, every selection and permutation of its entries respecting the dependencies", "why_tests_cant": "all sub-selections and permutations of arbitrary histories", "anchors": ["src/verify.rs: ContractVerify::evaluate (lines 158-245)"]}
{"id": "C46", "title": "Knowing more never turns acceptance into rejection", "statement": "A consignment accepted by a contract is also accepted by every contract which knows more operations, holds the same cells for the common ones, and has not dropped a cell consumed or read by an operation it does not know; the same witnesses and seals are recorded, and the second contract still knows more afterwards. In particular this holds after any session of evaluations that does not consume cells named in the consignment.", "quantifier": "every pair of contract states related by knowledge, every consignment", "why_tests_cant": "pairs of states with arbitrary additional knowledge; tests use one state", "anchors": ["src/verify.rs: ContractVerify::evaluate (lines 204-215), ContractApi::is_known"]}
{"id": "C47", "title": "Consignments may arrive in any order", "statement": "If each of several consignments is accepted by a contract on its own, no two different operations in them share an id, and (for contracts that drop consumed cells) no two different operations in them consume the same cell, they are all accepted when evaluated one after another in any order, and the known operations and state cells reached do not depend on the order.", "quantifier": "every list of consignments and every two permutations of it", "why_tests_cant": "all permutations of any number of consignments", "anchors": ["src/verify.rs: ContractVerify::evaluate, ContractApi (lines 92-138)"]}
{"id": "C48", "title": "Parties with different histories agree on a self-contained consignment", "statement": "Two parties start from the same contract and evaluate any consignments, including failed evaluations and ones interrupted at any call. A consignment in which every cell named by an operation belongs to an operation known at the start or delivered earlier in it gets the same verdict from both parties - acceptance or the identical error - and the same witness and seal records, provided no two different operations have the same id or (for contracts that drop consumed cells) consume the same cell.", "quantifier": "every two sessions (any number of evaluations, crash points), every self-contained consignment", "why_tests_cant": "all pairs of histories and crash points", "anchors": ["src/verify.rs: ContractVerify::evaluate (lines 204-215), ContractApi::is_known"]}
{"id": "C49", "title": "State cells are exactly the outputs of applied operations", "statement": "After any sequence of evaluations - accepted, failed, or interrupted at any call - the cells consumed and dropped by an applied operation are gone; apart from them the cells of operations known at the start are unchanged, the cells of each applied operation are exactly its outputs, no other cells exist, and the known operations are exactly those known at the start and the applied ones. For a contract dropping consumed cells the owned state is exactly the set of unspent outputs.", "quantifier": "every contract keeping cells, every session with failures and crash points", "why_tests_cant": "all sequences of evaluations and all crash points", "anchors": ["src/verify.rs: ContractVerify::evaluate (lines 248-256), TestContract (lines 342-383)"]}
{"id": "C50", "title": "The verdict does not depend on how seals are ordered", "statement": "The procedure on sorted collections (BTreeMap/BTreeSet searched with a comparison function) leaves the same contract, makes the same calls, leaves the reader in the same state and returns the same verdict for every total order of cell addresses and of auth tokens and for any comparison of seals whatsoever, even one that is not an order (a buggy Ord of a seal type).", "quantifier": "every comparison of seals, every total order of addresses and tokens, every contract, reader and number of steps", "why_tests_cant": "all implementations of Ord, all streams", "anchors": ["src/verify.rs: ContractVerify::evaluate (lines 156, 178-183, 195-202, 219-245)", "src/seals.rs: RgbSeal (line 68)"]}
{"id": "C51", "title": "Whoever consumes a cell spends the outpoint it was assigned to", "statement": "For bitcoin seals: if a successful check of a closing means that for each seal some input of the transaction spends its primary outpoint and commits to the message, then in every accepted consignment each operation consuming a cell comes with a transaction which spends, with an input committing to that operation, the outpoint which the last earlier entry revealing the cell assigned it to (for a witness-relative definition: an output of the transaction delivered in that same entry, which on a chain is an earlier transaction).", "quantifier": "every implementation of bp-core satisfying the law, every contract, consignment, entry and input", "why_tests_cant": "all consignments and all chains of transactions", "anchors": ["src/seals.rs: bitcoin (lines 83-128)", "src/verify.rs: ContractVerify::evaluate (lines 195-245)"]}
{"id": "C52", "title": "One outpoint, one operation", "statement": "For bitcoin seals on a chain in which no outpoint is spent twice: all cells consumed in any two accepted consignments, by any two verifiers, while assigned to the same outpoint, are consumed by the same operation with the same transaction, even if the noise or fallback in their seals differs. No assumption on the reported definitions or the genesis is needed. The premises of C32 on seals follow from the chain.", "quantifier": "every two contracts, consignments, entries and cells", "why_tests_cant": "all pairs of consignments and verifiers", "anchors": ["src/seals.rs: bitcoin (lines 83-128)", "src/verify.rs: ContractVerify::evaluate (lines 195-245)"]}
{"id": "C53", "title": "Consensus on a chain", "statement": "Two parties start from the same contract and evaluate whatever consignments they receive, with failures and crashes. If seals are single-use, witnesses are on chain, ids and tokens do not collide, definitions are reported at the positions of their cells and operations without inputs define complete seals or come without a witness, then both accept the same consignments among those which deliver the operations they need, make the same records, and accept the same entries of a rejected one, even if the contract drops consumed cells: nothing either has applied conflicts with what the other accepts. Consignments each of which is accepted can be evaluated in any order with the same state. For bitcoin seals the facts about seals follow from the chain.", "quantifier": "every contract keeping cells, every two sessions, every consignment and prefix of it", "why_tests_cant": "all pairs of histories of evaluations, with crashes at any call", "anchors": ["src/verify.rs: ContractVerify::evaluate (lines 151-258)", "src/verify.rs: ContractApi (lines 92-146)"]}
{"id": "C54", "title": "Merging consignments", "statement": "Two consignments for one contract, each accepted by it, which start with the same operation and have no operation twice, can be merged: the entries of the first with the definitions which only the second reveals for the same operations, then the entries of the second whose operations are new. On a chain (premises of C53) the merge is accepted, and the state is the one after evaluating first one, then the other. Any number of consignments can be merged, and the order does not matter for the state.", "quantifier": "every contract keeping cells, every two (or list of) accepted consignments", "why_tests_cant": "all pairs of consignments with all ways to overlap", "anchors": ["src/verify.rs: ContractVerify::evaluate (lines 151-258)", "src/verify.rs: OperationSeals (lines 45-66)"]}
{"id": "C55", "title": "Texts of errors determine the errors", "statement": "The Display (and Debug) text of a VerificationError other than Vm determines its variant, whatever the texts of ids and nested errors are. If ids and nested errors can be told from their texts and ids contain no separators, the text determines the whole error, including the sets of tokens and the map of sources. A user who sees the text of an error returned by evaluate therefore knows an entry and the check it failed: the operation named has inputs and no witness; the witness named does not close its seals; the cell named is consumed without a live seal or twice; the operation named has a reported definition whose token is not among its assignments; the first entry does not commit to the codex; the stream ended with the error printed in the details.", "quantifier": "every two errors; every evaluation", "why_tests_cant": "all pairs of errors, with any sets and strings inside, including strings with quotes and line breaks", "anchors": ["src/verify.rs: VerificationError (lines 263-306)", "src/verify.rs: impl Debug for VerificationError (lines 309-311)"]}
{"id": "C56", "title": "Commitments for several protocols", "statement": "Let an input of a bitcoin transaction commit to one message for each protocol, the anchor telling the protocol. Then all cells of a contract which are consumed while assigned to one outpoint are consumed by one operation, in one consignment or in several. (False: evaluate passes the seals and the operation id, and nothing about the contract, so two anchors of one transaction may serve two operations of the contract. What holds: one transaction spends the outpoint, and anchors telling the same protocol serve one operation; if all anchors tell one protocol, seals are single-use.)", "quantifier": "every two contracts and consignments with witnesses on a chain; every choice of protocols", "why_tests_cant": "needs pairs of accepted histories and every commitment scheme; each test evaluates one consignment with one anchor per transaction", "anchors": ["src/verify.rs: ContractVerify::evaluate (lines 225-229)", "src/seals.rs: bitcoin (lines 83-128)"]}
{"id": "C57", "title": "Seals with a fallback outpoint", "statement": "Let a closing of a bitcoin seal spend its primary outpoint or its fallback outpoint. On a chain on which no outpoint is spent twice, all cells consumed while assigned to one seal are consumed by one operation. (False: one operation may use the primary outpoint and another the fallback. What holds: if the operations differ, different outpoints of the seal are spent for them; seals without fallback are consumed by one operation; a consumption spends an outpoint which an entry of the history names for the cell; if of each seal denoted by the entries at most one outpoint is spent, the seals are single-use and parties reach consensus.)", "quantifier": "every two contracts and consignments with witnesses on a chain", "why_tests_cant": "needs pairs of accepted histories on one chain; the tests of src/seals.rs use fallback outpoints only to compute a token and to resolve a seal", "anchors": ["src/seals.rs: resolve, to_src (lines 109-127)", "src/verify.rs: ContractVerify::evaluate (lines 195-238)"]}
{"id": "C58", "title": "Seal accounting and bounded work", "statement": "In an accepted consignment, the number of consumed cells plus the number of seals live at the end is at most the number of seal definitions which denote a seal, and that is at most the number of definitions reported; it is equal to the number of those which denote a seal if no operation is delivered twice. Whatever is delivered and however the evaluation ends, the verifier makes at most two calls before the loop, eight for each accepted entry (reading included), five for a rejected one, and one read for the end of the stream; so a run over n entries makes at most 3 + 8n calls.", "quantifier": "every contract, every consignment (accepted, rejected or broken off), every interface", "why_tests_cant": "sums over histories of any length, and a bound on the work for hostile consignments; the tests have one or two entries", "anchors": ["src/verify.rs: ContractVerify::evaluate (lines 151-258), seals (lines 156, 196-202, 219-245)"]}
{"id": "C59", "title": "Positions in 16 bits", "statement": "As long as no operation has more than 65536 immutable or destructible outputs, evaluating on the reference ledger with the conversion `no as u16` gives the same contract, calls and result as without it. The bound is exact: with 65537 outputs of a kind the last cell takes the place of the first and its own address has no cell.", "quantifier": "every seal protocol, virtual machine, ledger state and consignment", "why_tests_cant": "the conversion is only visible with more than 65536 outputs; the tests have one", "anchors": ["src/verify.rs: TestContract::apply_operation (lines 365-376)"]}
{"id": "C60", "title": "The length of the stream bounds the work and the seals", "statement": "If the encoding of an operation takes at least m bytes and that of a seal definition at least d bytes, then evaluating any string of bytes whatsoever comes to an end, with fewer than eight calls for each read, and each read but the last is paid for by at least m + 3 bytes. If the bytes are accepted, their number is at least m + 3 for each entry plus d + 2 for each consumed cell and each seal live at the end.", "quantifier": "every contract and interface, every string of bytes, every lawful encoding of the four leaf types, every m and d", "why_tests_cant": "a bound for all strings of bytes, in particular hostile ones; the tests do not read bytes", "anchors": ["src/verify.rs: OperationSeals (lines 43-62), ReadOperation (lines 78-86), ContractVerify::evaluate (lines 151-258)"]}
{"id": "C61", "title": "A transfer cannot be blocked", "statement": "Let a history pre be continued in two ways, by mid and by post, each of them accepted and with no operation in common. On a chain (seals single-use, witnesses mined, ids without collisions, definitions at their positions) pre followed by mid and post is accepted, so is pre followed by post and mid, and both leave the same cells and know exactly the operations of either. So only a double spend on the chain can make a valid transfer invalid.", "quantifier": "every protocol, virtual machine and contract that keeps cells, every pre (not empty), mid and post", "why_tests_cant": "speaks of all pairs of continuations of all histories; the tests have one chain of entries", "anchors": ["src/verify.rs: ContractVerify::evaluate (lines 151-258)"]}
{"id": "C62", "title": "Parties which read bytes agree", "statement": "Every string of bytes has exactly one list of entries at its front. Two parties which start from the same contract and read any strings of bytes, each to the end, to an error, or to a crash in the middle, then agree on whether to accept a further string of bytes, if the entries in all of these are on one chain and the further one brings the operations it needs; and a string of bytes which is accepted is the encoding of its entries and nothing else.", "quantifier": "every protocol, virtual machine and contract that keeps cells, every two sequences of strings of bytes, every crash, every further string of bytes, every lawful encoding of the four leaf types", "why_tests_cant": "compares all pairs of runs over all strings of bytes; the tests neither read bytes nor have two parties", "anchors": ["src/verify.rs: OperationSeals (lines 43-62), ReadOperation (lines 78-86), ContractVerify::evaluate (lines 151-258)"]}
{"id": "C63", "title": "Three checks by the reader make the false claims true", "statement": "Let a reader wrap another one and end the stream with an error at the first entry that reports a definition for an output without its token, or that has a witness but no inputs, or that comes first and is not the known genesis. Then evaluate accepts through it exactly what it accepts otherwise and is in order in these three respects, with the same calls and the same contract; a refused entry leaves the contract as the accepted entries before it. C28, C29, C32, C34, C35 and C43 hold without restriction for what is accepted, and parties with such readers agree as in C53 with no premise on what consignments report.", "quantifier": "every wrapped reader, contract, protocol and virtual machine; every consignment; every two parties with such readers", "why_tests_cant": "the claims quantify over all consignments, pairs of verifiers and sessions; no test has a reader that refuses entries", "anchors": ["src/verify.rs: ReadOperation (lines 78-86), ContractApi::is_known (lines 113-117), ContractApi::apply_witness (lines 132-136), ContractVerify::evaluate (lines 148-258)"]}
{"id": "C64", "title": "What the assertions of the tests check", "statement": "Let a contract have records of the genesis only, and let a consignment start with this genesis and deliver each operation once, none under the id which the genesis has as delivered (with the codex id in place of the contract id). Then `run`, the common part of the tests, passes iff the consignment is accepted, both ids of the genesis are before the ids of all other operations in the order of bytes, and each later entry reports seals and has a witness. Hence honest consignments fail it. For at most one entry the assertions hold iff the contract has one known operation, one record of seals and one of witnesses, whatever these are. For more entries, of which the first has the first id as delivered, they determine all records except those under the first key of each map - for any contract, so for any implementation of evaluate.", "quantifier": "every contract, seal protocol and virtual machine; every consignment; for the last two parts every final state, however produced", "why_tests_cant": "it is about what the tests themselves can detect; the only tests which reach the assertions have at most one entry, for which they are nearly vacuous", "anchors": ["src/verify.rs: test::run (lines 470-500), test::contract (lines 431-447), test::operation (lines 449-468), ContractVerify::evaluate (lines 246-254)"]}
{"id": "C65", "title": "State transitions have at least one input", "statement": "The change log announces: \"Require state transitions to have at least 1 input\". Claim: in an accepted consignment each operation after the first has an input. What evaluate does: an operation without inputs that is not known is accepted just if the codex accepts it, its reported seals are committed, and its witness, if there is one, closes no seals. Each entry comes, over consumed cells, from an entry without inputs. If the codex refuses operations without inputs, then each operation which was not known before the evaluation has inputs and comes from one that was known, and no cell is consumed by two operations and no cell has two seals (C32, C35, C43), with a premise on operations without inputs only for those known before.", "quantifier": "every contract, seal protocol, virtual machine and consignment; every two verifiers", "why_tests_cant": "no test has an operation without inputs after the genesis; the claim is about all consignments and all codices", "anchors": ["CHANGELOG.md:31", "src/verify.rs: ContractVerify::evaluate (lines 196-213, 226-243)"]}
{"id": "C66", "title": "Seals and state are validated independently", "statement": "A consignment is accepted iff its seals are valid - the first entry carries the codex id, reported tokens are committed, live seals of the inputs are closed - for which no contract matters beyond its id and codex id, and its operations are valid - each known, or accepted by the codex in the state left by those before - for which no seals matter. The contract then looks as if only the operations had been run. The first check is an evaluation on a contract which knows everything. So operations accepted by one party with some seals, and by another party, with whatever contract, with other seals (witnesses replaced, other definitions revealed) are accepted by the first with those other seals, with the same operations applied and the same state.", "quantifier": "every contract whose records of seals and witnesses do not influence its answers, every other contract, seal protocol, virtual machine and pair of consignments", "why_tests_cant": "relates the verdicts of different contracts on different consignments; each test has one contract and one consignment", "anchors": ["src/verify.rs: ContractVerify::evaluate (lines 151-258), ContractApi (lines 92-138)"]}
{"id": "C67", "title": "Re-organisations of the chain", "statement": "Claim: a party which has evaluated consignments anchored in one chain accepts, when the chain is replaced by another one, whatever a party accepts that has not seen the first chain. False: evaluate has no way to undo apply_operation, so a ledger dropping consumed cells rejects the operation that took the place of the abandoned one for ever, and a ledger keeping them applies both. What holds: parties agree on consignments of the present chain, and make the same records, whatever chains they have seen, if each operation they have applied is in some consignment with valid seals on the present chain, which they need not have seen. And exactly: after a session, a consignment that was acceptable before it is accepted if and only if each entry naming a cell destroyed in the session is known.", "quantifier": "every contract that keeps cells, every seal protocol and virtual machine, all sessions with failures and crashes, all pairs of chains and all consignments", "why_tests_cant": "relates two chains, two parties and the consignments of both; the tests have one contract and consistent transactions", "anchors": ["src/verify.rs: ContractApi (lines 92-138), ContractVerify::evaluate (lines 151-258)"]}
{"id": "C68", "title": "The serde form of consignment entries", "statement": "An entry is written as a map with the keys operation, definedSeals, witness, a missing witness as null. Exactly these values are read as an entry: maps with one value for operation and one for definedSeals, and at most one for witness, each of which can be read, whatever other keys there are and in any order, an absent or null witness being None; and sequences of the three fields in order. An entry is read back, unless its witness is written as null. Other than the strict encoding (C40) the form is not canonical: whatever is read can be written differently. Evaluating values one by one is evaluating the entries read, followed by a stream error at the first value that is no entry.", "quantifier": "all entries, all trees of values (repeated and unknown keys included), all forms of operations, maps of definitions and witnesses which read back what they write, every seal protocol, contract and virtual machine", "why_tests_cant": "no test uses serde; the set of values read, and that edits of the form cannot change the verdict, are statements about all values", "anchors": ["src/verify.rs: OperationSeals (lines 43-62)", "src/verify.rs: ReadOperation (lines 79-86)"]}
{"id": "C69", "title": "Idempotent validation", "statement": "Evaluating an accepted consignment again leaves the whole contract as it was if and only if making its records (witnesses and seal definitions, in order) again does so. If records commute with operations and the last of several equal records counts, evaluating again changes nothing at all, neither after the end nor after a crash in between. The contract of the tests is left as it was exactly by consignments without witnesses, since each evaluation pushes the witnesses again.", "quantifier": "every contract implementation with the stated laws, every accepted consignment, every prefix of the calls made (crash), every seal protocol and virtual machine", "why_tests_cant": "the tests evaluate each consignment once; idempotence is about all consignments, all points of a crash and all implementations of the contract", "anchors": ["CHANGELOG.md:14 (idempotent contract validation?)", "src/verify.rs: evaluate (lines 241-256)", "src/verify.rs: tests::TestContract::apply_seals, apply_witness (lines 377-382)"]}
{"id": "C70", "title": "The same records whatever the order", "statement": "Two parties which have accepted the same consignments, in any order and any number of times, have the same part of the contract changed by records only, if the records made commute and repeating one makes no difference. For the contract of the tests: the same seal definitions, if definitions reported for one output of one operation agree (which they do on one chain), and the same witnesses up to order and repetition, namely those at the start and those delivered. On one chain, consignments each of which is accepted are accepted in any order, and then cells, known operations, definitions and witnesses are the same.", "quantifier": "all lists of consignments with the same elements, all orders, every contract implementation with the stated laws, every seal protocol and virtual machine", "why_tests_cant": "no test evaluates more than one consignment; convergence is a statement about pairs of runs of any length", "anchors": ["src/verify.rs: evaluate (lines 241-256)", "src/verify.rs: ContractApi::apply_seals, apply_witness (lines 126-137)", "src/verify.rs: tests::TestContract::apply_seals, apply_witness (lines 377-382)"]}
{"id": "C71", "title": "What a consignment has to disclose", "statement": "Take an accepted consignment whose operations do not repeat, and leave out any definitions of seals and any witnesses. What is left is accepted if and only if it still contains the definition of every seal that is spent in the consignment, the witness of every operation with inputs, and the witness that a kept definition refers to. It is then accepted with the same result (state, known operations, operations applied). Otherwise the error is SealUnknown for a cell that is spent, or NoWitness for an operation with inputs. So there is a least consignment, which is accepted, and from which nothing can be left out.", "quantifier": "every accepted consignment without repeated operations, every way of leaving out definitions and witnesses, every contract implementation with inert records, every seal protocol and virtual machine", "why_tests_cant": "it is a statement about all subsets of the definitions and witnesses of all consignments; tests try single consignments", "anchors": ["src/verify.rs: evaluate (lines 172-202, 216-256)", "src/verify.rs: OperationSeals (lines 55-62)", "src/verify.rs: comment \"some seals might be unknown to us\" (lines 184-185)"]}
{"id": "C72", "title": "Contracts are separate", "statement": "Let the codex refuse operations of other contracts, let operation ids commit to the contract, and let the contract know only its own operations at the start. Then in every accepted consignment all operations after the first are marked with the id of the contract, no cell of an operation of another contract is consumed, and the contract knows only its own operations afterwards. A consignment with more than one entry is accepted by at most one of two contracts with different ids.", "quantifier": "all consignments, all pairs of contracts (also with different implementations), every seal protocol and virtual machine with the stated laws", "why_tests_cant": "tests use one contract; the statement is about all pairs of contracts and all consignments", "anchors": ["CHANGELOG.md:12 (inter-contract ops?)", "src/verify.rs: evaluate (lines 152, 162-170, 204-214)"]}
{"id": "C73", "title": "Which operations a consignment has to include", "statement": "Take an accepted consignment of operations that do not repeat and are new to the contract. A part of the entries after the first, in any order, is accepted after the same first entry if and only if every entry of the consignment whose cells are consumed or read by an entry of the part is in the part too, and comes before that entry. So for every set of wanted operations there is a least part containing them that is accepted: the entries they name directly or through other entries, in the order of the consignment. Every accepted part which contains the wanted operations contains it.", "quantifier": "all accepted consignments without repetition, all parts in all orders, all sets of wanted operations, every contract implementation, seal protocol and virtual machine with the stated laws", "why_tests_cant": "it is about all subsets and permutations of all consignments; tests try single consignments in the order of the stock", "anchors": ["src/verify.rs: evaluate (lines 157-160, 195-214, 241-247)", "src/verify.rs: ContractApi (memory, is_known, apply_operation)", "src/verify.rs: ReadOperation (read_operation)"]}
{"id": "C74", "title": "What was received can be passed on", "statement": "A party that starts with the genesis only evaluates some consignments. Each of them is accepted by anyone who knows the genesis only, and all their witnesses lie on one chain. From what the contract was told (operations, definitions of seals, first witness of each operation) the party makes a new consignment of some of its operations. It is accepted by anyone who knows the genesis only if and only if each operation comes after all recorded operations whose cells it consumes or reads. An order of all operations with this property exists, and the consignment made of all operations gives the receiver the same cells and known operations as the sender.", "quantifier": "all lists of consignments, all selections and orders of recorded operations, every contract implementation, seal protocol and virtual machine with the stated laws", "why_tests_cant": "it is about every history a party may have and every consignment made of it; tests replay a consignment only to the contract it was made for", "anchors": ["src/verify.rs: ContractApi (apply_operation, apply_seals, apply_witness, is_known)", "src/verify.rs: evaluate (lines 157-247)", "src/verify.rs: OperationSeals", "tests in src/verify.rs: TestContract (lines 342-383)"]}
{"id": "C75", "title": "The least consignment for given operations", "statement": "Take an accepted consignment of operations that do not repeat and are new to the contract. Keep some entries after the first, in any order, and leave out any of their seal definitions and witnesses (and those of the first entry). The result is accepted if and only if each kept entry comes after all entries whose cells it consumes or reads, and nothing is left out that the least form of the kept entries has: the definitions of the cells consumed by kept entries, the witnesses of entries which consume cells, and those needed by a kept definition. So for every set of wanted operations there is a least consignment: it is accepted, and whatever it discloses is disclosed by every accepted consignment that contains the wanted operations and is obtained in this way.", "quantifier": "all accepted consignments without repetition, all parts in all orders, all ways to leave out definitions and witnesses, all sets of wanted operations, every contract implementation, seal protocol and virtual machine with the stated laws", "why_tests_cant": "it compares all selections, orders and omissions; tests see single consignments", "anchors": ["src/verify.rs: evaluate (lines 157-247)", "src/verify.rs: OperationSeals", "src/verify.rs: ContractApi (memory, is_known, apply_operation)"]}
{"id": "C76", "title": "Consignments which are passed on and on stay acceptable", "statement": "Let some consignments be issued: each starts with the genesis, does not repeat operations, is accepted by a party which knows the genesis only, and the witnesses of all are on one chain. Parties evaluate consignments, choose operations from what they have recorded, make a consignment of these in an order in which each operation comes after those whose cells it consumes or reads, and send it to other parties, who do the same, any number of times. Then each consignment in circulation is accepted by a party which knows the genesis only; a party accepts all it receives, in any order; two parties which know the same operations have the same state, whatever way these came to them; each party can pass on all that it has by a consignment which leads to its state; and no operation comes into being on the way.", "quantifier": "all sets of issued consignments on one chain, all ways to pass on consignments (any number of parties and of rounds), all selections of operations, every contract implementation, seal protocol and virtual machine with the stated laws", "why_tests_cant": "it is about all networks of parties and unboundedly many rounds; tests evaluate single consignments", "anchors": ["src/verify.rs: evaluate (lines 157-247)", "src/verify.rs: ContractApi (is_known, apply_operation, apply_seals, apply_witness)", "src/verify.rs: OperationSeals"]}
{"id": "C77", "title": "No inflation", "statement": "Let cells hold amounts, and let the codex accept an operation only if the amounts it creates are at most (or exactly) the amounts the contract holds at its inputs, where an input named twice is counted twice and one that is not held is not counted. If the contract drops the cells that an applied operation consumes, then after any number of evaluations of any consignments - accepted, failed or broken off - the total of the amounts held is at most (or exactly) the total held at the start. In particular `evaluate` applies no operation that names an input twice, and applies operations to the very cells they were verified against.", "quantifier": "all sessions (any consignments, any outcomes, broken off at any call), all amount functions, every contract implementation, seal protocol and virtual machine with the stated laws", "why_tests_cant": "an invariant over all consignments and all orders of evaluation, including failing and broken off ones; tests evaluate a few consignments on a ledger that keeps consumed cells", "anchors": ["src/verify.rs: evaluate (lines 195-241)", "src/verify.rs: ContractApi::apply_operation", "src/verify.rs: TestContract::apply_operation (lines 365-376)"]}
{"id": "C78", "title": "No inflation among all parties", "statement": "Let the codex accept an operation only if the amounts it creates are at most the amounts the contract holds at its inputs. Any number of parties start with the same contract and evaluate whatever consignments they receive, in any order, to the end or not; all witnesses are on one chain, ids and tokens do not collide, and definitions are reported at their positions. Take any cells, each of which was held at the start or is an output of an operation applied by one of the parties, and none of which is consumed by an operation applied by one of the parties. Then these hold no more than the contract held at the start - whether or not the contracts drop consumed cells; in particular with the ledger of the test-suite and bitcoin seals.", "quantifier": "all numbers of parties, all sessions of each (any consignments, any outcomes, broken off at any call), all sets of unspent cells, all amount functions, every contract implementation, seal protocol and virtual machine with the stated laws", "why_tests_cant": "a global invariant over all parties and all their histories; tests have one party and a few consignments", "anchors": ["src/verify.rs: evaluate (lines 195-241)", "src/verify.rs: ContractApi::apply_operation", "src/verify.rs: TestContract::apply_operation (lines 365-376)"]}
{"id": "C79", "title": "A token has one owner", "statement": "Let the codex accept an operation only if the cells it creates carry a given token (a unique thing, recognised from the contents of a cell) no more often than the cells the contract holds at its inputs, and let at most one cell of the contract carry it at the start. Any number of parties start with this contract and evaluate whatever consignments they receive, in any order, to the end or not; all witnesses are on one chain, ids and tokens do not collide, and definitions are reported at their positions. Call a cell open if it was held at the start or is an output of an operation applied by one of the parties, and no operation applied by one of the parties consumes it. Then no two different open cells carry the token.", "quantifier": "all numbers of parties, all sessions of each, all pairs of cells, all ways to recognise a token, every contract implementation, seal protocol and virtual machine with the stated laws", "why_tests_cant": "uniqueness among all parties over all their histories; tests have one party and a few consignments", "anchors": ["src/verify.rs: evaluate (lines 195-241)", "src/verify.rs: ContractApi::apply_operation", "src/verify.rs: TestContract::apply_operation (lines 365-376)"]}
{"id": "C80", "title": "Nothing is lost among all parties", "statement": "Let the codex accept an operation only if all its inputs are held and the amounts it creates are exactly the amounts held at its inputs. Any number of parties start with the same contract, whose cells are outputs of operations it knows, and evaluate whatever consignments they receive, in any order, to the end or not; all witnesses are on one chain, ids and tokens do not collide, and definitions are reported at their positions. Call a cell open if it was held at the start or is an output of an operation applied by one of the parties, and no operation applied by one of the parties consumes it. Then the open cells together hold exactly what the contract held at the start. In particular, a token that one cell carries at the start is carried by exactly one open cell, if operations have to pass it on as often as they get it. This holds with the ledger of the test-suite and bitcoin seals.", "quantifier": "all numbers of parties, all sessions of each, all amount functions and all ways to recognise a token, every contract implementation, seal protocol and virtual machine with the stated laws", "why_tests_cant": "an exact global invariant over all parties and all their histories; tests have one party and a few consignments", "anchors": ["src/verify.rs: evaluate (lines 195-241)", "src/verify.rs: ContractApi::apply_operation", "src/verify.rs: TestContract::apply_operation (lines 365-376)"]}
{"id": "C81", "title": "What is received is safe until its outpoint is spent", "statement": "Any number of parties start with the same contract and evaluate whatever consignments they receive, in any order, to the end or not; all witnesses are on one chain, ids and tokens do not collide, and definitions are reported at their positions. Suppose a cell was received with a seal: an entry in an accepted part of one of the consignments reveals the cell with this seal. Then whatever operation a party applies which consumes the cell, a witness on the chain closes this very seal over the id of that operation. Hence, as long as no witness on the chain closes the seal, the cell is consumed by nobody. With bitcoin seals and the ledger of the test-suite: a transaction on the chain spends the outpoint of the seal in an input which commits to the operation, so whoever controls the outpoint controls the cell.", "quantifier": "all numbers of parties, all sessions of each, all cells and seals received by any of them, every contract implementation, seal protocol and virtual machine with the stated laws", "why_tests_cant": "speaks about everything others may do with consignments the receiver never sees; tests have one party", "anchors": ["src/verify.rs: evaluate (lines 195-241)", "src/verify.rs: ContractApi::apply_operation", "src/seals.rs: WTxoSeal::resolve, to_src (lines 110-127)"]}
{"id": "C82", "title": "Careful parties need not trust consignments", "statement": "Let the reader of each party refuse an entry which reports a seal definition for an output that does not store its token, which has a witness although its operation has no inputs, or whose witness the party does not find on the chain; the parties may have different views of the chain, as long as what they find is there. evaluate itself is as it is. Then, whatever consignments the parties get, in whatever order and however the evaluations end: no cells that are open among all parties hold more than there was at the start (if the codex demands that operations create no more than they consume), the open cells hold exactly what there was at the start (if the codex demands equality and that inputs are held), and a cell which one of them has received with a seal is consumed for nobody unless a witness on the chain closes this seal over the consuming operation. Only facts about the chain, and that ids and tokens do not collide, are assumed; nothing about the entries of the consignments. Each of the three checks is needed.", "quantifier": "all numbers of parties with any views of the chain, all lists of consignments, all ways evaluations end, all amount functions, every contract implementation, seal protocol and virtual machine with the stated laws", "why_tests_cant": "consignments are arbitrary, made by anyone to deceive; tests have a few honest ones", "anchors": ["src/verify.rs: ReadOperation (lines 78-87)", "src/verify.rs: evaluate (lines 148-241)", "src/verify.rs: ContractApi::apply_witness (documentation, lines 132-136)"]}
{"id": "C83", "title": "A payment valid for the payer is valid for everyone", "statement": "Two parties, payer and payee, start from the same contract and evaluate any consignments, with failures and crashes on the way; seals are single-use, witnesses are on chain, ids and tokens do not collide, definitions are reported at their positions (as in C53). The payer accepts a non-empty consignment, which takes its contract to a state d, and adds one entry. The payee, whatever its state, accepts the consignment with the entry if and only if what the payer can check holds: each reported definition has its token among the outputs; the codex accepts the operation in the state d unless it is known there; the inputs are distinct cells whose seals are live after the consignment; and the witness closes exactly these seals over the operation id, or there is no witness and there are no inputs. So a cell that was received can be passed on without help of anyone else, and a consignment the payer accepts itself is accepted by all parties.", "quantifier": "all consignments and entries, all sessions of payer and payee (also those with failed and interrupted evaluations), every contract implementation, seal protocol and virtual machine with the stated laws", "why_tests_cant": "the state of the payee is not known to the payer; tests use the same state for both, or a fresh one", "anchors": ["src/verify.rs: evaluate (lines 148-241)", "src/verify.rs: ContractApi (lines 103-146)"]}
{"id": "C84", "title": "Careful parties agree", "statement": "Let the reader of each party make the three checks of C82 (definitions at their positions, no witness for operations without inputs, witnesses found on the chain by the party). Two parties start from the same contract and evaluate any consignments, made by anyone, however the evaluations end. If one of them accepts a consignment that brings the operations it needs, then the other accepts it too and makes the same records of witnesses and seals, provided that it finds on the chain the witnesses which the first one finds. Parties with the same view of the witnesses of a consignment both accept it or both do not. Only facts about the chain, and that ids and tokens do not collide, are assumed.", "quantifier": "all consignments sent to either party, all views of the chain, all ways evaluations end, every contract implementation, seal protocol and virtual machine with the stated laws", "why_tests_cant": "what a party was sent before can be made by anyone to make it reject later what others accept; tests have honest histories", "anchors": ["src/verify.rs: ReadOperation (lines 78-87)", "src/verify.rs: evaluate (lines 148-241)"]}
{"id": "C85", "title": "Only immutable cells can be missing from a consignment", "statement": "The consensus properties (C48, C53, C84) assume that a consignment brings the operations it needs, which evaluate does not check. But of a consignment that is accepted, in whatever state of the contract, this has to be checked for immutable inputs only: if the genesis is known to the contract, the consignment is self-contained if and only if each operation whose immutable output is named comes earlier in it or is known at the start; the operations which created the destructible inputs always come earlier. So for contracts without immutable inputs, careful parties agree on all consignments.", "quantifier": "all consignments accepted in any state of the contract, every contract implementation, seal protocol and virtual machine", "why_tests_cant": "the claim is about all accepted consignments", "anchors": ["src/verify.rs: evaluate (lines 148-241)", "src/verify.rs: seals (lines 156, 196-202)"]}
{"id": "C86", "title": "What a payer has to check", "statement": "Payer and payee start from the same contract, which knows its genesis, and evaluate whatever consignments they are sent, made by anyone, however the evaluations end; their readers make the three checks of C82. Operations have no immutable inputs. The payer accepts a consignment, which takes its contract to a state d, and adds an entry; both see the same of its witnesses on the chain. The payee accepts all of it if and only if the entry passes the checks of the reader, the codex accepts the operation in the state d unless it is known there, the inputs are distinct cells whose seals are live after the consignment, and the witness closes exactly these seals over the operation id (or there are no inputs and no witness).", "quantifier": "all consignments sent to payer and payee before, all payments, all views of the chain, every contract implementation, seal protocol and virtual machine with the stated laws", "why_tests_cant": "the payer cannot see the state of the payee, which depends on everything that anyone has sent to it; tests fix one such state", "anchors": ["src/verify.rs: ReadOperation (lines 78-87)", "src/verify.rs: evaluate (lines 148-241)"]}
