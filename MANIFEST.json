{
 "claims": [
  {
   "property": "C01",
   "status": "proved",
   "theorems": [
    "C01_codex_commitment"
   ],
   "note": "See Properties1.v."
  },
  {
   "property": "C02",
   "status": "proved",
   "theorems": [
    "C02_contract_id_substitution"
   ],
   "note": "See Properties1.v."
  },
  {
   "property": "C03",
   "status": "proved",
   "theorems": [
    "C03_first_consumes_nothing"
   ],
   "note": "See Properties1.v."
  },
  {
   "property": "C04",
   "status": "proved",
   "theorems": [
    "C04_reported_seals_committed"
   ],
   "note": "See Properties1.v."
  },
  {
   "property": "C05",
   "status": "proved",
   "theorems": [
    "C05_seal_provenance"
   ],
   "note": "See Properties1.v."
  },
  {
   "property": "C06",
   "status": "proved",
   "theorems": [
    "C06_no_double_consumption"
   ],
   "note": "See Properties1.v."
  },
  {
   "property": "C07",
   "status": "proved",
   "theorems": [
    "C07_consumed_once"
   ],
   "note": "See Properties1.v."
  },
  {
   "property": "C08",
   "status": "proved",
   "theorems": [
    "C08_no_replay"
   ],
   "note": "See Properties1.v."
  },
  {
   "property": "C09",
   "status": "proved",
   "theorems": [
    "C09_witness_mandatory"
   ],
   "note": "See Properties1.v."
  },
  {
   "property": "C10",
   "status": "proved",
   "theorems": [
    "C10_closing_verified"
   ],
   "note": "See Properties1.v."
  },
  {
   "property": "C11",
   "status": "proved",
   "theorems": [
    "C11_applied_is_verified"
   ],
   "note": "See Properties1.v."
  },
  {
   "property": "C12",
   "status": "proved",
   "theorems": [
    "C12_known_not_verified"
   ],
   "note": "See Properties1.v."
  },
  {
   "property": "C13",
   "status": "proved",
   "theorems": [
    "C13_first_not_applied"
   ],
   "note": "See Properties1.v."
  },
  {
   "property": "C14",
   "status": "proved",
   "theorems": [
    "C14_applied_once"
   ],
   "note": "See Properties1.v."
  },
  {
   "property": "C15",
   "status": "proved",
   "theorems": [
    "C15_exact_effects"
   ],
   "note": "See Properties2.v."
  },
  {
   "property": "C16",
   "status": "proved",
   "theorems": [
    "C16_failure_atomic"
   ],
   "note": "See Properties2.v."
  },
  {
   "property": "C17",
   "status": "proved",
   "theorems": [
    "C17_first_violated_check"
   ],
   "note": "See Properties2.v."
  },
  {
   "property": "C18",
   "status": "proved",
   "theorems": [
    "C18_reader_protocol"
   ],
   "note": "See Properties2.v."
  },
  {
   "property": "C19",
   "status": "proved",
   "theorems": [
    "C19_prefix_valid"
   ],
   "note": "See Properties2.v."
  },
  {
   "property": "C20",
   "status": "proved",
   "theorems": [
    "C20_compositional"
   ],
   "note": "See Properties2.v."
  },
  {
   "property": "C21",
   "status": "proved",
   "theorems": [
    "C21_declarative_validity"
   ],
   "note": "See Properties2.v."
  },
  {
   "property": "C22",
   "status": "proved",
   "theorems": [
    "C22_unresolved_unspendable"
   ],
   "note": "See Properties2.v."
  },
  {
   "property": "C23",
   "status": "proved",
   "theorems": [
    "C23_bound_to_own_witness"
   ],
   "note": "See Properties2.v."
  },
  {
   "property": "C24",
   "status": "proved",
   "theorems": [
    "C24_concealment"
   ],
   "note": "See Properties2.v."
  },
  {
   "property": "C25",
   "status": "proved",
   "theorems": [
    "C25_idempotent"
   ],
   "note": "See Properties2.v."
  },
  {
   "property": "C26",
   "status": "proved",
   "theorems": [
    "C26_crash_recovery"
   ],
   "note": "See Properties2.v."
  },
  {
   "property": "C27",
   "status": "proved",
   "theorems": [
    "C27_reordering"
   ],
   "note": "See Properties2.v."
  },
  {
   "property": "C28",
   "status": "partial",
   "theorems": [
    "C28_positional_binding_partial",
    "C28_positional_binding_refuted"
   ],
   "note": "The claim is false of the code (counterexample in _refuted): tokens are compared as sets, so a definition may be reported at the position of another cell. _partial: the token is in some output of the operation, and in the very cell if positions are right. C63: it holds in full if the reader checks the entries. See Properties3.v."
  },
  {
   "property": "C29",
   "status": "partial",
   "theorems": [
    "C29_wrong_genesis_partial",
    "C29_wrong_genesis_refuted"
   ],
   "note": "The claim is false of the code (_refuted): an unknown first operation passes if the codex accepts it as an operation. _partial: it is known or verified, never applied, and leaves the visible state unchanged. C63: it holds in full if the reader checks the entries. See Properties3.v."
  },
  {
   "property": "C30",
   "status": "proved",
   "theorems": [
    "C30_no_injected_state"
   ],
   "note": "See Properties3.v."
  },
  {
   "property": "C31",
   "status": "proved",
   "theorems": [
    "C31_one_seal_one_operation"
   ],
   "note": "See Properties3.v."
  },
  {
   "property": "C32",
   "status": "partial",
   "theorems": [
    "C32_no_double_spend_partial",
    "C32_no_double_spend_refuted",
    "C32_free_witness_refuted"
   ],
   "note": "The claim is false of the code: C32_no_double_spend_refuted uses a definition reported at a wrong position; C32_free_witness_refuted an operation without inputs delivered with two witnesses. _partial: it holds if positions are right and operations without inputs have only complete definitions or no witness. C63: it holds in full if the reader checks the entries. See Properties3.v."
  },
  {
   "property": "C33",
   "status": "proved",
   "theorems": [
    "C33_callback_protocol"
   ],
   "note": "See Properties3.v."
  },
  {
   "property": "C34",
   "status": "partial",
   "theorems": [
    "C34_witness_recorded_partial",
    "C34_witness_recorded_refuted"
   ],
   "note": "The claim (documentation of apply_witness) is false of the code: _refuted records a witness for genesis and for an operation without inputs. _partial: exactly the entries with a witness have one recorded, all consuming ones among them. C63: it holds in full if the reader checks the entries. See Properties3.v."
  },
  {
   "property": "C35",
   "status": "partial",
   "theorems": [
    "C35_seal_determined_partial",
    "C35_seal_determined_refuted"
   ],
   "note": "False of the code for operations without inputs (_refuted), which may be delivered with any witness. _partial: holds if those have only complete definitions or no witness and positions are right. C63: it holds in full if the reader checks the entries. See Properties3.v."
  },
  {
   "property": "C36",
   "status": "proved",
   "theorems": [
    "C36_bitcoin_complete"
   ],
   "note": "See Properties4.v."
  },
  {
   "property": "C37",
   "status": "proved",
   "theorems": [
    "C37_bitcoin_witness_output"
   ],
   "note": "See Properties4.v."
  },
  {
   "property": "C38",
   "status": "proved",
   "theorems": [
    "C38_bitcoin_same_seal"
   ],
   "note": "See Properties4.v."
  },
  {
   "property": "C39",
   "status": "proved",
   "theorems": [
    "C39_auth_token"
   ],
   "note": "See Properties4.v."
  },
  {
   "property": "C40",
   "status": "proved",
   "theorems": [
    "C40_serialization"
   ],
   "note": "See Properties4.v."
  },
  {
   "property": "C41",
   "status": "proved",
   "theorems": [
    "C41_test_ledger"
   ],
   "note": "See Properties4.v."
  },
  {
   "property": "C42",
   "status": "proved",
   "theorems": [
    "C42_determinism"
   ],
   "note": "See Properties4.v."
  },
  {
   "property": "C43",
   "status": "partial",
   "theorems": [
    "C43_spent_once_partial",
    "C43_spent_once_refuted"
   ],
   "note": "False of the code (_refuted): an operation without inputs delivered twice with different witnesses has its cell spent by two different operations in one consignment. _partial: holds if no id repeats, or under the premises of C32. C63: it holds in full if the reader checks the entries. See Properties3.v."
  },
  {
   "property": "C44",
   "status": "proved",
   "theorems": [
    "C44_byte_stream"
   ],
   "note": "See Properties4.v."
  },
  {
   "property": "C45",
   "status": "proved",
   "theorems": [
    "C45_selection"
   ],
   "note": "Contracts keeping cells (law keeps_cells; proved for the test ledger, and for a ledger that drops consumed cells). See Properties5.v."
  },
  {
   "property": "C46",
   "status": "proved",
   "theorems": [
    "C46_knowing_more",
    "C46_after_session"
   ],
   "note": "Contracts keeping cells, whose codex rejects operations naming missing cells; C46_after_session is the case of a session. See Properties5.v."
  },
  {
   "property": "C47",
   "status": "proved",
   "theorems": [
    "C47_any_order",
    "C47_any_order_ledger",
    "C47_any_order_spending"
   ],
   "note": "Also for the test ledger (_ledger) and for a ledger that drops consumed cells (_spending), without laws on the contract. See Properties5.v."
  },
  {
   "property": "C48",
   "status": "proved",
   "theorems": [
    "C48_consensus",
    "C48_consensus_ledger",
    "C48_consensus_spending"
   ],
   "note": "Also for the two ledgers (_ledger, _spending). C48_self_contained_needed and C48_no_conflict_needed show that the premises on the origin of cells and on double spends cannot be dropped. See Properties5.v."
  },
  {
   "property": "C49",
   "status": "proved",
   "theorems": [
    "C49_cells_are_outputs",
    "C49_cells_are_outputs_ledger",
    "C49_cells_are_outputs_spending"
   ],
   "note": "Also for the two ledgers (_ledger, _spending). See Properties5.v."
  },
  {
   "property": "C50",
   "status": "proved",
   "theorems": [
    "C50_orders",
    "C50_code_orders",
    "C50_any_two_orders"
   ],
   "note": "C50_law_needed and C50_token_law_needed show that the laws on addresses and tokens cannot be dropped. See Properties6.v."
  },
  {
   "property": "C51",
   "status": "proved",
   "theorems": [
    "C51_consumption_spends",
    "C51_chain_order"
   ],
   "note": "The law on bp-core is the premise closing_spends; it holds in the concrete world (toy_closing_spends). Closing by the fallback outpoint is outside of it; see C57. See Properties6.v."
  },
  {
   "property": "C52",
   "status": "proved",
   "theorems": [
    "C52_one_outpoint_one_operation",
    "C52_no_double_spend"
   ],
   "note": "Premises as for C51, and no outpoint spent twice. See Properties6.v."
  },
  {
   "property": "C53",
   "status": "proved",
   "theorems": [
    "C53_chain_consensus",
    "C53_no_conflicts",
    "C53_any_order",
    "C53_sessions",
    "C53_bitcoin"
   ],
   "note": "C48 and C47 without the premise on conflicts; the error of a rejected entry may differ (C53_case_rejected); C53_chain_needed shows that the premise on the chain cannot be dropped. See Properties7.v."
  },
  {
   "property": "C54",
   "status": "proved",
   "theorems": [
    "C54_merge",
    "C54_merge_all",
    "C54_bitcoin"
   ],
   "note": "C54_definitions_needed and C54_chain_needed show that neither the union of the reported definitions nor the premise on the chain can be dropped. See Properties8.v."
  },
  {
   "property": "C55",
   "status": "proved",
   "theorems": [
    "C55_text_determines_error",
    "C55_text_explains"
   ],
   "note": "The texts expected by the tests are reproduced literally (test_text_*). Errors of the virtual machine are excluded, since they are printed by a dependency (C55_vm_excluded). The mismatch text says \"do match\" where seals do not match (C55_says_match). See Properties9.v."
  },
  {
   "property": "C56",
   "status": "partial",
   "theorems": [
    "C56_one_contract_partial",
    "C56_protocol_bound",
    "C56_consensus",
    "C56_one_contract_refuted"
   ],
   "note": "The full claim is refuted for a seal protocol in which the anchor tells the protocol and nothing ties it to the contract; whether the real anchor does is outside of /repo. C56_one_contract_partial is what holds without that tie, C56_protocol_bound what holds with it. See Properties10.v."
  },
  {
   "property": "C57",
   "status": "partial",
   "theorems": [
    "C57_one_seal_partial",
    "C57_noise",
    "C57_consumption_spends",
    "C57_exclusive",
    "C57_consensus",
    "C57_one_seal_refuted"
   ],
   "note": "The full claim is refuted for a seal protocol which accepts a closing by either outpoint; whether the real one does is decided in bp-core, outside of /repo. C57_one_seal_partial is what holds without further premises, C57_exclusive and C57_consensus what holds if at most one outpoint of each seal is spent. See Properties11.v."
  },
  {
   "property": "C58",
   "status": "proved",
   "theorems": [
    "C58_accounting",
    "C58_conservation",
    "C58_work"
   ],
   "note": "C58_case_twice shows that the premise on ids of C58_conservation is needed; C58_case_work that eight calls do occur. Calls are those of the log (reads, queries, seal closings, applications), not machine steps. See Properties12.v."
  },
  {
   "property": "C59",
   "status": "proved",
   "theorems": [
    "C59_same",
    "C59_bound_exact",
    "C59_bound_exact_global"
   ],
   "note": "The bound 65535 on the vectors is in a dependency, outside of /repo; hence the premise. See Properties12.v."
  },
  {
   "property": "C60",
   "status": "proved",
   "theorems": [
    "C60_work",
    "C60_seals"
   ],
   "note": "C60_sharp has an accepted entry of exactly m + 3 bytes, C60_seals_sharp one which attains the bound on seals. The encodings of operations, definitions, transactions and client data are in dependencies; the theorem holds for all lawful ones. See Properties13.v."
  },
  {
   "property": "C61",
   "status": "proved",
   "theorems": [
    "C61_not_blocked",
    "C61_bitcoin"
   ],
   "note": "C61_chain_needed and C61_differ_needed show that the premises on the chain and on the operations are needed. C61_bitcoin restates it from facts about transactions. See Properties13.v."
  },
  {
   "property": "C62",
   "status": "proved",
   "theorems": [
    "C62_bytes_agree"
   ],
   "note": "Combines C44 (bytes) and C53 (consensus); the premises are those of C53. See Properties13.v."
  },
  {
   "property": "C63",
   "status": "proved",
   "theorems": [
    "C63_exact",
    "C63_any_reader",
    "C63_repaired",
    "C63_consensus",
    "C63_no_double_spend"
   ],
   "note": "The reader is not in /repo: ReadOperation is implemented by users. C63_each_needed shows that none of the three checks is superfluous. See Properties14.v."
  },
  {
   "property": "C64",
   "status": "proved",
   "theorems": [
    "C64_exact",
    "C64_blind",
    "C64_says",
    "C64_honest_run_fails"
   ],
   "note": "Finding: the assertions in run fail for honest consignments whose genesis id is not the first one, or with an entry without seals or without a witness (C64_honest_run_fails, C64_case_no_outputs); in the tests only consignments with at most one entry reach them, for which they check almost nothing (C64_blind). See Properties15.v."
  },
  {
   "property": "C65",
   "status": "partial",
   "theorems": [
    "C65_inputs_partial",
    "C65_closes_gaps",
    "C65_inputs_refuted"
   ],
   "note": "False of evaluate (_refuted): an operation without inputs is accepted, applied, and its cell spent; whether operations need inputs is left to the codex, outside of /repo. _partial: the exact condition for such operations; with a codex that wants inputs the claim holds for all operations not known before, everything descends from known operations, and C65_closes_gaps gives C32, C35 and C43. See Properties16.v."
  },
  {
   "property": "C66",
   "status": "proved",
   "theorems": [
    "C66_split",
    "C66_seal_checker",
    "C66_transplant"
   ],
   "note": "C66_split: acceptance is the conjunction of two checks; C66_seal_checker: the first one is evaluate on a contract that knows everything; C66_transplant: replaced transactions do not change validity of operations or state. See Properties17.v."
  },
  {
   "property": "C67",
   "status": "partial",
   "theorems": [
    "C67_reorg_partial",
    "C67_exact",
    "C67_reorg_refuted"
   ],
   "note": "False of evaluate (_refuted): operations applied on an abandoned chain are never undone, since ContractApi has no method for it; callers must do that themselves. _partial: parties agree if the operations they have applied have valid seals on the present chain (generalises C53). C67_exact says which entries are rejected after a session (iff; strengthens C46). See Properties18.v."
  },
  {
   "property": "C68",
   "status": "proved",
   "theorems": [
    "C68_serde",
    "C68_not_canonical",
    "C68_verdict"
   ],
   "note": "The forms of the fields and the text of a format are parameters; the rules of serde_derive are those documented. See Properties19.v."
  },
  {
   "property": "C69",
   "status": "partial",
   "theorems": [
    "C69_whole_partial",
    "C69_exact",
    "C69_test_ledger",
    "C69_whole_refuted"
   ],
   "note": "False of the contract of the tests (C69_whole_refuted; C69_test_ledger gives the exact condition); C69_exact holds without laws on records. See Properties20.v."
  },
  {
   "property": "C70",
   "status": "proved",
   "theorems": [
    "C70_convergence",
    "C70_test_ledger",
    "C70_any_order"
   ],
   "note": "Definitions that do not agree (C28) and the order of witnesses do depend on the order (C70_order_matters). See Properties20.v."
  },
  {
   "property": "C71",
   "status": "proved",
   "theorems": [
    "C71_exact",
    "C71_least",
    "C71_error"
   ],
   "note": "Repeated operations are excluded by a premise, which is needed (C71_ids_needed). See Properties21.v."
  },
  {
   "property": "C72",
   "status": "proved",
   "theorems": [
    "C72_own",
    "C72_apart"
   ],
   "note": "evaluate itself does not compare contract ids after the first entry: the law on the codex is needed (C72_codex_needed), and so is the premise on known operations (C72_known_needed). See Properties22.v."
  },
  {
   "property": "C73",
   "status": "proved",
   "theorems": [
    "C73_exact",
    "C73_least"
   ],
   "note": "The operations must be new to the contract: entries known already are not verified, so that what they read may be missing (C73_fresh_needed). See Properties23.v."
  },
  {
   "property": "C74",
   "status": "proved",
   "theorems": [
    "C74_export",
    "C74_all",
    "C74_test_ledger"
   ],
   "note": "The contract must keep what it is told (shown for the contract of the tests). The witnesses must be on one chain, definitions must agree (C74_chain_needed). See Properties24.v."
  },
  {
   "property": "C75",
   "status": "proved",
   "theorems": [
    "C75_exact",
    "C75_least",
    "C75_test_ledger"
   ],
   "note": "The premises are those of C71 and C73 (needed: C71_ids_needed, C73_fresh_needed). See Properties25.v."
  },
  {
   "property": "C76",
   "status": "proved",
   "theorems": [
    "C76_circulation",
    "C76_test_ledger"
   ],
   "note": "The premises are those of C74, for the consignments first issued (needed: C76_chain_needed). Parties that circulate nothing but what they have recorded are assumed; a consignment made by other means has to satisfy the premise on issued consignments. See Properties26.v."
  },
  {
   "property": "C77",
   "status": "proved",
   "theorems": [
    "C77_no_inflation",
    "C77_conserved",
    "C77_ledger"
   ],
   "note": "What the codex demands is a premise (covered / balanced), as is that the contract drops consumed cells; C77_ledger discharges the latter for the ledger of the test-suite extended by this. That the ledger of the test-suite itself allows inflation over two consignments is shown in C77_spending_needed. See Properties27.v."
  },
  {
   "property": "C78",
   "status": "proved",
   "theorems": [
    "C78_no_inflation",
    "C78_one_party",
    "C78_bitcoin"
   ],
   "note": "Premises: those of C53 on the chain (needed: C78_chain_needed, where two parties accept 13 out of 8), the demand of the codex, and that contracts hold no other cells than outputs of applied operations; nothing is assumed on which cells contracts drop. See Properties28.v."
  },
  {
   "property": "C79",
   "status": "proved",
   "theorems": [
    "C79_one_owner"
   ],
   "note": "Premises as in C78; the chain is needed (C79_chain_needed: the token has two owners). See Properties29.v."
  },
  {
   "property": "C80",
   "status": "proved",
   "theorems": [
    "C80_conserved",
    "C80_exactly_one_owner",
    "C80_bitcoin"
   ],
   "note": "That the codex demands the inputs to be held is needed (C80_held_needed: a contract which forgets its cells burns 5 of 8); the other premises are those of C77_conserved and C78. See Properties30.v."
  },
  {
   "property": "C81",
   "status": "proved",
   "theorems": [
    "C81_custody",
    "C81_unspent_open",
    "C81_bitcoin"
   ],
   "note": "Premises on the chain as in C53. That definitions are reported at their positions, which evaluate does not check, is needed (C81_positions_needed: the cell is stolen by a consignment which is accepted, while its outpoint is unspent). See Properties31.v."
  },
  {
   "property": "C82",
   "status": "proved",
   "theorems": [
    "C82_no_inflation",
    "C82_conserved",
    "C82_custody",
    "C82_bitcoin"
   ],
   "note": "The checks are made by the reader, which is implemented by the users of the library; evaluate is unchanged. Premises: fair_world (the chain, no collisions), laws of the contract and demands of the codex as in C78 and C80. Without one of the checks the claim is false (edits am01-am08 of the log; C81_positions_needed). See Properties32.v."
  },
  {
   "property": "C83",
   "status": "proved",
   "theorems": [
    "C83_payment",
    "C83_rehearsal",
    "C83_bitcoin"
   ],
   "note": "Premises as in C53. That all is on one chain is needed (C83_chain_needed); that the consignment is not empty as well (edit an07 of the log). See Properties33.v."
  },
  {
   "property": "C84",
   "status": "proved",
   "theorems": [
    "C84_agreement",
    "C84_same_view",
    "C84_bitcoin"
   ],
   "note": "The checks are made by the reader, which is implemented by the users of the library; evaluate is unchanged. Premises: fair_world, laws of the contract as in C53. Without one of the checks, or when the consignment lacks operations it needs, the claim is false (edits ao01-ao06 of the log). See Properties34.v."
  },
  {
   "property": "C85",
   "status": "proved",
   "theorems": [
    "C85_only_immutables",
    "C85_consensus"
   ],
   "note": "That the genesis is known is needed (C85_genesis_needed). C85_consensus has the premises of C84 but self_contained. See Properties35.v."
  },
  {
   "property": "C86",
   "status": "proved",
   "theorems": [
    "C86_payment",
    "C86_bitcoin"
   ],
   "note": "C86_bitcoin discharges the facts about seals for bitcoin seals and the ledger which drops consumed cells. That the genesis is known and that there are no immutable inputs is needed (log entries aq03, aq04). See Properties36.v."
  }
 ]
}