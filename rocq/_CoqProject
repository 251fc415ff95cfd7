-Q theories Verif
theories/Types.v
theories/Deps.v
theories/Api.v
theories/Spec.v
theories/Evaluate.v
theories/EvalFacts.v
theories/Refine.v
theories/Runs.v
theories/Accounting.v
theories/Effects.v
theories/Readers.v
theories/Simulate.v
theories/Laws.v
theories/Cells.v
theories/CellFacts.v
theories/Sharing.v
theories/Transform.v
theories/DoubleSpend.v
theories/Consensus.v
theories/Merge.v
theories/Messages.v
theories/BitcoinSeals.v
theories/BitcoinChain.v
theories/Protocols.v
theories/Fallback.v
theories/TestLedger.v
theories/Ledger16.v
theories/LedgerCells.v
theories/StrictCodec.v
theories/Ordered.v
theories/Derived.v
theories/Concrete.v
theories/Scenario.v
theories/Counterexamples.v
theories/ByteReader.v
theories/TestRun.v
theories/Split.v
theories/Guard.v
theories/Properties1.v
theories/Properties2.v
theories/Properties3.v
theories/Properties4.v
theories/Properties5.v
theories/Properties6.v
theories/Properties7.v
theories/Properties8.v
theories/Properties9.v
theories/Properties10.v
theories/Properties11.v
theories/Properties12.v
theories/Properties13.v
theories/Properties14.v
theories/Properties15.v
theories/Properties16.v
theories/Reorg.v
theories/Properties17.v
theories/Properties18.v
theories/Serde.v
theories/Properties19.v
theories/Replay.v
theories/Properties20.v
theories/Disclosure.v
theories/Properties21.v
theories/Properties22.v
theories/Properties23.v
theories/Stock.v
theories/Properties24.v
theories/Properties25.v
theories/Properties26.v
theories/Properties27.v
theories/Properties28.v
theories/Properties29.v
theories/Properties30.v
theories/Properties31.v
theories/Properties32.v
theories/Properties33.v
theories/Properties34.v
theories/Properties35.v
theories/Properties36.v
