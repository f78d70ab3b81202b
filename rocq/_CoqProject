-Q theories Verif
theories/Base.v
theories/Evm.v
theories/Config.v
theories/Utils.v
theories/SpecOpcodes.v
theories/ConfigProofs.v
theories/Types.v
theories/Arena.v
theories/Inspector.v
theories/SpecTree.v
theories/ArenaProofs.v
theories/OrderingProofs.v
theories/SpecExec.v
theories/SpecRecord.v
theories/ExecProofs.v
theories/RecordPanicProofs.v
theories/ExecFacts.v
theories/TxFacts.v
theories/MemoryProofs.v
theories/Examples.v
theories/PropertiesRecord.v
theories/PropertiesConfig.v
theories/Text.v
theories/OpcodeGas.v
theories/AccessList.v
theories/Transfer.v
theories/FourByte.v
theories/OpCount.v
theories/SpecSimple.v
theories/SimpleProofs.v
theories/PropertiesSimple.v
theories/SpecParity.v
theories/TreeProofs.v
theories/Parity.v
theories/Walker.v
theories/SpecTraces.v
theories/ParityProofs.v
theories/Db.v
theories/VmTrace.v
theories/StateDiff.v
theories/SpecVm.v
theories/VmProofs.v
theories/PropertiesParity.v
theories/SpecDiff.v
theories/DiffProofs.v
theories/PropertiesDiff.v
theories/Geth.v
theories/SpecGeth.v
theories/SpecTx.v
theories/GethProofs.v
theories/TxTraceProofs.v
theories/SpecAgree.v
theories/AgreeProofs.v
theories/PropertiesGeth.v
theories/Prestate.v
theories/SpecPrestate.v
theories/PrestateProofs.v
theories/PropertiesPrestate.v
theories/Mux.v
theories/SpecMux.v
theories/MuxProofs.v
theories/PropertiesMux.v
theories/Writer.v
theories/SpecWriter.v
theories/WriterProofs.v
theories/WriterFacts.v
theories/WriterUtf8.v
theories/PropertiesWriter.v
theories/PropertiesTx.v
theories/SpecParties.v
theories/PartiesProofs.v
theories/PropertiesParties.v
theories/SpecOptions.v
theories/OptionProofs.v
theories/PropertiesOptions.v
theories/JsNative.v
theories/Js.v
theories/JsObjects.v
theories/SpecJs.v
theories/SpecJsObjects.v
theories/JsNativeProofs.v
theories/JsProofs.v
theories/JsPanicProofs.v
theories/JsObjectProofs.v
theories/PropertiesJs.v
theories/PropertiesJsObjects.v
theories/PropertiesAgree.v
theories/SpecScopes.v
theories/PropertiesScopes.v
theories/SpecLogs.v
theories/StepProofs.v
theories/PropertiesLogs.v
theories/SpecVmTx.v
theories/VmTxProofs.v
theories/SpecVmCode.v
theories/VmCodeProofs.v
theories/VmOrderProofs.v
theories/PropertiesVm.v
theories/PropertiesResults.v
theories/SpecHistory.v
theories/HistoryProofs.v
theories/Session.v
theories/SpecSession.v
theories/SessionProofs.v
theories/PropertiesHistory.v
theories/BigInt.v
theories/BigIntNum.v
theories/SpecBigInt.v
theories/BigIntArr.v
theories/BigIntDiv.v
theories/BigIntProofs.v
theories/BigIntBits.v
theories/BigIntText.v
theories/PropertiesBigInt.v
theories/PropertiesEmpty.v
theories/BigIntMore.v
theories/SpecBigIntMore.v
theories/BigIntMoreProofs.v
theories/BigIntGcd.v
theories/BigIntBase.v
theories/SpecBigIntInv.v
theories/BigIntInvProofs.v
theories/PropertiesBigInt2.v
theories/Fermat.v
theories/BigIntPrime.v
theories/BigIntPrimeProofs.v
theories/PropertiesBigInt3.v
theories/PropertiesPresets.v
theories/SpecChanges.v
theories/PropertiesChanges.v
theories/SpecCalls.v
theories/PropertiesCalls.v
theories/PropertiesCallers.v
theories/PropertiesSession.v
theories/PropertiesErrors.v
theories/BigIntParse.v
theories/SpecBigIntParse.v
theories/BigIntParseProofs.v
theories/PropertiesBigInt4.v
theories/BigIntRadix.v
theories/SpecBigIntRadix.v
theories/BigIntRadixProofs.v
theories/PropertiesBigInt5.v
theories/SpecTxText.v
theories/TxTextProofs.v
theories/PropertiesTxText.v
theories/SpecTouch.v
theories/PropertiesTouch.v
theories/SpecPrune.v
theories/PruneProofs.v
theories/PropertiesPrune.v
theories/SpecShown.v
theories/ShownProofs.v
theories/PropertiesShown.v
theories/SpecVmLogs.v
theories/VmLogsProofs.v
theories/PropertiesVmLogs.v
theories/SpecReplay.v
theories/PropertiesReplay.v
theories/SpecReadable.v
theories/ReadableProofs.v
theories/PropertiesReadable.v
theories/SpecApply.v
theories/PropertiesApply.v
theories/JsJson.v
theories/SpecJsJson.v
theories/JsJsonProofs.v
theories/PropertiesJsJson.v
theories/SpecReuse.v
theories/ReuseProofs.v
theories/PropertiesReuse.v
theories/SpecAccepted.v
theories/AcceptedProofs.v
theories/PropertiesAccepted.v
theories/RevertReason.v
theories/SpecReason.v
theories/ReasonProofs.v
theories/PropertiesReason.v
theories/SpecEof.v
theories/EofProofs.v
theories/PropertiesEof.v
theories/SpecInterrupt.v
theories/InterruptProofs.v
theories/PropertiesInterrupt.v
theories/JsResult.v
theories/PropertiesJsResult.v
theories/SpecEofMore.v
theories/PropertiesEofMore.v
theories/SpecCutLogs.v
theories/CutLogProofs.v
theories/PropertiesCutLogs.v
theories/PropertiesKept.v
theories/SpecCutText.v
theories/CutTextProofs.v
theories/CutGoingProofs.v
theories/PropertiesCutText.v
theories/SpecReuseCut.v
theories/ReuseCutProofs.v
theories/PropertiesReuseCut.v
theories/Stored.v
theories/SpecStored.v
theories/StoredProofs.v
theories/PropertiesStored.v
theories/SpecGasFlow.v
theories/GasFlowProofs.v
theories/PropertiesGasFlow.v
theories/SpecReading.v
theories/ReadingProofs.v
theories/PropertiesReading.v
theories/SpecFlat.v
theories/FlatProofs.v
theories/PropertiesFlat.v
theories/SpecLedger.v
theories/LedgerProofs.v
theories/PropertiesLedger.v
theories/SpecCreated.v
theories/CreatedProofs.v
theories/PropertiesCreated.v
theories/SpecWrites.v
theories/WritesProofs.v
theories/PropertiesWrites.v
theories/SpecReceipt.v
theories/ReceiptProofs.v
theories/PropertiesReceipt.v
theories/SpecSettle.v
theories/PropertiesSettle.v
theories/SpecCover.v
theories/PropertiesCover.v
theories/PropertiesTop.v
theories/SpecEdited.v
theories/FlagProofs.v
theories/PropertiesEdited.v
theories/PlainProofs.v
theories/PropertiesDecorated.v
theories/SpecAlone.v
theories/AloneProofs.v
theories/PropertiesAlone.v
theories/SpecMoved.v
theories/PropertiesMoved.v
theories/PropertiesDeepText.v
theories/SpecCallbacks.v
theories/PropertiesCallbacks.v
theories/SpecRecorded.v
theories/PropertiesRecorded.v
theories/PropertiesSums.v
