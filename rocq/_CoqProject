-Q theories Verif
theories/Base.v
theories/BMap.v
theories/MultiKeyMap.v
theories/MultiKeyMapFacts.v
theories/Bytes.v
theories/Types.v
theories/Amount.v
theories/Network.v
theories/Tx.v
theories/CallData.v
theories/Transactions.v
theories/Hex.v
theories/State.v
theories/Audit.v
theories/Ranges.v
theories/Rlp.v
theories/Parser.v
theories/Memo.v
theories/Driver.v
theories/Sys.v
theories/RangesFacts.v
theories/CodecFacts.v
theories/MapSpec.v
theories/MapRefine.v
theories/ArithFacts.v
theories/PropArith.v
theories/PropMap.v
theories/PropCodec1.v
theories/WtInv.v
theories/StateEquiv.v
theories/TxSpec.v
theories/WtContent.v
theories/Segments.v
theories/Tasks.v
theories/SysSpec.v
theories/SysFacts.v
theories/Scenario.v
theories/CoreInv.v
theories/Lifting.v
theories/WithdrawSpec.v
theories/WithdrawFacts.v
theories/StageFacts.v
theories/LogFacts.v
theories/UpgradeSpec.v
theories/UpgradeFacts.v
theories/PropUpgrade.v
theories/PropWithdraw.v
theories/GuardSpec.v
theories/Guards.v
theories/GuardFacts.v
theories/PropGuards.v
theories/WeakSteps.v
theories/DepositSpec.v
theories/Deposits.v
theories/MintFacts.v
theories/PropDeposit.v
theories/TokenSpec.v
theories/TokenFacts.v
theories/ParserSpec.v
theories/ParserFacts.v
theories/PropParse.v
theories/RlpSpec.v
theories/RlpFacts.v
theories/Views.v
theories/ScrapeSpec.v
theories/ScrapeFacts.v
theories/FeeSpec.v
theories/FeeFacts.v
theories/PropScrape.v
theories/PropFees.v
theories/QueueSpec.v
theories/QueueFacts.v
theories/ReadyFacts.v
theories/PropQueue.v
theories/ReimburseSpec.v
theories/ReimburseFacts.v
theories/BurnSpec.v
theories/BurnFacts.v
theories/PropReimburse.v
theories/CallSpec.v
theories/CallFacts.v
theories/CallStages.v
theories/PropCalls.v
theories/RecordSpec.v
theories/RecordFacts.v
theories/PropRecord.v
theories/BalanceSpec.v
theories/BalanceFacts.v
theories/PropBalance.v
theories/SolvencySpec.v
theories/SolvencyFacts.v
theories/PropSolvency.v
theories/FinalizeSpec.v
theories/FinalizeFacts.v
theories/PropFinalize.v
theories/Queries.v
theories/StatusSpec.v
theories/StatusFacts.v
theories/PropStatus.v
theories/QuoteFacts.v
theories/PropQuote.v
theories/Rpc.v
theories/RpcSpec.v
theories/RpcFacts.v
theories/PropRpc.v
theories/Cbor.v
theories/CborSpec.v
theories/CborFacts.v
theories/MemoFacts.v
theories/PropCbor.v
theories/TypedSpec.v
theories/TypedFacts.v
theories/PropTyped.v
theories/EventFacts.v
theories/PropEvents.v
theories/LiveSpec.v
theories/LiveFacts.v
theories/LiveRepay.v
theories/PropLive.v
theories/PublicEvents.v
theories/PublicSpec.v
theories/PublicFacts.v
theories/PropPublic.v
theories/Info.v
theories/InfoSpec.v
theories/InfoFacts.v
theories/PropInfo.v
theories/DriveSpec.v
theories/DriveFacts.v
theories/DriveRound.v
theories/PropDrive.v
theories/FoundSpec.v
theories/FoundFacts.v
theories/PropFound.v
theories/EndSpec.v
theories/EndFacts.v
theories/PropEnd.v
theories/Keccak.v
theories/Contract.v
theories/ContractSpec.v
theories/ContractFacts.v
theories/PropNet.v
theories/PropContract.v
theories/Ledger.v
theories/LedgerSpec.v
theories/LedgerFacts.v
theories/LedgerRun.v
theories/FundsSpec.v
theories/FundsFacts.v
theories/PropFunds.v
theories/PropLedger.v
theories/ProviderSpec.v
theories/ProviderFacts.v
theories/PropProviders.v
theories/OpenSpec.v
theories/OpenFacts.v
theories/PropOpen.v
theories/ReasonSpec.v
theories/ReasonFacts.v
theories/PropReason.v
theories/Sign.v
theories/NetSpec.v
theories/NetFacts.v
theories/SignSpec.v
theories/SignFacts.v
theories/PropSign.v
theories/Lsm.v
theories/LsmFacts.v
theories/PropLsm.v
theories/Logs.v
theories/LogsFacts.v
theories/PropLogs.v
theories/StuckSpec.v
theories/StuckFacts.v
theories/PropStuck.v
theories/Ask.v
theories/AskSpec.v
theories/AskFacts.v
theories/PropAsk.v
theories/BatchFacts.v
theories/PropBatch.v
theories/Key.v
theories/KeySpec.v
theories/KeyFacts.v
theories/PropKey.v
theories/PropLies.v
theories/RefuseSpec.v
theories/RefuseFacts.v
theories/PropRefuse.v
theories/OldestSpec.v
theories/OldestFacts.v
theories/PropOldest.v
theories/TimeSpec.v
theories/TimeFacts.v
theories/PropTime.v
