-Q theories Verif
theories/Base.v
theories/Types.v
theories/Math.v
theories/Layout.v
theories/Instr.v
theories/External.v
theories/Processor.v
theories/Runtime.v
theories/Declared.v
theories/Pda.v
theories/Client.v
theories/History.v
theories/Spec.v
theories/SpecReward.v
theories/SpecWindow.v
theories/SpecSolvency.v
theories/SpecLive.v
theories/SpecExact.v
theories/SpecPanic.v
theories/SpecNeeds.v
theories/SpecCan.v
theories/SpecSync.v
theories/SpecPda.v
theories/WorldLemmas.v
theories/Effects.v
theories/Handlers.v
theories/Touches.v
theories/Evolve.v
theories/Sane.v
theories/Wf.v
theories/Totals.v
theories/Arith.v
theories/Nets.v
theories/Caps.v
theories/Stakers.v
theories/Deposits.v
theories/Inv.v
theories/Life.v
theories/Tokens.v
theories/Gov.v
theories/Flow.v
theories/Rewards.v
theories/Collect.v
theories/Pays.v
theories/Progress.v
theories/Window.v
theories/Demo.v
theories/PropState.v
theories/PropTokens.v
theories/PropAuth.v
theories/PropReward.v
theories/Solvency.v
theories/PropSolvency.v
theories/Live.v
theories/LiveTokens.v
theories/LiveStake.v
theories/LiveMore.v
theories/Exact.v
theories/Panics.v
theories/PropLive.v
theories/PropWindow.v
theories/PropArith.v
theories/SpecWire.v
theories/Codec.v
theories/PropCodec.v
theories/PropDeclared.v
theories/PropExact.v
theories/PropPanic.v
theories/Needs.v
theories/PropNeeds.v
theories/Can.v
theories/PropCan.v
theories/Sync.v
theories/PropSync.v
theories/PdaFacts.v
theories/PropPda.v
theories/PropClient.v
theories/JsClient.v
theories/PropJs.v
theories/SpecLocal.v
theories/Local.v
theories/PropLocal.v
theories/SpecExit.v
theories/Exit.v
theories/PropExit.v
theories/SpecError.v
theories/Errors.v
theories/PropError.v
theories/SpecShare.v
theories/PropShare.v
theories/Kinds.v
theories/Tx.v
theories/SpecTx.v
theories/TxLemmas.v
theories/DemoTx.v
theories/PropTx.v
theories/Idl.v
theories/SpecIdl.v
theories/PropIdl.v
theories/SpecHolder.v
theories/PropHolder.v
theories/RustBuild.v
theories/SpecBuild.v
theories/PropBuild.v
theories/SpecBook.v
theories/Books.v
theories/PropBook.v
theories/SpecOrder.v
theories/Order.v
theories/PropOrder.v
theories/Conform.v
theories/ConformInit.v
theories/ConformStake.v
theories/ConformUnstake.v
theories/ConformSlash.v
theories/ConformSync.v
theories/ConformUnit.v
theories/SpecOver.v
theories/Over.v
theories/PropOver.v
theories/SpecRun.v
theories/PropRun.v
theories/SpecSplit.v
theories/PropSplit.v
theories/SpecDocs.v
theories/PropDocs.v
theories/SpecBytes.v
theories/PropBytes.v
theories/SpecSquat.v
theories/PropSquat.v
theories/SpecCause.v
theories/PropCause.v
theories/Cpi.v
theories/SpecCpi.v
theories/PropCpi.v
theories/SpecDust.v
theories/PropDust.v
theories/SpecBank.v
theories/PropBank.v
theories/SpecSupply.v
theories/PropSupply.v
theories/SpecStray.v
theories/PropStray.v
theories/SpecSheet.v
theories/PropSheet.v
theories/PropCushion.v
