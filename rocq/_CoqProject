-Q theories Verif
theories/PyStr.v
theories/Prog.v
theories/ProgFacts.v
theories/PyIO.v
theories/Base.v
theories/Spec.v
theories/Strip.v
theories/SpecFacts.v
theories/LineBuf.v
theories/LineBufSpec.v
theories/LineBufFacts.v
theories/LineBufProofs.v
theories/Override.v
theories/OverrideProofs.v
theories/PropLineBuf.v
theories/PropOverride.v
theories/Conc.v
theories/Locks.v
theories/LineBufConc.v
theories/LineBufConcProofs.v
theories/ReentConc.v
theories/PropConc.v
theories/Held.v
theories/Proc.v
theories/ProcSpec.v
theories/ProcFacts.v
theories/ProcMain.v
theories/ProcSeq.v
theories/ProcHist.v
theories/ProcProofs.v
theories/ProcSysProofs.v
theories/ProcTransp.v
theories/ProcMore.v
theories/ProcFull.v
theories/ProcRun.v
theories/ProcPool.v
theories/ProcPoolProofs.v
theories/MirConc.v
theories/Stable.v
theories/MirClose.v
theories/Sections.v
theories/MirSect.v
theories/MirLedgerSpec.v
theories/MirLedger.v
theories/PropProc.v
theories/PropPool.v
theories/ProcRace.v
theories/PropRace.v
theories/Atomic.v
theories/FileBuf.v
theories/FileFacts.v
theories/FileSpec.v
theories/FileMore.v
theories/FileStmt.v
theories/FileProofs.v
theories/PropFile.v
theories/Crash.v
theories/CrashSpec.v
theories/FileCrash.v
theories/PropCrash.v
theories/Serial.v
theories/FileConcSpec.v
theories/FileConc.v
theories/PropFileConc.v
theories/Blocks.v
theories/FileTmpSpec.v
theories/FileTmp.v
theories/PropFileTmp.v
theories/Json.v
theories/Host.v
theories/HostCli.v
theories/HostSpec.v
theories/HostInt.v
theories/HostFacts.v
theories/HostConc.v
theories/HostProofs.v
theories/PropHost.v
theories/JsonText.v
theories/JsonSpec.v
theories/JsonFacts.v
theories/JsonProofs.v
theories/HostJson.v
theories/PropJson.v
theories/HostCliSpec.v
theories/HostCliFacts.v
theories/HostCliProofs.v
theories/HostCliFlag.v
theories/HostCliConc.v
theories/HostLazy.v
theories/HostLazySpec.v
theories/HostLazyConc.v
theories/HostLedgerSpec.v
theories/HostLedger.v
theories/PropHostCli.v
theories/HostReads.v
theories/PropHostReads.v
theories/PropLock.v
theories/PropMirClose.v
theories/PropMirLedger.v
theories/PropHostLedger.v
theories/CountSpec.v
theories/CountProofs.v
theories/PropCount.v
theories/StopProofs.v
theories/PropStop.v
theories/Reader.v
theories/ReaderSpec.v
theories/ReaderProofs.v
theories/PropReader.v
theories/MsgSpec.v
theories/MsgProofs.v
theories/PropMsg.v
theories/Ctx.v
theories/CtxSpec.v
theories/CtxProofs.v
theories/PropCtx.v
theories/Print.v
theories/PrintSpec.v
theories/PrintProofs.v
theories/PrintProc.v
theories/PrintHost.v
theories/PrintFile.v
theories/PropPrint.v
theories/PropPrintFile.v
theories/PropPrintHost.v
theories/ProcGen.v
theories/PrintPool.v
theories/PrintPoolProofs.v
theories/PropPrintPool.v
theories/PrintThr.v
theories/PrintThrProofs.v
theories/PropPrintThr.v
theories/PrintCli.v
theories/PrintCliProofs.v
theories/PrintCliLines.v
theories/PropPrintCli.v
theories/PrintLogs.v
theories/PrintLogsProofs.v
theories/PrintLogsLines.v
theories/PropPrintLogs.v
theories/Lazy.v
theories/LazySpec.v
theories/LazyProofs.v
theories/LazyFuel.v
theories/PropLazy.v
theories/LazyCls.v
theories/LazyClsProofs.v
theories/LazyInit.v
theories/LazyInitProofs.v
theories/PropLazyCls.v
theories/HostNet.v
theories/HostNetSpec.v
theories/HostNetProofs.v
theories/HostNetSim.v
theories/HostNetSeq.v
theories/PropHostNet.v
theories/Flaky.v
theories/FlakySpec.v
theories/Okp.v
theories/WriteRetSpec.v
theories/WriteRet.v
theories/FlakyFacts.v
theories/FlakyCalls.v
theories/FlakyHost.v
theories/FlakyBuf.v
theories/FlakyInv.v
theories/FlakyProofs.v
theories/FlakyServer.v
theories/FlakyServerSpec.v
theories/FlakyServerProofs.v
theories/FlakyProcGen.v
theories/FlakyProcSpec.v
theories/FlakyProcMir.v
theories/FlakyProcMain.v
theories/FlakyProcAlways.v
theories/PropFlaky.v
theories/PropFlakyBuf.v
theories/PropFlakyServer.v
theories/PropFlakyProc.v
theories/PropWrite.v
theories/Rely.v
theories/LazyThr.v
theories/LazyThrSpec.v
theories/LazyThrInv.v
theories/LazyThrProofs.v
theories/LazyThrMain.v
theories/LocksOk.v
theories/LazyThrLock.v
theories/LazyThrCases.v
theories/PropLazyThr.v
theories/LazyImp.v
theories/LazyImpSpec.v
theories/LazyImpProofs.v
theories/PropLazyImp.v
theories/LazyDots.v
theories/LazyDotsSpec.v
theories/LazyDotsProofs.v
theories/PropLazyDots.v
theories/Kill.v
theories/KillFacts.v
theories/KillRely.v
theories/KillFileSpec.v
theories/KillFile.v
theories/KillFileOps.v
theories/KillFileCalls.v
theories/KillFileAll.v
theories/KillFileEnd.v
theories/PropKill.v
theories/KillProcSpec.v
theories/KillLock.v
theories/KillOwn.v
theories/KillProc.v
theories/PropKillProc.v
theories/KillRecover.v
theories/PropKillRecover.v
theories/KillHostSpec.v
theories/KillHost.v
theories/PropKillHost.v
theories/Headers.v
theories/HeadersSpec.v
theories/HeadersProofs.v
theories/PropHeaders.v
theories/Timeout.v
theories/TimeoutSpec.v
theories/TimeoutProofs.v
theories/PropTimeout.v
theories/FlakyHostSpec.v
theories/FlakyHostMir.v
theories/PropFlakyHost.v
theories/FlakyFileSpec.v
theories/FlakyFile.v
theories/PropFlakyFile.v
theories/WaitStopSpec.v
theories/WaitStop.v
theories/PropWaitStop.v
theories/LazyRepr.v
theories/LazyReprProofs.v
theories/PropLazyRepr.v
theories/LazyFrom.v
theories/LazyFromProofs.v
theories/PropLazyFrom.v
