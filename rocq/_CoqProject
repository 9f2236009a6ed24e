-Q theories Verif
theories/Prog.v
theories/Mp11.v
theories/Mem.v
theories/Stack.v
theories/Interp.v
theories/SimBase.v
theories/SimOps.v
theories/SimLoad.v
theories/SimCtx.v
theories/Sim.v
theories/PropsSim.v
theories/Wb.v
theories/Frame.v
theories/View.v
theories/PropsScope.v
theories/Recv.v
theories/PropsUnload.v
theories/PropsHandle.v
theories/Scope.v
theories/Try.v
theories/PropsTry.v
theories/PropsTry2.v
theories/PropsTryEx.v
theories/Ids.v
theories/PropsIds.v
theories/PropsMp11.v
theories/Demangle.v
theories/PropsDemangle.v
theories/TlsArray.v
theories/PropsTls.v
theories/TlsOther.v
theories/PropsTlsOther.v
theories/Pred.v
theories/PropsPred.v
theories/Optional.v
theories/PropsOptional.v
theories/CapList.v
theories/PropsCapList.v
theories/ResultObj.v
theories/PropsResultObj.v
theories/OnErrorObj.v
theories/PropsOnErrorObj.v
theories/Glob.v
theories/Load.v
theories/PropsLoad.v
theories/PropsCurrent.v
theories/PropsCatch.v
theories/Local.v
theories/Threads.v
theories/PropsThreads.v
theories/Derived.v
theories/PropsConv.v
theories/PropsNest.v
theories/PropsCapture.v
theories/PropsValue.v
theories/PropsCtxSeq.v
theories/Own.v
theories/PropsOwn.v
theories/PropsForeign.v
theories/Print.v
theories/PropsPrint.v
theories/NoExcept.v
theories/PropsNoExcept.v
theories/PropsDetails.v
theories/Safe.v
theories/PropsSafe.v
theories/PropsMutate.v
theories/Share.v
theories/PropsShare.v
theories/PropsMove.v
theories/PropsWhole.v
theories/PropsBoost.v
theories/Config.v
theories/ConfigCap.v
theories/PropsConfig.v
theories/Traits.v
theories/PropsTraits.v
theories/LastError.v
theories/PropsLastError.v
theories/PropsLaws.v
theories/PropsSafeRuns.v
theories/Unwind.v
theories/PropsUnwind.v
theories/ResultThrow.v
theories/PropsResultThrow.v
theories/Invariant.v
theories/PropsLeak.v
theories/PropsAlloc.v
theories/Morph.v
theories/Oom.v
theories/PropsOom.v
theories/PropsOomSafe.v
theories/MorphN.v
theories/ConfigN.v
theories/PropsBuildN.v
theories/PropsTrace.v
theories/LocalN.v
theories/Rename.v
theories/PropsOpaque.v
theories/RepoTests.v
theories/RepoExamples.v
theories/Settings.v
theories/PropsSettings.v
