-Q theories Verif
theories/Base.v
theories/Base32.v
theories/Key.v
theories/Keyish.v
theories/BaseFacts.v
theories/Base32Facts.v
theories/SpecKey.v
theories/KeyFacts.v
theories/PropsKey.v
theories/Cbor.v
theories/Object.v
theories/Path.v
theories/World.v
theories/Store.v
theories/File.v
theories/Filter.v
theories/Dir.v
theories/Diff.v
theories/Commit.v
theories/Pretty.v
theories/Main.v
theories/CborFacts.v
theories/ObjectFacts.v
theories/WorldFacts.v
theories/TableFacts.v
theories/SpecStore.v
theories/StoreCalls.v
theories/StoreFacts.v
theories/Frame.v
theories/DbRel.v
theories/SpecRun.v
theories/SpecTrace.v
theories/SpecResolve.v
theories/Integrity.v
theories/ObjStoreFacts.v
theories/ResolveFacts.v
theories/SessionFacts.v
theories/Toy.v
theories/PropsObject.v
theories/PropsStore.v
theories/SpecFile.v
theories/FilePlan.v
theories/FileFacts.v
theories/ChunkFacts.v
theories/FileRun.v
theories/ChunkWitness.v
theories/PropsFile.v
theories/SpecDir.v
theories/SpecCheckout.v
theories/FsFacts.v
theories/DirPlan.v
theories/DirFacts.v
theories/GetFacts.v
theories/DirTrip.v
theories/FetchSafe.v
theories/DirTree.v
theories/DirWalk.v
theories/WalkFacts.v
theories/DirLive.v
theories/CheckoutFacts.v
theories/PropsDir.v
theories/SortFacts.v
theories/SpecClosure.v
theories/Closure.v
theories/Ends.v
theories/ToyRepo.v
theories/PropsClosure.v
theories/SpecCache.v
theories/CacheFacts.v
theories/HashFacts.v
theories/SpecProc.v
theories/SpecDiff.v
theories/CompareFacts.v
theories/DiffFacts.v
theories/SnapFacts.v
theories/Checks.v
theories/PropsCache.v
theories/PropsDiff.v
theories/SpecPatch.v
theories/SimplifyFacts.v
theories/PatchFacts.v
theories/Reader.v
theories/LineFacts.v
theories/SpecShow.v
theories/SpecCmd.v
theories/ShowFacts.v
theories/PropsShow.v
theories/ProcFacts.v
theories/QueryFacts.v
theories/InitFacts.v
theories/CmdFacts.v
theories/CheckoutCmd.v
theories/PropsMain.v
theories/PropsCheckout.v
theories/SpecOut.v
theories/OutFacts.v
theories/PropsCmd.v
theories/Lock.v
theories/SpecLock.v
theories/LockFacts.v
theories/ScriptFacts.v
theories/PlayFacts.v
theories/LockRun.v
theories/PropsLock.v
theories/SpecText.v
theories/TextFacts.v
theories/SpecShape.v
theories/ShapeFacts.v
theories/ShapeTop.v
theories/PropsShape.v
theories/PropsText.v
theories/SpecLive.v
theories/LiveFacts.v
theories/LiveDiff.v
theories/LiveCmd.v
theories/LiveStart.v
theories/LiveCheckout.v
theories/LiveStat.v
theories/LiveCache.v
theories/LiveStory.v
theories/PropsLive.v
theories/PropsStory.v
theories/PropsStat.v
theories/SpecPretty.v
theories/PrettyFacts.v
theories/PropsPretty.v
theories/SpecFetch.v
theories/LiveFetch.v
theories/LiveRead.v
theories/PropsFetch.v
theories/Screen.v
theories/SpecScreen.v
theories/ScreenFacts.v
theories/PropsScreen.v
theories/SpecHonest.v
theories/HonestFacts.v
theories/PropsHonest.v
theories/SpecRestore.v
theories/RestoreFacts.v
theories/PropsRestore.v
theories/SpecFatal.v
theories/FatalFacts.v
theories/FatalCmd.v
theories/PropsFatal.v
theories/SpecBranch.v
theories/BranchFacts.v
theories/PropsBranch.v
theories/TogetherFacts.v
theories/PropsTogether.v
theories/SpecHead.v
theories/HeadFacts.v
theories/PropsHead.v
theories/CleanFacts.v
theories/PropsClean.v
theories/PatternFacts.v
theories/SpecAgain.v
theories/AgainFacts.v
theories/PropsAgain.v
theories/SpecHistory.v
theories/HistoryFacts.v
theories/PropsHistory.v
theories/SpecChronicle.v
theories/ChronicleFacts.v
theories/PropsChronicle.v
theories/SpecInsert.v
theories/InsertFacts.v
theories/PropsInsert.v
theories/SwitchFacts.v
theories/PropsSwitch.v
theories/SpecPanic.v
theories/SparedFacts.v
theories/PanicFacts.v
theories/PropsPanic.v
theories/PaceFacts.v
theories/SpecNaming.v
theories/NameFacts.v
theories/PropsNaming.v
theories/SpecReport.v
theories/ReportFacts.v
theories/PropsReport.v
theories/SpecStoring.v
theories/StoringFacts.v
theories/PropsStoring.v
theories/SpecLooking.v
theories/LookingFacts.v
theories/PropsLooking.v
theories/StatFacts.v
theories/PropsCount.v
theories/CheckoutEnds.v
theories/PropsCheckoutEnd.v
theories/WalkEnds.v
theories/PropsWalkEnd.v
theories/SpecReturn.v
theories/Returns.v
theories/PropsReturn.v
