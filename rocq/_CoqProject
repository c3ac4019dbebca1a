-Q theories Verif
theories/Base.v
theories/Flags.v
theories/FlagsFacts.v
theories/BitSet.v
theories/BitSetFacts.v
theories/Matrix.v
theories/MatrixFacts.v
theories/F32.v
theories/F32Spec.v
theories/F32Facts.v
theories/Names.v
theories/NamesFacts.v
theories/GapFacts.v
theories/PropUtils.v
theories/NoDup.v
theories/FrontierSpec.v
theories/NoDupFacts.v
theories/FrontierFacts.v
theories/PropFrontier.v
theories/Spec.v
theories/Dd.v
theories/WideSpec.v
theories/WideCount.v
theories/DdSpec.v
theories/SortBy.v
theories/Table.v
theories/TableFacts.v
theories/DdFacts.v
theories/DdRelax.v
theories/DdExpand.v
theories/DdLoop.v
theories/DdFinal.v
theories/MddAll.v
theories/MddAllBounds.v
theories/MddAllFacts.v
theories/MddAllObs.v
theories/MddAllWide.v
theories/MddAllProofs.v
theories/MddCases.v
theories/PropMdd.v
theories/Fringe.v
theories/FringeSpec.v
theories/FringeFacts.v
theories/ParSolver.v
theories/ParSpec.v
theories/ParFacts.v
theories/ParOpt.v
theories/ParInt.v
theories/ParTerm.v
theories/ParCases.v
theories/EndCases.v
theories/ParProofs.v
theories/WideProofs.v
theories/PropParallel.v
theories/MddBarrier.v
theories/BarSolver.v
theories/BarWp.v
theories/MddBarrierLoop.v
theories/MddBarrierBounds.v
theories/MddBarrierObs.v
theories/MddBarrierProofs.v
theories/MddBarrierWide.v
theories/BarSpec.v
theories/BarFacts.v
theories/BarTerm.v
theories/BarSeq.v
theories/BarProofs.v
theories/BarWide.v
theories/BarCases.v
theories/PropBarrier.v
theories/RaceSpec.v
theories/RaceCases.v
theories/ApartCases.v
theories/PropRace.v
theories/Bits.v
theories/BitsFacts.v
theories/Tsptw.v
theories/TsptwSpec.v
theories/TsptwFacts.v
theories/TsptwMerge.v
theories/TsptwTours.v
theories/ExecAny.v
theories/TsptwPanic.v
theories/TsptwEstimate.v
theories/TsptwCases.v
theories/TsptwWide.v
theories/PropTsptw.v
theories/Text.v
theories/TextSpec.v
theories/TextFacts.v
theories/TextCheck.v
theories/ReadRows.v
theories/TsptwFile.v
theories/TsptwFileSpec.v
theories/TsptwFileFacts.v
theories/TsptwFileLoop.v
theories/TsptwFileNum.v
theories/TsptwFileProofs.v
theories/TsptwFileCases.v
theories/PropTsptwFile.v
theories/Psp.v
theories/PspSpec.v
theories/PspFacts.v
theories/PspPlans.v
theories/PspMerge.v
theories/PspEstimate.v
theories/PspProofs.v
theories/PspCases.v
theories/PspWide.v
theories/PropPsp.v
theories/Srflp.v
theories/SrflpSpec.v
theories/SrflpFacts.v
theories/SrflpLayouts.v
theories/SrflpMerge.v
theories/SrflpSort.v
theories/SrflpOrder.v
theories/SrflpFloat.v
theories/SrflpEstimate.v
theories/SrflpBound.v
theories/SrflpAdmissible.v
theories/SrflpFlows.v
theories/SrflpProofs.v
theories/SrflpCases.v
theories/SrflpWide.v
theories/PropSrflp.v
theories/SrflpFile.v
theories/SrflpFileSpec.v
theories/SrflpFileProofs.v
theories/SrflpFileSolve.v
theories/SrflpFileCases.v
theories/PropSrflpFile.v
theories/PspFile.v
theories/PspFileSpec.v
theories/PspFileProofs.v
theories/PspFileSolve.v
theories/PspFileCases.v
theories/PropPspFile.v
theories/MddBarrierSpec.v
theories/MddBarrierRuns.v
theories/BarClimb.v
theories/MddBarrierCases.v
theories/PropMddBarrier.v
theories/WideRuns.v
theories/WideCases.v
theories/PropWide.v
theories/Report.v
theories/ReportSpec.v
theories/ReportProofs.v
theories/ReportLine.v
theories/ReportCases.v
theories/PropReport.v
theories/Program.v
theories/ProgramSpec.v
theories/ProgramProofs.v
theories/ProgramCases.v
theories/PropProgram.v
theories/Timeout.v
theories/TimeoutSpec.v
theories/TimeoutProofs.v
theories/TimeoutCases.v
theories/PropTimeout.v
theories/CountersSpec.v
theories/CountersProofs.v
theories/DdCount.v
theories/DdCountMdd.v
theories/CountersCases.v
theories/PropCounters.v
theories/Again.v
theories/AgainSpec.v
theories/AgainProofs.v
theories/AgainBar.v
theories/AgainCases.v
theories/PropAgain.v
theories/Crash.v
theories/CrashSpec.v
theories/CrashProofs.v
theories/CrashBarProofs.v
theories/CrashGood.v
theories/CrashCases.v
theories/PropCrash.v
theories/SureSpec.v
theories/SureProofs.v
theories/SureBarProofs.v
theories/SureCases.v
theories/PropSure.v
theories/ObeySpec.v
theories/ObeyProofs.v
theories/ObeyBarProofs.v
theories/ObeyCases.v
theories/PropObey.v
theories/DrainInv.v
theories/DrainProofs.v
theories/DrainCases.v
theories/PropDrain.v
theories/AskedProofs.v
theories/TsptwDebug.v
theories/SizeSpec.v
theories/SizeProofs.v
theories/SizeSolvers.v
theories/EdgeProofs.v
theories/SizeCases.v
theories/PropSize.v
theories/CutProofs.v
theories/CutSolvers.v
theories/CutCases.v
theories/PropCut.v
theories/TreeSpec.v
theories/TreeSolvers.v
theories/TreeCases.v
theories/PropTree.v
