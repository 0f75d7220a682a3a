-Q theories Verif

theories/Base.v
theories/Spec.v
theories/BaseFacts.v
theories/LayMine.v
theories/LayMineProofs.v
theories/Metrics.v
theories/MetricsProofs.v
theories/Refresh.v
theories/RefreshProofs.v
theories/BBBVProofs.v
theories/PropsBoard.v
theories/MineBoard.v
theories/OpProofs.v
theories/MineBoardProofs.v
theories/MineBoardFrame.v
theories/GameStats.v
theories/PropsGame.v
theories/Matrix.v
theories/SolverSpec.v
theories/MatrixProofs.v
theories/Solve.v
theories/LinFacts.v
theories/DirectProofs.v
theories/ChunkProofs.v
theories/SolveProofs.v
theories/CombineProofs.v
theories/TableProofs.v
theories/EnumProofs.v
theories/EnumBlock.v
theories/EnumSolve.v
theories/PosProofs.v
theories/PropsSolver.v
theories/MatrixMeaning.v
theories/SafeBoard.v
theories/SafeBoardProofs.v
theories/BoardCache.v
theories/StoreProofs.v
theories/PropsStore.v
theories/Utils.v
theories/UtilsProofs.v
theories/PropsUtils.v
theories/PropsClick.v
theories/ShuffleProofs.v
theories/Evf.v
theories/EvfSpec.v
theories/EvfProofs.v
theories/EvfSafe.v
theories/PropsEvf.v
theories/FloatTime.v
theories/BaseVideo.v
theories/PropsPlayback.v
theories/PropsSetters.v
theories/SaveFile.v
theories/PropsFiles.v
theories/ReplayProofs.v
theories/PropsReplay.v
theories/Solvable.v
theories/SolvableSpec.v
theories/SolvableProofs.v
theories/UnsolvProofs.v
theories/SolvableLoop.v
theories/UnsolvFound.v
theories/PropsSolvable.v
theories/PropsShow.v
theories/Generate.v
theories/PropsGen.v
theories/Blocks.v
theories/Adjust.v
theories/BlocksProofs.v
theories/Guess.v
theories/GuessProofs.v
theories/GuessSpec.v
theories/PropsBlocks.v
theories/AdjustProofs.v
theories/PropsAdjust.v
theories/FloatQuot.v
theories/Possibility.v
theories/PossProofs.v
theories/PossSpec.v
theories/PossSums.v
theories/PossCode.v
theories/PossMain.v
theories/PropsPoss.v
theories/PossBoard.v
theories/PropsOpening.v
theories/OldVideos.v
theories/OldSpec.v
theories/OldLib.v
theories/OldAvf.v
theories/OldAvfMain.v
theories/OldSafe.v
theories/OldAvfSafe.v
theories/OldRmv.v
theories/OldRmvMain.v
theories/OldMvfKey.v
theories/OldMvf.v
theories/OldMvfWrite.v
theories/PropsOld.v
theories/Features.v
theories/MarkWorlds.v
theories/FeatReplay.v
theories/FeatProofs.v
theories/FeatSem.v
theories/PropsFeatures.v
theories/PropsTraces.v
theories/FloatTrace.v
theories/PropsMouse.v
theories/FLRun.v
theories/PropsFL.v
theories/BigNum.v
theories/FloatNear.v
theories/BigNumProofs.v
theories/BigBinom.v
theories/PropsBigNum.v
theories/PossFloat.v
theories/PossFloatProofs.v
theories/PossFloatMain.v
theories/PossFloatPos.v
theories/PropsPossFloat.v
theories/Stats.v
theories/StatsProofs.v
theories/PropsStats.v
theories/OpenFloat.v
theories/PropsOpenFloat.v
theories/FeatFloat.v
theories/FeatFloatProofs.v
theories/PropsFeatFloat.v
theories/PathFloat.v
theories/PathProofs.v
theories/PropsPath.v
theories/ExpSpec.v
theories/ExpProofs.v
theories/Sample.v
theories/SampleProofs.v
theories/PropsExp.v
theories/RobustProofs.v
theories/PropsRobust.v
theories/OpenTotal.v
theories/RobustFloat.v
theories/OpenTotalFloat.v
theories/BigBlocks.v
theories/BigBlocksFloat.v
