-Q theories Verif
theories/Base.v
theories/Num.v
theories/Rng.v
theories/Histogram.v
theories/Utils.v
theories/Criteria.v
theories/Solvers.v
theories/Tree.v
theories/Forest.v
theories/Samples.v
theories/Spec.v
theories/NumFacts.v
theories/ListFacts.v
theories/HistFacts.v
theories/HistAdd.v
theories/CritFacts.v
theories/ReductionFacts.v
theories/MakeHist.v
theories/SampleFacts.v
theories/HistProps.v
theories/HistProps2.v
theories/PropsHist.v
theories/VarSpec.v
theories/VarFacts.v
theories/PropsVar.v
theories/ExactFacts.v
theories/ExactTotal.v
theories/SolverSpec.v
theories/ExactProps.v
theories/PropsExact.v
theories/DrawFacts.v
theories/MabFacts.v
theories/MabLoop.v
theories/MabProps.v
theories/MabMore.v
theories/MabSim.v
theories/MabThms.v
theories/PropsMab.v
theories/TreeSpec.v
theories/TreeFacts.v
theories/CountFacts.v
theories/TreeThms.v
theories/Terminate.v
theories/TreeTotal.v
theories/TreeMore.v
theories/TreeValue.v
theories/BestFirst.v
theories/TrainSpec.v
theories/TrainFacts.v
theories/TrainExact.v
theories/TreeArgs.v
theories/TreeWitness.v
theories/PropsTree.v
theories/Repro.v
theories/ForestSpec.v
theories/ForestFacts.v
theories/ForestThms.v
theories/ForestDraws.v
theories/ForestRun.v
theories/ForestMore.v
theories/ForestTotal.v
theories/ForestOob.v
theories/ForestMdi.v
theories/ForestLife.v
theories/ForestRepro.v
theories/NpStill.v
theories/FInvarSpec.v
theories/ForestMove.v
theories/ForestRound.v
theories/BoostError.v
theories/ForestWitness.v
theories/PropsForest.v
theories/UtilsFacts.v
theories/PropsUtils.v
theories/EntSpec.v
theories/EntFacts.v
theories/PropsEntropy.v
theories/Permutation.v
theories/PermSpec.v
theories/PermFacts.v
theories/PermLife.v
theories/PermWitness.v
theories/PermMore.v
theories/PropsPerm.v
theories/Wrappers.v
theories/WrapSpec.v
theories/WrapFacts.v
theories/Columns.v
theories/WrapLife.v
theories/WrapTotal.v
theories/WrapBase.v
theories/WrapWitness.v
theories/PropsWrap.v
theories/FloatBin.v
theories/FloatSpec.v
theories/FloatFacts.v
theories/PropsFloat.v
theories/Vector.v
theories/VectorFacts.v
theories/VectorRed.v
theories/VectorHist.v
theories/PropsVector.v
theories/TrustSpec.v
theories/MabTrust.v
theories/TrustWitness.v
theories/PropsTrust.v
theories/InvarSpec.v
theories/MoveFacts.v
theories/TreeSim.v
theories/InvarWitness.v
theories/PropsInvariance.v
theories/FInvarWitness.v
theories/PropsFInvar.v
theories/TrainWitness.v
theories/PropsTrain.v
theories/TreeGen.v
theories/TreeGenSpec.v
theories/TreeGenFacts.v
theories/TreeGenThms.v
theories/TreeGenTotal.v
theories/GenWitness.v
theories/GenMore.v
theories/PropsGen.v
theories/CopySpec.v
theories/CopyFacts.v
theories/CopySim.v
theories/CopyWitness.v
theories/PropsCopy.v
theories/BiasVar.v
theories/BiasVarFacts.v
theories/PropsBias.v
theories/ForestReset.v
theories/ResetWitness.v
theories/PropsReset.v
theories/ColSpec.v
theories/ColSim.v
theories/ColThms.v
theories/ColWitness.v
theories/PropsCol.v
theories/FColSpec.v
theories/ForestCol.v
theories/FColThms.v
theories/FColWitness.v
theories/PropsFCol.v
theories/NestSpec.v
theories/NestThms.v
theories/NestTree.v
theories/NestForest.v
theories/NestWitness.v
theories/PropsNest.v
theories/GrowSpec.v
theories/GrowFacts.v
theories/GrowThms.v
theories/GrowSeed.v
theories/GrowStops.v
theories/GrowForest.v
theories/GrowWitness.v
theories/PropsGrow.v
theories/PileFacts.v
theories/PileWitness.v
theories/PropsPile.v
theories/OrderSpec.v
theories/OrderThms.v
theories/OrderWitness.v
theories/PropsOrder.v
theories/EnsSpec.v
theories/EnsThms.v
theories/EnsWitness.v
theories/PropsEns.v
theories/TwiceThms.v
theories/TwiceWitness.v
theories/PropsTwice.v
theories/BlindThms.v
theories/BlindWitness.v
theories/PropsBlind.v
theories/Compare.v
theories/Baseline.v
theories/CompareSpec.v
theories/CompareThms.v
theories/CompareMore.v
theories/CompareWitness.v
theories/PropsCompare.v
theories/Stability.v
theories/StabSpec.v
theories/StabThms.v
theories/StabWitness.v
theories/PropsStab.v
theories/ReportSpec.v
theories/ReportThms.v
theories/ReportWitness.v
theories/PropsReport.v
theories/BudgetSpec.v
theories/BudgetThms.v
theories/BudgetWitness.v
theories/PropsBudget.v
theories/FBudgetSpec.v
theories/FBudgetThms.v
theories/FBudgetWitness.v
theories/PropsFBudget.v
theories/BaselineSpec.v
theories/BaselineThms.v
theories/BaselineWitness.v
theories/PropsBaseline.v
theories/BanditSpec.v
theories/BanditThms.v
theories/BanditForest.v
theories/BanditWitness.v
theories/PropsBandit.v
theories/Scaling.v
theories/ScalingSpec.v
theories/ScalingThms.v
theories/ScalingWitness.v
theories/PropsScaling.v
theories/BatchSpec.v
theories/BatchThms.v
theories/BatchTree.v
theories/BatchWitness.v
theories/PropsBatch.v
theories/SmallTree.v
theories/SmallTrain.v
theories/SmallWitness.v
theories/PropsSmall.v
theories/SmallSpec.v
theories/SmallForest.v
theories/SmallForestWitness.v
theories/PropsSmallForest.v
theories/Heart.v
theories/HeartSpec.v
theories/HeartThms.v
theories/HeartWitness.v
theories/PropsHeart.v
theories/Tables.v
theories/TablesSpec.v
theories/TablesThms.v
theories/TablesWitness.v
theories/PropsTables.v
theories/Logs.v
theories/LogsSpec.v
theories/LogsThms.v
theories/LogsWitness.v
theories/PropsLogs.v
