-Q theories Verif
theories/Base.v
theories/BaseFacts.v
theories/Ext.v
theories/Prim.v
theories/PrimFacts.v
theories/PrimScore.v
theories/GammaWitness.v
theories/PrimSums.v
theories/PoissonSum.v
theories/PrimSpec.v
theories/PrimLift.v
theories/P01_Prim.v
theories/LogSpace.v
theories/LogSpaceFacts.v
theories/P02_LogSpace.v
theories/Crp.v
theories/ListFacts.v
theories/CrpFacts.v
theories/P03_Crp.v
theories/Validation.v
theories/CrpSim.v
theories/CrpSimFacts.v
theories/CrpConFacts.v
theories/CrpDepFacts.v
theories/Prob.v
theories/CrpDensity.v
theories/CrpDepDensity.v
theories/P04_CrpSim.v
theories/Network.v
theories/NetworkFacts.v
theories/Importance.v
theories/ImportanceFacts.v
theories/ImportanceLaw.v
theories/P05_Network.v
theories/Dim.v
theories/DimFacts.v
theories/View.v
theories/ViewFacts.v
theories/Classes.v
theories/ClassFacts.v
theories/RowFacts.v
theories/RowGibbs.v
theories/ViewUndo.v
theories/P06_Dim.v
theories/P07_View.v
theories/P08_ViewErrors.v
theories/Partition.v
theories/State.v
theories/StateFacts.v
theories/ColumnFacts.v
theories/P09_State.v
theories/P10_Columns.v
theories/P11_StateErrors.v
theories/Query.v
theories/QueryFacts.v
theories/QueryNet.v
theories/P12_ViewQuery.v
theories/PartitionFacts.v
theories/StateQuery.v
theories/SimFacts.v
theories/SimLaw.v
theories/P13_StateQuery.v
theories/Compose.v
theories/ComposeFacts.v
theories/P14_Compose.v
theories/P15_Pairwise.v
theories/Schedule.v
theories/P16_Schedule.v
theories/ParallelMap.v
theories/P17_Parallel.v
theories/P18_Score.v
theories/Engine.v
theories/P19_Engine.v
theories/DummyCode.v
theories/P20_DummyCode.v
theories/Sampling.v
theories/P21_Sampling.v
theories/Holders.v
theories/P22_Holders.v
theories/RealField.v
theories/Linreg.v
theories/MatrixFacts.v
theories/LinregFacts.v
theories/P23_Linreg.v
theories/FactorAnalysis.v
theories/P24_Factor.v
theories/Relevance.v
theories/PrimSim.v
theories/P25_Simulate.v
theories/RelevanceFacts.v
theories/RelevanceState.v
theories/P26_Relevance.v
theories/P28_RowKernel.v
theories/P29_Targets.v
theories/P30_Answers.v
theories/Metadata.v
theories/MetadataFacts.v
theories/P27_Metadata.v
theories/SettledFacts.v
theories/P31_Rebuild.v
theories/Knn.v
theories/P32_Knn.v
theories/Ensemble.v
theories/P33_Ensemble.v
theories/Grids.v
theories/P34_Grids.v
theories/ProgressFacts.v
theories/ProgressHistory.v
theories/ProgressEdits.v
theories/P35_Progress.v
theories/Backends.v
theories/BackendsFacts.v
theories/BackendsCodes.v
theories/BackendsLoom.v
theories/P36_Backends.v
theories/Entropy.v
theories/EntropyFacts.v
theories/EntropyNear.v
theories/P37_Entropy.v
theories/Synthetic.v
theories/SyntheticLaw.v
theories/P38_Synthetic.v
theories/Venture.v
theories/VentureFacts.v
theories/P39_Venture.v
theories/VsInline.v
theories/P40_Inline.v
theories/Schema.v
theories/P41_Schema.v
theories/TestData.v
theories/P42_TestData.v
theories/Kde.v
theories/P43_Kde.v
theories/Mvnormal.v
theories/P44_Mvnormal.v
theories/Saved.v
theories/P45_Saved.v
theories/MutualInfo.v
theories/P46_MutualInfo.v
theories/P47_InfoWhole.v
theories/SharedData.v
theories/P48_SharedData.v
theories/EngineSaved.v
theories/P49_EngineSaved.v
theories/Bulk.v
theories/P50_Bulk.v
theories/P51_Density.v
