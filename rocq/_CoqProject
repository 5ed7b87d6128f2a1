-Q theories Verif

theories/L_Abc.v
theories/L_AbcProps.v
theories/L_Aco.v
theories/L_AcoProps.v
theories/L_Bees.v
theories/L_BeesEx.v
theories/L_Breed.v
theories/L_Breed2.v
theories/L_Breed3.v
theories/L_BreedEx.v
theories/L_BreedFit.v
theories/L_Built.v
theories/L_BuiltEx.v
theories/L_Children.v
theories/L_Clone.v
theories/L_Cold.v
theories/L_ColdEx.v
theories/L_ColdFit.v
theories/L_ColdModel.v
theories/L_ColdRuns.v
theories/L_Combined.v
theories/L_CombinedEx.v
theories/L_CombinedMany.v
theories/L_CombinedProps.v
theories/L_Composition.v
theories/L_Constrained.v
theories/L_ConstrainedEx.v
theories/L_Discovery.v
theories/L_DiscoveryEx.v
theories/L_DiscoveryProps.v
theories/L_Equivariance.v
theories/L_Ext.v
theories/L_Filters.v
theories/L_Fit.v
theories/L_FitClean.v
theories/L_FitEx.v
theories/L_FitInv.v
theories/L_FitProps.v
theories/L_FitSeeds.v
theories/L_Fitness.v
theories/L_Float.v
theories/L_FloatDraw.v
theories/L_FloatDrawEx.v
theories/L_FloatEx.v
theories/L_FloatFitness.v
theories/L_FloatFitnessEx.v
theories/L_FloatMix.v
theories/L_FloatProps.v
theories/L_FloatRates.v
theories/L_FloatRatesEx.v
theories/L_FloatTau.v
theories/L_Fold.v
theories/L_Forest.v
theories/L_GA.v
theories/L_GAProps.v
theories/L_GenomeOps.v
theories/L_GenomeProps.v
theories/L_Guided.v
theories/L_GuidedEx.v
theories/L_Heap.v
theories/L_HeapProps.v
theories/L_Held.v
theories/L_History.v
theories/L_Hunt.v
theories/L_HuntStep.v
theories/L_Invariance.v
theories/L_Json.v
theories/L_JsonEx.v
theories/L_JsonKeep.v
theories/L_JsonProps.v
theories/L_List.v
theories/L_LiveAco.v
theories/L_LiveComp.v
theories/L_LiveDisc.v
theories/L_LiveEx.v
theories/L_LiveFit.v
theories/L_LiveMore.v
theories/L_LiveNs.v
theories/L_LiveSaga.v
theories/L_LiveSwarm.v
theories/L_LogEx.v
theories/L_LogFit.v
theories/L_LogMetrics.v
theories/L_LogSim.v
theories/L_LogStats.v
theories/L_Matching.v
theories/L_MatchingProps.v
theories/L_Mixing.v
theories/L_MixingProps.v
theories/L_More.v
theories/L_MoreEx.v
theories/L_Moves.v
theories/L_MovesEx.v
theories/L_MovesQ.v
theories/L_Novelty.v
theories/L_NoveltyEx.v
theories/L_NoveltyNum.v
theories/L_NoveltyProps.v
theories/L_NoveltyRun.v
theories/L_NoveltyScore.v
theories/L_Num.v
theories/L_Objects.v
theories/L_ObjectsEx.v
theories/L_OrderComp.v
theories/L_OrderEx.v
theories/L_OrderFit.v
theories/L_OrderHist.v
theories/L_OrderRules.v
theories/L_OrderShip.v
theories/L_Origin.v
theories/L_Overlap.v
theories/L_OverlapEx.v
theories/L_OverlapProps.v
theories/L_Parallel.v
theories/L_ParallelEx.v
theories/L_Params.v
theories/L_Patience.v
theories/L_PictureEx.v
theories/L_Predicting.v
theories/L_PredictingEx.v
theories/L_Prepare.v
theories/L_Prepared.v
theories/L_Quantum.v
theories/L_Ranks.v
theories/L_Ratio.v
theories/L_Repeat.v
theories/L_RepeatEx.v
theories/L_Representation.v
theories/L_Resume.v
theories/L_ResumeEx.v
theories/L_Rng.v
theories/L_Rule.v
theories/L_RuleGen.v
theories/L_RuleGenProps.v
theories/L_RuleHeap.v
theories/L_RuleProps.v
theories/L_Safe.v
theories/L_SafeFit.v
theories/L_Saga.v
theories/L_SagaProps.v
theories/L_Sas.v
theories/L_SasProps.v
theories/L_Saved.v
theories/L_SavedEx.v
theories/L_SavedProps.v
theories/L_Scaling.v
theories/L_Scores.v
theories/L_ScoresOrder.v
theories/L_Setting.v
theories/L_Shipped.v
theories/L_ShippedEx.v
theories/L_ShippedFit.v
theories/L_ShippedInit.v
theories/L_Swarm.v
theories/L_SwarmProps.v
theories/L_Tandem.v
theories/L_Tested.v
theories/L_TestedMix.v
theories/L_TestedNs.v
theories/L_Text.v
theories/L_Units.v
theories/L_UnitsComp.v
theories/L_UnitsDisc.v
theories/L_UnitsEx.v
theories/L_UnitsFit.v
theories/L_UnitsNs.v
theories/L_UnitsShip.v
theories/L_Utils.v
theories/L_Values.v
theories/L_Verbose.v
theories/L_VerboseCalls.v
theories/L_VerboseEx.v
theories/L_VerboseProps.v
theories/L_Weight.v
theories/L_WeightEx.v
theories/L_WeightNs.v
theories/L_WeightShip.v
theories/L_WeightZero.v
theories/L_Wrapper.v
theories/M_Abc.v
theories/M_Aco.v
theories/M_Classes.v
theories/M_Combined.v
theories/M_Components.v
theories/M_Composition.v
theories/M_Defaults.v
theories/M_Discovery.v
theories/M_Fit.v
theories/M_Fitness.v
theories/M_Float.v
theories/M_FloatDraw.v
theories/M_FloatFitness.v
theories/M_FloatRates.v
theories/M_GA.v
theories/M_GenomeOps.v
theories/M_Json.v
theories/M_Logging.v
theories/M_Matching.v
theories/M_Mixing.v
theories/M_Novelty.v
theories/M_Objects.v
theories/M_Parallel.v
theories/M_Rule.v
theories/M_RuleGen.v
theories/M_RuleHeap.v
theories/M_Saga.v
theories/M_Sas.v
theories/M_Saved.v
theories/M_Scores.v
theories/M_Shipped.v
theories/M_Solution.v
theories/M_Swarm.v
theories/M_Tested.v
theories/M_Utils.v
theories/M_Verbose.v
theories/P_Abc.v
theories/P_Aco.v
theories/P_Bees.v
theories/P_Breed.v
theories/P_Built.v
theories/P_Cold.v
theories/P_Combined.v
theories/P_Composition.v
theories/P_Constrained.v
theories/P_Discovery.v
theories/P_Equivariance.v
theories/P_Filters.v
theories/P_Fit.v
theories/P_Fitness.v
theories/P_Float.v
theories/P_FloatDraw.v
theories/P_FloatFitness.v
theories/P_FloatRates.v
theories/P_GA.v
theories/P_GenomeOps.v
theories/P_Guided.v
theories/P_Invariance.v
theories/P_Json.v
theories/P_Live.v
theories/P_Logging.v
theories/P_Matching.v
theories/P_Mixing.v
theories/P_More.v
theories/P_Moves.v
theories/P_Novelty.v
theories/P_Order.v
theories/P_Overlap.v
theories/P_Parallel.v
theories/P_Patience.v
theories/P_Picture.v
theories/P_Predicting.v
theories/P_Prepare.v
theories/P_Repeat.v
theories/P_Resume.v
theories/P_Rule.v
theories/P_RuleGen.v
theories/P_Saga.v
theories/P_Sas.v
theories/P_Saved.v
theories/P_Scores.v
theories/P_Setting.v
theories/P_Shipped.v
theories/P_Solution.v
theories/P_Swarm.v
theories/P_Tested.v
theories/P_Units.v
theories/P_Utils.v
theories/P_Verbose.v
theories/P_Weight.v
theories/P_Wrapper.v
theories/PyFloat.v
theories/PyList.v
theories/PyMon.v
theories/PyNum.v
theories/PyRng.v
theories/PyStat.v
theories/S_Abc.v
theories/S_Aco.v
theories/S_Bees.v
theories/S_Breed.v
theories/S_Built.v
theories/S_Cold.v
theories/S_ColdFit.v
theories/S_Combined.v
theories/S_Composition.v
theories/S_Constrained.v
theories/S_Discovery.v
theories/S_Equivariance.v
theories/S_Filters.v
theories/S_Fit.v
theories/S_Fitness.v
theories/S_Float.v
theories/S_FloatDraw.v
theories/S_FloatRates.v
theories/S_GA.v
theories/S_GenomeOps.v
theories/S_Guided.v
theories/S_Invariance.v
theories/S_Json.v
theories/S_Live.v
theories/S_Logging.v
theories/S_Matching.v
theories/S_Mixing.v
theories/S_More.v
theories/S_Moves.v
theories/S_Novelty.v
theories/S_Objects.v
theories/S_Optimizers.v
theories/S_Order.v
theories/S_Overlap.v
theories/S_Parallel.v
theories/S_Patience.v
theories/S_Predicting.v
theories/S_Repeat.v
theories/S_Resume.v
theories/S_Rule.v
theories/S_RuleHeap.v
theories/S_Saga.v
theories/S_Sas.v
theories/S_Saved.v
theories/S_Scores.v
theories/S_Setting.v
theories/S_Shipped.v
theories/S_Solution.v
theories/S_Swarm.v
theories/S_Tested.v
theories/S_Units.v
theories/S_Utils.v
theories/S_Verbose.v
theories/S_Weight.v
