-Q theories Verif
theories/AcceptProofs.v
theories/ActiveProofs.v
theories/Base.v
theories/BaseLemmas.v
theories/BaseR.v
theories/BaseRLemmas.v
theories/BuiltProofs.v
theories/Canon.v
theories/CanonProofs.v
theories/Clean.v
theories/CleanProofs.v
theories/CleanProofs2.v
theories/CleanProofs3.v
theories/CleanProofs4.v
theories/CleanProofs5.v
theories/Dbtf.v
theories/DbtfExamples.v
theories/DbtfProofs.v
theories/Density.v
theories/DensityProofs.v
theories/Dispatch.v
theories/DispatchProofs.v
theories/EngineProofs.v
theories/ErgodicExamples.v
theories/ErgodicExamples2.v
theories/ErgodicProofs.v
theories/ErgodicProofs2.v
theories/ErgodicProofs3.v
theories/ErgodicProofs4.v
theories/ErgodicProofs5.v
theories/ErgodicProofs6.v
theories/ErgodicProofs7.v
theories/ErgodicProofs8.v
theories/ExperimentProofs.v
theories/ExperimentProofs2.v
theories/ExperimentProofs3.v
theories/ExperimentProofs4.v
theories/Experiments.v
theories/Extended.v
theories/ExtendedExamples.v
theories/ExtendedProofs.v
theories/FloatFuzzy.v
theories/FloatLambda.v
theories/FloatLambdaProofs.v
theories/FloatMachine.v
theories/FloatMachineProofs.v
theories/FloatMachineProofs2.v
theories/FloatMachineProofs3.v
theories/FloatMachineProofs4.v
theories/FloatMachineProofs5.v
theories/FloatMachineProofs6.v
theories/FloatMax.v
theories/FloatMaxProofs.v
theories/FloatMaxProofs2.v
theories/FloatProofs.v
theories/FloatProofs2.v
theories/FloatProofs3.v
theories/FloatProofs4.v
theories/FloatProofs5.v
theories/FloatProofs6.v
theories/FloatProofs7.v
theories/FloatProofs8.v
theories/FloatProofs9.v
theories/FloatQL.v
theories/FloatQLProofs.v
theories/FloatSampleProofs.v
theories/FloatSampleProofs2.v
theories/FloatSampleProofs3.v
theories/FloatSampleProofs4.v
theories/FloatSampleProofs5.v
theories/FloatSampling.v
theories/Frames.v
theories/FramesProofs.v
theories/Fuzzy.v
theories/FuzzyProofs.v
theories/FuzzyXorProofs.v
theories/GeneratorProofs.v
theories/GeneratorProofs2.v
theories/GeneratorProofs3.v
theories/GeneratorProofs4.v
theories/Generators.v
theories/GridProofs.v
theories/GrownExamples.v
theories/GrownProofs.v
theories/Helpers.v
theories/HelpersProofs.v
theories/HierProofs.v
theories/Ibp.v
theories/IbpProofs.v
theories/IbpProofs2.v
theories/IbpProofs3.v
theories/IbpProofs4.v
theories/IbpProofs5.v
theories/IbpRunProofs.v
theories/IbpRunProofs2.v
theories/IbpRunProofs3.v
theories/ImputeExamples.v
theories/ImputeProofs.v
theories/Inference.v
theories/InferenceProofs.v
theories/InferenceProofs2.v
theories/InferenceProofs3.v
theories/InferenceProofs4.v
theories/InferenceProofs5.v
theories/InferenceProofs6.v
theories/InferenceProofs7.v
theories/InferenceProofs8.v
theories/InferenceProofs9.v
theories/Invariance.v
theories/InvarianceProofs.v
theories/Lambda.v
theories/LambdaProofs.v
theories/LayerOutput.v
theories/LayerOutputProofs.v
theories/LayerOutputProofs2.v
theories/Lops.v
theories/LopsProofs.v
theories/Machine.v
theories/MachineExamples.v
theories/MachineProofs.v
theories/MachineProofs2.v
theories/MaxFuzzyProofs.v
theories/MaxMachine.v
theories/MaxMachineProofs.v
theories/MaxOrderProofs.v
theories/MaxRunProofs.v
theories/MaxRunProofs2.v
theories/OrdinaryExamples.v
theories/OrdinaryProofs.v
theories/OrdinaryProofs2.v
theories/OrdinaryProofs3.v
theories/OrdinaryProofs4.v
theories/OrdinaryProofs5.v
theories/OrdinaryProofs6.v
theories/OrdinaryProofs7.v
theories/Outputs.v
theories/OutputsProofs.v
theories/Parallel.v
theories/ParallelProofs.v
theories/ParallelReduce.v
theories/PassExamples.v
theories/PassProofs.v
theories/PlainProofs.v
theories/Predict.v
theories/PredictProofs.v
theories/PreserveLog.v
theories/PreserveProofs.v
theories/ProgressProofs.v
theories/PropAccept.v
theories/PropActive.v
theories/PropClean.v
theories/PropDbtf.v
theories/PropDensity.v
theories/PropDispatch.v
theories/PropErgodic.v
theories/PropExperiments.v
theories/PropExtended.v
theories/PropFloat.v
theories/PropFloatLambda.v
theories/PropFloatLong.v
theories/PropFloatMachine.v
theories/PropFloatMax.v
theories/PropFloatQL.v
theories/PropFloatRun.v
theories/PropFrames.v
theories/PropFurther.v
theories/PropFuzzy.v
theories/PropGenerate.v
theories/PropGenerators.v
theories/PropGrown.v
theories/PropHelpers.v
theories/PropIbp.v
theories/PropIbpRun.v
theories/PropImpute.v
theories/PropInference.v
theories/PropLambda.v
theories/PropLayerOutput.v
theories/PropMachine.v
theories/PropMaxMachine.v
theories/PropMaxRun.v
theories/PropOrdinary.v
theories/PropOutputs.v
theories/PropPass.v
theories/PropPredict.v
theories/PropQL.v
theories/PropQRun.v
theories/PropReconstruct.v
theories/PropReduce.v
theories/PropRelevance.v
theories/PropSampling.v
theories/PropScores.v
theories/PropShow.v
theories/PropTidy.v
theories/PropTools.v
theories/QL.v
theories/QLProofs.v
theories/QLProofs2.v
theories/QRunProofs.v
theories/QRunProofs2.v
theories/Reconstruct.v
theories/ReconstructProofs.v
theories/ReconstructProofs2.v
theories/ReconstructProofs3.v
theories/ReduceProofs.v
theories/Relevance.v
theories/RelevanceExamples.v
theories/RelevanceProofs.v
theories/RunProofs.v
theories/Sampling.v
theories/SamplingExamples.v
theories/SamplingProofs.v
theories/Scores.v
theories/ScoresProofs.v
theories/Show.v
theories/ShowExamples.v
theories/ShowProofs.v
theories/Spec.v
theories/SpecAccept.v
theories/SpecClean.v
theories/SpecDbtf.v
theories/SpecErgodic.v
theories/SpecExperiments.v
theories/SpecExtended.v
theories/SpecF.v
theories/SpecFloat.v
theories/SpecFloatMachine.v
theories/SpecFloatRun.v
theories/SpecFrames.v
theories/SpecGenerators.v
theories/SpecGrown.v
theories/SpecHelpers.v
theories/SpecIbp.v
theories/SpecIbpRun.v
theories/SpecImpute.v
theories/SpecMachine.v
theories/SpecMax.v
theories/SpecMaxF.v
theories/SpecMaxRun.v
theories/SpecOrdinary.v
theories/SpecOut.v
theories/SpecPass.v
theories/SpecPredict.v
theories/SpecQL.v
theories/SpecQRun.v
theories/SpecR.v
theories/SpecReconstruct.v
theories/SpecRelevance.v
theories/SpecShow.v
theories/SpecTidy.v
theories/SpecTools.v
theories/TidyExamples.v
theories/TidyProofs.v
theories/TidyProofs2.v
theories/TidyProofs3.v
theories/TidyProofs4.v
theories/TidyProofs5.v
theories/Tools.v
theories/ToolsProofs.v
theories/TraceProofs.v
theories/UnbiasedProofs.v
theories/UntouchedProofs.v
theories/UpdateProofs.v
