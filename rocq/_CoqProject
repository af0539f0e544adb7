-Q theories Verif
theories/Base.v
theories/BaseProofs.v
theories/Cache.v
theories/CacheSpec.v
theories/CacheProofs.v
theories/Tree.v
theories/TreeProofs.v
theories/ModuleTree.v
theories/ModuleTreeProofs.v
theories/CacheRefutations.v
theories/PropertiesCache.v
theories/Sample.v
theories/SampleSpec.v
theories/SampleProofs.v
theories/SampleFlagSpec.v
theories/SampleFlagProofs.v
theories/PropertiesSampleFlag.v
theories/KernelState.v
theories/KernelSpec.v
theories/KernelProofs.v
theories/KernelRefutations.v
theories/PropertiesSample.v
theories/Beautify.v
theories/BeautifySpec.v
theories/BeautifyProofs.v
theories/TransformTree.v
theories/TransformSpec.v
theories/TransformProofs.v
theories/TransformRefutations.v
theories/CacheReader.v
theories/CacheReaderProofs.v
theories/ParamKernel.v
theories/ParamKernelSpec.v
theories/ParamKernelProofs.v
theories/ParamKernelInst.v
theories/ParamKernelInstSpec.v
theories/ParamKernelInstProofs.v
theories/PropertiesParam.v
theories/RfGivenSpec.v
theories/RfGivenProofs.v
theories/PropertiesRfGiven.v
theories/PropertiesTransform.v
theories/RVec.v
theories/RVecProofs.v
theories/TransformR.v
theories/TransformRSpec.v
theories/TransformRProofs.v
theories/TransformRTree.v
theories/TransformRCenter.v
theories/TransformRExamples.v
theories/PropertiesTransformR.v
theories/KernelR.v
theories/KernelRSpec.v
theories/Psd.v
theories/KernelRProofs.v
theories/PropertiesKernelR.v
theories/Poly.v
theories/PolyProofs.v
theories/PropertiesPoly.v
theories/TimeR.v
theories/TimeRSpec.v
theories/TimeRProofs.v
theories/PropertiesTimeR.v
theories/RandomFeaturesR.v
theories/RandomFeaturesRSpec.v
theories/RandomFeaturesRProofs.v
theories/PropertiesRandomFeaturesR.v
theories/Factory.v
theories/FactorySpec.v
theories/FactoryProofs.v
theories/PropertiesFactory.v
theories/Corr.v
theories/CorrSpec.v
theories/CorrProofs.v
theories/PropertiesCorr.v
theories/MatrixSpec.v
theories/NystromM.v
theories/NystromMProofs.v
theories/PropertiesNystrom.v
theories/NystromState.v
theories/NystromStateProofs.v
theories/PropertiesNystromState.v
theories/Method.v
theories/MethodSpec.v
theories/MethodProofs.v
theories/Preimage.v
theories/PreimageSpec.v
theories/PreimageProofs.v
theories/PropertiesMethod.v
theories/KpcaM.v
theories/KpcaSpec.v
theories/KpcaMProofs.v
theories/PropertiesKpca.v
theories/TotalVariance.v
theories/VarianceSpec.v
theories/TotalVarianceProofs.v
theories/PropertiesVariance.v
theories/ViewState.v
theories/ViewSpec.v
theories/ViewProofs.v
theories/ViewHistory.v
theories/VariableOrderSpec.v
theories/VariableOrderProofs.v
theories/PropertiesVariableOrder.v
theories/PropertiesView.v
theories/LevelCache.v
theories/LevelCacheSpec.v
theories/LevelCacheProofs.v
theories/PropertiesLevelCache.v
theories/LssvmM.v
theories/LssvmSpec.v
theories/LssvmMProofs.v
theories/LssvmLossProofs.v
theories/PropertiesLssvm.v
theories/Center.v
theories/CenterProofs.v
theories/Ctor.v
theories/CtorProofs.v
theories/PropertiesCtor.v
theories/MultiView.v
theories/MultiViewR.v
theories/MultiViewProofs.v
theories/KnownSpec.v
theories/KnownProofs.v
theories/PropertiesKnown.v
theories/PropertiesMultiView.v
theories/ModelState.v
theories/ModelSpec.v
theories/ModelProofs.v
theories/ModelForward.v
theories/ModelForwardSpec.v
theories/ModelForwardProofs.v
theories/Reports.v
theories/ReportsProofs.v
theories/PropertiesModel.v
theories/StateDict.v
theories/StateDictSpec.v
theories/StateDictProofs.v
theories/PropertiesStateDict.v
theories/Params.v
theories/ParamsSpec.v
theories/ParamsProofs.v
theories/PropertiesOptimised.v
theories/Trainer.v
theories/TrainerSpec.v
theories/TrainerProofs.v
theories/Watcher.v
theories/WatcherProofs.v
theories/PropertiesTrainer.v
theories/DataSplit.v
theories/DataSplitSpec.v
theories/DataSplitProofs.v
theories/Logger.v
theories/LoggerSpec.v
theories/LoggerProofs.v
theories/Cast.v
theories/CastSpec.v
theories/CastProofs.v
theories/PropertiesData.v
theories/Stiefel.v
theories/StiefelSpec.v
theories/StiefelProofs.v
theories/StiefelHistory.v
theories/StiefelExamples.v
theories/PropertiesStiefel.v
theories/OptStep.v
theories/OptStepSpec.v
theories/OptStepProofs.v
theories/PropertiesOpt.v
theories/Eigs.v
theories/EigsSpec.v
theories/EigsProofs.v
theories/EigsExamples.v
theories/PropertiesEigs.v
theories/KpcaOptimal.v
theories/PropertiesOptimal.v
theories/Kappa.v
theories/KappaProofs.v
theories/PropertiesKappa.v
theories/Classes.v
theories/ClassesSpec.v
theories/ClassesProofs.v
theories/PropertiesClasses.v
theories/Copies.v
theories/CopiesSpec.v
theories/CopiesProofs.v
theories/PropertiesCopies.v
theories/Hparams.v
theories/HparamsSpec.v
theories/HparamsProofs.v
theories/PropertiesHparams.v
theories/Multiplier.v
theories/PsdKernelProofs.v
theories/PsdCompactProofs.v
theories/PsdSilvermanProofs.v
theories/PsdChiProofs.v
theories/PropertiesPsd.v
theories/Units.v
theories/UnitsSpec.v
theories/UnitsProofs.v
theories/PropertiesUnits.v
theories/RingId.v
theories/NystromOosProofs.v
theories/LssvmMonoProofs.v
theories/PropertiesRegularised.v
theories/Abstract.v
theories/AbstractSpec.v
theories/AbstractProofs.v
theories/PropertiesAbstract.v
theories/Lazy.v
theories/LazySpec.v
theories/LazyProofs.v
theories/LazyModelProofs.v
theories/PropertiesLazy.v
theories/LipschitzSpec.v
theories/LipschitzProofs.v
theories/PropertiesLipschitz.v
theories/TransformUnitsSpec.v
theories/TransformUnitsProofs.v
theories/PropertiesTransformUnits.v
theories/RotationSpec.v
theories/RotationProofs.v
theories/RotationExamples.v
theories/PropertiesRotation.v
theories/KpcaMore.v
theories/PropertiesMore.v
theories/DefiniteSpec.v
theories/DefiniteProofs.v
theories/DefiniteKernelProofs.v
theories/DefiniteSystemProofs.v
theories/DefiniteExamples.v
theories/PropertiesDefinite.v
theories/LandmarkSpec.v
theories/LandmarkProofs.v
theories/LandmarkExamples.v
theories/PropertiesLandmark.v
theories/SolverSpec.v
theories/SolverProofs.v
theories/SolverExamples.v
theories/PropertiesSolver.v
theories/Precision.v
theories/PrecisionSpec.v
theories/PrecisionProofs.v
theories/PropertiesPrecision.v
theories/StableSpec.v
theories/StableProofs.v
theories/StableExamples.v
theories/PropertiesStable.v
theories/Shared.v
theories/SharedSpec.v
theories/SharedProofs.v
theories/PropertiesShared.v
theories/Errors.v
theories/ErrorsSpec.v
theories/ErrorsProofs.v
theories/PropertiesErrors.v
theories/Plot.v
theories/PlotSpec.v
theories/PropertiesPlot.v
theories/Options.v
theories/OptionsSpec.v
theories/OptionsProofs.v
theories/PropertiesOptions.v
theories/InterlaceSpec.v
theories/InterlaceProofs.v
theories/InterlaceExamples.v
theories/PropertiesInterlace.v
theories/LimitSpec.v
theories/LimitProofs.v
theories/LimitExamples.v
theories/PropertiesLimit.v
theories/PerturbSpec.v
theories/PerturbProofs.v
theories/PerturbExamples.v
theories/PropertiesPerturb.v
theories/SubspaceSpec.v
theories/SubspaceProofs.v
theories/SubspaceExamples.v
theories/PropertiesSubspace.v
theories/DocumentedSpec.v
theories/DocumentedProofs.v
theories/PropertiesDocumented.v
theories/LeaveOutProofs.v
theories/LeaveOutExamples.v
theories/PropertiesLeaveOut.v
theories/Datasets.v
theories/DatasetsSpec.v
theories/DatasetsProofs.v
theories/DatasetsSetProofs.v
theories/DatasetsExamples.v
theories/PropertiesDatasets.v
theories/CenterM.v
theories/OriginSpec.v
theories/RingId2.v
theories/OriginProofs.v
theories/ScoresSpec.v
theories/ScoresProofs.v
theories/OriginExamples.v
theories/PropertiesOrigin.v
theories/Script.v
theories/ScriptSpec.v
theories/ScriptProofs.v
theories/PropertiesScript.v
theories/NystromKpcaSpec.v
theories/NystromKpcaProofs.v
theories/NystromKpcaExamples.v
theories/PropertiesNystromKpca.v
theories/RepeatSpec.v
theories/RepeatProofs.v
theories/RepeatExamples.v
theories/PropertiesRepeat.v
theories/KernelMethod.v
theories/EquivariantSpec.v
theories/EquivariantProofs.v
theories/EquivariantExamples.v
theories/PropertiesEquivariant.v
theories/GenerateM.v
theories/GenerateProofs.v
theories/GenerateExamples.v
theories/PropertiesGenerate.v
theories/MvProjectM.v
theories/MvProjectProofs.v
theories/MvProjectExamples.v
theories/PropertiesMvProject.v
theories/IterativeM.v
theories/IterativeSpec.v
theories/IterativeProofs.v
theories/IterativeExamples.v
theories/PropertiesIterative.v
theories/Stack.v
theories/StackSpec.v
theories/StackProofs.v
theories/StackExamples.v
theories/StackR.v
theories/StackRSpec.v
theories/StackRProofs.v
theories/PropertiesStack.v
theories/RowsSpec.v
theories/RowsProofs.v
theories/PropertiesRows.v
theories/HeldProofs.v
theories/UpdateProofs.v
theories/LevelMemorySpec.v
theories/LevelMemoryProofs.v
theories/PropertiesLevelMemory.v
theories/KeptSpec.v
theories/KeptProofs.v
theories/PropertiesKept.v
theories/ViewsM.v
theories/ViewsProofs.v
theories/ViewsExamples.v
theories/PropertiesViews.v
theories/NamesSpec.v
theories/NamesProofs.v
theories/PropertiesNames.v
theories/RingId3.v
theories/NearSpec.v
theories/NearProofs.v
theories/NearExamples.v
theories/PropertiesNear.v
theories/RidgeM.v
theories/RidgeSpec.v
theories/RidgeProofs.v
theories/RidgeExamples.v
theories/PropertiesRidge.v
theories/StartSpec.v
theories/StartProofs.v
theories/PropertiesStart.v
theories/PpcaM.v
theories/PpcaSpec.v
theories/PpcaProofs.v
theories/PpcaExamples.v
theories/PropertiesPpca.v
theories/PreCall.v
theories/PreCallSpec.v
theories/PreCallProofs.v
theories/PropertiesPreCall.v
theories/SmoothSpec.v
theories/SmoothProofs.v
theories/PropertiesSmooth.v
theories/OldPreimage.v
theories/OldPreimageProofs.v
theories/PropertiesOldPreimage.v
theories/Rounding.v
theories/RoundingSpec.v
theories/RoundingProofs.v
theories/RoundingErrorProofs.v
theories/RoundingExamples.v
theories/PropertiesRounding.v
theories/KeysProofs.v
theories/PropertiesKeys.v
theories/BestProofs.v
theories/PropertiesBest.v
theories/Rebuild.v
theories/RebuildProofs.v
theories/PropertiesRebuild.v
theories/BatchSpec.v
theories/BatchProofs.v
theories/BatchMethod.v
theories/PropertiesBatch.v
theories/BatchMProofs.v
theories/PropertiesBatchM.v
theories/BatchStepProofs.v
theories/BatchStepExamples.v
theories/PropertiesBatchStep.v
theories/ExtremeSpec.v
theories/ExtremeProofs.v
theories/PropertiesExtreme.v
theories/ExtremeSmooth.v
theories/ExtremeTies.v
theories/PropertiesExtremeSmooth.v
theories/LssvmBandProofs.v
theories/PropertiesLssvmBand.v
theories/KeptLevelProofs.v
theories/PropertiesKeptLevel.v
theories/MomentumSpec.v
theories/MomentumProofs.v
theories/PropertiesMomentum.v
