-Q theories Verif

theories/Prelude.v
theories/ModelReachPoint.v
theories/ModelData.v
theories/SpecData.v
theories/ReachPointLemmas.v
theories/DataLemmas.v
theories/DataLemmas2.v
theories/DataLemmas3.v
theories/PropsReachPoint.v
theories/PropsData.v
theories/ModelPrivacy.v
theories/SpecPrivacy.v
theories/PrivacyLemmas.v
theories/PropsPrivacy.v
theories/ModelHalo.v
theories/ModelStrategy.v
theories/SpecHalo.v
theories/HaloLemmas.v
theories/SpecVenn.v
theories/VennLemmas.v
theories/HaloLemmas2.v
theories/PropsHalo.v
theories/VennLemmas2.v
theories/PropsVenn.v
theories/ModelCurves.v
theories/SpecCurves.v
theories/CurvesLemmas.v
theories/PropsCurves.v
theories/ModelSurface.v
theories/SpecSurface.v
theories/SurfaceLemmas.v
theories/SurfaceLemmas2.v
theories/SurfaceLemmas3.v
theories/SurfaceLemmas4.v
theories/SurfaceLemmas5.v
theories/PropsSurface.v
theories/PropsSurface2.v
theories/SpecExact.v
theories/ExactLemmas.v
theories/ExactLemmas2.v
theories/PropsExact.v
theories/ModelFiles.v
theories/SpecFiles.v
theories/FilesLemmas.v
theories/FilesLemmas2.v
theories/FilesLemmas3.v
theories/PropsFiles.v
theories/ModelGenerators.v
theories/SpecGenerators.v
theories/GeneratorsLemmas.v
theories/GeneratorsLemmas2.v
theories/PropsGenerators.v
theories/PropsSynthetic.v
theories/ModelGamma.v
theories/SpecGamma.v
theories/GammaLemmas.v
theories/GammaLemmas2.v
theories/GammaLemmas3.v
theories/PropsGamma.v
theories/PropsGamma2.v
theories/ModelTestPoints.v
theories/SpecTestPoints.v
theories/TestPointsLemmas.v
theories/PropsTestPoints.v
theories/ModelAggregator.v
theories/SpecAggregator.v
theories/AggregatorLemmas.v
theories/AggregatorLemmas2.v
theories/PropsAggregator.v
theories/ModelDriver.v
theories/SpecDriver.v
theories/DriverLemmas.v
theories/DriverLemmas2.v
theories/DriverLemmas3.v
theories/DriverLemmas4.v
theories/DriverLemmas5.v
theories/DriverLemmas6.v
theories/DriverLemmas7.v
theories/DriverLemmas8.v
theories/ExampleDriver.v
theories/PropsDriver.v
theories/PropsDriver2.v
theories/PropsDriver3.v
theories/PropsDriver4.v
theories/SpecTrial.v
theories/TrialLemmas.v
theories/TrialLemmas2.v
theories/PropsTrial.v
theories/ModelGammaPoisson.v
theories/SpecGammaPoisson.v
theories/GammaPoissonLemmas.v
theories/GammaPoissonLemmas2.v
theories/PropsGammaPoisson.v
theories/ModelDirac.v
theories/SpecDirac.v
theories/DiracLemmas.v
theories/DiracLemmas2.v
theories/DiracLemmas3.v
theories/PropsDirac.v
theories/ModelDesigns.v
theories/SpecDesigns.v
theories/DesignsLemmas.v
theories/DesignsLemmas2.v
theories/DesignsLemmas3.v
theories/DesignsLemmas4.v
theories/DesignsLemmas5.v
theories/DesignsLemmas6.v
theories/DesignsLemmas7.v
theories/DesignsLemmas8.v
theories/ExampleDesigns.v
theories/PropsDesigns.v
theories/ModelExperiments.v
theories/SpecExperiments.v
theories/ExperimentsLemmas.v
theories/ExperimentsLemmas2.v
theories/ExperimentsLemmas3.v
theories/ExperimentsLemmas4.v
theories/ExperimentsLemmas5.v
theories/ExperimentsLemmas6.v
theories/ExperimentsLemmas7.v
theories/PropsExperiments.v
theories/ModelExecute.v
theories/SpecExecute.v
theories/ExecuteLemmas.v
theories/ExecuteLemmas2.v
theories/ExecuteLemmas3.v
theories/ExecuteLemmas4.v
theories/PropsExecute.v
theories/ModelRestricted.v
theories/SpecRestricted.v
theories/RestrictedLemmas.v
theories/RestrictedLemmas2.v
theories/RestrictedLemmas3.v
theories/PropsRestricted.v
theories/ModelStack.v
theories/SpecStack.v
theories/SpecStack2.v
theories/StackLemmas.v
theories/PropsStack.v
theories/PropsStack2.v
theories/PropsStack3.v
theories/PropsStack4.v
theories/PropsStack5.v
theories/ModelCloud.v
theories/SpecCloud.v
theories/CloudLemmas.v
theories/CloudLemmas2.v
theories/CloudLemmas3.v
theories/CloudLemmas4.v
theories/CloudLemmas5.v
theories/PropsCloud.v
theories/ModelCloudRun.v
theories/SpecCloudRun.v
theories/CloudRunLemmas.v
theories/CloudRunLemmas2.v
theories/CloudRunLemmas3.v
theories/CloudRunLemmas4.v
theories/PropsCloudRun.v
theories/PropsCloud2.v
theories/ModelDouble.v
theories/SpecDouble.v
theories/DoubleLemmas.v
theories/DoubleLemmas2.v
theories/DoubleLemmas3.v
theories/DoubleLemmas4.v
theories/DoubleLemmas5.v
theories/PropsDouble.v
theories/SpecNoise.v
theories/NoiseLemmas.v
theories/PropsNoise.v
theories/PropsEdges.v
theories/PropsEdges2.v
theories/ModelPlanner.v
theories/SpecPlanner.v
theories/PropsPlanner.v
theories/SpecGammaFit.v
theories/GammaFitLemmas.v
theories/PropsGammaFit.v
theories/PropsEdges3.v
theories/SpecMixture.v
theories/PropsMixture.v
theories/SpecDesigns2.v
theories/PropsDesigns2.v
theories/PropsStack6.v
theories/ModelTogether.v
theories/SpecTogether.v
theories/TogetherLemmas.v
theories/TogetherLemmas2.v
theories/TogetherLemmas3.v
theories/TogetherLemmas4.v
theories/PropsTogether.v
theories/ModelTogether2.v
theories/SpecTogether2.v
theories/TogetherLemmas5.v
theories/TogetherLemmas6.v
theories/PropsTogether2.v
theories/ModelMain.v
theories/SpecMain.v
theories/MainLemmas.v
theories/MainLemmas2.v
theories/PropsMain.v
theories/PropsMixture2.v
theories/PropsStack7.v
theories/SpecPipeline.v
theories/PipelineLemmas.v
theories/PipelineLemmas2.v
theories/PipelineLemmas3.v
theories/PipelineLemmas4.v
theories/PropsPipeline.v
theories/ModelShell.v
theories/SpecShell.v
theories/ShellLemmas.v
theories/ShellLemmas2.v
theories/PropsShell.v
theories/PropsStack8.v
theories/PropsVenn2.v
theories/SpecSame.v
theories/SameLemmas.v
theories/SameLemmas2.v
theories/PropsSame.v
theories/PropsRestricted2.v
theories/ModelEntropy.v
theories/PropsEntropy.v
