-Q theories Verif

theories/Base/Dict.v
theories/Base/Num.v
theories/Base/NumFloat.v
theories/Base/Py.v
theories/Model/AdaTree.v
theories/Model/AdaptiveForest.v
theories/Model/Adwin.v
theories/Model/ArfTree.v
theories/Model/Attributes.v
theories/Model/Bagging.v
theories/Model/Chains.v
theories/Model/ClassMeasure.v
theories/Model/ClassMetrics.v
theories/Model/ConfMat.v
theories/Model/DataStream.v
theories/Model/Ddm.v
theories/Model/DefaultReset.v
theories/Model/DictUtils.v
theories/Model/Ebst.v
theories/Model/Eddm.v
theories/Model/Efdt.v
theories/Model/EvalOutput.v
theories/Model/Evaluate.v
theories/Model/EvaluateDelayed.v
theories/Model/Experts.v
theories/Model/FastBuffer.v
theories/Model/FastComplexBuffer.v
theories/Model/FileScripts.v
theories/Model/ForestRegressor.v
theories/Model/GaussianObs.v
theories/Model/GenSpeed.v
theories/Model/GenStreams.v
theories/Model/Generators.v
theories/Model/HalfSpaceTrees.v
theories/Model/HddmA.v
theories/Model/HddmW.v
theories/Model/HoeffdingAdaptive.v
theories/Model/HoeffdingAdaptiveRegressor.v
theories/Model/HoeffdingRegressor.v
theories/Model/HoeffdingTree.v
theories/Model/ISoup.v
theories/Model/Knn.v
theories/Model/Kswin.v
theories/Model/LabelCombination.v
theories/Model/LearnNSE.v
theories/Model/LearnPP.v
theories/Model/Learner.v
theories/Model/LearnerInstances.v
theories/Model/MultiLabelMetrics.v
theories/Model/MultiTargetClass.v
theories/Model/NaiveBayes.v
theories/Model/NominalObs.v
theories/Model/ObjectSize.v
theories/Model/OnlineEnsembles.v
theories/Model/PageHinkley.v
theories/Model/Params.v
theories/Model/Pipeline.v
theories/Model/RandomPatches.v
theories/Model/RegMetrics.v
theories/Model/Rslvq.v
theories/Model/SamKnn.v
theories/Model/SlidingWindow.v
theories/Model/SplitCriteria.v
theories/Model/SplitTests.v
theories/Model/Statistics.v
theories/Model/Suggestion.v
theories/Model/TargetStats.v
theories/Model/TimeManager.v
theories/Model/Transform.v
theories/Model/TreeRules.v
theories/Model/TreeSkeleton.v
theories/Model/Vfdr.v
theories/Model/Visualizer.v
theories/Model/VisualizerSetup.v
theories/Model/Weights.v
theories/Model/WindowMeasure.v
theories/Model/Windowed.v
theories/Proofs/AdaProofs.v
theories/Proofs/AdaSimProofs.v
theories/Proofs/AdaptiveForestProofs.v
theories/Proofs/AdaptiveForestVotes.v
theories/Proofs/AdwinDecision.v
theories/Proofs/AdwinHistory.v
theories/Proofs/AdwinProofs.v
theories/Proofs/AgrawalProofs.v
theories/Proofs/ArfRegProofs.v
theories/Proofs/ArfTreeProofs.v
theories/Proofs/BaggingProofs.v
theories/Proofs/ChainJoint.v
theories/Proofs/ChainProofs.v
theories/Proofs/ClassMeasureProofs.v
theories/Proofs/CloneProofs.v
theories/Proofs/ConfMatProofs.v
theories/Proofs/ConstProofs.v
theories/Proofs/CriteriaProofs.v
theories/Proofs/DdmProofs.v
theories/Proofs/DefaultResetProofs.v
theories/Proofs/DelayedMore.v
theories/Proofs/DelayedProofs.v
theories/Proofs/DictUtilsProofs.v
theories/Proofs/EbstProofs.v
theories/Proofs/EddmProofs.v
theories/Proofs/EfdtProofs.v
theories/Proofs/EvalOutputProofs.v
theories/Proofs/EvalProofs.v
theories/Proofs/EvalSummary.v
theories/Proofs/ExpertProofs.v
theories/Proofs/ExpertRunProofs.v
theories/Proofs/FastBufferProofs.v
theories/Proofs/FileScriptsProofs.v
theories/Proofs/ForestRegressorProofs.v
theories/Proofs/GaussianProofs.v
theories/Proofs/GenStreamProofs.v
theories/Proofs/GeneratorProofs.v
theories/Proofs/GeneratorReal.v
theories/Proofs/HalfSpaceProofs.v
theories/Proofs/HatProofs.v
theories/Proofs/HatVotesProofs.v
theories/Proofs/HatrErrorProofs.v
theories/Proofs/HatrProofs.v
theories/Proofs/HatrRangeProofs.v
theories/Proofs/HatrSimProofs.v
theories/Proofs/HddmAProofs.v
theories/Proofs/HddmWProofs.v
theories/Proofs/HoeffdingLabelProofs.v
theories/Proofs/HoeffdingPositiveProofs.v
theories/Proofs/HoeffdingProofs.v
theories/Proofs/HoeffdingRegressorProofs.v
theories/Proofs/HoldoutProofs.v
theories/Proofs/ISoupChoiceProofs.v
theories/Proofs/ISoupInvProofs.v
theories/Proofs/ISoupPerceptronProofs.v
theories/Proofs/ISoupProofs.v
theories/Proofs/ISoupRangeProofs.v
theories/Proofs/ISoupRelProofs.v
theories/Proofs/KnnAdwinProofs.v
theories/Proofs/KnnProofs.v
theories/Proofs/KnnRegProofs.v
theories/Proofs/KswinProofs.v
theories/Proofs/LabelCombinationProofs.v
theories/Proofs/LeafProofs.v
theories/Proofs/LearnNSEProofs.v
theories/Proofs/LearnPPProofs.v
theories/Proofs/LedHyperProofs.v
theories/Proofs/ListFacts.v
theories/Proofs/MetricsProofs.v
theories/Proofs/MetricsScores.v
theories/Proofs/MetricsWindow.v
theories/Proofs/MultiLabelProofs.v
theories/Proofs/MultiTargetProofs.v
theories/Proofs/NaiveBayesProofs.v
theories/Proofs/NominalProofs.v
theories/Proofs/ObjectSizeProofs.v
theories/Proofs/OnlineAlgoProofs.v
theories/Proofs/OnlineProofs.v
theories/Proofs/PageHinkleyProofs.v
theories/Proofs/ParamsProofs.v
theories/Proofs/PipelineProofs.v
theories/Proofs/RandomPatchesProofs.v
theories/Proofs/RbfTreeProofs.v
theories/Proofs/RegProofs.v
theories/Proofs/RegressorPerceptronProofs.v
theories/Proofs/RegressorRangeProofs.v
theories/Proofs/RslvqProofs.v
theories/Proofs/RslvqStateProofs.v
theories/Proofs/SamKnnExactProofs.v
theories/Proofs/SamKnnProofs.v
theories/Proofs/SamKnnRunProofs.v
theories/Proofs/SamKnnSizeProofs.v
theories/Proofs/SlidingWindowProofs.v
theories/Proofs/SplitRuleProofs.v
theories/Proofs/SplitTestProofs.v
theories/Proofs/StatFacts.v
theories/Proofs/StatRangeProofs.v
theories/Proofs/StatisticsProofs.v
theories/Proofs/StreamProofs.v
theories/Proofs/SuggestionProofs.v
theories/Proofs/TimeManagerProofs.v
theories/Proofs/TransformProofs.v
theories/Proofs/TransformReals.v
theories/Proofs/TreeEveryProofs.v
theories/Proofs/TreeProofs.v
theories/Proofs/TreeRelProofs.v
theories/Proofs/TreeRulesProofs.v
theories/Proofs/TreeTwinProofs.v
theories/Proofs/VfdrProofs.v
theories/Proofs/WindowMeasureProofs.v
theories/Proofs/WindowedProofs.v
theories/Props/AdaptiveForestProps.v
theories/Props/AdwinProps.v
theories/Props/ArfRegProps.v
theories/Props/ArfTreeProps.v
theories/Props/AttributesProps.v
theories/Props/BaggingProps.v
theories/Props/ChainProps.v
theories/Props/ClassKappaProps.v
theories/Props/ClassMeasureProps.v
theories/Props/ClassMetricsProps.v
theories/Props/ConfMatProps.v
theories/Props/CriteriaProps.v
theories/Props/DdmProps.v
theories/Props/DefaultResetProps.v
theories/Props/DelayedProps.v
theories/Props/DictUtilsProps.v
theories/Props/EbstProps.v
theories/Props/EddmProps.v
theories/Props/EfdtProps.v
theories/Props/EfdtVotesProps.v
theories/Props/EvalOutputProps.v
theories/Props/EvalProps.v
theories/Props/ExpertProps.v
theories/Props/FastBufferProps.v
theories/Props/FastComplexBufferProps.v
theories/Props/FileScriptsProps.v
theories/Props/ForestRegressorProps.v
theories/Props/GaussianProps.v
theories/Props/GenSpeedProps.v
theories/Props/GenStreamProps.v
theories/Props/GeneratorProps.v
theories/Props/HalfSpaceProps.v
theories/Props/HatProps.v
theories/Props/HatrProps.v
theories/Props/HddmProps.v
theories/Props/HoeffdingMemoryProps.v
theories/Props/HoeffdingPredictProps.v
theories/Props/HoeffdingProps.v
theories/Props/HoeffdingRegressorProps.v
theories/Props/HoeffdingSplitProps.v
theories/Props/ISoupChoiceProps.v
theories/Props/ISoupProps.v
theories/Props/KnnProps.v
theories/Props/KswinProps.v
theories/Props/LabelCombinationProps.v
theories/Props/LearnNSEProps.v
theories/Props/LearnPPProps.v
theories/Props/MultiLabelProps.v
theories/Props/MultiTargetProps.v
theories/Props/NaiveBayesProps.v
theories/Props/NewLeafProps.v
theories/Props/NominalProps.v
theories/Props/ObjectSizeProps.v
theories/Props/OnlineProps.v
theories/Props/PageHinkleyProps.v
theories/Props/ParamsProps.v
theories/Props/PipelineProps.v
theories/Props/RandomPatchesProps.v
theories/Props/RegProps.v
theories/Props/RegressorPerceptronProps.v
theories/Props/ResetProps.v
theories/Props/RslvqProps.v
theories/Props/SamKnnProps.v
theories/Props/SlidingWindowProps.v
theories/Props/SplitTestProps.v
theories/Props/StatisticsProps.v
theories/Props/StreamProps.v
theories/Props/TimeManagerProps.v
theories/Props/TransformProps.v
theories/Props/TreeRulesProps.v
theories/Props/TreeTwinProps.v
theories/Props/VfdrBoundProps.v
theories/Props/VfdrCriteriaProps.v
theories/Props/VfdrPoorProps.v
theories/Props/VfdrPredictProps.v
theories/Props/VfdrProps.v
theories/Props/VfdrRunProps.v
theories/Props/VisualizerProps.v
theories/Props/VisualizerSetupProps.v
theories/Props/WeightsProps.v
theories/Props/WindowMeasureProps.v
theories/Props/WindowedProps.v
theories/Spec/AdaSpec.v
theories/Spec/AdaptiveForestSpec.v
theories/Spec/AdwinSpec.v
theories/Spec/ArfTreeSpec.v
theories/Spec/BaggingSpec.v
theories/Spec/BoundedFifo.v
theories/Spec/ChainSpec.v
theories/Spec/ClassMeasureSpec.v
theories/Spec/ConfMatSpec.v
theories/Spec/CriteriaSpec.v
theories/Spec/DdmSpec.v
theories/Spec/DefaultResetSpec.v
theories/Spec/DelayedSpec.v
theories/Spec/DetectorSpec.v
theories/Spec/EbstSpec.v
theories/Spec/EddmSpec.v
theories/Spec/EfdtSpec.v
theories/Spec/EvalOutputSpec.v
theories/Spec/EvalSpec.v
theories/Spec/ExpertRuns.v
theories/Spec/ExpertSpec.v
theories/Spec/FastBufferSpec.v
theories/Spec/FileScriptsSpec.v
theories/Spec/ForestRegressorSpec.v
theories/Spec/GenStreamSpec.v
theories/Spec/GeneratorSpec.v
theories/Spec/HalfSpaceSpec.v
theories/Spec/HatrSpec.v
theories/Spec/HddmASpec.v
theories/Spec/HddmWSpec.v
theories/Spec/HoeffdingRegressorSpec.v
theories/Spec/HoeffdingSpec.v
theories/Spec/ISoupChoiceSpec.v
theories/Spec/ISoupSpec.v
theories/Spec/KnnSpec.v
theories/Spec/KswinSpec.v
theories/Spec/LabelSpec.v
theories/Spec/LeafSpec.v
theories/Spec/LearnNSESpec.v
theories/Spec/LearnPPSpec.v
theories/Spec/LearnerSpec.v
theories/Spec/Lists.v
theories/Spec/MetricsSpec.v
theories/Spec/MultiLabelSpec.v
theories/Spec/MultiTargetSpec.v
theories/Spec/NaiveBayesSpec.v
theories/Spec/NominalSpec.v
theories/Spec/ObjectSizeSpec.v
theories/Spec/ObserverSpec.v
theories/Spec/OnlineSpec.v
theories/Spec/PageHinkleySpec.v
theories/Spec/ParamsSpec.v
theories/Spec/PipelineSpec.v
theories/Spec/RandomPatchesSpec.v
theories/Spec/RegSpec.v
theories/Spec/RslvqSpec.v
theories/Spec/SamKnnSpec.v
theories/Spec/SlidingWindowSpec.v
theories/Spec/SplitRuleSpec.v
theories/Spec/SplitTestSpec.v
theories/Spec/StreamSpec.v
theories/Spec/TransformSpec.v
theories/Spec/TreeRelSpec.v
theories/Spec/TreeRulesSpec.v
theories/Spec/TreeSpec.v
theories/Spec/TreeTwinSpec.v
theories/Spec/VfdrSpec.v
theories/Spec/WindowMeasureSpec.v
theories/Spec/WindowSpec.v
theories/Spec/WindowedSpec.v
