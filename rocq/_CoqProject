-Q theories Verif
theories/Base.v
theories/Num.v
theories/NumLaws.v
theories/ListLemmas.v
theories/NumpyModel.v
theories/ConfigSpaceModel.v
theories/UtilsModel.v
theories/IceModel.v
theories/PartitionModel.v
theories/IceProofs.v
theories/PartitionSpec.v
theories/PartitionProofs.v
theories/PartitionProofs2.v
theories/PartitionProofs3.v
theories/PartitionProofs4.v
theories/PartitionProofs5.v
theories/PartitionProofs6.v
theories/PartitionBefore.v
theories/RealProofs.v
theories/RealSums.v
theories/PartitionReal.v
theories/PartitionReal2.v
theories/B64Proofs.v
theories/IceProofs2.v
theories/UtilsProofs.v
theories/IceReal.v
theories/IceReal2.v
theories/Examples.v
theories/Witness.v
theories/Selection.v
theories/Prop_Partition.v
theories/UtilsProofs2.v
theories/Prop_Ice.v
theories/Prop_Utils.v
theories/ForestModel.v
theories/ForestSpec.v
theories/ForestProofs.v
theories/ForestProofs2.v
theories/ForestExamples.v
theories/Prop_Forest.v
theories/SamplerModel.v
theories/SamplerSpec.v
theories/SamplerProofs.v
theories/SamplerProofs2.v
theories/SamplerProofs3.v
theories/SamplerProofs4.v
theories/SamplerReal.v
theories/SamplerExamples.v
theories/Prop_Sampler.v
theories/AcquisitionModel.v
theories/AcquisitionSpec.v
theories/AcquisitionProofs.v
theories/Gauss.v
theories/AcquisitionReal.v
theories/Prop_Acquisition.v
theories/SyntheticModel.v
theories/SyntheticSpec.v
theories/SyntheticPd.v
theories/SyntheticBounds.v
theories/SyntheticSpace.v
theories/SyntheticProofs.v
theories/SyntheticValues.v
theories/Prop_Synthetic.v
theories/PlottingModel.v
theories/PlottingSpec.v
theories/PlottingProofs.v
theories/PlottingShape.v
theories/Prop_Plotting.v
theories/MmdModel.v
theories/MmdProofs.v
theories/MmdSpec.v
theories/MmdProofs2.v
theories/Prop_Mmd.v
theories/NllModel.v
theories/NllSpec.v
theories/NllProofs.v
theories/NllProofs2.v
theories/Prop_Nll.v
theories/Md5Model.v
theories/SeedModel.v
theories/SeedSpec.v
theories/SeedProofs.v
theories/Prop_Seeds.v
theories/ColorModel.v
theories/ColorSpec.v
theories/ColorProofs.v
theories/Prop_Color.v
theories/DrawModel.v
theories/DrawSpec.v
theories/DrawProofs.v
theories/DrawProofs2.v
theories/Prop_Draw.v
theories/DrawProofs3.v
theories/Prop_Draw2.v
theories/DrawProofs4.v
theories/DrawProofs5.v
theories/DrawProofs6.v
theories/Prop_Draw3.v
theories/DrawProofs7.v
theories/DrawProofs8.v
theories/Prop_Draw4.v
theories/ConditionModel.v
theories/ConditionSpec.v
theories/ConditionProofs.v
theories/Prop_Condition.v
theories/WrapperModel.v
theories/WrapperSpec.v
theories/WrapperProofs.v
theories/Prop_Wrapper.v
theories/RandomPointsModel.v
theories/RandomPointsProofs.v
theories/Prop_RandomPoints.v
theories/PartitionMeta.v
theories/PartitionMetaWitness.v
theories/Prop_PartitionMeta.v
theories/AcquisitionMeta.v
theories/SamplerMeta.v
theories/SamplerMetaReal.v
theories/SamplerMetaWitness.v
theories/Prop_SamplerMeta.v
theories/DtypeModel.v
theories/IceAttrModel.v
theories/MemoryModel.v
theories/ArraysSpec.v
theories/DtypeProofs.v
theories/IceAttrProofs.v
theories/MemoryProofs.v
theories/Prop_Arrays.v
theories/CacheTextModel.v
theories/CacheTextSpec.v
theories/CacheTextProofs.v
theories/CacheTextExamples.v
theories/Prop_Cache.v
theories/IceSeqModel.v
theories/IceSeqSpec.v
theories/IceSeqProofs.v
theories/Prop_Sequence.v
theories/IceShapeSpec.v
theories/IceShapeProofs.v
theories/IceShapeReal.v
theories/IceShapeWitness.v
theories/Prop_IceShape.v
theories/FromIceProofs.v
theories/Prop_FromIce.v
theories/SelOrderSpec.v
theories/SelOrderProofs.v
theories/SelOrderReal.v
theories/Prop_SelOrder.v
theories/PdpObjectProofs.v
theories/Prop_PdpObject.v
theories/TwinSpec.v
theories/TwinProofs.v
theories/TwinReal.v
theories/Prop_Twin.v
theories/ConfidenceProofs.v
theories/ConfidenceExamples.v
theories/Prop_Confidence.v
theories/ExperimentModel.v
theories/ExperimentSpec.v
theories/ExperimentProofs.v
theories/ExperimentExamples.v
theories/ExperimentProofs2.v
theories/Prop_Experiment.v
theories/LeafOrderSpec.v
theories/LeafOrderProofs.v
theories/LeafOrderExamples.v
theories/Prop_LeafOrder.v
theories/GainSpec.v
theories/GainProofs.v
theories/GainReal.v
theories/GainExamples.v
theories/Prop_Gain.v
theories/FinerSpec.v
theories/FinerProofs.v
theories/FinerExamples.v
theories/Prop_Finer.v
theories/GridSpec.v
theories/GridProofs.v
theories/GridExamples.v
theories/Prop_Grid.v
theories/PipelineSpec.v
theories/PipelineProofs.v
theories/PipelineExamples.v
theories/Prop_Pipeline.v
theories/ColumnsSpec.v
theories/ColumnsProofs.v
theories/ColumnsExamples.v
theories/Prop_Columns.v
theories/ReadyModel.v
theories/ReadySpec.v
theories/ReadyProofs.v
theories/ReadyExamples.v
theories/Prop_Ready.v
theories/RoundSpec.v
theories/RoundProofs.v
theories/RoundLoss.v
theories/RoundMean.v
theories/RoundTree.v
theories/RoundExamples.v
theories/Prop_Round.v
theories/AxisProofs.v
theories/AxisExamples.v
theories/Prop_Axis.v
theories/PartitionLinks.v
theories/MeshProofs.v
theories/Prop_Links.v
theories/ScaleSpec.v
theories/ScaleProofs.v
theories/ScaleExamples.v
theories/Prop_Scale.v
theories/SpreadSpec.v
theories/SpreadProofs.v
theories/SpreadSynSpec.v
theories/SpreadIce.v
theories/SpreadGrid.v
theories/SpreadSynthetic.v
theories/SpreadExamples.v
theories/Prop_Spread.v
theories/BoxSpec.v
theories/BoxProofs.v
theories/BoxRegion.v
theories/BoxExamples.v
theories/Prop_Box.v
theories/GridPdpProofs.v
theories/GridSteps.v
theories/GridPdpExamples.v
theories/Prop_GridPdp.v
theories/ForestExperimentModel.v
theories/ForestExperimentSpec.v
theories/ForestExperimentProofs.v
theories/ForestExperimentRows.v
theories/ForestExperimentExamples.v
theories/Prop_ForestExperiment.v
theories/AnalysisModel.v
theories/AnalysisSpec.v
theories/AnalysisProofs.v
theories/AnalysisExamples.v
theories/Prop_Analysis.v
theories/MetaModel.v
theories/MetaSpec.v
theories/MetaProofs.v
theories/MetaExamples.v
theories/Prop_Meta.v
theories/RoundLeavesSpec.v
theories/RoundLeaves.v
theories/RoundLeavesExamples.v
theories/Prop_RoundLeaves.v
theories/RoundAcqSpec.v
theories/RoundAcq.v
theories/RoundAcqExamples.v
theories/Prop_RoundAcq.v
theories/BoRegretSpec.v
theories/BoRegret.v
theories/BoRegretExamples.v
theories/SigmaSpec.v
theories/SigmaLimit.v
theories/Prop_Sigma.v
theories/BoFiniteSpec.v
theories/BoFinite.v
theories/BoFiniteExamples.v
theories/BoFirst.v
theories/Prop_BoRegret.v
theories/Prop_BoFinite.v
