-Q theories Verif
theories/AgnIntegral.v
theories/AgnModel.v
theories/AgnProps.v
theories/ArrayFileModel.v
theories/ArrayFileProps.v
theories/Base.v
theories/BaseFacts.v
theories/BayesnFlux.v
theories/BayesnModel.v
theories/BayesnProps.v
theories/BayesnSpline.v
theories/BicubicModel.v
theories/BicubicProps.v
theories/CosmoModel.v
theories/CosmoProps.v
theories/DeepChainProps.v
theories/DependencyGraphModel.v
theories/DependencyGraphProps.v
theories/DistModel.v
theories/DistProps.v
theories/DownloadModel.v
theories/DownloadProps.v
theories/DustFlux.v
theories/DustModel.v
theories/DustProps.v
theories/EclipseGeometry.v
theories/EclipseModel.v
theories/EclipseProps.v
theories/EddingtonModel.v
theories/EddingtonProps.v
theories/EndToEndCase.v
theories/EndToEndDefined.v
theories/EndToEndModel.v
theories/EndToEndProps.v
theories/EndToEndSed.v
theories/ExternalModel.v
theories/ExternalProps.v
theories/FakeModel.v
theories/FakeProps.v
theories/FootprintModel.v
theories/FootprintMore.v
theories/FootprintProps.v
theories/GalaxyModel.v
theories/GalaxyProps.v
theories/GraphFileProps.v
theories/GraphLenProps.v
theories/GraphStateHeapModel.v
theories/GraphStateHeapProofs.v
theories/GraphStateModel.v
theories/GraphStateMore.v
theories/GraphStateProofs.v
theories/GraphStateProofs2.v
theories/GraphStateProofs3.v
theories/GraphStateProofs4.v
theories/GraphStateProps.v
theories/GraphTableProps.v
theories/GridModel.v
theories/GridProps.v
theories/KwargsModel.v
theories/KwargsProps.v
theories/LclibModel.v
theories/LclibProps.v
theories/LclibTable.v
theories/LclibTableMore.v
theories/LclibTableOk.v
theories/LclibTableProps.v
theories/LclibTheorems.v
theories/MathNodeModel.v
theories/MathNodeProps.v
theories/MathSampleModel.v
theories/MathSampleProps.v
theories/MocModel.v
theories/MocProps.v
theories/MoreProps.v
theories/NodeBackDust.v
theories/NodeBackProps.v
theories/NodeChainProofs.v
theories/NodeChainProps.v
theories/NodeDepProofs.v
theories/NodeDepProps.v
theories/NodeGraphModel.v
theories/NodeGraphProofs.v
theories/NodeGraphProps.v
theories/NodeHelpers.v
theories/NodeParamProps.v
theories/NodeRunProps.v
theories/NodeSampleProofs.v
theories/NodeSampleProofs2.v
theories/NodeSampleProofs3.v
theories/NodeTreeProofs.v
theories/NoiseModel.v
theories/NoiseProps.v
theories/NoisyModel.v
theories/NoisyProps.v
theories/NpRandomModel.v
theories/NpRandomProps.v
theories/Numerals.v
theories/ObsDbProps.v
theories/ObsFileModel.v
theories/ObsFileMore.v
theories/ObsFileProofs.v
theories/ObsFileProps.v
theories/ObsTableModel.v
theories/ObsTableMore.v
theories/ObsTableProps.v
theories/OverrideProps.v
theories/OversampleModel.v
theories/OversampleProps.v
theories/PassbandDefined.v
theories/PassbandFileModel.v
theories/PassbandFileProofs.v
theories/PassbandFileProps.v
theories/PassbandGroupProps.v
theories/PassbandModel.v
theories/PassbandPresetProps.v
theories/PassbandProofs.v
theories/PassbandProps.v
theories/PassbandShareModel.v
theories/PassbandShareProofs.v
theories/PassbandShareProps.v
theories/PlotModel.v
theories/PlotProps.v
theories/PlotTemplates.v
theories/PostModel.v
theories/PostProps.v
theories/PzflowProps.v
theories/RadecModel.v
theories/RadecProps.v
theories/RadecTable.v
theories/RadecTrig.v
theories/RandomSurveyModel.v
theories/RandomSurveyProps.v
theories/RealBase.v
theories/RedbackProps.v
theories/RegenModel.v
theories/RegenProps.v
theories/RegisterModel.v
theories/RegisterProps.v
theories/RomanModel.v
theories/RomanProps.v
theories/Salt2Model.v
theories/Salt2Props.v
theories/SamplerModel.v
theories/SamplerProps.v
theories/ScipyModel.v
theories/ScipyProps.v
theories/SedBands.v
theories/SedBatchProps.v
theories/SedModel.v
theories/SedMulti.v
theories/SedPipeline.v
theories/SedProps.v
theories/SfdProps.v
theories/SimpleModels.v
theories/SimulateDefined.v
theories/SimulateModel.v
theories/SimulateMore.v
theories/SimulateProps.v
theories/SnRunCase.v
theories/SnRunModel.v
theories/SnRunMore.v
theories/SnRunProps.v
theories/SncosmoModel.v
theories/SncosmoProps.v
theories/SniaModel.v
theories/SniaMore.v
theories/SniaProps.v
theories/SniaSourceFuncs.v
theories/SniaSourceModel.v
theories/SniaSourceProps.v
theories/SniaSourceRun.v
theories/SplineModel.v
theories/SplineProps.v
theories/SurveyModel.v
theories/SurveyProps.v
theories/TemplateBands.v
theories/TemplateModel.v
theories/TemplateProps.v
theories/TemplateSed.v
theories/Tightened.v
theories/Tightened10.v
theories/Tightened11.v
theories/Tightened12.v
theories/Tightened13.v
theories/Tightened14.v
theories/Tightened15.v
theories/Tightened16.v
theories/Tightened17.v
theories/Tightened18.v
theories/Tightened19.v
theories/Tightened2.v
theories/Tightened20.v
theories/Tightened21.v
theories/Tightened22.v
theories/Tightened3.v
theories/Tightened4.v
theories/Tightened5.v
theories/Tightened6.v
theories/Tightened7.v
theories/Tightened8.v
theories/Tightened9.v
theories/WaveBounds.v
theories/ZtfProps.v
