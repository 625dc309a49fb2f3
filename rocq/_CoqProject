-Q theories Verif
theories/Base.v
theories/Trees.v
theories/TreeFacts.v
theories/Library.v
theories/LibraryFacts.v
theories/Program.v
theories/ProgramFacts.v
theories/CacheFacts.v
theories/Execute.v
theories/ExecuteSpec.v
theories/ExecuteFacts.v
theories/TreePos.v
theories/Subroutines.v
theories/SubroutinesFacts.v
theories/Prior.v
theories/PriorSpec.v
theories/PriorFacts.v
theories/LengthFacts.v
theories/JointFacts.v
theories/CheckFacts.v
theories/DiffSampled.v
theories/ExampleLib.v
theories/SamplingLemmas.v
theories/ExecExtra.v
theories/Estimator.v
theories/PriorExtra.v
theories/TorchExec.v
theories/PropsProgram.v
theories/PropsPriors.v
theories/Memory.v
theories/MemoryFacts.v
theories/HeapFacts.v
theories/MemoryExtra.v
theories/PropsMemory.v
theories/Stridge.v
theories/StridgeFacts.v
theories/StridgeFit.v
theories/Aggregator.v
theories/AggregatorFacts.v
theories/DedupFacts.v
theories/RegressLemmas.v
theories/PropsRegress.v
theories/Num.v
theories/Searcher.v
theories/SearcherFacts.v
theories/Utils.v
theories/UtilsFacts.v
theories/PropsSearch.v
theories/SgaTree.v
theories/SgaSpec.v
theories/SgaTreeFacts.v
theories/SgaGenFacts.v
theories/SgaNames.v
theories/SgaEval.v
theories/SgaEvalFacts.v
theories/SgaLocated.v
theories/PropsSga.v
theories/SgaPop.v
theories/SgaPopFacts.v
theories/PropsSgaPop.v
theories/SparseReg.v
theories/SparseRegFacts.v
theories/PropsSparse.v
theories/FiniteDiff.v
theories/PropsFD.v
theories/SgaNaming.v
theories/SgaNamingFacts.v
theories/PropsNaming.v
theories/SgaRegistry.v
theories/PropsRegistry.v
theories/SgaDivide.v
theories/PropsDivide.v
theories/Arrays.v
theories/Dataset.v
theories/PropsDataset.v
theories/Adapter.v
theories/PropsAdapter.v
theories/PropsBounds.v
theories/NamedPriors.v
theories/PropsNamedPriors.v
theories/FromText.v
theories/PropsFromText.v
theories/PropsSharper.v
theories/Params.v
theories/PropsParams.v
theories/Job.v
theories/PropsJob.v
theories/Loader.v
theories/PropsLoader.v
theories/Info.v
theories/PropsInfo.v
theories/Dlga.v
theories/DlgaFacts.v
theories/PropsDlga.v
theories/DlgaEq.v
theories/DlgaEqSpec.v
theories/DlgaEqFacts.v
theories/PropsDlgaEq.v
theories/DlgaFitness.v
theories/PropsDlgaFitness.v
theories/SgaEq.v
theories/SgaEqSpec.v
theories/SgaEqFacts.v
theories/PropsSgaEq.v
theories/VizReg.v
theories/PropsVizReg.v
theories/VizCore.v
theories/PropsVizCore.v
theories/Imports.v
theories/ImportsFacts.v
theories/PropsImports.v
theories/VizData.v
theories/VizDataFacts.v
theories/PropsVizData.v
theories/RegText.v
theories/RegTextFacts.v
theories/PropsRegText.v
theories/RegEst.v
theories/PropsRegEst.v
theories/Config.v
theories/PropsConfig.v
theories/Pysr.v
theories/PropsPysr.v
theories/TimePick.v
theories/TimePickFacts.v
theories/SgaPlot.v
theories/SgaPlotFacts.v
theories/PropsSgaTimes.v
theories/PropsSgaPlot.v
theories/DlgaPlot.v
theories/PropsDlgaParity.v
theories/PropsDlgaPlot.v
theories/VizApi.v
theories/PropsVizApi.v
theories/EqGpt.v
theories/PropsEqGpt.v
theories/PropsEqGptText.v
theories/PropsEqGptSearch.v
theories/PropsEqGptReward.v
theories/EqGptTerms.v
theories/PropsEqGptTerms.v
theories/PropsEqGptTermsBad.v
theories/EqGptSurrogate.v
theories/PropsEqGptSurrogate.v
theories/DiscoverViz.v
theories/PropsDiscoverHistory.v
theories/PropsDiscoverFields.v
theories/DiscoverLatex.v
theories/PropsDiscoverLatex.v
theories/Spr.v
theories/PropsSpr.v
theories/PropsSprTrain.v
theories/PropsSprData.v
theories/Web.v
theories/PropsWeb.v
theories/Controller.v
theories/PropsController.v
theories/PropsControllerPolicy.v
theories/PropsControllerLoss.v
theories/PropsControllerInput.v
theories/PropsControllerGa.v
theories/EqGptTrain.v
theories/EqGptAugment.v
theories/PropsEqGptTrain.v
theories/PropsEqGptAugment.v
theories/PropsSpatial.v
theories/Crop.v
theories/PropsCrop.v
theories/Const.v
theories/PropsConst.v
theories/SgaAuto.v
theories/SgaAutoFacts.v
theories/SgaAutoLoop.v
theories/PropsSgaAuto.v
theories/Legacy.v
theories/PropsLegacy.v
theories/PropsLegacyIo.v
theories/PropsSgaMeta.v
theories/Tokens.v
theories/PropsTokens.v
theories/PropsTorch.v
theories/Stability.v
theories/PropsStability.v
theories/TreePlot.v
theories/PropsTreePlot.v
theories/Session.v
theories/SessionFacts.v
theories/PropsSession.v
theories/SgaProblem.v
theories/PropsSgaProblem.v
theories/Network.v
theories/PropsNetwork.v
theories/RegData.v
theories/PropsRegData.v
theories/PropsSharper2.v
theories/MultiObject.v
theories/PropsMultiObject.v
theories/PropsSharper3.v
theories/NdFigures.v
theories/PropsNdFigures.v
theories/PropsSharper4.v
theories/PropsSharper5.v
theories/LegacyDlga.v
theories/PropsLegacyDlga.v
theories/PropsSharper6.v
theories/DataUtils.v
theories/PropsDataUtils.v
theories/SpatialComplete.v
theories/PropsSpatialComplete.v
theories/SprFigures.v
theories/PropsSprFigures.v
