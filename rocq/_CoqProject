-Q theories Verif
theories/Py.v
theories/PyFacts.v
theories/Kepler.v
theories/KeplerProofs.v
theories/KeplerSpec.v
theories/TrigFacts.v
theories/DanbyProofs.v
theories/RvProofs.v
theories/RvTerm.v
theories/OrbitProofs.v
theories/PropertiesOrbit.v
theories/Params.v
theories/ParamsProofs.v
theories/ParamsSpec.v
theories/VectorProofs.v
theories/Basis.v
theories/BasisNum.v
theories/BasisProofs.v
theories/BasisConv.v
theories/VConv.v
theories/BasisModel.v
theories/BasisThms.v
theories/RVModel.v
theories/RVModelProofs.v
theories/ModelThms.v
theories/PickleProofs.v
theories/BasisExtra.v
theories/PropertiesBasis.v
theories/PyFloat.v
theories/PyFloatFacts.v
theories/Likelihood.v
theories/LikeSpec.v
theories/LikeProofs.v
theories/LikeHist.v
theories/GaussInt.v
theories/LikeDensity.v
theories/LikeMore.v
theories/LikeBuild.v
theories/LikeAlign.v
theories/ExLike.v
theories/Prior.v
theories/PriorSpec.v
theories/PriorProofs.v
theories/PriorThms.v
theories/PriorPhys.v
theories/Posterior.v
theories/PostProofs.v
theories/PostHist.v
theories/PostRefute.v
theories/PostTight.v
theories/PropertiesLike.v
theories/ExPost.v
theories/PropertiesPrior.v
theories/Gp.v
theories/GpSpec.v
theories/PsdProofs.v
theories/GpProofs.v
theories/GpHist.v
theories/GpMore.v
theories/PropertiesGp.v
theories/Mcmc.v
theories/McmcSpec.v
theories/McmcProofs.v
theories/McmcThms.v
theories/McmcRows.v
theories/McmcSave.v
theories/McmcSaveProofs.v
theories/McmcSaveThms.v
theories/PropertiesMcmc.v
theories/Timebin.v
theories/TimebinSpec.v
theories/TimebinProofs.v
theories/BintelsProofs.v
theories/Phase.v
theories/PhaseProofs.v
theories/Dates.v
theories/DatesProofs.v
theories/Mass.v
theories/MassProofs.v
theories/Stats.v
theories/StatsProofs.v
theories/Format.v
theories/FormatProofs.v
theories/Workdir.v
theories/UtilsThms.v
theories/PropertiesUtils.v
theories/Nested.v
theories/NestedProofs.v
theories/PropertiesNested.v
theories/Fitting.v
theories/FittingProofs.v
theories/ModelComp.v
theories/ModelCompSpec.v
theories/ModelCompProofs.v
theories/ModelCompThms.v
theories/PropertiesFit.v
theories/Status.v
theories/StatusProofs.v
theories/StatusSpec.v
theories/StatusRound.v
theories/StatusInv.v
theories/StatusThms.v
theories/Kwargs.v
theories/KwargsSpec.v
theories/KwargsProofs.v
theories/CompTable.v
theories/CompTableSpec.v
theories/CompTableProofs.v
theories/PropertiesDriver.v
theories/Setup.v
theories/SetupSpec.v
theories/SetupProofs.v
theories/SetupThms.v
theories/SetupMain.v
theories/SetupHyper.v
theories/ExSetup.v
theories/SetupGpSpec.v
theories/SetupGp.v
theories/ExSetupGp.v
theories/SetupDecorr.v
theories/ExSetupDecorr.v
theories/PropertiesSetup.v
theories/Pipeline.v
theories/PipelineSpec.v
theories/PipelineProofs.v
theories/PipelineSim.v
theories/PipelineThms.v
theories/PropertiesPipeline.v
theories/IcCompare.v
theories/IcSpec.v
theories/IcProofs.v
theories/IcLabels.v
theories/IcThms.v
theories/ExIc.v
theories/PropertiesIc.v
theories/DecorrSpec.v
theories/DecorrProofs.v
theories/DecorrThms.v
theories/PropertiesDecorr.v
theories/ParTable.v
theories/ParTableSpec.v
theories/ParTableProofs.v
theories/ParTableThms.v
theories/PropertiesParTable.v
theories/PostProc.v
theories/PostProcSpec.v
theories/PostProcProofs.v
theories/PostProcThms.v
theories/PropertiesPostProc.v
theories/Derive.v
theories/DeriveSpec.v
theories/DeriveProofs.v
theories/DeriveThms.v
theories/PropertiesDerive.v
theories/TexLabels.v
theories/TexSpec.v
theories/TexProofs.v
theories/TexThms.v
theories/PropertiesTex.v
theories/DerivTab.v
theories/DerivTabSpec.v
theories/DerivTabProofs.v
theories/DerivTabThms.v
theories/PropertiesDerivTab.v
theories/CholSpec.v
theories/Cholesky.v
theories/GpLike.v
theories/GpClip.v
theories/GpPredClip.v
theories/PropertiesGpLike.v
theories/PredSpec.v
theories/GpResid.v
theories/GpPred.v
theories/PropertiesGpPred.v
theories/FastBin.v
theories/FastBinSpec.v
theories/FastBinProofs.v
theories/PropertiesFastBin.v
theories/RvTab.v
theories/RvTabSpec.v
theories/RvTabProofs.v
theories/PropertiesRvTab.v
theories/PriorTab.v
theories/PriorTabSpec.v
theories/PriorTabProofs.v
theories/PropertiesPriorTab.v
theories/RepChains.v
theories/RepChainsSpec.v
theories/RepChainsProofs.v
theories/RepChainsThms.v
theories/ExRepChains.v
theories/PropertiesRepChains.v
theories/TelPlot.v
theories/TelPlotSpec.v
theories/TelPlotProofs.v
theories/TelPlotThms.v
theories/PropertiesTelPlot.v
theories/Panels.v
theories/PanelSpec.v
theories/PanelProofs.v
theories/PanelFit.v
theories/PanelThms.v
theories/PanelMade.v
theories/PropertiesPanel.v
theories/Figure.v
theories/FigureSpec.v
theories/FigureThms.v
theories/PropertiesFigure.v
theories/GpPlot.v
theories/GpPlotSpec.v
theories/GpPlotThms.v
theories/GpPlotMade.v
theories/PropertiesGpPlot.v
theories/ChainPlot.v
theories/ChainPlotSpec.v
theories/ChainPlotThms.v
theories/ChainPlotMade.v
theories/ChainPlotEx.v
theories/PropertiesChainPlot.v
theories/Anno.v
theories/AnnoSpec.v
theories/AnnoProofs.v
theories/AnnoThms.v
theories/AnnoEx.v
theories/PropertiesAnno.v
theories/TabRun.v
theories/TabRunSpec.v
theories/TabRunProofs.v
theories/TabAgain.v
theories/TabRunThms.v
theories/TabRunEx.v
theories/PropertiesTabRun.v
theories/ReportFile.v
theories/ReportFileSpec.v
theories/ReportFileProofs.v
theories/ReportFileThms.v
theories/PropertiesReportFile.v
theories/FitText.v
theories/FitTextSpec.v
theories/FitTextProofs.v
theories/FitTextThms.v
theories/PropertiesFitText.v
theories/Cli.v
theories/CliSpec.v
theories/CliProofs.v
theories/CliThms.v
theories/CliMore.v
theories/CliPlace.v
theories/CliEx.v
theories/PropertiesCli.v
theories/Start.v
theories/StartSpec.v
theories/StartProofs.v
theories/StartThms.v
theories/StartEx.v
theories/PropertiesStart.v
theories/Parallel.v
theories/ParallelSpec.v
theories/ParallelProofs.v
theories/ParallelThms.v
theories/ParallelEx.v
theories/PropertiesParallel.v
theories/Enclose.v
theories/DanbyBox.v
theories/DanbyBoxProofs.v
theories/DanbyRun.v
theories/DanbyAll.v
theories/ModelReturns.v
theories/PropertiesReturn.v
theories/Progress.v
theories/ProgressSpec.v
theories/ProgressProofs.v
theories/ProgressThms.v
theories/PropertiesProgress.v
theories/PriorText.v
theories/PriorTextSpec.v
theories/PriorTextProofs.v
theories/PriorTextThms.v
theories/PropertiesPriorText.v
theories/DataDir.v
theories/DataDirSpec.v
theories/DataDirThms.v
theories/PropertiesDataDir.v
theories/Loading.v
theories/LoadingSpec.v
theories/LoadingThms.v
theories/PropertiesLoading.v
theories/CompText.v
theories/CompTextSpec.v
theories/CompTextThms.v
theories/PropertiesCompText.v
theories/ParamText.v
theories/ParamTextSpec.v
theories/ParamTextThms.v
theories/PropertiesParamText.v
theories/GpFigure.v
theories/GpFigureSpec.v
theories/GpFigureThms.v
theories/PropertiesGpFigure.v
theories/CompCells.v
theories/CompCellsSpec.v
theories/CompCellsThms.v
theories/PropertiesCompCells.v
