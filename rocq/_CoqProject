-Q theories Verif
theories/PyBase.v
theories/CNum.v
theories/UAMaps.v
theories/MapProofs.v
theories/UAComponents.v
theories/PyExpr.v
theories/UAModels.v
theories/Nucleon.v
theories/ComponentProofs.v
theories/ExprProofs.v
theories/KaonProofs.v
theories/SectorProofs.v
theories/KaonSpec.v
theories/OtherModels.v
theories/NucleonCache.v
theories/NucleonProofs.v
theories/NucleonView.v
theories/NucleonSpec.v
theories/Params.v
theories/ParamClasses.v
theories/ParamProofs.v
theories/ParamSpec.v
theories/BoundsProofs.v
theories/CrossSections.v
theories/CommonUtils.v
theories/UtilsSpec.v
theories/PropsMaps.v
theories/PropsOther.v
theories/PropsKaon.v
theories/PropsKaon2.v
theories/PropsNucleon.v
theories/PropsNucleon2.v
theories/PropsNucleon3.v
theories/PropsParams.v
theories/PropsParams2.v
theories/PerturbProofs.v
theories/PropsPerturb.v
theories/UtilsProofs.v
theories/PropsUtils.v
theories/PropsBounds.v
theories/Analytic.v
theories/AnalyticModels.v
theories/PropsAnalytic.v
theories/AltMaps.v
theories/PropsAltMaps.v
theories/World.v
theories/WorldSpec.v
theories/WorldProofs.v
theories/PropsWorld.v
theories/Scripts.v
theories/PropsCross.v
theories/PropsScripts.v
theories/DataSets.v
theories/PropsData.v
theories/Task.v
theories/TaskSpec.v
theories/TaskProofs.v
theories/PropsTask.v
theories/Pipeline.v
theories/PipelineSpec.v
theories/PipelineReports.v
theories/PipelineFreeze.v
theories/PropsReports.v
theories/PipelineProofs.v
theories/PropsPipeline.v
theories/PropsRuns.v
theories/FitScripts.v
theories/PropsStarts.v
theories/PropsFitScripts.v
theories/PropsScriptRuns.v
theories/PropsFeasible.v
theories/DataFiles.v
theories/PropsFiles.v
theories/Balls.v
theories/Enclose.v
theories/EncloseCS.v
theories/UnitTests.v
theories/UnitChecks.v
theories/PropsEnclose.v
theories/PropsEncloseNucleon.v
theories/PropsRunFiles.v
theories/PropsResonances.v
theories/PropsResidual.v
theories/PropsMeasurements.v
theories/ConfigFiles.v
theories/PropsConfig.v
theories/OtherScript.v
theories/PropsOtherScript.v
theories/PropsConstruct.v
theories/SingleFits.v
theories/PropsSingleFits.v
theories/Parser.v
theories/PropsParser.v
theories/SinglePlot.v
theories/PropsSinglePlot.v
theories/PlotComplex.v
theories/PropsPlotComplex.v
theories/PlotFit.v
theories/PropsPlotFit.v
theories/PropsScriptStarts.v
theories/Imports.v
theories/PropsImports.v
theories/PropsAmbiguity.v
theories/PropsNames.v
theories/PropsCouplings.v
theories/Asymptotics.v
theories/PropsAsymptotics.v
theories/Masses.v
theories/PropsMasses.v
theories/Limits.v
theories/PropsBranchPoints.v
theories/PropsFitFunctions.v
theories/PropsBestFit.v
theories/PropsSingleContinuity.v
theories/PropsBounded.v
