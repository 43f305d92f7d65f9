-Q theories Verif
theories/ModelBase.v
theories/ModelImage.v
theories/ProofsImage.v
theories/ModelThin.v
theories/SpecThin.v
theories/ProofsTopology.v
theories/ProofsThin.v
theories/PropertiesThin.v
theories/ModelProgress.v
theories/ProofsProgress.v
theories/PropertiesProgress.v
theories/ModelMetrics.v
theories/SpecMetrics.v
theories/ProofsMetrics.v
theories/ProofsMetrics2.v
theories/PropertiesMetrics.v
theories/SpecAUC.v
theories/PropertiesAUC.v
theories/ModelDec.v
theories/ProofsDec.v
theories/ModelLabels.v
theories/SpecLabels.v
theories/ProofsLabels.v
theories/PropertiesLabels.v
theories/ModelEdges.v
theories/SpecEdges.v
theories/ProofsEdges.v
theories/ProofsEdges2.v
theories/ProofsEdgesReal.v
theories/PropertiesEdges.v
theories/PropertiesEdges2.v
theories/ModelCSA.v
theories/SpecMatch.v
theories/ProofsCSA.v
theories/ProofsCSA2.v
theories/ProofsCSA3.v
theories/ProofsCSA4.v
theories/ModelMatch.v
theories/ProofsKofn.v
theories/ProofsMatch.v
theories/ProofsMatch2.v
theories/SpecCorrespond.v
theories/ProofsMatch3.v
theories/ProofsMatch4.v
theories/ProofsMatch5.v
theories/PropertiesMatch.v
theories/SpecGraph.v
theories/ProofsMatch6.v
theories/ProofsMatch7.v
theories/PropertiesMatch2.v
theories/ModelNMS.v
theories/SpecNMS.v
theories/ProofsNMS.v
theories/ProofsNMS2.v
theories/PropertiesNMS.v
theories/PropertiesNMS2.v
theories/ModelEval.v
theories/SpecEval.v
theories/ProofsEval.v
theories/ProofsEval2.v
theories/PropertiesEval.v
theories/PropertiesEval2.v
theories/ExamplesEval.v
theories/ModelText.v
theories/ModelResults.v
theories/ProofsText.v
theories/SpecResults.v
theories/ProofsResults.v
theories/PropertiesResults.v
theories/ModelEvaluator.v
theories/ModelCLI.v
theories/SpecEvaluator.v
theories/PropertiesEvaluator.v
theories/PropertiesEvaluator2.v
theories/SpecCLI.v
theories/PropertiesCLI.v
theories/ModelUtils.v
theories/SpecUtils.v
theories/PropertiesUtils.v
theories/PropertiesFiles.v
theories/SpecSingle.v
theories/PropertiesEval3.v
theories/ModelConvert.v
theories/ModelSamples.v
theories/SpecPaths.v
theories/ProofsPaths.v
theories/SpecSamples.v
theories/ProofsWorkers.v
theories/PropertiesSamples.v
theories/SpecConvert.v
theories/PropertiesConvert.v
theories/ProofsConvert.v
theories/PropertiesPrepare.v
theories/ModelSBD.v
theories/SpecSBD.v
theories/PropertiesSBD.v
theories/PropertiesSBD2.v
theories/SpecCategory.v
theories/PropertiesCategory.v
theories/SpecFloat.v
theories/PropertiesFloat.v
theories/ModelPlot.v
theories/SpecPlot.v
theories/PropertiesPlot.v
theories/ModelFloat.v
theories/SpecRounding.v
theories/ProofsFloat.v
theories/ProofsFloat2.v
theories/PropertiesRounding.v
theories/ModelCSA64.v
theories/ModelMatch64.v
theories/ProofsCSA64.v
theories/ProofsCSA64b.v
theories/ProofsCSA64c.v
theories/ProofsCSA64d.v
theories/PropertiesSolver64.v
theories/ProofsMatch64.v
theories/PropertiesMatch64.v
theories/ModelMatchF.v
theories/ProofsMatchF.v
theories/ProofsMatchF2.v
theories/ProofsMatchF3.v
theories/SpecMatchF.v
theories/PropertiesMatchF.v
theories/PropertiesMatchF2.v
theories/ModelThreshF.v
theories/PropertiesThreshF.v
theories/SpecEvalF.v
theories/ModelEvalF.v
theories/ProofsEvalF.v
theories/ProofsEvalF2.v
theories/ProofsEvalF3.v
theories/PropertiesEvalF.v
theories/ModelSession.v
theories/SpecSession.v
theories/ProofsSession.v
theories/ProofsSession2.v
theories/PropertiesSession.v
theories/ProofsSession3.v
theories/PropertiesSession2.v
theories/PropertiesWorkers.v
theories/ModelJobs.v
theories/SpecJobs.v
theories/ProofsJobs.v
theories/ProofsJobs2.v
theories/PropertiesJobs.v
theories/PropertiesJobs2.v
theories/ModelCompare.v
theories/SpecCompare.v
theories/PropertiesCompare.v
theories/ModelTools.v
theories/SpecTools.v
theories/PropertiesTools.v
theories/ModelDirs.v
theories/SpecDirs.v
theories/ProofsDirs.v
theories/ProofsDirs2.v
theories/PropertiesDirs.v
theories/SpecDirs2.v
theories/PropertiesDirs2.v
theories/ModelInts.v
theories/SpecInts.v
theories/PropertiesInts.v
theories/ModelArrays.v
theories/ProofsArrays.v
theories/ProofsArrays2.v
theories/ProofsArrays3.v
theories/PropertiesArrays.v
theories/ModelCSAMem.v
theories/ProofsCSAMem.v
theories/ProofsCSAMem2.v
theories/PropertiesCSAMem.v
theories/ModelCSAMem64.v
theories/ProofsCSAMem64.v
theories/ModelArrays64.v
theories/PropertiesArrays64.v
theories/ModelIter.v
theories/PropertiesIter.v
theories/PropertiesBar.v
theories/ModelPrintLog.v
theories/PropertiesPrintLog.v
theories/ModelLinks.v
theories/PropertiesLinks.v
theories/ModelGeneric.v
theories/PropertiesGeneric.v
theories/ModelNMSF.v
theories/PropertiesNMSF.v
