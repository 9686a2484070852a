-Q theories Verif
theories/Base.v
theories/SpecDeriv.v
theories/ProofsDeriv.v
theories/ModelCM.v
theories/SpecGraph.v
theories/ProofsGraph.v
theories/ProofsCM.v
theories/ProofsCMHess.v
theories/SpecEnsemble.v
theories/ProofsEnsemble.v
theories/WitnessCM.v
theories/ProofsMainCM.v
theories/TheoremsCM.v
theories/ModelECM.v
theories/SpecWeighted.v
theories/ProofsPairW.v
theories/ProofsECM.v
theories/ProofsMainECM.v
theories/TheoremsECM.v
theories/ModelDCM.v
theories/SpecDirected.v
theories/ProofsList.v
theories/ProofsDCM.v
theories/ProofsMainDCM.v
theories/ProofsFixDCM.v
theories/TheoremsDCM.v
theories/ModelDECM.v
theories/ProofsDECM.v
theories/ProofsMainDECM.v
theories/ProofsFixDECM.v
theories/TheoremsDECM.v
theories/TheoremsExp.v
theories/ModelCReMa.v
theories/SpecCReMa.v
theories/ProofsCReMa.v
theories/ProofsMainCReMa.v
theories/ProofsSparseCReMa.v
theories/ProofsDirCReMa.v
theories/ProofsDirSparseCReMa.v
theories/ProofsSparse2.v
theories/WitnessCReMa.v
theories/TheoremsCReMa.v
theories/ModelSolver.v
theories/SpecSolver.v
theories/ProofsSolver.v
theories/ModelLinsearch.v
theories/SpecLinsearch.v
theories/ProofsLinsearch.v
theories/ProofsMainLinsearch.v
theories/WitnessLinsearch.v
theories/ProofsRegular.v
theories/ProofsConverged.v
theories/WitnessSolver.v
theories/TheoremsSolver.v
theories/ModelNetwork.v
theories/SpecNetwork.v
theories/ProofsUnique.v
theories/ProofsNetwork.v
theories/ProofsAdjacency.v
theories/WitnessNetwork.v
theories/TheoremsNetwork.v
theories/ModelMotifs.v
theories/SpecMotifs.v
theories/ProofsDyads.v
theories/ProofsDyadMoments.v
theories/ProofsTriads.v
theories/ProofsTriadMoments.v
theories/WitnessMotifs.v
theories/TheoremsMotifs.v
theories/ModelSampler.v
theories/SpecSampler.v
theories/ProofsSampler.v
theories/ProofsMainSampler.v
theories/ProofsSamplerLaw.v
theories/ProofsSamplerFiles.v
theories/WitnessSampler.v
theories/TheoremsSampler.v
theories/ModelGenerators.v
theories/SpecGenerators.v
theories/ProofsGenerators.v
theories/ProofsMainGenerators.v
theories/ProofsGeneratorsTerm.v
theories/ProofsGeneratorsSeed.v
theories/WitnessGenerators.v
theories/TheoremsGenerators.v
theories/ModelLife.v
theories/SpecLife.v
theories/ProofsLife.v
theories/ProofsLifeDir.v
theories/ProofsLifeForms.v
theories/WitnessLife.v
theories/TheoremsLife.v
theories/ModelGuess.v
theories/SpecGuess.v
theories/ProofsGuess.v
theories/ProofsGuessW.v
theories/ProofsGuessV.v
theories/WitnessGuess.v
theories/TheoremsGuess.v
theories/ModelIEEE.v
theories/ModelDispatch.v
theories/SpecDispatch.v
theories/ProofsDispatch.v
theories/ProofsIEEE.v
theories/ProofsEntries.v
theories/ProofsGuarded.v
theories/ProofsDispatchU.v
theories/ProofsDispatchD.v
theories/WitnessDispatch.v
theories/TheoremsDispatch.v
theories/ModelSolve.v
theories/SpecSolve.v
theories/ProofsSolve.v
theories/ProofsSolveU.v
theories/ProofsSolveD.v
theories/WitnessSolve.v
theories/TheoremsSolve.v
theories/SpecSymmetry.v
theories/ProofsRelabel.v
theories/ProofsEquivariant.v
theories/ProofsEquiCReMa.v
theories/ProofsAlike.v
theories/ProofsFlip.v
theories/ProofsFlipCReMa.v
theories/WitnessSymmetry.v
theories/TheoremsSymmetry.v
theories/SpecReduce.v
theories/ProofsReduce.v
theories/ProofsIsolated.v
theories/WitnessReduce.v
theories/TheoremsReduce.v
theories/ProofsCompact.v
theories/ProofsEngine.v
theories/ProofsBalance.v
theories/SpecExist.v
theories/ProofsExist.v
theories/ProofsExistW.v
theories/ProofsExistCReMa.v
theories/ProofsExistCor.v
theories/WitnessExist.v
theories/TheoremsExist.v
theories/ModelRun.v
theories/ModelTool.v
theories/SpecTool.v
theories/ProofsTool.v
theories/ProofsInert.v
theories/ProofsToolD.v
theories/SpecRun.v
theories/ProofsRun.v
theories/ProofsIterates.v
theories/ProofsPSD.v
theories/ProofsPSDModels.v
theories/ProofsAscent.v
theories/SpecReach.v
theories/ProofsReach.v
theories/ProofsAscentU.v
theories/ProofsStays.v
theories/WitnessRun.v
theories/TheoremsRun.v
theories/ProofsSpectral.v
theories/WitnessTool.v
theories/ProofsSwitch.v
theories/WitnessSwitch.v
theories/TheoremsTool.v
theories/ProofsConverge.v
theories/ProofsConvergeSys.v
theories/SpecConverge.v
theories/ProofsTraj.v
theories/ProofsResidual.v
theories/ProofsConvergeRun.v
theories/ProofsConvergeTool.v
theories/WitnessConverge.v
theories/TheoremsConverge.v
theories/ModelReport.v
theories/SpecReport.v
theories/ProofsReport.v
theories/ProofsReportFail.v
theories/WitnessReport.v
theories/TheoremsReport.v
theories/SpecSamples.v
theories/ProofsSamples.v
theories/WitnessSamples.v
theories/TheoremsSamples.v
theories/ModelSample.v
theories/SpecReported.v
theories/ProofsReported.v
theories/ProofsReportedD.v
theories/ProofsMeans.v
theories/WitnessReported.v
theories/TheoremsReported.v
theories/SpecStart.v
theories/ProofsStart.v
theories/ProofsEvaluates.v
theories/ProofsRestart.v
theories/WitnessStart.v
theories/TheoremsStart.v
theories/ModelObject.v
theories/SpecObject.v
theories/ProofsObject.v
theories/ProofsObjectForms.v
theories/ProofsObjectLabels.v
theories/WitnessObject.v
theories/TheoremsObject.v
theories/ProofsReachU.v
theories/ProofsReachNet.v
theories/WitnessReach.v
theories/TheoremsReach.v
theories/SpecReachTool.v
theories/ProofsReachTool.v
theories/SpecIsolated.v
theories/ProofsNoRaise.v
theories/ProofsReachObject.v
theories/WitnessReachTool.v
theories/TheoremsReachTool.v
theories/ProofsNoRaiseObject.v
theories/WitnessIsolated.v
theories/TheoremsIsolated.v
theories/SpecRename.v
theories/ProofsRename.v
theories/ProofsRenameDir.v
theories/WitnessRename.v
theories/TheoremsRename.v
theories/ModelZscore.v
theories/SpecZscore.v
theories/ProofsZscore.v
theories/ProofsReverse.v
theories/ProofsFlat.v
theories/WitnessZscore.v
theories/TheoremsZscore.v
theories/SpecNear.v
theories/ProofsNear.v
theories/ProofsNearW.v
theories/ProofsNearC.v
theories/ProofsNearTool.v
theories/WitnessNear.v
theories/TheoremsNear.v
theories/ProofsNearE.v
theories/WitnessNearE.v
theories/ProofsNearN.v
theories/WitnessNearN.v
theories/TheoremsNearE.v
theories/SpecData.v
theories/ProofsData.v
theories/WitnessData.v
theories/TheoremsData.v
theories/ModelGraphNx.v
theories/SpecGraphNx.v
theories/ProofsGraphNx.v
theories/TheoremsGraphNx.v
theories/ProofsPipeline.v
theories/WitnessPipeline.v
theories/TheoremsPipeline.v
theories/ModelReuse.v
theories/SpecReuse.v
theories/ProofsReuse.v
theories/ProofsReuseD.v
theories/WitnessReuse.v
theories/TheoremsReuse.v
theories/SpecRank.v
theories/ProofsRank.v
theories/WitnessRank.v
theories/TheoremsRank.v
theories/ProofsRankD.v
theories/WitnessRankD.v
theories/TheoremsRankD.v
theories/ProofsRankE.v
theories/WitnessRankE.v
theories/TheoremsRankE.v
theories/SpecAscend.v
theories/ProofsAscend.v
theories/ProofsAscendLimit.v
theories/ProofsAscendRun.v
theories/ProofsAscendSparse.v
theories/WitnessAscend.v
theories/TheoremsAscend.v
theories/SpecAscendTool.v
theories/ProofsAscendTool.v
theories/TheoremsAscendTool.v
theories/ProofsAscentSparse.v
theories/WitnessAscentSparse.v
theories/TheoremsSparseRun.v
theories/ProofsToolSparse.v
theories/WitnessToolSparse.v
theories/ProofsToolSparseD.v
theories/WitnessToolSparseD.v
theories/TheoremsToolSparse.v
theories/ProofsDataReach.v
theories/WitnessDataReach.v
theories/TheoremsDataReach.v
