-Q theories Verif
theories/Prelude.v
theories/ModelText.v
theories/SpecText.v
theories/ProofText.v
theories/StencilData.v
theories/ModelStencils.v
theories/SpecStencils.v
theories/BigSum.v
theories/ProofStencils.v
theories/ProofStencilMoments.v
theories/ProofMaxVel.v
theories/ProofWick.v
theories/PropStencils.v
theories/ModelConfigNames.v
theories/ModelEquilibria.v
theories/MRTData.v
theories/ModelCollision.v
theories/ModelSelection.v
theories/SpecCollision.v
theories/SpecSetup.v
theories/SpecSelection.v
theories/SpecCollideAll.v
theories/ProofEquilibria.v
theories/ProofQuartic.v
theories/ProofEqMoments.v
theories/ProofRelax.v
theories/ProofCollideNode.v
theories/ProofForces.v
theories/ProofFixed.v
theories/ProofCompressible.v
theories/ProofSelection.v
theories/ProofCollideAll.v
theories/ProofPhysical.v
theories/SpecDHumieres.v
theories/ProofDHumieres.v
theories/PropEquilibria.v
theories/PropCollision.v
theories/PropForces.v
theories/ModelRun.v
theories/SpecRun.v
theories/ProofRun.v
theories/ProofRun2.v
theories/ProofRestart.v
theories/ModelCheckpoint.v
theories/SpecCheckpoint.v
theories/ProofCheckpoint.v
theories/ProofRestart2.v
theories/ProofRunEx.v
theories/PropRun.v
theories/ConfigTypes.v
theories/ConfigData.v
theories/ModelConfig.v
theories/SpecConfig.v
theories/ProofConfig.v
theories/ProofConfig2.v
theories/ProofConfig3.v
theories/ProofConfig4.v
theories/PropConfig.v
theories/EnumData.v
theories/ModelCommandLine.v
theories/SpecCommandLine.v
theories/ProofCommandLine.v
theories/ProofCommandLine2.v
theories/ProofCommandLine3.v
theories/ProofCommandLine4.v
theories/ProofCommandLine5.v
theories/ProofCommandLine6.v
theories/PropCommandLine.v
theories/ModelTimeIntegration.v
theories/SpecTimeIntegration.v
theories/ProofTimeIntegration.v
theories/ProofTimeIntegration2.v
theories/ProofTimeIntegration3.v
theories/ProofTimeIntegration4.v
theories/PropTimeIntegration.v
theories/ModelFilter.v
theories/SpecFilter.v
theories/ProofFilter.v
theories/ProofFilter2.v
theories/ProofFilter3.v
theories/PropFilter.v
theories/ModelBoundary.v
theories/SpecBoundary.v
theories/ProofBoundary.v
theories/PropBoundary.v
theories/ModelSemiLagrangian.v
theories/SpecSemiLagrangian.v
theories/ProofSemiLagrangian.v
theories/ProofSemiLagrangian2.v
theories/ProofSemiLagrangian3.v
theories/ProofSemiLagrangian4.v
theories/ProofSemiLagrangian5.v
theories/PropSemiLagrangian.v
theories/ModelWalls.v
theories/SpecWalls.v
theories/ProofWalls.v
theories/ProofWalls2.v
theories/ProofWalls3.v
theories/ProofWalls4.v
theories/ProofWalls5.v
theories/ProofWalls6.v
theories/ProofWalls7.v
theories/ProofWalls8.v
theories/ProofWalls9.v
theories/ProofWalls10.v
theories/ProofWalls11.v
theories/ProofWalls12.v
theories/PropWalls.v
theories/ModelDistribution.v
theories/SpecDistribution.v
theories/ProofDistribution.v
theories/PropDistribution.v
theories/SpecNear.v
theories/ProofStencilHigh.v
theories/ProofNear.v
theories/ProofNearEq.v
theories/ProofNearCollide.v
theories/ProofNearReg.v
theories/PropNear.v
theories/ModelThermalWalls.v
theories/SpecThermal.v
theories/ProofThermal.v
theories/ProofThermalNode.v
theories/ProofThermalNode2.v
theories/ProofThermalNode3.v
theories/ProofThermalFields.v
theories/ProofThermalWitness.v
theories/PropThermal.v
theories/ModelSEDG.v
theories/SpecSEDG.v
theories/SpecSEDGRun.v
theories/ProofSEDG.v
theories/ProofSEDGRate.v
theories/ProofSEDGSums.v
theories/ProofSEDGMain.v
theories/ProofSEDGStencil.v
theories/ProofSEDGMesh.v
theories/ProofSEDGWitness.v
theories/ProofSEDGFlow.v
theories/ProofSEDGRun.v
theories/PropSEDG.v
theories/MRTEntropicData.v
theories/ModelOldCollision.v
theories/SpecOldCollision.v
theories/ProofOldCollision.v
theories/ProofOldNode.v
theories/ProofOldNode2.v
theories/ProofOldForce.v
theories/ProofOldLoop.v
theories/ProofOldMore.v
theories/ProofOldRefuted.v
theories/ProofOldRefuted2.v
theories/ProofOldRefuted3.v
theories/ProofOldState.v
theories/ProofOldExamples.v
theories/PropOldCollision.v
theories/ModelBenchmarks.v
theories/SpecBenchmarks.v
theories/ProofDeriv.v
theories/ProofSeries.v
theories/ProofBenchTGV.v
theories/ProofBenchCouette.v
theories/ProofBenchChannel.v
theories/ProofBenchGrid.v
theories/ProofBenchAdvection.v
theories/ProofBenchInitial.v
theories/ProofBenchSummary.v
theories/PropBenchmarks.v
theories/ModelErrors.v
theories/SpecErrors.v
theories/ProofErrors.v
theories/ProofErrorStats.v
theories/ProofErrorsEx.v
theories/PropErrors.v
theories/StabilizerData.v
theories/ModelEntropic.v
theories/SpecEntropic.v
theories/ProofKBC.v
theories/ProofKBC9.v
theories/ProofKBCEq.v
theories/ProofKBCNode.v
theories/ProofKBCFix.v
theories/ProofStabilizer.v
theories/ProofStabilizer2.v
theories/ProofStabilizer3.v
theories/ProofEst.v
theories/ProofEntropicAll.v
theories/ProofEntropicEq.v
theories/ProofEntropicRefuted.v
theories/ProofEntropicRefuted2.v
theories/ProofEntropicSummary.v
theories/PropEntropic.v
theories/ModelMultistep.v
theories/SpecMultistep.v
theories/ProofMultistep.v
theories/ProofMultistep2.v
theories/ProofMultistep3.v
theories/ProofMultistep4.v
theories/ProofMultistep5.v
theories/ProofMultistepEx.v
theories/PropMultistep.v
theories/ModelStatistics.v
theories/SpecStatistics.v
theories/ProofStatistics.v
theories/ProofStatistics2.v
theories/ProofStatistics3.v
theories/ProofStatisticsEx.v
theories/ProofStatistics4.v
theories/PropStatistics.v
theories/ModelMultiphase.v
theories/SpecMultiphase.v
theories/ProofMultiphase.v
theories/ProofMultiphase2.v
theories/ProofMultiphase3.v
theories/ModelGrads.v
theories/ProofGrads.v
theories/ModelPrescribed.v
theories/SpecPrescribed.v
theories/ProofPrescribed.v
theories/ProofPrescribed2.v
theories/ModelLines.v
theories/SpecLines.v
theories/ProofLines.v
theories/PropMultiphase.v
theories/PropBoundaryValues.v
theories/ModelSparsity.v
theories/SpecSparsity.v
theories/ProofSparsity.v
theories/ProofSparsity2.v
theories/ProofSparsity3.v
theories/PropSparsity.v
theories/ModelMeshTools.v
theories/SpecMeshTools.v
theories/ProofMeshTools.v
theories/PropMeshTools.v
theories/SpecStream.v
theories/ProofStream.v
theories/ProofStream2.v
theories/ModelSimulation.v
theories/SpecSimulation.v
theories/ProofSimulation.v
theories/ProofSimulation2.v
theories/ProofSimulationEx.v
theories/PropSimulation.v
theories/ModelSimulationSL.v
theories/SpecLattice.v
theories/ProofLattice.v
theories/ProofLattice2.v
theories/ProofLattice3.v
theories/PropLattice.v
theories/SpecSymmetry.v
theories/ProofSymmetry.v
theories/ProofSymmetry2.v
theories/ProofSymmetry3.v
theories/ProofSymmetry4.v
theories/ProofSymmetry5.v
theories/SpecSymmetryRun.v
theories/ProofSymmetry6.v
theories/PropSymmetry.v
theories/SpecExtremes.v
theories/ProofExtremes.v
theories/ProofExtremes2.v
theories/PropExtremes.v
theories/ModelCompressible.v
theories/SpecCompressible.v
theories/ProofCompressibleRun.v
theories/ProofCompressibleRun2.v
theories/ProofCompressibleRun3.v
theories/ProofCompressibleUniform.v
theories/ProofCompressibleRestart.v
theories/ProofCompressibleEx.v
theories/PropCompressible.v
theories/SpecOldMRT.v
theories/ProofOldMRT.v
theories/PropOldMRT.v
theories/ModelShocks.v
theories/SpecShocks.v
theories/ProofShocks.v
theories/ProofShocks2.v
theories/ProofShocks3.v
theories/PropShocks.v
theories/ModelForcing.v
theories/SpecForcing.v
theories/ProofForcing.v
theories/ProofForcing2.v
theories/PropForcing.v
theories/ProofCouetteInit.v
theories/ModelTurbChannel.v
theories/SpecTurbChannel.v
theories/ProofRandf.v
theories/ModelFlowStart.v
theories/ProofFlowStart.v
theories/ProofTurbChannel.v
theories/ProofTurbSummary.v
theories/PropTurbChannel.v
theories/ModelElements.v
theories/SpecElements.v
theories/ProofElements.v
theories/ProofElements2.v
theories/ProofElementsEx.v
theories/PropElements.v
theories/ModelBoxes.v
theories/SpecBoxes.v
theories/ProofBoxes.v
theories/ProofBoxes2.v
theories/ProofBoxesEx.v
theories/PropBoxes.v
theories/ProofLobatto.v
theories/SpecFilterOrders.v
theories/ProofFilterOrders.v
theories/ProofFilterOrders2.v
theories/PropFilterOrders.v
theories/SpecTimeRuns.v
theories/ProofTimeRuns.v
theories/ProofTimeRuns2.v
theories/PropTimeRuns.v
theories/ProofTransportRuns.v
theories/PropTransportRuns.v
theories/ModelObstacles.v
theories/SpecObstacles.v
theories/ProofObstacles.v
theories/PropObstacles.v
theories/CavityData.v
theories/ModelCavity.v
theories/SpecCavity.v
theories/ProofCavity.v
theories/PropCavity.v
theories/ModelComplexWall.v
theories/ProofComplexWall.v
theories/PropComplexWall.v
theories/ModelFourier.v
theories/SpecFourier.v
theories/ProofFourier.v
theories/PropFourier.v
theories/ModelSemiParallel.v
theories/SpecSemiParallel.v
theories/ProofSemiParallel.v
theories/PropSemiParallel.v
theories/ModelBoundaryGradient.v
theories/ProofBoundaryGradient.v
theories/PropBoundaryGradient.v
theories/ModelSpectrum.v
theories/SpecSpectrum.v
theories/ProofSpectrum.v
theories/PropSpectrum.v
theories/ModelSubdomain.v
theories/ProofSubdomain.v
theories/PropSubdomain.v
theories/ModelDroplet.v
theories/ProofDroplet.v
theories/PropDroplet.v
