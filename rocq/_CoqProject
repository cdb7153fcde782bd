-Q theories Verif
theories/Num.v
theories/XQ.v
theories/XQLaws.v
theories/F64.v
theories/F64Laws.v
theories/Py.v
theories/NumFacts.v
theories/Walker.v
theories/ParticleTrack.v
theories/SpecWeights.v
theories/ProofWeights.v
theories/ProofWeightLaws.v
theories/XQFacts.v
theories/ProofWeightExt.v
theories/SpecPick.v
theories/ProofPick.v
theories/ProofPickExact.v
theories/SpecWalk.v
theories/ProofStep.v
theories/ProofStepper.v
theories/ProofRun.v
theories/ProofRunTo.v
theories/ProofRunTotal.v
theories/Gen.v
theories/SpecHist.v
theories/ProofGen.v
theories/ProofHist.v
theories/NumMore.v
theories/SpecInit.v
theories/ProofInit.v
theories/ProofInit2.v
theories/SpecMotion.v
theories/ProofMotion.v
theories/ProofCall.v
theories/ProofTimeExact.v
theories/SpecApi.v
theories/ProofApi.v
theories/ProofApi2.v
theories/ProofInside.v
theories/ProofGeometry.v
theories/Examples.v
theories/ExamplesReach.v
theories/ExamplesExact.v
theories/P_Weights.v
theories/P_Pick.v
theories/ProofTimeApi.v
theories/SpecExact.v
theories/ExamplesQ.v
theories/ProofStuck.v
theories/ExamplesND.v
theories/P_Motion.v
theories/ProofEmpty.v
theories/P_Data.v
theories/ProofSeed.v
theories/P_Seed.v
theories/P_Init.v
theories/P_Walk.v
theories/PostProc.v
theories/SpecPost.v
theories/NumPost.v
theories/ProofExposure.v
theories/ProofPost.v
theories/P_Post.v
theories/ProofCoord.v
theories/P_Coord.v
theories/NumFrac.v
theories/ProofNour.v
theories/ProofNourQ.v
theories/P_Nour.v
theories/Grid.v
theories/SpecGrid.v
theories/ProofSeedFlux.v
theories/ProofGrid.v
theories/P_Grid.v
theories/Parallel.v
theories/SpecPar.v
theories/ProofDraws.v
theories/ProofParallel.v
theories/P_Par.v
theories/Routines.v
theories/SpecRout.v
theories/ProofRout.v
theories/ProofRout2.v
theories/P_Rout.v
theories/F64Lin.v
theories/Spatial.v
theories/SpecSpat.v
theories/SpecPct.v
theories/ProofSpat.v
theories/ProofMad.v
theories/ProofPct.v
theories/ProofMad2.v
theories/P_Expo.v
theories/P_Time.v
theories/P_Speed.v
theories/SpecSplit.v
theories/ProofSplit.v
theories/P_Split.v
theories/F64Sub.v
theories/P_Slice.v
theories/SpecOrder.v
theories/P_Order.v
theories/SpecUnits.v
theories/ProofUnits.v
theories/P_Units.v
theories/Json.v
theories/SpecSave.v
theories/ProofJson.v
theories/ProofSave.v
theories/P_Save.v
theories/SpecBarrier.v
theories/P_Barrier.v
theories/ProofSteady.v
theories/P_Steady.v
theories/SpecTheta.v
theories/ProofTheta.v
theories/P_Theta.v
theories/P_Gamma.v
theories/SpecDown.v
theories/ProofDown.v
theories/P_Down.v
theories/SpecVars.v
theories/ProofVars.v
theories/P_Vars.v
theories/P_Fields.v
theories/P_Past.v
theories/P_Past2.v
theories/P_Clear.v
theories/P_Assign.v
theories/P_Spat.v
theories/SpecEtd.v
theories/ProofEtd.v
theories/P_Etd.v
theories/Unsteady.v
theories/SpecUnst.v
theories/ProofUnst.v
theories/F64Arange.v
theories/P_Unst.v
theories/Logging.v
theories/SpecLog.v
theories/P_Log.v
theories/SpecDraw.v
theories/ProofDrawStep.v
theories/ProofDrawRun.v
theories/P_Draws.v
theories/Plots.v
theories/P_Plots.v
theories/SpecPath.v
theories/ProofPath.v
theories/P_Path.v
theories/SpecLocal.v
theories/ProofLocal.v
theories/P_Local.v
theories/SpecSim.v
theories/ProofSim.v
theories/SpecShift.v
theories/ProofShift.v
theories/P_Shift.v
theories/Interrupt.v
theories/SpecInterrupt.v
theories/ProofInterrupt.v
theories/P_Interrupt.v
theories/Heap.v
theories/SpecHeap.v
theories/ProofHeap.v
theories/ProofHeap2.v
theories/ProofHeap3.v
theories/P_Heap.v
theories/P_Mono.v
theories/SpecSym.v
theories/ProofSym.v
theories/P_Sym.v
theories/P_Steep.v
theories/SpecFast.v
theories/ProofFast.v
theories/P_Fast.v
theories/Files.v
theories/SpecFiles.v
theories/ProofFiles.v
theories/P_Files.v
theories/P_Agree.v
theories/SpecRoute.v
theories/ProofRoute.v
theories/P_Route.v
