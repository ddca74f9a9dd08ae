-Q theories Verif
theories/Base.v
theories/Dav.v
theories/DavDefs.v
theories/Display.v
theories/DisplayDefs.v
theories/DrawnDefs.v
theories/DynDefs.v
theories/Emb.v
theories/EmbDefs.v
theories/EnergyDefs.v
theories/Examples.v
theories/FBasis.v
theories/FDav.v
theories/FDavOpt.v
theories/FDisplay.v
theories/FDisplayFail.v
theories/FDisplayRing.v
theories/FDraw.v
theories/FDrawn.v
theories/FDrawnSpin.v
theories/FDyn.v
theories/FEmb.v
theories/FEmbBlock.v
theories/FEmbDrop.v
theories/FEmbDyn.v
theories/FEmbEx.v
theories/FEmbFiles.v
theories/FEmbOnce.v
theories/FEmbSecond.v
theories/FEnergy.v
theories/FFerro.v
theories/FFiles.v
theories/FGeo.v
theories/FGram.v
theories/FGrid.v
theories/FHam.v
theories/FInter.v
theories/FLevels.v
theories/FMain.v
theories/FMainRun.v
theories/FMono.v
theories/FMotion.v
theories/FMulti.v
theories/FOne.v
theories/FPhase.v
theories/FPhaseMap.v
theories/FPlots.v
theories/FPost.v
theories/FProb.v
theories/FProj.v
theories/FRange.v
theories/FReal.v
theories/FReal2.v
theories/FReal3.v
theories/FReal4.v
theories/FReal5.v
theories/FReal6.v
theories/FReal7.v
theories/FReal8.v
theories/FRound.v
theories/FRound2.v
theories/FRoundDav.v
theories/FRoundMove.v
theories/FRoundProb.v
theories/FRoundReal.v
theories/FRoundSpin.v
theories/FRoundSym.v
theories/FRoundTest.v
theories/FRun.v
theories/FRunDrawn.v
theories/FScale.v
theories/FShift.v
theories/FSign.v
theories/FSinglet.v
theories/FSites.v
theories/FSpin.v
theories/FSpinVal.v
theories/FTight.v
theories/FTight2.v
theories/FTight3.v
theories/FTight4.v
theories/FTight5.v
theories/FTight6.v
theories/FTop.v
theories/FTrace.v
theories/FVar.v
theories/FVec.v
theories/FWritten.v
theories/Files.v
theories/FilesDefs.v
theories/Geometry.v
theories/GridDefs.v
theories/Ham.v
theories/HamSpec.v
theories/Interact.v
theories/Lattice.v
theories/LevelDefs.v
theories/Main.v
theories/MainDefs.v
theories/MonoDefs.v
theories/MotionDefs.v
theories/OneDefs.v
theories/PAct.v
theories/PBasis.v
theories/PBinary.v
theories/PBound.v
theories/PCarry.v
theories/PConn.v
theories/PConnAny.v
theories/PDav.v
theories/PDavIter.v
theories/PDavVec.v
theories/PDrawn.v
theories/PDyn.v
theories/PDynGen.v
theories/PEmb.v
theories/PEmbAdd.v
theories/PEmbBlock.v
theories/PEmbCount.v
theories/PEmbCoupled.v
theories/PEmbExch.v
theories/PEmbNear.v
theories/PEmbNeel.v
theories/PEmbPerm.v
theories/PEmbRing.v
theories/PEmbSecond.v
theories/PEmbTurn.v
theories/PEnergy.v
theories/PFiles.v
theories/PGeo.v
theories/PGrid.v
theories/PHam.v
theories/PHash.v
theories/PInter.v
theories/PLevels.v
theories/PLowest.v
theories/PMat.v
theories/PNames.v
theories/POps.v
theories/PPerron.v
theories/PPhase.v
theories/PPhaseLoop.v
theories/PProb.v
theories/PQc.v
theories/PRange.v
theories/PRank.v
theories/PReal.v
theories/PReal2.v
theories/PRealQ.v
theories/PRep.v
theories/PRing.v
theories/PRot.v
theories/PRound.v
theories/PRound2.v
theories/PRoundDiag.v
theories/PRoundMove.v
theories/PRoundSpin.v
theories/PRoundSym.v
theories/PSecSum.v
theories/PShift.v
theories/PSign.v
theories/PSignOp.v
theories/PSinglet.v
theories/PSites.v
theories/PSpin.v
theories/PSpinOp.v
theories/PTJSpin.v
theories/PTrace.v
theories/PVec.v
theories/PWave.v
theories/Phase.v
theories/PhaseDefs.v
theories/PlotDefs.v
theories/Post.v
theories/PostDefs.v
theories/Prob.v
theories/ProbDefs.v
theories/PyBase.v
theories/PyFacts.v
theories/RangeDefs.v
theories/RealDefs.v
theories/RealSum.v
theories/RepoTests.v
theories/Round.v
theories/RoundDefs.v
theories/RoundProb.v
theories/RoundSpin.v
theories/Runtimes.v
theories/ScaleDefs.v
theories/ShiftDefs.v
theories/SignDefs.v
theories/Spec.v
theories/SpecOps.v
theories/SpecQ.v
theories/SpecSpin.v
theories/SpecTJ.v
theories/Spin.v
theories/SpinDefs.v
theories/SymDefs.v
theories/TestDefs.v
theories/Thm_Basis.v
theories/Thm_Dav.v
theories/Thm_Display.v
theories/Thm_Drawn.v
theories/Thm_Emb.v
theories/Thm_EmbFiles.v
theories/Thm_Energy.v
theories/Thm_Files.v
theories/Thm_Geo.v
theories/Thm_Grid.v
theories/Thm_Ham.v
theories/Thm_Inter.v
theories/Thm_Levels.v
theories/Thm_Main.v
theories/Thm_Mono.v
theories/Thm_Motion.v
theories/Thm_One.v
theories/Thm_Phase.v
theories/Thm_Post.v
theories/Thm_Prob.v
theories/Thm_Range.v
theories/Thm_Real.v
theories/Thm_RealSym.v
theories/Thm_Round.v
theories/Thm_RoundMove.v
theories/Thm_RoundProb.v
theories/Thm_RoundReal.v
theories/Thm_RoundSpin.v
theories/Thm_RoundSym.v
theories/Thm_RoundTest.v
theories/Thm_Scale.v
theories/Thm_Shift.v
theories/Thm_Sign.v
theories/Thm_Sites.v
theories/Thm_Spin.v
theories/Thm_Trace.v
theories/Thm_Var.v
theories/Thm_Vec.v
theories/TraceDefs.v
theories/VarDefs.v
