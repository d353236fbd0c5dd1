-Q theories Verif
theories/Num.v
theories/Vec.v
theories/Index.v
theories/FieldModel.v
theories/FieldSpec.v
theories/FieldProofs.v
theories/FieldProofs2.v
theories/FieldProps.v
theories/Matrix.v
theories/GridModel.v
theories/GridProofs.v
theories/GridProofs2.v
theories/GridProps.v
theories/SolverModel.v
theories/SolverPlanes.v
theories/SolverBuild.v
theories/SolverMaterials.v
theories/SolverKern.v
theories/SolverCons.v
theories/SolverSpec.v
theories/SolverFlux.v
theories/SolverEnergy.v
theories/SolverOps.v
theories/SolverFrozen.v
theories/SolverLocal.v
theories/SolverRestart.v
theories/SolverTime.v
theories/SolverMaxwell.v
theories/SolverNames.v
theories/SolverPmlSpec.v
theories/SolverPml.v
theories/SolverConstruct.v
theories/SolverPmlR.v
theories/SolverKit.v
theories/SolverProps.v
theories/SolverProps2.v
theories/SolverProps3.v
theories/SolverProps4.v
theories/SolverLayers.v
theories/LayerProps.v
theories/SolverTensors.v
theories/RoutinesModel.v
theories/RoutinesProofs.v
theories/RoutinesRun.v
theories/RoutinesProps.v
theories/GridFileModel.v
theories/GridFileProofs.v
theories/GridRefineProofs.v
theories/GridFileProps.v
theories/MpiModel.v
theories/MpiComm.v
theories/MpiSolverModel.v
theories/MpiTiles.v
theories/MpiHalo.v
theories/MpiGather.v
theories/MpiBc.v
theories/MpiProps.v
theories/MpiSim.v
theories/MpiRun.v
theories/MpiConf.v
theories/MpiProps2.v
theories/MpiDist.v
theories/MpiEndProps.v
theories/SolverMixed.v
theories/MixedProps.v
theories/WakeModel.v
theories/WakeNum.v
theories/WakeProofs.v
theories/WakeCells.v
theories/WakeNames.v
theories/WakeRun.v
theories/WakeTrans.v
theories/WakeTotal.v
theories/WakeProps.v
theories/FitModel.v
theories/FitProps.v
theories/WakeWin.v
theories/WakeProps2.v
theories/WakeProps3.v
theories/WakeFloat.v
theories/WakeProps4.v
theories/WakeZ.v
theories/WakeZProofs.v
theories/WakeZProps.v
theories/SourceModel.v
theories/SourceProofs.v
theories/SourceProofs2.v
theories/SourceProofs3.v
theories/SourceProps.v
theories/GaussInt.v
theories/SourceReal.v
theories/SourceProps2.v
theories/SourceProps3.v
theories/GeomModel.v
theories/GeomProofs.v
theories/GeomProps.v
theories/MonitorModel.v
theories/MonitorProofs.v
theories/MonitorProps.v
theories/TextModel.v
theories/TextProofs.v
theories/TextDemo.v
theories/TextProps.v
theories/StabSum.v
theories/Stab.v
theories/StabGrid.v
theories/StabKern.v
theories/StabProps.v
theories/StabGraded.v
theories/StabBox.v
theories/StabGradedGrid.v
theories/StabGradedProps.v
theories/GridInitModel.v
theories/GridInitProofs.v
theories/GridInitProps.v
theories/FftModel.v
theories/FftProofs.v
theories/FftInterp.v
theories/FftProps.v
theories/GeomUnitModel.v
theories/GeomUnitProps.v
theories/Grid2DModel.v
theories/Grid2DProofs.v
theories/Grid2DArea.v
theories/Grid2DCut.v
theories/Grid2DProps.v
theories/Solver2DModel.v
theories/Solver2DProofs.v
theories/Solver2DRuns.v
theories/Solver2DProps.v
theories/CstModel.v
theories/CstProofs.v
theories/CstProps.v
theories/LogModel.v
theories/LogProofs.v
theories/LogProps.v
theories/PlotModel.v
theories/PlotProps.v
theories/Grid3DModel.v
theories/Grid3DProofs.v
theories/Grid3DArea.v
theories/Grid3DProps.v
theories/Solver3DModel.v
theories/Solver3DProofs.v
theories/Solver3DDm.v
theories/Solver3DProps.v
theories/Solver3DPml.v
theories/Solver3DProps2.v
theories/Pml2DModel.v
theories/Pml2DProofs.v
theories/Pml2DProps.v
theories/Pml2DProps2.v
theories/Pml2DLine.v
theories/Pml2DFlat.v
theories/Pml2DProps3.v
theories/Pml2DOne.v
theories/Pml2DProps4.v
theories/GatherModel.v
theories/GatherProps.v
theories/FftFmaxProps.v
theories/CstNameModel.v
theories/CstNameProps.v
