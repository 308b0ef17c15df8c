-Q theories Verif
theories/Model/AverageCoord.v
theories/Model/Bitmask.v
theories/Model/BrightImage.v
theories/Model/CenterDistance.v
theories/Model/CentresTx.v
theories/Model/CheckMoving.v
theories/Model/Circles.v
theories/Model/DetectMoving.v
theories/Model/DetectSpots.v
theories/Model/Dm2pm.v
theories/Model/Echo22.v
theories/Model/Echo22Table.v
theories/Model/Fiberassign.v
theories/Model/FieldModel.v
theories/Model/FindFiducials.v
theories/Model/FitCircles.v
theories/Model/FitPosparamsMain.v
theories/Model/FitTable.v
theories/Model/Fithandler.v
theories/Model/Fitter.v
theories/Model/FocalPlaneMetrology.v
theories/Model/FocalSurfaceTable.v
theories/Model/Fvc2fp.v
theories/Model/FvcProc.v
theories/Model/Gfa2fp.v
theories/Model/GfaPatch.v
theories/Model/GuideStars.v
theories/Model/ImageJobs.v
theories/Model/Json.v
theories/Model/KDTree.v
theories/Model/KeyMatch.v
theories/Model/LinAlg.v
theories/Model/Log.v
theories/Model/Match.v
theories/Model/MatchPositioners.v
theories/Model/MergePosparams.v
theories/Model/NearScan.v
theories/Model/Numpy.v
theories/Model/Ok2move.v
theories/Model/Pos2ptl.v
theories/Model/PosMoveSelection.v
theories/Model/PredictFieldrot.v
theories/Model/Prelude.v
theories/Model/PreparePosparams.v
theories/Model/ProcessFvc.v
theories/Model/Ptl2fp.v
theories/Model/PyString.v
theories/Model/Radec2tan.v
theories/Model/RayTrace.v
theories/Model/RayTraceFit.v
theories/Model/RayTraceTable.v
theories/Model/ReadMoves.v
theories/Model/RealNum.v
theories/Model/RotationRate.v
theories/Model/RsznLookups.v
theories/Model/SelectGroups.v
theories/Model/SimpleCorr.v
theories/Model/Spotmatch.v
theories/Model/Stats.v
theories/Model/ThetaCentres.v
theories/Model/Trig.v
theories/Model/Turbulence.v
theories/Model/TurbulenceFiles.v
theories/Model/TurbulencePol.v
theories/Model/UpdatePatch.v
theories/Model/Util.v
theories/Model/Xy2qs.v
theories/Model/Xy2tp.v
theories/Model/ZhaoBurge.v
theories/Proofs/AverageCoord.v
theories/Proofs/Bitmask.v
theories/Proofs/BrightImage.v
theories/Proofs/CentresTx.v
theories/Proofs/CheckMoving.v
theories/Proofs/Circles.v
theories/Proofs/DetectSpots.v
theories/Proofs/Dm2pm.v
theories/Proofs/Echo22.v
theories/Proofs/Echo22Bounds.v
theories/Proofs/Fiberassign.v
theories/Proofs/FieldModel.v
theories/Proofs/FindFiducials.v
theories/Proofs/FindFirst.v
theories/Proofs/FindGroups.v
theories/Proofs/FindRecover.v
theories/Proofs/FindTables.v
theories/Proofs/FitCircles.v
theories/Proofs/FitNames.v
theories/Proofs/FitPosparamsMain.v
theories/Proofs/FitRun.v
theories/Proofs/FitTable.v
theories/Proofs/Fithandler.v
theories/Proofs/Fitter.v
theories/Proofs/FitterReject.v
theories/Proofs/FocalPlaneMetrology.v
theories/Proofs/Fvc2fp.v
theories/Proofs/Fvc2fpPairs.v
theories/Proofs/FvcProc.v
theories/Proofs/Gaussian.v
theories/Proofs/Gfa2fp.v
theories/Proofs/GfaPatch.v
theories/Proofs/GuideStars.v
theories/Proofs/ImageJobs.v
theories/Proofs/Json.v
theories/Proofs/KDTree.v
theories/Proofs/KeyMatch.v
theories/Proofs/Likelihood.v
theories/Proofs/LinAlg.v
theories/Proofs/Lstsq.v
theories/Proofs/Match.v
theories/Proofs/MatchExample.v
theories/Proofs/MatchPositioners.v
theories/Proofs/MatchRecover.v
theories/Proofs/MatchTriangles.v
theories/Proofs/NearScan.v
theories/Proofs/Noll.v
theories/Proofs/Numpy.v
theories/Proofs/Poly2.v
theories/Proofs/Pos2ptl.v
theories/Proofs/PosMoveSelection.v
theories/Proofs/Prelude.v
theories/Proofs/PreparePosparams.v
theories/Proofs/Ptl2fp.v
theories/Proofs/PyString.v
theories/Proofs/Radec2tan.v
theories/Proofs/RadiusTable.v
theories/Proofs/RayTrace.v
theories/Proofs/RayTraceFit.v
theories/Proofs/RayTraceTable.v
theories/Proofs/RayTraceTurn.v
theories/Proofs/ReadMoves.v
theories/Proofs/RealNum.v
theories/Proofs/Refraction.v
theories/Proofs/RotOff.v
theories/Proofs/RotationRate.v
theories/Proofs/RsznLookups.v
theories/Proofs/SelectGroups.v
theories/Proofs/SimpleCorr.v
theories/Proofs/SkyAberration.v
theories/Proofs/SkyChain.v
theories/Proofs/Sorting.v
theories/Proofs/Sphere.v
theories/Proofs/Stats.v
theories/Proofs/ThetaCentres.v
theories/Proofs/Trig.v
theories/Proofs/Turbulence.v
theories/Proofs/TurbulenceFiles.v
theories/Proofs/TurbulencePol.v
theories/Proofs/UpdatePatch.v
theories/Proofs/Util.v
theories/Proofs/Xy2qs.v
theories/Proofs/Xy2tp.v
theories/Proofs/Zernike.v
theories/Proofs/ZhaoBurge.v
theories/Props/AverageCoord.v
theories/Props/Bitmask.v
theories/Props/BrightImage.v
theories/Props/CenterDistance.v
theories/Props/CentresTx.v
theories/Props/CheckMoving.v
theories/Props/Circles.v
theories/Props/DetectMoving.v
theories/Props/DetectSpots.v
theories/Props/Dm2pm.v
theories/Props/Echo22.v
theories/Props/Fiberassign.v
theories/Props/FieldModel.v
theories/Props/FindFiducials.v
theories/Props/FitCircles.v
theories/Props/FitPosparamsMain.v
theories/Props/FitRun.v
theories/Props/FitTable.v
theories/Props/Fithandler.v
theories/Props/Fitter.v
theories/Props/FitterReject.v
theories/Props/FocalPlaneMetrology.v
theories/Props/Fvc2fp.v
theories/Props/FvcProc.v
theories/Props/Gfa2fp.v
theories/Props/GfaPatch.v
theories/Props/GuideStars.v
theories/Props/ImageJobs.v
theories/Props/Json.v
theories/Props/KeyMatch.v
theories/Props/Likelihood.v
theories/Props/Log.v
theories/Props/Match.v
theories/Props/MatchPositioners.v
theories/Props/MergePosparams.v
theories/Props/Ok2move.v
theories/Props/Pos2ptl.v
theories/Props/PosMoveSelection.v
theories/Props/PredictFieldrot.v
theories/Props/PreparePosparams.v
theories/Props/ProcessFvc.v
theories/Props/Ptl2fp.v
theories/Props/Radec2tan.v
theories/Props/RadiusTable.v
theories/Props/RayTrace.v
theories/Props/RayTraceFit.v
theories/Props/RayTraceTable.v
theories/Props/ReadMoves.v
theories/Props/RotationRate.v
theories/Props/RsznLookups.v
theories/Props/SelectGroups.v
theories/Props/SimpleCorr.v
theories/Props/Spotmatch.v
theories/Props/Stationary.v
theories/Props/ThetaCentres.v
theories/Props/Trig.v
theories/Props/Turbulence.v
theories/Props/TurbulenceFiles.v
theories/Props/TurbulencePol.v
theories/Props/UpdatePatch.v
theories/Props/Util.v
theories/Props/Xy2qs.v
theories/Props/Xy2tp.v
theories/Props/ZhaoBurge.v
theories/Spec/Adc.v
theories/Spec/AverageCoord.v
theories/Spec/Bitmask.v
theories/Spec/BrightImage.v
theories/Spec/CenterDistance.v
theories/Spec/CentresTx.v
theories/Spec/CheckMoving.v
theories/Spec/Circles.v
theories/Spec/DetectSpots.v
theories/Spec/DiskMean.v
theories/Spec/Fiberassign.v
theories/Spec/FileNames.v
theories/Spec/FindFiducials.v
theories/Spec/FitCircles.v
theories/Spec/FitPosparamsMain.v
theories/Spec/FitRun.v
theories/Spec/FitTable.v
theories/Spec/Fithandler.v
theories/Spec/Fitter.v
theories/Spec/FitterReject.v
theories/Spec/FocalPlaneMetrology.v
theories/Spec/Fvc2fp.v
theories/Spec/Gfa.v
theories/Spec/GfaPatch.v
theories/Spec/GuideStars.v
theories/Spec/ImageJobs.v
theories/Spec/Likelihood.v
theories/Spec/LinAlg.v
theories/Spec/Match.v
theories/Spec/MatchPositioners.v
theories/Spec/Numpy.v
theories/Spec/Polynomial.v
theories/Spec/Pos2ptl.v
theories/Spec/PosMoveSelection.v
theories/Spec/PredictFieldrot.v
theories/Spec/PreparePosparams.v
theories/Spec/Ptl2fp.v
theories/Spec/RayTrace.v
theories/Spec/RayTraceTable.v
theories/Spec/ReadMoves.v
theories/Spec/RotationRate.v
theories/Spec/RsznLookups.v
theories/Spec/SelectGroups.v
theories/Spec/SimpleCorr.v
theories/Spec/Sphere.v
theories/Spec/Stationary.v
theories/Spec/TanPlane.v
theories/Spec/ThetaCentres.v
theories/Spec/Trig.v
theories/Spec/TurbulenceFiles.v
theories/Spec/UpdatePatch.v
theories/Spec/Util.v
theories/Spec/Xy2tp.v
theories/Spec/ZhaoBurge.v
