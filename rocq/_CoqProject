-Q theories Verif
theories/Monad.v
theories/MonadFacts.v
theories/Scalar.v
theories/ScalarFacts.v
theories/Spec.v
theories/SpecFacts.v
theories/Polar.v
theories/ModelCurve.v
theories/CurveFacts.v
theories/ModelBezier.v
theories/BezierFacts.v
theories/BezierMath.v
theories/BezierThms.v
theories/BezierThms2.v
theories/ModelBSpline.v
theories/BSplineMath.v
theories/BSplineFacts.v
theories/BSplineThms.v
theories/BSplineThms2.v
theories/LoopFacts.v
theories/BSplineThms3.v
theories/BSplineInsert.v
theories/BSplineInsert2.v
theories/BSplineInsert3.v
theories/BSplineSplit.v
theories/BSplineConvert.v
theories/ExampleFacts.v
theories/Transfer.v
theories/TransferBSpline.v
theories/BSplineRefute.v
theories/ModelRational.v
theories/RationalFacts.v
theories/RationalThms.v
theories/RationalThms2.v
theories/BezierConv.v
theories/RationalThms3.v
theories/RationalRefute.v
theories/ModelPatchBase.v
theories/ModelPatch.v
theories/ModelPatchRational.v
theories/SpecPatch.v
theories/TensorFacts.v
theories/PatchFacts.v
theories/BezierPatchThms.v
theories/BezierPatchSplit.v
theories/BSplinePatchThms.v
theories/BSplinePatchThms2.v
theories/BSplinePatchSplit.v
theories/SpecPatch2.v
theories/BSplinePatchSplit2.v
theories/BSplinePatchRefute.v
theories/PropPatch2.v
theories/BSplinePatchRefute2.v
theories/PropPatch3.v
theories/PropBezier.v
theories/PropBSpline.v
theories/PropBSpline2.v
theories/PropRational.v
theories/PropPatch.v
theories/ModelInverse.v
theories/SpecGeom.v
theories/CurveThms.v
theories/InverseThms.v
theories/InverseRefute.v
theories/PropCurve.v
theories/SpecPatchRational.v
theories/PatchRationalThms.v
theories/PatchRationalThms2.v
theories/PatchHull.v
theories/PatchRationalSplit.v
theories/PatchRationalRefute.v
theories/PatchIso.v
theories/PropPatchRational.v
theories/ModelLine.v
theories/ModelRoots.v
theories/ModelQuadrature.v
theories/ModelIntersect.v
theories/ModelExport.v
theories/SpecObj.v
theories/LineThms.v
theories/QuadratureThms.v
theories/ArcLengthThms.v
theories/IntersectThms.v
theories/ExportThms.v
theories/PropAnalysis.v
theories/ModelAuto.v
theories/ModelAutoRational.v
theories/ModelAnalysis.v
theories/SpecAnalysis.v
theories/AutoFacts.v
theories/AutoThms.v
theories/AutoRational.v
theories/AutoRational4.v
theories/SpecRoots.v
theories/RootsThms.v
theories/AnalysisThms.v
theories/AnalysisThms2.v
theories/AnalysisThms3.v
theories/PropAnalysis2.v
theories/ModelPrimitive.v
theories/SpecPrimitive.v
theories/TrigFacts.v
theories/PrimitiveFacts.v
theories/CircleThms.v
theories/EllipseThms.v
theories/QuadricThms.v
theories/PrimitiveRefute.v
theories/PropPrimitive.v
theories/ModelSweep.v
theories/SweepThms.v
theories/SweepInverse.v
theories/PropSweep.v
theories/SpecSimplex.v
theories/ModelSimplex.v
theories/SimplexThms.v
theories/SimplexFit.v
theories/PropSimplex.v
theories/ModelMsh.v
theories/SpecMsh.v
theories/MshThms.v
theories/MshThms2.v
theories/MshThms3.v
theories/MshMesh.v
theories/MshRefute.v
theories/PropMsh.v
theories/EdistFacts.v
theories/BSplineRemove.v
theories/BSplineRemove2.v
theories/BSplineRemove3.v
theories/BSplineRemove4.v
theories/BSplineRemove5.v
theories/BSplineRemove6.v
theories/PropBSpline3.v
theories/BSplineCombine.v
theories/BSplineCombine2.v
theories/BSplineElevate.v
theories/BSplineElevate2.v
theories/NurbsElevate.v
theories/TransferCombine.v
theories/ElevateRefute.v
theories/PropBSpline4.v
theories/ModelRemove.v
theories/SpecRemove.v
theories/RemoveTol.v
theories/NurbsRemove.v
theories/RemoveRefute.v
theories/PropRemove.v
theories/ModelInverse2.v
theories/PatchInverse.v
theories/PropInverse.v
theories/SpecFit.v
theories/ModelFit.v
theories/SpecFit2.v
theories/FitThms.v
theories/FitThms2.v
theories/FitThms3.v
theories/FitRefute.v
theories/PropFit.v
theories/ArcInverse.v
theories/PropArc.v
theories/SpecTurning.v
theories/ModelTurning.v
theories/TurningFacts.v
theories/TurningThms.v
theories/TurningThms2.v
theories/TurningThms3.v
theories/TurningThms4.v
theories/TurningThms5.v
theories/PropTurning.v
theories/ModelVector.v
theories/SpecVector.v
theories/VectorThms.v
theories/VectorThms2.v
theories/VectorThms3.v
theories/VectorThms4.v
theories/PropVector.v
theories/PreimageThms.v
theories/PropPreimage.v
theories/SpecSplineAnalysis.v
theories/SplineAnalysis.v
theories/SplineCases.v
theories/PropSplineAnalysis.v
theories/ModelFloat.v
theories/SpecFloat.v
theories/FloatFacts.v
theories/FloatThms.v
theories/FloatThms2.v
theories/FloatThms3.v
theories/FloatCases.v
theories/FloatRuns.v
theories/PropFloat.v
theories/FloatTotal.v
theories/FloatDeriv.v
theories/PropFloat2.v
theories/ModelFloatWrap.v
theories/FloatWrap.v
theories/PropFloat3.v
theories/ModelFloatRational.v
theories/FloatRational.v
theories/FloatRational2.v
theories/PropFloat4.v
theories/SpecSubdiv.v
theories/FloatSplit.v
theories/FloatPatch.v
theories/FloatPatch2.v
theories/PropFloat5.v
theories/FloatDeriv2.v
theories/PropFloat6.v
theories/FloatInsert.v
theories/PropFloat7.v
theories/FloatConvert.v
theories/PropFloat8.v
theories/FloatBSplit.v
theories/PropFloat9.v
theories/FloatElevate.v
theories/PropFloat10.v
theories/SpecSub.v
theories/FloatSub.v
theories/PropFloat11.v
theories/FloatDeriv3.v
theories/PropFloat12.v
theories/FloatDeriv4.v
theories/PropFloat13.v
theories/ModelFloatPatch.v
theories/FloatPatch3.v
theories/PropFloat14.v
theories/FloatPatch4.v
theories/PropFloat15.v
theories/FloatPatch5.v
theories/PropFloat16.v
theories/FloatDeriv5.v
theories/PropFloat17.v
theories/FloatPatch6.v
theories/PropFloat18.v
theories/FloatPatch7.v
theories/PropFloat19.v
