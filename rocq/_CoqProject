-Q theories Verif
theories/Arith.v
theories/ModelUtils.v
theories/ModelPoint.v
theories/ModelDipole.v
theories/ModelPrismUtils.v
theories/ModelPrismKernels.v
theories/ModelPrismGravity.v
theories/ModelPrismMagnetic.v
theories/RealArith.v
theories/Spec.v
theories/SpecAPI.v
theories/RealLib.v
theories/PointReal.v
theories/UtilsProofs.v
theories/PointProofs.v
theories/PointProofs2.v
theories/DipoleProofs.v
theories/PrismReal.v
theories/PrismSums.v
theories/PrismMag.v
theories/PrismProofs1.v
theories/PrismProofs2.v
theories/PrismDeriv.v
theories/PrismPot.v
theories/PrismPairs.v
theories/PrismGrad.v
theories/PrismGrad2.v
theories/PrismGrad3.v
theories/PrismTrace.v
theories/PrismTrace2.v
theories/PrismLimits.v
theories/PrismCut.v
theories/PrismSym.v
theories/PrismFlat.v
theories/Fubini.v
theories/PrismInt.v
theories/PrismInt2.v
theories/PrismInt3.v
theories/FloatArith.v
theories/FloatLib.v
theories/SpecFloat64.v
theories/FloatNeg.v
theories/FloatRaise.v
theories/FloatNaN.v
theories/FloatRange.v
theories/FloatFinite.v
theories/FloatFinite2.v
theories/FloatFinite3.v
theories/FloatFinite4.v
theories/FloatMisc.v
theories/FloatErr.v
theories/FloatErr2.v
theories/PropsUtils.v
theories/PropsPoint.v
theories/PropsDipole.v
theories/PropsPrismBasic.v
theories/PropsPrismGrad.v
theories/PropsPrismTrace.v
theories/PropsPrismSym.v
theories/PropsPrismInt.v
theories/PropsFloat.v
theories/ModelGuide.v
theories/GuideProofs.v
theories/PropsGuide.v
theories/PrismCont.v
theories/PropsCont.v
theories/PropsInside.v
theories/SpecScale.v
theories/PrismScale.v
theories/PropsScale.v
theories/PrismSlab.v
theories/PropsSlab.v
theories/PrismFar.v
theories/PrismFar2.v
theories/PropsFar.v
theories/PrismLip.v
theories/PrismSize.v
theories/PropsLip.v
theories/SpecSph.v
theories/FloatSph.v
theories/FloatSph8.v
theories/PropsSph.v
theories/FloatSphErr.v
theories/PropsSphErr.v
theories/SpecErr.v
theories/FloatPrismErr.v
theories/FloatPrismErr2.v
theories/PropsPrismErr.v
theories/FloatPrismErr3.v
theories/FloatPrismErr4.v
theories/FloatPrismErr5.v
theories/PropsMagErr.v
theories/FloatPointErr.v
theories/PropsPointErr.v
theories/FloatSum.v
theories/PropsForward.v
theories/ModelNumpy.v
theories/FloatDot.v
theories/PropsAllclose.v
theories/Gauss.v
theories/SpecFlux.v
theories/FluxTranslate.v
theories/PrismGauss.v
theories/PointGauss.v
theories/MagGauss.v
theories/PropsGauss.v
theories/SpecPath.v
theories/PathLib.v
theories/PathProofs.v
theories/PropsPath.v
theories/PropsEnd.v
theories/PySyntax.v
theories/PySource.v
theories/PySemantics.v
theories/SpecSource.v
theories/PyLib.v
theories/PyProofs.v
theories/PyGravity.v
theories/PyMagnetic.v
theories/PyMagField.v
theories/PropsSource.v
theories/SpecMesh.v
theories/Mesh.v
theories/MeshFields.v
theories/PropsMesh.v
theories/MeshPoints.v
theories/PropsMeshPoints.v
theories/PropsKernels.v
theories/PropsMax.v
theories/PyInt.v
theories/SpecInt.v
theories/PropsInt.v
theories/SpecMass.v
theories/MassPlane.v
theories/PropsMass.v
theories/PyInterp.v
theories/PyInterpSim.v
theories/PyInterpSafe.v
theories/SpecInterp.v
theories/PropsInterp.v
theories/SpecInterp64.v
theories/PropsInterp64.v
theories/PropsWitness.v
theories/FloatTrans.v
theories/PropsTrans.v
theories/FloatMono.v
theories/PropsMono.v
theories/Recip.v
theories/SpecForce.v
theories/RecipBody.v
theories/PropsRecip.v
theories/SpecMagForce.v
theories/MagRecip.v
theories/PropsMagRecip.v
theories/Inverse.v
theories/PropsInverse.v
theories/SpecReverse.v
theories/PropsReverse.v
theories/SpecJump.v
theories/PrismJump.v
theories/PropsJump.v
theories/SpecRotate.v
theories/PropsRotate.v
theories/SpecFaces.v
theories/BoxFaces.v
theories/PropsFaces.v
theories/PropsFaces2.v
theories/SpecCompare.v
theories/PropsCompare.v
theories/PropsMirror.v
theories/SpecInt64.v
theories/PropsInt64.v
theories/FloatSign.v
theories/PropsSign64.v
theories/SpecEnergy.v
theories/Energy.v
theories/PropsEnergy.v
theories/SpecInterpSame64.v
theories/PropsInterpSame64.v
theories/SpecTwoD.v
theories/TwoD.v
theories/PropsTwoD.v
theories/GuideSyntax.v
theories/GuideSource.v
theories/GuideSemantics.v
theories/SpecGuideSource.v
theories/GuideRun.v
theories/GuideEval.v
theories/PropsGuideSource.v
theories/Harmonic.v
theories/HarmPrism.v
theories/SpecHarmonic.v
theories/HarmBody.v
theories/PropsHarmonic.v
theories/SpecPow2.v
theories/FloatPow2.v
theories/FloatPow2b.v
theories/FloatPow2c.v
theories/PropsPow2.v
theories/GuideShort.v
theories/GuideShortEval.v
theories/PropsGuideSizes.v
theories/SpecFree.v
theories/FreeSpace.v
theories/PropsFree.v
theories/PosDef.v
theories/SpecEquivalent.v
theories/PropsEquivalent.v
theories/SpecDiff.v
theories/FiniteDiff.v
theories/PropsDiff.v
theories/SpecKernelErr.v
theories/FloatKernels.v
theories/PropsKernelErr.v
theories/PropsKernelSym.v
theories/SpecEuler.v
theories/PropsEuler.v
theories/PropsLaplaceFloat.v
theories/PropsRelErr.v
theories/PropsDipoleSize.v
theories/PropsLimitsFloat.v
theories/SpecBodyFlux.v
theories/PropsBodyFlux.v
theories/PropsProportional.v
theories/PropsSphMetric.v
theories/PropsTensorSign.v
theories/PropsInteriorSign.v
theories/PropsCentre.v
theories/PropsMagSign.v
