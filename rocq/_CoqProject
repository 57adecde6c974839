-Q theories Verif
theories/Scalar.v
theories/Tensor.v
theories/PySyntax.v
theories/PySem.v
theories/CCProg.v
theories/PySim.v
theories/Sym.v
theories/SymSound.v
theories/Norm.v
theories/CCSpec.v
theories/Engine.v
theories/CCShapes.v
theories/Public.v
theories/Tools.v
theories/Dual.v
theories/SOCtx.v
theories/CCExamples.v
theories/CCEquiv.v
theories/CCSym.v
theories/CCDeriv.v
theories/CCNeg.v
theories/NpModel.v
theories/SpinModel.v
theories/SpinSpec.v
theories/SpinFacts.v
theories/SpinSplit.v
theories/SpinRound.v
theories/UtilsModel.v
theories/UtilsSpec.v
theories/UtilsFacts.v
theories/UCtx.v
theories/SpinOut.v
theories/CCSpin.v
theories/RCtx.v
theories/CCRest.v
theories/SpinExamples.v
theories/CIModel.v
theories/CISpec.v
theories/CIRep.v
theories/CIFacts.v
theories/CIStrings.v
theories/CIBases.v
theories/CIVib.v
theories/CIHeap.v
theories/CILemmas.v
theories/CIFock.v
theories/CIMatrix.v
theories/CIVec.v
theories/CICfromT.v
theories/CIExpSpec.v
theories/CIExp.v
theories/CIAdds.v
theories/CIExpU.v
theories/CIExpG.v
theories/CIQuadSpec.v
theories/CIQuads.v
theories/CIQuadExp.v
theories/PropertiesCC.v
theories/SpinNeg.v
theories/PropertiesSpin.v
theories/PropertiesUtils.v
theories/PropertiesRest.v
theories/PropertiesCI.v
theories/PropertiesCIMatrix.v
theories/PropertiesCIExp.v
theories/TestUtilsModel.v
theories/TestUtilsSpec.v
theories/TestUtilsFacts.v
theories/PropertiesTestUtils.v
theories/IntegralsModel.v
theories/IntegralsSpec.v
theories/IntegralsFacts.v
theories/IntegralsK.v
theories/PropertiesIntegrals.v
theories/FTModel.v
theories/FTFacts.v
theories/PropertiesFT.v
theories/CCFockSpec.v
theories/FockStates.v
theories/FockExp.v
theories/FockT.v
theories/WickSym.v
theories/FockH.v
theories/CCFock.v
theories/PropertiesCCFock.v
theories/FockSchr.v
theories/CCSchr.v
theories/PropertiesCCSchr.v
theories/CCDensSpec.v
theories/CCDens.v
theories/CCLambda.v
theories/CCLeft.v
theories/PropertiesCCDens.v
theories/FockPerm.v
theories/UFockSpec.v
theories/UFock.v
theories/UFockOps.v
theories/UCCSchr.v
theories/CCCI.v
theories/UExamples.v
theories/PropertiesUCC.v
theories/RFockSpec.v
theories/RCC.v
theories/RExamples.v
theories/PropertiesRCC.v
theories/UDensSpec.v
theories/UDens.v
theories/UDens2.v
theories/UDens3.v
theories/PropertiesUDens.v
theories/RDensSpec.v
theories/RDens.v
theories/RDens2.v
theories/RDens3.v
theories/PropertiesRDens.v
theories/CovSpec.v
theories/Cov.v
theories/Rot.v
theories/Size.v
theories/Lin.v
theories/Flip.v
theories/CovThm.v
theories/PropertiesCov.v
theories/CCLinSpec.v
theories/FockLin.v
theories/PropertiesLin.v
theories/PTSpec.v
theories/FockPT.v
theories/FockPT2.v
theories/UPTSpec.v
theories/PropertiesPT.v
theories/FloatModel.v
theories/FloatSpec.v
theories/FloatFacts.v
theories/FloatFermi.v
theories/FloatFermi2.v
theories/FloatGP.v
theories/PropertiesFloat.v
theories/CISDSpec.v
theories/FockCISD.v
theories/PropertiesCISD.v
theories/RPASpec.v
theories/RPA.v
theories/PropertiesRPA.v
theories/MolSpec.v
theories/MolCC.v
theories/FockRef.v
theories/PropertiesMol.v
theories/PT3Spec.v
theories/FockPT3.v
theories/PropertiesPT3.v
theories/RoundSpec.v
theories/RoundTable.v
theories/RoundCC.v
theories/RoundRun.v
theories/RoundMain.v
theories/RoundPub.v
theories/RoundInst.v
theories/RoundEnergy.v
theories/PropertiesRound.v
theories/AccSpec.v
theories/Acc.v
theories/AccRun.v
theories/PropertiesAcc.v
theories/PartsSpec.v
theories/Parts.v
theories/PartsSum.v
theories/PropertiesParts.v
theories/ExModel.v
theories/ExSpec.v
theories/ExRow.v
theories/ExCIS.v
theories/ExTransfer.v
theories/ExMain.v
theories/ExSpan.v
theories/ExCI.v
theories/ExClosed.v
theories/ExCISD.v
theories/ExSpan2.v
theories/PropertiesEx.v
theories/UPT.v
theories/PropertiesUPT.v
theories/UEnergy.v
theories/RPTSpec.v
theories/RPT.v
theories/PropertiesRPT.v
theories/KSpec.v
theories/KModel.v
theories/KFacts.v
theories/KProofs.v
theories/PropertiesK.v
theories/RespSpec.v
theories/Resp.v
theories/RespReal.v
theories/PropertiesResp.v
theories/URespSpec.v
theories/UResp.v
theories/URespThm.v
theories/RResp.v
theories/RRespThm.v
theories/URespReal.v
theories/PropertiesUResp.v
theories/TraceSpec.v
theories/TraceSum.v
theories/Trace.v
theories/TraceThm.v
theories/PropertiesTrace.v
theories/USym.v
theories/PropertiesUSym.v
theories/PHSpec.v
theories/PH.v
theories/PHThm.v
theories/PropertiesPH.v
theories/ShiftSpec.v
theories/Shift.v
theories/PropertiesShift.v
theories/VarSpec.v
theories/Var.v
theories/PropertiesVar.v
theories/NegSpec.v
theories/Neg.v
theories/PropertiesNeg.v
theories/EnsSpec.v
theories/Ens.v
theories/PropertiesEns.v
theories/NegCSpec.v
theories/NegC.v
theories/PropertiesNegC.v
theories/VarCSpec.v
theories/VarC.v
theories/PropertiesVarC.v
theories/DtypeSpec.v
theories/DtypeModel.v
theories/Dtype.v
theories/DtypeCfromT.v
theories/DtypeC.v
theories/PropertiesDtype.v
theories/IterSpec.v
theories/Lips.v
theories/Banach.v
theories/Iter.v
theories/IterCC.v
theories/IterLam.v
theories/IterD.v
theories/IterR.v
theories/IterRL.v
theories/IterN.v
theories/IterU.v
theories/IterUL.v
theories/IterEq.v
theories/PropertiesIter.v
