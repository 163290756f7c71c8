-Q theories Verif

theories/Outcome.v
theories/Scalar.v
theories/Float64.v
theories/Model.v
theories/Spec.v
theories/Core.v
theories/Kernels.v
theories/OpsRep.v
theories/AccRep.v
theories/PadRep.v
theories/CreateRep.v
theories/RealOps.v
theories/Deriv.v
theories/UDeriv.v
theories/BDeriv.v
theories/FactsLayout.v
theories/Samples.v
theories/PropLayout.v
theories/FactsCtor.v
theories/PropCtor.v
theories/FactsOps.v
theories/PropOps.v
theories/ExprSpec.v
theories/Expr.v
theories/Struct.v
theories/FactsExpr.v
theories/PropExpr.v
theories/Chain.v
theories/FactsReal.v
theories/PropReal.v
theories/Cont.v
theories/ProgSpec.v
theories/Prog.v
theories/FactsProg.v
theories/PropProg.v
theories/ModelS.v
theories/SpecS.v
theories/FactsS.v
theories/FactsSReal.v
theories/PropS.v
theories/Ops64.v
theories/B64.v
theories/Facts64.v
theories/Prop64.v
theories/ModelPy.v
theories/FactsPy.v
theories/PropPy.v
theories/Conformance.v
theories/NumSpec.v
theories/FactsNum.v
theories/PropNum.v
theories/ModelBuf.v
theories/ArrSpec.v
theories/FactsArr.v
theories/PropArr.v
theories/ModelObj.v
theories/ObjSpec.v
theories/FactsObj.v
theories/FactsSess.v
theories/ValSpec.v
theories/FactsVal.v
theories/PropVal.v
theories/FitSpec.v
theories/FactsFit.v
theories/PropFit.v
theories/PropObj.v
theories/ParamSpec.v
theories/FactsParam.v
theories/FactsEncl.v
theories/PropParam.v
theories/ErrSpec.v
theories/FactsErr.v
theories/PropErr.v
theories/ModelDisp.v
theories/DispSpec.v
theories/FactsDisp.v
theories/PropDisp.v
theories/ModelObjS.v
theories/SessSpec.v
theories/FactsSessD.v
theories/FactsSessS.v
theories/PropSess.v
theories/FmaSpec.v
theories/FactsFma.v
theories/PropFma.v
theories/RingSpec.v
theories/FactsRing.v
theories/PropRing.v
theories/NestSpec.v
theories/FactsNest.v
theories/PropNest.v
theories/ModelStrict.v
theories/FactsStrict.v
theories/PropStrict.v
theories/RangeSpec.v
theories/FactsRange.v
theories/PropRange.v
theories/BuildSpec.v
theories/FactsBuild.v
theories/FactsMix.v
theories/PropBuild.v
theories/ModelNew.v
theories/NewSpec.v
theories/FactsNew.v
theories/PropNew.v
theories/VarSpec.v
theories/FactsVar.v
theories/PropVar.v
theories/RelSpec.v
theories/FactsRel.v
theories/FactsRelU.v
theories/FactsRelB.v
theories/FactsRelR.v
theories/PropRel.v
theories/DomSpec.v
theories/FactsDom.v
theories/PropDom.v
theories/DivSpec.v
theories/FactsDiv.v
theories/PropDiv.v
theories/IncSpec.v
theories/FactsInc.v
theories/PropInc.v
theories/RenSpec.v
theories/FactsRen.v
theories/FactsMerge.v
theories/PropRen.v
theories/SameSpec.v
theories/FactsSame.v
theories/PropSame.v
theories/OnlySpec.v
theories/FactsOnly.v
theories/PropOnly.v
theories/ParSSpec.v
theories/FactsParS.v
theories/PropParS.v
theories/FactsSErr.v
theories/PropSErr.v
theories/ModelFmt.v
theories/FmtSpec.v
theories/FactsFmt.v
theories/FactsText.v
theories/PropText.v
theories/ThrSpec.v
theories/FactsThr.v
theories/PropThr.v
theories/RedSpec.v
theories/FactsRed.v
theories/FactsRedR.v
theories/PropRed.v
theories/ModelMove.v
theories/MoveSpec.v
theories/FactsMove.v
theories/FactsMoveLib.v
theories/PropMove.v
theories/GradeSpec.v
theories/FactsGrade.v
theories/FactsGrade64.v
theories/PropGrade.v
theories/ModelMem.v
theories/MemSpec.v
theories/FactsMem.v
theories/PropMem.v
theories/MeanSpec.v
theories/FactsMean.v
theories/PropMean.v
theories/ImplSpec.v
theories/FactsImpl.v
theories/PropImpl.v
theories/SysSpec.v
theories/FactsSys.v
theories/PropSys.v
theories/GradeSSpec.v
theories/FactsGradeS.v
theories/PropGradeS.v
theories/FactsMeanS.v
theories/PropMeanS.v
theories/SysSSpec.v
theories/FactsSysS.v
theories/PropSysS.v
theories/RedSSpec.v
theories/FactsRingS.v
theories/PropRingS.v
theories/ModelMemZ.v
theories/MemZSpec.v
theories/FactsMemZ.v
theories/PropMemZ.v
theories/ModelMemO.v
theories/MemOSpec.v
theories/FactsMemO.v
theories/PropMemO.v
theories/EdgeSSpec.v
theories/FactsEdgeS.v
theories/PropEdgeS.v
theories/FactsEdgeB.v
theories/PropEdgeB.v
theories/IdSSpec.v
theories/FactsIdS.v
theories/PropIdS.v
theories/FactsAccS.v
theories/PropAccS.v
theories/ModelNS.v
theories/NestSSpec.v
theories/FactsNestS.v
theories/FactsNestV.v
theories/FactsNestW.v
theories/PropNestS.v
theories/NestTSpec.v
theories/FactsNestT.v
theories/PropNestT.v
theories/NestUSpec.v
theories/FactsNestU.v
theories/PropNestU.v
theories/NestPSpec.v
theories/FactsNestP.v
theories/PropNestP.v
theories/NestVSpec.v
theories/FactsNestX.v
theories/PropNestV.v
theories/FactsNestY.v
theories/PropNestW.v
