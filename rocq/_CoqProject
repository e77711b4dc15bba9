-Q theories Verif
theories/Base.v
theories/Num.v
theories/Vec.v
theories/Mat.v
theories/Quat.v
theories/Bound.v
theories/Shape.v
theories/Intersect.v
theories/Gjk.v
theories/Float.v
theories/Exact.v
theories/SpecMat.v
theories/SpecGeom.v
theories/ExactFacts.v
theories/PMat.v
theories/PMat2.v
theories/SpecReal.v
theories/PMat3.v
theories/PInv.v
theories/FloatFacts.v
theories/Order.v
theories/PEqual.v
theories/PVec.v
theories/PMat4.v
theories/PMat5.v
theories/PropertiesMat.v
theories/SpecQuat.v
theories/PQuat.v
theories/PQuat2.v
theories/PQuat3.v
theories/PropertiesQuat.v
theories/SpecBound.v
theories/FloatRound.v
theories/PBound.v
theories/SpecShape.v
theories/PShape.v
theories/PropertiesBound.v
theories/SpecInter.v
theories/PInter.v
theories/PropertiesInter.v
theories/PGeo1.v
theories/PGeo2.v
theories/PGeo3.v
theories/PGeo4.v
theories/PropertiesGeo.v
theories/PSup.v
theories/PGjk1.v
theories/PGjk2.v
theories/PGjk3.v
theories/SpecGjk.v
theories/PGjk4.v
theories/PGjk5.v
theories/PSup2.v
theories/PropertiesGjk.v
theories/SpecRound.v
theories/PRound.v
theories/PRound2.v
theories/PRound3.v
theories/PropertiesRound.v
theories/SpecMisc.v
theories/PMisc.v
theories/PropertiesMisc.v
theories/SpecCtor.v
theories/SpecBuild.v
theories/PBuild.v
theories/PIeee1.v
theories/PIeee2.v
theories/PIeee3.v
theories/PropertiesIeee.v
theories/RepoTests.v
theories/SpecFq.v
theories/PIeee4.v
theories/PropertiesFq.v
theories/SpecFr.v
theories/PIeee5.v
theories/PropertiesFr.v
theories/PIeee6.v
theories/PropertiesFi.v
theories/SpecTrace.v
theories/PIeee7.v
theories/PropertiesGjk2.v
theories/SpecRays.v
theories/PRays.v
theories/SpecNan.v
theories/PNan.v
theories/PNan2.v
theories/PropertiesNan.v
theories/PInvF.v
theories/PropertiesInvF.v
theories/SpecSim.v
theories/SpecSym.v
theories/PSim.v
theories/PSimGjk.v
theories/PSym.v
theories/PropertiesSim.v
theories/SpecGrow.v
theories/PGrow.v
theories/PropertiesGrow.v
theories/SpecPrismF.v
theories/PPrismF.v
theories/PropertiesPrismF.v
theories/PPrismL.v
theories/PropertiesPrismL.v
theories/SpecTrig.v
theories/PTrig.v
theories/PTrig2.v
theories/PTrig3.v
theories/PTrig4.v
theories/PropertiesTrig.v
theories/PRayP.v
theories/PropertiesRayP.v
theories/PRayR.v
theories/PropertiesRayR.v
theories/SpecPow.v
theories/PPow.v
theories/PPow0.v
theories/PPow2.v
theories/PropertiesPow.v
theories/SpecMirror.v
theories/PMirror.v
theories/PMirror1.v
theories/PMirror2.v
theories/PMirror3.v
theories/PropertiesMirror.v
theories/SpecRing.v
theories/PRing0.v
theories/PRing1.v
theories/PRing2.v
theories/PRing3.v
theories/PropertiesRing.v
theories/SpecDeep.v
theories/PDeep0.v
theories/PDeep1.v
theories/PFar0.v
theories/PFar1.v
theories/PDeep2.v
theories/PropertiesDeep.v
theories/PLoc.v
theories/PropertiesLoc.v
theories/SpecSwap.v
theories/PSwap.v
theories/PropertiesSwap.v
theories/SpecScale.v
theories/PScale.v
theories/PScale2.v
theories/PropertiesScale.v
theories/SpecShift.v
theories/PShift.v
theories/PropertiesShift.v
theories/SpecLaws.v
theories/PLaws.v
theories/PropertiesLaws.v
theories/SpecInt.v
theories/PInt.v
theories/PInt2.v
theories/PropertiesInt.v
theories/PSqr.v
theories/PIntQ.v
theories/PIntQ2.v
theories/PIntP.v
theories/PropertiesIntQ.v
theories/PAxis.v
theories/PAxis2.v
theories/PropertiesAxis.v
theories/SpecRun.v
theories/PRun.v
theories/PRunM.v
theories/PropertiesRun.v
theories/SpecTree.v
theories/PTree.v
theories/PropertiesTree.v
theories/SpecRunV.v
theories/PRunV.v
theories/PropertiesRunV.v
theories/SpecRotM.v
theories/PRotM.v
theories/PRotMF.v
theories/PropertiesRotM.v
theories/PSlerp.v
theories/PropertiesSlerp.v
theories/PScaleP.v
theories/PropertiesScaleP.v
theories/SpecSpin.v
theories/PSpinM.v
theories/PropertiesSpin.v
theories/PSlerpF.v
theories/PropertiesSlerpF.v
theories/SpecPowL.v
theories/PPowL.v
theories/PropertiesPowL.v
theories/SpecSteer.v
theories/PSteer.v
theories/PropertiesSteer.v
theories/PRotInv.v
theories/PropertiesRotInv.v
theories/SpecTurnQ.v
theories/PTurnQ.v
theories/PropertiesTurnQ.v
theories/SpecPose.v
theories/PPose.v
theories/PropertiesPose.v
theories/SpecTol.v
theories/PTol.v
theories/PropertiesTol.v
theories/PropertiesAgree.v
theories/PInv3F.v
theories/PropertiesInv3F.v
theories/SpecInv3.v
theories/PInv3G.v
theories/PropertiesInv3G.v
theories/PSolve.v
theories/PropertiesSolve.v
theories/PTransM.v
theories/PropertiesTransM.v
theories/SpecLog.v
theories/PLog.v
theories/PropertiesLog.v
theories/PInterpS.v
theories/PropertiesInterpS.v
