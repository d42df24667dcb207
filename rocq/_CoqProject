-Q theories Verif
theories/Base.v
theories/FloatLib.v
theories/Strconv.v
theories/Value.v
theories/Doc.v
theories/Expr.v
theories/Pred.v
theories/Tree.v
theories/Regression.v
theories/Model.v
theories/Api.v
theories/Lib.v
theories/SpecPred.v
theories/ProofsPred.v
theories/GoExt.v
theories/Samples.v
theories/PropertiesPred.v
theories/SpecExpr.v
theories/ProofsExpr.v
theories/SpecConstruct.v
theories/ProofsConstruct.v
theories/ProofsRange.v
theories/SpecTree.v
theories/ProofsTree.v
theories/ProofsOutput.v
theories/ProofsEval.v
theories/ProofsDoc.v
theories/ProofsSafe.v
theories/ProofsWhole.v
theories/ProofsClass.v
theories/ProofsAnswer.v
theories/SpecModel.v
theories/ProofsFrame.v
theories/ProofsSim.v
theories/SpecShare.v
theories/ProofsShare.v
theories/ProofsHistory.v
theories/ProofsMining.v
theories/PropertiesConstruct.v
theories/PropertiesTree.v
theories/PropertiesModel.v
theories/PropertiesShare.v
theories/SpecRegr.v
theories/ProofsRegr.v
theories/PropertiesRegr.v
theories/SpecVerify.v
theories/ProofsVerify.v
theories/PropertiesVerify.v
theories/ProofsValue.v
theories/PropertiesExpr.v
theories/Race.v
theories/ProofsRace.v
theories/PropertiesRace.v
theories/RealLib.v
theories/PropertiesReal.v
theories/Xml.v
theories/Decode.v
theories/TestData.v
theories/Replay.v
theories/TokenLoop.v
theories/SpecDecode.v
theories/ProofsDecode.v
theories/ProofsAttrs.v
theories/ProofsRewrite.v
theories/PropertiesDecode.v
theories/SpecEssence.v
theories/ProofsEssence.v
theories/SpecFile.v
theories/PropertiesEssence.v
theories/AccLib.v
theories/PropertiesAccuracy.v
theories/Array.v
theories/PropertiesArray.v
theories/SpecRename.v
theories/ProofsRename.v
theories/PropertiesRename.v
theories/Schema.v
theories/Reflect.v
theories/SpecReflect.v
theories/ProofsReflect.v
theories/SpecView.v
theories/ProofsView.v
theories/ProofsViewDoc.v
theories/ProofsViewTop.v
theories/ProofsLost.v
theories/PropertiesReflect.v
theories/PropertiesInputs.v
theories/SpecEquiv.v
theories/ProofsEquiv.v
theories/ProofsPrune.v
theories/PropertiesEquiv.v
theories/SpecSegments.v
theories/ProofsSegments.v
theories/PropertiesSegments.v
theories/SpecVerdict.v
theories/PropertiesVerdict.v
theories/ForestLib.v
theories/PropertiesForest.v
theories/PropertiesForestSum.v
theories/SpecRecords.v
theories/ProofsRecords.v
theories/PropertiesRecords.v
theories/PropertiesShuffle.v
theories/PropertiesPenalty.v
theories/SpecDerive.v
theories/ProofsDerive.v
theories/PropertiesDerive.v
theories/SpecCells.v
theories/ProofsCells.v
theories/PropertiesCells.v
theories/SpecDecimal.v
theories/ProofsDecimal.v
theories/PropertiesDecimal.v
theories/ProofsFloat32.v
theories/PropertiesFloat32.v
theories/SpecOrder.v
theories/ProofsOrder.v
theories/PropertiesOrder.v
theories/SpecRecode.v
theories/ProofsRecode.v
theories/PropertiesRecode.v
theories/ProofsPanic.v
theories/PropertiesPanic.v
theories/Workers.v
theories/PropertiesWorkers.v
theories/Build.v
theories/SpecBuild.v
theories/ProofsBuild.v
theories/PropertiesBuild.v
theories/SpecError.v
theories/ProofsError.v
theories/PropertiesError.v
theories/Beside.v
theories/SpecBeside.v
theories/ProofsBeside.v
theories/PropertiesBeside.v
theories/SpecCost.v
theories/ProofsCost.v
theories/PropertiesCost.v
theories/SpecNest.v
theories/ProofsNest.v
theories/PropertiesNest.v
theories/SpecCollapse.v
theories/ProofsCollapse.v
theories/ProofsIdle.v
theories/PropertiesCollapse.v
theories/ProofsSoftmax.v
theories/PropertiesSoftmax.v
theories/SpecIds.v
theories/ProofsIds.v
theories/PropertiesIds.v
theories/SpecLabels.v
theories/ProofsLabels.v
theories/PropertiesLabels.v
theories/SpecFinal.v
theories/ProofsFinal.v
theories/PropertiesFinal.v
theories/SpecListed.v
theories/ProofsListed.v
theories/PropertiesListed.v
theories/ProofsPredicts.v
theories/PropertiesPredicts.v
theories/SpecRules.v
theories/ProofsRules.v
theories/PropertiesRules.v
theories/SpecEarlier.v
theories/ProofsEarlier.v
theories/PropertiesEarlier.v
theories/Perf.v
theories/SpecPerf.v
theories/ProofsPerf.v
theories/PropertiesPerf.v
theories/PropertiesFinalSum.v
theories/SpecKinds.v
theories/ProofsKinds.v
theories/PropertiesKinds.v
theories/ProofsPruneWeighted.v
theories/PropertiesPruneWeighted.v
theories/SpecUnits.v
theories/ProofsUnits.v
theories/PropertiesUnits.v
theories/ProofsForestWeighted.v
theories/PropertiesForestWeighted.v
theories/SpecZero.v
theories/ProofsZero.v
theories/PropertiesZero.v
theories/SpecTypes.v
theories/ProofsTypes.v
theories/PropertiesTypes.v
theories/SpecUnread.v
theories/ProofsUnread.v
theories/PropertiesUnread.v
theories/SpecElse.v
theories/ProofsElse.v
theories/PropertiesElse.v
theories/SpecDeclared.v
theories/ProofsDeclared.v
theories/PropertiesDeclared.v
theories/SpecWrap.v
theories/ProofsWrap.v
theories/PropertiesWrap.v
theories/SpecJoin.v
theories/ProofsJoin.v
theories/PropertiesJoin.v
theories/SpecSilent.v
theories/ProofsSilent.v
theories/PropertiesSilent.v
theories/SpecOnce.v
theories/ProofsOnce.v
theories/PropertiesOnce.v
theories/SpecDists.v
theories/ProofsDists.v
theories/PropertiesDists.v
theories/SpecConstant.v
theories/ProofsConstant.v
theories/PropertiesConstant.v
theories/ProofsLeftZero.v
theories/PropertiesLeftZero.v
theories/SpecTrim.v
theories/ProofsTrim.v
theories/PropertiesTrim.v
theories/SpecDead.v
theories/ProofsDead.v
theories/PropertiesDead.v
theories/SpecAlike.v
theories/ProofsAlike.v
theories/PropertiesAlike.v
theories/SpecBoosted.v
theories/ProofsBoosted.v
theories/PropertiesBoosted.v
theories/SpecExchange.v
theories/ProofsExchange.v
theories/PropertiesExchange.v
theories/SpecMean.v
theories/ProofsMean.v
theories/PropertiesMean.v
theories/ProofsSign.v
theories/PropertiesSign.v
theories/Heap.v
theories/SpecHeap.v
theories/ProofsHeap.v
theories/PropertiesHeap.v
theories/Nil.v
theories/PropertiesNil.v
