-Q theories Verif
theories/Np.v
theories/NpFacts.v
theories/Mat.v
theories/Inst.v
theories/MRing.v
theories/SRing.v
theories/PRing.v
theories/PropRing.v
theories/MUtil.v
theories/SUtil.v
theories/PUtil.v
theories/PropUtil.v
theories/MInsights.v
theories/SInsights.v
theories/PInsights.v
theories/PropInsights.v
theories/SLog.v
theories/PLog.v
theories/MProfile.v
theories/PFullRb.v
theories/PProfile.v
theories/PShift.v
theories/SIndex.v
theories/PIndex.v
theories/PropProfile.v
theories/MRand.v
theories/SRand.v
theories/MReservoir.v
theories/SReservoir.v
theories/PRand.v
theories/PReservoir.v
theories/PResProb.v
theories/PResCol.v
theories/PResMix.v
theories/PropReservoir.v
theories/MCounters.v
theories/SCounters.v
theories/PSort.v
theories/PCounters.v
theories/PropCounters.v
theories/MDist.v
theories/SDist.v
theories/PDist.v
theories/PropDist.v
theories/MContext.v
theories/SContext.v
theories/PContext.v
theories/PCmp.v
theories/PCmpRun.v
theories/PropContext.v
theories/PropContextShift.v
theories/SHeld.v
theories/PHeld.v
theories/PropContextExact.v
theories/MMulti.v
theories/SMulti.v
theories/PMulti.v
theories/PMultiRun.v
theories/PMultiRaise.v
theories/PropMulti.v
theories/MCalc.v
theories/SCalc.v
theories/PCalc.v
theories/PCalcRun.v
theories/SStream.v
theories/PStream.v
theories/PCalcEnd.v
theories/PropCalc.v
theories/MArith.v
theories/MStats.v
theories/MCache.v
theories/MEuclid.v
theories/SReal.v
theories/PArith.v
theories/PCache.v
theories/SGen.v
theories/PGenRun.v
theories/PDiagonal.v
theories/PEuclid.v
theories/PropEuclid.v
theories/STaint.v
theories/PTaint.v
theories/PropTaint.v
theories/PStats.v
theories/PropStats.v
theories/MZnorm.v
theories/PZdist.v
theories/PZnorm.v
theories/PZgeo.v
theories/PropZnorm.v
theories/MFilter.v
theories/SFilter.v
theories/PFilter.v
theories/PFilterReal.v
theories/PropFilter.v
theories/SMixed.v
theories/PMixed.v
theories/SEnd.v
theories/PEnd.v
theories/PropEnd.v
theories/SEndStream.v
theories/PEndStream.v
theories/PropEndStream.v
theories/MOstinato.v
theories/SOstinato.v
theories/POstinato.v
theories/POstinatoSub.v
theories/PropOstinato.v
theories/POstinatoAny.v
theories/PropOstinatoAny.v
theories/MValmod.v
theories/SValmod.v
theories/PValmodLb.v
theories/PValmod.v
theories/PValmodNext.v
theories/PropValmod.v
theories/MInterrupt.v
theories/SInterrupt.v
theories/PInterrupt.v
theories/PropInterrupt.v
theories/MRejected.v
theories/PRejected.v
theories/PropReject.v
theories/SRejectJoin.v
theories/PRejectJoin.v
theories/PropRejectJoin.v
theories/PRejectFixed.v
theories/PropRejectFixed.v
theories/SStaleStats.v
theories/PStaleStats.v
theories/PStaleOne.v
theories/PropStaleStats.v
theories/PStaleColumn.v
theories/PropStaleColumn.v
theories/SStaleChunks.v
theories/PStaleChunks.v
theories/PropStaleChunks.v
theories/PropMotif.v
theories/InstF.v
theories/SRound.v
theories/PRound.v
theories/PRoundGen.v
theories/PRoundEu.v
theories/PropRound.v
theories/PSim.v
theories/PFloat.v
theories/PBinary.v
theories/PBinaryZn.v
theories/PTotal.v
theories/PropTotal.v
theories/PBinaryEu.v
theories/PropBinary.v
theories/MProgress.v
theories/PropProgress.v
theories/MMisc.v
theories/PropMisc.v
theories/MRaise.v
theories/SRaise.v
theories/PRaise.v
theories/PRaiseEnd.v
theories/PropRaise.v
theories/SEndAll.v
theories/PEndAll.v
theories/PEndKind.v
theories/SEndCons.v
theories/PEndCons.v
theories/PEndMulti.v
theories/PEndRes.v
theories/PEndProg.v
theories/PropEndAll.v
theories/PEndCount.v
theories/PropEndCount.v
theories/SEndStreamAll.v
theories/PEndStreamAll.v
theories/PropEndStreamAll.v
theories/PropContextStream.v
theories/SAttempt.v
theories/PAttempt.v
theories/PropAttempt.v
theories/SCols.v
theories/PEndCols.v
theories/PropColumns.v
theories/PEndPlain.v
theories/PropEndPlain.v
theories/PropChannels.v
theories/MStreamRaise.v
theories/SStreamRaise.v
theories/PStreamRaise.v
theories/PropStreamRaise.v
theories/PropAppend.v
theories/PRaiseSelf.v
theories/PropRaiseSelf.v
theories/SRaiseJoin.v
theories/PRaiseJoin.v
theories/PropRaiseJoin.v
theories/MRatio.v
theories/PRatio.v
theories/PropRatio.v
theories/SOstinatoSub.v
theories/PropOstinatoSub.v
theories/SRoundCol.v
theories/PRoundCol.v
theories/PropRoundCol.v
theories/SStale.v
theories/PStale.v
theories/PStaleRun.v
theories/PropStale.v
theories/ConfUtil.v
theories/ConfData.v
theories/ConfConsumer.v
theories/ConfCalc.v
theories/ConfFilter.v
theories/ConfFloat.v
theories/ConfGen.v
theories/ConfAlgo.v
