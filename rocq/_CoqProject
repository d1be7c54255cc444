-Q theories Verif
theories/Base.v
theories/BaseFacts.v
theories/Bytes.v
theories/PBytes.v
theories/MSliceVec.v
theories/SSliceVec.v
theories/PFixed.v
theories/PVar.v
theories/PCursor.v
theories/PWriteVar.v
theories/PSliceMisc.v
theories/TSlice.v
theories/MOffsets.v
theories/MSetVec.v
theories/SOffsets.v
theories/POffsets.v
theories/PSetVec.v
theories/PSetVecWrite.v
theories/PCvw.v
theories/TLayer.v
theories/MUtf8.v
theories/MJson.v
theories/PJson.v
theories/MIndexIo.v
theories/MWord.v
theories/PWord.v
theories/SIndexIo.v
theories/PIndexIo.v
theories/PIndexCrash.v
theories/PIndexBuilder.v
theories/TIndexIo.v
theories/MSearch.v
theories/SSearch.v
theories/PHeap.v
theories/PSearch.v
theories/PSearchIx.v
theories/TSearch.v
theories/MBuild.v
theories/SBuild.v
theories/PSelect.v
theories/PRow.v
theories/PSLite.v
theories/PBuildInv.v
theories/PBuildRun.v
theories/PBuildLayer.v
theories/PBuildFair.v
theories/PBuilder.v
theories/POpen.v
theories/PHistory.v
theories/PBuildAny.v
theories/TBuild.v
theories/MLocks.v
theories/SLocks.v
theories/PLocks.v
theories/TLocks.v
theories/MFloat.v
theories/MLayerSize.v
theories/SLayerSize.v
theories/PFloat.v
theories/PLayerR.v
theories/PLayerF.v
theories/PLayerCr.v
theories/TLayerSize.v
theories/MReorder.v
theories/SReorder.v
theories/PReorder.v
theories/PReorderOrder.v
theories/PReorderSim.v
theories/TReorder.v
theories/MRw.v
theories/SRw.v
theories/PRwSeq.v
theories/PRwLock.v
theories/PRwIds.v
theories/PRwConc.v
theories/PRwTop.v
theories/PRwSingle.v
theories/PRwLive.v
theories/TRw.v
theories/SLink.v
theories/PLink.v
theories/TLink.v
theories/MEmbed.v
theories/SEmbed.v
theories/PEmbed.v
theories/PEmbed2.v
theories/PEmbed3.v
theories/TEmbed.v
theories/MParse.v
theories/SParse.v
theories/PParse.v
theories/PParse2.v
theories/PParse3.v
theories/TParse.v
theories/MAngular.v
theories/SAngular.v
theories/PDot.v
theories/PCode.v
theories/PF32.v
theories/PAngInt.v
theories/PAng.v
theories/PQuant.v
theories/PDotErr.v
theories/PNormal.v
theories/PDense.v
theories/PDenseHist.v
theories/TAngular.v
theories/TVectors.v
theories/SReach.v
theories/PReach.v
theories/PPipeline.v
theories/PReachB.v
theories/PReachC.v
theories/TReach.v
theories/TReachSize.v
theories/SPipeline.v
theories/PLayers.v
theories/MFloatBits.v
theories/PPipelineB.v
theories/TPipeline.v
theories/TPipelineVec.v
theories/TPipelineSize.v
theories/MPyIndex.v
theories/SPyIndex.v
theories/PHistGen.v
theories/PPyIndex.v
theories/PPyWords.v
theories/PPyMain.v
theories/PPyLayers.v
theories/PIndexRe.v
theories/SPyReorder.v
theories/PPyLife.v
theories/PPyIx.v
theories/PPyIxW.v
theories/TPyIndex.v
theories/TPyWords.v
theories/TPyOptions.v
theories/TPyEx.v
theories/TReopen.v
theories/SPyMore.v
theories/PPyMore.v
theories/PPyKinds.v
theories/TPyMore.v
theories/TPyMoreEx.v
theories/TPyReorder.v
theories/TPyReorderEx.v
theories/SReorderTrail.v
theories/PReorderTrail.v
theories/TReorderTrail.v
theories/SLayerAcc.v
theories/PLayerAcc.v
theories/TLayerAcc.v
theories/SMeta.v
theories/PMeta.v
theories/TMeta.v
theories/PLayerEdge.v
theories/TLayerEdge.v
theories/SMono.v
theories/PMono.v
theories/TMono.v
theories/SJson.v
theories/PJsonText.v
theories/TJsonText.v
theories/TReadCap.v
theories/TPyLayers.v
theories/MPyMod.v
theories/PPyMod.v
theories/TPyMod.v
theories/TWord.v
theories/MWorkers.v
theories/SWorkers.v
theories/PWorkers.v
theories/PWorkers2.v
theories/TWorkers.v
theories/TFromFile.v
theories/TAngWrap.v
theories/MFiles.v
theories/SFiles.v
theories/PFiles.v
theories/PFiles2.v
theories/TFiles.v
theories/TFiles2.v
theories/TPyNames.v
theories/TConst.v
theories/TPyArgs.v
theories/MText.v
theories/SText.v
theories/PText.v
theories/PText2.v
theories/PText3.v
theories/TText.v
theories/SQuant.v
theories/PAngle.v
theories/TQuant.v
theories/MRwFiles.v
theories/SRwFiles.v
theories/PRwFiles.v
theories/PRwFiles2.v
theories/TRwFiles.v
theories/PRwCount.v
theories/PRwFiles3.v
theories/TRwEnds.v
theories/MPyFiles.v
theories/SPyFiles.v
theories/PPyFiles.v
theories/PPyFiles2.v
theories/TPyFiles.v
theories/TPyFilesEx.v
theories/MRwPanic.v
theories/SRwPanic.v
theories/PRwPanic.v
theories/PRwPanic2.v
theories/TRwPanic.v
theories/TRwPanicEx.v
