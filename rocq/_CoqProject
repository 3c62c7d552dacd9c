-Q theories Verif

theories/Base.v
theories/Arith.v
theories/Prog.v
theories/MUtils.v
theories/MHeap.v
theories/MXyz.v
theories/MKnn.v
theories/MBoundary.v
theories/MCell.v
theories/MDnn.v
theories/MArgs.v
theories/MTess.v
theories/MMain.v
theories/MPy.v
theories/Exact.v
theories/ArithQ.v
theories/ArithR.v
theories/Arith32.v
theories/PBase.v
theories/SpecGeom.v
theories/PExact.v
theories/PFlags.v
theories/SpecSort.v
theories/PSort.v
theories/PXyz.v
theories/PGrid.v
theories/PSortFinal.v
theories/PFloat.v
theories/PUtilFinal.v
theories/PropsUtil.v
theories/PropsSort.v
theories/SpecDnn.v
theories/PDnn.v
theories/PText.v
theories/PArgs.v
theories/PFill.v
theories/PropsDnn.v
theories/PropsArgs.v
theories/PProg.v
theories/SpecHeap.v
theories/PHeap.v
theories/PReloc.v
theories/PHeapFinal.v
theories/POrder.v
theories/PropsHeap.v
theories/SpecKnn.v
theories/PKnnSel.v
theories/PKnn.v
theories/PKnnFinal.v
theories/PropsKnn.v
theories/SpecBnd.v
theories/PBnd.v
theories/PBndRun.v
theories/PBndLoop.v
theories/PBndCap.v
theories/PBndFinal.v
theories/PropsBnd.v
theories/PCellSim.v
theories/PCellRun.v
theories/PCell.v
theories/PCellRow.v
theories/PKnnSafe.v
theories/PSlot.v
theories/PWalk.v
theories/SpecSlot.v
theories/SpecAny.v
theories/PSlotHost.v
theories/PKnnAny.v
theories/PSlotFinal.v
theories/PropsCell.v
theories/PPool.v
theories/PRanges.v
theories/PTess.v
theories/PTessRun.v
theories/PTessFinal.v
theories/PropsTess.v
theories/PGeomCone.v
theories/PGeomPoly.v
theories/PTopo.v
theories/PTopoCut.v
theories/PPerturb.v
theories/PGeomWalk.v
theories/SpecVor.v
theories/SpecRows.v
theories/PGeomFinal.v
theories/PDistinct.v
theories/PNoFail.v
theories/PropsGeom.v
theories/PRec.v
theories/PRecFinal.v
theories/PRecGeom.v
theories/PNoFailApi.v
theories/PExactApi.v
theories/PCanon.v
theories/PWrap.v
theories/PNeed.v
theories/PRowsAny.v
theories/PDist32.v
theories/PFloatRows.v
theories/PropsFloat.v
theories/PropsRec.v
theories/PropsFull.v
theories/PLock.v
theories/PGpu.v
theories/PGpuRun.v
theories/SpecDev.v
theories/PGpuExact.v
theories/PGpuChunk.v
theories/PropsGpu.v
theories/PropsCanon.v
theories/PDet.v
theories/PropsDet.v
theories/PRes.v
theories/PropsRes.v
theories/Conform.v
theories/SpecMain.v
theories/PMain.v
theories/SpecApi.v
theories/SpecPy.v
theories/PApi.v
theories/PPy.v
theories/PropsMain.v
theories/PSize.v
theories/PropsSize.v
theories/PropsApi.v
theories/PropsPy.v
theories/PropsNeed.v
theories/MConsole.v
theories/MGetopt.v
theories/MRead.v
theories/SpecCli.v
theories/SpecRead.v
theories/PGetopt.v
theories/PConsole.v
theories/PropsCli.v
theories/PRead.v
theories/PReadLine.v
theories/PReadRun.v
theories/PropsRead.v
theories/SpecPoints.v
theories/SpecParam.v
theories/SpecSingle.v
theories/SpecText.v
theories/SpecRun.v
theories/SpecCell.v
theories/SpecArgs.v
theories/SpecFlags.v
theories/SpecResult.v
theories/SpecCut.v
theories/SpecNear.v
theories/PNear32.v
theories/PRowsNear.v
theories/PNearRows.v
theories/PropsNear.v
theories/PGpu32.v
theories/PropsGpu32.v
theories/PGpuRec.v
theories/PGpuRec32.v
theories/PropsGpuRec.v
theories/PErrReal.v
theories/PErr32.v
theories/SpecRobust.v
theories/PErrBis.v
theories/PErrReach.v
theories/PRobust.v
theories/PRunDone.v
theories/PRobustApi.v
theories/PRobustRun.v
theories/PRobustLine.v
theories/PropsRobust.v
theories/SpecShown.v
theories/PShown.v
theories/SpecReport.v
theories/PReport.v
theories/PropsText.v
theories/SpecCert.v
theories/PRobustFace.v
theories/PCert.v
theories/PRobustCanon.v
theories/PropsFace.v
theories/SpecFace.v
theories/PSort32.v
theories/PRobustText.v
theories/PropsEnd.v
theories/SpecOrder.v
theories/PRobustOrder.v
theories/PropsOrder.v
theories/MFloatArg.v
theories/SpecFloatArg.v
theories/PFloatArg.v
theories/PropsFloatArg.v
theories/PEuler.v
theories/SpecCap.v
theories/PCap.v
theories/SpecCapEx.v
theories/PCapEx.v
theories/PropsCap.v
theories/PEulerCut.v
theories/SpecWhen.v
theories/PWhen.v
theories/PropsWhen.v
theories/SpecSpread.v
theories/PSpread.v
theories/PropsSpread.v
theories/SpecOwn.v
theories/SpecFew.v
theories/POwn.v
theories/PFew32.v
theories/PFewRun.v
theories/PropsOwn.v
theories/PropsFew.v
theories/MIndex.v
theories/SpecIndex.v
theories/PIndex.v
theories/PropsIndex.v
theories/PVst.v
theories/PropsVst.v
theories/SpecWord.v
theories/SpecOption.v
theories/PWord.v
theories/PropsWord.v
theories/PEmpty.v
theories/PropsEmpty.v
theories/SpecDiagram.v
theories/PDiagram.v
theories/PDiagramRun.v
theories/PropsDiagram.v
theories/SpecUpdate.v
theories/PUpdate.v
theories/PropsUpdate.v
theories/SpecRoom.v
theories/PRoom.v
theories/PropsRoom.v
theories/SpecMixed.v
theories/PMixed.v
theories/PropsMixed.v
