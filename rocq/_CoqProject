-Q theories Verif
theories/Base.v
theories/BaseProof.v
theories/ModelTile.v
theories/SpecTile.v
theories/ProofTile.v
theories/ModelPackFile.v
theories/SpecPackFile.v
theories/ProofPackFile.v
theories/PropStorage.v
theories/ModelCodec.v
theories/ProofCodec.v
theories/ModelGeom.v
theories/SpecGeom.v
theories/ProofGeom.v
theories/ProofShift.v
theories/ModelFeature.v
theories/SpecFeature.v
theories/ProofFeature.v
theories/PropCodec.v
theories/ModelQuadTree.v
theories/SpecQuadTree.v
theories/ProofQuadTree.v
theories/ProofQuadWalk.v
theories/ProofQuadOrder.v
theories/PropQuad.v
theories/ModelPack.v
theories/SpecPack.v
theories/ProofPack.v
theories/PropPack.v
theories/ModelPacker.v
theories/SpecPacker.v
theories/ProofBestTile.v
theories/ProofPacker.v
theories/ProofPackerTop.v
theories/ProofPackerProps.v
theories/ProofPackSize.v
theories/ProofRepackSize.v
theories/PropPacker.v
theories/ModelBqTree.v
theories/SpecBqTree.v
theories/ProofBqTree.v
theories/ProofBqSer.v
theories/ProofBqQuery.v
theories/PropBqTree.v
theories/ModelMvt.v
theories/SpecLines.v
theories/SpecMvt.v
theories/ProofMvtGeom.v
theories/ProofMvt.v
theories/ProofMvtTile.v
theories/PropMvt.v
theories/ModelDict.v
theories/SpecDict.v
theories/ProofDict.v
theories/PropDict.v
theories/ModelOsm.v
theories/SpecOsm.v
theories/ProofOsm.v
theories/PropOsm.v
theories/ModelServer.v
theories/SpecServer.v
theories/ProofServer.v
theories/PropServer.v
theories/ModelShape.v
theories/SpecShape.v
theories/ProofShape.v
theories/PropShape.v
theories/ModelRender.v
theories/SpecRender.v
theories/ProofRender.v
theories/PropRender.v
theories/ProofPerm.v
theories/ModelQueue.v
theories/SpecQueue.v
theories/ProofQueue.v
theories/PropQueue.v
theories/ModelDrain.v
theories/SpecDrain.v
theories/ProofDrain.v
theories/PropDrain.v
theories/ModelTable.v
theories/ProofTable.v
theories/ModelPrepare.v
theories/ModelPrepLog.v
theories/SpecPrepLog.v
theories/SpecPrepare.v
theories/ProofPrepare.v
theories/ProofPrepLog.v
theories/PropPrepLog.v
theories/ProofPrepareEnd.v
theories/ProofServe.v
theories/PropPrepare.v
theories/ModelInserter.v
theories/SpecInserter.v
theories/ProofInserter.v
theories/ProofInserterInv.v
theories/ProofInserterTop.v
theories/ProofInserterFinish.v
theories/PropInserter.v
theories/ModelRepack.v
theories/ProofRepack.v
theories/SpecRepack.v
theories/ProofRepackRun.v
theories/ProofRepackEnd.v
theories/ProofPackDb.v
theories/PropRepack.v
theories/ModelNodeIdx.v
theories/SpecNodeIdx.v
theories/ProofNodeIdx.v
theories/ProofNodeBatch.v
theories/PropNodeIdx.v
theories/ModelAggregate.v
theories/SpecAggregate.v
theories/ProofAggregate.v
theories/ProofAggregateJoin.v
theories/ProofAggregateOut.v
theories/ProofAggregateFeat.v
theories/PropAggregate.v
theories/ProofDrainRun.v
theories/ModelCoast.v
theories/ModelClip.v
theories/SpecClip.v
theories/ProofClip.v
theories/PropClip.v
theories/SpecCoast.v
theories/ProofCoast.v
theories/ProofCoastRun.v
theories/ProofCoastFill.v
theories/ProofCoastClip.v
theories/ProofCoastEx.v
theories/PropCoast.v
theories/SpecLayout.v
theories/ProofLayout.v
theories/PropLayout.v
theories/ModelImport.v
theories/SpecImport.v
theories/SpecFinish.v
theories/ProofImportObjects.v
theories/ProofImportLoad.v
theories/ProofImportRun.v
theories/ProofImportPack.v
theories/ProofImportServe.v
theories/ProofImportTop.v
theories/ProofImportShow.v
theories/ProofStats.v
theories/ProofImportStats.v
theories/ProofImportFinish.v
theories/PropImport.v
theories/ProofImportFinish2.v
theories/ProofFeatureSize.v
theories/ProofImportEx.v
theories/PropFinish.v
theories/ModelProfile.v
theories/SpecProfile.v
theories/ProofProfile.v
theories/ProofProfile2.v
theories/ProofProfile3.v
theories/PropProfile.v
theories/ModelLoadOsm.v
theories/SpecLoadOsm.v
theories/ProofLoadOsm.v
theories/ProofLoadOsm2.v
theories/ProofOsmSize.v
theories/ProofOsmShow.v
theories/ProofOsmShow2.v
theories/ModelHandlers.v
theories/ProofHandlers.v
theories/PropLoadOsm.v
theories/SpecTileForm.v
theories/ProofTileForm.v
theories/PropTileForm.v
theories/ProofJoined.v
theories/SpecJoined.v
theories/ProofJoinedTop.v
theories/ModelCrash.v
theories/SpecCrash.v
theories/ProofCrash.v
theories/PropCrash.v
theories/PropJoined.v
theories/ModelAbort.v
theories/ProofAbort.v
theories/ProofKill.v
theories/PropAbort.v
theories/PropKill.v
theories/ModelNodeStats.v
theories/SpecNodeStats.v
theories/ProofNodeStats.v
theories/PropNodeStats.v
theories/ModelDebug.v
theories/SpecDebug.v
theories/ProofDebug.v
theories/PropDebug.v
theories/ModelLive.v
theories/ProofLive.v
theories/PropLive.v
theories/ModelPerf.v
theories/SpecPerf.v
theories/ProofPerf.v
theories/ProofPerfTime.v
theories/ProofPerfReport.v
theories/ProofPerfDb.v
theories/PropPerf.v
theories/ModelTileStats.v
theories/SpecTileStats.v
theories/ProofTileStats.v
theories/PropTileStats.v
theories/SpecSeam.v
theories/ProofSeam.v
theories/ProofSeamShow.v
theories/PropSeam.v
theories/SpecSame.v
theories/ProofSame.v
theories/ProofSameCoast.v
theories/PropSame.v
