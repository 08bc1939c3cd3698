-Q theories Verif
theories/Base.v
theories/BaseLemmas.v
theories/ModelRange.v
theories/SpecRange.v
theories/ProofsRange.v
theories/ModelSimple.v
theories/SpecSimple.v
theories/ProofsSimple.v
theories/ModelCcsds.v
theories/SpecCcsds.v
theories/ProofsCcsds.v
theories/ModelFloat.v
theories/ProofsFloat.v
theories/PropertiesDecode.v
theories/ModelInfo.v
theories/ModelJumper.v
theories/SpecJumper.v
theories/ProofsJumper.v
theories/ProofsJumper2.v
theories/ProofsJumper3.v
theories/PropertiesJumper.v
theories/ModelScan.v
theories/SpecScan.v
theories/ProofsScan.v
theories/ModelLRU.v
theories/SpecLRU.v
theories/ProofsLRU.v
theories/ModelStream.v
theories/ModelIndex.v
theories/ModelCache.v
theories/SpecStream.v
theories/ProofsStream.v
theories/SpecIndex.v
theories/ProofsIndex.v
theories/SpecCache.v
theories/ProofsCache.v
theories/ProofsCache2.v
theories/PropertiesInfo.v
theories/ModelQueue.v
theories/ModelTask.v
theories/SpecQueue.v
theories/ProofsQueue.v
theories/ProofsPool.v
theories/ProofsTask.v
theories/ProofsTask2.v
theories/ProofsTask3.v
theories/PropertiesQueue.v
theories/ModelStrings.v
theories/ModelEngine.v
theories/SpecEngine.v
theories/ProofsStrings.v
theories/ProofsEngine.v
theories/ProofsEngine2.v
theories/ProofsEngine3.v
theories/ProofsEngine4.v
theories/PropertiesEngine.v
theories/ModelProtocol.v
theories/ModelRemote.v
theories/SpecRemote.v
theories/ProofsProtocol.v
theories/ProofsRemote.v
theories/ProofsRemote2.v
theories/PropertiesRemote.v
theories/ModelForward.v
theories/SpecForward.v
theories/ProofsForward.v
theories/ProofsForward2.v
theories/ProofsForward3.v
theories/ProofsForward4.v
theories/PropertiesForward.v
theories/ModelApi.v
theories/SpecApi.v
theories/ProofsApi.v
theories/ProofsApi2.v
theories/ModelPython.v
theories/SpecPython.v
theories/ProofsPython.v
theories/ProofsPython2.v
theories/PropertiesApi.v
theories/ModelPlugin.v
theories/SpecPlugin.v
theories/ProofsPlugin.v
theories/ProofsPlugin2.v
theories/ProofsPlugin3.v
theories/ProofsPlugin4.v
theories/ProofsPlugin5.v
theories/PropertiesPlugin.v
theories/ModelBuild.v
theories/SpecBuild.v
theories/ProofsBuild.v
theories/ProofsBuild2.v
theories/ProofsBuild3.v
theories/SpecSystem.v
theories/ProofsSystem.v
theories/PropertiesBuild.v
theories/ModelThreads.v
theories/SpecThreads.v
theories/ProofsThreads.v
theories/ProofsThreads2.v
theories/ProofsThreads3.v
theories/ProofsThreads4.v
theories/ProofsThreads5.v
theories/ProofsThreads6.v
theories/ProofsTight.v
theories/PropertiesThreads.v
theories/SpecScanning.v
theories/ProofsScanning.v
theories/SpecUnion.v
theories/ProofsUnion.v
theories/PropertiesScanning.v
theories/ModelTools.v
theories/SpecTools.v
theories/ProofsTools.v
theories/PropertiesTools.v
theories/ModelConfig.v
theories/SpecConfig.v
theories/ProofsConfig.v
theories/PropertiesConfig.v
theories/ModelRust.v
theories/SpecRust.v
theories/ProofsRust.v
theories/PropertiesRust.v
theories/SpecDeploy.v
theories/ProofsDeploy.v
theories/PropertiesDeploy.v
theories/SpecPaths.v
theories/ProofsPaths.v
theories/PropertiesPaths.v
theories/SpecConcurrent.v
theories/ProofsConcurrent.v
theories/ProofsConcurrent2.v
theories/ProofsConcurrent3.v
theories/PropertiesConcurrent.v
theories/ModelContext.v
theories/ModelLog.v
theories/SpecContext.v
theories/SpecLog.v
theories/ProofsContext.v
theories/ProofsContext2.v
theories/ProofsLog.v
theories/PropertiesContext.v
theories/ModelErrors.v
theories/SpecErrors.v
theories/ProofsErrors.v
theories/PropertiesErrors.v
theories/ModelUser.v
theories/SpecUser.v
theories/ProofsUser.v
theories/PropertiesUser.v
theories/SpecAccuracy.v
theories/ProofsRound.v
theories/ProofsRoundOps.v
theories/ProofsAccuracy.v
theories/PropertiesAccuracy.v
theories/SpecSafety.v
theories/ProofsSafety.v
theories/ProofsSafety2.v
theories/ProofsSafety3.v
theories/ProofsSafety4.v
theories/PropertiesSafety.v
theories/SpecNumbers.v
theories/ProofsNumbers.v
theories/PropertiesNumbers.v
theories/SpecServe.v
theories/ProofsServe.v
theories/ProofsServe2.v
theories/PropertiesServe.v
theories/ModelAxes.v
theories/SpecAxes.v
theories/ProofsAxes.v
theories/PropertiesAxes.v
theories/ModelInspect.v
theories/SpecInspect.v
theories/ProofsInspect.v
theories/PropertiesInspect.v
theories/ModelClient.v
theories/SpecClient.v
theories/ProofsClient.v
theories/PropertiesClient.v
theories/SpecBusy.v
theories/ProofsBusy.v
theories/PropertiesBusy.v
theories/SpecHostile.v
theories/ProofsHostile.v
theories/ProofsHostile2.v
theories/ProofsHostile3.v
theories/ProofsHostile4.v
theories/ProofsHostile5.v
theories/PropertiesHostile.v
theories/ModelNotify.v
theories/SpecNotify.v
theories/ProofsNotify.v
theories/ProofsNotify2.v
theories/ProofsRuns.v
theories/PropertiesNotify.v
theories/ModelObjects.v
theories/SpecObjects.v
theories/ProofsObjects.v
theories/PropertiesObjects.v
theories/ModelLife.v
theories/SpecLife.v
theories/ProofsLife.v
theories/PropertiesLife.v
theories/ModelShare.v
theories/SpecShare.v
theories/ProofsShare.v
theories/PropertiesShare.v
theories/ModelFetch.v
theories/SpecFetch.v
theories/ProofsFetch.v
theories/PropertiesFetch.v
theories/SpecMany.v
theories/ProofsMany.v
theories/PropertiesMany.v
theories/ModelFactory.v
theories/SpecFactory.v
theories/ProofsFactory.v
theories/ProofsFactory2.v
theories/PropertiesFactory.v
theories/ModelLoad.v
theories/SpecLoad.v
theories/ProofsLoad.v
theories/PropertiesLoad.v
