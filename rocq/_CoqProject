-Q theories Verif
theories/Base.v
theories/MixtureKeyModel.v
theories/MixtureKeyProofs.v
theories/UtilsModel.v
theories/UtilsProofs.v
theories/ChunkGenModel.v
theories/SpecChunk.v
theories/ChunkGenProofs1.v
theories/ChunkGenProofs2.v
theories/ChunkGenProofs3.v
theories/ChunkGenProofs4.v
theories/ChunkGenProofs5.v
theories/ChunkGenProofs6.v
theories/ChunkGenProofs7.v
theories/ChunkGenProofs8.v
theories/ChunkGenProofs9.v
theories/PropertiesChunk.v
theories/ConcurrentModel.v
theories/ChunkGenProofs10.v
theories/ChunkGenProofs11.v
theories/PropertiesConcurrent.v
theories/ReplayModel.v
theories/ReplayProofs.v
theories/PropertiesReplay.v
theories/MixtureModel.v
theories/SpecMixture.v
theories/MixtureProofs.v
theories/MixtureProofs2.v
theories/PropertiesMixture.v
theories/ChunkGenProofs12.v
theories/PropertiesChunk2.v
theories/DistributorModel.v
theories/SpecDistributor.v
theories/DistributorProofs.v
theories/DistributorProofs2.v
theories/DistributorProofs3.v
theories/DistributorProofs4.v
theories/DistributorProofs5.v
theories/DistributorProofs6.v
theories/DistributorProofs7.v
theories/DistributorProofs8.v
theories/DistributorProofs9.v
theories/DistributorProofs10.v
theories/PropertiesDistributor.v
theories/TokenModel.v
theories/SpecToken.v
theories/TokenProofs.v
theories/TokenProofs2.v
theories/TokenProofs3.v
theories/PropertiesToken.v
theories/SpecSubseq.v
theories/SpecRoundRobin.v
theories/RoundRobin.v
theories/FloatModel.v
theories/SpecResultChunk.v
theories/ResultChunkModel.v
theories/ResultChunkProofs.v
theories/ResultChunkProofs2.v
theories/ResultChunkProofs3.v
theories/ResultChunkProofs4.v
theories/ResultChunkProofs5.v
theories/ResultChunkProofs6.v
theories/PropertiesResultChunk.v
theories/PropertiesMixture2.v
theories/NetModel.v
theories/SpecNet.v
theories/NetProofs.v
theories/NetProofs2.v
theories/PropertiesNet.v
theories/ProtoModel.v
theories/ServerModel.v
theories/SpecProto.v
theories/ProtoProofs.v
theories/ProtoProofs2.v
theories/ServerProofs.v
theories/PropertiesServer.v
theories/ClientModel.v
theories/SpecClient.v
theories/PropertiesClient.v
theories/SqlModel.v
theories/SpecSql.v
theories/SqlProofs.v
theories/SqlProofs2.v
theories/PropertiesSql.v
theories/IntervalModel.v
theories/SpecInterval.v
theories/IntervalProofs.v
theories/PropertiesInterval.v
theories/ChunkerModel.v
theories/SpecChunker.v
theories/ChunkerProofs.v
theories/ChunkerProofs2.v
theories/PropertiesChunker.v
theories/SerialModel.v
theories/SpecSerial.v
theories/SerialProofs.v
theories/SerialProofs2.v
theories/PropertiesSerial.v
theories/ReaderModel.v
theories/SpecReader.v
theories/ReaderProofs.v
theories/PropertiesReader.v
theories/ParserModel.v
theories/SpecParser.v
theories/ParserProofs.v
theories/PropertiesParser.v
theories/SpecParser2.v
theories/PropertiesParser2.v
theories/ExecutorModel.v
theories/PropertiesExecutor.v
theories/MdcModel.v
theories/SpecMdc.v
theories/MdcProofs.v
theories/PropertiesMdc.v
theories/SerialCrash.v
theories/CacheModel.v
theories/SpecCache.v
theories/CacheProofs.v
theories/PropertiesCache.v
theories/DynModel.v
theories/SpecDyn.v
theories/DynProofs.v
theories/DynProofs2.v
theories/DynProofs3.v
theories/DynProofs4.v
theories/DynProofs5.v
theories/DynProofs6.v
theories/DynProofs7.v
theories/PropertiesDyn.v
theories/PropertiesDyn2.v
theories/PropertiesDyn3.v
theories/PropertiesDyn4.v
theories/AdoFitModel.v
theories/SpecAdoFit.v
theories/AdoFitProofs.v
theories/AdoFitProofs2.v
theories/PropertiesAdoFit.v
theories/SpecAdoAvg.v
theories/AdoAvgProofs.v
theories/AdoAvgProofs2.v
theories/PropertiesAdoAvg.v
theories/AdoLogModel.v
theories/SpecAdoLog.v
theories/AdoLogProofs.v
theories/PropertiesAdoLog.v
theories/ChunkGenProofs14.v
theories/SpecCount.v
theories/PropertiesCount.v
theories/PropertiesCountExec.v
theories/ChunkGenProofs15.v
theories/SpecShare.v
theories/PropertiesShare.v
theories/PropertiesShare2.v
theories/PropertiesShareExec.v
theories/TorchModel.v
theories/SpecTorch.v
theories/TorchProofs.v
theories/TorchProofs2.v
theories/PropertiesTorch.v
theories/HandleModel.v
theories/SpecHandle.v
theories/HandleProofs.v
theories/HandleProofs2.v
theories/PropertiesHandle.v
theories/TextModel.v
theories/SpecText.v
theories/TextProofs.v
theories/PropertiesText.v
theories/HfModel.v
theories/SpecHf.v
theories/HfProofs.v
theories/PropertiesHf.v
theories/StatusModel.v
theories/SpecStatus.v
theories/PropertiesStatus.v
theories/FeedbackModel.v
theories/SpecFeedback.v
theories/FeedbackProofs.v
theories/PropertiesFeedback.v
theories/RecoverModel.v
theories/SpecRecover.v
theories/RecoverProofs.v
theories/PropertiesRecover.v
theories/PollModel.v
theories/PropertiesPoll.v
theories/FilesModel.v
theories/SpecFiles.v
theories/FilesProofs.v
theories/PropertiesFiles.v
theories/ExecModel.v
theories/SpecExec.v
theories/ExecProofs.v
theories/ExecProofs2.v
theories/PropertiesExec.v
theories/DeliverModel.v
theories/SpecDeliver.v
theories/DeliverProofs.v
theories/DeliverProofs2.v
theories/PropertiesDeliver.v
theories/ReproModel.v
theories/SpecRepro.v
theories/ReproProofs.v
theories/ReproProofs2.v
theories/ReproProofs3.v
theories/PropertiesRepro.v
theories/PropertiesDeliver2.v
theories/PropertiesDeliver3.v
theories/SchemaModel.v
theories/SpecSchema.v
theories/SchemaProofs.v
theories/SchemaProofs2.v
theories/PropertiesSchema.v
theories/AddPropModel.v
theories/PropertiesAddProp.v
theories/StartModel.v
theories/SpecStart.v
theories/StartProofs.v
theories/PropertiesStart.v
theories/ShmModel.v
theories/PropertiesShm.v
theories/ChunkGenProofs13.v
theories/SpecBalance.v
theories/PropertiesBalance.v
theories/PropertiesDeliver4.v
theories/DecodeModel.v
theories/SpecDecode.v
theories/PropertiesDecode.v
theories/MixLogModel.v
theories/SpecMixLog.v
theories/MixLogProofs.v
theories/PropertiesMixLog.v
theories/LocalModel.v
theories/SpecLocal.v
theories/LocalProofs.v
theories/PropertiesLocal.v
theories/GroupModel.v
theories/PropertiesGroup.v
theories/LocalFeedbackModel.v
theories/PropertiesLocalFeedback.v
theories/RngModel.v
theories/PropertiesRng.v
theories/JobsModel.v
theories/PropertiesJobs.v
theories/LocalWaitModel.v
theories/PropertiesLocalWait.v
theories/LoopModel.v
theories/PropertiesLoop.v
theories/CreateModel.v
theories/PropertiesCreate.v
theories/PropertiesUndo.v
theories/PropertiesSerial2.v
theories/PropertiesLoop2.v
