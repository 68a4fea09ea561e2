-Q theories Verif
theories/Base.v
theories/RateLimiter.v
theories/SelList.v
theories/SelUniform.v
theories/SelHeap.v
theories/SelHeapProofs.v
theories/SelPrio.v
theories/SelPrioProofs.v
theories/SelPrioExact.v
theories/Selector.v
theories/Trajectory.v
theories/Table.v
theories/Checkpoint.v
theories/LoadFull.v
theories/EventLog.v
theories/TableProofs.v
theories/TableLog.v
theories/SelSpec.v
theories/PropSelectors.v
theories/TableSpec.v
theories/LogFacts.v
theories/PropTable.v
theories/TableSim.v
theories/SelAlike.v
theories/PropReset.v
theories/CheckpointProofs.v
theories/PropCheckpoint.v
theories/CkptDir.v
theories/PropSave.v
theories/Queue.v
theories/PropBoundedQueue.v
theories/ChunkStore.v
theories/PropChunkStore.v
theories/EventHistory.v
theories/PropEvents.v
theories/Executor.v
theories/PropExecutor.v
theories/ChunkerOptions.v
theories/Timeouts.v
theories/PropOptions.v
theories/Signature.v
theories/PropSignature.v
theories/Tensor.v
theories/PropDelta.v
theories/TrajUtil.v
theories/PropTraj.v
theories/Sample.v
theories/PropSample.v
theories/Sampler.v
theories/PropSampler.v
theories/Stream.v
theories/PropStream.v
theories/Reactor.v
theories/PropReactor.v
theories/PropInsertStream.v
theories/PyConfig.v
theories/PropLimiter.v
theories/PropQueue.v
theories/PropReject.v
theories/Chunker.v
theories/PropChunker.v
theories/TrajWriter.v
theories/TrajWriterProofs.v
theories/PropTrajWriter.v
theories/Writer.v
theories/WriterProofs.v
theories/WriterConf.v
theories/WriterData.v
theories/WriterPlace.v
theories/WriterOwn.v
theories/WriterTrace.v
theories/PropWriter.v
theories/PropChunkKeys.v
theories/TableWorker.v
theories/TableWorkerProofs.v
theories/TableWorkerSerial.v
theories/PropTableWorker.v
theories/LimiterWait.v
theories/PropLimiterWait.v
theories/ExtWorker.v
theories/PropExtWorker.v
theories/PyWriter.v
theories/PyWriterProofs.v
theories/PropPyWriter.v
theories/Service.v
theories/PropService.v
theories/SigCheck.v
theories/PropSigCheck.v
theories/Dataset.v
theories/PropDataset.v
theories/Handshake.v
theories/PropHandshake.v
theories/PropOrder.v
theories/PropSystem.v
theories/PyClient.v
theories/PropClose.v
theories/PropInsert.v
theories/PropClientSample.v
theories/PropUnpack.v
theories/Closure.v
theories/PropClosure.v
theories/MutateRpc.v
theories/PropMutate.v
theories/PropSystemAll.v
theories/SaveConc.v
theories/PropSaveConc.v
theories/PropRestart.v
theories/PropLoad.v
theories/PyTraj.v
theories/PyTrajProofs.v
theories/PyTrajInv.v
theories/PropPyTraj.v
theories/PropPySystem.v
theories/Delivery.v
theories/PropDelivery.v
theories/PropDeliveryTable.v
theories/PyTree.v
theories/PropPyTree.v
theories/PyDataset.v
theories/PropPyDataset.v
theories/PropPipeline.v
theories/TaskWorker.v
theories/PropTaskWorker.v
theories/PropSentOnce.v
theories/Snappy.v
theories/PropSnappy.v
theories/PyArray.v
theories/PropPyArray.v
theories/AppendSeq.v
theories/PropAppendSeq.v
theories/TfSample.v
theories/PropTfSample.v
theories/PropSampleExact.v
theories/TableAsk.v
theories/PropTableAsk.v
theories/Assembly.v
theories/PropAssembly.v
theories/PyErrors.v
theories/PropPyErrors.v
theories/ServerTables.v
theories/PropServerTables.v
theories/WithBlock.v
theories/PropWithBlock.v
theories/WriterClose.v
theories/PropWriterClose.v
theories/Net.v
theories/PropNet.v
theories/TfVersion.v
theories/PropTfVersion.v
theories/PropPyCols.v
