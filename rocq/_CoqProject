-Q theories Verif
theories/Base.v
theories/BaseFacts.v
theories/Rng.v
theories/RngFacts.v
theories/Reservoir.v
theories/ReservoirFacts.v
theories/PackedReservoir.v
theories/PackedReservoirFacts.v
theories/Source.v
theories/Composite.v
theories/WeightedFacts.v
theories/CompositeSpec.v
theories/CompositeFacts.v
theories/CompositeSim.v
theories/Npz.v
theories/NpzSpec.v
theories/NpzFacts.v
theories/NpzRead.v
theories/NpzBuild.v
theories/NpzGlue.v
theories/NpzParts.v
theories/Sequential.v
theories/SequentialShard.v
theories/SequentialSpec.v
theories/SequentialFacts.v
theories/SequentialKeys.v
theories/SequentialGlue.v
theories/SequentialTurns.v
theories/Planner.v
theories/PlannerObs.v
theories/PlannerSpec.v
theories/PlannerDict.v
theories/PlannerSim.v
theories/PlannerSpecFacts.v
theories/PlannerRun.v
theories/PlannerResume.v
theories/PlannerDet.v
theories/PlannerFeed.v
theories/PlannerGlue.v
theories/PackedState.v
theories/PlannerPacked.v
theories/PlannerUnit.v
theories/Transactions.v
theories/TransactionsObs.v
theories/TransactionsFacts.v
theories/Prefetch.v
theories/PrefetchFacts.v
theories/Sampler.v
theories/SamplerFacts.v
theories/Prop_Rng.v
theories/Prop_Reservoir.v
theories/Prop_Composite.v
theories/Prop_Npz.v
theories/Prop_Sequential.v
theories/Prop_SequentialTurns.v
theories/Prop_Planner.v
theories/Prop_Transactions.v
theories/Prop_Prefetch.v
theories/Prop_PackedState.v
theories/Prop_Sampler.v
theories/Symmetry.v
theories/Prop_Symmetry.v
theories/Codec.v
theories/Prop_Codec.v
theories/Checkpoint.v
theories/CheckpointFacts.v
theories/Prop_Checkpoint.v
theories/CheckpointSet.v
theories/CheckpointSetFacts.v
theories/CheckpointSetInv.v
theories/CheckpointSetNames.v
theories/Prop_CheckpointSet.v
theories/AsyncWriter.v
theories/AsyncWriterFacts.v
theories/AsyncWriterSpec.v
theories/AsyncWriterInv.v
theories/AsyncWriterStep.v
theories/Prop_AsyncWriter.v
theories/Json.v
theories/JsonFacts.v
theories/StateCodec.v
theories/StateCodecSpec.v
theories/StateCodecFacts.v
theories/Prop_StateCodec.v
theories/ConfigMerge.v
theories/ConfigMergeSpec.v
theories/Metrics.v
theories/MetricsSpec.v
theories/MetricsFacts.v
theories/MetricsExact.v
theories/MetricsClose.v
theories/MetricsMore.v
theories/Prop_ConfigMerge.v
theories/Prop_Metrics.v
theories/Filter.v
theories/FilterSpec.v
theories/FilterFacts.v
theories/Prop_Filter.v
theories/LineEncoding.v
theories/LineEncodingFacts.v
theories/LineEncodingCode.v
theories/LineEncodingSpec.v
theories/LineEncodingBoard.v
theories/LineEncodingFlags.v
theories/LineEncodingOut.v
theories/Prop_LineEncoding.v
theories/Forbidden.v
theories/ForbiddenSpec.v
theories/ForbiddenFacts.v
theories/ForbiddenModel.v
theories/ForbiddenExist.v
theories/ForbiddenBoard.v
theories/ForbiddenSym.v
theories/Prop_Forbidden.v
theories/DeviceLoader.v
theories/DeviceLoaderFacts.v
theories/DeviceLoaderInv.v
theories/DeviceLoaderLive.v
theories/DeviceSlots.v
theories/Prop_DeviceLoader.v
theories/Decoder.v
theories/DecoderFacts.v
theories/DecoderRng.v
theories/DecoderSpec.v
theories/DecoderVec.v
theories/DecoderTurn.v
theories/DecoderBatch.v
theories/DecoderGroups.v
theories/DecoderPacked.v
theories/Prop_Decoder.v
theories/NpzCache.v
theories/NpzCacheSpec.v
theories/NpzCacheFacts.v
theories/NpzCacheInv.v
theories/NpzCacheTrace.v
theories/Prop_NpzCache.v
theories/FieldDigest.v
theories/FieldDigestSpec.v
theories/FieldDigestFacts.v
theories/Composer.v
theories/ComposerSpec.v
theories/ComposerFacts.v
theories/ComposerChain.v
theories/Prop_Composer.v
theories/Autotune.v
theories/Prop_Autotune.v
theories/Observed.v
theories/ObservedFacts.v
theories/Prop_Observed.v
theories/Prop_MetricsSchema.v
theories/ProfileStore.v
theories/ProfileStoreSpec.v
theories/ProfileStoreFacts.v
theories/ProfileStoreRun.v
theories/Prop_ProfileStore.v
theories/Export.v
theories/ExportSpec.v
theories/ExportFacts.v
theories/ExportMasks.v
theories/ExportFiles.v
theories/ExportTotal.v
theories/Prop_Export.v
theories/FeatureTable.v
theories/FeatureTableSpec.v
theories/FeatureTableFacts.v
theories/FeatureTableMixed.v
theories/FeatureTableEncoded.v
theories/FeatureTableStream.v
theories/Prop_FeatureTable.v
theories/DataMix.v
theories/DataMixFacts.v
theories/Prop_DataMix.v
theories/Resume.v
theories/Prop_Resume.v
theories/Collective.v
theories/CollectiveSpec.v
theories/CollectiveFacts.v
theories/Prop_Collective.v
theories/Prop_CollectiveEval.v
theories/Prop_CollectiveHang.v
theories/TrainLoop.v
theories/TrainLoopSpec.v
theories/TrainLoopFacts.v
theories/Prop_TrainLoop.v
theories/Prop_TrainMetrics.v
theories/Katago.v
theories/KatagoSpec.v
theories/KatagoFacts.v
theories/Prop_Katago.v
theories/Prop_KatagoProcessed.v
theories/AdamW.v
theories/AdamWSpec.v
theories/AdamWFacts.v
theories/AdamWRun.v
theories/AdamWPlan.v
theories/AdamWStep.v
theories/Prop_AdamW.v
theories/AdamWRing.v
theories/Prop_AdamWRing.v
theories/Chained.v
theories/ChainedSpec.v
theories/ChainedFacts.v
theories/ChainedInv.v
theories/ChainedNew.v
theories/ChainedSave.v
theories/Prop_Chained.v
theories/Loss.v
theories/LossSpec.v
theories/LossFacts.v
theories/LossTerms.v
theories/LossWhole.v
theories/LossMore.v
theories/Prop_Loss.v
theories/FlatNet.v
theories/FlatNetSpec.v
theories/FlatNetFacts.v
theories/FlatNetTables.v
theories/FlatNetFile.v
theories/FlatNetWhole.v
theories/FlatNetV4.v
theories/FlatNetV2.v
theories/FlatNetV3.v
theories/FlatNetMore.v
theories/FlatNetLadder.v
theories/Prop_FlatNet.v
theories/Vq.v
theories/VqSpec.v
theories/VqFacts.v
theories/VqExpire.v
theories/VqStep.v
theories/VqInit.v
theories/Prop_Vq.v
theories/QuantHead.v
theories/QuantHeadSpec.v
theories/QuantHeadFacts.v
theories/QuantHeadWhole.v
theories/QuantHeadRegions.v
theories/QuantHeadBits.v
theories/Prop_QuantHead.v
