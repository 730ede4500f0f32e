-Q theories Verif
theories/Base/Bytes.v
theories/Model/Endian.v
theories/Model/Varint.v
theories/Spec/VarintSpec.v
theories/Proof/EndianProof.v
theories/Proof/VarintProof.v
theories/Model/OrderedVarint.v
theories/Spec/OrderedVarintSpec.v
theories/Proof/OrderedVarintProof.v
theories/Proof/CodecLemmas.v
theories/Model/RecordPosition.v
theories/Spec/RecordPositionSpec.v
theories/Proof/RecordPositionProof.v
theories/Props/PositionProps.v
theories/Model/RecordWriter.v
theories/Model/RecordReader.v
theories/Spec/CursorSpec.v
theories/Spec/CursorLink.v
theories/Spec/ReadSpec.v
theories/Proof/RecordReaderProof.v
theories/Spec/SessionSpec.v
theories/Proof/RecordWriterProof.v
theories/Proof/SeqReadProof.v
theories/Proof/SessionProof.v
theories/Proof/RecordLemmas.v
theories/Props/RecordProps.v
theories/Props/CodecProps.v
theories/Model/Block.v
theories/Model/Chunk.v
theories/Spec/BlockSpec.v
theories/Proof/BlockProof.v
theories/Model/ChunkWriter.v
theories/Model/ChunkReader.v
theories/Proof/ChunkWriterProof.v
theories/Spec/FileSpec.v
theories/Proof/ChunkReaderProof.v
theories/Spec/ChunkLink.v
theories/Proof/FileProof.v
theories/Proof/StaticRead.v
theories/Spec/RecoverSpec.v
theories/Proof/AnyRead.v
theories/Proof/RecoverProof.v
theories/Proof/LocalProof.v
theories/Spec/SeekSpec.v
theories/Proof/SeekProof.v
theories/Proof/HangProof.v
theories/Proof/RecoverLemmas.v
theories/Props/RecoverProps.v
theories/Proof/ChunkPropsLemmas.v
theories/Props/ChunkProps.v
theories/Model/SimpleChunk.v
theories/Model/ChunkDecoder.v
theories/Spec/RecordsSpec.v
theories/Spec/SimpleLink.v
theories/Proof/SimpleChunkProof.v
theories/Proof/DecoderProof.v
theories/Props/SimpleProps.v
theories/Model/BinarySearch.v
theories/Spec/BinarySearchSpec.v
theories/Proof/BinarySearchProof.v
theories/Model/RecordSearch.v
theories/Proof/SearchProof.v
theories/Proof/SearchLemmas.v
theories/Props/SearchProps.v
theories/Model/ParallelWriter.v
theories/Proof/ParallelProof.v
theories/Proof/ParallelLive.v
theories/Spec/ParallelSpec.v
theories/Proof/ParallelSim.v
theories/Proof/ParallelCalls.v
theories/Proof/ParallelLemmas.v
theories/Props/ParallelProps.v
theories/Model/StringSet.v
theories/Spec/StringSetSpec.v
theories/Spec/StringSetCalls.v
theories/Proof/CommonPrefixProof.v
theories/Proof/StringSetProof.v
theories/Proof/StringSetQuery.v
theories/Proof/StringSetBuild.v
theories/Proof/StringSetDecode.v
theories/Props/StringSetProps.v
theories/Model/ChunkedStringSet.v
theories/Spec/ChunkedStringSetSpec.v
theories/Proof/ChunkedSetProof.v
theories/Proof/ChunkedSetContains.v
theories/Proof/ChunkedSetBuild.v
theories/Proof/ChunkedSetDecode.v
theories/Props/ChunkedSetProps.v
theories/Model/BufferSizer.v
theories/Model/ByteFill.v
theories/Model/BufferedSource.v
theories/Model/Lines.v
theories/Spec/LineSpec.v
theories/Proof/SourceProof.v
theories/Proof/LinesProof.v
theories/Proof/TextProof.v
theories/Props/LinesProps.v
theories/Model/Csv.v
theories/Spec/CsvSpec.v
theories/Proof/CsvPure.v
theories/Proof/CsvLockstep.v
theories/Proof/CsvGrammar.v
theories/Proof/CsvWriterProof.v
theories/Proof/CsvProof.v
theories/Props/CsvProps.v
theories/Model/Object.v
theories/Spec/ObjectSpec.v
theories/Proof/ObjectProof.v
theories/Props/ObjectProps.v
theories/Spec/PosixFile.v
theories/Model/BufferedWriter.v
theories/Proof/ByteFillProof.v
theories/Props/ByteFillProps.v
theories/Proof/PosixProof.v
theories/Proof/BufferSizerProof.v
theories/Proof/WriterLemmas.v
theories/Proof/WriterSteps.v
theories/Proof/WriterCalls.v
theories/Proof/WriterDead.v
theories/Proof/WriterSeeks.v
theories/Proof/WriterMore.v
theories/Spec/BufferedWriterSpec.v
theories/Proof/WriterOpen.v
theories/Proof/WriterRun.v
theories/Props/BufferedWriterProps.v
theories/Model/TransposeEncoder.v
theories/Model/TransposeDecoder.v
theories/Proof/TransposeColumns.v
theories/Proof/TransposeMessages.v
theories/Proof/TransposePath.v
theories/Proof/TransposeLoops.v
theories/Proof/TransposeBuffers.v
theories/Proof/TransposeStates.v
theories/Proof/TransposeFill.v
theories/Proof/TransposeList.v
theories/Proof/TransposeCollect.v
theories/Proof/TransposePrivate.v
theories/Proof/TransposePublic.v
theories/Proof/TransposeCreate.v
theories/Proof/TransposeMachine.v
theories/Proof/TransposeRound.v
theories/Proof/TransposeLimits.v
theories/Model/RecordTranspose.v
theories/Proof/TransposeSize.v
theories/Props/TransposeProps.v
theories/Proof/TransposeFuel.v
theories/Props/TransposeDecodeProps.v
theories/Model/RecordRecovery.v
theories/Spec/RecordRecoverSpec.v
theories/Proof/RecordRecoverProof.v
theories/Proof/RecordLocalProof.v
theories/Props/RecordRecoverProps.v
theories/Props/TransposedFileProps.v
theories/Model/RecordMetadata.v
theories/Proof/MetadataProof.v
theories/Props/MetadataProps.v
theories/Model/BufferedReader.v
theories/Model/LimitingReader.v
theories/Spec/BufferedReaderSpec.v
theories/Spec/LimitingReaderSpec.v
theories/Proof/ReaderLemmas.v
theories/Proof/ReaderSteps.v
theories/Proof/ReaderSeeks.v
theories/Proof/ReaderRun.v
theories/Proof/ReaderProof.v
theories/Proof/LimitingLemmas.v
theories/Proof/LimitingSteps.v
theories/Proof/LimitingSeeks.v
theories/Proof/LimitingRun.v
theories/Proof/LimitingOptions.v
theories/Proof/LimitingProof.v
theories/Props/LimitingReaderProps.v
theories/Props/BufferedReaderProps.v
theories/Model/LimitingWriter.v
theories/Spec/LimitingWriterSpec.v
theories/Proof/WriterKeep.v
theories/Proof/LimWriterLemmas.v
theories/Proof/LimWriterRel.v
theories/Proof/LimWriterCalls.v
theories/Proof/LimWriterMore.v
theories/Proof/LimWriterOther.v
theories/Proof/LimWriterRest.v
theories/Proof/LimWriterRun.v
theories/Proof/LimWriterHistory.v
theories/Proof/LimWriterPlain.v
theories/Props/LimitingWriterProps.v
theories/Model/Chain.v
theories/Model/ChainWorld.v
theories/Spec/ChainSpec.v
theories/Proof/ChainHeap.v
theories/Proof/ChainSteps.v
theories/Proof/ChainAppend.v
theories/Proof/ChainAppendChain.v
theories/Proof/ChainRaw.v
theories/Proof/ChainPrepend.v
theories/Proof/ChainPrependChain.v
theories/Proof/ChainRemove.v
theories/Proof/ChainRest.v
theories/Proof/ChainQuery.v
theories/Proof/ChainWorldProof.v
theories/Props/ChainProps.v
theories/Model/CompactString.v
theories/Spec/CompactStringSpec.v
theories/Proof/CompactStringBase.v
theories/Proof/CompactStringOps.v
theories/Proof/CompactStringWorld.v
theories/Props/CompactStringProps.v
theories/Model/WriteInt.v
theories/Spec/WriteIntSpec.v
theories/Proof/WriteIntProof.v
theories/Proof/WriteIntDec.v
theories/Proof/WriteIntHex.v
theories/Proof/WriteIntTypes.v
theories/Props/WriteIntProps.v
theories/Model/Cleaner.v
theories/Spec/CleanerSpec.v
theories/Proof/CleanerList.v
theories/Proof/CleanerProof.v
theories/Proof/CleanerThread.v
theories/Proof/CleanerLive.v
theories/Props/CleanerProps.v
theories/Model/Arithmetic.v
theories/Spec/ArithmeticSpec.v
theories/Proof/ArithmeticProof.v
theories/Props/ArithmeticProps.v
