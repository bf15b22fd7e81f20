-Q theories Verif
theories/Base.v
theories/BaseFacts.v
theories/ModelVarint.v
theories/VarintProofs.v
theories/ModelUnion.v
theories/ModelMerge.v
theories/SpecMerge.v
theories/SpecUnion.v
theories/MergeProofs.v
theories/UnionProofs.v
theories/UnionBuild.v
theories/UnionMerge.v
theories/PropsMerge.v
theories/PropsUnion.v
theories/ModelWdns.v
theories/ModelEntry.v
theories/SpecName.v
theories/NameFacts.v
theories/SpecEntry.v
theories/EntryProofs.v
theories/PropsEntry.v
theories/ModelIter.v
theories/SpecIter.v
theories/IterProofs.v
theories/IterCount.v
theories/PropsIter.v
theories/ModelQuery.v
theories/SpecQuery.v
theories/KeyProofs.v
theories/FilterProofs.v
theories/QueryProofs.v
theories/SelectProofs.v
theories/RRsetQueries.v
theories/IndexProofs.v
theories/RightWildcard.v
theories/RdataQueries.v
theories/IpProofs.v
theories/IpQueries.v
theories/Demo.v
theories/PropsQuery.v
theories/SpecDeadline.v
theories/DeadlineProofs.v
theories/PropsDeadline.v
theories/ModelReader.v
theories/SpecReader.v
theories/PropsReader.v
theories/Str.v
theories/ModelNames.v
theories/ModelSetters.v
theories/SpecSettings.v
theories/CidrProofs.v
theories/SettingsProofs.v
theories/PropsSettings.v
theories/ModelFileset.v
theories/SpecFileset.v
theories/FilesetProofs.v
theories/FilesetQueries.v
theories/FilesetDirect.v
theories/FilesetGrouped.v
theories/FilesetUnmerged.v
theories/FilesetDemo.v
theories/PropsFileset.v
theories/ModelFormat.v
theories/SpecFormat.v
theories/SpecJson.v
theories/TextProofs.v
theories/CalendarProofs.v
theories/TimeProofs.v
theories/JsonProofs.v
theories/JsonSyntax.v
theories/PropsFormat.v
theories/SpecText.v
theories/LineProofs.v
theories/PropsText.v
theories/FuelProofs.v
theories/ModelLookup.v
theories/SpecLookup.v
theories/LookupProofs.v
theories/LookupQuery.v
theories/LookupBuild.v
theories/LookupFinds.v
theories/SpecDump.v
theories/SpecOutput.v
theories/OutputProofs.v
theories/PropsLookup.v
theories/SpecTimeArg.v
theories/TimeArgProofs.v
theories/TimeArgConverse.v
theories/SpecStats.v
theories/StatsProofs.v
theories/PropsTools.v
theories/PropsStats.v
theories/ModelVector.v
theories/SpecVector.v
theories/VectorProofs.v
theories/PropsVector.v
theories/ModelGetopt.v
theories/SpecGetopt.v
theories/PropsGetopt.v
theories/ModelArgv.v
theories/SpecArgv.v
theories/ArgvProofs.v
theories/PropsArgv.v
theories/ModelMemory.v
theories/SpecMemory.v
theories/HeapLogic.v
theories/MemoryBasics.v
theories/MemoryIters.v
theories/MemoryQuery.v
theories/MemoryQueryIter.v
theories/MemoryNext.v
theories/MemoryProofs.v
theories/EndsLogic.v
theories/MemoryEnds.v
theories/PropsMemory.v
theories/SpecAggregate.v
theories/SpecCompaction.v
theories/CompactionProofs.v
theories/PropsCompaction.v
theories/SpecPages.v
theories/PropsPages.v
theories/PropsAggregate.v
theories/SpecDecode.v
theories/DecodeProofs.v
theories/PropsDecode.v
theories/ModelErrors.v
theories/SpecErrors.v
theories/PropsErrors.v
theories/SpecMergeAny.v
theories/PropsMergeAny.v
theories/SpecIndexAny.v
theories/PropsIndexAny.v
theories/ModelScript.v
theories/SpecScript.v
theories/PropsScript.v
theories/SpecTimes.v
theories/PropsTimes.v
theories/SpecPrintable.v
theories/PropsPrintable.v
theories/SpecCounters.v
theories/PropsCounters.v
theories/SpecSound.v
theories/SoundProofs.v
theories/SoundKeys.v
theories/PropsSound.v
theories/ModelToolMemory.v
theories/SpecToolMemory.v
theories/ToolMemoryProofs.v
theories/PropsToolMemory.v
theories/SpecMemoryBound.v
theories/MemoryBoundProofs.v
theories/PropsMemoryBound.v
theories/ModelLive.v
theories/SpecLive.v
theories/LiveProofs.v
theories/CurrentProofs.v
theories/LiveOffset.v
theories/PropsLive.v
theories/HiddenProofs.v
theories/SpecHidden.v
theories/PropsHidden.v
theories/TermProofs.v
theories/TermQueries.v
theories/SpecTerm.v
theories/PropsTerm.v
theories/ResumeProofs.v
theories/ResumeNext.v
theories/ResumeCalls.v
theories/PropsResume.v
theories/SpecOrder.v
theories/OrderProofs.v
theories/OrderQueries.v
theories/PropsOrder.v
theories/SpecDumpAny.v
theories/PropsDumpAny.v
theories/PropsReaderAny.v
theories/PropsGrow.v
theories/PropsNarrow.v
theories/PropsSplit.v
theories/PropsTyped.v
theories/Assumptions.v
