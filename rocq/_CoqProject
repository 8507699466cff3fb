-Q theories Verif
theories/Exec/TaskStateModel.v
theories/Exec/TaskStateSpec.v
theories/Exec/TaskStateProofs.v
theories/Exec/TaskStateProps.v
theories/Lib/ListFacts.v
theories/Exec/GraphModel.v
theories/Exec/GraphSpec.v
theories/Exec/GraphProofs.v
theories/Exec/GraphProps.v
theories/Exec/JobModel.v
theories/Exec/JobSpec.v
theories/Exec/JobProofs.v
theories/Exec/JobInvariants.v
theories/Exec/JobTheorems.v
theories/Exec/HandoverProofs.v
theories/Exec/JobProps.v
theories/Exec/ExchangeModel.v
theories/Exec/ExchangeSpec.v
theories/Exec/ExchangeProofs.v
theories/Exec/ExchangeProps.v
theories/Exec/RoundRobinModel.v
theories/Exec/RoundRobinSpec.v
theories/Exec/IdModel.v
theories/Exec/IdProofs.v
theories/Exec/IdProps.v
theories/Exec/RoundRobinProofs.v
theories/Exec/RoundRobinProps.v
theories/Exec/LocalStreamModel.v
theories/Exec/LocalStreamSpec.v
theories/Exec/LocalStreamProofs.v
theories/Exec/LocalStreamProps.v
theories/Exec/AssignerModel.v
theories/Exec/AssignerSpec.v
theories/Exec/AssignerProofs.v
theories/Exec/AssignerInvariant.v
theories/Exec/AssignerTheorems.v
theories/Exec/PoolProofs.v
theories/Exec/AssignerProps.v
theories/Exec/JobOutputModel.v
theories/Exec/JobOutputSpec.v
theories/Exec/JobOutputProofs.v
theories/Exec/JobOutputProps.v
theories/Lib/Text.v
theories/Delta/DvModel.v
theories/Delta/DvProofs.v
theories/Delta/DvProps.v
theories/Delta/LogNameModel.v
theories/Delta/LogNameSpec.v
theories/Delta/LogNameProofs.v
theories/Delta/LogNameProps.v
theories/Lib/Sort.v
theories/Delta/ActionModel.v
theories/Delta/LogModel.v
theories/Delta/ReplaySpec.v
theories/Delta/ReplayProofs.v
theories/Delta/CompactSpec.v
theories/Delta/CompactProofs.v
theories/Delta/SegmentSpec.v
theories/Delta/SegmentProofs.v
theories/Delta/LoadProofs.v
theories/Delta/LogStepModel.v
theories/Delta/LogStepSpec.v
theories/Delta/LogStepProofs.v
theories/Delta/LoadTheorems.v
theories/Delta/CleanupSpec.v
theories/Delta/CleanupProofs.v
theories/Delta/CommitModel.v
theories/Delta/CommitSpec.v
theories/Delta/ConflictProofs.v
theories/Delta/CommitProofs.v
theories/Delta/CommitTheorems.v
theories/Delta/CommitTimes.v
theories/Delta/CommitProps.v
theories/Delta/TravelModel.v
theories/Delta/TravelSpec.v
theories/Delta/TravelProofs.v
theories/Delta/TravelProps.v
theories/Delta/ChecksumModel.v
theories/Delta/ChecksumSpec.v
theories/Delta/ChecksumProofs.v
theories/Delta/ChecksumProps.v
theories/Delta/ReplayProps.v
theories/Delta/CompactProps.v
theories/Delta/SegmentProps.v
theories/Delta/CleanupProps.v
theories/Iceberg/ValueModel.v
theories/Iceberg/DeleteModel.v
theories/Iceberg/DeleteSpec.v
theories/Iceberg/DeleteProofs.v
theories/Iceberg/DeleteProps.v
theories/Iceberg/TransformModel.v
theories/Iceberg/TransformSpec.v
theories/Iceberg/TransformProofs.v
theories/Iceberg/TransformProps.v
theories/Iceberg/PruneModel.v
theories/Iceberg/PruneSpec.v
theories/Iceberg/PruneProofs.v
theories/Iceberg/PruneProps.v
theories/Iceberg/SnapshotModel.v
theories/Iceberg/SnapshotSpec.v
theories/Iceberg/SnapshotProofs.v
theories/Iceberg/SnapshotProps.v
theories/Iceberg/CommitModel.v
theories/Iceberg/CommitSpec.v
theories/Iceberg/CommitProofs.v
theories/Iceberg/CommitProps.v
theories/Connect/ExecutorModel.v
theories/Connect/ExecutorSpec.v
theories/Connect/ExecutorProofs.v
theories/Connect/ExecutorProps.v
theories/Connect/ConfigModel.v
theories/Connect/ConfigSpec.v
theories/Connect/ConfigProofs.v
theories/Connect/ConfigProps.v
theories/Catalog/MemoryModel.v
theories/Catalog/MemorySpec.v
theories/Catalog/MemoryProofs.v
theories/Catalog/MemoryProps.v
theories/Catalog/CacheModel.v
theories/Catalog/CacheSpec.v
theories/Catalog/CacheProofs.v
theories/Catalog/CacheProps.v
theories/Catalog/QuoteModel.v
theories/Catalog/ManagerModel.v
theories/Catalog/ManagerSpec.v
theories/Catalog/ManagerProofs.v
theories/Catalog/ManagerProps.v
theories/Sql/LexModel.v
theories/Sql/LexSpec.v
theories/Sql/LexProofs.v
theories/Sql/NameProofs.v
theories/Sql/MarkerProofs.v
theories/Sql/EscapeProofs.v
theories/Sql/LexProps.v
theories/Sql/LikeModel.v
theories/Sql/LikeSpec.v
theories/Sql/LikeProofs.v
theories/Sql/LikeProps.v
theories/Merge/MergeModel.v
theories/Merge/MergeSpec.v
theories/Merge/MergeProofs.v
theories/Merge/MergeResultProofs.v
theories/Merge/MergeFinalProofs.v
theories/Merge/MergeUniqueModel.v
theories/Merge/MergeUniqueSpec.v
theories/Merge/MergeUniqueProofs.v
theories/Merge/MergeProps.v
theories/Plan/RangeModel.v
theories/Plan/RangeSpec.v
theories/Plan/RangeProofs.v
theories/Plan/CoalesceModel.v
theories/Plan/CoalesceSpec.v
theories/Plan/CoalesceProofs.v
theories/Plan/MonotonicIdModel.v
theories/Plan/MonotonicIdSpec.v
theories/Plan/MonotonicIdProofs.v
theories/Plan/CardinalityModel.v
theories/Plan/CardinalitySpec.v
theories/Plan/CardinalityProofs.v
theories/Plan/RoundRobinModel.v
theories/Plan/RoundRobinSpec.v
theories/Plan/RoundRobinProofs.v
theories/Plan/RoundRobinLiveProofs.v
theories/Plan/RoundRobinProps.v
theories/Plan/PlanProps.v
theories/Streaming/FlowModel.v
theories/Streaming/FlowSpec.v
theories/Streaming/FlowProofs.v
theories/Streaming/FlowProps.v
theories/Session/SessionModel.v
theories/Session/SessionSpec.v
theories/Session/SessionProofs.v
theories/Session/SessionProps.v
theories/Checkpoint/CheckpointModel.v
theories/Checkpoint/CheckpointSpec.v
theories/Checkpoint/CheckpointProofs.v
theories/Checkpoint/CheckpointRunProofs.v
theories/Checkpoint/CheckpointSessionProofs.v
theories/Checkpoint/CheckpointProps.v
theories/Literal/NumberModel.v
theories/Literal/NumberSpec.v
theories/Literal/NumberProofs.v
theories/Literal/NumberLexProofs.v
theories/Literal/NumberValueProofs.v
theories/Literal/NumberProps.v
theories/Literal/IntervalModel.v
theories/Literal/IntervalSpec.v
theories/Literal/IntervalProofs.v
theories/Literal/IntervalLex.v
theories/Literal/IntervalShow.v
theories/Literal/IntervalDisplay.v
theories/Literal/IntervalMulti.v
theories/Literal/IntervalCalendar.v
theories/Literal/IntervalCalendarBack.v
theories/Literal/IntervalProps.v
theories/Celeborn/ShuffleModel.v
theories/Celeborn/ShuffleSpec.v
theories/Celeborn/ShuffleProofs.v
theories/Celeborn/ShuffleReadable.v
theories/Celeborn/CelebornProps.v
theories/Celeborn/FrameModel.v
theories/Celeborn/FrameSpec.v
theories/Celeborn/FrameProofs.v
theories/Celeborn/FrameProps.v
theories/Optimizer/ReorderModel.v
theories/Optimizer/ReorderSpec.v
theories/Optimizer/ReorderProofs.v
theories/Optimizer/ReorderJoinProofs.v
theories/Optimizer/ReorderBuildProofs.v
theories/Optimizer/ReorderVisitProofs.v
theories/Optimizer/ReorderRebuildProofs.v
theories/Optimizer/ReorderProps.v
theories/Functions/IntModel.v
theories/Functions/WindowModel.v
theories/Functions/WindowSpec.v
theories/Functions/WindowProofs.v
theories/Functions/WindowProps.v
theories/Functions/MapModel.v
theories/Functions/MapSpec.v
theories/Functions/MapProofs.v
theories/Functions/MapRowProofs.v
theories/Functions/MapProps.v
theories/Functions/SequenceModel.v
theories/Functions/SequenceSpec.v
theories/Functions/SequenceProofs.v
theories/Functions/SequenceProps.v
theories/Functions/CeilModel.v
theories/Functions/CeilSpec.v
theories/Functions/CeilProofs.v
theories/Functions/CeilProps.v
theories/Functions/PreimageModel.v
theories/Functions/PreimageSpec.v
theories/Functions/PreimageProofs.v
theories/Functions/PreimageProps.v
theories/Source/Utf8Spec.v
theories/Source/LossyModel.v
theories/Source/LossyProofs.v
theories/Source/LossyProps.v
theories/Source/TextSpec.v
theories/Source/TextModel.v
theories/Source/TextProofs.v
theories/Source/TextRangeProofs.v
theories/Source/TextProps.v
theories/Datetime/CalendarModel.v
theories/Datetime/CalendarSpec.v
theories/Datetime/CalendarProofs.v
theories/Datetime/DatetimeModel.v
theories/Datetime/DatetimeSpec.v
theories/Datetime/DatetimeProofs.v
theories/Datetime/DatetimeProps.v
theories/Datetime/DateFunModel.v
theories/Datetime/DateFunProps.v
theories/Barrier/BarrierModel.v
theories/Barrier/BarrierProps.v
theories/Functions/RadixModel.v
theories/Functions/RadixProps.v
theories/Functions/ArrayModel.v
theories/Functions/ArrayProps.v
theories/Functions/SplitModel.v
theories/Functions/SplitProps.v
theories/Retry/RetryModel.v
theories/Retry/RetryProps.v
theories/Aggregate/AggregateModel.v
theories/Aggregate/AggregateProps.v
