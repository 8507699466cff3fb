{"id": "C01", "title": "Task status is monotone and terminal states stick", "statement": "However status reports for a task attempt are delayed, duplicated or reordered, the status the driver shows never moves backwards (created, scheduled, running, finished), and once it shows succeeded, failed or canceled it never changes again.", "quantifier": "every sequence of status reports for one task attempt, in any order, with any repetition", "why_tests_cant": "reports race across worker, network and driver; the number of interleavings is unbounded", "anchors": ["crates/sail-execution/src/driver/job_scheduler/state.rs: TaskState::consolidate, TaskState::is_terminal", "crates/sail-execution/src/driver/job_scheduler/core.rs: JobScheduler::update_task"]}
{"id": "C02", "title": "A task is attempted at most the configured maximum number of times", "statement": "For every job, no task ever gets more attempts than the configured maximum number of attempts, and a task whose last permitted attempt failed makes the job fail rather than hang or retry.", "quantifier": "every job graph, every sequence of task reports, refreshes and job clean-ups, every configured maximum >= 1", "why_tests_cant": "requires induction over unbounded histories of failures, cascaded cancellations and refreshes", "anchors": ["crates/sail-execution/src/driver/job_scheduler/core.rs: schedule_task_regions, update_task_regions, refresh_job, cascade_cancel_task_attempts"]}
{"id": "C03", "title": "Downstream tasks start only after their blocking inputs succeeded", "statement": "A task is only ever launched when every task of every region it depends on has succeeded in its latest attempt, so a blocking exchange is never read before it is complete.", "quantifier": "every job graph and every history of reports and refreshes", "why_tests_cant": "the schedule that would violate it depends on failure timing across stages", "anchors": ["crates/sail-execution/src/driver/job_scheduler/core.rs: schedule_task_regions", "crates/sail-execution/src/driver/job_scheduler/topology.rs: JobTopology::try_new"]}
{"id": "C04", "title": "At most one live attempt per task", "statement": "At any time at most one attempt of a task is in a non-terminal state, and it is the newest attempt; a new attempt is created only when all attempts of the task's region have ended.", "quantifier": "every job graph and history of events", "why_tests_cant": "duplicate execution only shows up under particular interleavings of failure, cancel and retry", "anchors": ["crates/sail-execution/src/driver/job_scheduler/core.rs: schedule_task_regions, cascade_cancel_task_attempts, update_task"]}
{"id": "C05", "title": "A job is reported finished only when every task succeeded, failed only when a task ran out of attempts", "statement": "The scheduler moves a running job to draining/succeeded only if the latest attempt of every task of every stage succeeded, and to failed only if some task used up its attempts with the latest one failed or canceled.", "quantifier": "every job graph, history and configured maximum", "why_tests_cant": "must hold in all reachable states, including ones reached by partial failures", "anchors": ["crates/sail-execution/src/driver/job_scheduler/core.rs: refresh_job, update_task_regions"]}
{"id": "C06", "title": "Intermediate data is removed only when nobody can need it", "statement": "While a job is running, the scheduler asks for the removal of a stage's shuffle data only after every task of every consuming stage has succeeded, and asks at most once per stage.", "quantifier": "every job graph and history of events", "why_tests_cant": "early removal shows only if a consumer is retried after the removal", "anchors": ["crates/sail-execution/src/driver/job_scheduler/core.rs: clean_up_job_by_stage"]}
{"id": "C07", "title": "Every task belongs to exactly one scheduling region and pipelined stages share it", "statement": "For every job graph the regions computed by the driver partition the set of all tasks; two stages connected by a pipelined exchange are in the same region (partition by partition when all the exchanges are one-to-one); every blocking input of a task is a declared dependency of its region.", "quantifier": "every acyclic job graph with any number of stages, partitions and input modes", "why_tests_cant": "graph-shaped input, unbounded size", "anchors": ["crates/sail-execution/src/driver/job_scheduler/topology.rs: JobTopology::try_new"]}
{"id": "C08", "title": "Exchange routing delivers every output channel to the right consumer exactly once", "statement": "For each exchange mode the set of (producer partition, channel) streams read by the consumer partitions is exactly what the mode promises: forward reads its own partition, merge reads all, shuffle sends channel c of every producer to consumer c, broadcast gives everything to everyone, rescale splits the producers into contiguous blocks so that each producer is read by exactly one consumer.", "quantifier": "every number of producer partitions, channels and consumer partitions", "why_tests_cant": "an off-by-one in the block arithmetic appears only for particular ratios", "anchors": ["crates/sail-execution/src/driver/job_scheduler/core.rs: build_task_input_keys", "crates/sail-execution/src/job_graph/mod.rs: InputMode"]}
{"id": "C09", "title": "A worker task slot is never double-booked", "statement": "After any history of worker arrivals and losses, enqueueing, assignment and completion, every task slot hosts at most one task set at a time, task sets are only placed on slots that were vacant on active workers, and the bookkeeping of which task runs where agrees with slot contents.", "quantifier": "every history of assigner operations", "why_tests_cant": "requires an invariant over unbounded histories", "anchors": ["crates/sail-execution/src/driver/task_assigner/core.rs: assign_tasks, TaskSlotAssigner", "crates/sail-execution/src/driver/task_assigner/state.rs"]}
{"id": "C10", "title": "Regions are launched all-or-nothing in arrival order", "statement": "Each call that assigns tasks launches a prefix of the queue of waiting regions in arrival order; a region is launched completely or not at all, and the regions that do not fit stay queued in the same order.", "quantifier": "every queue content and every set of free slots", "why_tests_cant": "depends on the ratio of region sizes to free slots", "anchors": ["crates/sail-execution/src/driver/task_assigner/core.rs: assign_tasks, try_assign_task_region"]}
{"id": "C11", "title": "The configured maximum number of workers is respected", "statement": "When a maximum worker count is configured, the number of workers that are running or requested never exceeds it.", "quantifier": "every configuration and every history of demand, activation, failure and loss", "why_tests_cant": "interleavings of start-up, activation and demand are unbounded", "anchors": ["crates/sail-execution/src/driver/task_assigner/core.rs: request_workers, activate_worker", "crates/sail-execution/src/driver/actor/handler.rs: handle_activate, scale_up_workers"]}
{"id": "C12", "title": "Row round-robin repartitioning neither loses nor duplicates rows and is balanced", "statement": "Repartitioning a stream of batches row by row sends every row to exactly one output partition, keeps the relative order inside each partition, continues the rotation across batches, and partition sizes differ by at most one.", "quantifier": "every number of partitions, every split of rows into batches, every input partition index", "why_tests_cant": "batch boundaries and starting offsets are unbounded", "anchors": ["crates/sail-physical-plan/src/repartition.rs: RowRoundRobinPartitioner"]}
{"id": "C13", "title": "Job results contain each task's output exactly once", "statement": "The rows a client receives for a job are exactly the rows of one successful attempt of every task of the final stage, with nothing duplicated and nothing lost, even when attempts fail and are retried.", "quantifier": "every interleaving of stream arrival, stream end, failure and retry", "why_tests_cant": "only a failure after the first rows were delivered exposes it", "anchors": ["crates/sail-execution/src/driver/output.rs: JobOutputStream, TaskStreamWrapper::conflicts_with", "crates/sail-execution/src/driver/job_scheduler/core.rs: extend_job_output"]}
{"id": "C14", "title": "In-memory shuffle streams deliver every batch in order to every subscriber", "statement": "Every consumer that subscribes to a local task stream receives exactly the batches published, in publication order, followed by end of stream, no matter when it subscribes, up to the declared number of consumers.", "quantifier": "every sequence of publish, subscribe and close events and every replica count", "why_tests_cant": "subscriber timing relative to the producer is unbounded", "anchors": ["crates/sail-execution/src/stream/local/memory.rs", "crates/sail-execution/src/stream/local/core.rs", "crates/sail-execution/src/job_graph/mod.rs: replicas"]}
{"id": "C15", "title": "Identifiers are never reused", "statement": "Job, task and worker identifiers handed out by one driver are pairwise distinct and strictly increasing; running out of identifiers is reported as an error instead of wrapping around.", "quantifier": "every number of requests", "why_tests_cant": "wrap-around needs 2^64 requests", "anchors": ["crates/sail-execution/src/id.rs: IdGenerator"]}
{"id": "C16", "title": "Delta table versions are contiguous and each version is written once", "statement": "Under any interleaving of any number of concurrent writers (including writers that crash at any point), every version of a Delta table is created by exactly one commit, never modified afterwards, and the set of versions is an initial segment 0..n.", "quantifier": "every number of writers, every interleaving of their listing, checking and writing steps, every crash point", "why_tests_cant": "needs all interleavings of the optimistic commit loop", "anchors": ["crates/sail-delta-lake/src/transaction/mod.rs: PreparedCommit::into_future", "crates/sail-delta-lake/src/delta_log/store.rs: write_commit_entry"]}
{"id": "C17", "title": "No lost updates in Delta commits", "statement": "A commit that read the table at version r and is not a blind append succeeds only as version r+1; a blind append that succeeds at a later version has been checked against every commit in between, and none of those changed the protocol or the metadata it relied on.", "quantifier": "every interleaving of concurrent commits and retries", "why_tests_cant": "needs all interleavings and all contents of the winning commits", "anchors": ["crates/sail-delta-lake/src/transaction/mod.rs: PreparedCommit::into_future", "crates/sail-delta-lake/src/transaction/conflict_checker.rs: ConflictChecker"]}
{"id": "C18", "title": "Delta conflict rules protect readers under serializable isolation", "statement": "If the conflict check passes, then no winning commit changed protocol or metadata, no winning commit removed a file that this transaction read or removes, no winning commit added a file matching what this transaction read (when the isolation level forbids it), and no winning commit used the same application transaction id.", "quantifier": "every transaction and every winning commit", "why_tests_cant": "the space of action combinations is unbounded", "anchors": ["crates/sail-delta-lake/src/transaction/conflict_checker.rs"]}
{"id": "C19", "title": "Reading a Delta table through a checkpoint gives the same table as replaying the whole log", "statement": "For every log and every checkpoint version, loading the checkpoint and replaying the commits after it yields the same protocol, metadata, set of live files, application transactions and domain metadata as replaying all commits from version 0 (up to expired tombstones and expired transactions).", "quantifier": "every sequence of commits, every checkpoint version, every retention cut-off", "why_tests_cant": "equivalence over unbounded logs", "anchors": ["crates/sail-delta-lake/src/checkpoint/mod.rs: ReconciledCheckpointState", "crates/sail-delta-lake/src/delta_log/replay.rs"]}
{"id": "C20", "title": "Reading a Delta table through compacted log files gives the same table", "statement": "Replacing any run of commits by the compacted file written for it does not change the live files, metadata, transactions or domain metadata seen by readers.", "quantifier": "every log, every compaction range, every retention setting", "why_tests_cant": "equivalence over unbounded logs and times", "anchors": ["crates/sail-delta-lake/src/checkpoint/mod.rs: create_log_compaction_for, build_replay_sequence", "crates/sail-delta-lake/src/delta_log/segment.rs: resolve_compactions"]}
{"id": "C21", "title": "Delta log segment resolution covers each version exactly once", "statement": "Whatever commit files, compacted files and checkpoints a listing returns, the chosen checkpoint, compactions and commits together cover every version up to the requested one exactly once, in order; if they cannot, loading fails instead of returning a partial table.", "quantifier": "every listing result", "why_tests_cant": "gaps and overlaps are combinatorial", "anchors": ["crates/sail-delta-lake/src/delta_log/segment.rs: resolve_compactions, validate_commit_contiguity, validate_commit_contiguity_with_compactions, select_checkpoint_candidate"]}
{"id": "C22", "title": "Delta log clean-up never deletes what a reader inside the retention window needs", "statement": "Deleting expired log files keeps, for every version that is still within retention and for the latest version, a checkpoint at or below it and every commit after that checkpoint.", "quantifier": "every log content, timestamp assignment and retention setting", "why_tests_cant": "boundary arithmetic on versions and timestamps", "anchors": ["crates/sail-delta-lake/src/delta_log/cleanup.rs: RetentionCleanupBoundary, cleanup_expired_delta_log_files"]}
{"id": "C23", "title": "Commit timestamps strictly increase once in-commit timestamps are on", "statement": "With in-commit timestamps enabled, the timestamps of successive versions are strictly increasing whatever the writers' clocks say.", "quantifier": "every sequence of clock readings", "why_tests_cant": "clock skew is arbitrary", "anchors": ["crates/sail-delta-lake/src/transaction/mod.rs: finalize_attempt_actions", "crates/sail-delta-lake/src/delta_log/timestamps.rs"]}
{"id": "C24", "title": "Timestamp time travel picks the latest version at or before the timestamp", "statement": "Reading a Delta table as of a timestamp returns the largest version whose timestamp is not after it, and fails if the table did not exist yet.", "quantifier": "every monotone sequence of version timestamps and every timestamp", "why_tests_cant": "binary-search boundary cases are unbounded", "anchors": ["crates/sail-delta-lake/src/table/mod.rs: find_version_for_timestamp"]}
{"id": "C25", "title": "Delta version checksums agree with the table state", "statement": "The file count and byte size recorded incrementally in a version checksum equal the number and total size of live files of that version.", "quantifier": "every sequence of commits", "why_tests_cant": "drift accumulates over unbounded histories", "anchors": ["crates/sail-delta-lake/src/transaction/mod.rs: build_incremental_checksum"]}
{"id": "C26", "title": "Deletion vectors survive the trip through storage", "statement": "Decoding the Z85 text produced for any byte string returns that byte string, and reading a deletion vector back from a file written by the writer returns the same bitmap bytes; damaged size, checksum or truncation is reported.", "quantifier": "every byte string and every bitmap", "why_tests_cant": "round trip over all inputs", "anchors": ["crates/sail-delta-lake/src/deletion_vector/z85.rs", "crates/sail-delta-lake/src/deletion_vector/storage.rs"]}
{"id": "C27", "title": "Delta log file names encode versions faithfully", "statement": "The version parsed from the name of a commit, checkpoint, checksum or compacted file is the version it was written for, and names sort in version order, so listing from an offset never skips a version.", "quantifier": "every version in the supported range", "why_tests_cant": "all versions", "anchors": ["crates/sail-delta-lake/src/spec/log.rs", "crates/sail-delta-lake/src/delta_log/listing.rs"]}
{"id": "C28", "title": "Iceberg delete files are applied to exactly the data files the specification names", "statement": "A position delete applies to a data file of the same partition (or the named file) with sequence number at most the delete's; an equality delete applies to data files of the same partition (or all, if written unpartitioned) with strictly smaller sequence number; nothing else is matched and nothing is missed.", "quantifier": "every set of delete files and every data file", "why_tests_cant": "the key is a byte encoding of arbitrary partition tuples, so collisions need an injectivity argument", "anchors": ["crates/sail-iceberg/src/spec/delete_index.rs: DeleteFileIndex, PartitionKey"]}
{"id": "C29", "title": "Applying deletes is independent of batch boundaries", "statement": "Reading a data file with deletes returns exactly the rows whose position is not deleted and whose key is in no equality-delete set, in file order, however the file is split into batches.", "quantifier": "every split into batches, every set of positions and keys", "why_tests_cant": "batch boundaries are arbitrary", "anchors": ["crates/sail-iceberg/src/physical_plan/delete_apply_exec.rs: compute_delete_mask, load_deleted_positions"]}
{"id": "C30", "title": "Iceberg partition pruning never drops a matching row", "statement": "If a row satisfies the filter, then the data file and manifest holding it survive pruning by partition values and partition summaries.", "quantifier": "every filter, every partition spec with identity, truncate, bucket and time transforms, every row", "why_tests_cant": "soundness over all values and filters, including boundary values", "anchors": ["crates/sail-iceberg/src/datasource/pruning.rs: partition_predicates_for_spec, transform_range_constraint, prune_data_files_by_partition_values", "crates/sail-iceberg/src/utils/transform.rs: apply_transform"]}
{"id": "C31", "title": "Iceberg file statistics pruning never drops a matching row", "statement": "If a file contains a row that satisfies an equality or IN filter, the membership statistics do not report the file as containing none of the values.", "quantifier": "every file statistics and value set", "why_tests_cant": "only files with more than one distinct value expose it", "anchors": ["crates/sail-iceberg/src/datasource/pruning.rs: IcebergPruningStats::contained"]}
{"id": "C32", "title": "LIMIT on an Iceberg table with deletes returns enough rows", "statement": "A query with LIMIT n returns min(n, number of live rows) rows.", "quantifier": "every set of files, deletes and limit", "why_tests_cant": "depends on how many rows of the first files are deleted", "anchors": ["crates/sail-iceberg/src/datasource/pruning.rs: prune_files", "crates/sail-iceberg/src/datasource/provider.rs: scan"]}
{"id": "C33", "title": "Iceberg partition transforms follow the specification", "statement": "Truncate, bucket, year, month, day and hour transforms map every value to the result defined by the Iceberg specification; void maps everything to null.", "quantifier": "every value of every supported type", "why_tests_cant": "negative values, boundaries and overflow", "anchors": ["crates/sail-iceberg/src/utils/transform.rs"]}
{"id": "C34", "title": "Concurrent Iceberg commits do not lose data", "statement": "When several writers commit to the same path-based table, every commit that reported success is contained in the history of the final table state, and sequence numbers strictly increase along the history.", "quantifier": "every interleaving of writers and every crash point", "why_tests_cant": "needs all interleavings, including table creation and first snapshot", "anchors": ["crates/sail-iceberg/src/physical_plan/commit/commit_exec.rs: execute", "crates/sail-iceberg/src/operations/bootstrap.rs: write_metadata_version", "crates/sail-iceberg/src/table/metadata_loader.rs: find_latest_metadata_file"]}
{"id": "C35", "title": "Iceberg snapshot row accounting and row ids are consistent", "statement": "The totals in a snapshot summary equal the sums over its manifests, and with row lineage every data file gets a row-id range disjoint from all others and below the table's next row id.", "quantifier": "every chain of append, row-delta and overwrite snapshots", "why_tests_cant": "accumulates over unbounded histories", "anchors": ["crates/sail-iceberg/src/operations/snapshot.rs: build_action_commit, with_manifest_totals", "crates/sail-iceberg/src/datasource/provider.rs: load_data_files_with_seq"]}
{"id": "C36", "title": "Reattaching to a query resumes without losing or inventing results", "statement": "A client of a reattachable query that reconnects any number of times, ignoring responses whose ids it has already seen, receives every result batch of the query exactly once and in order.", "quantifier": "every interleaving of production, delivery, disconnection, acknowledgement and reattachment", "why_tests_cant": "connection loss can happen at every step", "anchors": ["crates/sail-spark-connect/src/executor.rs: Executor, ExecutorBuffer"]}
{"id": "C37", "title": "Session configuration behaves like a dictionary with defaults and aliases", "statement": "After any sequence of set and unset requests, reading a key returns the last value set and not unset, else the default; keys declared static cannot be changed.", "quantifier": "every sequence of configuration requests", "why_tests_cant": "interaction of defaults, fallbacks and aliases", "anchors": ["crates/sail-spark-connect/src/config.rs: SparkRuntimeConfig"]}
{"id": "C38", "title": "The in-memory catalog behaves like a map from names to objects", "statement": "Create, replace, drop, alter and get on databases, tables and views have the documented if-exists / if-not-exists / or-replace semantics; failed operations change nothing; objects in other databases are unaffected.", "quantifier": "every sequence of catalog operations", "why_tests_cant": "unbounded histories", "anchors": ["crates/sail-catalog-memory/src/provider.rs"]}
{"id": "C39", "title": "Temporary views change only on request", "statement": "Creating a temporary or global temporary view that exists changes it only with OR REPLACE; dropping removes exactly that view; lookups return the last definition; no other request of any session changes it.", "quantifier": "every server state, every sequence of requests by any number of sessions", "why_tests_cant": "unbounded histories", "anchors": ["crates/sail-catalog/src/temp_view.rs: TemporaryViewManager", "crates/sail-catalog/src/manager/view.rs: drop_maybe_temporary_view"]}
{"id": "C40", "title": "The catalog cache never shows a state older than the session's own last change", "statement": "After a session changes the catalog through the caching layer, listing databases, tables or views returns what the underlying catalog returns.", "quantifier": "every sequence of cached reads and changes by one session", "why_tests_cant": "needs every pair of change and cached listing", "anchors": ["crates/sail-catalog/src/provider/cache.rs"]}
{"id": "C41", "title": "Quoted names survive parsing", "statement": "Splitting the quoted form of a multi-part name with the SQL identifier rules returns the original parts, so no name can be confused with another.", "quantifier": "every list of non-empty names over all characters", "why_tests_cant": "names with dots, back-quotes and unicode", "anchors": ["crates/sail-catalog/src/utils.rs: quote_name_if_needed, quote_names_if_needed", "crates/sail-sql-parser/src/string.rs: backtick_quoted_string_value"]}
{"id": "C42", "title": "Catalog-managed metadata updates are compare-and-swap", "statement": "An update that states the metadata location it was based on succeeds only if that is still the current location, so of two concurrent updates with the same base at most one succeeds.", "quantifier": "every interleaving of updates", "why_tests_cant": "concurrency", "anchors": ["crates/sail-catalog-memory/src/managed_table.rs: validate_metadata_location_precondition", "crates/sail-catalog-memory/src/provider.rs: alter_table"]}
{"id": "C43", "title": "SQL string literals decode to what was written", "statement": "For every string there is a literal (escaping quotes and backslashes) that the lexer accepts and decodes to exactly that string; raw literals decode to their body verbatim.", "quantifier": "every string and quote style", "why_tests_cant": "all strings", "anchors": ["crates/sail-sql-parser/src/string.rs"]}
{"id": "C44", "title": "LIKE with a custom escape character means the same after rewriting", "statement": "For every pattern that is valid under the given escape character, the rewritten pattern matches exactly the same strings under backslash escapes.", "quantifier": "every pattern, escape character and subject string", "why_tests_cant": "all patterns and subjects", "anchors": ["crates/sail-function/src/scalar/predicate/rewrite_like_pattern.rs"]}
{"id": "C45", "title": "A running job always has something to wait for", "statement": "After every scheduling round a job that is still reported running has at least one task attempt that is created, scheduled or running, so a job never hangs with nothing left that could wake it up.", "quantifier": "every job graph of the shape the planner makes, every history of reports, refreshes and clean-ups", "why_tests_cant": "A deadlock needs a particular graph shape and a particular order of completions and failures; tests only try a few graphs.", "anchors": ["crates/sail-execution/src/driver/job_scheduler/core.rs:refresh_job", "crates/sail-execution/src/driver/job_scheduler/core.rs:schedule_task_regions"]}
{"id": "C46", "title": "A failure stops exactly the tasks exchanging data with the failed task", "statement": "When an attempt fails, the next scheduling round cancels every live attempt of the tasks in the same region, and cancels no attempt outside regions with a failure.", "quantifier": "every job graph, every history, every failing task", "why_tests_cant": "The set of tasks to stop depends on the region structure and on which attempts are live when the failure is seen.", "anchors": ["crates/sail-execution/src/driver/job_scheduler/core.rs:cascade_cancel_task_attempts"]}
{"id": "C47", "title": "Launching a region starts each of its tasks exactly once, in slots it may share", "statement": "Every launched region consists of exactly one new attempt of each task of one region, each in exactly one task set; a task set never holds two tasks of one stage, only holds tasks of one slot-sharing group, and is placed where its stages ask to be placed.", "quantifier": "every job graph, partition counts and history", "why_tests_cant": "The packing is an arithmetic scaling of partition numbers to buckets; off-by-one errors show only for particular partition counts.", "anchors": ["crates/sail-execution/src/driver/job_scheduler/core.rs:build_task_region"]}
{"id": "C48", "title": "A launched region asks for no more slots than it has tasks", "statement": "The number of worker slots a launched region requires is at most the number of its tasks, so a region with one task can be placed as soon as one slot is free.", "quantifier": "every job graph and history", "why_tests_cant": "The over-count appears only for regions that hold part of a stage.", "anchors": ["crates/sail-execution/src/driver/job_scheduler/core.rs:build_task_region", "crates/sail-execution/src/driver/task_assigner/core.rs:try_assign_task_region", "crates/sail-execution/src/driver/task_assigner/core.rs:request_workers"]}
{"id": "C49", "title": "A shuffle neither loses nor duplicates rows", "statement": "When a stage repartitions its output over n consumers, every row produced by every task reaches exactly one consumer exactly once: with hash distribution the consumer its key hashes to, with row round-robin some consumer.", "quantifier": "every number of producers and consumers, every split of the rows into batches, every hash function", "why_tests_cant": "the partitioner, the channel writer and the reader must agree for all widths and batch boundaries", "anchors": ["crates/sail-execution/src/plan/shuffle_write.rs: shuffle_write", "crates/sail-execution/src/driver/job_scheduler/core.rs: build_task_input_keys", "crates/sail-physical-plan/src/repartition.rs: RowRoundRobinPartitioner"]}
{"id": "C50", "title": "A failing producer is visible to the consumers of its stream", "statement": "A consumer that reaches the end of a pipelined stream without an error has received all batches the producer put into it.", "quantifier": "every interleaving of writing, reading, commit and abort", "why_tests_cant": "needs a producer failing between two reads of a consumer", "anchors": ["crates/sail-execution/src/stream/local/memory.rs: MemoryStreamReplicaSender::abort", "crates/sail-execution/src/plan/shuffle_write.rs: shuffle_write"]}
{"id": "C51", "title": "Idle workers are stopped only when nothing is left on them; lost workers fail exactly their tasks", "statement": "A worker is considered idle exactly when it is active, all task sets launched on it have finished and none of the outputs it keeps is still needed; when a worker is lost the tasks that are failed are exactly its unfinished ones.", "quantifier": "every history of launches, completions, clean-ups, activations and losses", "why_tests_cant": "depends on arbitrary interleavings of completions and clean-ups", "anchors": ["crates/sail-execution/src/driver/task_assigner/core.rs: is_worker_idle, find_worker_tasks, track_streams, untrack_local_streams", "crates/sail-execution/src/driver/actor/handler.rs: handle_probe_idle_worker, handle_probe_lost_worker"]}
{"id": "C52", "title": "Scaling up requests as many workers as the waiting tasks need", "statement": "The number of workers requested covers the demand of the waiting task sets unless the configured maximum is reached, and the driver does not request more workers than the demand needs.", "quantifier": "every queue content, free slots, and every number of scaling events", "why_tests_cant": "over-provisioning only shows when several events arrive before the requested workers register", "anchors": ["crates/sail-execution/src/driver/task_assigner/core.rs: request_workers", "crates/sail-execution/src/driver/actor/handler.rs: scale_up_workers"]}
{"id": "C53", "title": "Every retained version of a Delta table can be read", "statement": "While the log files of a version are all present (every commit from a checkpoint at or below it, or from version 0), reading the table at that version succeeds and returns that version's table, whatever checkpoints have been written since.", "quantifier": "every sequence of commits and checkpoints, every version", "why_tests_cant": "depends on where the requested version lies relative to all checkpoints written later; a test fixes one layout", "anchors": ["crates/sail-delta-lake/src/delta_log/segment.rs resolve_for_full_state", "crates/sail-delta-lake/src/delta_log/replay.rs load_replayed_table_state", "crates/sail-delta-lake/src/table/mod.rs load_version"]}
{"id": "C54", "title": "A filter the Iceberg scan claims to apply is applied", "statement": "When the scan reports a filter as handled exactly, so that the engine does not check it again, every row the scan returns satisfies the filter.", "quantifier": "every filter, every history of partition specs, every set of data files, including the null partition, and both settings of the Parquet reader", "why_tests_cant": "tests use a freshly created table with one partition spec and one filter per column; the leak needs a spec change, a null partition or two list filters", "anchors": ["crates/sail-iceberg/src/datasource/pruning.rs", "crates/sail-iceberg/src/datasource/provider.rs: supports_filters_pushdown, scan, build_parquet_source", "crates/sail-common/src/config/application.yaml: parquet.pushdown_filters"]}
{"id": "C55", "title": "Failed Iceberg commits leave no dangling references", "statement": "When an Iceberg commit fails or has to be retried, the manifests, manifest lists and data files it removes are its own: no metadata file in the table, and no snapshot a reader can reach, refers to a removed file, whatever other writers were doing and wherever a request failed.", "quantifier": "every set of concurrent commits, table creations and replacements, every interleaving of their storage requests, every failure or crash at any request", "why_tests_cant": "The clean-up runs only after conflicts or failed requests and is safe or not depending on whether the request took effect and on who has read the metadata in between; tests exercise one interleaving with reliable storage.", "anchors": ["crates/sail-iceberg/src/physical_plan/commit/commit_exec.rs: IcebergCommitExec::execute (clean-up branches)", "crates/sail-iceberg/src/operations/bootstrap.rs: bootstrap_new_table, bootstrap_first_snapshot", "crates/sail-iceberg/src/table/metadata_loader.rs: find_latest_metadata_file"]}
{"id": "C56", "title": "A name means one object in every command of a session", "statement": "A multi-part name resolves to the temporary view, global temporary view, table or view it stands for in that order; a name that starts with a catalog does not depend on the current catalog, database or temporary views; a created table is found under its name; every command that takes a name works on the object a query would read, and databases are listed where they are found.", "quantifier": "every session state and every name of any number of parts", "why_tests_cant": "names of any length against every combination of catalogs, current database and temporary views", "anchors": ["crates/sail-catalog/src/manager/mod.rs: resolve_database_reference, resolve_optional_database_reference, resolve_object_reference", "crates/sail-catalog/src/manager/table.rs: get_table_or_view", "crates/sail-catalog/src/command.rs: AlterTable, CreateTable"]}
{"id": "C57", "title": "Parameter markers stay parameters", "statement": "Submitting a query with positional arguments binds the n-th question mark that stands as a marker to the n-th argument, and changes nothing else in the statement: question marks in strings, quoted names and comments, and all other text, mean what they meant before.", "quantifier": "every statement text and number of markers", "why_tests_cant": "any text can surround a marker, and the rewritten text is lexed again", "anchors": ["crates/sail-sql-analyzer/src/parser.rs: rewrite_positional_parameter_markers", "crates/sail-sql-parser/src/lexer.rs: dollar_quoted_string", "crates/sail-sql-parser/src/ast/identifier.rs: Variable", "crates/sail-spark-connect/src/proto/plan.rs: RelType::Sql"]}
{"id": "C64", "title": "MERGE INTO leaves exactly the rows its clauses prescribe", "statement": "After a successful MERGE INTO, the table holds, as a multiset, one row for every target row that survives (changed by the first WHEN MATCHED or WHEN NOT MATCHED BY SOURCE clause whose condition is true, or unchanged if there is none) and one row for every unmatched source row selected by a WHEN NOT MATCHED clause, with assigned, defaulted and star columns filled in as written. This holds for Iceberg tables, Delta tables with deletion vectors and Delta tables rewritten file by file.", "quantifier": "all statements (any ON condition, any clauses, conditions, assignments, defaults, name case rules), all target tables (any files, rows, earlier deletes), all source relations", "why_tests_cant": "The result comes from a full outer join, first-match CASE expressions in three-valued logic, a fast path and three writers that drop or keep rows by operation code; a wrong interaction (NULL conditions, several matches, untouched files) shows only for particular clause and data combinations.", "anchors": ["crates/sail-logical-plan/src/merge.rs: expand_merge, build_default_merge_expansion, build_merge_projection, first_matching_clause_predicates, can_fast_append_insert_only", "crates/sail-plan/src/resolver/command/merge.rs: analyze_merge_join", "crates/sail-delta-lake/src/physical_plan/planner/op_merge.rs: build_merge_plan, build_merge_plan_mor", "crates/sail-delta-lake/src/physical_plan/writer_exec.rs: metric_only_filter_mask", "crates/sail-iceberg/src/physical_plan/merge_row_projection.rs"]}
{"id": "C65", "title": "MERGE fails exactly when a match is ambiguous", "statement": "MERGE INTO raises a cardinality error exactly when some target row is matched by two or more source rows and the statement has WHEN MATCHED clauses other than a single unconditional DELETE. The analysis of the source query that skips the run-time check only does so when no target row can have two matches. Statements that a merge-on-read Delta table cannot run are rejected rather than run wrongly.", "quantifier": "all statements, source plans (aliases, filters, projections, aggregates over anything, declared functional dependencies) and tables", "why_tests_cant": "Skipping the check is decided from the plan alone; an unsound case silently applies an arbitrary one of several updates or duplicates rows, only for data that happens to contain duplicates.", "anchors": ["crates/sail-logical-plan/src/merge.rs: should_check_cardinality, source_is_unique_on_merge_join_keys, schema_implies_unique_for_columns, map_key_cols_through_projection, aggregate_groups_exactly_on_columns", "crates/sail-physical-plan/src/merge_cardinality_check.rs"]}
{"id": "C66", "title": "Copy-on-write MERGE rewrites exactly the files with an affected row", "statement": "A MERGE on a Delta table without deletion vectors keeps a data file as it is if and only if no clause acts on any row of that file.", "quantifier": "all statements, sources, tables and files", "why_tests_cant": "The set of files to rewrite is computed by a separate predicate from the one that computes the new rows; a difference between the two loses or duplicates rows only in files where they disagree.", "anchors": ["crates/sail-logical-plan/src/merge.rs: build_rewrite_predicates, combine_rewrite_preds", "crates/sail-delta-lake/src/physical_plan/planner/op_merge.rs: build_targeted_writer_input"]}
{"id": "C58", "title": "spark.range returns every number of the range once", "statement": "spark.range(start, end, step, n) returns start, start+step, start+2*step, ... up to but excluding end, each exactly once and in order over the n partitions, for positive and negative steps and for every number of partitions.", "quantifier": "all 64-bit start, end and non-zero step, all partition counts", "why_tests_cant": "The bounds of each partition are computed with 128-bit products that are cast back to 64 bits; mistakes show up only for particular combinations of bounds, steps and partition counts, or next to the end of the integer range.", "anchors": ["crates/sail-logical-plan/src/range.rs: Range::partition, RangeIterator::next", "crates/sail-physical-plan/src/range.rs: RangeExec::execute"]}
{"id": "C59", "title": "coalesce(n) keeps every row and merges adjacent partitions", "statement": "DataFrame.coalesce(n) gives min(n, current) partitions, keeps every row exactly once, and unless n is 1 each output partition is a run of adjacent input partitions read one after the other, with run lengths that differ by at most one, whatever the timing of the inputs.", "quantifier": "all partition counts, all contents of the partitions, all patterns of waiting inputs, and any change of the number of inputs between planning and execution", "why_tests_cant": "Dropped or doubly read partitions depend on the divisibility of the two counts, and lost batches on when an input is not ready.", "anchors": ["crates/sail-physical-plan/src/coalesce.rs: coalesced_input_range, CoalesceStream::poll_next", "crates/sail-physical-optimizer/src/explicit_repartition.rs: RewriteExplicitRepartition::optimize", "crates/sail-session/src/planner.rs: plan_explicit_partitioning"]}
{"id": "C60", "title": "monotonically_increasing_id is unique and increasing", "statement": "The ids given by monotonically_increasing_id() are non-negative 64-bit integers, strictly increasing over the rows of a partition and from each partition to the next, so that no two rows of a data frame get the same id; a partition with more than 2^33 rows makes the query fail instead of repeating ids.", "quantifier": "all numbers of partitions up to 2^30, all sizes of partitions and batches", "why_tests_cant": "A collision needs billions of rows in one partition or very many partitions.", "anchors": ["crates/sail-physical-plan/src/monotonic_id.rs: MonotonicIdStream::make_ids, poll_next"]}
{"id": "C61", "title": "MERGE detects double matches in every distribution of the rows", "statement": "When the joined rows of a MERGE are spread over partitions by target row id, the statement fails if and only if two joined rows are matches for one target row; otherwise all rows go on unchanged, in every batch and partition layout.", "quantifier": "all joined rows, all hash functions, all partition and batch layouts, all NULL flags and ids", "why_tests_cant": "Each partition checks only what it sees, batch by batch; whether the local checks add up to the global one depends on the layout of the data.", "anchors": ["crates/sail-physical-plan/src/merge_cardinality_check.rs: required_input_distribution, poll_next"]}
{"id": "C62", "title": "A streaming query returns what the same query returns on a table", "statement": "A streaming query built from sources, projections, filters, unions, aliases and limits returns the rows that the same query returns as a batch query: flow markers never appear as rows, never hide rows and never count towards a limit, whatever the interleaving of partitions and the batch boundaries; it fails only if an expression fails on a row of data; and every marker of every source reaches the sink.", "quantifier": "all plans of these operators, all expressions (which may fail), all data, markers, interleavings and batch boundaries", "why_tests_cant": "Markers travel as extra rows through ordinary operators, so every operator, expression and batch layout is a chance to lose, duplicate or expose them; the interleavings of partitions cannot be enumerated.", "anchors": ["crates/sail-plan/src/streaming/rewriter.rs: StreamingRewriter::f_up", "crates/sail-common-datafusion/src/streaming/event/encoding.rs: encode, decode", "crates/sail-physical-plan/src/streaming/limit.rs: StreamLimitState::step", "crates/sail-physical-plan/src/streaming/collector.rs: StreamCollectorExec::execute", "crates/sail-physical-plan/src/streaming/source_adapter.rs: StreamSourceAdapterExec::execute"]}
{"id": "C63", "title": "A session keeps one context, is closed when idle and never comes back", "statement": "Requests get the same context exactly if they name the same session; a session is closed as idle only if its last answered request is at least the timeout ago and no query of it runs, and every idle session has a check pending that closes it; a closed session stays closed and requests for it fail; the drivers that are registered are those of the running sessions, one each; a session answers only the user it was made for.", "quantifier": "all sequences of requests, deletions, driver failures, failed session creations, time steps and deliveries of delayed checks in any order", "why_tests_cant": "Delayed checks cross with requests, deletions and failures in orders a test cannot enumerate.", "anchors": ["crates/sail-session/src/session_manager/actor/handler.rs: handle_get_or_create_session, handle_probe_idle_session, handle_delete_session, handle_set_session_failure", "crates/sail-common-datafusion/src/session/activity.rs: ActivityTracker", "crates/sail-execution/src/driver/registry.rs"]}
{"id": "C67", "title": "A Celeborn shuffle returns what the winning attempts wrote, once", "statement": "When a shuffle is committed, a reader of a partition gets every batch that the winning attempt of each mapper wrote to that partition with success, each exactly once and nothing of other attempts, even if places were replaced after failed pushes; if every mapper was told that its output is complete, the shuffle is committed; a commit, or its failure, is final.", "quantifier": "all histories of registrations, pushes, worker answers (success, split, map ended, errors, timeouts), revives, completions, mapper ends, commits and reads, in any order, for any number of clients, mappers, attempts and partitions", "why_tests_cant": "Pushes, revives, retries of tasks and the commit run concurrently on several machines; the loss or duplication of a batch depends on the order of their messages and on what a worker stored before an error.", "anchors": ["crates/sail-celeborn/src/shuffle/actor/handler.rs: handle_push_data, handle_read_partition_stream_complete, update_partition_location", "crates/sail-celeborn/src/lifecycle/actor/handler.rs: handle_register_shuffle, handle_revive, handle_revive_complete, handle_mapper_end, handle_mapper_end_complete", "crates/sail-celeborn/src/worker/client.rs: take_batch", "crates/sail-execution/src/stream/celeborn/core.rs"]}
{"id": "C68", "title": "Record batches survive the trip through Celeborn files", "statement": "The record batches that tasks push to a shuffle file come out of it exactly once, in order and without an error, whatever codec is configured and however the transport cuts the file into chunks. A file that was cut off or a block that was damaged is reported and never read as other data. Worker addresses (also IPv6) and codec names are read back as they were written, and invalid ones are refused.", "quantifier": "all batches, codecs, pushes, chunkings, truncation points, changed bytes and texts", "why_tests_cant": "tests use a few batches and chunk sizes; the boundaries between chunks, batches and frames and the damaged bytes are unbounded", "anchors": ["crates/sail-celeborn/src/worker/client.rs compress, decompress_block, take_batch, read_partition_stream", "crates/sail-celeborn/src/protocol/transport.rs push_data", "crates/sail-celeborn/src/common.rs WorkerIdentity, CompressionCodec", "crates/sail-execution/src/stream/celeborn/core.rs encode and decode_batches"]}
{"id": "C69", "title": "Reordering joins does not change the result of a query", "statement": "When the optimizer rebuilds a region of inner joins in another order, the new plan returns the same rows, each as often, in the same columns as the plan it replaces, whatever order is chosen; and once an order has been accepted the region is really rebuilt, not given up half-way.", "quantifier": "all trees of inner joins with any keys, filters, projections, null semantics and tables, all join orders the search could choose, all limits on relations and all iteration orders of hash maps", "why_tests_cant": "tests run a few queries on a few tables; the number of join orders grows faster than exponentially and errors show only for certain filters, projections and NULLs", "anchors": ["crates/sail-physical-optimizer/src/join_reorder/builder.rs GraphBuilder", "crates/sail-physical-optimizer/src/join_reorder/reconstructor.rs PlanReconstructor", "crates/sail-physical-optimizer/src/join_reorder/mod.rs find_and_optimize_regions, try_optimize_region, build_final_projection", "crates/sail-physical-optimizer/src/join_reorder/graph.rs StableColumn, JoinEdge"]}
{"id": "C70", "title": "Time windows assign every event to exactly the windows that contain it", "statement": "window(time, duration [, slide [, start]]) accepts exactly the legal combinations of durations, and for every row with a time it returns each window of the form start + k * slide with the given duration that contains the time, once, and no other; no row with a time is lost, tumbling windows give exactly one window, and window_time of a window is the last instant inside it.", "quantifier": "all durations, slides and starts, all columns of times including NULLs", "why_tests_cant": "boundaries fall on every microsecond and the number of windows depends on the ratio of two arbitrary durations; tests try a few", "anchors": ["crates/sail-function/src/scalar/datetime/spark_window_buckets.rs", "crates/sail-plan/src/function/scalar/datetime.rs parse_window_spec, window, window_time"]}
{"id": "C71", "title": "Maps built from arrays hold the right keys and values", "statement": "map_from_arrays and map_from_entries return, for every row, the map of that row's keys and values: NULL where an argument is NULL, an error for a NULL key or different lengths, and for a repeated key an error or the last value according to the configured policy.", "quantifier": "all list columns with any offsets, NULLs, keys and values, both deduplication policies", "why_tests_cant": "the columns are flat buffers addressed by offsets; mistakes show only for certain offsets, NULL positions and repetitions", "anchors": ["crates/sail-function/src/scalar/map/utils.rs map_from_keys_values_offsets_nulls, map_deduplicate_keys", "crates/sail-function/src/scalar/map/map_from.rs"]}
{"id": "C72", "title": "sequence() returns exactly the arithmetic sequence that is asked for", "statement": "sequence(start, stop [, step]) over integers returns start, start + step, start + 2 * step, ... as long as the numbers do not pass stop, NULL exactly for rows with a NULL argument, and no element ever wraps around; it fails only for a step that leads away from stop, for arrays that are too long, for ends too far apart, or for batches with too many elements.", "quantifier": "all columns of 8, 16, 32 and 64-bit integers, all steps", "why_tests_cant": "the danger is at the ends of the integer ranges, for every pair of ends and every step", "anchors": ["crates/sail-function/src/scalar/array/spark_sequence.rs sequence_length, gen_sequence_i8, gen_sequence_i16, gen_sequence_i32, gen_sequence_i64"]}
{"id": "C73", "title": "ceil and floor return the nearest number above or below with the wanted number of places", "statement": "ceil(x, n) is the least number with n decimal places that is at least x, floor(x, n) the greatest one that is at most x, for integers, decimals and doubles and for negative n too, and the answer fits in the declared type.", "quantifier": "all values, precisions, scales and target scales", "why_tests_cant": "there are many combinations of sign, precision, scale and target scale, and the errors are off by one in the last place", "anchors": ["crates/sail-function/src/scalar/math/spark_ceil_floor.rs ceil_floor_with_target_scale, spark_ceil_floor, ceil_floor_return_type_from_args", "crates/sail-function/src/scalar/math/utils/decimal.rs round_decimal_base"]}
{"id": "C74", "title": "Filters on floor(x) keep the same rows after they are rewritten into filters on x", "statement": "When the optimizer replaces a comparison of floor(x) with a literal by comparisons of x with bounds, every row is kept by the new filter if and only if it was kept by the old one.", "quantifier": "all comparison operators, all literals, all values of integer, decimal, float and double columns", "why_tests_cant": "the bounds are rounded to floating point; whether an interval is right has to hold for every representable number", "anchors": ["crates/sail-function/src/scalar/math/spark_ceil_floor.rs preimage_floor, float_bounds, int_bounds, decimal128_bounds, lit_as_integer"]}
{"id": "C75", "title": "A text file is read as its lines, however its bytes arrive", "statement": "Reading a text file returns its lines, in order and without their terminators, in batches of the configured size; the result depends neither on how the bytes are cut into chunks on their way nor on the batch size; every returned value is valid UTF-8; with whole_text the result is one row with the content of the file.", "quantifier": "all files, all ways of cutting them into chunks, all batch sizes and separators", "why_tests_cant": "the state carried from chunk to chunk matters only when a line or a terminator is cut, which depends on buffer sizes and file contents", "anchors": ["crates/sail-data-source/src/formats/text/reader.rs RecordDecoder::decode, RecordDecoder::flush, Decoder::decode, Decoder::flush, BufReader::read", "crates/sail-data-source/src/formats/text/source.rs TextDecoder"]}
{"id": "C76", "title": "CSV files that are not valid UTF-8 are repaired, the same however the bytes arrive", "statement": "The CSV reader replaces each malformed byte sequence by one replacement character, always hands valid UTF-8 to the parser, leaves valid files unchanged, keeps every ASCII character in its place, and gives the same text for every way of cutting the file into chunks.", "quantifier": "all files, all ways of cutting them into chunks", "why_tests_cant": "a sequence can be cut at any byte and be malformed in many ways; each combination takes a different path", "anchors": ["crates/sail-data-source/src/formats/csv/decoder.rs classify_utf8_unit, LossyUtf8Decoder, LossyUtf8Reader, decode_utf8_lossy_stream"]}
{"id": "C77", "title": "Ranges of a text file together give every line once, and what is written is read back", "statement": "When a text file is cut into byte ranges that are read in parallel, each line is returned by exactly one range and the ranges in order give the lines of the file; a file read as a whole stays one row; values that do not contain the line separator come back unchanged after writing and reading, NULL as the empty string.", "quantifier": "all files, all cuts into ranges, all chunkings of each range, all lists of values", "why_tests_cant": "a boundary can fall on any byte: within a line, on a separator, before or after it, within a line that spans several ranges", "anchors": ["crates/sail-data-source/src/formats/text/source.rs TextOpener::open", "crates/sail-data-source/src/formats/text/writer.rs TextWriter::write", "crates/sail-data-source/src/formats/text/reader.rs"]}
{"id": "C78", "title": "repartition(n) deals every row to exactly one output, evenly", "statement": "DataFrame.repartition(n) gives every input row to exactly one of the n partitions; each partition gets the rows of each input in order, and for each input the partitions differ by at most one row; when an input fails, no partition ends without the error; a partition whose reader goes away takes nothing from the others.", "quantifier": "all inputs, batch sizes, numbers of partitions, channel sizes, and all interleavings of the tasks, the readers and readers that go away", "why_tests_cant": "tasks and readers share bounded channels and run concurrently; what a reader sees depends on the schedule", "anchors": ["crates/sail-physical-plan/src/repartition.rs RowRoundRobinPartitioner::new, RowRoundRobinPartitioner::partition, execute_round_robin_input_partition, send_round_robin_partitions, prune_closed_round_robin_senders, broadcast_round_robin_error"]}
{"id": "C79", "title": "repartition(n) comes to an end", "statement": "As long as the partitions of a repartition(n) are read or given up independently of each other, every reader comes to the end after a bounded number of steps; this should hold as well when a coalesce reads them one after the other.", "quantifier": "all inputs, channel sizes, and all interleavings", "why_tests_cant": "a hang needs more batches than the channels hold, and a particular order of reading", "anchors": ["crates/sail-physical-plan/src/repartition.rs ExplicitRepartitionExec::execute, initialize_round_robin, send_round_robin_partitions", "crates/sail-physical-plan/src/coalesce.rs CoalesceStream::poll_next, CoalesceExec::execute"]}
{"id": "C80", "title": "A checkpointed DataFrame gives back what was written", "statement": "DataFrame.checkpoint() succeeds only with one complete set of partitions, each from one task that has read its whole input; reading the checkpoint gives every partition with its rows in order, also for DataFrames without columns and with empty partitions; the partitioning that later queries may rely on is true of the stored rows.", "quantifier": "all inputs, batch boundaries, numbers of partitions, orders in which the tasks report, and all reported metadata", "why_tests_cant": "tasks report in any order, and the commit has to refuse every wrong combination of reports", "anchors": ["crates/sail-physical-plan/src/remote_checkpoint.rs write_checkpoint_partition, collect_checkpoint_partitions, validate_partition_location, checkpoint_partitioning_with_count, CheckpointDataSource", "crates/sail-session/src/planner.rs RemoteCheckpointRelationNode planning"]}
{"id": "C81", "title": "A checkpoint stays readable until the session ends, and leaves nothing behind", "statement": "Once DataFrame.checkpoint() has succeeded, its rows can be read until the session ends, whatever other tasks and other checkpoints do and however often tasks were retried; a failed checkpoint and a finished session leave no files and no entry behind.", "quantifier": "all histories of task attempts, commits, clean-ups and the end of the session, interleaved step by step", "why_tests_cant": "clean-ups list and delete while new attempts may write; what remains depends on the interleaving", "anchors": ["crates/sail-physical-plan/src/remote_checkpoint.rs commit_checkpoint, RemoteCheckpointWriteExec::execute", "crates/sail-cache/src/remote_checkpoint.rs RemoteCheckpointRegistry::insert, get, cleanup_relation, cleanup_session", "crates/sail-object-store/src/path.rs delete_object_store_prefix_objects"]}
{"id": "C82", "title": "A number literal is the number that is written", "statement": "An integer or decimal literal in a query, or a decimal literal sent by a client, is accepted with exactly the value that its text says, in a type that can hold it, or it is rejected with an error. Integers get the smallest of int, bigint and decimal; decimals get the precision and scale that their digits need.", "quantifier": "all texts: any number of digits before and after the point, signs, exponents and suffixes", "why_tests_cant": "limits of digits, exponents and 8-bit arithmetic interact; the existing tests even assert a wrong scale for a 42-digit integer", "anchors": ["crates/sail-sql-parser/src/ast/literal.rs NumberState, NumberLiteral", "crates/sail-sql-analyzer/src/literal/numeric.rs parse_decimal_string, DECIMAL_REGEX, DECIMAL_FRACTION_REGEX", "crates/sail-sql-analyzer/src/value.rs from_ast_number_literal", "crates/sail-spark-connect/src/proto/literal.rs LiteralType::Decimal"]}
{"id": "C83", "title": "An interval literal is the interval that is written, and shown intervals can be read back", "statement": "An interval literal (with a qualifier such as DAY TO SECOND, or with one or more values and units) is accepted with exactly the months, days and time that its text says, or rejected because it is malformed or out of range. An interval or duration cast to text and back is the same interval.", "quantifier": "all texts of literals with every qualifier, all lists of values with units, all intervals and durations of the four units", "why_tests_cant": "signs, ranges of 32 and 64 bits, optional parts and trimmed fractions interact; tests try single literals", "anchors": ["crates/sail-sql-analyzer/src/literal/interval.rs from_ast_signed_interval, parse_interval_year_month_string, parse_interval_day_time_string, from_ast_multi_unit_interval", "crates/sail-sql-analyzer/src/literal/utils.rs extract_match, extract_fraction_match, parse_signed_value", "crates/sail-sql-parser/src/ast/expression.rs IntervalLiteral, IntervalExpr", "crates/sail-common-datafusion/src/formatter.rs IntervalYearMonthFormatter, IntervalDayTimeFormatter, DurationMicrosecondFormatter", "crates/sail-function/src/scalar/datetime/spark_interval.rs"]}
{"id": "C84", "title": "A date, time or timestamp text means what it says, and shown values can be read back", "statement": "A date, time or timestamp in a literal or in a string that is cast is accepted with exactly the day, time and time zone that its text says, or it is rejected. A date, time or timestamp cast to a string and back is the same value. Local times that the clocks skip or show twice have a fixed meaning, and no text crashes the query.", "quantifier": "all texts; all days, times and timestamps that can be held; all time zones with any changes of their offset", "why_tests_cant": "the calendar, optional parts, signs of years, trimmed fractions and changes of the clocks interact; tests try single literals", "anchors": ["crates/sail-sql-analyzer/src/literal/datetime.rs date, time, timezone, timestamp, create_date_parser, create_time_parser, TimestampValue::into_naive", "crates/sail-plan/src/resolver/expression/literal.rs resolve_expression_date, resolve_expression_timestamp, resolve_expression_time", "crates/sail-function/src/scalar/datetime/spark_date.rs", "crates/sail-function/src/scalar/datetime/spark_timestamp.rs TimestampParser", "crates/sail-common-datafusion/src/utils/datetime.rs localize_with_fallback", "crates/sail-common-datafusion/src/formatter.rs Date32Formatter, TimestampMicrosecondFormatter, Time64MicrosecondFormatter"]}
{"id": "C85", "title": "year, last_day and next_day give the right day, and filters on them keep the same rows", "statement": "year(d) is the year of the date d, last_day(d) the last day of its month and next_day(d, name) the first later day with that name. A filter that compares year(d) or last_day(d) with a constant keeps exactly the same rows after it has been rewritten into a range of dates. No date crashes the query.", "quantifier": "all dates, all names of days, all comparison operators and all constants", "why_tests_cant": "leap years, month ends, signs and the ends of the range of dates interact with six comparison operators; tests try single dates", "anchors": ["crates/sail-function/src/scalar/datetime/spark_year.rs SparkYear::preimage, date32_to_year", "crates/sail-function/src/scalar/datetime/spark_last_day.rs SparkLastDay::preimage, spark_last_day", "crates/sail-function/src/scalar/datetime/spark_next_day.rs parse_day_of_week, spark_next_day, process_next_day_arrays"]}
{"id": "C86", "title": "A plan starts only after its preconditions, and overwriting a table leaves exactly the new rows", "statement": "Commands that a plan depends on (creating the table, deleting the old files, checking a constraint) are complete before the plan does anything, are not repeated, and prevent the plan from doing anything when they fail. A successful overwriting write leaves exactly the new files in the table and does not touch other files; an unsuccessful one keeps the old rows.", "quantifier": "all numbers of partitions of the preconditions and of the plan, all schedules of their tasks, all failures", "why_tests_cant": "partitions of preconditions and plan run concurrently; a wrong order needs one particular schedule to show", "anchors": ["crates/sail-physical-plan/src/barrier.rs BarrierExec::execute", "crates/sail-physical-optimizer/src/barrier.rs EnforceBarrierPartitioning::optimize", "crates/sail-data-source/src/listing/planner.rs plan_file_write", "crates/sail-data-source/src/listing/delete.rs FileDeleteExec::execute", "crates/sail-plan/src/resolver/command/write.rs"]}
{"id": "C87", "title": "Numbers and bytes keep their value in another base", "statement": "conv returns the shortest text of the same number in the other base, and NULL exactly for bases outside 2 to 36, for NULL and for texts that are not a 64-bit number of the first base; converting back gives the same number; the number of a constant is the same as in a column. bin returns the bits of the number in two's complement without zeros in front. unhex accepts exactly the texts of hexadecimal digits, keeps their number, and returns the bytes that hex was given.", "quantifier": "all texts, all pairs of bases, all 64-bit numbers, all byte strings", "why_tests_cant": "each function ranges over unbounded texts and all 64-bit numbers; wrong results are confined to single values such as the least number", "anchors": ["crates/sail-function/src/scalar/math/spark_conv.rs SparkConv::invoke_with_args, invoke_vectorized, to_radix_string", "crates/sail-function/src/scalar/math/spark_bin.rs bin_into", "crates/sail-function/src/scalar/math/spark_unhex.rs unhex, unhex_digit, hex_bytes"]}
{"id": "C88", "title": "Aggregates give the same result however the rows are distributed", "statement": "mode, max_by, min_by, try_avg, bitmap_construct_agg, bitmap_or_agg and bitmap_and_agg return what their definition says of all rows together (the most frequent value with the requested one of several, the value of a row with the extreme ordering, the average or NULL, the bits that occur, that some or all bitmaps have), whatever partitions and batches the rows come in and in whatever order partial results are merged and hash maps are visited. NULL rows do not count.", "quantifier": "all rows, all divisions into partitions and batches, all orders of a hash map", "why_tests_cant": "tests aggregate few partitions; a merge that loses or repeats a state shows only for particular divisions", "anchors": ["crates/sail-function/src/aggregate/mode.rs PrimitiveModeAccumulator, BytesModeAccumulator", "crates/sail-function/src/aggregate/max_min_by.rs MaxMinByAccumulator", "crates/sail-function/src/aggregate/try_avg.rs TryAvgAccumulator", "crates/sail-function/src/aggregate/bitmap_construct_agg.rs", "crates/sail-function/src/aggregate/bitmap_or_agg.rs", "crates/sail-function/src/aggregate/bitmap_and_agg.rs"]}
{"id": "C89", "title": "Array functions answer for each row, whatever the layout of the column", "statement": "array_position, array_intersect, arrays_zip, array_compact, filter, transform, exists, forall and aggregate return for every row what the definition says of the array in that row: the first position of a value, the common elements in the order of the first array, the padded structures, the elements that are not NULL or for which the lambda is true, the values of the lambda, the three-valued answer, the folded value. NULL rows stay NULL. This does not depend on how the column is stored: as a slice of a longer column, with elements in the range of NULL rows, with empty arrays. exists and forall raise an error only if an element raises it that is met before the answer is known.", "quantifier": "all columns of arrays in every layout, all element values, all lambdas including those that raise errors", "why_tests_cant": "tests build columns from literals, whose layout starts at offset zero; wrong offsets show only for slices and NULL rows with a range", "anchors": ["crates/sail-function/src/scalar/array/array_position.rs position_primitive", "crates/sail-function/src/scalar/array/array_intersect.rs generic_set_loop", "crates/sail-function/src/scalar/array/arrays_zip.rs arrays_zip_generic", "crates/sail-function/src/scalar/array/spark_array_compact.rs array_compact_generic", "crates/sail-function/src/scalar/array/spark_array_filter.rs filter_list_values", "crates/sail-function/src/scalar/array/spark_array_transform.rs", "crates/sail-function/src/scalar/array/spark_array_exists.rs exists_reduce", "crates/sail-function/src/scalar/array/spark_array_forall.rs forall_reduce", "crates/sail-function/src/scalar/array/spark_array_aggregate.rs aggregate_offsets", "crates/sail-function/src/scalar/array/lambda_utils.rs"]}
{"id": "C90", "title": "A remote call is repeated until it succeeds, within the configured limits", "statement": "A call between driver, workers and Kubernetes that fails is made again until it succeeds for the first time, whose value is returned, or until it has been repeated as often as configured, when the last error is returned. Between the calls there is the fixed delay, or the initial delay and then the initial delay times the powers of the factor, limited by the maximum delay.", "quantifier": "all retry configurations, all sequences of results of the calls", "why_tests_cant": "the number of calls and the delays depend on the whole sequence of failures and on numbers chosen in the configuration, up to overflow", "anchors": ["crates/sail-common/src/utils/retry.rs RetryStrategy::run", "crates/sail-common/src/utils/retry.rs ExponentialBackoffDelay"]}
{"id": "C91", "title": "split uses the pattern and the limit of each row", "statement": "split returns for every row the pieces of the text between the matches of that row's pattern, no more than that row's limit if it is positive, and NULL if an argument is NULL. Pieces and matches together are the text. Patterns and limits may be columns or single values. Keeping compiled patterns for the batch changes no result and no error, and at most 128 are kept.", "quantifier": "all columns of texts, patterns and limits, all regular expressions, all numbers of distinct patterns in a batch", "why_tests_cant": "whether a kept pattern is the right one depends on the whole sequence of patterns in a batch, and on more than 128 distinct ones", "anchors": ["crates/sail-function/src/scalar/string/spark_split.rs spark_split_inner_downcast", "crates/sail-function/src/scalar/string/spark_split.rs split_to_array", "crates/sail-function/src/functions_utils.rs StrMemo"]}
