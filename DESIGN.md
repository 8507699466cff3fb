# A Rocq model of lakehq/sail: design

The subject is the Rust workspace in `/repo` (pinned commit, read only).  The
model is written in Coq 8.16.1 under `rocq/theories`, logical name `Verif`.

## How the development is laid out

Each component has up to four files:

* `…Model.v`   – total, computable Gallina functions that follow the Rust code
  function by function.  Every definition has a comment with the file and lines
  it models, and every simplification is stated in that comment.  No proofs.
* `…Spec.v`    – the small independent vocabulary in which the property is
  stated (what "live attempt", "covers exactly once", "edit distance" … mean).
  It does not call the functions of the model that it is a specification for.
* `…Proofs.v`  – lemmas.
* `…Props.v`   – the property theorems, each closed by `exact lemma`, each
  followed by `Print Assumptions` and accompanied by an `Example` that exhibits
  a concrete case satisfying its hypotheses.

Naming: a theorem named `Cnn_…` is about property `Cnn` of
`properties.jsonl`.  `_refuted` marks a theorem that shows, with a witness, that
the full property is false of the (faithful) model; `_partial` marks one that
proves a part, with the missing part stated in the comment above it.

## Modelling conventions

* `&mut self` methods become functions returning the new state; `Result` and
  `Option` stay data; a panic path is an explicit error value.
* `usize/u64/i64/i32` counters that cannot realistically overflow are `nat`, `N`
  or `Z`; where overflow is observable (transforms, arithmetic functions, id
  generator) the machine width is explicit.
* `HashMap`/`IndexMap` become association lists or std++ `gmap`s; iteration
  order is modelled only where the result depends on it.
* Concurrency is modelled by explicit small-step transition systems: the state
  of the shared store and of each process, a step relation or step function
  taking the acting process, and theorems by induction over all step sequences.
  Crashes are processes that stop being scheduled or lose their local state.
* Strings are lists of Unicode code points (`N`) or bytes (`N` below 256).

## Trusted base

* Coq's kernel (8.16.1), and what `Print Assumptions` prints below each
  property theorem: "Closed under the global context" for every one of them.
* The list of axioms in the compiled context, as `coqchk -o` reports it, is not
  empty although no theorem uses any of them: loading std++ loads the standard
  library's ssreflect files, whose module type instance `Coq.ssr.ssrunder.Under_rel`
  contributes the seven fields `Under_rel`, `Under_rel_from_rel`, `Under_relE`,
  `Over_rel`, `over_rel`, `over_rel_done`, `under_rel_done`.
* The libraries: Coq's standard library and std++ (`stdpp`), nothing else.  No
  axiom of any library other than the standard library is in the context.
* That the model functions say what the cited Rust lines say.  There is no
  extraction or translation tool in the loop; the correspondence is by reading.
* Third-party crates (DataFusion operators, Arrow kernels, object_store, tokio,
  roaring bitmaps, CRC32, serde, chrono) are represented by the contract stated
  in the model comment where they are used, not modelled internally.

## Plan per property

| id | what is modelled | how it is proved |
|----|------------------|------------------|
| C01 | `TaskState::consolidate/is_terminal`, per-attempt fold of reports | algebra of consolidate, induction over the report list |
| C02–C06 | `JobScheduler`: update_task, refresh_job, cascade cancel, region update, scheduling, stage clean-up, job clean-up as one step function over job state | invariants by induction over op lists |
| C07 | `JobTopology::try_new` as graph computation (components by BFS closure) | correctness of reachability, partition proof |
| C08 | `build_task_input_keys` for each input mode | arithmetic of block boundaries, membership characterisation |
| C09, C10 | `TaskAssigner` state machine | invariant: slots on active workers disjoint; prefix/all-or-nothing lemma for `assign_tasks` |
| C11 | worker request counters + `handle_activate` | refutation with a trace, bound `max + initial` by invariant |
| C12 | `RowRoundRobinPartitioner` | induction over batches; counting lemma |
| C13 | job output stream set and `conflicts_with` | refutation with a trace; positive theorem for histories without retry of an already finished stream |
| C14 | memory stream replicas | refinement to the published list |
| C15 | `IdGenerator` | induction over requests |
| C16, C17 | many-writer commit loop over a create-if-absent store | transition-system invariants |
| C18 | conflict checker decision | case analysis to spec predicates |
| C19, C20 | commit replay, checkpoint state, compaction | fold homomorphism lemmas; refutations for expired tombstones / removed domains |
| C21 | segment resolution | induction over sorted compactions/commits |
| C22 | clean-up boundary | arithmetic + coverage argument |
| C23, C24 | in-commit timestamp assignment; binary search | induction; search invariant |
| C25 | incremental checksum | induction over well-formed commits, refutation otherwise |
| C26 | Z85 and DV file codecs | codec round trips |
| C27 | file-name printing/parsing | digits round trip, lexicographic order lemma |
| C28 | delete index with byte-encoded partition keys | injectivity of encoding; refinement to spec predicate |
| C29 | batchwise delete mask | induction over batches |
| C30–C33 | transforms, partition predicates, pruning, limit | monotonicity lemmas; refutations with witnesses |
| C34 | Iceberg commit loop, metadata files, version hint | transition system; refutations for bootstrap race and stale hint |
| C35 | totals and row lineage | induction over snapshot chain |
| C36 | executor buffer and reattach protocol | transition system; refutation for overflow |
| C37 | runtime config map | induction over ops |
| C38–C40, C42 | memory catalog, temp views, cache, CAS | refinement to map specs |
| C41 | identifier quoting + backtick lexing, double quotes, white space and comments | round trip by induction |
| C43 | string literal decoder, all escapes | round trip by induction |
| C44 | LIKE rewriting + LIKE matcher | matcher semantics, induction over pattern |

Properties added while the model grew:

| id | what is modelled | how it is proved |
|----|------------------|------------------|
| C45–C47 | the same `JobScheduler` step function: refresh, failure cascade, region launch | invariants by induction over op lists |
| C48 | region slicing and task sets in `TaskAssigner` | counting; refutation for sliced regions |
| C49 | shuffle write by partition and `build_task_input_keys` read side together | permutation of rows, by induction over batches |
| C50 | stream states of the local stream manager | refutation with a trace |
| C51 | worker pool: heartbeats, idle time-out, lost workers | invariants over worker events |
| C52 | worker demand computed from waiting tasks | arithmetic; refutation of repeated requests with exact growth |
| C53 | `_last_checkpoint` handling and loading an older version | case analysis; refutation |
| C54 | filter classification of the Iceberg scan against what reader and filter do | refutations; soundness where the partition column is used throughout |
| C55 | Iceberg commit loop with failing requests, objects referenced by metadata | transition-system invariant; refutations |
| C56 | sessions: current catalog/database, temporary views, name resolution, USE, SHOW TABLES, commands | refinement to a lookup specification; refutations |
| C57 | the SQL lexer and positional marker rewriting | lexing the rewritten text, by induction over tokens; refutations |
| C58 | `RangeExec`: splitting a range of 64-bit numbers into partitions and batches | integer arithmetic, induction over batches; refutation at the end of the integer range |
| C59 | `CoalesceExec`: grouping input partitions | lists: concatenation of the groups, sizes |
| C60 | `MonotonicIdExec`: ids from partition number and row offset | bit arithmetic; order and uniqueness over all layouts |
| C61 | the MERGE cardinality check per partition and the required distribution | induction over batches; equivalence to the global check; refutation without the distribution |
| C62 | streaming operators (source adapter, filter, limit, projection, union, collector) and flow markers | interpreter with interleavings as data, induction over plans; refutations |
| C63 | the session manager actor: requests, idle probes, deletion, failures, drivers | invariants by induction over histories; refutations |
| C64–C66 | MERGE expansion: join, clause selection, cardinality check, three writers, touched files | refinement to a row-by-row specification; refutation for copy-on-write |
| C67 | the Celeborn shuffle client, lifecycle manager and worker files: pushes, revives, commit, reads; when a committed partition can be read | invariants by induction over histories; refutations by executions |
| C68 | the frames, blocks and batches of shuffle files; texts of workers and codecs (compressors, xxHash32 and Arrow IPC are parameters with their round trips as hypotheses) | incremental parsing equals parsing the whole file; round trips; CRC32 injectivity from C26 |
| C69 | join reordering: the graph of a region of inner joins, checking a join tree, rebuilding the region along it (the search for the tree is arbitrary) | rows of a plan = assignments of rows to relations that satisfy the edges, before and after; refutation for null-safe keys |
| C70 | `window()`: parsing the durations, counting and enumerating the windows of a time, window_time (64-bit arithmetic as in the code) | integer division; refutation for durations above 2^62 |
| C71 | `map_from_arrays` and `map_from_entries` on offsets, validity and flat child columns, both deduplication policies | loop invariants over rows and entries; refutation for sliced columns |
| C72 | `sequence()` on integers: length, limits, elements | integer division; characterisation of every element |
| C73 | `ceil` and `floor` of integers, decimals and doubles with a target scale, and their return types | order-theoretic characterisation of division; refutations for doubles and for 38 digits |
| C74 | the preimage of `floor` and DataFusion's use of it in comparisons; rounding of integers to floating point | rounding never passes a representable number; refutations for NaN and -0.0 |
| C75 | the text reader's decoder with its partial line, batches and flushes, on any sequence of chunks | each call of decode preserves the lines of what is left; an unchecked copy of the reader separates the UTF-8 check; refutations for CR LF cut in two, invalid lines, whole files with batches of one |
| C76 | classification of UTF-8 units and the repair loop of the CSV reader | the spec of repaired texts is functional; classification is stable when more bytes arrive, so chunks compose |
| C77 | byte ranges adjusted to separators (DataFusion's calculate_range), the text writer | consecutive pieces put together are the file and end with separators; lines of pieces add up |
| C78 | the tasks that deal out rows, their senders and phases, bounded channels, readers that may go away | invariant: what was given, what waits in the channel and what the task has yet to send make up the messages of the input for that output; dealing is counted with divisions |
| C79 | the same; readers in turn follow CoalesceStream | a weight that every step lowers; a waiting task means a full channel; for readers in turn, the later output is never read and the task cannot finish |
| C80 | the task that writes a partition, the check of the metadata and of file names, the ordered map of partitions, the scan | the ordered map is a sorted permutation of what was reported, and there is only one; names of files determine the partition |
| C81 | object store and registry of a session; attempts, commits, listing and deleting as separate steps | invariant: no file of the relation is condemned; everything listed stays condemned until deleted; refutations by short histories |
| C82 | the automaton for number literals, the two regular expressions, the 8-bit arithmetic of precision and scale, the choice of type, client decimals | the automaton accepts exactly the grammar (invariant per state); the captures are computed for every numeral, and the value compared as a rational number; refutations by literals |
| C83 | interval literals from text to value (tokens, grammar, regular expressions, checked arithmetic), casts from text, the formatters of intervals and durations | the regular expressions match exactly the written form; the checked arithmetic is compared with sums of integers; shown texts are lexed and parsed step by step |
| C84 | the parsers of dates, times, zone suffixes and timestamps, literals and casts, the calendar, local times in a zone with changes of its offset, the formatters | the calendar is compared with counting days one by one; the parsers are inverted, so that accepted date and time texts are known exactly; resolution of local times by induction over the changes of the offset |
| C85 | year, last_day, next_day, names of days, the ranges into which filters on year and last_day are rewritten | days of the week by induction over days; months are shown not to overlap by induction over months, then every operator is decided by arithmetic |
| C86 | the barrier, the rule that matches partitions, deletion of the old files before an overwriting write; partitions as lists of actions, schedules as lists of steps | an invariant over all schedules: exhausted streams belong to complete preconditions, the history is first preconditions, then plan, and replaying it gives the files |
| C87 | conv for constants and columns, bin, hex and unhex; i64::from_str_radix from its documentation | induction over digits against the value of a list of digits; representations of one length are unique, so the bytes are determined by the number |
| C88 | the accumulators of mode, max_by, min_by, try_avg (decimals and year-month intervals) and three bitmap aggregates: update, state, merge, evaluate; hash maps in any order | one invariant that relates a state to the rows it stands for, kept by update and merge, then properties of the final state |
| C89 | array functions over offsets, flat values and validity: array_position, array_intersect, arrays_zip, array_compact, filter, transform, exists, forall, aggregate; lambdas that can raise errors | every well-formed column is a prefix, a concatenation of arrays and a suffix; each loop computes a concatenation of per-row results with their running lengths; the rows of that are the per-row results |
| C90 | retry strategies: the iterator over the delays with overflow, the loop of calls and sleeps | closed form of the iterator after k delays; induction over the calls that fail |
| C91 | split: rows with patterns and limits from columns or single values, pieces between matches, the bounded memo of compiled patterns | invariant of the memo; induction over the rows; induction over the matches |

## Parts of the code that are modelled

| directory | code |
|-----------|------|
| `Exec` | crates/sail-execution: task states, job scheduler, job topology and regions, task assigner, worker pool, streams (memory streams, job output), shuffle routing, round-robin partitioning, id generator |
| `Delta` | crates/sail-delta-lake: file names, deletion vectors (Z85, file layout, CRC), replay, log segments, checkpoints' content, compaction, clean-up, conflict checker, commit loop, in-commit timestamps, time travel, checksums |
| `Iceberg` | crates/sail-iceberg: transforms, partition and statistics pruning, delete index and delete application, snapshots and row lineage, commit loop and metadata files |
| `Connect` | crates/sail-spark-connect: executor buffer and reattachment, session configuration |
| `Catalog` | crates/sail-catalog*: in-memory catalog, catalog cache, name quoting, catalog manager, temporary views, name resolution |
| `Sql` | crates/sail-sql-parser: lexer, string literals, object names, variables; positional parameter markers; LIKE pattern rewriting |
| `Merge` | crates/sail-plan, sail-logical-plan and sail-delta-lake: expansion of MERGE INTO and its writers |
| `Plan` | crates/sail-physical-plan: range, coalesce, monotonic ids, MERGE cardinality check; crates/sail-physical-plan/src/repartition.rs (round robin; the hash partitioning of explicit repartitions is DataFusion's) |
| `Streaming` | crates/sail-physical-plan/src/streaming and flow events of sail-common-datafusion |
| `Session` | crates/sail-session: the session manager actor; driver registry of sail-execution |
| `Optimizer` | crates/sail-physical-optimizer/src/join_reorder: graph builder, plan check, reconstructor, final projection |
| `Functions` | crates/sail-function/src/scalar: datetime/spark_window_buckets.rs, map/utils.rs, array/spark_sequence.rs (integers), array/array_position.rs, array/array_intersect.rs, array/arrays_zip.rs (lists), array/spark_array_compact.rs, array/spark_array_filter.rs, array/spark_array_transform.rs, array/spark_array_exists.rs, array/spark_array_forall.rs, array/spark_array_aggregate.rs, array/lambda_utils.rs, math/spark_ceil_floor.rs, math/utils/decimal.rs, math/spark_conv.rs, math/spark_bin.rs (integers), math/spark_unhex.rs, string/spark_split.rs; crates/sail-function/src/functions_utils.rs (StrMemo); window specifications in crates/sail-plan/src/function/scalar/datetime.rs |
| `Source` | crates/sail-data-source/src/formats: text/reader.rs, text/writer.rs, text/source.rs (ranges; DataFusion's calculate_range and DecoderDeserializer are dependencies and modelled from their documentation), csv/decoder.rs |
| `Retry` | `sail-common/src/utils/retry.rs`: strategies, delays, the retry loop (time is the list of delays; tracing is left out) |
| `Aggregate` | crates/sail-function/src/aggregate: mode.rs (without floats), max_min_by.rs, try_avg.rs (without floats), bitmap_construct_agg.rs, bitmap_or_agg.rs, bitmap_and_agg.rs |
| `Barrier` | crates/sail-physical-plan/src/barrier.rs, crates/sail-physical-optimizer/src/barrier.rs, overwriting in crates/sail-data-source/src/listing/planner.rs and delete.rs; the repartitioning and coalescing of DataFusion as streams that end when all inputs have ended |
| `Datetime` | crates/sail-sql-analyzer/src/literal/datetime.rs, crates/sail-plan/src/resolver/expression/literal.rs (date, timestamp, time), crates/sail-function/src/scalar/datetime/spark_date.rs and spark_timestamp.rs (without a format), crates/sail-common-datafusion/src/utils/datetime.rs, dates, times and timestamps of crates/sail-common-datafusion/src/formatter.rs; the calendar of chrono; the database of time zones is a parameter, crates/sail-function/src/scalar/datetime/spark_year.rs, spark_last_day.rs and spark_next_day.rs |
| `Literal` | crates/sail-sql-parser/src/ast/literal.rs (numbers), crates/sail-sql-analyzer/src/literal/numeric.rs, crates/sail-sql-analyzer/src/value.rs (numbers), decimals of crates/sail-spark-connect/src/proto/literal.rs; not floats; interval literals: crates/sail-sql-analyzer/src/literal/interval.rs and utils.rs, interval expressions of crates/sail-sql-parser/src/ast/expression.rs, crates/sail-function/src/scalar/datetime/spark_interval.rs (from text), intervals and durations of crates/sail-common-datafusion/src/formatter.rs |
| `Checkpoint` | crates/sail-physical-plan/src/remote_checkpoint.rs, crates/sail-cache/src/remote_checkpoint.rs, crates/sail-object-store/src/path.rs (deleting under a prefix), the planning of checkpoint commands and scans in crates/sail-session/src/planner.rs; not the recorded ordering and the renaming of columns |
| `Celeborn` | crates/sail-celeborn: the shuffle client, the lifecycle manager, reading of shuffle files (one shuffle, no replicas, worker behaviour as a contract in `may_answer`) |

## Parts of the code that are not modelled

Query planning and expression translation to DataFusion, Arrow compute kernels,
network transport (gRPC framing), object-store clients, Python UDF bridging,
telemetry export, and the CLI are outside the model.  Anything these do is an
environment step or an uninterpreted value in the model.

Inside the modelled components the following is left out or assumed:

* Exec: the bytes of Arrow IPC streams and of remote shuffle storage; Flight
  transport; the contents of physical plans beyond the stage graph.
* Delta: serialisation of roaring bitmaps, JSON and Parquet encoding of actions
  and checkpoints, sidecar files, validation of the commit target, parsing of
  timestamp texts.  Listing the log directory is consistent (sees every file
  written before it started).
* Optimizer: statistics, costs and the enumeration of join trees (the tree is
  arbitrary); failing or volatile expressions; operators other than inner hash
  joins and column projections are leaves.
* Iceberg: Avro and JSON encoding, chrono's calendar (its contract is used),
  Arrow's row encoding, the internals of DataFusion's `PruningPredicate` (its
  documented behaviour is used) and row-group skipping; commits through a
  catalog beyond the compare-and-swap of the metadata location (C42).
* Connect: interrupts and `ReleaseAll`.
* Catalog: remote catalogs (Glue, Iceberg REST, Unity, HMS), the regular
  expression engine behind SHOW patterns (a parameter of the model), the storage
  side of CREATE and ALTER.
* Sql: `char::is_alphanumeric` is a parameter, known on ASCII only; keywords,
  the UESCAPE clause and the grammar beyond object names and variables.  Arrow's
  reading of LIKE patterns under a backslash is trusted.
* Merge: parsing and name resolution of the statement, validation of the clause
  order; expressions are functions on rows.
* Plan, Streaming: expressions are functions that may fail; DataFusion's join,
  filter and projection follow their documented row semantics.
* Session: what the context of a session holds; shutting down a driver.
