{
 "claims": [
  {
   "property": "C01",
   "status": "proved",
   "theorems": [
    "C01_status_never_regresses",
    "C01_finished_status_sticks",
    "C01_status_is_first_finished_or_most_advanced"
   ],
   "note": "Status reports in any order; the last theorem is the full functional characterisation."
  },
  {
   "property": "C02",
   "status": "proved",
   "theorems": [
    "C02_attempts_bounded",
    "C02_last_attempt_failed_fails_job",
    "C02_failed_task_is_retried"
   ],
   "note": "Bound for every maximum >= 1; exhausted tasks fail the job at the next refresh; failed tasks are otherwise relaunched at the next refresh."
  },
  {
   "property": "C03",
   "status": "proved",
   "theorems": [
    "C03_inputs_done_or_launched_together",
    "C03_blocking_inputs_done"
   ],
   "note": "Every input has succeeded or is launched in the same region; blocking inputs have always succeeded for planner-shaped graphs."
  },
  {
   "property": "C04",
   "status": "proved",
   "theorems": [
    "C04_only_newest_attempt_live",
    "C04_new_attempt_after_region_ended"
   ],
   "note": ""
  },
  {
   "property": "C05",
   "status": "proved",
   "theorems": [
    "C05_finished_means_all_succeeded",
    "C05_failed_means_out_of_attempts",
    "C05_all_succeeded_finishes",
    "C05_reported_cause"
   ],
   "note": ""
  },
  {
   "property": "C06",
   "status": "partial",
   "theorems": [
    "C06_removed_exactly_when_consumers_succeeded",
    "C06_removed_at_most_once",
    "C06_nobody_needs_removed_data_refuted"
   ],
   "note": "The statement (removal exactly when all consumers succeeded, at most once per stage) is proved. The title's stronger reading is refuted: after the removal a consumer can be launched again because another task of its region failed."
  },
  {
   "property": "C07",
   "status": "proved",
   "theorems": [
    "C07_regions_partition_tasks",
    "C07_pipelined_inputs_share_region",
    "C07_one_to_one_groups_are_sliced",
    "C07_dependencies_exact",
    "C07_dependencies_acyclic",
    "C07_topology_exists",
    "C07_acyclic_needs_planner_shape_refuted"
   ],
   "note": "Acyclicity holds for the shapes the planner makes; C07_acyclic_needs_planner_shape_refuted shows it fails for a general graph."
  },
  {
   "property": "C08",
   "status": "proved",
   "theorems": [
    "C08_consumer_reads_exactly",
    "C08_rescale_one_consumer",
    "C08_rescale_contiguous",
    "C08_rescale_balanced",
    "C08_streams_opened_as_declared",
    "C08_unknown_attempt_is_an_error",
    "C08_driver_locator",
    "C08_worker_locator",
    "C08_shuffle_service_channels",
    "C08_coalesce_reads_same_blocks"
   ],
   "note": ""
  },
  {
   "property": "C09",
   "status": "proved",
   "theorems": [
    "C09_one_task_set_per_slot",
    "C09_slot_contents",
    "C09_running_sets_are_hosted"
   ],
   "note": "For histories in which each task attempt is enqueued once, which the scheduler guarantees by numbering attempts."
  },
  {
   "property": "C10",
   "status": "proved",
   "theorems": [
    "C10_launches_longest_prefix",
    "C10_first_in_first_out",
    "C10_cancelled_tasks_stay_out"
   ],
   "note": ""
  },
  {
   "property": "C11",
   "status": "partial",
   "theorems": [
    "C11_worker_limit_partial",
    "C11_worker_limit_refuted"
   ],
   "note": "Bound maximum + initial count proved for every history; the bound by the maximum alone is refuted because initially started workers are not counted as requested."
  },
  {
   "property": "C12",
   "status": "proved",
   "theorems": [
    "C12_one_batch",
    "C12_rotation_continues_across_batches",
    "C12_dealing_conserves",
    "C12_dealing_keeps_order",
    "C12_dealing_is_balanced"
   ],
   "note": ""
  },
  {
   "property": "C13",
   "status": "partial",
   "theorems": [
    "C13_each_slot_exactly_once_partial",
    "C13_all_rows_exactly_once_partial",
    "C13_exactly_once_without_retry",
    "C13_late_replacement_is_an_error",
    "C13_each_slot_exactly_once_refuted",
    "C13_output_handed_over_twice_refuted",
    "C13_only_final_outputs_handed_over",
    "C13_only_good_attempts_handed_over",
    "C13_no_stream_handed_over_twice",
    "C13_all_final_outputs_handed_over"
   ],
   "note": "Exactly once without retries, and with retries that arrive before the replaced stream was read to its end; refuted otherwise: rows of a fully read attempt come again when the task is run again, and the scheduler does ask for that."
  },
  {
   "property": "C14",
   "status": "proved",
   "theorems": [
    "C14_received_is_prefix",
    "C14_complete_after_commit",
    "C14_reading_on_reaches_the_end",
    "C14_no_early_end",
    "C14_waiting_consumers_get_error",
    "C14_declared_consumers_served",
    "C14_fetches_distinct",
    "C14_one_replica_per_consumer",
    "C14_no_undeclared_consumers"
   ],
   "note": ""
  },
  {
   "property": "C15",
   "status": "proved",
   "theorems": [
    "C15_ith_request",
    "C15_ids_increasing"
   ],
   "note": ""
  },
  {
   "property": "C16",
   "status": "proved",
   "theorems": [
    "C16_versions_written_once_in_order",
    "C16_versions_stay",
    "C16_late_writer_rewrites_version_refuted"
   ],
   "note": "For every interleaving, crash and store error, versions are written once and in order, provided clean-up does not delete commits made since a running writer read the table; a run that violates this and rewrites a version is shown as refuted."
  },
  {
   "property": "C17",
   "status": "proved",
   "theorems": [
    "C17_success_means_written",
    "C17_not_blind_only_next_version",
    "C17_commits_between_are_harmless",
    "C17_blind_append_keeps_protocol_and_metadata",
    "C17_creation_finds_same_table",
    "C17_written_at_most_once",
    "C17_repeated_write_appends_twice_refuted",
    "C17_concurrent_overwrites_of_empty_table_refuted"
   ],
   "note": "Proved for all interleavings: success means written as requested; non-blind commits only as the next version; commits in between are harmless in the sense of the specification; at most one write per writer. Two refuted variants: a store that reports its own repeated write as a conflict, and concurrent overwrites of an empty table, which are classified as appends."
  },
  {
   "property": "C18",
   "status": "proved",
   "theorems": [
    "C18_check_passes_iff_harmless"
   ],
   "note": "The check passes exactly when the winning commit is harmless."
  },
  {
   "property": "C19",
   "status": "proved",
   "theorems": [
    "C19_replay_keeps_last_action",
    "C19_checkpoint_rows_restore_state",
    "C19_checkpoint_drops_only_expired",
    "C19_load_is_full_replay",
    "C19_load_succeeds"
   ],
   "note": ""
  },
  {
   "property": "C20",
   "status": "partial",
   "theorems": [
    "C20_same_table_iff_partial",
    "C20_only_dropped_removals_differ_partial",
    "C20_load_through_compactions_partial",
    "C20_removed_file_returns_refuted",
    "C20_removed_domain_returns_refuted"
   ],
   "note": "Exactly when compaction preserves the table is proved, and that nothing live is ever lost; the full statement is false (refuted): removals older than the retention time and removed domains come back."
  },
  {
   "property": "C21",
   "status": "partial",
   "theorems": [
    "C21_choice_covers_each_version_once",
    "C21_complete_log_is_accepted",
    "C21_load_reads_each_version_once_partial",
    "C21_compacted_range_skipped_refuted"
   ],
   "note": "The choice of files covers each version once and complete logs are accepted: proved. Replay of the chosen files is proved when they start right after the checkpoint with a commit, or no compacted file is used; otherwise a compacted range is skipped (refuted)."
  },
  {
   "property": "C22",
   "status": "partial",
   "theorems": [
    "C22_retained_versions_kept_partial",
    "C22_retained_versions_load_partial",
    "C22_only_older_files_deleted",
    "C22_skewed_times_refuted"
   ],
   "note": "Proved when file times follow version order; without that a retained version can lose its commit (refuted)."
  },
  {
   "property": "C23",
   "status": "partial",
   "theorems": [
    "C23_timestamp_larger_than_previous",
    "C23_timestamps_strictly_increase",
    "C23_after_compaction_refuted"
   ],
   "note": "Proved for all clocks and interleavings when timestamps are read from commits or checksums; refuted when the previous version is read through a compacted log file, whose modification time is then used. Loading of checkpoints and listing is abstracted (see C19, C21)."
  },
  {
   "property": "C24",
   "status": "partial",
   "theorems": [
    "C24_newest_version_at_timestamp",
    "C24_on_tables_with_in_commit_timestamps",
    "C24_switching_on_is_recorded",
    "C24_on_tables_switched_on",
    "C24_fails_after_cleanup_refuted"
   ],
   "note": "The search is right for every increasing sequence of timestamps (with the split where in-commit timestamps were switched on), and on every run with in-commit timestamps from the start. Refuted after log clean-up: the search may need the timestamp of a deleted version and then fails. Parsing of the timestamp text is not modelled."
  },
  {
   "property": "C25",
   "status": "partial",
   "theorems": [
    "C25_checksum_describes_version",
    "C25_file_added_again_refuted"
   ],
   "note": "Proved for every history whose commits add only absent files and remove only present ones (with their size); refuted for commits that add a live file again."
  },
  {
   "property": "C26",
   "status": "partial",
   "theorems": [
    "C26_z85_roundtrip",
    "C26_z85_invalid_reported_refuted",
    "C26_z85_padded_roundtrip",
    "C26_dv_file_roundtrip",
    "C26_dv_at_offset",
    "C26_truncation_reported",
    "C26_damaged_byte_reported",
    "C26_damaged_size_reported_partial",
    "C26_damaged_size_reported_refuted",
    "C26_location_roundtrip"
   ],
   "note": "Round trips, truncation, a damaged content byte and an oversized size field are proved for all inputs. A size field damaged to a smaller value may go unnoticed (refuted). Z85 text that no bytes encode to is decoded to its low 32 bits and not reported (C26_z85_invalid_reported_refuted)."
  },
  {
   "property": "C27",
   "status": "proved",
   "theorems": [
    "C27_names_parse_back",
    "C27_commit_names_exact",
    "C27_checksum_names_exact",
    "C27_compacted_names_exact",
    "C27_names_sort_by_version",
    "C27_listing_from_offset",
    "C27_latest_version"
   ],
   "note": ""
  },
  {
   "property": "C28",
   "status": "partial",
   "theorems": [
    "C28_partition_key_injective",
    "C28_position_deletes_matched",
    "C28_equality_deletes_matched",
    "C28_index_refused",
    "C28_nan_partition_refuted"
   ],
   "note": "Proved for all partition tuples with one NaN bit pattern and strings below 4 GiB; refuted for other NaN values, which the key does not normalise."
  },
  {
   "property": "C29",
   "status": "proved",
   "theorems": [
    "C29_file_rows",
    "C29_batching_irrelevant",
    "C29_table_rows",
    "C29_read_succeeds"
   ],
   "note": "Per file, per batch split and for the whole table; scans without filter and limit (those are C30-C32)."
  },
  {
   "property": "C30",
   "status": "partial",
   "theorems": [
    "C30_partition_pruning_partial",
    "C30_planning_succeeds_partial",
    "C30_identity_exact",
    "C30_cast_refuted",
    "C30_truncate_refuted",
    "C30_planning_refuted"
   ],
   "note": "Proved for all filters without casts whose literals lie where the transforms are monotone and do not panic; exact for comparisons on identity partitions of integer-like columns. Refuted for casts around the column, truncation near the minimum, and planning panics for dates before 1970."
  },
  {
   "property": "C31",
   "status": "partial",
   "theorems": [
    "C31_membership_refuted",
    "C31_query_refuted",
    "C31_statistics_partial",
    "C31_query_partial"
   ],
   "note": "The membership test is refuted for files with more than one value, and so is the query; proved end to end (classification, both prunings, reader, filter above the scan) where the bounds of columns tested by equality agree. DataFusion's PruningPredicate is modelled by its documented behaviour; row group skipping is not modelled."
  },
  {
   "property": "C32",
   "status": "partial",
   "theorems": [
    "C32_limit_refuted",
    "C32_limit_partial"
   ],
   "note": "Refuted with deletes: a limit counts rows before deletes are applied. Proved for tables without deletes and queries without filters."
  },
  {
   "property": "C33",
   "status": "partial",
   "theorems": [
    "C33_calendar_unique",
    "C33_null",
    "C33_day",
    "C33_hour_partial",
    "C33_month_partial",
    "C33_year_partial",
    "C33_truncate_partial",
    "C33_bucket_partial",
    "C33_void_refuted",
    "C33_date_before_1970_refuted",
    "C33_bucket_decimal_refuted",
    "C33_bucket_negative_decimal_refuted",
    "C33_bucket_nanos_refuted",
    "C33_truncate_unchanged_refuted",
    "C33_hour_range_refuted"
   ],
   "note": "Proved per transform on the ranges named in TransformSpec.v; refuted for void, dates before 1970 (year, month), decimals (bucket, truncate), binaries (truncate), nanosecond buckets and hours outside 32 bits."
  },
  {
   "property": "C34",
   "status": "partial",
   "theorems": [
    "C34_serial_partial",
    "C34_sequence_partial",
    "C34_requirements",
    "C34_latest_file",
    "C34_hint_write_refuted",
    "C34_hint_read_refuted",
    "C34_crash_refuted",
    "C34_behind",
    "C34_first_commits_refuted",
    "C34_replace_refuted",
    "C34_list_refuted"
   ],
   "note": "Path-based tables. C34_serial_partial and C34_sequence_partial: every interleaving, crash point and failure of requests other than reading and writing the version hint, for commits to a table that has a snapshot. The remaining cases are refuted with witnesses: hint writes that fail, hint reads that fail, a crash before the hint is written (C34_behind: no later commit ever succeeds), first commits to a new table, CREATE OR REPLACE beside a commit, a failed listing."
  },
  {
   "property": "C35",
   "status": "proved",
   "theorems": [
    "C35_files",
    "C35_totals",
    "C35_totals_step",
    "C35_row_ids",
    "C35_row_ids_permanent",
    "C35_row_ids_complete",
    "C35_row_ids_stable",
    "C35_sequence",
    "C35_inherit_partial",
    "C35_inherit_refuted"
   ],
   "note": "Over every history of commits and CREATE OR REPLACE on a table created by the code: files, summary totals, row ids (disjoint, below the next row id, never reused, stable, complete from format 3), sequence numbers. C35_totals_step covers tables of other writers with missing counts. C35_inherit_refuted is a finding beyond the statement: entries that carry their own row id (written by other engines) shift the ids of the entries after them."
  },
  {
   "property": "C36",
   "status": "partial",
   "theorems": [
    "C36_results_partial",
    "C36_order",
    "C36_resume",
    "C36_overflow_refuted",
    "C36_completed_refuted",
    "C36_dropped_refuted"
   ],
   "note": "C36_results_partial: every interleaving of task, network and client, provided no response is dropped from the full buffer before the client has received it; C36_order without that proviso; C36_resume: until the task has ended the client can get everything. Refuted: a client more than 128 responses behind silently misses some; a connection lost after the task ended, or a reattach request dropped while it waits, cannot be resumed. Interrupts and ReleaseAll are not modelled."
  },
  {
   "property": "C37",
   "status": "partial",
   "theorems": [
    "C37_get",
    "C37_get_option",
    "C37_get_with_default",
    "C37_get_all",
    "C37_removed",
    "C37_modifiable",
    "C37_static_refuted",
    "C37_atomic_refuted",
    "C37_declared_refuted"
   ],
   "note": "Reads are proved for every history of requests and every table of keys without fallback cycles. Refuted: static keys can be changed, a refused request may have changed some keys, declared keys whose fallback is not in the table cannot be read."
  },
  {
   "property": "C38",
   "status": "partial",
   "theorems": [
    "C38_map_partial",
    "C38_columns",
    "C38_unset",
    "C38_failed_unset_refuted",
    "C38_other_databases"
   ],
   "note": "Every operation from every reachable state has the effect and answer of the map in MemorySpec.v, except that unsetting several properties without IF EXISTS may fail after removing some of them (C38_unset says exactly what it does; C38_failed_unset_refuted is the counterexample to \"failed operations change nothing\")."
  },
  {
   "property": "C39",
   "status": "proved",
   "theorems": [
    "C39_session",
    "C39_global",
    "C39_last_definition",
    "C39_list"
   ],
   "note": "For session and global temporary views, over every server state and history; pattern matching is a parameter."
  },
  {
   "property": "C40",
   "status": "partial",
   "theorems": [
    "C40_coherent_partial",
    "C40_memory",
    "C40_own_changes_partial",
    "C40_half_way_refuted",
    "C40_overlap_refuted",
    "C40_recreated_refuted"
   ],
   "note": "Exact for every catalog whose operations change only the listings they are meant to (the in-memory catalog is one: C40_memory), for requests one after another; with changes by others the listing is no older than the session's own last change of it. Refuted: changes that fail half way, listings overlapping a change of the same session, and a database dropped by others and created again."
  },
  {
   "property": "C41",
   "status": "proved",
   "theorems": [
    "C41_round_trip",
    "C41_spaced",
    "C41_double_quotes",
    "C41_injective"
   ],
   "note": "Proved for every non-empty list of names, empty names included, and all parser options."
  },
  {
   "property": "C42",
   "status": "partial",
   "theorems": [
    "C42_base",
    "C42_one_winner_partial",
    "C42_two_keys_refuted"
   ],
   "note": "The precondition is exact (C42_base). At most one update per base succeeds provided the location is kept under one property key and is not moved back to that base; with both spellings present two updates with one base succeed (C42_two_keys_refuted)."
  },
  {
   "property": "C43",
   "status": "proved",
   "theorems": [
    "C43_quoted",
    "C43_doubled",
    "C43_triple",
    "C43_raw",
    "C43_dollar",
    "C43_unicode",
    "C43_escapes",
    "C43_total"
   ],
   "note": "Every string has literals in each style; lexing and decoding agree on where a literal ends. The UESCAPE clause is not modelled."
  },
  {
   "property": "C44",
   "status": "proved",
   "theorems": [
    "C44_like",
    "C44_default",
    "C44_literal",
    "C44_unused_partial",
    "C44_unused_refuted"
   ],
   "note": "Proved for every valid pattern and escape character, wildcards as escapes included. Beyond the property: unused escapes are literal except for wildcard and backslash escapes (C44_unused_refuted). Arrow's reading of backslash patterns is trusted."
  },
  {
   "property": "C45",
   "status": "proved",
   "theorems": [
    "C45_running_job_has_live_attempt"
   ],
   "note": ""
  },
  {
   "property": "C46",
   "status": "proved",
   "theorems": [
    "C46_failure_stops_region",
    "C46_only_failed_regions_are_stopped"
   ],
   "note": ""
  },
  {
   "property": "C47",
   "status": "proved",
   "theorems": [
    "C47_whole_region_launched_once",
    "C47_task_sets_respect_stages"
   ],
   "note": ""
  },
  {
   "property": "C48",
   "status": "partial",
   "theorems": [
    "C48_whole_stage_regions_demand_partial",
    "C48_one_slot_per_task_refuted"
   ],
   "note": "Proved for regions that hold whole stages; refuted in general: sliced regions emit empty task sets that each demand a worker slot."
  },
  {
   "property": "C49",
   "status": "proved",
   "theorems": [
    "C49_round_robin_shuffle_conserves_rows",
    "C49_hash_shuffle_places_rows"
   ],
   "note": ""
  },
  {
   "property": "C50",
   "status": "partial",
   "theorems": [
    "C50_producer_failure_is_visible_refuted"
   ],
   "note": "Refuted: a producer failing before its stream is opened by a consumer can go unnoticed; see the theorem's comment."
  },
  {
   "property": "C51",
   "status": "proved",
   "theorems": [
    "C51_idle_means_nothing_left",
    "C51_lost_worker_tasks"
   ],
   "note": ""
  },
  {
   "property": "C52",
   "status": "partial",
   "theorems": [
    "C52_request_covers_demand",
    "C52_no_over_provisioning_refuted"
   ],
   "note": "One request covers the demand minimally (proved); repeated requests over-provision (refuted, with the exact growth)."
  },
  {
   "property": "C53",
   "status": "partial",
   "theorems": [
    "C53_versions_since_last_checkpoint_partial",
    "C53_older_version_unreadable_refuted"
   ],
   "note": "Proved for versions not older than the recorded checkpoint; older versions cannot be loaded in general (refuted)."
  },
  {
   "property": "C54",
   "status": "partial",
   "theorems": [
    "C54_old_spec_refuted",
    "C54_null_partition_refuted",
    "C54_two_lists_refuted",
    "C54_reader_partial",
    "C54_identity_partial",
    "C54_exact_columns"
   ],
   "note": "Refuted with the default reader options for files of an older partition spec, null partitions and two lists on one column; proved with pushdown_filters set, and with the default options for tables partitioned by the column throughout."
  },
  {
   "property": "C55",
   "status": "partial",
   "theorems": [
    "C55_intact_partial",
    "C55_taken_back",
    "C55_lost_response_refuted",
    "C55_echo_refuted",
    "C55_codec_refuted"
   ],
   "note": "C55_intact_partial: every schedule of commits, creations and replacements with one codec, if requests that write metadata report what they did. Refuted when the response to a write is lost, when the client repeats a write, and with two codecs."
  },
  {
   "property": "C56",
   "status": "partial",
   "theorems": [
    "C56_meaning",
    "C56_full_names",
    "C56_current",
    "C56_use_database",
    "C56_use_catalog",
    "C56_use_then_lookup",
    "C56_show_tables",
    "C56_show_tables_global",
    "C56_use_catalog_refuted",
    "C56_created_found",
    "C56_sessions_apart",
    "C56_show_databases_refuted",
    "C56_alter_refuted",
    "C56_create_if_not_exists_refuted"
   ],
   "note": "Lookup is characterised completely, and full names, current names and created tables behave. Refuted: SHOW DATABASES IN catalog.database lists the wrong place, ALTER TABLE changes the table hidden by a temporary view, CREATE TABLE IF NOT EXISTS is skipped because of one. USE CATALOG keeps the current database name, which the other catalog may not have."
  },
  {
   "property": "C57",
   "status": "partial",
   "theorems": [
    "C57_positional_partial",
    "C57_touching_refuted",
    "C57_dollar_refuted",
    "C57_named_refuted",
    "C57_variables"
   ],
   "note": "Proved where the statement has no dollar sign of its own and no marker touches a word on its right; both exclusions are needed (refuted with witnesses). Named variables used four times with the same text between are lost."
  },
  {
   "property": "C64",
   "status": "partial",
   "theorems": [
    "C64_iceberg",
    "C64_delta_merge_on_read",
    "C64_delta_copy_on_write_partial",
    "C64_delta_copy_on_write_refuted"
   ],
   "note": "Proved in full for Iceberg and for Delta merge-on-read. For Delta copy-on-write proved except for statements with NOT MATCHED BY SOURCE clauses and no MATCHED clause when several source rows match one target row; there the property is false (C64_delta_copy_on_write_refuted). Casts to the column type, generated columns and check constraints are not modelled."
  },
  {
   "property": "C65",
   "status": "proved",
   "theorems": [
    "C65_ambiguous",
    "C65_no_check_needed",
    "C65_unsupported"
   ],
   "note": "The analysis of functional dependencies assumes that the dependencies DataFusion attaches to the plan hold of its rows."
  },
  {
   "property": "C66",
   "status": "proved",
   "theorems": [
    "C66_untouched_files"
   ],
   "note": ""
  },
  {
   "property": "C58",
   "status": "partial",
   "theorems": [
    "C58_range_partial",
    "C58_range_total",
    "C58_range_prefix",
    "C58_range_lost_refuted"
   ],
   "note": "Proved when the first point past the end is a 64-bit integer; all partitions but the last are always right. The full statement is refuted: a range ending near the largest 64-bit integer loses the rows of its last partition, because the exclusive end is cast with wrap-around."
  },
  {
   "property": "C59",
   "status": "proved",
   "theorems": [
    "C59_rows",
    "C59_adjacent",
    "C59_total",
    "C59_zero"
   ],
   "note": "Rows kept, number of partitions, adjacency and balance, for every pattern of pending inputs. coalesce(1) is DataFusion's CoalescePartitionsExec, modelled as any interleaving."
  },
  {
   "property": "C60",
   "status": "proved",
   "theorems": [
    "C60_ids"
   ],
   "note": "For up to 2^30 partitions (a partition index of 31 bits or more would make ids negative)."
  },
  {
   "property": "C61",
   "status": "proved",
   "theorems": [
    "C61_cardinality",
    "C61_needs_partitioning"
   ],
   "note": "For every distribution in which rows with the same id share a partition, which is what the operator asks of the planner; C61_needs_partitioning shows that the requirement matters."
  },
  {
   "property": "C62",
   "status": "partial",
   "theorems": [
    "C62_streaming_rows",
    "C62_streaming_succeeds_partial",
    "C62_markers_partial",
    "C62_adapter_append_only",
    "C62_encoding",
    "C62_placeholder_failure_refuted",
    "C62_retraction_refuted",
    "C62_limit_drops_markers_refuted"
   ],
   "note": "Rows are right for every plan, interleaving and batch layout. Refuted parts: expressions are also evaluated on the placeholder row of each marker and can fail there; a limit that is reached drops the markers that follow; the collector ignores retractions (no source produces them today). The protobuf encoding of markers is not modelled."
  },
  {
   "property": "C63",
   "status": "partial",
   "theorems": [
    "C63_one_context_per_session",
    "C63_closed_for_good",
    "C63_no_early_close",
    "C63_idle_closed",
    "C63_drivers",
    "C63_user_refuted",
    "C63_running_query_refuted",
    "C63_deleted_refuted"
   ],
   "note": "Proved for all histories: one context per session id, closed sessions stay closed, no early idle close, a pending check closes every idle session, drivers match running sessions. Refuted: a session with a running query can be closed as idle (only requests count as activity); a request of another user that names the session gets its context; a late driver failure relabels a deleted session as failed."
  },
  {
   "property": "C67",
   "status": "partial",
   "theorems": [
    "C67_no_batch_lost",
    "C67_right_partition",
    "C67_winners_once_partial",
    "C67_committed_partial",
    "C67_commit_is_final",
    "C67_losers_refuted",
    "C67_timeout_refuted",
    "C67_failed_commit_refuted",
    "C67_readable_partial",
    "C67_late_place_refuted",
    "C67_batch_numbers"
   ],
   "note": "Proved for all histories: no batch of a winning attempt is lost, only batches of the partition are returned, commit and commit failure are final. Partial: winners exactly once if failed pushes store nothing; committed if one attempt per mapper ends. Refuted: batches of losing attempts are returned (the reader drops the attempt in the header and filters nothing); a batch stored by a push that timed out is returned twice; after a failed commit the next attempt is told that it succeeded although the shuffle can never be read. A revive that is pending when the commit begins may add a place afterwards that is never closed; the partition is then committed and cannot be read (refuted); without such revives every committed partition can be read (partial)."
  },
  {
   "property": "C68",
   "status": "partial",
   "theorems": [
    "C68_written_is_read",
    "C68_chunks_do_not_matter",
    "C68_cut_off_partial",
    "C68_cut_between_batches_refuted",
    "C68_accepted_blocks_are_whole",
    "C68_changed_byte_noticed",
    "C68_worker_roundtrip",
    "C68_worker_valid",
    "C68_codec_roundtrip",
    "C68_codec_valid"
   ],
   "note": "Compressors, xxHash32 and Arrow IPC are parameters with their round trips as hypotheses. A file cut between two batches is read without an error (C68_cut_between_batches_refuted), so the truncation theorem is partial; C68_changed_byte_noticed covers the CRC32 format."
  },
  {
   "property": "C69",
   "status": "partial",
   "theorems": [
    "C69_same_rows_partial",
    "C69_repeatable_partial",
    "C69_always_rebuilt_partial",
    "C69_names",
    "C69_null_safe_equality_refuted"
   ],
   "note": "Proved for every choice of join tree, every limit on relations and every hash map order. False for a null-safe join that also filters by column = column on its keys (C69_null_safe_equality_refuted): the filter is dropped. Costs, statistics and the search for the tree are not modelled (the tree is arbitrary); expressions do not fail and are deterministic."
  },
  {
   "property": "C70",
   "status": "partial",
   "theorems": [
    "C70_accepted",
    "C70_windows",
    "C70_no_row_lost",
    "C70_tumbling",
    "C70_window_time",
    "C70_long_window_refuted"
   ],
   "note": "Proved for durations whose sum with the slide stays below 2^63 and times far enough from the ends of the 64-bit range. False for longer windows (C70_long_window_refuted): the number of windows overflows and all rows are dropped."
  },
  {
   "property": "C71",
   "status": "partial",
   "theorems": [
    "C71_sliced_refuted"
   ],
   "note": "Proved for key columns whose first offset is 0. False for sliced columns (C71_sliced_refuted): keys are taken from the wrong rows."
  },
  {
   "property": "C72",
   "status": "proved",
   "theorems": [
    "C72_rows",
    "C72_fails",
    "C72_unique",
    "C72_far_ends_refuted"
   ],
   "note": "The failures are characterised exactly; C72_far_ends_refuted shows that a short sequence between ends more than 2^63 apart is refused, as in Spark. Dates, timestamps and intervals are not modelled; memory is assumed to suffice."
  },
  {
   "property": "C73",
   "status": "partial",
   "theorems": [
    "C73_decimal",
    "C73_decimal_fits",
    "C73_fits_refuted",
    "C73_integer",
    "C73_double_partial",
    "C73_double_refuted"
   ],
   "note": "Proved for integers and decimals. False for doubles with more places than asked for, which are first rounded to the nearest (C73_double_refuted), and the answer for 38-digit integers can be one digit too long (C73_fits_refuted)."
  },
  {
   "property": "C74",
   "status": "partial",
   "theorems": [
    "C74_filter_partial",
    "C74_bounds_fit",
    "C74_negative_zero_refuted",
    "C74_nan_refuted"
   ],
   "note": "Proved for all integers and decimals, and for all floats and doubles except NaN and -0.0, for which it is false (C74_nan_refuted, C74_negative_zero_refuted). Arrow's order of floating-point numbers is modelled as IEEE totalOrder."
  },
  {
   "property": "C75",
   "status": "partial",
   "theorems": [
    "C75_spec_unique",
    "C75_lines",
    "C75_crlf_partial",
    "C75_crlf_refuted",
    "C75_utf8_refuted",
    "C75_whole",
    "C75_whole_refuted"
   ],
   "note": "Proved with a separator, for whole files with batches of two or more rows, and without a separator when no chunk ends between CR and LF. Refuted: a CR LF cut by a chunk boundary adds an empty row; rows that are not UTF-8 pass when the batch as a whole is; batches of one row break whole_text."
  },
  {
   "property": "C76",
   "status": "proved",
   "theorems": [
    "C76_repaired",
    "C76_valid",
    "C76_unchanged",
    "C76_structure",
    "C76_shortcut"
   ],
   "note": "Malformed sequences are specified in Source/Utf8Spec.v (longest beginning of a character or surrogate)."
  },
  {
   "property": "C77",
   "status": "partial",
   "theorems": [
    "C77_ranges",
    "C77_whole_refuted",
    "C77_round_trip",
    "C77_round_trip_default"
   ],
   "note": "Lines over ranges and the round trips are proved (DataFusion's calculate_range is modelled from its documentation). Refuted for whole_text: a row for each range."
  },
  {
   "property": "C78",
   "status": "proved",
   "theorems": [
    "C78_dealt",
    "C78_prefix",
    "C78_each_once",
    "C78_balanced"
   ],
   "note": "Each step of a task up to the next await is a step; any interleaving."
  },
  {
   "property": "C79",
   "status": "partial",
   "theorems": [
    "C79_nothing_hangs",
    "C79_bounded",
    "C79_in_turn_refuted"
   ],
   "note": "Proved for readers that are independent of each other. Refuted for repartition(n).coalesce(m) with 1 <= m < n: the coalesced readers take one output after the other, and for every channel size there is an input with which no run comes to an end (m = 1 is planned differently; every 1 < m < n is affected)."
  },
  {
   "property": "C80",
   "status": "proved",
   "theorems": [
    "C80_partition",
    "C80_accepts",
    "C80_one_partition",
    "C80_round_trip",
    "C80_partitioning"
   ],
   "note": "Parquet files give back the rows written to them; JSON metadata comes back as written. The recorded ordering of the rows is not modelled."
  },
  {
   "property": "C81",
   "status": "partial",
   "theorems": [
    "C81_readable",
    "C81_unchanged",
    "C81_failed_leaves_nothing",
    "C81_closed_leaves_nothing",
    "C81_other_files",
    "C81_retry_refuted",
    "C81_overlap_refuted"
   ],
   "note": "Proved for a relation that is committed once. Refuted when the commit is attempted more than once: a second commit after a success deletes the published files (C81_retry_refuted), and the clean-up of a failed attempt can delete the files of the next one, whose commit then succeeds (C81_overlap_refuted). Nothing is left behind only if no task still writes."
  },
  {
   "property": "C82",
   "status": "partial",
   "theorems": [
    "C82_lexer",
    "C82_exact",
    "C82_accepted",
    "C82_type",
    "C82_integer",
    "C82_integer_suffix",
    "C82_point_inserted",
    "C82_only_numerals",
    "C82_exact_refuted",
    "C82_error_refuted",
    "C82_panics",
    "C82_client",
    "C82_client_refuted"
   ],
   "note": "Proved for literals with a point or at most 38 digits before it. Refuted beyond: an integer of 39 to 76 digits without a point is read with a point after its 38th digit (C82_exact_refuted, C82_point_inserted). Some literals with large exponents panic instead of giving an error (C82_error_refuted; C82_panics says which). A scale given by a client that is larger than that of the text changes the number (C82_client_refuted). Which float a float literal is, is not modelled."
  },
  {
   "property": "C83",
   "status": "partial",
   "theorems": [
    "C83_standard",
    "C83_multi",
    "C83_multi_accepts",
    "C83_opposite_wraps_refuted",
    "C83_year_month",
    "C83_year_month_min_refuted",
    "C83_duration",
    "C83_day_time",
    "C83_day_time_mixed_refuted",
    "C83_calendar",
    "C83_calendar_back_partial",
    "C83_calendar_back_refuted"
   ],
   "note": "Literals with a qualifier: exact. Literals with several units: exact if no opposite of a string with the smallest number is taken, which wraps (C83_opposite_wraps_refuted). Reading back: year-month intervals except the smallest (C83_year_month_min_refuted), durations up to whole microseconds, day-time intervals of one sign (C83_day_time_mixed_refuted), calendar intervals: what they are read back as is computed for all of them (C83_calendar), they are the same under the conditions of C83_calendar_back_partial but not always (C83_calendar_back_refuted)."
  },
  {
   "property": "C84",
   "status": "partial",
   "theorems": [
    "C84_calendar",
    "C84_date_texts",
    "C84_date",
    "C84_time_texts",
    "C84_time",
    "C84_timestamp_texts",
    "C84_date_only",
    "C84_cast_only",
    "C84_timestamp_ntz",
    "C84_timestamp_ltz",
    "C84_first_exists",
    "C84_timestamp_ltz_refuted",
    "C84_leap_second_refuted",
    "C84_ntz_rest",
    "C84_ntz_digits_refuted",
    "C84_cast_no_panic",
    "C84_literal_panic",
    "C84_panic_refuted"
   ],
   "note": "Dates and times: exactly the texts that are accepted and their values, and every shown value is read back. Timestamps: the value of every text made of a date, separator, time and zone; shown values are read back without a time zone, and with one exactly if the clocks did not show that time before (C84_timestamp_ltz_refuted). A cast to a timestamp without time zone ignores anything after the time, also digits (C84_ntz_rest, C84_ntz_digits_refuted). TIME '23:59:60' is 23:59:59, the timestamp literal is the next day, the cast is an error (C84_leap_second_refuted). One literal panics (C84_literal_panic, C84_panic_refuted). What casts to timestamps accept is known (C84_cast_only). Missing: which of several ways to split a text is taken when characters of a time follow a complete time."
  },
  {
   "property": "C85",
   "status": "partial",
   "theorems": [
    "C85_last_day",
    "C85_next_day",
    "C85_next_day_total",
    "C85_next_day_panic_refuted",
    "C85_day_names",
    "C85_year_filter",
    "C85_last_day_filter",
    "C85_next_day_unknown",
    "C85_year",
    "C85_last_day_refuted",
    "C85_next_day_row"
   ],
   "note": "Proved for every date of chrono; the rewritten filters agree with the original ones for all operators and constants where the original comparison has a value (a date outside the range of chrono is an error before the rewriting and compared as a number after it). next_day panics in the last days of the range (C85_next_day_panic_refuted), last_day is an error in the last month (C85_last_day_refuted). Names of days that only Unicode upper-casing maps to a name are not modelled."
  },
  {
   "property": "C86",
   "status": "partial",
   "theorems": [
    "C86_barrier",
    "C86_failed_precondition",
    "C86_order",
    "C86_progress",
    "C86_unmatched_refuted",
    "C86_overwrite",
    "C86_overwrite_itself",
    "C86_overwrite_keeps_rows_refuted",
    "C86_failure_keeps_rows_refuted"
   ],
   "note": "For every schedule: all preconditions are complete, once and in order, before the first action of the plan; none of its actions happens if a precondition fails; preconditions with one partition run one after the other; execution never gets stuck; a finished overwrite has exactly the new files. Without the optimizer rule this is false (C86_unmatched_refuted). The old files are deleted before the query runs, so a query that reads the table it overwrites never succeeds (C86_overwrite_itself) and its rows are lost (C86_overwrite_keeps_rows_refuted), as they are after any other failure (C86_failure_keeps_rows_refuted). Missing: the stages of a cluster, and files added by others between listing and deletion."
  },
  {
   "property": "C87",
   "status": "partial",
   "theorems": [
    "C87_conv_null",
    "C87_conv",
    "C87_conv_back",
    "C87_conv_least_refuted",
    "C87_constant_null_refuted",
    "C87_int_column_refuted",
    "C87_int_constant",
    "C87_bin",
    "C87_unhex",
    "C87_hex_unhex"
   ],
   "note": "C87_conv, C87_conv_null and C87_conv_back for all texts and bases except the least number, which becomes a text that is not a number (C87_conv_least_refuted). A constant NULL is read as the digits N, U, L, L in bases above 30 (C87_constant_null_refuted). An int in a column is converted from base 10 whatever the first base, unlike an int constant (C87_int_column_refuted, C87_int_constant). bin and unhex hold for all inputs. Missing: the reading of texts and decimals by bin; arrays of other types."
  },
  {
   "property": "C88",
   "status": "partial",
   "theorems": [
    "C88_mode",
    "C88_mode_string",
    "C88_max_min_by",
    "C88_max_min_by_same",
    "C88_try_avg",
    "C88_try_avg_total",
    "C88_try_avg_range",
    "C88_try_avg_order_refuted",
    "C88_try_avg_decimal_refuted",
    "C88_bitmap_construct",
    "C88_bitmap_or",
    "C88_bitmap_and"
   ],
   "note": "mode and the bitmaps are determined by all rows together for every distribution. max_by and min_by return a row with the extreme ordering, the same one if orderings do not repeat. A number that try_avg returns is the average, and it returns one if no partial sum can overflow; otherwise whether it returns NULL depends on the distribution (C88_try_avg_order_refuted). Averages of decimals are cut, not rounded (C88_try_avg_decimal_refuted). Missing: floating-point values, percentiles and sketches; orderings of max_by are integers."
  },
  {
   "property": "C89",
   "status": "partial",
   "theorems": [
    "C89_position",
    "C89_intersect",
    "C89_intersect_null",
    "C89_zip",
    "C89_compact_partial",
    "C89_compact_slice_refuted",
    "C89_filter",
    "C89_transform",
    "C89_lambda_total",
    "C89_exists",
    "C89_forall",
    "C89_aggregate"
   ],
   "note": "Proved for every well-formed column; array_compact only for columns whose first offset is zero, since on a slice it returns elements of other rows (C89_compact_slice_refuted). filter and transform raise an error if the lambda does for any element, also of a NULL row. Missing: fixed-size lists in arrays_zip, limits of the offset types."
  },
  {
   "property": "C90",
   "status": "partial",
   "theorems": [
    "C90_success",
    "C90_failure",
    "C90_bound",
    "C90_maximum",
    "C90_first_delay_refuted",
    "C90_overflow_refuted"
   ],
   "note": "Proved for all strategies whose delays can be computed. Not so otherwise: the product is formed before it is limited, so a call that would succeed the second time panics instead (C90_overflow_refuted). The first delay is not limited by the maximum (C90_first_delay_refuted). The number of calls is bounded in every case."
  },
  {
   "property": "C91",
   "status": "partial",
   "theorems": [
    "C91_memo",
    "C91_rows",
    "C91_pieces",
    "C91_batches_refuted"
   ],
   "note": "Proved for all batches whose only pattern, if there is just one, is valid. Not so otherwise: a row that is NULL and has an invalid pattern raises an error if it is a batch of its own and is NULL in a longer batch (C91_batches_refuted). Regular expressions are the ordered ranges that they match."
  }
 ]
}