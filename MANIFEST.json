{
 "claims": [
  {
   "property": "C01",
   "status": "proved",
   "theorems": [
    "C01_file_name_round_trip",
    "C01_parsed_round_trip",
    "C01_file_names_injective",
    "C01_file_name_layout"
   ],
   "note": "Every accepted 14/17-character timestamp, every action and state, every time zone."
  },
  {
   "property": "C02",
   "status": "proved",
   "theorems": [
    "C02_string_order_agrees_with_time",
    "C02_same_width_orders_coincide",
    "C02_leap_second_refuted"
   ],
   "note": "For real calendar timestamps (seconds <= 59) as the property says; C02_leap_second_refuted shows that the parser also accepts second 60, where the orders disagree."
  },
  {
   "property": "C03",
   "status": "partial",
   "theorems": [
    "C03_unrelated_names_ignored_refuted",
    "C03_unrelated_names_ignored_partial",
    "C03_panic_condition_partial"
   ],
   "note": "The property is false: C03_unrelated_names_ignored_refuted gives a name that panics. The partial theorems give the exact panic condition and show that all other unrelated names are ignored."
  },
  {
   "property": "C04",
   "status": "proved",
   "theorems": [
    "C04_timeline_is_completed_instants",
    "C04_timeline_of_entries",
    "C04_listing_order_irrelevant"
   ],
   "note": ""
  },
  {
   "property": "C05",
   "status": "proved",
   "theorems": [
    "C05_select_exact",
    "C05_select_exact_any_bounds",
    "C05_any_selector",
    "C05_created"
   ],
   "note": ""
  },
  {
   "property": "C06",
   "status": "proved",
   "theorems": [
    "C06_windows_compose"
   ],
   "note": ""
  },
  {
   "property": "C07",
   "status": "partial",
   "theorems": [
    "C07_latest_or_error",
    "C07_empty_table_partial",
    "C07_time_travel_on_empty_table_refuted",
    "C07_latest_commit_is_maximum"
   ],
   "note": "Latest commit proved; the empty-table clause proved for every query without an explicit time. C07_time_travel_on_empty_table_refuted: queries as of an explicit time fail on an empty table."
  },
  {
   "property": "C08",
   "status": "partial",
   "theorems": [
    "C08_up_to_partial",
    "C08_within_partial",
    "C08_within_open_closed_partial",
    "C08_not_in_range_is_complement",
    "C08_bad_probe_never_answered",
    "C08_bad_timestamp_is_error_refuted"
   ],
   "note": "Membership and complement proved; the clause 'an unparsable timestamp is an error' is refuted (short probes panic; a bad end bound is not noticed below the start)."
  },
  {
   "property": "C09",
   "status": "proved",
   "theorems": [
    "C09_replaced_exactly_up_to",
    "C09_succeeds_on_readable_metadata",
    "C09_replaced_set_grows"
   ],
   "note": ""
  },
  {
   "property": "C10",
   "status": "proved",
   "theorems": [
    "C10_succeeds_iff",
    "C10_written_and_not_replaced"
   ],
   "note": "C10_succeeds_iff: exactly when a window can be answered (bounds are times, metadata of its commits proper, one base file per file group and commit time)."
  },
  {
   "property": "C11",
   "status": "partial",
   "theorems": [
    "C11_nothing_invented",
    "C11_files_exact_partial",
    "C11_fields",
    "C11_every_stat_represented_refuted",
    "C11_every_stat_represented_partial",
    "C11_identities_exact",
    "C11_accepted_iff",
    "C11_log_only_stat_rejected"
   ],
   "note": "False when two write stats of a partition share a file id (C11_every_stat_represented_refuted: the second stat's log files are lost). Proved: identities always exact; files represented for every stat with a unique file id; exact acceptance condition. Every file of a group is named by a write stat of its partition and id, for all metadata (C11_nothing_invented); when file ids are unique per partition the files are exact (C11_files_exact_partial)."
  },
  {
   "property": "C12",
   "status": "proved",
   "theorems": [
    "C12_base_name_round_trip",
    "C12_accepted_name_reproduced",
    "C12_extra_parts_lost"
   ],
   "note": "Round trip for all components; accepted names with three parts reproduced. C12_extra_parts_lost shows the three-part restriction is needed."
  },
  {
   "property": "C13",
   "status": "proved",
   "theorems": [
    "C13_accepted_name_reproduced",
    "C13_components_round_trip",
    "C13_accepted_names"
   ],
   "note": ""
  },
  {
   "property": "C14",
   "status": "proved",
   "theorems": [
    "C14_as_of_newest"
   ],
   "note": ""
  },
  {
   "property": "C15",
   "status": "proved",
   "theorems": [
    "C15_building_succeeds",
    "C15_order_irrelevant",
    "C15_contents_order_irrelevant",
    "C15_contents",
    "C15_keys"
   ],
   "note": ""
  },
  {
   "property": "C16",
   "status": "proved",
   "theorems": [
    "C16_base_rejected_iff_present",
    "C16_log_rejected_iff_orphan",
    "C16_new_group"
   ],
   "note": ""
  },
  {
   "property": "C17",
   "status": "proved",
   "theorems": [
    "C17_merge_succeeds_iff",
    "C17_mismatch_is_error",
    "C17_merge_is_union",
    "C17_merge_idempotent",
    "C17_merge_commutative",
    "C17_merge_associative"
   ],
   "note": ""
  },
  {
   "property": "C18",
   "status": "partial",
   "theorems": [
    "C18_version_order_refuted",
    "C18_string_order",
    "C18_numeric_order_partial"
   ],
   "note": "False for versions of different digit counts (C18_version_order_refuted: 10 before 2). Proved: string order always, numeric order at equal digit counts."
  },
  {
   "property": "C19",
   "status": "partial",
   "theorems": [
    "C19_distinct_logs_kept_refuted",
    "C19_distinct_logs_kept_partial"
   ],
   "note": "False when names differ only in extension or file id (C19_distinct_logs_kept_refuted). Proved for log files of one file id and extension."
  },
  {
   "property": "C20",
   "status": "proved",
   "theorems": [
    "C20_listing_succeeds_exactly",
    "C20_groups_exact",
    "C20_listing_order_irrelevant"
   ],
   "note": ""
  },
  {
   "property": "C21",
   "status": "proved",
   "theorems": [
    "C21_partitions_are_leaf_directories"
   ],
   "note": ""
  },
  {
   "property": "C22",
   "status": "proved",
   "theorems": [
    "C22_every_schedule_terminates",
    "C22_result_under_every_schedule",
    "C22_same_map_under_all_schedules",
    "C22_zero_parallelism_hangs_refuted"
   ],
   "note": "For parallelism >= 1 as the property says; C22_zero_parallelism_hangs_refuted shows that the accepted value 0 hangs."
  },
  {
   "property": "C23",
   "status": "proved",
   "theorems": [
    "C23_query_independent_of_history",
    "C23_query_has_an_answer"
   ],
   "note": ""
  },
  {
   "property": "C24",
   "status": "proved",
   "theorems": [
    "C24_view_is_a_snapshot",
    "C24_table_snapshot"
   ],
   "note": "At the file system view and at the table (replaced groups from the timeline, partitions from the filters)."
  },
  {
   "property": "C25",
   "status": "partial",
   "theorems": [
    "C25_uncommitted_refuted",
    "C25_committed_partial"
   ],
   "note": "False: C25_uncommitted_refuted shows a base file of a writer that never committed. Proved: nothing later than t is shown, and all is committed if the writers up to t have committed."
  },
  {
   "property": "C26",
   "status": "proved",
   "theorems": [
    "C26_splits_as_of",
    "C26_splits"
   ],
   "note": ""
  },
  {
   "property": "C27",
   "status": "proved",
   "theorems": [
    "C27_blocks_read_back",
    "C27_reading_terminates",
    "C27_unsupported_block_rejected",
    "C27_unknown_version_rejected",
    "C27_unknown_records_rejected",
    "C27_repeated_keys",
    "C27_bad_header_rejected"
   ],
   "note": "All block sequences in format versions 1-3; the Avro, Parquet and schema decoders are parameters. Unsupported block types are shown to fail the read. When a header key is repeated in a block the last value counts (C27_repeated_keys)."
  },
  {
   "property": "C28",
   "status": "partial",
   "theorems": [
    "C28_avro_partial",
    "C28_avro_refuted",
    "C28_truncated_log_partial",
    "C28_garbage_rejected"
   ],
   "note": "C28_truncated_log_partial: every cut, if the decoder rejects a cut record or (versions 2 and 3) cut Parquet content (cut_detected). Avro's decoder does not: it takes the end of input for nulls. C28_avro_partial: with this decoder (M_Datum) the claim holds for version 1, whose blocks end in a footer, and Avro data; C28_avro_refuted: it fails for version 2, where a record cut in its key is read as a record of nulls. Missing for versions 2 and 3: nothing but a change of the code would make it true."
  },
  {
   "property": "C29",
   "status": "proved",
   "theorems": [
    "C29_scan_exact",
    "C29_later_rollback_ignored"
   ],
   "note": "All files and blocks. C29_later_rollback_ignored: a rollback block after the requested time is not seen, so time travel returns rolled-back data."
  },
  {
   "property": "C30",
   "status": "partial",
   "theorems": [
    "C30_later_block_kept_refuted",
    "C30_earlier_blocks_removed_partial"
   ],
   "note": "False: C30_later_block_kept_refuted (a block appended after the rollback with the same instant is dropped). Proved: the earlier data blocks are removed."
  },
  {
   "property": "C31",
   "status": "proved",
   "theorems": [
    "C31_one_latest_row_per_key",
    "C31_reordered_columns_refuted"
   ],
   "note": "All batches of one schema, ties and nulls included; every order an unstable sort or a hash map may produce. C31_reordered_columns_refuted records that columns are matched by position: a batch with the same columns in another order is misread."
  },
  {
   "property": "C32",
   "status": "proved",
   "theorems": [
    "C32_batching_irrelevant",
    "C32_staged",
    "C32_ties_refuted"
   ],
   "note": "All batchings and permutations and staged merges. C32_ties_refuted shows that the hypothesis on ties is needed."
  },
  {
   "property": "C33",
   "status": "proved",
   "theorems": [
    "C33_append_only"
   ],
   "note": "All batches of one schema; all configurations that do not select overwrite-with-latest."
  },
  {
   "property": "C34",
   "status": "proved",
   "theorems": [
    "C34_derived_strategy_accepted",
    "C34_accepted_strategy_runs"
   ],
   "note": "All configurations; the strategy, configured or derived, as the merger looks it up."
  },
  {
   "property": "C35",
   "status": "proved",
   "theorems": [
    "C35_window_exact",
    "C35_snapshot_all",
    "C35_windows_split"
   ],
   "note": "All base files with a text commit-time column, all windows, compared as text as the code does. Tables without meta fields are not filtered (C35_snapshot_all)."
  },
  {
   "property": "C36",
   "status": "proved",
   "theorems": [
    "C36_no_later_log_records",
    "C36_read_optimized",
    "C36_slice_exact"
   ],
   "note": "All slices, log contents and timestamps. C36_slice_exact also gives the exact rows of a slice."
  },
  {
   "property": "C37",
   "status": "proved",
   "theorems": [
    "C37_matching_partition_kept"
   ],
   "note": "All four naming schemes, arbitrary values; field names without '=', '/' and '%'."
  },
  {
   "property": "C38",
   "status": "proved",
   "theorems": [
    "C38_pruning_exact",
    "C38_no_filter_keeps_everything"
   ],
   "note": "For values that can be cast and compared; others are always kept (C37)."
  },
  {
   "property": "C39",
   "status": "partial",
   "theorems": [
    "C39_configured_order_refuted",
    "C39_schema_order_partial",
    "C39_hive_any_order_partial"
   ],
   "note": "False without hive-style names (C39_configured_order_refuted). Proved when the configured order is the schema order, and for every order with hive-style names (nothing wrongly dropped)."
  },
  {
   "property": "C40",
   "status": "proved",
   "theorems": [
    "C40_negation_is_complement",
    "C40_kernel_decides_operator",
    "C40_text_round_trip"
   ],
   "note": ""
  },
  {
   "property": "C41",
   "status": "partial",
   "theorems": [
    "C41_literal_left_refuted",
    "C41_row_partition_kept_partial",
    "C41_translated_conjuncts",
    "C41_other_columns_fail"
   ],
   "note": "False for a literal on the left of an inequality (C41_literal_left_refuted). Proved for all other conjuncts, with the exact set of translated conjuncts."
  },
  {
   "property": "C42",
   "status": "proved",
   "theorems": [
    "C42_option_precedence",
    "C42_order_irrelevant"
   ],
   "note": "All option maps, environments and files and every hash iteration order; file contents are parameters. The base path given by the caller can be overridden by hoodie.properties, as the statement shows."
  },
  {
   "property": "C43",
   "status": "proved",
   "theorems": [
    "C43_properties_parsed",
    "C43_global_spaced_equals_refuted"
   ],
   "note": "All files made of clean pairs, comments and blank lines. C43_global_spaced_equals_refuted records that the global file, where a blank also separates, reads \"hoodie.a = b\" as \"= b\"."
  },
  {
   "property": "C44",
   "status": "partial",
   "theorems": [
    "C44_missing_flag_refuted",
    "C44_lookups_partial",
    "C44_other_lookups_partial"
   ],
   "note": "False: C44_missing_flag_refuted (the hive-style and URL-encoding flags have no default and validation does not require them). Proved: with both present no lookup panics, and all other lookups never panic for any options."
  },
  {
   "property": "C45",
   "status": "proved",
   "theorems": [
    "C45_validation_exact",
    "C45_skip_flag",
    "C45_never_panics",
    "C45_numbers"
   ],
   "note": "All configurations. With the skip flag everything is accepted (C45_skip_flag)."
  },
  {
   "property": "C46",
   "status": "proved",
   "theorems": [
    "C46_reader_options"
   ],
   "note": "All option maps and hash iteration orders; hoodie.* keys among the table storage options, if any, rank between the overriding options and the table options."
  },
  {
   "property": "C47",
   "status": "partial",
   "theorems": [
    "C47_file_root_partial",
    "C47_drive_refuted",
    "C47_file_root_distinct_partial",
    "C47_file_root_lists_partial",
    "C47_file_root_read_partial",
    "C47_drive_listed_refuted",
    "C47_characters",
    "C47_addressing_partial",
    "C47_distinct_partial",
    "C47_list_files_partial",
    "C47_list_dirs_partial",
    "C47_listed_read_partial",
    "C47_base_slash",
    "C47_never_panics",
    "C47_names_only",
    "C47_escape_refuted",
    "C47_collision_refuted"
   ],
   "note": "All base URLs (file URLs of the root directory in C47_file_root_partial, C47_file_root_lists_partial and C47_file_root_read_partial) and all relative paths without tab, line feed and carriage return: addressing, listing and reading back are exact. The URL library drops those three characters: C47_escape_refuted and C47_collision_refuted show that with a tab the property is false. At the root of a file URL a first name that begins with a letter and a colon or a bar is another object (C47_drive_refuted), and a listed name of that form cannot be read back (C47_drive_listed_refuted). C47_characters: what control characters and plain paths are, by their characters."
  },
  {
   "property": "C48",
   "status": "partial",
   "theorems": [
    "C48_lists_partial",
    "C48_nested_partial",
    "C48_nullable_boolean_list_refuted",
    "C48_nullable_booleans_refuted",
    "C48_null_list_of_records_refuted",
    "C48_null_list_panics_refuted",
    "C48_null_list_of_lists_refuted",
    "C48_records_in_lists_of_lists_refuted"
   ],
   "note": "False for some constructs (six refutations). Proved: lists of scalars, nullable or not, keep every row; nested lists and records to any depth under the conditions lossless and nulls_ok of S_Avro.v, which exclude the refuted constructs."
  },
  {
   "property": "C49",
   "status": "partial",
   "theorems": [
    "C49_scalars_partial",
    "C49_shown_or_error_partial",
    "C49_only_records",
    "C49_uuid_refuted",
    "C49_nanos_refuted",
    "C49_references_refuted",
    "C49_alias_refuted",
    "C49_bytes"
   ],
   "note": "False for nullable UUIDs (silently null), nanosecond and local timestamps and references to named types (panic), and aliases that are names of earlier fields. Proved for all other scalar types, and shown-or-error without panics for all schemas without the excluded constructs. C49_only_records: a value that is not a record is never shown as a row. C49_bytes: for any values at all, what a column of bytes shows and when it is null; of longs in a list only the low 32 bits count."
  },
  {
   "property": "C50",
   "status": "partial",
   "theorems": [
    "C50_fields",
    "C50_nested_partial",
    "C50_wide_union_refuted",
    "C50_panics",
    "C50_union_names_partial",
    "C50_union_names_refuted"
   ],
   "note": "Top-level names, positions and nullability proved for all schemas that convert, and the panics characterised exactly; nested nullability proved except for unions of null and several types, where it is refuted. C50_union_names_partial: variants of simple types get different names; an enum and a string, or two records, get the same one (C50_union_names_refuted)."
  },
  {
   "property": "C51",
   "status": "partial",
   "theorems": [
    "C51_deadlock_refuted",
    "C51_schedules_end",
    "C51_enough_threads_partial",
    "C51_deadlock_shape"
   ],
   "note": "False: C51_deadlock_refuted (n + 1 queries on n threads, for every n; a shard of the shared map stays locked across an await). Proved: every schedule is finite, all queries are answered when there is a thread for each, and the exact shape of a deadlock."
  },
  {
   "property": "C52",
   "status": "partial",
   "theorems": [
    "C52_snapshot_records_partial",
    "C52_reads_succeed",
    "C52_failed_write_shown_refuted"
   ],
   "note": "Proved for all histories of commits, deltacommits, compactions, failed writes and rollbacks, also of file groups that begin with records moved there by clustering, at every t by which the failed writes up to t are rolled back. False between a failed write and its rollback (C52_failed_write_shown_refuted)."
  },
  {
   "property": "C53",
   "status": "proved",
   "theorems": [
    "C53_digits_exact",
    "C53_accepted_digits",
    "C53_local",
    "C53_loose_refuted",
    "C53_epoch_is_calendar_time",
    "C53_from_text"
   ],
   "note": "Texts other than 14 or 17 digits are outside the claim: some are accepted (C53_loose_refuted)."
  },
  {
   "property": "C54",
   "status": "partial",
   "theorems": [
    "C54_metadata_path_is_listed_file_partial",
    "C54_dangling_dot_refuted"
   ],
   "note": "Holds for every name without a dangling final dot; refuted for 'ts.commit.'."
  },
  {
   "property": "C55",
   "status": "partial",
   "theorems": [
    "C55_delete_refuted",
    "C55_objects_partial",
    "C55_versions_stable",
    "C55_records_stable_partial",
    "C55_slice_stable_partial",
    "C55_first_logs_partial",
    "C55_time_travel_stable"
   ],
   "note": "Base files and log files without conditions on what is read (C55_time_travel_stable). The records (up to order): one slice, for any contents of its log files that the reader supports, with no assumption on how they came about (C55_slice_stable_partial, C55_first_logs_partial); a table, for later commits, deltacommits, compactions, failed writes and rollbacks (C55_records_stable_partial); from the bytes of the objects, for two openings of the table (C55_objects_partial). False for later deletions in log files: a delete block makes reads as of every time fail (C55_delete_refuted)."
  },
  {
   "property": "C56",
   "status": "partial",
   "theorems": [
    "C56_shared_id_refuted",
    "C56_changed_slices_partial"
   ],
   "note": "For all timelines, windows and metadata in which no commit names a file group of a partition in two write stats (C56_changed_slices_partial). False otherwise: the log files of the second write stat are in no slice (C56_shared_id_refuted)."
  },
  {
   "property": "C57",
   "status": "partial",
   "theorems": [
    "C57_idle_commit_refuted",
    "C57_idle_commit_general",
    "C57_queries_planned_partial"
   ],
   "note": "False: C57_idle_commit_refuted and C57_idle_commit_general. C57_queries_planned_partial gives sufficient conditions for planning a query."
  },
  {
   "property": "C58",
   "status": "partial",
   "theorems": [
    "C58_layout_independent_partial",
    "C58_failed_write_refuted"
   ],
   "note": "Up to row order, for versions that differ in ordering field or sequence number, with failed writes up to t rolled back by t. False between a failed write and its rollback (C58_failed_write_refuted)."
  },
  {
   "property": "C59",
   "status": "partial",
   "theorems": [
    "C59_incremental_records_partial",
    "C59_reads_succeed",
    "C59_late_event_refuted",
    "C59_failed_write_shown_refuted"
   ],
   "note": "Proved for file groups with a base file by the end of the window, when later versions of a key are newer by ordering field, when the commits in the window record the files and log files written, and when failed writes in the window are rolled back in those log files. False for late events (C59_late_event_refuted: result depends on compaction) and between a failed write and its rollback (C59_failed_write_shown_refuted)."
  },
  {
   "property": "C60",
   "status": "proved",
   "theorems": [
    "C60_answers_independent",
    "C60_queries_kept"
   ],
   "note": "All schedules, thread and shard counts and hash functions; the storage does not change while the queries run."
  },
  {
   "property": "C61",
   "status": "proved",
   "theorems": [
    "C61_latest_is_as_of"
   ],
   "note": ""
  },
  {
   "property": "C62",
   "status": "partial",
   "theorems": [
    "C62_round_trip",
    "C62_snapshot_slices",
    "C62_snapshot_sizes_partial",
    "C62_incremental_slices",
    "C62_incremental_sizes_zero",
    "C62_incremental_sizes_refuted"
   ],
   "note": "All slices of snapshot and incremental queries, and all slices of groups made from names, are read in Python as in Rust (C62_round_trip, C62_snapshot_slices, C62_incremental_slices). The sizes shown are right for snapshot queries (C62_snapshot_sizes_partial) and false for incremental ones: always zero (C62_incremental_sizes_zero, C62_incremental_sizes_refuted)."
  },
  {
   "property": "C63",
   "status": "proved",
   "theorems": [
    "C63_plan",
    "C63_plan_exists"
   ],
   "note": "Every plan and every table; sizes for storages whose listings carry no record counts (all of them)."
  },
  {
   "property": "C64",
   "status": "partial",
   "theorems": [
    "C64_rows_partial",
    "C64_literal_left_refuted",
    "C64_other_columns_refuted"
   ],
   "note": "Conjuncts of any shape. Missing: inequalities with the literal on the left lose rows (C64_literal_left_refuted); a comparison of a column that is no partition field fails the query, which is proved for all such queries (C64_other_columns_refuted); literals whose text is no value of the column's type; names that need escapes (C65)."
  },
  {
   "property": "C65",
   "status": "partial",
   "theorems": [
    "C65_addressed_partial",
    "C65_distinct",
    "C65_escapes_refuted",
    "C65_encoded_partition_refuted"
   ],
   "note": "The claim is false: exactly the names without characters to escape are addressed rightly (C65_addressed_partial is an equivalence); refutations for a blank and for an escaped partition directory."
  },
  {
   "property": "C66",
   "status": "proved",
   "theorems": [
    "C66_created_options"
   ],
   "note": "All sessions, commands and iteration orders; the factory's options composed with the resolution of C42."
  },
  {
   "property": "C67",
   "status": "partial",
   "theorems": [
    "C67_same_snapshot_partial",
    "C67_log_files_refuted"
   ],
   "note": "For read-optimized queries and slices without log files. False for merge-on-read slices with log files (C67_log_files_refuted)."
  },
  {
   "property": "C68",
   "status": "partial",
   "theorems": [
    "C68_as_new_partial",
    "C68_latest_stable_partial",
    "C68_removed_partition_refuted"
   ],
   "note": "For storages from which no partition directory is removed (C68_as_new_partial, C68_latest_stable_partial). False when one is removed: the open table goes on to show its slices (C68_removed_partition_refuted). The storage is taken not to change while one query lists it. C74 lifts the condition that the storage does not change while a query lists it."
  },
  {
   "property": "C69",
   "status": "proved",
   "theorems": [
    "C69_instants_of_action",
    "C69_calls_cover_timeline"
   ],
   "note": "Exact for every listing for which loading returns; loading panics only as described under C03."
  },
  {
   "property": "C70",
   "status": "partial",
   "theorems": [
    "C70_clustering_commits_partial",
    "C70_upper_case_refuted",
    "C70_unnamed_operation_refuted"
   ],
   "note": "The call is characterised exactly (C70_clustering_commits_partial); the property is false: writers spell the operation CLUSTER, which is not recognised (C70_upper_case_refuted), and one replacecommit without an operation makes the call fail (C70_unnamed_operation_refuted)."
  },
  {
   "property": "C71",
   "status": "proved",
   "theorems": [
    "C71_avro_schema",
    "C71_earlier_schema_refuted",
    "C71_metadata_text",
    "C71_schema_file"
   ],
   "note": "Both calls characterised exactly. C71_earlier_schema_refuted shows that older commits are not consulted."
  },
  {
   "property": "C72",
   "status": "partial",
   "theorems": [
    "C72_partitions",
    "C72_files",
    "C72_snapshot_partial",
    "C72_slices_found",
    "C72_extra_part_refuted"
   ],
   "note": "Partitions, listings, snapshots and the files of answers, without conditions on answers that are given. False that every query is answered: a data file with a fourth name part makes queries fail (C72_extra_part_refuted). Object stores without empty directories; keys free of control characters, empty segments and path separators inside segments (proper_objects)."
  },
  {
   "property": "C73",
   "status": "partial",
   "theorems": [
    "C73_opened_partial",
    "C73_opens_partial",
    "C73_no_properties",
    "C73_unsupported_refuted",
    "C73_redirected_refuted",
    "C73_open_and_query_partial"
   ],
   "note": "C73_opened_partial and C73_opens_partial hold for properties without a base path, timeline directories without the names of C03 and stores that do not fail. False otherwise: an unsupported table panics (C73_unsupported_refuted), a base path in the properties moves the table (C73_redirected_refuted)."
  },
  {
   "property": "C74",
   "status": "partial",
   "theorems": [
    "C74_one_state_partial",
    "C74_undisturbed_partial",
    "C74_torn_refuted",
    "C74_removed_refuted",
    "C74_records_partial",
    "C74_reads_succeed",
    "C74_undisturbed_records_partial",
    "C74_incremental"
   ],
   "note": "C74_one_state_partial and C74_undisturbed_partial: for writers whose base files are of later commits and who make no directory inside a data directory, for answers that are given, each request of the query answered at any moment. False otherwise: a writer with an earlier commit time that is still adding files is shown in part (C74_torn_refuted); a file removed after it was listed makes the query fail (C74_removed_refuted). The records: C74_records_partial gives, for every file group whose files hold a history at every moment, the records of the history as of the time, for times up to its last write at the start and failed writes rolled back; C74_reads_succeed: the reads succeed when files are read after they were listed; C74_undisturbed_records_partial: the rows are those that the undisturbed query returns. C74_incremental: incremental queries give the answers of the objects at the start whatever is added, unless they can fail there."
  },
  {
   "property": "C75",
   "status": "partial",
   "theorems": [
    "C75_options",
    "C75_order",
    "C75_python",
    "C75_constructors",
    "C75_again",
    "C75_retry",
    "C75_reuse_partial",
    "C75_stale_refuted",
    "C75_upper_case_refuted"
   ],
   "note": "C75_options, C75_order, C75_python and C75_constructors for all calls; C75_again for a builder used again on an unchanged table and C75_retry after an attempt that read no properties. False for a builder used again on a changed table: properties that were removed stay (C75_stale_refuted); C75_reuse_partial gives the options exactly. Storage options in upper case lose against the environment (C75_upper_case_refuted). Stores look at options as maps (map_like)."
  },
  {
   "property": "C76",
   "status": "proved",
   "theorems": [
    "C76_slice",
    "C76_cells",
    "C76_columns",
    "C76_snapshot",
    "C76_uuid_refuted"
   ],
   "note": "C76_slice and C76_snapshot join the log scan (C29), the Avro reader (C48, C49) and the merge (C36, C52): log records are given as Avro values and the rows read are their values. C76_cells: cells have the types of the fields, tell different values apart and keep their order. C76_columns: schemas of scalars and lists meet the conditions. Outside of the conditions values get lost in the result of the read (C76_uuid_refuted). Base files stay tables of rows; a column of the Avro type null is left out."
  },
  {
   "property": "C77",
   "status": "proved",
   "theorems": [
    "C77_read",
    "C77_form",
    "C77_front",
    "C77_typed",
    "C77_lengths",
    "C77_map_keys",
    "C77_slice",
    "C77_snapshot"
   ],
   "note": "The Avro library's decoder is modelled in M_Datum from its published source, which is not in /repo. C77_read: every binary form of every value is read as this value; C77_form: every storable value has such a form; C77_front: reading takes bytes from the front; C77_typed: what is read before the end of the input has the shape of the schema; C77_slice and C77_snapshot are C76 with the records given as bytes. UUIDs, big decimals and references to named types are outside of the model of the decoder; values of 512 MB and more are refused by the library and outside of storable. C77_map_keys: maps that repeat keys, which no writer should leave, are read with the last value of each key. C77_lengths: negative and excessive lengths are refused whatever follows."
  },
  {
   "property": "C78",
   "status": "partial",
   "theorems": [
    "C78_settings_partial",
    "C78_determined",
    "C78_flags",
    "C78_identity",
    "C78_partitioned",
    "C78_no_columns_refuted"
   ],
   "note": "C78_settings_partial and C78_identity: every lookup, for all options, against the meaning of the texts (S_Settings); C78_flags: the two flags of partition paths, which have no default; C78_partitioned: when a table counts as partitioned. False for an empty list of partition columns: C78_no_columns_refuted. Missing: the checksum, database name and record key columns, which nothing reads."
  },
  {
   "property": "C79",
   "status": "proved",
   "theorems": [
    "C79_reads",
    "C79_one_meaning",
    "C79_last_member",
    "C79_cut"
   ],
   "note": "C79_reads: the accepted files are exactly the JSON objects of RFC 8259 (S_Json) nested at most 127 deep, and what is read is what they stand for; C79_one_meaning, C79_last_member, C79_cut. The parser is a model of serde_json's published behaviour (its source is not in the sandbox); the values of numbers, which nothing in /repo reads, and the order of a map are parameters."
  },
  {
   "property": "C80",
   "status": "proved",
   "theorems": [
    "C80_timeline",
    "C80_queries"
   ],
   "note": "C80_timeline and C80_queries: with the metadata files of commits cut anywhere or missing, every answer is an answer of the complete table or an error."
  },
  {
   "property": "C81",
   "status": "proved",
   "theorems": [
    "C81_snapshot",
    "C81_records"
   ],
   "note": "C81_snapshot (any filters, per file group) and C81_records (no filters, the whole table, also for the latest snapshot): from the keys and contents of the objects - properties file, JSON commit metadata, base files, log files with Avro records - to the rows of a query. Composes C73, C72, C79, C77, C52. Conditions in the statement: writers follow the layout (S_History, S_Values), failed writes up to the time are rolled back by then (see C52), times in UTC, merging by an ordering field."
  },
  {
   "property": "C82",
   "status": "proved",
   "theorems": [
    "C82_succeeds",
    "C82_table"
   ],
   "note": "C82_succeeds (any time, filters on partition columns): no answer of a query is an error or a panic, and there is an answer; C82_table: the latest snapshot exists and every answer has the current records of the table (C81). Conditions are stated on the objects; C11, C54 and C57 show what happens without some of them. That readers open their storage is proved (C84) for stores that depend on the values of the storage options only."
  },
  {
   "property": "C83",
   "status": "proved",
   "theorems": [
    "C83_changes",
    "C83_records"
   ],
   "note": "C83_changes: every successful read has one batch for each changed file group, with exactly the changes of that file group, and no version in between of a file group with a base file by the end is left out unless its file group was replaced; C83_records: with keys in one file group each the read succeeds, and the records are exactly the changes of the table. One write stat for each file group in a commit (one_stat_each) is needed: a second one is dropped (C11). That readers open their storage is proved (C84) for stores that depend on the values of the storage options only."
  },
  {
   "property": "C84",
   "status": "partial",
   "theorems": [
    "C84_table_reader_partial",
    "C84_uri_reader_partial",
    "C84_environment_refuted",
    "C84_mixed_refuted"
   ],
   "note": "C84_table_reader_partial: proved for storage options without options of the table, and reading options; C84_uri_reader_partial: a reader made from the URI and all storage options of the table opens the same storage. Refuted in general: credentials from the environment are not used by readers made from a URI (C84_environment_refuted), and options of the table among the storage options override the table's in readers, even its place (C84_mixed_refuted)."
  },
  {
   "property": "C85",
   "status": "partial",
   "theorems": [
    "C85_snapshot_partial",
    "C85_latest_partial",
    "C85_incremental_partial",
    "C85_python_partial",
    "C85_uri_partial",
    "C85_untimed_refuted",
    "C85_uri_refuted"
   ],
   "note": "C85_snapshot_partial, C85_latest_partial, C85_incremental_partial: proved for readers made by the table for the times of the query, in both directions and for every division of the slices; C85_python_partial: the same through Python's slices; C85_uri_partial: readers made from the URI and all options of the table. Refuted: a reader without the end time reads uncommitted and later log records (C85_untimed_refuted); a reader made from the URI alone does not merge (C85_uri_refuted)."
  },
  {
   "property": "C86",
   "status": "partial",
   "theorems": [
    "C86_poll_partial",
    "C86_queries_partial",
    "C86_unreplaced",
    "C86_replacements",
    "C86_grows",
    "C86_replaced_refuted",
    "C86_late_refuted"
   ],
   "note": "C86_poll_partial: proved at the level of objects and records, for a copy made at any earlier state of the table, when no version is lost by replacements in between (clustering may move versions to new file groups: C86_clustering_case in P_Replace; C86_unreplaced: this holds when nothing is replaced or moved); C86_queries_partial: snapshot plus changes is the later snapshot; C86_grows: when a copy of an earlier state is a copy of the table as of its time. C86_replacements: with replacements in between the copy still has every record of the later snapshot, and all it has besides are records of file groups replaced since. Refuted with replacements: the records of a replaced file group stay in the copy (C86_replaced_refuted). Refuted for commits that complete late: a commit of an earlier time that was in flight at the last read is in no later window (C86_late_refuted). C100_follow: the same while cleaners remove files."
  },
  {
   "property": "C87",
   "status": "partial",
   "theorems": [
    "C87_records_partial",
    "C87_selects_partial",
    "C87_divides_partial",
    "C87_unnamed_refuted"
   ],
   "note": "C87_records_partial, C87_selects_partial, C87_divides_partial: proved from the bytes of the objects to the records, for every list of filters, when the partitions of the table are named after values that can be compared with the filters. Refuted for partitions whose name is no value of the column, such as the one of records without a value in a column that is no text: no filter excludes it (C87_unnamed_refuted)."
  },
  {
   "property": "C88",
   "status": "partial",
   "theorems": [
    "C88_snapshot_partial",
    "C88_records_partial",
    "C88_reads_succeed",
    "C88_follow_refuted",
    "C88_incremental"
   ],
   "note": "C88_snapshot_partial, C88_records_partial: proved from the objects to the batches, for read-optimized mode and for tables without log files, whatever the merge settings. Refuted for following a table in this mode: an update that was in a log file first is in no window (C88_follow_refuted). C88_reads_succeed: such queries succeed if the newest base files of the live file groups can be read; older and later base files may hold anything. C88_incremental: an incremental query in this mode, or over slices without log files, has one batch for each slice that the query of slices shows for the same window, with exactly the rows of its base file committed in the window."
  },
  {
   "property": "C89",
   "status": "partial",
   "theorems": [
    "C89_latest",
    "C89_base_files_partial",
    "C89_reads_succeed",
    "C89_records_partial",
    "C89_torn_log_refuted"
   ],
   "note": "C89_latest, C89_base_files_partial, C89_records_partial: proved for any number of writers that did not complete, over any objects they left. Base files may hold anything or nothing. Refuted for log files that were not written whole: the latest snapshot then fails though nothing was committed (C89_torn_log_refuted). C89_reads_succeed: the latest snapshot of a table without log files, or in read-optimized mode, can still be read, whatever the base files of the unfinished writers hold."
  },
  {
   "property": "C90",
   "status": "partial",
   "theorems": [
    "C90_kept_partial",
    "C90_lacking_panics",
    "C90_added_refuted",
    "C90_removed_refuted",
    "C90_reordered_refuted"
   ],
   "note": "C90_kept_partial: proved for log batches that have the columns of the base file first and any others after them; in the result every value is under the name it was written under, but the other columns are not in it. Refuted: values of an added column are dropped without an error (C90_added_refuted), a log batch that lacks the last columns makes the read panic (C90_lacking_panics for all such slices, C90_removed_refuted on a table), and columns in another order are read under each other's names (C90_reordered_refuted)."
  },
  {
   "property": "C91",
   "status": "partial",
   "theorems": [
    "C91_log_file_partial",
    "C91_torn_log_file",
    "C91_scalar_schema",
    "C91_metadata",
    "C91_names",
    "C91_open_partial",
    "C91_slices_partial",
    "C91_snapshot_partial",
    "C91_incremental_partial",
    "C91_short_instant_refuted",
    "C91_short_time_refuted"
   ],
   "note": "Proved with conditions, for any stored objects: metadata files and file names never panic (C91_metadata, C91_names); a log file does not panic if the instant times in its headers have fourteen bytes and the Arrow reader does not panic on its schemas (C91_log_file_partial, also when cut anywhere: C91_torn_log_file), which holds for all records of scalar columns (C91_scalar_schema); file slices, snapshots and incremental queries of an opened table (C91_slices_partial, C91_snapshot_partial, C91_incremental_partial) under these conditions, with the partition options given and log batches no narrower than base files; opening panics only for options that fail their checks or timeline names without a time part (C91_open_partial). Without them refuted: a log block with an instant time of four digits (C91_short_instant_refuted), a query time without a time part (C91_short_time_refuted), and the panics of C03, C44, C48, C49, C73 and C90. External decoders (Parquet, Arrow casts, the store) are taken to answer with a value or an error."
  },
  {
   "property": "C92",
   "status": "partial",
   "theorems": [
    "C92_snapshot_partial",
    "C92_gone",
    "C92_delete_block_fails",
    "C92_conservative",
    "C92_follow_refuted",
    "C92_delete_block_refuted",
    "C92_table_partial",
    "C92_table_gone"
   ],
   "note": "C92_snapshot_partial: for all histories of commits that rewrite base files and delete records, compactions, deltacommits, failed writes and rollbacks, with failed writes up to t rolled back by t; C92_table_partial: the same for a whole table, from the keys and contents of the objects (as C81 and C82): its reads succeed and, without filters, return for each key the newest version not deleted since, over all file groups; C92_gone and C92_table_gone: a deleted key that was not written again is in no row; C92_conservative: without deletions these are the histories of C52. False for deletions in log files: a delete block makes every read of its file slice fail, for all slices (C92_delete_block_fails, C92_delete_block_refuted). False for following a table: a deletion is in no incremental window (C92_follow_refuted)."
  },
  {
   "property": "C93",
   "status": "partial",
   "theorems": [
    "C93_clustering",
    "C93_incremental",
    "C93_overwrite",
    "C93_pending_refuted"
   ],
   "note": "C93_clustering: snapshots as of two times between which records were only moved have the same records; C93_incremental: an incremental read returns only records committed in its window, so none that were only moved with their commit times; following across clustering is C86_queries_partial. C93_overwrite: the records before are old + kept and those after are new + kept, where kept are the records outside the replaced part, old those inside it before and new those of its new file groups (none: a deleted partition). Missing: false while clustering has written files and has not committed, as soon as a later commit completes: moved records are read twice (C93_pending_refuted)."
  },
  {
   "property": "C94",
   "status": "proved",
   "theorems": [
    "C94_life",
    "C94_written",
    "C94_read"
   ],
   "note": "C94_written: for all sequences of steps of writers (S_Writer: base files, log files, appended blocks, timeline objects, markers, objects of other tables, removal of objects that are no data), the storage meets the conditions of C81 and C82 on its objects, and the base files found are those written. C94_read: reading as of t succeeds and returns the table at t, also when any later writes have happened since. Conditions in the statement: failed writes up to t are rolled back by t (see C52), replacecommit metadata and the schema are readable, a key stays in one file group. C94_life: the same for the life of a table (S_Life): writers that also delete records (commits that rewrite the base file without them), and cleaners that remove slices and dropped file groups, in any order; a read as of any time from the horizon of the cleaners on succeeds and returns, of every key, the newest version that was written by then and not deleted since; there it is also a condition that no directory is left empty and that dropped file groups are replaced."
  },
  {
   "property": "C95",
   "status": "proved",
   "theorems": [
    "C95_text",
    "C95_properties",
    "C95_metadata",
    "C95_metadata_strings",
    "C95_log",
    "C95_avro",
    "C95_path"
   ],
   "note": "C95_text: the UTF-8 test that all decoders use accepts exactly the bytes of sequences of Unicode scalar values (S_Utf8), and these are determined by the bytes. C95_properties, C95_metadata, C95_metadata_strings, C95_log, C95_avro, C95_path: in each place where bytes become text, text is accepted and anything else is an error (for partition paths: the partition is kept)."
  },
  {
   "property": "C96",
   "status": "partial",
   "theorems": [
    "C96_read",
    "C96_written",
    "C96_time_travel_refuted",
    "C96_stopped_refuted",
    "C96_gaps",
    "C96_gap_stale_refuted"
   ],
   "note": "C96_read: slices are removed from what writers left, the table is opened on the rest and read as of a time at which every file group still has its slice: the read succeeds and returns the table as it was before cleaning; C96_written: the same from writers step by step (C94); C96_gaps: any slices at all are removed, of file groups that may have deletions, and the table is read as of any time whose slice stays in each file group that counts then (savepoints). Partial because claims one may expect are false: C96_time_travel_refuted (a read as of an earlier time is no error, and misses records), C96_gap_stale_refuted (a read as of a time whose slice was removed, between slices that stay, is no error and returns an older state, with a record that was deleted), C96_stopped_refuted (a base file removed before its log files makes every read fail). Cleaning while a query runs is C104."
  },
  {
   "property": "C97",
   "status": "partial",
   "theorems": [
    "C97_written",
    "C97_read",
    "C97_rollback_elsewhere_refuted"
   ],
   "note": "C97_written: writers that put data into the storage step by step (C94) and complete their commits by files of the timeline whose metadata tells what they wrote leave objects that meet the conditions of C83, for every window; C97_read: an incremental read of a table opened on them succeeds and returns the newest version as of the end of every key that changed in the window. C97_rollback_elsewhere_refuted: with a rollback in a log file of its own the changes hold a record that was never committed. Missing: windows in which a failed write is not undone by a rollback that a commit of the window names, windows with commits that are archived (both are hypotheses, about the state that was left), and clustering (a file group that is replaced in the window is left out, as in C83)."
  },
  {
   "property": "C98",
   "status": "partial",
   "theorems": [
    "C98_schedules_end",
    "C98_all_return",
    "C98_answers",
    "C98_read_keeps_gil",
    "C98_others_run_refuted"
   ],
   "note": "C98_schedules_end and C98_all_return: every schedule of any number of Python threads that ask one table object for file slices or snapshots ends, and at its end all calls are back with their callers: the interpreter lock and the locks of the view never block each other; C98_answers: the answers are those of the same calls alone (C60). Partial because one claim a user may expect is false, C98_others_run_refuted: a snapshot read keeps the interpreter lock while it waits for storage, so that no other Python thread runs (C98_read_keeps_gil states it for all states). Not covered: the calls that do not ask the view (they share no lock), and reading the files of the slices, which is part of the last step of a call."
  },
  {
   "property": "C99",
   "status": "proved",
   "theorems": [
    "C99_answer",
    "C99_reads",
    "C99_base_first_refuted"
   ],
   "note": "C99_answer: while cleaners remove files one by one in any order, none that the table at t needs, a query as of t that returns records returns exactly the table at t, whatever moments its storage requests see, and whatever it can list it can read; C99_reads: if log files go before their base file and the schema file stays, the query has an answer and every answer is that; C99_base_first_refuted: without the order of log files and base files every query of the table fails in between (a finding). The table is opened before the cleaners start, and no directory is left empty."
  },
  {
   "property": "C100",
   "status": "proved",
   "theorems": [
    "C100_changes",
    "C100_follow",
    "C100_old_changes_refuted"
   ],
   "note": "C100_changes: while cleaners remove files in any order, none of the slices that the changes in (start, e] need, and also when the table is opened only after that, an incremental read succeeds and returns exactly the changes that the writers made, whatever moments its storage requests see; C100_follow: so a copy of the table as of start is, with the changes applied, the table as of e, under the conditions of C86; C100_old_changes_refuted: changes up to a time before the last update cannot be read any more once a cleaner removed the slice they were in (a finding). The conditions on the timeline and on what was written are those of C83."
  },
  {
   "property": "C101",
   "status": "partial",
   "theorems": [
    "C101_rows_partial"
   ],
   "note": "C101_rows_partial: from the stored objects of an opened table to the rows of a SQL query: the query has an answer, every answer is rows and no error, and they are the rows on which every conjunct is true in the newest base files of the file groups that count at the latest commit. Missing: conjuncts with a literal on the left of an inequality, comparisons of other columns than partition columns (both refuted, C64), object names that need escapes (C63) and the records of log files (C67). The engine is modelled as far as sql_query goes; its Parquet reader is a parameter."
  },
  {
   "property": "C102",
   "status": "proved",
   "theorems": [
    "C102_session",
    "C102_replies",
    "C102_log_reads"
   ],
   "note": "C102_session: for every object and every list of reads, exact reads, limited reads and seeks, the replies of the reader are those of a position in the object's bytes, and only those. C102_replies: there is exactly one list of replies. C102_log_reads: the model of the log readers (the bytes that are left) answers exact reads the same way. std::io's BufReader, Cursor, read_exact and Take are modelled from their documentation and sources, as they are outside the repository; objects are shorter than 2^63 bytes."
  },
  {
   "property": "C103",
   "status": "partial",
   "theorems": [
    "C103_names",
    "C103_meta_columns",
    "C103_block_types_refuted",
    "C103_block_types_partial",
    "C103_filters"
   ],
   "note": "C103_names: names of meta columns, actions and states read back and no other text is accepted. C103_meta_columns: the schema of the meta columns and their indices agree. C103_filters: filters built by method calls are those written as texts. C103_block_types_refuted: the name of the Avro block type is written \"avro\" and read \"avro_data\", so it does not read back; C103_block_types_partial: all other types do. Missing: Avro blocks, for which the claim is false."
  },
  {
   "property": "C104",
   "status": "proved",
   "theorems": [
    "C104_one_state",
    "C104_same",
    "C104_batches"
   ],
   "note": "C104_one_state: every listing and read of a query may be answered at another moment; whatever log files, later base files, superseded base files and base files of replaced file groups come and go, an answer as of t is that of the objects that stay, and the base file of every shown slice is read whole at any moment. C104_same: so two queries without filters show the same base files. C104_batches: for read-optimized reads the batches are the rows of those base files, the same for two queries up to order. C74_removed_refuted shows that the condition is needed: removing the newest base file of t makes the query fail. Not covered: the records of reads that merge log files (C52, C81 say what they are when nothing is removed meanwhile)."
  },
  {
   "property": "C105",
   "status": "partial",
   "theorems": [
    "C105_columns",
    "C105_nested",
    "C105_types_partial",
    "C105_column_doc_refuted"
   ],
   "note": "C105_columns: documentation, namespaces and aliases of types change only metadata; names, types, nullability and failures are those of the schema without them. C105_nested: the fields within struct columns, at any depth, have exactly their documentation as metadata. C105_types_partial: the metadata of a column are the documentation of its type and the full names of the type's aliases. C105_column_doc_refuted: the documentation of a column itself is dropped (finding). Missing: the documentation of columns."
  }
 ]
}