{"id": "C01", "title": "Instant file names round-trip", "statement": "For every timeline instant whose timestamp is an accepted 14- or 17-character timestamp, formatting it as a timeline file name and parsing that name again yields the same instant (timestamp, action, state, epoch); hence two different instants never share a file name.", "quantifier": "all timestamps accepted by the parser x all actions x all states, in the UTC timezone", "why_tests_cant": "the set of timestamps is unbounded in practice (10^17) and the dotted suffix grammar has overlapping cases (.inflight vs .commit.inflight); tests pick a handful of names", "anchors": ["crates/core/src/timeline/instant.rs: Instant::file_name, Instant::try_from_file_name_and_timezone, Instant::parse_action_and_state"]}
{"id": "C02", "title": "Timestamp strings and instants agree on order", "statement": "For any two well-formed timestamps (all digits, 14 or 17 characters, a real calendar date and time), comparing the strings never contradicts comparing the instants: if the first string is lexicographically at most the second, its epoch time is at most the second's. (File slices are chosen by string order, commits by epoch order; they must not disagree.)", "quantifier": "all pairs of well-formed timestamps, including 14- against 17-character ones, across month, year and leap-year boundaries", "why_tests_cant": "requires the monotonicity of the calendar-to-epoch function over every pair of dates; sampling cannot cover year/month/leap boundaries for all pairs", "anchors": ["crates/core/src/timeline/instant.rs: Instant::parse_datetime, impl Ord for Instant", "crates/core/src/file_group/mod.rs: FileGroup::get_file_slice_as_of"]}
{"id": "C03", "title": "Files in the timeline directory that are not instants are ignored", "statement": "Loading the timeline never fails or panics because of the name of a file found in the .hoodie directory: a name that is not an instant is skipped.", "quantifier": "all file names (arbitrary UTF-8 strings) and all directory contents", "why_tests_cant": "the failing names are rare shapes (short or non-ASCII prefix before .commit) which tests do not enumerate", "anchors": ["crates/core/src/timeline/mod.rs: Timeline::load_instants", "crates/core/src/timeline/selector.rs: TimelineSelector::try_create_instant", "crates/core/src/timeline/instant.rs: Instant::parse_naive_datetime"]}
{"id": "C04", "title": "The loaded timeline is exactly the completed instants, in time order", "statement": "For every listing of the .hoodie directory, the completed commits of the table are exactly the completed commit, deltacommit and replacecommit instants whose file names appear in the listing, each once per file, sorted by time; requested and inflight instants never appear; the result does not depend on the listing order except among instants with equal time.", "quantifier": "all directory listings (any number of files, any order)", "why_tests_cant": "order-independence and exactness quantify over all permutations and all sets of files", "anchors": ["crates/core/src/timeline/mod.rs: Timeline::new_from_storage, Timeline::load_instants", "crates/core/src/timeline/selector.rs: TimelineSelector::try_create_instant"]}
{"id": "C05", "title": "Range selection returns exactly the instants in (start, end]", "statement": "Selecting from a loaded timeline with an optional start and optional end returns exactly the loaded instants with the requested action and state whose time is after start and at or before end, in time order.", "quantifier": "all timelines (any length), all optional start/end bounds, all action/state filters", "why_tests_cant": "binary search boundary behaviour depends on duplicates and on all relative positions of the bounds; tests check a few fixtures", "anchors": ["crates/core/src/timeline/selector.rs: TimelineSelector::select, TimelineSelector::should_include_action, TimelineSelector::should_include_state"]}
{"id": "C06", "title": "Adjacent time windows partition the timeline", "statement": "For start <= mid <= end, the instants selected in (start, mid] followed by those selected in (mid, end] are exactly those selected in (start, end]: an incremental consumer that resumes from its last end timestamp neither misses nor repeats a commit.", "quantifier": "all timelines and all ordered triples of bounds", "why_tests_cant": "history-dependent: must hold for every checkpoint sequence a consumer may take", "anchors": ["crates/core/src/timeline/selector.rs: TimelineSelector::select", "crates/core/src/timeline/mod.rs: Timeline::get_file_groups_between"]}
{"id": "C07", "title": "The latest commit is the maximum of the timeline", "statement": "The latest commit timestamp reported by a non-empty timeline belongs to a completed instant, and no completed instant in the timeline is later; a timeline without completed instants reports none (the call that must report one fails), and then snapshot, incremental and file-slice queries return an empty result rather than an error.", "quantifier": "all listings of the .hoodie directory", "why_tests_cant": "must hold for every set of instants, including ones arriving out of name order", "anchors": ["crates/core/src/timeline/mod.rs: Timeline::get_latest_commit_timestamp", "crates/core/src/table/mod.rs: Table::get_file_slices, Table::read_snapshot"]}
{"id": "C08", "title": "Instant ranges mean what their constructors say", "statement": "An instant range built by up_to(e) contains exactly the timestamps at or before e; within(s,e) those strictly between; within_open_closed(s,e) those after s and at or before e; not_in_range is its complement; an unparsable timestamp is an error, never silently in or out.", "quantifier": "all ranges and all probe timestamps", "why_tests_cant": "four boundary flags x missing bounds x equality cases over an unbounded domain", "anchors": ["crates/core/src/timeline/selector.rs: InstantRange::is_in_range, InstantRange::not_in_range, InstantRange::up_to, InstantRange::within, InstantRange::within_open_closed"]}
{"id": "C09", "title": "Replaced file groups are exactly those named by replacecommits up to the read time", "statement": "A snapshot as of time t excludes exactly the file groups (partition, file id) named as replaced by completed replacecommits at or before t; replacements after t have no effect; the excluded set only grows with t.", "quantifier": "all timelines with arbitrary replacecommit metadata and all t", "why_tests_cant": "quantifies over all histories of clustering/insert-overwrite operations", "anchors": ["crates/core/src/timeline/mod.rs: Timeline::get_replaced_file_groups_as_of", "crates/core/src/file_group/builder.rs: build_replaced_file_groups", "crates/core/src/table/fs_view.rs: FileSystemView::collect_file_slices_as_of"]}
{"id": "C10", "title": "Incremental queries see exactly the file groups written and not replaced in the window", "statement": "The file groups reported changed between start and end are exactly those with a write in a completed commit in (start, end] and not replaced by a replacecommit in (start, end]; none is reported twice.", "quantifier": "all commit histories and all windows", "why_tests_cant": "quantifies over all histories and commit metadata contents", "anchors": ["crates/core/src/timeline/mod.rs: Timeline::get_file_groups_between", "crates/core/src/file_group/builder.rs: build_file_groups, FileGroupMerger::merge"]}
{"id": "C11", "title": "Every write in a commit's metadata is represented in the file groups built from it", "statement": "For commit metadata that is accepted, every write stat (partition, file id, base file, log files) appears in the built file groups: the group with that partition and file id has a slice holding that base file and those log files.", "quantifier": "all commit metadata documents", "why_tests_cant": "multiple stats for the same file id in one commit (log appends, several attempts) interact with set semantics; fixtures have one stat per file id", "anchors": ["crates/core/src/file_group/builder.rs: build_file_groups"]}
{"id": "C12", "title": "Base file names round-trip", "statement": "For every base file whose file id, write token and commit timestamp contain no underscore and whose extension contains no dot, printing and re-parsing its name gives back the same parts; and every accepted name with exactly three underscore-separated parts is reproduced exactly.", "quantifier": "all strings for the four components / all accepted names", "why_tests_cant": "string-splitting corner cases (dots in ids, empty parts) over all strings", "anchors": ["crates/core/src/file_group/base_file.rs: BaseFile::parse_file_name, BaseFile::file_name"]}
{"id": "C13", "title": "Log file names round-trip exactly", "statement": "Every accepted log file name is reproduced byte for byte by printing the parsed log file, and every well-formed set of components survives print-then-parse; all parsed components are non-empty.", "quantifier": "all strings", "why_tests_cant": "first/last underscore and three-part dot grammar over all strings", "anchors": ["crates/core/src/file_group/log_file/mod.rs: LogFile::parse_file_name, LogFile::file_name"]}
{"id": "C14", "title": "As-of lookup returns the newest slice not after the given time", "statement": "Looking up a file group as of t returns the slice with the greatest base commit time <= t (string order), and nothing exactly when all slices are later than t.", "quantifier": "all file groups reachable by adding files in any order, and all t", "why_tests_cant": "must hold for all histories of additions and merges and all probe times", "anchors": ["crates/core/src/file_group/mod.rs: FileGroup::get_file_slice_as_of, FileGroup::get_file_slice_mut_as_of"]}
{"id": "C15", "title": "File group contents do not depend on the order files are added", "statement": "Adding a set of base files with distinct commit times and then a set of log files to a file group succeeds and gives the same slices whatever the order; each slice is keyed by its base file's commit time and only holds log files whose base commit time is that key.", "quantifier": "all sets of base and log files and all orders of insertion", "why_tests_cant": "order independence quantifies over all permutations (listings come back in arbitrary order)", "anchors": ["crates/core/src/file_group/mod.rs: FileGroup::add_base_files, FileGroup::add_log_files", "crates/core/src/file_group/file_slice.rs: FileSlice"]}
{"id": "C16", "title": "A file group never has two base files for one commit time, and no log file without its base file", "statement": "Adding a second base file with a commit time already present is rejected and leaves the group unchanged; adding a log file whose base commit time has no base file is rejected and leaves the group unchanged.", "quantifier": "all file groups and all files", "why_tests_cant": "an invariant over all operation sequences", "anchors": ["crates/core/src/file_group/mod.rs: FileGroup::add_base_file, FileGroup::add_log_file"]}
{"id": "C17", "title": "Merging file groups loses nothing", "statement": "When merging succeeds, the merged group holds exactly the slices of both, and each slice holds the union of the log files; merging is idempotent, commutative and associative on contents; merging groups with different identity or slices with different base files at the same time is an error.", "quantifier": "all pairs/triples of file groups reachable by additions", "why_tests_cant": "algebraic laws over all groups", "anchors": ["crates/core/src/file_group/mod.rs: FileGroup::merge", "crates/core/src/file_group/file_slice.rs: FileSlice::merge", "crates/core/src/file_group/builder.rs: FileGroupMerger"]}
{"id": "C18", "title": "Log files of a slice are read in version order", "statement": "The log files of a slice are iterated in increasing numeric log version, so that later log versions are applied after earlier ones.", "quantifier": "all sets of log files of one slice, versions of any magnitude", "why_tests_cant": "string comparison agrees with numeric comparison for single-digit versions, which is all the fixtures contain", "anchors": ["crates/core/src/file_group/log_file/mod.rs: impl Ord for LogFile", "crates/core/src/file_group/file_slice.rs: FileSlice::log_files"]}
{"id": "C19", "title": "Distinct log files of a slice are all kept", "statement": "Two log files with different names in the same file group are both kept in the slice (the set never drops one of them).", "quantifier": "all pairs of log files of one file group", "why_tests_cant": "equality compares the whole name while ordering compares three fields; only particular pairs expose the gap", "anchors": ["crates/core/src/file_group/log_file/mod.rs: impl Ord for LogFile, impl PartialEq for LogFile", "crates/core/src/file_group/mod.rs: FileGroup::add_log_file"]}
{"id": "C20", "title": "Listing a partition groups every data file under its file id", "statement": "Listing a partition succeeds exactly when every base-format file has a parsable name, no two base files share file id and commit time, and every log file of a listed file id has its base file; the result then has one file group per file id that has a base file, holding exactly the listed base files and the log files of that id; marker/crc files and unparsable non-base files are ignored; the result does not depend on listing order.", "quantifier": "all directory listings, any order", "why_tests_cant": "all permutations and all file sets", "anchors": ["crates/core/src/table/listing.rs: FileLister::list_file_groups_for_partition, FileLister::should_exclude_for_listing"]}
{"id": "C21", "title": "Partition discovery finds every leaf directory once", "statement": "For every directory tree, the partitions listed for a partitioned table are exactly the leaf directories under top-level directories other than lake-format metadata directories, each once, and with no partition filter none is dropped.", "quantifier": "all directory trees of any depth and width", "why_tests_cant": "unbounded recursion depth and shape", "anchors": ["crates/core/src/storage/mod.rs: get_leaf_dirs", "crates/core/src/table/listing.rs: FileLister::list_relevant_partition_paths"]}
{"id": "C22", "title": "Parallel listing gives the same result under every schedule", "statement": "With listing parallelism >= 1, every interleaving of the concurrent partition listings terminates and yields the same partition-to-file-groups map; it fails if and only if the listing of some partition fails.", "quantifier": "all schedules (completion orders), all numbers of partitions, all parallelism values >= 1", "why_tests_cant": "schedules cannot be enumerated by tests; completion order is up to the runtime", "anchors": ["crates/core/src/table/listing.rs: FileLister::list_file_groups_for_relevant_partitions", "crates/core/src/config/read.rs: HudiReadConfig::ListingParallelism"]}
{"id": "C23", "title": "Query results do not depend on earlier queries", "statement": "On unchanged storage, the file slices returned by a query on a table are the same (up to order) whatever queries were run before it on the same table object.", "quantifier": "all histories of queries (filters, timestamps, exclusion sets) followed by any query", "why_tests_cant": "history-dependent cache: unboundedly many histories", "anchors": ["crates/core/src/table/fs_view.rs: FileSystemView::load_file_groups, FileSystemView::collect_file_slices_as_of, FileSystemView::get_file_slices_as_of"]}
{"id": "C24", "title": "A snapshot returns at most one slice per file group, and the right one", "statement": "A snapshot as of t returns, for every file group in a relevant partition that is not replaced and has a slice at or before t, exactly one slice, the newest at or before t; and nothing else.", "quantifier": "all tables, timestamps, filters", "why_tests_cant": "end-to-end over all histories", "anchors": ["crates/core/src/table/mod.rs: Table::get_file_slices_as_of", "crates/core/src/table/fs_view.rs: FileSystemView::collect_file_slices_as_of"]}
{"id": "C25", "title": "A snapshot never exposes uncommitted files", "statement": "Every base file returned by a snapshot read was written by an instant that is completed on the timeline.", "quantifier": "all timelines and all storage contents, including files left by writers that crashed or are still running", "why_tests_cant": "quantifies over every crash point of every writer", "anchors": ["crates/core/src/table/fs_view.rs: FileSystemView::collect_file_slices_as_of", "crates/core/src/table/listing.rs: FileLister::list_file_groups_for_partition"]}
{"id": "C26", "title": "Splitting file slices for parallel readers loses and duplicates nothing", "statement": "Splitting into n splits returns at most max(1,n) non-empty splits whose concatenation is the un-split result, in order, all of the same size except possibly the last.", "quantifier": "all numbers of slices and all n (including 0 and n larger than the number of slices)", "why_tests_cant": "arithmetic over all (len, n)", "anchors": ["crates/core/src/table/mod.rs: Table::get_file_slices_splits, Table::get_file_slices_splits_internal"]}
{"id": "C27", "title": "Reading a log file returns exactly the blocks written", "statement": "For every sequence of well-formed blocks serialized in the log format, reading the bytes returns those blocks in order, except the ones outside the requested instant range; reading always terminates.", "quantifier": "all sequences of blocks: any count, any headers, any content sizes, any format version with headers", "why_tests_cant": "byte-level format over unbounded inputs", "anchors": ["crates/core/src/file_group/log_file/reader.rs: LogFileReader::read_all_blocks, LogFileReader::read_next_block", "crates/core/src/file_group/log_file/content.rs: Decoder::decode_content", "crates/core/src/file_group/log_file/log_format.rs"]}
{"id": "C28", "title": "A truncated log file never yields data that was not written", "statement": "If a log file is cut at any byte (a writer crash), reading it yields either an error or a prefix of the blocks that were written.", "quantifier": "all block sequences and all cut positions", "why_tests_cant": "every crash point of every file", "anchors": ["crates/core/src/file_group/log_file/reader.rs: LogFileReader::read_magic, LogFileReader::read_next_block"]}
{"id": "C29", "title": "Rolled-back blocks are never returned", "statement": "Scanning log files returns the record batches of exactly the in-range blocks whose instant is not the target of an in-range rollback block in any of the scanned files, in file and block order.", "quantifier": "all sets of log files and all block contents", "why_tests_cant": "rollback blocks may be in any later file and target any instant", "anchors": ["crates/core/src/file_group/log_file/scanner.rs: LogFileScanner::scan", "crates/core/src/file_group/log_file/log_block.rs: LogBlock::is_rollback_block, LogBlock::target_instant_time"]}
{"id": "C30", "title": "A rollback only affects blocks written before it", "statement": "A rollback block removes the blocks of its target instant that precede it, and does not remove blocks appended after it.", "quantifier": "all block sequences", "why_tests_cant": "needs sequences with re-use of an instant time after a rollback", "anchors": ["crates/core/src/file_group/log_file/scanner.rs: LogFileScanner::scan"]}
{"id": "C31", "title": "Merging keeps exactly one record per key, the latest", "statement": "With the overwrite-with-latest strategy, merging any record batches of the table schema returns exactly one row for each record key present in the input; that row is one of the input rows with that key, and no other row with that key has a greater (ordering field, commit sequence number).", "quantifier": "all lists of record batches, all orderings including ties and nulls, every tie-breaking the unstable sort may make, every hash iteration order", "why_tests_cant": "unstable sort and hash-map iteration order are nondeterministic; the row set is unbounded", "anchors": ["crates/core/src/merge/record_merger.rs: RecordMerger::merge_record_batches", "crates/core/src/util/arrow.rs: lexsort_to_indices"]}
{"id": "C32", "title": "Merging is insensitive to how rows are batched and ordered", "statement": "When no two rows of a key tie on (ordering field, commit sequence number), the set of merged rows depends only on the multiset of input rows; merging already merged output with further batches gives the same set as merging everything at once.", "quantifier": "all groupings and permutations of the input batches", "why_tests_cant": "quantifies over all permutations/batchings and staged merges", "anchors": ["crates/core/src/merge/record_merger.rs: RecordMerger::merge_record_batches"]}
{"id": "C33", "title": "Append-only merging keeps every row in order", "statement": "With the append-only strategy the output is the concatenation of the input batches: no row is lost, duplicated or reordered.", "quantifier": "all lists of record batches", "why_tests_cant": "all inputs", "anchors": ["crates/core/src/merge/record_merger.rs: RecordMerger::merge_record_batches"]}
{"id": "C34", "title": "A merge strategy that cannot run is rejected or never derived", "statement": "The strategy derived when none is configured is always accepted by validation; a configuration accepted by validation with overwrite-with-latest always has meta fields populated and an ordering field.", "quantifier": "all configurations", "why_tests_cant": "all combinations of present/absent/invalid option values", "anchors": ["crates/core/src/merge/record_merger.rs: RecordMerger::validate_configs", "crates/core/src/config/table.rs: HudiTableConfig::parse_value_or_default"]}
{"id": "C35", "title": "Incremental reads of base files return exactly the rows committed in (start, end]", "statement": "Reading a base file with a start and end timestamp returns exactly its rows whose commit time is after start and at or before end, in order; without a start timestamp (snapshot, time travel) all rows are returned; consecutive windows split the rows without loss or duplication.", "quantifier": "all base files, all windows", "why_tests_cant": "all row contents and boundaries", "anchors": ["crates/core/src/file_group/reader.rs: FileGroupReader::create_filtering_mask_for_base_file_records, FileGroupReader::read_file_slice_by_base_file_path"]}
{"id": "C36", "title": "A time-travel read of a slice never returns log records written after the requested time", "statement": "Reading a file slice with end timestamp t returns no record coming from a log block whose instant is after t; in read-optimized mode no log record at all.", "quantifier": "all slices, log contents and timestamps", "why_tests_cant": "end-to-end over all histories of log appends", "anchors": ["crates/core/src/file_group/reader.rs: FileGroupReader::read_file_slice, FileGroupReader::create_instant_range_for_log_file_scan", "crates/core/src/file_group/log_file/scanner.rs: LogFileScanner::scan"]}
{"id": "C37", "title": "Partition pruning never drops a matching partition", "statement": "For every table whose partition directories are named by the configured scheme (hive-style or not, url-encoded or not) from values of the partition fields in schema order, a partition whose values satisfy every filter is not pruned.", "quantifier": "all partition schemas, value tuples (any strings, including '/', '=' and '%'), filters and the four naming schemes", "why_tests_cant": "all strings through percent-decoding and splitting", "anchors": ["crates/core/src/table/partition.rs: PartitionPruner::should_include, PartitionPruner::parse_segments", "crates/core/src/expr/filter.rs: SchemableFilter"]}
{"id": "C38", "title": "Partition pruning is exact on well-formed paths", "statement": "For partition values without path separators, a partition is pruned exactly when one of its values fails one of the filters; with no filter nothing is pruned.", "quantifier": "all well-formed partition paths and filters", "why_tests_cant": "all inputs", "anchors": ["crates/core/src/table/partition.rs: PartitionPruner::should_include"]}
{"id": "C39", "title": "Partition values are matched to the right fields", "statement": "Pruning compares each filter with the path segment of the field it names, for every order in which the partition fields are configured relative to the table schema.", "quantifier": "all orders of partition fields relative to the table schema", "why_tests_cant": "fixtures use partition fields in schema order", "anchors": ["crates/core/src/table/mod.rs: Table::get_partition_schema", "crates/core/src/table/partition.rs: PartitionPruner::parse_segments"]}
{"id": "C40", "title": "Negating a filter is the logical complement", "statement": "A value satisfies a negated filter exactly when it does not satisfy the filter; negating twice is the identity; every operator is written and parsed back consistently.", "quantifier": "all operators and all pairs of comparable values", "why_tests_cant": "all values", "anchors": ["crates/core/src/expr/mod.rs: ExprOperator::negate, ExprOperator::from_str", "crates/core/src/expr/filter.rs: Filter::negate"]}
{"id": "C41", "title": "Query-engine predicates are translated soundly into partition filters", "statement": "Every row that satisfies the query engine's WHERE conjuncts lies in a partition that satisfies all the filters derived from them; conjuncts that cannot be translated are dropped, never approximated wrongly.", "quantifier": "all expressions (nesting, NOT, literal on either side) and all rows", "why_tests_cant": "all expression trees and rows; tests only use column-on-the-left comparisons", "anchors": ["crates/datafusion/src/util/expr.rs: exprs_to_filters, binary_expr_to_filter, not_expr_to_filter", "crates/datafusion/src/lib.rs: HudiDataSource::scan, HudiDataSource::can_push_down"]}
{"id": "C42", "title": "Option precedence is fixed", "statement": "For every option key: a value in the table's hoodie.properties wins over one passed by the caller as a hudi option, which wins over a generic caller option, which wins over a value in the global configuration files; storage options never receive hoodie.* keys and hudi options never receive other keys from generic options.", "quantifier": "all option maps and files, any iteration order", "why_tests_cant": "all combinations of sources for each key", "anchors": ["crates/core/src/table/builder.rs: TableBuilder::build, resolve_options, imbue_table_properties, imbue_global_hudi_configs_if_absent", "crates/core/src/config/util.rs: split_hudi_options_from_others"]}
{"id": "C43", "title": "Properties files are parsed line by line", "statement": "Parsing the text of a properties file written from any list of clean key/value pairs (with comments and blank lines anywhere) yields exactly these pairs, the last occurrence of a key winning.", "quantifier": "all lists of pairs and all interleavings of comments and blank lines", "why_tests_cant": "all strings", "anchors": ["crates/core/src/config/util.rs: parse_data_for_options", "crates/core/src/table/builder.rs: imbue_table_properties"]}
{"id": "C44", "title": "A table that was opened never panics on a configuration lookup", "statement": "If opening a table succeeds (its configuration is validated), no later query panics because a configuration value is missing or malformed.", "quantifier": "all configurations accepted by validation and all queries", "why_tests_cant": "requires enumerating every optional key being absent", "anchors": ["crates/core/src/config/mod.rs: HudiConfigs::get_or_default, ConfigParser::parse_value_or_default", "crates/core/src/config/table.rs: HudiTableConfig::default_value", "crates/core/src/table/builder.rs: validate_configs", "crates/core/src/table/partition.rs: PartitionPruner::new"]}
{"id": "C45", "title": "Validation accepts exactly the supported tables", "statement": "Without the skip flag, validation accepts a configuration exactly when every present table and read option parses, table name, type and version are present, the table version is 5 or 6, the timeline layout version is 1, partition columns are not dropped and the merge strategy can run.", "quantifier": "all configurations", "why_tests_cant": "all combinations of option values", "anchors": ["crates/core/src/table/builder.rs: TableBuilder::validate_configs", "crates/core/src/config/mod.rs: ConfigParser::validate"]}
{"id": "C46", "title": "Read options given for one reader override the table's without changing it", "statement": "Creating a reader with overriding options yields, for each hudi key, the overriding value if given and the table's value otherwise.", "quantifier": "all option maps", "why_tests_cant": "all maps", "anchors": ["crates/core/src/file_group/reader.rs: FileGroupReader::new_with_configs_and_options", "crates/core/src/table/mod.rs: Table::create_file_group_reader_with_options"]}
{"id": "C47", "title": "Relative paths resolve inside the table and to the listed object", "statement": "Joining relative path segments to the table base URL addresses exactly the base path followed by the non-empty pieces of the segments (dot segments dropped), percent-encoded reversibly: the object key read is the one that was listed, and it never escapes the base directory.", "quantifier": "all base URLs and all relative paths (any bytes, '%', spaces, '..')", "why_tests_cant": "all strings", "anchors": ["crates/core/src/storage/util.rs: join_url_segments, parse_uri", "crates/core/src/storage/mod.rs: Storage::list_files, Storage::get_file_metadata"]}
{"id": "C48", "title": "List columns decoded from log blocks keep their values", "statement": "Converting decoded Avro rows with a (nullable) list column to an Arrow list column preserves each row: reading row i back gives the list (or null) of row i.", "quantifier": "all sequences of rows with null, empty and non-empty lists, for each supported item type", "why_tests_cant": "offset bookkeeping over all row sequences", "anchors": ["crates/core/src/avro_to_arrow/arrow_array_reader.rs: build_nested_list_array, flatten_values, build_primitive_array, list_array_string_array_builder"]}
{"id": "C49", "title": "Scalar columns decoded from log blocks keep their values", "statement": "Converting decoded Avro rows to Arrow scalar columns preserves each value and null, for every type the schema conversion produces, or reports an error; it never panics and never silently nulls a value.", "quantifier": "all rows and scalar types", "why_tests_cant": "all values and types", "anchors": ["crates/core/src/avro_to_arrow/arrow_array_reader.rs: build_struct_array, build_primitive_array, Resolver", "crates/core/src/avro_to_arrow/schema.rs: schema_to_field_with_props"]}
{"id": "C50", "title": "The Arrow schema has the fields of the Avro schema", "statement": "Converting an Avro record schema yields one Arrow field per Avro field, with the same name and position, nullable exactly when the Avro field is a union with null.", "quantifier": "all Avro record schemas (any nesting)", "why_tests_cant": "recursive schemas of unbounded size", "anchors": ["crates/core/src/avro_to_arrow/mod.rs: to_arrow_schema", "crates/core/src/avro_to_arrow/schema.rs: schema_to_field_with_props"]}
{"id": "C51", "title": "Concurrent queries on one table all complete", "statement": "Any number of concurrent file-slice queries on the same table object eventually complete under every schedule of a fair runtime.", "quantifier": "all schedules, numbers of tasks and runtime threads >= 1", "why_tests_cant": "deadlocks depend on schedules tests do not control", "anchors": ["crates/core/src/table/fs_view.rs: FileSystemView::collect_file_slices_as_of, FileSystemView::load_file_groups"]}
{"id": "C52", "title": "Snapshot reads are complete and current at record level", "statement": "For an append-only history of commits, deltacommits and compactions by writers that follow the table layout, a snapshot read as of t returns, for every record key of a file group, exactly the latest version written at or before t.", "quantifier": "all histories of completed write operations and all t", "why_tests_cant": "end-to-end refinement over all histories", "anchors": ["crates/core/src/table/mod.rs: Table::read_snapshot_as_of", "crates/core/src/file_group/reader.rs: FileGroupReader::read_file_slice", "crates/core/src/merge/record_merger.rs: RecordMerger::merge_record_batches"]}
{"id": "C53", "title": "Recorded instant times are calendar times", "statement": "For every real calendar date and time, the timeline file name built from it is accepted and the instant's epoch milliseconds are those obtained by counting days one by one from 1970-01-01 in the Gregorian calendar; fourteen or seventeen digits that are no such date and time (or one with second 60) are rejected with an error.", "quantifier": "all dates from year 0 to 9999, all times of day, with and without milliseconds, every action and state", "why_tests_cant": "leap-year and month-length arithmetic over all dates", "anchors": ["crates/core/src/timeline/instant.rs: Instant::parse_datetime, Instant::try_from_file_name_and_timezone"]}
{"id": "C54", "title": "Commit metadata is read from the file the instant was loaded from", "statement": "For every instant loaded from a listed timeline file, the path from which its metadata is later read is the path of that file.", "quantifier": "all file names accepted as completed instants", "why_tests_cant": "all names", "anchors": ["crates/core/src/timeline/instant.rs: Instant::relative_path, Instant::file_name", "crates/core/src/timeline/selector.rs: TimelineSelector::try_create_instant", "crates/core/src/timeline/mod.rs: Timeline::get_instant_metadata"]}
{"id": "C55", "title": "Time travel is stable under later writes", "statement": "The base files shown by a query as of t do not change when later commits add base files, log files, partitions and replacecommits after t; log files are only added, and the records read as of t stay the same.", "quantifier": "all tables, all later writes that add files and instants after t, all times and filters", "why_tests_cant": "quantifies over all later histories", "anchors": ["crates/core/src/table/mod.rs: Table::get_file_slices_as_of", "crates/core/src/table/fs_view.rs: FileSystemView::get_file_slices_as_of"]}
{"id": "C56", "title": "Incremental queries return exactly the changed file slices", "statement": "The slices between two timestamps are exactly those of the file groups for which a commit after the start and up to the end names a base file and that none of these commits replaces; each has the newest base file named by these commits that is not later than the end, and the log files they name for it.", "quantifier": "all timelines, commit metadata and pairs of timestamps; all iteration orders of hash sets", "why_tests_cant": "all commit histories and metadata", "anchors": ["crates/core/src/table/mod.rs: Table::get_file_slices_between", "crates/core/src/timeline/mod.rs: Timeline::get_file_groups_between"]}
{"id": "C57", "title": "A commit that writes nothing leaves the table readable", "statement": "After a completed commit that wrote no file, snapshot queries still succeed and return the earlier slices; a query is only rejected for a bad time, bad filters, missing configuration or unreadable metadata.", "quantifier": "all tables and commit metadata", "why_tests_cant": "all histories of commits, including empty ones", "anchors": ["crates/core/src/table/mod.rs: Table::get_partition_schema, Table::get_file_slices_internal", "crates/core/src/timeline/mod.rs: Timeline::get_latest_schema"]}
{"id": "C58", "title": "The storage layout does not matter, only the versions", "statement": "Two tables (or one table before and after compactions, rollbacks and later writes) whose file groups have the same record versions up to t return the same records for a snapshot as of t, whether the versions are in base files or in logs.", "quantifier": "all pairs of histories with the same versions up to t, all t", "why_tests_cant": "quantifies over pairs of histories", "anchors": ["crates/core/src/table/mod.rs: Table::read_snapshot_as_of", "crates/core/src/file_group/reader.rs: FileGroupReader::read_file_slice", "crates/core/src/file_group/log_file/scanner.rs: LogFileScanner::scan"]}
{"id": "C59", "title": "An incremental read returns the changed records", "statement": "An incremental read from s to e returns, for every file group that got a record version in the window (s, e] and was not replaced in it, exactly the version current as of e of every record key that got a version in the window, each once; nothing that was written at or before s, after e, or by a failed write.", "quantifier": "all histories of commits, deltacommits, compactions, failed writes and rollbacks of all file groups, all windows", "why_tests_cant": "quantifies over histories of writes and over two points of time in them", "anchors": ["crates/core/src/table/mod.rs: Table::read_incremental_records", "crates/core/src/timeline/selector.rs: TimelineSelector", "crates/core/src/file_group/builder.rs: build_file_groups", "crates/core/src/file_group/reader.rs: FileGroupReader::read_file_slice"]}
{"id": "C60", "title": "Concurrent queries get the answers they would get alone", "statement": "When any number of file-slice queries run concurrently on one table object over unchanged storage, each query that is answered gets the same slices (or an error exactly when) as if it ran alone on a newly opened table, under every schedule and number of threads.", "quantifier": "all sets of queries, all interleavings of their steps, all numbers of runtime threads", "why_tests_cant": "interleavings of accesses to the shared cache are not controllable in tests", "anchors": ["crates/core/src/table/fs_view.rs: FileSystemView::get_file_slices_as_of, FileSystemView::load_file_groups, FileSystemView::collect_file_slices_as_of", "crates/core/src/table/mod.rs: Table::get_file_slices_as_of"]}
{"id": "C61", "title": "Reading the latest state is reading as of the last completed commit", "statement": "On a table with completed commits, the file slices, splits and records returned without a timestamp are those returned for the timestamp of the last completed commit, with the same filters.", "quantifier": "all tables with at least one completed commit, all filters, all states of the table object's cache", "why_tests_cant": "an equality between two calls for every table and every filter", "anchors": ["crates/core/src/table/mod.rs: Table::get_file_slices, Table::get_file_slices_splits, Table::read_snapshot, Table::read_snapshot_as_of"]}
{"id": "C62", "title": "File slices survive the Python boundary", "statement": "Reading, through the Python file group reader, a file slice that a snapshot or incremental query returned to Python gives exactly what reading the original slice gives; the relative paths it shows are those of its files, in reading order, and the sizes and record count are those of the base file.", "quantifier": "all tables, queries and query histories, all names of base and log files, all storages and decoders", "why_tests_cant": "the slice is rebuilt from file names, so every possible file name matters", "anchors": ["python/src/internal.rs: HudiFileSlice, HudiFileGroupReader::read_file_slice", "crates/core/src/file_group/mod.rs: FileGroup::add_base_file_from_name, FileGroup::add_log_file_from_name"]}
{"id": "C63", "title": "A SQL scan plans exactly the files of the snapshot", "statement": "The plan that the table provider hands to the query engine reads the base file of every file slice that the API returns for the pushed-down conditions, each exactly once, with its size in the storage, grouped as hoodie.read.input.partitions asks; there is a plan whenever the API answers.", "quantifier": "all tables, conditions, option values and states of the table object's cache", "why_tests_cant": "the plan is a regrouping of an arbitrary list, for every number of groups and every condition", "anchors": ["crates/datafusion/src/lib.rs: HudiDataSource::scan, HudiDataSource::get_input_partitions", "crates/core/src/table/mod.rs: Table::get_file_slices_splits"]}
{"id": "C64", "title": "Pushing SQL conditions down loses no rows", "statement": "SELECT * FROM table WHERE conditions returns exactly the rows of the table's latest file slices on which all conditions are true, whatever conditions are pushed down to the partitions.", "quantifier": "all tables and layouts of partitions, all conjunctions of expressions, all rows, all orders in which the engine reads", "why_tests_cant": "pruning errors show only for particular combinations of expressions, literals and partition values", "anchors": ["crates/datafusion/src/lib.rs: HudiDataSource::supports_filters_pushdown, HudiDataSource::can_push_down, HudiDataSource::scan", "crates/datafusion/src/util/expr.rs: exprs_to_filters"]}
{"id": "C65", "title": "A SQL scan reads the objects of the table's files", "statement": "The object that the engine reads for a planned file is the object that the API reads for the same file, whatever characters occur in the names of the table, its partitions and its files; different files are different objects.", "quantifier": "all table locations, all names of partitions and files", "why_tests_cant": "names pass two different percent encodings; every character matters", "anchors": ["crates/datafusion/src/lib.rs: HudiDataSource::scan", "crates/core/src/storage/util.rs: join_url_segments"]}
{"id": "C66", "title": "Options of tables that SQL commands create", "statement": "CREATE EXTERNAL TABLE gives the table the options of the command and, where the command sets none, the non-empty settings of the session; table properties override them, global options and the environment only fill gaps; hoodie.* keys become table options and the others storage options.", "quantifier": "all sessions, commands, properties files, environments and iteration orders of hash maps", "why_tests_cant": "precedence is a statement about all keys in all sources and all iteration orders", "anchors": ["crates/datafusion/src/lib.rs: HudiTableFactory::resolve_options, HudiTableFactory::create", "crates/core/src/table/builder.rs: TableBuilder::build, OptionResolver::resolve_options"]}
{"id": "C67", "title": "SQL and API read the same snapshot", "statement": "SELECT * FROM table WHERE conditions returns the rows that read_snapshot returns, restricted to those on which the conditions are true.", "quantifier": "all tables, copy-on-write and merge-on-read, all conditions, all states of the table object's cache", "why_tests_cant": "agreement of two read paths over every table", "anchors": ["crates/datafusion/src/lib.rs: HudiDataSource::scan", "crates/core/src/table/mod.rs: Table::read_snapshot"]}
{"id": "C68", "title": "An open table follows its storage", "statement": "While a table object stays open and the storage changes between its calls, every answer is one that a fresh view of the current storage gives with the timeline of the open table; its latest snapshot goes on to show the base files that it showed when the table was opened.", "quantifier": "all tables, all sequences of queries and storage changes, at any length", "why_tests_cant": "the cache of file groups outlives every query; what it holds depends on the whole history of queries and changes", "anchors": ["crates/core/src/table/mod.rs: Table::get_file_slices, Table::read_snapshot", "crates/core/src/table/fs_view.rs: FileSystemView::load_file_groups, FileSystemView::collect_file_slices_as_of"]}
{"id": "C69", "title": "The instants of an action", "statement": "get_completed_commits, get_completed_deltacommits and get_completed_replacecommits return exactly the completed instants of their action in the storage, oldest first or newest first as asked; whenever the timeline can be loaded they answer and together cover it.", "quantifier": "all contents of the timeline directory, all time zones, both orders", "why_tests_cant": "exactness over every directory listing", "anchors": ["crates/core/src/timeline/mod.rs: Timeline::get_completed_commits, Timeline::get_completed_deltacommits, Timeline::get_completed_replacecommits", "crates/core/src/timeline/selector.rs: TimelineSelector::try_create_instant"]}
{"id": "C70", "title": "Clustering commits", "statement": "get_completed_clustering_commits returns exactly the completed replacecommits that a clustering operation wrote, in the order asked for.", "quantifier": "all contents of the timeline directory and of the commit metadata in it", "why_tests_cant": "depends on the metadata of every replacecommit, however written", "anchors": ["crates/core/src/timeline/mod.rs: Timeline::get_completed_clustering_commits"]}
{"id": "C71", "title": "Schema and text of commit metadata", "statement": "The Avro schema of a table is the one that its last completed commit records, an error exactly if there is none; the metadata text of an instant is the content of its file.", "quantifier": "all timelines and all commit metadata", "why_tests_cant": "an equivalence over every timeline and metadata", "anchors": ["crates/core/src/timeline/mod.rs: Timeline::get_latest_avro_schema, Timeline::get_instant_metadata_in_json", "crates/core/src/table/mod.rs: Table::get_avro_schema"]}
{"id": "C72", "title": "Tables on an object store", "statement": "For a table on an object store, the partitions are exactly the directories that hold its data files, a directory listing is exactly the objects directly in it with their sizes, a snapshot query returns exactly the newest slices that the objects of the matching partitions give, and every base and log file of an answer is an object of the store that is read back under the path that the slice shows.", "quantifier": "all sets of objects, all locations, all filters, times, earlier queries and schedules", "why_tests_cant": "the storage may hold any objects under any keys; the claim joins key encoding, prefix listing, partition discovery, file naming and slice selection", "anchors": ["crates/core/src/storage/mod.rs: Storage::list_dirs, Storage::list_files, Storage::get_file_data, Storage::get_file_metadata, get_leaf_dirs", "crates/core/src/table/listing.rs: FileLister", "crates/core/src/table/mod.rs: Table::get_file_slices"]}
{"id": "C73", "title": "Opening a table", "statement": "Opening a location that holds a supported table succeeds; the table has the options of its properties file, of the caller and of the global file in this order of precedence, the storage options of the caller and the environment, and the completed commits in its timeline directory in order; queries on it answer from the objects at the location. Opening a location without a table, or with an unsupported one, returns an error.", "quantifier": "all object stores, locations, properties, options, environments and global files", "why_tests_cant": "composition over every content of the storage and every set of options", "anchors": ["crates/core/src/table/builder.rs: TableBuilder::build, OptionResolver::resolve_options, OptionResolver::imbue_table_properties, OptionResolver::imbue_global_hudi_configs_if_absent", "crates/core/src/storage/mod.rs: Storage::new"]}
{"id": "C74", "title": "Queries while writers are at work", "statement": "While a query runs, writers may add files to the table; the listings and reads of the query happen one after another and may each see another state of the storage. The answer of a query as of a time is nevertheless that of one state: the base files that a query at its start shows which nobody disturbs, and at least the same log files; where the files of every file group hold a history of writes, the records read are those of the history as of the time.", "quantifier": "all sets of objects at the start, all histories of additions, all interleavings of the requests of the query with them, all earlier queries, filters and times", "why_tests_cant": "needs every interleaving of the requests of a query with the steps of writers", "anchors": ["crates/core/src/storage/mod.rs: Storage::list_dirs, Storage::list_files, Storage::get_file_data, Storage::get_file_metadata", "crates/core/src/table/fs_view.rs: FileSystemView::get_file_slices_as_of", "crates/core/src/table/mod.rs: Table::get_file_slices_as_of"]}
{"id": "C75", "title": "Calls on a table builder, in Rust and in Python", "statement": "Options may be given to a table builder in any number of calls, one by one or many at once, as Hudi options, storage options or generic options: the last value given for a key counts, in each category by itself, and the table is built with the values that its properties, the Hudi options, the generic options and the global file give, in this order. Calls that give the same last values build the same table, whatever their order; the same calls in Python, and the constructors that take options at once, build the same table. A builder may be used again, also after a failure: it builds what a new builder with the same calls would.", "quantifier": "all sequences of calls with all keys and values, all locations, environments, properties and global files, all iteration orders of hash maps, all earlier uses of the builder", "why_tests_cant": "needs every sequence of calls and every iteration order; a reused builder carries state that one test run does not show", "anchors": ["crates/core/src/table/builder.rs: TableBuilder::from_base_uri, impl_with_options, TableBuilder::build, TableBuilder::resolve_options", "crates/core/src/table/mod.rs: Table::new, Table::new_with_options", "python/hudi/table/builder.py: HudiTableBuilder", "python/src/internal.rs: HudiTable::new_with_options, build_hudi_table"]}
{"id": "C76", "title": "Log records keep their values up to the reader", "statement": "The records that writers append to the log files of a file group, in Avro data blocks, reach the reader with the values that were written: reading a file slice gives for each key the latest row among those of the base file and the records of the log blocks that are in range and not rolled back, and a snapshot read as of a time gives for each key the newest version committed by then, each log record with the type and the value of every one of its fields.", "quantifier": "all record schemas without the constructs that lose values (UUIDs, big decimals, timestamps in nanoseconds, nullable lists of booleans, records in lists of lists, null lists of records) or cannot be read, all records, all numbers of records and blocks, all histories of a file group with rollbacks, all decoders of schemas and records", "why_tests_cant": "needs every schema, every value, batches on both sides of the batch size and every history; tests read a few files with flat records", "anchors": ["crates/core/src/file_group/log_file/content.rs: Decoder::decode_avro_record_content", "crates/core/src/avro_to_arrow/arrow_array_reader.rs: AvroArrowArrayReader::try_new, next_batch", "crates/core/src/avro_to_arrow/schema.rs: to_arrow_schema", "crates/core/src/file_group/reader.rs: FileGroupReader::read_file_slice", "crates/core/src/table/mod.rs: Table::read_snapshot_as_of"]}
{"id": "C77", "title": "Log records are read from their Avro binary form", "statement": "A log record that a writer stores in Avro's binary encoding, under the schema of its block, is read with the value that was written, whichever of the permitted encodings the writer chose (arrays and maps in any number of blocks, with or without their sizes), and reading stops exactly at the end of the record. File slices and snapshots over files of such bytes return for each key the latest record.", "quantifier": "all record schemas and values, all their binary encodings, all contents of log files made of them, all histories of a file group", "why_tests_cant": "needs every schema, value and encoding; test files come from one writer with one way to encode", "anchors": ["crates/core/src/file_group/log_file/avro.rs: AvroDataBlockContentReader", "crates/core/src/file_group/log_file/content.rs: Decoder::decode_avro_record_content", "crates/core/src/file_group/reader.rs: FileGroupReader::read_file_slice"]}
{"id": "C78", "title": "Options mean what their texts say", "statement": "What a table and its readers do is governed by the values that the texts of its options stand for: partition columns are the names between commas, switches are true or false, numbers are decimal, names of types, time zones and strategies are recognised in any case; where a text is missing or stands for no value, the documented default holds (merging replaces older records when record keys and an ordering column exist). A table for which no partition column is given is read as a table without partitions.", "quantifier": "all sets of options, checked or not", "why_tests_cant": "needs every text of every option and every combination", "anchors": ["crates/core/src/config/table.rs: HudiTableConfig::parse_value, parse_value_or_default, default_value", "crates/core/src/config/read.rs: HudiReadConfig", "crates/core/src/table/mod.rs: Table::table_name, table_type, is_mor, timezone", "crates/core/src/table/partition.rs: is_table_partitioned", "crates/core/src/merge/record_merger.rs: RecordMerger::new"]}
{"id": "C79", "title": "Commit metadata is read from its JSON text", "statement": "The metadata of an instant is accepted exactly if its file is a JSON object (with blanks around it, nested at most 127 deep), and what the table then works with is what this text stands for: blanks between tokens do not matter, escapes and surrogate pairs are resolved, of members with the same key the last counts. Any other file is reported as an error. A file cut at any byte is reported as an error, unless only blanks at its end are missing.", "quantifier": "all sequences of bytes; all positions of the cut", "why_tests_cant": "the set of texts is infinite, and so are the ways in which they can be nested", "anchors": ["crates/core/src/timeline/mod.rs: Timeline::get_instant_metadata (serde_json::from_slice)"]}
{"id": "C80", "title": "Incomplete commit metadata never changes an answer", "statement": "While the metadata file of any commit is missing or has been written only in part, a query returns what it would return with the complete file, or an error: never fewer or other file groups, slices or records without an error.", "quantifier": "all tables, all queries, all sets of files that are cut, all positions of the cut", "why_tests_cant": "needs every crash point of every writer", "anchors": ["crates/core/src/timeline/mod.rs: get_instant_metadata, get_replaced_file_groups_as_of, get_file_groups_between, get_latest_schema", "crates/core/src/table/mod.rs: get_file_slices_as_of, read_snapshot, read_snapshot_as_of, read_incremental_records"]}
{"id": "C81", "title": "From the bytes of a table to its records", "statement": "Opening a table and reading a snapshot as of a time returns the records that the bytes of its objects stand for: for every file group with a base file of that time or before, that no replacecommit of that time or before replaces and whose partition passes the filters, exactly one batch, whose rows are for every record key the newest version committed at or before the time. Over the whole table no key appears twice, no committed key is missing and no outdated version is returned, as long as writers keep the versions of a key in one file group and have rolled back the failed writes of before the time.", "quantifier": "all sets of objects, all histories of commits, deltacommits, compactions, failed writes, rollbacks and replacements, all times, all filters, all earlier queries", "why_tests_cant": "it joins every layer: option files, timeline names, JSON, listing, log blocks, Avro and merging; tests fix a table", "anchors": ["crates/core/src/table/builder.rs: build", "crates/core/src/table/mod.rs: read_snapshot_as_of, read_snapshot", "crates/core/src/table/fs_view.rs: get_file_slices_as_of", "crates/core/src/timeline/mod.rs", "crates/core/src/file_group/reader.rs: read_file_slice", "crates/core/src/file_group/log_file/scanner.rs", "crates/core/src/merge/record_merger.rs"]}
{"id": "C82", "title": "Queries of tables in order do not fail", "statement": "Reading a snapshot of a table whose files are in order never fails and never panics, and there always is an answer: base files in the partitions have proper names and readable statistics, log files have their base file, replacecommits up to the time are readable, the last commit names a file with a readable schema, the writers left what they wrote, filters are on partition columns with values of their types. Without filters the latest snapshot then has exactly the current records of the table.", "quantifier": "all such sets of objects, all times, all filters, all earlier queries, all orders in which listings and reads complete", "why_tests_cant": "absence of failures over all tables and schedules is not a matter of examples", "anchors": ["crates/core/src/table/mod.rs: read_snapshot_as_of, read_snapshot, get_file_slices_internal", "crates/core/src/table/fs_view.rs: load_file_groups, collect_file_slices_as_of", "crates/core/src/file_group/file_slice.rs: load_metadata_if_needed", "crates/core/src/table/listing.rs", "crates/core/src/timeline/mod.rs: get_replaced_file_groups_as_of"]}
{"id": "C83", "title": "From the objects of a table to the records of an incremental read", "statement": "A table is opened from its objects and the changes after one time up to another, or up to the last commit, are read. When the metadata of the commits in between records what writers wrote, the records read are exactly the changes of the table: for every key with a version committed after the first time and not after the second, its newest version as of the second, each key once, except in file groups replaced in between. For tables whose files are in order such a read does not fail.", "quantifier": "all sets of objects, all histories of writes, all pairs of times, all orders in which file slices are read", "why_tests_cant": "one missing or duplicated change in any history of commits is a silent error downstream; tests fix a few tables", "anchors": ["crates/core/src/table/mod.rs: read_incremental_records", "crates/core/src/timeline/mod.rs: get_file_groups_between", "crates/core/src/file_group/builder.rs: build_file_groups, build_replaced_file_groups", "crates/core/src/file_group/reader.rs: create_filtering_mask_for_base_file_records, read_file_slice"]}
{"id": "C84", "title": "The readers of a table read the storage of the table", "statement": "Every file group reader that a table makes, whatever reading options are given, reads the storage that the table was opened on, with the options given and else those of the table. A reader made without the table, from its URI and its options, reads the same storage.", "quantifier": "all tables, all options and all orders in which maps are visited, all stores and environments", "why_tests_cant": "options pass through several maps in unspecified orders on the way to a reader; tests use local files, for which most options do not matter", "anchors": ["crates/core/src/table/mod.rs: create_file_group_reader_with_options", "crates/core/src/file_group/reader.rs: new_with_configs_and_options, new_with_options", "crates/core/src/storage/mod.rs: Storage::new", "crates/core/src/table/builder.rs: resolve_cloud_env_vars"]}
{"id": "C85", "title": "Planning a query and reading its file slices elsewhere is reading", "statement": "The file slices of a snapshot (or of the changes between two times), in any number of splits, are read by workers with file group readers, in Rust or, handed over as names, in Python. Together the workers get an answer of the call that reads the snapshot (or the changes) at once, and every answer of that call can be got by workers.", "quantifier": "all tables and storages, all numbers of splits, all filters and times, all readers of the workers", "why_tests_cant": "a distributed engine splits slices over processes, each with its own reader and its own map orders; tests read whole tables in one process", "anchors": ["crates/core/src/table/mod.rs: get_file_slices_splits, get_file_slices_splits_as_of, get_file_slices_between, create_file_group_reader_with_options, read_snapshot, read_incremental_records", "crates/core/src/file_group/reader.rs: new_with_options, read_file_slice", "python/src/internal.rs: HudiTable, HudiFileGroupReader"]}
{"id": "C86", "title": "A copy kept up to date by incremental reads is the table", "statement": "Someone has the records of a table as of one time. They read the changes since then, up to a given time or the latest commit, and let each change take the place of the record with its key. The result is the table as of the end of the changes, so a follower that polls for ever stays equal to the table; and the snapshot at the end is the snapshot at the start with the changes applied.", "quantifier": "all tables and objects, all histories of commits, deltacommits, compactions, failed writes and rollbacks, all start and end times, all states of the table at which the copy was made", "why_tests_cant": "needs every version of every write to be in exactly one window and each window to return the newest as of its end; tests read a few windows of fixed tables and do not compare them with snapshots", "anchors": ["crates/core/src/table/mod.rs: read_incremental_records, read_snapshot_as_of, get_file_slices_between", "crates/core/src/file_group/reader.rs: read_file_slice, create_filtering_mask_for_base_file_records", "crates/core/src/timeline/mod.rs: get_file_groups_between"]}
{"id": "C87", "title": "Reading with filters on the partition columns is selecting records", "statement": "read_snapshot and read_snapshot_as_of with filters on partition columns return exactly the records that they return without filters and whose partition columns satisfy all the filters; and a filter and its negation divide the records, each being in exactly one of the two answers.", "quantifier": "all tables and objects, all histories of writes, all lists of filters and operators, all types of partition columns, hive-style or plain names, percent-encoded or not, all times", "why_tests_cant": "needs the partition values in paths, the pruner, the listing, the slices and the merged records to fit together for every table and filter; tests count the rows of a few fixed tables", "anchors": ["crates/core/src/table/mod.rs: read_snapshot, read_snapshot_as_of", "crates/core/src/table/partition.rs: PartitionPruner::should_include, parse_segments", "crates/core/src/expr/filter.rs: Filter, SchemableFilter"]}
{"id": "C88", "title": "Read-optimized queries return the newest base files", "statement": "In read-optimized mode, and for tables without log files, read_snapshot and read_snapshot_as_of return for every file group exactly the rows of its newest base file at or before the time: the records of the group as they were when that file was written, whole. Incremental reads in this mode follow these answers.", "quantifier": "all tables and objects, all merge settings, all contents of log files, all histories of writes, all times and filters", "why_tests_cant": "the newest base file depends on listings, commit times and replacements of every file group; the tests read a few fixed tables in this mode", "anchors": ["crates/core/src/table/mod.rs: read_snapshot_as_of, read_incremental_records", "crates/core/src/file_group/reader.rs: FileGroupReader::read_file_slice, read_file_slice_by_base_file_path", "crates/core/src/config/read.rs: HudiReadConfig::UseReadOptimizedMode"]}
{"id": "C89", "title": "A write that stops before it completes is not seen", "statement": "A table is opened before and after any number of writers began and stopped, at any point before their commit completed. Its latest commit is the same, and read_snapshot returns the same records. This holds whatever the stopped writers left: requested and inflight files, base files that are whole, cut short or empty, and log files.", "quantifier": "all tables and objects, all numbers of stopped writers, all points where they stop, all contents of the files they left", "why_tests_cant": "a writer can stop between any two bytes it writes; the tests read tables whose commits all completed", "anchors": ["crates/core/src/timeline/selector.rs: TimelineSelector::try_create_instant", "crates/core/src/timeline/mod.rs: Timeline::get_latest_commit_timestamp", "crates/core/src/table/mod.rs: read_snapshot", "crates/core/src/file_group/mod.rs: FileGroup::get_file_slice_as_of"]}
{"id": "C90", "title": "Records keep their columns when the columns of a table change", "statement": "A file slice holds a base file and log records written later with other columns: some added, some removed or in another order. Reading it returns each latest record with every value under the name of the column it was written in, and null where it was written without the column.", "quantifier": "all file slices, all schemas of their base files and log blocks, all records", "why_tests_cant": "columns can be added, removed and moved between any two writes; the tests read slices whose files share one schema", "anchors": ["crates/core/src/file_group/reader.rs: read_file_slice", "crates/core/src/merge/record_merger.rs: RecordMerger::merge_record_batches"]}
{"id": "C91", "title": "Stored bytes do not make a query panic", "statement": "Whatever bytes the files of a table hold - cut, damaged or written by another program - opening the table and querying it returns a result or an error to the caller; it does not panic.", "quantifier": "all objects in the storage of a table, all query times and filters, all contents of metadata, log and base files", "why_tests_cant": "the bytes that a crashed or foreign writer can leave are unbounded; the tests read a few well-formed tables", "anchors": ["crates/core/src/file_group/log_file/reader.rs: LogFileReader::read_all_blocks", "crates/core/src/file_group/log_file/content.rs: Decoder", "crates/core/src/file_group/reader.rs: read_file_slice", "crates/core/src/table/mod.rs: read_snapshot", "crates/core/src/timeline/instant.rs: parse_datetime"]}
{"id": "C92", "title": "Deleted records are not returned", "statement": "A snapshot read as of t returns no record that was deleted at or before t and not written again since; a record written again after its deletion is returned as written, whatever its ordering value was before; records deleted after t are still returned. A copy kept up to date by incremental reads loses deleted records too.", "quantifier": "all histories of commits, deletions, deltacommits, compactions, failed writes and rollbacks, all times", "why_tests_cant": "the order of deletions, re-insertions and compactions is unbounded; the tests read tables with at most one deletion", "anchors": ["crates/core/src/file_group/reader.rs: read_file_slice", "crates/core/src/file_group/log_file/content.rs: Decoder", "crates/core/src/merge/record_merger.rs: merge_record_batches", "crates/core/src/table/mod.rs: read_snapshot_as_of", "crates/core/src/table/mod.rs: read_incremental_records"]}
{"id": "C93", "title": "Clustering changes no answer; overwriting changes its part of the table only", "statement": "A clustering that moves records to new file groups changes neither the records of a snapshot nor, when it keeps their commit times, those of an incremental read, from the moment it begins. An insert-overwrite or delete-partition replaces exactly the records of its part of the table: the rest of the snapshot is what it was, the old records of the part are gone, and the new ones are those of its new file groups.", "quantifier": "all tables and objects, all histories of writes before and after, all choices of moved records and replaced parts, all times", "why_tests_cant": "which file groups are replaced, moved together and written again is unbounded; the tests read one table with one replacecommit", "anchors": ["crates/core/src/timeline/mod.rs: get_replaced_file_groups_as_of, get_file_groups_between", "crates/core/src/table/fs_view.rs: FileSystemView::get_file_slices_as_of", "crates/core/src/table/mod.rs: read_snapshot_as_of, read_incremental_records"]}
{"id": "C94", "title": "What writers leave, step by step, can be read back", "statement": "Start with an empty storage and let writers add base files, log files, blocks at the end of log files, timeline objects, markers and objects of other tables, one step after another, each write of a file group later than the ones before. Whatever they leave is a table in order: its base files are those that were written, and no file of it is misread or missed. Reading it as of a time t by which its failed writes are rolled back succeeds and returns, of every key, the newest version committed by t; and still does after any writes later than t. The same holds when the writers also delete records and cleaners remove old slices in between: from the horizon of the cleaners on, a read returns of every key the newest version that was not deleted since.", "quantifier": "all sequences of steps of any length, all file names, contents, records and partitions, all times t, all orders in which the storage lists its objects", "why_tests_cant": "the steps of writers and the states they lead to are unbounded; the tests read tables that were written once", "anchors": ["crates/core/src/table/fs_view.rs: FileSystemView", "crates/core/src/table/listing.rs: FileLister", "crates/core/src/file_group/base_file.rs: BaseFile", "crates/core/src/file_group/log_file/mod.rs: LogFile", "crates/core/src/table/mod.rs: read_snapshot_as_of"]}
{"id": "C95", "title": "Text is UTF-8 and nothing else", "statement": "Wherever bytes of a table become strings, they are accepted exactly if they are the UTF-8 form of Unicode characters: overlong forms, surrogates, numbers above U+10FFFF, stray and missing bytes are errors, never repaired or replaced. This holds of properties files, of instant metadata as a string and of every string inside it, of the header and footer values of log blocks, of the strings and map keys of Avro records under every schema; a url-encoded partition path that does not stand for text has no partition values, and its partition is not left out.", "quantifier": "all byte strings, all schemas, all log files, all metadata and all paths", "why_tests_cant": "there are unboundedly many byte strings, and the cases at the borders of the encoding are many; no test has malformed text in most of these places", "anchors": ["crates/core/src/config/util.rs: parse_data_for_options", "crates/core/src/timeline/mod.rs: get_instant_metadata_in_json", "crates/core/src/file_group/log_file/reader.rs: read_block_metadata", "crates/core/src/file_group/log_file/avro.rs: AvroDataBlockContentReader", "crates/core/src/table/partition.rs: parse_segments"]}
{"id": "C96", "title": "Cleaning old file slices changes no later answer", "statement": "A cleaner removes old slices from the file groups of a table, base files with their log files, and replaced file groups altogether. It may also leave gaps between slices, as savepoints do. A table opened afterwards and read as of any time at which each file group still has its slice of that time succeeds, and returns the same records as if nothing had been removed: for every key the newest version committed by then, also versions that were written to files that are gone, since later base files hold them.", "quantifier": "all tables, all histories of writes, all choices of the slices to keep, all times of reads", "why_tests_cant": "which files hold a version depends on the whole history of writes, compactions and cleanings; tests have single tables that were written with one cleaning policy", "anchors": ["crates/core/src/file_group/mod.rs: get_file_slice_as_of", "crates/core/src/table/fs_view.rs: collect_file_slices_as_of", "crates/core/src/table/mod.rs: read_snapshot_as_of"]}
{"id": "C97", "title": "Whatever writers record as committed in a window, an incremental read returns", "statement": "Writers add base files, log files and blocks of log files to the storage of a table, and complete each commit by a file of the timeline whose metadata names the files they wrote. Other files of the timeline come and go, and old commits may be archived. A table that is opened on what they left and asked for the changes between two times, where every write in between has completed or was rolled back, succeeds, and returns for each key with a version committed in between the newest version as of the end, each key once.", "quantifier": "all tables, all sequences of writes, failures, rollbacks, compactions and commits of any length, all windows", "why_tests_cant": "the files that hold the changes are found from the metadata of all commits of the window, and which blocks of them count depends on all writes to the same file groups; tests have tables with a few commits", "anchors": ["crates/core/src/table/mod.rs: read_incremental_records", "crates/core/src/timeline/mod.rs: get_file_groups_between", "crates/core/src/file_group/builder.rs: build_file_groups"]}
{"id": "C98", "title": "Calls of Python threads on one table all return, with the right answers", "statement": "Any number of Python threads may share one table object and call it for file slices or snapshots at the same time. Whatever the order in which they run, all calls return: the lock of the Python interpreter and the locks inside the table never block each other. Each call gets the answer that it would get alone on a new table object. While a call waits for storage, other Python threads go on.", "quantifier": "all sets of calls from Python threads, all interleavings, all interruptions by storage", "why_tests_cant": "a deadlock between the interpreter lock and the locks of the table needs a particular interleaving of threads and I/O; no test of the bindings uses threads", "anchors": ["python/src/internal.rs: get_file_slices", "python/src/internal.rs: read_snapshot", "python/src/internal.rs: rt", "crates/core/src/table/fs_view.rs: get_file_slices_as_of"]}
{"id": "C99", "title": "Cleaners at work do not disturb queries that need none of the files they remove", "statement": "A table is opened, and then cleaners remove old files one by one while a query as of a time t runs. They remove no file of the slices that a read as of t shows, and log files before their base file. Every storage request of the query may see the files of another moment: a removed file may still be listed and no longer be there. Still the query succeeds, and returns exactly the table at t: for every key the newest version that was not deleted since, each key once.", "quantifier": "all tables and histories, all orders in which files are removed, all moments that the requests of the query see, all times t, all queries before", "why_tests_cant": "a query makes an unbounded number of storage requests, and any of them may fall between any two removals; no test removes files while a query runs", "anchors": ["crates/core/src/table/fs_view.rs: get_file_slices_as_of, load_file_groups", "crates/core/src/file_group/file_slice.rs: load_metadata_if_needed", "crates/core/src/table/mod.rs: read_snapshot_as_of"]}
{"id": "C100", "title": "Cleaners at work do not disturb incremental reads that need none of the files they remove", "statement": "Writers left a table, and cleaners remove old files one by one, in any order, but none of the slices that hold the changes after a time start and up to a time e. Before, during or after that the table is opened and its changes in that window are read; every storage request may see the files of another moment. The read succeeds, and its records are exactly the changes that the writers made: for every key with a version committed in the window its newest version as of e, each key once.", "quantifier": "all tables and histories, all windows, all orders in which files are removed, all moments that the requests of the read see", "why_tests_cant": "a read makes an unbounded number of storage requests, and any of them may fall between any two removals; no test removes files while changes are read", "anchors": ["crates/core/src/table/mod.rs: read_incremental_records, get_file_slices_between_internal", "crates/core/src/file_group/file_slice.rs: load_metadata_if_needed", "crates/core/src/timeline/mod.rs: get_file_groups_between"]}
{"id": "C101", "title": "A SQL query of a table answers with the rows of its newest base files that satisfy the condition", "statement": "A table directory is opened and registered with the SQL engine. SELECT * with a condition that is a conjunction has an answer and does not fail, provided the newest base file of every file group that counts at the latest commit can be read, its rows have the values of its partition, and comparisons with literals are about partition columns. The rows of the answer are exactly those rows of these base files on which all conjuncts are true, each as often as it is stored, whatever partitions were pruned, however the files are split into groups, and whatever was asked before.", "quantifier": "all contents of a table directory, all conditions, all numbers of input partitions, all schedules of the listing, all previous queries", "why_tests_cant": "the rows of an answer depend on the objects in the storage, on the listing schedule, on pruning and on the caches together; tests fix one table and a few conditions", "anchors": ["crates/datafusion/src/lib.rs: HudiDataSource, scan, supports_filters_pushdown", "crates/datafusion/src/util/expr.rs: exprs_to_filters", "crates/core/src/table/mod.rs: get_file_slices_splits"]}
{"id": "C102", "title": "A reader of an object gives the bytes at its position, whatever was read and sought before", "statement": "A reader is opened for an object in the storage. Any program of reads, exact reads, limited reads and seeks (from the start, the end or here) is answered as if the reader were just a position in the object's bytes: a read gives the bytes there, as many as asked for or all up to the end, and moves the position by as many; an exact read fails exactly if too few bytes are left; a seek moves to the place it names, also beyond the end, and fails, without moving, exactly if that is not a position. What the buffer of the reader holds is never visible.", "quantifier": "all objects of fewer than 2^63 bytes, all programs of requests of any length", "why_tests_cant": "the buffer makes the state of the reader depend on all requests before; tests seek once or twice", "anchors": ["crates/core/src/storage/reader.rs: StorageReader::new, read, seek", "crates/core/src/file_group/log_file/reader.rs: LogFileReader"]}
{"id": "C103", "title": "Names of things read back, and filters built by calls are those written as texts", "statement": "The name of every meta column, action, instant state and type of log block, read as a name, gives the same thing back, and every text that is no such name is an error. The schema of the meta columns lists the columns of the Hudi format in its order, and every meta column is found at its index and nowhere else. col(name).eq, ne, lt, lte, gt and gte give the filters that are written with =, !=, <, <=, > and >=, and the text form of such a filter is what was written.", "quantifier": "all texts, all values of the enumerations, all column names and values", "why_tests_cant": "tests try a few names; that no other text is accepted ranges over all texts", "anchors": ["crates/core/src/metadata/meta_field.rs: MetaField", "crates/core/src/timeline/instant.rs: Action, State", "crates/core/src/file_group/log_file/log_block.rs: BlockType", "crates/core/src/expr/filter.rs: FilterField, col, from_str_tuples"]}
{"id": "C104", "title": "A query as of a time shows one state although a cleaner removes files while it runs", "statement": "While a query as of t runs, a cleaner removes and writers add files; each listing and each read of the query is answered from the objects of some moment, not the same for all. If the newest base file of t of every file group that is not replaced stays, with the timeline, and all else that comes and goes is log files, base files of commits after t, base files that have a newer one of t or before in their file group, and base files of replaced file groups, then an answer shows exactly the newest base files of t, all log files that stayed with them, and every base file it shows can be read at any moment with its contents. Two such queries show the same base files.", "quantifier": "all sets of objects that stay, all sequences of moments, all assignments of moments to the requests of a query, all filters, all previous queries", "why_tests_cant": "a test would have to interleave a cleaner with every request of a query in every way", "anchors": ["crates/core/src/table/fs_view.rs: FileSystemView::get_file_slices_as_of", "crates/core/src/table/listing.rs: FileLister", "crates/core/src/storage/mod.rs: Storage"]}
{"id": "C105", "title": "Documentation in the Avro schema of log records becomes metadata of the columns and changes nothing else", "statement": "The columns of records read from Avro log blocks have the names, types and nullability of the schema without its documentation, namespaces and aliases of types. Every documented field, of the table or at any depth within its structs, lists, maps and unions, has its documentation as metadata avro::doc; a column whose type is a named type has the documentation of the type, and as avro::aliases the full names of its aliases: in their own namespace, or else in that of the type. There is no other metadata.", "quantifier": "all Avro schemas, however nested, with any documentation, namespaces and aliases", "why_tests_cant": "schemas nest without bound, and tests use schemas with little documentation", "anchors": ["crates/core/src/avro_to_arrow/schema.rs: to_arrow_schema, schema_to_field_with_props, external_props, aliased"]}
