# Formal model of apache/hudi-rs in Rocq (Coq 8.16.1)

The code in /repo is Rust. Nothing of it is executed here: the model is written by reading the
source, function by function, and each definition cites the file and lines it models.

## Layout of /verif/rocq/theories

| file | content |
|---|---|
| `Base.v` | outcomes (`Ok`/`Err`/`Panic`), monadic helpers, list helpers |
| `Str.v` | Rust `str` operations on byte strings (split, rsplit, trim, slicing with char-boundary panics, comparison) |
| `M_*.v` | models of the code, one file per source module (definitions only) |
| `S_*.v` | small independent specifications used by the theorem statements |
| `L_*.v` | lemmas and proofs |
| `E_*.v` | larger concrete examples (a table, a history of writes) used beside the theorems and in refutations |
| `P_*.v` | the property theorems only: statement, `exact`, `Print Assumptions`, and an `Example` showing that the hypotheses are met by a concrete case |

## Modelling conventions

* A Rust `Result` is `Ok v | Err e`, a panic is `Panic`. Error payload texts are not modelled, only an error tag.
* `&mut self` functions return the new value. Loops are structural recursion/folds, or fuel with an
  explicit error and a proof that the fuel is never exhausted.
* `str`/`String` are byte strings (`Coq.Strings.String`, one `ascii` per UTF-8 byte). Rust orders strings bytewise, so does the model.
* `HashMap`/`HashSet`/`DashMap` iteration order and unstable sorts are nondeterministic: the model is
  parameterised by (or quantifies over) every order/permutation. `BTreeMap`/`BTreeSet` are sorted lists.
* External libraries (chrono local time zone, parquet decoding, Avro datum decoding, Arrow string casts,
  object store) are parameters of the model (Section variables, discharged into explicit arguments).
  Behaviour assumed of them appears as an explicit hypothesis in the theorem.
* No axioms, no functors, no module types.

## Plan per property

| id | modelled | proof |
|---|---|---|
| C01 | instant file name printer/parser, chrono `%Y%m%d%H%M%S` parser | round trip by case analysis on action/state; injectivity follows |
| C02 | civil-date-to-epoch arithmetic | monotonicity of days-from-civil, then of the parsed value against lexicographic order on digits |
| C03 | `try_create_instant`, `load_instants` | expected false: short or non-char-boundary prefixes panic; refutation + partial theorem giving the exact panic condition |
| C04 | `load_instants` | multiset equality with the filtered listing, sortedness, permutation invariance up to ties |
| C05, C06 | `select` with binary search `partition_point` | partition_point specification on sorted lists; `filter` equality; window composition |
| C07 | latest commit, empty-table behaviour of the queries | last of a sorted list is a maximum |
| C08 | `InstantRange` | case analysis |
| C09, C10, C11 | commit metadata as JSON values, `build_file_groups`, `build_replaced_file_groups`, set merge | set-theoretic characterisation; C11 expected false for repeated file ids; success of C10 characterised exactly (`window_fine`) |
| C12, C13 | base/log file name grammar | string splitting lemmas |
| C14–C17 | file groups as sorted maps | invariants over operation sequences, sorted-map extensionality |
| C18, C19 | log file order and sets | refutations by witness; partial theorems for equal-width versions / same file id and extension |
| C20 | partition listing over an arbitrary listing order | characterisation through multiset of files |
| C21 | directory trees, leaf dirs | induction on trees |
| C22 | small-step machine of `buffer_unordered` + `try_for_each` | invariant, confluence of results, progress measure; stuck state for parallelism 0 |
| C23, C24 | file system view cache | invariant over query histories |
| C25 | snapshot over timeline + storage | refutation (crashed writer); partial theorem under the no-leftover hypothesis |
| C26 | chunking | arithmetic |
| C27, C28 | byte-level log reader; encoder in the spec | parser/serializer round trip; prefix property for each cut |
| C29, C30 | log scanner | filter characterisation; refutation of position-sensitivity |
| C31–C34 | record merger over rows with arbitrary sort/hash order | for every admissible sort |
| C35, C36 | file group reader | filter characterisation, composition with the scanner |
| C37–C40 | partition pruner, percent decoding, filters | round trip of path encoding; soundness; field order refutation |
| C41 | DataFusion expression translation, SQL three-valued semantics | refutation for literal-on-the-left inequalities; partial theorem otherwise |
| C42–C46 | configuration parsing, precedence, validation | finite-map reasoning; refutation of panic freedom |
| C47 | URL joining | percent-encoding round trip; at the root of a `file` URL the drive rules of the URL parser on the first name |
| C48, C49 | Avro schemas and values, the field lookup table, Arrow arrays with their layout (offsets, validity, children), the column builders | induction on schemas for all rows at once: each column shows, at each row, the value of the row; refutations for the constructs that lose values |
| C50 | schema conversion | induction on schemas; panics characterised exactly |
| C51 | tasks, shard lock held across await, runtime threads | reachable deadlock state (refutation) and progress when each task has its own thread |
| C52, C55, C58 | write histories over one file group (insert, deltacommit, compaction, failed write, rollback), laid out as the files the reader sees | refinement to an abstract versioned key-value map; stability and layout independence follow from the characterisation |
| C60 | the same machine with the data of the shared map | invariant: cached entries are the listing up to loaded metadata, keys only grow, locked shards are private |
| C61 | the latest-state queries of M_Table | the last commit of the timeline is the time they use |
| C62 | `HudiFileSlice` and the Python file group reader (M_Python) | parsed names re-parse; sorted log files are re-inserted in order; reading depends on names only |
| C63 | the table provider's `scan` (M_Scan) over M_Table's queries and M_Storage's URLs | inversion of the plan; `splits` regroups (C26) |
| C64 | pushdown decision, `scan`, and the engine as: skip rows on which pushed conditions are not true, then evaluate all conditions | row partitions are kept (C41) lifted to all slices; the pruned answer is the filtered unpruned one |
| C65 | `PartitionedFile::new(url.path())`: object_store's path encoding after the URL's | both encodings on every character; equivalence with names that need no escape |
| C66 | the table factory's option maps followed by M_Config's `resolve` | map lookups, composed with C42 |
| C67 | C64 and `read_snapshot` over one storage | both sides are the rows of the same slices; merge-on-read refuted |
| C68 | `opened` (M_Session): queries interleaved with changes of the storage, over M_Table | invariant: cached keys are partitions of the current storage; then the collected slices are those of a view loaded from nothing; with C55 |
| C69 | M_Timeline's listing calls | `load_exact` per action; the narrower selection keeps what the wider one keeps |
| C70 | M_Builder's `clustering_of` after the listing (M_Metadata) | equivalence by induction over the replacecommits; spelling and missing operation refuted |
| C71 | M_Builder's `latest_avro_schema`, M_Metadata | equivalences |
| C72 | `object_store` (M_Objects): the storage calls over a list of keyed objects, under M_Storage's key functions | the objects form a tree (`object_tree`) that the listing serves; C21's discovery over it; `build_exact` per directory |
| C73 | `build` (M_Open): resolving options, validation, loading the timeline, over M_Config, M_Timeline and M_Objects | composition of the lemmas for options (C42), validation (C45), timeline (C04) and C72 |
| C74 | `sees` (M_During): every storage request of a query is answered from the objects of some moment | the mixed answers are served by one tree (`mixed`); its partitions and base files up to the time are those of the start; then C55 and C72; for records, a file found at one moment is the same at any other or missing (`or_fails`), so a slice is read as at the moment it was listed, where C52 applies, and later writes leave the versions up to the time alone |
| C75 | calls as data, Rust and Python builders, `build_mut` with the builder left behind (M_Calls) | the fields after calls are the last values given; opening depends on options as maps only, shown for each function that looks at them |
| C76 | Avro columns as the rows that the merger sees (`as_batch`, M_Values), put into the log decoder of M_Log | each batch of 1024 values shows them (C48, C49); value lists are cut into the batches of a block; C36 and C52 then speak of these batches |
| C77 | Avro's binary decoder (M_Datum) in place of the decoder parameter of C76; the binary form as a relation (S_Datum), with all ways to cut arrays and maps into blocks | by mutual induction over the relation, decoding a form gives the value and the rest; C76 then speaks of these forms; for C28, a decoder on a strict prefix fails or takes everything |
| C78 | the lookups of M_Config against the meaning of option texts (S_Settings) | case analysis per option; names between commas by induction |
| C79 | serde_json's parser of an object (M_Json) against the grammar of RFC 8259 (S_Json) | both directions: mutual induction on the grammar, induction on fuel for the parser; the cut by the uniqueness of the first value |
| C80 | timeline and queries (M_Builder, M_Table) over two storages that differ in the completeness of commit metadata | an order on outcomes (same or error) that every step keeps |
| C81 | everything together: objects, opening, timeline, listing, log reading, merging (all M_ files on the path of a query), against S_Whole, which speaks of objects and histories of writes only | composition of C73, C72, C79, C77 and C52; the timeline's replacements are brought back to the objects of the timeline directory; flattening by disjoint keys |
| C82 | the path of a query again, now including its failures: planning, listing under any schedule, statistics of base files, reading | the answer is `same_answer` as a sequential one (C23); that one succeeds because every listing is grouped (C11), every footer and replacecommit is readable and every slice is readable (C52); existence from C23 |
| C83 | the path of an incremental query: objects, opening, timeline, commit metadata as bytes of JSON, file groups from metadata, log reading, merging and the commit-time mask, against S_Changes, which speaks of the files of completed commits, their write stats and histories of writes | file groups between two times (C10) name the slices; each slice is read (C52) as the state of its history as of the end (C58); the mask leaves the versions in between (C59); failures as in C82 |
| C84 | making readers, from a table and from a URI (`table_reader`, `uri_reader` of M_Open), over the options of M_Config and the storage of M_Open | every option of the storage of a reader has the value that the table's has, for all orders in which maps are visited; counterexamples |
| C85 | no new code: `get_file_slices_splits*`, `get_file_slices_between`, `create_file_group_reader_with_options`, `FileGroupReader::new_with_options`, `read_file_slice` as called by the workers of S_Workers, in Rust and Python | reading depends on the values of the options of tables only, so all readers of a table agree; splits are a division (C26), Python's slices read the same (C62); counterexamples |
| C86 | no new code: `read_incremental_records` and `read_snapshot_as_of` over the objects and histories of C81 and C83; the follower's upsert is specified in S_Follow | the file groups as of the start are those as of the end with versions before it; a version after the start makes its group a changed one (C83); then by cases on the time of a version; counterexample with a replacecommit |
| C87 | no new code: `read_snapshot_as_of` with filters over the objects and histories of C81, the pruner of C37–C40 | the file groups of the answer are those whose partition values satisfy the filters (C81, C38); their records are part of those of the unfiltered answer; a filter and its negation split the values (C40); counterexample with a partition without a value |
| C88 | no new code: `read_snapshot_as_of` in read-optimized mode or without log files, over the objects of C72 and the histories of C81 | the slices of the answer (C72), their base files read whole (C35, C36); a base file holds what was current at its commit (history invariant of C52); counterexample with a compaction; for incremental queries the window filter of base files (C35) over the slices the query shows |
| C89 | no new code: opening a table and `read_snapshot` over two sets of objects, the second with objects of writers that stopped (`S_Crash.unfinished`: requested and inflight files, data files of later times) | the timeline keeps only completed instants (C04, C72); a later base file is not the newest at the latest commit, the answers of C88 are paired by file group; for log files C55_objects_partial; counterexample with a log file cut in a block |
| C90 | no new code: `read_file_slice` over a base file and log blocks with other columns (`S_Evolved`: columns by name) | concatenation takes columns by position up to the first schema's length, so a wider batch is read as its cut and C36 applies to the cuts; a narrower one indexes past its columns; counterexamples are whole tables read with `read_snapshot` |
| C91 | no new code: every modelled function that the queries call, on arbitrary objects (`S_Robust`: what in the bytes can make a reader panic) | each function is shown not to return `Panic` from what its callees return; for log files, the bytes that a block header was parsed from are found again in the file, so a condition on the file bounds what the parser can see; a checker over the bytes, proved sound, shows the condition for the example |
| C92 | no new code: snapshots and slices; `S_Deletes`: histories in which commits rewrite base files without deleted records, and the records that count at a time | an invariant over all such histories (every base file holds the records that count at its commit); the versions that count at t are those of the newest base file up to t and of the surviving blocks of its log, because deletions only happen where base files are written; delete blocks: the scan of any list of log files that contains one fails; `S_Erased`, `L_Erased`: whole tables on an object store, by the lemmas of C81 and C82 with these histories |
| C93 | no new code: `read_snapshot_as_of` and `read_incremental_records` at two times; `S_Replace`: records that were only moved, a part that was replaced; `S_History.h_moved`: file groups that begin with moved records | what counts as the table of the first time is also one of the second, and a table of a time is unique up to order; a table divides into the records of any two parts of its file groups; counterexample with a clustering that has not completed |
| C94 | no new code: opening and `read_snapshot_as_of` over object storage; `S_Writer`: the steps of writers as a transition system over objects and histories | an invariant of the storage (every file is one of those written, names and keys are distinct, blocks and rollbacks of log files are those of the histories), kept by every step; the conditions of C81 and C82 follow from it; steps later than t keep the versions up to t; `S_Life`: the same with deletions and steps of cleaners, by the same invariant over histories with deletions and C96 for the removed slices |
| C95 | no new code: the UTF-8 test of M_Utf8 (of the Rust standard library) and the places that use it | `S_Utf8`: the bytes of a scalar value by division; the test is inverted one character at a time; induction over schemas, JSON texts and blocks for the strings inside of values |
| C96 | no new code: opening and reading over object storage; `S_Clean`: which objects cleaning removes | the history of a file group whose first slices are removed is again a history (it begins with a base file, like a clustered file group), so the conditions of C81 and C82 hold of the objects that are left, with the same versions; with gaps (`S_Gaps`) the rest is no history: the newest base file up to the time of the read still holds the records of its commit, and its log blocks all later ones |
| C97 | no new code: opening and incremental reads over object storage; `S_Recorded`: the steps of writers that record commits | an invariant of these steps (every commit of the timeline tells what was written at its time, and no later write is at that time) gives the conditions of C83 for every window |
| C98 | `M_Gil`: the methods of the Python table that ask the view, the interpreter lock, `block_on` on the caller's thread | every step is one of the runtime of C51 with a thread per call, or one of the interpreter lock; a call that waits for the interpreter lock holds no shard, so the last holder of a shard can go on |
| C99 | no new code: `sees` (M_During) over moments of cleaning (`S_Swept`) | the partitions are those of the start, because directories stay; in each listing the newest base file of a group that counts is the one of the start, because it is needed and stays; its files read the same at every moment; for success, the plan reads only the timeline and the schema file, and the metadata of a picked slice is loaded from a file that stays |
| C100 | no new code: `sees` (M_During) over moments of cleaning that keep the slices of a window (`S_SweptChanges`) | an incremental read lists no directories: its slices come from the commit metadata, which cleaners keep; each storage request it makes is about the timeline or a file of a needed slice, and is answered as before the cleaning; so the read is one of the unchanged storage, and C83 applies |
| C101 | no new code: `sql_query` (M_Scan) over `object_store` (M_Objects) and `build` (M_Open); `S_Sql` says which conjuncts fit | the slices of a scan are those of newest base files of live file groups (L_BasesSucceed), planning and listing succeed, the derived filters fit, every planned object is one of the table's and can be read; then `C64_rows_partial` |
| C102 | `M_Io`: `StorageReader` (storage/reader.rs) as std's `BufReader` over a `Cursor` with the capacity the code gives it; `read_exact` and `Take::read_to_end` on top; programs as lists of requests | invariant: the buffer is empty and the cursor at the position, or it holds all bytes from the position on; specification `S_Io` is a position in the bytes; both directions by induction over the requests |
| C103 | `M_Names`: `MetaField`, the names of `BlockType`, `FilterField`; actions, states and filters as in M_Instant and M_Expr | case analysis on the names; `S_Names.reads_back` is the claim for any enumeration |
| C104 | no new code: queries over stores whose requests are answered at different moments (M_During); `S_Removal.moves_around` says what may come and go | as C74, but a listed base file of t or before that does not stay is superseded by one that stays and is listed too, so it is never the newest; replaced file groups are left out; the batches of read-optimized reads follow with C85's reading of base files |
| C105 | `M_Docs`: `to_arrow_schema` once more, over schemas with documentation, to fields with metadata; `S_Docs.field_doc` and `field_meta` find documentation and metadata by the same positions | by induction over schemas: without metadata it is M_Avro's function; positions correspond one by one. The documentation of a column itself is dropped (C105_column_doc_refuted) |
| C53, C54 | epoch arithmetic, which digits are accepted; metadata path of an instant | arithmetic on civil dates; string lemmas |
| C56 | `get_file_slices_between` | characterisation through the stats of the window's commits |
| C57 | planning of queries when a commit wrote nothing | refutation + sufficient conditions |
| C59 | `read_incremental_records` over write histories | composition of C56 with the slice reader; refutations for late events and failed writes |

## Trusted base

* Coq 8.16.1: its kernel (checked a second time with `coqchk`), and the correspondence between the model and the Rust source,
  which is by reading: each definition of an `M_*.v` file cites the lines it models and the simplifications made.
* Axioms: every property theorem is followed by `Print Assumptions` in its `P_*.v` file and each prints
  `Closed under the global context`. No axiom of the standard library is used. (A listing of the loaded
  libraries shows `Coq.ssr.ssrunder.Under_rel.*`: this is a module with opaque fields in a library that
  the standard prelude loads in every file; no theorem depends on it.)
* No `Admitted`, no section-less variables, no functors or module types, no flags switching off checks, no plugins beyond
  those of the standard library.
* Hypotheses about external libraries are premises of the theorems (see below).

## What is modelled

| source (crates/core/src unless said otherwise) | model |
|---|---|
| timeline/instant.rs, timeline/mod.rs, timeline/selector.rs | `M_Time.v` (chrono's parser for the two formats, civil dates), `M_Instant.v`, `M_Timeline.v` |
| file_group/base_file.rs, log_file/mod.rs, file_slice.rs, file_group/mod.rs | `M_BTree.v`, `M_FileGroup.v` |
| file_group/builder.rs, metadata/*.rs | `M_Builder.v` (JSON values of commit metadata) |
| table/listing.rs, table/fs_view.rs | `M_Listing.v` (directory trees, `buffer_unordered` as a small-step machine, the cache as a state) |
| the same under concurrency (DashMap 6.1 shards and locks, tokio worker threads) | `M_Concurrent.v` (from the documented behaviour of DashMap; its source is not in the sandbox) |
| expr/*.rs, table/partition.rs, crates/datafusion/src/util/expr.rs | `M_Utf8.v`, `M_Expr.v` |
| file_group/log_file/{log_format,log_block,content,reader,scanner,avro}.rs | `M_Log.v` (byte level) |
| avro_to_arrow/{mod,schema,arrow_array_reader}.rs | `M_Avro.v` |
| config/*.rs, table/builder.rs | `M_Config.v` |
| file_group/reader.rs, merge/*.rs, util/arrow.rs | `M_Reader.v` |
| storage/mod.rs, storage/util.rs | `M_Storage.v` (URL segments, percent coding, object keys, listing) |
| table/mod.rs, util/mod.rs (splits) | `M_Table.v` |
| python/src/internal.rs (file slices, file group reader) | `M_Python.v` |
| python/src/internal.rs (calls that ask the view, `rt().block_on`, `py.allow_threads`) | `M_Gil.v` |
| datafusion/src/lib.rs | `M_Scan.v` (with the engine's part stated there as relation `sql_query`) |
| storage/mod.rs over a list of objects | `M_Objects.v` |
| requests of a query while the objects change | `M_During.v` |
| table/builder.rs calls, python/hudi/table/builder.py, `HudiTable` constructors | `M_Calls.v` |
| file_group/log_file/content.rs with avro_to_arrow, as one reader | `M_Values.v` |
| apache_avro 0.17 `from_avro_datum`, as called by file_group/log_file/avro.rs | `M_Datum.v` (from the library's published behaviour; its source is not in the sandbox) |
| serde_json 1.0 `from_slice` into a map, as called by timeline/mod.rs | `M_Json.v` (from the library's published behaviour; its source is not in the sandbox) |
| table/builder.rs, storage/mod.rs: opening a table | `M_Open.v` |
| file_group/reader.rs: new_with_configs_and_options, new_with_options; table/mod.rs: create_file_group_reader_with_options, with their storage | `M_Open.v` |
| table/mod.rs, table/fs_view.rs: a table kept open | `M_Session.v` |
| timeline/mod.rs: clustering commits, metadata text | `M_Metadata.v` |

External parts that are parameters, with what is assumed of them stated in the theorems: the local time zone; JSON
text parsing except in `P_Json.v`, where it is `M_Json.v`; Parquet decoding; Avro datum decoding except in `P_Datum.v`, where it is `M_Datum.v`
(without UUIDs, big decimals and references to named types); Arrow casts and comparison kernels for
partition values; the content of files, the environment and hash iteration orders. In `M_Avro.v`: casts between integers and
floats; `ArrayData` and `RecordBatch` validation as documented (types, lengths, nulls of fields declared without nulls; null arrays
count no nulls); the lookup table of a record as the Avro parser fills it (names and aliases); projection (never used), metadata of
fields and the `i32` limit of list offsets are left out.

Not modelled: the Python bindings (apart from opening tables, file slices, reading them back, and which calls keep the interpreter lock), the inside of DataFusion's engine (projection, limits, Parquet row filters beyond
"may skip rows on which the pushed conditions are not true"), error message texts, logging, memory consumption, the network behaviour of object stores (a store is a function from names to
contents or errors that does not change during one query).

## Findings

Each is modelled as the code behaves; the theorems named `..._refuted` prove it.

| claim | finding | theorem |
|---|---|---|
| C02 | second 60 is accepted in timestamps, and there string order and time order disagree | `C02_leap_second_refuted` |
| C03 | a file in the timeline directory whose name has a short prefix (or a prefix cut inside a character) before `.commit` etc. makes opening the table panic | `C03_unrelated_names_ignored_refuted` |
| C53 | texts that are not 14 or 17 digits are accepted as times: blanks for missing digits, a sign in the milliseconds, and anything after the first 14 characters | `C53_loose_refuted` |
| C07 | on a table without commits, queries as of an explicit time fail, queries of the latest state return nothing | `C07_time_travel_on_empty_table_refuted` |
| C08 | a short timestamp makes the range test panic; an unparsable end bound goes unnoticed if the probe is not after the start | `C08_bad_timestamp_is_error_refuted` |
| C11 | of two write stats with the same file id in a partition only the first is used: log files of the second are lost; a log-only stat rejects the whole query | `C11_every_stat_represented_refuted`, `C11_log_only_stat_rejected` |
| C12 | extra `_` parts of a base file name are ignored and lost | `C12_extra_parts_lost` |
| C18 | log versions are compared as text: version 10 before version 2 | `C18_version_order_refuted` |
| C19 | log files that differ only in extension or file id are taken for the same | `C19_distinct_logs_kept_refuted` |
| C22 | a listing parallelism of 0, which is accepted, never finishes | `C22_zero_parallelism_hangs_refuted` |
| C25 | files of writers that have not committed are shown in snapshots | `C25_uncommitted_refuted` |
| C29, C52, C59 | a rollback block later than the requested time is ignored: reading as of a time between a failed write and its rollback shows the failed write's rows | `C29_later_rollback_ignored`, `C52_failed_write_shown_refuted`, `C59_failed_write_shown_refuted` |
| C30 | a rollback removes blocks of its target instant wherever they are, also those appended after it | `C30_later_block_kept_refuted` |
| C31 | batches are concatenated by column position: a reordered batch is misread | `C31_reordered_columns_refuted` |
| C32 | rows that tie in ordering field and sequence number are picked arbitrarily | `C32_ties_refuted` |
| C39 | without hive-style names partition values are assigned to fields in schema order, not in the configured order | `C39_configured_order_refuted` |
| C41 | `literal < column` is translated as `column < literal`; filters on other columns make pruning fail | `C41_literal_left_refuted`, `C41_other_columns_fail` |
| C43 | in the global configuration file `hoodie.a = b` is read as the value `= b` | `C43_global_spaced_equals_refuted` |
| C44 | without the hive-style and URL-encoding flags in the configuration, a query with filters panics | `C44_missing_flag_refuted` |
| C47 | tabs, line feeds and carriage returns in relative paths are dropped, so two paths address one object and a path can leave the base directory | `C47_escape_refuted`, `C47_collision_refuted` |
| C47 | a table at the root of a `file` URL: a first name such as `p:1` or `p\|` is rewritten as a drive of Windows, so it addresses another object than the one listed | `C47_drive_refuted`, `C47_drive_listed_refuted` |
| C48 | in Avro log blocks: a list of booleans that may be null comes back all false; booleans in lists that may be null come back null; after a null list of records (or of lists) the following rows show other rows' items, or the reader panics; fields of records in lists of lists come back null | `C48_..._refuted` |
| C49 | UUID columns that may be null come back null; timestamps in nanoseconds, local timestamps and types used again by name panic; a field whose name is an alias of a later field shows the later field | `C49_uuid_refuted`, `C49_nanos_refuted`, `C49_references_refuted`, `C49_alias_refuted` |
| C49 | a list of longs in a column of bytes is shown by the low 32 bits of each long, so 4294967400 appears as the byte 104 | `C49_bytes`, `C49_bytes_case` |
| C50 | a union of null and two or more types inside a record is not marked nullable | `C50_wide_union_refuted` |
| C50 | two variants of one union get the same field name: a string and an enum, or two records | `C50_union_names_refuted` |
| C51 | a shard of the cache map stays locked (blocking threads) while file metadata is fetched: n + 1 concurrent queries on n runtime threads can deadlock | `C51_deadlock_refuted`, `C51_deadlock_shape` |
| C54 | for a timeline file `ts.commit.` the metadata path differs from the listed file | `C54_dangling_dot_refuted` |
| C57 | after a commit that wrote no files every snapshot query fails, because the schema is taken from the first file of the last commit | `C57_idle_commit_refuted` |
| C59 | a late event (older by ordering field than what it follows) is returned by incremental reads while in the log, and disappears with compaction | `C59_late_event_refuted` |
| C62 | sizes and record counts of slices of incremental queries are shown to Python as zero | `C62_incremental_sizes_refuted` |
| C64 | a SQL inequality with the literal on the left is turned around when it is pushed down: rows are lost | `C64_literal_left_refuted` |
| C64 | a SQL comparison of a literal with a column that is no partition field is pushed down and fails the whole query | `C64_other_columns_refuted` |
| C65 | planned files are escaped twice: names with blanks, `%`, `~`, `^`, brackets etc. address a wrong object, which may exist | `C65_escapes_refuted`, `C65_encoded_partition_refuted` |
| C67 | SQL queries ignore log files: on merge-on-read tables they return stale rows where the API merges | `C67_log_files_refuted` |
| C68 | a partition directory that is removed from the storage stays in the view of an open table for ever: its file slices, whose files are gone, are still returned | `C68_removed_partition_refuted` |
| C70 | clustering commits are looked for by the operation `cluster`, while writers record `CLUSTER` (the tables in crates/test/data have `UPSERT`, `INSERT_OVERWRITE_TABLE`): the list is empty | `C70_upper_case_refuted` |
| C70 | one replacecommit whose metadata names no operation makes the call fail | `C70_unnamed_operation_refuted` |
| C71 | the Avro schema is looked up in the last commit only | `C71_earlier_schema_refuted` |
| C72 | a data file whose name has a fourth `_` part (`id_token_time_x.parquet`) is accepted and then looked up under the name without it: every query that reaches its partition fails | `C72_extra_part_refuted` |
| C73 | opening an unsupported table (say version 8) panics: `validate_configs(…).expect(…)` in the builder | `C73_unsupported_refuted` |
| C73 | a `hoodie.base.path` in the properties file replaces the location that the caller gave; the timeline and the data are then read from there | `C73_redirected_refuted` |
| C74 | files are shown by the time in their name, committed or not; a query that runs while a writer with an earlier commit time adds its files shows some of them and not others | `C74_torn_refuted` |
| C74 | a file that a cleaner removes between the listing and the read of its footer makes the whole query fail | `C74_removed_refuted` |
| C75 | `build` leaves the resolved options in the builder: used again after the table changed, removed properties and old global options stay | `C75_stale_refuted` |
| C75 | the comment in builder.rs:139-143 says that upper-case cloud options of the caller become lower case, but only environment variables do: `AWS_REGION` given by the caller leaves `aws_region` to the environment | `C75_upper_case_refuted` |
| C76 | a UUID in a log record is null in the result of a slice read (C49 through the whole read path) | `C76_uuid_refuted` |
| C28 | Avro's decoder takes the end of its input for nulls (union index, string, boolean): a log file of format version 2 or 3 that ends inside of a record is read without an error, with a record that was never written | `C28_avro_refuted` |
| C78 | an empty `hoodie.table.partition.fields=` counts as one column with an empty name: the table counts as partitioned, and the data files in its root are not found, without an error (unless the key generator says otherwise) | `C78_no_columns_refuted` |
| C84 | a file group reader made from a URI does not use the cloud credentials in the environment, although a table opened from the same URI and options does (reader.rs:74-86, builder.rs:166-176): it can fail, or read another store | `C84_environment_refuted` |
| C84 | options of the table given with `with_storage_options` are kept among the storage options, and go to every reader in place of the table's own, even `hoodie.base.path`: the table lists one place and reads files from another | `C84_mixed_refuted` |
| C85 | `create_file_group_reader_with_options` without an end time, as in the README's table of calls, reads log records that are not committed or later than the snapshot whose slices were asked for | `C85_untimed_refuted` |
| C85 | a file group reader made with its constructor (URI and storage options), which the README offers for reading slices, does not load the table's properties: without a precombine field the merge strategy becomes append-only, and old and new versions of records are returned without an error | `C85_uri_refuted` |
| C86 | `read_incremental_records` does not tell that records are gone: after a replacecommit (insert overwrite, delete partition) a copy kept by upserting the changes still has the records of the replaced file groups | `C86_replaced_refuted` |
| C86 | polling `read_incremental_records` from the latest commit time seen misses commits that complete late: with concurrent writers a commit of an earlier time, in flight at the last read, is in no later window, and the copy never gets its records | `C86_late_refuted` |
| C87 | a partition whose name is no value of its column is returned for every filter: in a column of numbers or dates the records without a value (`__HIVE_DEFAULT_PARTITION__`) are in the answer for `= 2` and in that for `!= 2`; with several partition columns one such value switches off the filters on all of them | `C87_unnamed_refuted` |
| C88 | incremental reads in read-optimized mode never return an update that was written to a log file: before the compaction its base file does not have it, after the compaction its commit time lies before the window; a copy kept up to date this way stays behind the read-optimized snapshot | `C88_follow_refuted` |
| C89 | a deltacommit that stops while it writes its log file makes every later snapshot of the table fail, though nothing was committed: log files of pending commits are read, and a block cut short is an error. (A base file of a pending commit is never read, whatever it holds.) | `C89_torn_log_refuted` |
| C96 | after cleaning, a read as of a time before the oldest kept slice is no error: the records of cleaned file groups are silently left out | `C96_time_travel_refuted` |
| C96 | after slices were removed between others that stay (a savepoint), a read as of a time of a removed slice is no error: it returns an older state of the file group, for example a record that was deleted before that time | `C96_gap_stale_refuted` |
| C96 | a cleaner that stops after it removed a base file and before it removed the log files of it makes every later read of the table fail, also as of times that do not need them | `C96_stopped_refuted` |
| C97 | incremental reads take the log files that commits of the window name; the rollback of a failed write that shares such a file, written to a log file of its own, is not read, and the failed rows are returned as changes, after the rollback too | `C97_rollback_elsewhere_refuted` |
| C98 | `read_snapshot`, `read_snapshot_as_of`, `read_incremental_records`, `get_schema` and the file group reader of the Python binding block without `py.allow_threads` (python/src/internal.rs:84, 112, 305, 441, 455, 470): while such a call waits for storage no other Python thread runs | `C98_others_run_refuted` |
| C99 | while a cleaner has removed a base file that nobody needs and not yet its log file, every query of the table fails, also one that needs neither | `C99_base_first_refuted` |
| C100 | changes up to a time before the last update of a file group fail to be read after a cleaner removed the slice they were in, which a read of all changes does not need | `C100_old_changes_refuted` |
| C90 | records written with a column added after the base file lose its values in a snapshot, without an error; records written without the last column of the base file make the snapshot panic; records written with the columns in another order are read with values under the wrong names, key columns included. Base and log batches are concatenated by position under the schema of the base file. | `C90_added_refuted`, `C90_removed_refuted`, `C90_reordered_refuted` |
| C91 | a log block whose instant time has fewer than fourteen bytes makes every snapshot that reads the file panic instead of returning an error; so does a query time with fewer than fourteen bytes, on any table. | `C91_short_instant_refuted`, `C91_short_time_refuted` |
| C56 | when a commit names two log files of one file group in two write stats, an incremental query leaves out those of the second. | `C56_shared_id_refuted` |
| C58 | between a failed write and its rollback, two tables with the same committed versions give different answers. | `C58_failed_write_refuted` |
| C92, C55 | deletions that writers put into log files (delete blocks, the usual way in merge-on-read tables) are not supported: every read of the file slice fails from then on, also reads as of times before the deletion. | `C92_delete_block_fails`, `C92_delete_block_refuted`, `C55_delete_refuted` |
| C92 | deletions are in no window of an incremental query: a copy that is kept up to date by them keeps the deleted records. | `C92_follow_refuted` |
| C93, C25 | records that a clustering is moving are read twice from the completion of any later commit until the clustering completes: base files of writes that have not completed are not left out, and its replacements are not yet known. | `C93_pending_refuted` |
| C103 | `BlockType::AvroData.as_ref()` is `avro`, but `BlockType::from_str` accepts only `avro_data`: the name of the commonest type of log block does not read back | `C103_block_types_refuted` |
| C105 | the documentation of a column (`doc` of a field of the table's record) is dropped, while that of fields within structs is kept: `to_arrow_schema` asks the type of the field for metadata, not the field | `C105_column_doc_refuted` |

Further observations in comments of the model: a truncated magic of 1 to 5 bytes at the end of a log file counts as a clean end; blocks outside the
requested window are still decoded; unsupported block types fail the whole read; the content of command blocks is not consumed; a
partition with one unparsable base file name, an orphan log file or a duplicate base file cannot be listed; `FileGroup::merge` is
not atomic on errors; a table opened with `hoodie.read.file_group.start_timestamp` windows its snapshot reads too.

## Mutation testing

`tools/mutate.py` applies the edits in `seeded/m*.json` to a scratch copy of the last commit, rebuilds and records in `seeded/LOG.jsonl` which
lemmas and property theorems fail. Survivors are either shown to be equivalent (named so in the edit) or led to stronger theorems (field `tightened`).
