(** Model of crates/core/src/table/mod.rs: the queries of a table. *)
From Verif Require Import Base Str M_Time M_Instant M_Timeline M_FileGroup M_Builder M_Listing M_Expr M_Log M_Config M_Reader S_Reader.
Local Open Scope string_scope.

(** [slice::chunks]: pieces of [k] elements, the last one possibly shorter; panics for [k = 0].  The
    fuel bounds the number of pieces by the number of elements. *)
Fixpoint chunk {A} (fuel k : nat) (l : list A) : list (list A) :=
  match fuel, l with
  | S fuel', _ :: _ => firstn k l :: chunk fuel' k (skipn k l)
  | _, _ => []
  end.
Definition chunks {A} (k : nat) (l : list A) : outcome (list (list A)) :=
  match k with O => Panic | _ => Ok (chunk (List.length l) k l) end.
(** [usize::div_ceil] *)
Definition div_ceil (a b : nat) : nat := ((a + (b - 1)) / b)%nat.

(** [futures::future::try_join_all]: the results in order if there is no error, otherwise one of the
    errors (which one depends on the schedule). *)
Inductive joined {A} : list (outcome A) -> outcome (list A) -> Prop :=
| jo_ok : forall l, joined (map Ok l) (Ok l)
| jo_err : forall os e, In (Err e) os -> joined os (Err e)
| jo_panic : forall os, In Panic os -> joined os Panic.

(** table/mod.rs:115-121; the file system view is the cache, passed separately *)
Record table := { t_configs : options; t_storage : options; t_commits : list instant }.

Section Table.
(** Arrow types and scalars of the partition columns, see M_Expr. *)
Variable dtype value : Type.
Variable cast : dtype -> string -> option value.
Variable cmp : value -> value -> option comparison.
(** Decoders, see M_Log. *)
Variable avro_schema avro_value : Type.
Variable parse_schema : string -> option avro_schema.
Variable datum : avro_schema -> string -> option (avro_value * string).
Variable check_schema : avro_schema -> outcome unit.
Variable to_batch : avro_schema -> list avro_value -> outcome record_batch.
Variable parquet : string -> option (list record_batch).
Variable local_to_utc : ndt -> option ndt.

(** The storage of the table, by paths relative to its base: commit metadata, the schema, the rows and
    the statistics of a parquet file, bytes of a log file, and the listings.  The table, its timeline,
    its view and the readers open the same storage; it does not change while queries run. *)
Record store := {
  st_json : string -> outcome (list (string * json));
  st_schema : string -> outcome (list (string * dtype));
  st_files : string -> outcome (list file_meta);
  st_dirs : string -> outcome (list string);
  st_meta : string -> outcome file_meta;
  st_parquet : string -> outcome record_batch;
  st_bytes : string -> outcome string;
  st_open : options -> options -> outcome unit       (* [Storage::new] with hudi and storage options *)
}.
Variable st : store.
Variable tb : table.

(** mod.rs:207-224 [get_partition_schema] *)
Definition get_partition_schema : outcome (schema dtype) :=
  let* fields := partition_fields (t_configs tb) in
  let* path := latest_schema_path (st_json st) (t_commits tb) in
  let* s := st_schema st path in
  Ok (partition_schema dtype s fields).

(** table/partition.rs:72-77 *)
Definition hive_flag : outcome bool := let* h := table_or_default IsHiveStylePartitioning (t_configs tb) in to_bool h.
Definition url_flag : outcome bool := let* u := table_or_default IsPartitionPathUrlencoded (t_configs tb) in to_bool u.

(** mod.rs:325-332: what [get_file_slices_internal] asks the view for *)
Definition plan (t : string) (filters : list filter_expr) : outcome query :=
  let* tz := timeline_timezone (t_configs tb) in
  let* excludes := get_replaced_file_groups_as_of local_to_utc (st_json st) tz (t_commits tb) t in
  let* ps := get_partition_schema in
  let* pr := new_pruner dtype value cast filters ps hive_flag url_flag in
  Ok {| q_time := t; q_pruner_empty := pruner_is_empty dtype value pr;
        q_include := should_include dtype value cast cmp pr; q_excluded := excludes |}.

(** mod.rs:320-336 [get_file_slices_internal], from the view before to the view after *)
Inductive slices_at (t : string) (filters : list filter_expr) : cache -> cache -> outcome (list file_slice) -> Prop :=
| sa_err : forall c e, plan t filters = Err e -> slices_at t filters c c (Err e)
| sa_panic : forall c, plan t filters = Panic -> slices_at t filters c c Panic
| sa_view : forall c c' q partitioned format n r, plan t filters = Ok q ->
    is_table_partitioned (t_configs tb) = Ok partitioned -> base_format (t_configs tb) = Ok format -> listing_parallelism (t_configs tb) = Ok n ->
    view_query (st_files st) (st_dirs st) (st_meta st) format partitioned (Z.to_nat n) c q c' r ->
    slices_at t filters c c' r.

(** mod.rs:311-318 [get_file_slices_as_of] *)
Inductive get_file_slices_as_of (t : string) (filters : list (string * string * string)) : cache -> cache -> outcome (list file_slice) -> Prop :=
| ga_bad : forall c e, from_str_tuples filters = Err e -> get_file_slices_as_of t filters c c (Err e)
| ga_ok : forall c c' fs r, from_str_tuples filters = Ok fs -> slices_at t fs c c' r -> get_file_slices_as_of t filters c c' r.
(** mod.rs:294-301 [get_file_slices] *)
Inductive get_file_slices (filters : list (string * string * string)) : cache -> cache -> outcome (list file_slice) -> Prop :=
| gs_none : forall c, latest_commit_timestamp (t_commits tb) = None -> get_file_slices filters c c (Ok [])
| gs_some : forall c c' t r, latest_commit_timestamp (t_commits tb) = Some t -> get_file_slices_as_of t filters c c' r -> get_file_slices filters c c' r.

(** mod.rs:273-284: splitting *)
Definition splits (n : nat) (ss : list file_slice) : outcome (list (list file_slice)) :=
  match ss with
  | [] => Ok []
  | _ => let n := Nat.max 1 n in chunks (div_ceil (List.length ss) n) ss
  end.
(** mod.rs:256-265 and 236-248, with 267-272 *)
Inductive get_file_slices_splits_as_of (n : nat) (t : string) (filters : list (string * string * string)) : cache -> cache -> outcome (list (list file_slice)) -> Prop :=
| gp_one : forall c c' r, get_file_slices_as_of t filters c c' r -> get_file_slices_splits_as_of n t filters c c' (let* ss := r in splits n ss).
Inductive get_file_slices_splits (n : nat) (filters : list (string * string * string)) : cache -> cache -> outcome (list (list file_slice)) -> Prop :=
| gl_none : forall c, latest_commit_timestamp (t_commits tb) = None -> get_file_slices_splits n filters c c (Ok [])
| gl_some : forall c c' t r, latest_commit_timestamp (t_commits tb) = Some t -> get_file_slices_splits_as_of n t filters c c' r -> get_file_slices_splits n filters c c' r.

(** mod.rs:363-381 [get_file_slices_between_internal]; the iteration orders of the hash sets *)
Definition slices_between (order : nat -> list file_group -> list file_group) (start stop : string) : outcome (list file_slice) :=
  let* tz := timeline_timezone (t_configs tb) in
  let* gs := get_file_groups_between local_to_utc (st_json st) order tz (t_commits tb) (Some start) (Some stop) in
  Ok (flat_map (fun g => match get_file_slice_as_of g stop with Some s => [s] | None => [] end) gs).
(** mod.rs:345-361 [get_file_slices_between] *)
Definition stop_or_latest (stop : option string) : option string :=
  match stop with Some e => Some e | None => latest_commit_timestamp (t_commits tb) end.
Definition get_file_slices_between (order : nat -> list file_group -> list file_group) (start stop : option string) : outcome (list file_slice) :=
  match stop_or_latest stop with
  | None => Ok []
  | Some e => slices_between order (match start with Some s => s | None => EARLIEST_START_TIMESTAMP end) e
  end.

(** mod.rs:438-446 and 474-480: a reader for these options reads the slices concurrently *)
Inductive read_slices (opts : list (string * string)) (ss : list file_slice) : outcome (list record_batch) -> Prop :=
| rs_no_reader : forall iter e, (forall m, Permutation (iter m) m) ->
    (let o := table_reader_options iter (t_configs tb) (t_storage tb) opts in st_open st (fst o) (snd o) = Err e) -> read_slices opts ss (Err e)
| rs_panic : forall iter, (forall m, Permutation (iter m) m) ->
    (let o := table_reader_options iter (t_configs tb) (t_storage tb) opts in st_open st (fst o) (snd o) = Panic) -> read_slices opts ss Panic
| rs_read : forall iter os r, (forall m, Permutation (iter m) m) ->
    (let o := table_reader_options iter (t_configs tb) (t_storage tb) opts in st_open st (fst o) (snd o) = Ok tt
     /\ Forall2 (fun s o' => exists sort visit, sorts sort /\ visits visit
          /\ o' = read_file_slice sort visit (st_parquet st) avro_schema avro_value parse_schema datum check_schema to_batch parquet local_to_utc (st_bytes st) (fst o) s) ss os) ->
    joined os r -> read_slices opts ss r.

(** mod.rs:432-447 [read_snapshot_internal], with 423-430 [read_snapshot_as_of] *)
Inductive read_snapshot_as_of (t : string) (filters : list (string * string * string)) : cache -> cache -> outcome (list record_batch) -> Prop :=
| ra_err : forall c c' e, get_file_slices_as_of t filters c c' (Err e) -> read_snapshot_as_of t filters c c' (Err e)
| ra_panic : forall c c', get_file_slices_as_of t filters c c' Panic -> read_snapshot_as_of t filters c c' Panic
| ra_ok : forall c c' ss r, get_file_slices_as_of t filters c c' (Ok ss) ->
    read_slices [("hoodie.read.file_group.end_timestamp", t)] ss r -> read_snapshot_as_of t filters c c' r.
(** mod.rs:409-416 [read_snapshot] *)
Inductive read_snapshot (filters : list (string * string * string)) : cache -> cache -> outcome (list record_batch) -> Prop :=
| rn_none : forall c, latest_commit_timestamp (t_commits tb) = None -> read_snapshot filters c c (Ok [])
| rn_some : forall c c' t r, latest_commit_timestamp (t_commits tb) = Some t -> read_snapshot_as_of t filters c c' r -> read_snapshot filters c c' r.

(** mod.rs:456-481 [read_incremental_records] *)
Inductive read_incremental (start : string) (stop : option string) : outcome (list record_batch) -> Prop :=
| ri_none : stop_or_latest stop = None -> read_incremental start stop (Ok [])
| ri_err : forall order e er, (forall n l, Permutation l (order n l)) -> stop_or_latest stop = Some e ->
    slices_between order start e = Err er -> read_incremental start stop (Err er)
| ri_panic : forall order e, (forall n l, Permutation l (order n l)) -> stop_or_latest stop = Some e ->
    slices_between order start e = Panic -> read_incremental start stop Panic
| ri_ok : forall order e ss r, (forall n l, Permutation l (order n l)) -> stop_or_latest stop = Some e ->
    slices_between order start e = Ok ss ->
    read_slices [("hoodie.read.file_group.start_timestamp", start); ("hoodie.read.file_group.end_timestamp", e)] ss r ->
    read_incremental start stop r.

(** The view after some queries on a new table. *)
Inductive view_after : cache -> Prop :=
| va_new : view_after []
| va_query : forall c c' t fs r, view_after c -> slices_at t fs c c' r -> view_after c'.
End Table.
