(** C74, the records: a query as of a time returns the records of one state of the table even if writers
    add files while it runs. *)
From Coq Require Import Sorted.
From Verif Require Import Base Str M_Time M_Instant M_Timeline M_FileGroup M_Builder M_Listing M_Expr M_Log M_Config M_Reader M_Table M_Storage M_Session M_Objects M_During
  S_Time S_Timeline S_FileGroup S_Builder S_Listing S_Expr S_Log S_Reader S_Config S_Table S_History S_Storage S_Session S_Objects S_During S_Meanwhile
  L_Meanwhile E_History E_Changes E_Scan E_Open E_Meanwhile.
Local Open Scope string_scope.

(** Every listing and every read of the query may happen at another moment, and nothing is removed.  A
    file group that held the history [g] when the query began, last written at [now], and to which
    writers may have added since, gives its records as of [t], for every [t] up to [now]. *)
Theorem C74_records_partial : forall dtype value cast cmp avro_schema avro_value avro_parse datum check_schema to_batch parquet local_to_utc
    moments base names parse_json parse_schema parse_rows footer open (st : store dtype) tb format sch p s k,
  let store_of objs := object_store objs base dtype parse_json parse_schema parse_rows footer open in
  (forall objs, In objs moments -> proper_objects objs) -> located base names -> grows moments ->
  sees moments base dtype parse_json parse_schema parse_rows footer open st ->
  merging_table tb sch p s k -> StronglySorted instant_le (t_commits tb) -> base_format (t_configs tb) = Ok format ->
  forall c c' t filters batches, timestamp t ->
  opened dtype value cast cmp local_to_utc tb
    (fun st st' => is_table_partitioned (t_configs tb) = Ok true -> partitions_kept (st_dirs _ st) (st_dirs _ st')) st c ->
  read_snapshot_as_of dtype value cast cmp avro_schema avro_value avro_parse datum check_schema to_batch parquet local_to_utc st tb t filters c c' (Ok batches) ->
  exists ss, get_file_slices_as_of dtype value cast cmp local_to_utc st tb t filters c c' (Ok ss)
    /\ Forall2 (fun slice batch => forall now g, history k p s now g -> sle t now -> clean_at g t ->
         written_on dtype avro_schema avro_value avro_parse datum check_schema to_batch parquet store_of moments format sch k p s (fs_partition slice) (bf_file_id (fs_base slice)) now g ->
         rb_fields batch = sch /\ current_at k p s g t (rb_rows batch)) ss batches.
Proof.
  intros until k. intros store_of PO L GR SEE MT So BF.
  exact (meanwhile dtype value cast cmp avro_schema avro_value avro_parse datum check_schema to_batch parquet local_to_utc moments base names parse_json parse_schema parse_rows footer open PO L GR st SEE tb format sch p s k MT So BF).
Qed.
Print Assumptions C74_records_partial.

(** When every file is read after its directory was listed, the reads succeed. *)
Theorem C74_reads_succeed : forall dtype value cast cmp avro_schema avro_value avro_parse datum check_schema to_batch parquet local_to_utc
    moments base names parse_json parse_schema parse_rows footer open (st : store dtype) tb format sch p s k,
  let store_of objs := object_store objs base dtype parse_json parse_schema parse_rows footer open in
  (forall objs, In objs moments -> proper_objects objs) -> located base names ->
  sees moments base dtype parse_json parse_schema parse_rows footer open st ->
  merging_table tb sch p s k -> StronglySorted instant_le (t_commits tb) -> base_format (t_configs tb) = Ok format ->
  read_after_listing dtype store_of moments st -> (forall t, readers_open st tb [("hoodie.read.file_group.end_timestamp", t)]) ->
  forall c c' t filters ss, timestamp t ->
  opened dtype value cast cmp local_to_utc tb
    (fun st st' => is_table_partitioned (t_configs tb) = Ok true -> partitions_kept (st_dirs _ st) (st_dirs _ st')) st c ->
  get_file_slices_as_of dtype value cast cmp local_to_utc st tb t filters c c' (Ok ss) ->
  (forall slice, In slice ss -> exists now g, history k p s now g /\ sle t now /\ clean_at g t
     /\ written_on dtype avro_schema avro_value avro_parse datum check_schema to_batch parquet store_of moments format sch k p s (fs_partition slice) (bf_file_id (fs_base slice)) now g) ->
  forall r, read_slices dtype avro_schema avro_value avro_parse datum check_schema to_batch parquet local_to_utc st tb [("hoodie.read.file_group.end_timestamp", t)] ss r ->
  exists batches, r = Ok batches.
Proof.
  intros until k. intros store_of PO L SEE MT So BF RA Op.
  exact (meanwhile_succeeds dtype value cast cmp avro_schema avro_value avro_parse datum check_schema to_batch parquet local_to_utc moments base names parse_json parse_schema parse_rows footer open PO L st SEE tb format sch p s k MT So BF RA Op).
Qed.
Print Assumptions C74_reads_succeed.

(** So the query returns the records that it returns when nobody disturbs it. *)
Theorem C74_undisturbed_records_partial : forall dtype value cast cmp avro_schema avro_value avro_parse datum check_schema to_batch parquet local_to_utc
    start later base names parse_json parse_schema parse_rows footer open tb t format,
  let store_of objs := object_store objs base dtype parse_json parse_schema parse_rows footer open in
  (forall objs, In objs (start :: later) -> proper_objects objs) -> located base names ->
  (forall objs, In objs later -> later_objects names format t start objs) -> grows (start :: later) -> (forall objs, In objs (start :: later) -> one_base_file names format objs) ->
  StronglySorted instant_le (t_commits tb) -> (forall i, In i (t_commits tb) -> exists o, file_in start names [".hoodie"] (file_name i) o) ->
  base_format (t_configs tb) = Ok format -> forall sch p s k, merging_table tb sch p s k -> timestamp t ->
  forall fields, get_partition_schema dtype (store_of start) tb = Ok fields -> wf_fields fields ->
  forall (st : store dtype) c c' filters batches batches0 c0, sees (start :: later) base dtype parse_json parse_schema parse_rows footer open st ->
  read_snapshot_as_of dtype value cast cmp avro_schema avro_value avro_parse datum check_schema to_batch parquet local_to_utc (store_of start) tb t filters [] c0 (Ok batches0) ->
  opened dtype value cast cmp local_to_utc tb
    (fun st st' => is_table_partitioned (t_configs tb) = Ok true -> partitions_kept (st_dirs _ st) (st_dirs _ st')) st c ->
  read_snapshot_as_of dtype value cast cmp avro_schema avro_value avro_parse datum check_schema to_batch parquet local_to_utc st tb t filters c c' (Ok batches) ->
  exists ss0, get_file_slices_as_of dtype value cast cmp local_to_utc (store_of start) tb t filters [] c0 (Ok ss0)
    /\ ((forall slice, In slice ss0 -> exists now g, history k p s now g /\ sle t now /\ clean_at g t /\ distinct_versions k p s g t
           /\ written_on dtype avro_schema avro_value avro_parse datum check_schema to_batch parquet store_of (start :: later) format sch k p s (fs_partition slice) (bf_file_id (fs_base slice)) now g) ->
        Permutation (flat_map rb_rows batches0) (flat_map rb_rows batches)).
Proof.
  intros until format. intros store_of PO L LO GR UB So TL BF sch p s k MT Tt fields GS WF.
  exact (same_meanwhile dtype value cast cmp avro_schema avro_value avro_parse datum check_schema to_batch parquet local_to_utc start later base names parse_json parse_schema parse_rows footer open tb t format PO L LO GR UB So TL BF sch p s k MT Tt fields GS WF).
Qed.
Print Assumptions C74_undisturbed_records_partial.

(** A compaction and a deltacommit happen while the table of E_History is read. *)
Example C74_records_case : (exists c', mx_reads mx_query c' [hx_a2; hx_b1]) /\ (exists c', mx_reads (mx_store mx_start) c' [hx_a2; hx_b1])
  /\ (forall objs, In objs (mx_start :: mx_later) -> proper_objects objs) /\ located sx_base ["data"; "t"] /\ grows (mx_start :: mx_later)
  /\ sees (mx_start :: mx_later) sx_base unit mx_json mx_schema mx_rows mx_footer (fun _ _ => Ok tt) mx_query
  /\ read_after_listing unit mx_store (mx_start :: mx_later) mx_query
  /\ (forall objs, In objs mx_later -> later_objects ["data"; "t"] "parquet" hx_t4 mx_start objs)
  /\ (forall objs, In objs (mx_start :: mx_later) -> one_base_file ["data"; "t"] "parquet" objs)
  /\ (forall i, In i (t_commits mx_table) -> exists o, file_in mx_start ["data"; "t"] [".hoodie"] (file_name i) o)
  /\ merging_table mx_table hx_sch 3 1 2 /\ StronglySorted instant_le (t_commits mx_table) /\ base_format (t_configs mx_table) = Ok "parquet" /\ timestamp hx_t4
  /\ get_partition_schema unit (mx_store mx_start) mx_table = Ok []
  /\ history 2 3 1 hx_t4 hx_group4 /\ clean_at hx_group4 hx_t4 /\ distinct_versions 2 3 1 hx_group4 hx_t4
  /\ written_on unit unit unit (fun _ => None) (fun _ _ => None) (fun _ => Ok tt) (fun _ _ => Err EArrow) hx_decode mx_store (mx_start :: mx_later) "parquet" hx_sch 2 3 1 "" "f" hx_t4 hx_group4
  /\ List.length (firstn 2 mx_files) = 2%nat /\ st_files _ mx_query "" = Ok (firstn 3 mx_files) /\ st_files _ (mx_store mx_end) "" = Ok mx_files.
Proof.
  split; [exact mx_read_query|]. split; [exact mx_read_start|]. split; [exact mx_proper|]. split; [exact sx_located|]. split; [exact mx_grows|]. split; [exact mx_sees|]. split; [exact mx_after|].
  split; [exact mx_later_objects|]. split; [exact mx_one_base|]. split; [exact mx_timeline|]. split; [exact mx_merging|]. split; [exact mx_sorted|]. split; [vm_compute; reflexivity|].
  split; [apply hx_stamp; cbn; tauto|]. split; [exact mx_fields|]. split; [exact hx_history4|]. split; [exact mx_clean|]. split; [exact mx_distinct|]. split; [exact mx_written|].
  split; [reflexivity|]. split; vm_compute; reflexivity.
Qed.

(** Incremental queries take files from commit metadata and list nothing.  While nothing is changed or
    removed, whatever else is added, their answers are those that the objects at the start give, unless
    the query can fail there (for a file that is missing). *)
Theorem C74_incremental : forall dtype avro_schema avro_value avro_parse datum check_schema to_batch parquet local_to_utc
    start moments base parse_json parse_schema parse_rows footer open (st : store dtype) tb,
  let undisturbed := object_store start base dtype parse_json parse_schema parse_rows footer open in
  (forall objs, In objs moments -> proper_objects objs /\ incl start objs) ->
  sees moments base dtype parse_json parse_schema parse_rows footer open st -> (forall h o, st_open _ st h o = open h o) ->
  (forall order a b ss, get_file_slices_between dtype local_to_utc st tb order a b = Ok ss ->
     get_file_slices_between dtype local_to_utc undisturbed tb order a b = Ok ss \/ exists e, get_file_slices_between dtype local_to_utc undisturbed tb order a b = Err e)
  /\ forall a b r, read_incremental dtype avro_schema avro_value avro_parse datum check_schema to_batch parquet local_to_utc st tb a b r ->
       (exists e, read_incremental dtype avro_schema avro_value avro_parse datum check_schema to_batch parquet local_to_utc undisturbed tb a b (Err e))
       \/ read_incremental dtype avro_schema avro_value avro_parse datum check_schema to_batch parquet local_to_utc undisturbed tb a b r.
Proof.
  intros until tb. intros undisturbed PO SEE OP. split.
  - intros order a b ss H. unfold get_file_slices_between in *. change (stop_or_latest tb b) with (stop_or_latest tb b) in *. destruct (stop_or_latest tb b) as [e|]; [|now left].
    destruct (between_or_fails dtype local_to_utc start moments base parse_json parse_schema parse_rows footer open PO st SEE tb order (match a with Some s => s | None => EARLIEST_START_TIMESTAMP end) e) as [E|E]; [left|right; exact E].
    unfold undisturbed. rewrite E. exact H.
  - exact (increments_or_fail dtype avro_schema avro_value avro_parse datum check_schema to_batch parquet local_to_utc start moments base parse_json parse_schema parse_rows footer open PO st SEE OP tb).
Qed.
Print Assumptions C74_incremental.
Example C74_incremental_case : (forall objs, In objs (mx_start :: mx_later) -> proper_objects objs /\ incl mx_start objs)
  /\ sees (mx_start :: mx_later) sx_base unit mx_json mx_schema mx_rows mx_footer (fun _ _ => Ok tt) mx_query /\ (forall h o, st_open _ mx_query h o = Ok tt)
  /\ hx_incremental mx_query mx_table hx_decode hx_t1 None [hx_a2] /\ hx_incremental (mx_store mx_start) mx_table hx_decode hx_t1 None [hx_a2].
Proof.
  split.
  { intros objs I. split; [exact (mx_proper objs I)|]. intros x J. destruct I as [ <- |[ <- |[ <- |[]]]]; repeat (apply in_or_app; left); exact J. }
  split; [exact mx_sees|]. split; [reflexivity|]. split; hx_changes.
Qed.
