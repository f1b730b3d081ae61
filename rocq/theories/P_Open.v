(** C72: tables on an object store are exactly what the keys and contents of the objects say.
    C73: opening a table. *)
From Coq Require Import Sorted.
From Verif Require Import Base Str M_Utf8 M_Time M_Instant M_Timeline M_FileGroup M_Builder M_Listing M_Expr M_Log M_Config M_Reader M_Table M_Storage M_Python M_Objects M_Open
  S_Time S_Timeline S_FileGroup S_Builder S_Listing S_Expr S_Reader S_Config S_Table S_Storage S_Objects S_Open L_Tree L_Timeline L_Objects L_Open E_Scan E_Open.
Local Open Scope string_scope.

(** ** C72 *)
(** The partitions found on an object store are the data directories, each once. *)
Theorem C72_partitions : forall objs base names empty include, proper_objects objs -> located base names ->
  exists paths, (exists enough, forall fuel, (enough <= fuel)%nat ->
       list_relevant_partition_paths (list_dirs objs base) fuel true empty include = Some (Ok paths))
    /\ NoDup paths
    /\ forall path, In path paths <-> data_directory objs names path /\ (empty = false -> include path = true).
Proof.
  intros objs base names empty include P L. destruct (discovery (object_tree objs base) (list_dirs objs base) empty include (tree_wf objs base names P L _ [] (Forall_nil _)) (tree_served objs base names P L)) as [paths [A [B C]]].
  exists paths. split; [exact A|]. split; [exact B|]. intros path. rewrite C, (partition_spec objs base names P L). reflexivity.
Qed.
Print Assumptions C72_partitions.
(** Listing a directory gives its files with their sizes, and each is read back under its path. *)
Theorem C72_files : forall objs base names dir, proper_objects objs -> located base names -> Forall legal dir ->
  (exists l, list_files objs base (join "/" dir) = Ok l /\ directory_listing objs names dir l)
  /\ forall n o, file_in objs names dir n o -> get_file_data objs base (path_join (join "/" dir) n) = Ok (o_data o).
Proof.
  intros objs base names dir P L F. split.
  - destruct (files_spec objs base names P L dir F) as [l [E [N S]]]. exists l. split; [exact E|]. split; assumption.
  - intros n o FI. unfold get_file_data. now rewrite (read_spec objs base names P L dir n o F FI).
Qed.
Print Assumptions C72_files.
(** A snapshot query answers with exactly the newest slices that the objects of the matching partitions
    give, whatever was asked before and however the listings are scheduled. *)
Theorem C72_snapshot_partial : forall dtype value cast cmp local_to_utc objs base names (st : store dtype) tb,
  proper_objects objs -> located base names -> st_files _ st = list_files objs base -> st_dirs _ st = list_dirs objs base ->
  StronglySorted instant_le (t_commits tb) ->
  forall c c' t filters ss, view_after dtype value cast cmp local_to_utc st tb c ->
  get_file_slices_as_of dtype value cast cmp local_to_utc st tb t filters c c' (Ok ss) ->
  exists fs tz time fields hive url format partitioned,
    from_str_tuples filters = Ok fs /\ timeline_timezone (t_configs tb) = Ok tz /\ parse_datetime local_to_utc t tz = Ok time
    /\ get_partition_schema dtype st tb = Ok fields /\ hive_flag tb = Ok hive /\ url_flag tb = Ok url
    /\ base_format (t_configs tb) = Ok format /\ is_table_partitioned (t_configs tb) = Ok partitioned
    /\ (wf_fields fields -> object_snapshot dtype value cast cmp fields hive url objs names format partitioned fs t
          (replaced_by_time (st_json _ st) (t_commits tb) (epoch_millis time)) ss).
Proof. intros dtype value cast cmp L objs base names st tb P Lo SF SD So. exact (object_snapshots dtype value cast cmp L objs base names st tb P Lo SF SD So). Qed.
Print Assumptions C72_snapshot_partial.
(** The base file of every slice of an answer is an object of the store, with the size, and the row
    count, that the slice shows; its log files are objects of the directory of its partition. *)
Theorem C72_slices_found : forall dtype value cast cmp local_to_utc objs base names (st : store dtype) tb footer,
  proper_objects objs -> located base names -> st_files _ st = list_files objs base -> st_dirs _ st = list_dirs objs base -> st_meta _ st = get_file_metadata objs base footer ->
  StronglySorted instant_le (t_commits tb) -> (forall fields, get_partition_schema dtype st tb = Ok fields -> wf_fields fields) ->
  forall c c' t filters ss, view_after dtype value cast cmp local_to_utc st tb c ->
  get_file_slices_as_of dtype value cast cmp local_to_utc st tb t filters c c' (Ok ss) ->
  forall s, In s ss ->
  (exists o bytes rows, In o objs /\ get_file_data objs base (base_relative_path s) = Ok (o_data o) /\ footer (o_data o) = Ok (bytes, rows)
     /\ ps_base_size (py_slice_of s) = Z.of_nat (String.length (o_data o)) /\ ps_base_byte_size (py_slice_of s) = bytes /\ ps_num_records (py_slice_of s) = rows)
  /\ forall l, In l (fs_logs s) -> exists dir o, fs_partition s = join "/" dir /\ file_in objs names dir (log_file_name l) o
       /\ get_file_data objs base (log_relative_path s l) = Ok (o_data o).
Proof. exact answer_found. Qed.
Print Assumptions C72_slices_found.

(** False without conditions: one data file whose name has a fourth part makes every query of the
    partition fail, because the file is looked up under a name it does not have. *)
Theorem C72_extra_part_refuted : exists objs o c', proper_objects objs /\ file_in objs ["data"; "t"] ["city=rio"] "f3_0-1-4_20240101000000000_x.parquet" o
  /\ get_file_slices_as_of unit string sx_cast sx_cmp sx_local (bx_store objs) bx_table sx_t [] [] c' (Err EStorage).
Proof.
  destruct bx_extra_answer as [c' [r [A E]]]. exists bx_extra. eexists. exists c'. split; [apply proper_by; vm_compute; reflexivity|]. split; [|rewrite <- E; exact A].
  split; [|split; [repeat split; discriminate|]]; [unfold bx_extra, bx_objects; apply in_or_app; right; left; reflexivity|reflexivity].
Qed.
Print Assumptions C72_extra_part_refuted.

(** ** C73 *)
(** A table that was opened has the options that the properties file, the caller and the global file
    give, in this order; it is supported; its commits are the completed instants in its timeline
    directory, in order.  It is the table at the location that was given, unless its properties file
    names another base path. *)
Theorem C73_opened_partial : forall iter env parse stores global local_to_utc sort_unstable b tb u names objs,
  visits_all iter -> S_Timeline.sorts sort_unstable -> one_per_key (b_options b) ->
  build iter env parse stores global local_to_utc sort_unstable b = Ok (tb, u, objs) -> located u names -> proper_objects objs ->
  exists u0 objs0 data props,
    parse_uri parse (b_base b) = Ok u0 /\ stores u0 (t_storage tb) = Ok objs0
    /\ get_file_data objs0 u0 ".hoodie/hoodie.properties" = Ok data /\ parse_data "=" data = Ok props
    /\ (forall k, oget k (t_configs tb) = option_value props b (global objs0) k)
    /\ (forall k, oget k (t_storage tb) = storage_value env b k)
    /\ (oget "hoodie.base.path" props = None -> u = u0 /\ objs = objs0 /\ exists o, file_in objs names [".hoodie"] "hoodie.properties" o /\ o_data o = data)
    /\ (supported (t_configs tb) \/ oget "hoodie.internal.skip.config.validation" (t_configs tb) = Some "true")
    /\ exists listed tz l0, directory_listing objs names [".hoodie"] listed /\ timeline_timezone (t_configs tb) = Ok tz
         /\ denoted_instants (denotes_completed local_to_utc tz [Commit; DeltaCommit; ReplaceCommit]) (map fm_name listed) l0
         /\ Permutation l0 (t_commits tb) /\ StronglySorted instant_le (t_commits tb).
Proof. intros iter env parse stores global L f b tb u names objs V. exact (opened iter V env parse stores global L f b tb u names objs). Qed.
Print Assumptions C73_opened_partial.
(** A supported table opens, provided no name in its timeline directory is one of those of C03. *)
Theorem C73_opens_partial : forall iter env parse stores global local_to_utc sort_unstable b u names objs o props m,
  visits_all iter -> one_per_key (b_options b) ->
  parse_uri parse (b_base b) = Ok u -> located u names -> (forall s, (forall k, oget k s = storage_value env b k) -> stores u s = Ok objs) -> proper_objects objs ->
  file_in objs names [".hoodie"] "hoodie.properties" o -> parse_data "=" (o_data o) = Ok props -> oget "hoodie.base.path" props = None ->
  (forall k, oget k m = option_value props b (global objs) k) ->
  (supported m \/ oget "hoodie.internal.skip.config.validation" m = Some "true") -> (forall n o', file_in objs names [".hoodie"] n o' -> ~ bad_instant n) ->
  exists tb, build iter env parse stores global local_to_utc sort_unstable b = Ok (tb, u, objs).
Proof. intros iter env parse stores global L f b u names objs o props m V D PU Lo SO P FO PP NB M SP NI. exact (proj1 (opens iter V env parse stores global L f b u names objs o props m D PU Lo SO P FO PP NB M) SP NI). Qed.
Print Assumptions C73_opens_partial.
(** Without a properties file nothing is opened, and the caller gets an error. *)
Theorem C73_no_properties : forall iter env parse stores global local_to_utc sort_unstable b u names objs,
  visits_all iter -> one_per_key (b_options b) -> parse_uri parse (b_base b) = Ok u -> located u names ->
  (forall s, (forall k, oget k s = storage_value env b k) -> stores u s = Ok objs) -> proper_objects objs ->
  (forall o, ~ file_in objs names [".hoodie"] "hoodie.properties" o) -> exists e, build iter env parse stores global local_to_utc sort_unstable b = Err e.
Proof. intros iter env parse stores global L f b u names objs V. exact (not_opened iter V env parse stores global L f b u names objs). Qed.
Print Assumptions C73_no_properties.
(** Opening an unsupported table is no error but a panic, always. *)
Theorem C73_unsupported_refuted : forall iter env parse stores global local_to_utc sort_unstable b u names objs o props m,
  visits_all iter -> one_per_key (b_options b) ->
  parse_uri parse (b_base b) = Ok u -> located u names -> (forall s, (forall k, oget k s = storage_value env b k) -> stores u s = Ok objs) -> proper_objects objs ->
  file_in objs names [".hoodie"] "hoodie.properties" o -> parse_data "=" (o_data o) = Ok props -> oget "hoodie.base.path" props = None ->
  (forall k, oget k m = option_value props b (global objs) k) ->
  ~ supported m -> oget "hoodie.internal.skip.config.validation" m <> Some "true" ->
  build iter env parse stores global local_to_utc sort_unstable b = Panic.
Proof. intros iter env parse stores global L f b u names objs o props m V D PU Lo SO P FO PP NB M NS SK. exact (proj2 (opens iter V env parse stores global L f b u names objs o props m D PU Lo SO P FO PP NB M) NS SK). Qed.
Print Assumptions C73_unsupported_refuted.
Example C73_unsupported_case : bx_build (bx_objects (bx_props "8" []) []) = Panic.
Proof. vm_compute. reflexivity. Qed.
(** A base path in the properties file moves the table elsewhere. *)
Theorem C73_redirected_refuted : exists objs tb u, proper_objects objs /\ b_base bx_builder = "file:///data/t/"
  /\ bx_build objs = Ok (tb, u, objs) /\ located u ["data"; "other"] /\ t_commits tb = [].
Proof.
  exists (bx_objects (bx_props "6" ["hoodie.base.path=file:///data/other"]) []). eexists. eexists. split; [apply proper_by; vm_compute; reflexivity|]. split; [reflexivity|]. split; [vm_compute; reflexivity|]. split; [|reflexivity].
  split; [reflexivity|]. split; [repeat constructor; discriminate|]. split; [discriminate|]. exists "/data/other". split; [apply L_Expr.encodes_self; reflexivity|]. split; [reflexivity|now left].
Qed.
Print Assumptions C73_redirected_refuted.
(** Opening and then querying: the answers are snapshots of the objects at the location. *)
Theorem C73_open_and_query_partial : forall iter env parse stores global local_to_utc sort_unstable b tb u names objs dtype value cast cmp (st : store dtype),
  visits_all iter -> S_Timeline.sorts sort_unstable -> one_per_key (b_options b) ->
  build iter env parse stores global local_to_utc sort_unstable b = Ok (tb, u, objs) -> located u names -> proper_objects objs ->
  st_files _ st = list_files objs u -> st_dirs _ st = list_dirs objs u ->
  forall c c' t filters ss, view_after dtype value cast cmp local_to_utc st tb c ->
  get_file_slices_as_of dtype value cast cmp local_to_utc st tb t filters c c' (Ok ss) ->
  exists fs tz time fields hive url format partitioned,
    from_str_tuples filters = Ok fs /\ timeline_timezone (t_configs tb) = Ok tz /\ parse_datetime local_to_utc t tz = Ok time
    /\ get_partition_schema dtype st tb = Ok fields /\ hive_flag tb = Ok hive /\ url_flag tb = Ok url
    /\ base_format (t_configs tb) = Ok format /\ is_table_partitioned (t_configs tb) = Ok partitioned
    /\ (wf_fields fields -> object_snapshot dtype value cast cmp fields hive url objs names format partitioned fs t
          (replaced_by_time (st_json _ st) (t_commits tb) (epoch_millis time)) ss).
Proof.
  intros iter env parse stores global L f b tb u names objs dtype value cast cmp st V SU D H Lo P SF SD.
  destruct (opened iter V env parse stores global L f b tb u names objs SU D H Lo P) as [u0 [o0 [da [pr [_ [_ [_ [_ [_ [_ [_ [_ [li [tz0 [l0 [_ [_ [_ [_ So]]]]]]]]]]]]]]]]]]].
  exact (object_snapshots dtype value cast cmp L objs u names st tb P Lo SF SD So).
Qed.
Print Assumptions C73_open_and_query_partial.

(** ** The hypotheses are met *)
Example C72_case : proper_objects bx_objs /\ located sx_base ["data"; "t"]
  /\ list_relevant_partition_paths (list_dirs bx_objs sx_base) 3 true true (fun _ => true) = Some (Ok ["city=ams"; "city=rio"])
  /\ list_files bx_objs sx_base "city=rio" = Ok [new_meta "f2_0-1-3_20240101000000000.parquet" 3]
  /\ st_files _ (bx_store bx_objs) = list_files bx_objs sx_base /\ st_dirs _ (bx_store bx_objs) = list_dirs bx_objs sx_base
  /\ st_meta _ (bx_store bx_objs) = get_file_metadata bx_objs sx_base bx_footer /\ get_partition_schema unit (bx_store bx_objs) bx_table = Ok [("city", tt)] /\ wf_fields [("city", tt)]
  /\ exists c' r, bx_asks bx_objs [("city", "<", "zz")] c' r
       /\ bx_files r = Ok [("city=ams/f1_0-1-2_20240101000000000.parquet", 8, 2); ("city=rio/f2_0-1-3_20240101000000000.parquet", 3, 1)]%Z.
Proof.
  split; [exact bx_proper|]. split; [exact sx_located|]. split; [vm_compute; reflexivity|]. split; [vm_compute; reflexivity|]. split; [reflexivity|]. split; [reflexivity|]. split; [reflexivity|].
  split; [vm_compute; reflexivity|]. split; [exact sx_fields|exact bx_answer].
Qed.
Example C73_case : one_per_key (b_options bx_builder) /\ bx_build bx_objs = Ok (bx_table, sx_base, bx_objs)
  /\ map i_timestamp (t_commits bx_table) = ["20240101000000000"] /\ oget "hoodie.read.input.partitions" (t_configs bx_table) = Some "2"
  /\ oget "hoodie.table.type" (t_configs bx_table) = Some "COPY_ON_WRITE" /\ t_storage bx_table = [("region", "r"); ("aws_x", "y")].
Proof. split; [repeat constructor; cbn; intuition discriminate|]. split; [exact bx_built|]. repeat split. Qed.
Example C73_case_none : exists e, bx_build [{| o_key := "data/t/city=rio/f2_0-1-3_20240101000000000.parquet"; o_data := "rio" |}] = Err e.
Proof. eexists. vm_compute. reflexivity. Qed.
