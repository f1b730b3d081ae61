(** C63 - C67: SQL queries through the table provider. *)
From Verif Require Import Base Str M_Utf8 M_Time M_Instant M_Timeline M_FileGroup M_Builder M_Listing M_Expr M_Log M_Config M_Reader M_Table M_Storage M_Scan
  S_Time S_Timeline S_FileGroup S_Builder S_Listing S_Expr S_Reader S_Config S_Table S_Storage S_Scan L_Reader L_Tree L_Expr L_Str L_Config L_Scan E_Scan E_History.
Local Open Scope string_scope.

(** ** C63 *)
(** A plan reads the base file of each slice that a query of the API with the pushed-down filters returns, once, with
    its size in the storage, in as many groups as the table's options ask for. *)
Theorem C63_plan : forall dtype value cast cmp local_to_utc (st : store dtype) tb base lit lit_display root,
  serves_dirs root (st_dirs _ st) -> wf_tree root -> (forall p listed m, st_files _ st p = Ok listed -> In m listed -> fm_populated m = false) ->
  forall es c c' groups, view_after dtype value cast cmp local_to_utc st tb c ->
  scan dtype value cast cmp local_to_utc st tb base lit lit_display es c c' (Ok groups) ->
  exists n ss, asked_partitions (t_configs tb) n
    /\ get_file_slices dtype value cast cmp local_to_utc st tb (exprs_to_filters lit lit_display es) c c' (Ok ss)
    /\ plans (st_meta _ st) (located_at base) n ss groups.
Proof. exact scan_plan. Qed.
Print Assumptions C63_plan.
(** There is a plan whenever the API answers: neither the options nor the files' names make it fail. *)
Theorem C63_plan_exists : forall dtype value cast cmp local_to_utc (st : store dtype) tb base lit lit_display, u_opaque base = false ->
  forall es c c' ss, get_file_slices dtype value cast cmp local_to_utc st tb (exprs_to_filters lit lit_display es) c c' (Ok ss) ->
  exists groups, scan dtype value cast cmp local_to_utc st tb base lit lit_display es c c' (Ok groups).
Proof. exact scan_total. Qed.
Print Assumptions C63_plan_exists.
Example C63_case : serves_dirs sx_root (st_dirs _ sx_store) /\ wf_tree sx_root
  /\ (forall p listed m, st_files _ sx_store p = Ok listed -> In m listed -> fm_populated m = false)
  /\ asked_partitions (t_configs sx_table) 2 /\ u_opaque sx_base = false
  /\ exists c', get_file_slices unit string sx_cast sx_cmp sx_local sx_store sx_table [] [] c' (Ok [sx_slice1; sx_slice2])
       /\ sx_scan [] [] c' (Ok [[{| pf_location := sx_key1; pf_size := 7 |}]; [{| pf_location := sx_key2; pf_size := 7 |}]]).
Proof.
  split; [apply tree_serves, sx_wf|]. split; [exact sx_wf|]. split; [|split; [|split; [reflexivity|]]].
  - intros p listed m H I. cbn in H. destruct (String.eqb p "city=ams"); [injection H as <-; destruct I as [ <- |[]]; reflexivity|].
    destruct (String.eqb p "city=rio"); [injection H as <-; destruct I as [ <- |[]]; reflexivity|]. injection H as <-. destruct I.
  - apply partitions_asked. reflexivity.
  - destruct sx_all as [c' H]. exists c'. split; [now apply sx_latest|]. eapply sx_scanned; [exact H|]. vm_compute. reflexivity.
Qed.

(** ** C64 *)
(** A query that answers returns the rows of the table's latest slices on which all of its conditions are true: pushing
    conditions down to the partitions loses no row.  Missing: inequalities with the literal on the left, see below;
    literals whose text is no value of the column's type; names that need escapes (C65); log files (C67). *)
Theorem C64_rows_partial : forall dtype value cast cmp local_to_utc (st : store dtype) tb base lit lit_display row objects column lit_value opaque root coltype,
  serves_dirs root (st_dirs _ st) -> wf_tree root -> (forall a b c, cmp a b = Some c -> cmp b a = Some (CompOpp c)) ->
  forall es c1 c1' c2 c2' out ss fields hive url names rss,
  view_after dtype value cast cmp local_to_utc st tb c1 -> view_after dtype value cast cmp local_to_utc st tb c2 ->
  sql_query dtype value cast cmp local_to_utc st tb base lit lit_display row objects column lit_value opaque es c1 c1' (Ok out) ->
  get_file_slices dtype value cast cmp local_to_utc st tb [] c2 c2' (Ok ss) ->
  (forall e, In e es -> literal_side_ok e /\ literal_text_ok cast lit_display lit_value coltype e) ->
  get_partition_schema dtype st tb = Ok fields -> hive_flag tb = Ok hive -> url_flag tb = Ok url -> wf_fields fields ->
  written base names names -> Forall safe names -> Forall2 (stores objects names) ss rss ->
  (forall s rs r, In (s, rs) (combine ss rss) -> In r rs -> lies_in cast coltype fields hive url (column r) (fs_partition s)) ->
  Permutation out (filter (all_true value cmp lit row column lit_value opaque es) (List.concat rss)).
Proof. exact sql_rows. Qed.
Print Assumptions C64_rows_partial.
Definition C64_rss : list (list (list cell)) := [[sx_row "1" "ams"; sx_row "2" "ams"]; [sx_row "3" "rio"; sx_row "4" "rio"]].
Example C64_case : (exists c1', sx_query sx_where [] c1' (Ok [sx_row "4" "rio"]))
  /\ (exists c2', get_file_slices unit string sx_cast sx_cmp sx_local sx_store sx_table [] [] c2' (Ok [sx_slice1; sx_slice2]))
  /\ (forall a b c, sx_cmp a b = Some c -> sx_cmp b a = Some (CompOpp c))
  /\ (forall e, In e sx_where -> literal_side_ok e /\ literal_text_ok sx_cast (fun s => s) (fun s => Some s) (fun _ => tt) e)
  /\ get_partition_schema unit sx_store sx_table = Ok [("city", tt)] /\ hive_flag sx_table = Ok true /\ url_flag sx_table = Ok false
  /\ wf_fields [("city", tt)] /\ written sx_base sx_names sx_names /\ Forall safe sx_names
  /\ Forall2 (stores sx_objects sx_names) [sx_slice1; sx_slice2] C64_rss
  /\ (forall s rs r, In (s, rs) (combine [sx_slice1; sx_slice2] C64_rss) -> In r rs -> lies_in sx_cast (fun _ => tt) [("city", tt)] true false (sx_column r) (fs_partition s)).
Proof.
  split; [exact sx_answer|]. split; [destruct sx_all as [c' H]; exists c'; now apply sx_latest|].
  split; [intros a b c [= <-]; unfold sx_cmp; f_equal; apply scmp_antisym|].
  split. { intros e [ <- |[ <- |[]]]; (split; [exact I|intros c l v [o [b [_ _]]] [= <-]; reflexivity]). }
  repeat (split; [first [reflexivity|exact sx_fields|exact sx_written|exact sx_safe]|]). split.
  - destruct sx_stored. repeat constructor; assumption.
  - intros s rs r [[= <- <-]|[[= <- <-]|[]]] Ir; destruct Ir as [ <- |[ <- |[]]]; apply sx_lies; cbn; auto.
Qed.
(** A literal on the left of an inequality is read as one on the right: the partitions with the rows are dropped. *)
Theorem C64_literal_left_refuted : exists c', sx_query sx_left [] c' (Ok [])
  /\ filter (all_true string sx_cmp string (list cell) sx_column (fun s => Some s) sx_opaque sx_left) (List.concat C64_rss) = [sx_row "3" "rio"; sx_row "4" "rio"].
Proof. destruct sx_left_answer as [c' H]. exists c'. split; [exact H|]. vm_compute. reflexivity. Qed.
Print Assumptions C64_literal_left_refuted.
(** No query that compares a column with a literal answers, unless the column is a partition field: the condition is
    pushed down to the partitions, which do not have the column. *)
Theorem C64_other_columns_refuted : forall dtype value cast cmp local_to_utc (st : store dtype) tb base lit lit_display row objects column lit_value opaque
  i md path cols c l o e es,
  last_opt (t_commits tb) = Some i -> st_json _ st (".hoodie/" ++ file_name i) = Ok md -> names_schema_file md path -> st_schema _ st path = Ok cols -> In c (map fst cols) ->
  (forall fields, get_partition_schema dtype st tb = Ok fields -> ~ In c (map fst fields)) ->
  (forall n, o <> DOther n) -> (exists b, (b = XBin (XCol c) o (XLit l) \/ b = XBin (XLit l) o (XCol c)) /\ (e = b \/ e = XNot b)) -> In e es ->
  forall c1 c2 out, ~ sql_query dtype value cast cmp local_to_utc st tb base lit lit_display row objects column lit_value opaque es c1 c2 (Ok out).
Proof. exact foreign_filter. Qed.
Print Assumptions C64_other_columns_refuted.
Example C64_other_case : exists i, last_opt (t_commits sx_table) = Some i /\ st_json _ sx_store (".hoodie/" ++ file_name i) = Ok sx_md
  /\ names_schema_file sx_md "city=ams/f1_0-1-2_20240101000000000.parquet" /\ In "id" (map fst [("id", tt); ("city", tt)])
  /\ (forall fields, get_partition_schema unit sx_store sx_table = Ok fields -> ~ In "id" (map fst fields))
  /\ forall c1 c2 out, ~ sx_query [XBin (XCol "id") DEq (XLit "4")] c1 c2 (Ok out).
Proof.
  eexists. split; [reflexivity|]. split; [reflexivity|]. assert (N : names_schema_file sx_md "city=ams/f1_0-1-2_20240101000000000.parquet").
  { eexists _, _, _, _, _. split; [reflexivity|]. split; [reflexivity|]. left. split; [now exists "city=ams/f1_0-1-2_20240101000000000"|reflexivity]. }
  assert (P : forall fields, get_partition_schema unit sx_store sx_table = Ok fields -> ~ In "id" (map fst fields)).
  { intros fields H. vm_compute in H. injection H as <-. cbn. intuition discriminate. }
  split; [exact N|]. split; [now left|]. split; [exact P|].
  eapply (foreign_filter unit string) with (c := "id") (o := DEq) (l := "4") (cols := [("id", tt); ("city", tt)]); [reflexivity|reflexivity|exact N|reflexivity|now left|exact P|discriminate| |now left].
  eexists. split; [left; reflexivity|now left].
Qed.

(** ** C65 *)
(** A planned file is the object of the base file if and only if no name on its path needs an escape. *)
Theorem C65_addressed_partial : forall base names encs s ns, written base names encs -> plain (base_relative_path s) -> utf8_valid (base_relative_path s) = true ->
  path_names (base_relative_path s) ns -> existsb has_control ns = false ->
  exists f, scan_file base s = Ok f /\ (object_path base (base_relative_path s) = Ok (pf_location f) <-> encs = names /\ Forall safe (names ++ ns)).
Proof. exact scan_exact. Qed.
Print Assumptions C65_addressed_partial.
(** Different files are never planned as one object. *)
Theorem C65_distinct : forall base names encs s1 ns1 s2 ns2 f1 f2, written base names encs -> plain (base_relative_path s1) -> plain (base_relative_path s2) ->
  utf8_valid (base_relative_path s1) = true -> utf8_valid (base_relative_path s2) = true ->
  path_names (base_relative_path s1) ns1 -> path_names (base_relative_path s2) ns2 -> scan_file base s1 = Ok f1 -> scan_file base s2 = Ok f2 ->
  pf_location f1 = pf_location f2 -> ns1 = ns2.
Proof. exact scan_distinct. Qed.
Print Assumptions C65_distinct.
Example C65_case : written sx_base sx_names sx_names /\ plain (base_relative_path sx_slice1) /\ utf8_valid (base_relative_path sx_slice1) = true
  /\ path_names (base_relative_path sx_slice1) ["city=ams"; "f1_0-1-2_20240101000000000.parquet"] /\ existsb has_control ["city=ams"; "f1_0-1-2_20240101000000000.parquet"] = false
  /\ Forall safe (sx_names ++ ["city=ams"; "f1_0-1-2_20240101000000000.parquet"])
  /\ scan_file sx_base sx_slice1 = Ok {| pf_location := sx_key1; pf_size := 7 |}.
Proof.
  split; [exact sx_written|]. split; [repeat split|]. split; [reflexivity|]. split; [|split; [reflexivity|split; [safe_names|reflexivity]]].
  change (base_relative_path sx_slice1) with "city=ams/f1_0-1-2_20240101000000000.parquet". names.
Qed.
(** The base file in the partition with a blank is planned as the object of another file that may exist: the one whose
    name has the escape of the escape. *)
Theorem C65_escapes_refuted : exists f, scan_file sx_base (sx_slice "f1" "0-1-2" "new york") = Ok f
  /\ object_path sx_base (base_relative_path (sx_slice "f1" "0-1-2" "new york")) = Ok "data/t/city=new york/f1_0-1-2_20240101000000000.parquet"
  /\ object_path sx_base (base_relative_path (sx_slice "f1" "0-1-2" "new%2520york")) = Ok (pf_location f).
Proof. eexists. split; [vm_compute; reflexivity|]. repeat split. Qed.
Print Assumptions C65_escapes_refuted.
(** The same happens with the directories of tables that escape partition values. *)
Theorem C65_encoded_partition_refuted : exists f, scan_file sx_base (sx_slice "f1" "0-1-2" "new%20york") = Ok f
  /\ object_path sx_base (base_relative_path (sx_slice "f1" "0-1-2" "new%20york")) = Ok "data/t/city=new%20york/f1_0-1-2_20240101000000000.parquet"
  /\ pf_location f = "data/t/city=new%252520york/f1_0-1-2_20240101000000000.parquet".
Proof. eexists. split; [vm_compute; reflexivity|]. repeat split. Qed.
Print Assumptions C65_encoded_partition_refuted.

(** ** C66 *)
(** The options of a table that a command creates: the command's, then the session's; table properties come first,
    global options and the environment last. *)
Theorem C66_created_options : forall iter env open properties global location session command b', visits_all iter -> one_per_key command -> NoDup (map fst session) ->
  resolve iter env open properties global (factory_builder iter location session command) = Ok b' ->
  exists asked storage hudi data props,
    (forall k v, asked k = Some v <-> oget k command = Some v \/ (oget k command = None /\ session_sets session k v))
    /\ properties storage hudi = Ok data /\ parse_data "=" data = Ok props
    /\ (forall k, oget k (b_hudi b') =
         first_given [oget k props; if String.eqb "hoodie.base.path" k then Some location else None; when (starts_with "hoodie." k) (asked k);
                      when (starts_with "hoodie." k) (oget k (global_options (global storage hudi)))])
    /\ (forall k, oget k (b_storage b') = first_given [when (negb (starts_with "hoodie." k)) (asked k); env_value env k]).
Proof. exact factory_resolved. Qed.
Print Assumptions C66_created_options.
Definition C66_session : list (string * option string) := [("hoodie.read.input.partitions", Some "8"); ("datafusion.execution.batch_size", Some "8192"); ("datafusion.catalog.format", Some ""); ("x", None)].
Definition C66_command : list (string * string) := [("hoodie.read.input.partitions", "2"); ("aws_region", "eu")].
Example C66_case : visits_all (fun m => m) /\ one_per_key C66_command /\ NoDup (map fst C66_session)
  /\ exists b', resolve (fun m => m) [("AWS_REGION", "us"); ("AWS_ENDPOINT", "e")] (fun _ _ => Ok tt) (fun _ _ => Ok "hoodie.table.name=t") (fun _ _ => Err EIo) (factory_builder (fun m => m) "/t" C66_session C66_command) = Ok b'
     /\ oget "hoodie.read.input.partitions" (b_hudi b') = Some "2" /\ oget "aws_region" (b_storage b') = Some "eu" /\ oget "aws_endpoint" (b_storage b') = Some "e"
     /\ oget "datafusion.execution.batch_size" (b_storage b') = Some "8192" /\ oget "datafusion.catalog.format" (b_storage b') = None.
Proof.
  split; [intros m; reflexivity|]. split; [repeat constructor; cbn; intuition discriminate|]. split; [repeat constructor; cbn; intuition discriminate|].
  eexists. split; [vm_compute; reflexivity|]. repeat split.
Qed.

(** ** C67 *)
(** A query that answers returns the rows of the snapshot that the API reads, restricted to its conditions.  Missing: log
    files, see below; the limits of C64; incremental options of the table. *)
Theorem C67_same_snapshot_partial : forall dtype value cast cmp avro_schema avro_value parse_schema datum check_schema to_batch parquet local_to_utc (st : store dtype) tb base
  lit lit_display objects column lit_value opaque root coltype,
  serves_dirs root (st_dirs _ st) -> wf_tree root -> (forall a b c, cmp a b = Some c -> cmp b a = Some (CompOpp c)) ->
  one_per_key (t_storage tb) -> (forall k v r, In (k, v) (t_storage tb) -> k <> "hoodie." ++ r) ->
  oget "hoodie.populate.meta.fields" (t_configs tb) = Some "false" \/ oget "hoodie.read.file_group.start_timestamp" (t_configs tb) = None ->
  oget "hoodie.read.use.read_optimized.mode" (t_configs tb) = Some "true" \/ (forall s, latest_slice value cast cmp local_to_utc st tb s -> fs_logs s = []) ->
  forall es c1 c1' c2 c2' out batches fields hive url names,
  view_after dtype value cast cmp local_to_utc st tb c1 -> view_after dtype value cast cmp local_to_utc st tb c2 ->
  sql_query dtype value cast cmp local_to_utc st tb base lit lit_display (list cell) objects column lit_value opaque es c1 c1' (Ok out) ->
  read_snapshot dtype value cast cmp avro_schema avro_value parse_schema datum check_schema to_batch parquet local_to_utc st tb [] c2 c2' (Ok batches) ->
  (forall e, In e es -> literal_side_ok e /\ literal_text_ok cast lit_display lit_value coltype e) ->
  get_partition_schema dtype st tb = Ok fields -> hive_flag tb = Ok hive -> url_flag tb = Ok url -> wf_fields fields ->
  written base names names -> Forall safe names ->
  (forall s b, latest_slice value cast cmp local_to_utc st tb s -> st_parquet _ st (base_relative_path s) = Ok b ->
     stores objects names s (rb_rows b) /\ forall r, In r (rb_rows b) -> lies_in cast coltype fields hive url (column r) (fs_partition s)) ->
  Permutation out (filter (all_true value cmp lit (list cell) column lit_value opaque es) (rows_of batches)).
Proof. exact sql_agrees. Qed.
Print Assumptions C67_same_snapshot_partial.
Definition C67_api := read_snapshot unit string sx_cast sx_cmp unit unit (fun _ => None) (fun _ _ => None) (fun _ => Ok tt) (fun _ _ => Err EArrow) hx_decode sx_local.
Example C67_case : one_per_key (t_storage sx_table) /\ (forall k v r, In (k, v) (t_storage sx_table) -> k <> "hoodie." ++ r)
  /\ oget "hoodie.read.file_group.start_timestamp" (t_configs sx_table) = None
  /\ (forall s, latest_slice string sx_cast sx_cmp sx_local sx_store sx_table s -> fs_logs s = [])
  /\ (exists c1', sx_query sx_where [] c1' (Ok [sx_row "4" "rio"]))
  /\ (exists c2', C67_api sx_store sx_table [] [] c2' (Ok [sx_batch [sx_row "1" "ams"; sx_row "2" "ams"]; sx_batch [sx_row "3" "rio"; sx_row "4" "rio"]]))
  /\ (forall s b, latest_slice string sx_cast sx_cmp sx_local sx_store sx_table s -> st_parquet _ sx_store (base_relative_path s) = Ok b ->
        stores sx_objects sx_names s (rb_rows b) /\ forall r, In r (rb_rows b) -> lies_in sx_cast (fun _ => tt) [("city", tt)] true false (sx_column r) (fs_partition s)).
Proof.
  split; [constructor|]. split; [intros k v r []|]. split; [reflexivity|]. split; [intros s H; apply sx_slices in H as [ -> | -> ]; reflexivity|].
  split; [exact sx_answer|]. split.
  - destruct sx_all as [c' H]. exists c'. eapply rn_some with (t := sx_t); [reflexivity|]. eapply ra_ok; [exact H|].
    eapply rs_read with (iter := fun m => m); [intros m; reflexivity| |exact (jo_ok [sx_batch _; sx_batch _])].
    split; [reflexivity|]. repeat (apply Forall2_cons; [exists (@isort _), (fun m => m); split; [apply isort_sorts|split; [intros m; reflexivity|vm_compute; reflexivity]]|]). apply Forall2_nil.
  - intros s b H E. destruct sx_stored as [S1 S2]. apply sx_slices in H as [ -> | -> ]; vm_compute in E; injection E as <-.
    + split; [exact S1|]. intros r [ <- |[ <- |[]]]; apply sx_lies; now left.
    + split; [exact S2|]. intros r [ <- |[ <- |[]]]; apply sx_lies; right; now left.
Qed.
(** The table of the examples of histories is merge-on-read.  The API merges the log file, the query does not read it. *)
Theorem C67_log_files_refuted : exists c1 c2 out rows,
  sql_query unit string sx_cast sx_cmp sx_local hx_store hx_table sx_base string (fun s => s) (list cell) hx_objects (fun _ _ => None) (fun s => Some s) (fun _ _ => None) [] [] c1 (Ok out)
  /\ C67_api hx_store hx_table [] [] c2 (Ok [hx_batch rows]) /\ out = [hx_a2; hx_b1] /\ rows = [hx_b6; hx_a2] /\ ~ Permutation out rows.
Proof.
  destruct hx_read6 as [c2 H]. destruct hx_query as [c1 Q].
  exists c1, c2, [hx_a2; hx_b1], [hx_b6; hx_a2]. split; [exact Q|]. split; [eapply rn_some with (t := hx_t6); [reflexivity|exact H]|]. split; [reflexivity|]. split; [reflexivity|].
  intros P. apply (Permutation_in hx_b1) in P; [|right; now left]. destruct P as [P|[P|[]]]; discriminate P.
Qed.
Print Assumptions C67_log_files_refuted.
