(** Table-level properties: C07 (empty tables), C24 (snapshots), C25 (uncommitted files), C26 (splits),
    C55 (time travel is stable), C56 (incremental slices). *)
From Verif Require Import Base Str M_Time M_Instant M_Timeline M_FileGroup M_Builder M_Listing M_Expr M_Log M_Config M_Reader M_Table
  S_Time S_Timeline S_FileGroup S_Builder S_Listing S_Expr S_Reader S_Table L_Str L_Tree L_Table L_Incremental E_Table.
From Coq Require Import Sorted.
Local Open Scope string_scope.

(** C07: on an empty timeline every query without an explicit time has exactly one answer, the empty one,
    whatever the filters. *)
Theorem C07_empty_table_partial : forall dtype value cast cmp avro_schema avro_value parse_schema datum check_schema to_batch parquet local_to_utc
    (st : store dtype) tb, t_commits tb = [] -> forall c,
  (forall filters c' r, get_file_slices dtype value cast cmp local_to_utc st tb filters c c' r <-> c' = c /\ r = Ok [])
  /\ (forall n filters c' r, get_file_slices_splits dtype value cast cmp local_to_utc st tb n filters c c' r <-> c' = c /\ r = Ok [])
  /\ (forall order start, get_file_slices_between dtype local_to_utc st tb order start None = Ok [])
  /\ (forall filters c' r, read_snapshot dtype value cast cmp avro_schema avro_value parse_schema datum check_schema to_batch parquet local_to_utc st tb filters c c' r
        <-> c' = c /\ r = Ok [])
  /\ (forall start r, read_incremental dtype avro_schema avro_value parse_schema datum check_schema to_batch parquet local_to_utc st tb start None r <-> r = Ok []).
Proof. exact empty_table. Qed.
Print Assumptions C07_empty_table_partial.
(** ... but a query of an empty table as of an explicit time is an error: the schema of the latest commit
    is looked up first. *)
Theorem C07_time_travel_on_empty_table_refuted : forall dtype value cast cmp local_to_utc (st : store dtype) tb, t_commits tb = [] ->
  forall t c filters c' r, get_file_slices_as_of dtype value cast cmp local_to_utc st tb t filters c c' r -> forall ss, r <> Ok ss.
Proof. exact empty_as_of. Qed.
Print Assumptions C07_time_travel_on_empty_table_refuted.
Example C07_refuted_case : get_file_slices_as_of unit string tx_cast tx_cmp tx_local tx_store tx_empty "20240103000000000" [] [] [] (Err ECommitMetadata).
Proof. eapply ga_ok; [reflexivity|]. apply sa_err. reflexivity. Qed.

(** C24 at the level of the table: the replaced file groups come from the timeline and the partitions from
    the filters. *)
Theorem C24_table_snapshot : forall dtype value cast cmp local_to_utc (st : store dtype) tb root,
  serves_dirs root (st_dirs _ st) -> wf_tree root -> StronglySorted instant_le (t_commits tb) ->
  forall c c' t filters ss, view_after dtype value cast cmp local_to_utc st tb c ->
  get_file_slices_as_of dtype value cast cmp local_to_utc st tb t filters c c' (Ok ss) ->
  exists fs tz time fields hive url format partitioned,
    from_str_tuples filters = Ok fs /\ timeline_timezone (t_configs tb) = Ok tz /\ parse_datetime local_to_utc t tz = Ok time
    /\ get_partition_schema dtype st tb = Ok fields /\ hive_flag tb = Ok hive /\ url_flag tb = Ok url
    /\ base_format (t_configs tb) = Ok format /\ is_table_partitioned (t_configs tb) = Ok partitioned
    /\ (wf_fields fields -> table_snapshot dtype value cast cmp fields hive url (st_files _ st) format partitioned root fs t
          (replaced_by_time (st_json _ st) (t_commits tb) (epoch_millis time)) ss).
Proof. exact as_of_snapshot. Qed.
Print Assumptions C24_table_snapshot.
Example C24_table_case : serves_dirs tx_root (st_dirs _ tx_store) /\ wf_tree tx_root /\ StronglySorted instant_le (t_commits tx_table)
  /\ exists c' ss, get_file_slices unit string tx_cast tx_cmp tx_local tx_store tx_table tx_filters [] c' (Ok ss)
     /\ map (fun s => base_file_name (fs_base s)) ss = ["f1_0-7-8_20240103000000000.parquet"; "f2_0-1-3_20240102000000000.parquet"].
Proof. split; [exact (tree_serves tx_root tx_wf)|]. split; [exact tx_wf|]. split; [exact tx_sorted|exact tx_query]. Qed.

(** C25 is false: the base file of a writer that never committed is shown once a later commit exists. *)
Theorem C25_uncommitted_refuted : exists names st tb c' ss s,
  new_timeline tx_local (fun l => l) "utc" names = Ok (t_commits tb)
  /\ get_file_slices unit string tx_cast tx_cmp tx_local st tb tx_filters [] c' (Ok ss)
  /\ In s ss /\ In (bf_commit (fs_base s) ++ ".inflight") names
  /\ forall i, In i (t_commits tb) -> i_timestamp i <> bf_commit (fs_base s).
Proof.
  destruct tx_query as [c' [ss [Q E]]]. exists tx_names, tx_store, tx_table, c', ss.
  destruct ss as [|a [|s [|]]]; try discriminate. injection E as _ E. exists s. split; [exact tx_loaded|]. split; [exact Q|].
  split; [right; left; reflexivity|]. assert (C : bf_commit (fs_base s) = "20240102000000000").
  { inversion Q as [|c0 c1 t r Ht Q1]; subst. inversion Q1 as [|c2 c3 fs r Hf Q2]; subst. injection Hf as <-. injection Ht as <-.
    destruct (as_of_snapshot unit string tx_cast tx_cmp tx_local tx_store tx_table tx_root (tree_serves tx_root tx_wf) tx_wf tx_sorted
      [] c' "20240103000000000" tx_filters [a; s] (va_new _ _ _ _ _ _ _) Q1) as [fs [tz [dt [ps [h [u [f [pt [_ [_ [_ [P1 [_ [_ [P2 [P3 P4]]]]]]]]]]]]]]]].
    injection P1 as <-. injection P2 as <-. injection P3 as <-.
    assert (W : wf_fields [("year", tt); ("day", tt)]).
    { split; [repeat constructor; cbn; intuition discriminate|]. intros n [ <- |[ <- |[]]]; split; [reflexivity|split; reflexivity|reflexivity|split; reflexivity]. }
    destruct (P4 W) as [S1 _]. destruct (S1 s (or_intror (or_introl eq_refl))) as [listed [_ [Hl [[m [b [B1 [B2 [B3 [B4 [B5 _]]]]]]] _]]]].
    rewrite B5. rewrite B4 in E. clear - Hl B1 E. cbn [st_files tx_store] in Hl. destruct B1 as [B1 [_ [_ B2]]].
    destruct (String.eqb (fs_partition s) tx_day); injection Hl as <-; [|elim B1].
    repeat (destruct B1 as [ <- |B1]; [vm_compute in B2; try discriminate; injection B2 as <-; vm_compute in E |- *; congruence|]). elim B1. }
  rewrite C. split; [vm_compute; tauto|]. intros i [ <- |[ <- |[]]]; discriminate.
Qed.
Print Assumptions C25_uncommitted_refuted.
(** What holds: no base file after the query time is shown, so unfinished writers of later instants are
    invisible, and everything is committed if the writers of earlier instants have committed (or their
    files have been removed). *)
Theorem C25_committed_partial : forall dtype value cast cmp local_to_utc (st : store dtype) tb root,
  serves_dirs root (st_dirs _ st) -> wf_tree root -> StronglySorted instant_le (t_commits tb) ->
  forall c c' t filters ss fields format, view_after dtype value cast cmp local_to_utc st tb c ->
  get_file_slices_as_of dtype value cast cmp local_to_utc st tb t filters c c' (Ok ss) ->
  get_partition_schema dtype st tb = Ok fields -> wf_fields fields -> base_format (t_configs tb) = Ok format ->
  (forall p listed m b, st_files _ st p = Ok listed -> base_listed format listed m b -> sle (bf_commit b) t ->
     exists i, In i (t_commits tb) /\ i_timestamp i = bf_commit b) ->
  forall s, In s ss -> sle (bf_commit (fs_base s)) t /\ exists i, In i (t_commits tb) /\ i_timestamp i = bf_commit (fs_base s).
Proof. exact committed_shown. Qed.
Print Assumptions C25_committed_partial.

(** C26 *)
Theorem C26_splits_as_of : forall dtype value cast cmp local_to_utc (st : store dtype) tb n t filters c c' r,
  get_file_slices_splits_as_of dtype value cast cmp local_to_utc st tb n t filters c c' r ->
  exists whole, get_file_slices_as_of dtype value cast cmp local_to_utc st tb t filters c c' whole /\
  match whole with Ok ss => exists parts, r = Ok parts /\ split_into n ss parts | Err e => r = Err e | Panic => r = Panic end.
Proof. exact splits_of_query. Qed.
Print Assumptions C26_splits_as_of.
Theorem C26_splits : forall dtype value cast cmp local_to_utc (st : store dtype) tb n filters c c' r,
  get_file_slices_splits dtype value cast cmp local_to_utc st tb n filters c c' r ->
  exists whole, get_file_slices dtype value cast cmp local_to_utc st tb filters c c' whole /\
  match whole with Ok ss => exists parts, r = Ok parts /\ split_into n ss parts | Err e => r = Err e | Panic => r = Panic end.
Proof. exact splits_of_latest. Qed.
Print Assumptions C26_splits.
Example C26_case : (exists c' r, get_file_slices_splits unit string tx_cast tx_cmp tx_local tx_store tx_table 0 tx_filters [] c' (Ok [r]) /\ List.length r = 2%nat)
  /\ forall ss : list file_slice, List.length ss = 5%nat ->
       exists a b c d e, ss = [a; b; c; d; e] /\ splits 3 ss = Ok [[a; b]; [c; d]; [e]] /\ splits 4 ss = Ok [[a; b]; [c; d]; [e]] /\ splits 9 ss = Ok [[a]; [b]; [c]; [d]; [e]].
Proof.
  split.
  - destruct tx_query as [c' [ss [Q E]]]. exists c', ss. split; [|now rewrite <- (map_length (fun s => base_file_name (fs_base s))), E].
    inversion Q as [? Ht|c0 c1 t r Ht Q1]; subst; [discriminate Ht|]. assert (X : forall o, o = splits 0 ss -> get_file_slices_splits unit string tx_cast tx_cmp tx_local tx_store tx_table 0 tx_filters [] c' o).
    { intros o ->. eapply gl_some; [exact Ht|]. exact (gp_one _ _ _ _ _ _ _ 0 _ _ _ _ _ Q1). }
    apply X. destruct ss as [|a [|s [|]]]; try discriminate. reflexivity.
  - intros ss H. do 5 (destruct ss as [|? ss]; [discriminate|]). destruct ss; [|discriminate]. repeat eexists.
Qed.

(** C55: whatever later writers add, a query as of [t] shows the same base files; log files are only added
    (their records after [t] are left out when the slice is read, C36). *)
Theorem C55_time_travel_stable : forall dtype value cast cmp local_to_utc (st st' : store dtype) tb tb' root root' c c1 c' c1' t filters ss ss' format partitioned tz time,
  serves_dirs root (st_dirs _ st) -> wf_tree root -> StronglySorted instant_le (t_commits tb) ->
  serves_dirs root' (st_dirs _ st') -> wf_tree root' -> StronglySorted instant_le (t_commits tb') ->
  view_after dtype value cast cmp local_to_utc st tb c -> get_file_slices_as_of dtype value cast cmp local_to_utc st tb t filters c c1 (Ok ss) ->
  view_after dtype value cast cmp local_to_utc st' tb' c' -> get_file_slices_as_of dtype value cast cmp local_to_utc st' tb' t filters c' c1' (Ok ss') ->
  t_configs tb' = t_configs tb -> get_partition_schema dtype st' tb' = get_partition_schema dtype st tb ->
  base_format (t_configs tb) = Ok format -> is_table_partitioned (t_configs tb) = Ok partitioned ->
  timeline_timezone (t_configs tb) = Ok tz -> parse_datetime local_to_utc t tz = Ok time ->
  later_commits (epoch_millis time) (st_json _ st) (st_json _ st') (t_commits tb) (t_commits tb') ->
  (forall p, table_partition partitioned root p -> table_partition partitioned root' p) ->
  (forall p l l', table_partition partitioned root p -> st_files _ st p = Ok l -> st_files _ st' p = Ok l' -> later_files format t l l') ->
  (forall p, table_partition partitioned root' p -> table_partition partitioned root p
     \/ forall l' m b, st_files _ st' p = Ok l' -> base_listed format l' m b -> slt t (bf_commit b)) ->
  (forall p n, shows_base ss p n <-> shows_base ss' p n)
  /\ forall s, In s ss -> exists s', In s' ss' /\ fs_partition s' = fs_partition s /\ base_file_name (fs_base s') = base_file_name (fs_base s)
       /\ forall v w, (exists l, In l (fs_logs s) /\ lf_version l = v /\ lf_write_token l = w) -> exists l, In l (fs_logs s') /\ lf_version l = v /\ lf_write_token l = w.
Proof. exact time_travel_stable. Qed.
Print Assumptions C55_time_travel_stable.
Example C55_case : exists c1 ss c1' ss',
  get_file_slices_as_of unit string tx_cast tx_cmp tx_local tx_store tx_table "20240103000000000" tx_filters [] c1 (Ok ss)
  /\ get_file_slices_as_of unit string tx_cast tx_cmp tx_local tx_store' tx_table' "20240103000000000" tx_filters [] c1' (Ok ss')
  /\ ss <> ss' /\ forall p n, shows_base ss p n <-> shows_base ss' p n.
Proof.
  destruct tx_query as [c1 [ss [Q E]]]. destruct tx_query' as [c1' [ss' [Q' [E' N]]]]. exists c1, ss, c1', ss'.
  inversion Q as [? Ht|c0 c2 t r Ht Q1]; subst; [discriminate Ht|]. injection Ht as <-. split; [exact Q1|]. split; [exact Q'|]. split.
  - intros X. subst ss'. destruct ss as [|a [|s [|]]]; try discriminate. injection N as N _.
    destruct (as_of_inv unit string tx_cast tx_cmp tx_local tx_store tx_table tx_root (tree_serves tx_root tx_wf) tx_wf tx_sorted _ _ _ _ _ (va_new _ _ _ _ _ _ _) Q1)
      as [fs [q [tz [dt [ps [h [u [pr [f [pt [_ [_ [_ [_ [_ [_ [_ [P2 [P3 [P4 [_ [_ [S1 _]]]]]]]]]]]]]]]]]]]]]]].
    injection P2 as <-. injection P3 as <-. destruct (S1 a (or_introl eq_refl)) as [p [listed [_ [Hl [[m [b [B1 [B2 [B3 [B4 [B5 [_ [_ B6]]]]]]]]] _]]]]].
    destruct (fs_logs a) as [|l ls] eqn:El; [discriminate|].
    destruct (proj1 (proj1 B6 (lf_version l) (lf_write_token l)) (ex_intro _ l (conj (or_introl eq_refl) (conj eq_refl eq_refl)))) as [m' [x [[X1 [_ [_ X2]]] [X3 [X4 _]]]]].
    injection E as E _. rewrite B4 in E. cbn [st_files tx_store] in Hl. destruct (String.eqb p tx_day); injection Hl as <-; [|elim X1].
    destruct B1 as [B1 [_ [_ B7]]].
    repeat (destruct B1 as [ <- |B1]; [vm_compute in B7; try discriminate; injection B7 as <-; vm_compute in E; try discriminate|]); [|elim B1].
    repeat (destruct X1 as [ <- |X1]; [vm_compute in X2; try discriminate; injection X2 as <-; vm_compute in X4; try discriminate|]). elim X1.
  - refine (proj1 (C55_time_travel_stable unit string tx_cast tx_cmp tx_local tx_store tx_store' tx_table tx_table' tx_root tx_root
      [] c1 [] c1' "20240103000000000" tx_filters ss ss' "parquet" true "utc" _ (tree_serves tx_root tx_wf) tx_wf tx_sorted (tree_serves tx_root tx_wf) tx_wf tx_sorted'
      (va_new _ _ _ _ _ _ _) Q1 (va_new _ _ _ _ _ _ _) Q' eq_refl eq_refl eq_refl eq_refl eq_refl eq_refl (proj2 tx_later) _ _ _)).
    + auto.
    + intros p l l' _ H H'. cbn [st_files tx_store tx_store'] in H, H'. destruct (String.eqb p tx_day); injection H as <-; injection H' as <-; [exact (proj1 tx_later)|].
      split; [apply incl_refl|]. split; [intros ? ? [[] _]|intros ? ? ? ? [[] _]].
    + auto.
Qed.

(** C56: the slices changed in a window. *)
Theorem C56_changed_slices_partial : forall dtype local_to_utc (st : store dtype) tb order, (forall n l, Permutation l (order n l)) ->
  StronglySorted instant_le (t_commits tb) ->
  forall start stop e ss, window_end (t_commits tb) stop e ->
  get_file_slices_between dtype local_to_utc st tb order start stop = Ok ss ->
  exists tz from until, timeline_timezone (t_configs tb) = Ok tz
  /\ parse_datetime local_to_utc (match start with Some s => s | None => "19700101000000000" end) tz = Ok from
  /\ parse_datetime local_to_utc e tz = Ok until
  /\ ((forall i md, commit_in (st_json _ st) (t_commits tb) (Some (epoch_millis from)) (Some (epoch_millis until)) i md -> unique_stats md) ->
      changed_slices (st_json _ st) (t_commits tb) (epoch_millis from) (epoch_millis until) e ss).
Proof. exact changed_exact. Qed.
Print Assumptions C56_changed_slices_partial.
Example C56_case : exists ss, get_file_slices_between unit tx_local tx_store' tx_table' (fun _ l => rev l) (Some "20240102000000000") None = Ok ss
  /\ map (fun s => base_file_name (fs_base s)) ss = ["f9_0-9-8_20240105000000000.parquet"; "f1_0-9-9_20240105000000000.parquet"]
  /\ unique_stats tx_md1 /\ unique_stats tx_md3 /\ unique_stats tx_md5.
Proof.
  eexists. split; [vm_compute; reflexivity|]. split; [vm_compute; reflexivity|]. split; [|split].
  all: intros p s1 s2 id [o1 [l1 [A1 [A2 A3]]]] [o2 [l2 [B1 [B2 B3]]]] F1 F2.
  all: injection A1 as <-; injection B1 as <-; destruct A2 as [A2|[]]; destruct B2 as [B2|[]]; injection A2 as <- <-; injection B2 as <-.
  all: unfold stat_file_id in *; repeat (destruct A3 as [ <- |A3]; [|]); try elim A3; repeat (destruct B3 as [ <- |B3]; [|]); try elim B3; try reflexivity.
  all: cbn in F1, F2; congruence.
Qed.

(** C57 is false: once the latest commit has written no file (an empty batch, a delete of no rows) every
    snapshot query fails, because the schema is taken from the first file of that commit. *)
Theorem C57_idle_commit_refuted : exists st tb i,
  t_commits tb = (t_commits tx_table ++ [i])%list /\ t_configs tb = t_configs tx_table /\ st_files _ st = st_files _ tx_store
  /\ (forall j, In j (t_commits tx_table) -> st_json _ st (".hoodie/" ++ file_name j) = st_json _ tx_store (".hoodie/" ++ file_name j))
  /\ (exists c' ss, get_file_slices unit string tx_cast tx_cmp tx_local tx_store tx_table tx_filters [] c' (Ok ss))
  /\ forall filters c c' r, get_file_slices unit string tx_cast tx_cmp tx_local st tb filters c c' r -> forall ss, r <> Ok ss.
Proof.
  exists tx_idle_store, tx_idle_table, tx_i6. split; [reflexivity|]. split; [reflexivity|]. split; [reflexivity|].
  split; [intros j [ <- |[ <- |[]]]; reflexivity|]. split; [destruct tx_query as [c' [ss [Q _]]]; eauto|].
  apply (unplannable unit string tx_cast tx_cmp tx_local tx_idle_store tx_idle_table tx_i6 [("partitionToWriteStats", JObj [])] eq_refl eq_refl).
  intros p stat [obj [stats [E [H _]]]]. injection E as <-. elim H.
Qed.
Print Assumptions C57_idle_commit_refuted.
Theorem C57_idle_commit_general : forall dtype value cast cmp local_to_utc (st : store dtype) tb i md,
  last_opt (t_commits tb) = Some i -> st_json _ st (".hoodie/" ++ file_name i) = Ok md -> writes_nothing md ->
  forall filters c c' r, get_file_slices dtype value cast cmp local_to_utc st tb filters c c' r -> forall ss, r <> Ok ss.
Proof. exact unplannable. Qed.
Print Assumptions C57_idle_commit_general.
(** What holds: nothing but these conditions can stop a query before it lists the storage - the time can be
    parsed, the replacecommits can be read, the latest commit names a parquet file with a readable schema,
    the naming flags are configured, the filters are on partition columns with values of their type. *)
Theorem C57_queries_planned_partial : forall dtype value cast cmp local_to_utc (st : store dtype) tb t tz time i md path sch fields hive url filters,
  StronglySorted instant_le (t_commits tb) ->
  timeline_timezone (t_configs tb) = Ok tz -> parse_datetime local_to_utc t tz = Ok time ->
  (forall i, In i (t_commits tb) -> i_state i = Completed -> i_action i = ReplaceCommit -> (i_epoch i <= epoch_millis time)%Z ->
     exists md, st_json _ st (".hoodie/" ++ file_name i) = Ok md /\ replace_metadata_ok md) ->
  last_opt (t_commits tb) = Some i -> st_json _ st (".hoodie/" ++ file_name i) = Ok md -> names_schema_file md path -> st_schema _ st path = Ok sch ->
  partition_fields (t_configs tb) = Ok fields -> hive_flag tb = Ok hive -> url_flag tb = Ok url ->
  (forall f, In f filters -> exists ty v, In (fe_field f, ty) sch /\ In (fe_field f) fields
     /\ (forall ty', In (fe_field f, ty') sch -> ty' = ty) /\ cast ty (fe_value f) = Some v) ->
  exists q, plan dtype value cast cmp local_to_utc st tb t filters = Ok q.
Proof. exact plannable. Qed.
Print Assumptions C57_queries_planned_partial.
Example C57_case : exists q, plan unit string tx_cast tx_cmp tx_local tx_store tx_table "20240103000000000" [{| fe_field := "day"; fe_op := OEq; fe_value := "1" |}] = Ok q.
Proof.
  apply (C57_queries_planned_partial unit string tx_cast tx_cmp tx_local tx_store tx_table "20240103000000000" "utc"
    {| nd_days := 19725; nd_secs := 0; nd_nanos := 0 |} tx_i3 tx_md3 "year=2024/day=1/f1_0-7-8_20240103000000000.parquet"
    [("id", tt); ("year", tt); ("day", tt)] ["year"; "day"] true false).
  - exact tx_sorted.
  - reflexivity.
  - vm_compute. reflexivity.
  - intros i [ <- |[ <- |[]]] _ E _; [discriminate|]. exists tx_md3. split; [reflexivity|].
    exists [(tx_day, JArr [JStr "f4"])]. split; [reflexivity|]. intros p v [[= <- <-]|[]]. exists ["f4"]. reflexivity.
  - reflexivity.
  - reflexivity.
  - exists tx_day. eexists. exists [], []. eexists. split; [reflexivity|]. split; [reflexivity|]. left. split; [now exists "year=2024/day=1/f1_0-7-8_20240103000000000"|reflexivity].
  - reflexivity.
  - reflexivity.
  - reflexivity.
  - reflexivity.
  - intros f [ <- |[]]. exists tt, "1". split; [cbn; tauto|]. split; [cbn; tauto|]. split; [intros []; reflexivity|reflexivity].
Qed.

(** C61: a query without a time is the query as of the last completed commit: the same slices, splits and
    records, from the same filters.  (C01: the commits are in order, so the last one is the newest.) *)
Theorem C61_latest_is_as_of : forall dtype value cast cmp avro_schema avro_value parse_schema datum check_schema to_batch parquet local_to_utc
    (st : store dtype) tb before i, t_commits tb = (before ++ [i])%list -> forall c c' filters,
  (forall r, get_file_slices dtype value cast cmp local_to_utc st tb filters c c' r
     <-> get_file_slices_as_of dtype value cast cmp local_to_utc st tb (i_timestamp i) filters c c' r)
  /\ (forall n r, get_file_slices_splits dtype value cast cmp local_to_utc st tb n filters c c' r
     <-> get_file_slices_splits_as_of dtype value cast cmp local_to_utc st tb n (i_timestamp i) filters c c' r)
  /\ (forall r, read_snapshot dtype value cast cmp avro_schema avro_value parse_schema datum check_schema to_batch parquet local_to_utc st tb filters c c' r
     <-> read_snapshot_as_of dtype value cast cmp avro_schema avro_value parse_schema datum check_schema to_batch parquet local_to_utc st tb (i_timestamp i) filters c c' r).
Proof. exact latest_is_as_of. Qed.
Print Assumptions C61_latest_is_as_of.
Example C61_case : exists before i, t_commits tx_table = (before ++ [i])%list /\ i_timestamp i = "20240103000000000"
  /\ exists c' ss, get_file_slices unit string tx_cast tx_cmp tx_local tx_store tx_table tx_filters [] c' (Ok ss) /\ ss <> [].
Proof.
  exists (removelast (t_commits tx_table)). eexists. split; [reflexivity|]. split; [reflexivity|].
  destruct tx_query as [c' [ss [Q E]]]. exists c', ss. split; [exact Q|]. now intros ->.
Qed.
