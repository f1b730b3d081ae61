(** Tables that stay open while their storage changes: C68. *)
From Coq Require Import Sorted.
From Verif Require Import Base Str M_Time M_Instant M_Timeline M_FileGroup M_Builder M_Listing M_Expr M_Log M_Config M_Reader M_Table M_Session
  S_Time S_Timeline S_FileGroup S_Builder S_Listing S_Expr S_Log S_Reader S_Config S_Table S_History S_Session
  L_Tree L_Table L_History L_Records L_Session L_Scan E_Scan E_Session.
Local Open Scope string_scope.

(** C68: a table is opened, queried, and the storage changes in between, any number of times; partition
    directories are added, not removed.  Then every answer of the open table is one that a view without
    any history gives on the storage of now, with the timeline of the open table. *)
Theorem C68_as_new_partial : forall dtype value cast cmp avro_schema avro_value parse_schema datum check_schema to_batch parquet local_to_utc tb
    (st : store dtype) c root, serves_dirs root (st_dirs _ st) -> wf_tree root ->
  opened dtype value cast cmp local_to_utc tb
    (fun st st' => is_table_partitioned (t_configs tb) = Ok true -> partitions_kept (st_dirs _ st) (st_dirs _ st')) st c ->
  (forall t filters c' r, get_file_slices_as_of dtype value cast cmp local_to_utc st tb t filters c c' r ->
     exists c'', get_file_slices_as_of dtype value cast cmp local_to_utc st tb t filters [] c'' r)
  /\ (forall filters c' r, get_file_slices dtype value cast cmp local_to_utc st tb filters c c' r ->
        exists c'', get_file_slices dtype value cast cmp local_to_utc st tb filters [] c'' r)
  /\ (forall n t filters c' r, get_file_slices_splits_as_of dtype value cast cmp local_to_utc st tb n t filters c c' r ->
        exists c'', get_file_slices_splits_as_of dtype value cast cmp local_to_utc st tb n t filters [] c'' r)
  /\ (forall n filters c' r, get_file_slices_splits dtype value cast cmp local_to_utc st tb n filters c c' r ->
        exists c'', get_file_slices_splits dtype value cast cmp local_to_utc st tb n filters [] c'' r)
  /\ (forall t filters c' r, read_snapshot_as_of dtype value cast cmp avro_schema avro_value parse_schema datum check_schema to_batch parquet local_to_utc st tb t filters c c' r ->
        exists c'', read_snapshot_as_of dtype value cast cmp avro_schema avro_value parse_schema datum check_schema to_batch parquet local_to_utc st tb t filters [] c'' r)
  /\ (forall filters c' r, read_snapshot dtype value cast cmp avro_schema avro_value parse_schema datum check_schema to_batch parquet local_to_utc st tb filters c c' r ->
        exists c'', read_snapshot dtype value cast cmp avro_schema avro_value parse_schema datum check_schema to_batch parquet local_to_utc st tb filters [] c'' r).
Proof. exact open_as_new. Qed.
Print Assumptions C68_as_new_partial.

(** What the open table shows does not move with later writes: its latest snapshot has the base files
    that it had when the table was opened. *)
Theorem C68_latest_stable_partial : forall dtype value cast cmp local_to_utc tb (st st' : store dtype) root root' c c1 c' filters ss ss' t format partitioned tz time,
  serves_dirs root (st_dirs _ st) -> wf_tree root -> serves_dirs root' (st_dirs _ st') -> wf_tree root' -> StronglySorted instant_le (t_commits tb) ->
  get_file_slices dtype value cast cmp local_to_utc st tb filters [] c (Ok ss) ->
  opened dtype value cast cmp local_to_utc tb
    (fun st st' => is_table_partitioned (t_configs tb) = Ok true -> partitions_kept (st_dirs _ st) (st_dirs _ st')) st' c1 ->
  get_file_slices dtype value cast cmp local_to_utc st' tb filters c1 c' (Ok ss') ->
  latest_commit_timestamp (t_commits tb) = Some t ->
  get_partition_schema dtype st' tb = get_partition_schema dtype st tb ->
  base_format (t_configs tb) = Ok format -> is_table_partitioned (t_configs tb) = Ok partitioned ->
  timeline_timezone (t_configs tb) = Ok tz -> parse_datetime local_to_utc t tz = Ok time ->
  (forall i, In i (t_commits tb) -> st_json _ st' (".hoodie/" ++ file_name i) = st_json _ st (".hoodie/" ++ file_name i)) ->
  (forall p, table_partition partitioned root p -> table_partition partitioned root' p) ->
  (forall p l l', table_partition partitioned root p -> st_files _ st p = Ok l -> st_files _ st' p = Ok l' -> later_files format t l l') ->
  (forall p, table_partition partitioned root' p -> table_partition partitioned root p
     \/ forall l' m b, st_files _ st' p = Ok l' -> base_listed format l' m b -> slt t (bf_commit b)) ->
  forall p n, shows_base ss p n <-> shows_base ss' p n.
Proof.
  intros dtype value cast cmp L tb st st' root root' c c1 c' filters ss ss' t format pt tz time S W S' W' So Q O Q' Et Es Ef Ep Ez Ed Ej R1 R2 R3.
  inversion Q as [? N|? ? t1 ? N A]; subst; rewrite Et in N; [discriminate|]. injection N as <-.
  inversion Q' as [? N|? ? t1 ? N A']; subst; rewrite Et in N; [discriminate|]. injection N as <-.
  destruct (as_of_as_new dtype value cast cmp L tb st' c1 root' S' W' O t filters _ _ A') as [c'' A''].
  refine (proj1 (time_travel_stable dtype value cast cmp L st st' tb tb root root' [] c [] c'' t filters ss ss' format pt tz time
    S W So S' W' So (va_new _ _ _ _ _ _ _) A (va_new _ _ _ _ _ _ _) A'' eq_refl Es Ef Ep Ez Ed _ R1 R2 R3)).
  split; [apply incl_refl|]. split; [now left|exact Ej].
Qed.
Print Assumptions C68_latest_stable_partial.
Fact slices_of_latest : forall c ss filters, get_file_slices unit string sx_cast sx_cmp sx_local sx_store sx_table filters [] c (Ok ss) ->
  exists fs, slices_at unit string sx_cast sx_cmp sx_local sx_store sx_table sx_t fs [] c (Ok ss).
Proof.
  intros c ss filters Q. inversion Q as [? N|? ? t ? N A]; [discriminate N|]. vm_compute in N. injection N as <-.
  inversion A as [|? ? fs ? F B]. now exists fs.
Qed.
Example C68_case : exists c c' ss,
  get_file_slices unit string sx_cast sx_cmp sx_local sx_store sx_table [] [] c (Ok [sx_slice1; sx_slice2])
  /\ opened unit string sx_cast sx_cmp sx_local sx_table
       (fun st st' => is_table_partitioned (t_configs sx_table) = Ok true -> partitions_kept (st_dirs _ st) (st_dirs _ st')) nx_grown c
  /\ get_file_slices unit string sx_cast sx_cmp sx_local nx_grown sx_table [] c c' (Ok ss)
  /\ Permutation ss [sx_slice1; sx_slice2]
  /\ forall p n, shows_base [sx_slice1; sx_slice2] p n <-> shows_base ss p n.
Proof.
  destruct nx_grows as [c [c' [ss [Q [Q' P]]]]]. exists c, c', ss.
  assert (O : opened unit string sx_cast sx_cmp sx_local sx_table
       (fun st st' => is_table_partitioned (t_configs sx_table) = Ok true -> partitions_kept (st_dirs _ st) (st_dirs _ st')) nx_grown c).
  { eapply op_change with (st := sx_store); [|intros _; exact nx_kept].
    unfold nx_asks in Q. destruct (slices_of_latest _ _ _ Q) as [fs B].
    eapply op_query; [apply op_new|exact B]. }
  split; [exact Q|]. split; [exact O|]. split; [exact Q'|]. split; [exact P|].
  destruct nx_partitions as [P1 [P2 _]].
  refine (C68_latest_stable_partial unit string sx_cast sx_cmp sx_local sx_table sx_store nx_grown sx_root nx_grown_root c c c' [] _ ss sx_t "parquet" true "utc" _
    (tree_serves _ sx_wf) sx_wf (tree_serves _ nx_grown_wf) nx_grown_wf _ Q _ Q' eq_refl eq_refl eq_refl eq_refl eq_refl eq_refl (fun _ _ => eq_refl) _ _ _).
  - repeat constructor.
  - exact O.
  - intros p H. apply P2. apply P1 in H. tauto.
  - intros p l l' H E E'. apply P1 in H as [ -> | -> ]; cbn in E, E'; injection E as <-; injection E' as <-; (split; [intros x Hx; cbn in *; tauto|]); split.
    + intros m b [H _]. now left.
    + intros m1 b1 m2 b2 [[ <- |[]] _] [[ <- |[]] _] _ _. reflexivity.
    + intros m b [[ <- |[ <- |[]]] [_ [_ H]]]; [left; now left|right]. vm_compute in H. injection H as <-. reflexivity.
    + intros m1 b1 m2 b2 [[ <- |[ <- |[]]] [_ [_ H1]]] [[ <- |[ <- |[]]] [_ [_ H2]]] E _; vm_compute in H1, H2; injection H1 as <-; injection H2 as <-; (reflexivity || discriminate).
  - intros p H. apply P2 in H as [ -> |[ -> | -> ]]; [left; apply P1; tauto| |left; apply P1; tauto]. right.
    intros l' m b E [H [_ [_ H1]]]. cbn in E. injection E as <-. destruct H as [ <- |[]]. vm_compute in H1. injection H1 as <-. reflexivity.
Qed.

(** It is not so when a partition directory is removed (dropped, or cleaned up): the open table goes on to
    show its file slices, whose files are gone, while a new view of the same storage does not. *)
Theorem C68_removed_partition_refuted : exists tb (st st' : store unit) root' c c' before ss s,
  serves_dirs root' (st_dirs _ st') /\ wf_tree root'
  /\ get_file_slices unit string sx_cast sx_cmp sx_local st tb [] [] c (Ok before)
  /\ get_file_slices unit string sx_cast sx_cmp sx_local st' tb [] c c' (Ok ss)
  /\ In s ss /\ ~ partition_dir root' (fs_partition s)
  /\ st_files _ st' (fs_partition s) = Ok [] /\ st_parquet _ st' (base_relative_path s) = Err EStorage
  /\ forall c0 c1 ss', view_after unit string sx_cast sx_cmp sx_local st' tb c0 ->
       get_file_slices unit string sx_cast sx_cmp sx_local st' tb [] c0 c1 (Ok ss') -> ~ In s ss'.
Proof.
  destruct nx_stale as [c [c' [ss [Q [Q' I]]]]]. exists sx_table, sx_store, nx_shrunk, nx_shrunk_root, c, c', [sx_slice1; sx_slice2], ss, sx_slice2.
  split; [apply tree_serves, nx_shrunk_wf|]. split; [exact nx_shrunk_wf|]. split; [exact Q|]. split; [exact Q'|]. split; [exact I|].
  split; [intros H; apply (proj2 (proj2 nx_partitions)) in H; discriminate|]. split; [reflexivity|]. split; [reflexivity|].
  intros c0 c1 ss' A G X. inversion G as [? E|? ? t ? E H]; subst; vm_compute in E; [discriminate|]. injection E as <-.
  destruct (answer_expected unit string sx_cast sx_cmp sx_local nx_shrunk sx_table nx_shrunk_root (tree_serves _ nx_shrunk_wf) nx_shrunk_wf _ _ _ _ _ A H) as [fs [q [pt [format [ss0 [F1 [F2 [F3 [F4 [F5 F6]]]]]]]]]].
  cbn in F1. injection F1 as <-. vm_compute in F2. injection F2 as <-. vm_compute in F3. injection F3 as <-. vm_compute in F4. injection F4 as <-. vm_compute in F5. injection F5 as <-.
  apply (Permutation_in _ F6) in X. destruct X as [X|[]]. discriminate.
Qed.
Print Assumptions C68_removed_partition_refuted.
