(** The records of snapshot reads: C52 (complete and current), C55 (stable), C58 (only the versions matter). *)
From Coq Require Import Sorted.
From Verif Require Import Base Str M_Time M_Instant M_FileGroup M_Listing M_Expr M_Log M_Config M_Reader M_Table
  S_Time S_Timeline S_FileGroup S_Listing S_Expr S_Log S_Reader S_Config S_Table S_History L_Tree L_History L_Records E_History.
Local Open Scope string_scope.

(** C52: a snapshot read as of [t] returns a batch for every file slice, in order, with exactly the newest
    version, among those committed at or before [t], of every key of the file group.  The histories are the
    sequences of commits, deltacommits, compactions, failed deltacommits and rollbacks; the failed writes up
    to [t] must be rolled back by then.  (C24: there is a slice for every file group.) *)
Theorem C52_snapshot_records_partial : forall dtype value cast cmp avro_schema avro_value parse_schema datum check_schema to_batch parquet local_to_utc
    (st : store dtype) tb sch p s k, merging_table tb sch p s k ->
  forall root, serves_dirs root (st_dirs _ st) -> wf_tree root -> StronglySorted instant_le (t_commits tb) ->
  forall c c' t filters batches format, view_after dtype value cast cmp local_to_utc st tb c -> base_format (t_configs tb) = Ok format -> timestamp t ->
  read_snapshot_as_of dtype value cast cmp avro_schema avro_value parse_schema datum check_schema to_batch parquet local_to_utc st tb t filters c c' (Ok batches) ->
  exists ss, get_file_slices_as_of dtype value cast cmp local_to_utc st tb t filters c c' (Ok ss)
    /\ Forall2 (fun slice batch => forall now g listed contents, history k p s now g -> clean_at g t ->
         st_files _ st (fs_partition slice) = Ok listed ->
         laid_out avro_schema avro_value parse_schema datum check_schema to_batch parquet (st_parquet _ st) (st_bytes _ st)
           format (fs_partition slice) (bf_file_id (fs_base slice)) sch listed contents g ->
         rb_fields batch = sch /\ current_at k p s g t (rb_rows batch)) ss batches.
Proof. exact snapshot_records. Qed.
Print Assumptions C52_snapshot_records_partial.
(** ... and when every slice is of such a file group the records are read without error. *)
Theorem C52_reads_succeed : forall dtype value cast cmp avro_schema avro_value parse_schema datum check_schema to_batch parquet local_to_utc
    (st : store dtype) tb sch p s k, merging_table tb sch p s k ->
  forall root, serves_dirs root (st_dirs _ st) -> wf_tree root -> StronglySorted instant_le (t_commits tb) ->
  (forall t, readers_open st tb [("hoodie.read.file_group.end_timestamp", t)]) ->
  forall c c' t filters ss format, view_after dtype value cast cmp local_to_utc st tb c -> base_format (t_configs tb) = Ok format -> timestamp t ->
  get_file_slices_as_of dtype value cast cmp local_to_utc st tb t filters c c' (Ok ss) ->
  (forall slice listed, In slice ss -> st_files _ st (fs_partition slice) = Ok listed ->
     exists now g contents, history k p s now g /\ clean_at g t
       /\ laid_out avro_schema avro_value parse_schema datum check_schema to_batch parquet (st_parquet _ st) (st_bytes _ st)
            format (fs_partition slice) (bf_file_id (fs_base slice)) sch listed contents g) ->
  forall r, read_slices dtype avro_schema avro_value parse_schema datum check_schema to_batch parquet local_to_utc st tb [("hoodie.read.file_group.end_timestamp", t)] ss r ->
  exists batches, r = Ok batches.
Proof. exact snapshot_succeeds. Qed.
Print Assumptions C52_reads_succeed.
(** The history of the example: commit a1 b1, deltacommit a2, failed deltacommit a3, its rollback, compaction, deltacommit b6. *)
Example C52_case : merging_table hx_table hx_sch 3 1 2 /\ serves_dirs (Dir hx_listed []) (st_dirs _ hx_store) /\ wf_tree (Dir hx_listed [])
  /\ StronglySorted instant_le (t_commits hx_table) /\ base_format (t_configs hx_table) = Ok "parquet"
  /\ history 2 3 1 hx_t6 hx_group /\ hx_lays "parquet" "" "f" hx_sch hx_listed hx_contents hx_group
  /\ (forall t, In t [hx_t1; hx_t2; hx_t4; hx_t5; hx_t6] -> timestamp t /\ clean_at hx_group t)
  /\ hx_reads hx_t1 [hx_b1; hx_a1] /\ hx_reads hx_t2 [hx_a2; hx_b1] /\ hx_reads hx_t4 [hx_a2; hx_b1]
  /\ hx_reads hx_t5 [hx_a2; hx_b1] /\ hx_reads hx_t6 [hx_b6; hx_a2].
Proof.
  split; [exact hx_merging|]. split; [exact (tree_serves _ hx_wf)|]. split; [exact hx_wf|]. split; [exact hx_sorted|]. split; [reflexivity|].
  split; [exact hx_history|]. split; [exact hx_laid_out|]. split; [intros t I; split; [apply hx_stamp; cbn in *; tauto|now apply hx_clean]|].
  split; [exact hx_read1|]. split; [exact hx_read2|]. split; [exact hx_read4|]. split; [exact hx_read5|exact hx_read6].
Qed.
(** Without the condition on failed writes C52 is false: as of a time between a failed write and its
    rollback the read returns rows that were never committed, also after the rollback. *)
Theorem C52_failed_write_shown_refuted : exists (st : store unit) tb now g contents listed t c' row batch,
  merging_table tb hx_sch 3 1 2 /\ history 2 3 1 now g /\ st_files _ st "" = Ok listed
  /\ laid_out unit unit (fun _ => None) (fun _ _ => None) (fun _ => Ok tt) (fun _ _ => Err EArrow) hx_decode (st_parquet _ st) (st_bytes _ st)
       "parquet" "" "f" hx_sch listed contents g
  /\ timestamp t /\ clean_at g now
  /\ read_snapshot_as_of unit string (fun _ s => Some s) (fun a b => Some (scmp a b)) unit unit (fun _ => None) (fun _ _ => None) (fun _ => Ok tt)
       (fun _ _ => Err EArrow) hx_decode hx_local st tb t [] [] c' (Ok [batch])
  /\ In row (rb_rows batch) /\ (forall x, ~ In (x, row) (g_versions g)) /\ ~ current_at 2 3 1 g t (rb_rows batch).
Proof.
  destruct hx_read3 as [c' R]. exists hx_store, hx_table, hx_t6, hx_group, hx_contents, hx_listed, hx_t3, c', hx_a3, (hx_batch [hx_a3; hx_b1]).
  split; [exact hx_merging|]. split; [exact hx_history|]. split; [reflexivity|]. split; [exact hx_laid_out|]. split; [apply hx_stamp; cbn; tauto|].
  split; [apply hx_clean; cbn; tauto|]. split; [exact R|]. split; [now left|]. assert (N : forall x, ~ In (x, hx_a3) (g_versions hx_group)).
  { intros x [E|[E|[E|[E|[]]]]]; discriminate E. }
  split; [exact N|]. intros [_ [_ C]]. destruct (C hx_a3 (or_introl eq_refl)) as [[x [I _]] _]. now apply (N x).
Qed.
Print Assumptions C52_failed_write_shown_refuted.

(** C58: only the versions matter, not how they are stored.  Two tables (or one table at two times) whose
    file groups have the same versions up to [t] - in base files, in logs, compacted or not, with any
    rolled back writes between them - return the same records as of [t]. *)
Theorem C58_layout_independent_partial : forall dtype value cast cmp avro_schema avro_value parse_schema datum check_schema to_batch parquet local_to_utc sch p s k
    (st st' : store dtype) tb tb' root root' t filters filters' format format' c c1 c' c1' batches batches',
  merging_table tb sch p s k -> serves_dirs root (st_dirs _ st) -> wf_tree root -> StronglySorted instant_le (t_commits tb) ->
  view_after dtype value cast cmp local_to_utc st tb c -> base_format (t_configs tb) = Ok format ->
  merging_table tb' sch p s k -> serves_dirs root' (st_dirs _ st') -> wf_tree root' -> StronglySorted instant_le (t_commits tb') ->
  view_after dtype value cast cmp local_to_utc st' tb' c' -> base_format (t_configs tb') = Ok format' ->
  timestamp t ->
  read_snapshot_as_of dtype value cast cmp avro_schema avro_value parse_schema datum check_schema to_batch parquet local_to_utc st tb t filters c c1 (Ok batches) ->
  read_snapshot_as_of dtype value cast cmp avro_schema avro_value parse_schema datum check_schema to_batch parquet local_to_utc st' tb' t filters' c' c1' (Ok batches') ->
  exists ss ss', get_file_slices_as_of dtype value cast cmp local_to_utc st tb t filters c c1 (Ok ss)
    /\ get_file_slices_as_of dtype value cast cmp local_to_utc st' tb' t filters' c' c1' (Ok ss')
    /\ List.length batches = List.length ss /\ List.length batches' = List.length ss'
    /\ forall i slice batch j slice' batch', nth_error ss i = Some slice -> nth_error batches i = Some batch ->
         nth_error ss' j = Some slice' -> nth_error batches' j = Some batch' ->
         forall now g listed contents now' g' listed' contents',
         history k p s now g -> clean_at g t -> st_files _ st (fs_partition slice) = Ok listed ->
         laid_out avro_schema avro_value parse_schema datum check_schema to_batch parquet (st_parquet _ st) (st_bytes _ st)
           format (fs_partition slice) (bf_file_id (fs_base slice)) sch listed contents g ->
         history k p s now' g' -> clean_at g' t -> st_files _ st' (fs_partition slice') = Ok listed' ->
         laid_out avro_schema avro_value parse_schema datum check_schema to_batch parquet (st_parquet _ st') (st_bytes _ st')
           format' (fs_partition slice') (bf_file_id (fs_base slice')) sch listed' contents' g' ->
         same_versions t g g' -> distinct_versions k p s g t ->
         Permutation (rb_rows batch) (rb_rows batch').
Proof. exact same_records. Qed.
Print Assumptions C58_layout_independent_partial.
Example C58_case : same_versions hx_t5 hx_group4 hx_group /\ distinct_versions 2 3 1 hx_group4 hx_t5 /\ g_bases hx_group4 <> g_bases hx_group.
Proof.
  split; [|split].
  - intros x r L. cbn. split; [tauto|]. intros [H|[H|[H|[H|[]]]]]; auto. injection H as <- <-. now elim L.
  - intros x a y b Ia Ib _ _ K P _. cbn in Ia, Ib.
    destruct Ia as [[= <- <-]|[[= <- <-]|[[= <- <-]|[]]]]; destruct Ib as [[= <- <-]|[[= <- <-]|[[= <- <-]|[]]]]; try reflexivity; try discriminate K; discriminate P.
  - discriminate.
Qed.

(** C55, the records: writes after [t] do not change the versions up to [t], and a file group stays free of
    unrolled failed writes up to [t]; with C58, a read as of [t] returns the same records before and after. *)
Theorem C55_versions_stable : forall k p s now g now' g' t, history k p s now g -> continues k p s now g now' g' -> sle t now ->
  history k p s now' g' /\ same_versions t g g' /\ (clean_at g t -> clean_at g' t).
Proof.
  intros k p s now g now' g' t H C L. split; [exact (continues_history k p s now g now' g' H C)|].
  split; [exact (continues_versions k p s now g now' g' t C L)|exact (continues_clean k p s now g now' g' t C L)].
Qed.
Print Assumptions C55_versions_stable.
Theorem C55_records_stable_partial : forall dtype value cast cmp avro_schema avro_value parse_schema datum check_schema to_batch parquet local_to_utc sch p s k
    (st st' : store dtype) tb tb' root root' t filters filters' format format' c c1 c' c1' batches batches',
  merging_table tb sch p s k -> serves_dirs root (st_dirs _ st) -> wf_tree root -> StronglySorted instant_le (t_commits tb) ->
  view_after dtype value cast cmp local_to_utc st tb c -> base_format (t_configs tb) = Ok format ->
  merging_table tb' sch p s k -> serves_dirs root' (st_dirs _ st') -> wf_tree root' -> StronglySorted instant_le (t_commits tb') ->
  view_after dtype value cast cmp local_to_utc st' tb' c' -> base_format (t_configs tb') = Ok format' ->
  timestamp t ->
  read_snapshot_as_of dtype value cast cmp avro_schema avro_value parse_schema datum check_schema to_batch parquet local_to_utc st tb t filters c c1 (Ok batches) ->
  read_snapshot_as_of dtype value cast cmp avro_schema avro_value parse_schema datum check_schema to_batch parquet local_to_utc st' tb' t filters' c' c1' (Ok batches') ->
  exists ss ss', get_file_slices_as_of dtype value cast cmp local_to_utc st tb t filters c c1 (Ok ss)
    /\ get_file_slices_as_of dtype value cast cmp local_to_utc st' tb' t filters' c' c1' (Ok ss')
    /\ List.length batches = List.length ss /\ List.length batches' = List.length ss'
    /\ forall i slice batch j slice' batch', nth_error ss i = Some slice -> nth_error batches i = Some batch ->
         nth_error ss' j = Some slice' -> nth_error batches' j = Some batch' ->
         forall now g listed contents now' g' listed' contents',
         history k p s now g -> sle t now -> clean_at g t -> distinct_versions k p s g t -> continues k p s now g now' g' ->
         st_files _ st (fs_partition slice) = Ok listed ->
         laid_out avro_schema avro_value parse_schema datum check_schema to_batch parquet (st_parquet _ st) (st_bytes _ st)
           format (fs_partition slice) (bf_file_id (fs_base slice)) sch listed contents g ->
         st_files _ st' (fs_partition slice') = Ok listed' ->
         laid_out avro_schema avro_value parse_schema datum check_schema to_batch parquet (st_parquet _ st') (st_bytes _ st')
           format' (fs_partition slice') (bf_file_id (fs_base slice')) sch listed' contents' g' ->
         Permutation (rb_rows batch) (rb_rows batch').
Proof. exact records_stable. Qed.
Print Assumptions C55_records_stable_partial.
Example C55_versions_case : history 2 3 1 hx_t4 hx_group4 /\ continues 2 3 1 hx_t4 hx_group4 hx_t6 hx_group /\ sle hx_t2 hx_t4 /\ clean_at hx_group4 hx_t2.
Proof.
  split; [exact hx_history4|]. split; [exact hx_continues|]. split; [discriminate|].
  intros b x rows I F L. destruct F as [ <- |[]]. now elim L.
Qed.
