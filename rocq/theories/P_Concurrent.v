(** Concurrent queries on one table object: C51, C60. *)
From Verif Require Import Base Str M_FileGroup M_Builder M_Listing M_Concurrent S_FileGroup S_Listing S_Concurrent L_Tree L_Concurrent L_Answers E_Concurrent.
Local Open Scope string_scope.

(** C51 is false: on a runtime with any number [n] of threads, [n + 1] queries of a table with a single file can come
    to a state in which nothing can happen any more and no query has been answered. *)
Theorem C51_deadlock_refuted : forall n shards shard_of, (0 < n)%nat -> (forall p, shard_of p < shards)%nat ->
  exists list_files list_dirs fetch root q s, serves_dirs root list_dirs /\ wf_tree root
    /\ (exists c' ss, view_query list_files list_dirs fetch "parquet" false 1 [] q c' (Ok ss))
    /\ let step := conc_step list_files list_dirs fetch "parquet" false 1 shards shard_of n in
       star step (conc_start (repeat (q, 1%nat) (n + 1))) s /\ stuck step s /\ forall t r, In t (c_tasks s) -> ~ has_answer t r.
Proof.
  intros n shards shard_of Pn B. destruct (cx_reach shards shard_of B n Pn) as [sh R].
  exists cx_list_files, (tree_dirs cx_root), cx_fetch, cx_root, cx_query, {| c_shards := sh; c_tasks := cx_holder shard_of Ready :: repeat cx_inserter n |}.
  split; [exact (tree_serves _ cx_wf)|]. split; [exact cx_wf|]. split.
  { eexists _, _. eapply vq_ok; [exact cx_keep_perm|exact cx_listing|apply Permutation_refl|vm_compute; reflexivity]. }
  cbn zeta. rewrite Nat.add_comm. split; [exact R|]. split; [exact (cx_stuck shards shard_of n sh)|].
  intros t r [ <- |I]; [discriminate|]. apply repeat_spec in I as -> . discriminate.
Qed.
Print Assumptions C51_deadlock_refuted.

(** Every schedule comes to an end, whatever the number of threads: a query that is never answered is in a deadlock,
    not in an endless loop. *)
Theorem C51_schedules_end : forall list_files list_dirs fetch format partitioned parallelism shards shard_of, (0 < shards)%nat ->
  let step := conc_step list_files list_dirs fetch format partitioned parallelism shards shard_of in
  forall n qs s, star (step n) (conc_start qs) s -> Acc (fun y x => step n x y) s.
Proof. intros lf ld fe fo pa pr shards shard_of P. exact (schedules_end lf ld fe fo pa pr shards shard_of P). Qed.
Print Assumptions C51_schedules_end.

(** With a thread for every query (as when every caller blocks on its own thread) all queries are answered under every
    schedule. Missing from C51: more queries than threads. *)
Theorem C51_enough_threads_partial : forall list_files list_dirs fetch format partitioned parallelism shards shard_of root,
  serves_dirs root list_dirs -> wf_tree root -> (0 < parallelism)%nat ->
  let step := conc_step list_files list_dirs fetch format partitioned parallelism shards shard_of in
  forall n qs s, (List.length qs <= n)%nat -> (forall q k, In (q, k) qs -> q_pruner_empty q = true -> forall p, q_include q p = true) ->
  star (step n) (conc_start qs) s -> stuck (step n) s -> all_answered s.
Proof. intros lf ld fe fo pa pr shards shard_of root S W P. exact (enough_threads lf ld fe fo pa pr shards shard_of root S W P). Qed.
Print Assumptions C51_enough_threads_partial.
(** The schedule of E_Concurrent: the second query waits for the first, which is interrupted with a shard locked. *)
Example C51_case : exists s t, star (cx_step 2) (conc_start [(cx_query, 1%nat); (cx_query, 1%nat)]) s
  /\ In t (c_tasks s) /\ blocked 1 (fun _ : string => 0%nat) s t.
Proof.
  destruct (cx_lock 1 (fun _ => 0%nat) ltac:(intros; cbn; lia) 2 [asked cx_query 1] ltac:(lia) eq_refl eq_refl) as [sh [_ St]].
  exists {| c_shards := sh; c_tasks := [cx_holder (fun _ => 0%nat) Waiting; cx_inserter] |}, cx_inserter.
  split; [eapply star_app; [exact St|]; exact (cx_fill 1 (fun _ => 0%nat) 2 sh 1 0 ltac:(lia))|]. split; [right; now left|].
  split; [reflexivity|]. exists 0%nat, (cx_holder (fun _ => 0%nat) Waiting). split; [reflexivity|]. split; now left.
Qed.

(** What a deadlock looks like: every thread is taken by a query waiting for a lock, and a query that holds a lock has
    been interrupted and gets no thread. *)
Theorem C51_deadlock_shape : forall list_files list_dirs fetch format partitioned parallelism shards shard_of root,
  serves_dirs root list_dirs -> wf_tree root -> (0 < parallelism)%nat ->
  let step := conc_step list_files list_dirs fetch format partitioned parallelism shards shard_of in
  forall n qs s, (0 < n)%nat -> (forall q k, In (q, k) qs -> q_pruner_empty q = true -> forall p, q_include q p = true) ->
  star (step n) (conc_start qs) s -> stuck (step n) s -> ~ all_answered s ->
  List.length (filter on_thread (c_tasks s)) = n
  /\ (forall t, In t (c_tasks s) -> on_thread t = true -> blocked shards shard_of s t)
  /\ exists t, In t (c_tasks s) /\ t_mode t = Ready /\ held t <> [].
Proof. intros lf ld fe fo pa pr shards shard_of root S W P. exact (deadlock_shape lf ld fe fo pa pr shards shard_of root S W P). Qed.
Print Assumptions C51_deadlock_shape.
(** The hypotheses are met by the deadlock above. *)
Example C51_shape_case : exists sh, star (cx_step 3) (conc_start (repeat (cx_query, 1%nat) 4)) {| c_shards := sh; c_tasks := cx_holder (fun _ => 0%nat) Ready :: repeat cx_inserter 3 |}
  /\ stuck (cx_step 3) {| c_shards := sh; c_tasks := cx_holder (fun _ => 0%nat) Ready :: repeat cx_inserter 3 |}
  /\ ~ all_answered {| c_shards := sh; c_tasks := cx_holder (fun _ => 0%nat) Ready :: repeat cx_inserter 3 |}.
Proof.
  destruct (cx_reach 1 (fun _ => 0%nat) ltac:(intros; cbn; lia) 3 ltac:(lia)) as [sh R]. exists sh. split; [exact R|].
  split; [apply cx_stuck|]. intros A. destruct (A (cx_holder (fun _ => 0%nat) Ready) (or_introl eq_refl)) as [r E]. discriminate E.
Qed.

(** C60: under every schedule, with any number of threads, an answered query has the answer that it would get alone on a
    new table object, and that answer, if not an error, is the snapshot the query asks for. *)
Theorem C60_answers_independent : forall list_files list_dirs fetch format partitioned parallelism root,
  serves_dirs root list_dirs -> wf_tree root ->
  forall shards shard_of, (forall p, shard_of p < shards)%nat ->
  let step := conc_step list_files list_dirs fetch format partitioned parallelism shards shard_of in
  forall n qs s t r, (forall q k, In (q, k) qs -> q_pruner_empty q = true -> forall p, q_include q p = true) ->
  star (step n) (conc_start qs) s -> In t (c_tasks s) -> has_answer t r ->
  (forall c' r', view_query list_files list_dirs fetch format partitioned parallelism [] (t_query t) c' r' -> same_answer r r')
  /\ forall ss, r = Ok ss -> snapshot_of list_files format partitioned root (t_query t) ss.
Proof. intros lf ld fe fo pa pr root S W shards shard_of B. exact (concurrent_answers lf ld fe fo pa pr root S W shards shard_of B). Qed.
Print Assumptions C60_answers_independent.
(** ... and the queries are those asked. *)
Theorem C60_queries_kept : forall list_files list_dirs fetch format partitioned parallelism shards shard_of n qs s,
  star (conc_step list_files list_dirs fetch format partitioned parallelism shards shard_of n) (conc_start qs) s ->
  map t_query (c_tasks s) = map fst qs.
Proof. intros lf ld fe fo pa pr shards shard_of n qs s H. rewrite (star_queries _ _ _ _ _ _ _ _ _ _ _ H). apply start_queries. Qed.
Print Assumptions C60_queries_kept.
Example C60_case : exists s t1 t2, star (cx_step 2) (conc_start [(cx_query, 1%nat); (cx_query, 1%nat)]) s
  /\ c_tasks s = [t1; t2] /\ has_answer t1 (Ok cx_answer) /\ has_answer t2 (Ok cx_answer)
  /\ map (fun s => base_file_name (fs_base s)) cx_answer = ["f_0-1-2_20240101000000000.parquet"].
Proof. destruct cx_run as [sh R]. eexists _, _, _. split; [exact R|]. repeat split. Qed.
