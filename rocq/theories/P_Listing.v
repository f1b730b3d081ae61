(** Properties C20 - C24: partition listing, partition discovery, parallel listing, file system view. *)
From Verif Require Import Base Str M_FileGroup M_Builder M_Listing S_FileGroup S_Builder S_Listing
  L_Listing L_Tree L_Parallel L_View.
Local Open Scope string_scope.

(** A small table: one partition with a metadata marker, two file groups and a log file, next to a
    [.hoodie] directory. *)
Definition ex_files : list file_meta :=
  [new_meta ".hoodie_partition_metadata" 96; new_meta "f1_0-1-2_20240101000000000.parquet" 1000;
   new_meta ".f1_20240101000000000.log.1_0-2-3" 300; new_meta "f1_0-7-8_20240103000000000.parquet" 1100;
   new_meta "f2_0-1-3_20240102000000000.parquet" 900; new_meta "readme.txt" 3].
Definition ex_listing (p : string) : outcome (list file_meta) := if String.eqb p "year=2024/day=1" then Ok ex_files else Ok [].
Definition ex_keep (p : string) (l : list (string * list base_file)) := l.
Definition ex_root : tree :=
  Dir [] [(".hoodie", Dir [] [("metadata", Dir [] [])]);
          ("year=2024", Dir [] [("day=1", Dir ex_files []); ("day=2", Dir [] [])])].
Definition ex_fetch (path : string) : outcome file_meta :=
  Ok {| fm_name := path; fm_size := 1; fm_byte_size := 1; fm_num_records := 1; fm_populated := true |}.
Definition ex_query (t : string) : query :=
  {| q_time := t; q_pruner_empty := false; q_include := fun p => String.eqb p "year=2024/day=1"; q_excluded := [new_group "f2" "year=2024/day=1"] |}.
Fact ex_root_wf : wf_tree ex_root.
Proof.
  assert (L : forall fs, wf_tree (Dir fs [])) by (intros; constructor; [constructor|intros ? ? []|intros ? ? []]).
  constructor.
  - cbn. repeat constructor; cbn; intuition discriminate.
  - intros n s [[= <- _]|[[= <- _]|[]]]; split; (discriminate || reflexivity).
  - intros n s [[= _ <-]|[[= _ <-]|[]]]; constructor.
    + cbn. repeat constructor; cbn; intuition.
    + intros n' s' [[= <- _]|[]]; split; (discriminate || reflexivity).
    + intros n' s' [[= _ <-]|[]]; apply L.
    + cbn. repeat constructor; cbn; intuition discriminate.
    + intros n' s' [[= <- _]|[[= <- _]|[]]]; split; (discriminate || reflexivity).
    + intros n' s' [[= _ <-]|[[= _ <-]|[]]]; apply L.
Qed.

(** C20: listing a partition succeeds exactly on listings that can be grouped. *)
Theorem C20_listing_succeeds_exactly : forall format list_files order p listed,
  (forall p l, Permutation l (order p l)) -> list_files p = Ok listed -> NoDup listed ->
  ((exists gs, list_file_groups_for_partition list_files format order p = Ok gs) <-> listing_ok format listed).
Proof. intros format list_files order p listed P. exact (list_partition_ok_iff format list_files order P p listed). Qed.
Print Assumptions C20_listing_succeeds_exactly.
Example C20_succeeds_case : ex_listing "year=2024/day=1" = Ok ex_files /\
  exists gs, list_file_groups_for_partition ex_listing "parquet" ex_keep "year=2024/day=1" = Ok gs /\ map fg_id gs = ["f1"; "f2"].
Proof. split; [reflexivity|]. eexists. split; reflexivity. Qed.
(** A leftover of a retried task makes the whole partition unreadable. *)
Example C20_fails_case : exists e, list_file_groups_for_partition
  (fun _ : string => Ok (new_meta "f2_0-9-9_20240102000000000.parquet" 5 :: ex_files)) "parquet" ex_keep "" = Err e.
Proof. eexists. reflexivity. Qed.

(** C20: the groups hold exactly the listed files, one group per file id that has a base file. *)
Theorem C20_groups_exact : forall format list_files order p listed gs,
  (forall p l, Permutation l (order p l)) -> list_files p = Ok listed ->
  list_file_groups_for_partition list_files format order p = Ok gs -> groups_of_listing format p listed gs.
Proof. intros format list_files order p listed gs P. exact (list_partition_groups format list_files order P p listed gs). Qed.
Print Assumptions C20_groups_exact.
Example C20_groups_case : exists gs g, list_file_groups_for_partition ex_listing "parquet" ex_keep "year=2024/day=1" = Ok gs
  /\ In g gs /\ has_base g "20240101000000000" "f1_0-1-2_20240101000000000.parquet" /\ has_log g "20240101000000000" "1" "0-2-3".
Proof.
  eexists. eexists. split; [reflexivity|]. split; [left; reflexivity|]. split.
  - eexists. split; [left; reflexivity|]. split; reflexivity.
  - eexists. eexists. split; [left; reflexivity|]. split; [reflexivity|]. split; [left; reflexivity|]. split; reflexivity.
Qed.

(** C20: the order in which storage lists the files does not matter. *)
Theorem C20_listing_order_irrelevant : forall format list1 list2 order1 order2 p l1 l2 gs1 gs2,
  (forall p l, Permutation l (order1 p l)) -> (forall p l, Permutation l (order2 p l)) ->
  list1 p = Ok l1 -> list2 p = Ok l2 -> Permutation l1 l2 ->
  list_file_groups_for_partition list1 format order1 p = Ok gs1 ->
  list_file_groups_for_partition list2 format order2 p = Ok gs2 ->
  Permutation (map fg_id gs1) (map fg_id gs2)
  /\ forall g1 g2, In g1 gs1 -> In g2 gs2 -> fg_id g1 = fg_id g2 -> same_contents g1 g2.
Proof. exact groups_order. Qed.
Print Assumptions C20_listing_order_irrelevant.
Example C20_order_case : exists gs1 gs2,
  list_file_groups_for_partition (fun _ => Ok ex_files) "parquet" ex_keep "" = Ok gs1
  /\ list_file_groups_for_partition (fun _ => Ok (rev ex_files)) "parquet" (fun _ => @rev _) "" = Ok gs2
  /\ map fg_id gs1 = ["f1"; "f2"].
Proof. eexists. eexists. split; [reflexivity|]. split; reflexivity. Qed.

(** C21: partition discovery. *)
Theorem C21_partitions_are_leaf_directories : forall root list_dirs empty include,
  wf_tree root -> serves_dirs root list_dirs ->
  exists paths, (exists enough, forall fuel, (enough <= fuel)%nat ->
       list_relevant_partition_paths list_dirs fuel true empty include = Some (Ok paths))
    /\ NoDup paths
    /\ forall path, In path paths <-> partition_dir root path /\ (empty = false -> include path = true).
Proof. exact discovery. Qed.
Print Assumptions C21_partitions_are_leaf_directories.
Example C21_case : wf_tree ex_root /\ serves_dirs ex_root (tree_dirs ex_root)
  /\ list_relevant_partition_paths (tree_dirs ex_root) 3 true true (fun _ => true)
     = Some (Ok ["year=2024/day=1"; "year=2024/day=2"]).
Proof. split; [exact ex_root_wf|]. split; [exact (tree_serves _ ex_root_wf)|reflexivity]. Qed.

(** C22: every schedule of the parallel listing comes to an end. *)
Theorem C22_every_schedule_terminates : forall V (work : string -> outcome V) n s, Acc (fun y x => par_step work n x y) s.
Proof. exact par_terminates. Qed.
Print Assumptions C22_every_schedule_terminates.

(** C22: a schedule that cannot continue has finished with exactly the listing of every partition, or
    has failed, and it fails exactly when the listing of some partition fails. *)
Theorem C22_result_under_every_schedule : forall V (work : string -> outcome V) n, (0 < n)%nat ->
  forall paths s, star (par_step work n) (Running paths [] []) s -> (forall s', ~ par_step work n s s') ->
  ((forall p, In p paths -> exists v, work p = Ok v) ->
     exists done, s = Finished done /\ Permutation paths (map fst done) /\ forall p v, In (p, v) done -> work p = Ok v)
  /\ ((exists p, In p paths /\ forall v, work p <> Ok v) ->
     exists p, In p paths /\ ((exists e, work p = Err e /\ s = Failed (Some e)) \/ (work p = Panic /\ s = Failed None))).
Proof. exact par_result. Qed.
Print Assumptions C22_result_under_every_schedule.

(** C22: all schedules, and all degrees of parallelism, give the same map. *)
Theorem C22_same_map_under_all_schedules : forall V (work : string -> outcome V) n m paths d1 d2,
  star (par_step work n) (Running paths [] []) (Finished d1) ->
  star (par_step work m) (Running paths [] []) (Finished d2) -> Permutation d1 d2.
Proof. exact par_same. Qed.
Print Assumptions C22_same_map_under_all_schedules.
Example C22_case : let work := fun p : string => Ok (p ++ "!") in
  star (par_step work 2) (Running ["a"; "b"; "c"] [] []) (Finished [("b", "b!"); ("c", "c!"); ("a", "a!")]).
Proof.
  cbn zeta. eapply star_step; [apply (ps_start _ _ 2); cbn; lia|]. eapply star_step; [apply (ps_start _ _ 2); cbn; lia|]. cbn [app].
  eapply star_step; [apply (ps_complete _ _ 2 ["c"] [] "a" ["b"]); reflexivity|]. cbn [app].
  eapply star_step; [apply (ps_start _ _ 2); cbn; lia|]. cbn [app].
  eapply star_step; [apply (ps_complete _ _ 2 [] ["b"] "c" []); reflexivity|]. cbn [app].
  eapply star_step; [apply (ps_complete _ _ 2 [] [] "b" []); reflexivity|]. cbn [app].
  eapply star_step; [apply (ps_finish _ _ 2); lia|]. apply star_refl.
Qed.

(** C22: with parallelism 0 (an accepted value of the option) the listing never makes a step, even
    when there is nothing to list. *)
Theorem C22_zero_parallelism_hangs_refuted : forall V (work : string -> outcome V) paths s,
  ~ par_step work 0 (Running paths [] []) s.
Proof. exact par_zero_stuck. Qed.
Print Assumptions C22_zero_parallelism_hangs_refuted.

(** C23: the answer to a query does not depend on the queries asked before. *)
Theorem C23_query_independent_of_history :
  forall list_files list_dirs file_metadata format partitioned parallelism root,
  serves_dirs root list_dirs -> wf_tree root ->
  forall c1 c2 q c1' c2' r1 r2,
  view_history list_files list_dirs file_metadata format partitioned parallelism c1 ->
  view_history list_files list_dirs file_metadata format partitioned parallelism c2 ->
  (q_pruner_empty q = true -> forall p, q_include q p = true) ->
  view_query list_files list_dirs file_metadata format partitioned parallelism c1 q c1' r1 ->
  view_query list_files list_dirs file_metadata format partitioned parallelism c2 q c2' r2 ->
  same_answer r1 r2.
Proof. exact history_independent. Qed.
Print Assumptions C23_query_independent_of_history.

(** C23: a query always comes to an answer when the parallelism is positive. *)
Theorem C23_query_has_an_answer :
  forall list_files list_dirs file_metadata format partitioned parallelism root,
  serves_dirs root list_dirs -> wf_tree root -> (0 < parallelism)%nat ->
  forall c q, (q_pruner_empty q = true -> forall p, q_include q p = true) ->
  exists c' r, view_query list_files list_dirs file_metadata format partitioned parallelism c q c' r.
Proof. exact query_runs. Qed.
Print Assumptions C23_query_has_an_answer.
(** A cache left by an earlier query with another time and no filter. *)
Example C23_case : exists c, c <> [] /\ view_history ex_listing (tree_dirs ex_root) ex_fetch "parquet" true 2 c.
Proof.
  eexists. split; [|eapply vh_query with (q := {| q_time := "20240101000000000"; q_pruner_empty := true;
      q_include := fun _ => true; q_excluded := [] |}); [apply vh_new|reflexivity|]].
  2: { eapply vq_ok with (order := ex_keep); [reflexivity| | |].
    { eapply ll_finished with (fuel := 5%nat); [reflexivity|vm_compute; reflexivity|].
    eapply star_step; [apply (ps_start _ _ 2); cbn; lia|]. cbn [app].
    eapply star_step; [apply (ps_complete _ _ 2 _ [] _ []); vm_compute; reflexivity|]. cbn [app].
    eapply star_step; [apply (ps_start _ _ 2); cbn; lia|]. cbn [app].
    eapply star_step; [apply (ps_complete _ _ 2 _ [] _ []); vm_compute; reflexivity|]. cbn [app].
    eapply star_step; [apply (ps_finish _ _ 2); lia|]. apply star_refl. }
    { reflexivity. }
    { vm_compute; reflexivity. } }
  discriminate.
Qed.

(** C24: a query shows, of every file group in a relevant partition that is not excluded and has a
    base file at or before the query time, exactly the newest slice; and nothing else. *)
Theorem C24_view_is_a_snapshot :
  forall list_files list_dirs file_metadata format partitioned parallelism root,
  serves_dirs root list_dirs -> wf_tree root ->
  forall c q c' ss,
  view_history list_files list_dirs file_metadata format partitioned parallelism c ->
  (q_pruner_empty q = true -> forall p, q_include q p = true) ->
  view_query list_files list_dirs file_metadata format partitioned parallelism c q c' (Ok ss) ->
  snapshot_of list_files format partitioned root q ss.
Proof. exact snapshot_exact. Qed.
Print Assumptions C24_view_is_a_snapshot.
Example C24_case : exists c' s, view_query ex_listing (tree_dirs ex_root) ex_fetch "parquet" true 1 [] (ex_query "20240102") c' (Ok [s])
  /\ base_file_name (fs_base s) = "f1_0-1-2_20240101000000000.parquet".
Proof.
  eexists. eexists. split.
  - eapply vq_ok with (order := ex_keep); [reflexivity| | |].
    { eapply ll_finished with (fuel := 5%nat); [reflexivity|vm_compute; reflexivity|].
    eapply star_step; [apply (ps_start _ _ 1); cbn; lia|]. cbn [app].
    eapply star_step; [apply (ps_complete _ _ 1 _ [] _ []); vm_compute; reflexivity|]. cbn [app].
    eapply star_step; [apply (ps_finish _ _ 1); lia|]. apply star_refl. }
    { reflexivity. }
    { vm_compute; reflexivity. }
  - reflexivity.
Qed.
