(** Calls from Python threads: C98. *)
From Verif Require Import Base Str M_FileGroup M_Builder M_Listing M_Concurrent M_Gil S_FileGroup S_Listing S_Concurrent S_Gil L_Tree L_Concurrent L_Answers L_Gil E_Concurrent E_Gil.
Local Open Scope string_scope.

(** C98: any number of Python threads call a table object, each for file slices or for a snapshot.  Every schedule of the
    threads comes to an end ... *)
Theorem C98_schedules_end : forall list_files list_dirs fetch format partitioned parallelism shards shard_of, (0 < shards)%nat ->
  let step := py_step list_files list_dirs fetch format partitioned parallelism shards shard_of in
  forall cs s, star step (py_start cs) s -> Acc (fun y x => step x y) s.
Proof. intros lf ld fe fo pa pr shards shard_of P. exact (py_schedules_end lf ld fe fo pa pr shards shard_of P). Qed.
Print Assumptions C98_schedules_end.

(** ... and at its end every call is back with its caller: the GIL and the locks of the view never block each other. *)
Theorem C98_all_return : forall list_files list_dirs fetch format partitioned parallelism shards shard_of root,
  serves_dirs root list_dirs -> wf_tree root -> (0 < parallelism)%nat ->
  let step := py_step list_files list_dirs fetch format partitioned parallelism shards shard_of in
  forall cs s, (forall m q k, In (m, q, k) cs -> q_pruner_empty q = true -> forall p, q_include q p = true) ->
  star step (py_start cs) s -> py_stuck step s -> all_returned s.
Proof. intros lf ld fe fo pa pr shards shard_of root S W P. exact (all_return lf ld fe fo pa pr shards shard_of root S W P). Qed.
Print Assumptions C98_all_return.
(** A schedule in which the first call holds the lock of a shard and has to get the GIL back, while the second holds the
    GIL and waits for the shard; it goes on to the end. *)
Example C98_case : exists s e c d, star yx_step (py_start yx_calls) s /\ y_calls s = [c; d]
  /\ held (y_task c) = [0%nat] /\ has_gil d = true /\ blocked 1 (fun _ => 0%nat) (proj s) (y_task d)
  /\ star yx_step s e /\ py_stuck yx_step e /\ all_returned e.
Proof.
  destruct yx_run as [sh R].
  exists (yx_held Blocking (cx_task (Inserting [cx_entry]) OnThread 0)), (yx_end sh). eexists _, _.
  split; [exact yx_cross|]. split; [reflexivity|]. split; [reflexivity|]. split; [reflexivity|]. split.
  { split; [reflexivity|]. exists 0%nat, (cx_holder (fun _ => 0%nat) Waiting). split; [reflexivity|]. split; now left. }
  split; [exact R|]. split; [exact (yx_stuck sh)|].
  intros c [ <- |[ <- |[]]]; (split; [reflexivity|eexists; reflexivity]).
Qed.

(** The i-th call at the end is the i-th call asked, and its answer is the one it would get alone on a new table object;
    if it is not an error it is the snapshot the call asks for. *)
Theorem C98_answers : forall list_files list_dirs fetch format partitioned parallelism root,
  serves_dirs root list_dirs -> wf_tree root ->
  forall shards shard_of, (forall p, shard_of p < shards)%nat ->
  let step := py_step list_files list_dirs fetch format partitioned parallelism shards shard_of in
  forall cs s, (forall m q k, In (m, q, k) cs -> q_pruner_empty q = true -> forall p, q_include q p = true) ->
  star step (py_start cs) s ->
  map (fun c => (y_method c, t_query (y_task c))) (y_calls s) = map fst cs
  /\ forall c, In c (y_calls s) -> y_stage c = Returned -> exists r, t_phase (y_task c) = Answered r
     /\ (forall c' r', view_query list_files list_dirs fetch format partitioned parallelism [] (t_query (y_task c)) c' r' -> same_answer r r')
     /\ forall ss, r = Ok ss -> snapshot_of list_files format partitioned root (t_query (y_task c)) ss.
Proof.
  intros lf ld fe fo pa pr root S W shards shard_of B step cs s Wq St.
  assert (Pr := reach_proj lf ld fe fo pa pr shards shard_of cs s St). split.
  - assert (M := star_methods _ _ _ _ _ _ _ _ _ _ St). assert (Q := star_queries _ _ _ _ _ _ _ _ _ _ _ Pr). rewrite start_queries in Q.
    unfold queries in Q. cbn [proj c_tasks py_start y_calls] in M, Q. rewrite !map_map in M. rewrite !map_map in Q. cbn [y_method fst snd] in M, Q.
    clear - M Q. revert cs M Q. induction (y_calls s) as [|c l IH]; intros [|[[m q] k] cs] M Q; try discriminate M; [reflexivity|].
    cbn in *. injection M as M1 M2. injection Q as Q1 Q2. rewrite M1, Q1. f_equal. now apply IH.
  - intros c Hc E. destruct (reach_ok lf ld fe fo pa pr shards shard_of cs s St) as [F _]. rewrite Forall_forall in F. specialize (F c Hc).
    unfold call_ok in F. rewrite E in F. destruct F as [r A]. exists r. split; [exact A|].
    apply (concurrent_answers lf ld fe fo pa pr root S W shards shard_of B (List.length cs) (queries cs) (proj s) (y_task c) r); [|exact Pr|now apply in_map|exact A].
    intros q k I. unfold queries in I. apply in_map_iff in I as [[[m q'] k'] [X I]]. injection X as <- <- . eauto.
Qed.
Print Assumptions C98_answers.
Example C98_answers_case : exists e, star yx_step (py_start yx_calls) e
  /\ map (fun c => (y_stage c, t_phase (y_task c))) (y_calls e) = [(Returned, Answered (Ok cx_answer)); (Returned, Answered (Ok cx_answer))]
  /\ map (fun s => base_file_name (fs_base s)) cx_answer = ["f_0-1-2_20240101000000000.parquet"].
Proof. destruct yx_run as [sh R]. exists (yx_end sh). split; [exact (star_app _ _ _ _ _ yx_cross R)|]. split; reflexivity. Qed.

(** One thread runs Python at a time; and a snapshot read keeps all other threads out of Python for as long as it takes:
    whatever happens while it blocks, the calls that are not blocking themselves stay where they are. *)
Theorem C98_read_keeps_gil : forall list_files list_dirs fetch format partitioned parallelism shards shard_of,
  let step := py_step list_files list_dirs fetch format partitioned parallelism shards shard_of in
  forall cs s s' i c j d, star step (py_start cs) s -> step s s' ->
  nth_error (y_calls s) i = Some c -> y_stage c = Blocking -> y_method c = ReadSnapshot \/ y_method c = ReadSnapshotAsOf ->
  nth_error (y_calls s) j = Some d -> j <> i ->
  has_gil d = false /\ (y_stage d <> Blocking -> nth_error (y_calls s') j = Some d)
  /\ exists d', nth_error (y_calls s') j = Some d' /\ y_stage d' = y_stage d.
Proof.
  intros lf ld fe fo pa pr shards shard_of step cs s s' i c j d St H Hi E M Hj N.
  assert (K : has_gil c = true) by (unfold has_gil; rewrite E; now destruct M as [ -> | -> ]).
  destruct (reach_ok lf ld fe fo pa pr shards shard_of cs s St) as [_ G].
  assert (Kd : has_gil d = false).
  { destruct (nth_error_split _ _ Hi) as [l1 [l2 [El Li]]]. rewrite El in *. eapply gil_one; try eassumption.
    assert (X := Hj). destruct (Nat.lt_ge_cases j (List.length l1)) as [L|L].
    - rewrite nth_error_app1 in X by assumption. apply in_or_app. left. eapply nth_error_In; eauto.
    - rewrite nth_error_app2 in X by assumption. apply in_or_app. right. destruct (j - List.length l1)%nat as [|k] eqn:Ek; [lia|]. cbn in X. eapply nth_error_In; eauto. }
  split; [exact Kd|].
  assert (T : gil_free (y_calls s) = false) by (eapply gil_taken; [eapply nth_error_In; exact Hi|exact K]).
  destruct H as [sh l1 x l2 sh' x' Kx]. cbn [y_calls] in *.
  destruct (Nat.eq_dec j (List.length l1)) as [Ej|Ej].
  - assert (Y : x = d) by (rewrite nth_error_app2 in Hj by lia; rewrite Ej, Nat.sub_diag in Hj; cbn in Hj; congruence). subst x.
    assert (Z : nth_error (l1 ++ x' :: l2) j = Some x') by (rewrite nth_error_app2 by lia; rewrite Ej, Nat.sub_diag; reflexivity).
    rewrite T in Kx. rewrite Z. unfold has_gil in Kd.
    destruct Kx as [A F|A|A F|A F|sh' t' A F R|r A F [R|R]|A]; try discriminate F; try discriminate R; rewrite A in *; try discriminate Kd;
      try (split; [intros U; now elim U|]; eexists; split; [reflexivity|exact A]).
    rewrite R in Kd. discriminate Kd.
  - assert (Z : nth_error (l1 ++ x' :: l2) j = nth_error (l1 ++ x :: l2) j).
    { destruct (Nat.lt_ge_cases j (List.length l1)) as [L|L]; [now rewrite !nth_error_app1|]. rewrite !nth_error_app2 by assumption. destruct (j - List.length l1)%nat as [|k] eqn:Ek; [lia|reflexivity]. }
    rewrite Z, Hj. split; [reflexivity|]. eauto.
Qed.
Print Assumptions C98_read_keeps_gil.

(** A user may expect that other Python threads run while a read waits for storage, as they do while file slices are
    listed.  That is false: a read of a table with one file waits for the storage, and another thread cannot even begin
    its call, whatever happens next. *)
Theorem C98_others_run_refuted : exists s sh c d, star yx_step (py_start [(ReadSnapshot, cx_query, 1%nat); (GetFileSlices, cx_query, 0%nat)]) s
  /\ s = {| y_shards := sh; y_calls := [c; d] |} /\ t_mode (y_task c) = Waiting /\ y_stage d = Outside
  /\ forall s', yx_step s s' -> nth_error (y_calls s') 1 = Some d.
Proof.
  assert (R : star yx_step (py_start [(ReadSnapshot, cx_query, 1%nat); (GetFileSlices, cx_query, 0%nat)])
    {| y_shards := cx_empty; y_calls := [yx_call ReadSnapshot Blocking (cx_task Asked Waiting 0); yx_call GetFileSlices Outside (asked cx_query 0)] |}).
  { change (py_start [(ReadSnapshot, cx_query, 1%nat); (GetFileSlices, cx_query, 0%nat)])
      with {| y_shards := cx_empty; y_calls := ([] ++ yx_call ReadSnapshot Outside (asked cx_query 1) :: [yx_call GetFileSlices Outside (asked cx_query 0)])%list |}.
    eapply star_step; [apply py_call, ys_enter; reflexivity|]. eapply star_step; [apply py_call, ys_block; reflexivity|].
    eapply star_step; [apply py_call, ys_poll; reflexivity|].
    eapply star_step; [apply py_call; eapply ys_run; [reflexivity|reflexivity|]; apply (ts_pause_listing _ _ _ _ _ _ _ _ _ _ _ 0); reflexivity|].
    apply star_refl. }
  eexists _, _, _, _. split; [exact R|]. split; [reflexivity|]. split; [reflexivity|]. split; [reflexivity|].
  intros s' H. refine (proj1 (proj2 (C98_read_keeps_gil _ _ _ _ _ _ _ _ _ _ s' 0 _ 1 _ R H eq_refl eq_refl (or_introl eq_refl) eq_refl ltac:(lia))) _). discriminate.
Qed.
Print Assumptions C98_others_run_refuted.
(** While file slices are listed the other thread begins its call. *)
Example C98_others_run_case : exists s', yx_step (yx_held Outside (asked cx_query 0)) s' /\ nth_error (y_calls s') 1 = Some (yx_call ReadSnapshot Entered (asked cx_query 0)).
Proof.
  eexists. split.
  - apply (py_call _ _ _ _ _ _ _ _ _ [yx_call GetFileSlices Blocking (cx_holder (fun _ => 0%nat) Waiting)] (yx_call ReadSnapshot Outside (asked cx_query 0)) []). apply ys_enter; reflexivity.
  - reflexivity.
Qed.
