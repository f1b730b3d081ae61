(** Calls from Python threads: every schedule ends with all calls returned. *)
From Verif Require Import Base Str M_FileGroup M_Builder M_Listing M_Concurrent M_Gil S_FileGroup S_Listing S_Concurrent S_Gil L_Tree L_Concurrent L_Answers.
Local Open Scope string_scope.
Local Open Scope nat_scope.

Section Python.
Variable list_files : string -> outcome (list file_meta).
Variable list_dirs : string -> outcome (list string).
Variable fetch : string -> outcome file_meta.
Variable format : string.
Variable partitioned : bool.
Variable parallelism : nat.
Variable shards : nat.
Variable shard_of : string -> nat.
Notation cstep := (conc_step list_files list_dirs fetch format partitioned parallelism shards shard_of).
Notation ystep := (py_step list_files list_dirs fetch format partitioned parallelism shards shard_of).
Notation kstep := (call_step list_files list_dirs fetch format partitioned parallelism shards shard_of).

Definition proj (s : pystate) : conc := {| c_shards := y_shards s; c_tasks := map y_task (y_calls s) |}.
Definition rank (c : pycall) : nat := match y_stage c with Outside => 4 | Entered => 3 | Blocking => 2 | Leaving => 1 | Returned => 0 end.
Definition ranks (s : pystate) : nat := list_sum (map rank (y_calls s)).

Lemma filter_le : forall A (f : A -> bool) l, List.length (filter f l) <= List.length l.
Proof. intros A f l. induction l as [|x l IH]; [auto|]. cbn. destruct (f x); cbn; lia. Qed.
Lemma ready_room : forall l1 t l2, t_mode t = Ready -> List.length (filter on_thread (l1 ++ t :: l2)) < List.length (l1 ++ t :: l2).
Proof.
  intros l1 t l2 M. rewrite filter_mid, app_length. cbn [List.length]. unfold on_thread at 2. rewrite M.
  assert (A := filter_le _ on_thread l1). assert (B := filter_le _ on_thread l2). destruct (t_phase t); lia.
Qed.

(** A step of a call is a step of the runtime with a thread for every task, or one of the GIL. *)
Lemma step_proj : forall s s', ystep s s' ->
  cstep (List.length (y_calls s)) (proj s) (proj s') \/ (proj s' = proj s /\ ranks s' < ranks s).
Proof.
  intros s s' [sh l1 c l2 sh' c' K]. unfold proj, ranks. cbn [y_shards y_calls].
  assert (G : forall g, rank (at_stage c g) < rank c -> sh' = sh -> c' = at_stage c g ->
    {| c_shards := sh'; c_tasks := map y_task (l1 ++ c' :: l2) |} = {| c_shards := sh; c_tasks := map y_task (l1 ++ c :: l2) |}
    /\ list_sum (map rank (l1 ++ c' :: l2)) < list_sum (map rank (l1 ++ c :: l2))).
  { intros g L -> -> . split; [now rewrite !map_app|]. rewrite !map_app, !list_sum_app. cbn [map list_sum fold_right] in *. lia. }
  destruct K as [E _|E|E M|E M|sh' t' E M T|r E A _|E].
  - right. apply (G Entered); auto. unfold rank. rewrite E. cbn. lia.
  - right. apply (G Blocking); auto. unfold rank. rewrite E. cbn. lia.
  - left. rewrite !map_app. cbn [map with_task y_task]. apply cs_schedule; [assumption|].
    replace (List.length (l1 ++ c :: l2)) with (List.length (map y_task l1 ++ y_task c :: map y_task l2)) by (rewrite !app_length; cbn; now rewrite !map_length).
    now apply ready_room.
  - left. rewrite !map_app. cbn [map with_task y_task]. now apply cs_wake.
  - left. rewrite !map_app in *. cbn [map with_task y_task] in *. now apply cs_run.
  - right. apply (G Leaving); auto. unfold rank. rewrite E. cbn. lia.
  - right. apply (G Returned); auto. unfold rank. rewrite E. cbn. lia.
Qed.
Lemma step_length : forall s s', ystep s s' -> List.length (y_calls s') = List.length (y_calls s).
Proof. intros s s' [sh l1 c l2 sh' c' K]. cbn. now rewrite !app_length. Qed.
Lemma step_methods : forall s s', ystep s s' -> map y_method (y_calls s') = map y_method (y_calls s).
Proof. intros s s' [sh l1 c l2 sh' c' K]. cbn. rewrite !map_app. cbn [map]. f_equal. f_equal. destruct K; reflexivity. Qed.
Lemma star_methods : forall s s', star ystep s s' -> map y_method (y_calls s') = map y_method (y_calls s).
Proof. intros s s' H. induction H; [reflexivity|]. rewrite IHstar. now apply step_methods. Qed.
Lemma star_proj : forall s s', star ystep s s' -> star (cstep (List.length (y_calls s))) (proj s) (proj s').
Proof.
  intros s s' H. induction H as [s|s s1 s2 H1 H2 IH]; [constructor|]. rewrite (step_length _ _ H1) in IH.
  destruct (step_proj _ _ H1) as [C|[E _]]; [econstructor; eassumption|]. now rewrite <- E.
Qed.
Definition queries (cs : list (py_method * query * nat)) : list (query * nat) := map (fun e => (snd (fst e), snd e)) cs.
Lemma start_proj : forall cs, proj (py_start cs) = conc_start (queries cs).
Proof. intros cs. unfold proj, conc_start, queries. cbn. now rewrite !map_map. Qed.
Lemma start_length : forall cs, List.length (y_calls (py_start cs)) = List.length cs.
Proof. intros cs. cbn. apply map_length. Qed.
Lemma reach_proj : forall cs s, star ystep (py_start cs) s -> star (cstep (List.length cs)) (conc_start (queries cs)) (proj s).
Proof. intros cs s H. apply star_proj in H. now rewrite start_length, start_proj in H. Qed.
Lemma reach_length : forall s s', star ystep s s' -> List.length (y_calls s') = List.length (y_calls s).
Proof. intros s s' H. induction H; [reflexivity|]. rewrite IHstar. now apply step_length. Qed.

(** Every schedule comes to an end. *)
Lemma py_schedules_end : 0 < shards -> forall cs s, star ystep (py_start cs) s -> Acc (fun y x => ystep x y) s.
Proof.
  intros P cs s H. assert (A := schedules_end list_files list_dirs fetch format partitioned parallelism shards shard_of P _ _ _ (reach_proj _ _ H)).
  assert (L := reach_length _ _ H). rewrite start_length in L. clear H.
  remember (proj s) as p eqn:Ep. revert s Ep L. induction A as [p _ IH].
  intros s. remember (ranks s) as k eqn:Ek. revert s Ek. induction k as [k IHk] using lt_wf_ind. intros s Ek Ep L.
  constructor. intros y St. assert (Ly := step_length _ _ St).
  destruct (step_proj _ _ St) as [C|[E R]].
  - apply (IH (proj y)); [rewrite <- L, Ep; exact C|reflexivity|congruence].
  - apply (IHk (ranks y)); [lia|reflexivity|congruence|congruence].
Qed.

(** What holds of the calls. *)
Definition call_ok (c : pycall) : Prop :=
  match y_stage c with
  | Outside | Entered => t_phase (y_task c) = Asked
  | Blocking => True
  | Leaving | Returned => exists r, t_phase (y_task c) = Answered r
  end.
Definition one_gil (l : list pycall) : Prop := List.length (filter has_gil l) <= 1.
Lemma free_none : forall l, gil_free l = true -> filter has_gil l = [].
Proof.
  intros l H. unfold gil_free in H. apply negb_true_iff in H. induction l as [|c l IH]; [reflexivity|]. cbn in *.
  apply orb_false_iff in H as [H1 H2]. rewrite H1. auto.
Qed.
Lemma step_ok : forall s s', ystep s s' -> Forall call_ok (y_calls s) -> Forall call_ok (y_calls s').
Proof.
  intros s s' [sh l1 c l2 sh' c' K] F. cbn [y_calls] in *. apply Forall_app in F as [F1 F2]. apply Forall_cons_iff in F2 as [Fc F2].
  apply Forall_app. split; [assumption|]. constructor; [|assumption]. unfold call_ok in *.
  destruct K as [E _|E|E M|E M|sh' t' E M T|r E A _|E]; rewrite ?E in *; cbn; rewrite ?E; eauto.
Qed.
Lemma step_gil : forall s s', ystep s s' -> one_gil (y_calls s) -> one_gil (y_calls s').
Proof.
  intros s s' [sh l1 c l2 sh' c' K] G. unfold one_gil in *. cbn [y_calls] in *. rewrite filter_mid in *.
  assert (X : gil_free (l1 ++ c :: l2) = true -> List.length (filter has_gil l1) = 0 /\ List.length (filter has_gil l2) = 0).
  { intros F. apply free_none in F. assert (Y := filter_mid _ has_gil l1 c l2). rewrite F in Y. cbn in Y. lia. }
  destruct K as [E F|E|E M|E M|sh' t' E M T|r E A [F|F]|E]; unfold has_gil at 2 in G; unfold has_gil at 2; cbn [y_stage y_method at_stage with_task]; rewrite ?E in *; cbn in *; try rewrite F in *;
    try (destruct (X F)); try destruct (keeps_gil (y_method c)); lia.
Qed.
Lemma star_ok : forall s s', star ystep s s' -> Forall call_ok (y_calls s) -> one_gil (y_calls s) -> Forall call_ok (y_calls s') /\ one_gil (y_calls s').
Proof. intros s s' H. induction H; auto. intros. apply IHstar; [eapply step_ok; eauto|eapply step_gil; eauto]. Qed.
Lemma start_ok : forall cs, Forall call_ok (y_calls (py_start cs)) /\ one_gil (y_calls (py_start cs)).
Proof.
  intros cs. cbn. split.
  - apply Forall_forall. intros c I. apply in_map_iff in I as [e [ <- _]]. reflexivity.
  - unfold one_gil. induction cs; [cbn; lia|exact IHcs].
Qed.
Lemma reach_ok : forall cs s, star ystep (py_start cs) s -> Forall call_ok (y_calls s) /\ one_gil (y_calls s).
Proof. intros cs s H. destruct (start_ok cs). eapply star_ok; eauto. Qed.

(** The GIL is held by one call at a time. *)
Lemma gil_one : forall l1 c l2, one_gil (l1 ++ c :: l2) -> has_gil c = true -> forall d, In d (l1 ++ l2) -> has_gil d = false.
Proof.
  intros l1 c l2 G H d I. unfold one_gil in G. rewrite filter_mid, H in G. destruct (has_gil d) eqn:E; [|reflexivity]. exfalso.
  assert (X : In d (filter has_gil l1) \/ In d (filter has_gil l2)) by (apply in_app_or in I as [I|I]; [left|right]; now apply filter_In).
  destruct X as [X|X]; [destruct (filter has_gil l1)|destruct (filter has_gil l2)]; cbn in *; try contradiction; lia.
Qed.
Lemma gil_taken : forall l c, In c l -> has_gil c = true -> gil_free l = false.
Proof. intros l c I H. unfold gil_free. apply negb_false_iff. apply existsb_exists. eauto. Qed.
Lemma gil_nobody : forall l, (forall c, In c l -> has_gil c = false) -> gil_free l = true.
Proof.
  intros l H. unfold gil_free. apply negb_true_iff. destruct (existsb has_gil l) eqn:E; [|reflexivity].
  apply existsb_exists in E as [c [I E]]. rewrite (H c I) in E. discriminate E.
Qed.

Variable root : tree.
Hypothesis serves : serves_dirs root list_dirs.
Hypothesis wf : wf_tree root.
Hypothesis par : 0 < parallelism.
Notation wf_query := (fun q : query => q_pruner_empty q = true -> forall p, q_include q p = true).

Lemma all_return : forall cs s, (forall m q k, In (m, q, k) cs -> wf_query q) ->
  star ystep (py_start cs) s -> py_stuck ystep s -> all_returned s.
Proof.
  intros cs s W St K. destruct (reach_ok _ _ St) as [F G]. assert (Pr := reach_proj _ _ St).
  assert (I : linv (proj s)) by (eapply star_linv; [exact Pr|apply linv_start]).
  assert (Wq : forall c, In c (y_calls s) -> wf_query (t_query (y_task c))).
  { intros c Hc. assert (E := star_queries _ _ _ _ _ _ _ _ _ _ _ Pr). rewrite start_queries in E. unfold proj, queries in E. cbn [c_tasks] in E.
    assert (J : In (t_query (y_task c)) (map fst (map (fun e : py_method * query * nat => (snd (fst e), snd e)) cs))).
    { rewrite <- E. rewrite map_map. now apply (in_map (fun c => t_query (y_task c))). }
    rewrite map_map in J. apply in_map_iff in J as [[[m q] k] [Eq J]]. cbn in Eq. rewrite <- Eq. exact (W m q k J). }
  rewrite Forall_forall in F.
  assert (NS : forall c sh' c', In c (y_calls s) -> ~ kstep (gil_free (y_calls s)) (locks (map y_task (y_calls s))) (y_shards s) c sh' c').
  { intros c sh' c' Hc X. destruct s as [sh l]. cbn [y_calls y_shards] in *. destruct (split_in _ _ _ Hc) as [l1 [l2 -> ]]. eapply K. eapply py_call. exact X. }
  assert (NE : forall c, In c (y_calls s) -> y_stage c <> Entered) by (intros c Hc E; eapply NS; [exact Hc|]; now apply ys_block).
  assert (NL : forall c, In c (y_calls s) -> y_stage c <> Leaving) by (intros c Hc E; eapply NS; [exact Hc|]; now apply ys_return).
  assert (NR : forall c, In c (y_calls s) -> y_stage c = Blocking -> (forall r, t_phase (y_task c) <> Answered r) ->
    (forall i, needs shards shard_of (y_task c) i -> ~ In i (locks (map y_task (y_calls s)))) -> False).
  { intros c Hc E U N. destruct (t_mode (y_task c)) eqn:M.
    - eapply NS; [exact Hc|]. now apply ys_poll.
    - destruct (can_run list_files list_dirs fetch format partitioned parallelism shards shard_of root serves wf par
        (locks (map y_task (y_calls s))) (y_shards s) (y_task c) (Wq c Hc) U N) as [sh' [t' T]].
      eapply NS; [exact Hc|]. eapply ys_run; eauto.
    - eapply NS; [exact Hc|]. now apply ys_wake. }
  assert (NU : forall c, In c (y_calls s) -> y_stage c = Blocking -> exists r, t_phase (y_task c) = Answered r).
  { intros c Hc E. destruct (answered_dec (y_task c)) as [A|U]; [exact A|]. exfalso.
    assert (D : locks (map y_task (y_calls s)) = [] \/ locks (map y_task (y_calls s)) <> []) by (destruct (locks (map y_task (y_calls s))); [now left|right; discriminate]).
    destruct D as [El|El].
    - eapply NR; [exact Hc|exact E|exact U|]. intros i _. rewrite El. intros [].
    - destruct (last_holder list_files fetch format parallelism shards shard_of par (proj s) I El) as [u [Hu [Hh [Un Nb]]]].
      cbn [proj c_tasks] in Hu. apply in_map_iff in Hu as [d [ <- Hd]].
      assert (Ed : y_stage d = Blocking).
      { assert (Ok := F d Hd). unfold call_ok in Ok. unfold held in Hh. destruct (y_stage d); [rewrite Ok in Hh; now elim Hh|rewrite Ok in Hh; now elim Hh|reflexivity|..];
          destruct Ok as [r Ok]; now elim (Un r). }
      destruct (t_mode (y_task d)) eqn:M; [eapply NS; [exact Hd|]; now apply ys_poll| |eapply NS; [exact Hd|]; now apply ys_wake].
      eapply NR; [exact Hd|exact Ed|exact Un|]. intros i Hn Hi. apply Nb. split; [assumption|]. apply in_locks in Hi as [v [Hv Hi]]. exists i, v. auto. }
  assert (GF : gil_free (y_calls s) = true).
  { apply gil_nobody. intros c Hc. unfold has_gil. destruct (y_stage c) eqn:E; [reflexivity|now elim (NE c Hc)| |now elim (NL c Hc)|reflexivity].
    destruct (keeps_gil (y_method c)) eqn:Ek; [|reflexivity]. exfalso. destruct (NU c Hc E) as [r A]. eapply NS; [exact Hc|]. eapply ys_done; eauto. }
  intros c Hc. destruct (y_stage c) eqn:E; [| now elim (NE c Hc)| |now elim (NL c Hc)|].
  - exfalso. eapply NS; [exact Hc|]. now apply ys_enter.
  - exfalso. destruct (NU c Hc E) as [r A]. eapply NS; [exact Hc|]. eapply ys_done; eauto.
  - split; [reflexivity|]. assert (Ok := F c Hc). unfold call_ok in Ok. rewrite E in Ok. exact Ok.
Qed.
End Python.
