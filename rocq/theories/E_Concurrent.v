(** Schedules of concurrent queries on a table with one file, used beside C51 and C60. *)
From Verif Require Import Base Str M_FileGroup M_Builder M_Listing M_Concurrent S_FileGroup S_Listing S_Concurrent L_Concurrent.
Local Open Scope string_scope.

Definition cx_files : list file_meta := [new_meta "f_0-1-2_20240101000000000.parquet" 1000].
Definition cx_list_files (p : string) : outcome (list file_meta) := Ok cx_files.
Definition cx_root : tree := Dir cx_files [].
Definition cx_fetch (path : string) : outcome file_meta :=
  Ok {| fm_name := path; fm_size := 1; fm_byte_size := 1; fm_num_records := 1; fm_populated := true |}.
Definition cx_query : query :=
  {| q_time := "20240101000000000"; q_pruner_empty := true; q_include := fun _ => true; q_excluded := [] |}.
Definition cx_keep (p : string) (l : list (string * list base_file)) := l.
Definition cx_groups : list file_group :=
  match list_file_groups_for_partition cx_list_files "parquet" cx_keep "" with Ok gs => gs | _ => [] end.
Definition cx_entry : string * list file_group := ("", cx_groups).

Fact cx_wf : wf_tree cx_root.
Proof. constructor; [constructor|intros ? ? []|intros ? ? []]. Qed.
Fact cx_listing : load_listing cx_list_files (tree_dirs cx_root) "parquet" false 1 cx_keep cx_query (Ok [cx_entry]).
Proof. exact (ll_unpartitioned cx_list_files (tree_dirs cx_root) "parquet" false 1 cx_keep cx_query eq_refl). Qed.
Fact cx_keep_perm : forall p l, Permutation l (cx_keep p l).
Proof. reflexivity. Qed.

Section Run.
Variable shards : nat.
Variable shard_of : string -> nat.
Hypothesis in_shards : forall p, shard_of p < shards.
Notation tstep := (task_step cx_list_files (tree_dirs cx_root) cx_fetch "parquet" false 1 shards shard_of).
Notation cstep := (conc_step cx_list_files (tree_dirs cx_root) cx_fetch "parquet" false 1 shards shard_of).
Notation j := (shard_of "").

Definition cx_task (p : phase) (m : mode) (k : nat) : task := {| t_query := cx_query; t_phase := p; t_mode := m; t_pauses := k |}.
Definition cx_empty : nat -> cache := fun _ => [].
Definition cx_shards : nat -> cache := set_shard cx_empty j [cx_entry].
(** Waiting for the metadata of the file, with the shard locked. *)
Definition cx_holder (m : mode) : task := cx_task (Visiting j [] [cx_entry] []) m 0.
Definition cx_inserter : task := cx_task (Inserting [cx_entry]) OnThread 1.

Lemma star_app : forall A (R : A -> A -> Prop) x y z, star R x y -> star R y z -> star R x z.
Proof. intros A R x y z H1 H2. induction H1; [assumption|]. eapply star_step; eauto. Qed.
Lemma cx_empty_on : forall i, List.length (filter on_thread (repeat (asked cx_query 1) i)) = 0.
Proof. induction i; [reflexivity|assumption]. Qed.
Lemma cx_no_locks : forall i, locks (repeat (asked cx_query 1) i) = [].
Proof. induction i; [reflexivity|assumption]. Qed.

Definition cx_like (sh : nat -> cache) : Prop := sh j = [cx_entry] /\ forall i, i <> j -> sh i = [].
(** The first task goes on to the shard with the entry. *)
Lemma cx_advance : forall n rest d i sh, locks rest = [] -> cx_like sh -> i + d = j ->
  exists sh', cx_like sh' /\ star (cstep n) {| c_shards := sh; c_tasks := cx_task (Visiting i [] (sh i) []) OnThread 1 :: rest |}
          {| c_shards := sh'; c_tasks := cx_task (Visiting j [] [cx_entry] []) OnThread 1 :: rest |}.
Proof.
  intros n rest d. induction d as [|d IH]; intros i sh L [S1 S2] E.
  - assert (i = j) as -> by lia. exists sh. rewrite S1. split; [now split|apply star_refl].
  - assert (B := in_shards ""). assert (C : cx_like (set_shard sh i [])).
    { split; [rewrite set_other by lia; assumption|]. intros k N. destruct (Nat.eq_dec k i) as [ -> |Nk]; [apply set_same|rewrite set_other by assumption; auto]. }
    destruct (IH (S i) (set_shard sh i []) L C ltac:(lia)) as [sh' [C' St]]. exists sh'. split; [assumption|]. eapply star_step; [|exact St].
    rewrite (S2 i) by lia. rewrite set_other by lia.
    apply (cs_run _ _ _ _ _ _ _ _ n sh [] (cx_task (Visiting i [] [] []) OnThread 1) rest); [reflexivity|].
    apply (ts_next _ _ _ _ _ _ _ _ _ _ (cx_task (Visiting i [] [] []) OnThread 1) i [] [] (sh (S i))); [reflexivity|lia| |reflexivity].
    cbn [app]. change (locks (cx_task (Visiting i [] [] []) OnThread 1 :: rest)) with (i :: locks rest). rewrite L. intros [X|[]]. lia.
Qed.

(** The first task locks the shard and waits. *)
Lemma cx_lock : forall n rest, 0 < n -> locks rest = [] -> filter on_thread rest = [] -> exists sh, cx_like sh /\
  star (cstep n) {| c_shards := cx_empty; c_tasks := asked cx_query 1 :: rest |} {| c_shards := sh; c_tasks := cx_holder Waiting :: rest |}.
Proof.
  intros n rest Pn L F.
  assert (C : cx_like (set_shard cx_empty j (cache_insert (cx_empty j) cx_entry))).
  { split; [now rewrite set_same|]. intros i N. now rewrite set_other. }
  destruct (cx_advance n rest j 0 _ L C eq_refl) as [sh [C' St]]. exists sh. split; [assumption|].
  eapply star_step; [apply (cs_schedule _ _ _ _ _ _ _ _ n cx_empty [] (asked cx_query 1) rest); [reflexivity|cbn; rewrite F; exact Pn]|]. cbn [app].
  change (as_mode (asked cx_query 1) OnThread) with (cx_task Asked OnThread 1).
  eapply star_step; [apply (cs_run _ _ _ _ _ _ _ _ n cx_empty [] (cx_task Asked OnThread 1) rest); [reflexivity|]; eapply ts_listed; [reflexivity|exact cx_keep_perm|exact cx_listing|reflexivity]|]. cbn [app].
  change (goes (cx_task Asked OnThread 1) (Inserting [cx_entry])) with (cx_task (Inserting [cx_entry]) OnThread 1).
  eapply star_step.
  { apply (cs_run _ _ _ _ _ _ _ _ n cx_empty [] (cx_task (Inserting [cx_entry]) OnThread 1) rest); [reflexivity|].
    apply (ts_insert _ _ _ _ _ _ _ _ _ _ (cx_task (Inserting [cx_entry]) OnThread 1) "" cx_groups []); [reflexivity|]. cbn [app].
    change (locks (cx_task (Inserting [cx_entry]) OnThread 1 :: rest)) with (locks rest). rewrite L. intros []. }
  cbn [app]. change (goes (cx_task (Inserting [cx_entry]) OnThread 1) (Inserting [])) with (cx_task (Inserting []) OnThread 1).
  eapply star_step.
  { apply (cs_run _ _ _ _ _ _ _ _ n _ [] (cx_task (Inserting []) OnThread 1) rest); [reflexivity|].
    eapply (ts_first _ _ _ _ _ _ _ _ _ _ (cx_task (Inserting []) OnThread 1)); [reflexivity| |apply Permutation_refl]. cbn [app].
    change (locks (cx_task (Inserting []) OnThread 1 :: rest)) with (locks rest). rewrite L. intros []. }
  cbn [app]. eapply star_app; [exact St|]. eapply star_step; [|apply star_refl].
  apply (cs_run _ _ _ _ _ _ _ _ n sh [] (cx_task (Visiting j [] [cx_entry] []) OnThread 1) rest); [reflexivity|].
  apply (ts_pause_fetch _ _ _ _ _ _ _ _ _ _ (cx_task (Visiting j [] [cx_entry] []) OnThread 1) j [] "" cx_groups [] [] 0); reflexivity.
Qed.

(** The others take the threads and wait for the lock. *)
Lemma cx_fill : forall n sh d i, i + d <= n ->
  star (cstep n) {| c_shards := sh; c_tasks := cx_holder Waiting :: repeat cx_inserter i ++ repeat (asked cx_query 1) d |}
                 {| c_shards := sh; c_tasks := cx_holder Waiting :: repeat cx_inserter (i + d) |}.
Proof.
  intros n sh d. induction d as [|d IH]; intros i Le.
  - cbn [repeat]. rewrite app_nil_r, Nat.add_0_r. apply star_refl.
  - replace (i + S d) with (S i + d) by lia. specialize (IH (S i) ltac:(lia)).
    assert (E : (repeat cx_inserter (S i) ++ repeat (asked cx_query 1) d = repeat cx_inserter i ++ cx_inserter :: repeat (asked cx_query 1) d)%list).
    { clear. induction i as [|i IH]; [reflexivity|]. cbn in *. now rewrite IH. }
    rewrite E in IH. cbn [repeat]. eapply star_step.
    { apply (cs_schedule _ _ _ _ _ _ _ _ n sh (cx_holder Waiting :: repeat cx_inserter i) (asked cx_query 1) (repeat (asked cx_query 1) d)); [reflexivity|].
      rewrite filter_mid. change (on_thread (asked cx_query 1)) with false. rewrite cx_empty_on. cbn [filter on_thread cx_holder cx_task t_mode].
      assert (X : List.length (filter on_thread (repeat cx_inserter i)) = i) by (clear; induction i; [reflexivity|]; cbn; now f_equal). rewrite X. lia. }
    eapply star_step; [|exact IH].
    apply (cs_run _ _ _ _ _ _ _ _ n sh (cx_holder Waiting :: repeat cx_inserter i) (as_mode (asked cx_query 1) OnThread) (repeat (asked cx_query 1) d)); [reflexivity|].
    change cx_inserter with (goes (as_mode (asked cx_query 1) OnThread) (Inserting [cx_entry])). eapply ts_listed; [reflexivity|exact cx_keep_perm|exact cx_listing|reflexivity].
Qed.

Lemma cx_reach : forall n, 0 < n -> exists sh, star (cstep n) (conc_start (repeat (cx_query, 1) (S n)))
  {| c_shards := sh; c_tasks := cx_holder Ready :: repeat cx_inserter n |}.
Proof.
  intros n Pn. assert (E : map (fun e : query * nat => asked (fst e) (snd e)) (repeat (cx_query, 1) n) = repeat (asked cx_query 1) n) by (clear; induction n; [reflexivity|]; cbn; now f_equal).
  assert (F : filter on_thread (repeat (asked cx_query 1) n) = []) by (clear; induction n; [reflexivity|assumption]).
  destruct (cx_lock n (repeat (asked cx_query 1) n) Pn (cx_no_locks n) F) as [sh [_ St]]. exists sh.
  unfold conc_start. cbn [repeat map fst snd]. rewrite E. change (fun _ : nat => @nil (string * list file_group)) with cx_empty.
  eapply star_app; [exact St|]. eapply star_app; [exact (cx_fill n sh n 0 ltac:(lia))|]. cbn [Nat.add].
  eapply star_step; [|apply star_refl]. exact (cs_wake _ _ _ _ _ _ _ _ n sh [] (cx_holder Waiting) (repeat cx_inserter n) eq_refl).
Qed.

Lemma cx_stuck : forall n sh, stuck (cstep n) {| c_shards := sh; c_tasks := cx_holder Ready :: repeat cx_inserter n |}.
Proof.
  intros n sh s' H.
  assert (In_cases : forall t, In t (cx_holder Ready :: repeat cx_inserter n) -> t = cx_holder Ready \/ t = cx_inserter).
  { intros t [ <- |I]; [now left|]. right. now apply repeat_spec in I. }
  assert (Cnt : List.length (filter on_thread (cx_holder Ready :: repeat cx_inserter n)) = n).
  { cbn [filter on_thread cx_holder cx_task t_mode]. clear. induction n; [reflexivity|]. cbn. now f_equal. }
  remember {| c_shards := sh; c_tasks := cx_holder Ready :: repeat cx_inserter n |} as s0 eqn:Es.
  destruct H as [sh0 l1 t l2 Hm Hn|sh0 l1 t l2 Hm|sh0 l1 t l2 sh' t' Hm Hs]; injection Es as -> El; assert (It := in_mid _ t l1 l2); rewrite El in *.
  - rewrite Cnt in Hn. lia.
  - destruct (In_cases t It) as [ -> | -> ]; discriminate Hm.
  - destruct (In_cases t It) as [ -> | -> ]; [discriminate Hm|].
    inversion Hs as [k E Ek|order listed rest E Po L Pe|order e E Po L|order E Po L|p gs rest E Nb|c E Nb Pe|i seen p gs todo acc E Ei|i seen p gs todo acc k E Ei Ek|i seen p gs todo acc gs' ss E Ei Eg|i seen p gs todo acc gs' e E Ei Eg|i seen p gs todo acc gs' E Ei Eg|i seen acc c E L Nb Pe|i seen acc E L]; try discriminate E.
    injection E as <- <- <-. apply Nb. now left.
Qed.
End Run.

(** Two threads: the first query is interrupted with the shard locked, the second waits for the lock, both are answered. *)
Definition cx_loaded : list file_group := fst (collect_groups cx_fetch (q_time cx_query) (q_excluded cx_query) cx_groups).
Definition cx_answer : list file_slice :=
  match snd (collect_groups cx_fetch (q_time cx_query) (q_excluded cx_query) cx_groups) with Ok ss => ss | _ => [] end.
Fact cx_answer_is : map (fun s => (base_file_name (fs_base s), option_map fm_num_records (bf_meta (fs_base s)))) cx_answer = [("f_0-1-2_20240101000000000.parquet", Some 1%Z)].
Proof. reflexivity. Qed.
Notation cx_step := (conc_step cx_list_files (tree_dirs cx_root) cx_fetch "parquet" false 1 1 (fun _ : string => 0)).

Fact cx_run : exists sh, star (cx_step 2) (conc_start [(cx_query, 1); (cx_query, 1)])
  {| c_shards := sh; c_tasks := [cx_task (Answered (Ok cx_answer)) OnThread 0; cx_task (Answered (Ok cx_answer)) OnThread 1] |}.
Proof.
  destruct (cx_lock 1 (fun _ => 0) ltac:(intros; cbn; lia) 2 [asked cx_query 1] ltac:(lia) eq_refl eq_refl) as [sh [[S1 _] St]].
  exists (set_shard (set_shard (set_shard sh 0 [("", cx_loaded)]) 0 (cache_insert [("", cx_loaded)] cx_entry)) 0 [("", cx_loaded)]).
  eapply star_app; [exact St|]. eapply star_app; [exact (cx_fill 1 (fun _ => 0) 2 sh 1 0 ltac:(lia))|]. cbn [Nat.add repeat].
  eapply star_step; [exact (cs_wake _ _ _ _ _ _ _ _ 2 sh [] (cx_holder _ Waiting) [cx_inserter] eq_refl)|]. cbn [app].
  eapply star_step; [apply (cs_schedule _ _ _ _ _ _ _ _ 2 sh [] _ [cx_inserter]); [reflexivity|cbn; lia]|]. cbn [app].
  eapply star_step; [apply (cs_run _ _ _ _ _ _ _ _ 2 sh [] _ [cx_inserter]); [reflexivity|]; eapply (ts_visit _ _ _ _ _ _ _ _ _ _ _ 0 [] "" cx_groups [] []); [reflexivity|reflexivity|vm_compute; reflexivity]|]. cbn [app].
  eapply star_step; [apply (cs_run _ _ _ _ _ _ _ _ 2 sh [] _ [cx_inserter]); [reflexivity|]; eapply ts_last; [reflexivity|lia]|]. cbn [app].
  eapply star_step.
  { eapply (cs_run _ _ _ _ _ _ _ _ 2 _ [_] cx_inserter []); [reflexivity|]. eapply (ts_insert _ _ _ _ _ _ _ _ _ _ _ "" cx_groups []); [reflexivity|]. intros []. }
  cbn [app]. eapply star_step.
  { eapply (cs_run _ _ _ _ _ _ _ _ 2 _ [_] _ []); [reflexivity|]. eapply ts_first; [reflexivity|intros []|]. rewrite !set_same. apply Permutation_refl. }
  cbn [app]. eapply star_step.
  { eapply (cs_run _ _ _ _ _ _ _ _ 2 _ [_] _ []); [reflexivity|]. eapply (ts_visit _ _ _ _ _ _ _ _ _ _ _ 0 [] "" cx_groups [] []); [reflexivity|reflexivity|vm_compute; reflexivity]. }
  cbn [app]. eapply star_step.
  { eapply (cs_run _ _ _ _ _ _ _ _ 2 _ [_] _ []); [reflexivity|]. eapply ts_last; [reflexivity|lia]. }
  apply star_refl.
Qed.
