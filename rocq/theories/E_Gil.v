(** Two Python threads and one table object, used beside C98. *)
From Verif Require Import Base Str M_FileGroup M_Builder M_Listing M_Concurrent M_Gil S_FileGroup S_Listing S_Concurrent S_Gil L_Concurrent E_Concurrent.
Local Open Scope string_scope.
Local Open Scope nat_scope.

Notation yx_step := (py_step cx_list_files (tree_dirs cx_root) cx_fetch "parquet" false 1 1 (fun _ : string => 0)).
Definition yx_call (m : py_method) (g : stage) (t : task) : pycall := {| y_method := m; y_stage := g; y_task := t |}.

Definition yx_calls : list (py_method * query * nat) := [(GetFileSlices, cx_query, 1); (ReadSnapshot, cx_query, 0)].
Definition yx_state (sh : nat -> cache) (g1 : stage) (t1 : task) (g2 : stage) (t2 : task) : pystate :=
  {| y_shards := sh; y_calls := [yx_call GetFileSlices g1 t1; yx_call ReadSnapshot g2 t2] |}.

Section Two.
Variables (sh : nat -> cache) (g1 g2 : stage) (t1 t2 : task).
Notation kstep := (call_step cx_list_files (tree_dirs cx_root) cx_fetch "parquet" false 1 1 (fun _ : string => 0)).
Lemma yx_first : forall z sh' g t, kstep (gil_free [yx_call GetFileSlices g1 t1; yx_call ReadSnapshot g2 t2]) (locks [t1; t2]) sh (yx_call GetFileSlices g1 t1) sh' (yx_call GetFileSlices g t) ->
  star yx_step (yx_state sh' g t g2 t2) z -> star yx_step (yx_state sh g1 t1 g2 t2) z.
Proof. intros z sh' g t K St. eapply star_step; [|exact St]. exact (py_call _ _ _ _ _ _ _ _ sh [] _ [_] sh' _ K). Qed.
Lemma yx_second : forall z sh' g t, kstep (gil_free [yx_call GetFileSlices g1 t1; yx_call ReadSnapshot g2 t2]) (locks [t1; t2]) sh (yx_call ReadSnapshot g2 t2) sh' (yx_call ReadSnapshot g t) ->
  star yx_step (yx_state sh' g1 t1 g t) z -> star yx_step (yx_state sh g1 t1 g2 t2) z.
Proof. intros z sh' g t K St. eapply star_step; [|exact St]. exact (py_call _ _ _ _ _ _ _ _ sh [_] _ [] sh' _ K). Qed.
End Two.

(** The slices are asked for first; the call is interrupted with the shard locked. *)
Definition yx_held (g2 : stage) (t2 : task) : pystate := yx_state (set_shard cx_empty 0 [cx_entry]) Blocking (cx_holder (fun _ => 0) Waiting) g2 t2.
Fact yx_lock : star yx_step (py_start yx_calls) (yx_held Outside (asked cx_query 0)).
Proof.
  change (py_start yx_calls) with (yx_state cx_empty Outside (asked cx_query 1) Outside (asked cx_query 0)).
  eapply yx_first; [apply ys_enter; reflexivity|]. eapply yx_first; [apply ys_block; reflexivity|].
  eapply yx_first; [apply ys_poll; reflexivity|].
  eapply yx_first; [eapply ys_run; [reflexivity|reflexivity|]; eapply ts_listed; [reflexivity|exact cx_keep_perm|exact cx_listing|reflexivity]|].
  eapply yx_first; [eapply ys_run; [reflexivity|reflexivity|]; eapply (ts_insert _ _ _ _ _ _ _ _ _ _ _ "" cx_groups []); [reflexivity|intros []]|].
  eapply yx_first; [eapply ys_run; [reflexivity|reflexivity|]; eapply ts_first; [reflexivity|intros []|apply Permutation_refl]|].
  eapply yx_first; [eapply ys_run; [reflexivity|reflexivity|]; eapply (ts_pause_fetch _ _ _ _ _ _ _ _ _ _ _ 0 [] "" cx_groups [] [] 0); reflexivity|].
  apply star_refl.
Qed.
(** The read goes on with the GIL until it waits for the shard, while the first call needs the GIL to come back. *)
Fact yx_cross : star yx_step (py_start yx_calls) (yx_held Blocking (cx_task (Inserting [cx_entry]) OnThread 0)).
Proof.
  eapply star_app; [exact yx_lock|]. unfold yx_held.
  eapply yx_second; [apply ys_enter; reflexivity|]. eapply yx_second; [apply ys_block; reflexivity|].
  eapply yx_second; [apply ys_poll; reflexivity|].
  eapply yx_second; [eapply ys_run; [reflexivity|reflexivity|]; eapply ts_listed; [reflexivity|exact cx_keep_perm|exact cx_listing|reflexivity]|].
  apply star_refl.
Qed.
Definition yx_end (sh : nat -> cache) : pystate :=
  yx_state sh Returned (cx_task (Answered (Ok cx_answer)) OnThread 0) Returned (cx_task (Answered (Ok cx_answer)) OnThread 0).
Fact yx_run : exists sh, star yx_step (yx_held Blocking (cx_task (Inserting [cx_entry]) OnThread 0)) (yx_end sh).
Proof.
  eexists. unfold yx_held.
  eapply yx_first; [apply ys_wake; reflexivity|]. eapply yx_first; [apply ys_poll; reflexivity|].
  eapply yx_first; [eapply ys_run; [reflexivity|reflexivity|]; eapply (ts_visit _ _ _ _ _ _ _ _ _ _ _ 0 [] "" cx_groups [] []); [reflexivity|reflexivity|vm_compute; reflexivity]|].
  eapply yx_first; [eapply ys_run; [reflexivity|reflexivity|]; eapply ts_last; [reflexivity|lia]|].
  eapply yx_second; [eapply ys_run; [reflexivity|reflexivity|]; eapply (ts_insert _ _ _ _ _ _ _ _ _ _ _ "" cx_groups []); [reflexivity|intros []]|].
  eapply yx_second; [eapply ys_run; [reflexivity|reflexivity|]; eapply ts_first; [reflexivity|intros []|rewrite !set_same; apply Permutation_refl]|].
  eapply yx_second; [eapply ys_run; [reflexivity|reflexivity|]; eapply (ts_visit _ _ _ _ _ _ _ _ _ _ _ 0 [] "" cx_groups [] []); [reflexivity|reflexivity|vm_compute; reflexivity]|].
  eapply yx_second; [eapply ys_run; [reflexivity|reflexivity|]; eapply ts_last; [reflexivity|lia]|].
  eapply yx_second; [eapply ys_done; [reflexivity|reflexivity|left; reflexivity]|].
  eapply yx_second; [apply ys_return; reflexivity|].
  eapply yx_first; [eapply ys_done; [reflexivity|reflexivity|right; reflexivity]|].
  eapply yx_first; [apply ys_return; reflexivity|].
  apply star_refl.
Qed.
Fact yx_stuck : forall sh, py_stuck yx_step (yx_end sh).
Proof.
  intros sh s' H. remember (yx_end sh) as s eqn:E. destruct H as [sh0 l1 c l2 sh' c' K]. injection E as -> E.
  assert (R : y_stage c = Returned).
  { assert (I : In c (l1 ++ c :: l2)) by (apply in_or_app; right; now left). rewrite E in I. destruct I as [ <- |[ <- |[]]]; reflexivity. }
  destruct K; congruence.
Qed.
