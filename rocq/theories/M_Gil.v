(** Model of calls from Python threads on one table object.

    The Python class [HudiTable] holds a [Table] (python/src/internal.rs:245-248); Python threads share it.  Every
    method runs a future to its end on the caller's own thread with [rt().block_on] (internal.rs:604-608), so a
    thread is there for every call.  A Python thread runs only while it holds the global interpreter lock (GIL);
    a method is entered and left with the GIL held.  Some methods give it up while they block
    ([py.allow_threads]), the others keep it. *)
From Verif Require Import Base Str M_FileGroup M_Builder M_Listing M_Concurrent.
Local Open Scope string_scope.

(** The methods of [HudiTable] that ask the file system view of the table.  The methods that do not ask it share
    nothing that is locked, and are not modelled here. *)
Inductive py_method := GetFileSlices | GetFileSlicesAsOf | GetFileSlicesSplits | GetFileSlicesSplitsAsOf | ReadSnapshot | ReadSnapshotAsOf.

(** Whether the method blocks with the GIL held: internal.rs:375, 392, 332, 353 call [py.allow_threads];
    internal.rs:434-445 and 447-462 do not. *)
Definition keeps_gil (m : py_method) : bool :=
  match m with ReadSnapshot | ReadSnapshotAsOf => true | _ => false end.

(** Where a call is: before the call, in the method with the GIL held, in [block_on], after it with the GIL held, returned
    to its caller. *)
Inductive stage := Outside | Entered | Blocking | Leaving | Returned.
(** A call with its query of the view.  What a read does after the query, reading the files of the slices, shares
    nothing and is part of the last step of its task here. *)
Record pycall := { y_method : py_method; y_stage : stage; y_task : task }.
Record pystate := { y_shards : nat -> cache; y_calls : list pycall }.

Definition at_stage (c : pycall) (g : stage) : pycall := {| y_method := y_method c; y_stage := g; y_task := y_task c |}.
Definition with_task (c : pycall) (t : task) : pycall := {| y_method := y_method c; y_stage := y_stage c; y_task := t |}.
(** The call holds the GIL. *)
Definition has_gil (c : pycall) : bool :=
  match y_stage c with Entered | Leaving => true | Blocking => keeps_gil (y_method c) | _ => false end.
Definition gil_free (l : list pycall) : bool := negb (existsb has_gil l).

Section Python.
Variable list_files : string -> outcome (list file_meta).
Variable list_dirs : string -> outcome (list string).
Variable file_metadata : string -> outcome file_meta.
Variable format : string.
Variable partitioned : bool.
Variable parallelism : nat.
Variable shards : nat.
Variable shard_of : string -> nat.

(** What one call does in one step, when the GIL is free ([gil]) or not and the locks [busy] are held. *)
Inductive call_step (gil : bool) (busy : list nat) (sh : nat -> cache) (c : pycall) : (nat -> cache) -> pycall -> Prop :=
(** The thread gets the GIL and calls the method. *)
| ys_enter : y_stage c = Outside -> gil = true -> call_step gil busy sh c sh (at_stage c Entered)
(** [block_on], inside [allow_threads] or not. *)
| ys_block : y_stage c = Entered -> call_step gil busy sh c sh (at_stage c Blocking)
(** The thread of the caller polls the task, sleeps until it is woken, and polls it again. *)
| ys_poll : y_stage c = Blocking -> t_mode (y_task c) = Ready ->
    call_step gil busy sh c sh (with_task c (as_mode (y_task c) OnThread))
| ys_wake : y_stage c = Blocking -> t_mode (y_task c) = Waiting ->
    call_step gil busy sh c sh (with_task c (as_mode (y_task c) Ready))
| ys_run : forall sh' t', y_stage c = Blocking -> t_mode (y_task c) = OnThread ->
    task_step list_files list_dirs file_metadata format partitioned parallelism shards shard_of busy sh (y_task c) sh' t' ->
    call_step gil busy sh c sh' (with_task c t')
(** [block_on] is done; a call that gave the GIL up has to get it back. *)
| ys_done : forall r, y_stage c = Blocking -> t_phase (y_task c) = Answered r -> (keeps_gil (y_method c) = true \/ gil = true) ->
    call_step gil busy sh c sh (at_stage c Leaving)
(** The result, an exception or a Rust panic goes to the caller, who gives the GIL up sooner or later. *)
| ys_return : y_stage c = Leaving -> call_step gil busy sh c sh (at_stage c Returned).

Inductive py_step : pystate -> pystate -> Prop :=
| py_call : forall sh l1 c l2 sh' c', call_step (gil_free (l1 ++ c :: l2)) (locks (map y_task (l1 ++ c :: l2))) sh c sh' c' ->
    py_step {| y_shards := sh; y_calls := (l1 ++ c :: l2)%list |} {| y_shards := sh'; y_calls := (l1 ++ c' :: l2)%list |}.
End Python.

(** A new table object and the calls that threads are about to make of it, each with some number of interruptions. *)
Definition py_start (cs : list (py_method * query * nat)) : pystate :=
  {| y_shards := fun _ => [];
     y_calls := map (fun e => {| y_method := fst (fst e); y_stage := Outside; y_task := asked (snd (fst e)) (snd e) |}) cs |}.
