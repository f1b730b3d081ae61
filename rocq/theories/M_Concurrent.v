(** Model of concurrent queries on one table object.

    A [Table] is shared between tasks; its file system view keeps the listed file groups in one
    [Arc<DashMap<String, Vec<FileGroup>>>] (table/fs_view.rs:37-41).  A DashMap is an array of shards, each behind a
    read-write lock that blocks the thread (not the task); [insert] locks the shard of the key for one call,
    [iter_mut] locks the shards in turn and keeps a shard locked as long as an entry of it is in use.

    The tasks run on a pool of worker threads.  A task that awaits something that is not ready leaves its
    thread; a task that waits for a lock stays on it. *)
From Verif Require Import Base Str M_FileGroup M_Builder M_Listing.
Local Open Scope string_scope.

(** Where a query is.  [Visiting i seen todo acc]: in the loop of fs_view.rs:78-93, the write lock of shard [i]
    is held, [seen] and [todo] are the entries of the shard already visited and still to visit, [acc] the
    slices collected. *)
Inductive phase :=
| Asked
| Inserting (rest : cache)
| Visiting (i : nat) (seen todo : cache) (acc : list file_slice)
| Answered (r : outcome (list file_slice)).

(** What a task is doing as seen by the runtime: ready to run, on a thread, or waiting for I/O. *)
Inductive mode := Ready | OnThread | Waiting.

(** [t_pauses]: how many more times an awaited future will turn out not to be ready. *)
Record task := { t_query : query; t_phase : phase; t_mode : mode; t_pauses : nat }.
Record conc := { c_shards : nat -> cache; c_tasks : list task }.

Definition set_shard (sh : nat -> cache) (i : nat) (c : cache) : nat -> cache := fun j => if Nat.eqb j i then c else sh j.
(** The shard locks held by a task. *)
Definition held (t : task) : list nat := match t_phase t with Visiting i _ _ _ => [i] | _ => [] end.
Definition locks (l : list task) : list nat := flat_map held l.
Definition on_thread (t : task) : bool :=
  match t_mode t, t_phase t with OnThread, Answered _ => false | OnThread, _ => true | _, _ => false end.

Definition goes (t : task) (p : phase) : task := {| t_query := t_query t; t_phase := p; t_mode := t_mode t; t_pauses := t_pauses t |}.
Definition waits (t : task) (k : nat) : task := {| t_query := t_query t; t_phase := t_phase t; t_mode := Waiting; t_pauses := k |}.
Definition as_mode (t : task) (m : mode) : task := {| t_query := t_query t; t_phase := t_phase t; t_mode := m; t_pauses := t_pauses t |}.

Section Concurrent.
Variable list_files : string -> outcome (list file_meta).
Variable list_dirs : string -> outcome (list string).
Variable file_metadata : string -> outcome file_meta.
Variable format : string.
Variable partitioned : bool.
Variable parallelism : nat.
(** The shards of the map. *)
Variable shards : nat.
Variable shard_of : string -> nat.

(** One step of a task on its thread, when the locks [busy] are held by some task; the shards and the task
    afterwards.  What a lock holder changes in its shard is written back when it gives the lock up: nobody else
    can look at the shard before. *)
Inductive task_step (busy : list nat) (sh : nat -> cache) (t : task) : (nat -> cache) -> task -> Prop :=
(** fs_view.rs:63: listing the files, interrupted any number of times *)
| ts_pause_listing : forall k, t_phase t = Asked -> t_pauses t = S k -> task_step busy sh t sh (waits t k)
| ts_listed : forall order listed rest, t_phase t = Asked -> (forall p l, Permutation l (order p l)) ->
    load_listing list_files list_dirs format partitioned parallelism order (t_query t) (Ok listed) ->
    Permutation listed rest -> task_step busy sh t sh (goes t (Inserting rest))
| ts_listing_err : forall order e, t_phase t = Asked -> (forall p l, Permutation l (order p l)) ->
    load_listing list_files list_dirs format partitioned parallelism order (t_query t) (Err e) ->
    task_step busy sh t sh (goes t (Answered (Err e)))
| ts_listing_panic : forall order, t_phase t = Asked -> (forall p l, Permutation l (order p l)) ->
    load_listing list_files list_dirs format partitioned parallelism order (t_query t) Panic ->
    task_step busy sh t sh (goes t (Answered Panic))
(** fs_view.rs:64-67: one insert, which waits for the lock of the key's shard *)
| ts_insert : forall p gs rest, t_phase t = Inserting ((p, gs) :: rest) -> ~ In (shard_of p) busy ->
    task_step busy sh t (set_shard sh (shard_of p) (cache_insert (sh (shard_of p)) (p, gs))) (goes t (Inserting rest))
(** fs_view.rs:78: the first shard is locked; the order of its entries is arbitrary *)
| ts_first : forall c, t_phase t = Inserting [] -> ~ In 0 busy -> Permutation (sh 0) c ->
    task_step busy sh t sh (goes t (Visiting 0 [] c []))
(** fs_view.rs:79-81: an entry that the partition filter leaves out *)
| ts_skip : forall i seen p gs todo acc, t_phase t = Visiting i seen ((p, gs) :: todo) acc -> q_include (t_query t) p = false ->
    task_step busy sh t sh (goes t (Visiting i (seen ++ [(p, gs)])%list todo acc))
(** fs_view.rs:88: fetching the metadata of a file, interrupted any number of times; the entry, and with it the
    lock of the shard, is kept.  The fetches of one entry are one step here. *)
| ts_pause_fetch : forall i seen p gs todo acc k, t_phase t = Visiting i seen ((p, gs) :: todo) acc ->
    q_include (t_query t) p = true -> t_pauses t = S k -> task_step busy sh t sh (waits t k)
(** fs_view.rs:82-92 *)
| ts_visit : forall i seen p gs todo acc gs' ss, t_phase t = Visiting i seen ((p, gs) :: todo) acc ->
    q_include (t_query t) p = true ->
    collect_groups file_metadata (q_time (t_query t)) (q_excluded (t_query t)) gs = (gs', Ok ss) ->
    task_step busy sh t sh (goes t (Visiting i (seen ++ [(p, gs')])%list todo (acc ++ ss)%list))
| ts_visit_err : forall i seen p gs todo acc gs' e, t_phase t = Visiting i seen ((p, gs) :: todo) acc ->
    q_include (t_query t) p = true ->
    collect_groups file_metadata (q_time (t_query t)) (q_excluded (t_query t)) gs = (gs', Err e) ->
    task_step busy sh t (set_shard sh i (seen ++ (p, gs') :: todo)%list) (goes t (Answered (Err e)))
| ts_visit_panic : forall i seen p gs todo acc gs', t_phase t = Visiting i seen ((p, gs) :: todo) acc ->
    q_include (t_query t) p = true ->
    collect_groups file_metadata (q_time (t_query t)) (q_excluded (t_query t)) gs = (gs', Panic) ->
    task_step busy sh t (set_shard sh i (seen ++ (p, gs') :: todo)%list) (goes t (Answered Panic))
(** DashMap's iterator locks the next shard before it gives up the one before *)
| ts_next : forall i seen acc c, t_phase t = Visiting i seen [] acc -> S i < shards -> ~ In (S i) busy -> Permutation (sh (S i)) c ->
    task_step busy sh t (set_shard sh i seen) (goes t (Visiting (S i) [] c acc))
(** fs_view.rs:94 *)
| ts_last : forall i seen acc, t_phase t = Visiting i seen [] acc -> shards <= S i ->
    task_step busy sh t (set_shard sh i seen) (goes t (Answered (Ok acc))).

(** One step of the runtime with [n] threads. *)
Inductive conc_step (n : nat) : conc -> conc -> Prop :=
| cs_schedule : forall sh l1 t l2, t_mode t = Ready -> List.length (filter on_thread (l1 ++ t :: l2)) < n ->
    conc_step n {| c_shards := sh; c_tasks := (l1 ++ t :: l2)%list |} {| c_shards := sh; c_tasks := (l1 ++ as_mode t OnThread :: l2)%list |}
| cs_wake : forall sh l1 t l2, t_mode t = Waiting ->
    conc_step n {| c_shards := sh; c_tasks := (l1 ++ t :: l2)%list |} {| c_shards := sh; c_tasks := (l1 ++ as_mode t Ready :: l2)%list |}
| cs_run : forall sh l1 t l2 sh' t', t_mode t = OnThread -> task_step (locks (l1 ++ t :: l2)) sh t sh' t' ->
    conc_step n {| c_shards := sh; c_tasks := (l1 ++ t :: l2)%list |} {| c_shards := sh'; c_tasks := (l1 ++ t' :: l2)%list |}.
End Concurrent.

(** A new table object with queries asked of it, each with some number of interruptions to come. *)
Definition asked (q : query) (k : nat) : task := {| t_query := q; t_phase := Asked; t_mode := Ready; t_pauses := k |}.
Definition conc_start (qs : list (query * nat)) : conc :=
  {| c_shards := fun _ => []; c_tasks := map (fun e => asked (fst e) (snd e)) qs |}.
