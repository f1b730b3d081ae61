(** Model of crates/core/src/table/listing.rs, crates/core/src/storage/mod.rs:253-289 (leaf
    directories) and crates/core/src/table/fs_view.rs. *)
From Verif Require Import Base Str M_FileGroup M_Builder.
Local Open Scope string_scope.

(** table/partition.rs:32-33, metadata/mod.rs:21-29 *)
Definition PARTITION_METAFIELD_PREFIX := ".hoodie_partition_metadata".
Definition EMPTY_PARTITION_PATH := "".
Definition LAKE_FORMAT_METADATA_DIRS := [".hoodie"; "_delta_log"; "metadata"].

(** listing.rs:59-61 *)
Definition should_exclude_for_listing (name : string) : bool :=
  starts_with PARTITION_METAFIELD_PREFIX name || ends_with ".crc" name.

(** A [HashMap<String, Vec<V>>] filled by [entry(k).or_default().push(v)]; the model keeps the
    entries in order of first insertion, iteration order is a parameter. *)
Fixpoint hm_push {V} (k : string) (v : V) (m : list (string * list V)) : list (string * list V) :=
  match m with
  | [] => [(k, [v])]
  | (k', vs) :: r => if String.eqb k k' then (k', vs ++ [v])%list :: r else (k', vs) :: hm_push k v r
  end.
Fixpoint hm_get {V} (k : string) (m : list (string * list V)) : option (list V) :=
  match m with
  | [] => None
  | (k', vs) :: r => if String.eqb k k' then Some vs else hm_get k r
  end.

(** listing.rs:74-107: the loop over the listed files *)
Definition classify_step (format : string)
    (s : list (string * list base_file) * list (string * list log_file)) (m : file_meta)
  : outcome (list (string * list base_file) * list (string * list log_file)) :=
  let (bases, logs) := s in
  if should_exclude_for_listing (fm_name m) then Ok s
  else if ends_with ("." ++ format) (fm_name m) then
    let* b := base_file_try_from m in
    Ok (hm_push (bf_file_id b) b bases, logs)
  else match log_file_try_from m with
       | Ok l => Ok (bases, hm_push (lf_file_id l) l logs)
       | Err _ => Ok s
       | Panic => Panic
       end.

(** listing.rs:111-121: one file group.  [file_id_to_log_files.remove] is a lookup: no id occurs
    twice among the base files. *)
Definition list_group (partition : string) (logs : list (string * list log_file)) (e : string * list base_file)
  : outcome file_group :=
  let* g := lift_mut (add_base_files (new_group (fst e) partition) (snd e)) in
  lift_mut (add_log_files g (match hm_get (fst e) logs with Some l => l | None => [] end)).

Section Listing.
(** [Storage::list_files] and [Storage::list_dirs] of a path relative to the table (storage/mod.rs:217-252). *)
Variable list_files : string -> outcome (list file_meta).
Variable list_dirs : string -> outcome (list string).
(** The configured base file format. *)
Variable format : string.
(** Iteration order of the map of base files of a partition. *)
Variable order : string -> list (string * list base_file) -> list (string * list base_file).

(** listing.rs:63-123 [list_file_groups_for_partition] *)
Definition list_file_groups_for_partition (partition : string) : outcome (list file_group) :=
  let* listed := list_files partition in
  let* (bases, logs) := foldM (classify_step format) ([], []) listed in
  mapM (list_group partition logs) (order partition bases).

(** storage/mod.rs:265-289 [get_leaf_dirs] with [subdir = Some path].  The recursion is bounded by
    fuel, [None] meaning that the fuel ran out; [path_join] is [PathBuf::push]. *)
Fixpoint get_leaf_dirs (fuel : nat) (path : string) : option (outcome (list string)) :=
  match fuel with
  | O => None
  | S fuel' =>
      match list_dirs path with
      | Ok [] => Some (Ok [path])
      | Ok children =>
          (fix loop (l : list string) : option (outcome (list string)) :=
             match l with
             | [] => Some (Ok [])
             | c :: r =>
                 match get_leaf_dirs fuel' (path_join path c) with
                 | Some (Ok leaves) =>
                     match loop r with
                     | Some (Ok rest) => Some (Ok (leaves ++ rest)%list)
                     | other => other
                     end
                 | other => other
                 end
             end) children
      | Err e => Some (Err e)
      | Panic => Some Panic
      end
  end.

(** listing.rs:135-146: the leaf directories under the data directories at the top level *)
Fixpoint leaf_dirs_of (fuel : nat) (dirs : list string) : option (outcome (list string)) :=
  match dirs with
  | [] => Some (Ok [])
  | d :: r =>
      match get_leaf_dirs fuel d with
      | Some (Ok leaves) =>
          match leaf_dirs_of fuel r with
          | Some (Ok rest) => Some (Ok (leaves ++ rest)%list)
          | other => other
          end
      | other => other
      end
  end.

(** listing.rs:125-156 [list_relevant_partition_paths].  The partition pruner is given by its two
    methods: [is_empty] and [should_include]. *)
Definition list_relevant_partition_paths (fuel : nat) (partitioned pruner_empty : bool) (include : string -> bool)
  : option (outcome (list string)) :=
  if negb partitioned then Some (Ok [EMPTY_PARTITION_PATH])
  else match list_dirs "" with
       | Ok tops =>
           match leaf_dirs_of fuel (filter (fun d => negb (existsb (String.eqb d) LAKE_FORMAT_METADATA_DIRS)) tops) with
           | Some (Ok paths) =>
               if (match paths with [] => true | _ => false end) || pruner_empty then Some (Ok paths)
               else Some (Ok (filter include paths))
           | other => other
           end
       | Err e => Some (Err e)
       | Panic => Some Panic
       end.
End Listing.

(** ** Concurrency of listing.rs:171-190

    [stream::iter(paths).map(list).buffer_unordered(n).try_for_each(insert)]: futures are taken
    from the stream in order as long as fewer than [n] are in flight, they complete in any order,
    a completed one is inserted in the map, and the first error ends everything (the futures still
    in flight are dropped).  One listing is one step here; its inner suspension points do not
    touch shared state. *)
Section Parallel.
Variable V : Type.
Variable work : string -> outcome V.

Inductive par_state :=
| Running (pending inflight : list string) (done : list (string * V))
| Finished (done : list (string * V))
| Failed (e : option err).     (* [None]: a panic *)

Inductive par_step (n : nat) : par_state -> par_state -> Prop :=
| ps_start : forall p pending inflight done, List.length inflight < n ->
    par_step n (Running (p :: pending) inflight done) (Running pending (inflight ++ [p])%list done)
| ps_complete : forall pending l1 p l2 done v, work p = Ok v ->
    par_step n (Running pending (l1 ++ p :: l2)%list done) (Running pending (l1 ++ l2)%list ((p, v) :: done))
| ps_error : forall pending l1 p l2 done e, work p = Err e ->
    par_step n (Running pending (l1 ++ p :: l2)%list done) (Failed (Some e))
| ps_panic : forall pending l1 p l2 done, work p = Panic ->
    par_step n (Running pending (l1 ++ p :: l2)%list done) (Failed None)
(** The end of the stream is only noticed when the stream is polled, which needs room for one
    more future. *)
| ps_finish : forall done, 0 < n -> par_step n (Running [] [] done) (Finished done).
End Parallel.
Arguments Running {V} pending inflight done.
Arguments par_step {V} work n.
Arguments Finished {V} done.
Arguments Failed {V} e.

(** ** The file system view, fs_view.rs *)
Section View.
(** [Storage::get_file_metadata] (storage/mod.rs:118-145) of a path relative to the table. *)
Variable file_metadata : string -> outcome file_meta.

Definition set_meta (b : base_file) (m : file_meta) : base_file :=
  {| bf_file_id := bf_file_id b; bf_write_token := bf_write_token b; bf_commit := bf_commit b;
     bf_ext := bf_ext b; bf_meta := Some m |}.
Definition with_base (s : file_slice) (b : base_file) : file_slice :=
  {| fs_base := b; fs_logs := fs_logs s; fs_partition := fs_partition s |}.

(** file_slice.rs:113-126 [load_metadata_if_needed] *)
Definition load_metadata_if_needed (s : file_slice) : outcome file_slice :=
  let fetch := let* m := file_metadata (base_relative_path s) in Ok (with_base s (set_meta (fs_base s) m)) in
  match bf_meta (fs_base s) with
  | Some m => if fm_populated m then Ok s else fetch
  | None => fetch
  end.

(** The cache: [DashMap<String, Vec<FileGroup>>], as an association list without duplicate keys. *)
Definition cache := list (string * list file_group).
Definition cache_insert (c : cache) (e : string * list file_group) : cache :=
  e :: filter (fun x => negb (String.eqb (fst x) (fst e))) c.
(** fs_view.rs:57-69: the inserts of [load_file_groups] *)
Definition cache_load (c : cache) (listed : cache) : cache := fold_left cache_insert listed c.

(** fs_view.rs:83-93: the inner loop over the groups of one partition; the group list after the
    loop (slices updated in place, also when a later slice fails) and the slices collected. *)
Fixpoint collect_groups (t : string) (excluded : groups) (l : list file_group)
  : list file_group * outcome (list file_slice) :=
  match l with
  | [] => ([], Ok [])
  | g :: r =>
      if gs_mem g excluded then
        let (r', o) := collect_groups t excluded r in (g :: r', o)
      else match entry_as_of g t with
           | None => let (r', o) := collect_groups t excluded r in (g :: r', o)
           | Some (k, s) =>
               match load_metadata_if_needed s with
               | Ok s' =>
                   let g' := with_slices g (slices_update k (fun _ => s') (fg_slices g)) in
                   let (r', o) := collect_groups t excluded r in
                   (g' :: r', let* ss := o in Ok (s' :: ss))
               | Err e => (g :: r, Err e)
               | Panic => (g :: r, Panic)
               end
           end
  end.

(** fs_view.rs:71-95 [collect_file_slices_as_of], over the entries in iteration order *)
Fixpoint collect (t : string) (include : string -> bool) (excluded : groups) (c : cache)
  : cache * outcome (list file_slice) :=
  match c with
  | [] => ([], Ok [])
  | (p, gs) :: r =>
      if include p then
        match collect_groups t excluded gs with
        | (gs', Ok ss) =>
            let (r', o) := collect t include excluded r in
            ((p, gs') :: r', let* ss' := o in Ok (ss ++ ss')%list)
        | (gs', Err e) => ((p, gs') :: r, Err e)
        | (gs', Panic) => ((p, gs') :: r, Panic)
        end
      else let (r', o) := collect t include excluded r in ((p, gs) :: r', o)
  end.
End View.

(** Executions: any number of steps. *)
Section Star.
Variable A : Type.
Variable R : A -> A -> Prop.
Inductive star : A -> A -> Prop :=
| star_refl : forall x, star x x
| star_step : forall x y z, R x y -> star y z -> star x z.
End Star.
Arguments star {A} R.

(** ** A query on the file system view, fs_view.rs:57-69 and 97-106 *)
Record query := {
  q_time : string;
  q_pruner_empty : bool;
  q_include : string -> bool;
  q_excluded : groups
}.

Section Query.
Variable list_files : string -> outcome (list file_meta).
Variable list_dirs : string -> outcome (list string).
Variable file_metadata : string -> outcome file_meta.
Variable format : string.
Variable partitioned : bool.
Variable parallelism : nat.

(** listing.rs:158-192 [list_file_groups_for_relevant_partitions] under some schedule *)
Inductive load_listing (order : string -> list (string * list base_file) -> list (string * list base_file)) (q : query)
  : outcome cache -> Prop :=
| ll_unpartitioned : partitioned = false ->
    load_listing order q (let* gs := list_file_groups_for_partition list_files format order EMPTY_PARTITION_PATH in
                          Ok [(EMPTY_PARTITION_PATH, gs)])
| ll_no_paths : forall fuel e, partitioned = true ->
    list_relevant_partition_paths list_dirs fuel true (q_pruner_empty q) (q_include q) = Some (Err e) ->
    load_listing order q (Err e)
| ll_no_paths_panic : forall fuel, partitioned = true ->
    list_relevant_partition_paths list_dirs fuel true (q_pruner_empty q) (q_include q) = Some Panic ->
    load_listing order q Panic
| ll_finished : forall fuel paths done, partitioned = true ->
    list_relevant_partition_paths list_dirs fuel true (q_pruner_empty q) (q_include q) = Some (Ok paths) ->
    star (par_step (list_file_groups_for_partition list_files format order) parallelism)
      (Running paths [] []) (Finished done) ->
    load_listing order q (Ok done)
| ll_failed : forall fuel paths e, partitioned = true ->
    list_relevant_partition_paths list_dirs fuel true (q_pruner_empty q) (q_include q) = Some (Ok paths) ->
    star (par_step (list_file_groups_for_partition list_files format order) parallelism)
      (Running paths [] []) (Failed e) ->
    load_listing order q (match e with Some e' => Err e' | None => Panic end).

(** The cache before, the cache after and the answer.  The iteration orders of the hash maps are
    arbitrary. *)
Inductive view_query : cache -> query -> cache -> outcome (list file_slice) -> Prop :=
| vq_ok : forall order c q listed c1 c' r,
    (forall p l, Permutation l (order p l)) ->
    load_listing order q (Ok listed) ->
    Permutation (cache_load c listed) c1 ->
    collect file_metadata (q_time q) (q_include q) (q_excluded q) c1 = (c', r) ->
    view_query c q c' r
| vq_err : forall order c q e,
    (forall p l, Permutation l (order p l)) -> load_listing order q (Err e) -> view_query c q c (Err e)
| vq_panic : forall order c q,
    (forall p l, Permutation l (order p l)) -> load_listing order q Panic -> view_query c q c Panic.

(** The cache after a history of queries on a new table. *)
Inductive view_history : cache -> Prop :=
| vh_new : view_history []
| vh_query : forall c q c' r, view_history c -> (q_pruner_empty q = true -> forall p, q_include q p = true) ->
    view_query c q c' r -> view_history c'.
End Query.
