(** Specification of the queries of a table. *)
From Verif Require Import Base Str M_Time M_Instant M_Timeline M_FileGroup M_Builder M_Listing M_Expr M_Utf8
  S_Time S_Timeline S_FileGroup S_Builder S_Listing S_Expr.
Local Open Scope string_scope.

(** ** Splits *)
(** At most [max 1 n] pieces, none empty, in order nothing lost and nothing repeated, all of the same
    size except that the last may be shorter. *)
Definition split_into {A} (n : nat) (whole : list A) (parts : list (list A)) : Prop :=
  (List.length parts <= Nat.max 1 n)%nat
  /\ List.concat parts = whole
  /\ (forall p, In p parts -> p <> [])
  /\ exists size, (forall before p after, parts = (before ++ p :: after)%list ->
       (List.length p <= size)%nat /\ (after <> [] -> List.length p = size)).

(** ** Snapshots of a table *)
(** The partitions of a table: its data directories, or the table directory itself. *)
Definition table_partition (partitioned : bool) (root : tree) (p : string) : Prop :=
  if partitioned then partition_dir root p else p = "".

(** A replacecommit completed at or before the time says that the file group is gone. *)
Definition replaced_by_time (read : string -> outcome (list (string * json))) (commits : list instant) (time : Z) (g : string * string) : Prop :=
  exists i md, commit_in read commits None (Some time) i md /\ i_action i = ReplaceCommit /\ replaces md (fst g) (snd g).

Section Filters.
Variable dtype value : Type.
Variable cast : dtype -> string -> option value.
Variable cmp : value -> value -> option comparison.
(** The partition fields with their types in the order of the path, and how paths are written. *)
Variable fields : list (string * dtype).
Variable hive url : bool.

(** The path stands for these values, and they can be compared with the filters. *)
Definition stands_for (filters : list filter_expr) (path : string) (values : list string) : Prop :=
  named hive url fields values path /\ List.length values = List.length fields
  /\ Forall (fun v => has_char "/" v = false) values
  /\ (url = true -> Forall (fun v => utf8_valid v = true) values /\ Forall (fun n => utf8_valid n = true) (map fst fields))
  /\ (forall f v, In (f, v) (combine fields values) -> cast (snd f) v <> None)
  /\ (forall f, In f filters -> exists c, compares dtype value cast cmp fields values f c).
Definition matches (filters : list filter_expr) (path : string) : Prop :=
  filters = [] \/ exists values, named hive url fields values path /\ List.length values = List.length fields
    /\ Forall (satisfies dtype value cast cmp fields values) filters.

(** The slices of a snapshot as of [t]: in matching partitions exactly the newest slice of every file group
    that has a base file of [t] or before and is not replaced. *)
Definition table_snapshot (list_files : string -> outcome (list file_meta)) (format : string) (partitioned : bool) (root : tree)
    (filters : list filter_expr) (t : string) (replaced : string * string -> Prop) (ss : list file_slice) : Prop :=
  (forall s, In s ss -> exists listed, table_partition partitioned root (fs_partition s) /\ list_files (fs_partition s) = Ok listed
     /\ shows_newest format listed (fs_partition s) t s /\ ~ replaced (slice_id s)
     /\ forall values, fields <> [] -> stands_for filters (fs_partition s) values -> Forall (satisfies dtype value cast cmp fields values) filters)
  /\ (forall p, table_partition partitioned root p -> matches filters p -> exists listed, list_files p = Ok listed
       /\ forall m b, base_listed format listed m b -> sle (bf_commit b) t -> ~ replaced (p, bf_file_id b) -> In (p, bf_file_id b) (map slice_id ss))
  /\ NoDup (map slice_id ss).
End Filters.

(** ** Incremental queries *)
(** The commit metadata names this base file (by commit time and name) for a file group, and this log
    file (by the commit time of its base file, version and write token). *)
Definition names_base (md : list (string * json)) (p id c n : string) : Prop :=
  exists stat base logs b, writes md p stat /\ names_files stat id base logs
    /\ base_file_from_str base = Ok b /\ bf_commit b = c /\ base_file_name b = n.
Definition names_log (md : list (string * json)) (p id c v w : string) : Prop :=
  exists stat base logs b name l, writes md p stat /\ names_files stat id base logs
    /\ base_file_from_str base = Ok b /\ bf_commit b = c
    /\ In name logs /\ log_file_from_str name = Ok l /\ lf_version l = v /\ lf_write_token l = w.
(** ... the log file itself. *)
Definition names_log_file (md : list (string * json)) (p id c : string) (l : log_file) : Prop :=
  exists stat base logs b name, writes md p stat /\ names_files stat id base logs
    /\ base_file_from_str base = Ok b /\ bf_commit b = c /\ In name logs /\ log_file_from_str name = Ok l.
(** No two write stats of a partition are for the same file group (otherwise see C11). *)
Definition unique_stats (md : list (string * json)) : Prop :=
  forall p s1 s2 id, writes md p s1 -> writes md p s2 -> stat_file_id s1 id -> stat_file_id s2 id -> s1 = s2.

(** A bound of a window: a time that can be parsed, if given. *)
Definition bound_at (parse : string -> outcome ndt) (o : option string) (b : option Z) : Prop :=
  match o with None => b = None | Some ts => exists d, parse ts = Ok d /\ b = Some (epoch_millis d) end.
(** The metadata of the commits of a window can be read, with file names that can be parsed, and no two of
    them name different base files of one file group with one commit time. *)
Definition window_fine (read : string -> outcome (list (string * json))) (commits : list instant) (start stop : option Z) : Prop :=
  (forall i, In i commits -> i_state i = Completed -> S_Timeline.in_window start stop (i_epoch i) = true ->
     exists md, read (".hoodie/" ++ file_name i) = Ok md /\ writes_fine md /\ (i_action i = ReplaceCommit -> replace_metadata_ok md))
  /\ forall i md i' md' p id c n n', commit_in read commits start stop i md -> commit_in read commits start stop i' md' ->
     names_base md p id c n -> names_base md' p id c n' -> n = n'.

(** The slices changed by the commits after [start] and up to [stop]: one for every file group for which
    they name a base file not later than [t] and that none of them replaces; it has the newest of those
    base files and the log files that they name for it. *)
Definition changed_slices (read : string -> outcome (list (string * json))) (commits : list instant) (start stop : Z) (t : string)
    (ss : list file_slice) : Prop :=
  let commit i md := commit_in read commits (Some start) (Some stop) i md in
  let base p id c n := exists i md, commit i md /\ names_base md p id c n in
  let log p id c v w := exists i md, commit i md /\ names_log md p id c v w in
  let replaced p id := exists i md, commit i md /\ i_action i = ReplaceCommit /\ replaces md p id in
  exists changed : list (string * string), NoDup changed
    /\ (forall p id, In (p, id) changed <-> (exists c n, base p id c n /\ sle c t) /\ ~ replaced p id)
    /\ Forall2 (fun g s => let c := bf_commit (fs_base s) in
         fs_partition s = fst g /\ base (fst g) (snd g) c (base_file_name (fs_base s)) /\ sle c t
         /\ (forall c' n', base (fst g) (snd g) c' n' -> sle c' t -> sle c' c)
         /\ (forall v w, (exists l, In l (fs_logs s) /\ lf_version l = v /\ lf_write_token l = w) <-> log (fst g) (snd g) c v w)
         /\ forall l, In l (fs_logs s) -> exists i md, commit i md /\ names_log_file md (fst g) (snd g) c l)
       changed ss.

(** ** Later writers *)
(** What writers may do to the files of a partition after the time [t] without touching its history: add
    base files of later commits and log files, remove nothing; one base file per file group and commit. *)
Definition later_files (format t : string) (before now : list file_meta) : Prop :=
  incl before now
  /\ (forall m b, base_listed format now m b -> In m before \/ slt t (bf_commit b))
  /\ (forall m1 b1 m2 b2, base_listed format now m1 b1 -> base_listed format now m2 b2 ->
        bf_file_id b1 = bf_file_id b2 -> bf_commit b1 = bf_commit b2 -> m1 = m2).
(** ... and to the timeline: add instants after [t]. *)
Definition later_commits (time : Z) (read read' : string -> outcome (list (string * json))) (before now : list instant) : Prop :=
  incl before now
  /\ (forall i, In i now -> In i before \/ (time < i_epoch i)%Z)
  /\ (forall i, In i before -> read' (".hoodie/" ++ file_name i) = read (".hoodie/" ++ file_name i)).
(** Two lists of slices show the same base files. *)
Definition shows_base (ss : list file_slice) (p n : string) : Prop :=
  exists s, In s ss /\ fs_partition s = p /\ base_file_name (fs_base s) = n.

(** ** Which tables can be planned *)
(** The metadata of the latest commit names, in its first write stat, a parquet file, or another file (a log file) and the
    base file that it is for, in the partition. *)
Definition names_schema_file (md : list (string * json)) (path : string) : Prop :=
  exists p stat stats rest name, jget "partitionToWriteStats" md = Some (JObj ((p, JArr (stat :: stats)) :: rest))
    /\ vget "path" stat = Some (JStr name)
    /\ ((exists r, name = r ++ ".parquet") /\ path = name
        \/ (forall r, name <> r ++ ".parquet")
           /\ exists base, vget "baseFile" stat = Some (JStr base) /\ (forall r, base <> "/" ++ r) /\ (forall r, p <> r ++ "/")
                /\ (p = "" /\ path = base \/ p <> "" /\ path = p ++ "/" ++ base)).
Definition writes_nothing (md : list (string * json)) : Prop := forall p stat, ~ writes md p stat.

(** The end of a window: the given one, or the timestamp of the last commit. *)
Definition window_end (commits : list instant) (stop : option string) (e : string) : Prop :=
  stop = Some e \/ (stop = None /\ exists before i, commits = (before ++ [i])%list /\ i_timestamp i = e).
