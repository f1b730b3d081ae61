(** Specification of commit metadata: which file groups a commit writes or replaces. *)
From Verif Require Import Base Str M_Time M_Instant M_FileGroup M_Builder S_Time S_Timeline S_FileGroup.
Local Open Scope string_scope.

(** The metadata lists [stat] as a write stat of partition [p]. *)
Definition writes (md : list (string * json)) (p : string) (stat : json) : Prop :=
  exists obj stats, jget "partitionToWriteStats" md = Some (JObj obj) /\ In (p, JArr stats) obj /\ In stat stats.

(** The metadata lists file id [id] of partition [p] as replaced. *)
Definition replaces (md : list (string * json)) (p id : string) : Prop :=
  exists obj ids, jget "partitionToReplaceFileIds" md = Some (JObj obj) /\ In (p, JArr ids) obj /\ In (JStr id) ids.

Definition stat_file_id (stat : json) (id : string) : Prop := vget "fileId" stat = Some (JStr id).

(** [base] is the name of the file at [path]: the last of the parts between slashes, disregarding empty parts and
    single dots. *)
Definition path_names (path base : string) : Prop :=
  has_char "/" base = false /\ base <> "" /\ base <> "." /\ base <> ".."
  /\ exists before after, (forall x, In x after -> x = "" \/ x = ".") /\ path = join "/" (before ++ base :: after).

(** The files named by a write stat: a base file and log files, or only a path. *)
Inductive names_files (stat : json) : string -> string -> list string -> Prop :=
| nf_delta : forall id base logs, stat_file_id stat id ->
    vget "baseFile" stat = Some (JStr base) -> vget "logFiles" stat = Some (JArr (map JStr logs)) ->
    names_files stat id base logs
| nf_path : forall id path base, stat_file_id stat id ->
    vget "baseFile" stat = None -> vget "path" stat = Some (JStr path) -> path_names path base ->
    names_files stat id base [].

(** A write stat that can be represented: parsable names, log files of the base file's commit. *)
Definition acceptable_stat (stat : json) : Prop :=
  exists id base logs b, names_files stat id base logs /\ base_file_from_str base = Ok b
    /\ forall n, In n logs -> exists l, log_file_from_str n = Ok l /\ lf_base_commit l = bf_commit b.

(** Commit metadata all of whose write stats can be represented. *)
Definition writes_fine (md : list (string * json)) : Prop :=
  exists obj, jget "partitionToWriteStats" md = Some (JObj obj)
    /\ forall p v, In (p, v) obj -> exists stats, v = JArr stats /\ forall stat, In stat stats -> acceptable_stat stat.

(** Identity of a file group. *)
Definition ident (g : file_group) : string * string := (fg_partition g, fg_id g).

(** A completed instant of the timeline in the window (start, stop], with its metadata. *)
Definition commit_in (read : string -> outcome (list (string * json))) (commits : list instant)
    (start stop : option Z) (i : instant) (md : list (string * json)) : Prop :=
  In i commits /\ i_state i = Completed /\ in_window start stop (i_epoch i) = true
  /\ read (".hoodie/" ++ file_name i) = Ok md.

(** Well-formed replace metadata: an object whose values are arrays of strings. *)
Definition replace_metadata_ok (md : list (string * json)) : Prop :=
  exists obj, jget "partitionToReplaceFileIds" md = Some (JObj obj)
    /\ forall p v, In (p, v) obj -> exists ids, v = JArr (map JStr ids).
