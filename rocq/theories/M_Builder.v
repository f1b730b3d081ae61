(** Model of crates/core/src/file_group/builder.rs and of the commit-metadata part of
    crates/core/src/timeline/mod.rs. *)
From Verif Require Import Base Str M_Time M_Instant M_Timeline M_FileGroup.
Local Open Scope string_scope.

(** [serde_json::Value].  Numbers are kept as integers (they are never read by the code modelled
    here).  An object is an association list in the iteration order of [serde_json::Map] (key order
    or insertion order, depending on a crate feature: nothing below depends on it). *)
Inductive json :=
| JNull
| JBool (b : bool)
| JNum (n : Z)
| JStr (s : string)
| JArr (l : list json)
| JObj (l : list (string * json)).

(** [Map::get] *)
Fixpoint jget (k : string) (l : list (string * json)) : option json :=
  match l with
  | [] => None
  | (k', v) :: r => if String.eqb k k' then Some v else jget k r
  end.
(** [Value::get] with a string index: [None] unless the value is an object. *)
Definition vget (k : string) (v : json) : option json :=
  match v with JObj l => jget k l | _ => None end.
Definition as_str (v : json) : option string := match v with JStr s => Some s | _ => None end.
Definition as_array (v : json) : option (list json) := match v with JArr l => Some l | _ => None end.
Definition as_object (v : json) : option (list (string * json)) := match v with JObj l => Some l | _ => None end.
Definition and_then {A B} (o : option A) (f : A -> option B) : option B :=
  match o with Some a => f a | None => None end.

(** [std::path::Path::file_name] on Unix: the last component if it is a normal one.  Empty and "."
    components disappear when a path is split into components; ".." is not a normal component. *)
Definition path_file_name (p : string) : option string :=
  match last_opt (filter (fun c => negb (String.eqb c "" || String.eqb c ".")) (split "/" p)) with
  | Some c => if String.eqb c ".." then None else Some c
  | None => None
  end.

(** ** Sets of file groups: [HashSet<FileGroup>], whose equality is (file id, partition).  A list
    without two equal groups; the order is the (arbitrary) iteration order. *)
Definition groups := list file_group.
Definition gs_mem (g : file_group) (s : groups) : bool := existsb (fg_eqb g) s.
(** [HashSet::insert]: keeps the present element if there is an equal one. *)
Definition gs_insert (s : groups) (g : file_group) : groups := if gs_mem g s then s else g :: s.
(** [HashSet::extend] *)
Definition gs_extend (s : groups) (l : list file_group) : groups := fold_left gs_insert l s.
(** [HashSet::take]: the element equal to [g] and the set without it. *)
Fixpoint gs_take (g : file_group) (s : groups) : option (file_group * groups) :=
  match s with
  | [] => None
  | h :: t =>
      if fg_eqb g h then Some (h, t)
      else match gs_take g t with Some (x, r) => Some (x, h :: r) | None => None end
  end.
(** [HashSet::difference(..).cloned().collect()] *)
Definition gs_difference (a c : groups) : groups := filter (fun g => negb (gs_mem g c)) a.

(** result of a mutating call as an outcome *)
Definition lift_mut (r : file_group * outcome unit) : outcome file_group :=
  match r with
  | (g, Ok _) => Ok g
  | (_, Err e) => Err e
  | (_, Panic) => Panic
  end.

(** builder.rs:33-47 [HashSet<FileGroup>::merge], the groups given in iteration order. *)
Definition merge_one (s : groups) (g : file_group) : outcome groups :=
  match gs_take g s with
  | Some (existing, rest) =>
      let* m := lift_mut (merge_group existing g) in
      Ok (gs_insert rest m)
  | None => Ok (gs_insert s g)
  end.
Definition merge_groups (s : groups) (l : list file_group) : outcome groups := foldM merge_one s l.

(** builder.rs:79-88: the log files of a write stat *)
Definition add_log_name (g : file_group) (v : json) : outcome file_group :=
  let* name := ok_or (as_str v) ECommitMetadata in
  lift_mut (add_log_file_from_name g name).

(** builder.rs:65-109: the file group of one write stat *)
Definition stat_group (partition : string) (stat : json) : outcome file_group :=
  let* file_id := ok_or (and_then (vget "fileId" stat) as_str) ECommitMetadata in
  let g := new_group file_id partition in
  match vget "baseFile" stat with
  | Some v =>
      let* name := ok_or (as_str v) ECommitMetadata in
      let* g1 := lift_mut (add_base_file_from_name g name) in
      match vget "logFiles" stat with
      | Some lv =>
          let* logs := ok_or (as_array lv) ECommitMetadata in
          foldM add_log_name g1 logs
      | None => Err ECommitMetadata
      end
  | None =>
      let* path := ok_or (and_then (vget "path" stat) as_str) ECommitMetadata in
      let* name := ok_or (path_file_name path) ECommitMetadata in
      lift_mut (add_base_file_from_name g name)
  end.

(** builder.rs:59-113, one partition *)
Definition build_partition (s : groups) (e : string * json) : outcome groups :=
  let* stats := ok_or (as_array (snd e)) ECommitMetadata in
  foldM (fun s stat => let* g := stat_group (fst e) stat in Ok (gs_insert s g)) s stats.

(** builder.rs:49-116 [build_file_groups] *)
Definition build_file_groups (md : list (string * json)) : outcome groups :=
  let* parts := ok_or (and_then (jget "partitionToWriteStats" md) as_object) ECommitMetadata in
  foldM build_partition [] parts.

(** builder.rs:118-148 [build_replaced_file_groups] *)
Definition replaced_partition (s : groups) (e : string * json) : outcome groups :=
  let* ids := ok_or (as_array (snd e)) ECommitMetadata in
  foldM (fun s v => let* id := ok_or (as_str v) ECommitMetadata in Ok (gs_insert s (new_group id (fst e)))) s ids.
Definition build_replaced_file_groups (md : list (string * json)) : outcome groups :=
  let* parts := ok_or (and_then (jget "partitionToReplaceFileIds" md) as_object) ECommitMetadata in
  foldM replaced_partition [] parts.

Section Timeline.
Variable local_to_utc : ndt -> option ndt.
(** Storage: what reading a file under the table and parsing it as a JSON object gives
    (timeline/mod.rs:198-204 after [Storage::get_file_data] and [serde_json::from_slice]). *)
Variable read_json : string -> outcome (list (string * json)).
(** The iteration order of the set built for the n-th selected commit. *)
Variable order : nat -> list file_group -> list file_group.

(** timeline/mod.rs:198-204 [get_instant_metadata] *)
Definition instant_metadata (i : instant) : outcome (list (string * json)) :=
  read_json (instant_relative_path i).

(** timeline/mod.rs:170-196 [get_completed_clustering_commits], after loading the replacecommits *)
Fixpoint clustering_of (instants : list instant) : outcome (list instant) :=
  match instants with
  | [] => Ok []
  | i :: r =>
      let* md := instant_metadata i in
      let* op := ok_or (and_then (jget "operationType" md) as_str) ECommitMetadata in
      let* rest := clustering_of r in
      Ok (if String.eqb op "cluster" then i :: rest else rest)
  end.

(** timeline/mod.rs:214-219 *)
Definition latest_commit_metadata (commits : list instant) : outcome (list (string * json)) :=
  match last_opt commits with
  | Some i => instant_metadata i
  | None => Ok []
  end.

(** timeline/mod.rs:239-254 [get_latest_avro_schema] *)
Definition latest_avro_schema (commits : list instant) : outcome string :=
  let* md := latest_commit_metadata commits in
  ok_or (and_then (and_then (jget "extraMetadata" md) as_object)
           (fun obj => and_then (jget "schema" obj) as_str)) ECommitMetadata.

(** timeline/mod.rs:257-310 [get_latest_schema]: the path of the parquet file whose schema is read. *)
Definition latest_schema_path (commits : list instant) : outcome string :=
  let* md := latest_commit_metadata commits in
  let first_partition := and_then (jget "partitionToWriteStats" md) as_object in
  let* partition := ok_or (and_then first_partition (fun o => and_then (hd_error o) (fun e => Some (fst e)))) ECommitMetadata in
  let first_value := and_then (and_then (and_then first_partition (@hd_error (string * json))) (fun e => as_array (snd e))) (@hd_error json) in
  match and_then (and_then first_value (vget "path")) as_str with
  | Some path =>
      if ends_with ".parquet" path then Ok path
      else
        let* base := ok_or (and_then (and_then first_value (vget "baseFile")) as_str) ECommitMetadata in
        Ok (path_join partition base)
  | None => Err ECommitMetadata
  end.

(** timeline/mod.rs:312-330 [get_replaced_file_groups_as_of] *)
Definition replaced_step (s : groups) (i : instant) : outcome groups :=
  let* md := instant_metadata i in
  let* r := build_replaced_file_groups md in
  Ok (gs_extend s r).
Definition get_replaced_file_groups_as_of (tz : string) (commits : list instant) (ts : string) : outcome groups :=
  let* sel := completed_replacecommits_in_range local_to_utc tz None (Some ts) in
  foldM replaced_step [] (select sel commits).

(** timeline/mod.rs:334-361 [get_file_groups_between] *)
Fixpoint between_loop (n : nat) (fgs replaced : groups) (l : list instant) : outcome (groups * groups) :=
  match l with
  | [] => Ok (fgs, replaced)
  | i :: r =>
      let* md := instant_metadata i in
      let* built := build_file_groups md in
      let* fgs' := merge_groups fgs (order n built) in
      let* replaced' := if is_replacecommit i
                        then let* rg := build_replaced_file_groups md in Ok (gs_extend replaced rg)
                        else Ok replaced in
      between_loop (S n) fgs' replaced' r
  end.
Definition get_file_groups_between (tz : string) (commits : list instant) (start stop : option string)
  : outcome groups :=
  let* sel := completed_actions_in_range local_to_utc DEFAULT_LOADING_ACTIONS tz start stop in
  let* (fgs, replaced) := between_loop 0 [] [] (select sel commits) in
  Ok (gs_difference fgs replaced).
End Timeline.
