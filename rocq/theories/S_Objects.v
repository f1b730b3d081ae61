(** Specification of tables on an object store, in terms of the keys and contents of the objects. *)
From Verif Require Import Base Str M_FileGroup M_Builder M_Expr M_Storage S_FileGroup S_Builder S_Listing S_Expr S_Table S_Storage M_Objects.
Local Open Scope string_scope.

(** The objects of a store: keys are lists of legal names, no key occurs twice. *)
Definition proper_objects (objs : list object) : Prop := proper_keys (map o_key objs) /\ NoDup (map o_key objs).

(** The object is the file [name] of the directory [dir] of the table at [table]. *)
Definition file_in (objs : list object) (table dir : list string) (name : string) (o : object) : Prop :=
  In o objs /\ legal name /\ o_key o = key_of (table ++ dir ++ [name]).

(** A data directory of the table at [table]: it holds an object, it has no directory below it, and it
    does not lie in a metadata directory. *)
Definition data_directory (objs : list object) (table : list string) (path : string) : Prop :=
  exists top rest, path = join "/" (top :: rest) /\ Forall legal (top :: rest)
    /\ top <> ".hoodie" /\ top <> "_delta_log" /\ top <> "metadata"
    /\ (exists name o, file_in objs table (top :: rest) name o)
    /\ (forall below o, Forall legal below -> In o objs -> o_key o = key_of (table ++ (top :: rest) ++ below) -> (List.length below <= 1)%nat).

(** The files of a directory with their sizes. *)
Definition directory_listing (objs : list object) (table dir : list string) (l : list file_meta) : Prop :=
  NoDup (map fm_name l) /\ forall m, In m l <-> exists n o, file_in objs table dir n o /\ m = new_meta n (o_size o).
(** The partitions of a table: its data directories, or the directory of the table itself. *)
Definition object_partition (objs : list object) (table : list string) (partitioned : bool) (path : string) (dir : list string) : Prop :=
  Forall legal dir /\ path = join "/" dir /\ if partitioned then data_directory objs table path else dir = [].

(** The slices of a snapshot as of [t]: in matching partitions exactly the newest slice of every file
    group that has a base file of [t] or before among the objects and is not replaced. *)
Definition object_snapshot (dtype value : Type) (cast : dtype -> string -> option value) (cmp : value -> value -> option comparison)
    (fields : list (string * dtype)) (hive url : bool) (objs : list object) (table : list string) (format : string) (partitioned : bool)
    (filters : list filter_expr) (t : string) (replaced : string * string -> Prop) (ss : list file_slice) : Prop :=
  (forall s, In s ss -> exists dir listed, object_partition objs table partitioned (fs_partition s) dir /\ directory_listing objs table dir listed
     /\ shows_newest format listed (fs_partition s) t s /\ ~ replaced (slice_id s)
     /\ forall values, fields <> [] -> stands_for dtype value cast cmp fields hive url filters (fs_partition s) values -> Forall (satisfies dtype value cast cmp fields values) filters)
  /\ (forall p dir name o b, object_partition objs table partitioned p dir -> matches dtype value cast cmp fields hive url filters p ->
       file_in objs table dir name o -> ~ marker_name name -> base_named format name -> base_file_of name (Some (new_meta name (o_size o))) = Ok b ->
       sle (bf_commit b) t -> ~ replaced (p, bf_file_id b) -> In (p, bf_file_id b) (map slice_id ss))
  /\ NoDup (map slice_id ss).
