(** Specification of queries that run while writers add files. *)
From Verif Require Import Base Str M_FileGroup M_Builder M_Expr M_Storage S_FileGroup S_Builder S_Listing S_Expr S_Table S_Storage M_Objects S_Objects.
Local Open Scope string_scope.

(** What writers may do to the objects of a table after the time [t]: add objects, change and remove none;
    added base files are of later commits; no directory is made inside a data directory. *)
Definition later_objects (table : list string) (format t : string) (objs objs' : list object) : Prop :=
  incl objs objs'
  /\ forall dir name o, Forall legal dir -> file_in objs' table dir name o -> ~ In o objs ->
       (forall b, ~ marker_name name -> base_named format name -> base_file_of name (Some (new_meta name (o_size o))) = Ok b -> slt t (bf_commit b))
       /\ forall d, Forall legal d -> data_directory objs table (join "/" d) -> forall below, dir = (d ++ below)%list -> below = [].

(** The slice shows the newest base file of its file group at or before [t], with all log files listed
    for it. *)
Definition shows_newest_base (format : string) (listed : list file_meta) (t : string) (s : file_slice) : Prop :=
  exists m b, base_listed format listed m b
    /\ bf_file_id (fs_base s) = bf_file_id b /\ base_file_name (fs_base s) = base_file_name b /\ bf_commit (fs_base s) = bf_commit b /\ sle (bf_commit b) t
    /\ (forall m' b', base_listed format listed m' b' -> bf_file_id b' = bf_file_id b -> sle (bf_commit b') t -> sle (bf_commit b') (bf_commit b))
    /\ forall m' x, log_listed format listed m' x -> lf_file_id x = bf_file_id b -> lf_base_commit x = bf_commit b ->
         exists l, In l (fs_logs s) /\ lf_version l = lf_version x /\ lf_write_token l = lf_write_token x.

(** As [object_snapshot] of the objects at the start, but a slice may have log files that came later. *)
Definition base_snapshot (dtype value : Type) (cast : dtype -> string -> option value) (cmp : value -> value -> option comparison)
    (fields : list (string * dtype)) (hive url : bool) (objs : list object) (moments : list (list object)) (table : list string) (format : string) (partitioned : bool)
    (filters : list filter_expr) (t : string) (replaced : string * string -> Prop) (ss : list file_slice) : Prop :=
  (forall s, In s ss -> exists dir listed, object_partition objs table partitioned (fs_partition s) dir /\ directory_listing objs table dir listed
     /\ shows_newest_base format listed t s /\ ~ replaced (slice_id s)
     /\ (forall l, In l (fs_logs s) -> lf_file_id l = bf_file_id (fs_base s) /\ lf_base_commit l = bf_commit (fs_base s)
           /\ exists objs' o, In objs' moments /\ file_in objs' table dir (log_file_name l) o)
     /\ forall values, fields <> [] -> stands_for dtype value cast cmp fields hive url filters (fs_partition s) values -> Forall (satisfies dtype value cast cmp fields values) filters)
  /\ (forall p dir name o b, object_partition objs table partitioned p dir -> matches dtype value cast cmp fields hive url filters p ->
       file_in objs table dir name o -> ~ marker_name name -> base_named format name -> base_file_of name (Some (new_meta name (o_size o))) = Ok b ->
       sle (bf_commit b) t -> ~ replaced (p, bf_file_id b) -> In (p, bf_file_id b) (map slice_id ss))
  /\ NoDup (map slice_id ss).

(** No two base files of a directory have the same file id and commit. *)
Definition one_base_file (table : list string) (format : string) (objs : list object) : Prop :=
  forall dir n1 o1 b1 n2 o2 b2, Forall legal dir -> file_in objs table dir n1 o1 -> file_in objs table dir n2 o2 ->
    ~ marker_name n1 -> base_named format n1 -> base_file_of n1 (Some (new_meta n1 (o_size o1))) = Ok b1 ->
    ~ marker_name n2 -> base_named format n2 -> base_file_of n2 (Some (new_meta n2 (o_size o2))) = Ok b2 ->
    bf_file_id b1 = bf_file_id b2 -> bf_commit b1 = bf_commit b2 -> n1 = n2.

(** The moments come one after the other and nothing is changed or removed: of any two, one has all
    objects of the other. *)
Definition grows (moments : list (list object)) : Prop :=
  forall a b, In a moments -> In b moments -> incl a b \/ incl b a.
