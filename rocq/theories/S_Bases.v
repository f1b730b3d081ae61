(** Specification of queries that read base files only (C88): the base files of a file group among the objects of a
    table, and the newest of them at a time. *)
From Verif Require Import Base Str M_FileGroup M_Config M_Reader M_Table M_Objects S_FileGroup S_Listing S_Reader S_Config S_Storage S_Objects S_Table S_History.
Local Open Scope string_scope.

Section Bases.
Variable objs : list object.
Variable table : list string.
Variable format : string.
Variable partitioned : bool.
(** The object [o] is a base file of the file group [g] (its partition and its file id), of the commit [c]. *)
Definition base_object (g : string * string) (c : string) (o : object) : Prop :=
  exists dir name b, object_partition objs table partitioned (fst g) dir /\ file_in objs table dir name o
    /\ ~ marker_name name /\ base_named format name /\ base_file_of name (Some (new_meta name (o_size o))) = Ok b
    /\ bf_file_id b = snd g /\ bf_commit b = c.
(** It is the newest base file of the group at [t]. *)
Definition newest_base (g : string * string) (t c : string) (o : object) : Prop :=
  base_object g c o /\ sle c t /\ forall c' o', base_object g c' o' -> sle c' t -> sle c' c.
(** The names of base files are those that their parts make: an identifier, a write token and a commit time. *)
Definition base_names_plain : Prop :=
  forall path dir name o b, object_partition objs table partitioned path dir -> file_in objs table dir name o -> ~ marker_name name -> base_named format name ->
    base_file_of name (Some (new_meta name (o_size o))) = Ok b -> base_file_name b = name.
(** A file group without log files. *)
Definition without_logs (g : string * string) : Prop :=
  forall dir name o x, object_partition objs table partitioned (fst g) dir -> file_in objs table dir name o -> ~ marker_name name -> ~ base_named format name ->
    log_file_of name (Some (new_meta name (o_size o))) = Ok x -> lf_file_id x <> snd g.
End Bases.

(** The storage options of a table are those of its storage only, and its own options give no start time. *)
Definition plain_table (tb : table) : Prop :=
  one_per_key (t_storage tb) /\ (forall key v r, In (key, v) (t_storage tb) -> key <> "hoodie." ++ r) /\ read_start (t_configs tb) = None.
(** Its options ask for base files only. *)
Definition read_optimized_table (tb : table) : Prop := oget "hoodie.read.use.read_optimized.mode" (t_configs tb) = Some "true".
