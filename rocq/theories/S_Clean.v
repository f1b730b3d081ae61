(** Specification of cleaning: old versions of files are removed from the storage of a table (C96). *)
From Verif Require Import Base Str M_Time M_FileGroup M_Builder M_Listing M_Objects S_FileGroup S_Builder S_Listing S_Storage S_Objects S_Whole.
Local Open Scope string_scope.

(** The name is that of a file of the slice of the commit [c] of the file group with this id: its base file, or a log
    file of it. *)
Definition slice_file (format name id c : string) : Prop :=
  exists m, fm_name m = name
    /\ ((exists b, base_listed format [m] m b /\ bf_file_id b = id /\ bf_commit b = c)
        \/ exists l, log_listed format [m] m l /\ lf_file_id l = id /\ lf_base_commit l = c).

Section Clean.
Variable objs objs' : list object.
Variable table : list string.
Variable format : string.
Variable partitioned : bool.

(** The object is a file of the slice of the commit [c] of the file group [g] (its partition and its file id). *)
Definition slice_object (g : string * string) (c : string) (o : object) : Prop :=
  exists dir name, object_partition objs table partitioned (fst g) dir /\ file_in objs table dir name o /\ slice_file format name (snd g) c.

(** Cleaning turns [objs] into [objs']: the slices before the one of the commit [keep g] are removed from every file group
    [g], with their log files; the file groups [gone] are removed altogether; nothing else is removed.  A slice is left of
    each other file group, and no directory is left empty (the file of the partition metadata stays). *)
Record cleaned (keep : string * string -> string) (gone : string * string -> Prop) : Prop := {
  cl_set : NoDup objs';
  cl_removed : forall o, In o objs' <-> In o objs /\ forall g c, slice_object g c o -> ~ gone g /\ sle (keep g) c;
  cl_left : forall g c, has_base objs table format partitioned g c -> ~ gone g -> has_base objs table format partitioned g (keep g);
  cl_directories : forall dir name o, Forall legal dir -> file_in objs table dir name o -> exists name' o', file_in objs' table dir name' o'
}.
End Clean.
