(** Specification of writers that stop before they complete (C89). *)
From Verif Require Import Base Str M_Time M_FileGroup M_Objects S_Builder S_Storage S_Objects.
Local Open Scope string_scope.

(** A name in the timeline directory of an action that is not completed. *)
Definition pending_name (name : string) : Prop := exists r, name = r ++ ".requested" \/ name = r ++ ".inflight".
(** What writers that began after [t], none of which completed, left among the objects of a table, wherever they
    stopped: no object is gone, the partitions are still there, base files that were added are of later commits, and the
    objects added to the timeline directory are of actions that are not completed. *)
Record unfinished (objs objs' : list object) (table : list string) (partitioned : bool) (t : string) : Prop := {
  uf_kept : forall o, In o objs -> In o objs';
  uf_partitions : forall path dir, object_partition objs table partitioned path dir -> object_partition objs' table partitioned path dir;
  uf_bases : forall dir name o b, Forall legal dir -> file_in objs' table dir name o -> ~ In o objs -> base_file_of name (Some (new_meta name (o_size o))) = Ok b -> slt t (bf_commit b);
  uf_timeline : forall name o, file_in objs' table [".hoodie"] name o -> ~ In o objs -> pending_name name
}.
(** At most one base file of a file group for a commit. *)
Definition one_base_each (base_of : string * string -> string -> object -> Prop) : Prop := forall g c o o', base_of g c o -> base_of g c o' -> o = o'.
