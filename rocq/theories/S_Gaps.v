(** Specification of cleaning that may leave gaps: any slices of the file groups are removed (C96). *)
From Verif Require Import Base Str M_FileGroup M_Objects S_FileGroup S_Storage S_Objects S_Whole S_Clean.
Local Open Scope string_scope.

Section Gaps.
Variable objs objs' : list object.
Variable table : list string.
Variable format : string.
Variable partitioned : bool.

(** The slices for which [stays] is false are removed with their log files, and nothing else; no directory is left empty
    (the file of the partition metadata stays). *)
Record slices_removed (stays : string * string -> string -> bool) : Prop := {
  sr_set : NoDup objs';
  sr_removed : forall o, In o objs' <-> In o objs /\ forall g c, slice_object objs table format partitioned g c o -> stays g c = true;
  sr_directories : forall dir name o, Forall legal dir -> file_in objs table dir name o -> exists name' o', file_in objs' table dir name' o'
}.

(** The slice that a read as of [t] shows of a file group: the one of its newest base file up to [t]. *)
Definition shown_slice (t : string) (g : string * string) (c : string) : Prop :=
  has_base objs table format partitioned g c /\ sle c t
  /\ forall c', has_base objs table format partitioned g c' -> sle c' t -> sle c' c.
End Gaps.
