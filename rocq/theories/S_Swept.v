(** Specification of cleaners at work: old files are removed one by one while queries run. *)
From Verif Require Import Base Str M_FileGroup M_Objects S_FileGroup S_Storage S_Objects S_Whole S_Clean S_Gaps.
Local Open Scope string_scope.

Section Swept.
Variable objs objs' : list object.
Variable table : list string.
Variable format : string.
Variable partitioned : bool.
(** The slices that a read as of [t] shows: of each file group that is not replaced by then, the one of its newest base
    file up to [t]. *)
Definition needed (t : string) (replaced : string * string -> Prop) (g : string * string) (c : string) : Prop :=
  shown_slice objs table format partitioned t g c /\ ~ replaced g.
(** [objs'] is what is left of [objs] at some moment of cleaning: any files of other slices are gone, in any order, and
    nothing else; no directory is empty (the file of the partition metadata stays). *)
Record swept (t : string) (replaced : string * string -> Prop) : Prop := {
  sd_set : NoDup objs';
  sd_there : incl objs' objs;
  sd_removed : forall o, In o objs -> In o objs' \/ exists g c, slice_object objs table format partitioned g c o /\ ~ needed t replaced g c;
  sd_directories : forall dir name o, Forall legal dir -> file_in objs table dir name o -> exists name' o', file_in objs' table dir name' o'
}.
(** Log files go before their base file: while a file of a slice is left, its base file is. *)
Definition logs_first : Prop := forall g c o, slice_object objs table format partitioned g c o -> In o objs' ->
  has_base objs table format partitioned g c -> has_base objs' table format partitioned g c.
End Swept.
