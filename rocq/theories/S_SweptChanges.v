(** Specification of cleaners around incremental reads: which files an incremental read needs. *)
From Verif Require Import Base Str M_FileGroup M_Builder M_Objects S_FileGroup S_Storage S_Objects S_Whole S_Changes S_Clean S_Gaps.
Local Open Scope string_scope.

Section SweptChanges.
Variable objs objs' : list object.
Variable table : list string.
Variable format : string.
Variable partitioned : bool.
(** The slices that a read of the changes after [start] and up to [e] shows: of each file group that the commits in between
    name and do not replace, the one of its newest base file up to [e]. *)
Definition changed_slice (number_of : string -> option Z) (collect : list (string * json) -> list (string * json)) (start e : string)
    (g : string * string) (c : string) : Prop :=
  changed_group objs table number_of collect start e g /\ shown_slice objs table format partitioned e g c.
(** [objs'] is what is left of [objs] at some moment: any files of slices that are not needed are gone, in any order, and
    nothing else. *)
Record left_of (is_needed : string * string -> string -> Prop) : Prop := {
  lo_set : NoDup objs';
  lo_there : incl objs' objs;
  lo_removed : forall o, In o objs -> In o objs' \/ exists g c, slice_object objs table format partitioned g c o /\ ~ is_needed g c
}.
End SweptChanges.
