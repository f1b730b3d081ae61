(** Specification of tables that stay open while their storage changes. *)
From Verif Require Import Base Str M_Listing S_Listing.
Local Open Scope string_scope.

(** Between two moments no partition directory goes away; directories may be added. *)
Definition partitions_kept (dirs dirs' : string -> outcome (list string)) : Prop :=
  exists root root', serves_dirs root dirs /\ wf_tree root /\ serves_dirs root' dirs' /\ wf_tree root'
    /\ forall p, partition_dir root p -> partition_dir root' p.
