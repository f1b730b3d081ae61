(** Model of a table object that is kept open: table/mod.rs:108-130 [Table] (the timeline and the view are
    made when the table is opened), table/fs_view.rs:36-69 (the view is shared by all queries, every query
    lists the storage as it is then and overwrites the entries of the partitions that it lists, no entry
    is ever removed). *)
From Verif Require Import Base Str M_Time M_Timeline M_FileGroup M_Builder M_Listing M_Expr M_Table.

Section Session.
Variable dtype value : Type.
Variable cast : dtype -> string -> option value.
Variable cmp : value -> value -> option comparison.
Variable local_to_utc : ndt -> option ndt.
Variable tb : table.
(** How the storage may change between two queries. *)
Variable changes : store dtype -> store dtype -> Prop.

(** The storage now and the view of a table that was opened some time ago.  The storage does not change
    while a query lists it. *)
Inductive opened : store dtype -> cache -> Prop :=
| op_new : forall st, opened st []
| op_query : forall st c c' t fs r, opened st c -> slices_at dtype value cast cmp local_to_utc st tb t fs c c' r -> opened st c'
| op_change : forall st st' c, opened st c -> changes st st' -> opened st' c.
End Session.
