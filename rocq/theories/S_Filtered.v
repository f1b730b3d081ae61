(** Specification of reading with filters on the partition columns. *)
From Verif Require Import Base Str M_Utf8 M_Expr M_Reader S_Expr S_Table S_History.
Local Open Scope string_scope.

Section Filtered.
Variable dtype value : Type.
Variable cast : dtype -> string -> option value.
Variable cmp : value -> value -> option comparison.
(** The partition columns with their types, and how the paths of partitions are written. *)
Variable fields : list (string * dtype).
Variable hive url : bool.
(** The values of the partition columns in the partition of a path. *)
Variable values : string -> list string.

(** The partitions of the file groups are named after their values, and these can be compared with the filters. *)
Definition partitions_named (filters : list filter_expr) (of : string * string -> Prop) : Prop :=
  forall g, of g -> stands_for dtype value cast cmp fields hive url filters (fst g) (values (fst g)).
(** The file groups whose partitions satisfy the filters. *)
Definition passing (filters : list filter_expr) (of : string * string -> Prop) (g : string * string) : Prop :=
  of g /\ Forall (satisfies dtype value cast cmp fields (values (fst g))) filters.
(** Every row has, as the values of its partition columns, those of its partition. *)
Definition rows_placed (shown : list cell -> list string) (of : string * string -> Prop) (hist : string * string -> group) : Prop :=
  forall g x r, of g -> In (x, r) (g_versions (hist g)) -> shown r = values (fst g).
End Filtered.
