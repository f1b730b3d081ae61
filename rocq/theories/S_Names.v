(** Specification of names: what the Hudi format calls things. *)
From Verif Require Import Base M_Log M_Expr M_Names.
Local Open Scope string_scope.

(** Reading gives back exactly what was named, and nothing for other texts. *)
Definition reads_back {A} (name : A -> string) (of : string -> outcome A) : Prop :=
  (forall a, of (name a) = Ok a) /\ (forall s a, of s = Ok a -> s = name a) /\ (forall s, (forall a, s <> name a) -> exists e, of s = Err e).

(** The meta columns of the Hudi format, in their order in every base file. *)
Definition meta_columns : list string :=
  ["_hoodie_commit_time"; "_hoodie_commit_seqno"; "_hoodie_record_key"; "_hoodie_partition_path"; "_hoodie_file_name"].

(** The comparisons a filter can be built for, as they are written. *)
Inductive written_filter (name v : string) : filter_expr -> string -> Prop :=
| wr_eq : written_filter name v (field_eq (col name) v) "="
| wr_ne : written_filter name v (field_ne (col name) v) "!="
| wr_lt : written_filter name v (field_lt (col name) v) "<"
| wr_lte : written_filter name v (field_lte (col name) v) "<="
| wr_gt : written_filter name v (field_gt (col name) v) ">"
| wr_gte : written_filter name v (field_gte (col name) v) ">=".
