(** Specification for C90: columns of records, by name. *)
From Verif Require Import Base Str M_Reader S_Reader.
Local Open Scope string_scope.

(** The row has the value [c] in the column [name]. *)
Definition value_under (fields : list field) (row : list cell) (name : string) (c : cell) : Prop :=
  exists i, column_at fields name i /\ nth_error row i = Some c.
(** The row [r] of [b] has the values of the row [r0] of [b0] in all columns [names]. *)
Definition same_values (names : list string) (b0 : record_batch) (r0 : list cell) (b : record_batch) (r : list cell) : Prop :=
  forall name c, In name names -> (value_under (rb_fields b0) r0 name c <-> value_under (rb_fields b) r name c).
(** The batch has the columns of the schema, in their order and with their types, and maybe more after them. *)
Definition wider (sch : list field) (b : record_batch) : Prop :=
  (exists more, map (fun f => (f_name f, f_type f)) (rb_fields b) = (map (fun f => (f_name f, f_type f)) sch ++ more)%list)
  /\ Forall (fun r => wf_row sch (firstn (List.length sch) r)) (rb_rows b).
(** The batch lacks columns at the end of the schema. *)
Definition narrower (sch : list field) (b : record_batch) : Prop := (List.length (rb_fields b) < List.length sch)%nat.
(** The columns that the batch and the schema both have are of the same types. *)
Definition types_agree (sch : list field) (b : record_batch) : Prop :=
  forall i f g, nth_error sch i = Some f -> nth_error (rb_fields b) i = Some g -> f_type f = f_type g.
