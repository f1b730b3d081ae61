(** Specification of which texts of digits are times (C53).  Nothing here refers to the parser. *)
From Verif Require Import Base S_Time.
Local Open Scope Z_scope.

(** A date and a time of day on a clock that also shows leap seconds. *)
Definition clock_time (c : civil) : Prop :=
  valid_date (c_year c) (c_month c) (c_day c)
  /\ 0 <= c_hour c <= 23 /\ 0 <= c_min c <= 59 /\ 0 <= c_sec c <= 60
  /\ match c_ms c with None => True | Some ms => 0 <= ms <= 999 end.
