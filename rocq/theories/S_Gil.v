(** Specification of calls from Python threads. *)
From Verif Require Import Base Str M_FileGroup M_Builder M_Listing M_Concurrent M_Gil.
Local Open Scope string_scope.

(** Every call is back with its caller, with an answer. *)
Definition all_returned (s : pystate) : Prop :=
  forall c, In c (y_calls s) -> y_stage c = Returned /\ exists r, t_phase (y_task c) = Answered r.
(** Nothing can happen any more. *)
Definition py_stuck (step : pystate -> pystate -> Prop) (s : pystate) : Prop := forall s', ~ step s s'.
