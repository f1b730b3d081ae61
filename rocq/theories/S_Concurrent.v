(** Specification of the progress of concurrent queries. *)
From Verif Require Import Base Str M_FileGroup M_Builder M_Listing M_Concurrent.
Local Open Scope string_scope.

Definition has_answer (t : task) (r : outcome (list file_slice)) : Prop := t_phase t = Answered r.
Definition all_answered (s : conc) : Prop := forall t, In t (c_tasks s) -> exists r, has_answer t r.

(** The next action of a task needs the lock of shard [i]. *)
Definition needs (shards : nat) (shard_of : string -> nat) (t : task) (i : nat) : Prop :=
  match t_phase t with
  | Inserting ((p, _) :: _) => i = shard_of p
  | Inserting [] => i = 0
  | Visiting j _ [] _ => i = S j /\ S j < shards
  | _ => False
  end.
(** A task on a thread whose next action needs a lock that some task holds. *)
Definition blocked (shards : nat) (shard_of : string -> nat) (s : conc) (t : task) : Prop :=
  t_mode t = OnThread /\ exists i u, needs shards shard_of t i /\ In u (c_tasks s) /\ In i (held u).

(** Nothing can happen any more. *)
Definition stuck (step : conc -> conc -> Prop) (s : conc) : Prop := forall s', ~ step s s'.
