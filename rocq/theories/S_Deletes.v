(** Specification of histories with deletions: commits that rewrite the base file of a file group without the
    records that were deleted. *)
From Verif Require Import Base Str S_Log S_Reader S_History M_Reader.
Local Open Scope string_scope.

(** Deletions: the time of the commit and the key. *)
Definition deletions := list (string * string).

Section Deletes.
(** The columns of the record key, the ordering field and the sequence number. *)
Variable k p s : nat.

(** The version written at [x] counts at [t]: its key was not deleted since, up to [t]. *)
Definition alive (g : group) (dels : deletions) (t x : string) (r : list cell) : Prop :=
  In (x, r) (g_versions g) /\ sle x t /\ ~ exists d, In (d, key_at k r) dels /\ slt x d /\ sle d t.
(** The records at [t]: for every key with versions that count, the newest of them. *)
Definition current_alive (g : group) (dels : deletions) (t : string) (out : list (list cell)) : Prop :=
  NoDup (map (key_at k) out)
  /\ (forall x r, alive g dels t x r -> exists r', In r' out /\ key_at k r' = key_at k r)
  /\ (forall r, In r out -> (exists x, alive g dels t x r)
        /\ forall x r', alive g dels t x r' -> key_at k r' = key_at k r -> ~ newer p s r' r).

(** A write at time [x]. *)
Inductive dwrite (g : group) (dels : deletions) (x : string) : group -> deletions -> Prop :=
(* a commit rewrites the base file, without the records whose keys are in [gone] and with the new versions; with
   neither it is a compaction *)
| dw_rewrite : forall gone new old rows,
    (forall r, In r old <-> (exists y, alive g dels x y r) /\ ~ In (key_at k r) gone) ->
    latest_rows k p s (old ++ new)%list rows ->
    dwrite g dels x {| g_versions := (g_versions g ++ map (pair x) new)%list; g_bases := (g_bases g ++ [(x, rows)])%list;
                       g_blocks := g_blocks g; g_failed := g_failed g; g_rollbacks := g_rollbacks g |} (dels ++ map (pair x) gone)%list
(* the writes of S_History that leave the base files: deltacommits, failed ones, rollbacks *)
| dw_log : forall g', write k p s g x g' -> g_bases g' = g_bases g -> dwrite g dels x g' dels.
(** Writes happen one after another; the first may be clustering, as in S_History. *)
Inductive dhistory : string -> group -> deletions -> Prop :=
| dh_new : dhistory "" new_group_history []
| dh_moved : forall x moved rows, timestamp x -> (forall y r, In (y, r) moved -> sle y x) -> latest_rows k p s (map snd moved) rows ->
    dhistory x {| g_versions := moved; g_bases := [(x, rows)]; g_blocks := []; g_failed := []; g_rollbacks := [] |} []
| dh_write : forall now g dels x g' dels', dhistory now g dels -> timestamp x -> slt now x -> dwrite g dels x g' dels' -> dhistory x g' dels'.
End Deletes.
