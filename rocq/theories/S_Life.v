(** Specification of the life of a table: writers that also delete records and cleaners that remove old slices work on a
    storage, one step after another in any order.  Nothing but the keys and contents of the objects is used, and what the
    writers mean by them. *)
From Verif Require Import Base Str M_Time M_FileGroup M_Log M_Reader M_Storage M_Avro M_Values M_Objects
  S_Time S_FileGroup S_Listing S_Log S_Reader S_Avro S_Storage S_Objects S_History S_Values S_Datum S_Deletes S_Writer.
Local Open Scope string_scope.

(** All that was ever written to the file groups and the other objects that are there; the deletions of each file group;
    and the slices (a file group and the commit of its base file) that were removed. *)
Record life := {
  l_written : storage;
  l_dels : string * string -> deletions;
  l_removed : list ((string * string) * string)
}.
Definition slice_removed (l : life) (g : string * string) (c : string) : bool :=
  existsb (fun x => (String.eqb (fst (fst x)) (fst g) && String.eqb (snd (fst x)) (snd g) && String.eqb (snd x) c)%bool) (l_removed l).

Section Life.
Variable table : list string.
Variable format : string.
Variable depth : nat.
(** The objects that are there: those of the slices that were not removed, and the others. *)
Definition objects_now (l : life) : list object :=
  (map (base_object table format) (filter (fun e => negb (slice_removed l (be_group e) (be_commit e))) (w_bases (l_written l)))
   ++ map (log_object table) (filter (fun e => negb (slice_removed l (le_group e) (le_base e))) (w_logs (l_written l)))
   ++ w_others (l_written l))%list.

Variable parse_schema : string -> option avro.
Variable code : dtype -> nat.
Variable rank : dtype -> slot -> Z.
Variable parse_rows : string -> outcome record_batch.
Variable footer : string -> outcome (Z * Z).
Variable dfs : list M_Avro.field.
Variable k p s : nat.
(** Cleaners keep what is needed to read the table as of [horizon] and later; file groups in [dropped] they may remove
    altogether. *)
Variable horizon : string.
Variable dropped : string * string -> Prop.

(** A base file is written at [x]: a commit that rewrites the group, with new versions and without the deleted records,
    or a compaction; or clustering into a new group. *)
Inductive rewrote (g : group) (dels : deletions) (x : string) : group -> deletions -> Prop :=
| rw_write : forall g' dels', dwrite k p s g dels x g' dels' -> rewrote g dels x g' dels'
| rw_moved : forall moved rows, g = new_group_history -> dels = [] -> (forall y r, In (y, r) moved -> sle y x) -> latest_rows k p s (map snd moved) rows ->
    rewrote g dels x {| g_versions := moved; g_bases := [(x, rows)]; g_blocks := []; g_failed := []; g_rollbacks := [] |} [].

Inductive live_step (l : life) : life -> Prop :=
(* a commit, a compaction or clustering writes a base file *)
| ls_base : forall dir id token x data g' dels' rows, let g := (join "/" dir, id) in let w := l_written l in
    data_dir depth dir -> word id -> word token -> timestamp x -> slt (w_last w g) x ->
    rewrote (w_hist w g) (l_dels l g) x g' dels' -> g_bases g' = (g_bases (w_hist w g) ++ [(x, rows)])%list -> typed_versions code dfs g' ->
    parse_rows data = Ok {| rb_fields := map (as_field code) dfs; rb_rows := rows |} -> (exists stats, footer data = Ok stats) ->
    live_step l {| l_written := {| w_bases := {| be_dir := dir; be_id := id; be_token := token; be_commit := x; be_data := data |} :: w_bases w; w_logs := w_logs w; w_others := w_others w;
                                   w_hist := set_group (w_hist w) g g'; w_last := set_group (w_last w) g x |};
                   l_dels := set_group (l_dels l) g dels'; l_removed := l_removed l |}
(* a deltacommit, a failed one or a rollback writes a block to a new log file of a slice that is there *)
| ls_log : forall dir id version token x b bl vs g', let g := (join "/" dir, id) in let w := l_written l in
    data_dir depth dir -> word id -> word version -> word token -> timestamp x -> slt (w_last w g) x ->
    write k p s (w_hist w g) x g' -> block_of code rank dfs (w_hist w g) b x bl vs g' -> In b (map fst (g_bases (w_hist w g))) -> slice_removed l g b = false ->
    typed_versions code dfs g' -> block_fine parse_schema dfs x bl vs ->
    (forall e, In e (w_logs w) -> le_group e = g -> le_base e = b -> le_version e = version -> le_token e <> token) ->
    live_step l {| l_written := {| w_bases := w_bases w; w_logs := {| le_dir := dir; le_id := id; le_base := b; le_version := version; le_token := token; le_blocks := [(bl, vs)] |} :: w_logs w;
                                   w_others := w_others w; w_hist := set_group (w_hist w) g g'; w_last := set_group (w_last w) g x |};
                   l_dels := l_dels l; l_removed := l_removed l |}
(* ... or appends it to a log file *)
| ls_append : forall before e after x bl vs g', let g := le_group e in let w := l_written l in
    w_logs w = (before ++ e :: after)%list -> timestamp x -> slt (w_last w g) x ->
    write k p s (w_hist w g) x g' -> block_of code rank dfs (w_hist w g) (le_base e) x bl vs g' -> slice_removed l g (le_base e) = false ->
    typed_versions code dfs g' -> block_fine parse_schema dfs x bl vs ->
    live_step l {| l_written := {| w_bases := w_bases w;
                                   w_logs := (before ++ {| le_dir := le_dir e; le_id := le_id e; le_base := le_base e; le_version := le_version e; le_token := le_token e; le_blocks := le_blocks e ++ [(bl, vs)] |} :: after)%list;
                                   w_others := w_others w; w_hist := set_group (w_hist w) g g'; w_last := set_group (w_last w) g x |};
                   l_dels := l_dels l; l_removed := l_removed l |}
(* an object of the timeline, a marker, an object of another table *)
| ls_other : forall o, let w := l_written l in other_object table depth o -> ~ In (o_key o) (map o_key (w_others w)) ->
    live_step l {| l_written := {| w_bases := w_bases w; w_logs := w_logs w; w_others := o :: w_others w; w_hist := w_hist w; w_last := w_last w |};
                   l_dels := l_dels l; l_removed := l_removed l |}
(* ... is removed *)
| ls_remove : forall before o after, let w := l_written l in w_others w = (before ++ o :: after)%list ->
    live_step l {| l_written := {| w_bases := w_bases w; w_logs := w_logs w; w_others := (before ++ after)%list; w_hist := w_hist w; w_last := w_last w |};
                   l_dels := l_dels l; l_removed := l_removed l |}
(* a cleaner removes a slice with its log files: there is a newer one, up to the horizon; or the file group is dropped *)
| ls_clean : forall g c, In c (map fst (g_bases (w_hist (l_written l) g))) ->
    (exists c', In c' (map fst (g_bases (w_hist (l_written l) g))) /\ slt c c' /\ sle c' horizon) \/ dropped g ->
    live_step l {| l_written := l_written l; l_dels := l_dels l; l_removed := (g, c) :: l_removed l |}.

Definition new_life : life := {| l_written := empty_storage; l_dels := fun _ => []; l_removed := [] |}.
(** All that writers and cleaners can make of a new table. *)
Inductive lived : life -> Prop :=
| lived_new : lived new_life
| lived_step : forall l l', lived l -> live_step l l' -> lived l'.
End Life.
