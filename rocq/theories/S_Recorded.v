(** Specification of writers that record their commits in the timeline, step by step (C97).  As in S_Writer nothing but the
    keys and contents of the objects is used, and what the writers mean by them. *)
From Verif Require Import Base Str M_Utf8 M_Time M_Instant M_FileGroup M_Builder M_Listing M_Log M_Reader M_Storage M_Avro M_Values M_Objects
  S_Time S_Timeline S_FileGroup S_Builder S_Table S_Listing S_Log S_Reader S_Avro S_Storage S_Objects S_History S_Incremental S_Values S_Datum S_Json S_Writer.
Local Open Scope string_scope.

Section Recorded.
Variable table : list string.
Variable format : string.
Variable depth : nat.
Variable parse_schema : string -> option avro.
Variable code : dtype -> nat.
Variable rank : dtype -> slot -> Z.
Variable parse_rows : string -> outcome record_batch.
Variable footer : string -> outcome (Z * Z).
Variable dfs : list M_Avro.field.
Variable k p s ct : nat.
Variable number_of : string -> option Z.
Variable collect : list (string * json) -> list (string * json).

(** An object with the name of a completed commit in the timeline directory, or with a name that is read as one. *)
Definition timeline_key (n : string) : string := key_of (table ++ [".hoodie"; n]).
Definition commit_like (o : object) : Prop := exists ts a, has_char "." ts = false
  /\ (o_key o = timeline_key (timeline_name ts a Completed) \/ o_key o = timeline_key (timeline_name ts a Completed ++ ".")).
(** The completed commits in the storage, with their metadata. *)
Definition committed (w : storage) (ts : string) (a : action) (m : list (string * json)) : Prop :=
  timestamp ts /\ exists o, In o (w_others w) /\ o_key o = timeline_key (timeline_name ts a Completed) /\ metadata_text number_of collect m (o_data o).
(** The write at [x] put a base file or log data into the file group, and did not fail. *)
Definition wrote_at (g : group) (x : string) : Prop :=
  In x (map fst (g_bases g)) \/ (exists b rows, In (b, x, rows) (g_blocks g)) /\ ~ In x (g_failed g).

(** The metadata of the commit at [ts] tells what it wrote: it names every file group it wrote to and every log file with
    its data.  For each file group it names the newest base file at that time, and only files that are there. *)
Record tells (w : storage) (ts : string) (m : list (string * json)) : Prop := {
  t_groups : forall g, wrote_at (w_hist w g) ts -> exists c n, names_base m (fst g) (snd g) c n;
  t_base : forall part id c n, names_base m part id c n ->
    (forall b, In b (map fst (g_bases (w_hist w (part, id)))) -> sle b ts -> sle b c)
    /\ exists e, In e (w_bases w) /\ be_group e = (part, id) /\ be_commit e = c /\ base_entry_name format e = n /\ sle c ts;
  t_logs : forall e bl vs, In e (w_logs w) -> In (bl, vs) (le_blocks e) -> at_instant bl ts -> ~ In ts (g_failed (w_hist w (le_group e))) ->
    exists l, names_log_file m (fst (le_group e)) (snd (le_group e)) (le_base e) l /\ log_file_name l = log_entry_name e;
  t_log_files : forall part id c l, names_log_file m part id c l ->
    exists e, In e (w_logs w) /\ le_group e = (part, id) /\ le_base e = c /\ log_file_name l = log_entry_name e
}.

Definition with_others (w : storage) (l : list object) : storage :=
  {| w_bases := w_bases w; w_logs := w_logs w; w_others := l; w_hist := w_hist w; w_last := w_last w |}.
Notation step := (step table format depth parse_schema code rank parse_rows footer dfs k p s).
Inductive record_step (w : storage) : storage -> Prop :=
(* a write of S_Writer: its commit is not yet complete, commits that name the file group are earlier, and rows carry the
   time of the write that committed them *)
| rs_write : forall w', step w w' -> w_others w' = w_others w -> (forall g, stamped ct (w_hist w' g)) ->
    (forall g ts a m, w_last w' g <> w_last w g -> committed w ts a m -> ts <> w_last w' g /\ forall c n, names_base m (fst g) (snd g) c n -> slt ts (w_last w' g)) ->
    record_step w w'
(* an object that is no commit *)
| rs_object : forall o, other_object table depth o -> ~ commit_like o -> ~ In (o_key o) (map o_key (objects_of table format w)) -> record_step w (with_others w (o :: w_others w))
(* the commit at [ts] completes *)
| rs_commit : forall o ts a m, o_key o = timeline_key (timeline_name ts a Completed) -> timestamp ts -> metadata_text number_of collect m (o_data o) ->
    writes_fine m -> unique_stats m -> (a = ReplaceCommit -> replace_metadata_ok m) -> tells w ts m ->
    ~ In (o_key o) (map o_key (objects_of table format w)) -> record_step w (with_others w (o :: w_others w))
(* an object that is no data is removed: an inflight file, a commit that is archived *)
| rs_remove : forall before o after, w_others w = (before ++ o :: after)%list -> record_step w (with_others w (before ++ after)).
(** All that such writers can leave. *)
Inductive recorded_left : storage -> Prop :=
| rl_empty : recorded_left empty_storage
| rl_step : forall w w', recorded_left w -> record_step w w' -> recorded_left w'.

Variable start e : string.
(** Every write between the times that did not fail has completed, and its commit is not archived. *)
Definition all_completed (w : storage) : Prop :=
  forall g x, wrote_at (w_hist w g) x -> slt start x -> sle x e -> exists a m, committed w x a m.
(** A commit between the times names the log file. *)
Definition log_named (w : storage) (le : log_entry) : Prop :=
  exists ts a m l, committed w ts a m /\ slt start ts /\ sle ts e /\ names_log_file m (fst (le_group le)) (snd (le_group le)) (le_base le) l /\ log_file_name l = log_entry_name le.
(** If one of these log files has data of a failed write too, then one of them has its rollback. *)
Definition failures_undone (w : storage) : Prop :=
  forall f bl vs x, In f (w_logs w) -> log_named w f -> In (bl, vs) (le_blocks f) -> at_instant bl x -> In x (g_failed (w_hist w (le_group f))) -> slt start x -> sle x e ->
  exists f' bl' vs' y, In f' (w_logs w) /\ log_named w f' /\ le_group f' = le_group f /\ le_base f' = le_base f /\ In (bl', vs') (le_blocks f') /\ at_instant bl' y /\ rolls_back bl' x /\ sle y e.
End Recorded.
