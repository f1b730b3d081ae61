(** The records of incremental reads: C59. *)
From Coq Require Import Sorted.
From Verif Require Import Base Str M_Time M_Instant M_FileGroup M_Builder M_Listing M_Log M_Config M_Reader M_Table
  S_Time S_Timeline S_FileGroup S_Builder S_Listing S_Log S_Reader S_Config S_Table S_History S_Incremental L_Str L_Changes E_History E_Changes.
Local Open Scope string_scope.

(** C59: an incremental read from [start] to [e] returns one batch for every file group that the commits in
    between name and do not replace, with exactly the newest version as of [e] of every key that got a version
    in between; no file group that has a base file of [e] or before and such a version is left out unless replaced.  The commits must record what
    they wrote, and later versions must be newer (otherwise see the refutations below). *)
Theorem C59_incremental_records_partial : forall dtype avro_schema avro_value parse_schema datum check_schema to_batch parquet local_to_utc
    (st : store dtype) tb sch p s k ct start stop e, merging_table tb sch p s k ->
  oget "hoodie.populate.meta.fields" (t_configs tb) <> Some "false" -> typed_column sch "_hoodie_commit_time" TUtf8 ct ->
  StronglySorted instant_le (t_commits tb) -> Forall dated (t_commits tb) ->
  timestamp start -> window_end (t_commits tb) stop e -> timestamp e ->
  let commit := commit_between (st_json _ st) (t_commits tb) start e in
  let lays_out := laid_out avro_schema avro_value parse_schema datum check_schema to_batch parquet (st_parquet _ st) (st_bytes _ st) in
  (forall i md, commit i md -> unique_stats md) ->
  forall batches, read_incremental dtype avro_schema avro_value parse_schema datum check_schema to_batch parquet local_to_utc st tb start stop (Ok batches) ->
  exists groups, NoDup groups
    /\ (forall part id, In (part, id) groups <-> (exists c n i md, commit i md /\ names_base md part id c n /\ sle c e)
          /\ ~ exists i md, commit i md /\ i_action i = ReplaceCommit /\ replaces md part id)
    /\ Forall2 (fun gr batch => forall now g format listed contents, history k p s now g -> lays_out format (fst gr) (snd gr) sch listed contents g ->
         stamped ct g -> later_is_newer k p s g e -> recorded (st_json _ st) (t_commits tb) format (fst gr) (snd gr) listed contents g start e ->
         rb_fields batch = sch /\ changed_between k p s g start e (rb_rows batch)) groups batches
    /\ forall part id now g format listed contents x r, history k p s now g -> lays_out format part id sch listed contents g ->
         stamped ct g -> later_is_newer k p s g e -> recorded (st_json _ st) (t_commits tb) format part id listed contents g start e ->
         (exists c, In c (map fst (g_bases g)) /\ sle c e) -> In (x, r) (g_versions g) -> slt start x -> sle x e -> ~ (exists i md, commit i md /\ i_action i = ReplaceCommit /\ replaces md part id) -> In (part, id) groups.
Proof. exact incremental_records. Qed.
Print Assumptions C59_incremental_records_partial.
(** ... and when the named file groups are such ones the read succeeds. *)
Theorem C59_reads_succeed : forall dtype avro_schema avro_value parse_schema datum check_schema to_batch parquet local_to_utc
    (st : store dtype) tb sch p s k ct start stop e, merging_table tb sch p s k ->
  oget "hoodie.populate.meta.fields" (t_configs tb) <> Some "false" -> typed_column sch "_hoodie_commit_time" TUtf8 ct ->
  StronglySorted instant_le (t_commits tb) -> Forall dated (t_commits tb) ->
  timestamp start -> window_end (t_commits tb) stop e -> timestamp e ->
  let commit := commit_between (st_json _ st) (t_commits tb) start e in
  let lays_out := laid_out avro_schema avro_value parse_schema datum check_schema to_batch parquet (st_parquet _ st) (st_bytes _ st) in
  (forall i md, commit i md -> unique_stats md) ->
  readers_open st tb [("hoodie.read.file_group.start_timestamp", start); ("hoodie.read.file_group.end_timestamp", e)] ->
  (forall order, (forall n l, Permutation l (order n l)) -> exists ss, get_file_slices_between dtype local_to_utc st tb order (Some start) stop = Ok ss) ->
  (forall part id c n i md, commit i md -> names_base md part id c n -> exists now g format listed contents, history k p s now g /\ lays_out format part id sch listed contents g /\
     stamped ct g /\ later_is_newer k p s g e /\ recorded (st_json _ st) (t_commits tb) format part id listed contents g start e) ->
  forall r, read_incremental dtype avro_schema avro_value parse_schema datum check_schema to_batch parquet local_to_utc st tb start stop r -> exists batches, r = Ok batches.
Proof. exact incremental_succeeds. Qed.
Print Assumptions C59_reads_succeed.
(** The history of E_History. The changes after the first commit are a2 and, from the log of the new base file, b6. *)
Example C59_case : merging_table hx_table hx_sch 3 1 2 /\ typed_column hx_sch "_hoodie_commit_time" TUtf8 0
  /\ StronglySorted instant_le (t_commits hx_table) /\ Forall dated (t_commits hx_table)
  /\ (forall e, In e [hx_t2; hx_t4; hx_t5; hx_t6] -> timestamp e
        /\ (forall i md, commit_between (st_json _ hx_store) (t_commits hx_table) hx_t1 e i md -> unique_stats md)
        /\ recorded (st_json _ hx_store) (t_commits hx_table) "parquet" "" "f" hx_listed hx_contents hx_group hx_t1 e)
  /\ window_end (t_commits hx_table) None hx_t6 /\ timestamp hx_t1 /\ history 2 3 1 hx_t6 hx_group
  /\ hx_lays "parquet" "" "f" hx_sch hx_listed hx_contents hx_group /\ stamped 0 hx_group /\ later_is_newer 2 3 1 hx_group hx_t6
  /\ hx_incremental hx_store hx_table hx_decode hx_t1 (Some hx_t2) [hx_a2] /\ hx_incremental hx_store hx_table hx_decode hx_t1 (Some hx_t4) [hx_a2]
  /\ hx_incremental hx_store hx_table hx_decode hx_t1 None [hx_b6; hx_a2].
Proof.
  split; [exact hx_merging|]. split; [hx_column|]. split; [exact hx_sorted|]. split; [exact hx_dated|]. split.
  { intros e I. split; [apply hx_stamp; cbn in *; tauto|]. split; [|now apply hx_recorded]. intros i md C. apply hx_commits in C as [C _]. destruct C as [[_ -> ]|[[_ -> ]|[[_ -> ]|[_ -> ]]]]; apply hx_md_unique. }
  split; [right; split; [reflexivity|]; exists (removelast (t_commits hx_table)), {| i_timestamp := hx_t6; i_action := DeltaCommit; i_state := Completed; i_epoch := 1736121600000 |}; split; reflexivity|]. split; [apply hx_stamp; cbn; tauto|]. split; [exact hx_history|]. split; [exact hx_laid_out|]. split; [exact hx_stamped|]. split; [apply hx_later|].
  split; [exact hx_changes_12|]. split; [exact hx_changes_14|exact hx_changes_16].
Qed.
(** Without [later_is_newer] C59 is false: a late event, older by ordering field than the version it follows,
    is returned while it is in the log although it is not current, and after compaction the key is missing from
    the changes although it got a version. *)
Theorem C59_late_event_refuted : exists (st : store unit) tb now g contents listed start mid e rows1 rows2,
  merging_table tb hx_sch 3 1 2 /\ typed_column hx_sch "_hoodie_commit_time" TUtf8 0 /\ StronglySorted instant_le (t_commits tb) /\ Forall dated (t_commits tb)
  /\ history 2 3 1 now g /\ stamped 0 g /\ timestamp start /\ timestamp mid /\ timestamp e
  /\ laid_out unit unit (fun _ => None) (fun _ _ => None) (fun _ => Ok tt) (fun _ _ => Err EArrow) lx_decode (st_parquet _ st) (st_bytes _ st) "parquet" "" "f" hx_sch listed contents g
  /\ recorded (st_json _ st) (t_commits tb) "parquet" "" "f" listed contents g start mid /\ recorded (st_json _ st) (t_commits tb) "parquet" "" "f" listed contents g start e
  /\ (forall i md, commit_between (st_json _ st) (t_commits tb) start e i md -> unique_stats md)
  /\ hx_incremental st tb lx_decode start (Some mid) rows1
  /\ (exists x r y r', In r rows1 /\ In (x, r) (g_versions g) /\ In (y, r') (g_versions g) /\ sle y mid /\ key_at 2 r' = key_at 2 r /\ newer 3 1 r' r)
  /\ hx_incremental st tb lx_decode start (Some e) rows2
  /\ exists x r, In (x, r) (g_versions g) /\ slt start x /\ sle x e /\ forall r', In r' rows2 -> key_at 2 r' <> key_at 2 r.
Proof.
  exists lx_store, lx_table, hx_t3, lx_group, lx_contents, lx_listed, hx_t1, hx_t2, hx_t3, [lx_a2], [].
  split; [exact lx_merging|]. split; [hx_column|]. split; [exact lx_sorted|]. split; [exact lx_dated|]. split; [exact lx_history|]. split; [exact lx_stamped|].
  split; [apply hx_stamp; cbn; tauto|]. split; [apply hx_stamp; cbn; tauto|]. split; [apply hx_stamp; cbn; tauto|]. split; [exact lx_laid_out|].
  split; [apply lx_recorded; now left|]. split; [apply lx_recorded; right; now left|].
  split; [intros i md C; apply lx_commits in C as [C _]; destruct C as [[_ -> ]|[[_ -> ]|[_ -> ]]]; apply hx_md_unique|].
  split; [exact lx_changes_12|]. split.
  { exists hx_t2, lx_a2, hx_t1, lx_a1. split; [now left|]. split; [right; now left|]. split; [now left|]. split; [discriminate|]. split; [reflexivity|]. left. cbn. constructor. lia. }
  split; [exact lx_changes_13|]. exists hx_t2, lx_a2. split; [right; now left|]. split; [reflexivity|]. split; [discriminate|]. intros r' [].
Qed.
Print Assumptions C59_late_event_refuted.
(** ... and if the window ends between a failed write and its rollback, rows of the failed write are returned. *)
Theorem C59_failed_write_shown_refuted : exists (st : store unit) tb now g contents listed start e rows row,
  merging_table tb hx_sch 3 1 2 /\ history 2 3 1 now g /\ clean_at g now
  /\ laid_out unit unit (fun _ => None) (fun _ _ => None) (fun _ => Ok tt) (fun _ _ => Err EArrow) hx_decode (st_parquet _ st) (st_bytes _ st) "parquet" "" "f" hx_sch listed contents g
  /\ stamped 0 g /\ later_is_newer 2 3 1 g e /\ timestamp start /\ timestamp e
  /\ hx_incremental st tb hx_decode start (Some e) rows /\ In row rows /\ forall x, ~ In (x, row) (g_versions g).
Proof.
  exists hx_store, hx_table, hx_t6, hx_group, hx_contents, hx_listed, hx_t1, hx_t3, [hx_a3], hx_a3.
  split; [exact hx_merging|]. split; [exact hx_history|]. split; [apply hx_clean; cbn; tauto|]. split; [exact hx_laid_out|]. split; [exact hx_stamped|]. split; [apply hx_later|].
  split; [apply hx_stamp; cbn; tauto|]. split; [apply hx_stamp; cbn; tauto|]. split; [exact hx_changes_13|]. split; [now left|].
  intros x I. cbn in I. repeat (destruct I as [I|I]; [discriminate I|]). destruct I.
Qed.
Print Assumptions C59_failed_write_shown_refuted.
