(** C96: cleaning that leaves gaps between the slices of a file group, as savepoints do. *)
From Coq Require Import Sorted.
From Verif Require L_Clean.
From Verif Require Import Base Str M_Utf8 M_Time M_Instant M_Timeline M_FileGroup M_Builder M_Listing M_Expr M_Log M_Config M_Reader M_Table M_Storage M_Avro M_Values M_Datum M_Json M_Objects M_Open
  S_Time S_Timeline S_FileGroup S_Builder S_Listing S_Expr S_Log S_Reader S_Config S_Table S_Avro S_Storage S_Objects S_Open S_History S_Values S_Datum S_Json S_Whole S_Readers S_Clean S_Deletes S_Erased S_Gaps
  L_Base L_Str L_Timeline L_Open L_Whole L_Readers L_Deletes L_Succeed L_Erased L_Gaps E_Scan E_Open E_History E_Values E_Datum E_Json E_Whole E_Erased E_Gaps P_Erased.
Local Open Scope string_scope.

(** Writers left [objs], with deletions; any slices are removed from it, and a table is opened on what is left, [objs'], and
    read as of [t].  Of each file group that counts at [t] the slice of the newest base file up to [t] stays.  Then the
    read has an answer, and every answer is the table as it was before: for each key the newest of the versions that were
    not deleted since. *)
Theorem C96_gaps : forall iter env parse stores global local_to_utc sort_unstable b tb u names objs objs'
    number_of collect dtype' value' cast cmp parse_pschema parse_rows footer code rank float_cast parse_schema parquet,
  visits_all iter -> S_Timeline.sorts sort_unstable -> one_per_key (b_options b) ->
  build iter env parse stores global local_to_utc sort_unstable b = Ok (tb, u, objs') -> located u names -> proper_objects objs ->
  let st := object_store objs' u dtype' (parse_metadata number_of collect) parse_pschema parse_rows footer (storage_opens parse stores) in
  forall dfs p s k format partitioned tz n columns hive url,
  merging_table tb (map (as_field code) dfs) p s k -> (forall fields, get_partition_schema dtype' st tb = Ok fields -> wf_fields fields) ->
  base_format (t_configs tb) = Ok format -> is_table_partitioned (t_configs tb) = Ok partitioned -> timeline_timezone (t_configs tb) = Ok tz ->
  partition_fields (t_configs tb) = Ok columns -> hive_flag tb = Ok hive -> url_flag tb = Ok url ->
  listing_parallelism (t_configs tb) = Ok n -> (0 < n)%Z -> by_value stores ->
  forall t time hist dels sch stays, timestamp t -> parse_datetime local_to_utc t tz = Ok time ->
  erased_by objs names format partitioned parse_schema code rank parse_rows dfs k p s t hist dels ->
  files_in_order objs names format partitioned footer -> replacements_in_order objs names number_of collect local_to_utc tz (epoch_millis time) ->
  slices_removed objs objs' names format partitioned stays ->
  let is_live := live objs names format partitioned number_of collect local_to_utc tz t (epoch_millis time) in
  (forall g c, is_live g -> shown_slice objs names format partitioned t g c -> stays g c = true) ->
  schema_found objs' names number_of collect parse_pschema (t_commits tb) sch ->
  forall filters fs, from_str_tuples filters = Ok fs -> (forall f, In f fs -> filter_fits cast sch columns f) ->
  forall c, view_after dtype' value' cast cmp local_to_utc st tb c ->
  let read := read_snapshot_as_of dtype' value' cast cmp avro value parse_schema decode check_schema (to_batch code rank float_cast) parquet local_to_utc st tb t filters c in
  (exists c' batches, read c' (Ok batches))
  /\ forall c' r, read c' r -> exists batches, r = Ok batches /\ (forall batch, In batch batches -> rb_fields batch = map (as_field code) dfs)
       /\ (filters = [] -> keys_apart k is_live hist -> table_alive k p s is_live hist dels t (flat_map rb_rows batches)).
Proof.
  intros iter env parse stores global L f b tb u names objs objs' nu co D V ca cm ps pr fo code rank fc sc pq VA SU OK BU Lo PO st dfs p s k format pt tz n cols hive url MT WF BF PT TZ PF HF UF LP NP BV t time hist dels sch stays TS TM WB FO RI CL is_live KEEP SF filters fs FT FF c VW read.
  pose proof (still_proper _ _ _ _ _ _ PO CL) as PO'.
  pose proof (files_after _ _ _ _ _ _ _ Lo PO CL fo FO) as FO'. pose proof (proj2 (replacements_same _ _ _ _ _ _ _ Lo CL nu co L tz (epoch_millis time)) RI) as RI'.
  pose proof (erased_after _ _ _ _ _ _ _ Lo PO CL sc code rank pr dfs k p s t hist dels WB nu co L tz (epoch_millis time) KEEP) as WB'.
  pose proof (live_same _ _ _ _ _ _ _ Lo PO CL sc code rank pr dfs k p s t hist dels WB nu co L tz (epoch_millis time) KEEP) as OF.
  destruct (opened iter VA env parse stores global L f b tb u names objs' SU OK BU Lo PO') as [u0 [o0 [da [pp [_ [_ [_ [_ [_ [_ [_ [_ [li [tz0 [l0 [DL [TZ0 [DN [PM So]]]]]]]]]]]]]]]]]]].
  assert (tz0 = tz) by congruence. subst tz0.
  assert (OP : forall x, readers_open st tb [("hoodie.read.file_group.end_timestamp", x)]).
  { intros x. apply (readers_opened parse stores BV iter env global L f b tb u objs' D st _ BU (mt_storage _ _ _ _ _ MT)); [|reflexivity].
    intros k0 v [[= <- _]|[]]. split; [now exists "read.file_group.end_timestamp"|discriminate]. }
  destruct (erased_succeeds objs' u names PO' Lo nu co L D V ca cm ps pr fo (storage_opens parse stores) code rank fc sc pq tb tz li l0 dfs p s k format pt hist dels _ t time sch cols hive url DL TZ DN PM So TM RI' SF PF HF UF MT BF PT TS OP FO' filters fs FT FF WB' WF c VW) as [A B].
  split; [exact (B n LP NP)|]. intros c' r R. destruct (A c' r R) as [bs ->]. exists bs. split; [reflexivity|].
  destruct (erased_snapshot objs' u names PO' Lo nu co L D V ca cm ps pr fo (storage_opens parse stores) code rank fc sc pq tb li tz l0 dfs p s k format pt hist dels _ t time DL TZ DN PM So MT WF BF PT TS TM WB' filters c c' bs VW R)
    as [gs [fs' [fields [hive' [url' [E1 [_ [_ [_ [ND [G1 [G2 FA]]]]]]]]]]]]. split.
  - clear -FA. induction FA as [|g x gs bs [H _] F IH]; intros y I; [destruct I|]. destruct I as [ <- |I]; [exact H|now apply IH].
  - intros -> KA. injection E1 as <-. apply (flatten_alive k p s hist dels t is_live gs bs ND); [|exact KA|].
    + intros g. split; [intros I; apply OF; now apply G1|]. intros Lv. apply G2; [now apply OF|now left].
    + clear -FA. induction FA as [|g x gs bs [_ H] F IH]; constructor; assumption.
Qed.
Print Assumptions C96_gaps.

(** ** The hypotheses are met *)
(** A commit of a and b on January 1, a commit that deletes a on January 2, a commit that writes a again on January 3.  The
    slice of January 2 is removed, the one of January 1 stays (a savepoint): the table reads as before as of January 1 and
    as of January 3. *)
Definition ix_reads (t : string) := read_snapshot_as_of unit string (fun _ s => Some s) (fun a b => Some (scmp a b)) avro value vx_parse decode check_schema (to_batch vx_code vx_rank vx_cast) (fun _ => None)
  hx_local ix_store gx_table t [] [].
Example C96_gaps_case : forall t time, In (t, time) [(hx_t1, 1735689600000); (hx_t3, 1735862400000)]%Z ->
  (exists c' batches, ix_reads t c' (Ok batches))
  /\ forall c' r, ix_reads t c' r -> exists batches, r = Ok batches /\ table_alive 2 3 1 (gx_live t time) (fun _ => gx_group) (fun _ => gx_dels) t (flat_map rb_rows batches).
Proof.
  intros t time I.
  assert (TM : exists dt, parse_datetime hx_local t "utc" = Ok dt /\ epoch_millis dt = time) by (destruct I as [[= <- <-]|[[= <- <-]|[]]]; (eexists; split; [vm_compute; reflexivity|vm_compute; reflexivity])).
  destruct TM as [dt [TM <-]].
  destruct (C96_gaps (fun m => m) [] bx_parse (fun _ _ => Ok ix_objs) (fun _ => Err EStorage) hx_local isort wx_builder gx_table sx_base wx_names gx_objs ix_objs
    jx_number jx_collect unit string (fun _ s => Some s) (fun a b => Some (scmp a b)) (fun _ => Ok [("ts", tt)]) gx_rows (fun _ => Ok (1, 1)%Z) vx_code vx_rank vx_cast vx_parse (fun _ => None))
    with (dfs := vx_dfs) (p := 3%nat) (s := 1%nat) (k := 2%nat) (format := "parquet") (partitioned := false) (tz := "utc") (n := 10%Z) (columns := @nil string) (hive := false) (url := false)
      (t := t) (time := dt) (hist := fun _ : string * string => gx_group) (dels := fun _ : string * string => gx_dels) (sch := [("ts", tt)]) (stays := ix_stays) (filters := @nil (string * string * string)) (fs := @nil filter_expr) (c := @nil (string * list file_group)) as [A B].
  - intros m. reflexivity.
  - apply L_Timeline.isort_sorts.
  - constructor.
  - exact ix_built.
  - exact sx_located.
  - exact gx_proper.
  - exact gx_merging.
  - exact ix_fields.
  - vm_compute. reflexivity.
  - vm_compute. reflexivity.
  - vm_compute. reflexivity.
  - vm_compute. reflexivity.
  - vm_compute. reflexivity.
  - vm_compute. reflexivity.
  - vm_compute. reflexivity.
  - reflexivity.
  - intros ? ? ? ?. reflexivity.
  - destruct I as [[= <- _]|[[= <- _]|[]]]; apply hx_stamp; cbn; tauto.
  - exact TM.
  - apply gx_erased.
  - exact gx_in_order.
  - apply gx_replacements.
  - exact ix_removed.
  - intros g c _ S. apply (ix_shown t g c); [|exact S]. destruct I as [[= <- _]|[[= <- _]|[]]]; cbn; auto.
  - exact ix_schema.
  - reflexivity.
  - intros f [].
  - apply va_new.
  - split; [exact A|]. intros c' r R. destruct (B c' r R) as [bs [E [_ T]]]. exists bs. split; [exact E|]. apply T; [reflexivity|].
    apply gx_apart. intros g [[c [H _]] _]. now apply gx_has in H.
Qed.

(** A read as of a time whose slice was removed is no error: it shows the slice before.  As of January 2, when a is deleted,
    the read of the cleaned table succeeds and returns a. *)
Theorem C96_gap_stale_refuted : slices_removed gx_objs ix_objs wx_names "parquet" false ix_stays
  /\ (forall t, erased_by gx_objs wx_names "parquet" false vx_parse vx_code vx_rank gx_rows vx_dfs 2 3 1 t (fun _ => gx_group) (fun _ => gx_dels))
  /\ (exists c' batches, ix_reads hx_t2 c' (Ok batches))
  /\ forall c' r, ix_reads hx_t2 c' r -> exists batches, r = Ok batches /\ (exists r', In r' (flat_map rb_rows batches) /\ key_at 2 r' = "a")
       /\ ~ table_alive 2 3 1 (gx_live hx_t2 1735776000000) (fun _ => gx_group) (fun _ => gx_dels) hx_t2 (flat_map rb_rows batches).
Proof.
  split; [exact ix_removed|]. split; [exact gx_erased|].
  destruct (C92_table_partial (fun m => m) [] bx_parse (fun _ _ => Ok ix_objs) (fun _ => Err EStorage) hx_local isort wx_builder gx_table sx_base wx_names ix_objs
    jx_number jx_collect unit string (fun _ s => Some s) (fun a b => Some (scmp a b)) (fun _ => Ok [("ts", tt)]) gx_rows (fun _ => Ok (1, 1)%Z) vx_code vx_rank vx_cast vx_parse (fun _ => None))
    with (dfs := vx_dfs) (p := 3%nat) (s := 1%nat) (k := 2%nat) (format := "parquet") (partitioned := false) (tz := "utc") (n := 10%Z) (columns := @nil string) (hive := false) (url := false)
      (t := hx_t2) (time := match parse_datetime hx_local hx_t2 "utc" with Ok d => d | _ => {| nd_days := 0; nd_secs := 0; nd_nanos := 0 |}%Z end) (hist := fun _ : string * string => ix_group) (dels := fun _ : string * string => [(hx_t3, "a")]) (sch := [("ts", tt)]) (filters := @nil (string * string * string)) (fs := @nil filter_expr) (c := @nil (string * list file_group)) as [A B].
  - intros m. reflexivity.
  - apply L_Timeline.isort_sorts.
  - constructor.
  - exact ix_built.
  - exact sx_located.
  - exact (still_proper _ _ _ _ _ _ gx_proper ix_removed).
  - exact gx_merging.
  - exact ix_fields.
  - vm_compute. reflexivity.
  - vm_compute. reflexivity.
  - vm_compute. reflexivity.
  - vm_compute. reflexivity.
  - vm_compute. reflexivity.
  - vm_compute. reflexivity.
  - vm_compute. reflexivity.
  - reflexivity.
  - intros ? ? ? ?. reflexivity.
  - apply hx_stamp; cbn; tauto.
  - vm_compute. reflexivity.
  - apply ix_erased.
  - exact (files_after _ _ _ _ _ _ _ sx_located gx_proper ix_removed _ gx_in_order).
  - apply (replacements_same _ _ _ _ _ _ _ sx_located ix_removed). apply gx_replacements.
  - exact ix_schema.
  - reflexivity.
  - intros f [].
  - apply va_new.
  - split; [exact A|]. intros c' r R. destruct (B c' r R) as [bs [-> [_ T]]]. exists bs. split; [reflexivity|].
    assert (KA : keys_apart 2 (live ix_objs wx_names "parquet" false jx_number jx_collect hx_local "utc" hx_t2 (epoch_millis match parse_datetime hx_local hx_t2 "utc" with Ok d => d | _ => {| nd_days := 0; nd_secs := 0; nd_nanos := 0 |}%Z end)) (fun _ => ix_group)).
    { intros g g' x x' r r' [[c [H _]] _] [[c2 [H2 _]] _] _ _ _. apply ix_has in H, H2. congruence. }
    destruct (T eq_refl KA) as [_ [K _]].
    assert (X : exists r', In r' (flat_map rb_rows bs) /\ key_at 2 r' = "a").
    { apply (K ("", "f") hx_t1 hx_a1).
      - split.
        + exists hx_t1. split; [|discriminate]. apply (bases_left gx_objs ix_objs sx_base wx_names "parquet" false ix_stays sx_located ix_removed). split; [|reflexivity].
          exists [], gx_1, (wx_at gx_1 "b1"). eexists. split; [repeat split; constructor|]. split; [apply gx_files; exists "b1"; split; [cbn [gx_data In]; tauto|reflexivity]|].
          split; [apply gx_no_log; cbn; tauto|]. split; [apply gx_no_log; cbn; tauto|]. split; [vm_compute; reflexivity|]. split; reflexivity.
        + intros [ts [o [dt [m [F _]]]]]. apply (timeline_stays gx_objs ix_objs sx_base wx_names "parquet" false ix_stays sx_located ix_removed) in F.
          now apply (proj1 (gx_timeline _ _ F) ts).
      - split; [now left|]. split; [discriminate|]. intros [d [[[= <-]|[]] [_ L]]]. now apply L. }
    split; [exact X|]. destruct X as [r' [I E]]. intros TA. destruct TA as [_ [_ H]]. destruct (H r' I) as [[g [x [O [Iv [Lx Nd]]]]] _].
    destruct Iv as [Z|[Z|[Z|[]]]]; injection Z as <- <-; [|discriminate E|now apply Lx]. apply Nd. exists hx_t2. split; [now left|]. split; [reflexivity|apply sle_refl].
Qed.
Print Assumptions C96_gap_stale_refuted.
