(** C82: queries of a table in order have an answer, and it is the table. *)
From Coq Require Import Sorted.
From Verif Require Import Base Str M_Utf8 M_Time M_Instant M_Timeline M_FileGroup M_Builder M_Listing M_Expr M_Log M_Config M_Reader M_Table M_Storage M_Avro M_Values M_Datum M_Json M_Objects M_Open
  S_Time S_Timeline S_FileGroup S_Builder S_Listing S_Expr S_Log S_Reader S_Config S_Table S_Avro S_Storage S_Objects S_Open S_History S_Values S_Datum S_Json S_Whole S_Readers
  L_Base L_Timeline L_Open L_Whole L_Readers L_Succeed E_Scan E_Open E_History E_Values E_Datum E_Json E_Whole P_Whole.
Local Open Scope string_scope.

(** A table is opened and queried as of [t].  Its files are in order, its replacecommits are readable, its last commit
    names a file with a schema, its writers left what they wrote, and the filters fit its partition columns.  Then no
    query fails, whatever was queried before and in whatever order listings come back, and there is an answer. *)
Theorem C82_succeeds : forall iter env parse stores global local_to_utc sort_unstable b tb u names objs
    number_of collect dtype' value' cast cmp parse_pschema parse_rows footer code rank float_cast parse_schema parquet,
  visits_all iter -> S_Timeline.sorts sort_unstable -> one_per_key (b_options b) ->
  build iter env parse stores global local_to_utc sort_unstable b = Ok (tb, u, objs) -> located u names -> proper_objects objs ->
  let st := object_store objs u dtype' (parse_metadata number_of collect) parse_pschema parse_rows footer (storage_opens parse stores) in
  forall dfs p s k format partitioned tz n columns hive url,
  merging_table tb (map (as_field code) dfs) p s k -> (forall fields, get_partition_schema dtype' st tb = Ok fields -> wf_fields fields) ->
  base_format (t_configs tb) = Ok format -> is_table_partitioned (t_configs tb) = Ok partitioned -> timeline_timezone (t_configs tb) = Ok tz ->
  partition_fields (t_configs tb) = Ok columns -> hive_flag tb = Ok hive -> url_flag tb = Ok url ->
  listing_parallelism (t_configs tb) = Ok n -> (0 < n)%Z -> by_value stores ->
  forall t time hist sch, timestamp t -> parse_datetime local_to_utc t tz = Ok time ->
  written_by objs names format partitioned parse_schema code rank parse_rows dfs k p s t hist ->
  files_in_order objs names format partitioned footer -> replacements_in_order objs names number_of collect local_to_utc tz (epoch_millis time) ->
  schema_found objs names number_of collect parse_pschema (t_commits tb) sch ->
  forall filters fs, from_str_tuples filters = Ok fs -> (forall f, In f fs -> filter_fits cast sch columns f) ->
  forall c, view_after dtype' value' cast cmp local_to_utc st tb c ->
  (forall c' r, read_snapshot_as_of dtype' value' cast cmp avro value parse_schema decode check_schema (to_batch code rank float_cast) parquet local_to_utc st tb t filters c c' r -> exists batches, r = Ok batches)
  /\ exists c' batches, read_snapshot_as_of dtype' value' cast cmp avro value parse_schema decode check_schema (to_batch code rank float_cast) parquet local_to_utc st tb t filters c c' (Ok batches).
Proof.
  intros iter env parse stores global L f b tb u names objs nu co D V ca cm ps pr fo code rank fc sc pq VA SU OK BU Lo PO st dfs p s k format pt tz n cols hive url MT WF BF PT TZ PF HF UF LP NP BV t time hist sch TS TM WB FO RI SF filters fs FT FF c VW.
  destruct (opened iter VA env parse stores global L f b tb u names objs SU OK BU Lo PO) as [u0 [o0 [da [pp [_ [_ [_ [_ [_ [_ [_ [_ [li [tz0 [l0 [DL [TZ0 [DN [PM So]]]]]]]]]]]]]]]]]]].
  assert (tz0 = tz) by congruence. subst tz0.
  assert (OP : forall x, readers_open st tb [("hoodie.read.file_group.end_timestamp", x)]).
  { intros x. apply (readers_opened parse stores BV iter env global L f b tb u objs D st _ BU (mt_storage _ _ _ _ _ MT)); [|reflexivity].
    intros k0 v [[= <- _]|[]]. split; [now exists "read.file_group.end_timestamp"|discriminate]. }
  destruct (whole_succeeds objs u names PO Lo nu co L D V ca cm ps pr fo (storage_opens parse stores) code rank fc sc pq tb tz li l0 dfs p s k format pt hist t time sch cols hive url DL TZ DN PM So TM RI SF PF HF UF MT BF PT TS OP FO filters fs FT FF WB WF c VW) as [A B].
  split; [exact A|exact (B n LP NP)].
Qed.
Print Assumptions C82_succeeds.

(** Reading the latest snapshot of such a table, without filters: there is an answer, and every answer has the current
    records of the table, each key once. *)
Theorem C82_table : forall iter env parse stores global local_to_utc sort_unstable b tb u names objs
    number_of collect dtype' value' cast cmp parse_pschema parse_rows footer code rank float_cast parse_schema parquet,
  visits_all iter -> S_Timeline.sorts sort_unstable -> one_per_key (b_options b) ->
  build iter env parse stores global local_to_utc sort_unstable b = Ok (tb, u, objs) -> located u names -> proper_objects objs ->
  let st := object_store objs u dtype' (parse_metadata number_of collect) parse_pschema parse_rows footer (storage_opens parse stores) in
  forall dfs p s k format partitioned tz n columns hive url,
  merging_table tb (map (as_field code) dfs) p s k -> (forall fields, get_partition_schema dtype' st tb = Ok fields -> wf_fields fields) ->
  base_format (t_configs tb) = Ok format -> is_table_partitioned (t_configs tb) = Ok partitioned -> timeline_timezone (t_configs tb) = Ok tz ->
  partition_fields (t_configs tb) = Ok columns -> hive_flag tb = Ok hive -> url_flag tb = Ok url ->
  listing_parallelism (t_configs tb) = Ok n -> (0 < n)%Z -> by_value stores ->
  forall t time hist sch, latest_commit_timestamp (t_commits tb) = Some t -> timestamp t -> parse_datetime local_to_utc t tz = Ok time ->
  written_by objs names format partitioned parse_schema code rank parse_rows dfs k p s t hist ->
  files_in_order objs names format partitioned footer -> replacements_in_order objs names number_of collect local_to_utc tz (epoch_millis time) ->
  schema_found objs names number_of collect parse_pschema (t_commits tb) sch ->
  let is_live := live objs names format partitioned number_of collect local_to_utc tz t (epoch_millis time) in
  keys_apart k is_live hist ->
  forall c, view_after dtype' value' cast cmp local_to_utc st tb c ->
  let read := read_snapshot dtype' value' cast cmp avro value parse_schema decode check_schema (to_batch code rank float_cast) parquet local_to_utc st tb [] c in
  (exists c' r, read c' r)
  /\ forall c' r, read c' r -> exists batches, r = Ok batches /\ (forall batch, In batch batches -> rb_fields batch = map (as_field code) dfs)
       /\ table_at k p s is_live hist t (flat_map rb_rows batches).
Proof.
  intros iter env parse stores global L f b tb u names objs nu co D V ca cm ps pr fo code rank fc sc pq VA SU OK BU Lo PO st dfs p s k format pt tz n cols hive url MT WF BF PT TZ PF HF UF LP NP BV t time hist sch LT TS TM WB FO RI SF is_live KA c VW read.
  destruct (C82_succeeds iter env parse stores global L f b tb u names objs nu co D V ca cm ps pr fo code rank fc sc pq VA SU OK BU Lo PO dfs p s k format pt tz n cols hive url MT WF BF PT TZ PF HF UF LP NP BV t time hist sch TS TM WB FO RI SF [] [] eq_refl ltac:(intros ? []) c VW) as [A [c' [bs B]]].
  split; [exists c', (Ok bs); econstructor; eassumption|]. intros c1 r R. inversion R as [|? ? t' ? LT' R' E1 E2 E3]; subst; [congruence|]. assert (t' = t) by congruence. subst t'.
  destruct (A _ _ R') as [bs1 ->]. exists bs1. split; [reflexivity|].
  exact (C81_records iter env parse stores global L f b tb u names objs nu co D V ca cm ps pr fo (storage_opens parse stores) code rank fc sc pq VA SU OK BU Lo PO dfs p s k format pt tz MT WF BF PT TZ t time hist TS TM WB KA c c1 bs1 VW (or_introl R')).
Qed.
Print Assumptions C82_table.

(** ** The hypotheses are met *)
(** The table of C81, as of its deltacommit before the replacement and as of its last commit. *)
Example C82_case : wx_build = Ok (wx_table, sx_base, wx_objs) /\ latest_commit_timestamp (t_commits wx_table) = Some wx_t7
  /\ partition_fields (t_configs wx_table) = Ok [] /\ hive_flag wx_table = Ok false /\ url_flag wx_table = Ok false
  /\ (exists n, listing_parallelism (t_configs wx_table) = Ok n /\ (0 < n)%Z)
  /\ files_in_order wx_objs wx_names "parquet" false (fun _ => Ok (1, 1)%Z)
  /\ (forall time, replacements_in_order wx_objs wx_names jx_number jx_collect hx_local "utc" time)
  /\ schema_found wx_objs wx_names jx_number jx_collect (fun _ => Ok [("ts", tt)]) (t_commits wx_table) [("ts", tt)].
Proof.
  split; [exact wx_built|]. split; [vm_compute; reflexivity|]. split; [vm_compute; reflexivity|]. split; [vm_compute; reflexivity|]. split; [vm_compute; reflexivity|].
  split; [eexists; split; [vm_compute; reflexivity|lia]|]. split; [exact wx_in_order|]. split; [exact wx_replacements|exact wx_schema].
Qed.
(** A filter on a partition column. *)
Example C82_filter_case : filter_fits (fun (_ : unit) v => Some v) [("ts", tt); ("region", tt)] ["region"] {| fe_field := "region"; fe_op := OEq; fe_value := "eu" |}.
Proof. split; [now left|]. exists tt, "eu". split; [right; now left|]. split; [intros []; reflexivity|reflexivity]. Qed.
