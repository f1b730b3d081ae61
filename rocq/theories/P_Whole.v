(** C81: from the bytes of the objects of a table to the records of a query, through everything in between. *)
From Coq Require Import Sorted.
From Verif Require Import Base Str M_Utf8 M_Time M_Instant M_Timeline M_FileGroup M_Builder M_Listing M_Expr M_Log M_Config M_Reader M_Table M_Storage M_Avro M_Values M_Datum M_Json M_Objects M_Open
  S_Time S_Timeline S_FileGroup S_Builder S_Listing S_Expr S_Log S_Reader S_Config S_Table S_Avro S_Storage S_Objects S_Open S_History S_Values S_Datum S_Json S_Whole
  L_Base L_Timeline L_Open L_Whole E_Scan E_Open E_History E_Values E_Datum E_Json E_Whole.
Local Open Scope string_scope.

(** A table is opened and queried as of [t].  The contents of its objects are commit metadata as JSON text, base
    files, and log files with records in Avro's binary form, as the writers of the table left them.  The answer has
    one batch for every file group [g] that has a base file of [t] or before, that no replacecommit of [t] or before
    replaces, and whose partition the filters allow; and the rows of the batch are the current records of the group:
    for every key the newest version committed at or before [t]. *)
Theorem C81_snapshot : forall iter env parse stores global local_to_utc sort_unstable b tb u names objs
    number_of collect dtype' value' cast cmp parse_pschema parse_rows footer open code rank float_cast parse_schema parquet,
  visits_all iter -> S_Timeline.sorts sort_unstable -> one_per_key (b_options b) ->
  build iter env parse stores global local_to_utc sort_unstable b = Ok (tb, u, objs) -> located u names -> proper_objects objs ->
  let st := object_store objs u dtype' (parse_metadata number_of collect) parse_pschema parse_rows footer open in
  forall dfs p s k format partitioned tz,
  merging_table tb (map (as_field code) dfs) p s k -> (forall fields, get_partition_schema dtype' st tb = Ok fields -> wf_fields fields) ->
  base_format (t_configs tb) = Ok format -> is_table_partitioned (t_configs tb) = Ok partitioned -> timeline_timezone (t_configs tb) = Ok tz ->
  forall t time hist, timestamp t -> parse_datetime local_to_utc t tz = Ok time ->
  written_by objs names format partitioned parse_schema code rank parse_rows dfs k p s t hist ->
  let is_live := live objs names format partitioned number_of collect local_to_utc tz t (epoch_millis time) in
  forall filters c c' batches, view_after dtype' value' cast cmp local_to_utc st tb c ->
  read_snapshot_as_of dtype' value' cast cmp avro value parse_schema decode check_schema (to_batch code rank float_cast) parquet local_to_utc st tb t filters c c' (Ok batches) ->
  exists gs fs fields hive url, from_str_tuples filters = Ok fs /\ get_partition_schema dtype' st tb = Ok fields /\ hive_flag tb = Ok hive /\ url_flag tb = Ok url
    /\ NoDup gs
    /\ (forall g, In g gs -> is_live g
          /\ forall values, fields <> [] -> stands_for dtype' value' cast cmp fields hive url fs (fst g) values -> Forall (satisfies dtype' value' cast cmp fields values) fs)
    /\ (forall g, is_live g -> matches dtype' value' cast cmp fields hive url fs (fst g) -> In g gs)
    /\ Forall2 (fun g batch => rb_fields batch = map (as_field code) dfs /\ current_at k p s (hist g) t (rb_rows batch)) gs batches.
Proof.
  intros iter env parse stores global L f b tb u names objs nu co D V ca cm ps pr fo op code rank fc sc pq VA SU OK BU Lo PO st dfs p s k format pt tz MT WF BF PT TZ t time hist TS TM WB is_live filters c c' bs VW RD.
  destruct (opened iter VA env parse stores global L f b tb u names objs SU OK BU Lo PO) as [u0 [o0 [da [pp [_ [_ [_ [_ [_ [_ [_ [_ [li [tz0 [l0 [DL [TZ0 [DN [PM So]]]]]]]]]]]]]]]]]]].
  assert (tz0 = tz) by congruence. subst tz0.
  exact (whole_snapshot objs u names PO Lo nu co L D V ca cm ps pr fo op code rank fc sc pq tb li tz l0 dfs p s k format pt hist t time DL TZ DN PM So MT WF BF PT TS TM WB filters c c' bs VW RD).
Qed.
Print Assumptions C81_snapshot.

(** Without filters, and with writers that keep the versions of a key in one file group: the rows of the answer are
    the current records of the table, each key once. *)
Theorem C81_records : forall iter env parse stores global local_to_utc sort_unstable b tb u names objs
    number_of collect dtype' value' cast cmp parse_pschema parse_rows footer open code rank float_cast parse_schema parquet,
  visits_all iter -> S_Timeline.sorts sort_unstable -> one_per_key (b_options b) ->
  build iter env parse stores global local_to_utc sort_unstable b = Ok (tb, u, objs) -> located u names -> proper_objects objs ->
  let st := object_store objs u dtype' (parse_metadata number_of collect) parse_pschema parse_rows footer open in
  forall dfs p s k format partitioned tz,
  merging_table tb (map (as_field code) dfs) p s k -> (forall fields, get_partition_schema dtype' st tb = Ok fields -> wf_fields fields) ->
  base_format (t_configs tb) = Ok format -> is_table_partitioned (t_configs tb) = Ok partitioned -> timeline_timezone (t_configs tb) = Ok tz ->
  forall t time hist, timestamp t -> parse_datetime local_to_utc t tz = Ok time ->
  written_by objs names format partitioned parse_schema code rank parse_rows dfs k p s t hist ->
  let is_live := live objs names format partitioned number_of collect local_to_utc tz t (epoch_millis time) in
  keys_apart k is_live hist ->
  forall c c' batches, view_after dtype' value' cast cmp local_to_utc st tb c ->
  (read_snapshot_as_of dtype' value' cast cmp avro value parse_schema decode check_schema (to_batch code rank float_cast) parquet local_to_utc st tb t [] c c' (Ok batches)
   \/ latest_commit_timestamp (t_commits tb) = Some t
      /\ read_snapshot dtype' value' cast cmp avro value parse_schema decode check_schema (to_batch code rank float_cast) parquet local_to_utc st tb [] c c' (Ok batches)) ->
  (forall batch, In batch batches -> rb_fields batch = map (as_field code) dfs) /\ table_at k p s is_live hist t (flat_map rb_rows batches).
Proof.
  intros iter env parse stores global L f b tb u names objs nu co D V ca cm ps pr fo op code rank fc sc pq VA SU OK BU Lo PO st dfs p s k format pt tz MT WF BF PT TZ t time hist TS TM WB is_live KA c c' bs VW RD.
  assert (RD' : read_snapshot_as_of D V ca cm avro value sc decode check_schema (to_batch code rank fc) pq L st tb t [] c c' (Ok bs)).
  { destruct RD as [RD|[LT RD]]; [exact RD|]. inversion RD as [|? ? t' ? LT' RD' E1 E2 E3]; subst; [congruence|]. assert (t' = t) by congruence. now subst. }
  destruct (C81_snapshot iter env parse stores global L f b tb u names objs nu co D V ca cm ps pr fo op code rank fc sc pq VA SU OK BU Lo PO dfs p s k format pt tz MT WF BF PT TZ t time hist TS TM WB [] c c' bs VW RD')
    as [gs [fs [fields [hive [url [E1 [_ [_ [_ [ND [G1 [G2 FA]]]]]]]]]]]].
  injection E1 as <-. split.
  - clear -FA. induction FA as [|g x gs bs [H _] F IH]; intros y I; [destruct I|]. destruct I as [ <- |I]; [exact H|now apply IH].
  - apply (flatten k p s hist t is_live gs bs ND); [|exact KA|].
    + intros g. split; [intros I; now apply G1|]. intros Lv. apply G2; [exact Lv|now left].
    + clear -FA. induction FA as [|g x gs bs [_ H] F IH]; constructor; assumption.
Qed.
Print Assumptions C81_records.

(** ** The hypotheses are met *)
(** A table of three file groups: one has log files, a failed and rolled back write and a compaction, one is replaced
    at the end.  Its replaced group is part of the snapshot before the replacement and not after it. *)
Example C81_case : wx_build = Ok (wx_table, sx_base, wx_objs) /\ located sx_base wx_names /\ proper_objects wx_objs
  /\ merging_table wx_table (map (as_field vx_code) vx_dfs) 3 1 2 /\ (forall fields, get_partition_schema unit wx_store wx_table = Ok fields -> wf_fields fields)
  /\ base_format (t_configs wx_table) = Ok "parquet" /\ is_table_partitioned (t_configs wx_table) = Ok false /\ timeline_timezone (t_configs wx_table) = Ok "utc"
  /\ latest_commit_timestamp (t_commits wx_table) = Some wx_t7
  /\ (forall t, In t [hx_t6; wx_t7] -> timestamp t /\ written_by wx_objs wx_names "parquet" false vx_parse vx_code vx_rank wx_rows vx_dfs 2 3 1 t wx_hist)
  /\ (forall t time, keys_apart 2 (live wx_objs wx_names "parquet" false jx_number jx_collect hx_local "utc" t time) wx_hist)
  /\ view_after unit string (fun _ s => Some s) (fun a b => Some (scmp a b)) hx_local wx_store wx_table []
  /\ live wx_objs wx_names "parquet" false jx_number jx_collect hx_local "utc" hx_t6 1736121600000 ("", "r")
  /\ ~ live wx_objs wx_names "parquet" false jx_number jx_collect hx_local "utc" wx_t7 1736208000000 ("", "r")
  /\ wx_reads hx_t6 [[wx_c1]; [hx_b6; hx_a2]; [wx_d1]] /\ wx_reads wx_t7 [[wx_c1]; [hx_b6; hx_a2]].
Proof.
  split; [exact wx_built|]. split; [exact sx_located|]. split; [exact wx_proper|]. split; [exact wx_merging|]. split; [exact wx_fields|].
  split; [vm_compute; reflexivity|]. split; [vm_compute; reflexivity|]. split; [vm_compute; reflexivity|]. split; [vm_compute; reflexivity|].
  split; [intros t T; split; [now apply wx_stamp|now apply wx_written]|].
  split; [intros t time; apply wx_apart; intros g [[c [H _]] _]; now apply wx_has in H|].
  split; [apply va_new || constructor|]. split; [apply wx_live_r|]. split; [apply wx_live_r|]. split; [exact wx_read6|exact wx_read7].
Qed.
