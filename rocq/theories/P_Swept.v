(** C99: queries while cleaners remove old files. *)
From Coq Require Import Sorted.
From Verif Require L_Clean L_Gaps.
From Verif Require Import Base Str M_Utf8 M_Time M_Instant M_Timeline M_FileGroup M_Builder M_Listing M_Expr M_Log M_Config M_Reader M_Table M_Storage M_Session M_Avro M_Values M_Datum M_Json M_Objects M_During M_Open
  S_Time S_Timeline S_FileGroup S_Builder S_Listing S_Expr S_Log S_Reader S_Config S_Table S_Avro S_Storage S_Session S_Objects S_Open S_History S_Values S_Datum S_Json S_Whole S_During S_Readers S_Clean S_Deletes S_Erased S_Gaps S_Swept
  L_Base L_Str L_Instant L_Timeline L_Session L_Objects L_Open L_Whole L_Readers L_Deletes L_Succeed L_Erased L_Swept L_Sweeping E_Scan E_Open E_History E_Values E_Datum E_Json E_Whole E_Clean P_Clean E_Swept.
Local Open Scope string_scope.

(** A table is opened.  After that cleaners remove files, one by one and in any order, but none that the table at [t] needs;
    a query as of [t] runs meanwhile, and each of its requests is answered from another moment ([sees]).  If the query
    returns records, they are the table at [t]: for each key the newest of the versions that were not deleted since, each
    key once.  And if the files can be listed, they can be read. *)
Theorem C99_answer : forall iter env parse stores global local_to_utc sort_unstable b tb u names start later
    number_of collect dtype' value' cast cmp parse_pschema parse_rows footer code rank float_cast parse_schema parquet,
  visits_all iter -> S_Timeline.sorts sort_unstable -> one_per_key (b_options b) ->
  build iter env parse stores global local_to_utc sort_unstable b = Ok (tb, u, start) -> located u names -> proper_objects start ->
  forall st : store dtype', sees (start :: later) u dtype' (parse_metadata number_of collect) parse_pschema parse_rows footer (storage_opens parse stores) st ->
  forall dfs p s k format partitioned tz,
  merging_table tb (map (as_field code) dfs) p s k -> (forall fields, get_partition_schema dtype' st tb = Ok fields -> wf_fields fields) ->
  base_format (t_configs tb) = Ok format -> is_table_partitioned (t_configs tb) = Ok partitioned -> timeline_timezone (t_configs tb) = Ok tz ->
  forall t time hist dels, timestamp t -> parse_datetime local_to_utc t tz = Ok time ->
  erased_by start names format partitioned parse_schema code rank parse_rows dfs k p s t hist dels ->
  (forall objs, In objs later -> swept start objs names format partitioned t (replaced_in start names number_of collect local_to_utc tz (epoch_millis time))) ->
  forall c, M_Session.opened dtype' value' cast cmp local_to_utc tb (keeps dtype' tb) st c -> forall filters c',
  (forall batches, read_snapshot_as_of dtype' value' cast cmp avro value parse_schema decode check_schema (to_batch code rank float_cast) parquet local_to_utc st tb t filters c c' (Ok batches) ->
     (forall batch, In batch batches -> rb_fields batch = map (as_field code) dfs)
     /\ let is_live := live start names format partitioned number_of collect local_to_utc tz t (epoch_millis time) in
        filters = [] -> keys_apart k is_live hist -> table_alive k p s is_live hist dels t (flat_map rb_rows batches))
  /\ (by_value stores -> st_open _ st = storage_opens parse stores -> forall ss, get_file_slices_as_of dtype' value' cast cmp local_to_utc st tb t filters c c' (Ok ss) ->
        forall r, read_slices dtype' avro value parse_schema decode check_schema (to_batch code rank float_cast) parquet local_to_utc st tb [("hoodie.read.file_group.end_timestamp", t)] ss r -> exists batches, r = Ok batches).
Proof.
  intros iter env parse stores global L f b tb u names start later nu co D V ca cm ps pr fo code rank fc sc pq VA SU OK BU Lo PO st SEE dfs p s k format pt tz MT WF BF PT TZ t time hist dels TS TM WB SW c OPD filters c'.
  destruct (opened iter VA env parse stores global L f b tb u names start SU OK BU Lo PO) as [u0 [o0 [da [pp [_ [_ [_ [_ [_ [_ [_ [_ [li [tz0 [l0 [DL [TZ0 [DN [PM So]]]]]]]]]]]]]]]]]]].
  assert (tz0 = tz) by congruence. subst tz0.
  assert (NL : forall i, In i (t_commits tb) -> legal (file_name i)).
  { intros i I. apply (Permutation_in _ (Permutation_sym PM)) in I. exact (instant_legal start names L tz li l0 DL DN i I). }
  assert (RP : forall g, replaced_by_time (st_json _ (object_store start u D (parse_metadata nu co) ps pr fo (storage_opens parse stores))) (t_commits tb) (epoch_millis time) g
    <-> replaced_in start names nu co L tz (epoch_millis time) g).
  { intros g. exact (replaced_objects start u names PO Lo nu co L tz li l0 (t_commits tb) (epoch_millis time) g DL DN PM). }
  assert (FIN : forall g c, has_base start names format pt g c -> exists l, forall c', In c' l <-> has_base start names format pt g c').
  { intros g c0 B. exists (map fst (g_bases (hist g))). exact (L_Gaps.bases_are start u names format pt Lo PO sc code rank pr dfs k p s t hist dels WB g c0 B). }
  split.
  - intros bs R. exact (swept_answer start later u names format pt t _ PO Lo SW nu co L D V ca cm ps pr fo (storage_opens parse stores) st SEE tb tz time So NL TZ TM BF PT RP FIN code rank fc sc pq dfs p s k hist dels MT TS WB c c' filters bs OPD WF R).
  - intros BV EO ss Q r R.
    refine (swept_reads start later u names format pt t _ PO Lo SW nu co L D V ca cm ps pr fo (storage_opens parse stores) st SEE tb tz time So NL TZ TM BF PT RP FIN code rank fc sc pq dfs p s k hist dels MT TS WB c c' filters ss OPD WF Q _ r R).
    apply (readers_opened parse stores BV iter env global L f b tb u start D st _ BU (mt_storage _ _ _ _ _ MT)); [|exact EO].
    intros k0 v [[= <- _]|[]]. split; [now exists "read.file_group.end_timestamp"|discriminate].
Qed.
Print Assumptions C99_answer.

(** If moreover log files go before their base file, and the file with the schema stays, then no cleaner makes the query
    fail: it has an answer, and every answer is the table at [t]. *)
Theorem C99_reads : forall iter env parse stores global local_to_utc sort_unstable b tb u names start later
    number_of collect dtype' value' cast cmp parse_pschema parse_rows footer code rank float_cast parse_schema parquet,
  visits_all iter -> S_Timeline.sorts sort_unstable -> one_per_key (b_options b) ->
  build iter env parse stores global local_to_utc sort_unstable b = Ok (tb, u, start) -> located u names -> proper_objects start ->
  forall st : store dtype', sees (start :: later) u dtype' (parse_metadata number_of collect) parse_pschema parse_rows footer (storage_opens parse stores) st ->
  st_open _ st = storage_opens parse stores ->
  forall dfs p s k format partitioned tz n columns hive url,
  merging_table tb (map (as_field code) dfs) p s k -> (forall fields, get_partition_schema dtype' st tb = Ok fields -> wf_fields fields) ->
  base_format (t_configs tb) = Ok format -> is_table_partitioned (t_configs tb) = Ok partitioned -> timeline_timezone (t_configs tb) = Ok tz ->
  partition_fields (t_configs tb) = Ok columns -> hive_flag tb = Ok hive -> url_flag tb = Ok url ->
  listing_parallelism (t_configs tb) = Ok n -> (0 < n)%Z -> by_value stores ->
  forall t time hist dels sch, timestamp t -> parse_datetime local_to_utc t tz = Ok time ->
  erased_by start names format partitioned parse_schema code rank parse_rows dfs k p s t hist dels ->
  files_in_order start names format partitioned footer -> replacements_in_order start names number_of collect local_to_utc tz (epoch_millis time) ->
  (forall objs, In objs later -> swept start objs names format partitioned t (replaced_in start names number_of collect local_to_utc tz (epoch_millis time))
     /\ logs_first start objs names format partitioned) ->
  (forall objs, In objs (start :: later) -> schema_found objs names number_of collect parse_pschema (t_commits tb) sch) ->
  forall filters fs, from_str_tuples filters = Ok fs -> (forall f, In f fs -> filter_fits cast sch columns f) ->
  forall c, M_Session.opened dtype' value' cast cmp local_to_utc tb (keeps dtype' tb) st c ->
  let read := read_snapshot_as_of dtype' value' cast cmp avro value parse_schema decode check_schema (to_batch code rank float_cast) parquet local_to_utc st tb t filters c in
  (exists c' batches, read c' (Ok batches))
  /\ forall c' r, read c' r -> exists batches, r = Ok batches /\ (forall batch, In batch batches -> rb_fields batch = map (as_field code) dfs)
       /\ let is_live := live start names format partitioned number_of collect local_to_utc tz t (epoch_millis time) in
          filters = [] -> keys_apart k is_live hist -> table_alive k p s is_live hist dels t (flat_map rb_rows batches).
Proof.
  intros iter env parse stores global L f b tb u names start later nu co D V ca cm ps pr fo code rank fc sc pq VA SU OK BU Lo PO st SEE EO dfs p s k format pt tz n cols hive url MT WF BF PT TZ PF HF UF LP NP BV t time hist dels sch TS TM WB FO RI SWL SF filters fs FT FF c OPD read.
  assert (SW : forall objs, In objs later -> swept start objs names format pt t (replaced_in start names nu co L tz (epoch_millis time))) by (intros objs I; now apply SWL).
  destruct (opened iter VA env parse stores global L f b tb u names start SU OK BU Lo PO) as [u0 [o0 [da [pp [_ [_ [_ [_ [_ [_ [_ [_ [li [tz0 [l0 [DL [TZ0 [DN [PM So]]]]]]]]]]]]]]]]]]].
  assert (tz0 = tz) by congruence. subst tz0.
  assert (NL : forall i, In i (t_commits tb) -> legal (file_name i)).
  { intros i I. apply (Permutation_in _ (Permutation_sym PM)) in I. exact (instant_legal start names L tz li l0 DL DN i I). }
  assert (RP : forall g, replaced_by_time (st_json _ (object_store start u D (parse_metadata nu co) ps pr fo (storage_opens parse stores))) (t_commits tb) (epoch_millis time) g
    <-> replaced_in start names nu co L tz (epoch_millis time) g).
  { intros g. exact (replaced_objects start u names PO Lo nu co L tz li l0 (t_commits tb) (epoch_millis time) g DL DN PM). }
  assert (FIN : forall g c, has_base start names format pt g c -> exists l, forall c', In c' l <-> has_base start names format pt g c').
  { intros g c0 B. exists (map fst (g_bases (hist g))). exact (L_Gaps.bases_are start u names format pt Lo PO sc code rank pr dfs k p s t hist dels WB g c0 B). }
  assert (FOA : forall objs, In objs (start :: later) -> files_in_order objs names format pt fo).
  { intros objs [ <- |I]; [exact FO|]. destruct (SWL objs I) as [S1 S2]. exact (order_kept start objs u names format pt t _ fo PO Lo S1 S2 FO). }
  assert (OP : readers_open st tb [("hoodie.read.file_group.end_timestamp", t)]).
  { apply (readers_opened parse stores BV iter env global L f b tb u start D st _ BU (mt_storage _ _ _ _ _ MT)); [|exact EO].
    intros k0 v [[= <- _]|[]]. split; [now exists "read.file_group.end_timestamp"|discriminate]. }
  destruct (swept_succeeds start later u names format pt t (replaced_in start names nu co L tz (epoch_millis time)) PO Lo SW nu co L D V ca cm ps pr fo (storage_opens parse stores) st SEE tb tz time So NL TZ TM BF PT RP FIN code rank fc sc pq dfs p s k hist dels MT TS WB li l0 DL DN PM RI sch cols hive url SF PF HF UF FOA n LP NP OP WF filters fs FT FF c OPD) as [A B].
  split; [exact B|]. intros c' r R. destruct (A c' r R) as [bs ->]. exists bs. split; [reflexivity|].
  exact (swept_answer start later u names format pt t _ PO Lo SW nu co L D V ca cm ps pr fo (storage_opens parse stores) st SEE tb tz time So NL TZ TM BF PT RP FIN code rank fc sc pq dfs p s k hist dels MT TS WB c c' filters bs OPD WF R).
Qed.
Print Assumptions C99_reads.

(** ** The hypotheses are met *)
(** The table of C81.  A cleaner removes the log file of the first slice of a file group, then its base file, then a file
    group that is replaced; the query lists the files after the first step and reads them after the last. *)
Definition sv_reads (st : store unit) := read_snapshot_as_of unit string (fun _ s => Some s) (fun a b => Some (scmp a b)) avro value vx_parse decode check_schema (to_batch vx_code vx_rank vx_cast) (fun _ => None)
  hx_local st wx_table wx_t7 [] [].
Example C99_case : (map (@List.length object) (wx_objs :: sv_later) = [13; 12; 11; 10])%nat
  /\ (exists c', sv_reads sv_store c' (Ok (map hx_batch [[wx_c1]; [hx_b6; hx_a2]])))
  /\ forall c' r, sv_reads sv_store c' r -> exists batches, r = Ok batches
       /\ table_alive 2 3 1 (live wx_objs wx_names "parquet" false jx_number jx_collect hx_local "utc" wx_t7 1736208000000) wx_hist (fun _ => []) wx_t7 (flat_map rb_rows batches).
Proof.
  split; [vm_compute; reflexivity|]. split; [unfold sv_reads; cl_read|]. destruct cl_time as [time [TM EP]].
  destruct (C99_reads (fun m => m) [] bx_parse (fun _ _ => Ok wx_objs) (fun _ => Err EStorage) hx_local isort wx_builder wx_table sx_base wx_names wx_objs sv_later
    jx_number jx_collect unit string (fun _ s => Some s) (fun a b => Some (scmp a b)) (fun _ => Ok [("ts", tt)]) wx_rows (fun _ => Ok (1, 1)%Z) vx_code vx_rank vx_cast vx_parse (fun _ => None))
    with (st := sv_store) (dfs := vx_dfs) (p := 3%nat) (s := 1%nat) (k := 2%nat) (format := "parquet") (partitioned := false) (tz := "utc") (n := 10%Z) (columns := @nil string) (hive := false) (url := false)
      (t := wx_t7) (time := time) (hist := wx_hist) (dels := fun _ : string * string => @nil (string * string)) (sch := [("ts", tt)]) (filters := @nil (string * string * string)) (fs := @nil filter_expr) (c := @nil (string * list file_group)) as [A B].
  - intros m. reflexivity.
  - apply L_Timeline.isort_sorts.
  - constructor.
  - exact wx_built.
  - exact sx_located.
  - exact wx_proper.
  - exact sv_sees.
  - reflexivity.
  - exact wx_merging.
  - intros fields E. vm_compute in E. injection E as <-. split; [constructor|intros ? []].
  - vm_compute. reflexivity.
  - vm_compute. reflexivity.
  - vm_compute. reflexivity.
  - vm_compute. reflexivity.
  - vm_compute. reflexivity.
  - vm_compute. reflexivity.
  - vm_compute. reflexivity.
  - reflexivity.
  - intros ? ? ? ?. reflexivity.
  - apply wx_stamp. cbn [In]. tauto.
  - exact TM.
  - exact sv_erased.
  - exact wx_in_order.
  - apply wx_replacements.
  - intros objs I. apply in_map_iff in I as [names [ <- I]]. rewrite EP. split; [exact (sv_swept names (sv_part names I))|exact (sv_first names I)].
  - exact sv_schema.
  - reflexivity.
  - intros f [].
  - constructor.
  - intros c' r R. destruct (B c' r R) as [bs [E [_ T]]]. exists bs. split; [exact E|]. rewrite EP in T. apply T; [reflexivity|]. apply wx_apart. intros g [[c [H _]] _]. now apply wx_has in H.
Qed.

(** ** What does not hold *)
(** A cleaner may remove a base file that the table no longer needs before its log file.  Until the log file is gone too,
    every query of the table fails, also one that needs neither of them. *)
Theorem C99_base_first_refuted : let objs := cl_without [fm_name hx_base1] in
  swept wx_objs objs wx_names "parquet" false wx_t7 (replaced_in wx_objs wx_names jx_number jx_collect hx_local "utc" 1736208000000)
  /\ ~ logs_first wx_objs objs wx_names "parquet" false
  /\ (exists c' batches, sv_reads (cl_store wx_objs) c' (Ok batches)) /\ exists c' e, sv_reads (cl_store objs) c' (Err e).
Proof.
  intros objs. split; [|split; [|split]].
  - apply sv_swept. intros n [ <- |[]]. cbn [cl_names In]. tauto.
  - intros LF.
    assert (HB : has_base wx_objs wx_names "parquet" false ("", "f") hx_t1).
    { exists [], (fm_name hx_base1), (wx_at (fm_name hx_base1) "b1"). eexists. split; [now apply cl_part|]. split; [apply wx_files; exists "b1"; split; [cbn [wx_data In]; tauto|reflexivity]|].
      split; [apply cl_not_marker; reflexivity|]. split; [apply (ends_with_spec ".parquet"); reflexivity|]. split; [vm_compute; reflexivity|]. split; reflexivity. }
    assert (X : exists d, In (fm_name hx_log1, d) wx_data) by (eexists; cbn [wx_data In]; tauto). destruct X as [d Id].
    destruct (LF ("", "f") hx_t1 (wx_at (fm_name hx_log1) d)) as [dir [n [o [b [OP [FI [NM [BN [BO [E1 E2]]]]]]]]]].
    + exists [], (fm_name hx_log1). split; [now apply cl_part|]. split; [apply wx_files; exists d; auto|]. apply cl_slice; [apply in_map_iff; exists (fm_name hx_log1, d); auto|cbn [cl_slices In]; tauto].
    + apply cl_in. split; [unfold wx_objs; apply in_or_app; right; apply in_map_iff; exists (fm_name hx_log1, d); auto|]. intros n [ <- |[]] E. discriminate E.
    + exact HB.
    + destruct OP as [_ [_ ->]]. destruct FI as [I [LN K]]. apply cl_in in I as [I N].
      assert (FI : file_in wx_objs wx_names [] n o) by (split; [exact I|now split]). apply wx_files in FI as [d' [Id' ->]]. cbn [fst snd] in *.
      assert (S : slice_file "parquet" n (bf_file_id b) (bf_commit b)) by (apply (L_Clean.base_slice_file "parquet" [new_meta n (o_size (wx_at n d'))] (new_meta n (o_size (wx_at n d'))) b); split; [now left|auto]).
      rewrite E1, E2 in S. apply cl_slice in S; [|apply in_map_iff; exists (n, d'); auto]. apply (N (fm_name hx_base1)); [now left|]. cbn [cl_slices In] in S.
      repeat (destruct S as [S|S]; [first [discriminate S|injection S as <-; first [reflexivity|exfalso; apply (ends_with_spec ".parquet") in BN; discriminate BN]]|]). destruct S.
  - assert (R : exists c', sv_reads (cl_store wx_objs) c' (Ok (map hx_batch [[wx_c1]; [hx_b6; hx_a2]]))) by (unfold sv_reads; cl_read). destruct R as [c' R]. eauto.
  - eexists. eexists. unfold sv_reads. eapply ra_err. eapply ga_ok; [reflexivity|]. eapply sa_view; [vm_compute; reflexivity|vm_compute; reflexivity|vm_compute; reflexivity|vm_compute; reflexivity|].
    eapply vq_err with (order := fun _ l => l); [reflexivity|eapply cl_listing; vm_compute; reflexivity].
Qed.
Print Assumptions C99_base_first_refuted.
