(** C88: queries that read base files only. *)
From Coq Require Import Sorted.
From Verif Require Import Base Str M_Utf8 M_Time M_Instant M_Timeline M_FileGroup M_Builder M_Listing M_Expr M_Log M_Config M_Reader M_Table M_Storage M_Avro M_Values M_Datum M_Json M_Objects M_Open
  S_Time S_Timeline S_FileGroup S_Builder S_Listing S_Expr S_Log S_Reader S_Config S_Table S_Avro S_Storage S_Objects S_Open S_History S_Values S_Datum S_Json S_Whole S_Readers S_Follow S_Bases
  L_Base L_Str L_Timeline L_History L_Objects L_Open L_Readers L_Whole L_Bases L_BasesSucceed E_Scan E_Open E_History E_Values E_Datum E_Json E_Whole E_Changes E_WholeChanges P_WholeChanges P_Follow.
From Verif Require L_Scan.
Local Open Scope string_scope.

(** A table is opened and queried as of [t]; its options ask for base files only, or its file groups have no log files.
    The answer has one batch for every file group that has a base file of [t] or before, that no replacecommit of [t] or
    before replaces, and whose partition the filters allow; and the batch is all that the newest such base file holds.
    Nothing is asked of the rows, of how records are merged, or of the log files. *)
Theorem C88_snapshot_partial : forall iter env parse stores global local_to_utc sort_unstable b tb u names objs
    number_of collect dtype' value' cast cmp parse_pschema parse_rows footer open avro_schema avro_value parse_schema datum check_schema to_batch parquet,
  visits_all iter -> S_Timeline.sorts sort_unstable -> one_per_key (b_options b) ->
  build iter env parse stores global local_to_utc sort_unstable b = Ok (tb, u, objs) -> located u names -> proper_objects objs ->
  let st := object_store objs u dtype' (parse_metadata number_of collect) parse_pschema parse_rows footer open in
  forall format partitioned tz,
  plain_table tb -> (forall fields, get_partition_schema dtype' st tb = Ok fields -> wf_fields fields) ->
  base_format (t_configs tb) = Ok format -> is_table_partitioned (t_configs tb) = Ok partitioned -> timeline_timezone (t_configs tb) = Ok tz ->
  base_names_plain objs names format partitioned ->
  forall t time, parse_datetime local_to_utc t tz = Ok time ->
  let is_live := live objs names format partitioned number_of collect local_to_utc tz t (epoch_millis time) in
  read_optimized_table tb \/ (forall g, is_live g -> without_logs objs names format partitioned g) ->
  forall filters c c' batches, view_after dtype' value' cast cmp local_to_utc st tb c ->
  read_snapshot_as_of dtype' value' cast cmp avro_schema avro_value parse_schema datum check_schema to_batch parquet local_to_utc st tb t filters c c' (Ok batches) ->
  exists gs fs fields hive url, from_str_tuples filters = Ok fs /\ get_partition_schema dtype' st tb = Ok fields /\ hive_flag tb = Ok hive /\ url_flag tb = Ok url
    /\ NoDup gs
    /\ (forall g, In g gs -> is_live g
          /\ forall values, fields <> [] -> stands_for dtype' value' cast cmp fields hive url fs (fst g) values -> Forall (satisfies dtype' value' cast cmp fields values) fs)
    /\ (forall g, is_live g -> matches dtype' value' cast cmp fields hive url fs (fst g) -> In g gs)
    /\ Forall2 (fun g batch => exists c0 o, newest_base objs names format partitioned g t c0 o /\ parse_rows (o_data o) = Ok batch) gs batches.
Proof.
  intros iter env parse stores global L f b tb u names objs nu co D V ca cm ps pr fo op A B sc da ch tob pq VA SU OK BU Lo PO st format pt tz PL WF BF PT TZ BN t time TM is_live MODE filters c c' bs VW RD.
  destruct (opened iter VA env parse stores global L f b tb u names objs SU OK BU Lo PO) as [u0 [o0 [da' [pp [_ [_ [_ [_ [_ [_ [_ [_ [li [tz0 [l0 [DL [TZ0 [DN [PM So]]]]]]]]]]]]]]]]]]].
  assert (tz0 = tz) by congruence. subst tz0.
  exact (bases_snapshot objs u names PO Lo nu co L D V ca cm ps pr fo op A B sc da ch tob pq tb li tz l0 format pt t time DL TZ DN PM So PL WF BF PT TM BN MODE filters c c' bs VW RD).
Qed.
Print Assumptions C88_snapshot_partial.

(** With writers as in C81: a query in read-optimized mode returns of every file group its records as they were at the
    time of its newest base file, whole.  These are its records at [t] if nothing has been written to it since. *)
Theorem C88_records_partial : forall iter env parse stores global local_to_utc sort_unstable b tb u names objs
    number_of collect dtype' value' cast cmp parse_pschema parse_rows footer open code rank float_cast parse_schema parquet,
  visits_all iter -> S_Timeline.sorts sort_unstable -> one_per_key (b_options b) ->
  build iter env parse stores global local_to_utc sort_unstable b = Ok (tb, u, objs) -> located u names -> proper_objects objs ->
  let st := object_store objs u dtype' (parse_metadata number_of collect) parse_pschema parse_rows footer open in
  forall dfs p s k format partitioned tz,
  plain_table tb -> (forall fields, get_partition_schema dtype' st tb = Ok fields -> wf_fields fields) ->
  base_format (t_configs tb) = Ok format -> is_table_partitioned (t_configs tb) = Ok partitioned -> timeline_timezone (t_configs tb) = Ok tz ->
  forall t time hist, parse_datetime local_to_utc t tz = Ok time ->
  written_by objs names format partitioned parse_schema code rank parse_rows dfs k p s t hist ->
  let is_live := live objs names format partitioned number_of collect local_to_utc tz t (epoch_millis time) in
  read_optimized_table tb ->
  forall c c' batches, view_after dtype' value' cast cmp local_to_utc st tb c ->
  read_snapshot_as_of dtype' value' cast cmp avro value parse_schema decode check_schema (to_batch code rank float_cast) parquet local_to_utc st tb t [] c c' (Ok batches) ->
  exists gs, NoDup gs /\ (forall g, In g gs <-> is_live g)
    /\ Forall2 (fun g batch => rb_fields batch = map (as_field code) dfs
         /\ exists c0 o, newest_base objs names format partitioned g t c0 o /\ current_at k p s (hist g) c0 (rb_rows batch)
            /\ ((forall x r, In (x, r) (g_versions (hist g)) -> sle x t -> sle x c0) -> current_at k p s (hist g) t (rb_rows batch))) gs batches.
Proof.
  intros iter env parse stores global L f b tb u names objs nu co D V ca cm ps pr fo op code rank fc sc pq VA SU OK BU Lo PO st dfs p s k format pt tz PL WF BF PT TZ t time hist TM WB is_live MODE c c' bs VW RD.
  assert (LI : forall dir, Forall legal dir -> exists l, directory_listing objs names dir l).
  { intros dir F. destruct (files_spec objs u names PO Lo dir F) as [l [_ NS]]. eauto. }
  assert (CT : forall path dir n o, object_partition objs names pt path dir -> file_in objs names dir n o -> get_file_data objs u (file_path path n) = Ok (o_data o)).
  { intros path dir n o [F [EP _]] FI. rewrite EP, <- path_is; [unfold get_file_data; now rewrite (read_spec objs u names PO Lo dir n o F FI)|now apply dir_end|]. intros r ->. destruct FI as [_ [[_ [S _]] _]]. discriminate S. }
  assert (SAME : forall path dir dir', object_partition objs names pt path dir -> object_partition objs names pt path dir' -> dir' = dir).
  { intros path dir dir' [F [EP _]] [F' [EP' _]]. assert (X : forall l, Forall legal l -> Forall (fun e => e <> "" /\ has_char "/" e = false) l) by (intros l; apply Forall_impl; intros a H; split; apply H). apply L_Scan.join_inj; [now apply X|now apply X|congruence]. }
  assert (OUT : forall g c0, has_base objs names format pt g c0 -> exists now contents dir li, history k p s now (hist g) /\ object_partition objs names pt (fst g) dir /\ directory_listing objs names dir li
    /\ written_out sc encodes code rank (fun path => let* d := get_file_data objs u path in pr d) (get_file_data objs u) format (fst g) (snd g) dfs li contents (hist g)).
  { intros g c0 HB. destruct (WB g c0 HB) as [now [contents [HI [_ WO]]]]. destruct HB as [dir [n [o [b0 [OP _]]]]]. destruct (LI dir (proj1 OP)) as [li DI].
    exists now, contents, dir, li. split; [exact HI|]. split; [exact OP|]. split; [exact DI|]. apply (WO dir li _ OP DI). intros n' o' FI. exact (CT _ dir n' o' OP FI). }
  assert (BN : base_names_plain objs names format pt).
  { intros path dir name o b0 OP FI NM BD BO. destruct (OUT (path, bf_file_id b0) (bf_commit b0)) as [now [contents [dir' [li [_ [OP' [DI WO]]]]]]].
    - exists dir, name, o, b0. cbn [fst snd]. auto 8.
    - cbn [fst snd] in *. rewrite (SAME path dir dir' OP OP') in DI. destruct WO as [_ Wn _ _ _ _ _ _ _]. apply (Wn (new_meta name (o_size o)) b0); [|reflexivity]. split; [apply (proj2 DI); eauto|]. auto. }
  destruct (C88_snapshot_partial iter env parse stores global L f b tb u names objs nu co D V ca cm ps pr fo op avro value sc decode check_schema (to_batch code rank fc) pq VA SU OK BU Lo PO format pt tz PL WF BF PT TZ BN t time TM (or_introl MODE) [] c c' bs VW RD)
    as [gs [fs [fields [hive [url [E1 [_ [_ [_ [ND [G1 [G2 FA]]]]]]]]]]]].
  injection E1 as <-. exists gs. split; [exact ND|]. split.
  - intros g. split; [intros I; now apply G1|]. intros Lv. apply G2; [exact Lv|now left].
  - clear -FA OUT CT SAME. induction FA as [|g batch gs bs [c0 [o [NB RB]]] F IH]; constructor; [|exact IH]. clear IH F.
    destruct NB as [[dir [n [b0 [OP [FI [NM [BD [BO [EI EC]]]]]]]]] [LE MX]].
    destruct (OUT g c0) as [now [contents [dir' [li [HI [OP' [DI WO]]]]]]]; [exists dir, n, o, b0; auto 8|]. rewrite (SAME _ dir dir' OP OP') in DI. clear dir' OP'.
    destruct WO as [_ _ Wb Wr _ _ _ _ _].
    assert (BO' : base_of format (snd g) li (new_meta n (o_size o)) c0). { exists b0. split; [|split; assumption]. split; [apply (proj2 DI); eauto|]. auto. }
    assert (IB : In c0 (map fst (g_bases (hist g)))) by (apply Wb; eauto). apply in_map_iff in IB as [[c1 rows] [E IB]]. cbn [fst] in E. subst c1.
    pose proof (Wr _ _ rows BO' IB) as R. cbn [fm_name new_meta] in R. rewrite (CT _ dir n o OP FI) in R. cbn [bind] in R. rewrite RB in R. injection R as ->. cbn [rb_fields rb_rows].
    assert (CU : current_at k p s (hist g) c0 rows) by (apply (iv_bases _ _ _ _ _ (history_inv _ _ _ _ _ HI) c0 rows IB)).
    split; [reflexivity|]. exists c0, o. split; [split; [exists dir, n, b0; auto 8|split; [exact LE|exact MX]]|]. split; [exact CU|].
    intros NW. destruct CU as [C1 [C2 C3]]. split; [exact C1|]. split.
    + intros x r I L. apply (C2 x r I). now apply (NW x r).
    + intros r I. destruct (C3 r I) as [[x [I1 I2]] C4]. split; [exists x; split; [exact I1|]; eapply sle_trans; eauto|]. intros x' r' I' L'. apply (C4 x' r' I'). now apply (NW x' r').
Qed.
Print Assumptions C88_records_partial.

(** Such queries have answers, and all their answers are batches, if the names of data files are in order, and of every file
    group that counts the newest base file at [t] can be read.  Nothing is asked of what other files hold: older and newer
    base files, those of replaced file groups, and in read-optimized mode log files. *)
Theorem C88_reads_succeed : forall iter env parse stores global local_to_utc sort_unstable b tb u names objs
    number_of collect dtype' value' cast cmp parse_pschema parse_rows footer avro_schema avro_value parse_schema datum check_schema to_batch parquet,
  visits_all iter -> S_Timeline.sorts sort_unstable -> one_per_key (b_options b) -> by_value stores ->
  build iter env parse stores global local_to_utc sort_unstable b = Ok (tb, u, objs) -> located u names -> proper_objects objs ->
  let st := object_store objs u dtype' (parse_metadata number_of collect) parse_pschema parse_rows footer (storage_opens parse stores) in
  forall format partitioned tz n columns hive url,
  plain_table tb -> (forall fields, get_partition_schema dtype' st tb = Ok fields -> wf_fields fields) ->
  base_format (t_configs tb) = Ok format -> is_table_partitioned (t_configs tb) = Ok partitioned -> timeline_timezone (t_configs tb) = Ok tz ->
  partition_fields (t_configs tb) = Ok columns -> hive_flag tb = Ok hive -> url_flag tb = Ok url -> listing_parallelism (t_configs tb) = Ok n -> (0 < n)%Z ->
  base_names_plain objs names format partitioned ->
  (forall path dir listed, object_partition objs names partitioned path dir -> directory_listing objs names dir listed -> listing_ok format listed) ->
  forall t time sch, parse_datetime local_to_utc t tz = Ok time ->
  replacements_in_order objs names number_of collect local_to_utc tz (epoch_millis time) -> schema_found objs names number_of collect parse_pschema (t_commits tb) sch ->
  let is_live := live objs names format partitioned number_of collect local_to_utc tz t (epoch_millis time) in
  read_optimized_table tb \/ (forall g, is_live g -> without_logs objs names format partitioned g) ->
  (forall g c0 o, is_live g -> newest_base objs names format partitioned g t c0 o -> (exists stats, footer (o_data o) = Ok stats) /\ exists batch, parse_rows (o_data o) = Ok batch) ->
  forall filters fs, from_str_tuples filters = Ok fs -> (forall f, In f fs -> filter_fits cast sch columns f) ->
  forall c, view_after dtype' value' cast cmp local_to_utc st tb c ->
  let read := read_snapshot_as_of dtype' value' cast cmp avro_schema avro_value parse_schema datum check_schema to_batch parquet local_to_utc st tb t filters c in
  (exists c' r, read c' r) /\ forall c' r, read c' r -> exists batches, r = Ok batches.
Proof.
  intros iter env parse stores global L f b tb u names objs nu co D V ca cm ps pr fo A B sc da ch tob pq VA SU OK BV BU Lo PO st format pt tz n cols hive url PL WF BF PT TZ PF HF UF LP NP BN LK t time sch TM RI SF is_live MODE RD filters fs FT FF c VW read.
  destruct (opened iter VA env parse stores global L f b tb u names objs SU OK BU Lo PO) as [u0 [o0 [da' [pp [_ [_ [_ [_ [_ [_ [_ [_ [li [tz0 [l0 [DL [TZ0 [DN [PM So]]]]]]]]]]]]]]]]]]].
  assert (tz0 = tz) by congruence. subst tz0.
  assert (OP : forall x, readers_open st tb [("hoodie.read.file_group.end_timestamp", x)]).
  { intros x. apply (readers_opened parse stores BV iter env global L f b tb u objs D st _ BU); [split; [apply PL|apply PL]| |reflexivity].
    intros k0 v [[= <- _]|[]]. split; [now exists "read.file_group.end_timestamp"|discriminate]. }
  destruct (bases_succeed objs u names PO Lo nu co L D V ca cm ps pr fo (storage_opens parse stores) A B sc da ch tob pq tb li tz l0 format pt t time sch cols hive url DL TZ DN PM So PL WF BF PT TM BN RI SF PF HF UF n LP NP LK (fun g c0 o I N => proj1 (RD g c0 o I N)) filters fs FT FF MODE (fun g c0 o I N => proj2 (RD g c0 o I N)) OP c VW) as [X [c' [bs Y]]].
  split; [eauto|exact X].
Qed.
Print Assumptions C88_reads_succeed.

(** ** The hypotheses are met *)
(** The table of C81, opened in read-optimized mode.  The update at the second time is in the log until the compaction at
    the fifth. *)
Definition ox_builder : builder := {| b_base := "file:///data/t/"; b_hudi := []; b_storage := []; b_options := [("hoodie.read.use.read_optimized.mode", "true")] |}.
Definition ox_build : outcome (table * url * list object) :=
  build (fun m => m) [] bx_parse (fun _ _ => Ok wx_objs) (fun _ => Err EStorage) hx_local isort ox_builder.
Definition ox_table : table := match ox_build with Ok (tb, _, _) => tb | _ => hx_table end.
Definition ox_snapshot (t : string) (batches : list (list (list cell))) : Prop := exists c',
  read_snapshot_as_of unit string (fun _ s => Some s) (fun a b => Some (scmp a b)) avro value vx_parse decode check_schema (to_batch vx_code vx_rank vx_cast) (fun _ => None)
    hx_local wx_store ox_table t [] [] c' (Ok (map hx_batch batches)).
Definition ox_changes (start : string) (stop : option string) (batches : list (list (list cell))) : Prop :=
  read_incremental unit avro value vx_parse decode check_schema (to_batch vx_code vx_rank vx_cast) (fun _ => None) hx_local wx_store ox_table start stop (Ok (map hx_batch batches)).
Example C88_case : ox_build = Ok (ox_table, sx_base, wx_objs) /\ located sx_base wx_names /\ proper_objects wx_objs /\ plain_table ox_table /\ read_optimized_table ox_table
  /\ (forall fields, get_partition_schema unit wx_store ox_table = Ok fields -> wf_fields fields)
  /\ base_format (t_configs ox_table) = Ok "parquet" /\ is_table_partitioned (t_configs ox_table) = Ok false /\ timeline_timezone (t_configs ox_table) = Ok "utc"
  /\ (forall t, In t [hx_t6; wx_t7] -> written_by wx_objs wx_names "parquet" false vx_parse vx_code vx_rank wx_rows vx_dfs 2 3 1 t wx_hist)
  /\ view_after unit string (fun _ s => Some s) (fun a b => Some (scmp a b)) hx_local wx_store ox_table []
  /\ ox_snapshot hx_t6 [[wx_c1]; [hx_a2; hx_b1]; [wx_d1]] /\ ox_snapshot wx_t7 [[wx_c1]; [hx_a2; hx_b1]].
Proof.
  split; [vm_compute; reflexivity|]. split; [exact sx_located|]. split; [exact wx_proper|].
  split; [split; [vm_compute; constructor|split; [vm_compute; intros ? ? ? []|vm_compute; reflexivity]]|]. split; [vm_compute; reflexivity|].
  split; [intros fields E; vm_compute in E; injection E as <-; split; [constructor|intros ? []]|]. split; [vm_compute; reflexivity|]. split; [vm_compute; reflexivity|]. split; [vm_compute; reflexivity|].
  split; [intros t T; now apply wx_written|]. split; [constructor|]. split; wx_read.
Qed.

(** Queries of this table succeed. *)
Example C88_reads_succeed_case : partition_fields (t_configs ox_table) = Ok [] /\ hive_flag ox_table = Ok false /\ url_flag ox_table = Ok false
  /\ (exists n, listing_parallelism (t_configs ox_table) = Ok n /\ (0 < n)%Z) /\ base_names_plain wx_objs wx_names "parquet" false
  /\ (forall path dir listed, object_partition wx_objs wx_names false path dir -> directory_listing wx_objs wx_names dir listed -> listing_ok "parquet" listed)
  /\ (forall time, replacements_in_order wx_objs wx_names jx_number jx_collect hx_local "utc" time)
  /\ schema_found wx_objs wx_names jx_number jx_collect (fun _ => Ok [("ts", tt)]) (t_commits ox_table) [("ts", tt)]
  /\ (forall g t c o, newest_base wx_objs wx_names "parquet" false g t c o -> exists batch, wx_rows (o_data o) = Ok batch).
Proof.
  split; [vm_compute; reflexivity|]. split; [vm_compute; reflexivity|]. split; [vm_compute; reflexivity|]. split; [eexists; split; [vm_compute; reflexivity|lia]|].
  split; [|split; [|split; [exact wx_replacements|split]]].
  - intros path dir n o b [_ [_ ED]] FI _ BN BO. subst dir. apply wx_files in FI as [d [J ->]]. unfold base_file_of in BO.
    wx_each J; try (exfalso; apply (L_Str.ends_with_spec ".parquet") in BN; discriminate BN);
    (match type of BO with context [parse_base_name ?n] => let x := eval vm_compute in (parse_base_name n) in change (parse_base_name n) with x in BO end; cbn [bind] in BO; injection BO as <-; vm_compute; reflexivity).
  - intros path dir l OP DL. exact (proj1 (wx_in_order path dir OP) l DL).
  - replace (t_commits ox_table) with (t_commits wx_table) by (vm_compute; reflexivity). exact wx_schema.
  - intros g t c o [[dir [n [b [[_ [_ ED]] [FI [_ [BN _]]]]]]] _]. subst dir. apply wx_files in FI as [d [J ->]]. cbn [o_data wx_at].
    wx_each J; try (exfalso; apply (L_Str.ends_with_spec ".parquet") in BN; discriminate BN); eexists; vm_compute; reflexivity.
Qed.

(** A copy of the table that is made and kept up to date in read-optimized mode misses every update that was in a log
    file first: the update of the second time is in the snapshot as of the fifth, but neither in the changes up to the
    second time, nor in those between. *)
Theorem C88_follow_refuted : exists copy changes more after, ox_snapshot hx_t1 copy /\ ox_changes hx_t1 (Some hx_t2) changes /\ ox_changes hx_t2 (Some hx_t5) more /\ ox_snapshot hx_t5 after
  /\ In (hx_t2, hx_a2) (g_versions (wx_hist ("", "f"))) /\ In hx_a2 (List.concat after)
  /\ ~ In hx_a2 (apply_changes 2 (apply_changes 2 (List.concat copy) (List.concat changes)) (List.concat more)).
Proof.
  exists [[wx_c1]; [hx_a1; hx_b1]; [wx_d1]], [[]], [[]], [[wx_c1]; [hx_a2; hx_b1]; [wx_d1]].
  split; [wx_read|]. split; [cx_read|]. split; [cx_read|]. split; [wx_read|]. split; [vm_compute; tauto|]. split; [vm_compute; tauto|].
  vm_compute. intros H. repeat (destruct H as [H|H]; [discriminate H|]). exact H.
Qed.
Print Assumptions C88_follow_refuted.

(** A copy-on-write table: no file group has log files. *)
Fact lx_files : forall n o, file_in lx_then wx_names [] n o -> has_char "/" n = false /\ In (n, o_data o) [(wx_h, "h1"); (fm_name hx_base1, "b1"); (fm_name hx_base5, "b5")].
Proof.
  intros n o [I [[_ [S _]] E]]. split; [exact S|]. rewrite wx_key in E. unfold lx_then in I.
  repeat (destruct I as [ <- |I]; [cbn [o_key o_data wx_at] in E |- *; apply wx_strip in E; subst n; first [discriminate S|cbn [In]; tauto]|]). destruct I.
Qed.
Example C88_copy_on_write_case : lx_build lx_then = Ok (lx_table lx_then, sx_base, lx_then) /\ proper_objects lx_then /\ plain_table (lx_table lx_then) /\ ~ read_optimized_table (lx_table lx_then)
  /\ (forall fields, get_partition_schema unit (lx_store lx_then) (lx_table lx_then) = Ok fields -> wf_fields fields)
  /\ base_format (t_configs (lx_table lx_then)) = Ok "parquet" /\ is_table_partitioned (t_configs (lx_table lx_then)) = Ok false /\ timeline_timezone (t_configs (lx_table lx_then)) = Ok "utc"
  /\ base_names_plain lx_then wx_names "parquet" false /\ (forall g, without_logs lx_then wx_names "parquet" false g)
  /\ lx_snapshot lx_then hx_t1 [[wx_c1]; [hx_a1; hx_b1]] /\ lx_snapshot lx_then hx_t5 [[wx_c1]; [lx_a5; hx_b1]].
Proof.
  split; [vm_compute; reflexivity|]. split; [apply proper_by; vm_compute; reflexivity|].
  split; [split; [vm_compute; constructor|split; [vm_compute; intros ? ? ? []|vm_compute; reflexivity]]|]. split; [unfold read_optimized_table; vm_compute; discriminate|].
  split; [intros fields E; vm_compute in E; injection E as <-; split; [constructor|intros ? []]|]. split; [vm_compute; reflexivity|]. split; [vm_compute; reflexivity|]. split; [vm_compute; reflexivity|].
  split; [|split; [|split; wx_read]].
  - intros path dir n o b [_ [_ ED]] FI _ _ BO. subst dir. apply lx_files in FI as [_ I]. unfold base_file_of in BO. cbn [In] in I.
    repeat (destruct I as [[= <- _]|I]; [match type of BO with context [parse_base_name ?n] => let x := eval vm_compute in (parse_base_name n) in change (parse_base_name n) with x in BO end; cbn [bind] in BO; injection BO as <-; vm_compute; reflexivity|]). destruct I.
  - intros g dir n o x [_ [_ ED]] FI _ NB _. subst dir. apply lx_files in FI as [_ I]. cbn [In] in I. exfalso. apply NB.
    repeat (destruct I as [[= <- _]|I]; [apply (L_Str.ends_with_spec ".parquet"); vm_compute; reflexivity|]). destruct I.
Qed.
