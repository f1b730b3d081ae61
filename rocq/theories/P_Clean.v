(** C96: cleaning removes old file slices, and changes no answer of later times. *)
From Coq Require Import Sorted.
From Verif Require Import Base Str M_Utf8 M_Time M_Instant M_Timeline M_FileGroup M_Builder M_Listing M_Expr M_Log M_Config M_Reader M_Table M_Storage M_Avro M_Values M_Datum M_Json M_Objects M_Open
  S_Time S_Timeline S_FileGroup S_Builder S_Listing S_Expr S_Log S_Reader S_Config S_Table S_Avro S_Storage S_Objects S_Open S_History S_Values S_Datum S_Json S_Whole S_Readers S_Follow S_Writer S_Clean
  L_Base L_Str L_Timeline L_Open L_Json L_Whole L_Readers L_Succeed L_Follow L_Writer L_Clean E_Scan E_Open E_History E_Values E_Datum E_Json E_Whole E_Writer E_Clean P_Whole P_Succeed P_Writer.
Local Open Scope string_scope.

(** Writers left [objs], and slices were removed from it; a table is opened on what is left, [objs'], and read as of [t].
    A file group with a base file of [t] or before keeps one of [t] or before, and only file groups replaced by [t] are
    removed altogether.  Then the read succeeds, and returns the records of the table as it was before cleaning: of every
    key the newest version of [t] or before. *)
Theorem C96_read : forall iter env parse stores global local_to_utc sort_unstable b tb u names objs objs'
    number_of collect dtype' value' cast cmp parse_pschema parse_rows footer code rank float_cast parse_schema parquet,
  visits_all iter -> S_Timeline.sorts sort_unstable -> one_per_key (b_options b) ->
  build iter env parse stores global local_to_utc sort_unstable b = Ok (tb, u, objs') -> located u names -> proper_objects objs ->
  let st := object_store objs' u dtype' (parse_metadata number_of collect) parse_pschema parse_rows footer (storage_opens parse stores) in
  forall dfs p s k format partitioned tz n columns hive url,
  merging_table tb (map (as_field code) dfs) p s k -> (forall fields, get_partition_schema dtype' st tb = Ok fields -> wf_fields fields) ->
  base_format (t_configs tb) = Ok format -> is_table_partitioned (t_configs tb) = Ok partitioned -> timeline_timezone (t_configs tb) = Ok tz ->
  partition_fields (t_configs tb) = Ok columns -> hive_flag tb = Ok hive -> url_flag tb = Ok url ->
  listing_parallelism (t_configs tb) = Ok n -> (0 < n)%Z -> by_value stores ->
  forall t time hist sch keep gone, timestamp t -> parse_datetime local_to_utc t tz = Ok time ->
  written_by objs names format partitioned parse_schema code rank parse_rows dfs k p s t hist ->
  files_in_order objs names format partitioned footer -> replacements_in_order objs names number_of collect local_to_utc tz (epoch_millis time) ->
  cleaned objs objs' names format partitioned keep gone ->
  (forall g c, has_base objs names format partitioned g c -> sle c t -> ~ gone g -> sle (keep g) t) ->
  (forall g, gone g -> replaced_in objs names number_of collect local_to_utc tz (epoch_millis time) g) ->
  schema_found objs' names number_of collect parse_pschema (t_commits tb) sch ->
  let is_live := live objs names format partitioned number_of collect local_to_utc tz t (epoch_millis time) in
  keys_apart k is_live hist ->
  forall c, view_after dtype' value' cast cmp local_to_utc st tb c ->
  let read := read_snapshot_as_of dtype' value' cast cmp avro value parse_schema decode check_schema (to_batch code rank float_cast) parquet local_to_utc st tb t [] c in
  (exists c' r, read c' r)
  /\ forall c' r, read c' r -> exists batches, r = Ok batches /\ (forall batch, In batch batches -> rb_fields batch = map (as_field code) dfs)
       /\ table_at k p s is_live hist t (flat_map rb_rows batches).
Proof.
  intros iter env parse stores global L f b tb u names objs objs' nu co D V ca cm ps pr fo code rank fc sc pq VA SU OK BU Lo PO st dfs p s k format pt tz n cols hive url MT WF BF PT TZ PF HF UF LP NP BV t time hist sch keep gone TS TM WB FO RI CL KT GT SF is_live KA c VW read.
  pose proof (still_proper _ _ _ _ _ _ _ PO CL) as PO'. pose proof (written_after _ _ _ _ _ _ _ _ Lo PO CL sc code rank pr dfs k p s t hist WB) as WB'.
  pose proof (files_after _ _ _ _ _ _ _ _ Lo PO CL fo FO) as FO'. pose proof (proj2 (replacements_same _ _ _ _ _ _ _ _ Lo CL nu co L tz (epoch_millis time)) RI) as RI'.
  pose proof (live_same _ _ _ _ _ _ _ _ Lo CL nu co L tz t (epoch_millis time) KT GT) as OF.
  assert (KA' : keys_apart k (live objs' names format pt nu co L tz t (epoch_millis time)) (fun g => trimmed (keep g) (hist g))).
  { intros g g' x x' r r' G G' I I'. apply OF in G, G'. exact (KA g g' x x' r r' G G' I I'). }
  destruct (C82_succeeds iter env parse stores global L f b tb u names objs' nu co D V ca cm ps pr fo code rank fc sc pq VA SU OK BU Lo PO' dfs p s k format pt tz n cols hive url MT WF BF PT TZ PF HF UF LP NP BV t time _ sch TS TM WB' FO' RI' SF [] [] eq_refl ltac:(intros ? []) c VW) as [A [c' [bs B]]].
  split; [exists c', (Ok bs); exact B|]. intros c1 r R. destruct (A _ _ R) as [bs1 ->]. exists bs1. split; [reflexivity|].
  destruct (C81_records iter env parse stores global L f b tb u names objs' nu co D V ca cm ps pr fo (storage_opens parse stores) code rank fc sc pq VA SU OK BU Lo PO' dfs p s k format pt tz MT WF BF PT TZ t time _ TS TM WB' KA' c c1 bs1 VW (or_introl R)) as [X Y].
  split; [exact X|]. eapply table_same; [|exact Y]. split; [exact OF|]. intros g G x r0 Lx. reflexivity.
Qed.
Print Assumptions C96_read.

(** With the writers step by step (C94): whatever they left, slices are removed from it and the table is read. *)
Theorem C96_written : forall iter env parse stores global local_to_utc sort_unstable b tb u names objs objs'
    number_of collect dtype' value' cast cmp parse_pschema parse_rows footer code rank float_cast parse_schema parquet,
  visits_all iter -> S_Timeline.sorts sort_unstable -> one_per_key (b_options b) ->
  build iter env parse stores global local_to_utc sort_unstable b = Ok (tb, u, objs') -> located u names ->
  let st := object_store objs' u dtype' (parse_metadata number_of collect) parse_pschema parse_rows footer (storage_opens parse stores) in
  forall dfs p s k format depth tz n columns hive url,
  merging_table tb (map (as_field code) dfs) p s k -> (forall fields, get_partition_schema dtype' st tb = Ok fields -> wf_fields fields) ->
  base_format (t_configs tb) = Ok format -> is_table_partitioned (t_configs tb) = Ok (has_partitions depth) -> timeline_timezone (t_configs tb) = Ok tz ->
  partition_fields (t_configs tb) = Ok columns -> hive_flag tb = Ok hive -> url_flag tb = Ok url ->
  listing_parallelism (t_configs tb) = Ok n -> (0 < n)%Z -> by_value stores -> word format -> format <> "crc" ->
  forall t time w sch keep gone, timestamp t -> parse_datetime local_to_utc t tz = Ok time ->
  left names format depth parse_schema code rank parse_rows footer dfs k p s w -> (forall g, clean_at (w_hist w g) t) -> Permutation objs (objects_of names format w) ->
  replacements_in_order objs names number_of collect local_to_utc tz (epoch_millis time) ->
  cleaned objs objs' names format (has_partitions depth) keep gone ->
  let replaced := replaced_in objs names number_of collect local_to_utc tz (epoch_millis time) in
  (forall g c, In c (map fst (g_bases (w_hist w g))) -> sle c t -> ~ gone g -> sle (keep g) t) -> (forall g, gone g -> replaced g) ->
  schema_found objs' names number_of collect parse_pschema (t_commits tb) sch ->
  let of := groups_at w t replaced in
  keys_apart k of (w_hist w) ->
  forall c, view_after dtype' value' cast cmp local_to_utc st tb c ->
  let read := read_snapshot_as_of dtype' value' cast cmp avro value parse_schema decode check_schema (to_batch code rank float_cast) parquet local_to_utc st tb t [] c in
  (exists c' r, read c' r)
  /\ forall c' r, read c' r -> exists batches, r = Ok batches /\ (forall batch, In batch batches -> rb_fields batch = map (as_field code) dfs)
       /\ table_at k p s of (w_hist w) t (flat_map rb_rows batches).
Proof.
  intros iter env parse stores global L f b tb u names objs objs' nu co D V ca cm ps pr fo code rank fc sc pq VA SU OK BU Lo st dfs p s k format depth tz n cols hive url MT WF BF PT TZ PF HF UF LP NP BV FW FC t time w sch keep gone TS TM LW CN PE RI CL rp KT GT SF of KA c VW read.
  destruct (C94_written names format depth sc code rank pr fo dfs k p s w objs (proj1 (proj2 Lo)) FW FC LW PE) as [PO [HB [FO WB]]]. specialize (WB t CN).
  pose proof (live_groups objs names format (has_partitions depth) nu co L tz t (epoch_millis time) w HB) as OF.
  assert (KA' : keys_apart k (live objs names format (has_partitions depth) nu co L tz t (epoch_millis time)) (w_hist w)).
  { intros g g' x x' r r' G G'. apply OF in G, G'. now apply KA. }
  assert (KT' : forall g c, has_base objs names format (has_partitions depth) g c -> sle c t -> ~ gone g -> sle (keep g) t) by (intros g c0 B; apply KT; now apply HB).
  destruct (C96_read iter env parse stores global L f b tb u names objs objs' nu co D V ca cm ps pr fo code rank fc sc pq VA SU OK BU Lo PO dfs p s k format (has_partitions depth) tz n cols hive url MT WF BF PT TZ PF HF UF LP NP BV t time (w_hist w) sch keep gone TS TM WB FO RI CL KT' GT SF KA' c VW) as [A B].
  split; [exact A|]. intros c' r R. destruct (B c' r R) as [bs [E [X Y]]]. exists bs. split; [exact E|]. split; [exact X|]. eapply table_same; [|exact Y]. split; [exact OF|]. intros g G x r0 Lx. reflexivity.
Qed.
Print Assumptions C96_written.

(** ** The hypotheses are met *)
(** The table of C81: a compaction left two slices of one file group, another file group is replaced.  The first slice and
    the replaced file group are removed. *)
Lemma cl_time : exists time, parse_datetime hx_local wx_t7 "utc" = Ok time /\ epoch_millis time = 1736208000000%Z.
Proof. eexists. split; [vm_compute; reflexivity|vm_compute; reflexivity]. Qed.
Ltac cl_read := eexists; eapply ra_ok;
  [eapply ga_ok; [reflexivity|]; eapply sa_view; [vm_compute; reflexivity|vm_compute; reflexivity|vm_compute; reflexivity|vm_compute; reflexivity|];
   eapply vq_ok with (order := fun _ l => l); [reflexivity|eapply hx_listing; vm_compute; reflexivity|vm_compute; reflexivity|vm_compute; reflexivity]
  |eapply rs_read with (iter := fun m => m); [intros m; reflexivity| |];
   [split; [reflexivity|]; repeat (apply Forall2_cons; [exists (@L_Reader.isort _), (fun m => m); split; [apply L_Reader.isort_sorts|split; [intros m; reflexivity|vm_compute; reflexivity]]|]); apply Forall2_nil
   |match goal with |- joined _ (Ok ?l) => exact (jo_ok l) end]].
Fact cl_schema : schema_found cl_objs wx_names jx_number jx_collect (fun _ => Ok [("ts", tt)]) (t_commits (cl_table cl_objs)) [("ts", tt)].
Proof.
  let l := eval vm_compute in (t_commits wx_table) in
  match l with [?a; ?b; ?c; ?d; ?e] => exists [a; b; c; d], e end.
  exists (wx_at ".hoodie/20250107000000000.replacecommit" wx_replace). eexists. exists [], wx_h, (wx_at wx_h "h1"). split; [vm_compute; reflexivity|].
  split; [apply (timeline_stays wx_objs cl_objs sx_base wx_names "parquet" false cl_keep cl_gone sx_located cl_cleaned); split; [unfold wx_objs; cbn [In app]; do 6 right; left; reflexivity|split; [repeat split; discriminate|reflexivity]]|].
  split; [apply slice_text; vm_compute; reflexivity|].
  split; [do 5 eexists; split; [reflexivity|]; split; [reflexivity|]; left; split; [now exists "h_0-0-0_20250101000000000"|reflexivity]|]. split; [constructor|]. split; [|reflexivity].
  split; [|split; [repeat split; discriminate|reflexivity]]. apply cl_in. split; [unfold wx_objs; apply in_or_app; right; now left|]. intros m J X. cbn [cl_names In] in J. repeat (destruct J as [ <- |J]; [discriminate X|]). destruct J.
Qed.
Fact cl_merging : merging_table (cl_table cl_objs) (map (as_field vx_code) vx_dfs) 3 1 2.
Proof. assert (E : cl_table cl_objs = wx_table) by (vm_compute; reflexivity). rewrite E. exact wx_merging. Qed.
Example C96_case : cleaned wx_objs cl_objs wx_names "parquet" false cl_keep cl_gone
  /\ (List.length wx_objs = 13 /\ List.length cl_objs = 10)%nat
  /\ (forall g c, has_base wx_objs wx_names "parquet" false g c -> sle c wx_t7 -> ~ cl_gone g -> sle (cl_keep g) wx_t7)
  /\ (forall g, cl_gone g -> replaced_in wx_objs wx_names jx_number jx_collect hx_local "utc" 1736208000000 g)
  /\ schema_found cl_objs wx_names jx_number jx_collect (fun _ => Ok [("ts", tt)]) (t_commits (cl_table cl_objs)) [("ts", tt)]
  /\ cl_reads cl_objs wx_t7 (Ok (map hx_batch [[wx_c1]; [hx_b6; hx_a2]])).
Proof.
  split; [exact cl_cleaned|]. split; [split; vm_compute; reflexivity|]. split; [|split; [|split]].
  - intros g c B _ _. apply cl_has in B. cbn [In] in B. destruct B as [B|[B|[B|[B|[]]]]]; injection B as <- <-; vm_compute; discriminate.
  - intros g ->. exists "20250107000000000", (wx_at ".hoodie/20250107000000000.replacecommit" wx_replace). eexists. eexists. split; [split; [unfold wx_objs; cbn [In app]; do 6 right; left; reflexivity|split; [repeat split; discriminate|reflexivity]]|].
    split; [reflexivity|]. split; [vm_compute; reflexivity|]. split; [vm_compute; discriminate|]. split; [apply slice_text; vm_compute; reflexivity|].
    eexists. eexists. split; [reflexivity|]. split; [left; reflexivity|left; reflexivity].
  - exact cl_schema.
  - cl_read.
Qed.
(** All hypotheses of C96_read together. *)
Example C96_read_instance : forall c' r,
  read_snapshot_as_of unit string (fun _ s => Some s) (fun a b => Some (scmp a b)) avro value vx_parse decode check_schema (to_batch vx_code vx_rank vx_cast) (fun _ => None)
    hx_local (cl_store cl_objs) (cl_table cl_objs) wx_t7 [] [] c' r ->
  exists batches, r = Ok batches /\ table_at 2 3 1 (live wx_objs wx_names "parquet" false jx_number jx_collect hx_local "utc" wx_t7 1736208000000) wx_hist wx_t7 (flat_map rb_rows batches).
Proof.
  intros c' r R. assert (T7 : timestamp wx_t7) by (apply wx_stamp; cbn [In]; tauto). destruct cl_time as [time [TM EP]]. destruct C96_case as [CL [_ [KT [GT [SF _]]]]].
  assert (WF : forall fields, get_partition_schema unit (cl_store cl_objs) (cl_table cl_objs) = Ok fields -> wf_fields fields).
  { intros fields E. vm_compute in E. injection E as <-. split; [constructor|intros ? []]. }
  assert (BF : base_format (t_configs (cl_table cl_objs)) = Ok "parquet") by (vm_compute; reflexivity). assert (PT : is_table_partitioned (t_configs (cl_table cl_objs)) = Ok false) by (vm_compute; reflexivity).
  assert (TZ : timeline_timezone (t_configs (cl_table cl_objs)) = Ok "utc") by (vm_compute; reflexivity).
  assert (PF : partition_fields (t_configs (cl_table cl_objs)) = Ok []) by (vm_compute; reflexivity). assert (HF : hive_flag (cl_table cl_objs) = Ok false) by (vm_compute; reflexivity). assert (UF : url_flag (cl_table cl_objs) = Ok false) by (vm_compute; reflexivity).
  assert (LP : exists n, listing_parallelism (t_configs (cl_table cl_objs)) = Ok n /\ (0 < n)%Z) by (eexists; split; [vm_compute; reflexivity|lia]). destruct LP as [n [LP NP]].
  assert (BV : by_value (fun _ _ => Ok cl_objs)) by (intros ? ? ? ?; reflexivity). assert (OK : one_per_key (b_options wx_builder)) by constructor.
  pose proof (wx_replacements (epoch_millis time)) as RI. rewrite <- EP in GT.
  pose proof cl_built as BU. unfold cl_build in BU.
  destruct (C96_read (fun m => m) [] bx_parse (fun _ _ => Ok cl_objs) (fun _ => Err EStorage) hx_local isort wx_builder (cl_table cl_objs) sx_base wx_names wx_objs cl_objs
    jx_number jx_collect unit string (fun _ s => Some s) (fun a b => Some (scmp a b)) (fun _ => Ok [("ts", tt)]) wx_rows (fun _ => Ok (1, 1)%Z) vx_code vx_rank vx_cast vx_parse (fun _ => None)
    (fun m => Permutation_refl m) isort_sorts OK BU sx_located wx_proper vx_dfs 3 1 2 "parquet" false "utc" n [] false false cl_merging WF BF PT TZ PF HF UF LP NP BV
    wx_t7 time wx_hist [("ts", tt)] cl_keep cl_gone T7 TM (wx_written wx_t7 ltac:(cbn [In]; tauto)) wx_in_order RI CL KT GT SF) with (c := @nil (string * list file_group)) as [_ A].
  - apply wx_apart. intros g [[c [B _]] _]. now apply wx_has in B.
  - constructor.
  - destruct (A c' r R) as [bs [E [_ B]]]. exists bs. rewrite EP in B. auto.
Qed.

(** ** What does not hold *)
(** Reading as of a time before the slices that are kept is no error: the records of the file groups whose slices were
    removed are left out. *)
Theorem C96_time_travel_refuted : cleaned wx_objs cl_objs wx_names "parquet" false cl_keep cl_gone
  /\ cl_reads wx_objs hx_t4 (Ok (map hx_batch [[wx_c1]; [hx_a2; hx_b1]; [wx_d1]])) /\ cl_reads cl_objs hx_t4 (Ok (map hx_batch [[wx_c1]])).
Proof. split; [exact cl_cleaned|]. split; cl_read. Qed.
Print Assumptions C96_time_travel_refuted.

Lemma cl_listing : forall files dirs format n order q e,
  list_file_groups_for_partition files format order EMPTY_PARTITION_PATH = Err e -> load_listing files dirs format false n order q (Err e).
Proof. intros files dirs format n order q e H. assert (X := ll_unpartitioned files dirs format false n order q eq_refl). rewrite H in X. exact X. Qed.
(** A cleaner that stopped after it removed a base file, and before it removed the log file of that base file, leaves a
    table that cannot be read at all, also not as of later times. *)
Theorem C96_stopped_refuted : (exists o, In o wx_objs /\ o_key o = "data/t/" ++ fm_name hx_base1 /\ forall x, In x (cl_without [fm_name hx_base1]) <-> In x wx_objs /\ x <> o)
  /\ cl_build (cl_without [fm_name hx_base1]) = Ok (cl_table (cl_without [fm_name hx_base1]), sx_base, cl_without [fm_name hx_base1])
  /\ cl_reads wx_objs wx_t7 (Ok (map hx_batch [[wx_c1]; [hx_b6; hx_a2]])) /\ exists e, cl_reads (cl_without [fm_name hx_base1]) wx_t7 (Err e).
Proof.
  split; [|split; [vm_compute; reflexivity|split; [cl_read|]]].
  - exists (wx_at (fm_name hx_base1) "b1"). split; [unfold wx_objs; apply in_or_app; right; right; now left|]. split; [reflexivity|]. intros x. rewrite cl_in. split; intros [I H]; (split; [exact I|]).
    + intros ->. apply (H (fm_name hx_base1)); [now left|reflexivity].
    + intros n [ <- |[]] E. apply H. apply (one_object wx_objs wx_proper); [exact I|unfold wx_objs; apply in_or_app; right; right; now left|exact E].
  - eexists. eexists. apply ra_err. eapply ga_ok; [reflexivity|]. eapply sa_view; [vm_compute; reflexivity|vm_compute; reflexivity|vm_compute; reflexivity|vm_compute; reflexivity|]. eapply vq_err with (order := fun _ l => l); [reflexivity|]. eapply cl_listing. vm_compute. reflexivity.
Qed.
Print Assumptions C96_stopped_refuted.
