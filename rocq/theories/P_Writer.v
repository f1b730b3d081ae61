(** C94: what writers that follow the layout leave can be read back. *)
From Coq Require Import Sorted.
From Verif Require Import Base Str M_Utf8 M_Time M_Instant M_Timeline M_FileGroup M_Builder M_Listing M_Expr M_Log M_Config M_Reader M_Table M_Storage M_Avro M_Values M_Datum M_Json M_Objects M_Open
  S_Time S_Timeline S_FileGroup S_Builder S_Listing S_Expr S_Log S_Reader S_Config S_Table S_Avro S_Storage S_Objects S_Open S_History S_Values S_Datum S_Json S_Whole S_Readers S_Follow S_Writer
  L_Base L_Str L_Timeline L_Open L_Json L_Whole L_Readers L_Succeed L_Follow L_Writer E_Scan E_Open E_History E_Values E_Datum E_Json E_Whole E_Writer P_Whole P_Succeed.
Local Open Scope string_scope.

(** Writers put base files, log files, blocks and other objects into a storage, one step after another.  Whatever they
    leave: the objects have proper keys, the base files of each file group are those that were written, the files are in
    order, and at every [t] by which the failed writes up to [t] are rolled back, the objects are what the histories of
    the file groups left. *)
Theorem C94_written : forall table format depth parse_schema code rank parse_rows footer dfs k p s w objs,
  Forall legal table -> word format -> format <> "crc" ->
  left table format depth parse_schema code rank parse_rows footer dfs k p s w -> Permutation objs (objects_of table format w) ->
  proper_objects objs
  /\ (forall g c, S_Whole.has_base objs table format (has_partitions depth) g c <-> In c (map fst (g_bases (w_hist w g))))
  /\ files_in_order objs table format (has_partitions depth) footer
  /\ forall t, (forall g, clean_at (w_hist w g) t) -> written_by objs table format (has_partitions depth) parse_schema code rank parse_rows dfs k p s t (w_hist w).
Proof.
  intros table format depth ps code rank pr fo dfs k p s w objs TL FW FC L PE. apply left_kept in L.
  split; [eapply left_proper; eassumption|]. split; [intros g c; eapply left_bases; eassumption|]. split; [eapply left_files; eassumption|].
  intros t C. eapply left_written; try eassumption. intros g now h X. exact X.
Qed.
Print Assumptions C94_written.

Lemma live_groups : forall objs names format pt nu co L tz t time w, (forall g c, S_Whole.has_base objs names format pt g c <-> In c (map fst (g_bases (w_hist w g)))) ->
  forall g, live objs names format pt nu co L tz t time g <-> groups_at w t (replaced_in objs names nu co L tz time) g.
Proof.
  intros objs names format pt nu co L tz t time w H g. unfold live, groups_at. split; (intros [[c [A B]] R]; split; [exists c; split; [now apply H|exact B]|exact R]).
Qed.

(** A table is opened on what writers left, and read as of [t].  Later writes may have happened: [w] is what was there
    when the writes after [t] began.  The read succeeds, and returns the records of the table at [t]: of every key the
    newest version committed by then, of the file groups that had a base file by then and are not replaced by then. *)
Theorem C94_read : forall iter env parse stores global local_to_utc sort_unstable b tb u names objs
    number_of collect dtype' value' cast cmp parse_pschema parse_rows footer code rank float_cast parse_schema parquet,
  visits_all iter -> S_Timeline.sorts sort_unstable -> one_per_key (b_options b) ->
  build iter env parse stores global local_to_utc sort_unstable b = Ok (tb, u, objs) -> located u names ->
  let st := object_store objs u dtype' (parse_metadata number_of collect) parse_pschema parse_rows footer (storage_opens parse stores) in
  forall dfs p s k format depth tz n columns hive url,
  merging_table tb (map (as_field code) dfs) p s k -> (forall fields, get_partition_schema dtype' st tb = Ok fields -> wf_fields fields) ->
  base_format (t_configs tb) = Ok format -> is_table_partitioned (t_configs tb) = Ok (has_partitions depth) -> timeline_timezone (t_configs tb) = Ok tz ->
  partition_fields (t_configs tb) = Ok columns -> hive_flag tb = Ok hive -> url_flag tb = Ok url ->
  listing_parallelism (t_configs tb) = Ok n -> (0 < n)%Z -> by_value stores -> word format -> format <> "crc" ->
  forall t time w w' sch, timestamp t -> parse_datetime local_to_utc t tz = Ok time ->
  left names format depth parse_schema code rank parse_rows footer dfs k p s w -> (forall g, clean_at (w_hist w g) t) ->
  after names format depth parse_schema code rank parse_rows footer dfs k p s t w w' -> Permutation objs (objects_of names format w') ->
  replacements_in_order objs names number_of collect local_to_utc tz (epoch_millis time) -> schema_found objs names number_of collect parse_pschema (t_commits tb) sch ->
  let of := groups_at w t (replaced_in objs names number_of collect local_to_utc tz (epoch_millis time)) in
  keys_apart k of (w_hist w') ->
  forall c, view_after dtype' value' cast cmp local_to_utc st tb c ->
  let read := read_snapshot_as_of dtype' value' cast cmp avro value parse_schema decode check_schema (to_batch code rank float_cast) parquet local_to_utc st tb t [] c in
  (exists c' r, read c' r)
  /\ forall c' r, read c' r -> exists batches, r = Ok batches /\ (forall batch, In batch batches -> rb_fields batch = map (as_field code) dfs)
       /\ table_at k p s of (w_hist w) t (flat_map rb_rows batches).
Proof.
  intros iter env parse stores global L f b tb u names objs nu co D V ca cm ps pr fo code rank fc sc pq VA SU OK BU Lo st dfs p s k format depth tz n cols hive url MT WF BF PT TZ PF HF UF LP NP BV FW FC t time w w' sch TS TM LW CL AF PE RI SF of KA c VW read.
  pose proof (after_left _ _ _ _ _ _ _ _ _ _ _ _ _ _ _ LW AF) as LW'. pose proof (after_groups _ _ _ _ _ _ _ _ _ _ _ _ _ _ _ AF) as AG.
  destruct (C94_written names format depth sc code rank pr fo dfs k p s w' objs (proj1 (proj2 Lo)) FW FC LW' PE) as [PO [HB [FO WB]]].
  assert (CL' : forall g, clean_at (w_hist w' g) t) by (intros g; apply (AG g), CL). specialize (WB t CL').
  assert (OF : forall g, live objs names format (has_partitions depth) nu co L tz t (epoch_millis time) g <-> of g).
  { intros g. rewrite (live_groups objs names format (has_partitions depth) nu co L tz t (epoch_millis time) w' HB). unfold of, groups_at.
    split; (intros [[x [A B]] R]; split; [exists x; split; [now apply (proj1 (AG g) x B)|exact B]|exact R]). }
  assert (KA' : keys_apart k (live objs names format (has_partitions depth) nu co L tz t (epoch_millis time)) (w_hist w')).
  { intros g g' x x' r r' G G'. apply OF in G, G'. now apply KA. }
  destruct (C82_succeeds iter env parse stores global L f b tb u names objs nu co D V ca cm ps pr fo code rank fc sc pq VA SU OK BU Lo PO dfs p s k format (has_partitions depth) tz n cols hive url MT WF BF PT TZ PF HF UF LP NP BV t time (w_hist w') sch TS TM WB FO RI SF [] [] eq_refl ltac:(intros ? []) c VW) as [A [c' [bs B]]].
  split; [exists c', (Ok bs); exact B|]. intros c1 r R. destruct (A _ _ R) as [bs1 ->]. exists bs1. split; [reflexivity|].
  destruct (C81_records iter env parse stores global L f b tb u names objs nu co D V ca cm ps pr fo (storage_opens parse stores) code rank fc sc pq VA SU OK BU Lo PO dfs p s k format (has_partitions depth) tz MT WF BF PT TZ t time (w_hist w') TS TM WB KA' c c1 bs1 VW (or_introl R)) as [X Y].
  split; [exact X|]. eapply table_same; [|exact Y]. split; [exact OF|]. intros g G x r0 Lx. symmetry. apply (AG g); [|exact Lx]. apply OF in G. destruct G as [G _]. exact G.
Qed.
Print Assumptions C94_read.

(** ** The hypotheses are met *)
(** A commit, a deltacommit, a failed deltacommit and its rollback; then a compaction, a deltacommit and a
    replacecommit.  The table is read as of the rollback when all of that has happened. *)
Example C94_case : sw_left sw_9 /\ (forall g, clean_at (w_hist sw_9 g) hx_t4) /\ sw_after hx_t4 sw_9 sw_12 /\ Permutation wx_objs (sw_objects sw_12)
  /\ w_hist sw_9 ("", "f") = hx_group4 /\ w_hist sw_12 ("", "f") = hx_group.
Proof. split; [exact sw_step9|]. split; [exact sw_clean|]. split; [exact sw_after9|]. split; [exact sw_objects_are|]. split; reflexivity. Qed.
Example C94_read_case : wx_reads hx_t4 [[wx_c1]; [hx_a2; hx_b1]; [wx_d1]].
Proof. wx_read. Qed.
(** All hypotheses of C94_read together. *)
Example C94_read_instance : forall c' r,
  read_snapshot_as_of unit string (fun _ s => Some s) (fun a b => Some (scmp a b)) avro value vx_parse decode check_schema (to_batch vx_code vx_rank vx_cast) (fun _ => None)
    hx_local (object_store wx_objs sx_base unit (parse_metadata jx_number jx_collect) (fun _ => Ok [("ts", tt)]) wx_rows sw_footer (storage_opens bx_parse (fun _ _ => Ok wx_objs))) wx_table hx_t4 [] [] c' r ->
  exists batches, r = Ok batches
    /\ table_at 2 3 1 (groups_at sw_9 hx_t4 (replaced_in wx_objs wx_names jx_number jx_collect hx_local "utc" 1735948800000)) (w_hist sw_9) hx_t4 (flat_map rb_rows batches).
Proof.
  intros c' r R. assert (T4 : timestamp hx_t4) by (apply hx_stamp; cbn; tauto).
  destruct C82_case as [BU [_ [PF [HF [UF [[n [LP NP]] [_ [RI SF]]]]]]]].
  assert (TM : exists time, parse_datetime hx_local hx_t4 "utc" = Ok time /\ epoch_millis time = 1735948800000%Z) by (eexists; split; [vm_compute; reflexivity|vm_compute; reflexivity]). destruct TM as [time [TM EP]].
  assert (WF : forall fields, get_partition_schema unit (object_store wx_objs sx_base unit (parse_metadata jx_number jx_collect) (fun _ => Ok [("ts", tt)]) wx_rows sw_footer (storage_opens bx_parse (fun _ _ => Ok wx_objs))) wx_table = Ok fields -> wf_fields fields).
  { intros fields E. vm_compute in E. injection E as <-. split; [constructor|intros ? []]. }
  assert (BF : base_format (t_configs wx_table) = Ok "parquet") by (vm_compute; reflexivity). assert (PT : is_table_partitioned (t_configs wx_table) = Ok (has_partitions 0)) by (vm_compute; reflexivity).
  assert (TZ : timeline_timezone (t_configs wx_table) = Ok "utc") by (vm_compute; reflexivity). specialize (RI (epoch_millis time)).
  assert (MT := wx_merging). assert (OK : one_per_key (b_options wx_builder)) by constructor. assert (BV : by_value (fun _ _ => Ok wx_objs)) by (intros ? ? ? ?; reflexivity).
  assert (FW : word "parquet") by (apply sw_word; now left). assert (FC : "parquet" <> "crc") by discriminate.
  unfold wx_build in BU.
  destruct (C94_read (fun m => m) [] bx_parse (fun _ _ => Ok wx_objs) (fun _ => Err EStorage) hx_local isort wx_builder wx_table sx_base wx_names wx_objs
    jx_number jx_collect unit string (fun _ s => Some s) (fun a b => Some (scmp a b)) (fun _ => Ok [("ts", tt)]) wx_rows sw_footer vx_code vx_rank vx_cast vx_parse (fun _ => None)
    (fun m => Permutation_refl m) isort_sorts OK BU sx_located vx_dfs 3 1 2 "parquet" 0%nat "utc" n [] false false MT WF
    BF PT TZ PF HF UF LP NP BV FW FC hx_t4 time sw_9 sw_12 [("ts", tt)] T4 TM sw_step9 sw_clean sw_after9 sw_objects_are RI SF) with (c := @nil (string * list file_group)) as [_ A].
  - apply sw_apart. intros g [[x [Ix _]] _] E.
    cbn [sw_9 sw_8 sw_7 sw_6 sw_5 sw_4 sw_3 sw_2 sw_1 sw_12 sw_11 sw_10 sw_other sw_base sw_log sw_append sw_drop w_logs w_hist] in *. unfold set_group in *. repeat (destruct (_ && _)%bool; [discriminate E|]). destruct Ix.
  - constructor.
  - destruct (A c' r R) as [bs [E [_ B]]]. exists bs. rewrite EP in B. auto.
Qed.
