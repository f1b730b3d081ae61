(** C74: a query as of a time shows one state of the table even if writers add files while it runs. *)
From Coq Require Import Sorted.
From Verif Require Import Base Str M_Utf8 M_Time M_Instant M_Timeline M_FileGroup M_Builder M_Listing M_Expr M_Log M_Config M_Reader M_Table M_Storage M_Session M_Objects M_Open M_During
  S_Time S_Timeline S_FileGroup S_Builder S_Listing S_Expr S_Reader S_Config S_Table S_Storage S_Session S_Objects S_Open S_During L_Timeline L_Objects L_During E_Scan E_Open E_During.
Local Open Scope string_scope.

(** Every listing and every read of the query may happen at another moment.  The objects of these moments
    are those of the start and what writers of later commits have added until then.  Then the answer is
    that of the objects at the start: in matching partitions exactly the newest base files of [t] or
    before, with all their log files of the start, and without the file groups replaced until then. *)
Theorem C74_one_state_partial : forall dtype value cast cmp local_to_utc start later base names parse_json parse_schema parse_rows footer open tb t format (st : store dtype) fields,
  let now := object_store start base dtype parse_json parse_schema parse_rows footer open in
  (forall objs, In objs (start :: later) -> proper_objects objs) -> located base names ->
  (forall objs, In objs later -> later_objects names format t start objs) ->
  StronglySorted instant_le (t_commits tb) -> (forall i, In i (t_commits tb) -> exists o, file_in start names [".hoodie"] (file_name i) o) ->
  base_format (t_configs tb) = Ok format -> get_partition_schema dtype now tb = Ok fields -> wf_fields fields ->
  sees (start :: later) base dtype parse_json parse_schema parse_rows footer open st ->
  forall c c' filters ss,
  opened dtype value cast cmp local_to_utc tb
    (fun st st' => is_table_partitioned (t_configs tb) = Ok true -> partitions_kept (st_dirs _ st) (st_dirs _ st')) st c ->
  get_file_slices_as_of dtype value cast cmp local_to_utc st tb t filters c c' (Ok ss) ->
  exists fs tz time hive url partitioned,
    from_str_tuples filters = Ok fs /\ timeline_timezone (t_configs tb) = Ok tz /\ parse_datetime local_to_utc t tz = Ok time
    /\ hive_flag tb = Ok hive /\ url_flag tb = Ok url /\ is_table_partitioned (t_configs tb) = Ok partitioned
    /\ base_snapshot dtype value cast cmp fields hive url start (start :: later) names format partitioned fs t
         (replaced_by_time (st_json _ now) (t_commits tb) (epoch_millis time)) ss.
Proof.
  intros dtype value cast cmp L start later base names pj ps pr ft op tb t format st fields now PO Lo LO So TL BF GS WF SEE.
  exact (during dtype value cast cmp L start later base names pj ps pr ft op tb t format PO Lo LO So TL BF st SEE fields GS WF).
Qed.
Print Assumptions C74_one_state_partial.
Example C74_one_state_case : exists c' ss fs tz time hive url partitioned,
  get_file_slices_as_of unit string sx_cast sx_cmp sx_local dx_store bx_table sx_t [] [] c' (Ok ss)
  /\ map base_relative_path ss = ["city=ams/f1_0-1-2_20240101000000000.parquet"; "city=rio/f2_0-1-3_20240101000000000.parquet"]
  /\ from_str_tuples [] = Ok fs /\ timeline_timezone (t_configs bx_table) = Ok tz /\ parse_datetime sx_local sx_t tz = Ok time
  /\ base_snapshot unit string sx_cast sx_cmp [("city", tt)] hive url bx_objs dx_moments ["data"; "t"] "parquet" partitioned fs sx_t
       (replaced_by_time (st_json _ (bx_store bx_objs)) (t_commits bx_table) (epoch_millis time)) ss.
Proof.
  destruct dx_answer as [c' [r [A E]]]. destruct r as [ss| |]; [|discriminate E|discriminate E]. exists c', ss. cbn [dx_shows] in E.
  assert (So : StronglySorted instant_le (t_commits bx_table)) by (vm_compute; repeat constructor).
  destruct (C74_one_state_partial unit string sx_cast sx_cmp sx_local bx_objs [dx_mid; dx_end] sx_base ["data"; "t"] bx_json bx_schema bx_rows bx_footer (fun _ _ => Ok tt) bx_table sx_t "parquet" dx_store [("city", tt)]
    dx_proper sx_located dx_later So dx_timeline ltac:(vm_compute; reflexivity) ltac:(vm_compute; reflexivity) sx_fields dx_sees [] c' [] ss (op_new _ _ _ _ _ _ _ _) A)
    as [fs [tz [time [h [u [pt [P1 [P2 [P3 [P4 [P5 [P6 P7]]]]]]]]]]]].
  exists fs, tz, time, h, u, pt. split; [exact A|]. split; [|split; [exact P1|split; [exact P2|split; [exact P3|exact P7]]]].
  injection E as E. apply (f_equal (map fst)) in E. rewrite map_map in E. exact E.
Qed.

(** So it shows the same base files as a query at the start that nobody disturbs, and at least the same
    log files. *)
Theorem C74_undisturbed_partial : forall dtype value cast cmp local_to_utc start later base names parse_json parse_schema parse_rows footer open tb t format (st : store dtype) fields,
  let now := object_store start base dtype parse_json parse_schema parse_rows footer open in
  (forall objs, In objs (start :: later) -> proper_objects objs) -> located base names ->
  (forall objs, In objs later -> later_objects names format t start objs) -> (forall objs, In objs (start :: later) -> one_base_file names format objs) ->
  StronglySorted instant_le (t_commits tb) -> (forall i, In i (t_commits tb) -> exists o, file_in start names [".hoodie"] (file_name i) o) ->
  base_format (t_configs tb) = Ok format -> get_partition_schema dtype now tb = Ok fields ->
  sees (start :: later) base dtype parse_json parse_schema parse_rows footer open st ->
  forall c c' c0 filters ss ss0,
  opened dtype value cast cmp local_to_utc tb
    (fun st st' => is_table_partitioned (t_configs tb) = Ok true -> partitions_kept (st_dirs _ st) (st_dirs _ st')) st c ->
  get_file_slices_as_of dtype value cast cmp local_to_utc now tb t filters [] c0 (Ok ss0) ->
  get_file_slices_as_of dtype value cast cmp local_to_utc st tb t filters c c' (Ok ss) ->
  (forall p n, shows_base ss0 p n <-> shows_base ss p n)
  /\ forall s, In s ss0 -> exists s', In s' ss /\ fs_partition s' = fs_partition s /\ base_file_name (fs_base s') = base_file_name (fs_base s)
       /\ forall v w, (exists l, In l (fs_logs s) /\ lf_version l = v /\ lf_write_token l = w) -> exists l, In l (fs_logs s') /\ lf_version l = v /\ lf_write_token l = w.
Proof.
  intros dtype value cast cmp L start later base names pj ps pr ft op tb t format st fields now PO Lo LO UB So TL BF GS SEE c c' c0 filters ss ss0 O Q0 Q.
  exact (during_same dtype value cast cmp L start later base names pj ps pr ft op tb t format PO Lo LO So TL BF UB fields GS st c c' filters ss ss0 c0 SEE Q0 O Q).
Qed.
Print Assumptions C74_undisturbed_partial.
Example C74_undisturbed_case : exists c' c0 ss ss0,
  get_file_slices_as_of unit string sx_cast sx_cmp sx_local (bx_store bx_objs) bx_table sx_t [] [] c0 (Ok ss0)
  /\ get_file_slices_as_of unit string sx_cast sx_cmp sx_local dx_store bx_table sx_t [] [] c' (Ok ss)
  /\ List.length ss0 = 2%nat /\ (exists s, In s ss /\ fs_logs s <> []) /\ forall p n, shows_base ss0 p n <-> shows_base ss p n.
Proof.
  destruct dx_answer as [c' [[ss| |] [A E]]]; [|discriminate E|discriminate E]. destruct dx_quiet_answer as [c0 [[ss0| |] [A0 E0]]]; [|discriminate E0|discriminate E0]. exists c', c0, ss, ss0.
  assert (So : StronglySorted instant_le (t_commits bx_table)) by (vm_compute; repeat constructor).
  destruct (C74_undisturbed_partial unit string sx_cast sx_cmp sx_local bx_objs [dx_mid; dx_end] sx_base ["data"; "t"] bx_json bx_schema bx_rows bx_footer (fun _ _ => Ok tt) bx_table sx_t "parquet" dx_store [("city", tt)]
    dx_proper sx_located dx_later dx_one_base So dx_timeline ltac:(vm_compute; reflexivity) ltac:(vm_compute; reflexivity) dx_sees [] c' c0 [] ss ss0 (op_new _ _ _ _ _ _ _ _) A0 A) as [P _].
  split; [exact A0|]. split; [exact A|]. split; [injection E0 as E0; apply (f_equal (@List.length _)) in E0; now rewrite map_length in E0|]. split; [|exact P].
  injection E as E. destruct ss as [|s1 [|s2 [|]]]; try discriminate E. exists s2. split; [right; now left|]. injection E as _ _ _ E. intros X. rewrite X in E. discriminate E.
Qed.

(** False when a writer with an earlier commit time is still adding files: the answer shows one of its
    two files, which neither the objects before nor those after give. *)
Theorem C74_torn_refuted : exists before after (st : store unit) c' ss,
  proper_objects before /\ proper_objects after /\ incl before after
  /\ sees [before; after] sx_base unit bx_json bx_schema bx_rows bx_footer (fun _ _ => Ok tt) st
  /\ get_file_slices_as_of unit string sx_cast sx_cmp sx_local st bx_table dx_t [] [] c' (Ok ss)
  /\ map base_relative_path ss = ["city=ams/f1_0-1-2_20240101000000000.parquet"; "city=rio/f2_0-2-2_20240102000000000.parquet"]
  /\ (exists c1 s1, get_file_slices_as_of unit string sx_cast sx_cmp sx_local (bx_store before) bx_table dx_t [] [] c1 (Ok s1)
        /\ map base_relative_path s1 = ["city=ams/f1_0-1-2_20240101000000000.parquet"; "city=rio/f2_0-1-3_20240101000000000.parquet"])
  /\ (exists c2 s2, get_file_slices_as_of unit string sx_cast sx_cmp sx_local (bx_store after) bx_table dx_t [] [] c2 (Ok s2)
        /\ map base_relative_path s2 = ["city=ams/f1_0-2-1_20240102000000000.parquet"; "city=rio/f2_0-2-2_20240102000000000.parquet"]).
Proof.
  destruct dx_torn_answer as [c' [r [A E]]]. destruct r as [ss| |]; [|discriminate E|discriminate E]. exists bx_objs, dx_late, dx_torn, c', ss.
  split; [exact bx_proper|]. split; [apply proper_by; vm_compute; reflexivity|]. split; [intros x I; apply in_or_app; now left|]. split; [exact dx_torn_sees|]. split; [exact A|].
  assert (M : forall l r, dx_shows (Ok l) = Ok r -> map base_relative_path l = map fst r) by (intros l r H; injection H as <-; rewrite map_map; reflexivity).
  split; [exact (M _ _ E)|]. split.
  - destruct dx_before_answer as [c1 [[s1| |] [A1 E1]]]; try discriminate E1. exists c1, s1. split; [exact A1|exact (M _ _ E1)].
  - destruct dx_after_answer as [c2 [[s2| |] [A2 E2]]]; try discriminate E2. exists c2, s2. split; [exact A2|exact (M _ _ E2)].
Qed.
Print Assumptions C74_torn_refuted.
(** When a file is removed after it was listed, the query fails. *)
Theorem C74_removed_refuted : exists before after (st : store unit) c',
  proper_objects before /\ proper_objects after /\ sees [before; after] sx_base unit bx_json bx_schema bx_rows bx_footer (fun _ _ => Ok tt) st
  /\ get_file_slices_as_of unit string sx_cast sx_cmp sx_local st bx_table sx_t [] [] c' (Err EStorage).
Proof.
  destruct dx_gone_answer as [c' [r [A ->]]]. exists bx_objs, dx_cleaned, dx_gone, c'. split; [exact bx_proper|]. split; [apply proper_by; vm_compute; reflexivity|]. split; [exact dx_gone_sees|exact A].
Qed.
Print Assumptions C74_removed_refuted.
