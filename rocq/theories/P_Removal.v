(** C104: a query as of a time shows one state of the table even if a cleaner removes files, and writers add files, while
    it runs. *)
From Coq Require Import Sorted Permutation.
From Verif Require Import Base Str M_Utf8 M_Time M_Instant M_Timeline M_FileGroup M_Builder M_Listing M_Expr M_Log M_Config M_Reader M_Table M_Storage M_Session M_Objects M_Open M_During
  S_Time S_Timeline S_FileGroup S_Builder S_Listing S_Expr S_Reader S_Config S_Table S_Storage S_Session S_Objects S_Open S_During S_Removal S_Bases L_Base L_Str L_Timeline L_Objects L_During L_Bases L_Removal E_Scan E_Open E_During P_During.
Local Open Scope string_scope.

(** Every listing and every read of the query may happen at another moment.  At all moments the objects [stays] are
    there; what comes and goes are log files, base files of later commits, superseded base files and base files of file
    groups that are replaced as of [t].  Then the answer is that of the objects that stay. *)
Theorem C104_one_state : forall dtype value cast cmp local_to_utc stays moments base names parse_json parse_schema parse_rows footer open tb t format dropped (st : store dtype) fields,
  let now := object_store stays base dtype parse_json parse_schema parse_rows footer open in
  proper_objects stays -> (forall objs, In objs moments -> proper_objects objs) -> located base names ->
  (forall objs, In objs moments -> moves_around stays names format t dropped objs) ->
  (forall time tz, timeline_timezone (t_configs tb) = Ok tz -> parse_datetime local_to_utc t tz = Ok time -> forall g, dropped g -> replaced_by_time (st_json _ now) (t_commits tb) (epoch_millis time) g) ->
  StronglySorted instant_le (t_commits tb) -> (forall i, In i (t_commits tb) -> exists o, file_in stays names [".hoodie"] (file_name i) o) ->
  base_format (t_configs tb) = Ok format -> get_partition_schema dtype now tb = Ok fields -> wf_fields fields ->
  sees moments base dtype parse_json parse_schema parse_rows footer open st ->
  forall c c' filters ss,
  opened dtype value cast cmp local_to_utc tb
    (fun st st' => is_table_partitioned (t_configs tb) = Ok true -> partitions_kept (st_dirs _ st) (st_dirs _ st')) st c ->
  get_file_slices_as_of dtype value cast cmp local_to_utc st tb t filters c c' (Ok ss) ->
  exists fs tz time hive url partitioned,
    from_str_tuples filters = Ok fs /\ timeline_timezone (t_configs tb) = Ok tz /\ parse_datetime local_to_utc t tz = Ok time
    /\ hive_flag tb = Ok hive /\ url_flag tb = Ok url /\ is_table_partitioned (t_configs tb) = Ok partitioned
    /\ base_snapshot dtype value cast cmp fields hive url stays (stays :: moments) names format partitioned fs t
         (replaced_by_time (st_json _ now) (t_commits tb) (epoch_millis time)) ss
    /\ (base_names_plain stays names format partitioned ->
        forall s, In s ss -> exists dir o, object_partition stays names partitioned (fs_partition s) dir /\ file_in stays names dir (base_file_name (fs_base s)) o
          /\ st_parquet _ st (base_relative_path s) = parse_rows (o_data o)).
Proof.
  intros dtype value cast cmp LU stays moments base names pj ps pr ft op tb t format dropped st fields now PS PM L MA DR So TL BF GS WF SEE c c' filters ss O Q.
  assert (PO : forall objs, In objs (stays :: moments) -> proper_objects objs) by (intros objs [<-|I]; auto).
  assert (SEE' : sees (stays :: moments) base dtype pj ps pr ft op st).
  { intros p. destruct (SEE p) as [H1 [H2 [H3 [H4 [H5 [H6 H7]]]]]].
    repeat split; match goal with H : ?G |- ?G' => destruct H as [objs [I E]]; exists objs; split; [now right|exact E] end. }
  destruct (removal dtype value cast cmp LU stays dropped moments base names pj ps pr ft op tb t format PO L MA So TL BF st SEE' fields GS WF DR c c' filters ss O Q)
    as [fs [tz [time [h [u [pt [P1 [P2 [P3 [P4 [P5 [P6 P7]]]]]]]]]]]].
  exists fs, tz, time, h, u, pt. do 7 (split; [assumption|]). intros BP.
  assert (IN : forall objs, In objs (stays :: moments) -> incl stays objs) by (intros objs [<-|I]; [intros x; auto|exact (proj1 (MA objs I))]).
  exact (stays_read dtype value cast cmp stays moments base names pj ps pr ft op st format t fields h u pt fs _ ss _ PO L IN SEE' BP P7).
Qed.
Print Assumptions C104_one_state.

(** So two queries without filters show the same base files, whenever their requests are answered. *)
Theorem C104_same : forall dtype value cast cmp local_to_utc stays moments base names parse_json parse_schema parse_rows footer open tb t format dropped fields,
  let now := object_store stays base dtype parse_json parse_schema parse_rows footer open in
  proper_objects stays -> one_base_file names format stays -> (forall objs, In objs moments -> proper_objects objs) -> located base names ->
  (forall objs, In objs moments -> moves_around stays names format t dropped objs) ->
  (forall time tz, timeline_timezone (t_configs tb) = Ok tz -> parse_datetime local_to_utc t tz = Ok time -> forall g, dropped g -> replaced_by_time (st_json _ now) (t_commits tb) (epoch_millis time) g) ->
  StronglySorted instant_le (t_commits tb) -> (forall i, In i (t_commits tb) -> exists o, file_in stays names [".hoodie"] (file_name i) o) ->
  base_format (t_configs tb) = Ok format -> get_partition_schema dtype now tb = Ok fields -> wf_fields fields ->
  let keeps (st st' : store dtype) := is_table_partitioned (t_configs tb) = Ok true -> partitions_kept (st_dirs _ st) (st_dirs _ st') in
  forall st1 st2, sees moments base dtype parse_json parse_schema parse_rows footer open st1 -> sees moments base dtype parse_json parse_schema parse_rows footer open st2 ->
  forall c1 c1' ss1 c2 c2' ss2,
  opened dtype value cast cmp local_to_utc tb keeps st1 c1 -> get_file_slices_as_of dtype value cast cmp local_to_utc st1 tb t [] c1 c1' (Ok ss1) ->
  opened dtype value cast cmp local_to_utc tb keeps st2 c2 -> get_file_slices_as_of dtype value cast cmp local_to_utc st2 tb t [] c2 c2' (Ok ss2) ->
  forall p n, shows_base ss1 p n <-> shows_base ss2 p n.
Proof.
  intros dtype value cast cmp LU stays moments base names pj ps pr ft op tb t format dropped fields now PS UB PM L MA DR So TL BF GS WF keeps st1 st2 E1 E2 c1 c1' ss1 c2 c2' ss2 O1 Q1 O2 Q2.
  destruct (C104_one_state dtype value cast cmp LU stays moments base names pj ps pr ft op tb t format dropped st1 fields PS PM L MA DR So TL BF GS WF E1 c1 c1' [] ss1 O1 Q1)
    as [fs [tz [time [h [u [pt [P1 [P2 [P3 [P4 [P5 [P6 [P7 _]]]]]]]]]]]]].
  destruct (C104_one_state dtype value cast cmp LU stays moments base names pj ps pr ft op tb t format dropped st2 fields PS PM L MA DR So TL BF GS WF E2 c2 c2' [] ss2 O2 Q2)
    as [fs2 [tz2 [time2 [h2 [u2 [pt2 [R1 [R2 [R3 [R4 [R5 [R6 [R7 _]]]]]]]]]]]]].
  cbn in P1, R1. injection P1 as <-. injection R1 as <-. rewrite P2 in R2. injection R2 as <-. rewrite P3 in R3. injection R3 as <-. rewrite P4 in R4. injection R4 as <-. rewrite P5 in R5. injection R5 as <-. rewrite P6 in R6. injection R6 as <-.
  intros p n. split; [exact (same_shown _ _ _ _ _ _ _ _ _ _ _ _ _ _ _ _ _ PS UB P7 R7 p n)|exact (same_shown _ _ _ _ _ _ _ _ _ _ _ _ _ _ _ _ _ PS UB R7 P7 p n)].
Qed.
Print Assumptions C104_same.

(** Queries that read base files only return the rows of the base files that stay: two of them the same batches, in some
    order, whenever their requests are answered. *)
Theorem C104_batches : forall dtype value cast cmp local_to_utc avro_schema avro_value avro_parse datum check_schema to_batch parquet
    stays moments base names parse_json parse_schema parse_rows footer open tb t format partitioned dropped fields,
  let now := object_store stays base dtype parse_json parse_schema parse_rows footer open in
  proper_objects stays -> one_base_file names format stays -> base_names_plain stays names format partitioned -> is_table_partitioned (t_configs tb) = Ok partitioned ->
  (forall objs, In objs moments -> proper_objects objs) -> located base names ->
  (forall objs, In objs moments -> moves_around stays names format t dropped objs) ->
  (forall time tz, timeline_timezone (t_configs tb) = Ok tz -> parse_datetime local_to_utc t tz = Ok time -> forall g, dropped g -> replaced_by_time (st_json _ now) (t_commits tb) (epoch_millis time) g) ->
  StronglySorted instant_le (t_commits tb) -> (forall i, In i (t_commits tb) -> exists o, file_in stays names [".hoodie"] (file_name i) o) ->
  base_format (t_configs tb) = Ok format -> get_partition_schema dtype now tb = Ok fields -> wf_fields fields -> plain_table tb -> read_optimized_table tb ->
  let keeps (st st' : store dtype) := is_table_partitioned (t_configs tb) = Ok true -> partitions_kept (st_dirs _ st) (st_dirs _ st') in
  forall st1 st2, sees moments base dtype parse_json parse_schema parse_rows footer open st1 -> sees moments base dtype parse_json parse_schema parse_rows footer open st2 ->
  forall c1 c1' bs1 c2 c2' bs2,
  opened dtype value cast cmp local_to_utc tb keeps st1 c1 ->
  read_snapshot_as_of dtype value cast cmp avro_schema avro_value avro_parse datum check_schema to_batch parquet local_to_utc st1 tb t [] c1 c1' (Ok bs1) ->
  opened dtype value cast cmp local_to_utc tb keeps st2 c2 ->
  read_snapshot_as_of dtype value cast cmp avro_schema avro_value avro_parse datum check_schema to_batch parquet local_to_utc st2 tb t [] c2 c2' (Ok bs2) ->
  (exists ss1, get_file_slices_as_of dtype value cast cmp local_to_utc st1 tb t [] c1 c1' (Ok ss1)
     /\ Forall2 (fun s batch => exists dir o, fs_partition s = join "/" dir /\ file_in stays names dir (base_file_name (fs_base s)) o /\ parse_rows (o_data o) = Ok batch) ss1 bs1)
  /\ Permutation bs1 bs2.
Proof.
  intros dtype value cast cmp LU A B sc da ch tob pq stays moments base names pj ps pr ft op tb t format pt dropped fields now PS UB BP PT PM L MA DR So TL BF GS WF PLT RO keeps st1 st2 E1 E2 c1 c1' bs1 c2 c2' bs2 O1 R1 O2 R2.
  assert (K : forall st c c' bs, sees moments base dtype pj ps pr ft op st -> opened dtype value cast cmp LU tb keeps st c ->
    read_snapshot_as_of dtype value cast cmp A B sc da ch tob pq LU st tb t [] c c' (Ok bs) ->
    exists ss, get_file_slices_as_of dtype value cast cmp LU st tb t [] c c' (Ok ss) /\ NoDup (map shown_key ss) /\ Forall2 (read_of stays names pr pt) (map shown_key ss) bs).
  { intros st c c' bs E O R. inversion R as [| |d1 d2 ss r Q RS]; subst. exists ss. split; [exact Q|].
    destruct (C104_one_state dtype value cast cmp LU stays moments base names pj ps pr ft op tb t format dropped st fields PS PM L MA DR So TL BF GS WF E c c' [] ss O Q)
      as [fs [tz [time [h [u [pt' [P1 [P2 [P3 [P4 [P5 [P6 [P7 P8]]]]]]]]]]]]]. rewrite PT in P6. injection P6 as <-.
    split; [exact (keys_differ dtype value cast cmp stays names format t fields h u pt fs _ ss _ BP PS P7)|].
    pose proof (bases_read dtype A B sc da ch tob pq LU st tb PLT t ss bs RS (fun s _ => or_introl RO)) as F2. specialize (P8 BP). clear - F2 P8.
    induction F2 as [|s b ss bs E F IH]; [constructor|]. cbn [map]. constructor; [|apply IH; intros; apply P8; now right].
    destruct (P8 s (or_introl eq_refl)) as [dir [o [OP [FI RD]]]]. exists dir, o. split; [exact OP|]. split; [exact FI|]. congruence. }
  destruct (K st1 c1 c1' bs1 E1 O1 R1) as [ss1 [Q1 [N1 F1]]]. destruct (K st2 c2 c2' bs2 E2 O2 R2) as [ss2 [Q2 [N2 F2]]]. split.
  - exists ss1. split; [exact Q1|]. clear - F1. remember (map shown_key ss1) as ks eqn:EK. revert ss1 EK. induction F1 as [|k b ks bs R F IH]; intros ss EK; destruct ss as [|s ss]; try discriminate EK; [constructor|].
    injection EK as -> EK. constructor; [|now apply IH]. destruct R as [dir [o [[_ [EP _]] [FI RD]]]]. exists dir, o. auto.
  - apply (same_batches stays names pr pt (map shown_key ss1) (map shown_key ss2) bs1 bs2 PS); [|exact F1|exact F2]. apply NoDup_Permutation; [exact N1|exact N2|]. intros [p n]. rewrite <- !shown_in.
    exact (C104_same dtype value cast cmp LU stays moments base names pj ps pr ft op tb t format dropped fields PS UB PM L MA DR So TL BF GS WF st1 st2 E1 E2 c1 c1' ss1 c2 c2' ss2 O1 Q1 O2 Q2 p n).
Qed.
Print Assumptions C104_batches.

(** While the small table of E_Open is queried, a cleaner removes an older base file of f1, and a writer adds files.  The
    query lists city=ams before and city=rio after that. *)
Definition rm_old := {| o_key := "data/t/city=ams/f1_0-0-1_20231231000000000.parquet"; o_data := "old" |}.
Definition rm_before : list object := (bx_objs ++ [rm_old])%list.
Definition rm_moments : list (list object) := [rm_before; dx_end].
Definition rm_store : store unit :=
  {| st_json := st_json _ (bx_store rm_before); st_schema := st_schema _ (bx_store dx_end);
     st_files := fun p => if String.eqb p "city=ams" then list_files rm_before sx_base p else list_files dx_end sx_base p;
     st_dirs := list_dirs rm_before sx_base; st_meta := st_meta _ (bx_store dx_end); st_parquet := st_parquet _ (bx_store dx_end); st_bytes := st_bytes _ (bx_store dx_end);
     st_open := fun _ _ => Ok tt |}.
Fact rm_sees : sees rm_moments sx_base unit bx_json bx_schema bx_rows bx_footer (fun _ _ => Ok tt) rm_store.
Proof.
  intros p. cbv zeta. assert (I0 : In rm_before rm_moments) by now left. assert (I1 : In dx_end rm_moments) by (right; now left).
  repeat split; try (exists rm_before; split; [exact I0|reflexivity]); try (exists dx_end; split; [exact I1|reflexivity]).
  cbn [st_files rm_store]. destruct (String.eqb p "city=ams"); [exists rm_before; split; [exact I0|reflexivity]|exists dx_end; split; [exact I1|reflexivity]].
Qed.
Fact rm_moves : forall objs, In objs rm_moments -> moves_around bx_objs ["data"; "t"] "parquet" sx_t (fun _ => False) objs.
Proof.
  intros objs [ <- |[ <- |[]]].
  - split; [intros x I; apply in_or_app; now left|]. intros dir name o F [Io [N K]] NI. apply in_app_or in Io as [Io|[<-|[]]]; [contradiction|]. symmetry in K.
    apply (in_key dir name ["city=ams"; "f1_0-0-1_20231231000000000.parquet"] F N ltac:(legal_names)) in K.
    apply (app_inj_tail dir ["city=ams"] name "f1_0-0-1_20231231000000000.parquet") in K as [-> ->]. split.
    + intros b _ _ B. vm_compute in B. injection B as <-. right. left.
      exists "f1_0-1-2_20240101000000000.parquet". assert (Fo : exists o, In o bx_objs /\ o_key o = "data/t/city=ams/f1_0-1-2_20240101000000000.parquet").
      { destruct (find (fun o => String.eqb (o_key o) "data/t/city=ams/f1_0-1-2_20240101000000000.parquet") bx_objs) as [o|] eqn:E; [|vm_compute in E; discriminate E].
        apply find_some in E as [E1 E2]. exists o. split; [exact E1|now apply String.eqb_eq]. }
      destruct Fo as [o [Io Ko]]. eexists o, _. split; [split; [exact Io|split; [repeat split; discriminate|rewrite Ko; reflexivity]]|].
      split; [intros [[r X]|[r X]]; [discriminate X|]; assert (Y : ends_with ".crc" "f1_0-1-2_20240101000000000.parquet" = true) by (apply ends_with_spec; exists r; exact X); discriminate Y|]. split; [exists "f1_0-1-2_20240101000000000"; reflexivity|]. split; [cbn; reflexivity|]. repeat split; vm_compute; try reflexivity; discriminate.
    + intros d Fd D below. now apply dx_below with (objs := bx_objs).
  - destruct (dx_later dx_end ltac:(right; now left)) as [H1 H2]. split; [exact H1|]. intros dir name o F FI NI. destruct (H2 dir name o F FI NI) as [X Y]. split; [|exact Y]. intros b B1 B2 B3. left. exact (X b B1 B2 B3).
Qed.
Fact rm_answer : exists c' r, dx_asks rm_store sx_t c' r
  /\ dx_shows r = Ok [("city=rio/f2_0-1-3_20240101000000000.parquet", [".f2_20240101000000000.log.1_0-2-2"]); ("city=ams/f1_0-1-2_20240101000000000.parquet", [])].
Proof. bx_asked ltac:(do 2 sx_one). Qed.
Fact rm_proper : forall objs, In objs rm_moments -> proper_objects objs.
Proof. intros objs [ <- |[ <- |[]]]; apply proper_by; vm_compute; reflexivity. Qed.
Example C104_case : exists c' ss, get_file_slices_as_of unit string sx_cast sx_cmp sx_local rm_store bx_table sx_t [] [] c' (Ok ss)
  /\ map base_relative_path ss = ["city=rio/f2_0-1-3_20240101000000000.parquet"; "city=ams/f1_0-1-2_20240101000000000.parquet"]
  /\ forall c2 c2' ss2, opened unit string sx_cast sx_cmp sx_local bx_table
       (fun st st' => is_table_partitioned (t_configs bx_table) = Ok true -> partitions_kept (st_dirs _ st) (st_dirs _ st')) (bx_store dx_end) c2 ->
     get_file_slices_as_of unit string sx_cast sx_cmp sx_local (bx_store dx_end) bx_table sx_t [] c2 c2' (Ok ss2) -> forall p n, shows_base ss p n <-> shows_base ss2 p n.
Proof.
  destruct rm_answer as [c' [r [A E]]]. destruct r as [ss| |]; [|discriminate E|discriminate E]. exists c', ss. split; [exact A|]. cbn [dx_shows] in E.
  split; [injection E as E; apply (f_equal (map fst)) in E; rewrite map_map in E; exact E|]. intros c2 c2' ss2 O2 Q2.
  assert (So : StronglySorted instant_le (t_commits bx_table)) by (vm_compute; repeat constructor).
  assert (S2 : sees rm_moments sx_base unit bx_json bx_schema bx_rows bx_footer (fun _ _ => Ok tt) (bx_store dx_end)) by (intros p; cbv zeta; repeat split; exists dx_end; (split; [right; now left|reflexivity])).
  exact (C104_same unit string sx_cast sx_cmp sx_local bx_objs rm_moments sx_base ["data"; "t"] bx_json bx_schema bx_rows bx_footer (fun _ _ => Ok tt) bx_table sx_t "parquet" (fun _ => False) [("city", tt)]
    bx_proper (dx_one_base _ (or_introl eq_refl)) rm_proper sx_located rm_moves (fun _ _ _ _ g X => False_ind _ X) So dx_timeline ltac:(vm_compute; reflexivity) ltac:(vm_compute; reflexivity) sx_fields
    rm_store (bx_store dx_end) rm_sees S2 [] c' ss c2 c2' ss2 (op_new _ _ _ _ _ _ _ _) A O2 Q2).
Qed.

(** The same query for the rows, of a reader of base files only. *)
Definition rm_table : table := {| t_configs := ("hoodie.read.use.read_optimized.mode", "true") :: t_configs bx_table; t_storage := t_storage bx_table; t_commits := t_commits bx_table |}.
Definition rm_reads (st : store unit) (c' : cache) (r : outcome (list record_batch)) : Prop :=
  read_snapshot_as_of unit string sx_cast sx_cmp unit unit (fun _ => None) (fun _ _ => None) (fun _ => Ok tt) (fun _ _ => Err EStorage) (fun _ => None) sx_local st rm_table sx_t [] [] c' r.
Definition rm_plain_b (objs : list object) : bool :=
  forallb (fun o => let n := last (split "/" (o_key o)) "" in match base_file_of n (Some (new_meta n (o_size o))) with Ok b => String.eqb (base_file_name b) n | _ => true end) objs.
Fact rm_plain : base_names_plain bx_objs ["data"; "t"] "parquet" true.
Proof.
  intros path dir name o b OP FI _ _ BO. assert (H : rm_plain_b bx_objs = true) by (vm_compute; reflexivity). unfold rm_plain_b in H. rewrite forallb_forall in H. specialize (H o (proj1 FI)). cbv zeta in H.
  rewrite (file_last bx_objs ["data"; "t"] dir name o ltac:(legal_names) (proj1 OP) FI), BO in H. now apply String.eqb_eq.
Qed.
Fact rm_table_plain : plain_table rm_table /\ read_optimized_table rm_table.
Proof.
  split; [|reflexivity]. split; [vm_compute; repeat (constructor; [intros X; repeat destruct X as [X|X]; try discriminate X; destruct X|]); constructor|]. split; [|vm_compute; reflexivity].
  intros key v r I ->. vm_compute in I. repeat destruct I as [I|I]; try discriminate I; destruct I.
Qed.
Ltac rm_one_read := exists (@L_Reader.isort _), (fun m => m); split; [apply L_Reader.isort_sorts|split; [intros m; reflexivity|vm_compute; reflexivity]].
Fact rm_read : exists c', rm_reads rm_store c' (Ok [sx_batch [sx_row "3" "rio"]; sx_batch [sx_row "1" "ams"; sx_row "2" "ams"]]).
Proof.
  eexists. eapply ra_ok.
  - eapply ga_ok; [reflexivity|]. eapply sa_view; [vm_compute; reflexivity|vm_compute; reflexivity|vm_compute; reflexivity|vm_compute; reflexivity|].
    eapply vq_ok with (order := fun _ l => l); [reflexivity|
      eapply ll_finished with (fuel := 5%nat); [reflexivity|vm_compute; reflexivity|]; do 2 sx_one; eapply star_step; [apply (ps_finish _ _ (Z.to_nat 10)); cbn; lia|]; apply star_refl|reflexivity|vm_compute; reflexivity].
  - eapply rs_read with (iter := fun m => m); [intros m; reflexivity| |apply (jo_ok [_; _])].
    split; [reflexivity|]. apply Forall2_cons; [rm_one_read|apply Forall2_cons; [rm_one_read|apply Forall2_nil]].
Qed.
Example C104_batches_case : exists c', rm_reads rm_store c' (Ok [sx_batch [sx_row "3" "rio"]; sx_batch [sx_row "1" "ams"; sx_row "2" "ams"]])
  /\ forall c2 bs2, rm_reads (bx_store dx_end) c2 (Ok bs2) -> Permutation [sx_batch [sx_row "3" "rio"]; sx_batch [sx_row "1" "ams"; sx_row "2" "ams"]] bs2.
Proof.
  destruct rm_read as [c' A]. exists c'. split; [exact A|]. intros c2 bs2 Q2. destruct rm_table_plain as [PT RO].
  assert (So : StronglySorted instant_le (t_commits rm_table)) by (vm_compute; repeat constructor).
  assert (S2 : sees rm_moments sx_base unit bx_json bx_schema bx_rows bx_footer (fun _ _ => Ok tt) (bx_store dx_end)) by (intros p; cbv zeta; repeat split; exists dx_end; (split; [right; now left|reflexivity])).
  exact (proj2 (C104_batches unit string sx_cast sx_cmp sx_local unit unit _ _ _ _ _ bx_objs rm_moments sx_base ["data"; "t"] bx_json bx_schema bx_rows bx_footer (fun _ _ => Ok tt) rm_table sx_t "parquet" true (fun _ => False) [("city", tt)]
    bx_proper (dx_one_base _ (or_introl eq_refl)) rm_plain ltac:(vm_compute; reflexivity) rm_proper sx_located rm_moves (fun _ _ _ _ g X => False_ind _ X) So dx_timeline ltac:(vm_compute; reflexivity) ltac:(vm_compute; reflexivity) sx_fields PT RO
    rm_store (bx_store dx_end) rm_sees S2 [] c' _ [] c2 bs2 (op_new _ _ _ _ _ _ _ _) A (op_new _ _ _ _ _ _ _ _) Q2)).
Qed.
