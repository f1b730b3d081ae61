(** A small table for the examples of C93: two file groups of one record each, which clustering moves to a third. *)
From Coq Require Import Sorted.
From Verif Require Import Base Str M_Utf8 M_Time M_Instant M_Timeline M_FileGroup M_Builder M_Listing M_Expr M_Log M_Config M_Reader M_Table M_Storage M_Avro M_Values M_Datum M_Json M_Objects M_Open
  S_Time S_Timeline S_FileGroup S_Builder S_Listing S_Expr S_Log S_Reader S_Config S_Table S_Avro S_Storage S_Objects S_Open S_History S_Incremental S_Values S_Datum S_Json S_Whole S_Changes S_Follow
  L_Base L_Str L_Time L_Timeline L_Open L_Json L_Whole L_WholeChanges E_Scan E_Open E_History E_Changes E_Values E_Datum E_Json E_Whole E_WholeChanges.
Local Open Scope string_scope.

Definition yx_c2 : list cell := [VText hx_t2; VText "8"; VText "c"; VInt 1].
Definition yx_r := "r_0-0-0_20250101000000000.parquet".
Definition yx_h := "h_0-0-0_20250102000000000.parquet".
Definition yx_n := "n_0-0-0_20250105000000000.parquet".
Definition yx_data : list (string * string) := [(yx_h, "h2"); (yx_n, "n5"); (yx_r, "r1")].
Definition yx_d2 := wx_commit (wx_stat "h" yx_h) "".
Definition yx_replace := wx_commit (wx_stat "n" yx_n) ", ""partitionToReplaceFileIds"":{"""":[""r"",""h""]}".
Definition yx_objs : list object :=
  ([wx_at ".hoodie/hoodie.properties" (lines_of ["hoodie.table.name=t"; "hoodie.table.type=MERGE_ON_READ"; "hoodie.table.version=6"; "hoodie.timeline.layout.version=1";
      "hoodie.table.precombine.field=ts"; "hoodie.datasource.write.hive_style_partitioning=false"; "hoodie.datasource.write.partitionpath.urlencode=false"]);
    wx_at ".hoodie/20250101000000000.commit" (wx_commit (wx_stat "r" yx_r) "");
    wx_at ".hoodie/20250102000000000.commit" yx_d2;
    wx_at ".hoodie/20250105000000000.replacecommit" yx_replace] ++ map (fun x => wx_at (fst x) (snd x)) yx_data)%list.
Definition yx_rows (d : string) : outcome record_batch :=
  if String.eqb d "r1" then Ok (hx_batch [wx_d1]) else if String.eqb d "h2" then Ok (hx_batch [yx_c2]) else if String.eqb d "n5" then Ok (hx_batch [wx_d1; yx_c2]) else Err EStorage.
Definition yx_build : outcome (table * url * list object) :=
  build (fun m => m) [] bx_parse (fun _ _ => Ok yx_objs) (fun _ => Err EStorage) hx_local isort wx_builder.
Definition yx_table : table := match yx_build with Ok (tb, _, _) => tb | _ => hx_table end.
Fact yx_built : yx_build = Ok (yx_table, sx_base, yx_objs).
Proof. vm_compute. reflexivity. Qed.
Fact yx_proper : proper_objects yx_objs.
Proof. apply proper_by. vm_compute. reflexivity. Qed.
Definition yx_store : store unit :=
  object_store yx_objs sx_base unit (parse_metadata jx_number jx_collect) (fun _ => Ok [("ts", tt)]) yx_rows (fun _ => Ok (1, 1)%Z) (fun _ _ => Ok tt).
Definition yx_reads (t : string) (batches : list (list (list cell))) : Prop := exists c',
  read_snapshot_as_of unit string (fun _ s => Some s) (fun a b => Some (scmp a b)) avro value vx_parse decode check_schema (to_batch vx_code vx_rank vx_cast) (fun _ => None)
    hx_local yx_store yx_table t [] [] c' (Ok (map hx_batch batches)).
Definition yx_changes (start : string) (stop : option string) (batches : list (list (list cell))) : Prop :=
  read_incremental unit avro value vx_parse decode check_schema (to_batch vx_code vx_rank vx_cast) (fun _ => None) hx_local yx_store yx_table start stop (Ok (map hx_batch batches)).
Ltac yx_read :=
  eapply ri_ok with (order := fun _ l => l);
  [intros n l; reflexivity|vm_compute; reflexivity|vm_compute; reflexivity
  |eapply rs_read with (iter := fun m => m); [intros m; reflexivity| |];
   [split; [reflexivity|]; repeat (apply Forall2_cons; [exists (@L_Reader.isort _), (fun m => m); split; [apply L_Reader.isort_sorts|split; [intros m; reflexivity|vm_compute; reflexivity]]|]); apply Forall2_nil
   |match goal with |- joined _ (Ok ?l) => exact (jo_ok l) end]].
Fact yx_read1 : yx_reads hx_t1 [[wx_d1]]. Proof. wx_read. Qed.
Fact yx_read2 : yx_reads hx_t2 [[yx_c2]; [wx_d1]]. Proof. wx_read. Qed.
Fact yx_read5 : yx_reads hx_t5 [[wx_d1; yx_c2]]. Proof. wx_read. Qed.
Fact yx_changes1 : yx_changes hx_t1 (Some hx_t5) [[yx_c2]]. Proof. yx_read. Qed.
Fact yx_changes2 : yx_changes hx_t2 None [[]]. Proof. yx_read. Qed.

(** Its file groups. *)
Definition yx_group (versions : list (string * list cell)) (c : string) (rows : list (list cell)) : group :=
  {| g_versions := versions; g_bases := [(c, rows)]; g_blocks := []; g_failed := []; g_rollbacks := [] |}.
Definition yx_groups : list (string * string * string * string * list (list cell) * group) :=
  [("r", yx_r, "r1", hx_t1, [wx_d1], yx_group [(hx_t1, wx_d1)] hx_t1 [wx_d1]);
   ("h", yx_h, "h2", hx_t2, [yx_c2], yx_group [(hx_t2, yx_c2)] hx_t2 [yx_c2]);
   ("n", yx_n, "n5", hx_t5, [wx_d1; yx_c2], yx_group [(hx_t1, wx_d1); (hx_t2, yx_c2)] hx_t5 [wx_d1; yx_c2])].
Definition yx_hist (g : string * string) : group :=
  if String.eqb (snd g) "r" then yx_group [(hx_t1, wx_d1)] hx_t1 [wx_d1] else if String.eqb (snd g) "h" then yx_group [(hx_t2, yx_c2)] hx_t2 [yx_c2]
  else yx_group [(hx_t1, wx_d1); (hx_t2, yx_c2)] hx_t5 [wx_d1; yx_c2].
Ltac yx_each I := cbn [yx_groups In] in I; destruct I as [[= <- <- <- <- <- <-]|[[= <- <- <- <- <- <-]|[[= <- <- <- <- <- <-]|[]]]].
Fact yx_hist_is : forall id n d c rows g, In (id, n, d, c, rows, g) yx_groups -> yx_hist ("", id) = g.
Proof. intros id n d c rows g I. yx_each I; reflexivity. Qed.
Fact yx_not_newer : forall a b, In a [wx_d1; yx_c2] -> In b [wx_d1; yx_c2] -> key_at 2 a = key_at 2 b -> ~ newer 3 1 a b.
Proof. intros a b [ <- |[ <- |[]]] [ <- |[ <- |[]]] E; try discriminate E; apply hx_not_newer; right; (split; [reflexivity|discriminate]). Qed.
Fact yx_latest : forall rows, incl rows [wx_d1; yx_c2] -> NoDup (map (key_at 2) rows) -> latest_rows 2 3 1 rows rows.
Proof. intros rows S N. split; [exact N|]. split; [eauto|]. intros r I. split; [exact I|]. intros r' I'. apply yx_not_newer; now apply S. Qed.
Fact yx_histories : forall id n d c rows g, In (id, n, d, c, rows, g) yx_groups -> history 2 3 1 c g.
Proof.
  intros id n d c rows g I. yx_each I.
  - eapply h_write; [apply h_new|apply hx_stamp; cbn; tauto|reflexivity|]. apply (w_commit 2 3 1 new_group_history hx_t1 [wx_d1] [wx_d1]). apply yx_latest; [intros r [ <- |[]]; cbn; tauto|repeat constructor; intros []].
  - eapply h_write; [apply h_new|apply hx_stamp; cbn; tauto|reflexivity|]. apply (w_commit 2 3 1 new_group_history hx_t2 [yx_c2] [yx_c2]). apply yx_latest; [intros r [ <- |[]]; cbn; tauto|repeat constructor; intros []].
  - apply h_moved; [apply hx_stamp; cbn; tauto| |].
    + intros y r [[= <- <-]|[[= <- <-]|[]]]; discriminate.
    + apply (yx_latest [wx_d1; yx_c2]); [intros r I; exact I|]. constructor; [intros [E|[]]; discriminate E|repeat constructor; intros []].
Qed.
Lemma yx_strip : forall a b, "data/t/" ++ a = "data/t/" ++ b -> a = b.
Proof. exact wx_strip. Qed.
Fact yx_listed : forall n d, In (n, d) yx_data <-> exists id c rows g, In (id, n, d, c, rows, g) yx_groups.
Proof.
  intros n d. split.
  - intros I. cbn [yx_data In] in I. destruct I as [[= <- <-]|[[= <- <-]|[[= <- <-]|[]]]]; do 4 eexists; cbn [yx_groups In]; [right; left|right; right; left|left]; reflexivity.
  - intros [id [c [rows [g I]]]]. yx_each I; cbn [yx_data In]; tauto.
Qed.
Fact yx_files : forall n o, file_in yx_objs wx_names [] n o <-> exists d, In (n, d) yx_data /\ o = wx_at n d.
Proof.
  intros n o. unfold file_in. rewrite wx_key. split.
  - intros [I [[_ [S _]] E]]. unfold yx_objs in I. apply in_app_or in I as [I|I].
    + exfalso. repeat (destruct I as [ <- |I]; [cbn [o_key wx_at] in E; apply wx_strip in E; subst n; discriminate S|]). destruct I.
    + apply in_map_iff in I as [[n' d] [ <- I]]. cbn [fst snd wx_at o_key] in *. apply wx_strip in E. subst n'. exists d. split; [exact I|reflexivity].
  - intros [d [I ->]]. split; [|split; [|reflexivity]].
    + unfold yx_objs. apply in_or_app. right. apply in_map_iff. exists (n, d). split; [reflexivity|exact I].
    + cbn [yx_data In] in I. destruct I as [[= <- <-]|[[= <- <-]|[[= <- <-]|[]]]]; repeat split; discriminate.
Qed.
Fact yx_listing : forall l m, directory_listing yx_objs wx_names [] l -> (In m l <-> exists n d, In (n, d) yx_data /\ m = new_meta n (Z.of_nat (String.length d))).
Proof.
  intros l m [_ D]. rewrite D. split.
  - intros [n [o [F ->]]]. apply yx_files in F as [d [I ->]]. exists n, d. split; [exact I|reflexivity].
  - intros [n [d [I ->]]]. exists n, (wx_at n d). split; [apply yx_files; eauto|reflexivity].
Qed.
Ltac yx_no_marker := intros [[r E]|[r E]]; [discriminate E|apply (f_equal (fun s => ends_with ".crc" s)) in E; rewrite (proj2 (ends_with_spec ".crc" (r ++ ".crc")) (ex_intro _ r eq_refl)) in E; discriminate E].
Fact yx_parsed : forall id n d c rows g m, In (id, n, d, c, rows, g) yx_groups ->
  ~ marker_name n /\ base_named "parquet" n /\ exists b, base_file_of n m = Ok b /\ bf_file_id b = id /\ bf_commit b = c /\ base_file_name b = n.
Proof.
  intros id n d c rows g m I. yx_each I;
    (split; [yx_no_marker|]; split; [apply (ends_with_spec ".parquet"); reflexivity|eexists; split; [vm_compute; reflexivity|repeat split; reflexivity]]).
Qed.
Fact yx_bases : forall l m b, directory_listing yx_objs wx_names [] l -> base_listed "parquet" l m b ->
  exists n d c rows g, In (bf_file_id b, n, d, c, rows, g) yx_groups /\ m = new_meta n (Z.of_nat (String.length d)) /\ bf_commit b = c /\ base_file_name b = n.
Proof.
  intros l m b DL [Im [_ [_ P]]]. apply (yx_listing l m DL) in Im as [n [d [J ->]]]. apply yx_listed in J as [id [c [rows [g J]]]].
  destruct (yx_parsed id n d c rows g (Some (new_meta n (Z.of_nat (String.length d)))) J) as [_ [_ [b' [P' [E1 [E2 E3]]]]]]. cbn [fm_name new_meta] in *. assert (b' = b) by congruence. subst b'. rewrite <- E1 in J. exists n, d, c, rows, g. auto.
Qed.
Fact yx_base_of : forall l id n d c rows g, directory_listing yx_objs wx_names [] l -> In (id, n, d, c, rows, g) yx_groups -> base_of "parquet" id l (new_meta n (Z.of_nat (String.length d))) c.
Proof.
  intros l id n d c rows g DL I. destruct (yx_parsed id n d c rows g (Some (new_meta n (Z.of_nat (String.length d)))) I) as [M [B [b [P [E1 [E2 E3]]]]]].
  exists b. split; [|auto]. split; [apply (yx_listing l _ DL); exists n, d; split; [apply yx_listed; eauto|reflexivity]|]. auto.
Qed.
Fact yx_no_logs : forall l m x, directory_listing yx_objs wx_names [] l -> ~ log_listed "parquet" l m x.
Proof.
  intros l m x DL [Im [_ [N _]]]. apply (yx_listing l m DL) in Im as [n [d [J ->]]]. apply yx_listed in J as [id [c [rows [g J]]]]. apply N. now apply (yx_parsed id n d c rows g None J).
Qed.
Fact yx_one : forall id n d c rows g n' d' c' rows' g', In (id, n, d, c, rows, g) yx_groups -> In (id, n', d', c', rows', g') yx_groups -> n' = n /\ d' = d /\ c' = c /\ rows' = rows /\ g' = g.
Proof. intros id n d c rows g n' d' c' rows' g' I I'. yx_each I; cbn [yx_groups In] in I'; destruct I' as [[= E <- <- <- <-]|[[= E <- <- <- <-]|[[= E <- <- <- <-]|[]]]]; try discriminate E; auto. Qed.
Fact yx_typed : forall r, In r [wx_d1; yx_c2] -> wf_row hx_sch r.
Proof. intros r [ <- |[ <- |[]]]; repeat constructor; cbn; discriminate. Qed.
Fact yx_written_out : forall id n d c rows g, In (id, n, d, c, rows, g) yx_groups -> forall dir listed content, object_partition yx_objs wx_names false "" dir -> directory_listing yx_objs wx_names dir listed ->
  (forall n o, file_in yx_objs wx_names dir n o -> content (file_path "" n) = Ok (o_data o)) ->
  written_out vx_parse encodes vx_code vx_rank (fun path => let* d := content path in yx_rows d) content "parquet" "" id vx_dfs listed (fun _ => []) g.
Proof.
  intros id n d c rows g I dir l content [_ [_ ED]] DL CO. subst dir.
  assert (BB : map fst (g_bases g) = [c] /\ g_bases g = [(c, rows)] /\ g_blocks g = [] /\ g_rollbacks g = []) by (yx_each I; repeat split; reflexivity). destruct BB as [BB [B0 [B1 B2]]].
  assert (BL : forall m b, base_listed "parquet" l m b -> bf_file_id b = id -> m = new_meta n (Z.of_nat (String.length d)) /\ bf_commit b = c /\ base_file_name b = n).
  { intros m b B E. destruct (yx_bases l m b DL B) as [n' [d' [c' [rows' [g' [J [Em [Ec En]]]]]]]]. rewrite E in J. destruct (yx_one _ _ _ _ _ _ _ _ _ _ _ I J) as [-> [-> [-> _]]]. auto. }
  constructor.
  - split; intros r; [destruct r; discriminate|]. yx_each I; discriminate.
  - intros m b B E. destruct (BL m b B E) as [ -> [_ En]]. exact En.
  - intros c0. rewrite BB. split.
    + intros [ <- |[]]. eexists. eapply yx_base_of; eauto.
    + intros [m [b [B [E <- ]]]]. left. symmetry. now apply (BL m b).
  - intros m c0 rs [b [B [E _]]] J. destruct (BL m b B E) as [ -> _]. rewrite B0 in J. destruct J as [[= _ <-]|[]]. cbn [fm_name new_meta].
    change (file_path "" n) with n. assert (CN : content (file_path "" n) = Ok d) by (apply (CO n (wx_at n d)); apply yx_files; exists d; split; [apply yx_listed; eauto|reflexivity]).
    change (file_path "" n) with n in CN. rewrite CN. cbn [bind]. yx_each I; reflexivity.
  - intros x r J. replace (map (as_field vx_code) vx_dfs) with hx_sch by reflexivity. apply yx_typed. yx_each I; cbn in J |- *; repeat (destruct J as [[= _ <-]|J]; [tauto|]); destruct J.
  - intros m1 l1 m2 l2 L1. now apply (yx_no_logs l m1 l1) in L1.
  - intros m c0 [x [Lx _]]. now apply (yx_no_logs l m x) in Lx.
  - intros c0 x r. rewrite B1. split; [intros [rs [[] _]]|]. intros [m [w [vs [v [[y [Ly _]] _]]]]]. now apply (yx_no_logs l m y) in Ly.
  - intros c0 y x. rewrite B2. split; [intros []|]. intros [m [w [vs [[z [Lz _]] _]]]]. now apply (yx_no_logs l m z) in Lz.
Qed.
Fact yx_has : forall g c, has_base yx_objs wx_names "parquet" false g c <-> fst g = "" /\ exists n d rows h, In (snd g, n, d, c, rows, h) yx_groups.
Proof.
  intros g c. split.
  - intros [dir [n [o [b [[_ [EP ED]] [FI [_ [BN [BO [EI EC]]]]]]]]]]. subst dir. split; [exact EP|]. apply yx_files in FI as [d [I ->]]. apply yx_listed in I as [id [c' [rows [h I]]]].
    destruct (yx_parsed id n d c' rows h (Some (new_meta n (o_size (wx_at n d)))) I) as [_ [_ [b' [P [E1 [E2 E3]]]]]]. assert (b' = b) by congruence. subst b'. rewrite <- EI, <- EC, E1, E2. eauto.
  - destruct g as [pt id]. cbn [fst snd]. intros [ -> [n [d [rows [h I]]]]]. destruct (yx_parsed id n d c rows h (Some (new_meta n (o_size (wx_at n d)))) I) as [M [B [b [P [E1 [E2 E3]]]]]]. exists [], n, (wx_at n d), b.
    split; [repeat split; constructor|]. split; [apply yx_files; exists d; split; [apply yx_listed; eauto|reflexivity]|]. auto.
Qed.
Fact yx_written : forall t, written_by yx_objs wx_names "parquet" false vx_parse vx_code vx_rank yx_rows vx_dfs 2 3 1 t yx_hist.
Proof.
  intros t [pt id] c H. apply yx_has in H as [E [n [d [rows [g I]]]]]. cbn [fst snd] in *. subst pt. exists c, (fun _ => []). rewrite (yx_hist_is _ _ _ _ _ _ I).
  split; [eapply yx_histories; eauto|]. split; [|eapply yx_written_out; eauto]. intros b x rs Ib. yx_each I; destruct Ib.
Qed.
Fact yx_merging : merging_table yx_table (map (as_field vx_code) vx_dfs) 3 1 2.
Proof.
  replace (map (as_field vx_code) vx_dfs) with hx_sch by reflexivity. constructor.
  - split; [vm_compute; constructor|]. vm_compute. intros ? ? ? [].
  - vm_compute. reflexivity.
  - intros v E. vm_compute in E. discriminate E.
  - vm_compute. discriminate.
  - split; [right; split; [intros v E; vm_compute in E; discriminate E|split; [vm_compute; discriminate|vm_compute; discriminate]]|]. split; [|split; hx_column]. exists "ts", TInt. split; [vm_compute; reflexivity|]. split; [hx_column|discriminate].
Qed.
Fact yx_fields : forall fields, get_partition_schema unit yx_store yx_table = Ok fields -> wf_fields fields.
Proof. intros fields E. vm_compute in E. injection E as <-. split; [constructor|intros ? []]. Qed.

(** Its timeline. *)
Fact yx_timeline : forall n o, file_in yx_objs wx_names [".hoodie"] n o ->
  n = "hoodie.properties" \/ n = "20250101000000000.commit" \/ (n = "20250102000000000.commit" /\ o_data o = yx_d2) \/ (n = "20250105000000000.replacecommit" /\ o_data o = yx_replace).
Proof.
  assert (S : forall a b, ".hoodie/" ++ a = ".hoodie/" ++ b -> a = b) by (intros a b H; cbn [append] in H; congruence).
  intros n o [I [_ E]]. change (key_of (wx_names ++ [".hoodie"] ++ [n])) with ("data/t/" ++ (".hoodie/" ++ n)) in E. unfold yx_objs in I. apply in_app_or in I as [I|I].
  - repeat (destruct I as [ <- |I]; [cbn [o_key wx_at o_data] in *; apply wx_strip in E; match type of E with ?x = _ => let y := eval vm_compute in (substring 8 100 x) in apply (S y) in E end; subst n;
      repeat first [left; reflexivity|left; split; reflexivity|split; reflexivity|reflexivity|right]|]). destruct I.
  - apply in_map_iff in I as [[n' d] [ <- I]]. cbn [o_key wx_at fst snd] in E. apply wx_strip in E. exfalso. cbn [yx_data In] in I. destruct I as [[= <- <-]|[[= <- <-]|[[= <- <-]|[]]]]; discriminate E.
Qed.
Fact yx_in_order : timeline_in_order yx_objs wx_names.
Proof.
  intros ts a o D. split.
  - intros F. remember (timeline_name ts a Completed) as n eqn:E. apply (cx_name n ts a) in E; [|exact D].
    assert (X : forall x w, split_once "." n = Some (x, w) -> timestamp x -> timestamp ts) by (intros x w H T; rewrite H in E; injection E as <- _; exact T).
    apply yx_timeline in F as [ -> |[ -> |[[ -> _]|[ -> _]]]]; try (vm_compute in E; injection E as _ E; destruct a; discriminate E).
    + apply (X hx_t1 "commit"); [reflexivity|apply hx_stamp; cbn; tauto].
    + apply (X hx_t2 "commit"); [reflexivity|apply hx_stamp; cbn; tauto].
    + apply (X hx_t5 "replacecommit"); [reflexivity|apply hx_stamp; cbn; tauto].
  - intros F. apply yx_timeline in F. rewrite name_is, !app_assoc_s in F.
    assert (Y : ends_with "." (ts ++ "." ++ action_str a ++ ".") = true) by (apply (ends_with_spec "."); exists (ts ++ "." ++ action_str a); now rewrite !app_assoc_s).
    destruct F as [F|[F|[[F _]|[F _]]]]; rewrite F in Y; discriminate Y.
Qed.
Definition yx_md (id n : string) (more : list (string * json)) : list (string * json) :=
  ("partitionToWriteStats", JObj [("", JArr [JObj [("fileId", JStr id); ("path", JStr n)]])]) :: more.
Definition yx_md2 := yx_md "h" yx_h [].
Definition yx_md5 := yx_md "n" yx_n [("partitionToReplaceFileIds", JObj [("", JArr [JStr "r"; JStr "h"])])].
Fact yx_texts : metadata_text jx_number jx_collect yx_md2 yx_d2 /\ metadata_text jx_number jx_collect yx_md5 yx_replace.
Proof. split; apply slice_text; vm_compute; reflexivity. Qed.
Fact yx_replaced : forall time g, replaced_in yx_objs wx_names jx_number jx_collect hx_local "utc" time g <-> (1736035200000 <= time)%Z /\ fst g = "" /\ In (snd g) ["r"; "h"].
Proof.
  intros time g. split.
  - intros [ts [o [dt [m [F [D [P [W [X R]]]]]]]]]. pose proof (cx_name (ts ++ ".replacecommit") ts ReplaceCommit eq_refl D) as E. apply slice_text in X.
    apply yx_timeline in F as [F|[F|[[F _]|[F Dt]]]]; rewrite F in E; vm_compute in E; try discriminate E. injection E as <-. vm_compute in P. injection P as <-. rewrite Dt in X. vm_compute in X. injection X as <-.
    destruct R as [obj [ids [E [I1 I2]]]]. injection E as <-. destruct I1 as [[= <- <-]|[]]. split; [exact W|]. split; [reflexivity|]. cbn in I2 |- *. destruct I2 as [[= <-]|[[= <-]|[]]]; tauto.
  - intros [W [E I]]. destruct g as [pt id]. cbn [fst snd] in *. subst pt. exists hx_t5, (wx_at ".hoodie/20250105000000000.replacecommit" yx_replace). do 2 eexists.
    split; [split; [unfold yx_objs; cbn [In app]; do 3 right; left; reflexivity|split; [repeat split; discriminate|reflexivity]]|]. split; [reflexivity|]. split; [vm_compute; reflexivity|]. split; [exact W|]. split; [exact (proj2 yx_texts)|].
    eexists _, _. split; [reflexivity|]. split; [now left|]. cbn in I |- *. destruct I as [ <- |[ <- |[]]]; tauto.
Qed.
Fact yx_replacements : forall time, replacements_in_order yx_objs wx_names jx_number jx_collect hx_local "utc" time.
Proof.
  intros time. split.
  - intros ts o F. apply yx_timeline in F. assert (Y : ends_with "." (ts ++ ".replacecommit.") = true) by (apply (ends_with_spec "."); exists (ts ++ ".replacecommit"); now rewrite !app_assoc_s).
    destruct F as [F|[F|[[F _]|[F _]]]]; rewrite F in Y; discriminate Y.
  - intros ts o dt F D _ _. pose proof (cx_name (ts ++ ".replacecommit") ts ReplaceCommit eq_refl D) as E. apply yx_timeline in F as [F|[F|[[F _]|[F Dt]]]]; rewrite F in E; vm_compute in E; try discriminate E.
    rewrite Dt. eexists. split; [exact (proj2 yx_texts)|]. eexists. split; [reflexivity|]. intros p v [[= <- <-]|[]]. exists ["r"; "h"]. reflexivity.
Qed.
Definition yx_time (d : Z) : ndt := civil_ndt (hx_day d).
Definition yx_live (t : string) (d : Z) := live yx_objs wx_names "parquet" false jx_number jx_collect hx_local "utc" t (epoch_millis (yx_time d)).
Fact yx_live1 : forall g, yx_live hx_t1 1 g <-> g = ("", "r").
Proof.
  intros [pt id]. split.
  - intros [[c [H L]] _]. apply yx_has in H as [E [n [d [rows [h I]]]]]. cbn [fst snd] in *. subst pt. yx_each I; [reflexivity| |]; now elim L.
  - intros [= -> ->]. split; [exists hx_t1; split; [apply yx_has; split; [reflexivity|do 4 eexists; now left]|discriminate]|]. intros R. apply yx_replaced in R as [W _]. vm_compute in W. now elim W.
Qed.
Fact yx_live2 : forall g, yx_live hx_t2 2 g <-> g = ("", "r") \/ g = ("", "h").
Proof.
  intros [pt id]. split.
  - intros [[c [H L]] _]. apply yx_has in H as [E [n [d [rows [h I]]]]]. cbn [fst snd] in *. subst pt. yx_each I; [now left|now right|]; now elim L.
  - intros H. split.
    + destruct H as [[= -> ->]|[= -> ->]]; [exists hx_t1|exists hx_t2]; (split; [apply yx_has; split; [reflexivity|do 4 eexists]|discriminate]); [now left|right; now left].
    + intros R. apply yx_replaced in R as [W _]. vm_compute in W. now elim W.
Qed.
Fact yx_live5 : forall g, yx_live hx_t5 5 g <-> g = ("", "n").
Proof.
  intros [pt id]. split.
  - intros [[c [H L]] NR]. apply yx_has in H as [E [n [d [rows [h I]]]]]. cbn [fst snd] in *. subst pt. yx_each I; [| |reflexivity]; elim NR; apply yx_replaced; (split; [vm_compute; discriminate|]); (split; [reflexivity|]); cbn; tauto.
  - intros [= -> ->]. split; [exists hx_t5; split; [apply yx_has; split; [reflexivity|do 4 eexists; right; right; now left]|discriminate]|]. intros R. apply yx_replaced in R as [_ [_ R]]. cbn in R. destruct R as [R|[R|[]]]; discriminate R.
Qed.
Fact yx_distinct : forall g t, distinct_versions 2 3 1 (yx_hist g) t.
Proof.
  intros g t x a y b Ia Ib _ _ K P _. unfold yx_hist in *. destruct (String.eqb (snd g) "r"); [|destruct (String.eqb (snd g) "h")]; cbn in Ia, Ib;
    repeat (destruct Ia as [[= <- <-]|Ia]; [repeat (destruct Ib as [[= <- <-]|Ib]; [first [reflexivity|discriminate K]|]); destruct Ib|]); destruct Ia.
Qed.

(** The changes after its first or its second commit, up to its last. *)
Section Window.
Variable start : string.
Hypothesis S12 : In start [hx_t1; hx_t2].
Notation yx_commit := (commit_object yx_objs wx_names jx_number jx_collect start hx_t5).
Fact yx_commits : forall ts a m, yx_commit ts a m -> (start = hx_t1 /\ ts = hx_t2 /\ a = Commit /\ m = yx_md2) \/ (ts = hx_t5 /\ a = ReplaceCommit /\ m = yx_md5).
Proof.
  intros ts a m [o [F [T [L1 [L2 X]]]]]. apply slice_text in X. remember (timeline_name ts a Completed) as n eqn:E. apply (cx_name n ts a) in E; [|now apply timestamp_dot].
  apply yx_timeline in F as [ -> |[ -> |[[ -> D]|[ -> D]]]]; vm_compute in E; injection E as E1 E2; subst ts; destruct a; try discriminate E2.
  - destruct S12 as [ <- |[ <- |[]]]; vm_compute in L1; discriminate L1.
  - rewrite D in X; vm_compute in X; injection X as <-. left. destruct S12 as [ <- |[ <- |[]]]; [auto|vm_compute in L1; discriminate L1].
  - rewrite D in X; vm_compute in X; injection X as <-. right. split; [reflexivity|split; reflexivity].
Qed.
Fact yx_commit2 : start = hx_t1 -> yx_commit hx_t2 Commit yx_md2.
Proof.
  intros E. eexists; split; [split; [unfold yx_objs; cbn [In app]; do 2 right; left; reflexivity|split; [repeat split; discriminate|reflexivity]]|].
  split; [apply hx_stamp; cbn; tauto|]. split; [rewrite E; reflexivity|]. split; [discriminate|]. exact (proj1 yx_texts).
Qed.
Fact yx_commit5 : yx_commit hx_t5 ReplaceCommit yx_md5.
Proof.
  eexists; split; [split; [unfold yx_objs; cbn [In app]; do 3 right; left; reflexivity|split; [repeat split; discriminate|reflexivity]]|].
  split; [apply hx_stamp; cbn; tauto|]. split; [destruct S12 as [ <- |[ <- |[]]]; reflexivity|]. split; [discriminate|]. exact (proj2 yx_texts).
Qed.
Fact yx_md_writes : forall id n more part stat, writes (yx_md id n more) part stat -> part = "" /\ stat = JObj [("fileId", JStr id); ("path", JStr n)].
Proof. intros id n more part stat [obj [stats [E [I1 I2]]]]. injection E as <-. destruct I1 as [[= <- <-]|[]]. destruct I2 as [ <- |[]]. auto. Qed.
Fact yx_md_files : forall id n f x b logs, path_file_name n = Some f -> names_files (JObj [("fileId", JStr id); ("path", JStr n)]) x b logs -> x = id /\ b = f /\ logs = [].
Proof. intros id n f x b logs P H. inversion H as [? ? ? E1 E2 E3|? ? ? E1 E2 E3 E4]; subst; [discriminate E2|]. injection E1 as <-. injection E3 as <-. apply L_Builder.path_file_name_iff in E4. rewrite P in E4. injection E4 as <-. auto. Qed.
Fact yx_md_base : forall id n more part x c nm, (id, n) = ("h", yx_h) \/ (id, n) = ("n", yx_n) -> (names_base (yx_md id n more) part x c nm <-> part = "" /\ x = id /\ nm = n /\ c = if String.eqb id "h" then hx_t2 else hx_t5).
Proof.
  intros id n more part x c nm K. assert (P : path_file_name n = Some n) by (destruct K as [[= -> ->]|[= -> ->]]; vm_compute; reflexivity). split.
  - intros [stat [base [logs [b [W [F [B [Ec En]]]]]]]]. apply yx_md_writes in W as [ -> -> ]. apply (yx_md_files _ _ _ _ _ _ P) in F as [ -> [ -> -> ]].
    destruct K as [[= -> ->]|[= -> ->]]; vm_compute in B; injection B as <-; cbn in Ec; vm_compute in En; subst; auto.
  - intros [ -> [ -> [ -> -> ]]].
    assert (B : exists b, base_file_from_str n = Ok b /\ bf_commit b = (if String.eqb id "h" then hx_t2 else hx_t5) /\ base_file_name b = n) by (destruct K as [[= -> ->]|[= -> ->]]; (eexists; split; [vm_compute; reflexivity|split; reflexivity])).
    destruct B as [b [B [Ec En]]]. exists (JObj [("fileId", JStr id); ("path", JStr n)]), n, [], b.
    split; [eexists _, _; split; [reflexivity|]; split; [left; reflexivity|left; reflexivity]|]. split; [apply nf_path with (path := n); [reflexivity|reflexivity|reflexivity|now apply L_Builder.path_file_name_iff]|]. auto.
Qed.
Fact yx_base : forall ts a m part id c n, yx_commit ts a m -> names_base m part id c n -> part = "" /\ exists d rows g, In (id, n, d, c, rows, g) yx_groups /\ ts = c.
Proof.
  intros ts a m part id c n C N. apply yx_commits in C as [[_ [ -> [_ -> ]]]|[ -> [_ -> ]]];
    (apply yx_md_base in N; [|auto]); destruct N as [ -> [ -> [ -> -> ]]]; (split; [reflexivity|]); do 3 eexists; (split; [|reflexivity]); cbn [yx_groups In]; [right; left|right; right; left]; reflexivity.
Qed.
Fact yx_no_log : forall ts a m part id c l, yx_commit ts a m -> ~ names_log_file m part id c l.
Proof.
  intros ts a m part id c l C [stat [base [logs [b [name [W [F [_ [_ [I _]]]]]]]]]].
  apply yx_commits in C as [[_ [_ [_ -> ]]]|[_ [_ -> ]]]; apply yx_md_writes in W as [_ -> ]; eapply yx_md_files in F as [_ [_ -> ]]; try (vm_compute; reflexivity); destruct I.
Qed.
Fact yx_recorded : forall id n d c rows g l, In (id, n, d, c, rows, g) yx_groups -> directory_listing yx_objs wx_names [] l ->
  changes_recorded yx_objs wx_names jx_number jx_collect start hx_t5 "parquet" "" id l (fun _ => []) g.
Proof.
  intros id n d c rows g l I DL.
  assert (BB : map fst (g_bases g) = [c] /\ g_blocks g = []) by (yx_each I; split; reflexivity). destruct BB as [BB B1]. constructor.
  - intros c0 J Ls Le. rewrite BB in J. destruct J as [ <- |[]]. cbn [yx_groups In] in I. destruct I as [[= <- <- <- <- <- <-]|[[= <- <- <- <- <- <-]|[[= <- <- <- <- <- <-]|[]]]].
    + exfalso. destruct S12 as [E|[E|[]]]; rewrite <- E in Ls; discriminate Ls.
    + eexists _, _, _, _. split; [apply yx_commit2; destruct S12 as [E|[E|[]]]; [now symmetry|rewrite <- E in Ls; discriminate Ls]|]. apply yx_md_base; [auto|]. repeat split.
    + eexists _, _, _, _. split; [exact yx_commit5|]. apply yx_md_base; [auto|]. repeat split.
  - rewrite B1. intros c0 x rs fm w vs [].
  - intros ts a m c0 n0 b C N J _. rewrite BB in J. destruct J as [ <- |[]]. apply (yx_base _ _ _ _ _ _ _ C) in N as [_ [d' [rows' [g' [I' _]]]]]. destruct (yx_one _ _ _ _ _ _ _ _ _ _ _ I I') as [_ [_ [-> _]]]. apply sle_refl.
  - intros ts a m c0 n0 C N. apply (yx_base _ _ _ _ _ _ _ C) in N as [_ [d' [rows' [g' [I' _]]]]]. eexists. split; [exact (yx_base_of l _ _ _ _ _ _ DL I')|reflexivity].
  - intros ts a m c0 x C N. elim (yx_no_log _ _ _ _ _ _ _ C N).
  - intros fm c0 w vs x _ [].
Qed.
Fact yx_changes_written : changes_written yx_objs wx_names jx_number jx_collect start hx_t5 "parquet" false vx_parse vx_code vx_rank yx_rows vx_dfs 2 3 1 0 yx_hist.
Proof.
  split.
  - intros ts a m part id c n C N. apply (yx_base _ _ _ _ _ _ _ C) in N as [ -> [d [rows [g [I _]]]]]. apply yx_has. split; [reflexivity|]. eauto.
  - intros [pt id] c H. apply yx_has in H as [E [n [d [rows [g I]]]]]. cbn [fst snd] in *. subst pt. exists c, (fun _ => []). rewrite (yx_hist_is _ _ _ _ _ _ I). split; [eapply yx_histories; eauto|]. split; [|split].
    + intros x r J. yx_each I; cbn in J; repeat (destruct J as [[= <- <-]|J]; [reflexivity|]); destruct J.
    + intros x a y b J1 J2 L _ K. exfalso. yx_each I; cbn in J1, J2; repeat (destruct J1 as [[= <- <-]|J1]; [repeat (destruct J2 as [[= <- <-]|J2]; [first [discriminate L|discriminate K]|]); destruct J2|]); destruct J1.
    + intros dir l content OP DL CO. split; [exact (yx_written_out _ _ _ _ _ _ I dir l content OP DL CO)|]. destruct OP as [_ [_ ED]]. subst dir. eapply yx_recorded; eauto.
Qed.
Fact yx_unique : one_stat_each yx_objs wx_names jx_number jx_collect start hx_t5.
Proof. intros ts a m C. apply yx_commits in C as [[_ [_ [_ -> ]]]|[_ [_ -> ]]]; intros p s1 s2 id W1 W2 _ _; apply yx_md_writes in W1 as [_ -> ]; apply yx_md_writes in W2 as [_ -> ]; reflexivity. Qed.
Fact yx_fine : forall id n more, (id, n) = ("h", yx_h) \/ (id, n) = ("n", yx_n) -> writes_fine (yx_md id n more).
Proof.
  intros id n more K. eexists. split; [reflexivity|]. intros p v [[= <- <-]|[]]. eexists. split; [reflexivity|]. intros stat [ <- |[]]. exists id, n, []. destruct K as [[= -> ->]|[= -> ->]];
    (eexists; split; [eapply nf_path; try (vm_compute; reflexivity); apply L_Builder.path_file_name_iff; vm_compute; reflexivity|]; split; [vm_compute; reflexivity|]; intros x []).
Qed.
Fact yx_commits_in_order : commits_in_order yx_objs wx_names jx_number jx_collect start hx_t5.
Proof.
  split.
  - intros ts a o F T L1 L2. remember (timeline_name ts a Completed) as n eqn:E. apply (cx_name n ts a) in E; [|now apply timestamp_dot].
    apply yx_timeline in F as [ -> |[ -> |[[ -> D]|[ -> D]]]]; vm_compute in E; injection E as E1 E2; subst ts; destruct a; try discriminate E2.
    + exfalso. destruct S12 as [ <- |[ <- |[]]]; vm_compute in L1; discriminate L1.
    + rewrite D. exists yx_md2. split; [exact (proj1 yx_texts)|]. split; [apply yx_fine; auto|discriminate].
    + rewrite D. exists yx_md5. split; [exact (proj2 yx_texts)|]. split; [apply yx_fine; auto|]. intros _. eexists. split; [reflexivity|]. intros p v [[= <- <-]|[]]. exists ["r"; "h"]. reflexivity.
  - intros ts a m ts' a' m' part id c n n' C C' N N'. apply (yx_base _ _ _ _ _ _ _ C) in N as [_ [d [rows [g [I _]]]]]. apply (yx_base _ _ _ _ _ _ _ C') in N' as [_ [d' [rows' [g' [I' _]]]]].
    symmetry. exact (proj1 (yx_one _ _ _ _ _ _ _ _ _ _ _ I I')).
Qed.
Fact yx_changed : forall g, changed_group yx_objs wx_names jx_number jx_collect start hx_t5 g <-> g = ("", "n").
Proof.
  intros [pt id]. split.
  - intros [[ts [a [m [c [n [C [N _]]]]]]] NR]. apply (yx_base _ _ _ _ _ _ _ C) in N as [E [d [rows [g [I _]]]]]. cbn [fst snd] in *. subst pt.
    assert (R : forall x, In x ["r"; "h"] -> replaced_between yx_objs wx_names jx_number jx_collect start hx_t5 ("", x))
      by (intros x J; exists hx_t5, yx_md5; split; [exact yx_commit5|]; eexists _, _; split; [reflexivity|]; split; [now left|]; cbn in J |- *; destruct J as [ <- |[ <- |[]]]; tauto).
    yx_each I; [elim NR; apply R; cbn; tauto|elim NR; apply R; cbn; tauto|reflexivity].
  - intros [= -> ->]. split.
    + eexists _, _, _, hx_t5, yx_n. split; [exact yx_commit5|]. split; [apply yx_md_base; [auto|]; repeat split|discriminate].
    + intros [ts [m [C [obj [ids [E [I1 I2]]]]]]]. apply yx_commits in C as [[_ [_ [X _]]]|[_ [_ -> ]]]; [discriminate X|]. injection E as <-. destruct I1 as [[= <-]|[]]. destruct I2 as [I2|[I2|[]]]; discriminate I2.
Qed.
End Window.
