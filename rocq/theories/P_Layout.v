(** C58 without its condition on failed writes, and C56 without its condition on write stats. *)
From Coq Require Import Sorted.
From Verif Require Import Base Str M_Time M_Instant M_Timeline M_FileGroup M_Builder M_Listing M_Expr M_Log M_Config M_Reader M_Table
  S_Time S_Timeline S_FileGroup S_Builder S_Listing S_Expr S_Log S_Reader S_Config S_Table S_History L_Str L_Reader L_Tree E_History.
Local Open Scope string_scope.

(** The versions of the table of the examples up to the third time, in base files only; no write fails. *)
Definition yx_base2 := new_meta "f_0-0-1_20250102000000000.parquet" 10.
Definition yx_listed : list file_meta := [hx_base1; yx_base2].
Definition yx_group : group :=
  {| g_versions := [(hx_t1, hx_a1); (hx_t1, hx_b1); (hx_t2, hx_a2)]; g_bases := [(hx_t1, [hx_a1; hx_b1]); (hx_t2, [hx_a2; hx_b1])];
     g_blocks := []; g_failed := []; g_rollbacks := [] |}.
Definition yx_json (path : string) : outcome (list (string * json)) :=
  if String.eqb path ".hoodie/20250101000000000.commit" then Ok (hx_md (fm_name hx_base1) [])
  else if String.eqb path ".hoodie/20250102000000000.commit" then Ok (hx_md (fm_name yx_base2) [])
  else Err EStorage.
Definition yx_store : store unit :=
  {| st_json := yx_json; st_schema := fun _ => Ok [("ts", tt)];
     st_files := fun p => if String.eqb p "" then Ok yx_listed else Err EStorage; st_dirs := tree_dirs (Dir yx_listed []);
     st_meta := fun p => Ok {| fm_name := p; fm_size := 1; fm_byte_size := 1; fm_num_records := 1; fm_populated := true |};
     st_parquet := fun p => if String.eqb p (fm_name hx_base1) then Ok (hx_batch [hx_a1; hx_b1]) else if String.eqb p (fm_name yx_base2) then Ok (hx_batch [hx_a2; hx_b1]) else Err EStorage;
     st_bytes := fun _ => Err EStorage; st_open := fun _ _ => Ok tt |}.
Definition yx_table : table :=
  {| t_configs := t_configs hx_table; t_storage := [];
     t_commits := [{| i_timestamp := hx_t1; i_action := Commit; i_state := Completed; i_epoch := 1735689600000 |}; {| i_timestamp := hx_t2; i_action := Commit; i_state := Completed; i_epoch := 1735776000000 |}] |}.
Fact yx_history : history 2 3 1 hx_t2 yx_group.
Proof.
  eapply (h_write _ _ _ hx_t1); [|apply hx_stamp; cbn; tauto|reflexivity|apply (w_commit 2 3 1 hx_group1 hx_t2 [hx_a2] [hx_a2; hx_b1])].
  - eapply h_write; [apply h_new|apply hx_stamp; cbn; tauto|reflexivity|]. apply (w_commit 2 3 1 new_group_history hx_t1 [hx_a1; hx_b1] [hx_a1; hx_b1]). split; [|split].
    + cbn. repeat constructor; cbn; intuition discriminate.
    + intros r I. exists r. auto.
    + intros r I. split; [exact I|]. destruct I as [ <- |[ <- |[]]]; hx_newer.
  - split; [|split].
    + cbn. repeat constructor; cbn; intuition discriminate.
    + intros r I. cbn in I. destruct I as [ <- |[ <- |[ <- |[]]]]; [exists hx_a2|exists hx_b1|exists hx_a2]; cbn; auto.
    + intros r I. split; [cbn in *; tauto|]. cbn [g_versions hx_group1 map snd app]. destruct I as [ <- |[ <- |[]]]; hx_newer.
Qed.
Fact yx_bases : forall m b, base_listed "parquet" yx_listed m b -> bf_file_id b = "f" /\ base_file_name b = fm_name m /\ (m = hx_base1 /\ bf_commit b = hx_t1 \/ m = yx_base2 /\ bf_commit b = hx_t2).
Proof.
  intros m b [I [_ [Bn P]]]. destruct I as [ <- |[ <- |[]]]; vm_compute in P; try discriminate; injection P as <-; split; try reflexivity; split; try reflexivity; auto.
Qed.
Fact yx_base_is : forall m b, In (m, b) [(hx_base1, hx_t1); (yx_base2, hx_t2)] -> base_of "parquet" "f" yx_listed m b.
Proof.
  intros m b [[= <- <-]|[[= <- <-]|[]]]; (eexists; split; [split; [cbn; tauto|split; [|split; [first [now exists "f_0-0-0_20250101000000000"|now exists "f_0-0-1_20250102000000000"]|reflexivity]]]|split; reflexivity]);
    (intros [[r E]|[r E]]; [discriminate E|apply (f_equal (fun s => ends_with ".crc" s)) in E; rewrite (proj2 (ends_with_spec ".crc" (r ++ ".crc")) (ex_intro _ r eq_refl)) in E; discriminate E]).
Qed.
Fact yx_logs : forall m l, ~ log_listed "parquet" yx_listed m l.
Proof. intros m b [I [_ [Bn P]]]. destruct I as [ <- |[ <- |[]]]; vm_compute in P; discriminate. Qed.
Fact yx_log_of : forall m c, ~ log_of "parquet" "f" yx_listed m c.
Proof. intros m c [l [L _]]. exact (yx_logs _ _ L). Qed.
Fact yx_laid_out : laid_out unit unit (fun _ => None) (fun _ _ => None) (fun _ => Ok tt) (fun _ _ => Err EArrow) hx_decode (st_parquet _ yx_store) (st_bytes _ yx_store)
  "parquet" "" "f" hx_sch yx_listed (fun _ => []) yx_group.
Proof.
  constructor.
  - split; intros r; [destruct r; discriminate|discriminate].
  - intros m b B _. now apply yx_bases in B as [_ [B _]].
  - intros c. cbn [yx_group g_bases map fst In]. split.
    + intros [ <- |[ <- |[]]]; [exists hx_base1|exists yx_base2]; apply yx_base_is; cbn; auto.
    + intros [m [b [B [_ <-]]]]. apply yx_bases in B as [_ [_ [[_ -> ]|[_ -> ]]]]; auto.
  - intros m c rows [b [B [_ <-]]] I. apply yx_bases in B as [_ [_ [[ -> E]|[ -> E]]]]; rewrite E in I; cbn in I; destruct I as [I|[I|[]]]; try discriminate; injection I as <-; reflexivity.
  - intros x r I. cbn in I. destruct I as [[= <- <-]|[[= <- <-]|[[= <- <-]|[]]]]; repeat constructor; cbn; discriminate.
  - intros m1 l1 m2 l2 L1. elim (yx_logs _ _ L1).
  - intros m c L. elim (yx_log_of _ _ L).
  - intros c x r. split; [intros [rows [[] _]]|]. intros [m [w [bs [L _]]]]. elim (yx_log_of _ _ L).
  - intros c y x. split; [intros []|]. intros [m [w [bs [L _]]]]. elim (yx_log_of _ _ L).
Qed.

(** C58 is false between a failed write and its rollback: two tables have the same versions up to [t], and a row that the
    failed write left is in the answer of one of them only. *)
Theorem C58_failed_write_refuted : exists (st st' : store unit) tb tb' now g now' g' listed listed' contents contents' t c c' rows rows' row,
  let lays := laid_out unit unit (fun _ => None) (fun _ _ => None) (fun _ => Ok tt) (fun _ _ => Err EArrow) hx_decode in
  let reads st tb c rows := read_snapshot_as_of unit string (fun _ s => Some s) (fun a b => Some (scmp a b)) unit unit (fun _ => None) (fun _ _ => None) (fun _ => Ok tt)
       (fun _ _ => Err EArrow) hx_decode hx_local st tb t [] [] c (Ok [hx_batch rows]) in
  merging_table tb hx_sch 3 1 2 /\ merging_table tb' hx_sch 3 1 2 /\ history 2 3 1 now g /\ history 2 3 1 now' g' /\ timestamp t
  /\ st_files _ st "" = Ok listed /\ lays (st_parquet _ st) (st_bytes _ st) "parquet" "" "f" hx_sch listed contents g
  /\ st_files _ st' "" = Ok listed' /\ lays (st_parquet _ st') (st_bytes _ st') "parquet" "" "f" hx_sch listed' contents' g'
  /\ same_versions t g g' /\ distinct_versions 2 3 1 g t
  /\ reads st tb c rows /\ reads st' tb' c' rows' /\ In row rows /\ ~ In row rows'.
Proof.
  assert (R : exists c', read_snapshot_as_of unit string (fun _ s => Some s) (fun a b => Some (scmp a b)) unit unit (fun _ => None) (fun _ _ => None) (fun _ => Ok tt)
       (fun _ _ => Err EArrow) hx_decode hx_local yx_store yx_table hx_t3 [] [] c' (Ok [hx_batch [hx_a2; hx_b1]])) by hx_read.
  destruct R as [c' R]. destruct hx_read3 as [c R3].
  exists hx_store, yx_store, hx_table, yx_table, hx_t6, hx_group, hx_t2, yx_group, hx_listed, yx_listed, hx_contents, (fun _ => []), hx_t3, c, c', [hx_a3; hx_b1], [hx_a2; hx_b1], hx_a3.
  cbv zeta. split; [exact hx_merging|]. split; [destruct hx_merging; constructor; assumption|]. split; [exact hx_history|]. split; [exact yx_history|]. split; [apply hx_stamp; cbn; tauto|].
  split; [reflexivity|]. split; [exact hx_laid_out|]. split; [reflexivity|]. split; [exact yx_laid_out|]. split; [|split; [|split; [exact R3|split; [exact R|split; [now left|]]]]].
  - intros x r L. cbn. split; [|tauto]. intros [H|[H|[H|[H|[]]]]]; auto. injection H as <- <-. now elim L.
  - intros x a y b Ia Ib La Lb K P _. cbn in Ia, Ib.
    destruct Ia as [[= <- <-]|[[= <- <-]|[[= <- <-]|[[= <- <-]|[]]]]]; destruct Ib as [[= <- <-]|[[= <- <-]|[[= <- <-]|[[= <- <-]|[]]]]]; try reflexivity; try discriminate K; discriminate P.
  - intros [E|[E|[]]]; discriminate E.
Qed.
Print Assumptions C58_failed_write_refuted.

(** C56 without its condition on write stats: a commit that names two log files of one base file in two write stats, one
    for each, as a writer with several log writers does; the second log file is in no slice. *)
Definition yx_stat (log : string) : json := JObj [("fileId", JStr "a"); ("path", JStr "p/a_0_20250102000000000.parquet"); ("baseFile", JStr "a_0_20250102000000000.parquet"); ("logFiles", JArr [JStr log])].
Definition yx_md : list (string * json) := [("partitionToWriteStats", JObj [("p", JArr [yx_stat ".a_20250102000000000.log.1_0"; yx_stat ".a_20250102000000000.log.2_0"])])].
Definition yx_two : store unit :=
  {| st_json := fun p => if String.eqb p ".hoodie/20250102000000000.commit" then Ok yx_md else yx_json p; st_schema := st_schema _ yx_store; st_files := st_files _ yx_store; st_dirs := st_dirs _ yx_store;
     st_meta := st_meta _ yx_store; st_parquet := st_parquet _ yx_store; st_bytes := st_bytes _ yx_store; st_open := st_open _ yx_store |}.
Theorem C56_shared_id_refuted : exists (st : store unit) tb start i md ss,
  StronglySorted instant_le (t_commits tb) /\ In i (t_commits tb) /\ slt start (i_timestamp i) /\ st_json _ st (".hoodie/" ++ file_name i) = Ok md
  /\ names_base md "p" "a" hx_t2 "a_0_20250102000000000.parquet" /\ names_log md "p" "a" hx_t2 "2" "0"
  /\ get_file_slices_between unit hx_local st tb (fun _ l => l) (Some start) None = Ok ss
  /\ map (fun s => (fs_partition s, base_file_name (fs_base s), map log_file_name (fs_logs s))) ss = [("p", "a_0_20250102000000000.parquet", [".a_20250102000000000.log.1_0"])].
Proof.
  exists yx_two, yx_table, hx_t1, {| i_timestamp := hx_t2; i_action := Commit; i_state := Completed; i_epoch := 1735776000000 |}, yx_md. eexists.
  split; [repeat constructor; unfold instant_le; cbn; discriminate|]. split; [right; now left|]. split; [reflexivity|]. split; [reflexivity|].
  assert (W : forall l, In l [".a_20250102000000000.log.1_0"; ".a_20250102000000000.log.2_0"] -> writes yx_md "p" (yx_stat l)).
  { intros l I. eexists. eexists. split; [reflexivity|]. split; [now left|]. destruct I as [ <- |[ <- |[]]]; [now left|right; now left]. }
  split; [|split; [|split; vm_compute; reflexivity]].
  - exists (yx_stat ".a_20250102000000000.log.1_0"), "a_0_20250102000000000.parquet", [".a_20250102000000000.log.1_0"]. eexists.
    split; [apply W; now left|]. split; [apply nf_delta; reflexivity|]. split; [vm_compute; reflexivity|]. split; reflexivity.
  - exists (yx_stat ".a_20250102000000000.log.2_0"), "a_0_20250102000000000.parquet", [".a_20250102000000000.log.2_0"]. eexists. exists ".a_20250102000000000.log.2_0". eexists.
    split; [apply W; right; now left|]. split; [apply nf_delta; reflexivity|]. split; [vm_compute; reflexivity|]. split; [reflexivity|]. split; [now left|]. split; [vm_compute; reflexivity|]. split; reflexivity.
Qed.
Print Assumptions C56_shared_id_refuted.
