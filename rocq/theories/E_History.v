(** A small merge-on-read table for the examples: one file group with a commit, a deltacommit, a failed
    deltacommit that is rolled back, a compaction and another deltacommit. *)
From Coq Require Import Sorted.
From Verif Require Import Base Str M_Time M_Instant M_Timeline M_FileGroup M_Builder M_Listing M_Expr M_Log M_Config M_Reader M_Table
  S_Time S_Timeline S_FileGroup S_Builder S_Listing S_Expr S_Log S_Reader S_Config S_Table S_History L_Str L_Reader L_Tree.
Local Open Scope string_scope.

Definition hx_sch : list field :=
  [{| f_name := "_hoodie_commit_time"; f_type := TUtf8; f_null := true |}; {| f_name := "_hoodie_commit_seqno"; f_type := TUtf8; f_null := true |};
   {| f_name := "_hoodie_record_key"; f_type := TUtf8; f_null := true |}; {| f_name := "ts"; f_type := TInt; f_null := true |}].
Definition hx_t1 := "20250101000000000".
Definition hx_t2 := "20250102000000000".
Definition hx_t3 := "20250103000000000".
Definition hx_t4 := "20250104000000000".
Definition hx_t5 := "20250105000000000".
Definition hx_t6 := "20250106000000000".
Definition hx_row (t s k : string) (ts : Z) : list cell := [VText t; VText s; VText k; VInt ts].
Definition hx_a1 := hx_row hx_t1 "1" "a" 1.
Definition hx_b1 := hx_row hx_t1 "2" "b" 1.
Definition hx_a2 := hx_row hx_t2 "3" "a" 2.
Definition hx_a3 := hx_row hx_t3 "4" "a" 3.
Definition hx_b6 := hx_row hx_t6 "5" "b" 6.

Definition hx_day (d : Z) : civil := {| c_year := 2025; c_month := 1; c_day := d; c_hour := 0; c_min := 0; c_sec := 0; c_ms := Some 0%Z |}.
Fact hx_valid : forall d, (1 <= d <= 31)%Z -> valid_civil (hx_day d).
Proof.
  intros d H. unfold valid_civil, hx_day. cbn. repeat split; try lia. exists 31%Z. split; [|exact H]. apply ml31. now left.
Qed.
Fact hx_stamp : forall t, In t [hx_t1; hx_t2; hx_t3; hx_t4; hx_t5; hx_t6] -> timestamp t.
Proof.
  intros t I. cbn in I. repeat (destruct I as [ <- |I]; [|]); [exists (hx_day 1)|exists (hx_day 2)|exists (hx_day 3)|exists (hx_day 4)|exists (hx_day 5)|exists (hx_day 6)|destruct I];
    (split; [apply hx_valid; lia|split; [discriminate|reflexivity]]).
Qed.

(** The history. *)
Definition hx_group1 : group := {| g_versions := [(hx_t1, hx_a1); (hx_t1, hx_b1)]; g_bases := [(hx_t1, [hx_a1; hx_b1])]; g_blocks := []; g_failed := []; g_rollbacks := [] |}.
Definition hx_group4 : group :=
  {| g_versions := [(hx_t1, hx_a1); (hx_t1, hx_b1); (hx_t2, hx_a2)]; g_bases := [(hx_t1, [hx_a1; hx_b1])];
     g_blocks := [(hx_t1, hx_t2, [hx_a2]); (hx_t1, hx_t3, [hx_a3])]; g_failed := [hx_t3]; g_rollbacks := [(hx_t1, hx_t4, hx_t3)] |}.
Definition hx_group : group :=
  {| g_versions := [(hx_t1, hx_a1); (hx_t1, hx_b1); (hx_t2, hx_a2); (hx_t6, hx_b6)]; g_bases := [(hx_t1, [hx_a1; hx_b1]); (hx_t5, [hx_a2; hx_b1])];
     g_blocks := [(hx_t1, hx_t2, [hx_a2]); (hx_t1, hx_t3, [hx_a3]); (hx_t5, hx_t6, [hx_b6])]; g_failed := [hx_t3]; g_rollbacks := [(hx_t1, hx_t4, hx_t3)] |}.
Fact hx_not_newer : forall t1 s1 k1 a t2 s2 k2 b, (a < b)%Z \/ a = b /\ sle s1 s2 -> ~ newer 3 1 (hx_row t1 s1 k1 a) (hx_row t2 s2 k2 b).
Proof.
  intros t1 s1 k1 a t2 s2 k2 b H [N|[N1 N2]]; cbn in *.
  - inversion N; subst; lia.
  - injection N1 as <-. destruct H as [H|[_ H]]; [lia|]. inversion N2 as [| | | |? ? L|]; subst. now apply slt_not_sle in L.
Qed.
Ltac hx_newer := intros r' I' E; cbn in I'; repeat (destruct I' as [ <- |I']; [try discriminate E; apply hx_not_newer; first [left; lia|right; split; [reflexivity|discriminate]]|]); destruct I'.
Fact hx_history4 : history 2 3 1 hx_t4 hx_group4.
Proof.
  assert (H1 : history 2 3 1 hx_t1 hx_group1).
  { eapply h_write; [apply h_new|apply hx_stamp; cbn; tauto|reflexivity|]. apply (w_commit 2 3 1 new_group_history hx_t1 [hx_a1; hx_b1] [hx_a1; hx_b1]). split; [|split].
    - cbn. repeat constructor; cbn; intuition discriminate.
    - intros r I. exists r. auto.
    - intros r I. split; [exact I|]. destruct I as [ <- |[ <- |[]]]; hx_newer. }
  eapply (h_write _ _ _ hx_t3); [|apply hx_stamp; cbn; tauto| |apply (w_rollback 2 3 1 {| g_versions := g_versions hx_group4; g_bases := g_bases hx_group4; g_blocks := g_blocks hx_group4; g_failed := [hx_t3]; g_rollbacks := [] |} hx_t4 hx_t3 hx_t1 [hx_a3])].
  2: reflexivity. 2: now left. 2: right; now left.
  eapply (h_write _ _ _ hx_t2); [|apply hx_stamp; cbn; tauto| |apply (w_fail 2 3 1 {| g_versions := g_versions hx_group4; g_bases := g_bases hx_group4; g_blocks := [(hx_t1, hx_t2, [hx_a2])]; g_failed := []; g_rollbacks := [] |} hx_t3 hx_t1 [hx_a3])].
  2: reflexivity. 2: { split; [now left|]. intros c [ <- |[]]. apply sle_refl. }
  eapply h_write; [exact H1|apply hx_stamp; cbn; tauto| |apply (w_delta 2 3 1 hx_group1 hx_t2 hx_t1 [hx_a2])]; [reflexivity|].
  split; [now left|]. intros c [ <- |[]]. apply sle_refl.
Qed.
Fact hx_continues : continues 2 3 1 hx_t4 hx_group4 hx_t6 hx_group.
Proof.
  eapply (c_write _ _ _ _ _ hx_t5); [|apply hx_stamp; cbn; tauto| |apply (w_delta 2 3 1 {| g_versions := g_versions hx_group4; g_bases := g_bases hx_group; g_blocks := g_blocks hx_group4; g_failed := [hx_t3]; g_rollbacks := g_rollbacks hx_group4 |} hx_t6 hx_t5 [hx_b6])].
  2: reflexivity. 2: { split; [right; now left|]. intros c [ <- |[ <- |[]]]; [discriminate|apply sle_refl]. }
  eapply c_write; [apply c_same|apply hx_stamp; cbn; tauto|reflexivity|apply (w_compact 2 3 1 hx_group4 hx_t5 [hx_a2; hx_b1])].
  split; [|split].
  - cbn. repeat constructor; cbn; intuition discriminate.
  - intros r I. cbn in I. destruct I as [ <- |[ <- |[ <- |[]]]]; [exists hx_a2|exists hx_b1|exists hx_a2]; cbn; auto.
  - intros r I. split; [cbn in *; tauto|]. cbn [g_versions hx_group4 map snd]. destruct I as [ <- |[ <- |[]]]; hx_newer.
Qed.
Fact hx_history : history 2 3 1 hx_t6 hx_group.
Proof. assert (A := hx_history4). assert (B := hx_continues). clear - A B. induction B as [|now' g' x g'' C IH T Lt W]; [exact A|]. eapply h_write; eauto. Qed.

(** Its files. *)
Definition hx_base1 := new_meta "f_0-0-0_20250101000000000.parquet" 10.
Definition hx_base5 := new_meta "f_0-0-1_20250105000000000.parquet" 10.
Definition hx_log1 := new_meta ".f_20250101000000000.log.1_0-0-0" 10.
Definition hx_log5 := new_meta ".f_20250105000000000.log.1_0-0-0" 10.
Definition hx_listed : list file_meta := [hx_base1; hx_base5; hx_log1; hx_log5].
Definition hx_batch (rows : list (list cell)) : record_batch := {| rb_fields := hx_sch; rb_rows := rows |}.
Definition hx_decode (s : string) : option (list record_batch) :=
  if String.eqb s "a2" then Some [hx_batch [hx_a2]] else if String.eqb s "a3" then Some [hx_batch [hx_a3]] else if String.eqb s "b6" then Some [hx_batch [hx_b6]] else None.
Definition hx_data (t b : string) : wblock := {| w_version := V1; w_header := [(InstantTime, t)]; w_content := CParquet b; w_footer := [] |}.
Definition hx_undo (t target : string) : wblock :=
  {| w_version := V1; w_header := [(InstantTime, t); (TargetInstantTime, target); (CommandBlockType, "0")]; w_content := CCommand; w_footer := [] |}.
Definition hx_contents (name : string) : list (wblock * list record_batch) :=
  if String.eqb name (fm_name hx_log1) then [(hx_data hx_t2 "a2", [hx_batch [hx_a2]]); (hx_data hx_t3 "a3", [hx_batch [hx_a3]]); (hx_undo hx_t4 hx_t3, [])]
  else if String.eqb name (fm_name hx_log5) then [(hx_data hx_t6 "b6", [hx_batch [hx_b6]])] else [].
Definition hx_md (base : string) (logs : list string) : list (string * json) :=
  [("partitionToWriteStats", JObj [("", JArr [JObj [("fileId", JStr "f"); ("path", JStr base); ("baseFile", JStr base); ("logFiles", JArr (map JStr logs))]])])].
Definition hx_json (path : string) : outcome (list (string * json)) :=
  if String.eqb path ".hoodie/20250101000000000.commit" then Ok (hx_md (fm_name hx_base1) [])
  else if String.eqb path ".hoodie/20250102000000000.deltacommit" then Ok (hx_md (fm_name hx_base1) [fm_name hx_log1])
  else if String.eqb path ".hoodie/20250105000000000.commit" then Ok (hx_md (fm_name hx_base5) [])
  else if String.eqb path ".hoodie/20250106000000000.deltacommit" then Ok (hx_md (fm_name hx_base5) [fm_name hx_log5])
  else Err EStorage.
Definition hx_store : store unit :=
  {| st_json := hx_json; st_schema := fun _ => Ok [("ts", tt)];
     st_files := fun p => if String.eqb p "" then Ok hx_listed else Err EStorage; st_dirs := tree_dirs (Dir hx_listed []);
     st_meta := fun p => Ok {| fm_name := p; fm_size := 1; fm_byte_size := 1; fm_num_records := 1; fm_populated := true |};
     st_parquet := fun p => if String.eqb p (fm_name hx_base1) then Ok (hx_batch [hx_a1; hx_b1]) else if String.eqb p (fm_name hx_base5) then Ok (hx_batch [hx_a2; hx_b1]) else Err EStorage;
     st_bytes := fun p => if String.eqb p (fm_name hx_log1) then Ok (put_log (map fst (hx_contents (fm_name hx_log1))))
                          else if String.eqb p (fm_name hx_log5) then Ok (put_log (map fst (hx_contents (fm_name hx_log5)))) else Err EStorage;
     st_open := fun _ _ => Ok tt |}.
Definition hx_table : table :=
  {| t_configs := [("hoodie.table.precombine.field", "ts"); ("hoodie.datasource.write.hive_style_partitioning", "false"); ("hoodie.datasource.write.partitionpath.urlencode", "false")];
     t_storage := []; t_commits := [{| i_timestamp := hx_t1; i_action := Commit; i_state := Completed; i_epoch := 1735689600000 |}; {| i_timestamp := hx_t2; i_action := DeltaCommit; i_state := Completed; i_epoch := 1735776000000 |};
       {| i_timestamp := hx_t5; i_action := Commit; i_state := Completed; i_epoch := 1736035200000 |}; {| i_timestamp := hx_t6; i_action := DeltaCommit; i_state := Completed; i_epoch := 1736121600000 |}] |}.
Definition hx_local (d : ndt) : option ndt := Some d.

Fact hx_bases : forall m b, base_listed "parquet" hx_listed m b -> bf_file_id b = "f" /\ base_file_name b = fm_name m /\ (m = hx_base1 /\ bf_commit b = hx_t1 \/ m = hx_base5 /\ bf_commit b = hx_t5).
Proof.
  intros m b [I [_ [Bn P]]]. unfold hx_listed in I. destruct I as [ <- |[ <- |[ <- |[ <- |[]]]]]; vm_compute in P; try discriminate; injection P as <-; split; try reflexivity; split; try reflexivity; auto.
Qed.
Fact hx_base_is : forall m b, In (m, b) [(hx_base1, hx_t1); (hx_base5, hx_t5)] -> base_of "parquet" "f" hx_listed m b.
Proof.
  intros m b [[= <- <-]|[[= <- <-]|[]]]; (eexists; split; [split; [cbn; tauto|split; [|split; [first [now exists "f_0-0-0_20250101000000000"|now exists "f_0-0-1_20250105000000000"]|reflexivity]]]|split; reflexivity]);
    (intros [[r E]|[r E]]; [discriminate E|apply (f_equal (fun s => ends_with ".crc" s)) in E; rewrite (proj2 (ends_with_spec ".crc" (r ++ ".crc")) (ex_intro _ r eq_refl)) in E; discriminate E]).
Qed.
Fact hx_logs : forall m l, log_listed "parquet" hx_listed m l -> lf_file_id l = "f" /\ (m = hx_log1 /\ lf_base_commit l = hx_t1 \/ m = hx_log5 /\ lf_base_commit l = hx_t5).
Proof.
  intros m b [I [_ [Bn P]]]. unfold hx_listed in I. destruct I as [ <- |[ <- |[ <- |[ <- |[]]]]]; vm_compute in P; try discriminate; injection P as <-; split; try reflexivity; auto.
Qed.
Fact hx_log_is : forall m b, In (m, b) [(hx_log1, hx_t1); (hx_log5, hx_t5)] -> log_of "parquet" "f" hx_listed m b.
Proof.
  intros m b [[= <- <-]|[[= <- <-]|[]]]; (eexists; split; [split; [cbn; tauto|split; [|split; [|reflexivity]]]|split; reflexivity]);
   try (intros [[r E]|[r E]]; [discriminate E|apply (f_equal (fun s => ends_with ".crc" s)) in E; rewrite (proj2 (ends_with_spec ".crc" (r ++ ".crc")) (ex_intro _ r eq_refl)) in E; discriminate E]);
   (intros [r E]; apply (f_equal (fun s => ends_with ".parquet" s)) in E; change ("." ++ "parquet") with ".parquet" in E; rewrite (proj2 (ends_with_spec ".parquet" (r ++ ".parquet")) (ex_intro _ r eq_refl)) in E; discriminate E).
Qed.
Fact hx_log_of : forall m c, log_of "parquet" "f" hx_listed m c -> m = hx_log1 /\ c = hx_t1 \/ m = hx_log5 /\ c = hx_t5.
Proof. intros m c [l [L1 [_ <-]]]. apply hx_logs in L1 as [_ L1]. exact L1. Qed.
Definition hx_lays := laid_out unit unit (fun _ => None) (fun _ _ => None) (fun _ => Ok tt) (fun _ _ => Err EArrow) hx_decode (st_parquet _ hx_store) (st_bytes _ hx_store).
Fact hx_data_wf : forall t b bs, In t [hx_t1; hx_t2; hx_t3; hx_t4; hx_t5; hx_t6] -> hx_decode b = Some bs -> (len b < 2 ^ 64)%N ->
  wf_block unit unit record_batch (fun _ => None) (fun _ _ => None) (fun _ => Ok tt) (fun _ _ => Err EArrow) hx_decode (hx_data t b) bs.
Proof.
  intros t b bs T D L. split; cbn [hx_data w_version w_header w_content w_footer put_content].
  - discriminate.
  - split; [repeat constructor; intros []|]. intros k v [E|[]]. injection E as <- <-. repeat (destruct T as [ <- |T]; [split; reflexivity|]). destruct T.
  - split; [split; [constructor|intros k v []]|]. intros N. now elim N.
  - exists t. now left.
  - exact L.
  - discriminate.
  - now apply holds_parquet.
Qed.
Ltac hx_rows := split; [reflexivity|]; repeat constructor; cbn; try discriminate.
Fact hx_laid_out : hx_lays "parquet" "" "f" hx_sch hx_listed hx_contents hx_group.
Proof.
  constructor.
  - split; intros r; [destruct r; discriminate|discriminate].
  - intros m b B _. now apply hx_bases in B as [_ [B _]].
  - intros c. cbn [hx_group g_bases map fst In]. split.
    + intros [ <- |[ <- |[]]]; [exists hx_base1|exists hx_base5]; apply hx_base_is; cbn; auto.
    + intros [m [b [B [_ <-]]]]. apply hx_bases in B as [_ [_ [[_ -> ]|[_ -> ]]]]; auto.
  - intros m c rows [b [B [_ <-]]] I. apply hx_bases in B as [_ [_ [[ -> E]|[ -> E]]]]; rewrite E in I; cbn in I; destruct I as [I|[I|[]]]; try discriminate; injection I as <-; reflexivity.
  - intros x r I. cbn in I. destruct I as [[= <- <-]|[[= <- <-]|[[= <- <-]|[[= <- <-]|[]]]]]; repeat constructor; cbn; discriminate.
  - intros m1 l1 m2 l2 L1 L2 _ _ E _ _. apply hx_logs in L1 as [_ L1]. apply hx_logs in L2 as [_ L2].
    destruct L1 as [[ -> E1]|[ -> E1]]; destruct L2 as [[ -> E2]|[ -> E2]]; try reflexivity; rewrite E1, E2 in E; discriminate E.
  - intros m c L. apply hx_log_of in L as [[ -> _]|[ -> _]]; (split; [reflexivity|]); intros w bs I.
    + change (hx_contents (fm_name hx_log1)) with [(hx_data hx_t2 "a2", [hx_batch [hx_a2]]); (hx_data hx_t3 "a3", [hx_batch [hx_a3]]); (hx_undo hx_t4 hx_t3, [])] in I.
      destruct I as [[= <- <-]|[[= <- <-]|[[= <- <-]|[]]]].
      * split; [apply hx_data_wf; [cbn; tauto|reflexivity|reflexivity]|]. split; [constructor; [hx_rows|constructor]|]. split; [intros v [=]|]. exists hx_t2. split; [now left|apply hx_stamp; cbn; tauto].
      * split; [apply hx_data_wf; [cbn; tauto|reflexivity|reflexivity]|]. split; [constructor; [hx_rows|constructor]|]. split; [intros v [=]|]. exists hx_t3. split; [now left|apply hx_stamp; cbn; tauto].
      * split; [|split; [constructor|split; [intros v _ _ _; exists hx_t3; right; now left|exists hx_t4; split; [now left|apply hx_stamp; cbn; tauto]]]].
        split; cbn [hx_undo w_version w_header w_content w_footer put_content].
        -- discriminate.
        -- split; [repeat constructor; cbn; intuition discriminate|]. intros k v I. destruct I as [[= <- <-]|[[= <- <-]|[[= <- <-]|[]]]]; split; reflexivity.
        -- split; [split; [constructor|intros k v []]|]. intros N. now elim N.
        -- exists hx_t4. now left.
        -- reflexivity.
        -- discriminate.
        -- constructor.
    + change (hx_contents (fm_name hx_log5)) with [(hx_data hx_t6 "b6", [hx_batch [hx_b6]])] in I. destruct I as [[= <- <-]|[]].
      split; [apply hx_data_wf; [cbn; tauto|reflexivity|reflexivity]|]. split; [constructor; [hx_rows|constructor]|]. split; [intros v [=]|]. exists hx_t6. split; [now left|apply hx_stamp; cbn; tauto].
  - intros c x r. cbn [hx_group g_blocks]. split.
    + intros [rows [I Ir]]. destruct I as [[= <- <- <-]|[[= <- <- <-]|[[= <- <- <-]|[]]]]; destruct Ir as [ <- |[]].
      * exists hx_log1, (hx_data hx_t2 "a2"), [hx_batch [hx_a2]]. split; [apply hx_log_is; now left|]. split; [now left|]. split; now left.
      * exists hx_log1, (hx_data hx_t3 "a3"), [hx_batch [hx_a3]]. split; [apply hx_log_is; now left|]. split; [right; now left|]. split; now left.
      * exists hx_log5, (hx_data hx_t6 "b6"), [hx_batch [hx_b6]]. split; [apply hx_log_is; right; now left|]. split; [now left|]. split; now left.
    + intros [m [w [bs [L [I [A R]]]]]]. apply hx_log_of in L as [[ -> -> ]|[ -> -> ]].
      * change (hx_contents (fm_name hx_log1)) with [(hx_data hx_t2 "a2", [hx_batch [hx_a2]]); (hx_data hx_t3 "a3", [hx_batch [hx_a3]]); (hx_undo hx_t4 hx_t3, [])] in I.
        destruct I as [[= <- <-]|[[= <- <-]|[[= <- <-]|[]]]].
        -- destruct A as [[= <-]|[]]. destruct R as [ <- |[]]. exists [hx_a2]. cbn. auto.
        -- destruct A as [[= <-]|[]]. destruct R as [ <- |[]]. exists [hx_a3]. cbn. auto.
        -- destruct R.
      * change (hx_contents (fm_name hx_log5)) with [(hx_data hx_t6 "b6", [hx_batch [hx_b6]])] in I. destruct I as [[= <- <-]|[]]. destruct A as [[= <-]|[]]. destruct R as [ <- |[]]. exists [hx_b6]. cbn. auto.
  - intros c y x. cbn [hx_group g_rollbacks In]. split.
    + intros [[= <- <- <-]|[]]. exists hx_log1, (hx_undo hx_t4 hx_t3), []. split; [apply hx_log_is; now left|]. split; [right; right; now left|]. split; [now left|]. split; [reflexivity|]. split; [right; now left|]. exists "0". split; [right; right; now left|reflexivity].
    + intros [m [w [bs [L [I [A [R1 [R2 _]]]]]]]]. left. apply hx_log_of in L as [[ -> -> ]|[ -> -> ]].
      * change (hx_contents (fm_name hx_log1)) with [(hx_data hx_t2 "a2", [hx_batch [hx_a2]]); (hx_data hx_t3 "a3", [hx_batch [hx_a3]]); (hx_undo hx_t4 hx_t3, [])] in I.
        destruct I as [[= <- <-]|[[= <- <-]|[[= <- <-]|[]]]]; try discriminate R1.
        destruct A as [[= <-]|[A|[A|[]]]]; try discriminate A. destruct R2 as [R2|[[= <-]|[R2|[]]]]; try discriminate R2. reflexivity.
      * change (hx_contents (fm_name hx_log5)) with [(hx_data hx_t6 "b6", [hx_batch [hx_b6]])] in I. destruct I as [[= <- <-]|[]]. discriminate R1.
Qed.
Fact hx_clean : forall t, In t [hx_t1; hx_t2; hx_t4; hx_t5; hx_t6] -> clean_at hx_group t.
Proof.
  intros t I b x rows Ib If L. destruct If as [ <- |[]]. destruct Ib as [[= <- <-]|[[= <- <-]|[[= <- <-]|[]]]].
  exists hx_t4. split; [now left|]. destruct I as [ <- |[ <- |[ <- |[ <- |[ <- |[]]]]]]; try discriminate; exfalso; apply L; reflexivity.
Qed.
Ltac hx_column := split; [split; [eexists; split; reflexivity|intros j f L E; do 4 (destruct j as [|j]; [first [exfalso; now apply Nat.lt_irrefl in L|cbn in E; injection E as <-; discriminate|exfalso; lia]|]); exfalso; lia]|eexists; split; reflexivity].
Fact hx_merging : merging_table hx_table hx_sch 3 1 2.
Proof.
  constructor; try reflexivity; try discriminate.
  - split; [constructor|intros ? ? ? []].
  - split; [right; split; [intros v [=]|split; discriminate]|]. split; [|split; hx_column]. exists "ts", TInt. split; [reflexivity|]. split; [hx_column|discriminate].
Qed.
Fact hx_sorted : StronglySorted instant_le (t_commits hx_table).
Proof. repeat constructor; cbn; unfold instant_le; cbn; (left; lia) || lia || reflexivity || discriminate. Qed.
Fact hx_wf : wf_tree (Dir hx_listed []).
Proof. constructor; [constructor|intros ? ? []|intros ? ? []]. Qed.

(** The queries as of each write. The failed write is in the result until its rollback (finding). *)
Definition hx_reads (t : string) (rows : list (list cell)) : Prop := exists c',
  read_snapshot_as_of unit string (fun _ s => Some s) (fun a b => Some (scmp a b)) unit unit (fun _ => None) (fun _ _ => None) (fun _ => Ok tt) (fun _ _ => Err EArrow) hx_decode
    hx_local hx_store hx_table t [] [] c' (Ok [hx_batch rows]).
Fact hx_listing : forall files dirs format n order q gs,
  list_file_groups_for_partition files format order EMPTY_PARTITION_PATH = Ok gs -> load_listing files dirs format false n order q (Ok [(EMPTY_PARTITION_PATH, gs)]).
Proof. intros files dirs format n order q gs H. assert (X := ll_unpartitioned files dirs format false n order q eq_refl). rewrite H in X. exact X. Qed.
Ltac hx_read :=
  eexists; eapply ra_ok;
  [eapply ga_ok; [reflexivity|]; eapply sa_view; [reflexivity|reflexivity|reflexivity|reflexivity|];
   eapply vq_ok with (order := fun _ l => l);
   [reflexivity
   |eapply hx_listing; vm_compute; reflexivity
   |reflexivity|vm_compute; reflexivity]
  |eapply rs_read with (iter := fun m => m); [intros m; reflexivity| |];
   [split; [reflexivity|]; apply Forall2_cons; [exists (@isort _), (fun m => m); split; [apply isort_sorts|split; [intros m; reflexivity|vm_compute; reflexivity]]|apply Forall2_nil]
   |exact (jo_ok [hx_batch _])]].
Fact hx_read1 : hx_reads hx_t1 [hx_b1; hx_a1].
Proof. hx_read. Qed.
Fact hx_read2 : hx_reads hx_t2 [hx_a2; hx_b1].
Proof. hx_read. Qed.
Fact hx_read3 : hx_reads hx_t3 [hx_a3; hx_b1].
Proof. hx_read. Qed.
Fact hx_read4 : hx_reads hx_t4 [hx_a2; hx_b1].
Proof. hx_read. Qed.
Fact hx_read5 : hx_reads hx_t5 [hx_a2; hx_b1].
Proof. hx_read. Qed.
Fact hx_read6 : hx_reads hx_t6 [hx_b6; hx_a2].
Proof. hx_read. Qed.
