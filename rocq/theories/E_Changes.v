(** The incremental queries of the table of E_History, and a table with a late event. *)
From Coq Require Import Sorted.
From Verif Require Import Base Str M_Time M_Instant M_Timeline M_FileGroup M_Builder M_Listing M_Expr M_Log M_Config M_Reader M_Table
  S_Time S_Timeline S_FileGroup S_Builder S_Listing S_Expr S_Log S_Reader S_Config S_Table S_History S_Incremental L_Str L_Reader L_Tree L_Time E_History.
Local Open Scope string_scope.

(** ** What the metadata of the commits names *)
Lemma map_jstr : forall a b, map JStr a = map JStr b -> a = b.
Proof. induction a as [|x a IH]; intros [|y b] E; try discriminate; [reflexivity|]. injection E as -> E. f_equal. auto. Qed.
Fact hx_md_writes : forall base logs part stat, writes (hx_md base logs) part stat <-> part = "" /\ stat = JObj [("fileId", JStr "f"); ("path", JStr base); ("baseFile", JStr base); ("logFiles", JArr (map JStr logs))].
Proof.
  intros base logs part stat. split.
  - intros [obj [stats [E [I1 I2]]]]. injection E as <-. destruct I1 as [[= <- <-]|[]]. destruct I2 as [ <- |[]]. auto.
  - intros [ -> -> ]. eexists _, _. split; [unfold hx_md; cbn; reflexivity|]. split; [now left|]. now left.
Qed.
Fact hx_md_files : forall base logs id b' logs', names_files (JObj [("fileId", JStr "f"); ("path", JStr base); ("baseFile", JStr base); ("logFiles", JArr (map JStr logs))]) id b' logs' <-> id = "f" /\ b' = base /\ logs' = logs.
Proof.
  intros base logs id b' logs'. split.
  - intros H. inversion H as [? ? ? E1 E2 E3|? ? ? E1 E2 E3 E4]; subst; [|discriminate E2]. injection E1 as <-. injection E2 as <-. injection E3 as E3. apply map_jstr in E3. auto.
  - intros [ -> [ -> -> ]]. now apply nf_delta.
Qed.
Fact hx_md_base : forall base logs b part id c n, base_file_from_str base = Ok b ->
  (names_base (hx_md base logs) part id c n <-> part = "" /\ id = "f" /\ c = bf_commit b /\ n = base_file_name b).
Proof.
  intros base logs b part id c n Hb. split.
  - intros [stat [b' [l' [b1 [W [F [P [C N]]]]]]]]. apply hx_md_writes in W as [ -> -> ]. apply hx_md_files in F as [ -> [ -> -> ]]. rewrite Hb in P. injection P as <-. auto.
  - intros [ -> [ -> [ -> -> ]]]. exists (JObj [("fileId", JStr "f"); ("path", JStr base); ("baseFile", JStr base); ("logFiles", JArr (map JStr logs))]), base, logs, b. split; [now apply hx_md_writes|]. split; [now apply hx_md_files|]. auto.
Qed.
Fact hx_md_log : forall base logs b part id c l, base_file_from_str base = Ok b ->
  (names_log_file (hx_md base logs) part id c l <-> part = "" /\ id = "f" /\ c = bf_commit b /\ exists name, In name logs /\ log_file_from_str name = Ok l).
Proof.
  intros base logs b part id c l Hb. split.
  - intros [stat [b' [l' [b1 [name [W [F [P [C N]]]]]]]]]. apply hx_md_writes in W as [ -> -> ]. apply hx_md_files in F as [ -> [ -> -> ]]. rewrite Hb in P. injection P as <-. eauto.
  - intros [ -> [ -> [ -> [name [N1 N2]]]]]. exists (JObj [("fileId", JStr "f"); ("path", JStr base); ("baseFile", JStr base); ("logFiles", JArr (map JStr logs))]), base, logs, b, name. split; [now apply hx_md_writes|]. split; [now apply hx_md_files|]. auto.
Qed.
Fact hx_md_unique : forall base logs, unique_stats (hx_md base logs).
Proof. intros base logs p s1 s2 id W1 W2 _ _. apply hx_md_writes in W1 as [_ -> ]. apply hx_md_writes in W2 as [_ -> ]. reflexivity. Qed.

(** ** The incremental queries *)
Definition hx_incremental (st : store unit) (tb : table) (decode : string -> option (list record_batch)) (start : string) (stop : option string) (rows : list (list cell)) : Prop :=
  read_incremental unit unit unit (fun _ => None) (fun _ _ => None) (fun _ => Ok tt) (fun _ _ => Err EArrow) decode hx_local st tb start stop (Ok [hx_batch rows]).
Ltac hx_changes :=
  eapply ri_ok with (order := fun _ l => l);
  [intros n l; reflexivity|reflexivity|vm_compute; reflexivity
  |eapply rs_read with (iter := fun m => m); [intros m; reflexivity| |];
   [split; [reflexivity|]; apply Forall2_cons; [exists (@isort _), (fun m => m); split; [apply isort_sorts|split; [intros m; reflexivity|vm_compute; reflexivity]]|apply Forall2_nil]
   |exact (jo_ok [hx_batch _])]].
Fact hx_changes_12 : hx_incremental hx_store hx_table hx_decode hx_t1 (Some hx_t2) [hx_a2].
Proof. hx_changes. Qed.
Fact hx_changes_13 : hx_incremental hx_store hx_table hx_decode hx_t1 (Some hx_t3) [hx_a3].
Proof. hx_changes. Qed.
Fact hx_changes_14 : hx_incremental hx_store hx_table hx_decode hx_t1 (Some hx_t4) [hx_a2].
Proof. hx_changes. Qed.
Fact hx_changes_16 : hx_incremental hx_store hx_table hx_decode hx_t1 None [hx_b6; hx_a2].
Proof. hx_changes. Qed.
Fact hx_changes_26 : hx_incremental hx_store hx_table hx_decode hx_t2 None [hx_b6].
Proof. hx_changes. Qed.

Fact hx_dated : Forall dated (t_commits hx_table).
Proof.
  assert (D : forall d t, (1 <= d <= 31)%Z -> t = epoch_millis (civil_ndt (hx_day d)) -> denotes_millis (hx_day d) t) by (intros d t H -> ; apply epoch_denotes, hx_valid; exact H).
  repeat constructor; [exists (hx_day 1)|exists (hx_day 2)|exists (hx_day 5)|exists (hx_day 6)];
    (split; [apply hx_valid; lia|split; [discriminate|split; [reflexivity|apply D; [lia|reflexivity]]]]).
Qed.
Fact hx_stamped : stamped 0 hx_group.
Proof. intros x r I. cbn in I. destruct I as [[= <- <-]|[[= <- <-]|[[= <- <-]|[[= <- <-]|[]]]]]; reflexivity. Qed.
Fact hx_later : forall e, later_is_newer 2 3 1 hx_group e.
Proof.
  intros e x a y b Ia Ib L _ E. cbn in Ia, Ib.
  destruct Ia as [[= <- <-]|[[= <- <-]|[[= <- <-]|[[= <- <-]|[]]]]]; destruct Ib as [[= <- <-]|[[= <- <-]|[[= <- <-]|[[= <- <-]|[]]]]]; try discriminate E; try discriminate L;
    left; cbn; constructor; lia.
Qed.
Fact hx_commits : forall start e i md, commit_between (st_json _ hx_store) (t_commits hx_table) start e i md ->
  (i_timestamp i = hx_t1 /\ md = hx_md (fm_name hx_base1) [] \/ i_timestamp i = hx_t2 /\ md = hx_md (fm_name hx_base1) [fm_name hx_log1]
   \/ i_timestamp i = hx_t5 /\ md = hx_md (fm_name hx_base5) [] \/ i_timestamp i = hx_t6 /\ md = hx_md (fm_name hx_base5) [fm_name hx_log5])
  /\ slt start (i_timestamp i) /\ sle (i_timestamp i) e.
Proof.
  intros start e i md [I [_ [S [E R]]]]. split; [|auto]. cbn in I. repeat (destruct I as [ <- |I]; [vm_compute in R; injection R as <-; cbn; tauto|]). destruct I.
Qed.
Fact hx_recorded : forall e, In e [hx_t2; hx_t4; hx_t5; hx_t6] -> recorded (st_json _ hx_store) (t_commits hx_table) "parquet" "" "f" hx_listed hx_contents hx_group hx_t1 e.
Proof.
  intros e He.
  assert (C2 : commit_between (st_json _ hx_store) (t_commits hx_table) hx_t1 e {| i_timestamp := hx_t2; i_action := DeltaCommit; i_state := Completed; i_epoch := 1735776000000 |} (hx_md (fm_name hx_base1) [fm_name hx_log1])).
  { split; [cbn; tauto|]. split; [reflexivity|]. split; [reflexivity|]. split; [|vm_compute; reflexivity]. destruct He as [ <- |[ <- |[ <- |[ <- |[]]]]]; discriminate. }
  assert (C5 : sle hx_t5 e -> commit_between (st_json _ hx_store) (t_commits hx_table) hx_t1 e {| i_timestamp := hx_t5; i_action := Commit; i_state := Completed; i_epoch := 1736035200000 |} (hx_md (fm_name hx_base5) [])).
  { intros L. split; [cbn; tauto|]. split; [reflexivity|]. split; [reflexivity|]. split; [exact L|vm_compute; reflexivity]. }
  assert (C6 : sle hx_t6 e -> commit_between (st_json _ hx_store) (t_commits hx_table) hx_t1 e {| i_timestamp := hx_t6; i_action := DeltaCommit; i_state := Completed; i_epoch := 1736121600000 |} (hx_md (fm_name hx_base5) [fm_name hx_log5])).
  { intros L. split; [cbn; tauto|]. split; [reflexivity|]. split; [reflexivity|]. split; [exact L|vm_compute; reflexivity]. }
  assert (B1 : exists b, base_file_from_str (fm_name hx_base1) = Ok b /\ bf_commit b = hx_t1 /\ base_file_name b = fm_name hx_base1) by (eexists; split; [vm_compute; reflexivity|split; reflexivity]).
  assert (B5 : exists b, base_file_from_str (fm_name hx_base5) = Ok b /\ bf_commit b = hx_t5 /\ base_file_name b = fm_name hx_base5) by (eexists; split; [vm_compute; reflexivity|split; reflexivity]).
  assert (L1 : exists l, log_file_from_str (fm_name hx_log1) = Ok l /\ log_file_name l = fm_name hx_log1) by (eexists; split; [vm_compute; reflexivity|reflexivity]).
  assert (L5 : exists l, log_file_from_str (fm_name hx_log5) = Ok l /\ log_file_name l = fm_name hx_log5) by (eexists; split; [vm_compute; reflexivity|reflexivity]).
  destruct B1 as [b1 [B1 [B1c B1n]]]. destruct B5 as [b5 [B5 [B5c B5n]]]. destruct L1 as [l1 [L1 L1n]]. destruct L5 as [l5 [L5 L5n]].
  assert (NB : forall i md c n, commit_between (st_json _ hx_store) (t_commits hx_table) hx_t1 e i md -> names_base md "" "f" c n ->
    (i_timestamp i = hx_t2 /\ c = hx_t1 /\ n = fm_name hx_base1) \/ ((i_timestamp i = hx_t5 \/ i_timestamp i = hx_t6) /\ c = hx_t5 /\ n = fm_name hx_base5)).
  { intros i md c n C N. apply hx_commits in C as [C [Cs Ce]]. destruct C as [[T -> ]|[[T -> ]|[[T -> ]|[T -> ]]]].
    - rewrite T in Cs. discriminate Cs.
    - apply (hx_md_base _ _ _ _ _ _ _ B1) in N as [_ [_ [ -> -> ]]]. left. auto.
    - apply (hx_md_base _ _ _ _ _ _ _ B5) in N as [_ [_ [ -> -> ]]]. right. auto.
    - apply (hx_md_base _ _ _ _ _ _ _ B5) in N as [_ [_ [ -> -> ]]]. right. auto. }
  assert (NL : forall i md c l, commit_between (st_json _ hx_store) (t_commits hx_table) hx_t1 e i md -> names_log_file md "" "f" c l ->
    c = hx_t1 /\ l = l1 \/ c = hx_t5 /\ l = l5 /\ sle hx_t6 e).
  { intros i md c l C N. apply hx_commits in C as [C [Cs Ce]]. destruct C as [[T -> ]|[[T -> ]|[[T -> ]|[T -> ]]]].
    - rewrite T in Cs. discriminate Cs.
    - apply (hx_md_log _ _ _ _ _ _ _ B1) in N as [_ [_ [ -> [name [[ <- |[]] N]]]]]. rewrite L1 in N. injection N as <-. auto.
    - apply (hx_md_log _ _ _ _ _ _ _ B5) in N as [_ [_ [ -> [name [[] N]]]]].
    - apply (hx_md_log _ _ _ _ _ _ _ B5) in N as [_ [_ [ -> [name [[ <- |[]] N]]]]]. rewrite L5 in N. injection N as <-. rewrite T in Ce. auto. }
  assert (N1 : log_named (st_json _ hx_store) (t_commits hx_table) "" "f" hx_t1 e hx_log1 hx_t1).
  { eexists _, _, l1. split; [exact C2|]. split; [|exact L1n]. apply (hx_md_log _ _ _ _ _ _ _ B1). split; [reflexivity|]. split; [reflexivity|]. split; [now rewrite B1c|]. exists (fm_name hx_log1). split; [now left|exact L1]. }
  constructor.
  - intros c I Ls Le. cbn in I. destruct I as [ <- |[ <- |[]]]; [discriminate Ls|]. eexists _, _, _. split; [exact (C5 Le)|]. apply (hx_md_base _ _ _ _ _ _ _ B5). auto.
  - intros c x rows fm w bs I NF Ls Le Lo Ic A. cbn in I. destruct I as [[= <- <- <-]|[[= <- <- <-]|[[= <- <- <-]|[]]]].
    + apply hx_log_of in Lo as [[ -> _]|[_ E]]; [exact N1|discriminate E].
    + elim NF. now left.
    + apply hx_log_of in Lo as [[_ E]|[ -> _]]; [discriminate E|]. eexists _, _, l5. split; [exact (C6 Le)|]. split; [|exact L5n]. apply (hx_md_log _ _ _ _ _ _ _ B5). split; [reflexivity|]. split; [reflexivity|]. split; [now rewrite B5c|]. exists (fm_name hx_log5). split; [now left|exact L5].
  - intros i md c n b C N I L. destruct (NB _ _ _ _ C N) as [[T [ -> _]]|[T [ -> _]]]; cbn in I; destruct I as [ <- |[ <- |[]]]; try apply sle_refl; [|discriminate]. rewrite T in L. exfalso. now apply L.
  - intros i md c n C N. destruct (NB _ _ _ _ C N) as [[_ [ -> -> ]]|[_ [ -> -> ]]]; [exists hx_base1|exists hx_base5]; (split; [apply hx_base_is; cbn; auto|reflexivity]).
  - intros i md c l C N. destruct (NL _ _ _ _ C N) as [[ -> -> ]|[ -> [ -> _]]]; [exists hx_log1|exists hx_log5]; (split; [apply hx_log_is; cbn; auto|congruence]).
  - intros fm c w bs x [i [md [l [C [N E]]]]] Ic A F Ls Le. cbn in F. destruct F as [ <- |[]]. destruct (NL _ _ _ _ C N) as [[ -> -> ]|[ -> [ -> _]]].
    + exists hx_log1, (hx_undo hx_t4 hx_t3), [], hx_t4. split; [exact N1|]. split; [right; right; now left|]. split; [now left|]. split; [split; [reflexivity|]; split; [right; now left|]; exists "0"; split; [right; right; now left|reflexivity]|].
      split; [reflexivity|]. destruct He as [ <- |[ <- |[ <- |[ <- |[]]]]]; try discriminate. exfalso. now apply Le.
    + rewrite <- E, L5n in Ic. change (hx_contents (fm_name hx_log5)) with [(hx_data hx_t6 "b6", [hx_batch [hx_b6]])] in Ic. destruct Ic as [[= <- <-]|[]]. destruct A as [[=]|[]].
Qed.

(** ** A late event: the deltacommit writes a version older than the one in the base file *)
Definition lx_a1 := hx_row hx_t1 "1" "a" 5.
Definition lx_a2 := hx_row hx_t2 "2" "a" 3.
Definition lx_group : group :=
  {| g_versions := [(hx_t1, lx_a1); (hx_t2, lx_a2)]; g_bases := [(hx_t1, [lx_a1]); (hx_t3, [lx_a1])]; g_blocks := [(hx_t1, hx_t2, [lx_a2])]; g_failed := []; g_rollbacks := [] |}.
Fact lx_history : history 2 3 1 hx_t3 lx_group.
Proof.
  eapply (h_write _ _ _ hx_t2); [|apply hx_stamp; cbn; tauto|reflexivity|apply (w_compact 2 3 1 {| g_versions := g_versions lx_group; g_bases := [(hx_t1, [lx_a1])]; g_blocks := g_blocks lx_group; g_failed := []; g_rollbacks := [] |} hx_t3 [lx_a1])].
  2: { split; [|split].
    - cbn. repeat constructor; cbn; intuition discriminate.
    - intros r I. cbn in I. destruct I as [ <- |[ <- |[]]]; exists lx_a1; cbn; auto.
    - intros r I. split; [cbn in *; tauto|]. cbn [g_versions lx_group map snd]. destruct I as [ <- |[]]; hx_newer. }
  eapply (h_write _ _ _ hx_t1); [|apply hx_stamp; cbn; tauto|reflexivity|apply (w_delta 2 3 1 {| g_versions := [(hx_t1, lx_a1)]; g_bases := [(hx_t1, [lx_a1])]; g_blocks := []; g_failed := []; g_rollbacks := [] |} hx_t2 hx_t1 [lx_a2])].
  2: { split; [now left|]. intros c [ <- |[]]. apply sle_refl. }
  eapply h_write; [apply h_new|apply hx_stamp; cbn; tauto|reflexivity|]. apply (w_commit 2 3 1 new_group_history hx_t1 [lx_a1] [lx_a1]). split; [|split].
  - cbn. repeat constructor; cbn; intuition discriminate.
  - intros r I. exists r. auto.
  - intros r I. split; [exact I|]. destruct I as [ <- |[]]; hx_newer.
Qed.
Definition lx_base3 := new_meta "f_0-0-1_20250103000000000.parquet" 10.
Definition lx_listed : list file_meta := [hx_base1; lx_base3; hx_log1].
Definition lx_decode (s : string) : option (list record_batch) := if String.eqb s "a2" then Some [hx_batch [lx_a2]] else None.
Definition lx_contents (name : string) : list (wblock * list record_batch) := if String.eqb name (fm_name hx_log1) then [(hx_data hx_t2 "a2", [hx_batch [lx_a2]])] else [].
Definition lx_json (path : string) : outcome (list (string * json)) :=
  if String.eqb path ".hoodie/20250101000000000.commit" then Ok (hx_md (fm_name hx_base1) [])
  else if String.eqb path ".hoodie/20250102000000000.deltacommit" then Ok (hx_md (fm_name hx_base1) [fm_name hx_log1])
  else if String.eqb path ".hoodie/20250103000000000.commit" then Ok (hx_md (fm_name lx_base3) [])
  else Err EStorage.
Definition lx_store : store unit :=
  {| st_json := lx_json; st_schema := fun _ => Ok [("ts", tt)];
     st_files := fun p => if String.eqb p "" then Ok lx_listed else Err EStorage; st_dirs := tree_dirs (Dir lx_listed []);
     st_meta := fun p => Ok {| fm_name := p; fm_size := 1; fm_byte_size := 1; fm_num_records := 1; fm_populated := true |};
     st_parquet := fun p => if String.eqb p (fm_name hx_base1) then Ok (hx_batch [lx_a1]) else if String.eqb p (fm_name lx_base3) then Ok (hx_batch [lx_a1]) else Err EStorage;
     st_bytes := fun p => if String.eqb p (fm_name hx_log1) then Ok (put_log (map fst (lx_contents (fm_name hx_log1)))) else Err EStorage;
     st_open := fun _ _ => Ok tt |}.
Definition lx_table : table :=
  {| t_configs := t_configs hx_table; t_storage := [];
     t_commits := [{| i_timestamp := hx_t1; i_action := Commit; i_state := Completed; i_epoch := 1735689600000 |}; {| i_timestamp := hx_t2; i_action := DeltaCommit; i_state := Completed; i_epoch := 1735776000000 |};
       {| i_timestamp := hx_t3; i_action := Commit; i_state := Completed; i_epoch := 1735862400000 |}] |}.
Fact lx_changes_12 : hx_incremental lx_store lx_table lx_decode hx_t1 (Some hx_t2) [lx_a2].
Proof. hx_changes. Qed.
Fact lx_changes_13 : hx_incremental lx_store lx_table lx_decode hx_t1 (Some hx_t3) [].
Proof. hx_changes. Qed.
Fact lx_merging : merging_table lx_table hx_sch 3 1 2.
Proof. destruct hx_merging as [A B C D F]. constructor; assumption. Qed.
Fact lx_sorted : StronglySorted instant_le (t_commits lx_table).
Proof. repeat constructor; cbn; unfold instant_le; cbn; (left; lia) || lia || reflexivity || discriminate. Qed.
Fact lx_dated : Forall dated (t_commits lx_table).
Proof.
  assert (D : forall d t, (1 <= d <= 31)%Z -> t = epoch_millis (civil_ndt (hx_day d)) -> denotes_millis (hx_day d) t) by (intros d t H -> ; apply epoch_denotes, hx_valid; exact H).
  repeat constructor; [exists (hx_day 1)|exists (hx_day 2)|exists (hx_day 3)];
    (split; [apply hx_valid; lia|split; [discriminate|split; [reflexivity|apply D; [lia|reflexivity]]]]).
Qed.
Fact lx_bases : forall m b, base_listed "parquet" lx_listed m b -> bf_file_id b = "f" /\ base_file_name b = fm_name m /\ (m = hx_base1 /\ bf_commit b = hx_t1 \/ m = lx_base3 /\ bf_commit b = hx_t3).
Proof.
  intros m b [I [_ [Bn P]]]. unfold lx_listed in I. destruct I as [ <- |[ <- |[ <- |[]]]]; vm_compute in P; try discriminate; injection P as <-; split; try reflexivity; split; try reflexivity; auto.
Qed.
Fact lx_base_is : forall m b, In (m, b) [(hx_base1, hx_t1); (lx_base3, hx_t3)] -> base_of "parquet" "f" lx_listed m b.
Proof.
  intros m b [[= <- <-]|[[= <- <-]|[]]]; (eexists; split; [split; [cbn; tauto|split; [|split; [first [now exists "f_0-0-0_20250101000000000"|now exists "f_0-0-1_20250103000000000"]|reflexivity]]]|split; reflexivity]);
    (intros [[r E]|[r E]]; [discriminate E|apply (f_equal (fun s => ends_with ".crc" s)) in E; rewrite (proj2 (ends_with_spec ".crc" (r ++ ".crc")) (ex_intro _ r eq_refl)) in E; discriminate E]).
Qed.
Fact lx_logs : forall m l, log_listed "parquet" lx_listed m l -> lf_file_id l = "f" /\ m = hx_log1 /\ lf_base_commit l = hx_t1.
Proof.
  intros m b [I [_ [Bn P]]]. unfold lx_listed in I. destruct I as [ <- |[ <- |[ <- |[]]]]; vm_compute in P; try discriminate; injection P as <-; split; try reflexivity; auto.
Qed.
Fact lx_log_is : log_of "parquet" "f" lx_listed hx_log1 hx_t1.
Proof.
  eexists; split; [split; [cbn; tauto|split; [|split; [|reflexivity]]]|split; reflexivity];
   try (intros [[r E]|[r E]]; [discriminate E|apply (f_equal (fun s => ends_with ".crc" s)) in E; rewrite (proj2 (ends_with_spec ".crc" (r ++ ".crc")) (ex_intro _ r eq_refl)) in E; discriminate E]);
   (intros [r E]; apply (f_equal (fun s => ends_with ".parquet" s)) in E; change ("." ++ "parquet") with ".parquet" in E; rewrite (proj2 (ends_with_spec ".parquet" (r ++ ".parquet")) (ex_intro _ r eq_refl)) in E; discriminate E).
Qed.
Fact lx_laid_out : laid_out unit unit (fun _ => None) (fun _ _ => None) (fun _ => Ok tt) (fun _ _ => Err EArrow) lx_decode (st_parquet _ lx_store) (st_bytes _ lx_store)
  "parquet" "" "f" hx_sch lx_listed lx_contents lx_group.
Proof.
  constructor.
  - split; intros r; [destruct r; discriminate|discriminate].
  - intros m b B _. now apply lx_bases in B as [_ [B _]].
  - intros c. cbn [lx_group g_bases map fst In]. split.
    + intros [ <- |[ <- |[]]]; [exists hx_base1|exists lx_base3]; apply lx_base_is; cbn; auto.
    + intros [m [b [B [_ <-]]]]. apply lx_bases in B as [_ [_ [[_ -> ]|[_ -> ]]]]; auto.
  - intros m c rows [b [B [_ <-]]] I. apply lx_bases in B as [_ [_ [[ -> E]|[ -> E]]]]; rewrite E in I; cbn in I; destruct I as [I|[I|[]]]; try discriminate; injection I as <-; reflexivity.
  - intros x r I. cbn in I. destruct I as [[= <- <-]|[[= <- <-]|[]]]; repeat constructor; cbn; discriminate.
  - intros m1 l1 m2 l2 X1 X2 _ _ _ _ _. apply lx_logs in X1 as [_ [ -> _]]. apply lx_logs in X2 as [_ [ -> _]]. reflexivity.
  - intros m c [l [X [_ <-]]]. apply lx_logs in X as [_ [ -> _]]. split; [reflexivity|]. intros w bs I.
    change (lx_contents (fm_name hx_log1)) with [(hx_data hx_t2 "a2", [hx_batch [lx_a2]])] in I. destruct I as [[= <- <-]|[]].
    split; [|split; [constructor; [hx_rows|constructor]|split; [intros v [=]|exists hx_t2; split; [now left|apply hx_stamp; cbn; tauto]]]].
    split; cbn [hx_data w_version w_header w_content w_footer put_content].
    + discriminate.
    + split; [repeat constructor; intros []|]. intros k v [E|[]]. injection E as <- <-. split; reflexivity.
    + split; [split; [constructor|intros k v []]|]. intros N. now elim N.
    + exists hx_t2. now left.
    + reflexivity.
    + discriminate.
    + now apply holds_parquet.
  - intros c x r. cbn [lx_group g_blocks]. split.
    + intros [rows [[[= <- <- <-]|[]] [ <- |[]]]]. exists hx_log1, (hx_data hx_t2 "a2"), [hx_batch [lx_a2]]. split; [exact lx_log_is|]. split; [now left|]. split; now left.
    + intros [m [w [bs [[l [X [_ <-]]] [I [A R]]]]]]. apply lx_logs in X as [_ [ -> -> ]].
      change (lx_contents (fm_name hx_log1)) with [(hx_data hx_t2 "a2", [hx_batch [lx_a2]])] in I. destruct I as [[= <- <-]|[]]. destruct A as [[= <-]|[]]. destruct R as [ <- |[]]. exists [lx_a2]. cbn. auto.
  - intros c y x. cbn [lx_group g_rollbacks In]. split; [intros []|].
    intros [m [w [bs [[l [X [_ <-]]] [I [A [R1 _]]]]]]]. apply lx_logs in X as [_ [ -> _]].
    change (lx_contents (fm_name hx_log1)) with [(hx_data hx_t2 "a2", [hx_batch [lx_a2]])] in I. destruct I as [[= <- <-]|[]]. discriminate R1.
Qed.
Fact lx_stamped : stamped 0 lx_group.
Proof. intros x r I. cbn in I. destruct I as [[= <- <-]|[[= <- <-]|[]]]; reflexivity. Qed.
Fact lx_commits : forall start e i md, commit_between (st_json _ lx_store) (t_commits lx_table) start e i md ->
  (i_timestamp i = hx_t1 /\ md = hx_md (fm_name hx_base1) [] \/ i_timestamp i = hx_t2 /\ md = hx_md (fm_name hx_base1) [fm_name hx_log1]
   \/ i_timestamp i = hx_t3 /\ md = hx_md (fm_name lx_base3) [])
  /\ slt start (i_timestamp i) /\ sle (i_timestamp i) e.
Proof.
  intros start e i md [I [_ [S [E R]]]]. split; [|auto]. cbn in I. repeat (destruct I as [ <- |I]; [vm_compute in R; injection R as <-; cbn; tauto|]). destruct I.
Qed.
Fact lx_recorded : forall e, In e [hx_t2; hx_t3] -> recorded (st_json _ lx_store) (t_commits lx_table) "parquet" "" "f" lx_listed lx_contents lx_group hx_t1 e.
Proof.
  intros e He.
  assert (C2 : commit_between (st_json _ lx_store) (t_commits lx_table) hx_t1 e {| i_timestamp := hx_t2; i_action := DeltaCommit; i_state := Completed; i_epoch := 1735776000000 |} (hx_md (fm_name hx_base1) [fm_name hx_log1])).
  { split; [cbn; tauto|]. split; [reflexivity|]. split; [reflexivity|]. split; [|vm_compute; reflexivity]. destruct He as [ <- |[ <- |[]]]; discriminate. }
  assert (C3 : sle hx_t3 e -> commit_between (st_json _ lx_store) (t_commits lx_table) hx_t1 e {| i_timestamp := hx_t3; i_action := Commit; i_state := Completed; i_epoch := 1735862400000 |} (hx_md (fm_name lx_base3) [])).
  { intros L. split; [cbn; tauto|]. split; [reflexivity|]. split; [reflexivity|]. split; [exact L|vm_compute; reflexivity]. }
  assert (B1 : exists b, base_file_from_str (fm_name hx_base1) = Ok b /\ bf_commit b = hx_t1 /\ base_file_name b = fm_name hx_base1) by (eexists; split; [vm_compute; reflexivity|split; reflexivity]).
  assert (B3 : exists b, base_file_from_str (fm_name lx_base3) = Ok b /\ bf_commit b = hx_t3 /\ base_file_name b = fm_name lx_base3) by (eexists; split; [vm_compute; reflexivity|split; reflexivity]).
  assert (L1 : exists l, log_file_from_str (fm_name hx_log1) = Ok l /\ log_file_name l = fm_name hx_log1) by (eexists; split; [vm_compute; reflexivity|reflexivity]).
  destruct B1 as [b1 [B1 [B1c B1n]]]. destruct B3 as [b3 [B3 [B3c B3n]]]. destruct L1 as [l1 [L1 L1n]].
  assert (NB : forall i md c n, commit_between (st_json _ lx_store) (t_commits lx_table) hx_t1 e i md -> names_base md "" "f" c n ->
    (i_timestamp i = hx_t2 /\ c = hx_t1 /\ n = fm_name hx_base1) \/ (i_timestamp i = hx_t3 /\ c = hx_t3 /\ n = fm_name lx_base3)).
  { intros i md c n C N. apply lx_commits in C as [C [Cs Ce]]. destruct C as [[T -> ]|[[T -> ]|[T -> ]]].
    - rewrite T in Cs. discriminate Cs.
    - apply (hx_md_base _ _ _ _ _ _ _ B1) in N as [_ [_ [ -> -> ]]]. left. auto.
    - apply (hx_md_base _ _ _ _ _ _ _ B3) in N as [_ [_ [ -> -> ]]]. right. auto. }
  assert (NL : forall i md c l, commit_between (st_json _ lx_store) (t_commits lx_table) hx_t1 e i md -> names_log_file md "" "f" c l -> c = hx_t1 /\ l = l1).
  { intros i md c l C N. apply lx_commits in C as [C [Cs Ce]]. destruct C as [[T -> ]|[[T -> ]|[T -> ]]].
    - rewrite T in Cs. discriminate Cs.
    - apply (hx_md_log _ _ _ _ _ _ _ B1) in N as [_ [_ [ -> [name [[ <- |[]] N]]]]]. rewrite L1 in N. injection N as <-. auto.
    - apply (hx_md_log _ _ _ _ _ _ _ B3) in N as [_ [_ [ -> [name [[] N]]]]]. }
  constructor.
  - intros c I Ls Le. cbn in I. destruct I as [ <- |[ <- |[]]]; [discriminate Ls|]. eexists _, _, _. split; [exact (C3 Le)|]. apply (hx_md_base _ _ _ _ _ _ _ B3). auto.
  - intros c x rows fm w bs I NF Ls Le Lo Ic A. cbn in I. destruct I as [[= <- <- <-]|[]]. destruct Lo as [l [Lo _]]. apply lx_logs in Lo as [_ [ -> _]].
    eexists _, _, l1. split; [exact C2|]. split; [|exact L1n]. apply (hx_md_log _ _ _ _ _ _ _ B1). split; [reflexivity|]. split; [reflexivity|]. split; [now rewrite B1c|]. exists (fm_name hx_log1). split; [now left|exact L1].
  - intros i md c n b C N I L. destruct (NB _ _ _ _ C N) as [[T [ -> _]]|[T [ -> _]]]; cbn in I; destruct I as [ <- |[ <- |[]]]; try apply sle_refl; [|discriminate]. rewrite T in L. exfalso. now apply L.
  - intros i md c n C N. destruct (NB _ _ _ _ C N) as [[_ [ -> -> ]]|[_ [ -> -> ]]]; [exists hx_base1|exists lx_base3]; (split; [apply lx_base_is; cbn; auto|reflexivity]).
  - intros i md c l C N. destruct (NL _ _ _ _ C N) as [ -> -> ]. exists hx_log1. split; [exact lx_log_is|congruence].
  - intros fm c w bs x _ _ _ [].
Qed.
