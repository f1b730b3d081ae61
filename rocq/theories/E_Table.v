(** A small table for the examples: one day with a committed write, a replacecommit, and the base file
    of a writer that never committed. *)
From Verif Require Import Base Str M_Time M_Instant M_Timeline M_FileGroup M_Builder M_Listing M_Expr M_Log M_Config M_Reader M_Table
  S_Time S_Timeline S_FileGroup S_Builder S_Listing S_Expr S_Table.
From Coq Require Import Sorted.
Local Open Scope string_scope.

Definition tx_day : string := "year=2024/day=1".
Definition tx_files : list file_meta :=
  [new_meta ".hoodie_partition_metadata" 96; new_meta "f1_0-1-2_20240101000000000.parquet" 1000;
   new_meta ".f1_20240101000000000.log.1_0-2-3" 300; new_meta "f1_0-7-8_20240103000000000.parquet" 1100;
   new_meta "f2_0-1-3_20240102000000000.parquet" 900; new_meta "f4_0-1-4_20240101000000000.parquet" 800].
Definition tx_root : tree :=
  Dir [] [(".hoodie", Dir [] [("metadata", Dir [] [])]);
          ("year=2024", Dir [] [("day=1", Dir tx_files []); ("day=2", Dir [] [])])].
Definition tx_md1 : list (string * json) :=
  [("partitionToWriteStats", JObj [(tx_day, JArr
     [JObj [("fileId", JStr "f1"); ("path", JStr "year=2024/day=1/f1_0-1-2_20240101000000000.parquet")];
      JObj [("fileId", JStr "f4"); ("path", JStr "year=2024/day=1/f4_0-1-4_20240101000000000.parquet")]])])].
Definition tx_md3 : list (string * json) :=
  [("partitionToWriteStats", JObj [(tx_day, JArr [JObj [("fileId", JStr "f1"); ("path", JStr "year=2024/day=1/f1_0-7-8_20240103000000000.parquet")]])]);
   ("partitionToReplaceFileIds", JObj [(tx_day, JArr [JStr "f4"])])].
Definition tx_json (path : string) : outcome (list (string * json)) :=
  if String.eqb path ".hoodie/20240101000000000.commit" then Ok tx_md1
  else if String.eqb path ".hoodie/20240103000000000.replacecommit" then Ok tx_md3 else Err EStorage.
Definition tx_names : list string :=
  ["hoodie.properties"; "20240101000000000.commit"; "20240102000000000.commit.requested"; "20240102000000000.inflight";
   "20240103000000000.replacecommit.inflight"; "20240103000000000.replacecommit"].
Definition tx_store : store unit :=
  {| st_json := tx_json; st_schema := fun _ => Ok [("id", tt); ("year", tt); ("day", tt)];
     st_files := fun p => if String.eqb p tx_day then Ok tx_files else Ok []; st_dirs := tree_dirs tx_root;
     st_meta := fun p => Ok {| fm_name := p; fm_size := 1; fm_byte_size := 1; fm_num_records := 1; fm_populated := true |};
     st_parquet := fun _ => Err EStorage; st_bytes := fun _ => Err EStorage; st_open := fun _ _ => Ok tt |}.
Definition tx_local (d : ndt) : option ndt := Some d.
Definition tx_i1 := {| i_timestamp := "20240101000000000"; i_action := Commit; i_state := Completed; i_epoch := 1704067200000 |}.
Definition tx_i3 := {| i_timestamp := "20240103000000000"; i_action := ReplaceCommit; i_state := Completed; i_epoch := 1704240000000 |}.
Definition tx_table : table :=
  {| t_configs := [("hoodie.table.partition.fields", "year,day"); ("hoodie.datasource.write.hive_style_partitioning", "true");
                   ("hoodie.datasource.write.partitionpath.urlencode", "false")];
     t_storage := []; t_commits := [tx_i1; tx_i3] |}.
Definition tx_cast (_ : unit) (s : string) : option string := Some s.
Definition tx_cmp (a b : string) : option comparison := Some (scmp a b).
Definition tx_empty : table := {| t_configs := t_configs tx_table; t_storage := []; t_commits := [] |}.

Fact tx_loaded : new_timeline tx_local (fun l => l) "utc" tx_names = Ok (t_commits tx_table).
Proof. vm_compute. reflexivity. Qed.
Fact tx_sorted : StronglySorted instant_le (t_commits tx_table).
Proof. repeat constructor; unfold instant_le; cbn; discriminate. Qed.
Fact tx_wf : wf_tree tx_root.
Proof.
  assert (L : forall fs, wf_tree (Dir fs [])) by (intros; constructor; [constructor|intros ? ? []|intros ? ? []]).
  constructor.
  - cbn. repeat constructor; cbn; intuition discriminate.
  - intros n s [[= <- _]|[[= <- _]|[]]]; split; (discriminate || reflexivity).
  - intros n s [[= _ <-]|[[= _ <-]|[]]]; constructor.
    + cbn. repeat constructor; cbn; intuition.
    + intros n' s' [[= <- _]|[]]; split; (discriminate || reflexivity).
    + intros n' s' [[= _ <-]|[]]; apply L.
    + cbn. repeat constructor; cbn; intuition discriminate.
    + intros n' s' [[= <- _]|[[= <- _]|[]]]; split; (discriminate || reflexivity).
    + intros n' s' [[= _ <-]|[[= _ <-]|[]]]; apply L.
Qed.

(** The query for the first day at the latest commit. *)
Definition tx_filters : list (string * string * string) := [("day", "=", "1")].
Fact tx_query : exists c' ss, get_file_slices unit string tx_cast tx_cmp tx_local tx_store tx_table tx_filters [] c' (Ok ss)
  /\ map (fun s => base_file_name (fs_base s)) ss = ["f1_0-7-8_20240103000000000.parquet"; "f2_0-1-3_20240102000000000.parquet"].
Proof.
  eexists. eexists. split.
  - eapply gs_some with (t := "20240103000000000"); [reflexivity|]. eapply ga_ok; [reflexivity|].
    eapply sa_view; [reflexivity|reflexivity|reflexivity|reflexivity|].
    eapply vq_ok with (order := fun _ l => l); [reflexivity| | |].
    { eapply ll_finished with (fuel := 5%nat); [reflexivity|vm_compute; reflexivity|].
      eapply star_step; [apply (ps_start _ _ (Z.to_nat 10)); cbn; lia|]. cbn [app].
      eapply star_step; [apply (ps_complete _ _ (Z.to_nat 10) _ [] _ []); vm_compute; reflexivity|]. cbn [app].
      eapply star_step; [apply (ps_finish _ _ (Z.to_nat 10)); cbn; lia|]. apply star_refl. }
    { reflexivity. }
    { vm_compute; reflexivity. }
  - vm_compute. reflexivity.
Qed.

(** The same table after another commit, which adds a base file to [f1] and a new file group. *)
Definition tx_files' : list file_meta :=
  (tx_files ++ [new_meta "f1_0-9-9_20240105000000000.parquet" 1200; new_meta "f9_0-9-8_20240105000000000.parquet" 700;
                new_meta ".f1_20240103000000000.log.1_0-9-1" 50])%list.
Definition tx_md5 : list (string * json) :=
  [("partitionToWriteStats", JObj [(tx_day, JArr
     [JObj [("fileId", JStr "f1"); ("path", JStr "year=2024/day=1/f1_0-9-9_20240105000000000.parquet")];
      JObj [("fileId", JStr "f9"); ("path", JStr "year=2024/day=1/f9_0-9-8_20240105000000000.parquet")]])])].
Definition tx_store' : store unit :=
  {| st_json := fun p => if String.eqb p ".hoodie/20240105000000000.commit" then Ok tx_md5 else tx_json p; st_schema := st_schema _ tx_store;
     st_files := fun p => if String.eqb p tx_day then Ok tx_files' else Ok []; st_dirs := tree_dirs tx_root;
     st_meta := st_meta _ tx_store; st_parquet := fun _ => Err EStorage; st_bytes := fun _ => Err EStorage; st_open := fun _ _ => Ok tt |}.
Definition tx_i5 := {| i_timestamp := "20240105000000000"; i_action := Commit; i_state := Completed; i_epoch := 1704412800000 |}.
Definition tx_table' : table := {| t_configs := t_configs tx_table; t_storage := []; t_commits := [tx_i1; tx_i3; tx_i5] |}.
Fact tx_sorted' : StronglySorted instant_le (t_commits tx_table').
Proof. repeat constructor; unfold instant_le; cbn; discriminate. Qed.
Fact tx_query' : exists c' ss, get_file_slices_as_of unit string tx_cast tx_cmp tx_local tx_store' tx_table' "20240103000000000" tx_filters [] c' (Ok ss)
  /\ map (fun s => base_file_name (fs_base s)) ss = ["f1_0-7-8_20240103000000000.parquet"; "f2_0-1-3_20240102000000000.parquet"]
  /\ map (fun s => List.length (fs_logs s)) ss = [1%nat; 0%nat].
Proof.
  eexists. eexists. split.
  - eapply ga_ok; [reflexivity|].
    eapply sa_view; [reflexivity|reflexivity|reflexivity|reflexivity|].
    eapply vq_ok with (order := fun _ l => l); [reflexivity| | |].
    { eapply ll_finished with (fuel := 5%nat); [reflexivity|vm_compute; reflexivity|].
      eapply star_step; [apply (ps_start _ _ (Z.to_nat 10)); cbn; lia|]. cbn [app].
      eapply star_step; [apply (ps_complete _ _ (Z.to_nat 10) _ [] _ []); vm_compute; reflexivity|]. cbn [app].
      eapply star_step; [apply (ps_finish _ _ (Z.to_nat 10)); cbn; lia|]. apply star_refl. }
    { reflexivity. }
    { vm_compute; reflexivity. }
  - split; vm_compute; reflexivity.
Qed.
Fact tx_later : later_files "parquet" "20240103000000000" tx_files tx_files'
  /\ later_commits 1704240000000 (st_json _ tx_store) (st_json _ tx_store') (t_commits tx_table) (t_commits tx_table').
Proof.
  split; [split; [|split]|split; [|split]].
  - apply incl_appl, incl_refl.
  - intros m b [H1 [H2 [H3 H4]]]. unfold tx_files' in H1. apply in_app_or in H1 as [H1|H1]; [now left|]. right.
    destruct H1 as [ <- |[ <- |[ <- |[]]]]; vm_compute in H4; try discriminate; injection H4 as <-; reflexivity.
  - intros m1 b1 m2 b2 [A1 [A2 [A3 A4]]] [B1 [B2 [B3 B4]]] E1 E2.
    unfold tx_files', tx_files in A1, B1. cbn [app] in A1, B1.
    repeat (destruct A1 as [ <- |A1]; [vm_compute in A4; try discriminate; injection A4 as <-|]); [| | | | | |elim A1];
    repeat (destruct B1 as [ <- |B1]; [vm_compute in B4; try discriminate; injection B4 as <-; try reflexivity; vm_compute in E1, E2; try discriminate|]); elim B1.
  - intros i [ <- |[ <- |[]]]; cbn; auto.
  - intros i [ <- |[ <- |[ <- |[]]]]; [left; now left|left; right; now left|right; reflexivity].
  - intros i [ <- |[ <- |[]]]; reflexivity.
Qed.

(** The same table after a commit that wrote no file. *)
Definition tx_idle_store : store unit :=
  {| st_json := fun p => if String.eqb p ".hoodie/20240106000000000.commit" then Ok [("partitionToWriteStats", JObj [])] else tx_json p;
     st_schema := st_schema _ tx_store; st_files := st_files _ tx_store; st_dirs := tree_dirs tx_root;
     st_meta := st_meta _ tx_store; st_parquet := fun _ => Err EStorage; st_bytes := fun _ => Err EStorage; st_open := fun _ _ => Ok tt |}.
Definition tx_i6 := {| i_timestamp := "20240106000000000"; i_action := Commit; i_state := Completed; i_epoch := 1704499200000 |}.
Definition tx_idle_table : table := {| t_configs := t_configs tx_table; t_storage := []; t_commits := [tx_i1; tx_i3; tx_i6] |}.
