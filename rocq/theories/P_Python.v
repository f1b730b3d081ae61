(** C62: file slices handed to Python and back. *)
From Verif Require Import Base Str M_Time M_Instant M_FileGroup M_Builder M_Listing M_Log M_Config M_Reader M_Expr M_Table M_Python
  S_FileGroup S_Builder S_Listing S_Table S_Python L_Str L_Tree L_Python L_Bare E_Table.
Local Open Scope string_scope.

(** C62: a slice of a file group made from file names survives the trip through names and a new file
    group: the files are the same, in the same order, and reading gives the same answer. *)
Theorem C62_round_trip : forall g s, named_group g -> In s (slices g) ->
  (exists f, py_rebuild (py_slice_of s) = Ok f /\ same_files f s) /\ reads_as s (py_slice_of s) /\ python_shows s (py_slice_of s).
Proof. exact named_slices. Qed.
Print Assumptions C62_round_trip.
Example C62_round_trip_case : exists g s, named_group g /\ In s (slices g)
  /\ map log_file_name (fs_logs s) = [".f_20240101000000000.log.1_0-1-1"; ".f_20240101000000000.log.10_0-1-1"; ".f_20240101000000000.log.2_0-1-1"]
  /\ base_file_name (fs_base s) = "f_0_20240101000000000.parquet" /\ bf_meta (fs_base s) = Some (new_meta "f_0_20240101000000000_x.parquet" 7).
Proof.
  pose proof (ng_base _ "f_0_20240101000000000_x.parquet" (Some (new_meta "f_0_20240101000000000_x.parquet" 7)) _ _ (ng_new "f" "p") eq_refl eq_refl) as G1.
  pose proof (ng_log _ ".f_20240101000000000.log.1_0-1-1" None _ _ G1 eq_refl eq_refl) as G2.
  pose proof (ng_log _ ".f_20240101000000000.log.2_0-1-1" None _ _ G2 eq_refl eq_refl) as G3.
  pose proof (ng_log _ ".f_20240101000000000.log.10_0-1-1" None _ _ G3 eq_refl eq_refl) as G4.
  eexists. eexists. split.
  - exact G4.
  - split; [now left|]. repeat split; vm_compute; reflexivity.
Qed.

(** C62 for snapshot queries: every slice in the answer of [get_file_slices_as_of], after any queries. *)
Theorem C62_snapshot_slices : forall dtype value cast cmp local_to_utc (st : store dtype) tb root,
  serves_dirs root (st_dirs _ st) -> wf_tree root ->
  forall c c' t filters ss, view_after dtype value cast cmp local_to_utc st tb c ->
  get_file_slices_as_of dtype value cast cmp local_to_utc st tb t filters c c' (Ok ss) ->
  forall s, In s ss -> reads_as s (py_slice_of s) /\ python_shows s (py_slice_of s).
Proof. exact as_of_python. Qed.
Print Assumptions C62_snapshot_slices.
(** ... and Python shows the sizes and the record count of the file in the storage; listings carry no
    record counts. *)
Theorem C62_snapshot_sizes_partial : forall dtype value cast cmp local_to_utc (st : store dtype) tb root,
  serves_dirs root (st_dirs _ st) -> wf_tree root ->
  (forall p listed m, st_files _ st p = Ok listed -> In m listed -> fm_populated m = false) ->
  forall c c' t filters ss, view_after dtype value cast cmp local_to_utc st tb c ->
  get_file_slices_as_of dtype value cast cmp local_to_utc st tb t filters c c' (Ok ss) ->
  forall s, In s ss -> shows_sizes (st_meta _ st) s (py_slice_of s).
Proof. exact as_of_shows_sizes. Qed.
Print Assumptions C62_snapshot_sizes_partial.
Example C62_snapshot_case : serves_dirs tx_root (st_dirs _ tx_store') /\ wf_tree tx_root
  /\ (forall p listed m, st_files _ tx_store' p = Ok listed -> In m listed -> fm_populated m = false)
  /\ view_after unit string tx_cast tx_cmp tx_local tx_store' tx_table' []
  /\ exists c' ss, get_file_slices_as_of unit string tx_cast tx_cmp tx_local tx_store' tx_table' "20240103000000000" tx_filters [] c' (Ok ss)
     /\ map (fun s => List.length (fs_logs s)) ss = [1%nat; 0%nat].
Proof.
  split; [exact (tree_serves tx_root tx_wf)|]. split; [exact tx_wf|]. split; [|split; [constructor|]].
  - intros p listed m H. cbn [st_files tx_store'] in H. destruct (String.eqb p tx_day); injection H as <-; [|intros []].
    unfold tx_files', tx_files. cbn [app]. intros Hm. repeat (destruct Hm as [ <- |Hm]; [reflexivity|]). destruct Hm.
  - destruct tx_query' as [c' [ss [H [_ K]]]]. eauto.
Qed.

(** C62 for incremental queries. *)
Theorem C62_incremental_slices : forall dtype local_to_utc (st : store dtype) tb order, (forall n l, Permutation l (order n l)) ->
  forall start stop ss, get_file_slices_between dtype local_to_utc st tb order start stop = Ok ss ->
  forall s, In s ss -> reads_as s (py_slice_of s) /\ python_shows s (py_slice_of s).
Proof. exact between_python. Qed.
Print Assumptions C62_incremental_slices.
Example C62_incremental_case : exists ss, get_file_slices_between unit tx_local tx_store' tx_table' (fun _ l => rev l) (Some "20240102000000000") None = Ok ss
  /\ map (fun s => base_file_name (fs_base s)) ss = ["f9_0-9-8_20240105000000000.parquet"; "f1_0-9-9_20240105000000000.parquet"].
Proof. eexists. split; vm_compute; reflexivity. Qed.
(** ... where the sizes and record counts shown are always zero ... *)
Theorem C62_incremental_sizes_zero : forall dtype local_to_utc (st : store dtype) tb order, (forall n l, Permutation l (order n l)) ->
  forall start stop ss, get_file_slices_between dtype local_to_utc st tb order start stop = Ok ss ->
  forall s, In s ss -> ps_base_size (py_slice_of s) = 0%Z /\ ps_base_byte_size (py_slice_of s) = 0%Z /\ ps_num_records (py_slice_of s) = 0%Z.
Proof.
  intros dtype L st tb order perm start stop ss H s Hs. unfold py_slice_of. rewrite (between_bare dtype L st tb order perm start stop ss H s Hs). repeat split.
Qed.
Print Assumptions C62_incremental_sizes_zero.
(** ... whatever the files hold. *)
Theorem C62_incremental_sizes_refuted : exists (st : store unit) tb ss s m, 
  get_file_slices_between unit tx_local st tb (fun _ l => l) (Some "20240102000000000") None = Ok ss /\ In s ss
  /\ st_meta _ st (base_relative_path s) = Ok m /\ fm_num_records m = 1%Z /\ fm_size m = 1%Z
  /\ ps_num_records (py_slice_of s) = 0%Z /\ ps_base_size (py_slice_of s) = 0%Z.
Proof.
  exists tx_store', tx_table'. eexists. eexists. eexists. split; [vm_compute; reflexivity|]. split; [now left|].
  split; [reflexivity|]. repeat split.
Qed.
Print Assumptions C62_incremental_sizes_refuted.
