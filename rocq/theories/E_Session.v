(** The table of the examples of SQL queries, after later writes: a partition is added, a partition is removed. *)
From Coq Require Import Sorted.
From Verif Require Import Base Str M_Time M_Instant M_Timeline M_FileGroup M_Builder M_Listing M_Expr M_Log M_Config M_Reader M_Table M_Session
  S_Time S_Timeline S_FileGroup S_Builder S_Listing S_Expr S_Table S_Session L_Tree E_Scan.
Local Open Scope string_scope.

Definition nx_new := new_meta "f3_0-1-2_20240102000000000.parquet" 500.
Definition nx_grown_root : tree :=
  Dir [] [(".hoodie", Dir [] [("metadata", Dir [] [])]); ("city=ams", Dir [sx_ams] []); ("city=oslo", Dir [nx_new] []); ("city=rio", Dir [sx_rio; nx_new] [])].
Definition nx_grown : store unit :=
  {| st_json := st_json _ sx_store; st_schema := st_schema _ sx_store;
     st_files := fun p => if String.eqb p "city=ams" then Ok [sx_ams] else if String.eqb p "city=rio" then Ok [sx_rio; nx_new]
                          else if String.eqb p "city=oslo" then Ok [nx_new] else Ok [];
     st_dirs := tree_dirs nx_grown_root; st_meta := st_meta _ sx_store; st_parquet := sx_parquet; st_bytes := fun _ => Err EStorage; st_open := fun _ _ => Ok tt |}.
Definition nx_shrunk_root : tree := Dir [] [(".hoodie", Dir [] [("metadata", Dir [] [])]); ("city=ams", Dir [sx_ams] [])].
Definition nx_shrunk : store unit :=
  {| st_json := st_json _ sx_store; st_schema := st_schema _ sx_store;
     st_files := fun p => if String.eqb p "city=ams" then Ok [sx_ams] else Ok []; st_dirs := tree_dirs nx_shrunk_root;
     st_meta := fun p => if starts_with "city=ams/" p then st_meta _ sx_store p else Err EStorage;
     st_parquet := fun p => if starts_with "city=ams/" p then sx_parquet p else Err EStorage; st_bytes := fun _ => Err EStorage; st_open := fun _ _ => Ok tt |}.
Fact nx_grown_wf : wf_tree nx_grown_root.
Proof.
  assert (L : forall fs, wf_tree (Dir fs [])) by (intros; constructor; [constructor|intros ? ? []|intros ? ? []]).
  constructor.
  - cbn. repeat constructor; cbn; intuition discriminate.
  - intros n s [[= <- _]|[[= <- _]|[[= <- _]|[[= <- _]|[]]]]]; split; (discriminate || reflexivity).
  - intros n s [[= _ <-]|[[= _ <-]|[[= _ <-]|[[= _ <-]|[]]]]]; try apply L. constructor.
    + cbn. repeat constructor; cbn; intuition.
    + intros n' s' [[= <- _]|[]]; split; (discriminate || reflexivity).
    + intros n' s' [[= _ <-]|[]]; apply L.
Qed.
Fact nx_shrunk_wf : wf_tree nx_shrunk_root.
Proof.
  assert (L : forall fs, wf_tree (Dir fs [])) by (intros; constructor; [constructor|intros ? ? []|intros ? ? []]).
  constructor.
  - cbn. repeat constructor; cbn; intuition discriminate.
  - intros n s [[= <- _]|[[= <- _]|[]]]; split; (discriminate || reflexivity).
  - intros n s [[= _ <-]|[[= _ <-]|[]]]; try apply L. constructor.
    + cbn. repeat constructor; cbn; intuition.
    + intros n' s' [[= <- _]|[]]; split; (discriminate || reflexivity).
    + intros n' s' [[= _ <-]|[]]; apply L.
Qed.
Fact nx_partitions : (forall p, partition_dir sx_root p <-> p = "city=ams" \/ p = "city=rio")
  /\ (forall p, partition_dir nx_grown_root p <-> p = "city=ams" \/ p = "city=oslo" \/ p = "city=rio")
  /\ (forall p, partition_dir nx_shrunk_root p <-> p = "city=ams").
Proof.
  split; [|split]; intros p; rewrite <- in_all_partitions; vm_compute; intuition congruence.
Qed.
Fact nx_kept : partitions_kept (st_dirs _ sx_store) (st_dirs _ nx_grown).
Proof.
  exists sx_root, nx_grown_root. split; [apply tree_serves, sx_wf|]. split; [exact sx_wf|]. split; [apply tree_serves, nx_grown_wf|]. split; [exact nx_grown_wf|].
  destruct nx_partitions as [P1 [P2 _]]. intros p H. apply P2. apply P1 in H. tauto.
Qed.
Definition nx_asks (st : store unit) := get_file_slices unit string sx_cast sx_cmp sx_local st sx_table [].
(** The open table first lists both partitions; one is removed, and still shown. *)
Fact nx_stale : exists c c' ss, nx_asks sx_store [] c (Ok [sx_slice1; sx_slice2]) /\ nx_asks nx_shrunk c c' (Ok ss) /\ In sx_slice2 ss.
Proof.
  eexists. eexists. eexists. split; [|split].
  - eapply gs_some with (t := sx_t); [reflexivity|]. eapply ga_ok; [reflexivity|]. eapply sa_view; [reflexivity|reflexivity|reflexivity|reflexivity|].
    eapply vq_ok with (order := fun _ l => l);
    [reflexivity|eapply ll_finished with (fuel := 5%nat); [reflexivity|vm_compute; reflexivity|]; do 2 sx_one; eapply star_step; [apply (ps_finish _ _ (Z.to_nat 10)); cbn; lia|]; apply star_refl|reflexivity|vm_compute; reflexivity].
  - eapply gs_some with (t := sx_t); [reflexivity|]. eapply ga_ok; [reflexivity|]. eapply sa_view; [reflexivity|reflexivity|reflexivity|reflexivity|].
    eapply vq_ok with (order := fun _ l => l);
    [reflexivity|eapply ll_finished with (fuel := 5%nat); [reflexivity|vm_compute; reflexivity|]; do 1 sx_one; eapply star_step; [apply (ps_finish _ _ (Z.to_nat 10)); cbn; lia|]; apply star_refl|reflexivity|vm_compute; reflexivity].
  - vm_compute. tauto.
Qed.
Fact nx_grows : exists c c' ss, nx_asks sx_store [] c (Ok [sx_slice1; sx_slice2]) /\ nx_asks nx_grown c c' (Ok ss) /\ Permutation ss [sx_slice1; sx_slice2].
Proof.
  eexists. eexists. eexists. split; [|split].
  - eapply gs_some with (t := sx_t); [reflexivity|]. eapply ga_ok; [reflexivity|]. eapply sa_view; [reflexivity|reflexivity|reflexivity|reflexivity|].
    eapply vq_ok with (order := fun _ l => l);
    [reflexivity|eapply ll_finished with (fuel := 5%nat); [reflexivity|vm_compute; reflexivity|]; do 2 sx_one; eapply star_step; [apply (ps_finish _ _ (Z.to_nat 10)); cbn; lia|]; apply star_refl|reflexivity|vm_compute; reflexivity].
  - eapply gs_some with (t := sx_t); [reflexivity|]. eapply ga_ok; [reflexivity|]. eapply sa_view; [reflexivity|reflexivity|reflexivity|reflexivity|].
    eapply vq_ok with (order := fun _ l => l);
    [reflexivity|eapply ll_finished with (fuel := 5%nat); [reflexivity|vm_compute; reflexivity|]; do 3 sx_one; eapply star_step; [apply (ps_finish _ _ (Z.to_nat 10)); cbn; lia|]; apply star_refl|reflexivity|vm_compute; reflexivity].
  - vm_compute. apply perm_swap || reflexivity.
Qed.
