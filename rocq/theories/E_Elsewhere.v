(** Writers whose rollback goes to a log file of its own, for the refutation in C97. *)
From Coq Require Import Sorted.
From Verif Require Import Base Str M_Utf8 M_Time M_Instant M_Timeline M_FileGroup M_Builder M_Listing M_Expr M_Log M_Config M_Reader M_Table M_Storage M_Avro M_Values M_Datum M_Json M_Objects M_Open
  S_Time S_Timeline S_FileGroup S_Builder S_Listing S_Expr S_Log S_Reader S_Config S_Table S_Avro S_Storage S_Objects S_Open S_History S_Incremental S_Values S_Datum S_Json S_Whole S_Changes S_Writer S_Recorded
  L_Base L_Str L_Time L_Timeline L_History L_Open L_Json L_Whole L_Changes L_WholeChanges L_Writer L_Recorded E_Scan E_Open E_History E_Changes E_Values E_Datum E_Json E_Whole E_WholeChanges E_Writer E_Recorded.
Local Open Scope string_scope.

Definition ux_9 : storage :=
  {| w_bases := w_bases sw_8; w_logs := {| le_dir := []; le_id := "f"; le_base := hx_t1; le_version := "2"; le_token := "0-0-0"; le_blocks := [(hx_undo hx_t4 hx_t3, [])] |} :: w_logs sw_8;
     w_others := w_others sw_8; w_hist := set_group (w_hist sw_8) ("", "f") hx_group4; w_last := set_group (w_last sw_8) ("", "f") hx_t4 |}.
Definition ux_10 := sw_other (sw_nth 6) ux_9.
Definition ux_objs : list object := objects_of wx_names "parquet" ux_10.
Definition ux_build := build (fun m => m) [] bx_parse (fun _ _ => Ok ux_objs) (fun _ => Err EStorage) hx_local isort wx_builder.
Definition ux_table : table := match ux_build with Ok (tb, _, _) => tb | _ => hx_table end.
Fact ux_built : ux_build = Ok (ux_table, sx_base, ux_objs).
Proof. vm_compute. reflexivity. Qed.
Definition ux_store : store unit :=
  object_store ux_objs sx_base unit (parse_metadata jx_number jx_collect) (fun _ => Ok [("ts", tt)]) wx_rows sw_footer (storage_opens bx_parse (fun _ _ => Ok ux_objs)).
Definition ux_reads (start : string) (stop : option string) (batches : list (list (list cell))) : Prop :=
  read_incremental unit avro value vx_parse decode check_schema (to_batch vx_code vx_rank vx_cast) (fun _ => None) hx_local ux_store ux_table start stop (Ok (map hx_batch batches)).
Ltac ux_read :=
  eapply ri_ok with (order := fun _ l => l);
  [intros n l; reflexivity|vm_compute; reflexivity|vm_compute; reflexivity
  |eapply rs_read with (iter := fun m => m); [intros m; reflexivity| |];
   [split; [reflexivity|]; repeat (apply Forall2_cons; [exists (@L_Reader.isort _), (fun m => m); split; [apply L_Reader.isort_sorts|split; [intros m; reflexivity|vm_compute; reflexivity]]|]); apply Forall2_nil
   |match goal with |- joined _ (Ok ?l) => exact (jo_ok l) end]].
Fact ux_shown : ux_reads hx_t1 None [[]; [hx_a3]].
Proof. ux_read. Qed.

Fact ux_s9 : sw_step sw_8 ux_9.
Proof.
  assert (W2 : word "2") by (repeat split; discriminate).
  refine (st_log _ _ _ _ _ _ _ _ _ _ _ _ sw_8 [] "f" "2" "0-0-0" hx_t4 hx_t1 (hx_undo hx_t4 hx_t3) [] hx_group4 sw_dir _ W2 _ _ _ _ _ _ _ _ _); [apply sw_word; cbn; tauto|apply sw_word; cbn; tauto|apply hx_stamp; cbn; tauto|reflexivity| | |now left|sw_typed| |].
  - apply (w_rollback 2 3 1 sw_group3 hx_t4 hx_t3 hx_t1 [hx_a3]); [now left|right; now left].
  - apply bo_rollback with (y := hx_t3); try reflexivity. intros z. split.
    + intros [_ [R2 _]]. destruct R2 as [R2|[R2|[R2|[]]]]; try discriminate R2. now injection R2.
    + intros ->. split; [reflexivity|]. split; [right; now left|]. exists "0". split; [right; right; now left|reflexivity].
  - split; [exact dx_undo|]. split; [intros v _ _ _; exists hx_t3; right; now left|now left].
  - intros e [ <- |[]] _ _ E. discriminate E.
Qed.
Ltac ux_hist := unfold ux_10, ux_9 in *; cbn [w_logs w_hist w_bases w_others] in *; rx_hist.
Fact ux_r9 : rx_step sw_8 ux_9.
Proof.
  apply (rx_write _ _ ("", "f") hx_t4); [exact ux_s9|reflexivity| |reflexivity|vm_compute; reflexivity].
  apply rx_stamped; intros g; ux_hist; repeat (destruct (_ && _)%bool; [cbn [In]; tauto|]); cbn [In]; tauto.
Qed.
Fact ux_r10 : rx_step ux_9 ux_10.
Proof.
  apply (rx_commit _ wx_t7 ReplaceCommit cx_md7); [reflexivity|apply wx_stamp; cbn; tauto|apply slice_text; vm_compute; reflexivity| | | | |vm_compute; reflexivity].
  - exact rx_fine7.
  - intros p s1 s2 id W1 W2 _ _. apply cx_writes7 in W1 as [_ -> ]. apply cx_writes7 in W2 as [_ -> ]. reflexivity.
  - intros _. eexists. split; [reflexivity|]. intros p v [[= <- <-]|[]]. exists ["r"]. reflexivity.
  - constructor.
    + intros [pt id] W. exfalso. unfold wrote_at in W. ux_hist. rx_cases pt id; destruct W as [W|[[b [rows W]] _]]; cbn in W; repeat (destruct W as [W|W]; [discriminate W|]); destruct W.
    + intros part id c n [stat [base [logs [b [W [F [P [Ec En]]]]]]]]. apply cx_writes7 in W as [ -> -> ]. apply cx_files7 in F as [ -> [ -> -> ]]. vm_compute in P. injection P as <-. cbn in Ec. vm_compute in En. subst. split.
      * intros b I _. ux_hist. cbn in I. destruct I as [ <- |[]]. apply sle_refl.
      * exists (rx_entry "h" "0-0-0" hx_t1 "h1"). split; [cbn; tauto|]. repeat split. discriminate.
    + intros f bl vs [ <- |[ <- |[]]] J A; exfalso; rx_blocks J A.
    + intros part id c l [stat [base [logs [b [name [W [F [_ [_ [I _]]]]]]]]]]. apply cx_writes7 in W as [ -> -> ]. apply cx_files7 in F as [ -> [ -> -> ]]. destruct I.
Qed.
Fact ux_recorded : rx_left ux_10.
Proof. apply (rx_go ux_9); [apply (rx_go sw_8); [exact rx_recorded8|exact ux_r9]|exact ux_r10]. Qed.
Fact ux_completed : all_completed wx_names jx_number jx_collect hx_t1 wx_t7 ux_10.
Proof.
  intros [pt id] x W L1 _. assert (C : x = hx_t1 \/ x = hx_t2).
  { unfold wrote_at in W. ux_hist. rx_cases pt id; destruct W as [W|[[b [rows W]] NF]]; cbn in W; repeat (destruct W as [W|W]; [try (injection W as <- <- <-); try subst x; try tauto; exfalso; apply NF; cbn; tauto|]); destruct W. }
  destruct C as [ -> | -> ]; [discriminate L1|]. exists DeltaCommit, (hx_md (fm_name hx_base1) [fm_name hx_log1]). split; [apply hx_stamp; cbn; tauto|]. exists (sw_nth 2).
  split; [unfold ux_10, ux_9; rx_other_in|]. split; [reflexivity|apply slice_text; vm_compute; reflexivity].
Qed.
Fact ux_later : forall g, later_is_newer 2 3 1 (w_hist ux_10 g) wx_t7.
Proof.
  intros [pt id] x a y b I J L L2 E. ux_hist. rx_cases pt id; cbn in I, J.
  - apply (hx_later wx_t7 x a y b); try assumption; cbn [hx_group g_versions In]; [repeat (destruct I as [I|I]; [rewrite <- I; tauto|]); destruct I|repeat (destruct J as [J|J]; [rewrite <- J; tauto|]); destruct J].
  - destruct I as [[= <- <-]|[]]; destruct J as [[= <- <-]|[]]; discriminate L.
  - destruct I as [[= <- <-]|[]]; destruct J as [[= <- <-]|[]]; discriminate L.
  - destruct I.
  - destruct I.
Qed.
Fact ux_never : forall g x, ~ In (x, hx_a3) (g_versions (w_hist ux_10 g)).
Proof. intros [pt id] x I. ux_hist. rx_cases pt id; cbn in I; repeat (destruct I as [I|I]; [discriminate I|]); destruct I. Qed.
