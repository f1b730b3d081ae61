(** Writers that make the table of C81, for the examples of C94. *)
From Coq Require Import Sorted.
From Verif Require Import Base Str M_Utf8 M_Time M_Instant M_Timeline M_FileGroup M_Builder M_Listing M_Expr M_Log M_Config M_Reader M_Table M_Storage M_Avro M_Values M_Datum M_Json M_Objects M_Open
  S_Time S_Timeline S_FileGroup S_Builder S_Listing S_Expr S_Log S_Reader S_Config S_Table S_Avro S_Storage S_Objects S_Open S_History S_Values S_Datum S_Json S_Whole S_Writer
  L_Base L_Str L_Timeline L_Open L_Json L_Whole L_Writer E_Scan E_Open E_History E_Values E_Datum E_Json E_Whole.
Local Open Scope string_scope.

Definition sw_footer (d : string) : outcome (Z * Z) := Ok (1, 1)%Z.
Definition sw_step := step wx_names "parquet" 0 vx_parse vx_code vx_rank wx_rows sw_footer vx_dfs 2 3 1.
Definition sw_left := left wx_names "parquet" 0 vx_parse vx_code vx_rank wx_rows sw_footer vx_dfs 2 3 1.
Definition sw_after := after wx_names "parquet" 0 vx_parse vx_code vx_rank wx_rows sw_footer vx_dfs 2 3 1.
Definition sw_objects := objects_of wx_names "parquet".

(** The writes. *)
Definition sw_other (o : object) (w : storage) : storage :=
  {| w_bases := w_bases w; w_logs := w_logs w; w_others := o :: w_others w; w_hist := w_hist w; w_last := w_last w |}.
Definition sw_drop (w : storage) : storage :=
  {| w_bases := w_bases w; w_logs := w_logs w; w_others := tl (w_others w); w_hist := w_hist w; w_last := w_last w |}.
Definition sw_base (id token x data : string) (g' : group) (w : storage) : storage :=
  {| w_bases := {| be_dir := []; be_id := id; be_token := token; be_commit := x; be_data := data |} :: w_bases w; w_logs := w_logs w; w_others := w_others w;
     w_hist := set_group (w_hist w) ("", id) g'; w_last := set_group (w_last w) ("", id) x |}.
Definition sw_log (b x : string) (bl : wblock) (vs : list value) (g' : group) (w : storage) : storage :=
  {| w_bases := w_bases w; w_logs := {| le_dir := []; le_id := "f"; le_base := b; le_version := "1"; le_token := "0-0-0"; le_blocks := [(bl, vs)] |} :: w_logs w; w_others := w_others w;
     w_hist := set_group (w_hist w) ("", "f") g'; w_last := set_group (w_last w) ("", "f") x |}.
Definition sw_append (x : string) (bl : wblock) (vs : list value) (g' : group) (w : storage) : storage :=
  match w_logs w with
  | [] => w
  | e :: l =>
      {| w_bases := w_bases w;
         w_logs := {| le_dir := le_dir e; le_id := le_id e; le_base := le_base e; le_version := le_version e; le_token := le_token e; le_blocks := (le_blocks e ++ [(bl, vs)])%list |} :: l;
         w_others := w_others w; w_hist := set_group (w_hist w) ("", "f") g'; w_last := set_group (w_last w) ("", "f") x |}
  end.
Definition sw_group2 : group :=
  {| g_versions := g_versions hx_group4; g_bases := g_bases hx_group4; g_blocks := [(hx_t1, hx_t2, [hx_a2])]; g_failed := []; g_rollbacks := [] |}.
Definition sw_group3 : group :=
  {| g_versions := g_versions hx_group4; g_bases := g_bases hx_group4; g_blocks := g_blocks hx_group4; g_failed := [hx_t3]; g_rollbacks := [] |}.
Definition sw_group5 : group :=
  {| g_versions := g_versions hx_group4; g_bases := g_bases hx_group; g_blocks := g_blocks hx_group4; g_failed := [hx_t3]; g_rollbacks := g_rollbacks hx_group4 |}.
Definition sw_nth (n : nat) : object := nth n wx_objs (wx_at "" "").
Definition sw_pending : object := wx_at ".hoodie/20250102000000000.deltacommit.inflight" "".
(** A commit of three base files, a deltacommit with its inflight file, a failed deltacommit and its rollback; *)
Definition sw_1 := sw_other (sw_nth 0) empty_storage.
Definition sw_2 := sw_base "h" "0-0-0" hx_t1 "h1" (wx_group wx_c1) sw_1.
Definition sw_3 := sw_base "f" "0-0-0" hx_t1 "b1" hx_group1 sw_2.
Definition sw_4 := sw_base "r" "0-0-0" hx_t1 "r1" (wx_group wx_d1) sw_3.
Definition sw_5 := sw_other sw_pending (sw_other (sw_nth 1) sw_4).
Definition sw_6 := sw_log hx_t1 hx_t2 vx_block2 [vx_a2] sw_group2 sw_5.
Definition sw_7 := sw_other (sw_nth 2) (sw_drop sw_6).
Definition sw_8 := sw_other (sw_nth 3) (sw_append hx_t3 vx_block3 [vx_a3] sw_group3 sw_7).
Definition sw_9 := sw_append hx_t4 (hx_undo hx_t4 hx_t3) [] hx_group4 sw_8.
(** then a compaction, another deltacommit and a replacecommit. *)
Definition sw_10 := sw_other (sw_nth 4) (sw_base "f" "0-0-1" hx_t5 "b5" sw_group5 sw_9).
Definition sw_11 := sw_other (sw_nth 5) (sw_log hx_t5 hx_t6 vx_block6 [vx_b6] hx_group sw_10).
Definition sw_12 := sw_other (sw_nth 6) sw_11.

Lemma sw_permuted : forall (A : Type) (a : list A) h b1 l1 r b5 l5, Permutation (a ++ [h; b1; l1; r; b5; l5]) ([b5; r; b1; h] ++ [l5; l1] ++ rev a).
Proof.
  intros A a h b1 l1 r b5 l5. transitivity ([h; b1; l1; r; b5; l5] ++ a)%list; [apply Permutation_app_comm|]. rewrite app_assoc. apply Permutation_app; [|apply Permutation_rev].
  apply (Permutation_cons_app [b5; r; b1] [l5; l1]), (Permutation_cons_app [b5; r] [l5; l1]), (Permutation_cons_app [b5; r; l5] []), (Permutation_cons_app [b5] [l5]), (Permutation_cons_app [] [l5]), (Permutation_cons_app [] []), perm_nil.
Qed.
Fact sw_objects_are : Permutation wx_objs (sw_objects sw_12).
Proof.
  assert (E : exists a h b1 l1 r b5 l5, wx_objs = (a ++ [h; b1; l1; r; b5; l5])%list /\ sw_objects sw_12 = ([b5; r; b1; h] ++ [l5; l1] ++ rev a)%list).
  { exists (firstn 7 wx_objs), (sw_nth 7), (sw_nth 8), (sw_nth 9), (sw_nth 10), (sw_nth 11), (sw_nth 12). split; vm_compute; reflexivity. }
  destruct E as [a [h [b1 [l1 [r [b5 [l5 [E1 E2]]]]]]]]. rewrite E1, E2. apply sw_permuted.
Qed.

Fact sw_legal : Forall legal wx_names.
Proof. repeat constructor; discriminate. Qed.
Fact sw_word : forall x, In x ["parquet"; "h"; "f"; "r"; "1"; "0-0-0"; "0-0-1"] -> word x.
Proof. intros x I. cbn [In] in I. repeat (destruct I as [ <- |I]; [repeat split; discriminate|]). destruct I. Qed.
Lemma sw_add_other : forall n o w, o_key o = "data/t/.hoodie/" ++ n -> legal n -> existsb (String.eqb (o_key o)) (map o_key (sw_objects w)) = false -> sw_step w (sw_other o w).
Proof.
  intros n o w E Ln N. apply st_other.
  - apply (metadata_other wx_names 0 n []); [exact sw_legal| |rewrite E; reflexivity]. constructor; [repeat split; discriminate|]. constructor; [exact Ln|constructor].
  - intros I. apply Bool.not_true_iff_false in N. apply N. apply existsb_exists. exists (o_key o). split; [exact I|apply String.eqb_refl].
Qed.
Lemma sw_dir : data_dir 0 [].
Proof. split; [constructor|]. split; [reflexivity|]. discriminate. Qed.
Definition sw_typed := typed_versions vx_code vx_dfs.
Ltac sw_typed := intros x r I; cbn in I; repeat (destruct I as [[= <- <-]|I]; [repeat constructor; cbn; discriminate|]); destruct I.
Lemma sw_add_base : forall id token x data g' rows w, In id ["h"; "f"; "r"] -> In token ["0-0-0"; "0-0-1"] -> In x [hx_t1; hx_t2; hx_t3; hx_t4; hx_t5; hx_t6] -> slt (w_last w ("", id)) x ->
  write 2 3 1 (w_hist w ("", id)) x g' -> g_bases g' = (g_bases (w_hist w ("", id)) ++ [(x, rows)])%list -> sw_typed g' -> wx_rows data = Ok (hx_batch rows) -> sw_step w (sw_base id token x data g' w).
Proof.
  intros id token x data g' rows w Ii It Ix L W B T R. refine (st_base _ _ _ _ _ _ _ _ _ _ _ _ w [] id token x data g' rows sw_dir _ _ _ L _ B T R _).
  - apply sw_word. cbn [In] in *. tauto.
  - apply sw_word. cbn [In] in *. tauto.
  - now apply hx_stamp.
  - now apply wrote_write.
  - now exists (1, 1)%Z.
Qed.
Lemma sw_blocks : forall g g' b x bl vs t, In (bl, vs, t) [(vx_block2, [vx_a2], hx_t2); (vx_block3, [vx_a3], hx_t3); (vx_block6, [vx_b6], hx_t6)] -> g_bases g' = g_bases g -> g_rollbacks g' = g_rollbacks g ->
  g_blocks g' = (g_blocks g ++ [(b, x, map (row_of vx_code vx_rank vx_dfs) vs)])%list -> block_of vx_code vx_rank vx_dfs g b x bl vs g' /\ block_fine vx_parse vx_dfs t bl vs.
Proof.
  intros g g' b x bl vs t I E1 E2 E3. split.
  - apply bo_data; try assumption. intros y [N _]. destruct I as [[= <- <- <-]|[[= <- <- <-]|[[= <- <- <-]|[]]]]; discriminate N.
  - destruct I as [[= <- <- <-]|[[= <- <- <-]|[[= <- <- <-]|[]]]]; (split; [first [exact dx_block2|exact dx_block3|exact dx_block6]|split; [intros v [=]|now left]]).
Qed.
Lemma sw_go : forall w w', sw_left w -> sw_step w w' -> sw_left w'.
Proof. intros w w' L S. exact (left_step _ _ _ _ _ _ _ _ _ _ _ _ w w' L S). Qed.
Lemma sw_first : forall row, row = wx_c1 \/ row = wx_d1 -> write 2 3 1 new_group_history hx_t1 (wx_group row).
Proof.
  intros row R. apply (w_commit 2 3 1 new_group_history hx_t1 [row] [row]). split; [|split].
  - repeat constructor. intros [].
  - intros r I. exists r. auto.
  - intros r I. split; [exact I|]. intros r' I' _. destruct I as [ <- |[]], I' as [ <- |[]]. destruct R as [ -> | -> ]; apply hx_not_newer; right; (split; [reflexivity|discriminate]).
Qed.
Fact sw_s1 : sw_step empty_storage sw_1.
Proof. apply (sw_add_other "hoodie.properties"); [reflexivity|repeat split; discriminate|reflexivity]. Qed.
Fact sw_s2 : sw_step sw_1 sw_2.
Proof. apply (sw_add_base _ _ _ _ _ [wx_c1]); [cbn; tauto|cbn; tauto|cbn; tauto|reflexivity|apply sw_first; auto|reflexivity|sw_typed|reflexivity]. Qed.
Fact sw_s3 : sw_step sw_2 sw_3.
Proof.
  apply (sw_add_base _ _ _ _ _ [hx_a1; hx_b1]); [cbn; tauto|cbn; tauto|cbn; tauto|reflexivity| |reflexivity|sw_typed|reflexivity].
  apply (w_commit 2 3 1 new_group_history hx_t1 [hx_a1; hx_b1] [hx_a1; hx_b1]). split; [|split].
  - cbn. repeat constructor; cbn; intuition discriminate.
  - intros r I. exists r. auto.
  - intros r I. split; [exact I|]. destruct I as [ <- |[ <- |[]]]; hx_newer.
Qed.
Fact sw_s4 : sw_step sw_3 sw_4.
Proof. apply (sw_add_base _ _ _ _ _ [wx_d1]); [cbn; tauto|cbn; tauto|cbn; tauto|reflexivity|apply sw_first; auto|reflexivity|sw_typed|reflexivity]. Qed.
Fact sw_step3 : sw_left sw_4.
Proof. apply (sw_go sw_3); [apply (sw_go sw_2); [apply (sw_go sw_1); [apply (sw_go empty_storage); [apply left_empty|exact sw_s1]|exact sw_s2]|exact sw_s3]|exact sw_s4]. Qed.
Lemma sw_newest : forall g b, g_bases g = g_bases hx_group4 /\ b = hx_t1 \/ g_bases g = g_bases hx_group /\ b = hx_t5 -> has_newest g b.
Proof.
  intros g b [[E ->]|[E ->]]; unfold has_newest; rewrite E; cbn [hx_group4 hx_group g_bases map fst]; (split; [cbn; tauto|]).
  - intros c [ <- |[]]. apply sle_refl.
  - intros c [ <- |[ <- |[]]]; [discriminate|apply sle_refl].
Qed.
Fact sw_s5a : sw_step sw_4 (sw_other (sw_nth 1) sw_4).
Proof.
  apply (sw_add_other "20250101000000000.commit"); [reflexivity|repeat split; discriminate|vm_compute; reflexivity].
Qed.
Fact sw_s5 : sw_step (sw_other (sw_nth 1) sw_4) sw_5.
Proof.
  apply (sw_add_other "20250102000000000.deltacommit.inflight"); [reflexivity|repeat split; discriminate|vm_compute; reflexivity].
Qed.
Fact sw_s6 : sw_step sw_5 sw_6.
Proof.
  destruct (sw_blocks hx_group1 sw_group2 hx_t1 hx_t2 vx_block2 [vx_a2] hx_t2 ltac:(cbn [In]; tauto) eq_refl eq_refl eq_refl) as [B F].
    refine (st_log _ _ _ _ _ _ _ _ _ _ _ _ sw_5 [] "f" "1" "0-0-0" hx_t2 hx_t1 vx_block2 [vx_a2] sw_group2 sw_dir _ _ _ _ _ _ B _ _ F _);
      [apply sw_word; cbn; tauto|apply sw_word; cbn; tauto|apply sw_word; cbn; tauto|apply hx_stamp; cbn; tauto|reflexivity| |now left|sw_typed|intros e []].
    apply (w_delta 2 3 1 hx_group1 hx_t2 hx_t1 [hx_a2]). apply sw_newest. now left.
Qed.
Fact sw_s7a : sw_step sw_6 (sw_drop sw_6).
Proof.
  apply (st_remove _ _ _ _ _ _ _ _ _ _ _ _ sw_6 [] sw_pending (w_others (sw_other (sw_nth 1) sw_4))). reflexivity.
Qed.
Fact sw_s7 : sw_step (sw_drop sw_6) sw_7.
Proof.
  apply (sw_add_other "20250102000000000.deltacommit"); [reflexivity|repeat split; discriminate|vm_compute; reflexivity].
Qed.
Fact sw_s8a : sw_step sw_7 (sw_append hx_t3 vx_block3 [vx_a3] sw_group3 sw_7).
Proof.
  destruct (sw_blocks sw_group2 sw_group3 hx_t1 hx_t3 vx_block3 [vx_a3] hx_t3 ltac:(cbn [In]; tauto) eq_refl eq_refl eq_refl) as [B F].
    refine (st_append _ _ _ _ _ _ _ _ _ _ _ _ sw_7 [] _ [] hx_t3 vx_block3 [vx_a3] sw_group3 eq_refl _ _ _ B _ F); [apply hx_stamp; cbn; tauto|reflexivity| |sw_typed].
    apply (w_fail 2 3 1 sw_group2 hx_t3 hx_t1 [hx_a3]). apply sw_newest. now left.
Qed.
Fact sw_s8 : sw_step (sw_append hx_t3 vx_block3 [vx_a3] sw_group3 sw_7) sw_8.
Proof.
  apply (sw_add_other "20250103000000000.deltacommit.inflight"); [reflexivity|repeat split; discriminate|vm_compute; reflexivity].
Qed.
Fact sw_s9 : sw_step sw_8 sw_9.
Proof.
  refine (st_append _ _ _ _ _ _ _ _ _ _ _ _ sw_8 [] _ [] hx_t4 (hx_undo hx_t4 hx_t3) [] hx_group4 eq_refl _ _ _ _ _ _); [apply hx_stamp; cbn; tauto|reflexivity| | |sw_typed|].
  - apply (w_rollback 2 3 1 sw_group3 hx_t4 hx_t3 hx_t1 [hx_a3]); [now left|right; now left].
  - apply bo_rollback with (y := hx_t3); try reflexivity. intros z. split.
    + intros [_ [R2 _]]. destruct R2 as [R2|[R2|[R2|[]]]]; try discriminate R2. now injection R2.
    + intros ->. split; [reflexivity|]. split; [right; now left|]. exists "0". split; [right; right; now left|reflexivity].
  - split; [exact dx_undo|]. split; [intros v _ _ _; exists hx_t3; right; now left|now left].
Qed.
Fact sw_step9 : sw_left sw_9.
Proof.
  apply (sw_go sw_8); [apply (sw_go (sw_append hx_t3 vx_block3 [vx_a3] sw_group3 sw_7)); [apply (sw_go sw_7); [apply (sw_go (sw_drop sw_6)); [apply (sw_go sw_6); [apply (sw_go sw_5);
    [apply (sw_go (sw_other (sw_nth 1) sw_4)); [apply (sw_go sw_4); [exact sw_step3|exact sw_s5a]|exact sw_s5]|exact sw_s6]|exact sw_s7a]|exact sw_s7]|exact sw_s8a]|exact sw_s8]|exact sw_s9].
Qed.
Lemma sw_later : forall t w o, (forall g, w_last (sw_other o w) g <> w_last w g -> slt t (w_last (sw_other o w) g)).
Proof. intros t w o g N. now elim N. Qed.
Lemma sw_later_set : forall t x w w' g0, w_last w' = set_group (w_last w) g0 x -> slt t x -> forall g, w_last w' g <> w_last w g -> slt t (w_last w' g).
Proof. intros t x w w' g0 -> L g. unfold set_group. destruct (_ && _)%bool; [intros _; exact L|intros N; now elim N]. Qed.
Lemma sw_on : forall t w0 w w', sw_after t w0 w -> sw_step w w' -> (forall g, w_last w' g <> w_last w g -> slt t (w_last w' g)) -> sw_after t w0 w'.
Proof. intros t w0 w w' A S L. exact (after_step _ _ _ _ _ _ _ _ _ _ _ _ t w0 w w' A S L). Qed.
Fact sw_s10a : sw_step sw_9 (sw_base "f" "0-0-1" hx_t5 "b5" sw_group5 sw_9).
Proof.
  apply (sw_add_base "f" "0-0-1" hx_t5 "b5" sw_group5 [hx_a2; hx_b1]); [cbn; tauto|cbn; tauto|cbn; tauto|reflexivity| |reflexivity|sw_typed|reflexivity].
    apply (w_compact 2 3 1 hx_group4 hx_t5 [hx_a2; hx_b1]). split; [|split].
  - cbn. repeat constructor; cbn; intuition discriminate.
  - intros r I. cbn in I. destruct I as [ <- |[ <- |[ <- |[]]]]; [exists hx_a2|exists hx_b1|exists hx_a2]; cbn; auto.
  - intros r I. split; [cbn in *; tauto|]. cbn [g_versions hx_group4 map snd]. destruct I as [ <- |[ <- |[]]]; hx_newer.
Qed.
Fact sw_s10 : sw_step (sw_base "f" "0-0-1" hx_t5 "b5" sw_group5 sw_9) sw_10.
Proof.
  apply (sw_add_other "20250105000000000.commit"); [reflexivity|repeat split; discriminate|vm_compute; reflexivity].
Qed.
Fact sw_s11a : sw_step sw_10 (sw_log hx_t5 hx_t6 vx_block6 [vx_b6] hx_group sw_10).
Proof.
  destruct (sw_blocks sw_group5 hx_group hx_t5 hx_t6 vx_block6 [vx_b6] hx_t6 ltac:(cbn [In]; tauto) eq_refl eq_refl eq_refl) as [B F].
    refine (st_log _ _ _ _ _ _ _ _ _ _ _ _ sw_10 [] "f" "1" "0-0-0" hx_t6 hx_t5 vx_block6 [vx_b6] hx_group sw_dir _ _ _ _ _ _ B _ _ F _);
      [apply sw_word; cbn; tauto|apply sw_word; cbn; tauto|apply sw_word; cbn; tauto|apply hx_stamp; cbn; tauto|reflexivity| |right; now left|sw_typed|].
  - apply (w_delta 2 3 1 sw_group5 hx_t6 hx_t5 [hx_b6]). apply sw_newest. now right.
  - intros e [ <- |[]] _ E. discriminate E.
Qed.
Fact sw_s11 : sw_step (sw_log hx_t5 hx_t6 vx_block6 [vx_b6] hx_group sw_10) sw_11.
Proof.
  apply (sw_add_other "20250106000000000.deltacommit"); [reflexivity|repeat split; discriminate|vm_compute; reflexivity].
Qed.
Fact sw_s12 : sw_step sw_11 sw_12.
Proof.
  apply (sw_add_other "20250107000000000.replacecommit"); [reflexivity|repeat split; discriminate|vm_compute; reflexivity].
Qed.
(** All of the second part is after the rollback. *)
Fact sw_after9 : sw_after hx_t4 sw_9 sw_12.
Proof.
  apply (sw_on _ _ sw_11); [apply (sw_on _ _ (sw_log hx_t5 hx_t6 vx_block6 [vx_b6] hx_group sw_10)); [apply (sw_on _ _ sw_10); [apply (sw_on _ _ (sw_base "f" "0-0-1" hx_t5 "b5" sw_group5 sw_9));
    [apply (sw_on _ _ sw_9); [apply after_same|exact sw_s10a|]|exact sw_s10|apply sw_later]|exact sw_s11a|]|exact sw_s11|apply sw_later]|exact sw_s12|apply sw_later]; eapply sw_later_set; reflexivity.
Qed.
Fact sw_step12 : sw_left sw_12.
Proof. exact (after_left _ _ _ _ _ _ _ _ _ _ _ _ _ _ _ sw_step9 sw_after9). Qed.
Fact sw_hist : forall g, w_hist sw_12 g = new_group_history \/ fst g = "" /\ In (snd g) ["f"; "h"; "r"] /\ w_hist sw_12 g = wx_hist g.
Proof.
  intros [pt id]. cbn [sw_12 sw_11 sw_10 sw_9 sw_8 sw_7 sw_6 sw_5 sw_4 sw_3 sw_2 sw_1 sw_other sw_base sw_log sw_append sw_drop w_logs w_hist]. unfold set_group, wx_hist. cbn [fst snd].
  destruct (String.eqb_spec pt "") as [ -> |N]; [|now left]. destruct (String.eqb_spec id "f") as [ -> |Nf]; [right; split; [reflexivity|split; [cbn [In]; tauto|reflexivity]]|].
  destruct (String.eqb_spec id "r") as [ -> |Nr]; [right; split; [reflexivity|split; [cbn [In]; tauto|reflexivity]]|]. destruct (String.eqb_spec id "h") as [ -> |Nh]; [right; split; [reflexivity|split; [cbn [In]; tauto|reflexivity]]|]. now left.
Qed.
Fact sw_clean : forall g, clean_at (w_hist sw_9 g) hx_t4.
Proof.
  intros [pt id] b x rows. cbn [sw_9 sw_8 sw_7 sw_6 sw_5 sw_4 sw_3 sw_2 sw_1 sw_other sw_base sw_log sw_append sw_drop w_logs w_hist]. unfold set_group. cbn [fst snd].
  repeat (match goal with |- context [if ?c then _ else _] => destruct c end); cbn [hx_group4 wx_group hx_group1 sw_group2 sw_group3 empty_storage w_hist new_group_history g_blocks g_failed g_rollbacks In]; try tauto.
  intros I If L. destruct If as [ <- |[]]. destruct I as [[= <- <-]|[[= <- <-]|[]]]. exists hx_t4. split; [now left|discriminate].
Qed.
Fact sw_apart : forall of : string * string -> Prop, (forall g, of g -> w_hist sw_12 g <> new_group_history) -> keys_apart 2 of (w_hist sw_12).
Proof.
  intros of H g g' x x' r r' O O'. destruct (sw_hist g) as [N|[A [B ->]]]; [now elim (H g O)|]. destruct (sw_hist g') as [N|[A' [B' ->]]]; [now elim (H g' O')|].
  apply (wx_apart (fun g => fst g = "" /\ In (snd g) ["f"; "h"; "r"])); auto.
Qed.
