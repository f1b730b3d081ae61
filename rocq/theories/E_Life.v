(** Writers and a cleaner that make the table of E_Gaps.v, for the examples of C94. *)
From Coq Require Import Sorted.
From Verif Require Import Base Str M_Utf8 M_Time M_Instant M_Timeline M_FileGroup M_Builder M_Listing M_Expr M_Log M_Config M_Reader M_Table M_Storage M_Avro M_Values M_Datum M_Json M_Objects M_Open
  S_Time S_Timeline S_FileGroup S_Builder S_Listing S_Expr S_Log S_Reader S_Config S_Table S_Avro S_Storage S_Objects S_Open S_History S_Values S_Datum S_Json S_Whole S_Deletes S_Erased S_Clean S_Gaps S_Writer S_Life
  L_Base L_Str L_Storage L_Objects L_Timeline L_Open L_Json L_Whole L_Writer L_Life E_Scan E_Open E_History E_Values E_Datum E_Json E_Whole E_Erased E_Gaps E_Writer.
Local Open Scope string_scope.

Definition lw_step := live_step wx_names 0 vx_parse vx_code vx_rank gx_rows sw_footer vx_dfs 2 3 1 hx_t3 (fun _ => False).
Definition lw_lived := lived wx_names 0 vx_parse vx_code vx_rank gx_rows sw_footer vx_dfs 2 3 1 hx_t3 (fun _ => False).
Definition lw_other (o : object) (l : life) : life := {| l_written := sw_other o (l_written l); l_dels := l_dels l; l_removed := l_removed l |}.
Definition lw_base (token x data : string) (g' : group) (dels' : deletions) (l : life) : life :=
  {| l_written := sw_base "f" token x data g' (l_written l); l_dels := set_group (l_dels l) ("", "f") dels'; l_removed := l_removed l |}.
Definition lw_clean (c : string) (l : life) : life := {| l_written := l_written l; l_dels := l_dels l; l_removed := (("", "f"), c) :: l_removed l |}.
Definition lw_nth (n : nat) : object := nth n gx_objs (wx_at "" "").
Definition lw_group2 : group :=
  {| g_versions := g_versions hx_group1; g_bases := [(hx_t1, [hx_a1; hx_b1]); (hx_t2, [hx_b1])]; g_blocks := []; g_failed := []; g_rollbacks := [] |}.
(** A commit of a and b on January 1, one that deletes a on January 2, one that writes a again on January 3; before that one
    is complete a cleaner removes the slice of January 2. *)
Definition lw_1 := lw_other (lw_nth 0) new_life.
Definition lw_2 := lw_other (lw_nth 1) (lw_base "0-0-0" hx_t1 "b1" hx_group1 [] lw_1).
Definition lw_3 := lw_other (lw_nth 2) (lw_base "0-0-1" hx_t2 "b2" lw_group2 gx_dels lw_2).
Definition lw_4 := lw_base "0-0-2" hx_t3 "b3" gx_group gx_dels lw_3.
Definition lw_5 := lw_clean hx_t2 lw_4.
Definition lw_6 := lw_other (lw_nth 3) lw_5.

Fact lw_objects_are : Permutation ix_objs (objects_now wx_names "parquet" lw_6).
Proof.
  assert (P : forall (A : Type) (a b c d e f : A), Permutation [a; b; c; d; e; f] [f; e; d; c; b; a]).
  { intros A a b c d e f. exact (Permutation_rev [a; b; c; d; e; f]). }
  assert (E : exists a b c d e f, ix_objs = [a; b; c; d; e; f] /\ objects_now wx_names "parquet" lw_6 = [f; e; d; c; b; a]).
  { exists (lw_nth 0), (lw_nth 1), (lw_nth 2), (lw_nth 3), (lw_nth 4), (lw_nth 6). split; vm_compute; reflexivity. }
  destruct E as [a [b [c [d [e [f [ -> -> ]]]]]]]. apply P.
Qed.
Lemma lw_add_other : forall n o l, o_key o = "data/t/.hoodie/" ++ n -> legal n -> existsb (String.eqb (o_key o)) (map o_key (w_others (l_written l))) = false -> lw_step l (lw_other o l).
Proof.
  intros n o l E Ln N. apply ls_other.
  - apply (metadata_other wx_names 0 n []); [exact sw_legal| |rewrite E; reflexivity]. constructor; [repeat split; discriminate|]. constructor; [exact Ln|constructor].
  - intros I. apply Bool.not_true_iff_false in N. apply N. apply existsb_exists. exists (o_key o). split; [exact I|apply String.eqb_refl].
Qed.
Fact lw_word : forall x, In x ["f"; "0-0-0"; "0-0-1"; "0-0-2"] -> word x.
Proof. intros x I. cbn [In] in I. repeat (destruct I as [ <- |I]; [repeat split; discriminate|]). destruct I. Qed.
Lemma lw_add_base : forall token x data g' dels' rows l, In token ["0-0-0"; "0-0-1"; "0-0-2"] -> In x [hx_t1; hx_t2; hx_t3] -> slt (w_last (l_written l) ("", "f")) x ->
  dwrite 2 3 1 (w_hist (l_written l) ("", "f")) (l_dels l ("", "f")) x g' dels' -> g_bases g' = (g_bases (w_hist (l_written l) ("", "f")) ++ [(x, rows)])%list -> sw_typed g' ->
  gx_rows data = Ok (hx_batch rows) -> lw_step l (lw_base token x data g' dels' l).
Proof.
  intros token x data g' dels' rows l It Ix L W B T R. refine (ls_base _ _ _ _ _ _ _ _ _ _ _ _ _ l [] "f" token x data g' dels' rows sw_dir _ _ _ L _ B T R _).
  - apply lw_word. now left.
  - apply lw_word. now right.
  - apply hx_stamp. cbn [In] in *. tauto.
  - now apply rw_write.
  - now exists (1, 1)%Z.
Qed.
Lemma lw_go : forall l l', lw_lived l -> lw_step l l' -> lw_lived l'.
Proof. intros l l' L S. exact (lived_step _ _ _ _ _ _ _ _ _ _ _ _ _ l l' L S). Qed.
Fact lw_lived1 : lw_lived lw_1.
Proof. apply (lw_go new_life); [apply lived_new|]. apply (lw_add_other "hoodie.properties"); [reflexivity|repeat split; discriminate|reflexivity]. Qed.
Fact lw_lived2 : lw_lived lw_2.
Proof.
  apply (lw_go (lw_base "0-0-0" hx_t1 "b1" hx_group1 [] lw_1)); [|apply (lw_add_other "20250101000000000.commit"); [reflexivity|repeat split; discriminate|vm_compute; reflexivity]].
  apply (lw_go lw_1); [exact lw_lived1|]. apply (lw_add_base _ _ _ _ _ [hx_a1; hx_b1]); [cbn; tauto|cbn; tauto|reflexivity| |reflexivity|sw_typed|reflexivity].
  apply (dw_rewrite 2 3 1 new_group_history [] hx_t1 [] [hx_a1; hx_b1] [] [hx_a1; hx_b1]); [intros r; split; [intros []|intros [[y [[] _]] _]]|]. split; [|split].
  - cbn. repeat constructor; cbn; intuition discriminate.
  - intros r I. exists r. auto.
  - intros r I. split; [exact I|]. destruct I as [ <- |[ <- |[]]]; hx_newer.
Qed.
Fact lw_lived3 : lw_lived lw_3.
Proof.
  apply (lw_go (lw_base "0-0-1" hx_t2 "b2" lw_group2 gx_dels lw_2)); [|apply (lw_add_other "20250102000000000.commit"); [reflexivity|repeat split; discriminate|vm_compute; reflexivity]].
  apply (lw_go lw_2); [exact lw_lived2|]. apply (lw_add_base _ _ _ _ _ [hx_b1]); [cbn; tauto|cbn; tauto|reflexivity| |reflexivity|sw_typed|reflexivity].
  apply (dw_rewrite 2 3 1 hx_group1 [] hx_t2 ["a"] [] [hx_b1] [hx_b1]).
  - intros r. split.
    + intros [ <- |[]]. split; [|intros [E|[]]; discriminate E]. exists hx_t1. split; [right; now left|]. split; [discriminate|intros [d [[] _]]].
    + intros [[y [[E|[E|[]]] _]] N]; injection E as <- <-; [exfalso; apply N; now left|now left].
  - split; [|split].
    + cbn. repeat constructor; cbn; intuition discriminate.
    + intros r I. exists r. auto.
    + intros r I. split; [exact I|]. destruct I as [ <- |[]]; hx_newer.
Qed.
Fact lw_lived4 : lw_lived lw_4.
Proof.
  apply (lw_go lw_3); [exact lw_lived3|]. apply (lw_add_base _ _ _ _ _ [hx_b1; gx_a3]); [cbn; tauto|cbn; tauto|reflexivity| |reflexivity|sw_typed|reflexivity].
  apply (dw_rewrite 2 3 1 lw_group2 gx_dels hx_t3 [] [gx_a3] [hx_b1] [hx_b1; gx_a3]).
  - intros r. split.
    + intros [ <- |[]]. split; [|intros []]. exists hx_t1. split; [right; now left|]. split; [discriminate|]. intros [d [[[= <-]|[]] _]].
    + intros [[y [[E|[E|[]]] [_ N]]] _]; injection E as <- <-; [exfalso; apply N; exists hx_t2; split; [now left|split; [reflexivity|discriminate]]|now left].
  - split; [|split].
    + cbn. repeat constructor; cbn; intuition discriminate.
    + intros r I. exists r. auto.
    + intros r I. split; [exact I|]. destruct I as [ <- |[ <- |[]]]; hx_newer.
Qed.
Fact lw_lived5 : lw_lived lw_5.
Proof.
  apply (lw_go lw_4); [exact lw_lived4|]. apply (ls_clean _ _ _ _ _ _ _ _ _ _ _ _ _ lw_4 ("", "f") hx_t2).
  - cbn. auto.
  - left. exists hx_t3. split; [cbn; auto|]. split; [reflexivity|apply sle_refl].
Qed.
Fact lw_lived6 : lw_lived lw_6.
Proof. apply (lw_go lw_5); [exact lw_lived5|]. apply (lw_add_other "20250103000000000.commit"); [reflexivity|repeat split; discriminate|vm_compute; reflexivity]. Qed.
Fact lw_hist : forall g, w_hist (l_written lw_6) g = if (String.eqb (fst g) "" && String.eqb (snd g) "f")%bool then gx_group else new_group_history.
Proof.
  intros g. cbn [lw_6 lw_5 lw_4 lw_3 lw_2 lw_1 lw_other lw_base lw_clean sw_other sw_base l_written w_hist new_life empty_storage]. unfold set_group. cbn [fst snd]. now destruct (_ && _)%bool.
Qed.
Fact lw_clean_at : forall g t, clean_at (w_hist (l_written lw_6) g) t.
Proof. intros g t. rewrite lw_hist. destruct (_ && _)%bool; intros b x rows []. Qed.
Fact lw_marked : forall e, In e (w_bases (l_written lw_6)) -> exists name o, file_in ix_objs wx_names (be_dir e) name o.
Proof.
  intros e I. assert (E : be_dir e = []) by (cbn in I; destruct I as [ <- |[ <- |[ <- |[]]]]; reflexivity). rewrite E.
  exists gx_1, (wx_at gx_1 "b1"). split; [apply ix_in; split; [unfold gx_objs; cbn [app In map gx_data fst snd]; tauto|discriminate]|]. split; [apply gx_legal; cbn; tauto|]. now rewrite wx_key.
Qed.
