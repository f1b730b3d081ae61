(** Lemmas for C94: the life of a table. *)
From Verif Require Import Base Str M_Utf8 M_Time M_FileGroup M_Listing M_Log M_Reader M_Storage M_Avro M_Values M_Objects
  S_Time S_FileGroup S_Listing S_Log S_Reader S_Avro S_Storage S_Objects S_History S_Values S_Datum S_Whole S_Writer S_Clean S_Deletes S_Erased S_Gaps S_Life
  L_Base L_Str L_Time L_Expr L_FileGroup L_Storage L_Objects L_Scan L_Log L_Reader L_History L_Writer.
Local Open Scope string_scope.

Section Inv.
Variable table : list string.
Variable format : string.
Variable depth : nat.
Variable parse_schema : string -> option avro.
Variable code : dtype -> nat.
Variable rank : dtype -> slot -> Z.
Variable parse_rows : string -> outcome record_batch.
Variable footer : string -> outcome (Z * Z).
Variable dfs : list M_Avro.field.
Variable k p s : nat.
Variable horizon : string.
Variable dropped : string * string -> Prop.
Notation live_step := (live_step table depth parse_schema code rank parse_rows footer dfs k p s horizon dropped).
Notation lived := (lived table depth parse_schema code rank parse_rows footer dfs k p s horizon dropped).
Definition erased_so (dels : string * string -> deletions) : about := fun g now h => dhistory k p s now h (dels g).
Definition cleaned_so (l : life) : Prop :=
  forall g c, slice_removed l g c = true -> (exists c', In c' (map fst (g_bases (w_hist (l_written l) g))) /\ slt c c' /\ sle c' horizon) \/ dropped g.
Definition life_kept (l : life) : Prop := kept table depth parse_schema code rank parse_rows footer dfs (erased_so (l_dels l)) (l_written l) /\ cleaned_so l.

Lemma dbases_last : forall now g dels, dhistory k p s now g dels -> forall c, In c (map fst (g_bases g)) -> sle c now.
Proof.
  intros now g dels H. induction H as [|x moved rows T M L|now g dels x g' dels' H IH T S W]; intros c I; [destruct I|destruct I as [ <- |[]]; apply sle_refl|].
  assert (J : In c (map fst (g_bases g)) \/ c = x).
  { destruct W as [gone new old rows _ _|g' W E]; [cbn [g_bases] in I; rewrite map_app in I; apply in_app_or in I as [I|[I|[]]]; auto|rewrite E in I; auto]. }
  destruct J as [J|J]; [|subst; apply sle_refl]. apply sle_lt_or_eq. left. eapply sle_slt_trans; [apply (IH c J)|exact S].
Qed.
Lemma rewrote_base : forall g dels x g' dels' rows, rewrote k p s g dels x g' dels' -> g_bases g' = (g_bases g ++ [(x, rows)])%list -> g_blocks g' = g_blocks g /\ g_rollbacks g' = g_rollbacks g.
Proof.
  intros g dels x g' dels' rows W E. assert (N : forall A (l : list A) a, l <> (l ++ [a])%list).
  { intros A l a H. apply (f_equal (@List.length A)) in H. rewrite app_length in H. cbn in H. lia. }
  destruct W as [g' dels' W|moved r -> -> M L]; [|auto]. destruct W as [gone new old rows' _ _|g' W E']; [auto|]. rewrite E' in E. now apply N in E.
Qed.
Lemma rewrote_history : forall now g dels x g' dels', dhistory k p s now g dels -> timestamp x -> slt now x -> rewrote k p s g dels x g' dels' -> dhistory k p s x g' dels'.
Proof. intros now g dels x g' dels' H T S [g0 d0 W|moved r -> -> M L]; [eapply dh_write; eauto|now constructor]. Qed.
Lemma logged_history : forall now g dels x g', dhistory k p s now g dels -> timestamp x -> slt now x -> write k p s g x g' -> g_bases g' = g_bases g -> dhistory k p s x g' dels.
Proof. intros now g dels x g' H T S W E. eapply dh_write; [exact H|exact T|exact S|]. now apply dw_log. Qed.
Lemma cleaned_more : forall l l', cleaned_so l -> (forall g c, slice_removed l' g c = slice_removed l g c) ->
  (forall g c, In c (map fst (g_bases (w_hist (l_written l) g))) -> In c (map fst (g_bases (w_hist (l_written l') g)))) -> cleaned_so l'.
Proof. intros l l' C R B g c E. rewrite R in E. destruct (C g c E) as [[c' [I L]]|D]; [|auto]. left. exists c'. auto. Qed.
Lemma set_bases : forall (f : string * string -> group) g g' (P : list (string * list (list cell))), g_bases g' = (g_bases (f g) ++ P)%list ->
  forall h c, In c (map fst (g_bases (f h))) -> In c (map fst (g_bases (set_group f g g' h))).
Proof.
  intros f g g' P E h c I. destruct (set_cases g h) as [ -> |N]; [rewrite set_same, E, map_app; apply in_or_app; now left|now rewrite set_other by exact N].
Qed.
Lemma life_step : forall l l', life_kept l -> live_step l l' -> life_kept l'.
Proof.
  intros l l' [K C] S.
  destruct S as [dir id token x data g' dels' rows g w D WI WT T S W EB TV PR FT|dir id version token x b bl vs g' g w D WI WV WT T S W B IB NR TV F ND|before e after x bl vs g' g w E T S W B NR TV F|o w O N|before o after w E|g c I R].
  - destruct (rewrote_base _ _ _ _ _ _ W EB) as [Ebl Erb]. split.
    + cbn [l_written l_dels]. apply kept_base with (H := erased_so (l_dels l)) (rows := rows); try assumption.
      * exact (dbases_last _ _ _ (k_hist _ _ _ _ _ _ _ _ _ _ K g)).
      * unfold erased_so. rewrite set_same. eapply rewrote_history; [apply (k_hist _ _ _ _ _ _ _ _ _ _ K g)|exact T|exact S|exact W].
      * intros h N X. unfold erased_so in *. now rewrite set_other by exact N.
    + eapply cleaned_more; [exact C|reflexivity|]. cbn [l_written w_hist]. now apply set_bases with (P := [(x, rows)]).
  - pose proof (proj1 (block_adds parse_schema code rank dfs _ _ _ _ _ _ B F)) as EB. split.
    + cbn [l_written l_dels]. apply kept_log with (H := erased_so (l_dels l)); try assumption; [|auto]. eapply logged_history; [apply (k_hist _ _ _ _ _ _ _ _ _ _ K g)|exact T|exact S|exact W|exact EB].
    + eapply cleaned_more; [exact C|reflexivity|]. cbn [l_written w_hist]. apply set_bases with (P := []). now rewrite app_nil_r.
  - pose proof (proj1 (block_adds parse_schema code rank dfs _ _ _ _ _ _ B F)) as EB. split.
    + cbn [l_written l_dels]. apply kept_append with (H := erased_so (l_dels l)); try assumption; [|auto]. eapply logged_history; [apply (k_hist _ _ _ _ _ _ _ _ _ _ K g)|exact T|exact S|exact W|exact EB].
    + eapply cleaned_more; [exact C|reflexivity|]. cbn [l_written w_hist]. apply set_bases with (P := []). now rewrite app_nil_r.
  - split; [now apply kept_other|]. eapply cleaned_more; [exact C|reflexivity|auto].
  - split; [now apply kept_remove with (o := o)|]. eapply cleaned_more; [exact C|reflexivity|auto].
  - split; [exact K|]. intros g0 c0 E. cbn [l_written]. unfold slice_removed in E. cbn [l_removed existsb] in E. apply Bool.orb_true_iff in E as [E|E]; [|now apply C].
    apply andb_true_iff in E as [E E3]. apply andb_true_iff in E as [E1 E2]. apply String.eqb_eq in E1, E2, E3. cbn [fst snd] in *.
    assert (g0 = g) by (destruct g, g0; cbn in *; congruence). subst. exact R.
Qed.
Lemma lived_kept : forall l, lived l -> life_kept l.
Proof.
  intros l L. induction L as [|l l' L IH S]; [|eapply life_step; eauto]. split; [apply kept_empty; intros g; constructor|]. intros g c E. discriminate E.
Qed.
End Inv.

Section Objects.
Variable table : list string.
Variable format : string.
Variable depth : nat.
Variable parse_schema : string -> option avro.
Variable code : dtype -> nat.
Variable rank : dtype -> slot -> Z.
Variable parse_rows : string -> outcome record_batch.
Variable footer : string -> outcome (Z * Z).
Variable dfs : list M_Avro.field.
Variable k p s : nat.
Variable horizon : string.
Variable dropped : string * string -> Prop.
Hypothesis TL : Forall legal table.
Hypothesis FW : word format.
Hypothesis FC : format <> "crc".
Variable l : life.
Hypothesis LK : life_kept table depth parse_schema code rank parse_rows footer dfs k p s horizon dropped l.
Notation w := (l_written l).
Notation all := (objects_of table format w).
Let K := proj1 LK.
Variable objs : list object.
Hypothesis PE : Permutation objs (objects_now table format l).
Notation partitioned := (has_partitions depth).
Notation base_name e := (base_text format (be_id e) (be_token e) (be_commit e)).
Notation log_name e := (log_text (le_id e) (le_base e) (le_version e) (le_token e)).
Definition still_there (g : string * string) (c : string) : bool := negb (slice_removed l g c).

Lemma life_erased : forall t, (forall g, clean_at (w_hist w g) t) -> erased_by all table format partitioned parse_schema code rank parse_rows dfs k p s t (w_hist w) (l_dels l).
Proof.
  intros t CL g c HB. exists (w_last w g), (blocks_at w (fst g)). split; [apply (k_hist _ _ _ _ _ _ _ _ _ _ K)|]. split; [apply CL|].
  exact (left_out table format depth _ _ _ _ _ _ TL FW FC _ w K all (Permutation_refl _) g c HB).
Qed.
Lemma now_in : forall o, In o objs <-> (exists e, In e (w_bases w) /\ still_there (be_group e) (be_commit e) = true /\ o = base_object table format e)
  \/ (exists e, In e (w_logs w) /\ still_there (le_group e) (le_base e) = true /\ o = log_object table e) \/ In o (w_others w).
Proof.
  intros o. assert (X : In o objs <-> In o (objects_now table format l)) by (split; apply Permutation_in; [exact PE|now apply Permutation_sym]).
  rewrite X. unfold objects_now. rewrite !in_app_iff, !in_map_iff. split.
  - intros [[e [E I]]|[[e [E I]]|I]]; [left|right; left|auto]; apply filter_In in I as [I J]; exists e; auto.
  - intros [[e [I [J E]]]|[[e [I [J E]]]|I]]; [left|right; left|auto]; exists e; (split; [auto|]); apply filter_In; auto.
Qed.
Lemma now_set : NoDup objs.
Proof.
  apply (Permutation_NoDup (Permutation_sym PE)). assert (N : NoDup all).
  { apply (NoDup_map_inv o_key). exact (proj2 (left_proper table format depth _ _ _ _ _ _ TL FW FC _ w K all (Permutation_refl _))). }
  assert (F : forall A B (f : A -> B) (q : A -> bool) a b, NoDup (map f a ++ b) -> NoDup (map f (filter q a) ++ b)).
  { intros A B f q a. induction a as [|x a IH]; intros b H; [exact H|]. cbn [map List.app filter] in *. inversion H as [|? ? NI H']; subst. specialize (IH b H'). destruct (q x); [|exact IH]. cbn [map List.app]. constructor; [|exact IH].
    intros I. apply NI. apply in_app_or in I as [I|I]; apply in_or_app; [left|now right]. apply in_map_iff in I as [y [E I]]. apply filter_In in I as [I _]. apply in_map_iff. eauto. }
  unfold objects_of in N. unfold objects_now. apply F.
  assert (G : forall A (a b : list A), NoDup (a ++ b) -> NoDup (b ++ a)) by (intros A a b; apply Permutation_NoDup, Permutation_app_comm).
  apply G. rewrite <- app_assoc. apply F. rewrite app_assoc. apply G. exact N.
Qed.
(** Which slice an object belongs to. *)
Lemma base_slice : forall e g c, In e (w_bases w) -> (slice_object all table format partitioned g c (base_object table format e) <-> be_group e = g /\ be_commit e = c).
Proof.
  intros e g c I. pose proof (base_in table format depth _ _ _ _ _ _ FW FC _ w K all (Permutation_refl _) e I) as FI.
  destruct (base_facts table format depth _ _ _ _ _ _ FW FC _ w K e I) as [D [W1 [W2 [W3 [L [NM BN]]]]]]. split.
  - intros [dir [name [OP [FJ [m [EN S]]]]]]. destruct (OP) as [F [EP _]].
    assert (X : (dir ++ [name])%list = (be_dir e ++ [base_name e])%list).
    { apply (same_place table TL); [apply D|exact L|apply Forall_app; split; [exact F|constructor; [apply FJ|constructor]]|]. rewrite <- (proj2 (proj2 FJ)). reflexivity. }
    apply app_inj_tail in X as [ -> -> ]. destruct S as [[b [[_ [_ [_ B]]] [E1 E2]]]|[f [[_ [_ [NB _]]] _]]].
    + rewrite EN in B. rewrite base_text_file in B by assumption. injection B as <-. cbn [bf_file_id bf_commit] in *. split; [|exact E2]. unfold be_group. rewrite <- EP, E1. now destruct g.
    + rewrite EN in NB. contradiction.
  - intros [ <- <- ]. exists (be_dir e), (base_name e). split; [exact (data_partition table format depth _ _ _ _ _ _ TL FW FC _ w K all (Permutation_refl _) _ _ _ D FI)|]. split; [exact FI|].
    exists (new_meta (base_name e) 0%Z). split; [reflexivity|]. left. eexists. split; [split; [now left|split; [exact NM|split; [exact BN|now apply base_text_file]]]|]. auto.
Qed.
Lemma log_slice : forall e g c, In e (w_logs w) -> (slice_object all table format partitioned g c (log_object table e) <-> le_group e = g /\ le_base e = c).
Proof.
  intros e g c I. pose proof (log_in table format depth _ _ _ _ _ _ FW _ w K all (Permutation_refl _) e I) as FI.
  destruct (log_facts table format depth _ _ _ _ _ _ FW _ w K e I) as [D [W1 [W2 [W3 [W4 [L [NM BN]]]]]]]. split.
  - intros [dir [name [OP [FJ [m [EN S]]]]]]. destruct (OP) as [F [EP _]].
    assert (X : (dir ++ [name])%list = (le_dir e ++ [log_name e])%list).
    { apply (same_place table TL); [apply D|exact L|apply Forall_app; split; [exact F|constructor; [apply FJ|constructor]]|]. rewrite <- (proj2 (proj2 FJ)). reflexivity. }
    apply app_inj_tail in X as [ -> -> ]. destruct S as [[b [[_ [_ [B _]]] _]]|[f [[_ [_ [_ B]]] [E1 E2]]]].
    + rewrite EN in B. contradiction.
    + rewrite EN in B. rewrite log_text_file in B by assumption. injection B as <-. cbn [lf_file_id lf_base_commit] in *. split; [|exact E2]. unfold le_group. rewrite <- EP, E1. now destruct g.
  - intros [ <- <- ]. exists (le_dir e), (log_name e). split; [exact (data_partition table format depth _ _ _ _ _ _ TL FW FC _ w K all (Permutation_refl _) _ _ _ D FI)|]. split; [exact FI|].
    exists (new_meta (log_name e) 0%Z). split; [reflexivity|]. right. eexists. split; [split; [now left|split; [exact NM|split; [exact BN|now apply log_text_file]]]|]. auto.
Qed.
Lemma other_slice : forall o g c, In o (w_others w) -> ~ slice_object all table format partitioned g c o.
Proof.
  intros o g c I [dir [name [OP [[_ [L E]] [m [EN S]]]]]]. pose proof (partition_data table format depth _ _ _ _ _ _ TL FW FC _ w K all (Permutation_refl _) _ _ OP) as D.
  destruct (k_others _ _ _ _ _ _ _ _ _ _ K) as [O _]. rewrite Forall_forall in O.
  assert (NE : (dir ++ [name])%list <> []) by (destruct dir; discriminate). assert (FL : Forall legal (dir ++ [name])) by (apply Forall_app; split; [apply D|auto]).
  destruct (proj2 (O o I) (dir ++ [name])%list NE FL E) as [B|[d [n [C [_ M]]]]].
  - elim (beside_data table depth _ _ _ _ _ _ _ w K _ _ D B).
  - apply app_inj_tail in C as [_ <- ]. rewrite <- EN in M. destruct S as [[b [[_ [NM _]] _]]|[f [[_ [NM _]] _]]]; contradiction.
Qed.
Hypothesis marked : forall e, In e (w_bases w) -> exists name o, file_in objs table (be_dir e) name o.
Lemma life_removed : slices_removed all objs table format partitioned still_there.
Proof.
  constructor.
  - exact now_set.
  - intros o. rewrite now_in, (in_objects table format w all (Permutation_refl _)). split.
    + intros [[e [I [J ->]]]|[[e [I [J ->]]]|I]].
      * split; [left; eauto|]. intros g c S. apply (base_slice e g c I) in S as [ <- <- ]. exact J.
      * split; [right; left; eauto|]. intros g c S. apply (log_slice e g c I) in S as [ <- <- ]. exact J.
      * split; [auto|]. intros g c S. now apply other_slice in S.
    + intros [[[e [I ->]]|[[e [I ->]]|I]] H]; [left|right; left|auto]; exists e; (split; [exact I|split; [|reflexivity]]); apply H; [now apply base_slice|now apply log_slice].
  - intros dir name o F FI. pose proof FI as [I [L E]]. apply (in_objects table format w all (Permutation_refl _)) in I.
    assert (X : forall d n, Forall legal d -> legal n -> o_key o = key_of (table ++ d ++ [n]) -> dir = d).
    { intros d n Fd Ln E'. rewrite E in E'. apply (same_place table TL) in E'; [|exact F|exact L|apply Forall_app; auto]. now apply app_inj_tail in E' as [ -> _ ]. }
    destruct I as [[e [I ->]]|[[e [I ->]]|I]].
    + destruct (base_facts table format depth _ _ _ _ _ _ FW FC _ w K e I) as [D [_ [_ [_ [Ln _]]]]]. rewrite (X (be_dir e) (base_name e) (proj1 D) Ln eq_refl). now apply marked.
    + destruct (log_facts table format depth _ _ _ _ _ _ FW _ w K e I) as [D [_ [_ [_ [_ [Ln _]]]]]]. rewrite (X (le_dir e) (log_name e) (proj1 D) Ln eq_refl).
      destruct (k_log _ _ _ _ _ _ _ _ _ _ K e I) as [_ [_ [_ [_ [J _]]]]]. apply in_map_iff in J as [[c rows] [Ec J]]. destruct (k_bases _ _ _ _ _ _ _ _ _ _ K _ _ _ J) as [e' [I' [EG _]]].
      replace (le_dir e) with (be_dir e'); [now apply marked|]. apply paths_inj; [apply (base_facts table format depth _ _ _ _ _ _ FW FC _ w K e' I')|apply D|exact (f_equal fst EG)].
    + exists name, o. split; [apply now_in; auto|auto].
Qed.
Lemma life_shown : forall t g c, sle horizon t -> ~ dropped g -> shown_slice all table format partitioned t g c -> still_there g c = true.
Proof.
  intros t g c LT ND [HB [Lc M]]. unfold still_there. destruct (slice_removed l g c) eqn:E; [exfalso|reflexivity].
  destruct (proj2 LK g c E) as [[c' [I [S Lh]]]|D]; [|contradiction]. apply (slt_irrefl c). eapply slt_sle_trans; [exact S|].
  apply M; [|eapply sle_trans; eauto]. now apply (left_bases table format depth _ _ _ _ _ _ TL FW FC _ w K all (Permutation_refl _)).
Qed.
End Objects.
