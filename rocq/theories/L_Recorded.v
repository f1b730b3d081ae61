(** Lemmas for C97: what writers that record their commits leave. *)
From Verif Require Import Base Str M_Utf8 M_Time M_Instant M_FileGroup M_Builder M_Listing M_Log M_Reader M_Storage M_Avro M_Values M_Objects M_Json
  S_Time S_Timeline S_FileGroup S_Builder S_Table S_Listing S_Log S_Reader S_Avro S_Storage S_Objects S_History S_Incremental S_Values S_Datum S_Json S_Whole S_Changes S_Writer S_Recorded
  L_Base L_Str L_Time L_Timeline L_Expr L_FileGroup L_Storage L_Objects L_Scan L_Log L_Reader L_History L_Json L_WholeChanges L_Writer.
Local Open Scope string_scope.

(** ** What a write adds *)
Section Adds.
Variable k p s : nat.
Lemma rollbacks_later : forall now g, history k p s now g -> (forall x, In x (g_failed g) -> sle x now) /\ (forall b y x, In (b, y, x) (g_rollbacks g) -> slt x y).
Proof.
  intros now g H. induction H as [|x moved rows T M L|now g x g' H [IH1 IH2] T S W].
  - split; [intros x []|intros b y x []].
  - split; [intros y []|intros b y z []].
  - assert (Q : forall y, sle y now -> sle y x) by (intros y Ly; apply sle_lt_or_eq; left; eapply sle_slt_trans; eassumption).
    destruct W as [new rows _|b new _|rows _|b rows _|y b rows Iy _]; cbn [g_failed g_rollbacks]; (split; [intros z I|intros b0 z y0 I]); eauto.
    + apply in_app_or in I as [I|[ <- |[]]]; [eauto|apply sle_refl].
    + apply in_app_or in I as [I|[I|[]]]; [eauto|]. injection I as _ <- <-. eapply sle_slt_trans; [|exact S]. now apply IH1.
Qed.
Lemma wrote_adds : forall g x g', wrote k p s g x g' ->
  (forall c, In c (map fst (g_bases g')) <-> In c (map fst (g_bases g)) \/ c = x /\ In x (map fst (g_bases g')))
  /\ (forall b y rows, In (b, y, rows) (g_blocks g') -> In (b, y, rows) (g_blocks g) \/ y = x)
  /\ (forall y, In y (g_failed g) -> In y (g_failed g')) /\ (forall y, In y (g_failed g') -> In y (g_failed g) \/ y = x).
Proof.
  intros g x g' [g0 W|moved rows -> M L].
  - destruct W; cbn [g_bases g_blocks g_failed]; (split; [intros c; rewrite ?map_app, ?in_app_iff; cbn [map fst In]|split; [intros b0 y0 rows0; rewrite ?in_app_iff; cbn [In]|split; intros y0; rewrite ?in_app_iff; cbn [In]]]);
      try tauto; intuition (subst; auto); try (match goal with E : (_, _, _) = _ |- _ => injection E as _ <- _; auto end).
  - cbn. intuition.
Qed.
End Adds.

Section Rec.
Variable table : list string.
Variable format : string.
Variable depth : nat.
Variable parse_schema : string -> option avro.
Variable code : dtype -> nat.
Variable rank : dtype -> slot -> Z.
Variable parse_rows : string -> outcome record_batch.
Variable footer : string -> outcome (Z * Z).
Variable dfs : list M_Avro.field.
Variable k p s ct : nat.
Variable number_of : string -> option Z.
Variable collect : list (string * json) -> list (string * json).
Hypothesis TL : Forall legal table.
Notation step := (step table format depth parse_schema code rank parse_rows footer dfs k p s).
Notation left := (left table format depth parse_schema code rank parse_rows footer dfs k p s).
Notation kept := (kept table depth parse_schema code rank parse_rows footer dfs (written_so k p s)).
Notation record_step := (record_step table format depth parse_schema code rank parse_rows footer dfs k p s ct number_of collect).
Notation recorded_left := (recorded_left table format depth parse_schema code rank parse_rows footer dfs k p s ct number_of collect).
Notation committed := (committed table number_of collect).
Notation timeline_key := (timeline_key table).
Notation tells := (tells format).
Definition same_file (e e' : log_entry) : Prop := le_dir e = le_dir e' /\ le_id e = le_id e' /\ le_base e = le_base e' /\ le_version e = le_version e' /\ le_token e = le_token e'.
Lemma same_facts : forall e e', same_file e e' -> le_group e = le_group e' /\ le_base e = le_base e' /\ log_entry_name e = log_entry_name e'.
Proof. intros e e' [A [B [C [D E]]]]. unfold le_group, log_entry_name. rewrite A, B, C, D, E. auto. Qed.
Lemma same_refl : forall e, same_file e e.
Proof. repeat split. Qed.

Lemma step_files : forall w w', step w w' ->
  (forall e, In e (w_bases w) -> In e (w_bases w'))
  /\ (forall e, In e (w_logs w) -> exists e', In e' (w_logs w') /\ same_file e e')
  /\ (forall e' bl vs, In e' (w_logs w') -> In (bl, vs) (le_blocks e') ->
       (exists e, In e (w_logs w) /\ same_file e e' /\ In (bl, vs) (le_blocks e))
       \/ block_fine parse_schema dfs (w_last w' (le_group e')) bl vs /\ w_last w' (le_group e') <> w_last w (le_group e')).
Proof.
  intros w w' S. destruct S as [dir id token x data g' rows g D WI WT T S W EB TV PR FT|dir id version token x b bl vs g' g D WI WV WT T S W B IB TV F ND|before e after x bl vs g' g E T S W B TV F|o O N|before o after E];
    cbn [w_bases w_logs w_last]; (split; [intros e0 I; try exact I; now right|]).
  - split; [intros e I; exists e; auto using same_refl|]. intros e' bl vs I J. left. exists e'. auto using same_refl.
  - split; [intros e I; exists e; split; [now right|apply same_refl]|]. intros e' bl' vs' [ <- |I] J; [|left; exists e'; auto using same_refl].
    right. change (le_group {| le_dir := dir; le_id := id; le_base := b; le_version := version; le_token := token; le_blocks := [(bl, vs)] |}) with g. rewrite set_same. destruct J as [J|[]]. injection J as <- <-.
    split; [exact F|]. intros Q. rewrite <- Q in S. now apply slt_irrefl in S.
  - split.
    + intros e0 I. rewrite E in I. apply in_app_or in I as [I|[ <- |I]]; [exists e0|eexists|exists e0].
      * split; [apply in_or_app; now left|apply same_refl].
      * split; [apply in_elt|repeat split].
      * split; [apply in_or_app; right; now right|apply same_refl].
    + intros e' bl' vs' I J. apply in_app_or in I as [I|[ <- |I]].
      * left. exists e'. rewrite E. split; [apply in_or_app; now left|]. auto using same_refl.
      * cbn [le_blocks] in J. apply in_app_or in J as [J|[J|[]]]; [left; exists e; rewrite E; split; [apply in_elt|split; [repeat split|exact J]]|]. injection J as <- <-. right.
        match goal with |- context [le_group ?q] => change (le_group q) with g end. rewrite set_same. split; [exact F|]. intros Q. rewrite <- Q in S. now apply slt_irrefl in S.
      * left. exists e'. rewrite E. split; [apply in_or_app; right; now right|]. auto using same_refl.
  - split; [intros e I; exists e; auto using same_refl|]. intros e' bl vs I J. left. exists e'. auto using same_refl.
  - split; [intros e I; exists e; auto using same_refl|]. intros e' bl vs I J. left. exists e'. auto using same_refl.
Qed.

(** Commits go on to tell what they wrote. *)
Lemma tells_kept : forall w w' ts m, step w w' -> tells w ts m ->
  (forall g, w_last w' g <> w_last w g -> ts <> w_last w' g /\ forall c n, names_base m (fst g) (snd g) c n -> slt ts (w_last w' g)) -> tells w' ts m.
Proof.
  intros w w' ts m S T H. destruct (step_files w w' S) as [SB [SL SK]]. pose proof (step_group _ _ _ _ _ _ _ _ _ _ _ _ _ _ S) as SG.
  assert (CH : forall g, slt (w_last w g) (w_last w' g) -> w_last w' g <> w_last w g) by (intros g L Q; rewrite Q in L; now apply slt_irrefl in L).
  constructor.
  - intros g W. apply (t_groups _ _ _ _ T). destruct (SG g) as [[_ Q]|[L Wr]]; [now rewrite <- Q|]. destruct (wrote_adds _ _ _ _ _ _ Wr) as [A1 [A2 [A3 A4]]]. destruct (H g (CH g L)) as [N _].
    destruct W as [W|[[b [rows W]] NF]].
    + left. apply A1 in W as [W|[W _]]; [exact W|contradiction].
    + right. split; [|intros I; apply NF; now apply A3]. apply A2 in W as [W|W]; [eauto|contradiction].
  - intros part id c n N. destruct (t_base _ _ _ _ T _ _ _ _ N) as [A [e [I [E1 E2]]]]. split; [|exists e; split; [now apply SB|auto]].
    intros b Ib Lb. destruct (SG (part, id)) as [[_ Q]|[L Wr]]; [rewrite Q in Ib; auto|]. destruct (wrote_adds _ _ _ _ _ _ Wr) as [A1 _]. apply A1 in Ib as [Ib|[ -> _]]; [auto|].
    destruct (H (part, id) (CH _ L)) as [_ H']. specialize (H' c n N). exfalso. apply (slt_irrefl ts). eapply slt_sle_trans; eassumption.
  - intros e' bl vs I J A NF. destruct (SK e' bl vs I J) as [[e [Ie [SF Je]]]|[F N]].
    + destruct (same_facts _ _ SF) as [EG [EB EN]]. rewrite <- EG, <- EB, <- EN. apply (t_logs _ _ _ _ T e bl vs Ie Je A). intros X. apply NF. rewrite <- EG.
      destruct (SG (le_group e)) as [[_ Q]|[_ Wr]]; [now rewrite Q|]. now apply (wrote_adds _ _ _ _ _ _ Wr).
    + pose proof (instant_once parse_schema dfs _ _ _ _ F A) as E. now elim (proj1 (H _ N)).
  - intros part id c l N. destruct (t_log_files _ _ _ _ T _ _ _ _ N) as [e [I [E1 [E2 E3]]]]. destruct (SL e I) as [e' [I' SF]]. destruct (same_facts _ _ SF) as [EG [EB EN]].
    exists e'. split; [exact I'|]. split; [congruence|]. split; congruence.
Qed.

(** ** Names of commits *)
Lemma action_fine : forall a, fine (action_str a) /\ has_char "." (action_str a) = false.
Proof. intros []; (split; [apply fine_lit; reflexivity|reflexivity]). Qed.
Lemma commit_legal : forall ts a, timestamp ts -> legal (timeline_name ts a Completed).
Proof.
  intros ts a T. rewrite name_is. destruct (timestamp_word ts T) as [W _]. destruct (action_fine a) as [F _]. apply fine_legal.
  - apply fine_app; [now apply fine_word|]. apply fine_app; [now apply fine_lit|exact F].
  - rewrite !length_app_s. destruct a; cbn; lia.
Qed.
Lemma commit_name_inj : forall ts a ts' a', has_char "." ts = false -> has_char "." ts' = false -> timeline_name ts a Completed = timeline_name ts' a' Completed -> ts = ts' /\ a = a'.
Proof.
  intros ts a ts' a' D D' E. rewrite !name_is in E. apply (first_part ".") in E as [ -> E]; [|exact D|exact D']. split; [reflexivity|]. destruct a, a'; try reflexivity; discriminate E.
Qed.
Lemma commit_dot : forall ts a ts' a', has_char "." ts = false -> has_char "." ts' = false -> timeline_name ts a Completed ++ "." <> timeline_name ts' a' Completed.
Proof.
  intros ts a ts' a' D D' E. rewrite !name_is, !app_assoc_s in E. apply (first_part ".") in E as [ -> E]; [|exact D|exact D']. destruct a, a'; discriminate E.
Qed.
Lemma timeline_keys : forall n n', legal n -> legal n' -> timeline_key n = timeline_key n' -> n = n'.
Proof.
  intros n n' Ln Ln' E. assert (H : legal ".hoodie") by (repeat split; discriminate).
  assert (F : forall x, legal x -> Forall legal (table ++ [".hoodie"; x])) by (intros x Lx; apply Forall_app; split; [exact TL|constructor; [exact H|constructor; [exact Lx|constructor]]]).
  apply keys_inj in E; [|now apply F|now apply F].
  apply app_inv_head in E. congruence.
Qed.

(** ** What is kept by every step *)
Definition stated (w : storage) (o : object) : Prop := exists ts a m, o_key o = timeline_key (timeline_name ts a Completed) /\ timestamp ts /\ metadata_text number_of collect m (o_data o)
  /\ writes_fine m /\ unique_stats m /\ (a = ReplaceCommit -> replace_metadata_ok m) /\ tells w ts m.
Record rkept (w : storage) : Prop := {
  rk_left : left w;
  rk_stamped : forall g, stamped ct (w_hist w g);
  rk_commits : forall o, In o (w_others w) -> commit_like table o -> stated w o
}.
Lemma text_once : forall m m' d, metadata_text number_of collect m d -> metadata_text number_of collect m' d -> m = m'.
Proof. intros m m' d A B. apply slice_text in A. apply slice_text in B. congruence. Qed.
Lemma stated_is : forall w o ts a m, stated w o -> o_key o = timeline_key (timeline_name ts a Completed) -> timestamp ts -> metadata_text number_of collect m (o_data o) ->
  writes_fine m /\ unique_stats m /\ (a = ReplaceCommit -> replace_metadata_ok m) /\ tells w ts m.
Proof.
  intros w o ts a m [ts' [a' [m' [E [T [X Y]]]]]] E' T' X'. rewrite E in E'. apply timeline_keys in E'; [|now apply commit_legal|now apply commit_legal].
  apply commit_name_inj in E' as [ -> -> ]; [|now apply timestamp_dot|now apply timestamp_dot]. now rewrite (text_once _ _ _ X' X).
Qed.
Lemma stated_others : forall w l o, stated w o -> stated (with_others w l) o.
Proof.
  intros w l o [ts [a [m [A [B [C [D [E [F T]]]]]]]]]. exists ts, a, m. repeat (split; [assumption|]). destruct T as [T1 T2 T3 T4]. constructor; assumption.
Qed.
Lemma rkept_step : forall w w', rkept w -> record_step w w' -> rkept w'.
Proof.
  intros w w' K S. destruct S as [w' S EO ST LT|o O NC NK|o ts a m E T X WF US RO TE NK|before o after E].
  - constructor.
    + eapply left_step; [apply (rk_left w K)|exact S].
    + exact ST.
    + intros o I C. rewrite EO in I. pose proof (rk_commits w K o I C) as [ts [a [m [A1 [A2 [A3 [A4 [A5 [A6 A7]]]]]]]]]. exists ts, a, m. repeat (split; [assumption|]).
      apply (tells_kept w w' ts m S A7). intros g N. apply (LT g ts a m N). split; [exact A2|]. exists o. auto.
  - constructor; cbn [w_others w_hist with_others].
    + eapply left_step; [apply (rk_left w K)|]. now apply st_other.
    + apply (rk_stamped w K).
    + intros o' [ <- |I] C; [contradiction|]. apply stated_others. now apply (rk_commits w K).
  - constructor; cbn [w_others w_hist with_others].
    + eapply left_step; [apply (rk_left w K)|]. apply st_other; [|exact NK]. apply (metadata_other table depth (timeline_name ts a Completed) []); [exact TL| |exact E]. constructor; [repeat split; discriminate|]. constructor; [now apply commit_legal|constructor].
    + apply (rk_stamped w K).
    + intros o' [ <- |I] C; apply stated_others; [|now apply (rk_commits w K)]. exists ts, a, m. auto 8.
  - constructor; cbn [w_others w_hist with_others].
    + eapply left_step; [apply (rk_left w K)|]. exact (st_remove _ _ _ _ _ _ _ _ _ _ _ _ w before o after E).
    + apply (rk_stamped w K).
    + intros o' I C. apply stated_others. apply (rk_commits w K); [|exact C]. rewrite E. apply in_app_or in I as [I|I]; apply in_or_app; [now left|right; now right].
Qed.
Lemma recorded_kept : forall w, recorded_left w -> rkept w.
Proof.
  intros w L. induction L as [|w w' L IH S]; [|eapply rkept_step; eauto]. constructor; [apply left_empty|intros g x r []|intros o []].
Qed.
(** ** The objects *)
Section Objects.
Hypothesis FW : word format.
Hypothesis FC : format <> "crc".
Variable w : storage.
Hypothesis R : rkept w.
Variable objs : list object.
Hypothesis PE : Permutation objs (objects_of table format w).
Variable start e : string.
Notation partitioned := (has_partitions depth).
Let K : kept w := left_kept _ _ _ _ _ _ _ _ _ _ _ _ w (rk_left w R).
Lemma timeline_object : forall n o, file_in objs table [".hoodie"] n o <-> In o (w_others w) /\ legal n /\ o_key o = timeline_key n.
Proof.
  intros n o. split.
  - intros [I [L E]]. split; [|split; [exact L|exact E]].
    assert (H : legal ".hoodie") by (repeat split; discriminate). assert (F : Forall legal [".hoodie"; n]) by (constructor; [exact H|constructor; [exact L|constructor]]).
    assert (NO : forall d x, data_dir depth d -> [".hoodie"; n] <> (d ++ [x])%list).
    { intros [|top d] x [_ [_ D]] Q; [discriminate Q|]. injection Q as <- _. apply (D ".hoodie" d eq_refl). now left. }
    apply (in_objects table format w objs PE) in I as [[b [Ib ->]]|[[b [Ib ->]]|I]]; [| |exact I]; exfalso.
    + destruct (base_facts table format depth _ _ _ _ _ _ FW FC _ w K b Ib) as [D [_ [_ [_ [Lb _]]]]]. apply (NO (be_dir b) (base_text format (be_id b) (be_token b) (be_commit b)) D).
      eapply (same_place table TL); [apply D|exact Lb|exact F|]. exact E.
    + destruct (log_facts table format depth _ _ _ _ _ _ FW _ w K b Ib) as [D [_ [_ [_ [_ [Lb _]]]]]]. apply (NO (le_dir b) (log_text (le_id b) (le_base b) (le_version b) (le_token b)) D).
      eapply (same_place table TL); [apply D|exact Lb|exact F|]. exact E.
  - intros [I [L E]]. split; [apply (in_objects table format w objs PE); auto|]. split; [exact L|exact E].
Qed.
Notation commit := (commit_object objs table number_of collect start e).
Lemma commit_is : forall ts a m, commit ts a m <-> committed w ts a m /\ slt start ts /\ sle ts e.
Proof.
  intros ts a m. split.
  - intros [o [F [T [L1 [L2 X]]]]]. apply timeline_object in F as [I [_ E]]. split; [split; [exact T|exists o; auto]|auto].
  - intros [[T [o [I [E X]]]] [L1 L2]]. exists o. split; [apply timeline_object; split; [exact I|split; [now apply commit_legal|exact E]]|]. auto.
Qed.
Lemma commit_like_is : forall o ts a, timestamp ts -> o_key o = timeline_key (timeline_name ts a Completed) -> commit_like table o.
Proof. intros o ts a T E. exists ts, a. split; [now apply timestamp_dot|]. now left. Qed.
Lemma commit_tells : forall ts a m, commit ts a m -> writes_fine m /\ unique_stats m /\ (a = ReplaceCommit -> replace_metadata_ok m) /\ tells w ts m.
Proof.
  intros ts a m C. apply commit_is in C as [[T [o [I [E X]]]] _]. apply (stated_is w o ts a m); try assumption. apply (rk_commits w R o I). eapply commit_like_is; eassumption.
Qed.
Lemma recorded_timeline : timeline_in_order objs table.
Proof.
  intros ts a o D. split.
  - intros F. apply timeline_object in F as [I [L E]]. destruct (rk_commits w R o I) as [ts' [a' [m [E' [T _]]]]]; [exists ts, a; auto|].
    rewrite E in E'. apply timeline_keys in E'; [|exact L|now apply commit_legal]. apply commit_name_inj in E' as [ -> _ ]; [exact T|exact D|now apply timestamp_dot].
  - intros F. apply timeline_object in F as [I [L E]]. destruct (rk_commits w R o I) as [ts' [a' [m [E' [T _]]]]]; [exists ts, a; auto|].
    rewrite E in E'. apply timeline_keys in E'; [|exact L|now apply commit_legal]. apply commit_dot in E'; [exact E'|exact D|now apply timestamp_dot].
Qed.
Lemma recorded_once : one_stat_each objs table number_of collect start e.
Proof. intros ts a m C. apply (commit_tells ts a m C). Qed.
Lemma recorded_in_order : commits_in_order objs table number_of collect start e.
Proof.
  split.
  - intros ts a o F T L1 L2. apply timeline_object in F as [I [L E]]. destruct (rk_commits w R o I (commit_like_is o ts a T E)) as [ts' [a' [m [E' [T' [X [WF [_ [RO _]]]]]]]]].
    rewrite E in E'. apply timeline_keys in E'; [|exact L|now apply commit_legal]. apply commit_name_inj in E' as [ -> -> ]; [|now apply timestamp_dot|now apply timestamp_dot]. eauto.
  - intros ts a m ts' a' m' part id c n n' C C' N N'. destruct (commit_tells _ _ _ C) as [_ [_ [_ T]]]. destruct (commit_tells _ _ _ C') as [_ [_ [_ T']]].
    destruct (t_base _ _ _ _ T _ _ _ _ N) as [_ [b [I [E1 [E2 [ <- _]]]]]]. destruct (t_base _ _ _ _ T' _ _ _ _ N') as [_ [b' [I' [E1' [E2' [ <- _]]]]]].
    rewrite (map_once _ _ base_id (w_bases w) b b'); [reflexivity|apply (k_base_once _ _ _ _ _ _ _ _ _ w K)|exact I|exact I'|]. unfold base_id. congruence.
Qed.
Hypothesis AC : all_completed table number_of collect start e w.
Hypothesis FU : failures_undone table number_of collect start e w.
Hypothesis LN : forall g, later_is_newer k p s (w_hist w g) e.
Lemma write_time : forall g x, wrote_at (w_hist w g) x -> slt start x -> sle x e -> exists a m, commit x a m.
Proof. intros g x W L1 L2. destruct (AC g x W L1 L2) as [a [m C]]. exists a, m. apply commit_is. auto. Qed.
Lemma named_is : forall g dir l, object_partition objs table partitioned (fst g) dir -> directory_listing objs table dir l -> forall fm c,
  log_recorded objs table number_of collect start e (fst g) (snd g) fm c <-> exists ts a m lf f, commit ts a m /\ names_log_file m (fst g) (snd g) c lf /\ In f (w_logs w) /\ le_group f = g /\ le_base f = c
    /\ log_file_name lf = log_entry_name f /\ fm_name fm = log_entry_name f.
Proof.
  intros g dir l OP DL fm c. split.
  - intros [ts [a [m [lf [C [N E]]]]]]. destruct (commit_tells _ _ _ C) as [_ [_ [_ T]]]. destruct (t_log_files _ _ _ _ T _ _ _ _ N) as [f [I [E1 [E2 E3]]]].
    exists ts, a, m, lf, f. split; [exact C|]. split; [exact N|]. split; [exact I|]. split; [rewrite E1; now destruct g|]. split; [exact E2|]. split; [exact E3|congruence].
  - intros [ts [a [m [lf [f [C [N [_ [_ [_ [E1 E2]]]]]]]]]]]. exists ts, a, m, lf. split; [exact C|]. split; [exact N|congruence].
Qed.
Lemma recorded_changes : changes_written objs table number_of collect start e format partitioned parse_schema code rank parse_rows dfs k p s ct (w_hist w).
Proof.
  split.
  - intros ts a m part id c n C N. destruct (commit_tells _ _ _ C) as [_ [_ [_ T]]]. destruct (t_base _ _ _ _ T _ _ _ _ N) as [_ [b [I [E1 [E2 _]]]]].
    apply (left_bases table format depth _ _ _ _ _ _ TL FW FC _ w K objs PE). destruct (k_base _ _ _ _ _ _ _ _ _ w K b I) as [_ [_ [_ [_ [_ [rows [J _]]]]]]]. rewrite E1, E2 in J. apply in_map_iff. now exists (c, rows).
  - intros g c HB. exists (w_last w g), (blocks_at w (fst g)). split; [apply (k_hist _ _ _ _ _ _ _ _ _ w K)|]. split; [apply (rk_stamped w R)|]. split; [apply LN|].
    intros dir l content OP DL CT. split; [exact (left_out table format depth _ _ _ _ _ _ TL FW FC _ w K objs PE g c HB dir l content OP DL CT)|].
    pose proof (logs_are table format depth _ _ _ _ _ _ TL FW FC _ w K objs PE g dir l OP DL) as LO. pose proof (bases_are table format depth _ _ _ _ _ _ TL FW FC _ w K objs PE g dir l OP DL) as BO.
    pose proof (blocks_of_group table format depth _ _ _ _ _ _ FW _ w K g) as BA. pose proof (named_is g dir l OP DL) as NI.
    assert (GE : g = (fst g, snd g)) by now destruct g.
    constructor.
    + intros b J L1 L2. destruct (write_time g b (or_introl J) L1 L2) as [a [m C]].
      destruct (commit_tells _ _ _ C) as [_ [_ [_ T]]]. destruct (t_groups _ _ _ _ T g (or_introl J)) as [c' [n N]]. exists b, a, m, n. split; [exact C|].
      destruct (t_base _ _ _ _ T _ _ _ _ N) as [NW [q [_ [_ [_ [_ LE]]]]]]. rewrite <- GE in NW. specialize (NW b J (sle_refl b)). now rewrite (sle_antisym _ _ NW LE).
    + intros c' x rows fm bl vs J NF L1 L2 L I A. apply LO in L as [f [If [E1 [E2 ->]]]]. cbn [fm_name new_meta] in I. rewrite (BA f If E1) in I.
      destruct (k_log _ _ _ _ _ _ _ _ _ w K f If) as [_ [_ [_ [_ [_ X]]]]]. destruct (X bl vs I) as [y [F T]]. pose proof (instant_once _ _ _ _ _ _ F A) as Q. subst y.
      assert (W : wrote_at (w_hist w g) x) by (right; split; [eauto|exact NF]). destruct (write_time g x W L1 L2) as [a [m C]]. destruct (commit_tells _ _ _ C) as [_ [_ [_ TE]]].
      destruct (t_logs _ _ _ _ TE f bl vs If I A) as [lf [N E]]; [now rewrite E1|]. rewrite E1, E2 in N. exists x, a, m, lf. auto.
    + intros ts a m c' n b C N J L. destruct (commit_tells _ _ _ C) as [_ [_ [_ T]]]. destruct (t_base _ _ _ _ T _ _ _ _ N) as [NW _]. rewrite <- GE in NW. now apply NW.
    + intros ts a m c' n C N. destruct (commit_tells _ _ _ C) as [_ [_ [_ T]]]. destruct (t_base _ _ _ _ T _ _ _ _ N) as [_ [q [I [E1 [E2 [E3 _]]]]]]. rewrite <- GE in E1. eexists. split; [apply BO; exists q; auto|exact E3].
    + intros ts a m c' lf C N. destruct (commit_tells _ _ _ C) as [_ [_ [_ T]]]. destruct (t_log_files _ _ _ _ T _ _ _ _ N) as [f [I [E1 [E2 E3]]]]. rewrite <- GE in E1. eexists. split; [apply LO; exists f; auto|]. symmetry. exact E3.
    + intros fm c' bl vs x RC I A F L1 L2. apply NI in RC as [ts [a [m [lf [f [C [N [If [E1 [E2 [E3 E4]]]]]]]]]]]. rewrite E4 in I. change (log_entry_name f) with (log_text (le_id f) (le_base f) (le_version f) (le_token f)) in I. rewrite (BA f If E1) in I.
      assert (NF : log_named table number_of collect start e w f). { apply commit_is in C as [C [C1 C2]]. exists ts, a, m, lf. rewrite E1, E2. auto 6. }
      destruct (FU f bl vs x If NF I A) as [f' [bl' [vs' [y [If' [NF' [G' [B' [I' [A' [RB LE]]]]]]]]]]]; [now rewrite E1|exact L1|exact L2|]. rewrite E1 in G'. rewrite E2 in B'.
      exists (new_meta (log_entry_name f') (o_size (log_object table f'))), bl', vs', y. cbn [fm_name new_meta]. change (log_entry_name f') with (log_text (le_id f') (le_base f') (le_version f') (le_token f')). rewrite (BA f' If' G').
      split.
      * destruct NF' as [ts' [a' [m' [lf' [C' [S1 [S2 [N' E']]]]]]]]. rewrite G', B' in N'. exists ts', a', m', lf'. split; [|split; [exact N'|exact E']]. apply commit_is. auto.
      * split; [exact I'|]. split; [exact A'|]. split; [exact RB|]. split; [|exact LE].
        assert (RR : In (le_base f', y, x) (g_rollbacks (w_hist w g))) by (apply (k_rollbacks _ _ _ _ _ _ _ _ _ w K); exists f', bl', vs'; auto 6).
        apply (proj2 (rollbacks_later _ _ _ _ _ (k_hist _ _ _ _ _ _ _ _ _ w K g))) in RR. eapply slt_trans; eassumption.
Qed.
End Objects.
End Rec.
