(** Lemmas for C104: queries while files are added and removed.  After L_During. *)
From Coq Require Import Sorted.
From Verif Require Import Base Str L_Base L_Str M_Utf8 M_Time M_Instant M_Timeline M_FileGroup M_Builder M_Listing M_Expr M_Log M_Config M_Reader M_Table M_Storage M_Session M_Objects M_During
  S_Time S_Timeline S_FileGroup S_Builder S_Listing S_Expr S_Config S_Table S_Storage S_Session S_Objects S_During S_Removal S_Bases
  L_FileGroup L_Timeline L_Tree L_Table L_Storage L_Session L_Objects L_Open L_During.
Local Open Scope string_scope.

Section Removal.
Variable dtype value : Type.
Variable cast : dtype -> string -> option value.
Variable cmp : value -> value -> option comparison.
Variable local_to_utc : ndt -> option ndt.
Variable start : list object.
Variable dropped : string * string -> Prop.
Variable later : list (list object).
Variable base : url.
Variable names : list string.
Variable parse_json : string -> outcome (list (string * json)).
Variable parse_schema : string -> outcome (list (string * dtype)).
Variable parse_rows : string -> outcome record_batch.
Variable footer : string -> outcome (Z * Z).
Variable open : options -> options -> outcome unit.
Variable tb : table.
Variable t format : string.
Notation moments := (start :: later).
Notation store_of objs := (object_store objs base dtype parse_json parse_schema parse_rows footer open).
Hypothesis PO : forall objs, In objs moments -> proper_objects objs.
Hypothesis L : located base names.
Hypothesis LO : forall objs, In objs later -> moves_around start names format t dropped objs.
Hypothesis So : StronglySorted instant_le (t_commits tb).
Hypothesis TL : forall i, In i (t_commits tb) -> exists o, file_in start names [".hoodie"] (file_name i) o.
Hypothesis BF : base_format (t_configs tb) = Ok format.

Lemma all_kept : forall objs, In objs moments -> incl start objs.
Proof. intros objs [ <- |I]; [intros x; auto|apply (LO objs I)]. Qed.
Lemma some_moment : exists objs, In objs moments.
Proof. exists start. now left. Qed.
Lemma obj_dec : forall x y : object, {x = y} + {x <> y}.
Proof. decide equality; apply string_dec. Qed.
Lemma added : forall objs dir name o, In objs moments -> Forall legal dir -> file_in objs names dir name o ->
  In o start \/ (In objs later /\ ~ In o start).
Proof. intros objs dir name o [ <- |I] F FI; [left; apply FI|]. destruct (in_dec obj_dec o start); auto. Qed.
Lemma found_kept : forall objs p o, In objs moments -> find_object start base p = Ok o -> find_object objs base p = Ok o.
Proof.
  intros objs p o I H. unfold find_object in *. destruct (object_path base p) as [k| |]; [|discriminate|discriminate]. cbn [bind] in *.
  destruct (find _ start) as [x|] eqn:E; [|discriminate]. injection H as <-. apply find_some in E as [E1 E2]. apply String.eqb_eq in E2. subst k.
  rewrite (find_unique objs (proj2 (PO _ I)) x (all_kept _ I x E1)). reflexivity.
Qed.

Section Seen.
Variable st : store dtype.
Hypothesis SEE : sees moments base dtype parse_json parse_schema parse_rows footer open st.
Lemma see_files : forall p, exists objs, In objs moments /\ st_files _ st p = list_files objs base p.
Proof. intros p. destruct (SEE p) as [_ [_ [H _]]]. exact H. Qed.
Lemma see_dirs : forall p, exists objs, In objs moments /\ st_dirs _ st p = list_dirs objs base p.
Proof. intros p. destruct (SEE p) as [_ [_ [_ [H _]]]]. exact H. Qed.
Lemma see_json : forall p v, st_json _ (store_of start) p = Ok v -> st_json _ st p = Ok v.
Proof.
  intros p v H. destruct (SEE p) as [[objs [I E]] _]. rewrite E. cbn [st_json object_store] in *. unfold get_file_data in *.
  destruct (find_object start base p) as [o| |] eqn:F; cbn [bind] in H; try discriminate. now rewrite (found_kept objs p o I F).
Qed.
Lemma see_schema : forall p v, st_schema _ (store_of start) p = Ok v -> st_schema _ st p = Ok v.
Proof.
  intros p v H. destruct (SEE p) as [_ [[objs [I E]] _]]. rewrite E. cbn [st_schema object_store] in *. unfold get_file_data in *.
  destruct (find_object start base p) as [o| |] eqn:F; cbn [bind] in H; try discriminate. now rewrite (found_kept objs p o I F).
Qed.
Lemma see_instant : forall i, In i (t_commits tb) -> st_json _ st (".hoodie/" ++ file_name i) = st_json _ (store_of start) (".hoodie/" ++ file_name i).
Proof.
  intros i I. destruct (TL i I) as [o FI].
  assert (LH : Forall legal [".hoodie"]) by (repeat constructor; discriminate).
  pose proof (read_spec start base names (PO _ (or_introl eq_refl)) L [".hoodie"] (file_name i) o LH FI) as R.
  assert (P : path_join (join "/" [".hoodie"]) (file_name i) = ".hoodie/" ++ file_name i).
  { destruct FI as [_ [[N [S _]] _]]. unfold path_join. cbn [join]. destruct (file_name i) as [|a r] eqn:E; [congruence|]. cbn [has_char] in S.
    assert (X : starts_with "/" (String a r) = false).
    { destruct (starts_with "/" (String a r)) eqn:Q; [|reflexivity]. apply starts_with_spec in Q as [z Q]. injection Q as -> _. discriminate S. }
    rewrite X. reflexivity. }
  rewrite P in R. destruct (SEE (".hoodie/" ++ file_name i)) as [[objs [Io E]] _]. rewrite E. cbn [st_json object_store]. unfold get_file_data.
  now rewrite R, (found_kept objs _ o Io R).
Qed.
Lemma see_partition_schema : forall fields, get_partition_schema dtype (store_of start) tb = Ok fields -> get_partition_schema dtype st tb = Ok fields.
Proof.
  intros fields H. unfold get_partition_schema in *. apply bind_ok in H as [fl [H1 H]]. apply bind_ok in H as [path [H2 H]]. apply bind_ok in H as [sch [H3 H]].
  rewrite H1. cbn [bind]. assert (E : latest_schema_path (st_json _ st) (t_commits tb) = Ok path).
  { unfold latest_schema_path in *. apply bind_ok in H2 as [md [M H2]]. assert (M' : latest_commit_metadata (st_json _ st) (t_commits tb) = Ok md).
    { unfold latest_commit_metadata in *. destruct (last_opt (t_commits tb)); [|exact M]. unfold instant_metadata in *. now apply see_json. }
    rewrite M'. exact H2. }
  rewrite E. cbn [bind]. rewrite (see_schema _ _ H3). exact H.
Qed.
Lemma see_replaced : forall time g, replaced_by_time (st_json _ st) (t_commits tb) time g <-> replaced_by_time (st_json _ (store_of start)) (t_commits tb) time g.
Proof.
  intros time g. apply replaced_later. split; [intros i; auto|]. split; [auto|]. exact see_instant.
Qed.
Notation root := (mixed moments (st_dirs _ st)).
Lemma see_served : serves_dirs root (st_dirs _ st).
Proof. exact (mixed_served moments base names (st_dirs _ st) PO L see_dirs). Qed.
Lemma see_wf : wf_tree root.
Proof. exact (mixed_wf moments base names (st_dirs _ st) PO L see_dirs _ [] (Forall_nil _)). Qed.
Lemma see_listing : forall dir, Forall legal dir -> exists objs l, In objs moments /\ st_files _ st (join "/" dir) = Ok l /\ directory_listing objs names dir l.
Proof.
  intros dir F. destruct (see_files (join "/" dir)) as [objs [I E]]. destruct (files_spec objs base names (PO _ I) L dir F) as [l [E1 [N S]]].
  exists objs, l. split; [exact I|]. split; [now rewrite E|]. split; assumption.
Qed.
Lemma see_partition : forall path, data_directory start names path -> partition_dir root path.
Proof.
  intros path D. apply (start_partition moments base names (st_dirs _ st) PO L see_dirs start all_kept some_moment path D).
  intros objs dir name o d I F FI NI Fd E below Eb. destruct (added _ _ _ _ I F FI) as [X|[X _]]; [contradiction|].
  subst path. exact (proj2 (proj2 (LO objs X) dir name o F FI NI) d Fd D below Eb).
Qed.
Lemma see_table_partition : forall pt p dir, object_partition start names pt p dir -> table_partition pt root p.
Proof. intros [|] p dir [_ [E D]]; [now apply see_partition|]. subst dir. exact E. Qed.
(** a base file of [t] or before is one that stays, in a directory that was a partition then, or is not needed *)
Lemma see_base : forall pt p l m b, table_partition pt root p -> st_files _ st p = Ok l -> base_listed format l m b -> sle (bf_commit b) t ->
  (exists dir n o, object_partition start names pt p dir /\ file_in start names dir n o /\ m = new_meta n (o_size o))
  \/ (exists dir, p = join "/" dir /\ Forall legal dir /\ superseded start names dir format t b) \/ dropped (p, bf_file_id b).
Proof.
  intros pt p l m b TP E [Im [NM [BN BO]]] LE.
  assert (X : exists dir, p = join "/" dir /\ Forall legal dir /\ (forall name o, file_in start names dir name o -> object_partition start names pt p dir)).
  { destruct pt.
    - destruct (found_partition moments base names (st_dirs _ st) PO L see_dirs start all_kept p TP) as [top [q [-> [F D]]]]. exists (top :: q). split; [reflexivity|]. split; [exact F|].
      intros name o FI. split; [exact F|]. split; [reflexivity|]. exact (D name o FI).
    - cbn in TP. subst p. exists []. split; [reflexivity|]. split; [constructor|]. intros _ _ _. repeat split; constructor. }
  destruct X as [dir [-> [F D]]]. destruct (see_listing dir F) as [objs [l' [I [E' [_ DL]]]]]. assert (l' = l) by congruence. subst l'.
  apply DL in Im as [n [o [FI ->]]]. cbn [fm_name new_meta] in *.
  destruct (added _ _ _ _ I F FI) as [Y|[Y1 Y2]].
  - assert (FS : file_in start names dir n o) by (destruct FI as [_ FI]; split; assumption). left. exists dir, n, o. split; [exact (D n o FS)|]. auto.
  - right. destruct (proj1 (proj2 (LO objs Y1) dir n o F FI Y2) b NM BN BO) as [Z|[Z|Z]]; [exfalso; exact (proj1 (slt_not_sle _ _) Z LE)|left; exists dir; auto|right; exact Z].
Qed.
Lemma start_listed : forall dir listed l, Forall legal dir -> directory_listing start names dir listed -> st_files _ st (join "/" dir) = Ok l -> incl listed l.
Proof.
  intros dir listed l F [_ D] E m Im. destruct (see_listing dir F) as [objs [l' [I [E' [_ DL]]]]]. assert (l' = l) by congruence. subst l'.
  apply D in Im as [n [o [FI ->]]]. apply DL. exists n, o. split; [|reflexivity]. destruct FI as [FI1 FI]. split; [exact (all_kept _ I o FI1)|exact FI].
Qed.
Lemma removal : forall fields, get_partition_schema dtype (store_of start) tb = Ok fields -> wf_fields fields ->
  (forall time tz, timeline_timezone (t_configs tb) = Ok tz -> parse_datetime local_to_utc t tz = Ok time -> forall g, dropped g -> replaced_by_time (st_json _ (store_of start)) (t_commits tb) (epoch_millis time) g) ->
  forall c c' filters ss, M_Session.opened dtype value cast cmp local_to_utc tb (keeps dtype tb) st c ->
  get_file_slices_as_of dtype value cast cmp local_to_utc st tb t filters c c' (Ok ss) ->
  exists fs tz time hive url partitioned,
    from_str_tuples filters = Ok fs /\ timeline_timezone (t_configs tb) = Ok tz /\ parse_datetime local_to_utc t tz = Ok time
    /\ hive_flag tb = Ok hive /\ url_flag tb = Ok url /\ is_table_partitioned (t_configs tb) = Ok partitioned
    /\ base_snapshot dtype value cast cmp fields hive url start moments names format partitioned fs t
         (replaced_by_time (st_json _ (store_of start)) (t_commits tb) (epoch_millis time)) ss.
Proof.
  intros fields GS WF DR c c' filters ss O Q. destruct (as_of_as_new dtype value cast cmp local_to_utc tb st c root see_served see_wf O t filters c' _ Q) as [c'' Q'].
  destruct (as_of_snapshot dtype value cast cmp local_to_utc st tb root see_served see_wf So _ _ _ _ _ (va_new _ _ _ _ _ _ _) Q') as [fs [tz [time [ps [h [u [f [pt [P1 [P2 [P3 [P4 [P5 [P6 [P7 [P8 P9]]]]]]]]]]]]]]]].
  rewrite (see_partition_schema _ GS) in P4. injection P4 as <-. rewrite BF in P7. injection P7 as <-. destruct (P9 WF) as [S1 [S2 S3]].
  exists fs, tz, time, h, u, pt. do 6 (split; [assumption|]). split; [|split; [|exact S3]].
  - intros s I. destruct (S1 s I) as [l [TP [LS [SN [NR FL]]]]]. destruct SN as [m [b [B1 [B2 [B3 [B4 [B5 [B6 [B7 [B8 B9]]]]]]]]]].
    destruct (see_base pt _ l m b TP LS B1 B6) as [[dir [n [o [OP [FI Em]]]]]|[[dir [EP [F [n [o [b' [S1' [S2' [S3' [S4' [S5' [S6' S7']]]]]]]]]]]]|Z]].
    2:{ exfalso. rewrite EP in LS. destruct (files_spec start base names (PO _ (or_introl eq_refl)) L dir F) as [listed [_ DL]].
        assert (BL : base_listed format l (new_meta n (o_size o)) b').
        { split; [|auto]. apply (start_listed dir listed l F DL LS). apply DL. exists n, o. auto. }
        exact (proj1 (slt_not_sle _ _) S6' (B7 _ _ BL S5' S7')). }
    2:{ exfalso. apply NR. rewrite see_replaced. apply (DR time tz P2 P3). unfold slice_id. now rewrite B3. }
    pose proof OP as [F [EP _]].
    destruct (files_spec start base names (PO _ (or_introl eq_refl)) L dir F) as [listed [_ DL]].
    assert (DL' : directory_listing start names dir listed) by exact DL. rewrite EP in LS. pose proof (start_listed dir listed l F DL' LS) as IN.
    exists dir, listed. split; [exact OP|]. split; [exact DL'|]. split; [|split; [rewrite <- see_replaced; exact NR|split; [|exact FL]]].
    + exists m, b. split; [destruct B1 as [_ B1]; split; [|exact B1]; apply (proj2 DL'); exists n, o; auto|]. split; [exact B3|]. split; [exact B4|]. split; [exact B5|]. split; [exact B6|]. split.
      * intros m' b' Y. apply (B7 m' b'). eapply base_listed_incl; eauto.
      * intros m' x Y E1 E2. apply (B8 (lf_version x) (lf_write_token x)). exists m', x. split; [eapply log_listed_incl; eauto|auto].
    + intros k Ik. destruct (B9 k Ik) as [m' [[Im' [_ [_ LF]]] [E1 E2]]]. split; [congruence|]. split; [congruence|].
      destruct (see_listing dir F) as [objs [l' [Io [E' [_ DLo]]]]]. assert (l' = l) by congruence. subst l'. apply DLo in Im' as [n' [o' [FI' ->]]]. cbn [fm_name new_meta] in LF.
      apply log_name_reprint in LF. exists objs, o'. split; [exact Io|]. now rewrite LF.
  - intros p dir name o b OP M FI NM BN BO LE NR. pose proof OP as [F [EP _]]. destruct (S2 p (see_table_partition pt p dir OP) M) as [l [LS X]].
    apply (X (new_meta name (o_size o)) b); [|exact LE|rewrite see_replaced; exact NR]. split; [|auto].
    destruct (files_spec start base names (PO _ (or_introl eq_refl)) L dir F) as [listed [_ DL]]. rewrite EP in LS. apply (start_listed dir listed l F DL LS). apply DL. exists name, o. auto.
Qed.
End Seen.

End Removal.

(** The base file of a shown slice is read at any moment. *)
Lemma stays_read : forall dtype value cast cmp stays later base names parse_json parse_schema parse_rows footer open (st : store dtype) format t fields hive url partitioned fs replaced ss moments,
  (forall objs, In objs (stays :: later) -> proper_objects objs) -> located base names -> (forall objs, In objs (stays :: later) -> incl stays objs) ->
  sees (stays :: later) base dtype parse_json parse_schema parse_rows footer open st -> base_names_plain stays names format partitioned ->
  base_snapshot dtype value cast cmp fields hive url stays moments names format partitioned fs t replaced ss ->
  forall s, In s ss -> exists dir o, object_partition stays names partitioned (fs_partition s) dir /\ file_in stays names dir (base_file_name (fs_base s)) o
    /\ st_parquet _ st (base_relative_path s) = parse_rows (o_data o).
Proof.
  intros dtype value cast cmp stays later base names pj ps pr ft op st format t fields hive url pt fs replaced ss moments PO L IN SEE BP [S1 _] s I.
  destruct (S1 s I) as [dir [listed [OP [[_ DL] [[m [b [[Im [NM [BN BO]]] [_ [B3 _]]]]] _]]]]]. apply DL in Im as [n [o [FI ->]]]. cbn [fm_name new_meta] in *.
  pose proof (BP _ dir n o b OP FI NM BN BO) as E. rewrite E in B3. exists dir, o. split; [exact OP|]. rewrite B3. split; [exact FI|].
  destruct (SEE (base_relative_path s)) as [_ [_ [_ [_ [_ [[objs [Io R]] _]]]]]]. rewrite R. cbn [st_parquet object_store]. unfold get_file_data, base_relative_path. pose proof OP as [F [EP _]]. rewrite EP, B3.
  rewrite (read_spec objs base names (PO _ Io) L dir n o F (conj (IN _ Io o (proj1 FI)) (proj2 FI))). reflexivity.
Qed.

(** Two snapshots of the same base files show the same ones. *)
Lemma same_shown : forall dtype value cast cmp stays names format t fields hive url partitioned replaced ss ss' moments moments',
  proper_objects stays -> one_base_file names format stays ->
  base_snapshot dtype value cast cmp fields hive url stays moments names format partitioned [] t replaced ss ->
  base_snapshot dtype value cast cmp fields hive url stays moments' names format partitioned [] t replaced ss' ->
  forall p n, shows_base ss p n -> shows_base ss' p n.
Proof.
  intros dtype value cast cmp stays names format t fields hive url pt replaced ss ss' moments moments' PO UB [S1 _] [S1' [S2' _]] p n [s [I [EP EN]]].
  destruct (S1 s I) as [dir [listed [OP [[_ DL] [[m [b [[Im [NM [BN BO]]] [B2 [B3 [B4 [B5 [B6 _]]]]]]]] [NR _]]]]]]. apply DL in Im as [x [o [FI ->]]]. cbn [fm_name new_meta] in *.
  assert (NR' : ~ replaced (fs_partition s, bf_file_id b)) by (rewrite <- B2; exact NR).
  pose proof (S2' _ dir x o b OP (or_introl eq_refl) FI NM BN BO B5 NR') as J. apply in_map_iff in J as [s' [ES I']]. unfold slice_id in ES. injection ES as E1 E2.
  destruct (S1' s' I') as [dir' [listed' [OP' [[_ DL'] [[m' [b' [BL' [B2' [B3' [B4' [B5' [B6' _]]]]]]]] _]]]]]. pose proof OP as [F [EQ _]]. pose proof OP' as [F' [EQ' _]].
  assert (dir' = dir) by (apply (key_of_inj dir' dir F' F); unfold key_of; congruence). subst dir'.
  pose proof BL' as [Im' [NM' [BN' BO']]]. apply DL' in Im' as [x' [o' [FI' ->]]]. cbn [fm_name new_meta] in *.
  assert (IDS : bf_file_id b' = bf_file_id b) by congruence.
  assert (L1 : sle (bf_commit b') (bf_commit b)) by (apply (B6 (new_meta x' (o_size o')) b'); [split; [apply DL; exists x', o'; auto|auto]|exact IDS|exact B5']).
  assert (L2 : sle (bf_commit b) (bf_commit b')) by (apply (B6' (new_meta x (o_size o)) b); [split; [apply DL'; exists x, o; auto|auto]|now symmetry|exact B5]).
  pose proof (sle_antisym _ _ L1 L2) as EC. pose proof (UB dir x' o' b' x o b F FI' FI NM' BN' BO' NM BN BO IDS EC) as <-.
  assert (o' = o). { destruct FI as [G1 [_ G2]], FI' as [G3 [_ G4]]. pose proof (find_unique stays (proj2 PO) o G1) as Y1. pose proof (find_unique stays (proj2 PO) o' G3) as Y2. rewrite G2 in Y1. rewrite G4 in Y2. congruence. }
  subst o'. exists s'. split; [exact I'|]. split; [congruence|]. congruence.
Qed.

(** Batches of base files, by partition and name of the base file *)
Definition read_of (stays : list object) (names : list string) (parse_rows : string -> outcome record_batch) (partitioned : bool) (k : string * string) (batch : record_batch) : Prop :=
  exists dir o, object_partition stays names partitioned (fst k) dir /\ file_in stays names dir (snd k) o /\ parse_rows (o_data o) = Ok batch.
Definition shown_key (s : file_slice) : string * string := (fs_partition s, base_file_name (fs_base s)).
Lemma read_of_one : forall stays names parse_rows pt k b1 b2, proper_objects stays -> read_of stays names parse_rows pt k b1 -> read_of stays names parse_rows pt k b2 -> b1 = b2.
Proof.
  intros stays names pr pt k b1 b2 PO [d1 [o1 [OP1 [F1 R1]]]] [d2 [o2 [OP2 [F2 R2]]]]. pose proof OP1 as [L1 [E1 _]]. pose proof OP2 as [L2 [E2 _]].
  assert (d2 = d1) by (apply (key_of_inj d2 d1 L2 L1); unfold key_of; congruence). subst d2.
  assert (o2 = o1). { destruct F1 as [G1 [_ G2]], F2 as [G3 [_ G4]]. pose proof (find_unique stays (proj2 PO) o1 G1) as Y1. pose proof (find_unique stays (proj2 PO) o2 G3) as Y2. rewrite G2 in Y1. rewrite G4 in Y2. congruence. }
  congruence.
Qed.
Lemma same_batches : forall stays names parse_rows pt l1 l2 b1 b2, proper_objects stays -> Permutation l1 l2 ->
  Forall2 (read_of stays names parse_rows pt) l1 b1 -> Forall2 (read_of stays names parse_rows pt) l2 b2 -> Permutation b1 b2.
Proof.
  intros stays names pr pt l1 l2 b1 b2 PO P F1 F2. destruct (Permutation_Forall2 P F1) as [b3 [P3 F3]]. assert (b3 = b2); [|now subst b3].
  clear P P3 F1. revert b2 F2. induction F3 as [|x y l b R F IH]; intros b2 F2; inversion F2 as [|? y2 ? b2' R2 F2']; subst; [reflexivity|]. f_equal; [exact (read_of_one _ _ _ _ _ _ _ PO R R2)|now apply IH].
Qed.
(** the keys of the slices of a snapshot are different *)
Lemma keys_differ : forall dtype value cast cmp stays names format t fields hive url partitioned fs replaced ss moments,
  base_names_plain stays names format partitioned -> proper_objects stays ->
  base_snapshot dtype value cast cmp fields hive url stays moments names format partitioned fs t replaced ss -> NoDup (map shown_key ss).
Proof.
  intros dtype value cast cmp stays names format t fields hive url pt fs replaced ss moments BP PO [S1 [_ N]].
  assert (D : forall s1 s2, In s1 ss -> In s2 ss -> shown_key s1 = shown_key s2 -> slice_id s1 = slice_id s2).
  { intros s1 s2 I1 I2 E. unfold shown_key in E. injection E as EP EN. unfold slice_id. f_equal; [exact EP|].
    destruct (S1 s1 I1) as [d1 [l1 [OP1 [[_ DL1] [[m1 [b1 [[Im1 [NM1 [BN1 BO1]]] [X1 [Y1 _]]]]] _]]]]]. destruct (S1 s2 I2) as [d2 [l2 [OP2 [[_ DL2] [[m2 [b2 [[Im2 [NM2 [BN2 BO2]]] [X2 [Y2 _]]]]] _]]]]].
    apply DL1 in Im1 as [n1 [o1 [FI1 ->]]]. apply DL2 in Im2 as [n2 [o2 [FI2 ->]]]. cbn [fm_name new_meta] in *.
    rewrite (BP _ _ _ _ _ OP1 FI1 NM1 BN1 BO1) in Y1. rewrite (BP _ _ _ _ _ OP2 FI2 NM2 BN2 BO2) in Y2. assert (HN : n2 = n1) by congruence. clear Y2. subst n2.
    pose proof OP1 as [L1 [E1 _]]. pose proof OP2 as [L2 [E2 _]]. assert (d2 = d1) by (apply (key_of_inj d2 d1 L2 L1); unfold key_of; congruence). subst d2.
    assert (o2 = o1). { destruct FI1 as [G1 [_ G2]], FI2 as [G3 [_ G4]]. pose proof (find_unique stays (proj2 PO) o1 G1) as Z1. pose proof (find_unique stays (proj2 PO) o2 G3) as Z2. rewrite G2 in Z1. rewrite G4 in Z2. congruence. }
    subst o2. congruence. }
  clear S1. induction ss as [|s ss IH]; [constructor|]. cbn [map] in *. inversion N as [|? ? NI N']; subst. constructor.
  - intros I. apply in_map_iff in I as [s' [E I]]. apply NI. apply in_map_iff. exists s'. split; [apply D; [now right|now left|exact E]|exact I].
  - apply IH; [exact N'|]. intros s1 s2 I1 I2. apply D; now right.
Qed.
Lemma shown_in : forall ss p n, shows_base ss p n <-> In (p, n) (map shown_key ss).
Proof.
  intros ss p n. rewrite in_map_iff. unfold shows_base, shown_key. split.
  - intros [s [I [E1 E2]]]. exists s. split; [congruence|exact I].
  - intros [s [E I]]. injection E as E1 E2. eauto.
Qed.
