(** Lemmas about the queries of a table. *)
From Verif Require Import Base Str M_Time M_Instant M_Timeline M_FileGroup M_Builder M_Listing M_Expr M_Log M_Config M_Reader M_Table
  S_Time S_Timeline S_FileGroup S_Builder S_Listing S_Expr S_Reader S_Table L_Base L_Str L_Builder L_View L_Expr.
From Coq Require Import Sorted.
Local Open Scope string_scope.

(** ** Splits *)
Lemma chunk_nil : forall A f k, @chunk A f k [] = [].
Proof. now intros A [|f] k. Qed.
Lemma chunk_spec : forall A k, (0 < k)%nat -> forall f (l : list A), (List.length l <= f)%nat ->
  List.concat (chunk f k l) = l
  /\ (forall p, In p (chunk f k l) -> p <> [])
  /\ (forall before p after, chunk f k l = (before ++ p :: after)%list ->
       (List.length p <= k)%nat /\ (after <> [] -> List.length p = k))
  /\ (forall n, (List.length l <= n * k)%nat -> (List.length (chunk f k l) <= n)%nat).
Proof.
  intros A k K. induction f as [|f IH]; intros l L.
  - destruct l; [|cbn in L; lia]. cbn. split; [reflexivity|]. split; [intros ? []|].
    split; [intros [|] ? ? E; discriminate|]. intros. lia.
  - destruct l as [|x l].
    { cbn. split; [reflexivity|]. split; [intros ? []|]. split; [intros [|] ? ? E; discriminate|]. intros. lia. }
    cbn [chunk]. set (w := x :: l) in *.
    assert (Hs : (List.length (skipn k w) <= f)%nat) by (rewrite skipn_length; subst w; cbn [List.length] in *; lia).
    destruct (IH (skipn k w) Hs) as [I1 [I2 [I3 I4]]]. split; [|split; [|split]].
    + cbn [List.concat]. rewrite I1. apply firstn_skipn.
    + intros p [ <- |H]; [|now apply I2]. subst w. destruct k; [lia|discriminate].
    + intros before p after E. destruct before as [|b before].
      * cbn in E. injection E as <- E. rewrite firstn_length. split; [lia|]. intros N.
        destruct (Nat.le_gt_cases k (List.length w)) as [H|H]; [lia|].
        elim N. rewrite <- E, skipn_all2 by lia. apply chunk_nil.
      * cbn in E. injection E as _ E. eauto.
    + intros n H. destruct n; [subst w; cbn in H; lia|]. cbn [List.length]. apply le_n_S. apply I4.
      rewrite skipn_length. rewrite Nat.mul_succ_l in H. lia.
Qed.
Lemma div_ceil_spec : forall a b, (0 < b)%nat -> (a <= b * div_ceil a b)%nat /\ (0 < a -> 0 < div_ceil a b)%nat.
Proof.
  intros a b B. unfold div_ceil. assert (E := Nat.div_mod (a + (b - 1)) b ltac:(lia)).
  assert (M := Nat.mod_upper_bound (a + (b - 1)) b ltac:(lia)). split; [nia|]. intros A. apply Nat.div_str_pos. lia.
Qed.
Lemma splits_spec : forall n ss, exists parts, splits n ss = Ok parts /\ split_into n ss parts.
Proof.
  intros n [|s ss].
  - exists []. split; [reflexivity|]. split; [cbn; lia|]. split; [reflexivity|]. split; [intros ? []|].
    exists O. intros [|] ? ? E; discriminate.
  - set (w := s :: ss). assert (W : (0 < List.length w)%nat) by (subst w; cbn; lia).
    destruct (div_ceil_spec (List.length w) (Nat.max 1 n) ltac:(lia)) as [D1 D2]. specialize (D2 W).
    exists (chunk (List.length w) (div_ceil (List.length w) (Nat.max 1 n)) w). split.
    { unfold splits. fold w. change (match w with [] => Ok [] | _ :: _ => chunks (div_ceil (List.length w) (Nat.max 1 n)) w end
        = Ok (chunk (List.length w) (div_ceil (List.length w) (Nat.max 1 n)) w)).
      subst w. cbv beta iota. unfold chunks. destruct (div_ceil _ _); [lia|reflexivity]. }
    destruct (chunk_spec _ _ D2 (List.length w) w (le_n _)) as [C1 [C2 [C3 C4]]].
    split; [|split; [|split]]; auto. eexists; eauto.
Qed.

(** ** Empty tables *)
Section T.
Variable dtype value : Type.
Variable cast : dtype -> string -> option value.
Variable cmp : value -> value -> option comparison.
Variable avro_schema avro_value : Type.
Variable parse_schema : string -> option avro_schema.
Variable datum : avro_schema -> string -> option (avro_value * string).
Variable check_schema : avro_schema -> outcome unit.
Variable to_batch : avro_schema -> list avro_value -> outcome record_batch.
Variable parquet : string -> option (list record_batch).
Variable L : ndt -> option ndt.
Variable st : store dtype.
Variable tb : table.
Notation planq := (plan dtype value cast cmp L st tb).
Notation at_ := (slices_at dtype value cast cmp L st tb).
Notation as_of := (get_file_slices_as_of dtype value cast cmp L st tb).
Notation slices_now := (get_file_slices dtype value cast cmp L st tb).
Notation splits_now := (get_file_slices_splits dtype value cast cmp L st tb).
Notation splits_at := (get_file_slices_splits_as_of dtype value cast cmp L st tb).
Notation between := (get_file_slices_between dtype L st tb).
Notation snapshot := (read_snapshot dtype value cast cmp avro_schema avro_value parse_schema datum check_schema to_batch parquet L st tb).
Notation snapshot_at := (read_snapshot_as_of dtype value cast cmp avro_schema avro_value parse_schema datum check_schema to_batch parquet L st tb).
Notation incremental := (read_incremental dtype avro_schema avro_value parse_schema datum check_schema to_batch parquet L st tb).
Notation after := (view_after dtype value cast cmp L st tb).

Lemma empty_table : t_commits tb = [] -> forall c,
  (forall filters c' r, slices_now filters c c' r <-> c' = c /\ r = Ok [])
  /\ (forall n filters c' r, splits_now n filters c c' r <-> c' = c /\ r = Ok [])
  /\ (forall order start, between order start None = Ok [])
  /\ (forall filters c' r, snapshot filters c c' r <-> c' = c /\ r = Ok [])
  /\ (forall start r, incremental start None r <-> r = Ok []).
Proof.
  intros E c. assert (N : latest_commit_timestamp (t_commits tb) = None) by (rewrite E; reflexivity).
  split; [|split; [|split; [|split]]].
  - intros filters c' r. split; [|intros [ -> -> ]; now constructor]. intros H. destruct H; [auto|congruence].
  - intros n filters c' r. split; [|intros [ -> -> ]; now constructor]. intros H. destruct H; [auto|congruence].
  - intros order start. unfold get_file_slices_between, stop_or_latest. now rewrite N.
  - intros filters c' r. split; [|intros [ -> -> ]; now constructor]. intros H. destruct H; [auto|congruence].
  - intros start r. assert (S : stop_or_latest tb None = None) by exact N. split; [|intros -> ; now constructor].
    intros H. destruct H; auto; congruence.
Qed.
Lemma empty_as_of : t_commits tb = [] -> forall t c filters c' r, as_of t filters c c' r -> forall ss, r <> Ok ss.
Proof.
  intros E t c filters c' r H ss ->. inversion H as [|c1 c1' fs r1 Hf Ha]; subst.
  inversion Ha as [| |c2 c2' q pt fm n r2 Hp]; subst. unfold plan in Hp.
  apply bind_ok in Hp as [tz [_ Hp]]. apply bind_ok in Hp as [ex [_ Hp]]. apply bind_ok in Hp as [ps [Hp _]].
  unfold get_partition_schema in Hp. apply bind_ok in Hp as [fl [_ Hp]]. rewrite E in Hp. discriminate.
Qed.

(** ** Splits of queries *)
Lemma splits_of_query : forall n t filters c c' r, splits_at n t filters c c' r ->
  exists r0, as_of t filters c c' r0 /\
  match r0 with Ok ss => exists parts, r = Ok parts /\ split_into n ss parts | Err e => r = Err e | Panic => r = Panic end.
Proof.
  intros n t filters c c' r H. destruct H as [c c' r H]. exists r. split; [assumption|].
  destruct r as [ss| |]; [|reflexivity|reflexivity]. exact (splits_spec n ss).
Qed.
Lemma splits_of_latest : forall n filters c c' r, splits_now n filters c c' r ->
  exists r0, slices_now filters c c' r0 /\
  match r0 with Ok ss => exists parts, r = Ok parts /\ split_into n ss parts | Err e => r = Err e | Panic => r = Panic end.
Proof.
  intros n filters c c' r H. destruct H as [c N|c c' t r N H].
  - exists (Ok []). split; [now constructor|]. exact (splits_spec n []).
  - destruct (splits_of_query _ _ _ _ _ _ H) as [r0 [H0 K]]. exists r0. split; [econstructor; eauto|assumption].
Qed.

(** ** Snapshots *)
Lemma plan_inv : forall t fs q, planq t fs = Ok q ->
  exists tz ps pr h u, timeline_timezone (t_configs tb) = Ok tz
    /\ get_replaced_file_groups_as_of L (st_json _ st) tz (t_commits tb) t = Ok (q_excluded q)
    /\ get_partition_schema dtype st tb = Ok ps
    /\ hive_flag tb = Ok h /\ url_flag tb = Ok u
    /\ new_pruner dtype value cast fs ps (Ok h) (Ok u) = Ok pr
    /\ q_time q = t /\ q_pruner_empty q = pruner_is_empty dtype value pr
    /\ q_include q = should_include dtype value cast cmp pr.
Proof.
  intros t fs q H. unfold plan in H. apply bind_ok in H as [tz [H1 H]]. apply bind_ok in H as [ex [H2 H]].
  apply bind_ok in H as [ps [H3 H]]. apply bind_ok in H as [pr [H4 H]]. injection H as <-. cbn [q_time q_pruner_empty q_include q_excluded].
  assert (K := H4). unfold new_pruner in K. apply bind_ok in K as [sf [K1 K]]. apply bind_ok in K as [h [K2 K]]. apply bind_ok in K as [u [K3 K]].
  exists tz, ps, pr, h, u. rewrite K2, K3 in H4. auto 12.
Qed.
Lemma plan_wf : forall t fs q, planq t fs = Ok q -> q_pruner_empty q = true -> forall p, q_include q p = true.
Proof.
  intros t fs q H E p. destruct (plan_inv _ _ _ H) as [tz [ps [pr [h [u [_ [_ [_ [_ [_ [_ [_ [E1 E2]]]]]]]]]]]]].
  rewrite E2. apply empty_keeps_all. congruence.
Qed.
Lemma after_history : forall c, after c -> forall format partitioned n,
  is_table_partitioned (t_configs tb) = Ok partitioned -> base_format (t_configs tb) = Ok format -> listing_parallelism (t_configs tb) = Ok n ->
  view_history (st_files _ st) (st_dirs _ st) (st_meta _ st) format partitioned (Z.to_nat n) c.
Proof.
  intros c H format partitioned n E1 E2 E3. induction H as [|c c' t fs r H IH S]; [constructor|].
  destruct S as [c e S|c S|c c' q pt fm k r Hp F1 F2 F3 V]; [exact IH|exact IH|].
  rewrite E1 in F1. rewrite E2 in F2. rewrite E3 in F3. injection F1 as <-. injection F2 as <-. injection F3 as <-.
  econstructor; [exact IH| |exact V]. exact (plan_wf _ _ _ Hp).
Qed.

Lemma replaced_parses : forall read tz commits ts gs, get_replaced_file_groups_as_of L read tz commits ts = Ok gs ->
  exists dt, parse_datetime L ts tz = Ok dt.
Proof.
  intros read tz commits ts gs H. unfold get_replaced_file_groups_as_of in H. apply bind_ok in H as [sel [H _]].
  unfold completed_replacecommits_in_range, completed_actions_in_range in H. cbn [opt_traverse bind] in H.
  destruct (parse_datetime L ts tz) as [dt| |]; [eauto|discriminate|discriminate].
Qed.
Lemma as_of_snapshot : forall root, serves_dirs root (st_dirs _ st) -> wf_tree root -> StronglySorted instant_le (t_commits tb) ->
  forall c c' t filters ss, after c -> as_of t filters c c' (Ok ss) ->
  exists fs tz dt ps h u format partitioned,
    from_str_tuples filters = Ok fs /\ timeline_timezone (t_configs tb) = Ok tz /\ parse_datetime L t tz = Ok dt
    /\ get_partition_schema dtype st tb = Ok ps /\ hive_flag tb = Ok h /\ url_flag tb = Ok u
    /\ base_format (t_configs tb) = Ok format /\ is_table_partitioned (t_configs tb) = Ok partitioned
    /\ (wf_fields ps -> table_snapshot dtype value cast cmp ps h u (st_files _ st) format partitioned root fs t
          (replaced_by_time (st_json _ st) (t_commits tb) (epoch_millis dt)) ss).
Proof.
  intros root Sv Wf So c c' t filters ss Hc H.
  inversion H as [|c1 c1' fs r Hf Ha]; subst. inversion Ha as [| |c2 c2' q pt fm n r Hp F1 F2 F3 V]; subst.
  destruct (plan_inv _ _ _ Hp) as [tz [ps [pr [h [u [P1 [P2 [P3 [P4 [P5 [P6 [P7 [P8 P9]]]]]]]]]]]]].
  destruct (replaced_parses _ _ _ _ _ P2) as [dt Hd].
  exists fs, tz, dt, ps, h, u, fm, pt. repeat (split; [assumption|]). intros W.
  assert (Hh := after_history _ Hc _ _ _ F1 F2 F3).
  destruct (snapshot_exact _ _ _ _ _ _ _ Sv Wf _ _ _ _ Hh (plan_wf _ _ _ Hp) V) as [S1 [S2 S3]].
  destruct (replaced_as_of _ _ _ _ _ _ _ So Hd P2) as [_ R].
  assert (X : forall g, In g (map ident (q_excluded q)) <-> replaced_by_time (st_json _ st) (t_commits tb) (epoch_millis dt) g).
  { intros [p id]. apply R. }
  unfold relevant in *. split; [|split; [|exact S3]].
  - intros s Hs. destruct (S1 s Hs) as [p [listed [[I1 I2] [I3 [I4 I5]]]]]. rewrite P7 in I4.
    assert (E : fs_partition s = p) by (destruct I4 as [? [? [_ [E _]]]]; exact E). rewrite E.
    exists listed. split; [exact I2|]. split; [assumption|]. split; [assumption|]. split; [now rewrite <- X|].
    intros values Ne [N1 [N2 [N3 [N4 [N5 N6]]]]].
    apply (pruning_exact dtype value cast cmp fs ps h u pr values p P6 W N2 Ne N1 N3 N4 N5 N6). now rewrite <- P9.
  - intros p Tp M. assert (I : q_include q p = true).
    { rewrite P9. destruct M as [ -> |[values [N1 [N2 N3]]]].
      - apply (no_filter_keeps _ _ _ _ _ _ _ _ p P6).
      - eapply pruning_sound; eauto. }
    destruct (S2 p (conj I Tp)) as [listed [L1 L2]]. exists listed. split; [assumption|].
    intros m b B1 B2 B3. rewrite P7 in L2. apply (L2 m b B1 B2). now rewrite X.
Qed.
End T.

(** ** Later writers *)
Lemma replaced_later : forall time read read' before now g, later_commits time read read' before now ->
  (replaced_by_time read' now time g <-> replaced_by_time read before time g).
Proof.
  intros time read read' before now g [I [N R]]. unfold replaced_by_time, commit_in. split.
  - intros [i [md [[H1 [H2 [H3 H4]]] K]]]. exists i, md. split; [|exact K].
    assert (B : In i before).
    { destruct (N i H1) as [B|B]; [exact B|]. exfalso. unfold S_Timeline.in_window in H3. apply andb_true_iff in H3 as [_ H3]. apply Z.leb_le in H3. lia. }
    split; [assumption|]. split; [assumption|]. split; [assumption|]. now rewrite <- (R i B).
  - intros [i [md [[H1 [H2 [H3 H4]]] K]]]. exists i, md. split; [|exact K].
    split; [now apply I|]. split; [assumption|]. split; [assumption|]. now rewrite (R i H1).
Qed.
Lemma base_listed_det : forall format l m b1 b2, base_listed format l m b1 -> base_listed format l m b2 -> b1 = b2.
Proof. intros format l m b1 b2 [_ [_ [_ H1]]] [_ [_ [_ H2]]]. congruence. Qed.
Lemma base_listed_incl : forall format l l' m b, incl l l' -> base_listed format l m b -> base_listed format l' m b.
Proof. intros format l l' m b I [H1 H]. split; auto. Qed.
Lemma log_listed_incl : forall format l l' m b, incl l l' -> log_listed format l m b -> log_listed format l' m b.
Proof. intros format l l' m b I [H1 H]. split; auto. Qed.

(** One side: what was shown before is still shown. *)
Lemma snapshot_stable : forall files files' format partitioned root root' q q' ss ss',
  snapshot_of files format partitioned root q ss -> snapshot_of files' format partitioned root' q' ss' ->
  q_time q' = q_time q -> (forall p, q_include q' p = q_include q p) ->
  (forall g, In g (map ident (q_excluded q')) <-> In g (map ident (q_excluded q))) ->
  (forall p, table_partition partitioned root p -> table_partition partitioned root' p) ->
  (forall p l l', files p = Ok l -> files' p = Ok l' -> table_partition partitioned root p -> later_files format (q_time q) l l') ->
  (forall p, table_partition partitioned root' p -> table_partition partitioned root p
     \/ forall l' m b, files' p = Ok l' -> base_listed format l' m b -> slt (q_time q) (bf_commit b)) ->
  (forall s, In s ss -> exists s', In s' ss' /\ fs_partition s' = fs_partition s /\ base_file_name (fs_base s') = base_file_name (fs_base s)
     /\ forall v w, (exists l, In l (fs_logs s) /\ lf_version l = v /\ lf_write_token l = w) -> exists l, In l (fs_logs s') /\ lf_version l = v /\ lf_write_token l = w)
  /\ (forall s', In s' ss' -> exists s, In s ss /\ fs_partition s = fs_partition s' /\ base_file_name (fs_base s) = base_file_name (fs_base s')).
Proof.
  intros files files' format partitioned root root' q q' ss ss' [A1 [A2 _]] [B1 [B2 _]] Et Ei Ex Rp Fl Fn.
  assert (Core : forall p l l' s s' , table_partition partitioned root p -> files p = Ok l -> files' p = Ok l' -> shows_newest format l p (q_time q) s -> shows_newest format l' p (q_time q) s' ->
    bf_file_id (fs_base s) = bf_file_id (fs_base s') -> base_file_name (fs_base s) = base_file_name (fs_base s') /\ bf_commit (fs_base s) = bf_commit (fs_base s')).
  { intros p l l' s s' Tp Hl Hl' [m [b [K1 [K2 [K3 [K4 [K5 [K6 [K7 _]]]]]]]]] [m' [b' [J1 [J2 [J3 [J4 [J5 [J6 [J7 _]]]]]]]]] E.
    destruct (Fl p l l' Hl Hl' Tp) as [I [O U]].
    assert (K1' := base_listed_incl _ _ _ _ _ I K1).
    assert (J1' : base_listed format l m' b').
    { destruct (O m' b' J1) as [X|X]; [destruct J1 as [_ J]; split; assumption|]. elim (proj1 (slt_not_sle _ _) X J6). }
    assert (X1 : sle (bf_commit b') (bf_commit b)) by (apply (K7 m' b' J1'); congruence).
    assert (X2 : sle (bf_commit b) (bf_commit b')) by (apply (J7 m b K1'); congruence).
    assert (X : bf_commit b = bf_commit b') by (apply sle_antisym_str; assumption).
    assert (m = m') by (apply (U m b m' b'); congruence). subst m'. assert (b = b') by (eapply base_listed_det; eauto). subst b'. split; congruence. }
  split.
  - intros s Hs. destruct (A1 s Hs) as [p [l [[I1 I2] [Hl [Sn Nx]]]]]. assert (Sn' := Sn). destruct Sn' as [m [b [K1 [K2 [K3 [K4 [K5 [K6 [K7 K8]]]]]]]]].
    destruct (B2 p) as [l' [Hl' C]]; [split; [now rewrite Ei|apply Rp; exact I2]|].
    destruct (Fl p l l' Hl Hl' I2) as [I [O U]].
    assert (Hin : In (p, bf_file_id b) (map slice_id ss')).
    { apply (C m b (base_listed_incl _ _ _ _ _ I K1)); [now rewrite Et|]. rewrite Ex. intros X. apply Nx. unfold slice_id. now rewrite K2, K3. }
    apply in_map_iff in Hin as [s' [E Hs']]. unfold slice_id in E. injection E as E1 E2. exists s'. split; [assumption|].
    destruct (B1 s' Hs') as [p' [l1 [_ [Hl1 [Sn' _]]]]]. assert (p' = p). { destruct Sn' as [? [? [_ [X _]]]]. congruence. } subst p'.
    assert (l1 = l') by congruence. subst l1. rewrite Et in Sn'.
    destruct (Core p l l' s s' I2 Hl Hl' Sn Sn') as [X1 X2]; [congruence|]. split; [congruence|]. split; [congruence|].
    intros v w Hv. apply K8 in Hv as [m' [x [X3 [X4 [X5 X6]]]]]. destruct Sn' as [m1 [b1 [J1 [J2 [J3 [J4 [J5 [J6 [J7 J8]]]]]]]]].
    apply J8. exists m', x. split; [eapply log_listed_incl; eauto|]. split; [congruence|]. split; [congruence|exact X6].
  - intros s' Hs'. destruct (B1 s' Hs') as [p [l' [[I1 I2] [Hl' [Sn' Nx]]]]]. rewrite Et in Sn'. assert (Sn := Sn'). destruct Sn as [m' [b' [J1 [J2 [J3 [J4 [J5 [J6 [J7 J8]]]]]]]]].
    destruct (Fn p I2) as [Tp|Tp]; [|elim (proj1 (slt_not_sle _ _) (Tp l' m' b' Hl' J1) J6)].
    destruct (A2 p) as [l [Hl C]]; [split; [now rewrite <- Ei|exact Tp]|].
    destruct (Fl p l l' Hl Hl' Tp) as [I [O U]].
    assert (J1' : base_listed format l m' b').
    { destruct (O m' b' J1) as [X|X]; [destruct J1 as [_ J]; split; assumption|]. elim (proj1 (slt_not_sle _ _) X J6). }
    assert (Hin : In (p, bf_file_id b') (map slice_id ss)).
    { apply (C m' b' J1' J6). rewrite <- Ex. intros X. apply Nx. unfold slice_id. now rewrite J2, J3. }
    apply in_map_iff in Hin as [s [E Hs]]. unfold slice_id in E. injection E as E1 E2. exists s. split; [assumption|].
    destruct (A1 s Hs) as [p' [l1 [_ [Hl1 [Sn _]]]]]. assert (p' = p). { destruct Sn as [? [? [_ [X _]]]]. congruence. } subst p'.
    assert (l1 = l) by congruence. subst l1.
    destruct (Core p l l' s s' Tp Hl Hl' Sn Sn') as [X1 X2]; [congruence|]. split; [congruence|congruence].
Qed.

Lemma as_of_inv : forall dtype value cast cmp L st tb root, serves_dirs root (st_dirs dtype st) -> wf_tree root -> StronglySorted instant_le (t_commits tb) ->
  forall c c' t filters ss, view_after dtype value cast cmp L st tb c -> get_file_slices_as_of dtype value cast cmp L st tb t filters c c' (Ok ss) ->
  exists fs q tz dt ps h u pr format partitioned,
    from_str_tuples filters = Ok fs /\ timeline_timezone (t_configs tb) = Ok tz /\ parse_datetime L t tz = Ok dt
    /\ get_partition_schema dtype st tb = Ok ps /\ hive_flag tb = Ok h /\ url_flag tb = Ok u /\ new_pruner dtype value cast fs ps (Ok h) (Ok u) = Ok pr
    /\ base_format (t_configs tb) = Ok format /\ is_table_partitioned (t_configs tb) = Ok partitioned
    /\ q_time q = t /\ q_include q = should_include dtype value cast cmp pr
    /\ (forall g, In g (map ident (q_excluded q)) <-> replaced_by_time (st_json dtype st) (t_commits tb) (epoch_millis dt) g)
    /\ snapshot_of (st_files dtype st) format partitioned root q ss.
Proof.
  intros dtype value cast cmp L st tb root Sv Wf So c c' t filters ss Hc H.
  inversion H as [|c1 c1' fs r Hf Ha]; subst. inversion Ha as [| |c2 c2' q pt fm n r Hp F1 F2 F3 V]; subst.
  destruct (plan_inv dtype value cast cmp L st tb _ _ _ Hp) as [tz [ps [pr [h [u [P1 [P2 [P3 [P4 [P5 [P6 [P7 [P8 P9]]]]]]]]]]]]].
  destruct (replaced_parses _ _ _ _ _ _ P2) as [dt Hd].
  exists fs, q, tz, dt, ps, h, u, pr, fm, pt. repeat (split; [assumption|]).
  assert (Hh := after_history dtype value cast cmp L st tb _ Hc _ _ _ F1 F2 F3).
  destruct (replaced_as_of _ _ _ _ _ _ _ So Hd P2) as [_ R]. split; [intros [p id]; apply R|].
  exact (snapshot_exact _ _ _ _ _ _ _ Sv Wf _ _ _ _ Hh (plan_wf dtype value cast cmp L st tb _ _ _ Hp) V).
Qed.

Lemma time_travel_stable : forall dtype value cast cmp L st st' tb tb' root root' c c1 c' c1' t filters ss ss' format partitioned tz dt,
  serves_dirs root (st_dirs dtype st) -> wf_tree root -> StronglySorted instant_le (t_commits tb) ->
  serves_dirs root' (st_dirs dtype st') -> wf_tree root' -> StronglySorted instant_le (t_commits tb') ->
  view_after dtype value cast cmp L st tb c -> get_file_slices_as_of dtype value cast cmp L st tb t filters c c1 (Ok ss) ->
  view_after dtype value cast cmp L st' tb' c' -> get_file_slices_as_of dtype value cast cmp L st' tb' t filters c' c1' (Ok ss') ->
  t_configs tb' = t_configs tb -> get_partition_schema dtype st' tb' = get_partition_schema dtype st tb ->
  base_format (t_configs tb) = Ok format -> is_table_partitioned (t_configs tb) = Ok partitioned ->
  timeline_timezone (t_configs tb) = Ok tz -> parse_datetime L t tz = Ok dt ->
  later_commits (epoch_millis dt) (st_json dtype st) (st_json dtype st') (t_commits tb) (t_commits tb') ->
  (forall p, table_partition partitioned root p -> table_partition partitioned root' p) ->
  (forall p l l', table_partition partitioned root p -> st_files dtype st p = Ok l -> st_files dtype st' p = Ok l' -> later_files format t l l') ->
  (forall p, table_partition partitioned root' p -> table_partition partitioned root p
     \/ forall l' m b, st_files dtype st' p = Ok l' -> base_listed format l' m b -> slt t (bf_commit b)) ->
  (forall p n, shows_base ss p n <-> shows_base ss' p n)
  /\ forall s, In s ss -> exists s', In s' ss' /\ fs_partition s' = fs_partition s /\ base_file_name (fs_base s') = base_file_name (fs_base s)
       /\ forall v w, (exists l, In l (fs_logs s) /\ lf_version l = v /\ lf_write_token l = w) -> exists l, In l (fs_logs s') /\ lf_version l = v /\ lf_write_token l = w.
Proof.
  intros dtype value cast cmp L st st' tb tb' root root' c c1 c' c1' t filters ss ss' format partitioned tz dt Sv Wf So Sv' Wf' So' Hc H Hc' H' Ec Es Hf Hp Hz Hd Lc Rp Fl Fn.
  destruct (as_of_inv dtype value cast cmp L st tb root Sv Wf So _ _ _ _ _ Hc H) as [fs [q [tz1 [dt1 [ps [h [u [pr [f1 [p1 [A1 [A2 [A3 [A4 [A5 [A6 [A7 [A8 [A9 [A10 [A11 [A12 A13]]]]]]]]]]]]]]]]]]]]]].
  destruct (as_of_inv dtype value cast cmp L st' tb' root' Sv' Wf' So' _ _ _ _ _ Hc' H') as [fs' [q' [tz1' [dt1' [ps' [h' [u' [pr' [f1' [p1' [B1 [B2 [B3 [B4 [B5 [B6 [B7 [B8 [B9 [B10 [B11 [B12 B13]]]]]]]]]]]]]]]]]]]]]].
  unfold hive_flag, url_flag in *. rewrite Ec in B2, B5, B6, B8, B9.
  assert (tz1 = tz) by congruence. subst tz1. assert (tz1' = tz) by congruence. subst tz1'. assert (dt1 = dt) by congruence. subst dt1. assert (dt1' = dt) by congruence. subst dt1'.
  assert (f1 = format) by congruence. subst f1. assert (f1' = format) by congruence. subst f1'. assert (p1 = partitioned) by congruence. subst p1. assert (p1' = partitioned) by congruence. subst p1'.
  assert (fs' = fs) by congruence. assert (ps' = ps) by congruence. assert (h' = h) by congruence. assert (u' = u) by congruence. subst fs' ps' h' u'. assert (pr' = pr) by congruence. subst pr'.
  destruct (snapshot_stable _ _ _ _ _ _ _ _ _ _ A13 B13) as [S1 S2].
  - congruence.
  - intros p. now rewrite A11, B11.
  - intros g. rewrite A12, B12. now apply replaced_later.
  - exact Rp.
  - intros p l l' Hl Hl' Tp. rewrite A10. eauto.
  - intros p Tp. rewrite A10. exact (Fn p Tp).
  - split; [|exact S1]. intros p n. split.
    + intros [s [K1 [K2 K3]]]. destruct (S1 s K1) as [s' [K4 [K5 [K6 _]]]]. exists s'. split; [assumption|]. split; congruence.
    + intros [s [K1 [K2 K3]]]. destruct (S2 s K1) as [s' [K4 [K5 K6]]]. exists s'. split; [assumption|]. split; congruence.
Qed.

Lemma committed_shown : forall dtype value cast cmp local_to_utc (st : store dtype) tb root,
  serves_dirs root (st_dirs _ st) -> wf_tree root -> StronglySorted instant_le (t_commits tb) ->
  forall c c' t filters ss fields format, view_after dtype value cast cmp local_to_utc st tb c ->
  get_file_slices_as_of dtype value cast cmp local_to_utc st tb t filters c c' (Ok ss) ->
  get_partition_schema dtype st tb = Ok fields -> wf_fields fields -> base_format (t_configs tb) = Ok format ->
  (forall p listed m b, st_files _ st p = Ok listed -> base_listed format listed m b -> sle (bf_commit b) t ->
     exists i, In i (t_commits tb) /\ i_timestamp i = bf_commit b) ->
  forall s, In s ss -> sle (bf_commit (fs_base s)) t /\ exists i, In i (t_commits tb) /\ i_timestamp i = bf_commit (fs_base s).
Proof.
  intros dtype value cast cmp L st tb root Sv Wf So c c' t filters ss fields format Hc H Hf W Hb F s Hs.
  destruct (as_of_snapshot dtype value cast cmp L st tb root Sv Wf So _ _ _ _ _ Hc H) as [fs [tz [dt [ps [h [u [f [pt [_ [_ [_ [P1 [_ [_ [P2 [_ P4]]]]]]]]]]]]]]]].
  assert (ps = fields) by congruence. subst ps. assert (f = format) by congruence. subst f. destruct (P4 W) as [S1 _].
  destruct (S1 s Hs) as [listed [_ [Hl [[m [b [B1 [B2 [B3 [B4 [B5 [B6 _]]]]]]]] _]]]]. rewrite B5. split; [assumption|]. eapply F; eauto.
Qed.

(** ** Planning *)
Lemma schema_path : forall read commits i md path, last_opt commits = Some i -> read (".hoodie/" ++ file_name i) = Ok md -> names_schema_file md path ->
  latest_schema_path read commits = Ok path.
Proof.
  intros read commits i md path Hl Hr [p [stat [stats [rest [name [H1 [H2 H3]]]]]]]. unfold latest_schema_path, latest_commit_metadata. rewrite Hl.
  unfold instant_metadata. change (instant_relative_path i) with (".hoodie/" ++ file_name i). rewrite Hr. cbn [bind]. rewrite H1. cbn [and_then as_object hd_error ok_or bind fst snd as_array]. rewrite H2. cbn [and_then as_str].
  destruct H3 as [[R ->]|[N [base [HB [NS [NE H3]]]]]].
  - assert (E : ends_with ".parquet" name = true) by (apply ends_with_spec; exact R). now rewrite E.
  - assert (E : ends_with ".parquet" name = false) by (apply Bool.not_true_is_false; intros X; apply ends_with_spec in X as [r X]; now apply (N r)). rewrite E, HB. cbn [and_then as_str ok_or bind]. f_equal. unfold path_join.
    assert (E1 : starts_with "/" base = false) by (apply Bool.not_true_is_false; intros X; apply starts_with_spec in X as [r X]; now apply (NS r)).
    assert (E2 : ends_with "/" p = false) by (apply Bool.not_true_is_false; intros X; apply ends_with_spec in X as [r X]; now apply (NE r)). rewrite E1, E2.
    destruct H3 as [[ -> ->]|[NP ->]]; [reflexivity|]. apply String.eqb_neq in NP. now rewrite NP.
Qed.
Lemma no_schema : forall read commits i md, last_opt commits = Some i -> read (".hoodie/" ++ file_name i) = Ok md -> writes_nothing md ->
  forall path, latest_schema_path read commits <> Ok path.
Proof.
  intros read commits i md Hl Hr W path H. unfold latest_schema_path, latest_commit_metadata in H. rewrite Hl in H.
  unfold instant_metadata in H. change (instant_relative_path i) with (".hoodie/" ++ file_name i) in H. rewrite Hr in H. cbn [bind] in H.
  destruct (jget "partitionToWriteStats" md) as [[| | | | |obj]|] eqn:E; cbn [and_then as_object ok_or bind] in H; try discriminate.
  destruct obj as [|[p v] obj]; cbn [hd_error and_then ok_or bind fst snd] in H; [discriminate|].
  destruct v as [| | | |stats|]; cbn [as_array and_then] in H; try discriminate. destruct stats as [|stat stats]; cbn [hd_error and_then] in H; [discriminate|].
  apply (W p stat). exists ((p, JArr (stat :: stats)) :: obj), (stat :: stats). split; [exact E|]. split; now left.
Qed.

Section Plan.
Variable dtype value : Type.
Variable cast : dtype -> string -> option value.
Variable cmp : value -> value -> option comparison.
Variable L : ndt -> option ndt.
Variable st : store dtype.
Variable tb : table.
Lemma unplannable : forall i md, last_opt (t_commits tb) = Some i -> st_json _ st (".hoodie/" ++ file_name i) = Ok md -> writes_nothing md ->
  forall filters c c' r, get_file_slices dtype value cast cmp L st tb filters c c' r -> forall ss, r <> Ok ss.
Proof.
  intros i md Hl Hr W filters c c' r H ss ->. inversion H as [? N|? ? t ? Ht Ha]; subst.
  { unfold latest_commit_timestamp in N. now rewrite Hl in N. }
  inversion Ha as [|? ? fs ? Hf Hs]; subst. inversion Hs as [| |? ? q pt fm n ? Hp]; subst.
  destruct (plan_inv _ _ _ _ _ _ _ _ _ _ Hp) as [tz [ps [pr [h [u [_ [_ [Ps _]]]]]]]]. unfold get_partition_schema in Ps.
  apply bind_ok in Ps as [fl [_ Ps]]. apply bind_ok in Ps as [path [Ps _]]. exact (no_schema _ _ _ _ Hl Hr W path Ps).
Qed.

Lemma plannable : forall t tz dt i md path sch fields h u fs,
  StronglySorted instant_le (t_commits tb) ->
  timeline_timezone (t_configs tb) = Ok tz -> parse_datetime L t tz = Ok dt ->
  (forall i, In i (t_commits tb) -> i_state i = Completed -> i_action i = ReplaceCommit -> (i_epoch i <= epoch_millis dt)%Z ->
     exists md, st_json _ st (".hoodie/" ++ file_name i) = Ok md /\ replace_metadata_ok md) ->
  last_opt (t_commits tb) = Some i -> st_json _ st (".hoodie/" ++ file_name i) = Ok md -> names_schema_file md path -> st_schema _ st path = Ok sch ->
  partition_fields (t_configs tb) = Ok fields -> hive_flag tb = Ok h -> url_flag tb = Ok u ->
  (forall f, In f fs -> exists ty v, In (fe_field f, ty) sch /\ In (fe_field f) fields /\ (forall ty', In (fe_field f, ty') sch -> ty' = ty) /\ cast ty (fe_value f) = Some v) ->
  exists q, plan dtype value cast cmp L st tb t fs = Ok q.
Proof.
  intros t tz dt i md path sch fields h u fs So Hz Hd Hr Hl Hm Hn Hs Hf Hh Hu F. unfold plan. rewrite Hz. cbn [bind].
  destruct (replaced_as_of_succeeds L (st_json _ st) tz _ t dt So Hd Hr) as [gs ->]. cbn [bind].
  unfold get_partition_schema. rewrite Hf, (schema_path _ _ _ _ _ Hl Hm Hn). cbn [bind]. rewrite Hs. cbn [bind].
  unfold new_pruner. rewrite Hh, Hu. set (ps := partition_schema dtype sch fields).
  assert (X : exists sf, mapM (schemable_of dtype value cast ps) fs = Ok sf).
  { apply mapM_succeeds. intros f Hin. destruct (F f Hin) as [ty [v [F1 [F2 [F3 F4]]]]]. unfold schemable_of.
    destruct (find (fun e => String.eqb (fst e) (fe_field f)) ps) as [[n ty']|] eqn:E.
    - apply find_some in E as [E1 E2]. cbn in E2. apply String.eqb_eq in E2. subst n. unfold ps, partition_schema in E1. apply filter_In in E1 as [E1 _].
      rewrite (F3 _ E1). cbn [ok_or bind]. rewrite F4. cbn. eauto.
    - exfalso. assert (Y := find_none _ _ E (fe_field f, ty)). cbn in Y. rewrite String.eqb_refl in Y. discriminate Y.
      unfold ps, partition_schema. apply filter_In. split; [assumption|]. apply existsb_exists. exists (fe_field f). split; [assumption|]. apply String.eqb_refl. }
  destruct X as [sf ->]. cbn [bind]. eauto.
Qed.
End Plan.
