(** Records that changed between two times. *)
From Coq Require Import Sorted.
From Verif Require Import Base Str L_Base L_Str M_Time M_Instant M_Timeline M_FileGroup M_Builder M_Listing M_Expr M_Log M_Config M_Reader M_Table
  S_Time S_Timeline S_FileGroup S_Builder S_Listing S_Expr S_Log S_Reader S_Config S_Table S_History S_Incremental
  L_Time L_Instant L_Timeline L_FileGroup L_Log L_Config L_Reader L_Table L_Incremental L_History L_Records.
Local Open Scope string_scope.

Lemma selects_iff : forall A (P : A -> Prop) l r, selects P l r -> forall x, In x r <-> In x l /\ P x.
Proof.
  intros A P l r H. induction H as [|y l r Py H IH|y l r Py H IH]; intros x; cbn; [tauto| |].
  - rewrite (IH x). split; [intros [ -> |[]]; auto|intros [[ -> |I] Px]; auto].
  - rewrite (IH x). split; [tauto|]. intros [[ -> |I] Px]; [now elim Py|auto].
Qed.
Lemma selects_nodup : forall A B (f : A -> B) P l r, selects P l r -> NoDup (map f l) -> NoDup (map f r).
Proof.
  intros A B f P l r H. induction H as [|y l r Py H IH|y l r Py H IH]; intros N; [constructor| |]; inversion N; subst; [|auto]. cbn. constructor; [|auto].
  intros I. apply in_map_iff in I as [z [E I]]. apply (selects_iff _ _ _ _ H) in I as [I _]. match goal with H : ~ In _ _ |- _ => apply H end. rewrite <- E. now apply in_map.
Qed.

Section Merge.
Variable k p s : nat.
Lemma newer_asym : forall sch pn sn a b, column_at sch pn p -> column_at sch sn s -> wf_row sch a -> wf_row sch b -> newer p s a b -> ~ newer p s b a.
Proof.
  intros sch pn sn a b P S A B. rewrite !(newer_cmp sch pn sn) by assumption. rewrite row_cmp_opp. destruct (row_cmp (order_of p s a) (order_of p s b)); cbn; congruence.
Qed.
Lemma changed_merge : forall sch pn sn ct now g start e c base fbase kept out, column_at sch pn p -> column_at sch sn s ->
  inv k p s now g -> (forall x r, In (x, r) (g_versions g) -> wf_row sch r) -> stamped ct g -> later_is_newer k p s g e ->
  In (c, base) (g_bases g) -> sle c e -> (forall b, In b (map fst (g_bases g)) -> sle b e -> sle b c) ->
  (forall r, In r fbase <-> In r base /\ exists x, nth ct r Null = VText x /\ slt start x /\ sle x e) ->
  (forall r, In r kept <-> exists x rows, In (c, x, rows) (g_blocks g) /\ In r rows /\ ~ In x (g_failed g) /\ slt start x /\ sle x e) ->
  latest_rows k p s (fbase ++ kept)%list out -> changed_between k p s g start e out.
Proof.
  intros sch pn sn ct now g start e c base fbase kept out P S I W St LN Ib Lc Mx Hf Hk [D [K L]].
  assert (Ic : In c (map fst (g_bases g))) by (apply in_map_iff; now exists (c, base)).
  destruct (proj2 (iv_bases _ _ _ _ _ I _ _ Ib)) as [_ [KB LB]].
  assert (A : forall x r, In (x, r) (g_versions g) -> slt start x -> sle x e -> exists r0, In r0 (fbase ++ kept)%list /\ key_at k r0 = key_at k r /\ (r0 = r \/ ~ newer p s r r0)).
  { intros x r V Lx Lx'. destruct (sle_total x c) as [Le|Le].
    - destruct (KB x r V Le) as [r1 [I1 E1]]. destruct (LB r1 I1) as [[x1 [V1 L1]] N1]. exists r1. split; [|split; [exact E1|right; apply (N1 x r V Le); congruence]].
      apply in_or_app. left. apply Hf. split; [exact I1|]. exists x1. split; [now apply St|]. split; [|eapply sle_trans; eauto].
      destruct (sle_total x1 start) as [Ls|Ls]; [exfalso|].
      + apply (N1 x r V Le); [congruence|]. apply (LN x1 r1 x r V1 V); [eapply sle_slt_trans; eauto|exact Lx'|exact E1].
      + apply sle_lt_or_eq in Ls as [Ls| <- ]; [exact Ls|exfalso]. apply (N1 x r V Le); [congruence|]. apply (LN start r1 x r V1 V); [exact Lx|exact Lx'|exact E1].
    - apply sle_lt_or_eq in Le as [Le| <- ].
      + exists r. split; [|auto]. apply in_or_app. right. apply Hk. destruct (iv_written _ _ _ _ _ I _ _ V) as [J|[[b [rows [J1 J2]]]|[_ J]]].
        { exfalso. apply slt_not_sle in Le. apply Le. now apply Mx. }
        2: { exfalso. apply slt_not_sle in Le. apply Le. now apply J. }
        destruct (iv_blocks _ _ _ _ _ I _ _ _ J1) as [_ [_ [B1 [B2 [B3 _]]]]].
        assert (b = c) as -> .
        { apply sle_antisym; [apply Mx; [exact B1|apply slt_sle; eapply slt_sle_trans; eauto]|]. destruct (B3 c Ic) as [B|B]; [exact B|]. exfalso. apply slt_not_sle in B. apply B. now apply slt_sle. }
        exists x, rows. split; [exact J1|]. split; [exact J2|]. split; [|auto]. intros F. now apply (proj2 (iv_failed _ _ _ _ _ I _ F) r).
      + destruct (KB c r V (sle_refl c)) as [r1 [I1 E1]]. destruct (LB r1 I1) as [[x1 [V1 L1]] N1]. exists r1. split; [|split; [exact E1|right; apply (N1 c r V (sle_refl c)); congruence]].
        apply in_or_app. left. apply Hf. split; [exact I1|]. exists x1. split; [now apply St|]. split; [|eapply sle_trans; eauto].
        apply sle_lt_or_eq in L1 as [L1| -> ]; [|exact Lx]. exfalso. apply (N1 c r V (sle_refl c)); [congruence|]. apply (LN x1 r1 c r V1 V L1 Lx' E1). }
  assert (B : forall r, In r (fbase ++ kept)%list -> exists x, In (x, r) (g_versions g) /\ slt start x /\ sle x e).
  { intros r J. apply in_app_or in J as [J|J].
    - apply Hf in J as [J [x [E1 E2]]]. destruct (LB r J) as [[x1 [V1 _]] _]. rewrite (St _ _ V1) in E1. injection E1 as -> . eauto.
    - apply Hk in J as [x [rows [J1 [J2 [J3 J4]]]]]. exists x. split; [|exact J4]. now apply (iv_blocks _ _ _ _ _ I _ _ _ J1). }
  split; [exact D|]. split.
  - intros x r V L1 L2. destruct (A x r V L1 L2) as [r0 [J [E _]]]. destruct (K r0 J) as [r' [J' E']]. exists r'. split; [exact J'|congruence].
  - intros r J. destruct (L r J) as [J1 J2]. destruct (B r J1) as [x [V [L1 L2]]]. split; [eauto|]. intros y r2 V2 Ly E Nw.
    destruct (sle_total y start) as [Ls|Ls].
    + apply (newer_asym sch pn sn r2 r P S (W _ _ V2) (W _ _ V) Nw). apply (LN y r2 x r V2 V); [eapply sle_slt_trans; eauto|exact L2|exact E].
    + apply sle_lt_or_eq in Ls as [Ls| <- ].
      * destruct (A y r2 V2 Ls Ly) as [r0 [I0 [E0 [ -> |N0]]]]; [now apply (J2 r2 I0 E)|]. destruct (B r0 I0) as [x0 [V0 _]].
        apply (not_newer_trans sch pn sn p s r2 r0 r P S (W _ _ V2) (W _ _ V0) (W _ _ V) N0); [|exact Nw]. apply J2; [exact I0|congruence].
      * apply (newer_asym sch pn sn r2 r P S (W _ _ V2) (W _ _ V) Nw). now apply (LN start r2 x r V2 V).
Qed.
End Merge.

Section Reading.
Variable avro_schema avro_value : Type.
Variable parse_schema : string -> option avro_schema.
Variable datum : avro_schema -> string -> option (avro_value * string).
Variable check_schema : avro_schema -> outcome unit.
Variable to_batch : avro_schema -> list avro_value -> outcome record_batch.
Variable parquet : string -> option (list record_batch).
Variable read_parquet : string -> outcome record_batch.
Variable bytes : string -> outcome string.
Variable local_to_utc : ndt -> option ndt.
Variable k p s ct : nat.
Notation laid_out := (laid_out avro_schema avro_value parse_schema datum check_schema to_batch parquet read_parquet bytes).
Notation read_slice sort iter := (read_file_slice sort iter read_parquet avro_schema avro_value parse_schema datum check_schema to_batch parquet local_to_utc bytes).

Lemma changes_slice : forall sort iter m start e now format part id sch listed contents g slice read commits, sorts sort -> visits iter ->
  read_start m = Some start -> read_end m = Some e -> timestamp start -> timestamp e -> in_utc m -> oget "hoodie.read.use.read_optimized.mode" m <> Some "true" ->
  oget "hoodie.populate.meta.fields" m <> Some "false" -> typed_column sch "_hoodie_commit_time" TUtf8 ct ->
  merges_latest m -> merge_columns m sch p s k ->
  let commit := commit_between read commits start e in
  let c := bf_commit (fs_base slice) in
  fs_partition slice = part ->
  (exists i md, commit i md /\ names_base md part id c (base_file_name (fs_base slice))) -> sle c e ->
  (forall c' n', (exists i md, commit i md /\ names_base md part id c' n') -> sle c' e -> sle c' c) ->
  (forall v w, (exists l, In l (fs_logs slice) /\ lf_version l = v /\ lf_write_token l = w) <-> exists i md, commit i md /\ names_log md part id c v w) ->
  (forall l, In l (fs_logs slice) -> exists i md, commit i md /\ names_log_file md part id c l) ->
  laid_out format part id sch listed contents g -> history k p s now g -> stamped ct g -> later_is_newer k p s g e ->
  recorded read commits format part id listed contents g start e ->
  exists out, read_slice sort iter m slice = Ok out /\ rb_fields out = sch /\ changed_between k p s g start e (rb_rows out).
Proof.
  intros sort iter m start e now format part id sch listed contents g slice read commits HS HI RS RE Ts Te U RO PM TC ML MC commit c HP HB Lc Mx HLs HPr LO H St LN RC.
  pose proof (history_inv _ _ _ _ _ H) as I. destruct HB as [i0 [md0 [C0 N0]]].
  destruct (rc_base_files _ _ _ _ _ _ _ _ _ _ RC i0 md0 c _ C0 N0) as [m0 [Bo En]].
  assert (Ic : In c (map fst (g_bases g))) by (apply LO; eauto). apply in_map_iff in Ic as [[c' rows] [E Ib]]. cbn in E. subst c'.
  assert (Ic : In c (map fst (g_bases g))) by (apply in_map_iff; now exists (c, rows)).
  assert (Mb : forall b, In b (map fst (g_bases g)) -> sle b e -> sle b c).
  { intros b Jb Lb. destruct (sle_total b start) as [Ls|Ls].
    - apply (rc_newest _ _ _ _ _ _ _ _ _ _ RC i0 md0 c _ b C0 N0 Jb). destruct C0 as [_ [_ [C0 _]]]. apply slt_sle. eapply sle_slt_trans; eauto.
    - apply sle_lt_or_eq in Ls as [Ls| <- ].
      + destruct (rc_bases _ _ _ _ _ _ _ _ _ _ RC b Jb Ls Lb) as [i [md [n X]]]. apply (Mx b n); eauto.
      + apply (rc_newest _ _ _ _ _ _ _ _ _ _ RC i0 md0 c _ start C0 N0 Jb). destruct C0 as [_ [_ [C0 _]]]. now apply slt_sle. }
  destruct Bo as [b0 [B1 [B2 B3]]].
  assert (Bo : base_of format id listed m0 c) by (exists b0; auto).
  assert (Bp : base_relative_path slice = file_path part (fm_name m0)).
  { unfold base_relative_path. rewrite HP, <- En. rewrite path_is; [reflexivity|apply LO|]. intros r Er. apply (base_name_start id b0 (proj2 (lo_paths _ _ _ _ _ _ _ _ _ _ _ _ _ _ _ _ LO)) B2 r).
    rewrite <- Er. exact (lo_names _ _ _ _ _ _ _ _ _ _ _ _ _ _ _ _ LO m0 b0 B1 B2). }
  assert (Ty := lo_typed _ _ _ _ _ _ _ _ _ _ _ _ _ _ _ _ LO). assert (Wr := rows_typed _ _ _ _ _ _ _ _ I Ty Ib).
  destruct (base_window read_parquet m (base_relative_path slice) {| rb_fields := sch; rb_rows := rows |} ct start) as [fb [Rb [Ef Sf]]]; try assumption.
  { rewrite Bp. exact (lo_rows _ _ _ _ _ _ _ _ _ _ _ _ _ _ _ _ LO m0 c rows Bo Ib). }
  cbn [rb_fields rb_rows] in Ef, Sf. rewrite RE in Sf.
  assert (Hf : forall r, In r (rb_rows fb) <-> In r rows /\ exists x, nth ct r Null = VText x /\ slt start x /\ sle x e).
  { intros r. rewrite (selects_iff _ _ _ _ Sf r). split; intros [J [x [J1 [J2 J3]]]]; (split; [exact J|]); exists x; (split; [exact J1|]); (split; [exact J2|]); [now apply J3|intros e' [= <-]; exact J3]. }
  destruct (MC) as [[pn [pt [_ [[CP _] _]]]] [[CS _] _]].
  assert (HL : forall l, In l (fs_logs slice) -> exists m, log_of format id listed m c /\ fm_name m = log_file_name l).
  { intros l Il. destruct (HPr l Il) as [i [md [X1 X2]]]. exact (rc_log_files _ _ _ _ _ _ _ _ _ _ RC i md c l X1 X2). }
  assert (Nm : forall fm, log_named read commits part id start e fm c -> in_logs slice fm /\ exists fm2, log_of format id listed fm2 c /\ fm_name fm2 = fm_name fm).
  { intros fm [i [md [l [X1 [X2 X3]]]]]. destruct (rc_log_files _ _ _ _ _ _ _ _ _ _ RC i md c l X1 X2) as [fm1 [Y1 Y2]].
    assert (Q : exists l', In l' (fs_logs slice) /\ lf_version l' = lf_version l /\ lf_write_token l' = lf_write_token l).
    { apply HLs. destruct X2 as [stat [base [logs [b [name [Z1 [Z2 [Z3 [Z4 [Z5 Z6]]]]]]]]]]. exists i, md. split; [exact X1|]. exists stat, base, logs, b, name, l. auto 10. }
    destruct Q as [l' [Q1 [Q2 Q3]]]. destruct (HL l' Q1) as [fm2 [W1 W2]].
    assert (Pl : exists n x, log_file_of n x = Ok l) by (destruct X2 as [? [? [? [? [n [_ [_ [_ [_ [_ Z]]]]]]]]]]; unfold log_file_from_str in Z; eauto).
    assert (Pl' : exists n x, log_file_of n x = Ok l') by (destruct (HPr l' Q1) as [? [? [_ [? [? [? [? [n [_ [_ [_ [_ [_ Z]]]]]]]]]]]]]; unfold log_file_from_str in Z; eauto).
    destruct Y1 as [k1 [Y1 [Y3 Y4]]]. destruct W1 as [k2 [W1 [W3 W4]]]. destruct Pl as [n [x Pl]]. destruct Pl' as [n' [x' Pl']].
    assert (E1 := proj2 (proj2 (proj2 Y1))). assert (E2 := proj2 (proj2 (proj2 W1))).
    assert (F1 : log_file_name k1 = log_file_name l) by (rewrite (log_name_reprint _ _ _ E1); exact Y2).
    assert (F2 : log_file_name k2 = log_file_name l') by (rewrite (log_name_reprint _ _ _ E2); exact W2).
    destruct (log_name_inj _ _ _ _ _ _ E1 Pl F1) as [_ [_ [_ [V1 T1]]]]. destruct (log_name_inj _ _ _ _ _ _ E2 Pl' F2) as [_ [_ [_ [V2 T2]]]].
    assert (fm1 = fm2) as -> by (apply (lo_distinct _ _ _ _ _ _ _ _ _ _ _ _ _ _ _ _ LO fm1 k1 fm2 k2); congruence).
    split; [exists l'; split; [exact Q1|congruence]|]. exists fm2. split; [exists k2; auto|congruence]. }
  assert (Mn : forall fm, in_logs slice fm -> log_named read commits part id start e fm c).
  { intros fm [l [Il El]]. destruct (HPr l Il) as [i [md [X1 X2]]]. exists i, md, l. auto. }
  assert (TS : forall a, read_start m = Some a -> timestamp a) by (intros a; rewrite RS; intros [= <-]; exact Ts).
  assert (TE : forall a, read_end m = Some a -> timestamp a) by (intros a; rewrite RE; intros [= <-]; exact Te).
  assert (Db : NoDup (map (key_at k) rows)) by apply (proj2 (iv_bases _ _ _ _ _ I _ _ Ib)).
  destruct (fs_logs slice) as [|l0 ls] eqn:El.
  - exists fb. split; [rewrite slice_read_optimized; [exact Rb|now right]|]. split; [exact Ef|].
    apply (changed_merge k p s sch pn "_hoodie_commit_seqno" ct now g start e c rows (rb_rows fb) [] (rb_rows fb) CP CS I Ty St LN Ib Lc Mb Hf).
    + intros r. split; [intros []|]. intros [x [rs [J1 [J2 [J3 [J4 J5]]]]]]. destruct (proj1 (lo_blocks _ _ _ _ _ _ _ _ _ _ _ _ _ _ _ _ LO c x r)) as [fm [w [bs [K1 [K2 [K3 K4]]]]]]; [eauto|].
      destruct (Nm fm (rc_blocks _ _ _ _ _ _ _ _ _ _ RC c x rs fm w bs J1 J3 J4 J5 K1 K2 K3)) as [[l [Il _]] _]. rewrite El in Il. destruct Il.
    + rewrite app_nil_r. split; [exact (selects_nodup _ _ _ _ _ _ Sf Db)|]. split; [eauto|]. intros r J. split; [exact J|].
      intros r' J' E. apply Hf in J as [J _]. apply Hf in J' as [J' _]. destruct (proj2 (iv_bases _ _ _ _ _ I _ _ Ib)) as [_ [_ L]]. destruct (L r' J') as [[x [Jx Lx]] _]. now apply (proj2 (L r J) x r').
  - rewrite <- El in HL.
    destruct (slice_exact sort iter read_parquet avro_schema avro_value parse_schema datum check_schema to_batch parquet local_to_utc bytes
      m slice "utc" (slice_files contents slice) fb p s k HS HI) as [kept [out [K [O1 [O2 O3]]]]]; try assumption; try (rewrite Ef; assumption).
    + rewrite El. discriminate.
    + now apply utc_is.
    + apply slice_paths.
    + exact (slice_file_ok avro_schema avro_value parse_schema datum check_schema to_batch parquet read_parquet bytes local_to_utc format part id sch listed contents g LO slice c HP HL m TS TE).
    + rewrite Ef. split; [exact Ef|]. apply Forall_forall. intros r J. apply Hf in J as [J _]. rewrite Forall_forall in Wr. auto.
    + intros f x b If Ix Ib'. rewrite Ef. unfold slice_files in If. apply in_map_iff in If as [l [ <- Il]]. destruct (HL l Il) as [fm [Hm En']].
      destruct (lo_logs _ _ _ _ _ _ _ _ _ _ _ _ _ _ _ _ LO fm c Hm) as [_ Hc]. rewrite En' in Hc. destruct x as [w bs]. cbn [snd] in Ix, Ib'. destruct (Hc w bs Ix) as [_ [W _]]. rewrite Forall_forall in W. now apply W.
    + exists out. split; [exact O1|]. split; [congruence|].
      apply (changed_merge k p s sch pn "_hoodie_commit_seqno" ct now g start e c rows (rb_rows fb) (rows_of (List.concat (map snd kept))) (rb_rows out) CP CS I Ty St LN Ib Lc Mb Hf); [|exact O3].
      assert (RT : forall x, range_test (read_start m) (read_end m) x = true <-> slt start x /\ sle x e).
      { intros x. unfold range_test. rewrite RS, RE. rewrite andb_true_iff, sltb_spec, sleb_spec. reflexivity. }
      intros r. rewrite (kept_rows avro_schema avro_value parse_schema datum check_schema to_batch parquet read_parquet bytes local_to_utc format part id sch listed contents g LO slice c HL m kept TS TE K r). split.
      * intros [x [fm [w [bs [J1 [J2 [J3 [J4 [J5 [J6 J7]]]]]]]]]].
        destruct (proj2 (lo_blocks _ _ _ _ _ _ _ _ _ _ _ _ _ _ _ _ LO c x r)) as [rs [J8 J9]]; [exists fm, w, bs; auto|]. apply RT in J6 as [J6 J6'].
        exists x, rs. split; [exact J8|]. split; [exact J9|]. split; [|auto]. intros F. apply J7.
        destruct (rc_failed _ _ _ _ _ _ _ _ _ _ RC fm c w bs x (Mn fm J2) J3 J4 F J6 J6') as [fm' [w' [bs' [y [F1 [F2 [F3 [F4 [F5 F6]]]]]]]]].
        destruct (Nm fm' F1) as [[l [Q1 Q2]] [fm2 [Q3 Q4]]]. exists fm2, w', bs', y. rewrite Q4. split; [exact Q3|]. split; [exists l; split; [exact Q1|congruence]|]. repeat (split; [assumption|]). now apply RT.
      * intros [x [rs [J1 [J2 [J3 [J4 J5]]]]]]. destruct (proj1 (lo_blocks _ _ _ _ _ _ _ _ _ _ _ _ _ _ _ _ LO c x r)) as [fm [w [bs [K1 [K2 [K3 K4]]]]]]; [eauto|].
        destruct (Nm fm (rc_blocks _ _ _ _ _ _ _ _ _ _ RC c x rs fm w bs J1 J3 J4 J5 K1 K2 K3)) as [Q _].
        exists x, fm, w, bs. split; [exact K1|]. split; [exact Q|]. repeat (split; [assumption|]). split; [now apply RT|].
        intros [fm' [w' [bs' [y [R1 [R2 [R3 [R4 [R5 R6]]]]]]]]]. apply J3. apply (iv_rollbacks _ _ _ _ _ I c y x). apply (lo_rollbacks _ _ _ _ _ _ _ _ _ _ _ _ _ _ _ _ LO). eauto 8.
Qed.
End Reading.

Section Queries.
Variable dtype : Type.
Variable avro_schema avro_value : Type.
Variable parse_schema : string -> option avro_schema.
Variable datum : avro_schema -> string -> option (avro_value * string).
Variable check_schema : avro_schema -> outcome unit.
Variable to_batch : avro_schema -> list avro_value -> outcome record_batch.
Variable parquet : string -> option (list record_batch).
Variable local_to_utc : ndt -> option ndt.
Variable st : store dtype.
Variable tb : table.
Variable sch : list field.
Variable p s k ct : nat.
Hypothesis MT : merging_table tb sch p s k.
Hypothesis PM : oget "hoodie.populate.meta.fields" (t_configs tb) <> Some "false".
Hypothesis TC : typed_column sch "_hoodie_commit_time" TUtf8 ct.
Hypothesis So : StronglySorted instant_le (t_commits tb).
Hypothesis Da : Forall dated (t_commits tb).
Variable start e : string.
Hypothesis Ts : timestamp start.
Hypothesis Te : timestamp e.
Notation slices_read := (read_slices dtype avro_schema avro_value parse_schema datum check_schema to_batch parquet local_to_utc st tb).
Notation commit := (commit_between (st_json _ st) (t_commits tb) start e).
Notation lays_out := (laid_out avro_schema avro_value parse_schema datum check_schema to_batch parquet (st_parquet _ st) (st_bytes _ st)).
Notation window := [("hoodie.read.file_group.start_timestamp", start); ("hoodie.read.file_group.end_timestamp", e)].
Hypothesis US : forall i md, commit i md -> unique_stats md.

Definition base_named_for (part id : string) : Prop := exists c n, (exists i md, commit i md /\ names_base md part id c n) /\ sle c e.
Definition replaced_for (part id : string) : Prop := exists i md, commit i md /\ i_action i = ReplaceCommit /\ replaces md part id.
Definition kept_for (part id : string) (now : string) (g : group) : Prop :=
  exists format listed contents, lays_out format part id sch listed contents g /\ history k p s now g /\ stamped ct g /\ later_is_newer k p s g e
    /\ recorded (st_json _ st) (t_commits tb) format part id listed contents g start e.

Section Reader.
Variable iter : options -> list (string * string).
Hypothesis PI : forall m, Permutation (iter m) m.
Let m := fst (table_reader_options iter (t_configs tb) (t_storage tb) window).
Lemma window_other : forall key, is_hudi key = true -> key <> "hoodie.read.file_group.start_timestamp" -> key <> "hoodie.read.file_group.end_timestamp" -> oget key m = oget key (t_configs tb).
Proof.
  intros key H N1 N2. unfold m. rewrite (reader_option iter tb _ key PI (proj1 (mt_storage _ _ _ _ _ MT)) (proj2 (mt_storage _ _ _ _ _ MT)) H). cbn [last_value].
  destruct (String.eqb_spec "hoodie.read.file_group.end_timestamp" key) as [E|E]; [now elim N2|]. destruct (String.eqb_spec "hoodie.read.file_group.start_timestamp" key) as [E'|E']; [now elim N1|]. cbn. destruct (oget key (t_configs tb)); reflexivity.
Qed.
Lemma window_settings : read_start m = Some start /\ read_end m = Some e /\ in_utc m /\ oget "hoodie.read.use.read_optimized.mode" m <> Some "true"
  /\ oget "hoodie.populate.meta.fields" m <> Some "false" /\ merges_latest m /\ merge_columns m sch p s k.
Proof.
  split; [unfold read_start, m; rewrite (reader_option iter tb _ _ PI (proj1 (mt_storage _ _ _ _ _ MT)) (proj2 (mt_storage _ _ _ _ _ MT))) by reflexivity; reflexivity|].
  split; [unfold read_end, m; rewrite (reader_option iter tb _ _ PI (proj1 (mt_storage _ _ _ _ _ MT)) (proj2 (mt_storage _ _ _ _ _ MT))) by reflexivity; reflexivity|].
  split; [unfold in_utc; rewrite window_other by (reflexivity || discriminate); apply MT|].
  split; [rewrite window_other by (reflexivity || discriminate); apply MT|].
  split; [rewrite window_other by (reflexivity || discriminate); exact PM|].
  destruct (mt_merge _ _ _ _ _ MT) as [M1 M2]. split.
  - apply (merges_same (t_configs tb)); try exact M1; unfold same_option; symmetry; apply window_other; (reflexivity || discriminate).
  - apply (columns_same (t_configs tb)); [unfold same_option; symmetry; apply window_other; (reflexivity || discriminate)|exact M2].
Qed.
End Reader.

Lemma commit_same : forall cs ce, start = render cs -> valid_civil cs -> c_ms cs <> None -> e = render ce -> valid_civil ce -> c_ms ce <> None ->
  forall i md, commit_in (st_json _ st) (t_commits tb) (Some (epoch_millis (civil_ndt cs))) (Some (epoch_millis (civil_ndt ce))) i md <-> commit i md.
Proof.
  intros cs ce -> Vs Ms -> Ve Me i md. unfold commit_in, commit_between. rewrite Forall_forall in Da.
  split; intros [H1 [H2 H3]]; (split; [exact H1|]); (split; [exact H2|]); destruct (Da i H1) as [c [Vc [Mc [Et Ed]]]]; apply denotes_unique in Ed; try assumption;
    unfold S_Timeline.in_window in *; rewrite Et, ?Ed in *; unfold slt, sle in *; rewrite !render_order_same_width in * by (try assumption; now rewrite !timestamp_width).
  - destruct H3 as [H3 H4]. apply andb_true_iff in H3 as [H3 H5]. apply Z.ltb_lt in H3. apply Z.leb_le in H5. auto.
  - destruct H3 as [H3 [H4 H5]]. split; [|exact H5]. apply andb_true_iff. split; [now apply Z.ltb_lt|now apply Z.leb_le].
Qed.

Lemma incremental_slices : forall order ss, (forall n l, Permutation l (order n l)) -> slices_between dtype local_to_utc st tb order start e = Ok ss ->
  exists groups, NoDup groups /\ (forall part id, In (part, id) groups <-> base_named_for part id /\ ~ replaced_for part id)
  /\ Forall2 (fun gr slice => forall iter sort visit now g, (forall m, Permutation (iter m) m) -> sorts sort -> visits visit -> kept_for (fst gr) (snd gr) now g ->
       exists out, read_file_slice sort visit (st_parquet _ st) avro_schema avro_value parse_schema datum check_schema to_batch parquet local_to_utc (st_bytes _ st)
         (fst (table_reader_options iter (t_configs tb) (t_storage tb) window)) slice = Ok out
         /\ rb_fields out = sch /\ changed_between k p s g start e (rb_rows out)) groups ss.
Proof.
  intros order ss P H. destruct (between_exact dtype local_to_utc st tb order P So start e ss H) as [tz [ds [de [Tz [Es [Ee X]]]]]].
  rewrite (utc_is _ (mt_utc _ _ _ _ _ MT)) in Tz. injection Tz as <-.
  destruct Ts as [cs [Vs [Ms Rs]]]. destruct Te as [ce [Ve [Me Re]]].
  assert (Z := commit_same cs ce Rs Vs Ms Re Ve Me).
  rewrite Rs, parse_datetime_utc in Es by (assumption || reflexivity). injection Es as <-. rewrite Re, parse_datetime_utc in Ee by (assumption || reflexivity). injection Ee as <-.
  destruct X as [groups [D [M F]]]; [intros i md C; apply Z in C; eauto|].
  assert (ZB : forall part id c n, (exists i md, commit_in (st_json dtype st) (t_commits tb) (Some (epoch_millis (civil_ndt cs))) (Some (epoch_millis (civil_ndt ce))) i md /\ names_base md part id c n) <-> exists i md, commit i md /\ names_base md part id c n).
  { intros. split; intros [i [md [C N]]]; exists i, md; (split; [now apply Z|exact N]). }
  exists groups. split; [exact D|]. split.
  - intros part id. rewrite M. unfold base_named_for, replaced_for. split; intros [[c [n [B L]]] R].
    + split; [exists c, n; split; [now apply ZB|exact L]|]. intros [i [md [C Y]]]. apply R. exists i, md. split; [now apply Z|exact Y].
    + split; [exists c, n; split; [now apply ZB|exact L]|]. intros [i [md [C Y]]]. apply R. exists i, md. split; [now apply Z|exact Y].
  - clear D M H. induction F as [|gr slice groups ss [F1 [F2 [F3 [F4 [F5 F6]]]]] F IH]; constructor; [|exact IH].
    intros iter sort visit now g PI HS HV [format [listed [contents [LO [Hh [Sta [LN RC]]]]]]]. destruct (window_settings iter PI) as [S1 [S2 [S3 [S4 [S5 [S6 S7]]]]]].
    eapply (changes_slice avro_schema avro_value parse_schema datum check_schema to_batch parquet (st_parquet _ st) (st_bytes _ st) local_to_utc k p s ct) with (id := snd gr) (read := st_json _ st) (commits := t_commits tb) (listed := listed) (contents := contents);
      try eassumption.
    + now apply ZB.
    + intros c' n' Q. apply (F4 c' n'). now apply ZB.
    + intros v w. rewrite (F5 v w). split; intros [i [md [C N]]]; exists i, md; (split; [now apply Z|exact N]).
    + intros l Il. destruct (F6 l Il) as [i [md [C N]]]. exists i, md. split; [now apply Z|exact N].
Qed.

(** Groups with changes are among those read. *)
Lemma changes_named : forall part id now g x r c0, kept_for part id now g -> In c0 (map fst (g_bases g)) -> sle c0 e -> In (x, r) (g_versions g) -> slt start x -> sle x e -> base_named_for part id.
Proof.
  intros part id now g x r c0 [format [listed [contents [LO [Hh [_ [_ RC]]]]]]] I0 L0 V L1 L2. pose proof (history_inv _ _ _ _ _ Hh) as I.
  destruct (iv_written _ _ _ _ _ I _ _ V) as [J|[[b [rows [J1 J2]]]|[_ J]]].
  - destruct (rc_bases _ _ _ _ _ _ _ _ _ _ RC x J L1 L2) as [i [md [n X]]]. exists x, n. eauto.
  - destruct (proj1 (lo_blocks _ _ _ _ _ _ _ _ _ _ _ _ _ _ _ _ LO b x r)) as [fm [w [bs [K1 [K2 [K3 K4]]]]]]; [eauto|].
    destruct (rc_blocks _ _ _ _ _ _ _ _ _ _ RC b x rows fm w bs J1) as [i [md [l [X1 [X2 X3]]]]]; try assumption.
    { intros F. now apply (proj2 (iv_failed _ _ _ _ _ I _ F) r). }
    destruct (iv_blocks _ _ _ _ _ I _ _ _ J1) as [_ [_ [_ [B2 _]]]].
    destruct X2 as [stat [base [logs [bf [name [Z1 [Z2 [Z3 [Z4 _]]]]]]]]]. exists b, (base_file_name bf). split; [exists i, md; split; [exact X1|exists stat, base, logs, bf; auto 6]|].
    apply slt_sle. eapply slt_sle_trans; eauto.
  - destruct (rc_bases _ _ _ _ _ _ _ _ _ _ RC c0 I0) as [i [md [n X]]]; [eapply slt_sle_trans; [exact L1|now apply J]|exact L0|]. exists c0, n. eauto.
Qed.
End Queries.

Section Theorems.
Variable dtype : Type.
Variable avro_schema avro_value : Type.
Variable parse_schema : string -> option avro_schema.
Variable datum : avro_schema -> string -> option (avro_value * string).
Variable check_schema : avro_schema -> outcome unit.
Variable to_batch : avro_schema -> list avro_value -> outcome record_batch.
Variable parquet : string -> option (list record_batch).
Variable local_to_utc : ndt -> option ndt.
Notation incremental := (read_incremental dtype avro_schema avro_value parse_schema datum check_schema to_batch parquet local_to_utc).
Notation lays_out st := (laid_out avro_schema avro_value parse_schema datum check_schema to_batch parquet (st_parquet dtype st) (st_bytes dtype st)).

Lemma incremental_records : forall (st : store dtype) tb sch p s k ct start stop e, merging_table tb sch p s k ->
  oget "hoodie.populate.meta.fields" (t_configs tb) <> Some "false" -> typed_column sch "_hoodie_commit_time" TUtf8 ct ->
  StronglySorted instant_le (t_commits tb) -> Forall dated (t_commits tb) ->
  timestamp start -> window_end (t_commits tb) stop e -> timestamp e ->
  let commit := commit_between (st_json _ st) (t_commits tb) start e in
  (forall i md, commit i md -> unique_stats md) ->
  forall batches, incremental st tb start stop (Ok batches) ->
  exists groups, NoDup groups
    /\ (forall part id, In (part, id) groups <-> (exists c n i md, commit i md /\ names_base md part id c n /\ sle c e)
          /\ ~ exists i md, commit i md /\ i_action i = ReplaceCommit /\ replaces md part id)
    /\ Forall2 (fun gr batch => forall now g format listed contents, history k p s now g -> lays_out st format (fst gr) (snd gr) sch listed contents g ->
         stamped ct g -> later_is_newer k p s g e -> recorded (st_json _ st) (t_commits tb) format (fst gr) (snd gr) listed contents g start e ->
         rb_fields batch = sch /\ changed_between k p s g start e (rb_rows batch)) groups batches
    /\ forall part id now g format listed contents x r, history k p s now g -> lays_out st format part id sch listed contents g ->
         stamped ct g -> later_is_newer k p s g e -> recorded (st_json _ st) (t_commits tb) format part id listed contents g start e ->
         (exists c, In c (map fst (g_bases g)) /\ sle c e) -> In (x, r) (g_versions g) -> slt start x -> sle x e -> ~ (exists i md, commit i md /\ i_action i = ReplaceCommit /\ replaces md part id) -> In (part, id) groups.
Proof.
  intros st tb sch p s k ct start stop e MT PM TC So Da Ts Es Te commit US batches R. apply window_end_is in Es.
  inversion R as [N| | |order e' ss r PO Es' HS RS]; subst; [congruence|]. rewrite Es in Es'. injection Es' as <-.
  destruct (incremental_slices dtype avro_schema avro_value parse_schema datum check_schema to_batch parquet local_to_utc st tb sch p s k ct MT PM TC So Da start e Ts Te US order ss PO HS) as [groups [D [M F]]].
  assert (M' : forall part id, In (part, id) groups <-> (exists c n i md, commit i md /\ names_base md part id c n /\ sle c e) /\ ~ exists i md, commit i md /\ i_action i = ReplaceCommit /\ replaces md part id).
  { intros part id. rewrite M. unfold base_named_for, replaced_for. split; (intros [X Y]; split; [|exact Y]).
    - destruct X as [c [n [[i [md [C N]]] L]]]. exists c, n, i, md. auto.
    - destruct X as [c [n [i [md [C [N L]]]]]]. exists c, n. eauto. }
  exists groups. split; [exact D|]. split; [exact M'|]. split.
  - inversion RS as [| |iter os r PI [_ F2] J]; subst. apply joined_ok in J. subst os. cbn zeta in F2. clear R RS M M' D HS.
    revert batches F2. induction F as [|gr slice groups ss H F IH]; intros batches F2; inversion F2 as [|? o ? os [sort [visit [HS [HV Ho]]]] F3 E1 E2]; subst; destruct batches as [|b batches]; try discriminate; [constructor|].
    cbn in E2. injection E2 as E2 E3. subst os. constructor; [|now apply IH]. intros now g format listed contents Hh Lo Sta Ln Rc.
    destruct (H iter sort visit now g PI HS HV) as [out [O1 O2]]; [exists format, listed, contents; auto|]. rewrite O1 in E2. injection E2 as ->. exact O2.
  - intros part id now g format listed contents x r Hh Lo Sta Ln Rc [c0 [I0 L0]] V L1 L2 NR. apply M. split; [|exact NR].
    eapply (changes_named dtype avro_schema avro_value parse_schema datum check_schema to_batch parquet st tb sch p s k ct start e part id now g x r c0); try assumption. exists format, listed, contents. auto.
Qed.
Lemma incremental_succeeds : forall (st : store dtype) tb sch p s k ct start stop e, merging_table tb sch p s k ->
  oget "hoodie.populate.meta.fields" (t_configs tb) <> Some "false" -> typed_column sch "_hoodie_commit_time" TUtf8 ct ->
  StronglySorted instant_le (t_commits tb) -> Forall dated (t_commits tb) ->
  timestamp start -> window_end (t_commits tb) stop e -> timestamp e ->
  let commit := commit_between (st_json _ st) (t_commits tb) start e in
  (forall i md, commit i md -> unique_stats md) ->
  readers_open st tb [("hoodie.read.file_group.start_timestamp", start); ("hoodie.read.file_group.end_timestamp", e)] ->
  (forall order, (forall n l, Permutation l (order n l)) -> exists ss, get_file_slices_between dtype local_to_utc st tb order (Some start) stop = Ok ss) ->
  (forall part id c n i md, commit i md -> names_base md part id c n -> exists now g format listed contents, history k p s now g /\ lays_out st format part id sch listed contents g /\
     stamped ct g /\ later_is_newer k p s g e /\ recorded (st_json _ st) (t_commits tb) format part id listed contents g start e) ->
  forall r, incremental st tb start stop r -> exists batches, r = Ok batches.
Proof.
  intros st tb sch p s k ct start stop e MT PM TC So Da Ts Es Te commit US Op SS LO r R. apply window_end_is in Es.
  unfold get_file_slices_between in SS. rewrite Es in SS.
  inversion R as [N|order e' er PO Es' HS|order e' PO Es' HS|order e' ss r' PO Es' HS RS]; subst; [eauto|rewrite Es in Es'; injection Es' as <-; destruct (SS order PO); congruence|rewrite Es in Es'; injection Es' as <-; destruct (SS order PO); congruence|].
  rewrite Es in Es'. injection Es' as <-.
  destruct (incremental_slices dtype avro_schema avro_value parse_schema datum check_schema to_batch parquet local_to_utc st tb sch p s k ct MT PM TC So Da start e Ts Te US order ss PO HS) as [groups [D [M F]]].
  inversion RS as [iter er PI E|iter PI E|iter os r' PI [_ F2] J]; subst; cbn zeta in *; try (rewrite (Op iter PI) in E; discriminate).
  apply (joined_all _ os r); [|exact J]. clear R RS J D HS.
  assert (MM : forall gr, In gr groups -> exists now g, kept_for dtype avro_schema avro_value parse_schema datum check_schema to_batch parquet st tb sch p s k ct start e (fst gr) (snd gr) now g).
  { intros [part id] I. apply M in I as [[c [n [[i [md [C N]]] _]]] _]. destruct (LO part id c n i md C N) as [now [g [format [listed [contents [X1 [X2 [X3 [X4 X5]]]]]]]]]. exists now, g, format, listed, contents. auto. }
  clear M. revert os F2. induction F as [|gr slice groups ss H F IH]; intros os F2; inversion F2 as [|? o ? os' [sort [visit [HS [HV Ho]]]] F3 E1 E2]; subst; [intros o []|].
  intros o [ <- |I]; [|apply (IH (fun gr I => MM gr (or_intror I)) os' F3 o I)].
  destruct (MM gr (or_introl eq_refl)) as [now [g Kg]]. destruct (H iter sort visit now g PI HS HV Kg) as [out [O1 _]]. eauto.
Qed.
End Theorems.
