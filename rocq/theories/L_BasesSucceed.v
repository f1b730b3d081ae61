(** Lemmas for C88: queries that read base files only succeed, whatever other files are. *)
From Coq Require Import Sorted.
From Verif Require Import Base Str M_Utf8 M_Time M_Instant M_Timeline M_FileGroup M_Builder M_Listing M_Expr M_Log M_Config M_Reader M_Table M_Storage M_Avro M_Values M_Datum M_Json M_Objects M_Open
  S_Time S_Timeline S_FileGroup S_Builder S_Listing S_Expr S_Log S_Reader S_Config S_Table S_Avro S_Storage S_Objects S_Open S_History S_Values S_Datum S_Json S_Whole S_Bases
  L_Base L_Str L_Config L_Reader L_Instant L_Storage L_Expr L_Listing L_Tree L_View L_Table L_History L_Records L_Objects L_Open L_Json L_Whole L_Succeed L_Bases.
From Verif Require L_Scan.
Local Open Scope string_scope.

Section Succeed.
Variable objs : list object.
Variable base : url.
Variable names : list string.
Hypothesis PO : proper_objects objs.
Hypothesis Lo : located base names.
Variable number_of : string -> option Z.
Variable collect : list (string * json) -> list (string * json).
Variable local_to_utc : ndt -> option ndt.
Variable dtype' value' : Type.
Variable cast : dtype' -> string -> option value'.
Variable cmp : value' -> value' -> option comparison.
Variable parse_pschema : string -> outcome (list (string * dtype')).
Variable parse_rows : string -> outcome record_batch.
Variable footer : string -> outcome (Z * Z).
Variable open : options -> options -> outcome unit.
Variable avro_schema avro_value : Type.
Variable parse_schema : string -> option avro_schema.
Variable datum : avro_schema -> string -> option (avro_value * string).
Variable check_schema : avro_schema -> outcome unit.
Variable to_batch : avro_schema -> list avro_value -> outcome record_batch.
Variable parquet : string -> option (list record_batch).
Let store_of fo := object_store objs base dtype' (parse_metadata number_of collect) parse_pschema parse_rows fo open.
Let st := store_of footer.
Variable tb : table.
Variable listed0 : list file_meta.
Variable tz : string.
Variable l0 : list instant.
Variable format : string.
Variable partitioned : bool.
Variable t : string.
Variable time : ndt.
Variable sch : list (string * dtype').
Variable columns : list string.
Variable hive url : bool.
Hypothesis DL : directory_listing objs names [".hoodie"] listed0.
Hypothesis TZ : timeline_timezone (t_configs tb) = Ok tz.
Hypothesis DN : denoted_instants (denotes_completed local_to_utc tz [Commit; DeltaCommit; ReplaceCommit]) (map fm_name listed0) l0.
Hypothesis PM : Permutation l0 (t_commits tb).
Hypothesis So : StronglySorted instant_le (t_commits tb).
Hypothesis PL : plain_table tb.
Hypothesis WF : forall fields, get_partition_schema dtype' st tb = Ok fields -> wf_fields fields.
Hypothesis BF : base_format (t_configs tb) = Ok format.
Hypothesis PT : is_table_partitioned (t_configs tb) = Ok partitioned.
Hypothesis TM : parse_datetime local_to_utc t tz = Ok time.
Hypothesis BP : base_names_plain objs names format partitioned.
Let is_live := live objs names format partitioned number_of collect local_to_utc tz t (epoch_millis time).

(** a slice that is shown is of the newest base file of a file group that counts *)
Lemma shown_newest_base : forall fo c c' filters ss, view_after dtype' value' cast cmp local_to_utc (store_of fo) tb c ->
  get_file_slices_as_of dtype' value' cast cmp local_to_utc (store_of fo) tb t filters c c' (Ok ss) ->
  NoDup (map slice_id ss) /\ (filters = [] -> forall g, is_live g -> In g (map slice_id ss))
  /\ forall sl, In sl ss -> (without_logs objs names format partitioned (slice_id sl) -> fs_logs sl = [])
    /\ exists c0 o dir n, newest_base objs names format partitioned (slice_id sl) t c0 o /\ is_live (slice_id sl) /\ Forall legal dir /\ file_in objs names dir n o /\ base_relative_path sl = path_join (join "/" dir) n.
Proof.
  intros fo c c' filters ss VA GS.
  pose proof (replaced_objects objs base names PO Lo number_of collect local_to_utc tz listed0 l0 (t_commits tb) (epoch_millis time)) as RO.
  destruct (object_snapshots dtype' value' cast cmp local_to_utc objs base names (store_of fo) tb PO Lo eq_refl eq_refl So c c' t filters ss VA GS)
    as [fs [tz' [time' [fields [hv [ur [format' [partitioned' [P1 [P2 [P3 [P4 [P5 [P6 [P7 [P8 P9]]]]]]]]]]]]]]]].
  rewrite TZ in P2. injection P2 as <-. rewrite TM in P3. injection P3 as <-. rewrite BF in P7. injection P7 as <-. rewrite PT in P8. injection P8 as <-.
  destruct (P9 (WF _ P4)) as [S1 [S2 S3]]. split; [exact S3|]. split.
  { intros -> [pa id] [[c0 [[dir [n [o [b [OP [FI [NM [BN [BO [EI EC]]]]]]]]]] LE]] NR]. injection P1 as <-. cbn [fst snd] in *. rewrite <- EI. apply (S2 pa dir n o b OP (or_introl eq_refl) FI NM BN BO); [now rewrite EC|].
    intros R. apply NR. apply (RO _ DL DN PM) in R. now rewrite EI in R. }
  intros sl I.
  assert (LV : is_live (slice_id sl)).
  { destruct (S1 sl I) as [dir [li [OP [DI [[m [b [[Im [NM [BN BO]]] [_ [E1 [_ [E3 [LE _]]]]]]]] [NR _]]]]]]. split.
    - exists (bf_commit b). split; [|exact LE]. apply (proj2 DI) in Im as [n [o [FI ->]]]. exists dir, n, o, b. cbn [slice_id fst snd]. repeat split; try assumption; try apply OP; try apply FI. now rewrite <- E1.
    - intros R. apply NR. now apply (RO _ DL DN PM). }
  destruct (S1 sl I) as [dir [li [OP [DI [[m [b [[Im [NM [BN BO]]] [EP [E1 [E2 [E3 [LE [MX [_ LG]]]]]]]]]] _]]]]]. split.
  - intros M. destruct (fs_logs sl) as [|l ls]; [reflexivity|]. exfalso.
    destruct (LG l (or_introl eq_refl)) as [m' [[Im' [NM' [BN' LF']]] [EI _]]]. apply (proj2 DI) in Im' as [n [o [FI ->]]]. cbn [fm_name new_meta] in *.
    apply (M dir n o l OP FI NM' BN' LF'). cbn [slice_id snd]. congruence.
  - apply (proj2 DI) in Im as [n [o [FI ->]]]. cbn [fm_name new_meta] in *.
    exists (bf_commit b), o, dir, n. split; [|split; [exact LV|split; [apply OP|split; [exact FI|]]]].
    + split; [|split; [exact LE|]].
      * exists dir, n, b. cbn [slice_id fst snd]. repeat split; try assumption; try apply OP; try apply FI. now rewrite <- E1.
      * intros c'' o' [dir' [n' [b' [OP' [FI' [NM' [BN' [BO' [EI' <-]]]]]]]]] LE'. cbn [slice_id fst snd] in *.
        assert (dir' = dir).
        { destruct OP as [F [EP1 _]], OP' as [F' [EP1' _]]. assert (X : forall l, Forall legal l -> Forall (fun e => e <> "" /\ has_char "/" e = false) l) by (intros l; apply Forall_impl; intros a H; split; apply H). apply L_Scan.join_inj; [now apply X|now apply X|congruence]. }
        subst dir'. apply (MX (new_meta n' (o_size o')) b'); [|congruence|exact LE']. split; [apply (proj2 DI); eauto|]. cbn [fm_name new_meta]. auto.
    + unfold base_relative_path. rewrite E2, (BP _ dir n o b OP FI NM BN BO). destruct OP as [F [EP1 _]]. now rewrite EP1.
Qed.

Hypothesis RI : replacements_in_order objs names number_of collect local_to_utc tz (epoch_millis time).
Hypothesis SF : schema_found objs names number_of collect parse_pschema (t_commits tb) sch.
Hypothesis PF : partition_fields (t_configs tb) = Ok columns.
Hypothesis HF : hive_flag tb = Ok hive.
Hypothesis UF : url_flag tb = Ok url.
Variable par : Z.
Hypothesis LP : listing_parallelism (t_configs tb) = Ok par.
Hypothesis NP : (0 < par)%Z.
Hypothesis LK : forall path dir listed, object_partition objs names partitioned path dir -> directory_listing objs names dir listed -> listing_ok format listed.
Hypothesis RF : forall g c o, is_live g -> newest_base objs names format partitioned g t c o -> exists stats, footer (o_data o) = Ok stats.
Variable filters : list (string * string * string).
Variable fs : list filter_expr.
Hypothesis FT : from_str_tuples filters = Ok fs.
Hypothesis FF : forall f, In f fs -> filter_fits cast sch columns f.

Let footer2 : string -> outcome (Z * Z) := fun _ => Ok (0%Z, 0%Z).
Let st2 := store_of footer2.
Let root := object_tree objs base.
Let served : serves_dirs root (st_dirs _ st) := tree_served objs base names PO Lo.
Let wf : wf_tree root := tree_wf objs base names PO Lo _ [] (Forall_nil _).

Lemma plan_is : exists q, plan dtype' value' cast cmp local_to_utc st tb t fs = Ok q.
Proof. exact (whole_plan objs base names PO Lo number_of collect local_to_utc dtype' value' cast cmp parse_pschema parse_rows footer open tb tz listed0 l0 t time sch columns hive url DL TZ DN PM So TM RI SF PF HF UF fs FF). Qed.
Lemma expected2 : forall q, exists ss, expected (st_files _ st2) (st_meta _ st2) format partitioned root q = Ok ss.
Proof.
  intros q. apply expected_succeeds. intros pa TP. apply (partition_dirs objs base names PO Lo) in TP as [dir OPn]. pose proof OPn as [FD [EP _]].
  destruct (files_spec objs base names PO Lo dir FD) as [l [E NS]]. exists l. split; [cbn; now rewrite EP|].
  split; [apply NoDup_map_inv with (f := fm_name); apply NS|]. split; [exact (LK pa dir l OPn NS)|].
  intros m b sl [Im [NM [BN BO]]] Eb Ep. apply (proj2 NS) in Im as [n [o [FI ->]]]. cbn [fm_name new_meta] in *.
  assert (M : exists mm, st_meta _ st2 (base_relative_path sl) = Ok mm).
  { unfold base_relative_path. rewrite Ep, Eb, (BP _ dir n o b OPn FI NM BN BO), EP. cbn [st2 store_of object_store st_meta]. unfold get_file_metadata. rewrite (read_spec objs base names PO Lo dir n o FD FI). cbn [bind].
    pose proof FI as [_ [Ln Ek]]. rewrite Ek, app_assoc, filename_key; [|apply Forall_app; split; [apply Lo|exact FD]|exact Ln]. cbn [ok_or bind footer2]. eauto. }
  destruct M as [mm M]. unfold load_metadata_if_needed. rewrite M. cbn [bind]. destruct (bf_meta (fs_base sl)) as [m0|]; [destruct (fm_populated m0)|]; eauto.
Qed.
Lemma expected1 : forall q, plan dtype' value' cast cmp local_to_utc st tb t fs = Ok q -> exists ss, expected (st_files _ st) (st_meta _ st) format partitioned root q = Ok ss.
Proof.
  intros q Q. destruct (expected2 q) as [ss E].
  destruct (query_runs (st_files _ st2) (st_dirs _ st2) (st_meta _ st2) format partitioned (Z.to_nat par) _ served wf ltac:(lia) [] q (plan_wf _ _ _ _ _ _ _ _ _ _ Q)) as [c' [r V]].
  assert (CO := history_ok _ _ _ _ _ _ _ served wf _ (after_history dtype' value' cast cmp local_to_utc st2 tb [] (va_new _ _ _ _ _ _ _) _ _ _ PT BF LP)).
  destruct (query_answer _ _ _ _ _ _ _ served wf _ _ _ _ CO (plan_wf _ _ _ _ _ _ _ _ _ _ Q) V) as [_ SA].
  rewrite E in SA. destruct r as [ss'|e|]; [|destruct SA|destruct SA].
  assert (G : get_file_slices_as_of dtype' value' cast cmp local_to_utc st2 tb t filters [] c' (Ok ss')) by (eapply ga_ok; [exact FT|]; eapply sa_view; eauto).
  pose proof (proj2 (proj2 (shown_newest_base footer2 [] c' filters ss' (va_new _ _ _ _ _ _ _) G))) as SN.
  cbn [same_answer] in SA.
  unfold expected in E. apply bind_ok in E as [gss [E1 E2]]. unfold expected. change (st_files dtype' st) with (st_files dtype' st2). rewrite E1. cbn [bind].
  apply mapM_succeeds. intros x I. apply mapM_ok in E2. destruct (Forall2_in_l _ _ _ _ _ _ E2 I) as [y [J F]].
  assert (P : base_relative_path x = base_relative_path y).
  { unfold load_metadata_if_needed in F. destruct (bf_meta (fs_base x)) as [m0|]; [destruct (fm_populated m0)|].
    - injection F as <-. reflexivity.
    - apply bind_ok in F as [mm [_ F]]. injection F as <-. reflexivity.
    - apply bind_ok in F as [mm [_ F]]. injection F as <-. reflexivity. }
  destruct (SN y (Permutation_in _ (Permutation_sym SA) J)) as [_ [c0 [o [dir [n [NB [LV [FD [FI EP]]]]]]]]]. destruct (RF _ _ _ LV NB) as [[a b] FO].
  assert (M : exists mm, st_meta _ st (base_relative_path x) = Ok mm).
  { rewrite P, EP. cbn [st store_of object_store st_meta]. unfold get_file_metadata. rewrite (read_spec objs base names PO Lo dir n o FD FI). cbn [bind].
    pose proof FI as [_ [Ln Ek]]. rewrite Ek, app_assoc, filename_key; [|apply Forall_app; split; [apply Lo|exact FD]|exact Ln]. cbn [ok_or bind]. rewrite FO. cbn [bind]. eauto. }
  destruct M as [mm M]. unfold load_metadata_if_needed. rewrite M. cbn [bind]. destruct (bf_meta (fs_base x)) as [m0|]; [destruct (fm_populated m0)|]; eauto.
Qed.

Lemma slices_ok : forall c c' r, view_after dtype' value' cast cmp local_to_utc st tb c -> get_file_slices_as_of dtype' value' cast cmp local_to_utc st tb t filters c c' r -> exists ss, r = Ok ss.
Proof.
  intros c c' r VA G. inversion G as [? e E|? ? fs' ? E SA]; subst; [congruence|]. assert (fs' = fs) by congruence. subst fs'.
  destruct plan_is as [q Q].
  inversion SA as [? e P|? P|? ? q' pt fm n ? P P1 P2 P3 V]; subst; try congruence. assert (q' = q) by congruence. assert (pt = partitioned) by congruence. assert (fm = format) by congruence. subst.
  assert (CO := history_ok _ _ _ _ _ _ _ served wf _ (after_history dtype' value' cast cmp local_to_utc st tb c VA _ _ _ P1 P2 P3)).
  destruct (query_answer _ _ _ _ _ _ _ served wf _ _ _ _ CO (plan_wf _ _ _ _ _ _ _ _ _ _ Q) V) as [_ SA'].
  destruct (expected1 q Q) as [ss X]. fold root in SA'. rewrite X in SA'. destruct r as [ss'|e|]; [eauto|destruct SA'|destruct SA'].
Qed.

Lemma slices_runs : forall c, view_after dtype' value' cast cmp local_to_utc st tb c -> exists c' ss, get_file_slices_as_of dtype' value' cast cmp local_to_utc st tb t filters c c' (Ok ss).
Proof.
  intros c VA. destruct plan_is as [q Q].
  destruct (query_runs (st_files _ st) (st_dirs _ st) (st_meta _ st) format partitioned (Z.to_nat par) _ served wf ltac:(lia) c q (plan_wf _ _ _ _ _ _ _ _ _ _ Q)) as [c' [r V]].
  assert (G : get_file_slices_as_of dtype' value' cast cmp local_to_utc st tb t filters c c' r) by (eapply ga_ok; [exact FT|]; eapply sa_view; eauto).
  destruct (slices_ok _ _ _ VA G) as [ss ->]. eauto.
Qed.

Hypothesis MODE : read_optimized_table tb \/ (forall g, is_live g -> without_logs objs names format partitioned g).
Hypothesis RD : forall g c o, is_live g -> newest_base objs names format partitioned g t c o -> exists batch, parse_rows (o_data o) = Ok batch.
Hypothesis OP : forall x, readers_open st tb [("hoodie.read.file_group.end_timestamp", x)].
Lemma reads_ok : forall c c' ss r, view_after dtype' value' cast cmp local_to_utc st tb c -> get_file_slices_as_of dtype' value' cast cmp local_to_utc st tb t filters c c' (Ok ss) ->
  read_slices dtype' avro_schema avro_value parse_schema datum check_schema to_batch parquet local_to_utc st tb [("hoodie.read.file_group.end_timestamp", t)] ss r -> exists batches, r = Ok batches.
Proof.
  intros c c' ss r VA G R. pose proof (proj2 (proj2 (shown_newest_base footer c c' filters ss VA G))) as SN. destruct PL as [D [N St]].
  inversion R as [iter e PI E|iter PI E|iter os r' P [_ F] J]; subst; cbn zeta in *; try (rewrite (OP t iter PI) in E; discriminate).
  apply (joined_all _ os r); [|exact J]. intros o' I. destruct (Forall2_in_r _ _ _ _ _ _ F I) as [sl [Is [sort [visit [_ [_ ->]]]]]].
  assert (O : forall key, is_hudi key = true -> key <> "hoodie.read.file_group.end_timestamp" ->
    oget key (fst (table_reader_options iter (t_configs tb) (t_storage tb) [("hoodie.read.file_group.end_timestamp", t)])) = oget key (t_configs tb)).
  { intros key K1 K2. rewrite (reader_option iter tb _ key P D N K1). cbn [last_value first_given]. destruct (String.eqb_spec "hoodie.read.file_group.end_timestamp" key); [congruence|]. cbn [first_given]. destruct (oget key (t_configs tb)); reflexivity. }
  destruct (SN sl Is) as [LG [c0 [o [dir [n [NB [LV [FD [FI EP]]]]]]]]]. destruct (RD _ _ _ LV NB) as [batch PB]. exists batch.
  assert (LG' : read_optimized_table tb \/ fs_logs sl = []) by (destruct MODE as [M|M]; [now left|right; apply LG, M, LV]).
  rewrite slice_read_optimized; [|rewrite O by (reflexivity || discriminate); exact LG'].
  apply base_all.
  - rewrite EP. cbn [st store_of object_store st_parquet]. unfold get_file_data. now rewrite (read_spec objs base names PO Lo dir n o FD FI).
  - right. unfold read_start. rewrite !O by (reflexivity || discriminate). exact St.
Qed.

Lemma bases_succeed : forall c, view_after dtype' value' cast cmp local_to_utc st tb c ->
  (forall c' r, read_snapshot_as_of dtype' value' cast cmp avro_schema avro_value parse_schema datum check_schema to_batch parquet local_to_utc st tb t filters c c' r -> exists batches, r = Ok batches)
  /\ exists c' batches, read_snapshot_as_of dtype' value' cast cmp avro_schema avro_value parse_schema datum check_schema to_batch parquet local_to_utc st tb t filters c c' (Ok batches).
Proof.
  intros c VA.
  assert (A : forall c' r, read_snapshot_as_of dtype' value' cast cmp avro_schema avro_value parse_schema datum check_schema to_batch parquet local_to_utc st tb t filters c c' r -> exists batches, r = Ok batches).
  { intros c' r R. inversion R as [? ? e G|? ? G|? ? ss ? G RS]; subst.
    - destruct (slices_ok _ _ _ VA G) as [ss E]; discriminate.
    - destruct (slices_ok _ _ _ VA G) as [ss E]; discriminate.
    - exact (reads_ok _ _ _ _ VA G RS). }
  split; [exact A|]. destruct plan_is as [q Q].
  destruct (query_runs (st_files _ st) (st_dirs _ st) (st_meta _ st) format partitioned (Z.to_nat par) _ served wf ltac:(lia) c q (plan_wf _ _ _ _ _ _ _ _ _ _ Q)) as [c' [r V]].
  assert (G : get_file_slices_as_of dtype' value' cast cmp local_to_utc st tb t filters c c' r) by (eapply ga_ok; [exact FT|]; eapply sa_view; eauto).
  destruct (slices_ok _ _ _ VA G) as [ss ->].
  set (o := table_reader_options (fun m => m) (t_configs tb) (t_storage tb) [("hoodie.read.file_group.end_timestamp", t)]).
  set (read := fun sl => read_file_slice (@L_Reader.isort _) (fun m => m) (st_parquet _ st) avro_schema avro_value parse_schema datum check_schema to_batch parquet local_to_utc (st_bytes _ st) (fst o) sl).
  destruct (joined_total _ (map read ss)) as [r J].
  assert (RS : read_slices dtype' avro_schema avro_value parse_schema datum check_schema to_batch parquet local_to_utc st tb [("hoodie.read.file_group.end_timestamp", t)] ss r).
  { apply rs_read with (iter := fun m => m) (os := map read ss); [intros m; reflexivity| |exact J]. cbn zeta. split; [exact (OP t (fun m => m) (fun m => Permutation_refl m))|]. clear. induction ss as [|x ss IH]; constructor; [|exact IH].
    exists (@L_Reader.isort _), (fun m => m). split; [apply L_Reader.isort_sorts|]. split; [intros m; reflexivity|reflexivity]. }
  assert (R : read_snapshot_as_of dtype' value' cast cmp avro_schema avro_value parse_schema datum check_schema to_batch parquet local_to_utc st tb t filters c c' r) by (eapply ra_ok; eauto).
  destruct (A _ _ R) as [bs ->]. eauto.
Qed.
End Succeed.
