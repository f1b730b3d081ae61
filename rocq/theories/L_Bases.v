(** Lemmas for C88: queries that read base files only. *)
From Coq Require Import Sorted.
From Verif Require Import Base Str M_Utf8 M_Time M_Instant M_Timeline M_FileGroup M_Builder M_Listing M_Expr M_Log M_Config M_Reader M_Table M_Storage M_Avro M_Values M_Datum M_Json M_Objects M_Open
  S_Time S_Timeline S_FileGroup S_Builder S_Listing S_Expr S_Log S_Reader S_Config S_Table S_Avro S_Storage S_Objects S_Open S_History S_Values S_Datum S_Json S_Whole S_Bases
  L_Base L_Str L_Config L_Reader L_Instant L_Storage L_Expr L_Tree L_Table L_History L_Records L_Objects L_Open L_Json L_Whole.
From Verif Require L_Scan.
Local Open Scope string_scope.

(** reading slices that are base files *)
Section Slices.
Variable dtype avro_schema avro_value : Type.
Variable parse_schema : string -> option avro_schema.
Variable datum : avro_schema -> string -> option (avro_value * string).
Variable check_schema : avro_schema -> outcome unit.
Variable to_batch : avro_schema -> list avro_value -> outcome record_batch.
Variable parquet : string -> option (list record_batch).
Variable local_to_utc : ndt -> option ndt.
Variable st : store dtype.
Variable tb : table.
Hypothesis PT : plain_table tb.
Notation slices_read := (read_slices dtype avro_schema avro_value parse_schema datum check_schema to_batch parquet local_to_utc st tb).

Lemma bases_read : forall t ss batches, slices_read [("hoodie.read.file_group.end_timestamp", t)] ss (Ok batches) ->
  (forall s, In s ss -> read_optimized_table tb \/ fs_logs s = []) -> Forall2 (fun s b => st_parquet _ st (base_relative_path s) = Ok b) ss batches.
Proof.
  destruct PT as [D [N St]]. intros t ss batches R Hl. inversion R as [| |iter os ? P [_ F] J]; subst. apply joined_ok in J. subst os.
  assert (O : forall key, is_hudi key = true -> key <> "hoodie.read.file_group.end_timestamp" ->
    oget key (fst (table_reader_options iter (t_configs tb) (t_storage tb) [("hoodie.read.file_group.end_timestamp", t)])) = oget key (t_configs tb)).
  { intros key K1 K2. rewrite (reader_option iter tb _ key P D N K1). cbn [last_value first_given]. destruct (String.eqb_spec "hoodie.read.file_group.end_timestamp" key); [congruence|]. cbn [first_given]. destruct (oget key (t_configs tb)); reflexivity. }
  clear R. revert batches F. induction ss as [|s ss IH]; intros [|b batches] F; cbn [map] in F; inversion F as [|? ? ? ? [sort [visit [_ [_ E]]]] F']; subst; [constructor|].
  constructor; [|apply IH; [|exact F']; intros; apply Hl; now right].
  rewrite slice_read_optimized in E.
  2: { rewrite O by (reflexivity || discriminate). apply Hl. now left. }
  unfold read_base_file in E. destruct (st_parquet dtype st (base_relative_path s)) as [records| |] eqn:Rp; try discriminate E. f_equal. symmetry in E.
  assert (B := base_all (st_parquet dtype st) (fst (table_reader_options iter (t_configs tb) (t_storage tb) [("hoodie.read.file_group.end_timestamp", t)])) _ _ Rp).
  unfold read_base_file in B. rewrite Rp in B. cbn [bind] in B, E. rewrite B in E; [congruence|]. right.
  unfold read_start. rewrite !O by (reflexivity || discriminate). exact St.
Qed.
End Slices.

Section Bases.
Variable objs : list object.
Variable base : url.
Variable names : list string.
Hypothesis PO : proper_objects objs.
Hypothesis Lo : located base names.
Variable number_of : string -> option Z.
Variable collect : list (string * json) -> list (string * json).
Variable local_to_utc : ndt -> option ndt.
Variable dtype' value' : Type.
Variable cast : dtype' -> string -> option value'.
Variable cmp : value' -> value' -> option comparison.
Variable parse_pschema : string -> outcome (list (string * dtype')).
Variable parse_rows : string -> outcome record_batch.
Variable footer : string -> outcome (Z * Z).
Variable open : options -> options -> outcome unit.
Variable avro_schema avro_value : Type.
Variable parse_schema : string -> option avro_schema.
Variable datum : avro_schema -> string -> option (avro_value * string).
Variable check_schema : avro_schema -> outcome unit.
Variable to_batch : avro_schema -> list avro_value -> outcome record_batch.
Variable parquet : string -> option (list record_batch).
Let st := object_store objs base dtype' (parse_metadata number_of collect) parse_pschema parse_rows footer open.

Lemma bases_snapshot : forall tb listed tz l0 format partitioned t time,
  directory_listing objs names [".hoodie"] listed -> timeline_timezone (t_configs tb) = Ok tz ->
  denoted_instants (denotes_completed local_to_utc tz [Commit; DeltaCommit; ReplaceCommit]) (map fm_name listed) l0 -> Permutation l0 (t_commits tb) -> StronglySorted instant_le (t_commits tb) ->
  plain_table tb -> (forall fields, get_partition_schema dtype' st tb = Ok fields -> wf_fields fields) ->
  base_format (t_configs tb) = Ok format -> is_table_partitioned (t_configs tb) = Ok partitioned ->
  parse_datetime local_to_utc t tz = Ok time -> base_names_plain objs names format partitioned ->
  let is_live := live objs names format partitioned number_of collect local_to_utc tz t (epoch_millis time) in
  read_optimized_table tb \/ (forall g, is_live g -> without_logs objs names format partitioned g) ->
  forall filters c c' batches, view_after dtype' value' cast cmp local_to_utc st tb c ->
  read_snapshot_as_of dtype' value' cast cmp avro_schema avro_value parse_schema datum check_schema to_batch parquet local_to_utc st tb t filters c c' (Ok batches) ->
  exists gs fs fields hive url, from_str_tuples filters = Ok fs /\ get_partition_schema dtype' st tb = Ok fields /\ hive_flag tb = Ok hive /\ url_flag tb = Ok url
    /\ NoDup gs
    /\ (forall g, In g gs -> is_live g
          /\ forall values, fields <> [] -> stands_for dtype' value' cast cmp fields hive url fs (fst g) values -> Forall (satisfies dtype' value' cast cmp fields values) fs)
    /\ (forall g, is_live g -> matches dtype' value' cast cmp fields hive url fs (fst g) -> In g gs)
    /\ Forall2 (fun g batch => exists c0 o, newest_base objs names format partitioned g t c0 o /\ parse_rows (o_data o) = Ok batch) gs batches.
Proof.
  intros tb listed tz l0 format partitioned t time DL TZ DN PM So PL WF BF PT TM BP is_live MODE filters c c' batches VA RD.
  pose proof (replaced_objects objs base names PO Lo number_of collect local_to_utc tz listed l0 (t_commits tb) (epoch_millis time)) as RO.
  inversion RD as [| |c1 c2 ss r GS RS]; subst.
  destruct (object_snapshots dtype' value' cast cmp local_to_utc objs base names st tb PO Lo eq_refl eq_refl So c c' t filters ss VA GS)
    as [fs [tz' [time' [fields [hive [url [format' [partitioned' [P1 [P2 [P3 [P4 [P5 [P6 [P7 [P8 P9]]]]]]]]]]]]]]]].
  rewrite TZ in P2. injection P2 as <-. rewrite TM in P3. injection P3 as <-. rewrite BF in P7. injection P7 as <-. rewrite PT in P8. injection P8 as <-.
  destruct (P9 (WF _ P4)) as [S1 [S2 S3]].
  exists (map slice_id ss), fs, fields, hive, url. do 4 (split; [assumption|]). split; [exact S3|].
  assert (LV : forall sl, In sl ss -> is_live (slice_id sl)).
  { intros sl I. destruct (S1 sl I) as [dir [li [OP [DI [[m [b [[Im [NM [BN BO]]] [_ [E1 [_ [E3 [LE _]]]]]]]] [NR _]]]]]]. split.
    - exists (bf_commit b). split; [|exact LE]. apply (proj2 DI) in Im as [n [o [FI ->]]]. exists dir, n, o, b. cbn [slice_id fst snd]. repeat split; try assumption; try apply OP; try apply FI. now rewrite <- E1.
    - intros R. apply NR. now apply (RO _ DL DN PM). }
  assert (NB : forall sl, In sl ss -> (read_optimized_table tb \/ fs_logs sl = [])
    /\ forall batch, st_parquet _ st (base_relative_path sl) = Ok batch -> exists c0 o, newest_base objs names format partitioned (slice_id sl) t c0 o /\ parse_rows (o_data o) = Ok batch).
  { intros sl I. pose proof (LV sl I) as LVs. destruct (S1 sl I) as [dir [li [OP [DI [[m [b [[Im [NM [BN BO]]] [EP [E1 [E2 [E3 [LE [MX [_ LG]]]]]]]]]] _]]]]]. split.
    - destruct MODE as [MODE|MODE]; [now left|]. right. destruct (fs_logs sl) as [|l ls]; [reflexivity|]. exfalso.
      destruct (LG l (or_introl eq_refl)) as [m' [[Im' [NM' [BN' LF']]] [EI _]]]. apply (proj2 DI) in Im' as [n [o [FI ->]]]. cbn [fm_name new_meta] in *.
      apply (MODE _ LVs dir n o l OP FI NM' BN' LF'). cbn [slice_id snd]. congruence.
    - intros batch RB. apply (proj2 DI) in Im as [n [o [FI ->]]]. cbn [fm_name new_meta] in *.
      exists (bf_commit b), o. split.
      + split; [|split; [exact LE|]].
        * exists dir, n, b. cbn [slice_id fst snd]. repeat split; try assumption; try apply OP; try apply FI. now rewrite <- E1.
        * intros c'' o' [dir' [n' [b' [OP' [FI' [NM' [BN' [BO' [EI' <-]]]]]]]]] LE'. cbn [slice_id fst snd] in *.
          assert (dir' = dir).
          { destruct OP as [F [EP1 _]], OP' as [F' [EP1' _]]. assert (X : forall l, Forall legal l -> Forall (fun e => e <> "" /\ has_char "/" e = false) l) by (intros l; apply Forall_impl; intros a H; split; apply H). apply L_Scan.join_inj; [now apply X|now apply X|congruence]. }
          subst dir'. apply (MX (new_meta n' (o_size o')) b'); [|congruence|exact LE']. split; [apply (proj2 DI); eauto|]. cbn [fm_name new_meta]. auto.
      + unfold st, object_store, st_parquet in RB. unfold base_relative_path in RB. rewrite E2, (BP _ dir n o b OP FI NM BN BO) in RB.
        destruct OP as [F [EP1 _]]. rewrite EP1 in RB. unfold get_file_data in RB. rewrite (read_spec objs base names PO Lo dir n o F FI) in RB. exact RB. }
  split; [|split].
  - intros g I. apply in_map_iff in I as [sl [ <- I]]. split; [now apply LV|]. destruct (S1 sl I) as [dir [li [_ [_ [_ [_ FL]]]]]]. exact FL.
  - intros [pa id] [[c0 [[dir [n [o [b [OP [FI [NM [BN [BO [EI EC]]]]]]]]]] LE]] NR] M. cbn [fst snd] in *. rewrite <- EI. apply (S2 pa dir n o b OP M FI NM BN BO); [now rewrite EC|].
    intros R. apply NR. apply (RO _ DL DN PM) in R. now rewrite EI in R.
  - assert (F2 := bases_read dtype' avro_schema avro_value parse_schema datum check_schema to_batch parquet local_to_utc st tb PL t ss batches RS (fun s I => proj1 (NB s I))).
    clear -F2 NB. induction F2 as [|sl b ss bs E F IH]; [constructor|]. cbn [map]. constructor; [|apply IH; intros; apply NB; now right]. apply (NB sl (or_introl eq_refl)). exact E.
Qed.
End Bases.
