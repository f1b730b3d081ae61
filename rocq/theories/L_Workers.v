(** Lemmas on planning and reading file slices elsewhere (C85). *)
From Verif Require Import Base Str M_Utf8 M_Time M_Instant M_Timeline M_FileGroup M_Builder M_Listing M_Expr M_Log M_Config M_Reader M_Table M_Python
  S_Config S_Reader S_History S_Table S_Python S_Readers S_Workers L_Base L_Str L_Config L_Records L_Table L_Readers.
Local Open Scope string_scope.

(** Reading depends on the values of the options of tables only. *)
Definition same_hudi (a b : options) : Prop := forall k, is_hudi k = true -> oget k a = oget k b.
Lemma raw_same : forall a b k, same_hudi a b -> is_hudi k = true -> raw a k = raw b k.
Proof. intros a b k S H. unfold raw. now rewrite (S k H). Qed.
Lemma table_value_same : forall a b c, same_hudi a b -> is_hudi (table_key c) = true -> table_value c a = table_value c b.
Proof. intros a b c S H. unfold table_value, as_string, as_bool, as_int, as_list. now rewrite (raw_same a b _ S H). Qed.
Lemma read_value_same : forall a b c, same_hudi a b -> is_hudi (read_key c) = true -> read_value c a = read_value c b.
Proof. intros a b c S H. unfold read_value, as_string, as_bool, as_uint. now rewrite (raw_same a b _ S H). Qed.
Lemma table_or_default_same : forall a b c, same_hudi a b -> is_hudi (table_key c) = true -> table_or_default c a = table_or_default c b.
Proof.
  intros a b c S H. unfold table_or_default. rewrite (table_value_same a b c S H), (table_value_same a b PopulatesMetaFields S eq_refl). unfold ohas.
  now rewrite (S (table_key PrecombineField) eq_refl).
Qed.
Lemma read_same : forall sort visit rp A V ps da cs tb pq L fe a b s, same_hudi a b ->
  read_file_slice sort visit rp A V ps da cs tb pq L fe a s = read_file_slice sort visit rp A V ps da cs tb pq L fe b s.
Proof.
  intros sort visit rp A V ps da cs tb pq L fe a b s S.
  assert (B : forall p, read_base_file rp a p = read_base_file rp b p).
  { intros p. unfold read_base_file, create_mask, populates_meta, start_timestamp, end_timestamp, read_try.
    rewrite (table_or_default_same a b PopulatesMetaFields S eq_refl), (read_value_same a b FileGroupStartTimestamp S eq_refl), (read_value_same a b FileGroupEndTimestamp S eq_refl). reflexivity. }
  assert (R : log_range a = log_range b).
  { unfold log_range, timeline_timezone, start_timestamp, end_timestamp, read_try.
    rewrite (table_or_default_same a b TimelineTimezone S eq_refl), (read_value_same a b FileGroupStartTimestamp S eq_refl), (read_value_same a b FileGroupEndTimestamp S eq_refl). reflexivity. }
  assert (M : forall sch bs, merge_record_batches sort visit a sch bs = merge_record_batches sort visit b sch bs).
  { intros sch bs. unfold merge_record_batches, merge_strategy, precombine_field. rewrite (table_or_default_same a b RecordMergeStrategy S eq_refl), (table_value_same a b PrecombineField S eq_refl). reflexivity. }
  assert (O : read_optimized a = read_optimized b) by (unfold read_optimized, read_or_default; now rewrite (read_value_same a b UseReadOptimizedMode S eq_refl)).
  assert (T : timeline_timezone a = timeline_timezone b) by (unfold timeline_timezone; now rewrite (table_or_default_same a b TimelineTimezone S eq_refl)).
  unfold read_file_slice. rewrite O, R, T, B. destruct (if negb (has_log_file s) then Ok true else read_optimized b) as [[]| |]; cbn [bind]; [reflexivity| |reflexivity|reflexivity].
  destruct (read_base_file rp b (base_relative_path s)) as [base| |]; cbn [bind]; [|reflexivity|reflexivity]. destruct (log_range b) as [rg| |]; cbn [bind]; [|reflexivity|reflexivity].
  destruct (timeline_timezone b) as [tz| |]; cbn [bind]; [|reflexivity|reflexivity]. destruct (scan _ _ _ _ _ _ _ _ _ _ _ _ _) as [lg| |]; cbn [bind]; [|reflexivity|reflexivity]. apply M.
Qed.

Section Workers.
Variable dtype : Type.
Variable avro_schema avro_value : Type.
Variable parse_schema : string -> option avro_schema.
Variable datum : avro_schema -> string -> option (avro_value * string).
Variable check_schema : avro_schema -> outcome unit.
Variable to_batch : avro_schema -> list avro_value -> outcome record_batch.
Variable parquet : string -> option (list record_batch).
Variable local_to_utc : ndt -> option ndt.
Variable st : store dtype.
Variable tb : table.
Let reads := reader_reads dtype avro_schema avro_value parse_schema datum check_schema to_batch parquet local_to_utc st.
Let works := worker dtype avro_schema avro_value parse_schema datum check_schema to_batch parquet local_to_utc st tb.
Let slices_read := read_slices dtype avro_schema avro_value parse_schema datum check_schema to_batch parquet local_to_utc st tb.

Lemma reads_same : forall a b s o, same_hudi a b -> reads a s o -> reads b s o.
Proof. intros a b s o S [sort [visit [SO [VI ->]]]]. exists sort, visit. split; [exact SO|]. split; [exact VI|]. now apply read_same. Qed.
Lemma reads_all_same : forall a b ss os, same_hudi a b -> Forall2 (reads a) ss os -> Forall2 (reads b) ss os.
Proof. intros a b ss os S F. induction F; constructor; [eapply reads_same; eassumption|assumption]. Qed.
Lemma orders_same : forall iter iter' opts, one_per_key (t_storage tb) -> visits_all iter -> visits_all iter' ->
  same_hudi (fst (table_reader_options iter (t_configs tb) (t_storage tb) opts)) (fst (table_reader_options iter' (t_configs tb) (t_storage tb) opts)).
Proof. intros iter iter' opts D V V' k _. now rewrite (proj1 (reader_get iter V _ _ opts k D)), (proj1 (reader_get iter' V' _ _ opts k D)). Qed.

(** Several workers read what one reader reads. *)
Lemma workers_as_one : forall opts parts answers, one_per_key (t_storage tb) -> readers_open st tb opts -> Forall2 (works opts) parts answers ->
  works opts (List.concat parts) (List.concat answers).
Proof.
  intros opts parts answers D OP F. exists (fun m => m). split; [intros m; reflexivity|]. split; [apply OP; intros m; reflexivity|].
  induction F as [|ss os parts answers [it [V [_ R]]] F IH]; [constructor|]. cbn [List.concat]. apply Forall2_app; [|exact IH].
  eapply reads_all_same; [|exact R]. apply orders_same; [exact D|exact V|intros m; reflexivity].
Qed.
Lemma worker_reads : forall opts ss os r, works opts ss os -> joined os r -> slices_read opts ss r.
Proof. intros opts ss os r [it [V [O F]]] J. apply rs_read with (iter := it) (os := os); [exact V|split; [exact O|exact F]|exact J]. Qed.
Lemma joined_ok_inv : forall {A} (os : list (outcome A)) l, joined os (Ok l) -> os = map Ok l.
Proof. intros A os l J. now inversion J; subst. Qed.
Lemma read_worker : forall opts ss bs, slices_read opts ss (Ok bs) -> works opts ss (map Ok bs).
Proof.
  intros opts ss bs R. inversion R as [| |it os r V [O F] J]; subst. apply joined_ok_inv in J. subst os. exists it. split; [exact V|]. split; [exact O|exact F].
Qed.
Lemma worker_parts : forall opts parts os, works opts (List.concat parts) os -> exists answers, List.concat answers = os /\ Forall2 (works opts) parts answers.
Proof.
  intros opts parts os [it [V [O F]]]. revert os F. induction parts as [|p parts IH]; intros os F; cbn [List.concat] in F.
  - inversion F; subst. exists []. split; [reflexivity|constructor].
  - apply Forall2_app_inv_l in F as [o1 [o2 [F1 [F2 ->]]]]. destruct (IH o2 F2) as [an [ <- A]]. exists (o1 :: an). split; [reflexivity|]. constructor; [|exact A].
    exists it. split; [exact V|]. split; [exact O|exact F1].
Qed.

(** Workers with Python's slices. *)
Lemma py_worker_is : forall opts ss os, (forall s, In s ss -> reads_as s (py_slice_of s)) ->
  (py_worker dtype avro_schema avro_value parse_schema datum check_schema to_batch parquet local_to_utc st tb opts (map py_slice_of ss) os <-> works opts ss os).
Proof.
  intros opts ss os RA. split; intros [it [V [O F]]]; exists it; (split; [exact V|]); (split; [exact O|]); revert os F; induction ss as [|s ss IH]; intros os F; inversion F as [|x o xs os' [sort [visit [SO [VI E]]]] F']; subst; constructor.
  - exists sort, visit. split; [exact SO|]. split; [exact VI|]. apply RA. now left.
  - apply IH; [intros x I; apply RA; now right|exact F'].
  - exists sort, visit. split; [exact SO|]. split; [exact VI|]. symmetry. apply RA. now left.
  - apply IH; [intros x I; apply RA; now right|exact F'].
Qed.

(** Workers with the URI and all options. *)
Lemma uri_worker_is : forall uri opts o2 ss os, one_per_key opts -> readers_open st tb o2 -> storage_only (t_storage tb) -> reading_options o2 ->
  oget "hoodie.base.path" (t_configs tb) = Some uri -> oget "hoodie.base.path" opts = None ->
  (forall r, "hoodie." ++ r <> "hoodie.base.path" -> oget ("hoodie." ++ r) opts = first_given [last_value o2 ("hoodie." ++ r); oget ("hoodie." ++ r) (t_configs tb)]) ->
  uri_worker dtype avro_schema avro_value parse_schema datum check_schema to_batch parquet local_to_utc st uri opts ss os -> works o2 ss os.
Proof.
  intros uri opts o2 ss os D OP SO RO BP NB SV [it [V [_ F]]]. exists (fun m => m). split; [intros m; reflexivity|]. split; [apply OP; intros m; reflexivity|].
  eapply reads_all_same; [|exact F]. intros k K. rewrite (proj1 (reader_get (fun m => m) (fun m => Permutation_refl m) _ _ o2 k (proj1 SO))). unfold when. rewrite K, (storage_only_hudi _ _ SO K).
  unfold reader_options. destruct (split_options opts [] []) as [h others] eqn:E. destruct (split_nodup opts [] []) as [D2 _]; [constructor|constructor|].
  assert (G : forall k, oget k h = first_given [when (is_hudi k) (last_value opts k); None]) by (intros x; pose proof (oget_split opts [] [] x) as X; rewrite E in X; exact (proj1 X)).
  rewrite E in D2. cbn [fst] in *. rewrite oget_oputs, iter_last, G, last_value_oget by assumption. unfold when. rewrite K. cbn [oget].
  pose proof K as K'. apply hudi_name in K' as [r ->]. destruct (String.eqb_spec "hoodie.base.path" ("hoodie." ++ r)) as [B|B].
  - rewrite <- B, NB, BP. rewrite (last_not_in o2) by (intros v I; now destruct (RO _ v I)). reflexivity.
  - rewrite (SV r) by congruence. cbn [first_given]. destruct (last_value o2 ("hoodie." ++ r)); [reflexivity|]. now destruct (oget ("hoodie." ++ r) (t_configs tb)).
Qed.
End Workers.
