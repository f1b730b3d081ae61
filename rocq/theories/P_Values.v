(** C76: the records of Avro log blocks reach the reader with the values that were written. *)
From Coq Require Import Sorted.
From Verif Require Import Base Str M_Time M_Instant M_FileGroup M_Listing M_Expr M_Log M_Config M_Reader M_Table M_Avro M_Values
  S_Time S_Timeline S_FileGroup S_Listing S_Expr S_Log S_Reader S_Config S_Table S_Avro S_History S_Values L_Reader L_Tree L_ArrowSchema L_Records L_Values E_Avro E_History E_Values.
Local Open Scope string_scope.

(** A file slice is read as the latest version of each key among the rows of its base file and the records
    of the surviving blocks (C29) of its log files, every record with the values that were written. *)
Theorem C76_slice : forall code rank float_cast sort iter read_parquet parse_schema datum parquet local_to_utc fetch m slice tz files dfs base p s k,
  S_Reader.sorts sort -> visits iter ->
  fs_logs slice <> [] -> oget "hoodie.read.use.read_optimized.mode" m <> Some "true" -> timeline_timezone m = Ok tz ->
  map (log_relative_path slice) (fs_logs slice) = map fst files ->
  (forall f, In f files -> log_written parse_schema (decodes datum) local_to_utc fetch (read_range tz m) tz dfs f) ->
  read_base_file read_parquet m (base_relative_path slice) = Ok base -> rb_fields base = map (as_field code) dfs ->
  merges_latest m -> merge_columns m (rb_fields base) p s k -> wf_batch (rb_fields base) base ->
  exists kept out,
    selects (surviving value local_to_utc (read_range tz m) tz (List.concat (map snd files))) (List.concat (map snd files)) kept
    /\ read_file_slice sort iter read_parquet avro value parse_schema datum check_schema (to_batch code rank float_cast) parquet local_to_utc fetch m slice = Ok out
    /\ rb_fields out = rb_fields base
    /\ latest_rows k p s (rb_rows base ++ map (row_of code rank dfs) (List.concat (map snd kept)))%list (rb_rows out).
Proof.
  intros code rank float_cast sort iter read_parquet parse_schema datum parquet local_to_utc fetch m slice tz files dfs base p s k.
  exact (slice_values code rank float_cast parse_schema datum parquet sort iter read_parquet local_to_utc fetch m slice tz files dfs base p s k).
Qed.
Print Assumptions C76_slice.
Ltac vx_column := split; [split; [eexists; split; reflexivity|intros j f L E; do 4 (destruct j as [|j]; [first [exfalso; now apply Nat.lt_irrefl in L|cbn in E; injection E as <-; discriminate|exfalso; lia]|]); exfalso; lia]|eexists; split; reflexivity].
Example C76_slice_case : exists kept out,
  selects (surviving value hx_local (read_range "utc" vx_options) "utc" (vx_contents (fm_name hx_log1))) (vx_contents (fm_name hx_log1)) kept
  /\ read_file_slice (@isort _) (fun m => m) (st_parquet _ vx_store) avro value vx_parse vx_datum check_schema (to_batch vx_code vx_rank vx_cast) (fun _ => None) hx_local (st_bytes _ vx_store) vx_options vx_slice = Ok out
  /\ rb_fields out = hx_sch
  /\ latest_rows 2 3 1 ([hx_a1; hx_b1] ++ map (row_of vx_code vx_rank vx_dfs) (List.concat (map snd kept)))%list (rb_rows out).
Proof.
  destruct (C76_slice vx_code vx_rank vx_cast (@isort _) (fun m => m) (st_parquet _ vx_store) vx_parse vx_datum (fun _ => None) hx_local (st_bytes _ vx_store) vx_options vx_slice "utc"
    [(fm_name hx_log1, vx_contents (fm_name hx_log1))] vx_dfs (hx_batch [hx_a1; hx_b1]) 3 1 2) as [kept [out H]]; try reflexivity; try discriminate.
  - apply isort_sorts.
  - intros l. apply Permutation_refl.
  - intros f [ <- |[]]. exact vx_log_ok.
  - right. split; [intros v [=]|split; discriminate].
  - split; [|split; vx_column]. exists "ts", TInt. split; [reflexivity|]. split; [vx_column|discriminate].
  - split; [reflexivity|]. repeat constructor; cbn; discriminate.
  - exists kept, out. cbn [map snd List.concat] in H. rewrite app_nil_r in H. exact H.
Qed.
(** The rows show the values: different values of a field are different cells, and the cells of a field have
    its type; null is null and the rest is not; numbers, dates, times and texts keep their order, by which the
    newest version is chosen. *)
Theorem C76_cells : forall code rank s v d n0 n, valid s -> readable s = true -> conforms s v -> to_type s n0 = Ok (d, n) ->
  has_type (cell_of_slot code rank d (meaning v)) (ctype_of code d)
  /\ (cell_of_slot code rank d (meaning v) = Null <-> meaning v = SlNull)
  /\ ((forall a b, rank d a = rank d b -> a = b) -> forall v', conforms s v' ->
        cell_of_slot code rank d (meaning v) = cell_of_slot code rank d (meaning v') -> meaning v = meaning v')
  /\ (forall v', conforms s v' ->
        (forall a b, meaning v = SlInt a -> meaning v' = SlInt b -> (cell_lt (cell_of_slot code rank d (meaning v)) (cell_of_slot code rank d (meaning v')) <-> (a < b)%Z))
        /\ (forall a b, meaning v = SlText a -> meaning v' = SlText b -> (cell_lt (cell_of_slot code rank d (meaning v)) (cell_of_slot code rank d (meaning v')) <-> slt a b))).
Proof.
  intros code rank s v d n0 n V R C T. split; [exact (meaning_typed code rank s v V R C n0 d n T)|]. split; [apply slot_null|].
  split; [intros Inj v' C' E; exact (values_distinct code rank s v v' V R C C' n0 d n T Inj E)|].
  intros v' C'. exact (values_order code rank s v v' V R C C' n0 d n T).
Qed.
Print Assumptions C76_cells.
Example C76_cells_case : let s := ScUnion [ScNull; ScTimestampMicros] in valid s /\ readable s = true /\ conforms s (AvUnion 1 (AvTimestampMicros (-3))) /\ conforms s (AvUnion 0 AvNull)
  /\ to_type s true = Ok (DTimestampMicro, true).
Proof.
  split; [now apply valid_b_spec|]. split; [reflexivity|]. split; [eapply cf_union; [reflexivity|]; constructor; unfold long_range; lia|].
  split; [eapply cf_union; [reflexivity|constructor]|reflexivity].
Qed.
(** Record schemas of scalars and lists (C48, C49) are among those considered. *)
Theorem C76_columns : forall fs vs, valid (ScRecord fs) -> fs <> [] -> (forall n al s, In (n, al, s) fs -> s <> ScNull /\ (scalar_column s \/ list_column s)) ->
  Forall (conforms (ScRecord fs)) vs -> kept_records fs vs.
Proof. exact simple_kept. Qed.
Print Assumptions C76_columns.
Example C76_columns_case : valid (ScRecord ex_scalars) /\ (forall n al s, In (n, al, s) ex_scalars -> s <> ScNull /\ (scalar_column s \/ list_column s)) /\ Forall (conforms (ScRecord ex_scalars)) ex_scalar_rows.
Proof.
  destruct ex_scalars_ok as [A [B C]]. split; [exact A|]. split; [|exact C]. intros n al s I. split; [|left; now apply (B n al)].
  destruct I as [[= <- <- <-]|[[= <- <- <-]|[[= <- <- <-]|[[= <- <- <-]|[]]]]]; discriminate.
Qed.

(** A snapshot read as of [t] returns for every file slice the newest version of every key among those committed
    by then (C52); the versions that deltacommits wrote are records of Avro log blocks, with their values. *)
Theorem C76_snapshot : forall code rank float_cast dtype' value' cast cmp parse_schema datum parquet local_to_utc
    (st : store dtype') tb dfs p s k, merging_table tb (map (as_field code) dfs) p s k ->
  forall root, serves_dirs root (st_dirs _ st) -> wf_tree root -> StronglySorted instant_le (t_commits tb) ->
  forall c c' t filters batches format, view_after dtype' value' cast cmp local_to_utc st tb c -> base_format (t_configs tb) = Ok format -> timestamp t ->
  read_snapshot_as_of dtype' value' cast cmp avro value parse_schema datum check_schema (to_batch code rank float_cast) parquet local_to_utc st tb t filters c c' (Ok batches) ->
  exists ss, get_file_slices_as_of dtype' value' cast cmp local_to_utc st tb t filters c c' (Ok ss)
    /\ Forall2 (fun slice batch => forall now g listed contents, history k p s now g -> clean_at g t ->
         st_files _ st (fs_partition slice) = Ok listed ->
         written_out parse_schema (decodes datum) code rank (st_parquet _ st) (st_bytes _ st) format (fs_partition slice) (bf_file_id (fs_base slice)) dfs listed contents g ->
         rb_fields batch = map (as_field code) dfs /\ current_at k p s g t (rb_rows batch)) ss batches.
Proof.
  intros code rank float_cast dtype' value' cast cmp parse_schema datum parquet local_to_utc st tb dfs p s k Mt root Sd Wt So c c' t filters batches format Va Bf Ts Rd.
  destruct (snapshot_records dtype' value' cast cmp avro value parse_schema datum check_schema (to_batch code rank float_cast) parquet local_to_utc st tb _ p s k Mt root Sd Wt So c c' t filters batches format Va Bf Ts Rd) as [ss [G F]].
  exists ss. split; [exact G|]. clear G Rd. induction F as [|slice batch ss bs H F IH]; constructor; [|exact IH]. intros now g listed contents Hi Cl Li Wo.
  apply (H now g listed (fun n => map (block_batches code rank float_cast parse_schema) (contents n)) Hi Cl Li). now apply written_laid_out.
Qed.
Print Assumptions C76_snapshot.
Example C76_snapshot_case : merging_table hx_table (map (as_field vx_code) vx_dfs) 3 1 2 /\ serves_dirs (Dir hx_listed []) (st_dirs _ vx_store) /\ wf_tree (Dir hx_listed [])
  /\ StronglySorted instant_le (t_commits hx_table) /\ base_format (t_configs hx_table) = Ok "parquet" /\ history 2 3 1 hx_t6 hx_group /\ clean_at hx_group hx_t4
  /\ vx_writes "parquet" "" "f" vx_dfs hx_listed vx_contents hx_group
  /\ vx_reads hx_t2 [hx_a2; hx_b1] /\ vx_reads hx_t4 [hx_a2; hx_b1] /\ vx_reads hx_t6 [hx_b6; hx_a2].
Proof.
  split; [exact hx_merging|]. split; [exact (tree_serves _ hx_wf)|]. split; [exact hx_wf|]. split; [exact hx_sorted|]. split; [reflexivity|].
  split; [exact hx_history|]. split; [apply hx_clean; cbn; tauto|]. split; [exact vx_written_out|]. split; [exact vx_read2|]. split; [exact vx_read4|exact vx_read6].
Qed.
(** Without the conditions on the schema this is false: a UUID is null in the result of the read. *)
Theorem C76_uuid_refuted : exists read_parquet parse_schema datum fetch m slice l w d v u base out,
  fs_logs slice = [l] /\ fetch (log_relative_path slice l) = Ok (put_log [w]) /\ w_content w = CAvro [d]
  /\ (exists text fs, In (Schema, text) (w_header w) /\ parse_schema text = Some (ScRecord fs) /\ valid (ScRecord fs) /\ datum (ScRecord fs) d = Some (v, "") /\ conforms (ScRecord fs) v)
  /\ (exists r, v = AvRecord r /\ nth_error r 2 = Some ("_hoodie_record_key", AvUnion 1 (AvString "c")) /\ nth_error r 4 = Some ("u", AvUnion 1 (AvUuid u)))
  /\ read_base_file read_parquet m (base_relative_path slice) = Ok base /\ merges_latest m /\ merge_columns m (rb_fields base) 3 1 2
  /\ read_file_slice (@isort _) (fun m => m) read_parquet avro value parse_schema datum check_schema (to_batch vx_code vx_rank vx_cast) (fun _ => None) hx_local fetch m slice = Ok out
  /\ (exists r, In r (rb_rows out) /\ key_at 2 r = "c") /\ forall r, In r (rb_rows out) -> key_at 2 r = "c" -> nth 4 r (VText u) = Null.
Proof.
  exists (fun _ => Ok vu_base), vu_parse, vx_datum, vu_fetch, vx_options, vx_slice. eexists. exists vu_block, vu_datum, vu_record, vu_uuid, vu_base, vu_out.
  split; [reflexivity|]. split; [reflexivity|]. split; [reflexivity|]. split.
  { exists "{record}", vu_fields. split; [right; now left|]. split; [reflexivity|]. split; [now apply valid_b_spec|]. split; [vm_compute; reflexivity|].
    apply cf_record. repeat (apply Forall2_cons; [split; [reflexivity|]; cbn [snd]; eapply cf_union; [reflexivity|]; constructor; unfold long_range; lia|]). constructor. }
  split; [eexists; split; [reflexivity|split; reflexivity]|]. split; [reflexivity|]. split; [right; split; [intros v [=]|split; discriminate]|].
  split; [split; [|split; vx_column]; exists "ts", TInt; split; [reflexivity|]; split; [vx_column|discriminate]|]. split; [exact vu_reads|].
  split; [eexists; split; [now left|reflexivity]|]. intros r [ <- |[ <- |[]]] K; [reflexivity|discriminate K].
Qed.
Print Assumptions C76_uuid_refuted.
