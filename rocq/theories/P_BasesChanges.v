(** C88, incremental queries that read base files only. *)
From Coq Require Import Sorted.
From Verif Require Import Base Str M_Utf8 M_Time M_Instant M_Timeline M_FileGroup M_Builder M_Listing M_Expr M_Log M_Config M_Reader M_Table M_Storage M_Avro M_Values M_Datum M_Json M_Objects M_Open
  S_Time S_Timeline S_FileGroup S_Builder S_Listing S_Expr S_Log S_Reader S_Config S_Table S_Avro S_Storage S_Objects S_Open S_History S_Values S_Datum S_Json S_Whole S_Bases
  L_Base L_Str L_Config L_Reader L_Timeline L_History L_Table L_Incremental L_Records L_Objects L_Open L_Whole L_Bases E_Scan E_Open E_History E_Values E_Datum E_Json E_Whole E_Changes E_WholeChanges P_WholeChanges P_Bases.
Local Open Scope string_scope.

(** An incremental query after [start], up to [stop] or the latest commit; the options of the table ask for base files only,
    or the changed slices have no log files.  The answer has one batch for every file slice that the query of slices for
    the same window shows, and the batch has exactly the rows of the slice's base file that were committed in the window. *)
Theorem C88_incremental : forall dtype avro_schema avro_value parse_schema datum check_schema to_batch parquet local_to_utc (st : store dtype) tb,
  plain_table tb -> oget "hoodie.populate.meta.fields" (t_configs tb) <> Some "false" ->
  forall start stop e batches, window_end (t_commits tb) stop e ->
  (read_optimized_table tb \/ forall order ss s, get_file_slices_between dtype local_to_utc st tb order (Some start) stop = Ok ss -> In s ss -> fs_logs s = []) ->
  read_incremental dtype avro_schema avro_value parse_schema datum check_schema to_batch parquet local_to_utc st tb start stop (Ok batches) ->
  exists order ss, (forall n l, Permutation l (order n l)) /\ get_file_slices_between dtype local_to_utc st tb order (Some start) stop = Ok ss
    /\ Forall2 (fun s batch => exists base, st_parquet _ st (base_relative_path s) = Ok base
         /\ forall ct, typed_column (rb_fields base) "_hoodie_commit_time" TUtf8 ct -> Forall (wf_row (rb_fields base)) (rb_rows base) ->
            rb_fields batch = rb_fields base /\ selects (S_Reader.in_window ct start (Some e)) (rb_rows base) (rb_rows batch)) ss batches.
Proof.
  intros dtype A B sc da ch tob pq LU st tb [D [N St]] PM start stop e batches WE MODE R.
  assert (SE : stop_or_latest tb stop = Some e) by (apply window_end_is; exact WE).
  inversion R as [Q| | |order e' ss r P SE' SB RS]; subst; [congruence|]. assert (e' = e) by congruence. subst e'.
  exists order, ss. split; [exact P|]. assert (GB : get_file_slices_between dtype LU st tb order (Some start) stop = Ok ss) by (unfold get_file_slices_between; rewrite SE; exact SB). split; [exact GB|].
  assert (Hl : forall s, In s ss -> read_optimized_table tb \/ fs_logs s = []) by (intros s I; destruct MODE as [M|M]; [now left|right; exact (M order ss s GB I)]).
  inversion RS as [| |iter os ? PI [_ F] J]; subst. apply joined_ok in J. subst os.
  set (opts := [("hoodie.read.file_group.start_timestamp", start); ("hoodie.read.file_group.end_timestamp", e)]) in *.
  set (m := fst (table_reader_options iter (t_configs tb) (t_storage tb) opts)) in *.
  assert (O : forall key, is_hudi key = true -> oget key m = first_given [last_value opts key; oget key (t_configs tb)]) by (intros key K; exact (reader_option iter tb opts key PI D N K)).
  assert (M1 : read_start m = Some start) by (unfold read_start; rewrite O by reflexivity; reflexivity).
  assert (M2 : read_end m = Some e) by (unfold read_end; rewrite O by reflexivity; reflexivity).
  assert (M3 : oget "hoodie.populate.meta.fields" m <> Some "false") by (rewrite O by reflexivity; cbn; destruct (oget "hoodie.populate.meta.fields" (t_configs tb)); assumption).
  assert (M4 : read_optimized_table tb -> oget "hoodie.read.use.read_optimized.mode" m = Some "true") by (intros H; rewrite O by reflexivity; cbn; rewrite H; reflexivity).
  clear R RS SB GB MODE. clearbody m. revert batches F. induction ss as [|s ss IH]; intros [|b batches] F; cbn [map] in F; inversion F as [|? ? ? ? [sort [visit [_ [_ E]]]] F']; subst; [constructor|].
  constructor; [|apply IH; [|exact F']; intros; apply Hl; now right].
  rewrite slice_read_optimized in E. 2: { destruct (Hl s (or_introl eq_refl)) as [H|H]; [left; now apply M4|now right]. }
  unfold read_base_file in E. destruct (st_parquet dtype st (base_relative_path s)) as [base| |] eqn:Rp; try discriminate E. exists base. split; [reflexivity|]. intros ct TC W.
  destruct (base_window (st_parquet dtype st) m (base_relative_path s) base ct start Rp M3 M1 TC W) as [out [RB [EF SL]]].
  unfold read_base_file in RB. rewrite Rp in RB. cbn [bind] in RB, E. rewrite RB in E. injection E as ->. rewrite M2 in SL. auto.
Qed.
Print Assumptions C88_incremental.

(** The table of C88, read after its first commit: the second base file of the group is in the window, with one changed row. *)
Example C88_incremental_case : plain_table ox_table /\ oget "hoodie.populate.meta.fields" (t_configs ox_table) <> Some "false"
  /\ window_end (t_commits ox_table) (Some hx_t5) hx_t5 /\ read_optimized_table ox_table /\ ox_changes hx_t1 (Some hx_t5) [[hx_a2]].
Proof.
  destruct C88_case as [_ [_ [_ [H1 [H2 _]]]]]. split; [exact H1|]. split; [vm_compute; discriminate|]. split; [left; reflexivity|]. split; [exact H2|]. cx_read.
Qed.
