(** C94: the life of a table, with writers that delete and cleaners. *)
From Coq Require Import Sorted.
From Verif Require Import Base Str M_Utf8 M_Time M_Instant M_Timeline M_FileGroup M_Builder M_Listing M_Expr M_Log M_Config M_Reader M_Table M_Storage M_Avro M_Values M_Datum M_Json M_Objects M_Open
  S_Time S_Timeline S_FileGroup S_Builder S_Listing S_Expr S_Log S_Reader S_Config S_Table S_Avro S_Storage S_Objects S_Open S_History S_Values S_Datum S_Json S_Whole S_Readers S_Clean S_Deletes S_Erased S_Gaps S_Writer S_Life
  L_Base L_Str L_Time L_Timeline L_Open L_Whole L_Readers L_Deletes L_Succeed L_Erased L_Gaps L_Writer L_Life E_Scan E_Open E_History E_Values E_Datum E_Json E_Whole E_Erased E_Gaps E_Writer E_Life P_Erased P_Gaps.
Local Open Scope string_scope.

(** Writers put base files, log files, blocks and other objects into a storage and delete records, and cleaners remove old
    slices, one step after another in any order.  A table is opened on what is there then, and read as of [t], not
    before the horizon of the cleaners.  Failed writes up to [t] are rolled back; the file groups that cleaners removed
    altogether are replaced by [t]; no directory is left empty.  The read has an answer, and every answer holds the
    records of the table at [t]: of every key the newest of the versions that were written by then and not deleted since. *)
Theorem C94_life : forall iter env parse stores global local_to_utc sort_unstable b tb u names objs
    number_of collect dtype' value' cast cmp parse_pschema parse_rows footer code rank float_cast parse_schema parquet,
  visits_all iter -> S_Timeline.sorts sort_unstable -> one_per_key (b_options b) ->
  build iter env parse stores global local_to_utc sort_unstable b = Ok (tb, u, objs) -> located u names ->
  let st := object_store objs u dtype' (parse_metadata number_of collect) parse_pschema parse_rows footer (storage_opens parse stores) in
  forall dfs p s k format depth tz n columns hive url,
  merging_table tb (map (as_field code) dfs) p s k -> (forall fields, get_partition_schema dtype' st tb = Ok fields -> wf_fields fields) ->
  base_format (t_configs tb) = Ok format -> is_table_partitioned (t_configs tb) = Ok (has_partitions depth) -> timeline_timezone (t_configs tb) = Ok tz ->
  partition_fields (t_configs tb) = Ok columns -> hive_flag tb = Ok hive -> url_flag tb = Ok url ->
  listing_parallelism (t_configs tb) = Ok n -> (0 < n)%Z -> by_value stores -> word format -> format <> "crc" ->
  forall t time horizon dropped l sch, timestamp t -> parse_datetime local_to_utc t tz = Ok time -> sle horizon t ->
  lived names depth parse_schema code rank parse_rows footer dfs k p s horizon dropped l -> Permutation objs (objects_now names format l) ->
  (forall e, In e (w_bases (l_written l)) -> exists name o, file_in objs names (be_dir e) name o) ->
  (forall g, clean_at (w_hist (l_written l) g) t) ->
  let replaced := replaced_in objs names number_of collect local_to_utc tz (epoch_millis time) in
  (forall g, dropped g -> replaced g) ->
  replacements_in_order objs names number_of collect local_to_utc tz (epoch_millis time) -> schema_found objs names number_of collect parse_pschema (t_commits tb) sch ->
  let of := groups_at (l_written l) t replaced in
  keys_apart k of (w_hist (l_written l)) ->
  forall c, view_after dtype' value' cast cmp local_to_utc st tb c ->
  let read := read_snapshot_as_of dtype' value' cast cmp avro value parse_schema decode check_schema (to_batch code rank float_cast) parquet local_to_utc st tb t [] c in
  (exists c' batches, read c' (Ok batches))
  /\ forall c' r, read c' r -> exists batches, r = Ok batches /\ (forall batch, In batch batches -> rb_fields batch = map (as_field code) dfs)
       /\ table_alive k p s of (w_hist (l_written l)) (l_dels l) t (flat_map rb_rows batches).
Proof.
  intros iter env parse stores global L f b tb u names objs nu co D V ca cm ps pr fo code rank fc sc pq VA SU OK BU Lo st dfs p s k format depth tz n cols hive url MT WF BF PT TZ PF HF UF LP NP BV FW FC t time horizon dropped l sch TS TM LT LV PE MK CL replaced DR RI SF of KA c VW read.
  pose proof (proj1 (proj2 Lo)) as TL. apply lived_kept in LV. pose proof (proj1 LV) as K.
  pose proof (left_proper names format depth _ _ _ _ _ _ TL FW FC _ _ K _ (Permutation_refl _)) as PO.
  pose proof (left_files names format depth _ _ _ _ _ _ TL FW FC _ _ K _ (Permutation_refl _)) as FO.
  pose proof (left_bases names format depth _ _ _ _ _ _ TL FW FC _ _ K _ (Permutation_refl _)) as HB.
  pose proof (life_erased names format depth sc code rank pr fo dfs k p s horizon dropped TL FW FC l LV t CL) as WB.
  pose proof (life_removed names format depth sc code rank pr fo dfs k p s horizon dropped TL FW FC l LV objs PE MK) as SR.
  pose proof (proj1 (replacements_same _ _ _ _ _ _ _ Lo SR nu co L tz (epoch_millis time)) RI) as RI'.
  assert (OF : forall g, live (objects_of names format (l_written l)) names format (has_partitions depth) nu co L tz t (epoch_millis time) g <-> of g).
  { intros g. unfold live, of, groups_at, replaced. rewrite (replaced_same _ _ _ _ _ _ _ Lo SR nu co L tz (epoch_millis time) g). split; (intros [[x [A B]] R]; split; [exists x; split; [now apply HB|exact B]|exact R]). }
  destruct (C96_gaps iter env parse stores global L f b tb u names (objects_of names format (l_written l)) objs nu co D V ca cm ps pr fo code rank fc sc pq VA SU OK BU Lo PO dfs p s k format (has_partitions depth) tz n cols hive url MT WF BF PT TZ PF HF UF LP NP BV
    t time (w_hist (l_written l)) (l_dels l) sch (still_there l) TS TM WB FO RI' SR) with (filters := @nil (string * string * string)) (fs := @nil filter_expr) (c := c) as [A B].
  - intros g x G SH. eapply life_shown; try eassumption. intros X. apply OF in G. apply (proj2 G). now apply DR.
  - exact SF.
  - reflexivity.
  - intros ? [].
  - exact VW.
  - split; [exact A|]. intros c' r R. destruct (B c' r R) as [bs [E [X Y]]]. exists bs. split; [exact E|]. split; [exact X|].
    destruct (Y eq_refl) as [Y1 [Y2 Y3]].
    + intros g g' x x' r0 r' G G'. apply OF in G, G'. now apply KA.
    + split; [exact Y1|]. split.
      * intros g x r0 G. apply OF in G. now apply (Y2 g x r0 G).
      * intros r0 I. destruct (Y3 r0 I) as [[g [x [G Z]]] M]. split; [exists g, x; split; [now apply OF|exact Z]|]. intros g' x' r' G'. apply OF in G'. now apply (M g' x' r' G').
Qed.
Print Assumptions C94_life.

(** ** The hypotheses are met *)
(** A commit of a and b, a commit that deletes a, a commit that writes a again, the slice in between cleaned before the
    last commit is complete. *)
Example C94_life_case : lw_lived lw_6 /\ Permutation ix_objs (objects_now wx_names "parquet" lw_6)
  /\ (exists c' batches, ix_reads hx_t3 c' (Ok batches))
  /\ forall c' r, ix_reads hx_t3 c' r -> exists batches, r = Ok batches
       /\ table_alive 2 3 1 (groups_at (l_written lw_6) hx_t3 (replaced_in ix_objs wx_names jx_number jx_collect hx_local "utc" 1735862400000)) (w_hist (l_written lw_6)) (l_dels lw_6) hx_t3 (flat_map rb_rows batches).
Proof.
  split; [exact lw_lived6|]. split; [exact lw_objects_are|].
  assert (TM : exists dt, parse_datetime hx_local hx_t3 "utc" = Ok dt /\ epoch_millis dt = 1735862400000%Z) by (eexists; split; [vm_compute; reflexivity|vm_compute; reflexivity]).
  destruct TM as [dt [TM EP]].
  destruct (C94_life (fun m => m) [] bx_parse (fun _ _ => Ok ix_objs) (fun _ => Err EStorage) hx_local isort wx_builder gx_table sx_base wx_names ix_objs
    jx_number jx_collect unit string (fun _ s => Some s) (fun a b => Some (scmp a b)) (fun _ => Ok [("ts", tt)]) gx_rows sw_footer vx_code vx_rank vx_cast vx_parse (fun _ => None))
    with (dfs := vx_dfs) (p := 3%nat) (s := 1%nat) (k := 2%nat) (format := "parquet") (depth := 0%nat) (tz := "utc") (n := 10%Z) (columns := @nil string) (hive := false) (url := false)
      (t := hx_t3) (time := dt) (horizon := hx_t3) (dropped := fun _ : string * string => False) (l := lw_6) (sch := [("ts", tt)]) (c := @nil (string * list file_group)) as [A B].
  - intros m. reflexivity.
  - apply L_Timeline.isort_sorts.
  - constructor.
  - exact ix_built.
  - exact sx_located.
  - exact gx_merging.
  - exact ix_fields.
  - vm_compute. reflexivity.
  - vm_compute. reflexivity.
  - vm_compute. reflexivity.
  - vm_compute. reflexivity.
  - vm_compute. reflexivity.
  - vm_compute. reflexivity.
  - vm_compute. reflexivity.
  - reflexivity.
  - intros ? ? ? ?. reflexivity.
  - apply sw_word. now left.
  - discriminate.
  - apply hx_stamp; cbn; tauto.
  - exact TM.
  - apply sle_refl.
  - exact lw_lived6.
  - exact lw_objects_are.
  - exact lw_marked.
  - intros g. apply lw_clean_at.
  - intros g [].
  - apply (replacements_same _ _ _ _ _ _ _ sx_located ix_removed). apply gx_replacements.
  - exact ix_schema.
  - intros g g' x x' r r' [[y [Iy _]] _] [[z [Iz _]] _] _ _ _. rewrite lw_hist in Iy, Iz.
    destruct (String.eqb_spec (fst g) ""), (String.eqb_spec (snd g) "f"), (String.eqb_spec (fst g') ""), (String.eqb_spec (snd g') "f"); cbn in Iy, Iz; try contradiction. destruct g, g'. cbn in *. congruence.
  - apply va_new.
  - split; [exact A|]. intros c' r R. destruct (B c' r R) as [bs [E [_ T]]]. exists bs. split; [exact E|]. rewrite EP in T. exact T.
Qed.
