(** C91: no stored bytes make a query panic, but for what this file names. *)
From Verif Require Import Base Str M_Utf8 M_Time M_Instant M_Timeline M_FileGroup M_Builder M_Listing M_Expr M_Log M_Config M_Reader M_Table M_Storage M_Avro M_Values M_Datum M_Json M_Objects M_Open
  S_Time S_Timeline S_FileGroup S_Builder S_Listing S_Expr S_Log S_Reader S_Config S_Table S_Avro S_Storage S_Objects S_Open S_History S_Values S_Datum S_Json S_Whole S_Bases S_Robust
  L_Base L_Str L_Log L_Reader L_Robust L_RobustAvro E_Avro E_Scan E_Open E_History E_Values E_Datum E_Json E_Whole E_Crash P_Whole P_WholeChanges P_Follow P_Bases P_Crash.
Local Open Scope string_scope.

(** *** Log files *)
(** Whatever bytes a log file has, reading it returns blocks or an error, if the bytes are calm: the instant times in its
    headers have a time part and the Arrow reader does not panic on the schemas in its headers. *)
Theorem C91_log_file_partial : forall avro_schema avro_value parse_schema datum check_schema to_batch parquet local_to_utc range tz bytes,
  (forall sch s v rest, datum sch s = Some (v, rest) -> exists a, s = a ++ rest) ->
  (forall t, r_start range = Some t \/ r_end range = Some t -> has_time_part t) ->
  calm avro_schema avro_value parse_schema datum check_schema to_batch bytes ->
  read_all_blocks avro_schema avro_value record_batch parse_schema datum check_schema to_batch parquet local_to_utc range tz bytes <> Panic.
Proof. intros A B ps da cs tob pq L range tz s T R C. apply read_all_np; [exact T|split; intros t E; apply R; auto|exact C]. Qed.
Print Assumptions C91_log_file_partial.
(** Bytes are calm if all bytes of a longer file are: a log file that was cut anywhere makes no reader panic. *)
Theorem C91_torn_log_file : forall avro_schema avro_value parse_schema datum check_schema to_batch bytes n,
  calm avro_schema avro_value parse_schema datum check_schema to_batch bytes -> calm avro_schema avro_value parse_schema datum check_schema to_batch (take n bytes).
Proof.
  intros A B ps da cs tob s n C h [X [Y [a [b [c [La [Lb [Lc [x [y E]]]]]]]]]]. apply C. split; [exact X|]. split; [exact Y|]. exists a, b, c. repeat split; trivial. exists x, (y ++ drop n s). rewrite <- (take_drop n s) at 1. rewrite E. now rewrite !app_assoc_s.
Qed.
Print Assumptions C91_torn_log_file.
(** The Arrow reader does not panic on a schema of a record with scalar columns, whatever bytes are decoded with it. *)
Theorem C91_scalar_schema : forall code rank float_cast fs, valid (ScRecord fs) -> (forall n al s, In (n, al, s) fs -> scalar_column s) ->
  calm_schema avro value decode check_schema (to_batch code rank float_cast) (ScRecord fs).
Proof. exact scalar_calm. Qed.
Print Assumptions C91_scalar_schema.

(** *** Metadata and names: no condition at all *)
Theorem C91_metadata : forall number_of collect bytes, parse_metadata number_of collect bytes <> Panic
  /\ forall md, build_file_groups md <> Panic /\ build_replaced_file_groups md <> Panic.
Proof. intros nu co d. split; [apply metadata_np|]. intros md. split; [apply build_np|apply replaced_np]. Qed.
Print Assumptions C91_metadata.
Theorem C91_names : forall name meta, base_file_of name meta <> Panic /\ log_file_of name meta <> Panic.
Proof. intros name meta. split; [apply base_file_np|apply log_file_np]. Qed.
Print Assumptions C91_names.

(** *** Opening a table *)
(** If opening panics, then the options of the table do not pass their checks, or a file in ".hoodie" has the name of a
    completed instant but for its time, which has no time part. *)
Theorem C91_open_partial : forall iter env parse stores global local_to_utc sort_unstable b, (forall u s, stores u s <> Panic) ->
  build iter env parse stores global local_to_utc sort_unstable b = Panic ->
  exists b', M_Config.resolve iter env (fun s h => let* _ := storage_new parse stores s h in Ok tt) (read_properties parse stores) (read_global parse stores global) b = Ok b'
    /\ ((exists e, validate_configs (b_hudi b') = Err e)
        \/ exists u objs files f, stores u (b_storage b') = Ok objs /\ list_files objs u ".hoodie" = Ok files /\ In f files /\ bad_instant (fm_name f)).
Proof. exact open_panics. Qed.
Print Assumptions C91_open_partial.

(** *** Queries *)
(** A table is opened, on any objects.  Of what decodes the stored bytes only the code of this crate is modelled: the
    decoders it calls answer with a value or an error.  Then the list of file slices is a list or an error, if the table
    says how the paths of its partitions are written and the time that is asked for has a time part. *)
Theorem C91_slices_partial : forall iter env parse stores global local_to_utc sort_unstable b tb u objs
    number_of collect dtype' value' cast cmp parse_pschema parse_rows footer open,
  S_Timeline.sorts sort_unstable -> build iter env parse stores global local_to_utc sort_unstable b = Ok (tb, u, objs) ->
  (forall d, parse_pschema d <> Panic) -> (forall d, parse_rows d <> Panic) -> (forall d, footer d <> Panic) -> (forall h s, open h s <> Panic) ->
  let st := object_store objs u dtype' (parse_metadata number_of collect) parse_pschema parse_rows footer open in
  flags_given tb ->
  (forall t filters c c', has_time_part t -> ~ get_file_slices_as_of dtype' value' cast cmp local_to_utc st tb t filters c c' Panic)
  /\ (forall filters c c', ~ get_file_slices dtype' value' cast cmp local_to_utc st tb filters c c' Panic)
  /\ (forall order start stop, (forall t, start = Some t \/ stop = Some t -> has_time_part t) -> get_file_slices_between dtype' local_to_utc st tb order start stop <> Panic).
Proof.
  intros iter env parse stores global L f b tb u objs nu co D V ca cm ps pr fo op SU BU Hs Hr Hf Ho st FG. destruct (built _ _ _ _ _ _ _ _ _ _ _ SU BU) as [[uri U] La].
  assert (ST : calm_store D st) by (apply (objects_calm parse uri); trivial; apply metadata_np). destruct (flags_np tb FG) as [Hh Hu].
  assert (A : forall t filters c c', has_time_part t -> ~ get_file_slices_as_of D V ca cm L st tb t filters c c' Panic) by (intros; now apply slices_np).
  split; [exact A|]. split.
  - intros filters c c' H. inversion H as [|c0 c1 t r E S]; subst. revert S. apply A. now apply La.
  - intros order start stop T. unfold get_file_slices_between. destruct (stop_or_latest tb stop) as [e|] eqn:E; [|discriminate].
    apply between_slices_np; [exact ST| |].
    + destruct start as [s|]; [now apply T; left|reflexivity].
    + unfold stop_or_latest in E. destruct stop as [e'|]; [injection E as ->; now apply T; right|now apply La].
Qed.
Print Assumptions C91_slices_partial.

(** Snapshots: the bytes of the objects are calm, and no batch of a log file has fewer columns than a base file (C90). *)
Theorem C91_snapshot_partial : forall iter env parse stores global local_to_utc sort_unstable b tb u objs
    number_of collect dtype' value' cast cmp parse_pschema parse_rows footer open avro_schema avro_value parse_schema datum check_schema to_batch parquet,
  S_Timeline.sorts sort_unstable -> build iter env parse stores global local_to_utc sort_unstable b = Ok (tb, u, objs) ->
  (forall d, parse_pschema d <> Panic) -> (forall d, parse_rows d <> Panic) -> (forall d, footer d <> Panic) -> (forall h s, open h s <> Panic) ->
  (forall sch s v rest, datum sch s = Some (v, rest) -> exists a, s = a ++ rest) ->
  let st := object_store objs u dtype' (parse_metadata number_of collect) parse_pschema parse_rows footer open in
  flags_given tb -> plain_table tb ->
  (forall o, In o objs -> calm avro_schema avro_value parse_schema datum check_schema to_batch (o_data o)) ->
  columns_fit dtype' st (t_configs tb) (logged_batch dtype' st avro_schema avro_value parse_schema to_batch parquet) ->
  (forall t filters c c', has_time_part t ->
     ~ read_snapshot_as_of dtype' value' cast cmp avro_schema avro_value parse_schema datum check_schema to_batch parquet local_to_utc st tb t filters c c' Panic)
  /\ (forall filters c c', ~ read_snapshot dtype' value' cast cmp avro_schema avro_value parse_schema datum check_schema to_batch parquet local_to_utc st tb filters c c' Panic).
Proof.
  intros iter env parse stores global L f b tb u objs nu co D V ca cm ps pr fo op A B sc da ch tob pq SU BU Hs Hr Hf Ho DT st FG [P1 [P2 P3]] C F. destruct (built _ _ _ _ _ _ _ _ _ _ _ SU BU) as [[uri U] La].
  assert (ST : calm_store D st) by (apply (objects_calm parse uri); trivial; apply metadata_np). destruct (flags_np tb FG) as [Hh Hu].
  assert (X : forall t filters c c', has_time_part t -> ~ read_snapshot_as_of D V ca cm A B sc da ch tob pq L st tb t filters c c' Panic).
  { intros t filters c c' T H. inversion H as [|c0 c1 G|c0 c1 ss r G R]; subst; [revert G; now apply slices_np|]. revert R. apply read_slices_np; trivial.
    - exact (objects_bytes _ _ _ _ _ _ _ _ _ C).
    - cbn. rewrite P3. discriminate.
    - cbn. intros t' [= <-]. exact T. }
  split; [exact X|]. intros filters c c' H. inversion H as [|c0 c1 t r E S]; subst. revert S. apply X. now apply La.
Qed.
Print Assumptions C91_snapshot_partial.

(** Incremental queries, likewise. *)
Theorem C91_incremental_partial : forall iter env parse stores global local_to_utc sort_unstable b tb u objs
    number_of collect dtype' parse_pschema parse_rows footer open avro_schema avro_value parse_schema datum check_schema to_batch parquet,
  S_Timeline.sorts sort_unstable -> build iter env parse stores global local_to_utc sort_unstable b = Ok (tb, u, objs) ->
  (forall d, parse_pschema d <> Panic) -> (forall d, parse_rows d <> Panic) -> (forall d, footer d <> Panic) -> (forall h s, open h s <> Panic) ->
  (forall sch s v rest, datum sch s = Some (v, rest) -> exists a, s = a ++ rest) ->
  let st := object_store objs u dtype' (parse_metadata number_of collect) parse_pschema parse_rows footer open in
  plain_table tb ->
  (forall o, In o objs -> calm avro_schema avro_value parse_schema datum check_schema to_batch (o_data o)) ->
  columns_fit dtype' st (t_configs tb) (logged_batch dtype' st avro_schema avro_value parse_schema to_batch parquet) ->
  forall start stop, has_time_part start -> (forall t, stop = Some t -> has_time_part t) ->
  ~ read_incremental dtype' avro_schema avro_value parse_schema datum check_schema to_batch parquet local_to_utc st tb start stop Panic.
Proof.
  intros iter env parse stores global L f b tb u objs nu co D ps pr fo op A B sc da ch tob pq SU BU Hs Hr Hf Ho DT st [P1 [P2 P3]] C F start stop Ts Te H. destruct (built _ _ _ _ _ _ _ _ _ _ _ SU BU) as [[uri U] La].
  assert (ST : calm_store D st) by (apply (objects_calm parse uri); trivial; apply metadata_np).
  assert (T : forall e, stop_or_latest tb stop = Some e -> has_time_part e) by (intros e E; unfold stop_or_latest in E; destruct stop; [now apply Te|now apply La]).
  inversion H as [| |order e _ E S|order e ss r _ E S R]; subst; [revert S; apply between_slices_np; auto|]. revert R. apply read_slices_np; trivial.
  - exact (objects_bytes _ _ _ _ _ _ _ _ _ C).
  - cbn. intros t' [= <-]. exact Ts.
  - cbn. intros t' [= <-]. now apply T.
Qed.
Print Assumptions C91_incremental_partial.

(** *** Examples *)
(** Bytes are calm if no header that is found by reading on from any "#HUDI#" has a wrong entry. *)
Fixpoint greedy (n : nat) (s : string) : metadata :=
  match n with O => [] | S n => match read_entry s with Ok (k, v, r) => (k, v) :: greedy n r | _ => [] end end.
Fixpoint headers_ok (ok : meta_key * string -> bool) (s : string) : bool :=
  (if starts_with "#HUDI#" s then match read_u32 (drop 22 s) with Ok (n, r) => forallb ok (greedy (N.to_nat (N.min n (len r))) r) | _ => true end else true) && match s with String _ r => headers_ok ok r | EmptyString => true end.
Lemma greedy_all : forall l n r, wf_entries l -> (List.length l <= n)%nat -> forall x, In x l -> In x (greedy n (glue (map put_entry l) ++ r)).
Proof.
  induction l as [|[k v] l IH]; intros n r W Le x I; [destruct I|]. destruct n as [|n]; [cbn in Le; lia|]. cbn [map]. unfold glue. cbn [fold_right]. fold (glue (map put_entry l)). rewrite app_assoc_s. cbn [greedy].
  destruct (W k v (or_introl eq_refl)) as [Uv Lv]. rewrite entry_reads by assumption. destruct I as [ <- |I]; [now left|]. right. apply IH; [intros k' v' J; apply (W k'); now right|cbn in Le; lia|exact I].
Qed.
Lemma glue_long : forall l, (List.length l <= String.length (glue (map put_entry l)))%nat.
Proof.
  induction l as [|[k v] l IH]; cbn [List.length map]; [lia|]. unfold glue. cbn [fold_right]. fold (glue (map put_entry l)). rewrite length_app_s. assert (4 <= String.length (put_entry (k, v)))%nat by (unfold put_entry; rewrite !length_app_s, !length_big; lia). lia.
Qed.
Lemma headers_all : forall ok s a l size version type y, headers_ok ok s = true -> String.length size = 8%nat -> String.length version = 4%nat -> String.length type = 4%nat -> (N.of_nat (List.length l) < 2 ^ 32)%N -> wf_entries l ->
  s = a ++ ("#HUDI#" ++ size ++ version ++ type ++ put_metadata l) ++ y -> forall x, In x l -> ok x = true.
Proof.
  intros ok s a. revert s. induction a as [|c a IH]; intros s l size version type y H Lz Lv Lt Sm W E x I.
  - cbn [append] in E. destruct s as [|c s]; [discriminate|]. cbn [headers_ok] in H. apply andb_prop in H as [H _]. assert (Q : starts_with "#HUDI#" (String c s) = true) by (rewrite E; destruct (size ++ version ++ type ++ put_metadata l); reflexivity). rewrite Q in H.
    assert (Dr : drop 22 (String c s) = big_endian 4 (N.of_nat (List.length l)) ++ (glue (map put_entry l) ++ y)).
    { rewrite E. unfold put_metadata. transitivity (drop (String.length ("#HUDI#" ++ size ++ version ++ type)) (("#HUDI#" ++ size ++ version ++ type) ++ (big_endian 4 (N.of_nat (List.length l)) ++ (glue (map put_entry l) ++ y)))).
      - rewrite !length_app_s, Lz, Lv, Lt. now rewrite !app_assoc_s.
      - apply drop_app. }
    rewrite Dr, read_u32_app in H by exact Sm. rewrite forallb_forall in H. apply H. apply greedy_all; [exact W| |exact I]. assert (X := glue_long l). unfold len. rewrite length_app_s. lia.
  - destruct s as [|c' s]; [discriminate|]. injection E as -> E. cbn [headers_ok] in H. apply andb_prop in H as [_ H]. now apply (IH s l size version type y).
Qed.
Lemma calm_by : forall avro_schema avro_value parse_schema datum check_schema to_batch bytes ok,
  (forall ts, ok (InstantTime, ts) = true -> has_time_part ts) ->
  (forall text sch, parse_schema text = Some sch -> calm_schema avro_schema avro_value datum check_schema to_batch sch) ->
  headers_ok ok bytes = true -> calm avro_schema avro_value parse_schema datum check_schema to_batch bytes.
Proof.
  intros A B ps da cs tob s ok T Sc H l [Sm [W [a [b [c [La [Lb [Lc [x [y E]]]]]]]]]]. split.
  - intros ts I. apply T. exact (headers_all ok s x l a b c y H La Lb Lc Sm W E _ I).
  - intros text sch _. apply Sc.
Qed.
Definition rx_ok (e : meta_key * string) : bool := match fst e with InstantTime => is_char_boundary (snd e) 14 | _ => true end.
Fact rx_calm : forall bytes, headers_ok rx_ok bytes = true -> calm avro value vx_parse decode check_schema (to_batch vx_code vx_rank vx_cast) bytes.
Proof.
  intros s H. apply calm_by with rx_ok; [intros ts E; exact E| |exact H]. intros text sch E. unfold vx_parse in E. destruct (String.eqb text "{record}"); [|discriminate]. injection E as <-. apply C91_scalar_schema.
  - now apply valid_b_spec.
  - intros n al s' I. repeat (destruct I as [I|I]; [injection I as <- <- <-; first [now apply mb_right|now apply mb_left|now apply mb_plain]|]). destruct I.
Qed.
Fact rx_columns : forall vs b, to_batch vx_code vx_rank vx_cast (ScRecord vx_fields) vs = Ok b -> List.length (rb_fields b) = 4%nat.
Proof.
  intros vs b H. unfold to_batch in H. apply bind_ok in H as [r [R H]]. injection H as <-. unfold read_batch in R. apply bind_ok in R as [fields [E R]]. apply bind_ok in R as [lk [_ R]]. apply bind_ok in R as [rows [_ R]]. apply bind_ok in R as [cols [_ R]].
  vm_compute in E. injection E as <-. unfold new_batch in R. destruct cols; [discriminate|]. destruct (_ && _); [|discriminate]. injection R as <-. reflexivity.
Qed.
Fact rx_fits : forall log, columns_fit unit (kx_store (kx_after log)) (t_configs (kx_table (kx_after log))) (logged_batch unit (kx_store (kx_after log)) avro value vx_parse (to_batch vx_code vx_rank vx_cast) (fun _ => None)).
Proof.
  intros log path base H. assert (E : rb_fields base = hx_sch).
  { cbn in H. apply bind_ok in H as [d [_ H]]. unfold wx_rows in H. repeat (destruct (String.eqb d _); [injection H as <-; reflexivity|]). discriminate. }
  rewrite E. split.
  - intros b [p [s [_ [[h [text [sch [vs [_ [_ [P T]]]]]]]|[s' [bs [P _]]]]]]]; [|discriminate]. unfold vx_parse in P. destruct (String.eqb text "{record}"); [|discriminate]. injection P as <-. now rewrite (rx_columns _ _ T).
  - intros f I _. repeat (destruct I as [ <- |I]; [discriminate|]). destruct I.
Qed.
(** The table of C89, with the log file of the writer that did not complete cut after sixty bytes. *)
Example C91_case : kx_build (kx_after kx_cut) = Ok (kx_table (kx_after kx_cut), sx_base, kx_after kx_cut)
  /\ (forall d, wx_rows d <> Panic) /\ (forall sch s v rest, decode sch s = Some (v, rest) -> exists a, s = a ++ rest)
  /\ flags_given (kx_table (kx_after kx_cut)) /\ plain_table (kx_table (kx_after kx_cut))
  /\ (forall o, In o (kx_after kx_cut) -> calm avro value vx_parse decode check_schema (to_batch vx_code vx_rank vx_cast) (o_data o))
  /\ columns_fit unit (kx_store (kx_after kx_cut)) (t_configs (kx_table (kx_after kx_cut))) (logged_batch unit (kx_store (kx_after kx_cut)) avro value vx_parse (to_batch vx_code vx_rank vx_cast) (fun _ => None))
  /\ has_time_part hx_t5 /\ exists e, kx_snapshot kx_cut (Err e).
Proof.
  split; [vm_compute; reflexivity|]. split. { intros d. unfold wx_rows. repeat (destruct (String.eqb d _); [discriminate|]). discriminate. }
  split; [exact decode_tail|]. split. { intros key [ <- |[ <- |[]]]; right; vm_compute; reflexivity. }
  split; [split; [vm_compute; constructor|split; [vm_compute; intros ? ? ? []|vm_compute; reflexivity]]|].
  split. { assert (X : forallb (fun o => headers_ok rx_ok (o_data o)) (kx_after kx_cut) = true) by (vm_compute; reflexivity). rewrite forallb_forall in X. intros o I. apply rx_calm. now apply X. }
  split; [apply rx_fits|]. split; [reflexivity|]. exact (proj2 (proj2 (proj2 (proj2 (proj2 C89_torn_log_refuted))))).
Qed.

(** *** The conditions are needed *)
(** Refuted: a log file, well formed, with an instant time of four digits makes the latest snapshot panic. *)
Definition rx_short : string := put_log [vx_data "2024" [vx_bytes hx_t6 "5" "b" 6]].
Theorem C91_short_instant_refuted : kx_build (kx_after rx_short) = Ok (kx_table (kx_after rx_short), sx_base, kx_after rx_short)
  /\ flags_given (kx_table (kx_after rx_short)) /\ plain_table (kx_table (kx_after rx_short))
  /\ columns_fit unit (kx_store (kx_after rx_short)) (t_configs (kx_table (kx_after rx_short))) (logged_batch unit (kx_store (kx_after rx_short)) avro value vx_parse (to_batch vx_code vx_rank vx_cast) (fun _ => None))
  /\ kx_snapshot rx_short Panic.
Proof.
  split; [vm_compute; reflexivity|]. split. { intros key [ <- |[ <- |[]]]; right; vm_compute; reflexivity. }
  split; [split; [vm_compute; constructor|split; [vm_compute; intros ? ? ? []|vm_compute; reflexivity]]|].
  split; [apply rx_fits|]. kx_some. kx_slices. apply jo_panic. cbn [In]. right. left. reflexivity.
Qed.
Print Assumptions C91_short_instant_refuted.
(** Refuted: asking any table for its file slices as of a time without a time part panics. *)
Theorem C91_short_time_refuted : forall dtype' value' cast cmp local_to_utc (st : store dtype') tb t c, ~ has_time_part t ->
  get_file_slices_as_of dtype' value' cast cmp local_to_utc st tb t [] c c Panic.
Proof.
  intros D V ca cm L st tb t c T. eapply ga_ok; [reflexivity|]. apply sa_panic. unfold plan. destruct (L_Config.lookups_ok (t_configs tb)) as [_ [[z Z] _]]. rewrite Z. cbn [bind]. unfold get_replaced_file_groups_as_of, completed_replacecommits_in_range, completed_actions_in_range, opt_traverse.
  assert (P : parse_datetime L t z = Panic) by (apply L_Timeline.parse_datetime_panic; unfold has_time_part in T; now destruct (is_char_boundary t 14)). cbn [bind]. rewrite P. reflexivity.
Qed.
Print Assumptions C91_short_time_refuted.
Example C91_short_time_case : ~ has_time_part "2024".
Proof. discriminate. Qed.
