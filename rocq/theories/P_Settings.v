(** C78: options mean what their texts say. *)
From Verif Require Import Base Str M_Time M_Instant M_FileGroup M_Builder M_Listing M_Config M_Reader M_Table M_Storage M_Objects M_Open S_Config S_Settings S_Objects
  L_Config L_Settings E_Scan E_Open E_Settings.
Local Open Scope string_scope.

(** The values that a table and its readers work with are those of the texts of its options, and the defaults where
    a text is missing or stands for no value: for every set of options, checked or not. *)
Theorem C78_settings_partial : forall m,
  (exists l, partition_fields m = Ok l /\ columns (oget "hoodie.table.partition.fields" m) l)
  /\ (exists z, timeline_timezone m = Ok z
       /\ (word "local" (oget "hoodie.table.timeline.timezone" m) /\ z = "local" \/ ~ word "local" (oget "hoodie.table.timeline.timezone" m) /\ z = "utc"))
  /\ base_format m = Ok "parquet"
  /\ populates_meta m = Ok (switch true (oget "hoodie.populate.meta.fields" m))
  /\ read_optimized m = Ok (switch false (oget "hoodie.read.use.read_optimized.mode" m))
  /\ (exists n, listing_parallelism m = Ok n /\ count 10 (oget "hoodie.read.listing.parallelism" m) n)
  /\ (exists n, input_partitions m = Ok n /\ count 0 (oget "hoodie.read.input.partitions" m) n)
  /\ start_timestamp m = Ok (oget "hoodie.read.file_group.start_timestamp" m)
  /\ end_timestamp m = Ok (oget "hoodie.read.file_group.end_timestamp" m)
  /\ (exists s, merge_strategy m = Ok s /\ (replaces m /\ s = "overwrite_with_latest" \/ ~ replaces m /\ s = "append_only"))
  /\ precombine_field m = match oget "hoodie.table.precombine.field" m with Some c => Ok c | None => Err EConfigNotFound end.
Proof.
  intros m. split; [apply fields_value|]. split; [apply timezone_value|]. split; [apply format_value|]. split; [apply meta_value|]. split; [apply optimized_value|].
  split; [apply parallelism_value|]. split; [apply partitions_value|]. split; [apply window_value|]. split; [apply window_value|]. split; [apply strategy_value|apply precombine_value].
Qed.
Print Assumptions C78_settings_partial.
(** The columns and numbers are determined by the texts. *)
Theorem C78_determined : forall o d, (forall l l', columns o l -> columns o l' -> l = l') /\ (forall n n', count d o n -> count d o n' -> n = n').
Proof.
  intros o d. split.
  - intros l l' H H'. destruct o as [v|]; cbn [columns] in *; [|congruence]. now rewrite (names_fun _ _ H), (names_fun _ _ H').
  - intros n n' H H'. destruct o as [v|]; cbn [count] in *; [|congruence].
    destruct H as [H|[N ->]], H' as [H'|[N' ->]]; [|now elim (N' n)|now elim (N n')|reflexivity].
    apply parse_usize_text in H, H'. congruence.
Qed.
Print Assumptions C78_determined.
Example C78_case :
  let m := [("hoodie.table.partition.fields", "year,month"); ("hoodie.table.timeline.timezone", "Local"); ("hoodie.read.listing.parallelism", "+07");
            ("hoodie.table.precombine.field", "ts"); ("hoodie.read.use.read_optimized.mode", "TRUE"); ("hoodie.read.input.partitions", "-1")] in
  partition_fields m = Ok ["year"; "month"] /\ timeline_timezone m = Ok "local" /\ listing_parallelism m = Ok 7%Z /\ merge_strategy m = Ok "overwrite_with_latest"
  /\ read_optimized m = Ok false /\ input_partitions m = Ok 0%Z /\ names "year,month" ["year"; "month"] /\ replaces m.
Proof.
  cbv zeta. repeat (split; [reflexivity|]). split; [apply (nm_more "year" "month"); [reflexivity|now constructor]|].
  right. split; [intros [v [E _]]; discriminate E|]. split; [reflexivity|eexists; reflexivity].
Qed.

(** The two flags of the partition paths are those that are written; without a flag, or with another text, there is no default and asking for it panics. *)
Theorem C78_flags : forall tb,
  let flag key (r : outcome bool) :=
    (forall b, r = Ok b <-> oget key (t_configs tb) = Some (if b then "true" else "false"))
    /\ (oget key (t_configs tb) <> Some "true" -> oget key (t_configs tb) <> Some "false" -> r = Panic) in
  flag "hoodie.datasource.write.hive_style_partitioning" (hive_flag tb) /\ flag "hoodie.datasource.write.partitionpath.urlencode" (url_flag tb).
Proof.
  assert (A : forall o, let r := match o with Some v => if String.eqb v "true" then Ok true else if String.eqb v "false" then Ok false else Panic | None => Panic end in
    (forall b, r = Ok b <-> o = Some (if b then "true" else "false")) /\ (o <> Some "true" -> o <> Some "false" -> r = Panic)).
  { intros [v|]; cbv zeta; [|split; [intros b; split; discriminate|reflexivity]]. destruct (String.eqb_spec v "true") as [ -> |N]; [split; [|congruence]; intros []; split; congruence|].
    destruct (String.eqb_spec v "false") as [ -> |N']; [split; [|congruence]; intros []; split; congruence|]. split; [|reflexivity]. intros []; split; congruence. }
  intros tb. cbv zeta. split; [rewrite (hive_text tb)|rewrite (url_text tb)]; apply A.
Qed.
Print Assumptions C78_flags.
Example C78_flags_case : let tb := {| t_configs := [("hoodie.datasource.write.partitionpath.urlencode", "TRUE")]; t_storage := []; t_commits := [] |} in
  hive_flag (px_table []) = Ok true /\ url_flag (px_table []) = Ok false /\ url_flag tb = Panic.
Proof. vm_compute. repeat split. Qed.

(** The name and the type of a table that was checked. *)
Theorem C78_identity : forall m, oget "hoodie.internal.skip.config.validation" m <> Some "true" -> validate_configs m = Ok tt ->
  exists n t, oget "hoodie.table.name" m = Some n /\ oget "hoodie.table.type" m = Some t /\ table_name m = Ok n
  /\ (merge_on_read t /\ table_type m = Ok "MERGE_ON_READ" /\ is_mor m = Ok true \/ copy_on_write t /\ table_type m = Ok "COPY_ON_WRITE" /\ is_mor m = Ok false).
Proof.
  intros m S V. apply validate_spec in V as [F [R _]]; [|exact S].
  destruct (oget "hoodie.table.name" m) as [n|] eqn:N; [|elim (R "hoodie.table.name"); [cbn; tauto|exact N]].
  destruct (oget "hoodie.table.type" m) as [t|] eqn:T; [|elim (R "hoodie.table.type"); [cbn; tauto|exact T]].
  exists n, t. split; [reflexivity|]. split; [reflexivity|]. split; [now apply named_value|].
  assert (C : conforms (OneOf ["copy_on_write"; "copy-on-write"; "cow"; "merge_on_read"; "merge-on-read"; "mor"]) t) by (apply (F "hoodie.table.type"); [cbn; tauto|exact T]).
  cbn [conforms] in C. destruct (mor_value m t T) as [M W]. unfold merge_on_read, copy_on_write in *. cbn [In] in *.
  destruct C as [C|[C|[C|[C|[C|[C|[]]]]]]]; rewrite <- C in *; [right|right|right|left|left|left]; (split; [tauto|]); first [apply W; tauto|apply M; tauto].
Qed.
Print Assumptions C78_identity.
Example C78_identity_case : validate_configs (t_configs (px_table [])) = Ok tt /\ is_mor (t_configs (px_table [])) = Ok true /\ table_name (t_configs (px_table [])) = Ok "t".
Proof. repeat split; vm_compute; reflexivity. Qed.

(** A table counts as partitioned if partition columns are given, by any text, and its key generator is not the one
    for tables without partitions. *)
Theorem C78_partitioned : forall m, exists b, is_table_partitioned m = Ok b
  /\ (b = true <-> oget "hoodie.table.partition.fields" m <> None /\ oget "hoodie.table.keygenerator.class" m <> Some "org.apache.hudi.keygen.NonpartitionedKeyGenerator").
Proof. exact partitioned_value. Qed.
Print Assumptions C78_partitioned.
Example C78_partitioned_case : is_table_partitioned [("hoodie.table.partition.fields", "city")] = Ok true /\ is_table_partitioned [("hoodie.table.name", "t")] = Ok false.
Proof. split; reflexivity. Qed.
(** Refuted: that a table whose properties give an empty list of partition columns is one without partitions.  The
    empty text counts as one column without a name; the data files in the root of such a table are not found, without an
    error.  Without this line they are. *)
Theorem C78_no_columns_refuted : exists objs tb o c', proper_objects objs /\ bx_build objs = Ok (tb, sx_base, objs)
  /\ oget "hoodie.table.partition.fields" (t_configs tb) = Some "" /\ oget "hoodie.table.keygenerator.class" (t_configs tb) = None
  /\ file_in objs ["data"; "t"] [] "f1_0-1-2_20240101000000000.parquet" o
  /\ get_file_slices_as_of unit string sx_cast sx_cmp sx_local (px_store objs) tb sx_t [] [] c' (Ok []).
Proof.
  destruct px_hidden as [c' H]. exists (px_objs px_empty), (px_table px_empty). eexists. exists c'. split; [apply proper_by; vm_compute; reflexivity|].
  split; [apply px_built|]. split; [vm_compute; reflexivity|]. split; [vm_compute; reflexivity|]. split; [|exact H].
  split; [right; right; left; reflexivity|]. split; [repeat split; discriminate|reflexivity].
Qed.
Print Assumptions C78_no_columns_refuted.
Example C78_no_columns_case : exists c' r, px_asks [] c' r /\ bx_files r = Ok [("f1_0-1-2_20240101000000000.parquet", 8, 2)]%Z.
Proof. exact px_shown. Qed.
