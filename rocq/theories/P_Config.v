(** Properties of configuration: option precedence, properties files, validation and lookups. *)
From Verif Require Import Base Str M_Utf8 M_Config S_Config L_Config.
Local Open Scope string_scope.

(** ** C42 *)
(** The options of an opened table: a value of hoodie.properties wins over a hudi option of the caller (the base
    path is always the one given), which wins over a generic option, which wins over the global file.  Generic
    options reach the hudi options exactly for hoodie.* keys and the storage options for the others; cloud
    variables of the environment only fill absent storage options.  For every iteration order of hash maps. *)
Theorem C42_option_precedence : forall iter env open properties global b b', visits_all iter -> one_per_key (b_options b) ->
  resolve iter env open properties global b = Ok b' ->
  exists storage hudi data props,
    open storage hudi = Ok tt /\ properties storage hudi = Ok data /\ parse_data "=" data = Ok props
    /\ (forall k, oget k (b_hudi b') =
         first_given [oget k props;
                      if String.eqb "hoodie.base.path" k then Some (b_base b) else oget k (b_hudi b);
                      when (starts_with "hoodie." k) (oget k (b_options b));
                      when (starts_with "hoodie." k) (oget k (global_options (global storage hudi)))])
    /\ (forall k, oget k (b_storage b') =
         first_given [oget k (b_storage b); when (negb (starts_with "hoodie." k)) (oget k (b_options b)); env_value env k])
    /\ storage = b_storage b'.
Proof. intros iter env open properties global b b' V. exact (resolve_get iter V env open properties global b b'). Qed.
Print Assumptions C42_option_precedence.
Definition C42_case : builder :=
  {| b_base := "/t"; b_hudi := [("hoodie.a", "hudi"); ("hoodie.b", "hudi")]; b_storage := [("k", "storage")];
     b_options := [("hoodie.a", "opt"); ("hoodie.b", "opt"); ("hoodie.c", "opt"); ("k", "opt"); ("l", "opt"); ("m", "opt")] |}.
Definition LF : string := String "010" "".
Example C42_case_value :
  resolve (fun m => m) [("AWS_REGION", "r"); ("HOME", "h")] (fun _ _ => Ok tt) (fun _ _ => Ok ("hoodie.a=file" ++ LF)) (fun _ _ => Ok ("hoodie.c=glob" ++ LF ++ "hoodie.d glob" ++ LF ++ "x=y")) C42_case
  = Ok {| b_base := "/t";
          b_hudi := [("hoodie.a", "file"); ("hoodie.b", "hudi"); ("hoodie.base.path", "/t"); ("hoodie.c", "opt"); ("hoodie.d", "glob")];
          b_storage := [("k", "storage"); ("l", "opt"); ("m", "opt"); ("aws_region", "r")];
          b_options := b_options C42_case |}
  /\ one_per_key (b_options C42_case).
Proof. split; [reflexivity|]. unfold one_per_key; cbn; repeat apply NoDup_cons; cbn; try (intuition discriminate); apply NoDup_nil. Qed.

(** The result does not depend on the iteration order of hash maps. *)
Theorem C42_order_irrelevant : forall iter1 iter2 env file global b b1 b2, visits_all iter1 -> visits_all iter2 -> one_per_key (b_options b) ->
  resolve iter1 env (fun _ _ => Ok tt) (fun _ _ => file) (fun _ _ => global) b = Ok b1 ->
  resolve iter2 env (fun _ _ => Ok tt) (fun _ _ => file) (fun _ _ => global) b = Ok b2 ->
  forall k, oget k (b_hudi b1) = oget k (b_hudi b2) /\ oget k (b_storage b1) = oget k (b_storage b2).
Proof. exact resolve_order. Qed.
Print Assumptions C42_order_irrelevant.
Example C42_order_case : visits_all (fun m => rev m)
  /\ exists b1 b2, resolve (fun m => m) [] (fun _ _ => Ok tt) (fun _ _ => Ok ("hoodie.x=1" ++ LF ++ "hoodie.y=2")) (fun _ _ => Err EIo) C42_case = Ok b1
    /\ resolve (fun m => rev m) [] (fun _ _ => Ok tt) (fun _ _ => Ok ("hoodie.x=1" ++ LF ++ "hoodie.y=2")) (fun _ _ => Err EIo) C42_case = Ok b2 /\ b1 <> b2.
Proof. split; [intros m; apply Permutation_sym, Permutation_rev|]. do 2 eexists. split; [reflexivity|]. split; [reflexivity|]. vm_compute. discriminate. Qed.

(** ** C43 *)
(** A properties file of clean pairs, comments and blank lines, with blanks around keys and values and either line
    end, is read as exactly its pairs, the last occurrence of a key winning. *)
Theorem C43_properties_parsed : forall text kvs, props_text text kvs ->
  exists m, parse_data "=" text = Ok m /\ one_per_key m /\ forall k, oget k m = last_value kvs k.
Proof. exact parse_text. Qed.
Print Assumptions C43_properties_parsed.
Definition C43_text : string :=
  "# a comment" ++ String "010" ("hoodie.table.name = a b " ++ String "013" (String "010" (String "010" ("k=" ++ String "010" "k= v=w")))).
Example C43_case : props_text C43_text [("hoodie.table.name", "a b"); ("k", ""); ("k", "v=w")].
Proof.
  pose proof spaces_none as N.
  pose proof spaces_one as B.
  unfold C43_text. refine (pt_line "# a comment" None "" _ _ _ eq_refl (or_introl eq_refl) _); [exact (pl_comment "" " a comment" N eq_refl eq_refl)|].
  refine (pt_line "hoodie.table.name = a b " (Some ("hoodie.table.name", "a b")) (String "013" "") _ _ _ eq_refl (or_intror eq_refl) _).
  { refine (pl_pair "" "hoodie.table.name" " " " " "a b" " " N B B B _ _); repeat split; discriminate. }
  refine (pt_line "" None "" _ _ (pl_blank "" N) eq_refl (or_introl eq_refl) _).
  refine (pt_line "k=" (Some ("k", "")) "" _ _ _ eq_refl (or_introl eq_refl) _).
  { refine (pl_pair "" "k" "" "" "" "" N N N N _ _); repeat split; discriminate. }
  refine (pt_last "k= v=w" (Some ("k", "v=w")) _ eq_refl).
  refine (pl_pair "" "k" "" " " "v=w" "" N N B N _ _); repeat split; discriminate.
Qed.
Example C43_case_value : parse_data "=" C43_text = Ok [("hoodie.table.name", "a b"); ("k", "v=w")].
Proof. reflexivity. Qed.
(** In the global file a blank also separates: "hoodie.a = b" gives the value "= b". *)
Theorem C43_global_spaced_equals_refuted : parse_data (String " " (String "009" "=")) "hoodie.a = b" = Ok [("hoodie.a", "= b")]
  /\ props_text "hoodie.a = b" [("hoodie.a", "b")].
Proof. exact global_spaced. Qed.
Print Assumptions C43_global_spaced_equals_refuted.

(** ** C44 *)
(** Refuted: a configuration without the two partitioning flags is accepted, and building the partition pruner, as
    every query does, panics on it. *)
Theorem C44_missing_flag_refuted : exists m, one_per_key m /\ oget skip_validation_key m = None /\ validate_configs m = Ok tt /\ pruner_flags m = Panic.
Proof. exact missing_flag. Qed.
Print Assumptions C44_missing_flag_refuted.
(** Partial: with the two flags present no lookup of an accepted configuration panics; the lookups below except the
    name, type and flags never panic for any options whatsoever, so also for unvalidated overriding read options. *)
Theorem C44_lookups_partial : forall m h u, oget skip_validation_key m <> Some "true" -> validate_configs m = Ok tt ->
  oget "hoodie.datasource.write.hive_style_partitioning" m = Some h ->
  oget "hoodie.datasource.write.partitionpath.urlencode" m = Some u ->
  pruner_flags m = Ok (String.eqb h "true", String.eqb u "true") /\ (exists n, table_name m = Ok n) /\ (exists t, table_type m = Ok t).
Proof. intros m h u S V. exact (supported_lookups m h u (proj1 (validate_spec m S) V)). Qed.
Print Assumptions C44_lookups_partial.
Theorem C44_other_lookups_partial : forall m,
  (exists b, is_table_partitioned m = Ok b) /\ (exists z, timeline_timezone m = Ok z) /\ (exists l, partition_fields m = Ok l)
  /\ (exists f, base_format m = Ok f) /\ (exists n, listing_parallelism m = Ok n) /\ (exists n, input_partitions m = Ok n)
  /\ (exists b, populates_meta m = Ok b) /\ (exists t, start_timestamp m = Ok t) /\ (exists t, end_timestamp m = Ok t)
  /\ (exists b, read_optimized m = Ok b) /\ (exists s, merge_strategy m = Ok s) /\ precombine_field m <> Panic.
Proof. exact lookups_ok. Qed.
Print Assumptions C44_other_lookups_partial.
Definition C44_case : options :=
  [("hoodie.table.name", "trips"); ("hoodie.table.type", "MERGE_ON_READ"); ("hoodie.table.version", "6"); ("hoodie.timeline.layout.version", "1");
   ("hoodie.datasource.write.hive_style_partitioning", "false"); ("hoodie.datasource.write.partitionpath.urlencode", "true");
   ("hoodie.table.precombine.field", "ts")].
Example C44_case_value : validate_configs C44_case = Ok tt /\ pruner_flags C44_case = Ok (false, true) /\ merge_strategy C44_case = Ok "overwrite_with_latest"
  /\ listing_parallelism C44_case = Ok 10%Z /\ table_type C44_case = Ok "MERGE_ON_READ" /\ timeline_timezone C44_case = Ok "utc".
Proof. repeat split. Qed.

(** ** C45 *)
(** Without the skip flag, validation accepts exactly the supported configurations; with it, everything; it never
    panics. *)
Theorem C45_validation_exact : forall m, oget "hoodie.internal.skip.config.validation" m <> Some "true" -> (validate_configs m = Ok tt <-> supported m).
Proof. exact validate_spec. Qed.
Print Assumptions C45_validation_exact.
Theorem C45_skip_flag : forall m, oget "hoodie.internal.skip.config.validation" m = Some "true" -> validate_configs m = Ok tt.
Proof. exact validate_skip. Qed.
Print Assumptions C45_skip_flag.
Theorem C45_never_panics : forall m, validate_configs m <> Panic.
Proof. exact validate_no_panic. Qed.
Print Assumptions C45_never_panics.
(** Numbers: the decimal texts, within the 64-bit ranges. *)
Theorem C45_numbers : forall s n, (parse_isize s = Some n <-> signed_text s n) /\ (parse_usize s = Some n <-> unsigned_text s n).
Proof. intros s n. exact (conj (parse_isize_text s n) (parse_usize_text s n)). Qed.
Print Assumptions C45_numbers.
Example C45_case : supported C44_case.
Proof. apply C45_validation_exact; [discriminate|reflexivity]. Qed.
Example C45_case_rejected :
  ~ supported (oput "hoodie.table.version" "7" C44_case) /\ ~ supported (oput "hoodie.timeline.layout.version" "0" C44_case)
  /\ ~ supported (oput "hoodie.table.checksum" "x" C44_case) /\ ~ supported (oput "hoodie.populate.meta.fields" "False" C44_case)
  /\ ~ supported (oput "hoodie.table.record.merge.strategy" "overwrite_with_latest" (oput "hoodie.populate.meta.fields" "false" C44_case)).
Proof. repeat (split; [intros H; apply C45_validation_exact in H; [discriminate H|discriminate]|]). intros H; apply C45_validation_exact in H; [discriminate H|discriminate]. Qed.

(** ** C46 *)
(** A reader created with overriding options sees, for each key, the overriding value if it is a hudi key that was
    given, else the table's; its storage options are overridden in the same way. *)
Theorem C46_reader_options : forall iter table storage opts k, visits_all iter -> one_per_key storage ->
  oget k (fst (table_reader_options iter table storage opts)) =
    first_given [when (starts_with "hoodie." k) (last_value opts k); when (starts_with "hoodie." k) (oget k storage); oget k table]
  /\ oget k (snd (table_reader_options iter table storage opts)) =
    first_given [when (negb (starts_with "hoodie." k)) (last_value opts k); when (negb (starts_with "hoodie." k)) (oget k storage)].
Proof. intros iter table storage opts k V. exact (reader_get iter V table storage opts k). Qed.
Print Assumptions C46_reader_options.
Example C46_case :
  table_reader_options (fun m => m) [("hoodie.a", "t"); ("hoodie.b", "t")] [("k", "s"); ("l", "s")] [("hoodie.b", "o"); ("l", "o")]
  = ([("hoodie.a", "t"); ("hoodie.b", "o")], [("k", "s"); ("l", "o")]).
Proof. reflexivity. Qed.

(** ** C34 *)
(** The strategy derived when none is configured is accepted; an accepted configuration whose strategy, configured
    or derived, is overwrite-with-latest has meta fields and an ordering field. *)
Theorem C34_derived_strategy_accepted : forall m, oget "hoodie.table.record.merge.strategy" m = None -> validate_merge m = Ok tt.
Proof. exact derived_accepted. Qed.
Print Assumptions C34_derived_strategy_accepted.
Theorem C34_accepted_strategy_runs : forall m, validate_merge m = Ok tt -> merge_strategy m = Ok "overwrite_with_latest" ->
  populates_meta m = Ok true /\ exists f, precombine_field m = Ok f /\ oget "hoodie.table.precombine.field" m = Some f.
Proof. exact accepted_can_run. Qed.
Print Assumptions C34_accepted_strategy_runs.
Example C34_case : validate_merge C44_case = Ok tt /\ merge_strategy C44_case = Ok "overwrite_with_latest"
  /\ validate_merge (oput "hoodie.table.record.merge.strategy" "Overwrite_With_Latest" []) = Err EConfigInvalid.
Proof. repeat split. Qed.
