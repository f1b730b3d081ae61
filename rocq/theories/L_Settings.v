(** Lemmas about the meaning of options. *)
From Verif Require Import Base Str M_Config M_Table S_Config S_Settings L_Base L_Str L_Config.
Local Open Scope string_scope.

Lemma split_cons : forall c s, exists p l, split c s = p :: l /\ has_char c p = false.
Proof.
  intros c s. induction s as [|x s [p [l [E H]]]]; cbn [split]; [eauto|]. destruct (Ascii.eqb x c) eqn:X; [eauto|].
  rewrite E. do 2 eexists. split; [reflexivity|]. cbn [has_char]. now rewrite X, H.
Qed.
Lemma names_split : forall s, names s (split "," s).
Proof.
  induction s as [|x s IH]; [now constructor|]. cbn [split]. destruct (Ascii.eqb_spec x ",") as [ -> |N].
  - apply (nm_more "" s); [reflexivity|exact IH].
  - destruct IH as [y H|y r l H R].
    + constructor. cbn [has_char]. destruct (Ascii.eqb_spec x ","); [contradiction|exact H].
    + change (String x (y ++ "," ++ r)) with (String x y ++ "," ++ r). constructor; [|exact R]. cbn [has_char]. destruct (Ascii.eqb_spec x ","); [contradiction|exact H].
Qed.
Lemma split_plain : forall c x, has_char c x = false -> split c x = [x].
Proof.
  intros c x. induction x as [|a x IH]; [reflexivity|]. cbn [has_char split]. destruct (Ascii.eqb a c); cbn [orb]; [discriminate|]. intros H. now rewrite IH.
Qed.
Lemma split_piece : forall c x r, has_char c x = false -> split c (x ++ String c r) = x :: split c r.
Proof.
  intros c x r. induction x as [|a x IH]; cbn [has_char split append]; [now rewrite Ascii.eqb_refl|].
  destruct (Ascii.eqb a c); cbn [orb]; [discriminate|]. intros H. now rewrite IH.
Qed.
Lemma names_fun : forall s l, names s l -> l = split "," s.
Proof.
  intros s l H. induction H as [x H|x r l H R IH]; [now rewrite split_plain|]. cbn [append]. now rewrite split_piece, <- IH.
Qed.

Lemma raw_get : forall m k, raw m k = match oget k m with Some v => Ok v | None => Err EConfigNotFound end.
Proof. intros m k. unfold raw. now destruct (oget k m). Qed.
Lemma fields_value : forall m, exists l, partition_fields m = Ok l /\ columns (oget "hoodie.table.partition.fields" m) l.
Proof.
  intros m. unfold partition_fields, table_or_default, table_value, as_list. cbn [table_key]. rewrite raw_get.
  destruct (oget "hoodie.table.partition.fields" m) as [v|]; cbn [bind table_default to_list columns]; [|eauto].
  eexists. split; [reflexivity|apply names_split].
Qed.
Lemma switch_value : forall m k d, or_default (as_bool m k) (Some (CBool d)) = Ok (CBool (switch d (oget k m))).
Proof. intros m k d. destruct (bool_or_default m k d) as [b [E B]]. rewrite E, B. reflexivity. Qed.
Lemma meta_value : forall m, populates_meta m = Ok (switch true (oget "hoodie.populate.meta.fields" m)).
Proof.
  intros m. unfold populates_meta. change (table_or_default PopulatesMetaFields m) with (or_default (as_bool m "hoodie.populate.meta.fields") (Some (CBool true))).
  now rewrite switch_value.
Qed.
Lemma optimized_value : forall m, read_optimized m = Ok (switch false (oget "hoodie.read.use.read_optimized.mode" m)).
Proof.
  intros m. unfold read_optimized. change (read_or_default UseReadOptimizedMode m) with (or_default (as_bool m "hoodie.read.use.read_optimized.mode") (Some (CBool false))).
  now rewrite switch_value.
Qed.
Lemma count_value : forall m k d, exists n, or_default (as_uint m k) (Some (CUInt d)) = Ok (CUInt n) /\ count d (oget k m) n.
Proof.
  intros m k d. unfold as_uint. rewrite raw_get. destruct (oget k m) as [s|]; cbn [bind or_default count]; [|eauto].
  destruct (parse_usize s) as [n|] eqn:E; cbn [ok_or bind or_default]; eexists; (split; [reflexivity|]).
  - left. now apply parse_usize_text.
  - right. split; [|reflexivity]. intros x H. apply parse_usize_text in H. congruence.
Qed.
Lemma parallelism_value : forall m, exists n, listing_parallelism m = Ok n /\ count 10 (oget "hoodie.read.listing.parallelism" m) n.
Proof. intros m. destruct (count_value m "hoodie.read.listing.parallelism" 10) as [n [E C]]. exists n. split; [|exact C]. unfold listing_parallelism, read_or_default. cbn [read_value read_default]. cbn [read_key]. now rewrite E. Qed.
Lemma partitions_value : forall m, exists n, input_partitions m = Ok n /\ count 0 (oget "hoodie.read.input.partitions" m) n.
Proof. intros m. destruct (count_value m "hoodie.read.input.partitions" 0) as [n [E C]]. exists n. split; [|exact C]. unfold input_partitions, read_or_default. cbn [read_value read_default]. cbn [read_key]. now rewrite E. Qed.
Lemma window_value : forall m, start_timestamp m = Ok (oget "hoodie.read.file_group.start_timestamp" m) /\ end_timestamp m = Ok (oget "hoodie.read.file_group.end_timestamp" m).
Proof.
  intros m. unfold start_timestamp, end_timestamp, read_try, read_value, as_string. cbn [read_key read_default]. rewrite !raw_get. split; now destruct (oget _ m).
Qed.
Lemma timezone_value : forall m, exists z, timeline_timezone m = Ok z /\ (word "local" (oget "hoodie.table.timeline.timezone" m) /\ z = "local" \/ ~ word "local" (oget "hoodie.table.timeline.timezone" m) /\ z = "utc").
Proof.
  intros m. unfold timeline_timezone, table_or_default, table_value. cbn [table_key table_default]. rewrite raw_get. unfold word.
  destruct (oget "hoodie.table.timeline.timezone" m) as [v|]; cbn [bind]; [|eexists; split; [reflexivity|]; right; split; [intros [v [E _]]; discriminate|reflexivity]].
  unfold timezone_of. cbv zeta. destruct (String.eqb_spec (to_ascii_lowercase v) "utc") as [E|N]; [|destruct (String.eqb_spec (to_ascii_lowercase v) "local") as [E|N']]; cbn [bind to_string];
    eexists; (split; [reflexivity|]).
  - right. split; [|reflexivity]. intros [w [W L]]. injection W as <-. congruence.
  - left. split; [eauto|reflexivity].
  - right. split; [|reflexivity]. intros [w [W L]]. injection W as <-. congruence.
Qed.
Lemma format_value : forall m, base_format m = Ok "parquet".
Proof.
  intros m. unfold base_format, table_or_default, table_value. cbn [table_key table_default]. rewrite raw_get.
  destruct (oget _ m) as [v|]; cbn [bind]; [|reflexivity]. unfold base_file_format_of. cbv zeta. destruct (String.eqb _ "parquet"); [reflexivity|]. destruct (String.eqb _ "orc"); reflexivity.
Qed.
Lemma strategy_value : forall m, exists s, merge_strategy m = Ok s /\ (replaces m /\ s = "overwrite_with_latest" \/ ~ replaces m /\ s = "append_only").
Proof.
  intros m. unfold merge_strategy, table_or_default, table_value. cbn [table_key table_default]. rewrite raw_get. unfold replaces, word. cbv zeta.
  assert (D : forall W : Prop, (forall w, w = "overwrite_with_latest" \/ w = "append_only" -> ~ exists v, oget "hoodie.table.record.merge.strategy" m = Some v /\ to_ascii_lowercase v = w) ->
    exists s, (let* v := let* p := or_default (table_value PopulatesMetaFields m) (table_default PopulatesMetaFields) in let* p := to_bool p in
       if negb p then Ok (CStr "append_only") else if negb (ohas (table_key PrecombineField) m) then Ok (CStr "append_only") else Ok (CStr "overwrite_with_latest") in
       let* s := to_string v in merge_strategy_of s) = Ok s
     /\ (((exists v, oget "hoodie.table.record.merge.strategy" m = Some v /\ to_ascii_lowercase v = "overwrite_with_latest")
         \/ ~ (exists v, oget "hoodie.table.record.merge.strategy" m = Some v /\ to_ascii_lowercase v = "append_only")
            /\ switch true (oget "hoodie.populate.meta.fields" m) = true /\ exists c, oget "hoodie.table.precombine.field" m = Some c) /\ s = "overwrite_with_latest"
       \/ ~ ((exists v, oget "hoodie.table.record.merge.strategy" m = Some v /\ to_ascii_lowercase v = "overwrite_with_latest")
         \/ ~ (exists v, oget "hoodie.table.record.merge.strategy" m = Some v /\ to_ascii_lowercase v = "append_only")
            /\ switch true (oget "hoodie.populate.meta.fields" m) = true /\ exists c, oget "hoodie.table.precombine.field" m = Some c) /\ s = "append_only")).
  { intros _ N. change (table_value PopulatesMetaFields m) with (as_bool m "hoodie.populate.meta.fields"). change (table_default PopulatesMetaFields) with (Some (CBool true)).
    rewrite switch_value. cbn [bind to_bool table_key]. unfold ohas.
    pose proof (N _ (or_introl eq_refl)) as N1. pose proof (N _ (or_intror eq_refl)) as N2.
    destruct (switch true (oget "hoodie.populate.meta.fields" m)) eqn:P; cbn [negb].
    - destruct (oget "hoodie.table.precombine.field" m) as [c|] eqn:C; cbn [negb bind to_string]; eexists; (split; [reflexivity|]).
      + left. split; [right; eauto|reflexivity].
      + right. split; [|reflexivity]. intros [H|[_ [_ [c H]]]]; [contradiction|discriminate].
    - eexists; (split; [reflexivity|]). right. split; [|reflexivity]. intros [H|[_ [H _]]]; [contradiction|discriminate]. }
  destruct (oget "hoodie.table.record.merge.strategy" m) as [v|] eqn:E.
  - unfold merge_strategy_of at 1. cbn [bind]. cbv zeta. destruct (String.eqb_spec (to_ascii_lowercase v) "append_only") as [A|A]; [|destruct (String.eqb_spec (to_ascii_lowercase v) "overwrite_with_latest") as [B|B]]; cbn [bind].
    + eexists. split; [reflexivity|]. right. split; [|reflexivity]. intros [[w [W L]]|[H _]]; [injection W as <-; congruence|apply H; eauto].
    + eexists. split; [reflexivity|]. left. split; [left; eauto|reflexivity].
    + apply (D True). intros w [ -> | -> ] [x [X L]]; injection X as <-; congruence.
  - cbn [bind]. apply (D True). intros w _ [x [X _]]. discriminate.
Qed.
Lemma precombine_value : forall m, precombine_field m = match oget "hoodie.table.precombine.field" m with Some c => Ok c | None => Err EConfigNotFound end.
Proof. intros m. unfold precombine_field, table_value, as_string. cbn [table_key]. rewrite raw_get. now destruct (oget _ m). Qed.
Lemma partitioned_value : forall m, exists b, is_table_partitioned m = Ok b
  /\ (b = true <-> oget "hoodie.table.partition.fields" m <> None /\ oget "hoodie.table.keygenerator.class" m <> Some "org.apache.hudi.keygen.NonpartitionedKeyGenerator").
Proof.
  intros m. unfold is_table_partitioned, table_or_default, table_try, table_value, as_list, as_string. cbn [table_key table_default]. rewrite !raw_get.
  destruct (oget "hoodie.table.partition.fields" m) as [v|], (oget "hoodie.table.keygenerator.class" m) as [g|]; cbn [bind to_list to_string]; eexists; (split; [reflexivity|]);
    try (destruct (split_cons "," v) as [p [l [-> _]]]).
  - destruct (String.eqb_spec g "org.apache.hudi.keygen.NonpartitionedKeyGenerator") as [ -> |N]; cbn [negb].
    + split; [discriminate|]. intros [_ H]. now elim H.
    + split; [|reflexivity]. intros _. split; congruence.
  - split; intros H; [split; discriminate|reflexivity].
  - split; [discriminate|tauto].
  - split; [discriminate|tauto].
Qed.
Lemma named_value : forall m n, table_name m = Ok n <-> oget "hoodie.table.name" m = Some n.
Proof.
  intros m n. unfold table_name, table_value, as_string. cbn [table_key]. rewrite raw_get. destruct (oget _ m) as [v|]; cbn; split; congruence.
Qed.
Lemma mor_value : forall m v, oget "hoodie.table.type" m = Some v ->
  (merge_on_read v -> table_type m = Ok "MERGE_ON_READ" /\ is_mor m = Ok true) /\ (copy_on_write v -> table_type m = Ok "COPY_ON_WRITE" /\ is_mor m = Ok false).
Proof.
  intros m v E. unfold is_mor, table_type, table_value. cbn [table_key]. rewrite raw_get, E. cbn [bind expect]. unfold merge_on_read, copy_on_write, table_type_of. cbv zeta.
  split; (intros [ <- |[ <- |[ <- |[]]]]); split; reflexivity.
Qed.

(** The flags of the partition paths. *)
Lemma hive_text : forall tb, hive_flag tb = match oget "hoodie.datasource.write.hive_style_partitioning" (t_configs tb) with
  | Some v => if String.eqb v "true" then Ok true else if String.eqb v "false" then Ok false else Panic | None => Panic end.
Proof.
  intros tb. unfold hive_flag, table_or_default, table_value, as_bool, raw. cbn [table_key]. destruct (oget _ _) as [v|]; [|reflexivity]. cbn [bind ok_or]. unfold parse_bool.
  destruct (String.eqb v "true"); [reflexivity|]. destruct (String.eqb v "false"); reflexivity.
Qed.
Lemma url_text : forall tb, url_flag tb = match oget "hoodie.datasource.write.partitionpath.urlencode" (t_configs tb) with
  | Some v => if String.eqb v "true" then Ok true else if String.eqb v "false" then Ok false else Panic | None => Panic end.
Proof.
  intros tb. unfold url_flag, table_or_default, table_value, as_bool, raw. cbn [table_key]. destruct (oget _ _) as [v|]; [|reflexivity]. cbn [bind ok_or]. unfold parse_bool.
  destruct (String.eqb v "true"); [reflexivity|]. destruct (String.eqb v "false"); reflexivity.
Qed.
