From Coq Require Import Sorted.
From Verif Require Import Base Str L_Base L_Str M_Utf8 M_Time M_Instant M_Timeline M_FileGroup M_Builder M_Listing M_Expr M_Log M_Config M_Reader M_Table M_Storage M_Python M_Objects M_Open
  S_Time S_Timeline S_FileGroup S_Builder S_Listing S_Expr S_Config S_Table S_Storage S_Python S_Objects S_Open
  L_FileGroup L_Timeline L_Tree L_Table L_Config L_Storage L_Python L_Objects.
Local Open Scope string_scope.

Lemma collect_no_error : forall L sel ns e, collect_instants L sel ns <> Err e.
Proof.
  intros L sel. induction ns as [|n ns IH]; intros e; cbn [collect_instants]; [discriminate|]. destruct (try_create_instant L sel n); [|auto|discriminate].
  destruct (collect_instants L sel ns) as [|e1|] eqn:E; cbn [bind]; try discriminate. now elim (IH e1).
Qed.
Lemma timeline_no_error : forall L f tz ns e, new_timeline L f tz ns <> Err e.
Proof.
  intros L f tz ns e. unfold new_timeline. destruct (completed_actions_in_range L DEFAULT_LOADING_ACTIONS tz None None) as [sel|e1|] eqn:E; [|discriminate E|discriminate E]. cbn [bind].
  unfold load_instants. destruct (collect_instants L sel ns) as [|e1|] eqn:C; cbn [bind]; try discriminate. now apply collect_no_error in C.
Qed.

Section Snapshot.
Variable dtype value : Type.
Variable cast : dtype -> string -> option value.
Variable cmp : value -> value -> option comparison.
Variable local_to_utc : ndt -> option ndt.
Variable objs : list object.
Variable base : url.
Variable names : list string.
Variable st : store dtype.
Variable tb : table.
Hypothesis PO : proper_objects objs.
Hypothesis L : located base names.
Hypothesis SF : st_files _ st = list_files objs base.
Hypothesis SD : st_dirs _ st = list_dirs objs base.
Hypothesis So : StronglySorted instant_le (t_commits tb).

Lemma partition_dirs : forall partitioned p, table_partition partitioned (object_tree objs base) p <-> exists dir, object_partition objs names partitioned p dir.
Proof.
  intros [|] p; unfold table_partition, object_partition.
  - rewrite (partition_spec objs base names PO L). split.
    + intros H. pose proof H as [top [rest [E [F _]]]]. exists (top :: rest). auto.
    + intros [dir [_ [_ H]]]. exact H.
  - split; [intros ->; exists []; repeat split; constructor|]. intros [dir [_ [-> ->]]]. reflexivity.
Qed.
Lemma object_snapshots : forall c c' t filters ss, view_after dtype value cast cmp local_to_utc st tb c ->
  get_file_slices_as_of dtype value cast cmp local_to_utc st tb t filters c c' (Ok ss) ->
  exists fs tz time fields hive url format partitioned,
    from_str_tuples filters = Ok fs /\ timeline_timezone (t_configs tb) = Ok tz /\ parse_datetime local_to_utc t tz = Ok time
    /\ get_partition_schema dtype st tb = Ok fields /\ hive_flag tb = Ok hive /\ url_flag tb = Ok url
    /\ base_format (t_configs tb) = Ok format /\ is_table_partitioned (t_configs tb) = Ok partitioned
    /\ (wf_fields fields -> object_snapshot dtype value cast cmp fields hive url objs names format partitioned fs t
          (replaced_by_time (st_json _ st) (t_commits tb) (epoch_millis time)) ss).
Proof.
  intros c c' t filters ss Hc H. assert (SV : serves_dirs (object_tree objs base) (st_dirs _ st)) by (rewrite SD; exact (tree_served objs base names PO L)).
  destruct (as_of_snapshot dtype value cast cmp local_to_utc st tb _ SV (tree_wf objs base names PO L _ [] (Forall_nil _)) So _ _ _ _ _ Hc H) as [fs [tz [time [fields [h [u [f [pt [P1 [P2 [P3 [P4 [P5 [P6 [P7 [P8 P9]]]]]]]]]]]]]]]].
  exists fs, tz, time, fields, h, u, f, pt. do 8 (split; [assumption|]). intros W. destruct (P9 W) as [S1 [S2 S3]]. split; [|split; [|exact S3]].
  - intros s I. destruct (S1 s I) as [listed [TP [LS [SN [NR FL]]]]]. apply partition_dirs in TP as [dir OP]. exists dir, listed. split; [exact OP|]. split; [|auto].
    destruct OP as [FD [EP _]]. rewrite SF, EP in LS. destruct (files_spec objs base names PO L dir FD) as [l [E [N S]]]. assert (l = listed) by congruence. subst l. split; assumption.
  - intros p dir name o b OP M FI NM BN BF LE NR. assert (TP : table_partition pt (object_tree objs base) p) by (apply partition_dirs; eauto).
    destruct (S2 p TP M) as [listed [LS X]]. destruct OP as [FD [EP _]]. destruct (files_spec objs base names PO L dir FD) as [l [E [N S]]]. rewrite SF, EP in LS. assert (l = listed) by congruence. subst l.
    apply (X (new_meta name (o_size o)) b); [|exact LE|exact NR]. split; [|auto]. apply S. exists name, o. auto.
Qed.
(** the base file of a slice of an answer is there *)
Lemma base_found : forall footer, st_meta _ st = get_file_metadata objs base footer ->
  forall c c' t filters ss, view_after dtype value cast cmp local_to_utc st tb c ->
  get_file_slices_as_of dtype value cast cmp local_to_utc st tb t filters c c' (Ok ss) ->
  forall s, In s ss -> exists o bytes rows, In o objs /\ get_file_data objs base (base_relative_path s) = Ok (o_data o) /\ footer (o_data o) = Ok (bytes, rows)
    /\ ps_base_size (py_slice_of s) = o_size o /\ ps_base_byte_size (py_slice_of s) = bytes /\ ps_num_records (py_slice_of s) = rows.
Proof.
  intros footer SM c c' t filters ss Hc H s I. assert (SV : serves_dirs (object_tree objs base) (st_dirs _ st)) by (rewrite SD; exact (tree_served objs base names PO L)).
  assert (UP : forall p listed m, st_files _ st p = Ok listed -> In m listed -> fm_populated m = false).
  { intros p listed m E Im. rewrite SF in E. unfold list_files in E. apply bind_ok in E as [pre [_ E]]. apply mapM_ok in E. revert Im. induction E as [|x y xs ys E1 E IH]; intros []; [|auto].
    subst y. apply bind_ok in E1 as [n [_ E1]]. injection E1 as <-. reflexivity. }
  destruct (as_of_shows_sizes dtype value cast cmp local_to_utc st tb _ SV (tree_wf objs base names PO L _ [] (Forall_nil _)) UP _ _ _ _ _ Hc H s I) as [m [M [E1 [E2 E3]]]].
  rewrite SM in M. unfold get_file_metadata in M. apply bind_ok in M as [o [FO M]]. apply bind_ok in M as [n [_ M]]. apply bind_ok in M as [[bytes rows] [FT M]]. injection M as <-. cbn [fm_size fm_byte_size fm_num_records] in *.
  exists o, bytes, rows. split; [|split; [unfold get_file_data; now rewrite FO|auto]].
  unfold find_object in FO. apply bind_ok in FO as [k [_ FO]]. destruct (find _ objs) as [x|] eqn:F; [|discriminate]. injection FO as <-. now apply find_some in F as [F _].
Qed.
(** ... and its log files *)
Lemma logs_found : forall format partitioned fields hive url filters t replaced ss,
  object_snapshot dtype value cast cmp fields hive url objs names format partitioned filters t replaced ss ->
  forall s, In s ss -> forall l, In l (fs_logs s) -> exists dir o, fs_partition s = join "/" dir /\ file_in objs names dir (log_file_name l) o
    /\ get_file_data objs base (log_relative_path s l) = Ok (o_data o).
Proof.
  intros format partitioned fields hive url filters t replaced ss [S1 _] s I l Il. destruct (S1 s I) as [dir [listed [[FD [EP _]] [[_ DL] [SN _]]]]].
  destruct SN as [m [b [_ [_ [_ [_ [_ [_ [_ [_ LG]]]]]]]]]]. destruct (LG l Il) as [m' [[Im' [_ [_ LF]]] _]]. apply DL in Im' as [n [o [FI ->]]]. cbn [fm_name new_meta] in *. apply log_name_reprint in LF. exists dir, o. split; [exact EP|]. rewrite LF. split; [exact FI|].
  unfold log_relative_path, get_file_data. rewrite EP, LF, (read_spec objs base names PO L dir n o FD FI). reflexivity.
Qed.
End Snapshot.

Lemma answer_found : forall dtype value cast cmp local_to_utc objs base names (st : store dtype) tb footer,
  proper_objects objs -> located base names -> st_files _ st = list_files objs base -> st_dirs _ st = list_dirs objs base -> st_meta _ st = get_file_metadata objs base footer ->
  StronglySorted instant_le (t_commits tb) -> (forall fields, get_partition_schema dtype st tb = Ok fields -> wf_fields fields) ->
  forall c c' t filters ss, view_after dtype value cast cmp local_to_utc st tb c ->
  get_file_slices_as_of dtype value cast cmp local_to_utc st tb t filters c c' (Ok ss) ->
  forall s, In s ss ->
  (exists o bytes rows, In o objs /\ get_file_data objs base (base_relative_path s) = Ok (o_data o) /\ footer (o_data o) = Ok (bytes, rows)
     /\ ps_base_size (py_slice_of s) = o_size o /\ ps_base_byte_size (py_slice_of s) = bytes /\ ps_num_records (py_slice_of s) = rows)
  /\ forall l, In l (fs_logs s) -> exists dir o, fs_partition s = join "/" dir /\ file_in objs names dir (log_file_name l) o
       /\ get_file_data objs base (log_relative_path s l) = Ok (o_data o).
Proof.
  intros dtype value cast cmp L objs base names st tb footer P Lo SF SD SM So WF c c' t filters ss Hc H s I. split.
  - exact (base_found dtype value cast cmp L objs base names st tb P Lo SF SD footer SM c c' t filters ss Hc H s I).
  - destruct (object_snapshots dtype value cast cmp L objs base names st tb P Lo SF SD So c c' t filters ss Hc H) as [fs [tz [time [fields [h [u [f [pt [_ [_ [_ [PS [_ [_ [_ [_ SN]]]]]]]]]]]]]]]].
    intros l Il. exact (logs_found dtype value cast cmp objs base names P Lo _ _ _ _ _ _ _ _ _ (SN (WF _ PS)) s I l Il).
Qed.

(** ** Opening *)
Section Open.
Variable iter : options -> list (string * string).
Hypothesis V : visits_all iter.
Variable env : list (string * string).
Variable parse : string -> option url.
Variable stores : url -> options -> outcome (list object).
Variable global : list object -> outcome string.
Variable local_to_utc : ndt -> option ndt.
Variable sort_unstable : list instant -> list instant.
Notation storage_new := (storage_new parse stores).
Notation build := (build iter env parse stores global local_to_utc sort_unstable).

Lemma storage_new_spec : forall s h uri, oget "hoodie.base.path" h = Some uri ->
  storage_new s h = let* u := parse_uri parse uri in let* objs := stores u s in Ok (u, objs).
Proof. intros s h uri E. unfold storage_new, table_try, table_value, as_string, raw, table_key. rewrite E. reflexivity. Qed.

Definition resolved (b : builder) : builder := resolve_env env (resolve_user iter b).
Lemma resolved_base : forall b, one_per_key (b_options b) -> oget "hoodie.base.path" (b_hudi (resolved b)) = Some (b_base b).
Proof. intros b D. unfold resolved, resolve_env. cbn [b_hudi]. rewrite (proj1 (user_get iter V b _ D)). reflexivity. Qed.

(** what resolving gives, once the location opens and its properties are read *)
Lemma resolve_run : forall b u objs data props, one_per_key (b_options b) ->
  parse_uri parse (b_base b) = Ok u -> stores u (b_storage (resolved b)) = Ok objs ->
  get_file_data objs u ".hoodie/hoodie.properties" = Ok data -> parse_data "=" data = Ok props ->
  exists b', resolve iter env (fun s h => let* _ := storage_new s h in Ok tt) (read_properties parse stores) (read_global parse stores global) b = Ok b'
    /\ b_storage b' = b_storage (resolved b) /\ (forall k, oget k (b_hudi b') = option_value props b (global objs) k).
Proof.
  intros b u objs data props D PU SO GP PP. unfold resolve. fold (resolved b).
  assert (SN : storage_new (b_storage (resolved b)) (b_hudi (resolved b)) = Ok (u, objs)) by (rewrite (storage_new_spec _ _ _ (resolved_base b D)), PU; cbn [bind]; now rewrite SO).
  unfold read_properties, read_global. rewrite SN. cbn [bind]. rewrite GP. unfold imbue_properties. cbn [bind]. rewrite PP. cbn [bind].
  eexists. split; [reflexivity|]. split; [reflexivity|]. intros k. cbn [b_hudi]. rewrite (imbue_global_get iter V), oget_oputs, (iter_last iter V) by now apply parse_nodup in PP.
  unfold resolved, resolve_env. cbn [b_hudi]. rewrite (proj1 (user_get iter V b k D)). unfold option_value, is_hudi, when.
  destruct (oget k props); cbn [first_given]; [reflexivity|]. destruct (if String.eqb "hoodie.base.path" k then _ else _); cbn [first_given]; [reflexivity|].
  destruct (starts_with "hoodie." k); cbn [first_given]; [destruct (oget k (b_options b)); reflexivity|reflexivity].
Qed.
Lemma storage_get : forall b k, one_per_key (b_options b) -> oget k (b_storage (resolved b)) = storage_value env b k.
Proof.
  intros b k D. unfold resolved, resolve_env. cbn [b_storage]. rewrite oget_cloud, (proj2 (user_get iter V b k D)). unfold storage_value, is_hudi.
  destruct (oget k (b_storage b)); cbn [first_given]; [reflexivity|]. unfold when. destruct (starts_with "hoodie." k); cbn [first_given negb]; [reflexivity|]. now destruct (oget k (b_options b)).
Qed.
Lemma supported_ext : forall m m', (forall k, oget k m = oget k m') -> supported m -> supported m'.
Proof.
  intros m m' E [A [B [C [D [F G]]]]]. split; [|split; [|split; [|split; [|split]]]].
  - intros k f v I X. rewrite <- E in X. eauto.
  - intros k I. rewrite <- E. auto.
  - intros v X. rewrite <- E in X. auto.
  - intros v X. rewrite <- E in X. auto.
  - rewrite <- E. exact F.
  - intros v X Y. rewrite <- E in X. rewrite <- !E. eauto.
Qed.
Lemma metadata_legal : legal ".hoodie".
Proof. repeat split; discriminate. Qed.
Lemma properties_read : forall objs u names o, proper_objects objs -> located u names -> file_in objs names [".hoodie"] "hoodie.properties" o ->
  get_file_data objs u ".hoodie/hoodie.properties" = Ok (o_data o).
Proof.
  intros objs u names o P L F. unfold get_file_data. change ".hoodie/hoodie.properties" with (path_join (join "/" [".hoodie"]) "hoodie.properties").
  rewrite (read_spec objs u names P L [".hoodie"] _ o); [reflexivity| |exact F]. constructor; [exact metadata_legal|constructor].
Qed.
Lemma properties_found : forall objs u names data, proper_objects objs -> located u names -> get_file_data objs u ".hoodie/hoodie.properties" = Ok data ->
  exists o, file_in objs names [".hoodie"] "hoodie.properties" o /\ o_data o = data.
Proof.
  intros objs u names data P L H. unfold get_file_data, find_object in H. change ".hoodie/hoodie.properties" with (path_join (join "/" [".hoodie"]) "hoodie.properties") in H.
  assert (F : Forall legal [".hoodie"]) by (constructor; [exact metadata_legal|constructor]).
  assert (LN : legal "hoodie.properties") by (repeat split; discriminate).
  rewrite (child_addressed u names _ [".hoodie"] "hoodie.properties" L (plain_join _ F) (utf8_dir _ F) (names_dir _ F) (no_control _ F) LN) in H. cbn [bind] in H.
  destruct (find _ objs) as [o|] eqn:E; [|discriminate]. injection H as <-. apply find_some in E as [I E]. apply String.eqb_eq in E. exists o. split; [|reflexivity]. split; [exact I|]. split; [exact LN|exact E].
Qed.
Lemma metadata_files : forall objs u names, proper_objects objs -> located u names -> exists l, list_files objs u ".hoodie" = Ok l /\ directory_listing objs names [".hoodie"] l.
Proof.
  intros objs u names P L. destruct (files_spec objs u names P L [".hoodie"]) as [l [E [N S]]]; [constructor; [exact metadata_legal|constructor]|]. exists l. split; [exact E|]. split; assumption.
Qed.
Lemma opens : forall b u names objs o props m, one_per_key (b_options b) ->
  parse_uri parse (b_base b) = Ok u -> located u names -> (forall s, (forall k, oget k s = storage_value env b k) -> stores u s = Ok objs) -> proper_objects objs ->
  file_in objs names [".hoodie"] "hoodie.properties" o -> parse_data "=" (o_data o) = Ok props -> oget "hoodie.base.path" props = None ->
  (forall k, oget k m = option_value props b (global objs) k) ->
  ((supported m \/ oget "hoodie.internal.skip.config.validation" m = Some "true") -> (forall n o', file_in objs names [".hoodie"] n o' -> ~ bad_instant n) -> exists tb, build b = Ok (tb, u, objs))
  /\ (~ supported m -> oget "hoodie.internal.skip.config.validation" m <> Some "true" -> build b = Panic).
Proof.
  intros b u names objs o props m D PU L SO P FO PP NB M. specialize (SO (b_storage (resolved b)) (fun k => storage_get b k D)).
  destruct (resolve_run b u objs (o_data o) props D PU SO (properties_read _ _ _ _ P L FO) PP) as [b' [R [ES EH]]].
  assert (EM : forall k, oget k m = oget k (b_hudi b')) by (intros k; now rewrite EH, M).
  assert (EB : oget "hoodie.base.path" (b_hudi b') = Some (b_base b)) by (rewrite EH; unfold option_value; rewrite NB; reflexivity).
  unfold build. rewrite R. cbn [bind]. split.
  - intros SP NI. assert (VC : validate_configs (b_hudi b') = Ok tt).
    { destruct (oget "hoodie.internal.skip.config.validation" (b_hudi b')) as [v|] eqn:SK; [destruct (String.eqb_spec v "true") as [ -> |NE]; [now apply validate_skip|]|].
      - apply validate_spec; [intros X; unfold skip_validation_key in X; congruence|]. destruct SP as [SP|SP]; [eapply supported_ext; eauto|rewrite EM in SP; congruence].
      - apply validate_spec; [intros X; unfold skip_validation_key in X; congruence|]. destruct SP as [SP|SP]; [eapply supported_ext; eauto|rewrite EM in SP; congruence]. }
    rewrite VC. cbn [expect bind]. rewrite (storage_new_spec _ _ _ EB), PU, ES. cbn [bind]. rewrite SO. cbn [bind].
    destruct (lookups_ok (b_hudi b')) as [_ [[tz TZ] _]]. rewrite TZ. cbn [bind]. destruct (metadata_files objs u names P L) as [l [LS DL]]. rewrite LS. cbn [bind].
    destruct (new_timeline local_to_utc sort_unstable tz (map fm_name l)) as [cs|e|] eqn:NT; [cbn [bind]; eauto| |].
    + exfalso. now apply timeline_no_error in NT.
    + exfalso. apply new_timeline_panic_iff in NT as [n [ts [a [I [A [B C]]]]]]. apply in_map_iff in I as [fm [E I]]. apply (proj2 DL) in I as [n' [o' [FI ->]]]. cbn [fm_name new_meta] in E. subst n'.
      apply (NI n o' FI). exists ts, a. auto.
  - intros NS SK. destruct (validate_configs (b_hudi b')) as [[]|e|] eqn:VC; [|reflexivity|reflexivity].
    exfalso. apply NS. apply validate_spec in VC; [|intros X; apply SK; rewrite EM; exact X]. eapply supported_ext; [|exact VC]. intros k. symmetry. apply EM.
Qed.
Lemma opened : forall b tb u names objs, sorts sort_unstable -> one_per_key (b_options b) -> build b = Ok (tb, u, objs) -> located u names -> proper_objects objs ->
  exists u0 objs0 data props,
    parse_uri parse (b_base b) = Ok u0 /\ stores u0 (t_storage tb) = Ok objs0
    /\ get_file_data objs0 u0 ".hoodie/hoodie.properties" = Ok data /\ parse_data "=" data = Ok props
    /\ (forall k, oget k (t_configs tb) = option_value props b (global objs0) k)
    /\ (forall k, oget k (t_storage tb) = storage_value env b k)
    /\ (oget "hoodie.base.path" props = None -> u = u0 /\ objs = objs0 /\ exists o, file_in objs names [".hoodie"] "hoodie.properties" o /\ o_data o = data)
    /\ (supported (t_configs tb) \/ oget "hoodie.internal.skip.config.validation" (t_configs tb) = Some "true")
    /\ exists listed tz l0, directory_listing objs names [".hoodie"] listed /\ timeline_timezone (t_configs tb) = Ok tz
         /\ denoted_instants (denotes_completed local_to_utc tz [Commit; DeltaCommit; ReplaceCommit]) (map fm_name listed) l0
         /\ Permutation l0 (t_commits tb) /\ StronglySorted instant_le (t_commits tb).
Proof.
  intros b tb u names objs SU D H L P. unfold build in H. apply bind_ok in H as [b' [R H]].
  pose proof R as R0. unfold resolve in R0. fold (resolved b) in R0. apply bind_ok in R0 as [[] [R1 R2]]. apply bind_ok in R1 as [[u0 objs0] [R1 _]].
  apply bind_ok in R2 as [hudi [R2 _]]. unfold imbue_properties, read_properties in R2. rewrite R1 in R2. cbn [bind] in R2. apply bind_ok in R2 as [data [GP R2]]. apply bind_ok in R2 as [props [PP _]].
  rewrite (storage_new_spec _ _ _ (resolved_base b D)) in R1. apply bind_ok in R1 as [u1 [PU R1]]. apply bind_ok in R1 as [objs1 [SO R1]]. injection R1 as -> ->.
  destruct (resolve_run b u0 objs0 data props D PU SO GP PP) as [b'' [R' [ES EH]]]. assert (b'' = b') by congruence. subst b''.
  apply bind_ok in H as [[] [VC H]]. apply bind_ok in H as [[u2 objs2] [SN H]]. apply bind_ok in H as [tz [TZ H]]. apply bind_ok in H as [l [LS H]]. apply bind_ok in H as [cs [NT H]]. injection H as <- -> ->.
  cbn [t_storage t_configs t_commits]. exists u0, objs0, data, props. split; [exact PU|]. split; [now rewrite ES|]. split; [exact GP|]. split; [exact PP|]. split; [exact EH|].
  split; [intros k; rewrite ES; now apply storage_get|]. split; [|split].
  - intros NB. assert (EB : oget "hoodie.base.path" (b_hudi b') = Some (b_base b)) by (rewrite EH; unfold option_value; rewrite NB; reflexivity).
    rewrite (storage_new_spec _ _ _ EB), PU, ES in SN. cbn [bind] in SN. rewrite SO in SN. injection SN as <- <-. split; [reflexivity|]. split; [reflexivity|]. now apply (properties_found objs0 u0 names).
  - destruct (oget "hoodie.internal.skip.config.validation" (b_hudi b')) as [v|] eqn:SK; [destruct (String.eqb_spec v "true") as [ -> |NE]; [now right|]|]; left; apply validate_spec; try (intros X; unfold skip_validation_key in X; congruence); destruct (validate_configs (b_hudi b')) as [[]| |]; try discriminate; reflexivity.
  - destruct (metadata_files objs u names P L) as [l' [LS' DL]]. assert (l' = l) by congruence. subst l'. destruct (new_timeline_exact local_to_utc sort_unstable tz (map fm_name l) cs SU NT) as [l0 [A [B C]]]. exists l, tz, l0. auto.
Qed.
(** without properties there is no table *)
Lemma not_opened : forall b u names objs, one_per_key (b_options b) -> parse_uri parse (b_base b) = Ok u -> located u names ->
  (forall s, (forall k, oget k s = storage_value env b k) -> stores u s = Ok objs) -> proper_objects objs ->
  (forall o, ~ file_in objs names [".hoodie"] "hoodie.properties" o) -> exists e, build b = Err e.
Proof.
  intros b u names objs D PU L SO P NF. specialize (SO (b_storage (resolved b)) (fun k => storage_get b k D)).
  assert (SN : storage_new (b_storage (resolved b)) (b_hudi (resolved b)) = Ok (u, objs)) by (rewrite (storage_new_spec _ _ _ (resolved_base b D)), PU; cbn [bind]; now rewrite SO).
  assert (GP : exists e, get_file_data objs u ".hoodie/hoodie.properties" = Err e).
  { destruct (get_file_data objs u ".hoodie/hoodie.properties") as [d|e|] eqn:E; [|eauto|].
    - exfalso. destruct (properties_found objs u names d P L E) as [o [FO _]]. now apply (NF o).
    - exfalso. unfold get_file_data, find_object in E. change ".hoodie/hoodie.properties" with (path_join (join "/" [".hoodie"]) "hoodie.properties") in E.
      assert (F : Forall legal [".hoodie"]) by (constructor; [exact metadata_legal|constructor]).
      rewrite (child_addressed u names _ [".hoodie"] "hoodie.properties" L (plain_join _ F) (utf8_dir _ F) (names_dir _ F) (no_control _ F)) in E by (repeat split; discriminate). cbn [bind] in E.
      destruct (find _ objs); discriminate. }
  destruct GP as [e GP]. exists e. unfold build, resolve. fold (resolved b). unfold read_properties, read_global. rewrite SN. cbn [bind]. rewrite GP. reflexivity.
Qed.
End Open.
