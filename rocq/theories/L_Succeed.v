(** Lemmas for C82: queries of a table in order succeed. *)
From Coq Require Import Sorted.
From Verif Require Import Base Str M_Utf8 M_Time M_Instant M_Timeline M_FileGroup M_Builder M_Listing M_Expr M_Log M_Config M_Reader M_Table M_Storage M_Avro M_Values M_Datum M_Json M_Objects M_Open
  S_Time S_Timeline S_FileGroup S_Builder S_Listing S_Expr S_Log S_Reader S_Config S_Table S_Avro S_Storage S_Objects S_Open S_History S_Values S_Datum S_Json S_Whole
  L_Base L_Str L_Instant L_FileGroup L_Storage L_Expr L_Listing L_Tree L_View L_Table L_History L_Records L_Objects L_Open L_Values L_Stored L_Json L_Whole.
Local Open Scope string_scope.

(** ** The view *)
Section View.
Variable list_files : string -> outcome (list file_meta).
Variable list_dirs : string -> outcome (list string).
Variable fm : string -> outcome file_meta.
Variable format : string.
Variable partitioned : bool.
Variable root : tree.
Hypothesis wf : wf_tree root.
Lemma expected_succeeds : forall q,
  (forall p, table_partition partitioned root p -> exists listed, list_files p = Ok listed /\ NoDup listed /\ listing_ok format listed
     /\ forall m b s, base_listed format listed m b -> fs_base s = b -> fs_partition s = p -> exists s', load_metadata_if_needed fm s = Ok s') ->
  exists ss, expected list_files fm format partitioned root q = Ok ss.
Proof.
  intros q H. unfold expected.
  assert (TP : forall p, In p (paths_of partitioned root q) -> table_partition partitioned root p).
  { intros p I. unfold paths_of, table_partition in *. destruct partitioned; [apply filter_In in I as [I _]; now apply in_all_partitions in I|]. destruct I as [ <- |[]]; reflexivity. }
  assert (Po : forall (q : string) (l : list (string * list base_file)), Permutation l ((fun (_ : string) l => l) q l)) by reflexivity.
  destruct (mapM_succeeds _ _ (lists0 list_files format) (paths_of partitioned root q)) as [gss E].
  { intros p I. destruct (H p (TP p I)) as [listed [L [ND [OK _]]]]. apply (list_partition_ok_iff format list_files _ Po p listed L ND). exact OK. }
  rewrite E. cbn [bind]. apply mapM_ok in E. apply mapM_succeeds. intros s I.
  destruct (partitioned || q_include q ""); [|destruct I].
  apply in_flat_map in I as [g [Ig I]]. apply in_concat in Ig as [gs [Igs Ig]]. destruct (Forall2_in_r _ _ _ _ _ _ E Igs) as [p [Ip El]].
  destruct (H p (TP p Ip)) as [listed [L [_ [_ LD]]]]. apply (pick_in list_files fm format) in I as [_ As].
  destruct (group_slices list_files format p listed gs g L El Ig) as [W [Pg Gs]].
  assert (Sp := as_of_spec g (q_time q) W). rewrite As in Sp. destruct Sp as [Ins _].
  destruct (Gs s Ins) as [m [b [Bl [Eb [_ [Ep _]]]]]]. exact (LD m b s Bl Eb Ep).
Qed.
End View.

(** ** The objects *)
Section Whole.
Variable objs : list object.
Variable base : url.
Variable names : list string.
Hypothesis PO : proper_objects objs.
Hypothesis Lo : located base names.
Variable number_of : string -> option Z.
Variable collect : list (string * json) -> list (string * json).
Variable local_to_utc : ndt -> option ndt.
Variable dtype' value' : Type.
Variable cast : dtype' -> string -> option value'.
Variable cmp : value' -> value' -> option comparison.
Variable parse_pschema : string -> outcome (list (string * dtype')).
Variable parse_rows : string -> outcome record_batch.
Variable footer : string -> outcome (Z * Z).
Variable open : options -> options -> outcome unit.
Variable code : dtype -> nat.
Variable rank : dtype -> slot -> Z.
Variable float_cast : dtype -> slot -> option slot.
Variable parse_schema : string -> option avro.
Variable parquet : string -> option (list record_batch).
Let st := object_store objs base dtype' (parse_metadata number_of collect) parse_pschema parse_rows footer open.

(** every file of a listing can be read *)
Lemma read_data : forall dir n o, Forall legal dir -> file_in objs names dir n o -> get_file_data objs base (file_path (join "/" dir) n) = Ok (o_data o).
Proof.
  intros dir n o FD FI. rewrite <- path_is.
  - unfold get_file_data. now rewrite (read_spec objs base names PO Lo dir n o FD FI).
  - now apply dir_end.
  - intros r ->. destruct FI as [_ [[_ [S _]] _]]. discriminate S.
Qed.

Variable tb : table.
Variable tz : string.
Variable listed0 : list file_meta.
Variable l0 : list instant.
Variable dfs : list M_Avro.field.
Variable p s k : nat.
Variable format : string.
Variable partitioned : bool.
Variable hist : string * string -> group.
Variable t : string.
Variable time : ndt.
Variable sch : list (string * dtype').
Variable fields : list string.
Variable hive url : bool.
Hypothesis DL : directory_listing objs names [".hoodie"] listed0.
Hypothesis TZ : timeline_timezone (t_configs tb) = Ok tz.
Hypothesis DN : denoted_instants (denotes_completed local_to_utc tz [Commit; DeltaCommit; ReplaceCommit]) (map fm_name listed0) l0.
Hypothesis PM : Permutation l0 (t_commits tb).
Hypothesis So : StronglySorted instant_le (t_commits tb).
Hypothesis TM : parse_datetime local_to_utc t tz = Ok time.
Hypothesis RI : replacements_in_order objs names number_of collect local_to_utc tz (epoch_millis time).
Hypothesis SF : schema_found objs names number_of collect parse_pschema (t_commits tb) sch.
Hypothesis PF : partition_fields (t_configs tb) = Ok fields.
Hypothesis HF : hive_flag tb = Ok hive.
Hypothesis UF : url_flag tb = Ok url.

Lemma whole_plan : forall fs, (forall f, In f fs -> filter_fits cast sch fields f) -> exists q, plan dtype' value' cast cmp local_to_utc st tb t fs = Ok q.
Proof.
  intros fs FF. destruct SF as [before [i [o [m [dir [n [o' [EC [FI [TX [NS [FD [FI' PS]]]]]]]]]]]]].
  assert (LI : last_opt (t_commits tb) = Some i).
  { rewrite EC. clear. induction before as [|x l IH]; [reflexivity|]. cbn [app]. destruct (l ++ [i])%list eqn:E; [destruct l; discriminate|exact IH]. }
  assert (RD : st_json _ st (".hoodie/" ++ file_name i) = Ok m).
  { rewrite file_name_spec. cbn [st object_store st_json]. pose proof FI as [_ [Ln _]]. rewrite (proj2 (timeline_read objs base names PO Lo _ (o_data o) Ln)) by eauto. cbn [bind].
    unfold parse_metadata. apply slice_text in TX. now rewrite TX. }
  apply (plannable dtype' value' cast cmp local_to_utc st tb t tz time i m (file_path (join "/" dir) n) sch fields hive url fs So TZ TM); try assumption; [| |intros f I; destruct (FF f I) as [X [ty [v [Y [Z W]]]]]; exists ty, v; auto].
  - intros j I _ A W. apply (Permutation_in _ (Permutation_sym PM)) in I. destruct (denoted_in _ _ _ DN _ I) as [n' [In' [ts [a [dt [D [N [_ [T E]]]]]]]]].
    subst j. cbn [i_action i_timestamp i_state i_epoch] in *. subst a. apply in_map_iff in In' as [x [Ex Ix]]. apply (proj2 DL) in Ix as [y [oy [FY Ey]]]. subst x. cbn [fm_name new_meta] in Ex. subst y.
    destruct N as [ -> | -> ]; [|now apply (proj1 RI) in FY].
    destruct (proj2 RI ts oy dt FY D T W) as [md [TM' RO]]. exists md. split; [|exact RO].
    rewrite file_name_spec. cbn [i_action i_timestamp i_state timeline_name st object_store st_json]. pose proof FY as [_ [Ln _]]. rewrite (proj2 (timeline_read objs base names PO Lo (ts ++ ".replacecommit") (o_data oy) Ln)) by eauto.
    cbn [bind]. unfold parse_metadata. apply slice_text in TM'. now rewrite TM'.
  - cbn [st object_store st_schema]. rewrite (read_data dir n o' FD FI'). exact PS.
Qed.

Hypothesis MT : merging_table tb (map (as_field code) dfs) p s k.
Hypothesis BF : base_format (t_configs tb) = Ok format.
Hypothesis PT : is_table_partitioned (t_configs tb) = Ok partitioned.
Hypothesis TS : timestamp t.
Hypothesis OP : forall x, readers_open st tb [("hoodie.read.file_group.end_timestamp", x)].
Hypothesis FO : files_in_order objs names format partitioned footer.
Variable filters : list (string * string * string).
Variable fs : list filter_expr.
Hypothesis FT : from_str_tuples filters = Ok fs.
Hypothesis FF : forall f, In f fs -> filter_fits cast sch fields f.

(** ... for file groups of which only the layout is known *)
Section Layouts.
Hypothesis LB : forall g c, has_base objs names format partitioned g c -> exists contents,
  forall dir listed content, object_partition objs names partitioned (fst g) dir -> directory_listing objs names dir listed ->
    (forall n o, file_in objs names dir n o -> content (file_path (fst g) n) = Ok (o_data o)) ->
    written_out parse_schema encodes code rank (fun path => let* d := content path in parse_rows d) content format (fst g) (snd g) dfs listed contents (hist g).
Lemma whole_expected : forall q, exists ss, expected (st_files _ st) (st_meta _ st) format partitioned (object_tree objs base) q = Ok ss.
Proof.
  intros q. apply expected_succeeds. intros pa TP. apply (partition_dirs objs base names PO Lo) in TP as [dir OPn]. pose proof OPn as [FD [EP _]].
  destruct (files_spec objs base names PO Lo dir FD) as [l [E NS]]. exists l. split; [cbn [st object_store st_files]; now rewrite EP|].
  split; [apply NoDup_map_inv with (f := fm_name); apply NS|]. destruct (FO pa dir OPn) as [LK FR]. split; [exact (LK l NS)|].
  intros m b sl B Eb Ep. pose proof B as [Im [NM [BN BO]]]. apply (proj2 NS) in Im as [n [o [FI ->]]]. cbn [fm_name new_meta] in *.
  assert (HB : has_base objs names format partitioned (pa, bf_file_id b) (bf_commit b)) by (exists dir, n, o, b; repeat split; try assumption; try apply OPn; try apply FI).
  destruct (LB _ _ HB) as [contents WO].
  assert (EN : base_file_name b = n).
  { assert (W := WO dir l (get_file_data objs base) OPn NS). rewrite (wo_names _ _ _ _ _ _ _ _ _ _ _ _ _ (W ltac:(cbn [fst]; intros n' o' F'; rewrite EP; now apply read_data)) _ _ B eq_refl). reflexivity. }
  assert (M : exists mm, st_meta _ st (base_relative_path sl) = Ok mm).
  { unfold base_relative_path. rewrite Ep, Eb, EN, EP. cbn [st object_store st_meta]. unfold get_file_metadata. rewrite (read_spec objs base names PO Lo dir n o FD FI). cbn [bind].
    pose proof FI as [_ [Ln Ek]]. rewrite Ek, app_assoc, filename_key; [|apply Forall_app; split; [apply Lo|exact FD]|exact Ln]. cbn [ok_or bind].
    destruct (FR n o FI NM BN) as [[x y] ->]. cbn [bind]. eauto. }
  destruct M as [mm M]. unfold load_metadata_if_needed. rewrite M. cbn [bind]. destruct (bf_meta (fs_base sl)) as [m0|]; [destruct (fm_populated m0)|]; eauto.
Qed.

Lemma slices_succeed : forall c c' r, view_after dtype' value' cast cmp local_to_utc st tb c -> get_file_slices_as_of dtype' value' cast cmp local_to_utc st tb t filters c c' r -> exists ss, r = Ok ss.
Proof.
  intros c c' r VA G. inversion G as [? e E|? ? fs' ? E SA]; subst; [congruence|]. assert (fs' = fs) by congruence. subst fs'.
  destruct (whole_plan fs FF) as [q Q].
  inversion SA as [? e P|? P|? ? q' pt fm n ? P P1 P2 P3 V]; subst; try congruence. assert (q' = q) by congruence. assert (pt = partitioned) by congruence. assert (fm = format) by congruence. subst.
  assert (CO := history_ok _ _ _ _ _ _ _ (tree_served objs base names PO Lo) (tree_wf objs base names PO Lo _ [] (Forall_nil _)) _ (after_history dtype' value' cast cmp local_to_utc st tb c VA _ _ _ P1 P2 P3)).
  destruct (query_answer _ _ _ _ _ _ _ (tree_served objs base names PO Lo) (tree_wf objs base names PO Lo _ [] (Forall_nil _)) _ _ _ _ CO (plan_wf _ _ _ _ _ _ _ _ _ _ Q) V) as [_ SA'].
  destruct (whole_expected q) as [ss X]. rewrite X in SA'. destruct r as [ss'|e|]; [eauto|destruct SA'|destruct SA'].
Qed.

Lemma joined_total : forall A (os : list (outcome A)), exists r, joined os r.
Proof.
  intros A os. assert (X : (exists l, os = map Ok l) \/ exists o, In o os /\ forall x, o <> Ok x).
  { induction os as [|o os IH]; [left; now exists []|]. destruct o as [x|e|]; [|right; exists (Err e); split; [now left|discriminate]|right; exists Panic; split; [now left|discriminate]].
    destruct IH as [[l ->]|[o [I N]]]; [left; now exists (x :: l)|right; exists o; split; [now right|exact N]]. }
  destruct X as [[l ->]|[o [I N]]]; [exists (Ok l); constructor|]. destruct o as [x|e|]; [now elim (N x)|exists (Err e); now constructor|exists Panic; now constructor].
Qed.

Lemma layouts_succeed : (forall c c' ss r, view_after dtype' value' cast cmp local_to_utc st tb c -> get_file_slices_as_of dtype' value' cast cmp local_to_utc st tb t filters c c' (Ok ss) ->
    read_slices dtype' avro value parse_schema decode check_schema (to_batch code rank float_cast) parquet local_to_utc st tb [("hoodie.read.file_group.end_timestamp", t)] ss r -> exists batches, r = Ok batches) ->
  forall c, view_after dtype' value' cast cmp local_to_utc st tb c ->
  (forall c' r, read_snapshot_as_of dtype' value' cast cmp avro value parse_schema decode check_schema (to_batch code rank float_cast) parquet local_to_utc st tb t filters c c' r -> exists batches, r = Ok batches)
  /\ forall n, listing_parallelism (t_configs tb) = Ok n -> (0 < n)%Z ->
     exists c' batches, read_snapshot_as_of dtype' value' cast cmp avro value parse_schema decode check_schema (to_batch code rank float_cast) parquet local_to_utc st tb t filters c c' (Ok batches).
Proof.
  intros SR c VA.
  assert (A : forall c' r, read_snapshot_as_of dtype' value' cast cmp avro value parse_schema decode check_schema (to_batch code rank float_cast) parquet local_to_utc st tb t filters c c' r -> exists batches, r = Ok batches).
  { intros c' r R. inversion R as [? ? e G|? ? G|? ? ss ? G RS]; subst.
    - destruct (slices_succeed _ _ _ VA G) as [ss E]; discriminate.
    - destruct (slices_succeed _ _ _ VA G) as [ss E]; discriminate.
    - exact (SR _ _ _ _ VA G RS). }
  split; [exact A|]. intros n LP N. destruct (whole_plan fs FF) as [q Q].
  destruct (query_runs (st_files _ st) (st_dirs _ st) (st_meta _ st) format partitioned (Z.to_nat n) _ (tree_served objs base names PO Lo) (tree_wf objs base names PO Lo _ [] (Forall_nil _)) ltac:(lia) c q (plan_wf _ _ _ _ _ _ _ _ _ _ Q)) as [c' [r V]].
  assert (G : get_file_slices_as_of dtype' value' cast cmp local_to_utc st tb t filters c c' r) by (eapply ga_ok; [exact FT|]; eapply sa_view; eauto).
  destruct (slices_succeed _ _ _ VA G) as [ss ->].
  set (o := table_reader_options (fun m => m) (t_configs tb) (t_storage tb) [("hoodie.read.file_group.end_timestamp", t)]).
  set (read := fun sl => read_file_slice (@L_Reader.isort _) (fun m => m) (st_parquet _ st) avro value parse_schema decode check_schema (to_batch code rank float_cast) parquet local_to_utc (st_bytes _ st) (fst o) sl).
  destruct (joined_total _ (map read ss)) as [r J].
  assert (RS : read_slices dtype' avro value parse_schema decode check_schema (to_batch code rank float_cast) parquet local_to_utc st tb [("hoodie.read.file_group.end_timestamp", t)] ss r).
  { apply rs_read with (iter := fun m => m) (os := map read ss); [intros m; reflexivity| |exact J]. cbn zeta. split; [exact (OP t (fun m => m) (fun m => Permutation_refl m))|]. clear. induction ss as [|x ss IH]; constructor; [|exact IH].
    exists (@L_Reader.isort _), (fun m => m). split; [apply L_Reader.isort_sorts|]. split; [intros m; reflexivity|reflexivity]. }
  assert (R : read_snapshot_as_of dtype' value' cast cmp avro value parse_schema decode check_schema (to_batch code rank float_cast) parquet local_to_utc st tb t filters c c' r) by (eapply ra_ok; eauto).
  destruct (A _ _ R) as [bs ->]. eauto.
Qed.
End Layouts.

Hypothesis WB : written_by objs names format partitioned parse_schema code rank parse_rows dfs k p s t hist.
Lemma whole_slices_read : forall c c' ss r, view_after dtype' value' cast cmp local_to_utc st tb c -> get_file_slices_as_of dtype' value' cast cmp local_to_utc st tb t filters c c' (Ok ss) ->
  (forall fields', get_partition_schema dtype' st tb = Ok fields' -> wf_fields fields') ->
  read_slices dtype' avro value parse_schema decode check_schema (to_batch code rank float_cast) parquet local_to_utc st tb [("hoodie.read.file_group.end_timestamp", t)] ss r -> exists batches, r = Ok batches.
Proof.
  intros c c' ss r VA G WF. eapply (snapshot_succeeds) with (format := format) (root := object_tree objs base); try eassumption.
  - exact (tree_served objs base names PO Lo).
  - exact (tree_wf objs base names PO Lo _ [] (Forall_nil _)).
  - intros slice listed I Li.
    destruct (object_snapshots dtype' value' cast cmp local_to_utc objs base names st tb PO Lo eq_refl eq_refl So c c' t filters ss VA G)
      as [fs' [tz' [time' [fields' [hive' [url' [format' [partitioned' [P1 [P2 [P3 [P4 [P5 [P6 [P7 [P8 P9]]]]]]]]]]]]]]]].
    rewrite BF in P7. injection P7 as <-. rewrite PT in P8. injection P8 as <-. destruct (P9 (WF _ P4)) as [S1 _].
    destruct (S1 slice I) as [dir [li [OPn [DI [[m [b [[Im [NM [BN BO]]] [_ [E1 [_ [E3 [LE _]]]]]]]] _]]]]]. pose proof OPn as [FD [EP _]].
    assert (HB : has_base objs names format partitioned (slice_id slice) (bf_commit b)).
    { apply (proj2 DI) in Im as [n [o [FI ->]]]. exists dir, n, o, b. cbn [slice_id fst snd]. repeat split; try assumption; try apply OPn; try apply FI. now rewrite <- E1. }
    destruct (WB _ _ HB) as [now [contents [HI [CL WO]]]].
    exists now, (hist (slice_id slice)). eexists. split; [exact HI|]. split; [exact CL|].
    apply written_laid_out. apply stored_out. destruct (files_spec objs base names PO Lo dir FD) as [l [E NS]].
    assert (listed = l) by (cbn [st object_store st_files] in Li; rewrite EP, E in Li; congruence). subst listed.
    apply (WO dir l (get_file_data objs base) OPn NS). intros n o FI. cbn [slice_id fst]. rewrite EP. now apply read_data.
Qed.

Lemma whole_succeeds : (forall fields', get_partition_schema dtype' st tb = Ok fields' -> wf_fields fields') ->
  forall c, view_after dtype' value' cast cmp local_to_utc st tb c ->
  (forall c' r, read_snapshot_as_of dtype' value' cast cmp avro value parse_schema decode check_schema (to_batch code rank float_cast) parquet local_to_utc st tb t filters c c' r -> exists batches, r = Ok batches)
  /\ forall n, listing_parallelism (t_configs tb) = Ok n -> (0 < n)%Z ->
     exists c' batches, read_snapshot_as_of dtype' value' cast cmp avro value parse_schema decode check_schema (to_batch code rank float_cast) parquet local_to_utc st tb t filters c c' (Ok batches).
Proof.
  intros WF. apply layouts_succeed.
  - intros g c H. destruct (WB g c H) as [now [contents [_ [_ WO]]]]. now exists contents.
  - intros c c' ss r VA G. exact (whole_slices_read c c' ss r VA G WF).
Qed.
End Whole.
