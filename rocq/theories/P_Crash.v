(** C89: writers that stop before they complete are not seen. *)
From Coq Require Import Sorted.
From Verif Require Import Base Str M_Utf8 M_Time M_Instant M_Timeline M_FileGroup M_Builder M_Listing M_Expr M_Log M_Config M_Reader M_Table M_Storage M_Avro M_Values M_Datum M_Json M_Objects M_Open
  S_Time S_Timeline S_FileGroup S_Builder S_Listing S_Expr S_Log S_Reader S_Config S_Table S_Avro S_Storage S_Objects S_Open S_History S_Values S_Datum S_Json S_Whole S_Changes S_Follow S_Bases S_Readers S_Crash
  L_Base L_Str L_Timeline L_Open L_Whole L_WholeChanges L_Follow L_Crash E_Scan E_Open E_History E_Values E_Datum E_Json E_Whole E_WholeChanges E_Crash P_Whole P_WholeChanges P_Follow P_Bases.
Local Open Scope string_scope.

(** A table is opened before and after writers began that did not complete.  Its last commit is the same. *)
Theorem C89_latest : forall iter env parse stores global local_to_utc sort_unstable b tb u names objs iter' env' parse' stores' global' sort_unstable' b' tb' u' objs' partitioned t,
  visits_all iter -> S_Timeline.sorts sort_unstable -> one_per_key (b_options b) ->
  build iter env parse stores global local_to_utc sort_unstable b = Ok (tb, u, objs) -> located u names -> proper_objects objs ->
  visits_all iter' -> S_Timeline.sorts sort_unstable' -> one_per_key (b_options b') ->
  build iter' env' parse' stores' global' local_to_utc sort_unstable' b' = Ok (tb', u', objs') -> located u' names -> proper_objects objs' ->
  timeline_timezone (t_configs tb) = Ok "utc" -> timeline_timezone (t_configs tb') = Ok "utc" ->
  timeline_in_order objs names -> unfinished objs objs' names partitioned t ->
  latest_commit_timestamp (t_commits tb') = latest_commit_timestamp (t_commits tb).
Proof.
  intros iter env parse stores global L f b tb u names objs iter' env' parse' stores' global' f' b' tb' u' objs' pt t VA SU OK BU Lo PO VA' SU' OK' BU' Lo' PO' TZ TZ' TO UF.
  destruct (opened iter VA env parse stores global L f b tb u names objs SU OK BU Lo PO) as [u0 [o0 [da [pp [_ [_ [_ [_ [_ [_ [_ [_ [li [tz [l0 [DL [TZ0 [DN [PM So]]]]]]]]]]]]]]]]]]].
  destruct (opened iter' VA' env' parse' stores' global' L f' b' tb' u' names objs' SU' OK' BU' Lo' PO') as [u0' [o0' [da' [pp' [_ [_ [_ [_ [_ [_ [_ [_ [li' [tz' [l0' [DL' [TZ0' [DN' [PM' So']]]]]]]]]]]]]]]]]]].
  assert (tz = "utc") by congruence. assert (tz' = "utc") by congruence. subst tz tz'. symmetry. apply same_latest; [exact So|exact So'|exact (instants_same objs objs' names pt t UF L "utc" li l0 _ li' l0' _ DL DN PM DL' DN' PM')|].
  intros i j I J E. destruct (instant_object objs names L _ _ _ DL DN PM TO i I) as [_ [Ti [_ [di [Pi Ei]]]]]. destruct (instant_object objs names L _ _ _ DL DN PM TO j J) as [_ [Tj [_ [dj [Pj Ej]]]]].
  apply sle_antisym; [apply (stamp_order L _ _ di dj Ti Tj Pi Pj)|apply (stamp_order L _ _ dj di Tj Ti Pj Pi)]; lia.
Qed.
Print Assumptions C89_latest.

(** Queries of the latest snapshot.  A table whose queries read base files only: the file groups have no log files, or
    the options say so.  Wherever the writers stopped, and whatever their base files hold, in part or not at all: the
    same batches are returned. *)
Theorem C89_base_files_partial : forall iter env parse stores global local_to_utc sort_unstable b tb u names objs iter' env' parse' stores' global' sort_unstable' b' tb' u' objs'
    number_of collect dtype' value' cast cmp parse_pschema parse_rows footer open open' avro_schema avro_value parse_schema datum check_schema to_batch parquet,
  visits_all iter -> S_Timeline.sorts sort_unstable -> one_per_key (b_options b) ->
  build iter env parse stores global local_to_utc sort_unstable b = Ok (tb, u, objs) -> located u names -> proper_objects objs ->
  visits_all iter' -> S_Timeline.sorts sort_unstable' -> one_per_key (b_options b') ->
  build iter' env' parse' stores' global' local_to_utc sort_unstable' b' = Ok (tb', u', objs') -> located u' names -> proper_objects objs' ->
  let st := object_store objs u dtype' (parse_metadata number_of collect) parse_pschema parse_rows footer open in
  let st' := object_store objs' u' dtype' (parse_metadata number_of collect) parse_pschema parse_rows footer open' in
  forall format partitioned,
  plain_table tb -> (forall fields, get_partition_schema dtype' st tb = Ok fields -> wf_fields fields) ->
  base_format (t_configs tb) = Ok format -> is_table_partitioned (t_configs tb) = Ok partitioned -> timeline_timezone (t_configs tb) = Ok "utc" ->
  base_names_plain objs names format partitioned ->
  plain_table tb' -> (forall fields, get_partition_schema dtype' st' tb' = Ok fields -> wf_fields fields) ->
  base_format (t_configs tb') = Ok format -> is_table_partitioned (t_configs tb') = Ok partitioned -> timeline_timezone (t_configs tb') = Ok "utc" ->
  base_names_plain objs' names format partitioned ->
  forall t time, parse_datetime local_to_utc t "utc" = Ok time -> latest_commit_timestamp (t_commits tb) = Some t ->
  read_optimized_table tb \/ (forall g, live objs names format partitioned number_of collect local_to_utc "utc" t (epoch_millis time) g -> without_logs objs names format partitioned g) ->
  read_optimized_table tb' \/ (forall g, live objs' names format partitioned number_of collect local_to_utc "utc" t (epoch_millis time) g -> without_logs objs' names format partitioned g) ->
  timeline_in_order objs names -> unfinished objs objs' names partitioned t -> one_base_each (base_object objs names format partitioned) ->
  forall c c1 c' c1' batches batches', view_after dtype' value' cast cmp local_to_utc st tb c -> view_after dtype' value' cast cmp local_to_utc st' tb' c' ->
  read_snapshot dtype' value' cast cmp avro_schema avro_value parse_schema datum check_schema to_batch parquet local_to_utc st tb [] c c1 (Ok batches) ->
  read_snapshot dtype' value' cast cmp avro_schema avro_value parse_schema datum check_schema to_batch parquet local_to_utc st' tb' [] c' c1' (Ok batches') ->
  Permutation batches batches'.
Proof.
  intros iter env parse stores global L f b tb u names objs iter' env' parse' stores' global' f' b' tb' u' objs' nu co D V ca cm ps pr fo op op' A B sc da ch tob pq VA SU OK BU Lo PO VA' SU' OK' BU' Lo' PO' st st'
    format pt PL WF BF PT TZ BN PL' WF' BF' PT' TZ' BN' t time TM LT MODE MODE' TO UF OB c c1 c' c1' bs bs' VW VW' R R'.
  pose proof (C89_latest iter env parse stores global L f b tb u names objs iter' env' parse' stores' global' f' b' tb' u' objs' pt t VA SU OK BU Lo PO VA' SU' OK' BU' Lo' PO' TZ TZ' TO UF) as LT'. rewrite LT in LT'.
  inversion R as [|? ? t1 ? X1 R1]; subst; [congruence|]. assert (t1 = t) by congruence. subst t1.
  inversion R' as [|? ? t1 ? X1' R1']; subst; [congruence|]. assert (t1 = t) by congruence. subst t1.
  destruct (C88_snapshot_partial iter env parse stores global L f b tb u names objs nu co D V ca cm ps pr fo op A B sc da ch tob pq VA SU OK BU Lo PO format pt "utc" PL WF BF PT TZ BN t time TM MODE [] c c1 bs VW R1)
    as [gs [fs [fields [hive [url [E1 [_ [_ [_ [ND [G1 [G2 FA]]]]]]]]]]]].
  destruct (C88_snapshot_partial iter' env' parse' stores' global' L f' b' tb' u' names objs' nu co D V ca cm ps pr fo op' A B sc da ch tob pq VA' SU' OK' BU' Lo' PO' format pt "utc" PL' WF' BF' PT' TZ' BN' t time TM MODE' [] c' c1' bs' VW' R1')
    as [gs' [fs' [fields' [hive' [url' [E1' [_ [_ [_ [ND' [G1' [G2' FA']]]]]]]]]]]].
  injection E1 as <-. injection E1' as <-. pose proof (live_later objs objs' names format pt nu co L "utc" t (epoch_millis time) PO' (unfinished_later objs objs' names pt t UF L format "utc" (epoch_millis time))) as LV.
  refine (paired _ _ gs gs' bs bs' ND ND' _ FA FA' _).
  - intros g. split; intros I; [apply G2'; [apply LV; now apply G1|now left]|apply G2; [apply LV; now apply G1'|now left]].
  - intros g x y _ [c0 [o [N P]]] [c0' [o' [N' P']]]. apply (newest_same objs objs' names pt t format g c0' o' UF) in N'.
    assert (c0 = c0'). { apply sle_antisym; [apply N' with o|apply N with o']; (apply N || apply N'). }
    subst c0'. assert (o = o') by (apply (OB g c0); [apply N|apply N']). subst o'. congruence.
Qed.
Print Assumptions C89_base_files_partial.

(** Queries of the latest snapshot of a table whose queries read base files only succeed, whatever the unfinished
    writers left: all that is needed of the contents of objects is that the objects of before are readable. *)
Theorem C89_reads_succeed : forall iter env parse stores global local_to_utc sort_unstable b tb u names objs iter' env' parse' stores' global' sort_unstable' b' tb' u' objs'
    number_of collect dtype' value' cast cmp parse_pschema parse_rows footer avro_schema avro_value parse_schema datum check_schema to_batch parquet,
  visits_all iter -> S_Timeline.sorts sort_unstable -> one_per_key (b_options b) ->
  build iter env parse stores global local_to_utc sort_unstable b = Ok (tb, u, objs) -> located u names -> proper_objects objs ->
  visits_all iter' -> S_Timeline.sorts sort_unstable' -> one_per_key (b_options b') -> by_value stores' ->
  build iter' env' parse' stores' global' local_to_utc sort_unstable' b' = Ok (tb', u', objs') -> located u' names -> proper_objects objs' ->
  let st' := object_store objs' u' dtype' (parse_metadata number_of collect) parse_pschema parse_rows footer (storage_opens parse' stores') in
  forall format partitioned n columns hive url,
  timeline_timezone (t_configs tb) = Ok "utc" ->
  plain_table tb' -> (forall fields, get_partition_schema dtype' st' tb' = Ok fields -> wf_fields fields) ->
  base_format (t_configs tb') = Ok format -> is_table_partitioned (t_configs tb') = Ok partitioned -> timeline_timezone (t_configs tb') = Ok "utc" ->
  partition_fields (t_configs tb') = Ok columns -> hive_flag tb' = Ok hive -> url_flag tb' = Ok url -> listing_parallelism (t_configs tb') = Ok n -> (0 < n)%Z ->
  base_names_plain objs' names format partitioned ->
  (forall path dir listed, object_partition objs' names partitioned path dir -> directory_listing objs' names dir listed -> listing_ok format listed) ->
  forall t time sch, parse_datetime local_to_utc t "utc" = Ok time -> latest_commit_timestamp (t_commits tb) = Some t ->
  timeline_in_order objs names -> unfinished objs objs' names partitioned t ->
  (forall i j, In i (t_commits tb) -> In j (t_commits tb) -> i_timestamp i = i_timestamp j -> i = j) ->
  replacements_in_order objs names number_of collect local_to_utc "utc" (epoch_millis time) -> schema_found objs names number_of collect parse_pschema (t_commits tb) sch ->
  read_optimized_table tb' \/ (forall g, live objs names format partitioned number_of collect local_to_utc "utc" t (epoch_millis time) g -> without_logs objs' names format partitioned g) ->
  (forall g c0 o, live objs names format partitioned number_of collect local_to_utc "utc" t (epoch_millis time) g -> newest_base objs names format partitioned g t c0 o ->
     (exists stats, footer (o_data o) = Ok stats) /\ exists batch, parse_rows (o_data o) = Ok batch) ->
  forall filters fs, from_str_tuples filters = Ok fs -> (forall f, In f fs -> filter_fits cast sch columns f) ->
  forall c, view_after dtype' value' cast cmp local_to_utc st' tb' c ->
  let read := read_snapshot dtype' value' cast cmp avro_schema avro_value parse_schema datum check_schema to_batch parquet local_to_utc st' tb' filters c in
  (exists c' r, read c' r) /\ forall c' r, read c' r -> exists batches, r = Ok batches.
Proof.
  intros iter env parse stores global L f b tb u names objs iter' env' parse' stores' global' f' b' tb' u' objs' nu co D V ca cm ps pr fo A B sc da ch tob pq VA SU OK BU Lo PO VA' SU' OK' BV' BU' Lo' PO' st'
    format pt n cols hive url TZ PL' WF' BF' PT' TZ' PF HF UFl LP NP BN LK t time sch TM LT TO UF ONE RI SF MODE RD filters fs FT FF c VW read.
  pose proof (C89_latest iter env parse stores global L f b tb u names objs iter' env' parse' stores' global' f' b' tb' u' objs' pt t VA SU OK BU Lo PO VA' SU' OK' BU' Lo' PO' TZ TZ' TO UF) as LT'. rewrite LT in LT'.
  pose proof (live_later objs objs' names format pt nu co L "utc" t (epoch_millis time) PO' (unfinished_later objs objs' names pt t UF L format "utc" (epoch_millis time))) as LV.
  assert (SF' : schema_found objs' names nu co ps (t_commits tb') sch).
  { destruct (opened iter VA env parse stores global L f b tb u names objs SU OK BU Lo PO) as [u0 [o0 [d1 [pp [_ [_ [_ [_ [_ [_ [_ [_ [li [tz [l0 [DL [TZ0 [DN [PM So]]]]]]]]]]]]]]]]]]].
    destruct (opened iter' VA' env' parse' stores' global' L f' b' tb' u' names objs' SU' OK' BU' Lo' PO') as [u0' [o0' [d1' [pp' [_ [_ [_ [_ [_ [_ [_ [_ [li' [tz' [l0' [DL' [TZ0' [DN' [PM' So']]]]]]]]]]]]]]]]]]].
    assert (tz = "utc") by congruence. assert (tz' = "utc") by congruence. subst tz tz'.
    pose proof (instants_same objs objs' names pt t UF L "utc" li l0 _ li' l0' _ DL DN PM DL' DN' PM') as SI.
    destruct SF as [bf [i [o [m [dir [nm [o' [EC [F1 [M1 [M2 [FD [F2 PS]]]]]]]]]]]]].
    unfold latest_commit_timestamp in LT, LT'. destruct (last_opt (t_commits tb')) as [j|] eqn:EJ; [|discriminate LT']. cbn [option_map] in LT'. injection LT' as TJ.
    destruct (L_Builder.last_opt_split _ _ _ EJ) as [bf' EB].
    rewrite EC, L_Builder.last_opt_snoc in LT. cbn [option_map] in LT. injection LT as TI.
    assert (j = i). { apply ONE; [apply SI; rewrite EB; apply in_or_app; right; now left|rewrite EC; apply in_or_app; right; now left|congruence]. }
    subst j. exists bf', i, o, m, dir, nm, o'. split; [exact EB|]. split; [split; [apply (uf_kept _ _ _ _ _ UF); apply F1|apply F1]|]. split; [exact M1|]. split; [exact M2|]. split; [exact FD|].
    split; [split; [apply (uf_kept _ _ _ _ _ UF); apply F2|apply F2]|exact PS]. }
  assert (RI' : replacements_in_order objs' names nu co L "utc" (epoch_millis time)).
  { destruct RI as [R1 R2]. assert (BK : forall ts dot o, In dot [""; "."] -> file_in objs' names [".hoodie"] (ts ++ ".replacecommit" ++ dot) o -> file_in objs names [".hoodie"] (ts ++ ".replacecommit" ++ dot) o).
    { intros ts dot o I F. destruct (in_dec object_dec o objs) as [J|J]; [split; [exact J|apply F]|]. exfalso.
      apply (pending_not _ ts ReplaceCommit dot (uf_timeline _ _ _ _ _ UF _ _ F J) I). reflexivity. }
    split.
    - intros ts o F. apply (R1 ts o). apply (BK ts "." o); [right; now left|exact F].
    - intros ts o dt F. apply (R2 ts o dt). change ".replacecommit" with (".replacecommit" ++ ""). apply (BK ts "" o); [now left|exact F]. }
  destruct (C88_reads_succeed iter' env' parse' stores' global' L f' b' tb' u' names objs' nu co D V ca cm ps pr fo A B sc da ch tob pq VA' SU' OK' BV' BU' Lo' PO' format pt "utc" n cols hive url PL' WF' BF' PT' TZ' PF HF UFl LP NP BN LK
    t time sch TM RI' SF') with (filters := filters) (fs := fs) (c := c) as [[c' [r X]] Y]; try assumption.
  - destruct MODE as [M|M]; [now left|]. right. intros g Lg. apply M. now apply LV.
  - intros g c0 o Lg Ng. apply (RD g c0 o); [now apply LV|]. now apply (newest_same objs objs' names pt t format g c0 o UF).
  - split; [exists c', r; now apply rn_some with t|]. intros c1 r1 R. inversion R as [|? ? t1 ? X1 R1]; subst; [congruence|]. assert (t1 = t) by congruence. subst t1. exact (Y _ _ R1).
Qed.
Print Assumptions C89_reads_succeed.

(** Tables with log files, from the bytes of the objects: the same records are returned, if the writers wrote their
    files whole. *)
Theorem C89_records_partial : forall iter env parse stores global local_to_utc sort_unstable b tb u names objs iter' env' parse' stores' global' sort_unstable' b' tb' u' objs'
    number_of collect dtype' value' cast cmp parse_pschema parse_rows footer open open' code rank float_cast parse_schema parquet,
  visits_all iter -> S_Timeline.sorts sort_unstable -> one_per_key (b_options b) ->
  build iter env parse stores global local_to_utc sort_unstable b = Ok (tb, u, objs) -> located u names -> proper_objects objs ->
  visits_all iter' -> S_Timeline.sorts sort_unstable' -> one_per_key (b_options b') ->
  build iter' env' parse' stores' global' local_to_utc sort_unstable' b' = Ok (tb', u', objs') -> located u' names -> proper_objects objs' ->
  let st := object_store objs u dtype' (parse_metadata number_of collect) parse_pschema parse_rows footer open in
  let st' := object_store objs' u' dtype' (parse_metadata number_of collect) parse_pschema parse_rows footer open' in
  forall dfs p s k format partitioned,
  merging_table tb (map (as_field code) dfs) p s k -> (forall fields, get_partition_schema dtype' st tb = Ok fields -> wf_fields fields) ->
  base_format (t_configs tb) = Ok format -> is_table_partitioned (t_configs tb) = Ok partitioned -> timeline_timezone (t_configs tb) = Ok "utc" ->
  merging_table tb' (map (as_field code) dfs) p s k -> (forall fields, get_partition_schema dtype' st' tb' = Ok fields -> wf_fields fields) ->
  base_format (t_configs tb') = Ok format -> is_table_partitioned (t_configs tb') = Ok partitioned -> timeline_timezone (t_configs tb') = Ok "utc" ->
  forall t time hist hist', parse_datetime local_to_utc t "utc" = Ok time -> timestamp t -> latest_commit_timestamp (t_commits tb) = Some t ->
  written_by objs names format partitioned parse_schema code rank parse_rows dfs k p s t hist ->
  written_by objs' names format partitioned parse_schema code rank parse_rows dfs k p s t hist' ->
  timeline_in_order objs names -> unfinished objs objs' names partitioned t ->
  (forall g c, has_base objs names format partitioned g c -> exists now', continues k p s t (hist g) now' (hist' g)) ->
  let is_live := live objs names format partitioned number_of collect local_to_utc "utc" t (epoch_millis time) in
  let is_live' := live objs' names format partitioned number_of collect local_to_utc "utc" t (epoch_millis time) in
  keys_apart k is_live hist -> keys_apart k is_live' hist' -> (forall g, is_live' g -> distinct_versions k p s (hist' g) t) ->
  forall c c1 c' c1' batches batches', view_after dtype' value' cast cmp local_to_utc st tb c -> view_after dtype' value' cast cmp local_to_utc st' tb' c' ->
  read_snapshot dtype' value' cast cmp avro value parse_schema decode check_schema (to_batch code rank float_cast) parquet local_to_utc st tb [] c c1 (Ok batches) ->
  read_snapshot dtype' value' cast cmp avro value parse_schema decode check_schema (to_batch code rank float_cast) parquet local_to_utc st' tb' [] c' c1' (Ok batches') ->
  Permutation (flat_map rb_rows batches) (flat_map rb_rows batches').
Proof.
  intros iter env parse stores global L f b tb u names objs iter' env' parse' stores' global' f' b' tb' u' objs' nu co D V ca cm ps pr fo op op' code rank fc sc pq VA SU OK BU Lo PO VA' SU' OK' BU' Lo' PO' st st' dfs p s k format pt
    MT WF BF PT TZ MT' WF' BF' PT' TZ' t time hist hist' TM TS LT WB WB' TO UF HC l l' KA KA' DV c c1 c' c1' bs bs' Vw Vw' R R'.
  pose proof (C89_latest iter env parse stores global L f b tb u names objs iter' env' parse' stores' global' f' b' tb' u' objs' pt t VA SU OK BU Lo PO VA' SU' OK' BU' Lo' PO' TZ TZ' TO UF) as LT'. rewrite LT in LT'.
  inversion R as [|? ? t1 ? X1 R1]; subst; [congruence|]. assert (t1 = t) by congruence. subst t1.
  inversion R' as [|? ? t1 ? X1' R1']; subst; [congruence|]. assert (t1 = t) by congruence. subst t1.
  apply (C55_objects_partial iter env parse stores global L f b tb u names objs iter' env' parse' stores' global' f' b' tb' u' objs' nu co D V ca cm ps pr fo op op' code rank fc sc pq VA SU OK BU Lo PO VA' SU' OK' BU' Lo' PO' dfs p s k format pt "utc"
    MT WF BF PT TZ MT' WF' BF' PT' TZ' t time (fun _ => t) hist hist' TS TM WB WB' (unfinished_later objs objs' names pt t UF L format "utc" (epoch_millis time))) with (c := c) (c1 := c1) (c' := c') (c1' := c1'); try assumption.
  intros g c0 HB. destruct (HC g c0 HB) as [now' C]. exists now'. split; [exact C|apply sle_refl].
Qed.
Print Assumptions C89_records_partial.

(** ** The hypotheses are met *)
(** A copy-on-write table.  A writer stopped while it wrote its base file. *)
Definition kc_h6 := "h_0-0-0_20250106000000000.parquet".
Definition kc_names : list (string * string) :=
  [(".hoodie/hoodie.properties", lines_of ["hoodie.table.name=t"; "hoodie.table.type=COPY_ON_WRITE"; "hoodie.table.version=6"; "hoodie.timeline.layout.version=1";
      "hoodie.table.precombine.field=ts"; "hoodie.datasource.write.hive_style_partitioning=false"; "hoodie.datasource.write.partitionpath.urlencode=false"]);
   (".hoodie/20250101000000000.commit", wx_commit (wx_stat "f" (fm_name hx_base1) ++ "," ++ wx_stat "h" wx_h) "");
   (".hoodie/20250105000000000.commit", wx_commit (wx_stat "f" (fm_name hx_base5)) "");
   (wx_h, "h1"); (fm_name hx_base1, "b1"); (fm_name hx_base5, "b5")].
Definition kc_more : list (list string * string * string) :=
  [([".hoodie"], "20250106000000000.commit.requested", ""); ([".hoodie"], "20250106000000000.inflight", ""); ([], kc_h6, "PAR")].
Definition kc_objs : list object := at_names kc_names.
Definition kc_after : list object := at_names (kc_names ++ map (fun x => (key_of (fst (fst x) ++ [snd (fst x)]), snd x)) kc_more).
Definition kc_snapshot (objs : list object) (batches : list (list (list cell))) : Prop := exists c',
  read_snapshot unit string (fun _ s => Some s) (fun a b => Some (scmp a b)) avro value vx_parse decode check_schema (to_batch vx_code vx_rank vx_cast) (fun _ => None)
    hx_local (lx_store objs) (lx_table objs) [] [] c' (Ok (map hx_batch batches)).
Fact kc_latest : forall objs t batches, latest_commit_timestamp (t_commits (lx_table objs)) = Some t -> lx_snapshot objs t batches -> kc_snapshot objs batches.
Proof. intros objs t bs L [c' R]. exists c'. now apply rn_some with t. Qed.
Ltac kc_each I := repeat (destruct I as [[= <- <-]|I]); [..|destruct I].
Ltac kc_name P := match type of P with context [parse_base_name ?n] => let x := eval vm_compute in (parse_base_name n) in change (parse_base_name n) with x in P end; cbn [bind] in P; injection P as <-.
Fact kc_files : forall objs n o, objs = kc_objs \/ objs = kc_after -> file_in objs wx_names [] n o ->
  exists d, o = wx_at n d /\ In (n, d) [(wx_h, "h1"); (fm_name hx_base1, "b1"); (fm_name hx_base5, "b5"); (kc_h6, "PAR")] /\ (objs = kc_objs -> n <> kc_h6).
Proof.
  intros objs n o [ -> | -> ] F; apply at_data in F as [d [I ->]]; exists d; (split; [reflexivity|]).
  - split; [cbn [In]; cbn in I; tauto|]. intros _ ->. cbn in I. intuition discriminate.
  - split; [cbn [In]; cbn in I; tauto|]. intros X. exfalso. assert (Y : List.length kc_after = List.length kc_objs) by now rewrite X. discriminate Y.
Qed.
Fact kc_unfinished : unfinished kc_objs kc_after wx_names false hx_t5.
Proof.
  apply unfinished_by.
  - intros path n d I. kc_each I; (split; [repeat constructor; discriminate|repeat split; discriminate]).
  - intros path n d b I BO. kc_each I; unfold base_file_of in BO; try kc_name BO; [exfalso..|reflexivity];
    (match type of BO with context [parse_base_name ?n] => let x := eval vm_compute in (parse_base_name n) in change (parse_base_name n) with x in BO end; discriminate BO).
  - intros n d [[= <- _]|[[= <- _]|[[=]|[]]]]; [exists "20250106000000000.commit"; now left|exists "20250106000000000"; now right].
Qed.
Fact kc_plain : forall objs, objs = kc_objs \/ objs = kc_after -> base_names_plain objs wx_names "parquet" false /\ (forall g, without_logs objs wx_names "parquet" false g).
Proof.
  intros objs O. split.
  - intros path dir n o b [_ [_ ED]] FI _ _ BO. subst dir. destruct (kc_files objs n o O FI) as [d [ -> [I _]]]. unfold base_file_of in BO. kc_each I; (kc_name BO; vm_compute; reflexivity).
  - intros g dir n o x [_ [_ ED]] FI _ NB _. subst dir. destruct (kc_files objs n o O FI) as [d [ -> [I _]]]. exfalso. apply NB. kc_each I; (apply (L_Str.ends_with_spec ".parquet"); vm_compute; reflexivity).
Qed.
Example C89_base_files_case : lx_build kc_objs = Ok (lx_table kc_objs, sx_base, kc_objs) /\ proper_objects kc_objs /\ plain_table (lx_table kc_objs)
  /\ lx_build kc_after = Ok (lx_table kc_after, sx_base, kc_after) /\ proper_objects kc_after /\ plain_table (lx_table kc_after)
  /\ (forall objs, In objs [kc_objs; kc_after] -> base_format (t_configs (lx_table objs)) = Ok "parquet" /\ is_table_partitioned (t_configs (lx_table objs)) = Ok false /\ timeline_timezone (t_configs (lx_table objs)) = Ok "utc"
        /\ (forall fields, get_partition_schema unit (lx_store objs) (lx_table objs) = Ok fields -> wf_fields fields)
        /\ base_names_plain objs wx_names "parquet" false /\ (forall g, without_logs objs wx_names "parquet" false g))
  /\ parse_datetime hx_local hx_t5 "utc" = Ok (fx_time 5) /\ latest_commit_timestamp (t_commits (lx_table kc_objs)) = Some hx_t5
  /\ timeline_in_order kc_objs wx_names /\ unfinished kc_objs kc_after wx_names false hx_t5 /\ one_base_each (base_object kc_objs wx_names "parquet" false)
  /\ view_after unit string (fun _ s => Some s) (fun a b => Some (scmp a b)) hx_local (lx_store kc_objs) (lx_table kc_objs) []
  /\ st_parquet _ (lx_store kc_after) kc_h6 = Err EStorage
  /\ kc_snapshot kc_objs [[wx_c1]; [lx_a5; hx_b1]] /\ kc_snapshot kc_after [[wx_c1]; [lx_a5; hx_b1]].
Proof.
  split; [vm_compute; reflexivity|]. split; [apply proper_by; vm_compute; reflexivity|].
  split; [split; [vm_compute; constructor|split; [vm_compute; intros ? ? ? []|vm_compute; reflexivity]]|].
  split; [vm_compute; reflexivity|]. split; [apply proper_by; vm_compute; reflexivity|].
  split; [split; [vm_compute; constructor|split; [vm_compute; intros ? ? ? []|vm_compute; reflexivity]]|].
  split.
  { intros objs [ <- |[ <- |[]]]; (split; [vm_compute; reflexivity|]; split; [vm_compute; reflexivity|]; split; [vm_compute; reflexivity|]; split; [intros fields E; vm_compute in E; injection E as <-; split; [constructor|intros ? []]|]; apply kc_plain; auto). }
  split; [vm_compute; reflexivity|]. split; [vm_compute; reflexivity|].
  split; [apply in_order_by with (stamps := [hx_t1; hx_t5]); [intros ts I; apply hx_stamp; cbn in *; tauto|vm_compute; reflexivity]|]. split; [exact kc_unfinished|]. split.
  { intros g c o o' [dir [n [b [[_ [_ ED]] [FI [_ [_ [BO [E1 E2]]]]]]]]] [dir' [n' [b' [[_ [_ ED']] [FI' [_ [_ [BO' [E1' E2']]]]]]]]]. subst dir dir'.
    destruct (kc_files _ n o (or_introl eq_refl) FI) as [d [ -> [I N]]]. destruct (kc_files _ n' o' (or_introl eq_refl) FI') as [d' [ -> [I' N']]]. specialize (N eq_refl). specialize (N' eq_refl).
    unfold base_file_of in BO, BO'. kc_each I; kc_each I'; try reflexivity; try (now elim N); try (now elim N'); exfalso; kc_name BO; kc_name BO'; cbn [bf_file_id bf_commit] in *; congruence. }
  split; [constructor|]. split; [vm_compute; reflexivity|]. split; (apply kc_latest with hx_t5; [vm_compute; reflexivity|wx_read]).
Qed.

(** Its latest snapshot can still be read: the base file of the sixth time, which is cut, is not needed. *)
Fact kc_timeline : forall n o, file_in kc_objs wx_names [".hoodie"] n o -> In n ["hoodie.properties"; "20250101000000000.commit"; "20250105000000000.commit"].
Proof.
  intros n o [I [_ E]]. change (key_of (wx_names ++ [".hoodie"] ++ [n])) with ("data/t/" ++ (".hoodie/" ++ n)) in E.
  assert (S : forall a b, ".hoodie/" ++ a = ".hoodie/" ++ b -> a = b) by (intros a b0 H; cbn [append] in H; congruence).
  unfold kc_objs, at_names, kc_names in I. cbn [map In] in I.
  repeat (destruct I as [ <- |I]; [cbn [o_key wx_at fst snd] in E; apply wx_strip in E; first [discriminate E|match type of E with ?x = _ => let y := eval vm_compute in (substring 8 100 x) in apply (S y) in E end; subst n; cbn [In]; tauto]|]). destruct I.
Qed.
Example C89_reads_succeed_case : partition_fields (t_configs (lx_table kc_after)) = Ok [] /\ hive_flag (lx_table kc_after) = Ok false /\ url_flag (lx_table kc_after) = Ok false
  /\ (exists n, listing_parallelism (t_configs (lx_table kc_after)) = Ok n /\ (0 < n)%Z)
  /\ (forall path dir listed, object_partition kc_after wx_names false path dir -> directory_listing kc_after wx_names dir listed -> listing_ok "parquet" listed)
  /\ (forall i j, In i (t_commits (lx_table kc_objs)) -> In j (t_commits (lx_table kc_objs)) -> i_timestamp i = i_timestamp j -> i = j)
  /\ (forall time, replacements_in_order kc_objs wx_names jx_number jx_collect hx_local "utc" time)
  /\ schema_found kc_objs wx_names jx_number jx_collect (fun _ => Ok [("ts", tt)]) (t_commits (lx_table kc_objs)) [("ts", tt)]
  /\ (forall g t c o, newest_base kc_objs wx_names "parquet" false g t c o -> exists batch, lx_rows (o_data o) = Ok batch)
  /\ exists e, lx_rows "PAR" = Err e.
Proof.
  split; [vm_compute; reflexivity|]. split; [vm_compute; reflexivity|]. split; [vm_compute; reflexivity|]. split; [eexists; split; [vm_compute; reflexivity|lia]|].
  split; [|split; [|split; [|split; [|split]]]].
  - intros path dir l [_ [_ ED]] [ND DL]. subst dir.
    assert (K : forall m, In m l -> exists n d, m = new_meta n (Z.of_nat (String.length d)) /\ In (n, d) [(wx_h, "h1"); (fm_name hx_base1, "b1"); (fm_name hx_base5, "b5"); (kc_h6, "PAR")]).
    { intros m I. apply DL in I as [n [o [F ->]]]. destruct (kc_files _ n o (or_intror eq_refl) F) as [d [ -> [I _]]]. exists n, d. split; [reflexivity|exact I]. }
    split; [|split].
    + intros m I _ _. destruct (K m I) as [n [d [ -> J]]]. kc_each J; eexists; vm_compute; reflexivity.
    + intros m1 m2 b1 b2 [I1 [_ [_ B1]]] [I2 [_ [_ B2]]] E1 E2. destruct (K m1 I1) as [n1 [d1 [ -> J1]]]. destruct (K m2 I2) as [n2 [d2 [ -> J2]]].
      unfold base_file_of in B1, B2. cbn [fm_name new_meta] in B1, B2. kc_each J1; kc_each J2; try reflexivity; exfalso; kc_name B1; kc_name B2; cbn [bf_file_id bf_commit] in *; congruence.
    + intros m x m1 b1 [I [_ [NB _]]] _ _. exfalso. apply NB. destruct (K m I) as [n [d [ -> J]]]. cbn [fm_name new_meta]. kc_each J; (apply (L_Str.ends_with_spec ".parquet"); vm_compute; reflexivity).
  - intros i j I J E. let l := eval vm_compute in (t_commits (lx_table kc_objs)) in change (t_commits (lx_table kc_objs)) with l in I, J.
    destruct I as [ <- |[ <- |[]]], J as [ <- |[ <- |[]]]; try reflexivity; discriminate E.
  - intros time. split.
    + intros ts o F. apply kc_timeline in F. assert (X : ends_with ".replacecommit." (ts ++ ".replacecommit.") = true) by (apply ends_with_spec; now exists ts).
      destruct F as [F|[F|[F|[]]]]; rewrite <- F in X; discriminate X.
    + intros ts o dt F. apply kc_timeline in F. assert (X : ends_with ".replacecommit" (ts ++ ".replacecommit") = true) by (apply ends_with_spec; now exists ts).
      destruct F as [F|[F|[F|[]]]]; rewrite <- F in X; discriminate X.
  - let l := eval vm_compute in (t_commits (lx_table kc_objs)) in match l with [?a; ?b] => exists [a], b end.
    exists (wx_at ".hoodie/20250105000000000.commit" (wx_commit (wx_stat "f" (fm_name hx_base5)) "")). eexists. exists [], (fm_name hx_base5), (wx_at (fm_name hx_base5) "b5").
    split; [vm_compute; reflexivity|]. split; [split; [unfold kc_objs, at_names, kc_names; cbn [map In fst snd]; tauto|split; [repeat split; discriminate|reflexivity]]|].
    split; [apply L_Json.slice_text; vm_compute; reflexivity|].
    split; [do 5 eexists; split; [reflexivity|]; split; [reflexivity|]; left; split; [now exists "f_0-0-1_20250105000000000"|reflexivity]|].
    split; [constructor|]. split; [split; [unfold kc_objs, at_names, kc_names; cbn [map In fst snd]; tauto|split; [repeat split; discriminate|reflexivity]]|reflexivity].
  - intros g t c o [[dir [n [b [[_ [_ ED]] [FI _]]]]] _]. subst dir. destruct (kc_files _ n o (or_introl eq_refl) FI) as [d [ -> [I N]]]. specialize (N eq_refl).
    cbn [o_data wx_at]. kc_each I; try (now elim N); eexists; vm_compute; reflexivity.
  - eexists. vm_compute. reflexivity.
Qed.

(** A table with log files.  The deltacommit of the sixth time did not complete; its log file is there. *)
Definition kx_snapshot (log : string) (o : outcome (list record_batch)) : Prop := exists c',
  read_snapshot unit string (fun _ s => Some s) (fun a b => Some (scmp a b)) avro value vx_parse decode check_schema (to_batch vx_code vx_rank vx_cast) (fun _ => None)
    hx_local (kx_store (kx_after log)) (kx_table (kx_after log)) [] [] c' o.
Definition kx_before (o : outcome (list record_batch)) : Prop := exists c',
  read_snapshot unit string (fun _ s => Some s) (fun a b => Some (scmp a b)) avro value vx_parse decode check_schema (to_batch vx_code vx_rank vx_cast) (fun _ => None)
    hx_local (kx_store kx_objs) (kx_table kx_objs) [] [] c' o.
Ltac kx_some := eexists; eapply rn_some; [vm_compute; reflexivity|].
Ltac kx_slices := eapply ra_ok;
  [eapply ga_ok; [reflexivity|]; eapply sa_view; [vm_compute; reflexivity|vm_compute; reflexivity|vm_compute; reflexivity|vm_compute; reflexivity|];
   eapply vq_ok with (order := fun _ l => l); [reflexivity|eapply hx_listing; vm_compute; reflexivity|vm_compute; reflexivity|vm_compute; reflexivity]
  |eapply rs_read with (iter := fun m => m); [intros m; reflexivity| |];
   [split; [reflexivity|]; repeat (apply Forall2_cons; [exists (@L_Reader.isort _), (fun m => m); split; [apply L_Reader.isort_sorts|split; [intros m; reflexivity|vm_compute; reflexivity]]|]); apply Forall2_nil|]].
Ltac kx_merging := replace (map (as_field vx_code) vx_dfs) with hx_sch by reflexivity; constructor;
  [split; [vm_compute; constructor|vm_compute; intros ? ? ? []]|vm_compute; reflexivity|intros v E; vm_compute in E; discriminate E|vm_compute; discriminate
  |split; [right; split; [intros v E; vm_compute in E; discriminate E|split; [vm_compute; discriminate|vm_compute; discriminate]]|]; split; [|split; hx_column]; exists "ts", TInt; split; [vm_compute; reflexivity|]; split; [hx_column|discriminate]].
Definition kx_live (objs : list object) := live objs wx_names "parquet" false jx_number jx_collect hx_local "utc" hx_t5 (epoch_millis (fx_time 5)).
Example C89_records_case : kx_build kx_objs = Ok (kx_table kx_objs, sx_base, kx_objs) /\ proper_objects kx_objs /\ merging_table (kx_table kx_objs) (map (as_field vx_code) vx_dfs) 3 1 2
  /\ kx_build (kx_after kx_whole) = Ok (kx_table (kx_after kx_whole), sx_base, kx_after kx_whole) /\ proper_objects (kx_after kx_whole) /\ merging_table (kx_table (kx_after kx_whole)) (map (as_field vx_code) vx_dfs) 3 1 2
  /\ (forall objs, In objs [kx_objs; kx_after kx_whole] -> base_format (t_configs (kx_table objs)) = Ok "parquet" /\ is_table_partitioned (t_configs (kx_table objs)) = Ok false /\ timeline_timezone (t_configs (kx_table objs)) = Ok "utc"
        /\ (forall fields, get_partition_schema unit (kx_store objs) (kx_table objs) = Ok fields -> wf_fields fields))
  /\ parse_datetime hx_local hx_t5 "utc" = Ok (fx_time 5) /\ timestamp hx_t5 /\ latest_commit_timestamp (t_commits (kx_table kx_objs)) = Some hx_t5
  /\ written_by kx_objs wx_names "parquet" false vx_parse vx_code vx_rank wx_rows vx_dfs 2 3 1 hx_t5 kx_hist
  /\ written_by (kx_after kx_whole) wx_names "parquet" false vx_parse vx_code vx_rank wx_rows vx_dfs 2 3 1 hx_t5 wx_hist
  /\ timeline_in_order kx_objs wx_names /\ unfinished kx_objs (kx_after kx_whole) wx_names false hx_t5
  /\ (forall g c, has_base kx_objs wx_names "parquet" false g c -> exists now', continues 2 3 1 hx_t5 (kx_hist g) now' (wx_hist g))
  /\ keys_apart 2 (kx_live kx_objs) kx_hist /\ keys_apart 2 (kx_live (kx_after kx_whole)) wx_hist /\ (forall g, distinct_versions 2 3 1 (wx_hist g) hx_t5)
  /\ kx_before (Ok (map hx_batch [[wx_c1]; [hx_a2; hx_b1]; [wx_d1]])) /\ kx_snapshot kx_whole (Ok (map hx_batch [[wx_c1]; [hx_a2; hx_b1]; [wx_d1]])).
Proof.
  split; [vm_compute; reflexivity|]. split; [apply proper_by; vm_compute; reflexivity|]. split; [kx_merging|].
  split; [vm_compute; reflexivity|]. split; [apply proper_by; vm_compute; reflexivity|]. split; [kx_merging|].
  split.
  { intros objs [ <- |[ <- |[]]]; (split; [vm_compute; reflexivity|]; split; [vm_compute; reflexivity|]; split; [vm_compute; reflexivity|]; intros fields E; vm_compute in E; injection E as <-; split; [constructor|intros ? []]). }
  split; [vm_compute; reflexivity|]. split; [apply hx_stamp; cbn; tauto|]. split; [vm_compute; reflexivity|]. split; [exact kx_written|]. split; [exact kx_after_written|].
  split; [exact kx_in_order|]. split; [apply kx_unfinished|]. split; [intros g c _; apply kx_continues|]. split; [|split; [|split; [|split]]].
  - intros [p1 i1] [p2 i2] x x' r r' [[c1 [O1 _]] _] [[c2 [O2 _]] _] I1 I2 E. apply kx_has in O1 as [E1 J1]. apply kx_has in O2 as [E2 J2]. cbn [fst snd] in *. subst p1 p2.
    destruct J1 as [ <- |[ <- |[ <- |[]]]], J2 as [ <- |[ <- |[ <- |[]]]]; try reflexivity; exfalso; cbn in I1, I2;
    repeat (destruct I1 as [I1|I1]; [injection I1 as <- <-; repeat (destruct I2 as [I2|I2]; [injection I2 as <- <-; discriminate E|]); destruct I2|]); destruct I1.
  - apply wx_apart. intros g [[c [H _]] _]. now apply kx_after_has, wx_has in H.
  - intros g. apply fx_distinct.
  - kx_some. kx_slices. match goal with |- joined _ (Ok ?l) => exact (jo_ok l) end.
  - kx_some. kx_slices. match goal with |- joined _ (Ok ?l) => exact (jo_ok l) end.
Qed.

(** Refuted for a log file that was not written whole.  Nothing was committed, but the latest snapshot cannot be read:
    the log files of writers that did not complete are read to find their blocks. *)
Definition kx_cut : string := take 60 kx_whole.
Theorem C89_torn_log_refuted : kx_build (kx_after kx_cut) = Ok (kx_table (kx_after kx_cut), sx_base, kx_after kx_cut) /\ unfinished kx_objs (kx_after kx_cut) wx_names false hx_t5
  /\ latest_commit_timestamp (t_commits (kx_table kx_objs)) = Some hx_t5 /\ latest_commit_timestamp (t_commits (kx_table (kx_after kx_cut))) = Some hx_t5
  /\ kx_before (Ok (map hx_batch [[wx_c1]; [hx_a2; hx_b1]; [wx_d1]])) /\ exists e, kx_snapshot kx_cut (Err e).
Proof.
  split; [vm_compute; reflexivity|]. split; [apply kx_unfinished|]. split; [vm_compute; reflexivity|]. split; [vm_compute; reflexivity|]. split.
  - kx_some. kx_slices. match goal with |- joined _ (Ok ?l) => exact (jo_ok l) end.
  - eexists. kx_some. kx_slices. apply jo_err. cbn [In]. right. left. reflexivity.
Qed.
Print Assumptions C89_torn_log_refuted.
