(** C93: clustering a table changes no answer, and overwriting a part of it changes that part only. *)
From Coq Require Import Sorted.
From Verif Require Import Base Str M_Utf8 M_Time M_Instant M_Timeline M_FileGroup M_Builder M_Listing M_Expr M_Log M_Config M_Reader M_Table M_Storage M_Avro M_Values M_Datum M_Json M_Objects M_Open
  S_Time S_Timeline S_FileGroup S_Builder S_Listing S_Expr S_Log S_Reader S_Config S_Table S_Avro S_Storage S_Objects S_Open S_History S_Incremental S_Values S_Datum S_Json S_Whole S_Changes S_Readers S_Follow S_Replace
  L_Base L_Str L_Time L_Timeline L_Open L_Json L_Whole L_WholeChanges L_Follow L_Replace E_Scan E_Open E_History E_Changes E_Values E_Datum E_Json E_Whole E_WholeChanges E_Cluster P_Whole P_WholeChanges P_Follow.
Local Open Scope string_scope.

(** A table is opened and queried as of [t0] and as of [t1].  When in between records were only moved to other file
    groups, both answers have the same records. *)
Theorem C93_clustering : forall iter env parse stores global local_to_utc sort_unstable b tb u names objs
    number_of collect dtype' value' cast cmp parse_pschema parse_rows footer open code rank float_cast parse_schema parquet,
  visits_all iter -> S_Timeline.sorts sort_unstable -> one_per_key (b_options b) ->
  build iter env parse stores global local_to_utc sort_unstable b = Ok (tb, u, objs) -> located u names -> proper_objects objs ->
  let st := object_store objs u dtype' (parse_metadata number_of collect) parse_pschema parse_rows footer open in
  forall dfs p s k format partitioned tz,
  merging_table tb (map (as_field code) dfs) p s k -> (forall fields, get_partition_schema dtype' st tb = Ok fields -> wf_fields fields) ->
  base_format (t_configs tb) = Ok format -> is_table_partitioned (t_configs tb) = Ok partitioned -> timeline_timezone (t_configs tb) = Ok tz ->
  forall t0 t1 time0 time1 hist, timestamp t0 -> timestamp t1 -> parse_datetime local_to_utc t0 tz = Ok time0 -> parse_datetime local_to_utc t1 tz = Ok time1 ->
  written_by objs names format partitioned parse_schema code rank parse_rows dfs k p s t0 hist ->
  written_by objs names format partitioned parse_schema code rank parse_rows dfs k p s t1 hist ->
  let before := live objs names format partitioned number_of collect local_to_utc tz t0 (epoch_millis time0) in
  let after := live objs names format partitioned number_of collect local_to_utc tz t1 (epoch_millis time1) in
  keys_apart k before hist -> keys_apart k after hist -> (forall g, after g -> distinct_versions k p s (hist g) t1) ->
  only_moved k p s before after hist t0 t1 ->
  let snapshot := read_snapshot_as_of dtype' value' cast cmp avro value parse_schema decode check_schema (to_batch code rank float_cast) parquet local_to_utc st tb in
  forall c0 c0' c1 c1' batches0 batches1, view_after dtype' value' cast cmp local_to_utc st tb c0 -> view_after dtype' value' cast cmp local_to_utc st tb c1 ->
  snapshot t0 [] c0 c0' (Ok batches0) -> snapshot t1 [] c1 c1' (Ok batches1) ->
  Permutation (flat_map rb_rows batches0) (flat_map rb_rows batches1).
Proof.
  intros iter env parse stores global L f b tb u names objs nu co D V ca cm ps pr fo op code rank fc sc pq VA SU OK BU Lo PO st dfs p s k format pt tz MT WF BF PT TZ t0 t1 time0 time1 hist T0 T1 M0 M1 W0 W1 l0 l1 K0 K1 DV OM snapshot
    c0 c0' c1 c1' bs0 bs1 V0 V1 R0 R1.
  destruct (C81_records iter env parse stores global L f b tb u names objs nu co D V ca cm ps pr fo op code rank fc sc pq VA SU OK BU Lo PO dfs p s k format pt tz MT WF BF PT TZ t0 time0 hist T0 M0 W0 K0 c0 c0' bs0 V0 (or_introl R0)) as [_ A0].
  destruct (C81_records iter env parse stores global L f b tb u names objs nu co D V ca cm ps pr fo op code rank fc sc pq VA SU OK BU Lo PO dfs p s k format pt tz MT WF BF PT TZ t1 time1 hist T1 M1 W1 K1 c1 c1' bs1 V1 (or_introl R1)) as [_ A1].
  apply (moved_same k p s l0 l1 hist t0 t1 _ OM) in A0. destruct (mt_merge _ _ _ _ _ MT) as [_ [[pn [ptt [_ [[Pc _] _]]]] [[Sc _] _]]].
  apply (table_unique k p s (map (as_field code) dfs) pn "_hoodie_commit_seqno" l1 hist t1 _ _ Pc Sc); try assumption.
  intros g x r [[c [HB _]] _]. exact (written_typed objs u names PO Lo format pt sc code rank pr dfs k p s t1 hist W1 g c x r HB).
Qed.
Print Assumptions C93_clustering.

(** ... and when the file groups to which they were moved keep the commit times of the records, reading the changes gives
    no record that was only moved. *)
Theorem C93_incremental : forall iter env parse stores global local_to_utc sort_unstable b tb u names objs
    number_of collect dtype' parse_pschema parse_rows footer open code rank float_cast parse_schema parquet,
  visits_all iter -> S_Timeline.sorts sort_unstable -> one_per_key (b_options b) ->
  build iter env parse stores global local_to_utc sort_unstable b = Ok (tb, u, objs) -> located u names -> proper_objects objs ->
  let st := object_store objs u dtype' (parse_metadata number_of collect) parse_pschema parse_rows footer open in
  forall dfs p s k ct format partitioned hist start stop e,
  merging_table tb (map (as_field code) dfs) p s k -> oget "hoodie.populate.meta.fields" (t_configs tb) <> Some "false" ->
  typed_column (map (as_field code) dfs) "_hoodie_commit_time" TUtf8 ct ->
  timestamp start -> timestamp e -> window_end (t_commits tb) stop e ->
  timeline_in_order objs names -> one_stat_each objs names number_of collect start e ->
  changes_written objs names number_of collect start e format partitioned parse_schema code rank parse_rows dfs k p s ct hist ->
  forall batches, read_incremental dtype' avro value parse_schema decode check_schema (to_batch code rank float_cast) parquet local_to_utc st tb start stop (Ok batches) ->
  forall r, In r (flat_map rb_rows batches) ->
    exists g x, changed_group objs names number_of collect start e g /\ In (x, r) (g_versions (hist g)) /\ slt start x /\ sle x e.
Proof.
  intros iter env parse stores global L f b tb u names objs nu co D ps pr fo op code rank fc sc pq VA SU OK BU Lo PO st dfs p s k ct format pt hist start stop e MT MF TC Ts Te We TO US CW batches RD r I.
  destruct (C83_changes iter env parse stores global L f b tb u names objs nu co D ps pr fo op code rank fc sc pq VA SU OK BU Lo PO dfs p s k ct format pt hist start stop e MT MF TC Ts Te We TO US CW batches RD) as [gs [_ [OF [FA _]]]].
  assert (G : forall g, In g gs -> changed_group objs names nu co start e g) by (intros g; apply OF). clear OF RD. induction FA as [|g x gs bs [_ H] F IH]; [destruct I|]. cbn [flat_map] in I. apply in_app_or in I as [I|I].
  - destruct H as [_ [_ H]]. destruct (H r I) as [[y [Y1 [Y2 Y3]]] _]. exists g, y. split; [apply G; now left|auto].
  - apply (IH I). intros g' I'. apply G. now right.
Qed.
Print Assumptions C93_incremental.

(** When a part of the table was replaced in between, the records of the other part are the same; those of that part at
    [t0] are gone, and those at [t1] are the newest versions in its new file groups. *)
Theorem C93_overwrite : forall iter env parse stores global local_to_utc sort_unstable b tb u names objs
    number_of collect dtype' value' cast cmp parse_pschema parse_rows footer open code rank float_cast parse_schema parquet,
  visits_all iter -> S_Timeline.sorts sort_unstable -> one_per_key (b_options b) ->
  build iter env parse stores global local_to_utc sort_unstable b = Ok (tb, u, objs) -> located u names -> proper_objects objs ->
  let st := object_store objs u dtype' (parse_metadata number_of collect) parse_pschema parse_rows footer open in
  forall dfs p s k format partitioned tz,
  merging_table tb (map (as_field code) dfs) p s k -> (forall fields, get_partition_schema dtype' st tb = Ok fields -> wf_fields fields) ->
  base_format (t_configs tb) = Ok format -> is_table_partitioned (t_configs tb) = Ok partitioned -> timeline_timezone (t_configs tb) = Ok tz ->
  forall t0 t1 time0 time1 hist inside, timestamp t0 -> timestamp t1 -> sle t0 t1 -> parse_datetime local_to_utc t0 tz = Ok time0 -> parse_datetime local_to_utc t1 tz = Ok time1 ->
  written_by objs names format partitioned parse_schema code rank parse_rows dfs k p s t0 hist ->
  written_by objs names format partitioned parse_schema code rank parse_rows dfs k p s t1 hist ->
  let before := live objs names format partitioned number_of collect local_to_utc tz t0 (epoch_millis time0) in
  let after := live objs names format partitioned number_of collect local_to_utc tz t1 (epoch_millis time1) in
  keys_apart k before hist -> keys_apart k after hist -> (forall g, after g -> distinct_versions k p s (hist g) t1) ->
  part_replaced before after hist t0 t1 inside ->
  let snapshot := read_snapshot_as_of dtype' value' cast cmp avro value parse_schema decode check_schema (to_batch code rank float_cast) parquet local_to_utc st tb in
  forall c0 c0' c1 c1' batches0 batches1, view_after dtype' value' cast cmp local_to_utc st tb c0 -> view_after dtype' value' cast cmp local_to_utc st tb c1 ->
  snapshot t0 [] c0 c0' (Ok batches0) -> snapshot t1 [] c1 c1' (Ok batches1) ->
  exists kept old new, Permutation (flat_map rb_rows batches0) (old ++ kept) /\ Permutation (flat_map rb_rows batches1) (new ++ kept)
    /\ table_at k p s (part inside before false) hist t0 kept
    /\ table_at k p s (part inside before true) hist t0 old
    /\ table_at k p s (part inside after true) hist t1 new
    /\ ((forall g, after g -> inside g = true -> False) -> new = []).
Proof.
  intros iter env parse stores global L f b tb u names objs nu co D V ca cm ps pr fo op code rank fc sc pq VA SU OK BU Lo PO st dfs p s k format pt tz MT WF BF PT TZ t0 t1 time0 time1 hist inside T0 T1 LE M0 M1 W0 W1 l0 l1 K0 K1 DV OM snapshot
    c0 c0' c1 c1' bs0 bs1 V0 V1 R0 R1.
  destruct (C81_records iter env parse stores global L f b tb u names objs nu co D V ca cm ps pr fo op code rank fc sc pq VA SU OK BU Lo PO dfs p s k format pt tz MT WF BF PT TZ t0 time0 hist T0 M0 W0 K0 c0 c0' bs0 V0 (or_introl R0)) as [_ A0].
  destruct (C81_records iter env parse stores global L f b tb u names objs nu co D V ca cm ps pr fo op code rank fc sc pq VA SU OK BU Lo PO dfs p s k format pt tz MT WF BF PT TZ t1 time1 hist T1 M1 W1 K1 c1 c1' bs1 V1 (or_introl R1)) as [_ A1].
  destruct (parts k p s l0 hist t0 inside _ K0 A0) as [old [kept [P0 [Q0 S0]]]]. destruct (parts k p s l1 hist t1 inside _ K1 A1) as [new [kept1 [P1 [Q1 S1]]]].
  destruct (mt_merge _ _ _ _ _ MT) as [_ [[pn [ptt [_ [[Pc _] _]]]] [[Sc _] _]]].
  assert (PK : Permutation kept1 kept).
  { apply (table_unique k p s (map (as_field code) dfs) pn "_hoodie_commit_seqno" (part inside l1 false) hist t1 _ _ Pc Sc); try assumption.
    - intros g x r [[[c [HB _]] _] _]. exact (written_typed objs u names PO Lo format pt sc code rank pr dfs k p s t1 hist W1 g c x r HB).
    - intros g [G _]. now apply DV.
    - intros g g' x x' r r' [G _] [G' _]. now apply K1.
    - exact (outside_same k p s l0 l1 hist t0 t1 inside kept OM LE S0). }
  exists kept, old, new. split; [exact P0|]. split; [eapply Permutation_trans; [exact P1|now apply Permutation_app_head]|]. split; [exact S0|]. split; [exact Q0|]. split; [exact Q1|].
  intros N. destruct new as [|r new]; [reflexivity|exfalso]. destruct Q1 as [_ [_ Q1]]. destruct (Q1 r (or_introl eq_refl)) as [[g [x [[G B] _]]] _]. exact (N g G B).
Qed.
Print Assumptions C93_overwrite.

(** ** The hypotheses are met *)
(** Two file groups of one record each, which a replacecommit moves to a third.  The records are the same before and
    after; reading the changes of the first commit and later gives the record of the second commit, from the file group to
    which it was moved; and of the second and later, none. *)
Fact yx_apart_one : forall (of : string * string -> Prop) g0, (forall g, of g -> g = g0) -> keys_apart 2 of yx_hist.
Proof. intros of g0 H g g' x x' r r' G G' _ _ _. now rewrite (H g G), (H g' G'). Qed.
Fact yx_apart2 : keys_apart 2 (yx_live hx_t2 2) yx_hist.
Proof.
  intros g g' x x' r r' G G' V V' K. apply yx_live2 in G. apply yx_live2 in G'. destruct G as [ -> | -> ], G' as [ -> | -> ]; try reflexivity; cbn in V, V'; destruct V as [[= <- <-]|[]]; destruct V' as [[= <- <-]|[]]; discriminate K.
Qed.
Fact yx_moved : only_moved 2 3 1 (yx_live hx_t2 2) (yx_live hx_t5 5) yx_hist hx_t2 hx_t5.
Proof.
  split.
  - intros x r [g [G [V L]]]. apply yx_live5 in G. subst g. cbn in V. destruct V as [[= <- <-]|[[= <- <-]|[]]]; [exists ("", "r")|exists ("", "h")]; (split; [apply yx_live2; tauto|]); (split; [now left|discriminate]).
  - intros x r [g [G [V L]]] _. exists x, ("", "n"). split; [now apply yx_live5|]. apply yx_live2 in G. destruct G as [ -> | -> ]; cbn in V; destruct V as [[= <- <-]|[]]; (split; [cbn; tauto|discriminate]).
Qed.
Example C93_clustering_case : yx_build = Ok (yx_table, sx_base, yx_objs) /\ proper_objects yx_objs /\ merging_table yx_table (map (as_field vx_code) vx_dfs) 3 1 2
  /\ timestamp hx_t2 /\ timestamp hx_t5 /\ parse_datetime hx_local hx_t2 "utc" = Ok (yx_time 2) /\ parse_datetime hx_local hx_t5 "utc" = Ok (yx_time 5)
  /\ (forall t, written_by yx_objs wx_names "parquet" false vx_parse vx_code vx_rank yx_rows vx_dfs 2 3 1 t yx_hist)
  /\ keys_apart 2 (yx_live hx_t2 2) yx_hist /\ keys_apart 2 (yx_live hx_t5 5) yx_hist /\ (forall g, distinct_versions 2 3 1 (yx_hist g) hx_t5)
  /\ only_moved 2 3 1 (yx_live hx_t2 2) (yx_live hx_t5 5) yx_hist hx_t2 hx_t5
  /\ yx_reads hx_t2 [[yx_c2]; [wx_d1]] /\ yx_reads hx_t5 [[wx_d1; yx_c2]].
Proof.
  split; [exact yx_built|]. split; [exact yx_proper|]. split; [exact yx_merging|]. split; [apply hx_stamp; cbn; tauto|]. split; [apply hx_stamp; cbn; tauto|].
  split; [vm_compute; reflexivity|]. split; [vm_compute; reflexivity|]. split; [exact yx_written|]. split; [exact yx_apart2|].
  split; [apply (yx_apart_one _ ("", "n")); apply yx_live5|]. split; [intros g; apply yx_distinct|]. split; [exact yx_moved|]. split; [exact yx_read2|exact yx_read5].
Qed.
Example C93_incremental_case : window_end (t_commits yx_table) None hx_t5 /\ timeline_in_order yx_objs wx_names
  /\ (forall start, In start [hx_t1; hx_t2] -> one_stat_each yx_objs wx_names jx_number jx_collect start hx_t5
        /\ changes_written yx_objs wx_names jx_number jx_collect start hx_t5 "parquet" false vx_parse vx_code vx_rank yx_rows vx_dfs 2 3 1 0 yx_hist
        /\ commits_in_order yx_objs wx_names jx_number jx_collect start hx_t5
        /\ forall g, changed_group yx_objs wx_names jx_number jx_collect start hx_t5 g <-> g = ("", "n"))
  /\ yx_changes hx_t1 (Some hx_t5) [[yx_c2]] /\ yx_changes hx_t2 None [[]].
Proof.
  split; [right; split; [reflexivity|]; let l := eval vm_compute in (t_commits yx_table) in match l with [?a; ?b; ?c] => exists [a; b], c end; split; [vm_compute; reflexivity|reflexivity]|].
  split; [exact yx_in_order|]. split; [|split; [exact yx_changes1|exact yx_changes2]]. intros start I. split; [now apply yx_unique|]. split; [now apply yx_changes_written|]. split; [now apply yx_commits_in_order|]. now apply yx_changed.
Qed.
(** C86_queries_partial, with clustering in between: the copy after the first commit, with the changes up to the last. *)
Example C86_clustering_case : keys_apart 2 (yx_live hx_t1 1) yx_hist /\ versions_kept hx_t1 (yx_live hx_t1 1) (yx_live hx_t5 5) yx_hist
  /\ (forall g, ~ replaced_in yx_objs wx_names jx_number jx_collect hx_local "utc" (epoch_millis (yx_time 1)) g)
  /\ replaced_between yx_objs wx_names jx_number jx_collect hx_t1 hx_t5 ("", "r")
  /\ yx_reads hx_t1 [[wx_d1]] /\ yx_changes hx_t1 (Some hx_t5) [[yx_c2]] /\ yx_reads hx_t5 [[wx_d1; yx_c2]]
  /\ apply_changes 2 [wx_d1] [yx_c2] = [wx_d1; yx_c2].
Proof.
  split; [apply (yx_apart_one _ ("", "r")); apply yx_live1|]. split; [|split; [|split; [|split; [exact yx_read1|split; [exact yx_changes1|split; [exact yx_read5|vm_compute; reflexivity]]]]]].
  - intros x r L. split; intros [g [G V]].
    + apply yx_live1 in G. subst g. cbn in V. destruct V as [[= <- <-]|[]]. exists ("", "n"). split; [now apply yx_live5|cbn; tauto].
    + apply yx_live5 in G. subst g. cbn in V. destruct V as [[= <- <-]|[[= <- <-]|[]]]; [|now elim L]. exists ("", "r"). split; [now apply yx_live1|cbn; tauto].
  - intros g R. apply yx_replaced in R as [W _]. vm_compute in W. now elim W.
  - exists hx_t5, yx_md5. split; [apply yx_commit5; now left|]. eexists _, _. split; [reflexivity|]. split; [now left|now left].
Qed.
(** The table of C81 before and after its replacecommit, which replaces the file group "r" by none. *)
Fact wx_part : part_replaced (fx_table_at hx_t6 6) (fx_table_at wx_t7 7) wx_hist hx_t6 wx_t7 (fun g => String.eqb (snd g) "r").
Proof.
  assert (N : forall time, (time < 1736208000000)%Z -> forall g, ~ replaced_in wx_objs wx_names jx_number jx_collect hx_local "utc" time g) by (intros time W g R; apply fx_replaced in R; lia).
  assert (R : forall time g, replaced_in wx_objs wx_names jx_number jx_collect hx_local "utc" time g -> snd g = "r").
  { intros time g [ts [o [dt [m [F [D [P [W [X R]]]]]]]]]. pose proof (cx_name (ts ++ ".replacecommit") ts ReplaceCommit eq_refl D) as E. apply slice_text in X.
    apply cx_timeline in F as [F|[F|[[F _]|[F|[[F _]|[[F _]|[F Dt]]]]]]]; rewrite F in E; vm_compute in E; try discriminate E. rewrite Dt in X. vm_compute in X. injection X as <-.
    destruct R as [obj [ids [E1 [I1 I2]]]]. injection E1 as <-. destruct I1 as [[= _ <-]|[]]. destruct I2 as [[= E2]|[]]. now symmetry. }
  split.
  - intros g E [[c [H _]] _] [_ NR]. apply String.eqb_eq in E. apply wx_has in H as [Ep _]. destruct g as [pt id]. cbn [fst snd] in *. subst pt id. apply NR.
    exists wx_t7, (wx_at ".hoodie/20250107000000000.replacecommit" wx_replace). do 2 eexists.
    split; [split; [unfold wx_objs; cbn [In app]; do 6 right; left; reflexivity|split; [repeat split; discriminate|reflexivity]]|]. split; [reflexivity|]. split; [vm_compute; reflexivity|]. split; [vm_compute; discriminate|].
    split; [apply slice_text; vm_compute; reflexivity|]. eexists _, _. split; [reflexivity|]. split; [left; reflexivity|left; reflexivity].
  - intros g E. apply String.eqb_neq in E. split; intros [[c [H Lc]] NR]; (split; [|intros Q; apply R in Q; now elim E]).
    + exists c. split; [exact H|]. apply (sle_trans _ _ _ Lc). discriminate.
    + exists hx_t1. destruct g as [pt id]. apply wx_has in H as [Ep I]. cbn [fst snd] in *. subst pt. split; [|discriminate]. destruct I as [ <- |[ <- |[ <- |[]]]]; eapply cx_has; cbn [cx_data In]; [left|right; right; left|right; right; right; left]; reflexivity.
  - intros g x r _ _ V _. unfold wx_hist in V. destruct (String.eqb (snd g) "f"); [|destruct (String.eqb (snd g) "h"); cbn in V; destruct V as [[= <- _]|[]]; discriminate].
    cbn in V. destruct V as [[= <- _]|[[= <- _]|[[= <- _]|[[= <- _]|[]]]]]; discriminate.
Qed.
Example C93_overwrite_case : wx_build = Ok (wx_table, sx_base, wx_objs) /\ merging_table wx_table (map (as_field vx_code) vx_dfs) 3 1 2
  /\ written_by wx_objs wx_names "parquet" false vx_parse vx_code vx_rank wx_rows vx_dfs 2 3 1 hx_t6 wx_hist
  /\ written_by wx_objs wx_names "parquet" false vx_parse vx_code vx_rank wx_rows vx_dfs 2 3 1 wx_t7 wx_hist
  /\ keys_apart 2 (fx_table_at hx_t6 6) wx_hist /\ keys_apart 2 (fx_table_at wx_t7 7) wx_hist /\ (forall g, distinct_versions 2 3 1 (wx_hist g) wx_t7)
  /\ part_replaced (fx_table_at hx_t6 6) (fx_table_at wx_t7 7) wx_hist hx_t6 wx_t7 (fun g => String.eqb (snd g) "r")
  /\ wx_reads hx_t6 [[wx_c1]; [hx_b6; hx_a2]; [wx_d1]] /\ wx_reads wx_t7 [[wx_c1]; [hx_b6; hx_a2]].
Proof.
  split; [exact wx_built|]. split; [exact wx_merging|]. split; [apply wx_written; now left|]. split; [apply wx_written; right; now left|].
  split; [apply wx_apart; intros g [[c [H _]] _]; now apply wx_has in H|]. split; [apply wx_apart; intros g [[c [H _]] _]; now apply wx_has in H|]. split; [intros g; apply fx_distinct|].
  split; [exact wx_part|]. split; [exact wx_read6|exact wx_read7].
Qed.

(** Refuted without "the replacecommit is complete": while clustering has written its base file and has not committed,
    every moved record is read twice as soon as a later commit completes. *)
Definition zx_v := "v_0-0-0_20250106000000000.parquet".
Definition zx_e6 : list cell := [VText hx_t6; VText "9"; VText "e"; VInt 1].
Definition zx_objs : list object :=
  (filter (fun o => negb (String.eqb (o_key o) "data/t/.hoodie/20250105000000000.replacecommit")) yx_objs
    ++ [wx_at ".hoodie/20250105000000000.replacecommit.inflight" ""; wx_at ".hoodie/20250106000000000.commit" (wx_commit (wx_stat "v" zx_v) ""); wx_at zx_v "v6"])%list.
Definition zx_rows (d : string) : outcome record_batch := if String.eqb d "v6" then Ok (hx_batch [zx_e6]) else yx_rows d.
Definition zx_build : outcome (table * url * list object) :=
  build (fun m => m) [] bx_parse (fun _ _ => Ok zx_objs) (fun _ => Err EStorage) hx_local isort wx_builder.
Definition zx_table : table := match zx_build with Ok (tb, _, _) => tb | _ => hx_table end.
Definition zx_store : store unit :=
  object_store zx_objs sx_base unit (parse_metadata jx_number jx_collect) (fun _ => Ok [("ts", tt)]) zx_rows (fun _ => Ok (1, 1)%Z) (fun _ _ => Ok tt).
Definition zx_reads (batches : list (list (list cell))) : Prop := exists c',
  read_snapshot_as_of unit string (fun _ s => Some s) (fun a b => Some (scmp a b)) avro value vx_parse decode check_schema (to_batch vx_code vx_rank vx_cast) (fun _ => None)
    hx_local zx_store zx_table hx_t6 [] [] c' (Ok (map hx_batch batches)).
Theorem C93_pending_refuted : zx_build = Ok (zx_table, sx_base, zx_objs) /\ proper_objects zx_objs
  /\ map i_timestamp (t_commits zx_table) = [hx_t1; hx_t2; hx_t6] /\ (forall i, In i (t_commits zx_table) -> i_action i = Commit)
  /\ exists batches, zx_reads batches /\ In [wx_d1; yx_c2] batches /\ In [wx_d1] batches /\ In [yx_c2] batches /\ ~ NoDup (map (key_at 2) (List.concat batches)).
Proof.
  split; [vm_compute; reflexivity|]. split; [apply proper_by; vm_compute; reflexivity|]. split; [vm_compute; reflexivity|].
  split; [let l := eval vm_compute in (t_commits zx_table) in change (t_commits zx_table) with l; intros i [ <- |[ <- |[ <- |[]]]]; reflexivity|].
  exists [[yx_c2]; [wx_d1; yx_c2]; [wx_d1]; [zx_e6]]. split; [wx_read|]. split; [cbn; tauto|]. split; [cbn; tauto|]. split; [cbn; tauto|].
  intros N. vm_compute in N. inversion N as [|? ? H _]; subst. apply H. cbn. tauto.
Qed.
Print Assumptions C93_pending_refuted.
