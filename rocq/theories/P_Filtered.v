(** C87: reading with filters on the partition columns is selecting records. *)
From Coq Require Import Sorted.
From Verif Require Import Base Str M_Utf8 M_Time M_Instant M_Timeline M_FileGroup M_Builder M_Listing M_Expr M_Log M_Config M_Reader M_Table M_Storage M_Avro M_Values M_Datum M_Json M_Objects M_Open
  S_Time S_Timeline S_FileGroup S_Builder S_Listing S_Expr S_Log S_Reader S_Config S_Table S_Avro S_Storage S_Objects S_Open S_History S_Values S_Datum S_Json S_Whole S_Filtered
  L_Base L_Str L_Expr L_Timeline L_Open L_Whole L_Follow L_Filtered P_Expr P_Whole E_Scan E_Open E_History E_Values E_Datum E_Json E_Whole E_Filtered.
Local Open Scope string_scope.

(** The rows of the answer are the current records of the file groups whose partitions satisfy the filters, each key
    once. *)
Theorem C87_records_partial : forall iter env parse stores global local_to_utc sort_unstable b tb u names objs
    number_of collect dtype' value' cast cmp parse_pschema parse_rows footer open code rank float_cast parse_schema parquet,
  visits_all iter -> S_Timeline.sorts sort_unstable -> one_per_key (b_options b) ->
  build iter env parse stores global local_to_utc sort_unstable b = Ok (tb, u, objs) -> located u names -> proper_objects objs ->
  let st := object_store objs u dtype' (parse_metadata number_of collect) parse_pschema parse_rows footer open in
  forall dfs p s k format partitioned tz fields hive url,
  merging_table tb (map (as_field code) dfs) p s k -> get_partition_schema dtype' st tb = Ok fields -> wf_fields fields -> fields <> [] -> hive_flag tb = Ok hive -> url_flag tb = Ok url ->
  base_format (t_configs tb) = Ok format -> is_table_partitioned (t_configs tb) = Ok partitioned -> timeline_timezone (t_configs tb) = Ok tz ->
  forall t time hist, timestamp t -> parse_datetime local_to_utc t tz = Ok time ->
  written_by objs names format partitioned parse_schema code rank parse_rows dfs k p s t hist ->
  let is_live := live objs names format partitioned number_of collect local_to_utc tz t (epoch_millis time) in
  keys_apart k is_live hist ->
  forall filters fs values, from_str_tuples filters = Ok fs -> partitions_named dtype' value' cast cmp fields hive url values fs is_live ->
  forall c c' batches, view_after dtype' value' cast cmp local_to_utc st tb c ->
  (read_snapshot_as_of dtype' value' cast cmp avro value parse_schema decode check_schema (to_batch code rank float_cast) parquet local_to_utc st tb t filters c c' (Ok batches)
   \/ latest_commit_timestamp (t_commits tb) = Some t
      /\ read_snapshot dtype' value' cast cmp avro value parse_schema decode check_schema (to_batch code rank float_cast) parquet local_to_utc st tb filters c c' (Ok batches)) ->
  (forall batch, In batch batches -> rb_fields batch = map (as_field code) dfs)
  /\ table_at k p s (passing dtype' value' cast cmp fields values fs is_live) hist t (flat_map rb_rows batches).
Proof.
  intros iter env parse stores global L f b tb u names objs nu co D V ca cm ps pr fo op code rank fc sc pq VA SU OK BU Lo PO st dfs p s k format pt tz fields hive url MT GF WF NF HF UF BF PT TZ t time hist TS TM WB is_live KA filters fs values FF PN c c' bs VW RD.
  assert (RD' : read_snapshot_as_of D V ca cm avro value sc decode check_schema (to_batch code rank fc) pq L st tb t filters c c' (Ok bs)).
  { destruct RD as [RD|[LT RD]]; [exact RD|]. inversion RD as [|? ? t' ? LT' RD' E1 E2 E3]; subst; [congruence|]. assert (t' = t) by congruence. now subst. }
  assert (WF' : forall x, get_partition_schema D st tb = Ok x -> wf_fields x) by (intros x E; assert (x = fields) by congruence; now subst).
  destruct (C81_snapshot iter env parse stores global L f b tb u names objs nu co D V ca cm ps pr fo op code rank fc sc pq VA SU OK BU Lo PO dfs p s k format pt tz MT WF' BF PT TZ t time hist TS TM WB filters c c' bs VW RD')
    as [gs [fs' [fields' [hive' [url' [E1 [E2 [E3 [E4 [ND [G1 [G2 FA]]]]]]]]]]]].
  assert (fs' = fs) by congruence. change (get_partition_schema D st tb = Ok fields') in E2. assert (fields' = fields) by congruence. assert (hive' = hive) by congruence. assert (url' = url) by congruence. subst fs' fields' hive' url'. clear E1 E2 E3 E4. split.
  - clear -FA. induction FA as [|g x gs bs [H _] F IH]; intros y I; [destruct I|]. destruct I as [ <- |I]; [exact H|now apply IH].
  - apply (flatten k p s hist t _ gs bs ND).
    + intros g. split.
      * intros I. destruct (G1 g I) as [Lv ST]. split; [exact Lv|]. apply ST; [exact NF|]. now apply PN.
      * intros H. apply G2; [apply H|]. exact (named_matches _ _ _ _ _ _ _ values fs g is_live PN H).
    + intros g g' x x' r r' [G _] [G' _]. now apply KA.
    + clear -FA. induction FA as [|g x gs bs [_ H] F IH]; constructor; assumption.
Qed.
Print Assumptions C87_records_partial.

(** When the rows of a partition have its values, reading with filters is reading everything and keeping the rows
    that satisfy the filters. *)
Theorem C87_selects_partial : forall iter env parse stores global local_to_utc sort_unstable b tb u names objs
    number_of collect dtype' value' cast cmp parse_pschema parse_rows footer open code rank float_cast parse_schema parquet,
  visits_all iter -> S_Timeline.sorts sort_unstable -> one_per_key (b_options b) ->
  build iter env parse stores global local_to_utc sort_unstable b = Ok (tb, u, objs) -> located u names -> proper_objects objs ->
  let st := object_store objs u dtype' (parse_metadata number_of collect) parse_pschema parse_rows footer open in
  forall dfs p s k format partitioned tz fields hive url,
  merging_table tb (map (as_field code) dfs) p s k -> get_partition_schema dtype' st tb = Ok fields -> wf_fields fields -> fields <> [] -> hive_flag tb = Ok hive -> url_flag tb = Ok url ->
  base_format (t_configs tb) = Ok format -> is_table_partitioned (t_configs tb) = Ok partitioned -> timeline_timezone (t_configs tb) = Ok tz ->
  forall t time hist, timestamp t -> parse_datetime local_to_utc t tz = Ok time ->
  written_by objs names format partitioned parse_schema code rank parse_rows dfs k p s t hist ->
  let is_live := live objs names format partitioned number_of collect local_to_utc tz t (epoch_millis time) in
  keys_apart k is_live hist -> (forall g, is_live g -> distinct_versions k p s (hist g) t) ->
  forall filters fs values shown, from_str_tuples filters = Ok fs -> partitions_named dtype' value' cast cmp fields hive url values fs is_live -> rows_placed values shown is_live hist ->
  let snapshot := read_snapshot_as_of dtype' value' cast cmp avro value parse_schema decode check_schema (to_batch code rank float_cast) parquet local_to_utc st tb t in
  forall c0 c1 all c2 c3 batches, view_after dtype' value' cast cmp local_to_utc st tb c0 -> view_after dtype' value' cast cmp local_to_utc st tb c2 ->
  snapshot [] c0 c1 (Ok all) -> snapshot filters c2 c3 (Ok batches) ->
  forall r, In r (flat_map rb_rows batches) <-> In r (flat_map rb_rows all) /\ Forall (satisfies dtype' value' cast cmp fields (shown r)) fs.
Proof.
  intros iter env parse stores global L f b tb u names objs nu co D V ca cm ps pr fo op code rank fc sc pq VA SU OK BU Lo PO st dfs p s k format pt tz fields hive url MT GF WF NF HF UF BF PT TZ t time hist TS TM WB is_live KA DV filters fs values shown FF PN RP snapshot c0 c1 all c2 c3 bs V0 V2 R0 R1 r.
  assert (WF' : forall x, get_partition_schema D st tb = Ok x -> wf_fields x) by (intros x E; assert (x = fields) by congruence; now subst).
  destruct (C81_records iter env parse stores global L f b tb u names objs nu co D V ca cm ps pr fo op code rank fc sc pq VA SU OK BU Lo PO dfs p s k format pt tz MT WF' BF PT TZ t time hist TS TM WB KA c0 c1 all V0 (or_introl R0)) as [_ A0].
  destruct (C87_records_partial iter env parse stores global L f b tb u names objs nu co D V ca cm ps pr fo op code rank fc sc pq VA SU OK BU Lo PO dfs p s k format pt tz fields hive url MT GF WF NF HF UF BF PT TZ t time hist TS TM WB KA filters fs values FF PN c2 c3 bs V2 (or_introl R1)) as [_ A1].
  destruct (mt_merge _ _ _ _ _ MT) as [_ [[pn [ptt [_ [[Pc _] _]]]] [[Sc _] _]]].
  rewrite (restricted k p s (map (as_field code) dfs) pn "_hoodie_commit_seqno" is_live (passing D V ca cm fields values fs is_live) hist t (flat_map rb_rows all) (flat_map rb_rows bs) Pc Sc); [| |exact DV|exact KA|now intros g [G _]|exact A0|exact A1].
  - split; (intros [I H]; split; [exact I|]).
    + destruct H as [g [x [[G F] [Vr _]]]]. now rewrite (RP g x r G Vr).
    + destruct A0 as [_ [_ B0]]. destruct (B0 r I) as [[g [x [G [Vr Lx]]]] _]. exists g, x. rewrite (RP g x r G Vr) in H. split; [now split|auto].
  - intros g x r' [[c [HB _]] _]. exact (written_typed objs u names PO Lo format pt sc code rank pr dfs k p s t hist WB g c x r' HB).
Qed.
Print Assumptions C87_selects_partial.

(** A filter and its negation divide what is read: every record is in exactly one of the two answers. *)
Theorem C87_divides_partial : forall iter env parse stores global local_to_utc sort_unstable b tb u names objs
    number_of collect dtype' value' cast cmp parse_pschema parse_rows footer open code rank float_cast parse_schema parquet,
  visits_all iter -> S_Timeline.sorts sort_unstable -> one_per_key (b_options b) ->
  build iter env parse stores global local_to_utc sort_unstable b = Ok (tb, u, objs) -> located u names -> proper_objects objs ->
  let st := object_store objs u dtype' (parse_metadata number_of collect) parse_pschema parse_rows footer open in
  forall dfs p s k format partitioned tz fields hive url,
  merging_table tb (map (as_field code) dfs) p s k -> get_partition_schema dtype' st tb = Ok fields -> wf_fields fields -> fields <> [] -> hive_flag tb = Ok hive -> url_flag tb = Ok url ->
  base_format (t_configs tb) = Ok format -> is_table_partitioned (t_configs tb) = Ok partitioned -> timeline_timezone (t_configs tb) = Ok tz ->
  forall t time hist, timestamp t -> parse_datetime local_to_utc t tz = Ok time ->
  written_by objs names format partitioned parse_schema code rank parse_rows dfs k p s t hist ->
  let is_live := live objs names format partitioned number_of collect local_to_utc tz t (epoch_millis time) in
  keys_apart k is_live hist -> (forall g, is_live g -> distinct_versions k p s (hist g) t) ->
  forall filters fs fl fl' values, from_str_tuples filters = Ok fs -> negate_filter fl = Some fl' -> partitions_named dtype' value' cast cmp fields hive url values (fl :: fs) is_live ->
  let snapshot := read_snapshot_as_of dtype' value' cast cmp avro value parse_schema decode check_schema (to_batch code rank float_cast) parquet local_to_utc st tb t in
  forall c0 c1 all c2 c3 yes c4 c5 no,
  view_after dtype' value' cast cmp local_to_utc st tb c0 -> view_after dtype' value' cast cmp local_to_utc st tb c2 -> view_after dtype' value' cast cmp local_to_utc st tb c4 ->
  snapshot filters c0 c1 (Ok all) -> snapshot (filter_to_tuple fl :: filters) c2 c3 (Ok yes) -> snapshot (filter_to_tuple fl' :: filters) c4 c5 (Ok no) ->
  Permutation (flat_map rb_rows all) (flat_map rb_rows yes ++ flat_map rb_rows no).
Proof.
  intros iter env parse stores global L f b tb u names objs nu co D V ca cm ps pr fo op code rank fc sc pq VA SU OK BU Lo PO st dfs p s k format pt tz fields hive url MT GF WF NF HF UF BF PT TZ t time hist TS TM WB is_live KA DV filters fs fl fl' values FF NG PN snapshot c0 c1 all c2 c3 yes c4 c5 no V0 V2 V4 R0 R1 R2.
  destruct (C40_negation_is_complement fl) as [g0 [NG' [_ [EF [EV OM]]]]]. rewrite NG in NG'. injection NG' as <-.
  assert (SO : forall g, is_live g -> exists c, compares D V ca cm fields (values (fst g)) fl c) by (intros g G; apply (PN g G); now left).
  assert (PN' : partitions_named D V ca cm fields hive url values (fl' :: fs) is_live).
  { intros g G. destruct (PN g G) as [P1 [P2 [P3 [P4 [P5 P6]]]]]. repeat (split; [assumption|]). intros f0 [ <- |I]; [|apply P6; now right]. destruct (SO g G) as [c [ty [v [x [w H]]]]]. exists c, ty, v, x, w. now rewrite EF, EV. }
  assert (PN0 : partitions_named D V ca cm fields hive url values fs is_live).
  { intros g G. destruct (PN g G) as [P1 [P2 [P3 [P4 [P5 P6]]]]]. repeat (split; [assumption|]). intros f0 I. apply P6. now right. }
  assert (F1 : forall x, from_str_tuples (filter_to_tuple x :: filters) = Ok (x :: fs)).
  { intros [n o v]. unfold from_str_tuples, filter_to_tuple in *. cbn [mapM filter_of_tuple fe_field fe_op fe_value]. rewrite op_roundtrip. cbn [bind]. now rewrite FF. }
  assert (RD : forall flt fs' a a' o, from_str_tuples flt = Ok fs' -> partitions_named D V ca cm fields hive url values fs' is_live -> view_after D V ca cm L st tb a -> snapshot flt a a' (Ok o) ->
    table_at k p s (passing D V ca cm fields values fs' is_live) hist t (flat_map rb_rows o)).
  { intros flt fs' a a' o F P Va R. exact (proj2 (C87_records_partial iter env parse stores global L f b tb u names objs nu co D V ca cm ps pr fo op code rank fc sc pq VA SU OK BU Lo PO dfs p s k format pt tz fields hive url MT GF WF NF HF UF BF PT TZ t time hist TS TM WB KA flt fs' values F P a a' o Va (or_introl R))). }
  pose proof (RD _ _ _ _ _ FF PN0 V0 R0) as A0. pose proof (RD _ _ _ _ _ (F1 fl) PN V2 R1) as A1. pose proof (RD _ _ _ _ _ (F1 fl') PN' V4 R2) as A2. clear RD.
  destruct (mt_merge _ _ _ _ _ MT) as [_ [[pn [ptt [_ [[Pc _] _]]]] [[Sc _] _]]].
  set (here := passing D V ca cm fields values fs is_live) in *. set (ys := passing D V ca cm fields values (fl :: fs) is_live) in *. set (ns := passing D V ca cm fields values (fl' :: fs) is_live) in *.
  assert (WT : forall g x r, here g -> In (x, r) (g_versions (hist g)) -> wf_row (map (as_field code) dfs) r)
    by (intros g x r' [[[c [HB _]] _] _]; exact (written_typed objs u names PO Lo format pt sc code rank pr dfs k p s t hist WB g c x r' HB)).
  assert (DH : forall g, here g -> distinct_versions k p s (hist g) t) by (intros g [G _]; now apply DV).
  assert (KH : keys_apart k here hist) by (intros g g' x x' r r' [G _] [G' _]; now apply KA).
  assert (Y1 : forall g, ys g -> here g) by (intros g [G F]; split; [exact G|now inversion F]).
  assert (N1 : forall g, ns g -> here g) by (intros g [G F]; split; [exact G|now inversion F]).
  pose proof (restricted k p s _ pn "_hoodie_commit_seqno" here ys hist t _ _ Pc Sc WT DH KH Y1 A0 A1) as QY.
  pose proof (restricted k p s _ pn "_hoodie_commit_seqno" here ns hist t _ _ Pc Sc WT DH KH N1 A0 A2) as QN.
  assert (ONE : forall g, is_live g -> (satisfies D V ca cm fields (values (fst g)) fl \/ satisfies D V ca cm fields (values (fst g)) fl') /\ ~ (satisfies D V ca cm fields (values (fst g)) fl /\ satisfies D V ca cm fields (values (fst g)) fl'))
    by (intros g G; apply satisfied_once; [apply WF|exact EF|exact EV|exact OM|now apply SO]).
  assert (DJ : forall r, In r (flat_map rb_rows yes) -> ~ In r (flat_map rb_rows no)).
  { intros r I J. apply QY in I as [_ [g [x [G [Vr _]]]]]. apply QN in J as [_ [g' [x' [G' [Vr' _]]]]]. assert (g = g') by (eapply KH; [exact (Y1 g G)|exact (N1 g' G')|exact Vr|exact Vr'|reflexivity]). subst g'.
    destruct G as [Lg F], G' as [_ F']. inversion F; inversion F'; subst. now apply (ONE g Lg). }
  apply NoDup_Permutation.
  - destruct A0 as [N _]. now apply NoDup_map_inv in N.
  - destruct A1 as [NY _]. destruct A2 as [NN _]. apply NoDup_map_inv in NY. apply NoDup_map_inv in NN. clear -NY NN DJ. induction (flat_map rb_rows yes) as [|r l IH]; [exact NN|]. inversion NY as [|? ? NI ND]; subst. cbn [app]. constructor.
    + intros I. apply in_app_or in I as [I|I]; [now apply NI|]. apply (DJ r); [now left|exact I].
    + apply IH; [exact ND|]. intros r' I. apply DJ. now right.
  - intros r. rewrite in_app_iff. split.
    + intros I. destruct A0 as [_ [_ B0]]. destruct (B0 r I) as [[g [x [[G F] [Vr Lx]]]] _]. destruct (proj1 (ONE g G)) as [S|S]; [left; apply QY|right; apply QN]; (split; [exact I|exists g, x; split; [split; [exact G|now constructor]|auto]]).
    + intros [I|I]; [now apply QY in I|now apply QN in I].
Qed.
Print Assumptions C87_divides_partial.

(** ** The hypotheses are met *)
(** A table partitioned by [ts], with one record in "ts=1" and one in "ts=2". *)
Definition px_live := live (px_objs []) wx_names "parquet" true jx_number jx_collect hx_local "utc" hx_t1 1735689600000.
Fact px_named : forall o, partitions_named unit Z px_cast px_cmp [("ts", tt)] true false px_values [{| fe_field := "ts"; fe_op := o; fe_value := "2" |}] px_live.
Proof.
  intros o [part id] [[c [H _]] _]. destruct (px_has _ _ H) as [n [d [row [I _]]]]. cbn [fst snd] in *.
  split; [exists (px_values part); split; [repeat constructor|destruct I as [[= <- <- <- <- <-]|[[= <- <- <- <- <-]|[]]]; reflexivity]|].
  split; [reflexivity|]. split; [destruct I as [[= <- <- <- <- <-]|[[= <- <- <- <- <-]|[]]]; repeat constructor|]. split; [discriminate|]. split.
  - intros f v J. destruct I as [[= <- <- <- <- <-]|[[= <- <- <- <- <-]|[]]]; destruct J as [[= <- <-]|[]]; discriminate.
  - intros f [ <- |[]]. destruct I as [[= <- <- <- <- <-]|[[= <- <- <- <- <-]|[]]]; [exists Lt, tt, "1", 1%Z, 2%Z|exists Eq, tt, "2", 2%Z, 2%Z]; (split; [now left|]; split; [reflexivity|]; split; reflexivity).
Qed.
Example C87_case : px_build [] = Ok (px_table [], sx_base, px_objs []) /\ located sx_base wx_names /\ proper_objects (px_objs [])
  /\ merging_table (px_table []) (map (as_field vx_code) vx_dfs) 3 1 2 /\ get_partition_schema unit (px_store []) (px_table []) = Ok [("ts", tt)] /\ wf_fields [("ts", tt)]
  /\ hive_flag (px_table []) = Ok true /\ url_flag (px_table []) = Ok false /\ base_format (t_configs (px_table [])) = Ok "parquet" /\ is_table_partitioned (t_configs (px_table [])) = Ok true
  /\ timeline_timezone (t_configs (px_table [])) = Ok "utc" /\ timestamp hx_t1 /\ option_map epoch_millis (match parse_datetime hx_local hx_t1 "utc" with Ok d => Some d | _ => None end) = Some 1735689600000%Z
  /\ written_by (px_objs []) wx_names "parquet" true vx_parse vx_code vx_rank px_rows vx_dfs 2 3 1 hx_t1 px_hist
  /\ keys_apart 2 px_live px_hist /\ (forall g, px_live g -> distinct_versions 2 3 1 (px_hist g) hx_t1)
  /\ from_str_tuples [("ts", "=", "2")] = Ok [{| fe_field := "ts"; fe_op := OEq; fe_value := "2" |}]
  /\ negate_filter {| fe_field := "ts"; fe_op := OEq; fe_value := "2" |} = Some {| fe_field := "ts"; fe_op := ONe; fe_value := "2" |}
  /\ partitions_named unit Z px_cast px_cmp [("ts", tt)] true false px_values [{| fe_field := "ts"; fe_op := OEq; fe_value := "2" |}] px_live
  /\ rows_placed px_values px_shown px_live px_hist
  /\ px_reads [] [] [[wx_c1]; [px_d2]] /\ px_reads [] [("ts", "=", "2")] [[px_d2]] /\ px_reads [] [("ts", "!=", "2")] [[wx_c1]].
Proof.
  split; [apply px_built; now left|]. split; [exact sx_located|]. split; [apply px_proper; now left|]. split; [exact px_merging|]. split; [vm_compute; reflexivity|].
  split; [split; [repeat constructor; intros []|intros n [ <- |[]]; repeat split]|]. split; [vm_compute; reflexivity|]. split; [vm_compute; reflexivity|]. split; [vm_compute; reflexivity|]. split; [vm_compute; reflexivity|].
  split; [vm_compute; reflexivity|]. split; [apply hx_stamp; cbn; tauto|]. split; [vm_compute; reflexivity|]. split; [exact px_written|]. split; [|split].
  - intros [p1 i1] [p2 i2] x x' r r' [[c1 [H1 _]] _] [[c2 [H2 _]] _] I1 I2 E. destruct (px_has _ _ H1) as [n1 [d1 [row1 [J1 E1]]]]. destruct (px_has _ _ H2) as [n2 [d2 [row2 [J2 E2]]]]. rewrite E1 in I1. rewrite E2 in I2. cbn [fst snd] in *.
    destruct I1 as [[= <- <-]|[]]. destruct I2 as [[= <- <-]|[]]. destruct J1 as [J1|[J1|[]]], J2 as [J2|[J2|[]]]; injection J1 as <- <- <- <- <-; injection J2 as <- <- <- <- <-; try reflexivity; discriminate E.
  - intros g [[c [H _]] _]. destruct (px_has _ _ H) as [n [d [row [_ ->]]]]. intros x a y b0 [[= <- <-]|[]] [[= <- <-]|[]]. reflexivity.
  - split; [reflexivity|]. split; [reflexivity|]. split; [apply px_named|]. split; [|split; [exact px_read_all|split; [exact px_read_two|exact px_read_other]]].
    intros [part id] x r [[c [H _]] _] I. destruct (px_has _ _ H) as [n [d [row [J E]]]]. rewrite E in I. destruct I as [[= <- <-]|[]]. cbn [fst snd] in *. destruct J as [[= <- <- <- <- <-]|[[= <- <- <- <- <-]|[]]]; reflexivity.
Qed.

(** Refuted for partitions whose name is no value of the column, such as that of the records without a value in a
    column that is no text: no filter excludes it.  Its record, which has no value there, is in the answer for
    [ts = 2] and also in that for [ts != 2]. *)
Theorem C87_unnamed_refuted : px_build px_more = Ok (px_table px_more, sx_base, px_objs px_more) /\ proper_objects (px_objs px_more)
  /\ exists yes no, px_reads px_more [("ts", "=", "2")] yes /\ px_reads px_more [("ts", "!=", "2")] no
     /\ In px_e (List.concat yes) /\ In px_e (List.concat no) /\ nth 3 px_e Null = Null.
Proof.
  split; [apply px_built; now right|]. split; [apply px_proper; now right|]. exists [[px_d2]; [px_e]], [[wx_c1]; [px_e]]. split; [exact px_none_two|]. split; [exact px_none_other|]. split; [|split; [|reflexivity]]; vm_compute; tauto.
Qed.
Print Assumptions C87_unnamed_refuted.
