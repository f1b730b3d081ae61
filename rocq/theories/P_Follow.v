(** C86: a copy of a table that is kept up to date by incremental reads. *)
From Coq Require Import Sorted.
From Verif Require Import Base Str M_Utf8 M_Time M_Instant M_Timeline M_FileGroup M_Builder M_Listing M_Expr M_Log M_Config M_Reader M_Table M_Storage M_Avro M_Values M_Datum M_Json M_Objects M_Open
  S_Time S_Timeline S_FileGroup S_Builder S_Listing S_Expr S_Log S_Reader S_Config S_Table S_Avro S_Storage S_Objects S_Open S_History S_Incremental S_Values S_Datum S_Json S_Whole S_Changes S_Readers S_Follow
  L_Base L_Str L_Time L_Timeline L_Reader L_Open L_Readers L_Whole L_WholeChanges L_Follow E_Scan E_Open E_History E_Changes E_Values E_Datum E_Json E_Whole E_WholeChanges P_Whole P_WholeChanges.
Local Open Scope string_scope.

(** Someone has a copy of the table as of [start].  Meanwhile the table got more versions.  The table is opened and the
    changes after [start] are read, up to a given time or up to the last commit [e], and applied to the copy by key.  If
    the file groups as of [e] still hold the versions up to [start] (C86_unreplaced: as when none was replaced; clustering
    may have moved them), and those replaced before got no more commits, the copy is then the table as of [e].  The next changes are read after [e]; so a copy stays equal to the table for ever. *)
Theorem C86_poll_partial : forall iter env parse stores global local_to_utc sort_unstable b tb u names objs
    number_of collect dtype' parse_pschema parse_rows footer code rank float_cast parse_schema parquet,
  visits_all iter -> S_Timeline.sorts sort_unstable -> one_per_key (b_options b) ->
  build iter env parse stores global local_to_utc sort_unstable b = Ok (tb, u, objs) -> located u names -> proper_objects objs ->
  let st := object_store objs u dtype' (parse_metadata number_of collect) parse_pschema parse_rows footer (storage_opens parse stores) in
  forall dfs p s k ct format partitioned hist start stop e start_time end_time,
  merging_table tb (map (as_field code) dfs) p s k -> oget "hoodie.populate.meta.fields" (t_configs tb) <> Some "false" ->
  typed_column (map (as_field code) dfs) "_hoodie_commit_time" TUtf8 ct ->
  timestamp start -> timestamp e -> window_end (t_commits tb) stop e -> sle start e ->
  parse_datetime local_to_utc start "utc" = Ok start_time -> parse_datetime local_to_utc e "utc" = Ok end_time ->
  timeline_in_order objs names -> one_stat_each objs names number_of collect start e ->
  changes_written objs names number_of collect start e format partitioned parse_schema code rank parse_rows dfs k p s ct hist ->
  commits_in_order objs names number_of collect start e -> by_value stores ->
  let at_start := live objs names format partitioned number_of collect local_to_utc "utc" start (epoch_millis start_time) in
  let at_end := live objs names format partitioned number_of collect local_to_utc "utc" e (epoch_millis end_time) in
  keys_apart k at_end hist -> versions_kept start at_start at_end hist ->
  (forall g, changed_group objs names number_of collect start e g -> ~ replaced_in objs names number_of collect local_to_utc "utc" (epoch_millis start_time) g) ->
  forall of hist0 copy, table_at k p s of hist0 start copy -> same_table start of at_start hist0 hist ->
  let read := read_incremental dtype' avro value parse_schema decode check_schema (to_batch code rank float_cast) parquet local_to_utc st tb start stop in
  (exists r, read r)
  /\ forall r, read r -> exists batches, r = Ok batches /\ table_at k p s at_end hist e (apply_changes k copy (flat_map rb_rows batches)).
Proof.
  intros iter env parse stores global L f b tb u names objs nu co D ps pr fo code rank fc sc pq VA SU OK BU Lo PO st dfs p s k ct format pt hist start stop e time0 time1 MT MF TC Ts Te We LE T0 T1 TO US CW CO BV a0 a1 KA SV NW of hist0 copy TA SA read.
  pose proof (changed_live objs names nu co L start e time0 time1 Ts Te T0 T1 LE TO format pt sc code rank pr dfs k p s ct hist CW NW) as CL.
  assert (KC : keys_apart k (changed_group objs names nu co start e) hist) by (intros g g' x x' r r' G G'; apply KA; now apply CL).
  destruct (C83_records iter env parse stores global L f b tb u names objs nu co D ps pr fo code rank fc sc pq VA SU OK BU Lo PO dfs p s k ct format pt hist start stop e MT MF TC Ts Te We TO US CW CO BV KC) as [EX AN].
  split; [exact EX|]. intros r R. destruct (AN r R) as [batches [-> [_ TC']]]. exists batches. split; [reflexivity|].
  destruct (C83_changes iter env parse stores global L f b tb u names objs nu co D ps pr fo _ code rank fc sc pq VA SU OK BU Lo PO dfs p s k ct format pt hist start stop e MT MF TC Ts Te We TO US CW batches R) as [gs [_ [OF [_ ALL]]]].
  apply (follow_step k p s a0 a1 (changed_group objs names nu co start e) hist start e copy (flat_map rb_rows batches) LE).
  - exact SV.
  - exact CL.
  - intros g x r G V L1 L2. pose proof G as [[c [HB Lc]] NR]. apply OF. apply (ALL g c x r HB Lc V L1 L2). intros Q. apply NR. apply (replaced_split objs names nu co L start e time0 time1 Ts Te T0 T1 LE TO). now right.
  - exact KA.
  - exact (table_same k p s start of a0 hist0 hist copy SA TA).
  - exact TC'.
Qed.
Print Assumptions C86_poll_partial.

(** In terms of queries: a snapshot as of [start] with the changes up to [e] applied is the snapshot as of [e], up to
    the order of the rows. *)
Theorem C86_queries_partial : forall iter env parse stores global local_to_utc sort_unstable b tb u names objs
    number_of collect dtype' value' cast cmp parse_pschema parse_rows footer code rank float_cast parse_schema parquet,
  visits_all iter -> S_Timeline.sorts sort_unstable -> one_per_key (b_options b) ->
  build iter env parse stores global local_to_utc sort_unstable b = Ok (tb, u, objs) -> located u names -> proper_objects objs ->
  let st := object_store objs u dtype' (parse_metadata number_of collect) parse_pschema parse_rows footer (storage_opens parse stores) in
  forall dfs p s k ct format partitioned hist start stop e start_time end_time,
  merging_table tb (map (as_field code) dfs) p s k -> oget "hoodie.populate.meta.fields" (t_configs tb) <> Some "false" ->
  typed_column (map (as_field code) dfs) "_hoodie_commit_time" TUtf8 ct -> (forall fields, get_partition_schema dtype' st tb = Ok fields -> wf_fields fields) ->
  base_format (t_configs tb) = Ok format -> is_table_partitioned (t_configs tb) = Ok partitioned ->
  timestamp start -> timestamp e -> window_end (t_commits tb) stop e -> sle start e ->
  parse_datetime local_to_utc start "utc" = Ok start_time -> parse_datetime local_to_utc e "utc" = Ok end_time ->
  timeline_in_order objs names -> one_stat_each objs names number_of collect start e ->
  changes_written objs names number_of collect start e format partitioned parse_schema code rank parse_rows dfs k p s ct hist ->
  written_by objs names format partitioned parse_schema code rank parse_rows dfs k p s start hist ->
  written_by objs names format partitioned parse_schema code rank parse_rows dfs k p s e hist ->
  commits_in_order objs names number_of collect start e -> by_value stores ->
  let at_start := live objs names format partitioned number_of collect local_to_utc "utc" start (epoch_millis start_time) in
  let at_end := live objs names format partitioned number_of collect local_to_utc "utc" e (epoch_millis end_time) in
  keys_apart k at_start hist -> keys_apart k at_end hist -> (forall g, at_end g -> distinct_versions k p s (hist g) e) ->
  versions_kept start at_start at_end hist ->
  (forall g, changed_group objs names number_of collect start e g -> ~ replaced_in objs names number_of collect local_to_utc "utc" (epoch_millis start_time) g) ->
  let snapshot := read_snapshot_as_of dtype' value' cast cmp avro value parse_schema decode check_schema (to_batch code rank float_cast) parquet local_to_utc st tb in
  forall c0 c1 c2 c3 before changes after, view_after dtype' value' cast cmp local_to_utc st tb c0 -> view_after dtype' value' cast cmp local_to_utc st tb c2 ->
  snapshot start [] c0 c1 (Ok before) ->
  read_incremental dtype' avro value parse_schema decode check_schema (to_batch code rank float_cast) parquet local_to_utc st tb start stop (Ok changes) ->
  snapshot e [] c2 c3 (Ok after) ->
  Permutation (flat_map rb_rows after) (apply_changes k (flat_map rb_rows before) (flat_map rb_rows changes)).
Proof.
  intros iter env parse stores global L f b tb u names objs nu co D V ca cm ps pr fo code rank fc sc pq VA SU OK BU Lo PO st dfs p s k ct format pt hist start stop e time0 time1 MT MF TC WF BF PT Ts Te We LE T0 T1 TO US CW W0 W1 CO BV a0 a1 KA0 KA DV SV NW snapshot c0 c1 c2 c3 before changes after V0 V2 R0 RC R1.
  pose proof (utc_is _ (mt_utc _ _ _ _ _ MT)) as TZ.
  destruct (C81_records iter env parse stores global L f b tb u names objs nu co D V ca cm ps pr fo (storage_opens parse stores) code rank fc sc pq VA SU OK BU Lo PO dfs p s k format pt "utc" MT WF BF PT TZ start time0 hist Ts T0 W0 KA0 c0 c1 before V0 (or_introl R0)) as [_ A0].
  destruct (C81_records iter env parse stores global L f b tb u names objs nu co D V ca cm ps pr fo (storage_opens parse stores) code rank fc sc pq VA SU OK BU Lo PO dfs p s k format pt "utc" MT WF BF PT TZ e time1 hist Te T1 W1 KA c2 c3 after V2 (or_introl R1)) as [_ A1].
  destruct (C86_poll_partial iter env parse stores global L f b tb u names objs nu co D ps pr fo code rank fc sc pq VA SU OK BU Lo PO dfs p s k ct format pt hist start stop e time0 time1 MT MF TC Ts Te We LE T0 T1 TO US CW CO BV KA SV NW
    (live objs names format pt nu co L "utc" start (epoch_millis time0)) hist _ A0) as [_ AN]; [split; [reflexivity|intros g _ x r _; reflexivity]|].
  destruct (AN _ RC) as [bs [[= <-] A2]]. destruct (mt_merge _ _ _ _ _ MT) as [_ [[pn [ptt [_ [[Pc _] _]]]] [[Sc _] _]]].
  apply (table_unique k p s (map (as_field code) dfs) pn "_hoodie_commit_seqno" a1 hist e _ _ Pc Sc); try assumption.
  intros g x r [[c [HB _]] _]. exact (versions_typed objs u names PO Lo nu co start e format pt sc code rank pr dfs k p s ct hist CW g c x r HB).
Qed.
Print Assumptions C86_queries_partial.

(** When no file group is replaced between [start] and [e], and none is made by clustering, no version is lost. *)
Theorem C86_unreplaced : forall names objs base number_of collect local_to_utc parse_rows code rank parse_schema dfs k p s ct format partitioned hist start e start_time end_time,
  proper_objects objs -> located base names -> timestamp start -> timestamp e -> sle start e ->
  parse_datetime local_to_utc start "utc" = Ok start_time -> parse_datetime local_to_utc e "utc" = Ok end_time -> timeline_in_order objs names ->
  changes_written objs names number_of collect start e format partitioned parse_schema code rank parse_rows dfs k p s ct hist ->
  let at_start := live objs names format partitioned number_of collect local_to_utc "utc" start (epoch_millis start_time) in
  let at_end := live objs names format partitioned number_of collect local_to_utc "utc" e (epoch_millis end_time) in
  (forall g, ~ replaced_between objs names number_of collect start e g) -> nothing_moved start at_end hist ->
  versions_kept start at_start at_end hist.
Proof.
  intros names objs u nu co L pr code rank sc dfs k p s ct format pt hist start e time0 time1 PO Lo Ts Te LE T0 T1 TO CW a0 a1 NR NM.
  exact (live_versions objs u names PO Lo nu co L start e time0 time1 Ts Te T0 T1 LE TO format pt sc code rank pr dfs k p s ct hist CW NR NM).
Qed.
Print Assumptions C86_unreplaced.

(** With replacements in between, the copy still has every record of the table as of [e]; what it has besides are records
    of file groups that were replaced after [start].  (Nothing is moved by clustering after [start].) *)
Theorem C86_replacements : forall iter env parse stores global local_to_utc sort_unstable b tb u names objs
    number_of collect dtype' value' cast cmp parse_pschema parse_rows footer code rank float_cast parse_schema parquet,
  visits_all iter -> S_Timeline.sorts sort_unstable -> one_per_key (b_options b) ->
  build iter env parse stores global local_to_utc sort_unstable b = Ok (tb, u, objs) -> located u names -> proper_objects objs ->
  let st := object_store objs u dtype' (parse_metadata number_of collect) parse_pschema parse_rows footer (storage_opens parse stores) in
  forall dfs p s k ct format partitioned hist start stop e start_time end_time,
  merging_table tb (map (as_field code) dfs) p s k -> oget "hoodie.populate.meta.fields" (t_configs tb) <> Some "false" ->
  typed_column (map (as_field code) dfs) "_hoodie_commit_time" TUtf8 ct -> (forall fields, get_partition_schema dtype' st tb = Ok fields -> wf_fields fields) ->
  base_format (t_configs tb) = Ok format -> is_table_partitioned (t_configs tb) = Ok partitioned ->
  timestamp start -> timestamp e -> window_end (t_commits tb) stop e -> sle start e ->
  parse_datetime local_to_utc start "utc" = Ok start_time -> parse_datetime local_to_utc e "utc" = Ok end_time ->
  timeline_in_order objs names -> one_stat_each objs names number_of collect start e ->
  changes_written objs names number_of collect start e format partitioned parse_schema code rank parse_rows dfs k p s ct hist ->
  written_by objs names format partitioned parse_schema code rank parse_rows dfs k p s start hist ->
  written_by objs names format partitioned parse_schema code rank parse_rows dfs k p s e hist ->
  commits_in_order objs names number_of collect start e -> by_value stores ->
  let at_start := live objs names format partitioned number_of collect local_to_utc "utc" start (epoch_millis start_time) in
  let at_end := live objs names format partitioned number_of collect local_to_utc "utc" e (epoch_millis end_time) in
  keys_apart k at_start hist -> keys_apart k at_end hist -> (forall g, at_end g -> distinct_versions k p s (hist g) e) -> nothing_moved start at_end hist ->
  (forall g, changed_group objs names number_of collect start e g -> ~ replaced_in objs names number_of collect local_to_utc "utc" (epoch_millis start_time) g) ->
  let snapshot := read_snapshot_as_of dtype' value' cast cmp avro value parse_schema decode check_schema (to_batch code rank float_cast) parquet local_to_utc st tb in
  forall c0 c1 c2 c3 before changes after, view_after dtype' value' cast cmp local_to_utc st tb c0 -> view_after dtype' value' cast cmp local_to_utc st tb c2 ->
  snapshot start [] c0 c1 (Ok before) ->
  read_incremental dtype' avro value parse_schema decode check_schema (to_batch code rank float_cast) parquet local_to_utc st tb start stop (Ok changes) ->
  snapshot e [] c2 c3 (Ok after) ->
  let copy := apply_changes k (flat_map rb_rows before) (flat_map rb_rows changes) in
  (forall r, In r (flat_map rb_rows after) -> In r copy)
  /\ forall r, In r copy -> (forall g x, at_start g -> In (x, r) (g_versions (hist g)) -> sle x start -> ~ replaced_between objs names number_of collect start e g) -> In r (flat_map rb_rows after).
Proof.
  intros iter env parse stores global L f b tb u names objs nu co D V ca cm ps pr fo code rank fc sc pq VA SU OK BU Lo PO st dfs p s k ct format pt hist start stop e time0 time1 MT MF TC WF BF PT Ts Te We LE T0 T1 TO US CW W0 W1 CO BV a0 a1 KA0 KA DV NM NW snapshot c0 c1 c2 c3 before changes after V0 V2 R0 RC R1 copy.
  pose proof (utc_is _ (mt_utc _ _ _ _ _ MT)) as TZ.
  pose proof (changed_live objs names nu co L start e time0 time1 Ts Te T0 T1 LE TO format pt sc code rank pr dfs k p s ct hist CW NW) as CL.
  assert (KC : keys_apart k (changed_group objs names nu co start e) hist) by (intros g g' x x' r r' G G'; apply KA; now apply CL).
  destruct (C81_records iter env parse stores global L f b tb u names objs nu co D V ca cm ps pr fo (storage_opens parse stores) code rank fc sc pq VA SU OK BU Lo PO dfs p s k format pt "utc" MT WF BF PT TZ start time0 hist Ts T0 W0 KA0 c0 c1 before V0 (or_introl R0)) as [_ A0].
  destruct (C81_records iter env parse stores global L f b tb u names objs nu co D V ca cm ps pr fo (storage_opens parse stores) code rank fc sc pq VA SU OK BU Lo PO dfs p s k format pt "utc" MT WF BF PT TZ e time1 hist Te T1 W1 KA c2 c3 after V2 (or_introl R1)) as [_ A1].
  destruct (C83_records iter env parse stores global L f b tb u names objs nu co D ps pr fo code rank fc sc pq VA SU OK BU Lo PO dfs p s k ct format pt hist start stop e MT MF TC Ts Te We TO US CW CO BV KC) as [_ AN].
  destruct (AN _ RC) as [bs [[= <-] [_ A2]]].
  destruct (C83_changes iter env parse stores global L f b tb u names objs nu co D ps pr fo _ code rank fc sc pq VA SU OK BU Lo PO dfs p s k ct format pt hist start stop e MT MF TC Ts Te We TO US CW changes RC) as [gs [_ [OF [_ ALL]]]].
  destruct (mt_merge _ _ _ _ _ MT) as [_ [[pn [ptt [_ [[Pc _] _]]]] [[Sc _] _]]].
  apply (follow_replaced k p s (map (as_field code) dfs) pn "_hoodie_commit_seqno" a0 a1 (changed_group objs names nu co start e) (replaced_between objs names nu co start e) hist start e); try assumption.
  - intros g x r [[c [HB _]] _]. exact (versions_typed objs u names PO Lo nu co start e format pt sc code rank pr dfs k p s ct hist CW g c x r HB).
  - exact (live_unless objs names nu co L start e time0 time1 Ts Te T0 T1 LE TO format pt).
  - exact (live_before objs u names PO Lo nu co L start e time0 time1 Ts Te T0 T1 LE TO format pt sc code rank pr dfs k p s ct hist CW NM).
  - intros g x r G V' L1 L2. pose proof G as [[c [HB Lc]] NR]. apply OF. apply (ALL g c x r HB Lc V' L1 L2). intros Q. apply NR. apply (replaced_split objs names nu co L start e time0 time1 Ts Te T0 T1 LE TO). now right.
Qed.
Print Assumptions C86_replacements.

(** When writers only add objects, and base files and replacecommits that they add are later than [t], the table as of
    [t] has the same file groups; with C55 their versions up to [t] stay the same too. *)
Theorem C86_grows : forall objs objs' names format partitioned number_of collect local_to_utc tz t time k p s now hist hist', proper_objects objs' ->
  only_later objs objs' names format partitioned local_to_utc tz t time ->
  (forall g c, has_base objs names format partitioned g c -> exists now', continues k p s (now g) (hist g) now' (hist' g) /\ sle t (now g)) ->
  same_table t (live objs names format partitioned number_of collect local_to_utc tz t time) (live objs' names format partitioned number_of collect local_to_utc tz t time) hist hist'.
Proof.
  intros objs objs' names format pt nu co L tz t time k p s now hist hist' PO OL HC. split; [exact (live_later objs objs' names format pt nu co L tz t time PO OL)|].
  intros g [[c [HB _]] _]. destruct (HC g c HB) as [now' [C Le]]. exact (L_History.continues_versions k p s (now g) (hist g) now' (hist' g) t C Le).
Qed.
Print Assumptions C86_grows.

(** C55, from the bytes of the objects: a query as of [t] returns the same records before and after writers added to the
    table, however the table is opened. *)
Theorem C55_objects_partial : forall iter env parse stores global local_to_utc sort_unstable b tb u names objs iter' env' parse' stores' global' sort_unstable' b' tb' u' objs'
    number_of collect dtype' value' cast cmp parse_pschema parse_rows footer open open' code rank float_cast parse_schema parquet,
  visits_all iter -> S_Timeline.sorts sort_unstable -> one_per_key (b_options b) ->
  build iter env parse stores global local_to_utc sort_unstable b = Ok (tb, u, objs) -> located u names -> proper_objects objs ->
  visits_all iter' -> S_Timeline.sorts sort_unstable' -> one_per_key (b_options b') ->
  build iter' env' parse' stores' global' local_to_utc sort_unstable' b' = Ok (tb', u', objs') -> located u' names -> proper_objects objs' ->
  let st := object_store objs u dtype' (parse_metadata number_of collect) parse_pschema parse_rows footer open in
  let st' := object_store objs' u' dtype' (parse_metadata number_of collect) parse_pschema parse_rows footer open' in
  forall dfs p s k format partitioned tz,
  merging_table tb (map (as_field code) dfs) p s k -> (forall fields, get_partition_schema dtype' st tb = Ok fields -> wf_fields fields) ->
  base_format (t_configs tb) = Ok format -> is_table_partitioned (t_configs tb) = Ok partitioned -> timeline_timezone (t_configs tb) = Ok tz ->
  merging_table tb' (map (as_field code) dfs) p s k -> (forall fields, get_partition_schema dtype' st' tb' = Ok fields -> wf_fields fields) ->
  base_format (t_configs tb') = Ok format -> is_table_partitioned (t_configs tb') = Ok partitioned -> timeline_timezone (t_configs tb') = Ok tz ->
  forall t time now hist hist', timestamp t -> parse_datetime local_to_utc t tz = Ok time ->
  written_by objs names format partitioned parse_schema code rank parse_rows dfs k p s t hist ->
  written_by objs' names format partitioned parse_schema code rank parse_rows dfs k p s t hist' ->
  only_later objs objs' names format partitioned local_to_utc tz t (epoch_millis time) ->
  (forall g c, has_base objs names format partitioned g c -> exists now', continues k p s (now g) (hist g) now' (hist' g) /\ sle t (now g)) ->
  let is_live := live objs names format partitioned number_of collect local_to_utc tz t (epoch_millis time) in
  let is_live' := live objs' names format partitioned number_of collect local_to_utc tz t (epoch_millis time) in
  keys_apart k is_live hist -> keys_apart k is_live' hist' -> (forall g, is_live' g -> distinct_versions k p s (hist' g) t) ->
  forall c c1 c' c1' batches batches', view_after dtype' value' cast cmp local_to_utc st tb c -> view_after dtype' value' cast cmp local_to_utc st' tb' c' ->
  read_snapshot_as_of dtype' value' cast cmp avro value parse_schema decode check_schema (to_batch code rank float_cast) parquet local_to_utc st tb t [] c c1 (Ok batches) ->
  read_snapshot_as_of dtype' value' cast cmp avro value parse_schema decode check_schema (to_batch code rank float_cast) parquet local_to_utc st' tb' t [] c' c1' (Ok batches') ->
  Permutation (flat_map rb_rows batches) (flat_map rb_rows batches').
Proof.
  intros iter env parse stores global L f b tb u names objs iter' env' parse' stores' global' f' b' tb' u' objs' nu co D V ca cm ps pr fo op op' code rank fc sc pq VA SU OK BU Lo PO VA' SU' OK' BU' Lo' PO' st st' dfs p s k format pt tz
    MT WF BF PT TZ MT' WF' BF' PT' TZ' t time now hist hist' TS TM WB WB' OL HC l l' KA KA' DV c c1 c' c1' bs bs' Vw Vw' R R'.
  destruct (C81_records iter env parse stores global L f b tb u names objs nu co D V ca cm ps pr fo op code rank fc sc pq VA SU OK BU Lo PO dfs p s k format pt tz MT WF BF PT TZ t time hist TS TM WB KA c c1 bs Vw (or_introl R)) as [_ A].
  destruct (C81_records iter' env' parse' stores' global' L f' b' tb' u' names objs' nu co D V ca cm ps pr fo op' code rank fc sc pq VA' SU' OK' BU' Lo' PO' dfs p s k format pt tz MT' WF' BF' PT' TZ' t time hist' TS TM WB' KA' c' c1' bs' Vw' (or_introl R')) as [_ A'].
  pose proof (C86_grows objs objs' names format pt nu co L tz t (epoch_millis time) k p s now hist hist' PO' OL HC) as SA.
  apply (table_same k p s t _ _ hist hist' _ SA) in A. destruct (mt_merge _ _ _ _ _ MT) as [_ [[pn [ptt [_ [[Pc _] _]]]] [[Sc _] _]]].
  apply (table_unique k p s (map (as_field code) dfs) pn "_hoodie_commit_seqno" l' hist' t _ _ Pc Sc); try assumption.
  intros g x r [[c0 [HB _]] _]. exact (written_typed objs' u' names PO' Lo' format pt sc code rank pr dfs k p s t hist' WB' g c0 x r HB).
Qed.
Print Assumptions C55_objects_partial.

(** ** The hypotheses are met *)
(** The table of C81, copied after its first commit and brought up to its second deltacommit: two of four records are
    replaced.  A group was replaced after that. *)
Fact fx_replaced : forall time g, replaced_in wx_objs wx_names jx_number jx_collect hx_local "utc" time g -> (1736208000000 <= time)%Z.
Proof.
  intros time g [ts [o [dt [m [F [D [P [W _]]]]]]]]. pose proof (cx_name (ts ++ ".replacecommit") ts ReplaceCommit eq_refl D) as E.
  apply cx_timeline in F as [F|[F|[[F _]|[F|[[F _]|[[F _]|[F _]]]]]]]; rewrite F in E; vm_compute in E; try discriminate E. injection E as <-. vm_compute in P. injection P as <-. exact W.
Qed.
Fact fx_written1 : written_by wx_objs wx_names "parquet" false vx_parse vx_code vx_rank wx_rows vx_dfs 2 3 1 hx_t1 wx_hist.
Proof.
  intros [pt id] c H. apply wx_has in H as [E I]. cbn [fst snd] in *. subst pt. destruct (wx_histories id I) as [now Hi]. exists now, (wx_blocks id). split; [exact Hi|]. split; [|exact (wx_written_out id I)].
  intros b x rows Ib If L. unfold wx_hist in *. cbn [fst snd] in *. destruct (String.eqb id "f"); [|destruct (String.eqb id "h"); destruct If]. destruct If as [ <- |[]]. now elim L.
Qed.
Fact fx_distinct : forall g t, distinct_versions 2 3 1 (wx_hist g) t.
Proof.
  intros g t x a y b Ia Ib _ _ K P _. unfold wx_hist in *. destruct (String.eqb (snd g) "f"); [|destruct (String.eqb (snd g) "h"); cbn in Ia, Ib; destruct Ia as [[= <- <-]|[]]; destruct Ib as [[= <- <-]|[]]; reflexivity].
    cbn in Ia, Ib. destruct Ia as [[= <- <-]|[[= <- <-]|[[= <- <-]|[[= <- <-]|[]]]]]; destruct Ib as [[= <- <-]|[[= <- <-]|[[= <- <-]|[[= <- <-]|[]]]]]; try reflexivity; try discriminate K; discriminate P.
Qed.
Fact fx_in_place : forall t of, nothing_moved t of wx_hist.
Proof.
  intros t of g x r _ V L. exists hx_t1. split; [unfold wx_hist; destruct (String.eqb (snd g) "f"); [|destruct (String.eqb (snd g) "h")]; now left|]. eapply sle_trans; [|exact L].
  unfold wx_hist in V. destruct (String.eqb (snd g) "f"); [|destruct (String.eqb (snd g) "h"); cbn in V; destruct V as [[= <- _]|[]]; discriminate].
  cbn in V. destruct V as [[= <- _]|[[= <- _]|[[= <- _]|[[= <- _]|[]]]]]; discriminate.
Qed.
Definition fx_before : list (list (list cell)) := [[wx_c1]; [hx_b1; hx_a1]; [wx_d1]].
Definition fx_time (d : Z) : ndt := civil_ndt (hx_day d).
Definition fx_table_at (t : string) (d : Z) := live wx_objs wx_names "parquet" false jx_number jx_collect hx_local "utc" t (epoch_millis (fx_time d)).
Example C86_case : wx_build = Ok (wx_table, sx_base, wx_objs) /\ proper_objects wx_objs /\ merging_table wx_table (map (as_field vx_code) vx_dfs) 3 1 2
  /\ parse_datetime hx_local hx_t1 "utc" = Ok (fx_time 1) /\ parse_datetime hx_local hx_t6 "utc" = Ok (fx_time 6)
  /\ timestamp hx_t1 /\ timestamp hx_t6 /\ window_end (t_commits wx_table) (Some hx_t6) hx_t6 /\ sle hx_t1 hx_t6 /\ timeline_in_order wx_objs wx_names
  /\ one_stat_each wx_objs wx_names jx_number jx_collect hx_t1 hx_t6
  /\ changes_written wx_objs wx_names jx_number jx_collect hx_t1 hx_t6 "parquet" false vx_parse vx_code vx_rank wx_rows vx_dfs 2 3 1 0 wx_hist
  /\ written_by wx_objs wx_names "parquet" false vx_parse vx_code vx_rank wx_rows vx_dfs 2 3 1 hx_t1 wx_hist
  /\ written_by wx_objs wx_names "parquet" false vx_parse vx_code vx_rank wx_rows vx_dfs 2 3 1 hx_t6 wx_hist
  /\ commits_in_order wx_objs wx_names jx_number jx_collect hx_t1 hx_t6
  /\ keys_apart 2 (fx_table_at hx_t6 6) wx_hist /\ (forall g, distinct_versions 2 3 1 (wx_hist g) hx_t6)
  /\ (forall g, ~ replaced_between wx_objs wx_names jx_number jx_collect hx_t1 hx_t6 g) /\ (forall t of, nothing_moved t of wx_hist)
  /\ keys_apart 2 (fx_table_at hx_t1 1) wx_hist /\ versions_kept hx_t1 (fx_table_at hx_t1 1) (fx_table_at hx_t6 6) wx_hist
  /\ (forall g, ~ replaced_in wx_objs wx_names jx_number jx_collect hx_local "utc" (epoch_millis (fx_time 1)) g)
  /\ same_table hx_t1 (fx_table_at hx_t1 1) (fx_table_at hx_t1 1) wx_hist wx_hist
  /\ wx_reads hx_t1 fx_before /\ cx_reads hx_t1 (Some hx_t6) [[hx_b6; hx_a2]] /\ wx_reads hx_t6 [[wx_c1]; [hx_b6; hx_a2]; [wx_d1]]
  /\ apply_changes 2 [wx_c1; hx_b1; hx_a1; wx_d1] [hx_b6; hx_a2] = [wx_c1; wx_d1; hx_b6; hx_a2].
Proof.
  split; [exact wx_built|]. split; [exact wx_proper|]. split; [exact wx_merging|]. split; [vm_compute; reflexivity|]. split; [vm_compute; reflexivity|].
  split; [apply hx_stamp; cbn; tauto|]. split; [apply hx_stamp; cbn; tauto|]. split; [now left|]. split; [discriminate|]. split; [exact cx_in_order|].
  split; [exact (cx_one _)|]. split; [exact (cx_written _ (or_introl eq_refl))|]. split; [exact fx_written1|]. split; [apply wx_written; now left|].
  split; [exact (cx_commits_in_order _)|]. split; [apply wx_apart; intros g [[c [H _]] _]; now apply wx_has in H|]. split; [intros g; apply fx_distinct|].
  assert (NR : forall g, ~ replaced_between wx_objs wx_names jx_number jx_collect hx_t1 hx_t6 g)
    by (intros g [ts [m [C _]]]; pose proof C as [_ [_ [_ [_ [L _]]]]]; apply cx_commits in C as [[_ [E _]]|[[_ [E _]]|[[_ [E _]]|[ -> _]]]]; try discriminate E; now elim L).
  split; [exact NR|]. split; [exact fx_in_place|]. split; [apply wx_apart; intros g [[c [H _]] _]; now apply wx_has in H|].
  split; [apply (C86_unreplaced wx_names wx_objs sx_base jx_number jx_collect hx_local wx_rows vx_code vx_rank vx_parse vx_dfs 2 3 1 0 "parquet" false wx_hist hx_t1 hx_t6 (fx_time 1) (fx_time 6));
    [exact wx_proper|exact sx_located|apply hx_stamp; cbn; tauto|apply hx_stamp; cbn; tauto|discriminate|vm_compute; reflexivity|vm_compute; reflexivity|exact cx_in_order|exact (cx_written _ (or_introl eq_refl))|exact NR|apply fx_in_place]|].
  split; [intros g R; apply fx_replaced in R; vm_compute in R; now elim R|]. split; [split; [reflexivity|intros g _ x r _; reflexivity]|].
  split; [wx_read|]. split; [cx_read|]. split; [exact wx_read6|vm_compute; reflexivity].
Qed.

(** C86_replacements: file group "r" is replaced in the window; its record is all that the copy has too many. *)
Example C86_replacements_case : window_end (t_commits wx_table) None wx_t7 /\ parse_datetime hx_local wx_t7 "utc" = Ok (fx_time 7) /\ timestamp wx_t7 /\ sle hx_t1 wx_t7
  /\ one_stat_each wx_objs wx_names jx_number jx_collect hx_t1 wx_t7
  /\ changes_written wx_objs wx_names jx_number jx_collect hx_t1 wx_t7 "parquet" false vx_parse vx_code vx_rank wx_rows vx_dfs 2 3 1 0 wx_hist
  /\ written_by wx_objs wx_names "parquet" false vx_parse vx_code vx_rank wx_rows vx_dfs 2 3 1 hx_t1 wx_hist
  /\ written_by wx_objs wx_names "parquet" false vx_parse vx_code vx_rank wx_rows vx_dfs 2 3 1 wx_t7 wx_hist
  /\ commits_in_order wx_objs wx_names jx_number jx_collect hx_t1 wx_t7
  /\ keys_apart 2 (fx_table_at hx_t1 1) wx_hist /\ keys_apart 2 (fx_table_at wx_t7 7) wx_hist /\ (forall g, distinct_versions 2 3 1 (wx_hist g) wx_t7)
  /\ (forall g, ~ replaced_in wx_objs wx_names jx_number jx_collect hx_local "utc" (epoch_millis (fx_time 1)) g)
  /\ wx_reads hx_t1 fx_before /\ cx_reads hx_t1 None [[]; [hx_b6; hx_a2]] /\ wx_reads wx_t7 [[wx_c1]; [hx_b6; hx_a2]]
  /\ apply_changes 2 [wx_c1; hx_b1; hx_a1; wx_d1] [hx_b6; hx_a2] = [wx_c1; wx_d1; hx_b6; hx_a2].
Proof.
  split; [right; split; [reflexivity|]; let l := eval vm_compute in (t_commits wx_table) in match l with [?a; ?b; ?c; ?d; ?e] => exists [a; b; c; d], e end; split; [vm_compute; reflexivity|reflexivity]|].
  split; [vm_compute; reflexivity|]. split; [apply wx_stamp; cbn; tauto|]. split; [discriminate|]. split; [exact (cx_one _)|].
  split; [apply cx_written; cbn; tauto|]. split; [exact fx_written1|]. split; [apply wx_written; right; now left|]. split; [exact (cx_commits_in_order _)|].
  split; [apply wx_apart; intros g [[c [H _]] _]; now apply wx_has in H|]. split; [apply wx_apart; intros g [[c [H _]] _]; now apply wx_has in H|]. split; [intros g; apply fx_distinct|].
  split; [intros g R; apply fx_replaced in R; vm_compute in R; now elim R|]. split; [wx_read|]. split; [cx_read|]. split; [exact wx_read7|vm_compute; reflexivity].
Qed.

(** Refuted without the condition on replacements: the changes do not tell that the records of a replaced file group
    are gone, and the copy keeps them. *)
Theorem C86_replaced_refuted : exists before changes after,
  wx_reads hx_t6 before /\ cx_reads hx_t6 (Some wx_t7) changes /\ wx_reads wx_t7 after
  /\ written_by wx_objs wx_names "parquet" false vx_parse vx_code vx_rank wx_rows vx_dfs 2 3 1 hx_t6 wx_hist
  /\ written_by wx_objs wx_names "parquet" false vx_parse vx_code vx_rank wx_rows vx_dfs 2 3 1 wx_t7 wx_hist
  /\ replaced_between wx_objs wx_names jx_number jx_collect hx_t6 wx_t7 ("", "r")
  /\ In wx_d1 (apply_changes 2 (List.concat before) (List.concat changes)) /\ ~ In wx_d1 (List.concat after).
Proof.
  exists [[wx_c1]; [hx_b6; hx_a2]; [wx_d1]], [[]], [[wx_c1]; [hx_b6; hx_a2]]. split; [exact wx_read6|]. split; [cx_read|]. split; [exact wx_read7|].
  split; [apply wx_written; now left|]. split; [apply wx_written; right; now left|]. split; [|split].
  - exists wx_t7, cx_md7. split; [|eexists _, _; split; [reflexivity|split; [now left|now left]]].
    destruct cx_7 as [o [F [T [_ [L X]]]]]. exists o. split; [exact F|]. split; [exact T|]. split; [reflexivity|]. split; [exact L|exact X].
  - vm_compute. tauto.
  - vm_compute. intros [E|[E|[E|[]]]]; discriminate E.
Qed.
Print Assumptions C86_replaced_refuted.

(** C55_objects_partial: the table before its last commit, and after. *)
Definition fx_last := "data/t/.hoodie/20250107000000000.replacecommit".
Definition fx_objs : list object := filter (fun o => negb (String.eqb (o_key o) fx_last)) wx_objs.
Definition fx_build : outcome (table * url * list object) :=
  build (fun m => m) [] bx_parse (fun _ _ => Ok fx_objs) (fun _ => Err EStorage) hx_local S_Timeline.isort wx_builder.
Definition fx_table : table := match fx_build with Ok (tb, _, _) => tb | _ => hx_table end.
Definition fx_store : store unit :=
  object_store fx_objs sx_base unit (parse_metadata jx_number jx_collect) (fun _ => Ok [("ts", tt)]) wx_rows (fun _ => Ok (1, 1)%Z) (fun _ _ => Ok tt).
Fact fx_in : forall o, In o fx_objs <-> In o wx_objs /\ o_key o <> fx_last.
Proof. intros o. unfold fx_objs. rewrite filter_In, Bool.negb_true_iff, String.eqb_neq. reflexivity. Qed.
Fact fx_files : forall n o, file_in fx_objs wx_names [] n o <-> file_in wx_objs wx_names [] n o.
Proof.
  intros n o. unfold file_in. rewrite fx_in. split; [tauto|]. intros [I [Ln E]]. split; [|tauto]. split; [exact I|]. rewrite wx_key in E. rewrite E. intros X. destruct Ln as [_ [S _]].
  change fx_last with ("data/t/" ++ ".hoodie/20250107000000000.replacecommit") in X. apply wx_strip in X. rewrite X in S. discriminate S.
Qed.
Fact fx_dirs : forall path dir, object_partition fx_objs wx_names false path dir <-> object_partition wx_objs wx_names false path dir.
Proof. reflexivity. Qed.
Fact fx_listing : forall dir l, dir = [] -> directory_listing fx_objs wx_names dir l -> directory_listing wx_objs wx_names dir l.
Proof. intros dir l -> [N H]. split; [exact N|]. intros m. rewrite H. split; intros [n [o [F E]]]; exists n, o; (split; [now apply fx_files|exact E]). Qed.
Fact fx_has : forall g c, has_base fx_objs wx_names "parquet" false g c -> has_base wx_objs wx_names "parquet" false g c.
Proof. intros g c [dir [n [o [b [OP [F X]]]]]]. exists dir, n, o, b. split; [exact OP|]. split; [|exact X]. destruct OP as [_ [_ ED]]. subst dir. now apply fx_files. Qed.
Fact fx_written : written_by fx_objs wx_names "parquet" false vx_parse vx_code vx_rank wx_rows vx_dfs 2 3 1 hx_t6 wx_hist.
Proof.
  intros g c H. destruct (wx_written hx_t6 (or_introl eq_refl) g c (fx_has g c H)) as [now [contents [A [B C]]]]. exists now, contents. split; [exact A|]. split; [exact B|].
  intros dir l content OP DL CO. assert (dir = []) by (destruct OP as [_ [_ ED]]; exact ED). subst dir. apply (C [] l content); [exact OP|now apply fx_listing|]. intros n o F. apply CO. now apply fx_files.
Qed.
Example C55_objects_case : fx_build = Ok (fx_table, sx_base, fx_objs) /\ proper_objects fx_objs /\ List.length (t_commits fx_table) = 4%nat /\ List.length (t_commits wx_table) = 5%nat
  /\ written_by fx_objs wx_names "parquet" false vx_parse vx_code vx_rank wx_rows vx_dfs 2 3 1 hx_t6 wx_hist
  /\ only_later fx_objs wx_objs wx_names "parquet" false hx_local "utc" hx_t6 (epoch_millis (fx_time 6))
  /\ t_configs fx_table = t_configs wx_table /\ t_storage fx_table = t_storage wx_table
  /\ (forall g c, has_base fx_objs wx_names "parquet" false g c -> exists now', continues 2 3 1 hx_t6 (wx_hist g) now' (wx_hist g) /\ sle hx_t6 hx_t6)
  /\ wx_reads hx_t6 [[wx_c1]; [hx_b6; hx_a2]; [wx_d1]]
  /\ exists c', read_snapshot_as_of unit string (fun _ s => Some s) (fun a b => Some (scmp a b)) avro value vx_parse decode check_schema (to_batch vx_code vx_rank vx_cast) (fun _ => None)
       hx_local fx_store fx_table hx_t6 [] [] c' (Ok (map hx_batch [[wx_c1]; [hx_b6; hx_a2]; [wx_d1]])).
Proof.
  split; [vm_compute; reflexivity|]. split; [apply proper_by; vm_compute; reflexivity|]. split; [vm_compute; reflexivity|]. split; [vm_compute; reflexivity|]. split; [exact fx_written|].
  split; [|split; [vm_compute; reflexivity|split; [vm_compute; reflexivity|split; [|split; [exact wx_read6|wx_read]]]]].
  - assert (N : forall o, In o wx_objs -> ~ In o fx_objs -> o_key o = fx_last).
    { intros o I J. destruct (string_dec (o_key o) fx_last) as [E|E]; [exact E|]. elim J. now apply fx_in. }
    constructor.
    + intros o I. now apply fx_in in I.
    + intros path dir. apply fx_dirs.
    + intros dir n o b FD [I [Ln E]] J B. apply (N o I) in J. rewrite J in E. exfalso. clear I J.
      change fx_last with (key_of (wx_names ++ [".hoodie"; "20250107000000000.replacecommit"])) in E. apply L_Scan.join_inj in E.
      * apply app_inv_head in E. change [".hoodie"; "20250107000000000.replacecommit"] with ([".hoodie"] ++ ["20250107000000000.replacecommit"])%list in E. apply app_inj_tail in E as [_ <-].
        unfold base_file_of in B. match type of B with context [parse_base_name ?n] => let x := eval vm_compute in (parse_base_name n) in change (parse_base_name n) with x in B end. discriminate B.
      * repeat constructor; discriminate.
      * apply Forall_app. split; [repeat constructor; discriminate|]. apply Forall_app. split; [eapply Forall_impl; [|exact FD]; intros z [X [Y _]]; auto|]. constructor; [|constructor]. destruct Ln as [X [Y _]]. auto.
    + intros ts o dt F J D P. pose proof F as [I [_ E]]. apply (N o I) in J. rewrite J in E. change fx_last with ("data/t/.hoodie/" ++ (wx_t7 ++ ".replacecommit")) in E.
      change (key_of (wx_names ++ [".hoodie"] ++ [ts ++ ".replacecommit"])) with ("data/t/.hoodie/" ++ (ts ++ ".replacecommit")) in E. apply app_inj_l in E.
      pose proof (cx_name _ ts ReplaceCommit eq_refl D) as X. cbn [timeline_name] in X. rewrite <- E in X. vm_compute in X. injection X as <-. vm_compute in P. injection P as <-. vm_compute. reflexivity.
  - intros g c _. exists hx_t6. split; [apply c_same|discriminate].
Qed.

(** Refuted for commits that complete late, as with concurrent writers: a commit of an earlier time that was still in
    flight when the changes were read is in no later window, and the copy stays behind for ever. *)
Definition lx_a5 : list cell := [VText hx_t5; VText "8"; VText "a"; VInt 5].
Definition lx_c2 : list cell := [VText hx_t2; VText "9"; VText "c"; VInt 2].
Definition lx_h2 := "h_0-0-0_20250102000000000.parquet".
Definition lx_then : list object :=
  [wx_at ".hoodie/hoodie.properties" (lines_of ["hoodie.table.name=t"; "hoodie.table.type=COPY_ON_WRITE"; "hoodie.table.version=6"; "hoodie.timeline.layout.version=1";
      "hoodie.table.precombine.field=ts"; "hoodie.datasource.write.hive_style_partitioning=false"; "hoodie.datasource.write.partitionpath.urlencode=false"]);
   wx_at ".hoodie/20250101000000000.commit" (wx_commit (wx_stat "f" (fm_name hx_base1) ++ "," ++ wx_stat "h" wx_h) "");
   wx_at ".hoodie/20250102000000000.commit.requested" ""; wx_at ".hoodie/20250102000000000.inflight" "";
   wx_at ".hoodie/20250105000000000.commit" (wx_commit (wx_stat "f" (fm_name hx_base5)) "");
   wx_at wx_h "h1"; wx_at (fm_name hx_base1) "b1"; wx_at (fm_name hx_base5) "b5"].
Definition lx_now : list object := (lx_then ++ [wx_at lx_h2 "h2"; wx_at ".hoodie/20250102000000000.commit" (wx_commit (wx_stat "h" lx_h2) "")])%list.
Definition lx_rows (d : string) : outcome record_batch :=
  if String.eqb d "b1" then Ok (hx_batch [hx_a1; hx_b1]) else if String.eqb d "b5" then Ok (hx_batch [lx_a5; hx_b1])
  else if String.eqb d "h1" then Ok (hx_batch [wx_c1]) else if String.eqb d "h2" then Ok (hx_batch [lx_c2]) else Err EStorage.
Definition lx_build (objs : list object) : outcome (table * url * list object) :=
  build (fun m => m) [] bx_parse (fun _ _ => Ok objs) (fun _ => Err EStorage) hx_local S_Timeline.isort wx_builder.
Definition lx_table (objs : list object) : table := match lx_build objs with Ok (tb, _, _) => tb | _ => hx_table end.
Definition lx_store (objs : list object) : store unit :=
  object_store objs sx_base unit (parse_metadata jx_number jx_collect) (fun _ => Ok [("ts", tt)]) lx_rows (fun _ => Ok (1, 1)%Z) (fun _ _ => Ok tt).
Definition lx_snapshot (objs : list object) (t : string) (batches : list (list (list cell))) : Prop := exists c',
  read_snapshot_as_of unit string (fun _ s => Some s) (fun a b => Some (scmp a b)) avro value vx_parse decode check_schema (to_batch vx_code vx_rank vx_cast) (fun _ => None)
    hx_local (lx_store objs) (lx_table objs) t [] [] c' (Ok (map hx_batch batches)).
Definition lx_changes (objs : list object) (start : string) (stop : option string) (batches : list (list (list cell))) : Prop :=
  read_incremental unit avro value vx_parse decode check_schema (to_batch vx_code vx_rank vx_cast) (fun _ => None) hx_local (lx_store objs) (lx_table objs) start stop (Ok (map hx_batch batches)).
Theorem C86_late_refuted : lx_build lx_then = Ok (lx_table lx_then, sx_base, lx_then) /\ lx_build lx_now = Ok (lx_table lx_now, sx_base, lx_now)
  /\ latest_commit_timestamp (t_commits (lx_table lx_then)) = Some hx_t5 /\ latest_commit_timestamp (t_commits (lx_table lx_now)) = Some hx_t5
  /\ exists copy changes more after,
       lx_snapshot lx_then hx_t1 copy /\ lx_changes lx_then hx_t1 None changes /\ lx_changes lx_now hx_t5 None more /\ lx_snapshot lx_now hx_t5 after
       /\ ~ In lx_c2 (apply_changes 2 (apply_changes 2 (List.concat copy) (List.concat changes)) (List.concat more)) /\ In lx_c2 (List.concat after).
Proof.
  split; [vm_compute; reflexivity|]. split; [vm_compute; reflexivity|]. split; [vm_compute; reflexivity|]. split; [vm_compute; reflexivity|].
  exists [[wx_c1]; [hx_a1; hx_b1]], [[lx_a5]], [], [[lx_c2]; [lx_a5; hx_b1]].
  split; [wx_read|]. split; [cx_read|]. split; [cx_read|]. split; [wx_read|]. split.
  - vm_compute. intros [E|[E|[E|[]]]]; discriminate E.
  - vm_compute. tauto.
Qed.
Print Assumptions C86_late_refuted.
