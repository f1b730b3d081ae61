(** C92: a whole table on an object store with deletions. *)
From Coq Require Import Sorted.
From Verif Require Import Base Str M_Utf8 M_Time M_Instant M_Timeline M_FileGroup M_Builder M_Listing M_Expr M_Log M_Config M_Reader M_Table M_Storage M_Avro M_Values M_Datum M_Json M_Objects M_Open
  S_Time S_Timeline S_FileGroup S_Builder S_Listing S_Expr S_Log S_Reader S_Config S_Table S_Avro S_Storage S_Objects S_Open S_History S_Values S_Datum S_Json S_Whole S_Readers S_Deletes S_Erased
  L_Base L_Str L_Timeline L_Open L_Whole L_Readers L_Deletes L_Succeed L_Erased E_Scan E_Open E_History E_Values E_Datum E_Json E_Whole E_Erased.
Local Open Scope string_scope.

(** A table is opened and read as of [t], with any filters, whatever was queried before.  Its files are in order, and each
    of its file groups is what commits, deletions by commits, compactions, deltacommits, failed writes and rollbacks left.
    Then the read has an answer; and without filters every answer is the table: for each key the newest of the versions
    that were not deleted since, each key once. *)
Theorem C92_table_partial : forall iter env parse stores global local_to_utc sort_unstable b tb u names objs
    number_of collect dtype' value' cast cmp parse_pschema parse_rows footer code rank float_cast parse_schema parquet,
  visits_all iter -> S_Timeline.sorts sort_unstable -> one_per_key (b_options b) ->
  build iter env parse stores global local_to_utc sort_unstable b = Ok (tb, u, objs) -> located u names -> proper_objects objs ->
  let st := object_store objs u dtype' (parse_metadata number_of collect) parse_pschema parse_rows footer (storage_opens parse stores) in
  forall dfs p s k format partitioned tz n columns hive url,
  merging_table tb (map (as_field code) dfs) p s k -> (forall fields, get_partition_schema dtype' st tb = Ok fields -> wf_fields fields) ->
  base_format (t_configs tb) = Ok format -> is_table_partitioned (t_configs tb) = Ok partitioned -> timeline_timezone (t_configs tb) = Ok tz ->
  partition_fields (t_configs tb) = Ok columns -> hive_flag tb = Ok hive -> url_flag tb = Ok url ->
  listing_parallelism (t_configs tb) = Ok n -> (0 < n)%Z -> by_value stores ->
  forall t time hist dels sch, timestamp t -> parse_datetime local_to_utc t tz = Ok time ->
  erased_by objs names format partitioned parse_schema code rank parse_rows dfs k p s t hist dels ->
  files_in_order objs names format partitioned footer -> replacements_in_order objs names number_of collect local_to_utc tz (epoch_millis time) ->
  schema_found objs names number_of collect parse_pschema (t_commits tb) sch ->
  forall filters fs, from_str_tuples filters = Ok fs -> (forall f, In f fs -> filter_fits cast sch columns f) ->
  forall c, view_after dtype' value' cast cmp local_to_utc st tb c ->
  let read := read_snapshot_as_of dtype' value' cast cmp avro value parse_schema decode check_schema (to_batch code rank float_cast) parquet local_to_utc st tb t filters c in
  (exists c' batches, read c' (Ok batches))
  /\ forall c' r, read c' r -> exists batches, r = Ok batches /\ (forall batch, In batch batches -> rb_fields batch = map (as_field code) dfs)
       /\ let is_live := live objs names format partitioned number_of collect local_to_utc tz t (epoch_millis time) in
          filters = [] -> keys_apart k is_live hist -> table_alive k p s is_live hist dels t (flat_map rb_rows batches).
Proof.
  intros iter env parse stores global L f b tb u names objs nu co D V ca cm ps pr fo code rank fc sc pq VA SU OK BU Lo PO st dfs p s k format pt tz n cols hive url MT WF BF PT TZ PF HF UF LP NP BV t time hist dels sch TS TM WB FO RI SF filters fs FT FF c VW read.
  destruct (opened iter VA env parse stores global L f b tb u names objs SU OK BU Lo PO) as [u0 [o0 [da [pp [_ [_ [_ [_ [_ [_ [_ [_ [li [tz0 [l0 [DL [TZ0 [DN [PM So]]]]]]]]]]]]]]]]]]].
  assert (tz0 = tz) by congruence. subst tz0.
  assert (OP : forall x, readers_open st tb [("hoodie.read.file_group.end_timestamp", x)]).
  { intros x. apply (readers_opened parse stores BV iter env global L f b tb u objs D st _ BU (mt_storage _ _ _ _ _ MT)); [|reflexivity].
    intros k0 v [[= <- _]|[]]. split; [now exists "read.file_group.end_timestamp"|discriminate]. }
  destruct (erased_succeeds objs u names PO Lo nu co L D V ca cm ps pr fo (storage_opens parse stores) code rank fc sc pq tb tz li l0 dfs p s k format pt hist dels hist t time sch cols hive url DL TZ DN PM So TM RI SF PF HF UF MT BF PT TS OP FO filters fs FT FF (erased_left _ _ _ _ _ _ _ _ _ _ _ _ _ _ _ _ WB) WF c VW) as [A B].
  split; [exact (B n LP NP)|]. intros c' r R. destruct (A c' r R) as [bs ->]. exists bs. split; [reflexivity|].
  destruct (erased_snapshot objs u names PO Lo nu co L D V ca cm ps pr fo (storage_opens parse stores) code rank fc sc pq tb li tz l0 dfs p s k format pt hist dels hist t time DL TZ DN PM So MT WF BF PT TS TM (erased_left _ _ _ _ _ _ _ _ _ _ _ _ _ _ _ _ WB) filters c c' bs VW R)
    as [gs [fs' [fields [hive' [url' [E1 [_ [_ [_ [ND [G1 [G2 FA]]]]]]]]]]]]. split.
  - clear -FA. induction FA as [|g x gs bs [H _] F IH]; intros y I; [destruct I|]. destruct I as [ <- |I]; [exact H|now apply IH].
  - intros is_live -> KA. injection E1 as <-. apply (flatten_alive k p s hist dels t is_live gs bs ND); [|exact KA|].
    + intros g. split; [intros I; now apply G1|]. intros Lv. apply G2; [exact Lv|now left].
    + clear -FA. induction FA as [|g x gs bs [_ H] F IH]; constructor; assumption.
Qed.
Print Assumptions C92_table_partial.

(** In such a table a deleted record is gone: a key of a file group that was deleted at [d], up to [t], and not written to
    the file group since, is in no row. *)
Theorem C92_table_gone : forall k p s (of : string * string -> Prop) hist dels t out g x r d,
  table_alive k p s of hist dels t out -> keys_apart k of hist -> of g -> In (x, r) (g_versions (hist g)) ->
  In (d, key_at k r) (dels g) -> sle d t -> (forall y r', In (y, r') (g_versions (hist g)) -> key_at k r' = key_at k r -> slt y d \/ ~ sle y t) ->
  forall r', In r' out -> key_at k r' <> key_at k r.
Proof.
  intros k p s of hist dels t out g x r d [_ [_ H]] KA O I D Le N r' I' E. destruct (H r' I') as [[g' [y [O' [Iy [Ly Nd]]]]] _].
  assert (g = g') as <- by exact (KA g g' x y r r' O O' I Iy (eq_sym E)). destruct (N y r' Iy E) as [Lt|NL]; [|now apply NL].
  apply Nd. exists d. split; [now rewrite E|]. now split.
Qed.
Print Assumptions C92_table_gone.

(** ** The hypotheses are met *)
(** A commit of a and b on January 1, a commit that deletes a on January 2, a commit that writes a again on January 3, with an
    ordering value below the deleted one. *)
Definition gx_reads (t : string) := read_snapshot_as_of unit string (fun _ s => Some s) (fun a b => Some (scmp a b)) avro value vx_parse decode check_schema (to_batch vx_code vx_rank vx_cast) (fun _ => None)
  hx_local gx_store gx_table t [] [].
Definition gx_live (t : string) (time : Z) := live gx_objs wx_names "parquet" false jx_number jx_collect hx_local "utc" t time.
Example C92_table_case : forall t time, In (t, time) [(hx_t1, 1735689600000); (hx_t2, 1735776000000); (hx_t3, 1735862400000)]%Z ->
  (exists c' batches, gx_reads t c' (Ok batches))
  /\ forall c' r, gx_reads t c' r -> exists batches, r = Ok batches /\ table_alive 2 3 1 (gx_live t time) (fun _ => gx_group) (fun _ => gx_dels) t (flat_map rb_rows batches).
Proof.
  intros t time I.
  assert (TM : exists dt, parse_datetime hx_local t "utc" = Ok dt /\ epoch_millis dt = time) by (destruct I as [[= <- <-]|[[= <- <-]|[[= <- <-]|[]]]]; (eexists; split; [vm_compute; reflexivity|vm_compute; reflexivity])).
  destruct TM as [dt [TM <-]].
  destruct (C92_table_partial (fun m => m) [] bx_parse (fun _ _ => Ok gx_objs) (fun _ => Err EStorage) hx_local isort wx_builder gx_table sx_base wx_names gx_objs
    jx_number jx_collect unit string (fun _ s => Some s) (fun a b => Some (scmp a b)) (fun _ => Ok [("ts", tt)]) gx_rows (fun _ => Ok (1, 1)%Z) vx_code vx_rank vx_cast vx_parse (fun _ => None))
    with (dfs := vx_dfs) (p := 3%nat) (s := 1%nat) (k := 2%nat) (format := "parquet") (partitioned := false) (tz := "utc") (n := 10%Z) (columns := @nil string) (hive := false) (url := false)
      (t := t) (time := dt) (hist := fun _ : string * string => gx_group) (dels := fun _ : string * string => gx_dels) (sch := [("ts", tt)]) (filters := @nil (string * string * string)) (fs := @nil filter_expr) (c := @nil (string * list file_group)) as [A B].
  - intros m. reflexivity.
  - apply L_Timeline.isort_sorts.
  - constructor.
  - exact gx_built.
  - exact sx_located.
  - exact gx_proper.
  - exact gx_merging.
  - exact gx_fields.
  - vm_compute. reflexivity.
  - vm_compute. reflexivity.
  - vm_compute. reflexivity.
  - vm_compute. reflexivity.
  - vm_compute. reflexivity.
  - vm_compute. reflexivity.
  - vm_compute. reflexivity.
  - reflexivity.
  - intros ? ? ? ?. reflexivity.
  - destruct I as [[= <- _]|[[= <- _]|[[= <- _]|[]]]]; apply hx_stamp; cbn; tauto.
  - exact TM.
  - apply gx_erased.
  - exact gx_in_order.
  - apply gx_replacements.
  - exact gx_schema.
  - reflexivity.
  - intros f [].
  - apply va_new.
  - split; [exact A|]. intros c' r R. destruct (B c' r R) as [bs [E [_ T]]]. exists bs. split; [exact E|]. apply T; [reflexivity|].
    apply gx_apart. intros g [[c [H _]] _]. now apply gx_has in H.
Qed.
(** As of January 2 the key a is gone; as of January 3 it is back, as it was written then. *)
Example C92_table_gone_case : forall c' batches,
  (gx_reads hx_t2 c' (Ok batches) -> forall r, In r (flat_map rb_rows batches) -> key_at 2 r <> "a")
  /\ (gx_reads hx_t3 c' (Ok batches) -> forall r, In r (flat_map rb_rows batches) -> key_at 2 r = "a" -> r = gx_a3).
Proof.
  assert (GF : forall t time, keys_apart 2 (gx_live t time) (fun _ => gx_group)) by (intros t time; apply gx_apart; intros g [[c [H _]] _]; now apply gx_has in H).
  intros c' bs. split; intros R r I.
  - destruct (C92_table_case hx_t2 1735776000000) as [_ B]; [cbn [In]; tauto|]. destruct (B c' _ R) as [bs' [[= <-] T]].
    pose proof T as [_ [_ H]]. destruct (H r I) as [[g [x [O A]]] _].
    apply (C92_table_gone 2 3 1 (gx_live hx_t2 1735776000000) (fun _ => gx_group) (fun _ => gx_dels) hx_t2 _ g hx_t1 hx_a1 hx_t2 T (GF _ _) O); [now left|now left|apply sle_refl| |exact I].
    intros y r' [E|[E|[E|[]]]] Ek; injection E as <- <-; [left; reflexivity|discriminate Ek|right; intros Lt; now apply Lt].
  - intros Ek. destruct (C92_table_case hx_t3 1735862400000) as [_ B]; [cbn [In]; tauto|]. destruct (B c' _ R) as [bs' [[= <-] [_ [_ H]]]].
    destruct (H r I) as [[g [x [O [Iv [_ Nd]]]]] _]. destruct Iv as [E|[E|[E|[]]]]; injection E as <- <-; [|discriminate Ek|reflexivity].
    exfalso. apply Nd. exists hx_t2. split; [now left|]. split; [reflexivity|discriminate].
Qed.
