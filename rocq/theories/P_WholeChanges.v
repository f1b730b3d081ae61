(** C83: from the objects of a table to the records of an incremental read. *)
From Coq Require Import Sorted.
From Verif Require Import Base Str M_Utf8 M_Time M_Instant M_Timeline M_FileGroup M_Builder M_Listing M_Expr M_Log M_Config M_Reader M_Table M_Storage M_Avro M_Values M_Datum M_Json M_Objects M_Open
  S_Time S_Timeline S_FileGroup S_Builder S_Listing S_Expr S_Log S_Reader S_Config S_Table S_Avro S_Storage S_Objects S_Open S_History S_Incremental S_Values S_Datum S_Json S_Whole S_Changes S_Readers
  L_Base L_Timeline L_Reader L_Open L_Readers L_WholeChanges E_Scan E_Open E_History E_Changes E_Values E_Datum E_Json E_Whole E_WholeChanges.
Local Open Scope string_scope.

(** A table is opened, and the changes after [start] are read, up to a given time or up to the last commit.  Among its
    objects are the files of completed commits, and what they record is what the writers did.  Then there is one batch
    for every file group that the commits in between name and do not replace, and it has exactly the newest version as
    of [e] of every key of the file group that got a version in between.  No such version is left out, unless its file
    group was replaced. *)
Theorem C83_changes : forall iter env parse stores global local_to_utc sort_unstable b tb u names objs
    number_of collect dtype' parse_pschema parse_rows footer open code rank float_cast parse_schema parquet,
  visits_all iter -> S_Timeline.sorts sort_unstable -> one_per_key (b_options b) ->
  build iter env parse stores global local_to_utc sort_unstable b = Ok (tb, u, objs) -> located u names -> proper_objects objs ->
  let st := object_store objs u dtype' (parse_metadata number_of collect) parse_pschema parse_rows footer open in
  forall dfs p s k ct format partitioned hist start stop e,
  merging_table tb (map (as_field code) dfs) p s k -> oget "hoodie.populate.meta.fields" (t_configs tb) <> Some "false" ->
  typed_column (map (as_field code) dfs) "_hoodie_commit_time" TUtf8 ct ->
  timestamp start -> timestamp e -> window_end (t_commits tb) stop e ->
  timeline_in_order objs names -> one_stat_each objs names number_of collect start e ->
  changes_written objs names number_of collect start e format partitioned parse_schema code rank parse_rows dfs k p s ct hist ->
  let replaced := replaced_between objs names number_of collect start e in
  let changed := changed_group objs names number_of collect start e in
  forall batches, read_incremental dtype' avro value parse_schema decode check_schema (to_batch code rank float_cast) parquet local_to_utc st tb start stop (Ok batches) ->
  exists gs, NoDup gs /\ (forall g, In g gs <-> changed g)
    /\ Forall2 (fun g batch => rb_fields batch = map (as_field code) dfs /\ changed_between k p s (hist g) start e (rb_rows batch)) gs batches
    /\ forall g c x r, has_base objs names format partitioned g c -> sle c e -> In (x, r) (g_versions (hist g)) -> slt start x -> sle x e -> ~ replaced g -> In g gs.
Proof.
  intros iter env parse stores global L f b tb u names objs nu co D ps pr fo op code rank fc sc pq VA SU OK BU Lo PO st dfs p s k ct format pt hist start stop e MT MF TC Ts Te We TO US CW replaced changed batches RD.
  destruct (opened iter VA env parse stores global L f b tb u names objs SU OK BU Lo PO) as [u0 [o0 [da [pp [_ [_ [_ [_ [_ [_ [_ [_ [li [tz0 [l0 [DL [TZ0 [DN [PM So]]]]]]]]]]]]]]]]]]].
  assert (tz0 = "utc") by (pose proof (utc_is _ (mt_utc _ _ _ _ _ MT)); congruence). subst tz0.
  exact (whole_changes objs u names PO Lo nu co L D ps pr fo op code rank fc sc pq tb li l0 dfs p s k ct format pt hist start e stop DL DN PM So TO MT MF TC Ts We Te US CW batches RD).
Qed.
Print Assumptions C83_changes.

(** ... so with the versions of a key in one file group the records are exactly the changes of the table: for every key
    with a version committed in between its newest version as of [e], each key once. *)
Theorem C83_records : forall iter env parse stores global local_to_utc sort_unstable b tb u names objs
    number_of collect dtype' parse_pschema parse_rows footer code rank float_cast parse_schema parquet,
  visits_all iter -> S_Timeline.sorts sort_unstable -> one_per_key (b_options b) ->
  build iter env parse stores global local_to_utc sort_unstable b = Ok (tb, u, objs) -> located u names -> proper_objects objs ->
  let st := object_store objs u dtype' (parse_metadata number_of collect) parse_pschema parse_rows footer (storage_opens parse stores) in
  forall dfs p s k ct format partitioned hist start stop e,
  merging_table tb (map (as_field code) dfs) p s k -> oget "hoodie.populate.meta.fields" (t_configs tb) <> Some "false" ->
  typed_column (map (as_field code) dfs) "_hoodie_commit_time" TUtf8 ct ->
  timestamp start -> timestamp e -> window_end (t_commits tb) stop e ->
  timeline_in_order objs names -> one_stat_each objs names number_of collect start e ->
  changes_written objs names number_of collect start e format partitioned parse_schema code rank parse_rows dfs k p s ct hist ->
  commits_in_order objs names number_of collect start e -> by_value stores ->
  let changed := changed_group objs names number_of collect start e in
  keys_apart k changed hist ->
  let read := read_incremental dtype' avro value parse_schema decode check_schema (to_batch code rank float_cast) parquet local_to_utc st tb start stop in
  (exists r, read r)
  /\ forall r, read r -> exists batches, r = Ok batches /\ (forall batch, In batch batches -> rb_fields batch = map (as_field code) dfs)
       /\ table_changed k p s changed hist start e (flat_map rb_rows batches).
Proof.
  intros iter env parse stores global L f b tb u names objs nu co D ps pr fo code rank fc sc pq VA SU OK BU Lo PO st dfs p s k ct format pt hist start stop e MT MF TC Ts Te We TO US CW CO BV changed KA read.
  destruct (opened iter VA env parse stores global L f b tb u names objs SU OK BU Lo PO) as [u0 [o0 [da [pp [_ [_ [_ [_ [_ [_ [_ [_ [li [tz0 [l0 [DL [TZ0 [DN [PM So]]]]]]]]]]]]]]]]]]].
  assert (tz0 = "utc") by (pose proof (utc_is _ (mt_utc _ _ _ _ _ MT)); congruence). subst tz0.
  assert (OPN : readers_open st tb [("hoodie.read.file_group.start_timestamp", start); ("hoodie.read.file_group.end_timestamp", e)]).
  { apply (readers_opened parse stores BV iter env global L f b tb u objs D st _ BU (mt_storage _ _ _ _ _ MT)); [|reflexivity].
    intros k0 v [[= <- _]|[[= <- _]|[]]]; (split; [|discriminate]); [now exists "read.file_group.start_timestamp"|now exists "read.file_group.end_timestamp"]. }
  destruct (whole_changes_succeed objs u names PO Lo nu co L D ps pr fo (storage_opens parse stores) code rank fc sc pq tb li l0 dfs p s k ct format pt hist start e stop DL DN PM So TO MT MF TC Ts We Te US CW CO OPN) as [A [bs B]].
  split; [exists (Ok bs); exact B|]. intros r R. destruct (A r R) as [batches ->]. exists batches. split; [reflexivity|].
  destruct (whole_changes objs u names PO Lo nu co L D ps pr fo (storage_opens parse stores) code rank fc sc pq tb li l0 dfs p s k ct format pt hist start e stop DL DN PM So TO MT MF TC Ts We Te US CW batches R) as [gs [ND [OF [FA _]]]]. split.
  - clear -FA. induction FA as [|g x gs bs [E _] F IH]; intros y I; [destruct I|]. destruct I as [ <- |I]; auto.
  - apply flatten_changes with (gs := gs); [exact ND|exact OF|exact KA|]. clear -FA. induction FA as [|g x gs bs [_ H] F IH]; constructor; auto.
Qed.
Print Assumptions C83_records.

(** ** The hypotheses are met *)
(** The table of C81.  After its first commit the key "a" got a version, and "b" too, in a log file of the new base
    file; a write that failed is not among them.  The last commit replaces one file group and names another, which did
    not change. *)
Definition cx_reads (start : string) (stop : option string) (batches : list (list (list cell))) : Prop :=
  read_incremental unit avro value vx_parse decode check_schema (to_batch vx_code vx_rank vx_cast) (fun _ => None) hx_local wx_store wx_table start stop (Ok (map hx_batch batches)).
Ltac cx_read :=
  eapply ri_ok with (order := fun _ l => l);
  [intros n l; reflexivity|vm_compute; reflexivity|vm_compute; reflexivity
  |eapply rs_read with (iter := fun m => m); [intros m; reflexivity| |];
   [split; [reflexivity|]; repeat (apply Forall2_cons; [exists (@L_Reader.isort _), (fun m => m); split; [apply L_Reader.isort_sorts|split; [intros m; reflexivity|vm_compute; reflexivity]]|]); apply Forall2_nil
   |match goal with |- joined _ (Ok ?l) => exact (jo_ok l) end]].
Example C83_case : wx_build = Ok (wx_table, sx_base, wx_objs) /\ proper_objects wx_objs /\ merging_table wx_table (map (as_field vx_code) vx_dfs) 3 1 2
  /\ oget "hoodie.populate.meta.fields" (t_configs wx_table) <> Some "false" /\ typed_column (map (as_field vx_code) vx_dfs) "_hoodie_commit_time" TUtf8 0
  /\ timestamp hx_t1 /\ timestamp wx_t7 /\ window_end (t_commits wx_table) None wx_t7 /\ timeline_in_order wx_objs wx_names
  /\ one_stat_each wx_objs wx_names jx_number jx_collect hx_t1 wx_t7
  /\ changes_written wx_objs wx_names jx_number jx_collect hx_t1 wx_t7 "parquet" false vx_parse vx_code vx_rank wx_rows vx_dfs 2 3 1 0 wx_hist
  /\ commits_in_order wx_objs wx_names jx_number jx_collect hx_t1 wx_t7
  /\ keys_apart 2 (changed_group wx_objs wx_names jx_number jx_collect hx_t1 wx_t7) wx_hist
  /\ changed_group wx_objs wx_names jx_number jx_collect hx_t1 wx_t7 ("", "f") /\ ~ changed_group wx_objs wx_names jx_number jx_collect hx_t1 wx_t7 ("", "r")
  /\ cx_reads hx_t1 None [[]; [hx_b6; hx_a2]].
Proof.
  split; [exact wx_built|]. split; [exact wx_proper|]. split; [exact wx_merging|]. split; [vm_compute; discriminate|]. split; [replace (map (as_field vx_code) vx_dfs) with hx_sch by reflexivity; hx_column|].
  split; [apply hx_stamp; cbn; tauto|]. split; [apply wx_stamp; cbn; tauto|].
  split; [right; split; [reflexivity|]; let l := eval vm_compute in (t_commits wx_table) in match l with [?a; ?b; ?c; ?d; ?e] => exists [a; b; c; d], e end; split; [vm_compute; reflexivity|reflexivity]|].
  split; [exact cx_in_order|]. split; [exact (cx_one _)|]. split; [exact (cx_written _ (or_intror (or_introl eq_refl)))|]. split; [exact (cx_commits_in_order _)|].
  split; [apply wx_apart; intros [pt id] [[ts [a [m [c [n [C [N _]]]]]]] _]; apply (cx_base _ _ _ _ _ _ _ _ C) in N as [E N]; cbn [fst snd] in *; (split; [exact E|]); destruct N as [[ -> _]|[[ -> _]|[ -> _]]]; cbn; tauto|].
  split; [split|split].
  - exists hx_t5, Commit, (hx_md (fm_name hx_base5) []), hx_t5, (fm_name hx_base5). split; [exact (cx_5 _ (or_intror (or_introl eq_refl)))|]. split; [eapply hx_md_base; [vm_compute; reflexivity|repeat split; reflexivity]|discriminate].
  - intros [ts [m [C R]]]. apply cx_commits in C as [[_ [E _]]|[[_ [E _]]|[[_ [E _]]|[_ [_ -> ]]]]]; try discriminate E. destruct R as [obj [ids [E [I1 I2]]]]. injection E as <-. destruct I1 as [[= <-]|[]]. destruct I2 as [I2|[]]. discriminate I2.
  - intros [[ts [a [m [c [n [C [N _]]]]]]] _]. apply (cx_base _ _ _ _ _ _ _ _ C) in N as [_ N]. cbn [snd] in N. destruct N as [[E _]|[[E _]|[E _]]]; discriminate E.
  - cx_read.
Qed.
