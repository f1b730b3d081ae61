(** C97: what writers commit in a window is what an incremental read returns. *)
From Coq Require Import Sorted.
From Verif Require Import Base Str M_Utf8 M_Time M_Instant M_Timeline M_FileGroup M_Builder M_Listing M_Expr M_Log M_Config M_Reader M_Table M_Storage M_Avro M_Values M_Datum M_Json M_Objects M_Open
  S_Time S_Timeline S_FileGroup S_Builder S_Listing S_Expr S_Log S_Reader S_Config S_Table S_Avro S_Storage S_Objects S_Open S_History S_Incremental S_Values S_Datum S_Json S_Whole S_Changes S_Readers S_Writer S_Recorded
  L_Base L_Str L_Timeline L_Open L_Json L_Whole L_Readers L_WholeChanges L_Writer L_Recorded E_Scan E_Open E_History E_Changes E_Values E_Datum E_Json E_Whole E_WholeChanges E_Writer E_Recorded E_Elsewhere P_WholeChanges P_Writer.
Local Open Scope string_scope.

(** Writers put data into a storage, and complete their commits by files of the timeline with metadata that tells what they
    wrote.  Commits may be archived.  Whatever they leave: for every window whose writes are all completed, with failed
    writes undone, the objects meet the conditions of C83. *)
Theorem C97_written : forall table format depth parse_schema code rank parse_rows footer dfs k p s ct number_of collect w objs,
  Forall legal table -> word format -> format <> "crc" ->
  recorded_left table format depth parse_schema code rank parse_rows footer dfs k p s ct number_of collect w -> Permutation objs (objects_of table format w) ->
  left table format depth parse_schema code rank parse_rows footer dfs k p s w /\ timeline_in_order objs table
  /\ forall start e, one_stat_each objs table number_of collect start e /\ commits_in_order objs table number_of collect start e
     /\ (all_completed table number_of collect start e w -> failures_undone table number_of collect start e w -> (forall g, later_is_newer k p s (w_hist w g) e) ->
         changes_written objs table number_of collect start e format (has_partitions depth) parse_schema code rank parse_rows dfs k p s ct (w_hist w)).
Proof.
  intros table format depth sc code rank pr fo dfs k p s ct nu co w objs TL FW FC RL PE. pose proof (recorded_kept _ _ _ _ _ _ _ _ _ _ _ _ _ _ _ TL w RL) as R.
  split; [exact (rk_left _ _ _ _ _ _ _ _ _ _ _ _ _ _ _ _ R)|]. split; [eapply recorded_timeline; eassumption|]. intros start e.
  split; [eapply recorded_once; eassumption|]. split; [eapply recorded_in_order; eassumption|]. intros AC FU LN. eapply recorded_changes; eassumption.
Qed.
Print Assumptions C97_written.

(** The writers of E_Recorded: a commit of three file groups, a deltacommit, a failed one and its rollback in the same log file,
    a compaction, another deltacommit, and a replacecommit.  They leave the objects of the table that C81 reads. *)
Example C97_case : recorded_left wx_names "parquet" 0 vx_parse vx_code vx_rank wx_rows sw_footer vx_dfs 2 3 1 0 jx_number jx_collect sw_12
  /\ Permutation wx_objs (objects_of wx_names "parquet" sw_12) /\ all_completed wx_names jx_number jx_collect hx_t1 wx_t7 sw_12
  /\ failures_undone wx_names jx_number jx_collect hx_t1 wx_t7 sw_12 /\ (forall g, later_is_newer 2 3 1 (w_hist sw_12 g) wx_t7)
  /\ wrote_at (w_hist sw_12 ("", "f")) hx_t6 /\ ~ wrote_at (w_hist sw_12 ("", "f")) hx_t3.
Proof.
  split; [exact rx_recorded|]. split; [exact sw_objects_are|]. split; [exact rx_completed|]. split; [exact rx_undone|]. split; [exact rx_later|]. split.
  - right. split; [exists hx_t5, [hx_b6]; cbn; tauto|]. cbn. intros [E|[]]. discriminate E.
  - intros [W|[_ NF]]; [cbn in W; destruct W as [W|[W|[]]]; discriminate W|]. apply NF. now left.
Qed.

Lemma changed_wider : forall k p s (of of' : string * string -> Prop) hist start e out, (forall g, of g -> of' g) ->
  (forall g x r, of' g -> In (x, r) (g_versions (hist g)) -> slt start x -> sle x e -> of g) -> keys_apart k of' hist ->
  table_changed k p s of hist start e out -> table_changed k p s of' hist start e out.
Proof.
  intros k p s of of' hist start e out I1 I2 KA [A [B C]]. split; [exact A|]. split.
  - intros g x r O V L1 L2. eapply B; eauto.
  - intros r I. destruct (C r I) as [[g [x [O [V [L1 L2]]]]] N]. split; [exists g, x; auto|]. intros g' x' r' O' V' L' E. rewrite (KA g' g x' x r' r O' (I1 g O) V' V E) in V'. eapply N; eauto.
Qed.

(** A table is opened on what such writers left, and the changes after [start] and up to [e] are read.  Every write in
    between has completed or failed, and the failed ones are undone.  The read succeeds, and returns for every key with a
    version committed in between its newest version as of [e], each key once: of the file groups that had a base file by
    [e] and are not replaced in between. *)
Theorem C97_read : forall iter env parse stores global local_to_utc sort_unstable b tb u names objs
    number_of collect dtype' parse_pschema parse_rows footer code rank float_cast parse_schema parquet,
  visits_all iter -> S_Timeline.sorts sort_unstable -> one_per_key (b_options b) ->
  build iter env parse stores global local_to_utc sort_unstable b = Ok (tb, u, objs) -> located u names ->
  let st := object_store objs u dtype' (parse_metadata number_of collect) parse_pschema parse_rows footer (storage_opens parse stores) in
  forall dfs p s k ct format depth w start stop e,
  merging_table tb (map (as_field code) dfs) p s k -> oget "hoodie.populate.meta.fields" (t_configs tb) <> Some "false" ->
  typed_column (map (as_field code) dfs) "_hoodie_commit_time" TUtf8 ct -> by_value stores -> word format -> format <> "crc" ->
  timestamp start -> timestamp e -> window_end (t_commits tb) stop e ->
  recorded_left names format depth parse_schema code rank parse_rows footer dfs k p s ct number_of collect w -> Permutation objs (objects_of names format w) ->
  all_completed names number_of collect start e w -> failures_undone names number_of collect start e w -> (forall g, later_is_newer k p s (w_hist w g) e) ->
  let of := groups_at w e (replaced_between objs names number_of collect start e) in
  keys_apart k of (w_hist w) ->
  let read := read_incremental dtype' avro value parse_schema decode check_schema (to_batch code rank float_cast) parquet local_to_utc st tb start stop in
  (exists r, read r)
  /\ forall r, read r -> exists batches, r = Ok batches /\ (forall batch, In batch batches -> rb_fields batch = map (as_field code) dfs)
       /\ table_changed k p s of (w_hist w) start e (flat_map rb_rows batches).
Proof.
  intros iter env parse stores global L f b tb u names objs nu co D ps pr fo code rank fc sc pq VA SU OK BU Lo st dfs p s k ct format depth w start stop e MT MF TC BV FW FC Ts Te We RL PE AC FU LN of KA read.
  pose proof (proj1 (proj2 Lo)) as TL. destruct (C97_written names format depth sc code rank pr fo dfs k p s ct nu co w objs TL FW FC RL PE) as [LW [TO X]]. destruct (X start e) as [US [CO CW]]. specialize (CW AC FU LN). clear X.
  destruct (C94_written names format depth sc code rank pr fo dfs k p s w objs TL FW FC LW PE) as [PO [HB _]].
  assert (I1 : forall g, changed_group objs names nu co start e g -> of g).
  { intros g [[ts [a [m [c [n [C [N Le]]]]]]] NR]. split; [|exact NR]. exists c. split; [|exact Le]. apply HB. rewrite (surjective_pairing g). exact (proj1 CW _ _ _ _ _ _ _ C N). }
  assert (KA' : keys_apart k (changed_group objs names nu co start e) (w_hist w)) by (intros g g' x x' r r' G G'; apply KA; auto).
  destruct (C83_records iter env parse stores global L f b tb u names objs nu co D ps pr fo code rank fc sc pq VA SU OK BU Lo PO dfs p s k ct format (has_partitions depth) (w_hist w) start stop e
    MT MF TC Ts Te We TO US CW CO BV KA') as [[r0 R0] A].
  split; [exists r0; exact R0|]. intros r R. destruct (A r R) as [batches [-> [B1 B2]]]. exists batches. split; [reflexivity|]. split; [exact B1|].
  destruct (C83_changes iter env parse stores global L f b tb u names objs nu co D ps pr fo (storage_opens parse stores) code rank fc sc pq VA SU OK BU Lo PO dfs p s k ct format (has_partitions depth) (w_hist w) start stop e
    MT MF TC Ts Te We TO US CW batches R) as [gs [_ [OF [_ FN]]]].
  eapply changed_wider; [exact I1| |exact KA|exact B2]. intros g x v [[c [Ic Lc]] NR] V L1 L2. apply OF. apply (FN g c x v); try assumption. now apply HB.
Qed.
Print Assumptions C97_read.

(** The changes after the first commit, read from what these writers left. *)
Example C97_read_instance : forall r,
  read_incremental unit avro value vx_parse decode check_schema (to_batch vx_code vx_rank vx_cast) (fun _ => None) hx_local
    (object_store wx_objs sx_base unit (parse_metadata jx_number jx_collect) (fun _ => Ok [("ts", tt)]) wx_rows sw_footer (storage_opens bx_parse (fun _ _ => Ok wx_objs))) wx_table hx_t1 None r ->
  exists batches, r = Ok batches /\ table_changed 2 3 1 (groups_at sw_12 wx_t7 (replaced_between wx_objs wx_names jx_number jx_collect hx_t1 wx_t7)) (w_hist sw_12) hx_t1 wx_t7 (flat_map rb_rows batches).
Proof.
  intros r R. destruct C83_case as [BU [_ [MT [MF [TC [T1 [T7 [WE _]]]]]]]]. assert (OK : one_per_key (b_options wx_builder)) by constructor. assert (BV : by_value (fun _ _ => Ok wx_objs)) by (intros ? ? ? ?; reflexivity).
  assert (FW : word "parquet") by (apply sw_word; now left). assert (FC : "parquet" <> "crc") by discriminate. unfold wx_build in BU. destruct C97_case as [RL [PE [AC [FU [LN _]]]]].
  destruct (C97_read (fun m => m) [] bx_parse (fun _ _ => Ok wx_objs) (fun _ => Err EStorage) hx_local isort wx_builder wx_table sx_base wx_names wx_objs
    jx_number jx_collect unit (fun _ => Ok [("ts", tt)]) wx_rows sw_footer vx_code vx_rank vx_cast vx_parse (fun _ => None)
    (fun m => Permutation_refl m) isort_sorts OK BU sx_located vx_dfs 3 1 2 0 "parquet" 0%nat sw_12 hx_t1 None wx_t7 MT MF TC BV FW FC T1 T7 WE RL PE AC FU LN) as [_ A].
  - apply sw_apart. intros g [[x [Ix _]] _] E. rewrite E in Ix. destruct Ix.
  - destruct (A r R) as [bs [E [_ B]]]. exists bs. auto.
Qed.

(** False if the rollback of a failed write is in a log file that no commit of the window names, which is where writers put it
    when they do not append: the changes then hold a record that was never committed. *)
Theorem C97_rollback_elsewhere_refuted : exists w objs tb batches row,
  recorded_left wx_names "parquet" 0 vx_parse vx_code vx_rank wx_rows sw_footer vx_dfs 2 3 1 0 jx_number jx_collect w /\ Permutation objs (objects_of wx_names "parquet" w)
  /\ build (fun m => m) [] bx_parse (fun _ _ => Ok objs) (fun _ => Err EStorage) hx_local isort wx_builder = Ok (tb, sx_base, objs)
  /\ all_completed wx_names jx_number jx_collect hx_t1 wx_t7 w /\ (forall g, later_is_newer 2 3 1 (w_hist w g) wx_t7)
  /\ read_incremental unit avro value vx_parse decode check_schema (to_batch vx_code vx_rank vx_cast) (fun _ => None) hx_local
       (object_store objs sx_base unit (parse_metadata jx_number jx_collect) (fun _ => Ok [("ts", tt)]) wx_rows sw_footer (storage_opens bx_parse (fun _ _ => Ok objs))) tb hx_t1 None (Ok batches)
  /\ In row (flat_map rb_rows batches) /\ forall g x, ~ In (x, row) (g_versions (w_hist w g)).
Proof.
  exists ux_10, ux_objs, ux_table, (map hx_batch [[]; [hx_a3]]), hx_a3. split; [exact ux_recorded|]. split; [apply Permutation_refl|]. split; [exact ux_built|]. split; [exact ux_completed|]. split; [exact ux_later|].
  split; [exact ux_shown|]. split; [cbn; auto|exact ux_never].
Qed.
Print Assumptions C97_rollback_elsewhere_refuted.
