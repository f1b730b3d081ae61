(** C100: incremental reads after and while cleaners remove old files. *)
From Coq Require Import Sorted.
From Verif Require Import Base Str M_Utf8 M_Time M_Instant M_Timeline M_FileGroup M_Builder M_Listing M_Expr M_Log M_Config M_Reader M_Table M_Storage M_Avro M_Values M_Datum M_Json M_Objects M_During M_Open
  S_Time S_Timeline S_FileGroup S_Builder S_Listing S_Expr S_Log S_Reader S_Config S_Table S_Avro S_Storage S_Objects S_Open S_History S_Incremental S_Values S_Datum S_Json S_Whole S_Changes S_During S_Readers S_Follow S_Clean S_Gaps S_SweptChanges
  L_Base L_Timeline L_Reader L_Open L_Readers L_Writer L_Clean L_WholeChanges L_Follow L_SweptChanges E_Scan E_Open E_History E_Changes E_Values E_Datum E_Json E_Whole E_WholeChanges P_Whole P_WholeChanges P_Follow E_Clean P_Clean E_Swept.
Local Open Scope string_scope.

(** Writers left the objects [objs].  Cleaners then remove files, one by one and in any order, but none of the slices that
    the changes after [start] and up to [e] need; meanwhile a table is opened and the changes are read, up to a given time
    or up to the last commit, each request of the read being answered at another moment ([sees]).  The read succeeds, and
    its records are exactly the changes that the writers made: for every key with a version committed in between its newest
    version as of [e], each key once. *)
Theorem C100_changes : forall iter env parse stores global local_to_utc sort_unstable b tb u names objs now moments
    number_of collect dtype' parse_pschema parse_rows footer code rank float_cast parse_schema parquet,
  visits_all iter -> S_Timeline.sorts sort_unstable -> one_per_key (b_options b) -> by_value stores ->
  build iter env parse stores global local_to_utc sort_unstable b = Ok (tb, u, now) -> located u names -> proper_objects objs ->
  forall st : store dtype', sees moments u dtype' (parse_metadata number_of collect) parse_pschema parse_rows footer (storage_opens parse stores) st ->
  st_open _ st = storage_opens parse stores ->
  forall dfs p s k ct format partitioned hist start stop e,
  (forall objs', In objs' (now :: moments) -> left_of objs objs' names format partitioned (changed_slice objs names format partitioned number_of collect start e)) ->
  merging_table tb (map (as_field code) dfs) p s k -> oget "hoodie.populate.meta.fields" (t_configs tb) <> Some "false" ->
  typed_column (map (as_field code) dfs) "_hoodie_commit_time" TUtf8 ct ->
  timestamp start -> timestamp e -> window_end (t_commits tb) stop e ->
  timeline_in_order objs names -> one_stat_each objs names number_of collect start e ->
  changes_written objs names number_of collect start e format partitioned parse_schema code rank parse_rows dfs k p s ct hist ->
  commits_in_order objs names number_of collect start e ->
  let changed := changed_group objs names number_of collect start e in
  let read := read_incremental dtype' avro value parse_schema decode check_schema (to_batch code rank float_cast) parquet local_to_utc st tb start stop in
  (exists r, read r)
  /\ forall r, read r -> exists batches, r = Ok batches /\ (forall batch, In batch batches -> rb_fields batch = map (as_field code) dfs)
       /\ (keys_apart k changed hist -> table_changed k p s changed hist start e (flat_map rb_rows batches)).
Proof.
  intros iter env parse stores global L f b tb u names objs now moments nu co D ps pr fo code rank fc sc pq VA SU OK BV BU Lo PO st SEE OE dfs p s k ct format pt hist start stop e LE MT MF TC Ts Te We TO US CW CO changed read.
  pose proof (left_proper objs (now :: moments) names format pt _ PO LE now (or_introl eq_refl)) as PN.
  destruct (opened iter VA env parse stores global L f b tb u names now SU OK BU Lo PN) as [u0 [o0 [da [pp [_ [_ [_ [_ [_ [_ [_ [_ [li [tz0 [l0 [DL [TZ0 [DN [PM So]]]]]]]]]]]]]]]]]]].
  assert (tz0 = "utc") by (pose proof (utc_is _ (mt_utc _ _ _ _ _ MT)); congruence). subst tz0.
  apply (left_listing objs (now :: moments) u names format pt _ Lo LE now li (or_introl eq_refl)) in DL.
  assert (LM : forall objs', In objs' moments -> left_of objs objs' names format pt (changed_slice objs names format pt nu co start e)) by (intros; apply LE; now right).
  pose proof (swept_incremental objs moments u names format pt start e PO Lo nu co LM L D ps pr fo (storage_opens parse stores) code rank fc sc pq st SEE OE tb li l0 dfs p s k ct hist stop DL DN PM So TO MT Ts We Te US CW) as EQ.
  set (st0 := object_store objs u D (parse_metadata nu co) ps pr fo (storage_opens parse stores)) in *.
  assert (OPN : readers_open st0 tb [("hoodie.read.file_group.start_timestamp", start); ("hoodie.read.file_group.end_timestamp", e)]).
  { apply (readers_opened parse stores BV iter env global L f b tb u now D st0 _ BU (mt_storage _ _ _ _ _ MT)); [|reflexivity].
    intros k0 v [[= <- _]|[[= <- _]|[]]]; (split; [|discriminate]); [now exists "read.file_group.start_timestamp"|now exists "read.file_group.end_timestamp"]. }
  destruct (whole_changes_succeed objs u names PO Lo nu co L D ps pr fo (storage_opens parse stores) code rank fc sc pq tb li l0 dfs p s k ct format pt hist start e stop DL DN PM So TO MT MF TC Ts We Te US CW CO OPN) as [A [bs B]].
  split; [exists (Ok bs); apply EQ; exact B|]. intros r R. apply EQ in R. destruct (A r R) as [batches ->]. exists batches. split; [reflexivity|].
  destruct (whole_changes objs u names PO Lo nu co L D ps pr fo (storage_opens parse stores) code rank fc sc pq tb li l0 dfs p s k ct format pt hist start e stop DL DN PM So TO MT MF TC Ts We Te US CW batches R) as [gs [ND [OF [FA _]]]]. split.
  - clear -FA. induction FA as [|g x gs bs [E _] F IH]; intros y I; [destruct I|]. destruct I as [ <- |I]; auto.
  - intros KA. apply flatten_changes with (gs := gs); [exact ND|exact OF|exact KA|]. clear -FA. induction FA as [|g x gs bs [_ H] F IH]; constructor; auto.
Qed.
Print Assumptions C100_changes.

(** So cleaners do not disturb those who follow a table either (C86): a copy of the table as of [start] is, with the changes
    applied by key, the table as of [e], if the file groups as of [e] still hold the versions up to [start] (as when none was
    replaced, or clustering moved them) and those replaced before got no more commits. *)
Theorem C100_follow : forall iter env parse stores global local_to_utc sort_unstable b tb u names objs now moments
    number_of collect dtype' parse_pschema parse_rows footer code rank float_cast parse_schema parquet,
  visits_all iter -> S_Timeline.sorts sort_unstable -> one_per_key (b_options b) -> by_value stores ->
  build iter env parse stores global local_to_utc sort_unstable b = Ok (tb, u, now) -> located u names -> proper_objects objs ->
  forall st : store dtype', sees moments u dtype' (parse_metadata number_of collect) parse_pschema parse_rows footer (storage_opens parse stores) st ->
  st_open _ st = storage_opens parse stores ->
  forall dfs p s k ct format partitioned hist start stop e start_time end_time,
  (forall objs', In objs' (now :: moments) -> left_of objs objs' names format partitioned (changed_slice objs names format partitioned number_of collect start e)) ->
  merging_table tb (map (as_field code) dfs) p s k -> oget "hoodie.populate.meta.fields" (t_configs tb) <> Some "false" ->
  typed_column (map (as_field code) dfs) "_hoodie_commit_time" TUtf8 ct ->
  timestamp start -> timestamp e -> window_end (t_commits tb) stop e -> sle start e ->
  parse_datetime local_to_utc start "utc" = Ok start_time -> parse_datetime local_to_utc e "utc" = Ok end_time ->
  timeline_in_order objs names -> one_stat_each objs names number_of collect start e ->
  changes_written objs names number_of collect start e format partitioned parse_schema code rank parse_rows dfs k p s ct hist ->
  commits_in_order objs names number_of collect start e ->
  let at_start := live objs names format partitioned number_of collect local_to_utc "utc" start (epoch_millis start_time) in
  let at_end := live objs names format partitioned number_of collect local_to_utc "utc" e (epoch_millis end_time) in
  keys_apart k at_end hist -> versions_kept start at_start at_end hist ->
  (forall g, changed_group objs names number_of collect start e g -> ~ replaced_in objs names number_of collect local_to_utc "utc" (epoch_millis start_time) g) ->
  forall of hist0 copy, table_at k p s of hist0 start copy -> same_table start of at_start hist0 hist ->
  let read := read_incremental dtype' avro value parse_schema decode check_schema (to_batch code rank float_cast) parquet local_to_utc st tb start stop in
  (exists r, read r)
  /\ forall r, read r -> exists batches, r = Ok batches /\ table_at k p s at_end hist e (apply_changes k copy (flat_map rb_rows batches)).
Proof.
  intros iter env parse stores global L f b tb u names objs now moments nu co D ps pr fo code rank fc sc pq VA SU OK BV BU Lo PO st SEE OE dfs p s k ct format pt hist start stop e time0 time1 LE MT MF TC Ts Te We Lse T0 T1 TO US CW CO a0 a1 KA SV NW of hist0 copy TA SA read.
  pose proof (changed_live objs names nu co L start e time0 time1 Ts Te T0 T1 Lse TO format pt sc code rank pr dfs k p s ct hist CW NW) as CL.
  assert (KC : keys_apart k (changed_group objs names nu co start e) hist) by (intros g g' x x' r r' G G'; apply KA; now apply CL).
  destruct (C100_changes iter env parse stores global L f b tb u names objs now moments nu co D ps pr fo code rank fc sc pq VA SU OK BV BU Lo PO st SEE OE dfs p s k ct format pt hist start stop e LE MT MF TC Ts Te We TO US CW CO) as [EX AN].
  split; [exact EX|]. intros r R. destruct (AN r R) as [batches [-> [_ TC']]]. specialize (TC' KC). exists batches. split; [reflexivity|].
  apply (follow_step k p s a0 a1 (changed_group objs names nu co start e) hist start e copy (flat_map rb_rows batches) Lse).
  - exact SV.
  - exact CL.
  - intros g x v G V L1 L2. pose proof G as [[c [HB Lc]] NR].
    (* the group is among those read: its new versions are of commits in the window *)
    pose proof (left_proper objs (now :: moments) names format pt _ PO LE now (or_introl eq_refl)) as PN.
    destruct (opened iter VA env parse stores global L f b tb u names now SU OK BU Lo PN) as [u0 [o0 [da [pp [_ [_ [_ [_ [_ [_ [_ [_ [li [tz0 [l0 [DL [TZ0 [DN [PM So]]]]]]]]]]]]]]]]]]].
    assert (tz0 = "utc") by (pose proof (utc_is _ (mt_utc _ _ _ _ _ MT)); congruence). subst tz0.
    apply (left_listing objs (now :: moments) u names format pt _ Lo LE now li (or_introl eq_refl)) in DL.
    assert (LM : forall objs', In objs' moments -> left_of objs objs' names format pt (changed_slice objs names format pt nu co start e)) by (intros; apply LE; now right).
    apply (swept_incremental objs moments u names format pt start e PO Lo nu co LM L D ps pr fo (storage_opens parse stores) code rank fc sc pq st SEE OE tb li l0 dfs p s k ct hist stop DL DN PM So TO MT Ts We Te US CW) in R.
    destruct (whole_changes objs u names PO Lo nu co L D ps pr fo (storage_opens parse stores) code rank fc sc pq tb li l0 dfs p s k ct format pt hist start e stop DL DN PM So TO MT MF TC Ts We Te US CW batches R) as [gs [_ [OF [_ ALL]]]].
    apply OF. apply (ALL g c x v HB Lc V L1 L2). intros Q. apply NR. apply (replaced_split objs names nu co L start e time0 time1 Ts Te T0 T1 Lse TO). now right.
  - exact KA.
  - exact (table_same k p s start of a0 hist0 hist copy SA TA).
  - exact TC'.
Qed.
Print Assumptions C100_follow.

(** ** The hypotheses are met *)
(** The table of C81 and the cleaner of C99: it removes the log file of the first slice of a file group, then its base file,
    then a file group that is replaced.  The changes after the first commit are read meanwhile: the timeline when two files
    are gone, the data when all three are. *)
Fact sv_left : forall e names, In e [hx_t6; wx_t7] -> incl names cl_names -> left_of wx_objs (cl_without names) wx_names "parquet" false (changed_slice wx_objs wx_names "parquet" false jx_number jx_collect hx_t1 e).
Proof.
  intros e names Ie I. pose proof (sv_swept names I) as S. constructor; [apply S|apply S|].
  intros o J. destruct (existsb (fun n => String.eqb (o_key o) ("data/t/" ++ n)) names) eqn:X.
  - right. apply existsb_exists in X as [n [Jn E]]. apply String.eqb_eq in E. assert (K : In n cl_names) by exact (I _ Jn).
    assert (FI : exists d, In (n, d) wx_data) by (cbn [cl_names In] in K; repeat (destruct K as [ <- |K]; [eexists; cbn [wx_data In]; tauto|]); destruct K). destruct FI as [d FI].
    assert (EO : o = wx_at n d). { apply (one_object wx_objs wx_proper); [exact J|unfold wx_objs; apply in_or_app; right; apply in_map_iff; exists (n, d); auto|exact E]. } subst o.
    assert (SO : forall id c, In (n, (id, c)) cl_slices -> slice_object wx_objs wx_names "parquet" false ("", id) c (wx_at n d)).
    { intros id c Y. exists [], n. split; [now apply cl_part|]. split; [apply wx_files; exists d; auto|]. apply cl_slice; [apply in_map_iff; exists (n, d); auto|exact Y]. }
    assert (F1 : ~ changed_slice wx_objs wx_names "parquet" false jx_number jx_collect hx_t1 e ("", "f") hx_t1).
    { intros [_ [_ [_ M]]]. apply (M hx_t5 cl_has_5); [destruct Ie as [ <- |[ <- |[]]]; discriminate|reflexivity]. }
    cbn [cl_names In] in K. destruct K as [ <- |[ <- |[ <- |[]]]].
    + exists ("", "f"), hx_t1. split; [apply SO; cbn [cl_slices In]; tauto|exact F1].
    + exists ("", "f"), hx_t1. split; [apply SO; cbn [cl_slices In]; tauto|exact F1].
    + exists ("", "r"), hx_t1. split; [apply SO; cbn [cl_slices In]; tauto|]. intros [[[ts [a [m [c [n [C [N _]]]]]]] _] _]. apply (cx_base _ _ _ _ _ _ _ _ C) in N as [_ N]. cbn [snd] in N. destruct N as [[Y _]|[[Y _]|[Y _]]]; discriminate Y.
  - left. unfold cl_without. apply filter_In. split; [exact J|]. now rewrite X.
Qed.
Fact sv_itself : forall e, left_of wx_objs wx_objs wx_names "parquet" false (changed_slice wx_objs wx_names "parquet" false jx_number jx_collect hx_t1 e).
Proof. intros e. constructor; [|intros o I; exact I|now left]. apply nodup_of_map with (f := o_key). apply wx_proper. Qed.
Definition sv_changes (st : store unit) (start : string) (stop : option string) :=
  read_incremental unit avro value vx_parse decode check_schema (to_batch vx_code vx_rank vx_cast) (fun _ => None) hx_local st wx_table start stop.
Example C100_case : (map (@List.length object) (wx_objs :: sv_later) = [13; 12; 11; 10])%nat
  /\ sv_changes sv_store hx_t1 None (Ok (map hx_batch [[]; [hx_b6; hx_a2]]))
  /\ forall r, sv_changes sv_store hx_t1 None r -> exists batches, r = Ok batches
       /\ table_changed 2 3 1 (changed_group wx_objs wx_names jx_number jx_collect hx_t1 wx_t7) wx_hist hx_t1 wx_t7 (flat_map rb_rows batches).
Proof.
  split; [vm_compute; reflexivity|]. split; [unfold sv_changes; cx_read|].
  destruct C83_case as [_ [_ [_ [W1 [W2 [W3 [W4 [W5 [W6 [W7 [W8 [W9 [W10 _]]]]]]]]]]]]].
  destruct (C100_changes (fun m => m) [] bx_parse (fun _ _ => Ok wx_objs) (fun _ => Err EStorage) hx_local S_Timeline.isort wx_builder wx_table sx_base wx_names wx_objs wx_objs (wx_objs :: sv_later)
    jx_number jx_collect unit (fun _ => Ok [("ts", tt)]) wx_rows (fun _ => Ok (1, 1)%Z) vx_code vx_rank vx_cast vx_parse (fun _ => None))
    with (st := sv_store) (dfs := vx_dfs) (p := 3%nat) (s := 1%nat) (k := 2%nat) (ct := 0%nat) (format := "parquet") (partitioned := false) (hist := wx_hist) (start := hx_t1) (stop := @None string) (e := wx_t7) as [A B].
  - intros m. reflexivity.
  - apply L_Timeline.isort_sorts.
  - constructor.
  - intros ? ? ? ?. reflexivity.
  - exact wx_built.
  - exact sx_located.
  - exact wx_proper.
  - exact sv_sees.
  - reflexivity.
  - intros objs [ <- |[ <- |I]]; [apply sv_itself|apply sv_itself|]. apply in_map_iff in I as [names [ <- I]]. exact (sv_left _ names (or_intror (or_introl eq_refl)) (sv_part names I)).
  - exact wx_merging.
  - exact W1.
  - exact W2.
  - exact W3.
  - exact W4.
  - exact W5.
  - exact W6.
  - exact W7.
  - exact W8.
  - exact W9.
  - intros r R. destruct (B r R) as [bs [E [_ T]]]. exists bs. split; [exact E|]. exact (T W10).
Qed.

(** A copy of the table as of the first commit, and the changes after it, read while the files go. *)
Example C100_follow_case : let copy := [wx_c1; hx_b1; hx_a1; wx_d1] in
  table_at 2 3 1 (fx_table_at hx_t1 1) wx_hist hx_t1 copy
  /\ sv_changes sv_store hx_t1 (Some hx_t6) (Ok (map hx_batch [[hx_b6; hx_a2]]))
  /\ (forall r, sv_changes sv_store hx_t1 (Some hx_t6) r -> exists batches, r = Ok batches
       /\ table_at 2 3 1 (fx_table_at hx_t6 6) wx_hist hx_t6 (apply_changes 2 copy (flat_map rb_rows batches)))
  /\ apply_changes 2 copy [hx_b6; hx_a2] = [wx_c1; wx_d1; hx_b6; hx_a2].
Proof.
  intros copy.
  destruct C86_case as [_ [_ [_ [T1 [T6 [S1 [S6 [We [LE [TO [US [CW [W1 [_ [CO [KA [_ [_ [_ [KA1 [VK [NR [SA [[c' R1] [_ [_ AP]]]]]]]]]]]]]]]]]]]]]]]]]].
  destruct C81_case as [_ [_ [_ [_ [WF [BF [PT [TZ [_ [_ [_ [VA _]]]]]]]]]]]].
  assert (TA : table_at 2 3 1 (fx_table_at hx_t1 1) wx_hist hx_t1 copy).
  { refine (proj2 (C81_records (fun m => m) [] bx_parse (fun _ _ => Ok wx_objs) (fun _ => Err EStorage) hx_local S_Timeline.isort wx_builder wx_table sx_base wx_names wx_objs
      jx_number jx_collect unit string (fun _ s => Some s) (fun a b => Some (scmp a b)) (fun _ => Ok [("ts", tt)]) wx_rows (fun _ => Ok (1, 1)%Z) _ vx_code vx_rank vx_cast vx_parse (fun _ => None)
      (fun m => Permutation_refl m) L_Timeline.isort_sorts _ wx_built sx_located wx_proper vx_dfs 3 1 2 "parquet" false "utc" wx_merging WF BF PT TZ hx_t1 (fx_time 1) wx_hist S1 T1 W1 KA1 [] c' (map hx_batch fx_before) VA (or_introl R1))).
    constructor. }
  split; [exact TA|]. split; [unfold sv_changes; cx_read|]. split; [|exact AP].
  destruct C83_case as [_ [_ [_ [M1 [M2 _]]]]].
  destruct (C100_follow (fun m => m) [] bx_parse (fun _ _ => Ok wx_objs) (fun _ => Err EStorage) hx_local S_Timeline.isort wx_builder wx_table sx_base wx_names wx_objs wx_objs (wx_objs :: sv_later)
    jx_number jx_collect unit (fun _ => Ok [("ts", tt)]) wx_rows (fun _ => Ok (1, 1)%Z) vx_code vx_rank vx_cast vx_parse (fun _ => None))
    with (st := sv_store) (dfs := vx_dfs) (p := 3%nat) (s := 1%nat) (k := 2%nat) (ct := 0%nat) (format := "parquet") (partitioned := false) (hist := wx_hist) (start := hx_t1) (stop := Some hx_t6) (e := hx_t6)
      (start_time := fx_time 1) (end_time := fx_time 6) (of := fx_table_at hx_t1 1) (hist0 := wx_hist) (copy := copy) as [A B]; try assumption.
  - intros m. reflexivity.
  - apply L_Timeline.isort_sorts.
  - constructor.
  - intros ? ? ? ?. reflexivity.
  - exact wx_built.
  - exact sx_located.
  - exact wx_proper.
  - exact sv_sees.
  - reflexivity.
  - intros objs [ <- |[ <- |I]]; [apply sv_itself|apply sv_itself|]. apply in_map_iff in I as [names [ <- I]]. exact (sv_left _ names (or_introl eq_refl) (sv_part names I)).
  - exact wx_merging.
  - intros g _. apply NR.
Qed.

(** ** What does not hold *)
(** A read of older changes needs slices that a cleaner may have removed since, and fails. *)
Theorem C100_old_changes_refuted : let objs := cl_without cl_names in
  left_of wx_objs objs wx_names "parquet" false (changed_slice wx_objs wx_names "parquet" false jx_number jx_collect hx_t1 wx_t7)
  /\ sv_changes (cl_store wx_objs) hx_t1 (Some hx_t2) (Ok (map hx_batch [[hx_a2]]))
  /\ exists e, sv_changes (cl_store objs) hx_t1 (Some hx_t2) (Err e).
Proof.
  intros objs. split; [apply sv_left; [cbn; tauto|intros n I; exact I]|]. split; [unfold sv_changes; cx_read|].
  eexists. unfold sv_changes.
  eapply ri_ok with (order := fun _ l => l);
  [intros n l; reflexivity|vm_compute; reflexivity|vm_compute; reflexivity
  |eapply rs_read with (iter := fun m => m); [intros m; reflexivity| |];
   [split; [reflexivity|]; repeat (apply Forall2_cons; [exists (@L_Reader.isort _), (fun m => m); split; [apply L_Reader.isort_sorts|split; [intros m; reflexivity|vm_compute; reflexivity]]|]); apply Forall2_nil|]].
  apply jo_err. now left.
Qed.
Print Assumptions C100_old_changes_refuted.
