(** C101: SQL queries, from the objects of the table to the rows of the answer. *)
From Coq Require Import Sorted.
From Verif Require Import Base Str M_Utf8 M_Time M_Instant M_Timeline M_FileGroup M_Builder M_Listing M_Expr M_Log M_Config M_Reader M_Table M_Storage M_Avro M_Values M_Datum M_Json M_Objects M_Open M_Scan
  S_Time S_Timeline S_FileGroup S_Builder S_Listing S_Expr S_Log S_Reader S_Config S_Table S_Avro S_Storage S_Objects S_Open S_History S_Values S_Datum S_Json S_Whole S_Bases S_Scan S_Sql
  L_Base L_Str L_Open L_Whole L_Succeed L_BasesSucceed L_Sql E_Scan E_Open E_History E_Values E_Datum E_Json E_Whole E_Filtered P_Filtered.
Local Open Scope string_scope.

(** [SELECT * FROM table WHERE e1 AND e2 ...] has an answer.  Every answer is rows, not an error, and they are the rows on
    which all the conjuncts are true in the newest base files of the file groups that count at the latest commit.  What is
    asked of the table is about its objects; the engine reads the rows [rows_in] of an object's bytes. *)
Theorem C101_rows_partial : forall iter env parse stores global local_to_utc sort_unstable b tb u names objs
    number_of collect dtype' value' cast cmp parse_pschema parse_rows footer open,
  visits_all iter -> S_Timeline.sorts sort_unstable -> one_per_key (b_options b) ->
  build iter env parse stores global local_to_utc sort_unstable b = Ok (tb, u, objs) -> written u names names -> Forall safe names -> proper_objects objs ->
  let st := object_store objs u dtype' (parse_metadata number_of collect) parse_pschema parse_rows footer open in
  forall format partitioned tz n columns hive url fields,
  get_partition_schema dtype' st tb = Ok fields -> wf_fields fields ->
  base_format (t_configs tb) = Ok format -> is_table_partitioned (t_configs tb) = Ok partitioned -> timeline_timezone (t_configs tb) = Ok tz ->
  partition_fields (t_configs tb) = Ok columns -> hive_flag tb = Ok hive -> url_flag tb = Ok url -> listing_parallelism (t_configs tb) = Ok n -> (0 < n)%Z ->
  base_names_plain objs names format partitioned ->
  (forall path dir listed, object_partition objs names partitioned path dir -> directory_listing objs names dir listed -> listing_ok format listed) ->
  forall t time sch, latest_commit_timestamp (t_commits tb) = Some t -> parse_datetime local_to_utc t tz = Ok time ->
  replacements_in_order objs names number_of collect local_to_utc tz (epoch_millis time) -> schema_found objs names number_of collect parse_pschema (t_commits tb) sch ->
  let is_live := live objs names format partitioned number_of collect local_to_utc tz t (epoch_millis time) in
  forall row (rows_in objects : string -> outcome (list row)) column coltype lit lit_display lit_value opaque es,
  (forall o, In o objs -> objects (o_key o) = rows_in (o_data o)) ->
  (forall g c0 o, is_live g -> newest_base objs names format partitioned g t c0 o ->
     (exists stats, footer (o_data o) = Ok stats) /\ safe (o_key o)
     /\ exists rs, rows_in (o_data o) = Ok rs /\ forall r, In r rs -> lies_in cast coltype fields hive url (column r) (fst g)) ->
  (forall x y c, cmp x y = Some c -> cmp y x = Some (CompOpp c)) ->
  (forall e, In e es -> literal_side_ok e /\ literal_text_ok cast lit_display lit_value coltype e) ->
  (forall e, In e es -> literal_fits cast lit_display sch columns e) ->
  forall c, view_after dtype' value' cast cmp local_to_utc st tb c ->
  let query := sql_query dtype' value' cast cmp local_to_utc st tb u lit lit_display row objects column lit_value opaque es c in
  (exists c' r, query c' r)
  /\ forall c' r, query c' r -> exists out gs rss, r = Ok out /\ NoDup gs /\ (forall g, In g gs <-> is_live g)
     /\ Forall2 (fun g rs => exists c0 o, newest_base objs names format partitioned g t c0 o /\ rows_in (o_data o) = Ok rs) gs rss
     /\ Permutation out (filter (all_true value' cmp lit row column lit_value opaque es) (List.concat rss)).
Proof.
  intros iter env parse stores global L f b tb u names objs nu co D V ca cm ps pr fo op VA SU OK BU WR SN PO st format pt tz n cols hive url fields GF WF BF PT TZ PF HF UF LP NP BN LK t time sch LT TM RI SF is_live row ri ob col ct lit ld lv opq es OB RD CM LI LF c VW query.
  pose proof (written_located _ _ _ WR) as Lo.
  destruct (opened iter VA env parse stores global L f b tb u names objs SU OK BU Lo PO) as [u0 [o0 [da' [pp [_ [_ [_ [_ [_ [_ [_ [_ [li [tz0 [l0 [DL [TZ0 [DN [PM So]]]]]]]]]]]]]]]]]]].
  assert (tz0 = tz) by congruence. subst tz0.
  split.
  - exact (sql_runs objs u names PO Lo nu co L D V ca cm ps pr fo op tb li tz l0 format pt t time sch cols hive url DL TZ DN PM So fields GF WF BF PT TM BN RI SF PF HF UF n LP NP LK LT WR SN row ri ob col ct OB RD lit ld lv opq es LF c VW).
  - intros c' r Q.
    destruct (sql_ok objs u names PO Lo nu co L D V ca cm ps pr fo op tb li tz l0 format pt t time sch cols hive url DL TZ DN PM So fields GF WF BF PT TM BN RI SF PF HF UF n LP NP LK LT WR SN row ri ob col ct OB RD lit ld lv opq es LF c c' r VW Q) as [out ->].
    exists out. destruct (sql_of_objects objs u names PO Lo nu co L D V ca cm ps pr fo op tb li tz l0 format pt t time sch cols hive url DL TZ DN PM So fields GF WF BF PT TM BN RI SF PF HF UF n LP NP LK LT WR SN row ri ob col ct OB RD lit ld lv opq CM es LI c c' out VW Q) as [gs [rss H]].
    exists gs, rss. split; [reflexivity|exact H].
Qed.
Print Assumptions C101_rows_partial.

(** ** The hypotheses are met *)
(** The table of C87 again: one record in "ts=1", one in "ts=2".  WHERE ts = 2. *)
Definition px_rows_in (d : string) : outcome (list (list cell)) := let* b := px_rows d in Ok (rb_rows b).
Definition px_engine (key : string) : outcome (list (list cell)) :=
  match find (fun o => String.eqb (o_key o) key) (px_objs []) with Some o => px_rows_in (o_data o) | None => Err EStorage end.
Definition px_column (r : list cell) (c : string) : option Z := match nth 3 r Null with VInt n => Some n | _ => None end.
Definition px_where : list (df_expr string) := [XBin (XCol "ts") DEq (XLit "2")].
Definition px_sql := sql_query unit Z px_cast px_cmp hx_local (px_store []) (px_table []) sx_base string (fun s => s) (list cell) px_engine px_column (px_cast tt) (fun _ _ => None) px_where.
Example C101_case : px_build [] = Ok (px_table [], sx_base, px_objs []) /\ written sx_base wx_names wx_names /\ Forall safe wx_names /\ proper_objects (px_objs [])
  /\ get_partition_schema unit (px_store []) (px_table []) = Ok [("ts", tt)] /\ wf_fields [("ts", tt)]
  /\ base_format (t_configs (px_table [])) = Ok "parquet" /\ is_table_partitioned (t_configs (px_table [])) = Ok true /\ timeline_timezone (t_configs (px_table [])) = Ok "utc"
  /\ partition_fields (t_configs (px_table [])) = Ok ["ts"] /\ hive_flag (px_table []) = Ok true /\ url_flag (px_table []) = Ok false /\ (exists n, listing_parallelism (t_configs (px_table [])) = Ok n /\ (0 < n)%Z)
  /\ base_names_plain (px_objs []) wx_names "parquet" true
  /\ (forall path dir listed, object_partition (px_objs []) wx_names true path dir -> directory_listing (px_objs []) wx_names dir listed -> listing_ok "parquet" listed)
  /\ latest_commit_timestamp (t_commits (px_table [])) = Some hx_t1 /\ option_map epoch_millis (match parse_datetime hx_local hx_t1 "utc" with Ok d => Some d | _ => None end) = Some 1735689600000%Z
  /\ (forall time, replacements_in_order (px_objs []) wx_names jx_number jx_collect hx_local "utc" time)
  /\ schema_found (px_objs []) wx_names jx_number jx_collect (fun _ => Ok [("ts", tt)]) (t_commits (px_table [])) [("ts", tt)]
  /\ (forall o, In o (px_objs []) -> px_engine (o_key o) = px_rows_in (o_data o))
  /\ (forall g c0 o, px_live g -> newest_base (px_objs []) wx_names "parquet" true g hx_t1 c0 o ->
        safe (o_key o) /\ exists rs, px_rows_in (o_data o) = Ok rs /\ forall r, In r rs -> lies_in px_cast (fun _ => tt) [("ts", tt)] true false (px_column r) (fst g))
  /\ (forall x y c, px_cmp x y = Some c -> px_cmp y x = Some (CompOpp c))
  /\ (forall e, In e px_where -> literal_side_ok e /\ literal_text_ok px_cast (fun s => s) (px_cast tt) (fun _ => tt) e)
  /\ (forall e, In e px_where -> literal_fits px_cast (fun s => s) [("ts", tt)] ["ts"] e).
Proof.
  split; [apply px_built; now left|]. split; [exact sx_written|]. split; [exact sx_safe|]. split; [apply px_proper; now left|]. split; [vm_compute; reflexivity|].
  split; [split; [repeat constructor; intros []|intros n [ <- |[]]; repeat split]|]. do 6 (split; [vm_compute; reflexivity|]). split; [eexists; split; [vm_compute; reflexivity|lia]|].
  split; [|split; [|split; [vm_compute; reflexivity|split; [vm_compute; reflexivity|split; [|split; [|split; [|split; [|split; [|split]]]]]]]]].
  - intros path dir n o b OP FI _ _ BO. destruct (px_partition _ _ _ _ OP FI) as [id [d [row [I _]]]]. unfold base_file_of in BO.
    destruct I as [[= <- <- <- <- <-]|[[= <- <- <- <- <-]|[]]]; (match type of BO with context [parse_base_name ?n] => let x := eval vm_compute in (parse_base_name n) in change (parse_base_name n) with x in BO end; cbn [bind] in BO; injection BO as <-; vm_compute; reflexivity).
  - intros path dir l OP DL.
    assert (K : forall m, In m l -> exists id n d row, In (path, id, n, d, row) px_groups /\ m = new_meta n (o_size (px_at (dir, n, d)))).
    { intros m Im. apply (proj2 DL) in Im as [n [o [FI ->]]]. destruct (px_partition _ _ _ _ OP FI) as [id [d [row [J [_ ->]]]]]. exists id, n, d, row. auto. }
    split; [|split].
    + intros m Im _ _. destruct (K m Im) as [id [n [d [row [J ->]]]]]. destruct J as [[= <- <- <- <- <-]|[[= <- <- <- <- <-]|[]]]; eexists; vm_compute; reflexivity.
    + intros m1 m2 b1 b2 [I1 _] [I2 _] _ _. destruct (K m1 I1) as [id1 [n1 [d1 [row1 [J1 ->]]]]], (K m2 I2) as [id2 [n2 [d2 [row2 [J2 ->]]]]].
      destruct J1 as [[= <- <- <- <- <-]|[[= <- <- <- <- <-]|[]]], J2 as [J2|[J2|[]]]; try discriminate J2; injection J2 as <- <- <- <-; reflexivity.
    + intros m x m1 b1 [Im [_ [NB _]]] _ _. exfalso. apply NB. destruct (K m Im) as [id [n [d [row [J ->]]]]].
      destruct J as [[= <- <- <- <- <-]|[[= <- <- <- <- <-]|[]]]; [now exists "h_0-0-0_20250101000000000"|now exists "r_0-0-0_20250101000000000"].
  - intros time.
    assert (K : forall n o, file_in (px_objs []) wx_names [".hoodie"] n o -> (forall ts, n <> ts ++ ".replacecommit") /\ forall ts, n <> ts ++ ".replacecommit.").
    { intros n o FI. apply px_in in FI as [d [J _]]; [|repeat constructor; discriminate]. cbn [px_files app In] in J.
      destruct J as [J|[J|[J|[J|[]]]]]; try discriminate J; injection J as <- _; split; intros ts E; apply (f_equal (fun s => (ends_with ".replacecommit" s, ends_with ".replacecommit." s))) in E;
      first [rewrite (proj2 (ends_with_spec ".replacecommit" (ts ++ ".replacecommit")) (ex_intro _ ts eq_refl)) in E|rewrite (proj2 (ends_with_spec ".replacecommit." (ts ++ ".replacecommit.")) (ex_intro _ ts eq_refl)) in E]; injection E; discriminate. }
    split; [intros ts o FI; now apply (proj2 (K _ _ FI) ts)|intros ts o dt FI; now elim (proj1 (K _ _ FI) ts)].
  - let l := eval vm_compute in (t_commits (px_table [])) in match l with [?e] => exists [], e end.
    exists (px_at ([".hoodie"], "20250101000000000.commit", "{""partitionToWriteStats"":{" ++ px_stats "ts=1" "h" wx_h ++ ", " ++ px_stats "ts=2" "r" wx_r ++ "}}")). eexists. exists ["ts=1"], wx_h, (px_at (["ts=1"], wx_h, "h1")).
    split; [vm_compute; reflexivity|]. split; [apply px_there; cbn [px_files app In]; tauto|]. split; [apply L_Json.slice_text; vm_compute; reflexivity|].
    split; [do 5 eexists; split; [reflexivity|]; split; [reflexivity|]; left; split; [now exists "ts=1/h_0-0-0_20250101000000000"|reflexivity]|]. split; [repeat constructor; discriminate|]. split; [apply px_there; cbn [px_files app In]; tauto|reflexivity].
  - intros o I. unfold px_objs in I. apply in_map_iff in I as [x [ <- I]]. cbn [px_files app In] in I. repeat (destruct I as [ <- |I]; [vm_compute; reflexivity|]). destruct I.
  - intros g c0 o _ [[dir [n [b [OP [FI _]]]]] _]. destruct (px_partition _ _ _ _ OP FI) as [id [d [row [I [-> ->]]]]].
    destruct g as [part gid]. cbn [fst snd] in *. split.
    + assert (X : forall l, Forall safe [l] -> safe l) by (intros l F; now inversion F). apply X.
      destruct I as [[= <- <- <- <- <-]|[[= <- <- <- <- <-]|[]]]; cbn [px_at o_key key_of wx_names app join append]; safe_names.
    + pose proof OP as [_ [EP _]]. cbn [join] in EP. destruct I as [[= <- <- <- <- <-]|[[= <- <- <- <- <-]|[]]]; eexists; (split; [reflexivity|]); intros r [ <- |[]]; [exists ["1"]|exists ["2"]];
      (split; [eexists; split; [constructor; [reflexivity|constructor]|reflexivity]|]); (split; [reflexivity|]); intros m ty v [[= <- <- <-]|[]]; (split; [reflexivity|]); eexists; split; reflexivity.
  - intros x y c [= <-]. unfold px_cmp. f_equal. apply Z.compare_antisym.
  - intros e [ <- |[]]. split; [exact I|]. intros c l v _ H. exact H.
  - intros e [ <- |[]] k l [o [b [B [E _]]]]. destruct E as [ <- |E]; [|discriminate E]. destruct B as [B|B]; [|discriminate B]. injection B as <- _ <-. split; [now left|]. exists tt, 2%Z. split; [now left|]. split; [now intros []|reflexivity].
Qed.
(** The answer to this query. *)
Example C101_answer : exists c', px_sql [] c' (Ok [px_d2]).
Proof.
  assert (G : exists c' ss, get_file_slices_as_of unit Z px_cast px_cmp hx_local (px_store []) (px_table []) hx_t1 [("ts", "=", "2")] [] c' (Ok ss)
    /\ (let* parts := splits 0 ss in mapM (mapM (scan_file sx_base)) parts) = Ok [[{| pf_location := "data/t/ts=2/" ++ wx_r; pf_size := 2 |}]]).
  { eexists. eexists. split; [eapply ga_ok; [vm_compute; reflexivity|]; eapply sa_view; [eapply px_plan; vm_compute; reflexivity|vm_compute; reflexivity|vm_compute; reflexivity|vm_compute; reflexivity|];
      eapply vq_ok with (order := fun _ l => l);
      [reflexivity|eapply ll_finished with (fuel := 5%nat); [reflexivity|vm_compute; reflexivity|]; sx_one; eapply star_step; [apply (ps_finish _ _ (Z.to_nat 10)); cbn; lia|]; apply star_refl|vm_compute; reflexivity|vm_compute; reflexivity]|].
    vm_compute. reflexivity. }
  destruct G as [c' [ss [G E]]]. exists c'.
  eapply sq_rows with (groups := [[{| pf_location := "data/t/ts=2/" ++ wx_r; pf_size := 2 |}]]) (rss := [[px_d2]]) (kept := [[px_d2]]).
  - vm_compute. reflexivity.
  - rewrite <- E. assert (P : input_partitions (t_configs (px_table [])) = Ok 0%Z) by (vm_compute; reflexivity).
    assert (T : latest_commit_timestamp (t_commits (px_table [])) = Some hx_t1) by (vm_compute; reflexivity).
    change (handed px_where [true]) with px_where.
    exact (sc_plan _ _ _ _ _ _ _ _ _ _ px_where 0%Z [] c' _ P (gl_some _ _ _ _ _ _ _ _ _ _ _ hx_t1 _ T (gp_one _ _ _ _ _ _ _ _ _ _ _ _ _ G))).
  - repeat constructor.
  - repeat constructor.
  - vm_compute. repeat constructor.
Qed.
