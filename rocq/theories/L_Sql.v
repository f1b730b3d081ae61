(** Lemmas for C101: SQL queries over the objects of a table. *)
From Coq Require Import Sorted.
From Verif Require Import Base Str M_Utf8 M_Time M_Instant M_Timeline M_FileGroup M_Builder M_Listing M_Expr M_Log M_Config M_Reader M_Table M_Storage M_Avro M_Values M_Datum M_Json M_Objects M_Open M_Scan
  S_Time S_Timeline S_FileGroup S_Builder S_Listing S_Expr S_Log S_Reader S_Config S_Table S_Avro S_Storage S_Objects S_Open S_History S_Values S_Datum S_Json S_Whole S_Bases S_Scan S_Sql
  L_Base L_Str L_Config L_Instant L_Storage L_Expr L_Listing L_Tree L_View L_Table L_Objects L_Json L_Whole L_Succeed L_Bases L_BasesSucceed.
From Verif Require L_Scan L_History.
Local Open Scope string_scope.

Lemma chosen : forall A B (P : A -> B -> Prop) l, (forall x, In x l -> exists y, P x y) -> exists ys, Forall2 P l ys.
Proof.
  induction l as [|x l IH]; intros H; [exists []; constructor|]. destruct (H x (or_introl eq_refl)) as [y Y]. destruct IH as [ys YS]; [intros z I; apply H; now right|]. exists (y :: ys). now constructor.
Qed.
Lemma skips_all : forall A (p : A -> bool) l, skips A p l l.
Proof. induction l; constructor; auto. Qed.
Lemma combine_in : forall A B (P : A -> B -> Prop) l m x y, Forall2 P l m -> In (x, y) (combine l m) -> In x l /\ P x y.
Proof. intros A B P l m x y F. induction F as [|a b l m H F IH]; intros I; [destruct I|]. destruct I as [[= <- <-]|I]; [split; [now left|exact H]|]. destruct (IH I). split; [now right|assumption]. Qed.

Lemma safe_app : forall a b, safe (a ++ b) -> safe a /\ safe b.
Proof. induction a as [|c a IH]; intros b S; [split; [exact I|exact S]|]. destruct S as [C S]. destruct (IH _ S). split; [split|]; assumption. Qed.
Lemma safe_key : forall l, safe (key_of l) -> Forall safe l.
Proof.
  unfold key_of. induction l as [|x l IH]; intros S; [constructor|]. destruct l as [|y l]; [cbn [join] in S; constructor; [exact S|constructor]|].
  change (join "/" (x :: y :: l)) with (x ++ "/" ++ join "/" (y :: l)) in S. apply safe_app in S as [S1 S2]. apply (safe_app "/") in S2 as [_ S2]. constructor; auto.
Qed.

(** the filters that are derived from conjuncts that fit, fit *)
Lemma derived_fits : forall T V lit (cast : T -> string -> option V) lit_display sch columns (e : df_expr lit) f,
  literal_fits cast lit_display sch columns e -> expr_to_filter lit lit_display e = Some f -> filter_fits cast sch columns f.
Proof.
  intros T V lit ca ld sch cols e f LF E.
  assert (B : forall l o r g, binary_expr_to_filter lit ld l o r = Some g -> (forall n, o <> DOther n) /\ exists c v, (XBin l o r = XBin (XCol c) o (XLit v) \/ XBin l o r = XBin (XLit v) o (XCol c)) /\ fe_field g = c /\ fe_value g = ld v).
  { intros l o r g H. unfold binary_expr_to_filter in H. destruct l; try discriminate; destruct r; try discriminate; (destruct o; try discriminate; cbn in H; injection H as <-; (split; [discriminate|]); eexists; eexists; (split; [|split; reflexivity]); auto). }
  destruct e as [c|v|l o r|n|? ?]; try discriminate.
  - cbn [expr_to_filter] in E. destruct (B _ _ _ _ E) as [NO [c [v [X [E1 E2]]]]]. unfold filter_fits. rewrite E1, E2. apply LF. exists o, (XBin l o r). auto.
  - destruct n as [c|v|l o r|n|? ?]; try discriminate. cbn [expr_to_filter not_expr_to_filter] in E. destruct (binary_expr_to_filter lit ld l o r) as [g|] eqn:G; [|discriminate].
    destruct (B _ _ _ _ G) as [NO [c [v [X [E1 E2]]]]].
    assert (E3 : fe_field f = fe_field g /\ fe_value f = fe_value g) by (unfold negate_filter in E; destruct (negate_op (fe_op g)); [injection E as <-; split; reflexivity|discriminate]).
    destruct E3 as [E3 E4]. unfold filter_fits. rewrite E3, E4, E1, E2. apply LF. exists o, (XBin l o r). auto.
Qed.

Lemma written_located : forall base names encs, written base names encs -> located base names.
Proof.
  intros base names encs W. pose proof W as [OP [LG [FI [EN [UT UP]]]]]. pose proof (L_Scan.written_parts _ _ LG EN) as WP.
  split; [exact OP|]. split; [exact LG|]. split; [exact FI|]. exists (leading encs). split; [now apply L_Scan.written_encodes|]. split; [|exact UP]. apply L_Scan.leading_ends. eapply Forall_impl; [|exact WP]. intros a [A [B _]]. auto.
Qed.

Section Sql.
Variable objs : list object.
Variable base : url.
Variable names : list string.
Hypothesis PO : proper_objects objs.
Hypothesis Lo : located base names.
Variable number_of : string -> option Z.
Variable collect : list (string * json) -> list (string * json).
Variable local_to_utc : ndt -> option ndt.
Variable dtype' value' : Type.
Variable cast : dtype' -> string -> option value'.
Variable cmp : value' -> value' -> option comparison.
Variable parse_pschema : string -> outcome (list (string * dtype')).
Variable parse_rows : string -> outcome record_batch.
Variable footer : string -> outcome (Z * Z).
Variable open : options -> options -> outcome unit.
Let st := object_store objs base dtype' (parse_metadata number_of collect) parse_pschema parse_rows footer open.
Variable tb : table.
Variable listed0 : list file_meta.
Variable tz : string.
Variable l0 : list instant.
Variable format : string.
Variable partitioned : bool.
Variable t : string.
Variable time : ndt.
Variable sch : list (string * dtype').
Variable columns : list string.
Variable hive url : bool.
Hypothesis DL : directory_listing objs names [".hoodie"] listed0.
Hypothesis TZ : timeline_timezone (t_configs tb) = Ok tz.
Hypothesis DN : denoted_instants (denotes_completed local_to_utc tz [Commit; DeltaCommit; ReplaceCommit]) (map fm_name listed0) l0.
Hypothesis PM : Permutation l0 (t_commits tb).
Hypothesis So : StronglySorted instant_le (t_commits tb).
Variable fields : list (string * dtype').
Hypothesis GF : get_partition_schema dtype' st tb = Ok fields.
Hypothesis WF : wf_fields fields.
Hypothesis BF : base_format (t_configs tb) = Ok format.
Hypothesis PT : is_table_partitioned (t_configs tb) = Ok partitioned.
Hypothesis TM : parse_datetime local_to_utc t tz = Ok time.
Hypothesis BP : base_names_plain objs names format partitioned.
Let is_live := live objs names format partitioned number_of collect local_to_utc tz t (epoch_millis time).
Hypothesis RI : replacements_in_order objs names number_of collect local_to_utc tz (epoch_millis time).
Hypothesis SF : schema_found objs names number_of collect parse_pschema (t_commits tb) sch.
Hypothesis PF : partition_fields (t_configs tb) = Ok columns.
Hypothesis HF : hive_flag tb = Ok hive.
Hypothesis UF : url_flag tb = Ok url.
Variable par : Z.
Hypothesis LP : listing_parallelism (t_configs tb) = Ok par.
Hypothesis NP : (0 < par)%Z.
Hypothesis LK : forall path dir listed, object_partition objs names partitioned path dir -> directory_listing objs names dir listed -> listing_ok format listed.
Hypothesis LT : latest_commit_timestamp (t_commits tb) = Some t.
Hypothesis WR : written base names names.
Hypothesis SN : Forall safe names.
Variable row : Type.
Variable rows_in : string -> outcome (list row).
Variable objects : string -> outcome (list row).
Variable column : row -> string -> option value'.
Variable coltype : string -> dtype'.
Hypothesis OB : forall o, In o objs -> objects (o_key o) = rows_in (o_data o).
Hypothesis RD : forall g c o, is_live g -> newest_base objs names format partitioned g t c o ->
  (exists stats, footer (o_data o) = Ok stats)
  /\ safe (o_key o)
  /\ exists rs, rows_in (o_data o) = Ok rs /\ forall r, In r rs -> lies_in cast coltype fields hive url (column r) (fst g).
Variable lit : Type.
Variable lit_display : lit -> string.
Variable lit_value : lit -> option value'.
Variable opaque : row -> df_expr lit -> option bool.
Hypothesis CM : forall a b c, cmp a b = Some c -> cmp b a = Some (CompOpp c).
Variable es : list (df_expr lit).
Hypothesis LI : forall e, In e es -> literal_side_ok e /\ literal_text_ok cast lit_display lit_value coltype e.
Hypothesis LF : forall e, In e es -> literal_fits cast lit_display sch columns e.
Let root := object_tree objs base.
Let served : serves_dirs root (st_dirs _ st) := tree_served objs base names PO Lo.
Let wf : wf_tree root := tree_wf objs base names PO Lo _ [] (Forall_nil _).
Let query := sql_query dtype' value' cast cmp local_to_utc st tb base lit lit_display row objects column lit_value opaque es.
Let after := view_after dtype' value' cast cmp local_to_utc st tb.
Let slices := get_file_slices_as_of dtype' value' cast cmp local_to_utc st tb t.

Lemma columns_are : schema_columns dtype' st tb = Ok (map fst sch).
Proof.
  destruct SF as [before [i [o [m [dir [n [o' [EC [FI [TX [NS [FD [FI' PS]]]]]]]]]]]]].
  assert (LA : last_opt (t_commits tb) = Some i).
  { rewrite EC. clear. induction before as [|x l IH]; [reflexivity|]. cbn [app]. destruct (l ++ [i])%list eqn:E; [destruct l; discriminate|exact IH]. }
  assert (RJ : st_json _ st (".hoodie/" ++ file_name i) = Ok m).
  { rewrite file_name_spec. cbn [st object_store st_json]. pose proof FI as [_ [Ln _]]. rewrite (proj2 (timeline_read objs base names PO Lo _ (o_data o) Ln)) by eauto. cbn [bind].
    unfold parse_metadata. apply slice_text in TX. now rewrite TX. }
  unfold schema_columns. rewrite (schema_path _ _ _ _ _ LA RJ NS). cbn [bind st object_store st_schema]. rewrite (read_data objs base names PO Lo dir n o' FD FI'). cbn [bind]. now rewrite PS.
Qed.

Definition handed_now := handed es (map (can_push_down lit (fun c => existsb (String.eqb c) (map fst sch))) es).
Lemma pushdown_is : supports_filters_pushdown dtype' st tb lit es = Ok (map (can_push_down lit (fun c => existsb (String.eqb c) (map fst sch))) es).
Proof. unfold supports_filters_pushdown. rewrite columns_are. reflexivity. Qed.
Let derived := flat_map (fun e => match expr_to_filter lit lit_display e with Some f => [f] | None => [] end) handed_now.
Lemma derived_ok : forall f, In f derived -> filter_fits cast sch columns f.
Proof.
  intros f I. apply in_flat_map in I as [e [I J]]. destruct (expr_to_filter lit lit_display e) as [g|] eqn:E; [|destruct J]. destruct J as [ <- |[]].
  eapply derived_fits; [|exact E]. apply LF. eapply L_Scan.handed_incl, I.
Qed.
Let WF' : forall x, get_partition_schema dtype' st tb = Ok x -> wf_fields x.
Proof. intros x E. assert (x = fields) by congruence. now subst. Qed.
Let RF : forall g c o, is_live g -> newest_base objs names format partitioned g t c o -> exists stats, footer (o_data o) = Ok stats.
Proof. intros g c o G N. apply (RD g c o G N). Qed.

(** the base file of a slice that is shown, and its rows *)
Lemma shown_rows : forall filters c c' ss sl, after c -> slices filters c c' (Ok ss) -> In sl ss ->
  exists c0 o rs, newest_base objs names format partitioned (slice_id sl) t c0 o /\ is_live (slice_id sl) /\ rows_in (o_data o) = Ok rs
    /\ stores objects names sl rs /\ forall r, In r rs -> lies_in cast coltype fields hive url (column r) (fs_partition sl).
Proof.
  intros filters c c' ss sl VA G I.
  destruct (shown_newest_base objs base names PO Lo number_of collect local_to_utc dtype' value' cast cmp parse_pschema parse_rows footer open tb listed0 tz l0 format partitioned t time DL TZ DN PM So WF' BF PT TM BP footer c c' filters ss VA G) as [_ [_ SH]].
  destruct (SH sl I) as [_ [c0 [o [dir [n [NB [LV [FD [FI EP]]]]]]]]]. destruct (RD _ _ _ LV NB) as [_ [SA [rs [RR RL]]]].
  exists c0, o, rs. split; [exact NB|]. split; [exact LV|]. split; [exact RR|]. split; [|exact RL].
  pose proof FI as [IO [Ln EK']].
  exists (dir ++ [n])%list. split; [|split; [rewrite EK' in SA; apply safe_key in SA; apply Forall_app in SA; apply SA|rewrite <- EK'; rewrite (OB o IO); exact RR]].
  rewrite EP. rewrite L_History.path_is; [|now apply dir_end|intros r ->; destruct Ln as [_ [S _]]; discriminate S].
  replace (file_path (join "/" dir) n) with (join "/" (dir ++ [n])); [apply names_dir, Forall_app; split; [exact FD|constructor; [exact Ln|constructor]]|].
  clear -FD. destruct dir as [|x dir]; [reflexivity|]. rewrite join_app1 by discriminate. unfold file_path. destruct (String.eqb_spec (join "/" (x :: dir)) "") as [E|_]; [|reflexivity].
  inversion FD as [|? ? [N _] _]; subst. cbn [join] in E. destruct x; [congruence|]. destruct dir; discriminate E.
Qed.

Lemma scans_ok : forall c c' r, after c -> scan dtype' value' cast cmp local_to_utc st tb base lit lit_display handed_now c c' r ->
  exists groups, r = Ok groups /\ forall f, In f (List.concat groups) -> exists rs, objects (pf_location f) = Ok rs.
Proof.
  intros c c' r VA H. assert (SC : forall g, In g [r] -> exists groups, g = Ok groups).
  { intros g [ <- |[]]. inversion H as [? P|n ? ? r0 P S]; subst; [destruct (L_Scan.partitions_total (t_configs tb)) as [n N]; congruence|].
    destruct (splits_of_latest _ _ _ _ _ _ _ _ _ _ _ _ S) as [x [G X]]. inversion G as [? N|? ? t' ? N GA]; subst; [congruence|]. assert (t' = t) by congruence. subst t'.
    destruct (slices_ok objs base names PO Lo number_of collect local_to_utc dtype' value' cast cmp parse_pschema parse_rows footer open unit unit (fun _ => None) (fun _ _ => None) (fun _ => None) tb listed0 tz l0 format partitioned t time sch columns hive url DL TZ DN PM So WF' BF PT TM BP RI SF PF HF UF par LP NP LK RF _ derived (tuples_roundtrip derived) derived_ok c c' x VA GA) as [ss ->].
    destruct X as [parts [-> _]]. cbn [bind].
    assert (F : forall s, exists f, scan_file base s = Ok f).
    { intros s. destruct WR as [O _]. unfold scan_file, join_url_segments. rewrite O. destruct (ends_with "/" (u_path base)); cbn [bind foldM u_opaque with_path]; rewrite O; cbn [bind]; eauto. }
    apply mapM_succeeds. intros l _. apply mapM_succeeds. intros s _. apply F. }
  destruct (SC r (or_introl eq_refl)) as [groups ->]. exists groups. split; [reflexivity|].
  destruct (L_Scan.scan_inv _ _ _ _ _ _ _ _ _ _ _ _ _ _ H) as [n [ss [parts [_ [G [[_ [Sc _]] Hm]]]]]]. destruct (L_Scan.mapM_concat _ _ _ _ _ Hm) as [M _]. rewrite Sc in M.
  inversion G as [? N|? ? t' ? N GA]; subst; [congruence|]. assert (t' = t) by congruence. subst t'.
  intros f I. apply mapM_ok in M. destruct (Forall2_in_r _ _ _ _ _ _ M I) as [sl [J E]]. destruct (shown_rows _ _ _ _ _ VA GA J) as [c0 [o [rs [_ [_ [_ [[ns [PN [SA OE]]] _]]]]]]].
  exists rs. pose proof (L_Scan.scan_file_location _ _ _ E) as X. destruct (L_Scan.safe_location base names _ _ WR PN) as [Y _]; [apply Forall_app; now split|]. congruence.
Qed.

Lemma sql_runs : forall c, after c -> exists c' r, query c c' r.
Proof.
  intros c VA.
  destruct (slices_runs objs base names PO Lo number_of collect local_to_utc dtype' value' cast cmp parse_pschema parse_rows footer open unit unit (fun _ => None) (fun _ _ => None) (fun _ => None) tb listed0 tz l0 format partitioned t time sch columns hive url DL TZ DN PM So WF' BF PT TM BP RI SF PF HF UF par LP NP LK RF _ derived (tuples_roundtrip derived) derived_ok c VA) as [c' [ss G]].
  destruct (L_Scan.scan_total dtype' value' cast cmp local_to_utc st tb base lit lit_display (proj1 WR) handed_now c c' ss) as [groups S]; [eapply gs_some; [exact LT|exact G]|].
  destruct (scans_ok _ _ _ VA S) as [groups' [[= <-] O]]. destruct (chosen _ _ _ _ O) as [rss F].
  exists c', (Ok (filter (all_true value' cmp lit row column lit_value opaque es) (List.concat rss))).
  eapply sq_rows with (kept := rss); [exact pushdown_is|exact S|exact F| |reflexivity].
  clear. induction rss; constructor; auto using skips_all.
Qed.

Lemma sql_ok : forall c c' r, after c -> query c c' r -> exists out, r = Ok out.
Proof.
  intros c c' r VA Q. inversion Q as [? P|flags ? ? e P S|flags ? ? P S|flags ? ? groups f e P S I E|flags ? ? groups rss kept out P]; subst; rewrite pushdown_is in P; try discriminate; try (injection P as <-).
  - destruct (scans_ok _ _ _ VA S) as [g [X _]]; discriminate.
  - destruct (scans_ok _ _ _ VA S) as [g [X _]]; discriminate.
  - destruct (scans_ok _ _ _ VA S) as [g [[= <-] X]]. destruct (X f I) as [rs Y]. congruence.
  - eauto.
Qed.

Lemma sql_of_objects : forall c c' out, after c -> query c c' (Ok out) -> exists gs rss, NoDup gs /\ (forall g, In g gs <-> is_live g)
  /\ Forall2 (fun g rs => exists c0 o, newest_base objs names format partitioned g t c0 o /\ rows_in (o_data o) = Ok rs) gs rss
  /\ Permutation out (filter (all_true value' cmp lit row column lit_value opaque es) (List.concat rss)).
Proof.
  intros c c' out VA Q.
  destruct (slices_runs objs base names PO Lo number_of collect local_to_utc dtype' value' cast cmp parse_pschema parse_rows footer open unit unit (fun _ => None) (fun _ _ => None) (fun _ => None) tb listed0 tz l0 format partitioned t time sch columns hive url DL TZ DN PM So WF' BF PT TM BP RI SF PF HF UF par LP NP LK RF [] [] eq_refl ltac:(intros f []) c VA) as [c2 [ss G]].
  destruct (shown_newest_base objs base names PO Lo number_of collect local_to_utc dtype' value' cast cmp parse_pschema parse_rows footer open tb listed0 tz l0 format partitioned t time DL TZ DN PM So WF' BF PT TM BP footer c c2 [] ss VA G) as [ND [ALL _]].
  destruct (chosen _ _ _ _ (fun sl I => let '(ex_intro _ c0 (ex_intro _ o (ex_intro _ rs H))) := shown_rows [] c c2 ss sl VA G I in ex_intro (fun rs => exists c0 o, newest_base objs names format partitioned (slice_id sl) t c0 o /\ is_live (slice_id sl) /\ rows_in (o_data o) = Ok rs
    /\ stores objects names sl rs /\ forall r, In r rs -> lies_in cast coltype fields hive url (column r) (fs_partition sl)) rs (ex_intro _ c0 (ex_intro _ o H)))) as [rss F].
  exists (map slice_id ss), rss. split; [exact ND|]. split; [|split].
  - intros g. split; [|now apply ALL]. intros I. apply in_map_iff in I as [sl [ <- I]]. destruct (shown_rows [] c c2 ss sl VA G I) as [c0 [o [rs [_ [LV _]]]]]. exact LV.
  - clear -F. induction F as [|sl rs ss rss [c0 [o [NB [_ [RR _]]]]] F IH]; constructor; [exists c0, o; auto|exact IH].
  - apply (L_Scan.sql_rows dtype' value' cast cmp local_to_utc st tb base lit lit_display row objects column lit_value opaque root coltype served wf CM es c c' c c2 out ss fields hive url names rss VA VA Q); try assumption.
    + eapply gs_some; [exact LT|exact G].
    + clear -F. induction F as [|sl rs ss rss [c0 [o [_ [_ [_ [S _]]]]]] F IH]; constructor; assumption.
    + intros s rs r I J. destruct (combine_in _ _ _ _ _ _ _ F I) as [_ [c0 [o [_ [_ [_ [_ X]]]]]]]. now apply X.
Qed.
End Sql.
