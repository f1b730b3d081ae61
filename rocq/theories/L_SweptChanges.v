(** Incremental reads while cleaners remove old files. *)
From Coq Require Import Sorted.
From Verif Require L_Expr L_Scan L_Open L_Gaps L_Changes L_WholeChanges.
From Verif Require Import Base Str M_Utf8 M_Time M_Instant M_Timeline M_FileGroup M_Builder M_Listing M_Expr M_Log M_Config M_Reader M_Table M_Storage M_Session M_Avro M_Values M_Datum M_Json M_Objects M_During M_Open
  S_Time S_Timeline S_FileGroup S_Builder S_Listing S_Expr S_Log S_Reader S_Config S_Table S_Avro S_Storage S_Session S_Objects S_Open S_History S_Incremental S_Values S_Datum S_Json S_Whole S_Changes S_During S_Clean S_Gaps S_SweptChanges
  L_Base L_Str L_Time L_Instant L_FileGroup L_Timeline L_Tree L_Storage L_Table L_Session L_History L_Incremental L_Objects L_During L_Values L_Stored L_Json L_Whole L_Succeed L_Clean L_Meanwhile L_Reader.
Local Open Scope string_scope.

(** ** Reads that give the same *)
Lemma slice_equal : forall A V ps da cs tb pq L sort iter read read' bytes bytes' m slice,
  read (base_relative_path slice) = read' (base_relative_path slice) ->
  (forall l, In l (fs_logs slice) -> bytes (log_relative_path slice l) = bytes' (log_relative_path slice l)) ->
  read_file_slice sort iter read A V ps da cs tb pq L bytes m slice = read_file_slice sort iter read' A V ps da cs tb pq L bytes' m slice.
Proof.
  intros A V ps da cs tb pq L sort iter read read' bytes bytes' m slice B LS. unfold read_file_slice.
  assert (RB : read_base_file read m (base_relative_path slice) = read_base_file read' m (base_relative_path slice)) by (unfold read_base_file; now rewrite B).
  destruct (if negb (has_log_file slice) then Ok true else read_optimized m) as [[|]| |]; cbn [bind]; try reflexivity; [exact RB|]. rewrite RB.
  destruct (read_base_file read' m (base_relative_path slice)) as [x| |]; cbn [bind]; try reflexivity. destruct (log_range m) as [range| |]; cbn [bind]; try reflexivity.
  destruct (timeline_timezone m) as [tz| |]; cbn [bind]; try reflexivity. f_equal. unfold scan. f_equal. clear RB B.
  induction (fs_logs slice) as [|l ls IH]; [reflexivity|]. cbn [map scan_files]. rewrite (LS l (or_introl eq_refl)). rewrite IH by (intros; apply LS; now right). reflexivity.
Qed.
Lemma loop_equal : forall read read' order l n fgs rep, (forall i, In i l -> read (instant_relative_path i) = read' (instant_relative_path i)) ->
  between_loop read order n fgs rep l = between_loop read' order n fgs rep l.
Proof.
  intros read read' order. induction l as [|i l IH]; intros n fgs rep H; [reflexivity|]. cbn [between_loop]. unfold instant_metadata. rewrite (H i (or_introl eq_refl)).
  destruct (read' (instant_relative_path i)) as [md| |]; cbn [bind]; try reflexivity. destruct (build_file_groups md) as [b| |]; cbn [bind]; try reflexivity.
  destruct (merge_groups fgs (order n b)) as [f| |]; cbn [bind]; try reflexivity. destruct (if is_replacecommit i then _ else _) as [r| |]; cbn [bind]; try reflexivity. apply IH. intros; apply H; now right.
Qed.
Section Same.
Variable dtype : Type.
Variable avro_schema avro_value : Type.
Variable avro_parse : string -> option avro_schema.
Variable datum : avro_schema -> string -> option (avro_value * string).
Variable check_schema : avro_schema -> outcome unit.
Variable to_batch : avro_schema -> list avro_value -> outcome record_batch.
Variable parquet : string -> option (list record_batch).
Variable local_to_utc : ndt -> option ndt.
Variable tb : table.
Hypothesis So : StronglySorted instant_le (t_commits tb).
Lemma between_equal : forall st st' : store dtype, (forall i, In i (t_commits tb) -> st_json _ st (instant_relative_path i) = st_json _ st' (instant_relative_path i)) ->
  forall order a b, slices_between dtype local_to_utc st tb order a b = slices_between dtype local_to_utc st' tb order a b.
Proof.
  intros st st' H order a b. unfold slices_between. destruct (timeline_timezone (t_configs tb)) as [tz| |]; cbn [bind]; try reflexivity. f_equal.
  unfold get_file_groups_between. destruct (completed_actions_in_range _ _ _ _ _) as [sel| |]; cbn [bind]; try reflexivity. f_equal. apply loop_equal.
  intros i I. apply H. rewrite (select_filter sel _ So) in I. now apply filter_In in I.
Qed.
Lemma incremental_same : forall (st st' : store dtype) start stop e, (forall i, In i (t_commits tb) -> st_json _ st (instant_relative_path i) = st_json _ st' (instant_relative_path i)) ->
  (forall h o, st_open _ st h o = st_open _ st' h o) -> stop_or_latest tb stop = Some e ->
  (forall order ss, (forall n l, Permutation l (order n l)) -> slices_between dtype local_to_utc st tb order start e = Ok ss -> forall slice, In slice ss ->
     st_parquet _ st (base_relative_path slice) = st_parquet _ st' (base_relative_path slice)
     /\ forall l, In l (fs_logs slice) -> st_bytes _ st (log_relative_path slice l) = st_bytes _ st' (log_relative_path slice l)) ->
  forall r, read_incremental dtype avro_schema avro_value avro_parse datum check_schema to_batch parquet local_to_utc st tb start stop r ->
    read_incremental dtype avro_schema avro_value avro_parse datum check_schema to_batch parquet local_to_utc st' tb start stop r.
Proof.
  intros st st' start stop e J OE SE SL r R.
  inversion R as [N|order e' er P S B|order e' P S B|order e' ss r' P S B RS]; subst; [congruence| | |]; assert (e' = e) by congruence; subst e'.
  - apply ri_err with (order := order) (e := e); [exact P|exact S|]. now rewrite <- (between_equal st st' J).
  - apply ri_panic with (order := order) (e := e); [exact P|exact S|]. now rewrite <- (between_equal st st' J).
  - apply ri_ok with (order := order) (e := e) (ss := ss); [exact P|exact S|now rewrite <- (between_equal st st' J)|]. specialize (SL order ss P B). clear B R.
    inversion RS as [iter x P' O|iter P' O|iter os r0 P' [O F] Jn]; subst; cbv zeta in *.
    + apply rs_no_reader with (iter := iter); [exact P'|]. cbv zeta. now rewrite <- OE.
    + apply rs_panic with (iter := iter); [exact P'|]. cbv zeta. now rewrite <- OE.
    + apply rs_read with (iter := iter) (os := os); [exact P'| |exact Jn]. cbv zeta. split; [now rewrite <- OE|]. clear RS Jn O.
      induction F as [|slice o ss os [sort [visit [HS [HV ->]]]] F IH]; constructor; [|apply IH; intros; apply SL; now right].
      exists sort, visit. split; [exact HS|]. split; [exact HV|]. destruct (SL slice (or_introl eq_refl)) as [B L]. now apply slice_equal.
Qed.
End Same.

(** ** What is left *)
Section Left.
Variable objs : list object.
Variable moments : list (list object).
Variable base : url.
Variable names : list string.
Variable format : string.
Variable partitioned : bool.
Variable is_needed : string * string -> string -> Prop.
Hypothesis PO : proper_objects objs.
Hypothesis L : located base names.
Hypothesis LE : forall objs', In objs' moments -> left_of objs objs' names format partitioned is_needed.

Lemma left_proper : forall objs', In objs' moments -> proper_objects objs'.
Proof.
  intros objs' I. pose proof (LE objs' I) as S. split; [|apply (L_Gaps.nodup_keys objs PO objs'); [apply S|exact (lo_there _ _ _ _ _ _ S)]].
  destruct PO as [PK _]. unfold proper_keys in *. rewrite Forall_forall in *. intros x J. apply PK. apply in_map_iff in J as [o [<- J]]. apply in_map. now apply (lo_there _ _ _ _ _ _ S).
Qed.
Lemma left_needed : forall objs' g c o, In objs' moments -> slice_object objs names format partitioned g c o -> is_needed g c -> In o objs'.
Proof.
  intros objs' g c o I S N. destruct (lo_removed _ _ _ _ _ _ (LE objs' I) o) as [J|[g' [c' [S' N']]]]; [destruct S as [dir [n [_ [[J _] _]]]]; exact J|exact J|].
  destruct (L_Gaps.slice_one objs base names format partitioned L _ _ _ _ _ S S') as [ <- <- ]. contradiction.
Qed.
Lemma left_timeline : forall objs' n o, In objs' moments -> file_in objs names [".hoodie"] n o <-> file_in objs' names [".hoodie"] n o.
Proof.
  intros objs' n o I. split; [|intros [J X]; split; [now apply (lo_there _ _ _ _ _ _ (LE objs' I))|exact X]].
  intros FI. split; [|apply FI]. destruct (lo_removed _ _ _ _ _ _ (LE objs' I) o (proj1 FI)) as [J|[g [c [[dir [n' [[F [E P]] [FJ _]]]] _]]]]; [exact J|exfalso].
  assert (HL : Forall legal [".hoodie"]) by (constructor; [exact L_Open.metadata_legal|constructor]).
  destruct (L_Gaps.place objs base names L _ _ _ _ _ F HL FJ FI) as [ -> _ ]. destruct partitioned; [|discriminate P]. destruct P as [top [rest [E' [F' [N _]]]]].
  assert (X : [".hoodie"] = top :: rest); [|injection X as X _; congruence].
  apply L_Scan.join_inj; [eapply Forall_impl; [|exact HL]; intros z [X [Y _]]; auto|eapply Forall_impl; [|exact F']; intros z [X [Y _]]; auto|congruence].
Qed.
Lemma left_listing : forall objs' l, In objs' moments -> directory_listing objs' names [".hoodie"] l -> directory_listing objs names [".hoodie"] l.
Proof.
  intros objs' l I [D1 D2]. split; [exact D1|]. intros m. rewrite D2. split; intros [n [o [FI E]]]; exists n, o; (split; [|exact E]); now apply (left_timeline objs' n o I).
Qed.
Lemma left_file : forall objs' dir n o, Forall legal dir -> file_in objs names dir n o -> In objs' moments -> In o objs' ->
  get_file_data objs' base (path_join (join "/" dir) n) = get_file_data objs base (path_join (join "/" dir) n).
Proof.
  intros objs' dir n o F FI Io J. unfold get_file_data. rewrite (read_spec objs base names PO L dir n o F FI). rewrite (read_spec objs' base names (left_proper _ Io) L dir n o F); [reflexivity|]. split; [exact J|apply FI].
Qed.
End Left.

Section Changes.
Variable objs : list object.
Variable moments : list (list object).
Variable base : url.
Variable names : list string.
Variable format : string.
Variable partitioned : bool.
Variable start e : string.
Hypothesis PO : proper_objects objs.
Hypothesis Lo : located base names.
Variable number_of : string -> option Z.
Variable collect : list (string * json) -> list (string * json).
Notation is_needed := (changed_slice objs names format partitioned number_of collect start e).
Hypothesis LE : forall objs', In objs' moments -> left_of objs objs' names format partitioned is_needed.
Variable local_to_utc : ndt -> option ndt.
Variable dtype' : Type.
Variable parse_pschema : string -> outcome (list (string * dtype')).
Variable parse_rows : string -> outcome record_batch.
Variable footer : string -> outcome (Z * Z).
Variable open : options -> options -> outcome unit.
Variable code : dtype -> nat.
Variable rank : dtype -> slot -> Z.
Variable float_cast : dtype -> slot -> option slot.
Variable parse_schema : string -> option avro.
Variable parquet : string -> option (list record_batch).
Notation store_of o := (object_store o base dtype' (parse_metadata number_of collect) parse_pschema parse_rows footer open).
Variable st : store dtype'.
Hypothesis SEE : sees moments base dtype' (parse_metadata number_of collect) parse_pschema parse_rows footer open st.
Hypothesis OE : st_open _ st = open.
Variable tb : table.
Variable listed0 : list file_meta.
Variable l0 : list instant.
Variable dfs : list M_Avro.field.
Variable p s k ct : nat.
Variable hist : string * string -> group.
Variable stop : option string.
Hypothesis DL : directory_listing objs names [".hoodie"] listed0.
Hypothesis DN : denoted_instants (denotes_completed local_to_utc "utc" [Commit; DeltaCommit; ReplaceCommit]) (map fm_name listed0) l0.
Hypothesis PM : Permutation l0 (t_commits tb).
Hypothesis So : StronglySorted instant_le (t_commits tb).
Hypothesis TO : timeline_in_order objs names.
Hypothesis MT : merging_table tb (map (as_field code) dfs) p s k.
Hypothesis MF : oget "hoodie.populate.meta.fields" (t_configs tb) <> Some "false".
Hypothesis TC : typed_column (map (as_field code) dfs) "_hoodie_commit_time" TUtf8 ct.
Hypothesis Ts : timestamp start.
Hypothesis We : window_end (t_commits tb) stop e.
Hypothesis Te : timestamp e.
Hypothesis US : one_stat_each objs names number_of collect start e.
Hypothesis CW : changes_written objs names number_of collect start e format partitioned parse_schema code rank parse_rows dfs k p s ct hist.
Notation between := (commit_between (st_json _ (store_of objs)) (t_commits tb) start e).
Let to := L_WholeChanges.commit_to objs base names PO Lo number_of collect local_to_utc (t_commits tb) listed0 l0 DL DN PM TO start e.

Lemma swept_json : forall i, In i (t_commits tb) -> st_json _ (store_of objs) (instant_relative_path i) = st_json _ st (instant_relative_path i).
Proof.
  intros i I. destruct (SEE (instant_relative_path i)) as [[objs' [Io E]] _]. rewrite E. cbn [st_json object_store].
  destruct (L_WholeChanges.instant_object objs names local_to_utc (t_commits tb) listed0 l0 DL DN PM TO i I) as [St [_ [[o FI] _]]].
  unfold instant_relative_path. rewrite file_name_spec, St. pose proof FI as [_ [Ln _]].
  rewrite (proj2 (timeline_read objs base names PO Lo _ (o_data o) Ln)) by eauto.
  rewrite (proj2 (timeline_read objs' base names (left_proper objs moments names format partitioned _ PO LE _ Io) Lo _ (o_data o) Ln)); [reflexivity|].
  exists o. split; [|reflexivity]. exact (proj1 (left_timeline objs moments base names format partitioned _ Lo LE objs' _ _ Io) FI).
Qed.

Lemma swept_slices : forall order ss, (forall n l, Permutation l (order n l)) -> slices_between dtype' local_to_utc (store_of objs) tb order start e = Ok ss -> forall slice, In slice ss ->
  st_parquet _ (store_of objs) (base_relative_path slice) = st_parquet _ st (base_relative_path slice)
  /\ forall l, In l (fs_logs slice) -> st_bytes _ (store_of objs) (log_relative_path slice l) = st_bytes _ st (log_relative_path slice l).
Proof.
  intros order ss P H slice Is. destruct (between_exact dtype' local_to_utc (store_of objs) tb order P So start e ss H) as [tz [ds [de [Tz [Es [Ee X]]]]]].
  rewrite (utc_is _ (mt_utc _ _ _ _ _ MT)) in Tz. injection Tz as <-.
  destruct Ts as [cs [Vs [Ms Rs]]]. destruct Te as [ce [Ve [Me Re]]].
  pose proof (L_WholeChanges.unique_between objs base names PO Lo number_of collect local_to_utc dtype' parse_pschema parse_rows footer open tb listed0 l0 start e DL DN PM TO US) as UB.
  assert (Z := L_Changes.commit_same dtype' (store_of objs) tb (L_WholeChanges.all_dated objs names local_to_utc (t_commits tb) listed0 l0 DL DN PM TO) start e Ts Te UB cs ce Rs Vs Ms Re Ve Me).
  rewrite Rs, parse_datetime_utc in Es by (assumption || reflexivity). injection Es as <-. rewrite Re, parse_datetime_utc in Ee by (assumption || reflexivity). injection Ee as <-.
  destruct X as [groups [_ [M F]]]; [intros i md C; apply Z in C; eauto|].
  destruct (proj2 (forall2_in _ _ _ _ _ F) slice Is) as [[part id] [Ig [F1 [[i0 [md0 [C0 N0]]] [F3 [F4 [_ F6]]]]]]]. cbn [fst snd] in *. apply Z in C0. pose proof (to _ _ C0) as T0.
  apply M in Ig as [_ NR]. set (c := bf_commit (fs_base slice)) in *.
  pose proof (proj1 CW _ _ _ _ _ _ _ T0 N0) as HB. destruct (proj2 CW (part, id) c HB) as [now [contents [HI [_ [_ WO]]]]].
  pose proof HB as [dir [n [o [b [OPn [FN [NM [BN [BO [B1 B2]]]]]]]]]]. pose proof OPn as [FD [EP _]]. cbn [fst snd] in EP, WO.
  destruct (files_spec objs base names PO Lo dir FD) as [l [_ NS]].
  destruct (WO dir l (get_file_data objs base) OPn NS) as [WR RC]; [intros n' o' FI; rewrite EP; now apply (read_data objs base names PO Lo)|].
  assert (BI : forall b', has_base objs names format partitioned (part, id) b' -> In b' (map fst (g_bases (hist (part, id))))).
  { intros b' HB'. destruct (L_WholeChanges.group_kept objs base names PO Lo number_of collect local_to_utc dtype' parse_pschema parse_rows footer open code rank float_cast parse_schema parquet tb listed0 l0 dfs p s k ct format partitioned hist start e DL DN PM TO CW (part, id) b' HB') as [? [? [? [_ [X _]]]]]. exact X. }
  assert (N : is_needed (part, id) c).
  { split.
    - split; [exists (i_timestamp i0), (i_action i0), md0, c, (base_file_name (fs_base slice)); auto|]. intros R.
      apply (L_WholeChanges.replaced_same objs base names PO Lo number_of collect local_to_utc dtype' parse_pschema parse_rows footer open tb listed0 l0 start e DL DN PM TO) in R as [i [md [C [A R]]]]. apply NR. exists i, md. split; [now apply Z|auto].
    - split; [exact HB|]. split; [exact F3|]. intros b' HB' Lb. apply BI in HB'. destruct (sle_total b' start) as [Ls|Ls].
      + eapply (cr_newest _ _ _ _ _ _ _ _ _ _ _ _ RC); [exact T0|exact N0|exact HB'|]. destruct C0 as [_ [_ [C0 _]]]. apply slt_sle. eapply sle_slt_trans; eauto.
      + apply sle_lt_or_eq in Ls as [Ls| <- ].
        * destruct (cr_bases _ _ _ _ _ _ _ _ _ _ _ _ RC b' HB' Ls Lb) as [ts [a [md [n' [C X]]]]].
          apply (F4 b' n'); [|exact Lb]. apply (L_WholeChanges.commit_from objs base names PO Lo number_of collect local_to_utc (t_commits tb) listed0 l0 DL DN PM start e) in C as [i [C _]]. exists i, md. split; [now apply Z|exact X].
        * eapply (cr_newest _ _ _ _ _ _ _ _ _ _ _ _ RC); [exact T0|exact N0|exact HB'|]. destruct C0 as [_ [_ [C0 _]]]. now apply slt_sle. }
  assert (SAME : forall n0 o0 objs', In objs' moments -> file_in objs names dir n0 o0 -> slice_file format n0 id c -> get_file_data objs' base (path_join part n0) = get_file_data objs base (path_join part n0)).
  { intros n0 o0 objs' Io FI SF. rewrite EP. apply (left_file objs moments base names format partitioned is_needed PO Lo LE objs' dir n0 o0 FD FI Io).
    apply (left_needed objs moments base names format partitioned is_needed Lo LE objs' (part, id) c o0 Io); [|exact N]. exists dir, n0. auto. }
  split.
  - unfold base_relative_path. rewrite F1. destruct (cr_base_files _ _ _ _ _ _ _ _ _ _ _ _ RC _ _ _ _ _ T0 N0) as [fm [[b0 [Q1 [Q2 Q3]]] En]]. rewrite <- En.
    pose proof (base_slice_file _ _ _ _ Q1) as SF. destruct (proj1 (proj2 NS fm) (proj1 Q1)) as [n0 [o0 [FI Em]]]. subst fm. cbn [fm_name new_meta] in *. rewrite Q2, Q3 in SF.
    destruct (SEE (path_join part n0)) as [_ [_ [_ [_ [_ [[objs' [Io E]] _]]]]]]. rewrite E. cbn [st_parquet object_store]. now rewrite (SAME n0 o0 objs' Io FI SF).
  - intros lg Il. destruct (F6 lg Il) as [i [md [C NL]]]. apply Z in C. unfold log_relative_path. rewrite F1.
    destruct (cr_log_files _ _ _ _ _ _ _ _ _ _ _ _ RC _ _ _ _ _ (to _ _ C) NL) as [fm [[b0 [Q1 [Q2 Q3]]] En]]. rewrite <- En.
    pose proof (log_slice_file _ _ _ _ Q1) as SF. destruct (proj1 (proj2 NS fm) (proj1 Q1)) as [n0 [o0 [FI Em]]]. subst fm. cbn [fm_name new_meta] in *. rewrite Q2, Q3 in SF.
    destruct (SEE (path_join part n0)) as [_ [_ [_ [_ [_ [_ [objs' [Io E]]]]]]]]. rewrite E. cbn [st_bytes object_store]. now rewrite (SAME n0 o0 objs' Io FI SF).
Qed.

Notation incremental sto := (read_incremental dtype' avro value parse_schema decode check_schema (to_batch code rank float_cast) parquet local_to_utc sto tb start stop).
Lemma swept_incremental : forall r, incremental st r <-> incremental (store_of objs) r.
Proof.
  intros r. split; intros R.
  - apply (incremental_same dtype' avro value parse_schema decode check_schema (to_batch code rank float_cast) parquet local_to_utc tb So st (store_of objs) start stop e); [| | | |exact R].
    + intros i I. symmetry. now apply swept_json.
    + intros h o. now rewrite OE.
    + now apply window_end_is.
    + intros order ss P B slice I. rewrite <- (between_equal dtype' local_to_utc tb So (store_of objs) st swept_json) in B. destruct (swept_slices order ss P B slice I) as [A1 A2]. split; [now symmetry|]. intros l Il. symmetry. now apply A2.
  - apply (incremental_same dtype' avro value parse_schema decode check_schema (to_batch code rank float_cast) parquet local_to_utc tb So (store_of objs) st start stop e); [exact swept_json| | |exact swept_slices|exact R].
    + intros h o. now rewrite OE.
    + now apply window_end_is.
Qed.
End Changes.
