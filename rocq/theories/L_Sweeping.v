(** Queries while cleaners remove old files succeed, when the files are in order at every moment. *)
From Coq Require Import Sorted.
From Verif Require L_Expr L_Scan L_Open L_Gaps.
From Verif Require Import Base Str M_Utf8 M_Time M_Instant M_Timeline M_FileGroup M_Builder M_Listing M_Expr M_Log M_Config M_Reader M_Table M_Storage M_Session M_Avro M_Values M_Datum M_Json M_Objects M_During M_Open
  S_Time S_Timeline S_FileGroup S_Builder S_Listing S_Expr S_Log S_Reader S_Config S_Table S_Avro S_Storage S_Session S_Objects S_Open S_History S_Values S_Datum S_Json S_Whole S_During S_Clean S_Deletes S_Erased S_Gaps S_Swept
  L_Base L_Str L_Instant L_FileGroup L_Timeline L_Tree L_Storage L_Table L_Session L_History L_Records L_Objects L_During L_Values L_Stored L_Json L_Whole L_Deletes L_Succeed L_Erased L_Clean L_Meanwhile L_View L_Swept.
Local Open Scope string_scope.

(** Log files that go before their base file leave the files in order. *)
Lemma order_kept : forall start objs base names format partitioned t replaced footer, proper_objects start -> located base names -> swept start objs names format partitioned t replaced ->
  logs_first start objs names format partitioned -> files_in_order start names format partitioned footer -> files_in_order objs names format partitioned footer.
Proof.
  intros start objs base names format partitioned t replaced footer PO L SW LF FO path dir OP.
  assert (SW' : forall o, In o [objs] -> swept start o names format partitioned t replaced) by (intros o [ <- |[]]; exact SW).
  assert (Io : In objs [start; objs]) by (right; now left).
  assert (TI : incl objs start) by exact (there start [objs] names format partitioned t replaced SW' objs Io).
  assert (OP0 : object_partition start names partitioned path dir).
  { destruct OP as [F [E H]]. split; [exact F|]. split; [exact E|]. clear LF FO. destruct partitioned; [|exact H].
    destruct H as [top [rest [Ep [Fl [N1 [N2 [N3 [[n [o FI]] Bl]]]]]]]]. exists top, rest. do 5 (split; [assumption|]). split.
    - exists n, o. split; [apply TI, FI|apply FI].
    - intros below o' Fb J K. destruct (le_lt_dec (List.length below) 1) as [Le|Lt]; [exact Le|]. exfalso.
      destruct (@exists_last _ below ltac:(intros ->; cbn in Lt; lia)) as [d [m ->]]. apply Forall_app in Fb as [Fd Fm]. inversion Fm as [|? ? Lm _]; subst.
      assert (FI' : file_in start names ((top :: rest) ++ d) m o') by (split; [exact J|]; split; [exact Lm|]; rewrite <- app_assoc; exact K).
      destruct (sd_directories _ _ _ _ _ _ _ SW _ _ _ ltac:(apply Forall_app; split; [exact Fl|exact Fd]) FI') as [n2 [o2 [J2 [Ln2 K2]]]].
      assert (X : (List.length (d ++ [n2]) <= 1)%nat).
      { apply (Bl (d ++ [n2]) o2)%list; [apply Forall_app; split; [exact Fd|now constructor]|exact J2|]. rewrite <- app_assoc in K2. exact K2. }
      rewrite !app_length in *. cbn in *. lia. }
  destruct (FO path dir OP0) as [LK FR]. pose proof OP as [FD [EP _]]. destruct (files_spec start base names PO L dir FD) as [l0 [_ D0]]. destruct (LK l0 D0) as [K1 [K2 K3]]. split.
  - intros l D1.
    assert (MT : forall m, In m l -> In m l0) by (eapply meta_there; eassumption).
    assert (BT : forall m b, base_listed format l m b -> base_listed format l0 m b) by (intros m b [I H]; split; [now apply MT|exact H]).
    assert (LT : forall m x, log_listed format l m x -> log_listed format l0 m x) by (intros m b [I H]; split; [now apply MT|exact H]).
    split; [|split].
    + intros m I. exact (K1 m (MT m I)).
    + intros m1 m2 b1 b2 B1 B2. exact (K2 m1 m2 b1 b2 (BT _ _ B1) (BT _ _ B2)).
    + intros m g m1 b1 Lg B1 E1. destruct (K3 m g m1 b1 (LT _ _ Lg) (BT _ _ B1) E1) as [m2 [b2 [B2 [E2 E3]]]].
      pose proof (base_has start names format partitioned path dir l0 OP0 D0 _ _ B2) as HB. rewrite E2, E3 in HB.
      pose proof Lg as [Im _]. pose proof (log_slice_file _ _ _ _ Lg) as SFL. destruct (proj1 (proj2 D1 m) Im) as [n [o [FI Em]]]. subst m. cbn [fm_name new_meta] in SFL.
      assert (SO : slice_object start names format partitioned (path, lf_file_id g) (lf_base_commit g) o).
      { exists dir, n. split; [exact OP0|]. split; [split; [apply TI, FI|apply FI]|exact SFL]. }
      destruct (LF _ _ o SO (proj1 FI) HB) as [dir' [n' [o' [b' [OP' [FI' [M' [BN' [BO' [X1 X2]]]]]]]]]]. cbn [fst snd] in *.
      assert (dir' = dir) as -> by (destruct OP' as [F' [Ep' _]]; apply (key_of_inj dir' dir F' FD); unfold key_of; congruence).
      exists (new_meta n' (o_size o')), b'. split; [|auto]. split; [apply D1; exists n', o'; auto|auto].
  - intros n o FI. apply FR. split; [apply TI, FI|apply FI].
Qed.

Section Success.
Variable start : list object.
Variable later : list (list object).
Variable base : url.
Variable names : list string.
Variable format : string.
Variable partitioned : bool.
Variable t : string.
Variable replaced : string * string -> Prop.
Notation moments := (start :: later).
Hypothesis PO : proper_objects start.
Hypothesis L : located base names.
Hypothesis SW : forall objs, In objs later -> swept start objs names format partitioned t replaced.
Variable number_of : string -> option Z.
Variable collect : list (string * json) -> list (string * json).
Variable local_to_utc : ndt -> option ndt.
Variable dtype' value' : Type.
Variable cast : dtype' -> string -> option value'.
Variable cmp : value' -> value' -> option comparison.
Variable parse_pschema : string -> outcome (list (string * dtype')).
Variable parse_rows : string -> outcome record_batch.
Variable footer : string -> outcome (Z * Z).
Variable open : options -> options -> outcome unit.
Notation store_of objs := (object_store objs base dtype' (parse_metadata number_of collect) parse_pschema parse_rows footer open).
Variable st : store dtype'.
Hypothesis SEE : sees moments base dtype' (parse_metadata number_of collect) parse_pschema parse_rows footer open st.
Variable tb : table.
Variable tz : string.
Variable time : ndt.
Hypothesis So : StronglySorted instant_le (t_commits tb).
Hypothesis NL : forall i, In i (t_commits tb) -> legal (file_name i).
Hypothesis TZ : timeline_timezone (t_configs tb) = Ok tz.
Hypothesis TM : parse_datetime local_to_utc t tz = Ok time.
Hypothesis BF : base_format (t_configs tb) = Ok format.
Hypothesis PT : is_table_partitioned (t_configs tb) = Ok partitioned.
Hypothesis RP : forall g, replaced_by_time (st_json _ (store_of start)) (t_commits tb) (epoch_millis time) g <-> replaced g.
(** The commits of the base files of a file group are finitely many. *)
Hypothesis FIN : forall g c, has_base start names format partitioned g c -> exists l, forall c', In c' l <-> has_base start names format partitioned g c'.
Notation AP := (all_proper start later names format partitioned t replaced PO SW).
Notation TH := (there start later names format partitioned t replaced SW).
Notation NS := (needed_stays start later base names format partitioned t replaced L SW).
Notation is_needed := (needed start names format partitioned t replaced).
Notation root := (mixed moments (st_dirs _ st)).

Variable code : dtype -> nat.
Variable rank : dtype -> slot -> Z.
Variable float_cast : dtype -> slot -> option slot.
Variable parse_schema : string -> option avro.
Variable parquet : string -> option (list record_batch).
Variable dfs : list M_Avro.field.
Variable p s k : nat.
Variable hist : string * string -> group.
Variable dels : string * string -> deletions.
Hypothesis MT : merging_table tb (map (as_field code) dfs) p s k.
Hypothesis TS : timestamp t.
Hypothesis WB : erased_by start names format partitioned parse_schema code rank parse_rows dfs k p s t hist dels.
Variable listed0 : list file_meta.
Variable l0 : list instant.
Hypothesis DL : directory_listing start names [".hoodie"] listed0.
Hypothesis DN : denoted_instants (denotes_completed local_to_utc tz [Commit; DeltaCommit; ReplaceCommit]) (map fm_name listed0) l0.
Hypothesis PM : Permutation l0 (t_commits tb).
Hypothesis RI : replacements_in_order start names number_of collect local_to_utc tz (epoch_millis time).
Variable sch : list (string * dtype').
Variable columns : list string.
Variable hive url : bool.
Hypothesis SF : forall objs, In objs moments -> schema_found objs names number_of collect parse_pschema (t_commits tb) sch.
Hypothesis PF : partition_fields (t_configs tb) = Ok columns.
Hypothesis HF : hive_flag tb = Ok hive.
Hypothesis UF : url_flag tb = Ok url.
Hypothesis FO : forall objs, In objs moments -> files_in_order objs names format partitioned footer.
Variable par : Z.
Hypothesis LP : listing_parallelism (t_configs tb) = Ok par.
Hypothesis NP : (0 < par)%Z.
Hypothesis OPN : readers_open st tb [("hoodie.read.file_group.end_timestamp", t)].
Hypothesis WF : forall fields, get_partition_schema dtype' st tb = Ok fields -> wf_fields fields.
Variable filters : list (string * string * string).
Variable fs : list filter_expr.
Hypothesis FT : from_str_tuples filters = Ok fs.
Hypothesis FF : forall f, In f fs -> filter_fits cast sch columns f.

Lemma last_app : forall A (l : list A) x, last_opt (l ++ [x]) = Some x.
Proof. induction l as [|y l IH]; intros x; [reflexivity|]. cbn [app]. specialize (IH x). destruct (l ++ [x])%list eqn:E; [destruct l; discriminate|exact IH]. Qed.
(** what the timeline and the schema file say does not change *)
Lemma json_start : forall i, In i (t_commits tb) -> st_json _ st (".hoodie/" ++ file_name i) = st_json _ (store_of start) (".hoodie/" ++ file_name i).
Proof. exact (swept_instant start later base names format partitioned t replaced PO L SW number_of collect dtype' parse_pschema parse_rows footer open st SEE tb NL). Qed.
Lemma json_moment : forall objs n o, In objs moments -> legal n -> file_in objs names [".hoodie"] n o -> st_json _ (store_of objs) (".hoodie/" ++ n) = parse_metadata number_of collect (o_data o).
Proof. intros objs n o I N F. cbn [object_store st_json]. rewrite (proj2 (timeline_read objs base names (AP _ I) L _ (o_data o) N)) by eauto. reflexivity. Qed.
Lemma swept_plan : exists q, plan dtype' value' cast cmp local_to_utc st tb t fs = Ok q.
Proof.
  destruct (SF start (or_introl eq_refl)) as [before [i [o [m [dir [n [o' [EC [FI [TX [NS' [FD [FI' PS]]]]]]]]]]]]].
  assert (LI : last_opt (t_commits tb) = Some i) by (rewrite EC; apply last_app).
  assert (II : In i (t_commits tb)) by (rewrite EC; apply in_or_app; right; now left).
  assert (RD : st_json _ st (".hoodie/" ++ file_name i) = Ok m).
  { rewrite (json_start i II), file_name_spec, (json_moment start _ o (or_introl eq_refl) (proj1 (proj2 FI)) FI). unfold parse_metadata. apply slice_text in TX. now rewrite TX. }
  apply (plannable dtype' value' cast cmp local_to_utc st tb t tz time i m (file_path (join "/" dir) n) sch columns hive url fs So TZ TM); try assumption; [| |intros f I; destruct (FF f I) as [X [ty [v [Y [Z W]]]]]; exists ty, v; auto].
  - intros j J _ A W. rewrite (json_start j J). pose proof J as J'. apply (Permutation_in _ (Permutation_sym PM)) in J'. destruct (denoted_in _ _ _ DN _ J') as [n' [In' [ts [a [dt [D [N [_ [T E]]]]]]]]].
    subst j. cbn [i_action i_timestamp i_state i_epoch] in *. subst a. apply in_map_iff in In' as [x [Ex Ix]]. apply (proj2 DL) in Ix as [y [oy [FY Ey]]]. subst x. cbn [fm_name new_meta] in Ex. subst y.
    destruct N as [ -> | -> ]; [|now apply (proj1 RI) in FY].
    destruct (proj2 RI ts oy dt FY D T W) as [md [TM' RO]]. exists md. split; [|exact RO].
    rewrite file_name_spec. cbn [i_action i_timestamp i_state timeline_name]. transitivity (parse_metadata number_of collect (o_data oy)); [exact (json_moment start _ oy (or_introl eq_refl) (proj1 (proj2 FY)) FY)|].
    unfold parse_metadata. apply slice_text in TM'. now rewrite TM'.
  - destruct (SEE (file_path (join "/" dir) n)) as [_ [[objs [Io E]] _]]. rewrite E.
    destruct (SF objs Io) as [before2 [i2 [o2 [m2 [dir2 [n2 [o2' [EC2 [FI2 [TX2 [NS2 [FD2 [FI2' PS2]]]]]]]]]]]]].
    assert (i2 = i) as -> by (rewrite EC in EC2; apply app_inj_tail in EC2 as [_ EC2]; now symmetry).
    assert (E2 : m2 = m).
    { assert (X : file_in start names [".hoodie"] (timeline_name (i_timestamp i) (i_action i) (i_state i)) o2) by (split; [apply (TH objs Io), FI2|apply FI2]).
      assert (Y := json_moment start _ o2 (or_introl eq_refl) (proj1 (proj2 FI2)) X). rewrite <- file_name_spec, <- (json_start i II), RD in Y. unfold parse_metadata in Y. apply slice_text in TX2. rewrite TX2 in Y. congruence. }
    subst m2. assert (EP : file_path (join "/" dir) n = file_path (join "/" dir2) n2).
    { pose proof (schema_path (fun _ => Ok m) [i] i m _ eq_refl eq_refl NS') as A1. pose proof (schema_path (fun _ => Ok m) [i] i m _ eq_refl eq_refl NS2) as A2. congruence. }
    rewrite EP. cbn [object_store st_schema]. rewrite (read_data objs base names (AP _ Io) L dir2 n2 o2' FD2 FI2'). exact PS2.
Qed.

(** ** The files of the slices that are shown are there at every moment *)
Definition st1 : store dtype' :=
  {| st_json := st_json _ st; st_schema := st_schema _ st; st_files := st_files _ st; st_dirs := st_dirs _ st; st_meta := st_meta _ (store_of start); st_parquet := st_parquet _ st; st_bytes := st_bytes _ st; st_open := st_open _ st |}.
Lemma sees1 : sees moments base dtype' (parse_metadata number_of collect) parse_pschema parse_rows footer open st1.
Proof.
  intros q. destruct (SEE q) as [A [B [C [D [E [F G]]]]]]. cbv zeta in *. cbn [st1 st_json st_schema st_files st_dirs st_meta st_parquet st_bytes].
  do 4 (split; [assumption|]). split; [exists start; split; [now left|reflexivity]|]. now split.
Qed.
Lemma names_kept : forall path dir l m b, object_partition start names partitioned path dir -> directory_listing start names dir l -> base_listed format l m b -> base_file_name b = fm_name m.
Proof.
  intros path dir l m b OP D B. pose proof OP as [FD [EP _]]. pose proof B as [Im [NM [BN BO]]]. destruct (proj1 (proj2 D m) Im) as [n [o [FI ->]]]. cbn [fm_name new_meta] in *.
  assert (HB : has_base start names format partitioned (path, bf_file_id b) (bf_commit b)) by (exists dir, n, o, b; repeat split; try assumption; try apply OP; try apply FI).
  destruct (WB _ _ HB) as [now [contents [_ [_ WO]]]]. assert (W := WO dir l (get_file_data start base) OP D).
  rewrite (wo_names _ _ _ _ _ _ _ _ _ _ _ _ _ (W ltac:(cbn [fst]; intros n' o' F'; rewrite EP; now apply (read_data start base names PO L))) _ _ B eq_refl). reflexivity.
Qed.
Lemma meta_same : forall objs dir n o, In objs moments -> Forall legal dir -> file_in start names dir n o -> In o objs ->
  st_meta _ (store_of objs) (path_join (join "/" dir) n) = st_meta _ (store_of start) (path_join (join "/" dir) n).
Proof.
  intros objs dir n o I F FI J. cbn [object_store st_meta]. unfold get_file_metadata. rewrite (read_spec start base names PO L dir n o F FI). rewrite (read_spec objs base names (AP _ I) L dir n o F); [reflexivity|]. split; [exact J|apply FI].
Qed.
Lemma meta_ok : forall path dir n o, object_partition start names partitioned path dir -> file_in start names dir n o -> ~ marker_name n -> base_named format n ->
  exists mm, st_meta _ (store_of start) (path_join (join "/" dir) n) = Ok mm.
Proof.
  intros path dir n o OP FI NM BN. pose proof OP as [FD _]. cbn [object_store st_meta]. unfold get_file_metadata. rewrite (read_spec start base names PO L dir n o FD FI). cbn [bind].
  pose proof FI as [_ [Ln Ek]]. rewrite Ek, app_assoc, filename_key; [|apply Forall_app; split; [apply L|exact FD]|exact Ln]. cbn [ok_or bind].
  destruct (proj2 (FO start (or_introl eq_refl) path dir OP) n o FI NM BN) as [[x y] ->]. cbn [bind]. eauto.
Qed.
Lemma served1 : serves_dirs root (st_dirs _ st).
Proof. eapply swept_served; eassumption. Qed.
Lemma wf1 : wf_tree root.
Proof. eapply swept_wf; eassumption. Qed.
Lemma order1 : forall objs path dir, In objs moments -> object_partition start names partitioned path dir -> object_partition objs names partitioned path dir.
Proof.
  intros objs path dir I [F [E H]]. pose proof (TH objs I) as TI.
  assert (DK : forall d n o, Forall legal d -> file_in start names d n o -> exists n' o', file_in objs names d n' o') by (intros; eapply dirs_kept; eassumption).
  split; [exact F|]. split; [exact E|]. destruct partitioned; [|exact H].
  destruct H as [top [rest [Ep [Fl [N1 [N2 [N3 [[n [o FI]] Bl]]]]]]]]. exists top, rest. do 5 (split; [assumption|]). split.
  - eapply DK; eassumption.
  - intros below o' Fb J K. apply (Bl below o' Fb); [exact (TI _ J)|exact K].
Qed.
Lemma expected1 : forall q, exists ss, expected (st_files _ st) (st_meta _ (store_of start)) format partitioned root q = Ok ss.
Proof.
  intros q. apply expected_succeeds. intros pa TP.
  apply (swept_table start later base names format partitioned t replaced PO L SW (st_dirs _ st)) in TP as [dir OP]; [|eapply swept_dirs; eassumption].
  pose proof OP as [FD [EP _]].
  assert (SL : exists objs l, In objs moments /\ st_files _ st (join "/" dir) = Ok l /\ directory_listing objs names dir l) by (eapply swept_listing; eassumption).
  destruct SL as [objs [l [Io [E D1]]]]. exists l. rewrite EP. split; [exact E|]. split; [apply NoDup_map_inv with (f := fm_name); apply D1|].
  split; [exact (proj1 (FO objs Io pa dir (order1 objs pa dir Io OP)) l D1)|].
  intros m b sl B Eb Ep. destruct (files_spec start base names PO L dir FD) as [l1 [_ D0]].
  assert (B0 : base_listed format l1 m b) by (eapply base_there'; eassumption).
  pose proof (names_kept pa dir l1 m b OP D0 B0) as EN. pose proof B0 as [Im [NM [BN BO]]]. destruct (proj1 (proj2 D0 m) Im) as [n [o [FI Em]]]. subst m. cbn [fm_name new_meta] in *.
  destruct (meta_ok pa dir n o OP FI NM BN) as [mm M].
  assert (M' : st_meta _ (store_of start) (base_relative_path sl) = Ok mm) by (unfold base_relative_path; rewrite Ep, Eb, EN; exact M).
  unfold load_metadata_if_needed. rewrite M'. cbn [bind]. destruct (bf_meta (fs_base sl)) as [m0|]; [destruct (fm_populated m0)|]; eauto.
Qed.
Lemma mapM_same : forall A B (f f' : A -> outcome B) l r, mapM f l = Ok r -> (forall x y, In x l -> In y r -> f x = Ok y -> f' x = Ok y) -> mapM f' l = Ok r.
Proof.
  intros A B f f' l. induction l as [|x l IH]; intros r H E; [exact H|]. cbn [mapM] in *. apply bind_ok in H as [y [H1 H]]. apply bind_ok in H as [ys [H2 H]]. injection H as <-.
  rewrite (E x y (or_introl eq_refl) (or_introl eq_refl) H1). cbn [bind]. rewrite (IH ys H2); [reflexivity|]. intros x' y' I J. apply E; now right.
Qed.
Lemma expected_same : forall q ss, expected (st_files _ st) (st_meta _ (store_of start)) format partitioned root q = Ok ss ->
  (forall sl, In sl ss -> st_meta _ st (base_relative_path sl) = st_meta _ (store_of start) (base_relative_path sl)) -> expected (st_files _ st) (st_meta _ st) format partitioned root q = Ok ss.
Proof.
  intros q ss E H. unfold expected in *. apply bind_ok in E as [gss [E1 E2]]. rewrite E1. cbn [bind]. apply (mapM_same _ _ _ _ _ _ E2). intros x y _ J F.
  unfold load_metadata_if_needed in *. assert (P : base_relative_path x = base_relative_path y).
  { destruct (bf_meta (fs_base x)) as [m0|]; [destruct (fm_populated m0)|].
    - injection F as <-. reflexivity.
    - apply bind_ok in F as [mm [_ F]]. injection F as <-. reflexivity.
    - apply bind_ok in F as [mm [_ F]]. injection F as <-. reflexivity. }
  rewrite P, (H y J), <- P. exact F.
Qed.
Lemma shown_meta : forall fields h u fs' ss, object_snapshot dtype' value' cast cmp fields h u start names format partitioned fs' t replaced ss ->
  forall sl, In sl ss -> st_meta _ st (base_relative_path sl) = st_meta _ (store_of start) (base_relative_path sl).
Proof.
  intros fields h u fs' ss [S1 _] sl I. destruct (S1 sl I) as [dir [l1 [OP [D0 [SN [NR _]]]]]]. pose proof OP as [F [EP _]]. pose proof SN as [m0 [b0 [B1 [B2 [B3 [B4 [B5 [B6 [B7 [B8 B9]]]]]]]]]].
  assert (N : is_needed (fs_partition sl, bf_file_id b0) (bf_commit b0)).
  { split; [|rewrite <- B3; exact NR]. split; [exact (base_has start names format partitioned _ dir l1 OP D0 _ _ B1)|]. split; [exact B6|]. intros c' [dir' [n [o [b [OP' [FI [M [B [E [E1 E2]]]]]]]]]] L'. cbn in *.
    assert (dir' = dir) as -> by (destruct OP' as [F' [Ep' _]]; apply (key_of_inj dir' dir F' F); unfold key_of; congruence).
    rewrite <- E2 in L' |- *. apply (B7 (new_meta n (o_size o)) b); [|exact E1|exact L']. split; [apply D0; exists n, o; auto|auto]. }
  unfold base_relative_path. rewrite EP, B4, (names_kept _ dir l1 m0 b0 OP D0 B1). pose proof B1 as [I1 _]. pose proof (base_slice_file _ _ _ _ B1) as SFF. destruct (proj1 (proj2 D0 m0) I1) as [n [o [FI Em]]]. subst m0. cbn [fm_name new_meta] in *.
  destruct (SEE (path_join (join "/" dir) n)) as [_ [_ [_ [_ [[objs [Io E]] _]]]]]. rewrite E. apply (meta_same objs dir n o Io F FI).
  eapply (NS objs _ _ o Io); [|exact N]. exists dir, n. split; [exact OP|]. split; [exact FI|]. exact SFF.
Qed.
(** Listing succeeds. *)
Lemma swept_slices : forall c c' r, M_Session.opened dtype' value' cast cmp local_to_utc tb (keeps dtype' tb) st c -> get_file_slices_as_of dtype' value' cast cmp local_to_utc st tb t filters c c' r -> exists ss, r = Ok ss.
Proof.
  intros c c' r O G. destruct (as_of_as_new dtype' value' cast cmp local_to_utc tb st c root served1 wf1 O t filters c' _ G) as [c1 G1]. clear c c' O G.
  inversion G1 as [? e E|? ? fs' ? E SA]; subst; [congruence|]. assert (fs' = fs) by congruence. subst fs'. destruct swept_plan as [q Q].
  inversion SA as [? e P|? P|? ? q' pt fm n' ? P P1 P2 P3 V]; subst; try congruence. assert (q' = q) by congruence. assert (pt = partitioned) by congruence. assert (fm = format) by congruence. assert (n' = par) by congruence. subst.
  assert (CO := history_ok _ _ _ _ _ _ _ served1 wf1 _ (after_history dtype' value' cast cmp local_to_utc st tb [] (va_new _ _ _ _ _ _ _) _ _ _ P1 P2 P3)).
  destruct (query_answer _ _ _ _ _ _ _ served1 wf1 _ _ _ _ CO (plan_wf _ _ _ _ _ _ _ _ _ _ Q) V) as [_ SA'].
  destruct (expected1 q) as [ss X].
  assert (Y : expected (st_files _ st) (st_meta _ st) format partitioned root q = Ok ss).
  { apply (expected_same q ss X).
    destruct (query_runs (st_files _ st) (st_dirs _ st) (st_meta _ (store_of start)) format partitioned (Z.to_nat par) _ served1 wf1 ltac:(lia) [] q (plan_wf _ _ _ _ _ _ _ _ _ _ Q)) as [c2 [r2 V2]].
    destruct (query_answer _ _ _ _ _ _ _ served1 wf1 _ _ _ _ CO (plan_wf _ _ _ _ _ _ _ _ _ _ Q) V2) as [_ SA2]. rewrite X in SA2. destruct r2 as [ss2|e|]; [|destruct SA2|destruct SA2].
    assert (G2 : get_file_slices_as_of dtype' value' cast cmp local_to_utc st1 tb t filters [] c2 (Ok ss2)) by (eapply ga_ok; [exact FT|]; eapply sa_view; eauto).
    destruct (swept_snapshot start later base names format partitioned t replaced PO L SW number_of collect local_to_utc dtype' value' cast cmp parse_pschema parse_rows footer open st1 sees1 tb tz time So NL TZ TM BF PT RP FIN [] c2 filters ss2 (M_Session.op_new _ _ _ _ _ _ _ _) G2)
      as [fs2 [fields2 [h2 [u2 [_ [W2 [_ [_ OS]]]]]]]].
    pose proof (shown_meta _ _ _ _ _ (OS (WF _ W2))) as SM. intros sl I. apply SM. exact (Permutation_in _ (Permutation_sym SA2) I). }
  rewrite Y in SA'. destruct r as [ss'|e|]; [eauto|destruct SA'|destruct SA'].
Qed.
(** Every answer of the query is a success, and there is one. *)
Lemma swept_succeeds : forall c, M_Session.opened dtype' value' cast cmp local_to_utc tb (keeps dtype' tb) st c ->
  let read := read_snapshot_as_of dtype' value' cast cmp avro value parse_schema decode check_schema (to_batch code rank float_cast) parquet local_to_utc st tb t filters c in
  (forall c' r, read c' r -> exists batches, r = Ok batches) /\ exists c' batches, read c' (Ok batches).
Proof.
  intros c O read.
  assert (SR : forall c' ss, get_file_slices_as_of dtype' value' cast cmp local_to_utc st tb t filters c c' (Ok ss) ->
    forall r, read_slices dtype' avro value parse_schema decode check_schema (to_batch code rank float_cast) parquet local_to_utc st tb [("hoodie.read.file_group.end_timestamp", t)] ss r -> exists batches, r = Ok batches).
  { intros c' ss G r R. exact (swept_reads start later base names format partitioned t replaced PO L SW number_of collect local_to_utc dtype' value' cast cmp parse_pschema parse_rows footer open st SEE tb tz time So NL TZ TM BF PT RP FIN
      code rank float_cast parse_schema parquet dfs p s k hist dels MT TS WB c c' filters ss O WF G OPN r R). }
  assert (A : forall c' r, read c' r -> exists batches, r = Ok batches).
  { intros c' r R. inversion R as [? ? e G|? ? G|? ? ss ? G RS]; subst.
    - destruct (swept_slices _ _ _ O G) as [ss E]; discriminate.
    - destruct (swept_slices _ _ _ O G) as [ss E]; discriminate.
    - exact (SR _ _ G _ RS). }
  split; [exact A|]. destruct swept_plan as [q Q].
  destruct (query_runs (st_files _ st) (st_dirs _ st) (st_meta _ st) format partitioned (Z.to_nat par) _ served1 wf1 ltac:(lia) c q (plan_wf _ _ _ _ _ _ _ _ _ _ Q)) as [c' [r V]].
  assert (G : get_file_slices_as_of dtype' value' cast cmp local_to_utc st tb t filters c c' r) by (eapply ga_ok; [exact FT|]; eapply sa_view; eauto).
  destruct (swept_slices _ _ _ O G) as [ss ->].
  set (o := table_reader_options (fun m => m) (t_configs tb) (t_storage tb) [("hoodie.read.file_group.end_timestamp", t)]).
  set (rd := fun sl => read_file_slice (@L_Reader.isort _) (fun m => m) (st_parquet _ st) avro value parse_schema decode check_schema (to_batch code rank float_cast) parquet local_to_utc (st_bytes _ st) (fst o) sl).
  destruct (joined_total _ (map rd ss)) as [r J].
  assert (RS : read_slices dtype' avro value parse_schema decode check_schema (to_batch code rank float_cast) parquet local_to_utc st tb [("hoodie.read.file_group.end_timestamp", t)] ss r).
  { apply rs_read with (iter := fun m => m) (os := map rd ss); [intros m; reflexivity| |exact J]. cbn zeta. split; [exact (OPN (fun m => m) (fun m => Permutation_refl m))|]. clear. induction ss as [|x ss IH]; constructor; [|exact IH].
    exists (@L_Reader.isort _), (fun m => m). split; [apply L_Reader.isort_sorts|]. split; [intros m; reflexivity|reflexivity]. }
  assert (R : read c' r) by (eapply ra_ok; eauto).
  destruct (A _ _ R) as [bs ->]. eauto.
Qed.
End Success.
