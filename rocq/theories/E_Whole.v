(** A small table for the examples of C81: three file groups, one of them with log files, one of them replaced. *)
From Coq Require Import Sorted.
From Verif Require Import Base Str M_Utf8 M_Time M_Instant M_Timeline M_FileGroup M_Builder M_Listing M_Expr M_Log M_Config M_Reader M_Table M_Storage M_Avro M_Values M_Datum M_Json M_Objects M_Open
  S_Time S_Timeline S_FileGroup S_Builder S_Listing S_Expr S_Log S_Reader S_Config S_Table S_Avro S_Storage S_Objects S_Open S_History S_Values S_Datum S_Json S_Whole
  L_Base L_Str L_Timeline L_Open L_Json L_Whole E_Scan E_Open E_History E_Values E_Datum E_Json.
Local Open Scope string_scope.

Definition wx_t7 := "20250107000000000".
Definition wx_c1 : list cell := [VText hx_t1; VText "6"; VText "c"; VInt 1].
Definition wx_d1 : list cell := [VText hx_t1; VText "7"; VText "d"; VInt 1].
Definition wx_stat (id path : string) : string := "{""fileId"":""" ++ id ++ """,""path"":""" ++ path ++ """}".
Definition wx_delta (id base logs : string) : string := "{""fileId"":""" ++ id ++ """,""path"":""" ++ base ++ """,""baseFile"":""" ++ base ++ """,""logFiles"":[" ++ logs ++ "]}".
Definition wx_commit (stats more : string) : string := "{""partitionToWriteStats"":{"""":[" ++ stats ++ "]}" ++ more ++ "}".
Definition wx_at (name data : string) : object := {| o_key := "data/t/" ++ name; o_data := data |}.
Definition wx_h := "h_0-0-0_20250101000000000.parquet".
Definition wx_r := "r_0-0-0_20250101000000000.parquet".
Definition wx_replace : string := wx_commit (wx_stat "h" wx_h) ", ""partitionToReplaceFileIds"":{"""":[""r""]}".
Definition wx_data : list (string * string) :=
  [(wx_h, "h1"); (fm_name hx_base1, "b1"); (fm_name hx_log1, put_log (map fst (vx_contents (fm_name hx_log1)))); (wx_r, "r1");
   (fm_name hx_base5, "b5"); (fm_name hx_log5, put_log (map fst (vx_contents (fm_name hx_log5))))].
Definition wx_objs : list object :=
  ([wx_at ".hoodie/hoodie.properties" (lines_of ["hoodie.table.name=t"; "hoodie.table.type=MERGE_ON_READ"; "hoodie.table.version=6"; "hoodie.timeline.layout.version=1";
      "hoodie.table.precombine.field=ts"; "hoodie.datasource.write.hive_style_partitioning=false"; "hoodie.datasource.write.partitionpath.urlencode=false"]);
    wx_at ".hoodie/20250101000000000.commit" (wx_commit (wx_stat "f" (fm_name hx_base1) ++ "," ++ wx_stat "h" wx_h ++ " , " ++ wx_stat "r" wx_r) "");
    wx_at ".hoodie/20250102000000000.deltacommit" (wx_commit (wx_delta "f" (fm_name hx_base1) ("""" ++ fm_name hx_log1 ++ """")) "");
    wx_at ".hoodie/20250103000000000.deltacommit.inflight" "";
    wx_at ".hoodie/20250105000000000.commit" (wx_commit (wx_delta "f" (fm_name hx_base5) "") "");
    wx_at ".hoodie/20250106000000000.deltacommit" (wx_commit (wx_delta "f" (fm_name hx_base5) ("""" ++ fm_name hx_log5 ++ """")) "");
    wx_at ".hoodie/20250107000000000.replacecommit" wx_replace] ++ map (fun x => wx_at (fst x) (snd x)) wx_data)%list.
Definition wx_rows (d : string) : outcome record_batch :=
  if String.eqb d "b1" then Ok (hx_batch [hx_a1; hx_b1]) else if String.eqb d "b5" then Ok (hx_batch [hx_a2; hx_b1])
  else if String.eqb d "h1" then Ok (hx_batch [wx_c1]) else if String.eqb d "r1" then Ok (hx_batch [wx_d1]) else Err EStorage.
Definition wx_builder : builder := {| b_base := "file:///data/t/"; b_hudi := []; b_storage := []; b_options := [] |}.
Definition wx_build : outcome (table * url * list object) :=
  build (fun m => m) [] bx_parse (fun _ _ => Ok wx_objs) (fun _ => Err EStorage) hx_local isort wx_builder.
Definition wx_table : table := match wx_build with Ok (tb, _, _) => tb | _ => hx_table end.
Fact wx_built : wx_build = Ok (wx_table, sx_base, wx_objs).
Proof. vm_compute. reflexivity. Qed.
Fact wx_proper : proper_objects wx_objs.
Proof. apply proper_by. vm_compute. reflexivity. Qed.
Definition wx_store : store unit :=
  object_store wx_objs sx_base unit (parse_metadata jx_number jx_collect) (fun _ => Ok [("ts", tt)]) wx_rows (fun _ => Ok (1, 1)%Z) (fun _ _ => Ok tt).
Fact wx_commits : map (fun i => (i_timestamp i, i_action i)) (t_commits wx_table)
  = [(hx_t1, Commit); (hx_t2, DeltaCommit); (hx_t5, Commit); (hx_t6, DeltaCommit); (wx_t7, ReplaceCommit)].
Proof. vm_compute. reflexivity. Qed.
Definition wx_reads (t : string) (batches : list (list (list cell))) : Prop := exists c',
  read_snapshot_as_of unit string (fun _ s => Some s) (fun a b => Some (scmp a b)) avro value vx_parse decode check_schema (to_batch vx_code vx_rank vx_cast) (fun _ => None)
    hx_local wx_store wx_table t [] [] c' (Ok (map hx_batch batches)).
Definition wx_names := ["data"; "t"].
Lemma wx_key : forall n, key_of (wx_names ++ [] ++ [n]) = "data/t/" ++ n.
Proof. reflexivity. Qed.
Lemma wx_strip : forall a b, "data/t/" ++ a = "data/t/" ++ b -> a = b.
Proof. intros a b H. cbn [append] in H. congruence. Qed.
Fact wx_legal : forall n, In n (map fst wx_data) -> legal n.
Proof. intros n I. cbn [map fst wx_data In] in I. repeat (destruct I as [ <- |I]; [repeat split; discriminate|]). destruct I. Qed.
Fact wx_files : forall n o, file_in wx_objs wx_names [] n o <-> exists d, In (n, d) wx_data /\ o = wx_at n d.
Proof.
  intros n o. unfold file_in. rewrite wx_key. split.
  - intros [I [[_ [S _]] E]]. unfold wx_objs in I. apply in_app_or in I as [I|I].
    + exfalso. repeat (destruct I as [ <- |I]; [cbn [o_key wx_at] in E; apply wx_strip in E; subst n; discriminate S|]). destruct I.
    + apply in_map_iff in I as [[n' d] [ <- I]]. cbn [fst snd wx_at o_key] in *. apply wx_strip in E. subst n'. exists d. split; [exact I|reflexivity].
  - intros [d [I ->]]. split; [|split; [|reflexivity]].
    + unfold wx_objs. apply in_or_app. right. apply in_map_iff. exists (n, d). split; [reflexivity|exact I].
    + apply wx_legal. change n with (fst (n, d)). now apply in_map.
Qed.
Fact wx_listing : forall dir l m, dir = [] -> directory_listing wx_objs wx_names dir l -> (In m l <-> exists n d, In (n, d) wx_data /\ m = new_meta n (Z.of_nat (String.length d))).
Proof.
  intros dir l m -> [_ D]. rewrite D. split.
  - intros [n [o [F ->]]]. apply wx_files in F as [d [I ->]]. exists n, d. split; [exact I|reflexivity].
  - intros [n [d [I ->]]]. exists n, (wx_at n d). split; [apply wx_files; eauto|reflexivity].
Qed.
(** Groups of one base file. *)
Definition wx_group (row : list cell) : group := {| g_versions := [(hx_t1, row)]; g_bases := [(hx_t1, [row])]; g_blocks := []; g_failed := []; g_rollbacks := [] |}.
Definition wx_hist (g : string * string) : group := if String.eqb (snd g) "f" then hx_group else if String.eqb (snd g) "h" then wx_group wx_c1 else wx_group wx_d1.
Fact wx_history : forall row, row = wx_c1 \/ row = wx_d1 -> history 2 3 1 hx_t1 (wx_group row).
Proof.
  intros row R. eapply h_write; [apply h_new|apply hx_stamp; cbn; tauto|reflexivity|]. apply (w_commit 2 3 1 new_group_history hx_t1 [row] [row]). split; [|split].
  - repeat constructor. intros [].
  - intros r I. exists r. auto.
  - intros r I. split; [exact I|]. intros r' I' _. destruct I as [ <- |[]], I' as [ <- |[]]. destruct R as [ -> | -> ]; apply hx_not_newer; right; (split; [reflexivity|discriminate]).
Qed.
Definition wx_meta (n : string) : file_meta := new_meta n 2.
Fact wx_single : forall id n row rp bytes, In (id, n, row) [("h", wx_h, wx_c1); ("r", wx_r, wx_d1)] -> rp n = Ok (hx_batch [row]) ->
  written_out vx_parse encodes vx_code vx_rank rp bytes "parquet" "" id vx_dfs [wx_meta n] (fun _ => []) (wx_group row).
Proof.
  intros id n row rp bytes I R.
  assert (BL : forall m b, base_listed "parquet" [wx_meta n] m b -> m = wx_meta n /\ bf_commit b = hx_t1 /\ base_file_name b = n).
  { intros m b [[ <- |[]] [_ [_ P]]]. split; [reflexivity|]. destruct I as [[= <- <- <-]|[[= <- <- <-]|[]]]; vm_compute in P; injection P as <-; split; reflexivity. }
  assert (BO : base_of "parquet" id [wx_meta n] (wx_meta n) hx_t1).
  { destruct I as [[= <- <- <-]|[[= <- <- <-]|[]]]; (eexists; split; [split; [now left|split; [|split; [first [now exists "h_0-0-0_20250101000000000"|now exists "r_0-0-0_20250101000000000"]|vm_compute; reflexivity]]]|split; reflexivity]);
    (intros [[r E]|[r E]]; [discriminate E|apply (f_equal (fun s => ends_with ".crc" s)) in E; rewrite (proj2 (ends_with_spec ".crc" (r ++ ".crc")) (ex_intro _ r eq_refl)) in E; discriminate E]). }
  assert (NL : forall m x, ~ log_listed "parquet" [wx_meta n] m x).
  { intros m x [[ <- |[]] [_ [N _]]]. apply N. destruct I as [[= <- <- <-]|[[= <- <- <-]|[]]]; [now exists "h_0-0-0_20250101000000000"|now exists "r_0-0-0_20250101000000000"]. }
  constructor.
  - split; intros r; [destruct r; discriminate|]. destruct I as [[= <- <- <-]|[[= <- <- <-]|[]]]; discriminate.
  - intros m b B _. destruct (BL m b B) as [ -> [_ E]]. exact E.
  - intros c. cbn [wx_group g_bases map fst In]. split; [intros [ <- |[]]; eauto|]. intros [m [b [B [_ <-]]]]. left. symmetry. now apply BL in B.
  - intros m c rows [b [B _]] J. destruct (BL m b B) as [ -> _]. cbn [wx_group g_bases In] in J. destruct J as [J|[]]. injection J as _ <-. exact R.
  - intros x r J. cbn in J. destruct J as [[= <- <-]|[]]. destruct I as [[= <- <- <-]|[[= <- <- <-]|[]]]; repeat constructor; cbn; discriminate.
  - intros m1 l1 m2 l2 L1. now apply NL in L1.
  - intros m c [x [Lx _]]. now apply NL in Lx.
  - intros c x r. cbn [wx_group g_blocks]. split; [intros [rows [[] _]]|]. intros [m [w [vs [v [[y [Ly _]] _]]]]]. now apply NL in Ly.
  - intros c y x. cbn [wx_group g_rollbacks]. split; [intros []|]. intros [m [w [vs [[z [Lz _]] _]]]]. now apply NL in Lz.
Qed.
Fact wx_base_id : forall n d b, In (n, d) wx_data -> base_named "parquet" n -> base_file_of n (Some (new_meta n (Z.of_nat (String.length d)))) = Ok b ->
  (n = fm_name hx_base1 /\ bf_file_id b = "f") \/ (n = fm_name hx_base5 /\ bf_file_id b = "f") \/ (n = wx_h /\ bf_file_id b = "h") \/ (n = wx_r /\ bf_file_id b = "r").
Proof.
  intros n d b I _ P. unfold base_file_of in P. cbn [wx_data In] in I.
  repeat (destruct I as [[= <- <-]|I]; [match type of P with context [parse_base_name ?n] => let x := eval vm_compute in (parse_base_name n) in change (parse_base_name n) with x in P end; cbn [bind] in P; try discriminate P; injection P as <-; cbn [bf_file_id]; tauto|]). destruct I.
Qed.
Fact wx_log_id : forall n d x, In (n, d) wx_data -> ~ base_named "parquet" n -> log_file_of n (Some (new_meta n (Z.of_nat (String.length d)))) = Ok x ->
  lf_file_id x = "f" /\ (n = fm_name hx_log1 \/ n = fm_name hx_log5).
Proof.
  intros n d b I _ P. unfold log_file_of in P. cbn [wx_data In] in I.
  repeat (destruct I as [[= <- <-]|I]; [match type of P with context [parse_log_name ?n] => let x := eval vm_compute in (parse_log_name n) in change (parse_log_name n) with x in P end; cbn [bind] in P; try discriminate P; injection P as <-; cbn [lf_file_id]; tauto|]). destruct I.
Qed.
Fact wx_clean : forall g t, In t [hx_t6; wx_t7] -> clean_at (wx_hist g) t.
Proof.
  intros g t I b x rows Ib If L. unfold wx_hist in *. destruct (String.eqb (snd g) "f"); [|destruct (String.eqb (snd g) "h"); destruct If].
  destruct If as [ <- |[]]. destruct Ib as [[= <- <-]|[[= <- <-]|[[= <- <-]|[]]]]. exists hx_t4. split; [now left|]. destruct I as [ <- |[ <- |[]]]; discriminate.
Qed.
Fact wx_has : forall g c, has_base wx_objs wx_names "parquet" false g c -> fst g = "" /\ In (snd g) ["f"; "h"; "r"].
Proof.
  intros g c [dir [n [o [b [[_ [EP ED]] [FI [_ [BN [BO [EI _]]]]]]]]]]. subst dir. split; [exact EP|]. apply wx_files in FI as [d [I ->]]. rewrite <- EI.
  destruct (wx_base_id n d b I BN BO) as [[_ -> ]|[[_ -> ]|[[_ -> ]|[_ -> ]]]]; cbn; tauto.
Qed.
Definition wx_blocks (id : string) : string -> list (wblock * list value) := if String.eqb id "f" then vx_contents else fun _ => [].
Fact wx_written_out : forall id, In id ["f"; "h"; "r"] -> forall dir listed content, object_partition wx_objs wx_names false "" dir -> directory_listing wx_objs wx_names dir listed ->
  (forall n o, file_in wx_objs wx_names dir n o -> content (file_path "" n) = Ok (o_data o)) ->
  written_out vx_parse encodes vx_code vx_rank (fun path => let* d := content path in wx_rows d) content "parquet" "" id vx_dfs listed (wx_blocks id) (wx_hist ("", id)).
Proof.
  intros id I.
  assert (LS : forall dir listed, object_partition wx_objs wx_names false "" dir -> directory_listing wx_objs wx_names dir listed ->
    NoDup (map fm_name listed) /\ (forall n d, In (n, d) wx_data -> exists m, In m listed /\ fm_name m = n)
    /\ (forall m b, base_listed "parquet" listed m b -> In (fm_name m, bf_file_id b) [(fm_name hx_base1, "f"); (fm_name hx_base5, "f"); (wx_h, "h"); (wx_r, "r")])
    /\ (forall m x, log_listed "parquet" listed m x -> In (fm_name m, lf_file_id x) [(fm_name hx_log1, "f"); (fm_name hx_log5, "f")])).
  { intros dir listed [_ [_ ED]] DL. split; [apply DL|]. split; [|split].
    - intros n d J. exists (new_meta n (Z.of_nat (String.length d))). split; [|reflexivity]. apply (wx_listing dir listed _ ED DL). eauto.
    - intros m b [Im [_ [BN BO]]]. apply (wx_listing dir listed m ED DL) in Im as [n [d [J ->]]]. cbn [fm_name new_meta] in *.
      destruct (wx_base_id n d b J BN BO) as [[ -> -> ]|[[ -> -> ]|[[ -> -> ]|[ -> -> ]]]]; cbn [In]; tauto.
    - intros m x [Im [_ [BN BO]]]. apply (wx_listing dir listed m ED DL) in Im as [n [d [J ->]]]. cbn [fm_name new_meta] in *.
      destruct (wx_log_id n d x J BN BO) as [ -> [ -> | -> ]]; cbn [In]; tauto. }
  assert (CT : forall content n d, (forall n o, file_in wx_objs wx_names [] n o -> content (file_path "" n) = Ok (o_data o)) -> In (n, d) wx_data -> content n = Ok d).
  { intros content n d C J. change n with (file_path "" n). rewrite (C n (wx_at n d)); [reflexivity|]. apply wx_files. eauto. }
  assert (PE : forall r, "" <> r ++ "/") by (intros [|]; discriminate).
  assert (SG : forall id0 n row d, In (id0, n, row) [("h", wx_h, wx_c1); ("r", wx_r, wx_d1)] -> In (n, d) wx_data -> wx_rows d = Ok (hx_batch [row]) ->
    forall dir listed content, object_partition wx_objs wx_names false "" dir -> directory_listing wx_objs wx_names dir listed ->
    (forall n o, file_in wx_objs wx_names dir n o -> content (file_path "" n) = Ok (o_data o)) ->
    written_out vx_parse encodes vx_code vx_rank (fun path => let* d := content path in wx_rows d) content "parquet" "" id0 vx_dfs listed (fun _ => []) (wx_group row)).
  { intros id0 n row d J1 J2 J3 dir listed content OP DL CO. destruct (LS dir listed OP DL) as [ND [A [B C]]]. destruct OP as [_ [_ ED]]. subst dir.
    assert (CN : (let* x := content n in wx_rows x) = Ok (hx_batch [row])) by (rewrite (CT content n d CO J2); exact J3).
    eapply written_elsewhere with (part := "") (listed := [wx_meta n]); [exact ND|exact PE| | | | | | |apply (wx_single id0 n row (fun path => let* d := content path in wx_rows d) content J1 CN)].
    - intros m b Bm E. exists (wx_meta n). split; [now left|]. apply B in Bm. cbn [wx_meta fm_name new_meta].
      destruct J1 as [[= <- <- <-]|[[= <- <- <-]|[]]]; rewrite E in Bm; destruct Bm as [X|[X|[X|[X|[]]]]]; try discriminate X; now injection X as <-.
    - intros m b [[ <- |[]] _] _. exact (A n d J2).
    - intros m x Lm E. exfalso. apply C in Lm. destruct J1 as [[= <- <- <-]|[[= <- <- <-]|[]]]; rewrite E in Lm; destruct Lm as [X|[X|[]]]; discriminate X.
    - intros m x [[ <- |[]] _] _. exact (A n d J2).
    - reflexivity.
    - reflexivity. }
  destruct I as [ <- |[ <- |[ <- |[]]]].
  - intros dir listed content OP DL CO. destruct (LS dir listed OP DL) as [ND [A [B C]]]. destruct OP as [_ [_ ED]]. subst dir.
    cbn [fst snd] in *. change (wx_hist ("", "f")) with hx_group. change (wx_blocks "f") with vx_contents.
    eapply written_elsewhere with (part := "") (listed := hx_listed); [exact ND|exact PE| | | | | | |exact dx_written_out].
    + intros m b Bm E. apply B in Bm. rewrite E in Bm. destruct Bm as [X|[X|[X|[X|[]]]]]; try discriminate X; injection X as <-; [exists hx_base1|exists hx_base5]; (split; [cbn [hx_listed In]; tauto|reflexivity]).
    + intros m b Bm _. apply hx_bases in Bm as [_ [_ [[ -> _]|[ -> _]]]]; [apply (A _ "b1")|apply (A _ "b5")]; cbn [wx_data In]; tauto.
    + intros m x Lm E. apply C in Lm. rewrite E in Lm. destruct Lm as [X|[X|[]]]; injection X as <-; [exists hx_log1|exists hx_log5]; (split; [cbn [hx_listed In]; tauto|reflexivity]).
    + intros m x Lm _. apply hx_logs in Lm as [_ [[ -> _]|[ -> _]]]; eapply A; cbn [wx_data In]; eauto 8.
    + intros m c0 [b [Bm _]]. apply hx_bases in Bm as [_ [_ [[ -> _]|[ -> _]]]].
      * change (file_path "" (fm_name hx_base1)) with (fm_name hx_base1). rewrite (CT content (fm_name hx_base1) "b1" CO) by (cbn [wx_data In]; tauto). reflexivity.
      * change (file_path "" (fm_name hx_base5)) with (fm_name hx_base5). rewrite (CT content (fm_name hx_base5) "b5" CO) by (cbn [wx_data In]; tauto). reflexivity.
    + intros m c0 Lm. apply hx_log_of in Lm as [[ -> _]|[ -> _]].
      * change (file_path "" (fm_name hx_log1)) with (fm_name hx_log1). rewrite (CT content (fm_name hx_log1) (put_log (map fst (vx_contents (fm_name hx_log1)))) CO) by (cbn [wx_data In]; tauto). reflexivity.
      * change (file_path "" (fm_name hx_log5)) with (fm_name hx_log5). rewrite (CT content (fm_name hx_log5) (put_log (map fst (vx_contents (fm_name hx_log5)))) CO) by (cbn [wx_data In]; tauto). reflexivity.
  - change (wx_hist ("", "h")) with (wx_group wx_c1). eapply SG; [now left|cbn [wx_data In]; left; reflexivity|reflexivity].
  - change (wx_hist ("", "r")) with (wx_group wx_d1). eapply SG; [right; now left|cbn [wx_data In]; do 3 right; left; reflexivity|reflexivity].
Qed.
Fact wx_histories : forall id, In id ["f"; "h"; "r"] -> exists now, history 2 3 1 now (wx_hist ("", id)).
Proof. intros id [ <- |[ <- |[ <- |[]]]]; [exists hx_t6; exact hx_history|exists hx_t1; apply wx_history; now left|exists hx_t1; apply wx_history; now right]. Qed.
Fact wx_written : forall t, In t [hx_t6; wx_t7] -> written_by wx_objs wx_names "parquet" false vx_parse vx_code vx_rank wx_rows vx_dfs 2 3 1 t wx_hist.
Proof.
  intros t T [pt id] c H. apply wx_has in H as [E I]. cbn [fst snd] in *. subst pt. destruct (wx_histories id I) as [now Hi]. exists now, (wx_blocks id). split; [exact Hi|]. split; [now apply wx_clean|]. exact (wx_written_out id I).
Qed.
Fact wx_stamp : forall t, In t [hx_t6; wx_t7] -> timestamp t.
Proof. intros t [ <- |[ <- |[]]]; [apply hx_stamp; cbn; tauto|]. exists (hx_day 7). split; [apply hx_valid; lia|]. split; [discriminate|reflexivity]. Qed.
Fact wx_merging : merging_table wx_table (map (as_field vx_code) vx_dfs) 3 1 2.
Proof.
  replace (map (as_field vx_code) vx_dfs) with hx_sch by reflexivity. constructor.
  - split; [vm_compute; constructor|]. vm_compute. intros ? ? ? [].
  - vm_compute. reflexivity.
  - intros v E. vm_compute in E. discriminate E.
  - vm_compute. discriminate.
  - split; [right; split; [intros v E; vm_compute in E; discriminate E|split; [vm_compute; discriminate|vm_compute; discriminate]]|]. split; [|split; hx_column]. exists "ts", TInt. split; [vm_compute; reflexivity|]. split; [hx_column|discriminate].
Qed.
Fact wx_fields : forall fields, get_partition_schema unit wx_store wx_table = Ok fields -> wf_fields fields.
Proof. intros fields E. vm_compute in E. injection E as <-. split; [constructor|intros ? []]. Qed.
Fact wx_apart : forall of : string * string -> Prop, (forall g, of g -> fst g = "" /\ In (snd g) ["f"; "h"; "r"]) -> keys_apart 2 of wx_hist.
Proof.
  intros of H [p1 i1] [p2 i2] x x' r r' O1 O2 I1 I2 E. apply H in O1 as [E1 J1]. apply H in O2 as [E2 J2]. cbn [fst snd] in *. subst p1 p2.
  destruct J1 as [ <- |[ <- |[ <- |[]]]], J2 as [ <- |[ <- |[ <- |[]]]]; try reflexivity; exfalso; cbn in I1, I2;
  repeat (destruct I1 as [I1|I1]; [injection I1 as <- <-; repeat (destruct I2 as [I2|I2]; [injection I2 as <- <-; discriminate E|]); destruct I2|]); destruct I1.
Qed.
Fact wx_live_r : live wx_objs wx_names "parquet" false jx_number jx_collect hx_local "utc" hx_t6 1736121600000 ("", "r")
  /\ ~ live wx_objs wx_names "parquet" false jx_number jx_collect hx_local "utc" wx_t7 1736208000000 ("", "r").
Proof.
  split.
  - split.
    + exists hx_t1. split; [|discriminate]. exists [], wx_r, (wx_at wx_r "r1"). eexists. split; [repeat split; constructor|]. split; [apply wx_files; exists "r1"; split; [cbn [wx_data In]; tauto|reflexivity]|].
      split; [intros [[r E]|[r E]]; [discriminate E|apply (f_equal (fun s => ends_with ".crc" s)) in E; rewrite (proj2 (ends_with_spec ".crc" (r ++ ".crc")) (ex_intro _ r eq_refl)) in E; discriminate E]|].
      split; [now exists "r_0-0-0_20250101000000000"|]. split; [vm_compute; reflexivity|]. split; reflexivity.
    + intros [ts [o [dt [m [[I [_ E]] [D [T [LE _]]]]]]]]. change (key_of (wx_names ++ [".hoodie"] ++ [ts ++ ".replacecommit"])) with ("data/t/" ++ (".hoodie/" ++ (ts ++ ".replacecommit"))) in E.
      assert (S : forall a b, ".hoodie/" ++ a = ".hoodie/" ++ b -> a = b) by (intros a b H; cbn [append] in H; congruence).
      unfold wx_objs in I. apply in_app_or in I as [I|I].
      * repeat (destruct I as [ <- |I]; [cbn [o_key wx_at] in E; apply wx_strip in E; first [apply (f_equal (fun s => ends_with ".replacecommit" s)) in E; rewrite (proj2 (ends_with_spec ".replacecommit" (".hoodie/" ++ ts ++ ".replacecommit")) (ex_intro _ (".hoodie/" ++ ts) (eq_sym (app_assoc_s _ _ _)))) in E; discriminate E|apply (S ("20250107000000000" ++ ".replacecommit")) in E]|]); [|destruct I].
        assert (ts = "20250107000000000").
        { apply (f_equal (split_once ".")) in E. change (split_once "." ("20250107000000000" ++ ".replacecommit")) with (Some ("20250107000000000", "replacecommit")) in E.
          rewrite (split_once_app "." ts "replacecommit" D) in E. now injection E as <-. }
        subst ts. vm_compute in T. injection T as <-. vm_compute in LE. now apply LE.
      * apply in_map_iff in I as [[n d] [ <- I]]. cbn [o_key wx_at fst snd] in E. apply wx_strip in E. cbn [wx_data In] in I. repeat (destruct I as [[= <- <-]|I]; [discriminate E|]). destruct I.
  - intros [_ N]. apply N. exists "20250107000000000", (wx_at ".hoodie/20250107000000000.replacecommit" wx_replace). eexists. eexists. split; [split; [unfold wx_objs; cbn [In app]; do 6 right; left; reflexivity|split; [repeat split; discriminate|reflexivity]]|].
    split; [reflexivity|]. split; [vm_compute; reflexivity|]. split; [vm_compute; discriminate|]. split; [apply slice_text; vm_compute; reflexivity|].
    eexists. eexists. split; [reflexivity|]. split; [left; reflexivity|left; reflexivity].
Qed.
Ltac wx_read :=
  eexists; eapply ra_ok;
  [eapply ga_ok; [reflexivity|]; eapply sa_view; [vm_compute; reflexivity|vm_compute; reflexivity|vm_compute; reflexivity|vm_compute; reflexivity|];
   eapply vq_ok with (order := fun _ l => l);
   [reflexivity
   |eapply hx_listing; vm_compute; reflexivity
   |vm_compute; reflexivity|vm_compute; reflexivity]
  |eapply rs_read with (iter := fun m => m); [intros m; reflexivity| |];
   [split; [reflexivity|]; repeat (apply Forall2_cons; [exists (@L_Reader.isort _), (fun m => m); split; [apply L_Reader.isort_sorts|split; [intros m; reflexivity|vm_compute; reflexivity]]|]); apply Forall2_nil
   |match goal with |- joined _ (Ok ?l) => exact (jo_ok l) end]].
(** As of the last deltacommit and as of the replacecommit. *)
Fact wx_read6 : wx_reads hx_t6 [[wx_c1]; [hx_b6; hx_a2]; [wx_d1]]. Proof. wx_read. Qed.
Fact wx_read7 : wx_reads wx_t7 [[wx_c1]; [hx_b6; hx_a2]]. Proof. wx_read. Qed.

(** The table is in order. *)
Ltac wx_each I := cbn [wx_data In] in I; repeat (destruct I as [[= <- <-]|I]); [..|destruct I].
Fact wx_bases : forall dir l m b, dir = [] -> directory_listing wx_objs wx_names dir l -> base_listed "parquet" l m b ->
  In (fm_name m, (bf_file_id b, bf_commit b)) [(fm_name hx_base1, ("f", hx_t1)); (fm_name hx_base5, ("f", hx_t5)); (wx_h, ("h", hx_t1)); (wx_r, ("r", hx_t1))].
Proof.
  intros dir l m b ED DL [Im [_ [BN P]]]. apply (wx_listing dir l m ED DL) in Im as [n [d [J ->]]]. cbn [fm_name new_meta] in *. unfold base_file_of in P. wx_each J;
  (match type of P with context [parse_base_name ?n] => let x := eval vm_compute in (parse_base_name n) in change (parse_base_name n) with x in P end; cbn [bind] in P; try discriminate P; injection P as <-; cbn [bf_file_id bf_commit In]; tauto).
Qed.
Fact wx_logs : forall dir l m x, dir = [] -> directory_listing wx_objs wx_names dir l -> log_listed "parquet" l m x -> In (lf_file_id x, lf_base_commit x) [("f", hx_t1); ("f", hx_t5)].
Proof.
  intros dir l m x ED DL [Im [_ [BN P]]]. apply (wx_listing dir l m ED DL) in Im as [n [d [J ->]]]. cbn [fm_name new_meta] in *. unfold log_file_of in P. wx_each J;
  (match type of P with context [parse_log_name ?n] => let x := eval vm_compute in (parse_log_name n) in change (parse_log_name n) with x in P end; cbn [bind] in P; try discriminate P; injection P as <-; cbn [lf_file_id lf_base_commit In]; tauto).
Qed.
Fact wx_base_there : forall l, directory_listing wx_objs wx_names [] l -> forall n d, In (n, d) [(fm_name hx_base1, "b1"); (fm_name hx_base5, "b5")] ->
  exists b, base_listed "parquet" l (new_meta n (Z.of_nat (String.length d))) b /\ bf_file_id b = "f" /\ bf_commit b = (if String.eqb d "b1" then hx_t1 else hx_t5).
Proof.
  intros l DL n d I. assert (J : In (n, d) wx_data) by (destruct I as [ <- |[ <- |[]]]; cbn [wx_data In]; tauto).
  assert (IL : In (new_meta n (Z.of_nat (String.length d))) l) by (apply (wx_listing [] l _ eq_refl DL); eauto). clear J.
  destruct I as [[= <- <-]|[[= <- <-]|[]]]; (eexists; split; [split; [exact IL|
    split; [intros [[r E]|[r E]]; [discriminate E|apply (f_equal (fun s => ends_with ".crc" s)) in E; rewrite (proj2 (ends_with_spec ".crc" (r ++ ".crc")) (ex_intro _ r eq_refl)) in E; discriminate E]|
    split; [apply (ends_with_spec ".parquet"); reflexivity|vm_compute; reflexivity]]]|split; reflexivity]).
Qed.
Fact wx_in_order : files_in_order wx_objs wx_names "parquet" false (fun _ => Ok (1, 1)%Z).
Proof.
  intros path dir [_ [_ ED]]. subst dir. split; [|eauto]. intros l DL. split; [|split].
  - intros m Im _ BN. apply (wx_listing [] l m eq_refl DL) in Im as [n [d [J ->]]]. cbn [fm_name new_meta] in *. wx_each J; try (eexists; vm_compute; reflexivity); exfalso; apply (ends_with_spec ".parquet") in BN; discriminate BN.
  - intros m1 m2 b1 b2 B1 B2 E1 E2. assert (N : fm_name m1 = fm_name m2).
    { apply (wx_bases [] l m1 b1 eq_refl DL) in B1. apply (wx_bases [] l m2 b2 eq_refl DL) in B2. rewrite E1, E2 in B1. cbn [In] in B1, B2.
      destruct B1 as [B1|[B1|[B1|[B1|[]]]]], B2 as [B2|[B2|[B2|[B2|[]]]]]; injection B1 as X1 X2 X3; injection B2 as Y1 Y2 Y3; try congruence; rewrite <- X2 in Y2; try discriminate Y2; rewrite <- X3 in Y3; discriminate Y3. }
    apply (one_name l (proj1 DL)); [apply B1|apply B2|exact N].
  - intros m x m1 b1 Lx _ _. apply (wx_logs [] l m x eq_refl DL) in Lx. destruct Lx as [E|[E|[]]]; injection E as <- <-;
    [destruct (wx_base_there l DL (fm_name hx_base1) "b1" ltac:(cbn [In]; tauto)) as [b B]|destruct (wx_base_there l DL (fm_name hx_base5) "b5" ltac:(cbn [In]; tauto)) as [b B]]; eexists; exists b; exact B.
Qed.
Fact wx_replacements : forall time, replacements_in_order wx_objs wx_names jx_number jx_collect hx_local "utc" time.
Proof.
  intros time.
  assert (S : forall a b, ".hoodie/" ++ a = ".hoodie/" ++ b -> a = b) by (intros a b H; cbn [append] in H; congruence).
  assert (K : forall n o, file_in wx_objs wx_names [".hoodie"] n o -> In (n, o_data o) [("20250107000000000.replacecommit", wx_replace)] \/ (forall ts, n <> ts ++ ".replacecommit") /\ forall ts, n <> ts ++ ".replacecommit.").
  { intros n o [I [_ E]]. change (key_of (wx_names ++ [".hoodie"] ++ [n])) with ("data/t/" ++ (".hoodie/" ++ n)) in E. unfold wx_objs in I. apply in_app_or in I as [I|I].
    - repeat (destruct I as [ <- |I]; [cbn [o_key wx_at o_data] in *; apply wx_strip in E; match type of E with ?x = _ => let y := eval vm_compute in (substring 8 100 x) in apply (S y) in E end; subst n; first [left; left; reflexivity|
        right; split; intros ts E; apply (f_equal (fun s => (ends_with ".replacecommit" s, ends_with ".replacecommit." s))) in E;
        [rewrite (proj2 (ends_with_spec ".replacecommit" (ts ++ ".replacecommit")) (ex_intro _ ts eq_refl)) in E|rewrite (proj2 (ends_with_spec ".replacecommit." (ts ++ ".replacecommit.")) (ex_intro _ ts eq_refl)) in E]; injection E; discriminate]|]). destruct I.
    - apply in_map_iff in I as [[n' d] [ <- I]]. cbn [o_key wx_at fst snd] in E. apply wx_strip in E. exfalso. wx_each I; discriminate E. }
  split.
  - intros ts o F. destruct (K _ _ F) as [[E|[]]|[_ N]]; [|now elim (N ts)]. injection E as E _. apply (f_equal (fun s => ends_with ".replacecommit." s)) in E.
    rewrite (proj2 (ends_with_spec ".replacecommit." (ts ++ ".replacecommit.")) (ex_intro _ ts eq_refl)) in E. discriminate E.
  - intros ts o dt F _ _ _. destruct (K _ _ F) as [[E|[]]|[N _]]; [|now elim (N ts)]. injection E as _ <-. eexists. split; [apply slice_text; vm_compute; reflexivity|].
    eexists. split; [reflexivity|]. intros p v [[= <- <-]|[]]. exists ["r"]. reflexivity.
Qed.
Fact wx_schema : schema_found wx_objs wx_names jx_number jx_collect (fun _ => Ok [("ts", tt)]) (t_commits wx_table) [("ts", tt)].
Proof.
  let l := eval vm_compute in (t_commits wx_table) in
  match l with [?a; ?b; ?c; ?d; ?e] => exists [a; b; c; d], e end.
  exists (wx_at ".hoodie/20250107000000000.replacecommit" wx_replace). eexists. exists [], wx_h, (wx_at wx_h "h1"). split; [vm_compute; reflexivity|].
  split; [split; [unfold wx_objs; cbn [In app]; do 6 right; left; reflexivity|split; [repeat split; discriminate|reflexivity]]|]. split; [apply slice_text; vm_compute; reflexivity|].
  split; [do 5 eexists; split; [reflexivity|]; split; [reflexivity|]; left; split; [now exists "h_0-0-0_20250101000000000"|reflexivity]|]. split; [constructor|]. split; [apply wx_files; exists "h1"; split; [cbn [wx_data In]; tauto|reflexivity]|reflexivity].
Qed.
