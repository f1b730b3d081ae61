(** Tables with writers that did not complete, for the examples of C89. *)
From Coq Require Import Sorted.
From Verif Require L_Scan.
From Verif Require Import Base Str M_Utf8 M_Time M_Instant M_Timeline M_FileGroup M_Builder M_Listing M_Expr M_Log M_Config M_Reader M_Table M_Storage M_Avro M_Values M_Datum M_Json M_Objects M_Open
  S_Time S_Timeline S_FileGroup S_Builder S_Listing S_Expr S_Log S_Reader S_Config S_Table S_Avro S_Storage S_Objects S_Open S_History S_Values S_Datum S_Json S_Whole S_Changes S_Crash
  L_Base L_Str L_Timeline L_Open L_Whole L_WholeChanges L_Crash E_Scan E_Open E_History E_Values E_Datum E_Json E_Whole E_WholeChanges.
Local Open Scope string_scope.

(** The objects of a table under "data/t/" by their names below it. *)
Definition at_names (objs : list (string * string)) : list object := map (fun x => wx_at (fst x) (snd x)) objs.
Lemma at_file : forall l n o, file_in (at_names l) wx_names [] n o -> exists d, In (n, d) l /\ o = wx_at n d.
Proof. intros l n o [I [_ E]]. rewrite wx_key in E. apply in_map_iff in I as [[n' d] [ <- I]]. cbn [fst snd wx_at o_key] in E. apply wx_strip in E. subst n'. eauto. Qed.
Lemma at_hoodie : forall l n o, file_in (at_names l) wx_names [".hoodie"] n o -> exists d, In (".hoodie/" ++ n, d) l /\ o = wx_at (".hoodie/" ++ n) d.
Proof.
  intros l n o [I [_ E]]. change (key_of (wx_names ++ [".hoodie"] ++ [n])) with ("data/t/" ++ (".hoodie/" ++ n)) in E.
  apply in_map_iff in I as [[n' d] [ <- I]]. cbn [fst snd wx_at o_key] in E. apply wx_strip in E. subst n'. eauto.
Qed.
Definition hoodie_name (n : string) : option string := if starts_with ".hoodie/" n then Some (drop 8 n) else None.
Lemma hoodie_name_is : forall n, hoodie_name (".hoodie/" ++ n) = Some n.
Proof. reflexivity. Qed.
(** the timeline is in order *)
Definition name_in_order (stamps : list string) (n : string) : bool :=
  match split_once "." n with
  | Some (ts, w) => if existsb (String.eqb w) ["commit"; "deltacommit"; "replacecommit"] then existsb (String.eqb ts) stamps else negb (existsb (String.eqb w) ["commit."; "deltacommit."; "replacecommit."])
  | None => true
  end.
Lemma in_order_by : forall stamps l, (forall ts, In ts stamps -> timestamp ts) ->
  forallb (fun x => match hoodie_name (fst x) with Some n => name_in_order stamps n | None => true end) l = true -> timeline_in_order (at_names l) wx_names.
Proof.
  intros stamps l T C ts a o D. rewrite forallb_forall in C.
  assert (X : forall dot, file_in (at_names l) wx_names [".hoodie"] (ts ++ "." ++ action_str a ++ dot) o -> name_in_order stamps (ts ++ "." ++ action_str a ++ dot) = true).
  { intros dot F. apply at_hoodie in F as [d [I _]]. apply C in I. cbn [fst] in I. rewrite hoodie_name_is in I. exact I. }
  unfold name_in_order in X. split.
  - intros F. rewrite name_is in F. specialize (X ""). rewrite app_nil_r_s in X. apply X in F. change (ts ++ "." ++ action_str a) with (ts ++ String "." (action_str a)) in F. rewrite (split_once_app "." ts (action_str a) D) in F.
    assert (existsb (String.eqb (action_str a)) ["commit"; "deltacommit"; "replacecommit"] = true) by (destruct a; reflexivity). rewrite H in F.
    apply existsb_exists in F as [ts' [I E]]. apply String.eqb_eq in E. subst ts'. now apply T.
  - intros F. rewrite name_is, !app_assoc_s in F. apply (X ".") in F. change (ts ++ "." ++ action_str a ++ ".") with (ts ++ String "." (action_str a ++ ".")) in F. rewrite (split_once_app "." ts (action_str a ++ ".") D) in F. destruct a; discriminate F.
Qed.
(** writers that did not complete *)
Lemma at_added : forall path n d dir name o objs, Forall legal path -> legal n -> o = wx_at (key_of (path ++ [n])) d -> Forall legal dir -> file_in objs wx_names dir name o -> dir = path /\ name = n.
Proof.
  intros path n d dir name o objs FP Ln -> FD [_ [Lm E]]. assert (W : Forall legal wx_names) by (repeat constructor; discriminate).
  assert (X : forall l, Forall legal l -> Forall (fun e => e <> "" /\ has_char "/" e = false) l) by (intros l; apply Forall_impl; intros z [A [B _]]; auto).
  assert (E' : key_of (wx_names ++ path ++ [n]) = key_of (wx_names ++ dir ++ [name])). { rewrite <- E. cbn [wx_at o_key]. unfold key_of, wx_names. cbn [app]. destruct (path ++ [n])%list eqn:Q; [now destruct path|]. reflexivity. }
  apply L_Scan.join_inj in E'; [|apply X, Forall_app; split; [exact W|apply Forall_app; split; [exact FP|now constructor]]|apply X, Forall_app; split; [exact W|apply Forall_app; split; [exact FD|now constructor]]].
  apply app_inv_head in E'. apply app_inj_tail in E' as [-> ->]. auto.
Qed.
Lemma unfinished_by : forall l more t, (forall path n d, In (path, n, d) more -> Forall legal path /\ legal n) ->
  (forall path n d b, In (path, n, d) more -> base_file_of n (Some (new_meta n (Z.of_nat (String.length d)))) = Ok b -> slt t (bf_commit b)) ->
  (forall n d, In ([".hoodie"], n, d) more -> pending_name n) ->
  unfinished (at_names l) (at_names (l ++ map (fun x => (key_of (fst (fst x) ++ [snd (fst x)]), snd x)) more)) wx_names false t.
Proof.
  intros l more t Lg B P. assert (IN : forall o, In o (at_names (l ++ map (fun x => (key_of (fst (fst x) ++ [snd (fst x)]), snd x)) more)) -> ~ In o (at_names l) -> exists path n d, In (path, n, d) more /\ o = wx_at (key_of (path ++ [n])) d).
  { intros o I N. unfold at_names in I. rewrite map_app in I. apply in_app_or in I as [I|I]; [now elim N|]. rewrite map_map in I. apply in_map_iff in I as [[[path n] d] [ <- I]]. exists path, n, d. auto. }
  constructor.
  - intros o I. unfold at_names in *. rewrite map_app. apply in_or_app. now left.
  - intros path dir H. exact H.
  - intros dir name o b FD F N BO. destruct (IN o (proj1 F) N) as [path [n [d [I E]]]]. destruct (Lg _ _ _ I) as [Lp Ln]. destruct (at_added path n d dir name o _ Lp Ln E FD F) as [-> ->]. subst o. exact (B _ _ _ b I BO).
  - intros name o F N. destruct (IN o (proj1 F) N) as [path [n [d [I E]]]]. destruct (Lg _ _ _ I) as [Lp Ln].
    assert (FD : Forall legal [".hoodie"]) by (repeat constructor; discriminate). destruct (at_added path n d [".hoodie"] name o _ Lp Ln E FD F) as [ <- ->]. exact (P _ _ I).
Qed.

(** The table of C81 as it was after the compaction, and with the deltacommit after it, which did not complete. *)
Definition kx_timeline : list (string * string) :=
  [(".hoodie/hoodie.properties", lines_of ["hoodie.table.name=t"; "hoodie.table.type=MERGE_ON_READ"; "hoodie.table.version=6"; "hoodie.timeline.layout.version=1";
      "hoodie.table.precombine.field=ts"; "hoodie.datasource.write.hive_style_partitioning=false"; "hoodie.datasource.write.partitionpath.urlencode=false"]);
   (".hoodie/20250101000000000.commit", wx_commit (wx_stat "f" (fm_name hx_base1) ++ "," ++ wx_stat "h" wx_h ++ " , " ++ wx_stat "r" wx_r) "");
   (".hoodie/20250102000000000.deltacommit", wx_commit (wx_delta "f" (fm_name hx_base1) ("""" ++ fm_name hx_log1 ++ """")) "");
   (".hoodie/20250103000000000.deltacommit.inflight", "");
   (".hoodie/20250105000000000.commit", wx_commit (wx_delta "f" (fm_name hx_base5) "") "")].
Definition kx_data : list (string * string) :=
  [(wx_h, "h1"); (fm_name hx_base1, "b1"); (fm_name hx_log1, put_log (map fst (vx_contents (fm_name hx_log1)))); (wx_r, "r1"); (fm_name hx_base5, "b5")].
Definition kx_names : list (string * string) := (kx_timeline ++ kx_data)%list.
Definition kx_more (log : string) : list (list string * string * string) :=
  [([".hoodie"], "20250106000000000.deltacommit.requested", ""); ([".hoodie"], "20250106000000000.deltacommit.inflight", ""); ([], fm_name hx_log5, log)].
Definition kx_whole : string := put_log (map fst (vx_contents (fm_name hx_log5))).
Definition kx_objs : list object := at_names kx_names.
Definition kx_after (log : string) : list object := at_names (kx_names ++ map (fun x => (key_of (fst (fst x) ++ [snd (fst x)]), snd x)) (kx_more log)).
Definition kx_build (objs : list object) : outcome (table * url * list object) :=
  build (fun m => m) [] bx_parse (fun _ _ => Ok objs) (fun _ => Err EStorage) hx_local S_Timeline.isort wx_builder.
Definition kx_table (objs : list object) : table := match kx_build objs with Ok (tb, _, _) => tb | _ => hx_table end.
Definition kx_store (objs : list object) : store unit :=
  object_store objs sx_base unit (parse_metadata jx_number jx_collect) (fun _ => Ok [("ts", tt)]) wx_rows (fun _ => Ok (1, 1)%Z) (fun _ _ => Ok tt).
Fact kx_unfinished : forall log, unfinished kx_objs (kx_after log) wx_names false hx_t5.
Proof.
  intros log. apply unfinished_by.
  - intros path n d [[= <- <- _]|[[= <- <- _]|[[= <- <- _]|[]]]]; (split; [repeat constructor; discriminate|repeat split; discriminate]).
  - intros path n d b [[= _ <- _]|[[= _ <- _]|[[= _ <- _]|[]]]] BO; exfalso; unfold base_file_of in BO;
    (match type of BO with context [parse_base_name ?n] => let x := eval vm_compute in (parse_base_name n) in change (parse_base_name n) with x in BO end; discriminate BO).
  - intros n d [[= <- _]|[[= <- _]|[[=]|[]]]]; [exists "20250106000000000.deltacommit"; now left|exists "20250106000000000.deltacommit"; now right].
Qed.
Fact kx_in_order : timeline_in_order kx_objs wx_names.
Proof. apply in_order_by with (stamps := [hx_t1; hx_t2; hx_t5]); [intros ts I; apply hx_stamp; cbn in *; tauto|vm_compute; reflexivity]. Qed.

(** Its histories. *)
Definition kx_group : group := {| g_versions := g_versions hx_group4; g_bases := g_bases hx_group; g_blocks := g_blocks hx_group4; g_failed := [hx_t3]; g_rollbacks := g_rollbacks hx_group4 |}.
Definition kx_hist (g : string * string) : group := if String.eqb (snd g) "f" then kx_group else wx_hist g.
Fact kx_history : history 2 3 1 hx_t5 kx_group.
Proof.
  eapply h_write; [exact hx_history4|apply hx_stamp; cbn; tauto|reflexivity|apply (w_compact 2 3 1 hx_group4 hx_t5 [hx_a2; hx_b1])]. split; [|split].
  - cbn. repeat constructor; cbn; intuition discriminate.
  - intros r I. cbn in I. destruct I as [ <- |[ <- |[ <- |[]]]]; [exists hx_a2|exists hx_b1|exists hx_a2]; cbn; auto.
  - intros r I. split; [cbn in *; tauto|]. cbn [g_versions hx_group4 map snd]. destruct I as [ <- |[ <- |[]]]; hx_newer.
Qed.
Fact kx_continues : forall g, exists now', continues 2 3 1 hx_t5 (kx_hist g) now' (wx_hist g).
Proof.
  intros g. unfold kx_hist, wx_hist. destruct (String.eqb (snd g) "f"); [|exists hx_t5; apply c_same]. exists hx_t6.
  eapply c_write; [apply c_same|apply hx_stamp; cbn; tauto|reflexivity|apply (w_delta 2 3 1 kx_group hx_t6 hx_t5 [hx_b6])].
  split; [right; now left|]. intros c [ <- |[ <- |[]]]; [discriminate|apply sle_refl].
Qed.
Definition kx_listed : list file_meta := [hx_base1; hx_base5; hx_log1].
Fact kx_sub : forall m, In m kx_listed <-> In m hx_listed /\ m <> hx_log5.
Proof.
  intros m. unfold kx_listed, hx_listed. cbn [In]. split.
  - intros [ <- |[ <- |[ <- |[]]]]; (split; [tauto|discriminate]).
  - intros [[ <- |[ <- |[ <- |[ <- |[]]]]] N]; tauto.
Qed.
Fact kx_written_out : written_out vx_parse encodes vx_code vx_rank (st_parquet _ vx_store) (st_bytes _ vx_store) "parquet" "" "f" vx_dfs kx_listed vx_contents kx_group.
Proof.
  destruct dx_written_out as [Wp Wn Wb Wr Wt Wd Wl Wk Wo].
  assert (BL : forall m b, base_listed "parquet" kx_listed m b <-> base_listed "parquet" hx_listed m b).
  { intros m b. split; intros [I [A [B C]]]; (split; [|auto]); [apply kx_sub in I; tauto|]. apply kx_sub. split; [exact I|]. intros ->. vm_compute in C. discriminate C. }
  assert (BO : forall m c, base_of "parquet" "f" kx_listed m c <-> base_of "parquet" "f" hx_listed m c) by (intros m c; split; intros [b [B H]]; exists b; (split; [now apply BL|exact H])).
  assert (LL : forall m l, log_listed "parquet" kx_listed m l -> log_listed "parquet" hx_listed m l) by (intros m l [I H]; split; [apply kx_sub in I; tauto|exact H]).
  assert (LO : forall m c, log_of "parquet" "f" kx_listed m c <-> m = hx_log1 /\ c = hx_t1).
  { intros m c. split.
    - intros [l [H [E1 E2]]]. assert (X : log_of "parquet" "f" hx_listed m c) by (exists l; auto). apply hx_log_of in X as [X|[ -> _]]; [exact X|]. destruct H as [I _]. apply kx_sub in I as [_ I]. now elim I.
    - intros [ -> -> ]. destruct (hx_log_is hx_log1 hx_t1 (or_introl eq_refl)) as [l [[_ H] E]]. exists l. split; [split; [cbn; tauto|exact H]|exact E]. }
  constructor.
  - exact Wp.
  - intros m b B. apply BL in B. now apply Wn.
  - intros c. cbn [kx_group g_bases]. rewrite Wb. split; intros [m B]; exists m; now apply BO.
  - intros m c rows B. apply BO in B. now apply Wr.
  - intros x r I. apply Wt with x. cbn in I |- *. tauto.
  - intros m1 l1 m2 l2 H1 H2. apply Wd; now apply LL.
  - intros m c H. apply LO in H as [ -> -> ]. apply (Wl hx_log1 hx_t1). apply hx_log_is. now left.
  - intros c x r. cbn [kx_group g_blocks hx_group4]. split.
    + intros [rows [I Ir]]. destruct I as [[= <- <- <-]|[[= <- <- <-]|[]]]; destruct Ir as [ <- |[]].
      * exists hx_log1, vx_block2, [vx_a2], vx_a2. split; [now apply LO|]. rewrite vx_contents1. split; [now left|]. split; [now left|]. split; [now left|reflexivity].
      * exists hx_log1, vx_block3, [vx_a3], vx_a3. split; [now apply LO|]. rewrite vx_contents1. split; [right; now left|]. split; [now left|]. split; [now left|reflexivity].
    + intros [m [w [vs [v [H [I [A [R ->]]]]]]]]. apply LO in H as [ -> -> ]. rewrite vx_contents1 in I. destruct I as [[= <- <-]|[[= <- <-]|[[= <- <-]|[]]]].
      * destruct A as [[= <-]|[A|[]]]; [|discriminate A]. destruct R as [ <- |[]]. exists [hx_a2]. cbn. auto.
      * destruct A as [[= <-]|[A|[]]]; [|discriminate A]. destruct R as [ <- |[]]. exists [hx_a3]. cbn. auto.
      * destruct R.
  - intros c y x. cbn [kx_group g_rollbacks hx_group4]. rewrite (Wo c y x). split; intros [m [w [vs [H X]]]]; exists m, w, vs; (split; [|exact X]).
    + apply LO. apply hx_log_of in H as [H|[ -> -> ]]; [exact H|]. destruct X as [I [A [R1 _]]]. rewrite vx_contents5 in I. destruct I as [[= <- <-]|[]]. discriminate R1.
    + apply LO in H as [ -> -> ]. apply hx_log_is. now left.
Qed.

Fact at_data : forall l n o, file_in (at_names l) wx_names [] n o -> exists d, In (n, d) (filter (fun x => negb (has_char "/" (fst x))) l) /\ o = wx_at n d.
Proof.
  intros l n o F. pose proof F as [_ [[_ [S _]] _]]. apply at_file in F as [d [I ->]]. exists d. split; [|reflexivity]. apply filter_In. split; [exact I|]. cbn [fst]. now rewrite S.
Qed.
Lemma at_there : forall l n d, In (n, d) l -> legal n -> file_in (at_names l) wx_names [] n (wx_at n d).
Proof. intros l n d I Ln. split; [apply in_map_iff; now exists (n, d)|]. split; [exact Ln|]. now rewrite wx_key. Qed.
Fact kx_files : forall n o, file_in kx_objs wx_names [] n o <-> exists d, In (n, d) kx_data /\ o = wx_at n d.
Proof.
  intros n o. split; [apply at_data|]. intros [d [I ->]]. apply at_there; [apply in_or_app; now right|]. cbn [kx_data In] in I.
  repeat (destruct I as [[= <- _]|I]; [repeat split; vm_compute; (reflexivity || discriminate)|]). destruct I.
Qed.
Fact kx_after_files : forall n o, file_in (kx_after kx_whole) wx_names [] n o <-> file_in wx_objs wx_names [] n o.
Proof.
  assert (Q : forall x, In x (kx_data ++ [(fm_name hx_log5, kx_whole)])%list <-> In x wx_data) by (intros x; unfold kx_data, wx_data, kx_whole; cbn [app In]; tauto).
  intros n o. rewrite wx_files. split.
  - intros F. apply at_data in F as [d [I ->]]. exists d. split; [apply Q, I|reflexivity].
  - intros [d [I ->]]. assert (Ln : legal n).
    { cbn [wx_data In] in I. repeat (destruct I as [[= <- _]|I]; [repeat split; vm_compute; (reflexivity || discriminate)|]). destruct I. }
    apply at_there; [|exact Ln]. apply Q in I. unfold kx_names. rewrite <- app_assoc. apply in_or_app. right. apply in_app_or in I as [I|[I|[]]]; apply in_or_app; [now left|]. right. cbn [map kx_more In fst snd]. right. right. left. exact I.
Qed.
Fact kx_listing : forall dir l m, dir = [] -> directory_listing kx_objs wx_names dir l -> (In m l <-> exists n d, In (n, d) kx_data /\ m = new_meta n (Z.of_nat (String.length d))).
Proof.
  intros dir l m -> [_ D]. rewrite D. split.
  - intros [n [o [F ->]]]. apply kx_files in F as [d [I ->]]. exists n, d. split; [exact I|reflexivity].
  - intros [n [d [I ->]]]. exists n, (wx_at n d). split; [apply kx_files; eauto|reflexivity].
Qed.
Fact kx_data_sub : forall n d, In (n, d) kx_data -> In (n, d) wx_data /\ n <> fm_name hx_log5.
Proof.
  intros n d I. cbn [kx_data In] in I. repeat (destruct I as [[= <- <-]|I]; [split; [cbn [wx_data In]; tauto|vm_compute; discriminate]|]). destruct I.
Qed.
Fact kx_has : forall g c, has_base kx_objs wx_names "parquet" false g c -> fst g = "" /\ In (snd g) ["f"; "h"; "r"].
Proof.
  intros g c [dir [n [o [b [[_ [EP ED]] [FI [_ [BN [BO [EI _]]]]]]]]]]. subst dir. split; [exact EP|]. apply kx_files in FI as [d [I ->]]. rewrite <- EI. apply kx_data_sub in I as [I _].
  destruct (wx_base_id n d b I BN BO) as [[_ -> ]|[[_ -> ]|[[_ -> ]|[_ -> ]]]]; cbn; tauto.
Qed.
Fact kx_logs : forall m c, log_of "parquet" "f" kx_listed m c -> m = hx_log1.
Proof.
  intros m c [l [[I H] [E1 E2]]]. assert (X : log_of "parquet" "f" hx_listed m c) by (exists l; split; [split; [apply kx_sub in I; tauto|exact H]|auto]).
  apply hx_log_of in X as [[X _]|[ -> _]]; [exact X|]. apply kx_sub in I as [_ I]. now elim I.
Qed.
Fact kx_all_written : forall id, In id ["f"; "h"; "r"] -> forall dir listed content, object_partition kx_objs wx_names false "" dir -> directory_listing kx_objs wx_names dir listed ->
  (forall n o, file_in kx_objs wx_names dir n o -> content (file_path "" n) = Ok (o_data o)) ->
  written_out vx_parse encodes vx_code vx_rank (fun path => let* d := content path in wx_rows d) content "parquet" "" id vx_dfs listed (wx_blocks id) (kx_hist ("", id)).
Proof.
  intros id I.
  assert (LS : forall dir listed, object_partition kx_objs wx_names false "" dir -> directory_listing kx_objs wx_names dir listed ->
    NoDup (map fm_name listed) /\ (forall n d, In (n, d) kx_data -> exists m, In m listed /\ fm_name m = n)
    /\ (forall m b, base_listed "parquet" listed m b -> In (fm_name m, bf_file_id b) [(fm_name hx_base1, "f"); (fm_name hx_base5, "f"); (wx_h, "h"); (wx_r, "r")])
    /\ (forall m x, log_listed "parquet" listed m x -> In (fm_name m, lf_file_id x) [(fm_name hx_log1, "f")])).
  { intros dir listed [_ [_ ED]] DL. split; [apply DL|]. split; [|split].
    - intros n d J. exists (new_meta n (Z.of_nat (String.length d))). split; [|reflexivity]. apply (kx_listing dir listed _ ED DL). eauto.
    - intros m b [Im [_ [BN BO]]]. apply (kx_listing dir listed m ED DL) in Im as [n [d [J ->]]]. cbn [fm_name new_meta] in *. apply kx_data_sub in J as [J _].
      destruct (wx_base_id n d b J BN BO) as [[ -> -> ]|[[ -> -> ]|[[ -> -> ]|[ -> -> ]]]]; cbn [In]; tauto.
    - intros m x [Im [_ [BN BO]]]. apply (kx_listing dir listed m ED DL) in Im as [n [d [J ->]]]. cbn [fm_name new_meta] in *. apply kx_data_sub in J as [J NJ].
      destruct (wx_log_id n d x J BN BO) as [ -> [ -> | -> ]]; cbn [In]; [tauto|]. now elim NJ. }
  assert (CT : forall content n d, (forall n o, file_in kx_objs wx_names [] n o -> content (file_path "" n) = Ok (o_data o)) -> In (n, d) kx_data -> content n = Ok d).
  { intros content n d C J. change n with (file_path "" n). rewrite (C n (wx_at n d)); [reflexivity|]. apply kx_files. eauto. }
  assert (PE : forall r, "" <> r ++ "/") by (intros [|]; discriminate).
  assert (SG : forall id0 n row d, In (id0, n, row) [("h", wx_h, wx_c1); ("r", wx_r, wx_d1)] -> In (n, d) kx_data -> wx_rows d = Ok (hx_batch [row]) ->
    forall dir listed content, object_partition kx_objs wx_names false "" dir -> directory_listing kx_objs wx_names dir listed ->
    (forall n o, file_in kx_objs wx_names dir n o -> content (file_path "" n) = Ok (o_data o)) ->
    written_out vx_parse encodes vx_code vx_rank (fun path => let* d := content path in wx_rows d) content "parquet" "" id0 vx_dfs listed (fun _ => []) (wx_group row)).
  { intros id0 n row d J1 J2 J3 dir listed content OP DL CO. destruct (LS dir listed OP DL) as [ND [A [B C]]]. destruct OP as [_ [_ ED]]. subst dir.
    assert (CN : (let* x := content n in wx_rows x) = Ok (hx_batch [row])) by (rewrite (CT content n d CO J2); exact J3).
    eapply written_elsewhere with (part := "") (listed := [wx_meta n]); [exact ND|exact PE| | | | | | |apply (wx_single id0 n row (fun path => let* d := content path in wx_rows d) content J1 CN)].
    - intros m b Bm E. exists (wx_meta n). split; [now left|]. apply B in Bm. cbn [wx_meta fm_name new_meta].
      destruct J1 as [[= <- <- <-]|[[= <- <- <-]|[]]]; rewrite E in Bm; destruct Bm as [X|[X|[X|[X|[]]]]]; try discriminate X; now injection X as <-.
    - intros m b [[ <- |[]] _] _. exact (A n d J2).
    - intros m x Lm E. exfalso. apply C in Lm. destruct J1 as [[= <- <- <-]|[[= <- <- <-]|[]]]; rewrite E in Lm; destruct Lm as [X|[]]; discriminate X.
    - intros m x [[ <- |[]] _] _. exact (A n d J2).
    - reflexivity.
    - reflexivity. }
  destruct I as [ <- |[ <- |[ <- |[]]]].
  - intros dir listed content OP DL CO. destruct (LS dir listed OP DL) as [ND [A [B C]]]. destruct OP as [_ [_ ED]]. subst dir.
    cbn [fst snd] in *. change (kx_hist ("", "f")) with kx_group. change (wx_blocks "f") with vx_contents.
    eapply written_elsewhere with (part := "") (listed := kx_listed); [exact ND|exact PE| | | | | | |exact kx_written_out].
    + intros m b Bm E. apply B in Bm. rewrite E in Bm. destruct Bm as [X|[X|[X|[X|[]]]]]; try discriminate X; injection X as <-; [exists hx_base1|exists hx_base5]; (split; [cbn [kx_listed In]; tauto|reflexivity]).
    + intros m b [Im Bm] _. apply kx_sub in Im as [Im _]. assert (Bm' : base_listed "parquet" hx_listed m b) by (split; [exact Im|exact Bm]). apply hx_bases in Bm' as [_ [_ [[ -> _]|[ -> _]]]]; [apply (A _ "b1")|apply (A _ "b5")]; cbn [kx_data In]; tauto.
    + intros m x Lm E. apply C in Lm. rewrite E in Lm. destruct Lm as [X|[]]; injection X as <-. exists hx_log1. split; [cbn [kx_listed In]; tauto|reflexivity].
    + intros m x Lm E. assert (X : m = hx_log1) by (apply kx_logs with (lf_base_commit x); exists x; auto). subst m. eapply A. cbn [kx_data In]. right. right. left. reflexivity.
    + intros m c0 [b [[Im Bm] _]]. apply kx_sub in Im as [Im _]. assert (Bm' : base_listed "parquet" hx_listed m b) by (split; [exact Im|exact Bm]). apply hx_bases in Bm' as [_ [_ [[ -> _]|[ -> _]]]].
      * change (file_path "" (fm_name hx_base1)) with (fm_name hx_base1). rewrite (CT content (fm_name hx_base1) "b1" CO) by (cbn [kx_data In]; tauto). reflexivity.
      * change (file_path "" (fm_name hx_base5)) with (fm_name hx_base5). rewrite (CT content (fm_name hx_base5) "b5" CO) by (cbn [kx_data In]; tauto). reflexivity.
    + intros m c0 Lm. apply kx_logs in Lm. subst m.
      change (file_path "" (fm_name hx_log1)) with (fm_name hx_log1). rewrite (CT content (fm_name hx_log1) (put_log (map fst (vx_contents (fm_name hx_log1)))) CO) by (cbn [kx_data In]; tauto). reflexivity.
  - change (kx_hist ("", "h")) with (wx_group wx_c1). eapply SG; [now left|cbn [kx_data In]; left; reflexivity|reflexivity].
  - change (kx_hist ("", "r")) with (wx_group wx_d1). eapply SG; [right; now left|cbn [kx_data In]; do 3 right; left; reflexivity|reflexivity].
Qed.
Fact kx_written : written_by kx_objs wx_names "parquet" false vx_parse vx_code vx_rank wx_rows vx_dfs 2 3 1 hx_t5 kx_hist.
Proof.
  intros [pt id] c H. apply kx_has in H as [E I]. cbn [fst snd] in *. subst pt.
  assert (Hi : exists now, history 2 3 1 now (kx_hist ("", id))).
  { destruct I as [ <- |[ <- |[ <- |[]]]]; [exists hx_t5; exact kx_history|exists hx_t1; apply wx_history; now left|exists hx_t1; apply wx_history; now right]. }
  destruct Hi as [now Hi]. exists now, (wx_blocks id). split; [exact Hi|]. split; [|exact (kx_all_written id I)].
  intros b x rows Ib If L. unfold kx_hist, wx_hist in *. cbn [fst snd] in *. destruct (String.eqb id "f"); [|destruct (String.eqb id "h"); destruct If]. destruct If as [ <- |[]].
  destruct Ib as [[= <- _]|[[= <- _]|[]]]. exists hx_t4. split; [now left|discriminate].
Qed.
Fact kx_after_has : forall g c, has_base (kx_after kx_whole) wx_names "parquet" false g c -> has_base wx_objs wx_names "parquet" false g c.
Proof. intros g c [dir [n [o [b [OP [F X]]]]]]. exists dir, n, o, b. split; [exact OP|]. split; [|exact X]. destruct OP as [_ [_ ED]]. subst dir. now apply kx_after_files. Qed.
Fact kx_after_written : written_by (kx_after kx_whole) wx_names "parquet" false vx_parse vx_code vx_rank wx_rows vx_dfs 2 3 1 hx_t5 wx_hist.
Proof.
  intros [pt id] c H. apply kx_after_has, wx_has in H as [E I]. cbn [fst snd] in *. subst pt. destruct (wx_histories id I) as [now Hi]. exists now, (wx_blocks id). split; [exact Hi|]. split.
  - intros b x rows Ib If L. unfold wx_hist in *. cbn [fst snd] in *. destruct (String.eqb id "f"); [|destruct (String.eqb id "h"); destruct If]. destruct If as [ <- |[]].
    destruct Ib as [[= <- _]|[[= <- _]|[[= <- _]|[]]]]. exists hx_t4. split; [now left|discriminate].
  - intros dir l content OP DL CO. assert (dir = []) by (destruct OP as [_ [_ ED]]; exact ED). subst dir. apply (wx_written_out id I [] l content); [exact OP| |].
    + destruct DL as [N D]. split; [exact N|]. intros m. rewrite D. split; intros [n [o [F E]]]; exists n, o; (split; [now apply kx_after_files|exact E]).
    + intros n o F. apply CO. now apply kx_after_files.
Qed.
