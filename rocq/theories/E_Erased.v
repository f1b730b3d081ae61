(** A table on an object store with a deletion, for the examples of C92: a commit of the keys a and b, a commit that
    deletes a, and a commit that writes a again, with an ordering value below the deleted one. *)
From Coq Require Import Sorted.
From Verif Require Import Base Str M_Utf8 M_Time M_Instant M_Timeline M_FileGroup M_Builder M_Listing M_Expr M_Log M_Config M_Reader M_Table M_Storage M_Avro M_Values M_Datum M_Json M_Objects M_Open
  S_Time S_Timeline S_FileGroup S_Builder S_Listing S_Expr S_Log S_Reader S_Config S_Table S_Avro S_Storage S_Objects S_Open S_History S_Values S_Datum S_Json S_Whole S_Deletes S_Erased
  L_Base L_Str L_Timeline L_Open L_Json L_Whole E_Scan E_Open E_History E_Values E_Datum E_Json E_Whole.
Local Open Scope string_scope.

Definition gx_a3 : list cell := [VText hx_t3; VText "3"; VText "a"; VInt 0].
Definition gx_1 := "f_0-0-0_20250101000000000.parquet".
Definition gx_2 := "f_0-0-1_20250102000000000.parquet".
Definition gx_3 := "f_0-0-2_20250103000000000.parquet".
Definition gx_data : list (string * string) := [(gx_1, "b1"); (gx_2, "b2"); (gx_3, "b3")].
Definition gx_objs : list object :=
  ([wx_at ".hoodie/hoodie.properties" (lines_of ["hoodie.table.name=t"; "hoodie.table.type=COPY_ON_WRITE"; "hoodie.table.version=6"; "hoodie.timeline.layout.version=1";
      "hoodie.table.precombine.field=ts"; "hoodie.datasource.write.hive_style_partitioning=false"; "hoodie.datasource.write.partitionpath.urlencode=false"]);
    wx_at ".hoodie/20250101000000000.commit" (wx_commit (wx_stat "f" gx_1) "");
    wx_at ".hoodie/20250102000000000.commit" (wx_commit (wx_stat "f" gx_2) "");
    wx_at ".hoodie/20250103000000000.commit" (wx_commit (wx_stat "f" gx_3) "")] ++ map (fun x => wx_at (fst x) (snd x)) gx_data)%list.
Definition gx_rows (d : string) : outcome record_batch :=
  if String.eqb d "b1" then Ok (hx_batch [hx_a1; hx_b1]) else if String.eqb d "b2" then Ok (hx_batch [hx_b1]) else if String.eqb d "b3" then Ok (hx_batch [hx_b1; gx_a3]) else Err EStorage.
Definition gx_build : outcome (table * url * list object) :=
  build (fun m => m) [] bx_parse (fun _ _ => Ok gx_objs) (fun _ => Err EStorage) hx_local isort wx_builder.
Definition gx_table : table := match gx_build with Ok (tb, _, _) => tb | _ => hx_table end.
Fact gx_built : gx_build = Ok (gx_table, sx_base, gx_objs).
Proof. vm_compute. reflexivity. Qed.
Fact gx_proper : proper_objects gx_objs.
Proof. apply proper_by. vm_compute. reflexivity. Qed.
Definition gx_store : store unit :=
  object_store gx_objs sx_base unit (parse_metadata jx_number jx_collect) (fun _ => Ok [("ts", tt)]) gx_rows (fun _ => Ok (1, 1)%Z) (storage_opens bx_parse (fun _ _ => Ok gx_objs)).
Fact gx_legal : forall n, In n (map fst gx_data) -> legal n.
Proof. intros n I. cbn [map fst gx_data In] in I. repeat (destruct I as [ <- |I]; [repeat split; discriminate|]). destruct I. Qed.
Fact gx_files : forall n o, file_in gx_objs wx_names [] n o <-> exists d, In (n, d) gx_data /\ o = wx_at n d.
Proof.
  intros n o. unfold file_in. rewrite wx_key. split.
  - intros [I [[_ [S _]] E]]. unfold gx_objs in I. apply in_app_or in I as [I|I].
    + exfalso. repeat (destruct I as [ <- |I]; [cbn [o_key wx_at] in E; apply wx_strip in E; subst n; discriminate S|]). destruct I.
    + apply in_map_iff in I as [[n' d] [ <- I]]. cbn [fst snd wx_at o_key] in *. apply wx_strip in E. subst n'. exists d. split; [exact I|reflexivity].
  - intros [d [I ->]]. split; [|split; [|reflexivity]].
    + unfold gx_objs. apply in_or_app. right. apply in_map_iff. exists (n, d). split; [reflexivity|exact I].
    + apply gx_legal. change n with (fst (n, d)). now apply in_map.
Qed.
Fact gx_listing : forall dir l m, dir = [] -> directory_listing gx_objs wx_names dir l -> (In m l <-> exists n d, In (n, d) gx_data /\ m = new_meta n (Z.of_nat (String.length d))).
Proof.
  intros dir l m -> [_ D]. rewrite D. split.
  - intros [n [o [F ->]]]. apply gx_files in F as [d [I ->]]. exists n, d. split; [exact I|reflexivity].
  - intros [n [d [I ->]]]. exists n, (wx_at n d). split; [apply gx_files; eauto|reflexivity].
Qed.
Definition gx_group : group :=
  {| g_versions := [(hx_t1, hx_a1); (hx_t1, hx_b1); (hx_t3, gx_a3)]; g_bases := [(hx_t1, [hx_a1; hx_b1]); (hx_t2, [hx_b1]); (hx_t3, [hx_b1; gx_a3])];
     g_blocks := []; g_failed := []; g_rollbacks := [] |}.
Definition gx_dels : deletions := [(hx_t2, "a")].
Fact gx_history : dhistory 2 3 1 hx_t3 gx_group gx_dels.
Proof.
  eapply (dh_write 2 3 1 hx_t2 {| g_versions := g_versions hx_group1; g_bases := [(hx_t1, [hx_a1; hx_b1]); (hx_t2, [hx_b1])]; g_blocks := []; g_failed := []; g_rollbacks := [] |} gx_dels hx_t3);
    [|apply hx_stamp; cbn; tauto|reflexivity|].
  2: { apply (dw_rewrite 2 3 1 {| g_versions := g_versions hx_group1; g_bases := [(hx_t1, [hx_a1; hx_b1]); (hx_t2, [hx_b1])]; g_blocks := []; g_failed := []; g_rollbacks := [] |} gx_dels hx_t3 [] [gx_a3] [hx_b1] [hx_b1; gx_a3]).
    - intros r. split.
      + intros [ <- |[]]. split; [|intros []]. exists hx_t1. split; [right; now left|]. split; [discriminate|]. intros [d [[[= <-]|[]] _]].
      + intros [[y [[E|[E|[]]] [_ N]]] _]; injection E as <- <-; [exfalso; apply N; exists hx_t2; split; [now left|split; [reflexivity|discriminate]]|now left].
    - split; [|split].
      + cbn. repeat constructor; cbn; intuition discriminate.
      + intros r I. exists r. auto.
      + intros r I. split; [exact I|]. destruct I as [ <- |[ <- |[]]]; hx_newer. }
  eapply (dh_write 2 3 1 hx_t1 hx_group1 [] hx_t2); [|apply hx_stamp; cbn; tauto|reflexivity|].
  - eapply dh_write; [apply dh_new|apply hx_stamp; cbn; tauto|reflexivity|].
    apply (dw_rewrite 2 3 1 new_group_history [] hx_t1 [] [hx_a1; hx_b1] [] [hx_a1; hx_b1]); [intros r; split; [intros []|intros [[y [[] _]] _]]|]. split; [|split].
    + cbn. repeat constructor; cbn; intuition discriminate.
    + intros r I. exists r. auto.
    + intros r I. split; [exact I|]. destruct I as [ <- |[ <- |[]]]; hx_newer.
  - apply (dw_rewrite 2 3 1 hx_group1 [] hx_t2 ["a"] [] [hx_b1] [hx_b1]).
    + intros r. split.
      * intros [ <- |[]]. split; [|intros [E|[]]; discriminate E]. exists hx_t1. split; [right; now left|]. split; [discriminate|intros [d [[] _]]].
      * intros [[y [[E|[E|[]]] _]] N]; injection E as <- <-; [exfalso; apply N; now left|now left].
    + split; [|split].
      * cbn. repeat constructor; cbn; intuition discriminate.
      * intros r I. exists r. auto.
      * intros r I. split; [exact I|]. destruct I as [ <- |[]]; hx_newer.
Qed.
Fact gx_no_log : forall n, In n (map fst gx_data) -> base_named "parquet" n /\ ~ marker_name n.
Proof.
  intros n I. cbn [map fst gx_data In] in I. split.
  - apply (ends_with_spec ".parquet"). repeat (destruct I as [ <- |I]; [reflexivity|]). destruct I.
  - repeat (destruct I as [ <- |I]; [intros [[r E]|[r E]]; [discriminate E|apply (f_equal (fun s => ends_with ".crc" s)) in E; rewrite (proj2 (ends_with_spec ".crc" (r ++ ".crc")) (ex_intro _ r eq_refl)) in E; discriminate E]|]). destruct I.
Qed.
Fact gx_base : forall n d b, In (n, d) gx_data -> base_file_of n (Some (new_meta n (Z.of_nat (String.length d)))) = Ok b ->
  bf_file_id b = "f" /\ base_file_name b = n /\ In (n, bf_commit b) [(gx_1, hx_t1); (gx_2, hx_t2); (gx_3, hx_t3)].
Proof.
  intros n d b I P. cbn [gx_data In] in I. repeat (destruct I as [[= <- <-]|I]; [vm_compute in P; injection P as <-; cbn; auto 8|]). destruct I.
Qed.
Fact gx_base_ok : forall n d, In (n, d) gx_data -> exists b, base_file_of n (Some (new_meta n (Z.of_nat (String.length d)))) = Ok b.
Proof. intros n d I. cbn [gx_data In] in I. repeat (destruct I as [[= <- <-]|I]; [eexists; vm_compute; reflexivity|]). destruct I. Qed.
Fact gx_listed_base : forall l m b, directory_listing gx_objs wx_names [] l -> base_listed "parquet" l m b ->
  bf_file_id b = "f" /\ base_file_name b = fm_name m /\ In (fm_name m, bf_commit b) [(gx_1, hx_t1); (gx_2, hx_t2); (gx_3, hx_t3)].
Proof.
  intros l m b DL [Im [_ [_ BO]]]. apply (gx_listing [] l m eq_refl DL) in Im as [n [d [J ->]]]. exact (gx_base n d b J BO).
Qed.
Fact gx_listed_log : forall l m x, directory_listing gx_objs wx_names [] l -> ~ log_listed "parquet" l m x.
Proof.
  intros l m x DL [Im [_ [N _]]]. apply (gx_listing [] l m eq_refl DL) in Im as [n [d [J ->]]]. apply N. cbn [fm_name new_meta]. apply gx_no_log. change n with (fst (n, d)). now apply in_map.
Qed.
Fact gx_is_base : forall l n c, directory_listing gx_objs wx_names [] l -> In (n, c) [(gx_1, hx_t1); (gx_2, hx_t2); (gx_3, hx_t3)] -> exists m, base_of "parquet" "f" l m c.
Proof.
  intros l n c DL I. assert (J : exists d, In (n, d) gx_data) by (destruct I as [[= <- <-]|[[= <- <-]|[[= <- <-]|[]]]]; eexists; cbn [gx_data In]; eauto).
  destruct J as [d J]. destruct (gx_base_ok n d J) as [b B]. exists (new_meta n (Z.of_nat (String.length d))), b.
  assert (Jn : In n (map fst gx_data)) by (change n with (fst (n, d)); now apply in_map).
  destruct (gx_base n d b J B) as [E1 [_ E3]]. split; [split; [apply (gx_listing [] l _ eq_refl DL); eauto|split; [now apply gx_no_log|split; [now apply gx_no_log|exact B]]]|split; [exact E1|]].
  destruct I as [[= <- <-]|[[= <- <-]|[[= <- <-]|[]]]]; destruct E3 as [X|[X|[X|[]]]]; try discriminate X; now injection X.
Qed.
Fact gx_written_out : forall listed content, directory_listing gx_objs wx_names [] listed -> (forall n o, file_in gx_objs wx_names [] n o -> content (file_path "" n) = Ok (o_data o)) ->
  written_out vx_parse encodes vx_code vx_rank (fun path => let* d := content path in gx_rows d) content "parquet" "" "f" vx_dfs listed (fun _ => []) gx_group.
Proof.
  intros l content DL CO. constructor.
  - split; intros r; [destruct r; discriminate|discriminate].
  - intros m b B _. now apply (gx_listed_base l m b DL) in B as [_ [B _]].
  - intros c. cbn [gx_group g_bases map fst In]. split.
    + intros [ <- |[ <- |[ <- |[]]]]; [apply (gx_is_base l gx_1)|apply (gx_is_base l gx_2)|apply (gx_is_base l gx_3)]; cbn [In]; auto.
    + intros [m [b [B [_ <-]]]]. apply (gx_listed_base l m b DL) in B as [_ [_ B]]. cbn [In] in B. destruct B as [X|[X|[X|[]]]]; injection X as _ <-; auto.
  - intros m c rows [b [B [_ <-]]] I. pose proof B as [Im _]. apply (gx_listed_base l m b DL) in B as [_ [_ B]]. apply (gx_listing [] l m eq_refl DL) in Im as [n [d [J ->]]]. cbn [fm_name new_meta] in *.
    rewrite (CO n (wx_at n d)) by (apply gx_files; eauto). cbn [bind wx_at o_data].
    cbn [gx_data In] in J. destruct J as [[= <- <-]|[[= <- <-]|[[= <- <-]|[]]]]; destruct B as [X|[X|[X|[]]]]; try discriminate X; injection X as X; rewrite <- X in I; destruct I as [I|[I|[I|[]]]]; try discriminate I; injection I as <-; reflexivity.
  - intros x r J. cbn in J. destruct J as [[= <- <-]|[[= <- <-]|[[= <- <-]|[]]]]; repeat constructor; cbn; discriminate.
  - intros m1 l1 m2 l2 L1. now apply (gx_listed_log l) in L1.
  - intros m c [x [Lx _]]. now apply (gx_listed_log l) in Lx.
  - intros c x r. cbn [gx_group g_blocks]. split; [intros [rows [[] _]]|]. intros [m [w [vs [v [[y [Ly _]] _]]]]]. now apply (gx_listed_log l) in Ly.
  - intros c y x. cbn [gx_group g_rollbacks]. split; [intros []|]. intros [m [w [vs [[z [Lz _]] _]]]]. now apply (gx_listed_log l) in Lz.
Qed.
Fact gx_has : forall g c, has_base gx_objs wx_names "parquet" false g c -> g = ("", "f").
Proof.
  intros [pt id] c [dir [n [o [b [[_ [EP ED]] [FI [_ [BN [BO [EI _]]]]]]]]]]. subst dir. cbn [fst snd] in *. apply gx_files in FI as [d [I ->]].
  destruct (gx_base n d b I BO) as [E _]. rewrite E in EI. now rewrite EP, <- EI.
Qed.
Fact gx_erased : forall t, erased_by gx_objs wx_names "parquet" false vx_parse vx_code vx_rank gx_rows vx_dfs 2 3 1 t (fun _ => gx_group) (fun _ => gx_dels).
Proof.
  intros t g c H. apply gx_has in H. subst g. exists hx_t3, (fun _ => []). split; [exact gx_history|]. split; [intros b x rows []|].
  intros dir l content [_ [_ ED]] DL CO. subst dir. exact (gx_written_out l content DL CO).
Qed.
Fact gx_merging : merging_table gx_table (map (as_field vx_code) vx_dfs) 3 1 2.
Proof.
  replace (map (as_field vx_code) vx_dfs) with hx_sch by reflexivity. constructor.
  - split; [vm_compute; constructor|]. vm_compute. intros ? ? ? [].
  - vm_compute. reflexivity.
  - intros v E. vm_compute in E. discriminate E.
  - vm_compute. discriminate.
  - split; [right; split; [intros v E; vm_compute in E; discriminate E|split; [vm_compute; discriminate|vm_compute; discriminate]]|]. split; [|split; hx_column]. exists "ts", TInt. split; [vm_compute; reflexivity|]. split; [hx_column|discriminate].
Qed.
Fact gx_fields : forall fields, get_partition_schema unit gx_store gx_table = Ok fields -> wf_fields fields.
Proof. intros fields E. vm_compute in E. injection E as <-. split; [constructor|intros ? []]. Qed.
Fact gx_in_order : files_in_order gx_objs wx_names "parquet" false (fun _ => Ok (1, 1)%Z).
Proof.
  intros path dir [_ [_ ED]]. subst dir. split; [|eauto]. intros l DL. split; [|split].
  - intros m Im _ BN. apply (gx_listing [] l m eq_refl DL) in Im as [n [d [J ->]]]. cbn [fm_name new_meta] in *. exact (gx_base_ok n d J).
  - intros m1 m2 b1 b2 B1 B2 E1 E2. assert (N : fm_name m1 = fm_name m2).
    { apply (gx_listed_base l m1 b1 DL) in B1 as [_ [_ B1]]. apply (gx_listed_base l m2 b2 DL) in B2 as [_ [_ B2]]. rewrite E2 in B1. cbn [In] in B1, B2.
      destruct B1 as [B1|[B1|[B1|[]]]], B2 as [B2|[B2|[B2|[]]]]; injection B1 as X1 X2; injection B2 as Y1 Y2; try congruence; rewrite <- X2 in Y2; discriminate Y2. }
    apply (one_name l (proj1 DL)); [apply B1|apply B2|exact N].
  - intros m x m1 b1 Lx. now apply (gx_listed_log l m x DL) in Lx.
Qed.
Fact gx_timeline : forall n o, file_in gx_objs wx_names [".hoodie"] n o -> (forall ts, n <> ts ++ ".replacecommit") /\ forall ts, n <> ts ++ ".replacecommit.".
Proof.
  assert (S : forall a b, ".hoodie/" ++ a = ".hoodie/" ++ b -> a = b) by (intros a b H; cbn [append] in H; congruence).
  intros n o [I [_ E]]. change (key_of (wx_names ++ [".hoodie"] ++ [n])) with ("data/t/" ++ (".hoodie/" ++ n)) in E. unfold gx_objs in I. apply in_app_or in I as [I|I].
    - repeat (destruct I as [ <- |I]; [cbn [o_key wx_at o_data] in *; apply wx_strip in E; match type of E with ?x = _ => let y := eval vm_compute in (substring 8 100 x) in apply (S y) in E end; subst n;
        split; intros ts E; apply (f_equal (fun s => (ends_with ".replacecommit" s, ends_with ".replacecommit." s))) in E;
        [rewrite (proj2 (ends_with_spec ".replacecommit" (ts ++ ".replacecommit")) (ex_intro _ ts eq_refl)) in E|rewrite (proj2 (ends_with_spec ".replacecommit." (ts ++ ".replacecommit.")) (ex_intro _ ts eq_refl)) in E]; injection E; discriminate|]). destruct I.
    - exfalso. apply in_map_iff in I as [[n' d] [ <- I]]. cbn [o_key wx_at fst] in E. apply wx_strip in E. cbn [gx_data In] in I. repeat (destruct I as [[= <- <-]|I]; [discriminate E|]). destruct I.
Qed.
Fact gx_replacements : forall time, replacements_in_order gx_objs wx_names jx_number jx_collect hx_local "utc" time.
Proof.
  intros time. split.
  - intros ts o F. now apply (proj2 (gx_timeline _ _ F) ts).
  - intros ts o dt F. exfalso. now apply (proj1 (gx_timeline _ _ F) ts).
Qed.
Fact gx_schema : schema_found gx_objs wx_names jx_number jx_collect (fun _ => Ok [("ts", tt)]) (t_commits gx_table) [("ts", tt)].
Proof.
  let l := eval vm_compute in (t_commits gx_table) in
  match l with [?a; ?b; ?c] => exists [a; b], c end.
  exists (wx_at ".hoodie/20250103000000000.commit" (wx_commit (wx_stat "f" gx_3) "")). eexists. exists [], gx_3, (wx_at gx_3 "b3"). split; [vm_compute; reflexivity|].
  split; [split; [unfold gx_objs; cbn [In app]; do 3 right; left; reflexivity|split; [repeat split; discriminate|reflexivity]]|]. split; [apply slice_text; vm_compute; reflexivity|].
  split; [do 5 eexists; split; [reflexivity|]; split; [reflexivity|]; left; split; [now exists "f_0-0-2_20250103000000000"|reflexivity]|]. split; [constructor|]. split; [apply gx_files; exists "b3"; split; [cbn [gx_data In]; tauto|reflexivity]|reflexivity].
Qed.
Fact gx_apart : forall of : string * string -> Prop, (forall g, of g -> g = ("", "f")) -> keys_apart 2 of (fun _ => gx_group).
Proof. intros of H g g' x x' r r' O O' _ _ _. now rewrite (H g O), (H g' O'). Qed.
