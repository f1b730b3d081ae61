(** Property C92: deleted records. *)
From Coq Require Import Sorted.
From Verif Require Import Base Str L_Base L_Str M_Time M_Instant M_Timeline M_FileGroup M_Builder M_Listing M_Expr M_Log M_Config M_Reader M_Table
  S_Time S_Timeline S_FileGroup S_Builder S_Listing S_Expr S_Log S_Reader S_Config S_Table S_History S_Incremental S_Deletes S_Follow
  L_Log L_Config L_Reader L_Tree L_Time L_History L_Records L_Deletes E_History E_Changes.
Local Open Scope string_scope.

(** C92: a snapshot read as of [t] returns exactly the records that are not deleted at [t]: the newest of the versions
    of every key that were committed since its last deletion.  The deletions are those of commits that rewrite base files. *)
Theorem C92_snapshot_partial : forall dtype value cast cmp avro_schema avro_value parse_schema datum check_schema to_batch parquet local_to_utc
    (st : store dtype) tb sch p s k, merging_table tb sch p s k ->
  forall root, serves_dirs root (st_dirs _ st) -> wf_tree root -> StronglySorted instant_le (t_commits tb) ->
  forall c c' t filters batches format, view_after dtype value cast cmp local_to_utc st tb c -> base_format (t_configs tb) = Ok format -> timestamp t ->
  read_snapshot_as_of dtype value cast cmp avro_schema avro_value parse_schema datum check_schema to_batch parquet local_to_utc st tb t filters c c' (Ok batches) ->
  exists ss, get_file_slices_as_of dtype value cast cmp local_to_utc st tb t filters c c' (Ok ss)
    /\ Forall2 (fun slice batch => forall now g dels listed contents, dhistory k p s now g dels -> clean_at g t ->
         st_files _ st (fs_partition slice) = Ok listed ->
         laid_out avro_schema avro_value parse_schema datum check_schema to_batch parquet (st_parquet _ st) (st_bytes _ st)
           format (fs_partition slice) (bf_file_id (fs_base slice)) sch listed contents g ->
         rb_fields batch = sch /\ current_alive k p s g dels t (rb_rows batch)) ss batches.
Proof. exact snapshot_alive. Qed.
Print Assumptions C92_snapshot_partial.

(** A key deleted up to [t] and not written since is in no row. *)
Theorem C92_gone : forall k p s g dels t out d key, current_alive k p s g dels t out -> In (d, key) dels -> sle d t ->
  (forall x r, In (x, r) (g_versions g) -> key_at k r = key -> slt x d \/ ~ sle x t) -> forall r, In r out -> key_at k r <> key.
Proof.
  intros k p s g dels t out d key [_ [_ C]] Id Ld N r I E. destruct (C r I) as [[x [J [L A]]] _]. apply A. exists d. rewrite E. split; [exact Id|]. split; [|exact Ld].
  destruct (N x r J E) as [X|X]; [exact X|now elim X].
Qed.
Print Assumptions C92_gone.

(** Deletions in log files are not supported: a delete block makes every read of its slice fail, also a read as of a time
    before the deletion. *)
Theorem C92_delete_block_fails : forall sort iter read_parquet avro_schema avro_value parse_schema datum check_schema to_batch parquet local_to_utc fetch
    m slice tz files path blocks version header b n l rest later base,
  oget "hoodie.read.use.read_optimized.mode" m <> Some "true" -> timeline_timezone m = Ok tz ->
  read_base_file read_parquet m (base_relative_path slice) = Ok base ->
  map (log_relative_path slice) (fs_logs slice) = (map fst files ++ path :: later)%list ->
  (forall f, In f files -> file_ok avro_schema avro_value record_batch parse_schema datum check_schema to_batch parquet local_to_utc fetch (read_range tz m) tz f) ->
  fetch path = Ok (put_log (map fst blocks) ++ block_start version Delete header n l ++ rest) ->
  (forall x, In x blocks -> wf_block avro_schema avro_value record_batch parse_schema datum check_schema to_batch parquet (fst x) (snd x)) ->
  (forall x, In x blocks -> exists b, range_says local_to_utc (read_range tz m) tz (fst x) b) ->
  version <> V0 -> wf_metadata header -> (l < 2 ^ 64)%N ->
  range_says local_to_utc (read_range tz m) tz {| w_version := version; w_header := header; w_content := CCommand; w_footer := [] |} b ->
  read_file_slice sort iter read_parquet avro_schema avro_value parse_schema datum check_schema to_batch parquet local_to_utc fetch m slice = Err ELogBlock.
Proof.
  intros sort iter rp avs av ps dt cs tb pq l2u fetch m slice tz files path blocks v h b n l rest later base RO TZ B P F Ft Wb Rb V W L Rs.
  unfold read_file_slice. cbn zeta. assert (HL : has_log_file slice = true).
  { unfold has_log_file. destruct (fs_logs slice); [|reflexivity]. cbn in P. symmetry in P. apply app_eq_nil in P as [_ P]. discriminate. }
  rewrite HL. cbn [negb]. rewrite (not_read_optimized _ RO). cbn [bind]. rewrite B. cbn [bind]. rewrite (log_range_is _ _ TZ), TZ. cbn [bind]. rewrite P.
  assert (E : forall fs, (forall f, In f fs -> file_ok avs av record_batch ps dt cs tb pq l2u fetch (read_range tz m) tz f) ->
    scan_files avs av record_batch ps dt cs tb pq l2u fetch (read_range tz m) tz (map fst fs ++ path :: later)%list = Err ELogBlock).
  { induction fs as [|f fs IH]; intros Fs; cbn [map app scan_files].
    - rewrite Ft. cbn [bind]. rewrite (unsupported_rejected avs av record_batch ps dt cs tb pq l2u _ _ blocks v Delete h b n l rest); try assumption; [reflexivity|now left].
    - destruct (scan_files_ok avs av record_batch ps dt cs tb pq l2u fetch (read_range tz m) tz [f]) as [keeps [ts [X _]]]; [intros f' [ <- |[]]; apply Fs; now left|].
      cbn [map scan_files] in X. destruct (fetch (fst f)) as [content|e|]; try discriminate. cbn [bind] in X |- *.
      destruct (read_all_blocks avs av record_batch ps dt cs tb pq l2u (read_range tz m) tz content) as [bl|e|]; try discriminate. cbn [bind] in X |- *.
      destruct (mapM _ _) as [tg|e|]; try discriminate. cbn [bind] in X |- *. rewrite IH; [reflexivity|]. intros f' If. apply Fs. now right. }
  unfold scan. rewrite (E files F). reflexivity.
Qed.
Print Assumptions C92_delete_block_fails.

(** Without deletions these are the histories of C52. *)
Theorem C92_conservative : forall k p s now g, history k p s now g -> dhistory k p s now g [] /\ forall t out, current_alive k p s g [] t out <-> current_at k p s g t out.
Proof.
  intros k p s now g H. split.
  - induction H as [|x moved rows T M La|now g x g' H IH T Lt W]; [constructor|now apply dh_moved|]. eapply dh_write; [exact IH|exact T|exact Lt|].
    assert (I := history_inv _ _ _ _ _ H). assert (O : forall r, In r (map snd (g_versions g)) <-> (exists y, alive k g [] x y r) /\ ~ In (key_at k r) []).
    { intros r. rewrite in_map_iff. split.
      - intros [[y r'] [E J]]. cbn in E. subst r'. split; [|intros []]. exists y. split; [exact J|]. split; [|intros [d [[] _]]]. eapply sle_trans; [exact (iv_versions _ _ _ _ _ I _ _ J)|now apply slt_sle].
      - intros [[y [J _]] _]. now exists (y, r). }
    destruct W as [new rows La|b new Nb|rows La|b rows Nb|x0 b rows If Ib].
    + exact (dw_rewrite k p s g [] x [] new _ rows O La).
    + apply dw_log; [now apply w_delta|reflexivity].
    + assert (X := dw_rewrite k p s g [] x [] [] _ rows O). cbn [map] in X. rewrite !app_nil_r in X. exact (X La).
    + apply dw_log; [now apply w_fail|reflexivity].
    + apply dw_log; [now apply (w_rollback k p s g x x0 b rows)|reflexivity].
  - intros t out. unfold current_alive, current_at, alive. split; intros [N [K L]]; (split; [exact N|]); split.
    + intros x r J Le. apply (K x r). split; [exact J|]. split; [exact Le|]. intros [d [[] _]].
    + intros r J. destruct (L r J) as [[x [A [B _]]] M]. split; [eauto|]. intros x' r' J' Le. apply (M x' r'). split; [exact J'|]. split; [exact Le|]. intros [d [[] _]].
    + intros x r [J [Le _]]. now apply (K x r).
    + intros r J. destruct (L r J) as [[x [A B]] M]. split; [exists x; split; [exact A|split; [exact B|intros [d [[] _]]]]|]. intros x' r' [J' [Le _]]. now apply (M x' r').
Qed.
Print Assumptions C92_conservative.

(** Example: a commit of the keys a and b, a commit that deletes a, and a deltacommit that writes a again, with an ordering
    value below the deleted one. *)
Definition dx_a3 := hx_row hx_t3 "3" "a" 0.
Definition dx_base1 := new_meta "f_0-0-0_20250101000000000.parquet" 10.
Definition dx_base2 := new_meta "f_0-0-1_20250102000000000.parquet" 10.
Definition dx_log2 := new_meta ".f_20250102000000000.log.1_0-0-0" 10.
Definition dx_listed : list file_meta := [dx_base1; dx_base2; dx_log2].
Definition dx_decode (s : string) : option (list record_batch) := if String.eqb s "a3" then Some [hx_batch [dx_a3]] else None.
Definition dx_contents (name : string) : list (wblock * list record_batch) := if String.eqb name (fm_name dx_log2) then [(hx_data hx_t3 "a3", [hx_batch [dx_a3]])] else [].
Definition dx_json (path : string) : outcome (list (string * json)) :=
  if String.eqb path ".hoodie/20250101000000000.commit" then Ok (hx_md (fm_name dx_base1) [])
  else if String.eqb path ".hoodie/20250102000000000.commit" then Ok (hx_md (fm_name dx_base2) [])
  else if String.eqb path ".hoodie/20250103000000000.deltacommit" then Ok (hx_md (fm_name dx_base2) [fm_name dx_log2]) else Err EStorage.
Definition dx_store : store unit :=
  {| st_json := dx_json; st_schema := fun _ => Ok [("ts", tt)];
     st_files := fun p => if String.eqb p "" then Ok dx_listed else Err EStorage; st_dirs := tree_dirs (Dir dx_listed []);
     st_meta := fun p => Ok {| fm_name := p; fm_size := 1; fm_byte_size := 1; fm_num_records := 1; fm_populated := true |};
     st_parquet := fun p => if String.eqb p (fm_name dx_base1) then Ok (hx_batch [hx_a1; hx_b1]) else if String.eqb p (fm_name dx_base2) then Ok (hx_batch [hx_b1]) else Err EStorage;
     st_bytes := fun p => if String.eqb p (fm_name dx_log2) then Ok (put_log (map fst (dx_contents (fm_name dx_log2)))) else Err EStorage;
     st_open := fun _ _ => Ok tt |}.
Definition dx_table : table :=
  {| t_configs := t_configs hx_table;
     t_storage := []; t_commits := [{| i_timestamp := hx_t1; i_action := Commit; i_state := Completed; i_epoch := 1735689600000 |}; {| i_timestamp := hx_t2; i_action := Commit; i_state := Completed; i_epoch := 1735776000000 |};
       {| i_timestamp := hx_t3; i_action := DeltaCommit; i_state := Completed; i_epoch := 1735862400000 |}] |}.
Definition dx_group : group :=
  {| g_versions := [(hx_t1, hx_a1); (hx_t1, hx_b1); (hx_t3, dx_a3)]; g_bases := [(hx_t1, [hx_a1; hx_b1]); (hx_t2, [hx_b1])];
     g_blocks := [(hx_t2, hx_t3, [dx_a3])]; g_failed := []; g_rollbacks := [] |}.
Definition dx_dels : deletions := [(hx_t2, "a")].
Definition dx_reads (t : string) (rows : list (list cell)) : Prop := exists c',
  read_snapshot_as_of unit string (fun _ s => Some s) (fun a b => Some (scmp a b)) unit unit (fun _ => None) (fun _ _ => None) (fun _ => Ok tt) (fun _ _ => Err EArrow) dx_decode
    hx_local dx_store dx_table t [] [] c' (Ok [hx_batch rows]).
Fact dx_read1 : dx_reads hx_t1 [hx_a1; hx_b1].
Proof. hx_read. Qed.
Fact dx_read2 : dx_reads hx_t2 [hx_b1].
Proof. hx_read. Qed.
Fact dx_read3 : dx_reads hx_t3 [hx_b1; dx_a3].
Proof. hx_read. Qed.
Fact dx_changes : hx_incremental dx_store dx_table dx_decode hx_t1 (Some hx_t2) [].
Proof. hx_changes. Qed.
Fact dx_history : dhistory 2 3 1 hx_t3 dx_group dx_dels.
Proof.
  eapply (dh_write 2 3 1 hx_t2 {| g_versions := g_versions hx_group1; g_bases := g_bases dx_group; g_blocks := []; g_failed := []; g_rollbacks := [] |} dx_dels hx_t3);
    [|apply hx_stamp; cbn; tauto|reflexivity|].
  2: { apply dw_log; [|reflexivity]. apply (w_delta 2 3 1 {| g_versions := g_versions hx_group1; g_bases := g_bases dx_group; g_blocks := []; g_failed := []; g_rollbacks := [] |} hx_t3 hx_t2 [dx_a3]).
    split; [right; now left|]. intros c [ <- |[ <- |[]]]; [discriminate|apply sle_refl]. }
  eapply (dh_write 2 3 1 hx_t1 hx_group1 [] hx_t2); [|apply hx_stamp; cbn; tauto|reflexivity|].
  - eapply dh_write; [apply dh_new|apply hx_stamp; cbn; tauto|reflexivity|].
    apply (dw_rewrite 2 3 1 new_group_history [] hx_t1 [] [hx_a1; hx_b1] [] [hx_a1; hx_b1]); [intros r; split; [intros []|intros [[y [[] _]] _]]|]. split; [|split].
    + cbn. repeat constructor; cbn; intuition discriminate.
    + intros r I. exists r. auto.
    + intros r I. split; [exact I|]. destruct I as [ <- |[ <- |[]]]; hx_newer.
  - apply (dw_rewrite 2 3 1 hx_group1 [] hx_t2 ["a"] [] [hx_b1] [hx_b1]).
    + intros r. split.
      * intros [ <- |[]]. split; [|intros [E|[]]; discriminate E]. exists hx_t1. split; [right; now left|]. split; [discriminate|intros [d [[] _]]].
      * intros [[y [[E|[E|[]]] _]] N]; injection E as <- <-; [exfalso; apply N; now left|now left].
    + split; [|split].
      * cbn. repeat constructor; cbn; intuition discriminate.
      * intros r I. exists r. auto.
      * intros r I. split; [exact I|]. destruct I as [ <- |[]]; hx_newer.
Qed.
Fact dx_bases : forall m b, base_listed "parquet" dx_listed m b -> bf_file_id b = "f" /\ base_file_name b = fm_name m /\ (m = dx_base1 /\ bf_commit b = hx_t1 \/ m = dx_base2 /\ bf_commit b = hx_t2).
Proof.
  intros m b [I [_ [Bn P]]]. unfold dx_listed in I. destruct I as [ <- |[ <- |[ <- |[]]]]; vm_compute in P; try discriminate; injection P as <-; split; try reflexivity; split; try reflexivity; auto.
Qed.
Fact dx_base_is : forall m b, In (m, b) [(dx_base1, hx_t1); (dx_base2, hx_t2)] -> base_of "parquet" "f" dx_listed m b.
Proof.
  intros m b [[= <- <-]|[[= <- <-]|[]]]; (eexists; split; [split; [cbn; tauto|split; [|split; [first [now exists "f_0-0-0_20250101000000000"|now exists "f_0-0-1_20250102000000000"]|reflexivity]]]|split; reflexivity]);
    (intros [[r E]|[r E]]; [discriminate E|apply (f_equal (fun s => ends_with ".crc" s)) in E; rewrite (proj2 (ends_with_spec ".crc" (r ++ ".crc")) (ex_intro _ r eq_refl)) in E; discriminate E]).
Qed.
Fact dx_logs : forall m l, log_listed "parquet" dx_listed m l -> lf_file_id l = "f" /\ m = dx_log2 /\ lf_base_commit l = hx_t2.
Proof.
  intros m b [I [_ [Bn P]]]. unfold dx_listed in I. destruct I as [ <- |[ <- |[ <- |[]]]]; vm_compute in P; try discriminate; injection P as <-; split; try reflexivity; auto.
Qed.
Fact dx_log_is : log_of "parquet" "f" dx_listed dx_log2 hx_t2.
Proof.
  eexists; split; [split; [cbn; tauto|split; [|split; [|reflexivity]]]|split; reflexivity];
   try (intros [[r E]|[r E]]; [discriminate E|apply (f_equal (fun s => ends_with ".crc" s)) in E; rewrite (proj2 (ends_with_spec ".crc" (r ++ ".crc")) (ex_intro _ r eq_refl)) in E; discriminate E]);
   (intros [r E]; apply (f_equal (fun s => ends_with ".parquet" s)) in E; change ("." ++ "parquet") with ".parquet" in E; rewrite (proj2 (ends_with_spec ".parquet" (r ++ ".parquet")) (ex_intro _ r eq_refl)) in E; discriminate E).
Qed.
Fact dx_log_of : forall m c, log_of "parquet" "f" dx_listed m c -> m = dx_log2 /\ c = hx_t2.
Proof. intros m c [l [L1 [_ <-]]]. apply dx_logs in L1 as [_ L1]. exact L1. Qed.
Fact dx_data_wf : wf_block unit unit record_batch (fun _ => None) (fun _ _ => None) (fun _ => Ok tt) (fun _ _ => Err EArrow) dx_decode (hx_data hx_t3 "a3") [hx_batch [dx_a3]].
Proof.
  split; cbn [hx_data w_version w_header w_content w_footer put_content].
  - discriminate.
  - split; [repeat constructor; intros []|]. intros k v [E|[]]. injection E as <- <-. split; reflexivity.
  - split; [split; [constructor|intros k v []]|]. intros N. now elim N.
  - exists hx_t3. now left.
  - reflexivity.
  - discriminate.
  - now apply holds_parquet.
Qed.
Definition dx_lays := laid_out unit unit (fun _ => None) (fun _ _ => None) (fun _ => Ok tt) (fun _ _ => Err EArrow) dx_decode (st_parquet _ dx_store) (st_bytes _ dx_store).
Fact dx_laid_out : dx_lays "parquet" "" "f" hx_sch dx_listed dx_contents dx_group.
Proof.
  constructor.
  - split; intros r; [destruct r; discriminate|discriminate].
  - intros m b B _. now apply dx_bases in B as [_ [B _]].
  - intros c. cbn [dx_group g_bases map fst In]. split.
    + intros [ <- |[ <- |[]]]; [exists dx_base1|exists dx_base2]; apply dx_base_is; cbn; auto.
    + intros [m [b [B [_ <-]]]]. apply dx_bases in B as [_ [_ [[_ -> ]|[_ -> ]]]]; auto.
  - intros m c rows [b [B [_ <-]]] I. apply dx_bases in B as [_ [_ [[ -> E]|[ -> E]]]]; rewrite E in I; cbn in I; destruct I as [I|[I|[]]]; try discriminate; injection I as <-; reflexivity.
  - intros x r I. cbn in I. destruct I as [[= <- <-]|[[= <- <-]|[[= <- <-]|[]]]]; repeat constructor; cbn; discriminate.
  - intros m1 l1 m2 l2 L1 L2 _ _ E _ _. apply dx_logs in L1 as [_ [ -> _]]. apply dx_logs in L2 as [_ [ -> _]]. reflexivity.
  - intros m c L. apply dx_log_of in L as [ -> _]. split; [reflexivity|]. intros w bs I.
    change (dx_contents (fm_name dx_log2)) with [(hx_data hx_t3 "a3", [hx_batch [dx_a3]])] in I. destruct I as [[= <- <-]|[]].
    split; [exact dx_data_wf|]. split; [constructor; [hx_rows|constructor]|]. split; [intros v [=]|]. exists hx_t3. split; [now left|apply hx_stamp; cbn; tauto].
  - intros c x r. cbn [dx_group g_blocks]. split.
    + intros [rows [I Ir]]. destruct I as [[= <- <- <-]|[]]; destruct Ir as [ <- |[]].
      exists dx_log2, (hx_data hx_t3 "a3"), [hx_batch [dx_a3]]. split; [exact dx_log_is|]. split; [now left|]. split; now left.
    + intros [m [w [bs [L [I [A R]]]]]]. apply dx_log_of in L as [ -> -> ].
      change (dx_contents (fm_name dx_log2)) with [(hx_data hx_t3 "a3", [hx_batch [dx_a3]])] in I. destruct I as [[= <- <-]|[]]. destruct A as [[= <-]|[]]. destruct R as [ <- |[]]. exists [dx_a3]. cbn. auto.
  - intros c y x. cbn [dx_group g_rollbacks In]. split; [intros []|].
    intros [m [w [bs [L [I [A [R1 [R2 _]]]]]]]]. apply dx_log_of in L as [ -> -> ].
    change (dx_contents (fm_name dx_log2)) with [(hx_data hx_t3 "a3", [hx_batch [dx_a3]])] in I. destruct I as [[= <- <-]|[]]. discriminate R1.
Qed.
Fact dx_merging : merging_table dx_table hx_sch 3 1 2.
Proof. destruct hx_merging as [A B C D E]. now constructor. Qed.
Fact dx_sorted : StronglySorted instant_le (t_commits dx_table).
Proof. repeat constructor; cbn; unfold instant_le; cbn; (left; lia) || lia || reflexivity || discriminate. Qed.
Fact dx_wf : wf_tree (Dir dx_listed []).
Proof. constructor; [constructor|intros ? ? []|intros ? ? []]. Qed.
Example C92_case : merging_table dx_table hx_sch 3 1 2 /\ serves_dirs (Dir dx_listed []) (st_dirs _ dx_store) /\ wf_tree (Dir dx_listed [])
  /\ StronglySorted instant_le (t_commits dx_table) /\ base_format (t_configs dx_table) = Ok "parquet"
  /\ dhistory 2 3 1 hx_t3 dx_group dx_dels /\ dx_lays "parquet" "" "f" hx_sch dx_listed dx_contents dx_group
  /\ (forall t, clean_at dx_group t)
  /\ dx_reads hx_t1 [hx_a1; hx_b1] /\ dx_reads hx_t2 [hx_b1] /\ dx_reads hx_t3 [hx_b1; dx_a3].
Proof.
  split; [exact dx_merging|]. split; [exact (tree_serves _ dx_wf)|]. split; [exact dx_wf|]. split; [exact dx_sorted|]. split; [reflexivity|].
  split; [exact dx_history|]. split; [exact dx_laid_out|]. split; [intros t b x rows _ []|]. split; [exact dx_read1|]. split; [exact dx_read2|exact dx_read3].
Qed.
(** As of January 2 the key a is gone. *)
Example C92_gone_case : forall r, In r [hx_b1] -> key_at 2 r <> "a".
Proof.
  destruct dx_read2 as [c' R]. destruct (C92_snapshot_partial unit string (fun _ s => Some s) (fun a b => Some (scmp a b)) unit unit (fun _ => None) (fun _ _ => None) (fun _ => Ok tt) (fun _ _ => Err EArrow) dx_decode
    hx_local dx_store dx_table hx_sch 3 1 2 dx_merging (Dir dx_listed []) (tree_serves _ dx_wf) dx_wf dx_sorted [] c' hx_t2 [] [hx_batch [hx_b1]] "parquet") as [ss [Q F]]; try assumption.
  - apply va_new.
  - reflexivity.
  - apply hx_stamp. cbn. tauto.
  - inversion F as [|slice batch ss' bs' H F' E1 E2]; subst.
    assert (P : fs_partition slice = "" /\ bf_file_id (fs_base slice) = "f").
    { destruct (as_of_newest unit string (fun _ s => Some s) (fun a b => Some (scmp a b)) hx_local dx_store dx_table (Dir dx_listed []) (tree_serves _ dx_wf) dx_wf dx_sorted
        [] c' hx_t2 [] (slice :: ss') "parquet") with (slice := slice) as [listed [L S]]; [apply va_new|exact Q|reflexivity|now left|].
      destruct (String.eqb_spec (fs_partition slice) "") as [Ep|Np]; [|cbn in L; apply String.eqb_neq in Np; rewrite Np in L; discriminate L].
      rewrite Ep in *. cbn in L. injection L as <-. destruct S as [m0 [b0 [B1 [_ [B3 _]]]]]. split; [reflexivity|]. rewrite B3. now apply dx_bases in B1. }
    destruct P as [P1 P2]. rewrite P1, P2 in H. destruct (H hx_t3 dx_group dx_dels dx_listed dx_contents dx_history) as [_ C]; [intros b x rows _ []|reflexivity|exact dx_laid_out|].
    apply (C92_gone 2 3 1 dx_group dx_dels hx_t2 [hx_b1] hx_t2 "a" C); [now left|apply sle_refl|].
    intros x r [E|[E|[E|[]]]] Ek; injection E as <- <-; [left; reflexivity|discriminate Ek|right; intros L; now apply L].
Qed.

(** C92 is false for following a table by incremental reads: a deletion is in no window, so the record stays in the copy. *)
Theorem C92_follow_refuted : exists before changes after,
  dx_reads hx_t1 before /\ hx_incremental dx_store dx_table dx_decode hx_t1 (Some hx_t2) changes /\ dx_reads hx_t2 after
  /\ In hx_a1 (apply_changes 2 before changes) /\ ~ In hx_a1 after.
Proof.
  exists [hx_a1; hx_b1], [], [hx_b1]. split; [exact dx_read1|]. split; [exact dx_changes|]. split; [exact dx_read2|]. split; [now left|].
  intros [E|[]]. discriminate E.
Qed.
Print Assumptions C92_follow_refuted.

(** C92 is false for deletions in log files, and C55 with them: the slice could be read as of January 3; after a deletion on
    January 4, which appends a delete block, the same read fails. *)
Definition dx_slice : file_slice :=
  {| fs_base := {| bf_file_id := "f"; bf_write_token := "0-0-1"; bf_commit := hx_t2; bf_ext := "parquet"; bf_meta := None |};
     fs_logs := [{| lf_file_id := "f"; lf_base_commit := hx_t2; lf_ext := "log"; lf_version := "1"; lf_write_token := "0-0-0"; lf_meta := None |}]; fs_partition := "" |}.
Definition dx_m : options := ("hoodie.read.file_group.end_timestamp", hx_t3) :: t_configs hx_table.
Definition dx_log_bytes : string := put_log (map fst (dx_contents (fm_name dx_log2))).
Definition dx_delete : string := block_start V1 Delete [(InstantTime, hx_t4)] 50 7 ++ "deletes".
Definition dx_fetch (bytes : string) (p : string) : outcome string := if String.eqb p (fm_name dx_log2) then Ok bytes else Err EStorage.
Definition dx_slice_read (bytes : string) := read_file_slice isort (fun m => m) (st_parquet _ dx_store) unit unit (fun _ => None) (fun _ _ => None) (fun _ => Ok tt) (fun _ _ => Err EArrow) dx_decode hx_local
  (dx_fetch bytes) dx_m dx_slice.
Theorem C55_delete_refuted : dx_slice_read dx_log_bytes = Ok (hx_batch [hx_b1; dx_a3]) /\ dx_slice_read (dx_log_bytes ++ dx_delete) = Err ELogBlock.
Proof.
  split; [vm_compute; reflexivity|].
  apply (C92_delete_block_fails isort (fun m => m) (st_parquet _ dx_store) unit unit (fun _ => None) (fun _ _ => None) (fun _ => Ok tt) (fun _ _ => Err EArrow) dx_decode hx_local
    (dx_fetch (dx_log_bytes ++ dx_delete)) dx_m dx_slice "utc" [] (fm_name dx_log2) (dx_contents (fm_name dx_log2)) V1 [(InstantTime, hx_t4)] false 50 7 "deletes" [] (hx_batch [hx_b1])).
  - discriminate.
  - reflexivity.
  - vm_compute. reflexivity.
  - reflexivity.
  - intros f [].
  - unfold dx_fetch. rewrite String.eqb_refl. reflexivity.
  - intros x [ <- |[]]. exact dx_data_wf.
  - intros x [ <- |[]]. exists true, hx_t3. split; [now left|]. vm_compute. reflexivity.
  - discriminate.
  - split; [repeat constructor; intros []|]. intros k v [E|[]]. injection E as <- <-. split; reflexivity.
  - reflexivity.
  - exists hx_t4. split; [now left|]. vm_compute. reflexivity.
Qed.
Print Assumptions C55_delete_refuted.
Theorem C92_delete_block_refuted : exists bytes delete rows, dx_slice_read bytes = Ok (hx_batch rows) /\ dx_slice_read (bytes ++ delete) = Err ELogBlock.
Proof. exists dx_log_bytes, dx_delete, [hx_b1; dx_a3]. exact C55_delete_refuted. Qed.
Print Assumptions C92_delete_block_refuted.
