(** A small partitioned table for the examples of C87. *)
From Coq Require Import Sorted.
From Verif Require Import Base Str M_Utf8 M_Time M_Instant M_Timeline M_FileGroup M_Builder M_Listing M_Expr M_Log M_Config M_Reader M_Table M_Storage M_Avro M_Values M_Datum M_Json M_Objects M_Open
  S_Time S_Timeline S_FileGroup S_Builder S_Listing S_Expr S_Log S_Reader S_Config S_Table S_Avro S_Storage S_Objects S_Open S_History S_Values S_Datum S_Json S_Whole S_Filtered
  L_Base L_Str L_Timeline L_Open L_Json L_Scan L_Whole E_Scan E_Open E_History E_Values E_Datum E_Json E_Whole.
Local Open Scope string_scope.

Definition px_d2 : list cell := [VText hx_t1; VText "7"; VText "d"; VInt 2].
Definition px_e : list cell := [VText hx_t1; VText "8"; VText "e"; Null].
Definition px_n := "n_0-0-0_20250101000000000.parquet".
Definition px_none := "ts=__HIVE_DEFAULT_PARTITION__".
Definition px_stats (part id name : string) : string := """" ++ part ++ """:[" ++ wx_stat id (part ++ "/" ++ name) ++ "]".
(** directories, names and contents *)
Definition px_files (more : list (list string * string * string)) : list (list string * string * string) :=
  [([".hoodie"], "hoodie.properties", lines_of ["hoodie.table.name=t"; "hoodie.table.type=COPY_ON_WRITE"; "hoodie.table.version=6"; "hoodie.timeline.layout.version=1";
      "hoodie.table.precombine.field=ts"; "hoodie.table.partition.fields=ts"; "hoodie.datasource.write.hive_style_partitioning=true"; "hoodie.datasource.write.partitionpath.urlencode=false"]);
   ([".hoodie"], "20250101000000000.commit", "{""partitionToWriteStats"":{" ++ px_stats "ts=1" "h" wx_h ++ ", " ++ px_stats "ts=2" "r" wx_r ++ "}}");
   (["ts=1"], wx_h, "h1"); (["ts=2"], wx_r, "r1")] ++ more.
Definition px_at (x : list string * string * string) : object := let '(dir, name, data) := x in {| o_key := key_of (wx_names ++ dir ++ [name]); o_data := data |}.
Definition px_objs (more : list (list string * string * string)) : list object := map px_at (px_files more).
Definition px_more : list (list string * string * string) := [([px_none], px_n, "n1")].
Definition px_rows (d : string) : outcome record_batch :=
  if String.eqb d "h1" then Ok (hx_batch [wx_c1]) else if String.eqb d "r1" then Ok (hx_batch [px_d2]) else if String.eqb d "n1" then Ok (hx_batch [px_e]) else Err EStorage.
Definition px_build (more : list (list string * string * string)) : outcome (table * url * list object) :=
  build (fun m => m) [] bx_parse (fun _ _ => Ok (px_objs more)) (fun _ => Err EStorage) hx_local S_Timeline.isort wx_builder.
Definition px_table (more : list (list string * string * string)) : table := match px_build more with Ok (tb, _, _) => tb | _ => hx_table end.
Definition px_store (more : list (list string * string * string)) : store unit :=
  object_store (px_objs more) sx_base unit (parse_metadata jx_number jx_collect) (fun _ => Ok [("ts", tt)]) px_rows (fun _ => Ok (1, 1)%Z) (fun _ _ => Ok tt).
Definition px_cast (_ : unit) (s : string) : option Z := parse_usize s.
Definition px_cmp (a b : Z) : option comparison := Some (Z.compare a b).
Definition px_reads (more : list (list string * string * string)) (filters : list (string * string * string)) (batches : list (list (list cell))) : Prop := exists c',
  read_snapshot_as_of unit Z px_cast px_cmp avro value vx_parse decode check_schema (to_batch vx_code vx_rank vx_cast) (fun _ => None)
    hx_local (px_store more) (px_table more) hx_t1 filters [] c' (Ok (map hx_batch batches)).
Fact px_built : forall more, more = [] \/ more = px_more -> px_build more = Ok (px_table more, sx_base, px_objs more).
Proof. intros more [ -> | -> ]; vm_compute; reflexivity. Qed.
Fact px_proper : forall more, more = [] \/ more = px_more -> proper_objects (px_objs more).
Proof. intros more [ -> | -> ]; apply proper_by; vm_compute; reflexivity. Qed.
Fact px_plan : forall more fs ex pr, get_replaced_file_groups_as_of hx_local (st_json unit (px_store more)) "utc" (t_commits (px_table more)) hx_t1 = Ok ex ->
  timeline_timezone (t_configs (px_table more)) = Ok "utc" -> get_partition_schema unit (px_store more) (px_table more) = Ok [("ts", tt)] ->
  new_pruner unit Z px_cast fs [("ts", tt)] (hive_flag (px_table more)) (url_flag (px_table more)) = Ok pr ->
  plan unit Z px_cast px_cmp hx_local (px_store more) (px_table more) hx_t1 fs
  = Ok {| q_time := hx_t1; q_pruner_empty := pruner_is_empty unit Z pr; q_include := should_include unit Z px_cast px_cmp pr; q_excluded := ex |}.
Proof. intros more fs ex pr E1 E2 E3 E4. unfold plan. rewrite E2. cbn [bind]. rewrite E1. cbn [bind]. rewrite E3. cbn [bind]. now rewrite E4. Qed.
Ltac px_read t :=
  eexists; eapply ra_ok;
  [eapply ga_ok; [vm_compute; reflexivity|]; eapply sa_view; [eapply px_plan; vm_compute; reflexivity|vm_compute; reflexivity|vm_compute; reflexivity|vm_compute; reflexivity|];
   eapply vq_ok with (order := fun _ l => l);
   [reflexivity
   |eapply ll_finished with (fuel := 5%nat); [reflexivity|vm_compute; reflexivity|]; t; eapply star_step; [apply (ps_finish _ _ (Z.to_nat 10)); cbn; lia|]; apply star_refl
   |vm_compute; reflexivity|vm_compute; reflexivity]
  |eapply rs_read with (iter := fun m => m); [intros m; reflexivity| |];
   [split; [reflexivity|]; repeat (apply Forall2_cons; [exists (@L_Reader.isort _), (fun m => m); split; [apply L_Reader.isort_sorts|split; [intros m; reflexivity|vm_compute; reflexivity]]|]); apply Forall2_nil
   |match goal with |- joined _ (Ok ?l) => exact (jo_ok l) end]].
Fact px_read_all : px_reads [] [] [[wx_c1]; [px_d2]]. Proof. px_read ltac:(do 2 sx_one). Qed.
Fact px_read_two : px_reads [] [("ts", "=", "2")] [[px_d2]]. Proof. px_read ltac:(do 1 sx_one). Qed.
Fact px_read_other : px_reads [] [("ts", "!=", "2")] [[wx_c1]]. Proof. px_read ltac:(do 1 sx_one). Qed.
Fact px_none_two : px_reads px_more [("ts", "=", "2")] [[px_d2]; [px_e]]. Proof. px_read ltac:(do 2 sx_one). Qed.
Fact px_none_other : px_reads px_more [("ts", "!=", "2")] [[wx_c1]; [px_e]]. Proof. px_read ltac:(do 2 sx_one). Qed.

(** ** The files *)
Fact px_in : forall dir n o, Forall legal dir -> file_in (px_objs []) wx_names dir n o -> exists d, In (dir, n, d) (px_files []) /\ o = px_at (dir, n, d).
Proof.
  intros dir n o FD [I [Ln E]]. unfold px_objs in I. apply in_map_iff in I as [[[dir' n'] d] [ <- I]]. cbn [px_at o_key] in E.
  assert (L : Forall legal dir' /\ legal n') by (cbn [px_files app In] in I; repeat (destruct I as [[= <- <- <-]|I]; [split; repeat constructor; discriminate|]); destruct I).
  assert (W : forall l, Forall legal l -> Forall (fun e => e <> "" /\ has_char "/" e = false) l) by (intros l F; eapply Forall_impl; [|exact F]; intros z [X [Y _]]; auto).
  apply L_Scan.join_inj in E; [|apply W; repeat (apply Forall_app; split); [repeat constructor; discriminate|apply L|constructor; [apply L|constructor]]|apply W; repeat (apply Forall_app; split); [repeat constructor; discriminate|exact FD|now constructor]].
  apply app_inv_head in E. apply app_inj_tail in E as [ -> -> ]. eauto.
Qed.
Fact px_there : forall dir n d, In (dir, n, d) (px_files []) -> file_in (px_objs []) wx_names dir n (px_at (dir, n, d)).
Proof.
  intros dir n d I. split; [unfold px_objs; now apply in_map|]. split; [|reflexivity]. cbn [px_files app In] in I. repeat (destruct I as [[= <- <- <-]|I]; [repeat split; discriminate|]). destruct I.
Qed.
(** partition, file id, name, content, record *)
Definition px_groups : list (string * string * string * string * list cell) := [("ts=1", "h", wx_h, "h1", wx_c1); ("ts=2", "r", wx_r, "r1", px_d2)].
Fact px_dir : forall part id n d row, In (part, id, n, d, row) px_groups -> Forall legal [part] /\ In ([part], n, d) (px_files []) /\ px_rows d = Ok (hx_batch [row]) /\ (forall r, part <> r ++ "/") /\ part <> "".
Proof.
  intros part id n d row I. destruct I as [[= <- <- <- <- <-]|[[= <- <- <- <- <-]|[]]];
  (split; [repeat constructor; discriminate|]; split; [cbn [px_files app In]; tauto|]; split; [reflexivity|]; split; [|discriminate]);
  (intros r E; apply (f_equal (fun s => ends_with "/" s)) in E; rewrite (proj2 (ends_with_spec "/" (r ++ "/")) (ex_intro _ r eq_refl)) in E; discriminate E).
Qed.
(** the files of a partition *)
Fact px_partition : forall path dir n o, object_partition (px_objs []) wx_names true path dir -> file_in (px_objs []) wx_names dir n o ->
  exists id d row, In (path, id, n, d, row) px_groups /\ dir = [path] /\ o = px_at (dir, n, d).
Proof.
  intros path dir n o [FD [EP [top [rest [EP' [FT [NH [_ [_ _]]]]]]]]] F. assert (W : forall l, Forall legal l -> Forall (fun e => e <> "" /\ has_char "/" e = false) l) by (intros l X; eapply Forall_impl; [|exact X]; intros z [Y [Z _]]; auto).
  rewrite EP in EP'. apply L_Scan.join_inj in EP'; [|now apply W|now apply W]. apply (px_in dir n o FD) in F as [d [I ->]]. subst dir. cbn [px_files app In] in I.
  destruct I as [I|[I|[I|[I|[]]]]]; injection I as <- <- <- <-; try now elim NH.
  - subst path. exists "h", "h1", wx_c1. split; [now left|auto].
  - subst path. exists "r", "r1", px_d2. split; [right; now left|auto].
Qed.
Fact px_is_partition : forall part id n d row, In (part, id, n, d, row) px_groups -> object_partition (px_objs []) wx_names true part [part].
Proof.
  intros part id n d row I. destruct (px_dir _ _ _ _ _ I) as [FD [J _]]. split; [exact FD|]. split; [reflexivity|]. exists part, []. split; [reflexivity|]. split; [exact FD|].
  split; [|split; [|split]]; try (destruct I as [[= <- <- <- <- <-]|[[= <- <- <- <- <-]|[]]]; discriminate). split; [exists n, (px_at ([part], n, d)); now apply px_there|].
  intros below o FB Io E. destruct (rev below) as [|z m] eqn:R; [apply (f_equal (@rev _)) in R; rewrite rev_involutive in R; subst below; cbn; lia|]. apply (f_equal (@rev _)) in R. rewrite rev_involutive in R. cbn [rev] in R. subst below.
  apply Forall_app in FB as [FB Fz]. inversion Fz as [|? ? Lz _]; subst.
  destruct (px_in ([part] ++ rev m) z o) as [d' [J' _]]; [now apply Forall_app|split; [exact Io|split; [exact Lz|rewrite E, !app_assoc; reflexivity]]|].
  rewrite app_length. cbn [length app] in *. destruct (rev m) as [|q l]; [cbn; lia|]. exfalso. cbn [px_files app In] in J'. destruct J' as [K|[K|[K|[K|[]]]]]; discriminate K.
Qed.
Fact px_listing : forall part id n d row l, In (part, id, n, d, row) px_groups -> directory_listing (px_objs []) wx_names [part] l -> l = [wx_meta n].
Proof.
  intros part id n d row l I [ND DL]. destruct (px_dir _ _ _ _ _ I) as [FD [J _]].
  assert (A : forall m, In m l <-> m = wx_meta n).
  { intros m. rewrite DL. split.
    - intros [n' [o [F ->]]]. destruct (px_partition part [part] n' o (px_is_partition _ _ _ _ _ I) F) as [id' [d' [row' [K [_ ->]]]]]. destruct I as [[= <- <- <- <- <-]|[[= <- <- <- <- <-]|[]]]; destruct K as [K|[K|[]]]; try discriminate K; injection K as <- <- <- <-; reflexivity.
    - intros ->. exists n, (px_at ([part], n, d)). split; [now apply px_there|]. destruct I as [[= <- <- <- <- <-]|[[= <- <- <- <- <-]|[]]]; reflexivity. }
  destruct l as [|a [|b l]].
  - exfalso. now apply (A (wx_meta n)).
  - f_equal. apply A. now left.
  - exfalso. assert (a = wx_meta n) by (apply A; now left). assert (b = wx_meta n) by (apply A; right; now left). subst. inversion ND as [|? ? NI _]; subst. apply NI. now left.
Qed.
Fact px_history : forall row, row = wx_c1 \/ row = px_d2 -> history 2 3 1 hx_t1 (wx_group row).
Proof.
  intros row R. eapply h_write; [apply h_new|apply hx_stamp; cbn; tauto|reflexivity|]. apply (w_commit 2 3 1 new_group_history hx_t1 [row] [row]). split; [|split].
  - repeat constructor. intros [].
  - intros r I. exists r. auto.
  - intros r I. split; [exact I|]. intros r' I' _. destruct I as [ <- |[]], I' as [ <- |[]]. destruct R as [ -> | -> ]; apply hx_not_newer; right; (split; [reflexivity|discriminate]).
Qed.
Fact px_single : forall part id n d row rp bytes, In (part, id, n, d, row) px_groups -> rp (file_path part n) = Ok (hx_batch [row]) ->
  written_out vx_parse encodes vx_code vx_rank rp bytes "parquet" part id vx_dfs [wx_meta n] (fun _ => []) (wx_group row).
Proof.
  intros part id n d row rp bytes I R. destruct (px_dir _ _ _ _ _ I) as [_ [_ [_ [PE _]]]].
  assert (BL : forall m b, base_listed "parquet" [wx_meta n] m b -> m = wx_meta n /\ bf_commit b = hx_t1 /\ base_file_name b = n).
  { intros m b [[ <- |[]] [_ [_ P]]]. split; [reflexivity|]. destruct I as [[= <- <- <- <- <-]|[[= <- <- <- <- <-]|[]]]; vm_compute in P; injection P as <-; split; reflexivity. }
  assert (BO : base_of "parquet" id [wx_meta n] (wx_meta n) hx_t1).
  { destruct I as [[= <- <- <- <- <-]|[[= <- <- <- <- <-]|[]]]; (eexists; split; [split; [now left|split; [|split; [first [now exists "h_0-0-0_20250101000000000"|now exists "r_0-0-0_20250101000000000"]|vm_compute; reflexivity]]]|split; reflexivity]);
    (intros [[r E]|[r E]]; [discriminate E|apply (f_equal (fun s => ends_with ".crc" s)) in E; rewrite (proj2 (ends_with_spec ".crc" (r ++ ".crc")) (ex_intro _ r eq_refl)) in E; discriminate E]). }
  assert (NL : forall m x, ~ log_listed "parquet" [wx_meta n] m x).
  { intros m x [[ <- |[]] [_ [N _]]]. apply N. destruct I as [[= <- <- <- <- <-]|[[= <- <- <- <- <-]|[]]]; [now exists "h_0-0-0_20250101000000000"|now exists "r_0-0-0_20250101000000000"]. }
  constructor.
  - split; [exact PE|]. intros r. destruct I as [[= <- <- <- <- <-]|[[= <- <- <- <- <-]|[]]]; discriminate.
  - intros m b B _. destruct (BL m b B) as [ -> [_ E]]. exact E.
  - intros c. cbn [wx_group g_bases map fst In]. split; [intros [ <- |[]]; eauto|]. intros [m [b [B [_ <-]]]]. left. symmetry. now apply BL in B.
  - intros m c rows [b [B _]] J. destruct (BL m b B) as [ -> _]. cbn [wx_group g_bases In] in J. destruct J as [J|[]]. injection J as _ <-. exact R.
  - intros x r J. cbn in J. destruct J as [[= <- <-]|[]]. destruct I as [[= <- <- <- <- <-]|[[= <- <- <- <- <-]|[]]]; repeat constructor; cbn; discriminate.
  - intros m1 l1 m2 l2 L1. now apply NL in L1.
  - intros m c [x [Lx _]]. now apply NL in Lx.
  - intros c x r. cbn [wx_group g_blocks]. split; [intros [rows [[] _]]|]. intros [m [w [vs [v [[y [Ly _]] _]]]]]. now apply NL in Ly.
  - intros c y x. cbn [wx_group g_rollbacks]. split; [intros []|]. intros [m [w [vs [[z [Lz _]] _]]]]. now apply NL in Lz.
Qed.
Definition px_hist (g : string * string) : group := if String.eqb (snd g) "h" then wx_group wx_c1 else wx_group px_d2.
Fact px_has : forall g c, has_base (px_objs []) wx_names "parquet" true g c -> exists n d row, In (fst g, snd g, n, d, row) px_groups /\ px_hist g = wx_group row.
Proof.
  intros [part id] c [dir [n [o [b [OP [F [_ [_ [B [E _]]]]]]]]]]. cbn [fst snd] in *. destruct (px_partition part dir n o OP F) as [id' [d [row [I [_ ->]]]]].
  assert (id' = id). { rewrite <- E. unfold base_file_of in B. destruct I as [[= <- <- <- <- <-]|[[= <- <- <- <- <-]|[]]]; (match type of B with context [parse_base_name ?n] => let x := eval vm_compute in (parse_base_name n) in change (parse_base_name n) with x in B end); cbn [bind] in B; injection B as <-; reflexivity. }
  subst id'. exists n, d, row. split; [exact I|]. destruct I as [[= <- <- <- <- <-]|[[= <- <- <- <- <-]|[]]]; reflexivity.
Qed.
Fact px_written : written_by (px_objs []) wx_names "parquet" true vx_parse vx_code vx_rank px_rows vx_dfs 2 3 1 hx_t1 px_hist.
Proof.
  intros [part id] c H. destruct (px_has _ _ H) as [n [d [row [I E]]]]. cbn [fst snd] in *. rewrite E. exists hx_t1, (fun _ => []). split; [apply px_history; destruct I as [[= <- <- <- <- <-]|[[= <- <- <- <- <-]|[]]]; auto|].
  split; [intros b x rows []|]. intros dir l content OP DL CO. destruct (px_dir _ _ _ _ _ I) as [FD [J [R _]]].
  assert (dir = [part]). { destruct OP as [F1 [E1 _]]. apply L_Scan.join_inj; [eapply Forall_impl; [|exact F1]; intros z [Y [Z _]]; auto|eapply Forall_impl; [|exact FD]; intros z [Y [Z _]]; auto|]. now rewrite <- E1. }
  subst dir. rewrite (px_listing part id n d row l I DL). apply (px_single part id n d row _ content I). cbv beta. rewrite (CO n (px_at ([part], n, d)) (px_there _ _ _ J)). exact R.
Qed.
Fact px_merging : merging_table (px_table []) (map (as_field vx_code) vx_dfs) 3 1 2.
Proof.
  replace (map (as_field vx_code) vx_dfs) with hx_sch by reflexivity. constructor.
  - split; [vm_compute; constructor|]. vm_compute. intros ? ? ? [].
  - vm_compute. reflexivity.
  - intros v E. vm_compute in E. discriminate E.
  - vm_compute. discriminate.
  - split; [right; split; [intros v E; vm_compute in E; discriminate E|split; [vm_compute; discriminate|vm_compute; discriminate]]|]. split; [|split; hx_column]. exists "ts", TInt. split; [vm_compute; reflexivity|]. split; [hx_column|discriminate].
Qed.
Definition px_values (path : string) : list string := [if String.eqb path "ts=1" then "1" else "2"].
(** the text of the partition column in a row *)
Definition px_shown (r : list cell) : list string := match nth 3 r Null with VInt 1 => ["1"] | VInt 2 => ["2"] | _ => [] end.
