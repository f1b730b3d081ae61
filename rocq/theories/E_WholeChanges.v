(** The incremental reads of the table of E_Whole, for the examples of C83. *)
From Coq Require Import Sorted.
From Verif Require Import Base Str M_Utf8 M_Time M_Instant M_Timeline M_FileGroup M_Builder M_Listing M_Expr M_Log M_Config M_Reader M_Table M_Storage M_Avro M_Values M_Datum M_Json M_Objects M_Open
  S_Time S_Timeline S_FileGroup S_Builder S_Listing S_Expr S_Log S_Reader S_Config S_Table S_Avro S_Storage S_Objects S_Open S_History S_Incremental S_Values S_Datum S_Json S_Whole S_Changes
  L_Base L_Str L_Timeline L_Open L_Json L_Whole L_WholeChanges E_Scan E_Open E_History E_Changes E_Values E_Datum E_Json E_Whole.
Local Open Scope string_scope.

Definition cx_d2 := wx_commit (wx_delta "f" (fm_name hx_base1) ("""" ++ fm_name hx_log1 ++ """")) "".
Definition cx_d5 := wx_commit (wx_delta "f" (fm_name hx_base5) "") "".
Definition cx_d6 := wx_commit (wx_delta "f" (fm_name hx_base5) ("""" ++ fm_name hx_log5 ++ """")) "".
Definition cx_md7 : list (string * json) :=
  [("partitionToWriteStats", JObj [("", JArr [JObj [("fileId", JStr "h"); ("path", JStr wx_h)]])]); ("partitionToReplaceFileIds", JObj [("", JArr [JStr "r"])])].
Fact cx_timeline : forall n o, file_in wx_objs wx_names [".hoodie"] n o ->
  n = "hoodie.properties" \/ n = "20250101000000000.commit" \/ (n = "20250102000000000.deltacommit" /\ o_data o = cx_d2) \/ n = "20250103000000000.deltacommit.inflight"
  \/ (n = "20250105000000000.commit" /\ o_data o = cx_d5) \/ (n = "20250106000000000.deltacommit" /\ o_data o = cx_d6) \/ (n = "20250107000000000.replacecommit" /\ o_data o = wx_replace).
Proof.
  assert (S : forall a b, ".hoodie/" ++ a = ".hoodie/" ++ b -> a = b) by (intros a b H; cbn [append] in H; congruence).
  intros n o [I [_ E]]. change (key_of (wx_names ++ [".hoodie"] ++ [n])) with ("data/t/" ++ (".hoodie/" ++ n)) in E. unfold wx_objs in I. apply in_app_or in I as [I|I].
  - repeat (destruct I as [ <- |I]; [cbn [o_key wx_at o_data] in *; apply wx_strip in E; match type of E with ?x = _ => let y := eval vm_compute in (substring 8 100 x) in apply (S y) in E end; subst n;
      repeat first [left; reflexivity|left; split; reflexivity|split; reflexivity|reflexivity|right]|]). destruct I.
  - apply in_map_iff in I as [[n' d] [ <- I]]. cbn [o_key wx_at fst snd] in E. apply wx_strip in E. exfalso. wx_each I; discriminate E.
Qed.
Fact cx_name : forall n ts a, n = timeline_name ts a Completed -> has_char "." ts = false -> split_once "." n = Some (ts, action_str a).
Proof. intros n ts a -> D. rewrite name_is. now apply (split_once_app "."). Qed.
Fact cx_in_order : timeline_in_order wx_objs wx_names.
Proof.
  intros ts a o D. split.
  - intros F. remember (timeline_name ts a Completed) as n eqn:E. apply (cx_name n ts a) in E; [|exact D].
    assert (X : forall x w, split_once "." n = Some (x, w) -> timestamp x -> timestamp ts) by (intros x w H T; rewrite H in E; injection E as <- _; exact T).
    apply cx_timeline in F as [ -> |[ -> |[[ -> _]|[ -> |[[ -> _]|[[ -> _]|[ -> _]]]]]]]; try (vm_compute in E; injection E as _ E; destruct a; discriminate E).
    + apply (X hx_t1 "commit"); [reflexivity|apply hx_stamp; cbn; tauto].
    + apply (X hx_t2 "deltacommit"); [reflexivity|apply hx_stamp; cbn; tauto].
    + apply (X hx_t5 "commit"); [reflexivity|apply hx_stamp; cbn; tauto].
    + apply (X hx_t6 "deltacommit"); [reflexivity|apply hx_stamp; cbn; tauto].
    + apply (X wx_t7 "replacecommit"); [reflexivity|apply wx_stamp; cbn; tauto].
  - intros F. apply cx_timeline in F. rewrite name_is, !app_assoc_s in F.
    assert (Y : ends_with "." (ts ++ "." ++ action_str a ++ ".") = true) by (apply (ends_with_spec "."); exists (ts ++ "." ++ action_str a); now rewrite !app_assoc_s).
    destruct F as [F|[F|[[F _]|[F|[[F _]|[[F _]|[F _]]]]]]]; rewrite F in Y; discriminate Y.
Qed.
(** Windows after the first commit, up to the deltacommit before the replacement and up to the last commit. *)
Section Window.
Variable e : string.
Hypothesis E67 : In e [hx_t6; wx_t7].
Notation cx_commit := (commit_object wx_objs wx_names jx_number jx_collect hx_t1 e).
Fact cx_commits : forall ts a m, cx_commit ts a m ->
  (ts = hx_t2 /\ a = DeltaCommit /\ m = hx_md (fm_name hx_base1) [fm_name hx_log1]) \/ (ts = hx_t5 /\ a = Commit /\ m = hx_md (fm_name hx_base5) [])
  \/ (ts = hx_t6 /\ a = DeltaCommit /\ m = hx_md (fm_name hx_base5) [fm_name hx_log5]) \/ (ts = wx_t7 /\ a = ReplaceCommit /\ m = cx_md7).
Proof.
  intros ts a m [o [F [T [L1 [L2 X]]]]]. apply slice_text in X. remember (timeline_name ts a Completed) as n eqn:E. apply (cx_name n ts a) in E; [|now apply timestamp_dot].
  apply cx_timeline in F as [ -> |[ -> |[[ -> D]|[ -> |[[ -> D]|[[ -> D]|[ -> D]]]]]]]; vm_compute in E; injection E as E1 E2; subst ts; destruct a; try discriminate E2; try (vm_compute in L1; discriminate L1); rewrite D in X; vm_compute in X; injection X as <-.
  - left. split; [reflexivity|split; reflexivity].
  - right. left. split; [reflexivity|split; reflexivity].
  - right. right. left. split; [reflexivity|split; reflexivity].
  - right. right. right. split; [reflexivity|split; reflexivity].
Qed.
Tactic Notation "cx_object" integer(k) :=
  eexists; split; [split; [unfold wx_objs; cbn [In app]; do k right; left; reflexivity|split; [repeat split; discriminate|reflexivity]]|];
  split; [first [apply hx_stamp; cbn; tauto|apply wx_stamp; cbn; tauto]|]; split; [reflexivity|]; split; [destruct E67 as [ <- |[ <- |[]]]; discriminate|]; apply slice_text; vm_compute; reflexivity.
Fact cx_2 : cx_commit hx_t2 DeltaCommit (hx_md (fm_name hx_base1) [fm_name hx_log1]). Proof. cx_object 2. Qed.
Fact cx_5 : cx_commit hx_t5 Commit (hx_md (fm_name hx_base5) []). Proof. cx_object 4. Qed.
Fact cx_6 : cx_commit hx_t6 DeltaCommit (hx_md (fm_name hx_base5) [fm_name hx_log5]). Proof. cx_object 5. Qed.
Fact cx_writes7 : forall part stat, writes cx_md7 part stat -> part = "" /\ stat = JObj [("fileId", JStr "h"); ("path", JStr wx_h)].
Proof. intros part stat [obj [stats [E [I1 I2]]]]. injection E as <-. destruct I1 as [[= <- <-]|[]]. destruct I2 as [ <- |[]]. auto. Qed.
Fact cx_files7 : forall id b logs, names_files (JObj [("fileId", JStr "h"); ("path", JStr wx_h)]) id b logs -> id = "h" /\ b = wx_h /\ logs = [].
Proof. intros id b logs H. inversion H as [? ? ? E1 E2 E3|? ? ? E1 E2 E3 E4]; subst; [discriminate E2|]. injection E1 as <-. injection E3 as <-. apply L_Builder.path_file_name_iff in E4. vm_compute in E4. injection E4 as <-. auto. Qed.
Fact cx_base : forall ts a m part id c n, cx_commit ts a m -> names_base m part id c n -> part = "" /\
  ((id = "f" /\ ts = hx_t2 /\ c = hx_t1 /\ n = fm_name hx_base1) \/ (id = "f" /\ (ts = hx_t5 \/ ts = hx_t6) /\ c = hx_t5 /\ n = fm_name hx_base5) \/ (id = "h" /\ ts = wx_t7 /\ c = hx_t1 /\ n = wx_h)).
Proof.
  assert (B1 : exists b, base_file_from_str (fm_name hx_base1) = Ok b /\ bf_commit b = hx_t1 /\ base_file_name b = fm_name hx_base1) by (eexists; split; [vm_compute; reflexivity|split; reflexivity]).
  assert (B5 : exists b, base_file_from_str (fm_name hx_base5) = Ok b /\ bf_commit b = hx_t5 /\ base_file_name b = fm_name hx_base5) by (eexists; split; [vm_compute; reflexivity|split; reflexivity]).
  destruct B1 as [b1 [B1 [B1c B1n]]]. destruct B5 as [b5 [B5 [B5c B5n]]].
  intros ts a m part id c n C N. apply cx_commits in C as [[ -> [_ -> ]]|[[ -> [_ -> ]]|[[ -> [_ -> ]]|[ -> [_ -> ]]]]].
  - apply (hx_md_base _ _ _ _ _ _ _ B1) in N as [ -> [ -> [ -> -> ]]]. split; [reflexivity|]. left. auto.
  - apply (hx_md_base _ _ _ _ _ _ _ B5) in N as [ -> [ -> [ -> -> ]]]. split; [reflexivity|]. right. left. auto 6.
  - apply (hx_md_base _ _ _ _ _ _ _ B5) in N as [ -> [ -> [ -> -> ]]]. split; [reflexivity|]. right. left. auto 6.
  - destruct N as [stat [base [logs [b [W [F [P [Ec En]]]]]]]]. apply cx_writes7 in W as [ -> -> ]. apply cx_files7 in F as [ -> [ -> -> ]]. vm_compute in P. injection P as <-. cbn in Ec. vm_compute in En. subst. split; [reflexivity|]. right. right. auto.
Qed.
Fact cx_log : forall ts a m part id c l, cx_commit ts a m -> names_log_file m part id c l -> part = "" /\ id = "f" /\
  ((c = hx_t1 /\ log_file_name l = fm_name hx_log1) \/ (c = hx_t5 /\ log_file_name l = fm_name hx_log5)).
Proof.
  assert (B1 : exists b, base_file_from_str (fm_name hx_base1) = Ok b /\ bf_commit b = hx_t1 /\ base_file_name b = fm_name hx_base1) by (eexists; split; [vm_compute; reflexivity|split; reflexivity]).
  assert (B5 : exists b, base_file_from_str (fm_name hx_base5) = Ok b /\ bf_commit b = hx_t5 /\ base_file_name b = fm_name hx_base5) by (eexists; split; [vm_compute; reflexivity|split; reflexivity]).
  destruct B1 as [b1 [B1 [B1c B1n]]]. destruct B5 as [b5 [B5 [B5c B5n]]].
  intros ts a m part id c l C N. apply cx_commits in C as [[ -> [_ -> ]]|[[ -> [_ -> ]]|[[ -> [_ -> ]]|[ -> [_ -> ]]]]].
  - apply (hx_md_log _ _ _ _ _ _ _ B1) in N as [ -> [ -> [ -> [name [[ <- |[]] N]]]]]. vm_compute in N. injection N as <-. split; [reflexivity|]. split; [reflexivity|]. left. split; [exact B1c|reflexivity].
  - apply (hx_md_log _ _ _ _ _ _ _ B5) in N as [ -> [ -> [ -> [name [[] N]]]]].
  - apply (hx_md_log _ _ _ _ _ _ _ B5) in N as [ -> [ -> [ -> [name [[ <- |[]] N]]]]]. vm_compute in N. injection N as <-. split; [reflexivity|]. split; [reflexivity|]. right. split; [exact B5c|reflexivity].
  - destruct N as [stat [base [logs [b [name [W [F [_ [_ [I _]]]]]]]]]]. apply cx_writes7 in W as [ -> -> ]. apply cx_files7 in F as [ -> [ -> -> ]]. destruct I.
Qed.

(** The files are there. *)
Ltac cx_no_marker := intros [[r E]|[r E]]; [discriminate E|apply (f_equal (fun s => ends_with ".crc" s)) in E; rewrite (proj2 (ends_with_spec ".crc" (r ++ ".crc")) (ex_intro _ r eq_refl)) in E; discriminate E].
Definition cx_data : list (string * string * string * string) := [(fm_name hx_base1, "b1", "f", hx_t1); (fm_name hx_base5, "b5", "f", hx_t5); (wx_h, "h1", "h", hx_t1); (wx_r, "r1", "r", hx_t1)].
Fact cx_listed : forall n d id c, In (n, d, id, c) cx_data -> In (n, d) wx_data.
Proof. intros n d id c I. cbn [cx_data In] in I. destruct I as [[= <- <- <- <-]|[[= <- <- <- <-]|[[= <- <- <- <-]|[[= <- <- <- <-]|[]]]]]; cbn [wx_data In]; tauto. Qed.
Fact cx_parsed : forall n d id c m, In (n, d, id, c) cx_data -> ~ marker_name n /\ base_named "parquet" n /\ exists b, base_file_of n m = Ok b /\ bf_file_id b = id /\ bf_commit b = c.
Proof.
  intros n d id c m I. cbn [cx_data In] in I. destruct I as [[= <- <- <- <-]|[[= <- <- <- <-]|[[= <- <- <- <-]|[[= <- <- <- <-]|[]]]]];
    (split; [cx_no_marker|]; split; [apply (ends_with_spec ".parquet"); reflexivity|eexists; split; [vm_compute; reflexivity|split; reflexivity]]).
Qed.
Fact cx_has : forall n d id c, In (n, d, id, c) cx_data -> has_base wx_objs wx_names "parquet" false ("", id) c.
Proof.
  intros n d id c I. destruct (cx_parsed n d id c (Some (new_meta n (o_size (wx_at n d)))) I) as [M [B [b [P [Ei Ec]]]]]. exists [], n, (wx_at n d), b. split; [repeat split; constructor|].
  split; [apply wx_files; exists d; split; [eapply cx_listed; exact I|reflexivity]|]. auto.
Qed.
Fact cx_there : forall l n d id c, directory_listing wx_objs wx_names [] l -> In (n, d, id, c) cx_data -> exists m, base_of "parquet" id l m c /\ fm_name m = n.
Proof.
  intros l n d id c DL I. set (m := new_meta n (Z.of_nat (String.length d))). destruct (cx_parsed n d id c (Some m) I) as [M [B [b [P [Ei Ec]]]]].
  exists m. split; [|reflexivity]. exists b. split; [|auto]. split; [apply (wx_listing [] l m eq_refl DL); exists n, d; split; [eapply cx_listed; exact I|reflexivity]|]. auto.
Qed.
Fact cx_log_there : forall l n c, directory_listing wx_objs wx_names [] l -> In (n, c) [(fm_name hx_log1, hx_t1); (fm_name hx_log5, hx_t5)] -> exists m, log_of "parquet" "f" l m c /\ fm_name m = n.
Proof.
  intros l n c DL I.
  assert (J : exists d, In (n, d) wx_data) by (destruct I as [[= <- <-]|[[= <- <-]|[]]]; cbn [wx_data In]; eauto 8). destruct J as [d J].
  exists (new_meta n (Z.of_nat (String.length d))). split; [|reflexivity].
  assert (K : exists x, log_file_of n (Some (new_meta n (Z.of_nat (String.length d)))) = Ok x /\ lf_file_id x = "f" /\ lf_base_commit x = c).
  { unfold log_file_of. destruct I as [[= <- <-]|[[= <- <-]|[]]]; (match goal with |- context [parse_log_name ?n] => let y := eval vm_compute in (parse_log_name n) in change (parse_log_name n) with y end; cbn [bind]; eexists; split; [reflexivity|split; reflexivity]). }
  destruct K as [x [P [Ei Ec]]]. exists x. split; [|auto]. split; [apply (wx_listing [] l _ eq_refl DL); exists n, d; split; [exact J|reflexivity]|].
  cbn [fm_name new_meta]. split; [|split; [|exact P]]; clear J P Ei Ec; (destruct I as [[= <- <-]|[[= <- <-]|[]]]; [..]); try cx_no_marker; (intros H; apply (ends_with_spec ".parquet") in H; discriminate H).
Qed.
Fact cx_log_is : forall l m id c, directory_listing wx_objs wx_names [] l -> log_of "parquet" id l m c -> id = "f" /\ ((fm_name m = fm_name hx_log1 /\ c = hx_t1) \/ (fm_name m = fm_name hx_log5 /\ c = hx_t5)).
Proof.
  intros l m id c DL [x [[Im [_ [BN P]]] [Ei Ec]]]. apply (wx_listing [] l m eq_refl DL) in Im as [n [d [J ->]]]. cbn [fm_name new_meta] in *. unfold log_file_of in P. wx_each J;
  (match type of P with context [parse_log_name ?n] => let x := eval vm_compute in (parse_log_name n) in change (parse_log_name n) with x in P end; cbn [bind] in P; try discriminate P; injection P as <-; cbn [lf_file_id lf_base_commit] in *; subst; auto).
Qed.

(** What the commits record. *)
Fact cx_recorded : forall id l, In id ["f"; "h"; "r"] -> directory_listing wx_objs wx_names [] l ->
  changes_recorded wx_objs wx_names jx_number jx_collect hx_t1 e "parquet" "" id l (wx_blocks id) (wx_hist ("", id)).
Proof.
  intros id l I DL.
  assert (BF : forall ts a m c n, cx_commit ts a m -> names_base m "" id c n -> exists fm, base_of "parquet" id l fm c /\ fm_name fm = n).
  { intros ts a m c n C N. apply (cx_base _ _ _ _ _ _ _ C) in N as [_ N]. destruct N as [[ -> [_ [ -> -> ]]]|[[ -> [_ [ -> -> ]]]|[ -> [_ [ -> -> ]]]]]; eapply cx_there; try exact DL; cbn [cx_data In]; eauto 6. }
  assert (LF : forall ts a m c x, cx_commit ts a m -> names_log_file m "" id c x -> exists fm, log_of "parquet" id l fm c /\ fm_name fm = log_file_name x).
  { intros ts a m c x C N. apply (cx_log _ _ _ _ _ _ _ C) in N as [_ [ -> [[ -> -> ]|[ -> -> ]]]]; eapply cx_log_there; try exact DL; cbn [In]; tauto. }
  assert (N1 : forall fm, fm_name fm = fm_name hx_log1 -> log_recorded wx_objs wx_names jx_number jx_collect hx_t1 e "" "f" fm hx_t1).
  { intros fm E. eexists _, _, _, _. split; [exact cx_2|]. split; [|rewrite E]; [eapply hx_md_log; [vm_compute; reflexivity|]; split; [reflexivity|]; split; [reflexivity|]; split; [reflexivity|]; exists (fm_name hx_log1); split; [now left|vm_compute; reflexivity]|reflexivity]. }
  assert (N5 : forall fm, fm_name fm = fm_name hx_log5 -> log_recorded wx_objs wx_names jx_number jx_collect hx_t1 e "" "f" fm hx_t5).
  { intros fm E. eexists _, _, _, _. split; [exact cx_6|]. split; [|rewrite E]; [eapply hx_md_log; [vm_compute; reflexivity|]; split; [reflexivity|]; split; [reflexivity|]; split; [reflexivity|]; exists (fm_name hx_log5); split; [now left|vm_compute; reflexivity]|reflexivity]. }
  destruct (string_dec id "f") as [ -> |NF].
  - change (wx_hist ("", "f")) with hx_group. change (wx_blocks "f") with vx_contents. constructor; [| | |exact BF|exact LF|].
    + intros c J Ls Le. cbn in J. destruct J as [ <- |[ <- |[]]]; [discriminate Ls|]. eexists _, _, _, _. split; [exact cx_5|]. eapply hx_md_base; [vm_compute; reflexivity|]. repeat split; reflexivity.
    + intros c x rows fm w vs J NF Ls Le Lo Ic A. apply (cx_log_is l fm "f" c DL) in Lo as [_ [[En -> ]|[En -> ]]]; [now apply N1|now apply N5].
    + intros ts a m c n b C N J L. apply (cx_base _ _ _ _ _ _ _ C) in N as [_ N]. cbn in J. destruct N as [[_ [ -> [ -> _]]]|[[_ [T [ -> _]]]|[E _]]]; [| |discriminate E]; destruct J as [ <- |[ <- |[]]]; try apply sle_refl; [|discriminate]. exfalso. now apply L.
    + intros fm c w vs x [ts [a [m [lf [C [N E]]]]]] Ic A F Ls Le. cbn in F. destruct F as [ <- |[]]. apply (cx_log _ _ _ _ _ _ _ C) in N as [_ [_ [[ -> En]|[ -> En]]]]; rewrite E in En.
      * exists fm, (hx_undo hx_t4 hx_t3), [], hx_t4. split; [now apply N1|]. rewrite En. split; [right; right; now left|]. split; [now left|]. split; [split; [reflexivity|]; split; [right; now left|]; exists "0"; split; [right; right; now left|reflexivity]|].
        split; [reflexivity|destruct E67 as [ <- |[ <- |[]]]; discriminate].
      * rewrite En in Ic. change (vx_contents (fm_name hx_log5)) with [(vx_block6, [vx_b6])] in Ic. destruct Ic as [[= <- <-]|[]]. destruct A as [[=]|[[=]|[]]].
  - assert (W : exists row, wx_hist ("", id) = wx_group row /\ wx_blocks id = fun _ => []).
    { destruct I as [ <- |[ <- |[ <- |[]]]]; [now elim NF|exists wx_c1; split; reflexivity|exists wx_d1; split; reflexivity]. }
    destruct W as [row [ -> -> ]]. constructor; [| | |exact BF|exact LF|].
    + intros c J Ls Le. cbn in J. destruct J as [ <- |[]]. discriminate Ls.
    + intros c x rows fm w vs [].
    + intros ts a m c n b C N J L. apply (cx_base _ _ _ _ _ _ _ C) in N as [_ N]. cbn in J. destruct J as [ <- |[]]. destruct N as [[ -> _]|[[ -> _]|[_ [_ [ -> _]]]]]; try now elim NF. apply sle_refl.
    + intros fm c w vs x _ [].
Qed.
Fact cx_written : changes_written wx_objs wx_names jx_number jx_collect hx_t1 e "parquet" false vx_parse vx_code vx_rank wx_rows vx_dfs 2 3 1 0 wx_hist.
Proof.
  split.
  - intros ts a m part id c n C N. apply (cx_base _ _ _ _ _ _ _ C) in N as [ -> N]. destruct N as [[ -> [_ [ -> -> ]]]|[[ -> [_ [ -> -> ]]]|[ -> [_ [ -> -> ]]]]]; eapply cx_has; cbn [cx_data In]; eauto 6.
  - intros [pt id] c H. apply wx_has in H as [E I]. cbn [fst snd] in *. subst pt. destruct (wx_histories id I) as [now Hi]. exists now, (wx_blocks id). split; [exact Hi|]. split; [|split].
    + destruct I as [ <- |[ <- |[ <- |[]]]]; [exact hx_stamped| |]; intros x r J; cbn in J; destruct J as [[= <- <-]|[]]; reflexivity.
    + destruct I as [ <- |[ <- |[ <- |[]]]]; [apply hx_later| |]; intros x a y b J1 J2 L; cbn in J1, J2; destruct J1 as [[= <- <-]|[]]; destruct J2 as [[= <- <-]|[]]; discriminate L.
    + intros dir l content OP DL CO. split; [exact (wx_written_out id I dir l content OP DL CO)|]. destruct OP as [_ [_ ED]]. subst dir. now apply cx_recorded.
Qed.
Fact cx_one : one_stat_each wx_objs wx_names jx_number jx_collect hx_t1 e.
Proof.
  intros ts a m C. apply cx_commits in C as [[_ [_ -> ]]|[[_ [_ -> ]]|[[_ [_ -> ]]|[_ [_ -> ]]]]]; try apply hx_md_unique.
  intros p s1 s2 id W1 W2 _ _. apply cx_writes7 in W1 as [_ -> ]. apply cx_writes7 in W2 as [_ -> ]. reflexivity.
Qed.
Fact cx_fine : forall base logs b, base_file_from_str base = Ok b -> (forall n, In n logs -> exists x, log_file_from_str n = Ok x /\ lf_base_commit x = bf_commit b) -> writes_fine (hx_md base logs).
Proof.
  intros base logs b B Ls. eexists. split; [reflexivity|]. intros p v [[= <- <-]|[]]. eexists. split; [reflexivity|]. intros stat [ <- |[]]. exists "f", base, logs, b. split; [now apply hx_md_files|]. auto.
Qed.
Fact cx_commits_in_order : commits_in_order wx_objs wx_names jx_number jx_collect hx_t1 e.
Proof.
  split.
  - intros ts a o F T L1 L2. pose proof F as F0. remember (timeline_name ts a Completed) as n eqn:E. apply (cx_name n ts a) in E; [|now apply timestamp_dot].
    apply cx_timeline in F as [ -> |[ -> |[[ -> D]|[ -> |[[ -> D]|[[ -> D]|[ -> D]]]]]]]; vm_compute in E; injection E as E1 E2; subst ts; destruct a; try discriminate E2; try (vm_compute in L1; discriminate L1); rewrite D.
    + exists (hx_md (fm_name hx_base1) [fm_name hx_log1]). split; [apply slice_text; vm_compute; reflexivity|]. split; [|discriminate]. eapply cx_fine; [vm_compute; reflexivity|]. intros x [ <- |[]]. eexists. split; [vm_compute; reflexivity|reflexivity].
    + exists (hx_md (fm_name hx_base5) []). split; [apply slice_text; vm_compute; reflexivity|]. split; [|discriminate]. eapply cx_fine; [vm_compute; reflexivity|]. intros x [].
    + exists (hx_md (fm_name hx_base5) [fm_name hx_log5]). split; [apply slice_text; vm_compute; reflexivity|]. split; [|discriminate]. eapply cx_fine; [vm_compute; reflexivity|]. intros x [ <- |[]]. eexists. split; [vm_compute; reflexivity|reflexivity].
    + exists cx_md7. split; [apply slice_text; vm_compute; reflexivity|]. split.
      * eexists. split; [reflexivity|]. intros p v [[= <- <-]|[]]. eexists. split; [reflexivity|]. intros stat [ <- |[]]. exists "h", wx_h, []. eexists. split; [apply nf_path with (path := wx_h); try (vm_compute; reflexivity); apply L_Builder.path_file_name_iff; vm_compute; reflexivity|]. split; [vm_compute; reflexivity|]. intros x [].
      * intros _. eexists. split; [reflexivity|]. intros p v [[= <- <-]|[]]. exists ["r"]. reflexivity.
  - intros ts a m ts' a' m' part id c n n' C C' N N'. apply (cx_base _ _ _ _ _ _ _ C) in N as [_ N]. apply (cx_base _ _ _ _ _ _ _ C') in N' as [_ N'].
    destruct N as [[ -> [_ [ -> -> ]]]|[[ -> [_ [ -> -> ]]]|[ -> [_ [ -> -> ]]]]]; destruct N' as [[E1 [_ [E2 -> ]]]|[[E1 [_ [E2 -> ]]]|[E1 [_ [E2 -> ]]]]]; try reflexivity; try discriminate E1; discriminate E2.
Qed.
End Window.
Fact cx_7 : commit_object wx_objs wx_names jx_number jx_collect hx_t1 wx_t7 wx_t7 ReplaceCommit cx_md7.
Proof.
  eexists; split; [split; [unfold wx_objs; cbn [In app]; do 6 right; left; reflexivity|split; [repeat split; discriminate|reflexivity]]|].
  split; [apply wx_stamp; cbn; tauto|]. split; [reflexivity|]. split; [discriminate|]. apply slice_text. vm_compute. reflexivity.
Qed.
