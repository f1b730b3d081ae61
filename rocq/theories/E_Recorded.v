(** Writers that make the table of C81 and record their commits, for the examples of C97. *)
From Coq Require Import Sorted.
From Verif Require Import Base Str M_Utf8 M_Time M_Instant M_Timeline M_FileGroup M_Builder M_Listing M_Expr M_Log M_Config M_Reader M_Table M_Storage M_Avro M_Values M_Datum M_Json M_Objects M_Open
  S_Time S_Timeline S_FileGroup S_Builder S_Listing S_Expr S_Log S_Reader S_Config S_Table S_Avro S_Storage S_Objects S_Open S_History S_Incremental S_Values S_Datum S_Json S_Whole S_Changes S_Writer S_Recorded
  L_Base L_Str L_Time L_Timeline L_History L_Open L_Json L_Whole L_Changes L_WholeChanges L_Writer L_Recorded E_Scan E_Open E_History E_Changes E_Values E_Datum E_Json E_Whole E_WholeChanges E_Writer.
Local Open Scope string_scope.

Definition rx_step := record_step wx_names "parquet" 0 vx_parse vx_code vx_rank wx_rows sw_footer vx_dfs 2 3 1 0 jx_number jx_collect.
Definition rx_left := recorded_left wx_names "parquet" 0 vx_parse vx_code vx_rank wx_rows sw_footer vx_dfs 2 3 1 0 jx_number jx_collect.
Definition rx_committed := committed wx_names jx_number jx_collect.
Definition rx_prefix := "data/t/.hoodie/".
Lemma rx_key : forall n, timeline_key wx_names n = rx_prefix ++ n.
Proof. reflexivity. Qed.
Lemma rx_strip : forall a b, rx_prefix ++ a = rx_prefix ++ b -> a = b.
Proof. intros a b E. apply app_inj_l in E. exact E. Qed.

(** The times of the commits. *)
Lemma rx_sub0 : forall a b, substring 0 (String.length a) (a ++ b) = a.
Proof. induction a as [|c a IH]; intros b; [destruct b; reflexivity|]. cbn. now rewrite IH. Qed.
Definition rx_time (o : object) : string := substring 15 17 (o_key o).
Definition rx_is_commit (o : object) : bool := existsb (fun a => String.eqb (o_key o) (rx_prefix ++ timeline_name (rx_time o) a Completed)) [Commit; DeltaCommit; ReplaceCommit].
Lemma rx_times : forall w ts a m, rx_committed w ts a m -> exists o, In o (w_others w) /\ rx_is_commit o = true /\ rx_time o = ts.
Proof.
  intros w ts a m [T [o [I [E _]]]]. exists o. split; [exact I|]. rewrite rx_key in E.
  assert (X : rx_time o = ts).
  { unfold rx_time. rewrite E, name_is. destruct T as [c [V [M ->]]]. pose proof (timestamp_width c M V) as W. change (substring 15 17 (rx_prefix ++ render c ++ "." ++ action_str a)) with (substring 0 17 (render c ++ "." ++ action_str a)). rewrite <- W. apply rx_sub0. }
  split; [|exact X]. apply existsb_exists. exists a. split; [destruct a; cbn; tauto|]. rewrite X, E. apply String.eqb_refl.
Qed.
Lemma rx_before : forall w x ts a m, forallb (fun o => negb (rx_is_commit o) || sltb (rx_time o) x)%bool (w_others w) = true -> rx_committed w ts a m -> slt ts x.
Proof.
  intros w x ts a m F C. destruct (rx_times _ _ _ _ C) as [o [I [B <- ]]]. rewrite forallb_forall in F. specialize (F o I). rewrite B in F. cbn in F. now apply sltb_spec.
Qed.

(** ** The kinds of steps *)
Lemma rx_go : forall w w', rx_left w -> rx_step w w' -> rx_left w'.
Proof. intros w w' L S. exact (rl_step _ _ _ _ _ _ _ _ _ _ _ _ _ _ _ w w' L S). Qed.
Definition rx_groups (w : storage) : Prop := forall g, stamped 0 (w_hist w g).
Lemma rx_write : forall w w' g0 x, sw_step w w' -> w_others w' = w_others w -> rx_groups w' -> w_last w' = set_group (w_last w) g0 x ->
  forallb (fun o => negb (rx_is_commit o) || sltb (rx_time o) x)%bool (w_others w) = true -> rx_step w w'.
Proof.
  intros w w' g0 x S EO ST EL F. apply rs_write; [exact S|exact EO|exact ST|]. intros g ts a m N C. pose proof (rx_before _ _ _ _ _ F C) as L.
  assert (E : w_last w' g = x). { rewrite EL in N |- *. unfold set_group in *. destruct (_ && _)%bool; [reflexivity|now elim N]. }
  rewrite E. split; [intros ->; now apply slt_irrefl in L|auto].
Qed.
Lemma rx_plain : forall n x r o, o_key o = rx_prefix ++ n -> split_once "." n = Some (x, r) -> existsb (String.eqb r) ["commit"; "deltacommit"; "replacecommit"; "commit."; "deltacommit."; "replacecommit."] = false -> ~ commit_like wx_names o.
Proof.
  intros n x r o E S N [ts [a [D [K|K]]]]; rewrite rx_key, E in K; apply rx_strip in K; subst n; rewrite name_is in S; rewrite ?app_assoc_s in S.
  - change (ts ++ "." ++ action_str a) with (ts ++ String "." (action_str a)) in S. rewrite (split_once_app "." ts _ D) in S. injection S as _ <-. destruct a; discriminate N.
  - change (ts ++ "." ++ action_str a ++ ".") with (ts ++ String "." (action_str a ++ ".")) in S. rewrite (split_once_app "." ts _ D) in S. injection S as _ <-. destruct a; discriminate N.
Qed.
Lemma rx_fresh : forall o w, existsb (String.eqb (o_key o)) (map o_key (sw_objects w)) = false -> ~ In (o_key o) (map o_key (objects_of wx_names "parquet" w)).
Proof. intros o w N I. apply Bool.not_true_iff_false in N. apply N. apply existsb_exists. exists (o_key o). split; [exact I|apply String.eqb_refl]. Qed.
Lemma rx_object : forall n x r o w, o_key o = rx_prefix ++ n -> legal n -> split_once "." n = Some (x, r) ->
  existsb (String.eqb r) ["commit"; "deltacommit"; "replacecommit"; "commit."; "deltacommit."; "replacecommit."] = false ->
  existsb (String.eqb (o_key o)) (map o_key (sw_objects w)) = false -> rx_step w (sw_other o w).
Proof.
  intros n x r o w E L S N F. apply rs_object.
  - apply (metadata_other wx_names 0 n []); [exact sw_legal| |rewrite E; reflexivity]. constructor; [repeat split; discriminate|]. constructor; [exact L|constructor].
  - eapply rx_plain; eassumption.
  - now apply rx_fresh.
Qed.
Lemma rx_commit : forall o ts a m w, o_key o = rx_prefix ++ timeline_name ts a Completed -> timestamp ts -> metadata_text jx_number jx_collect m (o_data o) ->
  writes_fine m -> unique_stats m -> (a = ReplaceCommit -> replace_metadata_ok m) -> tells "parquet" w ts m ->
  existsb (String.eqb (o_key o)) (map o_key (sw_objects w)) = false -> rx_step w (sw_other o w).
Proof. intros o ts a m w E T X WF US RO TE F. rewrite <- rx_key in E. exact (rs_commit _ _ _ _ _ _ _ _ _ _ _ _ _ _ _ w o ts a m E T X WF US RO TE (rx_fresh o w F)). Qed.

(** ** The file groups *)
Ltac rx_open H := cbn [sw_12 sw_11 sw_10 sw_9 sw_8 sw_7 sw_6 sw_5 sw_4 sw_3 sw_2 sw_1 sw_other sw_base sw_log sw_append sw_drop w_logs w_hist w_bases empty_storage] in H; unfold set_group in H; cbn [fst snd] in H.
Lemma rx_stamped : forall w, (forall g, In (w_hist w g) [new_group_history; wx_group wx_c1; wx_group wx_d1; hx_group1; sw_group2; sw_group3; hx_group4; sw_group5; hx_group]) -> rx_groups w.
Proof.
  intros w H g x r I. destruct (H g) as [E|[E|[E|[E|[E|[E|[E|[E|[E|[]]]]]]]]]]; rewrite <- E in I; cbn in I; repeat (destruct I as [[= <- <-]|I]; [reflexivity|]); destruct I.
Qed.
Ltac rx_all := apply rx_stamped; intros g; cbn [sw_12 sw_11 sw_10 sw_9 sw_8 sw_7 sw_6 sw_5 sw_4 sw_3 sw_2 sw_1 sw_other sw_base sw_log sw_append sw_drop w_logs w_hist empty_storage]; unfold set_group;
  repeat (destruct (_ && _)%bool; [cbn [In]; tauto|]); cbn [In]; tauto.

(** ** The metadata of the commits *)
Definition rx_stat (id path : string) : json := JObj [("fileId", JStr id); ("path", JStr path)].
Definition rx_md1 : list (string * json) := [("partitionToWriteStats", JObj [("", JArr [rx_stat "f" (fm_name hx_base1); rx_stat "h" wx_h; rx_stat "r" wx_r])])].
Definition rx_first : list (string * string) := [("f", fm_name hx_base1); ("h", wx_h); ("r", wx_r)].
Fact rx_writes1 : forall part stat, writes rx_md1 part stat <-> part = "" /\ exists id n, In (id, n) rx_first /\ stat = rx_stat id n.
Proof.
  intros part stat. split.
  - intros [obj [stats [E [I1 I2]]]]. injection E as <-. destruct I1 as [[= <- <-]|[]]. split; [reflexivity|]. destruct I2 as [ <- |[ <- |[ <- |[]]]]; (eexists; eexists; split; [|reflexivity]; cbn; tauto).
  - intros [ -> [id [n [I ->]]]]. eexists. eexists. split; [reflexivity|]. split; [now left|]. destruct I as [[= <- <-]|[[= <- <-]|[[= <- <-]|[]]]]; cbn; tauto.
Qed.
Fact rx_files1 : forall id n, In (id, n) rx_first -> forall id' b logs, names_files (rx_stat id n) id' b logs <-> id' = id /\ b = n /\ logs = [].
Proof.
  intros id n I id' b logs. assert (P : S_Builder.path_names n b <-> b = n).
  { rewrite <- L_Builder.path_file_name_iff. destruct I as [[= <- <-]|[[= <- <-]|[[= <- <-]|[]]]]; (match goal with |- ?l = _ <-> _ => let y := eval vm_compute in l in change l with y end; split; [intros [= <-]; reflexivity|intros ->; reflexivity]). }
  split.
  - intros H. inversion H as [? ? ? E1 E2 E3|? ? ? E1 E2 E3 E4]; subst; [discriminate E2|]. injection E1 as <-. injection E3 as <-. apply P in E4. auto.
  - intros [ -> [ -> -> ]]. apply nf_path with (path := n); try reflexivity. now apply P.
Qed.
Fact rx_parsed1 : forall id n, In (id, n) rx_first -> exists b, base_file_from_str n = Ok b /\ bf_commit b = hx_t1 /\ base_file_name b = n.
Proof. intros id n I. destruct I as [[= <- <-]|[[= <- <-]|[[= <- <-]|[]]]]; (eexists; split; [vm_compute; reflexivity|split; reflexivity]). Qed.
Fact rx_base1 : forall part id c n, names_base rx_md1 part id c n <-> part = "" /\ In (id, n) rx_first /\ c = hx_t1.
Proof.
  intros part id c n. split.
  - intros [stat [base [logs [b [W [F [P [Ec En]]]]]]]]. apply rx_writes1 in W as [ -> [id' [n' [I ->]]]]. apply (rx_files1 _ _ I) in F as [ -> [ -> -> ]]. destruct (rx_parsed1 _ _ I) as [b' [P' [C' N']]]. rewrite P' in P. injection P as Eb. rewrite <- Eb in Ec, En. rewrite C' in Ec. rewrite N' in En. subst. auto.
  - intros [ -> [I -> ]]. destruct (rx_parsed1 _ _ I) as [b' [P' [C' N']]]. exists (rx_stat id n), n, [], b'. split; [apply rx_writes1; eauto|]. split; [now apply (rx_files1 _ _ I)|]. auto.
Qed.
Fact rx_log1 : forall part id c l, ~ names_log_file rx_md1 part id c l.
Proof. intros part id c l [stat [base [logs [b [name [W [F [_ [_ [J _]]]]]]]]]]. apply rx_writes1 in W as [ -> [id' [n' [I ->]]]]. apply (rx_files1 _ _ I) in F as [ -> [ -> -> ]]. destruct J. Qed.
Fact rx_fine1 : writes_fine rx_md1 /\ unique_stats rx_md1.
Proof.
  split.
  - eexists. split; [reflexivity|]. intros p v [[= <- <-]|[]]. eexists. split; [reflexivity|]. intros stat I.
    assert (W : exists id n, In (id, n) rx_first /\ stat = rx_stat id n) by (destruct I as [ <- |[ <- |[ <- |[]]]]; eexists; eexists; (split; [|reflexivity]); cbn; tauto).
    destruct W as [id [n [J ->]]]. destruct (rx_parsed1 _ _ J) as [b [P _]]. exists id, n, [], b. split; [now apply (rx_files1 _ _ J)|]. split; [exact P|]. intros x [].
  - intros p s1 s2 id W1 W2 I1 I2. apply rx_writes1 in W1 as [_ [id1 [n1 [J1 -> ]]]]. apply rx_writes1 in W2 as [_ [id2 [n2 [J2 -> ]]]]. unfold stat_file_id in *. cbn in I1, I2. injection I1 as ->. injection I2 as ->.
    destruct J1 as [[= <- <-]|[[= <- <-]|[[= <- <-]|[]]]]; destruct J2 as [[= <-]|[[= <-]|[[= <-]|[]]]]; reflexivity.
Qed.
Definition rx_entry (id token x data : string) : base_entry := {| be_dir := []; be_id := id; be_token := token; be_commit := x; be_data := data |}.
Ltac rx_case x s := let E := fresh in destruct (String.eqb_spec x s) as [E|E]; [subst x|].
Ltac rx_cases pt id := rx_case pt ""; [rx_case id "f"; [|rx_case id "r"; [|rx_case id "h"]]|]; cbn [andb] in *.
(** A commit that writes to the file group "f" only. *)
Lemma rx_tells : forall w ts base logs b e g, base_file_from_str base = Ok b -> base_file_name b = base ->
  (forall h, wrote_at (w_hist w h) ts -> h = ("", "f")) -> w_hist w ("", "f") = g ->
  (forall c, In c (map fst (g_bases g)) -> sle c (bf_commit b)) -> In e (w_bases w) -> be_group e = ("", "f") -> be_commit e = bf_commit b -> base_entry_name "parquet" e = base -> sle (bf_commit b) ts ->
  (forall f bl vs, In f (w_logs w) -> In (bl, vs) (le_blocks f) -> at_instant bl ts -> le_group f = ("", "f") /\ le_base f = bf_commit b /\ In (log_entry_name f) logs) ->
  (forall n, In n logs -> exists f l, In f (w_logs w) /\ le_group f = ("", "f") /\ le_base f = bf_commit b /\ log_entry_name f = n /\ log_file_from_str n = Ok l /\ log_file_name l = n) ->
  tells "parquet" w ts (hx_md base logs).
Proof.
  intros w ts base logs b e g P PN WG EG NW Ie GE CE NE Le LG LF. constructor.
  - intros h W. rewrite (WG h W). exists (bf_commit b), (base_file_name b). apply (hx_md_base _ _ _ _ _ _ _ P). auto.
  - intros part id c n N. apply (hx_md_base _ _ _ _ _ _ _ P) in N as [ -> [ -> [ -> -> ]]]. split; [rewrite EG; intros b0 I _; now apply NW|]. exists e. rewrite PN. auto.
  - intros f bl vs I J A _. destruct (LG f bl vs I J A) as [G [B N]]. destruct (LF _ N) as [f' [l [_ [_ [_ [_ [X Y]]]]]]]. exists l. rewrite G, B. split; [|exact Y]. apply (hx_md_log _ _ _ _ _ _ _ P). split; [reflexivity|]. split; [reflexivity|]. split; [reflexivity|]. eauto.
  - intros part id c l N. apply (hx_md_log _ _ _ _ _ _ _ P) in N as [ -> [ -> [ -> [name [I X]]]]]. destruct (LF _ I) as [f [l' [F1 [F2 [F3 [F4 [X' Y]]]]]]]. rewrite X in X'. injection X' as <-. exists f. split; [exact F1|]. split; [exact F2|]. split; [exact F3|congruence].
Qed.

(** ** The steps *)
Fact rx_1 : rx_step empty_storage sw_1.
Proof. apply (rx_object "hoodie.properties" "hoodie" "properties"); [reflexivity|repeat split; discriminate|reflexivity|reflexivity|reflexivity]. Qed.
Fact rx_2 : rx_step sw_1 sw_2.
Proof. apply (rx_write _ _ ("", "h") hx_t1); [exact sw_s2|reflexivity|rx_all|reflexivity|vm_compute; reflexivity]. Qed.
Fact rx_3 : rx_step sw_2 sw_3.
Proof. apply (rx_write _ _ ("", "f") hx_t1); [exact sw_s3|reflexivity|rx_all|reflexivity|vm_compute; reflexivity]. Qed.
Fact rx_4 : rx_step sw_3 sw_4.
Proof. apply (rx_write _ _ ("", "r") hx_t1); [exact sw_s4|reflexivity|rx_all|reflexivity|vm_compute; reflexivity]. Qed.
Ltac rx_hist := cbn [sw_12 sw_11 sw_10 sw_9 sw_8 sw_7 sw_6 sw_5 sw_4 sw_3 sw_2 sw_1 sw_other sw_base sw_log sw_append sw_drop w_logs w_hist w_bases empty_storage] in *; unfold set_group in *; cbn [fst snd] in *.
Fact rx_5a : rx_step sw_4 (sw_other (sw_nth 1) sw_4).
Proof.
  apply (rx_commit _ hx_t1 Commit rx_md1); [reflexivity|apply hx_stamp; cbn; tauto|apply slice_text; vm_compute; reflexivity|apply rx_fine1|apply rx_fine1|discriminate| |vm_compute; reflexivity]. constructor.
  - intros [pt id] W. cbn [fst snd]. assert (I : exists n, pt = "" /\ In (id, n) rx_first).
    { unfold wrote_at in W. rx_hist. rx_cases pt id; [exists (fm_name hx_base1); cbn; tauto|exists wx_r; cbn; tauto|exists wx_h; cbn; tauto| |]; exfalso; destruct W as [[]|[[b [rows []]] _]]. }
    destruct I as [n [ -> I]]. exists hx_t1, n. apply rx_base1. auto.
  - intros part id c n N. apply rx_base1 in N as [ -> [I -> ]]. split.
    + intros b J L. rx_hist. destruct I as [[= <- <-]|[[= <- <-]|[[= <- <-]|[]]]]; cbn in J; destruct J as [ <- |[]]; apply sle_refl.
    + rx_hist. destruct I as [[= <- <-]|[[= <- <-]|[[= <- <-]|[]]]]; [exists (rx_entry "f" "0-0-0" hx_t1 "b1")|exists (rx_entry "h" "0-0-0" hx_t1 "h1")|exists (rx_entry "r" "0-0-0" hx_t1 "r1")];
        (split; [cbn; tauto|split; [reflexivity|split; [reflexivity|split; [reflexivity|apply sle_refl]]]]).
  - intros e bl vs [].
  - intros part id c l N. now apply rx_log1 in N.
Qed.
Fact rx_5 : rx_step (sw_other (sw_nth 1) sw_4) sw_5.
Proof. apply (rx_object "20250102000000000.deltacommit.inflight" hx_t2 "deltacommit.inflight"); [reflexivity|repeat split; discriminate|reflexivity|reflexivity|vm_compute; reflexivity]. Qed.
Fact rx_6 : rx_step sw_5 sw_6.
Proof. apply (rx_write _ _ ("", "f") hx_t2); [exact sw_s6|reflexivity|rx_all|reflexivity|vm_compute; reflexivity]. Qed.
Fact rx_7a : rx_step sw_6 (sw_drop sw_6).
Proof. apply (rs_remove _ _ _ _ _ _ _ _ _ _ _ _ _ _ _ sw_6 [] sw_pending (w_others (sw_other (sw_nth 1) sw_4))). reflexivity. Qed.
Lemma rx_only : forall w x g, w_hist w ("", "f") = g -> (forall h, h <> ("", "f") -> In (w_hist w h) [new_group_history; wx_group wx_c1; wx_group wx_d1]) -> x <> hx_t1 -> forall h, wrote_at (w_hist w h) x -> h = ("", "f").
Proof.
  intros w x g E H N [pt id] W. destruct (String.eqb_spec pt "") as [ -> |Np]; [destruct (String.eqb_spec id "f") as [ -> |Ni]; [reflexivity|]|]; exfalso.
  - destruct (H ("", id) ltac:(congruence)) as [X|[X|[X|[]]]]; rewrite <- X in W; destruct W as [W|[[b [rows []]] _]]; cbn in W; try (destruct W as [W|[]]; now apply N); destruct W.
  - destruct (H (pt, id) ltac:(congruence)) as [X|[X|[X|[]]]]; rewrite <- X in W; destruct W as [W|[[b [rows []]] _]]; cbn in W; try (destruct W as [W|[]]; now apply N); destruct W.
Qed.
Ltac rx_other := let pt := fresh in let id := fresh in let N := fresh in intros [pt id] N; rx_hist; rx_cases pt id; try (now elim N); cbn [In]; tauto.
(** The commits that write to the file group "f". *)
Ltac rx_named base logs e g :=
  let b := eval vm_compute in (base_file_from_str base) in
  match b with Ok ?b0 => eapply (rx_tells _ _ base logs b0 e g); [vm_compute; reflexivity|reflexivity| |reflexivity| |cbn; tauto|reflexivity|reflexivity|reflexivity|discriminate| | ] end.
Fact rx_7 : rx_step (sw_drop sw_6) sw_7.
Proof.
  apply (rx_commit _ hx_t2 DeltaCommit (hx_md (fm_name hx_base1) [fm_name hx_log1])); [reflexivity|apply hx_stamp; cbn; tauto|apply slice_text; vm_compute; reflexivity| |apply hx_md_unique|discriminate| |vm_compute; reflexivity].
  - eapply cx_fine; [vm_compute; reflexivity|]. intros x [ <- |[]]. eexists. split; [vm_compute; reflexivity|reflexivity].
  - rx_named (fm_name hx_base1) [fm_name hx_log1] (rx_entry "f" "0-0-0" hx_t1 "b1") sw_group2.
    + eapply (rx_only _ _ sw_group2); [reflexivity|rx_other|discriminate].
    + intros c [ <- |[]]. apply sle_refl.
    + intros f bl vs [ <- |[]] _ _. repeat split. now left.
    + intros n [ <- |[]]. eexists. eexists. split; [now left|]. repeat split.
Qed.
Fact rx_8a : rx_step sw_7 (sw_append hx_t3 vx_block3 [vx_a3] sw_group3 sw_7).
Proof. apply (rx_write _ _ ("", "f") hx_t3); [exact sw_s8a|reflexivity|rx_all|reflexivity|vm_compute; reflexivity]. Qed.
Fact rx_8 : rx_step (sw_append hx_t3 vx_block3 [vx_a3] sw_group3 sw_7) sw_8.
Proof. apply (rx_object "20250103000000000.deltacommit.inflight" hx_t3 "deltacommit.inflight"); [reflexivity|repeat split; discriminate|reflexivity|reflexivity|vm_compute; reflexivity]. Qed.
Fact rx_9 : rx_step sw_8 sw_9.
Proof. apply (rx_write _ _ ("", "f") hx_t4); [exact sw_s9|reflexivity|rx_all|reflexivity|vm_compute; reflexivity]. Qed.
Fact rx_10a : rx_step sw_9 (sw_base "f" "0-0-1" hx_t5 "b5" sw_group5 sw_9).
Proof. apply (rx_write _ _ ("", "f") hx_t5); [exact sw_s10a|reflexivity|rx_all|reflexivity|vm_compute; reflexivity]. Qed.
Ltac rx_blocks J A := cbn [le_blocks app] in J; repeat (destruct J as [[= <- <-]|J]; [repeat (destruct A as [[=]|A]); try (now destruct A)|]); try (now destruct J).
Fact rx_10 : rx_step (sw_base "f" "0-0-1" hx_t5 "b5" sw_group5 sw_9) sw_10.
Proof.
  apply (rx_commit _ hx_t5 Commit (hx_md (fm_name hx_base5) [])); [reflexivity|apply hx_stamp; cbn; tauto|apply slice_text; vm_compute; reflexivity| |apply hx_md_unique|discriminate| |vm_compute; reflexivity].
  - eapply cx_fine; [vm_compute; reflexivity|]. intros x [].
  - rx_named (fm_name hx_base5) ([] : list string) (rx_entry "f" "0-0-1" hx_t5 "b5") sw_group5.
    + eapply (rx_only _ _ sw_group5); [reflexivity|rx_other|discriminate].
    + intros c [ <- |[ <- |[]]]; [discriminate|apply sle_refl].
    + intros f bl vs [ <- |[]] J A. exfalso. rx_blocks J A.
    + intros n [].
Qed.
Fact rx_11a : rx_step sw_10 (sw_log hx_t5 hx_t6 vx_block6 [vx_b6] hx_group sw_10).
Proof. apply (rx_write _ _ ("", "f") hx_t6); [exact sw_s11a|reflexivity|rx_all|reflexivity|vm_compute; reflexivity]. Qed.
Fact rx_11 : rx_step (sw_log hx_t5 hx_t6 vx_block6 [vx_b6] hx_group sw_10) sw_11.
Proof.
  apply (rx_commit _ hx_t6 DeltaCommit (hx_md (fm_name hx_base5) [fm_name hx_log5])); [reflexivity|apply hx_stamp; cbn; tauto|apply slice_text; vm_compute; reflexivity| |apply hx_md_unique|discriminate| |vm_compute; reflexivity].
  - eapply cx_fine; [vm_compute; reflexivity|]. intros x [ <- |[]]. eexists. split; [vm_compute; reflexivity|reflexivity].
  - rx_named (fm_name hx_base5) [fm_name hx_log5] (rx_entry "f" "0-0-1" hx_t5 "b5") hx_group.
    + eapply (rx_only _ _ hx_group); [reflexivity|rx_other|discriminate].
    + intros c [ <- |[ <- |[]]]; [discriminate|apply sle_refl].
    + intros f bl vs [ <- |[ <- |[]]] J A; [repeat split; now left|]. exfalso. rx_blocks J A.
    + intros n [ <- |[]]. eexists. eexists. split; [now left|]. repeat split.
Qed.
Fact rx_fine7 : writes_fine cx_md7.
Proof.
  eexists. split; [reflexivity|]. intros p v [[= <- <-]|[]]. eexists. split; [reflexivity|]. intros stat [ <- |[]]. exists "h", wx_h, []. eexists. split; [apply nf_path with (path := wx_h); try (vm_compute; reflexivity); apply L_Builder.path_file_name_iff; vm_compute; reflexivity|]. split; [vm_compute; reflexivity|]. intros x [].
Qed.
Fact rx_12 : rx_step sw_11 sw_12.
Proof.
  apply (rx_commit _ wx_t7 ReplaceCommit cx_md7); [reflexivity|apply wx_stamp; cbn; tauto|apply slice_text; vm_compute; reflexivity| | | | |vm_compute; reflexivity].
  - exact rx_fine7.
  - intros p s1 s2 id W1 W2 _ _. apply cx_writes7 in W1 as [_ -> ]. apply cx_writes7 in W2 as [_ -> ]. reflexivity.
  - intros _. eexists. split; [reflexivity|]. intros p v [[= <- <-]|[]]. exists ["r"]. reflexivity.
  - constructor.
    + intros [pt id] W. exfalso. unfold wrote_at in W. rx_hist. rx_cases pt id; destruct W as [W|[[b [rows W]] _]]; cbn in W; repeat (destruct W as [W|W]; [discriminate W|]); destruct W.
    + intros part id c n [stat [base [logs [b [W [F [P [Ec En]]]]]]]]. apply cx_writes7 in W as [ -> -> ]. apply cx_files7 in F as [ -> [ -> -> ]]. vm_compute in P. injection P as <-. cbn in Ec. vm_compute in En. subst. split.
      * intros b I _. rx_hist. cbn in I. destruct I as [ <- |[]]. apply sle_refl.
      * exists (rx_entry "h" "0-0-0" hx_t1 "h1"). split; [cbn; tauto|]. repeat split. discriminate.
    + intros f bl vs [ <- |[ <- |[]]] J A; exfalso; rx_blocks J A.
    + intros part id c l [stat [base [logs [b [name [W [F [_ [_ [I _]]]]]]]]]]. apply cx_writes7 in W as [ -> -> ]. apply cx_files7 in F as [ -> [ -> -> ]]. destruct I.
Qed.
Fact rx_recorded8 : rx_left sw_8.
Proof.
  pose proof (rl_empty wx_names "parquet" 0 vx_parse vx_code vx_rank wx_rows sw_footer vx_dfs 2 3 1 0 jx_number jx_collect : rx_left empty_storage) as L.
  apply (rx_go _ _) with (2 := rx_1) in L. apply (rx_go _ _) with (2 := rx_2) in L. apply (rx_go _ _) with (2 := rx_3) in L. apply (rx_go _ _) with (2 := rx_4) in L. apply (rx_go _ _) with (2 := rx_5a) in L.
  apply (rx_go _ _) with (2 := rx_5) in L. apply (rx_go _ _) with (2 := rx_6) in L. apply (rx_go _ _) with (2 := rx_7a) in L. apply (rx_go _ _) with (2 := rx_7) in L. apply (rx_go _ _) with (2 := rx_8a) in L.
  apply (rx_go _ _) with (2 := rx_8) in L. exact L.
Qed.
Fact rx_recorded : rx_left sw_12.
Proof.
  pose proof rx_recorded8 as L. apply (rx_go _ _) with (2 := rx_9) in L. apply (rx_go _ _) with (2 := rx_10a) in L. apply (rx_go _ _) with (2 := rx_10) in L. apply (rx_go _ _) with (2 := rx_11a) in L.
  apply (rx_go _ _) with (2 := rx_11) in L. apply (rx_go _ _) with (2 := rx_12) in L. exact L.
Qed.

(** ** The conditions of the reads *)
Lemma rx_commit_of : forall ts a m n, In (sw_nth n) (w_others sw_12) -> o_key (sw_nth n) = rx_prefix ++ timeline_name ts a Completed -> timestamp ts ->
  metadata_text jx_number jx_collect m (o_data (sw_nth n)) -> rx_committed sw_12 ts a m.
Proof. intros ts a m n I K T P. split; [exact T|]. exists (sw_nth n). split; [exact I|]. split; [now rewrite rx_key|exact P]. Qed.
Ltac rx_other_in := cbn [sw_12 sw_11 sw_10 sw_9 sw_8 sw_7 sw_6 sw_5 sw_4 sw_3 sw_2 sw_1 sw_other sw_append sw_log sw_base sw_drop w_others w_logs tl]; repeat first [left; reflexivity|right].
Fact rx_committed2 : rx_committed sw_12 hx_t2 DeltaCommit (hx_md (fm_name hx_base1) [fm_name hx_log1]).
Proof. apply (rx_commit_of _ _ _ 2); [rx_other_in|reflexivity|apply hx_stamp; cbn; tauto|apply slice_text; vm_compute; reflexivity]. Qed.
Fact rx_committed5 : rx_committed sw_12 hx_t5 Commit (hx_md (fm_name hx_base5) []).
Proof. apply (rx_commit_of _ _ _ 4); [rx_other_in|reflexivity|apply hx_stamp; cbn; tauto|apply slice_text; vm_compute; reflexivity]. Qed.
Fact rx_committed6 : rx_committed sw_12 hx_t6 DeltaCommit (hx_md (fm_name hx_base5) [fm_name hx_log5]).
Proof. apply (rx_commit_of _ _ _ 5); [rx_other_in|reflexivity|apply hx_stamp; cbn; tauto|apply slice_text; vm_compute; reflexivity]. Qed.
Fact rx_completed : all_completed wx_names jx_number jx_collect hx_t1 wx_t7 sw_12.
Proof.
  intros [pt id] x W L1 _. assert (C : x = hx_t1 \/ x = hx_t2 \/ x = hx_t5 \/ x = hx_t6).
  { unfold wrote_at in W. rx_hist. rx_cases pt id; destruct W as [W|[[b [rows W]] NF]]; cbn in W; repeat (destruct W as [W|W]; [try (injection W as <- <- <-); try subst x; try tauto; exfalso; apply NF; cbn; tauto|]); destruct W. }
  destruct C as [ -> |[ -> |[ -> | -> ]]]; [discriminate L1|eexists; eexists; exact rx_committed2|eexists; eexists; exact rx_committed5|eexists; eexists; exact rx_committed6].
Qed.
Fact rx_undone : failures_undone wx_names jx_number jx_collect hx_t1 wx_t7 sw_12.
Proof.
  intros f bl vs x I N J A F L1 L2. exists f, (hx_undo hx_t4 hx_t3), [], hx_t4. split; [exact I|]. split; [exact N|]. split; [reflexivity|]. split; [reflexivity|].
  destruct I as [ <- |[ <- |[]]]; cbn in F; destruct F as [ <- |[]]; [exfalso; rx_blocks J A|].
  split; [right; right; now left|]. split; [now left|]. split; [|discriminate]. split; [reflexivity|]. split; [right; now left|]. exists "0". split; [right; right; now left|reflexivity].
Qed.
Fact rx_later : forall g, later_is_newer 2 3 1 (w_hist sw_12 g) wx_t7.
Proof.
  intros g. destruct (sw_hist g) as [ -> |[_ [B -> ]]].
  - intros x a y b [].
  - unfold wx_hist. destruct B as [ <- |[ <- |[ <- |[]]]]; [apply hx_later| |]; intros x a y b J1 J2 L; cbn in J1, J2; destruct J1 as [[= <- <-]|[]]; destruct J2 as [[= <- <-]|[]]; discriminate L.
Qed.
