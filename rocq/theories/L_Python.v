(** Proofs about file slices handed to Python and back. *)
From Verif Require Import Base Str L_Str M_BTree M_Time M_Instant M_Timeline M_FileGroup M_Builder M_Listing M_Log M_Config M_Reader M_Expr M_Table M_Python
  S_FileGroup S_Builder S_Timeline S_Listing S_Table S_Python L_Base L_BTree L_FileGroup L_Builder L_Listing L_View L_Table L_Incremental.
From Coq Require Import Sorting.Sorted.
Local Open Scope string_scope.

(** ** Slices made of parsed files *)
Definition parsed_base (b : base_file) : Prop := exists n m b0, base_file_of n m = Ok b0
  /\ bf_file_id b = bf_file_id b0 /\ bf_write_token b = bf_write_token b0 /\ bf_commit b = bf_commit b0 /\ bf_ext b = bf_ext b0.
Definition parsed_log (l : log_file) : Prop := exists n m, log_file_of n m = Ok l.
Definition parsed_slice (s : file_slice) : Prop :=
  parsed_base (fs_base s) /\ lsorted (fs_logs s)
  /\ forall l, In l (fs_logs s) -> parsed_log l /\ lf_base_commit l = bf_commit (fs_base s).

Lemma split_pieces : forall c s p, In p (split c s) -> has_char c p = false.
Proof. intros c s p H. pose proof (split_no_char c s) as F. rewrite Forall_forall in F. auto. Qed.

Lemma parsed_base_again : forall b, parsed_base b -> exists b1, base_file_from_str (base_file_name b) = Ok b1
  /\ bf_commit b1 = bf_commit b /\ base_file_name b1 = base_file_name b.
Proof.
  intros b [n [m [b0 [H [E1 [E2 [E3 E4]]]]]]]. unfold base_file_of, parse_base_name in H.
  destruct (rsplit_once "." n) as [[stem ext]|] eqn:R; [|discriminate]. cbn [ok_or bind] in H.
  destruct (nth_error (split "_" stem) 0) as [id|] eqn:N0; [|discriminate].
  destruct (nth_error (split "_" stem) 1) as [tk|] eqn:N1; [|discriminate].
  destruct (nth_error (split "_" stem) 2) as [cm|] eqn:N2; [|discriminate].
  cbn [ok_or bind] in H. injection H as <-. cbn in E1, E2, E3, E4.
  assert (F : forall k x, nth_error (split "_" stem) k = Some x -> has_char "_" x = false).
  { intros k x Hx. apply (split_pieces "_" stem). eapply nth_error_In; exact Hx. }
  unfold base_file_from_str, base_file_name. rewrite E1, E2, E3, E4.
  rewrite base_name_round_trip; [eexists; split; [reflexivity|]; auto|eauto|eauto|eauto|].
  apply rsplit_once_some in R. tauto.
Qed.

Definition erase (l : log_file) : log_file :=
  {| lf_file_id := lf_file_id l; lf_base_commit := lf_base_commit l; lf_ext := lf_ext l; lf_version := lf_version l;
     lf_write_token := lf_write_token l; lf_meta := None |}.
Lemma parsed_log_again : forall l, parsed_log l -> log_file_from_str (log_file_name l) = Ok (erase l).
Proof.
  intros l [n [m H]]. unfold log_file_of in H. destruct (parse_log_name n) as [[[[[i c] e] v] t]| |] eqn:E; try discriminate.
  cbn in H. injection H as <-. apply parse_log_inv in E as [_ [A1 [A2 [A3 [A4 [A5 [B1 [B2 [B3 [B4 B5]]]]]]]]]].
  unfold log_file_from_str, log_file_name, erase. cbn [lf_file_id lf_base_commit lf_ext lf_version lf_write_token].
  now apply log_name_round_trip.
Qed.
Lemma erase_key : forall l, log_key (erase l) = log_key l.
Proof. reflexivity. Qed.

Lemma insert_last : forall x s, (forall y, In y s -> log_key_cmp (log_key y) (log_key x) = Lt) -> log_insert x s = (s ++ [x])%list.
Proof.
  intros x. induction s as [|y s IH]; intros H; [reflexivity|]. unfold log_insert in *. cbn [sadd app].
  rewrite (log_key_cmp_antisym (log_key y) (log_key x)), (H y (or_introl eq_refl)). cbn [CompOpp].
  f_equal. apply IH. intros z Hz. apply H. now right.
Qed.

Definition one_slice (g : file_group) (b : base_file) (s : list log_file) : file_group :=
  with_slices g [(bf_commit b, with_logs (new_slice b (fg_partition g)) s)].
Lemma add_logs_again : forall b ls g done,
  (forall l, In l ls -> parsed_log l /\ lf_base_commit l = bf_commit b) ->
  (forall y x, In y done -> In x ls -> log_key_cmp (log_key y) (log_key x) = Lt) -> lsorted ls ->
  add_each add_log_file_from_name (one_slice g b done) (map log_file_name ls) = (one_slice g b (done ++ map erase ls)%list, Ok tt).
Proof.
  intros b. induction ls as [|l ls IH]; intros g done P K S.
  - cbn. now rewrite app_nil_r.
  - cbn [map add_each]. destruct (P l (or_introl eq_refl)) as [Pl Cl]. unfold add_log_file_from_name at 1.
    rewrite (parsed_log_again l Pl). unfold add_log_file. change (lf_base_commit (erase l)) with (lf_base_commit l). rewrite Cl.
    unfold one_slice at 1 2 3, slices_get, slices_update, with_slices. cbn [fg_slices sget supdate ekey fst snd fg_id fg_partition]. rewrite scmp_refl.
    cbn [with_logs fs_logs]. rewrite (insert_last (erase l) done) by (intros y Hy; rewrite erase_key; apply (K y l Hy); now left).
    change (add_each add_log_file_from_name (one_slice g b (done ++ [erase l])%list) (map log_file_name ls) = (one_slice g b (done ++ erase l :: map erase ls)%list, Ok tt)).
    rewrite IH.
    + now rewrite <- app_assoc.
    + intros x Hx. apply P. now right.
    + intros y x Hy Hx. apply in_app_iff in Hy as [Hy|[ <- |[]]]; [apply K; [exact Hy|now right]|].
      rewrite erase_key. inversion S as [|? ? S' F]; subst. rewrite Forall_forall in F. exact (F x Hx).
    + now inversion S.
Qed.

Lemma rebuild_parsed : forall s, parsed_slice s -> exists f, py_rebuild (py_slice_of s) = Ok f /\ same_files f s.
Proof.
  intros s [B [S P]]. destruct (parsed_base_again _ B) as [b1 [Hb [Cb Nb]]].
  unfold py_rebuild, py_slice_of. cbn [ps_file_id ps_partition ps_base_name ps_log_names].
  set (g0 := new_group (bf_file_id (fs_base s)) (fs_partition s)).
  assert (E : add_base_file_from_name g0 (base_file_name (fs_base s)) = (one_slice g0 b1 [], Ok tt)).
  { unfold add_base_file_from_name. rewrite Hb. reflexivity. }
  rewrite E, (add_logs_again b1 (fs_logs s) g0 []); [|intros l Hl; rewrite Cb; auto|intros y x []|exact S].
  cbn [app one_slice with_slices fg_slices]. eexists. split; [reflexivity|]. split; [reflexivity|]. split; [exact Nb|].
  cbn [with_logs fs_logs]. rewrite map_map. apply map_ext. reflexivity.
Qed.

Lemma reads_same : forall f s, same_files f s ->
  forall sort iter read_parquet avro_schema avro_value parse_schema datum check_schema to_batch parquet local_to_utc fetch configs,
  read_file_slice sort iter read_parquet avro_schema avro_value parse_schema datum check_schema to_batch parquet local_to_utc fetch configs f
  = read_file_slice sort iter read_parquet avro_schema avro_value parse_schema datum check_schema to_batch parquet local_to_utc fetch configs s.
Proof.
  intros f s [P [B L]]. intros. unfold read_file_slice.
  assert (E1 : base_relative_path f = base_relative_path s) by (unfold base_relative_path; congruence).
  assert (E2 : has_log_file f = has_log_file s).
  { unfold has_log_file. destruct (fs_logs f), (fs_logs s); cbn in L; congruence. }
  assert (E3 : map (log_relative_path f) (fs_logs f) = map (log_relative_path s) (fs_logs s)).
  { unfold log_relative_path. rewrite P. rewrite <- !(map_map log_file_name (path_join (fs_partition s))). now rewrite L. }
  now rewrite E1, E2, E3.
Qed.
Lemma parsed_reads : forall s, parsed_slice s -> reads_as s (py_slice_of s).
Proof.
  intros s H. destruct (rebuild_parsed s H) as [f [E F]]. unfold reads_as. intros. unfold py_read_file_slice. rewrite E. cbn [bind].
  now apply reads_same.
Qed.
Lemma shows_paths : forall s, python_shows s (py_slice_of s).
Proof. intros s. do 4 (split; [reflexivity|]). unfold py_log_paths, py_slice_of, log_relative_path. cbn. now rewrite map_map. Qed.

(** ** Groups made from names *)
Definition parsed_group (g : file_group) : Prop :=
  forall s, In s (slices g) -> parsed_base (fs_base s) /\ forall l, In l (fs_logs s) -> parsed_log l.
Lemma base_of_parsed : forall name m b, base_file_of name m = Ok b -> parsed_base b.
Proof. intros name m b H. exists name, m, b. auto. Qed.
Lemma parsed_new : forall id p, parsed_group (new_group id p).
Proof. intros id p s []. Qed.
Lemma parsed_add_base : forall g b g', parsed_group g -> parsed_base b -> add_base_file g b = (g', Ok tt) -> parsed_group g'.
Proof.
  intros g b g' P B H s Hs. apply add_base_ok in H as [_ ->]. unfold slices in Hs. cbn [with_slices fg_slices] in Hs.
  apply in_map_iff in Hs as [[k s'] [E I]]. cbn in E. subst s'. unfold slices_put in I. apply in_sput in I as [E|I].
  - injection E as -> ->. split; [exact B|intros l []].
  - apply P. apply in_map_iff. now exists (k, s).
Qed.
Lemma parsed_add_log : forall g l g', parsed_group g -> parsed_log l -> add_log_file g l = (g', Ok tt) -> parsed_group g'.
Proof.
  intros g l g' P B H s Hs. apply add_log_ok in H as [_ ->]. unfold slices in Hs. cbn [with_slices fg_slices] in Hs.
  apply in_map_iff in Hs as [[k s'] [E I]]. cbn in E. subst s'. unfold slices_update in I. apply in_supdate in I as [I|[[k' s'] [I [Ek E]]]]; [| |exact scmp_eq].
  - apply P. apply in_map_iff. now exists (k, s).
  - injection E as -> ->. cbn [with_logs fs_base fs_logs snd]. assert (Q : In s' (slices g)) by (apply in_map_iff; now exists (k', s')).
    destruct (P s' Q) as [Q1 Q2]. split; [exact Q1|]. intros x Hx. apply log_insert_in in Hx as [ -> |Hx]; auto.
Qed.
Lemma parsed_merge : forall g h m, parsed_group g -> parsed_group h -> merge_group g h = (m, Ok tt) -> parsed_group m.
Proof.
  intros g h m Pg Ph H. unfold merge_group in H. destruct (negb (fg_eqb g h)); [discriminate|].
  assert (Pe : forall e, In e (fg_slices h) -> parsed_base (fs_base (snd e)) /\ forall l, In l (fs_logs (snd e)) -> parsed_log l).
  { intros e He. apply Ph. now apply in_map. }
  clear Ph. revert g Pg H Pe. generalize (fg_slices h). induction s as [|e es IH]; intros g Pg H Pe; cbn [add_each] in H; [injection H as <-; exact Pg|].
  destruct (merge_entry g e) as [g1 [[]|er|]] eqn:E; try discriminate. apply (IH g1); [|exact H|intros x Hx; apply Pe; now right].
  destruct (Pe e (or_introl eq_refl)) as [Be Le]. clear IH H Pe. intros s Hs.
  apply merge_entry_ok in E as [[_ ->]|[x [G [_ ->]]]]; unfold slices in Hs; cbn [with_slices fg_slices] in Hs;
    apply in_map_iff in Hs as [[k s'] [Es I]]; cbn in Es; subst s'.
  - unfold slices_put in I. apply in_sput in I as [Es|I]; [|apply Pg; apply in_map_iff; now exists (k, s)].
    injection Es as -> ->. auto.
  - unfold slices_update in I. apply in_supdate in I as [I|[[k' s'] [I [Ek Es]]]]; [| |exact scmp_eq].
    + apply Pg. apply in_map_iff. now exists (k, s).
    + injection Es as -> ->. apply slices_get_some in G as [G _].
      destruct (Pg (snd x) ltac:(apply in_map; exact G)) as [Q1 Q2]. cbn [merged with_logs fs_base fs_logs]. split; [exact Q1|].
      intros l Hl. apply log_extend_in in Hl as [Hl|Hl]; auto.
Qed.
Lemma named_parsed : forall g, named_group g -> reachable g /\ parsed_group g.
Proof.
  induction 1 as [id p|g name m b g' N [R P] B A|g name m l g' N [R P] B A|g h g' N [R P] N' [R' P'] A].
  - split; [constructor|apply parsed_new].
  - split; [eapply r_base; eauto|]. eapply parsed_add_base; eauto. eapply base_of_parsed; eauto.
  - split; [eapply r_log; eauto|]. eapply parsed_add_log; eauto. now exists name, m.
  - split; [exact (r_merge g h g' R R' A)|]. exact (parsed_merge g h g' P P' A).
Qed.
Lemma group_parsed : forall g, wf_group g -> parsed_group g -> forall s, In s (slices g) -> parsed_slice s.
Proof.
  intros g [_ W] P s Hs. destruct (P s Hs) as [B L]. apply in_map_iff in Hs as [[k s'] [E I]]. cbn in E. subst s'.
  rewrite Forall_forall in W. destruct (W _ I) as [W1 [_ [W3 W4]]]. cbn in *. rewrite Forall_forall in W4.
  split; [exact B|]. split; [exact W3|]. intros l Hl. split; [auto|]. now rewrite W4, W1.
Qed.
Lemma named_slices : forall g s, named_group g -> In s (slices g) ->
  (exists f, py_rebuild (py_slice_of s) = Ok f /\ same_files f s) /\ reads_as s (py_slice_of s) /\ python_shows s (py_slice_of s).
Proof.
  intros g s N Hs. destruct (named_parsed g N) as [R P]. pose proof (group_parsed g (reachable_wf _ R) P s Hs) as Q.
  split; [now apply rebuild_parsed|]. split; [now apply parsed_reads|apply shows_paths].
Qed.

(** ** Slices of queries *)
Lemma loaded_parsed : forall fm s s', load_metadata_if_needed fm s = Ok s' -> parsed_slice s -> parsed_slice s'.
Proof.
  intros fm s s' H [B [S P]]. unfold load_metadata_if_needed in H.
  assert (X : (let* m := fm (base_relative_path s) in Ok (with_base s (set_meta (fs_base s) m))) = Ok s' -> parsed_slice s').
  { clear H. intros H. apply bind_ok in H as [m [_ H]]. injection H as <-. split; [exact B|]. split; [exact S|exact P]. }
  destruct (bf_meta (fs_base s)) as [m|]; [|now apply X]. destruct (fm_populated m); [|now apply X].
  injection H as <-. split; [exact B|]. split; [exact S|exact P].
Qed.
(** What loading the metadata leaves in a slice. *)
Definition has_metadata (fm : string -> outcome file_meta) (s : file_slice) : Prop :=
  exists m, fm (base_relative_path s) = Ok m /\ bf_meta (fs_base s) = Some m.
Lemma loaded_metadata : forall fm s s', load_metadata_if_needed fm s = Ok s' ->
  (forall m, bf_meta (fs_base s) = Some m -> fm_populated m = false) -> has_metadata fm s'.
Proof.
  intros fm s s' H U. unfold load_metadata_if_needed in H.
  assert (X : (let* m := fm (base_relative_path s) in Ok (with_base s (set_meta (fs_base s) m))) = Ok s' -> has_metadata fm s').
  { clear H. intros H. apply bind_ok in H as [m [Hm H]]. injection H as <-. exists m. split; [exact Hm|reflexivity]. }
  destruct (bf_meta (fs_base s)) as [m|]; [|now apply X]. rewrite (U m eq_refl) in H. now apply X.
Qed.

Lemma expected_slice : forall list_files fm format partitioned root q ss s,
  expected list_files fm format partitioned root q = Ok ss -> In s ss ->
  exists s0 p listed m, list_files p = Ok listed /\ In m listed /\ bf_meta (fs_base s0) = Some m
    /\ load_metadata_if_needed fm s0 = Ok s /\ parsed_slice s0.
Proof.
  intros list_files fm format partitioned root q ss s H Hs. unfold expected in H.
  apply bind_ok in H as [gss [Hg H]]. apply mapM_ok in Hg. apply mapM_ok in H.
  destruct (Forall2_in_r _ _ _ _ _ _ H Hs) as [s0 [Hs0 L0]]. destruct (partitioned || q_include q ""); [|destruct Hs0].
  apply in_flat_map in Hs0 as [g [Hg0 Hp]]. apply in_concat in Hg0 as [gs [Hgs Hin]].
  destruct (Forall2_in_r _ _ _ _ _ _ Hg Hgs) as [p [_ Lp]].
  assert (exists listed, list_files p = Ok listed) as [listed El].
  { unfold lists0, list_file_groups_for_partition in Lp. apply bind_ok in Lp as [l [Hl _]]. eauto. }
  destruct (group_slices list_files format p listed gs g El Lp Hin) as [W [_ G]].
  apply (pick_in list_files fm format) in Hp as [_ Hp]. pose proof (as_of_spec g (q_time q) W) as A. rewrite Hp in A. destruct A as [A _].
  destruct (G s0 A) as [m [b [[B1 [_ [_ B2]]] [Eb [_ [_ [_ Ls]]]]]]].
  exists s0, p, listed, m. split; [exact El|]. split; [exact B1|]. split.
  { rewrite Eb. unfold base_file_of in B2. apply bind_ok in B2 as [[[[i t] c] x] [_ B2]]. injection B2 as <-. reflexivity. }
  split; [exact L0|]. apply (group_parsed g W); [|exact A].
  intros s1 Hs1. destruct (G s1 Hs1) as [m1 [b1 [[_ [_ [_ C2]]] [Eb1 [_ [_ [_ Ls1]]]]]]]. split.
  - rewrite Eb1. eapply base_of_parsed; exact C2.
  - intros l Hl. destruct (Ls1 l Hl) as [m' [[_ [_ [_ X]]] _]]. now exists (fm_name m'), (Some m').
Qed.

Section Queries.
Variable dtype value : Type.
Variable cast : dtype -> string -> option value.
Variable cmp : value -> value -> option comparison.
Variable L : ndt -> option ndt.
Variable st : store dtype.
Variable tb : table.

Lemma as_of_slice : forall root, serves_dirs root (st_dirs _ st) -> wf_tree root ->
  forall c c' t filters ss, view_after dtype value cast cmp L st tb c -> get_file_slices_as_of dtype value cast cmp L st tb t filters c c' (Ok ss) ->
  forall s, In s ss -> exists s0 p listed m, st_files _ st p = Ok listed /\ In m listed /\ bf_meta (fs_base s0) = Some m
    /\ load_metadata_if_needed (st_meta _ st) s0 = Ok s /\ parsed_slice s0.
Proof.
  intros root Sv Wf c c' t filters ss Hc H s Hs. inversion H as [|? ? fs ? Hf Ha]; subst.
  inversion Ha as [| |? ? q pt format n ? Hp F1 F2 F3 V]; subst.
  pose proof (after_history _ _ _ _ _ _ _ c Hc _ _ _ F1 F2 F3) as Hh.
  destruct (query_answer _ _ _ _ _ _ root Sv Wf c q c' (Ok ss) (history_ok _ _ _ _ _ _ root Sv Wf c Hh) (plan_wf _ _ _ _ _ _ _ _ _ _ Hp) V) as [_ A].
  destruct (expected (st_files dtype st) (st_meta dtype st) format pt root q) as [ss0| |] eqn:E; cbn in A; try tauto.
  eapply expected_slice; [exact E|]. eapply Permutation_in; [exact A|exact Hs].
Qed.
Lemma as_of_python : forall root, serves_dirs root (st_dirs _ st) -> wf_tree root ->
  forall c c' t filters ss, view_after dtype value cast cmp L st tb c -> get_file_slices_as_of dtype value cast cmp L st tb t filters c c' (Ok ss) ->
  forall s, In s ss -> reads_as s (py_slice_of s) /\ python_shows s (py_slice_of s).
Proof.
  intros root Sv Wf c c' t filters ss Hc H s Hs.
  destruct (as_of_slice root Sv Wf c c' t filters ss Hc H s Hs) as [s0 [p [listed [m [_ [_ [_ [E P]]]]]]]].
  split; [|apply shows_paths]. apply parsed_reads. eapply loaded_parsed; eauto.
Qed.
Lemma as_of_sizes : forall root, serves_dirs root (st_dirs _ st) -> wf_tree root ->
  (forall p listed m, st_files _ st p = Ok listed -> In m listed -> fm_populated m = false) ->
  forall c c' t filters ss, view_after dtype value cast cmp L st tb c -> get_file_slices_as_of dtype value cast cmp L st tb t filters c c' (Ok ss) ->
  forall s, In s ss -> has_metadata (st_meta _ st) s.
Proof.
  intros root Sv Wf U c c' t filters ss Hc H s Hs.
  destruct (as_of_slice root Sv Wf c c' t filters ss Hc H s Hs) as [s0 [p [listed [m [El [Hm [Em [E P]]]]]]]].
  eapply loaded_metadata; [exact E|]. intros m' Em'. rewrite Em in Em'. injection Em' as <-. eauto.
Qed.
End Queries.

(** ** Slices of incremental queries *)
Lemma run_parsed : forall ops g g', run g ops = Some g' -> parsed_group g ->
  (forall o, In o ops -> match o with AddBase b => parsed_base b | AddLog l => parsed_log l end) -> parsed_group g'.
Proof.
  induction ops as [|o ops IH]; intros g g' H P F; [injection H as <-; exact P|]. apply run_cons in H as [g1 [H1 H2]].
  apply (IH g1 g' H2); [|intros x Hx; apply F; now right]. specialize (F o (or_introl eq_refl)).
  destruct o as [b|l]; cbn in H1; [exact (parsed_add_base _ _ _ P F H1)|exact (parsed_add_log _ _ _ P F H1)].
Qed.
Lemma stat_parsed : forall p stat g, stat_group p stat = Ok g -> parsed_group g.
Proof.
  intros p stat g H. apply stat_group_inv in H as [id [base [logs [b [ls [_ [H2 [H3 H4]]]]]]]].
  apply (run_parsed _ _ _ H4 (parsed_new id p)). intros o [ <- |Ho].
  - eapply base_of_parsed; exact H2.
  - apply in_map_iff in Ho as [l [ <- Hl]]. destruct (Forall2_in_r _ _ _ _ _ _ H3 Hl) as [n [_ Hn]]. now exists n, None.
Qed.
Lemma build_parsed : forall md gs, build_file_groups md = Ok gs -> Forall parsed_group gs.
Proof.
  intros md gs H. apply Forall_forall. intros g Hg. destruct (build_facts _ _ H) as [_ [G _]]. destruct (G g Hg) as [stat [_ K]]. eapply stat_parsed; exact K.
Qed.
Lemma merge_groups_parsed : forall l s s', merge_groups s l = Ok s' -> Forall parsed_group s -> Forall parsed_group l -> Forall parsed_group s'.
Proof.
  induction l as [|g l IH]; intros s s' H Fs Fl; unfold merge_groups in H; cbn [foldM] in H; [injection H as <-; exact Fs|].
  apply bind_ok in H as [s1 [H1 H2]]. inversion Fl as [|? ? Pg Fl']; subst. apply (IH s1 s' H2); [|exact Fl'].
  unfold merge_one in H1. rewrite Forall_forall in *. destruct (gs_take g s) as [[y r]|] eqn:E.
  - apply bind_ok in H1 as [m [Hm H1]]. injection H1 as <-. apply lift_mut_ok in Hm. apply gs_take_some in E as [Hy [_ P]].
    intros x Hx. apply gs_insert_in in Hx as [Hx| -> ].
    + apply Fs. apply (Permutation_in (l := y :: r)); [now symmetry|now right].
    + exact (parsed_merge y g m (Fs y Hy) Pg Hm).
  - injection H1 as <-. intros x Hx. apply gs_insert_in in Hx as [Hx| -> ]; auto.
Qed.
Lemma loop_parsed : forall read order, (forall n l, Permutation l (order n l)) -> forall l n fgs rep fgs' rep',
  between_loop read order n fgs rep l = Ok (fgs', rep') -> Forall parsed_group fgs -> Forall parsed_group fgs'.
Proof.
  intros read order perm. induction l as [|i l IH]; intros n fgs rep fgs' rep' H F; cbn [between_loop] in H; [injection H as <- <-; exact F|].
  apply bind_ok in H as [md [_ H]]. apply bind_ok in H as [built [Hb H]]. apply bind_ok in H as [f1 [Hf1 H]]. apply bind_ok in H as [r1 [_ H]].
  apply (IH _ _ _ _ _ H). apply (merge_groups_parsed _ _ _ Hf1 F). rewrite Forall_forall. intros g Hg.
  apply build_parsed in Hb. rewrite Forall_forall in Hb. apply Hb. eapply Permutation_in; [symmetry; apply perm|exact Hg].
Qed.
Lemma between_python : forall dtype L (st : store dtype) tb order, (forall n l, Permutation l (order n l)) ->
  forall start stop ss, get_file_slices_between dtype L st tb order start stop = Ok ss ->
  forall s, In s ss -> reads_as s (py_slice_of s) /\ python_shows s (py_slice_of s).
Proof.
  intros dtype L st tb order perm start stop ss H s Hs. unfold get_file_slices_between in H.
  destruct (stop_or_latest tb stop) as [e|]; [|injection H as <-; destruct Hs]. unfold slices_between in H.
  apply bind_ok in H as [tz [_ H]]. apply bind_ok in H as [gs [Hg H]]. injection H as <-.
  apply in_flat_map in Hs as [g [Hin Hs]]. pose proof (between_reachable L order perm _ _ _ _ _ _ Hg) as R. rewrite Forall_forall in R.
  pose proof (reachable_wf _ (R g Hin)) as W. pose proof (as_of_spec g e W) as A.
  destruct (get_file_slice_as_of g e) as [s0|]; [|destruct Hs]. destruct Hs as [ -> |[]]. destruct A as [A _].
  split; [|apply shows_paths]. apply parsed_reads. apply (group_parsed g W); [|exact A].
  unfold get_file_groups_between in Hg. apply bind_ok in Hg as [sel [_ Hg]]. apply bind_ok in Hg as [[fgs rep] [Hl Hg]]. injection Hg as <-.
  unfold gs_difference in Hin. apply filter_In in Hin as [Hin _].
  pose proof (loop_parsed _ order perm _ _ _ _ _ _ Hl (Forall_nil _)) as F. rewrite Forall_forall in F. auto.
Qed.

Lemma as_of_shows_sizes : forall dtype value cast cmp L (st : store dtype) tb root, serves_dirs root (st_dirs _ st) -> wf_tree root ->
  (forall p listed m, st_files _ st p = Ok listed -> In m listed -> fm_populated m = false) ->
  forall c c' t filters ss, view_after dtype value cast cmp L st tb c -> get_file_slices_as_of dtype value cast cmp L st tb t filters c c' (Ok ss) ->
  forall s, In s ss -> shows_sizes (st_meta _ st) s (py_slice_of s).
Proof.
  intros dtype value cast cmp L st tb root Sv Wf U c c' t filters ss Hc H s Hs.
  destruct (as_of_sizes _ _ _ _ _ _ _ root Sv Wf U c c' t filters ss Hc H s Hs) as [m [Hm Em]].
  exists m. split; [exact Hm|]. unfold py_slice_of. cbn. rewrite Em. auto.
Qed.
