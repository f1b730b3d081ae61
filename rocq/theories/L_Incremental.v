(** Lemmas about incremental queries. *)
From Verif Require Import Base Str M_Time M_Instant M_Timeline M_FileGroup M_Builder M_Listing M_Expr M_Config M_Table
  S_Time S_Timeline S_FileGroup S_Builder S_Listing S_Table L_Base L_Str L_Timeline L_BTree L_FileGroup L_Builder L_View.
From Coq Require Import Sorted.
Local Open Scope string_scope.

Lemma map_JStr_inj : forall a b, map JStr a = map JStr b -> a = b.
Proof. induction a as [|x a IH]; intros [|y b] H; try discriminate; [reflexivity|]. injection H as -> H. f_equal. auto. Qed.
Lemma names_det : forall stat id base logs id' base' logs', names_files stat id base logs -> names_files stat id' base' logs' ->
  id' = id /\ base' = base /\ logs' = logs.
Proof.
  intros stat id base logs id' base' logs' H1 H2. destruct H1 as [id base logs I1 B1 L1|id path base I1 B1 P1 F1]; destruct H2 as [id' base' logs' I2 B2 L2|id' path' base' I2 B2 P2 F2];
    unfold stat_file_id in *; try congruence.
  - split; [congruence|]. split; [congruence|]. apply map_JStr_inj. congruence.
  - apply path_file_name_iff in F1, F2. split; [congruence|]. split; [congruence|reflexivity].
Qed.
Lemma forall2_in : forall A B (R : A -> B -> Prop) l m, Forall2 R l m -> (forall x, In x l -> exists y, In y m /\ R x y) /\ (forall y, In y m -> exists x, In x l /\ R x y).
Proof.
  intros A B R l m H. induction H as [|x y l m H F [I1 I2]]; [split; intros ? []|]. split.
  - intros z [ <- |Hz]; [exists y; split; [now left|assumption]|]. destruct (I1 z Hz) as [w [W1 W2]]. exists w. split; [now right|assumption].
  - intros z [ <- |Hz]; [exists x; split; [now left|assumption]|]. destruct (I2 z Hz) as [w [W1 W2]]. exists w. split; [now right|assumption].
Qed.

Lemma stat_contents : forall p stat g, stat_group p stat = Ok g ->
  fg_partition g = p /\
  exists base logs b, names_files stat (fg_id g) base logs /\ base_file_from_str base = Ok b
  /\ (forall c n, has_base g c n <-> bf_commit b = c /\ base_file_name b = n)
  /\ (forall c v w, has_log g c v w <-> bf_commit b = c /\ exists name l, In name logs /\ log_file_from_str name = Ok l /\ lf_version l = v /\ lf_write_token l = w).
Proof.
  intros p stat g H. apply stat_group_inv in H as [id [base [logs [b [ls [H1 [H2 [H3 H4]]]]]]]].
  destruct (run_contents _ _ _ (wf_new id p) H4) as [I4 [P4 [B4 L4]]]. cbn in I4, P4. split; [assumption|].
  assert (E1 : logs_of (AddBase b :: map AddLog ls) = ls) by exact (logs_of_maps [] ls).
  assert (E2 : bases_of (AddBase b :: map AddLog ls) = [b]).
  { rewrite bases_of_base. f_equal. exact (bases_of_maps [] ls). }
  rewrite E1 in L4. rewrite E2 in B4. exists base, logs, b. rewrite I4. split; [assumption|]. split; [assumption|].
  destruct (run_spec _ _ _ (wf_new id p) H4) as [_ [_ [_ [_ [_ [_ L]]]]]]. rewrite E1, E2 in L.
  destruct (forall2_in _ _ _ _ _ H3) as [F1 F2]. split.
  - intros c n. rewrite B4. split.
    + intros [[s [[] _]]|[b' [[ <- |[]] X]]]. exact X.
    + intros X. right. exists b. split; [now left|exact X].
  - intros c v w. rewrite L4. split.
    + intros [[s [l [[] _]]]|[l [Hl [Hc [Hv Hw]]]]]. destruct (L l Hl) as [X|[X|[]]]; [now elim X|].
      split; [congruence|]. destruct (F2 l Hl) as [name [N1 N2]]. exists name, l. auto.
    + intros [Hc [name [l [N1 [N2 [N3 N4]]]]]]. right. destruct (F1 name N1) as [l' [K1 K2]]. assert (l' = l) by congruence. subst l'.
      exists l. split; [assumption|]. destruct (L l K1) as [X|[X|[]]]; [now elim X|]. split; [congruence|auto].
Qed.

Lemma build_exact : forall md gs, build_file_groups md = Ok gs -> unique_stats md ->
  forall p id,
  (forall c n, (exists h, In h gs /\ ident h = (p, id) /\ has_base h c n) <-> names_base md p id c n)
  /\ (forall c v w, (exists h, In h gs /\ ident h = (p, id) /\ has_log h c v w) <-> names_log md p id c v w).
Proof.
  intros md gs H U p id. destruct (build_facts _ _ H) as [_ [G I]].
  assert (S : forall stat base logs, writes md p stat -> names_files stat id base logs ->
    exists h, In h gs /\ ident h = (p, id) /\ stat_group p stat = Ok h).
  { intros stat base logs W N. assert (F : stat_file_id stat id) by (destruct N; assumption).
    assert (Hin : In (p, id) (map ident gs)) by (apply I; eauto). apply in_map_iff in Hin as [h [E Hh]].
    exists h. split; [assumption|]. split; [assumption|]. destruct (G h Hh) as [stat' [W' K]].
    unfold ident in E. injection E as E1 E2. rewrite E1 in *. assert (stat' = stat); [|congruence].
    apply (U p stat' stat id); auto. destruct (stat_contents _ _ _ K) as [_ [b' [l' [x [N' _]]]]]. rewrite E2 in N'. destruct N'; assumption. }
  split.
  - intros c n. split.
    + intros [h [Hh [E B]]]. destruct (G h Hh) as [stat [W K]]. unfold ident in E. injection E as E1 E2. rewrite E1 in *.
      destruct (stat_contents _ _ _ K) as [_ [base [logs [b [N [P [B1 _]]]]]]]. apply B1 in B as [B B']. rewrite E2 in N.
      exists stat, base, logs, b. auto.
    + intros [stat [base [logs [b [W [N [P [Ec En]]]]]]]]. destruct (S _ _ _ W N) as [h [Hh [E K]]]. exists h. split; [assumption|]. split; [assumption|].
      destruct (stat_contents _ _ _ K) as [_ [base' [logs' [b' [N' [P' [B1 _]]]]]]]. apply B1.
      destruct (names_det _ _ _ _ _ _ _ N N') as [_ [ -> _]]. assert (b' = b) by congruence. subst b'. auto.
  - intros c v w. split.
    + intros [h [Hh [E B]]]. destruct (G h Hh) as [stat [W K]]. unfold ident in E. injection E as E1 E2. rewrite E1 in *.
      destruct (stat_contents _ _ _ K) as [_ [base [logs [b [N [P [_ B1]]]]]]]. apply B1 in B as [B [name [l [X1 [X2 [X3 X4]]]]]]. rewrite E2 in N.
      exists stat, base, logs, b, name, l. auto 10.
    + intros [stat [base [logs [b [name [l [W [N [P [Ec [X1 [X2 [X3 X4]]]]]]]]]]]]]. destruct (S _ _ _ W N) as [h [Hh [E K]]]. exists h. split; [assumption|]. split; [assumption|].
      destruct (stat_contents _ _ _ K) as [_ [base' [logs' [b' [N' [P' [_ B1]]]]]]]. apply B1.
      destruct (names_det _ _ _ _ _ _ _ N N') as [_ [ -> -> ]]. assert (b' = b) by congruence. subst b'. split; [assumption|]. exists name, l. auto.
Qed.

(** ** Where the log files of merged file groups come from *)
Definition holds_log (l : log_file) (g : file_group) : Prop := exists s, In s (slices g) /\ In l (fs_logs s).
Lemma merge_entry_from : forall l g e m, merge_entry g e = (m, Ok tt) -> holds_log l m -> holds_log l g \/ In l (fs_logs (snd e)).
Proof.
  intros l g e m H [s [Hs Hl]]. unfold merge_entry in H. destruct (slices_get (fst e) (fg_slices g)) as [[k0 ex]|] eqn:G.
  - unfold merge_slice in H. destruct (negb (slice_eqb ex (snd e))); [discriminate|]. injection H as <-. unfold slices in Hs. cbn [with_slices fg_slices] in Hs.
    apply in_map_iff in Hs as [[k s'] [E I]]. cbn in E. subst s'. unfold slices_update in I. apply in_supdate in I as [I|[[k' s'] [I [Ek E]]]]; [| |exact scmp_eq].
    + left. exists s. split; [|exact Hl]. apply in_map_iff. now exists (k, s).
    + injection E as -> ->. cbn [with_logs fs_logs] in Hl. apply log_extend_in in Hl as [Hl|Hl]; [|now right]. left. exists ex. split; [|exact Hl].
      apply slices_get_some in G as [G _]. apply in_map_iff. now exists (k0, ex).
  - injection H as <-. unfold slices in Hs. cbn [with_slices fg_slices] in Hs. apply in_map_iff in Hs as [[k s'] [E I]]. cbn in E. subst s'.
    unfold slices_put in I. apply in_sput in I as [E|I].
    + injection E as -> ->. now right.
    + left. exists s. split; [|exact Hl]. apply in_map_iff. now exists (k, s).
Qed.
Lemma merge_from : forall l g h m, merge_group g h = (m, Ok tt) -> holds_log l m -> holds_log l g \/ holds_log l h.
Proof.
  intros l g h m H. unfold merge_group in H. destruct (negb (fg_eqb g h)); [discriminate|].
  assert (X : forall es g0, add_each merge_entry g0 es = (m, Ok tt) -> holds_log l m -> holds_log l g0 \/ exists e, In e es /\ In l (fs_logs (snd e))).
  { clear H. induction es as [|e es IH]; intros g0 H Hm; cbn [add_each] in H; [injection H as ->; now left|].
    destruct (merge_entry g0 e) as [g1 [[]|er|]] eqn:E; try discriminate. destruct (IH g1 H Hm) as [Y|[e' [Y1 Y2]]].
    - apply (merge_entry_from l g0 e g1 E) in Y as [Y|Y]; [now left|right; exists e; split; [now left|exact Y]].
    - right. exists e'. split; [now right|exact Y2]. }
  intros Hm. destruct (X _ _ H Hm) as [Y|[e [Y1 Y2]]]; [now left|]. right. exists (snd e). split; [now apply in_map|exact Y2].
Qed.
Lemma merge_one_from : forall l s g s' x, merge_one s g = Ok s' -> gs_ok s -> reachable g -> In x s' -> holds_log l x ->
  exists y, ident y = ident x /\ holds_log l y /\ (In y s \/ y = g).
Proof.
  intros l s g s' x H [D R] Rg Hx Hl. unfold merge_one in H. destruct (gs_take g s) as [[y r]|] eqn:E.
  - apply bind_ok in H as [m [Hm H]]. injection H as <-. apply lift_mut_ok in Hm. apply gs_take_some in E as [Hy [Ey P]].
    apply gs_insert_in in Hx as [Hx| -> ].
    + exists x. split; [reflexivity|]. split; [exact Hl|]. left. apply (Permutation_in (l := y :: r)); [now symmetry|now right].
    + assert (Ry : reachable y) by (rewrite Forall_forall in R; auto).
      destruct (merge_contents _ _ _ (reachable_wf _ Ry) (reachable_wf _ Rg) Hm) as [Im [Pm _]].
      apply (merge_from l y g m Hm) in Hl as [Hl|Hl]; [exists y|exists g]; (split; [unfold ident in *; congruence|]); auto.
  - injection H as <-. apply gs_insert_in in Hx as [Hx| -> ]; eauto.
Qed.
Lemma merge_groups_from : forall l gl s s' x, merge_groups s gl = Ok s' -> gs_ok s -> Forall reachable gl -> In x s' -> holds_log l x ->
  exists y, ident y = ident x /\ holds_log l y /\ (In y s \/ In y gl).
Proof.
  intros l. induction gl as [|g gl IH]; intros s s' x H O R Hx Hl; cbn in H.
  - injection H as <-. eauto.
  - apply bind_ok in H as [s1 [H1 H2]]. inversion R; subst. destruct (merge_one_spec _ _ _ O ltac:(eassumption) H1) as [O1 _].
    destruct (IH _ _ _ H2 O1 ltac:(eassumption) Hx Hl) as [y [Y1 [Y2 [Y3|Y3]]]]; [|exists y; split; [exact Y1|]; split; [exact Y2|]; right; now right].
    destruct (merge_one_from l _ _ _ _ H1 O ltac:(eassumption) Y3 Y2) as [z [Z1 [Z2 Z3]]]. exists z. split; [congruence|]. split; [exact Z2|]. destruct Z3 as [Z3| -> ]; [now left|right; now left].
Qed.
Lemma stat_log_from : forall p stat g l, stat_group p stat = Ok g -> holds_log l g ->
  exists base logs b name, names_files stat (fg_id g) base logs /\ base_file_from_str base = Ok b /\ bf_commit b = lf_base_commit l /\ In name logs /\ log_file_from_str name = Ok l.
Proof.
  intros p stat g l H Hl. apply stat_group_inv in H as [id [base [logs [b [ls [H1 [H2 [H3 H4]]]]]]]].
  destruct (run_contents _ _ _ (wf_new id p) H4) as [I4 _]. cbn in I4.
  assert (E1 : logs_of (AddBase b :: map AddLog ls) = ls) by exact (logs_of_maps [] ls).
  assert (E2 : bases_of (AddBase b :: map AddLog ls) = [b]) by (rewrite bases_of_base; f_equal; exact (bases_of_maps [] ls)).
  destruct (run_spec _ _ _ (wf_new id p) H4) as [_ [_ [_ [_ [_ [_ L]]]]]]. rewrite E1, E2 in L.
  assert (X : forall ops g0 g1, run g0 ops = Some g1 -> holds_log l g1 -> holds_log l g0 \/ In l (logs_of ops)).
  { clear. induction ops as [|o ops IH]; intros g0 g1 H Hl; [injection H as <-; now left|]. apply run_cons in H as [g2 [H1 H2]].
    destruct (IH _ _ H2 Hl) as [Y|Y]; [|right; destruct o; cbn; [exact Y|now right]].
    destruct Y as [s [Hs Ls]]. destruct o as [b|l']; cbn in H1.
    - unfold add_base_file in H1. destruct (slices_get (bf_commit b) (fg_slices g0)); [discriminate|]. injection H1 as <-. unfold slices in Hs. cbn [with_slices fg_slices] in Hs.
      apply in_map_iff in Hs as [[k s'] [E I]]. cbn in E. subst s'. unfold slices_put in I. apply in_sput in I as [E|I].
      + injection E as -> ->. destruct Ls.
      + left. exists s. split; [|exact Ls]. apply in_map_iff. now exists (k, s).
    - unfold add_log_file in H1. destruct (slices_get (lf_base_commit l') (fg_slices g0)); [|discriminate]. injection H1 as <-. unfold slices in Hs. cbn [with_slices fg_slices] in Hs.
      apply in_map_iff in Hs as [[k s'] [E I]]. cbn in E. subst s'. unfold slices_update in I. apply in_supdate in I as [I|[[k' s'] [I [Ek E]]]]; [| |exact scmp_eq].
      + left. exists s. split; [|exact Ls]. apply in_map_iff. now exists (k, s).
      + injection E as -> ->. cbn [with_logs fs_logs snd] in Ls. apply log_insert_in in Ls as [ -> |Ls]; [right; cbn; now left|]. left. exists s'. split; [|exact Ls]. apply in_map_iff. now exists (k', s'). }
  destruct (X _ _ _ H4 Hl) as [[s [[] _]]|Y]. rewrite E1 in Y. destruct (L l Y) as [Z|[Z|[]]]; [now elim Z|].
  destruct (forall2_in _ _ _ _ _ H3) as [_ F2]. destruct (F2 l Y) as [name [N1 N2]]. exists base, logs, b, name. rewrite I4. auto.
Qed.
Lemma build_log_from : forall md gs g l, build_file_groups md = Ok gs -> In g gs -> holds_log l g -> names_log_file md (fg_partition g) (fg_id g) (lf_base_commit l) l.
Proof.
  intros md gs g l H Hg Hl. destruct (build_facts _ _ H) as [_ [G _]]. destruct (G g Hg) as [stat [W K]].
  destruct (stat_log_from _ _ _ _ K Hl) as [base [logs [b [name [N1 [N2 [N3 [N4 N5]]]]]]]]. exists stat, base, logs, b, name. auto 10.
Qed.

Section B.
Variable dtype : Type.
Variable L : ndt -> option ndt.
Variable st : store dtype.
Variable tb : table.
Variable order : nat -> list file_group -> list file_group.
Hypothesis perm : forall n l, Permutation l (order n l).

Lemma between_reachable : forall read tz commits start stop gs,
  get_file_groups_between L read order tz commits start stop = Ok gs -> Forall reachable gs.
Proof.
  intros read tz commits start stop gs H. unfold get_file_groups_between in H.
  apply bind_ok in H as [sel [_ H]]. apply bind_ok in H as [[fgs rep] [Hl H]]. injection H as <-.
  destruct (between_loop_spec read order perm _ _ _ _ _ _ Hl gs_empty_ok gs_empty_ok) as [[_ R] _].
  rewrite Forall_forall in *. intros g Hg. unfold gs_difference in Hg. apply filter_In in Hg as [Hg _]. auto.
Qed.

Lemma loop_built : forall read l n fgs rep r, between_loop read order n fgs rep l = Ok r ->
  forall i md, In i l -> read (instant_relative_path i) = Ok md -> exists b, build_file_groups md = Ok b.
Proof.
  intros read. induction l as [|x l IH]; intros n fgs rep r H i md Hi Hm; [elim Hi|].
  cbn [between_loop] in H. apply bind_ok in H as [md' [H1 H]]. apply bind_ok in H as [b [H2 H]].
  apply bind_ok in H as [f' [_ H]]. apply bind_ok in H as [r' [_ H]]. destruct Hi as [ -> |Hi]; [|eauto].
  unfold instant_metadata in H1. exists b. congruence.
Qed.
Lemma between_built : forall read tz commits start stop gs s e, StronglySorted instant_le commits ->
  get_file_groups_between L read order tz commits start stop = Ok gs ->
  opt_traverse (fun ts => parse_datetime L ts tz) start = Ok s -> opt_traverse (fun ts => parse_datetime L ts tz) stop = Ok e ->
  forall i md, commit_in read commits (option_map epoch_millis s) (option_map epoch_millis e) i md -> exists b, build_file_groups md = Ok b.
Proof.
  intros read tz commits start stop gs s e S H Es Ee i md [H1 [H2 [H3 H4]]]. unfold get_file_groups_between in H.
  apply bind_ok in H as [sel [Hsel H]]. apply bind_ok in H as [[fgs rep] [Hl H]]. injection H as <-.
  destruct (select_exact L _ _ _ _ _ _ Hsel S) as [s' [e' [Es' [Ee' F]]]]. rewrite Es in Es'. rewrite Ee in Ee'. injection Es' as <-. injection Ee' as <-.
  apply (loop_built _ _ _ _ _ _ Hl i md); [|exact H4]. rewrite F, filter_In. split; [assumption|].
  rewrite all_actions, andb_true_r, andb_true_iff, state_completed. auto.
Qed.

Lemma loop_logs_from : forall read l0 l n fgs rep fgs' rep', between_loop read order n fgs rep l = Ok (fgs', rep') -> gs_ok fgs -> gs_ok rep ->
  forall x, In x fgs' -> holds_log l0 x -> (exists y, In y fgs /\ ident y = ident x /\ holds_log l0 y)
    \/ exists i md, In i l /\ read (instant_relative_path i) = Ok md /\ names_log_file md (fg_partition x) (fg_id x) (lf_base_commit l0) l0.
Proof.
  intros read l0. induction l as [|i l IH]; intros n fgs rep fgs' rep' H Of Or x Hx Hl.
  - cbn in H. injection H as <- <-. left. eauto.
  - assert (Sp := between_loop_spec read order perm [i] n fgs rep).
    cbn [between_loop] in H, Sp. apply bind_ok in H as [md [Hmd H]]. apply bind_ok in H as [built [Hb H]].
    apply bind_ok in H as [f1 [Hf1 H]]. apply bind_ok in H as [r1 [Hr1 H]]. rewrite Hmd in Sp. cbn [bind] in Sp. rewrite Hb in Sp. cbn [bind] in Sp. rewrite Hf1 in Sp. cbn [bind] in Sp. rewrite Hr1 in Sp. cbn [bind] in Sp.
    destruct (Sp f1 r1 eq_refl Of Or) as [O1 [R1 _]]. destruct (build_facts _ _ Hb) as [Ob _].
    destruct (IH _ _ _ _ _ H O1 R1 x Hx Hl) as [[y [Y1 [Y2 Y3]]]|[j [md' [J1 J2]]]]; [|right; exists j, md'; split; [now right|exact J2]].
    assert (Fb : Forall reachable (order n built)) by (rewrite <- (perm n built); apply Ob).
    destruct (merge_groups_from l0 _ _ _ _ Hf1 Of Fb Y1 Y3) as [z [Z1 [Z2 [Z3|Z3]]]]; [left; exists z; split; [exact Z3|]; split; [congruence|exact Z2]|].
    right. exists i, md. split; [now left|]. split; [exact Hmd|]. apply (Permutation_in (l' := built)) in Z3; [|symmetry; apply perm].
    assert (N := build_log_from _ _ _ _ Hb Z3 Z2). assert (E : ident z = ident x) by congruence. unfold ident in E. injection E as E1 E2. now rewrite <- E1, <- E2.
Qed.
Lemma between_logs_from : forall read tz commits start stop gs s e, StronglySorted instant_le commits ->
  get_file_groups_between L read order tz commits start stop = Ok gs ->
  opt_traverse (fun ts => parse_datetime L ts tz) start = Ok s -> opt_traverse (fun ts => parse_datetime L ts tz) stop = Ok e ->
  forall g l, In g gs -> holds_log l g -> exists i md, commit_in read commits (option_map epoch_millis s) (option_map epoch_millis e) i md
    /\ names_log_file md (fg_partition g) (fg_id g) (lf_base_commit l) l.
Proof.
  intros read tz commits start stop gs s e S H Es Ee g l Hg Hl. unfold get_file_groups_between in H.
  apply bind_ok in H as [sel [Hsel H]]. apply bind_ok in H as [[fgs rep] [Hl0 H]]. injection H as <-. unfold gs_difference in Hg. apply filter_In in Hg as [Hg _].
  destruct (select_exact L _ _ _ _ _ _ Hsel S) as [s' [e' [Es' [Ee' F]]]]. rewrite Es in Es'. rewrite Ee in Ee'. injection Es' as <-. injection Ee' as <-.
  destruct (loop_logs_from read l _ _ _ _ _ _ Hl0 gs_empty_ok gs_empty_ok g Hg Hl) as [[y [[] _]]|[i [md [I1 [I2 I3]]]]].
  exists i, md. split; [|exact I3]. rewrite F, filter_In in I1. destruct I1 as [I0 I1]. rewrite all_actions, andb_true_r, andb_true_iff, state_completed in I1. destruct I1. split; [exact I0|]. auto.
Qed.

Lemma between_exact : StronglySorted instant_le (t_commits tb) ->
  forall start e ss, slices_between dtype L st tb order start e = Ok ss ->
  exists tz ds de, timeline_timezone (t_configs tb) = Ok tz /\ parse_datetime L start tz = Ok ds /\ parse_datetime L e tz = Ok de
  /\ ((forall i md, commit_in (st_json _ st) (t_commits tb) (Some (epoch_millis ds)) (Some (epoch_millis de)) i md -> unique_stats md) ->
      changed_slices (st_json _ st) (t_commits tb) (epoch_millis ds) (epoch_millis de) e ss).
Proof.
  intros So start e ss H. unfold slices_between in H. apply bind_ok in H as [tz [Ht H]]. apply bind_ok in H as [gs [Hg H]]. injection H as <-.
  assert (R := between_reachable _ _ _ _ _ _ Hg).
  destruct (groups_between L (st_json _ st) order perm tz _ _ _ _ So Hg) as [s' [e' [Es [Ee [Nd [Id Co]]]]]].
  cbn [opt_traverse] in Es, Ee. apply bind_ok in Es as [ds [Hs Es]]. apply bind_ok in Ee as [de [He Ee]]. injection Es as <-. injection Ee as <-.
  cbn [option_map] in *. exists tz, ds, de. split; [assumption|]. split; [assumption|]. split; [assumption|]. intros U.
  unfold changed_slices. set (commit := commit_in (st_json _ st) (t_commits tb) (Some (epoch_millis ds)) (Some (epoch_millis de))) in *.
  assert (B : forall g, In g gs ->
     (forall c n, has_base g c n <-> exists i md, commit i md /\ names_base md (fg_partition g) (fg_id g) c n)
     /\ (forall c v w, has_log g c v w <-> exists i md, commit i md /\ names_log md (fg_partition g) (fg_id g) c v w)).
  { intros g Hin. destruct (Co g Hin) as [C1 C2]. assert (W := between_built _ _ _ _ _ _ (Some ds) (Some de) So Hg).
    cbn [opt_traverse option_map] in W. rewrite Hs, He in W. specialize (W eq_refl eq_refl). fold commit in W. split.
    - intros c n. rewrite C1. split.
      + intros [i [md [b [h [K1 [K2 [K3 [K4 K5]]]]]]]]. exists i, md. split; [assumption|].
        apply (proj1 (build_exact _ _ K2 (U _ _ K1) (fg_partition g) (fg_id g))). exists h. auto.
      + intros [i [md [K1 K2]]]. destruct (W i md K1) as [b Hb].
        destruct (proj2 (proj1 (build_exact _ _ Hb (U _ _ K1) (fg_partition g) (fg_id g)) c n) K2) as [h [G1 [G2 G3]]]. exists i, md, b, h. auto 10.
    - intros c v w. rewrite C2. split.
      + intros [i [md [b [h [K1 [K2 [K3 [K4 K5]]]]]]]]. exists i, md. split; [assumption|].
        apply (proj2 (build_exact _ _ K2 (U _ _ K1) (fg_partition g) (fg_id g))). exists h. auto.
      + intros [i [md [K1 K2]]]. destruct (W i md K1) as [b Hb].
        destruct (proj2 (proj2 (build_exact _ _ Hb (U _ _ K1) (fg_partition g) (fg_id g)) c v w) K2) as [h [G1 [G2 G3]]]. exists i, md, b, h. auto 10. }
  assert (A : forall g, In g gs -> wf_group g /\ fg_partition g = fst (ident g) /\ fg_id g = snd (ident g)).
  { intros g Hin. rewrite Forall_forall in R. split; [apply reachable_wf; auto|split; reflexivity]. }
  set (some g := match get_file_slice_as_of g e with Some _ => true | None => false end).
  exists (map ident (filter some gs)). split; [|split].
  - clear - Nd. induction gs as [|g gs IH]; [constructor|]. cbn in *. inversion Nd; subst. destruct (some g); [|auto]. cbn. constructor; [|auto].
    intros X. apply H1. apply in_map_iff in X as [y [Y1 Y2]]. apply filter_In in Y2 as [Y2 _]. rewrite <- Y1. now apply in_map.
  - intros p id. split.
    + intros X. apply in_map_iff in X as [g [Eg Hin]]. apply filter_In in Hin as [Hin Sg]. unfold some in Sg.
      destruct (A g Hin) as [Wg [Ep Ei]]. rewrite Eg in Ep, Ei. cbn in Ep, Ei.
      split.
      * assert (Sp := as_of_spec g e Wg). destruct (get_file_slice_as_of g e) as [s|]; [|discriminate]. destruct Sp as [S1 [S2 _]].
        exists (bf_commit (fs_base s)), (base_file_name (fs_base s)). split; [|assumption].
        rewrite <- Ep, <- Ei. apply (proj1 (B g Hin)). exists s. auto.
      * apply (proj2 (proj1 (Id p id) ltac:(rewrite <- Eg; now apply in_map))).
    + intros [[c [n [[i [md [K1 K2]]] Hc]]] Nr].
      assert (Hin : In (p, id) (map ident gs)).
      { apply Id. split; [|exact Nr]. destruct K2 as [stat [base [logs [b [W1 [W2 _]]]]]]. exists i, md, stat. split; [assumption|]. split; [assumption|]. destruct W2; assumption. }
      apply in_map_iff in Hin as [g [Eg Hin]]. apply in_map_iff. exists g. split; [assumption|]. apply filter_In. split; [assumption|].
      destruct (A g Hin) as [Wg [Ep Ei]]. rewrite Eg in Ep, Ei. cbn in Ep, Ei. unfold some. assert (Sp := as_of_spec g e Wg).
      destruct (get_file_slice_as_of g e) as [s|]; [reflexivity|]. exfalso.
      assert (X : has_base g c n) by (apply (proj1 (B g Hin)); rewrite Ep, Ei; eauto). destruct X as [s [S1 [S2 S3]]].
      specialize (Sp s S1). rewrite S2 in Sp. apply slt_not_sle in Sp. auto.
  - assert (LF := between_logs_from _ _ _ _ _ _ (Some ds) (Some de) So Hg). cbn [opt_traverse option_map] in LF. rewrite Hs, He in LF. specialize (LF eq_refl eq_refl). fold commit in LF.
    clear Nd Id Co Hg. induction gs as [|g gs IH]; [constructor|].
    assert (IH' := IH ltac:(now inversion R) ltac:(intros; apply B; now right) ltac:(intros; apply A; now right) ltac:(intros ? ? ?; apply LF; now right)).
    cbn [filter flat_map]. unfold some at 1. destruct (get_file_slice_as_of g e) as [s|] eqn:Eg; [|exact IH'].
    cbn [map app]. constructor; [|exact IH'].
    destruct (A g (or_introl eq_refl)) as [Wg [Ep Ei]]. destruct (B g (or_introl eq_refl)) as [B1 B2].
    assert (Sp := as_of_spec g e Wg). rewrite Eg in Sp. destruct Sp as [S1 [S2 S3]].
    rewrite Ep, Ei in B1, B2. split; [|split; [|split; [|split; [|split]]]].
    + destruct Wg as [_ Wg]. rewrite Forall_forall in Wg. unfold slices in S1. apply in_map_iff in S1 as [x [X1 X2]]. destruct (Wg x X2) as [_ [X3 _]].
      rewrite <- X1, X3. exact Ep.
    + apply B1. exists s. auto.
    + exact S2.
    + intros c' n' K Hc. apply B1 in K as [s' [K1 [K2 K3]]]. rewrite <- K2 in Hc |- *. destruct (S3 s' K1 Hc) as [ -> |X]; [apply sle_refl|]. now apply slt_sle.
    + intros v w. rewrite <- B2. split.
      * intros [l [L1 L2]]. exists s, l. auto.
      * intros [s' [l [K1 [K2 [K3 K4]]]]]. assert (s' = s); [|subst s'; eauto].
        rewrite (in_slices g) in K1, S1 by assumption. rewrite K2 in K1. congruence.
    + intros l Il. destruct (LF g l (or_introl eq_refl)) as [i [md [C1 C2]]]; [exists s; auto|]. exists i, md. split; [exact C1|].
      rewrite <- (logs_commit g s l Wg S1 Il). exact C2.
Qed.
End B.
Lemma window_end_is : forall tb stop e, window_end (t_commits tb) stop e -> stop_or_latest tb stop = Some e.
Proof.
  intros tb stop e [ -> |[ -> [before [i [E <- ]]]]]; [reflexivity|]. unfold stop_or_latest, latest_commit_timestamp. rewrite E.
  clear. induction before as [|x l IH]; [reflexivity|]. cbn [app last_opt]. destruct (l ++ [i])%list eqn:E; [now destruct l|]. exact IH.
Qed.
Lemma changed_exact : forall dtype L (st : store dtype) tb order, (forall n l, Permutation l (order n l)) ->
  StronglySorted instant_le (t_commits tb) ->
  forall start stop e ss, window_end (t_commits tb) stop e ->
  get_file_slices_between dtype L st tb order start stop = Ok ss ->
  exists tz from until, timeline_timezone (t_configs tb) = Ok tz
  /\ parse_datetime L (match start with Some s => s | None => "19700101000000000" end) tz = Ok from
  /\ parse_datetime L e tz = Ok until
  /\ ((forall i md, commit_in (st_json _ st) (t_commits tb) (Some (epoch_millis from)) (Some (epoch_millis until)) i md -> unique_stats md) ->
      changed_slices (st_json _ st) (t_commits tb) (epoch_millis from) (epoch_millis until) e ss).
Proof.
  intros dtype L st tb order P So start stop e ss He H. unfold get_file_slices_between in H. rewrite (window_end_is _ _ _ He) in H.
  exact (between_exact dtype L st tb order P So _ _ _ H).
Qed.
(** Queries without a time are queries as of the last completed commit. *)
Lemma last_commit : forall before i, latest_commit_timestamp (before ++ [i])%list = Some (i_timestamp i).
Proof.
  intros before i. unfold latest_commit_timestamp.
  induction before as [|x l IH]; [reflexivity|]. cbn [app last_opt]. destruct (l ++ [i])%list eqn:E; [now destruct l|]. exact IH.
Qed.
Lemma latest_is_as_of : forall dtype value cast cmp avro_schema avro_value parse_schema datum check_schema to_batch parquet local_to_utc
    (st : store dtype) tb before i, t_commits tb = (before ++ [i])%list -> forall c c' filters,
  (forall r, get_file_slices dtype value cast cmp local_to_utc st tb filters c c' r
     <-> get_file_slices_as_of dtype value cast cmp local_to_utc st tb (i_timestamp i) filters c c' r)
  /\ (forall n r, get_file_slices_splits dtype value cast cmp local_to_utc st tb n filters c c' r
     <-> get_file_slices_splits_as_of dtype value cast cmp local_to_utc st tb n (i_timestamp i) filters c c' r)
  /\ (forall r, read_snapshot dtype value cast cmp avro_schema avro_value parse_schema datum check_schema to_batch parquet local_to_utc st tb filters c c' r
     <-> read_snapshot_as_of dtype value cast cmp avro_schema avro_value parse_schema datum check_schema to_batch parquet local_to_utc st tb (i_timestamp i) filters c c' r).
Proof.
  intros until tb. intros before i E c c' filters. assert (T : latest_commit_timestamp (t_commits tb) = Some (i_timestamp i)) by (rewrite E; apply last_commit).
  split; [|split]; intros; (split; intros H; [inversion H; subst; [congruence|]|econstructor; eassumption]);
    match goal with A : latest_commit_timestamp _ = Some ?t |- _ => rewrite T in A; injection A as <-; assumption end.
Qed.
