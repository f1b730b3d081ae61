(** Lemmas for C10 and C83: when the file groups of a window can be built. *)
From Coq Require Import Sorted.
From Verif Require Import Base Str M_Time M_Instant M_Timeline M_FileGroup M_Builder M_Listing M_Config M_Reader M_Table
  S_Time S_Timeline S_FileGroup S_Builder S_Table L_Base L_Str L_Timeline L_FileGroup L_Builder L_Incremental.
Local Open Scope string_scope.

Section Names.
Variable N : string * string -> string -> string -> Prop.
Hypothesis one : forall x c n n', N x c n -> N x c n' -> n = n'.
Lemma merge_groups_ok : forall gl s, gs_ok s -> Forall reachable gl ->
  (forall x c n, holds s x (fun g => has_base g c n) -> N x c n) -> (forall x c n, holds gl x (fun g => has_base g c n) -> N x c n) ->
  exists s', merge_groups s gl = Ok s'.
Proof.
  unfold merge_groups. induction gl as [|g gl IH]; intros s O R H1 H2; [eexists; reflexivity|]. cbn [foldM]. inversion R as [|? ? Rg R']; subst.
  assert (X : exists s1, merge_one s g = Ok s1).
  { unfold merge_one. destruct (gs_take g s) as [[y r]|] eqn:E; [|eauto]. apply gs_take_some in E as [Hy [Ey _]].
    assert (Ry : reachable y) by (destruct O as [_ F]; rewrite Forall_forall in F; auto).
    destruct (proj2 (merge_ok_iff y g (reachable_wf _ Ry) (reachable_wf _ Rg))) as [m M].
    - unfold ident in Ey. split; [congruence|]. split; [congruence|]. intros c n1 n2 B1 B2. apply (one (ident g) c); [apply H1; exists y; auto|apply H2; exists g; split; [now left|auto]].
    - rewrite M. cbn. eauto. }
  destruct X as [s1 X]. rewrite X. cbn [bind]. destruct (merge_one_spec _ _ _ O Rg X) as [O1 S1]. apply IH; [exact O1|exact R'| |].
  - intros x c n B. apply (S1 x _ (additive_base c n)) in B as [B|[ <- B]]; [now apply H1|]. apply H2. exists g. split; [now left|auto].
  - intros x c n [h [I B]]. apply H2. exists h. split; [now right|exact B].
Qed.

Variable read : string -> outcome (list (string * json)).
Variable order : nat -> list file_group -> list file_group.
Hypothesis perm : forall n l, Permutation l (order n l).
Lemma loop_ok : forall l n fgs rep, gs_ok fgs ->
  (forall i, In i l -> exists md built, read (instant_relative_path i) = Ok md /\ build_file_groups md = Ok built /\ (is_replacecommit i = true -> replace_metadata_ok md)
      /\ forall x c n, holds built x (fun g => has_base g c n) -> N x c n) ->
  (forall x c n, holds fgs x (fun g => has_base g c n) -> N x c n) ->
  exists r, between_loop read order n fgs rep l = Ok r.
Proof.
  induction l as [|i l IH]; intros n fgs rep O H F; [eexists; reflexivity|]. cbn [between_loop].
  destruct (H i (or_introl eq_refl)) as [md [built [R [B [RO HB]]]]]. unfold instant_metadata. rewrite R. cbn [bind]. rewrite B. cbn [bind].
  destruct (build_facts _ _ B) as [[_ Rb] _].
  assert (Rp : Forall reachable (order n built)) by (rewrite <- (perm n built); exact Rb).
  assert (HP : forall x Q, holds (order n built) x Q <-> holds built x Q) by (intros x Q; apply holds_perm; symmetry; apply perm).
  destruct (merge_groups_ok (order n built) fgs O Rp F) as [s' M]; [intros x c m X; apply HB; now apply HP|].
  rewrite M. cbn [bind]. destruct (merge_groups_spec _ _ _ O Rp M) as [O' S'].
  assert (F' : forall x c m, holds s' x (fun g => has_base g c m) -> N x c m).
  { intros x c m X. apply (S' x _ (additive_base c m)) in X as [X|X]; [now apply F|]. apply HB. now apply HP. }
  destruct (is_replacecommit i); [|apply IH; [exact O'|intros j J; apply H; now right|exact F']].
  destruct (build_replaced_ok md (RO eq_refl)) as [rg ->]. cbn [bind]. apply IH; [exact O'|intros j J; apply H; now right|exact F'].
Qed.
End Names.

Lemma replace_is : forall i, is_replacecommit i = true <-> i_action i = ReplaceCommit.
Proof. intros i. unfold is_replacecommit. destruct (i_action i); cbn; split; congruence. Qed.

Section Between.
Variable L : ndt -> option ndt.
Variable read : string -> outcome (list (string * json)).
Variable order : nat -> list file_group -> list file_group.
Hypothesis perm : forall n l, Permutation l (order n l).

Lemma built_names : forall md built, build_file_groups md = Ok built -> forall p id c n, holds built (p, id) (fun g => has_base g c n) -> names_base md p id c n.
Proof.
  intros md built B p id c n [h [I [E H]]]. destruct (build_facts _ _ B) as [_ [G _]]. destruct (G h I) as [stat [W K]].
  destruct (stat_contents _ _ _ K) as [_ [base [logs [b [N [F [HB _]]]]]]]. injection E as <- <-. apply HB in H as [H1 H2]. exists stat, base, logs, b. auto.
Qed.

Lemma loop_facts : forall l n fgs rep r, between_loop read order n fgs rep l = Ok r -> forall i, In i l ->
  exists md built, read (instant_relative_path i) = Ok md /\ build_file_groups md = Ok built /\ (is_replacecommit i = true -> replace_metadata_ok md).
Proof.
  induction l as [|j l IH]; intros n fgs rep r H i I; [destruct I|]. cbn [between_loop] in H. unfold instant_metadata in H. apply bind_ok in H as [md [R H]]. apply bind_ok in H as [built [B H]].
  apply bind_ok in H as [s' [_ H]]. apply bind_ok in H as [rep' [RR H]]. destruct I as [ <- |I]; [|eapply IH; eauto].
  exists md, built. split; [exact R|]. split; [exact B|]. intros E. rewrite E in RR. apply bind_ok in RR as [rg [RG _]]. now apply build_replaced_spec in RG.
Qed.

Lemma between_ok : forall tz commits start stop st en, StronglySorted instant_le commits ->
  opt_traverse (fun ts => parse_datetime L ts tz) start = Ok st -> opt_traverse (fun ts => parse_datetime L ts tz) stop = Ok en ->
  window_fine read commits (option_map epoch_millis st) (option_map epoch_millis en) ->
  exists gs, get_file_groups_between L read order tz commits start stop = Ok gs.
Proof.
  intros tz commits start stop st en S Es Ee [W1 W2]. unfold get_file_groups_between.
  assert (Hsel : exists sel, completed_actions_in_range L DEFAULT_LOADING_ACTIONS tz start stop = Ok sel).
  { unfold completed_actions_in_range. rewrite Es, Ee. cbn. eauto. }
  destruct Hsel as [sel Hsel]. rewrite Hsel. cbn [bind]. destruct (select_exact L _ _ _ _ _ _ Hsel S) as [st' [en' [Es' [Ee' F]]]].
  assert (st' = st) by congruence. assert (en' = en) by congruence. subst st' en'.
  assert (IN : forall i, In i (select sel commits) -> In i commits /\ i_state i = Completed /\ in_window (option_map epoch_millis st) (option_map epoch_millis en) (i_epoch i) = true).
  { intros i I. rewrite F in I. apply filter_In in I as [I C]. apply andb_true_iff in C as [C C2]. apply andb_true_iff in C as [C0 C1]. apply state_completed in C2. auto. }
  set (Nm := fun (x : string * string) c n => exists i md, commit_in read commits (option_map epoch_millis st) (option_map epoch_millis en) i md /\ names_base md (fst x) (snd x) c n).
  destruct (loop_ok Nm) with (read := read) (order := order) (l := select sel commits) (n := O) (fgs := @nil file_group) (rep := @nil file_group) as [[fgs rep] E].
  - intros x c n n' [i [md [C H]]] [i' [md' [C' H']]]. exact (W2 i md i' md' (fst x) (snd x) c n n' C C' H H').
  - exact perm.
  - apply gs_empty_ok.
  - intros i I. destruct (IN i I) as [I1 [I2 I3]]. destruct (W1 i I1 I2 I3) as [md [R [A RO]]]. destruct (proj2 (build_accepts_iff md) A) as [built B].
    exists md, built. split; [exact R|]. split; [exact B|]. split; [intros X; apply RO; now apply replace_is|].
    intros [p id] c n H. exists i, md. split; [split; auto|]. exact (built_names _ _ B _ _ _ _ H).
  - intros x c n [h [[] _]].
  - rewrite E. cbn. eauto.
Qed.

Lemma between_ok_iff : forall tz commits start stop st en, StronglySorted instant_le commits ->
  opt_traverse (fun ts => parse_datetime L ts tz) start = Ok st -> opt_traverse (fun ts => parse_datetime L ts tz) stop = Ok en ->
  (forall i md, commit_in read commits (option_map epoch_millis st) (option_map epoch_millis en) i md -> unique_stats md) ->
  ((exists gs, get_file_groups_between L read order tz commits start stop = Ok gs) <-> window_fine read commits (option_map epoch_millis st) (option_map epoch_millis en)).
Proof.
  intros tz commits start stop st en S Es Ee U. split; [|now apply between_ok]. intros [gs H]. unfold get_file_groups_between in H.
  apply bind_ok in H as [sel [Hsel H]]. apply bind_ok in H as [[fgs rep] [Hl _]]. destruct (select_exact L _ _ _ _ _ _ Hsel S) as [st' [en' [Es' [Ee' F]]]].
  assert (st' = st) by congruence. assert (en' = en) by congruence. subst st' en'.
  assert (IN : forall i, In i commits -> i_state i = Completed -> in_window (option_map epoch_millis st) (option_map epoch_millis en) (i_epoch i) = true -> In i (select sel commits)).
  { intros i I1 I2 I3. rewrite F. apply filter_In. split; [exact I1|]. apply andb_true_iff. split; [apply andb_true_iff; split; [exact I3|apply all_actions]|now apply state_completed]. }
  split.
  - intros i I1 I2 I3. destruct (loop_facts _ _ _ _ _ Hl i (IN i I1 I2 I3)) as [md [built [R [B RO]]]]. exists md. split; [exact R|]. split; [apply build_accepts_iff; eauto|]. intros A. apply RO. now apply replace_is.
  - destruct (between_loop_spec read order perm _ _ _ _ _ _ Hl gs_empty_ok gs_empty_ok) as [[D Rf] [_ [Sp _]]].
    assert (K : forall i md p id c n, commit_in read commits (option_map epoch_millis st) (option_map epoch_millis en) i md -> names_base md p id c n -> holds fgs (p, id) (fun g => has_base g c n)).
    { intros i md p id c n C NB. pose proof C as [I1 [I2 [I3 R]]]. apply (Sp _ _ (additive_base c n)). right.
      destruct (loop_facts _ _ _ _ _ Hl i (IN i I1 I2 I3)) as [md' [built [R' [B _]]]]. assert (md' = md) by (unfold instant_relative_path in R'; congruence). subst md'.
      exists i, md, built. split; [auto|]. split; [exact R'|]. split; [exact B|]. destruct (build_exact md built B (U i md C) p id) as [X _]. apply X in NB. exact NB. }
    intros i md i' md' p id c n n' C C' H H'. apply (K i md) in H; [|exact C]. apply (K i' md') in H'; [|exact C']. destruct H as [g [Ig [Eg Hg]]], H' as [g' [Ig' [Eg' Hg']]].
    assert (g' = g).
    { clear -D Ig Ig' Eg Eg'. induction fgs as [|y l IH]; [destruct Ig|]. cbn in D. inversion D as [|? ? D1 D2]; subst. destruct Ig as [ -> |Ig], Ig' as [ -> |Ig']; auto.
      - elim D1. rewrite Eg, <- Eg'. now apply in_map.
      - elim D1. rewrite Eg', <- Eg. now apply in_map. }
    subst g'. rewrite Forall_forall in Rf. assert (Wg := reachable_wf _ (Rf g Ig)).
    destruct Hg as [s1 [A1 [B1 C1]]], Hg' as [s2 [A2 [B2 C2]]].
    assert (s1 = s2); [|congruence]. apply in_slices in A1; [|exact Wg]. apply in_slices in A2; [|exact Wg]. rewrite B1 in A1. rewrite B2 in A2. congruence.
Qed.

Lemma bound_is : forall tz o b, bound_at (fun ts => parse_datetime L ts tz) o b <-> exists d, opt_traverse (fun ts => parse_datetime L ts tz) o = Ok d /\ b = option_map epoch_millis d.
Proof.
  intros tz [ts|] b; unfold bound_at; cbn [opt_traverse].
  - split.
    + intros [d [E ->]]. exists (Some d). rewrite E. split; reflexivity.
    + intros [d [E ->]]. apply bind_ok in E as [x [E1 E2]]. injection E2 as <-. exists x. split; [exact E1|reflexivity].
  - split; [intros ->; now exists None|]. intros [d [E ->]]. now injection E as <-.
Qed.

Lemma between_succeeds_iff : forall tz commits start stop, StronglySorted instant_le commits ->
  (forall s e i md, bound_at (fun ts => parse_datetime L ts tz) start s -> bound_at (fun ts => parse_datetime L ts tz) stop e -> commit_in read commits s e i md -> unique_stats md) ->
  ((exists gs, get_file_groups_between L read order tz commits start stop = Ok gs) <->
   exists s e, bound_at (fun ts => parse_datetime L ts tz) start s /\ bound_at (fun ts => parse_datetime L ts tz) stop e /\ window_fine read commits s e).
Proof.
  intros tz commits start stop S U. split.
  - intros [gs H]. pose proof H as H0. unfold get_file_groups_between in H0. apply bind_ok in H0 as [sel [Hsel _]]. destruct (select_exact L _ _ _ _ _ _ Hsel S) as [st [en [Es [Ee _]]]].
    assert (B1 : bound_at (fun ts => parse_datetime L ts tz) start (option_map epoch_millis st)) by (apply bound_is; eauto).
    assert (B2 : bound_at (fun ts => parse_datetime L ts tz) stop (option_map epoch_millis en)) by (apply bound_is; eauto).
    exists (option_map epoch_millis st), (option_map epoch_millis en). split; [exact B1|]. split; [exact B2|]. eapply between_ok_iff; eauto.
  - intros [s [e [B1 [B2 W]]]]. apply bound_is in B1 as [st [E1 ->]], B2 as [en [E2 ->]]. eapply between_ok; eauto.
Qed.
End Between.
