(** File groups from commit metadata carry no file statistics. *)
From Verif Require Import Base Str L_Str M_BTree M_Time M_Instant M_Timeline M_FileGroup M_Builder M_Listing M_Log M_Config M_Reader M_Expr M_Table M_Python
  S_FileGroup S_Builder S_Timeline S_Listing S_Table S_Python L_Base L_BTree L_FileGroup L_Builder L_Listing L_View L_Table L_Incremental L_Python.
Local Open Scope string_scope.

Definition bare (g : file_group) : Prop := forall s, In s (slices g) -> bf_meta (fs_base s) = None.
Lemma bare_add_base : forall g b g', bare g -> bf_meta b = None -> add_base_file g b = (g', Ok tt) -> bare g'.
Proof.
  intros g b g' P B H s Hs. apply add_base_ok in H as [_ ->]. unfold slices in Hs. cbn [with_slices fg_slices] in Hs.
  apply in_map_iff in Hs as [[k s'] [E I]]. cbn in E. subst s'. unfold slices_put in I. apply in_sput in I as [E|I].
  - injection E as -> ->. exact B.
  - apply P. apply in_map_iff. now exists (k, s).
Qed.
Lemma bare_add_log : forall g l g', bare g -> add_log_file g l = (g', Ok tt) -> bare g'.
Proof.
  intros g l g' P H s Hs. apply add_log_ok in H as [_ ->]. unfold slices in Hs. cbn [with_slices fg_slices] in Hs.
  apply in_map_iff in Hs as [[k s'] [E I]]. cbn in E. subst s'. unfold slices_update in I. apply in_supdate in I as [I|[[k' s'] [I [Ek E]]]]; [| |exact scmp_eq].
  - apply P. apply in_map_iff. now exists (k, s).
  - injection E as -> ->. cbn [with_logs fs_base snd]. apply P. apply in_map_iff. now exists (k', s').
Qed.
Lemma bare_merge : forall g h m, bare g -> bare h -> merge_group g h = (m, Ok tt) -> bare m.
Proof.
  intros g h m Pg Ph H. unfold merge_group in H. destruct (negb (fg_eqb g h)); [discriminate|].
  assert (Pe : forall e, In e (fg_slices h) -> bf_meta (fs_base (snd e)) = None).
  { intros e He. apply Ph. now apply in_map. }
  clear Ph. revert g Pg H Pe. generalize (fg_slices h). induction s as [|e es IH]; intros g Pg H Pe; cbn [add_each] in H; [injection H as <-; exact Pg|].
  destruct (merge_entry g e) as [g1 [[]|er|]] eqn:E; try discriminate. apply (IH g1); [|exact H|intros x Hx; apply Pe; now right].
  pose proof (Pe e (or_introl eq_refl)) as Be. clear IH H Pe. intros s Hs.
  apply merge_entry_ok in E as [[_ ->]|[x [G [_ ->]]]]; unfold slices in Hs; cbn [with_slices fg_slices] in Hs;
    apply in_map_iff in Hs as [[k s'] [Es I]]; cbn in Es; subst s'.
  - unfold slices_put in I. apply in_sput in I as [E|I]; [injection E as -> ->; exact Be|]. apply Pg. apply in_map_iff. now exists (k, s).
  - unfold slices_update in I. apply in_supdate in I as [I|[[k' s'] [I [Ek E]]]]; [| |exact scmp_eq].
    + apply Pg. apply in_map_iff. now exists (k, s).
    + injection E as -> ->. apply slices_get_some in G as [G _]. exact (Pg (snd x) ltac:(apply in_map; exact G)).
Qed.
Lemma bare_run : forall ops g g', run g ops = Some g' -> bare g -> (forall b, In (AddBase b) ops -> bf_meta b = None) -> bare g'.
Proof.
  induction ops as [|o ops IH]; intros g g' H P F; [injection H as <-; exact P|]. apply run_cons in H as [g1 [H1 H2]].
  apply (IH g1 g' H2); [|intros x Hx; apply F; now right].
  destruct o as [b|l]; cbn in H1; [exact (bare_add_base _ _ _ P (F b (or_introl eq_refl)) H1)|exact (bare_add_log _ _ _ P H1)].
Qed.
Lemma named_bare : forall n b, base_file_from_str n = Ok b -> bf_meta b = None.
Proof.
  intros n b H. unfold base_file_from_str, base_file_of in H. destruct (parse_base_name n) as [[[[? ?] ?] ?]| |]; try discriminate. cbn in H. now injection H as <-.
Qed.
Lemma bare_stat : forall p stat g, stat_group p stat = Ok g -> bare g.
Proof.
  intros p stat g H. apply stat_group_inv in H as [id [base [logs [b [ls [_ [H2 [H3 H4]]]]]]]].
  apply (bare_run _ _ _ H4); [intros s []|]. intros b' [[= <-]|Ho].
  - exact (named_bare _ _ H2).
  - apply in_map_iff in Ho as [l [E _]]. discriminate E.
Qed.
Lemma bare_build : forall md gs, build_file_groups md = Ok gs -> Forall bare gs.
Proof.
  intros md gs H. apply Forall_forall. intros g Hg. destruct (build_facts _ _ H) as [_ [G _]]. destruct (G g Hg) as [stat [_ K]]. eapply bare_stat; exact K.
Qed.
Lemma bare_groups : forall l s s', merge_groups s l = Ok s' -> Forall bare s -> Forall bare l -> Forall bare s'.
Proof.
  induction l as [|g l IH]; intros s s' H Fs Fl; unfold merge_groups in H; cbn [foldM] in H; [injection H as <-; exact Fs|].
  apply bind_ok in H as [s1 [H1 H2]]. inversion Fl as [|? ? Pg Fl']; subst. apply (IH s1 s' H2); [|exact Fl'].
  unfold merge_one in H1. rewrite Forall_forall in *. destruct (gs_take g s) as [[y r]|] eqn:E.
  - apply bind_ok in H1 as [m [Hm H1]]. injection H1 as <-. apply lift_mut_ok in Hm. apply gs_take_some in E as [Hy [_ P]].
    intros x Hx. apply gs_insert_in in Hx as [Hx| -> ].
    + apply Fs. apply (Permutation_in (l := y :: r)); [now symmetry|now right].
    + exact (bare_merge y g m (Fs y Hy) Pg Hm).
  - injection H1 as <-. intros x Hx. apply gs_insert_in in Hx as [Hx| -> ]; auto.
Qed.
Lemma bare_loop : forall read order, (forall n l, Permutation l (order n l)) -> forall l n fgs rep fgs' rep',
  between_loop read order n fgs rep l = Ok (fgs', rep') -> Forall bare fgs -> Forall bare fgs'.
Proof.
  intros read order perm. induction l as [|i l IH]; intros n fgs rep fgs' rep' H F; cbn [between_loop] in H; [injection H as <- <-; exact F|].
  apply bind_ok in H as [md [_ H]]. apply bind_ok in H as [built [Hb H]]. apply bind_ok in H as [f1 [Hf1 H]]. apply bind_ok in H as [r1 [_ H]].
  apply (IH _ _ _ _ _ H). apply (bare_groups _ _ _ Hf1 F). rewrite Forall_forall. intros g Hg.
  apply bare_build in Hb. rewrite Forall_forall in Hb. apply Hb. eapply Permutation_in; [symmetry; apply perm|exact Hg].
Qed.
Lemma between_bare : forall dtype L (st : store dtype) tb order, (forall n l, Permutation l (order n l)) ->
  forall start stop ss, get_file_slices_between dtype L st tb order start stop = Ok ss -> forall s, In s ss -> bf_meta (fs_base s) = None.
Proof.
  intros dtype L st tb order perm start stop ss H s Hs. unfold get_file_slices_between in H.
  destruct (stop_or_latest tb stop) as [e|]; [|injection H as <-; destruct Hs]. unfold slices_between in H.
  apply bind_ok in H as [tz [_ H]]. apply bind_ok in H as [gs [Hg H]]. injection H as <-.
  apply in_flat_map in Hs as [g [Hin Hs]]. pose proof (between_reachable L order perm _ _ _ _ _ _ Hg) as R. rewrite Forall_forall in R.
  pose proof (reachable_wf _ (R g Hin)) as W. pose proof (as_of_spec g e W) as A.
  destruct (get_file_slice_as_of g e) as [s0|]; [|destruct Hs]. destruct Hs as [ -> |[]]. destruct A as [A _].
  unfold get_file_groups_between in Hg. apply bind_ok in Hg as [sel [_ Hg]]. apply bind_ok in Hg as [[fgs rep] [Hl Hg]]. injection Hg as <-.
  unfold gs_difference in Hin. apply filter_In in Hin as [Hin _].
  pose proof (bare_loop _ order perm _ _ _ _ _ _ Hl (Forall_nil _)) as F. rewrite Forall_forall in F. exact (F g Hin s A).
Qed.
