(** Proofs about commit metadata and the file groups derived from it. *)
From Verif Require Import Base Str L_Str M_Time M_Instant M_Timeline M_FileGroup M_Builder
  S_Time S_Timeline S_FileGroup S_Builder L_Timeline L_FileGroup.
From Coq Require Import Sorting.Sorted.
From Verif Require Export L_Base.
Local Open Scope string_scope.

(** ** Generic *)
Lemma and_then_some : forall A B (o : option A) (f : A -> option B) r, and_then o f = Some r -> exists a, o = Some a /\ f a = Some r.
Proof. intros A B [a|] f r H; cbn in H; [eauto|discriminate]. Qed.
Lemma as_str_some : forall v s, as_str v = Some s -> v = JStr s.
Proof. intros []; cbn; intros; congruence. Qed.
Lemma as_array_some : forall v s, as_array v = Some s -> v = JArr s.
Proof. intros []; cbn; intros; congruence. Qed.
Lemma as_object_some : forall v s, as_object v = Some s -> v = JObj s.
Proof. intros []; cbn; intros; congruence. Qed.

(** ** Sets of groups *)
Lemma fg_eqb_ident : forall a c, fg_eqb a c = true <-> ident a = ident c.
Proof.
  intros. unfold fg_eqb, ident. rewrite andb_true_iff, !String.eqb_eq. split.
  - intros [H1 H2]. congruence.
  - intros H. injection H as H1 H2. auto.
Qed.
Lemma gs_mem_ident : forall g s, gs_mem g s = true <-> In (ident g) (map ident s).
Proof.
  intros. unfold gs_mem. rewrite existsb_exists, in_map_iff. split; intros [x [H1 H2]]; exists x.
  - apply fg_eqb_ident in H2. auto.
  - split; [assumption|]. now apply fg_eqb_ident.
Qed.
Lemma gs_mem_false : forall g s, gs_mem g s = false <-> ~ In (ident g) (map ident s).
Proof. intros. rewrite <- gs_mem_ident. destruct (gs_mem g s); split; congruence. Qed.

Definition gs_ok (s : groups) : Prop := NoDup (map ident s) /\ Forall reachable s.

Lemma gs_insert_ok : forall s g, gs_ok s -> reachable g -> gs_ok (gs_insert s g).
Proof.
  intros s g [D R] Rg. unfold gs_insert. destruct (gs_mem g s) eqn:E; [now split|].
  apply gs_mem_false in E. split; [now constructor|now constructor].
Qed.
Lemma gs_extend_ok : forall l s, gs_ok s -> Forall reachable l -> gs_ok (gs_extend s l).
Proof.
  induction l as [|g l IH]; intros s O R; [assumption|]. inversion R; subst. cbn. apply IH; auto. now apply gs_insert_ok.
Qed.
Lemma gs_insert_idents : forall s g x, In x (map ident (gs_insert s g)) <-> In x (map ident s) \/ x = ident g.
Proof.
  intros. unfold gs_insert. destruct (gs_mem g s) eqn:E; cbn.
  - apply gs_mem_ident in E. split; [now left|]. intros [H| ->]; assumption.
  - split; intros [H|H]; auto.
Qed.
Lemma gs_extend_idents : forall l s x, In x (map ident (gs_extend s l)) <-> In x (map ident s) \/ In x (map ident l).
Proof.
  induction l as [|g l IH]; intros s x; [cbn; tauto|].
  change (gs_extend s (g :: l)) with (gs_extend (gs_insert s g) l). rewrite IH, gs_insert_idents. cbn.
  split; intros H; intuition (subst; auto).
Qed.
Lemma gs_insert_in : forall s g h, In h (gs_insert s g) -> In h s \/ h = g.
Proof. intros s g h. unfold gs_insert. destruct (gs_mem g s); [now left|]. intros [H|H]; auto. Qed.
Lemma gs_extend_in : forall l s h, In h (gs_extend s l) -> In h s \/ In h l.
Proof.
  induction l as [|g l IH]; intros s h H; [now left|].
  change (gs_extend s (g :: l)) with (gs_extend (gs_insert s g) l) in H. apply IH in H as [H|H]; [|right; now right].
  apply gs_insert_in in H as [H| ->]; [now left|right; now left].
Qed.

Lemma gs_take_some : forall g s x r, gs_take g s = Some (x, r) ->
  In x s /\ ident x = ident g /\ Permutation s (x :: r).
Proof.
  intros g. induction s as [|h t IH]; intros x r H; [discriminate|]. cbn in H.
  destruct (fg_eqb g h) eqn:E.
  - injection H as <- <-. apply fg_eqb_ident in E. split; [now left|]. split; [congruence|reflexivity].
  - destruct (gs_take g t) as [[y q]|]; [|discriminate]. injection H as <- <-.
    destruct (IH _ _ eq_refl) as [H1 [H2 H3]]. split; [now right|]. split; [assumption|].
    rewrite H3. apply perm_swap.
Qed.
Lemma gs_take_none : forall g s, gs_take g s = None -> ~ In (ident g) (map ident s).
Proof.
  intros g. induction s as [|h t IH]; intros H; [intros []|]. cbn in H. destruct (fg_eqb g h) eqn:E; [discriminate|].
  destruct (gs_take g t) as [[y q]|] eqn:F; [discriminate|]. intros [H1|H1].
  - symmetry in H1. apply fg_eqb_ident in H1. congruence.
  - now apply IH.
Qed.

(** Some group of the set with identity [x] satisfies [Q]. *)
Definition holds (s : groups) (x : string * string) (Q : file_group -> Prop) : Prop :=
  exists h, In h s /\ ident h = x /\ Q h.
(** A predicate that merging turns into a disjunction. *)
Definition additive (Q : file_group -> Prop) : Prop :=
  forall g h m, reachable g -> reachable h -> merge_group g h = (m, Ok tt) -> (Q m <-> Q g \/ Q h).
Lemma additive_true : additive (fun _ => True).
Proof. intros g h m _ _ _. tauto. Qed.
Lemma additive_base : forall c n, additive (fun g => has_base g c n).
Proof.
  intros c n g h m R1 R2 H. destruct (merge_contents _ _ _ (reachable_wf _ R1) (reachable_wf _ R2) H) as [_ [_ [X _]]]. apply X.
Qed.
Lemma additive_log : forall c v t, additive (fun g => has_log g c v t).
Proof.
  intros c v t g h m R1 R2 H. destruct (merge_contents _ _ _ (reachable_wf _ R1) (reachable_wf _ R2) H) as [_ [_ [_ X]]]. apply X.
Qed.

Lemma lift_mut_ok : forall r m, lift_mut r = Ok m -> r = (m, Ok tt).
Proof. intros [g [[]|e|]] m H; cbn in H; congruence. Qed.

Lemma holds_perm : forall s t x Q, Permutation s t -> (holds s x Q <-> holds t x Q).
Proof.
  intros s t x Q P. split; intros [h [H1 H2]]; exists h; split; auto.
  - eapply Permutation_in; eauto.
  - eapply Permutation_in; [symmetry|]; eauto.
Qed.
Lemma holds_cons : forall h s x Q, holds (h :: s) x Q <-> (ident h = x /\ Q h) \/ holds s x Q.
Proof.
  intros. split.
  - intros [y [[ <- |H1] H2]]; [now left|right; exists y; auto].
  - intros [H|[y [H1 H2]]]; [exists h; split; [now left|assumption]|exists y; split; [now right|assumption]].
Qed.

Lemma merge_one_spec : forall s g s', gs_ok s -> reachable g -> merge_one s g = Ok s' ->
  gs_ok s' /\ forall x Q, additive Q -> (holds s' x Q <-> holds s x Q \/ (ident g = x /\ Q g)).
Proof.
  intros s g s' [D R] Rg H. unfold merge_one in H. destruct (gs_take g s) as [[y r]|] eqn:E.
  - apply bind_ok in H as [m [Hm H]]. injection H as <-. apply lift_mut_ok in Hm.
    apply gs_take_some in E as [Hy [Ey P]].
    assert (Ry : reachable y) by (rewrite Forall_forall in R; auto).
    assert (Rm : reachable m) by (eapply r_merge; [exact Ry|exact Rg|exact Hm]).
    destruct (merge_contents _ _ _ (reachable_wf _ Ry) (reachable_wf _ Rg) Hm) as [Im [Pm _]].
    assert (Em : ident m = ident y) by (unfold ident; congruence).
    rewrite (Permutation_map ident P) in D. rewrite P in R. cbn in D. inversion D as [|? ? D1 D2]; subst. inversion R; subst.
    assert (Hmem : gs_mem m r = false) by (apply gs_mem_false; now rewrite Em).
    unfold gs_insert. rewrite Hmem. split.
    + split; cbn; [constructor; [now rewrite Em|assumption]|now constructor].
    + intros x Q A. rewrite holds_cons, (holds_perm _ _ x Q P), holds_cons, Em.
      rewrite (A y g m Ry Rg Hm), <- Ey. tauto.
  - injection H as <-. apply gs_take_none in E. split; [apply gs_insert_ok; [now split|assumption]|].
    intros x Q A. unfold gs_insert. rewrite (proj2 (gs_mem_false g s) E). rewrite holds_cons. tauto.
Qed.

Lemma merge_groups_spec : forall l s s', gs_ok s -> Forall reachable l -> merge_groups s l = Ok s' ->
  gs_ok s' /\ forall x Q, additive Q -> (holds s' x Q <-> holds s x Q \/ holds l x Q).
Proof.
  induction l as [|g l IH]; intros s s' O R H.
  - cbn in H. injection H as <-. split; [assumption|]. intros x Q _. split; [now left|]. intros [H|[y [[] _]]]; assumption.
  - unfold merge_groups in H. cbn [foldM] in H. apply bind_ok in H as [s1 [H1 H2]]. inversion R; subst.
    destruct (merge_one_spec _ _ _ O ltac:(eassumption) H1) as [O1 S1].
    destruct (IH _ _ O1 ltac:(eassumption) H2) as [O2 S2]. split; [assumption|].
    intros x Q A. rewrite (S2 x Q A), (S1 x Q A), holds_cons. tauto.
Qed.

(** ** Write stats *)
Lemma log_names_run : forall names g g',
  foldM add_log_name g (map JStr names) = Ok g' ->
  exists ls, Forall2 (fun n l => log_file_from_str n = Ok l) names ls /\ run g (map AddLog ls) = Some g'.
Proof.
  induction names as [|n names IH]; intros g g' H.
  - cbn in H. injection H as <-. exists []. split; [constructor|reflexivity].
  - cbn [map foldM] in H. apply bind_ok in H as [g1 [H1 H2]]. unfold add_log_name in H1. cbn [as_str ok_or bind] in H1.
    apply lift_mut_ok in H1. unfold add_log_file_from_name in H1.
    destruct (log_file_from_str n) as [l|e|] eqn:E; try discriminate.
    destruct (IH _ _ H2) as [ls [F R]]. exists (l :: ls). split; [now constructor|].
    cbn. now rewrite H1.
Qed.
Lemma log_names_strs : forall vs g g', foldM add_log_name g vs = Ok g' -> exists names, vs = map JStr names.
Proof.
  induction vs as [|v vs IH]; intros g g' H; [now exists []|].
  cbn [foldM] in H. apply bind_ok in H as [g1 [H1 H2]]. destruct (IH _ _ H2) as [names ->].
  unfold add_log_name in H1. apply bind_ok in H1 as [n [H1 _]]. apply ok_or_ok in H1. apply as_str_some in H1. subst v.
  now exists (n :: names).
Qed.

(** ** The name of the file at a path *)
Lemma split_of_join : forall c l, l <> [] -> split c (join c l) = flat_map (split c) l.
Proof.
  intros c. induction l as [|p l IH]; intros H; [now elim H|]. destruct l as [|q l]; [cbn; now rewrite app_nil_r|].
  rewrite join_cons2. cbn [flat_map]. cbn [flat_map] in IH. rewrite <- IH by discriminate. clear IH H. generalize (join c (q :: l)). intros r.
  induction p as [|x p IH]; cbn [append split]; [now rewrite Ascii.eqb_refl|]. rewrite IH.
  destruct (Ascii.eqb x c); [reflexivity|]. destruct (split c p) as [|y ys] eqn:E; [now apply split_not_nil in E|reflexivity].
Qed.
Lemma last_opt_snoc : forall A (l : list A) x, last_opt (l ++ [x]) = Some x.
Proof. intros A. induction l as [|y l IH]; intros x; [reflexivity|]. cbn [app]. destruct (l ++ [x])%list as [|z t] eqn:E; [now destruct l|]. rewrite <- E in *. cbn [last_opt]. rewrite <- (IH x), E. reflexivity. Qed.
Lemma last_opt_split : forall A (l : list A) x, last_opt l = Some x -> exists m, l = (m ++ [x])%list.
Proof.
  intros A. induction l as [|y l IH]; intros x H; [discriminate|]. destruct l as [|z l]; [injection H as ->; now exists []|].
  destruct (IH x H) as [m ->]. now exists (y :: m).
Qed.
Lemma path_file_name_iff : forall p base, path_file_name p = Some base <-> path_names p base.
Proof.
  intros p base. unfold path_file_name, path_names. set (ok := fun c => negb (String.eqb c "" || String.eqb c ".")). split.
  - destruct (last_opt (filter ok (split "/" p))) as [c|] eqn:E; [|discriminate]. destruct (String.eqb c "..") eqn:D; [discriminate|]. intros [= ->].
    apply last_opt_split in E as [m E]. assert (I : In base (filter ok (split "/" p))) by (rewrite E; apply in_or_app; right; now left). apply filter_In in I as [I O].
    pose proof (split_no_char "/" p) as NC. rewrite Forall_forall in NC. split; [exact (NC base I)|].
    unfold ok in O. apply negb_true_iff, orb_false_iff in O as [O1 O2]. apply String.eqb_neq in O1, O2, D. split; [exact O1|]. split; [exact O2|]. split; [exact D|].
    assert (X : forall l m, filter ok l = (m ++ [base])%list -> exists before after, l = (before ++ base :: after)%list /\ forall x, In x after -> x = "" \/ x = ".").
    { clear -ok. induction l as [|y l IH]; intros m H; [now destruct m|]. cbn [filter] in H. destruct (ok y) eqn:Y.
      - destruct m as [|z m].
        + injection H as -> H. exists [], l. split; [reflexivity|]. intros x I. assert (N : ok x = false). { destruct (ok x) eqn:N; [|reflexivity]. assert (In x (filter ok l)) by now apply filter_In. rewrite H in H0. destruct H0. }
          unfold ok in N. apply negb_false_iff, orb_true_iff in N as [N|N]; apply String.eqb_eq in N; auto.
        + injection H as -> H. destruct (IH m H) as [b [a [-> A]]]. exists (z :: b), a. auto.
      - destruct (IH m H) as [b [a [-> A]]]. exists (y :: b), a. auto. }
    destruct (X _ _ E) as [before [after [S A]]]. exists before, after. split; [exact A|]. rewrite <- S. symmetry. apply split_join.
  - intros [NC [N1 [N2 [N3 [before [after [A ->]]]]]]]. rewrite split_of_join by (now destruct before). rewrite flat_map_app. cbn [flat_map]. rewrite (split_single _ _ NC).
    assert (F : filter ok (flat_map (split "/") after) = []).
    { clear -A ok. induction after as [|x l IH]; [reflexivity|]. cbn [flat_map]. rewrite filter_app, IH by (intros y I; apply A; now right). rewrite app_nil_r. destruct (A x (or_introl eq_refl)) as [ -> | -> ]; reflexivity. }
    rewrite !filter_app. rewrite F. cbn [filter app]. assert (O : ok base = true) by (unfold ok; apply negb_true_iff, orb_false_iff; split; now apply String.eqb_neq). rewrite O.
    match goal with |- context [last_opt ?x] => replace (last_opt x) with (Some base) end; [|symmetry; apply last_opt_snoc]. apply String.eqb_neq in N3. now rewrite N3.
Qed.

Lemma stat_group_inv : forall p stat g, stat_group p stat = Ok g ->
  exists id base logs b ls, names_files stat id base logs /\ base_file_from_str base = Ok b
    /\ Forall2 (fun n l => log_file_from_str n = Ok l) logs ls
    /\ run (new_group id p) (AddBase b :: map AddLog ls) = Some g.
Proof.
  intros p stat g H. unfold stat_group in H.
  apply bind_ok in H as [id [Hid H]]. apply ok_or_ok in Hid. apply and_then_some in Hid as [v [Hv Hid]].
  apply as_str_some in Hid. subst v.
  destruct (vget "baseFile" stat) as [v|] eqn:Eb.
  - apply bind_ok in H as [base [Hb H]]. apply ok_or_ok in Hb. apply as_str_some in Hb. subst v.
    apply bind_ok in H as [g1 [Hg1 H]]. apply lift_mut_ok in Hg1. unfold add_base_file_from_name in Hg1.
    destruct (base_file_from_str base) as [b|e|] eqn:Ebf; try discriminate.
    destruct (vget "logFiles" stat) as [lv|] eqn:El; [|discriminate].
    apply bind_ok in H as [vs [Hvs H]]. apply ok_or_ok in Hvs. apply as_array_some in Hvs. subst lv.
    destruct (log_names_strs _ _ _ H) as [names ->].
    destruct (log_names_run _ _ _ H) as [ls [F R]].
    exists id, base, names, b, ls. split; [now constructor|]. split; [assumption|]. split; [assumption|].
    cbn [run apply_op]. now rewrite Hg1.
  - apply bind_ok in H as [path [Hp H]]. apply ok_or_ok in Hp. apply and_then_some in Hp as [v [Hv' Hp]].
    apply as_str_some in Hp. subst v.
    apply bind_ok in H as [base [Hb H]]. apply ok_or_ok in Hb.
    apply lift_mut_ok in H. unfold add_base_file_from_name in H.
    destruct (base_file_from_str base) as [b|e|] eqn:Ebf; try discriminate.
    exists id, base, [], b, []. split; [eapply nf_path; eauto; now apply path_file_name_iff|]. split; [assumption|]. split; [constructor|].
    cbn [run apply_op map]. now rewrite H.
Qed.

Lemma base_logs_run : forall id p b ls, (forall l, In l ls -> lf_base_commit l = bf_commit b) ->
  exists g, run (new_group id p) (AddBase b :: map AddLog ls) = Some g.
Proof.
  intros id p b ls H. destruct (build_succeeds id p [b] ls) as [g Hg].
  - repeat constructor. intros [].
  - intros l Hl. left. symmetry. auto.
  - exists g. exact Hg.
Qed.

Lemma stat_group_accepts : forall p stat, acceptable_stat stat <-> exists g, stat_group p stat = Ok g.
Proof.
  intros p stat. split.
  - intros [id [base [logs [b [Hn [Hb Hl]]]]]].
    assert (Hls : exists ls, Forall2 (fun n l => log_file_from_str n = Ok l) logs ls
                    /\ forall l, In l ls -> lf_base_commit l = bf_commit b).
    { clear Hn. induction logs as [|n logs IH]; [exists []; split; [constructor|intros l []]|].
      destruct (Hl n (or_introl eq_refl)) as [l [E C]].
      destruct IH as [ls [F G]]; [intros m Hm; apply Hl; now right|].
      exists (l :: ls). split; [now constructor|]. intros x [ <- |Hx]; auto. }
    destruct Hls as [ls [F G]]. destruct (base_logs_run id p b ls G) as [g R].
    apply run_cons in R as [g1 [R1 R2]]. cbn [apply_op] in R1. exists g.
    destruct Hn as [id base logs H1 H2 H3|id path base H1 H2 H3 H4].
    + unfold stat_group. rewrite H1. cbn [and_then as_str ok_or bind]. rewrite H2, H3.
      cbn [and_then as_str as_array ok_or bind]. unfold add_base_file_from_name. rewrite Hb, R1. cbn [lift_mut bind].
      clear R1 H3. revert g1 R2. induction F as [|n l logs ls E F IH]; intros g1 R2; [cbn in *; congruence|].
      cbn [map] in R2. apply run_cons in R2 as [g2 [R3 R4]]. cbn [apply_op] in R3.
      cbn [map foldM]. unfold add_log_name at 1. cbn [as_str ok_or bind].
      unfold add_log_file_from_name. rewrite E, R3. cbn [lift_mut bind]. apply IH; auto.
      * intros m Hm. apply Hl. now right.
      * intros m Hm. apply G. now right.
    + inversion F; subst. cbn in R2. injection R2 as <-.
      unfold stat_group. rewrite H1. cbn [and_then as_str ok_or bind]. rewrite H2, H3. cbn [and_then as_str ok_or bind].
      apply path_file_name_iff in H4. rewrite H4. cbn [ok_or bind]. unfold add_base_file_from_name. now rewrite Hb, R1.
  - intros [g H]. apply stat_group_inv in H as [id [base [logs [b [ls [H1 [H2 [H3 H4]]]]]]]].
    exists id, base, logs, b. repeat split; auto. intros n Hn.
    assert (exists l, In l ls /\ log_file_from_str n = Ok l) as [l [Hin El]].
    { clear - H3 Hn. induction H3 as [|m l logs ls E F IH]; [elim Hn|]. destruct Hn as [ <- |Hn].
      - exists l. split; [now left|assumption].
      - destruct (IH Hn) as [x [X1 X2]]. exists x. split; [now right|assumption]. }
    exists l. split; [assumption|].
    destruct (run_spec _ _ _ (wf_new id p) H4) as [_ [_ [_ [_ [_ [_ L]]]]]].
    rewrite logs_of_base, bases_of_base in L.
    assert (E1 : logs_of (map AddLog ls) = ls) by exact (logs_of_maps [] ls).
    assert (E2 : bases_of (map AddLog ls) = []) by exact (bases_of_maps [] ls).
    rewrite E1, E2 in L. destruct (L l Hin) as [X|X]; [now elim X|]. destruct X as [X|[]]. congruence.
Qed.

Lemma run_reach : forall ops g g', reachable g -> run g ops = Some g' -> reachable g'.
Proof.
  induction ops as [|o ops IH]; intros g g' R H; [injection H as <-; assumption|].
  apply run_cons in H as [g1 [H1 H2]]. apply (IH g1); [|assumption].
  destruct o; cbn in H1; [eapply r_base|eapply r_log]; eauto.
Qed.

Lemma stat_group_facts : forall p stat g, stat_group p stat = Ok g ->
  reachable g /\ fg_partition g = p /\ stat_file_id stat (fg_id g).
Proof.
  intros p stat g H. apply stat_group_inv in H as [id [base [logs [b [ls [H1 [H2 [H3 H4]]]]]]]].
  split; [eapply run_reach; [apply (r_new id p)|exact H4]|].
  destruct (run_spec _ _ _ (wf_new id p) H4) as [_ [I [P _]]]. cbn in I, P. rewrite I. split; [assumption|].
  destruct H1; assumption.
Qed.

(** ** Building the groups of a commit *)
Definition stat_groups (p : string) (stats : list json) (gs : list file_group) : Prop :=
  Forall2 (fun stat g => stat_group p stat = Ok g) stats gs.

Lemma build_stats : forall p stats s s',
  foldM (fun s stat => let* g := stat_group p stat in Ok (gs_insert s g)) s stats = Ok s' ->
  exists l, stat_groups p stats l /\ s' = gs_extend s l.
Proof.
  intros p. induction stats as [|stat stats IH]; intros s s' H.
  - cbn in H. injection H as <-. exists []. split; [constructor|reflexivity].
  - cbn [foldM] in H. apply bind_ok in H as [s1 [H1 H2]]. apply bind_ok in H1 as [g [Hg H1]]. injection H1 as <-.
    destruct (IH _ _ H2) as [l [F ->]]. exists (g :: l). split; [now constructor|reflexivity].
Qed.

Lemma build_parts : forall parts s s', foldM build_partition s parts = Ok s' ->
  exists l, s' = gs_extend s l
    /\ (forall p v, In (p, v) parts -> exists stats, v = JArr stats
          /\ forall stat, In stat stats -> exists g, stat_group p stat = Ok g /\ In g l)
    /\ (forall g, In g l -> exists p stats stat, In (p, JArr stats) parts /\ In stat stats /\ stat_group p stat = Ok g).
Proof.
  induction parts as [|[p v] parts IH]; intros s s' H.
  - cbn in H. injection H as <-. exists []. split; [reflexivity|]. split; [intros p v []|intros g []].
  - cbn [foldM] in H. apply bind_ok in H as [s1 [H1 H2]]. unfold build_partition in H1. cbn [fst snd] in H1.
    apply bind_ok in H1 as [stats [Hs H1]]. apply ok_or_ok in Hs. apply as_array_some in Hs. subst v.
    apply build_stats in H1 as [l1 [F1 ->]]. destruct (IH _ _ H2) as [l2 [-> [A B]]].
    exists (l1 ++ l2)%list. split; [|split].
    + unfold gs_extend. now rewrite fold_left_app.
    + intros q w [E|Hin].
      * injection E as <- <-. exists stats. split; [reflexivity|]. intros stat Hst.
        clear - F1 Hst. induction F1 as [|x g stats l Hx F IH]; [elim Hst|]. destruct Hst as [ <- |Hst].
        -- exists g. split; [assumption|]. now left.
        -- destruct (IH Hst) as [h [X Y]]. exists h. split; [assumption|]. now right.
      * destruct (A q w Hin) as [st [E G]]. exists st. split; [assumption|]. intros stat Hst.
        destruct (G stat Hst) as [g [X Y]]. exists g. split; [assumption|]. apply in_app_iff. now right.
    + intros g Hg. apply in_app_iff in Hg as [Hg|Hg].
      * assert (exists stat, In stat stats /\ stat_group p stat = Ok g) as [stat [X Y]].
        { clear - F1 Hg. induction F1 as [|x h stats l Hx F IH]; [elim Hg|]. destruct Hg as [ <- |Hg].
          - exists x. split; [now left|assumption].
          - destruct (IH Hg) as [y [X Y]]. exists y. split; [now right|assumption]. }
        exists p, stats, stat. split; [now left|]. auto.
      * destruct (B g Hg) as [q [st [stat [X [Y Z]]]]]. exists q, st, stat. split; [now right|]. auto.
Qed.

Lemma build_inv : forall md gs, build_file_groups md = Ok gs ->
  exists obj l, jget "partitionToWriteStats" md = Some (JObj obj) /\ gs = gs_extend [] l
    /\ (forall p v, In (p, v) obj -> exists stats, v = JArr stats)
    /\ (forall p stat, writes md p stat -> exists g, stat_group p stat = Ok g /\ In g l)
    /\ (forall g, In g l -> exists p stat, writes md p stat /\ stat_group p stat = Ok g).
Proof.
  intros md gs H. unfold build_file_groups in H. apply bind_ok in H as [obj [Ho H]].
  apply ok_or_ok in Ho. apply and_then_some in Ho as [v [Hv Ho]]. apply as_object_some in Ho. subst v.
  apply build_parts in H as [l [-> [A B]]]. exists obj, l. split; [assumption|]. split; [reflexivity|].
  split; [|split].
  - intros p v Hin. destruct (A p v Hin) as [stats [-> _]]. eauto.
  - intros p stat [obj' [stats [E [Hin Hst]]]]. rewrite Hv in E. injection E as <-.
    destruct (A p _ Hin) as [st [E G]]. injection E as <-. auto.
  - intros g Hg. destruct (B g Hg) as [p [stats [stat [X [Y Z]]]]]. exists p, stat. split; [|assumption].
    exists obj, stats. auto.
Qed.

Lemma gs_empty_ok : gs_ok [].
Proof. split; constructor. Qed.

Lemma build_facts : forall md gs, build_file_groups md = Ok gs ->
  gs_ok gs
  /\ (forall g, In g gs -> exists stat, writes md (fg_partition g) stat /\ stat_group (fg_partition g) stat = Ok g)
  /\ (forall p id, In (p, id) (map ident gs) <-> exists stat, writes md p stat /\ stat_file_id stat id).
Proof.
  intros md gs H. apply build_inv in H as [obj [l [Hv [-> [_ [A B]]]]]].
  split; [|split].
  - apply gs_extend_ok; [apply gs_empty_ok|]. apply Forall_forall. intros g Hg.
    destruct (B g Hg) as [p [stat [_ Hs]]]. now destruct (stat_group_facts _ _ _ Hs).
  - intros g Hg. apply gs_extend_in in Hg as [[]|Hg]. destruct (B g Hg) as [p [stat [Hw Hs]]].
    destruct (stat_group_facts _ _ _ Hs) as [_ [-> _]]. eauto.
  - intros p id. rewrite gs_extend_idents. split.
    + intros [[]|Hin]. apply in_map_iff in Hin as [g [E Hg]]. unfold ident in E. injection E as <- <-.
      destruct (B g Hg) as [p [stat [Hw Hs]]]. destruct (stat_group_facts _ _ _ Hs) as [_ [-> Hi]]. eauto.
    + intros [stat [Hw Hi]]. right. destruct (A p stat Hw) as [g [Hs Hg]].
      destruct (stat_group_facts _ _ _ Hs) as [_ [P I]]. apply in_map_iff. exists g. split; [|assumption].
      unfold ident. unfold stat_file_id in *. rewrite I in Hi. injection Hi as <-. congruence.
Qed.

(** ** Every write stat represented, when no two stats of a partition share a file id *)
Lemma gs_extend_unique : forall l s g, ~ In (ident g) (map ident s) ->
  (forall h, In h l -> ident h = ident g -> h = g) -> In g l -> In g (gs_extend s l).
Proof.
  induction l as [|x l IH]; intros s g Hs U Hin; [elim Hin|].
  change (gs_extend s (x :: l)) with (gs_extend (gs_insert s x) l).
  destruct (gs_mem g [x]) eqn:E.
  - apply gs_mem_ident in E. destruct E as [E|[]].
    assert (x = g) by (apply U; [now left|assumption]). subst x.
    unfold gs_insert. rewrite (proj2 (gs_mem_false g s) Hs).
    clear. generalize (@or_introl (g = g) (In g s) eq_refl). change (g = g \/ In g s) with (In g (g :: s)).
    generalize (g :: s). induction l as [|y l IH]; intros t Ht; [assumption|].
    change (gs_extend t (y :: l)) with (gs_extend (gs_insert t y) l). apply IH. unfold gs_insert.
    destruct (gs_mem y t); [assumption|now right].
  - apply gs_mem_false in E. destruct Hin as [ -> |Hin]; [elim E; now left|].
    apply IH; auto.
    + rewrite gs_insert_idents. intros [H|H]; [auto|]. apply E. now left.
    + intros h Hh. apply U. now right.
Qed.

Lemma stats_represented : forall md gs p stat, build_file_groups md = Ok gs -> writes md p stat ->
  (forall stat' id, writes md p stat' -> stat_file_id stat id -> stat_file_id stat' id -> stat' = stat) ->
  exists id base logs g b, names_files stat id base logs
    /\ In g gs /\ fg_id g = id /\ fg_partition g = p
    /\ base_file_from_str base = Ok b /\ has_base g (bf_commit b) (base_file_name b)
    /\ forall n, In n logs -> exists l, log_file_from_str n = Ok l
         /\ has_log g (bf_commit b) (lf_version l) (lf_write_token l).
Proof.
  intros md gs p stat H Hw U. apply build_inv in H as [obj [lst [Hv [-> [_ [A B]]]]]].
  destruct (A p stat Hw) as [g [Hs Hg]]. destruct (stat_group_facts _ _ _ Hs) as [R [P I]].
  assert (Hin : In g (gs_extend [] lst)).
  { apply gs_extend_unique; [intros []| |assumption]. intros h Hh E.
    destruct (B h Hh) as [q [stat' [Hw' Hs']]]. destruct (stat_group_facts _ _ _ Hs') as [_ [P' I']].
    unfold ident in E. injection E as E1 E2. assert (q = p) by congruence. subst q.
    rewrite E2 in I'. rewrite H in Hw', Hs'. assert (stat' = stat) by exact (U stat' (fg_id g) Hw' I I'). subst stat'. congruence. }
  apply stat_group_inv in Hs as [id [base [logs [b [ls [H1 [H2 [H3 H4]]]]]]]].
  destruct (run_contents _ _ _ (wf_new id p) H4) as [I4 [P4 [B4 L4]]]. cbn in I4.
  assert (E1 : logs_of (AddBase b :: map AddLog ls) = ls) by exact (logs_of_maps [] ls).
  exists id, base, logs, g, b. split; [assumption|]. split; [assumption|]. split; [assumption|]. split; [assumption|].
  split; [assumption|]. split.
  - apply B4. right. exists b. split; [rewrite bases_of_base; now left|auto].
  - intros n Hn.
    assert (exists l, In l ls /\ log_file_from_str n = Ok l) as [l [Hl El]].
    { clear - H3 Hn. induction H3 as [|m l logs ls E F IH]; [elim Hn|]. destruct Hn as [ <- |Hn].
      - exists l. split; [now left|assumption].
      - destruct (IH Hn) as [x [X1 X2]]. exists x. split; [now right|assumption]. }
    exists l. split; [assumption|]. apply L4. right. exists l. rewrite E1. split; [assumption|].
    destruct (run_spec _ _ _ (wf_new id p) H4) as [_ [_ [_ [_ [_ [_ L]]]]]]. rewrite E1 in L.
    assert (E2 : bases_of (AddBase b :: map AddLog ls) = [b]).
    { rewrite bases_of_base. f_equal. exact (bases_of_maps [] ls). }
    rewrite E2 in L. destruct (L l Hl) as [X|X]; [now elim X|]. destruct X as [X|[]]. auto.
Qed.

Lemma build_accepts_iff : forall md,
  ((exists gs, build_file_groups md = Ok gs) <->
   exists obj, jget "partitionToWriteStats" md = Some (JObj obj)
     /\ forall p v, In (p, v) obj -> exists stats, v = JArr stats /\ forall stat, In stat stats -> acceptable_stat stat).
Proof.
  intros md. split.
  - intros [gs H]. apply build_inv in H as [obj [l [Hv [_ [A [B _]]]]]]. exists obj. split; [assumption|].
    intros p v Hin. destruct (A p v Hin) as [stats ->]. exists stats. split; [reflexivity|]. intros stat Hst.
    apply (stat_group_accepts p). destruct (B p stat) as [g [Hg _]]; [exists obj, stats; auto|]. eauto.
  - intros [obj [Hv H]]. unfold build_file_groups. rewrite Hv. cbn [and_then as_object ok_or bind].
    clear Hv md. generalize (@nil file_group : groups). induction obj as [|[p v] obj IH]; intros s; [eexists; reflexivity|].
    cbn [foldM]. destruct (H p v (or_introl eq_refl)) as [stats [-> Hst]].
    unfold build_partition at 1. cbn [fst snd as_array ok_or bind].
    assert (X : exists s1, foldM (fun s stat => let* g := stat_group p stat in Ok (gs_insert s g)) s stats = Ok s1).
    { clear - Hst. revert s. induction stats as [|stat stats IH]; intros s; [eexists; reflexivity|]. cbn [foldM].
      destruct (proj1 (stat_group_accepts p stat) (Hst stat (or_introl eq_refl))) as [g ->]. cbn [bind].
      apply IH. intros x Hx. apply Hst. now right. }
    destruct X as [s1 ->]. cbn [bind]. apply IH. intros q w Hin. apply (H q w). now right.
Qed.

(** ** Replaced groups *)
Lemma replaced_ids : forall p vs s s',
  foldM (fun s v => let* id := ok_or (as_str v) ECommitMetadata in Ok (gs_insert s (new_group id p))) s vs = Ok s' ->
  gs_ok s ->
  gs_ok s' /\ (forall x, In x (map ident s') <-> In x (map ident s) \/ exists id, In (JStr id) vs /\ x = (p, id))
  /\ (exists ids, vs = map JStr ids).
Proof.
  intros p. induction vs as [|v vs IH]; intros s s' H O.
  - cbn in H. injection H as <-. split; [assumption|]. split; [|now exists []].
    intros x. split; [now left|]. intros [H|[id [[] _]]]. assumption.
  - cbn [foldM] in H. apply bind_ok in H as [s1 [H1 H2]]. apply bind_ok in H1 as [id [Hid H1]].
    apply ok_or_ok in Hid. apply as_str_some in Hid. subst v. injection H1 as <-.
    destruct (IH _ _ H2) as [O' [X [ids ->]]]; [apply gs_insert_ok; [assumption|constructor]|].
    split; [assumption|]. split; [|now exists (id :: ids)].
    intros x. rewrite X, gs_insert_idents. cbn [ident new_group fg_partition fg_id]. split.
    + intros [[H| ->]|[i [Hi ->]]]; [now left| |].
      * right. exists id. split; [now left|reflexivity].
      * right. exists i. split; [now right|reflexivity].
    + intros [H|[i [[E|Hi] ->]]]; [left; now left| |].
      * injection E as ->. left. now right.
      * right. exists i. auto.
Qed.

Lemma replaced_parts : forall parts s s', foldM replaced_partition s parts = Ok s' -> gs_ok s ->
  gs_ok s' /\ (forall p id, In (p, id) (map ident s') <->
     In (p, id) (map ident s) \/ exists ids, In (p, JArr ids) parts /\ In (JStr id) ids)
  /\ (forall p v, In (p, v) parts -> exists ids, v = JArr (map JStr ids)).
Proof.
  induction parts as [|[q v] parts IH]; intros s s' H O.
  - cbn in H. injection H as <-. split; [assumption|]. split; [|intros p v []].
    intros p id. split; [now left|]. intros [H|[ids [[] _]]]. assumption.
  - cbn [foldM] in H. apply bind_ok in H as [s1 [H1 H2]]. unfold replaced_partition in H1. cbn [fst snd] in H1.
    apply bind_ok in H1 as [vs [Hvs H1]]. apply ok_or_ok in Hvs. apply as_array_some in Hvs. subst v.
    destruct (replaced_ids _ _ _ _ H1 O) as [O1 [X1 [ids1 E1]]]. destruct (IH _ _ H2 O1) as [O2 [X2 W2]].
    split; [assumption|]. split.
    + intros p id. rewrite X2, X1. split.
      * intros [[H|[i [Hi E]]]|[ids [Hin Hid]]]; [now left| |].
        -- injection E as -> ->. right. exists vs. split; [now left|assumption].
        -- right. exists ids. split; [now right|assumption].
      * intros [H|[ids [[E|Hin] Hid]]]; [left; now left| |].
        -- injection E as -> ->. left. right. exists id. auto.
        -- right. exists ids. auto.
    + intros p v [E|Hin]; [|eauto]. injection E as <- <-. exists ids1. now rewrite E1.
Qed.

Lemma build_replaced_spec : forall md gs, build_replaced_file_groups md = Ok gs ->
  gs_ok gs /\ (forall p id, In (p, id) (map ident gs) <-> replaces md p id) /\ replace_metadata_ok md.
Proof.
  intros md gs H. unfold build_replaced_file_groups in H. apply bind_ok in H as [obj [Ho H]].
  apply ok_or_ok in Ho. apply and_then_some in Ho as [v [Hv Ho]]. apply as_object_some in Ho. subst v.
  destruct (replaced_parts _ _ _ H gs_empty_ok) as [O [X W]]. split; [assumption|]. split.
  - intros p id. rewrite X. unfold replaces. split.
    + intros [[]|[ids [H1 H2]]]. exists obj, ids. auto.
    + intros [obj' [ids [E [H1 H2]]]]. rewrite Hv in E. injection E as <-. right. exists ids. auto.
  - exists obj. auto.
Qed.

Lemma build_replaced_ok : forall md, replace_metadata_ok md -> exists gs, build_replaced_file_groups md = Ok gs.
Proof.
  intros md [obj [Hv H]]. unfold build_replaced_file_groups. rewrite Hv. cbn [and_then as_object ok_or bind].
  clear Hv. generalize (@nil file_group : groups). induction obj as [|[p v] obj IH]; intros s; [eexists; reflexivity|].
  cbn [foldM]. destruct (H p v (or_introl eq_refl)) as [ids ->]. unfold replaced_partition at 1. cbn [fst snd as_array ok_or bind].
  assert (X : exists s1, foldM (fun s v => let* id := ok_or (as_str v) ECommitMetadata in Ok (gs_insert s (new_group id p))) s (map JStr ids) = Ok s1).
  { clear. revert s. induction ids as [|i ids IH]; intros s; [eexists; reflexivity|]. cbn [map foldM as_str ok_or bind]. apply IH. }
  destruct X as [s1 ->]. cbn [bind]. apply IH. intros q w Hin. apply (H q w). now right.
Qed.

Section Timeline.
Variable L : ndt -> option ndt.
Variable read : string -> outcome (list (string * json)).

Lemma state_completed : forall i, state_eqb (i_state i) Completed = true <-> i_state i = Completed.
Proof. intros i. destruct (i_state i); cbn; split; congruence. Qed.
Lemma all_actions : forall a, existsb (action_eqb a) DEFAULT_LOADING_ACTIONS = true.
Proof. intros []; reflexivity. Qed.
Lemma action_replace : forall i, existsb (action_eqb (i_action i)) [ReplaceCommit] = true <-> i_action i = ReplaceCommit.
Proof. intros i. destruct (i_action i); cbn; split; congruence. Qed.

Lemma replaced_loop : forall l s s', foldM (replaced_step read) s l = Ok s' -> gs_ok s ->
  gs_ok s' /\ (forall p id, In (p, id) (map ident s') <-> In (p, id) (map ident s)
     \/ exists i md, In i l /\ read (instant_relative_path i) = Ok md /\ replaces md p id).
Proof.
  induction l as [|i l IH]; intros s s' H O.
  - cbn in H. injection H as <-. split; [assumption|]. intros p id. split; [now left|].
    intros [H|[i [md [[] _]]]]. assumption.
  - cbn [foldM] in H. apply bind_ok in H as [s1 [H1 H2]]. unfold replaced_step in H1.
    apply bind_ok in H1 as [md [Hmd H1]]. apply bind_ok in H1 as [r [Hr H1]]. injection H1 as <-.
    destruct (build_replaced_spec _ _ Hr) as [Or [Xr _]].
    destruct (IH _ _ H2) as [O' X']; [apply gs_extend_ok; [assumption|apply Or]|].
    split; [assumption|]. intros p id. rewrite X', gs_extend_idents, Xr. unfold instant_metadata in Hmd. split.
    + intros [[H|H]|[j [m [Hj [Em Hm]]]]]; [now left| |].
      * right. exists i, md. split; [now left|]. auto.
      * right. exists j, m. split; [now right|]. auto.
    + intros [H|[j [m [[ <- |Hj] [Em Hm]]]]]; [left; now left| |].
      * left. right. rewrite Hmd in Em. injection Em as <-. assumption.
      * right. exists j, m. auto.
Qed.

Lemma replaced_as_of : forall tz commits ts dt gs, StronglySorted instant_le commits ->
  parse_datetime L ts tz = Ok dt ->
  get_replaced_file_groups_as_of L read tz commits ts = Ok gs ->
  NoDup (map ident gs)
  /\ forall p id, In (p, id) (map ident gs) <->
       exists i md, commit_in read commits None (Some (epoch_millis dt)) i md
         /\ i_action i = ReplaceCommit /\ replaces md p id.
Proof.
  intros tz commits ts dt gs S Hdt H. unfold get_replaced_file_groups_as_of in H.
  apply bind_ok in H as [sel [Hsel H]]. unfold completed_replacecommits_in_range in Hsel.
  destruct (select_exact L _ _ _ _ _ _ Hsel S) as [st [en [Es [Ee F]]]].
  cbn in Es. injection Es as <-. cbn [opt_traverse] in Ee. rewrite Hdt in Ee. cbn in Ee. injection Ee as <-.
  destruct (replaced_loop _ _ _ H gs_empty_ok) as [[D _] X]. split; [assumption|].
  intros p id. rewrite X, F. unfold commit_in. split.
  - intros [[]|[i [md [Hi [Em Hm]]]]]. apply filter_In in Hi as [Hi C].
    apply andb_true_iff in C as [C C2]. apply andb_true_iff in C as [C0 C1].
    exists i, md. apply state_completed in C2. apply action_replace in C1. cbn [option_map] in C0. auto 10.
  - intros [i [md [[Hi [Hs [Hw Hr]]] [Ha Hm]]]]. right. exists i, md. split; [|auto]. apply filter_In. split; [assumption|].
    apply andb_true_iff. split; [apply andb_true_iff; split|]; [exact Hw|now apply action_replace|now apply state_completed].
Qed.

Lemma replaced_as_of_succeeds : forall tz commits ts dt, StronglySorted instant_le commits ->
  parse_datetime L ts tz = Ok dt ->
  (forall i, In i commits -> i_state i = Completed -> i_action i = ReplaceCommit -> (i_epoch i <= epoch_millis dt)%Z ->
     exists md, read (".hoodie/" ++ file_name i) = Ok md /\ replace_metadata_ok md) ->
  exists gs, get_replaced_file_groups_as_of L read tz commits ts = Ok gs.
Proof.
  intros tz commits ts dt S Hdt H. unfold get_replaced_file_groups_as_of.
  assert (Hsel : exists sel, completed_replacecommits_in_range L tz None (Some ts) = Ok sel).
  { unfold completed_replacecommits_in_range, completed_actions_in_range. cbn [opt_traverse bind]. rewrite Hdt. cbn. eauto. }
  destruct Hsel as [sel Hsel]. rewrite Hsel. cbn [bind].
  unfold completed_replacecommits_in_range in Hsel.
  destruct (select_exact L _ _ _ _ _ _ Hsel S) as [st [en [Es [Ee F]]]].
  cbn in Es. injection Es as <-. cbn [opt_traverse] in Ee. rewrite Hdt in Ee. cbn in Ee. injection Ee as <-.
  rewrite F.
  assert (G : forall i, In i (select sel commits) -> exists md, read (".hoodie/" ++ file_name i) = Ok md /\ replace_metadata_ok md).
  { intros i Hi. rewrite F in Hi. apply filter_In in Hi as [Hi C].
    apply andb_true_iff in C as [C C2]. apply andb_true_iff in C as [C0 C1].
    apply state_completed in C2. apply action_replace in C1. apply H; auto. cbn in C0. now apply Z.leb_le. }
  rewrite F in G. revert G. generalize (filter (fun i => in_window (option_map epoch_millis None) (option_map epoch_millis (Some dt)) (i_epoch i)
       && existsb (action_eqb (i_action i)) [ReplaceCommit] && state_eqb (i_state i) Completed) commits).
  intros l. generalize (@nil file_group : groups). induction l as [|i l IH]; intros s G; [eexists; reflexivity|].
  cbn [foldM]. destruct (G i (or_introl eq_refl)) as [md [Hr Ho]]. unfold replaced_step at 1, instant_metadata, instant_relative_path.
  rewrite Hr. cbn [bind]. destruct (build_replaced_ok md Ho) as [r ->]. cbn [bind]. apply IH. intros j Hj. apply G. now right.
Qed.

(** ** Groups written in a window *)
Variable order : nat -> list file_group -> list file_group.
Hypothesis order_perm : forall n l, Permutation l (order n l).

Lemma between_loop_spec : forall l n fgs rep fgs' rep',
  between_loop read order n fgs rep l = Ok (fgs', rep') -> gs_ok fgs -> gs_ok rep ->
  gs_ok fgs' /\ gs_ok rep'
  /\ (forall x Q, additive Q -> (holds fgs' x Q <-> holds fgs x Q
        \/ exists i md built, In i l /\ read (instant_relative_path i) = Ok md /\ build_file_groups md = Ok built /\ holds built x Q))
  /\ (forall p id, In (p, id) (map ident rep') <-> In (p, id) (map ident rep)
        \/ exists i md, In i l /\ i_action i = ReplaceCommit /\ read (instant_relative_path i) = Ok md /\ replaces md p id).
Proof.
  induction l as [|i l IH]; intros n fgs rep fgs' rep' H Of Or.
  - cbn in H. injection H as <- <-. repeat split; try apply Of; try apply Or.
    + now left.
    + intros [X|[i [md [b [[] _]]]]]; assumption.
    + now left.
    + intros [X|[i [md [[] _]]]]; assumption.
  - cbn [between_loop] in H. apply bind_ok in H as [md [Hmd H]]. apply bind_ok in H as [built [Hb H]].
    apply bind_ok in H as [f1 [Hf1 H]]. apply bind_ok in H as [r1 [Hr1 H]]. unfold instant_metadata in Hmd.
    destruct (build_facts _ _ Hb) as [Ob [_ _]].
    assert (Fb : Forall reachable (order n built)) by (rewrite <- (order_perm n built); apply Ob).
    destruct (merge_groups_spec (order n built) _ _ Of Fb Hf1) as [O1 S1].
    assert (R1 : gs_ok r1 /\ forall p id, In (p, id) (map ident r1) <-> In (p, id) (map ident rep)
                   \/ (i_action i = ReplaceCommit /\ replaces md p id)).
    { unfold is_replacecommit, action_is_replacecommit in Hr1. destruct (i_action i) eqn:Ea; cbn [action_eqb] in Hr1.
      - injection Hr1 as <-. split; [assumption|]. intros p id. split; [now left|]. intros [X|[X _]]; [assumption|discriminate].
      - injection Hr1 as <-. split; [assumption|]. intros p id. split; [now left|]. intros [X|[X _]]; [assumption|discriminate].
      - apply bind_ok in Hr1 as [rg [Hrg Hr1]]. injection Hr1 as <-. destruct (build_replaced_spec _ _ Hrg) as [Og [Xg _]].
        split; [apply gs_extend_ok; [assumption|apply Og]|]. intros p id. rewrite gs_extend_idents, Xg. tauto. }
    destruct R1 as [Or1 X1].
    destruct (IH _ _ _ _ _ H O1 Or1) as [O2 [Or2 [S2 X2]]].
    split; [assumption|]. split; [assumption|]. split.
    + intros x Q A. rewrite (S2 x Q A), (S1 x Q A). rewrite <- (holds_perm _ _ x Q (order_perm n built)). split.
      * intros [[X|X]|[j [m [b [Hj Y]]]]]; [now left| |].
        -- right. exists i, md, built. split; [now left|]. auto.
        -- right. exists j, m, b. split; [now right|]. assumption.
      * intros [X|[j [m [b [[ <- |Hj] [E1 [E2 Y]]]]]]]; [left; now left| |].
        -- rewrite Hmd in E1. injection E1 as <-. rewrite Hb in E2. injection E2 as <-. left. now right.
        -- right. exists j, m, b. auto.
    + intros p id. rewrite X2, X1. split.
      * intros [[X|[X Y]]|[j [m [Hj Y]]]]; [now left| |].
        -- right. exists i, md. split; [now left|]. auto.
        -- right. exists j, m. split; [now right|]. assumption.
      * intros [X|[j [m [[ <- |Hj] [E1 [E2 Y]]]]]]; [left; now left| |].
        -- rewrite Hmd in E2. injection E2 as <-. left. now right.
        -- right. exists j, m. auto.
Qed.

Lemma between_loop_built : forall l n fgs rep r i md,
  between_loop read order n fgs rep l = Ok r -> In i l -> read (instant_relative_path i) = Ok md ->
  exists b, build_file_groups md = Ok b.
Proof.
  induction l as [|j l IH]; intros n fgs rep r i md H Hin Hr; [elim Hin|].
  cbn [between_loop] in H. apply bind_ok in H as [md' [Hmd H]]. apply bind_ok in H as [b [Hb H]].
  destruct Hin as [ -> |Hin].
  - unfold instant_metadata in Hmd. rewrite Hr in Hmd. injection Hmd as <-. eauto.
  - apply bind_ok in H as [f1 [_ H]]. apply bind_ok in H as [r1 [_ H]]. eapply IH; [exact H|exact Hin|exact Hr].
Qed.

Lemma groups_between : forall tz commits start stop gs, StronglySorted instant_le commits ->
  get_file_groups_between L read order tz commits start stop = Ok gs ->
  exists st en,
    opt_traverse (fun ts => parse_datetime L ts tz) start = Ok st
    /\ opt_traverse (fun ts => parse_datetime L ts tz) stop = Ok en
    /\ NoDup (map ident gs)
    /\ (forall p id, In (p, id) (map ident gs) <->
          (exists i md stat, commit_in read commits (option_map epoch_millis st) (option_map epoch_millis en) i md
             /\ writes md p stat /\ stat_file_id stat id)
          /\ ~ (exists i md, commit_in read commits (option_map epoch_millis st) (option_map epoch_millis en) i md
             /\ i_action i = ReplaceCommit /\ replaces md p id))
    /\ (forall g, In g gs ->
          (forall c n, has_base g c n <-> exists i md built h,
             commit_in read commits (option_map epoch_millis st) (option_map epoch_millis en) i md
             /\ build_file_groups md = Ok built /\ In h built /\ ident h = ident g /\ has_base h c n)
          /\ (forall c v t, has_log g c v t <-> exists i md built h,
             commit_in read commits (option_map epoch_millis st) (option_map epoch_millis en) i md
             /\ build_file_groups md = Ok built /\ In h built /\ ident h = ident g /\ has_log h c v t)).
Proof.
  intros tz commits start stop gs S H. unfold get_file_groups_between in H.
  apply bind_ok in H as [sel [Hsel H]]. apply bind_ok in H as [[fgs rep] [Hl H]]. injection H as <-.
  destruct (select_exact L _ _ _ _ _ _ Hsel S) as [st [en [Es [Ee F]]]].
  exists st, en. split; [assumption|]. split; [assumption|].
  destruct (between_loop_spec _ _ _ _ _ _ Hl gs_empty_ok gs_empty_ok) as [[Df Rf] [_ [Sf Xr]]].
  assert (Hsel' : forall i, In i (select sel commits) <-> In i commits /\ i_state i = Completed
             /\ in_window (option_map epoch_millis st) (option_map epoch_millis en) (i_epoch i) = true).
  { intros i. rewrite F, filter_In. cbn [DEFAULT_LOADING_ACTIONS]. fold DEFAULT_LOADING_ACTIONS. rewrite all_actions, andb_true_r, andb_true_iff, state_completed. tauto. }
  assert (Nd : NoDup (map ident (gs_difference fgs rep))).
  { clear - Df. unfold gs_difference. induction fgs as [|g l IH]; [constructor|]. cbn in *. inversion Df; subst.
    destruct (negb (gs_mem g rep)); [|auto]. cbn. constructor; [|auto]. intros Hin. apply H1.
    apply in_map_iff in Hin as [x [E Hx]]. apply filter_In in Hx as [Hx _]. rewrite <- E. now apply in_map. }
  assert (Hcont : forall g Q, In g (gs_difference fgs rep) -> additive Q ->
     (Q g <-> exists i md built h, commit_in read commits (option_map epoch_millis st) (option_map epoch_millis en) i md
             /\ build_file_groups md = Ok built /\ In h built /\ ident h = ident g /\ Q h)).
  { intros g Q Hg A. unfold gs_difference in Hg. apply filter_In in Hg as [Hg _].
    assert (E : Q g <-> holds fgs (ident g) Q).
    { split; [intros X; exists g; auto|]. intros [h [Hh [Eh Qh]]].
      assert (h = g); [|congruence]. clear - Df Hg Hh Eh. induction fgs as [|x l IH]; [elim Hg|]. cbn in Df. inversion Df; subst.
      destruct Hg as [ -> |Hg]; destruct Hh as [ -> |Hh]; auto.
      - elim H1. rewrite <- Eh. now apply in_map.
      - elim H1. rewrite Eh. now apply in_map. }
    rewrite E, (Sf _ _ A). split.
    - intros [[x [[] _]]|[i [md [b [Hi [Em [Eb [h [Hh [Eh Qh]]]]]]]]]].
      exists i, md, b, h. apply Hsel' in Hi as [H1 [H2 H3]]. unfold commit_in. auto 10.
    - intros [i [md [b [h [[H1 [H2 [H3 H4]]] [Eb [Hh [Eh Qh]]]]]]]]. right. exists i, md, b.
      split; [now apply Hsel'|]. split; [exact H4|]. split; [assumption|]. exists h. auto. }
  split; [assumption|]. split.
  - intros p id.
    assert (E1 : In (p, id) (map ident (gs_difference fgs rep)) <-> In (p, id) (map ident fgs) /\ ~ In (p, id) (map ident rep)).
    { unfold gs_difference. split.
      - intros Hin. apply in_map_iff in Hin as [g [E Hg]]. apply filter_In in Hg as [Hg N]. rewrite negb_true_iff in N.
        apply gs_mem_false in N. rewrite E in N. split; [|assumption]. rewrite <- E. now apply in_map.
      - intros [Hin N]. apply in_map_iff in Hin as [g [E Hg]]. apply in_map_iff. exists g. split; [assumption|].
        apply filter_In. split; [assumption|]. rewrite negb_true_iff. apply gs_mem_false. now rewrite E. }
    assert (E2 : In (p, id) (map ident fgs) <-> exists i md stat,
        commit_in read commits (option_map epoch_millis st) (option_map epoch_millis en) i md /\ writes md p stat /\ stat_file_id stat id).
    { transitivity (holds fgs (p, id) (fun _ => True)).
      - rewrite in_map_iff. unfold holds. split; intros [g X]; exists g; intuition.
      - rewrite (Sf _ _ additive_true). split.
        + intros [[x [[] _]]|[i [md [b [Hi [Em [Eb [h [Hh [Eh _]]]]]]]]]].
          destruct (build_facts _ _ Eb) as [_ [_ X]].
          assert (Y : In (p, id) (map ident b)) by (rewrite <- Eh; now apply in_map).
          apply X in Y as [stat [Y1 Y2]]. exists i, md, stat. apply Hsel' in Hi as [H1 [H2 H3]]. unfold commit_in. auto 10.
        + intros [i [md [stat [[H1 [H2 [H3 H4]]] [Hw Hi]]]]]. right.
          assert (Hin : In i (select sel commits)) by (now apply Hsel').
          assert (Hex : exists b, build_file_groups md = Ok b).
          { eapply between_loop_built; [exact Hl|exact Hin|exact H4]. }
          destruct Hex as [b Eb]. exists i, md, b. split; [assumption|]. split; [exact H4|]. split; [assumption|].
          destruct (build_facts _ _ Eb) as [_ [_ X]].
          assert (Y : In (p, id) (map ident b)) by (apply X; eauto).
          apply in_map_iff in Y as [h [Eh Hh]]. exists h. auto. }
    rewrite E1, E2, Xr.
    assert (E3 : (In (p, id) (map ident []) \/ (exists i md, In i (select sel commits) /\ i_action i = ReplaceCommit
                /\ read (instant_relative_path i) = Ok md /\ replaces md p id)) <->
                exists i md, commit_in read commits (option_map epoch_millis st) (option_map epoch_millis en) i md
             /\ i_action i = ReplaceCommit /\ replaces md p id).
    { split.
      - intros [[]|[i [md [Hi [Ha [Em Hr]]]]]]. exists i, md. apply Hsel' in Hi as [H1 [H2 H3]]. unfold commit_in. auto 10.
      - intros [i [md [[H1 [H2 [H3 H4]]] [Ha Hr]]]]. right. exists i, md. split; [now apply Hsel'|]. auto. }
    rewrite E3. tauto.
  - intros g Hg. split; intros; [exact (Hcont g _ Hg (additive_base c n))|exact (Hcont g _ Hg (additive_log c v t))].
Qed.
End Timeline.

Lemma replaced_grows : forall L read tz commits t1 t2 d1 d2 g1 g2, StronglySorted instant_le commits ->
  parse_datetime L t1 tz = Ok d1 -> parse_datetime L t2 tz = Ok d2 -> (epoch_millis d1 <= epoch_millis d2)%Z ->
  get_replaced_file_groups_as_of L read tz commits t1 = Ok g1 ->
  get_replaced_file_groups_as_of L read tz commits t2 = Ok g2 ->
  incl (map ident g1) (map ident g2).
Proof.
  intros L read tz commits t1 t2 d1 d2 g1 g2 S E1 E2 Hle H1 H2 [p id] Hin.
  destruct (replaced_as_of L read _ _ _ _ _ S E1 H1) as [_ X1].
  destruct (replaced_as_of L read _ _ _ _ _ S E2 H2) as [_ X2].
  apply X1 in Hin as [i [md [[A [B [C D]]] R]]]. apply X2. exists i, md. split; [|assumption].
  split; [assumption|]. split; [assumption|]. split; [|assumption]. cbn in *. apply Z.leb_le in C. apply Z.leb_le. lia.
Qed.

Lemma build_identities : forall md gs, build_file_groups md = Ok gs ->
  NoDup (map ident gs)
  /\ forall p id, In (p, id) (map ident gs) <-> exists stat, writes md p stat /\ stat_file_id stat id.
Proof. intros md gs H. destruct (build_facts _ _ H) as [[D _] [_ X]]. auto. Qed.

Lemma empty_base_rejected : forall md p stat,
  writes md p stat -> vget "baseFile" stat = Some (JStr "") -> forall gs, build_file_groups md <> Ok gs.
Proof.
  intros md p stat W E gs H. apply build_inv in H as [obj [l [_ [_ [_ [A _]]]]]].
  destruct (A _ _ W) as [g [Hg _]]. apply stat_group_inv in Hg as [id [base [logs [b [ls [N [Hb _]]]]]]].
  destruct N as [id base logs H1 H2 H3|id path base H1 H2 H3 H4]; rewrite E in H2; [|discriminate].
  injection H2 as <-. vm_compute in Hb. discriminate.
Qed.
