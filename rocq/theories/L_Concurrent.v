(** Progress of concurrent queries. *)
From Verif Require Import Base Str L_Base L_Str M_BTree L_BTree M_FileGroup S_FileGroup L_FileGroup M_Builder S_Builder L_Builder
  M_Listing S_Listing L_Listing L_Tree L_Parallel L_View M_Concurrent S_Concurrent.
Local Open Scope string_scope.

Lemma locks_app : forall l1 l2, locks (l1 ++ l2) = (locks l1 ++ locks l2)%list.
Proof. intros. unfold locks. now rewrite flat_map_app. Qed.
Lemma locks_mid : forall l1 t l2, locks (l1 ++ t :: l2) = (locks l1 ++ held t ++ locks l2)%list.
Proof. intros. rewrite locks_app. reflexivity. Qed.
Lemma in_locks : forall i l, In i (locks l) <-> exists t, In t l /\ In i (held t).
Proof. intros. unfold locks. apply in_flat_map. Qed.
Lemma held_goes : forall t p, held (goes t p) = match p with Visiting i _ _ _ => [i] | _ => [] end.
Proof. reflexivity. Qed.
Lemma held_as : forall t m, held (as_mode t m) = held t.
Proof. reflexivity. Qed.
Lemma held_waits : forall t k, held (waits t k) = held t.
Proof. reflexivity. Qed.
Lemma set_same : forall sh i c, set_shard sh i c i = c.
Proof. intros. unfold set_shard. now rewrite Nat.eqb_refl. Qed.
Lemma set_other : forall sh i c j, j <> i -> set_shard sh i c j = sh j.
Proof. intros. unfold set_shard. destruct (Nat.eqb_spec j i); [contradiction|reflexivity]. Qed.

Lemma nodup_mid : forall (a x b x' : list nat), NoDup (a ++ x ++ b) -> NoDup x' ->
  (forall i, In i x' -> In i x \/ ~ In i (a ++ x ++ b)) -> NoDup (a ++ x' ++ b).
Proof.
  intros a x b x' D D' H.
  assert (Da : NoDup a) by (clear - D; induction a as [|y a IH]; [constructor|]; cbn in D; inversion D; subst; constructor; [|now apply IH]; intros I; apply H1; apply in_or_app; now left).
  assert (Db : NoDup b).
  { clear - D. induction a as [|y a IH]; [|inversion D; auto]. induction x as [|y x IH]; [assumption|inversion D; auto]. }
  assert (X1 : forall i, In i a -> ~ In i x /\ ~ In i b).
  { clear - D. induction a as [|y a IH]; intros i I; [destruct I|]. cbn in D. inversion D as [|? ? N D']; subst. destruct I as [ <- |I]; [|auto].
    rewrite !in_app_iff in N. tauto. }
  assert (X2 : forall i, In i x -> ~ In i b).
  { clear - D. induction a as [|y a IH]; [|inversion D; auto]. induction x as [|y x IH]; intros i I; [destruct I|]. cbn in D. inversion D as [|? ? N D']; subst.
    destruct I as [ <- |I]; [rewrite in_app_iff in N; tauto|auto]. }
  assert (Y : forall i, In i x' -> ~ In i a /\ ~ In i b).
  { intros i I. destruct (H i I) as [J|J].
    - split; [intros K; now apply X1 in K|now apply X2].
    - rewrite !in_app_iff in J. tauto. }
  clear - Da Db D' X1 Y. induction a as [|y a IH].
  - cbn. clear - Db D' Y. induction x' as [|y x IH]; [assumption|]. cbn. inversion D'; subst. constructor; [|apply IH; [assumption|intros; apply Y; now right]].
    rewrite in_app_iff. intros [I|I]; [contradiction|]. destruct (Y y (or_introl eq_refl)). contradiction.
  - cbn. inversion Da; subst. constructor; [|apply IH; [assumption|intros; apply X1; now right|]].
    + rewrite !in_app_iff. intros [I|[I|I]]; [contradiction| |].
      * destruct (Y y I) as [N _]. apply N. now left.
      * destruct (X1 y (or_introl eq_refl)). contradiction.
    + intros i I. destruct (Y i I) as [N1 N2]. split; [intros J; apply N1; now right|assumption].
Qed.

Lemma in_mid : forall A (x : A) l1 l2, In x (l1 ++ x :: l2).
Proof. intros. apply in_or_app. right. now left. Qed.
Lemma filter_mid : forall A (f : A -> bool) l1 x l2, List.length (filter f (l1 ++ x :: l2)) = List.length (filter f l1) + (if f x then 1 else 0) + List.length (filter f l2).
Proof. intros. rewrite filter_app, app_length. cbn [filter]. destruct (f x); cbn [List.length]; lia. Qed.
Lemma max_in : forall (l : list nat), l <> [] -> exists i, In i l /\ forall j, In j l -> j <= i.
Proof.
  induction l as [|x l IH]; intros N; [congruence|]. destruct l as [|y l].
  - exists x. split; [now left|]. intros j [ <- |[]]. lia.
  - destruct IH as [i [Hi H]]; [discriminate|]. destruct (le_lt_dec i x) as [L|L].
    + exists x. split; [now left|]. intros j [ <- |J]; [lia|]. apply H in J. lia.
    + exists i. split; [now right|]. intros j [ <- |J]; [lia|]. now apply H.
Qed.

Section Steps.
Variable list_files : string -> outcome (list file_meta).
Variable list_dirs : string -> outcome (list string).
Variable fm : string -> outcome file_meta.
Variable format : string.
Variable partitioned : bool.
Variable parallelism : nat.
Variable shards : nat.
Variable shard_of : string -> nat.
Notation tstep := (task_step list_files list_dirs fm format partitioned parallelism shards shard_of).
Notation cstep := (conc_step list_files list_dirs fm format partitioned parallelism shards shard_of).

(** ** Locks are exclusive, and a visitor's copy is as long as the shard *)
Definition sized (sh : nat -> cache) (t : task) : Prop :=
  match t_phase t with Visiting i seen todo _ => List.length seen + List.length todo = List.length (sh i) | _ => True end.
Definition linv (s : conc) : Prop := NoDup (locks (c_tasks s)) /\ Forall (sized (c_shards s)) (c_tasks s).

Lemma sized_ext : forall sh sh' t, (forall i, In i (held t) -> List.length (sh i) = List.length (sh' i)) -> sized sh t -> sized sh' t.
Proof. intros sh sh' t E. unfold sized, held in *. destruct (t_phase t); auto. rewrite E by now left. auto. Qed.

(** The locks a step takes were free. *)
Lemma step_held : forall busy sh t sh' t', tstep busy sh t sh' t' -> forall i, In i (held t') -> In i (held t) \/ ~ In i busy.
Proof.
  intros busy sh t sh' t' H i I.
  destruct H; rewrite ?held_goes, ?held_waits in I; auto; cbn in I; try contradiction;
    destruct I as [ <- |[]]; auto; left; unfold held; match goal with E : t_phase t = _ |- _ => rewrite E end; now left.
Qed.
Lemma step_held_nodup : forall busy sh t sh' t', tstep busy sh t sh' t' -> NoDup (held t').
Proof. intros. unfold held. destruct (t_phase t'); repeat constructor; auto. Qed.
(** A step changes only a free shard, by an insert, or the shard it has locked, keeping its length. *)
Lemma step_shards : forall busy sh t sh' t', tstep busy sh t sh' t' -> sized sh t ->
  (exists p gs rest, t_phase t = Inserting ((p, gs) :: rest) /\ ~ In (shard_of p) busy
     /\ sh' = set_shard sh (shard_of p) (cache_insert (sh (shard_of p)) (p, gs)) /\ t' = goes t (Inserting rest))
  \/ ((forall j, ~ In j (held t) -> sh' j = sh j) /\ (forall j, List.length (sh' j) = List.length (sh j))
      /\ forall p gs rest, t_phase t <> Inserting ((p, gs) :: rest)).
Proof.
  intros busy sh t sh' t' H Z.
  destruct H; try (right; split; [reflexivity|]; split; [reflexivity|]; congruence).
  - left. eauto 10.
  - right. split; [intros j Nj; apply set_other; intros -> ; apply Nj; unfold held; rewrite H; now left|].
    split; [|congruence]. intros j. unfold sized in Z. rewrite H in Z. destruct (Nat.eq_dec j i) as [ -> |N]; [|now rewrite set_other].
    rewrite set_same, app_length. exact Z.
  - right. split; [intros j Nj; apply set_other; intros -> ; apply Nj; unfold held; rewrite H; now left|].
    split; [|congruence]. intros j. unfold sized in Z. rewrite H in Z. destruct (Nat.eq_dec j i) as [ -> |N]; [|now rewrite set_other].
    rewrite set_same, app_length. exact Z.
  - right. split; [intros j Nj; apply set_other; intros -> ; apply Nj; unfold held; rewrite H; now left|].
    split; [|congruence]. intros j. unfold sized in Z. rewrite H in Z. destruct (Nat.eq_dec j i) as [ -> |N]; [|now rewrite set_other].
    rewrite set_same. cbn in Z. lia.
  - right. split; [intros j Nj; apply set_other; intros -> ; apply Nj; unfold held; rewrite H; now left|].
    split; [|congruence]. intros j. unfold sized in Z. rewrite H in Z. destruct (Nat.eq_dec j i) as [ -> |N]; [|now rewrite set_other].
    rewrite set_same. cbn in Z. lia.
Qed.
Lemma step_sized : forall busy sh t sh' t', tstep busy sh t sh' t' -> sized sh t -> sized sh' t'.
Proof.
  intros busy sh t sh' t' H Z. destruct H; try exact I; unfold sized in *; cbn [t_phase goes waits];
    try (rewrite H in Z |- *; exact Z || exact I); cbn.
  - now rewrite (Permutation_length H1).
  - rewrite H in Z. rewrite app_length. cbn in *. lia.
  - rewrite H in Z. rewrite app_length. cbn in *. lia.
  - rewrite set_other by lia. now rewrite (Permutation_length H2).
Qed.

Lemma other_held : forall l1 t l2 u i, NoDup (locks (l1 ++ t :: l2)) -> In u (l1 ++ l2) -> In i (held u) -> ~ In i (held t).
Proof.
  intros l1 t l2 u i D Hu Hi Ht. rewrite locks_mid in D.
  assert (X : In i (locks l1) \/ In i (locks l2)) by (apply in_app_or in Hu as [Hu|Hu]; [left|right]; apply in_locks; eauto).
  apply (Permutation_NoDup (l' := (held t ++ locks l1 ++ locks l2)%list)) in D.
  - clear - D Ht X. induction (held t) as [|y h IH]; [destruct Ht|]. cbn in D. inversion D; subst. destruct Ht as [ -> |Ht]; [|auto].
    apply H1. rewrite !in_app_iff. tauto.
  - rewrite !app_assoc. apply Permutation_app_tail. apply Permutation_app_comm.
Qed.

Lemma linv_step : forall n s s', cstep n s s' -> linv s -> linv s'.
Proof.
  intros n s s' H [D Z]. destruct H as [sh l1 t l2 Hm Hn|sh l1 t l2 Hm|sh l1 t l2 sh' t' Hm Hs]; cbn [c_shards c_tasks] in *.
  - split; cbn [c_tasks c_shards]; [rewrite locks_mid in *; exact D|]. apply Forall_app in Z as [Z1 Z2]. inversion Z2; subst. apply Forall_app. split; [assumption|]. now constructor.
  - split; cbn [c_tasks c_shards]; [rewrite locks_mid in *; exact D|]. apply Forall_app in Z as [Z1 Z2]. inversion Z2; subst. apply Forall_app. split; [assumption|]. now constructor.
  - assert (Zt : sized sh t) by (rewrite Forall_forall in Z; apply Z; apply in_mid).
    split; cbn [c_tasks c_shards].
    + rewrite locks_mid. rewrite locks_mid in D. eapply nodup_mid; [exact D|eapply step_held_nodup; exact Hs|].
      intros i I. rewrite <- locks_mid. eapply step_held; eauto.
    + assert (O : forall u, In u (l1 ++ l2) -> sized sh u -> sized sh' u).
      { intros u Hu Zu. apply (sized_ext sh); [|assumption]. intros i Hi.
        destruct (step_shards _ _ _ _ _ Hs Zt) as [[p [gs [rest [_ [Nb [ -> _]]]]]]|[X _]].
        - rewrite set_other; [reflexivity|]. intros -> . apply Nb. apply in_locks. exists u. split; [|assumption].
          apply in_app_or in Hu. apply in_or_app. destruct Hu; [now left|right; now right].
        - rewrite X; [reflexivity|]. eapply other_held; eauto. }
      rewrite Forall_forall in Z |- *. intros u Hu. apply in_app_or in Hu as [Hu|[ <- |Hu]].
      * apply O; [apply in_or_app; now left|]. apply Z. apply in_or_app. now left.
      * eapply step_sized; eauto.
      * apply O; [apply in_or_app; now right|]. apply Z. apply in_or_app. right. now right.
Qed.
Lemma linv_start : forall qs, linv (conc_start qs).
Proof.
  intros qs. split; cbn [conc_start c_tasks c_shards].
  - assert (E : locks (map (fun e => asked (fst e) (snd e)) qs) = []) by (induction qs; [reflexivity|assumption]). rewrite E. constructor.
  - apply Forall_forall. intros t I. apply in_map_iff in I as [e [ <- _]]. exact Logic.I.
Qed.
Lemma star_linv : forall n s s', star (cstep n) s s' -> linv s -> linv s'.
Proof. intros n s s' H. induction H; auto. intros. apply IHstar. eapply linv_step; eauto. Qed.

(** ** Every schedule comes to an end *)
Definition sum (f : task -> nat) (l : list task) : nat := list_sum (map f l).
Lemma sum_mid : forall f l1 t l2, sum f (l1 ++ t :: l2) = sum f l1 + f t + sum f l2.
Proof. intros. unfold sum. rewrite map_app, list_sum_app. cbn [map]. change (list_sum (f t :: map f l2)) with (f t + list_sum (map f l2)). lia. Qed.
Lemma sum_ext : forall f g l, (forall t, f t = g t) -> sum f l = sum g l.
Proof. intros f g l E. unfold sum. f_equal. apply map_ext. exact E. Qed.

Definition m_asked (t : task) : nat := match t_phase t with Asked => 1 | _ => 0 end.
Definition m_insert (t : task) : nat := match t_phase t with Inserting rest => List.length rest | _ => 0 end.
Definition rest_of (sh : nat -> cache) (i : nat) : nat := list_sum (map (fun j => S (List.length (sh j))) (seq i (shards - i))).
Definition m_visit (sh : nat -> cache) (t : task) : nat :=
  match t_phase t with
  | Inserting _ => 1 + rest_of sh 0
  | Visiting i _ todo _ => 1 + List.length todo + rest_of sh (S i)
  | _ => 0
  end + 3 * t_pauses t + match t_mode t with Waiting => 2 | Ready => 1 | OnThread => 0 end.

Lemma rest_ext : forall sh sh' i, (forall j, List.length (sh j) = List.length (sh' j)) -> rest_of sh i = rest_of sh' i.
Proof. intros sh sh' i E. unfold rest_of. f_equal. apply map_ext. intros j. now rewrite E. Qed.
Lemma visit_ext : forall sh sh' t, (forall j, List.length (sh j) = List.length (sh' j)) -> m_visit sh t = m_visit sh' t.
Proof. intros sh sh' t E. unfold m_visit. destruct (t_phase t); rewrite ?(rest_ext _ _ _ E); reflexivity. Qed.
Lemma rest_step : forall sh i, i < shards -> rest_of sh i = S (List.length (sh i)) + rest_of sh (S i).
Proof.
  intros sh i L. unfold rest_of. replace (shards - i) with (S (shards - S i)) by lia. cbn [seq map list_sum fold_right]. reflexivity.
Qed.

(** Three counters of which the first that changes goes down. *)
Definition down (a b c a' b' c' : nat) : Prop := a' < a \/ (a' = a /\ b' < b) \/ (a' = a /\ b' = b /\ c' < c).

Lemma measure_step : 0 < shards -> forall n s s', cstep n s s' -> linv s ->
  down (sum m_asked (c_tasks s)) (sum m_insert (c_tasks s)) (sum (m_visit (c_shards s)) (c_tasks s))
       (sum m_asked (c_tasks s')) (sum m_insert (c_tasks s')) (sum (m_visit (c_shards s')) (c_tasks s')).
Proof.
  intros P n s s' H [D Z]. destruct H as [sh l1 t l2 Hm Hn|sh l1 t l2 Hm|sh l1 t l2 sh' t' Hm Hs]; cbn [c_shards c_tasks] in *; rewrite !sum_mid.
  - right; right. split; [reflexivity|]. split; [reflexivity|]. unfold m_visit at 2 5. cbn [as_mode t_phase t_mode t_pauses]. rewrite Hm. lia.
  - right; right. split; [reflexivity|]. split; [reflexivity|]. unfold m_visit at 2 5. cbn [as_mode t_phase t_mode t_pauses]. rewrite Hm. lia.
  - assert (Zt : sized sh t) by (rewrite Forall_forall in Z; apply Z; apply in_mid).
    destruct (step_shards _ _ _ _ _ Hs Zt) as [[p [gs [rest [E [Nb [ -> -> ]]]]]]|[X [Y N]]].
    + right; left. unfold m_asked, m_insert, goes. cbn [t_phase]. rewrite E. cbn. lia.
    + rewrite !(sum_ext (m_visit sh') (m_visit sh)) by (intros u; now apply visit_ext).
      enough (G : down (m_asked t) (m_insert t) (m_visit sh t) (m_asked t') (m_insert t') (m_visit sh t')).
      { rewrite (visit_ext sh' sh t' Y). unfold down in *. lia. }
      unfold sized in Zt. destruct Hs as [k E Ek|order listed rest E Po L Pe|order e E Po L|order E Po L|p gs rest E Nb|c E Nb Pe|i seen p gs todo acc E Ei|i seen p gs todo acc k E Ei Ek|i seen p gs todo acc gs' ss E Ei Eg|i seen p gs todo acc gs' e E Ei Eg|i seen p gs todo acc gs' E Ei Eg|i seen acc c E L Nb Pe|i seen acc E L];
        unfold down, m_asked, m_insert, m_visit, goes, waits; cbn [t_phase t_mode t_pauses]; rewrite E in *; rewrite ?Ek, ?Hm; cbn [List.length].
      * lia.
      * lia.
      * lia.
      * lia.
      * now elim (N p gs rest).
      * rewrite (rest_step sh 0 P), (Permutation_length Pe). lia.
      * lia.
      * lia.
      * lia.
      * lia.
      * lia.
      * rewrite (rest_step sh (S i) L), (Permutation_length Pe). lia.
      * lia.
Qed.

Lemma down_wf : forall (R : conc -> conc -> Prop) (inv : conc -> Prop) (f g h : conc -> nat),
  (forall s s', R s s' -> inv s -> inv s') ->
  (forall s s', R s s' -> inv s -> down (f s) (g s) (h s) (f s') (g s') (h s')) ->
  forall s, inv s -> Acc (fun y x => R x y) s.
Proof.
  intros R inv f g h HI HD.
  enough (X : forall a b c s, f s = a -> g s = b -> h s = c -> inv s -> Acc (fun y x => R x y) s) by eauto.
  induction a as [a IHa] using lt_wf_ind. induction b as [b IHb] using lt_wf_ind. induction c as [c IHc] using lt_wf_ind.
  intros s Ef Eg Eh Is. constructor. intros s' H. assert (I' := HI _ _ H Is). destruct (HD _ _ H Is) as [L|[[E L]|[E [E' L]]]].
  - apply (IHa (f s') ltac:(lia) (g s') (h s')); auto.
  - apply (IHb (g s') ltac:(lia) (h s')); auto; lia.
  - apply (IHc (h s') ltac:(lia)); auto; lia.
Qed.
Lemma schedules_end : 0 < shards -> forall n qs s, star (cstep n) (conc_start qs) s -> Acc (fun y x => cstep n x y) s.
Proof.
  intros P n qs s H. apply (down_wf (cstep n) linv (fun s => sum m_asked (c_tasks s)) (fun s => sum m_insert (c_tasks s)) (fun s => sum (m_visit (c_shards s)) (c_tasks s))).
  - intros; eapply linv_step; eauto.
  - intros s1 s2 H12 I. now apply (measure_step P n).
  - eapply star_linv; [exact H|apply linv_start].
Qed.
(** ** What a stuck state looks like *)
Lemma queries_step : forall n s s', cstep n s s' -> map t_query (c_tasks s') = map t_query (c_tasks s).
Proof.
  intros n s s' H. destruct H as [sh l1 t l2 Hm Hn|sh l1 t l2 Hm|sh l1 t l2 sh' t' Hm Hs]; cbn [c_shards c_tasks]; rewrite !map_app; cbn [map]; f_equal; f_equal.
  destruct Hs; reflexivity.
Qed.
Lemma star_queries : forall n s s', star (cstep n) s s' -> map t_query (c_tasks s') = map t_query (c_tasks s).
Proof. intros n s s' H. induction H; [reflexivity|]. rewrite IHstar. eapply queries_step; eauto. Qed.
Lemma start_queries : forall qs, map t_query (c_tasks (conc_start qs)) = map fst qs.
Proof. intros qs. cbn. rewrite map_map. now apply map_ext. Qed.

Lemma threads_step : forall n s s', cstep n s s' -> List.length (filter on_thread (c_tasks s)) <= n -> List.length (filter on_thread (c_tasks s')) <= n.
Proof.
  intros n s s' H. destruct H as [sh l1 t l2 Hm Hn|sh l1 t l2 Hm|sh l1 t l2 sh' t' Hm Hs]; cbn [c_shards c_tasks] in *; rewrite !filter_mid in *.
  - assert (E : on_thread t = false) by (unfold on_thread; rewrite Hm; now destruct (t_phase t)). rewrite E in *. destruct (on_thread (as_mode t OnThread)); lia.
  - assert (E : on_thread (as_mode t Ready) = false) by (unfold on_thread; cbn; now destruct (t_phase t)). rewrite E. destruct (on_thread t); lia.
  - intros H. destruct (on_thread t) eqn:E; [destruct (on_thread t'); lia|].
    enough (on_thread t' = false) as -> by lia. unfold on_thread in E. rewrite Hm in E. destruct (t_phase t) eqn:Ep; try discriminate E. destruct Hs; congruence.
Qed.
Lemma star_threads : forall n s s', star (cstep n) s s' -> List.length (filter on_thread (c_tasks s)) <= n -> List.length (filter on_thread (c_tasks s')) <= n.
Proof. intros n s s' H. induction H; auto. intros. apply IHstar. eapply threads_step; eauto. Qed.
Lemma start_threads : forall qs, filter on_thread (c_tasks (conc_start qs)) = [].
Proof. intros qs. cbn. induction qs; [reflexivity|assumption]. Qed.


Variable root : tree.
Hypothesis serves : serves_dirs root list_dirs.
Hypothesis wf : wf_tree root.
Hypothesis par : 0 < parallelism.

Lemma listing_runs : forall q, wf_query q -> exists order o, (forall p l, Permutation l (order p l)) /\
  load_listing list_files list_dirs format partitioned parallelism order q o.
Proof.
  intros q W. destruct (query_runs list_files list_dirs fm format partitioned parallelism root serves wf par [] q W) as [c' [r H]].
  destruct H; eauto.
Qed.

(** A task on a thread can go on if the lock it needs is free. *)
Lemma can_run : forall busy sh t, wf_query (t_query t) -> (forall r, t_phase t <> Answered r) ->
  (forall i, needs shards shard_of t i -> ~ In i busy) -> exists sh' t', tstep busy sh t sh' t'.
Proof.
  intros busy sh t W U F. unfold needs in F. destruct (t_phase t) as [|[|[p gs] rest]|i seen [|[p gs] todo] acc|r] eqn:E.
  - destruct (listing_runs _ W) as [order [[listed|e|] [P L]]].
    + eexists _, _. eapply ts_listed; eauto.
    + eexists _, _. eapply ts_listing_err; eauto.
    + eexists _, _. eapply ts_listing_panic; eauto.
  - eexists _, _. eapply ts_first; eauto.
  - eexists _, _. eapply ts_insert; eauto.
  - destruct (le_lt_dec shards (S i)) as [L|L].
    + eexists _, _. eapply ts_last; eauto.
    + eexists _, _. eapply ts_next; eauto.
  - destruct (q_include (t_query t) p) eqn:Ei; [|eexists _, _; eapply ts_skip; eauto].
    destruct (collect_groups fm (q_time (t_query t)) (q_excluded (t_query t)) gs) as [gs' [ss|e|]] eqn:Ec.
    + eexists _, _. eapply ts_visit; eauto.
    + eexists _, _. eapply ts_visit_err; eauto.
    + eexists _, _. eapply ts_visit_panic; eauto.
  - now elim (U r).
Qed.

Lemma split_in : forall A (x : A) l, In x l -> exists l1 l2, l = (l1 ++ x :: l2)%list.
Proof. intros. now apply in_split. Qed.
Lemma stuck_blocked : forall n s t, linv s -> stuck (cstep n) s -> In t (c_tasks s) -> wf_query (t_query t) ->
  t_mode t = OnThread -> (forall r, t_phase t <> Answered r) -> blocked shards shard_of s t.
Proof.
  intros n [sh l] t I K Ht W M U. split; [assumption|]. cbn [c_tasks] in *.
  assert (X : (forall i, needs shards shard_of t i -> ~ In i (locks l)) \/ exists i, needs shards shard_of t i /\ In i (locks l)).
  { unfold needs. destruct (t_phase t) as [|[|[p gs] rest]|i seen [|[p gs] todo] acc|r].
    - left. intros i [].
    - destruct (in_dec Nat.eq_dec 0 (locks l)) as [J|J]; [right; eauto|left; intros i -> ; assumption].
    - destruct (in_dec Nat.eq_dec (shard_of p) (locks l)) as [J|J]; [right; eauto|left; intros i -> ; assumption].
    - destruct (le_lt_dec shards (S i)) as [L|L]; [left; intros j [_ J]; lia|].
      destruct (in_dec Nat.eq_dec (S i) (locks l)) as [J|J]; [right; eauto|left; intros j [ -> _]; assumption].
    - left. intros j [].
    - left. intros j []. }
  destruct X as [X|[i [Ni Hi]]].
  - destruct (split_in _ _ _ Ht) as [l1 [l2 -> ]]. destruct (can_run (locks (l1 ++ t :: l2)) sh t W U X) as [sh' [t' H]].
    elim (K {| c_shards := sh'; c_tasks := (l1 ++ t' :: l2)%list |}). now apply cs_run.
  - apply in_locks in Hi as [u [Hu Hi]]. exists i, u. auto.
Qed.
(** The holder of the last locked shard is not blocked. *)
Lemma last_holder : forall s, linv s -> locks (c_tasks s) <> [] ->
  exists u, In u (c_tasks s) /\ held u <> [] /\ (forall r, t_phase u <> Answered r) /\ ~ blocked shards shard_of s u.
Proof.
  intros s I N. destruct (max_in _ N) as [i [Hi Mx]]. apply in_locks in Hi as [u [Hu Hi]]. exists u. split; [assumption|].
  split; [intros E; rewrite E in Hi; destruct Hi|]. unfold held in Hi. destruct (t_phase u) as [| |j seen todo acc|] eqn:E; try destruct Hi as [ -> |[]]; try destruct Hi.
  split; [discriminate|]. intros [_ [k [w [Nd [Hw Hk]]]]]. unfold needs in Nd. rewrite E in Nd. destruct todo as [|[p gs] todo]; [|destruct Nd].
  destruct Nd as [ -> _]. assert (In (S i) (locks (c_tasks s))) by (apply in_locks; eauto). apply Mx in H. lia.
Qed.

Lemma not_waiting : forall n s t, stuck (cstep n) s -> In t (c_tasks s) -> t_mode t <> Waiting.
Proof.
  intros n [sh l] t K Ht M. cbn in Ht. destruct (split_in _ _ _ Ht) as [l1 [l2 -> ]]. eapply K. now apply cs_wake.
Qed.
Lemma ready_full : forall n s t, stuck (cstep n) s -> In t (c_tasks s) -> t_mode t = Ready -> n <= List.length (filter on_thread (c_tasks s)).
Proof.
  intros n [sh l] t K Ht M. cbn in *. destruct (split_in _ _ _ Ht) as [l1 [l2 -> ]].
  destruct (le_lt_dec n (List.length (filter on_thread (l1 ++ t :: l2)))) as [L|L]; [assumption|]. exfalso. eapply K. now apply cs_schedule.
Qed.
Lemma on_thread_spec : forall t, on_thread t = true <-> t_mode t = OnThread /\ forall r, t_phase t <> Answered r.
Proof.
  intros t. unfold on_thread. destruct (t_mode t), (t_phase t); split; intros H; try discriminate H; try (destruct H; discriminate); try (split; [reflexivity|discriminate]); auto.
  destruct H as [_ H]. now elim (H r).
Qed.
Lemma answered_dec : forall t, (exists r, t_phase t = Answered r) \/ forall r, t_phase t <> Answered r.
Proof. intros t. destruct (t_phase t); try (right; discriminate). left. eauto. Qed.

Lemma deadlock_shape : forall n qs s, 0 < n -> (forall q k, In (q, k) qs -> wf_query q) ->
  star (cstep n) (conc_start qs) s -> stuck (cstep n) s -> ~ all_answered s ->
  List.length (filter on_thread (c_tasks s)) = n
  /\ (forall t, In t (c_tasks s) -> on_thread t = true -> blocked shards shard_of s t)
  /\ exists t, In t (c_tasks s) /\ t_mode t = Ready /\ held t <> [].
Proof.
  intros n qs s Pn W St K U.
  assert (I : linv s) by (eapply star_linv; [exact St|apply linv_start]).
  assert (Wq : forall t, In t (c_tasks s) -> wf_query (t_query t)).
  { intros t Ht. assert (E := star_queries _ _ _ St). rewrite start_queries in E.
    assert (J : In (t_query t) (map fst qs)) by (rewrite <- E; now apply in_map). apply in_map_iff in J as [[q k] [Eq J]]. cbn in Eq. rewrite <- Eq. eauto. }
  assert (B : forall t, In t (c_tasks s) -> on_thread t = true -> blocked shards shard_of s t).
  { intros t Ht O. apply on_thread_spec in O as [M Un]. eapply stuck_blocked; eauto. }
  assert (Le : List.length (filter on_thread (c_tasks s)) <= n) by (eapply star_threads; [exact St|]; rewrite start_threads; cbn; lia).
  assert (R : locks (c_tasks s) <> [] -> exists t, In t (c_tasks s) /\ t_mode t = Ready /\ held t <> []).
  { intros N. destruct (last_holder s I N) as [u [Hu [Hh [Un Nb]]]]. exists u. split; [assumption|]. split; [|assumption].
    destruct (t_mode u) eqn:M; [reflexivity| |now elim (not_waiting _ _ _ K Hu)]. elim Nb. apply B; [assumption|]. apply on_thread_spec. auto. }
  assert (F : exists t, In t (c_tasks s) /\ forall r, t_phase t <> Answered r).
  { clear - U. unfold all_answered in U. destruct s as [sh l]. cbn in *. induction l as [|t l IH]; [elim U; intros ? []|].
    destruct (answered_dec t) as [A|A]; [|exists t; split; [now left|assumption]].
    destruct IH as [u [Hu Nu]]; [|exists u; split; [now right|assumption]]. intros X. apply U. intros v [ <- |Hv]; [exact A|auto]. }
  assert (NL : locks (c_tasks s) <> []).
  { assert (O : exists t, In t (c_tasks s) /\ on_thread t = true).
    { destruct F as [t [Ht Un]]. destruct (t_mode t) eqn:M; [| |now elim (not_waiting _ _ _ K Ht)].
      - assert (L := ready_full _ _ _ K Ht M). destruct (filter on_thread (c_tasks s)) as [|u l] eqn:E; [cbn in L; lia|].
        exists u. apply filter_In. rewrite E. now left.
      - exists t. split; [assumption|]. apply on_thread_spec. auto. }
    destruct O as [t [Ht O]]. destruct (B t Ht O) as [_ [i [u [_ [Hu Hi]]]]]. intros E.
    assert (X : In i (locks (c_tasks s))) by (apply in_locks; eauto). rewrite E in X. destruct X. }
  destruct (R NL) as [t [Ht [M Hh]]]. split; [|split; [exact B|eauto]].
  assert (L := ready_full _ _ _ K Ht M). lia.
Qed.

(** With a thread for every query all of them are answered. *)
Lemma enough_threads : forall n qs s, List.length qs <= n -> (forall q k, In (q, k) qs -> wf_query q) ->
  star (cstep n) (conc_start qs) s -> stuck (cstep n) s -> all_answered s.
Proof.
  intros n qs s Ln W St K.
  assert (El : List.length (c_tasks s) = List.length qs).
  { rewrite <- (map_length t_query), (star_queries _ _ _ St), start_queries. apply map_length. }
  destruct (Nat.eq_dec n 0) as [ -> |Pn]; [intros t Ht; destruct (c_tasks s); [destruct Ht|cbn in El; lia]|].
  assert (D : all_answered s \/ ~ all_answered s).
  { clear. destruct s as [sh l]. unfold all_answered. cbn. induction l as [|t l [IH|IH]]; [left; intros ? []| |right; intros X; apply IH; intros; apply X; now right].
    destruct (answered_dec t) as [A|A]; [left; intros u [ <- |Hu]; [exact A|auto]|]. right. intros X. destruct (X t (or_introl eq_refl)) as [r E]. now elim (A r). }
  destruct D as [D|D]; [assumption|]. destruct (deadlock_shape n qs s ltac:(lia) W St K D) as [E [_ [t [Ht [M _]]]]]. exfalso.
  assert (X : List.length (filter on_thread (c_tasks s)) < List.length (c_tasks s)).
  { destruct (split_in _ _ _ Ht) as [l1 [l2 -> ]]. rewrite filter_mid, app_length. cbn [List.length].
    assert (O : on_thread t = false) by (unfold on_thread; rewrite M; now destruct (t_phase t)). rewrite O.
    assert (G : forall l, List.length (filter on_thread l) <= List.length l) by (intros l; induction l as [|u l IH]; [auto|]; cbn; destruct (on_thread u); cbn; lia).
    assert (G1 := G l1). assert (G2 := G l2). lia. }
  lia.
Qed.
End Steps.
