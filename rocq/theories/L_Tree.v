(** Proofs about directory trees and partition discovery. *)
From Verif Require Import Base Str L_Str M_FileGroup M_Builder M_Listing S_Listing.
Local Open Scope string_scope.

Fixpoint leaf_list (t : tree) : list (list string) :=
  match t with
  | Dir _ [] => [[]]
  | Dir _ subs => flat_map (fun e => match e with (n, s) => map (cons n) (leaf_list s) end) subs
  end.
Fixpoint depth (t : tree) : nat :=
  match t with Dir _ subs => S (fold_right Nat.max 0%nat (map (fun e => match e with (_, s) => depth s end) subs)) end.

Lemma tree_ind' : forall P : tree -> Prop,
  (forall fs subs, (forall n s, In (n, s) subs -> P s) -> P (Dir fs subs)) -> forall t, P t.
Proof.
  intros P H. fix IH 1. intros [fs subs]. apply H. induction subs as [|[n s] subs IHs]; intros m u [].
  - injection H0 as _ <-. apply IH.
  - eapply IHs. exact H0.
Qed.

Lemma leaf_list_subs : forall fs subs, subs <> [] ->
  leaf_list (Dir fs subs) = flat_map (fun e => map (cons (fst e)) (leaf_list (snd e))) subs.
Proof.
  intros fs [|e subs] N; [now elim N|]. cbn [leaf_list]. apply flat_map_ext. intros [n s]. reflexivity.
Qed.

Lemma leaf_list_spec : forall t p, In p (leaf_list t) <-> leaf_path t p.
Proof.
  induction t as [fs subs IH] using tree_ind'. intros p. destruct subs as [|e subs'] eqn:Es.
  - cbn. split.
    + intros [ <- |[]]. exists (Dir fs []). split; [constructor|reflexivity].
    + intros [t [R E]]. inversion R; subst; [now left|]. cbn in H. elim H.
  - rewrite leaf_list_subs by discriminate. rewrite <- Es in *. rewrite in_flat_map. split.
    + intros [[n s] [Hin H]]. cbn in H. apply in_map_iff in H as [q [<- Hq]]. apply (IH n s Hin) in Hq as [u [R E]].
      exists u. split; [|assumption]. econstructor; eauto.
    + intros [u [R E]]. inversion R as [|t n s q u' Hin R']; subst.
      * cbn in E. discriminate.
      * exists (n, s). split; [exact Hin|]. cbn. apply in_map. apply (IH n s Hin). exists u. auto.
Qed.

Lemma nodup_app : forall A (l1 l2 : list A), NoDup l1 -> NoDup l2 -> (forall x, In x l1 -> ~ In x l2) -> NoDup (l1 ++ l2)%list.
Proof.
  induction l1 as [|x l1 IH]; intros l2 D1 D2 H; [assumption|]. cbn. inversion D1; subst. constructor.
  - rewrite in_app_iff. intros [X|X]; [auto|]. apply (H x); [now left|assumption].
  - apply IH; auto. intros y Hy. apply H. now right.
Qed.

Lemma leaf_subs_nodup : forall subs : list (string * tree), NoDup (map fst subs) ->
  (forall n s, In (n, s) subs -> NoDup (leaf_list s)) ->
  NoDup (flat_map (fun e => map (cons (fst e)) (leaf_list (snd e))) subs).
Proof.
  induction subs as [|[n s] subs IH]; intros D H; [constructor|]. cbn in *. inversion D; subst.
  apply nodup_app.
  - assert (X : NoDup (leaf_list s)) by (eapply H; now left). clear - X. induction X; [constructor|]. cbn. constructor; [|assumption].
    intros Hin. apply in_map_iff in Hin as [y [E Hy]]. injection E as <-. auto.
  - apply IH; auto. intros m u Hm. eapply H. right. exact Hm.
  - intros q Hq Hin. apply in_map_iff in Hq as [q' [<- _]]. apply in_flat_map in Hin as [[m u] [Hm X]]. cbn in X.
    apply in_map_iff in X as [q'' [E _]]. injection E as -> _. apply H2. change n with (fst (n, u)). now apply in_map.
Qed.

Lemma leaf_list_nodup : forall t, wf_tree t -> NoDup (leaf_list t).
Proof.
  induction t as [fs subs IH] using tree_ind'. intros W. inversion W as [fs' subs' D N Ws]; subst.
  destruct subs as [|e subs'] eqn:Es; [cbn; repeat constructor; intros []|].
  rewrite leaf_list_subs by discriminate. rewrite <- Es in *. apply leaf_subs_nodup; [assumption|].
  intros n s Hin. apply (IH n s Hin). eapply Ws; eauto.
Qed.

Definition wf_name (n : string) : Prop := n <> "" /\ has_char "/" n = false.

Lemma reaches_wf : forall t p u, reaches t p u -> wf_tree t -> wf_tree u /\ Forall wf_name p.
Proof.
  intros t p u R. induction R as [t|t n s p u Hin R IH]; intros W; [split; [assumption|constructor]|].
  inversion W as [fs subs D N Ws]; subst. cbn in Hin. destruct (IH (Ws _ _ Hin)) as [W' F].
  split; [assumption|]. constructor; [exact (N _ _ Hin)|assumption].
Qed.
Lemma reaches_app : forall t p u q v, reaches t p u -> reaches u q v -> reaches t (p ++ q)%list v.
Proof. intros t p u q v R. induction R; intros Q; [assumption|]. cbn. econstructor; eauto. Qed.

Lemma join_app1 : forall p c, p <> [] -> join "/" (p ++ [c])%list = join "/" p ++ "/" ++ c.
Proof.
  induction p as [|x [|y p] IH]; intros c N; [now elim N|reflexivity|].
  change ((x :: y :: p) ++ [c])%list with (x :: (y :: p) ++ [c])%list.
  change (join "/" (x :: (y :: p) ++ [c])%list) with (x ++ "/" ++ join "/" ((y :: p) ++ [c])%list).
  rewrite IH by discriminate. rewrite join_cons2. change (String "/" (join "/" (y :: p))) with ("/" ++ join "/" (y :: p)).
  now rewrite !app_assoc_s.
Qed.

Lemma join_nonempty : forall p, p <> [] -> Forall wf_name p -> join "/" p <> "".
Proof.
  intros [|x [|y p]] N F; [now elim N| |]; inversion F as [|? ? [E _] _]; subst; cbn; [assumption|].
  destruct x; [now elim E|discriminate].
Qed.

Lemma ends_slash_name : forall a n, wf_name n -> ends_with "/" (a ++ n) = false.
Proof.
  intros a n [E H]. destruct (ends_with "/" (a ++ n)) eqn:X; [|reflexivity]. exfalso.
  apply ends_with_spec in X as [r Hr].
  assert (Y : forall n a r : string, n <> "" -> a ++ n = r ++ "/" -> has_char "/" n = true).
  { clear. intros n a. induction a as [|c a IH]; intros r N E; cbn in E.
    - rewrite E, has_char_app. cbn. now rewrite orb_true_r.
    - destruct r as [|d r]; cbn in E.
      + injection E as -> E. destruct a; [|discriminate]. cbn in E. subst n. now elim N.
      + injection E as -> E. eapply IH; eauto. }
  rewrite (Y n a r E Hr) in H. discriminate.
Qed.

Lemma ends_slash_join : forall p, p <> [] -> Forall wf_name p -> ends_with "/" (join "/" p) = false.
Proof.
  intros p N F. destruct (exists_last N) as [q [x ->]]. apply Forall_app in F as [_ F]. inversion F; subst.
  destruct q as [|y q].
  - cbn. apply (ends_slash_name "" x). assumption.
  - rewrite join_app1 by discriminate. rewrite <- app_assoc_s. now apply ends_slash_name.
Qed.

Lemma path_join_child : forall p c, p <> [] -> Forall wf_name p -> wf_name c ->
  path_join (join "/" p) c = join "/" (p ++ [c])%list.
Proof.
  intros p c N F [E H]. unfold path_join.
  assert (X : starts_with "/" c = false).
  { destruct (starts_with "/" c) eqn:X; [|reflexivity]. apply starts_with_spec in X as [r ->].
    cbn in H. discriminate. }
  rewrite X. destruct (String.eqb_spec (join "/" p) "") as [Y|_]; [now elim (join_nonempty p N F)|].
  rewrite ends_slash_join by assumption. symmetry. now apply join_app1.
Qed.

Lemma join_inj : forall p q, p <> [] -> q <> [] -> Forall wf_name p -> Forall wf_name q ->
  join "/" p = join "/" q -> p = q.
Proof.
  intros p q N1 N2 F1 F2 E. rewrite <- (join_split "/" p), <- (join_split "/" q); auto.
  - now rewrite E.
  - eapply Forall_impl; [|exact F2]. intros a [_ H]. exact H.
  - eapply Forall_impl; [|exact F1]. intros a [_ H]. exact H.
Qed.

Section Dirs.
Variable list_dirs : string -> outcome (list string).
Variable root : tree.
Hypothesis serves : serves_dirs root list_dirs.
Hypothesis wf : wf_tree root.

Lemma leaf_dirs_at : forall t p fuel, reaches root p t -> p <> [] -> (depth t <= fuel)%nat ->
  get_leaf_dirs list_dirs fuel (join "/" p) = Some (Ok (map (fun q => join "/" (p ++ q)%list) (leaf_list t))).
Proof.
  induction t as [fs subs IH] using tree_ind'. intros p fuel R N Hf.
  destruct fuel as [|fuel]; [cbn in Hf; lia|]. cbn [get_leaf_dirs]. rewrite (serves _ _ R). cbn [subs_of].
  destruct (reaches_wf _ _ _ R wf) as [W F]. inversion W as [fs' subs' D Nm Ws]; subst.
  destruct subs as [|e subs'] eqn:Es; [cbn; now rewrite app_nil_r|].
  rewrite leaf_list_subs by discriminate. cbn [map].
  change (fst e :: map fst subs') with (map fst (e :: subs')). rewrite <- Es in *.
  assert (G : forall l, incl l subs ->
    (fix loop (l : list string) : option (outcome (list string)) :=
             match l with
             | [] => Some (Ok [])
             | c :: r =>
                 match get_leaf_dirs list_dirs fuel (path_join (join "/" p) c) with
                 | Some (Ok leaves) =>
                     match loop r with
                     | Some (Ok rest) => Some (Ok (leaves ++ rest)%list)
                     | other => other
                     end
                 | other => other
                 end
             end) (map fst l)
    = Some (Ok (map (fun q => join "/" (p ++ q)%list) (flat_map (fun e => map (cons (fst e)) (leaf_list (snd e))) l)))).
  { induction l as [|[n s] l IHl]; intros Hi; [reflexivity|]. cbn [map fst].
    assert (Hin : In (n, s) subs) by (apply Hi; now left).
    rewrite path_join_child; [|assumption|assumption|exact (Nm _ _ Hin)].
    rewrite (IH n s Hin (p ++ [n])%list fuel).
    - rewrite IHl by (intros x Hx; apply Hi; now right). cbn [flat_map fst snd]. rewrite map_app. f_equal. f_equal. f_equal.
      rewrite map_map. apply map_ext. intros q. now rewrite <- app_assoc.
    - eapply reaches_app; [exact R|]. econstructor; [exact Hin|constructor].
    - destruct p; discriminate.
    - assert (X : (depth s <= fold_right Nat.max 0 (map (fun e => match e with (_, s) => depth s end) subs))%nat).
      { clear - Hin. induction subs as [|[m u] subs IHs]; [elim Hin|]. cbn. destruct Hin as [[= -> ->]|Hin]; [lia|].
        specialize (IHs Hin). lia. }
      cbn [depth] in Hf. lia. }
  specialize (G subs (incl_refl _)). rewrite Es in G |- *. exact G.
Qed.

Lemma leaf_dirs_tops : forall tops fuel, incl tops (subs_of root) -> (depth root <= fuel)%nat ->
  leaf_dirs_of list_dirs fuel (map fst tops)
  = Some (Ok (map (join "/") (flat_map (fun e => map (cons (fst e)) (leaf_list (snd e))) tops))).
Proof.
  induction tops as [|[n s] tops IH]; intros fuel Hi Hf; [reflexivity|]. cbn [map fst leaf_dirs_of].
  assert (Hin : In (n, s) (subs_of root)) by (apply Hi; now left).
  assert (X : (depth s <= fuel)%nat).
  { destruct root as [fs subs]. cbn [subs_of depth] in *.
    assert (depth s <= fold_right Nat.max 0 (map (fun e => match e with (_, s) => depth s end) subs))%nat; [|lia].
    clear - Hin. induction subs as [|[m u] subs IHs]; [elim Hin|]. cbn. destruct Hin as [[= -> ->]|Hin]; [lia|].
    specialize (IHs Hin). lia. }
  change (get_leaf_dirs list_dirs fuel n) with (get_leaf_dirs list_dirs fuel (join "/" [n])).
  rewrite (leaf_dirs_at s [n] fuel); [|econstructor; [exact Hin|constructor]|discriminate|assumption].
  rewrite IH; [|intros x Hx; apply Hi; now right|assumption].
  cbn [flat_map fst snd]. rewrite map_app, map_map. reflexivity.
Qed.

Definition data_dir (d : string) : bool := negb (existsb (String.eqb d) LAKE_FORMAT_METADATA_DIRS).
Lemma data_dir_spec : forall d, data_dir d = true <-> d <> ".hoodie" /\ d <> "_delta_log" /\ d <> "metadata".
Proof.
  intros d. unfold data_dir, LAKE_FORMAT_METADATA_DIRS. cbn [existsb].
  destruct (String.eqb_spec d ".hoodie"), (String.eqb_spec d "_delta_log"), (String.eqb_spec d "metadata"); cbn; intuition congruence.
Qed.

Definition all_partitions : list string :=
  map (join "/") (flat_map (fun e => map (cons (fst e)) (leaf_list (snd e))) (filter (fun e => data_dir (fst e)) (subs_of root))).

Lemma filter_map_fst : forall (l : list (string * tree)), filter data_dir (map fst l) = map fst (filter (fun e => data_dir (fst e)) l).
Proof. induction l as [|[n s] l IH]; [reflexivity|]. cbn. destruct (data_dir n); cbn; now rewrite IH. Qed.

Lemma in_all_partitions : forall path, In path all_partitions <-> partition_dir root path.
Proof.
  intros path. unfold all_partitions, partition_dir. rewrite in_map_iff. split.
  - intros [q [<- Hq]]. apply in_flat_map in Hq as [[n s] [Hin Hq]]. cbn in Hq. apply filter_In in Hin as [Hin Hd].
    apply in_map_iff in Hq as [p [<- Hp]]. apply leaf_list_spec in Hp as [u [R E]]. apply data_dir_spec in Hd. cbn in Hd.
    exists n, p. split; [|tauto]. exists u. split; [|assumption]. econstructor; eauto.
  - intros [top [p [[u [R E]] [H1 [H2 [H3 ->]]]]]]. exists (top :: p). split; [reflexivity|].
    inversion R as [|t n s q u' Hin R']; subst. apply in_flat_map. exists (top, s). split.
    + apply filter_In. split; [assumption|]. apply data_dir_spec. auto.
    + cbn. apply in_map. apply leaf_list_spec. exists u. auto.
Qed.

Lemma all_partitions_nodup : NoDup all_partitions.
Proof.
  clear serves. unfold all_partitions. inversion wf as [fs subs D Nm Ws Er].
  set (l := flat_map (fun e => map (cons (fst e)) (leaf_list (snd e))) (filter (fun e => data_dir (fst e)) (subs_of (Dir fs subs)))).
  assert (Dl : NoDup l).
  { apply leaf_subs_nodup.
    - cbn. rewrite <- filter_map_fst. now apply NoDup_filter.
    - intros n s Hin. apply filter_In in Hin as [Hin _]. apply leaf_list_nodup. eapply Ws; eauto. }
  assert (Fl : forall q, In q l -> q <> [] /\ Forall wf_name q).
  { intros q Hq. apply in_flat_map in Hq as [[n s] [Hin Hq]]. apply filter_In in Hin as [Hin _]. cbn in Hq.
    apply in_map_iff in Hq as [p [<- Hp]]. split; [discriminate|]. apply leaf_list_spec in Hp as [u [R _]].
    destruct (reaches_wf _ _ _ R (Ws _ _ Hin)) as [_ F]. constructor; [exact (Nm _ _ Hin)|assumption]. }
  clearbody l. induction Dl as [|q l Hq Dl IH]; [constructor|]. cbn. constructor; [|apply IH; intros; apply Fl; now right].
  intros Hin. apply in_map_iff in Hin as [q' [E Hq']]. destruct (Fl q (or_introl eq_refl)), (Fl q' (or_intror Hq')).
  assert (q' = q) by (apply join_inj; auto). subst. auto.
Qed.

Lemma relevant_paths : forall fuel empty include, (depth root <= fuel)%nat ->
  list_relevant_partition_paths list_dirs fuel true empty include
  = Some (Ok (if empty then all_partitions else filter include all_partitions)).
Proof.
  intros fuel empty include Hf. unfold list_relevant_partition_paths. cbn [negb].
  assert (X : list_dirs "" = Ok (map fst (subs_of root))) by (apply (serves [] root); constructor).
  rewrite X. change (fun d => negb (existsb (String.eqb d) LAKE_FORMAT_METADATA_DIRS)) with data_dir.
  rewrite filter_map_fst. rewrite leaf_dirs_tops; [|intros x Hx; now apply filter_In in Hx as [? _]|assumption].
  fold all_partitions. destruct empty; [now rewrite orb_true_r|]. rewrite orb_false_r.
  destruct all_partitions; reflexivity.
Qed.
End Dirs.

(** Every well-formed tree is served by some storage. *)
Lemma reaches_walk : forall t p u, reaches t p u -> wf_tree t -> walk t p = Some u.
Proof.
  intros t p u R. induction R as [t|t n s p u Hin R IH]; intros W; [reflexivity|]. cbn [walk].
  inversion W as [fs subs D N Ws]; subst. cbn [subs_of] in *.
  assert (F : find (fun e => String.eqb (fst e) n) subs = Some (n, s)).
  { clear - Hin D. induction subs as [|[m v] subs IH]; [elim Hin|]. cbn in *. inversion D; subst.
    destruct (String.eqb_spec m n) as [ -> |E].
    - destruct Hin as [[= ->]|Hin]; [reflexivity|]. elim H1. apply in_map_iff. exists (n, s). auto.
    - destruct Hin as [[= -> ->]|Hin]; [now elim E|]. auto. }
  rewrite F. apply IH. eapply Ws; eauto.
Qed.
Lemma tree_serves : forall root, wf_tree root -> serves_dirs root (tree_dirs root).
Proof.
  intros root W p t R. unfold tree_dirs. destruct (reaches_wf _ _ _ R W) as [_ F].
  destruct p as [|n p]; [inversion R; subst; reflexivity|].
  destruct (String.eqb_spec (join "/" (n :: p)) "") as [E|_]; [elim (join_nonempty (n :: p)); [discriminate|assumption|assumption]|].
  rewrite join_split; [|discriminate|eapply Forall_impl; [|exact F]; intros a [_ H]; exact H].
  now rewrite (reaches_walk _ _ _ R W).
Qed.

Lemma discovery : forall root list_dirs empty include, wf_tree root -> serves_dirs root list_dirs ->
  exists paths, (exists enough, forall fuel, (enough <= fuel)%nat ->
       list_relevant_partition_paths list_dirs fuel true empty include = Some (Ok paths))
    /\ NoDup paths
    /\ forall path, In path paths <-> partition_dir root path /\ (empty = false -> include path = true).
Proof.
  intros root list_dirs empty include W S.
  exists (if empty then all_partitions root else filter include (all_partitions root)). split; [|split].
  - exists (depth root). intros fuel Hf. now apply relevant_paths.
  - destruct empty; [|apply NoDup_filter]; now apply all_partitions_nodup.
  - intros path. rewrite <- in_all_partitions. destruct empty; [|rewrite filter_In]; intuition discriminate.
Qed.
