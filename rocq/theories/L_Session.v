(** Proofs about tables that stay open while their storage changes. *)
From Coq Require Import Sorted.
From Verif Require Import Base Str L_Str M_Time M_Instant M_Timeline M_BTree L_BTree M_FileGroup M_Builder M_Listing M_Expr M_Log M_Config M_Reader M_Table M_Session
  S_Time S_Timeline S_FileGroup S_Builder S_Listing S_Expr S_Table S_Session L_FileGroup L_Builder L_Listing L_Tree L_Parallel L_View L_Expr L_Table.
Local Open Scope string_scope.

Lemma filter_filter_imp : forall A (f g : A -> bool) l, (forall x, In x l -> f x = true -> g x = true) -> filter f (filter g l) = filter f l.
Proof.
  intros A f g l. induction l as [|x l IH]; intros H; [reflexivity|]. cbn.
  assert (IH' := IH (fun y Hy => H y (or_intror Hy))). destruct (g x) eqn:G; cbn; [now rewrite IH'|].
  destruct (f x) eqn:F; [|exact IH']. rewrite (H x (or_introl eq_refl) F) in G. discriminate.
Qed.

Section Q.
Variable list_files : string -> outcome (list file_meta).
Variable list_dirs : string -> outcome (list string).
Variable fm : string -> outcome file_meta.
Variable format : string.
Variable partitioned : bool.
Variable n : nat.
Variable root : tree.
Hypothesis serves : serves_dirs root list_dirs.
Hypothesis wf : wf_tree root.
Notation vquery := (view_query list_files list_dirs fm format partitioned n).

Lemma listed_keys : forall order q listed, wf_query q -> load_listing list_files list_dirs format partitioned n order q (Ok listed) ->
  NoDup (map fst listed)
  /\ forall p, (if partitioned then In p (all_partitions root) else p = "") -> q_include q p = true -> In p (map fst listed).
Proof.
  intros order q listed W L. inversion L as [Hp Ho|?|?|fuel paths done Hp Hr Hs Ho|fuel paths e Hp Hr Hs Ho].
  - apply bind_ok in Ho as [gs [Hg Ho]]. injection Ho as <-. rewrite Hp. split; [cbn; repeat constructor; intros []|].
    intros p -> _. now left.
  - assert (Ep := paths_determined list_files list_dirs fm format partitioned root serves wf _ _ _ W Hp Hr). injection Ep as ->.
    subst done. assert (I := star_inv _ _ _ _ _ _ Hs (init_inv _ _ _)). cbn in I. destruct I as [Pp Hd].
    unfold paths_of in Pp. rewrite Hp in Pp |- *. split.
    + eapply Permutation_NoDup; [exact Pp|]. apply NoDup_filter. now apply all_partitions_nodup.
    + intros p Hin Hi. eapply Permutation_in; [exact Pp|]. apply filter_In. auto.
  - destruct e; discriminate.
Qed.

(** Whatever the view holds of partitions that are still there, a query answers as on a new view. *)
Lemma query_as_new : forall c q c' r, cache_ok partitioned root c -> wf_query q -> vquery c q c' r -> exists c'', vquery [] q c'' r.
Proof.
  intros c q c' r [D K] W H. destruct H as [order c q listed c1 c' r P L Pc Hc|order c q e P L|order c q P L].
  - destruct (listed_keys _ _ _ W L) as [D2 K2].
    set (known := fun e : string * list file_group => existsb (String.eqb (fst e)) (map fst listed)).
    assert (Kn : forall e, known e = true <-> In (fst e) (map fst listed)).
    { intros e. unfold known. rewrite existsb_exists. split.
      - intros [x [Hx E]]. apply String.eqb_eq in E. now rewrite E.
      - intros Hx. exists (fst e). split; [assumption|]. apply String.eqb_refl. }
    destruct (collect fm (q_time q) (q_include q) (q_excluded q) (filter known c1)) as [c'' r''] eqn:E.
    exists c''. eapply vq_ok with (c1 := filter known c1); [exact P|exact L| |].
    + apply NoDup_Permutation.
      * apply nodup_fst. apply load_nodup. constructor.
      * apply NoDup_filter. eapply Permutation_NoDup; [exact Pc|]. apply nodup_fst. now apply load_nodup.
      * intros x. rewrite load_in by assumption. rewrite filter_In, Kn. split.
        -- intros [Hx|[[] _]]. split; [|now apply in_map]. eapply Permutation_in; [exact Pc|]. apply load_in; auto.
        -- intros [Hx Hk]. left. apply (Permutation_in _ (Permutation_sym Pc)) in Hx. apply load_in in Hx as [Hx|[_ Hn]]; [assumption|tauto|assumption].
    + rewrite E. f_equal. change r'' with (snd (c'', r'')). change r with (snd (c', r)). rewrite <- E, <- Hc, !collect_snd.
      unfold wanted. rewrite filter_filter_imp; [reflexivity|]. intros x Hx Hi. apply Kn.
      apply (Permutation_in _ (Permutation_sym Pc)) in Hx. apply load_in in Hx as [Hx|[Hx _]]; [now apply in_map| |assumption].
      apply K2; [|assumption]. apply K. now apply in_map.
  - exists []. eapply vq_err; eauto.
  - exists []. eapply vq_panic; eauto.
Qed.
End Q.

(** Two trees that answer alike have the same partitions. *)
Lemma partitions_determined : forall dirs root root', serves_dirs root dirs -> wf_tree root -> serves_dirs root' dirs -> wf_tree root' ->
  all_partitions root = all_partitions root'.
Proof.
  intros dirs root root' S W S' W'. set (d := Nat.max (depth root) (depth root')).
  assert (E := relevant_paths dirs root S W d true (fun _ => true) ltac:(lia)).
  rewrite (relevant_paths dirs root' S' W' d true (fun _ => true) ltac:(lia)) in E. congruence.
Qed.

Section T.
Variable dtype value : Type.
Variable cast : dtype -> string -> option value.
Variable cmp : value -> value -> option comparison.
Variable avro_schema avro_value : Type.
Variable parse_schema : string -> option avro_schema.
Variable datum : avro_schema -> string -> option (avro_value * string).
Variable check_schema : avro_schema -> outcome unit.
Variable to_batch : avro_schema -> list avro_value -> outcome record_batch.
Variable parquet : string -> option (list record_batch).
Variable L : ndt -> option ndt.
Variable tb : table.
Notation at_ := (fun st => slices_at dtype value cast cmp L st tb).
Notation as_of := (fun st => get_file_slices_as_of dtype value cast cmp L st tb).
Notation slices_now := (fun st => get_file_slices dtype value cast cmp L st tb).
Notation splits_now := (fun st => get_file_slices_splits dtype value cast cmp L st tb).
Notation splits_at := (fun st => get_file_slices_splits_as_of dtype value cast cmp L st tb).
Notation snapshot := (fun st => read_snapshot dtype value cast cmp avro_schema avro_value parse_schema datum check_schema to_batch parquet L st tb).
Notation snapshot_at := (fun st => read_snapshot_as_of dtype value cast cmp avro_schema avro_value parse_schema datum check_schema to_batch parquet L st tb).
Definition keeps (st st' : store dtype) : Prop :=
  is_table_partitioned (t_configs tb) = Ok true -> partitions_kept (st_dirs _ st) (st_dirs _ st').
Notation open := (opened dtype value cast cmp L tb keeps).

Lemma keys_ok : forall st c root partitioned, serves_dirs root (st_dirs _ st) -> wf_tree root -> open st c ->
  is_table_partitioned (t_configs tb) = Ok partitioned -> cache_ok partitioned root c.
Proof.
  intros st c root pt S W H Hp. revert root S W. induction H as [st|st c c' t fs r H IH Q|st st' c H IH Kp]; intros root S W.
  - split; [constructor|intros p []].
  - destruct Q as [c e Q|c Q|c c' q pt' fm k r Q F1 F2 F3 V]; [exact (IH root S W)|exact (IH root S W)|].
    rewrite Hp in F1. injection F1 as <-.
    destruct (query_answer _ _ _ _ _ _ root S W c q c' r (IH root S W) (plan_wf _ _ _ _ _ _ _ _ _ _ Q) V) as [K _]. exact K.
  - destruct pt.
    + destruct (Kp Hp) as [r1 [r2 [S1 [W1 [S2 [W2 Inc]]]]]]. destruct (IH r1 S1 W1) as [D K]. split; [exact D|].
      intros p Hi. rewrite (partitions_determined _ _ _ S W S2 W2). apply in_all_partitions. apply Inc.
      apply in_all_partitions. exact (K p Hi).
    + (* an unpartitioned view has one key *)
      assert (G : forall st c, open st c -> cache_ok false (Dir [] []) c).
      { clear - Hp. intros st c H. induction H as [st|st c c' t fs r H IH Q|st st' c H IH Kp]; [split; [constructor|intros p []]| |exact IH].
        destruct Q as [c e Q|c Q|c c' q pt' fm k r Q F1 F2 F3 V]; [exact IH|exact IH|].
        rewrite Hp in F1. injection F1 as <-. destruct IH as [D K].
        inversion V as [order c0 q0 listed c1 c2 r0 P Ld Pc Hc|order c0 q0 e P Ld|order c0 q0 P Ld]; subst; [|split; assumption|split; assumption].
        inversion Ld as [_ Ho|? ? X|? X|? ? ? X|? ? ? X]; subst; try discriminate X. apply bind_ok in Ho as [gs [Hg Ho]]. injection Ho as <-.
        assert (E : map fst c' = map fst c1) by (change c' with (fst (c', r)); rewrite <- Hc; apply collect_keys).
        assert (Pk : Permutation (map fst (cache_load c [(EMPTY_PARTITION_PATH, gs)])) (map fst c')) by (rewrite E; now apply Permutation_map).
        split; [eapply Permutation_NoDup; [exact Pk|]; now apply load_nodup|].
        intros p Hin. apply (Permutation_in _ (Permutation_sym Pk)) in Hin. apply load_keys in Hin as [Hin|[ <- |[]]]; [exact (K p Hin)|reflexivity]. }
      destruct (G st c H) as [D K]. split; [exact D|exact K].
Qed.

Lemma at_as_new : forall st c root, serves_dirs root (st_dirs _ st) -> wf_tree root -> open st c ->
  forall t fs c' r, at_ st t fs c c' r -> exists c'', at_ st t fs [] c'' r.
Proof.
  intros st c root S W H t fs c' r Q. destruct Q as [c e Q|c Q|c c' q pt fm k r Q F1 F2 F3 V].
  - exists []. now constructor.
  - exists []. now constructor.
  - destruct (query_as_new _ _ _ _ _ _ root S W c q c' r (keys_ok st c root pt S W H F1) (plan_wf _ _ _ _ _ _ _ _ _ _ Q) V) as [c'' V'].
    exists c''. exact (sa_view _ _ _ _ _ _ _ _ _ _ _ _ _ _ _ _ Q F1 F2 F3 V').
Qed.
Lemma as_of_as_new : forall st c root, serves_dirs root (st_dirs _ st) -> wf_tree root -> open st c ->
  forall t filters c' r, as_of st t filters c c' r -> exists c'', as_of st t filters [] c'' r.
Proof.
  intros st c root S W H t filters c' r Q. destruct Q as [c e F|c c' fs r F Q].
  - exists []. now constructor.
  - destruct (at_as_new st c root S W H _ _ _ _ Q) as [c'' Q']. exists c''. econstructor; eauto.
Qed.
Lemma snapshot_as_new : forall st c root, serves_dirs root (st_dirs _ st) -> wf_tree root -> open st c ->
  forall t filters c' r, snapshot_at st t filters c c' r -> exists c'', snapshot_at st t filters [] c'' r.
Proof.
  intros st c root S W H t filters c' r Q. destruct Q as [c c' e Q|c c' Q|c c' ss r Q R];
    destruct (as_of_as_new st c root S W H _ _ _ _ Q) as [c'' Q']; exists c''; [now apply ra_err|now apply ra_panic|eapply ra_ok; eauto].
Qed.

(** Every answer of the open table is one that a new table with the same timeline can give. *)
Lemma open_as_new : forall st c root, serves_dirs root (st_dirs _ st) -> wf_tree root -> open st c ->
  (forall t filters c' r, as_of st t filters c c' r -> exists c'', as_of st t filters [] c'' r)
  /\ (forall filters c' r, slices_now st filters c c' r -> exists c'', slices_now st filters [] c'' r)
  /\ (forall k t filters c' r, splits_at st k t filters c c' r -> exists c'', splits_at st k t filters [] c'' r)
  /\ (forall k filters c' r, splits_now st k filters c c' r -> exists c'', splits_now st k filters [] c'' r)
  /\ (forall t filters c' r, snapshot_at st t filters c c' r -> exists c'', snapshot_at st t filters [] c'' r)
  /\ (forall filters c' r, snapshot st filters c c' r -> exists c'', snapshot st filters [] c'' r).
Proof.
  intros st c root S W H. assert (A := as_of_as_new st c root S W H).
  assert (B : forall k t filters c' r, splits_at st k t filters c c' r -> exists c'', splits_at st k t filters [] c'' r).
  { intros k t filters c' r Q. destruct Q as [c c' r Q]. destruct (A _ _ _ _ Q) as [c'' Q']. exists c''. now constructor. }
  split; [exact A|]. split; [|split; [exact B|split; [|split; [exact (snapshot_as_new st c root S W H)|]]]].
  - intros filters c' r Q. destruct Q as [c N|c c' t r N Q]; [exists []; now constructor|]. destruct (A _ _ _ _ Q) as [c'' Q']. exists c''. econstructor; eauto.
  - intros k filters c' r Q. destruct Q as [c N|c c' t r N Q]; [exists []; now constructor|]. destruct (B _ _ _ _ _ Q) as [c'' Q']. exists c''. econstructor; eauto.
  - intros filters c' r Q. destruct Q as [c N|c c' t r N Q]; [exists []; now constructor|].
    destruct (snapshot_as_new st c root S W H _ _ _ _ Q) as [c'' Q']. exists c''. econstructor; eauto.
Qed.
End T.
