(** Proofs about the file system view. *)
From Verif Require Import Base Str L_Str M_BTree L_BTree M_FileGroup S_FileGroup L_FileGroup M_Builder S_Builder L_Builder
  M_Listing S_Listing L_Listing L_Tree L_Parallel.
Local Open Scope string_scope.

(** ** [same_answer] *)
Lemma same_refl : forall A (a : outcome (list A)), same_answer a a.
Proof. intros A []; cbn; auto. Qed.
Lemma same_sym : forall A (a b : outcome (list A)), same_answer a b -> same_answer b a.
Proof. intros A [] []; cbn; auto. apply Permutation_sym. Qed.
Lemma same_trans : forall A (a b c : outcome (list A)), same_answer a b -> same_answer b c -> same_answer a c.
Proof. intros A [] [] []; cbn; try tauto. apply Permutation_trans. Qed.

Lemma same_cons : forall A B (f : A -> outcome B) x (a b : outcome (list B)), same_answer a b ->
  same_answer (let* y := f x in let* r := a in Ok (y :: r)) (let* y := f x in let* r := b in Ok (y :: r)).
Proof. intros A B f x a b H. destruct (f x), a, b; cbn in *; auto. Qed.
Lemma mapM_perm : forall A B (f : A -> outcome B) l1 l2, Permutation l1 l2 -> same_answer (mapM f l1) (mapM f l2).
Proof.
  intros A B f l1 l2 P. induction P as [|x l1 l2 P IH|x y l|l1 l2 l3 P1 IH1 P2 IH2].
  - cbn. constructor.
  - cbn [mapM]. now apply same_cons.
  - cbn [mapM]. destruct (f y), (f x); cbn; auto. destruct (mapM f l); cbn; auto. constructor.
  - eapply same_trans; eauto.
Qed.

(** ** Collecting *)
Definition pick (t : string) (ex : groups) (g : file_group) : list file_slice :=
  if gs_mem g ex then [] else match entry_as_of g t with Some (_, s) => [s] | None => [] end.

Section Collect.
Variable fm : string -> outcome file_meta.

Lemma collect_groups_snd : forall t ex l,
  snd (collect_groups fm t ex l) = mapM (load_metadata_if_needed fm) (flat_map (pick t ex) l).
Proof.
  intros t ex. induction l as [|g l IH]; [reflexivity|]. cbn [collect_groups flat_map]. unfold pick at 1.
  destruct (gs_mem g ex); [destruct (collect_groups fm t ex l); exact IH|].
  destruct (entry_as_of g t) as [[k s]|]; [|destruct (collect_groups fm t ex l); exact IH].
  cbn [app mapM]. destruct (load_metadata_if_needed fm s) as [s'|e|]; [|reflexivity|reflexivity].
  destruct (collect_groups fm t ex l) as [r o]. cbn in *. now rewrite IH.
Qed.

Definition wanted (include : string -> bool) (c : cache) : cache := filter (fun e => include (fst e)) c.
Definition picks (t : string) (ex : groups) (c : cache) : list file_slice :=
  flat_map (fun e => flat_map (pick t ex) (snd e)) c.

Lemma collect_snd : forall t include ex c,
  snd (collect fm t include ex c) = mapM (load_metadata_if_needed fm) (picks t ex (wanted include c)).
Proof.
  intros t include ex. unfold wanted, picks. induction c as [|[p gs] c IH]; [reflexivity|]. cbn [collect filter fst].
  destruct (include p).
  - cbn [flat_map snd]. rewrite mapM_app, <- collect_groups_snd, <- IH.
    destruct (collect_groups fm t ex gs) as [gs' [ss|e|]]; [|reflexivity|reflexivity].
    now destruct (collect fm t include ex c) as [r o].
  - rewrite <- IH. now destruct (collect fm t include ex c).
Qed.
Lemma collect_keys : forall t include ex c, map fst (fst (collect fm t include ex c)) = map fst c.
Proof.
  intros t include ex. induction c as [|[p gs] c IH]; [reflexivity|]. cbn [collect]. destruct (include p).
  - destruct (collect_groups fm t ex gs) as [gs' [ss|e|]]; [|reflexivity|reflexivity].
    destruct (collect fm t include ex c) as [r o]. cbn in *. now rewrite IH.
  - destruct (collect fm t include ex c) as [r o]. cbn in *. now rewrite IH.
Qed.
End Collect.

(** ** The cache *)
Lemma nodup_fst : forall (c : cache), NoDup (map fst c) -> NoDup c.
Proof. intros c D. now apply NoDup_map_inv in D. Qed.
Lemma insert_in : forall c e x, In x (cache_insert c e) <-> x = e \/ (In x c /\ fst x <> fst e).
Proof.
  intros c e x. unfold cache_insert. cbn. rewrite filter_In. destruct (String.eqb_spec (fst x) (fst e)); cbn; intuition congruence.
Qed.
Lemma insert_nodup : forall c e, NoDup (map fst c) -> NoDup (map fst (cache_insert c e)).
Proof.
  intros c e D. cbn. constructor.
  - intros Hin. apply in_map_iff in Hin as [x [E Hx]]. apply filter_In in Hx as [_ Hx]. rewrite E, String.eqb_refl in Hx. discriminate.
  - clear - D. induction c as [|x c IH]; [constructor|]. cbn in *. inversion D; subst.
    destruct (negb (String.eqb (fst x) (fst e))); [|auto]. cbn. constructor; [|auto].
    intros Hin. apply H1. apply in_map_iff in Hin as [y [E Hy]]. apply filter_In in Hy as [Hy _]. apply in_map_iff. eauto.
Qed.
Lemma load_nodup : forall l c, NoDup (map fst c) -> NoDup (map fst (cache_load c l)).
Proof. unfold cache_load. induction l as [|e l IH]; intros c D; [assumption|]. cbn. apply IH. now apply insert_nodup. Qed.
Lemma load_in : forall l c x, NoDup (map fst l) ->
  (In x (cache_load c l) <-> In x l \/ (In x c /\ ~ In (fst x) (map fst l))).
Proof.
  unfold cache_load. induction l as [|e l IH]; intros c x D; [cbn; tauto|]. cbn [fold_left]. inversion D; subst.
  rewrite IH by assumption. rewrite insert_in. cbn. split.
  - intros [H|[[ -> |[H N]] N2]]; [tauto|tauto|]. right. split; [assumption|]. intros [E|E]; [now elim N|tauto].
  - intros [[ -> |H]|[H N]]; [right; split; [now left|assumption]|now left|]. right. split; [right|]; [split; [assumption|]|]; intros E; apply N; auto.
Qed.
Lemma load_keys : forall l c x, In x (map fst (cache_load c l)) -> In x (map fst c) \/ In x (map fst l).
Proof.
  unfold cache_load. induction l as [|e l IH]; intros c x H; [now left|]. cbn in *. apply IH in H as [H|H]; [|tauto].
  cbn in H. destruct H as [H|H]; [tauto|]. apply in_map_iff in H as [y [E Hy]]. apply filter_In in Hy as [Hy _].
  left. apply in_map_iff. eauto.
Qed.

Lemma wanted_load : forall include c l c1,
  NoDup (map fst c) -> NoDup (map fst l) ->
  (forall p, In p (map fst c) -> include p = true -> In p (map fst l)) ->
  Permutation (cache_load c l) c1 -> Permutation (wanted include c1) (wanted include l).
Proof.
  intros include c l c1 D1 D2 K P. transitivity (wanted include (cache_load c l)).
  - unfold wanted. apply filter_perm. now symmetry.
  - apply NoDup_Permutation.
    + apply NoDup_filter. apply nodup_fst. now apply load_nodup.
    + apply NoDup_filter. now apply nodup_fst.
    + intros x. unfold wanted. rewrite !filter_In, load_in by assumption. split.
      * intros [[H|[H N]] I]; [auto|]. elim N. apply K; [now apply in_map|assumption].
      * intros [H I]. auto.
Qed.

(** ** Fuel *)
Section Fuel.
Variable list_dirs : string -> outcome (list string).
Definition leaf_loop (f : nat) (path : string) : list string -> option (outcome (list string)) :=
  fix loop (l : list string) : option (outcome (list string)) :=
    match l with
    | [] => Some (Ok [])
    | c :: r =>
        match get_leaf_dirs list_dirs f (path_join path c) with
        | Some (Ok leaves) =>
            match loop r with
            | Some (Ok rest) => Some (Ok (leaves ++ rest)%list)
            | other => other
            end
        | other => other
        end
    end.
Lemma leaf_S : forall f p, get_leaf_dirs list_dirs (S f) p =
  match list_dirs p with
  | Ok [] => Some (Ok [p])
  | Ok (c :: cs) => leaf_loop f p (c :: cs)
  | Err e => Some (Err e)
  | Panic => Some Panic
  end.
Proof. intros f p. cbn [get_leaf_dirs]. destruct (list_dirs p) as [[|c cs]| |]; reflexivity. Qed.
Lemma leaf_mono : forall f f' p r, (f <= f')%nat -> get_leaf_dirs list_dirs f p = Some r -> get_leaf_dirs list_dirs f' p = Some r.
Proof.
  induction f as [|f IH]; intros f' p r Hf H; [discriminate|]. destruct f' as [|f']; [lia|]. rewrite leaf_S in *.
  destruct (list_dirs p) as [[|c cs]|e|]; try assumption.
  revert r H. generalize (c :: cs). induction l as [|d l IHl]; intros r H; [assumption|]. cbn [leaf_loop] in *.
  destruct (get_leaf_dirs list_dirs f (path_join p d)) as [o|] eqn:E; [|discriminate].
  rewrite (IH f' _ _ ltac:(lia) E). destruct o as [leaves|e|]; [|assumption|assumption].
  fold (leaf_loop f p) in *. fold (leaf_loop f' p) in *.
  destruct (leaf_loop f p l) as [o|] eqn:E2; [|discriminate].
  rewrite (IHl _ eq_refl). assumption.
Qed.
Lemma leaves_mono : forall f f' l r, (f <= f')%nat -> leaf_dirs_of list_dirs f l = Some r -> leaf_dirs_of list_dirs f' l = Some r.
Proof.
  intros f f' l. induction l as [|d l IH]; intros r Hf H; [assumption|]. cbn [leaf_dirs_of] in *.
  destruct (get_leaf_dirs list_dirs f d) as [o|] eqn:E; [|discriminate]. rewrite (leaf_mono f f' _ _ Hf E).
  destruct o as [leaves|e|]; [|assumption|assumption].
  destruct (leaf_dirs_of list_dirs f l) as [o|] eqn:E2; [|discriminate]. rewrite (IH _ Hf eq_refl). assumption.
Qed.
Lemma relevant_mono : forall f f' pt em inc r, (f <= f')%nat ->
  list_relevant_partition_paths list_dirs f pt em inc = Some r -> list_relevant_partition_paths list_dirs f' pt em inc = Some r.
Proof.
  intros f f' pt em inc r Hf H. unfold list_relevant_partition_paths in *. destruct (negb pt); [assumption|].
  destruct (list_dirs ""); try assumption.
  match type of H with match ?X with _ => _ end = _ => destruct X as [o|] eqn:E end; [|discriminate].
  now rewrite (leaves_mono _ _ _ _ Hf E).
Qed.
End Fuel.

(** ** Queries *)
Definition lists0 (list_files : string -> outcome (list file_meta)) (format : string) : string -> outcome (list file_group) :=
  list_file_groups_for_partition list_files format (fun _ l => l).

Lemma lists_same : forall list_files format order p, (forall p l, Permutation l (order p l)) ->
  same_answer (list_file_groups_for_partition list_files format order p) (lists0 list_files format p).
Proof.
  intros lf f order p P. unfold lists0, list_file_groups_for_partition. destruct (lf p) as [l|e|]; [|cbn; auto|cbn; auto].
  cbn [bind]. destruct (foldM (classify_step f) ([], []) l) as [[bs ls]|e|]; [|cbn; auto|cbn; auto]. cbn [bind].
  apply mapM_perm. symmetry. apply P.
Qed.

(** Pointwise equal-up-to-order listings. *)
Lemma mapM_same : forall A (f g : string -> outcome (list A)) l, (forall p, same_answer (f p) (g p)) ->
  match mapM f l, mapM g l with
  | Ok a, Ok b => Permutation (List.concat a) (List.concat b)
  | Ok _, _ | _, Ok _ => False
  | _, _ => True
  end.
Proof.
  intros A f g l H. induction l as [|p l IH]; cbn [mapM]; [cbn; constructor|].
  specialize (H p). destruct (f p), (g p); cbn in *; try tauto.
  destruct (mapM f l), (mapM g l); cbn in *; try tauto. now apply Permutation_app.
Qed.
Lemma concat_perm : forall A (a b : list (list A)), Permutation a b -> Permutation (List.concat a) (List.concat b).
Proof.
  intros A a b P. induction P as [|x l1 l2 P IH|x y l|l1 l2 l3 P1 IH1 P2 IH2]; cbn; auto.
  - now apply Permutation_app_head.
  - rewrite !app_assoc. apply Permutation_app_tail. apply Permutation_app_comm.
  - eapply perm_trans; eauto.
Qed.

Section Q.
Variable list_files : string -> outcome (list file_meta).
Variable list_dirs : string -> outcome (list string).
Variable fm : string -> outcome file_meta.
Variable format : string.
Variable partitioned : bool.
Variable n : nat.
Variable root : tree.
Hypothesis serves : serves_dirs root list_dirs.
Hypothesis wf : wf_tree root.

Notation lst := (lists0 list_files format).
Notation vquery := (view_query list_files list_dirs fm format partitioned n).
Notation vhistory := (view_history list_files list_dirs fm format partitioned n).

Definition paths_of (q : query) : list string :=
  if partitioned then filter (q_include q) (all_partitions root) else [""].
Definition expected (q : query) : outcome (list file_slice) :=
  let* gss := mapM lst (paths_of q) in
  mapM (load_metadata_if_needed fm)
    (if partitioned || q_include q "" then flat_map (pick (q_time q) (q_excluded q)) (List.concat gss) else []).

Definition wf_query (q : query) : Prop := q_pruner_empty q = true -> forall p, q_include q p = true.
Definition cache_ok (c : cache) : Prop :=
  NoDup (map fst c) /\ forall p, In p (map fst c) -> if partitioned then In p (all_partitions root) else p = "".

Lemma filter_all : forall A (f : A -> bool) l, (forall x, f x = true) -> filter f l = l.
Proof. intros A f l H. induction l as [|x l IH]; [reflexivity|]. cbn. now rewrite H, IH. Qed.

Lemma paths_determined : forall fuel q r, wf_query q -> partitioned = true ->
  list_relevant_partition_paths list_dirs fuel true (q_pruner_empty q) (q_include q) = Some r -> r = Ok (paths_of q).
Proof.
  intros fuel q r W Hp H. unfold paths_of. rewrite Hp.
  apply (relevant_mono _ fuel (Nat.max fuel (depth root))) in H; [|lia].
  rewrite (relevant_paths list_dirs root serves wf) in H by lia. injection H as <-.
  destruct (q_pruner_empty q) eqn:E; [|reflexivity]. now rewrite filter_all by auto.
Qed.

Lemma mapM_done : forall A (f : string -> outcome A) done, (forall p v, In (p, v) done -> f p = Ok v) ->
  mapM f (map fst done) = Ok (map snd done).
Proof.
  intros A f. induction done as [|[p v] done IH]; intros H; [reflexivity|]. cbn [map fst snd mapM].
  rewrite (H p v (or_introl eq_refl)). rewrite IH by (intros; apply H; now right). reflexivity.
Qed.

Lemma mapM_fails : forall A (f : string -> outcome A) l p, In p l -> (forall v, f p <> Ok v) -> forall r, mapM f l <> Ok r.
Proof.
  intros A f l p Hin N r H. apply mapM_ok in H. destruct (Forall2_in_l _ _ _ _ _ _ H Hin) as [y [_ E]]. now elim (N y).
Qed.

Lemma same_not_ok : forall A (a b : outcome (list A)), (forall v, a <> Ok v) -> same_answer a b -> forall v, b <> Ok v.
Proof. intros A a b N S v ->. destruct a as [l|e|]; cbn in S; try tauto. now elim (N l). Qed.

Lemma expected_fails : forall q p, In p (paths_of q) -> (forall v, lst p <> Ok v) -> forall v, expected q <> Ok v.
Proof.
  intros q p Hp N v. unfold expected. destruct (mapM lst (paths_of q)) as [l|e|] eqn:E; cbn; [|discriminate|discriminate].
  now elim (mapM_fails _ lst _ _ Hp N l).
Qed.

Lemma picks_concat : forall t ex (c : cache), picks t ex c = flat_map (pick t ex) (List.concat (map snd c)).
Proof.
  intros t ex. induction c as [|e c IH]; [reflexivity|]. cbn. rewrite flat_map_app. f_equal. exact IH.
Qed.

Lemma fail_same : forall A (a b : outcome (list A)), (forall v, a <> Ok v) -> (forall v, b <> Ok v) -> same_answer a b.
Proof. intros A [x| |] [y| |] H1 H2; cbn; auto; [now elim (H1 x)|now elim (H1 x)|now elim (H1 x)|now elim (H2 y)|now elim (H2 y)]. Qed.

Lemma query_answer : forall c q c' r, cache_ok c -> wf_query q -> vquery c q c' r ->
  cache_ok c' /\ same_answer r (expected q).
Proof.
  intros c q c' r [D K] W H. destruct H as [order c q listed c1 c' r P L Pc Hc|order c q e P L|order c q P L].
  - assert (F : NoDup (map fst listed)
        /\ (forall p, In p (map fst c) -> q_include q p = true -> In p (map fst listed))
        /\ (forall p, In p (map fst listed) -> if partitioned then In p (all_partitions root) else p = "")
        /\ same_answer (mapM (load_metadata_if_needed fm) (picks (q_time q) (q_excluded q) (wanted (q_include q) listed))) (expected q)).
    { inversion L as [Hp Ho|?|?|fuel paths done Hp Hr Hs Ho|fuel paths e Hp Hr Hs Ho]; subst.
      - (* unpartitioned *)
        apply bind_ok in Ho as [gs [Hg Ho]]. injection Ho as <-. rewrite Hp in *.
        split; [cbn; repeat constructor; intros []|]. split; [intros p Hin _; left; symmetry; now apply K|].
        split; [intros p [ <- |[]]; reflexivity|].
        unfold expected, paths_of. rewrite Hp. cbn [orb mapM]. assert (S := lists_same list_files format order "" P).
        change EMPTY_PARTITION_PATH with "" in *. rewrite Hg in S. destruct (lst "") as [gs0| |] eqn:E0; cbn in S; try tauto.
        cbn [bind List.concat]. rewrite app_nil_r. cbn [wanted filter fst]. destruct (q_include q "").
        + cbn [picks flat_map snd]. rewrite app_nil_r. apply mapM_perm. now apply Permutation_flat_map.
        + apply same_refl.
      - (* partitioned *)
        assert (Ep := paths_determined _ _ _ W Hp Hr). injection Ep as ->.
        assert (I := star_inv _ _ _ _ _ _ Hs (init_inv _ _ _)). cbn in I. destruct I as [Pp Hd].
        assert (Sub : forall p, In p (map fst listed) <-> In p (all_partitions root) /\ q_include q p = true).
        { intros p. rewrite <- (filter_In (q_include q)). unfold paths_of in Pp. rewrite Hp in Pp. split; apply Permutation_in; [now symmetry|assumption]. }
        split; [eapply Permutation_NoDup; [exact Pp|]; unfold paths_of; rewrite Hp; apply NoDup_filter; now apply all_partitions_nodup|].
        rewrite Hp in K |- *. split; [intros p Hin Hi; apply Sub; auto|]. split; [intros p Hin; now apply Sub|].
        assert (Ew : wanted (q_include q) listed = listed).
        { unfold wanted. assert (X : forall e, In e listed -> q_include q (fst e) = true) by (intros e He; apply Sub; now apply in_map).
          clear - X. induction listed as [|e l IH]; [reflexivity|]. cbn. rewrite X by now left. f_equal. apply IH. intros; apply X; now right. }
        rewrite Ew, picks_concat. unfold expected. rewrite Hp. cbn [orb].
        assert (S1 := mapM_perm _ _ (list_file_groups_for_partition list_files format order) _ _ Pp).
        rewrite (mapM_done _ _ _ Hd) in S1.
        assert (S2 := mapM_same _ _ _ (paths_of q) (fun p => lists_same list_files format order p P)).
        destruct (mapM (list_file_groups_for_partition list_files format order) (paths_of q)) as [gss1| |]; cbn in S1; try tauto.
        destruct (mapM lst (paths_of q)) as [gss0| |]; try tauto. cbn [bind].
        apply mapM_perm. apply Permutation_flat_map. rewrite <- S2. apply concat_perm. now symmetry.
      - destruct e; discriminate. }
    destruct F as [D2 [K2 [K3 S]]]. split.
    + assert (E : map fst c' = map fst c1) by (change c' with (fst (c', r)); rewrite <- Hc; apply collect_keys).
      assert (Pk : Permutation (map fst (cache_load c listed)) (map fst c')) by (rewrite E; now apply Permutation_map).
      split; [eapply Permutation_NoDup; [exact Pk|]; now apply load_nodup|].
      intros p Hin. apply (Permutation_in _ (Permutation_sym Pk)) in Hin. apply load_keys in Hin as [Hin|Hin]; [exact (K p Hin)|exact (K3 p Hin)].
    + change r with (snd (c', r)). rewrite <- Hc, collect_snd. eapply same_trans; [|exact S].
      apply mapM_perm. unfold picks. apply Permutation_flat_map. exact (wanted_load _ c listed c1 D D2 K2 Pc).
  - split; [split; assumption|]. apply fail_same; [discriminate|].
    inversion L as [Hp Ho|fuel e' Hp Hr Ho|?|?|fuel paths e' Hp Hr Hs Ho]; subst.
    + apply (expected_fails q ""); [unfold paths_of; rewrite Hp; now left|].
      eapply same_not_ok; [|exact (lists_same list_files format order "" P)]. intros v E. change EMPTY_PARTITION_PATH with "" in Ho. rewrite E in Ho. discriminate.
    + apply (paths_determined _ _ _ W Hp) in Hr. discriminate.
    + assert (Ep := paths_determined _ _ _ W Hp Hr). injection Ep as ->.
      assert (I := star_inv _ _ _ _ _ _ Hs (init_inv _ _ _)). cbn in I. destruct e' as [e'|]; [|discriminate].
      destruct I as [p [Hin E]]. apply (expected_fails q p Hin).
      eapply same_not_ok; [|exact (lists_same list_files format order p P)]. congruence.
  - split; [split; assumption|]. apply fail_same; [discriminate|].
    inversion L as [Hp Ho|?|fuel Hp Hr Ho|?|fuel paths e' Hp Hr Hs Ho]; subst.
    + apply (expected_fails q ""); [unfold paths_of; rewrite Hp; now left|].
      eapply same_not_ok; [|exact (lists_same list_files format order "" P)]. intros v E. change EMPTY_PARTITION_PATH with "" in Ho. rewrite E in Ho. discriminate.
    + apply (paths_determined _ _ _ W Hp) in Hr. discriminate.
    + assert (Ep := paths_determined _ _ _ W Hp Hr). injection Ep as ->.
      assert (I := star_inv _ _ _ _ _ _ Hs (init_inv _ _ _)). cbn in I. destruct e' as [e'|]; [discriminate|].
      destruct I as [p [Hin E]]. apply (expected_fails q p Hin).
      eapply same_not_ok; [|exact (lists_same list_files format order p P)]. congruence.
Qed.

Lemma history_ok : forall c, vhistory c -> cache_ok c.
Proof.
  intros c H. induction H as [|c q c' r H IH W Hq]; [split; [constructor|intros p []]|].
  now destruct (query_answer c q c' r IH W Hq).
Qed.

Lemma history_independent : forall c1 c2 q c1' c2' r1 r2, vhistory c1 -> vhistory c2 ->
  (q_pruner_empty q = true -> forall p, q_include q p = true) ->
  vquery c1 q c1' r1 -> vquery c2 q c2' r2 -> same_answer r1 r2.
Proof.
  intros c1 c2 q c1' c2' r1 r2 H1 H2 W Q1 Q2.
  destruct (query_answer _ _ _ _ (history_ok _ H1) W Q1) as [_ S1].
  destruct (query_answer _ _ _ _ (history_ok _ H2) W Q2) as [_ S2].
  eapply same_trans; [exact S1|]. now apply same_sym.
Qed.

(** A query can always run to an answer when the parallelism is positive. *)
Lemma query_runs : (0 < n)%nat -> forall c q, wf_query q -> exists c' r, vquery c q c' r.
Proof.
  intros Hn c q W. set (order := fun (_ : string) (l : list (string * list base_file)) => l).
  assert (P : forall p l, Permutation l (order p l)) by (intros; reflexivity).
  assert (L : exists o, load_listing list_files list_dirs format partitioned n order q o).
  { destruct partitioned eqn:Hp; [|eexists; now constructor].
    destruct (par_runs _ (list_file_groups_for_partition list_files format order) n Hn (Running (paths_of q) [] [])) as [s [Hs F]].
    assert (Hr : list_relevant_partition_paths list_dirs (depth root) true (q_pruner_empty q) (q_include q) = Some (Ok (paths_of q))).
    { rewrite (relevant_paths list_dirs root serves wf) by lia. unfold paths_of. rewrite Hp.
      destruct (q_pruner_empty q) eqn:E; [|reflexivity]. now rewrite filter_all by auto. }
    destruct s as [?|done|e]; [elim F| |].
    - eexists. eapply ll_finished; eauto.
    - eexists. eapply ll_failed; eauto. }
  destruct L as [[listed|e|] L].
  - destruct (collect fm (q_time q) (q_include q) (q_excluded q) (cache_load c listed)) as [c' r] eqn:E.
    exists c', r. eapply vq_ok; eauto.
  - exists c, (Err e). eapply vq_err; eauto.
  - exists c, Panic. eapply vq_panic; eauto.
Qed.

(** ** What a snapshot contains *)
Lemma log_insert_in : forall f s x, In x (log_insert f s) -> x = f \/ In x s.
Proof.
  intros f. unfold log_insert. induction s as [|y s IH]; intros x H; cbn [sadd] in H.
  - destruct H as [ <- |[]]; now left.
  - destruct (log_key_cmp (log_key f) (log_key y)) eqn:E.
    + right. exact H.
    + destruct H as [H|H]; [left; now symmetry|right; exact H].
    + destruct H as [H|H]; [right; now left|]. apply IH in H as [H|H]; [now left|right; now right].
Qed.
Lemma log_extend_in : forall l s x, In x (log_extend s l) -> In x s \/ In x l.
Proof.
  induction l as [|f l IH]; intros s x H; [now left|]. change (log_extend s (f :: l)) with (log_extend (log_insert f s) l) in H.
  apply IH in H as [H|H]; [|right; now right]. apply log_insert_in in H as [ -> |H]; [right; now left|now left].
Qed.
Lemma group_slices : forall p listed gs g, list_files p = Ok listed -> lst p = Ok gs -> In g gs ->
  wf_group g /\ fg_partition g = p /\
  forall s, In s (slices g) -> exists m b, base_listed format listed m b /\ fs_base s = b /\ bf_file_id b = fg_id g
     /\ fs_partition s = p
     /\ (forall v w, (exists l, In l (fs_logs s) /\ lf_version l = v /\ lf_write_token l = w)
         <-> exists m' x, log_listed format listed m' x /\ lf_file_id x = fg_id g
               /\ lf_base_commit x = bf_commit b /\ lf_version x = v /\ lf_write_token x = w)
     /\ forall l, In l (fs_logs s) -> exists m', log_listed format listed m' l /\ lf_file_id l = fg_id g /\ lf_base_commit l = bf_commit b.
Proof.
  intros p listed gs g Hl Hg Hin. assert (Po : forall (q : string) (l : list (string * list base_file)), Permutation l ((fun (_ : string) l => l) q l)) by reflexivity.
  assert (S := list_partition_groups format list_files _ Po p listed gs Hl Hg).
  destruct (list_partition_inv format list_files _ Po p listed gs Hl Hg) as [bases [G [C F]]].
  destruct (Forall2_in_r _ _ _ _ _ _ F Hin) as [e [He Hr]].
  destruct (run_spec _ _ _ (wf_new (fst e) p) Hr) as [W [I [Pp [Gt _]]]]. cbn in I, Pp.
  split; [assumption|]. split; [assumption|]. intros s Hs.
  pose proof Hs as Hs'. apply in_slices in Hs; [|assumption]. rewrite Gt in Hs. cbn [new_group fg_slices fg_partition slices_get sget run_get] in Hs.
  unfold run_get in Hs. change (slices_get (bf_commit (fs_base s)) []) with (@None slice_entry) in Hs. cbn iota in Hs.
  destruct (find (base_at (bf_commit (fs_base s))) _) as [b|] eqn:Ef; [|discriminate]. injection Hs as Hs.
  apply find_some in Ef as [Hb _]. rewrite bases_of_maps in Hb. apply with_key_in in Hb as [Hb Eb]. apply bases_in_spec in Hb as [m Hm].
  exists m, b. split; [assumption|]. split; [now rewrite <- Hs|]. split; [congruence|]. split; [now rewrite <- Hs|]. split.
  2: { intros l Il. assert (Ec : lf_base_commit l = bf_commit b).
       { rewrite (logs_commit g s l W Hs' Il). now rewrite <- Hs. }
       rewrite <- Hs in Il. cbn [snd with_logs fs_logs] in Il. apply log_extend_in in Il as [[]|Il]. apply filter_In in Il as [Il _].
       rewrite logs_of_maps in Il. apply with_key_in in Il as [Il Ei]. apply logs_in_spec in Il as [m' Hm']. exists m'. split; [assumption|]. split; [congruence|assumption]. }
  intros v w. destruct S as [_ [_ [_ S]]]. destruct (S g Hin) as [_ SL]. rewrite <- SL. clear SL S.
  assert (Eb' : fs_base s = b) by now rewrite <- Hs. unfold has_log. split.
  - intros [l [Hl' [E1 E2]]]. exists s, l. rewrite Eb'. auto.
  - intros [s' [l [Hs2 [Ec [Hl' [E1 E2]]]]]]. assert (s' = s) as ->; [|eauto].
    apply in_slices in Hs2; [|assumption]. apply in_slices in Hs'; [|assumption]. rewrite Ec in Hs2. rewrite Eb' in Hs'. congruence.
Qed.

Lemma pick_in : forall t ex g s, In s (pick t ex g) <-> ~ In (ident g) (map ident ex) /\ get_file_slice_as_of g t = Some s.
Proof.
  intros t ex g s. unfold pick, get_file_slice_as_of. destruct (gs_mem g ex) eqn:E.
  - apply gs_mem_ident in E. cbn. tauto.
  - apply gs_mem_false in E. destruct (entry_as_of g t) as [[k u]|]; cbn; [|split; [intros []|intros [_ X]; discriminate]].
    split; [intros [ -> |[]]; auto|]. intros [_ [= ->]]. auto.
Qed.

Lemma load_same : forall s s', load_metadata_if_needed fm s = Ok s' ->
  fs_partition s' = fs_partition s /\ fs_logs s' = fs_logs s /\ bf_file_id (fs_base s') = bf_file_id (fs_base s)
  /\ bf_commit (fs_base s') = bf_commit (fs_base s) /\ base_file_name (fs_base s') = base_file_name (fs_base s).
Proof.
  intros s s' H. unfold load_metadata_if_needed in H.
  assert (X : forall s', (let* m := fm (base_relative_path s) in Ok (with_base s (set_meta (fs_base s) m))) = Ok s' ->
     fs_partition s' = fs_partition s /\ fs_logs s' = fs_logs s /\ bf_file_id (fs_base s') = bf_file_id (fs_base s)
  /\ bf_commit (fs_base s') = bf_commit (fs_base s) /\ base_file_name (fs_base s') = base_file_name (fs_base s)).
  { intros u Hu. apply bind_ok in Hu as [m [_ Hu]]. injection Hu as <-. cbn. auto. }
  destruct (bf_meta (fs_base s)) as [m|]; [|auto]. destruct (fm_populated m); [|auto]. injection H as <-. auto.
Qed.

Lemma sle_antisym_str : forall a b, sle a b -> sle b a -> a = b.
Proof.
  intros a b H1 H2. unfold sle in *. destruct (scmp a b) eqn:E; try (now elim H1); [now apply scmp_eq|].
  rewrite scmp_antisym, E in H2. now elim H2.
Qed.

(** The picked slices of the relevant partitions. *)
Lemma picked_snapshot : forall q gss ss,
  mapM lst (filter (q_include q) (if partitioned then all_partitions root else [""])) = Ok gss ->
  mapM (load_metadata_if_needed fm) (flat_map (pick (q_time q) (q_excluded q)) (List.concat gss)) = Ok ss ->
  snapshot_of list_files format partitioned root q ss.
Proof.
  intros q gss ss Hg Hs. set (paths := filter (q_include q) (if partitioned then all_partitions root else [""])) in *.
  assert (Rel : forall p, In p paths <-> relevant partitioned root q p).
  { intros p. unfold paths, relevant. rewrite filter_In. destruct partitioned.
    - rewrite in_all_partitions. tauto.
    - cbn. split; [intros [[H|[]] I]; auto|intros [I ->]; auto]. }
  assert (Dp : NoDup paths).
  { apply NoDup_filter. destruct partitioned; [now apply all_partitions_nodup|repeat constructor; intros []]. }
  clearbody paths. apply mapM_ok in Hg. apply mapM_ok in Hs.
  assert (Lf : forall p gs, lst p = Ok gs -> exists listed, list_files p = Ok listed).
  { intros p gs H. unfold lists0, list_file_groups_for_partition in H. apply bind_ok in H as [l [H _]]. eauto. }
  assert (Po : forall (q : string) (l : list (string * list base_file)), Permutation l ((fun (_ : string) l => l) q l)) by reflexivity.
  split; [|split].
  - intros s' Hin. destruct (Forall2_in_r _ _ _ _ _ _ Hs Hin) as [s [Hp Hl]].
    apply in_flat_map in Hp as [g [Hgin Hp]]. apply in_concat in Hgin as [gs [Hgs Hgin]].
    destruct (Forall2_in_r _ _ _ _ _ _ Hg Hgs) as [p [Hpin Elst]]. destruct (Lf _ _ Elst) as [listed El].
    exists p, listed. split; [now apply Rel|]. split; [assumption|].
    apply pick_in in Hp as [Nex As]. destruct (group_slices p listed gs g El Elst Hgin) as [W [Pg Gs]].
    assert (Sp := as_of_spec g (q_time q) W). rewrite As in Sp. destruct Sp as [Ins [Sle Max]].
    destruct (Gs s Ins) as [m [b [Bl [Eb [Ei [Ep [Lg Lg']]]]]]]. destruct (load_same _ _ Hl) as [L1 [L2 [L3 [L4 L5]]]].
    split.
    + exists m, b. rewrite L1, L2, L3, L4, L5, Eb, Ei. split; [assumption|]. split; [assumption|]. split; [reflexivity|]. split; [reflexivity|].
      split; [reflexivity|]. split; [now rewrite <- Eb|]. split; [|split; [exact Lg|exact Lg']].
      intros m' b' Bl' Ei' Sle'.
      assert (Hb : has_base g (bf_commit b') (base_file_name b')).
      { destruct (list_partition_groups format list_files _ Po p listed gs El Elst) as [_ [_ [_ S]]]. apply S; [assumption|].
        exists m', b'. split; [assumption|]. split; [congruence|]. auto. }
      destruct Hb as [s2 [Hs2 [Ec2 _]]]. rewrite <- Ec2 in Sle' |- *. destruct (Max s2 Hs2 Sle') as [ -> |Lt].
      * rewrite Eb. unfold sle. rewrite scmp_refl. discriminate.
      * rewrite Eb in Lt. unfold slt in Lt. unfold sle. rewrite Lt. discriminate.
    + unfold slice_id. rewrite L1, L3, Eb, Ei, Ep. unfold ident in Nex. now rewrite Pg in Nex.
  - intros p Hr. apply Rel in Hr. destruct (Forall2_in_l _ _ _ _ _ _ Hg Hr) as [gs [Hgs Elst]].
    destruct (Lf _ _ Elst) as [listed El]. exists listed. split; [assumption|]. intros m b Bl Sle Nex.
    destruct (list_partition_groups format list_files _ Po p listed gs El Elst) as [_ [Hpt [Ids S]]].
    assert (Hid : In (bf_file_id b) (map fg_id gs)) by (apply Ids; eauto). apply in_map_iff in Hid as [g [Eg Hgin]].
    destruct (group_slices p listed gs g El Elst Hgin) as [W [Pg Gs]].
    assert (Hb : has_base g (bf_commit b) (base_file_name b)) by (apply S; eauto 6).
    destruct Hb as [s0 [Hs0 [Ec0 _]]].
    assert (Sp := as_of_spec g (q_time q) W). destruct (get_file_slice_as_of g (q_time q)) as [s|] eqn:As.
    + destruct Sp as [Ins _]. assert (Hpk : In s (flat_map (pick (q_time q) (q_excluded q)) (List.concat gss))).
      { apply in_flat_map. exists g. split; [apply in_concat; eauto|]. apply pick_in. split; [|assumption].
        unfold ident. now rewrite Pg, Eg. }
      destruct (Forall2_in_l _ _ _ _ _ _ Hs Hpk) as [s' [Hs' Hl]]. apply in_map_iff. exists s'. split; [|assumption].
      destruct (Gs s Ins) as [m' [b' [_ [Eb [Ei [Ep _]]]]]]. destruct (load_same _ _ Hl) as [L1 [L2 [L3 _]]].
      unfold slice_id. now rewrite L1, L3, Ep, Eb, Ei, Eg.
    + specialize (Sp s0 Hs0). rewrite Ec0 in Sp. unfold sle, slt in *. exfalso. apply Sle.
      rewrite scmp_antisym, Sp. reflexivity.
  - (* no group twice *)
    assert (E : map slice_id ss = map slice_id (flat_map (pick (q_time q) (q_excluded q)) (List.concat gss))).
    { clear - Hs. induction Hs as [|s s' l l' H F IH]; [reflexivity|]. cbn. f_equal; [|assumption].
      destruct (load_same _ _ H) as [L1 [_ [L3 _]]]. unfold slice_id. now rewrite L1, L3. }
    rewrite E. clear E Hs ss.
    assert (Sid : forall p gs g s, lst p = Ok gs -> In g gs -> In s (pick (q_time q) (q_excluded q) g) -> slice_id s = (p, fg_id g)).
    { intros p gs g s Elst Hgin Hp. destruct (Lf _ _ Elst) as [listed El].
      destruct (group_slices p listed gs g El Elst Hgin) as [W [Pg Gs]]. apply pick_in in Hp as [_ As].
      assert (Sp := as_of_spec g (q_time q) W). rewrite As in Sp. destruct Sp as [Ins _].
      destruct (Gs s Ins) as [m' [b' [_ [Eb [Ei [Ep _]]]]]]. unfold slice_id. now rewrite Ep, Eb, Ei. }
    assert (One : forall g, (List.length (pick (q_time q) (q_excluded q) g) <= 1)%nat).
    { intros g. unfold pick. destruct (gs_mem _ _); [cbn; lia|]. destruct (entry_as_of _ _) as [[? ?]|]; cbn; lia. }
    clear Rel. induction Hg as [|p gs paths gss Elst F IH]; [constructor|]. inversion Dp; subst. cbn [List.concat].
    rewrite flat_map_app, map_app. apply nodup_app.
    + destruct (Lf _ _ Elst) as [listed El]. destruct (list_partition_groups format list_files _ Po p listed gs El Elst) as [Nd _].
      assert (Sid' := fun g s => Sid p gs g s Elst). clear - Nd Sid' One. induction gs as [|g gs IH]; [constructor|].
      cbn [flat_map map] in *. inversion Nd; subst. rewrite map_app. apply nodup_app.
      * specialize (One g). destruct (pick _ _ g) as [|a [|? ?]]; cbn in *; [constructor|repeat constructor; intros []|lia].
      * apply IH; auto. intros; apply Sid'; [now right|assumption].
      * intros x Hx Hy. apply in_map_iff in Hx as [s [<- Hx]]. apply in_map_iff in Hy as [u [Eu Hy]].
        apply in_flat_map in Hy as [h [Hh Hu]]. rewrite (Sid' g s (or_introl eq_refl) Hx), (Sid' h u (or_intror Hh) Hu) in Eu.
        injection Eu as Eu. apply H1. rewrite <- Eu. now apply in_map.
    + apply IH; auto.
    + intros x Hx Hy. apply in_map_iff in Hx as [s [<- Hx]]. apply in_map_iff in Hy as [u [Eu Hy]].
      apply in_flat_map in Hx as [g [Hg Hx]]. apply in_flat_map in Hy as [h [Hh Hu]]. apply in_concat in Hh as [gs' [Hgs' Hh]].
      destruct (Forall2_in_r _ _ _ _ _ _ F Hgs') as [p' [Hp' Elst']].
      rewrite (Sid p gs g s Elst Hg Hx), (Sid p' gs' h u Elst' Hh Hu) in Eu. injection Eu as <- _. auto.
Qed.

Lemma snapshot_perm : forall q s1 s2, Permutation s1 s2 ->
  snapshot_of list_files format partitioned root q s1 -> snapshot_of list_files format partitioned root q s2.
Proof.
  intros q s1 s2 P [H1 [H2 H3]]. split; [|split].
  - intros s Hs. apply H1. eapply Permutation_in; [symmetry; exact P|assumption].
  - intros p Hp. destruct (H2 p Hp) as [l [El H]]. exists l. split; [assumption|]. intros m b Hb Sl Nx.
    eapply Permutation_in; [apply Permutation_map; exact P|]. eauto.
  - eapply Permutation_NoDup; [apply Permutation_map; exact P|assumption].
Qed.

Lemma expected_snapshot : forall q ss, same_answer (Ok ss) (expected q) -> snapshot_of list_files format partitioned root q ss.
Proof.
  intros q ss S.
  unfold expected in S. destruct (mapM lst (paths_of q)) as [gss| |] eqn:Eg; cbn [bind] in S; try (now elim S).
  destruct (mapM (load_metadata_if_needed fm) _) as [ss0| |] eqn:Es in S; cbn in S; try tauto.
  apply (snapshot_perm q ss0 ss); [now symmetry|]. unfold paths_of in Eg.
  assert (X : exists gss',
    mapM lst (filter (q_include q) (if partitioned then all_partitions root else [""])) = Ok gss'
    /\ mapM (load_metadata_if_needed fm) (flat_map (pick (q_time q) (q_excluded q)) (List.concat gss')) = Ok ss0).
  { clear - Eg Es. destruct partitioned; [exists gss; auto|]. cbn [orb filter] in *. destruct (q_include q "").
    - exists gss. auto.
    - exists []. auto. }
  destruct X as [gss' [X1 X2]]. eapply picked_snapshot; eauto.
Qed.

Lemma snapshot_exact : forall c q c' ss, vhistory c -> (q_pruner_empty q = true -> forall p, q_include q p = true) ->
  vquery c q c' (Ok ss) -> snapshot_of list_files format partitioned root q ss.
Proof.
  intros c q c' ss H W Q. destruct (query_answer _ _ _ _ (history_ok _ H) W Q) as [_ S]. now apply expected_snapshot.
Qed.
End Q.

(** ** Listing order *)
Lemma groups_order : forall format list1 list2 order1 order2 p l1 l2 gs1 gs2,
  (forall p l, Permutation l (order1 p l)) -> (forall p l, Permutation l (order2 p l)) ->
  list1 p = Ok l1 -> list2 p = Ok l2 -> Permutation l1 l2 ->
  list_file_groups_for_partition list1 format order1 p = Ok gs1 ->
  list_file_groups_for_partition list2 format order2 p = Ok gs2 ->
  Permutation (map fg_id gs1) (map fg_id gs2)
  /\ forall g1 g2, In g1 gs1 -> In g2 gs2 -> fg_id g1 = fg_id g2 -> same_contents g1 g2.
Proof.
  intros format list1 list2 order1 order2 p l1 l2 gs1 gs2 P1 P2 E1 E2 P H1 H2.
  destruct (list_partition_groups format list1 order1 P1 p l1 gs1 E1 H1) as [D1 [Q1 [I1 S1]]].
  destruct (list_partition_groups format list2 order2 P2 p l2 gs2 E2 H2) as [D2 [Q2 [I2 S2]]].
  assert (B : forall m b, base_listed format l1 m b <-> base_listed format l2 m b).
  { intros m b. unfold base_listed. split; intros [Hin X]; (split; [|exact X]); [exact (Permutation_in _ P Hin)|exact (Permutation_in _ (Permutation_sym P) Hin)]. }
  assert (L : forall m x, log_listed format l1 m x <-> log_listed format l2 m x).
  { intros m b. unfold log_listed. split; intros [Hin X]; (split; [|exact X]); [exact (Permutation_in _ P Hin)|exact (Permutation_in _ (Permutation_sym P) Hin)]. }
  split.
  - apply NoDup_Permutation; auto. intros id. rewrite I1, I2. split; intros [m [b [Hb E]]]; exists m, b; (split; [now apply B|assumption]).
  - intros g1 g2 Hin1 Hin2 E. destruct (S1 g1 Hin1) as [B1 L1]. destruct (S2 g2 Hin2) as [B2 L2].
    split; [assumption|]. split; [now rewrite (Q1 g1), (Q2 g2)|]. split.
    + intros c nm. rewrite B1, B2, E. split; intros [m [b [Hb X]]]; exists m, b; (split; [now apply B|assumption]).
    + intros c v t. rewrite L1, L2, E. split; intros [m [b [Hb X]]]; exists m, b; (split; [now apply L|assumption]).
Qed.
