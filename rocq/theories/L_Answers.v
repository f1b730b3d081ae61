(** The answers of concurrent queries. *)
From Verif Require Import Base Str L_Base L_Str M_BTree L_BTree M_FileGroup S_FileGroup L_FileGroup M_Builder S_Builder L_Builder
  M_Listing S_Listing L_Listing L_Tree L_Parallel L_View M_Concurrent S_Concurrent L_Concurrent.
Local Open Scope string_scope.

(** ** Entries whose metadata may have been loaded by another query *)
Section Settled.
Variable fm : string -> outcome file_meta.
Notation load := (load_metadata_if_needed fm).

Definition settled (s0 s : file_slice) : Prop := s = s0 \/ load s0 = Ok s.
Lemma load_idem : forall s s', load s = Ok s' -> load s' = Ok s'.
Proof.
  intros s s' H. unfold load_metadata_if_needed in H.
  assert (X : (let* m := fm (base_relative_path s) in Ok (with_base s (set_meta (fs_base s) m))) = Ok s' -> load s' = Ok s').
  { intros E. apply bind_ok in E as [m [Em E]]. injection E as <-. unfold load_metadata_if_needed. cbn [with_base fs_base set_meta bf_meta].
    destruct (fm_populated m); [reflexivity|]. change (base_relative_path (with_base s (set_meta (fs_base s) m))) with (base_relative_path s). now rewrite Em. }
  destruct (bf_meta (fs_base s)) as [m|] eqn:E; [|auto]. destruct (fm_populated m) eqn:Ep; [|auto]. injection H as <-.
  unfold load_metadata_if_needed. now rewrite E, Ep.
Qed.
Lemma settled_load : forall s0 s, settled s0 s -> load s = load s0.
Proof. intros s0 s [ -> |H]; [reflexivity|]. rewrite H. eapply load_idem; eauto. Qed.

Definition same_entry (e0 e : slice_entry) : Prop := fst e0 = fst e /\ settled (snd e0) (snd e).
Definition gsettled (g0 g : file_group) : Prop :=
  fg_id g = fg_id g0 /\ fg_partition g = fg_partition g0 /\ NoDup (map fst (fg_slices g0)) /\ Forall2 same_entry (fg_slices g0) (fg_slices g).

Lemma same_keys : forall l0 l, Forall2 same_entry l0 l -> map fst l0 = map fst l.
Proof. intros l0 l H. induction H as [|e0 e l0 l [E _] H IH]; [reflexivity|]. cbn. now rewrite E, IH. Qed.
Lemma last_same : forall l0 l t, Forall2 same_entry l0 l ->
  match slast_le ekey scmp t l0, slast_le ekey scmp t l with
  | Some e0, Some e => same_entry e0 e
  | None, None => True
  | _, _ => False
  end.
Proof.
  intros l0 l t H. unfold slast_le.
  assert (F : Forall2 same_entry (filter (fun x => match scmp (ekey x) t with Gt => false | _ => true end) l0)
                                 (filter (fun x => match scmp (ekey x) t with Gt => false | _ => true end) l)).
  { induction H as [|e0 e l0 l E H IH]; [constructor|]. cbn [filter]. destruct E as [E S]. unfold ekey. rewrite E. destruct (scmp (fst e) t); [constructor| |]; auto; try (now split); constructor; auto; now split. }
  remember (filter _ l0) as f0 eqn:E0. remember (filter _ l) as f eqn:E1. clear - F.
  induction F as [|e0 e f0 f E F IH]; [exact I|]. destruct F as [|e0' e' f0 f E' F]; [exact E|]. exact IH.
Qed.
Lemma pick_same : forall g0 g t ex, gsettled g0 g -> mapM load (pick t ex g) = mapM load (pick t ex g0).
Proof.
  intros g0 g t ex [Ei [Ep [_ H]]]. unfold pick, entry_as_of.
  assert (Em : gs_mem g ex = gs_mem g0 ex).
  { unfold gs_mem. induction ex as [|x ex IH]; [reflexivity|]. cbn [existsb]. rewrite IH. f_equal. unfold fg_eqb. now rewrite Ei, Ep. }
  rewrite Em. destruct (gs_mem g0 ex); [reflexivity|]. assert (L := last_same _ _ t H).
  destruct (slast_le ekey scmp t (fg_slices g0)) as [[k0 s0]|], (slast_le ekey scmp t (fg_slices g)) as [[k s]|]; try contradiction L.
  2: reflexivity.
  destruct L as [_ L]. cbn in L. cbn [mapM]. now rewrite (settled_load _ _ L).
Qed.
Lemma picks_same : forall gs0 gs t ex, Forall2 gsettled gs0 gs -> mapM load (flat_map (pick t ex) gs) = mapM load (flat_map (pick t ex) gs0).
Proof.
  intros gs0 gs t ex H. induction H as [|g0 g gs0 gs E H IH]; [reflexivity|]. cbn [flat_map]. now rewrite !mapM_app, (pick_same _ _ _ _ E), IH.
Qed.

Lemma update_same : forall l0 l k s s', Forall2 same_entry l0 l -> NoDup (map fst l0) -> In (k, s) l -> load s = Ok s' ->
  Forall2 same_entry l0 (slices_update k (fun _ => s') l).
Proof.
  intros l0 l k s s' H D Hin L. induction H as [|[k0 s0] [k1 s1] l0 l [E S] H IH]; [destruct Hin|]. cbn in E, S. subst k1.
  cbn in D. inversion D as [|? ? N D']; subst. unfold slices_update. cbn [supdate ekey fst snd].
  destruct (scmp k k0) eqn:C.
  - apply scmp_eq in C as -> . constructor; [|assumption]. split; [reflexivity|]. cbn. destruct Hin as [E|Hin].
    + injection E as ->. right. now rewrite <- (settled_load _ _ S).
    + elim N. rewrite (same_keys _ _ H). apply in_map_iff. now exists (k0, s).
  - constructor; [now split|]. apply IH; [assumption|]. destruct Hin as [E|Hin]; [|assumption]. injection E as -> -> . rewrite (proj2 (scmp_eq k k) eq_refl) in C. discriminate.
  - constructor; [now split|]. apply IH; [assumption|]. destruct Hin as [E|Hin]; [|assumption]. injection E as -> -> . rewrite (proj2 (scmp_eq k k) eq_refl) in C. discriminate.
Qed.
Lemma as_of_in : forall g t e, entry_as_of g t = Some e -> In e (fg_slices g).
Proof.
  intros g t e H. unfold entry_as_of, slast_le in H.
  assert (X : forall l, last_opt l = Some e -> In e l).
  { clear. induction l as [|x l IH]; [discriminate|]. destruct l as [|y l]; [intros [= ->]; now left|]. intros E. right. now apply IH. }
  apply X in H. now apply filter_In in H.
Qed.
Lemma collect_settled : forall t ex gs0 gs, Forall2 gsettled gs0 gs -> Forall2 gsettled gs0 (fst (collect_groups fm t ex gs)).
Proof.
  intros t ex gs0 gs H. induction H as [|g0 g gs0 gs E H IH]; [constructor|]. cbn [collect_groups].
  destruct (gs_mem g ex); [destruct (collect_groups fm t ex gs); now constructor|].
  destruct (entry_as_of g t) as [[k s]|] eqn:Ea; [|destruct (collect_groups fm t ex gs); now constructor].
  destruct (load s) as [s'|e|] eqn:El; [|now constructor|now constructor].
  destruct (collect_groups fm t ex gs) as [r o]. cbn [fst] in *. constructor; [|assumption].
  destruct E as [E1 [E2 [E3 E4]]]. split; [exact E1|]. split; [exact E2|]. split; [exact E3|]. cbn [with_slices fg_slices].
  eapply update_same; eauto. now apply as_of_in in Ea.
Qed.
Lemma gsettled_refl : forall g, NoDup (map fst (fg_slices g)) -> gsettled g g.
Proof.
  intros g D. split; [reflexivity|]. split; [reflexivity|]. split; [assumption|]. clear D. induction (fg_slices g); constructor; auto. split; [reflexivity|now left].
Qed.
End Settled.

Section Q.
Variable list_files : string -> outcome (list file_meta).
Variable list_dirs : string -> outcome (list string).
Variable fm : string -> outcome file_meta.
Variable format : string.
Variable partitioned : bool.
Variable n : nat.
Variable root : tree.
Hypothesis serves : serves_dirs root list_dirs.
Hypothesis wf : wf_tree root.

Notation lst := (lists0 list_files format).
Notation load := (load_metadata_if_needed fm).
Notation expect := (expected list_files fm format partitioned root).
Notation paths := (paths_of partitioned root).
Notation listing := (load_listing list_files list_dirs format partitioned n).

Definition known (p : string) : Prop := if partitioned then In p (all_partitions root) else p = "".
Definition entry_ok (e : string * list file_group) : Prop :=
  exists gs0 gs1, lst (fst e) = Ok gs0 /\ Permutation gs0 gs1 /\ Forall2 (gsettled fm) gs1 (snd e).
Definition slices_for (q : query) (p : string) : outcome (list file_slice) :=
  let* gs := lst p in mapM load (flat_map (pick (q_time q) (q_excluded q)) gs).

Lemma in_paths : forall q p, q_include q p = true -> (In p (paths q) <-> known p).
Proof.
  intros q p I. unfold paths_of, known. destruct partitioned; [rewrite filter_In; tauto|]. cbn. intuition.
Qed.

Lemma visit_entry : forall q p gs gs' o, entry_ok (p, gs) -> collect_groups fm (q_time q) (q_excluded q) gs = (gs', o) ->
  entry_ok (p, gs') /\ same_answer o (slices_for q p).
Proof.
  intros q p gs gs' o [gs0 [gs1 [El [P F]]]] H. cbn [fst snd] in *. split.
  - exists gs0, gs1. split; [assumption|]. split; [assumption|]. cbn [snd]. change gs' with (fst (gs', o)). rewrite <- H. now apply collect_settled.
  - change o with (snd (gs', o)). rewrite <- H, collect_groups_snd, (picks_same fm _ _ _ _ F). unfold slices_for. rewrite El. cbn [bind].
    apply mapM_perm. apply Permutation_flat_map. now symmetry.
Qed.

Lemma lst_nodup : forall p gs g, lst p = Ok gs -> In g gs -> NoDup (map fst (fg_slices g)).
Proof.
  intros p gs g H Hin.
  assert (E : exists listed, list_files p = Ok listed) by (pose proof H as H'; apply bind_ok in H' as [listed [E _]]; eauto).
  destruct E as [listed E]. destruct (group_slices list_files format p listed gs g E H Hin) as [[S _] _].
  clear - S. unfold msorted, ssorted in S. induction S as [|e l S IH F]; [constructor|]. cbn. constructor; [|assumption].
  intros I. apply in_map_iff in I as [e' [E I]]. rewrite Forall_forall in F. apply F in I. unfold key_lt, ekey in I. rewrite E, (proj2 (scmp_eq _ _) eq_refl) in I. discriminate.
Qed.
Lemma listed_ok : forall order p gs, (forall p l, Permutation l (order p l)) -> list_file_groups_for_partition list_files format order p = Ok gs -> entry_ok (p, gs).
Proof.
  intros order p gs P H. assert (S := lists_same list_files format order p P). rewrite H in S. unfold entry_ok. cbn [fst snd].
  destruct (lst p) as [gs0| |] eqn:E; cbn in S; try tauto. exists gs0, gs. split; [reflexivity|]. split; [now symmetry|].
  assert (X : forall g, In g gs -> NoDup (map fst (fg_slices g))) by (intros g Hg; apply (lst_nodup p gs0); [assumption|]; now apply (Permutation_in _ S)).
  clear - X. induction gs as [|g gs IH]; constructor; [apply gsettled_refl; apply X; now left|]. apply IH. intros; apply X; now right.
Qed.
(** What a successful listing brings. *)
Lemma listed_spec : forall order q listed, wf_query q -> (forall p l, Permutation l (order p l)) -> listing order q (Ok listed) ->
  (forall e, In e listed -> entry_ok e /\ known (fst e)) /\ forall p, In p (paths q) -> In p (map fst listed).
Proof.
  intros order q listed W P L. inversion L as [Hp Ho|?|?|fuel ps done Hp Hr Hs Ho|fuel ps e Hp Hr Hs Ho]; subst.
  - apply bind_ok in Ho as [gs [Hg Ho]]. injection Ho as <-. unfold known, paths_of. rewrite Hp. change EMPTY_PARTITION_PATH with "" in *. split.
    + intros e [ <- |[]]. split; [|reflexivity]. eapply listed_ok; eauto.
    + intros p Hin. exact Hin.
  - assert (Ep := paths_determined list_files list_dirs fm format partitioned root serves wf _ _ _ W Hp Hr). injection Ep as ->.
    assert (I := star_inv _ _ _ _ _ _ Hs (init_inv _ _ _)). cbn in I. destruct I as [Pp Hd]. split.
    + intros [p gs] He. split; [eapply listed_ok; eauto|]. unfold known. rewrite Hp. cbn [fst].
      assert (J : In p (paths q)) by (apply (Permutation_in _ (Permutation_sym Pp)); apply in_map_iff; now exists (p, gs)).
      unfold paths_of in J. rewrite Hp in J. now apply filter_In in J.
    + intros p Hin. now apply (Permutation_in _ Pp).
  - destruct e; discriminate.
Qed.

(** ** Putting the answers of the partitions together *)
Lemma slices_concat : forall q l sss, mapM (slices_for q) l = Ok sss ->
  exists gss, mapM lst l = Ok gss /\ mapM load (flat_map (pick (q_time q) (q_excluded q)) (List.concat gss)) = Ok (List.concat sss).
Proof.
  intros q. induction l as [|p l IH]; intros sss H.
  - injection H as <-. now exists [].
  - cbn [mapM] in H. apply bind_ok in H as [ss [E H]]. apply bind_ok in H as [sss' [E' H]]. injection H as <-.
    destruct (IH _ E') as [gss [Eg El]]. unfold slices_for in E. apply bind_ok in E as [gs [Eg' E]].
    exists (gs :: gss). split; [cbn [mapM]; now rewrite Eg', Eg|]. cbn [List.concat]. rewrite flat_map_app, mapM_app, E, El. reflexivity.
Qed.
Lemma answer_ok : forall q ps sss acc, (forall p, In p (paths q) -> exists gs, lst p = Ok gs) ->
  Permutation ps (filter (q_include q) (paths q)) -> mapM (slices_for q) ps = Ok sss -> Permutation (List.concat sss) acc ->
  same_answer (Ok acc) (expect q).
Proof.
  intros q ps sss acc Ok' P E Pa. assert (S := mapM_perm _ _ (slices_for q) _ _ P). rewrite E in S.
  destruct (mapM (slices_for q) (filter (q_include q) (paths q))) as [sss'| |] eqn:E'; cbn in S; try tauto.
  apply slices_concat in E' as [gss [Eg El]]. unfold expected.
  assert (Pc : Permutation acc (List.concat sss')) by (rewrite <- Pa; now apply concat_perm).
  unfold paths_of in *. destruct partitioned.
  - cbn [orb]. replace (filter (q_include q) (filter (q_include q) (all_partitions root))) with (filter (q_include q) (all_partitions root)) in Eg.
    + rewrite Eg. cbn [bind]. rewrite El. exact Pc.
    + clear. induction (all_partitions root) as [|x l IH]; [reflexivity|]. cbn. destruct (q_include q x) eqn:Ex; [|assumption]. cbn. rewrite Ex. now f_equal.
  - cbn [orb filter] in *. destruct (q_include q "").
    + rewrite Eg. cbn [bind]. rewrite El. exact Pc.
    + destruct (Ok' "" (or_introl eq_refl)) as [gs Es]. cbn [mapM]. rewrite Es. cbn [bind mapM same_answer]. injection Eg as <-. cbn in El. injection El as El. now rewrite El.
Qed.
Lemma answer_fails : forall q p, In p (paths q) -> q_include q p = true -> (forall v, slices_for q p <> Ok v) -> forall v, expect q <> Ok v.
Proof.
  intros q p Hp I N v H. unfold expected in H. apply bind_ok in H as [gss [Eg H]].
  assert (X : partitioned || q_include q "" = true) by (unfold paths_of in Hp; destruct partitioned; [reflexivity|]; destruct Hp as [ <- |[]]; exact I).
  rewrite X in H. apply mapM_ok in Eg. destruct (Forall2_in_l _ _ _ _ _ _ Eg Hp) as [gs [Hg E]].
  apply mapM_ok in H.
  assert (Y : exists ss, mapM load (flat_map (pick (q_time q) (q_excluded q)) gs) = Ok ss).
  { apply mapM_succeeds. intros s Hs. assert (Hs' : In s (flat_map (pick (q_time q) (q_excluded q)) (List.concat gss))).
    { apply in_flat_map in Hs as [g [Hgg Hs]]. apply in_flat_map. exists g. split; [|assumption]. apply in_concat. eauto. }
    destruct (Forall2_in_l _ _ _ _ _ _ H Hs') as [y [_ Ey]]. eauto. }
  destruct Y as [ss Y]. apply (N ss). unfold slices_for. rewrite E. exact Y.
Qed.

(** ** The invariant *)
Variable shards : nat.
Variable shard_of : string -> nat.
Hypothesis in_shards : forall p, shard_of p < shards.
Notation tstep := (task_step list_files list_dirs fm format partitioned n shards shard_of).
Notation cstep := (conc_step list_files list_dirs fm format partitioned n shards shard_of).

Definition present (sh : nat -> cache) (p : string) : Prop := In p (map fst (sh (shard_of p))).
Definition shard_ok (sh : nat -> cache) : Prop :=
  forall i, NoDup (map fst (sh i)) /\ forall e, In e (sh i) -> entry_ok e /\ known (fst e) /\ shard_of (fst e) = i.
Definition done_upto (q : query) (i : nat) (seen : cache) (acc : list file_slice) : Prop :=
  exists ps sss, NoDup ps
    /\ (forall p, In p ps <-> q_include q p = true /\ known p /\ (shard_of p < i \/ In p (map fst seen)))
    /\ mapM (slices_for q) ps = Ok sss /\ Permutation (List.concat sss) acc.
Definition tinv (sh : nat -> cache) (t : task) : Prop :=
  let q := t_query t in
  match t_phase t with
  | Asked => True
  | Inserting rest => (forall e, In e rest -> entry_ok e /\ known (fst e))
      /\ forall p, In p (paths q) -> In p (map fst rest) \/ present sh p
  | Visiting i seen todo acc => (forall p, In p (paths q) -> present sh p)
      /\ Permutation (map fst (seen ++ todo)) (map fst (sh i)) /\ Forall entry_ok (seen ++ todo) /\ done_upto q i seen acc
  | Answered r => same_answer r (expect q)
  end.
Definition cinv (s : conc) : Prop := linv s /\ shard_ok (c_shards s)
  /\ Forall (fun t => wf_query (t_query t) /\ tinv (c_shards s) t) (c_tasks s).

(** Shards as seen by other tasks: keys stay, and locked shards keep theirs. *)
Lemma tinv_ext : forall sh sh' t, (forall p, present sh p -> present sh' p) -> (forall i, In i (held t) -> Permutation (map fst (sh i)) (map fst (sh' i))) ->
  tinv sh t -> tinv sh' t.
Proof.
  intros sh sh' t K L H. unfold tinv, held in *. destruct (t_phase t) as [|rest|i seen todo acc|r]; auto.
  - destruct H as [H1 H2]. split; [assumption|]. intros p Hp. destruct (H2 p Hp); auto.
  - destruct H as [H1 [H2 [H3 H4]]]. split; [auto|]. split; [|auto]. rewrite H2. apply L. now left.
Qed.

Lemma insert_present : forall sh p gs x, present sh x -> present (set_shard sh (shard_of p) (cache_insert (sh (shard_of p)) (p, gs))) x.
Proof.
  intros sh p gs x H. unfold present in *. destruct (Nat.eq_dec (shard_of x) (shard_of p)) as [E|N]; [|now rewrite set_other].
  rewrite E, set_same. apply in_map_iff in H as [e [Ee He]]. apply in_map_iff. destruct (string_dec x p) as [ -> |Np].
  - exists (p, gs). split; [reflexivity|]. apply insert_in. now left.
  - exists e. split; [assumption|]. apply insert_in. right. rewrite <- E. split; [assumption|]. cbn. congruence.
Qed.
Lemma write_present : forall sh i c x, Permutation (map fst c) (map fst (sh i)) -> present sh x <-> present (set_shard sh i c) x.
Proof.
  intros sh i c x P. unfold present. destruct (Nat.eq_dec (shard_of x) i) as [ <- |N]; [|now rewrite set_other].
  rewrite set_same. split; apply Permutation_in; [now symmetry|assumption].
Qed.
Lemma write_ok : forall sh i c, shard_ok sh -> Permutation (map fst c) (map fst (sh i)) -> Forall entry_ok c -> shard_ok (set_shard sh i c).
Proof.
  intros sh i c S P F j. destruct (Nat.eq_dec j i) as [ -> |N]; [|rewrite set_other by assumption; apply S].
  rewrite set_same. destruct (S i) as [D K]. split; [eapply Permutation_NoDup; [symmetry; exact P|assumption]|].
  intros e He. split; [rewrite Forall_forall in F; auto|].
  assert (X : In (fst e) (map fst (sh i))) by (apply (Permutation_in _ P); now apply in_map). apply in_map_iff in X as [e' [E X]]. rewrite <- E. now apply K.
Qed.

Lemma nodup_app_not : forall (a b : list string) x, NoDup (a ++ x :: b) -> ~ In x a.
Proof. intros a b x D I. apply NoDup_remove_2 in D. apply D. apply in_or_app. now left. Qed.

(** A step of a task keeps its own invariant and that of the shards, and shows the other tasks little. *)
Lemma tstep_inv : forall busy sh t sh' t', tstep busy sh t sh' t' -> wf_query (t_query t) -> shard_ok sh -> tinv sh t ->
  (forall i, In i (held t) -> In i busy) ->
  t_query t' = t_query t /\ shard_ok sh' /\ tinv sh' t' /\ (forall p, present sh p -> present sh' p)
  /\ forall i, (In i (held t) \/ ~ In i busy) \/ sh' i = sh i.
Proof.
  intros busy sh t sh' t' H W S V HB.
  destruct H as [k E Ek|order listed rest E Po L Pe|order e E Po L|order E Po L|p gs rest E Nb|c E Nb Pe|i seen p gs todo acc E Ei|i seen p gs todo acc k E Ei Ek|i seen p gs todo acc gs' ss E Ei Eg|i seen p gs todo acc gs' e E Ei Eg|i seen p gs todo acc gs' E Ei Eg|i seen acc c E L Nb Pe|i seen acc E L];
    (split; [reflexivity|]).
  - split; [assumption|]. split; [exact V|]. auto.
  - split; [assumption|]. split; [|auto]. unfold tinv. cbn [goes t_phase t_query]. destruct (listed_spec order _ listed W Po L) as [L1 L2]. split.
    + intros e He. apply L1. apply (Permutation_in _ (Permutation_sym Pe) He).
    + intros p Hp. left. apply (Permutation_in _ (Permutation_map fst Pe)). auto.
  - split; [assumption|]. split; [|auto]. unfold tinv. cbn [goes t_phase t_query].
    eapply (query_answer list_files list_dirs fm format partitioned n root serves wf [] _ []); [split; [constructor|intros ? []]|exact W|eapply vq_err; eauto].
  - split; [assumption|]. split; [|auto]. unfold tinv. cbn [goes t_phase t_query].
    eapply (query_answer list_files list_dirs fm format partitioned n root serves wf [] _ []); [split; [constructor|intros ? []]|exact W|eapply vq_panic; eauto].
  - unfold tinv in V. rewrite E in V. cbn iota in V. destruct V as [V1 V2]. split; [|split; [|split]].
    + intros j. destruct (Nat.eq_dec j (shard_of p)) as [ -> |N]; [|rewrite set_other by assumption; apply S]. rewrite set_same.
      destruct (S (shard_of p)) as [D K]. split; [now apply insert_nodup|]. intros e He. apply insert_in in He as [ -> |[He _]]; [|now apply K].
      destruct (V1 (p, gs) (or_introl eq_refl)). auto.
    + unfold tinv. cbn [goes t_phase t_query]. split; [intros e He; apply V1; now right|]. intros x Hx. destruct (V2 x Hx) as [[Hp|Hr]|Hs].
      * right. cbn in Hp. subst x. unfold present. rewrite set_same. apply in_map_iff. exists (p, gs). split; [reflexivity|]. apply insert_in. now left.
      * now left.
      * right. now apply insert_present.
    + intros x Hx. now apply insert_present.
    + intros i. destruct (Nat.eq_dec i (shard_of p)) as [ -> |N]; [left; now right|right; now apply set_other].
  - unfold tinv in V. rewrite E in V. cbn iota in V. destruct V as [V1 V2]. split; [assumption|]. split; [|auto]. unfold tinv. cbn [goes t_phase t_query app].
    split; [intros p Hp; destruct (V2 p Hp) as [[]|X]; exact X|]. split; [apply Permutation_map; now symmetry|]. split.
    + apply Forall_forall. intros e He. apply (S 0). apply (Permutation_in _ (Permutation_sym Pe) He).
    + exists [], []. split; [constructor|]. split; [|split; [reflexivity|constructor]]. intros p. cbn. split; [intros []|]. intros [_ [_ [X|[]]]]. lia.
  - unfold tinv in V. rewrite E in V. cbn iota in V. destruct V as [V1 [V2 [V3 V4]]]. split; [assumption|]. split; [|auto]. unfold tinv. cbn [goes t_phase t_query].
    rewrite <- app_assoc. cbn [app]. split; [assumption|]. split; [assumption|]. split; [assumption|].
    destruct V4 as [ps [sss [D [M X]]]]. exists ps, sss. split; [assumption|]. split; [|assumption]. intros x. rewrite M, map_app, in_app_iff. cbn. split; [tauto|].
    intros [I [Kx [L|[L|[ <- |[]]]]]]; [tauto|tauto|congruence].
  - split; [assumption|]. split; [|auto]. unfold tinv in *. cbn [waits t_phase t_query]. exact V.
  - unfold tinv in V. rewrite E in V. cbn iota in V. destruct V as [V1 [V2 [V3 V4]]]. split; [assumption|]. split; [|auto]. unfold tinv. cbn [goes t_phase t_query].
    assert (Ve : entry_ok (p, gs)) by (rewrite Forall_forall in V3; apply V3; apply in_mid).
    destruct (visit_entry _ _ _ _ _ Ve Eg) as [Ve' Sa].
    rewrite <- app_assoc. cbn [app]. split; [assumption|]. split; [rewrite map_app in *; exact V2|]. split.
    { apply Forall_app in V3 as [V3 V3']. inversion V3'; subst. apply Forall_app. split; [assumption|]. now constructor. }
    assert (Pin : In p (map fst (sh i))) by (apply (Permutation_in _ V2); rewrite map_app; apply in_mid).
    assert (Kp : known p /\ shard_of p = i) by (apply in_map_iff in Pin as [e [ <- He]]; now apply (S i)).
    destruct (slices_for (t_query t) p) as [ss'| |] eqn:Es; cbn in Sa; try tauto.
    destruct V4 as [ps [sss [D [M [X Y]]]]]. exists (ps ++ [p])%list, (sss ++ [ss'])%list.
    assert (Np : ~ In p ps).
    { rewrite M. intros [_ [_ [Lt|Hin]]]; [lia|]. eapply nodup_app_not; [|exact Hin]. rewrite map_app in V2. cbn in V2.
      eapply Permutation_NoDup; [symmetry; exact V2|apply S]. }
    split.
    { eapply Permutation_NoDup; [apply Permutation_cons_append|]. now constructor. }
    split.
    { intros x. rewrite in_app_iff, M, map_app, in_app_iff. cbn. split.
      - intros [Hx|[ <- |[]]]; [tauto|]. split; [exact Ei|]. split; [apply Kp|]. right. right. now left.
      - intros [I [Kx [L|[L|[ <- |[]]]]]]; [tauto|tauto|]. right. now left. }
    split.
    { rewrite mapM_app, X. cbn [mapM bind]. rewrite Es. reflexivity. }
    rewrite concat_app. cbn. rewrite app_nil_r. apply Permutation_app; [assumption|now symmetry].
  - unfold tinv in V. rewrite E in V. cbn iota in V. destruct V as [V1 [V2 [V3 V4]]].
    assert (Ve : entry_ok (p, gs)) by (rewrite Forall_forall in V3; apply V3; apply in_mid).
    destruct (visit_entry _ _ _ _ _ Ve Eg) as [Ve' Sa].
    assert (P2 : Permutation (map fst (seen ++ (p, gs') :: todo)) (map fst (sh i))) by (rewrite map_app in *; exact V2).
    assert (F2 : Forall entry_ok (seen ++ (p, gs') :: todo)).
    { apply Forall_app in V3 as [V3 V3']. inversion V3'; subst. apply Forall_app. split; [assumption|]. now constructor. }
    split; [now apply write_ok|]. split; [|split; [intros x; now apply write_present|]].
    + unfold tinv. cbn [goes t_phase t_query]. apply fail_same; [discriminate|].
      assert (Pin : In p (map fst (sh i))) by (apply (Permutation_in _ V2); rewrite map_app; apply in_mid).
      assert (Kp : known p) by (apply in_map_iff in Pin as [e' [ <- He]]; now apply (S i)).
      apply (answer_fails _ p); [now apply in_paths|assumption|]. intros v Ev. rewrite Ev in Sa. exact Sa.
    + intros j. destruct (Nat.eq_dec j i) as [ -> |N]; [|right; now apply set_other]. left. left. unfold held. rewrite E. now left.
  - unfold tinv in V. rewrite E in V. cbn iota in V. destruct V as [V1 [V2 [V3 V4]]].
    assert (Ve : entry_ok (p, gs)) by (rewrite Forall_forall in V3; apply V3; apply in_mid).
    destruct (visit_entry _ _ _ _ _ Ve Eg) as [Ve' Sa].
    assert (P2 : Permutation (map fst (seen ++ (p, gs') :: todo)) (map fst (sh i))) by (rewrite map_app in *; exact V2).
    assert (F2 : Forall entry_ok (seen ++ (p, gs') :: todo)).
    { apply Forall_app in V3 as [V3 V3']. inversion V3'; subst. apply Forall_app. split; [assumption|]. now constructor. }
    split; [now apply write_ok|]. split; [|split; [intros x; now apply write_present|]].
    + unfold tinv. cbn [goes t_phase t_query]. apply fail_same; [discriminate|].
      assert (Pin : In p (map fst (sh i))) by (apply (Permutation_in _ V2); rewrite map_app; apply in_mid).
      assert (Kp : known p) by (apply in_map_iff in Pin as [e' [ <- He]]; now apply (S i)).
      apply (answer_fails _ p); [now apply in_paths|assumption|]. intros v Ev. rewrite Ev in Sa. exact Sa.
    + intros j. destruct (Nat.eq_dec j i) as [ -> |N]; [|right; now apply set_other]. left. left. unfold held. rewrite E. now left.
  - unfold tinv in V. rewrite E in V. cbn iota in V. destruct V as [V1 [V2 [V3 V4]]]. rewrite app_nil_r in *.
    split; [now apply write_ok|]. split; [|split; [intros x; now apply write_present|]].
    + unfold tinv. cbn [goes t_phase t_query app]. split; [intros x Hx; apply write_present; auto|]. rewrite set_other by lia.
      split; [apply Permutation_map; now symmetry|]. split.
      * apply Forall_forall. intros e He. apply (S (Datatypes.S i)). apply (Permutation_in _ (Permutation_sym Pe) He).
      * destruct V4 as [ps [sss [D [M X]]]]. exists ps, sss. split; [assumption|]. split; [|assumption]. intros x. rewrite M. cbn. split.
        -- intros [I [Kx [Lt|Hin]]]; (split; [assumption|]; split; [assumption|]; left); [lia|].
           apply (Permutation_in _ V2) in Hin. apply in_map_iff in Hin as [e [ <- He]]. destruct (S i) as [_ K]. destruct (K e He) as [_ [_ -> ]]. lia.
        -- intros [I [Kx [Lt|[]]]]. split; [assumption|]. split; [assumption|]. destruct (Nat.eq_dec (shard_of x) i) as [Ex|N]; [|left; lia].
           right. apply (Permutation_in _ (Permutation_sym V2)). rewrite <- Ex. apply V1. now apply in_paths.
    + intros j. destruct (Nat.eq_dec j i) as [ -> |N]; [|right; now apply set_other]. left. left. unfold held. rewrite E. now left.
  - unfold tinv in V. rewrite E in V. cbn iota in V. destruct V as [V1 [V2 [V3 V4]]]. rewrite app_nil_r in *.
    split; [now apply write_ok|]. split; [|split; [intros x; now apply write_present|]].
    + unfold tinv. cbn [goes t_phase t_query]. destruct V4 as [ps [sss [D [M [X Y]]]]]. apply (answer_ok _ ps sss); auto.
      * intros p Hp. apply V1 in Hp. unfold present in Hp. apply in_map_iff in Hp as [e [ <- He]]. destruct (S (shard_of (fst e))) as [_ K].
        destruct (K e He) as [[gs0 [gs1 [El _]]] _]. eauto.
      * apply NoDup_Permutation; [assumption| |].
        -- apply NoDup_filter. unfold paths_of. destruct partitioned; [apply NoDup_filter; now apply all_partitions_nodup|repeat constructor; intros []].
        -- intros x. rewrite M, filter_In. split.
           ++ intros [I [Kx _]]. split; [now apply in_paths|assumption].
           ++ intros [Hx I]. split; [assumption|]. split; [now apply (in_paths (t_query t))|]. destruct (Nat.eq_dec (shard_of x) i) as [Ex|N].
              ** right. apply (Permutation_in _ (Permutation_sym V2)). rewrite <- Ex. now apply V1.
              ** left. assert (B := in_shards x). lia.
    + intros j. destruct (Nat.eq_dec j i) as [ -> |N]; [|right; now apply set_other]. left. left. unfold held. rewrite E. now left.
Qed.

Lemma cinv_step : forall k s s', cstep k s s' -> cinv s -> cinv s'.
Proof.
  intros k s s' H [I [S F]]. split; [eapply linv_step; eauto|]. destruct H as [sh l1 t l2 Hm Hn|sh l1 t l2 Hm|sh l1 t l2 sh' t' Hm Hs]; cbn [c_shards c_tasks] in *.
  - split; [assumption|]. apply Forall_app in F as [F1 F2]. inversion F2; subst. apply Forall_app. split; [assumption|]. now constructor.
  - split; [assumption|]. apply Forall_app in F as [F1 F2]. inversion F2; subst. apply Forall_app. split; [assumption|]. now constructor.
  - rewrite Forall_forall in F. destruct (F t (in_mid _ _ _ _)) as [W V].
    destruct (tstep_inv _ _ _ _ _ Hs W S V) as [Eq [S' [V' [K C]]]].
    { intros i Hi. apply in_locks. exists t. split; [apply in_mid|assumption]. }
    split; [assumption|]. apply Forall_forall. intros u Hu.
    assert (O : In u (l1 ++ l2) -> wf_query (t_query u) /\ tinv sh' u).
    { intros Hu'. destruct (F u) as [Wu Vu]; [apply in_app_or in Hu'; apply in_or_app; destruct Hu'; [now left|right; now right]|]. split; [assumption|].
      apply (tinv_ext sh); [assumption| |assumption]. intros i Hi. destruct (C i) as [[Ht|Nb]|E].
      - destruct I as [D _]. cbn in D. now elim (other_held l1 t l2 u i D Hu' Hi).
      - elim Nb. apply in_locks. exists u. split; [|assumption]. apply in_app_or in Hu'; apply in_or_app; destruct Hu'; [now left|right; now right].
      - now rewrite E. }
    apply in_app_or in Hu as [Hu|[ <- |Hu]]; [apply O; apply in_or_app; now left|rewrite Eq; auto|apply O; apply in_or_app; now right].
Qed.
Lemma cinv_start : forall qs, (forall q k, In (q, k) qs -> wf_query q) -> cinv (conc_start qs).
Proof.
  intros qs W. split; [apply linv_start|]. split; [intros i; cbn; split; [constructor|intros ? []]|]. cbn [conc_start c_tasks c_shards].
  apply Forall_forall. intros t Ht. apply in_map_iff in Ht as [[q k] [ <- Hq]]. split; [|exact Logic.I]. cbn. eauto.
Qed.
Lemma answers_expected : forall k qs s t r, (forall q j, In (q, j) qs -> wf_query q) -> star (cstep k) (conc_start qs) s ->
  In t (c_tasks s) -> has_answer t r -> wf_query (t_query t) /\ same_answer r (expect (t_query t)).
Proof.
  intros k qs s t r W St Ht Ha.
  assert (I : cinv s).
  { assert (X := cinv_start qs W). clear Ht. revert X. induction St; auto. intros. apply IHSt. eapply cinv_step; eauto. }
  destruct I as [_ [_ F]]. rewrite Forall_forall in F. destruct (F t Ht) as [Wt V]. split; [assumption|]. unfold tinv in V. now rewrite Ha in V.
Qed.

(** Every answer is the one the query would get alone on a new table. *)
Lemma concurrent_answers : forall k qs s t r, (forall q j, In (q, j) qs -> q_pruner_empty q = true -> forall p, q_include q p = true) ->
  star (cstep k) (conc_start qs) s -> In t (c_tasks s) -> has_answer t r ->
  (forall c' r', view_query list_files list_dirs fm format partitioned n [] (t_query t) c' r' -> same_answer r r')
  /\ forall ss, r = Ok ss -> snapshot_of list_files format partitioned root (t_query t) ss.
Proof.
  intros k qs s t r W St Ht Ha. destruct (answers_expected k qs s t r W St Ht Ha) as [Wt S].
  assert (C0 : cache_ok partitioned root []) by (split; [constructor|intros ? []]). split.
  - intros c' r' Q. destruct (query_answer list_files list_dirs fm format partitioned n root serves wf [] _ c' r' C0 Wt Q) as [_ S'].
    eapply same_trans; [exact S|]. now apply same_sym.
  - intros ss -> . eapply expected_snapshot; eauto.
Qed.
End Q.
