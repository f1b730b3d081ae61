(** Proofs about listing. *)
From Verif Require Import Base Str L_Str M_FileGroup M_Builder M_Listing S_FileGroup S_Builder S_Listing L_FileGroup L_Builder.
Local Open Scope string_scope.

(** ** Grouping in hash maps *)
Section HM.
Variable V : Type.
Variable kf : V -> string.
Definition with_key (k : string) (l : list V) : list V := filter (fun v => String.eqb (kf v) k) l.
Definition grouped (m : list (string * list V)) (l : list V) : Prop :=
  NoDup (map fst m)
  /\ (forall k vs, In (k, vs) m <-> vs = with_key k l /\ vs <> []).

Lemma hm_get_in : forall (m : list (string * list V)) k, NoDup (map fst m) ->
  forall vs, hm_get k m = Some vs <-> In (k, vs) m.
Proof.
  induction m as [|[k' ws] m IH]; intros k D vs; cbn; [split; [discriminate|intros []]|].
  cbn in D. inversion D as [|? ? N D']; subst. destruct (String.eqb_spec k k') as [ -> |E].
  - split.
    + intros [= ->]. now left.
    + intros [[= ->]|H]; [reflexivity|]. elim N. change k' with (fst (k', vs)). now apply in_map.
  - rewrite (IH k D' vs). split; [now right|]. intros [[= -> ->]|H]; [now elim E|assumption].
Qed.

Lemma hm_push_keys : forall (m : list (string * list V)) k v x,
  In x (map fst (hm_push k v m)) <-> x = k \/ In x (map fst m).
Proof.
  induction m as [|[k' ws] m IH]; intros k v x; cbn; [intuition|].
  destruct (String.eqb_spec k k') as [ -> |E]; cbn; [intuition|]. rewrite IH. intuition.
Qed.
Lemma hm_push_nodup : forall (m : list (string * list V)) k v, NoDup (map fst m) -> NoDup (map fst (hm_push k v m)).
Proof.
  induction m as [|[k' ws] m IH]; intros k v D; cbn; [constructor; [intros []|constructor]|].
  cbn in D. inversion D; subst. destruct (String.eqb_spec k k') as [ -> |E]; cbn; [now constructor|].
  constructor; [|auto]. rewrite hm_push_keys. intros [ -> |H]; [now elim E|auto].
Qed.
Lemma hm_push_get : forall (m : list (string * list V)) k v x,
  hm_get x (hm_push k v m) = if String.eqb x k
     then Some (match hm_get k m with Some l => l ++ [v] | None => [v] end)%list else hm_get x m.
Proof.
  induction m as [|[k' ws] m IH]; intros k v x; cbn; [destruct (String.eqb x k); reflexivity|].
  destruct (String.eqb_spec k k') as [ -> |E]; cbn.
  - destruct (String.eqb x k'); reflexivity.
  - rewrite IH. destruct (String.eqb_spec x k') as [ -> |E']; [|destruct (String.eqb x k); reflexivity].
    destruct (String.eqb_spec k' k) as [ -> |_]; [now elim E|reflexivity].
Qed.

Lemma grouped_nil : grouped [] [].
Proof. split; [constructor|]. intros k vs. cbn. split; [intros []|]. intros [-> H]. now elim H. Qed.
Lemma grouped_push : forall m l v, grouped m l -> grouped (hm_push (kf v) v m) (l ++ [v])%list.
Proof.
  intros m l v [D G]. assert (D' := hm_push_nodup m (kf v) v D). split; [assumption|].
  intros k vs. rewrite <- (hm_get_in _ k D' vs), hm_push_get.
  unfold with_key. rewrite filter_app. cbn. fold (with_key k l).
  assert (X : hm_get k m = match with_key k l with [] => None | ws => Some ws end).
  { destruct (hm_get k m) as [ws|] eqn:E.
    - apply (hm_get_in m k D) in E. apply G in E as [-> N]. destruct (with_key k l); [now elim N|reflexivity].
    - destruct (with_key k l) as [|w ws] eqn:F; [reflexivity|].
      assert (In (k, w :: ws) m) by (apply G; split; [now rewrite F|discriminate]).
      apply (hm_get_in m k D) in H. congruence. }
  rewrite (String.eqb_sym (kf v) k). destruct (String.eqb_spec k (kf v)) as [ -> |E].
  - rewrite X. destruct (with_key (kf v) l) as [|w ws]; cbn.
    + split; [intros [= <-]; split; [reflexivity|discriminate]|intros [-> _]; reflexivity].
    + split; [intros [= <-]; split; [reflexivity|discriminate]|intros [-> _]; reflexivity].
  - rewrite app_nil_r, X. destruct (with_key k l) as [|w ws].
    + split; [discriminate|]. intros [-> N]. now elim N.
    + split; [intros [= <-]; split; [reflexivity|discriminate]|intros [-> _]; reflexivity].
Qed.
Lemma grouped_get : forall m l k, grouped m l -> hm_get k m = match with_key k l with [] => None | ws => Some ws end.
Proof.
  intros m l k [D G]. destruct (hm_get k m) as [ws|] eqn:E.
  - apply (hm_get_in m k D) in E. apply G in E as [-> N]. destruct (with_key k l); [now elim N|reflexivity].
  - destruct (with_key k l) as [|w ws] eqn:F; [reflexivity|].
    assert (In (k, w :: ws) m) by (apply G; split; [now rewrite F|discriminate]).
    apply (hm_get_in m k D) in H. congruence.
Qed.
End HM.
Arguments grouped {V} kf m l.

(** ** Classification of the listed files *)
Definition is_base (format : string) (m : file_meta) : bool :=
  negb (should_exclude_for_listing (fm_name m)) && ends_with ("." ++ format) (fm_name m).
Definition is_other (format : string) (m : file_meta) : bool :=
  negb (should_exclude_for_listing (fm_name m)) && negb (ends_with ("." ++ format) (fm_name m)).
Definition bases_in (format : string) (l : list file_meta) : list base_file :=
  flat_map (fun m => if is_base format m then match base_file_try_from m with Ok b => [b] | _ => [] end else []) l.
Definition logs_in (format : string) (l : list file_meta) : list log_file :=
  flat_map (fun m => if is_other format m then match log_file_try_from m with Ok g => [g] | _ => [] end else []) l.

Lemma excluded_spec : forall n, should_exclude_for_listing n = true <-> marker_name n.
Proof.
  intros n. unfold should_exclude_for_listing, marker_name. rewrite orb_true_iff, starts_with_spec, ends_with_spec. reflexivity.
Qed.
Lemma not_excluded : forall n, negb (should_exclude_for_listing n) = true <-> ~ marker_name n.
Proof. intros n. rewrite <- excluded_spec. destruct (should_exclude_for_listing n); cbn; intuition congruence. Qed.
Lemma base_named_spec : forall f n, ends_with ("." ++ f) n = true <-> base_named f n.
Proof. intros. apply ends_with_spec. Qed.
Lemma is_base_spec : forall f m, is_base f m = true <-> ~ marker_name (fm_name m) /\ base_named f (fm_name m).
Proof. intros. unfold is_base. now rewrite andb_true_iff, not_excluded, base_named_spec. Qed.
Lemma is_other_spec : forall f m, is_other f m = true <-> ~ marker_name (fm_name m) /\ ~ base_named f (fm_name m).
Proof.
  intros. unfold is_other. rewrite andb_true_iff, not_excluded, <- base_named_spec.
  destruct (ends_with ("." ++ f) (fm_name m)); cbn; intuition congruence.
Qed.

Lemma bases_in_spec : forall f l b, In b (bases_in f l) <-> exists m, base_listed f l m b.
Proof.
  intros f l b. unfold bases_in. rewrite in_flat_map. unfold base_listed. split.
  - intros [m [Hm H]]. exists m. destruct (is_base f m) eqn:E; [|elim H]. apply is_base_spec in E as [E1 E2].
    unfold base_file_try_from in H. destruct (base_file_of (fm_name m) (Some m)); try (elim H; fail). destruct H as [ -> |[]]. auto.
  - intros [m [Hm [H1 [H2 H3]]]]. exists m. split; [assumption|].
    rewrite (proj2 (is_base_spec f m) (conj H1 H2)). unfold base_file_try_from. rewrite H3. now left.
Qed.
Lemma logs_in_spec : forall f l g, In g (logs_in f l) <-> exists m, log_listed f l m g.
Proof.
  intros f l g. unfold logs_in. rewrite in_flat_map. unfold log_listed. split.
  - intros [m [Hm H]]. exists m. destruct (is_other f m) eqn:E; [|elim H]. apply is_other_spec in E as [E1 E2].
    unfold log_file_try_from in H. destruct (log_file_of (fm_name m) (Some m)); try (elim H; fail). destruct H as [ -> |[]]. auto.
  - intros [m [Hm [H1 [H2 H3]]]]. exists m. split; [assumption|].
    rewrite (proj2 (is_other_spec f m) (conj H1 H2)). unfold log_file_try_from. rewrite H3. now left.
Qed.

Lemma ok_or_not_panic : forall A (o : option A) e, ok_or o e <> Panic.
Proof. intros A [] e; discriminate. Qed.
Lemma bind_not_panic : forall A B (o : outcome A) (f : A -> outcome B), o <> Panic -> (forall a, f a <> Panic) -> bind o f <> Panic.
Proof. intros A B [a|e|] f H1 H2; cbn; [apply H2|discriminate|now elim H1]. Qed.
Lemma log_try_not_panic : forall m, log_file_try_from m <> Panic.
Proof.
  intros m. unfold log_file_try_from, log_file_of. apply bind_not_panic.
  - unfold parse_log_name. destruct (fm_name m) as [|c r]; [discriminate|].
    destruct c as [[] [] [] [] [] [] [] []]; try discriminate.
    apply bind_not_panic; [apply ok_or_not_panic|]. intros [a1 a2]. apply bind_not_panic; [apply ok_or_not_panic|].
    intros [b1 b2]. destruct (split "." b1) as [|x [|y [|z [|? ?]]]]; try discriminate.
    destruct (_ || _); discriminate.
  - intros [[[[? ?] ?] ?] ?]. discriminate.
Qed.

Lemma classify_spec : forall f l bs ls b0 l0 r,
  grouped bf_file_id bs b0 -> grouped lf_file_id ls l0 ->
  foldM (classify_step f) (bs, ls) l = Ok r ->
  grouped bf_file_id (fst r) (b0 ++ bases_in f l)%list /\ grouped lf_file_id (snd r) (l0 ++ logs_in f l)%list
  /\ forall m, In m l -> is_base f m = true -> exists b, base_file_try_from m = Ok b.
Proof.
  intros f. induction l as [|m l IH]; intros bs ls b0 l0 r G1 G2 H.
  - cbn in H. injection H as <-. cbn. rewrite !app_nil_r. split; [assumption|]. split; [assumption|]. intros m [].
  - cbn [foldM] in H. apply bind_ok in H as [[bs1 ls1] [H1 H]]. unfold classify_step in H1.
    cbn [bases_in logs_in flat_map]. fold (bases_in f l) (logs_in f l). unfold is_base at 1, is_other at 1.
    destruct (should_exclude_for_listing (fm_name m)) eqn:Ex; cbn [negb andb].
    { injection H1 as <- <-. destruct (IH _ _ _ _ _ G1 G2 H) as [A [B C]]. cbn [app]. split; [assumption|]. split; [assumption|].
      intros x [ <- |Hx] Hb; [|auto]. unfold is_base in Hb. rewrite Ex in Hb. discriminate. }
    destruct (ends_with ("." ++ f) (fm_name m)) eqn:Eb; cbn [negb].
    { apply bind_ok in H1 as [b [Hb H1]]. injection H1 as <- <-. rewrite Hb.
      destruct (IH _ _ _ _ _ (grouped_push _ _ _ _ b G1) G2 H) as [A [B C]]. rewrite <- app_assoc in A. cbn [app] in A |- *.
      split; [assumption|]. split; [assumption|]. intros x [ <- |Hx] Hbx; eauto. }
    assert (Nb : forall x, x = m -> is_base f x = true -> exists b, base_file_try_from x = Ok b).
    { intros x -> Hb. unfold is_base in Hb. rewrite Eb, andb_false_r in Hb. discriminate. }
    destruct (log_file_try_from m) as [g|e|] eqn:El; [| |discriminate].
    { injection H1 as <- <-. destruct (IH _ _ _ _ _ G1 (grouped_push _ _ _ _ g G2) H) as [A [B C]].
      rewrite <- app_assoc in B. cbn [app] in B |- *. split; [assumption|]. split; [assumption|].
      intros x [ <- |Hx] Hbx; eauto. }
    { injection H1 as <- <-. destruct (IH _ _ _ _ _ G1 G2 H) as [A [B C]]. cbn [app]. split; [assumption|]. split; [assumption|].
      intros x [ <- |Hx] Hbx; eauto. }
Qed.

Lemma classify_succeeds : forall f l s,
  (forall m, In m l -> is_base f m = true -> exists b, base_file_try_from m = Ok b) ->
  exists r, foldM (classify_step f) s l = Ok r.
Proof.
  intros f. induction l as [|m l IH]; intros [bs ls] H; [eexists; reflexivity|]. cbn [foldM]. unfold classify_step at 1.
  assert (H' : forall x, In x l -> is_base f x = true -> exists b, base_file_try_from x = Ok b) by (intros; apply H; auto; now right).
  destruct (should_exclude_for_listing (fm_name m)) eqn:Ex; [cbn; auto|].
  destruct (ends_with ("." ++ f) (fm_name m)) eqn:Eb.
  { destruct (H m (or_introl eq_refl)) as [b ->]; [unfold is_base; now rewrite Ex, Eb|]. cbn. auto. }
  destruct (log_file_try_from m) eqn:El; cbn; auto. now elim (log_try_not_panic m).
Qed.

(** ** One group *)
Lemma list_group_run : forall p logs e g, list_group p logs e = Ok g <->
  run (new_group (fst e) p) (map AddBase (snd e) ++ map AddLog (match hm_get (fst e) logs with Some l => l | None => [] end))%list = Some g.
Proof.
  intros p logs [id bs] g. unfold list_group. cbn [fst snd]. set (ls := match hm_get id logs with Some l => l | None => [] end).
  rewrite run_app. split.
  - intros H. apply bind_ok in H as [g1 [H1 H2]]. apply lift_mut_ok in H1. apply lift_mut_ok in H2.
    apply map_run_add in H1. apply map_run_add_log in H2. now rewrite H1.
  - intros H. destruct (run (new_group id p) (map AddBase bs)) as [g1|] eqn:H1; [|discriminate].
    apply map_run_add in H1. apply map_run_add_log in H. rewrite H1. cbn [lift_mut bind]. now rewrite H.
Qed.

Lemma with_key_in : forall V (kf : V -> string) k l v, In v (with_key V kf k l) <-> In v l /\ kf v = k.
Proof. intros. unfold with_key. rewrite filter_In, String.eqb_eq. reflexivity. Qed.

Section Partition.
Variable format : string.
Variable list_files : string -> outcome (list file_meta).
Variable order : string -> list (string * list base_file) -> list (string * list base_file).
Hypothesis order_perm : forall p l, Permutation l (order p l).

Lemma list_partition_inv : forall p listed gs, list_files p = Ok listed ->
  list_file_groups_for_partition list_files format order p = Ok gs ->
  exists bases, grouped bf_file_id bases (bases_in format listed)
   /\ (forall m, In m listed -> is_base format m = true -> exists b, base_file_try_from m = Ok b)
   /\ Forall2 (fun e g => run (new_group (fst e) p)
        (map AddBase (with_key _ bf_file_id (fst e) (bases_in format listed))
         ++ map AddLog (with_key _ lf_file_id (fst e) (logs_in format listed)))%list = Some g) (order p bases) gs.
Proof.
  intros p listed gs Hl H. unfold list_file_groups_for_partition in H. rewrite Hl in H. cbn [bind] in H.
  apply bind_ok in H as [[bases logs] [Hc H]].
  destruct (classify_spec _ _ _ _ [] [] _ (grouped_nil _ _) (grouped_nil _ _) Hc) as [G1 [G2 C]]. cbn in G1, G2.
  exists bases. split; [assumption|]. split; [assumption|].
  apply mapM_ok in H. assert (P := order_perm p bases). assert (F : Forall (fun e => snd e = with_key _ bf_file_id (fst e) (bases_in format listed)) (order p bases)).
  { rewrite <- P. apply Forall_forall. intros [k vs] Hin. apply G1 in Hin as [X _]. exact X. }
  clear P. revert F H. generalize (order p bases). intros es F H.
  induction H as [|e g es gs He H IH]; [constructor|]. inversion F; subst. constructor; [|auto].
  apply list_group_run in He. rewrite H2 in He. rewrite (grouped_get _ _ _ _ (fst e) G2) in He.
  destruct (with_key log_file lf_file_id (fst e) (logs_in format listed)); exact He.
Qed.
Lemma NoDup_flat : forall A B (h : A -> list B) (k : B -> string * string) l,
  NoDup l ->
  (forall a, (List.length (h a) <= 1)%nat) ->
  (forall a c x y, In a l -> In c l -> In x (h a) -> In y (h c) -> k x = k y -> a = c) -> NoDup (map k (flat_map h l)).
Proof.
  intros A B h k. induction l as [|a l IH]; intros D L U; [constructor|]. cbn. inversion D; subst.
  assert (R : NoDup (map k (flat_map h l))).
  { apply IH; auto. intros b c x y Hb Hc. apply U; now right. }
  specialize (L a). destruct (h a) as [|x [|y r]] eqn:E; [assumption| |cbn in L; lia].
  cbn. constructor; [|assumption]. intros Hin. apply in_map_iff in Hin as [y [E1 Hy]]. apply in_flat_map in Hy as [c [Hc Hy]].
  assert (a = c); [|congruence]. apply (U a c x y); [now left|now right|rewrite E; now left|assumption|congruence].
Qed.

Lemma nodup_positions : forall A B (h : A -> list B) (k : B -> string * string) l,
  NoDup (map k (flat_map h l)) ->
  forall a c x y, In a l -> In c l -> In x (h a) -> In y (h c) -> k x = k y -> a = c.
Proof.
  intros A B h k. induction l as [|z l IH]; intros D a c x y Ha Hc Hx Hy E; [elim Ha|].
  cbn in D. rewrite map_app in D. destruct Ha as [ -> |Ha]; destruct Hc as [ -> |Hc].
  - reflexivity.
  - exfalso. assert (X : In (k x) (map k (flat_map h l))).
    { rewrite E. apply in_map. apply in_flat_map. eauto. }
    assert (Y : In (k x) (map k (h a))) by (now apply in_map).
    clear - D X Y. induction (map k (h a)) as [|q qs IH']; [elim Y|]. cbn in D. inversion D; subst.
    destruct Y as [ -> |Y]; [apply H1; apply in_app_iff; now right|auto].
  - exfalso. assert (X : In (k y) (map k (flat_map h l))).
    { rewrite <- E. apply in_map. apply in_flat_map. eauto. }
    assert (Y : In (k y) (map k (h c))) by (now apply in_map).
    clear - D X Y. induction (map k (h c)) as [|q qs IH']; [elim Y|]. cbn in D. inversion D; subst.
    destruct Y as [ -> |Y]; [apply H1; apply in_app_iff; now right|auto].
  - eapply IH; eauto. clear - D. induction (map k (h z)); [assumption|]. cbn in D. inversion D; auto.
Qed.

Lemma nodup_with_key : forall l, NoDup (map (fun b => (bf_file_id b, bf_commit b)) l) <->
  forall id, NoDup (map bf_commit (with_key _ bf_file_id id l)).
Proof.
  induction l as [|b l IH]; cbn; [split; constructor|]. split.
  - intros D id. inversion D; subst. assert (X := proj1 IH H2 id). unfold with_key in *. cbn.
    destruct (String.eqb_spec (bf_file_id b) id) as [E|E]; [|exact X]. cbn. constructor; [|exact X].
    intros Hin. apply H1. apply in_map_iff in Hin as [c [Ec Hc]]. apply filter_In in Hc as [Hc E2]. apply String.eqb_eq in E2.
    apply in_map_iff. exists c. split; [congruence|assumption].
  - intros H. constructor.
    + intros Hin. apply in_map_iff in Hin as [c [Ec Hc]]. injection Ec as E1 E2.
      specialize (H (bf_file_id b)). unfold with_key in H. cbn in H. rewrite String.eqb_refl in H. cbn in H. inversion H; subst.
      apply H2. rewrite <- E2. apply in_map. apply filter_In. split; [assumption|]. now apply String.eqb_eq.
    + apply IH. intros id. specialize (H id). unfold with_key in H. cbn in H.
      destruct (String.eqb (bf_file_id b) id); [|exact H]. cbn in H. now inversion H.
Qed.

Lemma bases_key_iff : forall listed, NoDup listed ->
  (NoDup (map (fun b => (bf_file_id b, bf_commit b)) (bases_in format listed)) <->
   forall m1 m2 b1 b2, base_listed format listed m1 b1 -> base_listed format listed m2 b2 ->
     bf_file_id b1 = bf_file_id b2 -> bf_commit b1 = bf_commit b2 -> m1 = m2).
Proof.
  intros listed D. unfold bases_in.
  assert (X : forall m b, base_listed format listed m b <-> In m listed /\
     In b (if is_base format m then match base_file_try_from m with Ok b => [b] | _ => [] end else [])).
  { intros m b. unfold base_listed. split.
    - intros [H [H1 [H2 H3]]]. split; [assumption|]. rewrite (proj2 (is_base_spec format m) (conj H1 H2)).
      unfold base_file_try_from. rewrite H3. now left.
    - intros [H H1]. destruct (is_base format m) eqn:E; [|elim H1]. apply is_base_spec in E as [E1 E2].
      unfold base_file_try_from in H1. destruct (base_file_of (fm_name m) (Some m)); try (elim H1; fail). destruct H1 as [ -> |[]]. auto. }
  split.
  - intros N m1 m2 b1 b2 H1 H2 E1 E2. apply X in H1 as [A1 A2]. apply X in H2 as [B1 B2].
    eapply (nodup_positions _ _ _ _ _ N); [exact A1|exact B1|exact A2|exact B2|]. cbn. congruence.
  - intros U. apply NoDup_flat; [assumption| |].
    + intros m. destruct (is_base format m); [|cbn; lia]. destruct (base_file_try_from m); cbn; lia.
    + intros a c x y Ha Hc Hx Hy E. injection E as E1 E2.
      apply (U a c x y); [apply X; auto|apply X; auto|assumption|assumption].
Qed.

Lemma list_partition_ok_iff : forall p listed, list_files p = Ok listed -> NoDup listed ->
  ((exists gs, list_file_groups_for_partition list_files format order p = Ok gs) <-> listing_ok format listed).
Proof.
  intros p listed Hl D. split.
  - intros [gs H]. destruct (list_partition_inv _ _ _ Hl H) as [bases [G [C F]]].
    assert (R : forall id, with_key _ bf_file_id id (bases_in format listed) <> [] -> exists g,
      run (new_group id p) (map AddBase (with_key _ bf_file_id id (bases_in format listed))
         ++ map AddLog (with_key _ lf_file_id id (logs_in format listed)))%list = Some g).
    { intros id N. assert (Hin : In (id, with_key _ bf_file_id id (bases_in format listed)) (order p bases)).
      { eapply Permutation_in; [apply order_perm|]. apply (proj2 G). auto. }
      destruct (Forall2_in_l _ _ _ _ _ _ F Hin) as [g [_ Hg]]. cbn in Hg. eauto. }
    split; [|split].
    + intros m Hm H1 H2. apply (C m Hm). apply is_base_spec. auto.
    + apply bases_key_iff; [assumption|]. apply nodup_with_key. intros id.
      destruct (with_key _ bf_file_id id (bases_in format listed)) as [|b bs] eqn:E; [constructor|]. rewrite <- E in *.
      destruct (R id) as [g Hg]; [rewrite E; discriminate|].
      destruct (run_spec _ _ _ (wf_new id p) Hg) as [_ [_ [_ [_ [N _]]]]]. now rewrite bases_of_maps in N.
    + intros m g m1 b1 Hg Hb1 E. set (id := lf_file_id g) in *.
      assert (Hb : In b1 (with_key _ bf_file_id id (bases_in format listed))).
      { apply with_key_in. split; [apply bases_in_spec; eauto|assumption]. }
      destruct (R id) as [x Hx]; [intros N; rewrite N in Hb; elim Hb|].
      destruct (run_spec _ _ _ (wf_new id p) Hx) as [_ [_ [_ [_ [_ [_ L]]]]]]. rewrite bases_of_maps, logs_of_maps in L.
      assert (Hgin : In g (with_key _ lf_file_id id (logs_in format listed))).
      { apply with_key_in. split; [apply logs_in_spec; eauto|reflexivity]. }
      destruct (L g Hgin) as [X|X]; [now elim X|]. apply in_map_iff in X as [b2 [E2 Hb2]].
      apply with_key_in in Hb2 as [Hb2 E3]. apply bases_in_spec in Hb2 as [m2 Hm2]. eauto 6.
  - intros [C [U Lg]]. unfold list_file_groups_for_partition. rewrite Hl. cbn [bind].
    destruct (classify_succeeds format listed ([], [])) as [[bases logs] Hc].
    { intros m Hm Hb. apply is_base_spec in Hb as [H1 H2]. apply C; auto. }
    rewrite Hc. cbn [bind].
    destruct (classify_spec _ _ _ _ [] [] _ (grouped_nil _ _) (grouped_nil _ _) Hc) as [G1 [G2 _]]. cbn in G1, G2.
    apply mapM_succeeds. intros [id vs] Hin.
    assert (Hin' : In (id, vs) bases) by (eapply Permutation_in; [symmetry; apply order_perm|exact Hin]).
    apply G1 in Hin' as [-> N].
    destruct (build_succeeds id p (with_key _ bf_file_id id (bases_in format listed)) (with_key _ lf_file_id id (logs_in format listed))) as [g Hg].
    + apply nodup_with_key. apply bases_key_iff; assumption.
    + intros l Hl'. apply with_key_in in Hl' as [Hl' El]. apply logs_in_spec in Hl' as [m Hm].
      destruct (with_key _ bf_file_id id (bases_in format listed)) as [|b bs] eqn:E; [now elim N|].
      assert (Hb : In b (with_key _ bf_file_id id (bases_in format listed))) by (rewrite E; now left).
      rewrite <- E. apply with_key_in in Hb as [Hb Eb]. apply bases_in_spec in Hb as [m1 Hm1].
      destruct (Lg m l m1 b Hm Hm1) as [m2 [b2 [Hm2 [E2 E3]]]]; [congruence|].
      apply in_map_iff. exists b2. split; [assumption|]. apply with_key_in. split; [apply bases_in_spec; eauto|congruence].
    + exists g. apply list_group_run. cbn [fst snd]. rewrite (grouped_get _ _ _ _ id G2).
      destruct (with_key log_file lf_file_id id (logs_in format listed)); exact Hg.
Qed.

Lemma list_partition_groups : forall p listed gs, list_files p = Ok listed ->
  list_file_groups_for_partition list_files format order p = Ok gs -> groups_of_listing format p listed gs.
Proof.
  intros p listed gs Hl H. destruct (list_partition_inv _ _ _ Hl H) as [bases [G [C F]]].
  assert (Hid : map fg_id gs = map fst (order p bases)).
  { clear - F. induction F as [|e g es gs He F IH]; [reflexivity|]. cbn. f_equal; [|assumption].
    destruct (run_spec _ _ _ (wf_new (fst e) p) He) as [_ [I _]]. exact I. }
  assert (Hg : forall g, In g gs -> In (fg_id g) (map fst (order p bases)) /\
     run (new_group (fg_id g) p) (map AddBase (with_key _ bf_file_id (fg_id g) (bases_in format listed))
         ++ map AddLog (with_key _ lf_file_id (fg_id g) (logs_in format listed)))%list = Some g).
  { intros g Hin. destruct (Forall2_in_r _ _ _ _ _ _ F Hin) as [e [He Hr]].
    destruct (run_spec _ _ _ (wf_new (fst e) p) Hr) as [_ [I _]]. cbn in I. rewrite I. split; [now apply in_map|assumption]. }
  assert (Pf : Permutation (map fst bases) (map fst (order p bases))) by (apply Permutation_map; apply order_perm).
  split; [|split; [|split]].
  - rewrite Hid. eapply Permutation_NoDup; [exact Pf|apply G].
  - intros g Hin. destruct (Hg g Hin) as [_ Hr]. now destruct (run_spec _ _ _ (wf_new (fg_id g) p) Hr) as [_ [_ [P _]]].
  - intros id. rewrite Hid. split.
    + intros Hin. assert (Hin' : In id (map fst bases)) by (eapply Permutation_in; [symmetry; exact Pf|exact Hin]).
      apply in_map_iff in Hin' as [[k vs] [<- Hk]]. apply (proj2 G) in Hk as [-> N]. cbn.
      destruct (with_key _ bf_file_id k (bases_in format listed)) as [|b bs] eqn:E; [now elim N|].
      assert (Hb : In b (with_key _ bf_file_id k (bases_in format listed))) by (rewrite E; now left).
      apply with_key_in in Hb as [Hb Eb]. apply bases_in_spec in Hb as [m Hm]. eauto.
    + intros [m [b [Hb E]]]. eapply Permutation_in; [exact Pf|].
      assert (Hk : In (id, with_key _ bf_file_id id (bases_in format listed)) bases).
      { apply (proj2 G). split; [reflexivity|]. intros N. assert (X : In b (with_key _ bf_file_id id (bases_in format listed))).
        { apply with_key_in. split; [apply bases_in_spec; eauto|assumption]. } rewrite N in X. elim X. }
      apply in_map_iff. eexists. split; [|exact Hk]. reflexivity.
  - intros g Hin. destruct (Hg g Hin) as [_ Hr]. destruct (run_contents _ _ _ (wf_new (fg_id g) p) Hr) as [_ [_ [B L]]].
    rewrite bases_of_maps in B. rewrite logs_of_maps in L. split.
    + intros c n. rewrite B. split.
      * intros [X|[b [Hb [E1 E2]]]]; [destruct X as [s [[] _]]|]. apply with_key_in in Hb as [Hb E].
        apply bases_in_spec in Hb as [m Hm]. eauto 8.
      * intros [m [b [Hb [E [E1 E2]]]]]. right. exists b. split; [|auto]. apply with_key_in. split; [apply bases_in_spec; eauto|assumption].
    + intros c v t. rewrite L. split.
      * intros [X|[x [Hx [E1 [E2 E3]]]]]; [destruct X as [s [l [[] _]]]|]. apply with_key_in in Hx as [Hx E].
        apply logs_in_spec in Hx as [m Hm]. eauto 8.
      * intros [m [x [Hx [E [E1 [E2 E3]]]]]]. right. exists x. split; [|auto]. apply with_key_in. split; [apply logs_in_spec; eauto|assumption].
Qed.
End Partition.
