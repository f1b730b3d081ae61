(** Proofs about timeline loading, selection and instant ranges. *)
From Verif Require Import Base Str L_Str M_Time L_Time M_Instant M_Timeline S_Time S_Timeline L_Instant.
From Coq Require Import Sorting.Sorted ZifyBool ZifyNat ZifyN.
Local Open Scope string_scope.

(** ** Order on instants *)
Lemma instant_le_epoch : forall a c, instant_le a c -> (i_epoch a <= i_epoch c)%Z.
Proof.
  intros a c. unfold instant_le, instant_cmp.
  destruct (Z.compare_spec (i_epoch a) (i_epoch c)); intros Hc; try lia. now elim Hc.
Qed.

Lemma instant_le_alt : forall a c, instant_le a c <->
  (i_epoch a < i_epoch c \/ i_epoch a = i_epoch c /\ state_rank (i_state a) <= state_rank (i_state c))%Z.
Proof.
  intros a c. unfold instant_le, instant_cmp.
  destruct (Z.compare_spec (i_epoch a) (i_epoch c)) as [E|E|E].
  - split.
    + intros H. right. split; [assumption|]. exact H.
    + intros [H|[_ H]]; [lia|exact H].
  - split; [left; assumption|discriminate].
  - split; [intros H; now elim H|intros [H|[H _]]; lia].
Qed.

Lemma instant_le_trans : forall a c d, instant_le a c -> instant_le c d -> instant_le a d.
Proof. intros a c d. rewrite !instant_le_alt. lia. Qed.
Lemma instant_le_refl : forall a, instant_le a a.
Proof. intros a. rewrite instant_le_alt. lia. Qed.
Lemma instant_le_total : forall a c, instant_le a c \/ instant_le c a.
Proof. intros a c. rewrite !instant_le_alt. lia. Qed.

Lemma ins_perm : forall x l, Permutation (x :: l) (ins x l).
Proof.
  intros x. induction l as [|y ys IH]; [constructor; constructor|]. cbn.
  destruct (instant_cmp x y); [reflexivity|reflexivity|].
  rewrite perm_swap. now constructor.
Qed.
Lemma ins_sorted : forall x l, StronglySorted instant_le l -> StronglySorted instant_le (ins x l).
Proof.
  intros x. induction l as [|y ys IH]; intros H; [repeat constructor|]. cbn.
  inversion H as [|? ? Hs Hf]; subst.
  destruct (instant_cmp x y) eqn:E.
  1, 2: constructor; [assumption|]; constructor; [unfold instant_le; congruence|];
    eapply Forall_impl; [|exact Hf]; intros z Hz; eapply instant_le_trans; [|exact Hz];
    unfold instant_le; congruence.
  constructor; [auto|]. rewrite <- ins_perm. constructor; [|assumption].
  destruct (instant_le_total y x) as [Hyx|Hxy]; [assumption|]. now elim Hxy.
Qed.
Lemma isort_sorts : sorts isort.
Proof.
  intros l. induction l as [|x xs [IH1 IH2]]; [split; [constructor|constructor]|].
  cbn. split.
  - rewrite <- ins_perm. now constructor.
  - now apply ins_sorted.
Qed.

(** ** partition_point *)
Lemma bisect_spec : forall A (p : A -> bool) l fuel lo size k,
  (size < fuel)%nat -> (lo + size <= List.length l)%nat ->
  (lo <= k <= lo + size)%nat ->
  (forall i x, nth_error l i = Some x -> p x = (i <? k)%nat) ->
  bisect p l fuel lo size = k.
Proof.
  intros A p l. induction fuel as [|f IH]; intros lo size k Hf Hl Hk Hp; [lia|].
  cbn [bisect]. destruct size as [|sz]; [lia|].
  set (size := S sz) in *. set (half := Nat.div2 size).
  assert (Hh : (half < size)%nat) by (apply Nat.lt_div2; unfold size; lia).
  destruct (nth_error l (lo + half)) as [x|] eqn:E.
  - rewrite (Hp _ _ E). destruct (Nat.ltb_spec (lo + half) k).
    + apply IH; try lia; assumption.
    + apply IH; try lia; assumption.
  - apply nth_error_None in E. lia.
Qed.

Lemma partition_point_spec : forall A (p : A -> bool) l1 l2,
  Forall (fun x => p x = true) l1 -> Forall (fun x => p x = false) l2 ->
  partition_point p (l1 ++ l2)%list = List.length l1.
Proof.
  intros A p l1 l2 H1 H2. unfold partition_point.
  rewrite Forall_forall in H1, H2.
  apply bisect_spec; rewrite ?app_length; try lia.
  intros i x E. destruct (Nat.ltb_spec i (List.length l1)) as [H|H].
  - rewrite nth_error_app1 in E by assumption. apply nth_error_In in E. auto.
  - rewrite nth_error_app2 in E by assumption. apply nth_error_In in E. auto.
Qed.

(** A list sorted by epoch splits at any threshold. *)
Definition epoch_sorted (l : list instant) : Prop :=
  StronglySorted (fun a c => (i_epoch a <= i_epoch c)%Z) l.

Lemma instants_epoch_sorted : forall l, StronglySorted instant_le l -> epoch_sorted l.
Proof.
  induction 1 as [|a l Hs IH Hf]; constructor; [assumption|].
  eapply Forall_impl; [|exact Hf]. intros c. apply instant_le_epoch.
Qed.

Lemma split_le : forall t l, epoch_sorted l ->
  l = (filter (fun i => (i_epoch i <=? t)%Z) l ++ filter (fun i => (t <? i_epoch i)%Z) l)%list.
Proof.
  intros t. induction l as [|a l IH]; intros H; [reflexivity|].
  inversion H as [|? ? Hs Hf]; subst. cbn [filter].
  destruct (Z.leb_spec (i_epoch a) t); destruct (Z.ltb_spec t (i_epoch a)); try lia.
  - cbn. now rewrite <- IH.
  - assert (E : filter (fun i => (i_epoch i <=? t)%Z) l = []).
    { rewrite Forall_forall in Hf. clear -Hf H1. induction l as [|x l IHl]; [reflexivity|]. cbn.
      pose proof (Hf x (or_introl eq_refl)). destruct (Z.leb_spec (i_epoch x) t); [lia|].
      apply IHl. intros y Hy. apply Hf. now right. }
    rewrite E. cbn. f_equal. rewrite IH at 1 by assumption. now rewrite E.
Qed.

Lemma partition_point_epoch : forall t l, epoch_sorted l ->
  partition_point (fun i => (i_epoch i <=? t)%Z) l
  = List.length (filter (fun i => (i_epoch i <=? t)%Z) l).
Proof.
  intros t l H. rewrite (split_le t l H) at 1.
  apply partition_point_spec; apply Forall_forall; intros x Hx; apply filter_In in Hx as [_ Hx]; lia.
Qed.

Lemma filter_epoch_sorted : forall p l, epoch_sorted l -> epoch_sorted (filter p l).
Proof.
  intros p l. induction 1 as [|a l Hs IH Hf]; [constructor|]. cbn.
  destruct (p a); [|assumption]. constructor; [assumption|].
  rewrite Forall_forall in *. intros x Hx. apply filter_In in Hx. now apply Hf.
Qed.

Lemma skipn_le : forall t l, epoch_sorted l ->
  skipn (partition_point (fun i => (i_epoch i <=? t)%Z) l) l = filter (fun i => (t <? i_epoch i)%Z) l.
Proof.
  intros t l H. rewrite partition_point_epoch by assumption.
  rewrite (split_le t l H) at 2.
  rewrite skipn_app, skipn_all, Nat.sub_diag. reflexivity.
Qed.

Lemma firstn_le : forall t l, epoch_sorted l ->
  firstn (partition_point (fun i => (i_epoch i <=? t)%Z) l) l = filter (fun i => (i_epoch i <=? t)%Z) l.
Proof.
  intros t l H. rewrite partition_point_epoch by assumption.
  rewrite (split_le t l H) at 2.
  rewrite firstn_app, firstn_all, Nat.sub_diag. cbn. now rewrite app_nil_r.
Qed.

Lemma filter_filter : forall A (p q : A -> bool) l,
  filter p (filter q l) = filter (fun x => q x && p x) l.
Proof.
  intros A p q l. induction l as [|a l IH]; [reflexivity|]. cbn.
  destruct (q a); cbn; [destruct (p a); now rewrite IH|assumption].
Qed.

Lemma filter_ext_s : forall A (p q : A -> bool) l, (forall x, p x = q x) -> filter p l = filter q l.
Proof. intros. now apply filter_ext. Qed.

Definition wanted (sel : selector) (i : instant) : bool :=
  should_include_action sel (i_action i) && should_include_state sel (i_state i).

Lemma select_filter : forall sel l, StronglySorted instant_le l ->
  select sel l =
  filter (fun i => in_window (option_map epoch_millis (sel_start sel))
                             (option_map epoch_millis (sel_end sel)) (i_epoch i)
                   && wanted sel i) l.
Proof.
  intros sel l H. apply instants_epoch_sorted in H. unfold select, wanted, in_window.
  destruct (sel_start sel) as [s|]; destruct (sel_end sel) as [e|]; cbn [option_map].
  - rewrite skipn_le by assumption.
    rewrite firstn_le by (now apply filter_epoch_sorted).
    rewrite !filter_filter. apply filter_ext_s. intros x. now rewrite andb_assoc.
  - rewrite skipn_le by assumption. rewrite !filter_filter. apply filter_ext_s. intros x. now rewrite andb_true_r.
  - rewrite firstn_le by assumption. rewrite !filter_filter. reflexivity.
  - reflexivity.
Qed.

(** Selection of a sorted list by two adjacent windows is selection by their union. *)
Lemma filter_windows : forall s m e (w : instant -> bool) l, epoch_sorted l ->
  (match s with Some s => (s <= m)%Z | None => True end) ->
  (match e with Some e => (m <= e)%Z | None => True end) ->
  (filter (fun i => in_window s (Some m) (i_epoch i) && w i) l
  ++ filter (fun i => in_window (Some m) e (i_epoch i) && w i) l)%list
  = filter (fun i => in_window s e (i_epoch i) && w i) l.
Proof.
  intros s m e w l Hl Hs He.
  rewrite (split_le m l Hl) at 3. rewrite filter_app, !filter_filter.
  f_equal; apply filter_ext_s; intros x; unfold in_window;
    destruct s as [s|], e as [e|]; destruct (w x); lia.
Qed.

(** ** Loading *)
Section Load.
Variable L : ndt -> option ndt.

Lemma parse_action_and_state_inv : forall suffix a,
  parse_action_and_state suffix = Ok (a, Completed) ->
  suffix = action_str a \/ suffix = action_str a ++ ".".
Proof.
  intros suffix a H. unfold parse_action_and_state in H.
  destruct (split_once "." suffix) as [[x y]|] eqn:E.
  - apply split_once_some in E as [-> Hn]. right.
    unfold action_from_str in H.
    assert (Hx : (x = "commit" /\ action_from_str x = Ok Commit) \/ (x = "deltacommit" /\ action_from_str x = Ok DeltaCommit)
              \/ (x = "replacecommit" /\ action_from_str x = Ok ReplaceCommit) \/ exists e, action_from_str x = Err e).
    { unfold action_from_str.
      destruct (String.eqb_spec x "commit"); [auto|].
      destruct (String.eqb_spec x "deltacommit"); [auto|].
      destruct (String.eqb_spec x "replacecommit"); [auto|]. eauto 10. }
    fold (action_from_str x) in H.
    assert (Hy : forall s, state_from_str y = Ok s -> s = Completed -> y = "").
    { intros s Hs ->. unfold state_from_str in Hs.
      destruct (String.eqb_spec y "requested"); [discriminate|].
      destruct (String.eqb_spec y "inflight"); [discriminate|].
      destruct (String.eqb_spec y ""); [assumption|discriminate]. }
    destruct (action_from_str x) as [a'|e|] eqn:Ea; try discriminate. cbn [bind] in H.
    destruct (state_from_str y) as [s'|e|] eqn:Es; try discriminate. cbn [bind] in H.
    injection H as -> ->. rewrite (Hy _ eq_refl eq_refl).
    destruct Hx as [[-> Hx]|[[-> Hx]|[[-> Hx]|[e Hx]]]]; try discriminate; injection Hx as ->; reflexivity.
  - left. destruct (String.eqb_spec suffix "inflight"); [discriminate|].
    unfold action_from_str in H.
    destruct (String.eqb_spec suffix "commit"); [cbn in H; injection H as <-; assumption|].
    destruct (String.eqb_spec suffix "deltacommit"); [cbn in H; injection H as <-; assumption|].
    destruct (String.eqb_spec suffix "replacecommit"); [cbn in H; injection H as <-; assumption|].
    discriminate.
Qed.

Lemma parse_action_dot : forall a, parse_action_and_state (action_str a ++ ".") = Ok (a, Completed).
Proof. intros []; reflexivity. Qed.

Lemma action_eqb_spec : forall a c, action_eqb a c = true <-> a = c.
Proof. intros [] []; cbn; split; congruence. Qed.

Lemma should_include_action_in : forall sel a, sel_actions sel <> [] ->
  (should_include_action sel a = true <-> In a (sel_actions sel)).
Proof.
  intros sel a Hn. unfold should_include_action. destruct (sel_actions sel) as [|x xs] eqn:E; [congruence|].
  rewrite existsb_exists. split.
  - intros [y [Hy He]]. apply action_eqb_spec in He. now subst.
  - intros Hy. exists a. split; [assumption|]. now apply action_eqb_spec.
Qed.

Definition completed_sel (tz : string) (actions : list action) : selector :=
  {| sel_timezone := tz; sel_start := None; sel_end := None;
     sel_states := [Completed]; sel_actions := actions |}.

Lemma try_create_completed : forall tz actions name i, actions <> [] ->
  (try_create_instant L (completed_sel tz actions) name = Ok i <-> denotes_completed L tz actions name i).
Proof.
  intros tz actions name i Hna. unfold try_create_instant, denotes_completed. split.
  - intros H. destruct (split_once "." name) as [[ts suffix]|] eqn:Es; [|discriminate].
    cbn [ok_or bind] in H.
    destruct (parse_action_and_state suffix) as [[a s]|e|] eqn:Ea; try discriminate. cbn [bind] in H.
    destruct (should_include_action (completed_sel tz actions) a) eqn:Ia; [|discriminate]. cbn [negb] in H.
    destruct (should_include_state (completed_sel tz actions) s) eqn:Is; [|discriminate]. cbn [negb] in H.
    destruct (parse_datetime L ts (sel_timezone (completed_sel tz actions))) as [dt|e|] eqn:Ed; try discriminate.
    cbn in H. injection H as <-. apply split_once_some in Es as [-> Hd].
    assert (s = Completed) by (destruct s; cbn in Is; congruence || reflexivity). subst s.
    exists ts, a, dt. apply should_include_action_in in Ia; [|assumption].
    apply parse_action_and_state_inv in Ea. repeat split; auto.
    destruct Ea as [-> | ->]; [left|right]; reflexivity.
  - intros [ts [a [dt [Hd [Hn [Hin [Hp ->]]]]]]].
    assert (Hs : exists suffix, split_once "." name = Some (ts, suffix) /\ parse_action_and_state suffix = Ok (a, Completed)).
    { destruct Hn as [-> | ->].
      - exists (action_str a). split; [now apply split_once_app|apply parse_suffix_completed].
      - exists (action_str a ++ "."). split; [now apply split_once_app|apply parse_action_dot]. }
    destruct Hs as [suffix [-> Ha]]. cbn [ok_or bind]. rewrite Ha. cbn [bind].
    apply (should_include_action_in (completed_sel tz actions)) in Hin; [|assumption].
    rewrite Hin. cbn -[parse_datetime]. rewrite Hp. reflexivity.
Qed.

Lemma collect_denoted : forall tz actions names l, actions <> [] ->
  collect_instants L (completed_sel tz actions) names = Ok l ->
  denoted_instants (denotes_completed L tz actions) names l.
Proof.
  intros tz actions names l Hna. revert l. induction names as [|n ns IH]; intros l H.
  - cbn in H. injection H as <-. constructor.
  - cbn [collect_instants] in H.
    destruct (try_create_instant L (completed_sel tz actions) n) as [i|e|] eqn:E; [| |discriminate].
    + destruct (collect_instants L (completed_sel tz actions) ns) as [r|e|]; try discriminate.
      cbn in H. injection H as <-. constructor; [|auto]. now apply try_create_completed.
    + constructor; [|auto]. intros i Hi. apply try_create_completed in Hi; [congruence|assumption].
Qed.

(** A panic comes from a name whose time stamp cannot be sliced. *)
Lemma collect_no_panic : forall sel names,
  (forall n, In n names -> try_create_instant L sel n <> Panic) ->
  exists l, collect_instants L sel names = Ok l.
Proof.
  intros sel. induction names as [|n ns IH]; intros H; [eexists; reflexivity|].
  cbn [collect_instants]. destruct IH as [l Hl]; [intros m Hm; apply H; now right|].
  pose proof (H n (or_introl eq_refl)) as Hn.
  destruct (try_create_instant L sel n) as [i|e|] eqn:E; [| |congruence].
  - rewrite Hl. eexists. reflexivity.
  - eauto.
Qed.

Lemma collect_panic : forall sel names n, In n names -> try_create_instant L sel n = Panic ->
  collect_instants L sel names = Panic.
Proof.
  intros sel. induction names as [|m ms IH]; intros n Hin Hp; [contradiction|].
  cbn [collect_instants]. destruct Hin as [-> | Hin].
  - now rewrite Hp.
  - rewrite (IH n Hin Hp). destruct (try_create_instant L sel m); reflexivity.
Qed.

Lemma load_spec : forall f sel names desc l,
  sorts f -> load_instants L f sel names desc = Ok l ->
  exists l0, collect_instants L sel names = Ok l0 /\ Permutation l0 l
    /\ StronglySorted instant_le (if desc then rev l else l).
Proof.
  intros f sel names desc l Hf H. unfold load_instants in H.
  destruct (collect_instants L sel names) as [l0|e|] eqn:E; try discriminate.
  cbn in H. injection H as <-. exists l0. destruct (Hf l0) as [Hp Hs].
  split; [reflexivity|]. destruct desc.
  - rewrite rev_involutive. split; [|assumption]. rewrite Hp at 1. apply Permutation_rev.
  - split; assumption.
Qed.

(** Exactness of loading, for every listing for which loading returns. *)
Lemma load_exact : forall f tz actions names desc l, sorts f -> actions <> [] ->
  (let* sel := completed_actions_in_range L actions tz None None in load_instants L f sel names desc) = Ok l ->
  exists l0, denoted_instants (denotes_completed L tz actions) names l0
    /\ Permutation l0 l /\ StronglySorted instant_le (if desc then rev l else l).
Proof.
  intros f tz actions names desc l Hf Hna H. cbn in H.
  apply load_spec in H as [l0 [Hc [Hp Hs]]]; [|assumption].
  exists l0. split; [|split; assumption]. now apply collect_denoted.
Qed.

(** When exactly [try_create_instant] panics: the prefix before the first dot cannot be cut at 14. *)
Lemma parse_naive_panic : forall ts, parse_naive_datetime ts = Panic <-> is_char_boundary ts 14 = false.
Proof.
  intros ts. unfold parse_naive_datetime, slice_to, slice_from.
  destruct (is_char_boundary ts 14); [|split; reflexivity]. split; [|discriminate].
  cbn [bind]. destruct (parse_ymdhms (take 14 ts)) as [t|]; [|discriminate]. cbn [ok_or bind].
  destruct (Nat.eqb (String.length ts) 17); [|discriminate].
  destruct (parse_u32 (drop 14 ts)) as [ms|]; [|discriminate]. cbn [ok_or bind].
  destruct (with_nanosecond t (ms * 1000000)); discriminate.
Qed.

Lemma parse_datetime_panic : forall ts tz, parse_datetime L ts tz = Panic <-> is_char_boundary ts 14 = false.
Proof.
  intros ts tz. rewrite <- parse_naive_panic. unfold parse_datetime.
  destruct (parse_naive_datetime ts) as [t|e|]; [|split; discriminate|split; reflexivity].
  split; [|discriminate]. cbn [bind]. unfold convert_to_timezone, timezone_from_str.
  destruct (String.eqb _ "utc"); [discriminate|]. destruct (String.eqb _ "local"); [|discriminate].
  cbn. destruct (L t); discriminate.
Qed.

Lemma parse_action_and_state_no_panic : forall s, parse_action_and_state s <> Panic.
Proof.
  intros s. unfold parse_action_and_state, action_from_str, state_from_str.
  destruct (split_once "." s) as [[a c]|].
  - repeat match goal with |- context [if ?g then _ else _] => destruct g end; discriminate.
  - repeat match goal with |- context [if ?g then _ else _] => destruct g end; discriminate.
Qed.

Lemma try_create_panic_inv : forall sel name, try_create_instant L sel name = Panic ->
  exists ts suffix a s, name = ts ++ "." ++ suffix /\ has_char "." ts = false
    /\ parse_action_and_state suffix = Ok (a, s) /\ is_char_boundary ts 14 = false.
Proof.
  intros sel name H. unfold try_create_instant in H.
  destruct (split_once "." name) as [[ts suffix]|] eqn:Es; [|discriminate]. cbn [ok_or bind] in H.
  pose proof (parse_action_and_state_no_panic suffix) as Hnp.
  destruct (parse_action_and_state suffix) as [[a s]|e|] eqn:Ea; [|discriminate|congruence]. cbn [bind] in H.
  destruct (should_include_action sel a); [|discriminate].
  destruct (should_include_state sel s); [|discriminate]. cbn [negb] in H.
  destruct (parse_datetime L ts (sel_timezone sel)) as [dt|e|] eqn:Ed.
  - cbn [bind] in H. repeat match type of H with context [if ?g then _ else _] => destruct g end; discriminate.
  - discriminate.
  - apply parse_datetime_panic in Ed. apply split_once_some in Es as [-> Hd].
    exists ts, suffix, a, s. repeat split; auto.
Qed.

End Load.

(** ** Ranges *)
Lemma dt_cmp_civil : forall c1 c2, valid_civil c1 -> valid_civil c2 ->
  dt_cmp (civil_ndt c1) (civil_ndt c2)
  = (epoch_millis (civil_ndt c1) ?= epoch_millis (civil_ndt c2))%Z.
Proof.
  intros c1 c2 H1 H2.
  destruct H1 as [_ [Hh1 [Hm1 [Hs1 Hms1]]]]. destruct H2 as [_ [Hh2 [Hm2 [Hs2 Hms2]]]].
  unfold dt_cmp, civil_ndt, epoch_millis. cbn [nd_days nd_secs nd_nanos].
  set (d1 := days_from_civil _ _ _). set (d2 := days_from_civil (c_year c2) _ _).
  assert (E1 : exists m1, (0 <= m1 <= 999)%Z /\ match c_ms c1 with Some ms => (ms * 1000000)%Z | None => 0%Z end = (m1 * 1000000)%Z)
    by (destruct (c_ms c1) as [m|]; [exists m; split; lia|exists 0%Z; split; lia]).
  assert (E2 : exists m2, (0 <= m2 <= 999)%Z /\ match c_ms c2 with Some ms => (ms * 1000000)%Z | None => 0%Z end = (m2 * 1000000)%Z)
    by (destruct (c_ms c2) as [m|]; [exists m; split; lia|exists 0%Z; split; lia]).
  destruct E1 as [m1 [B1 E1]], E2 as [m2 [B2 E2]].
  rewrite ?E1, ?E2. rewrite !Z.div_mul by lia.
  symmetry.
  destruct (Z.compare_spec d1 d2); [|apply Z.compare_lt_iff; lia|apply Z.compare_gt_iff; lia].
  match goal with |- _ = match (?x ?= ?y)%Z with _ => _ end => destruct (Z.compare_spec x y) end;
    [|apply Z.compare_lt_iff; lia|apply Z.compare_gt_iff; lia].
  match goal with |- _ = (?x ?= ?y)%Z => destruct (Z.compare_spec x y) end;
    [apply Z.compare_eq_iff|apply Z.compare_lt_iff|apply Z.compare_gt_iff]; lia.
Qed.

Lemma dt_lt_civil : forall c1 c2, valid_civil c1 -> valid_civil c2 ->
  dt_lt (civil_ndt c1) (civil_ndt c2) = (epoch_millis (civil_ndt c1) <? epoch_millis (civil_ndt c2))%Z.
Proof. intros. unfold dt_lt. rewrite dt_cmp_civil by assumption. reflexivity. Qed.
Lemma dt_le_civil : forall c1 c2, valid_civil c1 -> valid_civil c2 ->
  dt_le (civil_ndt c1) (civil_ndt c2) = (epoch_millis (civil_ndt c1) <=? epoch_millis (civil_ndt c2))%Z.
Proof. intros. unfold dt_le. rewrite dt_cmp_civil by assumption. reflexivity. Qed.

Lemma is_in_range_civil : forall L (s e : option civil) si ei tz tz' t,
  is_utc tz -> is_utc tz' -> valid_civil t ->
  (match s with Some s => valid_civil s | None => True end) ->
  (match e with Some e => valid_civil e | None => True end) ->
  is_in_range L {| r_timezone := tz; r_start := option_map render s; r_end := option_map render e;
                   r_start_incl := si; r_end_incl := ei |} (render t) tz'
  = Ok ((match s with
         | Some s => if si then (epoch_millis (civil_ndt s) <=? epoch_millis (civil_ndt t))%Z
                     else (epoch_millis (civil_ndt s) <? epoch_millis (civil_ndt t))%Z
         | None => true end)
        && (match e with
            | Some e => if ei then (epoch_millis (civil_ndt t) <=? epoch_millis (civil_ndt e))%Z
                        else (epoch_millis (civil_ndt t) <? epoch_millis (civil_ndt e))%Z
            | None => true end))%bool.
Proof.
  intros L s e si ei tz tz' t Hz Hz' Ht Hs He. unfold is_in_range, range_start, range_end.
  rewrite parse_datetime_utc by assumption. cbn [bind r_start r_end r_timezone r_start_incl r_end_incl].
  destruct s as [s|]; destruct e as [e|]; cbn [option_map opt_traverse bind];
    rewrite ?parse_datetime_utc by assumption; cbn [bind];
    rewrite ?dt_lt_civil, ?dt_le_civil by assumption;
    repeat match goal with |- context [if ?g then _ else _] => destruct g eqn:? end;
    f_equal; lia.
Qed.

(** ** Listings made of well-formed instants and unrelated files *)
Lemma parse_action_suffixes : forall q a s, parse_action_and_state q = Ok (a, s) -> In q instant_suffixes.
Proof.
  intros q a s H. unfold parse_action_and_state in H.
  destruct (split_once "." q) as [[x y]|] eqn:E.
  - apply split_once_some in E as [-> Hn].
    unfold action_from_str, state_from_str in H.
    destruct (String.eqb_spec x "commit"); [subst x|
      destruct (String.eqb_spec x "deltacommit"); [subst x|
        destruct (String.eqb_spec x "replacecommit"); [subst x|discriminate]]];
    (destruct (String.eqb_spec y "requested"); [subst y|
      destruct (String.eqb_spec y "inflight"); [subst y|
        destruct (String.eqb_spec y ""); [subst y|discriminate]]]); cbn; tauto.
  - destruct (String.eqb_spec q "inflight"); [subst; cbn; tauto|].
    unfold action_from_str in H.
    destruct (String.eqb_spec q "commit"); [subst; cbn; tauto|].
    destruct (String.eqb_spec q "deltacommit"); [subst; cbn; tauto|].
    destruct (String.eqb_spec q "replacecommit"); [subst; cbn; tauto|]. discriminate.
Qed.

Section Entries.
Variable L : ndt -> option ndt.

Lemma try_create_unrelated : forall sel n, unrelated_name n -> exists e, try_create_instant L sel n = Err e.
Proof.
  intros sel n H. unfold try_create_instant. destruct H as [H|[p [q [-> [Hp Hq]]]]].
  - apply split_once_none in H. rewrite H. eexists. reflexivity.
  - cbn [String.append]. rewrite split_once_app by assumption. cbn [ok_or bind].
    destruct (parse_action_and_state q) as [[a s]|e|] eqn:E.
    + elim Hq. eapply parse_action_suffixes. exact E.
    + eexists. reflexivity.
    + elim (parse_action_and_state_no_panic q). exact E.
Qed.

Lemma collect_skip : forall sel n names1 names2 e, try_create_instant L sel n = Err e ->
  collect_instants L sel (names1 ++ n :: names2)%list = collect_instants L sel (names1 ++ names2)%list.
Proof.
  intros sel n names1 names2 e H. induction names1 as [|m ms IH].
  - cbn. now rewrite H.
  - cbn [List.app collect_instants]. rewrite IH. reflexivity.
Qed.

Lemma render_no_dot : forall c, valid_civil c -> has_char "." (render c) = false.
Proof.
  intros c H. apply (parse_naive_datetime_dot (render c) (civil_ndt c)).
  - apply length_render.
  - now apply parse_render.
Qed.

Lemma timeline_name_suffix : forall ts a s, timeline_name ts a s = ts ++ "." ++ suffix_of a s.
Proof. intros ts [] []; reflexivity. Qed.

Lemma collect_entries : forall tz entries, is_utc tz -> Forall valid_entry entries ->
  exists l0, collect_instants L (completed_sel tz DEFAULT_LOADING_ACTIONS) (map entry_name entries) = Ok l0
    /\ Forall2 entry_instant (filter is_completed_entry entries) l0.
Proof.
  intros tz entries Hz H. induction H as [|e es He Hes IH].
  - exists []. split; [reflexivity|constructor].
  - destruct IH as [l0 [Hc Hf]]. cbn [map collect_instants].
    destruct e as [c a s|n].
    + cbn [entry_name]. rewrite timeline_name_suffix.
      cbn in He. pose proof (parse_datetime_utc L c tz He Hz) as Hp.
      assert (Ht : try_create_instant L (completed_sel tz DEFAULT_LOADING_ACTIONS) (render c ++ "." ++ suffix_of a s)
                   = match s with
                     | Completed => Ok {| i_timestamp := render c; i_action := a; i_state := s;
                                          i_epoch := epoch_millis (civil_ndt c) |}
                     | _ => Err ETimeline end).
      { unfold try_create_instant. cbn [String.append].
        rewrite split_once_app by (now apply render_no_dot). cbn [ok_or bind].
        rewrite parse_suffix_of. cbn [bind].
        destruct s, a; cbn -[parse_datetime render]; try reflexivity; rewrite Hp; reflexivity. }
      rewrite Ht. cbn [filter is_completed_entry]. destruct s.
      * exists l0. split; assumption.
      * exists l0. split; assumption.
      * rewrite Hc. eexists. split; [reflexivity|]. constructor; [|assumption].
        cbn. repeat split. now apply epoch_denotes.
    + cbn [entry_name filter is_completed_entry].
      destruct (try_create_unrelated (completed_sel tz DEFAULT_LOADING_ACTIONS) n He) as [e ->].
      exists l0. split; assumption.
Qed.
End Entries.

(** ** Maximum *)
Lemma last_opt_sorted : forall l x, StronglySorted instant_le l -> last_opt l = Some x ->
  In x l /\ forall y, In y l -> (i_epoch y <= i_epoch x)%Z.
Proof.
  induction l as [|a l IH]; intros x Hs H; [discriminate|].
  inversion Hs as [|? ? Hs' Hf]; subst. cbn [last_opt] in H. destruct l as [|b l].
  - injection H as <-. split; [now left|]. intros y [->|[]]. lia.
  - destruct (IH x Hs' H) as [Hin Hmax]. split; [now right|].
    intros y [<-|Hy]; [|auto]. rewrite Forall_forall in Hf. apply instant_le_epoch. auto.
Qed.

Lemma last_opt_none : forall A (l : list A), last_opt l = None -> l = [].
Proof.
  induction l as [|a l IH]; intros H; [reflexivity|]. cbn in H. destruct l; [discriminate|].
  specialize (IH H). discriminate.
Qed.

(** ** Names of loaded instants *)
Lemma denotes_file_name : forall L tz actions name i, denotes_completed L tz actions name i ->
  name = file_name i \/ name = file_name i ++ ".".
Proof.
  intros L tz actions name i [ts [a [dt [_ [Hn [_ [_ ->]]]]]]].
  unfold file_name; cbn [i_action i_state i_timestamp].
  destruct Hn as [-> | ->]; [left|right].
  - destruct a; reflexivity.
  - destruct a; now rewrite app_assoc_s.
Qed.

(** ** Statements used by the property file *)
Section Final.
Variable L : ndt -> option ndt.

Lemma parse_render_name : forall c tz a s, valid_civil c -> is_utc tz ->
  exists i, try_from_file_name_and_timezone L (timeline_name (render c) a s) tz = Ok i
    /\ i_timestamp i = render c /\ i_action i = a /\ i_state i = s /\ denotes_millis c (i_epoch i)
    /\ file_name i = timeline_name (render c) a s.
Proof.
  intros c tz a s Hv Hz. rewrite timeline_name_suffix.
  rewrite (try_from_intro L (render c) a s tz (civil_ndt c) (suffix_of a s)).
  - eexists. split; [reflexivity|]. cbn. repeat split.
    + now apply epoch_denotes.
    + now rewrite file_name_suffix.
  - apply length_render.
  - now apply parse_datetime_utc.
  - apply parse_suffix_of.
Qed.

Lemma parsed_round_trip : forall tz name i,
  try_from_file_name_and_timezone L name tz = Ok i ->
  try_from_file_name_and_timezone L (file_name i) tz = Ok i.
Proof.
  intros tz name i H. apply try_from_inv in H as [suffix [dt [_ [_ [Hl [Hd [He _]]]]]]].
  eapply file_name_round_trip; eauto.
Qed.

Lemma parsed_injective : forall tz n1 n2 i1 i2,
  try_from_file_name_and_timezone L n1 tz = Ok i1 ->
  try_from_file_name_and_timezone L n2 tz = Ok i2 ->
  file_name i1 = file_name i2 -> i1 = i2.
Proof.
  intros tz n1 n2 i1 i2 H1 H2 E. apply parsed_round_trip in H1, H2. congruence.
Qed.

Lemma new_timeline_panic_iff : forall f tz names, 
  new_timeline L f tz names = Panic <->
  exists n ts a, In n names /\ has_char "." ts = false /\ is_char_boundary ts 14 = false
    /\ (n = ts ++ "." ++ action_str a \/ n = ts ++ "." ++ action_str a ++ ".").
Proof.
  intros f tz names. unfold new_timeline. cbn [completed_actions_in_range opt_traverse bind].
  fold (completed_sel tz DEFAULT_LOADING_ACTIONS). set (sel := completed_sel tz DEFAULT_LOADING_ACTIONS).
  assert (Hone : forall n, try_create_instant L sel n = Panic <->
            exists ts a, has_char "." ts = false /\ is_char_boundary ts 14 = false
              /\ (n = ts ++ "." ++ action_str a \/ n = ts ++ "." ++ action_str a ++ ".")).
  { intros n. split.
    - intros H. unfold try_create_instant in H.
      destruct (split_once "." n) as [[ts suffix]|] eqn:Es; [|discriminate]. cbn [ok_or bind] in H.
      pose proof (parse_action_and_state_no_panic suffix) as Hnp.
      destruct (parse_action_and_state suffix) as [[a s]|e|] eqn:Ea; [|discriminate|congruence]. cbn [bind] in H.
      destruct (should_include_action sel a); [|discriminate].
      destruct (should_include_state sel s) eqn:Is; [|discriminate]. cbn [negb] in H.
      destruct (parse_datetime L ts (sel_timezone sel)) as [dt|e|] eqn:Ed.
      + discriminate.
      + discriminate.
      + apply parse_datetime_panic in Ed. apply split_once_some in Es as [-> Hd].
        assert (s = Completed) by (destruct s; cbn in Is; congruence || reflexivity). subst s.
        apply parse_action_and_state_inv in Ea.
        exists ts, a. repeat split; auto. destruct Ea as [-> | ->]; [left|right]; reflexivity.
    - intros [ts [a [Hd [Hb Hn]]]].
      assert (Hs : exists suffix, split_once "." n = Some (ts, suffix) /\ parse_action_and_state suffix = Ok (a, Completed)).
      { destruct Hn as [-> | ->].
        - exists (action_str a). split; [now apply split_once_app|apply parse_suffix_completed].
        - exists (action_str a ++ "."). split; [now apply split_once_app|apply parse_action_dot]. }
      destruct Hs as [suffix [Es Ha]]. unfold try_create_instant. rewrite Es. cbn [ok_or bind].
      rewrite Ha. cbn [bind].
      assert (I : should_include_action sel a = true) by (destruct a; reflexivity).
      rewrite I. cbn [negb]. replace (should_include_state sel Completed) with true by reflexivity. cbn [negb].
      apply (parse_datetime_panic L ts (sel_timezone sel)) in Hb. rewrite Hb. reflexivity. }
  unfold load_instants. split.
  - intros H. destruct (collect_instants L sel names) as [l|e|] eqn:E; [discriminate|discriminate|]. clear H.
    induction names as [|n ns IH]; [discriminate|]. cbn [collect_instants] in E.
    destruct (try_create_instant L sel n) as [i|e|] eqn:Et.
    + destruct (collect_instants L sel ns) as [r|e|]; try discriminate.
      destruct (IH eq_refl) as [m [ts [a [Hm H]]]]. exists m, ts, a. split; [now right|exact H].
    + destruct (IH E) as [m [ts [a [Hm H]]]]. exists m, ts, a. split; [now right|exact H].
    + apply Hone in Et as [ts [a H]]. exists n, ts, a. split; [now left|exact H].
  - intros [n [ts [a [Hin H]]]]. rewrite (collect_panic L sel names n Hin); [reflexivity|].
    apply Hone. eauto.
Qed.

Lemma noise_ignored : forall f tz names1 n names2, unrelated_name n ->
  new_timeline L f tz (names1 ++ n :: names2)%list = new_timeline L f tz (names1 ++ names2)%list.
Proof.
  intros f tz names1 n names2 Hn. unfold new_timeline, load_instants. cbn [completed_actions_in_range opt_traverse bind].
  destruct (try_create_unrelated L (completed_sel tz DEFAULT_LOADING_ACTIONS) n Hn) as [e He].
  fold (completed_sel tz DEFAULT_LOADING_ACTIONS).
  rewrite (collect_skip L _ n names1 names2 e He). reflexivity.
Qed.

Lemma new_timeline_exact : forall f tz names l, sorts f -> new_timeline L f tz names = Ok l ->
  exists l0, denoted_instants (denotes_completed L tz [Commit; DeltaCommit; ReplaceCommit]) names l0
    /\ Permutation l0 l /\ StronglySorted instant_le l.
Proof.
  intros f tz names l Hf H. unfold new_timeline in H.
  apply (load_exact L f tz _ names false l Hf); [discriminate|exact H].
Qed.

Lemma new_timeline_entries : forall f tz entries, sorts f -> is_utc tz -> Forall valid_entry entries ->
  exists l0 l, new_timeline L f tz (map entry_name entries) = Ok l
    /\ Forall2 entry_instant (filter is_completed_entry entries) l0
    /\ Permutation l0 l
    /\ StronglySorted (fun a c => (i_epoch a <= i_epoch c)%Z) l.
Proof.
  intros f tz entries Hf Hz He. destruct (collect_entries L tz entries Hz He) as [l0 [Hc H2]].
  unfold new_timeline, load_instants. cbn [completed_actions_in_range opt_traverse bind].
  fold (completed_sel tz DEFAULT_LOADING_ACTIONS). rewrite Hc. cbn [bind].
  exists l0, (f l0). destruct (Hf l0) as [Hp Hs]. repeat split; auto. now apply instants_epoch_sorted.
Qed.

(** A permuted listing gives the same timeline up to the order of equal instants. *)
Lemma collect_perm : forall sel names1 names2 l1, Permutation names1 names2 ->
  collect_instants L sel names1 = Ok l1 ->
  exists l2, collect_instants L sel names2 = Ok l2 /\ Permutation l1 l2.
Proof.
  intros sel names1 names2 l1 Hp. revert l1. induction Hp as [|n a c Hp IH|n m a|a c d Hp1 IH1 Hp2 IH2]; intros l1 H.
  - exists l1. split; [assumption|reflexivity].
  - cbn [collect_instants] in *. destruct (try_create_instant L sel n) as [i|e|]; [| |discriminate].
    + destruct (collect_instants L sel a) as [r|e|]; try discriminate. cbn in H. injection H as <-.
      destruct (IH r eq_refl) as [l2 [-> H2]]. cbn. eexists. split; [reflexivity|]. now constructor.
    + auto.
  - cbn [collect_instants] in *.
    destruct (try_create_instant L sel m) as [i|e|], (try_create_instant L sel n) as [j|e'|]; try discriminate;
      destruct (collect_instants L sel a) as [r|?|]; try discriminate; cbn in *; injection H as <-;
      (eexists; split; [reflexivity|]); try reflexivity. apply perm_swap.
  - destruct (IH1 l1 H) as [l2 [H2 P2]]. destruct (IH2 l2 H2) as [l3 [H3 P3]].
    exists l3. split; [assumption|]. now transitivity l2.
Qed.

Lemma new_timeline_perm : forall f g tz names1 names2 l1, sorts f -> sorts g ->
  Permutation names1 names2 -> new_timeline L f tz names1 = Ok l1 ->
  exists l2, new_timeline L g tz names2 = Ok l2 /\ Permutation l1 l2.
Proof.
  intros f g tz names1 names2 l1 Hf Hg Hp H. unfold new_timeline, load_instants in *.
  cbn [completed_actions_in_range opt_traverse bind] in *.
  match type of H with context [collect_instants L ?s names1] => set (sel := s) in * end.
  destruct (collect_instants L sel names1) as [r|e|] eqn:E; try discriminate. cbn in H. injection H as <-.
  destruct (collect_perm sel names1 names2 r Hp E) as [r2 [-> P]]. cbn.
  eexists. split; [reflexivity|]. destruct (Hf r) as [P1 _]. destruct (Hg r2) as [P2 _].
  rewrite <- P1, P. exact P2.
Qed.

(** Two sorted permutations agree position by position on the sort key. *)
Lemma sorted_perm_epochs : forall l1 l2, epoch_sorted l1 -> epoch_sorted l2 -> Permutation l1 l2 ->
  map i_epoch l1 = map i_epoch l2.
Proof.
  induction l1 as [|a l1 IH]; intros l2 H1 H2 P.
  - apply Permutation_nil in P. now subst.
  - destruct l2 as [|c l2]; [symmetry in P; now apply Permutation_nil in P|].
    inversion H1 as [|? ? S1 F1]; subst. inversion H2 as [|? ? S2 F2]; subst.
    assert (E : i_epoch a = i_epoch c).
    { rewrite Forall_forall in F1, F2.
      assert (Ha : In a (c :: l2)) by (eapply Permutation_in; [exact P|now left]).
      assert (Hc : In c (a :: l1)) by (eapply Permutation_in; [symmetry; exact P|now left]).
      apply Z.le_antisymm.
      - destruct Hc as [->|Hc]; [lia|auto].
      - destruct Ha as [->|Ha]; [lia|auto]. }
    (* remove c from both sides, keeping the epochs *)
    assert (Q : forall (x y : list Z), Permutation x y -> StronglySorted Z.le x -> StronglySorted Z.le y -> x = y).
    { clear. induction x as [|p x IHx]; intros y P Sx Sy.
      - apply Permutation_nil in P. now subst.
      - destruct y as [|q y]; [symmetry in P; now apply Permutation_nil in P|].
        inversion Sx as [|? ? Sx' Fx]; subst. inversion Sy as [|? ? Sy' Fy]; subst.
        rewrite Forall_forall in Fx, Fy.
        assert (p = q).
        { assert (Hp : In p (q :: y)) by (eapply Permutation_in; [exact P|now left]).
          assert (Hq : In q (p :: x)) by (eapply Permutation_in; [symmetry; exact P|now left]).
          apply Z.le_antisymm.
          - destruct Hq as [->|Hq]; [lia|auto].
          - destruct Hp as [->|Hp]; [lia|auto]. }
        subst q. f_equal. apply IHx; auto. eapply Permutation_cons_inv. exact P. }
    assert (M : forall l, epoch_sorted l -> StronglySorted Z.le (map i_epoch l)).
    { clear. induction 1 as [|x l S IHl F]; [constructor|]. cbn. constructor; [assumption|].
      rewrite Forall_forall in *. intros z Hz. apply in_map_iff in Hz as [w [<- Hw]]. auto. }
    apply Q; [now apply Permutation_map|apply M; assumption|apply M; assumption].
Qed.

Lemma latest_spec : forall f tz names l, sorts f -> new_timeline L f tz names = Ok l ->
  match latest_commit_timestamp l with
  | Some ts => exists i, In i l /\ i_timestamp i = ts /\ i_state i = Completed
                /\ forall j, In j l -> (i_epoch j <= i_epoch i)%Z
  | None => forall n i, In n names -> ~ denotes_completed L tz [Commit; DeltaCommit; ReplaceCommit] n i
  end.
Proof.
  intros f tz names l Hf H. destruct (new_timeline_exact f tz names l Hf H) as [l0 [Hd [Hp Hs]]].
  unfold latest_commit_timestamp. destruct (last_opt l) as [i|] eqn:E; cbn [option_map].
  - destruct (last_opt_sorted l i Hs E) as [Hin Hmax]. exists i. repeat split; auto.
    assert (Hi : In i l0) by (eapply Permutation_in; [symmetry; exact Hp|exact Hin]).
    clear -Hi Hd. induction Hd as [|n ns j js Hj Hd IH|n ns js Hj Hd IH]; [contradiction| |auto].
    destruct Hi as [->|Hi]; [|auto]. destruct Hj as [ts [a [dt [_ [_ [_ [_ ->]]]]]]]. reflexivity.
  - apply last_opt_none in E. subst l. symmetry in Hp. apply Permutation_nil in Hp. subst l0.
    clear -Hd. intros n i Hn. remember (@nil instant) as l0 eqn:E0.
    induction Hd as [|m ns j js Hj Hd IH|m ns js Hj Hd IH]; [contradiction|discriminate E0|].
    destruct Hn as [->|Hn]; [apply Hj|auto].
Qed.

Lemma select_exact : forall actions tz start stop sel l,
  completed_actions_in_range L actions tz start stop = Ok sel ->
  StronglySorted instant_le l ->
  exists st en, opt_traverse (fun ts => parse_datetime L ts tz) start = Ok st
    /\ opt_traverse (fun ts => parse_datetime L ts tz) stop = Ok en
    /\ select sel l = filter (fun i => in_window (option_map epoch_millis st) (option_map epoch_millis en) (i_epoch i)
         && (match actions with [] => true | _ => existsb (action_eqb (i_action i)) actions end)
         && state_eqb (i_state i) Completed) l.
Proof.
  intros actions tz start stop sel l H Hs. unfold completed_actions_in_range in H.
  destruct (opt_traverse _ start) as [st|e|] eqn:E1; try discriminate. cbn [bind] in H.
  destruct (opt_traverse _ stop) as [en|e|] eqn:E2; try discriminate. cbn [bind] in H.
  injection H as <-. exists st, en. repeat split; auto.
  rewrite select_filter by assumption. cbn [sel_start sel_end]. apply filter_ext_s. intros i.
  unfold wanted, should_include_action, should_include_state. cbn [sel_actions sel_states existsb].
  rewrite orb_false_r, !andb_assoc. destruct actions; reflexivity.
Qed.

Lemma window_bounds : forall tz start cs, is_utc tz ->
  start = option_map render cs ->
  (match cs with Some c => valid_civil c | None => True end) ->
  opt_traverse (fun ts => parse_datetime L ts tz) start = Ok (option_map civil_ndt cs).
Proof.
  intros tz start cs Hz -> Hv. destruct cs as [c|]; [|reflexivity]. cbn [opt_traverse option_map].
  rewrite parse_datetime_utc by assumption. reflexivity.
Qed.

Lemma select_civil : forall actions tz cs ce ts te l, is_utc tz ->
  denotes_opt cs ts -> denotes_opt ce te -> StronglySorted instant_le l ->
  exists sel, completed_actions_in_range L actions tz (option_map render cs) (option_map render ce) = Ok sel
    /\ select sel l = filter (fun i => in_window ts te (i_epoch i)
         && (match actions with [] => true | _ => existsb (action_eqb (i_action i)) actions end)
         && state_eqb (i_state i) Completed) l.
Proof.
  intros actions tz cs ce ts te l Hz Hcs Hce Hs.
  assert (V : forall c t, denotes_opt c t -> match c with Some c => valid_civil c | None => True end
              /\ t = option_map epoch_millis (option_map civil_ndt c)).
  { intros [c|] [t|] H; cbn in *; try contradiction; [|split; reflexivity || exact I].
    destruct H as [Hv Hd]. split; [assumption|]. f_equal. now apply denotes_unique. }
  destruct (V _ _ Hcs) as [V1 ->]. destruct (V _ _ Hce) as [V2 ->].
  assert (E : exists sel, completed_actions_in_range L actions tz (option_map render cs) (option_map render ce) = Ok sel).
  { unfold completed_actions_in_range. rewrite (window_bounds tz _ cs) by auto. cbn [bind].
    rewrite (window_bounds tz _ ce) by auto. eexists. reflexivity. }
  destruct E as [sel E]. exists sel. split; [assumption|].
  destruct (select_exact _ _ _ _ _ _ E Hs) as [st [en [E1 [E2 ->]]]].
  rewrite (window_bounds tz _ cs) in E1 by auto. rewrite (window_bounds tz _ ce) in E2 by auto.
  injection E1 as <-. injection E2 as <-. reflexivity.
Qed.

Lemma windows_compose : forall actions tz start mid stop s1 s2 s3 l m st en,
  completed_actions_in_range L actions tz start (Some mid) = Ok s1 ->
  completed_actions_in_range L actions tz (Some mid) stop = Ok s2 ->
  completed_actions_in_range L actions tz start stop = Ok s3 ->
  parse_datetime L mid tz = Ok m ->
  opt_traverse (fun ts => parse_datetime L ts tz) start = Ok st ->
  opt_traverse (fun ts => parse_datetime L ts tz) stop = Ok en ->
  (match st with Some s => (epoch_millis s <= epoch_millis m)%Z | None => True end) ->
  (match en with Some e => (epoch_millis m <= epoch_millis e)%Z | None => True end) ->
  StronglySorted instant_le l ->
  (select s1 l ++ select s2 l)%list = select s3 l.
Proof.
  intros actions tz start mid stop s1 s2 s3 l m st en H1 H2 H3 Hm Hst Hen Hsm Hme Hs.
  unfold completed_actions_in_range in H1, H2, H3. cbn [opt_traverse] in H1, H2.
  rewrite Hst in H1, H3. rewrite Hen in H2, H3. rewrite Hm in H1, H2. cbn [bind] in H1, H2, H3.
  injection H1 as <-. injection H2 as <-. injection H3 as <-.
  rewrite !select_filter by assumption. cbn [sel_start sel_end option_map]. unfold wanted.
  rewrite <- (filter_windows (option_map epoch_millis st) (epoch_millis m) (option_map epoch_millis en)).
  - f_equal.
  - now apply instants_epoch_sorted.
  - destruct st; assumption.
  - destruct en; assumption.
Qed.

Lemma bad_probe : forall r ts tz, (forall dt, parse_datetime L ts tz <> Ok dt) ->
  forall b, is_in_range L r ts tz <> Ok b /\ not_in_range L r ts tz <> Ok b.
Proof.
  intros r ts tz H b. unfold not_in_range, is_in_range.
  destruct (parse_datetime L ts tz) as [dt|e|]; [now elim (H dt)|split; discriminate|split; discriminate].
Qed.

Lemma not_in_range_complement : forall r ts tz b,
  is_in_range L r ts tz = Ok b <-> not_in_range L r ts tz = Ok (negb b).
Proof.
  intros r ts tz b. unfold not_in_range.
  destruct (is_in_range L r ts tz) as [x|e|]; cbn; [|split; discriminate|split; discriminate].
  split; intros H; injection H as H; f_equal; destruct x, b; cbn in *; congruence.
Qed.

(** Arbitrary accepted timestamps in any time zone: the order used is the one of chrono date-times. *)
Lemma in_range_general : forall r ts tz t s e,
  parse_datetime L ts tz = Ok t -> range_start L r = Ok s -> range_end L r = Ok e ->
  is_in_range L r ts tz = Ok
   ((match s with Some s => if r_start_incl r then negb (dt_lt t s) else negb (dt_le t s) | None => true end)
    && (match e with Some e => if r_end_incl r then negb (dt_lt e t) else negb (dt_le e t) | None => true end)).
Proof.
  intros r ts tz t s e Ht Hs He. unfold is_in_range. rewrite Ht. cbn [bind]. rewrite Hs. cbn [bind].
  rewrite He. cbn [bind].
  destruct s as [s|], e as [e|], (r_start_incl r), (r_end_incl r);
    repeat match goal with |- context [dt_lt ?x ?y] => destruct (dt_lt x y) end;
    repeat match goal with |- context [dt_le ?x ?y] => destruct (dt_le x y) end; reflexivity.
Qed.

End Final.

(** ** Any selector *)
Lemma state_eqb_spec : forall a c, state_eqb a c = true <-> a = c.
Proof. intros [] []; cbn; split; congruence. Qed.
Lemma included_action : forall sel a, should_include_action sel a = true <-> sel_actions sel = [] \/ In a (sel_actions sel).
Proof.
  intros sel a. unfold should_include_action. destruct (sel_actions sel) as [|x l]; [split; [now left|reflexivity]|]. rewrite existsb_exists. split.
  - intros [y [I E]]. right. apply action_eqb_spec in E. now subst y.
  - intros [[=]|I]. exists a. split; [exact I|now apply action_eqb_spec].
Qed.
Lemma included_state : forall sel a, should_include_state sel a = true <-> sel_states sel = [] \/ In a (sel_states sel).
Proof.
  intros sel a. unfold should_include_state. destruct (sel_states sel) as [|x l]; [split; [now left|reflexivity]|]. rewrite existsb_exists. split.
  - intros [y [I E]]. right. apply state_eqb_spec in E. now subst y.
  - intros [[=]|I]. exists a. split; [exact I|now apply state_eqb_spec].
Qed.
Lemma dt_le_lt : forall a c, dt_le a c = negb (dt_lt c a).
Proof.
  intros a c. unfold dt_le, dt_lt, dt_cmp. rewrite (Z.compare_antisym (nd_days c)), (Z.compare_antisym (nd_secs c)), (Z.compare_antisym (nd_nanos c)).
  destruct (nd_days c ?= nd_days a)%Z, (nd_secs c ?= nd_secs a)%Z, (nd_nanos c ?= nd_nanos a)%Z; reflexivity.
Qed.
Lemma created : forall L sel ts a s i, has_char "." ts = false ->
  (try_create_instant L sel (timeline_name ts a s) = Ok i <->
     (sel_actions sel = [] \/ In a (sel_actions sel)) /\ (sel_states sel = [] \/ In s (sel_states sel))
     /\ exists dt, parse_datetime L ts (sel_timezone sel) = Ok dt
          /\ (forall st, sel_start sel = Some st -> dt_lt dt st = false) /\ (forall en, sel_end sel = Some en -> dt_lt dt en = true)
          /\ i = {| i_timestamp := ts; i_action := a; i_state := s; i_epoch := epoch_millis dt |}).
Proof.
  intros L sel ts a s i D. rewrite timeline_name_suffix. unfold try_create_instant. change (ts ++ "." ++ suffix_of a s) with (ts ++ String "." (suffix_of a s)).
  rewrite split_once_app by exact D. cbn [ok_or bind]. rewrite parse_suffix_of. cbn [bind]. rewrite <- included_action, <- included_state.
  destruct (should_include_action sel a); cbn [negb]; [|split; [discriminate|intros [[=] _]]]. destruct (should_include_state sel s); cbn [negb]; [|split; [discriminate|intros [_ [[=] _]]]].
  destruct (parse_datetime L ts (sel_timezone sel)) as [dt|e|]; cbn [bind]; [|split; [discriminate|intros [_ [_ [x [[=] _]]]]]..].
  split.
  - intros H. split; [reflexivity|]. split; [reflexivity|]. exists dt. split; [reflexivity|].
    destruct (sel_start sel) as [st|]; [destruct (dt_lt dt st) eqn:E1; [discriminate|]|]; (destruct (sel_end sel) as [en|]; [rewrite dt_le_lt in H; destruct (dt_lt dt en) eqn:E2; [cbn [negb] in H|discriminate]|]);
      injection H as <-; repeat split; congruence.
  - intros [_ [_ [x [[= <-] [S [E ->]]]]]]. destruct (sel_start sel) as [st|]; [rewrite (S st eq_refl)|]; (destruct (sel_end sel) as [en|]; [rewrite dt_le_lt, (E en eq_refl)|]); reflexivity.
Qed.
