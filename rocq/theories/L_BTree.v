(** Laws of sorted lists as maps and sets. *)
From Verif Require Import Base M_BTree.
From Coq Require Import Sorting.Sorted.

Section Sorted.
Context {A K : Type}.
Variable key : A -> K.
Variable kcmp : K -> K -> comparison.
Hypothesis kcmp_eq : forall a c, kcmp a c = Eq <-> a = c.
Hypothesis kcmp_antisym : forall a c, kcmp c a = CompOpp (kcmp a c).
Hypothesis kcmp_trans : forall a c d, kcmp a c = Lt -> kcmp c d = Lt -> kcmp a d = Lt.

Definition key_lt (x y : A) : Prop := kcmp (key x) (key y) = Lt.
Definition ssorted (l : list A) : Prop := StronglySorted key_lt l.

Lemma kcmp_refl : forall a, kcmp a a = Eq.
Proof. intros a. now apply kcmp_eq. Qed.
Lemma kcmp_gt : forall a c, kcmp a c = Gt <-> kcmp c a = Lt.
Proof. intros a c. rewrite (kcmp_antisym a c). destruct (kcmp a c); cbn; split; congruence. Qed.

Lemma sget_some : forall k l x, sget key kcmp k l = Some x -> In x l /\ key x = k.
Proof.
  intros k. induction l as [|y l IH]; intros x H; [discriminate|]. cbn in H.
  destruct (kcmp k (key y)) eqn:E.
  - injection H as <-. apply kcmp_eq in E. split; [now left|congruence].
  - destruct (IH x H). split; [now right|assumption].
  - destruct (IH x H). split; [now right|assumption].
Qed.

Lemma sget_none : forall k l, sget key kcmp k l = None <-> forall x, In x l -> key x <> k.
Proof.
  intros k. induction l as [|y l IH]; [split; [intros _ x []|reflexivity]|]. cbn.
  destruct (kcmp k (key y)) eqn:E.
  - apply kcmp_eq in E. split; [discriminate|]. intros H. elim (H y); [now left|congruence].
  - rewrite IH. split.
    + intros H x [<-|Hx]; [|auto]. intros Hk. rewrite Hk, kcmp_refl in E. discriminate.
    + intros H x Hx. apply H. now right.
  - rewrite IH. split.
    + intros H x [<-|Hx]; [|auto]. intros Hk. rewrite Hk, kcmp_refl in E. discriminate.
    + intros H x Hx. apply H. now right.
Qed.

Lemma ssorted_key_inj : forall l x y, ssorted l -> In x l -> In y l -> key x = key y -> x = y.
Proof.
  intros l x y H. induction H as [|a l S IH F]; [intros []|].
  rewrite Forall_forall in F. intros [->|Hx] [->|Hy] E; auto.
  - specialize (F y Hy). unfold key_lt in F. rewrite E, kcmp_refl in F. discriminate.
  - specialize (F x Hx). unfold key_lt in F. rewrite <- E, kcmp_refl in F. discriminate.
Qed.

Lemma sget_in : forall l x, ssorted l -> In x l -> sget key kcmp (key x) l = Some x.
Proof.
  intros l x S Hin. destruct (sget key kcmp (key x) l) as [y|] eqn:E.
  - apply sget_some in E as [Hy Ek]. f_equal. eapply ssorted_key_inj; eauto.
  - rewrite sget_none in E. elim (E x Hin eq_refl).
Qed.

Lemma in_sput : forall x y l, In y (sput key kcmp x l) ->
  y = x \/ In y l.
Proof.
  intros x y. induction l as [|z l IH]; cbn.
  - intros [<-|[]]. now left.
  - destruct (kcmp (key x) (key z)); cbn; intros H; intuition.
Qed.
Lemma in_sadd : forall x y l, In y (sadd key kcmp x l) -> y = x \/ In y l.
Proof.
  intros x y. induction l as [|z l IH]; cbn.
  - intros [<-|[]]. now left.
  - destruct (kcmp (key x) (key z)); cbn; intros H; intuition.
Qed.

Lemma sput_sorted : forall x l, ssorted l -> ssorted (sput key kcmp x l).
Proof.
  intros x l H. induction H as [|a l S IH F]; [repeat constructor|]. cbn.
  destruct (kcmp (key x) (key a)) eqn:E.
  - apply kcmp_eq in E. constructor; [assumption|]. eapply Forall_impl; [|exact F].
    intros y. unfold key_lt. now rewrite E.
  - constructor; [constructor; assumption|]. constructor; [exact E|].
    eapply Forall_impl; [|exact F]. intros y Hy. eapply kcmp_trans; eauto.
  - constructor; [assumption|]. rewrite Forall_forall in *. intros y Hy.
    apply in_sput in Hy as [->|Hy]; [now apply kcmp_gt|auto].
Qed.
Lemma sadd_sorted : forall x l, ssorted l -> ssorted (sadd key kcmp x l).
Proof.
  intros x l H. induction H as [|a l S IH F]; [repeat constructor|]. cbn.
  destruct (kcmp (key x) (key a)) eqn:E.
  - constructor; assumption.
  - constructor; [constructor; assumption|]. constructor; [exact E|].
    eapply Forall_impl; [|exact F]. intros y Hy. eapply kcmp_trans; eauto.
  - constructor; [assumption|]. rewrite Forall_forall in *. intros y Hy.
    apply in_sadd in Hy as [->|Hy]; [now apply kcmp_gt|auto].
Qed.

Lemma sget_put : forall x k l, ssorted l ->
  sget key kcmp k (sput key kcmp x l) = match kcmp k (key x) with Eq => Some x | _ => sget key kcmp k l end.
Proof.
  intros x k l H. induction H as [|a l S IH F]; [reflexivity|]. cbn.
  destruct (kcmp (key x) (key a)) eqn:E; cbn.
  - apply kcmp_eq in E. rewrite E. destruct (kcmp k (key a)); reflexivity.
  - reflexivity.
  - rewrite IH. destruct (kcmp k (key a)) eqn:Ea; [|reflexivity|reflexivity].
    apply kcmp_eq in Ea. subst k. destruct (kcmp (key a) (key x)) eqn:Ex; try reflexivity.
    apply kcmp_eq in Ex. rewrite Ex, kcmp_refl in E. discriminate.
Qed.
Lemma sget_add : forall x k l, ssorted l ->
  sget key kcmp k (sadd key kcmp x l) =
  match sget key kcmp k l with Some y => Some y | None => match kcmp k (key x) with Eq => Some x | _ => None end end.
Proof.
  intros x k l H. induction H as [|a l S IH F]; [reflexivity|]. cbn.
  destruct (kcmp (key x) (key a)) eqn:E; cbn.
  - destruct (kcmp k (key a)) eqn:Ea; [reflexivity| |].
    + apply kcmp_eq in E. rewrite E, Ea. destruct (sget key kcmp k l); reflexivity.
    + apply kcmp_eq in E. rewrite E, Ea. destruct (sget key kcmp k l); reflexivity.
  - destruct (kcmp k (key x)) eqn:Ex.
    + apply kcmp_eq in Ex. subst k. rewrite E.
      assert (N : sget key kcmp (key x) l = None).
      { apply sget_none. intros y Hy Ek. rewrite Forall_forall in F. specialize (F y Hy). unfold key_lt in F.
        rewrite Ek in F. rewrite (proj2 (kcmp_gt (key x) (key a)) F) in E. discriminate. }
      now rewrite N.
    + destruct (kcmp k (key a)); [reflexivity| |]; destruct (sget key kcmp k l); reflexivity.
    + destruct (kcmp k (key a)); [reflexivity| |]; destruct (sget key kcmp k l); reflexivity.
  - rewrite IH. destruct (kcmp k (key a)); reflexivity.
Qed.

Lemma sadd_in : forall x y l, ssorted l ->
  (In y (sadd key kcmp x l) <-> In y l \/ (y = x /\ sget key kcmp (key x) l = None)).
Proof.
  intros x y l S. pose proof (sadd_sorted x l S) as S'. split.
  - intros H. pose proof (sget_in _ _ S' H) as G. rewrite sget_add in G by assumption.
    destruct (sget key kcmp (key y) l) as [z|] eqn:E.
    + injection G as ->. apply sget_some in E as [E _]. now left.
    + destruct (kcmp (key y) (key x)) eqn:Ek; try discriminate. injection G as <-. right. split; [reflexivity|assumption].
  - intros [H|[-> H]].
    + pose proof (sget_in _ _ S H) as G. pose proof (sget_add x (key y) l S) as G'. rewrite G in G'.
      now apply sget_some in G' as [G' _].
    + pose proof (sget_add x (key x) l S) as G'. rewrite H, kcmp_refl in G'. now apply sget_some in G' as [G' _].
Qed.

Lemma ssorted_ext : forall l1 l2, ssorted l1 -> ssorted l2 ->
  (forall k, sget key kcmp k l1 = sget key kcmp k l2) -> l1 = l2.
Proof.
  induction l1 as [|a l1 IH]; intros l2 S1 S2 H.
  - destruct l2 as [|c l2]; [reflexivity|]. specialize (H (key c)). cbn in H. rewrite kcmp_refl in H. discriminate.
  - destruct l2 as [|c l2].
    { specialize (H (key a)). cbn in H. rewrite kcmp_refl in H. discriminate. }
    inversion S1 as [|? ? S1' F1]; subst. inversion S2 as [|? ? S2' F2]; subst.
    rewrite Forall_forall in F1, F2.
    assert (E : a = c).
    { pose proof (H (key a)) as Ha. cbn in Ha. rewrite kcmp_refl in Ha.
      destruct (kcmp (key a) (key c)) eqn:E; [injection Ha as ->; reflexivity| |].
      - symmetry in Ha. apply sget_some in Ha as [Ha _]. specialize (F2 a Ha). unfold key_lt in F2.
        apply kcmp_gt in F2. congruence.
      - pose proof (H (key c)) as Hc. cbn in Hc. rewrite kcmp_refl in Hc. apply kcmp_gt in E. rewrite E in Hc.
        apply sget_some in Hc as [Hc _]. specialize (F1 c Hc). unfold key_lt in F1.
        apply kcmp_gt in F1. congruence. }
    subst c. f_equal. apply IH; auto. intros k. specialize (H k). cbn in H.
    destruct (kcmp k (key a)) eqn:E; [|assumption|assumption].
    apply kcmp_eq in E. subst k.
    rewrite (proj2 (sget_none (key a) l1)), (proj2 (sget_none (key a) l2)); [reflexivity| |].
    + intros x Hx Ek. specialize (F2 x Hx). unfold key_lt in F2. rewrite Ek, kcmp_refl in F2. discriminate.
    + intros x Hx Ek. specialize (F1 x Hx). unfold key_lt in F1. rewrite Ek, kcmp_refl in F1. discriminate.
Qed.

Lemma supdate_keys : forall k f l, (forall x, key (f x) = key x) ->
  map key (supdate key kcmp k f l) = map key l.
Proof.
  intros k f l Hf. induction l as [|x l IH]; [reflexivity|]. cbn.
  destruct (kcmp k (key x)); cbn; rewrite ?Hf, ?IH; reflexivity.
Qed.

Lemma ssorted_keys : forall l1 l2, map key l1 = map key l2 -> ssorted l1 -> ssorted l2.
Proof.
  intros l1 l2 E S. revert l2 E. induction S as [|a l S IH F]; intros l2 E.
  - destruct l2; [constructor|discriminate].
  - destruct l2 as [|c l2]; [discriminate|]. cbn in E. injection E as Ek El.
    constructor; [now apply IH|]. rewrite Forall_forall in *. intros y Hy.
    assert (In (key y) (map key l)) by (rewrite El; now apply in_map).
    apply in_map_iff in H as [z [Ez Hz]]. specialize (F z Hz). unfold key_lt in *. congruence.
Qed.

Lemma supdate_sorted : forall k f l, (forall x, key (f x) = key x) -> ssorted l ->
  ssorted (supdate key kcmp k f l).
Proof. intros k f l Hf. apply ssorted_keys. symmetry. now apply supdate_keys. Qed.

Lemma sget_update : forall k k' f l, (forall x, key (f x) = key x) ->
  sget key kcmp k' (supdate key kcmp k f l) =
  match kcmp k' k with Eq => option_map f (sget key kcmp k' l) | _ => sget key kcmp k' l end.
Proof.
  intros k k' f l Hf. induction l as [|x l IH]; [destruct (kcmp k' k); reflexivity|]. cbn.
  destruct (kcmp k (key x)) eqn:E; cbn; rewrite ?Hf, ?IH.
  - apply kcmp_eq in E. subst k. destruct (kcmp k' (key x)); reflexivity.
  - destruct (kcmp k' (key x)) eqn:E'; try reflexivity.
    apply kcmp_eq in E'. subst k'. destruct (kcmp (key x) k) eqn:E2; try reflexivity.
    apply kcmp_eq in E2. subst k. rewrite kcmp_refl in E. discriminate.
  - destruct (kcmp k' (key x)) eqn:E'; try reflexivity.
    apply kcmp_eq in E'. subst k'. destruct (kcmp (key x) k) eqn:E2; try reflexivity.
    apply kcmp_eq in E2. subst k. rewrite kcmp_refl in E. discriminate.
Qed.

Lemma in_supdate : forall k f l y, In y (supdate key kcmp k f l) -> In y l \/ exists x, In x l /\ key x = k /\ y = f x.
Proof.
  intros k f l y. induction l as [|x l IH]; [intros []|]. cbn.
  destruct (kcmp k (key x)) eqn:E; cbn.
  - apply kcmp_eq in E. intros [<-|H]; [right; exists x; repeat split; auto|left; now right].
  - intros [<-|H]; [left; now left|]. destruct (IH H) as [?|[z [? [? ?]]]]; [left; now right|right; exists z; auto].
  - intros [<-|H]; [left; now left|]. destruct (IH H) as [?|[z [? [? ?]]]]; [left; now right|right; exists z; auto].
Qed.

(** [range(..=k).next_back()] *)
Lemma last_opt_in : forall (l : list A) x, last_opt l = Some x -> In x l.
Proof.
  induction l as [|a l IH]; intros x H; [discriminate|]. cbn in H. destruct l as [|c l].
  - injection H as <-. now left.
  - right. now apply IH.
Qed.

Lemma last_opt_max : forall l x, ssorted l -> last_opt l = Some x ->
  forall y, In y l -> y = x \/ key_lt y x.
Proof.
  induction l as [|a l IH]; intros x S H; [discriminate|].
  inversion S as [|? ? S' F]; subst. cbn in H. destruct l as [|c l].
  - injection H as <-. intros y [->|[]]. now left.
  - intros y [<-|Hy].
    + right. rewrite Forall_forall in F. apply F. now apply last_opt_in.
    + now apply IH.
Qed.

Lemma filter_ssorted : forall p l, ssorted l -> ssorted (filter p l).
Proof.
  intros p l. induction 1 as [|a l S IH F]; [constructor|]. cbn. destruct (p a); [|assumption].
  constructor; [assumption|]. rewrite Forall_forall in *. intros x Hx. apply filter_In in Hx. now apply F.
Qed.

Lemma slast_le_spec : forall k l, ssorted l ->
  match slast_le key kcmp k l with
  | Some x => In x l /\ kcmp (key x) k <> Gt /\ forall y, In y l -> kcmp (key y) k <> Gt -> y = x \/ key_lt y x
  | None => forall y, In y l -> kcmp (key y) k = Gt
  end.
Proof.
  intros k l S. unfold slast_le.
  destruct (last_opt _) as [x|] eqn:E.
  - pose proof (last_opt_in _ _ E) as Hin. apply filter_In in Hin as [Hin Hk].
    split; [assumption|]. split; [destruct (kcmp (key x) k); congruence|].
    intros y Hy Hyk. apply (last_opt_max _ _ (filter_ssorted _ _ S) E). apply filter_In. split; [assumption|].
    destruct (kcmp (key y) k); congruence.
  - intros y Hy. destruct (kcmp (key y) k) eqn:Ek; [| |reflexivity]; exfalso.
    + assert (N : In y (filter (fun x => match kcmp (key x) k with Gt => false | _ => true end) l))
        by (apply filter_In; split; [assumption|now rewrite Ek]).
      revert E N. generalize (filter (fun x => match kcmp (key x) k with Gt => false | _ => true end) l).
      intros m E N. clear -E N. induction m as [|a m IH]; [contradiction|]. cbn in E.
      destruct m; [discriminate|]. apply IH; [exact E|]. destruct N as [->|N]; [|assumption].
      exfalso. clear -E. revert E. generalize a0. induction m; cbn; intros; [discriminate|]. eauto.
    + assert (N : In y (filter (fun x => match kcmp (key x) k with Gt => false | _ => true end) l))
        by (apply filter_In; split; [assumption|now rewrite Ek]).
      revert E N. generalize (filter (fun x => match kcmp (key x) k with Gt => false | _ => true end) l).
      intros m E N. clear -E N. induction m as [|a m IH]; [contradiction|]. cbn in E.
      destruct m; [discriminate|]. apply IH; [exact E|]. destruct N as [->|N]; [|assumption].
      exfalso. clear -E. revert E. generalize a0. induction m; cbn; intros; [discriminate|]. eauto.
Qed.
End Sorted.
