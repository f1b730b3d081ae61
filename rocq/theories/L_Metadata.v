(** Proofs about the lists of instants of an action and commit metadata. *)
From Coq Require Import Sorted.
From Verif Require Import Base Str L_Base L_Str M_Time M_Instant M_Timeline M_FileGroup M_Builder S_Time S_Timeline S_Builder S_Metadata L_Timeline L_FileGroup L_Builder.
Local Open Scope string_scope.

Lemma kept_det : forall A (P : A -> Prop) l l1 l2, kept P l l1 -> kept P l l2 -> l1 = l2.
Proof.
  intros A P l l1 l2 H. revert l2. induction H as [|x l l' Px H IH|x l l' Nx H IH]; intros l2 K; inversion K; subst; auto; try tauto.
  f_equal. auto.
Qed.
Lemma kept_ext : forall A (P Q : A -> Prop) l l', (forall x, In x l -> (P x <-> Q x)) -> kept P l l' -> kept Q l l'.
Proof.
  intros A P Q l l' E H. induction H as [|x l l' Px H IH|x l l' Nx H IH]; [constructor| |].
  - apply kept_yes; [apply (E x (or_introl eq_refl)); exact Px|]. apply IH. intros y Hy. apply E. now right.
  - apply kept_no; [intros X; apply Nx; apply (E x (or_introl eq_refl)); exact X|]. apply IH. intros y Hy. apply E. now right.
Qed.

Section M.
Variable L : ndt -> option ndt.

Lemma listed_ok : forall f tz names desc l a, sorts f ->
  (let* sel := completed_actions_in_range L [a] tz None None in load_instants L f sel names desc) = Ok l -> listed_instants L tz names a desc l.
Proof. intros f tz names desc l a Hf H. apply (load_exact L f tz [a] names desc l Hf); [discriminate|exact H]. Qed.

(** Loading fails for no listing for which the timeline could be loaded. *)
Lemma collect_narrower : forall tz a names l, In a DEFAULT_LOADING_ACTIONS ->
  collect_instants L (completed_sel tz DEFAULT_LOADING_ACTIONS) names = Ok l ->
  collect_instants L (completed_sel tz [a]) names = Ok (filter (fun i => action_eqb (i_action i) a) l).
Proof.
  intros tz a names l Ha. revert l. induction names as [|n names IH]; intros l H; [now injection H as <-|]. cbn [collect_instants] in *.
  assert (T : match try_create_instant L (completed_sel tz DEFAULT_LOADING_ACTIONS) n with
    | Ok i => try_create_instant L (completed_sel tz [a]) n = if action_eqb (i_action i) a then Ok i else Err ETimeline
    | Err _ => exists e, try_create_instant L (completed_sel tz [a]) n = Err e
    | Panic => True end).
  { unfold try_create_instant. destruct (split_once "." n) as [[ts suffix]|]; [|cbn; eauto]. cbn [ok_or bind].
    destruct (parse_action_and_state suffix) as [[b s]|e|]; cbn [bind]; [|eauto|trivial].
    unfold should_include_action, should_include_state. cbn [completed_sel sel_actions sel_states sel_timezone sel_start sel_end].
    destruct b, a, s; cbn; try (destruct (parse_datetime L ts tz); cbn; eauto); eauto. }
  destruct (try_create_instant L (completed_sel tz DEFAULT_LOADING_ACTIONS) n) as [i|e|]; [| |discriminate].
  - apply bind_ok in H as [r [H1 H2]]. injection H2 as <-. rewrite T. cbn [filter]. rewrite (IH _ H1).
    destruct (action_eqb (i_action i) a); reflexivity.
  - destruct T as [e' -> ]. exact (IH _ H).
Qed.
Lemma listed_total : forall f g tz names l a desc, sorts f -> sorts g -> new_timeline L g tz names = Ok l -> In a DEFAULT_LOADING_ACTIONS ->
  exists l', (let* sel := completed_actions_in_range L [a] tz None None in load_instants L f sel names desc) = Ok l'
    /\ Permutation l' (filter (fun i => action_eqb (i_action i) a) l).
Proof.
  intros f g tz names l a desc Hf Hg H Ha. unfold new_timeline, load_instants in *. cbn [completed_actions_in_range opt_traverse bind] in *.
  fold (completed_sel tz DEFAULT_LOADING_ACTIONS) in H. fold (completed_sel tz [a]). apply bind_ok in H as [l0 [H1 H2]]. injection H2 as <-.
  rewrite (collect_narrower tz a names l0 Ha H1). cbn [bind]. eexists. split; [reflexivity|].
  destruct (Hf (filter (fun i => action_eqb (i_action i) a) l0)) as [P _]. destruct (Hg l0) as [P' _].
  transitivity (filter (fun i => action_eqb (i_action i) a) l0).
  - destruct desc; [|now symmetry]. rewrite <- Permutation_rev. now symmetry.
  - now apply filter_perm.
Qed.
Lemma split_actions : forall (l : list instant),
  Permutation l (filter (fun i => action_eqb (i_action i) Commit) l ++ filter (fun i => action_eqb (i_action i) DeltaCommit) l
                 ++ filter (fun i => action_eqb (i_action i) ReplaceCommit) l)%list.
Proof.
  induction l as [|i l IH]; [constructor|]. cbn [filter]. destruct (i_action i); cbn [action_eqb app].
  - now constructor.
  - apply Permutation_cons_app. exact IH.
  - rewrite app_assoc. apply Permutation_cons_app. rewrite <- app_assoc. exact IH.
Qed.
Lemma split_timeline : forall f tz names l, sorts f -> new_timeline L f tz names = Ok l ->
  forall d1 d2 d3, exists lc ld lr, get_completed_commits L f tz names d1 = Ok lc /\ get_completed_deltacommits L f tz names d2 = Ok ld
    /\ get_completed_replacecommits L f tz names d3 = Ok lr /\ Permutation l (lc ++ ld ++ lr)%list.
Proof.
  intros f tz names l Hf H d1 d2 d3.
  destruct (listed_total f f tz names l Commit d1 Hf Hf H ltac:(cbn; tauto)) as [lc [H1 P1]].
  destruct (listed_total f f tz names l DeltaCommit d2 Hf Hf H ltac:(cbn; tauto)) as [ld [H2 P2]].
  destruct (listed_total f f tz names l ReplaceCommit d3 Hf Hf H ltac:(cbn; tauto)) as [lr [H3 P3]].
  exists lc, ld, lr. split; [exact H1|]. split; [exact H2|]. split; [exact H3|]. rewrite P1, P2, P3. apply split_actions.
Qed.

(** ** Clustering *)
Variable read : string -> outcome (list (string * json)).
Lemma as_str_some : forall v s, as_str v = Some s -> v = JStr s.
Proof. intros [| | |x| |] s H; cbn in H; try discriminate. now injection H as <-. Qed.
Lemma written_det : forall i a b, written_by read i a -> written_by read i b -> a = b.
Proof. intros i a b [md [H1 H2]] [md' [H3 H4]]. congruence. Qed.
Lemma clustering_iff : forall rs l, clustering_of read rs = Ok l <->
  (forall i, In i rs -> exists op, written_by read i op) /\ kept (fun i => written_by read i "cluster") rs l.
Proof.
  induction rs as [|i rs IH]; intros l.
  - cbn. split; [intros [= <-]; split; [intros ? []|constructor]|]. intros [_ H]. now inversion H.
  - cbn [clustering_of]. split.
    + intros H. apply bind_ok in H as [md [H1 H]]. apply bind_ok in H as [op [H2 H]]. apply bind_ok in H as [rest [H3 H]]. injection H as <-.
      apply ok_or_ok in H2. apply and_then_some in H2 as [v [H2 H4]]. apply as_str_some in H4. subst v.
      assert (W : written_by read i op) by (exists md; split; [exact H1|exact H2]).
      apply IH in H3 as [A B]. split; [intros j [ <- |Hj]; [eauto|auto]|]. destruct (String.eqb_spec op "cluster") as [ -> |N].
      * now apply kept_yes.
      * apply kept_no; [|assumption]. intros X. apply N. exact (written_det i _ _ W X).
    + intros [A B]. destruct (A i (or_introl eq_refl)) as [op [md [H1 H2]]]. unfold instant_metadata.
      change (instant_relative_path i) with (instant_file i). rewrite H1. cbn [bind]. rewrite H2. cbn [and_then as_str ok_or bind].
      assert (W : written_by read i op) by (exists md; auto). inversion B as [|? ? l' Hy K|? ? ? Hn K]; subst.
      * rewrite (proj2 (IH l') (conj (fun j Hj => A j (or_intror Hj)) K)). cbn [bind]. now rewrite (written_det i _ _ W Hy).
      * rewrite (proj2 (IH l) (conj (fun j Hj => A j (or_intror Hj)) K)). cbn [bind]. destruct (String.eqb_spec op "cluster"); [|reflexivity].
        subst op. now elim Hn.
Qed.

(** ** The Avro schema *)
Lemma avro_schema_iff : forall commits s, latest_avro_schema read commits = Ok s <->
  exists before i md, commits = (before ++ [i])%list /\ read (instant_file i) = Ok md /\ records_schema md s.
Proof.
  intros commits s. unfold latest_avro_schema, latest_commit_metadata. split.
  - intros H. apply bind_ok in H as [md [H1 H]]. apply ok_or_ok in H. apply and_then_some in H as [obj [H2 H]].
    apply and_then_some in H2 as [v [H2 H3]]. apply as_object_some in H3. subst v.
    apply and_then_some in H as [w [H3 H4]]. apply as_str_some in H4. subst w.
    destruct (last_opt commits) as [i|] eqn:E; [|injection H1 as <-; discriminate].
    assert (X : exists before, commits = (before ++ [i])%list).
    { clear - E. revert E. induction commits as [|x l IH]; [discriminate|]. intros E. destruct l as [|y l].
      - injection E as <-. now exists [].
      - destruct (IH E) as [before X]. exists (x :: before). cbn. now rewrite <- X. }
    destruct X as [before X]. exists before, i, md. split; [exact X|]. split; [exact H1|]. exists obj. auto.
  - intros [before [i [md [ -> [H1 [obj [H2 H3]]]]]]]. assert (E : last_opt (before ++ [i])%list = Some i) by (induction before as [|x [|y l] IHb]; [reflexivity|reflexivity|exact IHb]).
    rewrite E. unfold instant_metadata. change (instant_relative_path i) with (instant_file i). rewrite H1. cbn [bind]. rewrite H2. cbn [and_then as_object].
    rewrite H3. reflexivity.
Qed.
End M.
