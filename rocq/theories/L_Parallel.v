(** Proofs about the parallel listing machine. *)
From Verif Require Import Base Str M_FileGroup M_Builder M_Listing S_Listing.

Section P.
Variable V : Type.
Variable work : string -> outcome V.
Variable n : nat.
Notation step := (par_step work n).

Definition weight (s : par_state V) : nat :=
  match s with
  | Running pending inflight _ => 1 + 2 * List.length pending + List.length inflight
  | _ => 0
  end.
Lemma step_weight : forall s s', step s s' -> (weight s' < weight s)%nat.
Proof.
  intros s s' H. destruct H; cbn -[Nat.mul]; rewrite ?app_length; cbn -[Nat.mul]; lia.
Qed.
Lemma par_terminates : forall s, Acc (fun y x => step x y) s.
Proof.
  intros s. remember (weight s) as w eqn:E. assert (H : (weight s <= w)%nat) by lia. clear E. revert s H.
  induction w as [|w IH]; intros s H; constructor; intros y Hy; apply step_weight in Hy; [lia|]. apply IH. lia.
Qed.

Definition par_inv (paths : list string) (s : par_state V) : Prop :=
  match s with
  | Running pending inflight done =>
      Permutation paths (pending ++ inflight ++ map fst done)%list /\ forall p v, In (p, v) done -> work p = Ok v
  | Finished done => Permutation paths (map fst done) /\ forall p v, In (p, v) done -> work p = Ok v
  | Failed (Some e) => exists p, In p paths /\ work p = Err e
  | Failed None => exists p, In p paths /\ work p = Panic
  end.
Lemma step_inv : forall paths s s', step s s' -> par_inv paths s -> par_inv paths s'.
Proof.
  intros paths s s' H I. destruct H; cbn in I |- *.
  - destruct I as [P D]. split; [|assumption]. rewrite P. cbn.
    transitivity ((pending ++ [p]) ++ inflight ++ map fst done)%list.
    + change (p :: pending ++ inflight ++ map fst done)%list with ([p] ++ pending ++ inflight ++ map fst done)%list.
      rewrite app_assoc. apply Permutation_app_tail. apply Permutation_app_comm.
    + rewrite <- !app_assoc. apply Permutation_app_head. rewrite !app_assoc. apply Permutation_app_tail. apply Permutation_app_comm.
  - destruct I as [P D]. split.
    + rewrite P. rewrite <- !app_assoc. apply Permutation_app_head. apply Permutation_app_head. cbn. apply Permutation_middle.
    + intros q w [[= <- <-]|Hin]; auto.
  - destruct I as [P D]. exists p. split; [|assumption]. eapply Permutation_in; [symmetry; exact P|].
    apply in_app_iff. right. apply in_app_iff. left. apply in_app_iff. right. now left.
  - destruct I as [P D]. exists p. split; [|assumption]. eapply Permutation_in; [symmetry; exact P|].
    apply in_app_iff. right. apply in_app_iff. left. apply in_app_iff. right. now left.
  - exact I.
Qed.
Lemma star_inv : forall paths s s', star step s s' -> par_inv paths s -> par_inv paths s'.
Proof. intros paths s s' H. induction H; intros I; [assumption|]. apply IHstar. eapply step_inv; eauto. Qed.
Lemma init_inv : forall paths, par_inv paths (Running paths [] []).
Proof. intros. cbn. rewrite app_nil_r. split; [reflexivity|intros p v []]. Qed.

Definition final (s : par_state V) : Prop := match s with Running _ _ _ => False | _ => True end.
Lemma progress : (0 < n)%nat -> forall s, final s \/ exists s', step s s'.
Proof.
  intros Hn [pending inflight done|done|e]; [|now left|now left]. right.
  destruct inflight as [|p r].
  - destruct pending as [|p r]; [eexists; now constructor|]. eexists. constructor. cbn. lia.
  - destruct (work p) as [v|e|] eqn:E.
    + eexists. apply (ps_complete _ work n pending [] p r done _ E).
    + eexists. apply (ps_error _ work n pending [] p r done _ E).
    + eexists. apply (ps_panic _ work n pending [] p r done E).
Qed.

(** Every execution that cannot be continued has ended, with the answer the listings determine. *)
Lemma par_result : (0 < n)%nat -> forall paths s, star step (Running paths [] []) s -> (forall s', ~ step s s') ->
  ((forall p, In p paths -> exists v, work p = Ok v) ->
     exists done, s = Finished done /\ Permutation paths (map fst done) /\ forall p v, In (p, v) done -> work p = Ok v)
  /\ ((exists p, In p paths /\ forall v, work p <> Ok v) ->
     exists p, In p paths /\ ((exists e, work p = Err e /\ s = Failed (Some e)) \/ (work p = Panic /\ s = Failed None))).
Proof.
  intros Hn paths s H Stuck. assert (I := star_inv paths _ _ H (init_inv paths)).
  destruct (progress Hn s) as [F|[s' Hs]]; [|now elim (Stuck s')].
  destruct s as [? ? ?|done|[e|]]; cbn in I, F; [elim F| | |]; split.
  - intros _. exists done. destruct I. auto.
  - intros [p [Hp N]]. destruct I as [P D]. assert (Hin : In p (map fst done)) by (eapply Permutation_in; eauto).
    apply in_map_iff in Hin as [[q v] [<- Hin]]. apply D in Hin. now elim (N v).
  - intros A. destruct I as [p [Hp E]]. destruct (A p Hp) as [v Hv]. congruence.
  - intros _. destruct I as [p [Hp E]]. exists p. split; [assumption|]. left. eauto.
  - intros A. destruct I as [p [Hp E]]. destruct (A p Hp) as [v Hv]. congruence.
  - intros _. destruct I as [p [Hp E]]. exists p. split; [assumption|]. right. auto.
Qed.

Lemma par_runs : (0 < n)%nat -> forall s, exists s', star step s s' /\ final s'.
Proof.
  intros Hn s. induction (par_terminates s) as [s _ IH]. destruct (progress Hn s) as [F|[s' Hs]].
  - exists s. split; [constructor|assumption].
  - destruct (IH s' Hs) as [s'' [H F]]. exists s''. split; [econstructor; eauto|assumption].
Qed.
End P.

(** With parallelism 0 nothing ever happens. *)
Lemma par_zero_stuck : forall V (work : string -> outcome V) paths s, ~ par_step work 0 (Running paths [] []) s.
Proof.
  intros V work paths s H. inversion H; subst; try lia;
    match goal with E : (_ ++ _ :: _)%list = [] |- _ => destruct l1; discriminate E end.
Qed.

Lemma done_flat : forall V (work : string -> outcome V) (done : list (string * V)),
  (forall p v, In (p, v) done -> work p = Ok v) ->
  done = flat_map (fun p => match work p with Ok v => [(p, v)] | _ => [] end) (map fst done).
Proof.
  intros V work. induction done as [|[p v] done IH]; intros H; [reflexivity|]. cbn.
  rewrite (H p v (or_introl eq_refl)). cbn. f_equal. apply IH. intros; apply H; now right.
Qed.
Lemma par_same : forall V (work : string -> outcome V) n m paths d1 d2,
  star (par_step work n) (Running paths [] []) (Finished d1) ->
  star (par_step work m) (Running paths [] []) (Finished d2) -> Permutation d1 d2.
Proof.
  intros V work n m paths d1 d2 H1 H2.
  destruct (star_inv _ _ _ paths _ _ H1 (init_inv _ _ paths)) as [P1 D1].
  destruct (star_inv _ _ _ paths _ _ H2 (init_inv _ _ paths)) as [P2 D2].
  rewrite (done_flat _ work d1 D1), (done_flat _ work d2 D2). apply Permutation_flat_map. now rewrite <- P1.
Qed.
