(** Proofs about outcomes and lists. *)
From Verif Require Import Base.

Lemma foldM_app : forall A S (f : S -> A -> outcome S) l1 l2 s,
  foldM f s (l1 ++ l2) = let* s' := foldM f s l1 in foldM f s' l2.
Proof.
  intros A S f. induction l1 as [|x l1 IH]; intros l2 s; [reflexivity|]. cbn.
  destruct (f s x); cbn; [apply IH|reflexivity|reflexivity].
Qed.

Lemma ok_or_ok : forall A (o : option A) e a, ok_or o e = Ok a -> o = Some a.
Proof. intros A [x|] e a H; cbn in H; congruence. Qed.
Lemma bind_ok : forall A B (o : outcome A) (f : A -> outcome B) r, bind o f = Ok r -> exists a, o = Ok a /\ f a = Ok r.
Proof. intros A B [a|e|] f r H; cbn in H; try discriminate. eauto. Qed.

Lemma mapM_ok : forall A B (f : A -> outcome B) l r, mapM f l = Ok r <-> Forall2 (fun x y => f x = Ok y) l r.
Proof.
  intros A B f. induction l as [|x l IH]; intros r; cbn [mapM].
  - split; [intros [= <-]; constructor|intros H; now inversion H].
  - split.
    + intros H. apply bind_ok in H as [y [Hy H]]. apply bind_ok in H as [ys [Hys H]]. injection H as <-.
      constructor; [assumption|]. now apply IH.
    + intros H. inversion H as [|? y ? ys Hy Hys]; subst. rewrite Hy. cbn. apply IH in Hys. rewrite Hys. reflexivity.
Qed.
Lemma mapM_succeeds : forall A B (f : A -> outcome B) l, (forall x, In x l -> exists y, f x = Ok y) -> exists r, mapM f l = Ok r.
Proof.
  intros A B f. induction l as [|x l IH]; intros H; [now exists []|]. cbn.
  destruct (H x (or_introl eq_refl)) as [y ->]. destruct IH as [ys ->]; [intros z Hz; apply H; now right|]. cbn. eauto.
Qed.
Lemma Forall2_in_l : forall A B (R : A -> B -> Prop) l r x, Forall2 R l r -> In x l -> exists y, In y r /\ R x y.
Proof.
  intros A B R l r x F. induction F as [|a b l r H F IH]; intros Hx; [elim Hx|]. destruct Hx as [ -> |Hx].
  - exists b. split; [now left|assumption].
  - destruct (IH Hx) as [y [Y1 Y2]]. exists y. split; [now right|assumption].
Qed.
Lemma Forall2_in_r : forall A B (R : A -> B -> Prop) l r y, Forall2 R l r -> In y r -> exists x, In x l /\ R x y.
Proof.
  intros A B R l r y F. induction F as [|a b l r H F IH]; intros Hx; [elim Hx|]. destruct Hx as [ -> |Hx].
  - exists a. split; [now left|assumption].
  - destruct (IH Hx) as [x [Y1 Y2]]. exists x. split; [now right|assumption].
Qed.

Lemma mapM_app : forall A B (f : A -> outcome B) l1 l2,
  mapM f (l1 ++ l2)%list = let* a := mapM f l1 in let* b := mapM f l2 in Ok (a ++ b)%list.
Proof.
  intros A B f. induction l1 as [|x l1 IH]; intros l2; cbn [mapM app]; [cbn; now destruct (mapM f l2)|].
  rewrite IH. destruct (f x); cbn; [|reflexivity|reflexivity]. destruct (mapM f l1); cbn; [|reflexivity|reflexivity].
  now destruct (mapM f l2).
Qed.

Lemma Forall2_len : forall {A B} (R : A -> B -> Prop) l m, Forall2 R l m -> List.length l = List.length m.
Proof. intros A B R l m H. induction H; cbn; congruence. Qed.
