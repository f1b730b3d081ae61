(** Lemmas for C93: clustering and overwriting. *)
From Verif Require Import Base Str M_Time M_FileGroup M_Reader S_Time S_FileGroup S_Reader S_History S_Whole S_Replace L_Base L_Str L_Time.
Local Open Scope string_scope.

(** Moving records changes nothing. *)
Lemma moved_same : forall k p s of0 of1 hist t0 t1 out, only_moved k p s of0 of1 hist t0 t1 -> table_at k p s of0 hist t0 out -> table_at k p s of1 hist t1 out.
Proof.
  intros k p s of0 of1 hist t0 t1 out [NN NL] [ND [AL CU]]. split; [exact ND|]. split.
  - intros g x r G V L. destruct (NN x r) as [g' [G' [V' L']]]; [exists g; auto|]. exact (AL g' x r G' V' L').
  - intros r I. destruct (CU r I) as [[g [x [G [V L]]]] NW]. split.
    + destruct (NL x r) as [x' [g' H]]; [exists g; auto| |exists g', x'; exact H]. intros x' r' [g' [G' [V' L']]]. exact (NW g' x' r' G' V' L').
    + intros g' x' r' G' V' L'. destruct (NN x' r') as [g1 [G1 [V1 L1]]]; [exists g'; auto|]. exact (NW g1 x' r' G1 V1 L1).
Qed.

(** The records of two parts of a table. *)
Lemma once_left : forall (A : Type) (a b : list A), NoDup (a ++ b) -> NoDup a.
Proof. intros A a. induction a as [|x a IH]; intros b N; [constructor|]. inversion N as [|? ? H M]; subst. constructor; [intros I; apply H, in_or_app; now left|exact (IH b M)]. Qed.
Lemma once_right : forall (A : Type) (a b : list A), NoDup (a ++ b) -> NoDup b.
Proof. intros A a. induction a as [|x a IH]; intros b N; [exact N|]. inversion N as [|? ? H M]; subst. exact (IH b M). Qed.
Lemma split_rows : forall (A : Type) (Q : A -> string * string -> Prop) (inside : string * string -> bool) out, (forall r, In r out -> exists g, Q r g) ->
  exists a b, Permutation out (a ++ b) /\ (forall r, In r a -> exists g, Q r g /\ inside g = true) /\ forall r, In r b -> exists g, Q r g /\ inside g = false.
Proof.
  intros A Q inside out. induction out as [|r out IH]; intros H.
  - exists [], []. split; [constructor|]. split; intros r [].
  - destruct IH as [a [b [P [Ha Hb]]]]; [intros r' I; apply H; now right|]. destruct (H r (or_introl eq_refl)) as [g G]. destruct (inside g) eqn:E.
    + exists (r :: a), b. split; [now constructor|]. split; [|exact Hb]. intros r' [ <- |I]; eauto.
    + exists a, (r :: b). split; [now apply Permutation_cons_app|]. split; [exact Ha|]. intros r' [ <- |I]; eauto.
Qed.
Lemma part_rows : forall k p s of hist t inside b out rows, keys_apart k of hist -> table_at k p s of hist t out -> incl rows out -> NoDup (map (key_at k) rows) ->
  (forall r, In r rows -> exists g, (exists x, of g /\ In (x, r) (g_versions (hist g)) /\ sle x t) /\ inside g = b) ->
  (forall r, In r out -> ~ In r rows -> exists g, (exists x, of g /\ In (x, r) (g_versions (hist g)) /\ sle x t) /\ inside g = negb b) ->
(forall r, In r out -> In r rows \/ ~ In r rows) ->
  table_at k p s (part inside of b) hist t rows.
Proof.
  intros k p s of hist t inside b out rows KA [ND [AL CU]] IN NR RB RN DE. split; [exact NR|]. split.
  - intros g x r [G B] V L. destruct (AL g x r G V L) as [r' [I K]]. exists r'. split; [|exact K]. destruct (DE r' I) as [J|J]; [exact J|exfalso].
    destruct (RN r' I J) as [g' [[x' [G' [V' _]]] B']]. rewrite (KA g g' x x' r r' G G' V V' (eq_sym K)) in B. rewrite B in B'. destruct b; discriminate B'.
  - intros r I. split.
    + destruct (RB r I) as [g [[x [G [V L]]] B]]. exists g, x. split; [split; assumption|auto].
    + intros g x r' [G B]. apply (CU r (IN r I)). exact G.
Qed.
Lemma parts : forall k p s of hist t inside out, keys_apart k of hist -> table_at k p s of hist t out ->
  exists a b, Permutation out (a ++ b) /\ table_at k p s (part inside of true) hist t a /\ table_at k p s (part inside of false) hist t b.
Proof.
  intros k p s of hist t inside out KA TA. pose proof TA as [ND [AL CU]].
  destruct (split_rows _ (fun r g => exists x, of g /\ In (x, r) (g_versions (hist g)) /\ sle x t) inside out) as [a [b [P [Ha Hb]]]].
  { intros r I. destruct (CU r I) as [[g [x H]] _]. exists g, x. exact H. }
  assert (PM : Permutation (map (key_at k) out) (map (key_at k) a ++ map (key_at k) b)) by (rewrite <- map_app; now apply Permutation_map).
  pose proof (Permutation_NoDup PM ND) as N. exists a, b. split; [exact P|].
  assert (Na : NoDup (map (key_at k) a) /\ NoDup (map (key_at k) b) /\ forall r, In r a -> ~ In r b).
  { split; [exact (once_left _ _ _ N)|]. split; [exact (once_right _ _ _ N)|]. intros r I J. apply in_split in I as [x [y ->]]. rewrite map_app in N. cbn [map] in N. rewrite <- app_assoc in N.
    apply NoDup_remove_2 in N. apply N. apply in_or_app. right. apply in_or_app. right. now apply in_map. }
  destruct Na as [Na [Nb D]].
  assert (E : forall r, In r out <-> In r a \/ In r b) by (intros r; rewrite <- in_app_iff; split; apply Permutation_in; [exact P|now apply Permutation_sym]).
  split.
  - apply part_rows with (out := out); try assumption; try (intros r I; apply E; now left).
    + intros r I J. apply E in I as [I|I]; [now elim J|]. exact (Hb r I).
    + intros r I. apply E in I as [I|I]; [now left|right]. intros J. exact (D r J I).
  - apply part_rows with (out := out); try assumption; try (intros r I; apply E; now right).
    + intros r I J. apply E in I as [I|I]; [exact (Ha r I)|now elim J].
    + intros r I. apply E in I as [I|I]; [right|now left]. exact (D r I).
Qed.
Lemma outside_same : forall k p s of0 of1 hist t0 t1 inside out, part_replaced of0 of1 hist t0 t1 inside -> sle t0 t1 ->
  table_at k p s (part inside of0 false) hist t0 out -> table_at k p s (part inside of1 false) hist t1 out.
Proof.
  intros k p s of0 of1 hist t0 t1 inside out [GO SA ST] L [ND [AL CU]]. split; [exact ND|]. split.
  - intros g x r [G B] V Lx. apply (AL g x r); [split; [now apply SA|exact B]|exact V|exact (ST g x r B G V Lx)].
  - intros r I. destruct (CU r I) as [[g [x [[G B] [V Lx]]]] NW]. split.
    + exists g, x. split; [split; [now apply SA|exact B]|]. split; [exact V|exact (sle_trans _ _ _ Lx L)].
    + intros g' x' r' [G' B'] V' Lx' K. apply (NW g' x' r'); [split; [now apply SA|exact B']|exact V'|exact (ST g' x' r' B' G' V' Lx')|exact K].
Qed.
