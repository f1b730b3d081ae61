(** Lemmas for C89. *)
From Coq Require Import Sorted.
From Verif Require L_Scan.
From Verif Require Import Base Str M_Time M_Instant M_Timeline M_FileGroup M_Builder M_Table M_Objects
  S_Time S_Timeline S_Builder S_Storage S_Objects S_Json S_Whole S_Changes S_Follow S_Bases S_Crash
  L_Base L_Str L_Time L_Timeline L_Objects L_Whole L_WholeChanges L_Follow.
Local Open Scope string_scope.

(** A pending name is not that of a completed action. *)
Lemma pending_not : forall name ts a dot, pending_name name -> In dot [""; "."] -> name = ts ++ "." ++ action_str a ++ dot -> False.
Proof.
  intros name ts a dot [r P] D E.
  assert (X : ends_with ".requested" name = false /\ ends_with ".inflight" name = false).
  { subst name. unfold ends_with. rewrite !rev_str_app. destruct D as [ <- |[ <- |[]]]; destruct a; split; reflexivity. }
  destruct X as [X Y]. destruct P as [P|P]; [rewrite (proj2 (ends_with_spec ".requested" name)) in X by eauto; discriminate X|rewrite (proj2 (ends_with_spec ".inflight" name)) in Y by eauto; discriminate Y].
Qed.
Lemma object_dec : forall x y : object, {x = y} + {x <> y}.
Proof. decide equality; apply string_dec. Qed.

Section Crash.
Variable objs objs' : list object.
Variable names : list string.
Variable partitioned : bool.
Variable t : string.
Hypothesis UF : unfinished objs objs' names partitioned t.
Variable L : ndt -> option ndt.

Lemma unfinished_later : forall format tz time, only_later objs objs' names format partitioned L tz t time.
Proof.
  intros format tz time. destruct UF as [K P B T]. constructor; [exact K|exact P|exact B|]. intros ts o dt F N D _. exfalso.
  apply (pending_not _ ts ReplaceCommit "" (T _ _ F N)); [now left|]. reflexivity.
Qed.
(** The completed actions are the same. *)
Lemma file_back : forall name o i tz actions, file_in objs' names [".hoodie"] name o -> denotes_completed L tz actions name i -> file_in objs names [".hoodie"] name o.
Proof.
  intros name o i tz actions F [ts [a [dt [D [N _]]]]]. destruct (in_dec object_dec o objs) as [I|I]; [split; [exact I|apply F]|]. exfalso.
  pose proof (uf_timeline _ _ _ _ _ UF _ _ F I) as Pn. destruct N as [N|N].
  - apply (pending_not _ ts a "" Pn); [now left|]. now rewrite app_nil_r_s.
  - apply (pending_not _ ts a "." Pn); [right; now left|exact N].
Qed.
Lemma instants_same : forall tz listed l0 commits listed' l0' commits',
  directory_listing objs names [".hoodie"] listed -> denoted_instants (denotes_completed L tz [Commit; DeltaCommit; ReplaceCommit]) (map fm_name listed) l0 -> Permutation l0 commits ->
  directory_listing objs' names [".hoodie"] listed' -> denoted_instants (denotes_completed L tz [Commit; DeltaCommit; ReplaceCommit]) (map fm_name listed') l0' -> Permutation l0' commits' ->
  forall i, In i commits <-> In i commits'.
Proof.
  intros tz listed l0 commits listed' l0' commits' DL DN PM DL' DN' PM' i.
  assert (X : forall ob li l c, directory_listing ob names [".hoodie"] li -> denoted_instants (denotes_completed L tz [Commit; DeltaCommit; ReplaceCommit]) (map fm_name li) l -> Permutation l c ->
    In i c <-> exists name o, file_in ob names [".hoodie"] name o /\ denotes_completed L tz [Commit; DeltaCommit; ReplaceCommit] name i).
  { intros ob li l c [_ D] N P. split.
    - intros I. apply (Permutation_in _ (Permutation_sym P)) in I. destruct (denoted_in _ _ _ N _ I) as [n [J H]]. apply in_map_iff in J as [m [ <- J]]. apply D in J as [n [o [F ->]]]. exists n, o. auto.
    - intros [n [o [F H]]]. apply (Permutation_in _ P). apply (denoted_all _ _ _ (denotes_one L tz _) N n i); [|exact H]. apply in_map_iff. exists (new_meta n (o_size o)). split; [reflexivity|]. apply D. eauto. }
  rewrite (X _ _ _ _ DL DN PM), (X _ _ _ _ DL' DN' PM'). split.
  - intros [n [o [[I H] Dn]]]. exists n, o. split; [split; [now apply (uf_kept _ _ _ _ _ UF)|exact H]|exact Dn].
  - intros [n [o [F Dn]]]. exists n, o. split; [exact (file_back n o i tz _ F Dn)|exact Dn].
Qed.
End Crash.

(** The last commits of two sorted lists of the same instants have the same time, if times tell instants apart. *)
Lemma same_latest : forall l l', StronglySorted instant_le l -> StronglySorted instant_le l' -> (forall i, In i l <-> In i l') ->
  (forall i j, In i l -> In j l -> i_epoch i = i_epoch j -> i_timestamp i = i_timestamp j) -> latest_commit_timestamp l = latest_commit_timestamp l'.
Proof.
  intros l l' S S' E U. unfold latest_commit_timestamp. destruct (last_opt l) as [i|] eqn:A, (last_opt l') as [j|] eqn:B; cbn [option_map].
  - destruct (last_opt_sorted l i S A) as [I M]. destruct (last_opt_sorted l' j S' B) as [J M']. f_equal. apply U; [exact I|now apply E|]. apply Z.le_antisymm; [apply M', E, I|apply M, E, J].
  - apply last_opt_none in B. subst l'. destruct (last_opt_sorted l i S A) as [I _]. now apply E in I.
  - apply last_opt_none in A. subst l. destruct (last_opt_sorted l' j S' B) as [J _]. now apply E in J.
  - reflexivity.
Qed.
(** two answers, of the same file groups *)
Lemma paired : forall {A B} (R R' : A -> B -> Prop) gs gs' bs bs', NoDup gs -> NoDup gs' -> (forall g, In g gs <-> In g gs') ->
  Forall2 R gs bs -> Forall2 R' gs' bs' -> (forall g x y, In g gs -> R g x -> R' g y -> x = y) -> Permutation bs bs'.
Proof.
  intros A B R R' gs gs' bs bs' N N' E F F' U. assert (P : Permutation gs gs') by (apply NoDup_Permutation; assumption). clear N N' E.
  assert (exists bs2, Forall2 R gs' bs2 /\ Permutation bs bs2) as [bs2 [F2 P2]].
  { clear F' U bs'. revert bs F. induction P as [|x l l' P IH|x y l|l l' l'' P IH P' IH']; intros bs F.
    - inversion F. subst. exists []. split; constructor.
    - inversion F as [|? b ? bs0 H F0]. subst. destruct (IH _ F0) as [b2 [F2 Q]]. exists (b :: b2). split; constructor; assumption.
    - inversion F as [|? b ? bs0 H F0]. subst. inversion F0 as [|? b' ? bs1 H' F1]. subst. exists (b' :: b :: bs1). split; [constructor; [assumption|constructor; assumption]|apply perm_swap].
    - destruct (IH _ F) as [b1 [F1 Q1]]. destruct (IH' _ F1) as [b2 [F2 Q2]]. exists b2. split; [exact F2|now transitivity b1]. }
  enough (bs2 = bs') by (now subst). assert (U' : forall g x y, In g gs' -> R g x -> R' g y -> x = y) by (intros g x y I; apply U; now apply (Permutation_in _ (Permutation_sym P))).
  clear - F2 F' U'. revert bs' F'. induction F2 as [|g x gs bs H F IH]; intros bs' F'; inversion F'; subst; [reflexivity|]. f_equal; [eapply U'; [now left|exact H|assumption]|]. apply IH; [intros; eapply U'; [right; eassumption|eassumption|assumption]|assumption].
Qed.

(** The newest base files at [t] are the same. *)
Lemma newest_same : forall objs objs' names partitioned t format g c o, unfinished objs objs' names partitioned t ->
  newest_base objs' names format partitioned g t c o <-> newest_base objs names format partitioned g t c o.
Proof.
  intros objs objs' names pt t format g c o UF. pose proof UF as [K P B _].
  assert (UP : forall c o, base_object objs names format pt g c o -> base_object objs' names format pt g c o).
  { intros c0 o0 [dir [n [b [OP [[I H] X]]]]]. exists dir, n, b. split; [now apply P|]. split; [split; [now apply K|exact H]|exact X]. }
  assert (DN : forall c o, sle c t -> base_object objs' names format pt g c o -> base_object objs names format pt g c o).
  { intros c0 o0 Le [dir [n [b [OP [FI [M [N [BO [E1 E2]]]]]]]]]. pose proof FI as [I H].
    assert (J : In o0 objs). { destruct (in_dec object_dec o0 objs) as [J|J]; [exact J|]. exfalso. pose proof (B dir n o0 b (proj1 OP) FI J BO) as Lt. rewrite E2 in Lt. apply slt_not_sle in Lt. now apply Lt. }
    assert (FI' : file_in objs names dir n o0) by (split; [exact J|exact H]). exists dir, n, b. split; [|auto 10].
    destruct OP as [FD [EP PT]]. split; [exact FD|]. split; [exact EP|]. destruct pt; [|exact PT].
    destruct PT as [top [rest [Q1 [Q2 [Q3 [Q4 [Q5 [_ Q7]]]]]]]]. assert (dir = (top :: rest)%list).
    { apply L_Scan.join_inj; [eapply Forall_impl; [|exact FD]; intros z [X [Y _]]; auto|eapply Forall_impl; [|exact Q2]; intros z [X [Y _]]; auto|congruence]. }
    subst dir. exists top, rest. split; [exact EP|]. do 4 (split; [assumption|]). split; [now exists n, o0|]. intros below o' F I' E'. apply (Q7 below o' F); [now apply K|exact E']. }
  split; intros [BO [Le NW]]; (split; [auto|split; [exact Le|]]); intros c' o' BO' Le'; apply (NW c' o'); auto.
Qed.
