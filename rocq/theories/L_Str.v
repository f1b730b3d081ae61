(** Lemmas about the string operations of [Str]. *)
From Verif Require Import Base Str.
Local Open Scope string_scope.

Lemma app_nil_r_s : forall s, s ++ "" = s.
Proof. induction s as [|c s IH]; cbn; [reflexivity | now rewrite IH]. Qed.

Lemma app_assoc_s : forall a b c : string, (a ++ b) ++ c = a ++ (b ++ c).
Proof. induction a as [|x a IH]; intros b c; cbn; [reflexivity | now rewrite IH]. Qed.

Lemma length_app_s : forall a b, String.length (a ++ b) = (String.length a + String.length b)%nat.
Proof. induction a as [|x a IH]; intros b; cbn; [reflexivity | now rewrite IH]. Qed.

Lemma app_inj_l : forall a b c : string, a ++ b = a ++ c -> b = c.
Proof. induction a as [|x a IH]; cbn; intros b c H; [exact H | injection H as H; auto]. Qed.

Lemma has_char_app : forall c a b, has_char c (a ++ b) = has_char c a || has_char c b.
Proof.
  induction a as [|x a IH]; intros b; cbn; [reflexivity|].
  rewrite IH. now rewrite orb_assoc.
Qed.

(** ** split_once *)
Lemma split_once_app : forall c a s,
  has_char c a = false -> split_once c (a ++ String c s) = Some (a, s).
Proof.
  induction a as [|x a IH]; intros s H; cbn in *.
  - now rewrite Ascii.eqb_refl.
  - apply orb_false_iff in H as [Hx Ha]. rewrite Hx, IH by assumption. reflexivity.
Qed.

Lemma split_once_some : forall c s a d,
  split_once c s = Some (a, d) -> s = a ++ String c d /\ has_char c a = false.
Proof.
  induction s as [|x s IH]; cbn; intros a d H; [discriminate|].
  destruct (Ascii.eqb x c) eqn:E.
  - injection H as <- <-. apply Ascii.eqb_eq in E. subst. split; reflexivity.
  - destruct (split_once c s) as [[a' d']|] eqn:Es; [|discriminate].
    injection H as <- <-. destruct (IH _ _ eq_refl) as [-> Hn].
    cbn. split; [reflexivity|]. now rewrite E, Hn.
Qed.

Lemma split_once_none : forall c s, split_once c s = None <-> has_char c s = false.
Proof.
  induction s as [|x s IH]; cbn; [tauto|].
  destruct (Ascii.eqb x c) eqn:E; cbn; [split; discriminate|].
  destruct (split_once c s) as [[a d]|]; rewrite <- IH; split; congruence.
Qed.

(** ** rsplit_once *)
Lemma rsplit_once_none : forall c s, rsplit_once c s = None <-> has_char c s = false.
Proof.
  induction s as [|x s IH]; cbn; [tauto|].
  destruct (rsplit_once c s) as [[a d]|].
  - split; [discriminate|]. intros H. apply orb_false_iff in H as [_ H].
    apply IH in H. discriminate.
  - destruct (Ascii.eqb x c); cbn; [split; discriminate|]. rewrite <- IH. tauto.
Qed.

Lemma rsplit_once_app : forall c a s,
  has_char c s = false -> rsplit_once c (a ++ String c s) = Some (a, s).
Proof.
  induction a as [|x a IH]; intros s H; cbn.
  - rewrite (proj2 (rsplit_once_none c s) H). now rewrite Ascii.eqb_refl.
  - rewrite IH by assumption. reflexivity.
Qed.

Lemma rsplit_once_some : forall c s a d,
  rsplit_once c s = Some (a, d) -> s = a ++ String c d /\ has_char c d = false.
Proof.
  induction s as [|x s IH]; cbn; intros a d H; [discriminate|].
  destruct (rsplit_once c s) as [[a' d']|] eqn:Es.
  - injection H as <- <-. destruct (IH _ _ eq_refl) as [-> Hn]. cbn. auto.
  - destruct (Ascii.eqb x c) eqn:E; [|discriminate].
    injection H as <- <-. apply Ascii.eqb_eq in E. subst.
    split; [reflexivity|]. now apply rsplit_once_none.
Qed.

(** ** split and join *)
Lemma split_not_nil : forall c s, split c s <> [].
Proof.
  induction s as [|x s IH]; cbn; [discriminate|].
  destruct (Ascii.eqb x c); [discriminate|]. destruct (split c s); discriminate.
Qed.

Lemma split_join : forall c s, join c (split c s) = s.
Proof.
  induction s as [|x s IH]; [reflexivity|].
  cbn [split]. destruct (Ascii.eqb x c) eqn:E.
  - apply Ascii.eqb_eq in E; subst.
    destruct (split c s) as [|p ps] eqn:Es; [now apply split_not_nil in Es|].
    cbn [join]. cbn [String.append]. f_equal. exact IH.
  - destruct (split c s) as [|p ps] eqn:Es; [now apply split_not_nil in Es|].
    destruct ps as [|q qs]; cbn [join String.append] in *; now rewrite <- IH.
Qed.

Lemma split_no_char : forall c s, Forall (fun p => has_char c p = false) (split c s).
Proof.
  induction s as [|x s IH]; cbn; [repeat constructor|].
  destruct (Ascii.eqb x c) eqn:E; [constructor; [reflexivity|exact IH]|].
  destruct (split c s) as [|p ps]; [constructor; [cbn; now rewrite E|constructor]|].
  inversion IH; subst. constructor; [cbn; now rewrite E|assumption].
Qed.

Lemma split_single : forall c s, has_char c s = false -> split c s = [s].
Proof.
  induction s as [|x s IH]; cbn; intros H; [reflexivity|].
  apply orb_false_iff in H as [Hx Hs]. rewrite Hx, IH by assumption. reflexivity.
Qed.

Lemma split_cons : forall c p s,
  has_char c p = false -> split c (p ++ String c s) = p :: split c s.
Proof.
  induction p as [|x p IH]; cbn; intros s H.
  - now rewrite Ascii.eqb_refl.
  - apply orb_false_iff in H as [Hx Hp]. rewrite Hx, IH by assumption. reflexivity.
Qed.

Lemma join_split : forall c l,
  l <> [] -> Forall (fun p => has_char c p = false) l -> split c (join c l) = l.
Proof.
  induction l as [|p l IH]; intros Hn Hf; [congruence|].
  inversion Hf as [|? ? Hp Hl]; subst.
  destruct l as [|q l]; cbn [join].
  - now apply split_single.
  - rewrite split_cons by assumption. f_equal. apply IH; [discriminate|assumption].
Qed.

Lemma join_cons2 : forall c p q l, join c (p :: q :: l) = p ++ String c (join c (q :: l)).
Proof. reflexivity. Qed.

(** ** take / drop / slices *)
Lemma take_app : forall a s, take (String.length a) (a ++ s) = a.
Proof. induction a as [|x a IH]; intros s; cbn; [destruct s; reflexivity | now rewrite IH]. Qed.

Lemma drop_app : forall a s, drop (String.length a) (a ++ s) = s.
Proof. induction a as [|x a IH]; intros s; cbn; auto. Qed.

Lemma take_drop : forall n s, take n s ++ drop n s = s.
Proof. induction n as [|n IH]; intros [|x s]; cbn; try reflexivity. now rewrite IH. Qed.

Lemma length_take : forall n s, (n <= String.length s)%nat -> String.length (take n s) = n.
Proof. induction n as [|n IH]; intros [|x s] H; cbn in *; try lia. rewrite IH; lia. Qed.

Lemma length_drop : forall n s, String.length (drop n s) = (String.length s - n)%nat.
Proof. induction n as [|n IH]; intros [|x s]; cbn; try lia. apply IH. Qed.

Lemma take_all : forall n s, (String.length s <= n)%nat -> take n s = s.
Proof. induction n as [|n IH]; intros [|x s] H; cbn in *; try reflexivity; try lia. rewrite IH; [reflexivity|lia]. Qed.

Lemma drop_all : forall n s, (String.length s <= n)%nat -> drop n s = "".
Proof. induction n as [|n IH]; intros [|x s] H; cbn in *; try reflexivity; try lia. apply IH; lia. Qed.

(** ** starts_with *)
Lemma starts_with_spec : forall p s, starts_with p s = true <-> exists r, s = p ++ r.
Proof.
  induction p as [|a p IH]; intros s; cbn.
  - split; [intros _; now exists s | auto].
  - destruct s as [|x s]; [split; [discriminate | intros [r H]; discriminate]|].
    rewrite andb_true_iff, IH, Ascii.eqb_eq.
    split.
    + intros [-> [r ->]]. now exists r.
    + intros [r H]. injection H as -> ->. split; [reflexivity | now exists r].
Qed.

Lemma rev_append_str_app : forall a b acc,
  rev_append_str (a ++ b) acc = rev_append_str b (rev_append_str a acc).
Proof. induction a as [|x a IH]; intros b acc; cbn; auto. Qed.

Lemma rev_append_str_acc : forall s acc, rev_append_str s acc = rev_append_str s "" ++ acc.
Proof.
  induction s as [|x s IH]; intros acc; cbn; [reflexivity|].
  rewrite IH. rewrite (IH (String x "")). rewrite app_assoc_s. reflexivity.
Qed.

Lemma rev_str_app : forall a b, rev_str (a ++ b) = rev_str b ++ rev_str a.
Proof. intros a b. unfold rev_str. rewrite rev_append_str_app. apply rev_append_str_acc. Qed.

Lemma rev_str_involutive : forall s, rev_str (rev_str s) = s.
Proof.
  induction s as [|x s IH]; [reflexivity|].
  change (String x s) with (String x "" ++ s).
  now rewrite !rev_str_app, IH.
Qed.

Lemma ends_with_spec : forall p s, ends_with p s = true <-> exists r, s = r ++ p.
Proof.
  intros p s. unfold ends_with. rewrite starts_with_spec. split; intros [r H].
  - exists (rev_str r). rewrite <- (rev_str_involutive s), H, rev_str_app, rev_str_involutive.
    reflexivity.
  - exists (rev_str r). now rewrite H, rev_str_app.
Qed.

(** ** Order *)
Lemma N_of_ascii_inj : forall a c, N_of_ascii a = N_of_ascii c -> a = c.
Proof.
  intros a c H. rewrite <- (ascii_N_embedding a), <- (ascii_N_embedding c). now rewrite H.
Qed.

Lemma scmp_refl : forall s, scmp s s = Eq.
Proof.
  unfold scmp. induction s as [|x s IH]; cbn; [reflexivity|].
  unfold Ascii.compare. now rewrite N.compare_refl.
Qed.

Lemma scmp_eq : forall a c, scmp a c = Eq <-> a = c.
Proof.
  intros a c. split; [|intros ->; apply scmp_refl].
  revert c. unfold scmp. induction a as [|x a IH]; intros [|y c]; cbn; try discriminate; [reflexivity|].
  unfold Ascii.compare. destruct (N.compare_spec (N_of_ascii x) (N_of_ascii y)) as [E|E|E]; try discriminate.
  intros H. apply N_of_ascii_inj in E. subst. f_equal. auto.
Qed.

Lemma scmp_antisym : forall a c, scmp c a = CompOpp (scmp a c).
Proof.
  unfold scmp. induction a as [|x a IH]; intros [|y c]; cbn; try reflexivity.
  unfold Ascii.compare. rewrite (N.compare_antisym (N_of_ascii x) (N_of_ascii y)).
  destruct (N.compare (N_of_ascii x) (N_of_ascii y)); cbn; auto.
Qed.

Lemma scmp_lt_trans : forall a c d, scmp a c = Lt -> scmp c d = Lt -> scmp a d = Lt.
Proof.
  unfold scmp. induction a as [|x a IH]; intros [|y c] [|z d]; cbn; try discriminate; try reflexivity.
  unfold Ascii.compare.
  destruct (N.compare_spec (N_of_ascii x) (N_of_ascii y)) as [E1|E1|E1]; try discriminate;
  destruct (N.compare_spec (N_of_ascii y) (N_of_ascii z)) as [E2|E2|E2]; try discriminate; intros H1 H2.
  - rewrite E1, E2, N.compare_refl. eauto.
  - rewrite E1. now rewrite (proj2 (N.compare_lt_iff _ _) E2).
  - rewrite <- E2. now rewrite (proj2 (N.compare_lt_iff _ _) E1).
  - now rewrite (proj2 (N.compare_lt_iff _ _) (N.lt_trans _ _ _ E1 E2)).
Qed.

Lemma scmp_gt_lt : forall a c, scmp a c = Gt <-> scmp c a = Lt.
Proof.
  intros a c. rewrite (scmp_antisym a c). destruct (scmp a c); cbn; split; congruence.
Qed.

Lemma slt_irrefl : forall a, ~ slt a a.
Proof. intros a H. unfold slt in H. rewrite scmp_refl in H. discriminate. Qed.

Lemma slt_trans : forall a c d, slt a c -> slt c d -> slt a d.
Proof. exact scmp_lt_trans. Qed.

Lemma sle_refl : forall a, sle a a.
Proof. intros a. unfold sle. rewrite scmp_refl. discriminate. Qed.

Lemma sle_lt_or_eq : forall a c, sle a c <-> slt a c \/ a = c.
Proof.
  intros a c. unfold sle, slt. rewrite <- (scmp_eq a c). destruct (scmp a c); intuition congruence.
Qed.

Lemma sle_trans : forall a c d, sle a c -> sle c d -> sle a d.
Proof.
  intros a c d. rewrite !sle_lt_or_eq. intros [H1| ->] [H2| ->]; auto.
  left. eapply slt_trans; eauto.
Qed.

Lemma slt_sle_trans : forall a c d, slt a c -> sle c d -> slt a d.
Proof. intros a c d H1 H2. apply sle_lt_or_eq in H2 as [H2| <-]; eauto using slt_trans. Qed.

Lemma sle_slt_trans : forall a c d, sle a c -> slt c d -> slt a d.
Proof. intros a c d H1 H2. apply sle_lt_or_eq in H1 as [H1| ->]; eauto using slt_trans. Qed.

Lemma sle_antisym : forall a c, sle a c -> sle c a -> a = c.
Proof.
  intros a c H1 H2. apply sle_lt_or_eq in H1 as [H1|H1]; [|assumption].
  exfalso. apply H2. apply scmp_gt_lt. exact H1.
Qed.

Lemma not_sle_slt : forall a c, ~ sle a c <-> slt c a.
Proof.
  intros a c. unfold sle, slt. rewrite <- scmp_gt_lt.
  destruct (scmp a c); split; intros H; try discriminate; try (exfalso; apply H; discriminate); auto.
Qed.

Lemma sle_total : forall a c, sle a c \/ sle c a.
Proof.
  intros a c. unfold sle. rewrite (scmp_antisym a c). destruct (scmp a c); cbn; intuition congruence.
Qed.

Lemma slt_not_sle : forall a c, slt a c <-> ~ sle c a.
Proof. intros a c. symmetry. apply not_sle_slt. Qed.

Lemma slt_sle : forall a c, slt a c -> sle a c.
Proof. intros a c H. apply sle_lt_or_eq. auto. Qed.

Lemma sltb_spec : forall a c, sltb a c = true <-> slt a c.
Proof. intros a c. unfold sltb, slt. destruct (scmp a c); split; congruence. Qed.

Lemma sleb_spec : forall a c, sleb a c = true <-> sle a c.
Proof. intros a c. unfold sleb, sle. destruct (scmp a c); split; congruence. Qed.

Lemma sleb_false : forall a c, sleb a c = false <-> slt c a.
Proof.
  intros a c. rewrite slt_not_sle, <- sleb_spec. destruct (sleb a c); split; congruence.
Qed.

Lemma string_eqb_eq : forall a c, String.eqb a c = true <-> a = c.
Proof. apply String.eqb_eq. Qed.
