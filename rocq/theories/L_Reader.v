(** Proofs about merging record batches and reading file slices. *)
From Coq Require Import Sorted.
From Verif Require Import Base Str L_Base L_Str M_Time S_Time L_Time M_Timeline S_Timeline L_Timeline M_FileGroup M_Expr M_Log S_Log L_Log M_Config L_Config M_Reader S_Reader.
Local Open Scope string_scope.

(** ** Order of cells *)
Lemma zcmp_opp : forall a b, Z.compare b a = CompOpp (Z.compare a b).
Proof. intros a b. apply Z.compare_antisym. Qed.
Lemma cell_cmp_opp : forall a b, cell_cmp b a = CompOpp (cell_cmp a b).
Proof. intros [|x|x|x|x|n x] [|y|y|y|y|m y]; cbn [cell_cmp]; try apply zcmp_opp; apply scmp_antisym. Qed.
Lemma zcmp_trans : forall a b c, Z.compare a b <> Gt -> Z.compare b c <> Gt -> Z.compare a c <> Gt.
Proof. intros a b c H1 H2. apply (Z.le_trans a b c); assumption. Qed.
Lemma scmp_trans' : forall a b c, scmp a b <> Gt -> scmp b c <> Gt -> scmp a c <> Gt.
Proof.
  intros a b c H1 H2. pose proof (sle_trans a b c) as T. unfold sle in T. auto.
Qed.
Lemma cell_cmp_trans : forall a b c, cell_cmp a b <> Gt -> cell_cmp b c <> Gt -> cell_cmp a c <> Gt.
Proof.
  intros [|x|x|x|x|n x] [|y|y|y|y|m y] [|z|z|z|z|k z]; cbn [cell_cmp]; intros H1 H2;
    first [ exact (zcmp_trans _ _ _ H1 H2) | exact (scmp_trans' _ _ _ H1 H2)
          | exfalso; now apply H1 | exfalso; now apply H2 | discriminate ].
Qed.
Lemma row_cmp_opp : forall a b, row_cmp b a = CompOpp (row_cmp a b).
Proof. intros [a1 a2] [b1 b2]. unfold row_cmp. cbn [fst snd]. rewrite (cell_cmp_opp a1 b1). destruct (cell_cmp a1 b1); cbn; auto. apply cell_cmp_opp. Qed.
Lemma cell_cmp_eq_trans : forall a b c, cell_cmp a b = Eq -> cell_cmp a c = cell_cmp b c.
Proof.
  intros a b c E. pose proof (cell_cmp_opp a b) as O. rewrite E in O. cbn in O.
  assert (H1 : cell_cmp a c <> Gt <-> cell_cmp b c <> Gt) by (split; intros H; [apply (cell_cmp_trans b a c)|apply (cell_cmp_trans a b c)]; congruence).
  assert (H2 : cell_cmp c a <> Gt <-> cell_cmp c b <> Gt) by (split; intros H; [apply (cell_cmp_trans c a b)|apply (cell_cmp_trans c b a)]; congruence).
  rewrite (cell_cmp_opp a c), (cell_cmp_opp b c) in H2. destruct (cell_cmp a c), (cell_cmp b c); cbn in *; try reflexivity; exfalso; intuition congruence.
Qed.
Lemma row_cmp_trans : forall a b c, row_cmp a b <> Gt -> row_cmp b c <> Gt -> row_cmp a c <> Gt.
Proof.
  intros [a1 a2] [b1 b2] [c1 c2]. unfold row_cmp. cbn [fst snd]. intros H1 H2.
  destruct (cell_cmp a1 b1) eqn:E1; [| |now elim H1].
  - rewrite (cell_cmp_eq_trans _ _ c1 E1). destruct (cell_cmp b1 c1); [now apply (cell_cmp_trans a2 b2 c2)|discriminate|contradiction].
  - destruct (cell_cmp b1 c1) eqn:E2; [| |now elim H2].
    + assert (cell_cmp a1 c1 = Lt) as ->; [|discriminate]. rewrite (cell_cmp_opp c1 a1). pose proof (cell_cmp_opp b1 c1) as O. rewrite E2 in O. rewrite (cell_cmp_eq_trans _ _ a1 O), (cell_cmp_opp a1 b1), E1. reflexivity.
    + destruct (cell_cmp a1 c1) eqn:E3; [| discriminate |].
      * exfalso. rewrite (cell_cmp_eq_trans _ _ b1 E3) in E1. rewrite (cell_cmp_opp b1 c1), E2 in E1. discriminate.
      * exfalso. assert (cell_cmp a1 c1 <> Gt); [|contradiction]. apply (cell_cmp_trans a1 b1 c1); congruence.
Qed.
Lemma desc_total : total_order (fun x y : nat * (cell * cell) => row_cmp (snd y) (snd x)).
Proof. split; [intros x y; apply row_cmp_opp|]. intros x y z H1 H2. exact (row_cmp_trans _ _ _ H2 H1). Qed.

Lemma cell_lt_cmp : forall t a b, has_type a t -> has_type b t -> (cell_lt a b <-> cell_cmp a b = Lt).
Proof.
  intros t a b Ha Hb. split.
  - intros H. destruct H as [c N| | | | |]; cbn [cell_cmp]; try assumption; try reflexivity. destruct c; try reflexivity. now elim N.
  - destruct a as [|x|x|x|x|n x], b as [|y|y|y|y|m y]; destruct t; try contradiction; cbn [cell_cmp]; intros H; try discriminate; try (constructor; (discriminate || assumption)).
    all: try (cbn in Ha, Hb; subst; now constructor). all: destruct x, y; try discriminate; constructor.
Qed.
Lemma cell_eq_cmp : forall t a b, has_type a t -> has_type b t -> (a = b <-> cell_cmp a b = Eq).
Proof.
  intros t a b Ha Hb. split.
  - intros <-. destruct a; cbn [cell_cmp]; try apply Z.compare_refl; apply scmp_refl.
  - destruct a as [|x|x|x|x|n x], b as [|y|y|y|y|m y]; destruct t; try contradiction; cbn [cell_cmp]; intros H; try discriminate; try reflexivity; try (apply Z.compare_eq in H; congruence).
    all: try (apply scmp_eq in H; congruence). all: try (apply Z.compare_eq in H; cbn in Ha, Hb; congruence). all: destruct x, y; try discriminate; reflexivity.
Qed.
Definition order_of (p s : nat) (r : list cell) : cell * cell := (cell_of p r, cell_of s r).
Lemma wf_row_type : forall sch row, wf_row sch row -> forall i f, nth_error sch i = Some f -> has_type (nth i row Null) (f_type f).
Proof.
  intros sch row H. induction H as [|f0 c sch row [T _] _ IH]; intros i f E; [now destruct i|]. destruct i as [|i]; cbn in *; [injection E as <-; exact T|now apply IH].
Qed.
Lemma column_ex : forall sch name i, column_at sch name i -> exists f, nth_error sch i = Some f.
Proof. intros sch name i [[f [E _]] _]. eauto. Qed.
Lemma newer_cmp : forall sch pn sn p s a b, column_at sch pn p -> column_at sch sn s -> wf_row sch a -> wf_row sch b ->
  (newer p s a b <-> row_cmp (order_of p s b) (order_of p s a) = Lt).
Proof.
  intros sch pn sn p s a b P S A B. apply column_ex in P as [fp P]. apply column_ex in S as [fs S].
  pose proof (wf_row_type _ _ A _ _ P) as TAp. pose proof (wf_row_type _ _ B _ _ P) as TBp. pose proof (wf_row_type _ _ A _ _ S) as TAs. pose proof (wf_row_type _ _ B _ _ S) as TBs.
  unfold newer, row_cmp, order_of, cell_of. cbn [fst snd]. rewrite (cell_lt_cmp _ _ _ TBp TAp), (cell_eq_cmp _ _ _ TBp TAp), (cell_lt_cmp _ _ _ TBs TAs).
  destruct (cell_cmp (nth p b Null) (nth p a Null)); intuition discriminate.
Qed.

(** ** Concatenation *)
Lemma index_of_at : forall sch name i, column_at sch name i -> index_of sch name = Ok i.
Proof.
  induction sch as [|f sch IH]; intros name i [[g [E N]] H]; [now destruct i|]. cbn [index_of]. destruct i as [|i]; cbn in E.
  - injection E as ->. subst name. now rewrite String.eqb_refl.
  - destruct (String.eqb_spec (f_name f) name) as [Q|_]; [elim (H 0%nat f); [lia|reflexivity|exact Q]|].
    rewrite (IH name i); [reflexivity|]. split; [eauto|]. intros j h L Ej. apply (H (S j) h); [lia|exact Ej].
Qed.
Lemma index_of_inv : forall sch name i, index_of sch name = Ok i -> column_at sch name i.
Proof.
  induction sch as [|f sch IH]; intros name i H; [discriminate|]. cbn [index_of] in H. destruct (String.eqb_spec (f_name f) name) as [Q|Q].
  - injection H as <-. split; [exists f; split; [reflexivity|exact Q]|]. intros j g L. lia.
  - apply bind_ok in H as [j [E H]]. injection H as <-. destruct (IH _ _ E) as [[g [G N]] W]. split; [exists g; split; [exact G|exact N]|].
    intros [|i'] h L Eh; cbn in Eh; [injection Eh as <-; exact Q|]. apply (W i'); [lia|exact Eh].
Qed.
Lemma ctype_eqb_refl : forall t, ctype_eqb t t = true.
Proof. intros []; cbn; try reflexivity. apply Nat.eqb_refl. Qed.
Lemma mapM_const : forall A B (f : A -> outcome B) l c, (forall x, In x l -> f x = Ok c) -> mapM f l = Ok (map (fun _ => c) l).
Proof. intros A B f l c H. induction l as [|x l IH]; [reflexivity|]. cbn. rewrite H by now left. cbn. rewrite IH; [reflexivity|]. intros y I. apply H. now right. Qed.
Lemma concat_columns_ok : forall sch batches, batches <> [] -> Forall (fun b => rb_fields b = sch) batches ->
  forall n i, (i + n = List.length sch)%nat -> concat_columns n i batches = Ok (map f_type (skipn i sch)).
Proof.
  intros sch batches N F. induction n as [|n IH]; intros i L; cbn [concat_columns].
  - rewrite skipn_all2 by lia. reflexivity.
  - destruct (nth_error sch i) as [f|] eqn:E; [|apply nth_error_None in E; lia].
    rewrite (mapM_const _ _ _ _ (f_type f)); [|intros b I; rewrite Forall_forall in F; unfold type_of; now rewrite (F b I), E].
    cbn [bind]. destruct batches as [|b bs]; [now elim N|]. cbn [map]. assert (A : forallb (ctype_eqb (f_type f)) (map (fun _ : record_batch => f_type f) bs) = true).
    { apply forallb_forall. intros t I. apply in_map_iff in I as [? [ <- _]]. apply ctype_eqb_refl. }
    rewrite A. cbn [bind]. rewrite IH by lia. cbn [bind]. f_equal. clear - E. revert sch E. induction i as [|i IH]; intros [|g sch] E; cbn in *; try discriminate; [injection E as ->; reflexivity|now apply IH].
Qed.
Lemma wf_row_length : forall sch row, wf_row sch row -> List.length row = List.length sch.
Proof. intros sch row H. symmetry. exact (Forall2_len _ _ _ H). Qed.
Lemma wf_row_fits : forall sch row, wf_row sch row -> row_fits sch row = true.
Proof.
  intros sch row H. unfold row_fits. induction H as [|f c sch row [_ N] _ IH]; [reflexivity|]. cbn. rewrite IH. destruct c; try reflexivity. now rewrite N.
Qed.
Lemma rows_firstn : forall sch batches, Forall (wf_batch sch) batches -> List.concat (map (fun b => map (firstn (List.length sch)) (rb_rows b)) batches) = rows_of batches.
Proof.
  intros sch batches H. unfold rows_of. f_equal. apply map_ext_in. intros b I. rewrite Forall_forall in H. destruct (H b I) as [_ W].
  rewrite <- (map_id (rb_rows b)) at 2. apply map_ext_in. intros r Ir. rewrite Forall_forall in W. apply firstn_all2. rewrite (wf_row_length _ _ (W r Ir)). lia.
Qed.
Lemma rows_wf : forall sch batches, Forall (wf_batch sch) batches -> Forall (wf_row sch) (rows_of batches).
Proof.
  intros sch batches H. unfold rows_of. induction H as [|b bs [_ W] _ IH]; [constructor|]. cbn. apply Forall_app. auto.
Qed.
Lemma concat_ok : forall sch batches, Forall (wf_batch sch) batches -> concat_batches sch batches = Ok {| rb_fields := sch; rb_rows := rows_of batches |}.
Proof.
  intros sch batches H. unfold concat_batches. rewrite (rows_firstn _ _ H). destruct batches as [|b bs] eqn:E; [reflexivity|]. rewrite <- E in *.
  rewrite (concat_columns_ok sch); [|subst; discriminate|eapply Forall_impl; [|exact H]; intros ? [W _]; exact W|lia]. cbn [bind skipn].
  assert (A : forallb (fun ft => ctype_eqb (f_type (fst ft)) (snd ft)) (combine sch (map f_type sch)) = true).
  { clear. induction sch as [|f sch IH]; [reflexivity|]. cbn. now rewrite ctype_eqb_refl, IH. }
  assert (B : forallb (row_fits sch) (rows_of batches) = true).
  { apply forallb_forall. intros r I. pose proof (rows_wf _ _ H) as W. rewrite Forall_forall in W. apply wf_row_fits. auto. }
  now rewrite A, B.
Qed.
(** rows of a concatenation come from its inputs, cut to the schema *)
Lemma concat_rows : forall sch batches c, concat_batches sch batches = Ok c -> rb_fields c = sch
  /\ rb_rows c = List.concat (map (fun b => map (firstn (List.length sch)) (rb_rows b)) batches).
Proof.
  intros sch batches c H. unfold concat_batches in H. destruct batches as [|b bs]; [injection H as <-; auto|]. apply bind_ok in H as [types [_ H]].
  destruct (forallb _ _ && forallb _ _); [|discriminate]. injection H as <-. auto.
Qed.

(** ** One row per key *)
Lemma keep_first_spec : forall key idx kept, NoDup (map fst kept) ->
  exists more, keep_first key idx kept = (kept ++ more)%list /\ NoDup (map fst (kept ++ more)%list)
    /\ (forall k i, In (k, i) more -> k = key i /\ exists l1 l2, idx = (l1 ++ i :: l2)%list /\ forall j, In j l1 -> key j <> k)
    /\ (forall j, In j idx -> In (key j) (map fst (kept ++ more)%list)).
Proof.
  intros key. induction idx as [|i idx IH]; intros kept D; cbn [keep_first].
  - exists []. rewrite app_nil_r. split; [reflexivity|]. split; [assumption|]. split; [intros k i []|intros j []].
  - destruct (existsb (fun e => String.eqb (fst e) (key i)) kept) eqn:E.
    + apply existsb_exists in E as [[k0 i0] [I0 E0]]. cbn in E0. apply String.eqb_eq in E0. destruct (IH kept D) as [more [Q [D' [S C]]]].
      exists more. split; [exact Q|]. split; [exact D'|].
      assert (K : In (key i) (map fst kept)) by (apply in_map_iff; exists (k0, i0); auto). split.
      * intros k j I. destruct (S k j I) as [Hk [l1 [l2 [ -> Hl]]]]. split; [exact Hk|]. exists (i :: l1), l2. split; [reflexivity|].
        intros j' [ <- |I']; [|now apply Hl]. intros Ek. rewrite map_app in D'.
        assert (X : In k (map fst kept)) by now rewrite <- Ek. clear - D' X I. apply in_map with (f := fst) in I. cbn in I.
        induction (map fst kept) as [|x l IHl]; [destruct X|]. cbn in D'. inversion D' as [|? ? N ND]; subst. destruct X as [ -> |X]; [apply N, in_or_app; now right|now apply IHl].
      * intros j [ <- |I]; [rewrite map_app; apply in_or_app; now left|now apply C].
    + assert (N : ~ In (key i) (map fst kept)).
      { intros I. apply in_map_iff in I as [e [Ee I]]. assert (T : existsb (fun e => String.eqb (fst e) (key i)) kept = true); [|congruence].
        apply existsb_exists. exists e. split; [exact I|]. rewrite Ee. apply String.eqb_refl. }
      assert (D1 : NoDup (map fst (kept ++ [(key i, i)])%list)).
      { rewrite map_app. cbn. apply (Permutation_NoDup (l := key i :: map fst kept)); [apply Permutation_cons_append|]. now constructor. }
      destruct (IH _ D1) as [more [Q [D' [S C]]]]. exists ((key i, i) :: more). rewrite <- app_assoc in Q, D', C. cbn [app] in Q, D', C.
      split; [exact Q|]. split; [exact D'|]. split.
      * intros k j [[= <- <-]|I]; [split; [reflexivity|]; exists [], idx; split; [reflexivity|intros j []]|].
        destruct (S k j I) as [Hk [l1 [l2 [ -> Hl]]]]. split; [exact Hk|]. exists (i :: l1), l2. split; [reflexivity|].
        intros j' [ <- |I']; [|now apply Hl]. intros Ek. rewrite map_app in D'. cbn in D'. apply NoDup_remove_2 in D'. apply D'. apply in_or_app. right.
        apply in_map_iff. exists (k, j). auto.
      * intros j [ <- |I]; [rewrite map_app; apply in_or_app; right; now left|now apply C].
Qed.
Lemma strongly_sorted_app : forall A (R : A -> A -> Prop) l1 x l2, StronglySorted R (l1 ++ x :: l2)%list -> forall y, In y l2 -> R x y.
Proof.
  intros A R. induction l1 as [|a l1 IH]; intros x l2 H y I; cbn in H; apply StronglySorted_inv in H as [H F]; [|now apply (IH x l2)]. rewrite Forall_forall in F. auto.
Qed.
Lemma combine_seq_in : forall A (l : list A) d i x a, In (i, x) (combine (seq a (List.length l)) l) -> (a <= i < a + List.length l)%nat /\ x = nth (i - a) l d.
Proof.
  intros A. induction l as [|y l IH]; intros d i x a H; cbn in H; [destruct H|]. destruct H as [[= <- <-]|H].
  - cbn [List.length]. split; [lia|]. now rewrite Nat.sub_diag.
  - apply (IH d) in H as [L E]. cbn [List.length]. split; [lia|]. replace (i - a)%nat with (S (i - S a)) by lia. exact E.
Qed.
Lemma in_combine_seq : forall A (l : list A) d a i, (a <= i < a + List.length l)%nat -> In (i, nth (i - a) l d) (combine (seq a (List.length l)) l).
Proof.
  intros A. induction l as [|y l IH]; intros d a i L; cbn [List.length] in L; [lia|]. cbn [List.length seq combine].
  destruct (Nat.eq_dec i a) as [ -> |N]; [left; now rewrite Nat.sub_diag|]. right. replace (i - a)%nat with (S (i - S a)) by lia. apply IH. lia.
Qed.

Section Merge.
Variable sort : (nat * (cell * cell) -> nat * (cell * cell) -> comparison) -> list (nat * (cell * cell)) -> list (nat * (cell * cell)).
Variable iter : list (string * nat) -> list (string * nat).
Hypothesis Hsort : sorts sort.
Hypothesis Hiter : visits iter.

Lemma kept_latest : forall k p s rows idx,
  idx = map fst (sort (fun x y => row_cmp (snd y) (snd x)) (combine (seq 0 (List.length rows)) (map (order_of p s) rows))) ->
  let row i := nth i rows [] in
  let out := map (fun e => row (snd e)) (iter (keep_first (fun i => key_at k (row i)) idx [])) in
  NoDup (map (key_at k) out)
  /\ (forall r, In r rows -> exists r', In r' out /\ key_at k r' = key_at k r)
  /\ (forall r, In r out -> In r rows /\ forall r', In r' rows -> key_at k r' = key_at k r -> row_cmp (order_of p s r') (order_of p s r) <> Gt).
Proof.
  intros k p s rows idx -> row out. set (L := sort _ _) in out.
  destruct (Hsort (fun x y => row_cmp (snd y) (snd x)) (combine (seq 0 (List.length rows)) (map (order_of p s) rows)) desc_total) as [P SS]. fold L in P, SS.
  destruct (keep_first_spec (fun i => key_at k (row i)) (map fst L) [] ltac:(constructor)) as [more [Q [D [S C]]]]. cbn [app] in Q, D, C. unfold out. rewrite Q. clear out Q.
  assert (PI : Permutation (iter more) more) by apply Hiter.
  assert (IL : forall i o, In (i, o) L -> (i < List.length rows)%nat /\ o = order_of p s (row i)).
  { intros i o I. apply (Permutation_in _ P) in I. rewrite <- (map_length (order_of p s) rows) in I. apply (combine_seq_in _ _ (order_of p s [])) in I as [B E]. rewrite map_length in B.
    split; [lia|]. rewrite Nat.sub_0_r, map_nth in E. exact E. }
  assert (LI : forall i, (i < List.length rows)%nat -> In (i, order_of p s (row i)) L).
  { intros i B. apply (Permutation_in _ (Permutation_sym P)). pose proof (in_combine_seq _ (map (order_of p s) rows) (order_of p s []) 0 i) as X. rewrite map_length, Nat.sub_0_r, map_nth in X.
    apply X. lia. }
  assert (KF : forall e, In e more -> fst e = key_at k (row (snd e))) by (intros [k0 i0] I; cbn; now destruct (S k0 i0 I)).
  split; [|split].
  - rewrite map_map. replace (map (fun x => key_at k (row (snd x))) (iter more)) with (map fst (iter more)).
    + apply (Permutation_NoDup (l := map fst more)); [apply Permutation_map, Permutation_sym, PI|exact D].
    + apply map_ext_in. intros e I. apply KF. apply (Permutation_in _ PI). exact I.
  - intros r I. apply (In_nth _ _ []) in I as [j [B E]]. pose proof (C j) as Cj. assert (J : In j (map fst L)) by (apply in_map_iff; exists (j, order_of p s (row j)); split; [reflexivity|now apply LI]).
    apply Cj in J. apply in_map_iff in J as [[k0 i0] [Ek I]]. cbn in Ek. exists (row i0). split.
    + apply in_map_iff. exists (k0, i0). split; [reflexivity|]. apply (Permutation_in _ (Permutation_sym PI)). exact I.
    + pose proof (KF _ I) as X. cbn in X. unfold row in *. rewrite <- E. congruence.
  - intros r I. apply in_map_iff in I as [[k0 i0] [ <- I]]. apply (Permutation_in _ PI) in I. cbn [snd]. destruct (S k0 i0 I) as [Ek [l1 [l2 [E NK]]]].
    assert (IN : In i0 (map fst L)) by (rewrite E; apply in_or_app; right; now left).
    split.
    + apply in_map_iff in IN as [[i1 o1] [E1 I1]]. cbn in E1. subst i1. apply IL in I1 as [B _]. now apply nth_In.
    + intros r' I' Ekey. apply (In_nth _ _ []) in I' as [j [B Ej]]. fold (row j) in Ej. subst r'.
      assert (J : In j (map fst L)) by (apply in_map_iff; exists (j, order_of p s (row j)); split; [reflexivity|now apply LI]).
      rewrite E in J. apply in_app_or in J as [J|[ -> |J]].
      * exfalso. apply (NK j J). congruence.
      * pose proof (row_cmp_opp (order_of p s (row j)) (order_of p s (row j))) as X. intros G. rewrite G in X. discriminate.
      * (* j after i0 *)
        apply map_eq_app in E as [L1 [L2 [EL [E1 E2]]]]. apply map_eq_cons in E2 as [[i1 o1] [L3 [ -> [E2 E3]]]]. cbn in E2. subst i1. rewrite EL in SS.
        rewrite <- E3 in J. apply in_map_iff in J as [[j' oj] [Ej' Jj]]. cbn in Ej'. subst j'.
        pose proof (strongly_sorted_app _ _ _ _ _ SS _ Jj) as R. cbn in R.
        assert (O1 : o1 = order_of p s (row i0)) by (apply IL; rewrite EL; apply in_or_app; right; now left).
        assert (O2 : oj = order_of p s (row j)) by (apply IL; rewrite EL; apply in_or_app; right; now right).
        now rewrite O1, O2 in R.
Qed.

Lemma merge_overwrite : forall configs sch batches pn pt p s k, Forall (wf_batch sch) batches ->
  merge_strategy configs = Ok "overwrite_with_latest" -> oget "hoodie.table.precombine.field" configs = Some pn ->
  typed_column sch pn pt p -> pt <> TMap -> typed_column sch "_hoodie_commit_seqno" TUtf8 s -> typed_column sch "_hoodie_record_key" TUtf8 k ->
  exists out, merge_record_batches sort iter configs sch batches = Ok out /\ rb_fields out = sch /\ latest_rows k p s (rows_of batches) (rb_rows out).
Proof.
  intros configs sch batches pn pt p s k W ST PF [CP [fp [Ep Tp]]] NM [CS [fs [Es Ts]]] [CK [fk [Ek Tk]]]. unfold merge_record_batches. destruct batches as [|b bs] eqn:EB.
  { eexists. split; [reflexivity|]. split; [reflexivity|]. split; [constructor|]. split; intros r []. }
  rewrite <- EB in *. rewrite ST. cbn [bind]. change (String.eqb "overwrite_with_latest" "append_only") with false. cbn iota. rewrite (concat_ok _ _ W). cbn [bind rb_rows rb_fields].
  pose proof (rows_wf _ _ W) as RW. destruct (rows_of batches) as [|r0 rs] eqn:ER.
  { eexists. split; [reflexivity|]. split; [reflexivity|]. cbn [rb_rows]. split; [constructor|]. split; intros r []. }
  rewrite <- ER in *. assert (PC : precombine_field configs = Ok pn) by (unfold precombine_field, table_value, as_string, raw; cbn [table_key]; now rewrite PF).
  rewrite PC. cbn [bind]. rewrite (index_of_at _ _ _ CP), (index_of_at _ _ _ CS), (index_of_at _ _ _ CK). cbn [bind]. unfold type_of. rewrite Ep, Es, Ek. cbn [option_map]. rewrite Tp, Ts, Tk.
  unfold lexsort_to_indices. assert (SO : forallb sortable [Some pt; Some TUtf8] = true) by (destruct pt; try reflexivity; now elim NM). rewrite SO. cbn [bind].
  eexists. split; [reflexivity|]. cbn [rb_fields rb_rows]. split; [reflexivity|].
  rewrite map_length. pose proof (kept_latest k p s (rows_of batches) _ eq_refl) as [H1 [H2 H3]]. cbn zeta in H1, H2, H3.
  assert (KT : forall i, key_text (cell_of k (nth i (rows_of batches) [])) = key_at k (nth i (rows_of batches) [])) by reflexivity.
  split; [exact H1|]. split; [exact H2|]. intros r I. destruct (H3 r I) as [I1 I2]. split; [exact I1|]. intros r' I' Ekey NW. rewrite Forall_forall in RW.
  apply (newer_cmp sch pn "_hoodie_commit_seqno") in NW; [|assumption|assumption|apply RW; assumption|apply RW; assumption].
  apply (I2 r' I' Ekey). rewrite row_cmp_opp, NW. reflexivity.
Qed.
Lemma merge_append : forall configs sch batches, Forall (wf_batch sch) batches -> merge_strategy configs = Ok "append_only" ->
  merge_record_batches sort iter configs sch batches = Ok {| rb_fields := sch; rb_rows := rows_of batches |}.
Proof.
  intros configs sch batches W ST. unfold merge_record_batches. destruct batches as [|b bs] eqn:E; [reflexivity|]. rewrite <- E in *. rewrite ST. cbn [bind]. now apply concat_ok.
Qed.
(** whatever the batches, merged rows are input rows, cut to the schema *)
Lemma merge_rows_from : forall configs sch batches out, merge_record_batches sort iter configs sch batches = Ok out ->
  forall r, In r (rb_rows out) -> exists b r0, In b batches /\ In r0 (rb_rows b) /\ r = firstn (List.length sch) r0.
Proof.
  intros configs sch batches out H r I. unfold merge_record_batches in H. destruct batches as [|b bs] eqn:E; [injection H as <-; destruct I|]. rewrite <- E in *.
  assert (CR : forall c, concat_batches sch batches = Ok c -> In r (rb_rows c) -> exists b r0, In b batches /\ In r0 (rb_rows b) /\ r = firstn (List.length sch) r0).
  { intros c C J. apply concat_rows in C as [_ C]. rewrite C in J. apply in_concat in J as [l [Il J]]. apply in_map_iff in Il as [b' [ <- Ib]]. apply in_map_iff in J as [r0 [ <- J]]. eauto. }
  apply bind_ok in H as [st [_ H]]. destruct (String.eqb st "append_only"); [now apply (CR out)|].
  apply bind_ok in H as [all [HA H]]. destruct (rb_rows all) as [|r1 rs] eqn:ER; [injection H as <-; now apply (CR all)|]. rewrite <- ER in *.
  apply bind_ok in H as [pn [_ H]]. apply bind_ok in H as [p [_ H]]. apply bind_ok in H as [s [_ H]]. apply bind_ok in H as [sorted [HS H]]. apply bind_ok in H as [k [_ H]].
  destruct (match type_of (rb_fields all) k with Some TUtf8 => true | _ => false end); [|discriminate]. injection H as <-. cbn [rb_rows] in I.
  unfold lexsort_to_indices in HS. destruct (forallb sortable _); [|discriminate]. injection HS as HS. rewrite map_length in HS. symmetry in HS.
  pose proof (kept_latest k p s (rb_rows all) sorted HS) as [_ [_ H3]]. apply (CR all HA). now apply H3.
Qed.
End Merge.

(** ** Uniqueness and stages *)
Lemma newer_total : forall sch pn sn p s a b, column_at sch pn p -> column_at sch sn s -> wf_row sch a -> wf_row sch b ->
  ~ newer p s a b -> ~ newer p s b a -> nth p a Null = nth p b Null /\ nth s a Null = nth s b Null.
Proof.
  intros sch pn sn p s a b P S A B N1 N2. rewrite (newer_cmp sch pn sn) in N1, N2 by assumption.
  apply column_ex in P as [fp P]. apply column_ex in S as [fs S].
  rewrite (cell_eq_cmp _ _ _ (wf_row_type _ _ A _ _ P) (wf_row_type _ _ B _ _ P)), (cell_eq_cmp _ _ _ (wf_row_type _ _ A _ _ S) (wf_row_type _ _ B _ _ S)).
  rewrite row_cmp_opp in N1. unfold row_cmp, order_of, cell_of in N1, N2. cbn [fst snd] in N1, N2.
  destruct (cell_cmp (nth p a Null) (nth p b Null)); cbn in N1, N2; try (exfalso; congruence).
  destruct (cell_cmp (nth s a Null) (nth s b Null)); cbn in N1, N2; try (exfalso; congruence). auto.
Qed.
Lemma latest_unique : forall sch pn sn k p s rows1 rows2 out1 out2, column_at sch pn p -> column_at sch sn s -> Forall (wf_row sch) rows1 ->
  (forall r, In r rows1 <-> In r rows2) -> no_ties k p s rows1 ->
  latest_rows k p s rows1 out1 -> latest_rows k p s rows2 out2 -> Permutation out1 out2.
Proof.
  intros sch pn sn k p s rows1 rows2 out1 out2 P S W E NT [D1 [K1 L1]] [D2 [K2 L2]]. rewrite Forall_forall in W.
  apply NoDup_Permutation; [now apply NoDup_map_inv in D1|now apply NoDup_map_inv in D2|].
  intros r. split; intros I.
  - destruct (L1 r I) as [I1 N1]. destruct (K2 r (proj1 (E r) I1)) as [r' [I' Ek]]. destruct (L2 r' I') as [I2 N2]. assert (r = r'); [|congruence].
    apply E in I2. destruct (newer_total sch pn sn p s r r') as [Q1 Q2]; auto. apply N2; [now apply E|congruence].
  - destruct (L2 r I) as [I1 N1]. destruct (K1 r (proj2 (E r) I1)) as [r' [I' Ek]]. destruct (L1 r' I') as [I2 N2]. assert (r = r'); [|congruence].
    apply E in I1. destruct (newer_total sch pn sn p s r r') as [Q1 Q2]; auto. apply N1; [now apply E|congruence].
Qed.
Lemma not_newer_trans : forall sch pn sn p s a b c, column_at sch pn p -> column_at sch sn s -> wf_row sch a -> wf_row sch b -> wf_row sch c ->
  ~ newer p s a b -> ~ newer p s b c -> ~ newer p s a c.
Proof.
  intros sch pn sn p s a b c P S A B C. rewrite !(newer_cmp sch pn sn) by assumption. intros N1 N2 N3.
  rewrite row_cmp_opp in N1, N2, N3. apply (row_cmp_trans (order_of p s a) (order_of p s b) (order_of p s c)).
  - intros G. rewrite G in N1. now apply N1.
  - intros G. rewrite G in N2. now apply N2.
  - destruct (row_cmp (order_of p s a) (order_of p s c)); try discriminate. reflexivity.
Qed.
Lemma latest_stages : forall sch pn sn k p s a b oa out, column_at sch pn p -> column_at sch sn s -> Forall (wf_row sch) (a ++ b)%list ->
  latest_rows k p s a oa -> latest_rows k p s (oa ++ b)%list out -> latest_rows k p s (a ++ b)%list out.
Proof.
  intros sch pn sn k p s a b oa out P S W [D1 [K1 L1]] [D2 [K2 L2]]. rewrite Forall_forall in W. split; [exact D2|]. split.
  - intros r I. apply in_app_or in I as [I|I].
    + destruct (K1 r I) as [r' [I' E]]. destruct (K2 r') as [r'' [I'' E']]; [apply in_or_app; now left|]. exists r''. split; [exact I''|congruence].
    + apply K2. apply in_or_app. now right.
  - intros r I. destruct (L2 r I) as [I1 N1]. assert (IR : In r (a ++ b)%list).
    { apply in_app_or in I1 as [I1|I1]; apply in_or_app; [left; now apply L1|now right]. }
    split; [exact IR|]. intros r' I' E. apply in_app_or in I' as [I'|I'].
    + destruct (K1 r' I') as [r'' [I'' E'']]. destruct (L1 r'' I'') as [I3 N3].
      apply (not_newer_trans sch pn sn p s r' r'' r); auto; [apply W, in_or_app; now left|apply W, in_or_app; now left|].
      apply N1; [apply in_or_app; now left|congruence].
    + apply N1; [apply in_or_app; now right|exact E].
Qed.
Lemma rows_of_app : forall a b, rows_of (a ++ b)%list = (rows_of a ++ rows_of b)%list.
Proof. intros a b. unfold rows_of. now rewrite map_app, concat_app. Qed.

Lemma latest_strategy : forall m, merges_latest m <-> merge_strategy m = Ok "overwrite_with_latest".
Proof.
  intros m. unfold merges_latest, merge_strategy, table_or_default, table_value, as_bool, raw. cbn [table_key table_default].
  destruct (oget "hoodie.table.record.merge.strategy" m) as [v|]; cbn [ok_or bind].
  - unfold merge_strategy_of at 1. cbn zeta. destruct (String.eqb (to_ascii_lowercase v) "append_only") eqn:E1.
    { apply String.eqb_eq in E1. cbn. split; [|discriminate]. intros [[v' [[= <-] E]]|[N _]]; [congruence|]. exfalso. apply (N v eq_refl). rewrite E1. now left. }
    destruct (String.eqb (to_ascii_lowercase v) "overwrite_with_latest") eqn:E2.
    { apply String.eqb_eq in E2. cbn. split; [reflexivity|]. intros _. left. eauto. }
    apply String.eqb_neq in E1, E2. cbn [bind or_default]. unfold ohas. cbn [bind].
    assert (N : forall v', Some v = Some v' -> ~ In (to_ascii_lowercase v') ["append_only"; "overwrite_with_latest"]) by (intros v' [= <-] [H|[H|[]]]; congruence).
    assert (N' : ~ exists v', Some v = Some v' /\ to_ascii_lowercase v' = "overwrite_with_latest") by (intros [v' [[= <-] H]]; congruence).
    destruct (oget "hoodie.populate.meta.fields" m) as [f|]; cbn [ok_or bind]; [unfold parse_bool; destruct (String.eqb_spec f "true") as [F1|F1]; [|destruct (String.eqb_spec f "false") as [F2|F2]]|];
      cbn [ok_or bind or_default to_bool negb]; destruct (oget "hoodie.table.precombine.field" m); cbn;
      split; try discriminate; try reflexivity; try (intros [H|[_ [H1 H2]]]; [contradiction|congruence]); intros _; right; repeat split; try assumption; congruence.
  - cbn [bind or_default]. unfold ohas.
    assert (N : forall v', @None string = Some v' -> ~ In (to_ascii_lowercase v') ["append_only"; "overwrite_with_latest"]) by (intros v' [=]).
    assert (N' : ~ exists v', @None string = Some v' /\ to_ascii_lowercase v' = "overwrite_with_latest") by (intros [v' [[=] H]]).
    destruct (oget "hoodie.populate.meta.fields" m) as [f|]; cbn [ok_or bind]; [unfold parse_bool; destruct (String.eqb_spec f "true") as [F1|F1]; [|destruct (String.eqb_spec f "false") as [F2|F2]]|];
      cbn [ok_or bind or_default to_bool negb]; destruct (oget "hoodie.table.precombine.field" m); cbn;
      split; try discriminate; try reflexivity; try (intros [H|[_ [H1 H2]]]; [contradiction|congruence]); intros _; right; repeat split; try assumption; congruence.
Qed.
Lemma append_strategy : forall m, ~ merges_latest m -> merge_strategy m = Ok "append_only".
Proof.
  intros m H. rewrite latest_strategy in H. unfold merge_strategy in *. destruct (strategy_or_default m) as [t [E T]]. rewrite E in *. cbn [bind to_string] in *.
  destruct T as [ -> | -> ]; [reflexivity|]. exfalso. apply H. reflexivity.
Qed.
Definition mergeable (m : options) (sch : list field) (p s k : nat) : Prop := merges_latest m /\ merge_columns m sch p s k.
Lemma merge_exact : forall sort iter configs sch batches p s k, sorts sort -> visits iter -> mergeable configs sch p s k -> Forall (wf_batch sch) batches ->
  exists out, merge_record_batches sort iter configs sch batches = Ok out /\ rb_fields out = sch /\ latest_rows k p s (rows_of batches) (rb_rows out).
Proof.
  intros sort iter configs sch batches p s k HS HI [ST [[pn [pt [PF [CP NM]]]] [CS CK]]] W. apply latest_strategy in ST. exact (merge_overwrite sort iter HS HI configs sch batches pn pt p s k W ST PF CP NM CS CK).
Qed.
Lemma merge_permuted : forall sort1 iter1 sort2 iter2 configs sch a b p s k out1 out2,
  sorts sort1 -> visits iter1 -> sorts sort2 -> visits iter2 -> mergeable configs sch p s k ->
  Forall (wf_batch sch) a -> Forall (wf_batch sch) b -> Permutation (rows_of a) (rows_of b) -> no_ties k p s (rows_of a) ->
  merge_record_batches sort1 iter1 configs sch a = Ok out1 -> merge_record_batches sort2 iter2 configs sch b = Ok out2 ->
  Permutation (rb_rows out1) (rb_rows out2).
Proof.
  intros sort1 iter1 sort2 iter2 configs sch a b p s k out1 out2 S1 I1 S2 I2 M Wa Wb P NT H1 H2.
  destruct (merge_exact sort1 iter1 configs sch a p s k S1 I1 M Wa) as [o1 [E1 [_ L1]]]. destruct (merge_exact sort2 iter2 configs sch b p s k S2 I2 M Wb) as [o2 [E2 [_ L2]]].
  rewrite E1 in H1. injection H1 as <-. rewrite E2 in H2. injection H2 as <-.
  destruct M as [_ [[pn [pt [_ [[CP _] _]]]] [[CS _] _]]].
  apply (latest_unique sch pn "_hoodie_commit_seqno" k p s (rows_of a) (rows_of b)); try assumption; [now apply rows_wf|].
  intros r. split; apply Permutation_in; [assumption|now apply Permutation_sym].
Qed.
Lemma merged_wf : forall sch k p s batches out, Forall (wf_batch sch) batches -> rb_fields out = sch -> latest_rows k p s (rows_of batches) (rb_rows out) -> wf_batch sch out.
Proof.
  intros sch k p s batches out W F [_ [_ L]]. split; [exact F|]. apply Forall_forall. intros r I. pose proof (rows_wf _ _ W) as R. rewrite Forall_forall in R. apply R. now apply L.
Qed.
Lemma merge_staged : forall sort1 iter1 sort2 iter2 configs sch a b p s k merged out,
  sorts sort1 -> visits iter1 -> sorts sort2 -> visits iter2 -> mergeable configs sch p s k ->
  Forall (wf_batch sch) a -> Forall (wf_batch sch) b ->
  merge_record_batches sort1 iter1 configs sch a = Ok merged -> merge_record_batches sort2 iter2 configs sch (merged :: b) = Ok out ->
  latest_rows k p s (rows_of (a ++ b)%list) (rb_rows out).
Proof.
  intros sort1 iter1 sort2 iter2 configs sch a b p s k merged out S1 I1 S2 I2 M Wa Wb H1 H2.
  destruct (merge_exact sort1 iter1 configs sch a p s k S1 I1 M Wa) as [o1 [E1 [F1 L1]]]. rewrite E1 in H1. injection H1 as <-.
  pose proof (merged_wf _ _ _ _ _ _ Wa F1 L1) as W1.
  destruct (merge_exact sort2 iter2 configs sch (o1 :: b) p s k S2 I2 M) as [o2 [E2 [_ L2]]]; [now constructor|]. rewrite E2 in H2. injection H2 as <-.
  destruct M as [_ [[pn [pt [_ [[CP _] _]]]] [[CS _] _]]]. rewrite rows_of_app.
  apply (latest_stages sch pn "_hoodie_commit_seqno" k p s _ _ (rb_rows o1)); try assumption. rewrite <- rows_of_app. apply rows_wf, Forall_app. auto.
Qed.

(** ** Base files *)
Lemma populated : forall m, oget "hoodie.populate.meta.fields" m <> Some "false" -> populates_meta m = Ok true.
Proof.
  intros m H. unfold populates_meta. destruct (bool_or_default m "hoodie.populate.meta.fields" true) as [b [P E]].
  change (table_or_default PopulatesMetaFields m) with (or_default (as_bool m "hoodie.populate.meta.fields") (Some (CBool true))). rewrite P. cbn [bind to_bool]. rewrite E.
  destruct (oget _ m) as [s|]; [|reflexivity]. destruct (String.eqb s "true"); [reflexivity|]. destruct (String.eqb_spec s "false"); congruence.
Qed.
Lemma unpopulated : forall m, oget "hoodie.populate.meta.fields" m = Some "false" -> populates_meta m = Ok false.
Proof. intros m H. unfold populates_meta, table_or_default, table_value, as_bool, raw. cbn [table_key]. rewrite H. reflexivity. Qed.
Lemma start_is : forall m, start_timestamp m = Ok (read_start m).
Proof. intros m. unfold start_timestamp, read_start, read_try, read_value, as_string, raw. cbn [read_key read_default]. destruct (oget _ m); reflexivity. Qed.
Lemma end_is : forall m, end_timestamp m = Ok (read_end m).
Proof. intros m. unfold end_timestamp, read_end, read_try, read_value, as_string, raw. cbn [read_key read_default]. destruct (oget _ m); reflexivity. Qed.
Lemma utc_is : forall m, in_utc m -> timeline_timezone m = Ok "utc".
Proof.
  intros m H. unfold in_utc in H. unfold timeline_timezone, table_or_default, table_value, raw. cbn [table_key table_default]. destruct (oget _ m) as [v|]; [|reflexivity]. cbn [ok_or bind].
  unfold timezone_of. cbn zeta. destruct (String.eqb (to_ascii_lowercase v) "utc"); [reflexivity|]. destruct (String.eqb_spec (to_ascii_lowercase v) "local") as [E|E]; [|reflexivity]. exfalso. now apply (H v).
Qed.

Definition time_test (o : operator) (v : string) (c : cell) : option bool := match c with VText x => Some (op_test o (scmp x v)) | _ => None end.
Lemma column_text : forall o v rows t, Forall (fun r => has_type (cell_of t r) TUtf8) rows ->
  compare_column {| sf_name := "_hoodie_commit_time"; sf_type := TUtf8; sf_op := o; sf_value := VText v |} (Some TUtf8) (map (cell_of t) rows)
  = Ok (map (fun r => time_test o v (cell_of t r)) rows).
Proof.
  intros o v rows t H. cbn [compare_column]. induction H as [|r rs R H IH]; [reflexivity|]. cbn [map mapM].
  destruct (cell_of t r) eqn:E; cbn in R; try contradiction; cbn [bind time_test apply_comparison cmp_text sf_value sf_op] in *; rewrite IH; reflexivity.
Qed.
Lemma combine_map2 : forall {A B C} (f : A -> B) (g : A -> C) l, combine (map f l) (map g l) = map (fun x => (f x, g x)) l.
Proof. induction l as [|x l IH]; [reflexivity|]. cbn. now rewrite IH. Qed.
Lemma filter_rows_map : forall (g : list cell -> option bool) (P : list cell -> Prop) rows, (forall r, In r rows -> (g r = Some true <-> P r)) -> selects P rows (filter_rows rows (map g rows)).
Proof.
  intros g P. induction rows as [|r rows IH]; intros H; cbn [map filter_rows]; [constructor|]. assert (IH' : selects P rows (filter_rows rows (map g rows))) by (apply IH; intros; apply H; now right).
  specialize (H r (or_introl eq_refl)). destruct (g r) as [[|]|]; constructor; try assumption; try (apply H; reflexivity); intros Q; apply H in Q; discriminate.
Qed.
Lemma op_gt : forall x v, op_test OGt (scmp x v) = true <-> slt v x.
Proof. intros x v. unfold slt. rewrite (scmp_antisym x v). destruct (scmp x v); cbn; split; congruence. Qed.
Lemma op_lte : forall x v, op_test OLte (scmp x v) = true <-> sle x v.
Proof. intros x v. unfold sle. destruct (scmp x v); cbn; split; congruence. Qed.
Lemma base_window : forall read_parquet m path records t start,
  read_parquet path = Ok records -> oget "hoodie.populate.meta.fields" m <> Some "false" -> read_start m = Some start ->
  typed_column (rb_fields records) "_hoodie_commit_time" TUtf8 t -> Forall (wf_row (rb_fields records)) (rb_rows records) ->
  exists out, read_base_file read_parquet m path = Ok out /\ rb_fields out = rb_fields records
    /\ selects (in_window t start (read_end m)) (rb_rows records) (rb_rows out).
Proof.
  intros rp m path records t start R PM ST [CT [f [FT TY]]] W. unfold read_base_file. rewrite R. cbn [bind]. unfold create_mask. rewrite (populated _ PM), start_is, end_is, ST. cbn [bind negb].
  pose proof (index_of_at _ _ _ CT) as IX. assert (TT : type_of (rb_fields records) t = Some TUtf8) by (unfold type_of; rewrite FT; cbn; now rewrite TY).
  assert (HT : Forall (fun r => has_type (cell_of t r) TUtf8) (rb_rows records)). { apply (Forall_impl (P := wf_row (rb_fields records))); [|exact W]. intros r Wr. rewrite <- TY. exact (wf_row_type _ _ Wr _ _ FT). }
  assert (C : forall o v, commit_time_filter o v = let* o := op_from_str o in Ok {| sf_name := "_hoodie_commit_time"; sf_type := TUtf8; sf_op := o; sf_value := VText v |}).
  { intros o v. unfold commit_time_filter, filter_of_tuple. destruct (op_from_str o); reflexivity. }
  rewrite !C. change (op_from_str ">") with (Ok OGt). cbn [bind]. destruct (read_end m) as [e|].
  - rewrite C. change (op_from_str "<=") with (Ok OLte). cbn [bind mask_of sf_name]. rewrite IX. cbn [bind]. rewrite TT, (column_text _ _ _ _ HT). cbn [bind]. rewrite (column_text _ _ _ _ HT). cbn [bind].
    rewrite combine_map2, map_map, combine_map2, map_map. eexists. split; [reflexivity|]. split; [reflexivity|]. cbn [filter_record_batch rb_rows]. apply filter_rows_map. intros r I. cbn [fst snd].
    rewrite Forall_forall in HT. specialize (HT r I). unfold in_window. unfold cell_of in *. destruct (nth t r Null) as [| | | |c|] eqn:E; cbn in HT; try contradiction; cbn [time_test and_null].
    + split; [discriminate|]. intros [c [[=] _]].
    + cbn [andb]. split.
      * intros [= H]. apply andb_prop in H as [H1 H2]. exists c. split; [reflexivity|]. split; [now apply op_gt|]. intros e' [= <-]. now apply op_lte.
      * intros [c' [[= <-] [H1 H2]]]. f_equal. apply andb_true_intro. split; [now apply op_gt|]. apply op_lte. now apply H2.
  - cbn [bind mask_of sf_name]. rewrite IX. cbn [bind]. rewrite TT, (column_text _ _ _ _ HT). cbn [bind].
    rewrite combine_map2, map_map. eexists. split; [reflexivity|]. split; [reflexivity|]. cbn [filter_record_batch rb_rows]. apply filter_rows_map. intros r I. cbn [fst snd].
    rewrite Forall_forall in HT. specialize (HT r I). unfold in_window. unfold cell_of in *. destruct (nth t r Null) as [| | | |c|] eqn:E; cbn in HT; try contradiction; cbn [time_test and_null].
    + split; [discriminate|]. intros [c [[=] _]].
    + cbn [andb]. split.
      * intros [= H1]. exists c. split; [reflexivity|]. split; [now apply op_gt|]. intros e' [=].
      * intros [c' [[= <-] [H1 H2]]]. f_equal. now apply op_gt.
Qed.
Lemma base_all : forall read_parquet m path records, read_parquet path = Ok records ->
  oget "hoodie.populate.meta.fields" m = Some "false" \/ read_start m = None -> read_base_file read_parquet m path = Ok records.
Proof.
  intros rp m path records R H. unfold read_base_file. rewrite R. cbn [bind]. unfold create_mask. destruct H as [H|H].
  - rewrite (unpopulated _ H). reflexivity.
  - destruct (populates_meta m) as [[|]| |] eqn:P; [| |exfalso|exfalso].
    + cbn [bind negb]. rewrite start_is, H. reflexivity.
    + reflexivity.
    + destruct (lookups_ok m) as [_ [_ [_ [_ [_ [_ [[b Q] _]]]]]]]. congruence.
    + destruct (lookups_ok m) as [_ [_ [_ [_ [_ [_ [[b Q] _]]]]]]]. congruence.
Qed.
Lemma windows_split : forall t s c e rows all1 first1 second1, slt s c \/ s = c -> sle c e ->
  selects (in_window t s (Some e)) rows all1 -> selects (in_window t s (Some c)) rows first1 -> selects (in_window t c (Some e)) rows second1 ->
  Permutation all1 (first1 ++ second1)%list /\ forall r, ~ (In r first1 /\ In r second1).
Proof.
  intros t s c e rows a f g SC CE HA HF HG. split.
  - revert f g HF HG. induction HA as [|r rows a' P HA IH|r rows a' N HA IH]; intros f g HF HG.
    + inversion HF; inversion HG; subst. constructor.
    + inversion HF as [|? ? f' PF HF'|? ? ? NF HF']; inversion HG as [|? ? g' PG HG'|? ? ? NG HG']; subst.
      * exfalso. destruct PF as [x [E [_ L]]]. destruct PG as [y [E' [L' _]]]. assert (x = y) by congruence. subst y. specialize (L _ eq_refl). now apply (slt_not_sle c x).
      * cbn. constructor. now apply IH.
      * apply Permutation_cons_app. now apply IH.
      * exfalso. destruct P as [x [E [L1 L2]]]. destruct (sle_total x c) as [L|L].
        -- apply NF. exists x. repeat split; auto. intros e' [= <-]. exact L.
        -- apply sle_lt_or_eq in L as [L'|L'].
           ++ apply NG. exists x. auto.
           ++ apply NF. exists x. repeat split; auto. intros e' [= <-]. subst. apply sle_refl.
    + inversion HF as [|? ? f' PF HF'|? ? ? NF HF']; inversion HG as [|? ? g' PG HG'|? ? ? NG HG']; subst.
      * exfalso. destruct PF as [x [E [_ L]]]. destruct PG as [y [E' [L' _]]]. assert (x = y) by congruence. subst y. specialize (L _ eq_refl). now apply (slt_not_sle c x).
      * exfalso. apply N. destruct PF as [x [E [L1 L2]]]. exists x. repeat split; auto. intros e' [= <-]. apply (sle_trans x c e); auto.
      * exfalso. apply N. destruct PG as [x [E [L1 L2]]]. exists x. repeat split; auto. destruct SC as [SC| -> ]; [|assumption]. now apply (slt_trans s c x).
      * now apply IH.
  - intros r [I1 I2]. apply (selects_in _ _ _ HF) in I1 as [_ [x [E [_ L]]]]. apply (selects_in _ _ _ HG) in I2 as [_ [y [E' [L' _]]]]. assert (x = y) by congruence. subst y. specialize (L _ eq_refl). now apply (slt_not_sle c x).
Qed.

(** ** File slices *)
Section Slices.
Variable sort : (nat * (cell * cell) -> nat * (cell * cell) -> comparison) -> list (nat * (cell * cell)) -> list (nat * (cell * cell)).
Variable iter : list (string * nat) -> list (string * nat).
Variable read_parquet : string -> outcome record_batch.
Variable avro_schema avro_value : Type.
Variable parse_schema : string -> option avro_schema.
Variable datum : avro_schema -> string -> option (avro_value * string).
Variable check_schema : avro_schema -> outcome unit.
Variable to_batch : avro_schema -> list avro_value -> outcome record_batch.
Variable parquet : string -> option (list record_batch).
Variable local_to_utc : ndt -> option ndt.
Variable fetch : string -> outcome string.
Notation read_slice := (read_file_slice sort iter read_parquet avro_schema avro_value parse_schema datum check_schema to_batch parquet local_to_utc fetch).
Notation log_ok := (file_ok avro_schema avro_value record_batch parse_schema datum check_schema to_batch parquet local_to_utc fetch).

Lemma log_range_is : forall m tz, timeline_timezone m = Ok tz ->
  log_range m = Ok (read_range tz m).
Proof. intros m tz H. unfold log_range. rewrite H, start_is, end_is. reflexivity. Qed.
Lemma read_base_rows : forall m path records out, read_parquet path = Ok records -> read_base_file read_parquet m path = Ok out ->
  rb_fields out = rb_fields records /\ forall r, In r (rb_rows out) -> In r (rb_rows records).
Proof.
  intros m path records out R H. unfold read_base_file in H. rewrite R in H. cbn [bind] in H. apply bind_ok in H as [mask [_ H]]. injection H as <-. destruct mask as [mask|]; [|auto].
  split; [reflexivity|]. cbn [filter_record_batch rb_rows]. generalize (rb_rows records). intros rows. revert mask. induction rows as [|r rows IH]; intros mask r' I; [now destruct mask|].
  destruct mask as [|[[|]|] mask]; cbn in I; [destruct I| | |]; [destruct I as [ <- |I]; [now left|right; eauto]|right; eauto|right; eauto].
Qed.

Lemma slice_rows : forall m slice tz files out, sorts sort -> visits iter -> read_slice m slice = Ok out -> timeline_timezone m = Ok tz ->
  map (log_relative_path slice) (fs_logs slice) = map fst files ->
  (forall f, In f files -> log_ok (read_range tz m) tz f) ->
  exists records, read_parquet (base_relative_path slice) = Ok records /\
  forall r, In r (rb_rows out) ->
    In r (rb_rows records)
    \/ exists r0, r = firstn (List.length (rb_fields records)) r0 /\
       (In r0 (rb_rows records) \/ exists f x b, In f files /\ In x (snd f) /\ In b (snd x) /\ In r0 (rb_rows b)
         /\ surviving record_batch local_to_utc (read_range tz m) tz
              (List.concat (map snd files)) x).
Proof.
  intros m slice tz files out HS HI H TZ P F. unfold read_file_slice in H. cbn zeta in H. apply bind_ok in H as [bo [_ H]]. destruct bo.
  - unfold read_base_file in H. destruct (read_parquet (base_relative_path slice)) as [records| |] eqn:R; [|discriminate|discriminate]. exists records. split; [reflexivity|]. intros r I. left.
    apply (read_base_rows m _ records out R); [|exact I]. unfold read_base_file. rewrite R. exact H.
  - apply bind_ok in H as [base [B H]]. destruct (read_parquet (base_relative_path slice)) as [records| |] eqn:R; [|unfold read_base_file in B; rewrite R in B; discriminate|unfold read_base_file in B; rewrite R in B; discriminate].
    destruct (read_base_rows _ _ _ _ R B) as [BF BR]. rewrite (log_range_is _ _ TZ), TZ in H. cbn [bind] in H. rewrite P in H.
    destruct (scan_ok _ _ _ _ _ _ _ _ _ _ _ _ _ F) as [kept [K E]]. rewrite E in H. cbn [bind] in H. exists records. split; [reflexivity|]. intros r I. right.
    destruct (merge_rows_from sort iter HS HI _ _ _ _ H r I) as [b [r0 [Ib [I0 E0]]]]. exists r0. split; [now rewrite <- BF|]. destruct Ib as [ <- |Ib]; [left; auto|right].
    apply in_concat in Ib as [bs [Ib1 Ib2]]. apply in_map_iff in Ib1 as [x [ <- Ix]]. apply (selects_in _ _ _ K) in Ix as [Ix Sx]. apply in_concat in Ix as [l [Il Ix]]. apply in_map_iff in Il as [f [ <- If]].
    exists f, x, b. auto.
Qed.
Lemma slice_read_optimized : forall m slice, oget "hoodie.read.use.read_optimized.mode" m = Some "true" \/ fs_logs slice = [] ->
  read_slice m slice = read_base_file read_parquet m (base_relative_path slice).
Proof.
  intros m slice H. unfold read_file_slice. cbn zeta. destruct H as [H|H].
  - assert (R : read_optimized m = Ok true). { unfold read_optimized, read_or_default, read_value, as_bool, raw. cbn [read_key]. rewrite H. reflexivity. }
    rewrite R. destruct (negb (has_log_file slice)); reflexivity.
  - unfold has_log_file. rewrite H. reflexivity.
Qed.
Lemma not_read_optimized : forall m, oget "hoodie.read.use.read_optimized.mode" m <> Some "true" -> read_optimized m = Ok false.
Proof.
  intros m H. unfold read_optimized. destruct (bool_or_default m "hoodie.read.use.read_optimized.mode" false) as [b [P E]].
  change (read_or_default UseReadOptimizedMode m) with (or_default (as_bool m "hoodie.read.use.read_optimized.mode") (Some (CBool false))). rewrite P. cbn [bind to_bool]. rewrite E.
  destruct (oget _ m) as [s|]; [|reflexivity]. destruct (String.eqb_spec s "true"); [congruence|]. destruct (String.eqb s "false"); reflexivity.
Qed.
Lemma slice_exact : forall m slice tz files base p s k, sorts sort -> visits iter ->
  fs_logs slice <> [] -> oget "hoodie.read.use.read_optimized.mode" m <> Some "true" -> timeline_timezone m = Ok tz ->
  map (log_relative_path slice) (fs_logs slice) = map fst files ->
  (forall f, In f files -> log_ok (read_range tz m) tz f) ->
  read_base_file read_parquet m (base_relative_path slice) = Ok base ->
  merges_latest m -> merge_columns m (rb_fields base) p s k -> wf_batch (rb_fields base) base ->
  (forall f x b, In f files -> In x (snd f) -> In b (snd x) -> wf_batch (rb_fields base) b) ->
  exists kept out,
    selects (surviving record_batch local_to_utc (read_range tz m) tz
              (List.concat (map snd files))) (List.concat (map snd files)) kept
    /\ read_slice m slice = Ok out /\ rb_fields out = rb_fields base
    /\ latest_rows k p s (rb_rows base ++ rows_of (List.concat (map snd kept)))%list (rb_rows out).
Proof.
  intros m slice tz files base p s k HS HI NL RO TZ P F B ML MC WB WF. destruct (scan_ok _ _ _ _ _ _ _ _ _ _ _ _ _ F) as [kept [K E]].
  destruct (merge_exact sort iter m (rb_fields base) (base :: List.concat (map snd kept)) p s k HS HI (conj ML MC)) as [out [O1 [O2 O3]]].
  { constructor; [exact WB|]. apply Forall_forall. intros b Ib. apply in_concat in Ib as [bs [Ib1 Ib2]]. apply in_map_iff in Ib1 as [x [ <- Ix]]. apply (selects_in _ _ _ K) in Ix as [Ix _].
    apply in_concat in Ix as [l [Il Ix]]. apply in_map_iff in Il as [f [ <- If]]. now apply (WF f x). }
  exists kept, out. split; [exact K|]. split; [|split; [exact O2|exact O3]].
  unfold read_file_slice. cbn zeta. assert (L : has_log_file slice = true) by (unfold has_log_file; destruct (fs_logs slice); [congruence|reflexivity]). rewrite L. cbn [negb]. rewrite (not_read_optimized _ RO). cbn [bind].
  rewrite B. cbn [bind]. rewrite (log_range_is _ _ TZ), TZ. cbn [bind]. rewrite P, E. cbn [bind]. exact O1.
Qed.
End Slices.

(** In UTC, blocks in range are those committed in (start, end]. *)
Lemma in_range_times : forall L tz (start stop : option civil) c ts, is_utc tz ->
  (forall x, start = Some x -> valid_civil x) -> (forall x, stop = Some x -> valid_civil x) -> valid_civil c -> denotes_millis c ts ->
  is_in_range L {| r_timezone := tz; r_start := option_map render start; r_end := option_map render stop; r_start_incl := false; r_end_incl := true |} (render c) tz = Ok true ->
  (forall x tx, start = Some x -> denotes_millis x tx -> (tx < ts)%Z) /\ (forall x tx, stop = Some x -> denotes_millis x tx -> (ts <= tx)%Z).
Proof.
  intros L tz start stop c ts U VS VE VC D H. rewrite is_in_range_civil in H; try assumption; [|destruct start; auto|destruct stop; auto].
  injection H as H. apply andb_prop in H as [H1 H2]. rewrite (denotes_unique _ _ VC D). split; intros x tx -> Dx.
  - rewrite (denotes_unique _ _ (VS _ eq_refl) Dx). now apply Z.ltb_lt.
  - rewrite (denotes_unique _ _ (VE _ eq_refl) Dx). now apply Z.leb_le.
Qed.

(** ** A sort *)
Section Insertion.
Context {A : Type}.
Variable cmp : A -> A -> comparison.
Fixpoint insert_by (x : A) (l : list A) : list A :=
  match l with
  | [] => [x]
  | y :: r => match cmp x y with Gt => y :: insert_by x r | _ => x :: l end
  end.
Definition isort (l : list A) : list A := fold_right insert_by [] l.
Lemma insert_by_perm : forall x l, Permutation (insert_by x l) (x :: l).
Proof. intros x. induction l as [|y r IH]; cbn; [reflexivity|]. destruct (cmp x y); try reflexivity. rewrite IH. apply perm_swap. Qed.
Lemma isort_perm : forall l, Permutation (isort l) l.
Proof. induction l as [|x l IH]; cbn; [reflexivity|]. rewrite insert_by_perm. now constructor. Qed.
Hypothesis T : total_order cmp.
Lemma insert_by_sorted : forall x l, StronglySorted (fun a b => cmp a b <> Gt) l -> StronglySorted (fun a b => cmp a b <> Gt) (insert_by x l).
Proof.
  destruct T as [TA TT]. intros x l H. induction H as [|y r H IH F]; cbn; [repeat constructor|]. destruct (cmp x y) eqn:E.
  - constructor; [now constructor|]. constructor; [congruence|]. apply (Forall_impl (P := fun z => cmp y z <> Gt)); [|exact F]. intros z Hz. apply (TT x y z); congruence.
  - constructor; [now constructor|]. constructor; [congruence|]. apply (Forall_impl (P := fun z => cmp y z <> Gt)); [|exact F]. intros z Hz. apply (TT x y z); congruence.
  - constructor; [exact IH|]. apply Forall_forall. intros z Hz. apply (Permutation_in _ (insert_by_perm x r)) in Hz as [ <- |Hz]; [rewrite TA, E; discriminate|]. rewrite Forall_forall in F. now apply F.
Qed.
Lemma isort_sorted : forall l, StronglySorted (fun a b => cmp a b <> Gt) (isort l).
Proof. induction l as [|x l IH]; cbn; [constructor|]. now apply insert_by_sorted. Qed.
End Insertion.
Lemma isort_sorts : forall A, sorts (@isort A).
Proof. intros A cmp l T. split; [apply isort_perm|now apply isort_sorted]. Qed.
Lemma isort_rev_sorts : forall A, sorts (fun (cmp : A -> A -> comparison) l => isort cmp (rev l)).
Proof. intros A cmp l T. split; [rewrite isort_perm; symmetry; apply Permutation_rev|now apply isort_sorted]. Qed.
Lemma rows_all_wf : forall sch batches, Forall (wf_batch sch) batches -> Forall (wf_row sch) (rows_of batches).
Proof. exact rows_wf. Qed.
Lemma merge_staged_same : forall sort1 iter1 sort2 iter2 sort3 iter3 m sch a b p s k merged out all,
  sorts sort1 -> visits iter1 -> sorts sort2 -> visits iter2 -> sorts sort3 -> visits iter3 -> mergeable m sch p s k ->
  Forall (wf_batch sch) a -> Forall (wf_batch sch) b -> no_ties k p s (rows_of (a ++ b)%list) ->
  merge_record_batches sort1 iter1 m sch a = Ok merged ->
  merge_record_batches sort2 iter2 m sch (merged :: b) = Ok out ->
  merge_record_batches sort3 iter3 m sch (a ++ b)%list = Ok all ->
  latest_rows k p s (rows_of (a ++ b)%list) (rb_rows out) /\ Permutation (rb_rows out) (rb_rows all).
Proof.
  intros sort1 iter1 sort2 iter2 sort3 iter3 m sch a b p s k merged out all S1 I1 S2 I2 S3 I3 M WA WB NT H1 H2 H3.
  pose proof (merge_staged sort1 iter1 sort2 iter2 m sch a b p s k merged out S1 I1 S2 I2 M WA WB H1 H2) as L. split; [exact L|].
  assert (WAB : Forall (wf_batch sch) (a ++ b)%list) by (apply Forall_app; auto).
  destruct (merge_exact sort3 iter3 m sch (a ++ b)%list p s k S3 I3 M WAB) as [o [E [_ L']]]. rewrite E in H3. injection H3 as <-.
  destruct M as [_ [[pn [pt [_ [[CP _] _]]]] [[CS _] _]]].
  apply (latest_unique sch pn "_hoodie_commit_seqno" k p s (rows_of (a ++ b)%list) (rows_of (a ++ b)%list)); try assumption; [now apply rows_wf|reflexivity].
Qed.
Lemma base_windows_split : forall read_parquet m1 m2 m12 path records t start mid stop out1 out2 out12,
  read_parquet path = Ok records -> typed_column (rb_fields records) "_hoodie_commit_time" TUtf8 t -> Forall (wf_row (rb_fields records)) (rb_rows records) ->
  (forall m, In m [m1; m2; m12] -> oget "hoodie.populate.meta.fields" m <> Some "false") ->
  read_start m1 = Some start -> read_end m1 = Some mid -> read_start m2 = Some mid -> read_end m2 = Some stop -> read_start m12 = Some start -> read_end m12 = Some stop ->
  sle start mid -> sle mid stop ->
  read_base_file read_parquet m1 path = Ok out1 -> read_base_file read_parquet m2 path = Ok out2 -> read_base_file read_parquet m12 path = Ok out12 ->
  Permutation (rb_rows out12) (rb_rows out1 ++ rb_rows out2)%list /\ forall r, ~ (In r (rb_rows out1) /\ In r (rb_rows out2)).
Proof.
  intros rp m1 m2 m12 path records t start mid stop o1 o2 o12 R T W PM S1 E1 S2 E2 S3 E3 L1 L2 H1 H2 H3.
  destruct (base_window rp m1 path records t start R (PM m1 ltac:(cbn; auto)) S1 T W) as [x1 [Q1 [_ W1]]]. rewrite H1 in Q1. injection Q1 as <-.
  destruct (base_window rp m2 path records t mid R (PM m2 ltac:(cbn; auto)) S2 T W) as [x2 [Q2 [_ W2]]]. rewrite H2 in Q2. injection Q2 as <-.
  destruct (base_window rp m12 path records t start R (PM m12 ltac:(cbn; auto)) S3 T W) as [x3 [Q3 [_ W3]]]. rewrite H3 in Q3. injection Q3 as <-.
  rewrite E1 in W1. rewrite E2 in W2. rewrite E3 in W3. apply (windows_split t start mid stop (rb_rows records)); auto. now apply sle_lt_or_eq.
Qed.
Lemma nodup_fst_inj : forall {A B} (l : list (A * B)) k a b, NoDup (map fst l) -> In (k, a) l -> In (k, b) l -> a = b.
Proof.
  intros A B. induction l as [|[k' v] l IH]; intros k a b D Ia Ib; [destruct Ia|]. inversion D as [|? ? N D']; subst. destruct Ia as [[= -> -> ]|Ia]; destruct Ib as [E|Ib].
  - congruence.
  - exfalso. apply N. apply in_map_iff. now exists (k, b).
  - injection E as -> ->. exfalso. apply N. apply in_map_iff. now exists (k, a).
  - eauto.
Qed.
Lemma slice_times : forall sort iter read_parquet avro_schema avro_value parse_schema datum check_schema to_batch parquet local_to_utc fetch m slice files out stop stop_time,
  sorts sort -> visits iter ->
  read_file_slice sort iter read_parquet avro_schema avro_value parse_schema datum check_schema to_batch parquet local_to_utc fetch m slice = Ok out ->
  in_utc m -> map (log_relative_path slice) (fs_logs slice) = map fst files ->
  (forall f, In f files -> file_ok avro_schema avro_value record_batch parse_schema datum check_schema to_batch parquet local_to_utc fetch (read_range "utc" m) "utc" f) ->
  (forall x, read_start m = Some x -> exists c, x = render c /\ valid_civil c) ->
  read_end m = Some (render stop) -> valid_civil stop -> denotes_millis stop stop_time ->
  exists records, read_parquet (base_relative_path slice) = Ok records /\
  forall r, In r (rb_rows out) ->
    In r (rb_rows records)
    \/ exists r0, r = firstn (List.length (rb_fields records)) r0 /\
       (In r0 (rb_rows records) \/ exists f x b, In f files /\ In x (snd f) /\ In b (snd x) /\ In r0 (rb_rows b)
         /\ forall c ts, at_instant (fst x) (render c) -> valid_civil c -> denotes_millis c ts -> (ts <= stop_time)%Z).
Proof.
  intros sort iter rp avs av ps dt cs tb pq l2u fetch m slice files out stop st HS HI H U P F VS RE VE DE.
  destruct (slice_rows sort iter rp avs av ps dt cs tb pq l2u fetch m slice "utc" files out HS HI H (utc_is m U) P F) as [records [R Q]]. exists records. split; [exact R|].
  intros r I. destruct (Q r I) as [I'|[r0 [E [I'|[f [x [b [If [Ix [Ib [I0 [[t [At Rt]] _]]]]]]]]]]]]; [now left|right; exists r0; auto|right]. exists r0. split; [exact E|]. right. exists f, x, b. repeat split; auto.
  intros c ts Ac Vc Dc. destruct (F f If) as [_ W]. destruct (W x Ix) as [Wx _]. assert (Et : t = render c).
  { destruct (wf_header _ _ _ _ _ _ _ _ _ _ Wx) as [ND _]. unfold at_instant in *. revert ND At Ac. generalize (w_header (fst x)). intros h ND At Ac. exact (nodup_fst_inj h _ _ _ ND At Ac). }
  subst t. assert (VC : exists start : option civil, read_start m = option_map render start /\ forall x, start = Some x -> valid_civil x).
  { destruct (read_start m) as [x0|]; [|exists None; split; [reflexivity|intros x0 [=]]]. destruct (VS x0 eq_refl) as [c0 [ -> V0]]. exists (Some c0). split; [reflexivity|]. intros x1 [= <-]. exact V0. }
  destruct VC as [start [ES V]]. unfold read_range in Rt. rewrite ES, RE in Rt.
  change (Some (render stop)) with (option_map render (Some stop)) in Rt.
  destruct (in_range_times l2u "utc" start (Some stop) c ts) as [_ T]; try assumption; [reflexivity|intros x0 [= <-]; assumption|]. now apply (T stop).
Qed.
