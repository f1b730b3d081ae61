(** Lemmas for C102: the reader of an object. *)
From Verif Require Import Base Str M_Io S_Io L_Base L_Str.
Local Open Scope string_scope.
Local Open Scope Z_scope.

Definition part (data : string) (p n : Z) : string := take (Z.to_nat n) (drop (Z.to_nat p) data).
Lemma zlen_app : forall a b, zlen (a ++ b) = zlen a + zlen b.
Proof. intros. unfold zlen. rewrite length_app_s. lia. Qed.
Lemma zlen_nonneg : forall s, 0 <= zlen s. Proof. intros. unfold zlen. lia. Qed.
Lemma zlen_zero : forall s, zlen s = 0 -> s = "". Proof. intros [|c s]; [reflexivity|]. unfold zlen. cbn [String.length]. lia. Qed.
Lemma drop_drop : forall a b s, drop a (drop b s) = drop (b + a) s.
Proof. intros a b. induction b as [|b IH]; intros s; [reflexivity|]. destruct s as [|c s]; cbn [drop Nat.add]; [destruct a; reflexivity|apply IH]. Qed.
Lemma zlen_drop : forall n s, 0 <= n -> zlen (drop (Z.to_nat n) s) = Z.max 0 (zlen s - n).
Proof. intros. unfold zlen. rewrite length_drop. lia. Qed.
Lemma zlen_take : forall n s, 0 <= n -> zlen (take (Z.to_nat n) s) = Z.min n (zlen s).
Proof.
  intros n s N. unfold zlen. destruct (Nat.le_gt_cases (Z.to_nat n) (String.length s)) as [H|H]; [rewrite length_take by exact H; lia|]. rewrite take_all by lia. lia.
Qed.
Lemma zlen_part : forall data p n, 0 <= p -> 0 <= n -> zlen (part data p n) = Z.min n (Z.max 0 (zlen data - p)).
Proof. intros. unfold part. now rewrite zlen_take, zlen_drop. Qed.
Lemma part_is : forall data p n s, 0 <= p -> 0 <= n -> (bytes_at data p n s <-> s = part data p n).
Proof.
  intros data p n s P N. split.
  - intros [[L ->]|[b [a [E [L H]]]]].
    + unfold part. rewrite drop_all by (unfold zlen in L; lia). now destruct (Z.to_nat n).
    + subst data. unfold part. replace (Z.to_nat p) with (String.length b) by (unfold zlen in L; lia). rewrite drop_app. destruct H as [H|[H ->]].
      * replace (Z.to_nat n) with (String.length s) by (unfold zlen in H; lia). now rewrite take_app.
      * rewrite take_all; [now rewrite app_nil_r_s|]. rewrite app_nil_r_s. unfold zlen in H. lia.
  - intros ->. destruct (Z.le_gt_cases (zlen data) p) as [L|L].
    + left. split; [exact L|]. unfold part. rewrite drop_all by (unfold zlen in L; lia). now destruct (Z.to_nat n).
    + right. exists (take (Z.to_nat p) data), (drop (Z.to_nat n) (drop (Z.to_nat p) data)). unfold part. rewrite take_drop, take_drop. split; [reflexivity|]. rewrite !zlen_take, zlen_drop by lia. split; [lia|].
      destruct (Z.le_gt_cases n (zlen data - p)) as [H|H]; [left; lia|right; split; [lia|]]. apply drop_all. rewrite length_drop. unfold zlen in *. lia.
Qed.

Record stands (data : string) (p : Z) (r : storage_reader) : Prop := {
  st_cap : sr_capacity r = zlen data;
  st_data : cu_data (sr_inner r) = data;
  st_pos : is_position p;
  st_where : sr_buffer r = "" /\ cu_pos (sr_inner r) = p \/ sr_buffer r = drop (Z.to_nat p) data /\ cu_pos (sr_inner r) = zlen data /\ p <= zlen data
}.
Section Reader.
Variable data : string.
Hypothesis SMALL : zlen data < 2 ^ 63.

Lemma cursor_reads : forall n c, cu_data c = data -> 0 <= cu_pos c -> 0 <= n -> cursor_read n c = (part data (cu_pos c) n, {| cu_data := data; cu_pos := cu_pos c + zlen (part data (cu_pos c) n) |}).
Proof.
  intros n c D P N. unfold cursor_read. rewrite D. assert (E : drop (Z.to_nat (Z.min (cu_pos c) (zlen data))) data = drop (Z.to_nat (cu_pos c)) data).
  { destruct (Z.le_gt_cases (cu_pos c) (zlen data)) as [H|H]; [now rewrite Z.min_l by exact H|]. rewrite Z.min_r by lia. rewrite !drop_all; [reflexivity| |]; unfold zlen in *; lia. }
  now rewrite E.
Qed.
Lemma position_after : forall p n, is_position p -> 0 <= n -> is_position (p + zlen (part data p n)).
Proof. intros p n [A B] N. rewrite zlen_part by lia. unfold is_position. pose proof (zlen_nonneg data). lia. Qed.
Lemma read_stands : forall n p r, stands data p r -> 0 <= n -> exists r', sr_read n r = (part data p n, r') /\ stands data (p + zlen (part data p n)) r'.
Proof.
  intros n p r [C D P W] N. pose proof P as [P0 P1]. pose proof (position_after p n P N) as PA. unfold sr_read. destruct (sr_buffer r) as [|ch b] eqn:B.
  - assert (CP : cu_pos (sr_inner r) = p \/ (zlen data <= p /\ cu_pos (sr_inner r) = zlen data /\ p = zlen data)).
    { destruct W as [[_ W]|[W1 [W2 W3]]]; [now left|right]. apply (f_equal zlen) in W1. rewrite zlen_drop in W1 by exact P0. change (zlen "") with 0 in W1. lia. }
    assert (CQ : cu_pos (sr_inner r) = p) by (destruct CP as [H|[_ [H1 H2]]]; congruence). clear CP W.
    rewrite C, !cursor_reads by (auto; lia || (rewrite CQ; lia) || apply zlen_nonneg). rewrite CQ. destruct (Z.leb_spec (zlen data) n) as [L|L].
    + eexists. split; [reflexivity|]. constructor; cbn; auto.
    + assert (X : part data p (zlen data) = drop (Z.to_nat p) data) by (unfold part; apply take_all; rewrite length_drop; unfold zlen; lia).
      rewrite X. fold (part data p n). eexists. split; [reflexivity|]. constructor; cbn [sr_capacity sr_buffer sr_inner cu_data cu_pos]; auto.
      rewrite drop_drop, zlen_drop, zlen_part by lia. destruct (Z.le_gt_cases (zlen data) p) as [H|H].
      * left. split; [rewrite drop_all; [reflexivity|unfold zlen in *; lia]|lia].
      * destruct (Z.le_gt_cases n (zlen data - p)) as [K|K]; [right; split; [f_equal; lia|lia]|]. left. split; [apply drop_all; unfold zlen in *; lia|lia].
  - destruct W as [[W _]|[W1 [W2 W3]]]; [discriminate W|]. rewrite W1. fold (part data p n). eexists. split; [reflexivity|]. constructor; cbn [sr_capacity sr_buffer sr_inner]; auto.
    rewrite drop_drop. rewrite zlen_part in * by lia. right. rewrite W2. destruct (Z.le_gt_cases n (zlen data - p)) as [K|K]; [split; [f_equal; lia|lia]|].
    split; [rewrite !drop_all; [reflexivity| |]; unfold zlen in *; lia|lia].
Qed.

Lemma part_app : forall p n m, 0 <= p -> 0 <= n -> 0 <= m -> part data p (n + m) = part data p n ++ part data (p + n) m.
Proof.
  intros p n m P N M. unfold part. assert (G : forall a b s, take (a + b) s = take a s ++ take b (drop a s)).
  { induction a as [|a IH]; intros b x; [reflexivity|]. destruct x as [|c x]; cbn [take drop Nat.add append]; [destruct b; reflexivity|now rewrite IH]. }
  replace (Z.to_nat (p + n)) with (Z.to_nat p + Z.to_nat n)%nat by lia. replace (Z.to_nat (n + m)) with (Z.to_nat n + Z.to_nat m)%nat by lia. now rewrite G, drop_drop.
Qed.
Lemma part_short : forall p n, 0 <= p -> 0 <= n -> zlen (part data p n) < n -> forall m, 0 <= m -> part data (p + zlen (part data p n)) m = "".
Proof.
  intros p n P N S m M. pose proof (zlen_nonneg data). pose proof (zlen_nonneg (part data p n)). pose proof (zlen_part data p n P N). apply zlen_zero. rewrite zlen_part by lia. lia.
Qed.
Lemma exact_stands : forall n p r, stands data p r -> 0 <= n -> exists r', sr_read_exact n r = (if zlen (part data p n) =? n then Some (part data p n) else None, r') /\ stands data (p + zlen (part data p n)) r'.
Proof.
  intros n p r S N. unfold sr_read_exact. pose proof (st_pos _ _ _ S) as [P0 P1]. destruct (Z.eq_dec n 0) as [->|NZ].
  - exists r. cbn. unfold part. cbn. now rewrite Z.add_0_r.
  - destruct (Z.to_nat n) as [|f] eqn:F; [lia|]. cbn [exact_loop]. destruct (Z.leb_spec n 0) as [X|_]; [lia|]. destruct (read_stands n p r S N) as [r' [E S']]. rewrite E.
    destruct (part data p n) as [|ch s0] eqn:PE.
    + exists r'. split; [|exact S']. change (zlen "") with 0. destruct (Z.eqb_spec 0 n); [lia|reflexivity].
    + rewrite <- PE in *. pose proof (zlen_part data p n P0 N) as ZP. destruct (Z.eqb_spec (zlen (part data p n)) n) as [Q|Q].
      * rewrite Q, Z.sub_diag. exists r'. destruct f; cbn [exact_loop Z.leb Z.compare option_map]; (split; [now rewrite app_nil_r_s|now rewrite Q in S']).
      * assert (SH : zlen (part data p n) < n) by lia. destruct f as [|f].
        { exfalso. assert (zlen (part data p n) = 0) by lia. apply zlen_zero in H. rewrite PE in H. discriminate H. }
        cbn [exact_loop]. destruct (Z.leb_spec (n - zlen (part data p n)) 0) as [X|_]; [lia|].
        destruct (read_stands (n - zlen (part data p n)) _ r' S' ltac:(lia)) as [r'' [E2 S2]]. rewrite E2. pose proof (part_short p n P0 N SH (n - zlen (part data p n)) ltac:(lia)) as PS. rewrite PS in *. change (zlen "") with 0 in S2. rewrite Z.add_0_r in S2.
        exists r''. split; [reflexivity|exact S2].
Qed.
Lemma up_stands : forall n p r s r', sr_read_up_to n r s r' -> stands data p r -> s = part data p n /\ stands data (p + zlen s) r'.
Proof.
  intros n p r s r' H. revert p. induction H as [r|n k r r' K E|n k r s r' t r'' K E NE H IH]; intros p S; pose proof (st_pos _ _ _ S) as [P0 P1].
  - split; [reflexivity|]. change (zlen "") with 0. now rewrite Z.add_0_r.
  - destruct (read_stands k p r S ltac:(lia)) as [r0 [E0 S0]]. rewrite E in E0. injection E0 as E1 <-. rewrite <- E1 in S0. split; [|exact S0].
    symmetry. apply zlen_zero. apply (f_equal zlen) in E1. change (zlen "") with 0 in E1. rewrite zlen_part in * by lia. lia.
  - destruct (read_stands k p r S ltac:(lia)) as [r0 [E0 S0]]. rewrite E in E0. injection E0 as -> <-. destruct (IH _ S0) as [ -> S2]. rewrite zlen_app, Z.add_assoc. split; [|exact S2].
    pose proof (zlen_part data p k P0 ltac:(lia)) as ZP. pose proof (zlen_nonneg data).
    assert (PE : part data p k = part data p (zlen (part data p k))).
    { unfold part at 1. unfold part at 1. destruct (Z.le_gt_cases k (zlen data - p)) as [L|L]; [f_equal; lia|]. rewrite !take_all; [reflexivity| |]; rewrite length_drop; unfold zlen in *; lia. }
    replace n with (zlen (part data p k) + (n - zlen (part data p k))) at 2 by lia. rewrite part_app by lia. now rewrite <- PE.
Qed.
Lemma up_total : forall n p r, stands data p r -> 0 <= n -> exists s r', sr_read_up_to n r s r'.
Proof.
  intros n p r S N. pose proof (st_pos _ _ _ S) as [P0 P1]. destruct (Z.eq_dec n 0) as [->|NZ]; [exists "", r; constructor|]. destruct (read_stands n p r S N) as [r' [E S']].
  destruct (part data p n) as [|ch s0] eqn:PE; [exists "", r'; eapply up_end; [|exact E]; lia|]. rewrite <- PE in *. pose proof (zlen_part data p n P0 N) as ZP.
  assert (NE : part data p n <> "") by (rewrite PE; discriminate).
  destruct (Z.eqb_spec (zlen (part data p n)) n) as [Q|Q].
  - exists (part data p n ++ ""), r'. eapply up_more; [|exact E|exact NE|]; [lia|]. rewrite Q, Z.sub_diag. constructor.
  - destruct (read_stands (n - zlen (part data p n)) _ r' S' ltac:(lia)) as [r'' [E2 S2]]. rewrite (part_short p n P0 N) in E2 by lia.
    exists (part data p n ++ ""), r''. eapply up_more; [|exact E|exact NE|]; [lia|]. eapply up_end; [|exact E2]. lia.
Qed.
Lemma seek_stands : forall to p r, stands data p r -> possible (Seek to) -> exists o r', sr_seek to r = (o, r')
  /\ (is_position (target data p to) /\ o = Some (target data p to) /\ stands data (target data p to) r' \/ ~ is_position (target data p to) /\ o = None /\ stands data p r').
Proof.
  intros to p r S Q. pose proof S as [C D [P0 P1] W]. pose proof (zlen_nonneg data) as ZN.
  assert (ADD : forall c base k, cu_data c = data -> forall o, o = (let q := base + k in if (0 <=? q) && (q <? 2 ^ 64) then Some (q, {| cu_data := cu_data c; cu_pos := q |}) else None) ->
    (is_position (base + k) /\ o = Some (base + k, {| cu_data := data; cu_pos := base + k |}) \/ ~ is_position (base + k) /\ o = None)).
  { intros c b k E o ->. cbn zeta. rewrite E. unfold is_position. destruct (Z.leb_spec 0 (b + k)), (Z.ltb_spec (b + k) (2 ^ 64)); cbn [andb]; [left|right|right|right]; (split; [lia|reflexivity]). }
  assert (NEW : forall q, is_position q -> stands data q (emptied r {| cu_data := data; cu_pos := q |})) by (intros q H; constructor; cbn; auto).
  destruct to as [n|k|k]; cbn [target].
  - eexists. eexists. split; [reflexivity|]. left. cbn in Q. split; [exact Q|]. split; [reflexivity|]. rewrite D. now apply NEW.
  - unfold sr_seek. destruct (ADD (sr_inner r) (zlen (cu_data (sr_inner r))) k D _ eq_refl) as [[H1 H2]|[H1 H2]]; unfold cursor_seek; cbn zeta in H2 |- *; rewrite H2; (eexists; eexists; split; [reflexivity|]); rewrite D in *; [left|right]; auto.
  - assert (AH : cu_pos (sr_inner r) = p + zlen (sr_buffer r)).
    { destruct W as [[W1 W2]|[W1 [W2 W3]]]; rewrite W1; [change (zlen "") with 0; lia|]. rewrite zlen_drop by exact P0. lia. }
    pose proof (zlen_nonneg (sr_buffer r)) as ZB. unfold sr_seek. destruct (Z.leb_spec (- 2 ^ 63) (k - zlen (sr_buffer r))) as [L|L].
    + destruct (ADD (sr_inner r) (cu_pos (sr_inner r)) (k - zlen (sr_buffer r)) D _ eq_refl) as [[H1 H2]|[H1 H2]]; unfold cursor_seek; cbn zeta in H2 |- *; rewrite H2; (eexists; eexists; split; [reflexivity|]);
      replace (cu_pos (sr_inner r) + (k - zlen (sr_buffer r))) with (p + k) in * by lia; [left|right]; auto.
    + destruct (ADD (sr_inner r) (cu_pos (sr_inner r)) (- zlen (sr_buffer r)) D _ eq_refl) as [[H1 H2]|[H1 H2]]; [|unfold is_position in H1; lia].
      unfold cursor_seek at 1. cbn zeta in H2. rewrite H2. replace (cu_pos (sr_inner r) + - zlen (sr_buffer r)) with p in * by lia.
      set (r0 := emptied r {| cu_data := data; cu_pos := p |}) in *. assert (S0 : stands data p r0) by (apply NEW; split; assumption).
      destruct (ADD (sr_inner r0) p k eq_refl _ eq_refl) as [[H3 H4]|[H3 H4]]; unfold cursor_seek; cbn zeta in H4 |- *; change (cu_pos (sr_inner r0)) with p; rewrite H4; (eexists; eexists; split; [reflexivity|]); [left|right; auto]. split; [exact H3|]. split; [reflexivity|exact (NEW _ H3)].
Qed.

Lemma serve_total : forall p r q, stands data p r -> possible q -> exists r' a, serve r q r' a.
Proof.
  intros p r q S Q. destruct q as [n|n|n|to].
  - destruct (sr_read n r) as [s r'] eqn:E. exists r', (Bytes s). now constructor.
  - destruct (sr_read_exact n r) as [o r'] eqn:E. exists r'. eexists. econstructor. exact E.
  - destruct (up_total n p r S (proj1 Q)) as [s [r' U]]. exists r', (Bytes s). now constructor.
  - destruct (sr_seek to r) as [o r'] eqn:E. exists r'. eexists. econstructor. exact E.
Qed.
Lemma serve_answered : forall p r q r' a, stands data p r -> possible q -> serve r q r' a -> exists p', answered data p q p' a /\ stands data p' r'.
Proof.
  intros p r q r' a S Q H. pose proof (st_pos _ _ _ S) as [P0 P1]. destruct H as [r n s r' E|r n o r' E|r n s r' U|r to o r' E].
  - destruct (read_stands n p r S (proj1 Q)) as [r0 [E0 S0]]. rewrite E in E0. injection E0 as -> <-. eexists. split; [|exact S0]. constructor. apply part_is; [lia|apply Q|reflexivity].
  - destruct (exact_stands n p r S (proj1 Q)) as [r0 [E0 S0]]. rewrite E in E0. injection E0 as -> <-. destruct (Z.eqb_spec (zlen (part data p n)) n) as [H|H].
    + exists (p + n). split; [|now rewrite H in S0]. apply an_exact; [|exact H]. apply part_is; [lia|apply Q|reflexivity].
    + eexists. split; [|exact S0]. apply an_eof; [apply part_is; [lia|apply Q|reflexivity]|]. rewrite zlen_part in * by (lia || apply Q). lia.
  - destruct (up_stands n p r s r' U S) as [ -> S0]. eexists. split; [|exact S0]. constructor. apply part_is; [lia|apply Q|reflexivity].
  - destruct (seek_stands to p r S Q) as [o0 [r0 [E0 H]]]. rewrite E in E0. injection E0 as <- <-. destruct H as [[H1 [ -> H3]]|[H1 [ -> H3]]]; eexists; (split; [|exact H3]); now constructor.
Qed.
Lemma answered_one : forall p q p1 a1 p2 a2, 0 <= p -> possible q -> answered data p q p1 a1 -> answered data p q p2 a2 -> p1 = p2 /\ a1 = a2.
Proof.
  intros p q p1 a1 p2 a2 P Q H1 H2. destruct H1; inversion H2; subst; cbn in Q; try (split; reflexivity); try contradiction;
  repeat match goal with B : bytes_at _ _ _ _ |- _ => apply part_is in B; [|lia|first [apply Q|lia]] end; subst; try (split; congruence); try lia;
  exfalso; match goal with E : ?s = part _ _ _ |- _ => apply (f_equal zlen) in E end; lia.
Qed.
Lemma sessions : forall qs p r, stands data p r -> Forall possible qs -> forall es, session r qs es <-> transcript data p qs es.
Proof.
  induction qs as [|q qs IH]; intros p r S F es.
  - split; intros H; inversion H; constructor.
  - inversion F as [|? ? Q F']; subst. split; intros H.
    + inversion H as [|? ? r' a ? es' SE SS]; subst. destruct (serve_answered p r q r' a S Q SE) as [p' [A S']]. econstructor; [exact A|]. now apply (IH p' r').
    + inversion H as [|? ? p' a ? es' A T]; subst. destruct (serve_total p r q S Q) as [r' [a' SE]]. destruct (serve_answered p r q r' a' S Q SE) as [p'' [A' S']].
      destruct (answered_one p q p' a p'' a' (proj1 (st_pos _ _ _ S)) Q A A') as [<- <-]. econstructor; [exact SE|]. now apply (IH p' r').
Qed.
Lemma opened_stands : stands data 0 (open_reader data).
Proof. constructor; cbn; auto. unfold is_position. lia. Qed.
End Reader.
