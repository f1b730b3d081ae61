(** Histories of file groups, and reading them back. *)
From Verif Require Import Base Str L_Base L_Str M_Time M_Instant M_Timeline M_FileGroup M_Builder M_Listing M_Expr M_Log M_Config M_Reader M_Table
  S_Time S_Timeline S_FileGroup S_Listing S_Log S_Reader S_Config S_History
  L_Time L_Instant L_Timeline L_FileGroup L_Log L_Config L_Reader.
Local Open Scope string_scope.

(** ** Histories *)
Section History.
Variable k p s : nat.
Notation hist := (history k p s).
Notation current := (current_at k p s).

Lemma latest_current : forall g t, (forall x r, In (x, r) (g_versions g) -> sle x t) -> forall rows,
  latest_rows k p s (map snd (g_versions g)) rows -> current g t rows.
Proof.
  intros g t A rows [D [K L]]. split; [exact D|]. split.
  - intros x r I _. apply K. apply in_map_iff. now exists (x, r).
  - intros r I. destruct (L r I) as [I' N]. apply in_map_iff in I' as [[x r'] [E I']]. cbn in E. subst r'. split; [exists x; split; [exact I'|now apply (A x r)]|].
    intros x' r' I2 _. apply N. apply in_map_iff. now exists (x', r').
Qed.
Lemma current_more : forall g g' t rows, (forall x r, sle x t -> (In (x, r) (g_versions g') <-> In (x, r) (g_versions g))) -> current g t rows -> current g' t rows.
Proof.
  intros g g' t rows E [D [K L]]. split; [exact D|]. split.
  - intros x r I Le. apply (K x r); [|exact Le]. now apply E.
  - intros r I. destruct (L r I) as [[x [I' Le]] N]. split; [exists x; split; [now apply E|exact Le]|]. intros x' r' I2 Le2. apply (N x' r'); [now apply E|exact Le2].
Qed.

(** What all histories keep. *)
Record inv (now : string) (g : group) : Prop := {
  iv_versions : forall x r, In (x, r) (g_versions g) -> sle x now;
  iv_bases : forall c rows, In (c, rows) (g_bases g) -> sle c now /\ current g c rows;
  iv_times : forall c, In c (map fst (g_bases g)) -> timestamp c;
  iv_blocks : forall b x rows, In (b, x, rows) (g_blocks g) -> sle x now /\ timestamp x
     /\ In b (map fst (g_bases g)) /\ slt b x /\ (forall c, In c (map fst (g_bases g)) -> sle c b \/ slt x c)
     /\ (~ In x (g_failed g) -> forall r, In r rows -> In (x, r) (g_versions g));
  iv_written : forall x r, In (x, r) (g_versions g) -> In x (map fst (g_bases g)) \/ (exists b rows, In (b, x, rows) (g_blocks g) /\ In r rows)
     \/ (exists c, In c (map fst (g_bases g))) /\ forall c, In c (map fst (g_bases g)) -> sle x c;
  iv_failed : forall x, In x (g_failed g) -> sle x now /\ (forall r, ~ In (x, r) (g_versions g));
  iv_rollbacks : forall b y x, In (b, y, x) (g_rollbacks g) -> sle y now /\ timestamp y /\ In x (g_failed g);
  iv_unique : forall c r1 r2, In (c, r1) (g_bases g) -> In (c, r2) (g_bases g) -> r1 = r2
}.

Lemma in_pairs : forall {A B} (x : A) (l : list B) y r, In (y, r) (map (pair x) l) <-> y = x /\ In r l.
Proof.
  intros A B x l y r. rewrite in_map_iff. split.
  - intros [z [[= -> ->] I]]. auto.
  - intros [-> I]. now exists r.
Qed.

Lemma history_inv : forall now g, hist now g -> inv now g.
Proof.
  intros now g H. induction H as [|x moved rows T M La|now g x g' H IH T Lt Wr]; [| |destruct Wr as [new rows La|b new Nb|rows La|b rows Nb|x0 b rows If Ib]].
  - constructor; cbn; try (intros; contradiction).
  - constructor; cbn; try (intros; contradiction).
    + exact M.
    + intros c rs [[= <- <-]|[]]. split; [apply sle_refl|]. now apply latest_current.
    + now intros c [ <- |[]].
    + intros y r I. right. right. split; [exists x; now left|]. intros c [ <- |[]]. now apply (M y r).
    + intros c r1 r2 [E1|[]] [E2|[]]. congruence.
  - destruct IH as [V B Tm K W F R U]. assert (NX : forall y, sle y now -> ~ y = x /\ ~ sle x y).
    { intros y L. split; [intros ->|intros L2]; [now apply slt_not_sle in Lt|]. apply slt_not_sle in Lt. apply Lt. eapply sle_trans; eauto. }
    constructor; cbn.
    + intros y r I. apply in_app_or in I as [I|I]; [eapply sle_trans; [eapply V; eauto|now apply slt_sle]|]. apply in_pairs in I as [-> _]. apply sle_refl.
    + intros c rs I. apply in_app_or in I as [I|[[= <- <-]|[]]].
      * destruct (B _ _ I) as [L C]. split; [eapply sle_trans; [exact L|now apply slt_sle]|]. apply (current_more g); [|exact C]. cbn. intros y r Le. split; [|intros J; apply in_or_app; now left].
        intros J. apply in_app_or in J as [J|J]; [exact J|]. apply in_pairs in J as [-> _]. exfalso. now apply (NX c L).
      * split; [apply sle_refl|]. apply latest_current; cbn.
        -- intros y r I. apply in_app_or in I as [I|I]; [eapply sle_trans; [eapply V; eauto|now apply slt_sle]|]. apply in_pairs in I as [-> _]. apply sle_refl.
        -- rewrite map_app, map_map. cbn. now rewrite map_id.
    + intros c I. rewrite map_app in I. apply in_app_or in I as [I|[ <- |[]]]; auto.
    + intros b y rs I. destruct (K _ _ _ I) as [K1 [K2 [K3 [K4 [K5 K6]]]]]. split; [eapply sle_trans; [exact K1|now apply slt_sle]|]. split; [exact K2|]. rewrite map_app. split; [apply in_or_app; now left|]. split; [exact K4|]. split.
      * intros c J. apply in_app_or in J as [J|[ <- |[]]]; [now apply K5|]. right. eapply sle_slt_trans; eauto.
      * intros N r J. apply in_or_app. left. now apply K6.
    + intros y r I. rewrite map_app. apply in_app_or in I as [I|I].
      * destruct (W _ _ I) as [J|[J|[[c J1] J2]]]; [left; apply in_or_app; now left|right; now left|]. right. right. split; [exists c; apply in_or_app; now left|].
        intros d Q. apply in_app_or in Q as [Q|[ <- |[]]]; [now apply J2|]. eapply sle_trans; [eapply V; eauto|now apply slt_sle].
      * apply in_pairs in I as [-> _]. left. apply in_or_app. right. now left.
    + intros y I. destruct (F _ I) as [L N]. split; [eapply sle_trans; [exact L|now apply slt_sle]|]. intros r J. apply in_app_or in J as [J|J]; [now apply (N r)|]. apply in_pairs in J as [-> _]. now apply (proj1 (NX x L)).
    + intros b y z I. destruct (R _ _ _ I) as [R1 [R2 R3]]. split; [eapply sle_trans; [exact R1|now apply slt_sle]|]. auto.
    + intros c r1 r2 I1 I2. apply in_app_or in I1 as [I1|[[= <- <-]|[]]]; apply in_app_or in I2 as [I2|I2]; eauto.
      * destruct I2 as [[= <- <-]|[]]. exfalso. destruct (B _ _ I1) as [L _]. now apply (proj1 (NX x L)).
      * exfalso. destruct (B _ _ I2) as [L _]. now apply (proj1 (NX x L)).
      * destruct I2 as [[= <-]|[]]. reflexivity.
  - destruct IH as [V B Tm K W F R U]. assert (NX : forall y, sle y now -> ~ y = x /\ ~ sle x y).
    { intros y L. split; [intros ->|intros L2]; [now apply slt_not_sle in Lt|]. apply slt_not_sle in Lt. apply Lt. eapply sle_trans; eauto. }
    assert (BT : forall c, In c (map fst (g_bases g)) -> sle c now) by (intros c I; apply in_map_iff in I as [[c' rs] [<- I]]; now apply (B _ _ I)).
    constructor; cbn.
    + intros y r I. apply in_app_or in I as [I|I]; [eapply sle_trans; [eapply V; eauto|now apply slt_sle]|]. apply in_pairs in I as [-> _]. apply sle_refl.
    + intros c rs I. destruct (B _ _ I) as [L C]. split; [eapply sle_trans; [exact L|now apply slt_sle]|]. apply (current_more g); [|exact C]. cbn. intros y r Le. split; [|intros J; apply in_or_app; now left].
      intros J. apply in_app_or in J as [J|J]; [exact J|]. apply in_pairs in J as [-> _]. exfalso. now apply (NX c L).
    + exact Tm.
    + intros c y rs I. apply in_app_or in I as [I|[[= <- <- <-]|[]]].
      * destruct (K _ _ _ I) as [K1 [K2 [K3 [K4 [K5 K6]]]]]. split; [eapply sle_trans; [exact K1|now apply slt_sle]|]. split; [exact K2|]. split; [exact K3|]. split; [exact K4|]. split; [exact K5|].
        intros N r J. apply in_or_app. left. now apply K6.
      * destruct Nb as [Nb1 Nb2]. split; [apply sle_refl|]. split; [exact T|]. split; [exact Nb1|]. split; [eapply sle_slt_trans; [apply BT, Nb1|exact Lt]|]. split; [intros c J; left; now apply Nb2|].
        intros _ r J. apply in_or_app. right. apply in_pairs. auto.
    + intros y r I. apply in_app_or in I as [I|I].
      * destruct (W _ _ I) as [J|[[b' [rs [J1 J2]]]|J]]; [now left| |right; now right]. right. left. exists b', rs. split; [apply in_or_app; now left|exact J2].
      * apply in_pairs in I as [-> I]. right. left. exists b, new. split; [apply in_or_app; right; now left|exact I].
    + intros y I. destruct (F _ I) as [L N]. split; [eapply sle_trans; [exact L|now apply slt_sle]|]. intros r J. apply in_app_or in J as [J|J]; [now apply (N r)|]. apply in_pairs in J as [-> _]. now apply (proj1 (NX x L)).
    + intros b' y z I. destruct (R _ _ _ I) as [R1 [R2 R3]]. split; [eapply sle_trans; [exact R1|now apply slt_sle]|]. auto.
    + exact U.
  - destruct IH as [V B Tm K W F R U]. assert (NX : forall y, sle y now -> ~ y = x /\ ~ sle x y).
    { intros y L. split; [intros ->|intros L2]; [now apply slt_not_sle in Lt|]. apply slt_not_sle in Lt. apply Lt. eapply sle_trans; eauto. }
    constructor; cbn.
    + intros y r I. eapply sle_trans; [eapply V; eauto|now apply slt_sle].
    + intros c rs I. apply in_app_or in I as [I|[[= <- <-]|[]]].
      * destruct (B _ _ I) as [L C]. split; [eapply sle_trans; [exact L|now apply slt_sle]|]. apply (current_more g); [|exact C]. cbn. tauto.
      * split; [apply sle_refl|]. apply latest_current; cbn; [|exact La]. intros y r I. eapply sle_trans; [eapply V; eauto|now apply slt_sle].
    + intros c I. rewrite map_app in I. apply in_app_or in I as [I|[ <- |[]]]; auto.
    + intros b y rs I. destruct (K _ _ _ I) as [K1 [K2 [K3 [K4 [K5 K6]]]]]. split; [eapply sle_trans; [exact K1|now apply slt_sle]|]. split; [exact K2|]. rewrite map_app. split; [apply in_or_app; now left|]. split; [exact K4|]. split; [|exact K6].
      intros c J. apply in_app_or in J as [J|[ <- |[]]]; [now apply K5|]. right. eapply sle_slt_trans; eauto.
    + intros y r I. rewrite map_app. destruct (W _ _ I) as [J|[J|[[c J1] J2]]]; [left; apply in_or_app; now left|right; now left|]. right. right. split; [exists c; apply in_or_app; now left|].
      intros d Q. apply in_app_or in Q as [Q|[ <- |[]]]; [now apply J2|]. eapply sle_trans; [eapply V; eauto|now apply slt_sle].
    + intros y I. destruct (F _ I) as [L N]. split; [eapply sle_trans; [exact L|now apply slt_sle]|exact N].
    + intros b y z I. destruct (R _ _ _ I) as [R1 [R2 R3]]. split; [eapply sle_trans; [exact R1|now apply slt_sle]|]. auto.
    + intros c r1 r2 I1 I2. apply in_app_or in I1 as [I1|[[= <- <-]|[]]]; apply in_app_or in I2 as [I2|I2]; eauto.
      * destruct I2 as [[= <- <-]|[]]. exfalso. destruct (B _ _ I1) as [L _]. now apply (proj1 (NX x L)).
      * exfalso. destruct (B _ _ I2) as [L _]. now apply (proj1 (NX x L)).
      * destruct I2 as [[= <-]|[]]. reflexivity.
  - destruct IH as [V B Tm K W F R U].
    assert (BT : forall c, In c (map fst (g_bases g)) -> sle c now) by (intros c I; apply in_map_iff in I as [[c' rs] [<- I]]; now apply (B _ _ I)).
    constructor; cbn.
    + intros y r I. eapply sle_trans; [eapply V; eauto|now apply slt_sle].
    + intros c rs I. destruct (B _ _ I) as [L C]. split; [eapply sle_trans; [exact L|now apply slt_sle]|]. apply (current_more g); [|exact C]. cbn. tauto.
    + exact Tm.
    + intros c y rs I. apply in_app_or in I as [I|[[= <- <- <-]|[]]].
      * destruct (K _ _ _ I) as [K1 [K2 [K3 [K4 [K5 K6]]]]]. split; [eapply sle_trans; [exact K1|now apply slt_sle]|]. split; [exact K2|]. split; [exact K3|]. split; [exact K4|]. split; [exact K5|].
        intros N. apply K6. intros J. apply N. apply in_or_app. now left.
      * destruct Nb as [Nb1 Nb2]. split; [apply sle_refl|]. split; [exact T|]. split; [exact Nb1|]. split; [eapply sle_slt_trans; [apply BT, Nb1|exact Lt]|]. split; [intros c J; left; now apply Nb2|].
        intros N. exfalso. apply N. apply in_or_app. right. now left.
    + intros y r I. destruct (W _ _ I) as [J|[[b' [rs [J1 J2]]]|J]]; [now left| |right; now right]. right. left. exists b', rs. split; [apply in_or_app; now left|exact J2].
    + intros y I. apply in_app_or in I as [I|[ <- |[]]].
      * destruct (F _ I) as [L N]. split; [eapply sle_trans; [exact L|now apply slt_sle]|exact N].
      * split; [apply sle_refl|]. intros r J. apply V in J. now apply slt_not_sle in Lt.
    + intros b' y z I. destruct (R _ _ _ I) as [R1 [R2 R3]]. split; [eapply sle_trans; [exact R1|now apply slt_sle]|]. split; [exact R2|]. apply in_or_app. now left.
    + exact U.
  - destruct IH as [V B Tm K W F R U]. constructor; cbn; try assumption.
    + intros y' r I. eapply sle_trans; [eapply V; eauto|now apply slt_sle].
    + intros c rs I. destruct (B _ _ I) as [L C]. split; [eapply sle_trans; [exact L|now apply slt_sle]|]. apply (current_more g); [|exact C]. cbn. tauto.
    + intros c y' rs I. destruct (K _ _ _ I) as [K1 K2]. split; [eapply sle_trans; [exact K1|now apply slt_sle]|exact K2].
    + intros y' I. destruct (F _ I) as [L N]. split; [eapply sle_trans; [exact L|now apply slt_sle]|exact N].
    + intros b' y' z I. apply in_app_or in I as [I|[[= <- <- <-]|[]]].
      * destruct (R _ _ _ I) as [R1 R2]. split; [eapply sle_trans; [exact R1|now apply slt_sle]|exact R2].
      * split; [apply sle_refl|]. auto.
Qed.

Lemma continues_history : forall now g now' g', hist now g -> continues k p s now g now' g' -> hist now' g'.
Proof. intros now g now' g' H C. induction C as [|now' g' x g'' C IH T Lt W]; [exact H|]. eapply h_write; eauto. Qed.
Lemma continues_later : forall now g now' g', continues k p s now g now' g' -> sle now now'.
Proof. intros now g now' g' C. induction C as [|now' g' x g'' C IH T Lt W]; [apply sle_refl|]. eapply sle_trans; [exact IH|now apply slt_sle]. Qed.
Lemma continues_versions : forall now g now' g' t, continues k p s now g now' g' -> sle t now -> same_versions t g g'.
Proof.
  intros now g now' g' t C L. induction C as [|now' g' x g'' C IH T Lt W]; intros y r Ly; [reflexivity|]. rewrite (IH y r Ly).
  assert (Ne : ~ y = x). { intros ->. apply slt_not_sle in Lt. apply Lt. eapply sle_trans; [exact Ly|]. eapply sle_trans; [exact L|]. eapply continues_later; eauto. }
  destruct W; cbn; try reflexivity; rewrite in_app_iff, in_pairs; tauto.
Qed.
Lemma continues_clean : forall now g now' g' t, continues k p s now g now' g' -> sle t now -> clean_at g t -> clean_at g' t.
Proof.
  intros now g now' g' t C L Cl. induction C as [|now' g' x g'' C IH T Lt W]; [exact Cl|].
  assert (Lx : ~ sle x t). { intros H. apply slt_not_sle in Lt. apply Lt. eapply sle_trans; [exact H|]. eapply sle_trans; [exact L|]. eapply continues_later; eauto. }
  intros b y rows Ib If Ly. destruct W; cbn in *.
  - now apply (IH b y rows).
  - apply in_app_iff in Ib as [Ib|[[= <- <- <-]|[]]]; [now apply (IH b y rows)|now elim Lx].
  - now apply (IH b y rows).
  - apply in_app_iff in If as [If|[ <- |[]]]; [|now elim Lx]. apply in_app_iff in Ib as [Ib|[[= <- <- <-]|[]]]; [now apply (IH b y rows)|now elim Lx].
  - destruct (IH b y rows Ib If Ly) as [z [Z1 Z2]]. exists z. split; [apply in_app_iff; now left|exact Z2].
Qed.

(** The versions up to [t] are those of the newest base file up to [t] and the surviving blocks of its log. *)
Lemma versions_split : forall now g t b, inv now g -> clean_at g t ->
  In b (map fst (g_bases g)) -> sle b t -> (forall c, In c (map fst (g_bases g)) -> sle c t -> sle c b) ->
  forall r, (exists x, In (x, r) (g_versions g) /\ sle x t)
    <-> (exists x, In (x, r) (g_versions g) /\ sle x b)
        \/ exists x rows, In (b, x, rows) (g_blocks g) /\ In r rows /\ sle x t /\ ~ exists y, In (b, y, x) (g_rollbacks g) /\ sle y t.
Proof.
  intros now g t b I C Ib Lb Mb r. split.
  - intros [x [J L]]. destruct (sle_total x b) as [Le|Le]; [left; eauto|]. apply sle_lt_or_eq in Le as [Le| ->]; [|left; exists x; split; [exact J|apply sle_refl]].
    right. destruct (iv_written _ _ I _ _ J) as [K|[[b' [rows [K1 K2]]]|[_ K]]].
    + exfalso. apply slt_not_sle in Le. apply Le. now apply Mb.
    + destruct (iv_blocks _ _ I _ _ _ K1) as [_ [_ [B1 [B2 [B3 _]]]]].
      assert (b' = b) as ->.
      { apply sle_antisym; [apply Mb; [exact B1|]|].
        - apply slt_sle. eapply slt_sle_trans; eauto.
        - destruct (B3 b Ib) as [B|B]; [exact B|]. exfalso. apply slt_not_sle in B. apply B. now apply slt_sle. }
      exists x, rows. split; [exact K1|]. split; [exact K2|]. split; [exact L|]. intros [y [R _]]. destruct (iv_rollbacks _ _ I _ _ _ R) as [_ [_ F]]. now apply (proj2 (iv_failed _ _ I _ F) r).
    + exfalso. apply slt_not_sle in Le. apply Le. now apply K.
  - intros [[x [J L]]|[x [rows [K1 [K2 [L N]]]]]].
    + exists x. split; [exact J|]. eapply sle_trans; eauto.
    + exists x. split; [|exact L]. destruct (iv_blocks _ _ I _ _ _ K1) as [_ [_ [_ [_ [_ B]]]]]. apply B; [|exact K2]. intros F. apply N. eapply C; eauto.
Qed.

(** Merging the base file with the surviving rows gives the current records. *)
Lemma current_merge : forall sch pn sn now g t b base kept out, column_at sch pn p -> column_at sch sn s ->
  inv now g -> clean_at g t -> (forall x r, In (x, r) (g_versions g) -> wf_row sch r) ->
  In (b, base) (g_bases g) -> sle b t -> (forall c, In c (map fst (g_bases g)) -> sle c t -> sle c b) ->
  (forall r, In r kept <-> exists x rows, In (b, x, rows) (g_blocks g) /\ In r rows /\ sle x t /\ ~ exists y, In (b, y, x) (g_rollbacks g) /\ sle y t) ->
  latest_rows k p s (base ++ kept)%list out -> current g t out.
Proof.
  intros sch pn sn now g t b base kept out P S I C W Ib Lb Mb Hk L.
  set (vs := map snd (filter (fun v => sleb (fst v) b) (g_versions g))).
  assert (Hv : forall r, In r vs <-> exists x, In (x, r) (g_versions g) /\ sle x b).
  { intros r. unfold vs. rewrite in_map_iff. split.
    - intros [[x r'] [E J]]. cbn in E. subst r'. apply filter_In in J as [J1 J2]. apply sleb_spec in J2. eauto.
    - intros [x [J1 J2]]. exists (x, r). split; [reflexivity|]. apply filter_In. split; [exact J1|]. now apply sleb_spec. }
  assert (Ib' : In b (map fst (g_bases g))) by (apply in_map_iff; now exists (b, base)).
  assert (Sp := versions_split now g t b I C Ib' Lb Mb).
  assert (Lv : latest_rows k p s vs base).
  { destruct (proj2 (iv_bases _ _ I _ _ Ib)) as [D [K N]]. split; [exact D|]. split.
    - intros r J. apply Hv in J as [x [J1 J2]]. now apply (K x r).
    - intros r J. destruct (N r J) as [N1 N2]. split; [now apply Hv|]. intros r' J'. apply Hv in J' as [x [J1 J2]]. now apply (N2 x r'). }
  assert (In_all : forall r, In r (vs ++ kept)%list <-> exists x, In (x, r) (g_versions g) /\ sle x t).
  { intros r. rewrite in_app_iff, Hv, Hk. symmetry. apply Sp. }
  assert (La : latest_rows k p s (vs ++ kept)%list out).
  { apply (latest_stages sch pn sn k p s vs kept base out P S); [|exact Lv|exact L]. apply Forall_forall. intros r J. apply In_all in J as [x [J _]]. now apply (W x). }
  destruct La as [D [K N]]. split; [exact D|]. split.
  - intros x r J1 J2. apply K. apply In_all. eauto.
  - intros r J. destruct (N r J) as [N1 N2]. split; [now apply In_all|]. intros x r' J1 J2. apply N2. apply In_all. eauto.
Qed.
End History.

(** ** Reading the current slice *)
Section Reading.
Variable avro_schema avro_value : Type.
Variable parse_schema : string -> option avro_schema.
Variable datum : avro_schema -> string -> option (avro_value * string).
Variable check_schema : avro_schema -> outcome unit.
Variable to_batch : avro_schema -> list avro_value -> outcome record_batch.
Variable parquet : string -> option (list record_batch).
Variable read_parquet : string -> outcome record_batch.
Variable bytes : string -> outcome string.
Variable local_to_utc : ndt -> option ndt.
Variable k p s : nat.
Notation laid_out := (laid_out avro_schema avro_value parse_schema datum check_schema to_batch parquet read_parquet bytes).
Notation read_slice sort iter := (read_file_slice sort iter read_parquet avro_schema avro_value parse_schema datum check_schema to_batch parquet local_to_utc bytes).

Lemma timestamp_width : forall c, c_ms c <> None -> valid_civil c -> String.length (render c) = 17%nat.
Proof.
  intros c N V. unfold render. rewrite !length_app_s. destruct (c_ms c) as [ms|]; [|congruence]. rewrite !L_Time.length_pad. reflexivity.
Qed.
Lemma path_is : forall part name, (forall r, part <> r ++ "/") -> (forall r, name <> "/" ++ r) -> path_join part name = file_path part name.
Proof.
  intros part name P N. unfold path_join, file_path. destruct (starts_with "/" name) eqn:E.
  { apply starts_with_spec in E as [r E]. now apply N in E. }
  destruct (String.eqb part ""); [reflexivity|]. destruct (ends_with "/" part) eqn:E2; [|reflexivity]. apply ends_with_spec in E2 as [r E2]. now apply P in E2.
Qed.
(** Blocks in the range of a read. *)
Definition range_test (start stop : option string) (x : string) : bool :=
  (match start with Some a => sltb a x | None => true end && match stop with Some e => sleb x e | None => true end)%bool.
Lemma block_in_range : forall m w x, (forall a, read_start m = Some a -> timestamp a) -> (forall a, read_end m = Some a -> timestamp a) ->
  timestamp x -> at_instant w x -> wf_metadata (w_header w) ->
  forall b, range_says local_to_utc (read_range "utc" m) "utc" w b <-> b = range_test (read_start m) (read_end m) x.
Proof.
  intros m w x RS RE [cx [Vx [Mx ->]]] A [Nd _] b.
  assert (Oc : forall o, (forall a, o = Some a -> timestamp a) -> exists oc, o = option_map render oc /\ match oc with Some c => valid_civil c /\ c_ms c <> None | None => True end).
  { intros [a|] H; [|now exists None]. destruct (H a eq_refl) as [c [V [M ->]]]. exists (Some c). auto. }
  destruct (Oc _ RS) as [cs [Es Hs]]. destruct (Oc _ RE) as [ce [Ee He]]. clear Oc RS RE.
  assert (E : is_in_range local_to_utc (read_range "utc" m) (render cx) "utc" = Ok (range_test (read_start m) (read_end m) (render cx))).
  { unfold read_range. rewrite Es, Ee.
    rewrite is_in_range_civil; try assumption; try reflexivity; try (destruct cs; tauto); try (destruct ce; tauto). f_equal. unfold range_test. f_equal.
    - destruct cs as [c|]; [|reflexivity]. destruct Hs as [V M]. cbn [option_map]. unfold sltb. rewrite render_order_same_width; [|assumption|assumption|now rewrite !timestamp_width]. unfold Z.ltb. now destruct (_ ?= _)%Z.
    - destruct ce as [c|]; [|reflexivity]. destruct He as [V M]. cbn [option_map]. unfold sleb. rewrite render_order_same_width; [|assumption|assumption|now rewrite !timestamp_width]. unfold Z.leb. now destruct (_ ?= _)%Z. }
  split.
  - intros [y [Ay Hy]]. assert (y = render cx) as ->; [|congruence]. exact (nodup_fst_inj _ _ _ _ Nd Ay A).
  - intros ->. exists (render cx). auto.
Qed.

Section Slice.
Variable format part id : string.
Variable sch : list field.
Variable listed : list file_meta.
Variable contents : string -> list (wblock * list record_batch).
Variable g : group.
Hypothesis LO : laid_out format part id sch listed contents g.
Notation log_of := (log_of format id listed).

(** The log files of a slice: some of those of its base file. *)
Variable slice : file_slice.
Variable c : string.
Hypothesis HP : fs_partition slice = part.
Hypothesis HL : forall l, In l (fs_logs slice) -> exists m, log_of m c /\ fm_name m = log_file_name l.

Definition slice_files : list (string * list (wblock * list record_batch)) :=
  map (fun l => (log_relative_path slice l, contents (log_file_name l))) (fs_logs slice).
Definition in_logs (m : file_meta) : Prop := exists l, In l (fs_logs slice) /\ fm_name m = log_file_name l.

Lemma slice_paths : map (log_relative_path slice) (fs_logs slice) = map fst slice_files.
Proof. unfold slice_files. rewrite map_map. reflexivity. Qed.
Lemma log_path : forall l, In l (fs_logs slice) -> log_relative_path slice l = file_path part (log_file_name l).
Proof.
  intros l Il. unfold log_relative_path. rewrite HP. apply path_is; [apply LO|]. intros r. unfold log_file_name. intros E. cbn in E. discriminate.
Qed.
Lemma slice_file_ok : forall m, (forall a, read_start m = Some a -> timestamp a) -> (forall a, read_end m = Some a -> timestamp a) ->
  forall f, In f slice_files -> file_ok avro_schema avro_value record_batch parse_schema datum check_schema to_batch parquet local_to_utc bytes (read_range "utc" m) "utc" f.
Proof.
  intros m TS TE f If. unfold slice_files in If. apply in_map_iff in If as [l [ <- Il]]. destruct (HL l Il) as [fm [Hm En]].
  destruct (lo_logs _ _ _ _ _ _ _ _ _ _ _ _ _ _ _ _ LO fm c Hm) as [Hb Hc]. rewrite En in Hb, Hc. unfold file_ok. cbn [fst snd]. split; [rewrite (log_path l Il); exact Hb|].
  intros [w bs] Ix. destruct (Hc w bs Ix) as [H1 [H2 [H3 [x [H4 H5]]]]]. cbn [fst snd]. split; [exact H1|]. split; [exact H3|].
  eexists. apply (block_in_range m w x TS TE H5 H4); [apply H1|reflexivity].
Qed.
Lemma slice_blocks : forall w bs, In (w, bs) (List.concat (map snd slice_files)) <-> exists m, log_of m c /\ in_logs m /\ In (w, bs) (contents (fm_name m)).
Proof.
  intros w bs. rewrite in_concat. split.
  - intros [l0 [I0 Ix]]. apply in_map_iff in I0 as [f [ <- If]]. unfold slice_files in If. apply in_map_iff in If as [l [ <- Il]]. cbn [snd] in Ix.
    destruct (HL l Il) as [m [Hm En]]. exists m. split; [exact Hm|]. split; [exists l; auto|now rewrite En].
  - intros [m [_ [[l [Il En]] Ix]]]. exists (contents (log_file_name l)). split; [|now rewrite <- En]. apply in_map_iff. exists (log_relative_path slice l, contents (log_file_name l)). split; [reflexivity|].
    unfold slice_files. apply in_map_iff. now exists l.
Qed.
Lemma kept_rows : forall m kept, (forall a, read_start m = Some a -> timestamp a) -> (forall a, read_end m = Some a -> timestamp a) ->
  selects (surviving record_batch local_to_utc (read_range "utc" m) "utc" (List.concat (map snd slice_files))) (List.concat (map snd slice_files)) kept ->
  forall r, In r (rows_of (List.concat (map snd kept))) <->
    exists x fm w bs, log_of fm c /\ in_logs fm /\ In (w, bs) (contents (fm_name fm)) /\ at_instant w x /\ In r (rows_of bs)
      /\ range_test (read_start m) (read_end m) x = true
      /\ ~ exists fm' w' bs' y, log_of fm' c /\ in_logs fm' /\ In (w', bs') (contents (fm_name fm')) /\ at_instant w' y /\ rolls_back w' x /\ range_test (read_start m) (read_end m) y = true.
Proof.
  intros m kept TS TE K r.
  assert (Facts : forall fm w bs, log_of fm c -> In (w, bs) (contents (fm_name fm)) -> wf_metadata (w_header w) /\ exists x, at_instant w x /\ timestamp x).
  { intros fm w bs Hm Ix. destruct (lo_logs _ _ _ _ _ _ _ _ _ _ _ _ _ _ _ _ LO fm c Hm) as [_ Hc]. destruct (Hc w bs Ix) as [H1 [_ [_ H4]]]. split; [apply H1|exact H4]. }
  assert (Says : forall fm w bs x, log_of fm c -> In (w, bs) (contents (fm_name fm)) -> at_instant w x ->
    (range_says local_to_utc (read_range "utc" m) "utc" w true <-> range_test (read_start m) (read_end m) x = true)).
  { intros fm w bs x Hm Ix Ax. destruct (Facts fm w bs Hm Ix) as [Wm [x' [Ax' Tx]]]. assert (x' = x) as -> by exact (nodup_fst_inj _ _ _ _ (proj1 Wm) Ax' Ax).
    rewrite (block_in_range m w x TS TE Tx Ax Wm). split; congruence. }
  unfold rows_of at 1. rewrite in_concat. split.
  - intros [rs [I1 I2]]. apply in_map_iff in I1 as [b [ <- Ib]]. apply in_concat in Ib as [bs [Ib1 Ib2]]. apply in_map_iff in Ib1 as [[w bs'] [E Ix]]. cbn [snd] in E. subst bs'.
    apply (selects_in _ _ _ K) in Ix as [Ix [Sr Sn]]. cbn [fst] in *. apply slice_blocks in Ix as [fm [Hm [Il Ic]]]. destruct (Facts fm w bs Hm Ic) as [Wm [x [Ax Tx]]].
    exists x, fm, w, bs. split; [exact Hm|]. split; [exact Il|]. split; [exact Ic|]. split; [exact Ax|]. split; [unfold rows_of; apply in_concat; exists (rb_rows b); split; [now apply in_map|exact I2]|].
    split; [now apply (Says fm w bs x)|]. intros [fm' [w' [bs2 [y [Hm' [Il' [Ic' [Ay [Rb Ty]]]]]]]]]. apply Sn. exists (w', bs2), x. split; [apply slice_blocks; eauto|]. cbn [fst]. split; [now apply (Says fm' w' bs2 y)|]. auto.
  - intros [x [fm [w [bs [Hm [Il [Ic [Ax [Ir [Tx N]]]]]]]]]]. unfold rows_of in Ir. apply in_concat in Ir as [rs [Ir1 Ir2]]. apply in_map_iff in Ir1 as [b [ <- Ib]].
    exists (rb_rows b). split; [|exact Ir2]. apply in_map. apply in_concat. exists bs. split; [|exact Ib]. apply in_map_iff. exists (w, bs). split; [reflexivity|].
    apply (selects_in _ _ _ K). split; [apply slice_blocks; eauto|]. split; [cbn [fst]; now apply (Says fm w bs x)|].
    intros [[w' bs'] [x' [Iy [Sy [Rb Ax']]]]]. cbn [fst] in *. apply slice_blocks in Iy as [fm' [Hm' [Il' Ic']]]. destruct (Facts fm' w' bs' Hm' Ic') as [Wm' [y [Ay Ty]]].
    destruct (Facts fm w bs Hm Ic) as [Wm _]. assert (x' = x) as -> by exact (nodup_fst_inj _ _ _ _ (proj1 Wm) Ax' Ax).
    apply N. exists fm', w', bs', y. repeat (split; [assumption|]). now apply (Says fm' w' bs' y).
Qed.
End Slice.

Lemma rows_typed : forall now g sch c rows, inv k p s now g -> (forall x r, In (x, r) (g_versions g) -> wf_row sch r) -> In (c, rows) (g_bases g) -> Forall (wf_row sch) rows.
Proof.
  intros now g sch c rows I W Ib. apply Forall_forall. intros r Ir. destruct (proj2 (iv_bases _ _ _ _ _ I _ _ Ib)) as [_ [_ L]]. destruct (L r Ir) as [[x [Ix _]] _]. now apply (W x).
Qed.
Lemma base_name_start : forall id b, (forall r, id <> "/" ++ r) -> bf_file_id b = id -> forall r, base_file_name b <> "/" ++ r.
Proof.
  intros id b N E r. unfold base_file_name. rewrite E. destruct id as [|a id]; cbn; [discriminate|]. intros H. injection H as -> _. now apply (N id).
Qed.

Lemma snapshot_slice : forall sort iter m t now format part sch listed contents g slice, sorts sort -> visits iter ->
  read_start m = None -> read_end m = Some t -> timestamp t -> in_utc m -> oget "hoodie.read.use.read_optimized.mode" m <> Some "true" ->
  merges_latest m -> merge_columns m sch p s k ->
  shows_newest format listed part t slice -> laid_out format part (bf_file_id (fs_base slice)) sch listed contents g ->
  history k p s now g -> clean_at g t ->
  exists out, read_slice sort iter m slice = Ok out /\ rb_fields out = sch /\ current_at k p s g t (rb_rows out).
Proof.
  intros sort iter m t now format part sch listed contents g slice HS HI RS RE Tt U RO ML MC SN LO H CL.
  pose proof (history_inv _ _ _ _ _ H) as I. destruct SN as [m0 [b0 [B1 [B2 [B3 [B4 [B5 [B6 [B7 [B8 B9]]]]]]]]]]. rewrite B3 in LO.
  set (id := bf_file_id b0) in *. set (c := bf_commit b0) in *.
  assert (Bo : base_of format id listed m0 c) by (exists b0; auto).
  assert (Ic : In c (map fst (g_bases g))) by (apply LO; eauto). apply in_map_iff in Ic as [[c' rows] [E Ib]]. cbn in E. subst c'.
  assert (Ic : In c (map fst (g_bases g))) by (apply in_map_iff; now exists (c, rows)).
  assert (Bp : base_relative_path slice = file_path part (fm_name m0)).
  { unfold base_relative_path. rewrite B2, B4. rewrite path_is; [|apply LO|apply (base_name_start id b0); [apply LO|reflexivity]]. now rewrite (lo_names _ _ _ _ _ _ _ _ _ _ _ _ _ _ _ _ LO m0 b0 B1 eq_refl). }
  assert (Rb : read_base_file read_parquet m (base_relative_path slice) = Ok {| rb_fields := sch; rb_rows := rows |}).
  { apply base_all; [|now right]. rewrite Bp. exact (lo_rows _ _ _ _ _ _ _ _ _ _ _ _ _ _ _ _ LO m0 c rows Bo Ib). }
  assert (Mx : forall c', In c' (map fst (g_bases g)) -> sle c' t -> sle c' c).
  { intros c' J L. apply LO in J as [m' [b' [J1 [J2 J3]]]]. rewrite <- J3 in L |- *. now apply (B7 m' b'). }
  assert (Ty := lo_typed _ _ _ _ _ _ _ _ _ _ _ _ _ _ _ _ LO). assert (Wr := rows_typed _ _ _ _ _ I Ty Ib).
  destruct (MC) as [[pn [pt [_ [[CP _] _]]]] [[CS _] _]].
  assert (HL : forall l, In l (fs_logs slice) -> exists m, log_of format id listed m c /\ fm_name m = log_file_name l).
  { intros l Il. destruct (B9 l Il) as [m' [L1 [L2 L3]]]. exists m'. split; [exists l; auto|]. destruct L1 as [_ [_ [_ L1]]]. now rewrite (log_name_reprint _ _ _ L1). }
  assert (All : forall fm, log_of format id listed fm c -> in_logs slice fm).
  { intros fm [l [L1 [L2 L3]]]. destruct (proj2 (B8 (lf_version l) (lf_write_token l))) as [l' [I1 [I2 I3]]]; [exists fm, l; auto|]. destruct (B9 l' I1) as [m' [L4 [L5 L6]]].
    assert (m' = fm) as -> by (apply (lo_distinct _ _ _ _ _ _ _ _ _ _ _ _ _ _ _ _ LO m' l' fm l); congruence).
    exists l'. split; [exact I1|]. destruct L4 as [_ [_ [_ L4]]]. now rewrite (log_name_reprint _ _ _ L4). }
  assert (TS : forall a, read_start m = Some a -> timestamp a) by (intros a; rewrite RS; discriminate).
  assert (TE : forall a, read_end m = Some a -> timestamp a) by (intros a; rewrite RE; intros [= <-]; exact Tt).
  destruct (fs_logs slice) as [|l0 ls] eqn:El.
  - exists {| rb_fields := sch; rb_rows := rows |}. split; [rewrite slice_read_optimized; [exact Rb|now right]|]. split; [reflexivity|].
    apply (current_merge k p s sch pn "_hoodie_commit_seqno" now g t c rows [] rows CP CS I CL Ty Ib B6 Mx).
    + intros r. split; [intros []|]. intros [x [rs [J1 [J2 _]]]]. destruct (proj1 (lo_blocks _ _ _ _ _ _ _ _ _ _ _ _ _ _ _ _ LO c x r)) as [fm [w [bs [J3 _]]]]; [eauto|].
      destruct (All fm J3) as [l [Il _]]. rewrite El in Il. destruct Il.
    + cbn [rb_rows]. rewrite app_nil_r. destruct (proj2 (iv_bases _ _ _ _ _ I _ _ Ib)) as [D [K L]]. split; [exact D|]. split; [eauto|]. intros r J. split; [exact J|].
      intros r' J' E. destruct (L r' J') as [[x [Jx Lx]] _]. now apply (proj2 (L r J) x r').
  - rewrite <- El in HL.
    destruct (slice_exact sort iter read_parquet avro_schema avro_value parse_schema datum check_schema to_batch parquet local_to_utc bytes
      m slice "utc" (slice_files contents slice) {| rb_fields := sch; rb_rows := rows |} p s k HS HI) as [kept [out [K [O1 [O2 O3]]]]]; try assumption.
    + rewrite El. discriminate.
    + now apply utc_is.
    + apply slice_paths.
    + exact (slice_file_ok format part id sch listed contents g LO slice c B2 HL m TS TE).
    + split; [reflexivity|exact Wr].
    + intros f x b If Ix Ib'. unfold slice_files in If. apply in_map_iff in If as [l [ <- Il]]. destruct (HL l Il) as [fm [Hm En]].
      destruct (lo_logs _ _ _ _ _ _ _ _ _ _ _ _ _ _ _ _ LO fm c Hm) as [_ Hc]. rewrite En in Hc. destruct x as [w bs]. cbn [snd] in Ix, Ib'. destruct (Hc w bs Ix) as [_ [W _]]. rewrite Forall_forall in W. now apply W.
    + exists out. split; [exact O1|]. split; [exact O2|]. cbn [rb_rows] in O3.
      apply (current_merge k p s sch pn "_hoodie_commit_seqno" now g t c rows (rows_of (List.concat (map snd kept))) (rb_rows out) CP CS I CL Ty Ib B6 Mx); [|exact O3].
      assert (RT : forall x, range_test (read_start m) (read_end m) x = true <-> sle x t).
      { intros x. unfold range_test. rewrite RS, RE. cbn [andb]. apply sleb_spec. }
      intros r. rewrite (kept_rows format part id sch listed contents g LO slice c HL m kept TS TE K r). split.
      * intros [x [fm [w [bs [J1 [J2 [J3 [J4 [J5 [J6 J7]]]]]]]]]].
        destruct (proj2 (lo_blocks _ _ _ _ _ _ _ _ _ _ _ _ _ _ _ _ LO c x r)) as [rs [J8 J9]]; [exists fm, w, bs; auto|].
        exists x, rs. split; [exact J8|]. split; [exact J9|]. split; [now apply RT|]. intros [y [Ry Ly]]. apply J7.
        apply (lo_rollbacks _ _ _ _ _ _ _ _ _ _ _ _ _ _ _ _ LO) in Ry as [fm' [w' [bs' [R1 [R2 [R3 R4]]]]]]. exists fm', w', bs', y. split; [exact R1|]. split; [now apply All|]. repeat (split; [assumption|]). now apply RT.
      * intros [x [rs [J1 [J2 [J3 J4]]]]]. destruct (proj1 (lo_blocks _ _ _ _ _ _ _ _ _ _ _ _ _ _ _ _ LO c x r)) as [fm [w [bs [J5 [J6 [J7 J8]]]]]]; [eauto|].
        exists x, fm, w, bs. split; [exact J5|]. split; [now apply All|]. repeat (split; [assumption|]). split; [now apply RT|].
        intros [fm' [w' [bs' [y [R1 [R2 [R3 [R4 [R5 R6]]]]]]]]]. apply J4. exists y. split; [|now apply RT]. apply (lo_rollbacks _ _ _ _ _ _ _ _ _ _ _ _ _ _ _ _ LO). eauto 8.
Qed.
End Reading.
