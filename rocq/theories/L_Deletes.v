(** Histories with deletions, and reading them back. *)
From Coq Require Import Sorted.
From Verif Require Import Base Str L_Base L_Str M_Time M_Instant M_Timeline M_FileGroup M_Builder M_Listing M_Expr M_Log M_Config M_Reader M_Table
  S_Time S_Timeline S_FileGroup S_Builder S_Listing S_Expr S_Log S_Reader S_Config S_Table S_History S_Deletes
  L_Time L_Instant L_Timeline L_FileGroup L_Log L_Config L_Reader L_Table L_History L_Records.
Local Open Scope string_scope.

Section Histories.
Variable k p s : nat.
Notation alive := (alive k).
Notation current := (current_alive k p s).

Lemma alive_more : forall g g' dels dels' t, (forall x r, sle x t -> (In (x, r) (g_versions g') <-> In (x, r) (g_versions g))) ->
  (forall d key, sle d t -> (In (d, key) dels' <-> In (d, key) dels)) -> forall x r, alive g dels t x r <-> alive g' dels' t x r.
Proof.
  intros g g' dels dels' t V D x r. unfold S_Deletes.alive. split; intros [I [L N]]; (split; [now apply V|split; [exact L|]]); intros [d [I' [L1 L2]]]; apply N; exists d; (split; [now apply D|auto]).
Qed.
Lemma current_alive_more : forall g g' dels dels' t rows, (forall x r, sle x t -> (In (x, r) (g_versions g') <-> In (x, r) (g_versions g))) ->
  (forall d key, sle d t -> (In (d, key) dels' <-> In (d, key) dels)) -> current g dels t rows -> current g' dels' t rows.
Proof.
  intros g g' dels dels' t rows V D [N [K L]]. assert (E := alive_more g g' dels dels' t V D). split; [exact N|]. split.
  - intros x r A. apply (K x). now apply E.
  - intros r I. destruct (L r I) as [[x A] M]. split; [exists x; now apply E|]. intros x' r' A'. apply (M x'). now apply E.
Qed.

(** What all these histories keep. *)
Record dinv (now : string) (g : group) (dels : deletions) : Prop := {
  di_versions : forall x r, In (x, r) (g_versions g) -> sle x now;
  di_bases : forall c rows, In (c, rows) (g_bases g) -> sle c now /\ current g dels c rows;
  di_blocks : forall b x rows, In (b, x, rows) (g_blocks g) -> sle x now
     /\ In b (map fst (g_bases g)) /\ slt b x /\ (forall c, In c (map fst (g_bases g)) -> sle c b \/ slt x c)
     /\ (~ In x (g_failed g) -> forall r, In r rows -> In (x, r) (g_versions g));
  di_written : forall x r, In (x, r) (g_versions g) -> In x (map fst (g_bases g)) \/ (exists b rows, In (b, x, rows) (g_blocks g) /\ In r rows)
     \/ (exists c, In c (map fst (g_bases g))) /\ forall c, In c (map fst (g_bases g)) -> sle x c;
  di_failed : forall x, In x (g_failed g) -> sle x now /\ (forall r, ~ In (x, r) (g_versions g));
  di_rollbacks : forall b y x, In (b, y, x) (g_rollbacks g) -> In x (g_failed g);
  di_deletes : forall d key, In (d, key) dels -> sle d now /\ In d (map fst (g_bases g))
}.

Lemma more_bases : forall A (l : list A) x, (l ++ [x])%list = l -> False.
Proof. intros A l x E. apply (f_equal (@List.length A)) in E. rewrite app_length in E. cbn in E. lia. Qed.

Lemma dhistory_inv : forall now g dels, dhistory k p s now g dels -> dinv now g dels.
Proof.
  intros now g dels H. induction H as [|x moved rows T M La|now g dels x g' dels' H IH T Lt Wr].
  { constructor; cbn; intros; contradiction. }
  { constructor; cbn; try (intros; contradiction).
    - exact M.
    - intros c rs [[= <- <-]|[]]. split; [apply sle_refl|]. destruct La as [N [K L]]. split; [exact N|]. split.
      + intros y r [I _]. cbn in I. apply K. apply in_map_iff. now exists (y, r).
      + intros r I. destruct (L r I) as [J N']. split.
        * apply in_map_iff in J as [[y r'] [E J]]. cbn in E. subst r'. exists y. split; [exact J|]. split; [now apply (M y r)|]. intros [d [[] _]].
        * intros y r' [J' _]. apply N'. apply in_map_iff. now exists (y, r').
    - intros y r I. right. right. split; [exists x; now left|]. intros c [ <- |[]]. now apply (M y r). }
  destruct IH as [V B K W F R D]. assert (NX : forall y, sle y now -> ~ y = x /\ ~ sle x y).
  { intros y L. split; [intros ->|intros L2]; [now apply slt_not_sle in Lt|]. apply slt_not_sle in Lt. apply Lt. eapply sle_trans; eauto. }
  assert (UP : forall y, sle y now -> sle y x) by (intros y L; eapply sle_trans; [exact L|now apply slt_sle]).
  assert (BT : forall c, In c (map fst (g_bases g)) -> sle c now) by (intros c I; apply in_map_iff in I as [[c' rs] [<- I]]; now apply (B _ _ I)).
  destruct Wr as [gone new old rows Ho La|g' Wr Eb].
  - constructor; cbn.
    + intros y r I. apply in_app_or in I as [I|I]; [apply UP, (V y r I)|]. apply in_pairs in I as [-> _]. apply sle_refl.
    + intros c rs I. apply in_app_or in I as [I|[[= <- <-]|[]]].
      * destruct (B _ _ I) as [L C]. split; [now apply UP|]. apply (current_alive_more g _ dels); [| |exact C]; cbn.
        -- intros y r Le. rewrite in_app_iff, in_pairs. split; [|tauto]. intros [J|[-> _]]; [exact J|]. exfalso. now apply (NX c L).
        -- intros d key Le. rewrite in_app_iff, in_pairs. split; [|tauto]. intros [J|[-> _]]; [exact J|]. exfalso. now apply (NX c L).
      * split; [apply sle_refl|].
        assert (E : forall r, In r (old ++ new)%list <-> exists y, alive {| g_versions := (g_versions g ++ map (pair x) new)%list; g_bases := (g_bases g ++ [(x, rows)])%list;
                       g_blocks := g_blocks g; g_failed := g_failed g; g_rollbacks := g_rollbacks g |} (dels ++ map (pair x) gone)%list x y r).
        { intros r. rewrite in_app_iff, Ho. unfold S_Deletes.alive. cbn. split.
          - intros [[[y [J [Ly N]]] Ng]|J].
            + exists y. split; [apply in_or_app; now left|]. split; [exact Ly|]. intros [d [Id [L1 L2]]]. apply in_app_or in Id as [Id|Id]; [apply N; eauto|]. apply in_pairs in Id as [_ Id]. now apply Ng.
            + exists x. split; [apply in_or_app; right; apply in_pairs; auto|]. split; [apply sle_refl|]. intros [d [_ [L1 L2]]]. now apply slt_not_sle in L1.
          - intros [y [J [Ly N]]]. apply in_app_or in J as [J|J]; [|apply in_pairs in J as [_ J]; now right]. left. split.
            + exists y. split; [exact J|]. split; [exact Ly|]. intros [d [Id L]]. apply N. exists d. split; [apply in_or_app; now left|exact L].
            + intros Ig. apply N. exists x. split; [apply in_or_app; right; apply in_pairs; auto|]. split; [|apply sle_refl]. eapply sle_slt_trans; [exact (V _ _ J)|exact Lt]. }
        destruct La as [N1 [N2 N3]]. split; [exact N1|]. split.
        -- intros y r A. apply N2. apply E. eauto.
        -- intros r I. destruct (N3 r I) as [M1 M2]. split; [now apply E|]. intros y r' A. apply M2. apply E. eauto.
    + intros b y rs I. destruct (K _ _ _ I) as [K1 [K3 [K4 [K5 K6]]]]. split; [now apply UP|]. rewrite map_app. split; [apply in_or_app; now left|]. split; [exact K4|]. split.
      * intros c J. apply in_app_or in J as [J|[ <- |[]]]; [now apply K5|]. right. eapply sle_slt_trans; eauto.
      * intros N r J. apply in_or_app. left. now apply K6.
    + intros y r I. rewrite map_app. apply in_app_or in I as [I|I].
      * destruct (W _ _ I) as [J|[J|[[c J1] J2]]]; [left; apply in_or_app; now left|right; now left|]. right. right. split; [exists c; apply in_or_app; now left|].
        intros d Q. apply in_app_or in Q as [Q|[ <- |[]]]; [now apply J2|]. apply UP, (V y r I).
      * apply in_pairs in I as [-> _]. left. apply in_or_app. right. now left.
    + intros y I. destruct (F _ I) as [L N]. split; [now apply UP|]. intros r J. apply in_app_or in J as [J|J]; [now apply (N r)|]. apply in_pairs in J as [-> _]. now apply (proj1 (NX x L)).
    + exact R.
    + intros d key I. rewrite map_app. apply in_app_or in I as [I|I].
      * destruct (D _ _ I) as [L J]. split; [now apply UP|]. apply in_or_app. now left.
      * apply in_pairs in I as [-> _]. split; [apply sle_refl|]. apply in_or_app. right. now left.
  - destruct Wr as [new rows La|b new Nb|rows La|b rows Nb|x0 b rows If Ib]; cbn in Eb; try (exfalso; exact (more_bases _ _ _ Eb)); clear Eb.
    + constructor; cbn; [| | | | |exact R|].
      * intros y r I. apply in_app_or in I as [I|I]; [apply UP, (V y r I)|]. apply in_pairs in I as [-> _]. apply sle_refl.
      * intros c rs I. destruct (B _ _ I) as [L C]. split; [now apply UP|]. apply (current_alive_more g _ dels); [|tauto|exact C]. cbn. intros y r Le. rewrite in_app_iff, in_pairs. split; [|tauto].
        intros [J|[-> _]]; [exact J|]. exfalso. now apply (NX c L).
      * intros c y rs I. apply in_app_or in I as [I|[[= <- <- <-]|[]]].
        -- destruct (K _ _ _ I) as [K1 [K3 [K4 [K5 K6]]]]. split; [now apply UP|]. split; [exact K3|]. split; [exact K4|]. split; [exact K5|]. intros N r J. apply in_or_app. left. now apply K6.
        -- destruct Nb as [Nb1 Nb2]. split; [apply sle_refl|]. split; [exact Nb1|]. split; [eapply sle_slt_trans; [apply BT, Nb1|exact Lt]|]. split; [intros c J; left; now apply Nb2|].
           intros _ r J. apply in_or_app. right. apply in_pairs. auto.
      * intros y r I. apply in_app_or in I as [I|I].
        -- destruct (W _ _ I) as [J|[[b' [rs [J1 J2]]]|J]]; [now left| |right; now right]. right. left. exists b', rs. split; [apply in_or_app; now left|exact J2].
        -- apply in_pairs in I as [-> I]. right. left. exists b, new. split; [apply in_or_app; right; now left|exact I].
      * intros y I. destruct (F _ I) as [L N]. split; [now apply UP|]. intros r J. apply in_app_or in J as [J|J]; [now apply (N r)|]. apply in_pairs in J as [-> _]. now apply (proj1 (NX x L)).
      * intros d key I. destruct (D _ _ I) as [L J]. split; [now apply UP|exact J].
    + constructor; cbn.
      * intros y r I. apply UP, (V y r I).
      * intros c rs I. destruct (B _ _ I) as [L C]. split; [now apply UP|]. apply (current_alive_more g _ dels); [cbn; tauto|tauto|exact C].
      * intros c y rs I. apply in_app_or in I as [I|[[= <- <- <-]|[]]].
        -- destruct (K _ _ _ I) as [K1 [K3 [K4 [K5 K6]]]]. split; [now apply UP|]. split; [exact K3|]. split; [exact K4|]. split; [exact K5|]. intros N. apply K6. intros J. apply N. apply in_or_app. now left.
        -- destruct Nb as [Nb1 Nb2]. split; [apply sle_refl|]. split; [exact Nb1|]. split; [eapply sle_slt_trans; [apply BT, Nb1|exact Lt]|]. split; [intros c J; left; now apply Nb2|].
           intros N. exfalso. apply N. apply in_or_app. right. now left.
      * intros y r I. destruct (W _ _ I) as [J|[[b' [rs [J1 J2]]]|J]]; [now left| |right; now right]. right. left. exists b', rs. split; [apply in_or_app; now left|exact J2].
      * intros y I. apply in_app_or in I as [I|[ <- |[]]].
        -- destruct (F _ I) as [L N]. split; [now apply UP|exact N].
        -- split; [apply sle_refl|]. intros r J. apply V in J. now apply slt_not_sle in Lt.
      * intros b' y z I. apply in_or_app. left. now apply (R b' y).
      * intros d key I. destruct (D _ _ I) as [L J]. split; [now apply UP|exact J].
    + constructor; cbn; try assumption.
      * intros y r I. apply UP, (V y r I).
      * intros c rs I. destruct (B _ _ I) as [L C]. split; [now apply UP|]. apply (current_alive_more g _ dels); [cbn; tauto|tauto|exact C].
      * intros c y' rs I. destruct (K _ _ _ I) as [K1 K2]. split; [now apply UP|exact K2].
      * intros y' I. destruct (F _ I) as [L N]. split; [now apply UP|exact N].
      * intros b' y' z I. apply in_app_or in I as [I|[[= <- <- <-]|[]]]; [now apply (R b' y')|exact If].
      * intros d key I. destruct (D _ _ I) as [L J]. split; [now apply UP|exact J].
Qed.

(** The versions that count at [t] are those that count at the newest base file up to [t], and those of the surviving blocks of its log. *)
Lemma alive_split : forall now g dels t b, dinv now g dels -> clean_at g t ->
  In b (map fst (g_bases g)) -> sle b t -> (forall c, In c (map fst (g_bases g)) -> sle c t -> sle c b) ->
  forall r, (exists x, alive g dels t x r)
    <-> (exists x, alive g dels b x r)
        \/ exists x rows, In (b, x, rows) (g_blocks g) /\ In r rows /\ sle x t /\ ~ exists y, In (b, y, x) (g_rollbacks g) /\ sle y t.
Proof.
  intros now g dels t b I C Ib Lb Mb r. split.
  - intros [x [J [L N]]]. assert (Base : sle x b -> exists x, alive g dels b x r).
    { intros Le. exists x. split; [exact J|]. split; [exact Le|]. intros [d [Id [L1 L2]]]. apply N. exists d. split; [exact Id|]. split; [exact L1|]. eapply sle_trans; eauto. }
    destruct (sle_total x b) as [Le|Le]; [left; auto|]. apply sle_lt_or_eq in Le as [Le| ->]; [|left; apply Base, sle_refl].
    right. destruct (di_written _ _ _ I _ _ J) as [Jb|[[b' [rows [K1 K2]]]|[_ Jm]]].
    + exfalso. apply slt_not_sle in Le. apply Le. now apply Mb.
    + destruct (di_blocks _ _ _ I _ _ _ K1) as [_ [B1 [B2 [B3 _]]]].
      assert (b' = b) as ->.
      { apply sle_antisym; [apply Mb; [exact B1|]|].
        - apply slt_sle. eapply slt_sle_trans; eauto.
        - destruct (B3 b Ib) as [B|B]; [exact B|]. exfalso. apply slt_not_sle in B. apply B. now apply slt_sle. }
      exists x, rows. split; [exact K1|]. split; [exact K2|]. split; [exact L|]. intros [y [R _]]. apply (di_rollbacks _ _ _ I) in R. now apply (proj2 (di_failed _ _ _ I _ R) r).
    + exfalso. apply slt_not_sle in Le. apply Le. now apply Jm.
  - intros [[x [J [L N]]]|[x [rows [K1 [K2 [L N]]]]]].
    + exists x. split; [exact J|]. split; [eapply sle_trans; eauto|]. intros [d [Id [L1 L2]]]. apply N. exists d. split; [exact Id|]. split; [exact L1|]. apply Mb; [now apply (di_deletes _ _ _ I _ _ Id)|exact L2].
    + destruct (di_blocks _ _ _ I _ _ _ K1) as [_ [_ [B2 [_ B]]]]. exists x. split; [apply B; [|exact K2]; intros F; apply N; eapply C; eauto|]. split; [exact L|].
      intros [d [Id [L1 L2]]]. assert (Ld : sle d b) by (apply Mb; [now apply (di_deletes _ _ _ I _ _ Id)|exact L2]). apply slt_not_sle in B2. apply B2. eapply sle_trans; [now apply slt_sle; exact L1|exact Ld].
Qed.

Definition aliveb (dels : deletions) (t : string) (v : string * list cell) : bool :=
  sleb (fst v) t && negb (existsb (fun d => String.eqb (snd d) (key_at k (snd v)) && sltb (fst v) (fst d) && sleb (fst d) t) dels).
Lemma aliveb_spec : forall g dels t x r, In (x, r) (g_versions g) -> (aliveb dels t (x, r) = true <-> alive g dels t x r).
Proof.
  intros g dels t x r I. unfold aliveb, S_Deletes.alive. cbn [fst snd]. rewrite andb_true_iff, sleb_spec, negb_true_iff. split.
  - intros [L N]. split; [exact I|]. split; [exact L|]. intros [d [Id [L1 L2]]]. apply not_true_iff_false in N. apply N. apply existsb_exists. exists (d, key_at k r). split; [exact Id|]. cbn.
    rewrite String.eqb_refl. apply andb_true_iff. split; [now apply sltb_spec|now apply sleb_spec].
  - intros [_ [L N]]. split; [exact L|]. apply not_true_iff_false. intros E. apply existsb_exists in E as [[d key] [Id E]]. cbn in E. apply andb_true_iff in E as [E E2]. apply andb_true_iff in E as [E0 E1].
    apply String.eqb_eq in E0. subst key. apply N. exists d. split; [exact Id|]. split; [now apply sltb_spec|now apply sleb_spec].
Qed.

Lemma current_alive_merge : forall sch pn sn now g dels t b base kept out, column_at sch pn p -> column_at sch sn s ->
  dinv now g dels -> clean_at g t -> (forall x r, In (x, r) (g_versions g) -> wf_row sch r) ->
  In (b, base) (g_bases g) -> sle b t -> (forall c, In c (map fst (g_bases g)) -> sle c t -> sle c b) ->
  (forall r, In r kept <-> exists x rows, In (b, x, rows) (g_blocks g) /\ In r rows /\ sle x t /\ ~ exists y, In (b, y, x) (g_rollbacks g) /\ sle y t) ->
  latest_rows k p s (base ++ kept)%list out -> current g dels t out.
Proof.
  intros sch pn sn now g dels t b base kept out P S I C W Ib Lb Mb Hk L.
  set (vs := map snd (filter (aliveb dels b) (g_versions g))).
  assert (Hv : forall r, In r vs <-> exists x, alive g dels b x r).
  { intros r. unfold vs. rewrite in_map_iff. split.
    - intros [[x r'] [E J]]. cbn in E. subst r'. apply filter_In in J as [J1 J2]. exists x. now apply aliveb_spec.
    - intros [x A]. exists (x, r). split; [reflexivity|]. apply filter_In. split; [exact (proj1 A)|]. apply (aliveb_spec g); [exact (proj1 A)|exact A]. }
  assert (Ib' : In b (map fst (g_bases g))) by (apply in_map_iff; now exists (b, base)).
  assert (Sp := alive_split now g dels t b I C Ib' Lb Mb).
  assert (Lv : latest_rows k p s vs base).
  { destruct (proj2 (di_bases _ _ _ I _ _ Ib)) as [D [K N]]. split; [exact D|]. split.
    - intros r J. apply Hv in J as [x A]. now apply (K x).
    - intros r J. destruct (N r J) as [N1 N2]. split; [now apply Hv|]. intros r' J'. apply Hv in J' as [x A]. now apply (N2 x r'). }
  assert (In_all : forall r, In r (vs ++ kept)%list <-> exists x, alive g dels t x r).
  { intros r. rewrite in_app_iff, Hv, Hk. symmetry. apply Sp. }
  assert (La : latest_rows k p s (vs ++ kept)%list out).
  { apply (latest_stages sch pn sn k p s vs kept base out P S); [|exact Lv|exact L]. apply Forall_forall. intros r J. apply In_all in J as [x J]. now apply (W x), J. }
  destruct La as [D [K N]]. split; [exact D|]. split.
  - intros x r A. apply K. apply In_all. eauto.
  - intros r J. destruct (N r J) as [N1 N2]. split; [now apply In_all|]. intros x r' A. apply N2. apply In_all. eauto.
Qed.
End Histories.

(** ** Reading the current slice *)
Section Reading.
Variable avro_schema avro_value : Type.
Variable parse_schema : string -> option avro_schema.
Variable datum : avro_schema -> string -> option (avro_value * string).
Variable check_schema : avro_schema -> outcome unit.
Variable to_batch : avro_schema -> list avro_value -> outcome record_batch.
Variable parquet : string -> option (list record_batch).
Variable read_parquet : string -> outcome record_batch.
Variable bytes : string -> outcome string.
Variable local_to_utc : ndt -> option ndt.
Variable k p s : nat.
Notation laid_out := (laid_out avro_schema avro_value parse_schema datum check_schema to_batch parquet read_parquet bytes).
Notation read_slice sort iter := (read_file_slice sort iter read_parquet avro_schema avro_value parse_schema datum check_schema to_batch parquet local_to_utc bytes).

(** Slices of a file group may be missing, as long as the newest one up to [t] is there: [g'] is what is left of [g]. *)
Record left_of (t : string) (g' g : group) : Prop := {
  lf_versions : g_versions g' = g_versions g;
  lf_bases : forall c rows, In (c, rows) (g_bases g') -> In (c, rows) (g_bases g);
  lf_newest : forall c, In c (map fst (g_bases g')) -> sle c t -> (forall c', In c' (map fst (g_bases g')) -> sle c' t -> sle c' c) ->
     forall c', In c' (map fst (g_bases g)) -> sle c' t -> sle c' c;
  lf_blocks : forall c x rows, In c (map fst (g_bases g')) -> In (c, x, rows) (g_blocks g') <-> In (c, x, rows) (g_blocks g);
  lf_rollbacks : forall c y x, In c (map fst (g_bases g')) -> In (c, y, x) (g_rollbacks g') <-> In (c, y, x) (g_rollbacks g)
}.
Lemma left_all : forall t g, left_of t g g.
Proof. intros t g. constructor; auto; intros; reflexivity. Qed.
Lemma slice_left : forall sort iter m t now format part sch listed contents g' g dels slice, sorts sort -> visits iter ->
  read_start m = None -> read_end m = Some t -> timestamp t -> in_utc m -> oget "hoodie.read.use.read_optimized.mode" m <> Some "true" ->
  merges_latest m -> merge_columns m sch p s k ->
  shows_newest format listed part t slice -> laid_out format part (bf_file_id (fs_base slice)) sch listed contents g' ->
  left_of t g' g -> dhistory k p s now g dels -> clean_at g t ->
  exists out, read_slice sort iter m slice = Ok out /\ rb_fields out = sch /\ current_alive k p s g dels t (rb_rows out).
Proof.
  intros sort iter m t now format part sch listed contents g' g dels slice HS HI RS RE Tt U RO ML MC SN LO LF H CL.
  pose proof (dhistory_inv _ _ _ _ _ _ H) as I. destruct SN as [m0 [b0 [B1 [B2 [B3 [B4 [B5 [B6 [B7 [B8 B9]]]]]]]]]]. rewrite B3 in LO.
  set (id := bf_file_id b0) in *. set (c := bf_commit b0) in *.
  assert (Bo : base_of format id listed m0 c) by (exists b0; auto).
  assert (Ic' : In c (map fst (g_bases g'))) by (apply LO; eauto). pose proof Ic' as Ic. apply in_map_iff in Ic as [[c' rows] [E Ibl]]. cbn in E. subst c'. pose proof (lf_bases _ _ _ LF _ _ Ibl) as Ib.
  assert (Ic : In c (map fst (g_bases g))) by (apply in_map_iff; now exists (c, rows)).
  assert (Bp : base_relative_path slice = file_path part (fm_name m0)).
  { unfold base_relative_path. rewrite B2, B4. rewrite path_is; [|apply LO|apply (base_name_start id b0); [apply LO|reflexivity]]. now rewrite (lo_names _ _ _ _ _ _ _ _ _ _ _ _ _ _ _ _ LO m0 b0 B1 eq_refl). }
  assert (Rb : read_base_file read_parquet m (base_relative_path slice) = Ok {| rb_fields := sch; rb_rows := rows |}).
  { apply base_all; [|now right]. rewrite Bp. exact (lo_rows _ _ _ _ _ _ _ _ _ _ _ _ _ _ _ _ LO m0 c rows Bo Ibl). }
  assert (Mx : forall c', In c' (map fst (g_bases g)) -> sle c' t -> sle c' c).
  { apply (lf_newest _ _ _ LF c Ic' B6). intros c' J L. apply LO in J as [m' [b' [J1 [J2 J3]]]]. rewrite <- J3 in L |- *. now apply (B7 m' b'). }
  assert (Ty := lo_typed _ _ _ _ _ _ _ _ _ _ _ _ _ _ _ _ LO). rewrite (lf_versions _ _ _ LF) in Ty. assert (Wr : Forall (wf_row sch) rows).
  { apply Forall_forall. intros r Ir. destruct (proj2 (di_bases _ _ _ _ _ _ I _ _ Ib)) as [_ [_ L]]. destruct (L r Ir) as [[x [Ix _]] _]. now apply (Ty x). }
  destruct (MC) as [[pn [pt [_ [[CP _] _]]]] [[CS _] _]].
  assert (HL : forall l, In l (fs_logs slice) -> exists m, log_of format id listed m c /\ fm_name m = log_file_name l).
  { intros l Il. destruct (B9 l Il) as [m' [L1 [L2 L3]]]. exists m'. split; [exists l; auto|]. destruct L1 as [_ [_ [_ L1]]]. now rewrite (log_name_reprint _ _ _ L1). }
  assert (All : forall fm, log_of format id listed fm c -> in_logs slice fm).
  { intros fm [l [L1 [L2 L3]]]. destruct (proj2 (B8 (lf_version l) (lf_write_token l))) as [l' [I1 [I2 I3]]]; [exists fm, l; auto|]. destruct (B9 l' I1) as [m' [L4 [L5 L6]]].
    assert (m' = fm) as -> by (apply (lo_distinct _ _ _ _ _ _ _ _ _ _ _ _ _ _ _ _ LO m' l' fm l); congruence).
    exists l'. split; [exact I1|]. destruct L4 as [_ [_ [_ L4]]]. now rewrite (log_name_reprint _ _ _ L4). }
  assert (TS : forall a, read_start m = Some a -> timestamp a) by (intros a; rewrite RS; discriminate).
  assert (TE : forall a, read_end m = Some a -> timestamp a) by (intros a; rewrite RE; intros [= <-]; exact Tt).
  destruct (fs_logs slice) as [|l0 ls] eqn:El.
  - exists {| rb_fields := sch; rb_rows := rows |}. split; [rewrite slice_read_optimized; [exact Rb|now right]|]. split; [reflexivity|].
    apply (current_alive_merge k p s sch pn "_hoodie_commit_seqno" now g dels t c rows [] rows CP CS I CL Ty Ib B6 Mx).
    + intros r. split; [intros []|]. intros [x [rs [J1 [J2 _]]]]. apply (lf_blocks _ _ _ LF c x rs Ic') in J1. destruct (proj1 (lo_blocks _ _ _ _ _ _ _ _ _ _ _ _ _ _ _ _ LO c x r)) as [fm [w [bs [J3 _]]]]; [eauto|].
      destruct (All fm J3) as [l [Il _]]. rewrite El in Il. destruct Il.
    + cbn [rb_rows]. rewrite app_nil_r. destruct (proj2 (di_bases _ _ _ _ _ _ I _ _ Ib)) as [D [K L]]. split; [exact D|]. split; [eauto|]. intros r J. split; [exact J|].
      intros r' J' E. destruct (L r' J') as [[x Jx] _]. now apply (proj2 (L r J) x r').
  - rewrite <- El in HL.
    destruct (slice_exact sort iter read_parquet avro_schema avro_value parse_schema datum check_schema to_batch parquet local_to_utc bytes
      m slice "utc" (slice_files contents slice) {| rb_fields := sch; rb_rows := rows |} p s k HS HI) as [kept [out [K [O1 [O2 O3]]]]]; try assumption.
    + rewrite El. discriminate.
    + now apply utc_is.
    + apply slice_paths.
    + exact (slice_file_ok avro_schema avro_value parse_schema datum check_schema to_batch parquet read_parquet bytes local_to_utc format part id sch listed contents g' LO slice c B2 HL m TS TE).
    + split; [reflexivity|exact Wr].
    + intros f x b If Ix Ib'. unfold slice_files in If. apply in_map_iff in If as [l [ <- Il]]. destruct (HL l Il) as [fm [Hm En]].
      destruct (lo_logs _ _ _ _ _ _ _ _ _ _ _ _ _ _ _ _ LO fm c Hm) as [_ Hc]. rewrite En in Hc. destruct x as [w bs]. cbn [snd] in Ix, Ib'. destruct (Hc w bs Ix) as [_ [W _]]. rewrite Forall_forall in W. now apply W.
    + exists out. split; [exact O1|]. split; [exact O2|]. cbn [rb_rows] in O3.
      apply (current_alive_merge k p s sch pn "_hoodie_commit_seqno" now g dels t c rows (rows_of (List.concat (map snd kept))) (rb_rows out) CP CS I CL Ty Ib B6 Mx); [|exact O3].
      assert (RT : forall x, range_test (read_start m) (read_end m) x = true <-> sle x t).
      { intros x. unfold range_test. rewrite RS, RE. cbn [andb]. apply sleb_spec. }
      intros r. rewrite (kept_rows avro_schema avro_value parse_schema datum check_schema to_batch parquet read_parquet bytes local_to_utc format part id sch listed contents g' LO slice c HL m kept TS TE K r). split.
      * intros [x [fm [w [bs [J1 [J2 [J3 [J4 [J5 [J6 J7]]]]]]]]]].
        destruct (proj2 (lo_blocks _ _ _ _ _ _ _ _ _ _ _ _ _ _ _ _ LO c x r)) as [rs [J8 J9]]; [exists fm, w, bs; auto|].
        apply (lf_blocks _ _ _ LF c x rs Ic') in J8. exists x, rs. split; [exact J8|]. split; [exact J9|]. split; [now apply RT|]. intros [y [Ry Ly]]. apply J7. apply (lf_rollbacks _ _ _ LF c y x Ic') in Ry.
        apply (lo_rollbacks _ _ _ _ _ _ _ _ _ _ _ _ _ _ _ _ LO) in Ry as [fm' [w' [bs' [R1 [R2 [R3 R4]]]]]]. exists fm', w', bs', y. split; [exact R1|]. split; [now apply All|]. repeat (split; [assumption|]). now apply RT.
      * intros [x [rs [J1 [J2 [J3 J4]]]]]. apply (lf_blocks _ _ _ LF c x rs Ic') in J1. destruct (proj1 (lo_blocks _ _ _ _ _ _ _ _ _ _ _ _ _ _ _ _ LO c x r)) as [fm [w [bs [J5 [J6 [J7 J8]]]]]]; [eauto|].
        exists x, fm, w, bs. split; [exact J5|]. split; [now apply All|]. repeat (split; [assumption|]). split; [now apply RT|].
        intros [fm' [w' [bs' [y [R1 [R2 [R3 [R4 [R5 R6]]]]]]]]]. apply J4. exists y. split; [|now apply RT]. apply (lf_rollbacks _ _ _ LF c y x Ic'). apply (lo_rollbacks _ _ _ _ _ _ _ _ _ _ _ _ _ _ _ _ LO). eauto 8.
Qed.
End Reading.

(** ** The queries of a table *)
Section Queries.
Variable dtype value : Type.
Variable cast : dtype -> string -> option value.
Variable cmp : value -> value -> option comparison.
Variable avro_schema avro_value : Type.
Variable parse_schema : string -> option avro_schema.
Variable datum : avro_schema -> string -> option (avro_value * string).
Variable check_schema : avro_schema -> outcome unit.
Variable to_batch : avro_schema -> list avro_value -> outcome record_batch.
Variable parquet : string -> option (list record_batch).
Variable local_to_utc : ndt -> option ndt.
Variable st : store dtype.
Variable tb : table.
Variable sch : list field.
Variable p s k : nat.
Hypothesis MT : merging_table tb sch p s k.
Notation as_of := (get_file_slices_as_of dtype value cast cmp local_to_utc st tb).
Notation after := (view_after dtype value cast cmp local_to_utc st tb).
Notation reads := (read_snapshot_as_of dtype value cast cmp avro_schema avro_value parse_schema datum check_schema to_batch parquet local_to_utc st tb).
Notation lays_out format part id listed := (laid_out avro_schema avro_value parse_schema datum check_schema to_batch parquet (st_parquet _ st) (st_bytes _ st) format part id sch listed).

Lemma snapshot_left : forall root, serves_dirs root (st_dirs _ st) -> wf_tree root -> StronglySorted instant_le (t_commits tb) ->
  forall c c' t filters batches format, after c -> base_format (t_configs tb) = Ok format -> timestamp t ->
  reads t filters c c' (Ok batches) ->
  exists ss, as_of t filters c c' (Ok ss)
    /\ Forall2 (fun slice batch => forall now g' g dels listed contents, left_of t g' g -> dhistory k p s now g dels -> clean_at g t ->
         st_files _ st (fs_partition slice) = Ok listed -> lays_out format (fs_partition slice) (bf_file_id (fs_base slice)) listed contents g' ->
         rb_fields batch = sch /\ current_alive k p s g dels t (rb_rows batch)) ss batches.
Proof.
  intros root Sv Wf So c c' t filters batches format Hc F Tt R. inversion R as [| |c0 c1 ss r Q RS]; subst. exists ss. split; [exact Q|].
  assert (SN := as_of_newest dtype value cast cmp local_to_utc st tb root Sv Wf So c c' t filters ss format Hc Q F).
  inversion RS as [| |iter os r PI [_ F2] J]; subst. apply joined_ok in J. subst os. cbn zeta in F2.
  destruct (reader_settings tb sch p s k MT iter PI t) as [S1 [S2 [S3 [S4 [S5 S6]]]]].
  set (m := fst (table_reader_options iter (t_configs tb) (t_storage tb) [("hoodie.read.file_group.end_timestamp", t)])) in *. clearbody m. clear Q R RS.
  remember (map Ok batches) as os eqn:Eo. revert batches Eo SN. induction F2 as [|slice o ss os [sort [visit [HS [HV Ho]]]] F2 IH]; intros batches Eo SN.
  - destruct batches; [constructor|discriminate].
  - destruct batches as [|b batches]; [discriminate|]. cbn in Eo. injection Eo as -> Eo. constructor; [|apply IH; [exact Eo|intros; apply SN; now right]].
    intros now g' g dels listed contents LF Hh Cl El Lo. destruct (SN slice (or_introl eq_refl)) as [listed' [El' Sn]]. rewrite El in El'. injection El' as <-.
    destruct (slice_left avro_schema avro_value parse_schema datum check_schema to_batch parquet (st_parquet _ st) (st_bytes _ st) local_to_utc k p s sort visit m t now format (fs_partition slice) sch listed contents g' g dels slice)
      as [out [O1 [O2 O3]]]; try assumption. rewrite O1 in Ho. injection Ho as <-. auto.
Qed.
Lemma snapshot_alive : forall root, serves_dirs root (st_dirs _ st) -> wf_tree root -> StronglySorted instant_le (t_commits tb) ->
  forall c c' t filters batches format, after c -> base_format (t_configs tb) = Ok format -> timestamp t ->
  reads t filters c c' (Ok batches) ->
  exists ss, as_of t filters c c' (Ok ss)
    /\ Forall2 (fun slice batch => forall now g dels listed contents, dhistory k p s now g dels -> clean_at g t ->
         st_files _ st (fs_partition slice) = Ok listed -> lays_out format (fs_partition slice) (bf_file_id (fs_base slice)) listed contents g ->
         rb_fields batch = sch /\ current_alive k p s g dels t (rb_rows batch)) ss batches.
Proof.
  intros root Sv Wf So c c' t filters batches format Hc F Tt R. destruct (snapshot_left root Sv Wf So c c' t filters batches format Hc F Tt R) as [ss [A B]]. exists ss. split; [exact A|]. clear -B.
  induction B as [|slice batch ss' bs H B IH]; constructor; [|apply IH]. intros now g dels listed contents. apply H. apply left_all.
Qed.
End Queries.
