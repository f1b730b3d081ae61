(** Records returned by the queries of a table. *)
From Verif Require Import Base Str L_Base L_Str M_Time M_Instant M_Timeline M_FileGroup M_Builder M_Listing M_Expr M_Log M_Config M_Reader M_Table
  S_Time S_Timeline S_FileGroup S_Builder S_Listing S_Expr S_Log S_Reader S_Config S_Table S_History
  L_Config L_Reader L_Table L_History.
From Coq Require Import Sorted.
Local Open Scope string_scope.

(** ** The options of the reader *)
Definition same_option (key : string) (m m' : options) : Prop := oget key m = oget key m'.
Lemma merges_same : forall m m', same_option "hoodie.table.record.merge.strategy" m m' -> same_option "hoodie.populate.meta.fields" m m' ->
  same_option "hoodie.table.precombine.field" m m' -> merges_latest m -> merges_latest m'.
Proof. unfold same_option, merges_latest. intros m m' E1 E2 E3. rewrite E1, E2, E3. auto. Qed.
Lemma columns_same : forall m m' sch p s k, same_option "hoodie.table.precombine.field" m m' -> merge_columns m sch p s k -> merge_columns m' sch p s k.
Proof. unfold same_option, merge_columns. intros m m' sch p s k E. rewrite E. auto. Qed.
Lemma no_hudi : forall storage key, one_per_key storage -> (forall k v r, In (k, v) storage -> k <> "hoodie." ++ r) -> is_hudi key = true -> oget key storage = None.
Proof.
  intros storage key D N H. destruct (oget key storage) as [v|] eqn:E; [|reflexivity]. apply oget_in in E; [|exact D]. unfold is_hudi in H. apply starts_with_spec in H as [r H]. now apply N with (r := r) in E.
Qed.
Lemma reader_option : forall iter tb opts key, (forall m, Permutation (iter m) m) -> one_per_key (t_storage tb) -> (forall k v r, In (k, v) (t_storage tb) -> k <> "hoodie." ++ r) -> is_hudi key = true ->
  oget key (fst (table_reader_options iter (t_configs tb) (t_storage tb) opts)) = first_given [last_value opts key; oget key (t_configs tb)].
Proof.
  intros iter tb opts key P D N H. rewrite (proj1 (reader_get iter P (t_configs tb) (t_storage tb) opts key D)). rewrite H, (no_hudi _ _ D N H). cbn. destruct (last_value opts key); reflexivity.
Qed.

Lemma joined_ok : forall A (os : list (outcome A)) l, joined os (Ok l) -> os = map Ok l.
Proof. intros A os l H. inversion H; subst; reflexivity. Qed.
Lemma joined_all : forall A (os : list (outcome A)) r, (forall o, In o os -> exists x, o = Ok x) -> joined os r -> exists l, r = Ok l.
Proof.
  intros A os r H J. inversion J as [l|os' e I|os' I]; subst; [eauto| |]; destruct (H _ I) as [x E]; discriminate.
Qed.

Section Queries.
Variable dtype value : Type.
Variable cast : dtype -> string -> option value.
Variable cmp : value -> value -> option comparison.
Variable avro_schema avro_value : Type.
Variable parse_schema : string -> option avro_schema.
Variable datum : avro_schema -> string -> option (avro_value * string).
Variable check_schema : avro_schema -> outcome unit.
Variable to_batch : avro_schema -> list avro_value -> outcome record_batch.
Variable parquet : string -> option (list record_batch).
Variable local_to_utc : ndt -> option ndt.
Variable st : store dtype.
Variable tb : table.
Variable sch : list field.
Variable p s k : nat.
Hypothesis MT : merging_table tb sch p s k.
Notation as_of := (get_file_slices_as_of dtype value cast cmp local_to_utc st tb).
Notation after := (view_after dtype value cast cmp local_to_utc st tb).
Notation reads := (read_snapshot_as_of dtype value cast cmp avro_schema avro_value parse_schema datum check_schema to_batch parquet local_to_utc st tb).
Notation slices_read := (read_slices dtype avro_schema avro_value parse_schema datum check_schema to_batch parquet local_to_utc st tb).
Notation lays_out format part id listed := (laid_out avro_schema avro_value parse_schema datum check_schema to_batch parquet (st_parquet _ st) (st_bytes _ st) format part id sch listed).

Section Reader.
Variable iter : options -> list (string * string).
Hypothesis PI : forall m, Permutation (iter m) m.
Variable t : string.
Let m := fst (table_reader_options iter (t_configs tb) (t_storage tb) [("hoodie.read.file_group.end_timestamp", t)]).

Lemma other_option : forall key, is_hudi key = true -> key <> "hoodie.read.file_group.end_timestamp" -> oget key m = oget key (t_configs tb).
Proof.
  intros key H N. unfold m. rewrite (reader_option iter tb _ key PI (proj1 (mt_storage _ _ _ _ _ MT)) (proj2 (mt_storage _ _ _ _ _ MT)) H). cbn [last_value].
  destruct (String.eqb_spec "hoodie.read.file_group.end_timestamp" key) as [E|E]; [now elim N|]. cbn. destruct (oget key (t_configs tb)); reflexivity.
Qed.
Lemma reader_settings : read_start m = None /\ read_end m = Some t /\ in_utc m /\ oget "hoodie.read.use.read_optimized.mode" m <> Some "true" /\ merges_latest m /\ merge_columns m sch p s k.
Proof.
  split; [unfold read_start; rewrite other_option by (reflexivity || discriminate); apply MT|].
  split; [unfold read_end, m; rewrite (reader_option iter tb _ _ PI (proj1 (mt_storage _ _ _ _ _ MT)) (proj2 (mt_storage _ _ _ _ _ MT))) by reflexivity; reflexivity|].
  split; [unfold in_utc; rewrite other_option by (reflexivity || discriminate); apply MT|].
  split; [rewrite other_option by (reflexivity || discriminate); apply MT|].
  destruct (mt_merge _ _ _ _ _ MT) as [M1 M2]. split.
  - apply (merges_same (t_configs tb)); try exact M1; unfold same_option; symmetry; apply other_option; (reflexivity || discriminate).
  - apply (columns_same (t_configs tb)); [unfold same_option; symmetry; apply other_option; (reflexivity || discriminate)|exact M2].
Qed.
End Reader.

(** The slices of a query are the newest of the listed files. *)
Lemma as_of_newest : forall root, serves_dirs root (st_dirs _ st) -> wf_tree root -> StronglySorted instant_le (t_commits tb) ->
  forall c c' t filters ss format, after c -> as_of t filters c c' (Ok ss) -> base_format (t_configs tb) = Ok format ->
  forall slice, In slice ss -> exists listed, st_files _ st (fs_partition slice) = Ok listed /\ shows_newest format listed (fs_partition slice) t slice.
Proof.
  intros root Sv Wf So c c' t filters ss format Hc Q F slice I.
  destruct (as_of_inv dtype value cast cmp local_to_utc st tb root Sv Wf So c c' t filters ss Hc Q) as [fs [q [tz [dt [ps [h [u [pr [f [pt [_ [_ [_ [_ [_ [_ [_ [P2 [_ [P4 [_ [_ [S1 _]]]]]]]]]]]]]]]]]]]]]]].
  rewrite F in P2. injection P2 as <-. destruct (S1 slice I) as [part [listed [_ [L1 [L2 _]]]]]. rewrite P4 in L2.
  assert (fs_partition slice = part) as -> by (destruct L2 as [? [? [_ [E _]]]]; exact E). eauto.
Qed.

Lemma snapshot_records : forall root, serves_dirs root (st_dirs _ st) -> wf_tree root -> StronglySorted instant_le (t_commits tb) ->
  forall c c' t filters batches format, after c -> base_format (t_configs tb) = Ok format -> timestamp t ->
  reads t filters c c' (Ok batches) ->
  exists ss, as_of t filters c c' (Ok ss)
    /\ Forall2 (fun slice batch => forall now g listed contents, history k p s now g -> clean_at g t ->
         st_files _ st (fs_partition slice) = Ok listed -> lays_out format (fs_partition slice) (bf_file_id (fs_base slice)) listed contents g ->
         rb_fields batch = sch /\ current_at k p s g t (rb_rows batch)) ss batches.
Proof.
  intros root Sv Wf So c c' t filters batches format Hc F Tt R. inversion R as [| |c0 c1 ss r Q RS]; subst. exists ss. split; [exact Q|].
  assert (SN := as_of_newest root Sv Wf So c c' t filters ss format Hc Q F).
  inversion RS as [| |iter os r PI [_ F2] J]; subst. apply joined_ok in J. subst os. cbn zeta in F2.
  destruct (reader_settings iter PI t) as [S1 [S2 [S3 [S4 [S5 S6]]]]].
  set (m := fst (table_reader_options iter (t_configs tb) (t_storage tb) [("hoodie.read.file_group.end_timestamp", t)])) in *. clearbody m. clear Q R RS.
  remember (map Ok batches) as os eqn:Eo. revert batches Eo SN. induction F2 as [|slice o ss os [sort [visit [HS [HV Ho]]]] F2 IH]; intros batches Eo SN.
  - destruct batches; [constructor|discriminate].
  - destruct batches as [|b batches]; [discriminate|]. cbn in Eo. injection Eo as -> Eo. constructor; [|apply IH; [exact Eo|intros; apply SN; now right]].
    intros now g listed contents Hh Cl El Lo. destruct (SN slice (or_introl eq_refl)) as [listed' [El' Sn]]. rewrite El in El'. injection El' as <-.
    destruct (snapshot_slice avro_schema avro_value parse_schema datum check_schema to_batch parquet (st_parquet _ st) (st_bytes _ st) local_to_utc k p s sort visit m t now format (fs_partition slice) sch listed contents g slice)
      as [out [O1 [O2 O3]]]; try assumption. rewrite O1 in Ho. injection Ho as <-. auto.
Qed.

(** ... and such reads succeed. *)
Lemma snapshot_succeeds : forall root, serves_dirs root (st_dirs _ st) -> wf_tree root -> StronglySorted instant_le (t_commits tb) ->
  (forall t, readers_open st tb [("hoodie.read.file_group.end_timestamp", t)]) ->
  forall c c' t filters ss format, after c -> base_format (t_configs tb) = Ok format -> timestamp t -> as_of t filters c c' (Ok ss) ->
  (forall slice listed, In slice ss -> st_files _ st (fs_partition slice) = Ok listed ->
     exists now g contents, history k p s now g /\ clean_at g t /\ lays_out format (fs_partition slice) (bf_file_id (fs_base slice)) listed contents g) ->
  forall r, slices_read [("hoodie.read.file_group.end_timestamp", t)] ss r -> exists batches, r = Ok batches.
Proof.
  intros root Sv Wf So Op c c' t filters ss format Hc F Tt Q LO r R.
  assert (SN := as_of_newest root Sv Wf So c c' t filters ss format Hc Q F).
  inversion R as [iter e PI E|iter PI E|iter os r' PI [_ F2] J]; subst; cbn zeta in *; try (rewrite (Op t iter PI) in E; discriminate).
  apply (joined_all _ os r); [|exact J].
  destruct (reader_settings iter PI t) as [S1 [S2 [S3 [S4 [S5 S6]]]]].
  set (m := fst (table_reader_options iter (t_configs tb) (t_storage tb) [("hoodie.read.file_group.end_timestamp", t)])) in *. clearbody m. clear Q R J.
  induction F2 as [|slice o ss os [sort [visit [HS [HV Ho]]]] F2 IH]; intros o' Io; [destruct Io|]. destruct Io as [ <- |Io].
  - destruct (SN slice (or_introl eq_refl)) as [listed [El Sn]]. destruct (LO slice listed (or_introl eq_refl) El) as [now [g [contents [Hh [Cl Lo]]]]].
    destruct (snapshot_slice avro_schema avro_value parse_schema datum check_schema to_batch parquet (st_parquet _ st) (st_bytes _ st) local_to_utc k p s sort visit m t now format (fs_partition slice) sch listed contents g slice)
      as [out [O1 [O2 O3]]]; try assumption. rewrite O1 in Ho. eauto.
  - apply IH; [|intros; apply SN; now right|exact Io]. intros sl l Isl. apply LO. now right.
Qed.
End Queries.

(** ** Only the versions matter *)
Lemma current_unique : forall k p s sch pn sn g g' t out out', column_at sch pn p -> column_at sch sn s ->
  (forall x r, In (x, r) (g_versions g) -> wf_row sch r) -> same_versions t g g' -> distinct_versions k p s g t ->
  current_at k p s g t out -> current_at k p s g' t out' -> Permutation out out'.
Proof.
  intros k p s sch pn sn g g' t out out' P S W E NT C C'.
  set (vs := map snd (filter (fun v => sleb (fst v) t) (g_versions g))).
  assert (Hv : forall r, In r vs <-> exists x, In (x, r) (g_versions g) /\ sle x t).
  { intros r. unfold vs. rewrite in_map_iff. split.
    - intros [[x r'] [Er J]]. cbn in Er. subst r'. apply filter_In in J as [J1 J2]. apply sleb_spec in J2. eauto.
    - intros [x [J1 J2]]. exists (x, r). split; [reflexivity|]. apply filter_In. split; [exact J1|]. now apply sleb_spec. }
  assert (L : forall g2 o, same_versions t g g2 -> current_at k p s g2 t o -> latest_rows k p s vs o).
  { intros g2 o E2 [D [K N]]. split; [exact D|]. split.
    - intros r J. apply Hv in J as [x [J1 J2]]. apply (K x r); [|exact J2]. now apply E2.
    - intros r J. destruct (N r J) as [[x [N1 N2]] N3]. split; [apply Hv; exists x; split; [now apply E2|exact N2]|]. intros r' J'. apply Hv in J' as [y [J1 J2]]. apply (N3 y r'); [now apply E2|exact J2]. }
  apply (latest_unique sch pn sn k p s vs vs out out' P S).
  - apply Forall_forall. intros r J. apply Hv in J as [x [J _]]. now apply (W x).
  - reflexivity.
  - intros a b Ia Ib. apply Hv in Ia as [x [Ia La]]. apply Hv in Ib as [y [Ib Lb]]. now apply (NT x a y b).
  - apply (L g); [intros x r _; reflexivity|exact C].
  - now apply (L g').
Qed.

(** Two tables, or a table at two times, with the same versions up to [t] return the same records. *)
Section Same.
Variable dtype value : Type.
Variable cast : dtype -> string -> option value.
Variable cmp : value -> value -> option comparison.
Variable avro_schema avro_value : Type.
Variable parse_schema : string -> option avro_schema.
Variable datum : avro_schema -> string -> option (avro_value * string).
Variable check_schema : avro_schema -> outcome unit.
Variable to_batch : avro_schema -> list avro_value -> outcome record_batch.
Variable parquet : string -> option (list record_batch).
Variable local_to_utc : ndt -> option ndt.
Variable sch : list field.
Variable p s k : nat.
Notation as_of := (get_file_slices_as_of dtype value cast cmp local_to_utc).
Notation after := (view_after dtype value cast cmp local_to_utc).
Notation reads := (read_snapshot_as_of dtype value cast cmp avro_schema avro_value parse_schema datum check_schema to_batch parquet local_to_utc).
Notation lays_out st := (laid_out avro_schema avro_value parse_schema datum check_schema to_batch parquet (st_parquet _ st) (st_bytes _ st)).

Lemma same_records : forall (st st' : store dtype) tb tb' root root' t filters filters' format format' c c1 c' c1' batches batches',
  merging_table tb sch p s k -> serves_dirs root (st_dirs _ st) -> wf_tree root -> StronglySorted instant_le (t_commits tb) ->
  after st tb c -> base_format (t_configs tb) = Ok format ->
  merging_table tb' sch p s k -> serves_dirs root' (st_dirs _ st') -> wf_tree root' -> StronglySorted instant_le (t_commits tb') ->
  after st' tb' c' -> base_format (t_configs tb') = Ok format' ->
  timestamp t -> reads st tb t filters c c1 (Ok batches) -> reads st' tb' t filters' c' c1' (Ok batches') ->
  exists ss ss', as_of st tb t filters c c1 (Ok ss) /\ as_of st' tb' t filters' c' c1' (Ok ss')
    /\ List.length batches = List.length ss /\ List.length batches' = List.length ss'
    /\ forall i slice batch j slice' batch', nth_error ss i = Some slice -> nth_error batches i = Some batch ->
         nth_error ss' j = Some slice' -> nth_error batches' j = Some batch' ->
         forall now g listed contents now' g' listed' contents',
         history k p s now g -> clean_at g t -> st_files _ st (fs_partition slice) = Ok listed ->
         lays_out st format (fs_partition slice) (bf_file_id (fs_base slice)) sch listed contents g ->
         history k p s now' g' -> clean_at g' t -> st_files _ st' (fs_partition slice') = Ok listed' ->
         lays_out st' format' (fs_partition slice') (bf_file_id (fs_base slice')) sch listed' contents' g' ->
         same_versions t g g' -> distinct_versions k p s g t ->
         Permutation (rb_rows batch) (rb_rows batch').
Proof.
  intros st st' tb tb' root root' t filters filters' format format' c c1 c' c1' batches batches' M Sv Wf So A F M' Sv' Wf' So' A' F' T R R'.
  destruct (snapshot_records dtype value cast cmp avro_schema avro_value parse_schema datum check_schema to_batch parquet local_to_utc st tb sch p s k M root Sv Wf So c c1 t filters batches format A F T R) as [ss [Q H]].
  destruct (snapshot_records dtype value cast cmp avro_schema avro_value parse_schema datum check_schema to_batch parquet local_to_utc st' tb' sch p s k M' root' Sv' Wf' So' c' c1' t filters' batches' format' A' F' T R') as [ss' [Q' H']].
  exists ss, ss'. split; [exact Q|]. split; [exact Q'|]. split; [symmetry; now apply Forall2_len in H|]. split; [symmetry; now apply Forall2_len in H'|].
  intros i slice batch j slice' batch' N1 N2 N1' N2' now g listed contents now' g' listed' contents' Hh Cl Li Lo Hh' Cl' Li' Lo' Sa Di.
  assert (X : forall B C (R0 : B -> C -> Prop) l l', Forall2 R0 l l' -> forall n x y, nth_error l n = Some x -> nth_error l' n = Some y -> R0 x y).
  { clear. intros B C R0 l l' H. induction H as [|a b l l' H H2 IH]; intros [|n] x y E1 E2; try discriminate; cbn in *; [congruence|eauto]. }
  destruct (X _ _ _ _ _ H i slice batch N1 N2 now g listed contents Hh Cl Li Lo) as [_ C1].
  destruct (X _ _ _ _ _ H' j slice' batch' N1' N2' now' g' listed' contents' Hh' Cl' Li' Lo') as [_ C2].
  destruct (mt_merge _ _ _ _ _ M) as [_ [[pn [pt [_ [[Cp _] _]]]] [[Cs _] _]]].
  eapply (current_unique k p s sch); eauto. exact (lo_typed _ _ _ _ _ _ _ _ _ _ _ _ _ _ _ _ Lo).
Qed.
Lemma records_stable : forall (st st' : store dtype) tb tb' root root' t filters filters' format format' c c1 c' c1' batches batches',
  merging_table tb sch p s k -> serves_dirs root (st_dirs _ st) -> wf_tree root -> StronglySorted instant_le (t_commits tb) ->
  after st tb c -> base_format (t_configs tb) = Ok format ->
  merging_table tb' sch p s k -> serves_dirs root' (st_dirs _ st') -> wf_tree root' -> StronglySorted instant_le (t_commits tb') ->
  after st' tb' c' -> base_format (t_configs tb') = Ok format' ->
  timestamp t -> reads st tb t filters c c1 (Ok batches) -> reads st' tb' t filters' c' c1' (Ok batches') ->
  exists ss ss', as_of st tb t filters c c1 (Ok ss) /\ as_of st' tb' t filters' c' c1' (Ok ss')
    /\ List.length batches = List.length ss /\ List.length batches' = List.length ss'
    /\ forall i slice batch j slice' batch', nth_error ss i = Some slice -> nth_error batches i = Some batch ->
         nth_error ss' j = Some slice' -> nth_error batches' j = Some batch' ->
         forall now g listed contents now' g' listed' contents',
         history k p s now g -> sle t now -> clean_at g t -> distinct_versions k p s g t -> continues k p s now g now' g' ->
         st_files _ st (fs_partition slice) = Ok listed ->
         lays_out st format (fs_partition slice) (bf_file_id (fs_base slice)) sch listed contents g ->
         st_files _ st' (fs_partition slice') = Ok listed' ->
         lays_out st' format' (fs_partition slice') (bf_file_id (fs_base slice')) sch listed' contents' g' ->
         Permutation (rb_rows batch) (rb_rows batch').
Proof.
  intros st st' tb tb' root root' t filters filters' format format' c c1 c' c1' batches batches' M Sv Wf So A F M' Sv' Wf' So' A' F' T R R'.
  destruct (same_records st st' tb tb' root root' t filters filters' format format' c c1 c' c1' batches batches' M Sv Wf So A F M' Sv' Wf' So' A' F' T R R') as [ss [ss' [Q [Q' [L [L' H]]]]]].
  exists ss, ss'. split; [exact Q|]. split; [exact Q'|]. split; [exact L|]. split; [exact L'|].
  intros i slice batch j slice' batch' N1 N2 N1' N2' now g listed contents now' g' listed' contents' Hh Lt Cl Di Co Li Lo Li' Lo'.
  apply (H i slice batch j slice' batch' N1 N2 N1' N2' now g listed contents now' g' listed' contents'); try assumption.
  - exact (continues_history k p s now g now' g' Hh Co).
  - exact (continues_clean k p s now g now' g' t Co Lt Cl).
  - exact (continues_versions k p s now g now' g' t Co Lt).
Qed.
End Same.
