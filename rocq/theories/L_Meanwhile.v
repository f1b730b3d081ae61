(** Records read while writers add files. *)
From Coq Require Import Sorted.
From Verif Require Import Base Str L_Base L_Str M_Time M_Instant M_Timeline M_FileGroup M_Builder M_Listing M_Expr M_Log M_Config M_Reader M_Table M_Storage M_Session M_Objects M_During
  S_Time S_Timeline S_FileGroup S_Builder S_Listing S_Expr S_Log S_Reader S_Config S_Table S_History S_Storage S_Session S_Objects S_During S_Meanwhile
  L_FileGroup L_Timeline L_Tree L_Reader L_Table L_History L_Records L_Storage L_Session L_Objects L_During.
Local Open Scope string_scope.

(** The first computation gives the answer of the second, or fails. *)
Definition or_fails {A} (o o' : outcome A) : Prop := o = o' \/ exists e, o = Err e.
Lemma fails_bind : forall A B (o o' : outcome A) (f f' : A -> outcome B), or_fails o o' -> (forall x, o = Ok x -> or_fails (f x) (f' x)) -> or_fails (let* x := o in f x) (let* x := o' in f' x).
Proof.
  intros A B o o' f f' [ <- |[e ->]] H; [|right; exists e; reflexivity]. destruct o as [x|e|]; cbn [bind]; [now apply H|left; reflexivity|left; reflexivity].
Qed.
Lemma fails_same : forall A (o : outcome A), or_fails o o.
Proof. intros A o. now left. Qed.

Section Slices.
Variable avro_schema avro_value : Type.
Variable parse_schema : string -> option avro_schema.
Variable datum : avro_schema -> string -> option (avro_value * string).
Variable check_schema : avro_schema -> outcome unit.
Variable to_batch : avro_schema -> list avro_value -> outcome record_batch.
Variable parquet : string -> option (list record_batch).
Variable local_to_utc : ndt -> option ndt.
Lemma fails_scan : forall fetch fetch' range tz paths, (forall q, In q paths -> or_fails (fetch q) (fetch' q)) ->
  or_fails (scan avro_schema avro_value record_batch parse_schema datum check_schema to_batch parquet local_to_utc fetch range tz paths)
    (scan avro_schema avro_value record_batch parse_schema datum check_schema to_batch parquet local_to_utc fetch' range tz paths).
Proof.
  intros fetch fetch' range tz paths H. unfold scan. apply fails_bind; [|intros [? ?] _; apply fails_same].
  induction paths as [|q paths IH]; [apply fails_same|]. cbn [scan_files]. apply fails_bind; [apply H; now left|]. intros content _. apply fails_bind; [apply fails_same|]. intros blocks _.
  apply fails_bind; [apply fails_same|]. intros own _. apply fails_bind; [apply IH; intros r I; apply H; now right|]. intros [rest more] _. apply fails_same.
Qed.
Lemma fails_slice : forall sort iter read read' bytes bytes' m slice,
  or_fails (read (base_relative_path slice)) (read' (base_relative_path slice)) ->
  (forall l, In l (fs_logs slice) -> or_fails (bytes (log_relative_path slice l)) (bytes' (log_relative_path slice l))) ->
  or_fails (read_file_slice sort iter read avro_schema avro_value parse_schema datum check_schema to_batch parquet local_to_utc bytes m slice)
    (read_file_slice sort iter read' avro_schema avro_value parse_schema datum check_schema to_batch parquet local_to_utc bytes' m slice).
Proof.
  intros sort iter read read' bytes bytes' m slice B LS.
  assert (RB : or_fails (read_base_file read m (base_relative_path slice)) (read_base_file read' m (base_relative_path slice))).
  { unfold read_base_file. apply fails_bind; [|intros x _; apply fails_same]. destruct B as [ -> |[e ->]]; [left; reflexivity|right; eauto]. }
  unfold read_file_slice. apply fails_bind; [apply fails_same|]. intros [|] _; [exact RB|]. apply fails_bind; [exact RB|]. intros base _.
  apply fails_bind; [apply fails_same|]. intros range _. apply fails_bind; [apply fails_same|]. intros tz _. apply fails_bind; [|intros x _; apply fails_same].
  apply fails_scan. intros q I. apply in_map_iff in I as [l [ <- Il]]. now apply LS.
Qed.
End Slices.

Section Meanwhile.
Variable dtype value : Type.
Variable cast : dtype -> string -> option value.
Variable cmp : value -> value -> option comparison.
Variable avro_schema avro_value : Type.
Variable avro_parse : string -> option avro_schema.
Variable datum : avro_schema -> string -> option (avro_value * string).
Variable check_schema : avro_schema -> outcome unit.
Variable to_batch : avro_schema -> list avro_value -> outcome record_batch.
Variable parquet : string -> option (list record_batch).
Variable local_to_utc : ndt -> option ndt.
Variable moments : list (list object).
Variable base : url.
Variable names : list string.
Variable parse_json : string -> outcome (list (string * json)).
Variable parse_schema : string -> outcome (list (string * dtype)).
Variable parse_rows : string -> outcome record_batch.
Variable footer : string -> outcome (Z * Z).
Variable open : options -> options -> outcome unit.
Notation store_of objs := (object_store objs base dtype parse_json parse_schema parse_rows footer open).
Hypothesis PO : forall objs, In objs moments -> proper_objects objs.
Hypothesis L : located base names.
Hypothesis GR : grows moments.
Variable st : store dtype.
Hypothesis SEE : sees moments base dtype parse_json parse_schema parse_rows footer open st.

Lemma found_or_not : forall a b q o, In a moments -> In b moments -> find_object a base q = Ok o -> or_fails (find_object b base q) (Ok o).
Proof.
  intros a b q o Ia Ib F. unfold find_object in *. destruct (object_path base q) as [key| |]; [|discriminate|discriminate]. cbn [bind] in *.
  destruct (find _ a) as [x|] eqn:E; [|discriminate]. injection F as <-. pose proof (find_some _ _ E) as [I1 K1]. apply String.eqb_eq in K1. subst key.
  destruct (find (fun y => String.eqb (o_key y) (o_key x)) b) as [y|] eqn:E2; [|right; eexists; reflexivity]. left. pose proof (find_some _ _ E2) as [I2 K2]. apply String.eqb_eq in K2. cbn [ok_or].
  f_equal. destruct (GR a b Ia Ib) as [G|G].
  - pose proof (find_unique b (proj2 (PO _ Ib)) x (G x I1)) as U. congruence.
  - pose proof (find_unique a (proj2 (PO _ Ia)) y (G y I2)) as U. rewrite K2 in U. congruence.
Qed.
Lemma data_or_not : forall a b q o, In a moments -> In b moments -> find_object a base q = Ok o -> or_fails (get_file_data b base q) (get_file_data a base q).
Proof.
  intros a b q o Ia Ib F. unfold get_file_data. apply fails_bind; [|intros x _; apply fails_same]. rewrite F. exact (found_or_not a b q o Ia Ib F).
Qed.
Lemma rows_or_not : forall a q o, In a moments -> find_object a base q = Ok o -> or_fails (st_parquet _ st q) (st_parquet _ (store_of a) q).
Proof.
  intros a q o Ia F. destruct (SEE q) as [_ [_ [_ [_ [_ [[b [Ib E]] _]]]]]]. rewrite E. cbn [st_parquet object_store]. apply fails_bind; [exact (data_or_not a b q o Ia Ib F)|intros x _; apply fails_same].
Qed.
Lemma bytes_or_not : forall a q o, In a moments -> find_object a base q = Ok o -> or_fails (st_bytes _ st q) (st_bytes _ (store_of a) q).
Proof. intros a q o Ia F. destruct (SEE q) as [_ [_ [_ [_ [_ [_ [b [Ib E]]]]]]]]. rewrite E. exact (data_or_not a b q o Ia Ib F). Qed.

Notation root := (mixed moments (st_dirs _ st)).
Lemma dirs_seen : forall q, exists objs, In objs moments /\ st_dirs _ st q = list_dirs objs base q.
Proof. intros q. destruct (SEE q) as [_ [_ [_ [H _]]]]. exact H. Qed.
Lemma dirs_served : serves_dirs root (st_dirs _ st).
Proof. exact (mixed_served moments base names (st_dirs _ st) PO L dirs_seen). Qed.
Lemma dirs_wf : wf_tree root.
Proof. exact (mixed_wf moments base names (st_dirs _ st) PO L dirs_seen _ [] (Forall_nil _)). Qed.
Lemma partition_names : forall pt q, table_partition pt root q -> exists dir, q = join "/" dir /\ Forall legal dir.
Proof.
  intros [|] q TP; [|exists []; split; [exact TP|constructor]]. destruct TP as [top [r [[t [R _]] [_ [_ [_ ->]]]]]].
  destruct (mixed_reached moments base names (st_dirs _ st) PO L dirs_seen _ _ _ R (deepest moments) [] eq_refl (Forall_nil _)) as [F _]. eauto.
Qed.

Variable tb : table.
Variable format : string.
Variable sch : list field.
Variable p s k : nat.
Hypothesis MT : merging_table tb sch p s k.
Hypothesis So : StronglySorted instant_le (t_commits tb).
Hypothesis BF : base_format (t_configs tb) = Ok format.
Notation lays_out objs := (laid_out avro_schema avro_value avro_parse datum check_schema to_batch parquet (st_parquet _ (store_of objs)) (st_bytes _ (store_of objs)) format).
Notation read_in sto sort visit := (read_file_slice sort visit (st_parquet _ sto) avro_schema avro_value avro_parse datum check_schema to_batch parquet local_to_utc (st_bytes _ sto)).

(** A slice is read as at the moment it was listed, or the read fails. *)
Lemma slice_or_fails : forall objs dir listed t slice, In objs moments -> Forall legal dir -> list_files objs base (join "/" dir) = Ok listed ->
  shows_newest format listed (join "/" dir) t slice ->
  (forall m b, base_listed format listed m b -> bf_file_id b = bf_file_id (fs_base slice) -> base_file_name b = fm_name m) ->
  forall sort visit m, or_fails (read_in st sort visit m slice) (read_in (store_of objs) sort visit m slice).
Proof.
  intros objs dir listed t slice Io F LS [m0 [b0 [B1 [B2 [B3 [B4 [B5 [B6 [B7 [B8 B9]]]]]]]]]] NM sort visit m.
  destruct (files_spec objs base names (PO _ Io) L dir F) as [l [LS' [_ DL]]]. rewrite LS in LS'. injection LS' as <-.
  apply fails_slice.
  - destruct (proj1 (DL m0) (proj1 B1)) as [n [o [FI Em]]]. apply (rows_or_not objs _ o Io). unfold base_relative_path. rewrite B2, B4, (NM m0 b0 B1 (eq_sym B3)). subst m0. exact (read_spec objs base names (PO _ Io) L dir n o F FI).
  - intros lg Il. destruct (B9 lg Il) as [m' [L1 _]]. pose proof L1 as [I1 [_ [_ L4]]]. destruct (proj1 (DL m') I1) as [n [o [FI Em]]].
    apply (bytes_or_not objs _ o Io). unfold log_relative_path. rewrite B2, (log_name_reprint _ _ _ L4). subst m'. exact (read_spec objs base names (PO _ Io) L dir n o F FI).
Qed.

Lemma listing_seen : forall q, exists objs, In objs moments /\ st_files _ st q = list_files objs base q.
Proof. intros q. destruct (SEE q) as [_ [_ [H _]]]. exact H. Qed.
Notation writes_on := (written_on dtype avro_schema avro_value avro_parse datum check_schema to_batch parquet (fun objs => store_of objs) moments format sch k p s).
Notation is_opened := (M_Session.opened dtype value cast cmp local_to_utc tb (keeps dtype tb)).

(** The slices of a query, and where they were listed. *)
Lemma slices_listed : forall c c' t filters ss, is_opened st c -> get_file_slices_as_of dtype value cast cmp local_to_utc st tb t filters c c' (Ok ss) ->
  forall slice, In slice ss -> exists dir listed, fs_partition slice = join "/" dir /\ Forall legal dir /\ st_files _ st (join "/" dir) = Ok listed /\ shows_newest format listed (join "/" dir) t slice.
Proof.
  intros c c' t filters ss O Q slice I. destruct (as_of_as_new dtype value cast cmp local_to_utc tb st c root dirs_served dirs_wf O t filters c' _ Q) as [c'' Q'].
  destruct (as_of_inv dtype value cast cmp local_to_utc st tb root dirs_served dirs_wf So _ _ _ _ _ (va_new _ _ _ _ _ _ _) Q')
    as [fs [q [tz [dt [ps [h [u [pr [f [pt [_ [_ [_ [_ [_ [_ [_ [P2 [_ [P4 [_ [_ [S1 _]]]]]]]]]]]]]]]]]]]]]]].
  rewrite BF in P2. injection P2 as <-. destruct (S1 slice I) as [part [listed [[_ TP] [L1 [L2 _]]]]]. rewrite P4 in L2.
  destruct (partition_names pt part TP) as [dir [-> F]]. exists dir, listed. split; [|auto]. destruct L2 as [? [? [_ [E _]]]]. exact E.
Qed.
Lemma names_of : forall objs part id listed contents g, lays_out objs part id sch listed contents g ->
  forall m b, base_listed format listed m b -> bf_file_id b = id -> base_file_name b = fm_name m.
Proof. intros objs part id listed contents g LO. exact (lo_names _ _ _ _ _ _ _ _ _ _ _ _ _ _ _ _ LO). Qed.

(** What the slice holds at the moment it was listed, and its records. *)
Lemma slice_records : forall iter t now g objs dir listed slice, (forall m, Permutation (iter m) m) -> timestamp t -> history k p s now g -> sle t now -> clean_at g t ->
  In objs moments -> st_files _ (store_of objs) (join "/" dir) = Ok listed -> shows_newest format listed (join "/" dir) t slice -> fs_partition slice = join "/" dir ->
  writes_on (fs_partition slice) (bf_file_id (fs_base slice)) now g ->
  forall sort visit, sorts sort -> visits visit ->
  (forall m b, base_listed format listed m b -> bf_file_id b = bf_file_id (fs_base slice) -> base_file_name b = fm_name m)
  /\ exists out, read_in (store_of objs) sort visit (fst (table_reader_options iter (t_configs tb) (t_storage tb) [("hoodie.read.file_group.end_timestamp", t)])) slice = Ok out
       /\ rb_fields out = sch /\ current_at k p s g t (rb_rows out).
Proof.
  intros iter t now g objs dir listed slice PI Tt H Lt Cl Io LS SN EP W sort visit HS HV. destruct (W objs Io) as [now' [g' [listed' [contents [Co [LS' LO]]]]]].
  rewrite EP, LS in LS'. injection LS' as <-. split; [exact (names_of _ _ _ _ _ _ LO)|].
  destruct (reader_settings tb sch p s k MT iter PI t) as [S1 [S2 [S3 [S4 [S5 S6]]]]]. rewrite EP in LO.
  destruct (snapshot_slice avro_schema avro_value avro_parse datum check_schema to_batch parquet (st_parquet _ (store_of objs)) (st_bytes _ (store_of objs)) local_to_utc k p s sort visit
    (fst (table_reader_options iter (t_configs tb) (t_storage tb) [("hoodie.read.file_group.end_timestamp", t)])) t now' format (join "/" dir) sch listed contents g' slice) as [out [O1 [O2 O3]]]; try assumption.
  - exact (continues_history k p s now g now' g' H Co).
  - exact (continues_clean k p s now g now' g' t Co Lt Cl).
  - exists out. split; [exact O1|]. split; [exact O2|]. apply (current_more k p s g' g t); [|exact O3]. intros x r Lx. exact (continues_versions k p s now g now' g' t Co Lt x r Lx).
Qed.
Lemma meanwhile : forall c c' t filters batches, timestamp t -> is_opened st c ->
  read_snapshot_as_of dtype value cast cmp avro_schema avro_value avro_parse datum check_schema to_batch parquet local_to_utc st tb t filters c c' (Ok batches) ->
  exists ss, get_file_slices_as_of dtype value cast cmp local_to_utc st tb t filters c c' (Ok ss)
    /\ Forall2 (fun slice batch => forall now g, history k p s now g -> sle t now -> clean_at g t ->
         writes_on (fs_partition slice) (bf_file_id (fs_base slice)) now g -> rb_fields batch = sch /\ current_at k p s g t (rb_rows batch)) ss batches.
Proof.
  intros c c' t filters batches Tt O R. inversion R as [| |c0 c1 ss r Q RS]; subst. exists ss. split; [exact Q|]. assert (SL := slices_listed c c' t filters ss O Q).
  inversion RS as [| |iter os r PI [_ F2] J]; subst. apply joined_ok in J. subst os. cbn zeta in F2. clear Q R RS.
  remember (map Ok batches) as os eqn:Eo. revert batches Eo SL. induction F2 as [|slice o ss os [sort [visit [HS [HV Ho]]]] F2 IH]; intros batches Eo SL.
  - destruct batches; [constructor|discriminate].
  - destruct batches as [|b batches]; [discriminate|]. cbn in Eo. injection Eo as -> Eo. constructor; [|apply IH; [exact Eo|intros; apply SL; now right]].
    intros now g H Lt Cl W. destruct (SL slice (or_introl eq_refl)) as [dir [listed [EP [F [LS SN]]]]]. destruct (listing_seen (join "/" dir)) as [objs [Io E]]. rewrite E in LS.
    destruct (slice_records iter t now g objs dir listed slice PI Tt H Lt Cl Io LS SN EP W sort visit HS HV) as [NM [out [O1 [O2 O3]]]].
    destruct (slice_or_fails objs dir listed t slice Io F LS SN NM sort visit (fst (table_reader_options iter (t_configs tb) (t_storage tb) [("hoodie.read.file_group.end_timestamp", t)]))) as [X|[e X]]; rewrite X in Ho; [|discriminate].
    rewrite O1 in Ho. injection Ho as <-. auto.
Qed.

(** Files that are read after they were listed are there. *)
Lemma slice_found : forall objs dir listed t slice, In objs moments -> Forall legal dir -> list_files objs base (join "/" dir) = Ok listed ->
  shows_newest format listed (join "/" dir) t slice ->
  (forall m b, base_listed format listed m b -> bf_file_id b = bf_file_id (fs_base slice) -> base_file_name b = fm_name m) ->
  (forall name, let path := path_join (join "/" dir) name in
         (exists objs', In objs' moments /\ incl objs objs' /\ st_parquet _ st path = st_parquet _ (store_of objs') path)
         /\ (exists objs', In objs' moments /\ incl objs objs' /\ st_bytes _ st path = st_bytes _ (store_of objs') path)) ->
  forall sort visit m, or_fails (read_in (store_of objs) sort visit m slice) (read_in st sort visit m slice).
Proof.
  intros objs dir listed t slice Io F LS [m0 [b0 [B1 [B2 [B3 [B4 [B5 [B6 [B7 [B8 B9]]]]]]]]]] NM RA sort visit m.
  destruct (files_spec objs base names (PO _ Io) L dir F) as [l [LS' [_ DL]]]. rewrite LS in LS'. injection LS' as <-.
  assert (Same : forall n o objs', file_in objs names dir n o -> In objs' moments -> incl objs objs' -> get_file_data objs' base (path_join (join "/" dir) n) = get_file_data objs base (path_join (join "/" dir) n)).
  { intros n o objs' FI Io' G. unfold get_file_data. rewrite (read_spec objs base names (PO _ Io) L dir n o F FI). rewrite (read_spec objs' base names (PO _ Io') L dir n o F); [reflexivity|]. destruct FI as [FI1 FI2]. split; [now apply G|exact FI2]. }
  assert (RB : st_parquet _ st (base_relative_path slice) = st_parquet _ (store_of objs) (base_relative_path slice)).
  { destruct (proj1 (DL m0) (proj1 B1)) as [n [o [FI Em]]]. unfold base_relative_path. rewrite B2, B4, (NM m0 b0 B1 (eq_sym B3)). subst m0. cbn [fm_name new_meta].
    destruct (proj1 (RA n)) as [objs' [Io' [G E]]]. rewrite E. cbn [st_parquet object_store]. now rewrite (Same n o objs' FI Io' G). }
  assert (RL : forall lg, In lg (fs_logs slice) -> st_bytes _ st (log_relative_path slice lg) = st_bytes _ (store_of objs) (log_relative_path slice lg)).
  { intros lg Il. destruct (B9 lg Il) as [m' [L1 _]]. pose proof L1 as [I1 [_ [_ L4]]]. destruct (proj1 (DL m') I1) as [n [o [FI Em]]].
    unfold log_relative_path. rewrite B2, (log_name_reprint _ _ _ L4). subst m'. cbn [fm_name new_meta].
    destruct (proj2 (RA n)) as [objs' [Io' [G E]]]. rewrite E. exact (Same n o objs' FI Io' G). }
  apply fails_slice; [left; now rewrite RB|intros lg Il; left; now rewrite RL].
Qed.
Lemma meanwhile_succeeds : read_after_listing dtype (fun objs => store_of objs) moments st -> (forall t, readers_open st tb [("hoodie.read.file_group.end_timestamp", t)]) ->
  forall c c' t filters ss, timestamp t -> is_opened st c -> get_file_slices_as_of dtype value cast cmp local_to_utc st tb t filters c c' (Ok ss) ->
  (forall slice, In slice ss -> exists now g, history k p s now g /\ sle t now /\ clean_at g t /\ writes_on (fs_partition slice) (bf_file_id (fs_base slice)) now g) ->
  forall r, read_slices dtype avro_schema avro_value avro_parse datum check_schema to_batch parquet local_to_utc st tb [("hoodie.read.file_group.end_timestamp", t)] ss r ->
  exists batches, r = Ok batches.
Proof.
  intros RA Op c c' t filters ss Tt O Q GS r R. assert (SL := slices_listed c c' t filters ss O Q).
  inversion R as [iter e PI E|iter PI E|iter os r' PI [_ F2] J]; subst; cbn zeta in *; try (rewrite (Op t iter PI) in E; discriminate).
  apply (joined_all _ os r); [|exact J]. clear Q R J.
  induction F2 as [|slice o ss os [sort [visit [HS [HV Ho]]]] F2 IH]; intros o' Io'; [destruct Io'|]. destruct Io' as [ <- |Io'].
  - destruct (SL slice (or_introl eq_refl)) as [dir [listed [EP [F [LS SN]]]]]. destruct (GS slice (or_introl eq_refl)) as [now [g [H [Lt [Cl W]]]]].
    destruct (RA (join "/" dir)) as [objs [Io [E RD]]]. rewrite E in LS.
    destruct (slice_records iter t now g objs dir listed slice PI Tt H Lt Cl Io LS SN EP W sort visit HS HV) as [NM [out [O1 _]]].
    destruct (slice_found objs dir listed t slice Io F LS SN NM RD sort visit (fst (table_reader_options iter (t_configs tb) (t_storage tb) [("hoodie.read.file_group.end_timestamp", t)]))) as [X|[e X]]; rewrite O1 in X; [|discriminate].
    exists out. congruence.
  - apply IH; [intros sl I; apply GS; now right|intros sl I; apply SL; now right|exact Io'].
Qed.
End Meanwhile.

(** ** Two queries return the same records *)
Lemma perm_by_id : forall A I R (id : A -> I) (rows : A -> list R) l l0, NoDup (map id l) -> NoDup (map id l0) ->
  (forall i, In i (map id l) <-> In i (map id l0)) -> (forall x y, In x l -> In y l0 -> id x = id y -> Permutation (rows x) (rows y)) ->
  Permutation (flat_map rows l) (flat_map rows l0).
Proof.
  intros A I R id rows. induction l as [|x l IH]; intros l0 D D0 E H.
  - destruct l0 as [|y l0]; [constructor|]. destruct (proj2 (E (id y)) (or_introl eq_refl)).
  - destruct (proj1 (in_map_iff id l0 (id x)) (proj1 (E (id x)) (or_introl eq_refl))) as [y [Ey Iy]]. apply in_split in Iy as [l1 [l2 ->]].
    rewrite flat_map_app. cbn [flat_map map] in *. inversion D as [|? ? Nx Dl]; subst. rewrite map_app in D0. cbn [map] in D0. pose proof (NoDup_remove_1 _ _ _ D0) as D1. pose proof (NoDup_remove_2 _ _ _ D0) as N0.
    rewrite Permutation_app_swap_app. apply Permutation_app; [apply H; [now left|apply in_or_app; right; now left|now symmetry]|].
    rewrite <- flat_map_app. apply IH; [exact Dl|now rewrite map_app| |].
    + intros i. rewrite map_app, in_app_iff. specialize (E i). rewrite map_app, in_app_iff in E. cbn [map In] in E. rewrite in_app_iff in N0. split.
      * intros X. destruct (proj1 E (or_intror X)) as [Y|[Y|Y]]; auto. exfalso. apply Nx. congruence.
      * intros X. destruct (proj2 E) as [Y|Y]; [tauto| |exact Y]. exfalso. apply N0. rewrite Ey, Y. exact X.
    + intros a b Ia Ib. apply H; [now right|]. apply in_or_app. apply in_app_or in Ib as [Ib|Ib]; [now left|right; now right].
Qed.
Lemma Forall2_combine : forall A B (P : A -> B -> Prop) l l', Forall2 P l l' -> map fst (combine l l') = l /\ map snd (combine l l') = l' /\ forall x, In x (combine l l') -> P (fst x) (snd x).
Proof.
  intros A B P l l' F. induction F as [|a b l l' H F [I1 [I2 I3]]]; [split; [reflexivity|split; [reflexivity|intros x []]]|]. cbn. rewrite I1, I2. split; [reflexivity|]. split; [reflexivity|].
  intros x [ <- |I]; [exact H|now apply I3].
Qed.
Lemma base_named_once : forall name name' m m' b b', base_file_of name m = Ok b -> base_file_of name' m' = Ok b' -> base_file_name b = base_file_name b' -> bf_file_id b = bf_file_id b'.
Proof.
  assert (X : forall name m b, base_file_of name m = Ok b -> split_once "_" (base_file_name b) = Some (bf_file_id b, bf_write_token b ++ "_" ++ bf_commit b ++ "." ++ bf_ext b)).
  { intros name m b H. unfold base_file_of in H. apply bind_ok in H as [[[[id tk] cm] ext] [P H]]. injection H as <-. unfold base_file_name. cbn [bf_file_id bf_write_token bf_commit bf_ext].
    apply split_once_app. unfold parse_base_name in P. apply bind_ok in P as [[stem e] [_ P]]. apply bind_ok in P as [i [P1 P]]. apply bind_ok in P as [i2 [_ P]]. apply bind_ok in P as [i3 [_ P]]. injection P as -> _ _ _.
    destruct (nth_error (split "_" stem) 0) as [y|] eqn:N; [|discriminate]. injection P1 as <-. apply nth_error_In in N. pose proof (split_no_char "_" stem) as Q. rewrite Forall_forall in Q. now apply Q. }
  intros name name' m m' b b' H H' E. apply X in H. apply X in H'. rewrite E in H. congruence.
Qed.

Section Undisturbed.
Variable dtype value : Type.
Variable cast : dtype -> string -> option value.
Variable cmp : value -> value -> option comparison.
Variable avro_schema avro_value : Type.
Variable avro_parse : string -> option avro_schema.
Variable datum : avro_schema -> string -> option (avro_value * string).
Variable check_schema : avro_schema -> outcome unit.
Variable to_batch : avro_schema -> list avro_value -> outcome record_batch.
Variable parquet : string -> option (list record_batch).
Variable local_to_utc : ndt -> option ndt.
Variable start : list object.
Variable later : list (list object).
Variable base : url.
Variable names : list string.
Variable parse_json : string -> outcome (list (string * json)).
Variable parse_schema : string -> outcome (list (string * dtype)).
Variable parse_rows : string -> outcome record_batch.
Variable footer : string -> outcome (Z * Z).
Variable open : options -> options -> outcome unit.
Variable tb : table.
Variable t format : string.
Notation moments := (start :: later).
Notation store_of objs := (object_store objs base dtype parse_json parse_schema parse_rows footer open).
Hypothesis PO : forall objs, In objs moments -> proper_objects objs.
Hypothesis L : located base names.
Hypothesis LO : forall objs, In objs later -> later_objects names format t start objs.
Hypothesis GR : grows moments.
Hypothesis UB : forall objs, In objs moments -> one_base_file names format objs.
Hypothesis So : StronglySorted instant_le (t_commits tb).
Hypothesis TL : forall i, In i (t_commits tb) -> exists o, file_in start names [".hoodie"] (file_name i) o.
Hypothesis BF : base_format (t_configs tb) = Ok format.
Variable sch : list field.
Variable p s k : nat.
Hypothesis MT : merging_table tb sch p s k.
Notation reads st := (read_snapshot_as_of dtype value cast cmp avro_schema avro_value avro_parse datum check_schema to_batch parquet local_to_utc st tb t).
Notation writes_on := (written_on dtype avro_schema avro_value avro_parse datum check_schema to_batch parquet (fun objs => store_of objs) moments format sch k p s).

Lemma same_meanwhile : timestamp t -> forall fields, get_partition_schema dtype (store_of start) tb = Ok fields -> wf_fields fields ->
  forall st c c' filters batches batches0 c0, sees moments base dtype parse_json parse_schema parse_rows footer open st ->
  reads (store_of start) filters [] c0 (Ok batches0) ->
  M_Session.opened dtype value cast cmp local_to_utc tb (keeps dtype tb) st c -> reads st filters c c' (Ok batches) ->
  exists ss0, get_file_slices_as_of dtype value cast cmp local_to_utc (store_of start) tb t filters [] c0 (Ok ss0)
    /\ ((forall slice, In slice ss0 -> exists now g, history k p s now g /\ sle t now /\ clean_at g t /\ distinct_versions k p s g t
           /\ writes_on (fs_partition slice) (bf_file_id (fs_base slice)) now g) ->
        Permutation (flat_map rb_rows batches0) (flat_map rb_rows batches)).
Proof.
  intros Tt fields GS WF st c c' filters batches batches0 c0 SEE R0 O R.
  pose proof (quiet dtype start later base parse_json parse_schema parse_rows footer open) as SEE0.
  destruct (meanwhile dtype value cast cmp avro_schema avro_value avro_parse datum check_schema to_batch parquet local_to_utc moments base names parse_json parse_schema parse_rows footer open PO L GR
    (store_of start) SEE0 tb format sch p s k MT So BF [] c0 t filters batches0 Tt (op_new _ _ _ _ _ _ _ _) R0) as [ss0 [Q0 F0]].
  destruct (meanwhile dtype value cast cmp avro_schema avro_value avro_parse datum check_schema to_batch parquet local_to_utc moments base names parse_json parse_schema parse_rows footer open PO L GR
    st SEE tb format sch p s k MT So BF c c' t filters batches Tt O R) as [ss [Q F]].
  exists ss0. split; [exact Q0|]. intros GH.
  destruct (during dtype value cast cmp local_to_utc start later base names parse_json parse_schema parse_rows footer open tb t format PO L LO So TL BF (store_of start) SEE0 fields GS WF [] c0 filters ss0 (op_new _ _ _ _ _ _ _ _) Q0)
    as [? [? [? [? [? [? [_ [_ [_ [_ [_ [_ [_ [_ D0]]]]]]]]]]]]]].
  destruct (during dtype value cast cmp local_to_utc start later base names parse_json parse_schema parse_rows footer open tb t format PO L LO So TL BF st SEE fields GS WF c c' filters ss O Q)
    as [? [? [? [? [? [? [_ [_ [_ [_ [_ [_ [_ [_ D]]]]]]]]]]]]]].
  destruct (during_same dtype value cast cmp local_to_utc start later base names parse_json parse_schema parse_rows footer open tb t format PO L LO So TL BF UB fields GS st c c' filters ss ss0 c0 SEE Q0 O Q) as [SB _].
  assert (SL0 := slices_listed dtype value cast cmp local_to_utc moments base names parse_json parse_schema parse_rows footer open PO L (store_of start) SEE0 tb format So BF [] c0 t filters ss0 (op_new _ _ _ _ _ _ _ _) Q0).
  assert (SL := slices_listed dtype value cast cmp local_to_utc moments base names parse_json parse_schema parse_rows footer open PO L st SEE tb format So BF c c' t filters ss O Q).
  assert (ID : forall a b, In a ss0 -> In b ss -> base_file_name (fs_base a) = base_file_name (fs_base b) -> bf_file_id (fs_base a) = bf_file_id (fs_base b)).
  { intros a b Ia Ib E. destruct (SL0 a Ia) as [? [? [_ [_ [_ [m1 [b1 [[_ [_ [_ B1]]] [_ [I1 [N1 _]]]]]]]]]]]. destruct (SL b Ib) as [? [? [_ [_ [_ [m2 [b2 [[_ [_ [_ B2]]] [_ [I2 [N2 _]]]]]]]]]]].
    rewrite I1, I2. apply (base_named_once _ _ _ _ _ _ B1 B2). congruence. }
  destruct (Forall2_combine _ _ _ _ _ F0) as [E01 [E02 P0]]. destruct (Forall2_combine _ _ _ _ _ F) as [E1 [E2 P]].
  assert (FM : forall l : list (file_slice * record_batch), flat_map rb_rows (map snd l) = flat_map (fun x => rb_rows (snd x)) l) by (intros l; induction l as [|e l IH]; [reflexivity|cbn; now rewrite IH]).
  assert (MF : forall l : list (file_slice * record_batch), map (fun x => slice_id (fst x)) l = map slice_id (map fst l)) by (intros l; now rewrite map_map).
  rewrite <- E02, <- E2, !FM. apply (perm_by_id _ _ _ (fun x => slice_id (fst x))).
  - now rewrite MF, E01.
  - now rewrite MF, E1.
  - intros i. rewrite !MF, E01, E1, !in_map_iff. split; intros [a [ <- Ia]].
    + destruct (proj1 (SB (fs_partition a) (base_file_name (fs_base a)))) as [b [Ib [EP EN]]]; [exists a; auto|]. exists b. split; [|exact Ib]. unfold slice_id. now rewrite EP, (ID a b Ia Ib (eq_sym EN)).
    + destruct (proj2 (SB (fs_partition a) (base_file_name (fs_base a)))) as [b [Ib [EP EN]]]; [exists a; auto|]. exists b. split; [|exact Ib]. unfold slice_id. now rewrite EP, (ID b a Ib Ia EN).
  - intros [a ba] [b bb] Ia Ib E. cbn [fst snd] in *. unfold slice_id in E. injection E as EP EI.
    assert (Ia' : In a ss0) by (rewrite <- E01; apply in_map_iff; exists (a, ba); auto). destruct (GH a Ia') as [now [g [H [Lt [Cl [Di W]]]]]].
    destruct (P0 _ Ia now g H Lt Cl W) as [_ C1]. rewrite EP, EI in W. destruct (P _ Ib now g H Lt Cl W) as [_ C2]. cbn [snd] in C1, C2.
    destruct (mt_merge _ _ _ _ _ MT) as [_ [[pn [pt [_ [[Cp _] _]]]] [[Cs _] _]]].
    apply (current_unique k p s sch pn "_hoodie_commit_seqno" g g t); try assumption.
    + intros v r I. destruct (W start (or_introl eq_refl)) as [now' [g' [? [? [Co [_ Lo]]]]]]. apply (lo_typed _ _ _ _ _ _ _ _ _ _ _ _ _ _ _ _ Lo v r).
      apply (continues_versions k p s now g now' g' now Co (sle_refl _)); [|exact I]. exact (iv_versions _ _ _ _ _ (history_inv _ _ _ _ _ H) v r I).
    + intros v r _. reflexivity.
Qed.
End Undisturbed.

(** ** Incremental reads *)
Lemma loop_or_fails : forall read read' order l n fgs rep, (forall q, or_fails (read q) (read' q)) ->
  or_fails (between_loop read order n fgs rep l) (between_loop read' order n fgs rep l).
Proof.
  intros read read' order. induction l as [|i l IH]; intros n fgs rep H; [apply fails_same|]. cbn [between_loop].
  apply fails_bind; [apply H|]. intros md _. apply fails_bind; [apply fails_same|]. intros b _. apply fails_bind; [apply fails_same|]. intros f _. apply fails_bind; [apply fails_same|]. intros r _. now apply IH.
Qed.
Lemma all_or_one : forall A B C D (g : B -> Prop) (h : C -> Prop) (f f' : A -> B -> C -> outcome D) l os, (forall a x y, or_fails (f a x y) (f' a x y)) ->
  Forall2 (fun a o => exists x y, g x /\ h y /\ o = f' a x y) l os ->
  Forall2 (fun a o => exists x y, g x /\ h y /\ o = f a x y) l os \/ exists os' e, Forall2 (fun a o => exists x y, g x /\ h y /\ o = f a x y) l os' /\ In (Err e) os'.
Proof.
  intros A B C D g h f f' l os H F. induction F as [|a o l os [x [y [G [G' ->]]]] F IH]; [now left; constructor|].
  destruct (H a x y) as [E|[e E]].
  - destruct IH as [IH|[os' [e [IH I]]]]; [left; constructor; [exists x, y; rewrite E; auto|exact IH]|]. right. exists (f' a x y :: os'), e. split; [constructor; [exists x, y; rewrite E; auto|exact IH]|now right].
  - right. exists (f a x y :: map (fun a => f a x y) l), e. split; [|left; exact E]. constructor; [eauto 6|]. clear - G G'. induction l; cbn; constructor; eauto 6.
Qed.

Section Increments.
Variable dtype : Type.
Variable avro_schema avro_value : Type.
Variable avro_parse : string -> option avro_schema.
Variable datum : avro_schema -> string -> option (avro_value * string).
Variable check_schema : avro_schema -> outcome unit.
Variable to_batch : avro_schema -> list avro_value -> outcome record_batch.
Variable parquet : string -> option (list record_batch).
Variable local_to_utc : ndt -> option ndt.
Variable start : list object.
Variable moments : list (list object).
Variable base : url.
Variable parse_json : string -> outcome (list (string * json)).
Variable parse_schema : string -> outcome (list (string * dtype)).
Variable parse_rows : string -> outcome record_batch.
Variable footer : string -> outcome (Z * Z).
Variable open : options -> options -> outcome unit.
Notation store_of objs := (object_store objs base dtype parse_json parse_schema parse_rows footer open).
Hypothesis PO : forall objs, In objs moments -> proper_objects objs /\ incl start objs.
Variable st : store dtype.
Hypothesis SEE : sees moments base dtype parse_json parse_schema parse_rows footer open st.
Hypothesis OP : forall h o, st_open _ st h o = open h o.
Variable tb : table.

Lemma start_or_fails : forall objs q, In objs moments -> or_fails (get_file_data start base q) (get_file_data objs base q).
Proof.
  intros objs q I. destruct (PO _ I) as [[_ ND] INC]. unfold get_file_data. apply fails_bind; [|intros x _; apply fails_same]. unfold find_object. apply fails_bind; [apply fails_same|]. intros key _.
  destruct (find _ start) as [o|] eqn:E; [|right; eexists; reflexivity]. left. apply find_some in E as [Io K]. apply String.eqb_eq in K. subst key. now rewrite (find_unique objs ND o (INC o Io)).
Qed.
Lemma json_or_fails : forall q, or_fails (st_json _ (store_of start) q) (st_json _ st q).
Proof. intros q. destruct (SEE q) as [[b [Ib E]] _]. rewrite E. cbn [st_json object_store]. apply fails_bind; [now apply start_or_fails|intros x _; apply fails_same]. Qed.
Lemma parquet_or_fails : forall q, or_fails (st_parquet _ (store_of start) q) (st_parquet _ st q).
Proof. intros q. destruct (SEE q) as [_ [_ [_ [_ [_ [[b [Ib E]] _]]]]]]. rewrite E. cbn [st_parquet object_store]. apply fails_bind; [now apply start_or_fails|intros x _; apply fails_same]. Qed.
Lemma bytes_or_fails : forall q, or_fails (st_bytes _ (store_of start) q) (st_bytes _ st q).
Proof. intros q. destruct (SEE q) as [_ [_ [_ [_ [_ [_ [b [Ib E]]]]]]]]. rewrite E. now apply start_or_fails. Qed.

Notation between sto := (slices_between dtype local_to_utc sto tb).
Lemma between_or_fails : forall order a b, or_fails (between (store_of start) order a b) (between st order a b).
Proof.
  intros order a b. unfold slices_between. apply fails_bind; [apply fails_same|]. intros tz _. apply fails_bind; [|intros x _; apply fails_same].
  unfold get_file_groups_between. apply fails_bind; [apply fails_same|]. intros sel _. apply fails_bind; [|intros x _; apply fails_same]. apply loop_or_fails. exact json_or_fails.
Qed.
Notation reads sto := (read_slices dtype avro_schema avro_value avro_parse datum check_schema to_batch parquet local_to_utc sto tb).
Lemma reads_or_fail : forall opts ss r, reads st opts ss r -> (exists e, reads (store_of start) opts ss (Err e)) \/ reads (store_of start) opts ss r.
Proof.
  intros opts ss r H. destruct H as [iter e P O|iter P O|iter os r P [O F] J].
  - right. apply rs_no_reader with (iter := iter); [exact P|]. cbv zeta in *. rewrite <- O. symmetry. apply OP.
  - right. apply rs_panic with (iter := iter); [exact P|]. cbv zeta in *. rewrite <- O. symmetry. apply OP.
  - cbv zeta in *. set (m := table_reader_options iter (t_configs tb) (t_storage tb) opts) in *.
    destruct (all_or_one _ _ _ _ sorts visits _ _ ss os
      (fun sl sort visit => fails_slice avro_schema avro_value avro_parse datum check_schema to_batch parquet local_to_utc sort visit _ _ _ _ (fst m) sl
        (parquet_or_fails _) (fun l _ => bytes_or_fails _)) F) as [F'|[os' [e [F' I]]]].
    + right. apply rs_read with (iter := iter) (os := os); [exact P| |exact J]. cbv zeta. fold m. split; [rewrite <- O; symmetry; apply OP|exact F'].
    + left. exists e. apply rs_read with (iter := iter) (os := os'); [exact P| |now apply jo_err]. cbv zeta. fold m. split; [rewrite <- O; symmetry; apply OP|exact F'].
Qed.
Notation increments sto := (read_incremental dtype avro_schema avro_value avro_parse datum check_schema to_batch parquet local_to_utc sto tb).
Lemma increments_or_fail : forall a b r, increments st a b r -> (exists e, increments (store_of start) a b (Err e)) \/ increments (store_of start) a b r.
Proof.
  intros a b r H. destruct H as [S|order e er P S B|order e P S B|order e ss r P S B R]; [right; now apply ri_none| | |];
    (destruct (between_or_fails order a e) as [E|[x E]]; [|left; exists x; now apply ri_err with (order := order) (e := e)]); rewrite B in E.
  - right. now apply ri_err with (order := order) (e := e).
  - right. now apply ri_panic with (order := order) (e := e).
  - destruct (reads_or_fail _ _ _ R) as [[x R']|R']; [left; exists x|right]; now apply ri_ok with (order := order) (e := e) (ss := ss).
Qed.
End Increments.
