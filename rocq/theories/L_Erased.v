(** Lemmas for C92 on object stores: tables with deletions. *)
From Coq Require Import Sorted.
From Verif Require Import Base Str M_Utf8 M_Time M_Instant M_Timeline M_FileGroup M_Builder M_Listing M_Expr M_Log M_Config M_Reader M_Table M_Storage M_Avro M_Values M_Datum M_Json M_Objects M_Open
  S_Time S_Timeline S_FileGroup S_Builder S_Listing S_Expr S_Log S_Reader S_Config S_Table S_Avro S_Storage S_Objects S_Open S_History S_Values S_Datum S_Json S_Whole S_Deletes S_Erased
  L_Base L_Str L_Instant L_FileGroup L_Storage L_Expr L_Listing L_Tree L_View L_Table L_History L_Records L_Objects L_Open L_Values L_Stored L_Json L_Whole L_Deletes L_Succeed.
Local Open Scope string_scope.

(** What is left of the objects of such file groups: [rest] of [hist]. *)
Definition left_by objs table format partitioned parse_schema code rank parse_rows dfs k p s t (hist : string * string -> group) dels (rest : string * string -> group) (shown : string * string -> Prop) : Prop :=
  forall g c, has_base objs table format partitioned g c ->
    (exists contents, forall dir listed content, object_partition objs table partitioned (fst g) dir -> directory_listing objs table dir listed ->
         (forall n o, file_in objs table dir n o -> content (file_path (fst g) n) = Ok (o_data o)) ->
         written_out parse_schema encodes code rank (fun path => let* d := content path in parse_rows d) content format (fst g) (snd g) dfs listed contents (rest g))
    /\ (shown g -> exists now, dhistory k p s now (hist g) (dels g) /\ clean_at (hist g) t /\ left_of t (rest g) (hist g)).
Lemma erased_left : forall objs table format partitioned parse_schema code rank parse_rows dfs k p s t hist dels shown,
  erased_by objs table format partitioned parse_schema code rank parse_rows dfs k p s t hist dels -> left_by objs table format partitioned parse_schema code rank parse_rows dfs k p s t hist dels hist shown.
Proof. intros ? ? ? ? ? ? ? ? ? ? ? ? ? hist dels shown H g c B. destruct (H g c B) as [now [contents [D [C W]]]]. split; [now exists contents|]. intros _. exists now. split; [exact D|]. split; [exact C|apply left_all]. Qed.

Section Erased.
Variable objs : list object.
Variable base : url.
Variable names : list string.
Hypothesis PO : proper_objects objs.
Hypothesis Lo : located base names.
Variable number_of : string -> option Z.
Variable collect : list (string * json) -> list (string * json).
Variable local_to_utc : ndt -> option ndt.
Variable dtype' value' : Type.
Variable cast : dtype' -> string -> option value'.
Variable cmp : value' -> value' -> option comparison.
Variable parse_pschema : string -> outcome (list (string * dtype')).
Variable parse_rows : string -> outcome record_batch.
Variable footer : string -> outcome (Z * Z).
Variable open : options -> options -> outcome unit.
Variable code : dtype -> nat.
Variable rank : dtype -> slot -> Z.
Variable float_cast : dtype -> slot -> option slot.
Variable parse_schema : string -> option avro.
Variable parquet : string -> option (list record_batch).
Let st := object_store objs base dtype' (parse_metadata number_of collect) parse_pschema parse_rows footer open.

Lemma erased_snapshot : forall tb listed tz l0 dfs p s k format partitioned hist dels rest t time, 
  directory_listing objs names [".hoodie"] listed -> timeline_timezone (t_configs tb) = Ok tz ->
  denoted_instants (denotes_completed local_to_utc tz [Commit; DeltaCommit; ReplaceCommit]) (map fm_name listed) l0 -> Permutation l0 (t_commits tb) -> StronglySorted instant_le (t_commits tb) ->
  merging_table tb (map (as_field code) dfs) p s k -> (forall fields, get_partition_schema dtype' st tb = Ok fields -> wf_fields fields) ->
  base_format (t_configs tb) = Ok format -> is_table_partitioned (t_configs tb) = Ok partitioned ->
  timestamp t -> parse_datetime local_to_utc t tz = Ok time ->
  left_by objs names format partitioned parse_schema code rank parse_rows dfs k p s t hist dels rest (live objs names format partitioned number_of collect local_to_utc tz t (epoch_millis time)) ->
  forall filters c c' batches, view_after dtype' value' cast cmp local_to_utc st tb c ->
  read_snapshot_as_of dtype' value' cast cmp avro value parse_schema decode check_schema (to_batch code rank float_cast) parquet local_to_utc st tb t filters c c' (Ok batches) ->
  exists gs fs fields hive url, from_str_tuples filters = Ok fs /\ get_partition_schema dtype' st tb = Ok fields /\ hive_flag tb = Ok hive /\ url_flag tb = Ok url
    /\ NoDup gs
    /\ (forall g, In g gs -> live objs names format partitioned number_of collect local_to_utc tz t (epoch_millis time) g
          /\ forall values, fields <> [] -> stands_for dtype' value' cast cmp fields hive url fs (fst g) values -> Forall (satisfies dtype' value' cast cmp fields values) fs)
    /\ (forall g, live objs names format partitioned number_of collect local_to_utc tz t (epoch_millis time) g -> matches dtype' value' cast cmp fields hive url fs (fst g) -> In g gs)
    /\ Forall2 (fun g batch => rb_fields batch = map (as_field code) dfs /\ current_alive k p s (hist g) (dels g) t (rb_rows batch)) gs batches.
Proof.
  intros tb listed tz l0 dfs p s k format partitioned hist dels rest t time DL TZ DN PM So MT WF BF PT TS TM WB filters c c' batches VA RD.
  pose proof (replaced_objects objs base names PO Lo number_of collect local_to_utc tz listed l0 (t_commits tb) (epoch_millis time)) as RO.
  destruct (snapshot_left dtype' value' cast cmp avro value parse_schema decode check_schema (to_batch code rank float_cast) parquet local_to_utc st tb (map (as_field code) dfs) p s k MT (object_tree objs base) (tree_served objs base names PO Lo)
    (tree_wf objs base names PO Lo _ [] (Forall_nil _)) So c c' t filters batches format VA BF TS RD) as [ss [GS FA]].
  destruct (object_snapshots dtype' value' cast cmp local_to_utc objs base names st tb PO Lo eq_refl eq_refl So c c' t filters ss VA GS)
    as [fs [tz' [time' [fields [hive [url [format' [partitioned' [P1 [P2 [P3 [P4 [P5 [P6 [P7 [P8 P9]]]]]]]]]]]]]]]].
  rewrite TZ in P2. injection P2 as <-. rewrite TM in P3. injection P3 as <-. rewrite BF in P7. injection P7 as <-. rewrite PT in P8. injection P8 as <-.
  destruct (P9 (WF _ P4)) as [S1 [S2 S3]].
  exists (map slice_id ss), fs, fields, hive, url. do 4 (split; [assumption|]). split; [exact S3|].
  assert (BASE : forall sl, In sl ss -> exists dir listed', object_partition objs names partitioned (fs_partition sl) dir /\ directory_listing objs names dir listed' /\ exists c0, has_base objs names format partitioned (slice_id sl) c0 /\ sle c0 t).
  { intros sl I. destruct (S1 sl I) as [dir [li [OP [DI [[m [b [[Im [NM [BN BO]]] [_ [E1 [_ [E3 [LE _]]]]]]]] _]]]]]. exists dir, li. split; [exact OP|]. split; [exact DI|].
    exists (bf_commit b). split; [|exact LE]. apply (proj2 DI) in Im as [n [o [FI ->]]]. exists dir, n, o, b. cbn [slice_id fst snd]. repeat split; try assumption; try apply OP; try apply FI. now rewrite <- E1. }
  assert (LIVE : forall sl, In sl ss -> live objs names format partitioned number_of collect local_to_utc tz t (epoch_millis time) (slice_id sl)).
  { intros sl I. destruct (S1 sl I) as [dir [li [OP [DI [_ [NR FL]]]]]]. split.
    - destruct (BASE sl I) as [_ [_ [_ [_ H]]]]. exact H.
    - intros R. apply NR. now apply (RO _ DL DN PM). }
  split; [|split].
  - intros g I. apply in_map_iff in I as [sl [ <- I]]. destruct (S1 sl I) as [dir [li [OP [DI [_ [NR FL]]]]]]. split; [|exact FL]. now apply LIVE.
  - intros [pa id] [[c0 [[dir [n [o [b [OP [FI [NM [BN [BO [EI EC]]]]]]]]]] LE]] NR] M. cbn [fst snd] in *. rewrite <- EI. apply (S2 pa dir n o b OP M FI NM BN BO); [now rewrite EC|].
    intros R. apply NR. apply (RO _ DL DN PM) in R. now rewrite EI in R.
  - clear S2 S3 P9 GS RD S1. induction FA as [|sl batch ss bs H F IH]; [constructor|]. cbn [map]. constructor; [|apply IH; [intros sl' I; apply BASE; now right|intros sl' I; apply LIVE; now right]].
    destruct (BASE sl (or_introl eq_refl)) as [dir [li [OP [_ [c0 [HB _]]]]]]. destruct (WB _ _ HB) as [[contents WO] SH]. destruct (SH (LIVE sl (or_introl eq_refl))) as [now [HI [CL LF]]]. pose proof OP as [FD [EP _]].
    destruct (files_spec objs base names PO Lo dir FD) as [l [E NS]]. eapply (H now (rest (slice_id sl)) (hist (slice_id sl)) (dels (slice_id sl)) l _ LF HI CL).
    + cbn [st object_store st_files]. rewrite EP. exact E.
    + apply written_laid_out. apply stored_out. apply (WO dir l (get_file_data objs base) OP NS). intros n o FI. cbn [slice_id fst]. rewrite EP. rewrite <- path_is.
      * unfold get_file_data. now rewrite (read_spec objs base names PO Lo dir n o FD FI).
      * now apply dir_end.
      * intros r ->. destruct FI as [_ [[_ [S _]] _]]. discriminate S.
Qed.
End Erased.

(** one table from its file groups *)
Lemma flatten_alive : forall k p s hist dels t (of : string * string -> Prop) gs batches, NoDup gs -> (forall g, In g gs <-> of g) -> keys_apart k of hist ->
  Forall2 (fun g batch => current_alive k p s (hist g) (dels g) t (rb_rows batch)) gs batches -> table_alive k p s of hist dels t (flat_map rb_rows batches).
Proof.
  intros k p s hist dels t of gs batches ND OF KA FA.
  assert (A1 : forall r, In r (flat_map rb_rows batches) -> exists g batch, In g gs /\ current_alive k p s (hist g) (dels g) t (rb_rows batch) /\ In r (rb_rows batch)).
  { clear ND OF KA. induction FA as [|g b gs bs H F IH]; intros r I; [destruct I|]. cbn [flat_map] in I. apply in_app_or in I as [I|I]; [exists g, b; split; [now left|now split]|].
    destruct (IH r I) as [g' [b' [X Y]]]. exists g', b'. split; [now right|exact Y]. }
  assert (A2 : forall g, In g gs -> exists batch, current_alive k p s (hist g) (dels g) t (rb_rows batch) /\ incl (rb_rows batch) (flat_map rb_rows batches)).
  { clear ND OF KA A1. induction FA as [|g b gs bs H F IH]; intros g' I; [destruct I|]. cbn [flat_map]. destruct I as [ <- |I].
    - exists b. split; [exact H|]. intros r J. apply in_or_app. now left.
    - destruct (IH g' I) as [b' [X Y]]. exists b'. split; [exact X|]. intros r J. apply in_or_app. right. now apply Y. }
  split; [|split].
  - assert (G : forall g, In g gs -> of g) by (intros; now apply OF). clear OF A1 A2. induction FA as [|g b gs bs H F IH]; [constructor|]. inversion ND as [|? ? NI ND']; subst. cbn [flat_map]. rewrite map_app.
    assert (IH' : NoDup (map (key_at k) (flat_map rb_rows bs))) by (apply IH; [exact ND'|intros; apply G; now right]). clear IH.
    assert (X : forall r, In r (flat_map rb_rows bs) -> exists g' x, In g' gs /\ In (x, r) (g_versions (hist g'))).
    { clear -F. induction F as [|g' b' gs' bs' H F IH]; intros r I; [destruct I|]. cbn [flat_map] in I. apply in_app_or in I as [I|I].
      - destruct H as [_ [_ H]]. destruct (H r I) as [[x [Ix _]] _]. exists g', x. split; [now left|exact Ix].
      - destruct (IH r I) as [g'' [x [J K]]]. exists g'', x. split; [now right|exact K]. }
    destruct H as [N [_ H]]. induction (rb_rows b) as [|r l IHl]; [exact IH'|]. cbn [map app]. cbn [map] in N. inversion N as [|? ? N1 N2]; subst. constructor; [|apply IHl; [exact N2|intros; apply H; now right]].
    rewrite in_app_iff. intros [I|I]; [now apply N1|]. apply in_map_iff in I as [r' [E I]]. destruct (X r' I) as [g' [x' [J K]]]. destruct (H r (or_introl eq_refl)) as [[x [Ix _]] _].
    apply NI. rewrite (KA g g' x x' r r' (G g (or_introl eq_refl)) (G g' (or_intror J)) Ix K (eq_sym E)). exact J.
  - intros g x r O I. apply OF in O. destruct (A2 g O) as [b [[_ [H _]] IN]]. destruct (H x r I) as [r' [J E]]. exists r'. split; [now apply IN|exact E].
  - intros r I. destruct (A1 r I) as [g [b [IG [[_ [_ H]] J]]]]. destruct (H r J) as [[x Ix] NW]. apply OF in IG. split; [exists g, x; auto|].
    intros g' x' r' O I' E. assert (g = g') as <- by exact (KA g g' x x' r r' IG O (proj1 Ix) (proj1 I') (eq_sym E)). now apply (NW x' r').
Qed.

(** ** Reads succeed *)
Section Queries.
Variable dtype value : Type.
Variable cast : dtype -> string -> option value.
Variable cmp : value -> value -> option comparison.
Variable avro_schema avro_value : Type.
Variable parse_schema : string -> option avro_schema.
Variable datum : avro_schema -> string -> option (avro_value * string).
Variable check_schema : avro_schema -> outcome unit.
Variable to_batch : avro_schema -> list avro_value -> outcome record_batch.
Variable parquet : string -> option (list record_batch).
Variable local_to_utc : ndt -> option ndt.
Variable st : store dtype.
Variable tb : table.
Variable sch : list M_Reader.field.
Variable p s k : nat.
Hypothesis MT : merging_table tb sch p s k.
Notation as_of := (get_file_slices_as_of dtype value cast cmp local_to_utc st tb).
Notation after := (view_after dtype value cast cmp local_to_utc st tb).
Notation slices_read := (read_slices dtype avro_schema avro_value parse_schema datum check_schema to_batch parquet local_to_utc st tb).
Notation reads := (read_snapshot_as_of dtype value cast cmp avro_schema avro_value parse_schema datum check_schema to_batch parquet local_to_utc st tb).
Notation lays_out format part id listed := (laid_out avro_schema avro_value parse_schema datum check_schema to_batch parquet (st_parquet _ st) (st_bytes _ st) format part id sch listed).

Lemma alive_succeeds : forall root, serves_dirs root (st_dirs _ st) -> wf_tree root -> StronglySorted instant_le (t_commits tb) ->
  (forall t, readers_open st tb [("hoodie.read.file_group.end_timestamp", t)]) ->
  forall c c' t filters ss format, after c -> base_format (t_configs tb) = Ok format -> timestamp t -> as_of t filters c c' (Ok ss) ->
  (forall slice listed, In slice ss -> st_files _ st (fs_partition slice) = Ok listed ->
     exists now g' g dels contents, left_of t g' g /\ dhistory k p s now g dels /\ clean_at g t /\ lays_out format (fs_partition slice) (bf_file_id (fs_base slice)) listed contents g') ->
  forall r, slices_read [("hoodie.read.file_group.end_timestamp", t)] ss r -> exists batches, r = Ok batches.
Proof.
  intros root Sv Wf So Op c c' t filters ss format Hc F Tt Q LO r R.
  assert (SN := as_of_newest dtype value cast cmp local_to_utc st tb root Sv Wf So c c' t filters ss format Hc Q F).
  inversion R as [iter e PI E|iter PI E|iter os r' PI [_ F2] J]; subst; cbn zeta in *; try (rewrite (Op t iter PI) in E; discriminate).
  apply (joined_all _ os r); [|exact J].
  destruct (reader_settings tb sch p s k MT iter PI t) as [S1 [S2 [S3 [S4 [S5 S6]]]]].
  set (m := fst (table_reader_options iter (t_configs tb) (t_storage tb) [("hoodie.read.file_group.end_timestamp", t)])) in *. clearbody m. clear Q R J.
  induction F2 as [|slice o ss os [sort [visit [HS [HV Ho]]]] F2 IH]; intros o' Io; [destruct Io|]. destruct Io as [ <- |Io].
  - destruct (SN slice (or_introl eq_refl)) as [listed [El Sn]]. destruct (LO slice listed (or_introl eq_refl) El) as [now [g' [g [dels [contents [LF [Hh [Cl Lo]]]]]]]].
    destruct (slice_left avro_schema avro_value parse_schema datum check_schema to_batch parquet (st_parquet _ st) (st_bytes _ st) local_to_utc k p s sort visit m t now format (fs_partition slice) sch listed contents g' g dels slice)
      as [out [O1 [O2 O3]]]; try assumption. rewrite O1 in Ho. eauto.
  - apply IH; [|intros; apply SN; now right|exact Io]. intros sl l Isl. apply LO. now right.
Qed.
End Queries.

Section Whole.
Variable objs : list object.
Variable base : url.
Variable names : list string.
Hypothesis PO : proper_objects objs.
Hypothesis Lo : located base names.
Variable number_of : string -> option Z.
Variable collect : list (string * json) -> list (string * json).
Variable local_to_utc : ndt -> option ndt.
Variable dtype' value' : Type.
Variable cast : dtype' -> string -> option value'.
Variable cmp : value' -> value' -> option comparison.
Variable parse_pschema : string -> outcome (list (string * dtype')).
Variable parse_rows : string -> outcome record_batch.
Variable footer : string -> outcome (Z * Z).
Variable open : options -> options -> outcome unit.
Variable code : dtype -> nat.
Variable rank : dtype -> slot -> Z.
Variable float_cast : dtype -> slot -> option slot.
Variable parse_schema : string -> option avro.
Variable parquet : string -> option (list record_batch).
Let st := object_store objs base dtype' (parse_metadata number_of collect) parse_pschema parse_rows footer open.
Variable tb : table.
Variable tz : string.
Variable listed0 : list file_meta.
Variable l0 : list instant.
Variable dfs : list M_Avro.field.
Variable p s k : nat.
Variable format : string.
Variable partitioned : bool.
Variable hist : string * string -> group.
Variable dels : string * string -> deletions.
Variable rest : string * string -> group.
Variable t : string.
Variable time : ndt.
Variable sch : list (string * dtype').
Variable fields : list string.
Variable hive url : bool.
Hypothesis DL : directory_listing objs names [".hoodie"] listed0.
Hypothesis TZ : timeline_timezone (t_configs tb) = Ok tz.
Hypothesis DN : denoted_instants (denotes_completed local_to_utc tz [Commit; DeltaCommit; ReplaceCommit]) (map fm_name listed0) l0.
Hypothesis PM : Permutation l0 (t_commits tb).
Hypothesis So : StronglySorted instant_le (t_commits tb).
Hypothesis TM : parse_datetime local_to_utc t tz = Ok time.
Hypothesis RI : replacements_in_order objs names number_of collect local_to_utc tz (epoch_millis time).
Hypothesis SF : schema_found objs names number_of collect parse_pschema (t_commits tb) sch.
Hypothesis PF : partition_fields (t_configs tb) = Ok fields.
Hypothesis HF : hive_flag tb = Ok hive.
Hypothesis UF : url_flag tb = Ok url.
Hypothesis MT : merging_table tb (map (as_field code) dfs) p s k.
Hypothesis BF : base_format (t_configs tb) = Ok format.
Hypothesis PT : is_table_partitioned (t_configs tb) = Ok partitioned.
Hypothesis TS : timestamp t.
Hypothesis OP : forall x, readers_open st tb [("hoodie.read.file_group.end_timestamp", x)].
Hypothesis FO : files_in_order objs names format partitioned footer.
Variable filters : list (string * string * string).
Variable fs : list filter_expr.
Hypothesis FT : from_str_tuples filters = Ok fs.
Hypothesis FF : forall f, In f fs -> filter_fits cast sch fields f.
Hypothesis WB : left_by objs names format partitioned parse_schema code rank parse_rows dfs k p s t hist dels rest
  (live objs names format partitioned number_of collect local_to_utc tz t (epoch_millis time)).
Lemma erased_slices_read : forall c c' ss r, view_after dtype' value' cast cmp local_to_utc st tb c -> get_file_slices_as_of dtype' value' cast cmp local_to_utc st tb t filters c c' (Ok ss) ->
  (forall fields', get_partition_schema dtype' st tb = Ok fields' -> wf_fields fields') ->
  read_slices dtype' avro value parse_schema decode check_schema (to_batch code rank float_cast) parquet local_to_utc st tb [("hoodie.read.file_group.end_timestamp", t)] ss r -> exists batches, r = Ok batches.
Proof.
  intros c c' ss r VA G WF. eapply alive_succeeds with (format := format) (root := object_tree objs base); try eassumption.
  - exact (tree_served objs base names PO Lo).
  - exact (tree_wf objs base names PO Lo _ [] (Forall_nil _)).
  - intros slice listed I Li.
    destruct (object_snapshots dtype' value' cast cmp local_to_utc objs base names st tb PO Lo eq_refl eq_refl So c c' t filters ss VA G)
      as [fs' [tz' [time' [fields' [hive' [url' [format' [partitioned' [P1 [P2 [P3 [P4 [P5 [P6 [P7 [P8 P9]]]]]]]]]]]]]]]].
    rewrite BF in P7. injection P7 as <-. rewrite PT in P8. injection P8 as <-. rewrite TZ in P2. injection P2 as <-. rewrite TM in P3. injection P3 as <-. destruct (P9 (WF _ P4)) as [S1 _].
    destruct (S1 slice I) as [dir [li [OPn [DI [[m [b [[Im [NM [BN BO]]] [_ [E1 [_ [E3 [LE _]]]]]]]] [NR _]]]]]]. pose proof OPn as [FD [EP _]].
    assert (HB : has_base objs names format partitioned (slice_id slice) (bf_commit b)).
    { apply (proj2 DI) in Im as [n [o [FI ->]]]. exists dir, n, o, b. cbn [slice_id fst snd]. repeat split; try assumption; try apply OPn; try apply FI. now rewrite <- E1. }
    destruct (WB _ _ HB) as [[contents WO] SH].
    destruct SH as [now [HI [CL LF]]].
    { split; [exists (bf_commit b); split; [exact HB|exact LE]|]. intros R. apply NR. now apply (replaced_objects objs base names PO Lo number_of collect local_to_utc tz listed0 l0 (t_commits tb) (epoch_millis time) _ DL DN PM). }
    exists now, (rest (slice_id slice)), (hist (slice_id slice)), (dels (slice_id slice)). eexists. split; [exact LF|]. split; [exact HI|]. split; [exact CL|].
    apply written_laid_out. apply stored_out. destruct (files_spec objs base names PO Lo dir FD) as [l [E NS]].
    assert (listed = l) by (cbn [st object_store st_files] in Li; rewrite EP, E in Li; congruence). subst listed.
    apply (WO dir l (get_file_data objs base) OPn NS). intros n o FI. cbn [slice_id fst]. rewrite EP. now apply (read_data objs base names PO Lo).
Qed.

Lemma erased_succeeds : (forall fields', get_partition_schema dtype' st tb = Ok fields' -> wf_fields fields') ->
  forall c, view_after dtype' value' cast cmp local_to_utc st tb c ->
  (forall c' r, read_snapshot_as_of dtype' value' cast cmp avro value parse_schema decode check_schema (to_batch code rank float_cast) parquet local_to_utc st tb t filters c c' r -> exists batches, r = Ok batches)
  /\ forall n, listing_parallelism (t_configs tb) = Ok n -> (0 < n)%Z ->
     exists c' batches, read_snapshot_as_of dtype' value' cast cmp avro value parse_schema decode check_schema (to_batch code rank float_cast) parquet local_to_utc st tb t filters c c' (Ok batches).
Proof.
  intros WF. apply (layouts_succeed objs base names PO Lo number_of collect local_to_utc dtype' value' cast cmp parse_pschema parse_rows footer open code rank float_cast parse_schema parquet tb tz listed0 l0 dfs format partitioned rest t time sch fields hive url DL TZ DN PM So TM RI SF PF HF UF BF PT OP FO filters fs FT FF).
  - intros g c H. destruct (WB g c H) as [WO _]. exact WO.
  - intros c c' ss r VA G. exact (erased_slices_read c c' ss r VA G WF).
Qed.
End Whole.
