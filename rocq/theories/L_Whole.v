(** Lemmas for C81: from the objects of a table to the records of a query. *)
From Coq Require Import Sorted.
From Verif Require Import Base Str M_Utf8 M_Time M_Instant M_Timeline M_FileGroup M_Builder M_Listing M_Expr M_Log M_Config M_Reader M_Table M_Storage M_Avro M_Values M_Datum M_Json M_Objects M_Open
  S_Time S_Timeline S_FileGroup S_Builder S_Listing S_Expr S_Log S_Reader S_Config S_Table S_Avro S_Storage S_Objects S_Open S_History S_Values S_Datum S_Json S_Whole
  L_Base L_Str L_Instant L_Storage L_Expr L_Tree L_History L_Objects L_Open L_Json P_Datum.
Local Open Scope string_scope.

(** ** Names cut at a dot *)
Lemma utf8_dot_3 : forall a, utf8_3 a "." = false.
Proof. intros a. unfold utf8_3. change (byte_in 160 191 ".") with false. change (cont_byte ".") with false. change (byte_in 128 159 ".") with false. now rewrite !Bool.andb_false_r. Qed.
Lemma utf8_dot_4 : forall a, utf8_4 a "." = false.
Proof. intros a. unfold utf8_4. change (byte_in 144 191 ".") with false. change (cont_byte ".") with false. change (byte_in 128 143 ".") with false. now rewrite !Bool.andb_false_r. Qed.
Lemma utf8_dot : forall a b, utf8_valid (a ++ String "." b) = true -> utf8_valid a = true /\ utf8_valid b = true.
Proof.
  intros a. remember (String.length a) as n eqn:E. assert (H : (String.length a <= n)%nat) by lia. clear E. revert a H.
  induction n as [|n IH]; intros [|a1 r] H b V; try (cbn in H; lia); try (split; [reflexivity|exact V]). cbn [append utf8_valid] in *. cbn in H.
  destruct (byte_in 0 127 a1); [apply IH; [lia|assumption]|].
  destruct r as [|b1 r2]; cbn [append] in *.
  { exfalso. change (cont_byte ".") with false in V. rewrite Bool.andb_false_r, utf8_dot_3, utf8_dot_4 in V. destruct b as [|x [|y z]]; try discriminate. }
  cbn in H. destruct (byte_in 194 223 a1 && cont_byte b1); [apply IH; [lia|assumption]|].
  destruct r2 as [|c1 r3]; cbn [append] in *.
  { exfalso. change (cont_byte ".") with false in V. rewrite !Bool.andb_false_r in V. destruct b as [|x y]; discriminate. }
  cbn in H. destruct (utf8_3 a1 b1 && cont_byte c1); [apply IH; [lia|assumption]|].
  destruct r3 as [|d1 r4]; cbn [append] in *.
  { exfalso. change (cont_byte ".") with false in V. rewrite !Bool.andb_false_r in V. discriminate. }
  cbn in H. destruct (utf8_4 a1 b1 && cont_byte c1 && cont_byte d1); [|discriminate]. cbn in *. apply IH; [lia|assumption].
Qed.
Lemma has_control_app : forall a b, has_control (a ++ b) = (has_control a || has_control b)%bool.
Proof. induction a as [|c a IH]; intros b; [reflexivity|]. cbn [append has_control]. now rewrite IH, Bool.orb_assoc. Qed.
Lemma legal_replace : forall ts w, legal (ts ++ ".replacecommit" ++ w) -> legal (ts ++ ".replacecommit").
Proof.
  intros ts w [_ [S [_ [_ [C U]]]]]. rewrite <- app_assoc_s in *.
  assert (U' : utf8_valid ts = true). { rewrite app_assoc_s in U. apply (utf8_dot ts ("replacecommit" ++ w)) in U. apply U. }
  rewrite has_char_app in S. apply Bool.orb_false_iff in S as [S _]. rewrite has_control_app in C. apply Bool.orb_false_iff in C as [C _].
  assert (N : forall x y, String.length x <> String.length y -> x <> y) by (intros x y D ->; now apply D).
  split; [apply N; rewrite length_app_s; cbn; lia|]. split; [exact S|]. split; [apply N; rewrite length_app_s; cbn; lia|]. split; [apply N; rewrite length_app_s; cbn; lia|]. split; [exact C|].
  now rewrite utf8_app.
Qed.

Lemma denoted_in : forall (P : string -> instant -> Prop) ns l, denoted_instants P ns l -> forall i, In i l -> exists n, In n ns /\ P n i.
Proof.
  induction 1 as [|n ns i is H D IH|n ns is H D IH]; intros j I; [destruct I| |].
  - destruct I as [ <- |I]; [exists n; split; [now left|exact H]|]. destruct (IH j I) as [m [A B]]. exists m. split; [now right|exact B].
  - destruct (IH j I) as [m [A B]]. exists m. split; [now right|exact B].
Qed.
Lemma denoted_all : forall (P : string -> instant -> Prop) ns l, (forall n i j, P n i -> P n j -> i = j) -> denoted_instants P ns l -> forall n i, In n ns -> P n i -> In i l.
Proof.
  intros P ns l U. induction 1 as [|m ns j is H D IH|m ns is H D IH]; intros n i I Q; [destruct I| |].
  - destruct I as [ -> |I]; [left; now apply (U n)|right; now apply (IH n)].
  - destruct I as [ -> |I]; [now apply H in Q|now apply (IH n)].
Qed.
Lemma denotes_one : forall L tz actions n i j, denotes_completed L tz actions n i -> denotes_completed L tz actions n j -> i = j.
Proof.
  intros L tz actions n i j [ts [a [dt [D [N [_ [T ->]]]]]]] [ts' [a' [dt' [D' [N' [_ [T' ->]]]]]]].
  assert (S : split_once "." n = Some (ts, action_str a) \/ split_once "." n = Some (ts, action_str a ++ ".")).
  { destruct N as [ -> | -> ]; [left|right]; now apply (split_once_app "."). }
  assert (S' : split_once "." n = Some (ts', action_str a') \/ split_once "." n = Some (ts', action_str a' ++ ".")).
  { destruct N' as [ -> | -> ]; [left|right]; now apply (split_once_app "."). }
  assert (E : ts = ts' /\ a = a').
  { destruct S as [S|S], S' as [S'|S']; rewrite S in S'; injection S' as E1 E2; subst ts'; split; try reflexivity; destruct a, a'; cbn in E2; try reflexivity; discriminate E2. }
  destruct E as [ <- <- ]. assert (dt = dt') by congruence. now subst.
Qed.

(** the path of a directory does not end with a slash *)
Lemma dir_end : forall dir, Forall legal dir -> forall r, join "/" dir <> r ++ "/".
Proof.
  induction 1 as [|n dir [N [S _]] F IH]; intros r E; [destruct r; discriminate E|].
  assert (D : forall a b x y, has_char "/" a = false -> b <> "" -> a ++ "/" ++ b = x ++ "/" ++ y -> y = "" -> exists z, b = z ++ "/").
  { induction a as [|c a IHa]; intros b x y Ha Hb He Hy; subst y.
    - cbn in He. destruct x as [|d x]; cbn in He; [injection He as ->; congruence|]. injection He as _ ->. eauto.
    - cbn [has_char] in Ha. apply Bool.orb_false_iff in Ha as [Hc Ha]. destruct x as [|d x]; cbn in He; [injection He as -> _; discriminate Hc|]. injection He as _ He. exact (IHa b x "" Ha Hb He eq_refl). }
  destruct dir as [|m dir].
  - cbn [join] in E. subst n. rewrite has_char_app in S. apply Bool.orb_false_iff in S as [_ S]. discriminate S.
  - assert (J : join "/" (n :: m :: dir) = n ++ "/" ++ join "/" (m :: dir)) by reflexivity. rewrite J in E.
    destruct (D n (join "/" (m :: dir)) r "" S) as [z Z].
    + inversion F as [|? ? [M _] _]; subst. destruct dir; cbn [join]; [exact M|destruct m; [congruence|discriminate]].
    + exact E.
    + reflexivity.
    + now apply IH in Z.
Qed.

Section Whole.
Variable objs : list object.
Variable base : url.
Variable names : list string.
Hypothesis PO : proper_objects objs.
Hypothesis Lo : located base names.
Variable number_of : string -> option Z.
Variable collect : list (string * json) -> list (string * json).
Variable local_to_utc : ndt -> option ndt.

(** what is read at the path of an instant *)
Lemma timeline_path : forall n, legal n -> object_path base (".hoodie/" ++ n) = Ok (key_of (names ++ [".hoodie"; n])).
Proof.
  intros n L. assert (F : Forall legal [".hoodie"]) by (repeat constructor; discriminate).
  pose proof (child_addressed base names _ [".hoodie"] n Lo (plain_join _ F) (utf8_dir _ F) (names_dir _ F) (no_control _ F) L) as X.
  change (join "/" [".hoodie"]) with ".hoodie" in X.
  replace (path_join ".hoodie" n) with (".hoodie/" ++ n) in X; [exact X|].
  symmetry. rewrite path_is; [reflexivity|discriminate || (intros r E; apply (f_equal (fun s => ends_with "/" s)) in E; rewrite (proj2 (L_Str.ends_with_spec "/" (r ++ "/")) (ex_intro _ r eq_refl)) in E; discriminate E)|].
  intros r ->. destruct L as [_ [S _]]. discriminate S.
Qed.
Lemma timeline_read : forall n d, legal n -> (get_file_data objs base (".hoodie/" ++ n) = Ok d <-> exists o, file_in objs names [".hoodie"] n o /\ o_data o = d).
Proof.
  intros n d L. unfold get_file_data, find_object. rewrite (timeline_path n L). cbn [bind]. split.
  - intros H. destruct (find _ objs) as [o|] eqn:F; cbn [ok_or bind] in H; [|discriminate]. injection H as H. apply find_some in F as [I E]. apply String.eqb_eq in E.
    exists o. split; [|exact H]. split; [exact I|]. split; [exact L|exact E].
  - intros [o [[I [_ E]] H]]. change (names ++ [".hoodie"; n])%list with (names ++ [".hoodie"] ++ [n])%list. rewrite <- E, (find_unique objs (proj2 PO) o I). cbn. now rewrite H.
Qed.

(** the replaced file groups, from the objects *)
Lemma replaced_objects : forall tz listed l0 commits time g,
  directory_listing objs names [".hoodie"] listed -> denoted_instants (denotes_completed local_to_utc tz [Commit; DeltaCommit; ReplaceCommit]) (map fm_name listed) l0 -> Permutation l0 commits ->
  replaced_by_time (fun p => let* d := get_file_data objs base p in parse_metadata number_of collect d) commits time g
  <-> replaced_in objs names number_of collect local_to_utc tz time g.
Proof.
  intros tz listed l0 commits time g [_ DL] DN PM. split.
  - intros [i [md [[I [St [W R]]] [A Rp]]]]. apply (Permutation_in _ (Permutation_sym PM)) in I. destruct (denoted_in _ _ _ DN _ I) as [n [In' [ts [a [dt [D [N [_ [T E]]]]]]]]].
    subst i. cbn [i_action i_timestamp i_state i_epoch] in *. subst a. rewrite file_name_spec in R. cbn [i_action i_timestamp i_state timeline_name] in R.
    apply in_map_iff in In' as [m [Em Im]]. apply DL in Im as [n' [o' [[_ [Ln _]] Eo]]]. subst m. cbn [fm_name new_meta] in Em. subst n'.
    assert (LR : legal (ts ++ ".replacecommit")). { destruct N as [ -> | -> ]; [exact Ln|]. exact (legal_replace ts "." Ln). }
    apply bind_ok in R as [d [R R']]. apply (timeline_read _ _ LR) in R as [o [FI Ed]]. unfold parse_metadata in R'. destruct (from_slice number_of collect d) as [m|] eqn:FS; [|discriminate]. injection R' as ->.
    exists ts, o, dt, md. split; [exact FI|]. split; [exact D|]. split; [exact T|]. split; [apply Z.leb_le; exact W|]. split; [|exact Rp]. apply slice_text. now rewrite Ed.
  - intros [ts [o [dt [m [FI [D [T [LE [TX Rp]]]]]]]]].
    set (i := {| i_timestamp := ts; i_action := ReplaceCommit; i_state := Completed; i_epoch := epoch_millis dt |}).
    assert (II : In i l0).
    { apply (denoted_all _ _ _ (denotes_one local_to_utc tz _) DN (ts ++ ".replacecommit")).
      - apply in_map_iff. exists (new_meta (ts ++ ".replacecommit") (o_size o)). split; [reflexivity|]. apply DL. eauto.
      - exists ts, ReplaceCommit, dt. split; [exact D|]. split; [now left|]. split; [cbn; tauto|]. split; [exact T|reflexivity]. }
    exists i, m. split; [|split; [reflexivity|exact Rp]]. split; [exact (Permutation_in _ PM II)|]. split; [reflexivity|]. split; [apply Z.leb_le; exact LE|].
    rewrite file_name_spec. cbn [i i_action i_timestamp i_state timeline_name]. pose proof FI as [_ [Ln _]]. rewrite (proj2 (timeline_read (ts ++ ".replacecommit") (o_data o) Ln)) by eauto.
    cbn [bind]. unfold parse_metadata. apply slice_text in TX. now rewrite TX.
Qed.

Variable dtype' value' : Type.
Variable cast : dtype' -> string -> option value'.
Variable cmp : value' -> value' -> option comparison.
Variable parse_pschema : string -> outcome (list (string * dtype')).
Variable parse_rows : string -> outcome record_batch.
Variable footer : string -> outcome (Z * Z).
Variable open : options -> options -> outcome unit.
Variable code : dtype -> nat.
Variable rank : dtype -> slot -> Z.
Variable float_cast : dtype -> slot -> option slot.
Variable parse_schema : string -> option avro.
Variable parquet : string -> option (list record_batch).
Let st := object_store objs base dtype' (parse_metadata number_of collect) parse_pschema parse_rows footer open.

Lemma whole_snapshot : forall tb listed tz l0 dfs p s k format partitioned hist t time, 
  directory_listing objs names [".hoodie"] listed -> timeline_timezone (t_configs tb) = Ok tz ->
  denoted_instants (denotes_completed local_to_utc tz [Commit; DeltaCommit; ReplaceCommit]) (map fm_name listed) l0 -> Permutation l0 (t_commits tb) -> StronglySorted instant_le (t_commits tb) ->
  merging_table tb (map (as_field code) dfs) p s k -> (forall fields, get_partition_schema dtype' st tb = Ok fields -> wf_fields fields) ->
  base_format (t_configs tb) = Ok format -> is_table_partitioned (t_configs tb) = Ok partitioned ->
  timestamp t -> parse_datetime local_to_utc t tz = Ok time ->
  written_by objs names format partitioned parse_schema code rank parse_rows dfs k p s t hist ->
  forall filters c c' batches, view_after dtype' value' cast cmp local_to_utc st tb c ->
  read_snapshot_as_of dtype' value' cast cmp avro value parse_schema decode check_schema (to_batch code rank float_cast) parquet local_to_utc st tb t filters c c' (Ok batches) ->
  exists gs fs fields hive url, from_str_tuples filters = Ok fs /\ get_partition_schema dtype' st tb = Ok fields /\ hive_flag tb = Ok hive /\ url_flag tb = Ok url
    /\ NoDup gs
    /\ (forall g, In g gs -> live objs names format partitioned number_of collect local_to_utc tz t (epoch_millis time) g
          /\ forall values, fields <> [] -> stands_for dtype' value' cast cmp fields hive url fs (fst g) values -> Forall (satisfies dtype' value' cast cmp fields values) fs)
    /\ (forall g, live objs names format partitioned number_of collect local_to_utc tz t (epoch_millis time) g -> matches dtype' value' cast cmp fields hive url fs (fst g) -> In g gs)
    /\ Forall2 (fun g batch => rb_fields batch = map (as_field code) dfs /\ current_at k p s (hist g) t (rb_rows batch)) gs batches.
Proof.
  intros tb listed tz l0 dfs p s k format partitioned hist t time DL TZ DN PM So MT WF BF PT TS TM WB filters c c' batches VA RD.
  pose proof (replaced_objects tz listed l0 (t_commits tb) (epoch_millis time)) as RO.
  destruct (C77_snapshot code rank float_cast dtype' value' cast cmp parse_schema parquet local_to_utc st tb dfs p s k MT (object_tree objs base) (tree_served objs base names PO Lo)
    (tree_wf objs base names PO Lo _ [] (Forall_nil _)) So c c' t filters batches format VA BF TS RD) as [ss [GS FA]].
  destruct (object_snapshots dtype' value' cast cmp local_to_utc objs base names st tb PO Lo eq_refl eq_refl So c c' t filters ss VA GS)
    as [fs [tz' [time' [fields [hive [url [format' [partitioned' [P1 [P2 [P3 [P4 [P5 [P6 [P7 [P8 P9]]]]]]]]]]]]]]]].
  rewrite TZ in P2. injection P2 as <-. rewrite TM in P3. injection P3 as <-. rewrite BF in P7. injection P7 as <-. rewrite PT in P8. injection P8 as <-.
  destruct (P9 (WF _ P4)) as [S1 [S2 S3]].
  exists (map slice_id ss), fs, fields, hive, url. do 4 (split; [assumption|]). split; [exact S3|].
  assert (BASE : forall sl, In sl ss -> exists dir listed', object_partition objs names partitioned (fs_partition sl) dir /\ directory_listing objs names dir listed' /\ exists c0, has_base objs names format partitioned (slice_id sl) c0 /\ sle c0 t).
  { intros sl I. destruct (S1 sl I) as [dir [li [OP [DI [[m [b [[Im [NM [BN BO]]] [_ [E1 [_ [E3 [LE _]]]]]]]] _]]]]]. exists dir, li. split; [exact OP|]. split; [exact DI|].
    exists (bf_commit b). split; [|exact LE]. apply (proj2 DI) in Im as [n [o [FI ->]]]. exists dir, n, o, b. cbn [slice_id fst snd]. repeat split; try assumption; try apply OP; try apply FI. now rewrite <- E1. }
  split; [|split].
  - intros g I. apply in_map_iff in I as [sl [ <- I]]. destruct (S1 sl I) as [dir [li [OP [DI [_ [NR FL]]]]]]. split; [|exact FL]. split.
    + destruct (BASE sl I) as [_ [_ [_ [_ H]]]]. exact H.
    + intros R. apply NR. now apply (RO _ DL DN PM).
  - intros [pa id] [[c0 [[dir [n [o [b [OP [FI [NM [BN [BO [EI EC]]]]]]]]]] LE]] NR] M. cbn [fst snd] in *. rewrite <- EI. apply (S2 pa dir n o b OP M FI NM BN BO); [now rewrite EC|].
    intros R. apply NR. apply (RO _ DL DN PM) in R. now rewrite EI in R.
  - clear S2 S3 P9 GS RD S1. induction FA as [|sl batch ss bs H F IH]; [constructor|]. cbn [map]. constructor; [|apply IH; intros sl' I; apply BASE; now right].
    destruct (BASE sl (or_introl eq_refl)) as [dir [li [OP [_ [c0 [HB _]]]]]]. destruct (WB _ _ HB) as [now [contents [HI [CL WO]]]]. pose proof OP as [FD [EP _]].
    destruct (files_spec objs base names PO Lo dir FD) as [l [E NS]]. apply (H now (hist (slice_id sl)) l contents HI CL).
    + cbn [st object_store st_files]. rewrite EP. exact E.
    + apply (WO dir l (get_file_data objs base) OP NS). intros n o FI. cbn [slice_id fst]. rewrite EP. rewrite <- path_is.
      * unfold get_file_data. now rewrite (read_spec objs base names PO Lo dir n o FD FI).
      * now apply dir_end.
      * intros r ->. destruct FI as [_ [[_ [S _]] _]]. discriminate S.
Qed.
End Whole.

(** one table from its file groups *)
Lemma flatten : forall k p s hist t (of : string * string -> Prop) gs batches, NoDup gs -> (forall g, In g gs <-> of g) -> keys_apart k of hist ->
  Forall2 (fun g batch => current_at k p s (hist g) t (rb_rows batch)) gs batches -> table_at k p s of hist t (flat_map rb_rows batches).
Proof.
  intros k p s hist t of gs batches ND OF KA FA.
  assert (A1 : forall r, In r (flat_map rb_rows batches) -> exists g batch, In g gs /\ current_at k p s (hist g) t (rb_rows batch) /\ In r (rb_rows batch)).
  { clear ND OF KA. induction FA as [|g b gs bs H F IH]; intros r I; [destruct I|]. cbn [flat_map] in I. apply in_app_or in I as [I|I]; [exists g, b; split; [now left|now split]|].
    destruct (IH r I) as [g' [b' [X Y]]]. exists g', b'. split; [now right|exact Y]. }
  assert (A2 : forall g, In g gs -> exists batch, current_at k p s (hist g) t (rb_rows batch) /\ incl (rb_rows batch) (flat_map rb_rows batches)).
  { clear ND OF KA A1. induction FA as [|g b gs bs H F IH]; intros g' I; [destruct I|]. cbn [flat_map]. destruct I as [ <- |I].
    - exists b. split; [exact H|]. intros r J. apply in_or_app. now left.
    - destruct (IH g' I) as [b' [X Y]]. exists b'. split; [exact X|]. intros r J. apply in_or_app. right. now apply Y. }
  split; [|split].
  - assert (G : forall g, In g gs -> of g) by (intros; now apply OF). clear OF A1 A2. induction FA as [|g b gs bs H F IH]; [constructor|]. inversion ND as [|? ? NI ND']; subst. cbn [flat_map]. rewrite map_app.
    assert (IH' : NoDup (map (key_at k) (flat_map rb_rows bs))) by (apply IH; [exact ND'|intros; apply G; now right]). clear IH.
    assert (X : forall r, In r (flat_map rb_rows bs) -> exists g' x, In g' gs /\ In (x, r) (g_versions (hist g'))).
    { clear -F. induction F as [|g' b' gs' bs' H F IH]; intros r I; [destruct I|]. cbn [flat_map] in I. apply in_app_or in I as [I|I].
      - destruct H as [_ [_ H]]. destruct (H r I) as [[x [Ix _]] _]. exists g', x. split; [now left|exact Ix].
      - destruct (IH r I) as [g'' [x [J K]]]. exists g'', x. split; [now right|exact K]. }
    destruct H as [N [_ H]]. induction (rb_rows b) as [|r l IHl]; [exact IH'|]. cbn [map app]. cbn [map] in N. inversion N as [|? ? N1 N2]; subst. constructor; [|apply IHl; [exact N2|intros; apply H; now right]].
    rewrite in_app_iff. intros [I|I]; [now apply N1|]. apply in_map_iff in I as [r' [E I]]. destruct (X r' I) as [g' [x' [J K]]]. destruct (H r (or_introl eq_refl)) as [[x [Ix _]] _].
    apply NI. rewrite (KA g g' x x' r r' (G g (or_introl eq_refl)) (G g' (or_intror J)) Ix K (eq_sym E)). exact J.
  - intros g x r O I LE. apply OF in O. destruct (A2 g O) as [b [[_ [H _]] IN]]. destruct (H x r I LE) as [r' [J E]]. exists r'. split; [now apply IN|exact E].
  - intros r I. destruct (A1 r I) as [g [b [IG [[_ [_ H]] J]]]]. destruct (H r J) as [[x [Ix LE]] NW]. apply OF in IG. split; [exists g, x; auto|].
    intros g' x' r' O I' LE' E. apply (NW x' r'); auto. now rewrite (KA g g' x x' r r' IG O Ix I' (eq_sym E)).
Qed.

(** ** The files of a file group do not depend on what else is listed, nor on sizes *)
Section Elsewhere.
Variable format : string.
Lemma base_named_so : forall l m b l' m', base_listed format l m b -> In m' l' -> fm_name m' = fm_name m ->
  exists b', base_listed format l' m' b' /\ bf_file_id b' = bf_file_id b /\ bf_commit b' = bf_commit b /\ base_file_name b' = base_file_name b.
Proof.
  intros l m b l' m' [_ [N [B F]]] I E. unfold base_file_of in F. destruct (parse_base_name (fm_name m)) as [[[[id tok] c] e]| |] eqn:P; cbn [bind] in F; try discriminate. injection F as <-.
  eexists. split; [split; [exact I|]; rewrite E; split; [exact N|]; split; [exact B|]; unfold base_file_of; rewrite P; reflexivity|]. repeat split.
Qed.
Lemma log_named_so : forall l m x l' m', log_listed format l m x -> In m' l' -> fm_name m' = fm_name m ->
  exists x', log_listed format l' m' x' /\ lf_file_id x' = lf_file_id x /\ lf_base_commit x' = lf_base_commit x /\ lf_version x' = lf_version x /\ lf_write_token x' = lf_write_token x.
Proof.
  intros l m x l' m' [_ [N [B F]]] I E. unfold log_file_of in F. destruct (parse_log_name (fm_name m)) as [[[[[id c] e] v] w]| |] eqn:P; cbn [bind] in F; try discriminate. injection F as <-.
  eexists. split; [split; [exact I|]; rewrite E; split; [exact N|]; split; [exact B|]; unfold log_file_of; rewrite P; reflexivity|]. repeat split.
Qed.
Variable parse_schema : string -> option avro.
Variable stands : avro -> value -> string -> Prop.
Variable code : dtype -> nat.
Variable rank : dtype -> slot -> Z.
Variable rp rp' : string -> outcome record_batch.
Variable bytes bytes' : string -> outcome string.
Variable part part' id : string.
Variable dfs : list M_Avro.field.
Variable listed listed' : list file_meta.
Hypothesis ND : NoDup (map fm_name listed').
Hypothesis PE : forall r, part' <> r ++ "/".
Hypothesis B1 : forall m b, base_listed format listed' m b -> bf_file_id b = id -> exists m', In m' listed /\ fm_name m' = fm_name m.
Hypothesis B2 : forall m b, base_listed format listed m b -> bf_file_id b = id -> exists m', In m' listed' /\ fm_name m' = fm_name m.
Hypothesis L1 : forall m x, log_listed format listed' m x -> lf_file_id x = id -> exists m', In m' listed /\ fm_name m' = fm_name m.
Hypothesis L2 : forall m x, log_listed format listed m x -> lf_file_id x = id -> exists m', In m' listed' /\ fm_name m' = fm_name m.
Hypothesis RB : forall m c, base_of format id listed m c -> rp' (file_path part' (fm_name m)) = rp (file_path part (fm_name m)).
Hypothesis RL : forall m c, log_of format id listed m c -> bytes' (file_path part' (fm_name m)) = bytes (file_path part (fm_name m)).
Lemma base_there : forall m c, base_of format id listed' m c -> exists m', base_of format id listed m' c /\ fm_name m' = fm_name m.
Proof. intros m c [b [B [E <-]]]. destruct (B1 m b B E) as [m' [I N]]. destruct (base_named_so _ _ _ _ _ B I N) as [b' [B' [E1 [E2 _]]]]. exists m'. split; [|exact N]. exists b'. split; [exact B'|]. split; congruence. Qed.
Lemma base_here : forall m c, base_of format id listed m c -> exists m', base_of format id listed' m' c /\ fm_name m' = fm_name m.
Proof. intros m c [b [B [E <-]]]. destruct (B2 m b B E) as [m' [I N]]. destruct (base_named_so _ _ _ _ _ B I N) as [b' [B' [E1 [E2 _]]]]. exists m'. split; [|exact N]. exists b'. split; [exact B'|]. split; congruence. Qed.
Lemma log_there : forall m c, log_of format id listed' m c -> exists m', log_of format id listed m' c /\ fm_name m' = fm_name m.
Proof. intros m c [b [B [E <-]]]. destruct (L1 m b B E) as [m' [I N]]. destruct (log_named_so _ _ _ _ _ B I N) as [b' [B' [E1 [E2 _]]]]. exists m'. split; [|exact N]. exists b'. split; [exact B'|]. split; congruence. Qed.
Lemma log_here : forall m c, log_of format id listed m c -> exists m', log_of format id listed' m' c /\ fm_name m' = fm_name m.
Proof. intros m c [b [B [E <-]]]. destruct (L2 m b B E) as [m' [I N]]. destruct (log_named_so _ _ _ _ _ B I N) as [b' [B' [E1 [E2 _]]]]. exists m'. split; [|exact N]. exists b'. split; [exact B'|]. split; congruence. Qed.
Lemma one_name : forall m m', In m listed' -> In m' listed' -> fm_name m = fm_name m' -> m = m'.
Proof.
  intros m m'. clear -ND. induction listed' as [|x l IH]; intros I I' E; [destruct I|]. cbn [map] in ND. inversion ND as [|? ? N1 N2]; subst.
  destruct I as [ -> |I], I' as [ -> |I']; [reflexivity| | |now apply IH]; elim N1; [rewrite E|rewrite <- E]; now apply in_map.
Qed.
Lemma written_elsewhere : forall contents g, written_out parse_schema stands code rank rp bytes format part id dfs listed contents g ->
  written_out parse_schema stands code rank rp' bytes' format part' id dfs listed' contents g.
Proof.
  intros contents g [Wp Wn Wb Wr Wt Wd Wl Wk Wo]. constructor.
  - split; [exact PE|apply Wp].
  - intros m b B E. destruct (B1 m b B E) as [m' [I N]]. destruct (base_named_so _ _ _ _ _ B I N) as [b' [B' [E1 [E2 E3]]]]. rewrite <- E3, <- N. apply Wn; congruence.
  - intros c. rewrite Wb. split; intros [m B]; [apply base_here in B|apply base_there in B]; destruct B as [m' [B _]]; eauto.
  - intros m c rows B I. apply base_there in B as [m' [B N]]. rewrite <- N, (RB m' c B). now apply Wr with c.
  - exact Wt.
  - intros m1 l1 m2 l2 H1 H2 E1 E2 E3 E4 E5. destruct (L1 m1 l1 H1 E1) as [m1' [I1 N1]]. destruct (L1 m2 l2 H2 E2) as [m2' [I2 N2]].
    destruct (log_named_so _ _ _ _ _ H1 I1 N1) as [x1 [X1 [A1 [A2 [A3 A4]]]]]. destruct (log_named_so _ _ _ _ _ H2 I2 N2) as [x2 [X2 [C1 [C2 [C3 C4]]]]].
    apply one_name; [apply H1|apply H2|]. rewrite <- N1, <- N2. f_equal. apply (Wd m1' x1 m2' x2 X1 X2); congruence.
  - intros m c H. apply log_there in H as [m' [H N]]. rewrite <- N, (RL m' c H). now apply Wl with c.
  - intros c x r. rewrite Wk. split; intros [m [w [vs [v [H R]]]]]; [apply log_here in H|apply log_there in H]; destruct H as [m' [H N]]; exists m', w, vs, v; rewrite N; auto.
  - intros c y x. rewrite Wo. split; intros [m [w [vs [H R]]]]; [apply log_here in H|apply log_there in H]; destruct H as [m' [H N]]; exists m', w, vs; rewrite N; auto.
Qed.
End Elsewhere.
