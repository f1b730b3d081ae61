(** Queries while cleaners remove old files. *)
From Coq Require Import Sorted.
From Verif Require L_Expr L_Scan L_Open L_Gaps.
From Verif Require Import Base Str M_Utf8 M_Time M_Instant M_Timeline M_FileGroup M_Builder M_Listing M_Expr M_Log M_Config M_Reader M_Table M_Storage M_Session M_Avro M_Values M_Datum M_Json M_Objects M_During M_Open
  S_Time S_Timeline S_FileGroup S_Builder S_Listing S_Expr S_Log S_Reader S_Config S_Table S_Avro S_Storage S_Session S_Objects S_Open S_History S_Values S_Datum S_Json S_Whole S_During S_Clean S_Deletes S_Erased S_Gaps S_Swept
  L_Base L_Str L_Instant L_FileGroup L_Timeline L_Tree L_Storage L_Table L_Session L_History L_Records L_Objects L_During L_Values L_Stored L_Json L_Whole L_Deletes L_Succeed L_Erased L_Clean L_Meanwhile.
Local Open Scope string_scope.

(** The names of the instants of the timeline are legal. *)
Lemma instant_legal : forall objs names local_to_utc tz listed l0, directory_listing objs names [".hoodie"] listed ->
  denoted_instants (denotes_completed local_to_utc tz [Commit; DeltaCommit; ReplaceCommit]) (map fm_name listed) l0 -> forall i, In i l0 -> legal (file_name i).
Proof.
  intros objs names L tz li l0 [_ DL] DN i I. destruct (denoted_in _ _ _ DN _ I) as [n [In' [ts [a [dt [D [N [A [T E]]]]]]]]]. subst i.
  rewrite file_name_spec. cbn [i_action i_timestamp i_state].
  apply in_map_iff in In' as [m [Em Im]]. apply DL in Im as [n' [o' [[_ [Ln _]] Eo]]]. subst m. cbn [fm_name new_meta] in Em. subst n'.
  assert (X : exists w, timeline_name ts a Completed = ts ++ "." ++ w /\ action_str a = w /\ (3 <= String.length w)%nat /\ utf8_valid w = true).
  { cbn [In] in A. destruct A as [ <- |[ <- |[ <- |[]]]]; [exists "commit"|exists "deltacommit"|exists "replacecommit"]; (split; [reflexivity|split; [reflexivity|split; [cbn; lia|reflexivity]]]). }
  destruct X as [w [Ew [Ea [Lw Uw]]]]. rewrite Ew, Ea in *. destruct N as [ -> | -> ]; [exact Ln|]. destruct Ln as [_ [S [_ [_ [C U]]]]].
  rewrite <- ?app_assoc_s in S, C, U |- *. assert (U' : utf8_valid ts = true). { rewrite ?app_assoc_s in U. apply (utf8_dot ts (w ++ ".")) in U. apply U. }
  assert (NN : forall x y, String.length x <> String.length y -> x <> y) by (intros x y Hn ->; now apply Hn).
  split; [apply NN; rewrite !length_app_s; cbn; lia|]. split; [repeat rewrite has_char_app in S; rewrite !has_char_app; destruct (has_char "/" ts), (has_char "/" w); cbn in *; congruence|]. split; [apply NN; rewrite !length_app_s; cbn; lia|]. split; [apply NN; rewrite !length_app_s; cbn; lia|]. split; [repeat rewrite has_control_app in C; rewrite !has_control_app; destruct (has_control ts), (has_control w); cbn in *; congruence|].
  rewrite ?app_assoc_s. rewrite L_Expr.utf8_app; [exact Uw|exact U'].
Qed.

Section Moments.
Variable start : list object.
Variable later : list (list object).
Variable base : url.
Variable names : list string.
Variable format : string.
Variable partitioned : bool.
Variable t : string.
Variable replaced : string * string -> Prop.
Notation moments := (start :: later).
Hypothesis PO : proper_objects start.
Hypothesis L : located base names.
Hypothesis SW : forall objs, In objs later -> swept start objs names format partitioned t replaced.
Notation TL := (proj1 (proj2 L)).

Lemma there : forall objs, In objs moments -> incl objs start.
Proof. intros objs [ <- |I] o; [auto|]. exact (sd_there _ _ _ _ _ _ _ (SW objs I) o). Qed.
Lemma all_proper : forall objs, In objs moments -> proper_objects objs.
Proof.
  intros objs [ <- |I]; [exact PO|]. pose proof (SW objs I) as S. split; [|apply (L_Gaps.nodup_keys start PO objs); [apply S|exact (sd_there _ _ _ _ _ _ _ S)]].
  destruct PO as [PK _]. unfold proper_keys in *. rewrite Forall_forall in *. intros x J. apply PK. apply in_map_iff in J as [o [<- J]]. apply in_map. now apply (sd_there _ _ _ _ _ _ _ S).
Qed.
Lemma dirs_kept : forall objs dir name o, In objs moments -> Forall legal dir -> file_in start names dir name o -> exists name' o', file_in objs names dir name' o'.
Proof. intros objs dir name o [ <- |I] F FI; [eauto|]. exact (sd_directories _ _ _ _ _ _ _ (SW objs I) dir name o F FI). Qed.
Lemma needed_stays : forall objs g c o, In objs moments -> slice_object start names format partitioned g c o -> needed start names format partitioned t replaced g c -> In o objs.
Proof.
  intros objs g c o [ <- |I] S N; [destruct S as [dir [n [_ [[J _] _]]]]; exact J|].
  destruct (sd_removed _ _ _ _ _ _ _ (SW objs I) o) as [J|[g' [c' [S' N']]]]; [destruct S as [dir [n [_ [[J _] _]]]]; exact J|exact J|].
  destruct (L_Gaps.slice_one start base names format partitioned L _ _ _ _ _ S S') as [ <- <- ]. contradiction.
Qed.
Lemma timeline_kept : forall objs n o, In objs moments -> file_in start names [".hoodie"] n o -> file_in objs names [".hoodie"] n o.
Proof.
  intros objs n o [ <- |I] FI; [exact FI|]. split; [|apply FI]. destruct (sd_removed _ _ _ _ _ _ _ (SW objs I) o (proj1 FI)) as [J|[g [c [[dir [n' [[F [E P]] [FJ _]]]] _]]]]; [exact J|exfalso].
  assert (HL : Forall legal [".hoodie"]) by (constructor; [exact L_Open.metadata_legal|constructor]).
  destruct (L_Gaps.place start base names L _ _ _ _ _ F HL FJ FI) as [ -> _ ]. destruct partitioned; [|discriminate P]. destruct P as [top [rest [E' [F' [N _]]]]].
  assert (X : [".hoodie"] = top :: rest); [|injection X as X _; congruence].
  apply L_Scan.join_inj; [eapply Forall_impl; [|exact HL]; intros z [X [Y _]]; auto|eapply Forall_impl; [|exact F']; intros z [X [Y _]]; auto|congruence].
Qed.

(** ** Directories *)
Variable dirs : string -> outcome (list string).
Hypothesis MD : forall p, exists objs, In objs moments /\ dirs p = list_dirs objs base p.
Notation root := (mixed moments dirs).
Lemma dirs_same : forall p, Forall legal p -> forall n, In n (dirs_at dirs p) <-> legal n /\ exists rest, rest <> [] /\ Forall legal rest /\ In (key_of (names ++ p ++ n :: rest)) (map o_key start).
Proof.
  intros p F n. destruct (dirs_at_spec moments base names dirs all_proper L MD p F) as [objs [I [_ [_ D]]]]. rewrite D. split; intros [Ln [rest [NR [LR K]]]]; (split; [exact Ln|]).
  - exists rest. split; [exact NR|]. split; [exact LR|]. apply in_map_iff in K as [o [E J]]. apply in_map_iff. exists o. split; [exact E|now apply (there objs I)].
  - destruct (exists_last NR) as [ini [z ->]]. apply Forall_app in LR as [L1 L2]. apply Forall_inv in L2. apply in_map_iff in K as [o [E J]].
    assert (FI : file_in start names (p ++ n :: ini) z o) by (split; [exact J|]; split; [exact L2|]; rewrite E; cbn [app]; rewrite <- !app_assoc; reflexivity).
    destruct (dirs_kept objs (p ++ n :: ini) z o I) as [z' [o' [J' [Lz E']]]]; [apply Forall_app; split; [exact F|now constructor]|exact FI|].
    exists (ini ++ [z'])%list. split; [now destruct ini|]. split; [apply Forall_app; auto|]. apply in_map_iff. exists o'. split; [|exact J']. rewrite E'. rewrite <- !app_assoc. reflexivity.
Qed.
Lemma reach_start : forall q p fuel rest, rest <> [] -> Forall legal (p ++ q ++ rest) -> In (key_of (names ++ p ++ q ++ rest)) (map o_key start) -> (List.length q <= fuel)%nat ->
  exists u, reaches (mixed_at dirs fuel p) q u.
Proof.
  induction q as [|n q IH]; intros p fuel rest NR F K B; [exists (mixed_at dirs fuel p); constructor|].
  destruct fuel as [|f]; [cbn in B; lia|]. cbn [app] in *. assert (Lp : Forall legal p) by (apply Forall_app in F; tauto).
  assert (Lr : Forall legal (n :: q ++ rest)) by (apply Forall_app in F; tauto). inversion Lr as [|? ? Ln Lq]; subst.
  destruct (IH (p ++ [n])%list f rest NR) as [u R].
  - now rewrite <- app_assoc.
  - now rewrite <- app_assoc.
  - cbn in B. lia.
  - exists u. eapply re_down; [|exact R]. rewrite mixed_subs. apply in_map_iff. exists n. split; [reflexivity|].
    apply (dirs_same p Lp). split; [exact Ln|]. exists (q ++ rest)%list. split; [destruct q; [exact NR|discriminate]|]. split; [exact Lq|exact K].
Qed.
Lemma swept_partitions : forall path, partition_dir root path <-> data_directory start names path.
Proof.
  intros path. split.
  - intros [top [p [[u [R S]] [N1 [N2 [N3 ->]]]]]]. destruct (mixed_reached moments base names dirs all_proper L MD _ _ _ R (deepest moments) [] eq_refl (Forall_nil _)) as [F [f [B ->]]].
    cbn [app] in *. apply (mixed_leaf moments base names dirs all_proper L MD f _ F B) in S. exists top, p. split; [reflexivity|]. split; [exact F|]. do 3 (split; [assumption|]). split.
    + destruct p as [|x p] using rev_ind.
      * pose proof R as R0. inversion R as [|? ? s q u I R']; subst. unfold mixed in I. rewrite mixed_subs in I. destruct (deepest moments) as [|d]; [destruct I|]. apply in_map_iff in I as [n' [X I]]. injection X as -> _.
        apply (dirs_same [] (Forall_nil _)) in I as [_ [rest [NR [LR K]]]]. cbn [app] in K. destruct rest as [|y [|z rest]]; [congruence| |exfalso].
        -- apply in_map_iff in K as [o [E J]]. exists y, o. split; [exact J|]. split; [now inversion LR|exact E].
        -- assert (X : In y (dirs_at dirs [top])); [|rewrite S in X; destruct X]. apply (dirs_same [top] F). inversion LR; subst. split; [assumption|]. exists (z :: rest). split; [discriminate|]. split; [assumption|exact K].
      * clear IHp. assert (F' : Forall legal ((top :: p) ++ [x])) by exact F. apply Forall_app in F' as [Fp Lx].
        assert (I : In x (dirs_at dirs (top :: p))).
        { assert (G : forall q t0 u, reaches t0 (q ++ [x])%list u -> forall fuel p0, t0 = mixed_at dirs fuel p0 -> In x (dirs_at dirs (p0 ++ q))).
          { induction q as [|n q IH]; intros t0 u0 R0 fuel p0 ->; cbn [app] in R0; inversion R0 as [|? ? s ? ? I R1]; subst; rewrite mixed_subs in I; (destruct fuel as [|d]; [destruct I|]); apply in_map_iff in I as [n' [X I]]; injection X as -> <-.
            - now rewrite app_nil_r.
            - specialize (IH _ _ R1 d (p0 ++ [n])%list eq_refl). now rewrite <- app_assoc in IH. }
          exact (G (top :: p) _ _ R _ [] eq_refl). }
        apply (dirs_same _ Fp) in I as [_ [rest [NR [LR K]]]]. destruct rest as [|y [|z rest]]; [congruence| |exfalso].
        -- apply in_map_iff in K as [o [E J]]. exists y, o. split; [exact J|]. split; [now inversion LR|]. rewrite E. cbn [app]. now rewrite <- app_assoc.
        -- assert (X : In y (dirs_at dirs (top :: p ++ [x]))); [|rewrite S in X; destruct X]. apply (dirs_same _ F). inversion LR; subst. split; [assumption|]. exists (z :: rest). split; [discriminate|]. split; [assumption|].
           revert K. cbn [app]. now rewrite <- app_assoc.
    + intros below o' LB I' E. destruct below as [|a [|b below]]; [cbn; lia|cbn; lia|exfalso].
      assert (X : In a (dirs_at dirs (top :: p))); [|rewrite S in X; destruct X].
      apply (dirs_same _ F). inversion LB; subst. split; [assumption|]. exists (b :: below). split; [discriminate|]. split; [assumption|]. rewrite <- E. now apply in_map.
  - intros [top [p [-> [F [N1 [N2 [N3 [[n [o [I [Ln E]]]] SH]]]]]]]].
    assert (K : In (key_of (names ++ [] ++ (top :: p) ++ [n])) (map o_key start)) by (change (In (key_of (names ++ (top :: p) ++ [n])) (map o_key start)); rewrite <- E; now apply in_map).
    assert (FA : Forall legal ([] ++ (top :: p) ++ [n])) by (cbn [app]; inversion F; subst; constructor; [assumption|apply Forall_app; auto]).
    destruct (reach_start (top :: p) [] (deepest moments) [n] ltac:(discriminate) FA K) as [u R].
    { pose proof (deep moments names all_proper start _ (or_introl eq_refl) K) as X. rewrite !app_length in X. cbn in *. lia. }
    exists top, p. split; [|auto]. exists u. split; [exact R|].
    destruct (mixed_reached moments base names dirs all_proper L MD _ _ _ R (deepest moments) [] eq_refl (Forall_nil _)) as [_ [f [B ->]]]. cbn [app] in *. apply (mixed_leaf moments base names dirs all_proper L MD f _ F B).
    destruct (dirs_at dirs (top :: p)) as [|a l] eqn:D; [reflexivity|exfalso]. assert (X : In a (dirs_at dirs (top :: p))) by (rewrite D; now left). apply (dirs_same _ F) in X as [La [rest [NR [LR K']]]].
    apply in_map_iff in K' as [o' [E' I']]. pose proof (SH (a :: rest) o' ltac:(now constructor) I' E') as Y. destruct rest; [congruence|cbn in Y; lia].
Qed.
Lemma swept_table : forall p, table_partition partitioned root p <-> exists dir, object_partition start names partitioned p dir.
Proof.
  intros p. pose proof (swept_partitions p) as SP. unfold table_partition, object_partition. destruct partitioned.
  - rewrite SP. split; [|intros [dir [_ [_ H]]]; exact H]. intros H. pose proof H as [top [rest [E [F _]]]]. exists (top :: rest). auto.
  - split; [intros ->; exists []; repeat split; constructor|]. intros [dir [_ [-> ->]]]. reflexivity.
Qed.
End Moments.

Section Answer.
Variable start : list object.
Variable later : list (list object).
Variable base : url.
Variable names : list string.
Variable format : string.
Variable partitioned : bool.
Variable t : string.
Variable replaced : string * string -> Prop.
Notation moments := (start :: later).
Hypothesis PO : proper_objects start.
Hypothesis L : located base names.
Hypothesis SW : forall objs, In objs later -> swept start objs names format partitioned t replaced.
Variable number_of : string -> option Z.
Variable collect : list (string * json) -> list (string * json).
Variable local_to_utc : ndt -> option ndt.
Variable dtype' value' : Type.
Variable cast : dtype' -> string -> option value'.
Variable cmp : value' -> value' -> option comparison.
Variable parse_pschema : string -> outcome (list (string * dtype')).
Variable parse_rows : string -> outcome record_batch.
Variable footer : string -> outcome (Z * Z).
Variable open : options -> options -> outcome unit.
Notation store_of objs := (object_store objs base dtype' (parse_metadata number_of collect) parse_pschema parse_rows footer open).
Variable st : store dtype'.
Hypothesis SEE : sees moments base dtype' (parse_metadata number_of collect) parse_pschema parse_rows footer open st.
Variable tb : table.
Variable tz : string.
Variable time : ndt.
Hypothesis So : StronglySorted instant_le (t_commits tb).
Hypothesis NL : forall i, In i (t_commits tb) -> legal (file_name i).
Hypothesis TZ : timeline_timezone (t_configs tb) = Ok tz.
Hypothesis TM : parse_datetime local_to_utc t tz = Ok time.
Hypothesis BF : base_format (t_configs tb) = Ok format.
Hypothesis PT : is_table_partitioned (t_configs tb) = Ok partitioned.
Hypothesis RP : forall g, replaced_by_time (st_json _ (store_of start)) (t_commits tb) (epoch_millis time) g <-> replaced g.
(** The commits of the base files of a file group are finitely many. *)
Hypothesis FIN : forall g c, has_base start names format partitioned g c -> exists l, forall c', In c' l <-> has_base start names format partitioned g c'.
Notation AP := (all_proper start later names format partitioned t replaced PO SW).
Notation TH := (there start later names format partitioned t replaced SW).
Notation NS := (needed_stays start later base names format partitioned t replaced L SW).
Notation is_needed := (needed start names format partitioned t replaced).
Notation root := (mixed moments (st_dirs _ st)).

Lemma swept_dirs : forall q, exists objs, In objs moments /\ st_dirs _ st q = list_dirs objs base q.
Proof. intros q. destruct (SEE q) as [_ [_ [_ [H _]]]]. exact H. Qed.
Lemma swept_served : serves_dirs root (st_dirs _ st).
Proof. exact (mixed_served moments base names (st_dirs _ st) AP L swept_dirs). Qed.
Lemma swept_wf : wf_tree root.
Proof. exact (mixed_wf moments base names (st_dirs _ st) AP L swept_dirs _ [] (Forall_nil _)). Qed.
Lemma swept_listing : forall dir, Forall legal dir -> exists objs l, In objs moments /\ st_files _ st (join "/" dir) = Ok l /\ directory_listing objs names dir l.
Proof.
  intros dir F. destruct (SEE (join "/" dir)) as [_ [_ [[objs [I E]] _]]]. destruct (files_spec objs base names (AP _ I) L dir F) as [l [E1 [N S]]].
  exists objs, l. split; [exact I|]. split; [now rewrite E|]. split; assumption.
Qed.
(** The files of the timeline are there at every moment. *)
Lemma swept_instant : forall i, In i (t_commits tb) -> st_json _ st (".hoodie/" ++ file_name i) = st_json _ (store_of start) (".hoodie/" ++ file_name i).
Proof.
  intros i I. destruct (SEE (".hoodie/" ++ file_name i)) as [[objs [Io E]] _]. rewrite E. cbn [st_json object_store]. f_equal. pose proof (NL i I) as Ln.
  destruct (get_file_data start base (".hoodie/" ++ file_name i)) as [d| |] eqn:G.
  - apply (timeline_read start base names PO L _ _ Ln) in G as [o [FI D]]. apply (timeline_read objs base names (AP _ Io) L _ _ Ln). exists o. split; [|exact D].
    exact (timeline_kept start later base names format partitioned t replaced L SW objs _ o Io FI).
  - revert G. unfold get_file_data, find_object. rewrite (timeline_path base names L _ Ln). cbn [bind].
    destruct (find _ start) as [o|] eqn:X; cbn [ok_or bind]; [discriminate|]. intros G. destruct (find _ objs) as [o|] eqn:Y; cbn [ok_or bind]; [exfalso|exact G].
    apply find_some in Y as [J Y]. apply find_none with (x := o) in X; [congruence|]. now apply (TH objs Io).
  - revert G. unfold get_file_data, find_object. rewrite (timeline_path base names L _ Ln). cbn [bind]. destruct (find _ start); discriminate.
Qed.
Lemma swept_replaced : forall g, replaced_by_time (st_json _ st) (t_commits tb) (epoch_millis time) g <-> replaced g.
Proof. intros g. rewrite <- RP. apply replaced_later. split; [intros i; auto|]. split; [auto|]. exact swept_instant. Qed.

Lemma newest_needed : forall g c, has_base start names format partitioned g c -> sle c t -> ~ replaced g -> exists m, is_needed g m.
Proof.
  intros g c HB Lc NR. destruct (FIN g c HB) as [l Hl]. destruct (L_Gaps.newest_up_to t l c) as [m [M1 [M2 M3]]]; [now apply Hl|exact Lc|]. exists m. split; [|exact NR]. split; [now apply Hl|]. split; [exact M2|].
  intros c' B' L'. apply M3; [now apply Hl|exact L'].
Qed.
Section Dir.
Variable path : string.
Variable dir : list string.
Variable objs : list object.
Variable l0 l : list file_meta.
Hypothesis Io : In objs moments.
Hypothesis OP : object_partition start names partitioned path dir.
Hypothesis D0 : directory_listing start names dir l0.
Hypothesis D1 : directory_listing objs names dir l.
Lemma meta_there : forall m, In m l -> In m l0.
Proof. intros m I. apply D1 in I as [n [o [FI ->]]]. apply D0. exists n, o. split; [|reflexivity]. destruct FI as [J FI]. split; [now apply (TH objs Io)|exact FI]. Qed.
Lemma base_there' : forall m b, base_listed format l m b -> base_listed format l0 m b.
Proof. intros m b [I H]. split; [now apply meta_there|exact H]. Qed.
Lemma log_there' : forall m x, log_listed format l m x -> log_listed format l0 m x.
Proof. intros m b [I H]. split; [now apply meta_there|exact H]. Qed.
Lemma base_has : forall m b, base_listed format l0 m b -> has_base start names format partitioned (path, bf_file_id b) (bf_commit b).
Proof. intros m b [I [M [B E]]]. apply D0 in I as [n [o [FI ->]]]. exists dir, n, o, b. cbn in *. auto 10. Qed.
Lemma meta_kept : forall m id c, In m l0 -> slice_file format (fm_name m) id c -> is_needed (path, id) c -> In m l.
Proof.
  intros m id c I S N. apply D0 in I as [n [o [FI ->]]]. cbn in S. apply D1. exists n, o. split; [|reflexivity]. split; [|apply FI].
  apply (NS objs (path, id) c o Io); [|exact N]. exists dir, n. auto.
Qed.
Lemma base_kept : forall m b, base_listed format l0 m b -> is_needed (path, bf_file_id b) (bf_commit b) -> base_listed format l m b.
Proof. intros m b B N. pose proof B as [I H]. split; [|exact H]. exact (meta_kept m _ _ I (base_slice_file _ _ _ _ B) N). Qed.
Lemma log_kept : forall m x, log_listed format l0 m x -> is_needed (path, lf_file_id x) (lf_base_commit x) -> log_listed format l m x.
Proof. intros m b B N. pose proof B as [I H]. split; [|exact H]. exact (meta_kept m _ _ I (log_slice_file _ _ _ _ B) N). Qed.
Lemma needed_listed : forall id c, is_needed (path, id) c -> exists m b, base_listed format l0 m b /\ bf_file_id b = id /\ bf_commit b = c.
Proof.
  intros id c [[[dir' [n [o [b [OP' [FI [M [B [E [E1 E2]]]]]]]]]] _] _]. cbn in *.
  assert (dir' = dir).
  { destruct OP as [F [Ep _]], OP' as [F' [Ep' _]]. apply (key_of_inj dir' dir F' F). unfold key_of. congruence. }
  subst dir'. exists (new_meta n (o_size o)), b. split; [|auto]. split; [apply D0; exists n, o; auto|auto].
Qed.
(** The slice that is shown at [t] is the same. *)
Lemma shown_same : forall s, shows_newest format l path t s -> ~ replaced (path, bf_file_id (fs_base s)) -> shows_newest format l0 path t s.
Proof.
  intros s [m [b [B1 [B2 [B3 [B4 [B5 [B6 [B7 [B8 B9]]]]]]]]]] NR. rewrite B3 in NR. pose proof (base_there' _ _ B1) as B1'.
  destruct (newest_needed _ _ (base_has _ _ B1') B6 NR) as [c N]. destruct (needed_listed _ _ N) as [m1 [b1 [X1 [X2 X3]]]]. pose proof N as [[N1 [N2 N3]] _].
  assert (E : bf_commit b = c).
  { apply sle_antisym; [exact (N3 _ (base_has _ _ B1') B6)|]. rewrite <- X3. apply (B7 m1 b1); [|exact X2|now rewrite X3]. apply base_kept; [exact X1|now rewrite X2, X3]. }
  exists m, b. split; [exact B1'|]. split; [exact B2|]. split; [exact B3|]. split; [exact B4|]. split; [exact B5|]. split; [exact B6|]. split; [|split].
  - intros m' b' Y1 Y2 Y3. rewrite E. apply N3; [|exact Y3]. rewrite <- Y2. exact (base_has _ _ Y1).
  - intros v w. rewrite B8. split; intros [m' [x [Y1 [Y2 [Y3 Y4]]]]]; exists m', x; (split; [|auto]); [now apply log_there'|]. apply log_kept; [exact Y1|]. rewrite Y2, Y3, E. exact N.
  - intros x I. destruct (B9 x I) as [m' [Y1 Y2]]. exists m'. split; [now apply log_there'|exact Y2].
Qed.
End Dir.

Lemma swept_snapshot : forall c c' filters ss, M_Session.opened dtype' value' cast cmp local_to_utc tb (keeps dtype' tb) st c ->
  get_file_slices_as_of dtype' value' cast cmp local_to_utc st tb t filters c c' (Ok ss) ->
  exists fs fields hive url, from_str_tuples filters = Ok fs /\ get_partition_schema dtype' st tb = Ok fields /\ hive_flag tb = Ok hive /\ url_flag tb = Ok url
    /\ (wf_fields fields -> object_snapshot dtype' value' cast cmp fields hive url start names format partitioned fs t replaced ss).
Proof.
  intros c c' filters ss O Q. destruct (as_of_as_new dtype' value' cast cmp local_to_utc tb st c root swept_served swept_wf O t filters c' _ Q) as [c'' Q'].
  destruct (as_of_snapshot dtype' value' cast cmp local_to_utc st tb root swept_served swept_wf So _ _ _ _ _ (va_new _ _ _ _ _ _ _) Q') as [fs [tz' [time' [ps [h [u [f [pt [P1 [P2 [P3 [P4 [P5 [P6 [P7 [P8 P9]]]]]]]]]]]]]]]].
  rewrite BF in P7. injection P7 as <-. rewrite PT in P8. injection P8 as <-. rewrite TZ in P2. injection P2 as <-. rewrite TM in P3. injection P3 as <-.
  exists fs, ps, h, u. do 4 (split; [assumption|]). intros WF. destruct (P9 WF) as [S1 [S2 S3]].
  pose proof (swept_table start later base names format partitioned t replaced PO L SW (st_dirs _ st) swept_dirs) as PD.
  split; [|split; [|exact S3]].
  - intros s I. destruct (S1 s I) as [l [TP [LS [SN [NR FL]]]]]. apply PD in TP as [dir OP]. pose proof OP as [F [EP _]]. destruct (swept_listing dir F) as [objs [l' [Io [E D1]]]].
    rewrite EP, E in LS. injection LS as <-. destruct (files_spec start base names PO L dir F) as [l0 [_ D0]].
    assert (NR' : ~ replaced (slice_id s)) by (rewrite <- swept_replaced; exact NR).
    exists dir, l0. split; [exact OP|]. split; [exact D0|]. split; [|split; [exact NR'|exact FL]].
    exact (shown_same _ dir objs l0 l' Io OP D0 D1 s SN NR').
  - intros p dir name o b OP M FI NM BN BO LE NR. destruct (S2 p (proj2 (PD p) (ex_intro _ dir OP)) M) as [l [LS X]]. pose proof OP as [F [EP _]]. destruct (swept_listing dir F) as [objs [l' [Io [E D1]]]].
    rewrite EP, E in LS. injection LS as <-. destruct (files_spec start base names PO L dir F) as [l0 [_ D0]].
    assert (B0 : base_listed format l0 (new_meta name (o_size o)) b) by (split; [apply D0; exists name, o; auto|auto]).
    destruct (newest_needed _ _ (base_has p dir l0 OP D0 _ _ B0) LE NR) as [c0 N]. destruct (needed_listed p dir l0 OP D0 _ _ N) as [m1 [b1 [X1 [X2 X3]]]].
    rewrite <- X2. apply (X m1 b1).
    + apply (base_kept p dir objs l0 l' Io OP D0 D1 m1 b1 X1). now rewrite X2, X3.
    + rewrite X3. apply N.
    + rewrite swept_replaced, X2. exact NR.
Qed.

(** ** Reads *)
Variable code : dtype -> nat.
Variable rank : dtype -> slot -> Z.
Variable float_cast : dtype -> slot -> option slot.
Variable parse_schema : string -> option avro.
Variable parquet : string -> option (list record_batch).
Notation read_in sto sort visit := (read_file_slice sort visit (st_parquet _ sto) avro value parse_schema decode check_schema (to_batch code rank float_cast) parquet local_to_utc (st_bytes _ sto)).
Lemma file_same : forall dir n o objs, Forall legal dir -> file_in start names dir n o -> In objs moments -> In o objs ->
  get_file_data objs base (path_join (join "/" dir) n) = get_file_data start base (path_join (join "/" dir) n).
Proof.
  intros dir n o objs F FI Io J. unfold get_file_data. rewrite (read_spec start base names PO L dir n o F FI). rewrite (read_spec objs base names (AP _ Io) L dir n o F); [reflexivity|]. split; [exact J|apply FI].
Qed.
Lemma slice_same : forall dir l0 slice, object_partition start names partitioned (join "/" dir) dir -> directory_listing start names dir l0 ->
  shows_newest format l0 (join "/" dir) t slice -> ~ replaced (join "/" dir, bf_file_id (fs_base slice)) ->
  (forall m b, base_listed format l0 m b -> bf_file_id b = bf_file_id (fs_base slice) -> base_file_name b = fm_name m) ->
  forall sort visit m, or_fails (read_in st sort visit m slice) (read_in (store_of start) sort visit m slice) /\ or_fails (read_in (store_of start) sort visit m slice) (read_in st sort visit m slice).
Proof.
  intros dir l0 slice OP D0 SN NR NM sort visit m. pose proof OP as [F _]. pose proof SN as [m0 [b0 [B1 [B2 [B3 [B4 [B5 [B6 [B7 [B8 B9]]]]]]]]]].
  assert (N : is_needed (join "/" dir, bf_file_id b0) (bf_commit b0)).
  { split; [|now rewrite <- B3]. split; [exact (base_has _ dir l0 OP D0 _ _ B1)|]. split; [exact B6|]. intros c' [dir' [n [o [b [OP' [FI [M [B [E [E1 E2]]]]]]]]]] L'. cbn in *.
    assert (dir' = dir) as -> by (destruct OP' as [F' [Ep' _]]; apply (key_of_inj dir' dir F' F); unfold key_of; congruence).
    rewrite <- E2 in L' |- *. apply (B7 (new_meta n (o_size o)) b); [|exact E1|exact L']. split; [apply D0; exists n, o; auto|auto]. }
  assert (RB : st_parquet _ st (base_relative_path slice) = st_parquet _ (store_of start) (base_relative_path slice)).
  { unfold base_relative_path. rewrite B2, B4, (NM m0 b0 B1 (eq_sym B3)). pose proof B1 as [I1 _]. pose proof (base_slice_file _ _ _ _ B1) as SF. destruct (proj1 (proj2 D0 m0) I1) as [n [o [FI Em]]]. subst m0. cbn [fm_name new_meta] in *.
    destruct (SEE (path_join (join "/" dir) n)) as [_ [_ [_ [_ [_ [[objs [Io E]] _]]]]]]. rewrite E. cbn [st_parquet object_store]. rewrite (file_same dir n o objs F FI Io); [reflexivity|].
    eapply (NS objs _ _ o Io); [|exact N]. exists dir, n. split; [exact OP|]. split; [exact FI|]. exact SF. }
  assert (RL : forall lg, In lg (fs_logs slice) -> st_bytes _ st (log_relative_path slice lg) = st_bytes _ (store_of start) (log_relative_path slice lg)).
  { intros lg Il. destruct (B9 lg Il) as [m' [L1 [L2 L3]]]. pose proof L1 as [I1 [_ [_ L4]]]. destruct (proj1 (proj2 D0 m') I1) as [n [o [FI Em]]].
    unfold log_relative_path. rewrite B2, (log_name_reprint _ _ _ L4). pose proof (log_slice_file _ _ _ _ L1) as SF. subst m'. cbn [fm_name new_meta] in *.
    destruct (SEE (path_join (join "/" dir) n)) as [_ [_ [_ [_ [_ [_ [objs [Io E]]]]]]]]. rewrite E. apply (file_same dir n o objs F FI Io).
    eapply (NS objs _ _ o Io); [|exact N]. exists dir, n. split; [exact OP|]. split; [exact FI|]. rewrite <- L2, <- L3. exact SF. }
  split; (apply fails_slice; [left; now rewrite RB|intros lg Il; left; now rewrite RL]).
Qed.

Variable dfs : list M_Avro.field.
Variable p s k : nat.
Variable hist : string * string -> group.
Variable dels : string * string -> deletions.
Hypothesis MT : merging_table tb (map (as_field code) dfs) p s k.
Hypothesis TS : timestamp t.
Hypothesis WB : erased_by start names format partitioned parse_schema code rank parse_rows dfs k p s t hist dels.
Notation is_live g := ((exists c, has_base start names format partitioned g c /\ sle c t) /\ ~ replaced g).

(** What the slice gives when it is read at the start, and then at any moments. *)
Lemma swept_slice : forall fields hive url fs ss, object_snapshot dtype' value' cast cmp fields hive url start names format partitioned fs t replaced ss -> forall slice, In slice ss ->
  forall iter, (forall m, Permutation (iter m) m) -> forall sort visit, sorts sort -> visits visit ->
  exists out, read_in st sort visit (fst (table_reader_options iter (t_configs tb) (t_storage tb) [("hoodie.read.file_group.end_timestamp", t)])) slice = Ok out
    /\ rb_fields out = map (as_field code) dfs /\ current_alive k p s (hist (slice_id slice)) (dels (slice_id slice)) t (rb_rows out).
Proof.
  intros fields hive url fs ss [S1 _] slice I iter PI sort visit HS HV. destruct (S1 slice I) as [dir [l0 [OP [D0 [SN [NR _]]]]]]. pose proof OP as [F [EP _]].
  pose proof SN as [m0 [b0 [B1 [_ [B3 [_ [_ [B6 _]]]]]]]]. pose proof (base_has _ dir l0 OP D0 _ _ B1) as HB. rewrite <- B3 in HB. destruct (WB _ _ HB) as [now [contents [H [C WO]]]]. cbn [fst snd] in *. change (fs_partition slice, bf_file_id (fs_base slice)) with (slice_id slice) in *.
  assert (LO : exists contents', laid_out avro value parse_schema decode check_schema (to_batch code rank float_cast) parquet (st_parquet _ (store_of start)) (st_bytes _ (store_of start)) format (fs_partition slice) (bf_file_id (fs_base slice)) (map (as_field code) dfs) l0 contents' (hist (slice_id slice))).
  { eexists. apply written_laid_out. apply stored_out. apply (WO dir l0 (get_file_data start base) OP D0). intros n o FI. rewrite EP. now apply (read_data start base names PO L). }
  clear contents WO. destruct LO as [contents LO]. destruct (reader_settings tb (map (as_field code) dfs) p s k MT iter PI t) as [X1 [X2 [X3 [X4 [X5 X6]]]]].
  destruct (slice_left avro value parse_schema decode check_schema (to_batch code rank float_cast) parquet (st_parquet _ (store_of start)) (st_bytes _ (store_of start)) local_to_utc k p s sort visit
    (fst (table_reader_options iter (t_configs tb) (t_storage tb) [("hoodie.read.file_group.end_timestamp", t)])) t now format (fs_partition slice) (map (as_field code) dfs) l0 contents (hist (slice_id slice)) (hist (slice_id slice)) (dels (slice_id slice)) slice)
    as [out [O1 [O2 O3]]]; try assumption; [apply left_all|].
  exists out. split; [|auto]. unfold slice_id in NR. rewrite EP in OP, SN, NR.
  destruct (slice_same dir l0 slice OP D0 SN NR (lo_names _ _ _ _ _ _ _ _ _ _ _ _ _ _ _ _ LO) sort visit (fst (table_reader_options iter (t_configs tb) (t_storage tb) [("hoodie.read.file_group.end_timestamp", t)]))) as [_ [A|[e A]]]; congruence.
Qed.
Lemma swept_live : forall fields hive url fs ss, object_snapshot dtype' value' cast cmp fields hive url start names format partitioned fs t replaced ss ->
  (forall g, In g (map slice_id ss) -> is_live g) /\ forall g, is_live g -> matches dtype' value' cast cmp fields hive url fs (fst g) -> In g (map slice_id ss).
Proof.
  intros fields hive url fs ss [S1 [S2 _]]. split.
  - intros g I. apply in_map_iff in I as [sl [ <- I]]. destruct (S1 sl I) as [dir [l0 [OP [D0 [[m [b [B1 [_ [B3 [_ [_ [B6 _]]]]]]]] [NR _]]]]]]. split; [|exact NR]. exists (bf_commit b). split; [|exact B6].
    unfold slice_id. rewrite B3. exact (base_has _ dir l0 OP D0 _ _ B1).
  - intros [pa id] [[c0 [[dir [n [o [b [OP [FI [NM [BN [BO [EI EC]]]]]]]]]] LE]] NR] M. cbn [fst snd] in *. rewrite <- EI. apply (S2 pa dir n o b OP M FI NM BN BO); [now rewrite EC|now rewrite EI].
Qed.
Lemma swept_answer : forall c c' filters batches, M_Session.opened dtype' value' cast cmp local_to_utc tb (keeps dtype' tb) st c ->
  (forall fields, get_partition_schema dtype' st tb = Ok fields -> wf_fields fields) ->
  read_snapshot_as_of dtype' value' cast cmp avro value parse_schema decode check_schema (to_batch code rank float_cast) parquet local_to_utc st tb t filters c c' (Ok batches) ->
  (forall batch, In batch batches -> rb_fields batch = map (as_field code) dfs)
  /\ (filters = [] -> keys_apart k (fun g => is_live g) hist -> table_alive k p s (fun g => is_live g) hist dels t (flat_map rb_rows batches)).
Proof.
  intros c c' filters batches O WF R. inversion R as [| |c0 c1 ss r Q RS]; subst. destruct (swept_snapshot c c' filters ss O Q) as [fs [fields [h [u [P1 [P2 [P3 [P4 P5]]]]]]]]. pose proof (P5 (WF _ P2)) as OS.
  inversion RS as [| |iter os r PI [_ F2] J]; subst. apply joined_ok in J. subst os. cbn zeta in F2.
  assert (FA : Forall2 (fun g batch => rb_fields batch = map (as_field code) dfs /\ current_alive k p s (hist g) (dels g) t (rb_rows batch)) (map slice_id ss) batches).
  { pose proof (swept_slice _ _ _ _ _ OS) as SS. clear -F2 SS PI. remember (map Ok batches) as os eqn:Eo. revert batches Eo SS. induction F2 as [|slice o ss os [sort [visit [HS [HV Ho]]]] F2 IH]; intros batches Eo SS.
    - destruct batches; [constructor|discriminate].
    - destruct batches as [|b batches]; [discriminate|]. cbn in Eo. injection Eo as -> Eo. cbn [map]. constructor; [|apply IH; [exact Eo|intros; apply SS; [now right|assumption..]]].
      destruct (SS slice (or_introl eq_refl) iter PI sort visit HS HV) as [out [O1 O2]]. rewrite O1 in Ho. injection Ho as <-. exact O2. }
  destruct (swept_live _ _ _ _ _ OS) as [G1 G2]. split.
  - clear -FA. induction FA as [|g x gs bs [H _] F IH]; intros y I; [destruct I|]. destruct I as [ <- |I]; [exact H|now apply IH].
  - intros -> KA. injection P1 as <-. apply (flatten_alive k p s hist dels t _ (map slice_id ss) batches); [apply OS| |exact KA|].
    + intros g. split; [apply G1|]. intros Lv. apply G2; [exact Lv|now left].
    + clear -FA. induction FA as [|g x gs bs [_ H] F IH]; constructor; assumption.
Qed.
(** Slices that are listed are read without error. *)
Lemma swept_reads : forall c c' filters ss, M_Session.opened dtype' value' cast cmp local_to_utc tb (keeps dtype' tb) st c ->
  (forall fields, get_partition_schema dtype' st tb = Ok fields -> wf_fields fields) ->
  get_file_slices_as_of dtype' value' cast cmp local_to_utc st tb t filters c c' (Ok ss) -> readers_open st tb [("hoodie.read.file_group.end_timestamp", t)] ->
  forall r, read_slices dtype' avro value parse_schema decode check_schema (to_batch code rank float_cast) parquet local_to_utc st tb [("hoodie.read.file_group.end_timestamp", t)] ss r -> exists batches, r = Ok batches.
Proof.
  intros c c' filters ss O WF Q OP r R. destruct (swept_snapshot c c' filters ss O Q) as [fs [fields [h [u [P1 [P2 [P3 [P4 P5]]]]]]]]. pose proof (swept_slice _ _ _ _ _ (P5 (WF _ P2))) as SS.
  inversion R as [iter e PI E|iter PI E|iter os r' PI [_ F2] J]; subst; cbn zeta in *; try (rewrite (OP iter PI) in E; discriminate).
  apply (joined_all _ os r); [|exact J]. clear -F2 SS PI.
  induction F2 as [|slice o ss os [sort [visit [HS [HV Ho]]]] F2 IH]; intros o' Io'; [destruct Io'|]. destruct Io' as [ <- |Io'].
  - destruct (SS slice (or_introl eq_refl) iter PI sort visit HS HV) as [out [O1 _]]. exists out. congruence.
  - apply IH; [intros sl I; apply SS; now right|exact Io'].
Qed.
End Answer.
