(** Lemmas for C83: from the objects of a table to the records of an incremental read. *)
From Coq Require Import Sorted.
From Verif Require Import Base Str M_Utf8 M_Time M_Instant M_Timeline M_FileGroup M_Builder M_Listing M_Expr M_Log M_Config M_Reader M_Table M_Storage M_Avro M_Values M_Datum M_Json M_Objects M_Open
  S_Time S_Timeline S_FileGroup S_Builder S_Listing S_Expr S_Log S_Reader S_Config S_Table S_Avro S_Storage S_Objects S_Open S_History S_Incremental S_Values S_Datum S_Json S_Whole S_Changes
  L_Base L_Str L_Time L_Instant L_Timeline L_Storage L_Expr L_Tree L_Reader L_History L_Incremental L_Objects L_Open L_Json L_Values L_Stored L_Between L_Changes L_Whole L_Succeed.
Local Open Scope string_scope.

Lemma action_all : forall a, In a [Commit; DeltaCommit; ReplaceCommit].
Proof. intros []; cbn; tauto. Qed.
Lemma name_is : forall ts a, timeline_name ts a Completed = ts ++ "." ++ action_str a.
Proof. intros ts []; reflexivity. Qed.
Lemma timestamp_dot : forall x, timestamp x -> has_char "." x = false.
Proof. intros x [c [V [_ ->]]]. now apply render_no_dot. Qed.

Section Changes.
Variable objs : list object.
Variable base : url.
Variable names : list string.
Hypothesis PO : proper_objects objs.
Hypothesis Lo : located base names.
Variable number_of : string -> option Z.
Variable collect : list (string * json) -> list (string * json).
Variable local_to_utc : ndt -> option ndt.
Notation read := (fun path => let* d := get_file_data objs base path in parse_metadata number_of collect d).
Variable commits : list instant.
Variable listed0 : list file_meta.
Variable l0 : list instant.
Hypothesis DL : directory_listing objs names [".hoodie"] listed0.
Hypothesis DN : denoted_instants (denotes_completed local_to_utc "utc" [Commit; DeltaCommit; ReplaceCommit]) (map fm_name listed0) l0.
Hypothesis PM : Permutation l0 commits.
Hypothesis TO : timeline_in_order objs names.
Variable start e : string.
Notation object_commit := (commit_object objs names number_of collect start e).

Lemma instant_object : forall i, In i commits -> i_state i = Completed /\ timestamp (i_timestamp i)
  /\ (exists o, file_in objs names [".hoodie"] (timeline_name (i_timestamp i) (i_action i) Completed) o)
  /\ exists dt, parse_datetime local_to_utc (i_timestamp i) "utc" = Ok dt /\ i_epoch i = epoch_millis dt.
Proof.
  intros i I. apply (Permutation_in _ (Permutation_sym PM)) in I. destruct (denoted_in _ _ _ DN _ I) as [n [J [ts [a [dt [D [N [_ [T ->]]]]]]]]]. cbn [i_timestamp i_state i_action i_epoch].
  apply in_map_iff in J as [m [Em Im]]. apply (proj2 DL) in Im as [n' [o [FI ->]]]. cbn [fm_name new_meta] in Em. subst n'.
  destruct (TO ts a o D) as [T1 T2]. rewrite name_is in *. destruct N as [ -> | -> ].
  - split; [reflexivity|]. split; [now apply T1|]. split; [exists o; exact FI|]. eauto.
  - elim T2. rewrite !app_assoc_s. exact FI.
Qed.
Lemma all_dated : Forall dated commits.
Proof.
  apply Forall_forall. intros i I. destruct (instant_object i I) as [_ [[c [V [M E]]] [_ [dt [T Ee]]]]]. exists c. split; [exact V|]. split; [exact M|]. split; [exact E|].
  rewrite Ee. rewrite E, parse_datetime_utc in T by (assumption || reflexivity). injection T as <-. now apply epoch_denotes.
Qed.
Lemma commit_to : forall i md, commit_between read commits start e i md -> object_commit (i_timestamp i) (i_action i) md.
Proof.
  intros i md [I [St [L1 [L2 R]]]]. destruct (instant_object i I) as [_ [T [[o FI] _]]]. exists o. split; [exact FI|]. split; [exact T|]. split; [exact L1|]. split; [exact L2|].
  rewrite file_name_spec, St in R. apply bind_ok in R as [d [R R']]. pose proof FI as [_ [Ln _]]. apply (timeline_read objs base names PO Lo _ _ Ln) in R as [o' [FI' Ed]].
  assert (o' = o). { destruct FI as [I1 [_ K1]], FI' as [I2 [_ K2]]. pose proof (find_unique objs (proj2 PO) o I1) as F1. pose proof (find_unique objs (proj2 PO) o' I2) as F2. rewrite K1 in F1. rewrite K2 in F2. congruence. }
  subst o' d. unfold parse_metadata in R'. destruct (from_slice number_of collect (o_data o)) as [m|] eqn:FS; [|discriminate]. injection R' as ->. now apply slice_text.
Qed.
Lemma commit_from : forall ts a md, object_commit ts a md -> exists i, commit_between read commits start e i md /\ i_timestamp i = ts /\ i_action i = a.
Proof.
  intros ts a md [o [FI [T [L1 [L2 TX]]]]]. pose proof T as [c [V [M E]]].
  set (i := {| i_timestamp := ts; i_action := a; i_state := Completed; i_epoch := epoch_millis (civil_ndt c) |}).
  assert (I : In i l0).
  { apply (denoted_all _ _ _ (denotes_one local_to_utc "utc" _) DN (timeline_name ts a Completed)).
    - apply in_map_iff. exists (new_meta (timeline_name ts a Completed) (o_size o)). split; [reflexivity|]. apply (proj2 DL). eauto.
    - exists ts, a, (civil_ndt c). split; [now apply timestamp_dot|]. split; [left; apply name_is|]. split; [apply action_all|]. split; [|reflexivity]. rewrite E. apply parse_datetime_utc; [exact V|reflexivity]. }
  exists i. split; [|split; reflexivity]. split; [exact (Permutation_in _ PM I)|]. split; [reflexivity|]. split; [exact L1|]. split; [exact L2|].
  rewrite file_name_spec. cbn [i i_action i_timestamp i_state]. pose proof FI as [_ [Ln _]]. rewrite (proj2 (timeline_read objs base names PO Lo _ (o_data o) Ln)) by eauto.
  cbn [bind]. unfold parse_metadata. apply slice_text in TX. now rewrite TX.
Qed.

(** what the commits record *)
Lemma recorded_from : forall code rank fc sc format part id listed contents g,
  changes_recorded objs names number_of collect start e format part id listed contents g ->
  recorded read commits format part id listed (fun n => map (block_batches code rank fc sc) (contents n)) g start e.
Proof.
  intros code rank fc sc format part id listed contents g [R1 R2 R3 R4 R5 R6].
  assert (LT : forall fm c, log_named read commits part id start e fm c -> log_recorded objs names number_of collect start e part id fm c).
  { intros fm c [i [md [l [C X]]]]. exists (i_timestamp i), (i_action i), md, l. split; [now apply commit_to|exact X]. }
  assert (LF : forall fm c, log_recorded objs names number_of collect start e part id fm c -> log_named read commits part id start e fm c).
  { intros fm c [ts [a [md [l [C X]]]]]. apply commit_from in C as [i [C _]]. exists i, md, l. split; [exact C|exact X]. }
  constructor.
  - intros c I L1 L2. destruct (R1 c I L1 L2) as [ts [a [m [n [C X]]]]]. apply commit_from in C as [i [C _]]. exists i, m, n. auto.
  - intros c x rows fm w bs I1 I2 L1 L2 Lg J A. apply in_map_iff in J as [[w' vs] [E J]]. injection E as <- <-. apply LF. eapply R2; eauto.
  - intros i md c n b C X I L. exact (R3 _ _ md c n b (commit_to i md C) X I L).
  - intros i md c n C X. exact (R4 _ _ md c n (commit_to i md C) X).
  - intros i md c l C X. exact (R5 _ _ md c l (commit_to i md C) X).
  - intros fm c w bs x Lg J A F L1 L2. apply in_map_iff in J as [[w' vs] [E J]]. injection E as <- <-. destruct (R6 fm c w' vs x (LT _ _ Lg) J A F L1 L2) as [fm' [w1 [vs1 [y [X1 [X2 X3]]]]]].
    exists fm', w1, (batches_of code rank fc sc w1 vs1), y. split; [now apply LF|]. split; [|exact X3]. apply (in_map (block_batches code rank fc sc)) in X2. exact X2.
Qed.

(** the commits of the window *)
Lemma window_in_order : timestamp start -> timestamp e -> commits_in_order objs names number_of collect start e ->
  forall st en, parse_datetime local_to_utc start "utc" = Ok st -> parse_datetime local_to_utc e "utc" = Ok en ->
  window_fine read commits (Some (epoch_millis st)) (Some (epoch_millis en)).
Proof.
  intros [cs [Vs [Ms Rs]]] [ce [Ve [Me Re]]] [W1 W2] st en Es Ee.
  rewrite Rs, parse_datetime_utc in Es by (assumption || reflexivity). injection Es as <-. rewrite Re, parse_datetime_utc in Ee by (assumption || reflexivity). injection Ee as <-.
  pose proof all_dated as Da. rewrite Forall_forall in Da.
  assert (IW : forall i, In i commits -> S_Timeline.in_window (Some (epoch_millis (civil_ndt cs))) (Some (epoch_millis (civil_ndt ce))) (i_epoch i) = true -> slt start (i_timestamp i) /\ sle (i_timestamp i) e).
  { intros i I H. destruct (Da i I) as [c [Vc [Mc [Et Ed]]]]. apply denotes_unique in Ed; [|exact Vc]. unfold S_Timeline.in_window in H. rewrite Ed in H. apply andb_true_iff in H as [H1 H2]. apply Z.ltb_lt in H1. apply Z.leb_le in H2.
    unfold slt, sle. rewrite Et, Rs, Re, !render_order_same_width by (try assumption; now rewrite !timestamp_width). split; [exact H1|exact H2]. }
  split.
  - intros i I St H. destruct (IW i I H) as [L1 L2]. destruct (instant_object i I) as [_ [T [[o FI] _]]]. destruct (W1 _ _ _ FI T L1 L2) as [m [TX [WF RF]]]. exists m. split; [|split; assumption].
    rewrite file_name_spec, St. pose proof FI as [_ [Ln _]]. rewrite (proj2 (timeline_read objs base names PO Lo _ (o_data o) Ln)) by eauto. cbn [bind]. unfold parse_metadata. apply slice_text in TX. now rewrite TX.
  - assert (CB : forall i md, commit_in read commits (Some (epoch_millis (civil_ndt cs))) (Some (epoch_millis (civil_ndt ce))) i md -> object_commit (i_timestamp i) (i_action i) md).
    { intros i md [I [St [H R]]]. destruct (IW i I H) as [L1 L2]. apply commit_to. split; [exact I|]. split; [exact St|]. split; [exact L1|]. split; [exact L2|exact R]. }
    intros i md i' md' part id c n n' C C' N N'. eapply W2; [apply CB; exact C|apply CB; exact C'|exact N|exact N'].
Qed.
End Changes.

Section Queries.
Variable objs : list object.
Variable base : url.
Variable names : list string.
Hypothesis PO : proper_objects objs.
Hypothesis Lo : located base names.
Variable number_of : string -> option Z.
Variable collect : list (string * json) -> list (string * json).
Variable local_to_utc : ndt -> option ndt.
Variable dtype' : Type.
Variable parse_pschema : string -> outcome (list (string * dtype')).
Variable parse_rows : string -> outcome record_batch.
Variable footer : string -> outcome (Z * Z).
Variable open : options -> options -> outcome unit.
Variable code : dtype -> nat.
Variable rank : dtype -> slot -> Z.
Variable float_cast : dtype -> slot -> option slot.
Variable parse_schema : string -> option avro.
Variable parquet : string -> option (list record_batch).
Let st := object_store objs base dtype' (parse_metadata number_of collect) parse_pschema parse_rows footer open.
Variable tb : table.
Variable listed0 : list file_meta.
Variable l0 : list instant.
Variable dfs : list M_Avro.field.
Variable p s k ct : nat.
Variable format : string.
Variable partitioned : bool.
Variable hist : string * string -> group.
Variable start e : string.
Variable stop : option string.
Hypothesis DL : directory_listing objs names [".hoodie"] listed0.
Hypothesis DN : denoted_instants (denotes_completed local_to_utc "utc" [Commit; DeltaCommit; ReplaceCommit]) (map fm_name listed0) l0.
Hypothesis PM : Permutation l0 (t_commits tb).
Hypothesis So : StronglySorted instant_le (t_commits tb).
Hypothesis TO : timeline_in_order objs names.
Hypothesis MT : merging_table tb (map (as_field code) dfs) p s k.
Hypothesis MF : oget "hoodie.populate.meta.fields" (t_configs tb) <> Some "false".
Hypothesis TC : typed_column (map (as_field code) dfs) "_hoodie_commit_time" TUtf8 ct.
Hypothesis Ts : timestamp start.
Hypothesis We : window_end (t_commits tb) stop e.
Hypothesis Te : timestamp e.
Hypothesis US : one_stat_each objs names number_of collect start e.
Hypothesis CW : changes_written objs names number_of collect start e format partitioned parse_schema code rank parse_rows dfs k p s ct hist.
Notation between := (commit_between (st_json _ st) (t_commits tb) start e).
Notation object_commit := (commit_object objs names number_of collect start e).
Notation incremental := (read_incremental dtype' avro value parse_schema decode check_schema (to_batch code rank float_cast) parquet local_to_utc st tb start stop).

Let to := commit_to objs base names PO Lo number_of collect local_to_utc (t_commits tb) listed0 l0 DL DN PM TO start e.
Let from := commit_from objs base names PO Lo number_of collect local_to_utc (t_commits tb) listed0 l0 DL DN PM start e.

Lemma group_kept : forall g c, has_base objs names format partitioned g c -> exists now listed contents,
  history k p s now (hist g) /\ In c (map fst (g_bases (hist g)))
  /\ laid_out avro value parse_schema decode check_schema (to_batch code rank float_cast) parquet (st_parquet _ st) (st_bytes _ st) format (fst g) (snd g) (map (as_field code) dfs) listed contents (hist g)
  /\ stamped ct (hist g) /\ later_is_newer k p s (hist g) e
  /\ recorded (st_json _ st) (t_commits tb) format (fst g) (snd g) listed contents (hist g) start e.
Proof.
  intros g c HB. destruct (proj2 CW g c HB) as [now [contents [HI [SP [LN WO]]]]]. destruct HB as [dir [n [o [b [OPn [FN [NM [BN [BO [B1 B2]]]]]]]]]]. pose proof OPn as [FD [EP _]].
  destruct (files_spec objs base names PO Lo dir FD) as [l [E NS]].
  destruct (WO dir l (get_file_data objs base) OPn NS) as [WR RC]; [intros n' o' FI; rewrite EP; now apply (read_data objs base names PO Lo)|].
  exists now, l, (fun n => map (block_batches code rank float_cast parse_schema) (contents n)). split; [exact HI|].
  split; [apply (wo_bases _ _ _ _ _ _ _ _ _ _ _ _ _ WR); exists (new_meta n (o_size o)), b; split; [|now split]; split; [apply (proj2 NS); eauto|now repeat split]|].
  split; [apply written_laid_out, stored_out; exact WR|]. split; [exact SP|]. split; [exact LN|].
  exact (recorded_from objs base names PO Lo number_of collect local_to_utc (t_commits tb) listed0 l0 DL DN PM TO start e code rank float_cast parse_schema _ _ _ _ _ _ RC).
Qed.

Lemma replaced_same : forall g, replaced_between objs names number_of collect start e g <-> exists i md, between i md /\ i_action i = ReplaceCommit /\ replaces md (fst g) (snd g).
Proof.
  intros g. split.
  - intros [ts [m [C R]]]. apply from in C as [i [C [_ A]]]. exists i, m. auto.
  - intros [i [md [C [A R]]]]. apply to in C. rewrite A in C. exists (i_timestamp i), md. auto.
Qed.
Lemma unique_between : forall i md, between i md -> unique_stats md.
Proof. intros i md C. eapply US. apply to. exact C. Qed.

Lemma whole_changes : forall batches, incremental (Ok batches) ->
  exists gs, NoDup gs /\ (forall g, In g gs <-> changed_group objs names number_of collect start e g)
    /\ Forall2 (fun g batch => rb_fields batch = map (as_field code) dfs /\ changed_between k p s (hist g) start e (rb_rows batch)) gs batches
    /\ forall g c x r, has_base objs names format partitioned g c -> sle c e -> In (x, r) (g_versions (hist g)) -> slt start x -> sle x e ->
         ~ replaced_between objs names number_of collect start e g -> In g gs.
Proof.
  intros batches RD. destruct (incremental_records _ _ _ _ _ _ _ _ _ _ _ _ _ _ _ _ _ _ _ MT MF TC So (all_dated objs names local_to_utc (t_commits tb) listed0 l0 DL DN PM TO) Ts We Te unique_between batches RD) as [gs [ND [MB [FA CO]]]].
  assert (OF : forall g, In g gs <-> changed_group objs names number_of collect start e g).
  { intros [part id]. rewrite MB. unfold changed_group. rewrite replaced_same. cbn [fst snd]. split.
    - intros [[c [n [i [md [C X]]]]] R]. split; [|exact R]. apply to in C. eauto 7.
    - intros [[ts [a [md [c [n [C X]]]]]] R]. split; [|exact R]. apply from in C as [i [C _]]. eauto 7. }
  exists gs. split; [exact ND|]. split; [exact OF|]. split.
  - assert (HB : forall g, In g gs -> exists c, has_base objs names format partitioned g c).
    { intros g I. apply OF in I as [[ts [a [md [c [n [C [N _]]]]]]] _]. exists c. rewrite (surjective_pairing g). eapply (proj1 CW); eauto. }
    clear OF MB ND CO RD. induction FA as [|g batch gs bs H F IH]; [constructor|]. constructor; [|apply IH; intros; apply HB; now right].
    destruct (HB g (or_introl eq_refl)) as [c B]. destruct (group_kept g c B) as [now [li [co [X1 [X0 [X2 [X3 [X4 X5]]]]]]]]. exact (H now _ _ _ _ X1 X2 X3 X4 X5).
  - intros g c x r B Lc V L1 L2 NR. destruct (group_kept g c B) as [now [li [co [X1 [X0 [X2 [X3 [X4 X5]]]]]]]]. rewrite (surjective_pairing g). apply (CO _ _ now _ _ _ _ x r X1 X2 X3 X4 X5 (ex_intro _ c (conj X0 Lc)) V L1 L2). intros R. apply NR. now apply replaced_same.
Qed.

Hypothesis CO : commits_in_order objs names number_of collect start e.
Hypothesis OP : readers_open st tb [("hoodie.read.file_group.start_timestamp", start); ("hoodie.read.file_group.end_timestamp", e)].
Lemma stop_is : stop_or_latest tb stop = Some e.
Proof. now apply window_end_is. Qed.
Lemma slices_found : forall order, (forall n l, Permutation l (order n l)) -> exists ss, slices_between dtype' local_to_utc st tb order start e = Ok ss.
Proof.
  intros order P. unfold slices_between. rewrite (utc_is _ (mt_utc _ _ _ _ _ MT)). cbn [bind].
  pose proof Ts as [cs [Vs [Ms Rs]]]. pose proof Te as [ce [Ve [Me Re]]].
  assert (Es : parse_datetime local_to_utc start "utc" = Ok (civil_ndt cs)) by (rewrite Rs; apply parse_datetime_utc; [exact Vs|reflexivity]).
  assert (Ee : parse_datetime local_to_utc e "utc" = Ok (civil_ndt ce)) by (rewrite Re; apply parse_datetime_utc; [exact Ve|reflexivity]).
  destruct (between_ok local_to_utc (st_json _ st) order P "utc" (t_commits tb) (Some start) (Some e) (Some (civil_ndt cs)) (Some (civil_ndt ce)) So) as [gs ->].
  - cbn. now rewrite Es.
  - cbn. now rewrite Ee.
  - exact (window_in_order objs base names PO Lo number_of collect local_to_utc (t_commits tb) listed0 l0 DL DN PM TO start e Ts Te CO _ _ Es Ee).
  - cbn [bind]. eauto.
Qed.
Lemma whole_changes_succeed : (forall r, incremental r -> exists batches, r = Ok batches) /\ exists batches, incremental (Ok batches).
Proof.
  assert (A : forall r, incremental r -> exists batches, r = Ok batches).
  { apply (incremental_succeeds _ _ _ _ _ _ _ _ _ _ _ _ _ _ _ _ _ _ _ MT MF TC So (all_dated objs names local_to_utc (t_commits tb) listed0 l0 DL DN PM TO) Ts We Te unique_between OP).
    - intros order P. unfold get_file_slices_between. rewrite stop_is. now apply slices_found.
    - intros part id c n i md C N. apply to in C. pose proof (proj1 CW _ _ _ _ _ _ _ C N) as B. destruct (group_kept _ _ B) as [now [li [co [X [_ Y]]]]]. exists now, (hist (part, id)), format, li, co. now split. }
  split; [exact A|]. destruct (slices_found (fun _ l => l)) as [ss E]; [reflexivity|].
  set (w := [("hoodie.read.file_group.start_timestamp", start); ("hoodie.read.file_group.end_timestamp", e)]).
  set (o := table_reader_options (fun m => m) (t_configs tb) (t_storage tb) w).
  set (read := fun sl => read_file_slice (@L_Reader.isort _) (fun m => m) (st_parquet _ st) avro value parse_schema decode check_schema (to_batch code rank float_cast) parquet local_to_utc (st_bytes _ st) (fst o) sl).
  destruct (joined_total _ (map read ss)) as [r J].
  assert (RS : read_slices dtype' avro value parse_schema decode check_schema (to_batch code rank float_cast) parquet local_to_utc st tb w ss r).
  { apply rs_read with (iter := fun m => m) (os := map read ss); [intros m; reflexivity| |exact J]. cbn zeta. split; [exact (OP (fun m => m) (fun m => Permutation_refl m))|]. clear. induction ss as [|x ss IH]; constructor; [|exact IH].
    exists (@L_Reader.isort _), (fun m => m). split; [apply L_Reader.isort_sorts|]. split; [intros m; reflexivity|reflexivity]. }
  assert (R : incremental r) by (eapply ri_ok; [|exact stop_is|exact E|exact RS]; reflexivity).
  destruct (A _ R) as [bs ->]. eauto.
Qed.
End Queries.

(** one list of changes from the file groups *)
Lemma flatten_changes : forall k p s hist start e (of : string * string -> Prop) gs batches, NoDup gs -> (forall g, In g gs <-> of g) -> keys_apart k of hist ->
  Forall2 (fun g batch => changed_between k p s (hist g) start e (rb_rows batch)) gs batches -> table_changed k p s of hist start e (flat_map rb_rows batches).
Proof.
  intros k p s hist start e of gs batches ND OF KA FA.
  assert (A1 : forall r, In r (flat_map rb_rows batches) -> exists g batch, In g gs /\ changed_between k p s (hist g) start e (rb_rows batch) /\ In r (rb_rows batch)).
  { clear ND OF KA. induction FA as [|g b gs bs H F IH]; intros r I; [destruct I|]. cbn [flat_map] in I. apply in_app_or in I as [I|I]; [exists g, b; split; [now left|now split]|].
    destruct (IH r I) as [g' [b' [X Y]]]. exists g', b'. split; [now right|exact Y]. }
  assert (A2 : forall g, In g gs -> exists batch, changed_between k p s (hist g) start e (rb_rows batch) /\ incl (rb_rows batch) (flat_map rb_rows batches)).
  { clear ND OF KA A1. induction FA as [|g b gs bs H F IH]; intros g' I; [destruct I|]. cbn [flat_map]. destruct I as [ <- |I].
    - exists b. split; [exact H|]. intros r J. apply in_or_app. now left.
    - destruct (IH g' I) as [b' [X Y]]. exists b'. split; [exact X|]. intros r J. apply in_or_app. right. now apply Y. }
  split; [|split].
  - assert (G : forall g, In g gs -> of g) by (intros; now apply OF). clear OF A1 A2. induction FA as [|g b gs bs H F IH]; [constructor|]. inversion ND as [|? ? NI ND']; subst. cbn [flat_map]. rewrite map_app.
    assert (IH' : NoDup (map (key_at k) (flat_map rb_rows bs))) by (apply IH; [exact ND'|intros; apply G; now right]). clear IH.
    assert (X : forall r, In r (flat_map rb_rows bs) -> exists g' x, In g' gs /\ In (x, r) (g_versions (hist g'))).
    { clear -F. induction F as [|g' b' gs' bs' H F IH]; intros r I; [destruct I|]. cbn [flat_map] in I. apply in_app_or in I as [I|I].
      - destruct H as [_ [_ H]]. destruct (H r I) as [[x [Ix _]] _]. exists g', x. split; [now left|exact Ix].
      - destruct (IH r I) as [g'' [x [J K]]]. exists g'', x. split; [now right|exact K]. }
    destruct H as [N [_ H]]. induction (rb_rows b) as [|r l IHl]; [exact IH'|]. cbn [map app]. cbn [map] in N. inversion N as [|? ? N1 N2]; subst. constructor; [|apply IHl; [exact N2|intros; apply H; now right]].
    rewrite in_app_iff. intros [I|I]; [now apply N1|]. apply in_map_iff in I as [r' [E I]]. destruct (X r' I) as [g' [x' [J K]]]. destruct (H r (or_introl eq_refl)) as [[x [Ix _]] _].
    apply NI. rewrite (KA g g' x x' r r' (G g (or_introl eq_refl)) (G g' (or_intror J)) Ix K (eq_sym E)). exact J.
  - intros g x r O I L1 L2. apply OF in O. destruct (A2 g O) as [b [[_ [H _]] IN]]. destruct (H x r I L1 L2) as [r' [J E]]. exists r'. split; [now apply IN|exact E].
  - intros r I. destruct (A1 r I) as [g [b [IG [[_ [_ H]] J]]]]. destruct (H r J) as [[x [Ix [L1 L2]]] NW]. apply OF in IG. split; [exists g, x; auto|].
    intros g' x' r' O I' LE' E. apply (NW x' r'); auto. now rewrite (KA g g' x x' r r' IG O Ix I' (eq_sym E)).
Qed.
