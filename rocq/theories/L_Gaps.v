(** Lemmas for C96: cleaning that leaves gaps. *)
From Verif Require L_Scan L_Open.
From Verif Require Import Base Str M_Time M_Instant M_Timeline M_FileGroup M_Builder M_Listing M_Log M_Reader M_Avro M_Values M_Objects
  S_Time S_Timeline S_Table S_FileGroup S_Builder S_Listing S_Log S_Reader S_Avro S_Storage S_Objects S_History S_Values S_Datum S_Json S_Whole S_Follow S_Clean S_Deletes S_Erased S_Gaps
  L_Base L_Str L_History L_Storage L_Objects L_Deletes L_Erased L_Clean.
Local Open Scope string_scope.

(** What is left of a file group. *)
Definition only (stays : string -> bool) (g : group) : group :=
  {| g_versions := g_versions g;
     g_bases := filter (fun e => stays (fst e)) (g_bases g);
     g_blocks := filter (fun e => stays (fst (fst e))) (g_blocks g);
     g_failed := g_failed g;
     g_rollbacks := filter (fun e => stays (fst (fst e))) (g_rollbacks g) |}.
Lemma only_bases : forall stays g c, In c (map fst (g_bases (only stays g))) <-> In c (map fst (g_bases g)) /\ stays c = true.
Proof.
  intros stays g c. cbn [g_bases only]. rewrite !in_map_iff. split.
  - intros [[c' rows] [E I]]. apply filter_In in I as [I K]. cbn in *. subst c'. split; [now exists (c, rows)|exact K].
  - intros [[[c' rows] [E I]] K]. cbn in E. subst c'. exists (c, rows). split; [reflexivity|]. apply filter_In. auto.
Qed.
Lemma newest_up_to : forall t l c, In c l -> sle c t -> exists m, In m l /\ sle m t /\ forall c', In c' l -> sle c' t -> sle c' m.
Proof.
  intros t l. induction l as [|a l IH]; intros c I L; [destruct I|].
  destruct (sleb a t) eqn:E.
  - apply sleb_spec in E. destruct (existsb (fun x => sleb x t) l) eqn:X.
    + apply existsb_exists in X as [x [Ix Lx]]. apply sleb_spec in Lx. destruct (IH x Ix Lx) as [m [M1 [M2 M3]]]. destruct (sle_total a m) as [H|H].
      * exists m. split; [now right|]. split; [exact M2|]. intros c' [<-|I'] L'; [exact H|now apply M3].
      * exists a. split; [now left|]. split; [exact E|]. intros c' [<-|I'] L'; [apply sle_refl|]. eapply sle_trans; [now apply M3|exact H].
    + exists a. split; [now left|]. split; [exact E|]. intros c' [<-|I'] L'; [apply sle_refl|]. exfalso. apply Bool.not_true_iff_false in X. apply X. apply existsb_exists. exists c'. split; [exact I'|now apply sleb_spec].
  - assert (NA : ~ sle a t) by (intros H; apply sleb_spec in H; congruence). destruct I as [<-|I]; [contradiction|]. destruct (IH c I L) as [m [M1 [M2 M3]]].
    exists m. split; [now right|]. split; [exact M2|]. intros c' [<-|I'] L'; [contradiction|now apply M3].
Qed.
Lemma left_only : forall t stays g, (forall m, In m (map fst (g_bases g)) -> sle m t -> (forall c', In c' (map fst (g_bases g)) -> sle c' t -> sle c' m) -> stays m = true) -> left_of t (only stays g) g.
Proof.
  intros t stays g K. constructor.
  - reflexivity.
  - intros c rows I. cbn in I. now apply filter_In in I.
  - intros c I L M c' I' L'. destruct (newest_up_to t (map fst (g_bases g)) c' I' L') as [m [M1 [M2 M3]]]. eapply sle_trans; [now apply M3|]. apply M; [|exact M2]. apply only_bases. split; [exact M1|now apply K].
  - intros c x rows I. apply only_bases in I as [_ I]. cbn [g_blocks only]. rewrite filter_In. cbn [fst]. tauto.
  - intros c y x I. apply only_bases in I as [_ I]. cbn [g_rollbacks only]. rewrite filter_In. cbn [fst]. tauto.
Qed.

(** ** What cleaning leaves *)
Section Cleaned.
Variable objs objs' : list object.
Variable base : M_Storage.url.
Variable table : list string.
Variable format : string.
Variable partitioned : bool.
Variable stays : string * string -> string -> bool.
Hypothesis LO : located base table.
Hypothesis PO : proper_objects objs.
Hypothesis CL : slices_removed objs objs' table format partitioned stays.

Notation TL := (proj1 (proj2 LO)).
Notation part := (object_partition objs table partitioned).
Notation part' := (object_partition objs' table partitioned).

Lemma still : forall o, In o objs' -> In o objs.
Proof. intros o I. now apply (sr_removed _ _ _ _ _ _ CL) in I. Qed.
Lemma still_in : forall dir n o, file_in objs' table dir n o -> file_in objs table dir n o.
Proof. intros dir n o [I H]. split; [now apply still|exact H]. Qed.
Lemma nodup_keys : forall l, NoDup l -> (forall o, In o l -> In o objs) -> NoDup (map o_key l).
Proof.
  assert (U : forall l (a b : object), NoDup (map o_key l) -> In a l -> In b l -> o_key a = o_key b -> a = b).
  { intros l a b. induction l as [|x l IH]; [intros _ []|]. cbn. intros N I J E. apply NoDup_cons_iff in N as [N1 N2]. destruct I as [ -> |I], J as [ -> |J].
    - reflexivity.
    - exfalso. apply N1. rewrite E. now apply in_map.
    - exfalso. apply N1. rewrite <- E. now apply in_map.
    - now apply IH. }
  intros l N IN. induction N as [|x l NI N IH]; [constructor|]. cbn. constructor; [|apply IH; intros o I; apply IN; now right].
  intros I. apply in_map_iff in I as [y [E I]]. apply NI. assert (x = y); [|now subst]. apply (U objs x y (proj2 PO)); [apply IN; now left|apply IN; now right|now symmetry].
Qed.
Lemma one_object : forall a b, In a objs -> In b objs -> o_key a = o_key b -> a = b.
Proof.
  intros a b. destruct PO as [_ N]. clear -N. induction objs as [|x l IH]; [intros []|]. cbn in N. apply NoDup_cons_iff in N as [N1 N2]. intros I J E. destruct I as [ -> |I], J as [ -> |J].
  - reflexivity.
  - exfalso. apply N1. rewrite E. now apply in_map.
  - exfalso. apply N1. rewrite <- E. now apply in_map.
  - now apply IH.
Qed.
Lemma still_proper : proper_objects objs'.
Proof.
  destruct PO as [PK N]. split; [|apply nodup_keys; [exact (sr_set _ _ _ _ _ _ CL)|exact still]].
  unfold proper_keys in *. rewrite Forall_forall in *. intros x I. apply PK. apply in_map_iff in I as [o [<- I]]. apply in_map. now apply still.
Qed.
Lemma place : forall dir n dir' n' o, Forall legal dir -> Forall legal dir' -> file_in objs table dir n o -> file_in objs table dir' n' o -> dir = dir' /\ n = n'.
Proof.
  intros dir n dir' n' o D D' [_ [N E]] [_ [N' E']]. rewrite E in E'. apply key_of_inj in E'; [|apply Forall_app; split; [exact TL|apply Forall_app; auto]..].
  apply app_inv_head in E'. now apply app_inj_tail in E'.
Qed.
Lemma directories_same : forall path, data_directory objs' table path <-> data_directory objs table path.
Proof.
  intros path. split; (intros [top [rest [E2 [F2 [N1 [N2 [N3 [[n [o FI]] B]]]]]]]]; exists top, rest; do 5 (split; [assumption|])).
  - split; [exists n, o; now apply still_in|]. intros below o' FB I K. destruct (le_lt_dec (List.length below) 1) as [X|X]; [exact X|]. exfalso.
    destruct (exists_last (l := below)) as [ini [n' ->]]; [destruct below; [cbn in X; lia|discriminate]|]. apply Forall_app in FB as [FB1 FB2]. apply Forall_inv in FB2.
    destruct (sr_directories _ _ _ _ _ _ CL ((top :: rest) ++ ini)%list n' o') as [n2 [o2 [I2 [L2 K2]]]]; [apply Forall_app; auto|split; [exact I|]; split; [exact FB2|]; rewrite K; cbn [app]; now rewrite <- ?app_assoc|].
    assert (Y := B (ini ++ [n2])%list o2). rewrite !app_length in *. cbn in X, Y. assert (List.length ini + 1 <= 1)%nat; [|lia]. apply Y; [apply Forall_app; auto|exact I2|]. rewrite K2. cbn [app]. now rewrite <- ?app_assoc.
  - split; [exact (sr_directories _ _ _ _ _ _ CL _ _ _ F2 FI)|]. intros below o' FB I K. apply (B below o' FB); [now apply still|exact K].
Qed.
Lemma partitions_same : forall path dir, part' path dir <-> part path dir.
Proof. intros path dir. pose proof (directories_same path) as X. unfold object_partition. destruct partitioned; tauto. Qed.
Lemma slice_one : forall g c g' c' o, slice_object objs table format partitioned g c o -> slice_object objs table format partitioned g' c' o -> g = g' /\ c = c'.
Proof.
  intros [q id] c [q' id'] c' o [dir [n [[F [E _]] [FI S]]]] [dir' [n' [[F' [E' _]] [FI' S']]]]. cbn in *. destruct (place _ _ _ _ _ F F' FI FI') as [ <- <- ]. destruct (slice_file_one _ _ _ _ _ _ S S') as [ <- <- ].
  subst. auto.
Qed.
(** A file of a partition stays iff its slice does. *)
Lemma slice_stays : forall g c o, slice_object objs table format partitioned g c o -> In o objs' <-> stays g c = true.
Proof.
  intros g c o S. rewrite (sr_removed _ _ _ _ _ _ CL). split; [intros [_ H]; now apply H|]. intros K. split; [destruct S as [dir [n [_ [[I _] _]]]]; exact I|].
  intros g' c' S'. destruct (slice_one _ _ _ _ _ S S') as [ <- <- ]. exact K.
Qed.
Lemma base_slice_object : forall path dir n o b, part path dir -> file_in objs table dir n o -> ~ marker_name n -> base_named format n -> base_file_of n (Some (new_meta n (o_size o))) = Ok b ->
  slice_object objs table format partitioned (path, bf_file_id b) (bf_commit b) o.
Proof.
  intros path dir n o b P FI M B E. exists dir, n. split; [exact P|]. split; [exact FI|]. exact (base_slice_file format [new_meta n (o_size o)] (new_meta n (o_size o)) b (conj (or_introl eq_refl) (conj M (conj B E)))).
Qed.
Lemma bases_left : forall g c, has_base objs' table format partitioned g c <-> has_base objs table format partitioned g c /\ stays g c = true.
Proof.
  intros [q id] c. split.
  - intros [dir [n [o [b [P [FI [M [B [E [E1 E2]]]]]]]]]]. apply partitions_same in P. pose proof (still_in _ _ _ FI) as FJ. cbn in *. split; [exists dir, n, o, b; auto 10|].
    pose proof (base_slice_object _ _ _ _ _ P FJ M B E) as S. rewrite E1, E2 in S. apply (slice_stays _ _ _ S). apply FI.
  - intros [[dir [n [o [b [P [FI [M [B [E [E1 E2]]]]]]]]]] K]. cbn in *. pose proof (base_slice_object _ _ _ _ _ P FI M B E) as S. rewrite E1, E2 in S. apply (slice_stays _ _ _ S) in K.
    exists dir, n, o, b. split; [now apply partitions_same|]. split; [split; [exact K|apply FI]|]. auto 10.
Qed.
(** The timeline is untouched. *)
Lemma timeline_stays : forall n o, file_in objs table [".hoodie"] n o <-> file_in objs' table [".hoodie"] n o.
Proof.
  intros n o. split; [|apply still_in]. intros FI. split; [|apply FI]. apply (sr_removed _ _ _ _ _ _ CL). split; [apply FI|]. intros g c [dir [n' [[F [E P]] [FJ _]]]]. exfalso.
  assert (HL : Forall legal [".hoodie"]) by (constructor; [exact L_Open.metadata_legal|constructor]).
  destruct (place _ _ _ _ _ F HL FJ FI) as [ -> _ ]. destruct partitioned; [|discriminate P]. destruct P as [top [rest [E' [F' [N _]]]]].
  assert (X : [".hoodie"] = top :: rest); [|injection X as X _; congruence].
  apply L_Scan.join_inj; [eapply Forall_impl; [|exact HL]; intros z [X [Y _]]; auto|eapply Forall_impl; [|exact F']; intros z [X [Y _]]; auto|congruence].
Qed.
Lemma replaced_same : forall nu co L tz time g, replaced_in objs' table nu co L tz time g <-> replaced_in objs table nu co L tz time g.
Proof. intros nu co L tz time g. unfold replaced_in. split; intros [ts [o [dt [m [A B]]]]]; exists ts, o, dt, m; (split; [now apply timeline_stays|exact B]). Qed.
Lemma replacements_same : forall nu co L tz time, replacements_in_order objs' table nu co L tz time <-> replacements_in_order objs table nu co L tz time.
Proof.
  intros nu co L tz time. unfold replacements_in_order. split; intros [A B]; (split; [intros ts o F; apply (A ts o); now apply timeline_stays|]); intros ts o dt F; apply (B ts o dt); now apply timeline_stays.
Qed.
(** Listings of a directory before and after. *)
Section Dir.
Variable path : string.
Variable dir : list string.
Variable l l' : list file_meta.
Hypothesis OP : part path dir.
Hypothesis DL : directory_listing objs table dir l.
Hypothesis DL' : directory_listing objs' table dir l'.
Lemma meta_still : forall m, In m l' -> In m l.
Proof. intros m I. apply DL' in I as [n [o [F ->]]]. apply DL. exists n, o. split; [now apply still_in|reflexivity]. Qed.
Lemma slice_meta : forall m id c, In m l -> slice_file format (fm_name m) id c -> In m l' <-> stays (path, id) c = true.
Proof.
  intros m id c I S. pose proof I as J. apply DL in J as [n [o [FI ->]]]. cbn in S.
  assert (SO : slice_object objs table format partitioned (path, id) c o) by (exists dir, n; auto).
  rewrite <- (slice_stays _ _ _ SO). split.
  - intros J. apply DL' in J as [n' [o' [FJ E]]]. assert (n' = n) by (unfold new_meta in E; now injection E). subst n'. enough (o' = o) by (subst; apply FJ). pose proof (still_in _ _ _ FJ) as FK. apply one_object; [apply FK|apply FI|]. destruct FI as [_ [_ ->]], FK as [_ [_ ->]]. reflexivity.
  - intros J. apply DL'. exists n, o. split; [split; [exact J|apply FI]|reflexivity].
Qed.
Lemma base_listed_after : forall m b, base_listed format l' m b <-> base_listed format l m b /\ stays (path, bf_file_id b) (bf_commit b) = true.
Proof.
  intros m b. split.
  - intros B. pose proof B as [I H]. apply meta_still in I as J. split; [split; assumption|]. apply (slice_meta m _ _ J (base_slice_file _ _ _ _ B)). exact I.
  - intros [B K]. pose proof B as [I H]. split; [|exact H]. now apply (slice_meta m _ _ I (base_slice_file _ _ _ _ B)).
Qed.
Lemma log_listed_after : forall m f, log_listed format l' m f <-> log_listed format l m f /\ stays (path, lf_file_id f) (lf_base_commit f) = true.
Proof.
  intros m b. split.
  - intros B. pose proof B as [I H]. apply meta_still in I as J. split; [split; assumption|]. apply (slice_meta m _ _ J (log_slice_file _ _ _ _ B)). exact I.
  - intros [B K]. pose proof B as [I H]. split; [|exact H]. now apply (slice_meta m _ _ I (log_slice_file _ _ _ _ B)).
Qed.
Lemma base_of_after : forall id m c, base_of format id l' m c <-> base_of format id l m c /\ stays (path, id) c = true.
Proof.
  intros id m c. unfold base_of. split.
  - intros [b [B [<- <-]]]. apply base_listed_after in B as [B K]. split; [exists b; auto|exact K].
  - intros [[b [B [<- <-]]] K]. exists b. split; [now apply base_listed_after|auto].
Qed.
Lemma log_of_after : forall id m c, log_of format id l' m c <-> log_of format id l m c /\ stays (path, id) c = true.
Proof.
  intros id m c. unfold log_of. split.
  - intros [b [B [<- <-]]]. apply log_listed_after in B as [B K]. split; [exists b; auto|exact K].
  - intros [[b [B [<- <-]]] K]. exists b. split; [now apply log_listed_after|auto].
Qed.
Lemma listing_after : listing_ok format l -> listing_ok format l'.
Proof.
  intros [A [B C]]. split; [|split].
  - intros m I. now apply A, meta_still.
  - intros m1 m2 b1 b2 B1 B2. apply base_listed_after in B1 as [B1 _], B2 as [B2 _]. now apply B.
  - intros m f m1 b1 F B1 E. apply log_listed_after in F as [F K]. apply base_listed_after in B1 as [B1 _]. destruct (C m f m1 b1 F B1 E) as [m2 [b2 [B2 [E1 E2]]]].
    exists m2, b2. split; [apply base_listed_after; rewrite E1, E2; auto|auto].
Qed.
End Dir.
Lemma listing_exists : forall dir, Forall legal dir -> exists l, directory_listing objs table dir l.
Proof. intros dir F. destruct (files_spec objs base table PO LO dir F) as [l [_ [N H]]]. exists l. split; assumption. Qed.
Lemma files_after : forall footer, files_in_order objs table format partitioned footer -> files_in_order objs' table format partitioned footer.
Proof.
  intros footer F path dir P. apply partitions_same in P. destruct (F path dir P) as [A B]. split; [|intros n o FI; apply (B n o); now apply still_in].
  intros l' DL'. destruct (listing_exists dir (proj1 P)) as [l DL]. exact (listing_after path dir l l' P DL DL' (A l DL)).
Qed.

(** The contents of the files of a directory. *)
Lemma contents_exist : forall path dir l, Forall legal dir -> directory_listing objs table dir l -> exists content : string -> outcome string,
  forall n o, file_in objs table dir n o -> content (file_path path n) = Ok (o_data o).
Proof.
  intros path dir l F DL. exists (fun q => match find (fun o => existsb (fun m => (String.eqb (o_key o) (key_of (table ++ dir ++ [fm_name m])) && String.eqb (file_path path (fm_name m)) q)%bool) l) objs with Some o => Ok (o_data o) | None => Err EStorage end).
  intros n o FI. assert (PI : forall a b, file_path path a = file_path path b -> a = b).
  { intros a b E. unfold file_path in E. destruct (String.eqb path ""); [exact E|]. apply app_inj_l in E. now injection E. }
  destruct (find _ objs) as [o'|] eqn:E.
  - apply find_some in E as [I E]. apply existsb_exists in E as [m [J E]]. apply Bool.andb_true_iff in E as [E1 E2]. apply String.eqb_eq in E1, E2. apply PI in E2. f_equal. f_equal.
    apply one_object; [exact I|apply FI|]. destruct FI as [_ [_ ->]]. now rewrite E1, E2.
  - exfalso. apply find_none with (x := o) in E; [|apply FI]. enough (X : existsb (fun m => (String.eqb (o_key o) (key_of (table ++ dir ++ [fm_name m])) && String.eqb (file_path path (fm_name m)) (file_path path n))%bool) l = true) by congruence.
    apply existsb_exists. exists (new_meta n (o_size o)). split; [apply DL; exists n, o; auto|]. cbn. rewrite String.eqb_refl, Bool.andb_true_r. apply String.eqb_eq. apply FI.
Qed.

Section Writers.
Variable parse_schema : string -> option avro.
Variable code : dtype -> nat.
Variable rank : dtype -> slot -> Z.
Variable parse_rows : string -> outcome record_batch.
Variable dfs : list M_Avro.field.
Variable k p s : nat.
Variable t : string.
Variable hist : string * string -> group.
Variable dels : string * string -> deletions.
Hypothesis W : erased_by objs table format partitioned parse_schema code rank parse_rows dfs k p s t hist dels.
Lemma bases_are : forall g c, has_base objs table format partitioned g c -> forall c', In c' (map fst (g_bases (hist g))) <-> has_base objs table format partitioned g c'.
Proof.
  intros [path id] c HB c'. destruct (W _ _ HB) as [now [contents [_ [_ WO]]]].
  assert (D : forall dir l, part path dir -> directory_listing objs table dir l -> In c' (map fst (g_bases (hist (path, id)))) <-> exists m, base_of format id l m c').
  { intros dir l P DL. destruct (contents_exist path dir l (proj1 P) DL) as [content CT]. exact (wo_bases _ _ _ _ _ _ _ _ _ _ _ _ _ (WO dir l content P DL CT) c'). }
  split.
  - intros I. destruct HB as [dir [n [o [bf [P _]]]]]. cbn in P. destruct (listing_exists dir (proj1 P)) as [l DL]. pose proof (proj1 (D dir l P DL) I) as [m [b [[Im [M [B E]]] [E1 E2]]]].
    apply DL in Im as [n' [o' [FI ->]]]. exists dir, n', o', b. cbn in *. auto 10.
  - intros [dir [n [o [b [P [FI [M [B [E [E1 E2]]]]]]]]]]. cbn in *. destruct (listing_exists dir (proj1 P)) as [l DL]. apply (D dir l P DL). exists (new_meta n (o_size o)), b. split; [|auto]. split; [apply DL; exists n, o; auto|]. auto.
Qed.
Lemma layout_after : forall g c, has_base objs' table format partitioned g c -> exists now contents, dhistory k p s now (hist g) (dels g) /\ clean_at (hist g) t
  /\ forall dir listed content, object_partition objs' table partitioned (fst g) dir -> directory_listing objs' table dir listed ->
       (forall n o, file_in objs' table dir n o -> content (file_path (fst g) n) = Ok (o_data o)) ->
       written_out parse_schema encodes code rank (fun path => let* d := content path in parse_rows d) content format (fst g) (snd g) dfs listed contents (only (stays g) (hist g)).
Proof.
  intros [path id] c HB. apply bases_left in HB as [HB Sc]. destruct (W _ _ HB) as [now [contents [H [C WO]]]]. exists now, contents. split; [exact H|]. split; [exact C|]. set (g := hist (path, id)) in *.
  cbn [fst snd]. intros dir l' content' P DL' CT'. apply partitions_same in P. destruct (listing_exists dir (proj1 P)) as [l DL]. destruct (contents_exist path dir l (proj1 P) DL) as [content CT].
  specialize (WO dir l content P DL CT). cbn [fst snd] in WO.
  assert (CS : forall m, In m l' -> content' (file_path path (fm_name m)) = content (file_path path (fm_name m))).
  { intros m I. apply DL' in I as [n [o [FI ->]]]. cbn [fm_name new_meta]. rewrite (CT' n o FI). symmetry. apply CT. now apply still_in. }
  pose proof (base_of_after path dir l l' P DL DL' id) as BA. pose proof (log_of_after path dir l l' P DL DL' id) as LA.
  pose proof (base_listed_after path dir l l' P DL DL') as BLA. pose proof (log_listed_after path dir l l' P DL DL') as LLA.
  destruct WO as [W1 W2 W3 W4 W5 W6 W7 W8 W9]. constructor.
  - exact W1.
  - intros m bf B. apply BLA in B as [B _]. now apply W2.
  - intros c0. rewrite only_bases, W3. split.
    + intros [[m B] Le]. exists m. apply BA. auto.
    + intros [m B]. apply BA in B as [B Le]. split; [now exists m|exact Le].
  - intros m c0 rows B I. pose proof B as [bf [[IM _] _]]. apply BA in B as [B _]. rewrite (CS m IM). apply (W4 m c0 rows B). cbn in I. now apply filter_In in I.
  - exact W5.
  - intros m1 l1 m2 l2 A1 A2. apply LLA in A1 as [A1 _], A2 as [A2 _]. now apply W6.
  - intros m c0 A. pose proof A as [lf [[IM _] _]]. apply LA in A as [A _]. rewrite (CS m IM). exact (W7 m c0 A).
  - intros c0 x r. cbn [g_blocks only]. split.
    + intros [rows [I J]]. apply filter_In in I as [I E]. cbn in E. destruct (proj1 (W8 c0 x r) (ex_intro _ rows (conj I J))) as [m [w [vs [v [A X]]]]]. exists m, w, vs, v. split; [apply LA; auto|exact X].
    + intros [m [w [vs [v [A X]]]]]. apply LA in A as [A Le]. destruct (proj2 (W8 c0 x r)) as [rows [I J]]; [exists m, w, vs, v; auto|]. exists rows. split; [|exact J]. apply filter_In. split; [exact I|exact Le].
  - intros c0 y x. cbn [g_rollbacks only]. rewrite filter_In. cbn [fst]. rewrite W9. split.
    + intros [[m [w [vs [A X]]]] Le]. exists m, w, vs. split; [apply LA; auto|exact X].
    + intros [m [w [vs [A X]]]]. apply LA in A as [A Le]. split; [exists m, w, vs; auto|exact Le].
Qed.
Section Live.
Variable nu : string -> option Z.
Variable co : list (string * json) -> list (string * json).
Variable L : ndt -> option ndt.
Variable tz : string.
Variable time : Z.
Hypothesis KEEP : forall g c, live objs table format partitioned nu co L tz t time g -> shown_slice objs table format partitioned t g c -> stays g c = true.
Lemma live_same : forall g, live objs' table format partitioned nu co L tz t time g <-> live objs table format partitioned nu co L tz t time g.
Proof.
  intros g. unfold live. rewrite replaced_same. split; intros [[c [B Lc]] R]; (split; [|exact R]).
  - exists c. apply bases_left in B as [B _]. auto.
  - destruct (newest_up_to t (map fst (g_bases (hist g))) c) as [m [M1 [M2 M3]]]; [now apply (bases_are g c B)|exact Lc|]. apply (bases_are g c B) in M1.
    exists m. split; [|exact M2]. apply bases_left. split; [exact M1|]. apply KEEP; [split; [now exists c|exact R]|]. split; [exact M1|]. split; [exact M2|].
    intros c' B' L'. apply M3; [now apply (bases_are g c B)|exact L'].
Qed.
Lemma erased_after : left_by objs' table format partitioned parse_schema code rank parse_rows dfs k p s t hist dels (fun g => only (stays g) (hist g)) (live objs' table format partitioned nu co L tz t time).
Proof.
  intros g c HB. destruct (layout_after g c HB) as [now [contents [H [C WO]]]]. split; [now exists contents|]. apply bases_left in HB as [HB _]. pose proof (bases_are _ _ HB) as BA0.
  intros LV. exists now. split; [exact H|]. split; [exact C|]. apply left_only. intros m M1 M2 M3. apply live_same in LV. apply KEEP; [exact LV|]. split; [now apply BA0|]. split; [exact M2|].
  intros c' B' L'. apply M3; [now apply BA0|exact L'].
Qed.
End Live.
End Writers.
End Cleaned.
