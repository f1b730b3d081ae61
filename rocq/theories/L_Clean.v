(** Lemmas for C96. *)
From Verif Require L_Scan L_Open.
From Verif Require Import Base Str M_Time M_Instant M_Timeline M_FileGroup M_Builder M_Listing M_Log M_Reader M_Avro M_Values M_Objects
  S_Time S_Timeline S_Table S_FileGroup S_Builder S_Listing S_Log S_Reader S_Avro S_Storage S_Objects S_History S_Values S_Datum S_Json S_Whole S_Follow S_Clean
  L_Base L_Str L_History L_Storage L_Objects.
Local Open Scope string_scope.

(** ** The history of a file group whose first slices are removed *)
Section Trim.
Variable k p s : nat.
Definition trimmed (b : string) (g : group) : group :=
  {| g_versions := g_versions g;
     g_bases := filter (fun e => sleb b (fst e)) (g_bases g);
     g_blocks := filter (fun e => sleb b (fst (fst e))) (g_blocks g);
     g_failed := filter (fun x => sltb b x) (g_failed g);
     g_rollbacks := filter (fun e => sleb b (fst (fst e))) (g_rollbacks g) |}.

Lemma filter_none : forall A (f : A -> bool) l, (forall x, In x l -> f x = false) -> filter f l = [].
Proof. intros A f l. induction l as [|x l IH]; intros H; [reflexivity|]. cbn. rewrite (H x (or_introl eq_refl)). apply IH. intros y I. apply H. now right. Qed.
Lemma filter_snoc : forall A (f : A -> bool) l x, filter f (l ++ [x]) = (filter f l ++ if f x then [x] else [])%list.
Proof. intros A f l x. rewrite filter_app. reflexivity. Qed.
Lemma sleb_true : forall a b, sle a b -> sleb a b = true.
Proof. intros a b H. now apply sleb_spec. Qed.
Lemma sleb_slt : forall a b, slt b a -> sleb a b = false.
Proof. intros a b H. apply sleb_false. exact H. Qed.
Lemma trimmed_bases : forall b g c, In c (map fst (g_bases (trimmed b g))) <-> In c (map fst (g_bases g)) /\ sle b c.
Proof.
  intros b g c. cbn. rewrite !in_map_iff. split.
  - intros [e [E I]]. apply filter_In in I as [I H]. apply sleb_spec in H. subst c. split; [now exists e|exact H].
  - intros [[e [E I]] H]. subst c. exists e. split; [reflexivity|]. apply filter_In. split; [exact I|now apply sleb_spec].
Qed.

Lemma rollback_bases : forall now g, history k p s now g -> forall b y x, In (b, y, x) (g_rollbacks g) -> In b (map fst (g_bases g)).
Proof.
  intros now g H. induction H as [|x moved rows T M LR|now g x g' H IH T L W]; intros b y z I; [destruct I|destruct I|].
  destruct W as [new rows LR|b0 new N|rows LR|b0 rows N|y0 b0 rows IY IB]; cbn in *; try (now apply IH in I).
  - apply IH in I. rewrite map_app, in_app_iff. now left.
  - apply IH in I. rewrite map_app, in_app_iff. now left.
  - apply in_app_or in I as [I|[I|[]]]; [now apply IH in I|]. injection I as <- _ _. eapply history_inv in H. now apply (iv_blocks _ _ _ _ _ H) in IB as [_ [_ [IB _]]].
Qed.

Lemma trimmed_history : forall now g, history k p s now g -> forall b, In b (map fst (g_bases g)) -> exists now', sle now' now /\ history k p s now' (trimmed b g).
Proof.
  intros now g H. induction H as [|x moved rows T M LR|now g x g' H IH T L W]; intros b I.
  - destruct I.
  - destruct I as [ <- |[]]. exists x. split; [apply sle_refl|]. unfold trimmed. cbn. rewrite (sleb_true x x (sle_refl x)). now constructor.
  - pose proof (history_inv _ _ _ _ _ H) as V. pose proof (rollback_bases _ _ H) as RB.
    assert (BN : forall c, In c (map fst (g_bases g)) -> sle c now). { intros c J. apply in_map_iff in J as [[c' r'] [ <- J]]. now apply (iv_bases _ _ _ _ _ V) in J. }
    assert (FN : forall y, In y (g_failed g) -> sle y now) by (intros y J; now apply (iv_failed _ _ _ _ _ V)).
    (* the base file just written *)
    assert (FRESH : forall vs rows, (forall y r, In (y, r) vs -> sle y x) -> latest_rows k p s (map snd vs) rows ->
      history k p s x (trimmed x {| g_versions := vs; g_bases := (g_bases g ++ [(x, rows)])%list; g_blocks := g_blocks g; g_failed := g_failed g; g_rollbacks := g_rollbacks g |})).
    { intros vs rows VL LR. unfold trimmed. cbn. rewrite filter_app. cbn. rewrite (sleb_true x x (sle_refl x)).
      rewrite (filter_none _ _ (g_bases g)), (filter_none _ _ (g_blocks g)), (filter_none _ _ (g_failed g)), (filter_none _ _ (g_rollbacks g)); [now constructor| | | |].
      - intros [[c y] z] J. apply sleb_slt. eapply sle_slt_trans; [apply BN; eapply RB; exact J|exact L].
      - intros y J. destruct (sltb x y) eqn:E; [|reflexivity]. apply sltb_spec in E. exfalso. apply slt_not_sle in L. apply L. eapply sle_trans; [apply slt_sle; exact E|now apply FN].
      - intros [[c y] z] J. apply sleb_slt. eapply sle_slt_trans; [apply BN; eapply (iv_blocks _ _ _ _ _ V); exact J|exact L].
      - intros [c y] J. apply sleb_slt. eapply sle_slt_trans; [apply BN; apply in_map_iff; exists (c, y); split; [reflexivity|exact J]|exact L]. }
    assert (VX : forall y r, In (y, r) (g_versions g) -> sle y x) by (intros y r J; eapply sle_trans; [eapply (iv_versions _ _ _ _ _ V); exact J|now apply slt_sle]).
    (* a later write *)
    assert (LATER : forall g', In b (map fst (g_bases g)) -> (write k p s (trimmed b g) x (trimmed b g') \/ trimmed b g' = trimmed b g) -> exists now', sle now' x /\ history k p s now' (trimmed b g')).
    { intros g1 J [W1|W1]; destruct (IH b J) as [now' [L' H']].
      - exists x. split; [apply sle_refl|]. eapply h_write; [exact H'|exact T|eapply sle_slt_trans; eassumption|exact W1].
      - rewrite W1. exists now'. split; [eapply sle_trans; [exact L'|now apply slt_sle]|exact H']. }
    assert (BX : In b (map fst (g_bases g)) -> slt b x) by (intros J; eapply sle_slt_trans; [now apply BN|exact L]).
    assert (NEW : forall b0, In b (map fst (g_bases g)) -> has_newest g b0 -> has_newest (trimmed b g) b0 /\ sle b b0).
    { intros b0 J [N1 N2]. split; [split|now apply N2]; [apply trimmed_bases; split; [exact N1|now apply N2]|]. intros c K. apply trimmed_bases in K as [K _]. now apply N2. }
    destruct W as [new rows LR|b0 new N|rows LR|b0 rows N|y0 b0 rows IY IB].
    + cbn in I. rewrite map_app, in_app_iff in I. destruct I as [I|[ <- |[]]].
      * apply LATER; [exact I|left]. specialize (BX I). pose proof (w_commit k p s (trimmed b g) x new rows LR) as W. unfold trimmed in *. cbn in *. rewrite filter_snoc. cbn. now rewrite (sleb_true b x (slt_sle _ _ BX)).
      * exists x. split; [apply sle_refl|]. apply FRESH; [|rewrite map_app, map_map; cbn; now rewrite map_id].
        intros y r J. apply in_app_or in J as [J|J]; [now apply VX in J|]. apply in_pairs in J as [-> _]. apply sle_refl.
    + cbn in I. apply LATER; [exact I|left]. destruct (NEW b0 I N) as [N' LB]. pose proof (w_delta k p s (trimmed b g) x b0 new N') as W. unfold trimmed in *. cbn in *. rewrite filter_snoc. cbn. now rewrite (sleb_true b b0 LB).
    + cbn in I. rewrite map_app, in_app_iff in I. destruct I as [I|[ <- |[]]].
      * apply LATER; [exact I|left]. specialize (BX I). pose proof (w_compact k p s (trimmed b g) x rows LR) as W. unfold trimmed in *. cbn in *. rewrite filter_snoc. cbn. now rewrite (sleb_true b x (slt_sle _ _ BX)).
      * exists x. split; [apply sle_refl|]. now apply FRESH.
    + cbn in I. apply LATER; [exact I|left]. destruct (NEW b0 I N) as [N' LB]. specialize (BX I). pose proof (w_fail k p s (trimmed b g) x b0 rows N') as W. unfold trimmed in *. cbn in *. rewrite !filter_snoc. cbn. rewrite (sleb_true b b0 LB).
      now rewrite (proj2 (sltb_spec b x) BX).
    + cbn in I. apply LATER; [exact I|]. destruct (sleb b b0) eqn:E.
      * left. assert (IY' : In y0 (g_failed (trimmed b g))).
        { cbn. apply filter_In. split; [exact IY|]. apply sltb_spec. apply sleb_spec in E. eapply sle_slt_trans; [exact E|]. now apply (iv_blocks _ _ _ _ _ V) in IB as [_ [_ [_ [IB _]]]]. }
        assert (IB' : In (b0, y0, rows) (g_blocks (trimmed b g))) by (cbn; apply filter_In; now split).
        pose proof (w_rollback k p s (trimmed b g) x y0 b0 rows IY' IB') as W. unfold trimmed in *. cbn in *. rewrite filter_snoc. cbn. now rewrite E.
      * right. unfold trimmed. cbn. rewrite filter_snoc. cbn. now rewrite E, app_nil_r.
Qed.
Lemma trimmed_clean : forall b g t, clean_at g t -> clean_at (trimmed b g) t.
Proof.
  intros b g t C b0 x rows I F Lx. cbn in I, F. apply filter_In in I as [I E]. apply filter_In in F as [F _]. destruct (C b0 x rows I F Lx) as [y [J Ly]].
  exists y. split; [|exact Ly]. cbn. apply filter_In. now split.
Qed.
End Trim.

(** ** Names of files of slices *)
Lemma base_parts : forall n m m' b, base_file_of n m = Ok b -> exists b', base_file_of n m' = Ok b' /\ bf_file_id b' = bf_file_id b /\ bf_commit b' = bf_commit b.
Proof. intros n m m' b E. unfold base_file_of in *. destruct (parse_base_name n) as [[[[i t] c] e]| |]; [|discriminate|discriminate]. cbn [bind] in *. injection E as <-. eexists. split; [reflexivity|]. auto. Qed.
Lemma log_parts : forall n m m' l, log_file_of n m = Ok l -> exists l', log_file_of n m' = Ok l' /\ lf_file_id l' = lf_file_id l /\ lf_base_commit l' = lf_base_commit l.
Proof. intros n m m' l E. unfold log_file_of in *. destruct (parse_log_name n) as [[[[[i c] e] v] t]| |]; [|discriminate|discriminate]. cbn [bind] in *. injection E as <-. eexists. split; [reflexivity|]. auto. Qed.
Lemma slice_file_one : forall format n id c id' c', slice_file format n id c -> slice_file format n id' c' -> id = id' /\ c = c'.
Proof.
  intros format n id c id' c' [m [<- H]] [m' [E H']].
  destruct H as [[b [[_ [_ [B P]]] [<- <-]]]|[l [[_ [_ [B P]]] [<- <-]]]], H' as [[b' [[_ [_ [B' P']]] [<- <-]]]|[l' [[_ [_ [B' P']]] [<- <-]]]]; rewrite E in *; try (now destruct (B B')); try (now destruct (B' B)).
  - destruct (base_parts _ _ (Some m') _ P) as [b1 [P1 [X Y]]]. rewrite P1 in P'. injection P' as <-. auto.
  - destruct (log_parts _ _ (Some m') _ P) as [l1 [P1 [X Y]]]. rewrite P1 in P'. injection P' as <-. auto.
Qed.
Lemma base_slice_file : forall format l m b, base_listed format l m b -> slice_file format (fm_name m) (bf_file_id b) (bf_commit b).
Proof. intros format l m b [_ H]. exists m. split; [reflexivity|]. left. exists b. split; [split; [now left|exact H]|]. auto. Qed.
Lemma log_slice_file : forall format l m f, log_listed format l m f -> slice_file format (fm_name m) (lf_file_id f) (lf_base_commit f).
Proof. intros format l m b [_ H]. exists m. split; [reflexivity|]. right. exists b. split; [split; [now left|exact H]|]. auto. Qed.

(** ** What cleaning leaves *)
Section Cleaned.
Variable objs objs' : list object.
Variable base : M_Storage.url.
Variable table : list string.
Variable format : string.
Variable partitioned : bool.
Variable keep : string * string -> string.
Variable gone : string * string -> Prop.
Hypothesis LO : located base table.
Hypothesis PO : proper_objects objs.
Hypothesis CL : cleaned objs objs' table format partitioned keep gone.

Notation TL := (proj1 (proj2 LO)).
Notation part := (object_partition objs table partitioned).
Notation part' := (object_partition objs' table partitioned).

Lemma still : forall o, In o objs' -> In o objs.
Proof. intros o I. now apply (cl_removed _ _ _ _ _ _ _ CL) in I. Qed.
Lemma still_in : forall dir n o, file_in objs' table dir n o -> file_in objs table dir n o.
Proof. intros dir n o [I H]. split; [now apply still|exact H]. Qed.
Lemma nodup_keys : forall l, NoDup l -> (forall o, In o l -> In o objs) -> NoDup (map o_key l).
Proof.
  assert (U : forall l (a b : object), NoDup (map o_key l) -> In a l -> In b l -> o_key a = o_key b -> a = b).
  { intros l a b. induction l as [|x l IH]; [intros _ []|]. cbn. intros N I J E. apply NoDup_cons_iff in N as [N1 N2]. destruct I as [ -> |I], J as [ -> |J].
    - reflexivity.
    - exfalso. apply N1. rewrite E. now apply in_map.
    - exfalso. apply N1. rewrite <- E. now apply in_map.
    - now apply IH. }
  intros l N IN. induction N as [|x l NI N IH]; [constructor|]. cbn. constructor; [|apply IH; intros o I; apply IN; now right].
  intros I. apply in_map_iff in I as [y [E I]]. apply NI. assert (x = y); [|now subst]. apply (U objs x y (proj2 PO)); [apply IN; now left|apply IN; now right|now symmetry].
Qed.
Lemma one_object : forall a b, In a objs -> In b objs -> o_key a = o_key b -> a = b.
Proof.
  intros a b. destruct PO as [_ N]. clear -N. induction objs as [|x l IH]; [intros []|]. cbn in N. apply NoDup_cons_iff in N as [N1 N2]. intros I J E. destruct I as [ -> |I], J as [ -> |J].
  - reflexivity.
  - exfalso. apply N1. rewrite E. now apply in_map.
  - exfalso. apply N1. rewrite <- E. now apply in_map.
  - now apply IH.
Qed.
Lemma still_proper : proper_objects objs'.
Proof.
  destruct PO as [PK N]. split; [|apply nodup_keys; [exact (cl_set _ _ _ _ _ _ _ CL)|exact still]].
  unfold proper_keys in *. rewrite Forall_forall in *. intros x I. apply PK. apply in_map_iff in I as [o [<- I]]. apply in_map. now apply still.
Qed.
Lemma place : forall dir n dir' n' o, Forall legal dir -> Forall legal dir' -> file_in objs table dir n o -> file_in objs table dir' n' o -> dir = dir' /\ n = n'.
Proof.
  intros dir n dir' n' o D D' [_ [N E]] [_ [N' E']]. rewrite E in E'. apply key_of_inj in E'; [|apply Forall_app; split; [exact TL|apply Forall_app; auto]..].
  apply app_inv_head in E'. now apply app_inj_tail in E'.
Qed.
Lemma directories_same : forall path, data_directory objs' table path <-> data_directory objs table path.
Proof.
  intros path. split; (intros [top [rest [E2 [F2 [N1 [N2 [N3 [[n [o FI]] B]]]]]]]]; exists top, rest; do 5 (split; [assumption|])).
  - split; [exists n, o; now apply still_in|]. intros below o' FB I K. destruct (le_lt_dec (List.length below) 1) as [X|X]; [exact X|]. exfalso.
    destruct (exists_last (l := below)) as [ini [n' ->]]; [destruct below; [cbn in X; lia|discriminate]|]. apply Forall_app in FB as [FB1 FB2]. apply Forall_inv in FB2.
    destruct (cl_directories _ _ _ _ _ _ _ CL ((top :: rest) ++ ini)%list n' o') as [n2 [o2 [I2 [L2 K2]]]]; [apply Forall_app; auto|split; [exact I|]; split; [exact FB2|]; rewrite K; cbn [app]; now rewrite <- ?app_assoc|].
    assert (Y := B (ini ++ [n2])%list o2). rewrite !app_length in *. cbn in X, Y. assert (List.length ini + 1 <= 1)%nat; [|lia]. apply Y; [apply Forall_app; auto|exact I2|]. rewrite K2. cbn [app]. now rewrite <- ?app_assoc.
  - split; [exact (cl_directories _ _ _ _ _ _ _ CL _ _ _ F2 FI)|]. intros below o' FB I K. apply (B below o' FB); [now apply still|exact K].
Qed.
Lemma partitions_same : forall path dir, part' path dir <-> part path dir.
Proof. intros path dir. pose proof (directories_same path) as X. unfold object_partition. destruct partitioned; tauto. Qed.
Lemma slice_one : forall g c g' c' o, slice_object objs table format partitioned g c o -> slice_object objs table format partitioned g' c' o -> g = g' /\ c = c'.
Proof.
  intros [q id] c [q' id'] c' o [dir [n [[F [E _]] [FI S]]]] [dir' [n' [[F' [E' _]] [FI' S']]]]. cbn in *. destruct (place _ _ _ _ _ F F' FI FI') as [ <- <- ]. destruct (slice_file_one _ _ _ _ _ _ S S') as [ <- <- ].
  subst. auto.
Qed.
(** A file of a partition stays iff its slice does. *)
Lemma slice_stays : forall g c o, slice_object objs table format partitioned g c o -> In o objs' <-> ~ gone g /\ sle (keep g) c.
Proof.
  intros g c o S. rewrite (cl_removed _ _ _ _ _ _ _ CL). split; [intros [_ H]; now apply H|]. intros K. split; [destruct S as [dir [n [_ [[I _] _]]]]; exact I|].
  intros g' c' S'. destruct (slice_one _ _ _ _ _ S S') as [ <- <- ]. exact K.
Qed.
Lemma base_slice_object : forall path dir n o b, part path dir -> file_in objs table dir n o -> ~ marker_name n -> base_named format n -> base_file_of n (Some (new_meta n (o_size o))) = Ok b ->
  slice_object objs table format partitioned (path, bf_file_id b) (bf_commit b) o.
Proof.
  intros path dir n o b P FI M B E. exists dir, n. split; [exact P|]. split; [exact FI|]. exact (base_slice_file format [new_meta n (o_size o)] (new_meta n (o_size o)) b (conj (or_introl eq_refl) (conj M (conj B E)))).
Qed.
Lemma bases_left : forall g c, has_base objs' table format partitioned g c <-> has_base objs table format partitioned g c /\ ~ gone g /\ sle (keep g) c.
Proof.
  intros [q id] c. split.
  - intros [dir [n [o [b [P [FI [M [B [E [E1 E2]]]]]]]]]]. apply partitions_same in P. pose proof (still_in _ _ _ FI) as FJ. cbn in *. split; [exists dir, n, o, b; auto 10|].
    pose proof (base_slice_object _ _ _ _ _ P FJ M B E) as S. rewrite E1, E2 in S. apply (slice_stays _ _ _ S). apply FI.
  - intros [[dir [n [o [b [P [FI [M [B [E [E1 E2]]]]]]]]]] K]. cbn in *. pose proof (base_slice_object _ _ _ _ _ P FI M B E) as S. rewrite E1, E2 in S. apply (slice_stays _ _ _ S) in K.
    exists dir, n, o, b. split; [now apply partitions_same|]. split; [split; [exact K|apply FI]|]. auto 10.
Qed.
(** The timeline is untouched. *)
Lemma timeline_stays : forall n o, file_in objs table [".hoodie"] n o <-> file_in objs' table [".hoodie"] n o.
Proof.
  intros n o. split; [|apply still_in]. intros FI. split; [|apply FI]. apply (cl_removed _ _ _ _ _ _ _ CL). split; [apply FI|]. intros g c [dir [n' [[F [E P]] [FJ _]]]]. exfalso.
  assert (HL : Forall legal [".hoodie"]) by (constructor; [exact L_Open.metadata_legal|constructor]).
  destruct (place _ _ _ _ _ F HL FJ FI) as [ -> _ ]. destruct partitioned; [|discriminate P]. destruct P as [top [rest [E' [F' [N _]]]]].
  assert (X : [".hoodie"] = top :: rest); [|injection X as X _; congruence].
  apply L_Scan.join_inj; [eapply Forall_impl; [|exact HL]; intros z [X [Y _]]; auto|eapply Forall_impl; [|exact F']; intros z [X [Y _]]; auto|congruence].
Qed.
Lemma replaced_same : forall nu co L tz time g, replaced_in objs' table nu co L tz time g <-> replaced_in objs table nu co L tz time g.
Proof. intros nu co L tz time g. unfold replaced_in. split; intros [ts [o [dt [m [A B]]]]]; exists ts, o, dt, m; (split; [now apply timeline_stays|exact B]). Qed.
Lemma replacements_same : forall nu co L tz time, replacements_in_order objs' table nu co L tz time <-> replacements_in_order objs table nu co L tz time.
Proof.
  intros nu co L tz time. unfold replacements_in_order. split; intros [A B]; (split; [intros ts o F; apply (A ts o); now apply timeline_stays|]); intros ts o dt F; apply (B ts o dt); now apply timeline_stays.
Qed.
Lemma live_same : forall nu co L tz t time, (forall g c, has_base objs table format partitioned g c -> sle c t -> ~ gone g -> sle (keep g) t) ->
  (forall g, gone g -> replaced_in objs table nu co L tz time g) -> forall g, live objs' table format partitioned nu co L tz t time g <-> live objs table format partitioned nu co L tz t time g.
Proof.
  intros nu co L tz t time K G g. unfold live. rewrite replaced_same. split; intros [[c [B Lc]] R]; (split; [|exact R]).
  - exists c. apply bases_left in B as [B _]. auto.
  - assert (NG : ~ gone g) by (intros X; apply R; now apply G). exists (keep g). split; [|now apply (K g c)]. apply bases_left. split; [now apply (cl_left _ _ _ _ _ _ _ CL g c)|]. split; [exact NG|apply sle_refl].
Qed.

(** Listings of a directory before and after. *)
Section Dir.
Variable path : string.
Variable dir : list string.
Variable l l' : list file_meta.
Hypothesis OP : part path dir.
Hypothesis DL : directory_listing objs table dir l.
Hypothesis DL' : directory_listing objs' table dir l'.
Lemma meta_still : forall m, In m l' -> In m l.
Proof. intros m I. apply DL' in I as [n [o [F ->]]]. apply DL. exists n, o. split; [now apply still_in|reflexivity]. Qed.
Lemma slice_meta : forall m id c, In m l -> slice_file format (fm_name m) id c -> In m l' <-> ~ gone (path, id) /\ sle (keep (path, id)) c.
Proof.
  intros m id c I S. pose proof I as J. apply DL in J as [n [o [FI ->]]]. cbn in S.
  assert (SO : slice_object objs table format partitioned (path, id) c o) by (exists dir, n; auto).
  rewrite <- (slice_stays _ _ _ SO). split.
  - intros J. apply DL' in J as [n' [o' [FJ E]]]. assert (n' = n) by (unfold new_meta in E; now injection E). subst n'. enough (o' = o) by (subst; apply FJ). pose proof (still_in _ _ _ FJ) as FK. apply one_object; [apply FK|apply FI|]. destruct FI as [_ [_ ->]], FK as [_ [_ ->]]. reflexivity.
  - intros J. apply DL'. exists n, o. split; [split; [exact J|apply FI]|reflexivity].
Qed.
Lemma base_listed_after : forall m b, base_listed format l' m b <-> base_listed format l m b /\ ~ gone (path, bf_file_id b) /\ sle (keep (path, bf_file_id b)) (bf_commit b).
Proof.
  intros m b. split.
  - intros B. pose proof B as [I H]. apply meta_still in I as J. split; [split; assumption|]. apply (slice_meta m _ _ J (base_slice_file _ _ _ _ B)). exact I.
  - intros [B K]. pose proof B as [I H]. split; [|exact H]. now apply (slice_meta m _ _ I (base_slice_file _ _ _ _ B)).
Qed.
Lemma log_listed_after : forall m f, log_listed format l' m f <-> log_listed format l m f /\ ~ gone (path, lf_file_id f) /\ sle (keep (path, lf_file_id f)) (lf_base_commit f).
Proof.
  intros m b. split.
  - intros B. pose proof B as [I H]. apply meta_still in I as J. split; [split; assumption|]. apply (slice_meta m _ _ J (log_slice_file _ _ _ _ B)). exact I.
  - intros [B K]. pose proof B as [I H]. split; [|exact H]. now apply (slice_meta m _ _ I (log_slice_file _ _ _ _ B)).
Qed.
Lemma base_of_after : forall id m c, base_of format id l' m c <-> base_of format id l m c /\ ~ gone (path, id) /\ sle (keep (path, id)) c.
Proof.
  intros id m c. unfold base_of. split.
  - intros [b [B [<- <-]]]. apply base_listed_after in B as [B K]. split; [exists b; auto|exact K].
  - intros [[b [B [<- <-]]] K]. exists b. split; [now apply base_listed_after|auto].
Qed.
Lemma log_of_after : forall id m c, log_of format id l' m c <-> log_of format id l m c /\ ~ gone (path, id) /\ sle (keep (path, id)) c.
Proof.
  intros id m c. unfold log_of. split.
  - intros [b [B [<- <-]]]. apply log_listed_after in B as [B K]. split; [exists b; auto|exact K].
  - intros [[b [B [<- <-]]] K]. exists b. split; [now apply log_listed_after|auto].
Qed.
Lemma listing_after : listing_ok format l -> listing_ok format l'.
Proof.
  intros [A [B C]]. split; [|split].
  - intros m I. now apply A, meta_still.
  - intros m1 m2 b1 b2 B1 B2. apply base_listed_after in B1 as [B1 _], B2 as [B2 _]. now apply B.
  - intros m f m1 b1 F B1 E. apply log_listed_after in F as [F K]. apply base_listed_after in B1 as [B1 _]. destruct (C m f m1 b1 F B1 E) as [m2 [b2 [B2 [E1 E2]]]].
    exists m2, b2. split; [apply base_listed_after; rewrite E1, E2; auto|auto].
Qed.
End Dir.
Lemma listing_exists : forall dir, Forall legal dir -> exists l, directory_listing objs table dir l.
Proof. intros dir F. destruct (files_spec objs base table PO LO dir F) as [l [_ [N H]]]. exists l. split; assumption. Qed.
Lemma files_after : forall footer, files_in_order objs table format partitioned footer -> files_in_order objs' table format partitioned footer.
Proof.
  intros footer F path dir P. apply partitions_same in P. destruct (F path dir P) as [A B]. split; [|intros n o FI; apply (B n o); now apply still_in].
  intros l' DL'. destruct (listing_exists dir (proj1 P)) as [l DL]. exact (listing_after path dir l l' P DL DL' (A l DL)).
Qed.

(** The contents of the files of a directory. *)
Lemma contents_exist : forall path dir l, Forall legal dir -> directory_listing objs table dir l -> exists content : string -> outcome string,
  forall n o, file_in objs table dir n o -> content (file_path path n) = Ok (o_data o).
Proof.
  intros path dir l F DL. exists (fun q => match find (fun o => existsb (fun m => (String.eqb (o_key o) (key_of (table ++ dir ++ [fm_name m])) && String.eqb (file_path path (fm_name m)) q)%bool) l) objs with Some o => Ok (o_data o) | None => Err EStorage end).
  intros n o FI. assert (PI : forall a b, file_path path a = file_path path b -> a = b).
  { intros a b E. unfold file_path in E. destruct (String.eqb path ""); [exact E|]. apply app_inj_l in E. now injection E. }
  destruct (find _ objs) as [o'|] eqn:E.
  - apply find_some in E as [I E]. apply existsb_exists in E as [m [J E]]. apply Bool.andb_true_iff in E as [E1 E2]. apply String.eqb_eq in E1, E2. apply PI in E2. f_equal. f_equal.
    apply one_object; [exact I|apply FI|]. destruct FI as [_ [_ ->]]. now rewrite E1, E2.
  - exfalso. apply find_none with (x := o) in E; [|apply FI]. enough (X : existsb (fun m => (String.eqb (o_key o) (key_of (table ++ dir ++ [fm_name m])) && String.eqb (file_path path (fm_name m)) (file_path path n))%bool) l = true) by congruence.
    apply existsb_exists. exists (new_meta n (o_size o)). split; [apply DL; exists n, o; auto|]. cbn. rewrite String.eqb_refl, Bool.andb_true_r. apply String.eqb_eq. apply FI.
Qed.

Section Writers.
Variable parse_schema : string -> option avro.
Variable code : dtype -> nat.
Variable rank : dtype -> slot -> Z.
Variable parse_rows : string -> outcome record_batch.
Variable dfs : list M_Avro.field.
Variable k p s : nat.
Lemma written_after : forall t hist, written_by objs table format partitioned parse_schema code rank parse_rows dfs k p s t hist ->
  written_by objs' table format partitioned parse_schema code rank parse_rows dfs k p s t (fun g => trimmed (keep g) (hist g)).
Proof.
  intros t hist W [path id] c HB. apply bases_left in HB as [HB [NG Lc]]. destruct (W _ _ HB) as [now [contents [H [C WO]]]].
  pose proof (cl_left _ _ _ _ _ _ _ CL _ _ HB NG) as KB. set (b := keep (path, id)) in *. set (g := hist (path, id)) in *.
  assert (IB : In b (map fst (g_bases g))).
  { pose proof KB as [dir [n [o [bf [P [FI [M [B [E [E1 E2]]]]]]]]]]. cbn in P, E1. destruct (listing_exists dir (proj1 P)) as [l DL]. destruct (contents_exist path dir l (proj1 P) DL) as [content CT].
    specialize (WO dir l content P DL CT). apply (wo_bases _ _ _ _ _ _ _ _ _ _ _ _ _ WO). exists (new_meta n (o_size o)). exists bf. split; [|auto]. split; [apply DL; exists n, o; auto|]. auto. }
  destruct (trimmed_history k p s now g H b IB) as [now' [_ H']]. exists now', contents. split; [exact H'|]. split; [now apply trimmed_clean|].
  cbn [fst snd]. intros dir l' content' P DL' CT'. apply partitions_same in P. destruct (listing_exists dir (proj1 P)) as [l DL]. destruct (contents_exist path dir l (proj1 P) DL) as [content CT].
  specialize (WO dir l content P DL CT). cbn [fst snd] in WO.
  assert (CS : forall m, In m l' -> content' (file_path path (fm_name m)) = content (file_path path (fm_name m))).
  { intros m I. apply DL' in I as [n [o [FI ->]]]. cbn [fm_name new_meta]. rewrite (CT' n o FI). symmetry. apply CT. now apply still_in. }
  pose proof (base_of_after path dir l l' P DL DL' id) as BA. pose proof (log_of_after path dir l l' P DL DL' id) as LA.
  pose proof (base_listed_after path dir l l' P DL DL') as BLA. pose proof (log_listed_after path dir l l' P DL DL') as LLA.
  destruct WO as [W1 W2 W3 W4 W5 W6 W7 W8 W9]. constructor.
  - exact W1.
  - intros m bf B. apply BLA in B as [B _]. now apply W2.
  - intros c0. rewrite trimmed_bases, W3. split.
    + intros [[m B] Le]. exists m. apply BA. auto.
    + intros [m B]. apply BA in B as [B [_ Le]]. split; [now exists m|exact Le].
  - intros m c0 rows B I. pose proof B as [bf [[IM _] _]]. apply BA in B as [B _]. rewrite (CS m IM). apply (W4 m c0 rows B). cbn in I. now apply filter_In in I.
  - exact W5.
  - intros m1 l1 m2 l2 A1 A2. apply LLA in A1 as [A1 _], A2 as [A2 _]. now apply W6.
  - intros m c0 A. pose proof A as [lf [[IM _] _]]. apply LA in A as [A _]. rewrite (CS m IM). exact (W7 m c0 A).
  - intros c0 x r. cbn [g_blocks trimmed]. split.
    + intros [rows [I J]]. apply filter_In in I as [I E]. cbn in E. apply sleb_spec in E. destruct (proj1 (W8 c0 x r) (ex_intro _ rows (conj I J))) as [m [w [vs [v [A X]]]]]. exists m, w, vs, v. split; [apply LA; auto|exact X].
    + intros [m [w [vs [v [A X]]]]]. apply LA in A as [A [_ Le]]. destruct (proj2 (W8 c0 x r)) as [rows [I J]]; [exists m, w, vs, v; auto|]. exists rows. split; [|exact J]. apply filter_In. split; [exact I|]. cbn. now apply sleb_spec.
  - intros c0 y x. cbn [g_rollbacks trimmed]. rewrite filter_In. cbn. rewrite sleb_spec, W9. split.
    + intros [[m [w [vs [A X]]]] Le]. exists m, w, vs. split; [apply LA; auto|exact X].
    + intros [m [w [vs [A X]]]]. apply LA in A as [A [_ Le]]. split; [exists m, w, vs; auto|exact Le].
Qed.
End Writers.
End Cleaned.
