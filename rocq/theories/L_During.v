From Coq Require Import Sorted.
From Verif Require Import Base Str L_Base L_Str M_Utf8 M_Time M_Instant M_Timeline M_FileGroup M_Builder M_Listing M_Expr M_Log M_Config M_Reader M_Table M_Storage M_Session M_Objects M_During
  S_Time S_Timeline S_FileGroup S_Builder S_Listing S_Expr S_Config S_Table S_Storage S_Session S_Objects S_During
  L_FileGroup L_Timeline L_Tree L_Table L_Storage L_Session L_Objects L_Open.
Local Open Scope string_scope.

Section Mixed.
Variable moments : list (list object).
Variable base : url.
Variable names : list string.
Variable dirs : string -> outcome (list string).
Hypothesis PO : forall objs, In objs moments -> proper_objects objs.
Hypothesis L : located base names.
Hypothesis MD : forall p, exists objs, In objs moments /\ dirs p = list_dirs objs base p.

Definition dirs_at (p : list string) : list string := match dirs (join "/" p) with Ok l => l | _ => [] end.
Lemma dirs_at_spec : forall p, Forall legal p -> exists objs, In objs moments /\ dirs (join "/" p) = Ok (dirs_at p) /\ NoDup (dirs_at p)
  /\ forall n, In n (dirs_at p) <-> legal n /\ exists rest, rest <> [] /\ Forall legal rest /\ In (key_of (names ++ p ++ n :: rest)) (map o_key objs).
Proof.
  intros p F. destruct (MD (join "/" p)) as [objs [I E]]. exists objs. split; [exact I|]. destruct (dirs_spec objs base names (PO _ I) L p F) as [A [B C]].
  unfold dirs_at. rewrite E, A. auto.
Qed.
Fixpoint mixed_at (fuel : nat) (p : list string) : tree :=
  Dir [] (match fuel with O => [] | S f => map (fun n => (n, mixed_at f (p ++ [n]))) (dirs_at p) end).
Definition deepest : nat := list_max (map depth_bound moments).
Lemma deep : forall objs l, In objs moments -> In (key_of (names ++ l)) (map o_key objs) -> (List.length l <= deepest)%nat.
Proof.
  intros objs l I K. pose proof (bound objs names l K) as B. pose proof (proj1 (list_max_le (map depth_bound moments) _) (le_n _)) as M. rewrite Forall_forall in M.
  pose proof (M _ (in_map depth_bound _ _ I)). unfold deepest. lia.
Qed.
Lemma mixed_subs : forall fuel p, subs_of (mixed_at fuel p) = match fuel with O => [] | S f => map (fun n => (n, mixed_at f (p ++ [n]))) (dirs_at p) end.
Proof. now intros [|f] p. Qed.
Lemma mixed_reached : forall t q u, reaches t q u -> forall fuel p, t = mixed_at fuel p -> Forall legal p ->
  Forall legal q /\ exists f, (f + List.length q = fuel)%nat /\ u = mixed_at f (p ++ q).
Proof.
  intros t q u R. induction R as [t|t n s q u I R IH]; intros fuel p E F.
  - split; [constructor|]. exists fuel. rewrite app_nil_r. cbn. split; [lia|exact E].
  - subst t. rewrite mixed_subs in I. destruct fuel as [|f]; [destruct I|]. apply in_map_iff in I as [n' [X I]]. injection X as -> <-.
    destruct (dirs_at_spec p F) as [objs [_ [_ [_ D]]]]. apply D in I as [Ln _].
    destruct (IH f (p ++ [n])%list eq_refl) as [Lq [f' [Ef Eu]]]; [apply Forall_app; auto|]. split; [now constructor|].
    exists f'. cbn [List.length]. split; [lia|]. now rewrite <- app_assoc in Eu.
Qed.
Lemma mixed_wf : forall fuel p, Forall legal p -> wf_tree (mixed_at fuel p).
Proof.
  induction fuel as [|f IH]; intros p F; cbn [mixed_at]; constructor; try (intros n s []); [constructor| | |]; destruct (dirs_at_spec p F) as [objs [_ [_ [N D]]]].
  - rewrite map_map. cbn [fst]. now rewrite map_id.
  - intros n s I. apply in_map_iff in I as [n' [X I]]. injection X as -> _. apply D in I as [Ln _]. split; apply Ln.
  - intros n s I. apply in_map_iff in I as [n' [X I]]. injection X as -> <-. apply IH. apply D in I as [Ln _]. apply Forall_app. auto.
Qed.
Definition mixed : tree := mixed_at deepest [].
Lemma mixed_leaf : forall f p, Forall legal p -> (f + List.length p = deepest)%nat -> subs_of (mixed_at f p) = [] <-> dirs_at p = [].
Proof.
  intros f p F B. rewrite mixed_subs. destruct f as [|f].
  - split; [intros _|auto]. destruct (dirs_at p) as [|n l] eqn:E; [reflexivity|exfalso]. destruct (dirs_at_spec p F) as [objs [I [_ [_ D]]]].
    assert (X : In n (dirs_at p)) by (rewrite E; now left). apply D in X as [_ [rest [NR [_ K]]]].
    pose proof (deep _ _ I K) as Y. rewrite app_length in Y. cbn [List.length] in Y. lia.
  - split; [destruct (dirs_at p); [auto|discriminate]|now intros ->].
Qed.
Lemma mixed_served : serves_dirs mixed dirs.
Proof.
  intros p t R. destruct (mixed_reached _ _ _ R deepest [] eq_refl (Forall_nil _)) as [F [f [B ->]]]. cbn [app].
  destruct (dirs_at_spec p F) as [objs [_ [E _]]]. rewrite E. f_equal. destruct f as [|f].
  - rewrite mixed_subs. cbn [map]. apply (mixed_leaf 0 p F B). now rewrite mixed_subs.
  - rewrite mixed_subs, map_map. cbn [fst]. now rewrite map_id.
Qed.

(** everything of the first moment is there at every moment *)
Variable start : list object.
Hypothesis In_start : forall objs, In objs moments -> incl start objs.
Lemma start_key : forall objs k, In objs moments -> In k (map o_key start) -> In k (map o_key objs).
Proof. intros objs k I K. apply in_map_iff in K as [o [<- X]]. apply in_map. now apply In_start. Qed.
Lemma mixed_reach : forall q p fuel rest, rest <> [] -> Forall legal (p ++ q ++ rest) -> In (key_of (names ++ p ++ q ++ rest)) (map o_key start) -> (List.length q <= fuel)%nat ->
  exists u, reaches (mixed_at fuel p) q u.
Proof.
  induction q as [|n q IH]; intros p fuel rest NR F K B; [exists (mixed_at fuel p); constructor|].
  destruct fuel as [|f]; [cbn in B; lia|]. cbn [app] in *. assert (Lp : Forall legal p) by (apply Forall_app in F; tauto).
  assert (Lr : Forall legal (n :: q ++ rest)) by (apply Forall_app in F; tauto). inversion Lr as [|? ? Ln Lq]; subst.
  destruct (IH (p ++ [n])%list f rest NR) as [u R].
  - now rewrite <- app_assoc.
  - now rewrite <- app_assoc.
  - cbn in B. lia.
  - exists u. eapply re_down; [|exact R]. rewrite mixed_subs. apply in_map_iff. exists n. split; [reflexivity|].
    destruct (dirs_at_spec p Lp) as [objs [I [_ [_ D]]]]. apply D. split; [exact Ln|]. exists (q ++ rest)%list. split; [destruct q; [exact NR|discriminate]|]. split; [exact Lq|].
    now apply (start_key objs).
Qed.
(** the partitions of the first moment are found, unless directories are made in them *)
Lemma start_partition : (exists objs, In objs moments) -> forall path, data_directory start names path ->
  (forall objs dir name o d, In objs moments -> Forall legal dir -> file_in objs names dir name o -> ~ In o start -> Forall legal d -> path = join "/" d -> forall below, dir = (d ++ below)%list -> below = []) ->
  partition_dir mixed path.
Proof.
  intros [objs0 I0] path [top [p [-> [F [N1 [N2 [N3 [[n [o [I [Ln E]]]] SH]]]]]]]] NB.
  assert (K : In (key_of (names ++ [] ++ (top :: p) ++ [n])) (map o_key start)) by (change (In (key_of (names ++ (top :: p) ++ [n])) (map o_key start)); rewrite <- E; now apply in_map).
  assert (FA : Forall legal ([] ++ (top :: p) ++ [n])) by (cbn [app]; inversion F; subst; constructor; [assumption|apply Forall_app; auto]).
  destruct (mixed_reach (top :: p) [] deepest [n] ltac:(discriminate) FA K) as [u R].
  { pose proof (deep _ _ I0 (start_key _ _ I0 K)) as X. rewrite !app_length in X. cbn in *. lia. }
  exists top, p. split; [|auto]. exists u. split; [exact R|].
  destruct (mixed_reached _ _ _ R deepest [] eq_refl (Forall_nil _)) as [_ [f [B ->]]]. cbn [app] in *. apply (mixed_leaf f _ F B).
  destruct (dirs_at (top :: p)) as [|a l] eqn:D; [reflexivity|exfalso]. destruct (dirs_at_spec _ F) as [objs [Io [_ [_ DS]]]].
  assert (X : In a (dirs_at (top :: p))) by (rewrite D; now left). apply DS in X as [La [rest [NR [LR K']]]].
  apply in_map_iff in K' as [o' [E' I']]. assert (LB : Forall legal (a :: rest)) by (constructor; assumption).
  destruct (in_dec (fun x y : object => ltac:(decide equality; apply string_dec)) o' start) as [Is|Ns].
  - pose proof (SH (a :: rest) o' LB Is E') as Y. destruct rest; [congruence|cbn in Y; lia].
  - destruct (exists_last NR) as [mid [nm Er]]. subst rest. apply Forall_app in LR as [Lm Lnm].
    assert (X : (a :: mid)%list = []); [|discriminate].
    apply (NB objs ((top :: p) ++ a :: mid)%list nm o' (top :: p) Io); [apply Forall_app; auto| |exact Ns|exact F|reflexivity|reflexivity].
    split; [exact I'|]. split; [now inversion Lnm|]. rewrite E'. f_equal. f_equal. now rewrite <- app_assoc.
Qed.
(** a partition that is found and holds a file of the first moment was one then *)
Lemma found_partition : forall path, partition_dir mixed path -> exists top p, path = join "/" (top :: p) /\ Forall legal (top :: p)
  /\ forall name o, file_in start names (top :: p) name o -> data_directory start names path.
Proof.
  intros path [top [p [[t [R S]] [N1 [N2 [N3 ->]]]]]]. destruct (mixed_reached _ _ _ R deepest [] eq_refl (Forall_nil _)) as [F [f [B ->]]].
  cbn [app] in *. apply (mixed_leaf f _ F B) in S. exists top, p. split; [reflexivity|]. split; [exact F|]. intros n o FI.
  destruct (dirs_at_spec _ F) as [objs [Io [_ [_ DS]]]].
  exists top, p. split; [reflexivity|]. split; [exact F|]. split; [exact N1|]. split; [exact N2|]. split; [exact N3|]. split; [exists n, o; exact FI|].
  intros below o' LB I' E. destruct below as [|a [|b below]]; [cbn; lia|cbn; lia|exfalso].
  assert (X : In a (dirs_at (top :: p))); [|rewrite S in X; destruct X].
  apply DS. inversion LB; subst. split; [assumption|]. exists (b :: below). split; [discriminate|]. split; [assumption|]. apply (start_key objs _ Io). rewrite <- E. now apply in_map.
Qed.
End Mixed.

Section Answer.
Variable dtype value : Type.
Variable cast : dtype -> string -> option value.
Variable cmp : value -> value -> option comparison.
Variable local_to_utc : ndt -> option ndt.
Variable start : list object.
Variable later : list (list object).
Variable base : url.
Variable names : list string.
Variable parse_json : string -> outcome (list (string * json)).
Variable parse_schema : string -> outcome (list (string * dtype)).
Variable parse_rows : string -> outcome record_batch.
Variable footer : string -> outcome (Z * Z).
Variable open : options -> options -> outcome unit.
Variable tb : table.
Variable t format : string.
Notation moments := (start :: later).
Notation store_of objs := (object_store objs base dtype parse_json parse_schema parse_rows footer open).
Hypothesis PO : forall objs, In objs moments -> proper_objects objs.
Hypothesis L : located base names.
Hypothesis LO : forall objs, In objs later -> later_objects names format t start objs.
Hypothesis So : StronglySorted instant_le (t_commits tb).
Hypothesis TL : forall i, In i (t_commits tb) -> exists o, file_in start names [".hoodie"] (file_name i) o.
Hypothesis BF : base_format (t_configs tb) = Ok format.

Lemma all_kept : forall objs, In objs moments -> incl start objs.
Proof. intros objs [ <- |I]; [intros x; auto|apply (LO objs I)]. Qed.
Lemma some_moment : exists objs, In objs moments.
Proof. exists start. now left. Qed.
Lemma obj_dec : forall x y : object, {x = y} + {x <> y}.
Proof. decide equality; apply string_dec. Qed.
Lemma added : forall objs dir name o, In objs moments -> Forall legal dir -> file_in objs names dir name o ->
  In o start \/ (In objs later /\ ~ In o start).
Proof. intros objs dir name o [ <- |I] F FI; [left; apply FI|]. destruct (in_dec obj_dec o start); auto. Qed.
Lemma found_kept : forall objs p o, In objs moments -> find_object start base p = Ok o -> find_object objs base p = Ok o.
Proof.
  intros objs p o I H. unfold find_object in *. destruct (object_path base p) as [k| |]; [|discriminate|discriminate]. cbn [bind] in *.
  destruct (find _ start) as [x|] eqn:E; [|discriminate]. injection H as <-. apply find_some in E as [E1 E2]. apply String.eqb_eq in E2. subst k.
  rewrite (find_unique objs (proj2 (PO _ I)) x (all_kept _ I x E1)). reflexivity.
Qed.

Section Seen.
Variable st : store dtype.
Hypothesis SEE : sees moments base dtype parse_json parse_schema parse_rows footer open st.
Lemma see_files : forall p, exists objs, In objs moments /\ st_files _ st p = list_files objs base p.
Proof. intros p. destruct (SEE p) as [_ [_ [H _]]]. exact H. Qed.
Lemma see_dirs : forall p, exists objs, In objs moments /\ st_dirs _ st p = list_dirs objs base p.
Proof. intros p. destruct (SEE p) as [_ [_ [_ [H _]]]]. exact H. Qed.
Lemma see_json : forall p v, st_json _ (store_of start) p = Ok v -> st_json _ st p = Ok v.
Proof.
  intros p v H. destruct (SEE p) as [[objs [I E]] _]. rewrite E. cbn [st_json object_store] in *. unfold get_file_data in *.
  destruct (find_object start base p) as [o| |] eqn:F; cbn [bind] in H; try discriminate. now rewrite (found_kept objs p o I F).
Qed.
Lemma see_schema : forall p v, st_schema _ (store_of start) p = Ok v -> st_schema _ st p = Ok v.
Proof.
  intros p v H. destruct (SEE p) as [_ [[objs [I E]] _]]. rewrite E. cbn [st_schema object_store] in *. unfold get_file_data in *.
  destruct (find_object start base p) as [o| |] eqn:F; cbn [bind] in H; try discriminate. now rewrite (found_kept objs p o I F).
Qed.
Lemma see_instant : forall i, In i (t_commits tb) -> st_json _ st (".hoodie/" ++ file_name i) = st_json _ (store_of start) (".hoodie/" ++ file_name i).
Proof.
  intros i I. destruct (TL i I) as [o FI].
  assert (LH : Forall legal [".hoodie"]) by (repeat constructor; discriminate).
  pose proof (read_spec start base names (PO _ (or_introl eq_refl)) L [".hoodie"] (file_name i) o LH FI) as R.
  assert (P : path_join (join "/" [".hoodie"]) (file_name i) = ".hoodie/" ++ file_name i).
  { destruct FI as [_ [[N [S _]] _]]. unfold path_join. cbn [join]. destruct (file_name i) as [|a r] eqn:E; [congruence|]. cbn [has_char] in S.
    assert (X : starts_with "/" (String a r) = false).
    { destruct (starts_with "/" (String a r)) eqn:Q; [|reflexivity]. apply starts_with_spec in Q as [z Q]. injection Q as -> _. discriminate S. }
    rewrite X. reflexivity. }
  rewrite P in R. destruct (SEE (".hoodie/" ++ file_name i)) as [[objs [Io E]] _]. rewrite E. cbn [st_json object_store]. unfold get_file_data.
  now rewrite R, (found_kept objs _ o Io R).
Qed.
Lemma see_partition_schema : forall fields, get_partition_schema dtype (store_of start) tb = Ok fields -> get_partition_schema dtype st tb = Ok fields.
Proof.
  intros fields H. unfold get_partition_schema in *. apply bind_ok in H as [fl [H1 H]]. apply bind_ok in H as [path [H2 H]]. apply bind_ok in H as [sch [H3 H]].
  rewrite H1. cbn [bind]. assert (E : latest_schema_path (st_json _ st) (t_commits tb) = Ok path).
  { unfold latest_schema_path in *. apply bind_ok in H2 as [md [M H2]]. assert (M' : latest_commit_metadata (st_json _ st) (t_commits tb) = Ok md).
    { unfold latest_commit_metadata in *. destruct (last_opt (t_commits tb)); [|exact M]. unfold instant_metadata in *. now apply see_json. }
    rewrite M'. exact H2. }
  rewrite E. cbn [bind]. rewrite (see_schema _ _ H3). exact H.
Qed.
Lemma see_replaced : forall time g, replaced_by_time (st_json _ st) (t_commits tb) time g <-> replaced_by_time (st_json _ (store_of start)) (t_commits tb) time g.
Proof.
  intros time g. apply replaced_later. split; [intros i; auto|]. split; [auto|]. exact see_instant.
Qed.
Notation root := (mixed moments (st_dirs _ st)).
Lemma see_served : serves_dirs root (st_dirs _ st).
Proof. exact (mixed_served moments base names (st_dirs _ st) PO L see_dirs). Qed.
Lemma see_wf : wf_tree root.
Proof. exact (mixed_wf moments base names (st_dirs _ st) PO L see_dirs _ [] (Forall_nil _)). Qed.
Lemma see_listing : forall dir, Forall legal dir -> exists objs l, In objs moments /\ st_files _ st (join "/" dir) = Ok l /\ directory_listing objs names dir l.
Proof.
  intros dir F. destruct (see_files (join "/" dir)) as [objs [I E]]. destruct (files_spec objs base names (PO _ I) L dir F) as [l [E1 [N S]]].
  exists objs, l. split; [exact I|]. split; [now rewrite E|]. split; assumption.
Qed.
Lemma see_partition : forall path, data_directory start names path -> partition_dir root path.
Proof.
  intros path D. apply (start_partition moments base names (st_dirs _ st) PO L see_dirs start all_kept some_moment path D).
  intros objs dir name o d I F FI NI Fd E below Eb. destruct (added _ _ _ _ I F FI) as [X|[X _]]; [contradiction|].
  subst path. exact (proj2 (proj2 (LO objs X) dir name o F FI NI) d Fd D below Eb).
Qed.
Lemma see_table_partition : forall pt p dir, object_partition start names pt p dir -> table_partition pt root p.
Proof. intros [|] p dir [_ [E D]]; [now apply see_partition|]. subst dir. exact E. Qed.
(** a base file of [t] or before was there at the start, and its directory was a partition then *)
Lemma see_base : forall pt p l m b, table_partition pt root p -> st_files _ st p = Ok l -> base_listed format l m b -> sle (bf_commit b) t ->
  exists dir n o, object_partition start names pt p dir /\ file_in start names dir n o /\ m = new_meta n (o_size o).
Proof.
  intros pt p l m b TP E [Im [NM [BN BO]]] LE.
  assert (X : exists dir, p = join "/" dir /\ Forall legal dir /\ (forall name o, file_in start names dir name o -> object_partition start names pt p dir)).
  { destruct pt.
    - destruct (found_partition moments base names (st_dirs _ st) PO L see_dirs start all_kept p TP) as [top [q [-> [F D]]]]. exists (top :: q). split; [reflexivity|]. split; [exact F|].
      intros name o FI. split; [exact F|]. split; [reflexivity|]. exact (D name o FI).
    - cbn in TP. subst p. exists []. split; [reflexivity|]. split; [constructor|]. intros _ _ _. repeat split; constructor. }
  destruct X as [dir [-> [F D]]]. destruct (see_listing dir F) as [objs [l' [I [E' [_ DL]]]]]. assert (l' = l) by congruence. subst l'.
  apply DL in Im as [n [o [FI ->]]]. cbn [fm_name new_meta] in *.
  destruct (added _ _ _ _ I F FI) as [Y|[Y1 Y2]].
  - assert (FS : file_in start names dir n o) by (destruct FI as [_ FI]; split; assumption). exists dir, n, o. split; [exact (D n o FS)|]. auto.
  - exfalso. pose proof (proj1 (proj2 (LO objs Y1) dir n o F FI Y2) b NM BN BO) as Z. exact (proj1 (slt_not_sle _ _) Z LE).
Qed.
Lemma start_listed : forall dir listed l, Forall legal dir -> directory_listing start names dir listed -> st_files _ st (join "/" dir) = Ok l -> incl listed l.
Proof.
  intros dir listed l F [_ D] E m Im. destruct (see_listing dir F) as [objs [l' [I [E' [_ DL]]]]]. assert (l' = l) by congruence. subst l'.
  apply D in Im as [n [o [FI ->]]]. apply DL. exists n, o. split; [|reflexivity]. destruct FI as [FI1 FI]. split; [exact (all_kept _ I o FI1)|exact FI].
Qed.
Lemma classify : forall pt p, table_partition pt root p -> (exists dir, object_partition start names pt p dir)
  \/ forall l m b, st_files _ st p = Ok l -> base_listed format l m b -> slt t (bf_commit b).
Proof.
  intros [|] p TP; [|left; exists []; cbn in TP; subst p; repeat split; constructor].
  destruct (found_partition moments base names (st_dirs _ st) PO L see_dirs start all_kept p TP) as [top [q [-> [F D]]]].
  destruct (files_spec start base names (PO _ (or_introl eq_refl)) L (top :: q) F) as [listed [_ [_ DL]]]. destruct listed as [|m0 listed].
  - right. intros l m b E B. apply slt_not_sle. intros LE. destruct (see_base true _ l m b TP E B LE) as [dir [n [o [[F' [E' _]] [FI _]]]]].
    assert (dir = top :: q) by (apply (key_of_inj dir _ F' F); unfold key_of; congruence). subst dir. apply (proj2 (DL (new_meta n (o_size o)))). exists n, o. auto.
  - left. destruct (proj1 (DL m0) (or_introl eq_refl)) as [n [o [FI _]]]. exists (top :: q). split; [exact F|]. split; [reflexivity|]. exact (D n o FI).
Qed.

Lemma during : forall fields, get_partition_schema dtype (store_of start) tb = Ok fields -> wf_fields fields ->
  forall c c' filters ss, M_Session.opened dtype value cast cmp local_to_utc tb (keeps dtype tb) st c ->
  get_file_slices_as_of dtype value cast cmp local_to_utc st tb t filters c c' (Ok ss) ->
  exists fs tz time hive url partitioned,
    from_str_tuples filters = Ok fs /\ timeline_timezone (t_configs tb) = Ok tz /\ parse_datetime local_to_utc t tz = Ok time
    /\ hive_flag tb = Ok hive /\ url_flag tb = Ok url /\ is_table_partitioned (t_configs tb) = Ok partitioned
    /\ base_snapshot dtype value cast cmp fields hive url start moments names format partitioned fs t
         (replaced_by_time (st_json _ (store_of start)) (t_commits tb) (epoch_millis time)) ss.
Proof.
  intros fields GS WF c c' filters ss O Q. destruct (as_of_as_new dtype value cast cmp local_to_utc tb st c root see_served see_wf O t filters c' _ Q) as [c'' Q'].
  destruct (as_of_snapshot dtype value cast cmp local_to_utc st tb root see_served see_wf So _ _ _ _ _ (va_new _ _ _ _ _ _ _) Q') as [fs [tz [time [ps [h [u [f [pt [P1 [P2 [P3 [P4 [P5 [P6 [P7 [P8 P9]]]]]]]]]]]]]]]].
  rewrite (see_partition_schema _ GS) in P4. injection P4 as <-. rewrite BF in P7. injection P7 as <-. destruct (P9 WF) as [S1 [S2 S3]].
  exists fs, tz, time, h, u, pt. do 6 (split; [assumption|]). split; [|split; [|exact S3]].
  - intros s I. destruct (S1 s I) as [l [TP [LS [SN [NR FL]]]]]. destruct SN as [m [b [B1 [B2 [B3 [B4 [B5 [B6 [B7 [B8 B9]]]]]]]]]].
    destruct (see_base pt _ l m b TP LS B1 B6) as [dir [n [o [OP [FI Em]]]]]. pose proof OP as [F [EP _]].
    destruct (files_spec start base names (PO _ (or_introl eq_refl)) L dir F) as [listed [_ DL]].
    assert (DL' : directory_listing start names dir listed) by exact DL. rewrite EP in LS. pose proof (start_listed dir listed l F DL' LS) as IN.
    exists dir, listed. split; [exact OP|]. split; [exact DL'|]. split; [|split; [rewrite <- see_replaced; exact NR|split; [|exact FL]]].
    + exists m, b. split; [destruct B1 as [_ B1]; split; [|exact B1]; apply (proj2 DL'); exists n, o; auto|]. split; [exact B3|]. split; [exact B4|]. split; [exact B5|]. split; [exact B6|]. split.
      * intros m' b' Y. apply (B7 m' b'). eapply base_listed_incl; eauto.
      * intros m' x Y E1 E2. apply (B8 (lf_version x) (lf_write_token x)). exists m', x. split; [eapply log_listed_incl; eauto|auto].
    + intros k Ik. destruct (B9 k Ik) as [m' [[Im' [_ [_ LF]]] [E1 E2]]]. split; [congruence|]. split; [congruence|].
      destruct (see_listing dir F) as [objs [l' [Io [E' [_ DLo]]]]]. assert (l' = l) by congruence. subst l'. apply DLo in Im' as [n' [o' [FI' ->]]]. cbn [fm_name new_meta] in LF.
      apply log_name_reprint in LF. exists objs, o'. split; [exact Io|]. now rewrite LF.
  - intros p dir name o b OP M FI NM BN BO LE NR. pose proof OP as [F [EP _]]. destruct (S2 p (see_table_partition pt p dir OP) M) as [l [LS X]].
    apply (X (new_meta name (o_size o)) b); [|exact LE|rewrite see_replaced; exact NR]. split; [|auto].
    destruct (files_spec start base names (PO _ (or_introl eq_refl)) L dir F) as [listed [_ DL]]. rewrite EP in LS. apply (start_listed dir listed l F DL LS). apply DL. exists name, o. auto.
Qed.
End Seen.

(** The objects of the start alone are what a query sees that no writer disturbs. *)
Lemma quiet : sees moments base dtype parse_json parse_schema parse_rows footer open (store_of start).
Proof. intros p. cbv zeta. repeat split; exists start; (split; [now left|reflexivity]). Qed.

(** Two queries as of [t], both while writers add files, show the same base files. *)
Lemma during_same : (forall objs, In objs moments -> one_base_file names format objs) ->
  forall fields, get_partition_schema dtype (store_of start) tb = Ok fields ->
  forall st c c' filters ss ss0 c0, sees moments base dtype parse_json parse_schema parse_rows footer open st ->
  get_file_slices_as_of dtype value cast cmp local_to_utc (store_of start) tb t filters [] c0 (Ok ss0) ->
  M_Session.opened dtype value cast cmp local_to_utc tb (keeps dtype tb) st c ->
  get_file_slices_as_of dtype value cast cmp local_to_utc st tb t filters c c' (Ok ss) ->
  (forall p n, shows_base ss0 p n <-> shows_base ss p n)
  /\ forall s, In s ss0 -> exists s', In s' ss /\ fs_partition s' = fs_partition s /\ base_file_name (fs_base s') = base_file_name (fs_base s)
       /\ forall v w, (exists l, In l (fs_logs s) /\ lf_version l = v /\ lf_write_token l = w) -> exists l, In l (fs_logs s') /\ lf_version l = v /\ lf_write_token l = w.
Proof.
  intros UB fields GS st c c' filters ss ss0 c0 SEE Q0 O Q.
  destruct (as_of_as_new dtype value cast cmp local_to_utc tb st c _ (see_served st SEE) (see_wf st SEE) O t filters c' _ Q) as [c'' Q'].
  pose proof (PO _ (or_introl eq_refl)) as P0.
  pose proof (tree_served start base names P0 L) as SV0. pose proof (tree_wf start base names P0 L (depth_bound start) [] (Forall_nil _)) as WF0.
  destruct (as_of_inv dtype value cast cmp local_to_utc (store_of start) tb _ SV0 WF0 So _ _ _ _ _ (va_new _ _ _ _ _ _ _) Q0)
    as [fs [q [tz [time [ps [h [u [pr [f [pt [A1 [A2 [A3 [A4 [A5 [A6 [A7 [A8 [A9 _]]]]]]]]]]]]]]]]]]].
  assert (PD : forall p, table_partition pt (object_tree start base) p <-> exists dir, object_partition start names pt p dir) by (intros p; exact (partition_dirs start base names P0 L pt p)).
  refine (time_travel_stable dtype value cast cmp local_to_utc (store_of start) st tb tb _ _ [] c0 [] c'' t filters ss0 ss format pt tz time
    SV0 WF0 So (see_served st SEE) (see_wf st SEE) So (va_new _ _ _ _ _ _ _) Q0 (va_new _ _ _ _ _ _ _) Q' eq_refl _ BF A9 A2 A3 _ _ _ _).
  - rewrite GS. exact (see_partition_schema st SEE fields GS).
  - split; [intros i; auto|]. split; [auto|]. exact (see_instant st SEE).
  - intros p TP. apply PD in TP as [dir OP]. exact (see_table_partition st SEE pt p dir OP).
  - intros p l l' TP E E'. apply PD in TP as [dir OP]. pose proof OP as [F [EP _]]. subst p.
    destruct (files_spec start base names P0 L dir F) as [listed [EL DL]]. cbn [st_files object_store] in E. assert (listed = l) by congruence. subst listed.
    split; [exact (start_listed st SEE dir l l' F DL E')|]. split.
    + intros m b B. destruct (sle_total (bf_commit b) t) as [LE|GE].
      * left. destruct (see_base st SEE pt _ l' m b (see_table_partition st SEE pt _ dir OP) E' B LE) as [dir' [n [o [OP' [FI ->]]]]]. pose proof OP' as [F' [EP' _]].
        assert (dir' = dir) by (apply (key_of_inj dir' dir F' F); unfold key_of; congruence). subst dir'. apply (proj2 DL). exists n, o. auto.
      * destruct (proj1 (sle_lt_or_eq _ _) GE) as [LT|EQ]; [right; exact LT|]. left.
        assert (LE : sle (bf_commit b) t) by (rewrite <- EQ; apply sle_refl).
        destruct (see_base st SEE pt _ l' m b (see_table_partition st SEE pt _ dir OP) E' B LE) as [dir' [n [o [OP' [FI ->]]]]]. pose proof OP' as [F' [EP' _]].
        assert (dir' = dir) by (apply (key_of_inj dir' dir F' F); unfold key_of; congruence). subst dir'. apply (proj2 DL). exists n, o. auto.
    + intros m1 b1 m2 b2 [I1 [M1 [N1 K1]]] [I2 [M2 [N2 K2]]] EI EC. destruct (see_listing st SEE dir F) as [objs [l1 [Io [E1 [ND DLo]]]]]. assert (l1 = l') by congruence. subst l1.
      apply DLo in I1 as J1. apply DLo in I2 as J2. destruct J1 as [n1 [o1 [F1 X1]]]. destruct J2 as [n2 [o2 [F2 X2]]].
      assert (n1 = n2) by (subst m1 m2; cbn [fm_name new_meta] in *; exact (UB objs Io dir n1 o1 b1 n2 o2 b2 F F1 F2 M1 N1 K1 M2 N2 K2 EI EC)). subst n2.
      assert (o1 = o2); [|congruence]. destruct F1 as [G1 [_ G2]]. destruct F2 as [G3 [_ G4]]. pose proof (find_unique objs (proj2 (PO _ Io)) o1 G1) as Y1. pose proof (find_unique objs (proj2 (PO _ Io)) o2 G3) as Y2.
      rewrite G2 in Y1. rewrite G4 in Y2. congruence.
  - intros p TP. destruct (classify st SEE pt p TP) as [X|X]; [left; apply PD; exact X|right; exact X].
Qed.
End Answer.
