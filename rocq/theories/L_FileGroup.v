(** Proofs about file names, file slices and file groups. *)
From Verif Require Import Base Str L_Str M_BTree L_BTree M_FileGroup S_FileGroup.
From Coq Require Import Sorting.Sorted ZifyBool ZifyNat ZifyN.
Local Open Scope string_scope.

(** ** Names *)
Lemma base_name_round_trip : forall id token commit ext m,
  has_char "_" id = false -> has_char "_" token = false -> has_char "_" commit = false ->
  has_char "." ext = false ->
  base_file_of (id ++ "_" ++ token ++ "_" ++ commit ++ "." ++ ext) m
  = Ok {| bf_file_id := id; bf_write_token := token; bf_commit := commit; bf_ext := ext; bf_meta := m |}.
Proof.
  intros id token commit ext m H1 H2 H3 H4. unfold base_file_of, parse_base_name.
  replace (id ++ "_" ++ token ++ "_" ++ commit ++ "." ++ ext)
    with ((id ++ "_" ++ token ++ "_" ++ commit) ++ String "." ext)
    by (rewrite !app_assoc_s; reflexivity).
  rewrite rsplit_once_app by assumption. cbn [ok_or bind].
  cbn [String.append]. rewrite split_cons by assumption. rewrite split_cons by assumption.
  rewrite split_single by assumption. reflexivity.
Qed.

Lemma base_name_reprint : forall name m f stem ext,
  base_file_of name m = Ok f -> rsplit_once "." name = Some (stem, ext) ->
  List.length (split "_" stem) = 3%nat -> base_file_name f = name.
Proof.
  intros name m f stem ext H Hr Hl. unfold base_file_of, parse_base_name in H. rewrite Hr in H.
  cbn [ok_or bind] in H. pose proof (split_join "_" stem) as Hj.
  destruct (split "_" stem) as [|a [|c [|d [|x l]]]]; try discriminate Hl.
  cbn in H. injection H as <-. cbn. apply rsplit_once_some in Hr as [-> _].
  cbn in Hj. rewrite <- Hj, !app_assoc_s. cbn. now rewrite !app_assoc_s.
Qed.

Lemma parse_log_inv : forall name id commit ext version token,
  parse_log_name name = Ok (id, commit, ext, version, token) ->
  name = "." ++ id ++ "_" ++ commit ++ "." ++ ext ++ "." ++ version ++ "_" ++ token
  /\ id <> "" /\ commit <> "" /\ ext <> "" /\ version <> "" /\ token <> ""
  /\ has_char "_" id = false /\ has_char "_" token = false
  /\ has_char "." commit = false /\ has_char "." ext = false /\ has_char "." version = false.
Proof.
  intros name id commit ext version token H. unfold parse_log_name in H.
  destruct name as [|x rest0]; [discriminate|].
  assert (Hx : x = "."%char).
  { destruct x as [[] [] [] [] [] [] [] []]; try discriminate H; reflexivity. }
  subst x.
  destruct (split_once "_" rest0) as [[i rest]|] eqn:E1; [|discriminate]. cbn [ok_or bind] in H.
  destruct (rsplit_once "_" rest) as [[middle tok]|] eqn:E2; [|discriminate]. cbn [ok_or bind] in H.
  pose proof (split_join "." middle) as Hj. pose proof (split_no_char "." middle) as Hn.
  destruct (split "." middle) as [|c [|e [|v [|y l]]]]; try discriminate H.
  destruct (String.eqb_spec i ""); [discriminate|]. destruct (String.eqb_spec c ""); [discriminate|].
  destruct (String.eqb_spec e ""); [discriminate|]. destruct (String.eqb_spec v ""); [discriminate|].
  destruct (String.eqb_spec tok ""); [discriminate|]. cbn in H. injection H as -> -> -> -> ->.
  apply split_once_some in E1 as [-> Hi]. apply rsplit_once_some in E2 as [-> Ht].
  inversion Hn as [|? ? Hc Hn1]; subst. inversion Hn1 as [|? ? He Hn2]; subst. inversion Hn2; subst.
  repeat split; auto. cbn. rewrite !app_assoc_s. cbn. now rewrite !app_assoc_s.
Qed.

Lemma log_name_reprint : forall name m f, log_file_of name m = Ok f -> log_file_name f = name.
Proof.
  intros name m f H. unfold log_file_of in H.
  destruct (parse_log_name name) as [[[[[i c] e] v] t]| |] eqn:E; try discriminate.
  cbn in H. injection H as <-. apply parse_log_inv in E as [-> _]. reflexivity.
Qed.

Lemma log_name_round_trip : forall id commit ext version token m,
  id <> "" -> commit <> "" -> ext <> "" -> version <> "" -> token <> "" ->
  has_char "_" id = false -> has_char "_" token = false ->
  has_char "." commit = false -> has_char "." ext = false -> has_char "." version = false ->
  log_file_of ("." ++ id ++ "_" ++ commit ++ "." ++ ext ++ "." ++ version ++ "_" ++ token) m
  = Ok {| lf_file_id := id; lf_base_commit := commit; lf_ext := ext; lf_version := version;
          lf_write_token := token; lf_meta := m |}.
Proof.
  intros id commit ext version token m N1 N2 N3 N4 N5 H1 H2 H3 H4 H5.
  unfold log_file_of, parse_log_name. cbn [String.append].
  rewrite split_once_app by assumption. cbn [ok_or bind].
  replace (commit ++ String "." (ext ++ String "." (version ++ String "_" token)))
    with ((commit ++ String "." (ext ++ String "." version)) ++ String "_" token)
    by (rewrite !app_assoc_s; cbn; rewrite !app_assoc_s; reflexivity).
  rewrite rsplit_once_app by assumption. cbn [ok_or bind].
  rewrite split_cons, split_cons, split_single by assumption.
  rewrite <- String.eqb_neq in N1, N2, N3, N4, N5. rewrite N1, N2, N3, N4, N5. reflexivity.
Qed.

Lemma log_name_inj : forall a c n m x y,
  log_file_of n x = Ok a -> log_file_of m y = Ok c -> log_file_name a = log_file_name c ->
  lf_file_id a = lf_file_id c /\ lf_base_commit a = lf_base_commit c /\ lf_ext a = lf_ext c
  /\ lf_version a = lf_version c /\ lf_write_token a = lf_write_token c.
Proof.
  intros a c n m x y Ha Hc E. rewrite (log_name_reprint _ _ _ Ha), (log_name_reprint _ _ _ Hc) in E.
  subst m. unfold log_file_of in *. destruct (parse_log_name n) as [[[[[i k] e] v] t]| |]; try discriminate.
  cbn in *. injection Ha as <-. injection Hc as <-. cbn. auto.
Qed.

(** ** Keys *)
Lemma log_key_cmp_eq : forall a c, log_key_cmp a c = Eq <-> a = c.
Proof.
  intros [[a1 a2] a3] [[c1 c2] c3]. unfold log_key_cmp. split.
  - destruct (scmp a1 c1) eqn:E1; try discriminate. destruct (scmp a2 c2) eqn:E2; try discriminate.
    intros E3. apply scmp_eq in E1, E2, E3. congruence.
  - intros E. injection E as -> -> ->. now rewrite !scmp_refl.
Qed.
Lemma log_key_cmp_antisym : forall a c, log_key_cmp c a = CompOpp (log_key_cmp a c).
Proof.
  intros [[a1 a2] a3] [[c1 c2] c3]. unfold log_key_cmp.
  rewrite (scmp_antisym a1 c1). destruct (scmp a1 c1); cbn; try reflexivity.
  rewrite (scmp_antisym a2 c2). destruct (scmp a2 c2); cbn; try reflexivity.
  apply scmp_antisym.
Qed.
Lemma log_key_cmp_trans : forall a c d, log_key_cmp a c = Lt -> log_key_cmp c d = Lt -> log_key_cmp a d = Lt.
Proof.
  intros [[a1 a2] a3] [[c1 c2] c3] [[d1 d2] d3]. unfold log_key_cmp.
  destruct (scmp a1 c1) eqn:E1; try discriminate; intros H.
  - apply scmp_eq in E1. subst c1. destruct (scmp a1 d1); try congruence.
    destruct (scmp a2 c2) eqn:E2; try discriminate.
    + apply scmp_eq in E2. subst c2. destruct (scmp a2 d2); try congruence.
      intros H2. eapply scmp_lt_trans; eauto.
    + destruct (scmp c2 d2) eqn:F2; try discriminate.
      * apply scmp_eq in F2. subst d2. now rewrite E2.
      * now rewrite (scmp_lt_trans _ _ _ E2 F2).
  - destruct (scmp c1 d1) eqn:F1; try discriminate.
    + apply scmp_eq in F1. subst d1. now rewrite E1.
    + now rewrite (scmp_lt_trans _ _ _ E1 F1).
Qed.

Definition lsorted := ssorted log_key log_key_cmp.
Definition msorted := ssorted ekey scmp.

Lemma log_insert_sorted : forall f s, lsorted s -> lsorted (log_insert f s).
Proof. intros. apply sadd_sorted; auto using log_key_cmp_eq, log_key_cmp_antisym. apply log_key_cmp_trans. Qed.
Lemma log_extend_sorted : forall l s, lsorted s -> lsorted (log_extend s l).
Proof. induction l as [|f l IH]; intros s H; [assumption|]. cbn. apply IH. now apply log_insert_sorted. Qed.

Definition lget := sget log_key log_key_cmp.
Lemma lget_insert : forall f k s, lsorted s ->
  lget k (log_insert f s) = match lget k s with Some y => Some y
                            | None => match log_key_cmp k (log_key f) with Eq => Some f | _ => None end end.
Proof. intros. apply sget_add; auto using log_key_cmp_eq, log_key_cmp_antisym. Qed.

(** which keys an extension has *)
Definition has_key (k : string * string * string) (s : list log_file) : Prop := exists l, In l s /\ log_key l = k.
Lemma has_key_insert : forall f k s, lsorted s -> (has_key k (log_insert f s) <-> log_key f = k \/ has_key k s).
Proof.
  intros f k s S. unfold has_key. split.
  - intros [l [Hl E]]. apply in_sadd in Hl as [->|Hl]; [now left|]. right. eauto.
  - intros H.
    assert (G : exists x, lget k (log_insert f s) = Some x).
    { rewrite lget_insert by assumption. destruct (lget k s) as [y|] eqn:E; [eauto|].
      destruct H as [H|[l [Hl Hk]]].
      - rewrite (proj2 (log_key_cmp_eq k (log_key f)) (eq_sym H)). eauto.
      - unfold lget in E. rewrite sget_none in E by apply log_key_cmp_eq. elim (E l Hl Hk). }
    destruct G as [x G]. apply sget_some in G; [|apply log_key_cmp_eq]. exists x. exact G.
Qed.
Lemma has_key_extend : forall l k s, lsorted s -> (has_key k (log_extend s l) <-> has_key k l \/ has_key k s).
Proof.
  induction l as [|f l IH]; intros k s S.
  - cbn. split; [now right|]. intros [[x [[] _]]|H]; assumption.
  - change (log_extend s (f :: l)) with (log_extend (log_insert f s) l). rewrite IH by (now apply log_insert_sorted). rewrite has_key_insert by assumption.
    assert (has_key k (f :: l) <-> log_key f = k \/ has_key k l).
    { unfold has_key. split.
      - intros [x [[<-|Hx] Hk]]; [now left|right; eauto].
      - intros [H|[x [Hx Hk]]]; [exists f; split; [now left|assumption]|exists x; split; [now right|assumption]]. }
    tauto.
Qed.

Lemma log_insert_forall : forall (P : log_file -> Prop) f s, P f -> Forall P s -> Forall P (log_insert f s).
Proof.
  intros P f s Hf Hs. rewrite Forall_forall in *. intros x Hx. apply in_sadd in Hx as [->|Hx]; auto.
Qed.
Lemma log_extend_forall : forall (P : log_file -> Prop) l s, Forall P l -> Forall P s -> Forall P (log_extend s l).
Proof.
  intros P. induction l as [|f l IH]; intros s Hl Hs; [assumption|]. cbn. inversion Hl; subst.
  apply IH; [assumption|]. now apply log_insert_forall.
Qed.

(** inserting files already present changes nothing *)
Lemma log_insert_present : forall f s, lsorted s -> has_key (log_key f) s -> log_insert f s = s.
Proof.
  intros f s S [l [Hl Hk]].
  apply (ssorted_ext log_key log_key_cmp); auto using log_key_cmp_eq, log_key_cmp_antisym, log_insert_sorted.
  - now apply log_insert_sorted.
  - intros k. fold lget. rewrite lget_insert by assumption.
    destruct (lget k s) eqn:E; [reflexivity|]. destruct (log_key_cmp k (log_key f)) eqn:Ek; try reflexivity.
    apply log_key_cmp_eq in Ek. subst k. unfold lget in E. rewrite sget_none in E by apply log_key_cmp_eq.
    elim (E l Hl Hk).
Qed.
Lemma log_extend_present : forall l s, lsorted s -> (forall f, In f l -> has_key (log_key f) s) -> log_extend s l = s.
Proof.
  induction l as [|f l IH]; intros s S H; [reflexivity|].
  change (log_extend s (f :: l)) with (log_extend (log_insert f s) l).
  rewrite log_insert_present; [|assumption|apply H; now left]. apply IH; auto. intros g Hg. apply H. now right.
Qed.

(** ** The invariant of reachable groups *)
Definition wf_entry (p : string) (e : slice_entry) : Prop :=
  bf_commit (fs_base (snd e)) = fst e /\ fs_partition (snd e) = p
  /\ lsorted (fs_logs (snd e)) /\ Forall (fun l => lf_base_commit l = fst e) (fs_logs (snd e)).
Definition wf_group (g : file_group) : Prop :=
  msorted (fg_slices g) /\ Forall (wf_entry (fg_partition g)) (fg_slices g).

Lemma scmp_trans' : forall a c d, scmp a c = Lt -> scmp c d = Lt -> scmp a d = Lt.
Proof. exact scmp_lt_trans. Qed.

Lemma slices_put_sorted : forall k s m, msorted m -> msorted (slices_put k s m).
Proof. intros. apply sput_sorted; auto using scmp_eq, scmp_antisym. apply scmp_lt_trans. Qed.
Lemma slices_update_sorted : forall k f m, msorted m -> msorted (slices_update k f m).
Proof. intros. apply supdate_sorted; [|assumption]. reflexivity. Qed.
Lemma slices_get_put : forall k k' s m, msorted m ->
  slices_get k' (slices_put k s m) = match scmp k' k with Eq => Some (k, s) | _ => slices_get k' m end.
Proof. intros. unfold slices_get, slices_put. rewrite sget_put; auto using scmp_eq, scmp_antisym. Qed.
Lemma slices_get_update : forall k k' f m,
  slices_get k' (slices_update k f m) =
  match scmp k' k with Eq => option_map (fun e => (fst e, f (snd e))) (slices_get k' m) | _ => slices_get k' m end.
Proof. intros. unfold slices_get, slices_update. apply sget_update; auto using scmp_eq. Qed.
Lemma slices_get_some : forall k m e, slices_get k m = Some e -> In e m /\ fst e = k.
Proof. intros k m e H. apply sget_some in H; [exact H|apply scmp_eq]. Qed.
Lemma slices_get_in : forall m e, msorted m -> In e m -> slices_get (fst e) m = Some e.
Proof. intros m e S H. apply (sget_in ekey scmp); auto using scmp_eq. Qed.
Lemma slices_get_none : forall k m, slices_get k m = None <-> forall e, In e m -> fst e <> k.
Proof. intros. apply sget_none. apply scmp_eq. Qed.
Lemma slices_ext : forall m1 m2, msorted m1 -> msorted m2 ->
  (forall k, slices_get k m1 = slices_get k m2) -> m1 = m2.
Proof. intros. eapply (ssorted_ext ekey scmp); auto using scmp_eq, scmp_antisym. Qed.

Lemma slices_get_cons : forall k e es,
  slices_get k (e :: es) = match scmp k (fst e) with Eq => Some e | _ => slices_get k es end.
Proof. reflexivity. Qed.

Lemma wf_new : forall id p, wf_group (new_group id p).
Proof. intros. split; constructor. Qed.

Lemma add_base_ok : forall g b g', add_base_file g b = (g', Ok tt) ->
  slices_get (bf_commit b) (fg_slices g) = None
  /\ g' = with_slices g (slices_put (bf_commit b) (new_slice b (fg_partition g)) (fg_slices g)).
Proof.
  intros g b g' H. unfold add_base_file in H. destruct (slices_get _ _); [discriminate|].
  injection H as <-. auto.
Qed.
Lemma add_log_ok : forall g l g', add_log_file g l = (g', Ok tt) ->
  (exists e, slices_get (lf_base_commit l) (fg_slices g) = Some e)
  /\ g' = with_slices g (slices_update (lf_base_commit l)
            (fun s => with_logs s (log_insert l (fs_logs s))) (fg_slices g)).
Proof.
  intros g l g' H. unfold add_log_file in H. destruct (slices_get _ _) as [e|]; [|discriminate].
  injection H as <-. eauto.
Qed.

Lemma wf_add_base : forall g b g', wf_group g -> add_base_file g b = (g', Ok tt) -> wf_group g'.
Proof.
  intros g b g' [S F] H. apply add_base_ok in H as [_ ->]. split; cbn.
  - now apply slices_put_sorted.
  - rewrite Forall_forall in *. intros e He. apply in_sput in He as [->|He]; [|auto].
    repeat split; constructor.
Qed.
Lemma wf_add_log : forall g l g', wf_group g -> add_log_file g l = (g', Ok tt) -> wf_group g'.
Proof.
  intros g l g' [S F] H. apply add_log_ok in H as [_ ->]. split; cbn.
  - now apply slices_update_sorted.
  - rewrite Forall_forall in *. intros e He. apply in_supdate in He as [He|[x [Hx [Hk ->]]]]; [auto| |apply scmp_eq].
    destruct (F x Hx) as [W1 [W2 [W3 W4]]]. cbn in *. unfold ekey in Hk. repeat split; cbn; auto.
    + now apply log_insert_sorted.
    + apply log_insert_forall; auto.
Qed.

(** ** Merging *)
Definition merged (a c : file_slice) : file_slice := with_logs a (log_extend (fs_logs a) (fs_logs c)).

Lemma merge_entry_ok : forall g e g', merge_entry g e = (g', Ok tt) ->
  (slices_get (fst e) (fg_slices g) = None /\ g' = with_slices g (slices_put (fst e) (snd e) (fg_slices g)))
  \/ exists x, slices_get (fst e) (fg_slices g) = Some x /\ slice_eqb (snd x) (snd e) = true
       /\ g' = with_slices g (slices_update (fst e) (fun _ => merged (snd x) (snd e)) (fg_slices g)).
Proof.
  intros g e g' H. unfold merge_entry in H. destruct (slices_get (fst e) (fg_slices g)) as [[k x]|]; [right|left].
  - unfold merge_slice in H. destruct (slice_eqb x (snd e)) eqn:E; [|discriminate]. cbn in H.
    injection H as <-. exists (k, x). auto.
  - injection H as <-. auto.
Qed.

Definition merge_get (x y : option slice_entry) : option slice_entry :=
  match x, y with
  | Some a, Some c => Some (fst a, merged (snd a) (snd c))
  | Some a, None => Some a
  | None, o => o
  end.

Lemma merge_entries_spec : forall es g g', msorted (fg_slices g) -> msorted es ->
  add_each merge_entry g es = (g', Ok tt) ->
  msorted (fg_slices g') /\ fg_id g' = fg_id g /\ fg_partition g' = fg_partition g
  /\ (forall k, slices_get k (fg_slices g') = merge_get (slices_get k (fg_slices g)) (slices_get k es))
  /\ (forall k x y, slices_get k (fg_slices g) = Some x -> slices_get k es = Some y -> slice_eqb (snd x) (snd y) = true).
Proof.
  induction es as [|e es IH]; intros g g' S Se H.
  - cbn in H. injection H as <-. repeat split; auto.
    + intros k. destruct (slices_get k (fg_slices g)); reflexivity.
    + intros k x y _ Hy. discriminate.
  - cbn [add_each] in H. destruct (merge_entry g e) as [g1 [[]|er|]] eqn:E1; try discriminate.
    inversion Se as [|? ? Se' Fe]; subst.
    assert (Hne : slices_get (fst e) es = None).
    { apply slices_get_none. intros y Hy Ek. rewrite Forall_forall in Fe. specialize (Fe y Hy).
      unfold key_lt, ekey in Fe. rewrite Ek, scmp_refl in Fe. discriminate. }
    assert (Hg1 : msorted (fg_slices g1) /\ fg_id g1 = fg_id g /\ fg_partition g1 = fg_partition g
       /\ (forall k, slices_get k (fg_slices g1) = merge_get (slices_get k (fg_slices g)) (if match scmp k (fst e) with Eq => true | _ => false end then Some e else None))
       /\ (forall x, slices_get (fst e) (fg_slices g) = Some x -> slice_eqb (snd x) (snd e) = true)).
    { apply merge_entry_ok in E1 as [[Hn ->]|[x [Hx [Heq ->]]]]; cbn.
      - repeat split.
        + now apply slices_put_sorted.
        + intros k. rewrite slices_get_put by assumption. destruct (scmp k (fst e)) eqn:Ek.
          * apply scmp_eq in Ek. subst k. rewrite Hn. destruct e; reflexivity.
          * destruct (slices_get k (fg_slices g)); reflexivity.
          * destruct (slices_get k (fg_slices g)); reflexivity.
        + intros x Hx. congruence.
      - repeat split.
        + now apply slices_update_sorted.
        + intros k. rewrite slices_get_update. destruct (scmp k (fst e)) eqn:Ek.
          * apply scmp_eq in Ek. subst k. rewrite Hx. reflexivity.
          * destruct (slices_get k (fg_slices g)); reflexivity.
          * destruct (slices_get k (fg_slices g)); reflexivity.
        + intros y Hy. congruence. }
    destruct Hg1 as [S1 [I1 [P1 [G1 Q1]]]].
    destruct (IH g1 g' S1 Se' H) as [S' [I' [P' [G' Q']]]].
    repeat split; try congruence.
    + intros k. rewrite G', G1, slices_get_cons. destruct (scmp k (fst e)) eqn:Ek.
      * apply scmp_eq in Ek. subst k. rewrite Hne. unfold merge_get.
        destruct (slices_get (fst e) (fg_slices g)); reflexivity.
      * destruct (slices_get k (fg_slices g)); reflexivity.
      * destruct (slices_get k (fg_slices g)); reflexivity.
    + intros k x y Hx Hy. rewrite slices_get_cons in Hy. destruct (scmp k (fst e)) eqn:Ek.
      * apply scmp_eq in Ek. subst k. injection Hy as <-. now apply Q1.
      * apply (Q' k); [|assumption]. rewrite G1, Hx, Ek. reflexivity.
      * apply (Q' k); [|assumption]. rewrite G1, Hx, Ek. reflexivity.
Qed.

Lemma merge_entries_success : forall es g, msorted (fg_slices g) -> msorted es ->
  (forall k x y, slices_get k (fg_slices g) = Some x -> slices_get k es = Some y -> slice_eqb (snd x) (snd y) = true) ->
  exists g', add_each merge_entry g es = (g', Ok tt).
Proof.
  induction es as [|e es IH]; intros g S Se H; [eexists; reflexivity|].
  inversion Se as [|? ? Se' Fe]; subst. cbn [add_each].
  assert (Hne : forall k, fst e = k -> slices_get k es = None).
  { intros k <-. apply slices_get_none. intros y Hy Ek. rewrite Forall_forall in Fe. specialize (Fe y Hy).
    unfold key_lt, ekey in Fe. rewrite Ek, scmp_refl in Fe. discriminate. }
  assert (He : slices_get (fst e) (e :: es) = Some e).
  { rewrite slices_get_cons. now rewrite scmp_refl. }
  assert (Hes : forall k y, slices_get k es = Some y -> slices_get k (e :: es) = Some y).
  { intros k y Hy. rewrite slices_get_cons. destruct (scmp k (fst e)) eqn:Ek; [|assumption|assumption].
    apply scmp_eq in Ek. rewrite (Hne k) in Hy by congruence. discriminate. }
  unfold merge_entry. destruct (slices_get (fst e) (fg_slices g)) as [[k0 x]|] eqn:Ex.
  - pose proof (H _ _ _ Ex He) as Q. cbn in Q. unfold merge_slice. rewrite Q. cbn.
    apply IH; cbn; [now apply slices_update_sorted|assumption|].
    intros k a y Ha Hy. rewrite slices_get_update in Ha. destruct (scmp k (fst e)) eqn:Ek.
    + apply scmp_eq in Ek. subst k. rewrite Hne in Hy by reflexivity. discriminate.
    + eapply H; eauto.
    + eapply H; eauto.
  - apply IH; cbn; [now apply slices_put_sorted|assumption|].
    intros k a y Ha Hy. rewrite slices_get_put in Ha by assumption. destruct (scmp k (fst e)) eqn:Ek.
    + apply scmp_eq in Ek. subst k. rewrite Hne in Hy by reflexivity. discriminate.
    + eapply H; eauto.
    + eapply H; eauto.
Qed.

Lemma wf_merge : forall g h m, wf_group g -> wf_group h -> merge_group g h = (m, Ok tt) -> wf_group m.
Proof.
  intros g h m [Sg Fg] [Sh Fh] H. unfold merge_group in H. destruct (fg_eqb g h) eqn:E; [|discriminate]. cbn in H.
  unfold fg_eqb in E. apply andb_true_iff in E as [E1 E2]. apply String.eqb_eq in E1, E2.
  destruct (merge_entries_spec _ _ _ Sg Sh H) as [Sm [Im [Pm [Gm Qm]]]].
  split; [assumption|]. rewrite Forall_forall in *. intros e He.
  pose proof (slices_get_in _ _ Sm He) as Ge. rewrite Gm in Ge.
  destruct (slices_get (fst e) (fg_slices g)) as [a|] eqn:Ea; destruct (slices_get (fst e) (fg_slices h)) as [c|] eqn:Ec;
    cbn in Ge; try discriminate.
  - injection Ge as Ge. apply slices_get_some in Ea as [Ia Ka]. apply slices_get_some in Ec as [Ic Kc].
    destruct (Fg a Ia) as [A1 [A2 [A3 A4]]]. destruct (Fh c Ic) as [C1 [C2 [C3 C4]]].
    rewrite <- Ge. cbn. unfold wf_entry. cbn. rewrite Pm. repeat split; auto.
    + now apply log_extend_sorted.
    + apply log_extend_forall; [|assumption]. now rewrite Ka, <- Kc.
  - injection Ge as ->. apply slices_get_some in Ea as [Ia _]. rewrite Pm. auto.
  - injection Ge as ->. apply slices_get_some in Ec as [Ic _]. rewrite Pm, E2. auto.
Qed.

Lemma reachable_wf : forall g, reachable g -> wf_group g.
Proof.
  induction 1 as [id p|g b g' R IH H|g l g' R IH H|g h g' R IH R' IH' H].
  - apply wf_new.
  - eapply wf_add_base; eauto.
  - eapply wf_add_log; eauto.
  - eapply (wf_merge g h); eauto.
Qed.

(** ** Contents in terms of lookups *)
Lemma in_slices : forall g s, wf_group g ->
  (In s (slices g) <-> slices_get (bf_commit (fs_base s)) (fg_slices g) = Some (bf_commit (fs_base s), s)).
Proof.
  intros g s [S F]. unfold slices. rewrite in_map_iff. split.
  - intros [[k x] [E Hin]]. cbn in E. subst x. rewrite Forall_forall in F. destruct (F _ Hin) as [W _]. cbn in W.
    subst k. now apply (slices_get_in _ _ S) in Hin.
  - intros H. apply slices_get_some in H as [H _]. exists (bf_commit (fs_base s), s). auto.
Qed.

Lemma slices_get_slice : forall g k e, wf_group g -> slices_get k (fg_slices g) = Some e ->
  In (snd e) (slices g) /\ bf_commit (fs_base (snd e)) = k /\ fst e = k.
Proof.
  intros g k e [S F] H. apply slices_get_some in H as [Hin Hk]. rewrite Forall_forall in F.
  destruct (F e Hin) as [W _]. repeat split; [|congruence|assumption]. unfold slices. now apply in_map.
Qed.

Lemma has_base_get : forall g c n, wf_group g ->
  (has_base g c n <-> exists e, slices_get c (fg_slices g) = Some e /\ base_file_name (fs_base (snd e)) = n).
Proof.
  intros g c n W. unfold has_base. split.
  - intros [s [Hin [Hc Hn]]]. apply in_slices in Hin; [|assumption]. rewrite Hc in Hin. eauto.
  - intros [e [He Hn]]. destruct (slices_get_slice _ _ _ W He) as [H1 [H2 H3]]. eauto.
Qed.
Lemma has_log_get : forall g c v t, wf_group g ->
  (has_log g c v t <-> exists e, slices_get c (fg_slices g) = Some e /\ has_key (c, v, t) (fs_logs (snd e))).
Proof.
  intros g c v t W. unfold has_log, has_key. split.
  - intros [s [l [Hin [Hc [Hl [Hv Ht]]]]]].
    pose proof Hin as Hin'. apply in_slices in Hin; [|assumption]. rewrite Hc in Hin.
    exists (c, s). split; [assumption|]. exists l. split; [assumption|].
    destruct W as [S F]. rewrite Forall_forall in F. apply slices_get_some in Hin as [Hin _].
    destruct (F _ Hin) as [_ [_ [_ W4]]]. rewrite Forall_forall in W4. specialize (W4 l Hl). cbn in W4.
    unfold log_key. congruence.
  - intros [e [He [l [Hl Hk]]]]. destruct (slices_get_slice _ _ _ W He) as [H1 [H2 H3]].
    unfold log_key in Hk. injection Hk as K1 K2 K3. exists (snd e), l. auto.
Qed.

(** ** Merge laws *)
Lemma slice_eqb_spec : forall a c, slice_eqb a c = true <->
  base_file_name (fs_base a) = base_file_name (fs_base c) /\ fs_partition a = fs_partition c.
Proof.
  intros. unfold slice_eqb, base_file_eqb. rewrite andb_true_iff, !String.eqb_eq. tauto.
Qed.

Lemma merge_ok_iff : forall g h, wf_group g -> wf_group h ->
  ((exists m, merge_group g h = (m, Ok tt)) <->
   fg_id g = fg_id h /\ fg_partition g = fg_partition h
   /\ forall c n1 n2, has_base g c n1 -> has_base h c n2 -> n1 = n2).
Proof.
  intros g h Wg Wh. pose proof Wg as [Sg Fg]. pose proof Wh as [Sh Fh]. unfold merge_group.
  rewrite Forall_forall in Fg, Fh. split.
  - intros [m H]. destruct (fg_eqb g h) eqn:E; [|discriminate]. cbn in H.
    unfold fg_eqb in E. apply andb_true_iff in E as [E1 E2]. apply String.eqb_eq in E1, E2.
    destruct (merge_entries_spec _ _ _ Sg Sh H) as [_ [_ [_ [_ Q]]]].
    repeat split; auto. intros c n1 n2 H1 H2. apply has_base_get in H1 as [e1 [G1 <-]]; [|assumption].
    apply has_base_get in H2 as [e2 [G2 <-]]; [|assumption]. specialize (Q _ _ _ G1 G2).
    now apply slice_eqb_spec in Q as [Q _].
  - intros [E1 [E2 H]]. unfold fg_eqb. rewrite E1, E2, !String.eqb_refl. cbn.
    apply merge_entries_success; auto. intros k x y Hx Hy. apply slice_eqb_spec. split.
    + apply (H k); apply has_base_get; eauto.
    + apply slices_get_some in Hx as [Hx _]. apply slices_get_some in Hy as [Hy _].
      destruct (Fg _ Hx) as [_ [-> _]]. destruct (Fh _ Hy) as [_ [-> _]]. exact E2.
Qed.

Lemma merge_contents : forall g h m, wf_group g -> wf_group h -> merge_group g h = (m, Ok tt) ->
  fg_id m = fg_id g /\ fg_partition m = fg_partition g
  /\ (forall c n, has_base m c n <-> has_base g c n \/ has_base h c n)
  /\ (forall c v t, has_log m c v t <-> has_log g c v t \/ has_log h c v t).
Proof.
  intros g h m Wg Wh H. pose proof (wf_merge _ _ _ Wg Wh H) as Wm.
  pose proof Wg as [Sg Fg]. pose proof Wh as [Sh Fh]. unfold merge_group in H.
  destruct (fg_eqb g h) eqn:E; [|discriminate]. cbn in H.
  destruct (merge_entries_spec _ _ _ Sg Sh H) as [Sm [Im [Pm [Gm Qm]]]].
  rewrite Forall_forall in Fg, Fh.
  repeat split; auto.
  - rewrite !has_base_get by assumption. intros [e [G N]]. rewrite Gm in G.
    destruct (slices_get c (fg_slices g)) as [a|] eqn:Ea; destruct (slices_get c (fg_slices h)) as [d|] eqn:Ed; cbn in G; try discriminate.
    + injection G as <-. left. exists a. auto.
    + injection G as <-. left. eauto.
    + injection G as <-. right. eauto.
  - rewrite !has_base_get by assumption. intros [[e [G N]]|[e [G N]]].
    + rewrite Gm, G. destruct (slices_get c (fg_slices h)) as [d|]; cbn; [eexists (_, _); split; [reflexivity|exact N]|eauto].
    + rewrite Gm, G. destruct (slices_get c (fg_slices g)) as [a|] eqn:Ea; cbn; [|eauto].
      eexists. split; [reflexivity|]. cbn. specialize (Qm _ _ _ Ea G). apply slice_eqb_spec in Qm as [Qm _]. congruence.
  - rewrite !has_log_get by assumption. intros [e [G N]]. rewrite Gm in G.
    destruct (slices_get c (fg_slices g)) as [a|] eqn:Ea; destruct (slices_get c (fg_slices h)) as [d|] eqn:Ed; cbn in G; try discriminate.
    + injection G as <-. cbn in N. apply has_key_extend in N.
      * destruct N as [N|N]; [right|left]; eauto.
      * apply slices_get_some in Ea as [Ea _]. now destruct (Fg _ Ea) as [_ [_ [L _]]].
    + injection G as <-. left. eauto.
    + injection G as <-. right. eauto.
  - rewrite !has_log_get by assumption. intros [[e [G N]]|[e [G N]]].
    + rewrite Gm, G. destruct (slices_get c (fg_slices h)) as [d|] eqn:Ed; cbn; [|eauto].
      eexists. split; [reflexivity|]. cbn. apply has_key_extend; [|now right].
      apply slices_get_some in G as [G _]. now destruct (Fg _ G) as [_ [_ [L _]]].
    + rewrite Gm, G. destruct (slices_get c (fg_slices g)) as [a|] eqn:Ea; cbn; [|eauto].
      eexists. split; [reflexivity|]. cbn. apply has_key_extend; [|now left].
      apply slices_get_some in Ea as [Ea _]. now destruct (Fg _ Ea) as [_ [_ [L _]]].
Qed.

Lemma merge_comm : forall g h m, wf_group g -> wf_group h -> merge_group g h = (m, Ok tt) ->
  exists m', merge_group h g = (m', Ok tt) /\ same_contents m m'.
Proof.
  intros g h m Wg Wh H.
  destruct (proj1 (merge_ok_iff g h Wg Wh) (ex_intro _ m H)) as [E1 [E2 C]].
  destruct (proj2 (merge_ok_iff h g Wh Wg)) as [m' H'].
  { repeat split; auto. intros c n1 n2 H1 H2. symmetry. eauto. }
  exists m'. split; [assumption|].
  destruct (merge_contents _ _ _ Wg Wh H) as [I1 [P1 [B1 L1]]].
  destruct (merge_contents _ _ _ Wh Wg H') as [I2 [P2 [B2 L2]]].
  repeat split; try congruence.
  - rewrite B1, B2. tauto.
  - rewrite B1, B2. tauto.
  - rewrite L1, L2. tauto.
  - rewrite L1, L2. tauto.
Qed.

Lemma merge_assoc : forall g h k m r, wf_group g -> wf_group h -> wf_group k ->
  merge_group g h = (m, Ok tt) -> merge_group m k = (r, Ok tt) ->
  exists n r', merge_group h k = (n, Ok tt) /\ merge_group g n = (r', Ok tt) /\ same_contents r r'.
Proof.
  intros g h k m r Wg Wh Wk H1 H2. pose proof (wf_merge _ _ _ Wg Wh H1) as Wm.
  destruct (proj1 (merge_ok_iff g h Wg Wh) (ex_intro _ m H1)) as [E1 [E2 C]].
  destruct (proj1 (merge_ok_iff m k Wm Wk) (ex_intro _ r H2)) as [E3 [E4 C2]].
  destruct (merge_contents _ _ _ Wg Wh H1) as [I1 [P1 [B1 L1]]].
  destruct (merge_contents _ _ _ Wm Wk H2) as [I2 [P2 [B2 L2]]].
  destruct (proj2 (merge_ok_iff h k Wh Wk)) as [n Hn].
  { repeat split; try congruence. intros c n1 n2 X Y. apply (C2 c); [|assumption]. apply B1. now right. }
  pose proof (wf_merge _ _ _ Wh Wk Hn) as Wn.
  destruct (merge_contents _ _ _ Wh Wk Hn) as [I3 [P3 [B3 L3]]].
  destruct (proj2 (merge_ok_iff g n Wg Wn)) as [r' Hr].
  { repeat split; try congruence. intros c n1 n2 X Y. apply B3 in Y as [Y|Y]; [eauto|].
    apply (C2 c); [|assumption]. apply B1. now left. }
  exists n, r'. repeat split; auto.
  - destruct (merge_contents _ _ _ Wg Wn Hr) as [I4 [P4 _]]. congruence.
  - destruct (merge_contents _ _ _ Wg Wn Hr) as [I4 [P4 _]]. congruence.
  - destruct (merge_contents _ _ _ Wg Wn Hr) as [_ [_ [B4 _]]]. rewrite B2, B1, B4, B3. tauto.
  - destruct (merge_contents _ _ _ Wg Wn Hr) as [_ [_ [B4 _]]]. rewrite B2, B1, B4, B3. tauto.
  - destruct (merge_contents _ _ _ Wg Wn Hr) as [_ [_ [_ L4]]]. rewrite L2, L1, L4, L3. tauto.
  - destruct (merge_contents _ _ _ Wg Wn Hr) as [_ [_ [_ L4]]]. rewrite L2, L1, L4, L3. tauto.
Qed.

Lemma merge_idem : forall g, wf_group g -> merge_group g g = (g, Ok tt).
Proof.
  intros g W. destruct (proj2 (merge_ok_iff g g W W)) as [m H].
  { repeat split; auto. intros c n1 n2 H1 H2. apply has_base_get in H1 as [e1 [G1 <-]]; [|assumption].
    apply has_base_get in H2 as [e2 [G2 <-]]; [|assumption]. congruence. }
  rewrite H. f_equal. pose proof W as [S F].
  pose proof H as H'. unfold merge_group in H'. destruct (fg_eqb g g) eqn:E; [|discriminate]. cbn in H'.
  destruct (merge_entries_spec _ _ _ S S H') as [Sm [Im [Pm [Gm _]]]].
  assert (Es : fg_slices m = fg_slices g).
  { apply slices_ext; auto. intros k. rewrite Gm. destruct (slices_get k (fg_slices g)) as [e|] eqn:Ek; [|reflexivity].
    cbn. f_equal. destruct e as [k' s]. cbn. f_equal. unfold merged.
    rewrite log_extend_present.
    - destruct s; reflexivity.
    - apply slices_get_some in Ek as [Ek _]. rewrite Forall_forall in F. now destruct (F _ Ek) as [_ [_ [L _]]].
    - intros f Hf. exists f. auto. }
  destruct m, g; cbn in *; congruence.
Qed.

Lemma merge_mismatch : forall g h, wf_group g -> wf_group h ->
  (fg_id g <> fg_id h \/ fg_partition g <> fg_partition h
   \/ exists c n1 n2, has_base g c n1 /\ has_base h c n2 /\ n1 <> n2) ->
  exists m e, merge_group g h = (m, Err e).
Proof.
  intros g h Wg Wh H. destruct (merge_group g h) as [m [[]|e|]] eqn:E.
  - destruct (proj1 (merge_ok_iff g h Wg Wh) (ex_intro _ m E)) as [E1 [E2 C]].
    destruct H as [H|[H|[c [n1 [n2 [H1 [H2 H3]]]]]]]; [congruence|congruence|]. elim H3. eauto.
  - eauto.
  - exfalso. unfold merge_group in E. destruct (negb (fg_eqb g h)); [discriminate|].
    revert E. clear. generalize (fg_slices h). intros es. revert g. induction es as [|e es IH]; intros g E; [discriminate|].
    cbn [add_each] in E. unfold merge_entry in E. destruct (slices_get (fst e) (fg_slices g)) as [[k x]|].
    + unfold merge_slice in E. destruct (negb (slice_eqb x (snd e))); [discriminate|]. eauto.
    + eauto.
Qed.

(** ** As-of lookup *)
Lemma as_of_spec : forall g t, wf_group g ->
  match get_file_slice_as_of g t with
  | Some s => In s (slices g) /\ sle (bf_commit (fs_base s)) t
              /\ forall s', In s' (slices g) -> sle (bf_commit (fs_base s')) t ->
                   s' = s \/ slt (bf_commit (fs_base s')) (bf_commit (fs_base s))
  | None => forall s, In s (slices g) -> slt t (bf_commit (fs_base s))
  end.
Proof.
  intros g t [S F]. rewrite Forall_forall in F. unfold get_file_slice_as_of, entry_as_of.
  pose proof (slast_le_spec ekey scmp t (fg_slices g) S) as H.
  destruct (slast_le ekey scmp t (fg_slices g)) as [e|]; cbn.
  - destruct H as [Hin [Hle Hmax]]. destruct (F e Hin) as [W _]. unfold slices. split; [now apply in_map|].
    split; [unfold sle; rewrite W; exact Hle|].
    intros s' Hs' Hle'. apply in_map_iff in Hs' as [e' [<- He']]. destruct (F e' He') as [W' _].
    rewrite W' in Hle'. destruct (Hmax e' He' Hle') as [->|Hlt]; [now left|right].
    unfold slt. rewrite W, W'. exact Hlt.
  - intros s Hs. unfold slices in Hs. apply in_map_iff in Hs as [e [<- He]]. destruct (F e He) as [W _].
    rewrite W. unfold slt. apply scmp_gt_lt. apply (H e He).
Qed.

(** ** Rejection *)
Lemma add_base_iff : forall g b, wf_group g ->
  ((exists s, In s (slices g) /\ bf_commit (fs_base s) = bf_commit b) -> add_base_file g b = (g, Err EFileGroup))
  /\ ((forall s, In s (slices g) -> bf_commit (fs_base s) <> bf_commit b) -> exists g', add_base_file g b = (g', Ok tt)).
Proof.
  intros g b W. unfold add_base_file. split.
  - intros [s [Hs E]]. apply in_slices in Hs; [|assumption]. rewrite E in Hs. now rewrite Hs.
  - intros H. destruct (slices_get (bf_commit b) (fg_slices g)) as [e|] eqn:E; [|eauto].
    destruct (slices_get_slice _ _ _ W E) as [H1 [H2 _]]. now elim (H _ H1).
Qed.
Lemma add_log_iff : forall g l, wf_group g ->
  ((forall s, In s (slices g) -> bf_commit (fs_base s) <> lf_base_commit l) -> add_log_file g l = (g, Err EFileGroup))
  /\ ((exists s, In s (slices g) /\ bf_commit (fs_base s) = lf_base_commit l) -> exists g', add_log_file g l = (g', Ok tt)).
Proof.
  intros g l W. unfold add_log_file. split.
  - intros H. destruct (slices_get (lf_base_commit l) (fg_slices g)) as [e|] eqn:E; [|reflexivity].
    destruct (slices_get_slice _ _ _ W E) as [H1 [H2 _]]. now elim (H _ H1).
  - intros [s [Hs E]]. apply in_slices in Hs; [|assumption]. rewrite E in Hs. rewrite Hs. eauto.
Qed.

(** ** Histories of additions *)
Definition key_is (k : string * string * string) (f : log_file) : bool :=
  match log_key_cmp k (log_key f) with Eq => true | _ => false end.
Lemma key_is_true : forall k f, key_is k f = true <-> log_key f = k.
Proof.
  intros. unfold key_is. rewrite <- (log_key_cmp_eq (log_key f) k), (log_key_cmp_antisym k (log_key f)).
  destruct (log_key_cmp k (log_key f)); cbn; split; congruence.
Qed.
Lemma lget_extend : forall l k s, lsorted s ->
  lget k (log_extend s l) = match lget k s with Some y => Some y | None => find (key_is k) l end.
Proof.
  induction l as [|f l IH]; intros k s S.
  - cbn. destruct (lget k s); reflexivity.
  - change (log_extend s (f :: l)) with (log_extend (log_insert f s) l).
    rewrite IH by (now apply log_insert_sorted). rewrite lget_insert by assumption. cbn [find].
    unfold key_is at 2. destruct (lget k s); [reflexivity|]. destruct (log_key_cmp k (log_key f)); reflexivity.
Qed.

Definition at_commit (k : string) (l : log_file) : bool := String.eqb (lf_base_commit l) k.
Definition base_at (k : string) (b : base_file) : bool := String.eqb (bf_commit b) k.
Definition run_get (p : string) (start : option slice_entry) (ops : list op) (k : string) : option slice_entry :=
  match start with
  | Some e => Some (fst e, with_logs (snd e) (log_extend (fs_logs (snd e)) (filter (at_commit k) (logs_of ops))))
  | None => match find (base_at k) (bases_of ops) with
            | Some b => Some (k, with_logs (new_slice b p) (log_extend [] (filter (at_commit k) (logs_of ops))))
            | None => None
            end
  end.

Lemma run_cons : forall g o ops g', run g (o :: ops) = Some g' ->
  exists g1, apply_op g o = (g1, Ok tt) /\ run g1 ops = Some g'.
Proof.
  intros g o ops g' H. cbn in H. destruct (apply_op g o) as [g1 [[]|e|]]; try discriminate. eauto.
Qed.

Lemma with_logs_id : forall s, with_logs s (fs_logs s) = s.
Proof. intros []. reflexivity. Qed.
Lemma with_logs_twice : forall s a c, with_logs (with_logs s a) c = with_logs s c.
Proof. intros []. reflexivity. Qed.
Lemma log_extend_cons : forall s f l, log_extend s (f :: l) = log_extend (log_insert f s) l.
Proof. reflexivity. Qed.
Lemma log_extend_nil : forall s, log_extend s [] = s.
Proof. reflexivity. Qed.
Lemma logs_of_log : forall l ops, logs_of (AddLog l :: ops) = l :: logs_of ops.
Proof. reflexivity. Qed.
Lemma logs_of_base : forall b ops, logs_of (AddBase b :: ops) = logs_of ops.
Proof. reflexivity. Qed.
Lemma bases_of_log : forall l ops, bases_of (AddLog l :: ops) = bases_of ops.
Proof. reflexivity. Qed.
Lemma bases_of_base : forall b ops, bases_of (AddBase b :: ops) = b :: bases_of ops.
Proof. reflexivity. Qed.

Lemma run_spec : forall ops g g', wf_group g -> run g ops = Some g' ->
  wf_group g' /\ fg_id g' = fg_id g /\ fg_partition g' = fg_partition g
  /\ (forall k, slices_get k (fg_slices g') = run_get (fg_partition g) (slices_get k (fg_slices g)) ops k)
  /\ NoDup (map bf_commit (bases_of ops))
  /\ (forall b, In b (bases_of ops) -> slices_get (bf_commit b) (fg_slices g) = None)
  /\ (forall l, In l (logs_of ops) -> slices_get (lf_base_commit l) (fg_slices g) <> None
        \/ In (lf_base_commit l) (map bf_commit (bases_of ops))).
Proof.
  induction ops as [|o ops IH]; intros g g' W H.
  - cbn in H. injection H as <-. split; [assumption|]. split; [reflexivity|]. split; [reflexivity|]. split; [|split; [constructor|split; intros x []]].
    intros k. cbn. destruct (slices_get k (fg_slices g)) as [[k' s]|]; [|reflexivity]. cbn.
    now rewrite with_logs_id.
  - apply run_cons in H as [g1 [Ho H]]. destruct o as [b|l]; cbn [apply_op] in Ho.
    + pose proof (wf_add_base _ _ _ W Ho) as W1. apply add_base_ok in Ho as [Hn ->].
      destruct (IH _ _ W1 H) as [W' [I' [P' [G' [D' [B' L']]]]]]. cbn in I', P'.
      assert (Gk : forall k, slices_get k (fg_slices (with_slices g (slices_put (bf_commit b) (new_slice b (fg_partition g)) (fg_slices g))))
                = match scmp k (bf_commit b) with Eq => Some (bf_commit b, new_slice b (fg_partition g)) | _ => slices_get k (fg_slices g) end).
      { intros k. cbn [with_slices fg_slices]. rewrite slices_get_put by apply W. reflexivity. }
      split; [assumption|]. split; [assumption|]. split; [assumption|].
      assert (Hb : forall x, In x (bases_of ops) -> bf_commit x <> bf_commit b).
      { intros x Hx E. specialize (B' x Hx). rewrite Gk, E, scmp_refl in B'. discriminate. }
      split; [|split; [|split]].
      * intros k. rewrite G', Gk. cbn [with_slices fg_partition].
        unfold run_get. rewrite logs_of_base, bases_of_base. cbn [find]. unfold base_at at 2.
        destruct (scmp k (bf_commit b)) eqn:Ek.
        -- apply scmp_eq in Ek. subst k. rewrite Hn, String.eqb_refl. reflexivity.
        -- destruct (slices_get k (fg_slices g)); [reflexivity|].
           destruct (String.eqb_spec (bf_commit b) k) as [E|E]; [subst k; rewrite scmp_refl in Ek; discriminate|]. reflexivity.
        -- destruct (slices_get k (fg_slices g)); [reflexivity|].
           destruct (String.eqb_spec (bf_commit b) k) as [E|E]; [subst k; rewrite scmp_refl in Ek; discriminate|]. reflexivity.
      * rewrite bases_of_base. cbn. constructor; [|assumption]. intros Hin. apply in_map_iff in Hin as [x [E Hx]].
        now apply (Hb x Hx).
      * rewrite bases_of_base. intros x [<-|Hx]; [assumption|]. specialize (B' x Hx). rewrite Gk in B'.
        destruct (scmp (bf_commit x) (bf_commit b)); [discriminate|assumption|assumption].
      * rewrite logs_of_base, bases_of_base. intros l Hl. destruct (L' l Hl) as [X|X]; [|right; now right].
        rewrite Gk in X. destruct (scmp (lf_base_commit l) (bf_commit b)) eqn:E; [|now left|now left].
        apply scmp_eq in E. right. left. congruence.
    + pose proof (wf_add_log _ _ _ W Ho) as W1. apply add_log_ok in Ho as [[e He] ->].
      destruct (IH _ _ W1 H) as [W' [I' [P' [G' [D' [B' L']]]]]]. cbn in I', P'.
      assert (Gk : forall k, slices_get k (fg_slices (with_slices g (slices_update (lf_base_commit l)
                (fun s => with_logs s (log_insert l (fs_logs s))) (fg_slices g))))
                = match scmp k (lf_base_commit l) with
                  | Eq => option_map (fun e => (fst e, with_logs (snd e) (log_insert l (fs_logs (snd e))))) (slices_get k (fg_slices g))
                  | _ => slices_get k (fg_slices g) end).
      { intros k. cbn [with_slices fg_slices]. rewrite slices_get_update. reflexivity. }
      split; [assumption|]. split; [assumption|]. split; [assumption|].
      split; [|split; [|split]].
      * intros k. rewrite G', Gk. cbn [with_slices fg_partition].
        unfold run_get. rewrite logs_of_log, bases_of_log. cbn [filter].
        replace (at_commit k l) with (String.eqb (lf_base_commit l) k) by reflexivity.
        destruct (scmp k (lf_base_commit l)) eqn:Ek.
        -- apply scmp_eq in Ek. subst k. rewrite He, String.eqb_refl. cbn. rewrite with_logs_twice. reflexivity.
        -- destruct (String.eqb_spec (lf_base_commit l) k) as [E|E]; [subst k; rewrite scmp_refl in Ek; discriminate|]. reflexivity.
        -- destruct (String.eqb_spec (lf_base_commit l) k) as [E|E]; [subst k; rewrite scmp_refl in Ek; discriminate|]. reflexivity.
      * now rewrite bases_of_log.
      * rewrite bases_of_log. intros x Hx. specialize (B' x Hx). rewrite Gk in B'.
        destruct (scmp (bf_commit x) (lf_base_commit l)); [|assumption|assumption].
        destruct (slices_get (bf_commit x) (fg_slices g)); [discriminate|reflexivity].
      * rewrite logs_of_log, bases_of_log. intros x [<-|Hx]; [left; congruence|].
        destruct (L' x Hx) as [X|X]; [|now right]. left. rewrite Gk in X.
        destruct (scmp (lf_base_commit x) (lf_base_commit l)); [|assumption|assumption].
        destruct (slices_get (lf_base_commit x) (fg_slices g)); [discriminate|assumption].
Qed.

Lemma bases_of_perm : forall o1 o2, Permutation o1 o2 -> Permutation (bases_of o1) (bases_of o2).
Proof. intros. unfold bases_of. now apply Permutation_flat_map. Qed.
Lemma logs_of_perm : forall o1 o2, Permutation o1 o2 -> Permutation (logs_of o1) (logs_of o2).
Proof. intros. unfold logs_of. now apply Permutation_flat_map. Qed.

Lemma find_unique_perm : forall A (p : A -> bool) l1 l2, Permutation l1 l2 ->
  (forall x y, In x l1 -> In y l1 -> p x = true -> p y = true -> x = y) -> find p l1 = find p l2.
Proof.
  intros A p l1 l2 P U. destruct (find p l1) as [x|] eqn:E1; destruct (find p l2) as [y|] eqn:E2; auto.
  - apply find_some in E1 as [X1 X2]. apply find_some in E2 as [Y1 Y2]. f_equal.
    apply U; auto. eapply Permutation_in; [symmetry|]; eauto.
  - apply find_some in E1 as [X1 X2]. rewrite (find_none _ _ E2 x) in X2; [discriminate|]. eapply Permutation_in; eauto.
  - apply find_some in E2 as [X1 X2]. rewrite (find_none _ _ E1 y) in X2; [discriminate|].
    eapply Permutation_in; [symmetry|]; eauto.
Qed.
Lemma find_base_perm : forall k l1 l2, Permutation l1 l2 -> NoDup (map bf_commit l1) ->
  find (base_at k) l1 = find (base_at k) l2.
Proof.
  intros k l1 l2 P D. apply find_unique_perm; [assumption|].
  intros x y Hx Hy Ex Ey. unfold base_at in *. apply String.eqb_eq in Ex, Ey.
  assert (E : bf_commit x = bf_commit y) by congruence. clear Ex Ey P.
  revert x y Hx Hy E. induction l1 as [|a l IH]; [intros x y []|]; intros x y [<-|Hx] [<-|Hy] E; auto; inversion D; subst.
  - elim H1. rewrite E. now apply in_map.
  - elim H1. rewrite <- E. now apply in_map.
  - now apply IH.
Qed.

Lemma uniform_key_inj : forall ls a c, uniform_logs ls -> In a ls -> In c ls -> log_key a = log_key c -> a = c.
Proof.
  intros ls a c U Ha Hc E. destruct (U a c Ha Hc) as [E1 [E2 H]]. apply H.
  unfold log_key in E. injection E as F1 F2 F3. unfold log_file_name. congruence.
Qed.

Lemma log_extend_perm : forall l1 l2, Permutation l1 l2 ->
  (forall a c, In a l1 -> In c l1 -> log_key a = log_key c -> a = c) -> log_extend [] l1 = log_extend [] l2.
Proof.
  intros l1 l2 P U. apply (ssorted_ext log_key log_key_cmp); auto using log_key_cmp_eq, log_key_cmp_antisym.
  - apply log_extend_sorted. constructor.
  - apply log_extend_sorted. constructor.
  - intros k. fold lget. rewrite !lget_extend by constructor. cbn. apply find_unique_perm; [assumption|].
    intros x y Hx Hy Ex Ey. apply key_is_true in Ex, Ey. apply U; congruence.
Qed.

Lemma filter_perm : forall A (p : A -> bool) l1 l2, Permutation l1 l2 -> Permutation (filter p l1) (filter p l2).
Proof.
  intros A p l1 l2 H. induction H; cbn; auto.
  - destruct (p x); auto.
  - destruct (p x), (p y); auto. apply perm_swap.
  - etransitivity; eauto.
Qed.

Lemma run_perm_eq : forall id p ops1 ops2 g1 g2, Permutation ops1 ops2 -> uniform_logs (logs_of ops1) ->
  run (new_group id p) ops1 = Some g1 -> run (new_group id p) ops2 = Some g2 -> g1 = g2.
Proof.
  intros id p ops1 ops2 g1 g2 P U R1 R2.
  destruct (run_spec _ _ _ (wf_new id p) R1) as [W1 [I1 [P1 [G1 [D1 _]]]]].
  destruct (run_spec _ _ _ (wf_new id p) R2) as [W2 [I2 [P2 [G2 [D2 _]]]]].
  assert (Es : fg_slices g1 = fg_slices g2).
  { apply slices_ext; [apply W1|apply W2|]. intros k. rewrite G1, G2. unfold run_get. cbn [new_group fg_slices slices_get sget].
    replace (slices_get k []) with (@None slice_entry) by reflexivity.
    rewrite (find_base_perm k _ _ (bases_of_perm _ _ P) D1). destruct (find (base_at k) (bases_of ops2)); [|reflexivity].
    do 3 f_equal. apply log_extend_perm.
    - apply filter_perm. now apply logs_of_perm.
    - intros a c Ha Hc E. apply filter_In in Ha as [Ha _]. apply filter_In in Hc as [Hc _].
      eapply uniform_key_inj; eauto. }
  destruct g1, g2; cbn in *; congruence.
Qed.

(** contents after a history *)
Lemma has_key_filter : forall k c v t ls, k = c -> (has_key (c, v, t) (filter (at_commit k) ls) <-> has_key (c, v, t) ls).
Proof.
  intros k c v t ls ->. unfold has_key. split.
  - intros [l [H E]]. apply filter_In in H as [H _]. eauto.
  - intros [l [H E]]. exists l. split; [|assumption]. apply filter_In. split; [assumption|].
    unfold at_commit. unfold log_key in E. injection E as -> _ _. apply String.eqb_refl.
Qed.

Lemma run_contents : forall ops g g', wf_group g -> run g ops = Some g' ->
  fg_id g' = fg_id g /\ fg_partition g' = fg_partition g
  /\ (forall c n, has_base g' c n <->
        has_base g c n \/ exists b, In b (bases_of ops) /\ bf_commit b = c /\ base_file_name b = n)
  /\ (forall c v t, has_log g' c v t <->
        has_log g c v t \/ exists l, In l (logs_of ops)
          /\ lf_base_commit l = c /\ lf_version l = v /\ lf_write_token l = t).
Proof.
  intros ops g g' W R. destruct (run_spec _ _ _ W R) as [W' [I' [P' [G' [D' [B' L']]]]]].
  split; [assumption|]. split; [assumption|]. split.
  - intros c n. rewrite (has_base_get _ c n W'), (has_base_get _ c n W). split.
    + intros [e [He Hn]]. rewrite G' in He. unfold run_get in He. destruct (slices_get c (fg_slices g)) as [e0|] eqn:E0.
      * injection He as <-. left. exists e0. auto.
      * destruct (find (base_at c) (bases_of ops)) as [b|] eqn:Eb; [|discriminate]. injection He as <-.
        apply find_some in Eb as [Hb Hc]. apply String.eqb_eq in Hc. right. exists b. auto.
    + rewrite G'. unfold run_get. intros [[e0 [E0 Hn]]|[b [Hb [Hc Hn]]]].
      * rewrite E0. eexists. split; [reflexivity|]. exact Hn.
      * pose proof (B' b Hb) as Bb. rewrite Hc in Bb. rewrite Bb. destruct (find (base_at c) (bases_of ops)) as [b'|] eqn:Eb.
        -- eexists. split; [reflexivity|]. cbn.
           assert (b' = b); [|congruence]. apply find_some in Eb as [Hb' Hc']. apply String.eqb_eq in Hc'.
           assert (E : bf_commit b' = bf_commit b) by congruence. clear - Hb Hb' E D'.
           induction (bases_of ops) as [|a l IH]; [elim Hb|]. inversion D'; subst.
           destruct Hb as [->|Hb]; destruct Hb' as [->|Hb']; auto.
           ++ elim H1. rewrite <- E. now apply in_map.
           ++ elim H1. rewrite E. now apply in_map.
        -- pose proof (find_none _ _ Eb b Hb) as F. unfold base_at in F. rewrite Hc, String.eqb_refl in F. discriminate.
  - intros c v t. rewrite (has_log_get _ c v t W'), (has_log_get _ c v t W).
    assert (X : (exists l, In l (logs_of ops) /\ lf_base_commit l = c /\ lf_version l = v /\ lf_write_token l = t)
                <-> has_key (c, v, t) (logs_of ops)).
    { unfold has_key, log_key. split; intros [l [H E]]; exists l; (split; [assumption|]).
      - destruct E as [-> [-> ->]]. reflexivity.
      - injection E as -> -> ->. auto. }
    rewrite X. split.
    + intros [e [He Hk]]. rewrite G' in He. unfold run_get in He. destruct (slices_get c (fg_slices g)) as [e0|] eqn:E0.
      * injection He as <-. cbn in Hk. apply has_key_extend in Hk.
        -- rewrite has_key_filter in Hk by reflexivity. destruct Hk; [now right|left; eauto].
        -- apply slices_get_some in E0 as [E0 _]. destruct W as [_ F]. rewrite Forall_forall in F.
           now destruct (F _ E0) as [_ [_ [S _]]].
      * destruct (find (base_at c) (bases_of ops)) as [b|] eqn:Eb; [|discriminate]. injection He as <-.
        cbn in Hk. apply has_key_extend in Hk; [|constructor]. rewrite has_key_filter in Hk by reflexivity.
        destruct Hk as [Hk|[x [[] _]]]. now right.
    + rewrite G'. unfold run_get. intros [[e0 [E0 Hk]]|Hk].
      * rewrite E0. eexists. split; [reflexivity|]. cbn. apply has_key_extend; [|now right].
        apply slices_get_some in E0 as [E0 _]. destruct W as [_ F]. rewrite Forall_forall in F.
        now destruct (F _ E0) as [_ [_ [S _]]].
      * pose proof Hk as [l [Hl Kl]]. unfold log_key in Kl. injection Kl as Kc Kv Kt.
        destruct (slices_get c (fg_slices g)) as [e0|] eqn:E0.
        -- eexists. split; [reflexivity|]. cbn. apply has_key_extend.
           ++ apply slices_get_some in E0 as [E0 _]. destruct W as [_ F]. rewrite Forall_forall in F.
              now destruct (F _ E0) as [_ [_ [S _]]].
           ++ left. now rewrite has_key_filter.
        -- destruct (L' l Hl) as [Y|Y]; [rewrite Kc in Y; congruence|].
           destruct (find (base_at c) (bases_of ops)) as [b|] eqn:Eb.
           ++ eexists. split; [reflexivity|]. cbn. apply has_key_extend; [constructor|]. left. now rewrite has_key_filter.
           ++ apply in_map_iff in Y as [b [Hb Hin]]. pose proof (find_none _ _ Eb b Hin) as F.
              unfold base_at in F. rewrite Hb, Kc, String.eqb_refl in F. discriminate.
Qed.

Lemma run_perm_contents : forall g ops1 ops2 g1 g2, wf_group g -> Permutation ops1 ops2 ->
  run g ops1 = Some g1 -> run g ops2 = Some g2 -> same_contents g1 g2.
Proof.
  intros g ops1 ops2 g1 g2 W P R1 R2.
  destruct (run_contents _ _ _ W R1) as [I1 [P1 [B1 L1]]]. destruct (run_contents _ _ _ W R2) as [I2 [P2 [B2 L2]]].
  pose proof (bases_of_perm _ _ P) as PB. pose proof (logs_of_perm _ _ P) as PL.
  split; [congruence|]. split; [congruence|]. split.
  - intros c n. rewrite B1, B2.
    assert (forall b, In b (bases_of ops1) <-> In b (bases_of ops2)).
    { intros b. split; apply Permutation_in; [assumption|now symmetry]. }
    split; (intros [H1|[b [H1 H2]]]; [now left|right; exists b; split; [now apply H|assumption]]).
  - intros c v t. rewrite L1, L2.
    assert (forall b, In b (logs_of ops1) <-> In b (logs_of ops2)).
    { intros b. split; apply Permutation_in; [assumption|now symmetry]. }
    split; (intros [H1|[b [H1 H2]]]; [now left|right; exists b; split; [now apply H|assumption]]).
Qed.

(** adding all base files and then all log files *)
Lemma run_app : forall a c g, run g (a ++ c) = match run g a with Some g' => run g' c | None => None end.
Proof.
  induction a as [|o a IH]; intros c g; [reflexivity|]. cbn. destruct (apply_op g o) as [g1 [[]|e|]]; auto.
Qed.

Lemma run_bases : forall bs g, wf_group g -> NoDup (map bf_commit bs) ->
  (forall b s, In b bs -> In s (slices g) -> bf_commit (fs_base s) <> bf_commit b) ->
  exists g', run g (map AddBase bs) = Some g'.
Proof.
  induction bs as [|b bs IH]; intros g W D H; [eexists; reflexivity|].
  cbn. destruct (proj2 (add_base_iff _ b W)) as [g1 H1].
  { intros s Hs. apply H; [now left|assumption]. }
  rewrite H1. inversion D as [|? ? D1 D2]; subst. apply IH; auto.
  - eapply wf_add_base; eauto.
  - intros x s Hx Hs E. pose proof (wf_add_base _ _ _ W H1) as W1.
    apply in_slices in Hs; [|assumption]. apply add_base_ok in H1 as [_ ->]. cbn in Hs.
    rewrite slices_get_put in Hs by apply W. destruct (scmp (bf_commit (fs_base s)) (bf_commit b)) eqn:Eb.
    + apply scmp_eq in Eb. apply D1. apply in_map_iff. exists x. split; [congruence|assumption].
    + apply (H x s); [now right| |assumption]. now apply in_slices.
    + apply (H x s); [now right| |assumption]. now apply in_slices.
Qed.

Lemma run_logs : forall ls g, wf_group g ->
  (forall l, In l ls -> exists s, In s (slices g) /\ bf_commit (fs_base s) = lf_base_commit l) ->
  exists g', run g (map AddLog ls) = Some g'.
Proof.
  induction ls as [|l ls IH]; intros g W H; [eexists; reflexivity|].
  cbn. destruct (proj2 (add_log_iff _ l W)) as [g1 H1]; [apply H; now left|].
  rewrite H1. pose proof (wf_add_log _ _ _ W H1) as W1. apply IH; [assumption|].
  intros x Hx. destruct (H x (or_intror Hx)) as [s [Hs E]]. apply in_slices in Hs; [|assumption].
  apply add_log_ok in H1 as [_ ->].
  destruct (slices_get (bf_commit (fs_base s)) (slices_update (lf_base_commit l)
      (fun s => with_logs s (log_insert l (fs_logs s))) (fg_slices g))) as [e|] eqn:G.
  - destruct (slices_get_slice (with_slices g _) _ _ W1 G) as [X [Y _]]. exists (snd e). split; [exact X|]. congruence.
  - rewrite slices_get_update, Hs in G. destruct (scmp (bf_commit (fs_base s)) (lf_base_commit l)); discriminate.
Qed.

Lemma map_run_add : forall bs g g', add_base_files g bs = (g', Ok tt) <-> run g (map AddBase bs) = Some g'.
Proof.
  induction bs as [|b bs IH]; intros g g'; cbn.
  - split; intros H; injection H as <-; reflexivity.
  - destruct (add_base_file g b) as [g1 [[]|e|]]; [apply IH| |]; split; discriminate.
Qed.
Lemma map_run_add_log : forall ls g g', add_log_files g ls = (g', Ok tt) <-> run g (map AddLog ls) = Some g'.
Proof.
  induction ls as [|b bs IH]; intros g g'; cbn.
  - split; intros H; injection H as <-; reflexivity.
  - destruct (add_log_file g b) as [g1 [[]|e|]]; [apply IH| |]; split; discriminate.
Qed.

Lemma bases_of_maps : forall bs ls, bases_of (map AddBase bs ++ map AddLog ls)%list = bs.
Proof.
  intros. unfold bases_of. rewrite flat_map_app. rewrite !flat_map_concat_map, !map_map.
  replace (List.concat (map (fun x : log_file => []) ls)) with (@nil base_file).
  - rewrite app_nil_r. induction bs; cbn; congruence.
  - induction ls; cbn; congruence.
Qed.
Lemma logs_of_maps : forall bs ls, logs_of (map AddBase bs ++ map AddLog ls)%list = ls.
Proof.
  intros. unfold logs_of. rewrite flat_map_app. rewrite !flat_map_concat_map, !map_map.
  replace (List.concat (map (fun x : base_file => []) bs)) with (@nil log_file).
  - cbn. induction ls; cbn; congruence.
  - induction bs; cbn; congruence.
Qed.

Lemma build_succeeds : forall id p bs ls, NoDup (map bf_commit bs) ->
  (forall l, In l ls -> In (lf_base_commit l) (map bf_commit bs)) ->
  exists g, run (new_group id p) (map AddBase bs ++ map AddLog ls) = Some g.
Proof.
  intros id p bs ls D H. rewrite run_app.
  destruct (run_bases bs _ (wf_new id p) D) as [g Hg]; [intros b s _ []|]. rewrite Hg.
  destruct (run_spec _ _ _ (wf_new id p) Hg) as [W _]. apply run_logs; [assumption|].
  intros l Hl. apply H in Hl. apply in_map_iff in Hl as [b [Eb Hb]].
  assert (X : has_base g (bf_commit b) (base_file_name b)).
  { apply (run_contents _ _ _ (wf_new id p) Hg). right. exists b. split; [|auto].
    pose proof (bases_of_maps bs []) as E. cbn in E. rewrite app_nil_r in E. now rewrite E. }
  destruct X as [s [Hs [Ec _]]]. exists s. split; [assumption|congruence].
Qed.

(** the log files of a slice after a history *)
Lemma run_logs_exact : forall id p ops g, uniform_logs (logs_of ops) -> run (new_group id p) ops = Some g ->
  forall s l, In s (slices g) ->
    (In l (fs_logs s) <-> In l (logs_of ops) /\ lf_base_commit l = bf_commit (fs_base s)).
Proof.
  intros id p ops g U R s l Hs. destruct (run_spec _ _ _ (wf_new id p) R) as [W [I [P [G [D [B L]]]]]].
  pose proof Hs as Hs'. apply in_slices in Hs; [|assumption]. rewrite G in Hs. unfold run_get in Hs.
  replace (slices_get (bf_commit (fs_base s)) (fg_slices (new_group id p))) with (@None slice_entry) in Hs by reflexivity.
  destruct (find (base_at (bf_commit (fs_base s))) (bases_of ops)) as [b|]; [|discriminate].
  injection Hs as Es. set (k := bf_commit (fs_base s)) in *.
  assert (Hlogs : fs_logs s = log_extend [] (filter (at_commit k) (logs_of ops))).
  { apply (f_equal fs_logs) in Es. symmetry. exact Es. }
  rewrite Hlogs.
  assert (S : lsorted (log_extend [] (filter (at_commit k) (logs_of ops)))) by (apply log_extend_sorted; constructor).
  split.
  - intros Hin. apply (sget_in log_key log_key_cmp log_key_cmp_eq) in Hin; [|assumption].
    change (lget (log_key l) (log_extend [] (filter (at_commit k) (logs_of ops))) = Some l) in Hin.
    rewrite lget_extend in Hin by constructor. cbn in Hin. apply find_some in Hin as [Hin _].
    apply filter_In in Hin as [H1 H2]. split; [assumption|]. now apply String.eqb_eq in H2.
  - intros [H1 H2].
    assert (X : lget (log_key l) (log_extend [] (filter (at_commit k) (logs_of ops))) = Some l).
    { rewrite lget_extend by constructor. cbn.
      destruct (find (key_is (log_key l)) (filter (at_commit k) (logs_of ops))) as [x|] eqn:E.
      - apply find_some in E as [X1 X2]. apply key_is_true in X2. apply filter_In in X1 as [X1 _].
        f_equal. eapply uniform_key_inj; eauto.
      - pose proof (find_none _ _ E l) as F. rewrite (proj2 (key_is_true _ _)) in F by reflexivity.
        discriminate F. apply filter_In. split; [assumption|]. unfold at_commit. rewrite H2. apply String.eqb_refl. }
    apply sget_some in X; [|apply log_key_cmp_eq]. apply X.
Qed.

(** ** Order of log files *)
Open Scope Z_scope.
Lemma dec_val_shift : forall s a c, all_digits s ->
  dec_val a s - dec_val c s = (a - c) * 10 ^ Z.of_nat (String.length s).
Proof.
  induction s as [|x s IH]; intros a c D; [cbn; lia|].
  cbn [dec_val String.length]. rewrite IH by (cbn in D; tauto). rewrite Nat2Z.inj_succ, Z.pow_succ_r by lia.
  ring.
Qed.
Lemma dec_val_bound : forall s a, all_digits s ->
  a * 10 ^ Z.of_nat (String.length s) <= dec_val a s < (a + 1) * 10 ^ Z.of_nat (String.length s).
Proof.
  induction s as [|x s IH]; intros a D; [cbn; lia|].
  cbn [dec_val String.length]. cbn in D. destruct D as [D1 D2].
  specialize (IH (a * 10 + (Z.of_N (N_of_ascii x) - 48)) D2).
  rewrite Nat2Z.inj_succ, Z.pow_succ_r by lia.
  pose proof (Z.pow_pos_nonneg 10 (Z.of_nat (String.length s)) ltac:(lia) ltac:(lia)). nia.
Qed.
Lemma dec_order : forall s t a, String.length s = String.length t -> all_digits s -> all_digits t ->
  Z.compare (dec_val a s) (dec_val a t) = scmp s t.
Proof.
  induction s as [|x s IH]; intros [|y t] a L Ds Dt; try discriminate L.
  - cbn. apply Z.compare_refl.
  - cbn in L. injection L as L. cbn in Ds, Dt. destruct Ds as [X1 X2], Dt as [Y1 Y2]. cbn [dec_val].
    change (scmp (String x s) (String y t)) with
      (match N.compare (N_of_ascii x) (N_of_ascii y) with Eq => scmp s t | ne => ne end).
    pose proof (dec_val_bound s (a * 10 + (Z.of_N (N_of_ascii x) - 48)) X2) as Bs.
    pose proof (dec_val_bound t (a * 10 + (Z.of_N (N_of_ascii y) - 48)) Y2) as Bt.
    rewrite <- L in Bt.
    pose proof (Z.pow_pos_nonneg 10 (Z.of_nat (String.length s)) ltac:(lia) ltac:(lia)) as Pp.
    destruct (N.compare_spec (N_of_ascii x) (N_of_ascii y)) as [E|E|E].
    + rewrite E. now apply IH.
    + apply Z.compare_lt_iff. nia.
    + apply Z.compare_gt_iff. nia.
Qed.
Close Scope Z_scope.

Lemma sorted_before : forall (ls : list log_file) pre a mid c post,
  lsorted ls -> ls = (pre ++ a :: mid ++ c :: post)%list -> log_cmp a c = Lt.
Proof.
  intros ls pre a mid c post S ->. unfold lsorted, ssorted in S. induction pre as [|x pre IH]; cbn in S.
  - inversion S as [|? ? _ F]; subst. rewrite Forall_forall in F. apply F. apply in_app_iff. right. now left.
  - inversion S; subst. auto.
Qed.

Lemma logs_sorted : forall g s, wf_group g -> In s (slices g) -> lsorted (fs_logs s).
Proof.
  intros g s W Hs. apply in_slices in Hs; [|assumption]. destruct W as [_ F]. rewrite Forall_forall in F.
  apply slices_get_some in Hs as [Hs _]. now destruct (F _ Hs) as [_ [_ [S _]]].
Qed.
Lemma logs_commit : forall g s l, wf_group g -> In s (slices g) -> In l (fs_logs s) ->
  lf_base_commit l = bf_commit (fs_base s).
Proof.
  intros g s l W Hs Hl. apply in_slices in Hs; [|assumption]. destruct W as [_ F]. rewrite Forall_forall in F.
  apply slices_get_some in Hs as [Hs _]. destruct (F _ Hs) as [_ [_ [_ X]]]. rewrite Forall_forall in X. now apply X.
Qed.

Lemma version_order : forall g s pre a mid c post, wf_group g -> In s (slices g) ->
  fs_logs s = (pre ++ a :: mid ++ c :: post)%list ->
  sle (lf_version a) (lf_version c)
  /\ (lf_version a = lf_version c -> slt (lf_write_token a) (lf_write_token c)).
Proof.
  intros g s pre a mid c post W Hs E. pose proof (sorted_before _ _ _ _ _ _ (logs_sorted _ _ W Hs) E) as H.
  unfold log_cmp, log_key, log_key_cmp in H.
  rewrite (logs_commit _ s a W Hs) in H by (rewrite E; apply in_app_iff; right; now left).
  rewrite (logs_commit _ s c W Hs) in H by (rewrite E; apply in_app_iff; right; right; apply in_app_iff; right; now left).
  rewrite scmp_refl in H. unfold sle, slt. destruct (scmp (lf_version a) (lf_version c)) eqn:Ev.
  - split; [discriminate|]. auto.
  - split; [discriminate|]. intros X. rewrite X, scmp_refl in Ev. discriminate.
  - discriminate.
Qed.

Lemma version_order_numeric : forall g s pre a mid c post, wf_group g -> In s (slices g) ->
  fs_logs s = (pre ++ a :: mid ++ c :: post)%list ->
  all_digits (lf_version a) -> all_digits (lf_version c) ->
  String.length (lf_version a) = String.length (lf_version c) ->
  (dec_val 0 (lf_version a) <= dec_val 0 (lf_version c))%Z.
Proof.
  intros g s pre a mid c post W Hs E Da Dc L. destruct (version_order _ _ _ _ _ _ _ W Hs E) as [H _].
  unfold sle in H. rewrite <- (dec_order _ _ 0 L Da Dc) in H. exact H.
Qed.

Lemma reachable_keys : forall g, reachable g ->
  map fst (fg_slices g) = map (fun s => bf_commit (fs_base s)) (slices g)
  /\ NoDup (map (fun s => bf_commit (fs_base s)) (slices g))
  /\ forall s, In s (slices g) -> fs_partition s = fg_partition g
       /\ forall l, In l (fs_logs s) -> lf_base_commit l = bf_commit (fs_base s).
Proof.
  intros g R. pose proof (reachable_wf g R) as W. pose proof W as [S F]. rewrite Forall_forall in F.
  assert (E : map fst (fg_slices g) = map (fun s => bf_commit (fs_base s)) (slices g)).
  { unfold slices. rewrite map_map. apply map_ext_in. intros e He. now destruct (F e He) as [-> _]. }
  split; [exact E|]. split.
  - rewrite <- E. clear - S. unfold msorted, ssorted in S. induction S as [|e l S IH Fe]; cbn; constructor; [|assumption].
    intros Hin. apply in_map_iff in Hin as [x [Hx Hin]]. rewrite Forall_forall in Fe. specialize (Fe x Hin).
    unfold key_lt, ekey in Fe. rewrite Hx, scmp_refl in Fe. discriminate.
  - intros s Hs. split.
    + unfold slices in Hs. apply in_map_iff in Hs as [e [<- He]]. now destruct (F e He) as [_ [-> _]].
    + intros l Hl. eapply logs_commit; eauto.
Qed.
