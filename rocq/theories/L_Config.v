(** Proofs about options, properties files and validation. *)
From Verif Require Import Base Str L_Base L_Str M_Utf8 L_Instant M_Config S_Config.
Local Open Scope string_scope.

(** ** Maps *)
Lemma oget_oput : forall k v m q, oget q (oput k v m) = if String.eqb k q then Some v else oget q m.
Proof.
  intros k v. induction m as [|[k' v'] m IH]; intros q; cbn; [reflexivity|]. destruct (String.eqb_spec k' k) as [ -> |N]; cbn.
  - now destruct (String.eqb k q).
  - rewrite IH. destruct (String.eqb_spec k' q) as [ -> |N']; [|reflexivity]. destruct (String.eqb_spec k q) as [ -> |]; [now elim N|reflexivity].
Qed.
Lemma oput_keys : forall k v m q, In q (map fst (oput k v m)) <-> q = k \/ In q (map fst m).
Proof.
  intros k v. induction m as [|[k' v'] m IH]; intros q; cbn; [intuition|]. destruct (String.eqb_spec k' k) as [ -> |N]; cbn; [intuition|]. rewrite IH. intuition.
Qed.
Lemma oput_nodup : forall k v m, one_per_key m -> one_per_key (oput k v m).
Proof.
  unfold one_per_key. intros k v. induction m as [|[k' v'] m IH]; intros H; cbn; [repeat constructor; auto|]. cbn in H. inversion H as [|x xs N D]; subst.
  destruct (String.eqb_spec k' k) as [ -> |Nk]; cbn; constructor; auto. rewrite oput_keys. intros [E|I]; [now elim Nk|contradiction].
Qed.
Lemma oget_in : forall k v m, one_per_key m -> (oget k m = Some v <-> In (k, v) m).
Proof.
  unfold one_per_key. intros k v. induction m as [|[k' v'] m IH]; intros H; cbn; [intuition discriminate|]. cbn in H. inversion H as [|x xs N D]; subst.
  destruct (String.eqb_spec k' k) as [ -> |Nk].
  - split; [intros [= ->]; now left|]. intros [[= ->]|I]; [reflexivity|]. elim N. apply in_map_iff. exists (k, v). auto.
  - rewrite IH by assumption. split; [auto|]. intros [[= -> ->]|I]; [now elim Nk|assumption].
Qed.
Lemma oget_none : forall k m, oget k m = None <-> ~ In k (map fst m).
Proof.
  intros k. induction m as [|[k' v'] m IH]; cbn; [intuition|]. destruct (String.eqb_spec k' k) as [ -> |Nk]; [split; [discriminate|intros N; elim N; now left]|].
  rewrite IH. intuition.
Qed.
Lemma oget_perm : forall l m k, Permutation l m -> one_per_key m -> oget k l = oget k m.
Proof.
  intros l m k P D. assert (D' : one_per_key l) by (unfold one_per_key in *; apply (Permutation_NoDup (l := map fst m)); [now apply Permutation_map, Permutation_sym|assumption]).
  destruct (oget k m) as [v|] eqn:E.
  - apply oget_in; [assumption|]. apply (oget_in _ _ _ D) in E. apply (Permutation_in _ (Permutation_sym P)). assumption.
  - apply oget_none. apply oget_none in E. intros I. apply E. apply (Permutation_in _ (Permutation_map fst P)). assumption.
Qed.
Lemma last_value_oget : forall m k, one_per_key m -> last_value m k = oget k m.
Proof.
  unfold one_per_key. induction m as [|[k' v'] m IH]; intros k H; cbn; [reflexivity|]. cbn in H. inversion H as [|x xs N D]; subst. rewrite IH by assumption.
  destruct (String.eqb_spec k' k) as [ -> |Nk]; [|now destruct (oget k m)]. now rewrite (proj2 (oget_none k m) N).
Qed.
Lemma oget_oputs : forall l m k, oget k (oputs l m) = first_given [last_value l k; oget k m].
Proof.
  induction l as [|[k' v'] l IH]; intros m k; cbn; [now destruct (oget k m)|]. rewrite IH, oget_oput. cbn. destruct (last_value l k); [reflexivity|].
  destruct (String.eqb k' k); [reflexivity|]. reflexivity.
Qed.
Lemma oputs_nodup : forall l m, one_per_key m -> one_per_key (oputs l m).
Proof. induction l as [|[k v] l IH]; intros m H; [assumption|]. cbn. apply IH. now apply oput_nodup. Qed.
Lemma ohas_oget : forall k m, ohas k m = match oget k m with Some _ => true | None => false end.
Proof. reflexivity. Qed.
Lemma oget_put_if_absent : forall l m k, oget k (put_if_absent l m) = first_given [oget k m; oget k l].
Proof.
  induction l as [|[k' v'] l IH]; intros m k; cbn; [now destruct (oget k m)|]. rewrite IH. unfold ohas. destruct (oget k' m) as [x|] eqn:E.
  - destruct (String.eqb_spec k' k) as [ -> |]; [now rewrite E|reflexivity].
  - rewrite oget_oput. destruct (String.eqb_spec k' k) as [ -> |]; [now rewrite E|reflexivity].
Qed.
Lemma first_nil : forall o, first_given [o] = o.
Proof. now intros []. Qed.
Arguments is_hudi : simpl never.
Lemma oget_split : forall l h o k, oget k (fst (split_options l h o)) = first_given [when (is_hudi k) (last_value l k); oget k h]
  /\ oget k (snd (split_options l h o)) = first_given [when (negb (is_hudi k)) (last_value l k); oget k o].
Proof.
  induction l as [|[k' v'] l IH]; intros h o k; cbn [split_options last_value fst snd].
  - unfold when. destruct (is_hudi k); cbn; destruct (oget k h), (oget k o); split; reflexivity.
  - destruct (is_hudi k') eqn:E; destruct (IH (oput k' v' h) o k) as [H1 H2]; destruct (IH h (oput k' v' o) k) as [H3 H4].
    + rewrite H1, H2, oget_oput. unfold when. destruct (String.eqb_spec k' k) as [ -> |N].
      * rewrite E. cbn. destruct (last_value l k); auto.
      * destruct (is_hudi k); cbn; destruct (last_value l k); auto.
    + rewrite H3, H4, oget_oput. unfold when. destruct (String.eqb_spec k' k) as [ -> |N].
      * rewrite E. cbn. destruct (last_value l k); auto.
      * destruct (is_hudi k); cbn; destruct (last_value l k); auto.
Qed.
Lemma split_nodup : forall l h o, one_per_key h -> one_per_key o -> one_per_key (fst (split_options l h o)) /\ one_per_key (snd (split_options l h o)).
Proof. induction l as [|[k v] l IH]; intros h o H1 H2; cbn; [auto|]. destruct (is_hudi k); apply IH; auto using oput_nodup. Qed.
Lemma oget_cloud : forall env s k, oget k (cloud_vars env s) = first_given [oget k s; env_value env k].
Proof.
  induction env as [|[n v] env IH]; intros s k; cbn [cloud_vars env_value]; [cbn; now destruct (oget k s)|]. rewrite IH. unfold is_cloud, ohas.
  destruct (starts_with "AWS_" n || starts_with "AZURE_" n || starts_with "GOOGLE_" n); cbn [andb]; [|reflexivity].
  destruct (oget (to_ascii_lowercase n) s) as [x|] eqn:E; cbn [negb].
  - destruct (String.eqb_spec (to_ascii_lowercase n) k) as [ <- |]; [|reflexivity]. cbn. now rewrite E.
  - rewrite oget_oput. destruct (String.eqb_spec (to_ascii_lowercase n) k) as [ <- |]; [|reflexivity]. cbn. now rewrite E.
Qed.
Lemma oget_filter : forall (f : string -> bool) l k, oget k (filter (fun kv => f (fst kv)) l) = when (f k) (oget k l).
Proof.
  intros f. induction l as [|[k' v'] l IH]; intros k; cbn; [now destruct (f k)|]. destruct (f k') eqn:E; cbn; rewrite IH; destruct (String.eqb_spec k' k) as [ -> |]; try reflexivity; now rewrite E.
Qed.

(** ** Precedence *)
Section Resolve.
Variable iter : options -> list (string * string).
Hypothesis iter_all : visits_all iter.
Lemma iter_get : forall m k, one_per_key m -> oget k (iter m) = oget k m.
Proof. intros m k H. apply oget_perm; [apply iter_all|assumption]. Qed.
Lemma iter_nodup : forall m, one_per_key m -> one_per_key (iter m).
Proof. intros m H. unfold one_per_key in *. apply (Permutation_NoDup (l := map fst m)); [apply Permutation_map, Permutation_sym, iter_all|assumption]. Qed.
Lemma iter_last : forall m k, one_per_key m -> last_value (iter m) k = oget k m.
Proof. intros m k H. rewrite last_value_oget by now apply iter_nodup. now apply iter_get. Qed.

Lemma user_get : forall b k, one_per_key (b_options b) ->
  oget k (b_hudi (resolve_user iter b)) = first_given [if String.eqb "hoodie.base.path" k then Some (b_base b) else oget k (b_hudi b); when (is_hudi k) (oget k (b_options b))]
  /\ oget k (b_storage (resolve_user iter b)) = first_given [oget k (b_storage b); when (negb (is_hudi k)) (oget k (b_options b))].
Proof.
  intros b k D. unfold resolve_user. destruct (split_options (iter (b_options b)) [] []) as [gh go] eqn:E. cbn [b_hudi b_storage].
  destruct (oget_split (iter (b_options b)) [] [] k) as [G1 G2]. destruct (split_nodup (iter (b_options b)) [] []) as [D1 D2]; [constructor|constructor|].
  rewrite E in *. cbn [fst snd] in *. cbn [oget] in G1, G2. rewrite iter_last in G1, G2 by assumption.
  rewrite !oget_put_if_absent, !iter_get, oget_oput, G1, G2 by assumption. cbn [table_key].
  split; [destruct (String.eqb "hoodie.base.path" k); [reflexivity|]|]; cbn; unfold when; destruct (is_hudi k); cbn; destruct (oget k (b_options b)); reflexivity.
Qed.

Lemma parse_lines_nodup : forall chars ls m m', one_per_key m -> parse_lines chars ls m = Ok m' -> one_per_key m'.
Proof.
  intros chars. induction ls as [|l ls IH]; intros m m' D H; cbn in H; [now injection H as <-|]. destruct (utf8_valid l); [|discriminate].
  destruct (parse_line chars l) as [[k v]|]; [apply (IH (oput k v m)); [now apply oput_nodup|assumption]|now apply (IH m)].
Qed.
Lemma parse_nodup : forall chars data m, parse_data chars data = Ok m -> one_per_key m.
Proof. intros chars data m H. apply (parse_lines_nodup chars (lines data) []); [constructor|assumption]. Qed.

Lemma imbue_global_get : forall file hudi k, oget k (imbue_global iter file hudi) = first_given [oget k hudi; when (is_hudi k) (oget k (global_options file))].
Proof.
  intros file hudi k. unfold imbue_global, global_options. destruct file as [data|e|].
  - destruct (parse_data (String " " (String "009" "=")) data) as [m|e|] eqn:E.
    + rewrite oget_put_if_absent, oget_filter, iter_get by now apply parse_nodup in E. reflexivity.
    + cbn. unfold when. destruct (is_hudi k), (oget k hudi); reflexivity.
    + cbn. unfold when. destruct (is_hudi k), (oget k hudi); reflexivity.
  - cbn. unfold when. destruct (is_hudi k), (oget k hudi); reflexivity.
  - cbn. unfold when. destruct (is_hudi k), (oget k hudi); reflexivity.
Qed.

Lemma resolve_get : forall env open properties global b b', one_per_key (b_options b) ->
  resolve iter env open properties global b = Ok b' ->
  exists storage hudi data props,
    open storage hudi = Ok tt /\ properties storage hudi = Ok data /\ parse_data "=" data = Ok props
    /\ (forall k, oget k (b_hudi b') =
         first_given [oget k props; if String.eqb "hoodie.base.path" k then Some (b_base b) else oget k (b_hudi b);
                      when (is_hudi k) (oget k (b_options b)); when (is_hudi k) (oget k (global_options (global storage hudi)))])
    /\ (forall k, oget k (b_storage b') =
         first_given [oget k (b_storage b); when (negb (is_hudi k)) (oget k (b_options b)); env_value env k])
    /\ storage = b_storage b' .
Proof.
  intros env open properties global b b' D H. unfold resolve in H. apply bind_ok in H as [u [H1 H]]. destruct u.
  apply bind_ok in H as [hudi [H2 H]]. injection H as <-. unfold imbue_properties in H2. apply bind_ok in H2 as [data [H2 H3]]. apply bind_ok in H3 as [props [H3 H4]].
  injection H4 as <-. set (b1 := resolve_env env (resolve_user iter b)) in *. exists (b_storage b1), (b_hudi b1), data, props.
  split; [assumption|]. split; [assumption|]. split; [assumption|]. cbn [b_hudi b_storage]. split; [|split; [|reflexivity]].
  - intros k. rewrite imbue_global_get, oget_oputs, iter_last by (now apply parse_nodup in H3). unfold b1. cbn [resolve_env b_hudi].
    rewrite (proj1 (user_get b k D)). cbn [first_given]. destruct (oget k props); [reflexivity|].
    destruct (String.eqb "hoodie.base.path" k); [reflexivity|]. destruct (oget k (b_hudi b)); [reflexivity|]. now destruct (when (is_hudi k) (oget k (b_options b))).
  - intros k. unfold b1. cbn [resolve_env b_storage]. rewrite oget_cloud, (proj2 (user_get b k D)). cbn [first_given]. destruct (oget k (b_storage b)); [reflexivity|].
    now destruct (when (negb (is_hudi k)) (oget k (b_options b))).
Qed.

Lemma reader_get : forall table storage opts k, one_per_key storage ->
  oget k (fst (table_reader_options iter table storage opts)) = first_given [when (is_hudi k) (last_value opts k); when (is_hudi k) (oget k storage); oget k table]
  /\ oget k (snd (table_reader_options iter table storage opts)) = first_given [when (negb (is_hudi k)) (last_value opts k); when (negb (is_hudi k)) (oget k storage)].
Proof.
  intros table storage opts k D. unfold table_reader_options, reader_options.
  assert (D1 : one_per_key (oputs opts (oputs (iter storage) []))) by (apply oputs_nodup, oputs_nodup; constructor).
  destruct (split_options (iter (oputs opts (oputs (iter storage) []))) [] []) as [h o] eqn:E.
  destruct (oget_split (iter (oputs opts (oputs (iter storage) []))) [] [] k) as [G1 G2].
  destruct (split_nodup (iter (oputs opts (oputs (iter storage) []))) [] []) as [D2 D3]; [constructor|constructor|].
  rewrite E in *. cbn [fst snd oget] in *. rewrite iter_last, !oget_oputs, iter_last in G1, G2 by assumption. cbn [oget first_given] in G1, G2.
  rewrite oget_oputs, iter_last by assumption. rewrite G1, G2. unfold when. cbn. destruct (is_hudi k); cbn; destruct (last_value opts k); cbn; try (now destruct (oget k storage)); reflexivity.
Qed.
End Resolve.

(** ** Trimming *)
From Coq Require Import ZifyBool ZifyNat ZifyN.
Lemma spaces_cons : forall c w, spaces (String c w) -> (c = " "%char \/ c = "009"%char) /\ spaces w.
Proof.
  intros c w H. split; [apply H; cbn; now rewrite Ascii.eqb_refl|]. intros x Hx. apply H. cbn. rewrite Hx. now destruct (Ascii.eqb c x).
Qed.
Lemma spaces_app : forall a b, spaces a -> spaces b -> spaces (a ++ b).
Proof. intros a b Ha Hb c H. rewrite has_char_app in H. apply orb_true_iff in H as [H|H]; auto. Qed.
Lemma spaces_char : forall c w, spaces w -> c <> " "%char -> c <> "009"%char -> has_char c w = false.
Proof. intros c w H N1 N2. destruct (has_char c w) eqn:E; [|reflexivity]. apply H in E. destruct E; contradiction. Qed.
Definition ascii_head (s : string) : Prop := match s with EmptyString => True | String c _ => (N_of_ascii c < 128)%N end.
Lemma spaces_head : forall w s, spaces w -> ascii_head s -> ascii_head (w ++ s).
Proof. intros [|c w] s H A; [exact A|]. apply spaces_cons in H as [[ -> | -> ] _]; reflexivity. Qed.
Lemma ts_ws : forall w s, spaces w -> trim_start (w ++ s) = trim_start s.
Proof. induction w as [|c w IH]; intros s H; [reflexivity|]. apply spaces_cons in H as [[ -> | -> ] H]; cbn; now apply IH. Qed.

Lemma ts_len : forall n s, (String.length s <= n)%nat -> trim_start s = s \/ (String.length (trim_start s) < String.length s)%nat.
Proof.
  induction n as [|n IH]; intros s L; [destruct s; [now left|cbn in L; lia]|]. destruct s as [|c s1]; [now left|]. cbn [trim_start]. cbn [String.length] in L.
  destruct (is_ascii_ws c). { right. cbn [String.length]. destruct (IH s1) as [ -> |]; lia. }
  destruct s1 as [|c2 s2]; [now left|]. cbn [String.length] in L. cbn zeta.
  match goal with |- context [if ?g then _ else _] => destruct g end. { right. cbn [String.length]. destruct (IH s2) as [ -> |]; lia. }
  destruct s2 as [|c3 s3]; [now left|]. cbn [String.length] in L.
  match goal with |- context [if ?g then _ else _] => destruct g end; [|now left]. right. cbn [String.length]. destruct (IH s3) as [ -> |]; lia.
Qed.
Lemma ts_le : forall s, (String.length (trim_start s) <= String.length s)%nat.
Proof. intros s. destruct (ts_len _ s (le_n _)) as [ -> |]; lia. Qed.
Lemma te_le : forall s, (String.length (trim_end s) <= String.length s)%nat.
Proof. induction s as [|c s IH]; [cbn; lia|]. cbn [trim_end]. destruct (trim_start (String c s)); cbn [String.length]; lia. Qed.
Lemma trimmed_ends : forall s, trimmed s -> trim_start s = s /\ trim_end s = s.
Proof.
  intros s H. unfold trimmed, trim in H. assert (E : trim_start s = s).
  { destruct (ts_len _ s (le_n _)) as [E|L]; [exact E|]. pose proof (te_le (trim_start s)) as L'. rewrite H in L'. lia. }
  split; [exact E|]. now rewrite E in H.
Qed.
Lemma ts_stable : forall k r, trim_start k = k -> k <> "" -> ascii_head r -> trim_start (k ++ r) = k ++ r.
Proof.
  intros k r H N A. destruct k as [|c s1]; [now elim N|]. cbn [append trim_start] in *.
  destruct (is_ascii_ws c). { pose proof (ts_le s1) as L. rewrite H in L. cbn [String.length] in L. lia. }
  destruct s1 as [|c2 s2]; cbn [append] in *.
  { destruct r as [|c2 r]; [reflexivity|]. cbn in A. cbn zeta.
    match goal with |- context [if ?g then _ else _] => destruct g eqn:E end; [exfalso; lia|]. destruct r as [|c3 r]; [reflexivity|].
    match goal with |- context [if ?g then _ else _] => destruct g eqn:E' end; [exfalso; lia|reflexivity]. }
  cbn zeta in *.
  match goal with |- context [if ?g then _ else _] => destruct g eqn:E end.
  { pose proof (ts_le s2) as L. rewrite H in L. cbn [String.length] in L. lia. }
  destruct s2 as [|c3 s3]; cbn [append] in *.
  { destruct r as [|c3 r]; [reflexivity|]. cbn in A.
    match goal with |- context [if ?g then _ else _] => destruct g eqn:E' end; [exfalso; lia|reflexivity]. }
  match goal with |- context [if ?g then _ else _] => destruct g eqn:E' end; [|reflexivity].
  pose proof (ts_le s3) as L. rewrite H in L. cbn [String.length] in L. lia.
Qed.
Lemma ts_nil_ws : forall n s w, (String.length s <= n)%nat -> spaces w -> (trim_start (s ++ w) = "" <-> trim_start s = "").
Proof.
  assert (W : forall w, spaces w -> trim_start w = "") by (intros w H; rewrite <- (app_nil_r_s w), ts_ws by assumption; reflexivity).
  induction n as [|n IH]; intros s w L S; [destruct s; [cbn [append]; split; intros; [reflexivity|now apply W]|cbn in L; lia]|].
  destruct s as [|c s1]; [cbn [append]; split; intros; [reflexivity|now apply W]|]. cbn [append trim_start]. cbn [String.length] in L.
  assert (A : ascii_head w) by (rewrite <- (app_nil_r_s w); apply spaces_head; [assumption|exact I]).
  destruct (is_ascii_ws c); [apply IH; [lia|assumption]|]. destruct s1 as [|c2 s2]; cbn [append].
  { destruct w as [|c2 w]; [split; discriminate|]. cbn in A. cbn zeta.
    match goal with |- context [if ?g then _ else _] => destruct g eqn:E end; [exfalso; lia|]. destruct w as [|c3 w]; [split; discriminate|].
    match goal with |- context [if ?g then _ else _] => destruct g eqn:E' end; [exfalso; lia|split; discriminate]. }
  cbn zeta. cbn [String.length] in L.
  match goal with |- context [if ?g then _ else _] => destruct g eqn:E end; [apply IH; [lia|assumption]|].
  destruct s2 as [|c3 s3]; cbn [append].
  { destruct w as [|c3 w]; [split; discriminate|]. cbn in A.
    match goal with |- context [if ?g then _ else _] => destruct g eqn:E' end; [exfalso; lia|split; discriminate]. }
  cbn [String.length] in L.
  match goal with |- context [if ?g then _ else _] => destruct g eqn:E' end; [apply IH; [lia|assumption]|split; discriminate].
Qed.
Lemma te_step : forall c s, trim_end (String c s) = match trim_start (String c s) with EmptyString => "" | _ => String c (trim_end s) end.
Proof. reflexivity. Qed.
Lemma te_ws : forall s w, spaces w -> trim_end (s ++ w) = trim_end s.
Proof.
  assert (W : forall w, spaces w -> trim_start w = "") by (intros w H; rewrite <- (app_nil_r_s w), ts_ws by assumption; reflexivity).
  induction s as [|c s IH]; intros w S.
  - cbn [append]. destruct w as [|c w]; [reflexivity|]. rewrite te_step, W by assumption. reflexivity.
  - change (String c s ++ w) with (String c (s ++ w)). rewrite !te_step, IH by assumption. pose proof (ts_nil_ws _ (String c s) w (le_n _) S) as Q. cbn [append] in Q.
    destruct (trim_start (String c (s ++ w))) as [|x y]; [now rewrite (proj1 Q eq_refl)|]. destruct (trim_start (String c s)); [|reflexivity]. now discriminate (proj2 Q eq_refl).
Qed.
Fixpoint ascii_end (x : string) : Prop :=
  match x with EmptyString => True | String c EmptyString => (N_of_ascii c < 128)%N | String _ r => ascii_end r end.
Lemma ascii_end_tail : forall c x, ascii_end (String c x) -> ascii_end x.
Proof. intros c [|d x] H; [exact I|exact H]. Qed.
Lemma ascii_end_app : forall a b, ascii_end b -> b <> "" -> ascii_end (a ++ b).
Proof.
  induction a as [|c a IH]; intros b H N; [exact H|]. cbn [append]. specialize (IH b H N). destruct (a ++ b) as [|d r] eqn:E; [|exact IH].
  destruct a; [cbn in E; contradiction|discriminate].
Qed.
Lemma ascii_end_spaces : forall a w, ascii_end a -> spaces w -> ascii_end (a ++ w).
Proof.
  intros a w A S. destruct w as [|c w]; [now rewrite app_nil_r_s|]. apply ascii_end_app; [|discriminate]. clear A a. revert c S.
  induction w as [|d w IH]; intros c S; [apply spaces_cons in S as [[ -> | -> ] _]; reflexivity|]. apply spaces_cons in S as [_ S]. exact (IH d S).
Qed.
Lemma ts_suffix : forall n x v, (String.length x <= n)%nat -> ascii_end x -> trim_start (x ++ v) = "" -> trim_start v = "".
Proof.
  induction n as [|n IH]; intros x v L A H; [destruct x; [exact H|cbn in L; lia]|]. destruct x as [|c x1]; [exact H|]. cbn [append trim_start] in H. cbn [String.length] in L.
  destruct (is_ascii_ws c); [apply (IH x1); [lia|now apply ascii_end_tail in A|exact H]|].
  destruct x1 as [|c2 x2]; cbn [append] in H.
  { cbn in A. destruct v as [|c2 v]; [discriminate|]. cbn zeta in H.
    match type of H with context [if ?g then _ else _] => destruct g eqn:E end; [exfalso; lia|]. destruct v as [|c3 v]; [discriminate|].
    match type of H with context [if ?g then _ else _] => destruct g eqn:E' end; [exfalso; lia|discriminate]. }
  cbn zeta in H. cbn [String.length] in L.
  match type of H with context [if ?g then _ else _] => destruct g eqn:E end; [apply (IH x2); [lia|now do 2 apply ascii_end_tail in A|exact H]|].
  destruct x2 as [|c3 x3]; cbn [append] in H.
  { cbn in A. destruct v as [|c3 v]; [discriminate|].
    match type of H with context [if ?g then _ else _] => destruct g eqn:E' end; [exfalso; lia|discriminate]. }
  cbn [String.length] in L.
  match type of H with context [if ?g then _ else _] => destruct g eqn:E' end; [|discriminate]. apply (IH x3); [lia|now do 3 apply ascii_end_tail in A|exact H].
Qed.
Lemma te_app : forall x v, ascii_end x -> trim_end v = v -> v <> "" -> trim_end (x ++ v) = x ++ v.
Proof.
  induction x as [|c x IH]; intros v A H N; [exact H|]. change (String c x ++ v) with (String c (x ++ v)). rewrite te_step, IH; [|now apply ascii_end_tail in A|assumption|assumption].
  destruct (trim_start (String c (x ++ v))) eqn:E; [|reflexivity]. exfalso. change (String c (x ++ v)) with (String c x ++ v) in E.
  apply (ts_suffix _ _ _ (le_n _) A) in E. destruct v as [|d v]; [now elim N|]. rewrite te_step, E in H. discriminate.
Qed.
Lemma ts_char : forall c s, (N_of_ascii c < 128)%N -> is_ascii_ws c = false -> has_char c s = true -> trim_start s <> "".
Proof. intros c s A W H E. pose proof (trim_start_char _ s c (le_n _) A W) as Q. rewrite E, H in Q. discriminate. Qed.
Lemma te_char : forall x c, (N_of_ascii c < 128)%N -> is_ascii_ws c = false -> trim_end (x ++ String c "") = x ++ String c "".
Proof.
  intros x c A W. induction x as [|d x IH].
  - cbn [append]. rewrite te_step. cbn. now rewrite W.
  - change (String d x ++ String c "") with (String d (x ++ String c "")). rewrite te_step, IH. destruct (trim_start (String d (x ++ String c ""))) eqn:E; [|reflexivity].
    exfalso. revert E. apply (ts_char c); [assumption|assumption|]. cbn. rewrite has_char_app. cbn. rewrite Ascii.eqb_refl. now rewrite orb_true_r, orb_true_r.
Qed.

(** ** Properties files *)
Lemma split_any_one : forall c a b, has_char c a = false -> split_any (String c "") (a ++ String c b) = Some (a, b).
Proof.
  intros c. induction a as [|d a IH]; intros b H; cbn.
  - now rewrite Ascii.eqb_refl.
  - cbn in H. apply orb_false_iff in H as [H1 H2]. rewrite IH by assumption. rewrite Ascii.eqb_sym, H1. reflexivity.
Qed.
Lemma app_nonempty : forall a b, a <> "" -> a ++ b <> "".
Proof. intros [|c a] b H; [now elim H|discriminate]. Qed.
Lemma parse_props_line : forall l p, props_line l p -> parse_line "=" l = p.
Proof.
  intros l p H. destruct H as [w S|w text S _ _|w1 k w2 w3 v w4 S1 S2 S3 S4 [K0 [K1 [K2 [K3 _]]]] [V1 _]]; unfold parse_line.
  - unfold trim. rewrite <- (app_nil_r_s w), ts_ws by assumption. reflexivity.
  - unfold trim. rewrite ts_ws by assumption. cbn [append]. assert (E : trim_start (String "#" text) = String "#" text) by (cbn; now destruct text as [|? [|? ?]]).
    rewrite E, te_step, E. cbn [String.eqb orb starts_with]. reflexivity.
  - destruct (trimmed_ends _ K1) as [Ks Ke]. destruct (trimmed_ends _ V1) as [Vs Ve].
    set (Y := if String.eqb v "" then "" else w3 ++ v). assert (T : trim (w1 ++ k ++ w2 ++ "=" ++ w3 ++ v ++ w4) = k ++ w2 ++ String "=" Y).
    { unfold trim. rewrite ts_ws, ts_stable; [|assumption|assumption|apply spaces_head; [assumption|reflexivity]|assumption]. unfold Y. destruct (String.eqb_spec v "") as [ -> |N].
      - cbn [append]. replace (k ++ w2 ++ String "=" (w3 ++ w4)) with ((k ++ w2 ++ "=") ++ (w3 ++ w4)) by (rewrite !app_assoc_s; reflexivity).
        rewrite te_ws by now apply spaces_app. rewrite <- app_assoc_s. apply te_char; reflexivity.
      - replace (k ++ w2 ++ "=" ++ w3 ++ v ++ w4) with ((k ++ w2 ++ "=" ++ w3 ++ v) ++ w4) by (rewrite !app_assoc_s; reflexivity). rewrite te_ws by assumption.
        replace (k ++ w2 ++ "=" ++ w3 ++ v) with ((k ++ w2 ++ "=" ++ w3) ++ v) by (rewrite !app_assoc_s; reflexivity).
        rewrite te_app; [rewrite !app_assoc_s; reflexivity| |assumption|assumption]. do 2 (apply ascii_end_app; [|discriminate || (destruct w2; discriminate)]).
        apply ascii_end_spaces; [reflexivity|assumption]. }
    rewrite T. destruct (String.eqb_spec (k ++ w2 ++ String "=" Y) "") as [E|_]; [now apply app_nonempty in E|]. cbn [orb].
    assert (Sh : starts_with "#" (k ++ w2 ++ String "=" Y) = false) by (destruct k as [|c k]; [now elim K0|exact K2]). rewrite Sh.
    rewrite <- app_assoc_s, split_any_one; [|rewrite has_char_app, K3; cbn; apply spaces_char; [assumption|discriminate|discriminate]].
    assert (T1 : trim (k ++ w2) = k) by (unfold trim; rewrite ts_stable, te_ws; auto; rewrite <- (app_nil_r_s w2); apply spaces_head; [assumption|exact I]).
    assert (T2 : trim Y = v) by (unfold Y; destruct (String.eqb_spec v "") as [ -> |N]; [reflexivity|]; unfold trim; rewrite ts_ws by assumption; now rewrite Vs).
    now rewrite T1, T2.
Qed.
Lemma props_line_chars : forall l p, props_line l p -> has_char "010" l = false /\ has_char "013" l = false.
Proof.
  intros l p H. destruct H as [w S|w text S T1 T2|w1 k w2 w3 v w4 S1 S2 S3 S4 [_ [_ [_ [_ [K1 K2]]]]] [_ [V1 V2]]].
  - split; now apply spaces_char.
  - split; rewrite has_char_app, spaces_char by (assumption || discriminate); cbn; assumption.
  - split; rewrite !has_char_app; rewrite (spaces_char _ w1), (spaces_char _ w2), (spaces_char _ w3), (spaces_char _ w4) by (assumption || discriminate).
    + now rewrite K1, V1.
    + now rewrite K2, V2.
Qed.
Lemma split_nochar : forall c s, has_char c s = false -> split c s = [s].
Proof.
  intros c. induction s as [|x s IH]; intros H; [reflexivity|]. cbn in H. apply orb_false_iff in H as [H1 H2]. cbn. rewrite H1, IH by assumption. reflexivity.
Qed.
Lemma split_cons : forall c a b, has_char c a = false -> split c (a ++ String c b) = a :: split c b.
Proof.
  intros c. induction a as [|x a IH]; intros b H; cbn; [now rewrite Ascii.eqb_refl|]. cbn in H. apply orb_false_iff in H as [H1 H2]. rewrite H1, IH by assumption. reflexivity.
Qed.
Lemma split_nonempty : forall c s, split c s <> [].
Proof. intros c. induction s as [|x s IH]; cbn; [discriminate|]. destruct (Ascii.eqb x c); [discriminate|]. now destruct (split c s). Qed.
Lemma strip_cr_none : forall l, has_char "013" l = false -> strip_cr l = l.
Proof. intros l H. unfold strip_cr. destruct (rsplit_once "013" l) as [[a b]|] eqn:E; [|reflexivity]. apply rsplit_once_some in E as [-> _]. rewrite has_char_app in H. cbn in H. now rewrite orb_true_r in H. Qed.
Lemma strip_cr_one : forall l, strip_cr (l ++ String "013" "") = l.
Proof. intros l. unfold strip_cr. now rewrite rsplit_once_app. Qed.
Lemma lines_step : forall l p cr rest, props_line l p -> cr = "" \/ cr = String "013" "" -> lines (l ++ cr ++ String "010" rest) = l :: lines rest.
Proof.
  intros l p cr rest H C. apply props_line_chars in H as [H1 H2]. unfold lines. rewrite <- app_assoc_s, split_cons.
  - pose proof (split_nonempty "010" rest) as N. destruct (split "010" rest) as [|q qs]; [now elim N|]. cbn [lines_of].
    f_equal. destruct C as [ -> | -> ]; [rewrite app_nil_r_s; now apply strip_cr_none|apply strip_cr_one].
  - rewrite has_char_app, H1. destruct C as [ -> | -> ]; reflexivity.
Qed.
Lemma lines_last : forall l p, props_line l p -> lines l = if String.eqb l "" then [] else [l].
Proof. intros l p H. apply props_line_chars in H as [H1 H2]. unfold lines. rewrite split_nochar by assumption. reflexivity. Qed.
Lemma parse_props : forall text kvs, props_text text kvs -> forall m, exists m', parse_lines "=" (lines text) m = Ok m' /\ forall k, oget k m' = first_given [last_value kvs k; oget k m].
Proof.
  induction 1 as [|l p HL U|l p cr rest kvs HL U C HT IH]; intros m.
  - exists m. split; [reflexivity|]. intros k. cbn. now destruct (oget k m).
  - rewrite (lines_last l p) by assumption. pose proof (parse_props_line _ _ HL) as E. destruct (String.eqb_spec l "") as [ -> |N].
    + cbn in E. subst p. exists m. split; [reflexivity|]. intros k. cbn. now destruct (oget k m).
    + cbn [parse_lines]. rewrite U, E. destruct p as [[k v]|].
      * exists (oput k v m). split; [reflexivity|]. intros q. rewrite oget_oput. cbn. destruct (String.eqb k q); [reflexivity|]. now destruct (oget q m).
      * exists m. split; [reflexivity|]. intros k. cbn. now destruct (oget k m).
  - rewrite (lines_step l p) by assumption. cbn [parse_lines]. rewrite U, (parse_props_line _ _ HL). destruct p as [[k v]|].
    + destruct (IH (oput k v m)) as [m' [E Q]]. exists m'. split; [exact E|]. intros q. rewrite Q, oget_oput. cbn. destruct (last_value kvs q); [reflexivity|].
      destruct (String.eqb k q); reflexivity.
    + destruct (IH m) as [m' [E Q]]. exists m'. split; [exact E|exact Q].
Qed.
Lemma parse_text : forall text kvs, props_text text kvs -> exists m, parse_data "=" text = Ok m /\ one_per_key m /\ forall k, oget k m = last_value kvs k.
Proof.
  intros text kvs H. destruct (parse_props text kvs H []) as [m [E Q]]. exists m. split; [exact E|]. split; [now apply parse_nodup in E|].
  intros k. rewrite Q. cbn. now destruct (last_value kvs k).
Qed.

(** ** Numbers *)
Lemma digit_range : forall c, is_digit c = true -> (0 <= digit_val c < 10)%Z.
Proof. intros c H. unfold is_digit, digit_val in *. lia. Qed.
Lemma numeral_nonneg : forall s n, numeral s n -> (0 <= n)%Z.
Proof. induction 1 as [c H|s n c _ IH H]; pose proof (digit_range _ H); lia. Qed.
Lemma digits_snoc : forall s acc c, parse_digits acc (s ++ String c "") = match parse_digits acc s with Some v => if is_digit c then Some (10 * v + digit_val c)%Z else None | None => None end.
Proof. induction s as [|d s IH]; intros acc c; cbn [append parse_digits]; [reflexivity|]. destruct (is_digit d); [apply IH|reflexivity]. Qed.
Lemma digits_from : forall s p acc n, numeral p acc -> parse_digits acc s = Some n -> numeral (p ++ s) n.
Proof.
  induction s as [|c s IH]; intros p acc n P H; cbn [parse_digits] in H; [injection H as <-; now rewrite app_nil_r_s|].
  destruct (is_digit c) eqn:D; [|discriminate]. replace (p ++ String c s) with ((p ++ String c "") ++ s) by now rewrite app_assoc_s.
  apply (IH _ (10 * acc + digit_val c)%Z); [now constructor|exact H].
Qed.
Lemma numeral_digits : forall s n, numeral s n <-> s <> "" /\ parse_digits 0 s = Some n.
Proof.
  intros s n. split.
  - induction 1 as [c H|s n c _ [N IH] H].
    + split; [discriminate|]. cbn [parse_digits]. rewrite H. reflexivity.
    + split; [now apply app_nonempty|]. now rewrite digits_snoc, IH, H.
  - intros [N H]. destruct s as [|c s]; [now elim N|]. cbn [parse_digits] in H. destruct (is_digit c) eqn:D; [|discriminate].
    apply (digits_from s (String c "") (10 * 0 + digit_val c)); [|exact H]. replace (10 * 0 + digit_val c)%Z with (digit_val c) by lia. now constructor.
Qed.
Lemma numeral_head : forall c s n, numeral (String c s) n -> is_digit c = true.
Proof. intros c s n H. apply numeral_digits in H as [_ H]. cbn [parse_digits] in H. now destruct (is_digit c). Qed.
Lemma parse_unsigned_text : forall max s n, parse_unsigned max s = Some n <-> (n <= max)%Z /\ (numeral s n \/ exists d, s = String "+" d /\ numeral d n).
Proof.
  intros max s n. unfold parse_unsigned.
  assert (B : forall body, match body with EmptyString => None | _ => match parse_digits 0 body with Some v => if (v <=? max)%Z then Some v else None | None => None end end = Some n
    <-> (n <= max)%Z /\ numeral body n).
  { intros body. rewrite numeral_digits. destruct body as [|c r]; [split; [discriminate|intros [_ [N _]]; now elim N]|].
    destruct (parse_digits 0 (String c r)) as [v|]; [|split; [discriminate|intros [_ [_ H]]; discriminate]].
    destruct (Z.leb_spec v max) as [L|L].
    - split; [intros [= ->]; repeat split; [assumption|discriminate]|]. intros [_ [_ H]]. exact H.
    - split; [discriminate|]. intros [L' [_ [= ->]]]. lia. }
  destruct s as [|c r].
  - split; [discriminate|]. intros [_ [H|[d [[=] _]]]]. apply numeral_digits in H as [N _]. now elim N.
  - destruct (Ascii.eqb_spec c "+") as [ -> |N].
    + rewrite B. split; [intros [H1 H2]; split; [assumption|right; eauto]|]. intros [H1 [H2|[d [[= ->] H2]]]]; [|auto].
      apply numeral_head in H2. discriminate.
    + rewrite (B (String c r)). split; [intros [H1 H2]; auto|]. intros [H1 [H2|[d [[= -> ->] H2]]]]; [auto|now elim N].
Qed.
Lemma parse_usize_text : forall s n, parse_usize s = Some n <-> unsigned_text s n.
Proof. intros s n. unfold parse_usize, unsigned_text. rewrite parse_unsigned_text. unfold u64_max. split; intros [H1 H2]; (split; [lia|assumption]). Qed.
Lemma parse_isize_text : forall s n, parse_isize s = Some n <-> signed_text s n.
Proof.
  intros s n. unfold parse_isize, signed_text. destruct s as [|c r].
  - split; [discriminate|]. intros [_ [H|[[d [[=] _]]|[d [[=] _]]]]]. apply numeral_digits in H as [N _]. now elim N.
  - destruct (Ascii.eqb_spec c "-") as [ -> |N].
    + assert (Q : match r with EmptyString => None | _ => match parse_digits 0 r with Some v => if (v <=? 9223372036854775808)%Z then Some (- v)%Z else None | None => None end end = Some n
        <-> (- 2 ^ 63 <= n)%Z /\ numeral r (- n)).
      { rewrite numeral_digits. destruct r as [|c' r]; [split; [discriminate|intros [_ [E _]]; now elim E]|].
        destruct (parse_digits 0 (String c' r)) as [v|]; [|split; [discriminate|intros [_ [_ H]]; discriminate]].
        destruct (Z.leb_spec v 9223372036854775808) as [L|L].
        - split; [intros [= <-]; repeat split; [lia|discriminate|f_equal; lia]|]. intros [_ [_ [= ->]]]. f_equal. lia.
        - split; [discriminate|]. intros [L' [_ [= ->]]]. lia. }
      rewrite Q. split.
      * intros [H1 H2]. pose proof (numeral_nonneg _ _ H2). split; [lia|]. right. right. eauto.
      * intros [H1 [H|[[d [[=] _]]|[d [[= ->] H]]]]]; [apply numeral_head in H; discriminate|]. split; [lia|exact H].
    + rewrite parse_unsigned_text. split.
      * intros [H1 H2]. split; [|destruct H2 as [H2|H2]; [now left|right; now left]].
        assert (0 <= n)%Z by (destruct H2 as [H2|[d [_ H2]]]; now apply numeral_nonneg in H2). lia.
      * intros [H1 [H|[H|[d [[= -> ->] H]]]]]; [split; [lia|now left]|split; [lia|now right]|now elim N].
Qed.
Lemma signed_fun : forall s a b, signed_text s a -> signed_text s b -> a = b.
Proof. intros s a b Ha Hb. apply parse_isize_text in Ha, Hb. congruence. Qed.

(** ** Validation *)
Definition table_format (c : table_config) : format :=
  match c with
  | BaseFileFormat => OneOf ["parquet"]
  | Checksum | TableVersion | TimelineLayoutVersion => Signed
  | DropsPartitionFields | IsHiveStylePartitioning | IsPartitionPathUrlencoded | PopulatesMetaFields => Flag
  | RecordMergeStrategy => OneOf ["append_only"; "overwrite_with_latest"]
  | TableType => OneOf ["copy_on_write"; "copy-on-write"; "cow"; "merge_on_read"; "merge-on-read"; "mor"]
  | TimelineTimezone => OneOf ["utc"; "local"]
  | _ => AnyText
  end.
Definition read_format (c : read_config) : format :=
  match c with InputPartitions | ListingParallelism => Unsigned | UseReadOptimizedMode => Flag | _ => AnyText end.
Lemma formats_eq : formats = (map (fun c => (table_key c, table_format c)) all_table_configs ++ map (fun c => (read_key c, read_format c)) all_read_configs)%list.
Proof. reflexivity. Qed.
(** what a parsed option tells about its text *)
Definition parsed (o : option string) (f : format) (v : outcome cval) : Prop :=
  match o with
  | None => v = Err EConfigNotFound
  | Some s => (conforms f s /\ exists x, v = Ok x) \/ (~ conforms f s /\ exists e, v = Err e /\ e <> EConfigNotFound)
  end.
Lemma parsed_string : forall m k, parsed (oget k m) AnyText (as_string m k).
Proof. intros m k. unfold as_string, raw, parsed. destruct (oget k m); cbn; [left; split; [exact I|eauto]|reflexivity]. Qed.
Lemma parsed_list : forall m k, parsed (oget k m) AnyText (as_list m k).
Proof. intros m k. unfold as_list, raw, parsed. destruct (oget k m); cbn [ok_or bind]; [left; split; [exact I|eauto]|reflexivity]. Qed.
Lemma parsed_bool : forall m k, parsed (oget k m) Flag (as_bool m k).
Proof.
  intros m k. unfold as_bool, raw, parsed. destruct (oget k m) as [s|]; cbn [ok_or bind conforms]; [|reflexivity]. unfold parse_bool.
  destruct (String.eqb_spec s "true") as [ -> |N1]; [left; split; [now left|cbn; eauto]|]. destruct (String.eqb_spec s "false") as [ -> |N2]; [left; split; [now right|cbn; eauto]|].
  right. split; [intros [E|E]; contradiction|]. cbn. eexists. split; [reflexivity|discriminate].
Qed.
Lemma parsed_int : forall m k, parsed (oget k m) Signed (as_int m k).
Proof.
  intros m k. unfold as_int, raw, parsed. destruct (oget k m) as [s|]; cbn [ok_or bind conforms]; [|reflexivity].
  destruct (parse_isize s) as [n|] eqn:E; cbn.
  - left. split; [exists n; now apply parse_isize_text|eauto].
  - right. split; [intros [n H]; apply parse_isize_text in H; congruence|]. eexists. split; [reflexivity|discriminate].
Qed.
Lemma parsed_uint : forall m k, parsed (oget k m) Unsigned (as_uint m k).
Proof.
  intros m k. unfold as_uint, raw, parsed. destruct (oget k m) as [s|]; cbn [ok_or bind conforms]; [|reflexivity].
  destruct (parse_usize s) as [n|] eqn:E; cbn.
  - left. split; [exists n; now apply parse_usize_text|eauto].
  - right. split; [intros [n H]; apply parse_usize_text in H; congruence|]. eexists. split; [reflexivity|discriminate].
Qed.
Ltac enum_case := cbn [orb andb bind]; first
  [ left; split; [cbn; tauto|eauto]
  | right; split; [cbn; intuition congruence|eexists; split; [reflexivity|discriminate]] ].
Lemma parsed_format : forall m k, parsed (oget k m) (table_format BaseFileFormat) (let* v := raw m k in let* v := base_file_format_of v in Ok (CStr v)).
Proof.
  intros m k. unfold raw, parsed. destruct (oget k m) as [s|]; cbn [ok_or bind conforms table_format]; [|reflexivity]. unfold base_file_format_of. cbn zeta.
  set (t := to_ascii_lowercase s). clearbody t. destruct (String.eqb_spec t "parquet") as [ -> |N]; [enum_case|]. destruct (String.eqb_spec t "orc"); enum_case.
Qed.
Lemma parsed_timezone : forall m k, parsed (oget k m) (table_format TimelineTimezone) (let* v := raw m k in let* v := timezone_of v in Ok (CStr v)).
Proof.
  intros m k. unfold raw, parsed. destruct (oget k m) as [s|]; cbn [ok_or bind conforms table_format]; [|reflexivity]. unfold timezone_of. cbn zeta.
  set (t := to_ascii_lowercase s). clearbody t. destruct (String.eqb_spec t "utc") as [ -> |N]; [enum_case|]. destruct (String.eqb_spec t "local") as [ -> |N']; enum_case.
Qed.
Lemma parsed_strategy : forall m k, parsed (oget k m) (table_format RecordMergeStrategy) (let* v := raw m k in let* v := merge_strategy_of v in Ok (CStr v)).
Proof.
  intros m k. unfold raw, parsed. destruct (oget k m) as [s|]; cbn [ok_or bind conforms table_format]; [|reflexivity]. unfold merge_strategy_of. cbn zeta.
  set (t := to_ascii_lowercase s). clearbody t. destruct (String.eqb_spec t "append_only") as [ -> |N]; [enum_case|]. destruct (String.eqb_spec t "overwrite_with_latest") as [ -> |N']; enum_case.
Qed.
Lemma parsed_type : forall m k, parsed (oget k m) (table_format TableType) (let* v := raw m k in let* v := table_type_of v in Ok (CStr v)).
Proof.
  intros m k. unfold raw, parsed. destruct (oget k m) as [s|]; cbn [ok_or bind conforms table_format]; [|reflexivity]. unfold table_type_of. cbn zeta.
  set (t := to_ascii_lowercase s). clearbody t.
  destruct (String.eqb_spec t "copy_on_write") as [ -> |N1]; [enum_case|]. destruct (String.eqb_spec t "copy-on-write") as [ -> |N2]; [enum_case|].
  destruct (String.eqb_spec t "cow") as [ -> |N3]; [enum_case|]. destruct (String.eqb_spec t "merge_on_read") as [ -> |N4]; [enum_case|].
  destruct (String.eqb_spec t "merge-on-read") as [ -> |N5]; [enum_case|]. destruct (String.eqb_spec t "mor") as [ -> |N6]; enum_case.
Qed.
Lemma table_parsed : forall c m, parsed (oget (table_key c) m) (table_format c) (table_value c m).
Proof.
  intros [] m; unfold table_value; cbn zeta; cbv delta [table_key table_format] iota beta;
    first [apply parsed_string|apply parsed_list|apply parsed_bool|apply parsed_int|apply parsed_format|apply parsed_timezone|apply parsed_strategy|apply parsed_type].
Qed.
Lemma read_parsed : forall c m, parsed (oget (read_key c) m) (read_format c) (read_value c m).
Proof. intros [] m; unfold read_value; cbn zeta; first [apply parsed_string|apply parsed_bool|apply parsed_uint]. Qed.
Lemma validate_ok : forall req o f v, parsed o f v -> (validate req v = Ok tt <-> (forall s, o = Some s -> conforms f s) /\ (req = true -> o <> None)).
Proof.
  intros req o f v P. unfold validate. destruct o as [s|]; cbn in P.
  - destruct P as [[C [x ->]]|[C [e [-> Ne]]]].
    + split; [|reflexivity]. intros _. split; [intros s' [= <-]; exact C|discriminate].
    + split; [destruct req, e; try discriminate; contradiction|]. intros [H _]. now elim C; apply H.
  - rewrite P. destruct req.
    + split; [discriminate|]. intros [_ H]. now elim (H eq_refl).
    + split; [|reflexivity]. intros _. split; [discriminate|discriminate].
Qed.
Lemma validate_total : forall req o f v, parsed o f v -> validate req v <> Panic.
Proof. intros req o f v P. unfold validate. destruct o as [s|]; cbn in P; [destruct P as [[C [x ->]]|[C [e [-> Ne]]]]|rewrite P]; destruct req; try discriminate; now destruct e. Qed.

Lemma validate_merge_ok : forall m, (forall s, oget (table_key RecordMergeStrategy) m = Some s -> conforms (table_format RecordMergeStrategy) s) ->
  (forall s, oget (table_key PopulatesMetaFields) m = Some s -> conforms Flag s) ->
  (validate_merge m = Ok tt <-> can_merge m).
Proof.
  intros m HS HP. unfold validate_merge, can_merge.
  assert (P : table_or_default PopulatesMetaFields m = Ok (CBool (match oget "hoodie.populate.meta.fields" m with Some s => negb (String.eqb s "false") | None => true end))).
  { unfold table_or_default, table_value, as_bool, raw. cbn [table_key table_default]. cbn [table_key] in HP. destruct (oget "hoodie.populate.meta.fields" m) as [s|]; cbn [ok_or bind]; [|reflexivity].
    destruct (HP s eq_refl) as [ -> | -> ]; reflexivity. }
  assert (T : table_try PrecombineField m = match oget "hoodie.table.precombine.field" m with Some s => Some (CStr s) | None => None end).
  { unfold table_try, table_value, as_string, raw. cbn [table_key table_default]. now destruct (oget "hoodie.table.precombine.field" m). }
  assert (D : or_default (table_value PopulatesMetaFields m) (table_default PopulatesMetaFields) = table_or_default PopulatesMetaFields m) by reflexivity.
  rewrite T. unfold table_or_default at 1. rewrite D, P. cbn [bind to_bool]. cbn [table_value table_key] in *. unfold raw in *. unfold ohas.
  destruct (oget "hoodie.table.record.merge.strategy" m) as [s|] eqn:E; cbn [ok_or bind].
  - specialize (HS s eq_refl). cbn [conforms table_format In] in HS. unfold merge_strategy_of at 1. cbn zeta. set (t := to_ascii_lowercase s) in *.
    destruct HS as [H|[H|[]]]; rewrite <- H.
    + cbn. split; [|destruct (oget "hoodie.populate.meta.fields" m), (oget "hoodie.table.precombine.field" m); rewrite ?andb_false_r; reflexivity].
      intros _ v [= <-] Hv. exfalso. unfold t in H. rewrite Hv in H. discriminate.
    + cbn. destruct (oget "hoodie.populate.meta.fields" m) as [p|] eqn:Ep.
      * destruct (String.eqb_spec p "false") as [ -> |N]; cbn.
        { split; [discriminate|]. intros Q. destruct (Q s eq_refl) as [Q1 _]; [now symmetry|]. now elim Q1. }
        destruct (oget "hoodie.table.precombine.field" m) as [q|].
        { split; [|reflexivity]. intros _ v [= <-] _. split; [congruence|discriminate]. }
        split; [discriminate|]. intros Q. destruct (Q s eq_refl) as [_ Q1]; [now symmetry|]. now elim Q1.
      * cbn. destruct (oget "hoodie.table.precombine.field" m) as [q|].
        { split; [|reflexivity]. intros _ v [= <-] _. split; [congruence|discriminate]. }
        split; [discriminate|]. intros Q. destruct (Q s eq_refl) as [_ Q1]; [now symmetry|]. now elim Q1.
  - split; [intros _ v [=]|]. intros _. destruct (oget "hoodie.populate.meta.fields" m) as [p|]; [destruct (String.eqb p "false")|]; cbn;
      destruct (oget "hoodie.table.precombine.field" m); reflexivity.
Qed.
Lemma validate_merge_total : forall m, validate_merge m <> Panic.
Proof.
  intros m. unfold validate_merge. assert (P : exists b, table_or_default PopulatesMetaFields m = Ok (CBool b)).
  { unfold table_or_default, table_value, as_bool, raw. cbn [table_key table_default]. destruct (oget _ m) as [s|]; cbn [ok_or bind]; [|eauto]. destruct (parse_bool s); cbn; eauto. }
  destruct P as [b P]. assert (D : or_default (table_value PopulatesMetaFields m) (table_default PopulatesMetaFields) = table_or_default PopulatesMetaFields m) by reflexivity.
  assert (S : exists t, table_or_default RecordMergeStrategy m = Ok (CStr t)).
  { unfold table_or_default at 1. rewrite D, P. cbn [bind to_bool]. destruct (table_value RecordMergeStrategy m) as [x| |] eqn:E.
    - unfold table_value in E. cbn [table_key] in E. apply bind_ok in E as [v [_ E]]. apply bind_ok in E as [w [_ E]]. injection E as <-. eauto.
    - destruct b; cbn [negb]; [destruct (ohas _ m); cbn [negb]|]; eauto.
    - destruct b; cbn [negb]; [destruct (ohas _ m); cbn [negb]|]; eauto. }
  destruct S as [t S]. rewrite S, P. cbn [bind to_string to_bool]. unfold merge_strategy_of. cbn zeta.
  destruct (String.eqb (to_ascii_lowercase t) "append_only"); [|destruct (String.eqb (to_ascii_lowercase t) "overwrite_with_latest")]; cbn [bind]; try discriminate;
    destruct b; cbn; destruct (table_try PrecombineField m); discriminate.
Qed.

Lemma skip_flag : forall m, or_default (as_bool m skip_validation_key) (Some (CBool false)) =
  Ok (CBool (match oget skip_validation_key m with Some s => String.eqb s "true" | None => false end)).
Proof.
  intros m. unfold as_bool, raw, or_default. destruct (oget skip_validation_key m) as [s|]; cbn [ok_or bind]; [|reflexivity]. unfold parse_bool.
  destruct (String.eqb_spec s "true") as [ -> |]; [reflexivity|]. now destruct (String.eqb s "false").
Qed.
Lemma mapM_unit : forall A (f : A -> outcome unit) l, (exists ys, mapM f l = Ok ys) <-> forall x, In x l -> f x = Ok tt.
Proof.
  induction l as [|a l IH]; cbn; [split; [intros _ x []|eauto]|]. split.
  - intros [ys H]. apply bind_ok in H as [y [H1 H]]. apply bind_ok in H as [zs [H2 H]]. destruct y. intros x [ <- |I]; [assumption|]. apply IH; eauto.
  - intros H. rewrite (H a) by now left. cbn. destruct (proj2 IH) as [ys E]; [auto|]. rewrite E. cbn. eauto.
Qed.
Lemma int_value : forall m k, (exists n, as_int m k = Ok (CInt n) /\ exists s, oget k m = Some s /\ signed_text s n) \/ (exists e, as_int m k = Err e /\ forall s n, oget k m = Some s -> ~ signed_text s n).
Proof.
  intros m k. unfold as_int, raw. destruct (oget k m) as [s|]; cbn; [|right; eexists; split; [reflexivity|discriminate]].
  destruct (parse_isize s) as [n|] eqn:E; cbn; [left; exists n; split; [reflexivity|]; exists s; split; [reflexivity|now apply parse_isize_text]|].
  right. eexists. split; [reflexivity|]. intros s' n [= <-] H. apply parse_isize_text in H. congruence.
Qed.
Lemma bool_or_default : forall m k d, exists b, or_default (as_bool m k) (Some (CBool d)) = Ok (CBool b) /\ b = match oget k m with Some s => if String.eqb s "true" then true else if String.eqb s "false" then false else d | None => d end.
Proof.
  intros m k d. unfold as_bool, raw, or_default. destruct (oget k m) as [s|]; cbn [ok_or bind]; [|eauto]. unfold parse_bool.
  destruct (String.eqb s "true"); cbn; [eauto|]. destruct (String.eqb s "false"); cbn; eauto.
Qed.
Lemma drops_default : forall m, table_or_default DropsPartitionFields m = or_default (as_bool m "hoodie.datasource.write.drop.partition.columns") (Some (CBool false)).
Proof. reflexivity. Qed.

Lemma validate_spec : forall m, oget skip_validation_key m <> Some "true" -> (validate_configs m = Ok tt <-> supported m).
Proof.
  intros m NS. unfold validate_configs. rewrite skip_flag. cbn [bind to_bool].
  assert (S : match oget skip_validation_key m with Some s => String.eqb s "true" | None => false end = false).
  { destruct (oget skip_validation_key m) as [s|]; [|reflexivity]. destruct (String.eqb_spec s "true") as [ -> |]; [now elim NS|reflexivity]. }
  rewrite S. clear S. unfold supported.
  assert (F1 : (forall k f v, In (k, f) formats -> oget k m = Some v -> conforms f v) <->
    (forall c, In c all_table_configs -> forall s, oget (table_key c) m = Some s -> conforms (table_format c) s)
    /\ (forall c, In c all_read_configs -> forall s, oget (read_key c) m = Some s -> conforms (read_format c) s)).
  { rewrite formats_eq. split.
    - intros H. split; intros c I s E; (eapply H; [|exact E]); apply in_or_app; [left|right]; apply in_map_iff; eauto.
    - intros [H1 H2] k f v I E. apply in_app_or in I as [I|I]; apply in_map_iff in I as [c [[= <- <-] I]]; eauto. }
  assert (F2 : forall c, In c all_table_configs) by (intros []; cbn; tauto).
  assert (F3 : forall c, In c all_read_configs) by (intros []; cbn; tauto).
  assert (V1 : (exists ys, mapM (fun c => validate (required c) (table_value c m)) all_table_configs = Ok ys) <->
    (forall c, In c all_table_configs -> forall s, oget (table_key c) m = Some s -> conforms (table_format c) s) /\ (forall c, required c = true -> oget (table_key c) m <> None)).
  { rewrite mapM_unit. split.
    - intros H. split; [intros c I|intros c R]; (specialize (H c (F2 c)); apply (validate_ok _ _ _ _ (table_parsed c m)) in H; destruct H as [H1 H2]; auto).
    - intros [H1 H2] c I. apply (validate_ok _ _ _ _ (table_parsed c m)). auto. }
  assert (V2 : (exists ys, mapM (fun c => validate false (read_value c m)) all_read_configs = Ok ys) <->
    (forall c, In c all_read_configs -> forall s, oget (read_key c) m = Some s -> conforms (read_format c) s)).
  { rewrite mapM_unit. split.
    - intros H c I. specialize (H c I). apply (validate_ok _ _ _ _ (read_parsed c m)) in H. now destruct H.
    - intros H c I. apply (validate_ok _ _ _ _ (read_parsed c m)). split; [auto|discriminate]. }
  assert (VV : table_value TableVersion m = as_int m "hoodie.table.version") by reflexivity.
  assert (VL : table_value TimelineLayoutVersion m = as_int m "hoodie.timeline.layout.version") by reflexivity.
  rewrite VV, VL, drops_default.
  destruct (bool_or_default m "hoodie.datasource.write.drop.partition.columns" false) as [d [D Dv]]. rewrite D. cbn [to_bool].
  split.
  - intros H. apply bind_ok in H as [ys1 [H1 H]]. apply bind_ok in H as [ys2 [H2 H]].
    destruct (proj1 V1 (ex_intro _ _ H1)) as [T1 T2]. pose proof (proj1 V2 (ex_intro _ _ H2)) as T3.
    destruct (int_value m "hoodie.table.version") as [[n1 [E1 [s1 [G1 N1]]]]|[e1 [E1 _]]]; rewrite E1 in H; [|discriminate]. cbn [bind to_isize] in H.
    destruct ((5 <=? n1)%Z && (n1 <=? 6)%Z) eqn:R1; cbn [negb] in H; [|discriminate].
    destruct (int_value m "hoodie.timeline.layout.version") as [[n2 [E2 [s2 [G2 N2]]]]|[e2 [E2 _]]]; rewrite E2 in H; [|discriminate]. cbn [bind to_isize] in H.
    destruct (Z.eqb_spec n2 1) as [Hn|]; cbn [negb] in H; [|discriminate]. destruct d; [discriminate|]. rewrite Hn in N2. clear Hn.
    split; [now apply F1|]. split.
    { intros k I. cbn in I. destruct I as [ <- |[ <- |[ <- |[ <- |[]]]]]; [apply (T2 TableName eq_refl)|apply (T2 TableType eq_refl)|apply (T2 TableVersion eq_refl)|rewrite G2; discriminate]. }
    split. { intros v Ev. rewrite Ev in G1. injection G1 as ->. assert (n1 = 5 \/ n1 = 6)%Z as [ -> | -> ] by lia; auto. }
    split. { intros v Ev. rewrite Ev in G2. injection G2 as ->. exact N2. }
    split. { intros E. rewrite E in Dv. discriminate. }
    apply validate_merge_ok; [exact (T1 RecordMergeStrategy (F2 _))|exact (T1 PopulatesMetaFields (F2 _))|exact H].
  - intros [Q1 [Q2 [Q3 [Q4 [Q5 Q6]]]]]. apply F1 in Q1 as [T1 T3].
    assert (R : forall c, required c = true -> oget (table_key c) m <> None) by (intros [] Rc; try discriminate; apply Q2; cbn; tauto).
    destruct (proj2 V1 (conj T1 R)) as [ys1 ->]. destruct (proj2 V2 T3) as [ys2 ->]. cbn [bind].
    destruct (int_value m "hoodie.table.version") as [[n1 [E1 [s1 [G1 N1]]]]|[e1 [_ E1]]].
    2:{ exfalso. destruct (oget "hoodie.table.version" m) as [s|] eqn:G; [|apply (Q2 "hoodie.table.version"); [cbn; tauto|exact G]].
        destruct (Q3 s eq_refl) as [X|X]; eapply E1; try exact X; reflexivity. }
    rewrite E1. cbn [bind to_isize]. assert (R1 : ((5 <=? n1)%Z && (n1 <=? 6)%Z) = true).
    { destruct (Q3 s1 G1) as [X|X]; rewrite (signed_fun _ _ _ N1 X); reflexivity. }
    rewrite R1. cbn [negb].
    destruct (int_value m "hoodie.timeline.layout.version") as [[n2 [E2 [s2 [G2 N2]]]]|[e2 [_ E2]]].
    2:{ exfalso. destruct (oget "hoodie.timeline.layout.version" m) as [s|] eqn:G; [|apply (Q2 "hoodie.timeline.layout.version"); [cbn; tauto|exact G]].
        eapply E2; [reflexivity|]. exact (Q4 s eq_refl). }
    rewrite E2. cbn [bind to_isize]. rewrite (signed_fun _ _ _ N2 (Q4 s2 G2)). cbn [Z.eqb Pos.eqb negb].
    assert (d = false) as ->. { subst d. destruct (oget "hoodie.datasource.write.drop.partition.columns" m) as [s|]; [|reflexivity].
      destruct (String.eqb_spec s "true") as [Es|]; [elim Q5; now rewrite Es|]. now destruct (String.eqb s "false"). }
    apply validate_merge_ok; [exact (T1 RecordMergeStrategy (F2 _))|exact (T1 PopulatesMetaFields (F2 _))|exact Q6].
Qed.
Lemma validate_skip : forall m, oget skip_validation_key m = Some "true" -> validate_configs m = Ok tt.
Proof. intros m H. unfold validate_configs. rewrite skip_flag, H. reflexivity. Qed.
Lemma mapM_total : forall A (f : A -> outcome unit) l, (forall x, f x <> Panic) -> mapM f l <> Panic.
Proof.
  intros A f l H. induction l as [|a l IH]; cbn; [discriminate|]. specialize (H a). destruct (f a); [|discriminate|contradiction]. cbn. destruct (mapM f l); [discriminate|discriminate|contradiction].
Qed.
Lemma validate_no_panic : forall m, validate_configs m <> Panic.
Proof.
  intros m. unfold validate_configs. rewrite skip_flag. cbn [bind to_bool]. destruct (match oget skip_validation_key m with Some s => String.eqb s "true" | None => false end); [discriminate|].
  pose proof (mapM_total _ (fun c => validate (required c) (table_value c m)) all_table_configs (fun c => validate_total _ _ _ _ (table_parsed c m))) as P1.
  destruct (mapM _ all_table_configs); [|discriminate|contradiction]. cbn [bind].
  pose proof (mapM_total _ (fun c => validate false (read_value c m)) all_read_configs (fun c => validate_total _ _ _ _ (read_parsed c m))) as P2.
  destruct (mapM _ all_read_configs); [|discriminate|contradiction]. cbn [bind].
  change (table_value TableVersion m) with (as_int m "hoodie.table.version"). change (table_value TimelineLayoutVersion m) with (as_int m "hoodie.timeline.layout.version").
  destruct (int_value m "hoodie.table.version") as [[n1 [ -> _]]|[e1 [ -> _]]]; [|discriminate]. cbn [bind to_isize]. destruct (negb ((5 <=? n1)%Z && (n1 <=? 6)%Z)); [discriminate|].
  destruct (int_value m "hoodie.timeline.layout.version") as [[n2 [ -> _]]|[e2 [ -> _]]]; [|discriminate]. cbn [bind to_isize]. destruct (negb (n2 =? 1)%Z); [discriminate|].
  rewrite drops_default. destruct (bool_or_default m "hoodie.datasource.write.drop.partition.columns" false) as [d [ -> _]]. cbn [bind to_bool]. destruct d; [discriminate|]. apply validate_merge_total.
Qed.

(** ** Lookups *)
Lemma strategy_or_default : forall m, exists t, table_or_default RecordMergeStrategy m = Ok (CStr t) /\ (t = "append_only" \/ t = "overwrite_with_latest").
Proof.
  intros m. destruct (bool_or_default m "hoodie.populate.meta.fields" true) as [b [P _]].
  assert (D : or_default (table_value PopulatesMetaFields m) (table_default PopulatesMetaFields) = Ok (CBool b)) by exact P.
  unfold table_or_default. rewrite D. cbn [bind to_bool]. destruct (table_value RecordMergeStrategy m) as [x| |] eqn:E.
  - unfold table_value in E. cbn [table_key] in E. apply bind_ok in E as [v [_ E]]. apply bind_ok in E as [w [W E]]. injection E as <-. exists w. split; [reflexivity|].
    unfold merge_strategy_of in W. cbn zeta in W. destruct (String.eqb (to_ascii_lowercase v) "append_only"); [injection W as <-; auto|].
    destruct (String.eqb (to_ascii_lowercase v) "overwrite_with_latest"); [injection W as <-; auto|discriminate].
  - destruct b; cbn [negb]; [destruct (ohas _ m); cbn [negb]|]; eauto.
  - destruct b; cbn [negb]; [destruct (ohas _ m); cbn [negb]|]; eauto.
Qed.
Lemma enum_default : forall c m, In c [BaseFileFormat; TimelineTimezone] -> exists s, table_or_default c m = Ok (CStr s).
Proof.
  intros c m I. destruct (table_value c m) as [x| |] eqn:E; unfold table_or_default; rewrite E.
  - destruct I as [ <- |[ <- |[]]]; unfold table_value in E; cbn [table_key] in E; apply bind_ok in E as [v [_ E]]; apply bind_ok in E as [w [_ E]]; injection E as <-; eauto.
  - destruct I as [ <- |[ <- |[]]]; cbn; eauto.
  - destruct I as [ <- |[ <- |[]]]; cbn; eauto.
Qed.
Lemma list_default : forall m, exists l, table_or_default PartitionFields m = Ok (CList l).
Proof. intros m. unfold table_or_default, table_value, as_list, raw. cbn [table_key table_default]. destruct (oget _ m); cbn [ok_or bind]; eauto. Qed.
Lemma uint_default : forall m c d, read_value c m = as_uint m (read_key c) -> read_default c = Some (CUInt d) -> exists n, read_or_default c m = Ok (CUInt n).
Proof. intros m c d E D. unfold read_or_default. rewrite E, D. unfold as_uint, raw, or_default. destruct (oget _ m) as [s|]; cbn [ok_or bind]; [|eauto]. destruct (parse_usize s); cbn; eauto. Qed.

Lemma lookups_ok : forall m,
  (exists b, is_table_partitioned m = Ok b) /\ (exists z, timeline_timezone m = Ok z) /\ (exists l, partition_fields m = Ok l)
  /\ (exists f, base_format m = Ok f) /\ (exists n, listing_parallelism m = Ok n) /\ (exists n, input_partitions m = Ok n)
  /\ (exists b, populates_meta m = Ok b) /\ (exists t, start_timestamp m = Ok t) /\ (exists t, end_timestamp m = Ok t)
  /\ (exists b, read_optimized m = Ok b) /\ (exists s, merge_strategy m = Ok s) /\ precombine_field m <> Panic.
Proof.
  intros m. destruct (list_default m) as [l L].
  assert (G : exists o, table_try KeyGeneratorClass m = o /\ match o with Some v => exists s, v = CStr s | None => True end).
  { unfold table_try, table_value, as_string, raw. cbn [table_key table_default]. destruct (oget _ m); cbn; eexists; (split; [reflexivity|]); cbn; eauto. }
  split. { unfold is_table_partitioned. rewrite L. cbn [bind to_list]. destruct G as [[v|] [ -> V]]; [destruct V as [s ->]|]; cbn; eauto. }
  split. { unfold timeline_timezone. destruct (enum_default TimelineTimezone m) as [s ->]; [cbn; tauto|]. cbn. eauto. }
  split. { unfold partition_fields. rewrite L. cbn. eauto. }
  split. { unfold base_format. destruct (enum_default BaseFileFormat m) as [s ->]; [cbn; tauto|]. cbn. eauto. }
  split. { unfold listing_parallelism. destruct (uint_default m ListingParallelism 10) as [n ->]; [reflexivity|reflexivity|]. cbn. eauto. }
  split. { unfold input_partitions. destruct (uint_default m InputPartitions 0) as [n ->]; [reflexivity|reflexivity|]. cbn. eauto. }
  split. { unfold populates_meta. destruct (bool_or_default m "hoodie.populate.meta.fields" true) as [b [P _]]. change (table_or_default PopulatesMetaFields m) with (or_default (as_bool m "hoodie.populate.meta.fields") (Some (CBool true))). rewrite P. cbn. eauto. }
  split. { unfold start_timestamp, read_try, read_value, as_string, raw. cbn [read_key read_default]. destruct (oget _ m); cbn; eauto. }
  split. { unfold end_timestamp, read_try, read_value, as_string, raw. cbn [read_key read_default]. destruct (oget _ m); cbn; eauto. }
  split. { unfold read_optimized. destruct (bool_or_default m "hoodie.read.use.read_optimized.mode" false) as [b [P _]]. change (read_or_default UseReadOptimizedMode m) with (or_default (as_bool m "hoodie.read.use.read_optimized.mode") (Some (CBool false))). rewrite P. cbn. eauto. }
  split. { unfold merge_strategy. destruct (strategy_or_default m) as [t [ -> [ -> | -> ]]]; cbn; eauto. }
  unfold precombine_field, table_value, as_string, raw. destruct (oget _ m); discriminate.
Qed.
Lemma flags_ok : forall m h u, oget (table_key IsHiveStylePartitioning) m = Some h -> oget (table_key IsPartitionPathUrlencoded) m = Some u ->
  conforms Flag h -> conforms Flag u -> pruner_flags m = Ok (String.eqb h "true", String.eqb u "true").
Proof.
  intros m h u Eh Eu Ch Cu. cbn [table_key] in *. unfold pruner_flags, table_or_default, table_value, as_bool, raw. cbn [table_key]. rewrite Eh, Eu.
  destruct Ch as [ -> | -> ], Cu as [ -> | -> ]; reflexivity.
Qed.
Lemma flags_panic : forall m, (forall s, oget (table_key IsHiveStylePartitioning) m = Some s -> ~ conforms Flag s) -> pruner_flags m = Panic.
Proof.
  intros m H. unfold pruner_flags, table_or_default. pose proof (parsed_bool m (table_key IsHiveStylePartitioning)) as P. change (table_value IsHiveStylePartitioning m) with (as_bool m (table_key IsHiveStylePartitioning)).
  unfold parsed in P. destruct (oget (table_key IsHiveStylePartitioning) m) as [s|]; [|rewrite P; reflexivity]. destruct P as [[C _]|[_ [e [ -> _]]]]; [|reflexivity]. now elim (H s eq_refl).
Qed.
Lemma supported_lookups : forall m h u, supported m ->
  oget "hoodie.datasource.write.hive_style_partitioning" m = Some h -> oget "hoodie.datasource.write.partitionpath.urlencode" m = Some u ->
  pruner_flags m = Ok (String.eqb h "true", String.eqb u "true") /\ (exists n, table_name m = Ok n) /\ (exists t, table_type m = Ok t).
Proof.
  intros m h u [F [R _]] Eh Eu. split; [|split].
  - apply flags_ok; [exact Eh|exact Eu| |]; [apply (F "hoodie.datasource.write.hive_style_partitioning" Flag h)|apply (F "hoodie.datasource.write.partitionpath.urlencode" Flag u)]; try assumption; cbn; tauto.
  - unfold table_name, table_value, as_string, raw. cbn [table_key]. destruct (oget "hoodie.table.name" m) as [s|] eqn:E; [cbn; eauto|]. elim (R "hoodie.table.name"); [cbn; tauto|exact E].
  - pose proof (table_parsed TableType m) as P. unfold table_type. cbn [table_key] in P. destruct (oget "hoodie.table.type" m) as [s|] eqn:E.
    + assert (C : conforms (table_format TableType) s) by (apply (F "hoodie.table.type"); [cbn; tauto|exact E]). destruct P as [[_ [x Hx]]|[N _]]; [|contradiction].
      rewrite Hx. unfold table_value in Hx. cbn [table_key] in Hx. apply bind_ok in Hx as [v [_ Hx]]. apply bind_ok in Hx as [w [_ Hx]]. injection Hx as <-. cbn. eauto.
    + elim (R "hoodie.table.type"); [cbn; tauto|exact E].
Qed.
Lemma derived_accepted : forall m, oget "hoodie.table.record.merge.strategy" m = None -> validate_merge m = Ok tt.
Proof.
  intros m H. unfold validate_merge. destruct (bool_or_default m "hoodie.populate.meta.fields" true) as [b [P _]].
  assert (D : or_default (table_value PopulatesMetaFields m) (table_default PopulatesMetaFields) = Ok (CBool b)) by exact P.
  assert (D' : table_or_default PopulatesMetaFields m = Ok (CBool b)) by exact P.
  unfold table_or_default at 1. rewrite D, D'. cbn [table_value table_key]. unfold raw. rewrite H. cbn [ok_or bind to_bool]. unfold ohas.
  unfold table_try, table_value, as_string, raw. cbn [table_key table_default].
  destruct b; cbn; destruct (oget "hoodie.table.precombine.field" m); reflexivity.
Qed.
Lemma accepted_can_run : forall m, validate_merge m = Ok tt -> merge_strategy m = Ok "overwrite_with_latest" ->
  populates_meta m = Ok true /\ exists f, precombine_field m = Ok f /\ oget "hoodie.table.precombine.field" m = Some f.
Proof.
  intros m H S. unfold validate_merge in H. unfold merge_strategy in S. destruct (strategy_or_default m) as [t [E T]]. rewrite E in H, S. cbn [bind to_string] in H, S. rewrite S in H. cbn [bind] in H.
  unfold populates_meta. destruct (bool_or_default m "hoodie.populate.meta.fields" true) as [b [P _]].
  assert (D' : table_or_default PopulatesMetaFields m = Ok (CBool b)) by exact P. rewrite D' in *. cbn [bind to_bool] in *. destruct b; [|discriminate]. split; [reflexivity|].
  cbn [negb andb] in H. unfold precombine_field. unfold table_try, table_value, as_string, raw in *. cbn [table_key table_default] in *. destruct (oget "hoodie.table.precombine.field" m) as [f|]; [|discriminate].
  cbn. eauto.
Qed.

Lemma resolve_order : forall iter1 iter2 env file global b b1 b2, visits_all iter1 -> visits_all iter2 -> one_per_key (b_options b) ->
  resolve iter1 env (fun _ _ => Ok tt) (fun _ _ => file) (fun _ _ => global) b = Ok b1 ->
  resolve iter2 env (fun _ _ => Ok tt) (fun _ _ => file) (fun _ _ => global) b = Ok b2 ->
  forall k, oget k (b_hudi b1) = oget k (b_hudi b2) /\ oget k (b_storage b1) = oget k (b_storage b2).
Proof.
  intros iter1 iter2 env file global b b1 b2 V1 V2 D H1 H2 k.
  destruct (resolve_get iter1 V1 _ _ _ _ _ _ D H1) as [s1 [h1 [d1 [p1 [_ [F1 [P1 [G1 [S1 _]]]]]]]]].
  destruct (resolve_get iter2 V2 _ _ _ _ _ _ D H2) as [s2 [h2 [d2 [p2 [_ [F2 [P2 [G2 [S2 _]]]]]]]]].
  assert (d1 = d2) by congruence. subst d2. assert (p1 = p2) by congruence. subst p2. now rewrite G1, G2, S1, S2.
Qed.
Lemma spaces_none : spaces "".
Proof. intros c H. discriminate H. Qed.
Lemma spaces_one : spaces " ".
Proof. intros c H. unfold has_char in H. destruct (Ascii.eqb_spec " " c) as [E|E]; [left; symmetry; exact E|discriminate H]. Qed.
Lemma global_spaced : parse_data (String " " (String "009" "=")) "hoodie.a = b" = Ok [("hoodie.a", "= b")] /\ props_text "hoodie.a = b" [("hoodie.a", "b")].
Proof.
  split; [reflexivity|]. pose proof spaces_none as N.
  pose proof spaces_one as B.
  refine (pt_last "hoodie.a = b" (Some ("hoodie.a", "b")) _ eq_refl). refine (pl_pair "" "hoodie.a" " " " " "b" "" N B B N _ _); repeat split; discriminate.
Qed.
Lemma missing_flag : exists m, one_per_key m /\ oget skip_validation_key m = None /\ validate_configs m = Ok tt /\ pruner_flags m = Panic.
Proof.
  exists [("hoodie.table.name", "t"); ("hoodie.table.type", "COPY_ON_WRITE"); ("hoodie.table.version", "6"); ("hoodie.timeline.layout.version", "1")].
  split; [unfold one_per_key; cbn; repeat apply NoDup_cons; cbn; try (intuition discriminate); apply NoDup_nil|]. repeat split.
Qed.
