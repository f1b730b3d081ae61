(** Lemmas on the storage of readers (C84). *)
From Verif Require Import Base Str M_Utf8 M_Time M_Instant M_Timeline M_FileGroup M_Builder M_Listing M_Expr M_Log M_Config M_Reader M_Table M_Storage M_Objects M_Open
  S_Time S_Timeline S_Config S_History S_Readers L_Base L_Str L_Config L_Records.
Local Open Scope string_scope.

Lemma last_not_in : forall l k, (forall v, ~ In (k, v) l) -> last_value l k = None.
Proof.
  induction l as [|[k' v] l IH]; intros k H; [reflexivity|]. cbn [last_value]. rewrite IH by (intros w I; apply (H w); now right).
  destruct (String.eqb_spec k' k) as [ -> |N]; [|reflexivity]. exfalso. apply (H v). now left.
Qed.
Lemma last_in : forall l k v, last_value l k = Some v -> In (k, v) l.
Proof.
  induction l as [|[k' v'] l IH]; intros k v H; [discriminate|]. cbn [last_value] in H. destruct (last_value l k) as [x|] eqn:E; [injection H as ->; right; now apply IH|].
  destruct (String.eqb_spec k' k) as [ -> |N]; [|discriminate]. injection H as ->. now left.
Qed.
Lemma hudi_name : forall k, is_hudi k = true <-> exists r, k = "hoodie." ++ r.
Proof. intros k. unfold is_hudi. apply starts_with_spec. Qed.
Lemma storage_only_hudi : forall m k, storage_only m -> is_hudi k = true -> oget k m = None.
Proof.
  intros m k [D N] H. destruct (oget k m) as [v|] eqn:E; [|reflexivity]. exfalso. apply hudi_name in H as [r H]. rewrite <- last_value_oget in E by exact D. exact (N k v r (last_in _ _ _ E) H).
Qed.

Section Readers.
Variable parse : string -> option url.
Variable stores : url -> options -> outcome (list object).
Hypothesis BV : by_value stores.

Lemma storage_same : forall s s' h h', (forall k, oget k s = oget k s') -> oget "hoodie.base.path" h = oget "hoodie.base.path" h' ->
  storage_new parse stores s h = storage_new parse stores s' h'.
Proof.
  intros s s' h h' S H. unfold storage_new.
  assert (E : table_try BasePath h = table_try BasePath h') by (unfold table_try, table_value, as_string, raw, table_key; now rewrite H). rewrite E.
  destruct (table_try BasePath h') as [v|]; [|reflexivity]. destruct (to_string v); cbn [bind]; [|reflexivity|reflexivity]. destruct (parse_uri parse a); cbn [bind]; [|reflexivity|reflexivity]. now rewrite (BV _ s s' S).
Qed.
Lemma reader_storage : forall iter tb opts, visits_all iter -> storage_only (t_storage tb) -> reading_options opts ->
  let o := table_reader_options iter (t_configs tb) (t_storage tb) opts in
  storage_new parse stores (snd o) (fst o) = storage_new parse stores (t_storage tb) (t_configs tb).
Proof.
  intros iter tb opts VA SO RO o. apply storage_same.
  - intros k. unfold o. rewrite (proj2 (reader_get iter VA (t_configs tb) (t_storage tb) opts k (proj1 SO))). unfold when. destruct (is_hudi k) eqn:K; cbn [negb first_given].
    + now rewrite storage_only_hudi.
    + rewrite (last_not_in opts k) by (intros v I; destruct (RO k v I) as [R _]; apply hudi_name in R; congruence). now destruct (oget k (t_storage tb)).
  - unfold o. rewrite (proj1 (reader_get iter VA (t_configs tb) (t_storage tb) opts "hoodie.base.path" (proj1 SO))). unfold when. destruct (is_hudi "hoodie.base.path") eqn:K; [|cbn [first_given]; now destruct (oget "hoodie.base.path" (t_configs tb))].
    rewrite (last_not_in opts) by (intros v I; now destruct (RO _ v I)). rewrite (storage_only_hudi _ _ SO K). cbn [first_given]. now destruct (oget "hoodie.base.path" (t_configs tb)).
Qed.

Section Opened.
Variable iter : options -> list (string * string).
Variable env : list (string * string).
Variable global : list object -> outcome string.
Variable local_to_utc : ndt -> option ndt.
Variable sort_unstable : list instant -> list instant.
Lemma build_storage : forall b tb u objs, build iter env parse stores global local_to_utc sort_unstable b = Ok (tb, u, objs) ->
  storage_new parse stores (t_storage tb) (t_configs tb) = Ok (u, objs).
Proof.
  intros b tb u objs H. unfold build in H. apply bind_ok in H as [b' [_ H]]. apply bind_ok in H as [[] [_ H]]. apply bind_ok in H as [[u2 objs2] [SN H]].
  apply bind_ok in H as [tz [_ H]]. apply bind_ok in H as [l [_ H]]. apply bind_ok in H as [cs [_ H]]. injection H as <- -> ->. exact SN.
Qed.
Lemma readers_opened : forall b tb u objs dtype (st : store dtype) opts, build iter env parse stores global local_to_utc sort_unstable b = Ok (tb, u, objs) ->
  storage_only (t_storage tb) -> reading_options opts -> st_open _ st = storage_opens parse stores -> readers_open st tb opts.
Proof.
  intros b tb u objs D st opts B SO RO E it VA o. rewrite E. unfold storage_opens. unfold o. rewrite (reader_storage it tb opts VA SO RO), (build_storage _ _ _ _ B). reflexivity.
Qed.
Lemma table_reader_is : forall b tb u objs it opts, build iter env parse stores global local_to_utc sort_unstable b = Ok (tb, u, objs) ->
  storage_only (t_storage tb) -> reading_options opts -> visits_all it ->
  exists hudi, table_reader it parse stores tb opts = Ok (hudi, u, objs) /\ forall k, oget k hudi = first_given [last_value opts k; oget k (t_configs tb)].
Proof.
  intros b tb u objs it opts B SO RO VA. unfold table_reader, reader_new.
  change (reader_options it (t_configs tb) (it (oputs opts (oputs (it (t_storage tb)) [])))) with (table_reader_options it (t_configs tb) (t_storage tb) opts).
  rewrite (reader_storage it tb opts VA SO RO), (build_storage _ _ _ _ B). cbn [bind]. eexists. split; [reflexivity|]. intros k.
  rewrite (proj1 (reader_get it VA (t_configs tb) (t_storage tb) opts k (proj1 SO))). unfold when. destruct (is_hudi k) eqn:K.
  - rewrite (storage_only_hudi _ _ SO K). cbn [first_given]. destruct (last_value opts k); [reflexivity|]. now destruct (oget k (t_configs tb)).
  - rewrite (last_not_in opts k) by (intros v I; destruct (RO k v I) as [R _]; apply hudi_name in R; congruence). cbn [first_given]. now destruct (oget k (t_configs tb)).
Qed.
End Opened.

(** Readers made from a URI. *)
Lemma uri_storage : forall it tb opts uri, visits_all it -> one_per_key opts -> storage_only (t_storage tb) ->
  oget "hoodie.base.path" (t_configs tb) = Some uri -> oget "hoodie.base.path" opts = None -> (forall k, is_hudi k = false -> oget k opts = oget k (t_storage tb)) ->
  let o := reader_options it [("hoodie.base.path", uri)] opts in
  storage_new parse stores (snd o) (fst o) = storage_new parse stores (t_storage tb) (t_configs tb).
Proof.
  intros it tb opts uri VA D SO BP NB SS o. unfold o, reader_options.
  destruct (split_options opts [] []) as [h others] eqn:E. destruct (split_nodup opts [] []) as [D2 D3]; [constructor|constructor|].
  assert (G : forall k, oget k h = first_given [when (is_hudi k) (last_value opts k); None] /\ oget k others = first_given [when (negb (is_hudi k)) (last_value opts k); None]).
  { intros k. pose proof (oget_split opts [] [] k) as X. rewrite E in X. exact X. }
  rewrite E in D2, D3. cbn [fst snd] in *. apply storage_same.
  - intros k. rewrite (proj2 (G k)), last_value_oget by exact D. unfold when. destruct (is_hudi k) eqn:K; cbn [negb first_given]; [now rewrite storage_only_hudi|]. rewrite SS by exact K. now destruct (oget k (t_storage tb)).
  - rewrite oget_oputs, iter_last, (proj1 (G _)), last_value_oget, NB, BP by assumption. unfold when. now destruct (is_hudi "hoodie.base.path").
Qed.
End Readers.

(** The storage options of a table. *)
Definition no_hudi (m : options) : Prop := forall k v, In (k, v) m -> is_hudi k = false.
Lemma storage_only_iff : forall m, storage_only m <-> one_per_key m /\ no_hudi m.
Proof.
  intros m. split; intros [D N]; (split; [exact D|]).
  - intros k v I. destruct (is_hudi k) eqn:K; [|reflexivity]. apply hudi_name in K as [r K]. now elim (N k v r I).
  - intros k v r I E. assert (H : is_hudi k = true) by (apply hudi_name; eauto). specialize (N k v I). congruence.
Qed.
Lemma oput_in : forall m k v k' v', In (k', v') (oput k v m) -> k' = k /\ v' = v \/ In (k', v') m.
Proof.
  induction m as [|[a w] m IH]; intros k v k' v' H; cbn [oput] in H.
  - destruct H as [[= -> ->]|[]]; auto.
  - destruct (String.eqb_spec a k) as [ -> |N]; destruct H as [H|H].
    + injection H as -> ->. auto.
    + right. now right.
    + right. now left.
    + destruct (IH _ _ _ _ H) as [X|X]; [now left|right; now right].
Qed.
Lemma oput_no_hudi : forall k v m, is_hudi k = false -> no_hudi m -> no_hudi (oput k v m).
Proof. intros k v m K N k' v' I. apply oput_in in I as [[ -> _]|I]; [exact K|exact (N _ _ I)]. Qed.
Lemma absent_only : forall l m, no_hudi l -> storage_only m -> storage_only (put_if_absent l m).
Proof.
  induction l as [|[k v] l IH]; intros m L S; cbn [put_if_absent]; [exact S|]. apply IH; [intros a b I; apply (L a b); now right|].
  destruct (ohas k m); [exact S|]. apply storage_only_iff in S as [D N]. apply storage_only_iff. split; [now apply oput_nodup|apply oput_no_hudi; [apply (L k v); now left|exact N]].
Qed.
Lemma split_no_hudi : forall l h o, no_hudi o -> no_hudi (snd (split_options l h o)).
Proof. induction l as [|[k v] l IH]; intros h o H; cbn [split_options]; [exact H|]. destruct (is_hudi k) eqn:K; apply IH; [exact H|now apply oput_no_hudi]. Qed.
Lemma cloud_not_hudi : forall k, is_cloud k = true -> is_hudi (to_ascii_lowercase k) = false.
Proof.
  intros k H. unfold is_cloud in H. apply Bool.orb_true_iff in H as [H|H]; [apply Bool.orb_true_iff in H as [H|H]|]; apply starts_with_spec in H as [r ->]; reflexivity.
Qed.
Lemma cloud_only : forall env m, storage_only m -> storage_only (cloud_vars env m).
Proof.
  induction env as [|[k v] env IH]; intros m S; cbn [cloud_vars]; [exact S|]. apply IH. destruct (is_cloud k) eqn:C; cbn [andb]; [|exact S]. destruct (ohas _ m); cbn [negb]; [exact S|].
  apply storage_only_iff in S as [D N]. apply storage_only_iff. split; [now apply oput_nodup|apply oput_no_hudi; [now apply cloud_not_hudi|exact N]].
Qed.
Lemma built_storage_only : forall iter, visits_all iter -> forall env parse stores global local_to_utc sort_unstable b tb u objs,
  storage_only (b_storage b) -> build iter env parse stores global local_to_utc sort_unstable b = Ok (tb, u, objs) -> storage_only (t_storage tb).
Proof.
  intros iter VA env parse stores global L f b tb u objs SO H. unfold build in H. apply bind_ok in H as [b' [R H]]. apply bind_ok in H as [[] [_ H]]. apply bind_ok in H as [[u2 objs2] [_ H]].
  apply bind_ok in H as [tz [_ H]]. apply bind_ok in H as [l [_ H]]. apply bind_ok in H as [cs [_ H]]. injection H as <- _ _. cbn [t_storage].
  unfold resolve in R. apply bind_ok in R as [[] [_ R]]. apply bind_ok in R as [h [_ R]]. injection R as <-. cbn [b_storage resolve_env]. apply cloud_only.
  unfold resolve_user. destruct (split_options (iter (b_options b)) [] []) as [gh go] eqn:E. cbn [b_storage]. apply absent_only; [|exact SO].
  intros k v I. apply (Permutation_in _ (VA go)) in I. pose proof (split_no_hudi (iter (b_options b)) [] []) as X. rewrite E in X. apply (X ltac:(intros ? ? [])) in I. exact I.
Qed.
