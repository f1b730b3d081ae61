From Verif Require Import Base Str L_Base L_Str M_Time M_Instant M_Timeline M_FileGroup M_Builder M_Listing M_Expr M_Log M_Config M_Reader M_Table M_Storage M_Objects M_Open M_Calls
  S_Config S_Open S_Calls L_Config L_Open.
Local Open Scope string_scope.

(** ** Options as maps *)
Lemma raw_ext : forall m m' k, same_map m m' -> raw m k = raw m' k.
Proof. intros m m' k E. unfold raw. now rewrite E. Qed.
Lemma table_value_ext : forall m m' c, same_map m m' -> table_value c m = table_value c m'.
Proof. intros m m' c E. unfold table_value, as_string, as_int, as_bool, as_list. destruct c; now rewrite (raw_ext m m' _ E). Qed.
Lemma read_value_ext : forall m m' c, same_map m m' -> read_value c m = read_value c m'.
Proof. intros m m' c E. unfold read_value, as_string, as_uint, as_bool. destruct c; now rewrite (raw_ext m m' _ E). Qed.
Lemma or_default_ext : forall m m' c, same_map m m' -> table_or_default c m = table_or_default c m'.
Proof. intros m m' c E. unfold table_or_default. rewrite !(table_value_ext m m' _ E). destruct (table_value c m'); [reflexivity| |]; destruct c; try reflexivity; unfold ohas; now rewrite E. Qed.
Lemma validate_merge_ext : forall m m', same_map m m' -> validate_merge m = validate_merge m'.
Proof. intros m m' E. unfold validate_merge, table_try. now rewrite !(or_default_ext m m' _ E), (table_value_ext m m' _ E). Qed.
Lemma mapM_same : forall (A B : Type) (f g : A -> outcome B) l, (forall x, f x = g x) -> mapM f l = mapM g l.
Proof. intros A B f g l E. induction l as [|x l IH]; [reflexivity|]. cbn. now rewrite E, IH. Qed.
Lemma validate_ext : forall m m', same_map m m' -> validate_configs m = validate_configs m'.
Proof.
  intros m m' E. unfold validate_configs, as_bool. rewrite (raw_ext m m' _ E), !(table_value_ext m m' _ E), (or_default_ext m m' _ E), (validate_merge_ext m m' E).
  rewrite (mapM_same _ _ (fun c => validate (required c) (table_value c m)) (fun c => validate (required c) (table_value c m'))) by (intros c; now rewrite (table_value_ext m m' _ E)).
  now rewrite (mapM_same _ _ (fun c => validate false (read_value c m)) (fun c => validate false (read_value c m'))) by (intros c; now rewrite (read_value_ext m m' _ E)).
Qed.
Lemma timezone_ext : forall m m', same_map m m' -> timeline_timezone m = timeline_timezone m'.
Proof. intros m m' E. unfold timeline_timezone. now rewrite (or_default_ext m m' _ E). Qed.
Lemma storage_new_ext : forall parse stores s s' h h', map_like stores -> same_map s s' -> same_map h h' -> storage_new parse stores s h = storage_new parse stores s' h'.
Proof.
  intros parse stores s s' h h' ML S H. unfold storage_new, table_try. rewrite (table_value_ext h h' _ H). destruct (match table_value BasePath h' with Ok v => Some v | _ => table_default BasePath end) as [v|]; [|reflexivity].
  destruct (to_string v) as [uri| |]; try reflexivity. cbn [bind]. destruct (parse_uri parse uri) as [u| |]; try reflexivity. cbn [bind]. now rewrite (ML u s s' S).
Qed.

(** ** The calls *)
Lemma last_app : forall a b k, last_value (a ++ b)%list k = first_given [last_value b k; last_value a k].
Proof.
  induction a as [|[k' v'] a IH]; intros b k; cbn [app last_value]; [now destruct (last_value b k)|]. rewrite IH. cbn [first_given]. destruct (last_value b k); [reflexivity|].
  destruct (last_value a k); [reflexivity|]; now destruct (String.eqb k' k).
Qed.
Lemma given_cons : forall c x calls k, given c (x :: calls) k = first_given [given c calls k; given c [x] k].
Proof. intros c x calls k. unfold given, given_in. cbn [flat_map]. now rewrite last_app, app_nil_r. Qed.
Definition field (c : category) (b : builder) : options := match c with Hudi => b_hudi b | Storage => b_storage b | Generic => b_options b end.
Lemma call_get : forall c x b k, oget k (field c (with_call b x)) = first_given [given c [x] k; oget k (field c b)].
Proof.
  intros c [c' k' v'|c' kvs] b k; unfold given, given_in; cbn [flat_map with_call]; rewrite app_nil_r; destruct c, c'; cbn; try (now destruct (oget k _)); try apply oget_oputs; rewrite oget_oput; destruct (String.eqb k' k); try reflexivity; now destruct (oget k _).
Qed.
Lemma calls_get : forall c calls b k, oget k (field c (with_calls b calls)) = first_given [given c calls k; oget k (field c b)].
Proof.
  intros c. induction calls as [|x calls IH]; intros b k; [cbn; now destruct (oget k (field c b))|]. unfold with_calls in *. cbn [fold_left]. rewrite (given_cons c x calls k), IH, call_get. cbn [first_given].
  destruct (given c calls k); [reflexivity|]. destruct (given c [x] k); [reflexivity|]. now destruct (oget k _).
Qed.
Lemma calls_base : forall calls b, b_base (with_calls b calls) = b_base b.
Proof. induction calls as [|x calls IH]; intros b; [reflexivity|]. unfold with_calls in *. cbn [fold_left]. rewrite IH. destruct x as [[] ? ?|[] ?]; reflexivity. Qed.
Lemma calls_nodup : forall c calls b, one_per_key (field c b) -> one_per_key (field c (with_calls b calls)).
Proof.
  intros c. induction calls as [|x calls IH]; intros b D; [exact D|]. unfold with_calls in *. cbn [fold_left]. apply IH. destruct x as [c' k v|c' kvs]; destruct c, c'; cbn; try exact D; try now apply oput_nodup. all: now apply oputs_nodup.
Qed.
Lemma fresh_nodup : forall uri calls c, one_per_key (field c (with_calls (from_base_uri uri) calls)).
Proof. intros uri calls c. apply calls_nodup. destruct c; constructor. Qed.
Lemma fresh_get : forall uri calls c k, oget k (field c (with_calls (from_base_uri uri) calls)) = given c calls k.
Proof. intros uri calls c k. rewrite calls_get. destruct c; cbn [first_given field from_base_uri b_hudi b_storage b_options oget]; now destruct (given _ calls k). Qed.

(** Python *)
Definition py_field (c : category) (b : py_builder) : options := match c with Hudi => pb_hudi b | Storage => pb_storage b | Generic => pb_options b end.
Lemma dict_last : forall kvs k, last_value (oputs kvs []) k = last_value kvs k.
Proof. intros kvs k. rewrite last_value_oget by (apply oputs_nodup; constructor). rewrite oget_oputs. cbn. now destruct (last_value kvs k). Qed.
Lemma py_call_get : forall c x b k, oget k (py_field c (py_with_call b x)) = first_given [given c [x] k; oget k (py_field c b)].
Proof.
  intros c [c' k' v'|c' kvs] b k; unfold given, given_in; cbn [flat_map py_with_call]; rewrite app_nil_r; destruct c, c'; cbn; try (now destruct (oget k _)); rewrite ?oget_oputs, ?dict_last; try reflexivity; rewrite oget_oput; destruct (String.eqb k' k); try reflexivity; now destruct (oget k _).
Qed.
Lemma py_calls_get : forall c calls b k, oget k (py_field c (py_with_calls b calls)) = first_given [given c calls k; oget k (py_field c b)].
Proof.
  intros c. induction calls as [|x calls IH]; intros b k; [cbn; now destruct (oget k (py_field c b))|]. unfold py_with_calls in *. cbn [fold_left]. rewrite (given_cons c x calls k), IH, py_call_get. cbn [first_given].
  destruct (given c calls k); [reflexivity|]. destruct (given c [x] k); [reflexivity|]. now destruct (oget k _).
Qed.
Lemma py_base : forall calls b, pb_base (py_with_calls b calls) = pb_base b.
Proof. induction calls as [|x calls IH]; intros b; [reflexivity|]. unfold py_with_calls in *. cbn [fold_left]. rewrite IH. destruct x as [[] ? ?|[] ?]; reflexivity. Qed.
Lemma py_nodup : forall c calls b, one_per_key (py_field c b) -> one_per_key (py_field c (py_with_calls b calls)).
Proof.
  intros c. induction calls as [|x calls IH]; intros b D; [exact D|]. unfold py_with_calls in *. cbn [fold_left]. apply IH. destruct x as [c' k v|c' kvs]; destruct c, c'; cbn; try exact D; try now apply oput_nodup. all: now apply oputs_nodup.
Qed.
Lemma py_rust_get : forall iter uri calls c k, visits_all iter ->
  oget k (field c (py_rust_builder iter (py_with_calls (py_from_base_uri uri) calls))) = given c calls k.
Proof.
  intros iter uri calls c k V. unfold py_rust_builder. set (pb := py_with_calls (py_from_base_uri uri) calls).
  assert (G : forall c, last_value (iter (oputs (py_field c pb) [])) k = given c calls k).
  { intros c'. rewrite (iter_last iter V) by (apply oputs_nodup; constructor). rewrite oget_oputs. cbn [oget]. rewrite last_value_oget by (apply py_nodup; destruct c'; constructor).
    unfold pb. rewrite py_calls_get. destruct c'; cbn; now destruct (given _ calls k). }
  rewrite fresh_get. unfold given, given_in. destruct c; cbn [flat_map same_category app]; rewrite ?app_nil_r; [exact (G Hudi)|exact (G Storage)|exact (G Generic)].
Qed.

(** ** Opening depends on the resolved options only *)
Definition same_resolved (b b' : builder) : Prop := same_map (b_hudi b) (b_hudi b') /\ same_map (b_storage b) (b_storage b').
Section Build.
Variable parse : string -> option url.
Variable global : list object -> outcome string.
Variable local_to_utc : ndt -> option ndt.
Variable sort_unstable : list instant -> list instant.
Variable stores : url -> options -> outcome (list object).
Hypothesis ML : map_like stores.
Variable iter iter' : options -> list (string * string).
Hypothesis V : visits_all iter.
Hypothesis V' : visits_all iter'.
Notation build_mut it env := (build_mut it env parse stores global local_to_utc sort_unstable).

Lemma build_link : forall env b, snd (build_mut iter env b) = build iter env parse stores global local_to_utc sort_unstable b.
Proof.
  intros env b. unfold M_Calls.build_mut, build, resolve_mut, resolve. destruct (storage_new parse stores (b_storage (resolve_env env (resolve_user iter b))) (b_hudi (resolve_env env (resolve_user iter b)))) as [[u objs]| |]; cbn [bind]; try reflexivity.
  destruct (imbue_properties iter _ _) as [h| |]; reflexivity.
Qed.
Lemma imbue_same : forall f h h', same_map h h' ->
  match imbue_properties iter f h, imbue_properties iter' f h' with Ok a, Ok b => same_map a b | Err e, Err e' => e = e' | Panic, Panic => True | _, _ => False end.
Proof.
  intros f h h' E. unfold imbue_properties. destruct f as [d| |]; cbn [bind]; [|reflexivity|exact I]. destruct (parse_data "=" d) as [p| |] eqn:PP; cbn [bind]; [|reflexivity|exact I].
  apply parse_nodup in PP. intros k. rewrite !oget_oputs, (iter_last iter V), (iter_last iter' V') by assumption. cbn. now rewrite E.
Qed.
Lemma global_same : forall f h h', same_map h h' -> same_map (imbue_global iter f h) (imbue_global iter' f h').
Proof. intros f h h' E k. rewrite (imbue_global_get iter V), (imbue_global_get iter' V'). cbn. now rewrite E. Qed.
(** The same resolved options: the same result, and the same builder afterwards. *)
Lemma build_same : forall env env' b b', same_resolved (resolved iter env b) (resolved iter' env' b') ->
  same_opening (snd (build_mut iter env b)) (snd (build_mut iter' env' b')) /\ same_resolved (fst (build_mut iter env b)) (fst (build_mut iter' env' b')).
Proof.
  intros env env' b b' [EH ES]. unfold M_Calls.build_mut, resolve_mut. fold (resolved iter env b). fold (resolved iter' env' b'). unfold read_properties, read_global.
  rewrite (storage_new_ext parse stores _ _ _ _ ML ES EH). destruct (storage_new parse stores (b_storage (resolved iter' env' b')) (b_hudi (resolved iter' env' b'))) as [[u objs]| |]; cbn [bind fst snd]; [|split; [reflexivity|now split]|split; [exact I|now split]].
  pose proof (imbue_same (get_file_data objs u ".hoodie/hoodie.properties") _ _ EH) as IS. destruct (imbue_properties iter _ _) as [h| |], (imbue_properties iter' _ _) as [h'| |]; try contradiction; cbn [bind fst snd b_hudi b_storage].
  - pose proof (global_same (global objs) _ _ IS) as GS. split; [|now split]. rewrite (validate_ext _ _ GS). destruct (validate_configs _) as [[]| |]; cbn [expect bind]; [|exact I|exact I].
    rewrite (storage_new_ext parse stores _ _ _ _ ML ES GS). destruct (storage_new parse stores _ _) as [[u2 objs2]| |]; cbn [bind]; [|reflexivity|exact I]. rewrite (timezone_ext _ _ GS).
    destruct (timeline_timezone _) as [tz| |]; cbn [bind]; [|reflexivity|exact I]. destruct (list_files objs2 u2 ".hoodie") as [fs| |]; cbn [bind]; [|reflexivity|exact I].
    destruct (new_timeline _ _ _ _) as [cs| |]; cbn [bind]; [|reflexivity|exact I]. split; [|auto]. split; [exact GS|]. split; [exact ES|reflexivity].
  - subst. split; [reflexivity|now split].
  - split; [exact I|now split].
Qed.
(** What the builder is afterwards. *)
Lemma build_after : forall env b, one_per_key (b_options b) ->
  let (after, r) := build_mut iter env b in
  b_base after = b_base b /\ b_options after = b_options b /\ b_storage after = b_storage (resolved iter env b)
  /\ (after = resolved iter env b
      \/ exists u objs data props, parse_uri parse (b_base b) = Ok u /\ stores u (b_storage after) = Ok objs /\ get_file_data objs u ".hoodie/hoodie.properties" = Ok data /\ parse_data "=" data = Ok props
           /\ forall k, oget k (b_hudi after) = option_value props b (global objs) k).
Proof.
  intros env b D. unfold M_Calls.build_mut, resolve_mut. fold (resolved iter env b).
  assert (BB : b_base (resolved iter env b) = b_base b) by (unfold resolved, resolve_env, resolve_user; destruct (split_options _ _ _); reflexivity).
  assert (BO : b_options (resolved iter env b) = b_options b) by (unfold resolved, resolve_env, resolve_user; destruct (split_options _ _ _); reflexivity).
  unfold read_properties, read_global. destruct (storage_new parse stores (b_storage (resolved iter env b)) (b_hudi (resolved iter env b))) as [[u objs]| |] eqn:SN; cbn [bind]; [|auto|auto].
  unfold imbue_properties. destruct (get_file_data objs u ".hoodie/hoodie.properties") as [data| |] eqn:GP; cbn [bind]; [|auto|auto]. destruct (parse_data "=" data) as [props| |] eqn:PP; cbn [bind]; [|auto|auto].
  rewrite (storage_new_spec parse stores _ _ _ (resolved_base iter V env b D)) in SN. apply bind_ok in SN as [u1 [PU SN]]. apply bind_ok in SN as [o1 [SO SN]]. injection SN as -> ->.
  cbn [b_base b_options b_storage b_hudi]. split; [exact BB|]. split; [exact BO|]. split; [reflexivity|]. right. exists u, objs, data, props. repeat (split; [assumption|]).
  destruct (resolve_run iter V env parse stores global b u objs data props D PU SO GP PP) as [b' [R [_ EH]]]. unfold resolve in R. fold (resolved iter env b) in R. unfold read_properties, read_global in R.
  rewrite (storage_new_spec parse stores _ _ _ (resolved_base iter V env b D)), PU in R. cbn [bind] in R. rewrite SO in R. cbn [bind] in R. rewrite GP in R. unfold imbue_properties in R. cbn [bind] in R. rewrite PP in R. cbn [bind] in R.
  injection R as <-. exact EH.
Qed.
End Build.

(** ** A builder used again *)
Definition finish (parse : string -> option url) (stores : url -> options -> outcome (list object)) (local_to_utc : ndt -> option ndt) (sort_unstable : list instant -> list instant) (s h : options) : outcome (table * url * list object) :=
  let* _ := expect (validate_configs h) in
  let* (u, objs) := storage_new parse stores s h in
  let* tz := timeline_timezone h in
  let* files := list_files objs u ".hoodie" in
  let* commits := new_timeline local_to_utc sort_unstable tz (map fm_name files) in
  Ok ({| t_configs := h; t_storage := s; t_commits := commits |}, u, objs).
Lemma finish_same : forall parse stores L f s s' h h', map_like stores -> same_map s s' -> same_map h h' -> same_opening (finish parse stores L f s h) (finish parse stores L f s' h').
Proof.
  intros parse stores L f s s' h h' ML ES GS. unfold finish. rewrite (validate_ext _ _ GS). destruct (validate_configs _) as [[]| |]; cbn [expect bind]; [|exact I|exact I].
  rewrite (storage_new_ext parse stores _ _ _ _ ML ES GS). destruct (storage_new parse stores _ _) as [[u2 objs2]| |]; cbn [bind]; [|reflexivity|exact I]. rewrite (timezone_ext _ _ GS).
  destruct (timeline_timezone _) as [tz| |]; cbn [bind]; [|reflexivity|exact I]. destruct (list_files objs2 u2 ".hoodie") as [fs| |]; cbn [bind]; [|reflexivity|exact I].
  destruct (new_timeline _ _ _ _) as [cs| |]; cbn [bind]; [|reflexivity|exact I]. split; [|auto]. split; [exact GS|]. split; [exact ES|reflexivity].
Qed.
Section Again.
Variable parse : string -> option url.
Variable local_to_utc : ndt -> option ndt.
Variable sort_unstable : list instant -> list instant.
Notation bm it env stores global := (build_mut it env parse stores global local_to_utc sort_unstable).
Definition final (iter : options -> list (string * string)) (env : list (string * string)) (global : list object -> outcome string) (b : builder) (objs : list object) (props : options) : options :=
  imbue_global iter (global objs) (oputs (iter props) (b_hudi (resolved iter env b))).
Lemma final_get : forall iter env global b objs props k, visits_all iter -> one_per_key (b_options b) -> one_per_key props ->
  oget k (final iter env global b objs props) = option_value props b (global objs) k.
Proof.
  intros iter env global b objs props k V D DP. unfold final. rewrite (imbue_global_get iter V), oget_oputs, (iter_last iter V) by assumption.
  unfold resolved, resolve_env. cbn [b_hudi]. rewrite (proj1 (user_get iter V b k D)). unfold option_value, is_hudi, when.
  destruct (oget k props); cbn [first_given]; [reflexivity|]. destruct (if String.eqb "hoodie.base.path" k then _ else _); cbn [first_given]; [reflexivity|].
  destruct (starts_with "hoodie." k); cbn [first_given]; [destruct (oget k (b_options b)); reflexivity|reflexivity].
Qed.
Lemma build_steps : forall iter env stores global b, visits_all iter -> one_per_key (b_options b) ->
  snd (bm iter env stores global b)
  = let* u := parse_uri parse (b_base b) in
    let* objs := stores u (b_storage (resolved iter env b)) in
    let* data := get_file_data objs u ".hoodie/hoodie.properties" in
    let* props := parse_data "=" data in
    finish parse stores local_to_utc sort_unstable (b_storage (resolved iter env b)) (final iter env global b objs props).
Proof.
  intros iter env stores global b V D. unfold build_mut, resolve_mut. fold (resolved iter env b). unfold read_properties, read_global.
  rewrite (storage_new_spec parse stores _ _ _ (resolved_base iter V env b D)). destruct (parse_uri parse (b_base b)) as [u| |]; cbn [bind snd]; try reflexivity.
  destruct (stores u _) as [objs| |]; cbn [bind snd]; try reflexivity. unfold imbue_properties. destruct (get_file_data objs u _) as [data| |]; cbn [bind snd]; try reflexivity.
  destruct (parse_data "=" data) as [props| |]; reflexivity.
Qed.
Lemma steps_same : forall iter iter' env env' stores global b b', visits_all iter -> visits_all iter' -> map_like stores -> one_per_key (b_options b) -> one_per_key (b_options b') ->
  b_base b = b_base b' -> (forall k, storage_value env b k = storage_value env' b' k) ->
  (forall u objs data props s, parse_uri parse (b_base b) = Ok u -> (forall k, oget k s = storage_value env b k) -> stores u s = Ok objs -> get_file_data objs u ".hoodie/hoodie.properties" = Ok data -> parse_data "=" data = Ok props ->
    forall k, option_value props b (global objs) k = option_value props b' (global objs) k) ->
  same_opening (snd (bm iter env stores global b)) (snd (bm iter' env' stores global b')).
Proof.
  intros iter iter' env env' stores global b b' V V' ML D D' EB ES EO. rewrite !build_steps by assumption. rewrite <- EB. destruct (parse_uri parse (b_base b)) as [u| |] eqn:PU; cbn [bind]; [|reflexivity|exact I].
  assert (SS : same_map (b_storage (resolved iter env b)) (b_storage (resolved iter' env' b'))) by (intros k; now rewrite (storage_get iter V env b k D), (storage_get iter' V' env' b' k D')).
  rewrite <- (ML u _ _ SS). destruct (stores u _) as [objs| |] eqn:SO; cbn [bind]; [|reflexivity|exact I]. destruct (get_file_data objs u _) as [data| |] eqn:GP; cbn [bind]; [|reflexivity|exact I].
  destruct (parse_data "=" data) as [props| |] eqn:PP; cbn [bind]; [|reflexivity|exact I]. apply finish_same; [exact ML|exact SS|]. intros k. pose proof (parse_nodup _ _ _ PP) as DP. rewrite !final_get by assumption.
  eapply EO; [reflexivity|intros; apply (storage_get iter V); exact D|exact SO|exact GP|exact PP].
Qed.
(** the options of a table after the calls *)
Lemma after_option : forall uri calls props g k, option_value props (with_calls (from_base_uri uri) calls) g k = hudi_after props uri calls g k.
Proof. intros. unfold option_value, hudi_after. rewrite calls_base. now rewrite (fresh_get uri calls Hudi k : oget k (b_hudi _) = _), (fresh_get uri calls Generic k : oget k (b_options _) = _). Qed.
Lemma after_storage : forall uri calls env k, storage_value env (with_calls (from_base_uri uri) calls) k = storage_after env calls k.
Proof. intros. unfold storage_value, storage_after. now rewrite (fresh_get uri calls Storage k : oget k (b_storage _) = _), (fresh_get uri calls Generic k : oget k (b_options _) = _). Qed.
Lemma built_options : forall iter env stores global b tb u objs, visits_all iter -> one_per_key (b_options b) -> snd (bm iter env stores global b) = Ok (tb, u, objs) ->
  exists u0 objs0 data props,
    parse_uri parse (b_base b) = Ok u0 /\ stores u0 (t_storage tb) = Ok objs0
    /\ get_file_data objs0 u0 ".hoodie/hoodie.properties" = Ok data /\ parse_data "=" data = Ok props
    /\ (forall k, oget k (t_configs tb) = option_value props b (global objs0) k) /\ (forall k, oget k (t_storage tb) = storage_value env b k).
Proof.
  intros iter env stores global b tb u objs V D H. rewrite build_steps in H by assumption. apply bind_ok in H as [u0 [PU H]]. apply bind_ok in H as [objs0 [SO H]]. apply bind_ok in H as [data [GP H]]. apply bind_ok in H as [props [PP H]].
  unfold finish in H. apply bind_ok in H as [[] [_ H]]. apply bind_ok in H as [[u1 o1] [_ H]]. apply bind_ok in H as [tz [_ H]]. apply bind_ok in H as [l [_ H]]. apply bind_ok in H as [cs [_ H]]. injection H as <- _ _. cbn [t_storage t_configs].
  exists u0, objs0, data, props. repeat (split; [assumption|]). split; [intros k; apply final_get; [assumption|assumption|now apply parse_nodup in PP]|]. intros k. now apply storage_get.
Qed.
Lemma calls_options : forall iter env stores global uri calls tb u objs, visits_all iter -> snd (bm iter env stores global (with_calls (from_base_uri uri) calls)) = Ok (tb, u, objs) ->
  exists u0 objs0 data props,
    parse_uri parse uri = Ok u0 /\ stores u0 (t_storage tb) = Ok objs0
    /\ get_file_data objs0 u0 ".hoodie/hoodie.properties" = Ok data /\ parse_data "=" data = Ok props
    /\ (forall k, oget k (t_configs tb) = hudi_after props uri calls (global objs0) k) /\ (forall k, oget k (t_storage tb) = storage_after env calls k).
Proof.
  intros iter env stores global uri calls tb u objs V H. destruct (built_options _ _ _ _ _ _ _ _ V (fresh_nodup uri calls Generic) H) as [u0 [o0 [d [p [A [B [C [E [F G]]]]]]]]]. rewrite calls_base in A.
  exists u0, o0, d, p. repeat (split; [assumption|]). split; intros k; [now rewrite F, after_option|now rewrite G, after_storage].
Qed.
Lemma calls_order : forall iter iter' env stores global uri calls calls', visits_all iter -> visits_all iter' -> map_like stores -> (forall c k, given c calls k = given c calls' k) ->
  same_opening (snd (bm iter env stores global (with_calls (from_base_uri uri) calls))) (snd (bm iter' env stores global (with_calls (from_base_uri uri) calls'))).
Proof.
  intros iter iter' env stores global uri calls calls' V V' ML E. apply steps_same; try assumption; try apply (fresh_nodup _ _ Generic); [now rewrite !calls_base| |].
  - intros k. rewrite !after_storage. unfold storage_after. now rewrite !E.
  - intros. rewrite !after_option. unfold hudi_after. now rewrite !E.
Qed.
Lemma python_same : forall iter iter' env stores global uri calls, visits_all iter -> visits_all iter' -> map_like stores ->
  same_opening (py_build iter env parse stores global local_to_utc sort_unstable (py_with_calls (py_from_base_uri uri) calls)) (snd (bm iter' env stores global (with_calls (from_base_uri uri) calls))).
Proof.
  intros iter iter' env stores global uri calls V V' ML. unfold py_build.
  assert (G : forall c k, oget k (field c (py_rust_builder iter (py_with_calls (py_from_base_uri uri) calls))) = given c calls k) by (intros c k; now apply py_rust_get).
  assert (B : b_base (py_rust_builder iter (py_with_calls (py_from_base_uri uri) calls)) = uri) by (unfold py_rust_builder; rewrite calls_base; cbn [from_base_uri b_base]; now rewrite py_base).
  apply steps_same; try assumption; [apply (fresh_nodup _ _ Generic)|apply (fresh_nodup _ _ Generic)|now rewrite B, calls_base| |].
  - intros k. rewrite after_storage. unfold storage_value, storage_after. now rewrite (G Storage k : oget k (b_storage _) = _), (G Generic k : oget k (b_options _) = _).
  - intros. rewrite after_option. unfold option_value, hudi_after. now rewrite B, (G Hudi k : oget k (b_hudi _) = _), (G Generic k : oget k (b_options _) = _).
Qed.
Lemma python_table : forall iter iter' env stores global uri opts, visits_all iter -> visits_all iter' -> map_like stores ->
  same_opening (py_table iter env parse stores global local_to_utc sort_unstable uri (Some opts)) (table_new_with_options iter' env parse stores global local_to_utc sort_unstable uri opts)
  /\ same_opening (py_table iter env parse stores global local_to_utc sort_unstable uri None) (table_new iter' env parse stores global local_to_utc sort_unstable uri).
Proof.
  intros iter iter' env stores global uri opts V V' ML. unfold py_table, table_new_with_options, table_new. split.
  - apply (calls_order iter iter' env stores global uri [Many Generic (iter (oputs opts []))] [Many Generic opts]); try assumption. intros c k. unfold given, given_in. cbn [flat_map]. destruct c; cbn [same_category]; rewrite ?app_nil_r; try reflexivity.
    rewrite (iter_last iter V) by (apply oputs_nodup; constructor). rewrite oget_oputs. cbn. now destruct (last_value opts k).
  - apply (calls_order iter iter' env stores global uri [Many Generic (iter [])] []); try assumption. intros c k. unfold given, given_in. cbn [flat_map]. destruct c; cbn [same_category]; rewrite ?app_nil_r; try reflexivity.
    rewrite (iter_last iter V) by constructor. reflexivity.
Qed.

Lemma storage_again : forall iter env env2 b b2, visits_all iter -> one_per_key (b_options b) -> b_options b2 = b_options b -> b_storage b2 = b_storage (resolved iter env b) ->
  forall k, storage_value env2 b2 k = first_given [storage_value env b k; env_value env2 k].
Proof.
  intros iter env env2 b b2 V D EO ES k. unfold storage_value at 1. rewrite EO, ES, (storage_get iter V) by assumption. unfold storage_value. cbn [first_given].
  destruct (oget k (b_storage b)); [reflexivity|]. destruct (when (negb (starts_with "hoodie." k)) (oget k (b_options b))); [reflexivity|]. now destruct (env_value env k).
Qed.
(** building again on the same table: as a new builder *)
Lemma again_same : forall iter iter2 iter3 env stores global b, visits_all iter -> visits_all iter2 -> visits_all iter3 -> map_like stores -> one_per_key (b_options b) ->
  same_opening (snd (bm iter2 env stores global (fst (bm iter env stores global b)))) (snd (bm iter3 env stores global b)).
Proof.
  intros iter iter2 iter3 env stores global b V V2 V3 ML D. pose proof (build_after parse global local_to_utc sort_unstable stores iter V env b D) as A.
  destruct (bm iter env stores global b) as [b2 r]. destruct A as [EB [EO [ES A]]]. cbn [fst].
  assert (ST : forall k, storage_value env b2 k = storage_value env b k).
  { intros k. rewrite (storage_again iter env env b b2 V D EO ES k). unfold storage_value. cbn [first_given]. destruct (oget k (b_storage b)); [reflexivity|]. destruct (when _ _); [reflexivity|]. now destruct (env_value env k). }
  apply steps_same; try assumption; [now rewrite EO|]. intros u objs data props s PU S SO GP PP k. rewrite EB in PU. unfold option_value at 1. rewrite EB, EO.
  destruct A as [ -> |A].
  - unfold resolved, resolve_env. cbn [b_hudi]. rewrite (proj1 (user_get iter V b k D)). unfold option_value, is_hudi. cbn [first_given]. destruct (oget k props); [reflexivity|].
    destruct (String.eqb "hoodie.base.path" k); [reflexivity|]. destruct (oget k (b_hudi b)); [reflexivity|]. now destruct (when (starts_with "hoodie." k) (oget k (b_options b))).
  - destruct A as [u1 [o1 [d1 [p1 [PU1 [SO1 [GP1 [PP1 EH]]]]]]]]. assert (u1 = u) by congruence. subst u1.
    assert (o1 = objs). { rewrite (ML u (b_storage b2) s) in SO1; [congruence|]. intros q. rewrite S, ES, ST. now apply storage_get. } subst o1. assert (d1 = data) by congruence. subst d1. assert (p1 = props) by congruence. subst p1.
    rewrite EH. unfold option_value. cbn [first_given]. destruct (oget k props); [reflexivity|]. destruct (String.eqb "hoodie.base.path" k); [reflexivity|]. destruct (oget k (b_hudi b)); [reflexivity|].
    destruct (when (starts_with "hoodie." k) (oget k (b_options b))); [reflexivity|]. now destruct (when _ _).
Qed.
(** a first attempt that read no properties leaves no trace, whatever the storage is later *)
Lemma retry_same : forall iter iter2 iter3 env stores global stores2 global2 b, visits_all iter -> visits_all iter2 -> visits_all iter3 -> map_like stores2 -> one_per_key (b_options b) ->
  (forall u objs data props s, parse_uri parse (b_base b) = Ok u -> (forall k, oget k s = storage_value env b k) -> stores u s = Ok objs -> get_file_data objs u ".hoodie/hoodie.properties" = Ok data -> parse_data "=" data <> Ok props) ->
  same_opening (snd (bm iter2 env stores2 global2 (fst (bm iter env stores global b)))) (snd (bm iter3 env stores2 global2 b)).
Proof.
  intros iter iter2 iter3 env stores global stores2 global2 b V V2 V3 ML D NP. pose proof (build_after parse global local_to_utc sort_unstable stores iter V env b D) as A.
  destruct (bm iter env stores global b) as [b2 r]. destruct A as [EB [EO [ES A]]]. cbn [fst]. destruct A as [ -> |A].
  2: { exfalso. destruct A as [u1 [o1 [d1 [p1 [PU1 [SO1 [GP1 [PP1 _]]]]]]]]. apply (NP u1 o1 d1 p1 (b_storage b2) PU1); [|assumption|assumption|assumption]. intros k. rewrite ES. now apply storage_get. }
  apply steps_same; try assumption; [now rewrite EO| |].
  - intros k. rewrite (storage_again iter env env b (resolved iter env b) V D EO eq_refl k). unfold storage_value. cbn [first_given]. destruct (oget k (b_storage b)); [reflexivity|]. destruct (when _ _); [reflexivity|]. now destruct (env_value env k).
  - intros u objs data props s PU S SO GP PP k. unfold option_value at 1. rewrite EB, EO. unfold resolved, resolve_env. cbn [b_hudi]. rewrite (proj1 (user_get iter V b k D)). unfold option_value, is_hudi. cbn [first_given]. destruct (oget k props); [reflexivity|].
    destruct (String.eqb "hoodie.base.path" k); [reflexivity|]. destruct (oget k (b_hudi b)); [reflexivity|]. now destruct (when (starts_with "hoodie." k) (oget k (b_options b))).
Qed.
(** a builder that built a table, used again when the table has changed *)
Lemma reuse_options : forall iter iter2 env env2 stores global stores2 global2 b tb1 u1 objs1 tb u objs, visits_all iter -> visits_all iter2 -> one_per_key (b_options b) ->
  snd (bm iter env stores global b) = Ok (tb1, u1, objs1) ->
  snd (bm iter2 env2 stores2 global2 (fst (bm iter env stores global b))) = Ok (tb, u, objs) ->
  exists u0 objs0 data props, parse_uri parse (b_base b) = Ok u0 /\ stores2 u0 (t_storage tb) = Ok objs0 /\ get_file_data objs0 u0 ".hoodie/hoodie.properties" = Ok data /\ parse_data "=" data = Ok props
    /\ (forall k, oget k (t_configs tb) = first_given [oget k props; if String.eqb "hoodie.base.path" k then Some (b_base b) else oget k (t_configs tb1); when (starts_with "hoodie." k) (oget k (global_options (global2 objs0)))])
    /\ (forall k, oget k (t_storage tb) = first_given [oget k (t_storage tb1); env_value env2 k]).
Proof.
  intros iter iter2 env env2 stores global stores2 global2 b tb1 u1 objs1 tb u objs V V2 D H1 H2. destruct (built_options _ _ _ _ _ _ _ _ V D H1) as [ua [oa [da [pa [PA [SA [GA [PPA [FA TA]]]]]]]]].
  assert (EQ : b_hudi (fst (bm iter env stores global b)) = t_configs tb1).
  { unfold build_mut in *. destruct (resolve_mut _ _ _ _ _ b) as [b2 r]. cbn [fst snd] in *. apply bind_ok in H1 as [[] [_ H1]]. apply bind_ok in H1 as [[] [_ H1]]. apply bind_ok in H1 as [[x y] [_ H1]]. apply bind_ok in H1 as [z [_ H1]]. apply bind_ok in H1 as [w [_ H1]]. apply bind_ok in H1 as [cs [_ H1]]. now injection H1 as <- _ _. }
  pose proof (build_after parse global local_to_utc sort_unstable stores iter V env b D) as A. destruct (bm iter env stores global b) as [b2 r]. destruct A as [EB [EO [ES _]]]. cbn [fst] in *.
  assert (D2 : one_per_key (b_options b2)) by now rewrite EO. destruct (built_options _ _ _ _ _ _ _ _ V2 D2 H2) as [u0 [o0 [d [p [A [B [C [E [F G]]]]]]]]]. rewrite EB in A.
  exists u0, o0, d, p. repeat (split; [assumption|]). split.
  - intros k. rewrite F. unfold option_value. rewrite EB, EO, EQ. cbn [first_given]. destruct (oget k p); [reflexivity|]. destruct (String.eqb "hoodie.base.path" k) eqn:K; [reflexivity|]. rewrite FA. unfold option_value. rewrite K. cbn [first_given].
    destruct (oget k pa); [reflexivity|]. destruct (oget k (b_hudi b)); [reflexivity|]. destruct (when (starts_with "hoodie." k) (oget k (b_options b))); [reflexivity|]. now destruct (when _ _).
  - intros k. rewrite G, (storage_again iter env env2 b b2 V D EO ES k). now rewrite TA.
Qed.
End Again.
