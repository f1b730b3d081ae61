(** C75: calls on a table builder, in Rust and in Python, and builders that are used again. *)
From Verif Require Import Base Str M_Time M_Instant M_Timeline M_FileGroup M_Builder M_Listing M_Expr M_Log M_Config M_Reader M_Table M_Storage M_Objects M_Open M_Calls
  S_Config S_Open S_Calls L_Config L_Timeline L_Expr L_Open L_Calls E_Scan E_Open E_Calls.
Local Open Scope string_scope.

(** The options of the table that is built after any calls: the last value given for each key counts, by
    category, behind the properties of the table. *)
Theorem C75_options : forall iter env parse stores global local_to_utc sort_unstable uri calls tb u objs, visits_all iter ->
  snd (build_mut iter env parse stores global local_to_utc sort_unstable (with_calls (from_base_uri uri) calls)) = Ok (tb, u, objs) ->
  exists u0 objs0 data props,
    parse_uri parse uri = Ok u0 /\ stores u0 (t_storage tb) = Ok objs0
    /\ get_file_data objs0 u0 ".hoodie/hoodie.properties" = Ok data /\ parse_data "=" data = Ok props
    /\ (forall k, oget k (t_configs tb) = hudi_after props uri calls (global objs0) k) /\ (forall k, oget k (t_storage tb) = storage_after env calls k).
Proof. intros iter env parse stores global L f. exact (calls_options parse L f iter env stores global). Qed.
Print Assumptions C75_options.
(** Calls in another order, or other calls, that give the same last values build the same table. *)
Theorem C75_order : forall iter iter' env parse stores global local_to_utc sort_unstable uri calls calls', visits_all iter -> visits_all iter' -> map_like stores ->
  (forall c k, given c calls k = given c calls' k) ->
  same_opening (snd (build_mut iter env parse stores global local_to_utc sort_unstable (with_calls (from_base_uri uri) calls)))
               (snd (build_mut iter' env parse stores global local_to_utc sort_unstable (with_calls (from_base_uri uri) calls'))).
Proof. intros iter iter' env parse stores global L f. exact (calls_order parse L f iter iter' env stores global). Qed.
Print Assumptions C75_order.
(** The same calls in Python build the same table. *)
Theorem C75_python : forall iter iter' env parse stores global local_to_utc sort_unstable uri calls, visits_all iter -> visits_all iter' -> map_like stores ->
  same_opening (py_build iter env parse stores global local_to_utc sort_unstable (py_with_calls (py_from_base_uri uri) calls))
               (snd (build_mut iter' env parse stores global local_to_utc sort_unstable (with_calls (from_base_uri uri) calls))).
Proof. intros iter iter' env parse stores global L f. exact (python_same parse L f iter iter' env stores global). Qed.
Print Assumptions C75_python.
(** The constructors: options given at once are generic options; [HudiTable] is the same in Python. *)
Theorem C75_constructors : forall iter iter' env parse stores global local_to_utc sort_unstable uri opts, visits_all iter -> visits_all iter' -> map_like stores ->
  same_opening (table_new_with_options iter env parse stores global local_to_utc sort_unstable uri opts)
               (snd (build_mut iter' env parse stores global local_to_utc sort_unstable (with_calls (from_base_uri uri) (map (fun kv => One Generic (fst kv) (snd kv)) opts))))
  /\ same_opening (py_table iter env parse stores global local_to_utc sort_unstable uri (Some opts)) (table_new_with_options iter' env parse stores global local_to_utc sort_unstable uri opts)
  /\ same_opening (py_table iter env parse stores global local_to_utc sort_unstable uri None) (table_new iter' env parse stores global local_to_utc sort_unstable uri)
  /\ table_new iter env parse stores global local_to_utc sort_unstable uri = snd (build_mut iter env parse stores global local_to_utc sort_unstable (with_calls (from_base_uri uri) [])).
Proof.
  intros iter iter' env parse stores global L f uri opts V V' ML. split; [|split; [|split; [|reflexivity]]]; try apply (python_table parse L f iter iter' env stores global uri opts V V' ML).
  apply (calls_order parse L f iter iter' env stores global uri [Many Generic opts]); try assumption. intros c k. unfold given. f_equal. unfold given_in. cbn [flat_map]. rewrite app_nil_r.
  destruct c; cbn [same_category]; induction opts as [|[a b] opts IH]; try reflexivity; cbn [map flat_map same_category app fst snd]; congruence.
Qed.
Print Assumptions C75_constructors.
(** Building twice from the same builder, the storage and the environment being as before: the same
    result as from a new builder, whether the first attempt succeeded or failed. *)
Theorem C75_again : forall iter iter2 iter3 env parse stores global local_to_utc sort_unstable uri calls, visits_all iter -> visits_all iter2 -> visits_all iter3 -> map_like stores ->
  same_opening (snd (build_mut iter2 env parse stores global local_to_utc sort_unstable (fst (build_mut iter env parse stores global local_to_utc sort_unstable (with_calls (from_base_uri uri) calls)))))
               (snd (build_mut iter3 env parse stores global local_to_utc sort_unstable (with_calls (from_base_uri uri) calls))).
Proof. intros iter iter2 iter3 env parse stores global L f uri calls V V2 V3 ML. apply (again_same parse L f iter iter2 iter3 env stores global _ V V2 V3 ML (fresh_nodup uri calls Generic)). Qed.
Print Assumptions C75_again.
(** A first attempt that could not read the properties leaves no trace: once the storage works, or the
    table exists, the builder builds what a new one would. *)
Theorem C75_retry : forall iter iter2 iter3 env parse stores global stores2 global2 local_to_utc sort_unstable uri calls,
  visits_all iter -> visits_all iter2 -> visits_all iter3 -> map_like stores2 ->
  (forall props, ~ properties_at parse stores uri (storage_after env calls) props) ->
  same_opening (snd (build_mut iter2 env parse stores2 global2 local_to_utc sort_unstable (fst (build_mut iter env parse stores global local_to_utc sort_unstable (with_calls (from_base_uri uri) calls)))))
               (snd (build_mut iter3 env parse stores2 global2 local_to_utc sort_unstable (with_calls (from_base_uri uri) calls))).
Proof.
  intros iter iter2 iter3 env parse stores global stores2 global2 L f uri calls V V2 V3 ML NP. apply (retry_same parse L f iter iter2 iter3 env stores global stores2 global2 _ V V2 V3 ML (fresh_nodup uri calls Generic)).
  intros u objs data props s PU S SO GP PP. rewrite calls_base in PU. apply (NP props). exists u, s, objs, data. split; [exact PU|]. split; [intros k; rewrite S; apply after_storage|]. auto.
Qed.
Print Assumptions C75_retry.
(** A builder that built a table and is used again when the table has changed: what the first table had
    counts as given by the caller. *)
Theorem C75_reuse_partial : forall iter iter2 env env2 parse stores global stores2 global2 local_to_utc sort_unstable uri calls tb1 u1 objs1 tb u objs, visits_all iter -> visits_all iter2 ->
  let first := build_mut iter env parse stores global local_to_utc sort_unstable (with_calls (from_base_uri uri) calls) in
  snd first = Ok (tb1, u1, objs1) -> snd (build_mut iter2 env2 parse stores2 global2 local_to_utc sort_unstable (fst first)) = Ok (tb, u, objs) ->
  exists u0 objs0 data props, parse_uri parse uri = Ok u0 /\ stores2 u0 (t_storage tb) = Ok objs0 /\ get_file_data objs0 u0 ".hoodie/hoodie.properties" = Ok data /\ parse_data "=" data = Ok props
    /\ (forall k, oget k (t_configs tb) = first_given [oget k props; if String.eqb "hoodie.base.path" k then Some uri else oget k (t_configs tb1); when (starts_with "hoodie." k) (oget k (global_options (global2 objs0)))])
    /\ (forall k, oget k (t_storage tb) = first_given [oget k (t_storage tb1); env_value env2 k]).
Proof.
  intros iter iter2 env env2 parse stores global stores2 global2 L f uri calls tb1 u1 objs1 tb u objs V V2 first H1 H2.
  pose proof (reuse_options parse L f iter iter2 env env2 stores global stores2 global2 _ tb1 u1 objs1 tb u objs V V2 (fresh_nodup uri calls Generic) H1 H2) as R. rewrite calls_base in R. exact R.
Qed.
Print Assumptions C75_reuse_partial.
(** False for a changed table: a property that is removed from the table stays in what a used builder
    builds, unlike what a new builder builds. *)
Theorem C75_stale_refuted : exists calls props props2 tb u objs,
  snd (kx_build props2 (kx_fresh calls)) = Ok (tb, u, objs) /\ oget "hoodie.table.precombine.field" (t_configs tb) = None
  /\ exists tb', snd (kx_build props2 (fst (kx_build props (kx_fresh calls)))) = Ok (tb', u, objs) /\ oget "hoodie.table.precombine.field" (t_configs tb') = Some "ts".
Proof.
  exists [], ["hoodie.table.precombine.field=ts"], []. do 3 eexists. split; [vm_compute; reflexivity|]. split; [vm_compute; reflexivity|]. eexists. split; vm_compute; reflexivity.
Qed.
Print Assumptions C75_stale_refuted.
(** Options for cloud storage in upper case are not converted to lower case, although environment variables
    are: with a variable of the same name set, the storage gets the value of the environment under the name
    that the object store looks for, against the documented precedence. *)
Theorem C75_upper_case_refuted : exists tb u objs, snd (kx_build [] (kx_fresh [One Storage "AWS_REGION" "given"])) = Ok (tb, u, objs)
  /\ oget "aws_region" (t_storage tb) = Some "e" /\ oget "AWS_REGION" (t_storage tb) = Some "given".
Proof. do 3 eexists. split; [vm_compute; reflexivity|]. split; vm_compute; reflexivity. Qed.
Print Assumptions C75_upper_case_refuted.

Example C75_case : (forall c k, given c kx_calls k = given c kx_calls' k)
  /\ shown kx_keys (snd (kx_build [] (kx_fresh kx_calls))) =
       Some [(Some "2", None); (Some "3", None); (Some "6", None); (Some "file:///data/t/", None); (Some "e", None); (None, Some "a"); (None, Some "e"); (Some "x", None)]
  /\ (forall props, ~ properties_at bx_parse (fun _ _ => Ok []) "file:///data/t/" (storage_after kx_env kx_calls) props)
  /\ (exists r, snd (kx_build [] kx_failed) = Ok r)
  /\ exists r, snd (kx_build ["hoodie.table.precombine.field=ts"] (fst (kx_build [] (kx_fresh kx_calls)))) = Ok r.
Proof.
  split; [|split; [exact kx_shown|split; [|split]]].
  - intros c k. unfold given, given_in. destruct c; cbn [kx_calls kx_calls' flat_map same_category app]; cbn [last_value];
      repeat match goal with |- context [String.eqb ?a k] => destruct (String.eqb_spec a k); [subst; cbn; reflexivity|] end; reflexivity.
  - intros props [u [m [objs [data [PU [_ [SO [GP _]]]]]]]]. injection SO as <-. vm_compute in PU. injection PU as <-. vm_compute in GP. discriminate.
  - eexists. vm_compute. reflexivity.
  - eexists. vm_compute. reflexivity.
Qed.
