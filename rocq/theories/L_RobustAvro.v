(** Lemmas for C91: records with scalar columns, whatever their bytes. *)
From Verif Require Import Base Str M_Utf8 M_Log M_Reader M_Avro M_Values M_Datum M_Time M_Instant M_Timeline M_FileGroup M_Builder M_Listing M_Expr M_Config M_Table M_Storage M_Json M_Objects M_Open
  S_Timeline S_Open S_Avro S_Values S_Robust L_Base L_Timeline L_Builder L_Storage L_Avro L_Columns L_ArrowSchema L_Batch L_Datum L_Robust.
Local Open Scope string_scope.

Lemma decoded_row : forall fs b v rest, decode (ScRecord fs) b = Some (v, rest) ->
  exists r, v = AvRecord r /\ Forall2 (fun f e => exists b' r', decode (snd f) b' = Some (snd e, r')) fs r.
Proof.
  intros fs b v rest H. cbn [decode] in H.
  match type of H with match ?x fs b with _ => _ end = _ => set (all := x) in H end. destruct (all fs b) as [[l r]|] eqn:E; [|discriminate]. injection H as <- <-. exists l. split; [reflexivity|].
  revert b l r E. induction fs as [|[[n al] s] fs IH]; intros b l r E; cbn in E; [injection E as <- <-; constructor|]. destruct (decode s b) as [[v r1]|] eqn:D; [|discriminate]. destruct (all fs r1) as [[vs r2]|] eqn:A; [|discriminate]. injection E as <- <-. constructor; [cbn [snd]; eauto|]. now apply (IH _ _ _ A).
Qed.
Definition numbery (v : value) : Prop := forall fc d, M_Avro.resolve fc d v <> Panic.
Lemma kept_number : forall s n0 d n b v r, kept_scalar s = true -> to_type s n0 = Ok (d, n) -> numeric d = true -> decode s b = Some (v, r) -> unwrap v = v /\ numbery v.
Proof.
  intros s n0 d n b v r K T N D. destruct s; try discriminate K; cbn in T; try discriminate T; injection T as <- <-; try discriminate N; cbn [decode] in D;
  repeat match type of D with match ?x with _ => _ end = _ => destruct x as [[? ?]|]; [|discriminate D] end; injection D as <- <-; (split; [reflexivity|intros fc e; cbn; discriminate]).
Qed.
Lemma scalar_number : forall s n0 d n b v r, scalar_column s -> to_type s n0 = Ok (d, n) -> numeric d = true -> decode s b = Some (v, r) -> numbery v.
Proof.
  intros s n0 d n b v r S T N D. destruct S as [s K|s K Ne|s K Ne]; [now apply (kept_number s n0 d n b v r)|..].
  all: assert (O : forall l, (l = [ScNull; s] \/ l = [s; ScNull]) -> other l = Some s) by (intros l [ -> | -> ]; destruct s; try discriminate K; try reflexivity; now elim Ne).
  all: rewrite (to_type_union _ s n0) in T by (apply O; auto); apply bind_ok in T as [[d' n'] [T E]]; injection E as -> <-.
  all: cbn [decode] in D; destruct (zag_i64 b) as [z r1| |]; [|injection D as <- <-; intros fc e; cbn; discriminate|discriminate]; destruct ((0 <=? z) && _)%Z; [|discriminate].
  all: intros fc e; destruct (Z.to_nat z) as [|[|k]]; cbn [decode] in D; try discriminate D.
  all: try (injection D as <- <-; cbn; discriminate).
  all: match type of D with match ?x with _ => _ end = _ => destruct x as [[w r2]|] eqn:X; [|discriminate] end; injection D as <- <-; destruct (kept_number _ _ _ _ _ _ _ K T N X) as [U W]; unfold M_Avro.resolve; cbn [unwrap]; rewrite <- U; apply W.
Qed.
Lemma scalar_type : forall s n0 d n, scalar_column s -> to_type s n0 = Ok (d, n) -> (forall a b c, d <> DList a b c) /\ (forall fs, d <> DStruct fs) /\ d <> DTimestampNano.
Proof.
  assert (K1 : forall s n0 d n, kept_scalar s = true -> to_type s n0 = Ok (d, n) -> (forall a b c, d <> DList a b c) /\ (forall fs, d <> DStruct fs) /\ d <> DTimestampNano) by (intros s n0 d n K T; destruct s; try discriminate K; cbn in T; try discriminate T; injection T as <- <-; repeat split; discriminate).
  intros s n0 d n S T. destruct S as [s K|s K Ne|s K Ne]; [now apply (K1 s n0 d n)|..].
  all: assert (O : forall l, (l = [ScNull; s] \/ l = [s; ScNull]) -> other l = Some s) by (intros l [ -> | -> ]; destruct s; try discriminate K; try reflexivity; now elim Ne).
  all: rewrite (to_type_union _ s n0) in T by (apply O; auto); apply bind_ok in T as [[d' n'] [T E]]; injection E as -> <-; now apply (K1 s true d n').
Qed.
Lemma scalar_calm : forall code rank fc fs, valid (ScRecord fs) -> (forall n al s, In (n, al, s) fs -> scalar_column s) ->
  calm_schema avro value decode check_schema (to_batch code rank fc) (ScRecord fs).
Proof.
  intros code rank fc fs V S. assert (A : to_arrow_schema (ScRecord fs) <> Panic).
  { intros P. apply schema_panics in P; [|exact V]. destruct P as [P|P]; inversion P as [| | | |x nm al s l I P']; subst; destruct (part_simple s _ (or_introl (S nm al s I)) P'); congruence. }
  destruct (schema_lookup_ok fs V) as [lk [E Lk]]. split.
  - unfold check_schema. apply bind_np; [exact A|]. intros fields _. rewrite E. discriminate.
  - intros vs D. unfold to_batch, read_batch. apply bind_np; [|intros; discriminate]. apply bind_np; [exact A|]. intros dfs T. rewrite E. cbn [bind]. apply bind_np.
    { unfold to_rows. apply mapM_np. intros v _. destruct v; discriminate. }
    intros rows R. apply bind_np; [|intros cols _; unfold new_batch; destruct cols; [discriminate|]; destruct (_ && _); discriminate].
    assert (RW : forall r, In r rows -> Forall2 (fun f e => exists b' r', decode (snd f) b' = Some (snd e, r')) fs r).
    { unfold to_rows in R. revert rows R. induction vs as [|v vs IH]; intros rows R r I; cbn in R; [injection R as <-; destruct I|]. apply bind_ok in R as [x [R1 R]]. apply bind_ok in R as [l [R2 R]]. injection R as <-.
      destruct I as [ <- |I]; [|apply (IH (fun v I => D v (or_intror I)) l R2 r I)]. destruct (D v (or_introl eq_refl)) as [b' [r' D']]. apply decoded_row in D' as [r0 [-> F]]. injection R1 as <-. exact F. }
    apply top_typed in T. apply mapM_np. intros df I. apply In_nth_error in I as [j J]. destruct (Forall2_nth_r _ _ _ _ _ T j df J) as [[[n al] s] [F Ty]].
    assert (Sc := S n al s (nth_error_In _ _ F)). destruct Ty as [En [n0 Ty]]. cbn [fst snd] in En, Ty. destruct (scalar_type _ _ _ _ Sc Ty) as [NL [NS NT]].
    destruct (numeric (ftype df)) eqn:Nu.
    + destruct (Lk j n al s F) as [P _]. unfold sub_path. cbn [String.eqb]. rewrite En.
      assert (X : forall r, In r rows -> match field_lookup lk n r with Some v => M_Avro.resolve fc (ftype df) v | None => Ok None end <> Panic).
      { intros r I. unfold field_lookup. rewrite P. destruct (nth_error r j) as [e|] eqn:Ne; [|discriminate]. cbn [option_map]. destruct (Forall2_nth_r _ _ _ _ _ (RW r I) j e Ne) as [f [F' [b' [r' D']]]]. assert (f = (n, al, s)) by congruence. subst f. cbn [snd] in D'. exact (scalar_number _ _ _ _ _ _ _ Sc Ty Nu D' fc (ftype df)). }
      destruct (ftype df); try discriminate Nu; cbn [column]; (apply bind_np; [apply mapM_np; intros r I; apply (X r I)|intros; discriminate]).
    + destruct (ftype df) eqn:Ed; try discriminate Nu; cbn [column]; try discriminate; try (now elim (NL _ _ _ eq_refl)); try (now elim (NS _ eq_refl)).
      * apply bind_np; [|intros; discriminate]. apply mapM_np. intros r _. destruct (field_lookup _ _ _) as [v|]; [|discriminate]. unfold resolve_string. destruct (unwrap v); try discriminate. destruct (utf8_valid s0); discriminate.
      * destruct (forallb _ _); discriminate.
      * now elim NT.
Qed.
Lemma decode_tail : forall sch s v r, decode sch s = Some (v, r) -> exists a, s = a ++ r.
Proof. intros sch s v r H. exact (proj1 (decode_steady sch s v r H)). Qed.

(** ** Object stores *)
Lemma metadata_np : forall nu co d, parse_metadata nu co d <> Panic.
Proof. intros nu co d. unfold parse_metadata. destruct (from_slice nu co d); discriminate. Qed.
Lemma objects_calm : forall parse uri u objs dtype pj ps pr fo op, parse_uri parse uri = Ok u ->
  (forall d, pj d <> Panic) -> (forall d, ps d <> Panic) -> (forall d, pr d <> Panic) -> (forall d, fo d <> Panic) -> (forall h s, op h s <> Panic) ->
  calm_store dtype (object_store objs u dtype pj ps pr fo op).
Proof.
  intros parse uri u objs dtype pj ps pr fo op U J S R F O. assert (P : forall rel, object_path u rel <> Panic) by (intros rel; now apply (never_panics parse uri)).
  assert (Fo : forall p, find_object objs u p <> Panic) by (intros p; unfold find_object; apply bind_np; [apply P|intros; apply ok_or_np]).
  assert (G : forall p, get_file_data objs u p <> Panic) by (intros p; unfold get_file_data; apply bind_np; [apply Fo|discriminate]).
  constructor; cbn.
  - intros p. apply bind_np; [apply G|auto].
  - intros p. apply bind_np; [apply G|auto].
  - intros p. unfold list_files. apply bind_np; [apply P|]. intros prefix _. apply mapM_np. intros o _. apply bind_np; [apply ok_or_np|discriminate].
  - intros p. unfold list_dirs, list_dir_names. apply bind_np; [apply P|]. intros prefix _. apply mapM_np. intros o _. apply ok_or_np.
  - intros p. unfold get_file_metadata. apply bind_np; [apply Fo|]. intros o _. apply bind_np; [apply ok_or_np|]. intros name _. apply bind_np; [apply F|]. intros [b n] _. discriminate.
  - intros p. apply bind_np; [apply G|auto].
  - exact G.
  - exact O.
Qed.
(** What opening a table gives. *)
Lemma built : forall iter env parse stores global L f b tb u objs, S_Timeline.sorts f -> build iter env parse stores global L f b = Ok (tb, u, objs) ->
  (exists uri, parse_uri parse uri = Ok u) /\ forall t, latest_commit_timestamp (t_commits tb) = Some t -> has_time_part t.
Proof.
  intros iter env parse stores global L f b tb u objs SU H. unfold build in H. apply bind_ok in H as [b' [_ H]]. apply bind_ok in H as [[] [_ H]]. apply bind_ok in H as [[u' objs'] [N H]]. apply bind_ok in H as [tz [_ H]]. apply bind_ok in H as [files [_ H]]. apply bind_ok in H as [commits [C H]]. injection H as <- <- <-. split.
  - unfold storage_new in N. destruct (table_try BasePath (b_hudi b')) as [v|]; [|discriminate]. apply bind_ok in N as [uri [_ N]]. apply bind_ok in N as [u'' [P N]]. apply bind_ok in N as [o [_ N]]. injection N as <- <-. eauto.
  - cbn [t_commits]. intros t E. unfold latest_commit_timestamp in E. destruct (last_opt commits) as [i|] eqn:La; [|discriminate]. injection E as <-.
    destruct (new_timeline_exact L f tz _ commits SU C) as [l0 [D [PM _]]]. assert (I : In i l0) by (apply Permutation_in with commits; [now apply Permutation_sym|apply last_opt_split in La as [m ->]; apply in_or_app; right; now left]).
    unfold has_time_part. destruct (is_char_boundary (i_timestamp i) 14) eqn:B; [reflexivity|]. exfalso. apply (parse_datetime_panic L) with (tz := tz) in B.
    clear - D I B. induction D as [|n ns j is P D IH|n ns is P D IH]; [destruct I| |now apply IH]. destruct I as [ -> |I]; [|now apply IH]. destruct P as [ts [a [dt [_ [_ [_ [Pd ->]]]]]]]. cbn [i_timestamp] in B. congruence.
Qed.
Lemma objects_bytes : forall objs u dtype pj ps pr fo op (P : string -> Prop), (forall o, In o objs -> P (o_data o)) ->
  forall p s, st_bytes _ (object_store objs u dtype pj ps pr fo op) p = Ok s -> P s.
Proof.
  intros objs u dtype pj ps pr fo op P H p s E. cbn in E. unfold get_file_data in E. apply bind_ok in E as [o [F E]]. injection E as <-. unfold find_object in F. apply bind_ok in F as [k [_ F]]. apply ok_or_ok in F. apply find_some in F as [I _]. now apply H.
Qed.
Lemma flags_np : forall tb, flags_given tb -> hive_flag tb <> Panic /\ url_flag tb <> Panic.
Proof.
  intros tb F. unfold hive_flag, url_flag, table_or_default, table_value, as_bool, raw. cbn [table_key].
  destruct (F _ (or_introl eq_refl)) as [-> | ->], (F _ (or_intror (or_introl eq_refl))) as [-> | ->]; split; discriminate.
Qed.
Lemma between_slices_np : forall L dtype (st : store dtype) tb order a b, calm_store dtype st -> has_time_part a -> has_time_part b -> slices_between dtype L st tb order a b <> Panic.
Proof.
  intros L dtype st tb order a b ST Ta Tb. unfold slices_between. destruct (L_Config.lookups_ok (t_configs tb)) as [_ [[z Z] _]]. rewrite Z. cbn [bind]. apply bind_np; [|discriminate].
  apply between_np; [apply (cs_json _ _ ST)| |]; intros t [= <-]; assumption.
Qed.
Lemma parse_data_np : forall chars data, parse_data chars data <> Panic.
Proof.
  intros chars data. unfold parse_data. generalize (@nil (string * string)). induction (lines data) as [|l r IH]; intros m; cbn [parse_lines]; [discriminate|].
  repeat match goal with |- (if ?c then _ else _) <> _ => destruct c | |- match ?c with _ => _ end <> _ => destruct c end; try discriminate; try apply IH.
Qed.
Lemma storage_new_np : forall parse stores s h, (forall u s, stores u s <> Panic) -> storage_new parse stores s h <> Panic.
Proof.
  intros parse stores s h N. unfold storage_new. destruct (table_try BasePath h) as [v|] eqn:E; [|discriminate]. unfold table_try in E. cbn [table_value] in E. unfold as_string in E.
  assert (exists x, v = CStr x) as [x ->]. { destruct (raw h _) as [y| |]; cbn [bind] in E; [injection E as <-; eauto|discriminate|discriminate]. }
  cbn [to_string bind]. apply bind_np; [unfold parse_uri; apply bind_np; [apply ok_or_np|]; intros u _; destruct (ends_with "/" (u_path u)); [destruct (u_opaque u)|]; discriminate|]. intros u _. apply bind_np; [apply N|discriminate].
Qed.
Lemma storage_new_ok : forall parse stores s h u objs, storage_new parse stores s h = Ok (u, objs) -> (exists uri, parse_uri parse uri = Ok u) /\ stores u s = Ok objs.
Proof.
  intros parse stores s h u objs N. unfold storage_new in N. destruct (table_try BasePath h) as [v|]; [|discriminate]. apply bind_ok in N as [uri [_ N]]. apply bind_ok in N as [u'' [P N]]. apply bind_ok in N as [o [S N]]. injection N as <- <-. eauto.
Qed.
Lemma open_panics : forall iter env parse stores global local_to_utc sort_unstable b, (forall u s, stores u s <> Panic) ->
  build iter env parse stores global local_to_utc sort_unstable b = Panic ->
  exists b', M_Config.resolve iter env (fun s h => let* _ := storage_new parse stores s h in Ok tt) (read_properties parse stores) (read_global parse stores global) b = Ok b'
    /\ ((exists e, validate_configs (b_hudi b') = Err e)
        \/ exists u objs files f, stores u (b_storage b') = Ok objs /\ list_files objs u ".hoodie" = Ok files /\ In f files /\ S_Open.bad_instant (fm_name f)).
Proof.
  intros iter env parse stores global L f b N H. unfold build in H.
  assert (D : forall u objs p, (exists uri, parse_uri parse uri = Ok u) -> get_file_data objs u p <> Panic).
  { intros u objs p [uri U]. unfold get_file_data, find_object. apply bind_np; [|discriminate]. apply bind_np; [now apply (never_panics parse uri)|intros; apply ok_or_np]. }
  destruct (M_Config.resolve _ _ _ _ _ _) as [b'|e|] eqn:R; cbn [bind] in H; [|discriminate|].
  2:{ exfalso. revert R. unfold M_Config.resolve. cbn zeta. apply bind_np; [apply bind_np; [now apply storage_new_np|discriminate]|]. intros _ _. apply bind_np; [|discriminate].
      unfold imbue_properties. apply bind_np; [|intros d _; apply bind_np; [apply parse_data_np|discriminate]]. unfold read_properties. apply bind_np; [now apply storage_new_np|]. intros [u objs] S. apply D. now apply storage_new_ok in S as [S _]. }
  exists b'. split; [reflexivity|]. destruct (validate_configs (b_hudi b')) as [[]|e|] eqn:V; cbn [expect bind] in H; [|left; now exists e|now apply L_Config.validate_no_panic in V].
  right. destruct (storage_new _ _ _ _) as [[u objs]|e|] eqn:S; cbn [bind] in H; [|discriminate|now apply storage_new_np in S]. apply storage_new_ok in S as [[uri U] S].
  destruct (L_Config.lookups_ok (b_hudi b')) as [_ [[z Z] _]]. rewrite Z in H. cbn [bind] in H. destruct (list_files objs u ".hoodie") as [files|e|] eqn:Lf; cbn [bind] in H; [|discriminate|].
  2:{ exfalso. revert Lf. unfold list_files. apply bind_np; [now apply (never_panics parse uri)|]. intros prefix _. apply mapM_np. intros o _. apply bind_np; [apply ok_or_np|discriminate]. }
  destruct (new_timeline L f z (map fm_name files)) as [cs|e|] eqn:T; cbn [bind] in H; [discriminate|discriminate|]. apply new_timeline_panic_iff in T as [n [ts [a [I [B1 [B2 B3]]]]]]. apply in_map_iff in I as [x [ <- I]].
  exists u, objs, files, x. split; [exact S|]. split; [exact Lf|]. split; [exact I|]. exists ts, a. auto.
Qed.
