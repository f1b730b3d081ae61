(** Proofs about reading log files and scanning them. *)
From Verif Require Import Base Str L_Base L_Str M_Utf8 M_Time M_Timeline M_Log S_Log.
Local Open Scope string_scope.

(** ** Numbers *)
Lemma be_app : forall a b acc, be_acc acc (a ++ b) = be_acc (be_acc acc a) b.
Proof. induction a as [|c a IH]; intros b acc; [reflexivity|]. cbn. apply IH. Qed.
Lemma be_big : forall k n acc, (n < 256 ^ N.of_nat k)%N -> be_acc acc (big_endian k n) = (acc * 256 ^ N.of_nat k + n)%N.
Proof.
  induction k as [|k IH]; intros n acc H.
  - cbn in *. assert (n = 0%N) by lia. subst. lia.
  - cbn [big_endian]. rewrite be_app. rewrite Nat2N.inj_succ, N.pow_succ_r' in *.
    rewrite IH by (apply N.div_lt_upper_bound; lia). cbn [be_acc]. rewrite N_ascii_embedding by (apply N.mod_lt; lia).
    assert (E := N.div_mod n 256 ltac:(lia)). lia.
Qed.
Lemma be_u32 : forall n, (n < 2 ^ 32)%N -> be (big_endian 4 n) = n.
Proof. intros n H. unfold be. rewrite be_big; [lia|exact H]. Qed.
Lemma be_u64 : forall n, (n < 2 ^ 64)%N -> be (big_endian 8 n) = n.
Proof. intros n H. unfold be. rewrite be_big; [lia|exact H]. Qed.
Lemma length_big : forall k n, String.length (big_endian k n) = k.
Proof. induction k as [|k IH]; intros n; [reflexivity|]. cbn [big_endian]. rewrite length_app_s, IH. cbn. lia. Qed.

(** ** Exact reads *)
Lemma split_at_app : forall a r n, n = len a -> split_at n (a ++ r) = (a, r).
Proof.
  intros a r n ->. unfold split_at, len. rewrite length_app_s. destruct (N.leb_spec (N.of_nat (String.length a + String.length r)) (N.of_nat (String.length a))) as [H|H].
  - assert (r = "") as ->; [|now rewrite app_nil_r_s]. destruct r; [reflexivity|]. cbn in H. lia.
  - rewrite Nat2N.id, take_app, drop_app. reflexivity.
Qed.
Lemma read_exact_app : forall a r n, n = len a -> read_exact n (a ++ r) = Ok (a, r).
Proof.
  intros a r n E. unfold read_exact. rewrite split_at_app by assumption. subst n. unfold len. rewrite length_app_s.
  destruct (N.ltb_spec (N.of_nat (String.length a + String.length r)) (N.of_nat (String.length a))); [lia|reflexivity].
Qed.
Lemma prefix_len : forall p a, strict_prefix p a -> (len p < len a)%N.
Proof. intros p a [r [N ->]]. unfold len. rewrite length_app_s. destruct r; [now elim N|]. cbn. lia. Qed.
Lemma read_exact_cut : forall p a n, n = len a -> strict_prefix p a -> read_exact n p = Err EIo.
Proof.
  intros p a n -> H. apply prefix_len in H. unfold read_exact. unfold len in *. apply N.ltb_lt in H. now rewrite H.
Qed.
Lemma split_at_short : forall p n, (len p <= n)%N -> split_at n p = (p, "").
Proof. intros p n H. unfold split_at. unfold len in H. apply N.leb_le in H. now rewrite H. Qed.

Lemma prefix_app : forall p a b, strict_prefix p (a ++ b) -> strict_prefix p a \/ exists q, p = a ++ q /\ strict_prefix q b.
Proof.
  intros p a. revert p. induction a as [|c a IH]; intros p b [r [N E]]; cbn in E.
  - right. exists p. split; [reflexivity|]. exists r. auto.
  - destruct p as [|d p].
    + left. exists (String c a). split; [discriminate|reflexivity].
    + cbn in E. injection E as -> E. destruct (IH p b) as [[r' [N' E']]|[q [E' Q]]].
      * exists r. auto.
      * left. exists r'. split; [assumption|]. cbn. now rewrite E'.
      * right. exists q. split; [|assumption]. cbn. now rewrite E'.
Qed.
Lemma no_prefix_nil : forall p, ~ strict_prefix p "".
Proof. intros p [r [N E]]. destruct p; [cbn in E; congruence|discriminate]. Qed.

Lemma read_u32_app : forall n r, (n < 2 ^ 32)%N -> read_u32 (big_endian 4 n ++ r) = Ok (n, r).
Proof. intros n r H. unfold read_u32. rewrite read_exact_app by (unfold len; rewrite length_big; reflexivity). cbn [bind]. now rewrite be_u32. Qed.
Lemma read_u64_app : forall n r, (n < 2 ^ 64)%N -> read_u64 (big_endian 8 n ++ r) = Ok (n, r).
Proof. intros n r H. unfold read_u64. rewrite read_exact_app by (unfold len; rewrite length_big; reflexivity). cbn [bind]. now rewrite be_u64. Qed.
Lemma read_u64_any : forall n r, exists m, read_u64 (big_endian 8 n ++ r) = Ok (m, r).
Proof. intros n r. unfold read_u64. rewrite read_exact_app by (unfold len; rewrite length_big; reflexivity). cbn [bind]. eauto. Qed.
Lemma read_u32_cut : forall p n, strict_prefix p (big_endian 4 n) -> read_u32 p = Err EIo.
Proof. intros p n H. unfold read_u32. rewrite (read_exact_cut p (big_endian 4 n)); [reflexivity| |assumption]. unfold len. now rewrite length_big. Qed.
Lemma read_u64_cut : forall p n, strict_prefix p (big_endian 8 n) -> read_u64 p = Err EIo.
Proof. intros p n H. unfold read_u64. rewrite (read_exact_cut p (big_endian 8 n)); [reflexivity| |assumption]. unfold len. now rewrite length_big. Qed.

(** ** Metadata *)
Lemma key_eqb_eq : forall a b, meta_key_eqb a b = true <-> a = b.
Proof. intros [] []; cbn; split; (reflexivity || discriminate). Qed.
Lemma key_back : forall k, meta_key_of (key_number k) = Ok k.
Proof. now intros []. Qed.
Lemma key_small : forall k, (key_number k < 2 ^ 32)%N.
Proof. now intros []. Qed.
Lemma meta_insert_new : forall k v m, ~ In k (map fst m) -> meta_insert k v m = (m ++ [(k, v)])%list.
Proof.
  intros k v. induction m as [|[k' v'] m IH]; intros N; [reflexivity|]. cbn [meta_insert app].
  destruct (meta_key_eqb k' k) eqn:E; [apply key_eqb_eq in E; subst; elim N; now left|]. rewrite IH; [reflexivity|]. intros H. apply N. now right.
Qed.
Lemma meta_get_in : forall k v m, NoDup (map fst m) -> In (k, v) m -> meta_get k m = Some v.
Proof.
  intros k v. induction m as [|[k' v'] m IH]; intros D H; [elim H|]. cbn [meta_get]. cbn in D. inversion D as [|x xs N D']; subst.
  destruct (meta_key_eqb k' k) eqn:E.
  - apply key_eqb_eq in E. subst k'. destruct H as [[= ->]|H]; [reflexivity|]. elim N. apply in_map_iff. exists (k, v). auto.
  - destruct H as [[= -> ->]|H]; [|auto]. rewrite (proj2 (key_eqb_eq k k) eq_refl) in E. discriminate.
Qed.
Lemma meta_get_some : forall k v m, meta_get k m = Some v -> In (k, v) m.
Proof.
  intros k v. induction m as [|[k' v'] m IH]; intros H; [discriminate|]. cbn in H. destruct (meta_key_eqb k' k) eqn:E.
  - apply key_eqb_eq in E. injection H as ->. subst. now left.
  - right. auto.
Qed.
Lemma all_keys : forall (l : list meta_key), NoDup l -> (N.of_nat (List.length l) < 2 ^ 32)%N.
Proof.
  intros l D. assert (I : incl l [InstantTime; TargetInstantTime; Schema; CommandBlockType; CompactedBlockTimes; RecordPositions; BlockIdentifier]).
  { intros [] _; cbn; tauto. }
  apply (NoDup_incl_length D) in I. cbn [List.length] in I. lia.
Qed.

Lemma entry_reads : forall k v r, utf8_valid v = true -> (len v < 2 ^ 32)%N -> read_entry (put_entry (k, v) ++ r) = Ok (k, v, r).
Proof.
  intros k v r U L. unfold read_entry, put_entry. cbn [fst snd]. rewrite !app_assoc_s. rewrite read_u32_app by apply key_small. cbn [bind].
  rewrite key_back. cbn [bind]. rewrite read_u32_app by assumption. cbn [bind]. rewrite read_exact_app by reflexivity. cbn [bind]. now rewrite U.
Qed.
Lemma entry_cut : forall k v p, utf8_valid v = true -> (len v < 2 ^ 32)%N -> strict_prefix p (put_entry (k, v)) -> read_entry p = Err EIo.
Proof.
  intros k v p U L H. unfold put_entry in H. cbn [fst snd] in H. unfold read_entry.
  apply prefix_app in H as [H|[q [-> H]]]; [rewrite (read_u32_cut _ _ H); reflexivity|]. rewrite read_u32_app by apply key_small. cbn [bind].
  rewrite key_back. cbn [bind]. apply prefix_app in H as [H|[q' [-> H]]]; [rewrite (read_u32_cut _ _ H); reflexivity|].
  rewrite read_u32_app by assumption. cbn [bind]. now rewrite (read_exact_cut q' v).
Qed.
Lemma entries_read : forall m acc r, NoDup (map fst acc ++ map fst m)%list -> (forall k v, In (k, v) m -> utf8_valid v = true /\ (len v < 2 ^ 32)%N) ->
  read_entries (List.length m) acc (glue (map put_entry m) ++ r) = Ok ((acc ++ m)%list, r).
Proof.
  induction m as [|[k v] m IH]; intros acc r D W.
  - cbn. now rewrite app_nil_r.
  - cbn [List.length read_entries map glue fold_right]. fold (glue (map put_entry m)). destruct (W k v (or_introl eq_refl)) as [U L].
    rewrite app_assoc_s, entry_reads by assumption. cbn [bind].
    assert (N : ~ In k (map fst acc)). { intros H. apply NoDup_remove_2 in D. apply D. apply in_or_app. now left. }
    rewrite meta_insert_new by assumption. rewrite IH.
    + now rewrite <- app_assoc.
    + rewrite map_app, <- app_assoc. exact D.
    + intros k0 v0 I0; apply (W k0 v0); now right.
Qed.
Lemma entries_cut : forall m acc p, (forall k v, In (k, v) m -> utf8_valid v = true /\ (len v < 2 ^ 32)%N) ->
  strict_prefix p (glue (map put_entry m)) -> read_entries (List.length m) acc p = Err EIo.
Proof.
  induction m as [|[k v] m IH]; intros acc p W H; [now apply no_prefix_nil in H|].
  cbn [List.length read_entries map glue fold_right] in *. fold (glue (map put_entry m)) in H. destruct (W k v (or_introl eq_refl)) as [U L].
  apply prefix_app in H as [H|[q [-> H]]]; [rewrite (entry_cut k v) by assumption; reflexivity|].
  rewrite entry_reads by assumption. cbn [bind]. apply IH; [intros k0 v0 I0; apply (W k0 v0); now right|assumption].
Qed.
Lemma metadata_reads : forall m r, wf_metadata m -> read_metadata true (put_metadata m ++ r) = Ok (m, r).
Proof.
  intros m r [D W]. unfold read_metadata, put_metadata. rewrite app_assoc_s, read_u32_app by (rewrite <- (map_length fst m); now apply all_keys).
  cbn [bind]. rewrite Nat2N.id. now apply (entries_read m []).
Qed.
Lemma insert_spec : forall k v m, NoDup (map fst m) -> NoDup (map fst (meta_insert k v m))
  /\ forall k' v', In (k', v') (meta_insert k v m) <-> (k' = k /\ v' = v) \/ (k' <> k /\ In (k', v') m).
Proof.
  intros k v. induction m as [|[a b] m IH]; intros D.
  - split; [cbn; constructor; [intros []|constructor]|]. intros k' v'. cbn. split.
    + intros [[= -> ->]|[]]. now left.
    + intros [[-> ->]|[_ []]]. now left.
  - cbn [meta_insert]. inversion D as [|x xs N D']; subst. destruct (meta_key_eqb a k) eqn:E.
    + apply key_eqb_eq in E. subst a. split; [exact D|]. intros k' v'. cbn. split.
      * intros [[= -> ->]|I]; [now left|]. right. split; [|now right]. intros ->. apply N, in_map_iff. now exists (k, v').
      * intros [[-> ->]|[Q [[= -> ->]|I]]]; [now left|congruence|now right].
    + assert (Q : a <> k). { intros ->. rewrite (proj2 (key_eqb_eq k k) eq_refl) in E. discriminate. }
      destruct (IH D') as [D2 S]. split.
      * cbn. constructor; [|exact D2]. intros I. apply in_map_iff in I as [[k' v'] [K I]]. cbn in K. subst k'.
        apply S in I as [[? _]|[_ I]]; [contradiction|]. apply N, in_map_iff. now exists (a, v').
      * intros k' v'. cbn. rewrite S. split; [intros [[= -> ->]|[I|[? I]]]; [right; split; auto|auto|auto]|intros [I|[? [I|I]]]; auto].
Qed.
Lemma entries_read_last : forall entries m r, NoDup (map fst m) -> (forall k v, In (k, v) entries -> utf8_valid v = true /\ (len v < 2 ^ 32)%N) ->
  exists m', read_entries (List.length entries) m (glue (map put_entry entries) ++ r) = Ok (m', r) /\ NoDup (map fst m')
    /\ forall k v, In (k, v) m' <-> (exists before after, entries = (before ++ (k, v) :: after)%list /\ ~ In k (map fst after)) \/ (~ In k (map fst entries) /\ In (k, v) m).
Proof.
  induction entries as [|[k v] entries IH]; intros m r D W.
  - exists m. split; [reflexivity|]. split; [exact D|]. intros k v. split.
    + intros I. right. split; [intros []|exact I].
    + intros [[b [a [Q _]]]|[_ I]]; [now destruct b|exact I].
  - cbn [List.length read_entries map glue fold_right]. fold (glue (map put_entry entries)). destruct (W k v (or_introl eq_refl)) as [U L].
    rewrite app_assoc_s, entry_reads by assumption. cbn [bind]. destruct (insert_spec k v m D) as [D' S].
    destruct (IH (meta_insert k v m) r D') as [m' [E [D2 S2]]]; [intros k0 v0 I0; apply (W k0 v0); now right|].
    exists m'. split; [exact E|]. split; [exact D2|]. intros k0 v0. rewrite S2, S. cbn [map fst]. split.
    + intros [[b [a [-> N]]]|[N [[-> ->]|[Q I]]]].
      * left. now exists ((k, v) :: b)%list, a.
      * left. now exists [], entries.
      * right. split; [|exact I]. intros [H|H]; [congruence|now apply N].
    + intros [[[|x b] [a [Q N]]]|[N I]].
      * injection Q as -> -> ->. right. split; [exact N|]. now left.
      * injection Q as <- ->. left. now exists b, a.
      * right. split; [intros H; apply N; now right|]. right. split; [intros ->; apply N; now left|exact I].
Qed.
Lemma metadata_cut : forall m p, wf_metadata m -> strict_prefix p (put_metadata m) -> read_metadata true p = Err EIo.
Proof.
  intros m p [D W] H. unfold read_metadata, put_metadata in *.
  apply prefix_app in H as [H|[q [-> H]]]; [now rewrite (read_u32_cut _ _ H)|]. rewrite read_u32_app by (rewrite <- (map_length fst m); now apply all_keys).
  cbn [bind]. rewrite Nat2N.id. now apply entries_cut.
Qed.

Section Log.
Variable avro_schema avro_value batch : Type.
Variable parse_schema : string -> option avro_schema.
Variable datum : avro_schema -> string -> option (avro_value * string).
Variable check_schema : avro_schema -> outcome unit.
Variable to_batch : avro_schema -> list avro_value -> outcome batch.
Variable parquet : string -> option (list batch).
Variable local_to_utc : ndt -> option ndt.
Notation records := (read_records avro_schema avro_value datum).
Notation record := (read_record avro_schema avro_value datum).
Notation batches := (read_batches avro_schema avro_value batch datum to_batch).
Notation avro := (decode_avro avro_schema avro_value batch datum check_schema to_batch).
Notation window := (decode_window avro_schema avro_value batch parse_schema datum check_schema to_batch parquet).
Notation content := (decode_content avro_schema avro_value batch parse_schema datum check_schema to_batch parquet).
Notation body := (read_block_body avro_schema avro_value batch parse_schema datum check_schema to_batch parquet local_to_utc).
Notation next := (read_next_block avro_schema avro_value batch parse_schema datum check_schema to_batch parquet local_to_utc).
Notation loop := (read_loop avro_schema avro_value batch parse_schema datum check_schema to_batch parquet local_to_utc).
Notation read_all := (read_all_blocks avro_schema avro_value batch parse_schema datum check_schema to_batch parquet local_to_utc).
Notation scan := (scan avro_schema avro_value batch parse_schema datum check_schema to_batch parquet local_to_utc).
Notation holds := (holds avro_schema avro_value batch parse_schema datum check_schema to_batch parquet).
Notation wf_block := (wf_block avro_schema avro_value batch parse_schema datum check_schema to_batch parquet).
Notation cut_detected := (cut_detected avro_schema avro_value batch parse_schema datum parquet).
Notation block_of := (block_of batch).
Notation says := (range_says local_to_utc).
Notation file_ok := (file_ok avro_schema avro_value batch parse_schema datum check_schema to_batch parquet local_to_utc).
Notation surviving := (surviving batch local_to_utc).

(** ** Avro content *)
Lemma record_reads : forall sch d v r, (len d < 2 ^ 32)%N -> datum sch d = Some (v, "") -> record sch (put_record d ++ r) = Ok (v, r).
Proof.
  intros sch d v r L H. unfold read_record, put_record. rewrite app_assoc_s, read_u32_app by assumption. cbn [bind].
  rewrite split_at_app by reflexivity. now rewrite H.
Qed.
Lemma record_cut : forall sch d p, (len d < 2 ^ 32)%N -> (forall q, strict_prefix q d -> datum sch q = None) ->
  strict_prefix p (put_record d) -> exists e, record sch p = Err e.
Proof.
  intros sch d p L C H. unfold read_record, put_record in *. apply prefix_app in H as [H|[q [-> H]]]; [rewrite (read_u32_cut _ _ H); eauto; now exists EIo|].
  rewrite read_u32_app by assumption. cbn [bind]. rewrite split_at_short by (apply prefix_len in H; lia). rewrite (C q H). now exists EArrow.
Qed.
Lemma records_read : forall sch ds vs r, Forall (fun d => (len d < 2 ^ 32)%N) ds -> Forall2 (fun d v => datum sch d = Some (v, "")) ds vs ->
  records sch (List.length ds) (glue (map put_record ds) ++ r) = Ok (vs, r).
Proof.
  intros sch ds vs r L F. revert L. induction F as [|d v ds vs H F IH]; intros L; [reflexivity|]. inversion L; subst.
  cbn [List.length read_records map glue fold_right]. fold (glue (map put_record ds)). rewrite app_assoc_s, (record_reads sch d v) by assumption. cbn [bind].
  now rewrite IH.
Qed.
Lemma records_cut : forall sch ds vs p, Forall (fun d => (len d < 2 ^ 32)%N) ds -> Forall2 (fun d v => datum sch d = Some (v, "")) ds vs ->
  (forall d q, In d ds -> strict_prefix q d -> datum sch q = None) ->
  strict_prefix p (glue (map put_record ds)) -> exists e, records sch (List.length ds) p = Err e.
Proof.
  intros sch ds vs p L F. revert p L. induction F as [|d v ds vs H F IH]; intros p L C P; [now apply no_prefix_nil in P|]. inversion L; subst.
  cbn [List.length read_records map glue fold_right] in *. fold (glue (map put_record ds)) in P. apply prefix_app in P as [P|[q [-> P]]].
  - destruct (record_cut sch d p) as [e E]; auto; [intros q Q; apply C with d; [now left|assumption]|]. rewrite E. now exists e.
  - rewrite (record_reads sch d v) by assumption. cbn [bind]. destruct (IH q) as [e E]; auto; [intros d' q' I Q; apply C with d'; [now right|assumption]|].
    rewrite E. now exists e.
Qed.

Lemma glue_app : forall a b, glue (a ++ b)%list = glue a ++ glue b.
Proof. induction a as [|x a IH]; intros b; [reflexivity|]. cbn. fold (glue (a ++ b)). fold (glue a). now rewrite IH, app_assoc_s. Qed.

Lemma batches_step : forall sch f k n s rows s1 b, (0 < n)%nat -> k = Nat.min BATCH_SIZE n -> records sch k s = Ok (rows, s1) -> to_batch sch rows = Ok b ->
  batches sch (S f) n s = let* (bs, s2) := batches sch f (n - k) s1 in Ok (b :: bs, s2).
Proof.
  intros sch f k n s rows s1 b H Hk H1 H2. destruct n as [|n]; [lia|]. cbn [read_batches]. rewrite <- Hk, H1. cbn [bind]. rewrite H2. reflexivity.
Qed.
Lemma batches_fail : forall sch f k n s e, (0 < n)%nat -> k = Nat.min BATCH_SIZE n -> records sch k s = Err e -> batches sch (S f) n s = Err e.
Proof. intros sch f k n s e H Hk H1. destruct n as [|n]; [lia|]. cbn [read_batches]. rewrite <- Hk, H1. reflexivity. Qed.
Lemma batches_done : forall sch f s, batches sch f 0 s = Ok ([], s).
Proof. now intros sch []. Qed.
Lemma batch_pos : (0 < BATCH_SIZE)%nat.
Proof. apply Nat.lt_0_succ. Qed.
Opaque BATCH_SIZE.

Lemma batches_read : forall sch vs cs, in_chunks BATCH_SIZE vs cs -> forall ds bs fuel r, Forall (fun d => (len d < 2 ^ 32)%N) ds ->
  Forall2 (fun d v => datum sch d = Some (v, "")) ds vs -> Forall2 (fun c b => to_batch sch c = Ok b) cs bs -> (List.length ds <= fuel)%nat ->
  batches sch fuel (List.length ds) (glue (map put_record ds) ++ r) = Ok (bs, r).
Proof.
  intros sch vs cs C. induction C as [|l Nl Ll|l rest cs El Nr C IH]; intros ds bs fuel r L F T Fu.
  - inversion F; subst. inversion T; subst. apply batches_done.
  - inversion T as [|? b ? bs' Tb T']; subst. inversion T'; subst. assert (X := Forall2_len _ _ _ F).
    assert (0 < List.length ds)%nat by (destruct l; [now elim Nl|cbn in X; lia]). destruct fuel as [|fuel]; [lia|].
    rewrite (batches_step sch fuel (List.length ds) (List.length ds) _ l r b); auto; [|lia|now apply records_read].
    rewrite Nat.sub_diag, batches_done. reflexivity.
  - apply Forall2_app_inv_r in F as [d1 [d2 [F1 [F2 ->]]]]. inversion T as [|? b ? bs' Tb T']; subst. apply Forall_app in L as [L1 L2].
    assert (X1 := Forall2_len _ _ _ F1). assert (X2 := Forall2_len _ _ _ F2). assert (0 < List.length d2)%nat by (destruct rest; [now elim Nr|cbn in X2; lia]).
    rewrite map_app, glue_app, app_assoc_s, app_length. rewrite app_length in Fu. assert (P : (0 < BATCH_SIZE)%nat) by exact batch_pos.
    destruct fuel as [|fuel]; [lia|].
    rewrite (batches_step sch fuel (List.length d1) _ _ l (glue (map put_record d2) ++ r) b); auto; [|lia|lia|now apply records_read].
    replace (List.length d1 + List.length d2 - List.length d1)%nat with (List.length d2) by lia.
    rewrite (IH d2 bs' fuel r); auto. lia.
Qed.
Lemma batches_cut : forall sch vs cs, in_chunks BATCH_SIZE vs cs -> forall ds bs fuel p, Forall (fun d => (len d < 2 ^ 32)%N) ds ->
  Forall2 (fun d v => datum sch d = Some (v, "")) ds vs -> Forall2 (fun c b => to_batch sch c = Ok b) cs bs -> (List.length ds <= fuel)%nat ->
  (forall d q, In d ds -> strict_prefix q d -> datum sch q = None) ->
  strict_prefix p (glue (map put_record ds)) -> exists e, batches sch fuel (List.length ds) p = Err e.
Proof.
  intros sch vs cs C. induction C as [|l Nl Ll|l rest cs El Nr C IH]; intros ds bs fuel p L F T Fu D P.
  - inversion F; subst. now apply no_prefix_nil in P.
  - assert (X := Forall2_len _ _ _ F).
    assert (0 < List.length ds)%nat by (destruct l; [now elim Nl|cbn in X; lia]). destruct fuel as [|fuel]; [lia|].
    destruct (records_cut sch ds l p L F D P) as [e E]. exists e. apply (batches_fail sch fuel (List.length ds)); auto. lia.
  - apply Forall2_app_inv_r in F as [d1 [d2 [F1 [F2 ->]]]]. inversion T as [|? b ? bs' Tb T']; subst. apply Forall_app in L as [L1 L2].
    assert (X1 := Forall2_len _ _ _ F1). assert (X2 := Forall2_len _ _ _ F2). assert (0 < List.length d2)%nat by (destruct rest; [now elim Nr|cbn in X2; lia]).
    rewrite map_app, glue_app in P. rewrite app_length in Fu |- *. assert (Pz : (0 < BATCH_SIZE)%nat) by exact batch_pos.
    destruct fuel as [|fuel]; [lia|]. apply prefix_app in P as [P|[q [-> P]]].
    + destruct (records_cut sch d1 l p L1 F1) as [e E]; auto; [intros d q I; apply D; apply in_or_app; now left|].
      exists e. apply (batches_fail sch fuel (List.length d1)); auto; lia.
    + rewrite (batches_step sch fuel (List.length d1) _ _ l q b); auto; [|lia|lia|now apply records_read].
      replace (List.length d1 + List.length d2 - List.length d1)%nat with (List.length d2) by lia.
      destruct (IH d2 bs' fuel q) as [e E]; auto; [lia|intros d q' I; apply D; apply in_or_app; now right|]. rewrite E. now exists e.
Qed.

(** ** Content *)
Lemma window_reads : forall w bs, wf_block w bs -> window (w_type w) (w_header w) (put_content (w_content w)) = Ok (bs, "").
Proof.
  intros w bs W. destruct W as [_ [Dh _] _ _ _ Wr Wh]. unfold w_type. destruct (w_content w) as [|b|ds].
  - inversion Wh; subst. reflexivity.
  - inversion Wh as [|? ? Hp|]; subst. cbn. now rewrite Hp.
  - inversion Wh as [| |? text sch vs cs ? Hs Hp Hc F C T]; subst. destruct (Wr ds eq_refl) as [Ln Ld]. cbn [decode_window put_content].
    rewrite (meta_get_in Schema text) by assumption. cbn [ok_or bind]. rewrite Hp. cbn [ok_or bind]. unfold decode_avro.
    rewrite read_u32_app by reflexivity. cbn [bind N.eqb Pos.eqb negb]. rewrite read_u32_app by assumption. cbn [bind]. rewrite Hc. cbn [bind].
    rewrite Nat2N.id. assert (E := batches_read sch vs cs C ds bs (List.length ds) "" Ld F T (le_n _)). now rewrite app_nil_r_s in E.
Qed.
(** A cut content is an error, or nothing is left for what follows. *)
Lemma window_cut : forall w bs p, wf_block w bs -> cut_detected w -> strict_prefix p (put_content (w_content w)) ->
  (exists e, window (w_type w) (w_header w) p = Err e)
  \/ (w_version w = V1 /\ exists bs', window (w_type w) (w_header w) p = Ok (bs', "")).
Proof.
  intros w bs p W Cd H. destruct W as [_ [Dh _] _ _ _ Wr Wh]. unfold S_Log.cut_detected in Cd. unfold w_type. destruct (w_content w) as [|b|ds].
  - now apply no_prefix_nil in H.
  - cbn [decode_window]. destruct (parquet p) as [bs'|] eqn:E; [|left; now exists EArrow]. right.
    assert (V : {w_version w = V1} + {w_version w <> V1}) by (destruct (w_version w); (now left) || (now right)).
    destruct V as [V|V]; [|rewrite (Cd V p H) in E; discriminate]. split; [assumption|]. now exists bs'.
  - left. inversion Wh as [| |? text sch vs cs ? Hs Hp Hc F C T]; subst. destruct (Wr ds eq_refl) as [Ln Ld]. cbn [decode_window put_content] in *.
    rewrite (meta_get_in Schema text) by assumption. cbn [ok_or bind]. rewrite Hp. cbn [ok_or bind]. unfold decode_avro.
    apply prefix_app in H as [H|[q [-> H]]]; [rewrite (read_u32_cut _ _ H); now exists EIo|].
    rewrite read_u32_app by reflexivity. cbn [bind N.eqb Pos.eqb negb].
    apply prefix_app in H as [H|[q' [-> H]]]; [rewrite (read_u32_cut _ _ H); now exists EIo|].
    rewrite read_u32_app by assumption. cbn [bind]. rewrite Hc. cbn [bind]. rewrite Nat2N.id.
    apply (batches_cut sch vs cs C ds bs); auto. intros d q I Q. eapply Cd; eauto.
Qed.

Lemma version_back : forall v, version_of (version_number v) = Ok v.
Proof. now intros []. Qed.
Lemma version_small : forall v, (version_number v < 2 ^ 32)%N.
Proof. now intros []. Qed.
Lemma type_back : forall v, block_type_of (type_number v) = Ok v.
Proof. now intros []. Qed.
Lemma type_small : forall v, (type_number v < 2 ^ 32)%N.
Proof. now intros []. Qed.

Lemma read_type_app : forall v ty r, v <> V0 -> read_block_type v (big_endian 4 (type_number ty) ++ r) = Ok (ty, r).
Proof.
  intros v ty r H. unfold read_block_type. assert (has_block_type v = true) as -> by (destruct v; [now elim H|reflexivity|reflexivity|reflexivity]).
  cbn [negb]. rewrite read_u32_app by apply type_small. cbn [bind]. now rewrite type_back.
Qed.
Lemma read_type_cut : forall v ty p, strict_prefix p (big_endian 4 (type_number ty)) -> exists e, read_block_type v p = Err e.
Proof.
  intros v ty p H. unfold read_block_type. destruct (negb (has_block_type v)); [eauto|]. rewrite (read_u32_cut _ _ H). cbn [bind]. eauto.
Qed.

Lemma skip_says : forall w range tz b bs, wf_block w bs -> says range tz w b -> should_skip_block local_to_utc (w_header w) range tz = Ok (negb b).
Proof.
  intros w range tz b bs [_ [D _] _ _ _ _ _] [t [I R]]. unfold should_skip_block. unfold at_instant in I. rewrite (meta_get_in InstantTime t) by assumption.
  cbn [ok_or bind]. unfold not_in_range. now rewrite R.
Qed.

Definition tail_len (w : wblock) : string := match w_version w with V1 => big_endian 8 (len (put_tail w) + 14) | _ => "" end.

Lemma body_reads : forall w bs range tz b r, wf_block w bs -> says range tz w b ->
  body range tz (big_endian 8 (len (put_tail w) + (match w_version w with V1 => 8 | _ => 0 end)) ++ put_tail w ++ tail_len w ++ r)
  = Ok (block_of w bs (negb b), r).
Proof.
  intros w bs range tz b r W Sy. assert (Sk := skip_says w range tz b bs W Sy). assert (Wd := window_reads w bs W).
  destruct W as [Wv Wh [Wf Wf'] Wi Wl Wr Wc]. unfold read_block_body. destruct (read_u64_any (len (put_tail w) + (match w_version w with V1 => 8 | _ => 0 end)) (put_tail w ++ tail_len w ++ r)) as [m ->].
  cbn [bind]. unfold put_tail at 1. rewrite !app_assoc_s. rewrite read_u32_app by apply version_small. cbn [bind]. rewrite version_back. cbn [bind].
  rewrite read_type_app by assumption. cbn [bind]. assert (has_header (w_version w) = true) as -> by (destruct (w_version w); [now elim Wv|reflexivity|reflexivity|reflexivity]).
  rewrite metadata_reads by assumption. cbn [bind]. rewrite Sk. cbn [bind]. unfold decode_content.
  assert (has_content_length (w_version w) = true) as -> by (destruct (w_version w); [now elim Wv|reflexivity|reflexivity|reflexivity]).
  rewrite read_u64_app by assumption. cbn [bind]. rewrite split_at_app by reflexivity. rewrite Wd. cbn [bind append].
  unfold block_of, tail_len. destruct (w_version w) eqn:Ev; [now elim Wv| | |]; cbn [has_footer has_total_log_block_length].
  - rewrite metadata_reads by assumption. cbn [bind]. destruct (read_u64_any (len (put_tail w) + 14) r) as [m' ->]. reflexivity.
  - cbn. rewrite Wf' by discriminate. reflexivity.
  - cbn. rewrite Wf' by discriminate. reflexivity.
Qed.

Lemma body_cut : forall w bs range tz b p, wf_block w bs -> cut_detected w -> says range tz w b ->
  strict_prefix p (big_endian 8 (len (put_tail w) + (match w_version w with V1 => 8 | _ => 0 end)) ++ put_tail w ++ tail_len w) ->
  exists e, body range tz p = Err e.
Proof.
  intros w bs range tz b p W Cd Sy H. assert (Sk := skip_says w range tz b bs W Sy). assert (Wd := window_reads w bs W). assert (Wc := window_cut w bs).
  specialize (Wc) with (1 := W) (2 := Cd). destruct W as [Wv Wh [Wf Wf'] Wi Wl Wr _]. unfold read_block_body.
  apply prefix_app in H as [H|[q [-> H]]]; [rewrite (read_u64_cut _ _ H); now exists EIo|].
  destruct (read_u64_any (len (put_tail w) + (match w_version w with V1 => 8 | _ => 0 end)) q) as [m ->]. cbn [bind].
  unfold put_tail at 1 in H. rewrite !app_assoc_s in H.
  apply prefix_app in H as [H|[q1 [-> H]]]; [rewrite (read_u32_cut _ _ H); now exists EIo|]. rewrite read_u32_app by apply version_small. cbn [bind]. rewrite version_back. cbn [bind].
  apply prefix_app in H as [H|[q2 [-> H]]]; [destruct (read_type_cut (w_version w) _ _ H) as [e ->]; now exists e|]. rewrite read_type_app by assumption. cbn [bind].
  assert (has_header (w_version w) = true) as -> by (destruct (w_version w); [now elim Wv|reflexivity|reflexivity|reflexivity]).
  apply prefix_app in H as [H|[q3 [-> H]]]; [rewrite (metadata_cut _ _ Wh H); now exists EIo|]. rewrite metadata_reads by assumption. cbn [bind]. rewrite Sk. cbn [bind].
  unfold decode_content. assert (has_content_length (w_version w) = true) as -> by (destruct (w_version w); [now elim Wv|reflexivity|reflexivity|reflexivity]).
  apply prefix_app in H as [H|[q4 [-> H]]]; [rewrite (read_u64_cut _ _ H); now exists EIo|]. rewrite read_u64_app by assumption. cbn [bind].
  apply prefix_app in H as [H|[q5 [-> H]]].
  - assert (L := prefix_len _ _ H). rewrite split_at_short by lia. destruct (Wc q4 H) as [[e ->]|[V [bs' ->]]]; [now exists e|].
    cbn [bind append]. rewrite V. cbn. now exists EIo.
  - rewrite split_at_app by reflexivity. rewrite Wd. cbn [bind append]. unfold tail_len in H. destruct (w_version w) eqn:Ev; [now elim Wv| | |]; cbn [has_footer has_total_log_block_length].
    + apply prefix_app in H as [H|[q6 [-> H]]]; [rewrite (metadata_cut _ _ Wf H); now exists EIo|]. rewrite metadata_reads by assumption. cbn [bind].
      rewrite (read_u64_cut _ _ H). now exists EIo.
    + now apply no_prefix_nil in H.
    + now apply no_prefix_nil in H.
Qed.

Lemma block_shape : forall w, put_block w = "#HUDI#" ++ (big_endian 8 (len (put_tail w) + (match w_version w with V1 => 8 | _ => 0 end)) ++ put_tail w ++ tail_len w).
Proof. reflexivity. Qed.

Lemma next_reads : forall w bs range tz b r, wf_block w bs -> says range tz w b ->
  next range tz (put_block w ++ r) = Ok (Some (block_of w bs (negb b), r)).
Proof.
  intros w bs range tz b r W Sy. rewrite block_shape, !app_assoc_s. unfold read_next_block, read_magic. rewrite (read_exact_app "#HUDI#") by reflexivity.
  change (String.eqb "#HUDI#" MAGIC) with true. cbn [bind]. now rewrite (body_reads w bs range tz b r).
Qed.
Lemma next_cut : forall w bs range tz b p, wf_block w bs -> cut_detected w -> says range tz w b -> strict_prefix p (put_block w) ->
  ((String.length p < 6)%nat /\ next range tz p = Ok None) \/ exists e, next range tz p = Err e.
Proof.
  intros w bs range tz b p W Cd Sy H. rewrite block_shape in H. apply prefix_app in H as [H|[q [-> H]]].
  - left. split; [apply prefix_len in H; unfold len in H; cbn in H; lia|]. unfold read_next_block, read_magic. now rewrite (read_exact_cut p "#HUDI#").
  - right. unfold read_next_block, read_magic. rewrite (read_exact_app "#HUDI#") by reflexivity.
    change (String.eqb "#HUDI#" MAGIC) with true. cbn [bind]. destruct (body_cut w bs range tz b q W Cd Sy H) as [e ->]. now exists e.
Qed.

(** ** The whole file *)
Lemma block_len : forall w, (6 <= String.length (put_block w))%nat.
Proof. intros w. rewrite block_shape, length_app_s. cbn. lia. Qed.

Lemma says_fun : forall range tz w b b' bs, wf_block w bs -> says range tz w b -> says range tz w b' -> b = b'.
Proof.
  intros range tz w b b' bs [_ [D _] _ _ _ _ _] [t [I R]] [t' [I' R']]. unfold at_instant in *.
  apply (meta_get_in _ _ _ D) in I. apply (meta_get_in _ _ _ D) in I'. congruence.
Qed.

Notation wf x := (wf_block (fst x) (snd x)).
Notation shown := (map (fun x : wblock * list batch => block_of (fst x) (snd x) false)).
Lemma put_log_cons : forall x bl, put_log (map fst (x :: bl)) = put_block (fst x : wblock) ++ put_log (map (@fst wblock (list batch)) bl).
Proof. reflexivity. Qed.
Lemma loop_reads : forall range tz bl, (forall x, In x bl -> wf x) -> (forall x, In x bl -> exists b, says range tz (fst x) b) ->
  exists kept, selects (fun x => says range tz (fst x) true) bl kept
    /\ forall fuel r ob, loop range tz fuel r = Some ob ->
         loop range tz (List.length bl + fuel) (put_log (map fst bl) ++ r) = Some (let* more := ob in Ok (shown kept ++ more)%list).
Proof.
  intros range tz. induction bl as [|[w bs] bl IH]; intros W R.
  - exists []. split; [constructor|]. intros fuel r ob H. cbn. rewrite H. now destruct ob.
  - destruct (R (w, bs) (or_introl eq_refl)) as [b Sb]. destruct IH as [kept [Sk L]]; [intros x Hx; apply W; now right|intros x Hx; apply R; now right|].
    assert (Ww := W (w, bs) (or_introl eq_refl)). cbn [fst snd] in *.
    exists (if b then (w, bs) :: kept else kept). split.
    + destruct b; [now constructor|]. constructor; [|assumption]. cbn. intros C. assert (X := says_fun range tz w false true bs Ww Sb C). discriminate.
    + intros fuel r ob H. cbn [List.length plus]. rewrite put_log_cons, app_assoc_s.
      cbn [read_loop fst]. rewrite (next_reads w bs range tz b _ Ww Sb). rewrite (L fuel r ob H). destruct ob as [more|e|]; cbn [bind]; [|now destruct b|now destruct b].
      destruct b; reflexivity.
Qed.

Lemma loop_end : forall range tz fuel s, (String.length s < 6)%nat -> loop range tz (S fuel) s = Some (Ok []).
Proof.
  intros range tz fuel s H. cbn [read_loop]. unfold read_next_block, read_magic, read_exact. assert (E : (N.of_nat (String.length s) <? 6)%N = true) by (apply N.ltb_lt; lia).
  now rewrite E.
Qed.

Lemma log_len : forall bl : list (wblock * list batch), (List.length bl <= String.length (put_log (map fst bl)))%nat.
Proof.
  induction bl as [|x bl IH]; [cbn; lia|]. rewrite put_log_cons, length_app_s. cbn [List.length]. assert (H := block_len (fst x)). lia.
Qed.
Lemma read_all_reads : forall range tz bl, (forall x, In x bl -> wf x) -> (forall x, In x bl -> exists b, says range tz (fst x) b) ->
  exists kept, selects (fun x => says range tz (fst x) true) bl kept
    /\ forall q, (String.length q < 6)%nat -> read_all range tz (put_log (map fst bl) ++ q) = Ok (shown kept).
Proof.
  intros range tz bl W R. destruct (loop_reads range tz bl W R) as [kept [Sk L]]. exists kept. split; [assumption|]. intros q Hq. unfold read_all_blocks.
  assert (H := log_len bl). rewrite length_app_s.
  replace (S (String.length (put_log (map fst bl)) + String.length q)) with (List.length bl + S (String.length (put_log (map fst bl)) + String.length q - List.length bl))%nat by lia.
  rewrite (L _ q (Ok [])); [|now apply loop_end]. cbn [bind]. now rewrite app_nil_r.
Qed.

Lemma blocks_read_back : forall range tz bl, (forall x, In x bl -> wf x) -> (forall x, In x bl -> exists b, says range tz (fst x) b) ->
  exists kept, selects (fun x => says range tz (fst x) true) bl kept /\ read_all range tz (put_log (map fst bl)) = Ok (shown kept).
Proof.
  intros range tz bl W R. destruct (read_all_reads range tz bl W R) as [kept [Sk L]]. exists kept. split; [assumption|].
  assert (H := L "" ltac:(cbn; lia)). now rewrite app_nil_r_s in H.
Qed.
Lemma split_prefix : forall p r a b, p ++ r = a ++ b -> strict_prefix p a \/ exists q, p = a ++ q /\ b = q ++ r.
Proof.
  induction p as [|c p IH]; intros r a b E.
  - destruct a as [|d a]; [right; exists ""; auto|]. left. exists (String d a). split; [discriminate|reflexivity].
  - destruct a as [|d a]; [right; exists (String c p); auto|]. cbn in E. injection E as -> E. destruct (IH r a b E) as [[r' [N ->]]|[q [-> ->]]].
    + left. exists r'. auto.
    + right. exists q. auto.
Qed.
Lemma loop_cut : forall range tz bl, (forall x, In x bl -> wf x) -> (forall x, In x bl -> cut_detected (fst x)) ->
  (forall x, In x bl -> exists b, says range tz (fst x) b) ->
  forall p r fuel, p ++ r = put_log (map fst bl) -> (String.length p < fuel)%nat ->
  (exists e, loop range tz fuel p = Some (Err e))
  \/ exists bl1 bl2 q, bl = (bl1 ++ bl2)%list /\ p = put_log (map fst bl1) ++ q /\ (String.length q < 6)%nat.
Proof.
  intros range tz. induction bl as [|[w bs] bl IH]; intros W C R p r fuel E Fu.
  - right. exists [], [], "". destruct p; [|discriminate]. cbn. repeat split; auto. lia.
  - rewrite put_log_cons in E. cbn [fst] in E. assert (Ww := W (w, bs) (or_introl eq_refl)). assert (Cw := C (w, bs) (or_introl eq_refl)). destruct (R (w, bs) (or_introl eq_refl)) as [b Sb]. cbn [fst snd] in *.
    destruct fuel as [|fuel]; [lia|]. apply split_prefix in E as [P|[q [-> E]]].
    + destruct (next_cut w bs range tz b p Ww Cw Sb P) as [[L _]|[e He]].
      * right. exists [], ((w, bs) :: bl), p. repeat split; auto.
      * left. exists e. cbn [read_loop]. now rewrite He.
    + destruct (IH) with (p := q) (r := r) (fuel := fuel) as [[e He]|[b1 [b2 [q' [-> [-> L]]]]]]; auto.
      * intros x Hx; apply W; now right.
      * intros x Hx; apply C; now right.
      * intros x Hx; apply R; now right.
      * rewrite length_app_s in Fu. assert (H := block_len w). lia.
      * left. exists e. cbn [read_loop]. rewrite (next_reads w bs range tz b _ Ww Sb), He. reflexivity.
      * right. exists ((w, bs) :: b1), b2, q'. repeat split; auto. rewrite put_log_cons. cbn [fst]. now rewrite app_assoc_s.
Qed.
Lemma read_all_cut : forall range tz bl, (forall x, In x bl -> wf x) -> (forall x, In x bl -> cut_detected (fst x)) ->
  (forall x, In x bl -> exists b, says range tz (fst x) b) ->
  forall p r, p ++ r = put_log (map fst bl) ->
  (exists e, read_all range tz p = Err e)
  \/ exists bl1 bl2 q kept, bl = (bl1 ++ bl2)%list /\ p = put_log (map fst bl1) ++ q /\ (String.length q < 6)%nat
       /\ selects (fun x => says range tz (fst x) true) bl1 kept /\ read_all range tz p = Ok (shown kept).
Proof.
  intros range tz bl W C R p r E. destruct (loop_cut range tz bl W C R p r (S (String.length p)) E ltac:(lia)) as [[e He]|[b1 [b2 [q [-> [-> L]]]]]].
  - left. exists e. unfold read_all_blocks. now rewrite He.
  - right. destruct (read_all_reads range tz b1) as [kept [Sk L2]]; [intros x Hx; apply W; apply in_or_app; now left|intros x Hx; apply R; apply in_or_app; now left|].
    exists b1, b2, q, kept. repeat split; auto.
Qed.

Lemma truncated_log : forall range tz bl p r, (forall x, In x bl -> wf x) -> (forall x, In x bl -> cut_detected (fst x)) ->
  (forall x, In x bl -> exists b, says range tz (fst x) b) -> p ++ r = put_log (map fst bl) ->
  (exists e, read_all range tz p = Err e)
  \/ exists bl1 bl2 q kept, bl = (bl1 ++ bl2)%list /\ p = put_log (map fst bl1) ++ q /\ (String.length q < 6)%nat
       /\ selects (fun x => says range tz (fst x) true) bl1 kept /\ read_all range tz p = Ok (shown kept).
Proof. intros range tz bl p r W C R E. now apply (read_all_cut range tz bl W C R p r). Qed.

(** ** The scanner *)
Lemma selects_in : forall {A} (P : A -> Prop) l k, selects P l k -> forall x, In x k <-> In x l /\ P x.
Proof.
  intros A P l k H. induction H as [|y l r Py H IH|y l r Ny H IH]; intros x; cbn.
  - tauto.
  - rewrite IH. split; [intros [ -> |[? ?]]; auto|intros [[ -> |?] ?]; auto].
  - rewrite IH. split; [tauto|]. intros [[ -> |?] ?]; [contradiction|auto].
Qed.
Lemma selects_and : forall {A} (P Q R : A -> Prop) l k, selects P l k -> forall m, selects Q k m ->
  (forall x, In x l -> (R x <-> P x /\ Q x)) -> selects R l m.
Proof.
  intros A P Q R l k H. induction H as [|y l r Py H IH|y l r Ny H IH]; intros m M E.
  - inversion M; subst. constructor.
  - inversion M as [|? ? m' Qy M'|? ? ? Nq M']; subst.
    + constructor; [apply E; [now left|tauto]|]. apply IH; [assumption|]. intros; apply E; now right.
    + constructor; [rewrite E by (now left); tauto|]. apply IH; [assumption|]. intros; apply E; now right.
  - constructor; [rewrite E by (now left); tauto|]. apply IH; [assumption|]. intros; apply E; now right.
Qed.
Lemma selects_app : forall {A} (P : A -> Prop) l k l' k', selects P l k -> selects P l' k' -> selects P (l ++ l')%list (k ++ k')%list.
Proof. intros A P l k l' k' H. induction H; intros H'; cbn; [assumption|now constructor; auto|now constructor; auto]. Qed.
Lemma selects_iff : forall {A} (P Q : A -> Prop) l k, selects P l k -> (forall x, In x l -> (P x <-> Q x)) -> selects Q l k.
Proof.
  intros A P Q l k H. induction H as [|y l r Py H IH|y l r Ny H IH]; intros E; constructor; try (apply IH; intros; apply E; now right).
  - apply E; [now left|assumption].
  - intros C. apply Ny. apply E; [now left|assumption].
Qed.
Lemma selects_fun : forall {A} (P : A -> Prop) l k k', selects P l k -> selects P l k' -> k = k'.
Proof.
  intros A P l k k' H. revert k'. induction H as [|y l r Py H IH|y l r Ny H IH]; intros k' H'; inversion H'; subst; try contradiction; auto. f_equal. auto.
Qed.

Lemma rollback_iff : forall w bs, wf_block w bs ->
  (is_rollback_block _ (block_of w bs false) = true <-> w_content w = CCommand /\ exists v, In (CommandBlockType, v) (w_header w) /\ parse_u32 v = Some 0%Z).
Proof.
  intros w bs [_ [D _] _ _ _ _ _]. unfold is_rollback_block, is_command, block_of. cbn [lb_type lb_header]. unfold w_type. rewrite Bool.andb_true_iff. split.
  - intros [Hc Hm]. split; [now destruct (w_content w)|]. destruct (meta_get CommandBlockType (w_header w)) as [v|] eqn:E; [|discriminate].
    exists v. split; [now apply meta_get_some|]. destruct (parse_u32 v); [|discriminate]. apply Z.eqb_eq in Hm. now subst.
  - intros [Hc [v [I Hv]]]. rewrite Hc. split; [reflexivity|]. rewrite (meta_get_in _ v) by assumption. now rewrite Hv.
Qed.
Lemma target_ok : forall w bs t, wf_block w bs -> w_content w = CCommand -> In (TargetInstantTime, t) (w_header w) ->
  target_instant_time _ (block_of w bs false) = Ok t.
Proof.
  intros w bs t [_ [D _] _ _ _ _ _] Hc I. unfold target_instant_time, is_command, block_of. cbn [lb_type lb_header]. unfold w_type. rewrite Hc. cbn [negb].
  now rewrite (meta_get_in _ t).
Qed.
Lemma targets_ok : forall kept : list (wblock * list batch), (forall x, In x kept -> wf x) -> (forall x, In x kept -> target_given (fst x)) ->
  exists ts, mapM (target_instant_time _) (filter (is_rollback_block _) (shown kept)) = Ok ts
    /\ forall t, In t ts <-> exists y, In y kept /\ rolls_back (fst y) t.
Proof.
  induction kept as [|[w bs] kept IH]; intros W T.
  - exists []. split; [reflexivity|]. intros t. split; [intros []|]. intros [y [[] _]].
  - destruct IH as [ts [E H]]; [intros x Hx; apply W; now right|intros x Hx; apply T; now right|]. assert (Ww := W (w, bs) (or_introl eq_refl)). assert (Tw := T (w, bs) (or_introl eq_refl)). cbn [fst snd] in *.
    cbn [map filter fst snd]. assert (Rb := rollback_iff w bs Ww). destruct (is_rollback_block _ (block_of w bs false)) eqn:Er.
    + destruct (proj1 Rb eq_refl) as [Hc [v [I Hv]]]. destruct (Tw v Hc I Hv) as [tg Ht]. exists (tg :: ts). cbn [mapM]. rewrite (target_ok w bs tg) by assumption. cbn [bind]. rewrite E.
      split; [reflexivity|]. intros t. cbn. rewrite H. split.
      * intros [ <- |[y [Iy Hy]]]; [|exists y; auto]. exists (w, bs). split; [now left|]. repeat split; eauto.
      * intros [y [[ <- |Iy] Hy]]; [|right; now exists y]. left. destruct Hy as [_ [It _]]. destruct Ww as [_ [D _] _ _ _ _ _]. cbn in It.
        apply (meta_get_in _ _ _ D) in It. apply (meta_get_in _ _ _ D) in Ht. congruence.
    + exists ts. split; [assumption|]. intros t. rewrite H. split.
      * intros [y [Iy Hy]]. exists y. split; [now right|assumption].
      * intros [y [[ <- |Iy] Hy]]; [|now exists y]. destruct Hy as [Hc [_ [v [I Hv]]]]. cbn [fst] in *. assert (X := proj2 Rb (conj Hc (ex_intro _ v (conj I Hv)))). discriminate.
Qed.
Lemma valid_ok : forall targets (kept : list (wblock * list batch)), (forall x, In x kept -> wf x) ->
  exists out, selects (fun x => ~ exists t, In t targets /\ at_instant (fst x) t) kept out
    /\ valid_batches _ targets (shown kept) = Ok (map snd out).
Proof.
  intros targets. induction kept as [|[w bs] kept IH]; intros W.
  - exists []. split; [constructor|reflexivity].
  - destruct IH as [out [So E]]; [intros x Hx; apply W; now right|]. assert (Ww := W (w, bs) (or_introl eq_refl)). cbn [fst snd] in *.
    destruct Ww as [_ [D _] _ [t It] _ _ _]. assert (Ei : instant_time batch (block_of w bs false) = Ok t) by (unfold instant_time, S_Log.block_of; cbn [lb_header]; now rewrite (meta_get_in _ t)).
    cbn [map valid_batches fst snd]. rewrite Ei. cbn [bind]. rewrite E. cbn [bind].
    destruct (existsb (String.eqb t) targets) eqn:Ex.
    + exists out. split; [|reflexivity]. constructor; [|assumption]. intros N. apply N. apply existsb_exists in Ex as [t' [I' Q]]. apply String.eqb_eq in Q. subst. now exists t'.
    + exists ((w, bs) :: out). split; [|reflexivity]. constructor; [|assumption]. intros [t' [I' A]]. unfold at_instant in A. cbn in A.
      apply (meta_get_in _ _ _ D) in A. apply (meta_get_in _ _ _ D) in It. assert (t' = t) by congruence. subst.
      assert (X : existsb (String.eqb t) targets = true) by (apply existsb_exists; exists t; split; [assumption|apply String.eqb_refl]). congruence.
Qed.

Lemma valid_app : forall targets a b x y, valid_batches batch targets a = Ok x -> valid_batches batch targets b = Ok y ->
  valid_batches batch targets (a ++ b)%list = Ok (x ++ y)%list.
Proof.
  intros targets a b x y. revert x. induction a as [|c a IH]; intros x Ha Hb; cbn in *.
  - now injection Ha as <-.
  - destruct (instant_time batch c) as [t|e|]; [|discriminate|discriminate]. cbn [bind] in *. apply bind_ok in Ha as [r [Hr Ha]]. rewrite (IH r Hr Hb). cbn [bind].
    injection Ha as <-. now destruct (existsb _ _).
Qed.

Lemma scan_files_ok : forall fetch range tz files, (forall f, In f files -> file_ok fetch range tz f) ->
  exists keeps ts, scan_files avro_schema avro_value batch parse_schema datum check_schema to_batch parquet local_to_utc fetch range tz (map fst files)
      = Ok (map (fun k => shown k) keeps, ts)
    /\ selects (fun x => says range tz (fst x) true) (List.concat (map snd files)) (List.concat keeps)
    /\ (forall t, In t ts <-> exists y, In y (List.concat keeps) /\ rolls_back (fst y) t).
Proof.
  intros fetch range tz. induction files as [|[p bl] files IH]; intros H.
  - exists [], []. split; [reflexivity|]. split; [constructor|]. intros t. split; [intros []|]. intros [y [[] _]].
  - destruct IH as [keeps [ts [E [Sk T]]]]; [intros f Hf; apply H; now right|]. destruct (H (p, bl) (or_introl eq_refl)) as [Hf Hb]. cbn [fst snd] in *.
    destruct (read_all_reads range tz bl) as [kept [Sk1 Rd]]; [intros x Hx; apply Hb; assumption|intros x Hx; apply Hb; assumption|].
    assert (Ik := selects_in _ _ _ Sk1).
    destruct (targets_ok kept) as [ts1 [E1 T1]]; [intros x Hx; apply Ik in Hx; apply Hb; tauto|intros x Hx; apply Ik in Hx; apply Hb; tauto|].
    exists (kept :: keeps), (ts1 ++ ts)%list. cbn [map scan_files fst snd List.concat]. rewrite Hf. cbn [bind]. assert (Rd' := Rd "" ltac:(cbn; lia)). rewrite app_nil_r_s in Rd'.
    rewrite Rd'. cbn [bind]. rewrite E1. cbn [bind]. rewrite E. cbn [bind]. split; [reflexivity|]. split; [now apply selects_app|].
    intros t. rewrite in_app_iff, T1, T. split.
    + intros [[y [I Hy]]|[y [I Hy]]]; exists y; (split; [apply in_or_app; auto|assumption]).
    + intros [y [I Hy]]. apply in_app_or in I as [I|I]; [left|right]; now exists y.
Qed.

Lemma scan_ok : forall fetch range tz files, (forall f, In f files -> file_ok fetch range tz f) ->
  exists out, selects (surviving range tz (List.concat (map snd files))) (List.concat (map snd files)) out
    /\ scan fetch range tz (map fst files) = Ok (map snd out).
Proof.
  intros fetch range tz files H. destruct (scan_files_ok fetch range tz files H) as [keeps [ts [E [Sk T]]]].
  assert (Ik := selects_in _ _ _ Sk).
  destruct (valid_ok ts (List.concat keeps)) as [out [So V]].
  { intros x Hx. apply Ik in Hx as [Hx _]. apply in_concat in Hx as [l [Hl Hx]]. apply in_map_iff in Hl as [f [ <- Hf]]. now apply (proj2 (H f Hf)). }
  exists out. split.
  - eapply selects_and; [exact Sk|exact So|]. intros x Hx. unfold S_Log.surviving. split.
    + intros [S1 N]. split; [assumption|]. intros [t [It At]]. apply T in It as [y [Iy Ry]]. apply Ik in Iy as [Iy Sy]. apply N. exists y, t. auto.
    + intros [S1 N]. split; [assumption|]. intros [y [t [Iy [Sy [Ry At]]]]]. apply N. exists t. split; [|assumption]. apply T. exists y. split; [|assumption]. apply Ik. auto.
  - unfold M_Log.scan. rewrite E. cbn [bind]. rewrite <- V. f_equal. rewrite concat_map. reflexivity.
Qed.

(** Rolled-back blocks before a rollback block might as well not have been written. *)
Lemma selects_skip : forall {A} (P Q : A -> Prop) l k m, selects P l k -> selects Q l m -> (forall x, In x l -> ~ Q x -> ~ P x) -> selects P m k.
Proof.
  intros A P Q l k m H. revert m. induction H as [|y l r Py H IH|y l r Ny H IH]; intros m M E.
  - inversion M; subst. constructor.
  - inversion M as [|? ? m' Qy M'|? ? ? Nq M']; subst.
    + constructor; [assumption|]. apply IH; [assumption|]. intros x Hx; apply E; now right.
    + elim (E y (or_introl eq_refl) Nq Py).
  - inversion M as [|? ? m' Qy M'|? ? ? Nq M']; subst.
    + constructor; [assumption|]. apply IH; [assumption|]. intros x Hx; apply E; now right.
    + apply IH; [assumption|]. intros x Hx; apply E; now right.
Qed.
Lemma selects_app_inv : forall {A} (P : A -> Prop) l l' k, selects P (l ++ l')%list k -> exists a b, k = (a ++ b)%list /\ selects P l a /\ selects P l' b.
Proof.
  intros A P. induction l as [|x l IH]; intros l' k H; [exists [], k; repeat split; [constructor|assumption]|].
  inversion H as [|? ? r Px H1|? ? ? Nx H1]; subst; destruct (IH _ _ H1) as [a [b [ -> [Ha Hb]]]].
  - exists (x :: a), b. repeat split; [now constructor|assumption].
  - exists a, b. repeat split; [now constructor|assumption].
Qed.
Lemma earlier_removed : forall fetch fetch' range tz path pre pre' rb post target,
  file_ok fetch range tz (path, (pre ++ rb :: post)%list) -> file_ok fetch' range tz (path, (pre' ++ rb :: post)%list) ->
  says range tz (fst rb) true -> rolls_back (fst rb) target ->
  selects (fun x => ~ (at_instant (fst x) target /\ w_content (fst x) <> CCommand)) pre pre' ->
  scan fetch range tz [path] = scan fetch' range tz [path].
Proof.
  intros fetch fetch' range tz path pre pre' rb post target H H' Sr Rb Se.
  destruct (scan_ok fetch range tz [(path, (pre ++ rb :: post)%list)]) as [out [So E]]; [intros f [ <- |[]]; assumption|].
  destruct (scan_ok fetch' range tz [(path, (pre' ++ rb :: post)%list)]) as [out' [So' E']]; [intros f [ <- |[]]; assumption|].
  cbn [map fst snd List.concat] in *. rewrite app_nil_r in So, So'. rewrite E, E'. f_equal. f_equal.
  assert (I := selects_in _ _ _ Se).
  assert (Eq : forall x, surviving range tz (pre ++ rb :: post)%list x <-> surviving range tz (pre' ++ rb :: post)%list x).
  { intros x. unfold S_Log.surviving. split; intros [S1 N]; (split; [assumption|]); intros [y [t [Iy [Sy [Ry At]]]]]; apply N; exists y, t; (split; [|auto]);
      apply in_or_app; apply in_app_or in Iy as [Iy|Iy]; auto; left.
    - apply I in Iy. tauto.
    - apply I. split; [assumption|]. intros [_ C]. destruct Ry as [C' _]. contradiction. }
  apply (selects_fun (surviving range tz (pre' ++ rb :: post)%list) (pre' ++ rb :: post)%list); [|assumption].
  apply (selects_iff _ (surviving range tz (pre' ++ rb :: post)%list)) in So; [|auto]. apply selects_app_inv in So as [o1 [o2 [ -> [So1 So2]]]].
  apply selects_app; [|assumption]. apply (selects_skip _ _ _ _ _ So1 Se). intros x _ Nq [_ N]. apply Nq. intros [At _]. apply N.
  exists rb, target. split; [apply in_or_app; right; now left|]. auto.
Qed.

(** ** Bytes that are not a supported block *)
Lemma read_all_then : forall range tz bl g e, (forall x, In x bl -> wf x) -> (forall x, In x bl -> exists b, says range tz (fst x) b) ->
  next range tz g = Err e -> read_all range tz (put_log (map fst bl) ++ g) = Err e.
Proof.
  intros range tz bl g e W R H. destruct (loop_reads range tz bl W R) as [kept [Sk L]]. unfold read_all_blocks.
  assert (Hl := log_len bl). rewrite length_app_s.
  replace (S (String.length (put_log (map fst bl)) + String.length g)) with (List.length bl + S (String.length (put_log (map fst bl)) + String.length g - List.length bl))%nat by lia.
  rewrite (L _ g (Err e)); [reflexivity|]. cbn [read_loop]. now rewrite H.
Qed.
Lemma garbage_rejected : forall range tz bl g, (forall x, In x bl -> wf x) -> (forall x, In x bl -> exists b, says range tz (fst x) b) ->
  (6 <= String.length g)%nat -> starts_with "#HUDI#" g = false -> read_all range tz (put_log (map fst bl) ++ g) = Err ELogFormat.
Proof.
  intros range tz bl g W R H1 H2. apply read_all_then; auto. unfold read_next_block, read_magic.
  destruct (read_exact 6 g) as [[m r]|e|] eqn:E.
  - assert (Eg : g = m ++ r).
    { unfold read_exact in E. destruct (_ <? 6)%N; [discriminate|]. unfold split_at in E. destruct (_ <=? 6)%N; injection E as <- <-; [now rewrite app_nil_r_s|].
      symmetry. exact (take_drop 6 g). }
    destruct (String.eqb_spec m MAGIC) as [ -> |N]; [|reflexivity]. exfalso. apply Bool.diff_false_true. rewrite <- H2. apply starts_with_spec. now exists r.
  - unfold read_exact in E. destruct (N.ltb_spec (N.of_nat (String.length g)) 6); [lia|discriminate].
  - unfold read_exact in E. destruct (N.of_nat (String.length g) <? 6)%N; discriminate.
Qed.
Lemma unsupported_rejected : forall range tz bl v ty h b n m r, (forall x, In x bl -> wf x) -> (forall x, In x bl -> exists b, says range tz (fst x) b) ->
  v <> V0 -> In ty [Delete; Corrupted; HfileData; CdcData] -> wf_metadata h ->
  says range tz {| w_version := v; w_header := h; w_content := CCommand; w_footer := [] |} b -> (m < 2 ^ 64)%N ->
  read_all range tz (put_log (map fst bl) ++ block_start v ty h n m ++ r) = Err ELogBlock.
Proof.
  intros range tz bl v ty h b n m r W R Hv Ht Hh [t [It Hr]] Hm. apply read_all_then; auto. unfold block_start. rewrite !app_assoc_s. unfold read_next_block, read_magic.
  rewrite (read_exact_app "#HUDI#") by reflexivity. change (String.eqb "#HUDI#" MAGIC) with true. cbn [bind]. unfold read_block_body.
  destruct (read_u64_any n (big_endian 4 (version_number v) ++ big_endian 4 (type_number ty) ++ put_metadata h ++ big_endian 8 m ++ r)) as [m' ->].
  cbn [bind]. rewrite read_u32_app by apply version_small. cbn [bind]. rewrite version_back. cbn [bind]. rewrite read_type_app by assumption. cbn [bind].
  assert (has_header v = true) as -> by (destruct v; [now elim Hv|reflexivity|reflexivity|reflexivity]). rewrite metadata_reads by assumption. cbn [bind].
  unfold should_skip_block. cbn in It. rewrite (meta_get_in InstantTime t) by (assumption || apply Hh). cbn [ok_or bind]. unfold not_in_range. rewrite Hr. cbn [bind]. unfold decode_content.
  assert (has_content_length v = true) as -> by (destruct v; [now elim Hv|reflexivity|reflexivity|reflexivity]). rewrite read_u64_app by assumption. cbn [bind].
  destruct (split_at m r) as [w a]. destruct Ht as [ <- |[ <- |[ <- |[ <- |[]]]]]; reflexivity.
Qed.

Lemma take_app2 : forall a n r, take (String.length a + n) (a ++ r) = a ++ take n r.
Proof. induction a as [|c a IH]; intros n r; [reflexivity|]. cbn. now rewrite IH. Qed.
Lemma bad_version_rejected : forall range tz bl n v r, (forall x, In x bl -> wf x) -> (forall x, In x bl -> exists b, says range tz (fst x) b) ->
  (v < 2 ^ 32)%N -> ~ In v [1; 2; 3]%N -> read_all range tz (put_log (map fst bl) ++ "#HUDI#" ++ big_endian 8 n ++ big_endian 4 v ++ r) = Err ELogFormat.
Proof.
  intros range tz bl n v r W R Hv Hn. apply read_all_then; auto. unfold read_next_block, read_magic.
  rewrite (read_exact_app "#HUDI#") by reflexivity. change (String.eqb "#HUDI#" MAGIC) with true. cbn [bind]. unfold read_block_body.
  destruct (read_u64_any n (big_endian 4 v ++ r)) as [m' ->]. cbn [bind]. rewrite read_u32_app by assumption. cbn [bind].
  destruct v as [|[[p|p|]|[p|p|]|]]; try reflexivity; elim Hn; cbn; tauto.
Qed.
Lemma bad_records_rejected : forall range tz bl v h b n m text sch rv r, (forall x, In x bl -> wf x) -> (forall x, In x bl -> exists b, says range tz (fst x) b) ->
  v <> V0 -> wf_metadata h -> In (Schema, text) h -> parse_schema text = Some sch ->
  says range tz {| w_version := v; w_header := h; w_content := CCommand; w_footer := [] |} b -> (4 <= m)%N -> (m < 2 ^ 64)%N ->
  (rv < 2 ^ 32)%N -> rv <> 3%N ->
  read_all range tz (put_log (map fst bl) ++ block_start v AvroData h n m ++ big_endian 4 rv ++ r) = Err ELogBlock.
Proof.
  intros range tz bl v h b n m text sch rv r W R Hv Hh Hs Hp [t [It Hr]] Hm4 Hm Hrv Hrn. apply read_all_then; auto. unfold block_start. rewrite !app_assoc_s. unfold read_next_block, read_magic.
  rewrite (read_exact_app "#HUDI#") by reflexivity. change (String.eqb "#HUDI#" MAGIC) with true. cbn [bind]. unfold read_block_body.
  destruct (read_u64_any n (big_endian 4 (version_number v) ++ big_endian 4 (type_number AvroData) ++ put_metadata h ++ big_endian 8 m ++ big_endian 4 rv ++ r)) as [m' ->].
  cbn [bind]. rewrite read_u32_app by apply version_small. cbn [bind]. rewrite version_back. cbn [bind]. rewrite read_type_app by assumption. cbn [bind].
  assert (has_header v = true) as -> by (destruct v; [now elim Hv|reflexivity|reflexivity|reflexivity]). rewrite metadata_reads by assumption. cbn [bind].
  unfold should_skip_block. cbn in It. rewrite (meta_get_in InstantTime t) by (assumption || apply Hh). cbn [ok_or bind]. unfold not_in_range. rewrite Hr. cbn [bind]. unfold decode_content.
  assert (has_content_length v = true) as -> by (destruct v; [now elim Hv|reflexivity|reflexivity|reflexivity]). rewrite read_u64_app by assumption. cbn [bind].
  assert (Sp : exists r' a, split_at m (big_endian 4 rv ++ r) = (big_endian 4 rv ++ r', a)).
  { unfold split_at. destruct (_ <=? m)%N; [now exists r, ""|]. replace (N.to_nat m) with (String.length (big_endian 4 rv) + (N.to_nat m - 4))%nat by (rewrite length_big; lia).
    rewrite take_app2. eauto. }
  destruct Sp as [r' [a ->]]. cbn [decode_window]. rewrite (meta_get_in Schema text) by (assumption || apply Hh). cbn [ok_or bind]. rewrite Hp. cbn [ok_or bind]. unfold decode_avro.
  rewrite read_u32_app by assumption. cbn [bind]. apply N.eqb_neq in Hrn. now rewrite Hrn.
Qed.
Lemma bad_header_rejected : forall range tz bl v ty pre k x post n r, (forall x, In x bl -> wf x) -> (forall x, In x bl -> exists b, says range tz (fst x) b) ->
  v <> V0 -> wf_metadata pre -> utf8_valid x = false -> (len x < 2 ^ 32)%N -> (N.of_nat (List.length (pre ++ (k, x) :: post)%list) < 2 ^ 32)%N ->
  read_all range tz (put_log (map fst bl) ++ "#HUDI#" ++ big_endian 8 n ++ big_endian 4 (version_number v) ++ big_endian 4 (type_number ty)
    ++ put_metadata (pre ++ (k, x) :: post)%list ++ r) = Err EUtf8.
Proof.
  intros range tz bl v ty pre k x post n r W R Hv [Dp Wp] Hu Hl Hn. apply read_all_then; auto. unfold read_next_block, read_magic.
  rewrite (read_exact_app "#HUDI#") by reflexivity. change (String.eqb "#HUDI#" MAGIC) with true. cbn [bind]. unfold read_block_body.
  destruct (read_u64_any n (big_endian 4 (version_number v) ++ big_endian 4 (type_number ty) ++ put_metadata (pre ++ (k, x) :: post)%list ++ r)) as [m' ->].
  cbn [bind]. rewrite read_u32_app by apply version_small. cbn [bind]. rewrite version_back. cbn [bind]. rewrite read_type_app by assumption. cbn [bind].
  assert (has_header v = true) as -> by (destruct v; [now elim Hv|reflexivity|reflexivity|reflexivity]).
  unfold read_metadata, put_metadata. rewrite app_assoc_s, read_u32_app by assumption. cbn [bind]. rewrite Nat2N.id, map_app, glue_app, app_assoc_s, app_length.
  assert (G : forall pre acc s, (forall k v, In (k, v) pre -> utf8_valid v = true /\ (len v < 2 ^ 32)%N) ->
    read_entries (List.length pre + List.length ((k, x) :: post)) acc (glue (map put_entry pre) ++ glue (map put_entry ((k, x) :: post)) ++ s) = Err EUtf8).
  { clear - Hu Hl. induction pre as [|[k' v'] pre IH]; intros acc s Wp.
    - cbn [List.length plus read_entries map glue fold_right append]. fold (glue (map put_entry post)). unfold put_entry at 1. cbn [fst snd]. rewrite !app_assoc_s. unfold read_entry.
      rewrite read_u32_app by apply key_small. cbn [bind]. rewrite key_back. cbn [bind]. rewrite read_u32_app by assumption. cbn [bind]. rewrite read_exact_app by reflexivity. cbn [bind]. now rewrite Hu.
    - cbn [map]. change (glue (put_entry (k', v') :: map put_entry pre)) with (put_entry (k', v') ++ glue (map put_entry pre)). rewrite app_assoc_s. destruct (Wp k' v' (or_introl eq_refl)) as [U L].
      change (List.length ((k', v') :: pre) + List.length ((k, x) :: post))%nat with (S (List.length pre + List.length ((k, x) :: post))). cbn [read_entries].
      rewrite entry_reads by assumption. cbn [bind]. apply IH. intros k0 v0 I0. apply (Wp k0 v0). now right. }
  now rewrite G.
Qed.

(** Reading consumes bytes, so the loop ends. *)
Definition shrinks {A} (P : string -> outcome (A * string)) : Prop := forall s a r, P s = Ok (a, r) -> (String.length r <= String.length s)%nat.
Lemma split_at_len : forall n s a b, split_at n s = (a, b) -> (String.length a + String.length b = String.length s)%nat.
Proof.
  intros n s a b H. unfold split_at in H. destruct (N.leb_spec (N.of_nat (String.length s)) n).
  - injection H as <- <-. cbn. lia.
  - injection H as <- <-. rewrite length_drop, length_take; lia.
Qed.
Lemma read_exact_len : forall n s a b, read_exact n s = Ok (a, b) -> (String.length a + String.length b = String.length s)%nat.
Proof. intros n s a b H. unfold read_exact in H. destruct (_ <? n)%N; [discriminate|]. injection H as H. now apply split_at_len in H. Qed.
Lemma u32_shrinks : shrinks read_u32.
Proof. intros s a r H. unfold read_u32 in H. apply bind_ok in H as [[x y] [H1 H2]]. injection H2 as _ <-. apply read_exact_len in H1. lia. Qed.
Lemma u64_shrinks : shrinks read_u64.
Proof. intros s a r H. unfold read_u64 in H. apply bind_ok in H as [[x y] [H1 H2]]. injection H2 as _ <-. apply read_exact_len in H1. lia. Qed.
Lemma entry_shrinks : shrinks read_entry.
Proof.
  intros s a r H. unfold read_entry in H. apply bind_ok in H as [[x s1] [H1 H]]. apply bind_ok in H as [k [_ H]]. apply bind_ok in H as [[y s2] [H2 H]].
  apply bind_ok in H as [[z s3] [H3 H]]. destruct (utf8_valid z); [|discriminate]. injection H as _ <-.
  apply u32_shrinks in H1. apply u32_shrinks in H2. apply read_exact_len in H3. lia.
Qed.
Lemma entries_shrink : forall n m, shrinks (read_entries n m).
Proof.
  induction n as [|n IH]; intros m s a r H; cbn in H; [injection H as _ <-; lia|]. apply bind_ok in H as [[[k v] s1] [H1 H]].
  apply entry_shrinks in H1. apply IH in H. lia.
Qed.
Lemma metadata_shrinks : forall b, shrinks (read_metadata b).
Proof.
  intros [] s a r H; cbn in H; [|injection H as _ <-; lia]. apply bind_ok in H as [[n s1] [H1 H]]. apply u32_shrinks in H1. apply entries_shrink in H. lia.
Qed.
Hypothesis datum_shrinks : forall sch s v r, datum sch s = Some (v, r) -> (String.length r <= String.length s)%nat.
Lemma record_shrinks : forall sch, shrinks (record sch).
Proof.
  intros sch s a r H. unfold read_record in H. apply bind_ok in H as [[n s1] [H1 H]]. destruct (split_at n s1) as [w af] eqn:E. apply split_at_len in E.
  apply bind_ok in H as [[v u] [H2 H]]. injection H as _ <-. apply ok_or_ok in H2. apply datum_shrinks in H2. apply u32_shrinks in H1. rewrite length_app_s. lia.
Qed.
Lemma records_shrink : forall sch n, shrinks (records sch n).
Proof.
  intros sch. induction n as [|n IH]; intros s a r H; cbn in H; [injection H as _ <-; lia|]. apply bind_ok in H as [[v s1] [H1 H]].
  apply bind_ok in H as [[vs s2] [H2 H]]. injection H as _ <-. apply record_shrinks in H1. apply IH in H2. lia.
Qed.
Lemma batches_shrink : forall sch f n, shrinks (batches sch f n).
Proof.
  intros sch. induction f as [|f IH]; intros n s a r H; [cbn in H; injection H as _ <-; lia|]. destruct n as [|n]; [cbn in H; injection H as _ <-; lia|].
  cbn [read_batches] in H. apply bind_ok in H as [[rows s1] [H1 H]]. apply bind_ok in H as [b [_ H]]. apply bind_ok in H as [[bs s2] [H2 H]].
  injection H as _ <-. apply records_shrink in H1. apply IH in H2. lia.
Qed.
Lemma window_shrinks : forall ty h, shrinks (window ty h).
Proof.
  intros ty h s a r H. destruct ty; cbn in H; try discriminate.
  - injection H as _ <-. lia.
  - apply bind_ok in H as [text [_ H]]. apply bind_ok in H as [sch [_ H]]. unfold decode_avro in H. apply bind_ok in H as [[n s1] [H1 H]].
    destruct (negb _); [discriminate|]. apply bind_ok in H as [[m s2] [H2 H]]. apply bind_ok in H as [u [_ H]].
    apply u32_shrinks in H1. apply u32_shrinks in H2. apply batches_shrink in H. lia.
  - apply bind_ok in H as [bs [_ H]]. injection H as _ <-. cbn. lia.
Qed.
Lemma content_shrinks : forall v f ty h, shrinks (content v f ty h).
Proof.
  intros v f ty h s a r H. unfold decode_content in H. apply bind_ok in H as [[n s1] [H1 H]].
  assert (String.length s1 <= String.length s)%nat by (destruct (has_content_length v); [now apply u64_shrinks in H1|injection H1 as _ <-; lia]).
  destruct (split_at n s1) as [w af] eqn:E. apply split_at_len in E. apply bind_ok in H as [[bs u] [H2 H]]. injection H as _ <-.
  apply window_shrinks in H2. rewrite length_app_s. lia.
Qed.
Lemma body_shrinks : forall range tz, shrinks (body range tz).
Proof.
  intros range tz s a r H. unfold read_block_body in H.
  apply bind_ok in H as [[n s1] [H1 H]]. apply bind_ok in H as [[vn s2] [H2 H]]. apply bind_ok in H as [v [_ H]].
  apply bind_ok in H as [[ty s3] [H3 H]]. apply bind_ok in H as [[h s4] [H4 H]]. apply bind_ok in H as [sk [_ H]]. apply bind_ok in H as [[bs s5] [H5 H]].
  apply bind_ok in H as [[ft s6] [H6 H]]. apply bind_ok in H as [[tt' s7] [H7 H]]. injection H as _ <-.
  apply u64_shrinks in H1. apply u32_shrinks in H2. apply metadata_shrinks in H4. apply content_shrinks in H5. apply metadata_shrinks in H6.
  assert (String.length s3 <= String.length s2)%nat.
  { unfold read_block_type in H3. destruct (negb _); [discriminate|]. apply bind_ok in H3 as [[n' s'] [H3 H8]]. apply bind_ok in H8 as [t' [_ H8]]. injection H8 as _ <-. now apply u32_shrinks in H3. }
  assert (String.length s7 <= String.length s6)%nat by (destruct (has_total_log_block_length v); [now apply u64_shrinks in H7|injection H7 as _ <-; lia]).
  lia.
Qed.
Lemma next_shrinks : forall range tz s b r, next range tz s = Ok (Some (b, r)) -> (String.length r < String.length s)%nat.
Proof.
  intros range tz s b r H. unfold read_next_block in H. apply bind_ok in H as [[m s1] [H1 H]]. destruct m; [|discriminate].
  apply bind_ok in H as [x [H2 H]]. injection H as ->. apply body_shrinks in H2. unfold read_magic in H1.
  destruct (read_exact 6 s) as [[mg s2]|e|] eqn:E; [|discriminate|discriminate]. destruct (String.eqb_spec mg MAGIC); [|discriminate]. injection H1 as <-. subst.
  apply read_exact_len in E. cbn in E. lia.
Qed.
Lemma loop_ends : forall range tz n s, (String.length s <= n)%nat -> exists r, forall fuel, (n < fuel)%nat -> loop range tz fuel s = Some r.
Proof.
  intros range tz. induction n as [n IH] using (well_founded_induction lt_wf). intros s H.
  destruct (next range tz s) as [[[b s']|]|e|] eqn:E.
  - assert (L := next_shrinks _ _ _ _ _ E). destruct (IH (String.length s') ltac:(lia) s' (le_n _)) as [r Hr].
    exists (match r with Ok bs => Ok (if lb_skipped b then bs else b :: bs) | o => o end). intros [|f] Hf; [lia|]. cbn [read_loop]. rewrite E, Hr by lia. now destruct r.
  - exists (Ok []). intros [|f] Hf; [lia|]. cbn [read_loop]. now rewrite E.
  - exists (Err e). intros [|f] Hf; [lia|]. cbn [read_loop]. now rewrite E.
  - exists Panic. intros [|f] Hf; [lia|]. cbn [read_loop]. now rewrite E.
Qed.
Lemma reading_terminates : forall range tz s, exists result, read_all range tz s = result /\ forall fuel, (String.length s < fuel)%nat -> loop range tz fuel s = Some result.
Proof.
  intros range tz s. destruct (loop_ends range tz (String.length s) s (le_n _)) as [r H]. exists r. split; [|exact H].
  unfold read_all_blocks. rewrite H by lia. reflexivity.
Qed.
End Log.
