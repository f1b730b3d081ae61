(** Lemmas for C91: which steps of a reader can panic. *)
From Verif Require Import Base Str M_Utf8 M_Time M_Instant M_Timeline M_FileGroup M_Builder M_Listing M_Expr M_Log M_Config M_Reader M_Table M_Storage M_Objects
  S_Log S_Reader S_Robust L_Base L_Str L_Log L_Reader.
From Verif Require Import L_Timeline L_Config S_Config L_Records.
Local Open Scope string_scope.

Lemma bind_np : forall A B (o : outcome A) (f : A -> outcome B), o <> Panic -> (forall a, o = Ok a -> f a <> Panic) -> bind o f <> Panic.
Proof. intros A B [a|e|] f H1 H2; cbn [bind]; [now apply H2|discriminate|now elim H1]. Qed.
Lemma ok_or_np : forall A (o : option A) e, ok_or o e <> Panic.
Proof. intros A [a|] e; discriminate. Qed.
Lemma mapM_np : forall A B (f : A -> outcome B) l, (forall x, In x l -> f x <> Panic) -> mapM f l <> Panic.
Proof.
  intros A B f l. induction l as [|x l IH]; intros H; cbn; [discriminate|]. apply bind_np; [apply H; now left|]. intros y _. apply bind_np; [apply IH; intros; apply H; now right|]. intros. discriminate.
Qed.
Lemma foldM_np : forall A S (f : S -> A -> outcome S) l s, (forall s x, In x l -> f s x <> Panic) -> foldM f s l <> Panic.
Proof. intros A S f l. induction l as [|x l IH]; intros s H; cbn; [discriminate|]. apply bind_np; [apply H; now left|]. intros y _. apply IH. intros. apply H. now right. Qed.
Ltac np := repeat first [apply bind_np; [|intros ? ?]|apply ok_or_np|discriminate].

Ltac posd := repeat match goal with p : positive |- _ => destruct p; try discriminate end.

(** ** Log files *)
Definition tail_of (r s : string) : Prop := exists a, s = a ++ r.
Lemma tail_refl : forall s, tail_of s s.
Proof. intros s. now exists "". Qed.
Lemma tail_trans : forall a b c, tail_of a b -> tail_of b c -> tail_of a c.
Proof. intros a b c [x ->] [y ->]. exists (y ++ x). now rewrite app_assoc_s. Qed.
Lemma tail_app : forall a b r, tail_of a b -> tail_of (a ++ r) (b ++ r).
Proof. intros a b r [x ->]. exists x. now rewrite app_assoc_s. Qed.
Lemma within_tail : forall x r s, tail_of r s -> within x r -> within x s.
Proof. intros x r s [y ->] [a [b ->]]. exists (y ++ a), b. now rewrite app_assoc_s. Qed.
Lemma split_at_app : forall n s a b, split_at n s = (a, b) -> s = a ++ b.
Proof. intros n s a b H. unfold split_at in H. destruct (_ <=? n)%N; injection H as <- <-; [now rewrite app_nil_r_s|now rewrite take_drop]. Qed.
Lemma read_exact_parts : forall n s a b, read_exact n s = Ok (a, b) -> s = a ++ b /\ len a = n.
Proof.
  intros n s a b H. unfold read_exact in H. destruct (N.ltb_spec (N.of_nat (String.length s)) n) as [|G]; [discriminate|]. injection H as H. split; [now apply split_at_app in H|].
  unfold split_at in H. destruct (N.leb_spec (N.of_nat (String.length s)) n); injection H as <- <-; unfold len; [lia|]. rewrite length_take; lia.
Qed.
Lemma big_be : forall s k, String.length s = k -> big_endian k (be s) = s.
Proof.
  assert (X : forall k s acc, String.length s = k -> big_endian k (be_acc acc s) = s).
  { intros k. induction k as [|k IH]; intros s acc L; [destruct s; [reflexivity|discriminate]|].
    assert (exists s' c, s = s' ++ String c "" /\ String.length s' = k) as [s' [c [-> L']]].
    { exists (take k s). destruct (drop k s) as [|c [|]] eqn:D.
      - exfalso. assert (Y := length_drop k s). rewrite D in Y. cbn in Y. lia.
      - exists c. split; [now rewrite <- D, take_drop|apply length_take; lia].
      - exfalso. assert (Y := length_drop k s). rewrite D in Y. cbn in Y. lia. }
    cbn [big_endian]. rewrite L_Log.be_app. cbn [be_acc]. rewrite N.add_comm, N.div_add, N.mod_add, N.div_small, N.mod_small, N.add_0_l, IH, ascii_N_embedding by (try lia; try exact L'; apply N_ascii_bounded). reflexivity. }
  intros s k. apply X.
Qed.
Lemma u32_parts : forall s n r, read_u32 s = Ok (n, r) -> s = big_endian 4 n ++ r.
Proof. intros s n r H. unfold read_u32 in H. apply bind_ok in H as [[a b] [H E]]. injection E as <- <-. apply read_exact_parts in H as [-> L]. rewrite big_be; [reflexivity|]. unfold len in L. lia. Qed.
Lemma u32_tail : forall s n r, read_u32 s = Ok (n, r) -> tail_of r s.
Proof. intros s n r H. apply u32_parts in H. now exists (big_endian 4 n). Qed.
Lemma u64_tail : forall s n r, read_u64 s = Ok (n, r) -> tail_of r s.
Proof. intros s n r H. unfold read_u64 in H. apply bind_ok in H as [[a b] [H E]]. injection E as <- <-. apply read_exact_parts in H as [-> L]. now exists a. Qed.
Lemma exact_np : forall n s, read_exact n s <> Panic.
Proof. intros n s. unfold read_exact. destruct (_ <? n)%N; discriminate. Qed.
Lemma u32_np : forall s, read_u32 s <> Panic.
Proof. intros s. unfold read_u32. apply bind_np; [apply exact_np|]. intros [a b] _. discriminate. Qed.
Lemma u64_np : forall s, read_u64 s <> Panic.
Proof. intros s. unfold read_u64. apply bind_np; [apply exact_np|]. intros [a b] _. discriminate. Qed.
Lemma key_np : forall k, meta_key_of k <> Panic.
Proof. intros k. unfold meta_key_of. destruct k; [try discriminate|]; posd. Qed.
Lemma key_is : forall k key, meta_key_of k = Ok key -> key_number key = k.
Proof. intros k key. unfold meta_key_of. destruct k; [intros [= <-]; reflexivity|]; posd; intros [= <-]; reflexivity. Qed.
Lemma entry_np : forall s, read_entry s <> Panic.
Proof.
  intros s. unfold read_entry. apply bind_np; [apply u32_np|]. intros [k s1] _. apply bind_np; [apply key_np|]. intros key _. apply bind_np; [apply u32_np|]. intros [l s2] _.
  apply bind_np; [apply exact_np|]. intros [v s3] _. destruct (utf8_valid v); discriminate.
Qed.
Lemma entry_parts : forall s k v r, read_entry s = Ok (k, v, r) -> s = put_entry (k, v) ++ r.
Proof.
  intros s k v r H. unfold read_entry in H. apply bind_ok in H as [[n s1] [H1 H]]. apply bind_ok in H as [key [H2 H]]. apply bind_ok in H as [[l s2] [H3 H]]. apply bind_ok in H as [[w s3] [H4 H]].
  destruct (utf8_valid w); [|discriminate]. injection H as -> -> ->. apply u32_parts in H1, H3. apply key_is in H2. apply read_exact_parts in H4 as [-> L]. subst s s1 n l.
  unfold put_entry. cbn [fst snd]. now rewrite !app_assoc_s.
Qed.
Lemma entries_np : forall n m s, read_entries n m s <> Panic.
Proof. induction n as [|n IH]; intros m s; cbn; [discriminate|]. apply bind_np; [apply entry_np|]. intros [[k v] s'] _. apply IH. Qed.
Lemma insert_in : forall k v m k' v', In (k', v') (meta_insert k v m) -> (k' = k /\ v' = v) \/ In (k', v') m.
Proof.
  intros k v m. induction m as [|[k0 v0] m IH]; intros k' v' H; cbn in H; [destruct H as [[= <- <-]|[]]; now left|].
  destruct (meta_key_eqb k0 k) eqn:E.
  - destruct H as [[= <- <-]|H]; [|right; now right]. left. split; [|reflexivity]. destruct k0, k; try discriminate E; reflexivity.
  - destruct H as [[= <- <-]|H]; [right; now left|]. destruct (IH _ _ H) as [|]; [now left|right; now right].
Qed.
Lemma be_small : forall s, (be s < 256 ^ len s)%N.
Proof.
  assert (X : forall s acc, (be_acc acc s < (acc + 1) * 256 ^ len s)%N).
  { intros s. induction s as [|c s IH]; intros acc; unfold len; cbn [be_acc String.length]; [cbn; lia|]. eapply N.lt_le_trans; [apply IH|]. unfold len. rewrite Nat2N.inj_succ, N.pow_succ_r'. assert (B := N_ascii_bounded c). nia. }
  intros s. specialize (X s 0%N). unfold be. lia.
Qed.
Lemma u32_small : forall s n r, read_u32 s = Ok (n, r) -> (n < 2 ^ 32)%N.
Proof. intros s n r H. unfold read_u32 in H. apply bind_ok in H as [[a b] [H E]]. injection E as <- <-. apply read_exact_parts in H as [_ L]. assert (X := be_small a). rewrite L in X. exact X. Qed.
Lemma entry_wf : forall s k v r, read_entry s = Ok (k, v, r) -> utf8_valid v = true /\ (len v < 2 ^ 32)%N.
Proof.
  intros s k v r H. unfold read_entry in H. apply bind_ok in H as [[n s1] [H1 H]]. apply bind_ok in H as [key [H2 H]]. apply bind_ok in H as [[l s2] [H3 H]]. apply bind_ok in H as [[w s3] [H4 H]].
  destruct (utf8_valid w) eqn:U; [|discriminate]. injection H as -> -> ->. split; [exact U|]. apply u32_small in H3. apply read_exact_parts in H4 as [_ ->]. exact H3.
Qed.
Definition wf_entries (l : metadata) : Prop := forall k v, In (k, v) l -> utf8_valid v = true /\ (len v < 2 ^ 32)%N.
Lemma entries_hold : forall n m s m' r, read_entries n m s = Ok (m', r) -> exists l, List.length l = n /\ wf_entries l /\ s = glue (map put_entry l) ++ r /\ forall k v, In (k, v) m' -> In (k, v) m \/ In (k, v) l.
Proof.
  induction n as [|n IH]; intros m s m' r H; cbn in H.
  - injection H as <- <-. exists []. split; [reflexivity|]. split; [intros ? ? []|]. split; [reflexivity|]. now left.
  - apply bind_ok in H as [[[k v] s1] [H1 H]]. assert (W := entry_wf _ _ _ _ H1). apply entry_parts in H1. apply IH in H as [l [L [Wl [E H]]]]. exists ((k, v) :: l). split; [cbn; now rewrite L|]. split; [intros k' v' [[= <- <-]|I]; [exact W|now apply (Wl k')]|].
    split; [cbn [map]; unfold glue; cbn [fold_right]; fold (glue (map put_entry l)); rewrite app_assoc_s; congruence|].
    intros k' v' I. destruct (H k' v' I) as [I'|Q]; [|right; now right]. apply insert_in in I' as [[-> ->]|I']; [|now left]. right. now left.
Qed.
Lemma metadata_hold : forall b s m r, read_metadata b s = Ok (m, r) ->
  tail_of r s /\ (b = true -> exists l, (N.of_nat (List.length l) < 2 ^ 32)%N /\ wf_entries l /\ s = put_metadata l ++ r /\ forall k v, In (k, v) m -> In (k, v) l).
Proof.
  intros [] s m r H; cbn in H; [|injection H as <- <-; split; [apply tail_refl|discriminate]]. apply bind_ok in H as [[n s1] [H1 H]]. assert (Sm := u32_small _ _ _ H1). apply u32_parts in H1. apply entries_hold in H as [l [L [W [E H]]]].
  assert (X : s = put_metadata l ++ r) by (unfold put_metadata; rewrite L, N2Nat.id, app_assoc_s; congruence). split; [now exists (put_metadata l)|]. intros _. exists l. split; [rewrite L, N2Nat.id; exact Sm|]. split; [exact W|]. split; [exact X|]. intros k v I. now destruct (H k v I) as [[]|].
Qed.
Lemma metadata_np : forall b s, read_metadata b s <> Panic.
Proof. intros [] s; cbn; [|discriminate]. apply bind_np; [apply u32_np|]. intros [n s1] _. apply entries_np. Qed.
Lemma meta_get_in : forall k m v, meta_get k m = Some v -> In (k, v) m.
Proof.
  intros k m v. induction m as [|[k0 v0] m IH]; cbn; [discriminate|]. destruct (meta_key_eqb k0 k) eqn:E; [|intros H; right; now apply IH]. intros [= <-]. left. f_equal. destruct k0, k; try discriminate E; reflexivity.
Qed.

Lemma parse_np : forall L ts tz, has_time_part ts -> parse_datetime L ts tz <> Panic.
Proof. intros L ts tz H E. apply parse_datetime_panic in E. unfold has_time_part in H. congruence. Qed.
Definition bounds_ok (range : instant_range) : Prop := (forall ts, r_start range = Some ts -> has_time_part ts) /\ (forall ts, r_end range = Some ts -> has_time_part ts).
Lemma traverse_np : forall L tz o, (forall ts, o = Some ts -> has_time_part ts) -> opt_traverse (fun ts => parse_datetime L ts tz) o <> Panic.
Proof. intros L tz [ts|] H; cbn; [|discriminate]. apply bind_np; [apply parse_np; now apply H|]. intros; discriminate. Qed.
Lemma in_range_np : forall L range ts tz, bounds_ok range -> has_time_part ts -> is_in_range L range ts tz <> Panic.
Proof.
  intros L range ts tz [B1 B2] H. unfold is_in_range. apply bind_np; [now apply parse_np|]. intros t _. unfold range_start. apply bind_np; [now apply traverse_np|]. intros s _.
  destruct (match s with Some s0 => _ | None => false end); [discriminate|]. unfold range_end. apply bind_np; [now apply traverse_np|]. intros e _. destruct (match e with Some e0 => _ | None => false end); discriminate.
Qed.

Section Logs.
Variable avro_schema avro_value : Type.
Variable parse_schema : string -> option avro_schema.
Variable datum : avro_schema -> string -> option (avro_value * string).
Variable check_schema : avro_schema -> outcome unit.
Variable to_batch : avro_schema -> list avro_value -> outcome record_batch.
Variable parquet : string -> option (list record_batch).
Variable local_to_utc : ndt -> option ndt.
Hypothesis datum_tail : forall sch s v r, datum sch s = Some (v, r) -> exists a, s = a ++ r.
Notation calm := (calm avro_schema avro_value parse_schema datum check_schema to_batch).
Notation next := (read_next_block avro_schema avro_value record_batch parse_schema datum check_schema to_batch parquet local_to_utc).
Notation body := (read_block_body avro_schema avro_value record_batch parse_schema datum check_schema to_batch parquet local_to_utc).
Notation window := (decode_window avro_schema avro_value record_batch parse_schema datum check_schema to_batch parquet).
Notation content := (decode_content avro_schema avro_value record_batch parse_schema datum check_schema to_batch parquet).
Notation record := (read_record avro_schema avro_value datum).
Notation records := (read_records avro_schema avro_value datum).
Notation batches := (read_batches avro_schema avro_value record_batch datum to_batch).
Notation loop := (read_loop avro_schema avro_value record_batch parse_schema datum check_schema to_batch parquet local_to_utc).
Notation read_all := (read_all_blocks avro_schema avro_value record_batch parse_schema datum check_schema to_batch parquet local_to_utc).

Lemma header_tail : forall h r s, tail_of r s -> holds_header h r -> holds_header h s.
Proof. intros h r s T [X [Y [a [b [c [A [B [D W]]]]]]]]. split; [exact X|]. split; [exact Y|]. exists a, b, c. repeat split; trivial. now apply within_tail with r. Qed.
Lemma calm_tail : forall r s, tail_of r s -> calm s -> calm r.
Proof. intros r s T C h H. apply C. now apply header_tail with r. Qed.
Lemma record_np : forall sch s, record sch s <> Panic.
Proof. intros sch s. unfold read_record. apply bind_np; [apply u32_np|]. intros [l s1] _. destruct (split_at l s1). apply bind_np; [apply ok_or_np|]. intros [v u] _. discriminate. Qed.
Lemma record_tail : forall sch s v r, record sch s = Ok (v, r) -> tail_of r s.
Proof.
  intros sch s v r H. unfold read_record in H. apply bind_ok in H as [[l s1] [H1 H]]. destruct (split_at l s1) as [w a] eqn:Sp. apply bind_ok in H as [[v' u] [H2 H]]. injection H as -> <-.
  apply ok_or_ok in H2. apply datum_tail in H2. apply u32_tail in H1. apply split_at_app in Sp. subst s1. apply tail_trans with (w ++ a); [now apply tail_app|exact H1].
Qed.
Lemma records_np : forall sch n s, records sch n s <> Panic.
Proof. intros sch n. induction n as [|n IH]; intros s; cbn; [discriminate|]. apply bind_np; [apply record_np|]. intros [v s1] _. apply bind_np; [apply IH|]. intros [vs s2] _. discriminate. Qed.
Lemma records_tail : forall sch n s vs r, records sch n s = Ok (vs, r) -> tail_of r s.
Proof.
  intros sch n. induction n as [|n IH]; intros s vs r H; cbn in H; [injection H as <- <-; apply tail_refl|]. apply bind_ok in H as [[v s1] [H1 H]]. apply bind_ok in H as [[vs' s2] [H2 H]]. injection H as <- <-.
  apply record_tail in H1. apply IH in H2. now apply tail_trans with s1.
Qed.
Lemma records_from : forall sch n s vs r, records sch n s = Ok (vs, r) -> forall v, In v vs -> exists bytes rest, datum sch bytes = Some (v, rest).
Proof.
  intros sch n. induction n as [|n IH]; intros s vs r H v I; cbn in H; [injection H as <- <-; destruct I|]. apply bind_ok in H as [[v' s1] [H1 H]]. apply bind_ok in H as [[vs' s2] [H2 H]]. injection H as <- <-.
  destruct I as [ <- |I]; [|now apply (IH _ _ _ H2)]. unfold read_record in H1. apply bind_ok in H1 as [[l s3] [_ H1]]. destruct (split_at l s3) as [w a]. apply bind_ok in H1 as [[v2 u] [H3 H1]]. injection H1 as <- _. apply ok_or_ok in H3. eauto.
Qed.
Lemma batches_np : forall sch fuel n s, (forall vs, (forall v, In v vs -> exists bytes rest, datum sch bytes = Some (v, rest)) -> to_batch sch vs <> Panic) -> batches sch fuel n s <> Panic.
Proof.
  intros sch fuel. induction fuel as [|fuel IH]; intros n s T; cbn [read_batches]; [discriminate|]. destruct n as [|n]; [discriminate|]. cbn zeta. apply bind_np; [apply records_np|]. intros [rows s1] R.
  apply bind_np; [apply T; now apply (records_from _ _ _ _ _ R)|]. intros b _. apply bind_np; [now apply IH|]. intros [bs s2] _. discriminate.
Qed.
Lemma batches_tail : forall sch fuel n s bs r, batches sch fuel n s = Ok (bs, r) -> tail_of r s.
Proof.
  intros sch fuel. induction fuel as [|fuel IH]; intros n s bs r H; cbn [read_batches] in H; [injection H as <- <-; apply tail_refl|]. destruct n as [|n]; [injection H as <- <-; apply tail_refl|]. cbn zeta in H.
  apply bind_ok in H as [[rows s1] [H1 H]]. apply bind_ok in H as [b [H2 H]]. apply bind_ok in H as [[bs' s2] [H3 H]]. injection H as <- <-. apply records_tail in H1. apply IH in H3. now apply tail_trans with s1.
Qed.
Lemma window_np : forall ty header s, (forall text sch, In (Schema, text) header -> parse_schema text = Some sch -> calm_schema avro_schema avro_value datum check_schema to_batch sch) -> window ty header s <> Panic.
Proof.
  intros ty header s H. destruct ty; cbn [decode_window]; try discriminate.
  - apply bind_np; [apply ok_or_np|]. intros text E1. apply ok_or_ok, meta_get_in in E1. apply bind_np; [apply ok_or_np|]. intros sch E2. apply ok_or_ok in E2. destruct (H _ _ E1 E2) as [C T].
    unfold decode_avro. apply bind_np; [apply u32_np|]. intros [v s1] _. destruct (negb _); [discriminate|]. apply bind_np; [apply u32_np|]. intros [n s2] _. apply bind_np; [exact C|]. intros _ _. now apply batches_np.
  - apply bind_np; [apply ok_or_np|]. intros bs _. discriminate.
Qed.
Lemma window_tail : forall ty header s bs r, window ty header s = Ok (bs, r) -> tail_of r s.
Proof.
  intros ty header s bs r H. destruct ty; cbn [decode_window] in H; try discriminate.
  - injection H as <- <-. apply tail_refl.
  - apply bind_ok in H as [text [_ H]]. apply bind_ok in H as [sch [_ H]]. unfold decode_avro in H. apply bind_ok in H as [[v s1] [H1 H]]. destruct (negb _); [discriminate|]. apply bind_ok in H as [[n s2] [H2 H]].
    apply bind_ok in H as [_ [_ H]]. apply batches_tail in H. apply u32_tail in H1, H2. apply tail_trans with s2; [exact H|]. now apply tail_trans with s1.
  - apply bind_ok in H as [bs' [_ H]]. injection H as <- <-. exists s. now rewrite app_nil_r_s.
Qed.
Lemma content_np : forall v n ty header s, (forall text sch, In (Schema, text) header -> parse_schema text = Some sch -> calm_schema avro_schema avro_value datum check_schema to_batch sch) -> content v n ty header s <> Panic.
Proof.
  intros v n ty header s H. unfold decode_content. apply bind_np; [destruct (has_content_length v); [apply u64_np|discriminate]|]. intros [l s1] _. destruct (split_at l s1). apply bind_np; [now apply window_np|]. intros [bs u] _. discriminate.
Qed.
Lemma content_tail : forall v n ty header s bs r, content v n ty header s = Ok (bs, r) -> tail_of r s.
Proof.
  intros v n ty header s bs r H. unfold decode_content in H. apply bind_ok in H as [[l s1] [H1 H]]. destruct (split_at l s1) as [w a] eqn:Sp. apply bind_ok in H as [[bs' u] [H2 H]]. injection H as <- <-.
  apply window_tail in H2. apply split_at_app in Sp. subst s1. apply tail_trans with (w ++ a); [now apply tail_app|]. destruct (has_content_length v); [now apply u64_tail in H1|]. injection H1 as _ <-. apply tail_refl.
Qed.
Lemma type_np : forall v s, read_block_type v s <> Panic.
Proof.
  intros v s. unfold read_block_type. destruct (negb _); [discriminate|]. apply bind_np; [apply u32_np|]. intros [n s1] _. apply bind_np; [|intros; discriminate].
  unfold block_type_of. destruct n; [try discriminate|]; posd.
Qed.
Lemma type_tail : forall v s ty r, read_block_type v s = Ok (ty, r) -> tail_of r s.
Proof. intros v s ty r H. unfold read_block_type in H. destruct (negb _); [discriminate|]. apply bind_ok in H as [[n s1] [H1 H]]. apply bind_ok in H as [t [_ H]]. injection H as _ <-. now apply u32_tail in H1. Qed.
Lemma version_np : forall n, version_of n <> Panic.
Proof. intros n. unfold version_of. destruct n; [try discriminate|]; posd. Qed.
(** the header of a block *)
Lemma body_header : forall s l s1 vn s2 v ty s3 header s4, read_u64 s = Ok (l, s1) -> read_u32 s1 = Ok (vn, s2) -> read_block_type v s2 = Ok (ty, s3) -> read_metadata (has_header v) s3 = Ok (header, s4) ->
  exists hs, holds_header hs ("#HUDI#" ++ s) /\ forall k x, In (k, x) header -> In (k, x) hs.
Proof.
  intros s l s1 vn s2 v ty s3 header s4 H1 H2 H3 H4. apply metadata_hold in H4 as [_ H4].
  unfold read_block_type in H3. destruct (has_block_type v) eqn:Ht; [|discriminate]. cbn [negb] in H3. apply bind_ok in H3 as [[tn s3'] [H3 E3]]. apply bind_ok in E3 as [ty' [_ E3]]. injection E3 as <- <-.
  assert (Hh : has_header v = true) by (destruct v; try discriminate Ht; reflexivity). specialize (H4 Hh) as [hs [Sm [W [E4 In4]]]].
  exists hs. split; [|exact In4]. split; [exact Sm|]. split; [exact W|].
  unfold read_u64 in H1. apply bind_ok in H1 as [[x1 y1] [H1 E1]]. injection E1 as _ <-. apply read_exact_parts in H1 as [E1 L1]. unfold read_u32 in H2, H3. apply bind_ok in H2 as [[x2 y2] [H2 E2]]. injection E2 as _ <-. apply read_exact_parts in H2 as [E2 L2].
  apply bind_ok in H3 as [[x3 y3] [H3 E3]]. injection E3 as _ <-. apply read_exact_parts in H3 as [E3 L3]. exists x1, x2, x3. unfold len in L1, L2, L3. repeat split; [lia|lia|lia|]. exists "", s4. cbn [append]. rewrite !app_assoc_s. congruence.
Qed.
Lemma body_np : forall range tz s, bounds_ok range -> calm ("#HUDI#" ++ s) -> body range tz s <> Panic.
Proof.
  intros range tz s B C. unfold read_block_body. apply bind_np; [apply u64_np|]. intros [l s1] H1. apply bind_np; [apply u32_np|]. intros [vn s2] H2.
  apply bind_np; [apply version_np|]. intros v _. apply bind_np; [apply type_np|]. intros [ty s3] H3. apply bind_np; [apply metadata_np|]. intros [header s4] H4. destruct (body_header _ _ _ _ _ _ _ _ _ _ H1 H2 H3 H4) as [hs [K In4]].
  destruct (C _ K) as [C1 C2]. apply bind_np.
  { unfold should_skip_block. apply bind_np; [apply ok_or_np|]. intros t E. apply ok_or_ok, meta_get_in in E. unfold not_in_range. apply bind_np; [|intros; discriminate]. apply in_range_np; [exact B|]. apply C1. now apply In4. }
  intros skipped _. apply bind_np; [apply content_np; intros text sch I P; apply (C2 text sch); [now apply In4|exact P]|]. intros [bs s5] _. apply bind_np; [apply metadata_np|]. intros [footer s6] _.
  apply bind_np; [destruct (has_total_log_block_length v); [apply u64_np|discriminate]|]. intros [x s7] _. discriminate.
Qed.
(** where batches come from *)
Definition from_bytes (s : string) (b : record_batch) : Prop :=
  (exists header text sch vs, holds_header header s /\ In (Schema, text) header /\ parse_schema text = Some sch /\ to_batch sch vs = Ok b) \/ exists content bs, parquet content = Some bs /\ In b bs.
Lemma from_tail : forall r s b, tail_of r s -> from_bytes r b -> from_bytes s b.
Proof. intros r s b T [[h [t [sch [vs [H R]]]]]|H]; [left; exists h, t, sch, vs; split; [now apply header_tail with r|exact R]|now right]. Qed.
Lemma batches_from : forall sch fuel n s bs r, batches sch fuel n s = Ok (bs, r) -> forall b, In b bs -> exists vs, to_batch sch vs = Ok b.
Proof.
  intros sch fuel. induction fuel as [|fuel IH]; intros n s bs r H b I; cbn [read_batches] in H; [injection H as <- <-; destruct I|]. destruct n as [|n]; [injection H as <- <-; destruct I|]. cbn zeta in H.
  apply bind_ok in H as [[rows s1] [_ H]]. apply bind_ok in H as [b0 [H2 H]]. apply bind_ok in H as [[bs' s2] [H3 H]]. injection H as <- <-. destruct I as [ <- |I]; [eauto|now apply (IH _ _ _ _ H3)].
Qed.
Lemma content_from : forall v n ty header s bs r, content v n ty header s = Ok (bs, r) -> forall b, In b bs ->
  (exists text sch vs, In (Schema, text) header /\ parse_schema text = Some sch /\ to_batch sch vs = Ok b) \/ exists content bs, parquet content = Some bs /\ In b bs.
Proof.
  intros v n ty header s bs r H b I. unfold decode_content in H. apply bind_ok in H as [[l s1] [_ H]]. destruct (split_at l s1) as [w a]. apply bind_ok in H as [[bs' u] [H2 H]]. injection H as <- <-.
  destruct ty; cbn [decode_window] in H2; try discriminate.
  - injection H2 as <- <-. destruct I.
  - apply bind_ok in H2 as [text [T H2]]. apply bind_ok in H2 as [sch [P H2]]. apply ok_or_ok in T, P. apply meta_get_in in T. unfold decode_avro in H2. apply bind_ok in H2 as [[x s2] [_ H2]]. destruct (negb _); [discriminate|]. apply bind_ok in H2 as [[m s3] [_ H2]].
    apply bind_ok in H2 as [[] [_ H2]]. destruct (batches_from _ _ _ _ _ _ H2 b I) as [vs V]. left. exists text, sch, vs. auto.
  - apply bind_ok in H2 as [bs2 [P H2]]. apply ok_or_ok in P. injection H2 as <- <-. right. eauto.
Qed.
Lemma body_from : forall range tz s x r, body range tz s = Ok (x, r) -> forall b, In b (lb_batches x) -> from_bytes ("#HUDI#" ++ s) b.
Proof.
  intros range tz s x r H b I. unfold read_block_body in H. apply bind_ok in H as [[l s1] [H1 H]]. apply bind_ok in H as [[vn s2] [H2 H]]. apply bind_ok in H as [v [_ H]]. apply bind_ok in H as [[ty s3] [H3 H]]. apply bind_ok in H as [[header s4] [H4 H]].
  apply bind_ok in H as [sk [_ H]]. apply bind_ok in H as [[bs s5] [H5 H]]. apply bind_ok in H as [[fo s6] [_ H]]. apply bind_ok in H as [[y s7] [_ H]]. injection H as <- <-. cbn [lb_batches] in I.
  destruct (body_header _ _ _ _ _ _ _ _ _ _ H1 H2 H3 H4) as [hs [K In4]]. destruct (content_from _ _ _ _ _ _ _ H5 b I) as [[text [sch [vs [T R]]]]|R]; [|now right]. left. exists hs, text, sch, vs. split; [exact K|]. split; [now apply In4|exact R].
Qed.
Lemma body_tail : forall range tz s b r, body range tz s = Ok (b, r) -> tail_of r s.
Proof.
  intros range tz s b r H. unfold read_block_body in H. apply bind_ok in H as [[l s1] [H1 H]]. apply bind_ok in H as [[vn s2] [H2 H]]. apply bind_ok in H as [v [_ H]]. apply bind_ok in H as [[ty s3] [H3 H]].
  apply bind_ok in H as [[header s4] [H4 H]]. apply bind_ok in H as [sk [_ H]]. apply bind_ok in H as [[bs s5] [H5 H]]. apply bind_ok in H as [[footer s6] [H6 H]]. apply bind_ok in H as [[x s7] [H7 H]]. injection H as _ <-.
  apply u64_tail in H1. apply u32_tail in H2. apply type_tail in H3. apply metadata_hold in H4 as [H4 _]. apply content_tail in H5. apply metadata_hold in H6 as [H6 _].
  assert (T7 : tail_of s7 s6) by (destruct (has_total_log_block_length v); [now apply u64_tail in H7|injection H7 as _ <-; apply tail_refl]).
  apply tail_trans with s6; [exact T7|]. apply tail_trans with s5; [exact H6|]. apply tail_trans with s4; [exact H5|]. apply tail_trans with s3; [exact H4|]. apply tail_trans with s2; [exact H3|]. now apply tail_trans with s1.
Qed.
Lemma magic_np : forall s, read_magic s <> Panic.
Proof. intros s. unfold read_magic. destruct (read_exact 6 s) as [[m r]|e|]; [destruct (String.eqb m MAGIC)|..]; discriminate. Qed.
Lemma next_np : forall range tz s, bounds_ok range -> calm s -> next range tz s <> Panic.
Proof.
  intros range tz s B C. unfold read_next_block. apply bind_np; [apply magic_np|]. intros [more s1] H. destruct more; [|discriminate]. apply bind_np; [|intros; discriminate]. apply body_np; [exact B|].
  unfold read_magic in H. destruct (read_exact 6 s) as [[m r]|e|] eqn:E; [|discriminate|discriminate]. destruct (String.eqb_spec m MAGIC) as [ -> |]; [|discriminate]. injection H as <-. apply read_exact_parts in E as [-> _]. exact C.
Qed.
Lemma next_tail : forall range tz s b r, next range tz s = Ok (Some (b, r)) -> tail_of r s.
Proof.
  intros range tz s b r H. unfold read_next_block in H. apply bind_ok in H as [[m s1] [H1 H]]. destruct m; [|discriminate]. apply bind_ok in H as [x [H2 H]]. injection H as ->. apply body_tail in H2. unfold read_magic in H1.
  destruct (read_exact 6 s) as [[mg s2]|e|] eqn:E; [|discriminate|discriminate]. destruct (String.eqb mg MAGIC); [|discriminate]. injection H1 as <-. apply read_exact_parts in E as [-> _]. apply tail_trans with s2; [exact H2|now exists mg].
Qed.
Lemma loop_np : forall range tz fuel s, bounds_ok range -> calm s -> loop range tz fuel s <> Some Panic.
Proof.
  intros range tz fuel. induction fuel as [|fuel IH]; intros s B C; cbn [read_loop]; [discriminate|].
  destruct (next range tz s) as [[[b s']|]|e|] eqn:E; try discriminate; [|now elim (next_np range tz s B C)].
  specialize (IH s' B (calm_tail _ _ (next_tail _ _ _ _ _ E) C)). destruct (loop range tz fuel s') as [[bs|e|]|]; try discriminate. now elim IH.
Qed.
Lemma loop_from : forall range tz fuel s blocks, loop range tz fuel s = Some (Ok blocks) -> forall x b, In x blocks -> In b (lb_batches x) -> from_bytes s b.
Proof.
  intros range tz fuel. induction fuel as [|fuel IH]; intros s blocks H x b I J; cbn [read_loop] in H; [discriminate|]. destruct (next range tz s) as [[[x0 s']|]|e|] eqn:E; try discriminate; [|injection H as <-; destruct I].
  destruct (loop range tz fuel s') as [[bs|e|]|] eqn:F; try discriminate. injection H as <-.
  assert (D : x = x0 \/ In x bs) by (destruct (lb_skipped x0); [now right|destruct I as [ <- |I]; auto]). destruct D as [ -> |D].
  - clear F. unfold read_next_block in E. apply bind_ok in E as [[more s1] [M E]]. destruct more; [|discriminate]. apply bind_ok in E as [[y z] [E1 E2]]. injection E2 as <- <-. apply body_from with (b := b) in E1; [|exact J].
    unfold read_magic in M. destruct (read_exact 6 s) as [[m r]|e|] eqn:X; [|discriminate|discriminate]. destruct (String.eqb_spec m MAGIC) as [ -> |]; [|discriminate]. injection M as <-. apply read_exact_parts in X as [-> _]. exact E1.
  - apply from_tail with s'; [now apply (next_tail _ _ _ _ _ E)|now apply (IH _ _ F x)].
Qed.
Lemma read_all_from : forall range tz s blocks, read_all range tz s = Ok blocks -> forall x b, In x blocks -> In b (lb_batches x) -> from_bytes s b.
Proof. intros range tz s blocks H. unfold read_all_blocks in H. destruct (loop _ _ _ _) as [r|] eqn:E; [subst r|discriminate]. now apply (loop_from _ _ _ _ _ E). Qed.
Lemma read_all_np : forall range tz s, bounds_ok range -> calm s -> read_all range tz s <> Panic.
Proof.
  intros range tz s B C. destruct (reading_terminates avro_schema avro_value record_batch parse_schema datum check_schema to_batch parquet local_to_utc) with (range := range) (tz := tz) (s := s) as [r [E X]].
  { intros sch x v y D. apply datum_tail in D as [a ->]. rewrite length_app_s. lia. }
  intros P. apply (loop_np range tz (S (String.length s)) s B C). rewrite X by lia. f_equal. congruence.
Qed.

Notation files := (scan_files avro_schema avro_value record_batch parse_schema datum check_schema to_batch parquet local_to_utc).
Notation scan := (scan avro_schema avro_value record_batch parse_schema datum check_schema to_batch parquet local_to_utc).
Lemma files_np : forall fetch range tz paths, bounds_ok range -> (forall p, In p paths -> fetch p <> Panic /\ forall s, fetch p = Ok s -> calm s) -> files fetch range tz paths <> Panic.
Proof.
  intros fetch range tz paths B. induction paths as [|p paths IH]; intros H; cbn [scan_files]; [discriminate|]. destruct (H p (or_introl eq_refl)) as [H1 H2]. apply bind_np; [exact H1|]. intros s E.
  apply bind_np; [apply read_all_np; [exact B|now apply H2]|]. intros blocks _. apply bind_np; [apply mapM_np; intros b _; unfold target_instant_time; destruct (negb _); [discriminate|apply ok_or_np]|].
  intros targets _. apply bind_np; [apply IH; intros q I; apply H; now right|]. intros [rest more] _. discriminate.
Qed.
Lemma valid_np : forall targets blocks, valid_batches record_batch targets blocks <> Panic.
Proof. intros targets blocks. induction blocks as [|b r IH]; cbn [valid_batches]; [discriminate|]. apply bind_np; [apply ok_or_np|]. intros t _. apply bind_np; [exact IH|]. intros; discriminate. Qed.
Lemma scan_np : forall fetch range tz paths, bounds_ok range -> (forall p, In p paths -> fetch p <> Panic /\ forall s, fetch p = Ok s -> calm s) -> scan fetch range tz paths <> Panic.
Proof. intros fetch range tz paths B H. unfold M_Log.scan. apply bind_np; [now apply files_np|]. intros [all targets] _. apply valid_np. Qed.
End Logs.

(** ** Merging *)
Lemma columns_np : forall batches n i, (forall b, In b batches -> (n + i <= List.length (rb_fields b))%nat) -> concat_columns n i batches <> Panic.
Proof.
  intros batches n. induction n as [|n IH]; intros i H; cbn [concat_columns]; [discriminate|]. apply bind_np.
  - apply mapM_np. intros b I. specialize (H b I). unfold type_of. destruct (nth_error (rb_fields b) i) eqn:E; [discriminate|]. apply nth_error_None in E. lia.
  - intros types _. apply bind_np; [destruct types as [|t r]; [discriminate|]; destruct (forallb _ r); discriminate|]. intros t _. apply bind_np; [|intros; discriminate]. apply IH. intros b I. specialize (H b I). lia.
Qed.
Lemma concat_np : forall sch batches, (forall b, In b batches -> (List.length sch <= List.length (rb_fields b))%nat) -> concat_batches sch batches <> Panic.
Proof.
  intros sch batches H. unfold concat_batches. destruct batches as [|b r] eqn:E; [discriminate|]. rewrite <- E in *. clear E. apply bind_np; [apply columns_np; intros x I; specialize (H x I); lia|]. intros types _. destruct (_ && _); discriminate.
Qed.
Lemma concat_fields : forall sch batches out, concat_batches sch batches = Ok out -> rb_fields out = sch.
Proof. intros sch batches out H. unfold concat_batches in H. destruct batches; [now injection H as <-|]. apply bind_ok in H as [types [_ H]]. destruct (_ && _); [|discriminate]. now injection H as <-. Qed.
Lemma index_np : forall fields name, index_of fields name <> Panic.
Proof. intros fields name. induction fields as [|f r IH]; cbn [index_of]; [discriminate|]. destruct (String.eqb _ _); [discriminate|]. apply bind_np; [exact IH|]. intros; discriminate. Qed.
Lemma index_type : forall fields name i, index_of fields name = Ok i -> exists f, nth_error fields i = Some f /\ f_name f = name.
Proof.
  intros fields name. induction fields as [|f r IH]; intros i H; cbn [index_of] in H; [discriminate|]. destruct (String.eqb_spec (f_name f) name); [injection H as <-; now exists f|].
  apply bind_ok in H as [j [H E]]. injection E as <-. now apply IH.
Qed.
Lemma merge_np : forall sort iter m sch batches,
  (forall b, In b batches -> (List.length sch <= List.length (rb_fields b))%nat) ->
  (forall f, In f sch -> f_name f = "_hoodie_commit_seqno" \/ oget "hoodie.table.precombine.field" m = Some (f_name f) -> f_type f <> TMap) ->
  merge_record_batches sort iter m sch batches <> Panic.
Proof.
  intros sort iter m sch batches H F. unfold merge_record_batches. destruct batches as [|b r] eqn:E; [discriminate|]. rewrite <- E in *. clear E.
  destruct (lookups_ok m) as [_ [_ [_ [_ [_ [_ [_ [_ [_ [_ [[s S] P]]]]]]]]]]]. rewrite S. cbn [bind]. destruct (String.eqb s "append_only"); [now apply concat_np|]. apply bind_np; [now apply concat_np|]. intros all A. apply concat_fields in A.
  destruct (rb_rows all) as [|r0 rows] eqn:R; [discriminate|]. rewrite <- R. clear R. apply bind_np; [exact P|]. intros pre Pr. apply bind_np; [apply index_np|]. intros p Ip. apply bind_np; [apply index_np|]. intros q Iq.
  apply bind_np.
  - unfold lexsort_to_indices. rewrite A in *. apply index_type in Ip as [f1 [N1 E1]]. apply index_type in Iq as [f2 [N2 E2]]. unfold type_of. rewrite N1, N2. cbn [option_map forallb].
    assert (Tn : forall f, In f sch -> f_name f = "_hoodie_commit_seqno" \/ oget "hoodie.table.precombine.field" m = Some (f_name f) -> sortable (Some (f_type f)) = true).
    { intros f I J. specialize (F f I J). cbn. destruct (f_type f); try reflexivity. now elim F. }
    rewrite (Tn f1), (Tn f2); [discriminate|now apply nth_error_In in N2|now left|now apply nth_error_In in N1|]. right. rewrite E1. unfold precombine_field in Pr. apply bind_ok in Pr as [v [V Pr]].
    change (table_value PrecombineField m) with (as_string m "hoodie.table.precombine.field") in V. unfold as_string in V. apply bind_ok in V as [w [W V]]. injection V as <-. injection Pr as <-. now apply ok_or_ok in W.
  - intros sorted _. apply bind_np; [apply index_np|]. intros k _. destruct (match type_of _ k with Some TUtf8 => true | _ => false end); discriminate.
Qed.
Lemma create_mask_np : forall m records, create_mask m records <> Panic.
Proof.
  intros m records. unfold create_mask. destruct (lookups_ok m) as [_ [_ [_ [_ [_ [_ [[b B] [[st S] [[en E] _]]]]]]]]]. rewrite B, S, E. cbn [bind]. destruct (negb b); [discriminate|]. destruct st as [st|]; [|discriminate].
  assert (Fn : forall op v, commit_time_filter op v <> Panic).
  { intros op v. unfold commit_time_filter. apply bind_np; [unfold filter_of_tuple; apply bind_np; [|intros; discriminate]|].
    - unfold op_from_str. destruct (find _ _) as [[? ?]|]; discriminate.
    - intros f _. unfold schemable_of. apply bind_np; [apply ok_or_np|]. intros [n ty] _. apply bind_np; [apply ok_or_np|]. intros; discriminate. }
  assert (Mn : forall filters mask, mask_of records filters mask <> Panic).
  { intros filters. induction filters as [|f r IH]; intros mask; cbn [mask_of]; [discriminate|]. apply bind_np; [destruct (index_of _ _); discriminate|]. intros i _. apply bind_np; [|intros; apply IH].
    unfold compare_column. destruct (type_of _ i) as [[]|]; try discriminate. apply mapM_np. intros c _. destruct c; try discriminate; (apply bind_np; [unfold apply_comparison; destruct (cmp_text _ _); discriminate|intros; discriminate]). }
  apply bind_np; [apply Fn|]. intros f _. apply bind_np; [destruct en; [apply bind_np; [apply Fn|intros; discriminate]|discriminate]|]. intros g _. apply bind_np; [apply Mn|]. intros; discriminate.
Qed.
Lemma base_np : forall rp m path, rp path <> Panic -> read_base_file rp m path <> Panic.
Proof.
  intros rp m path H. unfold read_base_file. apply bind_np; [destruct (rp path); [discriminate|discriminate|now elim H]|]. intros records _. apply bind_np; [apply create_mask_np|]. intros; discriminate.
Qed.
Lemma base_fields : forall rp m path out, read_base_file rp m path = Ok out -> exists records, rp path = Ok records /\ rb_fields out = rb_fields records.
Proof.
  intros rp m path out H. unfold read_base_file in H. apply bind_ok in H as [records [H1 H]]. apply bind_ok in H as [mask [_ H]]. injection H as <-. exists records. split; [destruct (rp path); [exact H1|discriminate|discriminate]|now destruct mask].
Qed.

(** ** Names and metadata *)
Lemma parse_base_np : forall name, parse_base_name name <> Panic.
Proof. intros name. unfold parse_base_name. apply bind_np; [apply ok_or_np|]. intros [stem ext] _. cbn zeta. np. Qed.
Lemma parse_log_np : forall name, parse_log_name name <> Panic.
Proof.
  intros name. unfold parse_log_name. destruct name as [|c r]; [discriminate|]. destruct (Ascii.eqb_spec c "."%char) as [ -> |N].
  - apply bind_np; [apply ok_or_np|]. intros [a b] _. apply bind_np; [apply ok_or_np|]. intros [x y] _. destruct (split "." x) as [|? [|? [|? [|? ?]]]]; try discriminate. destruct (_ || _); discriminate.
  - repeat match goal with |- (match ?x with _ => _ end) <> Panic => is_var x; destruct x; try discriminate end. now elim N.
Qed.
Lemma base_file_np : forall name m, base_file_of name m <> Panic.
Proof. intros name m. unfold base_file_of. apply bind_np; [apply parse_base_np|]. intros [[[? ?] ?] ?] _. discriminate. Qed.
Lemma log_file_np : forall name m, log_file_of name m <> Panic.
Proof. intros name m. unfold log_file_of. apply bind_np; [apply parse_log_np|]. intros [[[[? ?] ?] ?] ?] _. discriminate. Qed.
Lemma lift_np : forall r, snd r <> Panic -> lift_mut r <> Panic.
Proof. intros [g [u|e|]] H; [discriminate|discriminate|now elim H]. Qed.
Lemma add_base_np : forall g b, snd (add_base_file g b) <> Panic.
Proof. intros g b. unfold add_base_file. destruct (slices_get _ _); discriminate. Qed.
Lemma add_log_np : forall g b, snd (add_log_file g b) <> Panic.
Proof. intros g b. unfold add_log_file. destruct (slices_get _ _); discriminate. Qed.
Lemma add_each_np : forall A (add : file_group -> A -> file_group * outcome unit) l g, (forall g x, snd (add g x) <> Panic) -> snd (add_each add g l) <> Panic.
Proof.
  intros A add l. induction l as [|x l IH]; intros g H; cbn [add_each]; [discriminate|]. specialize (H g x) as N. destruct (add g x) as [g' [u|e|]]; [now apply IH|discriminate|now elim N].
Qed.
Lemma base_name_np : forall g name, snd (add_base_file_from_name g name) <> Panic.
Proof. intros g name. unfold add_base_file_from_name. destruct (base_file_from_str name) as [b|e|] eqn:E; [apply add_base_np|discriminate|now apply base_file_np in E]. Qed.
Lemma log_name_np : forall g name, snd (add_log_file_from_name g name) <> Panic.
Proof. intros g name. unfold add_log_file_from_name. destruct (log_file_from_str name) as [b|e|] eqn:E; [apply add_log_np|discriminate|now apply log_file_np in E]. Qed.
Lemma merge_group_np : forall g h, snd (merge_group g h) <> Panic.
Proof.
  intros g h. unfold merge_group. destruct (negb _); [discriminate|]. apply add_each_np. clear. intros g [k s]. unfold merge_entry. destruct (slices_get _ _) as [[k' s']|]; [|discriminate]. unfold merge_slice. destruct (negb _); discriminate.
Qed.
Lemma merge_groups_np : forall s l, merge_groups s l <> Panic.
Proof. intros s l. apply foldM_np. intros s' g _. unfold merge_one. destruct (gs_take g s') as [[x r]|]; [|discriminate]. apply bind_np; [apply lift_np, merge_group_np|]. intros; discriminate. Qed.
Lemma stat_np : forall p stat, stat_group p stat <> Panic.
Proof.
  intros p stat. unfold stat_group. apply bind_np; [apply ok_or_np|]. intros id _. cbn zeta. destruct (vget "baseFile" stat).
  - apply bind_np; [apply ok_or_np|]. intros n _. apply bind_np; [apply lift_np, base_name_np|]. intros g _. destruct (vget "logFiles" stat); [|discriminate]. apply bind_np; [apply ok_or_np|]. intros logs _.
    apply foldM_np. intros g' v _. unfold add_log_name. apply bind_np; [apply ok_or_np|]. intros. apply lift_np, log_name_np.
  - apply bind_np; [apply ok_or_np|]. intros path _. apply bind_np; [apply ok_or_np|]. intros. apply lift_np, base_name_np.
Qed.
Lemma build_np : forall md, build_file_groups md <> Panic.
Proof.
  intros md. unfold build_file_groups. apply bind_np; [apply ok_or_np|]. intros parts _. apply foldM_np. intros s e _. unfold build_partition. apply bind_np; [apply ok_or_np|]. intros stats _. apply foldM_np. intros s' v _.
  apply bind_np; [apply stat_np|]. intros; discriminate.
Qed.
Lemma replaced_np : forall md, build_replaced_file_groups md <> Panic.
Proof.
  intros md. unfold build_replaced_file_groups. apply bind_np; [apply ok_or_np|]. intros parts _. apply foldM_np. intros s e _. unfold replaced_partition. apply bind_np; [apply ok_or_np|]. intros ids _. apply foldM_np. intros s' v _.
  apply bind_np; [apply ok_or_np|]. intros; discriminate.
Qed.
Lemma schema_path_np : forall rj commits, (forall p, rj p <> Panic) -> latest_schema_path rj commits <> Panic.
Proof.
  intros rj commits H. unfold latest_schema_path. apply bind_np; [unfold latest_commit_metadata; destruct (last_opt commits); [apply H|discriminate]|]. intros md _. cbn zeta. apply bind_np; [apply ok_or_np|]. intros part _.
  match goal with |- (match ?x with _ => _ end) <> Panic => destruct x end; [|discriminate]. destruct (ends_with _ _); [discriminate|]. apply bind_np; [apply ok_or_np|]. intros; discriminate.
Qed.
Lemma excluded_np : forall L rj tz commits t, (forall p, rj p <> Panic) -> has_time_part t -> get_replaced_file_groups_as_of L rj tz commits t <> Panic.
Proof.
  intros L rj tz commits t H T. unfold get_replaced_file_groups_as_of, completed_replacecommits_in_range, completed_actions_in_range. apply bind_np.
  - apply bind_np; [apply traverse_np; discriminate|]. intros s _. apply bind_np; [apply traverse_np; intros ts E; now injection E as <-|]. intros; discriminate.
  - intros sel _. apply foldM_np. intros s i _. unfold replaced_step. apply bind_np; [apply H|]. intros md _. apply bind_np; [apply replaced_np|]. intros; discriminate.
Qed.
Lemma between_np : forall L rj order tz commits a b, (forall p, rj p <> Panic) -> (forall t, a = Some t -> has_time_part t) -> (forall t, b = Some t -> has_time_part t) ->
  get_file_groups_between L rj order tz commits a b <> Panic.
Proof.
  intros L rj order tz commits a b H Ha Hb. unfold get_file_groups_between, completed_actions_in_range. apply bind_np.
  - apply bind_np; [now apply traverse_np|]. intros s _. apply bind_np; [now apply traverse_np|]. intros; discriminate.
  - intros sel _. apply bind_np; [|intros [x y] _; discriminate]. assert (X : forall l n s r, between_loop rj order n s r l <> Panic); [|apply X]. intros l. induction l as [|i l IH]; intros n s r; cbn [between_loop]; [discriminate|].
    apply bind_np; [apply H|]. intros md _. apply bind_np; [apply build_np|]. intros built _. apply bind_np; [apply merge_groups_np|]. intros fgs _. apply bind_np; [|intros; apply IH]. destruct (is_replacecommit i); [|discriminate]. apply bind_np; [apply replaced_np|]. intros; discriminate.
Qed.

(** ** Listing *)
Section Listings.
Variable list_files : string -> outcome (list file_meta).
Variable list_dirs : string -> outcome (list string).
Variable file_metadata : string -> outcome file_meta.
Hypothesis files_calm : forall p, list_files p <> Panic.
Hypothesis dirs_calm : forall p, list_dirs p <> Panic.
Hypothesis meta_calm : forall p, file_metadata p <> Panic.
Lemma partition_np : forall format order p, list_file_groups_for_partition list_files format order p <> Panic.
Proof.
  intros format order p. unfold list_file_groups_for_partition. apply bind_np; [apply files_calm|]. intros listed _. apply bind_np.
  - apply foldM_np. intros [bases logs] m _. unfold classify_step. destruct (should_exclude_for_listing _); [discriminate|]. destruct (ends_with _ _).
    + apply bind_np; [apply base_file_np|]. intros; discriminate.
    + destruct (log_file_try_from m) eqn:E; try discriminate. now apply log_file_np in E.
  - intros [bases logs] _. apply mapM_np. intros e _. unfold list_group. apply bind_np; [apply lift_np, add_each_np, add_base_np|]. intros g _. apply lift_np, add_each_np, add_log_np.
Qed.
Lemma leaf_np : forall fuel path, get_leaf_dirs list_dirs fuel path <> Some Panic.
Proof.
  induction fuel as [|fuel IH]; intros path; cbn [get_leaf_dirs]; [discriminate|]. specialize (dirs_calm path). destruct (list_dirs path) as [children|e|]; [|discriminate|contradiction].
  destruct children as [|c r]; [discriminate|].
  assert (N := IH (path_join path c)). destruct (get_leaf_dirs list_dirs fuel (path_join path c)) as [[leaves|e|]|]; try discriminate; [|contradiction].
  match goal with |- match ?y with _ => _ end <> _ => assert (M : y <> Some Panic); [|destruct y as [[rest|e|]|]; try discriminate; exact M] end.
  clear N leaves dirs_calm c. induction r as [|x l IHl]; [discriminate|]. assert (N := IH (path_join path x)). destruct (get_leaf_dirs list_dirs fuel (path_join path x)) as [[leaves|e|]|]; try discriminate; [|contradiction].
  match goal with |- match ?y with _ => _ end <> _ => destruct y as [[rest|e|]|] end; try discriminate. now apply IHl.
Qed.
Lemma leaves_np : forall fuel dirs, leaf_dirs_of list_dirs fuel dirs <> Some Panic.
Proof.
  intros fuel dirs. induction dirs as [|d r IH]; cbn [leaf_dirs_of]; [discriminate|]. specialize (leaf_np fuel d) as N. destruct (get_leaf_dirs list_dirs fuel d) as [[leaves|e|]|]; try discriminate; [|contradiction].
  destruct (leaf_dirs_of list_dirs fuel r) as [[rest|e|]|]; try discriminate. exact IH.
Qed.
Lemma paths_np : forall fuel p e include, list_relevant_partition_paths list_dirs fuel p e include <> Some Panic.
Proof.
  intros fuel p e include. unfold list_relevant_partition_paths. destruct (negb p); [discriminate|]. specialize (dirs_calm "") as N. destruct (list_dirs "") as [tops|er|]; [|discriminate|contradiction].
  match goal with |- context [leaf_dirs_of list_dirs fuel ?x] => specialize (leaves_np fuel x) as M; destruct (leaf_dirs_of list_dirs fuel x) as [[paths|er|]|] end; try discriminate; [destruct (_ || e); discriminate|contradiction].
Qed.
Lemma par_np : forall V (work : string -> outcome V) n, (forall p, work p <> Panic) -> forall s s', star (par_step work n) s s' -> s' = Failed None -> s = Failed None.
Proof.
  intros V work n H s s' P. induction P as [|x y z S P IH]; intros E; [exact E|]. specialize (IH E). subst y. inversion S; subst. match goal with X : work _ = Panic |- _ => now apply H in X end.
Qed.
Lemma load_np : forall format partitioned n order q, ~ load_listing list_files list_dirs format partitioned n order q Panic.
Proof.
  intros format partitioned n order q H. inversion H as [P E|fuel e P E|fuel P E|fuel paths done P E S|fuel paths e P E S R]; subst.
  - destruct (list_file_groups_for_partition _ _ _ _) eqn:X; try discriminate. now apply partition_np in X.
  - now apply paths_np in E.
  - destruct e as [e|]; [discriminate|]. apply par_np in S; [discriminate|apply partition_np|reflexivity].
Qed.
Lemma load_meta_np : forall s, load_metadata_if_needed file_metadata s <> Panic.
Proof.
  intros s. unfold load_metadata_if_needed. cbn zeta. assert (N : (let* m := file_metadata (base_relative_path s) in Ok (with_base s (set_meta (fs_base s) m))) <> Panic) by (apply bind_np; [apply meta_calm|discriminate]).
  destruct (bf_meta (fs_base s)) as [m|]; [destruct (fm_populated m); [discriminate|]|]; exact N.
Qed.
Lemma collect_groups_np : forall t ex l, snd (collect_groups file_metadata t ex l) <> Panic.
Proof.
  intros t ex l. induction l as [|g r IH]; cbn [collect_groups]; [discriminate|]. destruct (collect_groups file_metadata t ex r) as [r' o]. cbn [snd] in IH. destruct (gs_mem g ex); [exact IH|]. destruct (entry_as_of g t) as [[k s]|]; [|exact IH].
  destruct (load_metadata_if_needed file_metadata s) eqn:E; [|discriminate|now apply load_meta_np in E]. cbn [snd]. apply bind_np; [exact IH|]. intros; discriminate.
Qed.
Lemma collect_np : forall t include ex c, snd (collect file_metadata t include ex c) <> Panic.
Proof.
  intros t include ex c. induction c as [|[p gs] r IH]; cbn [collect]; [discriminate|]. destruct (collect file_metadata t include ex r) as [r' o]. cbn [snd] in IH. destruct (include p); [|exact IH].
  specialize (collect_groups_np t ex gs) as N. destruct (collect_groups file_metadata t ex gs) as [gs' [ss|e|]]; [|discriminate|contradiction]. cbn [snd]. apply bind_np; [exact IH|]. intros; discriminate.
Qed.
Lemma view_np : forall format partitioned n c q c', ~ view_query list_files list_dirs file_metadata format partitioned n c q c' Panic.
Proof.
  intros format partitioned n c q c' H. inversion H as [order c0 q0 listed c1 c2 r P L Pc E|order c0 q0 e P L|order c0 q0 P L]; subst; [|now apply load_np in L].
  specialize (collect_np (q_time q) (q_include q) (q_excluded q) c1) as N. rewrite E in N. now apply N.
Qed.
End Listings.

(** ** Queries *)
Section Queries.
Variable dtype value : Type.
Variable cast : dtype -> string -> option value.
Variable cmp : value -> value -> option comparison.
Variable avro_schema avro_value : Type.
Variable parse_schema : string -> option avro_schema.
Variable datum : avro_schema -> string -> option (avro_value * string).
Variable check_schema : avro_schema -> outcome unit.
Variable to_batch : avro_schema -> list avro_value -> outcome record_batch.
Variable parquet : string -> option (list record_batch).
Variable local_to_utc : ndt -> option ndt.
Hypothesis datum_tail : forall sch s v r, datum sch s = Some (v, r) -> exists a, s = a ++ r.
Variable st : store dtype.
Hypothesis ST : calm_store dtype st.
Variable tb : table.
Notation logged := (logged_batch dtype st avro_schema avro_value parse_schema to_batch parquet).

Lemma plan_np : forall t filters, hive_flag tb <> Panic -> url_flag tb <> Panic -> has_time_part t -> plan dtype value cast cmp local_to_utc st tb t filters <> Panic.
Proof.
  intros t filters Hf Uf T. unfold plan. destruct (lookups_ok (t_configs tb)) as [_ [[z Z] [[fs F] _]]]. rewrite Z. cbn [bind]. apply bind_np; [apply excluded_np; [apply (cs_json _ _ ST)|exact T]|]. intros ex _.
  apply bind_np. { unfold get_partition_schema. rewrite F. cbn [bind]. apply bind_np; [apply schema_path_np, (cs_json _ _ ST)|]. intros path _. apply bind_np; [apply (cs_schema _ _ ST)|]. intros; discriminate. }
  intros ps _. apply bind_np; [|intros; discriminate]. unfold new_pruner. apply bind_np.
  - apply mapM_np. intros f _. unfold schemable_of. apply bind_np; [apply ok_or_np|]. intros [n ty] _. apply bind_np; [apply ok_or_np|]. intros; discriminate.
  - intros sf _. apply bind_np; [exact Hf|]. intros h _. apply bind_np; [exact Uf|]. intros; discriminate.
Qed.
Lemma tuples_np : forall fs, from_str_tuples fs <> Panic.
Proof.
  intros fs. unfold from_str_tuples. apply mapM_np. intros f _. unfold filter_of_tuple. destruct f as [[a b] c]. apply bind_np; [unfold op_from_str; destruct (find _ _) as [[? ?]|]; discriminate|]. intros; discriminate.
Qed.
Lemma slices_np : forall t filters c c', hive_flag tb <> Panic -> url_flag tb <> Panic -> has_time_part t -> ~ get_file_slices_as_of dtype value cast cmp local_to_utc st tb t filters c c' Panic.
Proof.
  intros t filters c c' Hf Uf T H. inversion H as [|c0 c1 fs r F S]; subst. inversion S as [|c0 P|c0 c1 q pa fo n r P _ _ _ V]; subst; [now apply plan_np in P|]. apply view_np in V; [exact V|apply (cs_files _ _ ST)|apply (cs_dirs _ _ ST)|apply (cs_meta _ _ ST)].
Qed.

(** *** Reading *)
Lemma scan_logged : forall range tz paths out bs b, scan avro_schema avro_value record_batch parse_schema datum check_schema to_batch parquet local_to_utc (st_bytes _ st) range tz paths = Ok out -> In bs out -> In b bs -> logged b.
Proof.
  intros range tz paths out bs b H I1 I2. unfold M_Log.scan in H. apply bind_ok in H as [[all targets] [H1 H2]].
  assert (exists block, In block (List.concat all) /\ In b (lb_batches block)) as [block [B1 B2]].
  { clear H1. revert out H2 I1. induction (List.concat all) as [|x r IH]; intros out H2 I1; cbn [valid_batches] in H2; [injection H2 as <-; destruct I1|].
    apply bind_ok in H2 as [t [_ H2]]. apply bind_ok in H2 as [rest [R H2]]. injection H2 as <-.
    assert (In bs rest \/ bs = lb_batches x) as [J|J]. { destruct (existsb _ targets); auto; destruct I1 as [ <- |I1]; auto. }
    - destruct (IH rest R J) as [block [B1 B2]]. exists block. split; [now right|exact B2].
    - exists x. subst bs. split; [now left|exact I2]. }
  clear H2 I1 I2 out bs. revert all targets H1 B1. induction paths as [|p r IH]; intros all targets H1 B1; cbn [scan_files] in H1; [injection H1 as <- <-; destruct B1|].
  apply bind_ok in H1 as [s [S H1]]. apply bind_ok in H1 as [blocks [Bl H1]]. apply bind_ok in H1 as [t1 [_ H1]]. apply bind_ok in H1 as [[rest t2] [R H1]]. injection H1 as <- <-.
  cbn [List.concat] in B1. apply in_app_or in B1 as [B1|B1]; [|now apply (IH rest t2)]. exists p, s. split; [exact S|]. now apply (read_all_from _ _ _ _ _ _ _ _ datum_tail _ _ _ _ Bl block).
Qed.
Lemma slice_np : forall sort iter m slice,
  (forall p s, st_bytes _ st p = Ok s -> calm avro_schema avro_value parse_schema datum check_schema to_batch s) ->
  (forall t, read_start m = Some t -> has_time_part t) -> (forall t, read_end m = Some t -> has_time_part t) ->
  columns_fit dtype st m logged ->
  read_file_slice sort iter (st_parquet _ st) avro_schema avro_value parse_schema datum check_schema to_batch parquet local_to_utc (st_bytes _ st) m slice <> Panic.
Proof.
  intros sort iter m slice C Ts Te F. unfold read_file_slice. cbn zeta. destruct (lookups_ok m) as [_ [[z Z] [_ [_ [_ [_ [_ [_ [_ [[ro R] _]]]]]]]]]]. rewrite R. apply bind_np; [destruct (negb _); discriminate|]. intros bo _.
  destruct bo; [apply base_np, (cs_parquet _ _ ST)|]. apply bind_np; [apply base_np, (cs_parquet _ _ ST)|]. intros base Hb. rewrite (log_range_is _ _ Z), Z. cbn [bind]. apply bind_np.
  - apply scan_np; [exact datum_tail|split; [exact Ts|exact Te]|]. intros p _. split; [apply (cs_bytes _ _ ST)|apply C].
  - intros logs Hl. apply base_fields in Hb as [records [P E]]. destruct (F _ _ P) as [F1 F2]. apply merge_np; rewrite ?E; [|exact F2]. intros b [ <- |I]; [now rewrite E|]. apply in_concat in I as [bs [I1 I2]]. apply F1. now apply (scan_logged _ _ _ _ _ _ Hl I1 I2).
Qed.
Lemma read_slices_np : forall opts ss,
  one_per_key (t_storage tb) -> (forall key v r, In (key, v) (t_storage tb) -> key <> "hoodie." ++ r) ->
  (forall p s, st_bytes _ st p = Ok s -> calm avro_schema avro_value parse_schema datum check_schema to_batch s) ->
  (forall t, first_given [last_value opts "hoodie.read.file_group.start_timestamp"; read_start (t_configs tb)] = Some t -> has_time_part t) ->
  (forall t, first_given [last_value opts "hoodie.read.file_group.end_timestamp"; read_end (t_configs tb)] = Some t -> has_time_part t) ->
  last_value opts "hoodie.table.precombine.field" = None ->
  columns_fit dtype st (t_configs tb) logged ->
  ~ read_slices dtype avro_schema avro_value parse_schema datum check_schema to_batch parquet local_to_utc st tb opts ss Panic.
Proof.
  intros opts ss D N C Ts Te Op F H. inversion H as [|iter P O|iter os r P [O Fo] J]; subst; [now apply (cs_open _ _ ST) in O|]. inversion J as [| |os' I]; subst.
  clear J H O. induction Fo as [|s o ss' os [sort [visit [_ [_ ->]]]] Fo IH]; [destruct I|]. destruct I as [I|I]; [|now apply IH]. revert I. apply slice_np; [exact C|..].
  - intros t. unfold read_start. rewrite (reader_option iter tb opts) by (assumption || reflexivity). apply Ts.
  - intros t. unfold read_end. rewrite (reader_option iter tb opts) by (assumption || reflexivity). apply Te.
  - intros path base Hp. destruct (F path base Hp) as [F1 F2]. split; [exact F1|]. intros f I K. apply F2; [exact I|]. rewrite (reader_option iter tb opts), Op in K by (assumption || reflexivity). cbn [first_given] in K.
    destruct (oget "hoodie.table.precombine.field" (t_configs tb)); exact K.
Qed.
End Queries.
