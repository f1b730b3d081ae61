(** Lemmas for C28: log files that are cut, with a decoder that takes a cut record for another one. *)
From Verif Require Import Base Str L_Str L_Base M_Utf8 M_Time M_Timeline M_Log S_Log L_Log.
Local Open Scope string_scope.

(** No result, or nothing is left. *)
Definition used_up {A} (o : outcome (A * string)) : Prop := match o with Ok (_, r) => r = "" | _ => True end.
Definition no_result {A} (o : outcome A) : Prop := forall x, o <> Ok x.

Section Cut.
Variable avro_schema avro_value batch : Type.
Variable parse_schema : string -> option avro_schema.
Variable datum : avro_schema -> string -> option (avro_value * string).
Variable check_schema : avro_schema -> outcome unit.
Variable to_batch : avro_schema -> list avro_value -> outcome batch.
Variable parquet : string -> option (list batch).
Variable local_to_utc : ndt -> option ndt.
Local Notation record := (read_record avro_schema avro_value datum).
Local Notation records := (read_records avro_schema avro_value datum).
Local Notation batches := (read_batches avro_schema avro_value batch datum to_batch).
Local Notation window := (decode_window avro_schema avro_value batch parse_schema datum check_schema to_batch parquet).
Local Notation body := (read_block_body avro_schema avro_value batch parse_schema datum check_schema to_batch parquet local_to_utc).
Local Notation next := (read_next_block avro_schema avro_value batch parse_schema datum check_schema to_batch parquet local_to_utc).
Local Notation loop := (read_loop avro_schema avro_value batch parse_schema datum check_schema to_batch parquet local_to_utc).
Local Notation read_all := (read_all_blocks avro_schema avro_value batch parse_schema datum check_schema to_batch parquet local_to_utc).
Local Notation wf_block := (wf_block avro_schema avro_value batch parse_schema datum check_schema to_batch parquet).
Local Notation cut_detected := (cut_detected avro_schema avro_value batch parse_schema datum parquet).
Local Notation cut_taken := (cut_taken avro_schema avro_value parse_schema datum).
Local Notation says := (range_says local_to_utc).
Notation wf x := (wf_block (fst x) (snd x)).
Notation shown := (map (fun x : wblock * list batch => block_of batch (fst x) (snd x) false)).

Definition takes (sch : avro_schema) (d : string) : Prop := forall q, strict_prefix q d -> datum sch q = None \/ exists v, datum sch q = Some (v, "").
Lemma record_taken : forall sch d p, (len d < 2 ^ 32)%N -> takes sch d -> strict_prefix p (put_record d) -> used_up (record sch p).
Proof.
  intros sch d p L C H. unfold read_record, put_record in *. apply prefix_app in H as [H|[q [-> H]]]; [now rewrite (read_u32_cut _ _ H)|].
  rewrite read_u32_app by assumption. cbn [bind]. rewrite split_at_short by (apply prefix_len in H; lia). destruct (C q H) as [ -> |[v -> ]]; [exact I|reflexivity].
Qed.
Lemma records_end : forall sch n, (0 < n)%nat -> exists e, records sch n "" = Err e.
Proof. intros sch [|n] H; [lia|]. now exists EIo. Qed.
Lemma records_taken : forall sch ds vs p, Forall (fun d => (len d < 2 ^ 32)%N) ds -> Forall2 (fun d v => datum sch d = Some (v, "")) ds vs ->
  (forall d, In d ds -> takes sch d) -> strict_prefix p (glue (map put_record ds)) -> used_up (records sch (List.length ds) p).
Proof.
  intros sch ds vs p L F. revert p L. induction F as [|d v ds vs H F IH]; intros p L C P; [now apply no_prefix_nil in P|]. inversion L; subst.
  cbn [List.length read_records map glue fold_right] in *. fold (glue (map put_record ds)) in P. apply prefix_app in P as [P|[q [-> P]]].
  - assert (U := record_taken sch d p ltac:(assumption) (C d (or_introl eq_refl)) P). destruct (record sch p) as [[v' r]|e|]; [|exact I|exact I]. cbn in U. subst r. cbn [bind].
    destruct ds as [|d' ds]; [reflexivity|]. destruct (records_end sch (List.length (d' :: ds)) ltac:(cbn; lia)) as [e ->]. exact I.
  - rewrite (record_reads avro_schema avro_value datum sch d v) by assumption. cbn [bind]. assert (U := IH q ltac:(assumption) (fun d' I => C d' (or_intror I)) P).
    destruct (records sch (List.length ds) q) as [[vs' r]|e|]; [|exact I|exact I]. exact U.
Qed.
Lemma batches_end : forall sch fuel n, (n <= fuel)%nat -> used_up (batches sch fuel n "").
Proof.
  intros sch [|fuel] [|n] H; try reflexivity.
Qed.
Lemma batches_from : forall sch fuel n p, (n <= S fuel)%nat -> (0 < n)%nat -> used_up (records sch (Nat.min BATCH_SIZE n) p) -> used_up (batches sch (S fuel) n p).
Proof.
  intros sch fuel n p F N U. destruct n as [|n]; [lia|]. assert (P := batch_pos). cbn [read_batches].
  destruct (records sch (Nat.min BATCH_SIZE (S n)) p) as [[rows r]|e|]; [|exact I|exact I]. cbn in U. subst r. cbn [bind].
  destruct (to_batch sch rows) as [b|e|]; [|exact I|exact I]. cbn [bind].
  assert (E := batches_end sch fuel (S n - Nat.min BATCH_SIZE (S n)) ltac:(lia)).
  destruct (batches sch fuel (S n - Nat.min BATCH_SIZE (S n)) "") as [[bs r]|e|]; [|exact I|exact I]. exact E.
Qed.
Lemma batches_taken : forall sch vs cs, in_chunks BATCH_SIZE vs cs -> forall ds bs fuel p, Forall (fun d => (len d < 2 ^ 32)%N) ds ->
  Forall2 (fun d v => datum sch d = Some (v, "")) ds vs -> Forall2 (fun c b => to_batch sch c = Ok b) cs bs -> (List.length ds <= fuel)%nat ->
  (forall d, In d ds -> takes sch d) -> strict_prefix p (glue (map put_record ds)) -> used_up (batches sch fuel (List.length ds) p).
Proof.
  intros sch vs cs C. induction C as [|l Nl Ll|l rest cs El Nr C IH]; intros ds bs fuel p L F T Fu D P.
  - inversion F; subst. now apply no_prefix_nil in P.
  - assert (X := Forall2_len _ _ _ F).
    assert (0 < List.length ds)%nat by (destruct l; [now elim Nl|cbn in X; lia]). destruct fuel as [|fuel]; [lia|].
    apply batches_from; [lia|assumption|]. replace (Nat.min BATCH_SIZE (List.length ds)) with (List.length ds) by lia. now apply records_taken with l.
  - apply Forall2_app_inv_r in F as [d1 [d2 [F1 [F2 ->]]]]. inversion T as [|? b ? bs' Tb T']; subst. apply Forall_app in L as [L1 L2].
    assert (X1 := Forall2_len _ _ _ F1). assert (X2 := Forall2_len _ _ _ F2). assert (0 < List.length d2)%nat by (destruct rest; [now elim Nr|cbn in X2; lia]).
    rewrite map_app, glue_app in P. rewrite app_length in Fu |- *. assert (Pz : (0 < BATCH_SIZE)%nat) by exact batch_pos.
    destruct fuel as [|fuel]; [lia|]. apply prefix_app in P as [P|[q [-> P]]].
    + apply batches_from; [lia|lia|]. replace (Nat.min BATCH_SIZE (List.length d1 + List.length d2)) with (List.length d1) by lia.
      apply records_taken with l; auto. intros d I. apply D. apply in_or_app. now left.
    + rewrite (batches_step avro_schema avro_value batch datum to_batch sch fuel (List.length d1) _ _ l q b); auto; [|lia|lia|now apply records_read].
      replace (List.length d1 + List.length d2 - List.length d1)%nat with (List.length d2) by lia.
      assert (U := IH d2 bs' fuel q L2 F2 T' ltac:(lia) (fun d I => D d (in_or_app _ _ _ (or_intror I))) P).
      destruct (batches sch fuel (List.length d2) q) as [[bs r]|e|]; [|exact I|exact I]. exact U.
Qed.
Lemma window_taken : forall w bs p, wf_block w bs -> cut_taken w -> strict_prefix p (put_content (w_content w)) -> used_up (window (w_type w) (w_header w) p).
Proof.
  intros w bs p W [_ Cd] H. destruct W as [_ [Dh _] _ _ _ Wr Wh]. unfold w_type. destruct (w_content w) as [|b|ds].
  - now apply no_prefix_nil in H.
  - cbn [decode_window]. destruct (parquet p); [reflexivity|exact I].
  - inversion Wh as [| |? text sch vs cs ? Hs Hp Hc F C T]; subst. destruct (Wr ds eq_refl) as [Ln Ld]. cbn [decode_window put_content] in *.
    rewrite (meta_get_in Schema text) by assumption. cbn [ok_or bind]. rewrite Hp. cbn [ok_or bind]. unfold decode_avro.
    apply prefix_app in H as [H|[q [-> H]]]; [rewrite (read_u32_cut _ _ H); exact I|].
    rewrite read_u32_app by reflexivity. cbn [bind N.eqb Pos.eqb negb].
    apply prefix_app in H as [H|[q' [-> H]]]; [rewrite (read_u32_cut _ _ H); exact I|].
    rewrite read_u32_app by assumption. cbn [bind]. rewrite Hc. cbn [bind]. rewrite Nat2N.id.
    apply (batches_taken sch vs cs C ds bs); auto. intros d Hd q Q. eapply Cd; eauto.
Qed.
Lemma body_taken : forall w bs range tz b p, wf_block w bs -> cut_taken w -> says range tz w b ->
  strict_prefix p (big_endian 8 (len (put_tail w) + (match w_version w with V1 => 8 | _ => 0 end)) ++ put_tail w ++ tail_len w) ->
  no_result (body range tz p).
Proof.
  intros w bs range tz b p W Cd Sy H. assert (Sk := skip_says avro_schema avro_value batch parse_schema datum check_schema to_batch parquet local_to_utc w range tz b bs W Sy).
  assert (Wd := window_reads avro_schema avro_value batch parse_schema datum check_schema to_batch parquet w bs W). assert (Wc := fun q => window_taken w bs q W Cd).
  assert (V := proj1 Cd). destruct W as [Wv Wh [Wf Wf'] Wi Wl Wr _]. unfold read_block_body. intros x.
  apply prefix_app in H as [H|[q [-> H]]]; [rewrite (read_u64_cut _ _ H); discriminate|].
  destruct (read_u64_any (len (put_tail w) + (match w_version w with V1 => 8 | _ => 0 end)) q) as [m ->]. cbn [bind].
  unfold put_tail at 1 in H. rewrite !app_assoc_s in H.
  apply prefix_app in H as [H|[q1 [-> H]]]; [rewrite (read_u32_cut _ _ H); discriminate|]. rewrite read_u32_app by apply version_small. cbn [bind]. rewrite version_back. cbn [bind].
  apply prefix_app in H as [H|[q2 [-> H]]]; [destruct (read_type_cut (w_version w) _ _ H) as [e ->]; discriminate|]. rewrite read_type_app by assumption. cbn [bind].
  assert (has_header (w_version w) = true) as -> by (now rewrite V).
  apply prefix_app in H as [H|[q3 [-> H]]]; [rewrite (metadata_cut _ _ Wh H); discriminate|]. rewrite metadata_reads by assumption. cbn [bind]. rewrite Sk. cbn [bind].
  unfold decode_content. assert (has_content_length (w_version w) = true) as -> by (now rewrite V).
  apply prefix_app in H as [H|[q4 [-> H]]]; [rewrite (read_u64_cut _ _ H); discriminate|]. rewrite read_u64_app by assumption. cbn [bind].
  apply prefix_app in H as [H|[q5 [-> H]]].
  - assert (L := prefix_len _ _ H). rewrite split_at_short by lia. assert (U := Wc q4 H). destruct (window (w_type w) (w_header w) q4) as [[bs' r]|e|]; [|discriminate|discriminate].
    cbn in U. subst r. cbn [bind append]. rewrite V. cbn. discriminate.
  - rewrite split_at_app by reflexivity. rewrite Wd. cbn [bind append]. unfold tail_len in H. rewrite V in *. cbn [has_footer has_total_log_block_length].
    apply prefix_app in H as [H|[q6 [-> H]]]; [rewrite (metadata_cut _ _ Wf H); discriminate|]. rewrite metadata_reads by assumption. cbn [bind].
    rewrite (read_u64_cut _ _ H). discriminate.
Qed.
Lemma next_taken : forall w bs range tz b p, wf_block w bs -> cut_detected w \/ cut_taken w -> says range tz w b -> strict_prefix p (put_block w) ->
  (String.length p < 6)%nat \/ no_result (next range tz p).
Proof.
  intros w bs range tz b p W [Cd|Cd] Sy H.
  - destruct (next_cut avro_schema avro_value batch parse_schema datum check_schema to_batch parquet local_to_utc w bs range tz b p W Cd Sy H) as [[L _]|[e ->]]; [now left|right; intros x; discriminate].
  - rewrite block_shape in H. apply prefix_app in H as [H|[q [-> H]]].
    + left. apply prefix_len in H; unfold len in H; cbn in H; lia.
    + right. unfold read_next_block, read_magic. rewrite (read_exact_app "#HUDI#") by reflexivity.
      change (String.eqb "#HUDI#" MAGIC) with true. cbn [bind]. intros x. assert (N := body_taken w bs range tz b q W Cd Sy H).
      destruct (body range tz q) as [y|e|]; [now elim (N y)|discriminate|discriminate].
Qed.
Lemma loop_taken : forall range tz bl, (forall x, In x bl -> wf x) -> (forall x, In x bl -> cut_detected (fst x) \/ cut_taken (fst x)) ->
  (forall x, In x bl -> exists b, says range tz (fst x) b) ->
  forall p r fuel, p ++ r = put_log (map fst bl) -> (String.length p < fuel)%nat ->
  (exists o, loop range tz fuel p = Some o /\ no_result o)
  \/ exists bl1 bl2 q, bl = (bl1 ++ bl2)%list /\ p = put_log (map fst bl1) ++ q /\ (String.length q < 6)%nat.
Proof.
  intros range tz. induction bl as [|[w bs] bl IH]; intros W C R p r fuel E Fu.
  - right. exists [], [], "". destruct p; [|discriminate]. cbn. repeat split; auto. lia.
  - rewrite put_log_cons in E. cbn [fst] in E. assert (Ww := W (w, bs) (or_introl eq_refl)). assert (Cw := C (w, bs) (or_introl eq_refl)). destruct (R (w, bs) (or_introl eq_refl)) as [b Sb]. cbn [fst snd] in Ww, Cw, Sb.
    destruct fuel as [|fuel]; [lia|]. apply split_prefix in E as [P|[q [-> E]]].
    + destruct (next_taken w bs range tz b p Ww Cw Sb P) as [L|N].
      * right. exists [], ((w, bs) :: bl), p. repeat split; auto.
      * left. cbn [read_loop]. destruct (next range tz p) as [y|e|]; [now elim (N y)| |]; eexists; (split; [reflexivity|intros x; discriminate]).
    + destruct (IH) with (p := q) (r := r) (fuel := fuel) as [[o [He No]]|[b1 [b2 [q' [-> [-> L]]]]]]; auto.
      * intros x Hx; apply W; now right.
      * intros x Hx; apply C; now right.
      * intros x Hx; apply R; now right.
      * rewrite length_app_s in Fu. assert (H := block_len w). lia.
      * left. exists o. split; [|assumption]. cbn [read_loop]. rewrite (next_reads avro_schema avro_value batch parse_schema datum check_schema to_batch parquet local_to_utc w bs range tz b _ Ww Sb), He.
        destruct o as [x|e|]; [now elim (No x)|reflexivity|reflexivity].
      * right. exists ((w, bs) :: b1), b2, q'. repeat split; auto. rewrite put_log_cons. cbn [fst]. now rewrite app_assoc_s.
Qed.
Lemma taken_log : forall range tz bl p r, (forall x, In x bl -> wf x) -> (forall x, In x bl -> cut_detected (fst x) \/ cut_taken (fst x)) ->
  (forall x, In x bl -> exists b, says range tz (fst x) b) -> p ++ r = put_log (map fst bl) ->
  (forall out, read_all range tz p <> Ok out)
  \/ exists bl1 bl2 q kept, bl = (bl1 ++ bl2)%list /\ p = put_log (map fst bl1) ++ q /\ (String.length q < 6)%nat
       /\ selects (fun x => says range tz (fst x) true) bl1 kept /\ read_all range tz p = Ok (shown kept).
Proof.
  intros range tz bl p r W C R E. destruct (loop_taken range tz bl W C R p r (S (String.length p)) E ltac:(lia)) as [[o [He No]]|[b1 [b2 [q [-> [-> L]]]]]].
  - left. unfold read_all_blocks. rewrite He. exact No.
  - right. destruct (read_all_reads avro_schema avro_value batch parse_schema datum check_schema to_batch parquet local_to_utc range tz b1) as [kept [Sk L2]];
      [intros x Hx; apply W; apply in_or_app; now left|intros x Hx; apply R; apply in_or_app; now left|].
    exists b1, b2, q, kept. repeat split; auto.
Qed.
End Cut.
